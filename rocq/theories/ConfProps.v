(* C50, C52, C53: configuration lines.  Non-vacuity and assumptions. *)
From Verif Require Import Bytes FrameModel BuModel AuthModel ConfModel BuProofs ConfProofs.

Theorem C50_quoted_roundtrip : forall lead f sp1 sp2 q v tail, blank lead -> name_ok f ->
  Forall (fun c => space_or_colon c = true) sp1 -> blank sp2 -> q = 39 \/ q = 34 -> v <> [] ->
  conf_get_pair (lead ++ f ++ sp1 ++ 61 :: sp2 ++ quoted q v ++ tail) = PPair f v (has_byte 58 sp1).
Proof. exact quoted_roundtrip. Qed.
Print Assumptions C50_quoted_roundtrip.
(* password := 'it\'s \\' # secret *)
Example C50_witness :
  let f := str "password" in let v := str "it's \" in
  blank (str " ") /\ name_ok f /\ Forall (fun c => space_or_colon c = true) (str " :") /\ v <> [] /\
  str " password := 'it\'s \\' # secret" = str " " ++ f ++ str " :" ++ 61 :: str " " ++ quoted 39 v ++ str " # secret" /\
  conf_get_pair (str " password := 'it\'s \\' # secret") = PPair f v true.
Proof.
  cbv zeta. split; [apply Forall_cons; [reflexivity|apply Forall_nil]|]. split.
  { split; [discriminate|]. split; [apply cstrb_ok; reflexivity|]. split; [intros X; cbn in X; decompose [or] X; try discriminate; auto|].
    split; [discriminate|]. split; reflexivity. }
  split; [apply Forall_cons; [reflexivity|apply Forall_cons; [reflexivity|apply Forall_nil]]|].
  split; [discriminate|]. split; reflexivity.
Qed.

Theorem C52_lines_in_bounds_partial : forall line, cstr line ->
  conf_get_pair line = POut <->
  exists name value, split_eq (skip_ws line) = Some (name, value) /\ hd0 (skip_ws line) <> 35 /\
    (Forall (fun c => space_or_colon c = true) name \/ dangling (value_of line)).
Proof. exact out_exact. Qed.
Print Assumptions C52_lines_in_bounds_partial.
Theorem C52_lines_refuted : exists l1 l2, cstr l1 /\ cstr l2 /\ conf_get_pair l1 = POut /\ conf_get_pair l2 = POut.
Proof. exact out_refuted. Qed.
Print Assumptions C52_lines_refuted.
Example C52_witness : conf_get_pair (str "a = 'x\'") <> POut /\ conf_get_pair (str "a = b\") = PPair (str "a") (str "b\") false.
Proof. split; [discriminate|reflexivity]. Qed.

Theorem C53_file_size_partial : forall ds s k, ds <> [] -> Forall (fun c => 48 <= c <= 57) ds -> suffix s = Some k ->
  val ds 0 * k < 2 ^ 64 -> get_file_size (ds ++ s) = Some (val ds 0 * k).
Proof. exact size_exact. Qed.
Print Assumptions C53_file_size_partial.
Theorem C53_file_size_refuted : exists s, get_file_size s = Some 0 /\ s = str "17179869184gb".
Proof. exact size_refuted. Qed.
Print Assumptions C53_file_size_refuted.
Example C53_witness : suffix (str "Mb") = Some 1048576 /\ get_file_size (str "100Mb") = Some 104857600.
Proof. split; reflexivity. Qed.

Theorem C53_compression_exact : forall v n, 0 <= n -> get_compression v = n <->
  exists pre d, In pre [[]; str "gzip"; str "zlib"] /\ 48 <= d <= 57 /\ v = pre ++ [d] /\ n = d - 48.
Proof. exact compression_exact. Qed.
Print Assumptions C53_compression_exact.
Example C53_witness_compression : get_compression (str "gzip5") = 5 /\ get_compression (str "gzip10") = -1.
Proof. split; reflexivity. Qed.
