(* Properties C06, C07. *)
From Verif Require Import Bytes AttribsModel AttribsProofs.

Theorem C06_base64_roundtrip : forall v, int64_min < v <= int64_max ->
  exists s, to_base64 v = Some s /\ (1 <= List.length s <= 12)%nat /\ cstr s /\ ~ In 32 s /\
    (forall rest, stops rest -> from_base64 (s ++ rest) = Some (v, List.length s)) /\
    (forall rest, stops rest -> from_base64 (32 :: s ++ rest) = Some (v, S (List.length s))).
Proof. exact base64_roundtrip. Qed.
Print Assumptions C06_base64_roundtrip.

(* The one 64-bit value left out cannot be negated in C. *)
Theorem C06_min_undefined : to_base64 int64_min = None.
Proof. exact base64_min_undefined. Qed.
Print Assumptions C06_min_undefined.

Example C06_witness :
  to_base64 1000000 = Some (str "D0JA") /\ from_base64 (str "D0JA xyz") = Some (1000000, 4%nat) /\
  to_base64 (-65) = Some (str "-BB") /\ to_base64 0 = Some (str "A") /\
  option_map (@List.length Z) (to_base64 (-int64_max)) = Some 12%nat.
Proof. repeat split; vm_compute; reflexivity. Qed.

Theorem C07_attribs_roundtrip : forall a old, attrs_ok a ->
  exists s, attribs_encode a = Some s /\ cstr s /\
    Z.of_nat (List.length s) + 1 <= attr_buf_size /\
    attribs_decode s old = Some a.
Proof. exact attribs_roundtrip. Qed.
Print Assumptions C07_attribs_roundtrip.

Example C07_witness :
  let a := mkattrs 64769 131074 33188 1 1000 1000 0 5000000000 4096 8 1600000000 (-5) 1600000001
                   (2^64 - 1) (-1) 2 (2^63 + 5) 0 in
  attrs_ok a /\
  attribs_encode a = Some (str "P0B gAC IGk B Po Po A EqBfIA BAA I BfXhAA -F BfXhAB A -B -B C -H/////////7 B").
Proof.
  cbv zeta. split; [|vm_compute; reflexivity].
  unfold attrs_ok, u64, i64, u32, i32. cbn. lia.
Qed.
