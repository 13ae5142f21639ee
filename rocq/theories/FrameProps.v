(* Properties C08, C09: framing of manifest files. *)
From Verif Require Import Bytes CmdModel FrameModel FrameProofs.

(* Any sequence of messages is read back exactly, whatever short reads the
   file layer makes; with read errors a prefix is delivered and the end is
   clean only if everything was delivered. *)
Theorem C08_framing_roundtrip : forall l o fuel, Forall okmsg l -> (List.length l < fuel)%nat ->
  exists w, write_all l = (w, true) /\
   (noerr o -> read_all fuel 1 (mkf w o) = (l, Clean)) /\
   (exists j e, read_all fuel 1 (mkf w o) = (firstn j l, e) /\ e <> OutOfFuel /\ (e = Clean -> firstn j l = l)).
Proof. exact framing_roundtrip. Qed.
Print Assumptions C08_framing_roundtrip.

Theorem C08_long_rejected : forall c b, 65535 < Z.of_nat (List.length b) < 2 ^ 32 -> snd (send_msg c b) = false.
Proof. exact send_msg_long. Qed.
Print Assumptions C08_long_rejected.

Example C08_witness :
  let l := [(CMD_FILE, str "/a"); (CMD_GEN, []); (CMD_APPEND, [0; 10; 255; 102])] in
  Forall okmsg l /\ noerr [RdShort 0; RdShort 2; RdShort 0] /\
  write_all l = (str "f0002/a" ++ [10] ++ str "c0000" ++ [10] ++ str "a0004" ++ [0; 10; 255; 102; 10], true) /\
  read_all 10 1 (mkf (fst (write_all l)) [RdShort 0; RdShort 2; RdShort 0]) = (l, Clean) /\
  read_all 10 1 (mkf (fst (write_all l)) [RdShort 9; RdShort 9; RdErr]) = (firstn 1 l, Broken).
Proof.
  cbv zeta. split; [|split; [|split; [|split]]]; try (vm_compute; reflexivity).
  - repeat constructor; simpl; unfold is_char, CMD_FILE, CMD_GEN, CMD_APPEND; try lia.
  - repeat constructor; discriminate.
Qed.

(* The full claim of C09 is false: a file cut right after a message header is
   reported as a clean end although it is not cut on a message boundary. *)
Theorem C09_truncation_refuted : exists l k, Forall okmsg l /\ (k <= List.length (file_of l))%nat /\
  (forall i, k <> List.length (file_of (firstn i l))) /\
  read_all 10 1 (mkf (firstn k (file_of l)) []) = ([(CMD_FILE, str "/a")], Clean).
Proof. exact truncation_refuted. Qed.
Print Assumptions C09_truncation_refuted.

(* Everything else of C09 holds: every cut position gives the longest prefix
   of whole messages, a clean end only on a boundary or exactly five bytes
   after one, and always a clean end on a boundary.  Missing: an error for the
   cut five bytes after a boundary. *)
Theorem C09_truncation_partial : forall l k o fuel, Forall okmsg l -> (List.length l < fuel)%nat ->
  (k <= List.length (file_of l))%nat ->
  exists j e, read_all fuel 1 (mkf (firstn k (file_of l)) o) = (firstn j l, e) /\ e <> OutOfFuel /\
    (e = Clean -> k = List.length (file_of (firstn j l)) \/ k = (List.length (file_of (firstn j l)) + 5)%nat) /\
    (noerr o -> (exists i, k = List.length (file_of (firstn i l))) -> e = Clean) /\
    (noerr o -> (List.length (file_of (firstn j l)) <= k)%nat /\
                ((j < List.length l)%nat -> (k < List.length (file_of (firstn (S j) l)))%nat)).
Proof. exact truncation_exact. Qed.
Print Assumptions C09_truncation_partial.

Theorem C09_file_of_is_written : forall l, Forall okmsg l -> write_all l = (file_of l, true).
Proof. exact write_all_ok. Qed.
Print Assumptions C09_file_of_is_written.

Example C09_witness :
  let l := [(CMD_FILE, str "/a"); (CMD_FILE, str "/b")] in
  Forall okmsg l /\ List.length (file_of l) = 16%nat /\
  map (fun k => snd (read_all 10 1 (mkf (firstn k (file_of l)) []))) (seq 0 17) =
  [Clean; Broken; Broken; Broken; Broken; Clean; Broken; Broken;
   Clean; Broken; Broken; Broken; Broken; Clean; Broken; Broken; Clean].
Proof.
  cbv zeta. split; [|split; vm_compute; reflexivity].
  repeat constructor; simpl; unfold is_char, CMD_FILE; try lia.
Qed.
