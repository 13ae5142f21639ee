(* Properties C14, C15: storage paths. *)
From Verif Require Import Bytes CmdModel FrameModel FrameProofs DpthModel DpthProofs.

(* The first path handed out is greater than, and differs from, every numbered
   data file in the storage directory. *)
Theorem C14_init_fresh : forall ls files m d, listed ls files -> dpth_init ls m = Some d ->
  okd d /\ Forall (fun f => let '(a, b, c, z) := f in
     trip_lt (a, b, c) (trip d) /\
     forall y k, dpth_mk d y k <> four a ++ [slash] ++ four b ++ [slash] ++ four c ++ gz z) files.
Proof. exact init_fresh. Qed.
Print Assumptions C14_init_fresh.

(* Distinct counters never share a name, compressed or not. *)
Theorem C14_names_injective : forall d d' z z' k k', okd d -> okd d' ->
  dpth_mk d z k = dpth_mk d' z' k' -> trip d = trip d'.
Proof. exact dpth_mk_inj. Qed.
Print Assumptions C14_names_injective.

(* Until exhaustion, the paths handed out stand for strictly increasing
   counters, so no two are equal. *)
Theorem C14_hand_out_increasing : forall fs d, okd d -> steps_ok (pred (List.length fs)) d ->
  exists ts, Forall2 stands (fst (hand_out d fs)) ts /\
    match ts with [] => fs = [] | t :: r => t = trip d /\ increasing t r end.
Proof. exact hand_out_increasing. Qed.
Print Assumptions C14_hand_out_increasing.

Theorem C14_hand_out_distinct : forall fs d, okd d -> steps_ok (pred (List.length fs)) d ->
  NoDup (fst (hand_out d fs)).
Proof. exact hand_out_distinct. Qed.
Print Assumptions C14_hand_out_distinct.

(* Exhaustion comes only after all (max+1)*(max+1)*65536 paths. *)
Theorem C14_capacity : forall n d, okd d -> c0 d <= u16 (subdirs d) -> c1 d <= u16 (subdirs d) ->
  (steps_ok n d <-> Z.of_nat n <= total (subdirs d) - 1 - pos d).
Proof. exact steps_ok_count. Qed.
Print Assumptions C14_capacity.

(* After resuming, the next path is beyond every path already recorded. *)
Theorem C14_resume_fresh : forall ps d d', okd d -> Forall seen ps -> resume_paths d ps = Some d' ->
  okd d' /\ trip_lt (trip d) (trip d') /\
  forall a b c z, is_u16 a -> is_u16 b -> is_u16 c -> In (Some (pathstr (a, b, c, z))) ps -> trip_lt (a, b, c) (trip d').
Proof. exact resume_fresh. Qed.
Print Assumptions C14_resume_fresh.

Definition ls_example (p : bytes) : list bytes :=
  if beqb p [] then [str "."; str ".."; str "0000"; str "0001"; str "t"]
  else if beqb p (str "0000") then [str "0000"; str "FFFF"]
  else if beqb p (str "0001") then [str "0000"; str "0002"]
  else if beqb p (str "0001/0002") then [str "00FE"; str "0010.gz"]
  else if beqb p (str "0000/FFFF") then [str "FFFF.gz"]
  else [].
Example C14_witness :
  listed ls_example [(1, 2, 254, false); (1, 2, 16, true); (0, 65535, 65535, true)] /\
  dpth_init ls_example 30000 = Some (mkdpth 1 2 255 30000) /\
  fst (hand_out (mkdpth 1 2 65535 30000) [(5, CMD_FILE); (0, CMD_FILE); (5, CMD_EFS_FILE)])
    = [str "0001/0002/FFFF.gz"; str "0001/0003/0000"; str "0001/0003/0001"] /\
  resume_paths (mkdpth 1 2 255 30000) [None; Some (str "0001/0002/0103.gz"); Some (str "t/home/x"); Some (str "0001/0001/FFFF")]
    = Some (mkdpth 1 2 260 30000).
Proof.
  split; [|vm_compute; auto]. split.
  - intros p n H. unfold ls_example in H.
    repeat match type of H with In _ (if ?b then _ else _) => destruct b end; cbn [In] in H;
    repeat destruct H as [<-|H]; try contradiction; split; vm_compute; congruence.
  - apply Forall_forall. intros f H. cbn [In] in H.
    repeat destruct H as [<-|H]; try contradiction; repeat split; try (vm_compute; congruence); vm_compute; auto 10.
Qed.

(* C15: the counter reports exhaustion exactly ... *)
Theorem C15_exhaustion_partial : forall d, okd d -> (snd (dpth_incr d) = false <-> exhausted d).
Proof. exact incr_exact. Qed.
Print Assumptions C15_exhaustion_partial.

(* ... but phase 2 ignores the report: for every limit, with the counter at its
   last value, two more files are accepted and the second is written to
   0000/0000/0000. *)
Theorem C15_exhaustion_refuted : forall m z k, let d := mkdpth (u16 m) (u16 m) 65535 m in
  exhausted d /\ hand_out d [(z, k); (z, k)] =
    ([dpth_mk d z k; dpth_mk (mkdpth 0 0 0 m) z k], mkdpth 0 0 1 m).
Proof. exact exhaustion_ignored. Qed.
Print Assumptions C15_exhaustion_refuted.

Example C15_witness : snd (dpth_incr (mkdpth 30000 30000 65535 30000)) = false /\
  snd (dpth_incr (mkdpth 30000 29999 65535 30000)) = true.
Proof. vm_compute. auto. Qed.
