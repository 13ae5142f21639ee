(* C26: the links current, working and finishing after a stop at any moment. *)
From Verif Require Import Bytes LinksModel LinksProofs.

(* After any number of backups, deletions and recoveries, each stopped anywhere (but
   for deletions of the only backup, and of the newest during an unfinished backup,
   which run to the end): after the next two checks nothing is left over, current
   leads to the newest backup, and every backup that was finished and not deleted is
   there. *)
Theorem C26_recovers_partial : forall K s arch d arch' d', kept K s ->
  let s1 := endst (fst (check arch d s)) s in
  let s2 := endst (fst (check arch' d' s1)) s1 in
  settled s2 /\ forall k, K k -> listed s2 k = true.
Proof. exact two_checks. Qed.

(* One check is enough unless the log had been compressed already. *)
Theorem C26_recovers_at_once_partial : forall K s arch d, kept K s -> fin s = None \/ gz s = false ->
  settled (endst (fst (check arch d s)) s) /\ forall k, K k -> listed (endst (fst (check arch d s)) s) k = true.
Proof. exact one_check. Qed.

(* At every moment each of these backups is listed, but while one is being finished. *)
Theorem C26_never_lost_partial : forall K s k, kept K s -> K k -> listed s k = true \/ fin s <> None.
Proof. exact never_lost. Qed.

(* A deletion that runs to the end. *)
Theorem C26_deleted_partial : forall K s arch d s1 id p n, kept K s -> fin s = None -> snd (check arch d s) = true ->
  s1 = endst (fst (check arch d s)) s -> listed s1 id = true -> is_prev s1 id p -> is_next s1 id n ->
  let s2 := endst (fst (delete_backup id p n s1)) s1 in
  snd (delete_backup id p n s1) = true /\ settled s2 /\ listed s2 id = false /\
  (forall k, K k -> k <> id -> listed s2 k = true).
Proof. exact delete_done. Qed.

(* A backup that runs to the end becomes current. *)
Theorem C26_finished_partial : forall K s d arch s1 w, kept K s -> fin s = None -> snd (check arch d s) = true ->
  s1 = endst (fst (check arch d s)) s -> work s1 = Some w -> dirs s1 w = Some true ->
  let r := andthen start_finish (finish arch w) s1 in
  snd r = true /\ settled (endst (fst r) s1) /\ cur (endst (fst r) s1) = Some w /\
  (forall k, K k -> listed (endst (fst r) s1) k = true).
Proof. exact finish_done. Qed.

(* Stopped while deleting the only backup: no backup is ever listed again, whatever
   is done and wherever it is stopped. *)
Theorem C26_only_backup_refuted : exists K s s', kept K s /\ settled s /\ event True s s' /\
  forall s'', later True s' s'' -> ~ settled s'' /\ forall j, listed s'' j = false.
Proof. exact only_deleted. Qed.

(* Stopped while deleting the newest backup when there is an unfinished one: after
   that one has been resumed, nothing can be done any more. *)
Theorem C26_unfinished_refuted : exists K s s1 s2, kept K s /\ settled s /\ event True s s1 /\ event True s1 s2 /\
  listed s1 1 = true /\
  forall s3, later True s2 s3 -> fin s3 <> None /\ ~ settled s3.
Proof. exact newest_deleted. Qed.

(* Stopped a little sooner: current is right, but every later request is refused. *)
Theorem C26_dangling_refuted : exists K s s1 s2 s3, kept K s /\ settled s /\
  event True s s1 /\ event True s1 s2 /\ event True s2 s3 /\
  right_current s3 /\ listed s3 3 = true /\
  forall s4, later True s3 s4 -> s4 = s3 /\ forall arch d, snd (check arch d s4) = false.
Proof. exact tmp_dangles. Qed.

(* One check is not always enough. *)
Theorem C26_twice_refuted : exists K s, kept K s /\
  forall arch d, snd (check arch d s) = false /\ ~ settled (endst (fst (check arch d s)) s).
Proof. exact finish_twice. Qed.

Print Assumptions C26_recovers_partial.
Print Assumptions C26_recovers_at_once_partial.
Print Assumptions C26_never_lost_partial.
Print Assumptions C26_deleted_partial.
Print Assumptions C26_finished_partial.
Print Assumptions C26_only_backup_refuted.
Print Assumptions C26_unfinished_refuted.
Print Assumptions C26_dangling_refuted.
Print Assumptions C26_twice_refuted.

(* Two backups kept; three states of deleting the newer one, stopped, and what the
   next check makes of them. *)
Example ex_C26_kept : kept (fun k => (False \/ k = 1) \/ k = 2) two.
Proof. exact kept_two. Qed.
Example ex_C26_stopped : exists s, kept (fun k => ((False \/ k = 1) \/ k = 2) /\ k <> 2) s /\
  cur s = Some 2 /\ dirs s 2 = None /\ ctmp s = Some 1.
Proof.
  exists (s_dir 2 None (s_ctmp (Some 1) (s_ctmp None two))). split; [|auto].
  apply (k_delete _ two false WResume two 2 (Some 1) None); auto; try apply kept_two.
  - split; [auto|]. split; [lia|]. intros j. unfold listed. cbn. eqs j; cbn; try congruence; lia.
  - intros j. unfold listed. cbn. eqs j; cbn; try congruence; lia.
  - assert (X : nth_error (fst (delete_backup 2 (Some 1) None two)) 2 = Some (s_dir 2 None (s_ctmp (Some 1) (s_ctmp None two))))
      by (vm_compute; reflexivity). apply nth_error_In in X. exact X.
  - right. intros _. split; [discriminate|auto].
Qed.
Example ex_C26_check :
  let s := s_dir 2 None (s_ctmp (Some 1) (s_ctmp None two)) in
  let s1 := endst (fst (check false WResume s)) s in
  (cur s1, ctmp s1, listed s1 1, listed s1 2) = (Some 1, None, true, false).
Proof. vm_compute. reflexivity. Qed.
(* A third backup being finished, stopped when the old current has been moved aside. *)
Example ex_C26_finish :
  let s := s_log true false (s_dup false false (s_fin (work two_and) (s_work None two_and))) in
  let s1 := nth 4 (fst (finish false 3 s)) s in
  let s2 := endst (fst (check false WResume s1)) s1 in
  (cur s1, listed s1 2, dup s1, fin s1, (cur s2, fin s2, listed s2 1, listed s2 2, listed s2 3)) =
  (Some 2, false, true, Some 3, (Some 3, None, true, true, true)).
Proof. vm_compute. reflexivity. Qed.
