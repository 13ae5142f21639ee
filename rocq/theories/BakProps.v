(* C133 and C134: what a client has on the server at any time, wherever connections
   stopped, and what its requests for a backup come to. *)
From Verif Require Import Bytes RestoreModel BuModel CntrModel CntrProofs BakModel BakProofs.

(* ---- C133 ---- *)
(* After any connections, each stopped anywhere: the current backup and all others that
   are listed have been through all phases, the current one is the newest of them, there
   is one as soon as any is listed, and it is not the one being worked on. *)
Theorem C133_current : forall s, reachable s ->
  (forall n, current s = Some n -> complete s n) /\ (forall n, listed s n -> complete s n) /\
  (forall n m, current s = Some n -> listed s m -> m <= n) /\
  (current s = None -> forall n, ~ listed s n) /\
  (forall n, ~ (hidden s n /\ current s = Some n)).
Proof. exact always_complete. Qed.
(* Nothing that the client sent is missing from them, if no connection stopped in one of
   two moments *)
Theorem C133_whole_partial : forall h s, s = history h empty_store -> calm h empty_store ->
  (forall n, current s = Some n -> whole s n) /\ (forall n, listed s n -> whole s n).
Proof. exact calm_whole. Qed.
(* ... but if one did, connections that nobody disturbs make a backup that is not whole *)
Theorem C133_whole_refuted : exists h s, s = history h empty_store /\ current s = Some 1 /\ complete s 1 /\ ~ whole s 1 /\ listed s 1 /\
  h = [(usual, 8%nat, false); (usual, 100%nat, false); (usual, 100%nat, false)].
Proof.
  exists cut_merge, (history cut_merge empty_store). split; [reflexivity|]. split; [vm_compute; reflexivity|].
  split; [exists false; vm_compute; reflexivity|]. split; [vm_compute; discriminate|]. split; [|reflexivity].
  split; [vm_compute; discriminate|]. intros [H|H]; vm_compute in H; discriminate.
Qed.
Theorem C133_delete_refuted : exists s, s = history cut_delete empty_store /\ current s = Some 1 /\ ~ whole s 1 /\ listed s 1.
Proof.
  eexists. split; [reflexivity|]. split; [vm_compute; reflexivity|]. split; [vm_compute; discriminate|].
  split; [vm_compute; discriminate|]. intros [H|H]; vm_compute in H; discriminate.
Qed.
(* The current backup is never replaced by an older one *)
Theorem C133_forward : forall h g n, current (history h empty_store) = Some n ->
  exists m, current (history (h ++ g) empty_store) = Some m /\ n <= m.
Proof. exact never_back. Qed.
(* A complete backup stays as it is, unless it is one to be pruned and this connection has
   made a newer one the current one *)
Theorem C133_kept : forall s c k b n w, reachable s -> stage_of n (dirs s) = Some (Complete w) ->
  let s' := connection c k b s in
  stage_of n (dirs s') = Some (Complete w) \/
  ((exists d, c_prune c d n = true) /\ exists m, current s' = Some m /\ complete s' m /\ (forall a, current s = Some a -> a < m)).
Proof. exact kept. Qed.
(* A connection that nothing stops ends with a newer current backup and nothing left over *)
Theorem C133_success : forall s c k b, reachable s -> ready c s -> (List.length (plan c s) <= k)%nat ->
  let s' := connection c k b s in
  working s' = None /\ finishing s' = None /\ exists n, current s' = Some n /\ complete s' n /\ (forall m, listed s m -> m < n).
Proof. exact success. Qed.
(* Whatever earlier ones left behind, the second such connection at the latest does *)
Theorem C133_two : forall s c1 k1 b1 c2 k2 b2, reachable s -> c_refuse c1 = false -> c_refuse c2 = false ->
  (List.length (plan c1 s) <= k1)%nat -> let s1 := connection c1 k1 b1 s in (List.length (plan c2 s1) <= k2)%nat ->
  let s2 := connection c2 k2 b2 s1 in
  exists n, current s2 = Some n /\ complete s2 n /\ (forall m, listed s m -> m < n).
Proof. exact two. Qed.
(* When the client is told that the backup has ended, the server has all of it *)
Theorem C133_told_partial : forall h c k, calm h empty_store -> let s := history h empty_store in
  nth_error (plan c s) k = Some (OTell WEnd) ->
  exists n, working (steps (firstn k (plan c s)) s) = Some n /\ stage_of n (dirs (steps (firstn k (plan c s)) s)) = Some (Received true).
Proof. exact told_whole. Qed.
(* ... but it may be deleted afterwards by a connection that would have resumed anything
   else, *)
Theorem C133_told_refuted : exists s k s1 s2, reachable s /\ s1 = connection usual k false s /\
  In (OTell WEnd) (firstn k (plan usual s)) /\ stage_of 1 (dirs s1) = Some (Merged true) /\
  s2 = connection usual 2 false s1 /\ stage_of 1 (dirs s2) = None /\ current s2 = None.
Proof.
  exists empty_store, 9%nat, (connection usual 9 false empty_store), (connection usual 2 false (connection usual 9 false empty_store)).
  split; [exists []; reflexivity|]. split; [reflexivity|]. split; [vm_compute; tauto|]. split; [vm_compute; reflexivity|].
  split; [reflexivity|]. split; vm_compute; reflexivity.
Qed.
(* ... and a backup is completed of which the client is not told that it has ended *)
Theorem C133_untold_refuted : exists s c, reachable s /\ In (OTell WResume) (plan c s) /\ In OToCurrent (plan c s) /\ ~ In (OTell WEnd) (plan c s).
Proof.
  exists (connection usual 6 false empty_store), usual. split; [exists [(usual, 6%nat, false)]; reflexivity|].
  split; [vm_compute; tauto|]. split; [vm_compute; tauto|]. vm_compute. intuition discriminate.
Qed.

(* Two backups; a third is cut off while data comes in and resumed, and the first is pruned *)
Definition prune_first : cfg := mkcfg false false (fun _ m => m =? 1) RNothing.
Definition h3 : list (cfg * nat * bool) :=
  [(usual, 100%nat, false); (usual, 100%nat, false); (usual, 4%nat, false); (prune_first, 100%nat, false)].
Example C133_witness :
  let s := history h3 empty_store in
  calm h3 empty_store /\ current s = Some 3 /\ working s = None /\ finishing s = None /\
  listed s 2 /\ ~ listed s 1 /\ whole s 2 /\ whole s 3 /\
  (let m := history (firstn 3 h3) empty_store in
   current m = Some 2 /\ hidden m 3 /\ whole m 1 /\ ready prune_first m /\ (List.length (plan prune_first m) <= 100)%nat /\
   c_prune prune_first [] 1 = true) /\
  nth_error (plan usual empty_store) 5 = Some (OTell WEnd) /\
  (* a dangling link: the first connection after it does nothing else *)
  (let d := connection usual 2 false empty_store in
   working d = Some 1 /\ plan usual d = [OUnlink] /\ current (history [(usual, 1%nat, false); (usual, 100%nat, false)] d) = Some 1).
Proof.
  vm_compute. repeat split; try reflexivity; try discriminate; try tauto; try (intros [[n H]|[n H]]; discriminate);
    try (intros [H|H]; discriminate); try (intros [H _]; apply H; reflexivity); try (left; reflexivity); try lia;
    try (repeat constructor).
Qed.

(* ---- C134 ---- *)
(* A backup is made exactly if the client is the original one and, for a timed request,
   the timer says so and it was not only asked; for another one, forced backups are
   allowed; and seeding is for the first backup only *)
Theorem C134_goes_on : forall q n, (snd (fst (run_backup_start q)) = Some n <-> allowed q /\ n = get_new_bno (q_list q)) /\
  (snd (fst (run_backup_start q)) = Some n -> fst (fst (run_backup_start q)) = AGen (okstr (q_resume q) (q_compression q))).
Proof. exact goes_on. Qed.
(* The client goes on exactly if the server does, and both the same way *)
Theorem C134_agree : forall q before a o t, is_int (q_compression q) -> run_backup_start q = (AGen a, o, t) ->
  (o <> None <-> exists r z, check_answer before a = CBackup r z) /\
  (o <> None -> check_answer before a = CBackup (q_resume q) (q_compression q)).
Proof. exact agree. Qed.
(* A failure to list the backups does not stop it: the number is then the largest there is *)
Theorem C134_number_refuted : exists q, allowed q /\ q_list q = None /\ snd (fst (run_backup_start q)) = Some (2 ^ 64 - 1).
Proof.
  exists (mkreq false (str "backupphase1") 0 true None false false 9). split; [|split; vm_compute; reflexivity].
  unfold allowed, timed. split; [reflexivity|]. split; [vm_compute; discriminate|]. split; [reflexivity|discriminate].
Qed.
(* Who is notified of a backup that was made or tried *)
Theorem C134_notified_partial : forall q d ql l wo co w c, allowed q ->
  backup_note q d ql l wo co w c =
  if negb (d =? 0) then (if ql && l then None else Some NFailure)
  else if (wo && (0 <? w)) || (co && (0 <? c)) || (negb wo && negb co) then Some NSuccess else None.
Proof. exact notified. Qed.
(* Nobody hears of a timed request that is not due *)
Theorem C134_not_due : forall q d ql l wo co w c, q_super q = false -> timed q -> 0 < q_timer q -> backup_note q d ql l wo co w c = None.
Proof. exact not_due. Qed.
(* But a success is notified of backups that were refused, or only asked about *)
Theorem C134_notified_refuted : exists q1 q2 q3,
  (q_super q1 = true /\ ~ allowed q1 /\ backup_note q1 0 false false false false 0 0 = Some NSuccess) /\
  (q_force q2 = false /\ ~ allowed q2 /\ backup_note q2 0 false false false false 0 0 = Some NSuccess) /\
  (only_check q3 /\ ~ allowed q3 /\ backup_note q3 0 false false false false 0 0 = Some NSuccess).
Proof.
  exists (mkreq true (str "backupphase1") 0 true (Some 1) false false 9), (mkreq false (str "backupphase1") 0 false (Some 1) false false 9),
    (mkreq false (str "backupphase1timedcheck") 0 true (Some 1) false false 9).
  split; [|split]; (split; [vm_compute; reflexivity|]); (split; [|vm_compute; reflexivity]); unfold allowed, timed, only_check.
  - intros [H _]. discriminate.
  - intros [_ [_ [H _]]]. assert (X : false = true) by (apply H; vm_compute; discriminate). discriminate.
  - intros [_ [H _]]. destruct (H eq_refl) as [_ X]. apply X. vm_compute. reflexivity.
Qed.

Example C134_witness :
  let q := mkreq false (str "backupphase1timed") 0 false (Some 41) false true (-1) in
  allowed q /\ run_backup_start q = (AGen (str "resume:-1"), Some 42, 0) /\
  check_answer 5 (str "resume:-1") = CBackup true (-1) /\ is_int (q_compression q) /\
  run_backup_start (mkreq false (str "backupphase1timed") 1 true (Some 41) false true 9) = (AGen (str "timer conditions not met"), None, 1) /\
  check_answer 5 (str "timer conditions not met") = CNotMet /\ check_answer 5 (str "Forced backup is not allowed") = CError /\
  check_answer 5 (str "ok") = CBackup false 5 /\
  fst (run_backup_start (mkreq false (str "backupphase1") 0 true (Some 1) true false 9)) =
    (AErr (str "When seeding, there must be no previous backups for this client" ++ [10]), None) /\
  backup_note q 0 false false true false 0 7 = None /\ backup_note q (-1) true true true false 0 7 = None /\
  backup_note q (-1) true false true true 0 7 = Some NFailure.
Proof.
  cbv zeta. split; [|vm_compute; repeat split; try reflexivity; discriminate].
  unfold allowed, timed, only_check. split; [reflexivity|]. split; [intros _; split; [reflexivity|vm_compute; discriminate]|].
  split; [intros H; destruct H; vm_compute; reflexivity|discriminate].
Qed.

Print Assumptions C133_current.
Print Assumptions C133_whole_partial.
Print Assumptions C133_whole_refuted.
Print Assumptions C133_delete_refuted.
Print Assumptions C133_forward.
Print Assumptions C133_kept.
Print Assumptions C133_success.
Print Assumptions C133_two.
Print Assumptions C133_told_partial.
Print Assumptions C133_told_refuted.
Print Assumptions C133_untold_refuted.
Print Assumptions C134_goes_on.
Print Assumptions C134_agree.
Print Assumptions C134_number_refuted.
Print Assumptions C134_notified_partial.
Print Assumptions C134_not_due.
Print Assumptions C134_notified_refuted.
