(* C20 to C23. *)
From Coq Require Import Sorted.
From Verif Require Import Bytes BuModel DeleteModel BuProofs DeleteProofs.

(* C20: a pass deletes only the oldest or the newer neighbour of a hard-linked
   backup. *)
Theorem C20_only_deletable : forall ks l ds e, keeps_ok ks -> ascending l ->
  do_delete_backups ks (setup_indices l) = Some ds -> In e ds -> In (e_bu e) l /\ deletable l (e_bu e).
Proof. exact pass_deletable. Qed.
(* Wherever automatic deletion stops, a remaining backup still has everything it
   needs. *)
Theorem C20_auto_safe : forall ks l l', keeps_ok ks -> del_run ks l l' -> ascending l ->
  forall a b, In a l' -> needs l a b -> needs l' a b.
Proof. exact run_needs. Qed.
Theorem C20_manual_answer : forall backup l,
  match do_delete_server backup l with
  | DelDone e => deletable l (e_bu e) /\ In e (setup_indices l) /\ e_del e = true /\
      (b_timestamp (e_bu e) = backup \/ b_bno (e_bu e) = strtoul10 backup)
  | DelNotDeletable => exists b, In b l /\ (b_timestamp b = backup \/ b_bno b = strtoul10 backup)
  | DelNotFound => forall b, In b l -> b_timestamp b <> backup /\ b_bno b <> strtoul10 backup
  | DelNothing => backup = []
  end.
Proof. exact manual_spec. Qed.
Theorem C20_manual_safe : forall backup l e, ascending l -> do_delete_server backup l = DelDone e ->
  forall a b, In a (left_after (setup_indices l) [e]) -> needs l a b -> needs (left_after (setup_indices l) [e]) a b.
Proof. exact manual_needs. Qed.

(* C21.  The full statement, for all ascending lists, is refuted: numbers may
   have gaps after a manual deletion.  It holds without gaps, and for backups
   of age at most the first keep value; the newest is always kept. *)
Theorem C21_newest_kept_refuted : exists ks l l' b, keeps_ok ks /\ ascending l /\ delete_backups 5 ks l = Some l' /\
  among_newest (hd 1 ks) l b /\ ~ In b l'.
Proof. exact newest_kept_refuted. Qed.
Theorem C21_newest_kept_partial : forall ks l l' b, keeps_ok ks -> del_run ks l l' -> ascending l -> no_gaps l ->
  among_newest (hd 1 ks) l b -> In b l'.
Proof. exact newest_kept. Qed.
Theorem C21_young_kept_partial : forall ks l l', keeps_ok ks -> del_run ks l l' -> ascending l ->
  forall b, In b l -> age l b <= hd 1 ks \/ age l b = 1 -> In b l'.
Proof. exact run_young. Qed.

(* C22: each window that holds a backup still does, wherever deletion stops. *)
Theorem C22_window_kept : forall ks l l', keeps_ok ks -> del_run ks l l' -> ascending l ->
  forall s r, window 1 ks s r -> (exists b, In b l /\ s < age l b <= r) -> exists b, In b l' /\ s < age l b <= r.
Proof. exact run_window. Qed.
Theorem C22_subset : forall ks l l', del_run ks l l' -> incl l' l.
Proof. exact run_incl. Qed.
Theorem C22_terminates : forall fuel ks l, keeps_ok ks -> ascending l -> (List.length l < fuel)%nat ->
  exists l', delete_backups fuel ks l = Some l' /\ del_run ks l l' /\ do_delete_backups ks (setup_indices l') = Some [].
Proof. exact passes_terminate. Qed.
Theorem C22_final_state : forall ks l, keeps_ok ks -> ascending l -> do_delete_backups ks (setup_indices l) = Some [] ->
  (forall b, In b l -> age l b <= product ks) /\
  (forall s r a b, window 1 ks s r -> In a l -> In b l -> a <> b -> s < age l a <= r -> s < age l b < r -> ~ deletable l b).
Proof. exact final_state. Qed.
Theorem C22_windows_disjoint : forall ks m s r s' r' t, 0 < m -> Forall (fun k => 0 < k) ks -> window m ks s r -> window m ks s' r' ->
  s < t <= r -> s' < t <= r' -> s = s' /\ r = r'.
Proof. exact window_disjoint. Qed.

(* C23. *)
Theorem C23_keep_accepted : forall l ks, finalise_keep_args l = Some ks <->
  Forall (fun p => 0 < atoi p) l /\ product (map atoi l) <= 52560000 /\ ks = bumped (map atoi l).
Proof. exact keep_accepted. Qed.
Theorem C23_keep_ok : forall l ks, finalise_keep_args l = Some ks ->
  keeps_ok ks /\ List.length ks = List.length l /\ hd 1 ks >= hd 1 (map atoi l).
Proof. exact keep_ok. Qed.

(* Twelve backups, every fifth hard-linked, with keep = 3 and 2. *)
Definition ex_bu (n : Z) : bu := mkbu (fmt_07u n) (fmt_07u n ++ str " t") n (n mod 5 =? 3).
Definition ex_bus : list bu := map ex_bu [1; 2; 3; 4; 5; 6; 7; 8; 9; 10; 11; 12].
Example ex_keep : finalise_keep_args [str "3"; str "2"] = Some [3; 3] /\
  finalise_keep_args [str "3"; str "0"] = None /\ finalise_keep_args [str "-3"] = None /\
  finalise_keep_args [str "100000"; str "1000"] = None /\
  (* Only the low 32 bits of a value count. *)
  finalise_keep_args [str "4294967297"] = Some [1].
Proof. vm_compute. auto. Qed.
Example ex_ascending : ascending ex_bus.
Proof.
  split; cbn [map ex_bus]; repeat apply SSorted_cons; try apply SSorted_nil; repeat apply Forall_cons; try apply Forall_nil;
    cbn [b_bno ex_bu]; lia.
Qed.
Example ex_keeps_ok : keeps_ok [3; 3].
Proof. apply (C23_keep_ok [str "3"; str "2"]). apply ex_keep. Qed.
Example ex_no_gaps : no_gaps ex_bus.
Proof.
  intros x a b y H. unfold ex_bus in H. cbn [map] in H.
  do 11 (destruct x as [|? x]; cbn [app] in H; [injection H as <- <- _; reflexivity|injection H as _ H]).
  destruct x as [|? x]; cbn [app] in H; [discriminate|]. injection H as _ H. destruct x; discriminate.
Qed.
Example ex_windows : window 1 [3; 3] 3 6 /\ window 1 [3; 3] 6 9.
Proof. split; left; [exists 2|exists 3]; lia. Qed.
(* Ages 12, 11 and 10 go as the oldest; then 4 (number 9, after hard-linked
   number 8) goes from (3,6], and everything else is needed. *)
Example ex_deleted : option_map (map b_bno) (delete_backups 20 [3; 3] ex_bus) = Some [4; 5; 6; 7; 8; 10; 11; 12].
Proof. vm_compute. reflexivity. Qed.
Example ex_needs : needs ex_bus (ex_bu 5) (ex_bu 8) /\ ~ deletable ex_bus (ex_bu 8).
Proof.
  split.
  - exists (map ex_bu [1; 2; 3; 4]), (map ex_bu [6; 7]), (map ex_bu [9; 10; 11; 12]). split; [reflexivity|].
    repeat (apply Forall_cons; [reflexivity|]). apply Forall_nil.
  - intros (x & y & E & D).
    assert (X : x = map ex_bu [1; 2; 3; 4; 5; 6; 7] /\ y = map ex_bu [9; 10; 11; 12]).
    { apply (NoDup_split _ x y _ _ (ex_bu 8)); [|rewrite <- E; reflexivity].
      rewrite <- E. apply ascending_NoDup. apply ex_ascending. }
    destruct X as (-> & _). destruct D as [D|(x' & a & D & Ha)]; [discriminate|].
    change (map ex_bu [1; 2; 3; 4; 5; 6; 7]) with (map ex_bu [1; 2; 3; 4; 5; 6] ++ [ex_bu 7]) in D.
    apply app_inj_tail in D. destruct D as (_ & <-). discriminate.
Qed.
Example ex_manual : (exists e, do_delete_server (str "9") ex_bus = DelDone e /\ b_bno (e_bu e) = 9) /\
  do_delete_server (str "0000008 t") ex_bus = DelNotDeletable /\ do_delete_server (str "99") ex_bus = DelNotFound.
Proof. split; [eexists; split; reflexivity|split; reflexivity]. Qed.

Print Assumptions C20_only_deletable.
Print Assumptions C20_auto_safe.
Print Assumptions C20_manual_answer.
Print Assumptions C20_manual_safe.
Print Assumptions C21_newest_kept_refuted.
Print Assumptions C21_newest_kept_partial.
Print Assumptions C21_young_kept_partial.
Print Assumptions C22_window_kept.
Print Assumptions C22_subset.
Print Assumptions C22_terminates.
Print Assumptions C22_final_state.
Print Assumptions C22_windows_disjoint.
Print Assumptions C23_keep_accepted.
Print Assumptions C23_keep_ok.
