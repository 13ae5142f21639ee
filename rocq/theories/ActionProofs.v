(* Specification and proofs about requests (C34). *)
From Verif Require Import Bytes FrameModel DpthModel RestoreModel AuthModel ActionModel.

(* ---------- Specification ---------- *)

(* When an action may be carried out. *)
Definition permitted (e : env) (p : perms) (d : did) : Prop :=
  match d with
  | Nothing => False
  | DidList _ _ | DidBrowse _ _ => can_list p = true
  | DidDiff _ _ => can_diff p = true
  | DidRestore _ _ _ => can_restore p = true \/ v_restore_file e = true
  | DidVerify _ _ _ => can_verify p = true
  | DidDelete _ => can_delete p = true /\ v_lock e = LGot /\ v_rubble e = RNone
  | DidBackup => v_lock e = LGot /\ v_rubble e = RNone /\ (v_max_parallel e = 0 \/ v_working e < v_max_parallel e)
  end.

(* How a request asks for an action. *)
Definition no_colon (s : bytes) : Prop := ~ In 58 s.
Definition arg (backup : bytes) (rest : option bytes) : bytes :=
  backup ++ match rest with Some r => 58 :: r | None => [] end.
Inductive asks : bytes -> did -> Prop :=
| ask_list : forall b r, no_colon b -> asks (str "list " ++ arg b r) (DidList b r)
| ask_browse : forall b r, no_colon b -> asks (str "listb " ++ arg b r) (DidBrowse b r)
| ask_diff : forall b r, no_colon b -> asks (str "diff " ++ arg b r) (DidDiff b r)
| ask_restore : forall b r, no_colon b -> starts_with b (str "restore_list ") = false -> r <> Some [] ->
    asks (str "restore " ++ arg b r) (DidRestore false b r)
| ask_restore_list : forall b r, no_colon b -> r <> Some [] ->
    asks (str "restore restore_list " ++ arg b r) (DidRestore true b r)
| ask_verify : forall b r, no_colon b -> starts_with b (str "restore_list ") = false -> r <> Some [] ->
    asks (str "verify " ++ arg b r) (DidVerify false b r)
| ask_verify_list : forall b r, no_colon b -> r <> Some [] ->
    asks (str "verify restore_list " ++ arg b r) (DidVerify true b r)
| ask_delete : forall b, asks (str "Delete " ++ b) (DidDelete b)
| ask_backup : forall x, asks (str "backup" ++ x) DidBackup.

(* ---------- Proofs ---------- *)

Lemma starts_with_spec : forall s p, starts_with p s = true <-> exists r, p = s ++ r.
Proof.
  induction s as [|c s IH]; intros p; cbn [starts_with app].
  - split; eauto.
  - destruct p as [|d p]; [split; [discriminate|intros (r & X); discriminate]|].
    rewrite andb_true_iff, IH, Z.eqb_eq. split.
    + intros (-> & r & ->). eauto.
    + intros (r & X). injection X as -> ->. eauto.
Qed.
Lemma starts_with_app : forall s r, starts_with (s ++ r) s = true.
Proof. intros. apply starts_with_spec. eauto. Qed.

Theorem only_permitted : forall e p q d, In (Do d) (run_action e p q) -> permitted e p d.
Proof.
  intros e p q d H. unfold run_action in H. destruct (negb (q_gen q)); [destruct H|].
  destruct (starts_with (q_text q) (str "list ") || starts_with (q_text q) (str "listb ")).
  { unfold run_list in H. destruct (can_list p) eqn:C; cbn [negb] in H; [|destruct H].
    destruct (v_write e); cbn [negb] in H; [|destruct H].
    destruct (starts_with (q_text q) (str "list ")), (split_colon (q_text q)) as [a b];
      destruct H as [H|[]]; injection H as <-; exact C. }
  destruct (starts_with (q_text q) (str "diff ")).
  { unfold run_diff in H. destruct (can_diff p) eqn:C; cbn [negb] in H; [|destruct H].
    destruct (v_write e); cbn [negb] in H; [|destruct H].
    destruct (split_colon (q_text q)) as [a b]; destruct H as [H|[]]; injection H as <-; exact C. }
  destruct (starts_with (q_text q) (str "delete ")); [destruct H|].
  destruct (starts_with (q_text q) (str "restore ") || starts_with (q_text q) (str "verify ")).
  { unfold run_restore in H. destruct (parse_restore_str (q_text q)) as [[[[verify input] backup] regex]|]; [|destruct H].
    apply in_app_or in H. destruct H as [H|H].
    - destruct (negb verify && v_restore_file e); [destruct H as [H|[]]; discriminate|destruct H].
    - destruct (if verify then can_verify p else v_restore_file e || can_restore p) eqn:A; cbn [negb] in H; [|destruct H].
      destruct (v_write e); cbn [negb] in H; [|destruct H]. destruct (input && negb (v_receive e)); [destruct H|].
      destruct H as [H|[]]. injection H as <-. destruct verify; cbn; auto.
      apply orb_true_iff in A. tauto. }
  destruct (negb (starts_with (q_text q) (str "backup")) && negb (starts_with (q_text q) (str "Delete "))); [destruct H|].
  destruct H as [H|H]; [discriminate|]. destruct (v_lock e) eqn:L; [|destruct H|destruct H].
  destruct H as [H|H]; [discriminate|]. destruct (v_rubble e) eqn:R; [|destruct H|destruct H].
  destruct (starts_with (q_text q) (str "Delete ")).
  { unfold run_delete in H. destruct (can_delete p) eqn:C; cbn [negb] in H; [|destruct H].
    destruct H as [H|[]]. injection H as <-. cbn. auto. }
  destruct (negb (v_max_parallel e =? 0) && (v_working e >=? v_max_parallel e)) eqn:M; [destruct H|].
  destruct H as [H|[]]. injection H as <-. cbn. split; auto. split; auto.
  apply andb_false_iff in M. destruct M as [M|M]; [left|right].
  - apply negb_false_iff, Z.eqb_eq in M. auto.
  - rewrite Z.geb_leb, Z.leb_gt in M. auto.
Qed.

(* A delete or a backup comes after taking the lock. *)
Theorem lock_first : forall e p q d, In (Do d) (run_action e p q) ->
  (exists b, d = DidDelete b) \/ d = DidBackup ->
  v_lock e = LGot /\ run_action e p q = [TryLock; CleanRubble; Do d].
Proof.
  intros e p q d H D. split.
  { apply only_permitted in H. destruct D as [(b & ->)| ->]; cbn in H; tauto. }
  unfold run_action in *. destruct (negb (q_gen q)); [destruct H|].
  destruct (starts_with (q_text q) (str "list ") || starts_with (q_text q) (str "listb ")).
  { exfalso. unfold run_list in H. destruct (can_list p) eqn:C; cbn [negb] in H; [|destruct H].
    destruct (v_write e); cbn [negb] in H; [|destruct H].
    destruct (starts_with (q_text q) (str "list ")), (split_colon (q_text q)) as [a b];
      destruct H as [H|[]]; injection H as <-; destruct D as [(b' & D)|D]; discriminate. }
  destruct (starts_with (q_text q) (str "diff ")).
  { exfalso. unfold run_diff in H. destruct (can_diff p) eqn:C; cbn [negb] in H; [|destruct H].
    destruct (v_write e); cbn [negb] in H; [|destruct H].
    destruct (split_colon (q_text q)) as [a b]; destruct H as [H|[]]; injection H as <-; destruct D as [(b' & D)|D]; discriminate. }
  destruct (starts_with (q_text q) (str "delete ")); [destruct H|].
  destruct (starts_with (q_text q) (str "restore ") || starts_with (q_text q) (str "verify ")).
  { exfalso. unfold run_restore in H. destruct (parse_restore_str (q_text q)) as [[[[verify input] backup] regex]|]; [|destruct H].
    apply in_app_or in H. destruct H as [H|H].
    - destruct (negb verify && v_restore_file e); [destruct H as [H|[]]; discriminate|destruct H].
    - destruct (if verify then can_verify p else v_restore_file e || can_restore p) eqn:A; cbn [negb] in H; [|destruct H].
      destruct (v_write e); cbn [negb] in H; [|destruct H]. destruct (input && negb (v_receive e)); [destruct H|].
      destruct H as [H|[]]. injection H as <-. destruct verify, D as [(b' & D)|D]; discriminate. }
  destruct (negb (starts_with (q_text q) (str "backup")) && negb (starts_with (q_text q) (str "Delete "))); [destruct H|].
  destruct H as [H|H]; [discriminate|]. destruct (v_lock e) eqn:L; [|destruct H|destruct H].
  destruct H as [H|H]; [discriminate|]. destruct (v_rubble e) eqn:R; [|destruct H|destruct H].
  destruct (starts_with (q_text q) (str "Delete ")).
  { unfold run_delete in *. destruct (can_delete p) eqn:C; cbn [negb] in *; [|destruct H].
    destruct H as [H|[]]. injection H as <-. auto. }
  destruct (negb (v_max_parallel e =? 0) && (v_working e >=? v_max_parallel e)) eqn:M; [destruct H|].
  destruct H as [H|[]]. injection H as <-. auto.
Qed.

(* Anything else has no effect at all. *)
Theorem unknown_nothing : forall e p q,
  (q_gen q = false \/
   forall w, In w ["list "; "listb "; "diff "; "restore "; "verify "; "backup"; "Delete "]%string -> starts_with (q_text q) (str w) = false) ->
  run_action e p q = [].
Proof.
  intros e p q [H|H]; unfold run_action; [rewrite H; auto|].
  destruct (negb (q_gen q)); auto.
  rewrite (H "list "%string), (H "listb "%string), (H "diff "%string), (H "restore "%string), (H "verify "%string),
    (H "backup"%string), (H "Delete "%string) by (cbn [In]; tauto).
  cbn [orb negb andb]. destruct (starts_with (q_text q) (str "delete ")); auto.
Qed.
Theorem old_delete_nothing : forall e p q, starts_with (q_text q) (str "delete ") = true -> run_action e p q = [].
Proof.
  intros e p q H. apply starts_with_spec in H. destruct H as (r & H). unfold run_action. rewrite H.
  destruct (negb (q_gen q)); reflexivity.
Qed.
(* Without permission nothing is done; a refused delete still takes the lock and
   cleans up leftovers. *)
Theorem refused_effects : forall e p q, (forall d, ~ In (Do d) (run_action e p q)) ->
  forall x, In x (run_action e p q) -> x = TryLock \/ x = CleanRubble \/ x = UnlinkRestoreFile.
Proof. intros e p q H x Hx. destruct x as [| | |d]; auto. exfalso. eapply H; eauto. Qed.

Lemma split_colon_arg : forall b r, no_colon b -> split_colon (arg b r) = (b, r).
Proof.
  induction b as [|c b IH]; intros r H; unfold arg in *; cbn [app split_colon].
  - destruct r; auto.
  - destruct (Z.eqb_spec c 58) as [->|]; [exfalso; apply H; left; auto|].
    rewrite IH; auto. intros X. apply H. right; auto.
Qed.
Lemma split_colon_pre : forall x s, no_colon x -> split_colon (x ++ s) = (x ++ fst (split_colon s), snd (split_colon s)).
Proof.
  induction x as [|c x IH]; intros s H; cbn [app split_colon]; [destruct (split_colon s); auto|].
  destruct (Z.eqb_spec c 58) as [->|]; [exfalso; apply H; left; auto|].
  rewrite IH; auto. intros X. apply H. right; auto.
Qed.
Lemma skipn_str : forall (x s : bytes), skipn (List.length x) (x ++ s) = s.
Proof. induction x; cbn; auto. Qed.

Lemma no_colonb : forall s, has_byte 58 s = false -> no_colon s.
Proof.
  intros s H X. unfold has_byte in H. rewrite <- not_true_iff_false in H. apply H. apply existsb_exists. exists 58. auto.
Qed.

Lemma starts_with_colon : forall w b r, no_colon w -> starts_with (b ++ 58 :: r) w = starts_with b w.
Proof.
  induction w as [|c w IH]; intros b r H; auto. destruct b as [|d b]; cbn [app starts_with].
  - destruct (Z.eqb_spec c 58) as [->|]; auto. exfalso. apply H. left; auto.
  - rewrite IH; auto. intros X. apply H. right; auto.
Qed.
Lemma starts_with_arg : forall w b r, no_colon w -> starts_with (arg b r) w = starts_with b w.
Proof. intros w b [r|] H; unfold arg; [apply starts_with_colon; auto|rewrite app_nil_r; auto]. Qed.

(* And what is permitted is done. *)
Theorem permitted_done : forall e p s d, asks s d -> permitted e p d -> v_write e = true -> v_receive e = true ->
  In (Do d) (run_action e p (mkreq true s)).
Proof.
  intros e p s d A P W R. unfold run_action. cbn [q_gen q_text negb].
  destruct A as [b r N|b r N|b r N|b r N S E|b r N E|b r N S E|b r N E|b|x]; cbn [permitted] in P.
  - change (starts_with (str "list " ++ arg b r) (str "list ")) with true. cbn [orb]. unfold run_list. rewrite P, W. cbn [negb].
    change (starts_with (str "list " ++ arg b r) (str "list ")) with true. cbv iota.
    rewrite split_colon_pre by (apply no_colonb; reflexivity). rewrite split_colon_arg by auto. cbn [fst snd]. left. reflexivity.
  - change (starts_with (str "listb " ++ arg b r) (str "list ")) with false.
    change (starts_with (str "listb " ++ arg b r) (str "listb ")) with true. cbn [orb]. unfold run_list. rewrite P, W. cbn [negb].
    change (starts_with (str "listb " ++ arg b r) (str "list ")) with false. cbv iota.
    rewrite split_colon_pre by (apply no_colonb; reflexivity). rewrite split_colon_arg by auto. cbn [fst snd]. left. reflexivity.
  - change (starts_with (str "diff " ++ arg b r) (str "list ")) with false.
    change (starts_with (str "diff " ++ arg b r) (str "listb ")) with false.
    change (starts_with (str "diff " ++ arg b r) (str "diff ")) with true. cbn [orb]. unfold run_diff. rewrite P, W. cbn [negb].
    rewrite split_colon_pre by (apply no_colonb; reflexivity). rewrite split_colon_arg by auto. cbn [fst snd]. left. reflexivity.
  - change (In (Do (DidRestore false b r)) (run_restore e p (str "restore " ++ arg b r))). unfold run_restore.
    assert (X : parse_restore_str (str "restore " ++ arg b r) = Some (false, false, b, r)).
    { unfold parse_restore_str. change (starts_with (str "restore " ++ arg b r) (str "restore ")) with true. cbn [orb].
      change (skipn 8 (str "restore " ++ arg b r)) with (arg b r).
      rewrite starts_with_arg, S by (apply no_colonb; reflexivity). rewrite split_colon_arg by auto. cbn [negb].
      destruct r as [[|]|]; auto. congruence. }
    rewrite X. cbn [negb andb]. rewrite W. apply in_or_app. right.
    replace (v_restore_file e || can_restore p) with true by (symmetry; apply orb_true_iff; tauto). left; auto.
  - change (In (Do (DidRestore true b r)) (run_restore e p (str "restore restore_list " ++ arg b r))). unfold run_restore.
    assert (X : parse_restore_str (str "restore restore_list " ++ arg b r) = Some (false, true, b, r)).
    { unfold parse_restore_str. change (starts_with (str "restore restore_list " ++ arg b r) (str "restore ")) with true. cbn [orb].
      change (skipn 8 (str "restore restore_list " ++ arg b r)) with (str "restore_list " ++ arg b r).
      change (starts_with (str "restore_list " ++ arg b r) (str "restore_list ")) with true. cbv iota.
      change (skipn 13 (str "restore_list " ++ arg b r)) with (arg b r). rewrite split_colon_arg by auto. cbn [negb].
      destruct r as [[|]|]; auto. congruence. }
    rewrite X. cbn [negb andb]. rewrite W, R. apply in_or_app. right.
    replace (v_restore_file e || can_restore p) with true by (symmetry; apply orb_true_iff; tauto). left; auto.
  - change (In (Do (DidVerify false b r)) (run_restore e p (str "verify " ++ arg b r))). unfold run_restore.
    assert (X : parse_restore_str (str "verify " ++ arg b r) = Some (true, false, b, r)).
    { unfold parse_restore_str. change (starts_with (str "verify " ++ arg b r) (str "restore ")) with false.
      change (starts_with (str "verify " ++ arg b r) (str "verify ")) with true. cbn [orb].
      change (skipn 7 (str "verify " ++ arg b r)) with (arg b r).
      rewrite starts_with_arg, S by (apply no_colonb; reflexivity). rewrite split_colon_arg by auto. cbn [negb].
      destruct r as [[|]|]; auto. congruence. }
    rewrite X. cbn [negb andb]. rewrite P, W. left; auto.
  - change (In (Do (DidVerify true b r)) (run_restore e p (str "verify restore_list " ++ arg b r))). unfold run_restore.
    assert (X : parse_restore_str (str "verify restore_list " ++ arg b r) = Some (true, true, b, r)).
    { unfold parse_restore_str. change (starts_with (str "verify restore_list " ++ arg b r) (str "restore ")) with false.
      change (starts_with (str "verify restore_list " ++ arg b r) (str "verify ")) with true. cbn [orb].
      change (skipn 7 (str "verify restore_list " ++ arg b r)) with (str "restore_list " ++ arg b r).
      change (starts_with (str "restore_list " ++ arg b r) (str "restore_list ")) with true. cbv iota.
      change (skipn 13 (str "restore_list " ++ arg b r)) with (arg b r). rewrite split_colon_arg by auto. cbn [negb].
      destruct r as [[|]|]; auto. congruence. }
    rewrite X. cbn [negb andb]. rewrite P, W, R. left; auto.
  - destruct P as (C & L & U). rewrite L, U. unfold run_delete. rewrite C. right. right. left. reflexivity.
  - destruct P as (L & U & M). rewrite L, U. right. right.
    change (starts_with (str "backup" ++ x) (str "Delete ")) with false. cbv iota.
    replace (negb (v_max_parallel e =? 0) && (v_working e >=? v_max_parallel e)) with false; [left; auto|].
    symmetry. apply andb_false_iff. destruct M as [->|M]; [left; auto|right]. rewrite Z.geb_leb. apply Z.leb_gt. auto.
Qed.
