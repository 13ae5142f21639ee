(* What the server makes of the requests of the client. *)
From Verif Require Import Bytes DpthModel RestoreModel AuthModel ActionModel LstModel.

(* What somebody asks for on the command line. *)
Inductive wish :=
| WList (act : lact) (backup regex : option bytes)
| WBrowse (act : lact) (backup : option bytes) (dir : bytes)
| WDiff (act : lact) (backup1 backup2 : option bytes)
| WRestore (verify rlist : bool) (backup regex : option bytes)
| WDelete (backup : option bytes).

Definition lists (a : lact) : Prop := a = AList \/ a = ALong \/ a = AParse.
Definition diffs (a : lact) : Prop := a = ADiff \/ a = ADiffLong.
Definition wish_ok (w : wish) : Prop :=
  match w with WList a _ _ | WBrowse a _ _ => lists a | WDiff a _ _ => diffs a | _ => True end.

(* The request that is sent. *)
Definition ask (w : wish) : option bytes :=
  match w with
  | WList a b r => list_request a b None None r
  | WBrowse a b d => list_request a b None (Some d) None
  | WDiff a b b2 => list_request a b b2 None None
  | WRestore v l b r => Some (restore_request v l b r)
  | WDelete b => Some (delete_request b)
  end.

(* What is to be done then.  What is not given is empty. *)
Definition ne (s : bytes) : option bytes := match s with [] => None | _ => Some s end.
Definition meant (w : wish) : did :=
  match w with
  | WList _ b r => DidList (or_empty b) (Some (or_empty r))
  | WBrowse _ b d => DidBrowse (or_empty b) (Some d)
  | WDiff _ b b2 => DidDiff (or_empty b) (Some (or_empty b2))
  | WRestore false l b r => DidRestore l (or_empty b) (ne (or_empty r))
  | WRestore true l b r => DidVerify l (or_empty b) (ne (or_empty r))
  | WDelete b => DidDelete (or_empty b)
  end.

Definition backup_of (w : wish) : bytes :=
  match w with WList _ b _ | WBrowse _ b _ | WDiff _ b _ | WRestore _ _ b _ | WDelete b => or_empty b end.
Definition rest_of (w : wish) : bytes :=
  match w with
  | WList _ _ r | WRestore _ _ _ r => or_empty r | WBrowse _ _ d => d | WDiff _ _ b2 => or_empty b2 | WDelete _ => []
  end.

(* No ':' in the name of the backup (deleting aside), a name that is not taken
   for something else, and not too long. *)
Definition plain (w : wish) : Prop :=
  match w with
  | WDelete b => (List.length (or_empty b) <= 120)%nat
  | _ => ~ In 58 (backup_of w) /\ (List.length (backup_of w) + List.length (rest_of w) <= 489)%nat /\
         (forall v b r, w = WRestore v false b r -> forall x, or_empty b ++ 58 :: or_empty r <> str "restore_list " ++ x)
  end.

(* The server grants it: it may be done, nothing goes wrong. *)
Definition grants (e : env) (p : perms) : Prop :=
  can_list p = true /\ can_diff p = true /\ can_verify p = true /\ can_restore p = true /\ can_delete p = true /\
  v_write e = true /\ v_receive e = true /\ v_lock e = LGot /\ v_rubble e = RNone.

Definition done (l : list effect) : list did :=
  flat_map (fun x => match x with Do d => [d] | _ => [] end) l.

Lemma split_plain : forall a b, ~ In 58 a -> split_colon (a ++ 58 :: b) = (a, Some b).
Proof.
  induction a as [|c a IH]; intros b H; cbn [app split_colon]; [reflexivity|].
  destruct (Z.eqb_spec c 58) as [->|N]; [exfalso; apply H; left; reflexivity|].
  rewrite IH; [reflexivity|]. intros I. apply H. right. exact I.
Qed.

Lemma starts_app : forall s x, starts_with (s ++ x) s = true.
Proof. induction s as [|c s IH]; intros x; cbn; [reflexivity|]. rewrite Z.eqb_refl. apply IH. Qed.

Lemma starts_inv : forall s t, starts_with t s = true -> exists x, t = s ++ x.
Proof.
  induction s as [|c s IH]; intros t H; cbn in *; [eauto|].
  destruct t as [|d t]; [discriminate|]. apply andb_true_iff in H. destruct H as [E H]. apply Z.eqb_eq in E. subst.
  destruct (IH t H) as (x & ->). eauto.
Qed.

Lemma msg512_id : forall s, (List.length s <= 511)%nat -> msg512 s = s.
Proof. intros s H. unfold msg512. apply firstn_all2. exact H. Qed.

Theorem understood : forall w e p q, wish_ok w -> plain w -> grants e p -> ask w = Some q ->
  done (run_action e p (mkreq true q)) = [meant w].
Proof.
  intros w e p q OK P (G1 & G2 & G3 & G4 & G5 & G6 & G7 & G8 & G9) Q.
  destruct w as [a b r|a b d|a b b2|v l b r|b]; cbn [wish_ok ask plain backup_of rest_of] in *.
  - assert (Q' : q = msg512 (str "list " ++ or_empty b ++ 58 :: or_empty r)).
    { destruct OK as [->|[->| ->]]; cbn [list_request] in Q; congruence. }
    destruct P as (NC & L & _). rewrite msg512_id in Q'.
    2:{ change (str "list ") with [108; 105; 115; 116; 32]. cbn [app List.length]. rewrite app_length. cbn [List.length]. lia. }
    subst q. unfold run_action. cbn [q_gen q_text negb].
    rewrite starts_app. cbn [orb]. unfold run_list. rewrite G1, G6. cbn [negb]. rewrite starts_app.
    rewrite app_assoc, split_plain.
    2:{ intros I. apply in_app_iff in I. destruct I as [I|I]; [|exact (NC I)].
        revert I. change (str "list ") with [108; 105; 115; 116; 32]. cbn. lia. }
    reflexivity.
  - assert (Q' : q = msg512 (str "listb " ++ or_empty b ++ 58 :: d)).
    { destruct OK as [->|[->| ->]]; cbn [list_request] in Q; congruence. }
    destruct P as (NC & L & _). rewrite msg512_id in Q'.
    2:{ change (str "listb ") with [108; 105; 115; 116; 98; 32]. cbn [app List.length]. rewrite app_length. cbn [List.length]. lia. }
    subst q. unfold run_action. cbn [q_gen q_text negb].
    rewrite (starts_app (str "listb ")). rewrite orb_true_r. unfold run_list. rewrite G1, G6. cbn [negb].
    assert (starts_with (str "listb " ++ or_empty b ++ 58 :: d) (str "list ") = false) as -> by reflexivity.
    rewrite app_assoc, split_plain.
    2:{ intros I. apply in_app_iff in I. destruct I as [I|I]; [|exact (NC I)].
        revert I. change (str "listb ") with [108; 105; 115; 116; 98; 32]. cbn. lia. }
    reflexivity.
  - assert (Q' : q = msg512 (str "diff " ++ or_empty b ++ 58 :: or_empty b2)).
    { destruct OK as [->| ->]; cbn [list_request] in Q; congruence. }
    destruct P as (NC & L & _). rewrite msg512_id in Q'.
    2:{ change (str "diff ") with [100; 105; 102; 102; 32]. cbn [app List.length]. rewrite app_length. cbn [List.length]. lia. }
    subst q. unfold run_action. cbn [q_gen q_text negb].
    assert (starts_with (str "diff " ++ or_empty b ++ 58 :: or_empty b2) (str "list ") = false) as -> by reflexivity.
    assert (starts_with (str "diff " ++ or_empty b ++ 58 :: or_empty b2) (str "listb ") = false) as -> by reflexivity.
    cbn [orb]. rewrite starts_app. unfold run_diff. rewrite G2, G6. cbn [negb].
    rewrite app_assoc, split_plain.
    2:{ intros I. apply in_app_iff in I. destruct I as [I|I]; [|exact (NC I)].
        revert I. change (str "diff ") with [100; 105; 102; 102; 32]. cbn. lia. }
    reflexivity.
  - destruct P as (NC & L & NL). injection Q as Q. unfold restore_request in Q. rewrite msg512_id in Q.
    2:{ rewrite !app_length. cbn [List.length]. rewrite app_length. cbn [List.length].
        assert (List.length (if v then str "verify" else str "restore") <= 7)%nat by (destruct v; cbn; lia).
        assert (List.length (if l then str " restore_list" else []) <= 13)%nat by (destruct l; cbn; lia). lia. }
    set (body := or_empty b ++ 58 :: or_empty r) in *.
    assert (SC : split_colon body = (or_empty b, Some (or_empty r))) by (apply split_plain; exact NC).
    assert (RL : l = false -> starts_with body (str "restore_list ") = false).
    { intros ->. destruct (starts_with body (str "restore_list ")) eqn:E; [|reflexivity].
      apply starts_inv in E. destruct E as (x & E). exfalso. exact (NL v b r eq_refl x E). }
    assert (PR : parse_restore_str q = Some (v, l, or_empty b, ne (or_empty r))).
    { subst q. destruct v, l.
      - change (str "verify" ++ str " restore_list" ++ 32 :: body) with (str "verify restore_list " ++ body).
        unfold parse_restore_str. cbn -[split_colon body]. rewrite SC. destruct (or_empty r); reflexivity.
      - change (str "verify" ++ [] ++ 32 :: body) with (str "verify " ++ body).
        unfold parse_restore_str. assert (starts_with (str "verify " ++ body) (str "restore ") = false) as -> by reflexivity.
        rewrite (starts_app (str "verify ") body). cbn [orb]. change (skipn 7 (str "verify " ++ body)) with body.
        rewrite RL by reflexivity. rewrite SC. destruct (or_empty r); reflexivity.
      - change (str "restore" ++ str " restore_list" ++ 32 :: body) with (str "restore restore_list " ++ body).
        unfold parse_restore_str. cbn -[split_colon body]. rewrite SC. destruct (or_empty r); reflexivity.
      - change (str "restore" ++ [] ++ 32 :: body) with (str "restore " ++ body).
        unfold parse_restore_str.
        rewrite (starts_app (str "restore ") body). cbn [orb]. change (skipn 8 (str "restore " ++ body)) with body.
        rewrite RL by reflexivity. rewrite SC. destruct (or_empty r); reflexivity. }
    assert (RA : run_action e p (mkreq true q) = run_restore e p q).
    { subst q. destruct v, l; reflexivity. }
    rewrite RA. unfold run_restore. rewrite PR. destruct v.
    + cbn [negb andb]. rewrite G3, G6, G7. cbn [negb andb]. rewrite andb_false_r. reflexivity.
    + cbn [negb andb]. rewrite G4, G6, G7, orb_true_r. cbn [negb andb]. rewrite andb_false_r.
      destruct (v_restore_file e); reflexivity.
  - injection Q as Q. unfold delete_request in Q. rewrite firstn_all2 in Q.
    2:{ rewrite app_length. change (List.length (str "Delete ")) with 7%nat. lia. }
    subst q. unfold run_action. cbn [q_gen q_text negb].
    assert (S1 : forall x, starts_with (str "Delete " ++ x) (str "list ") = false) by reflexivity.
    assert (S2 : forall x, starts_with (str "Delete " ++ x) (str "listb ") = false) by reflexivity.
    assert (S3 : forall x, starts_with (str "Delete " ++ x) (str "diff ") = false) by reflexivity.
    assert (S4 : forall x, starts_with (str "Delete " ++ x) (str "delete ") = false) by reflexivity.
    assert (S5 : forall x, starts_with (str "Delete " ++ x) (str "restore ") = false) by reflexivity.
    assert (S6 : forall x, starts_with (str "Delete " ++ x) (str "verify ") = false) by reflexivity.
    rewrite S1, S2, S3, S4, S5, S6. cbn [orb]. rewrite (starts_app (str "Delete ")). rewrite andb_false_r.
    rewrite G8, G9. unfold run_delete. rewrite G5. reflexivity.
Qed.

(* strip_trailing_slashes() *)
Lemma strip_rev_spec : forall s,
  (exists k t, s = repeat 47 k ++ t /\ hd0 t <> 47 /\ t <> [] /\ strip_rev s = t) \/
  (exists k, s = repeat 47 (S k) /\ strip_rev s = [47]) \/ (s = [] /\ strip_rev s = []).
Proof.
  induction s as [|c s IH]; [auto|]. destruct s as [|d s].
  - cbn [strip_rev]. destruct (Z.eq_dec c 47) as [->|N].
    + right. left. exists 0%nat. auto.
    + left. exists 0%nat, [c]. cbn. repeat split; auto. discriminate.
  - change (strip_rev (c :: d :: s)) with (if c =? 47 then strip_rev (d :: s) else c :: d :: s).
    destruct (Z.eqb_spec c 47) as [->|N].
    + destruct IH as [(k & t & E & H & Nt & R)|[(k & E & R)|[E _]]]; [| |discriminate].
      * left. exists (S k), t. split; [cbn [repeat app]; rewrite <- E; reflexivity|]. auto.
      * right. left. exists (S k). split; [cbn [repeat]; cbn [repeat] in E; rewrite <- E; reflexivity|exact R].
    + left. exists 0%nat, (c :: d :: s). cbn. repeat split; auto. discriminate.
Qed.

Theorem strip_spec : forall s,
  (exists t k, s = t ++ repeat 47 k /\ t <> [] /\ last t 0 <> 47 /\ strip_slashes s = t) \/
  (exists k, s = repeat 47 (S k) /\ strip_slashes s = [47]) \/ (s = [] /\ strip_slashes s = []).
Proof.
  assert (RR : forall k, rev (repeat 47 k) = repeat 47 k).
  { induction k; [reflexivity|]. cbn [repeat rev]. rewrite IHk. symmetry. apply repeat_cons. }
  intros s. unfold strip_slashes. destruct (strip_rev_spec (rev s)) as [(k & t & E & H & N & R)|[(k & E & R)|[E R]]].
  - left. exists (rev t), k. rewrite R. assert (X : s = rev (repeat 47 k ++ t)) by (rewrite <- E, rev_involutive; reflexivity).
    rewrite X, rev_app_distr, RR. repeat split; auto.
    + intros Z. apply (f_equal (@rev _)) in Z. rewrite rev_involutive in Z. cbn in Z. congruence.
    + destruct t as [|c t]; [congruence|]. cbn [rev]. rewrite last_last. exact H.
  - right. left. exists k. rewrite R. split; [|reflexivity]. rewrite <- (rev_involutive s), E, RR. reflexivity.
  - right. right. rewrite R. split; [|reflexivity]. rewrite <- (rev_involutive s), E. reflexivity.
Qed.
