(* Specification and proofs about lock files (C28). *)
From Verif Require Import Bytes LockModel.

(* ---------- Specification ---------- *)

(* A process holds the lock between lock_get() giving GET_LOCK_GOT and its call
   of lock_release(). *)
Definition holding (st : lstate) (p : Z) : Prop := exists i, l_proc st p = Holds i.
Definition mutual_exclusion (st : lstate) : Prop := forall p q, holding st p -> holding st q -> p = q.

(* No lock is released while another process is between its open() and its
   lockf(). *)
Fixpoint calm (st : lstate) (es : list levent) : Prop :=
  match es with
  | [] => True
  | e :: r =>
      (forall p, e = EUnlink p -> forall q i, l_proc st q <> Opened i) /\
      match lstep st e with Some st' => calm st' r | None => True end
  end.

(* ---------- Proofs ---------- *)

Lemma upd_same : forall (A : Type) (f : Z -> A) k v, upd f k v k = v.
Proof. intros. unfold upd. rewrite Z.eqb_refl. auto. Qed.
Lemma upd_other : forall (A : Type) (f : Z -> A) k v x, x <> k -> upd f k v x = f x.
Proof. intros. unfold upd. apply Z.eqb_neq in H. rewrite H. auto. Qed.

Definition locks (s : pstate) : option Z :=
  match s with Holds i | Stuck i | Releasing i | TestLocked i => Some i | _ => None end.

(* The kernel's table agrees with the processes. *)
Definition table_ok (st : lstate) : Prop := forall p i, locks (l_proc st p) = Some i <-> l_owner st i = Some p.

Lemma drop_lock_spec : forall st p i j q, l_owner st i <> Some p \/ True ->
  drop_lock st p i j = Some q <-> l_owner st j = Some q /\ ~ (j = i /\ q = p).
Proof.
  intros st p i j q _. unfold drop_lock.
  destruct (l_owner st i) as [r|] eqn:E.
  - destruct (Z.eqb_spec r p) as [->|N].
    + destruct (Z.eq_dec j i) as [->|Nj].
      * rewrite upd_same. rewrite E. split; [discriminate|]. intros (H & X). injection H as <-. tauto.
      * rewrite upd_other by auto. tauto.
    + split; [|tauto]. intros H. split; auto. intros (-> & ->). congruence.
  - split; [|tauto]. intros H. split; auto. intros (-> & ->). congruence.
Qed.

Ltac proc_case x p := destruct (Z.eq_dec x p) as [->|]; [rewrite ?upd_same|rewrite ?upd_other by auto].

Lemma table_step : forall st e st', table_ok st -> lstep st e = Some st' -> table_ok st'.
Proof.
  unfold table_ok. intros st e st' T H.
  assert (Same : forall p s, locks s = None -> locks (l_proc st p) = None ->
     table_ok (mkl (l_path st') (l_next st') (l_owner st) (upd (l_proc st) p s))).
  { intros p s L1 L2 q i. cbn [l_proc l_owner]. rewrite <- T. proc_case q p; [|tauto]. rewrite L1, L2. tauto. }
  assert (Take : forall p i s, locks s = Some i -> locks (l_proc st p) = None -> free_for st p i = true ->
     table_ok (mkl (l_path st') (l_next st') (upd (l_owner st) i (Some p)) (upd (l_proc st) p s))).
  { intros p i s L1 L2 F q j. cbn [l_proc l_owner]. unfold free_for in F.
    assert (N : l_owner st i = None).
    { destruct (l_owner st i) as [r|] eqn:E; auto. apply Z.eqb_eq in F. subst r. apply T in E. congruence. }
    proc_case q p.
    - rewrite L1. destruct (Z.eq_dec j i) as [->|Nj]; [rewrite upd_same; tauto|]. rewrite upd_other by auto. rewrite <- T, L2.
      split; [congruence|discriminate].
    - destruct (Z.eq_dec j i) as [->|Nj]; [rewrite upd_same|rewrite upd_other by auto; apply T].
      rewrite T, N. split; [discriminate|congruence]. }
  assert (Drop : forall p i, inode_of (l_proc st p) = Some i ->
     table_ok (mkl (l_path st') (l_next st') (drop_lock st p i) (upd (l_proc st) p Idle))).
  { intros p i L q j. cbn [l_proc l_owner]. rewrite drop_lock_spec by auto. rewrite <- T. proc_case q p; [|tauto].
    cbn [locks]. split; [discriminate|]. intros (H1 & H2). exfalso. apply H2. split; auto.
    destruct (l_proc st p); cbn in *; congruence. }
  destruct e; cbn [lstep] in H.
  - destruct (l_proc st p) eqn:E; try discriminate; destruct (l_path st) eqn:E2; injection H as <-;
      apply (Same p); auto; rewrite E; auto.
  - destruct (l_proc st p) eqn:E; try discriminate. destruct (free_for st p i) eqn:F; injection H as <-.
    + apply (Take p i); auto; [destruct pid_ok; auto|rewrite E; auto].
    + apply (Same p); auto. rewrite E; auto.
  - destruct (l_proc st p) eqn:E; try discriminate. injection H as <-.
    intros q j. cbn [l_proc l_owner]. rewrite <- T. proc_case q p; [|tauto]. rewrite E. cbn. tauto.
  - destruct (l_proc st p) eqn:E; try discriminate. injection H as <-. apply (Drop p i). rewrite E; auto.
  - destruct (l_proc st p) eqn:E; try discriminate. destruct (l_path st) eqn:E2; injection H as <-; auto.
    apply (Same p); auto. rewrite E; auto.
  - destruct (l_proc st p) eqn:E; try discriminate. destruct (free_for st p i) eqn:F; injection H as <-.
    + apply (Take p i); auto. rewrite E; auto.
    + apply (Same p); auto. rewrite E; auto.
  - destruct (l_proc st p) eqn:E; try discriminate. injection H as <-. apply (Drop p i). rewrite E; auto.
  - destruct (inode_of (l_proc st p)) eqn:E; injection H as <-; auto. apply (Drop p z). auto.
Qed.
Lemma table_init : forall b, table_ok (linit b).
Proof. intros b p i. cbn. split; discriminate. Qed.
Lemma table_run : forall es st st', table_ok st -> lrun st es = Some st' -> table_ok st'.
Proof.
  induction es as [|e es IH]; intros st st' T H; cbn in H; [injection H as <-; auto|].
  destruct (lstep st e) eqn:E; [|discriminate]. apply (IH l); auto. eapply table_step; eauto.
Qed.

(* In every execution: two holders never share a file. *)
Theorem one_holder_per_file : forall b es st p q i, lrun (linit b) es = Some st ->
  l_proc st p = Holds i -> l_proc st q = Holds i -> p = q.
Proof.
  intros b es st p q i H Hp Hq. pose proof (table_run _ _ _ (table_init b) H) as T.
  assert (l_owner st i = Some p) by (apply T; rewrite Hp; auto).
  assert (l_owner st i = Some q) by (apply T; rewrite Hq; auto). congruence.
Qed.

Definition calm_inv (st : lstate) : Prop :=
  (forall p i, l_proc st p = Holds i -> l_path st = Some i) /\
  (forall p i, l_proc st p = Opened i -> l_path st = Some i).

Lemma calm_step : forall st e st', table_ok st -> calm_inv st ->
  (forall p, e = EUnlink p -> forall q i, l_proc st q <> Opened i) -> lstep st e = Some st' -> calm_inv st'.
Proof.
  intros st e st' T (H1 & H2) C H.
  assert (Set_ : forall p s o, (forall i, s <> Holds i) -> (forall i, s <> Opened i) ->
     calm_inv (mkl (l_path st) (l_next st) o (upd (l_proc st) p s))).
  { intros p s o N1 N2. split; intros q i; cbn [l_proc l_path]; proc_case q p; intros X; eauto; exfalso; [apply (N1 i)|apply (N2 i)]; auto. }
  destruct e; cbn [lstep] in H.
  - destruct (l_path st) as [j|] eqn:E2; destruct (l_proc st p) eqn:E; try discriminate; injection H as <-;
      (split; intros q k; cbn [l_proc l_path]; proc_case q p; intros X; try congruence; try (injection X as <-; auto);
       try (apply H1 in X; congruence); try (apply H2 in X; congruence)).
  - destruct (l_proc st p) eqn:E; try discriminate. destruct (free_for st p i) eqn:F; injection H as <-.
    + split; intros q k; cbn [l_proc l_path]; proc_case q p; intros X; eauto; destruct pid_ok; try discriminate.
      injection X as <-. eauto.
    + apply Set_; congruence.
  - destruct (l_proc st p) eqn:E; try discriminate. injection H as <-.
    split; intros q k; cbn [l_proc l_path]; proc_case q p; intros X; try discriminate.
    + exfalso. pose proof (H1 _ _ X). pose proof (H1 _ _ E). assert (k = i) by congruence. subst k.
      apply n. assert (l_owner st i = Some q) by (apply T; rewrite X; auto). assert (l_owner st i = Some p) by (apply T; rewrite E; auto). congruence.
    + exfalso. eapply C; eauto.
  - destruct (l_proc st p) eqn:E; try discriminate. injection H as <-. apply Set_; congruence.
  - destruct (l_proc st p) eqn:E; try discriminate. destruct (l_path st) eqn:E2; injection H as <-.
    + apply Set_; congruence.
    + split; intros; rewrite E2; eauto.
  - destruct (l_proc st p) eqn:E; try discriminate. destruct (free_for st p i) eqn:F; injection H as <-; apply Set_; congruence.
  - destruct (l_proc st p) eqn:E; try discriminate. injection H as <-. apply Set_; congruence.
  - destruct (inode_of (l_proc st p)) eqn:E; injection H as <-; [apply Set_; congruence|split; auto].
Qed.
Lemma calm_run : forall es st st', table_ok st -> calm_inv st -> calm st es -> lrun st es = Some st' -> calm_inv st'.
Proof.
  induction es as [|e es IH]; intros st st' T I C H; cbn in H; [injection H as <-; auto|].
  destruct (lstep st e) eqn:E; [|discriminate]. cbn [calm] in C. destruct C as (C1 & C2). rewrite E in C2.
  eapply (IH l); eauto. eapply table_step; eauto. eapply calm_step; eauto.
Qed.
Theorem calm_exclusion : forall b es st, calm (linit b) es -> lrun (linit b) es = Some st -> mutual_exclusion st.
Proof.
  intros b es st C H p q (i & Hp) (j & Hq).
  assert (I : calm_inv st).
  { eapply calm_run; eauto; [apply table_init|]. split; intros p' i' X; discriminate. }
  destruct I as (I1 & _). pose proof (I1 _ _ Hp). pose proof (I1 _ _ Hq). assert (i = j) by congruence. subst j.
  eapply one_holder_per_file; eauto.
Qed.

(* Executions in which locks only go with their process are calm. *)
Lemma no_release_calm : forall es st, (forall p, ~ In (EUnlink p) es) -> calm st es.
Proof.
  induction es as [|e es IH]; intros st H; cbn; auto. split.
  - intros p ->. exfalso. apply (H p). left; auto.
  - destruct (lstep st e); auto. apply IH. intros p Hp. apply (H p). right; auto.
Qed.

(* A process that opened the file before it was removed locks the removed file;
   another one creates a new file and locks that. *)
Definition race : list levent :=
  [EOpen 1; ETry 1 true; EOpen 2; EUnlink 1; EClose 1; ETry 2 true; EOpen 3; ETry 3 true].
Theorem exclusion_refuted : exists es st p q, lrun (linit false) es = Some st /\ holding st p /\ holding st q /\ p <> q.
Proof.
  exists race. destruct (lrun (linit false) race) as [st|] eqn:E; [|vm_compute in E; discriminate].
  exists st, 2, 3. vm_compute in E. injection E as <-. split; auto.
  repeat split; [eexists; reflexivity|eexists; reflexivity|lia].
Qed.
