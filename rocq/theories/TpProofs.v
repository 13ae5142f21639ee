(* Where the server puts a new file: specification and proofs. *)
From Verif Require Import Bytes CmdModel AuthModel CntrModel FrameModel FrameProofs DpthModel DpthProofs TpModel.

(* ---- specification ---- *)
Definition no_slash (s : bytes) : Prop := ~ In slash s.
(* c is a name in p: between slashes, or at an end. *)
Definition name_in (p c : bytes) : Prop :=
  no_slash c /\ exists a b, p = a ++ c ++ b /\ (a = [] \/ exists a', a = a' ++ [slash]) /\ (b = [] \/ exists b', b = slash :: b').
(* ... and not at the beginning *)
Definition later_name (p c : bytes) : Prop :=
  no_slash c /\ exists a b, p = a ++ slash :: c ++ b /\ (b = [] \/ exists b', b = slash :: b').
Definition is_file (cmd : Z) : Prop := cmd = CMD_FILE \/ cmd = CMD_ENC_FILE \/ cmd = CMD_EFS_FILE.

(* ---- proofs ---- *)
Lemma cut_spec : forall s, no_slash (fst (cut s)) /\ s = match snd (cut s) with Some r => fst (cut s) ++ slash :: r | None => fst (cut s) end.
Proof.
  induction s as [|c s [IH1 IH2]]; cbn [cut]; [split; auto; intros []|]. destruct (c =? slash) eqn:E.
  - cbn. split; [intros []|]. f_equal. lia.
  - destruct (cut s) as [a [r|]]; cbn [fst snd] in *; (split; [intros [h|h]; [lia|auto]|]); cbn; f_equal; auto.
Qed.
Lemma split_unique : forall a a' x y, no_slash a -> no_slash a' -> a ++ slash :: x = a' ++ slash :: y -> a = a' /\ x = y.
Proof.
  induction a as [|c a IH]; intros [|c' a'] x y h h' e; cbn in e.
  - injection e as ->. auto.
  - injection e as <- _. exfalso. apply h'. cbn. auto.
  - injection e as -> _. exfalso. apply h. cbn. auto.
  - injection e as <- e. destruct (IH a' x y) as [-> ->]; auto; intros i; [apply h|apply h']; cbn; auto.
Qed.
Lemma no_split : forall a a' y, no_slash a -> a = a' ++ slash :: y -> False.
Proof. intros a a' y h ->. apply h. apply in_elt. Qed.
(* the names of what is after a slash *)
Definition front_name (s c : bytes) : Prop := no_slash c /\ exists b, s = c ++ b /\ (b = [] \/ exists b', b = slash :: b').
Lemma front_cut : forall s c, front_name s c <-> c = fst (cut s).
Proof.
  intros s c. destruct (cut_spec s) as [H1 H2]. split.
  - intros [n [b [e h]]]. destruct (snd (cut s)) as [r|] eqn:S.
    + destruct h as [->|[b' ->]].
      * rewrite app_nil_r in e. exfalso. apply (no_split c (fst (cut s)) r n). congruence.
      * destruct (split_unique c (fst (cut s)) b' r); auto. congruence.
    + destruct h as [->|[b' ->]]; [rewrite app_nil_r in e; congruence|]. exfalso. apply (no_split (fst (cut s)) c b' H1). congruence.
  - intros ->. split; auto. destruct (snd (cut s)) as [r|].
    + exists (slash :: r). split; eauto.
    + exists []. rewrite app_nil_r. auto.
Qed.
Lemma later_cut : forall s c, later_name s c <-> match snd (cut s) with Some r => front_name r c \/ later_name r c | None => False end.
Proof.
  intros s c. destruct (cut_spec s) as [H1 H2]. destruct (snd (cut s)) as [r|].
  - split.
    + intros [n [a [b [e h]]]].
      destruct (cut_spec a) as [A1 A2]. destruct (snd (cut a)) as [ra|].
      * right. split; auto. exists ra, b. split; auto. rewrite A2 in e. rewrite <- app_assoc in e. cbn in e. rewrite H2 in e. apply split_unique in e; tauto.
      * left. split; auto. exists b. split; auto. rewrite A2 in e. rewrite H2 in e. apply split_unique in e; tauto.
    + intros [[n [b [e h]]]|[n [a [b [e h]]]]]; split; auto.
      * exists (fst (cut s)), b. split; auto. rewrite H2 at 1. rewrite e. auto.
      * exists (fst (cut s) ++ slash :: a), b. split; auto. rewrite H2 at 1. rewrite e. rewrite <- app_assoc. auto.
  - split; [|tauto]. intros [n [a [b [e h]]]]. apply (no_split (fst (cut s)) a (c ++ b) H1). congruence.
Qed.
Lemma names_spec : forall fuel m s, (List.length s < fuel)%nat ->
  names_loop fuel m s = false <-> forall c, front_name s c \/ later_name s c -> zlen c <= m.
Proof.
  induction fuel as [|fuel IH]; intros m s h; [lia|]. cbn [names_loop].
  pose proof (cut_spec s) as [H1 H2]. pose proof (front_cut s) as FC. pose proof (later_cut s) as LC.
  destruct (cut s) as [a b]. cbn [fst snd] in *. destruct (m <? zlen a) eqn:E.
  - split; [discriminate|]. intros K. specialize (K a (or_introl (proj2 (FC a) eq_refl))). lia.
  - destruct b as [r|].
    + rewrite IH.
      * split; intros K c hc; [|apply K; right; apply LC; auto]. destruct hc as [hc|hc]; [apply FC in hc; subst c; lia|]. apply K. apply LC in hc. auto.
      * rewrite H2 in h. rewrite app_length in h. cbn in h. lia.
    + split; auto. intros _ c [hc|hc]; [apply FC in hc; subst c; lia|]. apply LC in hc. destruct hc.
Qed.
Theorem too_long : forall l tp p, path_too_long l tp p = false <->
  zlen tp + zlen p + 1 <= full_max l /\ (forall c, later_name p c -> zlen c <= l_name l) /\ (no_slash p -> zlen p <= l_name l).
Proof.
  intros l tp p. unfold path_too_long. destruct (full_max l <? zlen tp + zlen p + 1) eqn:E; [split; [discriminate|lia]|].
  pose proof (cut_spec p) as [H1 H2]. pose proof (later_cut p) as LC. destruct (cut p) as [a [r|]]; cbn [fst snd] in *.
  - rewrite names_spec by lia. split.
    + intros K. repeat split; [lia| |].
      * intros c hc. apply K, LC; auto.
      * intros n. exfalso. eapply no_split; eauto.
    + intros [_ [K _]] c hc. apply K, LC; auto.
  - split.
    + intros K. repeat split; [lia| |lia]. intros c hc. apply LC in hc. destruct hc.
    + intros [_ [_ K]]. subst p. specialize (K H1). lia.
Qed.
Lemma tree_iff : forall l tp p cmd d, treedata l tp p cmd d = true <-> d = false /\ is_file cmd /\ path_too_long l tp p = false.
Proof.
  intros l tp p cmd d. unfold treedata, is_file. destruct d; [split; [discriminate|intros [? _]; discriminate]|].
  destruct (negb (cmd =? CMD_FILE) && negb (cmd =? CMD_ENC_FILE) && negb (cmd =? CMD_EFS_FILE)) eqn:E.
  - split; [discriminate|]. intros [_ [h _]]. lia.
  - rewrite negb_true_iff. split; [intros h; repeat split; auto; lia|tauto].
Qed.
Theorem placed : forall tree l tp p cmd d comp dp,
  new_path tree l tp p cmd d comp dp = (prepend_s (str "t") p, true) /\ tree = true /\ d = false /\ is_file cmd /\ path_too_long l tp p = false \/
  new_path tree l tp p cmd d comp dp = (dpth_mk dp comp cmd, false) /\ ~ (tree = true /\ d = false /\ is_file cmd /\ path_too_long l tp p = false).
Proof.
  intros. unfold new_path. destruct (tree && treedata l tp p cmd d) eqn:E.
  - left. apply andb_true_iff in E. rewrite tree_iff in E. tauto.
  - right. split; auto. intros [h1 h2]. rewrite <- tree_iff in h2. rewrite h1, h2 in E. discriminate.
Qed.
(* The stored path of an absolute path: every name in it is short enough. *)
Theorem stored_names : forall l tp q c, 1 <= l_name l -> path_too_long l tp (slash :: q) = false -> q <> [] ->
  name_in (prepend_s (str "t") (slash :: q)) c -> zlen c <= l_name l.
Proof.
  intros l tp q c n1 h q0 [n [a [b [e [ha hb]]]]]. apply too_long in h. destruct h as [_ [h _]].
  assert (E : prepend_s (str "t") (slash :: q) = 116 :: slash :: q).
  { unfold prepend_s. cbn. destruct q; [congruence|auto]. }
  rewrite E in e. destruct ha as [->|[a' ->]].
  - assert (c = [116]); [|subst c; cbn; lia].
    assert (F : front_name (116 :: slash :: q) c) by (split; auto; exists b; auto). apply front_cut in F. rewrite F. reflexivity.
  - rewrite <- app_assoc in e. cbn [app] in e. destruct a' as [|x a']; [cbn in e; discriminate e|]. cbn [app] in e. injection e as _ e.
    apply h. split; auto. exists a', b. auto.
Qed.
Theorem stored_apart : forall p q d comp cmd, p <> [] -> q <> [] -> is_u16 (c0 d) ->
  (prepend_s (str "t") (slash :: p) = prepend_s (str "t") (slash :: q) -> p = q) /\
  prepend_s (str "t") (slash :: p) <> dpth_mk d comp cmd.
Proof.
  intros p q d comp cmd hp hq u.
  assert (E : forall x, x <> [] -> prepend_s (str "t") (slash :: x) = 116 :: slash :: x) by (intros [|c x] h; [congruence|reflexivity]).
  rewrite !E by auto. split; [congruence|].
  unfold dpth_mk. rewrite fmt_04X_small by exact u. unfold four. cbn [app]. intros h. injection h as h _. revert h. unfold hexdig.
  unfold is_u16 in u. assert (0 <= c0 d / 4096 <= 15) by (split; [apply Z.div_pos; lia|apply Z.lt_succ_r, Z.div_lt_upper_bound; lia]).
  destruct (_ <? 10); lia.
Qed.
