(* Specification and proofs about the entry comparison (C05). *)
From Verif Require Import Bytes PathcmpModel PathcmpProofs CmdModel.

(* Independent spec: what a user expects the order of entries with one path to
   be.  Leading VSS first, ordinary entries next, then the two trailing kinds. *)
Inductive kind := KLead | KPlain | KMeta | KTrail.
Definition kind_of (c : Z) : kind :=
  if orb (c =? 118) (c =? 86) then KLead            (* 'v' 'V' *)
  else if orb (c =? 109) (c =? 110) then KMeta      (* 'm' 'n' *)
  else if orb (c =? 117) (c =? 85) then KTrail      (* 'u' 'U' *)
  else KPlain.
Definition rank (k : kind) : Z :=
  match k with KLead => 0 | KPlain => 1 | KMeta => 2 | KTrail => 2 end.

(* The two trailing kinds are not both used for one path. *)
Definition unmixed (a b : iobuf) : Prop :=
  ~ (kind_of (icmd a) = KMeta /\ kind_of (icmd b) = KTrail) /\
  ~ (kind_of (icmd a) = KTrail /\ kind_of (icmd b) = KMeta).

Definition ipath (a : iobuf) : option bytes := option_map cview (ibuf a).
Definition iraw (a : iobuf) : Prop := match ibuf a with None => True | Some s => raw s end.

Definition entry_lt (a b : iobuf) : Prop :=
  opath_lt (ipath a) (ipath b) \/
  (ipath a = ipath b /\ rank (kind_of (icmd a)) < rank (kind_of (icmd b))).
Definition entry_eq (a b : iobuf) : Prop :=
  ipath a = ipath b /\ rank (kind_of (icmd a)) = rank (kind_of (icmd b)).

Lemma cview_raw : forall s, raw s -> raw (cview s).
Proof.
  induction s as [|x s IH]; intros H; simpl; [constructor|].
  inversion H; subst. destruct (x =? 0); constructor; auto. apply IH; auto.
Qed.
Lemma cview_cstr : forall s, raw s -> cstr (cview s).
Proof.
  induction s as [|x s IH]; intros H; simpl; [constructor|].
  inversion H as [|? ? Hx Hs]; subst. destruct (x =? 0) eqn:E; constructor; auto.
  - apply Z.eqb_neq in E. unfold is_char, is_byte in *. lia.
  - apply IH; auto.
Qed.
Lemma cview_id : forall s, cstr s -> cview s = s.
Proof.
  induction s as [|x s IH]; intros H; simpl; auto.
  inversion H as [|? ? Hx Hs]; subst.
  destruct (x =? 0) eqn:E; [apply Z.eqb_eq in E; unfold is_char in Hx; lia|].
  f_equal. apply IH; auto.
Qed.

Lemma ipath_raw : forall a, iraw a -> oraw (ipath a).
Proof.
  unfold iraw, ipath, oraw. intros a H. destruct (ibuf a); simpl; auto.
  apply cview_raw; auto.
Qed.

Ltac eqbs :=
  repeat match goal with
  | |- context [?x =? ?y] => destruct (Z.eqb_spec x y)
  | H : context [?x =? ?y] |- _ => destruct (Z.eqb_spec x y)
  end.

Definition tie (a b : Z) : Z :=
  match kind_of a, kind_of b with
  | KMeta, KMeta => 0 | KMeta, _ => 1
  | KLead, KLead => 0 | KLead, _ => -1
  | KTrail, KTrail => 0 | KTrail, _ => 1
  | KPlain, KMeta => -1 | KPlain, KLead => 1 | KPlain, KTrail => -1 | KPlain, KPlain => 0
  end.

Lemma iobuf_pathcmp_tie : forall a b,
  iobuf_pathcmp a b =
  if negb (pathcmp (ipath a) (ipath b) =? 0) then pathcmp (ipath a) (ipath b)
  else tie (icmd a) (icmd b).
Proof.
  intros [a ab] [b bb]. unfold iobuf_pathcmp, ipath. cbn [ibuf icmd].
  destruct (negb _); [reflexivity|].
  unfold tie, kind_of, CMD_METADATA, CMD_ENC_METADATA, CMD_VSS, CMD_ENC_VSS, CMD_VSS_T, CMD_ENC_VSS_T.
  assert (K : forall c, (c = 109 \/ c = 110) \/ (c = 118 \/ c = 86) \/ (c = 117 \/ c = 85) \/
     (c <> 109 /\ c <> 110 /\ c <> 118 /\ c <> 86 /\ c <> 117 /\ c <> 85)) by (intros; lia).
  destruct (K a) as [[?|?]|[[?|?]|[[?|?]|[? [? [? [? [? ?]]]]]]]];
  destruct (K b) as [[?|?]|[[?|?]|[[?|?]|[? [? [? [? [? ?]]]]]]]]; subst; try reflexivity;
  repeat match goal with H : ?x <> ?y |- _ => apply Z.eqb_neq in H; try rewrite H; clear H end;
  reflexivity.
Qed.

Lemma oraw_total : forall a b c, oraw a -> oraw b -> oraw c ->
  (pathcmp a b = 0 <-> a = b) /\
  (pathcmp a b < 0 <-> opath_lt a b) /\
  pathcmp b a = - pathcmp a b /\
  (pathcmp a b <= 0 -> pathcmp b c <= 0 -> pathcmp a c <= 0) /\
  (pathcmp a b < 0 -> pathcmp b c <= 0 -> pathcmp a c < 0).
Proof. exact pathcmp_total_order. Qed.

Lemma tie_spec : forall a b,
  ~ (kind_of a = KMeta /\ kind_of b = KTrail) ->
  ~ (kind_of a = KTrail /\ kind_of b = KMeta) ->
  (tie a b < 0 <-> rank (kind_of a) < rank (kind_of b)) /\
  (tie a b = 0 <-> rank (kind_of a) = rank (kind_of b)) /\
  tie b a = - tie a b.
Proof.
  intros a b U1 U2. unfold tie.
  destruct (kind_of a), (kind_of b); simpl rank;
    try (exfalso; apply U1; split; reflexivity);
    try (exfalso; apply U2; split; reflexivity); lia.
Qed.

(* Sign of the comparison in terms of the spec. *)
Lemma entry_cmp_spec : forall a b, iraw a -> iraw b -> unmixed a b ->
  (iobuf_pathcmp a b < 0 <-> entry_lt a b) /\
  (iobuf_pathcmp a b = 0 <-> entry_eq a b) /\
  iobuf_pathcmp b a = - iobuf_pathcmp a b.
Proof.
  intros a b Ha Hb [U1 U2].
  pose proof (oraw_total _ _ _ (ipath_raw _ Ha) (ipath_raw _ Hb) (ipath_raw _ Ha)) as [E [L [S _]]].
  rewrite (iobuf_pathcmp_tie a b), (iobuf_pathcmp_tie b a). rewrite S.
  destruct (Z.eqb_spec (pathcmp (ipath a) (ipath b)) 0) as [Z0|NZ].
  - rewrite Z0. simpl. apply E in Z0. unfold entry_lt, entry_eq.
    assert (NL : ~ opath_lt (ipath a) (ipath b)).
    { intros Hl. apply L in Hl. apply E in Z0. lia. }
    destruct (tie_spec (icmd a) (icmd b) U1 U2) as [T1 [T2 T3]].
    split; [|split; [|exact T3]].
    + rewrite T1. split; intros H; [right; split; auto|].
      destruct H as [H|[_ H]]; [contradiction|exact H].
    + rewrite T2. split; intros H; [split; auto|]. destruct H as [_ H]; exact H.
  - assert ((- pathcmp (ipath a) (ipath b) =? 0) = false) as -> by (apply Z.eqb_neq; lia).
    simpl. unfold entry_lt, entry_eq.
    split; [|split; [|reflexivity]].
    + rewrite L. split; intros H; auto. destruct H as [H|[H _]]; auto. apply E in H. lia.
    + split; intros H; [lia|]. destruct H as [H _]. apply E in H. lia.
Qed.

Lemma opath_lt_trans : forall a b c, oraw a -> oraw b -> oraw c ->
  opath_lt a b -> opath_lt b c -> opath_lt a c.
Proof.
  intros a b c Ha Hb Hc H1 H2.
  pose proof (oraw_total a b c Ha Hb Hc) as [_ [L [_ [_ T]]]].
  pose proof (oraw_total b c a Hb Hc Ha) as [_ [L2 _]].
  pose proof (oraw_total a c b Ha Hc Hb) as [_ [L3 _]].
  apply L3, T; [apply L; auto|]. apply L2 in H2. lia.
Qed.
Lemma opath_lt_irrefl : forall a, oraw a -> ~ opath_lt a a.
Proof.
  intros a Ha H. pose proof (oraw_total a a a Ha Ha Ha) as [E [L _]].
  apply L in H. assert (a = a) by auto. apply E in H0. lia.
Qed.

Lemma entry_lt_trans : forall a b c, iraw a -> iraw b -> iraw c ->
  entry_lt a b -> entry_lt b c -> entry_lt a c.
Proof.
  unfold entry_lt. intros a b c Ha Hb Hc H1 H2.
  apply ipath_raw in Ha, Hb, Hc.
  destruct H1 as [H1|[E1 H1]], H2 as [H2|[E2 H2]].
  - left. eapply opath_lt_trans with (b := ipath b); eauto.
  - left. rewrite <- E2. auto.
  - left. rewrite E1. auto.
  - right. split; [congruence|lia].
Qed.
Lemma entry_lt_irrefl : forall a, iraw a -> ~ entry_lt a a.
Proof.
  unfold entry_lt. intros a Ha [H|[_ H]]; [|lia].
  eapply opath_lt_irrefl; [|exact H]. apply ipath_raw; auto.
Qed.

Lemma entry_cmp_weak_order : forall a b c, iraw a -> iraw b -> iraw c ->
  unmixed a b -> unmixed b c -> unmixed a c ->
  iobuf_pathcmp b a = - iobuf_pathcmp a b /\
  (iobuf_pathcmp a b < 0 <-> entry_lt a b) /\
  (iobuf_pathcmp a b = 0 <-> entry_eq a b) /\
  (iobuf_pathcmp a b < 0 -> iobuf_pathcmp b c < 0 -> iobuf_pathcmp a c < 0) /\
  (iobuf_pathcmp a b = 0 -> iobuf_pathcmp b c = 0 -> iobuf_pathcmp a c = 0) /\
  (iobuf_pathcmp a b <= 0 -> iobuf_pathcmp b c <= 0 -> iobuf_pathcmp a c <= 0).
Proof.
  intros a b c Ha Hb Hc U1 U2 U3.
  destruct (entry_cmp_spec a b Ha Hb U1) as [L1 [E1 S1]].
  destruct (entry_cmp_spec b c Hb Hc U2) as [L2 [E2 S2]].
  destruct (entry_cmp_spec a c Ha Hc U3) as [L3 [E3 S3]].
  split; [exact S1|]. split; [exact L1|]. split; [exact E1|].
  assert (T1 : iobuf_pathcmp a b < 0 -> iobuf_pathcmp b c < 0 -> iobuf_pathcmp a c < 0).
  { intros. apply L3. eapply entry_lt_trans with (b := b); auto; [apply L1|apply L2]; auto. }
  assert (T2 : iobuf_pathcmp a b = 0 -> iobuf_pathcmp b c = 0 -> iobuf_pathcmp a c = 0).
  { intros X Y. apply E1 in X. apply E2 in Y. apply E3. destruct X, Y. split; congruence. }
  split; [exact T1|]. split; [exact T2|].
  intros X Y.
  destruct (Z.eq_dec (iobuf_pathcmp a b) 0) as [Z1|N1];
  destruct (Z.eq_dec (iobuf_pathcmp b c) 0) as [Z2|N2].
  - rewrite T2; auto; lia.
  - apply Z.lt_le_incl. apply L3. apply E1 in Z1. destruct Z1 as [P R].
    assert (iobuf_pathcmp b c < 0) as K by lia. apply L2 in K.
    unfold entry_lt in *. rewrite P, R. exact K.
  - apply Z.lt_le_incl. apply L3. apply E2 in Z2. destruct Z2 as [P R].
    assert (iobuf_pathcmp a b < 0) as K by lia. apply L1 in K.
    unfold entry_lt in *. rewrite <- P, <- R. exact K.
  - apply Z.lt_le_incl, T1; lia.
Qed.

(* Full claim fails: metadata against trailing VSS. *)
Lemma entry_cmp_refuted : exists a b, iraw a /\ iraw b /\ ipath a = ipath b /\
  iobuf_pathcmp a b = 1 /\ iobuf_pathcmp b a = 1.
Proof.
  exists (mkiobuf CMD_METADATA (Some (str "/a"))), (mkiobuf CMD_VSS_T (Some (str "/a"))).
  repeat split; try reflexivity; apply cstr_raw, cstrb_ok; reflexivity.
Qed.
