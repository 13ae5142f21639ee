(* Specification and proofs for PathcmpModel. *)
From Coq Require Import Sorted.
From Verif Require Import Bytes PathcmpModel.

(* ---------- Specification, independent of the model ---------- *)

(* '/' is below every other byte; the others compare as signed characters. *)
Definition byte_lt (x y : Z) : Prop :=
  (x = slash /\ y <> slash) \/
  (x <> slash /\ y <> slash /\ schar x < schar y).

Inductive path_lt : bytes -> bytes -> Prop :=
| plt_nil : forall y b, path_lt [] (y :: b)
| plt_head : forall x y a b, byte_lt x y -> path_lt (x :: a) (y :: b)
| plt_tail : forall x a b, path_lt a b -> path_lt (x :: a) (x :: b).

Definition path_le (a b : bytes) : Prop := a = b \/ path_lt a b.

(* A missing path is below every path. *)
Definition opath_lt (a b : option bytes) : Prop :=
  match a, b with
  | None, Some _ => True
  | Some x, Some y => path_lt x y
  | _, _ => False
  end.

(* "sub is dir or lies beneath it". *)
Definition beneath (dir sub : bytes) : Prop :=
  sub = dir \/
  (exists x, sub = dir ++ slash :: x) \/
  (exists d' y x, dir = d' ++ [slash] /\ sub = dir ++ y :: x).

Fixpoint slashes (s : bytes) : Z :=
  match s with [] => 0 | c :: s' => (if c =? slash then 1 else 0) + slashes s' end.

(* The '/'-separated components of a path. *)
Fixpoint components (s : bytes) : list bytes :=
  match s with
  | [] => [[]]
  | c :: s' =>
      if c =? slash then [] :: components s'
      else match components s' with
           | [] => [[c]]
           | w :: ws => (c :: w) :: ws
           end
  end.

(* ---------- pathcmp ---------- *)

Lemma byte_trichotomy : forall x y, is_byte x -> is_byte y ->
  x = y \/ byte_lt x y \/ byte_lt y x.
Proof.
  intros x y Hx Hy. unfold byte_lt.
  destruct (Z.eq_dec x y); [auto|].
  destruct (Z.eq_dec x slash), (Z.eq_dec y slash); try lia; auto.
  destruct (Z.lt_trichotomy (schar x) (schar y)) as [H|[H|H]]; auto 6.
  apply schar_inj in H; auto.
Qed.

Lemma byte_lt_irrefl : forall x, ~ byte_lt x x.
Proof. unfold byte_lt. intros x. intuition lia. Qed.
Lemma byte_lt_trans : forall x y z, byte_lt x y -> byte_lt y z -> byte_lt x z.
Proof. unfold byte_lt. intros x y z. intuition lia. Qed.

Lemma path_lt_irrefl : forall a, ~ path_lt a a.
Proof.
  induction a as [|x a IH]; intros H; inversion H; subst; auto.
  eapply byte_lt_irrefl; eauto.
Qed.

Lemma path_lt_trans : forall a b c, path_lt a b -> path_lt b c -> path_lt a c.
Proof.
  intros a b c H. revert c. induction H as [y b|x y a b Hxy|x a b Hab IH]; intros c Hc.
  - inversion Hc; subst; constructor.
  - inversion Hc; subst; apply plt_head; auto. eapply byte_lt_trans; eauto.
  - inversion Hc; subst; [apply plt_head | apply plt_tail]; auto.
Qed.

Lemma path_lt_asym : forall a b, path_lt a b -> ~ path_lt b a.
Proof. intros a b H1 H2. eapply path_lt_irrefl, path_lt_trans; eauto. Qed.

Lemma path_trichotomy : forall a b, raw a -> raw b ->
  a = b \/ path_lt a b \/ path_lt b a.
Proof.
  induction a as [|x a IH]; destruct b as [|y b]; intros Ha Hb; auto.
  - right; left; constructor.
  - right; right; constructor.
  - inversion Ha; inversion Hb; subst.
    destruct (byte_trichotomy x y) as [->|[H|H]]; auto.
    + destruct (IH b) as [->|[H|H]]; auto.
      * right; left; apply plt_tail; auto.
      * right; right; apply plt_tail; auto.
    + right; left; apply plt_head; auto.
    + right; right; apply plt_head; auto.
Qed.

Lemma pathcmp_s_lt : forall a b, path_lt a b -> pathcmp_s a b = -1.
Proof.
  intros a b H. induction H as [y b|x y a b Hxy|x a b Hab IH]; simpl.
  - reflexivity.
  - destruct (x =? y) eqn:E.
    { apply Z.eqb_eq in E; subst. exfalso; eapply byte_lt_irrefl; eauto. }
    destruct Hxy as [[-> Hy]|[Hx [Hy Hlt]]].
    + rewrite Z.eqb_refl. apply Z.eqb_neq in Hy. rewrite Hy. reflexivity.
    + apply Z.eqb_neq in Hx, Hy. rewrite Hx, Hy. simpl.
      apply Z.ltb_lt in Hlt. rewrite Hlt. reflexivity.
  - rewrite Z.eqb_refl. exact IH.
Qed.

Lemma pathcmp_s_gt : forall a b, path_lt b a -> pathcmp_s a b = 1.
Proof.
  intros a b H. induction H as [y b|x y a b Hxy|x a b Hab IH]; simpl.
  - reflexivity.
  - destruct (y =? x) eqn:E.
    { apply Z.eqb_eq in E; subst. exfalso; eapply byte_lt_irrefl; eauto. }
    destruct Hxy as [[-> Hy]|[Hx [Hy Hlt]]].
    + apply Z.eqb_neq in Hy. rewrite Hy. rewrite Z.eqb_refl. reflexivity.
    + apply Z.eqb_neq in Hx, Hy. rewrite Hx, Hy. simpl.
      replace (schar y <? schar x) with false by (symmetry; apply Z.ltb_ge; lia).
      replace (schar y >? schar x) with true by (symmetry; apply Z.gtb_lt; lia).
      reflexivity.
  - rewrite Z.eqb_refl. exact IH.
Qed.

Lemma pathcmp_s_refl : forall a, pathcmp_s a a = 0.
Proof. induction a as [|x a IH]; simpl; auto. rewrite Z.eqb_refl; auto. Qed.

Lemma pathcmp_s_cases : forall a b, raw a -> raw b ->
  (pathcmp_s a b = 0 /\ a = b) \/
  (pathcmp_s a b = -1 /\ path_lt a b) \/
  (pathcmp_s a b = 1 /\ path_lt b a).
Proof.
  intros a b Ha Hb. destruct (path_trichotomy a b) as [->|[H|H]]; auto.
  - left. split; auto. apply pathcmp_s_refl.
  - right; left. split; auto. apply pathcmp_s_lt; auto.
  - right; right. split; auto. apply pathcmp_s_gt; auto.
Qed.

Lemma pathcmp_s_eq0 : forall a b, raw a -> raw b -> (pathcmp_s a b = 0 <-> a = b).
Proof.
  intros a b Ha Hb. split; intros H.
  - destruct (pathcmp_s_cases a b) as [[? ?]|[[? ?]|[? ?]]]; auto; lia.
  - subst. apply pathcmp_s_refl.
Qed.
Lemma pathcmp_s_neg : forall a b, raw a -> raw b -> (pathcmp_s a b < 0 <-> path_lt a b).
Proof.
  intros a b Ha Hb. split; intros H.
  - destruct (pathcmp_s_cases a b) as [[? ?]|[[? ?]|[? ?]]]; auto; lia.
  - rewrite pathcmp_s_lt; auto. lia.
Qed.
Lemma pathcmp_s_pos : forall a b, raw a -> raw b -> (pathcmp_s a b > 0 <-> path_lt b a).
Proof.
  intros a b Ha Hb. split; intros H.
  - destruct (pathcmp_s_cases a b) as [[? ?]|[[? ?]|[? ?]]]; auto; lia.
  - rewrite pathcmp_s_gt; auto. lia.
Qed.

Definition oraw (a : option bytes) : Prop := match a with None => True | Some s => raw s end.

Lemma opath_lt_irrefl : forall a, ~ opath_lt a a.
Proof. destruct a; simpl; auto. apply path_lt_irrefl. Qed.
Lemma opath_lt_trans : forall a b c, opath_lt a b -> opath_lt b c -> opath_lt a c.
Proof.
  intros [a|] [b|] [c|]; simpl; auto; try tauto. apply path_lt_trans.
Qed.

Lemma pathcmp_cases : forall a b, oraw a -> oraw b ->
  (pathcmp a b = 0 /\ a = b) \/
  (pathcmp a b = -1 /\ opath_lt a b) \/
  (pathcmp a b = 1 /\ opath_lt b a).
Proof.
  destruct a as [a|], b as [b|]; simpl; intros Ha Hb; auto.
  destruct (pathcmp_s_cases a b) as [[? ?]|[[? ?]|[? ?]]]; auto.
  left; split; congruence.
Qed.

Theorem pathcmp_total_order : forall a b c, oraw a -> oraw b -> oraw c ->
  (pathcmp a b = 0 <-> a = b) /\
  (pathcmp a b < 0 <-> opath_lt a b) /\
  pathcmp b a = - pathcmp a b /\
  (pathcmp a b <= 0 -> pathcmp b c <= 0 -> pathcmp a c <= 0) /\
  (pathcmp a b < 0 -> pathcmp b c <= 0 -> pathcmp a c < 0).
Proof.
  intros a b c Ha Hb Hc.
  pose proof (pathcmp_cases a b Ha Hb) as Hab.
  pose proof (pathcmp_cases b a Hb Ha) as Hba.
  pose proof (pathcmp_cases b c Hb Hc) as Hbc.
  pose proof (pathcmp_cases a c Ha Hc) as Hac.
  assert (Hirr : forall x, ~ opath_lt x x) by apply opath_lt_irrefl.
  assert (Htr : forall x y z, opath_lt x y -> opath_lt y z -> opath_lt x z)
    by apply opath_lt_trans.
  repeat split.
  - intros H. destruct Hab as [[? ?]|[[? ?]|[? ?]]]; auto; lia.
  - intros ->. destruct Hab as [[? ?]|[[? E]|[? E]]]; auto; exfalso; eapply Hirr; eauto.
  - intros H. destruct Hab as [[? ?]|[[? ?]|[? ?]]]; auto; lia.
  - intros H. destruct Hab as [[? E]|[[? ?]|[? E]]]; try lia.
    + subst. exfalso; eapply Hirr; eauto.
    + exfalso; eapply Hirr; eauto.
  - destruct Hab as [[? E]|[[? E]|[? E]]]; destruct Hba as [[? E']|[[? E']|[? E']]];
      subst; try lia; exfalso; eapply Hirr; eauto.
  - intros H1 H2.
    destruct Hac as [[? ?]|[[? ?]|[? E]]]; try lia. exfalso.
    destruct Hab as [[? E1]|[[? E1]|[? E1]]]; try lia;
    destruct Hbc as [[? E2]|[[? E2]|[? E2]]]; try lia; subst;
    solve [ eapply Hirr; eauto | eapply Hirr; eapply Htr; eauto
          | eapply Hirr; eapply Htr; [|eapply Htr]; eauto ].
  - intros H1 H2.
    destruct Hac as [[? E]|[[? ?]|[? E]]]; try lia; exfalso;
    destruct Hab as [[? E1]|[[? E1]|[? E1]]]; try lia;
    destruct Hbc as [[? E2]|[[? E2]|[? E2]]]; try lia; subst;
    solve [ eapply Hirr; eauto | eapply Hirr; eapply Htr; eauto
          | eapply Hirr; eapply Htr; [|eapply Htr]; eauto ].
Qed.

(* The two facts about the order itself named in the property. *)
Theorem path_order_shape :
  (forall y b p x a, y <> slash -> x = slash -> path_lt (p ++ x :: a) (p ++ y :: b)) /\
  (forall p y b, path_lt p (p ++ y :: b)).
Proof.
  split.
  - intros y b p x a Hy ->. induction p as [|c p IH]; simpl.
    + apply plt_head. left; auto.
    + apply plt_tail; auto.
  - intros p y b. induction p as [|c p IH]; simpl; [constructor|apply plt_tail; auto].
Qed.

(* ---------- is_subdir ---------- *)

Lemma subdir_loop_spec : forall dir sub pd ps dl sl n,
  cstr dir -> cstr sub ->
  (pd = [] -> ps = [] -> dl = dir /\ sl = sub) ->
  pd = ps ->
  (forall p c, pd = p ++ [c] -> dl = c :: dir /\ sl = c :: sub) ->
  let '(d, s, dl', sl', n') := subdir_loop dir sub dl sl n in
  exists m, dir = m ++ d /\ sub = m ++ s /\
    n' = n + slashes m /\
    (d = [] \/ s = [] \/ hd0 d <> hd0 s) /\
    (pd ++ m = [] -> dl' = d /\ sl' = s) /\
    (forall p c, pd ++ m = p ++ [c] -> dl' = c :: d /\ sl' = c :: s).
Proof.
  induction dir as [|x dir IH]; intros sub pd ps dl sl n Hd Hs H0 Hp Hl; simpl.
  - destruct sub; simpl.
    all: exists []; simpl; repeat split; auto; try lia;
      rewrite ?app_nil_r in *; intros; subst; rewrite ?app_nil_r in *; try (apply H0; auto);
      try (eapply Hl; eauto).
  - destruct sub as [|y sub]; simpl.
    + exists []; simpl; repeat split; auto; try lia;
      rewrite ?app_nil_r in *; intros; subst; rewrite ?app_nil_r in *; try (apply H0; auto);
      try (eapply Hl; eauto).
    + destruct (y =? x) eqn:E.
      * apply Z.eqb_eq in E. subst y.
        inversion Hd; inversion Hs; subst.
        specialize (IH sub (ps ++ [x]) (ps ++ [x]) (x :: dir) (x :: sub)
                      (if x =? slash then n + 1 else n)).
        destruct (subdir_loop dir sub (x :: dir) (x :: sub)
                    (if x =? slash then n + 1 else n)) as [[[[d s] dl'] sl'] n'] eqn:EL.
        destruct IH as [m [E1 [E2 [E3 [E4 [E5 E6]]]]]]; auto.
        { intros Hnil. destruct ps; discriminate. }
        { intros p c Hpc. apply app_inj_tail in Hpc. destruct Hpc; subst; auto. }
        exists (x :: m). repeat split.
        -- simpl; congruence.
        -- simpl; congruence.
        -- simpl. destruct (x =? slash); lia.
        -- auto.
        -- destruct ps; discriminate.
        -- destruct ps; discriminate.
        -- apply (E6 p). rewrite <- H. rewrite <- app_assoc. reflexivity.
        -- apply (E6 p). rewrite <- H. rewrite <- app_assoc. reflexivity.
      * apply Z.eqb_neq in E.
        exists []; simpl; repeat split; auto; try lia;
        rewrite ?app_nil_r in *; intros; subst; rewrite ?app_nil_r in *; try (apply H0; auto);
        try (eapply Hl; eauto).
Qed.

Lemma hd0_cstr_0 : forall s, cstr s -> hd0 s = 0 -> s = [].
Proof.
  destruct s as [|c s]; auto. intros H E. inversion H; subst. simpl in E.
  unfold is_char in *. lia.
Qed.

Lemma cstr_suffix : forall a b, cstr (a ++ b) -> cstr b.
Proof. intros a b H. apply cstr_app in H. tauto. Qed.

(* What is_subdir computes, in full. *)
Lemma is_subdir_s_spec : forall dir sub, cstr dir -> cstr sub ->
  (beneath dir sub /\ is_subdir_s dir sub = 1 + slashes dir) \/
  (~ beneath dir sub /\ is_subdir_s dir sub = 0).
Proof.
  intros dir sub Hd Hs. unfold is_subdir_s.
  pose proof (subdir_loop_spec dir sub [] [] dir sub 1 Hd Hs) as H.
  destruct (subdir_loop dir sub dir sub 1) as [[[[d s] dl] sl] n].
  destruct H as [m [E1 [E2 [E3 [E4 [E5 E6]]]]]]; auto.
  { intros p c Hc. destruct p; discriminate. }
  simpl in E5, E6.
  assert (Cd : cstr d) by (subst dir; eapply cstr_suffix; eauto).
  assert (Cs : cstr s) by (subst sub; eapply cstr_suffix; eauto).
  destruct d as [|dc d].
  - rewrite app_nil_r in E1. subst m.
    destruct s as [|sc s].
    + simpl. left. split; [|lia]. left. subst; rewrite app_nil_r; auto.
    + simpl. inversion Cs as [|? ? Hsc Cs']; subst.
      unfold is_char in Hsc.
      replace (sc =? 0) with false by (symmetry; apply Z.eqb_neq; lia). simpl.
      destruct (sc =? slash) eqn:Esl.
      * left. split; [|lia]. right; left. apply Z.eqb_eq in Esl. subst sc. eauto.
      * apply Z.eqb_neq in Esl.
        destruct dir as [|d0 dir0].
        -- destruct E5 as [-> ->]; auto. simpl.
           right. split; auto.
           intros [Hb|[[x Hb]|[d' [y [x [Hb _]]]]]]; simpl in *; try congruence.
           destruct d'; discriminate.
        -- remember (d0 :: dir0) as dir.
           destruct (@exists_last _ dir) as [p [c Hp]]; [subst; discriminate|].
           destruct (E6 p c Hp) as [-> ->]. simpl.
           rewrite andb_true_r.
           replace (sc =? 0) with false by (symmetry; apply Z.eqb_neq; lia).
           rewrite andb_true_r.
           destruct (c =? slash) eqn:Ec; simpl.
           ++ left. apply Z.eqb_eq in Ec. split; [|lia].
              right; right. exists p, sc, s. subst c. split; auto.
           ++ apply Z.eqb_neq in Ec. right. split; auto.
              intros [Hb|[[x Hb]|[d' [y [x [Hb _]]]]]].
              ** rewrite <- (app_nil_r dir) in Hb at 2. apply app_inv_head in Hb. discriminate.
              ** apply app_inv_head in Hb. congruence.
              ** rewrite Hp in Hb. apply app_inj_tail in Hb. destruct Hb; congruence.
  - inversion Cd as [|? ? Hdc Cd']; subst dir. unfold is_char in Hdc. subst.
    assert (N0 : (dc =? 0) = false) by (apply Z.eqb_neq; lia).
    assert (Hnb : ~ beneath (m ++ dc :: d) (m ++ s)).
    { intros Hb. assert (exists z, s = dc :: d ++ z) as [z Hz].
      { destruct Hb as [Hb|[[x Hb]|[d' [y [x [_ Hb]]]]]].
        - apply app_inv_head in Hb. exists []. rewrite app_nil_r. auto.
        - rewrite <- app_assoc in Hb. apply app_inv_head in Hb. eauto.
        - rewrite <- app_assoc in Hb. apply app_inv_head in Hb. eauto. }
      subst s. simpl in E4. destruct E4 as [E4|[E4|E4]]; try discriminate. auto. }
    right. split; auto.
    cbn [hd0]. rewrite N0. cbn [andb].
    destruct m as [|m0 m1].
    + destruct E5 as [-> ->]; auto. simpl.
      destruct (dc =? slash) eqn:Ed; simpl; auto.
      destruct (hd0 s =? slash) eqn:Es; simpl; auto.
      apply Z.eqb_eq in Ed, Es. destruct E4 as [E4|[E4|E4]]; try discriminate.
      * subst s; simpl in Es; discriminate.
      * simpl in E4. congruence.
    + remember (m0 :: m1) as m.
      destruct (@exists_last _ m) as [p [c Hp]]; [subst; discriminate|].
      destruct (E6 p c Hp) as [-> ->]. cbn [hd0 tl]. rewrite N0.
      rewrite andb_false_r. reflexivity.
Qed.

Lemma slashes_app : forall a b, slashes (a ++ b) = slashes a + slashes b.
Proof. induction a as [|c a IH]; intros; simpl; auto. rewrite IH. lia. Qed.
Lemma slashes_nonneg : forall a, 0 <= slashes a.
Proof. induction a as [|c a IH]; simpl; try lia. destruct (c =? slash); lia. Qed.

Theorem is_subdir_exact : forall dir sub, cstr dir -> cstr sub ->
  (is_subdir_s dir sub > 0 <-> beneath dir sub) /\
  (is_subdir_s dir sub <= 0 <-> is_subdir_s dir sub = 0).
Proof.
  intros dir sub Hd Hs. pose proof (slashes_nonneg dir).
  destruct (is_subdir_s_spec dir sub Hd Hs) as [[H1 H2]|[H1 H2]];
    rewrite H2; split; split; intros; auto; try lia; tauto.
Qed.

(* A deeper matching directory never scores lower, and scores strictly higher
   when the shallower one does not itself end in '/'. *)
Theorem is_subdir_deeper : forall d1 d2 sub,
  cstr d1 -> cstr d2 -> cstr sub ->
  is_subdir_s d1 sub > 0 -> is_subdir_s d2 sub > 0 ->
  (length d1 < length d2)%nat ->
  is_subdir_s d1 sub <= is_subdir_s d2 sub /\
  ((forall p, d1 <> p ++ [slash]) -> is_subdir_s d1 sub < is_subdir_s d2 sub).
Proof.
  intros d1 d2 sub C1 C2 Cs P1 P2 Hl.
  destruct (is_subdir_s_spec d1 sub C1 Cs) as [[B1 E1]|[B1 E1]]; [|lia].
  destruct (is_subdir_s_spec d2 sub C2 Cs) as [[B2 E2]|[B2 E2]]; [|lia].
  assert (exists z, sub = d2 ++ z) as [z2 Hz2].
  { destruct B2 as [B|[[x B]|[d' [y [x [_ B]]]]]]; eauto.
    exists []. rewrite app_nil_r; auto. }
  assert (Hgen : exists z, sub = d1 ++ z /\ d2 = d1 ++ firstn (length d2 - length d1) z).
  { assert (exists z, sub = d1 ++ z) as [z1 Hz1].
    { destruct B1 as [B|[[x B]|[d' [y [x [_ B]]]]]]; eauto.
      exists []. rewrite app_nil_r; auto. }
    exists z1. split; auto.
    assert (H : firstn (length d2) sub = d2).
    { rewrite Hz2. rewrite firstn_app, Nat.sub_diag, firstn_all. simpl. apply app_nil_r. }
    rewrite Hz1, firstn_app in H.
    rewrite firstn_all2 in H by lia. auto. }
  destruct Hgen as [z [Hz Hd2]].
  rewrite E1, E2. split.
  - rewrite Hd2, slashes_app. pose proof (slashes_nonneg (firstn (length d2 - length d1) z)). lia.
  - intros Hns.
    assert (exists x, z = slash :: x) as [x Hx].
    { destruct B1 as [B|[[x B]|[d' [y [x [B _]]]]]].
      - exfalso. rewrite Hz in B. rewrite <- (app_nil_r d1) in B at 2.
        apply app_inv_head in B. subst z. simpl in Hd2. rewrite firstn_nil, app_nil_r in Hd2.
        subst. lia.
      - rewrite Hz in B. apply app_inv_head in B. eauto.
      - exfalso. eapply Hns; eauto. }
    subst z. rewrite Hd2.
    destruct (length d2 - length d1)%nat eqn:En; [lia|].
    rewrite slashes_app. simpl. pose proof (slashes_nonneg (firstn n x)). lia.
Qed.

(* ---------- directory contiguity ---------- *)

Lemma path_le_refl : forall a, path_le a a. Proof. left; auto. Qed.

Lemma path_lt_app_inv : forall p a b, path_lt (p ++ a) (p ++ b) -> path_lt a b.
Proof.
  induction p as [|c p IH]; simpl; intros a b H; auto.
  inversion H; subst; auto. exfalso; eapply byte_lt_irrefl; eauto.
Qed.

(* anything between p and p++x, inclusive, extends p *)
Lemma between_prefix : forall p x b,
  path_le p b -> path_le b (p ++ x) -> exists z, b = p ++ z.
Proof.
  induction p as [|c p IH]; intros x b H1 H2; simpl in *; eauto.
  destruct b as [|d b].
  { destruct H1 as [H1|H1]; [discriminate|inversion H1]. }
  destruct (Z.eq_dec c d) as [->|Hne].
  - destruct (IH x b) as [z Hz].
    + destruct H1 as [H1|H1]; [left; congruence|].
      inversion H1; subst; [exfalso; eapply byte_lt_irrefl; eauto|right; auto].
    + destruct H2 as [H2|H2]; [left; congruence|].
      inversion H2; subst; [exfalso; eapply byte_lt_irrefl; eauto|right; auto].
    + exists z. congruence.
  - exfalso.
    destruct H1 as [H1|H1]; [congruence|].
    destruct H2 as [H2|H2]; [congruence|].
    inversion H1; inversion H2; subst; try congruence.
    eapply byte_lt_irrefl, byte_lt_trans; eauto.
Qed.

Lemma beneath_ge : forall dir sub, beneath dir sub -> path_le dir sub.
Proof.
  intros dir sub [H|[[x H]|[d' [y [x [_ H]]]]]]; subst.
  - left; auto.
  - right. apply path_order_shape.
  - right. apply path_order_shape.
Qed.

Lemma beneath_convex : forall dir b c,
  path_le dir b -> path_le b c -> beneath dir c -> beneath dir b.
Proof.
  intros dir b c Hab Hbc Hc.
  destruct Hc as [H|[[x H]|[d' [y [x [Hd H]]]]]].
  - subst. left. destruct Hab as [?|H1]; auto. destruct Hbc as [?|H2]; auto.
    exfalso; eapply path_lt_asym; eauto.
  - subst. destruct (between_prefix dir (slash :: x) b) as [z Hz]; auto. subst b.
    destruct z as [|c z].
    + left. apply app_nil_r.
    + right; left.
      assert (c = slash) as ->.
      { destruct Hbc as [Hbc|Hbc].
        - apply app_inv_head in Hbc. congruence.
        - apply path_lt_app_inv in Hbc. inversion Hbc; subst; auto.
          exfalso. unfold byte_lt in *. destruct H0 as [[? ?]|[? [? ?]]]; congruence. }
      eauto.
  - destruct (between_prefix dir (y :: x) b) as [z Hz]; subst; auto.
    destruct z as [|c z].
    + left. apply app_nil_r.
    + right; right. exists d', c, z. auto.
Qed.

Lemma beneath_dec : forall dir sub, cstr dir -> cstr sub ->
  beneath dir sub \/ ~ beneath dir sub.
Proof.
  intros dir sub Hd Hs. destruct (is_subdir_s_spec dir sub Hd Hs); tauto.
Qed.

Theorem dir_contiguous : forall dir l,
  cstr dir -> Forall cstr l -> StronglySorted path_le l ->
  exists l1 l2 l3, l = l1 ++ l2 ++ l3 /\
    Forall (beneath dir) l2 /\
    Forall (fun x => ~ beneath dir x) l1 /\ Forall (fun x => ~ beneath dir x) l3 /\
    Forall (fun x => path_le dir x /\ (x <> dir -> path_lt dir x)) l2.
Proof.
  intros dir l Hd Hl Hs.
  assert (Hmain : exists l1 l2 l3, l = l1 ++ l2 ++ l3 /\
    Forall (beneath dir) l2 /\
    Forall (fun x => ~ beneath dir x) l1 /\ Forall (fun x => ~ beneath dir x) l3).
  { induction l as [|a l IH].
    - exists [], [], []; simpl; auto.
    - inversion Hl as [|? ? Ca Cl]; subst. inversion Hs as [|? ? Ss Sa]; subst.
      destruct IH as [l1 [l2 [l3 [E [F2 [F1 F3]]]]]]; auto.
      destruct (beneath_dec dir a Hd Ca) as [Ba|Ba].
      + destruct l1 as [|b l1].
        * exists [], (a :: l2), l3. simpl in *. subst. auto.
        * (* b is above a and not beneath, so nothing later is beneath *)
          exists [], [a], l. simpl. repeat split; auto.
          subst l. simpl in *. inversion F1 as [|? ? Nb F1']; subst.
          assert (Hab : path_le a b).
          { inversion Sa; auto. }
          assert (Hdb : path_le dir b).
          { destruct (beneath_ge _ _ Ba) as [->|Hlt]; auto.
            destruct Hab as [<-|Hab]; right; auto. eapply path_lt_trans; eauto. }
          inversion Ss as [|? ? Ss' Sb]; subst.
          constructor; auto.
          apply Forall_forall. intros x Hx Bx. apply Nb.
          rewrite Forall_forall in Sb. specialize (Sb x Hx).
          eapply beneath_convex; eauto.
      + exists (a :: l1), l2, l3. subst. simpl. repeat split; auto. }
  destruct Hmain as [l1 [l2 [l3 [E [F2 [F1 F3]]]]]].
  exists l1, l2, l3. repeat split; auto.
  eapply Forall_impl; [|exact F2]. intros x Bx.
  pose proof (beneath_ge _ _ Bx) as H. split; auto.
  intros Hne. destruct H; auto. congruence.
Qed.

(* ---------- dot components ---------- *)

Definition dotty (w : bytes) : bool := beqb w [dot] || beqb w [dot; dot].

Lemma components_nonnil : forall s, components s <> [].
Proof.
  destruct s as [|c s]; simpl; try discriminate.
  destruct (c =? slash); try discriminate. destruct (components s); discriminate.
Qed.

(* Non-start position: only the components after the first one matter. *)
Lemma has_dot_loop_spec : forall p, cstr p ->
  has_dot_loop true p = existsb dotty (components p) /\
  has_dot_loop false p = existsb dotty (tl (components p)).
Proof.
  assert (Hgen : forall n p, (length p <= n)%nat -> cstr p ->
    has_dot_loop true p = existsb dotty (components p) /\
    has_dot_loop false p = existsb dotty (tl (components p))).
  2:{ intros p Hp. apply (Hgen (length p)); auto. }
  induction n as [|n IH]; intros p Hn Hp.
  { destruct p; simpl in *; try lia; auto. }
  destruct p as [|c p]; [auto|].
  simpl in Hn. inversion Hp as [|? ? Hc Hp']; subst.
  destruct (IH p) as [IHt IHf]; [lia|auto|].
  cbn [has_dot_loop components].
  destruct (c =? slash) eqn:Es.
  - apply Z.eqb_eq in Es. subst c.
    change (slash =? dot) with false. cbn [negb]. rewrite IHt.
    split; simpl; auto.
  - destruct (c =? dot) eqn:Ed; cbn [negb].
    + apply Z.eqb_eq in Ed. subst c.
      rewrite andb_false_r. cbn [andb]. rewrite IHf.
      destruct p as [|c2 p].
      { simpl. auto. }
      inversion Hp' as [|? ? Hc2 Hp'']; subst.
      cbn [hd0 tl components].
      unfold is_char in Hc2.
      assert (N0 : (c2 =? 0) = false) by (apply Z.eqb_neq; lia). rewrite N0.
      destruct (c2 =? slash) eqn:Es2.
      * simpl. auto.
      * cbn [orb]. 
        destruct (c2 =? dot) eqn:Ed2; cbn [andb].
        -- apply Z.eqb_eq in Ed2. subst c2.
           destruct p as [|c3 p].
           { simpl. auto. }
           inversion Hp'' as [|? ? Hc3 Hp3]; subst.
           cbn [hd0 components]. unfold is_char in Hc3.
           assert (N3 : (c3 =? 0) = false) by (apply Z.eqb_neq; lia). rewrite N3.
           destruct (c3 =? slash) eqn:Es3.
           ++ simpl. auto.
           ++ cbn [orb]. destruct (components p) as [|w ws] eqn:Ec.
              { exfalso; eapply components_nonnil; eauto. }
              cbn [tl existsb].
              replace (dotty (dot :: dot :: c3 :: w)) with false.
              auto.
        -- destruct (components p) as [|w ws] eqn:Ec.
           { exfalso; eapply components_nonnil; eauto. }
           cbn [tl existsb].
           replace (dotty (dot :: c2 :: w)) with false; auto.
           unfold dotty. cbn [beqb]. rewrite Ed2. simpl.
           rewrite ?andb_false_r. reflexivity.
    + destruct (components p) as [|w ws] eqn:Ec.
      { exfalso; eapply components_nonnil; eauto. }
      cbn [tl existsb] in *. rewrite IHf.
      replace (dotty (c :: w)) with false; auto.
      unfold dotty. cbn [beqb]. rewrite Ed. reflexivity.
Qed.

Theorem has_dot_component_exact : forall p, cstr p ->
  (has_dot_component p = true <-> In [dot] (components p) \/ In [dot; dot] (components p)).
Proof.
  intros p Hp. unfold has_dot_component.
  destruct (has_dot_loop_spec p Hp) as [-> _].
  rewrite existsb_exists. unfold dotty. split.
  - intros [w [Hin Hw]]. apply orb_true_iff in Hw.
    destruct Hw as [Hw|Hw]; apply beqb_eq in Hw; subst; auto.
  - intros [H|H]; eexists; split; eauto.
Qed.

Theorem is_absolute_exact : forall p, cstr p ->
  (is_absolute p = true <->
   (~ In [dot] (components p) /\ ~ In [dot; dot] (components p)) /\
   ((exists r, p = slash :: r) \/ (exists c r, isalpha c = true /\ p = c :: 58 :: r))).
Proof.
  intros p Hp. pose proof (has_dot_component_exact p Hp) as Hd.
  unfold is_absolute. destruct (has_dot_component p).
  - split; [discriminate|]. intros [[H1 H2] _]. destruct Hd as [Hd _].
    destruct Hd; auto; contradiction.
  - assert (Hn : ~ In [dot] (components p) /\ ~ In [dot; dot] (components p)).
    { split; intros Hin; destruct Hd as [_ Hd]; assert (false = true) by (apply Hd; auto); discriminate. }
    rewrite orb_true_iff, andb_true_iff, !Z.eqb_eq. split.
    + intros H. split; auto. destruct H as [[Ha Hc]|Hs].
      * right. destruct p as [|c p]; [discriminate|]. destruct p as [|c2 p]; [discriminate|].
        simpl in *. subst. eauto.
      * left. destruct p; [discriminate|]. simpl in Hs. subst. eauto.
    + intros [_ [[r ->]|[c [r [Ha ->]]]]]; simpl; auto.
Qed.

(* components loses nothing: joining them with '/' gives the path back. *)
Fixpoint join_slash (ws : list bytes) : bytes :=
  match ws with
  | [] => []
  | [w] => w
  | w :: ws' => w ++ slash :: join_slash ws'
  end.
Lemma join_components : forall s, join_slash (components s) = s.
Proof.
  induction s as [|c s IH]; simpl; auto.
  destruct (c =? slash) eqn:E.
  - apply Z.eqb_eq in E. subst.
    pose proof (components_nonnil s). destruct (components s) eqn:Ec; [contradiction|].
    change (slash :: join_slash (b :: l) = slash :: s). congruence.
  - pose proof (components_nonnil s). destruct (components s) as [|w ws] eqn:Ec; [contradiction|].
    destruct ws; cbn [join_slash app] in *; f_equal; exact IH.
Qed.
Lemma components_noslash : forall s w, In w (components s) -> ~ In slash w.
Proof.
  induction s as [|c s IH]; simpl; intros w H.
  - destruct H as [<-|[]]; auto.
  - destruct (c =? slash) eqn:E.
    + destruct H as [<-|H]; auto.
    + apply Z.eqb_neq in E.
      destruct (components s) as [|w' ws]; simpl in H.
      * destruct H as [<-|[]]. intros [H|[]]; auto.
      * destruct H as [<-|H].
        -- intros [H|H]; auto. eapply IH; eauto. left; auto.
        -- apply IH. right; auto.
Qed.

(* ---------- executable checks, used for the non-vacuity examples ---------- *)
Lemma Forall_cstrb : forall l, forallb cstrb l = true -> Forall cstr l.
Proof.
  intros l H. apply Forall_forall. intros x Hx. apply cstrb_ok.
  rewrite forallb_forall in H. auto.
Qed.
Fixpoint sorted_pathb (l : list bytes) : bool :=
  match l with
  | a :: ((b :: _) as t) => (pathcmp_s a b <=? 0) && sorted_pathb t
  | _ => true
  end.
Lemma path_le_trans : forall a b c, path_le a b -> path_le b c -> path_le a c.
Proof.
  intros a b c [->|H1] [->|H2]; unfold path_le; auto.
  right; eapply path_lt_trans; eauto.
Qed.
Lemma pathcmp_s_le : forall a b, raw a -> raw b -> (pathcmp_s a b <= 0 <-> path_le a b).
Proof.
  intros a b Ha Hb. unfold path_le.
  destruct (pathcmp_s_cases a b Ha Hb) as [[E H]|[[E H]|[E H]]]; rewrite E;
    split; intros H'; auto; try lia.
  destruct H' as [->|H']; exfalso; [eapply path_lt_irrefl|eapply path_lt_asym]; eauto.
Qed.
Lemma sorted_pathb_ok : forall l, forallb cstrb l = true -> sorted_pathb l = true ->
  StronglySorted path_le l.
Proof.
  intros l Hc Hs. apply Sorted_StronglySorted.
  { intros a b c. apply path_le_trans. }
  induction l as [|a [|b l] IH]; auto.
  cbn [sorted_pathb] in Hs. apply andb_true_iff in Hs. destruct Hs as [H1 H2].
  cbn [forallb] in Hc. apply andb_true_iff in Hc. destruct Hc as [Ca Cl].
  constructor; auto.
  constructor. apply pathcmp_s_le; try lia; apply cstr_raw, cstrb_ok; auto.
  apply andb_true_iff in Cl. tauto.
Qed.
