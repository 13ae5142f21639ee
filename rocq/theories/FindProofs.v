(* C39, C40, C56: what the client's scan reports, and in which order. *)
From Coq Require Import Sorted Permutation.
From Verif Require Import Bytes PathcmpModel PathcmpProofs CmdModel CmdProofs LinkModel AuthModel FindModel.

(* ---------- specification, independent of the model ---------- *)

(* p is a, or is something in the directory a; any number of '/' at the end of a
   do not matter. *)
Definition within (a p : bytes) : Prop :=
  p = a \/ exists s k r, a = s ++ repeat slash k /\ p = s ++ slash :: r.
Definition apart (a b : bytes) : Prop := ~ within a b /\ ~ within b a.

(* The entries of the file list among what was sent. *)
Fixpoint listed (l : list report) : list iobuf :=
  match l with
  | [] => []
  | Entry cmd p _ :: r => mkiobuf cmd (Some p) :: listed r
  | Warn _ _ :: r => listed r
  end.
(* The names in a directory, as a file system gives them. *)
Definition names_ok (f : fsys) : Prop := forall d l, readdir f d = Names l ->
  NoDup l /\ Forall (fun n => cstr n /\ n <> [] /\ ~ In slash n) l.

(* ---------- strip, within ---------- *)

Lemma strip_back_spec : forall b, exists k, b = repeat slash k ++ strip_back b /\ forall r, strip_back b <> slash :: r.
Proof.
  induction b as [|x b [k [E N]]]; cbn [strip_back]; [exists 0%nat; split; [reflexivity|discriminate]|].
  destruct (Z.eqb_spec x slash) as [->|Hx].
  - exists (S k). cbn. split; [congruence|exact N].
  - exists 0%nat. split; [reflexivity|]. intros r H. inversion H. contradiction.
Qed.
Lemma repeat_rev : forall (A : Type) (x : A) k, rev (repeat x k) = repeat x k.
Proof.
  intros A x. induction k as [|k IH]; [reflexivity|]. cbn [repeat rev]. rewrite IH.
  symmetry. apply repeat_cons.
Qed.
Lemma strip_spec : forall a, exists k, a = strip a ++ repeat slash k /\ forall r, strip a <> r ++ [slash].
Proof.
  intros a. destruct (strip_back_spec (rev a)) as [k [E N]]. exists k. unfold strip. split.
  - rewrite <- (repeat_rev _ slash k), <- rev_app_distr, <- E, rev_involutive. reflexivity.
  - intros r H. apply (N (rev r)). apply (f_equal (@rev Z)) in H. rewrite rev_involutive, rev_app_distr in H. exact H.
Qed.
Lemma repeat_snoc : forall k, repeat slash (S k) = repeat slash k ++ [slash].
Proof. intros k. cbn. apply repeat_cons. Qed.
(* Two ways of taking '/' off the end. *)
Lemma stems : forall k s a m, a = s ++ repeat slash k -> a = strip a ++ repeat slash m ->
  (forall r, strip a <> r ++ [slash]) -> exists j, s = strip a ++ repeat slash j.
Proof.
  induction k as [|k IH]; intros s a m E E2 N.
  - rewrite app_nil_r in E. subst s. exists m. exact E2.
  - destruct m as [|m].
    + exfalso. rewrite app_nil_r in E2. rewrite repeat_snoc, app_assoc in E. apply (N (s ++ repeat slash k)). congruence.
    + rewrite repeat_snoc, app_assoc in E, E2.
      assert (F : s ++ repeat slash k = strip a ++ repeat slash m) by (rewrite E in E2 at 1; apply app_inj_tail in E2; apply E2).
      clear E E2. revert s m F N. generalize (strip a) as t. clear a IH.
      induction k as [|k IH]; intros t s m F N.
      * rewrite app_nil_r in F. exists m. exact F.
      * destruct m as [|m].
        -- exfalso. rewrite app_nil_r, repeat_snoc, app_assoc in F. apply (N (s ++ repeat slash k)). congruence.
        -- rewrite !repeat_snoc, !app_assoc in F. apply app_inj_tail in F. apply (IH t s m (proj1 F) N).
Qed.
Lemma within_strip : forall a p, within a p <-> p = a \/ exists r, p = strip a ++ slash :: r.
Proof.
  intros a p. destruct (strip_spec a) as [m [E N]]. split.
  - intros [H|[s [k [r [Ha Hp]]]]]; [left; exact H|right].
    destruct (stems k s a m Ha E N) as [j Hj]. subst p. rewrite Hj.
    destruct j as [|j].
    + rewrite app_nil_r. eauto.
    + exists (repeat slash j ++ slash :: r). rewrite <- app_assoc. reflexivity.
  - intros [H|[r H]]; [left; exact H|right]. exists (strip a), m, r. auto.
Qed.
Lemma within_refl : forall a, within a a.
Proof. left. reflexivity. Qed.
Lemma app_slash_in : forall s t x y : bytes, s ++ slash :: x = t ++ slash :: y ->
  s = t \/ (exists z, t = s ++ slash :: z) \/ (exists z, s = t ++ slash :: z).
Proof.
  induction s as [|c s IH]; intros t x y E; destruct t as [|d t]; cbn in E.
  - left; reflexivity.
  - injection E as E1 E2. subst d. right; left. exists t. reflexivity.
  - injection E as E1 E2. subst c. right; right. exists s. reflexivity.
  - injection E as E1 E2. subst d. destruct (IH t x y E2) as [->|[[z ->]|[z ->]]];
      [left; reflexivity|right; left; exists z; reflexivity|right; right; exists z; reflexivity].
Qed.
(* A directory in a directory. *)
Lemma strip_eq : forall s k, (forall r, s <> r ++ [slash]) -> strip (s ++ repeat slash k) = s.
Proof.
  intros s k N. destruct (strip_spec (s ++ repeat slash k)) as [m [E M]].
  set (a := s ++ repeat slash k) in *.
  destruct (stems k s a m eq_refl E M) as [j Hj].
  destruct j as [|j]; [rewrite app_nil_r in Hj; auto|].
  rewrite repeat_snoc, app_assoc in Hj. exfalso. apply (N _ Hj).
Qed.
Lemma strip_id : forall a, (forall r, a <> r ++ [slash]) -> strip a = a.
Proof. intros a N. rewrite <- (app_nil_r a) at 1. apply (strip_eq a 0 N). Qed.
Lemma strip_prefix : forall s r, (forall q, s <> q ++ [slash]) -> exists r', strip (s ++ slash :: r) = s ++ r' /\
  (r' = [] \/ exists r'', r' = slash :: r'').
Proof.
  intros s r N. destruct (strip_spec (s ++ slash :: r)) as [k [E M]].
  remember (strip (s ++ slash :: r)) as t. clear Heqt.
  assert (L : (List.length s <= List.length t)%nat \/ (List.length t < List.length s)%nat) by lia.
  destruct L as [L|L].
  - assert (P : firstn (List.length s) t = s).
    { assert (F : firstn (List.length s) (s ++ slash :: r) = firstn (List.length s) (t ++ repeat slash k)) by (rewrite E; reflexivity).
      rewrite firstn_app, Nat.sub_diag, firstn_all in F. cbn in F. rewrite app_nil_r in F.
      rewrite firstn_app in F. replace (List.length s - List.length t)%nat with 0%nat in F by lia.
      cbn in F. rewrite app_nil_r in F. auto. }
    rewrite <- (firstn_skipn (List.length s) t), P in E |- *. rewrite <- app_assoc in E. apply app_inv_head in E.
    exists (skipn (List.length s) t). split; [reflexivity|].
    destruct (skipn (List.length s) t) as [|x q]; [left; reflexivity|]. right. cbn in E. injection E as <- _. eauto.
  - exfalso.
    assert (P : firstn (List.length t) s = t).
    { assert (F : firstn (List.length t) (s ++ slash :: r) = firstn (List.length t) (t ++ repeat slash k)) by (rewrite E; reflexivity).
      rewrite (firstn_app (List.length t) t), Nat.sub_diag, firstn_all in F. cbn in F. rewrite app_nil_r in F.
      rewrite firstn_app in F. replace (List.length t - List.length s)%nat with 0%nat in F by lia.
      cbn in F. rewrite app_nil_r in F. auto. }
    pose proof (firstn_skipn (List.length t) s) as Q. rewrite P in Q.
    rewrite <- Q in E. rewrite <- app_assoc in E. apply app_inv_head in E.
    assert (A : Forall (fun x => x = slash) (skipn (List.length t) s)).
    { assert (A : Forall (fun x => x = slash) (repeat slash k)).
      { apply Forall_forall. intros x Hx. apply repeat_spec in Hx. exact Hx. }
      rewrite <- E in A. apply Forall_app in A. apply A. }
    destruct (skipn (List.length t) s) as [|x q] eqn:K.
    { rewrite app_nil_r in Q. subst t. lia. }
    destruct (exists_last (l := x :: q)) as [q' [y Hy]]; [discriminate|].
    rewrite Hy in A, Q. apply Forall_app in A. destruct A as [_ A]. inversion A; subst.
    apply (N (t ++ q')). rewrite <- app_assoc. auto.
Qed.
Lemma within_trans : forall a b p, within a b -> within b p -> within a p.
Proof.
  intros a b p H1 H2. apply within_strip in H1. apply within_strip in H2. apply within_strip.
  destruct H1 as [->|[r ->]]; [exact H2|]. destruct H2 as [->|[q ->]]; [right; eauto|].
  right. destruct (strip_spec a) as [_ [_ N]].
  destruct (strip_prefix (strip a) r N) as [r' [E [->|[r'' ->]]]]; rewrite E.
  - rewrite app_nil_r. eauto.
  - exists (r'' ++ slash :: q). rewrite <- app_assoc. reflexivity.
Qed.
(* Two directories with something in common. *)
Lemma within_both : forall a b p, within a p -> within b p -> within a b \/ within b a.
Proof.
  intros a b p H1 H2. pose proof H1 as G1. pose proof H2 as G2. apply within_strip in H1. apply within_strip in H2.
  destruct H1 as [->|[r E1]]; [right; exact G2|]. destruct H2 as [->|[q E2]]; [left; exact G1|].
  rewrite E1 in E2. destruct (strip_spec a) as [k [Ea Na]], (strip_spec b) as [m [Eb Nb]].
  destruct (app_slash_in _ _ _ _ E2) as [E|[[z E]|[z E]]].
  - destruct k as [|k].
    + destruct m as [|m].
      * left. left. rewrite Ea, Eb, E. reflexivity.
      * left. apply within_strip. right. exists (repeat slash m). rewrite Eb, <- E. reflexivity.
    + right. apply within_strip. right. exists (repeat slash k). rewrite Ea, E. reflexivity.
  - left. apply within_strip. right. exists (z ++ repeat slash m). rewrite Eb, E, <- app_assoc. reflexivity.
  - right. apply within_strip. right. exists (z ++ repeat slash k). rewrite Ea, E, <- app_assoc. reflexivity.
Qed.
Lemma apart_within : forall a b p q, apart a b -> within a p -> within b q -> p <> q.
Proof.
  intros a b p q [A B] Ha Hb E. subst q. destruct (within_both a b p Ha Hb); contradiction.
Qed.

(* ---------- order ---------- *)
Lemma path_lt_app : forall p a b, path_lt a b -> path_lt (p ++ a) (p ++ b).
Proof. induction p as [|x p IH]; intros a b H; [exact H|]. cbn. apply plt_tail. apply IH; exact H. Qed.
Lemma path_lt_ext : forall p y b, path_lt p (p ++ y :: b).
Proof. intros. apply path_order_shape. Qed.
Lemma path_le_app : forall p b, path_le p (p ++ b).
Proof. intros p [|y b]; [left; symmetry; apply app_nil_r|right; apply path_lt_ext]. Qed.
Lemma lt_not_le : forall a b, path_lt a b -> path_le b a -> False.
Proof. intros a b H [->|G]; [eapply path_lt_irrefl; eauto|eapply path_lt_asym; eauto]. Qed.
Lemma lt_le_lt : forall a b c, path_lt a b -> path_le b c -> path_lt a c.
Proof. intros a b c H [->|G]; [exact H|eapply path_lt_trans; eauto]. Qed.
Lemma le_lt_lt : forall a b c, path_le a b -> path_lt b c -> path_lt a c.
Proof. intros a b c [->|G] H; [exact H|eapply path_lt_trans; eauto]. Qed.
Lemma not_lt_le : forall a b, raw a -> raw b -> ~ path_lt a b -> path_le b a.
Proof. intros a b Ha Hb H. destruct (path_trichotomy a b Ha Hb) as [G|[G|G]]; [left; auto|contradiction|right; auto]. Qed.

(* Everything in sa comes before sb. *)
Lemma before : forall sa sb r, raw sa -> raw sb -> raw r -> path_lt sa sb ->
  (forall z, sb <> sa ++ slash :: z) -> path_lt (sa ++ slash :: r) sb.
Proof.
  intros sa sb r Ha Hb Hr L N.
  assert (R : raw (sa ++ slash :: r)).
  { apply raw_app. split; [exact Ha|]. constructor; [unfold is_byte, slash; lia|exact Hr]. }
  destruct (path_trichotomy (sa ++ slash :: r) sb R Hb) as [G|[G|G]]; [|exact G|].
  - exfalso. apply (N r). auto.
  - exfalso. destruct (between_prefix sa (slash :: r) sb) as [z Hz]; [right; exact L|right; exact G|].
    subst sb. apply path_lt_app_inv in G. destruct z as [|c z].
    + rewrite app_nil_r in L. eapply path_lt_irrefl; eauto.
    + inversion G as [|? ? ? ? B|? ? ? B]; subst.
      * unfold byte_lt in B. destruct B as [[B _]|[_ [B _]]]; [apply (N z); rewrite B; reflexivity|congruence].
      * apply (N z). reflexivity.
Qed.
Lemma raw_strip : forall a, raw a -> raw (strip a).
Proof. intros a H. destruct (strip_spec a) as [k [E _]]. rewrite E in H. apply raw_app in H. apply H. Qed.
Lemma path_le_refl' : forall a, path_le a a. Proof. left; reflexivity. Qed.
Lemma strip_le : forall a, path_le (strip a) a.
Proof. intros a. destruct (strip_spec a) as [k [E _]]. rewrite E at 2. apply path_le_app. Qed.
Lemma within_ge : forall a p, within a p -> path_le (strip a) p.
Proof.
  intros a p H. apply within_strip in H. destruct H as [->|[r ->]]; [apply strip_le|apply path_le_app].
Qed.
Lemma within_raw : forall a p r, p = strip a ++ slash :: r -> raw p -> raw r.
Proof. intros a p r -> H. apply raw_app in H. destruct H as [_ H]. inversion H; auto. Qed.

(* Two directories apart from each other: all of the first comes before all of
   the second. *)
Theorem apart_lt : forall a b p q, raw a -> raw b -> raw p -> raw q ->
  apart a b -> path_lt a b -> within a p -> within b q -> path_lt p q.
Proof.
  assert (K : forall a b, apart a b -> strip a <> strip b /\ (forall z, strip b <> strip a ++ slash :: z)).
  { intros a b [A B]. destruct (strip_spec a) as [k [Ea Na]], (strip_spec b) as [m [Eb Nb]]. split.
    - intros E. destruct k as [|k].
      + destruct m as [|m].
        * apply A. left. rewrite Eb, Ea, E. reflexivity.
        * apply A. apply within_strip. right. exists (repeat slash m). rewrite Eb, <- E. reflexivity.
      + apply B. apply within_strip. right. exists (repeat slash k). rewrite Ea, E. reflexivity.
    - intros z E. apply A. apply within_strip. right. exists (z ++ repeat slash m). rewrite Eb, E, <- app_assoc. reflexivity. }
  assert (M : forall a b p, raw a -> raw b -> raw p -> apart a b -> path_lt (strip a) (strip b) -> within a p -> path_lt p (strip b)).
  { intros a b p Ha Hb Hp AP L W. pose proof (K a b AP) as [K1 K2].
    assert (T : forall r, raw r -> path_lt (strip a ++ slash :: r) (strip b)).
    { intros r Hr. apply before; auto using raw_strip. }
    apply within_strip in W. destruct W as [->|[r E]].
    - destruct (strip_spec a) as [[|k] [Ea _]].
      + rewrite Ea, app_nil_r. exact L.
      + rewrite Ea. cbn [repeat]. apply T. rewrite Ea in Ha. apply raw_app in Ha. destruct Ha as [_ Ha]. inversion Ha; auto.
    - rewrite E. apply T. eapply within_raw; eauto. }
  intros a b p q Ha Hb Hp Hq AP L Wa Wb. pose proof (K a b AP) as [K1 K2].
  destruct (path_trichotomy (strip a) (strip b) (raw_strip a Ha) (raw_strip b Hb)) as [G|[G|G]].
  - contradiction.
  - eapply lt_le_lt; [apply (M a b p); auto|apply within_ge; exact Wb].
  - exfalso. assert (AP' : apart b a) by (destruct AP; split; auto).
    assert (Z : path_lt b (strip a)) by (apply (M b a b); auto using within_refl).
    eapply path_lt_asym; [exact L|]. eapply lt_le_lt; [exact Z|apply strip_le].
Qed.

(* ---------- sorting names ---------- *)
Lemma insert_perm : forall n l, Permutation (insert_name n l) (n :: l).
Proof.
  intros n. induction l as [|m l IH]; cbn [insert_name]; [reflexivity|].
  destruct (pathcmp_s n m <=? 0); [reflexivity|]. rewrite IH. apply perm_swap.
Qed.
Lemma sort_perm : forall l, Permutation (sort_names l) l.
Proof. induction l as [|n l IH]; cbn; [reflexivity|]. unfold sort_names in IH. rewrite insert_perm, IH. reflexivity. Qed.
Lemma insert_sorted : forall n l, raw n -> Forall raw l -> ~ In n l -> StronglySorted path_lt l -> StronglySorted path_lt (insert_name n l).
Proof.
  intros n l Hn. induction l as [|m l IH]; intros R N S; cbn [insert_name]; [repeat constructor|].
  inversion R; subst. inversion S as [|? ? S' F]; subst.
  destruct (Z.leb_spec (pathcmp_s n m) 0) as [L|L].
  - assert (G : path_lt n m).
    { apply pathcmp_s_le in L; auto. destruct L as [L|L]; [exfalso; apply N; left; auto|exact L]. }
    constructor; [exact S|]. constructor; [exact G|]. eapply Forall_impl; [|exact F]. intros x Hx. eapply path_lt_trans; eauto.
  - constructor.
    + apply IH; auto. intros X; apply N; right; exact X.
    + assert (G : path_lt m n) by (apply pathcmp_s_pos; auto; lia).
      eapply Permutation_Forall; [symmetry; apply insert_perm|]. constructor; auto.
Qed.
Lemma sort_sorted : forall l, Forall raw l -> NoDup l -> StronglySorted path_lt (sort_names l).
Proof.
  induction l as [|n l IH]; intros R N; [constructor|]. inversion R; inversion N; subst. cbn.
  apply insert_sorted; auto.
  - eapply Permutation_Forall; [symmetry; apply sort_perm|]. auto.
  - intros X. apply (Permutation_in _ (sort_perm l)) in X. contradiction.
Qed.

(* ---------- what a part of the scan sends ---------- *)
Definition out (x : st * list report * res) : list report := snd (fst x).
Definition end_st (x : st * list report * res) : st := fst (fst x).
Definition ending (x : st * list report * res) : res := snd x.

Definition has_path (P : bytes -> Prop) (e : iobuf) : Prop := exists p, ibuf e = Some p /\ cstr p /\ P p.
(* A strictly increasing part of the file list, with paths that satisfy P. *)
Definition good (P : bytes -> Prop) (l : list report) : Prop :=
  StronglySorted entry_lt (listed l) /\ Forall (has_path P) (listed l).

Lemma listed_app : forall a b, listed (a ++ b) = listed a ++ listed b.
Proof. induction a as [|[cmd p k|t p] a IH]; intros b; cbn; rewrite ?IH; reflexivity. Qed.
Lemma ss_app : forall (A : Type) (R : A -> A -> Prop) a b, StronglySorted R a -> StronglySorted R b ->
  (forall x y, In x a -> In y b -> R x y) -> StronglySorted R (a ++ b).
Proof.
  intros A R. induction a as [|x a IH]; intros b Sa Sb H; [exact Sb|]. inversion Sa; subst. cbn. constructor.
  - apply IH; auto. intros; apply H; [right|]; assumption.
  - apply Forall_app. split; [assumption|]. apply Forall_forall. intros y Hy. apply H; [left; reflexivity|exact Hy].
Qed.
Lemma good_app : forall (P Q T : bytes -> Prop) a b, good P a -> good Q b ->
  (forall p q, cstr p -> cstr q -> P p -> Q q -> path_lt p q) ->
  (forall p, P p -> T p) -> (forall p, Q p -> T p) -> good T (a ++ b).
Proof.
  intros P Q T a b [Sa Fa] [Sb Fb] H HP HQ. split; rewrite listed_app.
  - apply ss_app; auto. intros x y Hx Hy. rewrite Forall_forall in Fa, Fb.
    destruct (Fa x Hx) as [p [Ep [Cp Pp]]]. destruct (Fb y Hy) as [q [Eq [Cq Pq]]].
    left. unfold ipath. rewrite Ep, Eq. cbn. rewrite !cview_id by assumption. auto.
  - apply Forall_app. split.
    + eapply Forall_impl; [|exact Fa]. intros x [p [A [B C]]]. exists p. auto.
    + eapply Forall_impl; [|exact Fb]. intros x [p [A [B C]]]. exists p. auto.
Qed.
Lemma good_nil : forall (P : bytes -> Prop), good P [].
Proof. intros P. split; constructor. Qed.
Lemma good_impl : forall (P Q : bytes -> Prop) l, good P l -> (forall p, P p -> Q p) -> good Q l.
Proof.
  intros P Q l [S F] H. split; [exact S|]. eapply Forall_impl; [|exact F]. intros x [p [A [B C]]]. exists p. auto.
Qed.
Lemma good_impl_c : forall (P Q : bytes -> Prop) l, good P l -> (forall p, cstr p -> P p -> Q p) -> good Q l.
Proof.
  intros P Q l [S F] H. split; [exact S|]. eapply Forall_impl; [|exact F]. intros x [p [A [B C]]]. exists p. auto.
Qed.
Lemma good_andthen : forall (P Q T : bytes -> Prop) a k, good P (out a) -> good Q (out (k (end_st a))) ->
  (forall p q, cstr p -> cstr q -> P p -> Q q -> path_lt p q) ->
  (forall p, P p -> T p) -> (forall p, Q p -> T p) -> good T (out (andthen a k)).
Proof.
  intros P Q T [[s l] r] k Ha Hk H HP HQ. unfold andthen. destruct r.
  - cbn in Hk. destruct (k s) as [[s' l'] r']. cbn in *. eapply good_app; eauto.
  - cbn in *. eapply good_impl; eauto.
  - cbn in *. eapply good_impl; eauto.
Qed.

(* Something with one path. *)
Definition same (a p : bytes) : Prop := p = a.
Lemma sent_good : forall c s cmd path link, cstr path -> kind_of cmd = KPlain ->
  good (same path) (out (do_to_server c s cmd path link)).
Proof.
  intros c s cmd path link C K. unfold do_to_server, usual_stuff.
  assert (H : forall x, has_path (same path) (mkiobuf x (Some path))).
  { intros x. exists path. unfold same. auto. }
  destruct (c_wr c (s_n s)); [apply good_nil|]. cbn [out fst snd].
  destruct (c_meta c path cmd); [|split; cbn; [repeat constructor|constructor; [apply H|constructor]]].
  destruct (c_wr c (s_n (sent1 s))); cbn.
  - split; cbn; [repeat constructor|constructor; [apply H|constructor]].
  - split; cbn.
    + constructor; [repeat constructor|]. constructor; [|constructor]. right. cbn. split; [reflexivity|].
      unfold metasymbol. destruct (c_enc c); rewrite K; cbn; lia.
    + constructor; [apply H|]. constructor; [apply H|constructor].
Qed.
Lemma my_send_file_good : forall c s t path link, cstr path -> good (same path) (out (my_send_file c s t path link)).
Proof.
  intros c s t path link C.
  assert (F : kind_of (filesymbol c) = KPlain) by (unfold filesymbol; destruct (c_enc c); reflexivity).
  destruct t; cbn [my_send_file]; try (apply sent_good; [exact C|first [exact F|reflexivity]]);
    unfold ft_err; destruct (c_wr c (s_n s)); cbn; split; constructor.
Qed.
Lemma my_send_file_w_good : forall c s t path link top, cstr path -> good (same path) (out (my_send_file_w c s t path link top)).
Proof.
  intros c s t path link top C. unfold my_send_file_w.
  destruct (_ || _); [apply good_nil|]. destruct (_ && _); [apply good_nil|]. destruct (_ && _).
  - destruct (linkhash_search _ _ _) as [lp|]; [destruct (beqb _ _); [apply good_nil|]|]; apply my_send_file_good; exact C.
  - apply my_send_file_good; exact C.
Qed.
(* Sending changes neither the details of the file nor, for a directory, what
   kind of thing is sent. *)
Lemma my_send_file_stat : forall c s t path link, s_stat (end_st (my_send_file c s t path link)) = s_stat s.
Proof.
  intros c s t path link. unfold my_send_file, do_to_server, usual_stuff, ft_err.
  destruct t; destruct (c_wr c (s_n s)); try reflexivity;
    (destruct (c_meta c path _); [destruct (c_wr c (s_n (sent1 s)))|]; reflexivity).
Qed.
Lemma my_send_file_w_stat : forall c s t path link top, s_stat (end_st (my_send_file_w c s t path link top)) = s_stat s.
Proof.
  intros c s t path link top. unfold my_send_file_w.
  destruct (_ || _); [reflexivity|]. destruct (_ && _); [reflexivity|]. destruct (_ && _).
  - destruct (linkhash_search _ _ _) as [lp|]; [destruct (beqb _ _); [reflexivity|]|]; rewrite my_send_file_stat; reflexivity.
  - apply my_send_file_stat.
Qed.
Lemma warned : forall c s t path link top, st_mode (s_stat s) = MDir ->
  (t = FT_NOFSCHG \/ t = FT_NOOPEN) -> listed (out (my_send_file_w c s t path link top)) = [].
Proof.
  intros c s t path link top M T. unfold my_send_file_w.
  destruct (_ || _); [reflexivity|]. rewrite M. cbn [is_reg linkable andb]. rewrite andb_false_r.
  destruct T as [-> | ->]; cbn [my_send_file]; unfold ft_err; destruct (c_wr c (s_n s)); reflexivity.
Qed.

(* ---------- the scan ---------- *)
(* What is assumed of the configuration and of the file system: the directories
   are in order; the file system type of no directory keeps it out; there is no
   included directory inside an included directory inside something that is not
   included. *)
Definition dirs_ok (c : conf) : Prop := StronglySorted path_lt (map fst (c_dirs c)) /\ Forall (fun e => cstr (fst e)) (c_dirs c).
Definition no_fs_limits (c : conf) (f : fsys) : Prop := forall p, excfs f p = false /\ (c_has_incfs c = true -> incfs f p = true).
(* p is in a directory that is configured to be included. *)
Definition under (c : conf) (p : bytes) : Prop := exists d, In (d, true) (c_dirs c) /\ within d p.
(* No directory to include is in another one, seen from something excluded. *)
Definition not_nested (c : conf) : Prop := forall p x y, under c p -> file_is_included_no_incext c p = false ->
  In (x, true) (c_dirs c) -> In (y, true) (c_dirs c) -> within p x -> within x y -> y = x.

Lemma beneath_within : forall a p, beneath a p -> within a p.
Proof.
  intros a p [H|[[x H]|[d [y [x [E H]]]]]].
  - left; exact H.
  - right. exists a, 0%nat, x. cbn. rewrite app_nil_r. auto.
  - right. exists d, 1%nat, (y :: x). cbn. split; [exact E|]. rewrite H, E, <- app_assoc. reflexivity.
Qed.
Lemma subdir_within : forall a p, cstr a -> cstr p -> negb (is_subdir_s a p =? 0) = true -> within a p.
Proof.
  intros a p Ha Hp H. apply beneath_within. destruct (is_subdir_s_spec a p Ha Hp) as [[B _]|[_ E]]; [exact B|].
  rewrite E in H. discriminate.
Qed.
Lemma cstr_slash : cstr [slash].
Proof. repeat constructor; unfold slash; lia. Qed.
Lemma cstr_strip : forall a, cstr a -> cstr (strip a).
Proof. intros a H. destruct (strip_spec a) as [k [E _]]. rewrite E in H. apply cstr_app in H. apply H. Qed.

Lemma jump_good : forall c scan link l s, not_nested c -> under c link -> file_is_included_no_incext c link = false ->
  cstr link -> (forall e, In e l -> In e (c_dirs c)) -> StronglySorted path_lt (map fst l) -> Forall (fun e => cstr (fst e)) l ->
  (forall p s, cstr p -> under c p -> good (within p) (out (scan p s))) ->
  good (fun q => within link q /\ exists x, In (x, true) l /\ within link x /\ within x q) (out (jump scan link l s)).
Proof.
  intros c scan link l s NN UL NI CL. revert s. induction l as [|[p flag] l IH]; intros s I S C G; cbn [jump]; [apply good_nil|].
  cbn in S. inversion S as [|? ? S' F]; subst. inversion C as [|? ? Cp Cl]; subst. cbn in Cp.
  assert (IH' : forall s, good (fun q => within link q /\ exists x, In (x, true) l /\ within link x /\ within x q) (out (jump scan link l s))).
  { intros s0. apply IH; auto. intros e He; apply I; right; exact He. }
  destruct (flag && negb (is_subdir_s link p =? 0)) eqn:E.
  - apply andb_true_iff in E. destruct E as [-> E]. apply subdir_within in E; [|exact CL|exact Cp].
    eapply good_andthen; [apply G; [exact Cp|exists p; split; [apply I; left; reflexivity|apply within_refl]]|apply IH'| | |].
    + intros a b Ca Cb Wa [_ [x [Hx [Wl Wx]]]].
      assert (Lt : path_lt p x) by (rewrite Forall_forall in F; apply F; apply in_map_iff; exists (x, true); auto).
      apply (apart_lt p x); auto using cstr_raw.
      * apply cstr_raw. rewrite Forall_forall in Cl. apply (Cl _ Hx).
      * assert (Ip : In (p, true) (c_dirs c)) by (apply I; left; reflexivity).
        assert (Ix : In (x, true) (c_dirs c)) by (apply I; right; exact Hx).
        split; intros W.
        -- pose proof (NN link p x UL NI Ip Ix E W). subst x. eapply path_lt_irrefl; eauto.
        -- pose proof (NN link x p UL NI Ix Ip Wl W). subst x. eapply path_lt_irrefl; eauto.
    + intros q Wq. split; [eapply within_trans; eauto|]. exists p. split; [left; reflexivity|auto].
    + intros q [Wq [x [Hx H]]]. split; [exact Wq|]. exists x. split; [right; exact Hx|exact H].
  - eapply good_impl; [apply IH'|]. intros q [Wq [x [Hx H]]]. split; [exact Wq|]. exists x. split; [right; exact Hx|exact H].
Qed.

Lemma no_end_slash : forall base n, n <> [] -> ~ In slash n -> forall r, base ++ n <> r ++ [slash].
Proof.
  intros base n Hn Hs r E. destruct (exists_last Hn) as [n' [x Hx]]. subst n.
  rewrite app_assoc in E. apply app_inj_tail in E. destruct E as [_ E]. apply Hs. apply in_or_app. right. left. exact E.
Qed.
(* Names in one directory are apart. *)
Lemma app_nin : forall (a b x : bytes), ~ In slash a -> a ++ slash :: x = b -> ~ In slash b -> False.
Proof. intros a b x _ <- H. apply H. apply in_or_app. right; left; reflexivity. Qed.
Lemma siblings : forall base a b, a <> [] -> b <> [] -> ~ In slash a -> ~ In slash b -> a <> b -> apart (base ++ a) (base ++ b).
Proof.
  assert (K : forall base a b, a <> [] -> b <> [] -> ~ In slash a -> ~ In slash b -> a <> b -> ~ within (base ++ a) (base ++ b)).
  { intros base a b Ha Hb Sa Sb N W. apply within_strip in W. rewrite (strip_id _ (no_end_slash base a Ha Sa)) in W.
    destruct W as [E|[r E]]; [apply app_inv_head in E; congruence|].
    rewrite <- app_assoc in E. apply app_inv_head in E. subst b. apply Sb. apply in_or_app. right; left; reflexivity. }
  intros. split; apply K; auto.
Qed.

Definition name_ok (n : bytes) : Prop := cstr n /\ n <> [] /\ ~ In slash n.
Lemma process_good : forall c scan base names s, not_nested c -> dirs_ok c -> cstr base -> Forall name_ok names ->
  StronglySorted path_lt names -> (forall n, In n names -> under c (base ++ n)) -> (forall p s, cstr p -> under c p -> good (within p) (out (scan p s))) ->
  good (fun q => exists n, In n names /\ within (base ++ n) q) (out (process_entries c scan base names s)).
Proof.
  intros c scan base names s NN [DS DC] CB NO. revert s. induction names as [|n names IH]; intros s S U G; cbn [process_entries]; [apply good_nil|].
  inversion NO as [|? ? [Cn [En Sn]] NO']; subst. inversion S as [|? ? S' F]; subst.
  assert (CL : cstr (base ++ n)) by (apply cstr_app; auto).
  assert (UL : under c (base ++ n)) by (apply U; left; reflexivity).
  eapply (good_andthen (within (base ++ n))); [|apply IH; auto; intros m Hm; apply U; right; exact Hm| | |].
  - destruct (file_is_included_no_incext c (base ++ n)) eqn:I; [apply G; [exact CL|exact UL]|].
    eapply good_impl; [apply (jump_good c); auto|]. intros q [Wq _]. exact Wq.
  - intros p q Cp Cq Wp [m [Im Wm]]. rewrite Forall_forall in F, NO'. destruct (NO' m Im) as [Cm [Em Sm]].
    apply (apart_lt (base ++ n) (base ++ m)); auto using cstr_raw.
    + apply cstr_raw, cstr_app; auto.
    + apply siblings; auto. intros <-. eapply path_lt_irrefl. apply (F n Im).
    + apply path_lt_app. apply F; exact Im.
  - intros q W. exists n. split; [left; reflexivity|exact W].
  - intros q [m [Im W]]. exists m. split; [right; exact Im|exact W].
Qed.

(* A directory comes before what is in it. *)
Lemma dir_first : forall d n q, cstr d -> name_ok n -> cstr q -> within (strip d ++ [slash] ++ n) q -> path_lt d q.
Proof.
  intros d n q Cd [Cn [En Sn]] Cq W.
  assert (A : path_le (strip d ++ [slash] ++ n) q).
  { apply within_ge in W. rewrite app_assoc in W. rewrite (strip_id _ (no_end_slash (strip d ++ [slash]) n En Sn)) in W.
    rewrite <- app_assoc in W. exact W. }
  eapply lt_le_lt; [|exact A]. destruct (strip_spec d) as [k [E _]]. rewrite E at 1. apply path_lt_app.
  destruct n as [|x n]; [congruence|]. cbn [app].
  destruct k as [|[|k]]; cbn [repeat].
  - constructor.
  - apply plt_tail. constructor.
  - apply plt_tail. apply plt_head. left. split; [reflexivity|]. intros ->. apply Sn. left; reflexivity.
Qed.
Lemma child_within : forall d n q, within (strip d ++ [slash] ++ n) q -> within d q.
Proof.
  intros d n q W. eapply within_trans; [|exact W]. apply within_strip. right. exists n. reflexivity.
Qed.
Lemma listed_names_ok : forall f d l, names_ok f -> readdir f d = Names l ->
  Forall name_ok (sort_names (filter filter_dot l)) /\ StronglySorted path_lt (sort_names (filter filter_dot l)).
Proof.
  intros f d l H E. destruct (H d l E) as [N F].
  assert (F2 : Forall name_ok (filter filter_dot l)).
  { rewrite Forall_forall in *. intros n Hn. apply filter_In in Hn. apply F. apply Hn. }
  split.
  - eapply Permutation_Forall; [symmetry; apply sort_perm|exact F2].
  - apply sort_sorted; [|apply NoDup_filter; exact N]. eapply Forall_impl; [|exact F2]. intros n [C _]. apply cstr_raw; exact C.
Qed.

Theorem find_files_good : forall c f, not_nested c -> dirs_ok c -> names_ok f -> no_fs_limits c f ->
  forall fuel parent top fname s, cstr fname -> under c fname -> good (within fname) (out (find_files c f fuel parent top fname s)).
Proof.
  intros c f NN DO NO NF. induction fuel as [|k IH]; intros parent top fname s C [ud [U1 U2]]; cbn [find_files]; [apply good_nil|].
  assert (W1 : forall s t link, good (within fname) (out (my_send_file_w c s t fname link top))).
  { intros. eapply good_impl; [apply my_send_file_w_good; exact C|]. intros p ->. apply within_refl. }
  destruct (lstat f fname) as [x|]; [|apply W1].
  destruct (st_mode x) eqn:M; try (unfold found_other; apply W1).
  - unfold found_directory.
    eapply (good_andthen (same fname) (fun q => within fname q /\ path_lt fname q));
      [apply my_send_file_w_good; exact C| | | |].
    + set (s1 := end_st _).
      assert (M1 : st_mode (s_stat s1) = MDir) by (unfold s1; rewrite my_send_file_w_stat; exact M).
      destruct (nobackup_directory c f fname); [apply good_nil|].
      destruct (NF fname) as [E1 E2]. rewrite E1.
      assert (E3 : c_has_incfs c && negb (incfs f fname) = false).
      { destruct (c_has_incfs c); [rewrite (E2 eq_refl)|]; reflexivity. }
      cbv beta zeta. rewrite E3. cbn [orb]. rewrite andb_false_r. cbv iota. clear E3.
      assert (WN : forall t link, t = FT_NOFSCHG \/ t = FT_NOOPEN ->
        good (fun q => within fname q /\ path_lt fname q) (out (my_send_file_w c s1 t fname link top))).
      { intros t link T. unfold good. rewrite warned by assumption. split; constructor. }
      destruct (_ && _); [apply WN; auto|].
      destruct (readdir f fname) as [l| |] eqn:R; [|apply WN; auto|apply good_nil].
      destruct (listed_names_ok f fname l NO R) as [A B].
      eapply good_impl_c.
      * apply process_good; auto; [apply cstr_app; split; [apply cstr_strip; exact C|apply cstr_slash]|].
        intros n _. exists ud. split; [exact U1|]. eapply within_trans; [exact U2|]. rewrite <- app_assoc. eapply child_within. apply within_refl.
      * intros q Cq [n [Hn Wn]]. rewrite <- app_assoc in Wn. split; [eapply child_within; exact Wn|].
        rewrite Forall_forall in A. apply (dir_first fname n); auto.
    + intros p q _ _ -> [_ L]. exact L.
    + intros p ->. apply within_refl.
    + intros p [W _]. exact W.
  - destruct (existsb _ _); [unfold found_other|unfold found_soft_link; destruct (readlink f fname)]; apply W1.
Qed.

(* ---------- the lists of directories ---------- *)
Lemma strlist_add_in : forall u l p f e, raw p -> Forall (fun x => raw (fst x)) l ->
  (In e (strlist_add u l p f) <-> e = (p, f) \/ In e l).
Proof.
  intros u l p f e Rp. induction l as [|[q g] l IH]; intros R; cbn [strlist_add]; [cbn; intuition|].
  inversion R as [|? ? Rq Rl]; subst. cbn in Rq.
  destruct (u && (pathcmp_s p q =? 0) && Bool.eqb f g) eqn:E.
  - apply andb_true_iff in E. destruct E as [E F]. apply andb_true_iff in E. destruct E as [_ E].
    apply Z.eqb_eq in E. apply pathcmp_s_eq0 in E; auto. apply Bool.eqb_prop in F. subst. cbn. intuition.
  - destruct (pathcmp_s p q <? 0); [cbn; intuition|]. destruct ((pathcmp_s p q =? 0) && flag_lt f g); [cbn; intuition|].
    cbn. rewrite (IH Rl). intuition.
Qed.
Lemma strlist_add_raw : forall u l p f, raw p -> Forall (fun x => raw (fst x)) l -> Forall (fun x => raw (fst x)) (strlist_add u l p f).
Proof.
  intros u l p f Rp R. apply Forall_forall. intros e He. apply strlist_add_in in He; auto.
  destruct He as [->|He]; [exact Rp|]. rewrite Forall_forall in R. auto.
Qed.
Lemma strlist_add_sorted : forall u l p f, raw p -> Forall (fun x => raw (fst x)) l ->
  StronglySorted path_le (map fst l) -> StronglySorted path_le (map fst (strlist_add u l p f)).
Proof.
  intros u l p f Rp. induction l as [|[q g] l IH]; intros R S; cbn [strlist_add]; [repeat constructor|].
  inversion R as [|? ? Rq Rl]; subst. cbn in Rq. cbn [map fst] in S. inversion S as [|? ? S' F]; subst.
  destruct (u && _ && _); [exact S|].
  assert (C : path_le p q -> StronglySorted path_le (p :: q :: map fst l)).
  { intros L. constructor; [exact S|]. constructor; [exact L|]. eapply Forall_impl; [|exact F].
    intros x Hx. eapply path_le_trans; eauto. }
  destruct (Z.ltb_spec (pathcmp_s p q) 0) as [L|L].
  { apply C. right. apply pathcmp_s_neg; auto. }
  destruct ((pathcmp_s p q =? 0) && flag_lt f g) eqn:E.
  { apply andb_true_iff in E. destruct E as [E _]. apply Z.eqb_eq in E. apply C. left. apply pathcmp_s_eq0; auto. }
  cbn [map fst]. constructor; [apply IH; auto|]. apply Forall_forall. intros x Hx. apply in_map_iff in Hx.
  destruct Hx as [e [<- He]]. apply strlist_add_in in He; auto. destruct He as [->|He].
  - cbn. destruct (path_trichotomy p q Rp Rq) as [->|[G|G]]; [left; reflexivity| |right; exact G].
    apply pathcmp_s_neg in G; auto. lia.
  - rewrite Forall_forall in F. apply F. apply in_map. exact He.
Qed.
Lemma sorted_list_spec : forall flag paths, Forall raw paths ->
  StronglySorted path_le (map fst (sorted_list flag paths)) /\
  (forall e, In e (sorted_list flag paths) <-> snd e = flag /\ In (fst e) paths).
Proof.
  intros flag paths R. unfold sorted_list.
  assert (K : forall l, Forall (fun x => raw (fst x)) l -> StronglySorted path_le (map fst l) ->
    StronglySorted path_le (map fst (fold_left (fun l p => strlist_add false l p flag) paths l)) /\
    (forall e, In e (fold_left (fun l p => strlist_add false l p flag) paths l) <-> In e l \/ (snd e = flag /\ In (fst e) paths))).
  { induction R as [|p paths Rp R IH]; intros l Rl Sl; cbn [fold_left].
    - split; [exact Sl|]. intros e. cbn. intuition.
    - destruct (IH (strlist_add false l p flag)) as [A B]; [apply strlist_add_raw; auto|apply strlist_add_sorted; auto|].
      split; [exact A|]. intros e. rewrite B, strlist_add_in by assumption. destruct e as [q g]. cbn. split.
      + intros [[E|E]|E]; [injection E as -> ->; auto|auto|intuition].
      + intros [E|[<- [<-|E]]]; auto. }
  destruct (K []) as [A B]; [constructor|constructor|]. split; [exact A|]. intros e. rewrite B. cbn. intuition.
Qed.
Lemma incexc_munge_spec : forall src l d, Forall (fun x => raw (fst x)) src -> Forall (fun x => raw (fst x)) l ->
  StronglySorted path_le (map fst l) -> incexc_munge l src = Some d ->
  StronglySorted path_le (map fst d) /\ Forall (fun x => raw (fst x)) d /\ (forall e, In e d <-> In e l \/ In e src) /\
  Forall (fun x => is_absolute (fst x) = true) src.
Proof.
  induction src as [|[p f] src IH]; intros l d Rs Rl Sl E; cbn in E.
  - injection E as <-. cbn. intuition.
  - inversion Rs as [|? ? Rp Rs']; subst. cbn in Rp. destruct (is_absolute p) eqn:A; [|discriminate].
    destruct (IH (strlist_add true l p f) d) as [X [Y [Z W]]]; auto using strlist_add_raw, strlist_add_sorted.
    split; [exact X|]. split; [exact Y|]. split.
    + intros e. rewrite Z, strlist_add_in by assumption. cbn. intuition.
    + constructor; auto.
Qed.
Lemma no_dupes : forall l, StronglySorted path_le (map fst l) -> has_dupes l = false -> StronglySorted path_lt (map fst l).
Proof.
  intros l. induction l as [|[a f] l IH]; intros S D; [constructor|]. cbn [map fst] in *. inversion S as [|? ? S' F]; subst.
  destruct l as [|[b g] l]; [repeat constructor|]. cbn [has_dupes] in D. apply orb_false_iff in D. destruct D as [D1 D2].
  apply beqb_neq in D1. cbn [map fst] in *. specialize (IH S' D2). constructor; [exact IH|].
  inversion F as [|? ? F1 F2]; subst. destruct F1 as [F1|F1]; [congruence|].
  constructor; [exact F1|]. inversion IH; subst. eapply Forall_impl; [|eassumption]. intros x Hx. eapply path_lt_trans; eauto.
Qed.
(* The list of directories is strictly increasing and has what was configured. *)
Theorem incexc_dirs_spec : forall inc exc d, Forall (fun x => raw (fst x)) inc -> Forall (fun x => raw (fst x)) exc ->
  finalise_incexc_dirs inc exc = Some d ->
  StronglySorted path_lt (map fst d) /\ (forall e, In e d <-> In e inc \/ In e exc) /\
  Forall (fun x => is_absolute (fst x) = true) d.
Proof.
  intros inc exc d Ri Re E. unfold finalise_incexc_dirs in E.
  destruct (incexc_munge [] inc) as [l|] eqn:E1; [|discriminate]. destruct (incexc_munge l exc) as [l2|] eqn:E2; [|discriminate].
  destruct (has_dupes l2) eqn:D; [discriminate|]. injection E as <-.
  destruct (incexc_munge_spec inc [] l) as [A [B [C X]]]; [exact Ri|constructor|constructor|exact E1|].
  destruct (incexc_munge_spec exc l l2 Re B A E2) as [A2 [B2 [C2 X2]]].
  split; [apply no_dupes; auto|]. split.
  - intros e. rewrite C2, C. cbn. intuition.
  - apply Forall_forall. intros e He. apply C2 in He. rewrite C in He. rewrite Forall_forall in X, X2.
    destruct He as [[[]|He]|He]; auto.
Qed.

(* The start directories: some of the included ones; none is beneath another;
   every included directory is one of them or is beneath one of them. *)
Lemma start_dirs_spec : forall inc last l, Forall (fun x => cstr (fst x)) inc -> StronglySorted path_le (map fst inc) ->
  (forall d, last = Some d -> cstr d /\ Forall (path_le d) (map fst inc)) -> start_dirs last inc = Some l ->
  (forall e, In e l -> In e inc) /\
  StronglySorted (fun a b => path_lt a b /\ ~ beneath a b) (map fst l) /\
  (forall d, last = Some d -> Forall (fun x => path_lt d x /\ ~ beneath d x) (map fst l)) /\
  (forall e, In e inc -> (exists d, last = Some d /\ beneath d (fst e)) \/ (exists d, In d l /\ beneath (fst d) (fst e))).
Proof.
  induction inc as [|[p f] inc IH]; intros last l C S HL E; cbn [start_dirs] in E.
  - injection E as <-. repeat split; try constructor; cbn; intros; try contradiction; constructor.
  - inversion C as [|? ? Cp C']; subst. cbn in Cp. cbn [map fst] in S. inversion S as [|? ? S' F]; subst.
    destruct (is_absolute p); [|discriminate]. cbn [negb] in E.
    destruct (match last with Some d => negb (is_subdir_s d p =? 0) | None => false end) eqn:B.
    + destruct last as [d|]; [|discriminate]. destruct (HL d eq_refl) as [Cd Fd]. cbn [map fst] in Fd. inversion Fd; subst.
      assert (Bp : beneath d p).
      { destruct (is_subdir_s_spec d p Cd Cp) as [[X _]|[_ X]]; [exact X|]. rewrite X in B. discriminate. }
      destruct (IH (Some d) l C' S') as [A1 [A2 [A3 A4]]]; [|exact E|].
      { intros d' Ed. injection Ed as <-. auto. }
      split; [intros e He; right; apply A1; exact He|]. split; [exact A2|]. split; [exact A3|].
      intros e [<-|He]; [left; exists d; auto|]. apply A4; exact He.
    + destruct (start_dirs (Some p) inc) as [l'|] eqn:E'; [|discriminate]. injection E as <-.
      destruct (IH (Some p) l' C' S') as [A1 [A2 [A3 A4]]]; [|exact E'|].
      { intros d' Ed. injection Ed as <-. auto. }
      specialize (A3 p eq_refl). split; [|split; [|split]].
      * intros e [<-|He]; [left; reflexivity|right; apply A1; exact He].
      * cbn [map fst]. constructor; auto.
      * intros d Ed. destruct (HL d Ed) as [Cd Fd]. cbn [map fst] in Fd. inversion Fd as [|? ? Fp Fi]; subst.
        assert (Np : ~ beneath d p).
        { intros X. destruct (is_subdir_s_spec d p Cd Cp) as [[_ Y]|[Y _]]; [|contradiction].
          pose proof (slashes_nonneg d). apply negb_false_iff in B. apply Z.eqb_eq in B. lia. }
        assert (Lp : path_lt d p) by (destruct Fp as [<-|Fp]; [exfalso; apply Np; left; reflexivity|exact Fp]).
        cbn [map fst]. constructor; [split; auto|].
        eapply Forall_impl; [|exact A3]. intros x [Lx Nx]. split; [eapply path_lt_trans; eauto|].
        intros Bx. apply Np. apply (beneath_convex d p x); [right; exact Lp|right; exact Lx|exact Bx].
      * intros e [<-|He]; [right; exists (p, f); split; [left; reflexivity|left; reflexivity]|].
        destruct (A4 e He) as [[d [Ed Bd]]|[d [Hd Bd]]]; right.
        -- injection Ed as <-. exists (p, f). split; [left; reflexivity|exact Bd].
        -- exists d. split; [right; exact Hd|exact Bd].
Qed.
(* A path with at most one '/' at its end. *)
Definition one_slash (p : bytes) : Prop := forall s, p <> s ++ [slash; slash].
Lemma within_beneath : forall a p, one_slash a -> within a p -> beneath a p.
Proof.
  intros a p N W. apply within_strip in W. destruct W as [W|[r W]]; [left; exact W|].
  destruct (strip_spec a) as [k [E _]]. destruct k as [|[|k]].
  - rewrite app_nil_r in E. right; left. exists r. rewrite W, <- E. reflexivity.
  - cbn in E. destruct r as [|y r]; [left; congruence|]. right; right. exists (strip a), y, r. split; [exact E|].
    rewrite W. transitivity ((strip a ++ [slash]) ++ y :: r); [rewrite <- app_assoc|rewrite <- E]; reflexivity.
  - exfalso. rewrite !repeat_snoc, <- app_assoc in E. cbn in E. rewrite app_assoc in E. apply (N _ E).
Qed.

(* What makes the directories of a scan: lists of paths to include and to
   exclude. *)
Definition configured (incs excs : list bytes) (dirs starts : list ent) : Prop :=
  Forall cstr incs /\ Forall cstr excs /\
  finalise_incexc_dirs (sorted_list true incs) (sorted_list false excs) = Some dirs /\
  finalise_start_dirs (sorted_list true incs) = Some starts.

Lemma sorted_list_cstr : forall flag l, Forall cstr l -> Forall (fun x => cstr (fst x)) (sorted_list flag l).
Proof.
  intros flag l C. destruct (sorted_list_spec flag l) as [_ B]; [eapply Forall_impl; [|exact C]; intros; apply cstr_raw; auto|].
  apply Forall_forall. intros e He. apply B in He. rewrite Forall_forall in C. apply C. apply He.
Qed.
Theorem configured_spec : forall incs excs dirs starts, configured incs excs dirs starts ->
  StronglySorted path_lt (map fst dirs) /\ Forall (fun e => cstr (fst e)) dirs /\
  (forall p flag, In (p, flag) dirs <-> (flag = true /\ In p incs) \/ (flag = false /\ In p excs)) /\
  (forall p flag, In (p, flag) starts -> flag = true /\ In p incs) /\
  StronglySorted (fun a b => path_lt a b /\ ~ beneath a b) (map fst starts) /\
  (forall p, In p incs -> exists d, In (d, true) starts /\ beneath d p).
Proof.
  intros incs excs dirs starts [Ci [Ce [Ed Es]]].
  assert (Ri : Forall raw incs) by (eapply Forall_impl; [|exact Ci]; intros; apply cstr_raw; auto).
  assert (Re : Forall raw excs) by (eapply Forall_impl; [|exact Ce]; intros; apply cstr_raw; auto).
  destruct (sorted_list_spec true incs Ri) as [Si Ii]. destruct (sorted_list_spec false excs Re) as [Se Ie].
  pose proof (sorted_list_cstr true incs Ci) as Li. pose proof (sorted_list_cstr false excs Ce) as Le.
  assert (Rli : Forall (fun x : ent => raw (fst x)) (sorted_list true incs)) by (eapply Forall_impl; [|exact Li]; intros; apply cstr_raw; auto).
  assert (Rle : Forall (fun x : ent => raw (fst x)) (sorted_list false excs)) by (eapply Forall_impl; [|exact Le]; intros; apply cstr_raw; auto).
  destruct (incexc_dirs_spec _ _ dirs Rli Rle Ed) as [Sd [Id _]].
  unfold finalise_start_dirs in Es. destruct (start_dirs None (sorted_list true incs)) as [l|] eqn:E; [|discriminate].
  destruct (has_dupes l); [discriminate|]. injection Es as <-.
  destruct (start_dirs_spec _ None l Li Si) as [A1 [A2 [_ A4]]]; [discriminate|exact E|].
  split; [exact Sd|]. split; [|split; [|split; [|split; [exact A2|]]]].
  - apply Forall_forall. intros e He. apply Id in He. rewrite Forall_forall in Li, Le. destruct He; auto.
  - intros p flag. rewrite Id, Ii, Ie. cbn. intuition.
  - intros p flag H. apply A1 in H. apply Ii in H. cbn in H. exact H.
  - intros p Hp. assert (H : In (p, true) (sorted_list true incs)) by (apply Ii; auto).
    destruct (A4 _ H) as [[d [X _]]|[[d fl] [X Y]]]; [discriminate|]. cbn in Y.
    pose proof (A1 _ X) as Z. apply Ii in Z. cbn in Z. destruct Z as [-> _]. eauto.
Qed.

Lemma start_scan_good : forall c f fuel l s, not_nested c -> dirs_ok c -> names_ok f -> no_fs_limits c f ->
  (forall d, In (d, true) l -> In (d, true) (c_dirs c)) ->
  Forall (fun e => cstr (fst e) /\ one_slash (fst e)) l -> StronglySorted (fun a b => path_lt a b /\ ~ beneath a b) (map fst l) ->
  good (fun q => exists d, In (d, true) l /\ within d q) (out (start_scan c f fuel l s)).
Proof.
  intros c f fuel l s NN DO NO NF. revert s. induction l as [|[p flag] l IH]; intros s IL C S; cbn [start_scan]; [apply good_nil|].
  inversion C as [|? ? [Cp Op] C']; subst. cbn in Cp, Op. cbn [map fst] in S. inversion S as [|? ? S' F]; subst.
  assert (IH' : forall s, good (fun q => exists d, In (d, true) ((p, flag) :: l) /\ within d q) (out (start_scan c f fuel l s))).
  { intros s0. eapply good_impl; [apply IH; auto; intros d Hd; apply IL; right; exact Hd|]. intros q [d [H W]]. exists d. split; [right; exact H|exact W]. }
  destruct flag; [|apply IH'].
  eapply (good_andthen (within p) (fun q => exists d, In (d, true) l /\ within d q));
    [apply find_files_good; auto; exists p; split; [apply IL; left; reflexivity|apply within_refl]|apply IH; auto; intros d Hd; apply IL; right; exact Hd| | |].
  - intros a b Ca Cb Wa [d [Hd Wb]].
    assert (Id : In d (map fst l)) by (apply in_map_iff; exists (d, true); auto).
    rewrite Forall_forall in F, C'. destruct (F d Id) as [L N]. destruct (C' _ Hd) as [Cd Od]. cbn in Cd, Od.
    apply (apart_lt p d); auto using cstr_raw. split; intros W.
    + apply N. apply within_beneath; auto.
    + apply within_beneath in W; auto. apply beneath_ge in W. eapply lt_not_le; eauto.
  - intros q W. exists p. split; [left; reflexivity|exact W].
  - intros q [d [H W]]. exists d. split; [right; exact H|exact W].
Qed.

(* C40: the file list of a scan is strictly increasing. *)
Theorem scan_sorted : forall incs excs starts c f fuel, configured incs excs (c_dirs c) starts -> Forall one_slash incs ->
  names_ok f -> no_fs_limits c f -> not_nested c ->
  StronglySorted entry_lt (listed (fst (backup_phase1_client c f fuel starts))).
Proof.
  intros incs excs starts c f fuel H O NO NF NN.
  pose proof (configured_spec _ _ _ _ H) as [S [C [I [A [B _]]]]]. destruct H as [Ci _].
  assert (G := start_scan_good c f fuel starts (mkst stat0 linkhash_init 0) NN (conj S C) NO NF).
  unfold backup_phase1_client. destruct (start_scan c f fuel starts _) as [[s l] r]. cbn in G |- *.
  apply G; [intros d Hd; apply A in Hd; apply I; auto| |exact B]. apply Forall_forall. intros [p flag] Hp. apply A in Hp. rewrite Forall_forall in Ci, O. cbn. intuition.
Qed.

(* ---------- which directory decides (C39) ---------- *)
Lemma best_dir_spec : forall l fname longest best, 0 <= longest -> Forall (fun e => 0 <= is_subdir_s (fst e) fname) l ->
  (best_dir l fname longest best = best /\ Forall (fun e => is_subdir_s (fst e) fname < longest) l) \/
  (exists l1 e l2, l = l1 ++ e :: l2 /\ best_dir l fname longest best = Some e /\ longest <= is_subdir_s (fst e) fname /\
    Forall (fun x => is_subdir_s (fst x) fname <= is_subdir_s (fst e) fname) l1 /\
    Forall (fun x => is_subdir_s (fst x) fname < is_subdir_s (fst e) fname) l2).
Proof.
  induction l as [|e l IH]; intros fname longest best L N; cbn [best_dir]; [left; auto|].
  inversion N as [|? ? N1 N2]; subst. rewrite Z.geb_leb. destruct (Z.leb_spec longest (is_subdir_s (fst e) fname)) as [G|G].
  - right. destruct (IH fname (is_subdir_s (fst e) fname) (Some e) N1 N2) as [[E F]|[l1 [x [l2 [E [B [K [F1 F2]]]]]]]].
    + exists [], e, l. split; [reflexivity|]. split; [exact E|]. repeat split; auto.
    + exists (e :: l1), x, l2. split; [rewrite E; reflexivity|]. split; [exact B|]. split; [lia|]. split; [|exact F2].
      constructor; [exact K|exact F1].
  - destruct (IH fname longest best L N2) as [[E F]|[l1 [x [l2 [E [B [K [F1 F2]]]]]]]].
    + left. split; [exact E|]. constructor; auto.
    + right. exists (e :: l1), x, l2. split; [rewrite E; reflexivity|]. split; [exact B|]. split; [exact K|]. split; [|exact F2].
      constructor; [lia|exact F1].
Qed.
Lemma subdir_nonneg : forall a p, cstr a -> cstr p -> 0 <= is_subdir_s a p.
Proof. intros a p Ha Hp. pose proof (slashes_nonneg a). destruct (is_subdir_s_spec a p Ha Hp) as [[_ E]|[_ E]]; lia. Qed.
Lemma beneath_prefix : forall a p, beneath a p -> exists r, p = a ++ r.
Proof. intros a p [H|[[x H]|[d [y [x [_ H]]]]]]; [exists []; rewrite app_nil_r; exact H|eauto|eauto]. Qed.
Lemma shorter_first : forall a b p, beneath a p -> beneath b p -> (List.length a < List.length b)%nat -> path_lt a b.
Proof.
  intros a b p Ha Hb L. apply beneath_prefix in Ha. apply beneath_prefix in Hb. destruct Ha as [x Ha], Hb as [y Hb].
  assert (E : b = a ++ firstn (List.length b - List.length a) x).
  { assert (F : firstn (List.length b) p = b) by (rewrite Hb, firstn_app, Nat.sub_diag, firstn_all; cbn; apply app_nil_r).
    rewrite <- F at 1. rewrite Ha, firstn_app, firstn_all2 by lia. reflexivity. }
  rewrite E. destruct (firstn (List.length b - List.length a) x) as [|z w] eqn:K; [|apply path_lt_ext].
  rewrite app_nil_r in E. subst b. lia.
Qed.
(* e is the entry with the longest path among those that contain p. *)
Definition longest_containing (dirs : list ent) (p : bytes) (e : ent) : Prop :=
  In e dirs /\ beneath (fst e) p /\
  forall e', In e' dirs -> beneath (fst e') p -> (List.length (fst e') <= List.length (fst e))%nat.
Theorem best_is_longest : forall dirs p, StronglySorted path_lt (map fst dirs) -> Forall (fun e => cstr (fst e)) dirs -> cstr p ->
  (exists e, In e dirs /\ beneath (fst e) p) ->
  exists e, best_dir dirs p 0 None = Some e /\ longest_containing dirs p e.
Proof.
  intros dirs p S C Cp [e0 [I0 B0]].
  assert (N : Forall (fun e => 0 <= is_subdir_s (fst e) p) dirs).
  { eapply Forall_impl; [|exact C]. intros e Ce. apply subdir_nonneg; auto. }
  rewrite Forall_forall in C.
  assert (X0 : 0 < is_subdir_s (fst e0) p).
  { pose proof (slashes_nonneg (fst e0)). destruct (is_subdir_s_spec (fst e0) p (C _ I0) Cp) as [[_ E]|[E _]]; [lia|contradiction]. }
  destruct (best_dir_spec dirs p 0 None) as [[E F]|[l1 [e [l2 [E [B [K [F1 F2]]]]]]]]; [lia|exact N| |].
  - exfalso. rewrite Forall_forall in F. specialize (F e0 I0). lia.
  - exists e. split; [exact B|]. assert (Ie : In e dirs) by (rewrite E; apply in_or_app; right; left; reflexivity).
    assert (P : 0 < is_subdir_s (fst e) p).
    { rewrite Forall_forall in F1, F2. rewrite E in I0. apply in_app_iff in I0. destruct I0 as [I0|[I0|I0]].
      - specialize (F1 e0 I0). lia.
      - subst e0. lia.
      - specialize (F2 e0 I0). lia. }
    assert (Be : beneath (fst e) p) by (destruct (is_subdir_s_spec (fst e) p (C _ Ie) Cp) as [[X _]|[_ X]]; [exact X|lia]).
    split; [exact Ie|]. split; [exact Be|]. intros e' I' B'.
    destruct (Nat.le_gt_cases (List.length (fst e')) (List.length (fst e))) as [L|L]; [exact L|exfalso].
    assert (P' : 0 < is_subdir_s (fst e') p).
    { pose proof (slashes_nonneg (fst e')). destruct (is_subdir_s_spec (fst e') p (C _ I') Cp) as [[_ X]|[X _]]; [lia|contradiction]. }
    destruct (is_subdir_deeper (fst e) (fst e') p) as [D _]; auto; try lia.
    rewrite E in I'. apply in_app_iff in I'. destruct I' as [I'|[I'|I']].
    + assert (LT : path_lt (fst e') (fst e)).
      { rewrite E, map_app in S. cbn [map] in S. clear - S I'. induction l1 as [|x l1 IH]; [contradiction|].
        cbn in S. inversion S as [|? ? S' F]; subst. destruct I' as [->|I']; [|apply IH; auto].
        rewrite Forall_forall in F. apply F. apply in_or_app. right; left; reflexivity. }
      eapply path_lt_asym; [exact LT|]. eapply shorter_first; eauto.
    + subst e'. lia.
    + rewrite Forall_forall in F2. specialize (F2 e' I'). lia.
Qed.
Theorem longest_unique : forall dirs p e e', StronglySorted path_lt (map fst dirs) ->
  longest_containing dirs p e -> longest_containing dirs p e' -> e = e'.
Proof.
  intros dirs p e e' S [I [B M]] [I' [B' M']].
  assert (L : List.length (fst e) = List.length (fst e')) by (apply Nat.le_antisymm; auto).
  assert (F : fst e = fst e').
  { apply beneath_prefix in B, B'. destruct B as [r B], B' as [r' B'].
    assert (X : firstn (List.length (fst e)) p = fst e) by (rewrite B at 1; rewrite firstn_app, Nat.sub_diag, firstn_all; apply app_nil_r).
    assert (X' : firstn (List.length (fst e')) p = fst e') by (rewrite B' at 1; rewrite firstn_app, Nat.sub_diag, firstn_all; apply app_nil_r).
    congruence. }
  clear - S I I' F. induction dirs as [|x dirs IH]; [contradiction|]. cbn in S. inversion S as [|? ? S' G]; subst.
  rewrite Forall_forall in G. destruct I as [->|I], I' as [I'|I'].
  - auto.
  - exfalso. eapply path_lt_irrefl. specialize (G (fst e') (in_map _ _ _ I')). rewrite F in G. exact G.
  - subst x. exfalso. eapply path_lt_irrefl. specialize (G (fst e) (in_map _ _ _ I)). rewrite F in G. exact G.
  - auto.
Qed.

(* Whether the extension and the regular expressions let a path through. *)
Definition filtered (c : conf) (p : bytes) : bool :=
  in_exclude_ext (c_excext c) p || in_exclude_regex c p || negb (in_include_regex c p).
Theorem included_longest : forall c p e, dirs_ok c -> cstr p -> longest_containing (c_dirs c) p e ->
  file_is_included_no_incext c p = negb (filtered c p) && snd e.
Proof.
  intros c p e [S C] Cp L. destruct (best_is_longest (c_dirs c) p S C Cp) as [e' [B L']].
  { exists e. destruct L as [I [X _]]. auto. }
  unfold file_is_included_no_incext, filtered. rewrite B, (longest_unique _ _ _ _ S L L').
  destruct (_ || _ || _); reflexivity.
Qed.

(* ---------- extensions ---------- *)
Lemma dot_split : forall (b1 e1 b2 e2 : bytes), b1 ++ dot :: e1 = b2 ++ dot :: e2 -> ~ In dot e1 -> ~ In dot e2 -> e1 = e2.
Proof.
  induction b1 as [|x b1 IH]; intros e1 b2 e2 E N1 N2; destruct b2 as [|y b2]; cbn in E.
  - congruence.
  - injection E as _ E. subst e1. exfalso. apply N1. apply in_or_app. right; left; reflexivity.
  - injection E as _ E. subst e2. exfalso. apply N2. apply in_or_app. right; left; reflexivity.
  - injection E as _ E. eapply IH; eauto.
Qed.
Lemma suffix_dot : forall (X after base e : bytes), X ++ after = base ++ dot :: e -> (List.length e < List.length after)%nat -> In dot after.
Proof.
  induction X as [|x X IH]; intros after base e E L; cbn in E.
  - rewrite E. apply in_or_app. right; left; reflexivity.
  - destruct base as [|y base]; cbn in E; injection E as E1 E2.
    + subst e. rewrite app_length in L. lia.
    + eapply IH; eauto.
Qed.
Lemma ext_loop_spec : forall items back after n, ~ In dot after ->
  (ext_loop items back after n = Some true <->
   exists base e, rev back ++ after = base ++ dot :: e /\ ~ In dot e /\ (List.length e < List.length after + n)%nat /\
     existsb (fun i => casecmp0 i e) items = true).
Proof.
  intros items back. induction back as [|x back IH]; intros after n N.
  - split; [destruct n; discriminate|]. intros [base [e [E _]]]. cbn in E. exfalso. apply N. rewrite E. apply in_or_app. right; left; reflexivity.
  - destruct n as [|n]; cbn [ext_loop].
    + split; [discriminate|]. intros [base [e [E [Ne [L _]]]]]. exfalso. rewrite Nat.add_0_r in L.
      apply N. eapply suffix_dot; eauto.
    + destruct (Z.eqb_spec x dot) as [->|D].
      * split.
        -- intros H. injection H as H. exists (rev back), after. cbn [rev]. rewrite <- app_assoc. repeat split; auto. lia.
        -- intros [base [e [E [Ne [L X]]]]]. cbn [rev] in E. rewrite <- app_assoc in E. cbn in E.
           rewrite (dot_split _ _ _ _ E N Ne). rewrite X. reflexivity.
      * rewrite IH by (intros [H|H]; [congruence|contradiction]). cbn [rev List.length].
        split; intros [base [e [E R]]]; exists base, e; rewrite <- app_assoc in *; cbn [app] in *; intuition lia.
Qed.
Lemma max_ext_ge : forall items m, m <= fold_left (fun m p => if Z.of_nat (List.length p) >? m then Z.of_nat (List.length p) else m) items m /\
  Forall (fun i : bytes => Z.of_nat (List.length i) <= fold_left (fun m p => if Z.of_nat (List.length p) >? m then Z.of_nat (List.length p) else m) items m) items.
Proof.
  induction items as [|i items IH]; intros m; cbn [fold_left]; [split; [lia|constructor]|].
  set (m' := if Z.of_nat (List.length i) >? m then Z.of_nat (List.length i) else m).
  assert (M : m <= m' /\ Z.of_nat (List.length i) <= m').
  { unfold m'. destruct (Z.gtb_spec (Z.of_nat (List.length i)) m); lia. }
  destruct (IH m') as [A B]. split; [lia|]. constructor; [lia|exact B].
Qed.
Lemma casecmp_len : forall a b, casecmp0 a b = true -> List.length a = List.length b.
Proof.
  intros a b H. apply beqb_eq in H. apply (f_equal (@List.length Z)) in H. unfold strlwr in H. rewrite !map_length in H. exact H.
Qed.
(* The extension of a path: what follows its last '.'. *)
Definition has_ext (items : list bytes) (p : bytes) : Prop :=
  exists base e i, p = base ++ dot :: e /\ ~ In dot e /\ In i items /\ map tolower i = map tolower e.
Theorem ext_match_spec : forall items p, ext_match (set_max_ext items) p = true <-> has_ext items p.
Proof.
  intros items p. unfold ext_match. cbn [e_items e_flag set_max_ext].
  destruct (max_ext_ge items 0) as [M0 M]. match goal with |- context [fold_left ?g items 0] => set (m := fold_left g items 0) in * end.
  assert (K := ext_loop_spec items (rev p) [] (Z.to_nat (m + 1)) (fun H => H)).
  rewrite rev_involutive, app_nil_r in K. cbn [List.length] in K.
  split.
  - intros H. destruct (ext_loop items (rev p) [] _) as [[|]|] eqn:E; try discriminate.
    destruct K as [K _]. destruct (K eq_refl) as [base [e [E1 [E2 [_ E3]]]]]. apply existsb_exists in E3.
    destruct E3 as [i [I1 I2]]. exists base, e, i. apply beqb_eq in I2. unfold strlwr in I2. auto.
  - intros [base [e [i [E1 [E2 [I1 I2]]]]]]. destruct K as [_ K]. rewrite K; [reflexivity|].
    assert (C : casecmp0 i e = true) by (unfold casecmp0, strlwr; rewrite I2; apply beqb_eq; reflexivity).
    exists base, e. repeat split; auto.
    + apply casecmp_len in C. rewrite Forall_forall in M. specialize (M i I1). lia.
    + apply existsb_exists. exists i. auto.
Qed.

(* ---------- what is visited, and what is sent (C56) ---------- *)
Definition child (d n : bytes) : bytes := (strip d ++ [slash]) ++ n.
(* d is a directory whose contents are looked at. *)
Definition opened (c : conf) (f : fsys) (d : bytes) (l : list bytes) : Prop :=
  (exists x, lstat f d = Some x /\ st_mode x = MDir) /\
  (forall n, In n (c_nobackup c) -> lstat f (prepend_s d n) = None) /\
  readdir f d = Names l.
(* From a to something in it: a name in it that is included, or an included
   directory somewhere in a name that is not. *)
Definition step (c : conf) (f : fsys) (a b : bytes) : Prop :=
  exists l n, opened c f a l /\ In n l /\ n <> [dot] /\ n <> [dot; dot] /\
  ((file_is_included_no_incext c (child a n) = true /\ b = child a n) \/
   (file_is_included_no_incext c (child a n) = false /\ In (b, true) (c_dirs c) /\ beneath (child a n) b)).
Inductive visits (c : conf) (f : fsys) : bytes -> bytes -> Prop :=
| v_here : forall a, visits c f a a
| v_step : forall a b p, step c f a b -> visits c f b p -> visits c f a p.

Lemma visits_trans : forall c f a b p, visits c f a b -> visits c f b p -> visits c f a p.
Proof. intros c f a b p H. induction H; intros; [assumption|]. eapply v_step; eauto. Qed.

(* Read like a file if that was asked for (for all, or for this one), else only
   its details are sent. *)
Definition read_or_special (c : conf) (all : bool) (l : list bytes) (p : bytes) (cmd : Z) : Prop :=
  ((all = true \/ In p l) /\ cmd = filesymbol c) \/ (~ (all = true \/ In p l) /\ cmd = CMD_SPECIAL).
Lemma asked_iff : forall (all : bool) l p, all || existsb (fun q => beqb q p) l = true <-> all = true \/ In p l.
Proof.
  intros all l p. rewrite orb_true_iff, existsb_exists. split; intros [H|H]; auto; right.
  - destruct H as [q [H E]]. apply beqb_eq in E. subst. exact H.
  - exists p. split; [exact H|apply beqb_eq; reflexivity].
Qed.
Lemma asked_false : forall (all : bool) l p, all || existsb (fun q => beqb q p) l = false <-> ~ (all = true \/ In p l).
Proof. intros all l p. rewrite <- asked_iff. destruct (all || _); split; congruence. Qed.
(* The limits on the size of a file; 0 is no limit. *)
Definition size_ok (c : conf) (x : stat) : Prop :=
  (c_minsize c = 0 \/ c_minsize c <= st_size x) /\ (c_maxsize c = 0 \/ st_size x <= c_maxsize c).
Lemma size_match_iff : forall c x, file_size_match c x = true <-> size_ok c x.
Proof.
  intros c x. unfold file_size_match, size_ok.
  destruct (c_minsize c =? 0) eqn:A, (c_maxsize c =? 0) eqn:B, (st_size x <? c_minsize c) eqn:C, (st_size x >? c_maxsize c) eqn:D; cbn;
    rewrite ?Z.eqb_eq, ?Z.eqb_neq, ?Z.ltb_lt, ?Z.ltb_ge in *; rewrite Z.gtb_ltb in D; rewrite ?Z.ltb_lt, ?Z.ltb_ge in D; split; intros; try discriminate; lia.
Qed.
(* What the filters leave out: names with one of the extensions to exclude, names
   that an expression to exclude matches, and, when there are expressions to
   include, names that none of them matches. *)
Lemma exists_no : forall (A : Type) (g : A -> bool) l, existsb g l = false <-> forall x, In x l -> g x = false.
Proof.
  intros A g l. induction l as [|a l IH]; cbn; [split; [intros _ x []|reflexivity]|]. rewrite orb_false_iff, IH.
  split; [intros [P Q] x [<-|H]; auto|intros H; split; [apply H|intros x X; apply H]; auto].
Qed.
Theorem filtered_iff : forall c p items, c_excext c = set_max_ext items ->
  filtered c p = true <->
  has_ext items p \/ (exists r, In r (c_excreg c) /\ c_re c r p = true) \/
  (c_increg c <> [] /\ forall r, In r (c_increg c) -> c_re c r p = false).
Proof.
  intros c p items H. unfold filtered, in_exclude_ext, in_exclude_regex, in_include_regex. rewrite H, !orb_true_iff, existsb_exists, negb_true_iff.
  assert (E : match e_items (set_max_ext items) with [] => false | _ => ext_match (set_max_ext items) p end = true <-> has_ext items p).
  { rewrite <- ext_match_spec. destruct (e_items (set_max_ext items)) eqn:X; [|reflexivity]. split; [discriminate|].
    unfold ext_match. rewrite X. destruct (ext_loop [] _ _ _) as [b|] eqn:Y; [|discriminate]. intros ->. exfalso. clear -Y.
    revert Y. generalize (@nil Z) as after, (Z.to_nat (e_flag (set_max_ext items))) as n. induction (rev p) as [|a b IH]; intros after n Y; destruct n; cbn in Y; try discriminate.
    destruct (a =? dot); [discriminate|]. eapply IH; exact Y. }
  rewrite E. destruct (c_increg c) as [|r l] eqn:R.
  - split; [intros [[A|B]|C]; auto; discriminate|intros [A|[B|[C _]]]; auto; congruence].
  - rewrite exists_no. split; [intros [[A|B]|C]; auto; right; right; split; [discriminate|exact C]|intros [A|[B|[_ C]]]; auto].
Qed.
(* The list of extensions to include: nothing else is let through, unless it is
   empty. *)
Theorem include_ext_iff : forall items p, in_include_ext (set_max_ext items) p = true <-> items = [] \/ has_ext items p.
Proof.
  intros items p. unfold in_include_ext. rewrite <- ext_match_spec.
  assert (E : e_items (set_max_ext items) = [] <-> items = []).
  { destruct items as [|i r]; cbn; [split; auto|]. split; discriminate. }
  destruct (e_items (set_max_ext items)) eqn:X.
  - split; [intros _; left; apply E; reflexivity|reflexivity].
  - split; [auto|]. intros [Y|Y]; [apply E in Y; discriminate|exact Y].
Qed.
(* What an entry for something with the details x may say. *)
Definition true_kind (c : conf) (f : fsys) (p : bytes) (x : stat) (cmd : Z) (link : option bytes) : Prop :=
  cmd = metasymbol c \/
  (cmd = CMD_HARD_LINK /\ 1 < st_nlink x /\ st_mode x <> MDir) \/
  match st_mode x with
  | MReg => cmd = filesymbol c
  | MDir => cmd = CMD_DIRECTORY
  | MLnk => (cmd = CMD_SOFT_LINK /\ link = readlink f p /\ ~ In p (c_blockdevs c)) \/ (In p (c_blockdevs c) /\ cmd = filesymbol c)
  | MBlk => read_or_special c (c_allblockdevs c) (c_blockdevs c) p cmd
  | MFifo => read_or_special c (c_allfifos c) (c_fifos c) p cmd
  | _ => cmd = CMD_SPECIAL
  end.
Definition cmd_of (c : conf) (t : ftype) : option Z :=
  match t with
  | FT_REG | FT_RAW | FT_FIFO => Some (filesymbol c)
  | FT_DIR => Some CMD_DIRECTORY | FT_LNK_S => Some CMD_SOFT_LINK | FT_LNK_H => Some CMD_HARD_LINK
  | FT_SPEC => Some CMD_SPECIAL
  | _ => None
  end.
Lemma server_entries : forall c s cmd0 path lk cmd p link, In (Entry cmd p link) (out (do_to_server c s cmd0 path lk)) ->
  p = path /\ (cmd = metasymbol c \/ (cmd = cmd0 /\ (cmd = CMD_SOFT_LINK -> link = lk))).
Proof.
  intros c s cmd0 path lk cmd p link H. unfold do_to_server, usual_stuff in H.
  destruct (c_wr c (s_n s)); [contradiction|]. destruct (c_meta c path cmd0); [destruct (c_wr c (s_n (sent1 s)))|]; cbn in H.
  - destruct H as [H|[]]. injection H as <- <- <-. split; [reflexivity|]. right. split; [reflexivity|]. intros ->. reflexivity.
  - destruct H as [H|[H|[]]]; injection H as <- <- <-; (split; [reflexivity|]); [right|left; reflexivity].
    split; [reflexivity|]. intros ->. reflexivity.
  - destruct H as [H|[]]. injection H as <- <- <-. split; [reflexivity|]. right. split; [reflexivity|]. intros ->. reflexivity.
Qed.
Lemma send_entries : forall c s t path lk cmd p link, In (Entry cmd p link) (out (my_send_file c s t path lk)) ->
  p = path /\ (cmd = metasymbol c \/ (cmd_of c t = Some cmd /\ (cmd = CMD_SOFT_LINK -> link = lk))).
Proof.
  intros c s t path lk cmd p link H.
  assert (F : forall t, In (Entry cmd p link) (out (ft_err c s t path)) -> False).
  { intros t0 X. unfold ft_err in X. destruct (c_wr c (s_n s)); [contradiction|]. destruct X as [X|[]]; discriminate. }
  destruct t; cbn [my_send_file] in H; try (exfalso; eapply F; exact H);
    (apply server_entries in H; destruct H as [-> [H|[-> H]]]; (split; [reflexivity|]); [left; exact H|right; split; [reflexivity|exact H]]).
Qed.
Lemma send_w_entries : forall c s t path lk top cmd p link, In (Entry cmd p link) (out (my_send_file_w c s t path lk top)) ->
  p = path /\ file_is_included c path top = true /\ c_logic c path (s_stat s) = false /\
  (is_reg (st_mode (s_stat s)) = true -> file_size_match c (s_stat s) = true) /\
  (cmd = metasymbol c \/ (cmd = CMD_HARD_LINK /\ 1 < st_nlink (s_stat s) /\ linkable (st_mode (s_stat s)) = true) \/
   (cmd_of c t = Some cmd /\ (cmd = CMD_SOFT_LINK -> link = lk))).
Proof.
  intros c s t path lk top cmd p link H. unfold my_send_file_w in H. cbv zeta in H.
  destruct (file_is_included c path top); [|contradiction]. destruct (c_logic c path (s_stat s)); [contradiction|]. cbn [negb orb] in H.
  destruct (is_reg (st_mode (s_stat s))) eqn:Rg; cbn [andb] in H.
  - destruct (file_size_match c (s_stat s)); [|contradiction]. cbn [negb] in H.
    destruct ((st_nlink (s_stat s) >? 1) && linkable (st_mode (s_stat s))) eqn:L.
    + apply andb_true_iff in L. destruct L as [L1 L2]. apply Z.gtb_lt in L1.
      destruct (linkhash_search _ _ _) as [lp|]; [destruct (beqb _ _); [contradiction|]|];
        apply send_entries in H; destruct H as [-> [H|[H K]]]; repeat (split; [auto; fail|]); auto.
      right; left. cbn in H. injection H as <-. auto.
    + apply send_entries in H. destruct H as [-> [H|[H K]]]; repeat (split; [auto; fail|]); auto.
  - destruct ((st_nlink (s_stat s) >? 1) && linkable (st_mode (s_stat s))) eqn:L.
    + apply andb_true_iff in L. destruct L as [L1 L2]. apply Z.gtb_lt in L1.
      destruct (linkhash_search _ _ _) as [lp|]; [destruct (beqb _ _); [contradiction|]|];
        apply send_entries in H; destruct H as [-> [H|[H K]]]; (split; [auto; fail|]; split; [auto; fail|]; split; [auto; fail|]; split; [discriminate|]); auto.
      right; left. cbn in H. injection H as <-. auto.
    + apply send_entries in H. destruct H as [-> [H|[H K]]]; (split; [auto; fail|]; split; [auto; fail|]; split; [auto; fail|]; split; [discriminate|]); auto.
Qed.

(* A statement about every entry that is sent. *)
Definition each (E : Z -> bytes -> option bytes -> Prop) (l : list report) : Prop :=
  forall cmd p link, In (Entry cmd p link) l -> E cmd p link.
Lemma each_andthen : forall (E : Z -> bytes -> option bytes -> Prop) a k, each E (out a) -> each E (out (k (end_st a))) -> each E (out (andthen a k)).
Proof.
  intros E [[s l] r] k A B. unfold andthen. destruct r; try exact A. cbn in B. destruct (k s) as [[s' l'] r'].
  intros cmd p link H. cbn in H. apply in_app_iff in H. destruct H as [H|H]; [apply (A _ _ _ H)|apply (B _ _ _ H)].
Qed.
Lemma each_nil : forall (E : Z -> bytes -> option bytes -> Prop), each E [].
Proof. intros E cmd p link []. Qed.

(* What the scan of a says: about things that are visited from a, that are
   included and that the filters let through (the list of extensions to include
   is not for the starting directory); the kind is the true one, or the details
   could not be read. *)
Definition said (c : conf) (f : fsys) (top : bool) (a : bytes) (cmd : Z) (p : bytes) (link : option bytes) : Prop :=
  visits c f a p /\ file_is_included_no_incext c p = true /\
  ((p = a /\ top = true) \/ in_include_ext (c_incext c) p = true) /\
  ((exists x, lstat f p = Some x /\ true_kind c f p x cmd link /\ (st_mode x <> MLnk -> c_logic c p x = false) /\
      (st_mode x = MReg -> size_ok c x)) \/
   (lstat f p = None /\ (cmd = CMD_HARD_LINK \/ cmd = metasymbol c))).
Lemma said_weaken : forall c f top a b cmd p link, visits c f a b -> said c f false b cmd p link -> said c f top a cmd p link.
Proof. intros c f top a b cmd p link V [A [B [[[_ X]|X] D]]]; [discriminate|]. split; [eapply visits_trans; eauto|auto]. Qed.

Lemma filter_dot_iff : forall n, filter_dot n = true <-> n <> [dot] /\ n <> [dot; dot].
Proof.
  intros n. unfold filter_dot. rewrite andb_true_iff, !negb_true_iff, !beqb_neq. reflexivity.
Qed.
Lemma in_sorted_names : forall n l, In n (sort_names (filter filter_dot l)) <-> In n l /\ n <> [dot] /\ n <> [dot; dot].
Proof.
  intros n l. split; intros H.
  - apply (Permutation_in _ (sort_perm _)) in H. apply filter_In in H. destruct H as [H1 H2]. apply filter_dot_iff in H2. tauto.
  - apply (Permutation_in _ (Permutation_sym (sort_perm _))). apply filter_In. rewrite filter_dot_iff. tauto.
Qed.
Lemma nobackup_iff : forall c f d, nobackup_directory c f d = false <-> forall n, In n (c_nobackup c) -> lstat f (prepend_s d n) = None.
Proof.
  intros c f d. unfold nobackup_directory. induction (c_nobackup c) as [|n l IH]; cbn; [split; [contradiction|reflexivity]|].
  rewrite orb_false_iff, IH. split.
  - intros [A B] m [<-|H]; [destruct (lstat f (prepend_s d n)); [discriminate|reflexivity]|auto].
  - intros H. split; [rewrite (H n (or_introl eq_refl)); reflexivity|auto].
Qed.

Lemma included_both : forall c p top, file_is_included c p top = true -> file_is_included_no_incext c p = true.
Proof. intros c p top H. unfold file_is_included in H. destruct (_ && _); [discriminate|exact H]. Qed.
Lemma included_ext : forall c p top, file_is_included c p top = true -> (p = p /\ top = true) \/ in_include_ext (c_incext c) p = true.
Proof. intros c p top H. unfold file_is_included in H. destruct top; [auto|]. destruct (in_include_ext _ _); [auto|discriminate]. Qed.
Theorem find_files_sound : forall c f, dirs_ok c -> names_ok f -> forall fuel parent top a s, cstr a ->
  each (said c f top a) (out (find_files c f fuel parent top a s)).
Proof.
  intros c f [_ DC] NO. induction fuel as [|k IH]; intros parent top a s C; cbn [find_files]; [apply each_nil|].
  destruct (lstat f a) as [x|] eqn:Lx.
  2: { intros cmd p link H. apply send_w_entries in H. destruct H as [-> [I [_ [_ H]]]]. split; [constructor|]. split; [eapply included_both; exact I|]. split; [apply (included_ext c a top I)|].
       right. split; [exact Lx|]. destruct H as [H|[[H _]|[H _]]]; auto. cbn in H. discriminate. }
  assert (W : forall s t lk, (s_stat s = x \/ (st_mode x = MLnk /\ In a (c_blockdevs c) /\ s_stat s = mkstat (st_dev x) (st_ino x) (st_nlink x) MBlk (st_size x))) ->
     (forall cmd link, cmd_of c t = Some cmd -> (cmd = CMD_SOFT_LINK -> link = lk) -> true_kind c f a x cmd link) ->
     each (said c f top a) (out (my_send_file_w c s t a lk top))).
  { intros s0 t lk S0 K cmd p link H. apply send_w_entries in H. destruct H as [-> [I [LG [SZ H]]]]. split; [constructor|]. split; [eapply included_both; exact I|]. split; [apply (included_ext c a top I)|].
    left. exists x. split; [exact Lx|]. split.
    2: { destruct S0 as [S0|[M [_ S0]]]; rewrite S0 in *.
         - split; [auto|]. intros M. apply size_match_iff, SZ. rewrite M. reflexivity.
         - split; intros M'; rewrite M in M'; [contradiction|discriminate]. }
    destruct H as [H|[[H [N LK]]|[H L]]].
    - left; exact H.
    - right; left. split; [exact H|]. destruct S0 as [S0|[M [_ S0]]]; rewrite S0 in *.
      + split; [exact N|]. intros M. rewrite M in LK. discriminate.
      + split; [exact N|]. rewrite M. discriminate.
    - apply K; auto. }
  assert (KT : forall P : Prop, P -> forall A B : Prop, A \/ B \/ P) by auto.
  destruct (st_mode x) eqn:M.
  - apply W; [left; reflexivity|]. intros cmd link H _. injection H as <-. unfold true_kind. rewrite M. auto.
  - unfold found_directory. apply each_andthen.
    { apply W; [left; reflexivity|]. intros cmd link H _. injection H as <-. unfold true_kind. rewrite M. auto. }
    set (s1 := end_st _). assert (S1 : s_stat s1 = x) by (unfold s1; rewrite my_send_file_w_stat; reflexivity). clearbody s1.
    destruct (nobackup_directory c f a) eqn:NB; [apply each_nil|]. pose proof (proj1 (nobackup_iff c f a) NB) as NB1.
    cbv beta zeta. destruct (_ && (excfs f a || _)).
    { apply W; [left; exact S1|]. intros cmd link H _. injection H as <-. unfold true_kind. rewrite M. auto. }
    destruct (_ && negb (fs_change_is_allowed c a)).
    { apply W; [left; exact S1|]. intros cmd link H _. discriminate. }
    destruct (readdir f a) as [l| |] eqn:R.
    2: { apply W; [left; exact S1|]. intros cmd link H _. discriminate. }
    2: apply each_nil.
    assert (OP : opened c f a l) by (split; [exists x; auto|split; [exact NB1|exact R]]).
    assert (IN : forall n, In n (sort_names (filter filter_dot l)) -> In n l /\ n <> [dot] /\ n <> [dot; dot]) by (intros n; apply in_sorted_names).
    destruct (listed_names_ok f a l NO R) as [NOK _].
    revert s1 S1 NOK IN. generalize (sort_names (filter filter_dot l)) as names. intros names s1 _. revert s1.
    induction names as [|n names IHn]; intros s1 NOK IN; cbn [process_entries]; [apply each_nil|].
    inversion NOK as [|? ? [Cn _] NOK']; subst.
    assert (CL : cstr ((strip a ++ [slash]) ++ n)).
    { apply cstr_app. split; [apply cstr_app; split; [apply cstr_strip; exact C|apply cstr_slash]|exact Cn]. }
    destruct (IN n (or_introl eq_refl)) as [In1 [In2 In3]].
    apply each_andthen; [|apply IHn; [exact NOK'|intros m Hm; apply IN; right; exact Hm]].
    destruct (file_is_included_no_incext c ((strip a ++ [slash]) ++ n)) eqn:I.
    + intros cmd p link H. apply IH in H; [|exact CL]. eapply said_weaken; [|exact H]. eapply v_step; [|constructor].
      exists l, n. repeat (split; [assumption|]). left. auto.
    + assert (DI : forall e, In e (c_dirs c) -> In e (c_dirs c)) by auto. revert s1 DI.
      generalize (c_dirs c) at 1 3 as ds. induction ds as [|[q fl] ds IHd]; intros s1 DI; cbn [jump]; [apply each_nil|].
      destruct (fl && negb (is_subdir_s ((strip a ++ [slash]) ++ n) q =? 0)) eqn:E; [|apply IHd; intros e He; apply DI; right; exact He].
      apply andb_true_iff in E. destruct E as [-> E].
      assert (Iq : In (q, true) (c_dirs c)) by (apply DI; left; reflexivity).
      assert (Cq : cstr q) by (rewrite Forall_forall in DC; apply (DC _ Iq)).
      apply each_andthen; [|apply IHd; intros e He; apply DI; right; exact He].
      intros cmd p link H. apply IH in H; [|exact Cq]. eapply said_weaken; [|exact H]. eapply v_step; [|constructor].
      exists l, n. repeat (split; [assumption|]). right. split; [exact I|]. split; [exact Iq|].
      destruct (is_subdir_s_spec _ q CL Cq) as [[X _]|[_ X]]; [exact X|]. rewrite X in E. discriminate.
  - destruct (existsb _ (c_blockdevs c)) eqn:BD.
    + apply existsb_exists in BD. destruct BD as [b [B1 B2]]. apply beqb_eq in B2. subst b. unfold found_other.
      apply W; [right; auto|]. intros cmd link H _. unfold true_kind. rewrite M. apply KT. right. split; [exact B1|].
      cbn [st_mode s_stat set_stat] in H. unfold need_to_read_blockdev in H. rewrite (proj2 (asked_iff _ _ _) (or_intror B1)) in H. injection H as <-; auto.
    + unfold found_soft_link. destruct (readlink f a) as [t|] eqn:RL; (apply W; [left; reflexivity|]); intros cmd link H L; [|discriminate].
      injection H as <-. unfold true_kind. rewrite M. apply KT. left. split; [reflexivity|]. split; [rewrite RL; apply L; reflexivity|].
      intros X. rewrite (proj2 (existsb_exists _ _)) in BD; [discriminate|]. exists a. split; [exact X|apply beqb_eq; reflexivity].
  - unfold found_other. cbn [s_stat set_stat]. rewrite M. apply W; [left; reflexivity|]. intros cmd link H _. unfold true_kind. rewrite M. apply KT.
    unfold need_to_read_blockdev in H. destruct (_ || _) eqn:AS; injection H as <-; [left|right]; (split; [|reflexivity]); [apply asked_iff|apply asked_false]; exact AS.
  - unfold found_other. cbn [s_stat set_stat]. rewrite M. apply W; [left; reflexivity|]. intros cmd link H _. unfold true_kind. rewrite M. apply KT.
    injection H as <-; auto.
  - unfold found_other. cbn [s_stat set_stat]. rewrite M. apply W; [left; reflexivity|]. intros cmd link H _. unfold true_kind. rewrite M. apply KT.
    unfold need_to_read_fifo in H. destruct (_ || _) eqn:AS; injection H as <-; [left|right]; (split; [|reflexivity]); [apply asked_iff|apply asked_false]; exact AS.
  - unfold found_other. cbn [s_stat set_stat]. rewrite M. apply W; [left; reflexivity|]. intros cmd link H _. unfold true_kind. rewrite M. apply KT.
    injection H as <-; auto.
  - unfold found_other. cbn [s_stat set_stat]. rewrite M. apply W; [left; reflexivity|]. intros cmd link H _. unfold true_kind. rewrite M. apply KT.
    injection H as <-; auto.
Qed.

(* The names in the table of hard links. *)
Definition known (s : st) (n : bytes) : Prop := exists h lp, In lp (s_links s h) /\ fl_name lp = n.
Lemma search_known : forall s d i lp, linkhash_search (s_links s) d i = Some lp -> known s (fl_name lp).
Proof.
  intros s d i lp H. exists (get_hash d i), lp. split; [|reflexivity]. unfold linkhash_search in H.
  induction (s_links s (get_hash d i)) as [|x l IH]; cbn in H; [discriminate|].
  destruct (_ && _); [injection H as ->; left; reflexivity|right; apply IH; exact H].
Qed.
Lemma my_send_file_links : forall c s t path link, s_links (end_st (my_send_file c s t path link)) = s_links s.
Proof.
  intros c s t path link. unfold my_send_file, do_to_server, usual_stuff, ft_err.
  destruct t; destruct (c_wr c (s_n s)); try reflexivity;
    (destruct (c_meta c path _); [destruct (c_wr c (s_n (sent1 s)))|]; reflexivity).
Qed.
Lemma send_w_known : forall c s t path link top n, known (end_st (my_send_file_w c s t path link top)) n -> known s n \/ n = path.
Proof.
  intros c s t path link top n. unfold my_send_file_w. cbv zeta.
  destruct (_ || _); [auto|]. destruct (is_reg _ && _); [auto|]. destruct (_ && _).
  - destruct (linkhash_search _ _ _) as [lp|]; [destruct (beqb _ _); [auto|]|]; unfold known; rewrite my_send_file_links; [auto|].
    cbn [s_links set_links]. intros [h [lp [H E]]]. unfold linkhash_add in H. destruct (h =? _).
    + destruct H as [<-|H]; [right; rewrite <- E; reflexivity|left; eauto].
    + left; eauto.
  - unfold known. rewrite my_send_file_links. auto.
Qed.
Lemma known_andthen : forall (P : bytes -> Prop) a k s, (forall n, known (end_st a) n -> known s n \/ P n) ->
  (forall n, known (end_st (k (end_st a))) n -> known (end_st a) n \/ P n) ->
  forall n, known (end_st (andthen a k)) n -> known s n \/ P n.
Proof.
  intros P [[s0 l] r] k s A B n. unfold andthen. destruct r; try apply A. cbn in B. specialize (B n).
  destruct (k s0) as [[s' l'] r']. cbn in B |- *. intros H. destruct (B H) as [K|K]; [apply A; exact K|auto].
Qed.
Lemma jump_known : forall scan link (P : bytes -> Prop), cstr link ->
  (forall p s n, cstr p -> known (end_st (scan p s)) n -> known s n \/ within p n) ->
  (forall p n, within link p -> within p n -> P n) ->
  forall l s, Forall (fun e : ent => cstr (fst e)) l ->
  forall n, known (end_st (jump scan link l s)) n -> known s n \/ P n.
Proof.
  intros scan link P CL SK WP. induction l as [|[p flag] l IH]; intros s C n; cbn [jump]; [auto|].
  inversion C as [|? ? Cp C']; subst. cbn in Cp.
  destruct (flag && negb (is_subdir_s link p =? 0)) eqn:E; [|apply IH; exact C'].
  apply andb_true_iff in E. destruct E as [_ E]. apply subdir_within in E; auto.
  apply known_andthen; [|intros m; apply IH; exact C'].
  intros m H. destruct (SK p s m Cp H) as [K|K]; [auto|right]. eapply WP; eauto.
Qed.
Lemma process_known : forall c scan base (P : bytes -> Prop), dirs_ok c -> cstr base ->
  (forall p s n, cstr p -> known (end_st (scan p s)) n -> known s n \/ within p n) ->
  forall names s, Forall name_ok names -> (forall m n, In m names -> within (base ++ m) n -> P n) ->
  forall n, known (end_st (process_entries c scan base names s)) n -> known s n \/ P n.
Proof.
  intros c scan base P [_ DC] CB SK. induction names as [|m names IH]; intros s NO WP n; cbn [process_entries]; [auto|].
  inversion NO as [|? ? [Cm _] NO']; subst.
  assert (CL : cstr (base ++ m)) by (apply cstr_app; auto).
  apply known_andthen; [|intros q; apply IH; [exact NO'|intros r q' Hr; apply WP; right; exact Hr]].
  intros q. destruct (file_is_included_no_incext c (base ++ m)).
  - intros H. destruct (SK _ s q CL H) as [K|K]; [auto|right]. apply (WP m); [left; reflexivity|exact K].
  - apply (jump_known scan (base ++ m)); auto. intros p r W1 W2. apply (WP m); [left; reflexivity|]. eapply within_trans; eauto.
Qed.
Lemma set_stat_known : forall s x n, known (set_stat s x) n <-> known s n.
Proof. reflexivity. Qed.
Theorem find_files_known : forall c f, dirs_ok c -> names_ok f -> forall fuel parent top a s n, cstr a ->
  known (end_st (find_files c f fuel parent top a s)) n -> known s n \/ within a n.
Proof.
  intros c f DO NO. induction fuel as [|k IH]; intros parent top a s n C; cbn [find_files]; [auto|].
  assert (W : forall s t lk m, known (end_st (my_send_file_w c s t a lk top)) m -> known s m \/ within a m).
  { intros s0 t lk m H. apply send_w_known in H. destruct H as [H| ->]; [auto|right; apply within_refl]. }
  destruct (lstat f a) as [x|]; [|apply W].
  destruct (st_mode x); try (intros H; apply W in H; exact H).
  - unfold found_directory. intros H. revert n H. apply known_andthen; [intros n H; apply W in H; exact H|].
    intros n. set (s1 := end_st (my_send_file_w _ _ _ _ _ _)). clearbody s1. cbv beta zeta.
    destruct (nobackup_directory c f a); [auto|]. destruct (_ && (_ || _)); [apply W|]. destruct (_ && negb (fs_change_is_allowed _ _)); [apply W|].
    destruct (readdir f a) as [l| |] eqn:R; [|apply W|auto].
    destruct (listed_names_ok f a l NO R) as [NOK _]. revert n. apply process_known; auto.
    + apply cstr_app. split; [apply cstr_strip; exact C|apply cstr_slash].
    + intros p s0 n Cp H. apply IH in H; auto.
    + intros m n Hm Wn. rewrite <- app_assoc in Wn. eapply child_within; exact Wn.
  - destruct (existsb _ _); [|unfold found_soft_link; destruct (readlink f a)]; intros H; apply W in H; exact H.
Qed.

(* Where in the scan something is looked at. *)
Lemma andthen_ok : forall a k, ending (andthen a k) = Ok -> ending a = Ok /\ ending (k (end_st a)) = Ok /\
  out (andthen a k) = out a ++ out (k (end_st a)).
Proof.
  intros [[s l] r] k H. unfold andthen in *. destruct r; try discriminate. cbn. destruct (k s) as [[s' l'] r']. auto.
Qed.
Lemma jump_at : forall c scan link b, not_nested c -> under c link -> cstr link -> file_is_included_no_incext c link = false ->
  (forall p s n, cstr p -> known (end_st (scan p s)) n -> known s n \/ within p n) ->
  forall l s, (forall e, In e l -> In e (c_dirs c)) -> StronglySorted path_lt (map fst l) -> Forall (fun e : ent => cstr (fst e)) l ->
  ending (jump scan link l s) = Ok -> In (b, true) l -> beneath link b -> (forall n, known s n -> ~ within link n) ->
  exists s', ending (scan b s') = Ok /\ incl (out (scan b s')) (out (jump scan link l s)) /\ forall n, known s' n -> ~ within b n.
Proof.
  intros c scan link b NN UL CL NI SK.
  assert (G : forall l s, (forall e, In e l -> In e (c_dirs c)) -> StronglySorted path_lt (map fst l) -> Forall (fun e : ent => cstr (fst e)) l ->
    ending (jump scan link l s) = Ok -> In (b, true) l -> beneath link b -> (forall n, known s n -> ~ within b n) ->
    exists s', ending (scan b s') = Ok /\ incl (out (scan b s')) (out (jump scan link l s)) /\ forall n, known s' n -> ~ within b n).
  { induction l as [|[p flag] l IH]; intros s I S C E H B K; [contradiction|]. cbn [jump] in *.
    cbn [map fst] in S. inversion S as [|? ? S' F]; subst. inversion C as [|? ? Cp C']; subst. cbn in Cp.
    destruct (flag && negb (is_subdir_s link p =? 0)) eqn:J.
    - destruct (andthen_ok _ _ E) as [E1 [E2 E3]]. rewrite E3. destruct H as [H|H].
      + injection H as -> ->. exists s. split; [exact E1|]. split; [apply incl_appl, incl_refl|exact K].
      + apply andb_true_iff in J. destruct J as [-> J].
        assert (Cb : cstr b) by (rewrite Forall_forall in C'; apply (C' _ H)).
        destruct (IH (end_st (scan p s))) as [s' [X [Y Z]]]; auto.
        * intros e He. apply I; right; exact He.
        * intros n Hn W. destruct (SK p s n Cp Hn) as [Q|Q]; [apply (K n Q W)|].
          assert (Ip : In (p, true) (c_dirs c)) by (apply I; left; reflexivity).
          assert (Ib : In (b, true) (c_dirs c)) by (apply I; right; exact H).
          assert (Lt : path_lt p b) by (rewrite Forall_forall in F; apply F; apply in_map_iff; exists (b, true); auto).
          destruct (within_both p b n Q W) as [V|V].
          -- pose proof (NN link p b UL NI Ip Ib (subdir_within _ _ CL Cp J) V). subst. eapply path_lt_irrefl; eauto.
          -- pose proof (NN link b p UL NI Ib Ip (beneath_within _ _ B) V). subst. eapply path_lt_irrefl; eauto.
        * exists s'. split; [exact X|]. split; [apply incl_appr; exact Y|exact Z].
    - destruct H as [H|H].
      + injection H as -> ->. exfalso. cbn in J. apply negb_false_iff, Z.eqb_eq in J.
        destruct (is_subdir_s_spec link b CL Cp) as [[_ X]|[X _]]; [pose proof (slashes_nonneg link); lia|contradiction].
      + apply IH; auto. intros e He. apply I; right; exact He. }
  intros l s I S C E H B K. apply G; auto. intros n Hn W. apply (K n Hn). eapply within_trans; [apply beneath_within; exact B|exact W].
Qed.
Lemma process_at : forall c scan base n, dirs_ok c -> cstr base ->
  (forall p s m, cstr p -> known (end_st (scan p s)) m -> known s m \/ within p m) ->
  forall names s, Forall name_ok names -> NoDup names -> ending (process_entries c scan base names s) = Ok -> In n names ->
  (forall m q, In m names -> known s q -> ~ within (base ++ m) q) ->
  let X := fun s => if file_is_included_no_incext c (base ++ n) then scan (base ++ n) s else jump scan (base ++ n) (c_dirs c) s in
  exists s', ending (X s') = Ok /\ incl (out (X s')) (out (process_entries c scan base names s)) /\
    forall q, known s' q -> ~ within (base ++ n) q.
Proof.
  intros c scan base n DO CB SK. induction names as [|m names IH]; intros s NO ND E H K X; [contradiction|]. cbn [process_entries] in *.
  inversion NO as [|? ? [Cm [Em Sm]] NO']; subst. inversion ND as [|? ? Nm ND']; subst.
  destruct (andthen_ok _ _ E) as [E1 [E2 E3]]. rewrite E3. destruct H as [->|H].
  - exists s. split; [exact E1|]. split; [apply incl_appl, incl_refl|]. intros q Hq. apply (K n q); [left; reflexivity|exact Hq].
  - assert (CL : cstr (base ++ m)) by (apply cstr_app; auto).
    destruct (IH (end_st (if file_is_included_no_incext c (base ++ m) then scan (base ++ m) s else jump scan (base ++ m) (c_dirs c) s))) as [s' [A [B C]]]; auto.
    + intros r q Hr Hq W.
      assert (Q : known s q \/ within (base ++ m) q).
      { destruct (file_is_included_no_incext c (base ++ m)); [apply SK in Hq; auto|].
        revert Hq. apply jump_known; auto; [intros; eapply within_trans; eauto|apply DO]. }
      destruct Q as [Q|Q]; [apply (K r q); auto; right; exact Hr|].
      rewrite Forall_forall in NO'. destruct (NO' r Hr) as [Cr [Er Sr]].
      assert (AP : apart (base ++ m) (base ++ r)) by (apply siblings; auto; intros ->; contradiction).
      eapply apart_within; [exact AP|exact Q|exact W|reflexivity].
    + exists s'. split; [exact A|]. split; [apply incl_appr; exact B|exact C].
Qed.

(* Nothing keeps p, with details x, out of the file list. *)
Definition wanted (c : conf) (f : fsys) (p : bytes) (x : stat) : Prop :=
  c_logic c p x = false /\ (st_mode x = MReg -> size_ok c x) /\
  (st_mode x = MLnk -> readlink f p <> None /\ ~ In p (c_blockdevs c)).
Lemma server_in : forall c s cmd path lk, ending (do_to_server c s cmd path lk) = Ok ->
  exists link, In (Entry cmd path link) (out (do_to_server c s cmd path lk)).
Proof.
  intros c s cmd path lk. unfold do_to_server, usual_stuff. destruct (c_wr c (s_n s)); [discriminate|].
  destruct (c_meta c path cmd); [destruct (c_wr c (s_n (sent1 s)))|]; intros H; try discriminate; eexists; left; reflexivity.
Qed.
Lemma send_in : forall c s t cmd path lk, cmd_of c t = Some cmd -> ending (my_send_file c s t path lk) = Ok ->
  exists link, In (Entry cmd path link) (out (my_send_file c s t path lk)).
Proof. intros c s t cmd path lk H E. destruct t; cbn in H; try discriminate; injection H as <-; apply server_in; exact E. Qed.
Lemma send_w_in : forall c s t cmd path lk top, file_is_included c path top = true -> c_logic c path (s_stat s) = false ->
  (is_reg (st_mode (s_stat s)) = true -> file_size_match c (s_stat s) = true) -> ~ known s path -> cmd_of c t = Some cmd ->
  ending (my_send_file_w c s t path lk top) = Ok ->
  exists cmd' link, In (Entry cmd' path link) (out (my_send_file_w c s t path lk top)) /\ (cmd' = cmd \/ cmd' = CMD_HARD_LINK).
Proof.
  intros c s t cmd path lk top I L SZ K T. unfold my_send_file_w. cbv zeta. rewrite I, L. cbn [negb orb].
  assert (Z : is_reg (st_mode (s_stat s)) && negb (file_size_match c (s_stat s)) = false).
  { destruct (is_reg (st_mode (s_stat s))); [rewrite SZ by reflexivity|]; reflexivity. }
  rewrite Z. destruct (_ && linkable _).
  - destruct (linkhash_search _ _ _) as [lp|] eqn:LS.
    + destruct (beqb (fl_name lp) path) eqn:B.
      * apply beqb_eq in B. apply search_known in LS. exfalso. apply K. rewrite <- B. exact LS.
      * intros E. destruct (send_in c s FT_LNK_H CMD_HARD_LINK path _ eq_refl E) as [link H]. eauto.
    + intros E. destruct (send_in _ _ _ _ _ _ T E) as [link H]. eauto.
  - intros E. destruct (send_in _ _ _ _ _ _ T E) as [link H]. eauto.
Qed.
Lemma plain_not_meta : forall c t cmd cmd', cmd_of c t = Some cmd -> cmd' = cmd \/ cmd' = CMD_HARD_LINK -> cmd' <> metasymbol c.
Proof.
  intros c t cmd cmd' T [-> | ->] E; [|unfold metasymbol in E; destruct (c_enc c); discriminate].
  subst cmd. destruct t; cbn in T; try discriminate; injection T as T; unfold metasymbol, filesymbol in T; destruct (c_enc c); discriminate.
Qed.
Lemma step_within : forall c f a b, dirs_ok c -> names_ok f -> cstr a -> step c f a b -> cstr b /\ within a b /\ path_lt a b.
Proof.
  intros c f a b [_ DC] NO C [l [n [[_ [_ R]] [Hn [D1 [D2 ST]]]]]].
  destruct (listed_names_ok f a l NO R) as [NOK _]. rewrite Forall_forall in NOK.
  assert (N : name_ok n) by (apply NOK; apply in_sorted_names; auto).
  assert (Cc : cstr (child a n)).
  { destruct N as [Cn _]. apply cstr_app; split; [|exact Cn]. apply cstr_app; split; [apply cstr_strip; exact C|apply cstr_slash]. }
  assert (G : cstr b /\ within (child a n) b).
  { destruct ST as [[_ ->]|[_ [I B]]]; [split; [exact Cc|apply within_refl]|]. split; [|apply beneath_within; exact B].
    rewrite Forall_forall in DC. apply (DC _ I). }
  destruct G as [Cb W]. unfold child in W. rewrite <- app_assoc in W. split; [exact Cb|]. split; [eapply child_within; exact W|].
  eapply dir_first; eauto.
Qed.
Lemma visits_within : forall c f a p, dirs_ok c -> names_ok f -> cstr a -> visits c f a p -> cstr p /\ within a p /\ path_le a p.
Proof.
  intros c f a p DO NO C H. induction H as [a|a b p ST H IH]; [split; [exact C|]; split; [apply within_refl|apply path_le_refl]|].
  destruct (step_within c f a b DO NO C ST) as [Cb [W L]]. destruct (IH Cb) as [Cp [W' L']].
  split; [exact Cp|]. split; [eapply within_trans; eauto|]. right. eapply lt_le_lt; eauto.
Qed.
(* Going from one directory into another that is on another device was asked for. *)
Definition wants_device (c : conf) (b : bytes) (dev dev' : Z) : Prop := dev = dev' \/ c_crossall c = true \/ In b (c_fschg c).
Definition crossable (c : conf) (f : fsys) : Prop := forall a b x y, step c f a b -> lstat f a = Some x -> lstat f b = Some y ->
  st_mode y = MDir -> wants_device c b (st_dev x) (st_dev y).
Theorem find_files_complete : forall c f, not_nested c -> dirs_ok c -> names_ok f -> no_fs_limits c f -> crossable c f ->
  forall fuel parent top a s p x, (top = true \/ forall y, lstat f a = Some y -> st_mode y = MDir -> wants_device c a parent (st_dev y)) ->
  cstr a -> under c a -> ending (find_files c f fuel parent top a s) = Ok ->
  (forall n, known s n -> ~ within a n) -> visits c f a p -> lstat f p = Some x -> wanted c f p x ->
  (p = a /\ file_is_included c p top = true) \/ file_is_included c p false = true ->
  exists cmd link, In (Entry cmd p link) (out (find_files c f fuel parent top a s)) /\ cmd <> metasymbol c.
Proof.
  intros c f NN DO NO NF CA. induction fuel as [|k IH]; intros parent top a s p x TD C U E K V Lx [W1 [W2 W3]] I; [discriminate|].
  cbn [find_files] in *. inversion V as [? E1 E2|? b ? ST V' E1 E2]; subst.
  - rewrite Lx in *.
    assert (I' : file_is_included c p top = true).
    { destruct I as [[_ I]|I]; [exact I|]. unfold file_is_included in *. destruct top; cbn [negb andb] in *; [|exact I].
      destruct (negb _); [discriminate|exact I]. }
    assert (Kp : ~ known s p) by (intros H; apply (K p H); apply within_refl).
    assert (S : forall t cmd lk, cmd_of c t = Some cmd -> ending (my_send_file_w c (set_stat s x) t p lk top) = Ok ->
      exists cmd' link, In (Entry cmd' p link) (out (my_send_file_w c (set_stat s x) t p lk top)) /\ cmd' <> metasymbol c).
    { intros t cmd lk T Eo. destruct (send_w_in c (set_stat s x) t cmd p lk top) as [cmd' [link [A B]]]; auto.
      - cbn [s_stat set_stat]. intros R. apply size_match_iff, W2. destruct (st_mode x); try discriminate. reflexivity.
      - exists cmd', link. split; [exact A|]. eapply plain_not_meta; eauto. }
    assert (O : forall cmd0, ending (found_other c p top (set_stat s x)) = Ok -> cmd0 = CMD_SPECIAL \/ True ->
      exists cmd' link, In (Entry cmd' p link) (out (found_other c p top (set_stat s x))) /\ cmd' <> metasymbol c).
    { intros _ Eo _. unfold found_other in *. cbn [s_stat set_stat] in *.
      destruct (st_mode x); try (eapply S; [reflexivity|exact Eo]);
        [destruct (need_to_read_blockdev c p)|destruct (need_to_read_fifo c p)]; (eapply S; [reflexivity|exact Eo]). }
    destruct (st_mode x) eqn:M; try (apply (O 0); auto; fail).
    + eapply S; [reflexivity|exact E].
    + unfold found_directory in *. destruct (andthen_ok _ _ E) as [Ea [_ Eo]]. rewrite Eo.
      destruct (S FT_DIR CMD_DIRECTORY _ eq_refl Ea) as [cmd [link [A B]]]. exists cmd, link. split; [apply in_or_app; left; exact A|exact B].
    + destruct (W3 eq_refl) as [R1 R2].
      assert (BD : existsb (fun q => beqb q p) (c_blockdevs c) = false).
      { destruct (existsb _ _) eqn:X; [|reflexivity]. apply existsb_exists in X. destruct X as [q [X1 X2]]. apply beqb_eq in X2. subst q. contradiction. }
      rewrite BD in *. unfold found_soft_link in *. destruct (readlink f p) as [t|]; [|congruence]. eapply S; [reflexivity|exact E].
  - assert (I' : file_is_included c p false = true).
    { destruct I as [[-> I]|I]; [|exact I]. exfalso. destruct (step_within c f a b DO NO C ST) as [Cb [_ L]].
      destruct (visits_within c f b a DO NO Cb V') as [_ [_ L']]. apply (path_lt_irrefl a). eapply lt_le_lt; eauto. }
    pose proof (CA a b) as CB'. specialize (fun x y => CB' x y ST).
    destruct ST as [l [n [OP [Hn [D1 [D2 ST]]]]]]. destruct OP as [[y [Ly My]] [NB R]].
    specialize (fun y' => CB' y y' Ly).
    rewrite Ly, My in *. unfold found_directory in *. destruct (andthen_ok _ _ E) as [Ea [Eb Eo]]. rewrite Eo. clear E Eo.
    set (s1 := end_st _) in *.
    assert (DV : st_dev (s_stat s1) = st_dev y) by (unfold s1; rewrite my_send_file_w_stat; reflexivity).
    assert (K1 : forall q, known s1 q -> known s q \/ q = a).
    { intros q Hq. unfold s1 in Hq. apply send_w_known in Hq. exact Hq. }
    clearbody s1. rewrite (proj2 (nobackup_iff c f a) NB) in *. cbv beta zeta in *.
    destruct (NF a) as [F1 F2].
    assert (FS : (top || negb (parent =? st_dev (s_stat s1))) && (excfs f a || c_has_incfs c && negb (incfs f a)) = false).
    { rewrite F1. destruct (c_has_incfs c); [rewrite (F2 eq_refl)|]; cbn; apply andb_false_r. }
    assert (XD : (top || negb (parent =? st_dev (s_stat s1))) && negb top && negb (fs_change_is_allowed c a) = false).
    { rewrite DV. destruct TD as [->|TD]; [reflexivity|]. unfold fs_change_is_allowed. destruct (TD y eq_refl My) as [->|[->|H]].
      - rewrite Z.eqb_refl. destruct top; reflexivity.
      - cbn. apply andb_false_r.
      - replace (existsb _ _) with true; [rewrite orb_true_r; apply andb_false_r|]. symmetry. apply existsb_exists. exists a. split; [exact H|apply beqb_eq; reflexivity]. }
    rewrite FS, XD in *. rewrite R in *.
    destruct (listed_names_ok f a l NO R) as [NOK SRT].
    assert (ND : NoDup (sort_names (filter filter_dot l))).
    { eapply Permutation_NoDup; [symmetry; apply sort_perm|]. apply NoDup_filter. apply (NO a l R). }
    assert (Hn' : In n (sort_names (filter filter_dot l))) by (apply in_sorted_names; auto).
    assert (CB : cstr (strip a ++ [slash])) by (apply cstr_app; split; [apply cstr_strip; exact C|apply cstr_slash]).
    set (scan := fun (p : bytes) (s0 : st) => find_files c f k (st_dev (s_stat (set_stat s y))) false p s0) in *.
    assert (SK : forall p s m, cstr p -> known (end_st (scan p s)) m -> known s m \/ within p m).
    { intros q s0 m Cq Hm. eapply find_files_known; eauto. }
    assert (Cn : cstr (child a n)).
    { rewrite Forall_forall in NOK. destruct (NOK n Hn') as [X _]. apply cstr_app; auto. }
    destruct (process_at c scan (strip a ++ [slash]) n DO CB SK _ s1 NOK ND Eb Hn') as [s' [A1 [A2 A3]]].
    { intros m q Hm Hq W. rewrite <- app_assoc in W. destruct (K1 q Hq) as [Q| ->].
      - apply (K q Q). eapply child_within; exact W.
      - rewrite Forall_forall in NOK. apply (path_lt_irrefl a). eapply dir_first; eauto. }
    assert (UL : under c (child a n)).
    { destruct U as [ud [U1 U2]]. exists ud. split; [exact U1|]. eapply within_trans; [exact U2|].
      unfold child. rewrite <- app_assoc. eapply child_within. apply within_refl. }
    fold (child a n) in *. destruct ST as [[I1 ->]|[I1 [Ib Bb]]]; rewrite I1 in *.
    + destruct (IH _ false (child a n) s' p x (or_intror CB') Cn UL A1 A3 V' Lx) as [cmd [link [X Y]]].
      * split; [exact W1|split; assumption].
      * right. exact I'.
      * exists cmd, link. split; [apply in_or_app; right; apply A2; exact X|exact Y].
    + assert (Cb : cstr b) by (destruct DO as [_ DC]; rewrite Forall_forall in DC; apply (DC _ Ib)).
      assert (UB : under c b) by (exists b; split; [exact Ib|apply within_refl]).
      destruct (jump_at c scan (child a n) b NN UL Cn I1 SK (c_dirs c) s' (fun e He => He) (proj1 DO) (proj2 DO) A1 Ib Bb A3) as [s'' [B1 [B2 B3]]].
      destruct (IH _ false b s'' p x (or_intror CB') Cb UB B1 B3 V' Lx) as [cmd [link [X Y]]].
      * split; [exact W1|split; assumption].
      * right. exact I'.
      * exists cmd, link. split; [apply in_or_app; right; apply A2; apply B2; exact X|exact Y].
Qed.

(* ---------- what hard links lead to (C57) ---------- *)
(* q is the same file as the one with the details x. *)
Definition same_file (f : fsys) (q : bytes) (x : stat) : Prop :=
  exists y, lstat f q = Some y /\ st_dev y = st_dev x /\ st_ino y = st_ino x.
(* q is in the list l as something of its own. *)
Definition sent_whole (c : conf) (l : list report) (q : bytes) : Prop :=
  exists cmd link, In (Entry cmd q link) l /\ cmd <> metasymbol c /\ cmd <> CMD_HARD_LINK.
(* Every hard link of l is to the same file, earlier in l. *)
Definition backed (c : conf) (f : fsys) (l : list report) : Prop :=
  forall l1 p link l2, l = l1 ++ Entry CMD_HARD_LINK p link :: l2 ->
  exists q x, link = Some q /\ q <> p /\ lstat f p = Some x /\ same_file f q x /\ sent_whole c l1 q.
Definition tabled (c : conf) (f : fsys) (s : st) (h : list report) : Prop :=
  forall k lp, In lp (s_links s k) -> sent_whole c h (fl_name lp) /\
    exists y, lstat f (fl_name lp) = Some y /\ st_dev y = fl_dev lp /\ st_ino y = fl_ino lp.
Definition kept (c : conf) (f : fsys) (h : list report) (r : st * list report * res) : Prop :=
  backed c f (h ++ out r) /\ (ending r = Ok -> tabled c f (end_st r) (h ++ out r)).

Lemma kept_andthen : forall c f h a k, kept c f h a -> (ending a = Ok -> kept c f (h ++ out a) (k (end_st a))) -> kept c f h (andthen a k).
Proof.
  intros c f h [[s l] r] k A B. unfold andthen. destruct r; try exact A. specialize (B eq_refl). cbn in B.
  destruct (k s) as [[s' l'] r']. unfold kept in *. cbn in *. rewrite app_assoc. exact B.
Qed.
Lemma kept_same : forall c f h s r, backed c f h -> tabled c f s h -> kept c f h (s, [], r).
Proof. intros c f h s r B T. unfold kept. cbn. rewrite app_nil_r. auto. Qed.
Lemma split_last : forall (A : Type) (l1 l2 : list A) h e x, l1 ++ e :: l2 = h ++ [x] ->
  (exists l2', h = l1 ++ e :: l2') \/ (l1 = h /\ e = x).
Proof.
  intros A l1. induction l1 as [|y l1 IH]; intros l2 h e x H; destruct h as [|z h]; cbn in H.
  - injection H as -> _. right; auto.
  - injection H as -> _. left. exists h. reflexivity.
  - injection H as -> H. destruct l1; discriminate.
  - injection H as -> H. destruct (IH _ _ _ _ H) as [[l2' ->]|[-> ->]]; [left; exists l2'; reflexivity|right; auto].
Qed.
Lemma backed_snoc : forall c f h r, backed c f h ->
  (forall p link, r = Entry CMD_HARD_LINK p link ->
     exists q x, link = Some q /\ q <> p /\ lstat f p = Some x /\ same_file f q x /\ sent_whole c h q) -> backed c f (h ++ [r]).
Proof.
  intros c f h r B K l1 p link l2 E. symmetry in E. apply split_last in E. destruct E as [[l2' E]|[-> E]]; [eapply B; exact E|].
  apply K. symmetry. exact E.
Qed.
Lemma sent_whole_app : forall c h r q, sent_whole c h q -> sent_whole c (h ++ r) q.
Proof. intros c h r q [cmd [link [A B]]]. exists cmd, link. split; [apply in_or_app; left; exact A|exact B]. Qed.
Lemma tabled_app : forall c f s s' h r, s_links s = s_links s' -> tabled c f s h -> tabled c f s' (h ++ r).
Proof. intros c f s s' h r E T k lp H. rewrite <- E in H. destruct (T k lp H) as [A B]. split; [apply sent_whole_app; exact A|exact B]. Qed.
Lemma meta_not_hard : forall c, metasymbol c <> CMD_HARD_LINK.
Proof. intros c. unfold metasymbol. destruct (c_enc c); discriminate. Qed.
Lemma server_backed : forall c f h s cmd path lk, backed c f h ->
  (cmd = CMD_HARD_LINK -> exists q x, lk = Some q /\ q <> path /\ lstat f path = Some x /\ same_file f q x /\ sent_whole c h q) ->
  backed c f (h ++ out (do_to_server c s cmd path lk)).
Proof.
  intros c f h s cmd path lk B K. unfold do_to_server, usual_stuff.
  assert (B1 : forall lk0, lk0 = (if (cmd =? CMD_HARD_LINK) || (cmd =? CMD_SOFT_LINK) then lk else None) -> backed c f (h ++ [Entry cmd path lk0])).
  { intros lk0 ->. apply backed_snoc; [exact B|]. intros p link E. injection E as E1 E2 E3. subst. apply K. reflexivity. }
  destruct (c_wr c (s_n s)); cbn; [rewrite app_nil_r; exact B|].
  destruct (c_meta c path cmd); [|apply B1; reflexivity].
  destruct (c_wr c _); cbn; [apply B1; reflexivity|].
  match goal with |- backed c f (h ++ [?a; ?b]) => replace (h ++ [a; b]) with ((h ++ [a]) ++ [b]) by (rewrite <- app_assoc; reflexivity) end.
  apply backed_snoc; [apply B1; reflexivity|]. intros p link E. exfalso. injection E as E _ _. apply (meta_not_hard c E).
Qed.
Lemma send_backed : forall c f h s t path lk, backed c f h ->
  (t = FT_LNK_H -> exists q x, lk = Some q /\ q <> path /\ lstat f path = Some x /\ same_file f q x /\ sent_whole c h q) ->
  backed c f (h ++ out (my_send_file c s t path lk)).
Proof.
  intros c f h s t path lk B K.
  assert (W : forall t, backed c f (h ++ out (ft_err c s t path))).
  { intros t0. unfold ft_err. destruct (c_wr c (s_n s)); cbn; [rewrite app_nil_r; exact B|]. apply backed_snoc; [exact B|]. discriminate. }
  destruct t; cbn [my_send_file]; try apply W; apply server_backed; auto; try discriminate.
  unfold filesymbol. destruct (c_enc c); discriminate. unfold filesymbol. destruct (c_enc c); discriminate. unfold filesymbol. destruct (c_enc c); discriminate.
Qed.
Lemma send_kept : forall c f s t path lk top h x, lstat f path = Some x -> st_dev (s_stat s) = st_dev x -> st_ino (s_stat s) = st_ino x ->
  t <> FT_LNK_H -> (cmd_of c t <> None \/ linkable (st_mode (s_stat s)) = false) -> backed c f h -> tabled c f s h ->
  kept c f h (my_send_file_w c s t path lk top).
Proof.
  intros c f s t path lk top h x Lx D I NT G B T. unfold my_send_file_w. cbv zeta.
  destruct (_ || _); [apply kept_same; auto|]. destruct (is_reg _ && _); [apply kept_same; auto|].
  destruct ((st_nlink (s_stat s) >? 1) && linkable (st_mode (s_stat s))) eqn:L.
  - destruct (linkhash_search _ _ _) as [lp|] eqn:LS.
    + destruct (beqb (fl_name lp) path) eqn:E; [apply kept_same; auto|]. apply beqb_neq in E.
      assert (P : exists k, In lp (s_links s k) /\ fl_dev lp = st_dev x /\ fl_ino lp = st_ino x).
      { exists (get_hash (st_dev (s_stat s)) (st_ino (s_stat s))). rewrite <- D, <- I. clear -LS. unfold linkhash_search in LS.
        induction (s_links s _) as [|y l IH]; cbn in LS; [discriminate|].
        destruct ((fl_ino y =? st_ino (s_stat s)) && (fl_dev y =? st_dev (s_stat s))) eqn:Q.
        - injection LS as ->. apply andb_true_iff in Q. destruct Q as [Q1 Q2]. apply Z.eqb_eq in Q1, Q2. split; [left; reflexivity|auto].
        - destruct (IH LS) as [A C]. split; [right; exact A|exact C]. }
      destruct P as [k [P1 [P2 P3]]]. destruct (T k lp P1) as [T1 [y [T2 [T3 T4]]]].
      split; [|intros _; eapply tabled_app; [|exact T]; rewrite my_send_file_links; reflexivity].
      apply send_backed; [exact B|]. intros _. exists (fl_name lp), x. split; [reflexivity|]. split; [exact E|]. split; [exact Lx|]. split; [|exact T1].
      exists y. split; [exact T2|]. split; congruence.
    + split; [apply send_backed; [exact B|contradiction]|]. intros Ok. intros k lp H. rewrite my_send_file_links in H. cbn [s_links set_links] in H.
      unfold linkhash_add in H. apply andb_true_iff in L. destruct L as [_ L]. destruct G as [G|G]; [|congruence].
      destruct (cmd_of c t) as [cmd|] eqn:CT; [|contradiction].
      assert (N : sent_whole c (h ++ out (my_send_file c (set_links s (linkhash_add (s_links s) (st_dev (s_stat s)) (st_ino (s_stat s)) path)) t path lk)) path).
      { destruct (send_in _ _ _ _ _ _ CT Ok) as [link Q]. exists cmd, link. split; [apply in_or_app; right; exact Q|].
        split; [eapply plain_not_meta; [exact CT|left; reflexivity]|]. destruct t; cbn in CT; try discriminate; try contradiction; injection CT as <-; try discriminate;
        unfold filesymbol; destruct (c_enc c); discriminate. }
      assert (O : In lp (s_links s k) -> sent_whole c (h ++ out (my_send_file c (set_links s (linkhash_add (s_links s) (st_dev (s_stat s)) (st_ino (s_stat s)) path)) t path lk)) (fl_name lp) /\
        exists y, lstat f (fl_name lp) = Some y /\ st_dev y = fl_dev lp /\ st_ino y = fl_ino lp).
      { intros Q. destruct (T k lp Q) as [A A']. split; [apply sent_whole_app; exact A|exact A']. }
      destruct (k =? _); [|apply O; exact H]. destruct H as [<-|H]; [|apply O; exact H].
      cbn [fl_name fl_dev fl_ino]. split; [exact N|]. exists x. split; [exact Lx|]. split; congruence.
  - split; [apply send_backed; [exact B|contradiction]|]. intros _. eapply tabled_app; [|exact T]. rewrite my_send_file_links. reflexivity.
Qed.
Theorem find_files_kept : forall c f, dirs_ok c -> names_ok f -> forall fuel parent top a s h, cstr a ->
  (forall p, visits c f a p -> lstat f p <> None) -> backed c f h -> tabled c f s h -> kept c f h (find_files c f fuel parent top a s).
Proof.
  intros c f DO NO. induction fuel as [|k IH]; intros parent top a s h C LA B T; cbn [find_files]; [apply kept_same; auto|].
  destruct (lstat f a) as [x|] eqn:Lx; [|exfalso; apply (LA a (v_here _ _ a) Lx)].
  destruct (st_mode x) eqn:M; try (unfold found_other; cbn [s_stat set_stat]; rewrite M; eapply send_kept; eauto; try discriminate;
    first [left; discriminate | destruct (need_to_read_blockdev c a); (discriminate || left; discriminate) | destruct (need_to_read_fifo c a); (discriminate || left; discriminate)]).
  - eapply send_kept; eauto; [discriminate|left; discriminate].
  - unfold found_directory.
    assert (D0 : forall s t lk h, s_stat s = x -> t <> FT_LNK_H -> backed c f h -> tabled c f s h -> kept c f h (my_send_file_w c s t a lk top)).
    { intros s0 t lk h0 S0 NT B0 T0. eapply send_kept; eauto; [rewrite S0; reflexivity|rewrite S0; reflexivity|]. right. rewrite S0, M. reflexivity. }
    assert (K1 : kept c f h (my_send_file_w c (set_stat s x) FT_DIR a (Some (strip a ++ [slash])) top)) by (apply D0; auto; discriminate).
    apply kept_andthen; [exact K1|]. intros OK. destruct K1 as [B1 T1]. specialize (T1 OK).
    pose proof (my_send_file_w_stat c (set_stat s x) FT_DIR a (Some (strip a ++ [slash])) top) as S1.
    set (r1 := my_send_file_w c (set_stat s x) FT_DIR a _ top) in *. set (s1 := end_st r1) in *. set (h1 := h ++ out r1) in *. clearbody s1 h1. cbn [s_stat set_stat] in S1.
    destruct (nobackup_directory c f a) eqn:NB; [apply kept_same; auto|]. pose proof (proj1 (nobackup_iff c f a) NB) as NB1.
    cbv beta zeta. destruct (_ && (excfs f a || _)); [apply D0; auto; discriminate|].
    destruct (_ && negb (fs_change_is_allowed c a)); [apply D0; auto; discriminate|].
    destruct (readdir f a) as [l| |] eqn:R; [|apply D0; auto; discriminate|apply kept_same; auto].
    assert (OP : opened c f a l) by (split; [exists x; auto|split; [exact NB1|exact R]]).
    assert (IN : forall n, In n (sort_names (filter filter_dot l)) -> In n l /\ n <> [dot] /\ n <> [dot; dot]) by (intros n; apply in_sorted_names).
    assert (ST : forall b, step c f a b -> forall par s0 h0, backed c f h0 -> tabled c f s0 h0 -> kept c f h0 (find_files c f k par false b s0)).
    { intros b Sb par s0 h0 B0 T0. destruct (step_within c f a b DO NO C Sb) as [Cb _]. apply IH; auto.
      intros p V. apply LA. eapply v_step; eauto. }
    clear S1 D0 OK. destruct (listed_names_ok f a l NO R) as [NOK _]. revert s1 h1 B1 T1 NOK IN. generalize (sort_names (filter filter_dot l)) as names.
    induction names as [|n names IHn]; intros s1 h1 B1 T1 NOK IN; cbn [process_entries]; [apply kept_same; auto|].
    inversion NOK as [|? ? [Cn _] NOK']; subst.
    assert (CL : cstr ((strip a ++ [slash]) ++ n)).
    { apply cstr_app. split; [apply cstr_app; split; [apply cstr_strip; exact C|apply cstr_slash]|exact Cn]. }
    destruct (IN n (or_introl eq_refl)) as [In1 [In2 In3]].
    match goal with |- kept _ _ _ (andthen ?q _) => assert (Q : kept c f h1 q) end.
    { match goal with |- kept _ _ _ ?q => set (qq := q) end.
      destruct (file_is_included_no_incext c ((strip a ++ [slash]) ++ n)) eqn:I; subst qq.
      - apply ST; auto. exists l, n. repeat (split; [assumption|]). left. auto.
      - assert (DI : forall e, In e (c_dirs c) -> In e (c_dirs c)) by auto. revert s1 h1 B1 T1 DI.
        generalize (c_dirs c) at 1 3 as ds. induction ds as [|[q fl] ds IHd]; intros s1 h1 B1 T1 DI; cbn [jump]; [apply kept_same; auto|].
        destruct (fl && negb (is_subdir_s ((strip a ++ [slash]) ++ n) q =? 0)) eqn:E; [|apply IHd; auto; intros e He; apply DI; right; exact He].
        apply andb_true_iff in E. destruct E as [-> E].
        assert (Iq : In (q, true) (c_dirs c)) by (apply DI; left; reflexivity).
        assert (Cq : cstr q) by (destruct DO as [_ DC]; rewrite Forall_forall in DC; apply (DC _ Iq)).
        assert (Sq : step c f a q).
        { exists l, n. repeat (split; [assumption|]). right. split; [exact I|]. split; [exact Iq|].
          destruct (is_subdir_s_spec _ q CL Cq) as [[X _]|[_ X]]; [exact X|]. rewrite X in E. discriminate. }
        apply kept_andthen; [apply ST; auto|]. intros OK. destruct (ST q Sq (st_dev (s_stat (set_stat s x))) s1 h1 B1 T1) as [Q1 Q2].
        apply IHd; auto. intros e He; apply DI; right; exact He. }
    apply kept_andthen; [exact Q|]. intros OK. destruct Q as [Q1 Q2]. apply IHn; auto. intros m Hm. apply IN. right; exact Hm.
  - destruct (existsb _ (c_blockdevs c)) eqn:BD.
    + unfold found_other. cbn [s_stat set_stat st_mode].
      destruct (need_to_read_blockdev c a); eapply send_kept; eauto; try discriminate; left; discriminate.
    + unfold found_soft_link. destruct (readlink f a) as [t|] eqn:RL.
      * eapply send_kept; eauto; [discriminate|left; discriminate].
      * eapply send_kept; eauto; [discriminate|]. right. cbn [s_stat set_stat]. rewrite M. reflexivity.
Qed.

(* ---------- whole scans ---------- *)
Lemma start_scan_sound : forall c f fuel l s, dirs_ok c -> names_ok f -> Forall (fun e => cstr (fst e)) l ->
  each (fun cmd p link => exists d, In (d, true) l /\ said c f true d cmd p link) (out (start_scan c f fuel l s)).
Proof.
  intros c f fuel l s DO NO. revert s. induction l as [|[d flag] l IH]; intros s C; cbn [start_scan]; [apply each_nil|].
  inversion C as [|? ? Cd C']; subst. cbn in Cd.
  assert (IH' : forall s, each (fun cmd p link => exists d0, In (d0, true) ((d, flag) :: l) /\ said c f true d0 cmd p link) (out (start_scan c f fuel l s))).
  { intros s0 cmd p link H. destruct (IH s0 C' cmd p link H) as [d0 [A B]]. exists d0. split; [right; exact A|exact B]. }
  destruct flag; [|apply IH']. apply each_andthen; [|apply IH'].
  intros cmd p link H. apply find_files_sound in H; auto. exists d. split; [left; reflexivity|exact H].
Qed.
Theorem scan_sound : forall incs excs starts c f fuel, configured incs excs (c_dirs c) starts -> names_ok f ->
  forall cmd p link, In (Entry cmd p link) (fst (backup_phase1_client c f fuel starts)) ->
  exists d, In (d, true) starts /\ said c f true d cmd p link.
Proof.
  intros incs excs starts c f fuel H NO cmd p link.
  pose proof (configured_spec _ _ _ _ H) as [S [C [I [A _]]]]. destruct H as [Ci _].
  assert (G := start_scan_sound c f fuel starts (mkst stat0 linkhash_init 0) (conj S C) NO).
  unfold backup_phase1_client. destruct (start_scan c f fuel starts _) as [[s l] r]. cbn in G |- *. apply G.
  apply Forall_forall. intros [q flag] Hp. apply A in Hp. rewrite Forall_forall in Ci. cbn. intuition.
Qed.
(* C39: what is listed is decided by the longest configured path over it. *)
Theorem scanned_included : forall incs excs starts c f fuel, configured incs excs (c_dirs c) starts -> Forall one_slash incs -> names_ok f ->
  forall cmd p link, In (Entry cmd p link) (fst (backup_phase1_client c f fuel starts)) ->
  exists e, longest_containing (c_dirs c) p e /\ snd e = true /\ filtered c p = false.
Proof.
  intros incs excs starts c f fuel H O NO cmd p link HI.
  destruct (scan_sound _ _ _ _ _ _ H NO _ _ _ HI) as [d [Hd [V [IC _]]]].
  pose proof (configured_spec _ _ _ _ H) as [S [C [I [A _]]]].
  destruct (A _ _ Hd) as [_ Hi].
  assert (Cd : cstr d) by (destruct H as [Ci _]; rewrite Forall_forall in Ci; auto).
  destruct (visits_within c f d p (conj S C) NO Cd V) as [Cp [W _]].
  assert (B : beneath d p) by (apply within_beneath; [rewrite Forall_forall in O; auto|exact W]).
  assert (Id : In (d, true) (c_dirs c)) by (apply I; auto).
  destruct (best_is_longest (c_dirs c) p S C Cp) as [e [E1 E2]]; [exists (d, true); auto|].
  exists e. split; [exact E2|]. pose proof (included_longest c p e (conj S C) Cp E2) as Q. rewrite Q in IC.
  apply andb_true_iff in IC. destruct IC as [IC1 IC2]. apply negb_true_iff in IC1. auto.
Qed.

Lemma start_scan_known : forall c f fuel l s n, dirs_ok c -> names_ok f -> Forall (fun e => cstr (fst e)) l ->
  known (end_st (start_scan c f fuel l s)) n -> known s n \/ exists d, In (d, true) l /\ within d n.
Proof.
  intros c f fuel l s n DO NO C. revert s n. induction l as [|[d flag] l IH]; intros s n; cbn [start_scan]; [auto|].
  inversion C as [|? ? Cd C']; subst. cbn in Cd. destruct flag.
  - revert n. apply (known_andthen (fun n => exists d0, In (d0, true) ((d, true) :: l) /\ within d0 n)).
    + intros n H. apply find_files_known in H; auto. destruct H as [H|H]; [auto|]. right. exists d. split; [left; reflexivity|exact H].
    + intros n H. apply IH in H; auto. destruct H as [H|[d0 [A B]]]; [auto|]. right. exists d0. split; [right; exact A|exact B].
  - intros H. apply IH in H; auto. destruct H as [H|[d0 [A B]]]; [auto|]. right. exists d0. split; [right; exact A|exact B].
Qed.
Lemma start_scan_complete : forall c f, not_nested c -> dirs_ok c -> names_ok f -> no_fs_limits c f -> crossable c f ->
  forall fuel l s d p x, (forall d, In (d, true) l -> In (d, true) (c_dirs c)) -> Forall (fun e => cstr (fst e) /\ one_slash (fst e)) l -> StronglySorted (fun a b => path_lt a b /\ ~ beneath a b) (map fst l) ->
  ending (start_scan c f fuel l s) = Ok -> (forall n e, In e l -> known s n -> ~ within (fst e) n) ->
  In (d, true) l -> visits c f d p -> lstat f p = Some x -> wanted c f p x ->
  (p = d /\ file_is_included c p true = true) \/ file_is_included c p false = true ->
  exists cmd link, In (Entry cmd p link) (out (start_scan c f fuel l s)) /\ cmd <> metasymbol c.
Proof.
  intros c f NN DO NO NF CA fuel. induction l as [|[q flag] l IH]; intros s d p x IL C S E K Hd V Lx W I; [contradiction|].
  assert (IL' : forall d, In (d, true) l -> In (d, true) (c_dirs c)) by (intros d0 H0; apply IL; right; exact H0).
  cbn [start_scan] in *. inversion C as [|? ? [Cq Oq] C']; subst. cbn in Cq, Oq. cbn [map fst] in S. inversion S as [|? ? S' F]; subst.
  destruct flag.
  - destruct (andthen_ok _ _ E) as [E1 [E2 E3]]. rewrite E3. destruct Hd as [Hd|Hd].
    + injection Hd as ->. destruct (find_files_complete c f NN DO NO NF CA fuel (-1) true d s p x (or_introl eq_refl) Cq (ex_intro _ d (conj (IL d (or_introl eq_refl)) (within_refl d))) E1) as [cmd [link [A B]]]; auto.
      * intros n Kn. apply (K n (d, true)); [left; reflexivity|exact Kn].
      * exists cmd, link. split; [apply in_or_app; left; exact A|exact B].
    + destruct (IH (end_st (find_files c f fuel (-1) true q s)) d p x) as [cmd [link [A B]]]; auto.
      * intros n e He Kn Wn. apply find_files_known in Kn; auto. destruct Kn as [Kn|Kn]; [apply (K n e (or_intror He) Kn Wn)|].
        rewrite Forall_forall in F, C'. destruct (C' e He) as [Ce Oe].
        assert (Ie : In (fst e) (map fst l)) by (apply in_map; exact He). destruct (F _ Ie) as [L N].
        destruct (within_both q (fst e) n Kn Wn) as [Q|Q].
        -- apply N. apply within_beneath; auto.
        -- apply within_beneath in Q; auto. apply beneath_ge in Q. eapply lt_not_le; eauto.
      * exists cmd, link. split; [apply in_or_app; right; exact A|exact B].
  - destruct Hd as [Hd|Hd]; [discriminate|]. apply (IH s d p x); auto. intros n e He. apply K. right; exact He.
Qed.
Theorem scan_complete : forall incs excs starts c f fuel l, configured incs excs (c_dirs c) starts -> Forall one_slash incs ->
  names_ok f -> no_fs_limits c f -> not_nested c -> crossable c f -> backup_phase1_client c f fuel starts = (l, Ok) ->
  forall d p x, In (d, true) starts -> visits c f d p -> lstat f p = Some x -> wanted c f p x ->
  (p = d /\ file_is_included c p true = true) \/ file_is_included c p false = true ->
  exists cmd link, In (Entry cmd p link) l /\ cmd <> metasymbol c.
Proof.
  intros incs excs starts c f fuel l H O NO NF NN CA E d p x Hd V Lx W I.
  pose proof (configured_spec _ _ _ _ H) as [S [C [IA [A [B _]]]]]. destruct H as [Ci _].
  unfold backup_phase1_client in E.
  assert (G := start_scan_complete c f NN (conj S C) NO NF CA fuel starts (mkst stat0 linkhash_init 0) d p x).
  destruct (start_scan c f fuel starts _) as [[s l0] r]. injection E as -> ->. cbn in G. apply G; auto.
  - intros d0 Hd0. apply A in Hd0. apply IA; auto.
  - apply Forall_forall. intros [q flag] Hp. apply A in Hp. rewrite Forall_forall in Ci, O. cbn. intuition.
  - intros n e _ [k [lp [[] _]]].
Qed.
Theorem scan_backed : forall incs excs starts c f fuel, configured incs excs (c_dirs c) starts -> names_ok f ->
  (forall d p, In (d, true) starts -> visits c f d p -> lstat f p <> None) ->
  backed c f (fst (backup_phase1_client c f fuel starts)).
Proof.
  intros incs excs starts c f fuel H NO LA.
  pose proof (configured_spec _ _ _ _ H) as [S [C [_ [A _]]]]. destruct H as [Ci _].
  assert (Cs : Forall (fun e : ent => cstr (fst e)) starts).
  { apply Forall_forall. intros [q flag] Hp. apply A in Hp. rewrite Forall_forall in Ci. cbn. intuition. }
  assert (G : forall l s h, (forall e, In e l -> In e starts) -> backed c f h -> tabled c f s h -> kept c f h (start_scan c f fuel l s)).
  { induction l as [|[q flag] l IH]; intros s h Sub B T; cbn [start_scan]; [apply kept_same; auto|].
    assert (Iq : In (q, flag) starts) by (apply Sub; left; reflexivity).
    assert (Sub' : forall e, In e l -> In e starts) by (intros e He; apply Sub; right; exact He).
    destruct flag; [|apply IH; auto].
    assert (Q : kept c f h (find_files c f fuel (-1) true q s)).
    { apply find_files_kept; auto; [split; assumption|rewrite Forall_forall in Cs; apply (Cs _ Iq)|]. intros p V. eapply LA; eauto. }
    apply kept_andthen; [exact Q|]. intros OK. destruct Q as [Q1 Q2]. apply IH; auto. }
  assert (X := G starts (mkst stat0 linkhash_init 0) [] (fun e He => He)).
  unfold backup_phase1_client. destruct (start_scan c f fuel starts _) as [[s l0] r]. cbn in X |- *. apply X.
  - intros l1 p link l2 E. destruct l1; discriminate.
  - intros k lp [].
Qed.

Lemma within_cstr : forall p x, cstr x -> within p x -> cstr p.
Proof.
  intros p x Cx Wp. apply within_strip in Wp. destruct Wp as [->|[r ->]]; [exact Cx|]. apply cstr_app in Cx. destruct Cx as [Cx _].
  destruct (strip_spec p) as [k [E _]]. rewrite E. apply cstr_app. split; [exact Cx|]. clear E. induction k; cbn; [constructor|].
  change (slash :: repeat slash k) with ([slash] ++ repeat slash k). apply cstr_app. split; [apply cstr_slash|exact IHk].
Qed.
(* When there are no filters, not_nested can be read off the configuration. *)
Definition nested_free (dirs : list ent) : bool :=
  forallb (fun z => snd z || forallb (fun x => negb (snd x) || forallb (fun y => negb (snd y) || beqb (fst y) (fst x) ||
    (is_subdir_s (fst z) (fst x) =? 0) || (is_subdir_s (fst x) (fst y) =? 0)) dirs) dirs) dirs.
Theorem nested_free_ok : forall incs excs starts c, configured incs excs (c_dirs c) starts -> Forall one_slash incs -> Forall one_slash excs ->
  nested_free (c_dirs c) = true -> (forall p, filtered c p = false) -> not_nested c.
Proof.
  intros incs excs starts c H Oi Oe NF FF p x y [d [Id Wd]] NI Ix Iy Wp Wx.
  pose proof (configured_spec _ _ _ _ H) as [S [C [I _]]].
  assert (OC : forall q b, In (q, b) (c_dirs c) -> one_slash q /\ cstr q).
  { intros q b Hq. split; [|rewrite Forall_forall in C; apply (C _ Hq)]. rewrite Forall_forall in Oi, Oe. apply I in Hq. destruct Hq as [[_ Hq]|[_ Hq]]; auto. }
  destruct (OC _ _ Id) as [Od Cd]. destruct (OC _ _ Ix) as [Ox Cx]. destruct (OC _ _ Iy) as [Oy Cy].
  pose proof (within_cstr p x Cx Wp) as Cp.
  destruct (best_is_longest (c_dirs c) p S C Cp) as [[z b] [_ L]]; [exists (d, true); split; [exact Id|apply within_beneath; auto]|].
  rewrite (included_longest c p (z, b) (conj S C) Cp L), FF in NI. cbn in NI. subst b.
  destruct L as [Iz [Bz _]]. cbn in Bz. destruct (OC _ _ Iz) as [Oz Cz].
  assert (Bzx : beneath z x) by (apply within_beneath; [exact Oz|]; eapply within_trans; [apply beneath_within; exact Bz|exact Wp]).
  assert (Bxy : beneath x y) by (apply within_beneath; auto).
  unfold nested_free in NF. rewrite forallb_forall in NF. specialize (NF _ Iz). cbn in NF.
  rewrite forallb_forall in NF. specialize (NF _ Ix). cbn in NF. rewrite forallb_forall in NF. specialize (NF _ Iy). cbn in NF.
  assert (N : forall a b, cstr a -> cstr b -> beneath a b -> (is_subdir_s a b =? 0) = false).
  { intros a b Ca Cb B. destruct (is_subdir_s_spec a b Ca Cb) as [[_ E]|[E _]]; [|contradiction]. apply Z.eqb_neq. pose proof (slashes_nonneg a). lia. }
  rewrite (N z x), (N x y), !orb_false_r in NF; auto. apply beqb_eq in NF. exact NF.
Qed.
