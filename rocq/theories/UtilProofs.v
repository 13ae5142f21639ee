(* Specification and proofs about settings comparison (C37), string lists (C41),
   quotas (C44) and version numbers (C48). *)
From Coq Require Import Permutation Sorted.
From Verif Require Import Bytes FrameModel PathcmpModel BuModel UtilModel PathcmpProofs BuProofs TimerProofs ConfProofs.

(* ---------- C37 ---------- *)

Definition chunk : nat := Z.to_nat 4096.
Lemma chunk_pos : (0 < chunk)%nat. Proof. unfold chunk. lia. Qed.

Lemma incexc_loop_spec : forall fuel file inc, (List.length file < fuel)%nat ->
  (incexc_loop fuel file inc = [] <->
   exists rest, file = inc ++ rest /\ (rest = [] \/ exists k, List.length inc = (k * chunk)%nat)).
Proof.
  pose proof chunk_pos as CP.
  induction fuel as [|fuel IH]; intros file inc L; [lia|]. cbn [incexc_loop]. fold chunk.
  destruct (Nat.eqb_spec (List.length (firstn chunk file)) 0) as [Z0|NZ].
  - assert (F : file = []). { destruct file as [|c f]; auto. rewrite firstn_length in Z0. cbn [List.length] in Z0. lia. }
    subst file. split.
    + intros ->. exists []. auto.
    + intros (rest & E & _). symmetry in E. apply app_eq_nil in E. tauto.
  - set (buf := firstn chunk file) in *. set (got := List.length buf) in *.
    assert (Hg : got = Nat.min chunk (List.length file)) by (unfold got, buf; apply firstn_length).
    assert (Hf : file = buf ++ skipn chunk file) by (unfold buf; symmetry; apply firstn_skipn).
    destruct (Nat.ltb_spec (List.length inc) got) as [Lt|Ge].
    + split.
      * intros ->. exists file. split; auto. right. exists 0%nat. auto.
      * intros (rest & E & C). destruct C as [->|(k & K)].
        -- exfalso. rewrite app_nil_r in E. subst. lia.
        -- destruct k; [destruct inc; [auto|discriminate]|]. exfalso. nia.
    + destruct (beqb buf (firstn got inc)) eqn:B; cbn [negb].
      * apply beqb_eq in B. assert (Hi : inc = buf ++ skipn got inc) by (rewrite B; symmetry; apply firstn_skipn).
        rewrite IH.
        2:{ rewrite skipn_length. lia. }
        split.
        -- intros (rest & E & C). exists rest. split; [rewrite Hf, Hi, E, app_assoc; auto|]. destruct C as [C|(k & K)]; auto.
           rewrite skipn_length in K. destruct (Nat.le_gt_cases chunk (List.length file)).
           ++ right. exists (S k). lia.
           ++ left. assert (S0 : skipn chunk file = []) by (apply skipn_all2; lia). rewrite S0 in E. symmetry in E. apply app_eq_nil in E. tauto.
        -- intros (rest & E & C). exists rest. split.
           ++ rewrite Hf in E. rewrite Hi in E. rewrite <- app_assoc in E. apply app_inv_head in E. auto.
           ++ destruct C as [C|(k & K)]; auto. rewrite skipn_length.
              destruct (Nat.le_gt_cases chunk (List.length file)).
              ** right. exists (k - 1)%nat. rewrite K. replace got with chunk by lia. nia.
              ** left. apply (f_equal (@List.length Z)) in E. rewrite app_length in E.
                 assert (List.length inc = List.length file) by lia. destruct rest; auto. cbn in E. lia.
      * apply beqb_neq in B. split.
        -- intros ->. exfalso. change (got <= 0)%nat in Ge. lia.
        -- intros (rest & E & _). exfalso. apply B.
           assert (X : firstn got (inc ++ rest) = firstn got inc) by (rewrite firstn_app; replace (got - List.length inc)%nat with 0%nat by lia; rewrite firstn_O, app_nil_r; auto).
           rewrite <- X, <- E, Hf. rewrite firstn_app. replace (got - List.length buf)%nat with 0%nat by (unfold got; lia). rewrite firstn_O, app_nil_r. symmetry. apply firstn_all.
Qed.
(* The stored and offered texts are taken for the same exactly when they are, or
   when the offered one is a beginning of the stored one whose length is a
   multiple of 4096. *)
Theorem incexc_exact : forall file inc, incexc_matches (Some file) inc = true <->
  file = inc \/ exists rest, file = inc ++ rest /\ (4096 | Z.of_nat (List.length inc)).
Proof.
  intros file inc. unfold incexc_matches. pose proof (incexc_loop_spec (S (List.length file)) file inc ltac:(lia)) as H.
  transitivity (incexc_loop (S (List.length file)) file inc = []).
  { destruct (incexc_loop (S (List.length file)) file inc); split; auto; discriminate. }
  rewrite H. split.
  - intros (rest & E & [->|(k & K)]).
    + left. rewrite app_nil_r in E. auto.
    + right. exists rest. split; auto. exists (Z.of_nat k). rewrite K, Nat2Z.inj_mul. unfold chunk. rewrite Z2Nat.id by lia. auto.
  - intros [->|(rest & E & (k & K))].
    + exists []. rewrite app_nil_r. auto.
    + exists rest. split; auto. right. exists (Z.to_nat k). unfold chunk. apply Nat2Z.inj. rewrite Nat2Z.inj_mul, K, !Z2Nat.id by lia. auto.
Qed.
Theorem incexc_partial : forall file inc, ~ (4096 | Z.of_nat (List.length inc)) -> (incexc_matches (Some file) inc = true <-> file = inc).
Proof. intros file inc N. rewrite incexc_exact. split; auto. intros [H|(rest & _ & D)]; tauto. Qed.
Theorem incexc_refuted : exists file inc, cstr file /\ cstr inc /\ inc <> [] /\ file <> inc /\ incexc_matches (Some file) inc = true.
Proof.
  exists (repeat 97 chunk ++ str "exclude=/secret"), (repeat 97 chunk).
  assert (C : cstr (repeat 97 chunk)). { apply Forall_forall. intros x X. apply repeat_spec in X. subst. unfold is_char. lia. }
  pose proof chunk_pos as CP.
  split; [apply Forall_app; split; [auto|apply cstrb_ok; reflexivity]|]. split; auto. split.
  { intros E. apply (f_equal (@List.length Z)) in E. rewrite repeat_length in E. cbn in E. lia. }
  split.
  { intros E. apply (f_equal (@List.length Z)) in E. rewrite app_length in E. change (List.length (str "exclude=/secret")) with 15%nat in E. lia. }
  apply incexc_exact. right. eexists. split; [reflexivity|]. rewrite repeat_length. exists 1. reflexivity.
Qed.

(* ---------- C41 ---------- *)

Definition entry_lt (a b : bytes * Z) : Prop := path_lt (fst a) (fst b) \/ (fst a = fst b /\ snd a < snd b).
Definition entry_le (a b : bytes * Z) : Prop := entry_lt a b \/ a = b.
Definition entry_ok (a : bytes * Z) : Prop := cstr (fst a).

Lemma entry_lt_trans : forall a b c, entry_lt a b -> entry_lt b c -> entry_lt a c.
Proof.
  unfold entry_lt. intros a b c [A|(A & A')] [B|(B & B')].
  - left. eapply path_lt_trans; eauto.
  - left. rewrite <- B. auto.
  - left. rewrite A. auto.
  - right. split; [congruence|lia].
Qed.
Lemma entry_le_trans : forall a b c, entry_le a b -> entry_le b c -> entry_le a c.
Proof. intros a b c [A| ->] [B| ->]; unfold entry_le; auto. left. eapply entry_lt_trans; eauto. Qed.
Lemma entry_lt_irrefl : forall a, ~ entry_lt a a.
Proof. intros a [H|(_ & H)]; [eapply path_lt_irrefl; eauto|lia]. Qed.
Lemma cstr_raw : forall s, cstr s -> raw s.
Proof. intros s H. eapply Forall_impl; [|exact H]. unfold is_char, is_byte. intros; lia. Qed.
Lemma add_test : forall p f q g, cstr p -> cstr q ->
  ((pathcmp_s p q <? 0) || ((pathcmp_s p q =? 0) && (f <? g)) = true <-> entry_lt (p, f) (q, g)).
Proof.
  intros p f q g P Q. apply cstr_raw in P. apply cstr_raw in Q. unfold entry_lt. cbn [fst snd].
  rewrite orb_true_iff, andb_true_iff, !Z.ltb_lt, Z.eqb_eq, (pathcmp_s_neg p q), (pathcmp_s_eq0 p q) by auto. tauto.
Qed.
Lemma same_test : forall p f q g, cstr p -> cstr q -> ((pathcmp_s p q =? 0) && (f =? g) = true <-> (p, f) = (q, g)).
Proof.
  intros p f q g P Q. apply cstr_raw in P. apply cstr_raw in Q. rewrite andb_true_iff, !Z.eqb_eq, (pathcmp_s_eq0 p q) by auto.
  split; [intros (-> & ->); auto|intros H; injection H as -> ->; auto].
Qed.
Lemma entry_total : forall a b, entry_ok a -> entry_ok b -> ~ entry_lt a b -> entry_le b a.
Proof.
  intros [p f] [q g] A B N. unfold entry_ok in *. cbn [fst] in *.
  destruct (path_trichotomy p q (cstr_raw _ A) (cstr_raw _ B)) as [H|[H|H]]; [subst q| |].
  - destruct (Z.lt_trichotomy f g) as [L|[<-|L]].
    + exfalso. apply N. right. auto.
    + right. auto.
    + left. right. auto.
  - exfalso. apply N. left. auto.
  - left. left. auto.
Qed.
(* Appending when not sorted. *)
Theorem strlist_add_end : forall p f l, strlist_add p f l = l ++ [(p, f)].
Proof. unfold strlist_add. induction l as [|[q g] l IH]; cbn [strlist_add_w andb app]; auto. cbv zeta. rewrite IH. auto. Qed.
Theorem strlist_sorted_exact : forall p f l, cstr p -> Forall entry_ok l -> StronglySorted entry_le l ->
  StronglySorted entry_le (strlist_add_sorted p f l) /\ Permutation (strlist_add_sorted p f l) ((p, f) :: l).
Proof.
  unfold strlist_add_sorted. intros p f l P. induction l as [|[q g] l IH]; intros F Sl.
  - cbn. split; [constructor; [constructor|constructor]|apply Permutation_refl].
  - cbn [strlist_add_w andb]. cbv zeta. destruct ((pathcmp_s p q <? 0) || ((pathcmp_s p q =? 0) && (f <? g))) eqn:E.
    + pose proof (Forall_inv F) as Q. apply add_test in E; auto. split; [|apply Permutation_refl]. constructor; auto. constructor; [left; auto|].
      apply StronglySorted_inv in Sl. destruct Sl as (_ & A). eapply Forall_impl; [|exact A]. intros x X. eapply entry_le_trans; [left; exact E|auto].
    + pose proof (Forall_inv F) as Q. assert (N : ~ entry_lt (p, f) (q, g)) by (rewrite <- add_test by auto; congruence).
      apply StronglySorted_inv in Sl. destruct Sl as (A & B). apply Forall_inv_tail in F. destruct (IH F A) as (C & D).
      split.
      * constructor; auto. eapply Permutation_Forall; [apply Permutation_sym; exact D|]. constructor; auto. apply entry_total; auto.
      * rewrite D. apply perm_swap.
Qed.
Theorem strlist_uniq_exact : forall p f l, cstr p -> Forall entry_ok l -> StronglySorted entry_lt l ->
  StronglySorted entry_lt (strlist_add_sorted_uniq p f l) /\
  (In (p, f) l -> strlist_add_sorted_uniq p f l = l) /\
  (~ In (p, f) l -> Permutation (strlist_add_sorted_uniq p f l) ((p, f) :: l)).
Proof.
  unfold strlist_add_sorted_uniq. intros p f l P. induction l as [|[q g] l IH]; intros F Sl.
  - cbn. split; [constructor; [constructor|constructor]|]. split; [tauto|intros _; apply Permutation_refl].
  - cbn [strlist_add_w andb]. cbv zeta. pose proof (Forall_inv F) as Q. unfold entry_ok in Q. cbn [fst] in Q.
    destruct ((pathcmp_s p q =? 0) && (f =? g)) eqn:U.
    + apply same_test in U; auto. rewrite U. split; auto. split; auto. intros N. exfalso. apply N. left. auto.
    + assert (NU : (p, f) <> (q, g)) by (rewrite <- same_test by auto; congruence).
      destruct ((pathcmp_s p q <? 0) || ((pathcmp_s p q =? 0) && (f <? g))) eqn:E.
      * apply add_test in E; auto. pose proof Sl as Sl0. apply StronglySorted_inv in Sl. destruct Sl as (_ & A).
        assert (L : Forall (entry_lt (p, f)) ((q, g) :: l)).
        { constructor; auto. eapply Forall_impl; [|exact A]. intros x X. eapply entry_lt_trans; eauto. }
        split; [constructor; auto|]. split; [|intros _; apply Permutation_refl]. intros I. exfalso. rewrite Forall_forall in L. exact (entry_lt_irrefl _ (L _ I)).
      * assert (N : ~ entry_lt (p, f) (q, g)) by (rewrite <- add_test by auto; congruence).
        apply StronglySorted_inv in Sl. destruct Sl as (A & B). apply Forall_inv_tail in F. destruct (IH F A) as (C & D1 & D2).
        assert (L : entry_lt (q, g) (p, f)) by (destruct (entry_total (p, f) (q, g) P Q N) as [|X]; auto; congruence).
        assert (Dec : In (p, f) l \/ ~ In (p, f) l).
        { assert (DE : forall a b : bytes * Z, {a = b} + {a <> b}) by (intros; decide equality; [apply Z.eq_dec|apply list_eq_dec, Z.eq_dec]).
          destruct (in_dec DE (p, f) l); auto. }
        split.
        -- constructor; auto. destruct Dec as [I|I]; [rewrite D1; auto|].
           eapply Permutation_Forall; [apply Permutation_sym, D2; auto|]. constructor; auto.
        -- split.
           ++ intros [X|I]; [congruence|]. rewrite D1; auto.
           ++ intros I. rewrite D2 by (intros X; apply I; right; auto). apply perm_swap.
Qed.
Theorem strlist_find_exact : forall l p f, strlist_find l p f = true <-> In (p, f) l.
Proof.
  induction l as [|[q g] l IH]; intros p f; cbn [strlist_find In]; [split; [discriminate|tauto]|].
  destruct (beqb p q && (f =? g)) eqn:E.
  - apply andb_true_iff in E. destruct E as (A & B). apply beqb_eq in A. apply Z.eqb_eq in B. subst. split; auto.
  - rewrite IH. split; auto. intros [X|X]; auto. injection X as -> ->. exfalso.
    assert (X : beqb p p = true) by (apply beqb_eq; auto). rewrite X, Z.eqb_refl in E. discriminate.
Qed.

(* ---------- C44 ---------- *)

Definition exceeds (byte quota : Z) : Prop := quota <> 0 /\ quota < byte.
Definition warned (r : list (bytes * Z * Z) * Z) (msg : bytes) : Prop := exists b q, In (msg, b, q) (fst r).
Ltac quota_cases byte hard soft := unfold check_quota, exceeds;
  destruct (Z.eqb_spec hard 0), (Z.ltb_spec hard byte), (Z.eqb_spec soft 0), (Z.ltb_spec soft byte); cbn [negb andb fst snd].
Theorem quota_refused : forall byte hard soft, (snd (check_quota byte hard soft) = -1 <-> exceeds byte hard) /\
  (snd (check_quota byte hard soft) = 0 <-> ~ exceeds byte hard) /\
  (warned (check_quota byte hard soft) (str "Hard quota exceeded") <-> exceeds byte hard).
Proof.
  intros byte hard soft. unfold warned.
  quota_cases byte hard soft; (split; [lia|]); (split; [lia|]);
  split; intros H'; try (destruct H' as (b & q & [X|[]]); try discriminate X; lia); try (destruct H' as (b & q & [])); try lia;
  try (do 2 eexists; left; reflexivity).
Qed.
Theorem quota_soft : forall byte hard soft, 
  warned (check_quota byte hard soft) (str "Soft quota exceeded") <-> exceeds byte soft /\ ~ exceeds byte hard.
Proof.
  intros byte hard soft. unfold warned.
  quota_cases byte hard soft; split; intros H'; try (destruct H' as (b & q & [X|[]]); try discriminate X; lia); try (destruct H' as (b & q & [])); try lia;
  try (do 2 eexists; left; reflexivity).
Qed.
(* Over both quotas: no warning about the soft quota, and the soft quota is logged
   as the hard one. *)
Theorem quota_refuted : exists byte hard soft, exceeds byte soft /\ exceeds byte hard /\ soft <> hard /\
  ~ warned (check_quota byte hard soft) (str "Soft quota exceeded") /\ fst (check_quota byte hard soft) = [(str "Hard quota exceeded", byte, soft)].
Proof.
  exists 300, 200, 100. unfold exceeds. split; [lia|]. split; [lia|]. split; [lia|]. split; [|reflexivity].
  intros (b & q & [H|[]]). discriminate H.
Qed.

(* ---------- C48 ---------- *)

Definition is_digits (s : bytes) : Prop := s <> [] /\ Forall (fun c => 48 <= c <= 57) s.
(* a.b.c, and possibly more after a dot. *)
Inductive version (a b c : Z) : bytes -> Prop :=
| version_intro : forall x y z tail, is_digits x -> is_digits y -> is_digits z -> val x 0 = a -> val y 0 = b -> val z 0 = c ->
    (tail = [] \/ hd0 tail = 46) -> version a b c (x ++ 46 :: y ++ 46 :: z ++ tail).

Lemma tok_rest_app : forall x r, Forall (fun c => 48 <= c <= 57) x -> (r = [] \/ hd0 r = 46) -> tok_rest (x ++ r) = (x, tl r).
Proof.
  induction x as [|c x IH]; intros r F R; cbn [app tok_rest].
  - destruct r as [|d r]; auto. destruct R as [R|R]; [discriminate|]. cbn in R. subst d. auto.
  - pose proof (Forall_inv F) as C. cbv beta in C. destruct (Z.eqb_spec c 46); [lia|]. rewrite IH; auto. apply Forall_inv_tail in F; auto.
Qed.
Lemma strtok_app : forall x r, is_digits x -> (r = [] \/ hd0 r = 46) -> strtok_dot (x ++ r) = Some (x, tl r).
Proof.
  intros [|c x] r (N & F) R; [congruence|]. cbn [app strtok_dot]. pose proof (Forall_inv F) as C. cbv beta in C. destruct (Z.eqb_spec c 46); [lia|].
  change (c :: x ++ r) with ((c :: x) ++ r). rewrite tok_rest_app; auto.
Qed.
Lemma atol_digits : forall x, is_digits x -> val x 0 < 2 ^ 63 -> atol x = val x 0.
Proof.
  intros [|c x] (N & F) V; [congruence|]. unfold atol. pose proof (Forall_inv F) as C. cbv beta in C.
  rewrite digits_skip by auto. cbn [hd0]. destruct (Z.eqb_spec c 45); [lia|]. destruct (Z.eqb_spec c 43); [lia|].
  pose proof (dec_run_val (c :: x) [] 0 false F ltac:(left; discriminate) eq_refl) as D. rewrite app_nil_r in D. rewrite D. lia.
Qed.
Theorem version_value : forall s a b c, version a b c s -> a < 2 ^ 40 -> b < 2 ^ 40 -> c < 2 ^ 40 ->
  version_to_long s = Some (10000 * a + 100 * b + c) /\ 0 <= a /\ 0 <= b /\ 0 <= c.
Proof.
  intros s a b c V. destruct V as [x y z tail Dx Dy Dz A B C T]. intros La Lb Lc.
  assert (Nx : 0 <= val x 0) by (apply val_nonneg; [apply Dx|lia]).
  assert (Ny : 0 <= val y 0) by (apply val_nonneg; [apply Dy|lia]).
  assert (Nz : 0 <= val z 0) by (apply val_nonneg; [apply Dz|lia]).
  split; [|lia]. unfold version_to_long.
  assert (H0 : (hd0 (x ++ 46 :: y ++ 46 :: z ++ tail) =? 0) = false).
  { destruct Dx as (Nn & F). destruct x as [|d x]; [congruence|]. pose proof (Forall_inv F) as X. cbv beta in X. cbn [app hd0]. lia. }
  rewrite H0. rewrite strtok_app by auto. cbn [tl]. rewrite strtok_app by auto. cbn [tl]. rewrite strtok_app by auto.
  rewrite !atol_digits by (auto; lia). cbv zeta. unfold long_ok.
  replace ((- 2 ^ 63 <=? val y 0 * 100) && (val y 0 * 100 <? 2 ^ 63)) with true by lia.
  replace ((- 2 ^ 63 <=? val z 0 + val y 0 * 100) && (val z 0 + val y 0 * 100 <? 2 ^ 63)) with true by lia.
  replace ((- 2 ^ 63 <=? val x 0 * 100) && (val x 0 * 100 <? 2 ^ 63)) with true by lia.
  replace ((- 2 ^ 63 <=? val x 0 * 100 * 100) && (val x 0 * 100 * 100 <? 2 ^ 63)) with true by lia.
  replace ((- 2 ^ 63 <=? val z 0 + val y 0 * 100 + val x 0 * 100 * 100) && (val z 0 + val y 0 * 100 + val x 0 * 100 * 100 <? 2 ^ 63)) with true by lia.
  cbn [andb]. f_equal. lia.
Qed.
Definition triple_lt (a b c a' b' c' : Z) : Prop := a < a' \/ (a = a' /\ (b < b' \/ (b = b' /\ c < c'))).
Theorem version_compare : forall s a b c s' a' b' c', version a b c s -> version a' b' c' s' ->
  a < 2 ^ 40 -> a' < 2 ^ 40 -> b < 100 -> c < 100 -> b' < 100 -> c' < 100 ->
  exists n n', version_to_long s = Some n /\ version_to_long s' = Some n' /\ (n < n' <-> triple_lt a b c a' b' c').
Proof.
  intros s a b c s' a' b' c' V V' La La' Lb Lc Lb' Lc'.
  destruct (version_value s a b c V) as (E & P); try lia. destruct (version_value s' a' b' c' V') as (E' & P'); try lia.
  do 2 eexists. split; [exact E|]. split; [exact E'|]. unfold triple_lt. lia.
Qed.
(* 2.1.100 and 2.2.0 count as the same version; 2.0.1000 counts as newer than 2.1.0. *)
Theorem version_refuted :
  version 2 1 100 (str "2.1.100") /\ version 2 2 0 (str "2.2.0") /\ version_to_long (str "2.1.100") = version_to_long (str "2.2.0") /\
  version_to_long (str "2.0.1000") = Some 21000 /\ version_to_long (str "2.1.0") = Some 20100.
Proof.
  split; [|split; [|repeat split]].
  - apply (version_intro 2 1 100 (str "2") (str "1") (str "100") []); auto; split; try discriminate; repeat (apply Forall_cons; [unfold str; cbn; lia|]); apply Forall_nil.
  - apply (version_intro 2 2 0 (str "2") (str "2") (str "0") []); auto; split; try discriminate; repeat (apply Forall_cons; [unfold str; cbn; lia|]); apply Forall_nil.
Qed.
(* Anything with fewer than three parts is not a version. *)
Theorem version_short : forall x y, is_digits x -> is_digits y ->
  version_to_long [] = Some 0 /\ version_to_long x = Some (-1) /\ version_to_long (x ++ 46 :: y) = Some (-1).
Proof.
  intros x y Dx Dy. unfold version_to_long.
  assert (H0 : forall t, (hd0 (x ++ t) =? 0) = false).
  { intros t. destruct Dx as (Nn & F). destruct x as [|d x]; [congruence|]. pose proof (Forall_inv F) as X. cbv beta in X. cbn [app hd0]. lia. }
  split; [reflexivity|]. split.
  - rewrite <- (app_nil_r x). rewrite H0, strtok_app by auto. reflexivity.
  - rewrite H0, strtok_app by auto. cbn [tl]. rewrite <- (app_nil_r y), strtok_app by auto. reflexivity.
Qed.
