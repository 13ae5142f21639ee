(* Specification and proofs about access lists (C35). *)
From Verif Require Import Bytes FrameModel BuModel IpaclModel.

(* ---------- Specification ---------- *)

(* The first n of w bits agree. *)
Definition agree (w n a b : Z) : Prop := forall i, 0 <= i < n -> Z.testbit a (w - 1 - i) = Z.testbit b (w - 1 - i).
Definition word (x : Z) : Prop := 0 <= x < 2 ^ 32.
Definition words (w : word4) : Prop := let '(a, b, c, d) := w in word a /\ word b /\ word c /\ word d.
(* An IPv6 address as one number. *)
Definition num6 (w : word4) : Z := let '(a, b, c, d) := w in a * 2 ^ 96 + b * 2 ^ 64 + c * 2 ^ 32 + d.
Definition addr_ok (a : addr) : Prop := match a with A4 x => word x | A6 x => words x | AOther => True end.

(* A text describes a range: an address and a prefix length. *)
Definition has_slash (s : bytes) : Prop := In 47 s.
Definition prefix_of (full : Z) (p : option bytes) (n : Z) : Prop :=
  match p with
  | None => n = full
  | Some p => exists v, parse_prefix p = Some v /\ n = (if v =? -1 then full else v) /\ 0 <= n <= full
  end.
Inductive text : bytes -> bytes -> option bytes -> Prop :=
| text_addr : forall s, ~ has_slash s -> text s s None
| text_prefix : forall a p, ~ has_slash p -> text (a ++ 47 :: p) a (Some p).
Section Spec.
Variable pton4 : bytes -> option Z.
Variable pton6 : bytes -> option word4.
Definition in_range (s : bytes) (x : addr) : Prop :=
  exists a p, text s a p /\
  match x with
  | A4 x => exists ip n, pton4 a = Some ip /\ prefix_of 32 p n /\ agree 32 n x ip
  | A6 x => exists ip n, pton4 a = None /\ pton6 a = Some ip /\ prefix_of 128 p n /\ agree 128 n (num6 x) (num6 ip)
  | AOther => False
  end.
Definition pton_ok : Prop := (forall a ip, pton4 a = Some ip -> word ip) /\ (forall a ip, pton6 a = Some ip -> words ip).
End Spec.

(* ---------- Bits ---------- *)

Lemma testbit_high : forall x i n, 0 <= x < 2 ^ n -> n <= i -> Z.testbit x i = false.
Proof.
  intros x i n H L. destruct (Z.eq_dec x 0) as [->|N]; [apply Z.testbit_0_l|].
  apply Z.bits_above_log2; [lia|]. apply Z.lt_le_trans with n; auto. apply Z.log2_lt_pow2; lia.
Qed.
Definition top (w n : Z) : Z := Z.shiftl (Z.ones n) (w - n).
Lemma top_bit : forall w n i, 0 <= n <= w -> 0 <= i -> Z.testbit (top w n) i = (w - n <=? i) && (i <? w).
Proof.
  intros w n i H I. unfold top. rewrite Z.shiftl_spec by lia. destruct (Z.leb_spec (w - n) i) as [L|L].
  - cbn [andb]. rewrite Z.testbit_ones_nonneg by lia. destruct (Z.ltb_spec (i - (w - n)) n), (Z.ltb_spec i w); auto; lia.
  - cbn [andb]. apply Z.testbit_neg_r. lia.
Qed.
Lemma mask_agree : forall w n a b, 0 <= n <= w ->
  (Z.land (Z.lxor a b) (top w n) =? 0) = true <-> agree w n a b.
Proof.
  intros w n a b H. rewrite Z.eqb_eq. split.
  - intros E i I. assert (X : Z.testbit (Z.land (Z.lxor a b) (top w n)) (w - 1 - i) = false) by (rewrite E; apply Z.testbit_0_l).
    rewrite Z.land_spec, Z.lxor_spec, top_bit in X by lia.
    replace (w - n <=? w - 1 - i) with true in X by (symmetry; apply Z.leb_le; lia).
    replace (w - 1 - i <? w) with true in X by (symmetry; apply Z.ltb_lt; lia).
    destruct (Z.testbit a (w - 1 - i)), (Z.testbit b (w - 1 - i)); auto; discriminate.
  - intros A. apply Z.bits_inj'. intros i I. rewrite Z.land_spec, Z.lxor_spec, top_bit, Z.testbit_0_l by lia.
    destruct (Z.leb_spec (w - n) i) as [L|L]; [|cbn; apply andb_false_r].
    destruct (Z.ltb_spec i w) as [L2|L2]; [|cbn; apply andb_false_r].
    specialize (A (w - 1 - i) ltac:(lia)). replace (w - 1 - (w - 1 - i)) with i in A by lia. rewrite A.
    rewrite xorb_nilpotent. reflexivity.
Qed.
(* Masking what is stored changes nothing. *)
Lemma agree_masked : forall w n a b, 0 <= n <= w -> agree w n a (Z.land b (top w n)) <-> agree w n a b.
Proof.
  intros w n a b H. unfold agree. split; intros A i I; specialize (A i I).
  - rewrite A, Z.land_spec, top_bit by lia.
    replace (w - n <=? w - 1 - i) with true by (symmetry; apply Z.leb_le; lia).
    replace (w - 1 - i <? w) with true by (symmetry; apply Z.ltb_lt; lia). apply andb_true_r.
  - rewrite A, Z.land_spec, top_bit by lia.
    replace (w - n <=? w - 1 - i) with true by (symmetry; apply Z.leb_le; lia).
    replace (w - 1 - i <? w) with true by (symmetry; apply Z.ltb_lt; lia). symmetry. apply andb_true_r.
Qed.

(* ---------- The table ---------- *)

Definition row_ok (n : Z) : bool :=
  let '(a, b, c, d) := netmask n in
  (a =? top 32 (Z.min n 32)) && (b =? top 32 (Z.max 0 (Z.min (n - 32) 32))) &&
  (c =? top 32 (Z.max 0 (Z.min (n - 64) 32))) && (d =? top 32 (Z.max 0 (Z.min (n - 96) 32))).
Lemma for_range : forall (P : Z -> bool) k, forallb (fun i => P (Z.of_nat i)) (seq 0 k) = true ->
  forall n, 0 <= n < Z.of_nat k -> P n = true.
Proof.
  intros P k H n N. rewrite forallb_forall in H. specialize (H (Z.to_nat n)). rewrite Z2Nat.id in H by lia.
  apply H. apply in_seq. lia.
Qed.
Lemma rows : forall n, 0 <= n <= 128 -> row_ok n = true.
Proof. intros n N. apply (for_range row_ok 129); [vm_compute; reflexivity|lia]. Qed.
Lemma masks : forall n, 1 <= n <= 64 -> mask64 n = top 64 n.
Proof.
  intros n N. assert (X : (fun n => (n =? 0) || (mask64 n =? top 64 n)) n = true).
  { apply (for_range (fun n => (n =? 0) || (mask64 n =? top 64 n)) 65); [vm_compute; reflexivity|lia]. }
  cbv beta in X. apply orb_true_iff in X. rewrite !Z.eqb_eq in X. destruct X; [lia|auto].
Qed.
Lemma netmask4 : forall n, 0 <= n <= 32 -> w0 (netmask n) = top 32 n.
Proof.
  intros n N. pose proof (rows n ltac:(lia)) as R. unfold row_ok in R. destruct (netmask n) as [[[a b] c] d].
  rewrite !andb_true_iff, !Z.eqb_eq in R. cbn [w0]. destruct R as (((R & _) & _) & _). rewrite R. f_equal. lia.
Qed.

(* ---------- Halves ---------- *)

Lemma half_bit : forall a b i, word b -> 0 <= i -> Z.testbit (half a b) i = if i <? 32 then Z.testbit b i else Z.testbit a (i - 32).
Proof.
  intros a b i Hb I. unfold half. rewrite <- Z.shiftl_mul_pow2 by lia.
  assert (D : Z.land (Z.shiftl a 32) b = 0).
  { apply Z.bits_inj'. intros j J. rewrite Z.land_spec, Z.testbit_0_l, Z.shiftl_spec by lia.
    destruct (Z.ltb_spec j 32) as [L|L]; [rewrite Z.testbit_neg_r by lia; auto|].
    rewrite (testbit_high b j 32); auto. apply andb_false_r. }
  rewrite Z.add_nocarry_lxor by exact D. rewrite Z.lxor_spec, Z.shiftl_spec by lia.
  destruct (Z.ltb_spec i 32) as [L|L].
  - rewrite (Z.testbit_neg_r a) by lia. apply xorb_false_l.
  - rewrite (testbit_high b i 32) by auto. apply xorb_false_r.
Qed.
Lemma word_land : forall a b, word b -> word (Z.land a b).
Proof.
  unfold word. intros a b H. split; [apply Z.land_nonneg; lia|].
  destruct (Z.eq_dec (Z.land a b) 0) as [->|N]; [lia|].
  assert (G : 0 <= Z.land a b) by (apply Z.land_nonneg; lia).
  apply Z.log2_lt_pow2; [lia|]. rewrite Z.land_comm.
  destruct (Z.lt_ge_cases (Z.log2 (Z.land b a)) 32) as [|L]; auto. exfalso.
  assert (X : Z.testbit (Z.land b a) (Z.log2 (Z.land b a)) = true) by (apply Z.bit_log2; rewrite Z.land_comm; lia).
  rewrite Z.land_spec, (testbit_high b _ 32) in X by auto. discriminate.
Qed.
Lemma half_land : forall a b c d, word b -> word d -> half (Z.land a c) (Z.land b d) = Z.land (half a b) (half c d).
Proof.
  intros a b c d Hb Hd. apply Z.bits_inj'. intros i I. rewrite Z.land_spec, !half_bit; auto using word_land.
  destruct (i <? 32); apply Z.land_spec.
Qed.
Lemma top_word : forall n, 0 <= n <= 32 -> word (top 32 n).
Proof.
  intros n H. unfold top, word. rewrite Z.shiftl_mul_pow2, Z.ones_equiv by lia.
  assert (P : 2 ^ n * 2 ^ (32 - n) = 2 ^ 32) by (rewrite <- Z.pow_add_r by lia; f_equal; lia).
  assert (0 < 2 ^ n) by (apply Z.pow_pos_nonneg; lia). assert (0 < 2 ^ (32 - n)) by (apply Z.pow_pos_nonneg; lia).
  nia.
Qed.
Lemma half_top : forall n, 0 <= n <= 64 -> half (top 32 (Z.min n 32)) (top 32 (Z.max 0 (Z.min (n - 32) 32))) = top 64 n.
Proof.
  intros n N. apply Z.bits_inj'. intros i I. rewrite half_bit by (auto; apply top_word; lia).
  destruct (Z.ltb_spec i 32) as [L|L]; rewrite !top_bit by lia.
  - destruct (Z.leb_spec (32 - Z.max 0 (Z.min (n - 32) 32)) i), (Z.leb_spec (64 - n) i), (Z.ltb_spec i 32), (Z.ltb_spec i 64); cbn; auto; lia.
  - destruct (Z.leb_spec (32 - Z.min n 32) (i - 32)), (Z.leb_spec (64 - n) i), (Z.ltb_spec (i - 32) 32), (Z.ltb_spec i 64); cbn; auto; lia.
Qed.
Lemma num6_halves : forall w, num6 w = hi w * 2 ^ 64 + lo w.
Proof. intros [[[a b] c] d]. unfold num6, hi, lo, half. lia. Qed.
Lemma half_range : forall a b, word a -> word b -> 0 <= half a b < 2 ^ 64.
Proof. unfold word, half. intros. lia. Qed.
Lemma num6_bit : forall w i, words w -> 0 <= i -> Z.testbit (num6 w) i = if i <? 64 then Z.testbit (lo w) i else Z.testbit (hi w) (i - 64).
Proof.
  intros w i W I. rewrite num6_halves. assert (L : 0 <= lo w < 2 ^ 64).
  { destruct w as [[[a b] c] d]. cbn in *. apply half_range; tauto. }
  rewrite <- Z.shiftl_mul_pow2 by lia.
  assert (D : Z.land (Z.shiftl (hi w) 64) (lo w) = 0).
  { apply Z.bits_inj'. intros j J. rewrite Z.land_spec, Z.testbit_0_l, Z.shiftl_spec by lia.
    destruct (Z.ltb_spec j 64) as [K|K]; [rewrite Z.testbit_neg_r by lia; auto|].
    rewrite (testbit_high (lo w) j 64); auto. apply andb_false_r. }
  rewrite Z.add_nocarry_lxor by exact D. rewrite Z.lxor_spec, Z.shiftl_spec by lia.
  destruct (Z.ltb_spec i 64) as [K|K].
  - rewrite (Z.testbit_neg_r (hi w)) by lia. apply xorb_false_l.
  - rewrite (testbit_high (lo w) i 64) by auto. apply xorb_false_r.
Qed.
Lemma agree_split : forall n a b, words a -> words b -> 0 <= n <= 128 ->
  agree 128 n (num6 a) (num6 b) <-> agree 64 (Z.min n 64) (hi a) (hi b) /\ agree 64 (Z.max 0 (n - 64)) (lo a) (lo b).
Proof.
  intros n a b Wa Wb N. unfold agree. split.
  - intros A. split; intros i I.
    + specialize (A i ltac:(lia)). rewrite !num6_bit in A by (auto; lia).
      destruct (Z.ltb_spec (128 - 1 - i) 64); [lia|]. replace (128 - 1 - i - 64) with (64 - 1 - i) in A by lia. auto.
    + specialize (A (i + 64) ltac:(lia)). rewrite !num6_bit in A by (auto; lia).
      destruct (Z.ltb_spec (128 - 1 - (i + 64)) 64); [|lia]. replace (128 - 1 - (i + 64)) with (64 - 1 - i) in A by lia. auto.
  - intros (A & B) i I. rewrite !num6_bit by (auto; lia). destruct (Z.ltb_spec (128 - 1 - i) 64) as [L|L].
    + specialize (B (i - 64) ltac:(lia)). replace (64 - 1 - (i - 64)) with (128 - 1 - i) in B by lia. auto.
    + specialize (A i ltac:(lia)). replace (128 - 1 - i - 64) with (64 - 1 - i) by lia. auto.
Qed.

Lemma half_agree : forall n a b, 0 <= n <= 64 -> prefix_equal_half a b n = true <-> agree 64 n a b.
Proof.
  intros n a b N. unfold prefix_equal_half. destruct (Z.eqb_spec n 0) as [->|Z0].
  - cbn. split; auto. intros _ i I. lia.
  - rewrite masks by lia. cbn [negb andb]. rewrite negb_involutive. apply mask_agree. lia.
Qed.
Lemma agree_full : forall a b, 0 <= a < 2 ^ 64 -> 0 <= b < 2 ^ 64 -> Z.lxor a b = 0 <-> agree 64 64 a b.
Proof.
  intros a b Ha Hb. rewrite Z.lxor_eq_0_iff. split; [intros ->; intros i I; auto|].
  intros A. apply Z.bits_inj'. intros i I. destruct (Z.lt_ge_cases i 64) as [L|L].
  - specialize (A (63 - i) ltac:(lia)). replace (64 - 1 - (63 - i)) with i in A by lia. auto.
  - rewrite !(testbit_high _ i 64); auto.
Qed.
Lemma prefix6_agree : forall a b n, words a -> words b -> 0 <= n <= 128 ->
  prefix_equal6 a b n = true <-> agree 128 n (num6 a) (num6 b).
Proof.
  intros a b n Wa Wb N. rewrite agree_split by auto. unfold prefix_equal6. rewrite Z.geb_leb.
  assert (Ha : 0 <= hi a < 2 ^ 64) by (destruct a as [[[? ?] ?] ?]; cbn in *; apply half_range; tauto).
  assert (Hb : 0 <= hi b < 2 ^ 64) by (destruct b as [[[? ?] ?] ?]; cbn in *; apply half_range; tauto).
  destruct (Z.leb_spec 64 n) as [L|L].
  - replace (Z.min n 64) with 64 by lia. replace (Z.max 0 (n - 64)) with (n - 64) by lia.
    rewrite <- agree_full by auto. destruct (Z.eqb_spec (Z.lxor (hi a) (hi b)) 0) as [E|E]; cbn [negb].
    + rewrite half_agree by lia. tauto.
    + split; [discriminate|tauto].
  - replace (Z.min n 64) with n by lia. replace (Z.max 0 (n - 64)) with 0 by lia. rewrite half_agree by lia.
    split; [intros A; split; auto; intros i I; lia|tauto].
Qed.
Lemma words_and4 : forall a m, words m -> words (and4 a m).
Proof. intros [[[a b] c] d] [[[x y] z] t]. cbn. intros (? & ? & ? & ?). auto using word_land. Qed.
Lemma netmask_words : forall n, 0 <= n <= 128 -> words (netmask n).
Proof.
  intros n N. pose proof (rows n N) as R. unfold row_ok in R. destruct (netmask n) as [[[a b] c] d].
  rewrite !andb_true_iff, !Z.eqb_eq in R. destruct R as (((-> & ->) & ->) & ->). cbn. repeat split; apply top_word; lia.
Qed.
Lemma masked6 : forall ip n, words ip -> 0 <= n <= 128 ->
  hi (and4 ip (netmask n)) = Z.land (hi ip) (top 64 (Z.min n 64)) /\
  lo (and4 ip (netmask n)) = Z.land (lo ip) (top 64 (Z.max 0 (n - 64))).
Proof.
  intros [[[a b] c] d] n (Wa & Wb & Wc & Wd) N. pose proof (rows n N) as R. unfold row_ok in R.
  destruct (netmask n) as [[[x y] z] t]. rewrite !andb_true_iff, !Z.eqb_eq in R. destruct R as (((-> & ->) & ->) & ->).
  cbn [and4 hi lo]. rewrite !half_land by (auto; apply top_word; lia). split; f_equal.
  - rewrite <- half_top by lia. f_equal; f_equal; lia.
  - rewrite <- (half_top (Z.max 0 (n - 64))) by lia. f_equal; f_equal; lia.
Qed.

Theorem elem4_exact : forall ip n x, 0 <= n <= 32 -> elem_match (create4 ip n) (A4 x) = true <-> agree 32 n x ip.
Proof.
  intros ip n x N. unfold create4, elem_match, prefix_equal4. rewrite netmask4 by auto.
  rewrite mask_agree by lia. apply agree_masked. lia.
Qed.
Theorem elem6_exact : forall ip n x, words ip -> words x -> 0 <= n <= 128 ->
  elem_match (create6 ip n) (A6 x) = true <-> agree 128 n (num6 x) (num6 ip).
Proof.
  intros ip n x Wi Wx N. unfold create6, elem_match. rewrite prefix6_agree; auto.
  2:{ apply words_and4. apply netmask_words. auto. }
  rewrite !agree_split; auto; [|apply words_and4, netmask_words; auto].
  destruct (masked6 ip n Wi N) as (-> & ->). rewrite !agree_masked by lia. tauto.
Qed.

Theorem acl_test_exact : forall l a, acl_test l a = true <-> exists e, In e l /\ elem_match e a = true.
Proof.
  induction l as [|e l IH]; intros a; cbn [acl_test].
  - split; [discriminate|]. intros (e & [] & _).
  - destruct (elem_match e a) eqn:E.
    + split; auto. intros _. exists e. split; [left; auto|auto].
    + rewrite IH. split; intros (x & X & M); exists x; split; auto; [right; auto|].
      destruct X as [->|X]; auto. congruence.
Qed.

(* ---------- Parsing ---------- *)

Lemma split_last_spec : forall s, match split_last s with
  | None => ~ has_slash s
  | Some (a, p) => s = a ++ 47 :: p /\ ~ has_slash p
  end.
Proof.
  induction s as [|c r IH]; cbn [split_last]; [intros []|].
  destruct (split_last r) as [[a p]|].
  - destruct IH as (-> & N). split; auto.
  - destruct (Z.eqb_spec c 47) as [->|E]; [split; auto|]. intros [X|X]; auto.
Qed.
Lemma text_unique : forall s a p, text s a p ->
  match split_last s with Some (b, q) => a = b /\ p = Some q | None => a = s /\ p = None end.
Proof.
  intros s a p H. pose proof (split_last_spec s) as S. destruct H as [s N|a p N].
  - destruct (split_last s) as [[b q]|]; auto. destruct S as (-> & _). exfalso. apply N. apply in_or_app. right; left; auto.
  - destruct (split_last (a ++ 47 :: p)) as [[b q]|].
    + destruct S as (E & M). assert (X : a = b /\ p = q).
      { clear - E N M. revert b E. induction a as [|c a IH]; intros b E; destruct b as [|d b]; cbn in E.
        - injection E as ->. auto.
        - injection E as <- ->. exfalso. apply N. apply in_or_app. right; left; auto.
        - injection E as -> <-. exfalso. apply M. apply in_or_app. right; left; auto.
        - injection E as <- E. destruct (IH b E) as (-> & ->). auto. }
      destruct X as (-> & ->). auto.
    + exfalso. apply S. apply in_or_app. right; left; auto.
Qed.

Section Emplace.
Variable pton4 : bytes -> option Z.
Variable pton6 : bytes -> option word4.

Lemma check_prefix_spec : forall full v n, 0 <= full -> check_prefix full v = Some n <->
  n = (if v =? -1 then full else v) /\ 0 <= n <= full.
Proof.
  intros full v n F. unfold check_prefix. rewrite Z.geb_leb.
  set (p := if v =? -1 then full else v). destruct (Z.leb_spec 0 p), (Z.leb_spec p full); cbn [andb].
  - split; [intros E; injection E as <-; auto|intros (-> & _); auto].
  - split; [discriminate|]. intros (-> & ?). lia.
  - split; [discriminate|]. intros (-> & ?). lia.
  - split; [discriminate|]. intros (-> & ?). lia.
Qed.

(* An entry accepts exactly the addresses in the range described. *)
Theorem emplace_exact : pton_ok pton4 pton6 -> forall s e x, addr_ok x -> emplace pton4 pton6 s = (Ok, Some e) ->
  elem_match e x = true <-> in_range pton4 pton6 s x.
Proof.
  intros (P4 & P6) s e x Wx H. unfold emplace in H. destruct s as [|c0 s0] eqn:Es; [discriminate|].
  rewrite <- Es in *. pose proof (split_last_spec s) as S.
  set (ap := match split_last s with Some (a, p) => (a, Some p) | None => (s, None) end) in H.
  assert (T : text s (fst ap) (snd ap)).
  { unfold ap. destruct (split_last s) as [[a p]|]; cbn [fst snd]; [destruct S as (-> & N)|]; constructor; auto. }
  assert (U : forall a p, text s a p -> a = fst ap /\ p = snd ap).
  { intros a p X. apply text_unique in X. unfold ap. destruct (split_last s) as [[b q]|]; cbn [fst snd]; tauto. }
  destruct ap as [a p]. cbn [fst snd] in *.
  assert (PF : forall full n, 0 <= full -> match match p with Some p => parse_prefix p | None => Some (-1) end with
      | None => False | Some v => check_prefix full v = Some n end <-> prefix_of full p n).
  { intros full n F. unfold prefix_of. destruct p as [q|].
    - destruct (parse_prefix q) as [v|]; [rewrite check_prefix_spec by auto|].
      + split; [intros (A & B); exists v; auto|intros (w & X & A & B); injection X as <-; auto].
      + split; [tauto|]. intros (v & X & _). discriminate.
    - rewrite check_prefix_spec by auto. cbn [Z.eqb]. split; [tauto|intros ->; split; [auto|lia]]. }
  destruct (pton4 a) as [ip|] eqn:E4.
  - destruct (match p with Some p => parse_prefix p | None => Some (-1) end) as [v|] eqn:Ev; [|discriminate].
    destruct (check_prefix 32 v) as [n|] eqn:En; [|discriminate]. injection H as <-.
    assert (Pn : prefix_of 32 p n) by (apply PF; [lia|auto]).
    assert (Nr : 0 <= n <= 32) by (apply check_prefix_spec in En; lia).
    destruct x as [x|x|].
    + rewrite elem4_exact by auto. unfold in_range. split.
      * intros A. exists a, p. split; auto. exists ip, n. auto.
      * intros (a' & p' & X & ip' & n' & I & Q & A). apply U in X. destruct X as (-> & ->).
        rewrite E4 in I. injection I as <-. apply PF in Q; [|lia]. rewrite En in Q. injection Q as <-. auto.
    + cbn. split; [discriminate|]. intros (a' & p' & X & ip' & n' & I & _). apply U in X. destruct X as (-> & ->). congruence.
    + cbn. split; [discriminate|]. intros (a' & p' & X & F). tauto.
  - destruct (pton6 a) as [ip|] eqn:E6; [|discriminate].
    destruct (match p with Some p => parse_prefix p | None => Some (-1) end) as [v|] eqn:Ev; [|discriminate].
    destruct (check_prefix 128 v) as [n|] eqn:En; [|discriminate]. injection H as <-.
    assert (Pn : prefix_of 128 p n) by (apply PF; [lia|auto]).
    assert (Nr : 0 <= n <= 128) by (apply check_prefix_spec in En; lia).
    destruct x as [x|x|].
    + cbn. split; [discriminate|]. intros (a' & p' & X & ip' & n' & I & _). apply U in X. destruct X as (-> & ->). congruence.
    + cbn in Wx. rewrite elem6_exact by eauto. unfold in_range. split.
      * intros A. exists a, p. split; auto. exists ip, n. auto.
      * intros (a' & p' & X & ip' & n' & _ & I & Q & A). apply U in X. destruct X as (-> & ->).
        rewrite E6 in I. injection I as <-. apply PF in Q; [|lia]. rewrite En in Q. injection Q as <-. auto.
    + cbn. split; [discriminate|]. intros (a' & p' & X & F). tauto.
Qed.

(* Which words of the configured lines are entries. *)
Definition entries (lines : list bytes) : list bytes :=
  filter (fun t => match t with [] => false | _ => true end) (map trim (flat_map (fun s => tokens s []) lines)).
Definition well_formed (s : bytes) : Prop := exists e, emplace pton4 pton6 s = (Ok, Some e).

Lemma emplace_cases : forall s, s <> [] -> emplace pton4 pton6 s = (fst (emplace pton4 pton6 s), snd (emplace pton4 pton6 s)) /\
  (fst (emplace pton4 pton6 s) = Ok <-> well_formed s).
Proof.
  intros s N. split; [destruct (emplace pton4 pton6 s); auto|]. unfold well_formed. split.
  - destruct (emplace pton4 pton6 s) as [q o] eqn:E. cbn [fst]. intros ->. destruct o as [e|]; [eauto|]. exfalso.
    destruct s as [|c r]; [congruence|]. unfold emplace in E.
    match type of E with (let '(a, p) := ?X in _) = _ => destruct X as [a p] end.
    destruct (pton4 a); [|destruct (pton6 a); [|discriminate]];
    destruct (match p with Some p => parse_prefix p | None => Some (-1) end) as [v|]; try discriminate;
    [destruct (check_prefix 32 v)|destruct (check_prefix 128 v)]; discriminate.
  - intros (e & ->). auto.
Qed.
Definition accepts (ws : list bytes) (x : addr) : Prop := exists w, In w ws /\ in_range pton4 pton6 w x.

Lemma append_tokens_spec : pton_ok pton4 pton6 -> forall x, addr_ok x -> forall ts l,
  let ws := filter (fun t => match t with [] => false | _ => true end) (map trim ts) in
  (Forall well_formed ws -> exists l', append_tokens pton4 pton6 l ts = (Ok, l') /\
     ((exists e, In e l' /\ elem_match e x = true) <-> (exists e, In e l /\ elem_match e x = true) \/ accepts ws x) /\
     (l' = [] <-> l = [] /\ ws = [])) /\
  (~ Forall well_formed ws -> fst (append_tokens pton4 pton6 l ts) <> Ok).
Proof.
  intros PO x Wx. induction ts as [|t ts IH]; intros l; cbn [map filter append_tokens].
  - split; [|intros N; exfalso; apply N; constructor]. intros _. exists l. split; auto. split; [|tauto].
    unfold accepts. split; [auto|]. intros [H|(w & [] & _)]; auto.
  - destruct (trim t) as [|c r] eqn:Et.
    + cbn [emplace]. apply IH.
    + rewrite <- Et. assert (N : trim t <> []) by (rewrite Et; discriminate). destruct (emplace_cases (trim t) N) as (Ec & W).
      split.
      * intros F. inversion F as [|? ? Fw Fr]; subst. destruct Fw as (e & He). rewrite He.
        destruct (IH (e :: l)) as (I1 & _). destruct (I1 Fr) as (l' & A & B & C). exists l'. split; auto. split.
        -- rewrite B. unfold accepts. try rewrite <- Et. split.
           ++ intros [(d & [<-|D] & M)|(w & D & M)]; [right; exists (trim t); split; [left; auto|] | |right; exists w; split; [right; auto|auto]].
              { apply (emplace_exact PO (trim t) e x Wx He). auto. }
              left. exists d. auto.
           ++ intros [(d & D & M)|(w & [<-|D] & M)]; [left; exists d; split; [right; auto|auto] | left; exists e; split; [left; auto|] | right; exists w; auto].
              apply (emplace_exact PO (trim t) e x Wx He). auto.
        -- rewrite C. try rewrite <- Et. split; [intros (X & _); discriminate|]. intros (_ & X). discriminate.
      * intros NF. try rewrite <- Et in NF. rewrite Ec. destruct (fst (emplace pton4 pton6 (trim t))) eqn:Ef.
        -- destruct W as (W & _). specialize (W eq_refl). destruct W as (e & He). rewrite He in *. cbn [snd].
           destruct (IH (e :: l)) as (_ & I2). apply I2. intros F. apply NF. constructor; auto. exists e. auto.
        -- cbn. discriminate.
        -- cbn. discriminate.
        -- cbn. discriminate.
Qed.

Lemma acl_lines_spec : pton_ok pton4 pton6 -> forall x, addr_ok x -> forall lines l,
  (Forall well_formed (entries lines) -> exists l', acl_lines pton4 pton6 l lines = Some l' /\
     ((exists e, In e l' /\ elem_match e x = true) <-> (exists e, In e l /\ elem_match e x = true) \/ accepts (entries lines) x) /\
     (l' = [] <-> l = [] /\ entries lines = [])) /\
  (~ Forall well_formed (entries lines) -> acl_lines pton4 pton6 l lines = None).
Proof.
  intros PO x Wx. induction lines as [|s lines IH]; intros l; cbn [acl_lines].
  - unfold entries. cbn. split; [|intros N; exfalso; apply N; constructor]. intros _. exists l. split; auto. split; [|tauto].
    split; [auto|]. intros [H|(w & [] & _)]; auto.
  - assert (E : entries (s :: lines) = filter (fun t => match t with [] => false | _ => true end) (map trim (tokens s [])) ++ entries lines).
    { unfold entries. cbn [flat_map]. rewrite map_app, filter_app. auto. }
    rewrite E. unfold acl_append. destruct (append_tokens_spec PO x Wx (tokens s []) l) as (A1 & A2). cbv zeta in *.
    set (ws := filter (fun t => match t with [] => false | _ => true end) (map trim (tokens s []))) in *. split.
    + intros F. apply Forall_app in F. destruct F as (F1 & F2). destruct (A1 F1) as (l1 & Q & B & C). rewrite Q.
      destruct (IH l1) as (I1 & _). destruct (I1 F2) as (l2 & Q2 & B2 & C2). exists l2. split; auto. split.
      * rewrite B2, B. unfold accepts. split.
        -- intros [[H|(w & D & M)]|(w & D & M)]; [left; auto|right; exists w|right; exists w]; split; auto; apply in_or_app; auto.
        -- intros [H|(w & D & M)]; [left; left; auto|]. apply in_app_or in D. destruct D as [D|D]; [left; right; exists w; auto|right; exists w; auto].
      * rewrite C2, C. split; [intros ((-> & ->) & ->); auto|]. intros (-> & X). apply app_eq_nil in X. tauto.
    + intros NF. destruct (append_tokens pton4 pton6 l (tokens s [])) as [r l1] eqn:Q. destruct r; auto.
      assert (D : ~ Forall well_formed (entries lines)).
      { intros F2. assert (Nw : ~ Forall well_formed ws) by (intros F1; apply NF; apply Forall_app; auto).
        apply A2 in Nw. cbn in Nw. congruence. }
      destruct (IH l1) as (_ & I2). auto.
Qed.

(* The decision for a connection. *)
Theorem check_exact : pton_ok pton4 pton6 -> forall lines x, addr_ok x ->
  check_ipacl pton4 pton6 lines x = true <->
  Forall well_formed (entries lines) /\ (entries lines = [] \/ accepts (entries lines) x).
Proof.
  intros PO lines x Wx. unfold check_ipacl. destruct (acl_lines_spec PO x Wx lines []) as (A & B). split.
  - intros H. assert (F : Forall well_formed (entries lines)).
    { assert (Dec : Forall well_formed (entries lines) \/ ~ Forall well_formed (entries lines)).
      { assert (D : forall w, {well_formed w} + {~ well_formed w}).
        { intros w. unfold well_formed. destruct (emplace pton4 pton6 w) as [r o].
          destruct r; [destruct o as [e|]; [left; eauto|]| | |]; right; intros (e' & X); discriminate. }
        destruct (Forall_dec well_formed D (entries lines)); auto. }
      destruct Dec as [D|D]; auto. rewrite (B D) in H. discriminate. }
    split; auto. destruct (A F) as (l & Q & R & C). rewrite Q in H. destruct l as [|e l]; [left; apply C; auto|right].
    apply acl_test_exact in H. apply R in H. destruct H as [(e' & [] & _)|H]; auto.
  - intros (F & H). destruct (A F) as (l & Q & R & C). rewrite Q. destruct l as [|e l]; auto.
    destruct H as [H|H]; [assert (X : e :: l = []) by (apply C; auto); discriminate|].
    apply acl_test_exact. apply R. auto.
Qed.
End Emplace.
