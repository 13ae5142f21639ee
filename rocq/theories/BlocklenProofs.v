(* Proofs about the delta block length (C43).  Arithmetic on binary64 values is
   the one of Coq.Floats.SpecFloat, which is plain Gallina. *)
From Coq Require Import Floats.SpecFloat.
From Verif Require Import Bytes BuModel UtilModel.

(* ---------- Specification ---------- *)

(* The least multiple of 16 whose square is at least n, kept between 64 and 2^17. *)
Definition block_len_ok (n len : Z) : Prop :=
  64 <= len <= 131072 /\ len mod 16 = 0 /\
  (n <= len * len \/ len = 131072) /\ ((len - 16) * (len - 16) < n \/ len = 64).

(* ---------- Rounding ---------- *)

Lemma digits_log2 : forall p, Z.pos (digits2_pos p) = Z.log2 (Z.pos p) + 1.
Proof.
  induction p as [p IH|p IH|]; cbn [digits2_pos]; auto.
  - rewrite Pos2Z.inj_succ, IH. change (Z.pos p~1) with (2 * Z.pos p + 1). rewrite Z.log2_succ_double by lia. lia.
  - rewrite Pos2Z.inj_succ, IH. change (Z.pos p~0) with (2 * Z.pos p). rewrite Z.log2_double by lia. lia.
Qed.
Lemma Zdigits2_pos : forall m, 0 < m -> Zdigits2 m = Z.log2 m + 1.
Proof. intros m H. destruct m as [|p|p]; try lia. apply digits_log2. Qed.
Lemma Zdigits2_eq : forall m d, 2 ^ (d - 1) <= m < 2 ^ d -> 1 <= d -> Zdigits2 m = d.
Proof.
  intros m d H D. assert (0 < 2 ^ (d - 1)) by (apply Z.pow_pos_nonneg; lia). rewrite Zdigits2_pos by lia.
  rewrite (Z.log2_unique m (d - 1)); try lia. split; [lia|]. replace (Z.succ (d - 1)) with d by lia. lia.
Qed.

Lemma shr_1_m : forall r, 0 <= shr_m r -> shr_m (shr_1 r) = shr_m r / 2.
Proof.
  intros [m r s] H. cbn [shr_m] in *. unfold shr_1. destruct m as [|[p|p|]|p]; cbn [shr_m]; auto; try lia.
  - change (Z.pos p~1) with (2 * Z.pos p + 1). rewrite Z.mul_comm, Z.div_add_l by lia. change (1 / 2) with 0. lia.
  - change (Z.pos p~0) with (2 * Z.pos p). rewrite Z.mul_comm, Z.div_mul by lia. auto.
Qed.
Lemma iter_shr : forall p r, 0 <= shr_m r -> shr_m (SpecFloat.iter_pos shr_1 p r) = shr_m r / 2 ^ Z.pos p /\ 0 <= shr_m r / 2 ^ Z.pos p.
Proof.
  induction p as [p IH|p IH|]; intros r H.
  - cbn [SpecFloat.iter_pos]. assert (H1 : 0 <= shr_m (shr_1 r)) by (rewrite shr_1_m by auto; apply Z.div_pos; lia).
    destruct (IH _ H1) as (A & B). rewrite <- A in B. destruct (IH _ B) as (C & _). rewrite C, A, shr_1_m by auto.
    rewrite !Z.div_div by (try apply Z.pow_pos_nonneg; try apply Z.pow_nonzero; lia).
    replace (2 ^ Z.pos p~1) with (2 * 2 ^ Z.pos p * 2 ^ Z.pos p).
    + split; [rewrite Z.mul_assoc; auto|]. apply Z.div_pos; auto. assert (0 < 2 ^ Z.pos p) by (apply Z.pow_pos_nonneg; lia). nia.
    + change (Z.pos p~1) with (2 * Z.pos p + 1). rewrite Z.pow_add_r, Z.pow_mul_r by lia. change (2 ^ 2) with (2 * 2).
      rewrite Z.pow_mul_l. lia.
  - cbn [SpecFloat.iter_pos]. destruct (IH _ H) as (A & B). rewrite <- A in B. destruct (IH _ B) as (C & D). rewrite C, A.
    rewrite !Z.div_div by (try apply Z.pow_pos_nonneg; try apply Z.pow_nonzero; lia).
    replace (2 ^ Z.pos p~0) with (2 ^ Z.pos p * 2 ^ Z.pos p).
    + split; auto. apply Z.div_pos; auto. assert (0 < 2 ^ Z.pos p) by (apply Z.pow_pos_nonneg; lia). nia.
    + change (Z.pos p~0) with (2 * Z.pos p). rewrite Z.pow_mul_r by lia. change (2 ^ 2) with (2 * 2). rewrite Z.pow_mul_l. lia.
  - cbn [SpecFloat.iter_pos]. rewrite shr_1_m by auto. change (2 ^ 1) with 2. split; auto. apply Z.div_pos; lia.
Qed.

Lemma fexp_normal : forall x, -1021 <= x -> fexp 53 1024 x = x - 53.
Proof. intros x H. unfold fexp, emin. lia. Qed.

(* Rounding a number of 53 + k digits: the result is the quotient or one more;
   nothing changes if nothing is lost. *)
Lemma round_aux : forall mx ex l k, 0 <= k -> 2 ^ (52 + k) <= mx < 2 ^ (53 + k) -> -1000 <= ex -> ex + k <= 900 ->
  exists q m e, binary_round_aux 53 1024 false mx ex l = S754_finite false m e /\
    (q = mx / 2 ^ k \/ q = mx / 2 ^ k + 1) /\ (k = 0 -> l = loc_Exact -> q = mx) /\
    ((e = ex + k /\ Z.pos m = q /\ q < 2 ^ 53) \/ (e = ex + k + 1 /\ 2 * Z.pos m = q /\ q = 2 ^ 53)).
Proof.
  intros mx ex l k K M L U. unfold binary_round_aux.
  assert (P52 : 0 < 2 ^ (52 + k)) by (apply Z.pow_pos_nonneg; lia).
  assert (Pk : 0 < 2 ^ k) by (apply Z.pow_pos_nonneg; lia).
  assert (D : Zdigits2 mx = 53 + k) by (apply Zdigits2_eq; [replace (53 + k - 1) with (52 + k) by lia; auto|lia]).
  assert (Hq : 2 ^ 52 <= mx / 2 ^ k < 2 ^ 53).
  { split.
    - apply Z.div_le_lower_bound; [lia|]. rewrite <- Z.pow_add_r by lia. replace (k + 52) with (52 + k) by lia. lia.
    - apply Z.div_lt_upper_bound; [lia|]. rewrite <- Z.pow_add_r by lia. replace (k + 53) with (53 + k) by lia. lia. }
  assert (S1 : exists r, shr_fexp 53 1024 mx ex l = (r, ex + k) /\ shr_m r = mx / 2 ^ k /\ (k = 0 -> l = loc_Exact -> loc_of_shr_record r = loc_Exact)).
  { unfold shr_fexp. rewrite D, fexp_normal by lia. replace (53 + k + ex - 53 - ex) with k by lia.
    assert (Sm : shr_m (shr_record_of_loc mx l) = mx) by (destruct l as [|[| |]]; auto).
    destruct k as [|p|p]; try lia; cbn [shr].
    - exists (shr_record_of_loc mx l). split; [f_equal; lia|]. split; [rewrite Sm; change (2 ^ 0) with 1; rewrite Z.div_1_r; auto|].
      intros _ ->. auto.
    - exists (SpecFloat.iter_pos shr_1 p (shr_record_of_loc mx l)). split; [auto|]. split; [|lia].
      destruct (iter_shr p (shr_record_of_loc mx l)) as (A & _); [rewrite Sm; lia|]. rewrite A, Sm. auto. }
  destruct S1 as (r & -> & R1 & R2). set (q := round_nearest_even (shr_m r) (loc_of_shr_record r)).
  assert (Q : (q = mx / 2 ^ k \/ q = mx / 2 ^ k + 1) /\ (k = 0 -> l = loc_Exact -> q = mx)).
  { unfold q. rewrite R1. split.
    - destruct (loc_of_shr_record r) as [|[| |]]; cbn [round_nearest_even]; auto. destruct (Z.even (mx / 2 ^ k)); auto.
    - intros K0 HL. rewrite R2 by auto. cbn [round_nearest_even]. rewrite K0. change (2 ^ 0) with 1. apply Z.div_1_r. }
  destruct Q as (Q1 & Q2). exists q. unfold shr_fexp.
  destruct (Z_lt_ge_dec q (2 ^ 53)) as [C|C].
  - assert (Dq : Zdigits2 q = 53) by (apply Zdigits2_eq; [change (53 - 1) with 52; lia|lia]).
    rewrite Dq, fexp_normal by lia. replace (53 + (ex + k) - 53 - (ex + k)) with 0 by lia. cbn [shr shr_record_of_loc shr_m].
    destruct q as [|p|p]; try lia. replace (Zle_bool (ex + k) (1024 - 53)) with true by lia.
    exists p, (ex + k). split; auto. split; auto.
  - assert (Eq : q = 2 ^ 53) by lia. rewrite Eq. change (Zdigits2 (2 ^ 53)) with 54. rewrite fexp_normal by lia.
    replace (54 + (ex + k) - 53 - (ex + k)) with 1 by lia. cbn [shr shr_record_of_loc]. 
    change (shr_m (SpecFloat.iter_pos shr_1 1 {| shr_m := 2 ^ 53; shr_r := false; shr_s := false |})) with (2 ^ 52).
    change (2 ^ 52) with (Z.pos 4503599627370496) at 1. cbv iota.
    replace (Zle_bool (ex + k + 1) (1024 - 53)) with true by lia.
    exists 4503599627370496%positive, (ex + k + 1). split; auto. split; [rewrite <- Eq; auto|]. split; [rewrite <- Eq; auto|]. right. split; auto.
Qed.

Lemma to_double_spec : forall n, 1 <= n < 2 ^ 64 -> exists m e, to_double n = S754_finite false m e /\
  2 ^ 52 <= Z.pos m < 2 ^ 53 /\
  ((n < 2 ^ 53 /\ -52 <= e <= 0 /\ Z.pos m = n * 2 ^ (- e)) \/ (2 ^ 53 <= n /\ 1 <= e <= 12)).
Proof.
  intros n N. unfold to_double. destruct n as [|p|p]; try lia. cbn [binary_normalize]. unfold binary_round.
  set (d := Z.pos (digits2_pos p)).
  assert (D : 2 ^ (d - 1) <= Z.pos p < 2 ^ d).
  { unfold d. rewrite digits_log2. destruct (Z.log2_spec (Z.pos p)) as (A & B); [lia|].
    replace (Z.log2 (Z.pos p) + 1 - 1) with (Z.log2 (Z.pos p)) by lia. replace (Z.log2 (Z.pos p) + 1) with (Z.succ (Z.log2 (Z.pos p))) by lia. auto. }
  assert (D1 : 1 <= d) by (unfold d; lia).
  assert (D64 : d <= 64). { destruct (Z_le_gt_dec d 64); auto. assert (2 ^ 64 <= 2 ^ (d - 1)) by (apply Z.pow_le_mono_r; lia). lia. }
  rewrite Z.add_0_r, fexp_normal by lia. unfold shl_align. rewrite Z.sub_0_r.
  destruct (Z_lt_ge_dec d 53) as [C|C].
  - assert (E : exists k, d - 53 = Z.neg k) by (destruct (d - 53) as [|k|k] eqn:X; try lia; eauto). destruct E as (k & E). rewrite E.
    assert (Hs : Z.pos (shift_pos k p) = Z.pos p * 2 ^ (53 - d)).
    { rewrite shift_pos_correct. rewrite Zpower_pos_nat, Zpower_nat_Z, positive_nat_Z. replace (53 - d) with (Z.pos k) by lia. lia. }
    assert (B : 2 ^ 52 <= Z.pos (shift_pos k p) < 2 ^ 53).
    { rewrite Hs. assert (X : 0 < 2 ^ (53 - d)) by (apply Z.pow_pos_nonneg; lia).
      assert (Y : 2 ^ 52 = 2 ^ (d - 1) * 2 ^ (53 - d)) by (rewrite <- Z.pow_add_r by lia; f_equal; lia).
      assert (W : 2 ^ 53 = 2 ^ d * 2 ^ (53 - d)) by (rewrite <- Z.pow_add_r by lia; f_equal; lia). nia. }
    destruct (round_aux (Z.pos (shift_pos k p)) (Z.neg k) loc_Exact 0) as (q & m & e & A & _ & Qx & R); try lia.
    rewrite A. exists m, e. split; auto. specialize (Qx eq_refl eq_refl). destruct R as [(R1 & R2 & R3)|(R1 & R2 & R3)]; [|lia].
    split; [lia|]. left. split; [|split; [lia|]].
    + assert (2 ^ d <= 2 ^ 53) by (apply Z.pow_le_mono_r; lia). lia.
    + rewrite R2, Qx, Hs. f_equal. f_equal. lia.
  - assert (P : 2 ^ 52 <= Z.pos p) by (assert (2 ^ 52 <= 2 ^ (d - 1)) by (apply Z.pow_le_mono_r; lia); lia).
    destruct (round_aux (Z.pos p) 0 loc_Exact (d - 53)) as (q & m & e & A & Q & Qx & R); try lia.
    { replace (52 + (d - 53)) with (d - 1) by lia. replace (53 + (d - 53)) with d by lia. auto. }
    assert (Hq : 2 ^ 52 <= Z.pos p / 2 ^ (d - 53)).
    { apply Z.div_le_lower_bound; [apply Z.pow_pos_nonneg; lia|]. rewrite <- Z.pow_add_r by lia. replace (d - 53 + 52) with (d - 1) by lia. lia. }
    assert (X : (d - 53) = 0 \/ 1 <= d - 53) by lia.
    assert (Y : (match d - 53 with Z.neg k => (shift_pos k p, d - 53) | _ => (p, 0) end) = (p, 0)) by (destruct (d - 53); auto; lia).
    rewrite Y, A. exists m, e. split; auto. destruct X as [X|X].
    + assert (q = Z.pos p) by auto. assert (Z.pos p < 2 ^ 53) by (replace d with 53 in D by lia; lia).
      destruct R as [(R1 & R2 & R3)|(R1 & R2 & R3)]; [|lia]. split; [lia|]. left. split; auto. split; [lia|]. rewrite R1, X. change (2 ^ (- (0 + 0))) with 1. lia.
    + assert (2 ^ 53 <= 2 ^ (d - 1)) by (apply Z.pow_le_mono_r; lia). split; [lia|]. right. split; [lia|].
      destruct R as [(R1 & R2 & R3)|(R1 & R2 & R3)]; [lia|]. split; [lia|]. 
      destruct (Z.eq_dec d 64); [|lia]. subst. lia.
Qed.

(* ---------- The square root ---------- *)

(* The rounded square root R * 2^e' of m * 2^e, with R the integer square root q
   of m * 2^(e - 2e') or, if that is not exact, possibly q + 1. *)
Lemma sqrt_spec : forall m e, 2 ^ 52 <= Z.pos m < 2 ^ 53 -> -52 <= e <= 12 ->
  exists e' M q R, e' = e / 2 - 26 /\ M = Z.pos m * 2 ^ (e - 2 * e') /\ 2 ^ 52 <= q < 2 ^ 53 /\ q * q <= M < (q + 1) * (q + 1) /\
    (R = q \/ (R = q + 1 /\ q * q < M)) /\
    exists m2 e2, SFsqrt 53 1024 (S754_finite false m e) = S754_finite false m2 e2 /\
      ((e2 = e' /\ Z.pos m2 = R) \/ (e2 = e' + 1 /\ 2 * Z.pos m2 = R)).
Proof.
  intros m e Hm He. exists (e / 2 - 26), (Z.pos m * 2 ^ (e - 2 * (e / 2 - 26))).
  cbn [SFsqrt]. unfold SFsqrt_core_binary.
  assert (D : Zdigits2 (Z.pos m) = 53) by (apply Zdigits2_eq; [change (53 - 1) with 52; auto|lia]).
  rewrite D, !Z.div2_div. 
  assert (E : Z.min (fexp 53 1024 ((53 + e + 1) / 2)) (e / 2) = e / 2 - 26).
  { rewrite fexp_normal.
    - replace (53 + e + 1) with (e + 27 * 2) by lia. rewrite Z.div_add by lia. lia.
    - apply Z.div_le_lower_bound; lia. }
  rewrite E. set (e' := e / 2 - 26). set (s := e - 2 * e').
  assert (Hs : 52 <= s <= 53). { unfold s, e'. pose proof (Z.div_mod e 2 ltac:(lia)). pose proof (Z.mod_pos_bound e 2 ltac:(lia)). lia. }
  set (M := Z.pos m * 2 ^ s).
  assert (HM : match s with Z0 => Z.pos m | Zpos _ => Z.shiftl (Z.pos m) s | Zneg _ => 0 end = M).
  { unfold M. destruct s as [|p|p] eqn:X; try lia. rewrite Z.shiftl_mul_pow2 by lia. auto. }
  rewrite HM. assert (B : 2 ^ 104 <= M < 2 ^ 106).
  { unfold M. assert (X : 2 ^ 52 <= 2 ^ s) by (apply Z.pow_le_mono_r; lia). assert (Y : 2 ^ s <= 2 ^ 53) by (apply Z.pow_le_mono_r; lia). nia. }
  pose proof (Z.sqrtrem_spec M ltac:(lia)) as Sq. destruct (Z.sqrtrem M) as [q r]. destruct Sq as (Mq & Rr).
  assert (Hq : 2 ^ 52 <= q < 2 ^ 53) by nia.
  set (l := if Zeq_bool r 0 then loc_Exact else loc_Inexact (if Zle_bool r q then Lt else Gt)).
  destruct (round_aux q e' l 0) as (R & m2 & e2 & A & Q & Qx & F); try lia.
  rewrite Z.div_1_r in Q. exists q, R. split; auto. split; auto. split; auto. split; [nia|]. split.
  - destruct Q as [Q|Q]; auto. right. split; auto. assert (r <> 0); [|nia]. intros ->. assert (R = q) by (apply Qx; auto). lia.
  - exists m2, e2. split; auto. destruct F as [(F1 & F2 & _)|(F1 & F2 & _)]; [left|right]; lia.
Qed.

Lemma ceil_le : forall a b j, 0 < b -> (- (- a / b) <= j <-> a <= j * b).
Proof.
  intros a b j B. pose proof (Z.div_mod (- a) b ltac:(lia)). pose proof (Z.mod_pos_bound (- a) b B). split; intros H1; nia.
Qed.
Lemma ceil16_le : forall R e' m2 e2 j, e' <= 0 -> ((e2 = e' /\ Z.pos m2 = R) \/ (e2 = e' + 1 /\ 2 * Z.pos m2 = R)) ->
  (ceil16 (S754_finite false m2 e2) <= j <-> R <= j * 2 ^ (4 - e')).
Proof.
  intros R e' m2 e2 j E F. cbn [ceil16]. destruct (Z.leb_spec 4 e2); [lia|].
  rewrite ceil_le by (apply Z.pow_pos_nonneg; lia). destruct F as [(-> & <-)|(-> & <-)]; [tauto|].
  replace (4 - e') with (1 + (4 - (e' + 1))) by lia. rewrite Z.pow_add_r by lia. change (2 ^ 1) with 2. nia.
Qed.

Lemma root_small : forall n, 1 <= n < 2 ^ 53 -> forall j, 1 <= j <= 8192 ->
  (ceil16 (SFsqrt 53 1024 (to_double n)) <= j <-> n <= (16 * j) * (16 * j)).
Proof.
  intros n N j J. destruct (to_double_spec n) as (m & e & -> & Hm & C); [lia|]. destruct C as [(_ & He & Hn)|(C & _)]; [|lia].
  destruct (sqrt_spec m e) as (e' & M & q & R & E' & HM & Hq & Sq & HR & m2 & e2 & -> & F); [auto|lia|].
  assert (Ee : -53 <= e' <= 0). { subst e'. pose proof (Z.div_mod e 2 ltac:(lia)). pose proof (Z.mod_pos_bound e 2 ltac:(lia)). lia. }
  rewrite (ceil16_le R e') by (auto; lia). set (T := 2 ^ (- e')). assert (HT : 1 <= T) by (unfold T; assert (0 < 2 ^ (- e')) by (apply Z.pow_pos_nonneg; lia); lia).
  assert (T4 : 2 ^ (4 - e') = 16 * T) by (unfold T; replace (4 - e') with (4 + - e') by lia; rewrite Z.pow_add_r by lia; reflexivity).
  rewrite T4.
  assert (MT : M = n * (T * T)).
  { rewrite HM, Hn. unfold T. rewrite <- Z.mul_assoc, <- !Z.pow_add_r.
    - f_equal. f_equal. lia.
    - lia.
    - lia.
    - lia.
    - pose proof (Z.div_mod e 2 ltac:(lia)). pose proof (Z.mod_pos_bound e 2 ltac:(lia)). lia. }
  set (X := j * (16 * T)). assert (HX : (16 * j) * (16 * j) * (T * T) = X * X) by (unfold X; ring).
  assert (HnX : n <= (16 * j) * (16 * j) <-> M <= X * X).
  { rewrite MT, <- HX. assert (0 < T * T) by nia. split; intros G; nia. }
  rewrite HnX. assert (X0 : 0 <= X) by (unfold X; nia). split; intros H.
  - assert (q <= X) by lia. destruct (Z_lt_ge_dec q X); [nia|]. assert (q = X) by lia.
    destruct (Z_le_gt_dec M (X * X)); auto. exfalso.
    (* one more than a square is far away at this precision *)
    assert (n >= (16 * j) * (16 * j) + 1) by (destruct (Z_le_gt_dec n ((16 * j) * (16 * j))); [apply HnX in l; lia|lia]).
    assert (M >= X * X + T * T) by (rewrite MT, <- HX; nia).
    assert (T * T <= 2 * X) by nia.
    assert (T <= 32 * j) by (unfold X in *; nia).
    assert (X <= 8192 * (16 * (32 * 8192))) by (unfold X; nia). lia.
  - destruct HR as [->|(-> & L)]; nia.
Qed.
Lemma root_big : forall n, 2 ^ 53 <= n < 2 ^ 64 -> 8192 < ceil16 (SFsqrt 53 1024 (to_double n)).
Proof.
  intros n N. destruct (to_double_spec n) as (m & e & -> & Hm & C); [lia|]. destruct C as [(C & _)|(_ & He)]; [lia|].
  destruct (sqrt_spec m e) as (e' & M & q & R & E' & HM & Hq & Sq & HR & m2 & e2 & -> & F); [auto|lia|].
  assert (Ee : -26 <= e' <= 0). { subst e'. pose proof (Z.div_mod e 2 ltac:(lia)). pose proof (Z.mod_pos_bound e 2 ltac:(lia)). lia. }
  apply Z.nle_gt. rewrite (ceil16_le R e') by (auto; lia). intros H.
  assert (2 ^ (4 - e') <= 2 ^ 30) by (apply Z.pow_le_mono_r; lia). nia.
Qed.

Lemma dec_run_nonneg : forall s v any w, 0 <= v -> dec_run s v any = Some w -> 0 <= w.
Proof.
  induction s as [|c s IH]; intros v any w V H; cbn [dec_run] in H.
  - destruct any; [|discriminate]. injection H as <-. auto.
  - destruct (isdigit c) eqn:E.
    + eapply IH; [|exact H]. unfold isdigit in E. lia.
    + destruct any; [|discriminate]. injection H as <-. auto.
Qed.
Lemma strtoul10_range : forall s, 0 <= strtoul10 s < 2 ^ 64.
Proof.
  intros s. unfold strtoul10. match goal with |- context [if hd0 ?a =? 45 then ?b else ?c] => destruct (if hd0 a =? 45 then b else c) as [neg r] end.
  destruct (dec_run r 0 false) as [v|] eqn:E; [|lia]. apply dec_run_nonneg in E; [|lia].
  destruct (Z.leb_spec (2 ^ 64) v); [lia|]. destruct neg; [|lia]. unfold u64. apply Z.mod_pos_bound. lia.
Qed.

Theorem block_len_exact : forall endfile, block_len_ok (strtoul10 endfile) (get_librsync_block_len endfile).
Proof.
  intros s. unfold get_librsync_block_len. pose proof (strtoul10_range s) as R. set (n := strtoul10 s) in *.
  set (c := ceil16 (SFsqrt 53 1024 (to_double n))).
  assert (Small : forall j, 1 <= j <= 8192 -> (c <= j <-> n <= (16 * j) * (16 * j))).
  { intros j J. destruct (Z.eq_dec n 0) as [N0|N0].
    - unfold c. rewrite N0. change (ceil16 (SFsqrt 53 1024 (to_double 0))) with 0. nia.
    - destruct (Z_lt_ge_dec n (2 ^ 53)).
      + apply root_small; lia.
      + pose proof (root_big n ltac:(lia)). fold c in H. nia. }
  unfold block_len_ok.
  destruct (Z.ltb_spec (c * 16) 64).
  - split; [lia|]. split; [reflexivity|]. split; [left; apply (Small 4); lia|auto].
  - destruct (Z.ltb_spec 131072 (c * 16)).
    + split; [lia|]. split; [reflexivity|]. split; auto. left.
      destruct (Z_lt_ge_dec ((131072 - 16) * (131072 - 16)) n); auto.
      assert (c <= 8191) by (apply Small; lia). lia.
    + split; [lia|]. split; [apply Z.mod_mul; lia|]. split.
      * left. replace (c * 16) with (16 * c) by lia. apply Small; lia.
      * destruct (Z.eq_dec c 4) as [->|]; auto. left.
        destruct (Z_lt_ge_dec ((c * 16 - 16) * (c * 16 - 16)) n); auto.
        assert (c <= c - 1); [|lia]. apply Small; lia.
Qed.
(* Only one length satisfies the description. *)
Theorem block_len_functional : forall n a b, block_len_ok n a -> block_len_ok n b -> a = b.
Proof.
  intros n a b (A1 & A2 & A3 & A4) (B1 & B2 & B3 & B4).
  apply Z.mod_divide in A2; [|lia]. apply Z.mod_divide in B2; [|lia]. destruct A2 as (x & ->). destruct B2 as (y & ->).
  destruct (Z.lt_trichotomy x y) as [L|[->|L]]; auto; exfalso.
  - destruct B4 as [B4|B4]; [|lia]. destruct A3 as [A3|A3]; [nia|lia].
  - destruct A4 as [A4|A4]; [|lia]. destruct B3 as [B3|B3]; [nia|lia].
Qed.
