(* Strings, numbers, tokens and whole texts: what is written is what is read. *)
From Coq Require Import Lia.
From Verif Require Import Bytes BuModel BuProofs CntrModel CntrProofs JsonModel.
Local Open Scope Z_scope.

(* ---------- strings ---------- *)

Lemma small_cases : forall (P : Z -> Prop) c, 0 <= c < 32 ->
  (forall n, (n < 32)%nat -> P (Z.of_nat n)) -> P c.
Proof. intros P c H G. replace c with (Z.of_nat (Z.to_nat c)) by lia. apply G. lia. Qed.

Lemma below_32 : forall (P : nat -> Prop),
  P 0%nat -> P 1%nat -> P 2%nat -> P 3%nat -> P 4%nat -> P 5%nat -> P 6%nat -> P 7%nat ->
  P 8%nat -> P 9%nat -> P 10%nat -> P 11%nat -> P 12%nat -> P 13%nat -> P 14%nat -> P 15%nat ->
  P 16%nat -> P 17%nat -> P 18%nat -> P 19%nat -> P 20%nat -> P 21%nat -> P 22%nat -> P 23%nat ->
  P 24%nat -> P 25%nat -> P 26%nat -> P 27%nat -> P 28%nat -> P 29%nat -> P 30%nat -> P 31%nat ->
  forall n, (n < 32)%nat -> P n.
Proof. intros. do 32 (destruct n as [|n]; [assumption|]). lia. Qed.

(* the escapes of the writer *)
Definition escaped (c : Z) : bool := (c <? 32) || (c =? 34) || (c =? 92).

Lemma enc1_plain : forall c, 0 <= c -> escaped c = false -> enc1 c = [c].
Proof.
  intros c H E. unfold escaped in E. apply orb_false_iff in E as [E E3]. apply orb_false_iff in E as [E1 E2].
  rewrite Z.ltb_ge in E1. rewrite Z.eqb_neq in E2, E3. unfold enc1.
  replace (c =? 13) with false by (symmetry; apply Z.eqb_neq; lia).
  replace (c =? 10) with false by (symmetry; apply Z.eqb_neq; lia).
  replace (c =? 92) with false by (symmetry; apply Z.eqb_neq; lia).
  replace (c =? 34) with false by (symmetry; apply Z.eqb_neq; lia).
  replace (c =? 12) with false by (symmetry; apply Z.eqb_neq; lia).
  replace (c =? 8) with false by (symmetry; apply Z.eqb_neq; lia).
  replace (c =? 9) with false by (symmetry; apply Z.eqb_neq; lia).
  replace (c <? 32) with false by (symmetry; apply Z.ltb_ge; lia). reflexivity.
Qed.

Lemma decode_enc1 : forall c r, is_byte c -> decode (enc1 c ++ r) = pre [c] (decode r).
Proof.
  intros c r H. unfold is_byte in H. destruct (escaped c) eqn:E.
  - unfold escaped in E. apply orb_prop in E as [E|E]; [apply orb_prop in E as [E|E]|].
    + rewrite Z.ltb_lt in E. revert c H E. 
      assert (G : forall c, 0 <= c < 32 -> decode (enc1 c ++ r) = pre [c] (decode r)).
      { intros c H. apply (small_cases (fun c => decode (enc1 c ++ r) = pre [c] (decode r))); auto.
        apply below_32; reflexivity. }
      intros. apply G. lia.
    + rewrite Z.eqb_eq in E. subst. reflexivity.
    + rewrite Z.eqb_eq in E. subst. reflexivity.
  - rewrite enc1_plain by (auto; lia). cbn [app decode].
    unfold escaped in E. apply orb_false_iff in E as [_ E]. rewrite E. reflexivity.
Qed.

Lemma decode_encode : forall s, raw s -> decode (encode s) = Some s.
Proof.
  induction s as [|c s IH]; intros H; [reflexivity|].
  unfold encode. cbn [flat_map]. rewrite decode_enc1 by (exact (Forall_inv H)).
  fold (encode s). rewrite IH by (exact (Forall_inv_tail H)). reflexivity.
Qed.

Lemma lex_enc1 : forall c t, is_byte c -> lex_str (enc1 c ++ t) = spre (enc1 c) (escaped c) (lex_str t).
Proof.
  intros c r H. unfold is_byte in H. destruct (escaped c) eqn:E.
  - unfold escaped in E. apply orb_prop in E as [E|E]; [apply orb_prop in E as [E|E]|].
    + rewrite Z.ltb_lt in E.
      assert (G : forall c, 0 <= c < 32 -> lex_str (enc1 c ++ r) = spre (enc1 c) true (lex_str r)).
      { intros x X. apply (small_cases (fun c => lex_str (enc1 c ++ r) = spre (enc1 c) true (lex_str r))); auto.
        apply below_32; reflexivity. }
      apply G. lia.
    + rewrite Z.eqb_eq in E. subst. reflexivity.
    + rewrite Z.eqb_eq in E. subst. reflexivity.
  - rewrite enc1_plain by (auto; lia). cbn [app lex_str].
    unfold escaped in E. apply orb_false_iff in E as [E E3]. apply orb_false_iff in E as [E1 E2].
    rewrite E2, E3. unfold ijc. rewrite E1, E2, E3. reflexivity.
Qed.

Lemma lex_encode : forall s r, raw s ->
  lex_str (encode s ++ 34 :: r) = SDone (encode s) (existsb escaped s) r.
Proof.
  induction s as [|c s IH]; intros r H; [reflexivity|].
  unfold encode. cbn [flat_map existsb]. rewrite <- app_assoc, lex_enc1 by (exact (Forall_inv H)).
  fold (encode s). rewrite IH by (exact (Forall_inv_tail H)). reflexivity.
Qed.

Lemma encode_plain : forall s, raw s -> existsb escaped s = false -> encode s = s.
Proof.
  induction s as [|c s IH]; intros H E; [reflexivity|].
  cbn [existsb] in E. apply orb_false_iff in E as [E1 E2]. unfold encode. cbn [flat_map].
  rewrite enc1_plain; auto. 2:{ pose proof (Forall_inv H) as B. unfold is_byte in B. lia. }
  fold (encode s). rewrite IH; auto. exact (Forall_inv_tail H).
Qed.

(* No quote or control character, and no backslash but before its letter. *)
Lemma encode_clean : forall s, raw s -> Forall (fun c => 32 <= c <= 255) (encode s).
Proof.
  induction s as [|c s IH]; intros H; [constructor|].
  unfold encode. cbn [flat_map]. apply Forall_app. split; [|apply IH; exact (Forall_inv_tail H)].
  pose proof (Forall_inv H) as B. unfold is_byte in B. destruct (escaped c) eqn:E.
  - unfold escaped in E. apply orb_prop in E as [E|E]; [apply orb_prop in E as [E|E]|].
    + rewrite Z.ltb_lt in E. apply (small_cases (fun c => Forall (fun c => 32 <= c <= 255) (enc1 c))); [lia|].
      apply below_32; cbv -[Z.le]; repeat constructor; discriminate.
    + rewrite Z.eqb_eq in E. subst. cbv -[Z.le]; repeat constructor; discriminate.
    + rewrite Z.eqb_eq in E. subst. cbv -[Z.le]; repeat constructor; discriminate.
  - rewrite enc1_plain by (auto; lia). constructor; [|constructor].
    unfold escaped in E. apply orb_false_iff in E as [E _]. apply orb_false_iff in E as [E _].
    rewrite Z.ltb_ge in E. lia.
Qed.

(* ---------- numbers ---------- *)

Lemma dec_digits_lead : forall f n acc, 0 < n < 10 ^ Z.of_nat f ->
  exists c r, dec_digits f n acc = c :: r /\ 49 <= c <= 57.
Proof.
  induction f as [|f IH]; intros n acc H; [cbn in H; lia|].
  cbn [dec_digits]. destruct (n / 10 =? 0) eqn:E.
  - rewrite Z.eqb_eq in E. exists (48 + n mod 10), acc. split; auto.
    pose proof (Z.div_mod n 10 ltac:(lia)). pose proof (Z.mod_pos_bound n 10 ltac:(lia)). lia.
  - rewrite Z.eqb_neq in E. apply IH.
    rewrite Nat2Z.inj_succ, Z.pow_succ_r in H by lia.
    pose proof (Z.div_mod n 10 ltac:(lia)). pose proof (Z.mod_pos_bound n 10 ltac:(lia)).
    pose proof (Z.div_pos n 10 ltac:(lia) ltac:(lia)). split; [lia|].
    apply Z.div_lt_upper_bound; lia.
Qed.

(* no leading zero *)
Lemma fmt_u_lead : forall n, is_u64 n -> fmt_u n = [48] \/ exists c r, fmt_u n = c :: r /\ 49 <= c <= 57.
Proof.
  intros n H. unfold fmt_u. rewrite u64_small by auto. destruct (Z.eq_dec n 0) as [->|N].
  - left. reflexivity.
  - right. apply dec_digits_lead. unfold is_u64 in H. pose proof pow64_20. change (Z.of_nat 20) with 20. lia.
Qed.

(* what may follow a number *)
Definition term (s : bytes) : Prop :=
  exists c r, s = c :: r /\ dig c = false /\ c <> 46 /\ c <> 101 /\ c <> 69.

Lemma span_digits : forall ds s, digits ds -> term s -> span (ds ++ s) = (ds, s).
Proof.
  induction ds as [|d ds IH]; intros s D T.
  - destruct T as (c & r & -> & T & _). cbn [app span]. rewrite T. reflexivity.
  - cbn [app span]. pose proof (Forall_inv D) as B. cbn in B.
    replace (dig d) with true by (symmetry; unfold dig; apply andb_true_iff; lia).
    rewrite IH; auto. exact (Forall_inv_tail D).
Qed.

Lemma lex_frac_term : forall num s, term s -> lex_frac num s = NInt num s.
Proof.
  intros num s (c & r & -> & D & A & B & C). unfold lex_frac, lex_exp.
  rewrite <- Z.eqb_neq in A, B, C. rewrite A, B, C. reflexivity.
Qed.

Lemma lex_int_fmt : forall sg n s, is_u64 n -> term s -> lex_int sg (fmt_u n ++ s) = NInt (sg ++ fmt_u n) s.
Proof.
  intros sg n s H T. destruct (fmt_u_spec n H) as (D & _ & _).
  destruct (fmt_u_lead n H) as [E|(c & r & E & B)]; rewrite E in *.
  - cbn [app lex_int]. change (48 =? 48) with true. cbv iota. apply lex_frac_term. exact T.
  - cbn [app lex_int]. replace (c =? 48) with false by (symmetry; apply Z.eqb_neq; lia).
    replace (dig c) with true by (symmetry; unfold dig; apply andb_true_iff; lia).
    rewrite span_digits; auto. 2: exact (Forall_inv_tail D).
    apply lex_frac_term. exact T.
Qed.

Definition is_ll (z : Z) : Prop := - llmax <= z <= llmax.

Lemma lex_num_fmt : forall z s, is_ll z -> term s -> lex_num (fmt_d z ++ s) = NInt (fmt_d z) s.
Proof.
  intros z s H T. unfold is_ll, llmax in H. unfold fmt_d. destruct (Z.ltb_spec z 0).
  - cbn [app lex_num]. change (45 =? 45) with true. cbv iota.
    rewrite lex_int_fmt; auto. unfold is_u64. change (2 ^ 64) with 18446744073709551616. lia.
  - assert (U : is_u64 z) by (unfold is_u64; change (2 ^ 64) with 18446744073709551616; lia).
    pose proof (lex_int_fmt [] z s U T) as G. destruct (fmt_u_lead z U) as [E|(c & r & E & B)]; rewrite E in *.
    + cbn [app lex_num] in *. change (48 =? 45) with false. cbv iota. exact G.
    + cbn [app lex_num] in *. replace (c =? 45) with false by (symmetry; apply Z.eqb_neq; lia). exact G.
Qed.

Lemma val_grows : forall ds v, digits ds -> 0 <= v -> v <= val ds v.
Proof.
  induction ds as [|d ds IH]; intros v D H; [cbn; lia|].
  pose proof (Forall_inv D) as B. cbn in B. cbn [val].
  pose proof (IH (v * 10 + (d - 48)) (Forall_inv_tail D) ltac:(lia)). lia.
Qed.

Lemma int_loop_val : forall ds v, digits ds -> 0 <= v -> val ds v <= llmax -> int_loop ds v = IOk (val ds v).
Proof.
  induction ds as [|d ds IH]; intros v D H M; [reflexivity|].
  pose proof (Forall_inv D) as B. cbn in B. cbn [val int_loop] in *.
  pose proof (val_grows ds (v * 10 + (d - 48)) (Forall_inv_tail D) ltac:(lia)) as G.
  replace (maxmul <? v) with false.
  2:{ symmetry. apply Z.ltb_ge. change maxmul with 922337203685477587. unfold llmax in *. lia. }
  replace (llmax <? v * 10) with false by (symmetry; apply Z.ltb_ge; lia).
  replace (llmax - v * 10 <? d - 48) with false by (symmetry; apply Z.ltb_ge; lia).
  replace ((d <? 48) || (57 <? d)) with false.
  2:{ symmetry. apply orb_false_iff. split; apply Z.ltb_ge; lia. }
  apply IH; auto; [exact (Forall_inv_tail D)|lia].
Qed.

Lemma parse_fmt : forall z, is_ll z -> parse_integer (fmt_d z) = IOk z.
Proof.
  intros z H. unfold is_ll in H. unfold fmt_d. destruct (Z.ltb_spec z 0).
  - assert (U : is_u64 (- z)) by (unfold is_u64, llmax in *; change (2 ^ 64) with 18446744073709551616; lia).
    destruct (fmt_u_spec _ U) as (D & _ & V). unfold parse_integer. change (45 =? 45) with true. cbv iota.
    rewrite int_loop_val; auto; try lia. rewrite V. f_equal. lia.
  - assert (U : is_u64 z) by (unfold is_u64, llmax in *; change (2 ^ 64) with 18446744073709551616; lia).
    destruct (fmt_u_spec _ U) as (D & L & V).
    assert (G : int_loop (fmt_u z) 0 = IOk z) by (rewrite int_loop_val; auto; try lia; rewrite V; auto).
    unfold parse_integer. destruct (fmt_u z) as [|c r] eqn:E; [cbn in L; lia|].
    pose proof (Forall_inv D) as B. cbn in B. replace (c =? 45) with false by (symmetry; apply Z.eqb_neq; lia). exact G.
Qed.

(* ---------- tokens do not depend on what comes later ---------- *)

Lemma lex_str_app : forall t n s, (List.length s <= n)%nat ->
  match lex_str s with
  | SDone b e r => lex_str (s ++ t) = SDone b e (r ++ t) /\ (List.length r < List.length s)%nat
  | SErr => lex_str (s ++ t) = SErr
  | SEof => True
  end.
Proof.
  intros t. induction n as [|n IH]; intros s L.
  { destruct s; [exact I|cbn in L; lia]. }
  destruct s as [|c r]; [exact I|]. cbn [lex_str app].
  assert (K : forall a e u, (List.length u < List.length (c :: r))%nat ->
    match spre a e (lex_str u) with
    | SDone b e' r' => spre a e (lex_str (u ++ t)) = SDone b e' (r' ++ t) /\ (List.length r' < List.length (c :: r))%nat
    | SErr => spre a e (lex_str (u ++ t)) = SErr
    | SEof => True
    end).
  { intros a e u H. pose proof (IH u ltac:(cbn in *; lia)) as G. destruct (lex_str u) as [b e' r'| |]; cbn [spre]; auto.
    - destruct G as [G1 G2]. rewrite G1. cbn [spre]. split; [reflexivity|lia].
    - rewrite G. reflexivity. }
  destruct (c =? 34). { split; [reflexivity|cbn; lia]. }
  destruct (c =? 92).
  - destruct r as [|e r]; [exact I|]. cbn [app]. destruct (e =? 117).
    + destruct r as [|h1 r]; [exact I|]. cbn [app]. destruct (negb (vhc h1)); [reflexivity|].
      destruct r as [|h2 r]; [exact I|]. cbn [app]. destruct (negb (vhc h2)); [reflexivity|].
      destruct r as [|h3 r]; [exact I|]. cbn [app]. destruct (negb (vhc h3)); [reflexivity|].
      destruct r as [|h4 r]; [exact I|]. cbn [app]. destruct (negb (vhc h4)); [reflexivity|].
      apply K. cbn. lia.
    + destruct (vec e); [|reflexivity]. apply K. cbn. lia.
  - destruct (ijc c); [reflexivity|]. apply K. cbn. lia.
Qed.

Lemma span_app : forall s t a c b, span s = (a, c :: b) -> span (s ++ t) = (a, c :: b ++ t).
Proof.
  induction s as [|x s IH]; intros t a c b H; [discriminate H|].
  cbn [span app] in *. destruct (dig x).
  - destruct (span s) as [a' b'] eqn:E. injection H as <- ->. rewrite (IH t a' c b eq_refl). reflexivity.
  - injection H as <- <- <-. reflexivity.
Qed.
Lemma span_len : forall s a b, span s = (a, b) -> (List.length b <= List.length s)%nat.
Proof.
  induction s as [|x s IH]; intros a b H; cbn [span] in H; [injection H as <- <-; auto|].
  destruct (dig x).
  - destruct (span s) as [a' b'] eqn:E. injection H as <- <-. pose proof (IH a' b' eq_refl). cbn. lia.
  - injection H as <- <-. auto.
Qed.
(* a number read before the end of the text, with more text *)
Definition nstable (x y : nres) (t : bytes) (n : nat) : Prop :=
  match x with
  | NInt b r => y = NInt b (r ++ t) /\ (List.length r <= n)%nat
  | NDbl r => y = NDbl (r ++ t) /\ (List.length r <= n)%nat
  | NErr => y = NErr
  | NEof => True
  end.
Lemma nstable_le : forall x y t n m, nstable x y t n -> (n <= m)%nat -> nstable x y t m.
Proof. intros x y t n m H L. destruct x; cbn in *; auto; destruct H; split; auto; lia. Qed.

Lemma lex_exp_app : forall fin s t,
  (fin = NDbl \/ exists b, fin = NInt b) -> nstable (lex_exp fin s) (lex_exp fin (s ++ t)) t (List.length s).
Proof.
  intros fin s t F. destruct s as [|c r]; [exact I|]. cbn [lex_exp app].
  destruct ((c =? 101) || (c =? 69)).
  - destruct r as [|x r1]; [exact I|]. cbn [app].
    assert (K : forall u, (List.length u <= List.length (x :: r1))%nat ->
       nstable (match span u with (_, []) => NEof | ([], _ :: _) => NErr | (_ :: _, (_ :: _) as r3) => NDbl r3 end)
               (match span (u ++ t) with (_, []) => NEof | ([], _ :: _) => NErr | (_ :: _, (_ :: _) as r3) => NDbl r3 end)
               t (List.length (c :: x :: r1))).
    { intros u L. destruct (span u) as [a b] eqn:E. destruct b as [|y b]; [destruct a; exact I|].
      rewrite (span_app _ t _ _ _ E). apply span_len in E.
      destruct a; [reflexivity|]. split; [reflexivity|cbn in *; lia]. }
    destruct ((x =? 43) || (x =? 45)).
    + specialize (K r1 ltac:(cbn; lia)). exact K.
    + specialize (K (x :: r1) ltac:(cbn; lia)). exact K.
  - destruct F as [->|(b & ->)]; split; auto.
Qed.
Lemma lex_frac_app : forall num s t, nstable (lex_frac num s) (lex_frac num (s ++ t)) t (List.length s).
Proof.
  intros num s t. destruct s as [|c r]; [exact I|]. unfold lex_frac at 1 2. cbn [app]. 
  destruct (c =? 46).
  - destruct (span r) as [a b] eqn:E. destruct b as [|y b]; [destruct a; exact I|].
    rewrite (span_app _ t _ _ _ E). apply span_len in E. destruct a as [|z a]; [reflexivity|].
    eapply nstable_le; [apply (lex_exp_app NDbl (y :: b) t); auto|cbn in *; lia].
  - apply (lex_exp_app (NInt num) (c :: r) t). right. eauto.
Qed.
Lemma lex_int_app : forall sg s t, nstable (lex_int sg s) (lex_int sg (s ++ t)) t (List.length s - 1).
Proof.
  intros sg s t. destruct s as [|c r]; [exact I|]. cbn [lex_int app].
  destruct (c =? 48).
  { eapply nstable_le; [apply lex_frac_app|cbn; lia]. }
  destruct (dig c); [|reflexivity].
  destruct (span r) as [a b] eqn:E. destruct b as [|y b]; [exact I|].
  rewrite (span_app _ t _ _ _ E). apply span_len in E.
  eapply nstable_le; [apply (lex_frac_app _ (y :: b) t)|cbn in *; lia].
Qed.
Lemma lex_num_app : forall s t, nstable (lex_num s) (lex_num (s ++ t)) t (List.length s - 1).
Proof.
  intros s t. destruct s as [|c r]; [exact I|]. cbn [lex_num app]. destruct (c =? 45).
  - eapply nstable_le; [apply lex_int_app|cbn; lia].
  - apply (lex_int_app [] (c :: r) t).
Qed.
Lemma want_app : forall w s t,
  match want w s with
  | WOk r => want w (s ++ t) = WOk (r ++ t) /\ (List.length r <= List.length s)%nat
  | WErr => want w (s ++ t) = WErr
  | WEof => True
  end.
Proof.
  induction w as [|x w IH]; intros s t; [split; auto|].
  destruct s as [|c r]; [exact I|]. cbn [want app]. destruct (c =? x); [|reflexivity].
  specialize (IH r t). destruct (want w r); auto. destruct IH. split; auto. cbn. lia.
Qed.

Lemma lex1_app : forall c r t,
  match lex1 c r with
  | LTok k u => lex1 c (r ++ t) = LTok k (u ++ t) /\ (List.length u <= List.length r)%nat
  | LErr => lex1 c (r ++ t) = LErr
  | LEof k => k = c :: r
  end.
Proof.
  intros c r t. unfold lex1.
  destruct (c =? 123); [split; auto|]. destruct (c =? 125); [split; auto|]. destruct (c =? 91); [split; auto|].
  destruct (c =? 93); [split; auto|]. destruct (c =? 44); [split; auto|]. destruct (c =? 58); [split; auto|].
  assert (W : forall w k, match want_tok k (c :: r) (want w r) with
    | LTok k' u => want_tok k (c :: r ++ t) (want w (r ++ t)) = LTok k' (u ++ t) /\ (List.length u <= List.length r)%nat
    | LErr => want_tok k (c :: r ++ t) (want w (r ++ t)) = LErr
    | LEof k => k = c :: r
    end).
  { intros w k. pose proof (want_app w r t) as G. destruct (want w r); cbn [want_tok]; auto.
    - destruct G as [G1 G2]. rewrite G1. split; auto.
    - rewrite G. reflexivity. }
  destruct (c =? 116); [apply W|]. destruct (c =? 102); [apply W|]. destruct (c =? 110); [apply W|]. clear W.
  destruct (c =? 34).
  { pose proof (lex_str_app t (List.length r) r (le_n _)) as G. destruct (lex_str r); auto.
    - destruct G as [G1 G2]. rewrite G1. split; [reflexivity|lia].
    - rewrite G. reflexivity. }
  destruct ((c =? 45) || dig c); [|reflexivity].
  pose proof (lex_num_app (c :: r) t) as G. cbn [app List.length] in G. destruct (lex_num (c :: r)); cbn [nstable] in G; auto.
  - destruct G as [G1 G2]. rewrite G1. split; [reflexivity|lia].
  - destruct G as [G1 G2]. rewrite G1. split; [reflexivity|lia].
  - rewrite G. reflexivity.
Qed.

Lemma lex_app : forall s t,
  match lex s with
  | LTok k u => lex (s ++ t) = LTok k (u ++ t) /\ (List.length u < List.length s)%nat
  | LErr => lex (s ++ t) = LErr
  | LEof k => lex (s ++ t) = lex (k ++ t)
  end.
Proof.
  induction s as [|c r IH]; intros t; [reflexivity|].
  cbn [lex app]. destruct (ws c) eqn:W.
  - specialize (IH t). destruct (lex r); auto. destruct IH. split; auto. cbn. lia.
  - pose proof (lex1_app c r t) as G. destruct (lex1 c r) eqn:E; auto.
    + destruct G as [G1 G2]. split; auto. cbn. lia.
    + rewrite G. cbn [app lex]. rewrite W. reflexivity.
Qed.

(* ---------- parsing ---------- *)

Lemma do_parse_fuel : forall n m stk s, (List.length s < n)%nat -> (List.length s < m)%nat ->
  do_parse n stk s = do_parse m stk s.
Proof.
  induction n as [|n IH]; intros m stk s A B; [lia|]. destruct m as [|m]; [lia|]. cbn [do_parse].
  pose proof (lex_app s []) as L. destruct (lex s) as [k r| |]; auto.
  destruct L as [_ L]. destruct (pstep stk k) as [| |e stk']; auto.
  rewrite (IH m stk' r) by lia. reflexivity.
Qed.

(* events before those of a parse *)
Definition ahead (es : list jev) (x : list jev * pend) : list jev * pend := (es ++ fst x, snd x).

Lemma parse_tok : forall stk s k r e stk', lex s = LTok k r -> pstep stk k = AGo e stk' ->
  parse stk s = ahead (oev e) (parse stk' r).
Proof.
  intros stk s k r e stk' L P. unfold parse at 1. cbn [do_parse]. rewrite L, P.
  pose proof (lex_app s []) as G. rewrite L in G. destruct G as [_ G].
  rewrite (do_parse_fuel _ (S (List.length r)) stk' r) by lia. fold (parse stk' r).
  destruct (parse stk' r) as [es x]. reflexivity.
Qed.
Lemma parse_lex : forall stk s s', lex s = lex s' -> parse stk s = parse stk s'.
Proof.
  intros stk s s' L. unfold parse.
  rewrite (do_parse_fuel (S (List.length s)) (S (List.length s + List.length s')) stk s) by lia.
  rewrite (do_parse_fuel (S (List.length s')) (S (List.length s + List.length s')) stk s') by lia.
  cbn [do_parse]. rewrite L. reflexivity.
Qed.
Lemma parse_stop : forall stk s,
  match lex s with
  | LEof k => parse stk s = ([], POk stk k)
  | LErr => parse stk s = ([], PErr)
  | LTok k r => match pstep stk k with
                | ABad => parse stk s = ([], PErr)
                | AUndef => parse stk s = ([], PUndef)
                | AGo e stk' => parse stk s = ahead (oev e) (parse stk' r)
                end
  end.
Proof.
  intros stk s. destruct (lex s) as [k r| |] eqn:L.
  - destruct (pstep stk k) eqn:P; try (unfold parse; cbn [do_parse]; rewrite L, P; reflexivity).
    eapply parse_tok; eauto.
  - unfold parse; cbn [do_parse]; rewrite L; reflexivity.
  - unfold parse; cbn [do_parse]; rewrite L; reflexivity.
Qed.

Lemma ahead_ahead : forall a b x, ahead a (ahead b x) = ahead (a ++ b) x.
Proof. intros. unfold ahead. cbn. rewrite app_assoc. reflexivity. Qed.
Lemma ahead_nil : forall x, ahead [] x = x.
Proof. intros [a b]. reflexivity. Qed.

(* Text in two pieces. *)
Lemma parse_app : forall n stk a b, (List.length a <= n)%nat ->
  parse stk (a ++ b) =
  match parse stk a with
  | (es, POk stk' k) => ahead es (parse stk' (k ++ b))
  | (es, x) => (es, x)
  end.
Proof.
  induction n as [|n IH]; intros stk a b L.
  - destruct a; [|cbn in L; lia]. change (parse stk []) with (@nil jev, POk stk []). cbv iota beta. rewrite ahead_nil. reflexivity.
  - pose proof (lex_app a b) as G. pose proof (parse_stop stk a) as P. pose proof (parse_stop stk (a ++ b)) as Q.
    destruct (lex a) as [k r| |] eqn:E.
    + destruct G as [G1 G2]. rewrite G1 in Q.
      destruct (pstep stk k) as [| |e stk'] eqn:T; [rewrite P, Q; reflexivity..|].
      rewrite P, Q, IH by lia. destruct (parse stk' r) as [es [stk2 k2| |]]; cbn [ahead fst snd];
        rewrite ?ahead_ahead; reflexivity.
    + rewrite P. rewrite ahead_nil. apply parse_lex. exact G.
    + rewrite G in Q. rewrite P, Q. reflexivity.
Qed.

(* What is kept is the start of a token, or nothing. *)
Lemma lex_keep : forall s k, lex s = LEof k -> lex k = LEof k.
Proof.
  induction s as [|c r IH]; intros k H; cbn [lex] in H; [injection H as <-; reflexivity|].
  destruct (ws c) eqn:W; [apply IH; exact H|].
  pose proof (lex1_app c r []) as G. rewrite H in G. subst k. cbn [lex]. rewrite W. exact H.
Qed.
Lemma parse_keep : forall n stk s es stk' k, (List.length s <= n)%nat -> parse stk s = (es, POk stk' k) -> lex k = LEof k.
Proof.
  induction n as [|n IH]; intros stk s es stk' k L H.
  - destruct s; [|cbn in L; lia]. change (parse stk []) with (@nil jev, POk stk []) in H. injection H as <- <- <-. reflexivity.
  - pose proof (parse_stop stk s) as P. pose proof (lex_app s []) as G. destruct (lex s) as [t r| |] eqn:E.
    + destruct G as [_ G]. destruct (pstep stk t) as [| |e st2] eqn:T; rewrite P in H; try discriminate H.
      destruct (parse st2 r) as [es2 x] eqn:Q. unfold ahead in H. cbn in H. injection H as _ ->.
      eapply (IH st2 r); [lia|exact Q].
    + rewrite P in H. injection H as _ _ <-. eapply lex_keep; eauto.
    + rewrite P in H. discriminate H.
Qed.
Lemma parse_kept : forall stk k, lex k = LEof k -> parse stk k = ([], POk stk k).
Proof. intros stk k H. pose proof (parse_stop stk k) as P. rewrite H in P. exact P. Qed.

Theorem chunks : forall cs stk keep, lex keep = LEof keep ->
  parse_all stk keep cs = parse stk (keep ++ concat cs).
Proof.
  induction cs as [|c cs IH]; intros stk keep K.
  { cbn [parse_all concat]. rewrite app_nil_r. symmetry. apply parse_kept. exact K. }
  cbn [parse_all concat]. rewrite app_assoc, (parse_app _ stk (keep ++ c) (concat cs) (le_n _)).
  destruct (parse stk (keep ++ c)) as [es [stk' k| |]] eqn:E; auto.
  rewrite IH by (exact (parse_keep _ _ _ _ _ _ (le_n _) E)).
  destruct (parse stk' (k ++ concat cs)). reflexivity.
Qed.

(* ---------- what is written is what is read ---------- *)

(* states of the writer and of the reader *)
Definition corr (s : gst) : pst :=
  match s with
  | GStart => PStart | GMapStart => PMapStart | GMapKey => PMapGotVal | GMapVal => PMapSep
  | GArrStart => PArrStart | GInArr => PArrGotVal | GComplete => PComplete
  end.
Definition pstk (l : list gst) : list pst :=
  match l with [] => [] | s :: r => corr s :: map (fun x => corr (appended x)) r end.
(* the callback that a call leads to *)
Definition ev (o : gop) (s : gst) : jev :=
  match o with
  | OStr b => if is_key s then EKey b else EStr b
  | OInt z => EInt z | OMapO => EMapO | OMapC => EMapC | OArrO => EArrO | OArrC => EArrC
  end.
(* calls that close what is open, with a value for each key *)
Definition fits_in (o : gop) (s : gst) : Prop :=
  match o with
  | OMapC => s = GMapStart \/ s = GMapKey
  | OArrC => s = GArrStart \/ s = GInArr
  | _ => True
  end.
(* strings are bytes, integers are read back *)
Definition sayable (o : gop) : Prop :=
  match o with OStr b => raw b | OInt z => is_ll z | _ => True end.
Definition is_int_op (o : gop) : bool := match o with OInt _ => true | _ => false end.

Lemma parse_ws : forall stk w s, forallb ws w = true -> parse stk (w ++ s) = parse stk s.
Proof.
  intros stk w s H. apply parse_lex. induction w as [|c w IH]; [reflexivity|].
  cbn [forallb] in H. apply andb_prop in H as [A B]. cbn [app lex]. rewrite A. auto.
Qed.
Lemma nl_ws : forall p c, ws c = true -> forallb ws (nl p c) = true.
Proof. intros [] c H; cbn; [rewrite H|]; reflexivity. Qed.
Lemma indent_ws : forall p s n, forallb ws (indent p s n) = true.
Proof.
  intros p s n. assert (G : forall k, forallb ws (repeat 32 k) = true) by (induction k; [reflexivity|exact IHk]).
  unfold indent. destruct s, p; auto.
Qed.
Lemma final_ws : forall p s, forallb ws (final_nl p s) = true.
Proof. intros p s. destruct s; try reflexivity. apply nl_ws. reflexivity. Qed.

(* the states in which something can be put, as the reader sees them after the separator *)
Definition after_sep (s : gst) : pst :=
  match s with
  | GStart => PStart | GMapStart => PMapStart | GMapKey => PMapNeedKey | GMapVal => PMapNeedVal
  | GArrStart => PArrStart | GInArr => PArrNeedVal | GComplete => PComplete
  end.
Lemma parse_sep : forall p s n q more, s <> GComplete ->
  parse (corr s :: q) (sep p s ++ indent p s n ++ more) = parse (after_sep s :: q) more.
Proof.
  intros p s n q more H.
  assert (K : forall c k st st' x, ws x = true -> lex (c :: nl p x ++ indent p s n ++ more) = LTok k (nl p x ++ indent p s n ++ more) ->
    pstep (st :: q) k = AGo None (st' :: q) ->
    parse (st :: q) (c :: nl p x ++ indent p s n ++ more) = parse (st' :: q) more).
  { intros c k st st' x X L P. rewrite (parse_tok _ _ _ _ _ _ L P). cbn [oev]. rewrite ahead_nil.
    rewrite parse_ws by (apply nl_ws; auto). apply parse_ws. apply indent_ws. }
  destruct s; try congruence; cbn [sep corr after_sep app];
    try (apply parse_ws; apply indent_ws); eapply K; reflexivity.
Qed.

Lemma lex_string : forall b more, raw b ->
  exists k, lex (34 :: encode b ++ 34 :: more) = LTok k more /\
    ((k = TStr b) \/ (k = TEsc (encode b) /\ decode (encode b) = Some b)).
Proof.
  intros b more H. cbn [lex]. change (ws 34) with false. cbv iota. unfold lex1.
  change (34 =? 123) with false. change (34 =? 125) with false. change (34 =? 91) with false.
  change (34 =? 93) with false. change (34 =? 44) with false. change (34 =? 58) with false.
  change (34 =? 116) with false. change (34 =? 102) with false. change (34 =? 110) with false.
  change (34 =? 34) with true. cbv iota. rewrite lex_encode by auto.
  destruct (existsb escaped b) eqn:E.
  - exists (TEsc (encode b)). split; [reflexivity|right]. split; [reflexivity|apply decode_encode; auto].
  - exists (TStr (encode b)). split; [reflexivity|left]. rewrite encode_plain; auto.
Qed.

Lemma lex_integer : forall z more, is_ll z -> term more -> lex (fmt_d z ++ more) = LTok (TInt (fmt_d z)) more.
Proof.
  intros z more H T. pose proof (lex_num_fmt z more H T) as G.
  assert (exists c r, fmt_d z = c :: r /\ (c = 45 \/ 48 <= c <= 57)) as (c & r & E & B).
  { unfold fmt_d. destruct (z <? 0) eqn:N; [eauto|]. rewrite Z.ltb_ge in N. unfold is_ll, llmax in H.
    destruct (fmt_u_lead z) as [E|(c & r & E & B)].
    { unfold is_u64. change (2 ^ 64) with 18446744073709551616. lia. }
    - rewrite E. exists 48, []. split; auto. right. lia.
    - rewrite E. exists c, r. split; auto. right. lia. }
  rewrite E in *. cbn [app lex].
  replace (ws c) with false. 2:{ symmetry. unfold ws. apply orb_false_iff. split; [apply Z.eqb_neq; lia|].
    apply andb_false_iff. right. apply Z.leb_gt. lia. }
  unfold lex1.
  replace (c =? 123) with false by (symmetry; apply Z.eqb_neq; lia).
  replace (c =? 125) with false by (symmetry; apply Z.eqb_neq; lia).
  replace (c =? 91) with false by (symmetry; apply Z.eqb_neq; lia).
  replace (c =? 93) with false by (symmetry; apply Z.eqb_neq; lia).
  replace (c =? 44) with false by (symmetry; apply Z.eqb_neq; lia).
  replace (c =? 58) with false by (symmetry; apply Z.eqb_neq; lia).
  replace (c =? 116) with false by (symmetry; apply Z.eqb_neq; lia).
  replace (c =? 102) with false by (symmetry; apply Z.eqb_neq; lia).
  replace (c =? 110) with false by (symmetry; apply Z.eqb_neq; lia).
  replace (c =? 34) with false by (symmetry; apply Z.eqb_neq; lia).
  replace ((c =? 45) || dig c) with true.
  2:{ symmetry. apply orb_true_iff. destruct B as [->|B]; [left; reflexivity|right].
      unfold dig. apply andb_true_iff. lia. }
  cbn [app] in G. rewrite G. reflexivity.
Qed.

Lemma corr_appended : forall s, s <> GComplete -> is_key s = false -> got (after_sep s :: []) = [corr (appended s)].
Proof. intros s A B. destruct s; try congruence; try discriminate B; reflexivity. Qed.

Lemma final_parse : forall p s stk more, parse stk (final_nl p s ++ more) = parse stk more.
Proof. intros. apply parse_ws. apply final_ws. Qed.

Lemma call_read : forall p o g g' s r, g_stk g = s :: r -> gcall p o g = (GOk, g') -> fits_in o s -> sayable o ->
  exists w, g_out g' = g_out g ++ w /\
    (s = GMapKey \/ s = GInArr \/ o = OMapC \/ o = OArrC -> term w) /\
    forall more, (is_int_op o = true -> term more) ->
      parse (pstk (g_stk g)) (w ++ more) = ahead [ev o s] (parse (pstk (g_stk g')) more).
Proof.
  intros p o g g' s r SS C F V. unfold gcall in C. destruct (g_off g); [discriminate C|]. rewrite SS in C.
  assert (N : s <> GComplete) by (intros ->; discriminate C).
  assert (C' : match o with
    | OStr b => atom p (34 :: encode b ++ [34]) s r (g_out g)
    | OInt z => if is_key s then (GKeys, g) else atom p (fmt_d z) s r (g_out g)
    | OMapO => gopen p [123] GMapStart s r (g_out g)
    | OArrO => gopen p [91] GArrStart s r (g_out g)
    | OMapC => gclose p [125] s r (g_out g)
    | OArrC => gclose p [93] s r (g_out g)
    end = (GOk, g')) by (destruct s; auto; congruence).
  clear C. rewrite SS.
  assert (TS : forall x, s = GMapKey \/ s = GInArr -> term (sep p s ++ x)).
  { intros x [->| ->]; (exists 44; eexists; split; [reflexivity|]; repeat split; discriminate). }
  destruct o as [b|z| | | |]; cbn [fits_in sayable is_int_op ev] in *.
  - unfold atom in C'. injection C' as <-. cbn [g_out g_stk].
    eexists. split; [reflexivity|]. split.
    { intros [H|[H|[H|H]]]; try discriminate H; rewrite ?app_assoc; rewrite <- !app_assoc; apply TS; auto. }
    intros more _. cbn [pstk]. rewrite <- !app_assoc. rewrite parse_sep by auto.
    cbn [app]. rewrite <- !app_assoc. cbn [app].
    destruct (lex_string b (final_nl p (appended s) ++ more) V) as (k & L & K).
    assert (P : pstep (after_sep s :: map (fun x => corr (appended x)) r) k
      = AGo (Some (if is_key s then EKey b else EStr b)) (corr (appended s) :: map (fun x => corr (appended x)) r)).
    { destruct K as [->|[-> D]]; destruct s; try congruence; cbn [after_sep pstep value is_key appended corr]; rewrite ?D; reflexivity. }
    rewrite (parse_tok _ _ _ _ _ _ L P). cbn [oev]. rewrite final_parse. reflexivity.
  - destruct (is_key s) eqn:K; [discriminate C'|]. unfold atom in C'. injection C' as <-. cbn [g_out g_stk].
    eexists. split; [reflexivity|]. split.
    { intros [H|[H|[H|H]]]; try discriminate H; apply TS; auto. }
    intros more T. specialize (T eq_refl). cbn [pstk]. rewrite <- !app_assoc. rewrite parse_sep by auto.
    assert (T2 : term (final_nl p (appended s) ++ more)).
    { unfold final_nl, nl. destruct (appended s); try exact T. destruct p; [|exact T].
      exists 10. eexists. split; [reflexivity|]. repeat split; discriminate. }
    assert (P : pstep (after_sep s :: map (fun x => corr (appended x)) r) (TInt (fmt_d z))
      = AGo (Some (EInt z)) (corr (appended s) :: map (fun x => corr (appended x)) r)).
    { destruct s; try congruence; try discriminate K; cbn [after_sep pstep value appended corr]; rewrite parse_fmt by auto; reflexivity. }
    rewrite (parse_tok _ _ _ _ _ _ (lex_integer z _ V T2) P). cbn [oev]. rewrite final_parse. reflexivity.
  - unfold gopen in C'. destruct (is_key s) eqn:K; [discriminate C'|].
    destruct (max_depth <=? S (List.length r))%nat; [discriminate C'|]. injection C' as <-. cbn [g_out g_stk].
    eexists. split; [rewrite <- !app_assoc; reflexivity|]. split.
    { intros [H|[H|[H|H]]]; try discriminate H; apply TS; auto. }
    intros more _. cbn [pstk]. rewrite <- !app_assoc. rewrite parse_sep by auto. cbn [app].
    assert (P : pstep (after_sep s :: map (fun x => corr (appended x)) r) TMapO
      = AGo (Some EMapO) (PMapStart :: corr (appended s) :: map (fun x => corr (appended x)) r)).
    { destruct s; try congruence; try discriminate K; reflexivity. }
    rewrite (parse_tok _ (123 :: nl p 10 ++ more) TMapO (nl p 10 ++ more) _ _ eq_refl P). cbn [oev].
    rewrite parse_ws by (apply nl_ws; reflexivity). reflexivity.
  - unfold gclose in C'. destruct r as [|u q]; [discriminate C'|]. injection C' as <-. cbn [g_out g_stk].
    eexists. split; [reflexivity|]. split.
    { intros _. destruct p; [|destruct (appended u)]; (eexists; eexists; split; [reflexivity|]; repeat split; discriminate). }
    intros more _. cbn [pstk map]. rewrite <- !app_assoc. rewrite parse_ws by (apply nl_ws; reflexivity).
    rewrite parse_ws by (apply indent_ws). cbn [app].
    assert (P : pstep (corr s :: corr (appended u) :: map (fun x => corr (appended x)) q) TMapC
      = AGo (Some EMapC) (corr (appended u) :: map (fun x => corr (appended x)) q)).
    { destruct F as [->| ->]; reflexivity. }
    rewrite (parse_tok _ (125 :: final_nl p (appended u) ++ more) TMapC (final_nl p (appended u) ++ more) _ _ eq_refl P).
    cbn [oev]. rewrite final_parse. reflexivity.
  - unfold gopen in C'. destruct (is_key s) eqn:K; [discriminate C'|].
    destruct (max_depth <=? S (List.length r))%nat; [discriminate C'|]. injection C' as <-. cbn [g_out g_stk].
    eexists. split; [rewrite <- !app_assoc; reflexivity|]. split.
    { intros [H|[H|[H|H]]]; try discriminate H; apply TS; auto. }
    intros more _. cbn [pstk]. rewrite <- !app_assoc. rewrite parse_sep by auto. cbn [app].
    assert (P : pstep (after_sep s :: map (fun x => corr (appended x)) r) TArrO
      = AGo (Some EArrO) (PArrStart :: corr (appended s) :: map (fun x => corr (appended x)) r)).
    { destruct s; try congruence; try discriminate K; reflexivity. }
    rewrite (parse_tok _ (91 :: nl p 10 ++ more) TArrO (nl p 10 ++ more) _ _ eq_refl P). cbn [oev].
    rewrite parse_ws by (apply nl_ws; reflexivity). reflexivity.
  - unfold gclose in C'. destruct r as [|u q]; [discriminate C'|]. injection C' as <-. cbn [g_out g_stk].
    eexists. split; [reflexivity|]. split.
    { intros _. destruct p; [|destruct (appended u)]; (eexists; eexists; split; [reflexivity|]; repeat split; discriminate). }
    intros more _. cbn [pstk map]. rewrite <- !app_assoc. rewrite parse_ws by (apply nl_ws; reflexivity).
    rewrite parse_ws by (apply indent_ws). cbn [app].
    assert (P : pstep (corr s :: corr (appended u) :: map (fun x => corr (appended x)) q) TArrC
      = AGo (Some EArrC) (corr (appended u) :: map (fun x => corr (appended x)) q)).
    { destruct F as [->| ->]; reflexivity. }
    rewrite (parse_tok _ (93 :: final_nl p (appended u) ++ more) TArrC (final_nl p (appended u) ++ more) _ _ eq_refl P).
    cbn [oev]. rewrite final_parse. reflexivity.
Qed.

(* ---------- values ---------- *)

(* A value, the calls that write it, and what the reader is to be told. *)
Inductive json := JStr (b : bytes) | JInt (z : Z) | JMap (l : list (bytes * json)) | JArr (l : list json).
Fixpoint calls (t : json) : list gop :=
  match t with
  | JStr b => [OStr b]
  | JInt z => [OInt z]
  | JMap l => OMapO :: flat_map (fun kv => OStr (fst kv) :: calls (snd kv)) l ++ [OMapC]
  | JArr l => OArrO :: flat_map calls l ++ [OArrC]
  end.
Fixpoint evs (t : json) : list jev :=
  match t with
  | JStr b => [EStr b]
  | JInt z => [EInt z]
  | JMap l => EMapO :: flat_map (fun kv => EKey (fst kv) :: evs (snd kv)) l ++ [EMapC]
  | JArr l => EArrO :: flat_map evs l ++ [EArrC]
  end.
Fixpoint deep (t : json) : nat :=
  match t with
  | JStr _ | JInt _ => 0
  | JMap l => S (fold_right (fun kv m => Nat.max (deep (snd kv)) m) 0%nat l)
  | JArr l => S (fold_right (fun v m => Nat.max (deep v) m) 0%nat l)
  end.
Fixpoint fine (t : json) : Prop :=
  match t with
  | JStr b => raw b
  | JInt z => is_ll z
  | JMap l => fold_right (fun kv P => (raw (fst kv) /\ fine (snd kv)) /\ P) True l
  | JArr l => fold_right (fun v P => fine v /\ P) True l
  end.

Section JsonInd.
Variable P : json -> Prop.
Hypothesis HS : forall b, P (JStr b).
Hypothesis HI : forall z, P (JInt z).
Hypothesis HM : forall l, Forall (fun kv => P (snd kv)) l -> P (JMap l).
Hypothesis HA : forall l, Forall P l -> P (JArr l).
Fixpoint json_all (t : json) : P t :=
  match t with
  | JStr b => HS b
  | JInt z => HI z
  | JMap l => HM l ((fix go l : Forall (fun kv => P (snd kv)) l :=
      match l with [] => Forall_nil _ | x :: r => Forall_cons x (json_all (snd x)) (go r) end) l)
  | JArr l => HA l ((fix go l : Forall P l :=
      match l with [] => Forall_nil _ | x :: r => Forall_cons x (json_all x) (go r) end) l)
  end.
End JsonInd.

Definition is_num (t : json) : bool := match t with JInt _ => true | _ => false end.

Lemma grun_app : forall p a b g, grun p (a ++ b) g = match grun p a g with Some g' => grun p b g' | None => None end.
Proof.
  induction a as [|o a IH]; intros b g; [reflexivity|]. cbn [app grun]. destruct (gcall p o g) as [[] g']; auto.
Qed.

(* Some calls write w and lead from stack to stack, and w is read as es. *)
Definition writes (p : bool) (os : list gop) (st st' : list gst) (tm : bool) (nd : bool) (es : list jev) : Prop :=
  forall out, exists w, grun p os (mkgen st false out) = Some (mkgen st' false (out ++ w)) /\
    (tm = true -> term w) /\
    forall more, (nd = true -> term more) -> parse (pstk st) (w ++ more) = ahead es (parse (pstk st') more).

Lemma term_app : forall a b, term a -> term (a ++ b).
Proof. intros a b (c & r & -> & H). exists c, (r ++ b). split; [reflexivity|exact H]. Qed.

Lemma writes_app : forall p os1 os2 s1 s2 s3 t1 t2 n1 n2 e1 e2,
  writes p os1 s1 s2 t1 n1 e1 -> writes p os2 s2 s3 t2 n2 e2 -> (n1 = true -> t2 = true) ->
  writes p (os1 ++ os2) s1 s3 t1 n2 (e1 ++ e2).
Proof.
  intros p os1 os2 s1 s2 s3 t1 t2 n1 n2 e1 e2 A B N out.
  destruct (A out) as (w1 & R1 & T1 & P1). destruct (B (out ++ w1)) as (w2 & R2 & T2 & P2).
  exists (w1 ++ w2). split; [rewrite grun_app, R1, R2, app_assoc; reflexivity|]. split.
  - intros H. apply term_app. auto.
  - intros more M. rewrite <- app_assoc, P1, P2, ahead_ahead; auto. intros H. apply term_app. auto.
Qed.

Definition opener (s : gst) : bool := match s with GMapKey | GInArr => true | _ => false end.

Lemma writes_call : forall p o s r g', (forall out, exists w, gcall p o (mkgen (s :: r) false out) = (GOk, mkgen g' false (out ++ w))) ->
  fits_in o s -> sayable o ->
  writes p [o] (s :: r) g' (opener s || match o with OMapC | OArrC => true | _ => false end) (is_int_op o) [ev o s].
Proof.
  intros p o s r g' C F V out. destruct (C out) as (w & E).
  destruct (call_read p o (mkgen (s :: r) false out) _ s r eq_refl E F V) as (w' & W & T & P).
  cbn [g_out g_stk] in *. apply app_inv_head in W. subst w'. exists w.
  split; [cbn [grun]; rewrite E; reflexivity|]. split; [|exact P].
  intros H. apply T. destruct s, o; cbn in H; try discriminate H; auto.
Qed.

Lemma writes_str : forall p b s r, s <> GComplete -> raw b ->
  writes p [OStr b] (s :: r) (appended s :: r) (opener s) false [ev (OStr b) s].
Proof.
  intros p b s r N V. pose proof (writes_call p (OStr b) s r (appended s :: r)) as G.
  rewrite orb_false_r in G. apply G; [|exact I|exact V].
  intros out. eexists. unfold gcall. cbn [g_off g_stk]. destruct s; try congruence; reflexivity.
Qed.
Lemma writes_int : forall p z s r, s <> GComplete -> is_key s = false -> is_ll z ->
  writes p [OInt z] (s :: r) (appended s :: r) (opener s) true [EInt z].
Proof.
  intros p z s r N K V. pose proof (writes_call p (OInt z) s r (appended s :: r)) as G.
  rewrite orb_false_r in G. apply G; [|exact I|exact V].
  intros out. eexists. unfold gcall. cbn [g_off g_stk]. destruct s; solve [congruence|discriminate K|reflexivity].
Qed.
Lemma writes_open : forall p (m : bool) s r, s <> GComplete -> is_key s = false -> (S (List.length r) < max_depth)%nat ->
  writes p [if m then OMapO else OArrO] (s :: r) ((if m then GMapStart else GArrStart) :: s :: r) (opener s) false
    [if m then EMapO else EArrO].
Proof.
  intros p m s r N K D. pose proof (writes_call p (if m then OMapO else OArrO) s r ((if m then GMapStart else GArrStart) :: s :: r)) as G.
  assert (X : (max_depth <=? S (List.length r))%nat = false) by (apply Nat.leb_gt; exact D).
  destruct m; rewrite orb_false_r in G; (apply G; [|exact I|exact I]); intros out; eexists; unfold gcall;
    cbn [g_off g_stk g_out]; unfold gopen; rewrite K, X; rewrite <- ?app_assoc;
    destruct s; solve [congruence|discriminate K|reflexivity].
Qed.
Lemma writes_close : forall p (m : bool) s u q, (if m then s = GMapStart \/ s = GMapKey else s = GArrStart \/ s = GInArr) ->
  writes p [if m then OMapC else OArrC] (s :: u :: q) (appended u :: q) true false [if m then EMapC else EArrC].
Proof.
  intros p m s u q F. pose proof (writes_call p (if m then OMapC else OArrC) s (u :: q) (appended u :: q)) as G.
  destruct m; rewrite orb_true_r in G; (apply G; [|exact F|exact I]); intros out; eexists; unfold gcall;
    cbn [g_off g_stk g_out]; destruct F as [-> | ->]; reflexivity.
Qed.

Theorem value_read : forall t p, fine t -> forall s r, s <> GComplete -> is_key s = false ->
  (List.length r + deep t < max_depth)%nat ->
  writes p (calls t) (s :: r) (appended s :: r) (opener s) (is_num t) (evs t).
Proof.
  intros t p. induction t as [b|z|l IH|l IH] using json_all; intros F s r N K D.
  - pose proof (writes_str p b s r N F) as G. cbn [ev] in G. rewrite K in G. exact G.
  - apply writes_int; auto.
  - cbn [calls evs deep is_num] in *.
    assert (O : (S (List.length r) < max_depth)%nat) by lia.
    assert (L : forall l s0, Forall (fun kv => fine (snd kv) -> forall s r, s <> GComplete -> is_key s = false ->
        (List.length r + deep (snd kv) < max_depth)%nat ->
        writes p (calls (snd kv)) (s :: r) (appended s :: r) (opener s) (is_num (snd kv)) (evs (snd kv))) l ->
      fold_right (fun kv P => (raw (fst kv) /\ fine (snd kv)) /\ P) True l ->
      (List.length r + S (fold_right (fun kv m => Nat.max (deep (snd kv)) m) 0%nat l) < max_depth)%nat ->
      s0 = GMapStart \/ s0 = GMapKey ->
      writes p (flat_map (fun kv => OStr (fst kv) :: calls (snd kv)) l ++ [OMapC]) (s0 :: s :: r) (appended s :: r)
        (opener s0 || match l with [] => true | _ => false end) false
        (flat_map (fun kv => EKey (fst kv) :: evs (snd kv)) l ++ [EMapC])).
    { clear - p. induction l as [|[k v] l IHl]; intros s0 A F D S0.
      - cbn [flat_map app]. rewrite orb_true_r. apply (writes_close p true). exact S0.
      - cbn [flat_map app fst snd fold_right] in *. destruct F as [[Fk Fv] Fl].
        pose proof (Forall_inv A Fv) as V. cbn [fst snd] in V. pose proof (IHl GMapKey (Forall_inv_tail A) Fl ltac:(lia) (or_intror eq_refl)) as R.
        specialize (V GMapVal (s :: r) ltac:(discriminate) eq_refl ltac:(cbn [List.length]; lia)). cbn [opener appended] in V, R.
        assert (KS : writes p [OStr k] (s0 :: s :: r) (GMapVal :: s :: r) (opener s0) false [EKey k]).
        { destruct S0 as [-> | ->]; [apply (writes_str p k GMapStart (s :: r))|apply (writes_str p k GMapKey (s :: r))];
            auto; discriminate. }
        rewrite orb_false_r, <- !app_assoc.
        change (OStr k :: calls v ++ ?x) with ([OStr k] ++ (calls v ++ x)).
        change (EKey k :: evs v ++ ?x) with ([EKey k] ++ (evs v ++ x)).
        eapply writes_app; [exact KS| |intros X; discriminate X].
        eapply writes_app; [exact V|exact R|]. intros _. reflexivity. }
    change (OMapO :: ?x) with ([OMapO] ++ x). change (EMapO :: ?x) with ([EMapO] ++ x).
    eapply writes_app; [apply (writes_open p true s r N K O)| |intros X; discriminate X].
    apply L; auto.
  - cbn [calls evs deep is_num] in *.
    assert (O : (S (List.length r) < max_depth)%nat) by lia.
    assert (L : forall l s0, Forall (fun v => fine v -> forall s r, s <> GComplete -> is_key s = false ->
        (List.length r + deep v < max_depth)%nat ->
        writes p (calls v) (s :: r) (appended s :: r) (opener s) (is_num v) (evs v)) l ->
      fold_right (fun v P => fine v /\ P) True l ->
      (List.length r + S (fold_right (fun v m => Nat.max (deep v) m) 0%nat l) < max_depth)%nat ->
      s0 = GArrStart \/ s0 = GInArr ->
      writes p (flat_map calls l ++ [OArrC]) (s0 :: s :: r) (appended s :: r)
        (opener s0 || match l with [] => true | _ => false end) false
        (flat_map evs l ++ [EArrC])).
    { clear - p. induction l as [|v l IHl]; intros s0 A F D S0.
      - cbn [flat_map app]. rewrite orb_true_r. apply (writes_close p false). exact S0.
      - cbn [flat_map app fold_right] in *. destruct F as [Fv Fl].
        pose proof (Forall_inv A Fv) as V. pose proof (IHl GInArr (Forall_inv_tail A) Fl ltac:(lia) (or_intror eq_refl)) as R.
        rewrite orb_false_r, <- !app_assoc.
        specialize (V s0 (s :: r)). 
        assert (E : appended s0 = GInArr) by (destruct S0 as [-> | ->]; reflexivity). rewrite E in V.
        eapply writes_app; [apply V|exact R|intros _; reflexivity]; 
          try (destruct S0 as [-> | ->]; reflexivity || discriminate); cbn [List.length]; lia. }
    change (OArrO :: ?x) with ([OArrO] ++ x). change (EArrO :: ?x) with ([EArrO] ++ x).
    eapply writes_app; [apply (writes_open p false s r N K O)| |intros X; discriminate X].
    apply L; auto.
Qed.

Theorem text_read : forall p t, fine t -> (deep t < max_depth)%nat -> exists out,
  grun p (calls t) gen0 = Some (mkgen [GComplete] false out) /\
  parse [PStart] (out ++ [32]) = (evs t, POk [PComplete] []) /\
  (is_num t = false -> forall cs, concat cs = out -> parse_all [PStart] [] cs = (evs t, POk [PComplete] [])).
Proof.
  intros p t F D.
  destruct (value_read t p F GStart [] ltac:(discriminate) eq_refl D []) as (w & R & _ & P).
  exists w. split; [exact R|]. split.
  - specialize (P [32]). cbn [pstk map corr appended] in P. rewrite P.
    + change (parse [PComplete] [32]) with (@nil jev, POk [PComplete] []). unfold ahead. cbn [fst snd].
      rewrite app_nil_r. reflexivity.
    + intros _. exists 32, []. repeat split; discriminate.
  - intros N cs C. rewrite chunks by reflexivity. cbn [app]. rewrite C.
    specialize (P []). rewrite app_nil_r in P. cbn [pstk map corr appended] in P. rewrite P.
    + change (parse [PComplete] []) with (@nil jev, POk [PComplete] []). unfold ahead. cbn [fst snd].
      rewrite app_nil_r. reflexivity.
    + rewrite N. intros X. discriminate X.
Qed.

(* ---------- callbacks are nested, whatever the text ---------- *)

(* Opening and closing, from the maps (true) and arrays open to those open after; None when a close has no open of
   its kind, or a key is not directly in a map. *)
Fixpoint nest (es : list jev) (l : list bool) : option (list bool) :=
  match es with
  | [] => Some l
  | EMapO :: r => nest r (true :: l)
  | EArrO :: r => nest r (false :: l)
  | EMapC :: r => match l with true :: l' => nest r l' | _ => None end
  | EArrC :: r => match l with false :: l' => nest r l' | _ => None end
  | EKey _ :: r => match l with true :: _ => nest r l | _ => None end
  | _ :: r => nest r l
  end.
Definition kind (x : pst) : option bool :=
  match x with
  | PStart | PComplete => None
  | PMapStart | PMapSep | PMapNeedVal | PMapGotVal | PMapNeedKey => Some true
  | PArrStart | PArrGotVal | PArrNeedVal => Some false
  end.
(* a stack with the bottom below, and what is open *)
Inductive opened : list pst -> list bool -> Prop :=
  | op_bottom : forall x, kind x = None -> opened [x] []
  | op_more : forall x b stk l, kind x = Some b -> opened stk l -> opened (x :: stk) (b :: l).

Lemma nest_app : forall a b l, nest (a ++ b) l = match nest a l with Some m => nest b m | None => None end.
Proof.
  induction a as [|e a IH]; intros b l; [reflexivity|]. cbn [app nest]. destruct e; auto.
  - destruct l as [|[] l]; auto.
  - destruct l as [|[] l]; auto.
  - destruct l as [|[] l]; auto.
Qed.

Lemma opened_got : forall x stk l, opened (x :: stk) l -> x <> PComplete ->
  (x = PStart \/ x = PMapNeedVal \/ x = PArrNeedVal \/ x = PArrStart) -> opened (got (x :: stk)) l.
Proof.
  intros x stk l H N V. inversion H; subst; destruct V as [->|[->|[->| ->]]]; try discriminate; cbn [got];
    try (apply op_bottom; reflexivity); (apply op_more; [|assumption]); cbn in *; congruence.
Qed.

Lemma pstep_nest : forall stk l t e stk', opened stk l -> pstep stk t = AGo e stk' ->
  exists l', nest (oev e) l = Some l' /\ opened stk' l'.
Proof.
  intros stk l t e stk' O P.
  assert (V : forall x q, stk = x :: q -> (x = PStart \/ x = PMapNeedVal \/ x = PArrNeedVal \/ x = PArrStart) ->
    value stk t = AGo e stk' -> exists l', nest (oev e) l = Some l' /\ opened stk' l').
  { intros x q -> X G. assert (N : x <> PComplete) by (intros ->; destruct X as [X|[X|[X|X]]]; discriminate X).
    pose proof (opened_got x q l O N X) as W. destruct t; cbn [value] in G; try discriminate G;
      try (injection G as <- <-; eexists; split; [reflexivity|]; first [exact W | apply op_more; [reflexivity|exact W]]).
    - destruct X as [-> |[-> |[-> | ->]]]; try discriminate G. injection G as <- <-.
      inversion O; subst; [discriminate|]. cbn in H1. injection H1 as <-. cbn. eauto.
    - destruct (decode b); [|discriminate G]. injection G as <- <-. eexists. split; [reflexivity|exact W].
    - destruct (parse_integer b); try discriminate G. injection G as <- <-. eexists. split; [reflexivity|exact W]. }
  destruct stk as [|x q]; [discriminate P|]. destruct x; cbn [pstep] in P; try discriminate P;
    try (eapply V; [reflexivity|auto|exact P]); clear V; inversion O; subst; try discriminate;
    match goal with H : kind _ = Some _ |- _ => cbn in H; injection H as <- end;
    destruct t; try discriminate P; try (destruct (decode b0); [|discriminate P]);
    try (destruct (decode b); [|discriminate P]); injection P as <- <-;
    (eexists; split; [reflexivity|]); first [assumption | apply op_more; [reflexivity|assumption]].
Qed.

Theorem nested : forall n stk l s es x, (List.length s <= n)%nat -> opened stk l -> parse stk s = (es, x) ->
  exists l', nest es l = Some l' /\ (forall stk' k, x = POk stk' k -> opened stk' l').
Proof.
  induction n as [|n IH]; intros stk l s es x L O H.
  - destruct s; [|cbn in L; lia]. change (parse stk []) with (@nil jev, POk stk []) in H. injection H as <- <-.
    exists l. split; [reflexivity|]. intros stk' k G. injection G as <- _. exact O.
  - pose proof (parse_stop stk s) as P. pose proof (lex_app s []) as G. destruct (lex s) as [t r| |] eqn:E.
    + destruct G as [_ G]. destruct (pstep stk t) as [| |e st2] eqn:T; rewrite P in H.
      * injection H as <- <-. exists l. split; [reflexivity|]. intros; discriminate.
      * injection H as <- <-. exists l. split; [reflexivity|]. intros; discriminate.
      * destruct (parse st2 r) as [es2 x2] eqn:Q. unfold ahead in H. cbn [fst snd] in H. injection H as <- <-.
        destruct (pstep_nest _ _ _ _ _ O T) as (l2 & N2 & O2).
        destruct (IH st2 l2 r es2 x2 ltac:(lia) O2 Q) as (l3 & N3 & O3).
        exists l3. rewrite nest_app, N2. split; auto.
    + rewrite P in H. injection H as <- <-. exists l. split; [reflexivity|]. intros stk' k' X. injection X as <- _. exact O.
    + rewrite P in H. injection H as <- <-. exists l. split; [reflexivity|]. intros; discriminate.
Qed.

(* ---------- calls that close what they opened ---------- *)

(* Calls that all succeed, where each close is of the kind that is open and no key is left without a value, and the
   callbacks they stand for. *)
Inductive good (p : bool) : list gop -> gen -> list jev -> gen -> Prop :=
  | good_nil : forall g, good p [] g [] g
  | good_cons : forall o os g s r g1 es g2, g_stk g = s :: r -> gcall p o g = (GOk, g1) -> fits_in o s -> sayable o ->
      good p os g1 es g2 -> good p (o :: os) g (ev o s :: es) g2.

Lemma int_top : forall p z g g1 s r, g_stk g = s :: r -> gcall p (OInt z) g = (GOk, g1) ->
  exists s1 r1, g_stk g1 = s1 :: r1 /\ (s1 = GMapKey \/ s1 = GInArr \/ s1 = GComplete).
Proof.
  intros p z g g1 s r SS C. unfold gcall in C. destruct (g_off g); [discriminate C|]. rewrite SS in C.
  destruct s; cbn [is_key] in C; try discriminate C; injection C as <-; cbn; eauto 7.
Qed.

Lemma good_read : forall p os g es g', good p os g es g' -> exists w, g_out g' = g_out g ++ w /\
  (forall s r, g_stk g = s :: r -> os <> [] -> s = GMapKey \/ s = GInArr -> term w) /\
  forall more, term more -> parse (pstk (g_stk g)) (w ++ more) = ahead es (parse (pstk (g_stk g')) more).
Proof.
  intros p os g es g' H. induction H as [g|o os g s r g1 es g2 SS C F V G IH].
  - exists []. rewrite app_nil_r. split; [reflexivity|]. split; [congruence|]. intros. rewrite ahead_nil. reflexivity.
  - destruct (call_read p o g g1 s r SS C F V) as (w & W & T & P). destruct IH as (w2 & W2 & T2 & P2).
    exists (w ++ w2). split; [rewrite W2, W, app_assoc; reflexivity|]. split.
    + intros s' r' E _ X. rewrite SS in E. injection E as -> ->. apply term_app. apply T. tauto.
    + intros more M. rewrite <- app_assoc, P, P2, ahead_ahead; auto. intros I.
      destruct o; try discriminate I. destruct (int_top _ _ _ _ _ _ SS C) as (s1 & r1 & S1 & X).
      inversion G as [g0|o' os' g0 s' r' g1' es' g2' SS' C' F' V' G']; subst.
      * rewrite <- (app_nil_r (g_out g2)) in W2 at 1. apply app_inv_head in W2. subst w2. exact M.
      * apply term_app. destruct X as [X|[X|X]].
        -- apply (T2 _ _ S1); [discriminate|tauto].
        -- apply (T2 _ _ S1); [discriminate|tauto].
        -- rewrite S1 in SS'. injection SS' as <- <-. subst s1. unfold gcall in C'. destruct (g_off g1); [discriminate C'|].
           rewrite S1 in C'. discriminate C'.
Qed.

Theorem good_text : forall p os es g, good p os gen0 es g ->
  parse [PStart] (g_out g ++ [32]) = (es, POk (pstk (g_stk g)) []).
Proof.
  intros p os es g H. destruct (good_read _ _ _ _ _ H) as (w & W & _ & P). cbn [gen0 g_out g_stk app] in W, P.
  rewrite W. cbn [pstk map corr] in P. rewrite P by (exists 32, []; repeat split; discriminate).
  change (parse (pstk (g_stk g)) [32]) with (@nil jev, POk (pstk (g_stk g)) []). unfold ahead. cbn [fst snd].
  rewrite app_nil_r. reflexivity.
Qed.

(* What any text that is read completely says is nested and leaves nothing open. *)
Theorem nested_text : forall s es k, parse [PStart] s = (es, POk [PComplete] k) -> nest es [] = Some [].
Proof.
  intros s es k H. destruct (nested _ [PStart] [] s es _ (le_n _) (op_bottom PStart eq_refl) H) as (l & N & O).
  specialize (O _ _ eq_refl). inversion O; subst; [exact N|discriminate].
Qed.

Lemma string_read : forall b, raw b ->
  decode (encode b) = Some b /\
  (forall more, lex (34 :: encode b ++ 34 :: more) = LTok (if existsb escaped b then TEsc (encode b) else TStr b) more) /\
  Forall (fun c => 32 <= c <= 255) (encode b).
Proof.
  intros b H. split; [apply decode_encode; exact H|]. split; [|apply encode_clean; exact H].
  intros more. pose proof (lex_encode b more H) as L.
  change (lex (34 :: encode b ++ 34 :: more)) with
    (match lex_str (encode b ++ 34 :: more) with
     | SDone b' e r' => LTok (if e then TEsc b' else TStr b') r' | SEof => LEof (34 :: encode b ++ 34 :: more) | SErr => LErr end).
  rewrite L. destruct (existsb escaped b) eqn:E; [reflexivity|]. rewrite encode_plain; auto.
Qed.

Lemma pieces : forall cs, parse_all [PStart] [] cs = parse [PStart] (concat cs).
Proof. intros cs. rewrite chunks by reflexivity. reflexivity. Qed.

Lemma nested_any : forall s es x, parse [PStart] s = (es, x) ->
  (exists l, nest es [] = Some l) /\ (forall k, x = POk [PComplete] k -> nest es [] = Some []).
Proof.
  intros s es x H. split.
  - destruct (nested _ [PStart] [] s es _ (le_n _) (op_bottom PStart eq_refl) H) as (l & N & _). eauto.
  - intros k ->. exact (nested_text _ _ _ H).
Qed.
