(* The limit on the rate of sending: specification and proofs. *)
From Verif Require Import Bytes RlModel.

(* ---- specification ---- *)
(* bytes that got out *)
Definition amount (o : outcome) : Z := match o with Sent w => w | Slept _ => 0 end.
Definition total (l : list outcome) : Z := fold_right (fun o t => amount o + t) 0 l.
Definition offered (l : list att) : Z := fold_right (fun a t => a_w a + t) 0 l.
(* The start is when the first attempt is made. *)
Definition began (l : list att) : Z := match l with [] => 0 | a :: _ => a_time a end.
(* The clock is not behind the start. *)
Definition clock_ok (l : list att) : Prop := began l <> 0 /\ Forall (fun a => began l <= a_now a /\ 0 <= a_w a) l /\ offered l < 2 ^ 64.
(* rate: the least whole number that is not below the limit *)
Definition at_least (over : Z -> bool) (rate : Z) : Prop := forall n, rate <= n -> over n = true.
Definition exactly (over : Z -> bool) (rate : Z) : Prop := forall n, over n = (rate <=? n).

(* ---- proofs ---- *)
Definition sends (over : Z -> bool) (start : Z) (before : Z) (a : att) : bool :=
  (a_now a =? start) || negb (over (before / (a_now a - start))).
Lemma total_app : forall a b, total (a ++ b) = total a + total b.
Proof. induction a as [|x a IH]; intros b; cbn [total fold_right app] in *; auto. fold (total (a ++ b)). fold (total a). rewrite IH. lia. Qed.
Lemma offered_app : forall a b, offered (a ++ b) = offered a + offered b.
Proof. induction a as [|x a IH]; intros b; cbn [offered fold_right app] in *; auto. fold (offered (a ++ b)). fold (offered a). rewrite IH. lia. Qed.
Lemma offered_pos : forall l, Forall (fun a => 0 <= a_w a) l -> 0 <= offered l.
Proof. intros l h. induction h; cbn [offered fold_right]; [lia|]. fold (offered l). lia. Qed.
Lemma writes_each : forall over start l sb n a, start <> 0 -> rl_start sb = start -> 0 <= rl_bytes sb ->
  Forall (fun a => start <= a_now a /\ 0 <= a_w a) l -> rl_bytes sb + offered l < 2 ^ 64 -> nth_error l n = Some a ->
  exists us, nth_error (writes over sb l) n =
    Some (if sends over start (rl_bytes sb + total (firstn n (writes over sb l))) a then Sent (a_w a) else Slept us).
Proof.
  intros over start. induction l as [|x l IH]; intros sb n a s0 st b0 F T N; [destruct n; discriminate|].
  cbn [writes]. inversion F as [|? ? [F1 F2] F3]; subst x0 l0.
  assert (O : 0 <= offered l) by (apply offered_pos; eapply Forall_impl; [|exact F3]; cbn; tauto).
  cbn [offered fold_right] in T. fold (offered l) in T.
  assert (D : exists sb' o us, do_write over sb x = (sb', o) /\ o = (if sends over start (rl_bytes sb) x then Sent (a_w x) else Slept us) /\
    rl_start sb' = start /\ rl_bytes sb' = rl_bytes sb + amount o).
  { unfold do_write, check_ratelimit, sends. rewrite st. replace (start =? 0) with false by lia.
    replace (a_now x - start <? 0) with false by lia.
    destruct (a_now x =? start) eqn:E; [replace (a_now x - start =? 0) with true by lia|replace (a_now x - start =? 0) with false by lia];
      [|destruct (over (rl_bytes sb / (a_now x - start)))]; (eexists _, _, (rl_sleep sb); split; [reflexivity|]);
      cbn [rl_start rl_bytes orb negb amount]; (split; [reflexivity|]); (split; [reflexivity|]); try rewrite Z.mod_small; lia. }
  destruct D as [sb' [o [us [D [Eo [st' b']]]]]]. rewrite D. destruct n as [|n]; cbn [nth_error firstn] in *.
  - injection N as <-. exists us. cbn [total fold_right]. rewrite Z.add_0_r. rewrite Eo. auto.
  - assert (A : 0 <= amount o <= a_w x) by (rewrite Eo; destruct (sends over start (rl_bytes sb) x); cbn; lia).
    destruct (IH sb' n a s0 st' ltac:(lia) F3 ltac:(lia) N) as [us' IH']. exists us'. rewrite IH'. rewrite b'.
    cbn [total fold_right]. fold (total (firstn n (writes over sb' l))). rewrite Z.add_assoc. auto.
Qed.
Theorem each : forall over l n a, clock_ok l -> nth_error l n = Some a ->
  exists us, nth_error (writes over rl_init l) n =
    Some (if sends over (began l) (total (firstn n (writes over rl_init l))) a then Sent (a_w a) else Slept us).
Proof.
  intros over l n a [b [F T]] N. destruct l as [|x l]; [destruct n; discriminate|]. cbn [began] in *.
  assert (E : writes over rl_init (x :: l) = writes over (mkrl (a_time x) 0 10000) (x :: l)).
  { cbn [writes]. unfold do_write, check_ratelimit. cbn [rl_init rl_start rl_bytes rl_sleep]. replace (a_time x =? 0) with false by lia. auto. }
  rewrite E. destruct (writes_each over (a_time x) (x :: l) (mkrl (a_time x) 0 10000) n a) as [us H]; auto; cbn [rl_bytes]; try lia.
  exists us. rewrite H. cbn [rl_bytes]. rewrite Z.add_0_l. auto.
Qed.
(* Something is sent only while the average so far is below the limit. *)
Theorem limited : forall over rate l n a w, at_least over rate -> clock_ok l -> nth_error l n = Some a -> began l < a_now a ->
  nth_error (writes over rl_init l) n = Some (Sent w) -> w = a_w a /\ total (firstn n (writes over rl_init l)) < rate * (a_now a - began l).
Proof.
  intros over rate l n a w R C N B H. destruct (each over l n a C N) as [us E]. rewrite H in E. injection E as E.
  destruct (sends over _ _ a) eqn:S; [|discriminate]. injection E as ->. split; auto.
  unfold sends in S. replace (a_now a =? began l) with false in S by lia. cbn [orb] in S. apply negb_true_iff in S.
  destruct (Z.lt_ge_cases (total (firstn n (writes over rl_init l))) (rate * (a_now a - began l))) as [K|K]; auto.
  rewrite (R _) in S; [discriminate|]. apply Z.div_le_lower_bound; lia.
Qed.
(* With a comparison that is exact, that is the only reason not to send. *)
Theorem not_more : forall over rate l n a, exactly over rate -> clock_ok l -> nth_error l n = Some a ->
  ((exists w, nth_error (writes over rl_init l) n = Some (Sent w)) <->
   a_now a = began l \/ total (firstn n (writes over rl_init l)) < rate * (a_now a - began l)).
Proof.
  intros over rate l n a R C N. destruct (each over l n a C N) as [us E]. rewrite E.
  assert (B : began l <= a_now a).
  { destruct C as [_ [F _]]. rewrite Forall_forall in F. apply F. eapply nth_error_In; eauto. }
  assert (Q : sends over (began l) (total (firstn n (writes over rl_init l))) a = true <->
    a_now a = began l \/ total (firstn n (writes over rl_init l)) < rate * (a_now a - began l)).
  { unfold sends. rewrite orb_true_iff, negb_true_iff, R, Z.eqb_eq.
    destruct (Z.eq_dec (a_now a) (began l)) as [e|e]; [tauto|].
    rewrite Z.leb_gt. split; intros [h|h]; auto; right.
    - destruct (Z.lt_ge_cases (total (firstn n (writes over rl_init l))) (rate * (a_now a - began l))) as [K|K]; auto.
      assert (rate <= total (firstn n (writes over rl_init l)) / (a_now a - began l)); [apply Z.div_le_lower_bound; lia|lia].
    - apply Z.div_lt_upper_bound; lia. }
  rewrite <- Q. destruct (sends _ _ _ a); split; intros h; eauto; [destruct h; discriminate|discriminate].
Qed.
(* Sleeps: between a hundredth of a second and half a second. *)
Theorem sleeps : forall over l us, In (Slept us) (writes over rl_init l) -> 10000 <= us <= 500000.
Proof.
  intros over l us. assert (G : forall l s, 10000 <= rl_sleep s <= 500000 -> In (Slept us) (writes over s l) -> 10000 <= us <= 500000).
  { clear. induction l as [|a l IH]; intros s h; cbn [writes In]; [tauto|].
    unfold do_write, check_ratelimit, sleep_more, sleep_less.
    remember (a_now a - (if rl_start s =? 0 then a_time a else rl_start s)) as d.
    destruct (d <? 0) eqn:D1; [|destruct (d =? 0) eqn:D2; [|destruct (over (rl_bytes s / d)) eqn:D3]].
    - intros [i|i]; [discriminate i|]. eapply IH; [|exact i]; cbn; auto.
    - intros [i|i]; [discriminate i|]. eapply IH; [|exact i]; cbn; auto.
    - intros [i|i]; [injection i as <-; auto|]. eapply IH; [|exact i]. cbn [rl_sleep]. destruct (500000 <=? rl_sleep s * 2) eqn:E; lia.
    - intros [i|i]; [discriminate i|]. eapply IH; [|exact i]. cbn [rl_sleep]. destruct (rl_sleep s / 2 <=? 9999) eqn:E; [lia|].
      assert (rl_sleep s / 2 <= rl_sleep s) by (apply Z.div_le_upper_bound; lia). lia. }
  apply G. cbn. lia.
Qed.
(* In the second of the start nothing holds a write up. *)
Theorem first_second : forall over l a n, clock_ok l -> nth_error l n = Some a -> a_now a = began l ->
  nth_error (writes over rl_init l) n = Some (Sent (a_w a)).
Proof.
  intros over l a n C N B. destruct (each over l n a C N) as [us E]. rewrite E. unfold sends. rewrite B, Z.eqb_refl. auto.
Qed.
Lemma ones : forall over rate D k s, exactly over rate -> rl_start s = 100 -> 0 <= D -> 0 <= rl_bytes s ->
  (D = 0 \/ rl_bytes s + Z.of_nat k <= rate * D) -> rl_bytes s + Z.of_nat k < 2 ^ 64 ->
  total (writes over s (repeat (mkatt (100 + D) (100 + D) 1) k)) = Z.of_nat k.
Proof.
  intros over rate D. induction k as [|k IH]; intros s R st d0 b0 h T; [reflexivity|]. cbn [repeat writes].
  unfold do_write, check_ratelimit. cbn [a_now a_time a_w]. rewrite st. change (100 =? 0) with false. cbv iota.
  replace (100 + D - 100) with D by lia. replace (D <? 0) with false by lia.
  destruct (D =? 0) eqn:E.
  - cbn [rl_start rl_bytes rl_sleep total fold_right amount]. rewrite Z.mod_small by lia.
    fold (total (writes over (mkrl 100 (rl_bytes s + 1) (rl_sleep s)) (repeat (mkatt (100 + D) (100 + D) 1) k))).
    rewrite IH; cbn [rl_start rl_bytes]; auto; try lia.
  - assert (Q : over (rl_bytes s / D) = false).
    { rewrite R. apply Z.leb_gt. apply Z.div_lt_upper_bound; lia. }
    rewrite Q. cbn [rl_start rl_bytes rl_sleep total fold_right amount]. rewrite Z.mod_small by lia.
    fold (total (writes over (mkrl 100 (rl_bytes s + 1) (sleep_less (rl_sleep s))) (repeat (mkatt (100 + D) (100 + D) 1) k))).
    rewrite IH; cbn [rl_start rl_bytes]; auto; try lia.
Qed.
Lemma offered_ones : forall t k, offered (repeat (mkatt t t 1) k) = Z.of_nat k.
Proof. intros t. induction k as [|k IH]; auto. cbn [repeat offered fold_right a_w]. fold (offered (repeat (mkatt t t 1) k)). rewrite IH. lia. Qed.
(* All at once: in the second of the start, or after having sent nothing for D seconds. *)
Theorem at_once : forall over rate D k, exactly over rate -> 0 <= D -> (D = 0 \/ Z.of_nat k <= rate * D) -> Z.of_nat k < 2 ^ 64 ->
  exists l, clock_ok (mkatt 100 100 0 :: l) /\ Forall (fun a => a_now a = 100 + D /\ a_w a = 1) l /\
  total (writes over rl_init (mkatt 100 100 0 :: l)) = Z.of_nat k.
Proof.
  intros over rate D k R d0 h T. exists (repeat (mkatt (100 + D) (100 + D) 1) k). split; [|split].
  - split; [cbn; lia|]. split.
    + constructor; [cbn; lia|]. apply Forall_forall. intros x i. apply repeat_spec in i. subst x. cbn. lia.
    + change (0 + offered (repeat (mkatt (100 + D) (100 + D) 1) k) < 2 ^ 64). rewrite offered_ones. lia.
  - apply Forall_forall. intros x i. apply repeat_spec in i. subst x. cbn. auto.
  - cbn [writes]. change (do_write over rl_init (mkatt 100 100 0)) with (mkrl 100 0 10000, Sent 0). cbn [total fold_right amount].
    fold (total (writes over (mkrl 100 0 10000) (repeat (mkatt (100 + D) (100 + D) 1) k))).
    rewrite (ones over rate D k); cbn [rl_start rl_bytes]; auto; lia.
Qed.
(* A clock that is behind the start: everything goes. *)
Theorem behind : forall over s a, rl_start s <> 0 -> a_now a < rl_start s -> do_write over s a = (mkrl (rl_start s) (a_w a mod 2 ^ 64) (rl_sleep s), Sent (a_w a)).
Proof.
  intros over s a h1 h2. unfold do_write, check_ratelimit. replace (rl_start s =? 0) with false by lia. replace (a_now a - rl_start s <? 0) with true by lia. auto.
Qed.
(* A limit below zero: nothing is sent after the first second. *)
Lemma total_pos : forall over l s, Forall (fun a => 0 <= a_w a) l -> forall n, 0 <= total (firstn n (writes over s l)).
Proof.
  intros over. induction l as [|a l IH]; intros s F n; [destruct n; cbn; lia|]. inversion F; subst. cbn [writes].
  unfold do_write. destruct (check_ratelimit over s a) as [s' [us|]]; (destruct n as [|n]; cbn [firstn total fold_right amount]; [lia|]).
  - specialize (IH s' H2 n). unfold total in IH. lia.
  - specialize (IH (mkrl (rl_start s') ((rl_bytes s' + a_w a) mod 2 ^ 64) (rl_sleep s')) H2 n). unfold total in IH. lia.
Qed.
Theorem below_zero : forall over rate l n a, exactly over rate -> rate <= 0 -> clock_ok l -> nth_error l n = Some a -> began l < a_now a ->
  forall w, nth_error (writes over rl_init l) n <> Some (Sent w).
Proof.
  intros over rate l n a R Z0 C N B w h. pose proof (proj1 (not_more over rate l n a R C N) (ex_intro _ w h)) as [e|e]; [lia|].
  destruct C as [_ [F _]]. assert (F' : Forall (fun a => 0 <= a_w a) l) by (eapply Forall_impl; [|exact F]; cbn; tauto).
  pose proof (total_pos over l rl_init F' n). nia.
Qed.
