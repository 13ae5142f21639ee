(* C140: the limit on the rate of sending. *)
From Verif Require Import Bytes RlModel RlProofs.

(* After the second of the start, something is sent only if what was sent so far is less
   than the limit times the seconds since the start. *)
Theorem C140_limited_partial : forall over rate l n a w, at_least over rate -> clock_ok l -> nth_error l n = Some a -> began l < a_now a ->
  nth_error (writes over rl_init l) n = Some (Sent w) -> w = a_w a /\ total (firstn n (writes over rl_init l)) < rate * (a_now a - began l).
Proof. exact limited. Qed.
Print Assumptions C140_limited_partial.
(* There is no other reason not to send. *)
Theorem C140_sent : forall over rate l n a, exactly over rate -> clock_ok l -> nth_error l n = Some a ->
  ((exists w, nth_error (writes over rl_init l) n = Some (Sent w)) <->
   a_now a = began l \/ total (firstn n (writes over rl_init l)) < rate * (a_now a - began l)).
Proof. exact not_more. Qed.
Print Assumptions C140_sent.
Theorem C140_sleeps : forall over l us, In (Slept us) (writes over rl_init l) -> 10000 <= us <= 500000.
Proof. exact sleeps. Qed.
Print Assumptions C140_sleeps.
Theorem C140_first : forall over l a n, clock_ok l -> nth_error l n = Some a -> a_now a = began l ->
  nth_error (writes over rl_init l) n = Some (Sent (a_w a)).
Proof. exact first_second. Qed.
Print Assumptions C140_first.

Definition lim (rate n : Z) : bool := rate <=? n.
Example C140_ex_exact : exactly (lim 1000) 1000 /\ at_least (lim 1000) 1000.
Proof. split; intros n; unfold lim; auto. intros h. lia. Qed.
Definition some_atts : list att := [mkatt 100 100 5000; mkatt 101 101 800; mkatt 103 103 800; mkatt 106 106 900; mkatt 106 106 200; mkatt 107 107 10].
Example C140_ex_clock : clock_ok some_atts.
Proof. split; [cbn; lia|]. split; [|cbn; lia]. repeat (constructor; [cbn; lia|]). constructor. Qed.
Example C140_ex_run : writes (lim 1000) rl_init some_atts = [Sent 5000; Slept 10000; Slept 20000; Sent 900; Sent 200; Sent 10].
Proof. vm_compute. reflexivity. Qed.

(* No more than the limit in each second, and one buffer: this is false.  In the second
   of the start (D = 0) any amount is sent, and after D seconds of silence as much as D
   seconds allow, in one second and in pieces of one byte. *)
Theorem C140_second_refuted : forall over rate D k, exactly over rate -> 0 <= D -> (D = 0 \/ Z.of_nat k <= rate * D) -> Z.of_nat k < 2 ^ 64 ->
  exists l, clock_ok (mkatt 100 100 0 :: l) /\ Forall (fun a => a_now a = 100 + D /\ a_w a = 1) l /\
  total (writes over rl_init (mkatt 100 100 0 :: l)) = Z.of_nat k.
Proof. exact at_once. Qed.
Print Assumptions C140_second_refuted.
(* If the clock is set back to before the start, there is no limit until it gets there
   again, however long that takes. *)
Theorem C140_clock_refuted : forall over s l, rl_start s <> 0 -> Forall (fun a => a_now a < rl_start s) l ->
  writes over s l = map (fun a => Sent (a_w a)) l.
Proof.
  intros over s l. revert s. induction l as [|a l IH]; intros s h F; cbn [writes map]; auto. inversion F; subst.
  rewrite behind by auto. rewrite IH; auto.
Qed.
Print Assumptions C140_clock_refuted.
Example C140_ex_behind : writes (lim 1000) rl_init [mkatt 100 100 10; mkatt 98 98 50000; mkatt 99 99 50000] = [Sent 10; Sent 50000; Sent 50000].
Proof. vm_compute. reflexivity. Qed.
(* A limit below zero is taken from the configuration, and then nothing is sent after the
   second of the start. *)
Theorem C140_zero_refuted : exists rate, rate <= 0 /\ ratelimit_taken rate = true /\
  forall over l n a, exactly over rate -> clock_ok l -> nth_error l n = Some a -> began l < a_now a ->
  forall w, nth_error (writes over rl_init l) n <> Some (Sent w).
Proof. exists (-131072). split; [lia|]. split; [reflexivity|]. intros over l n a R. apply (below_zero over (-131072)); auto. lia. Qed.
Print Assumptions C140_zero_refuted.
