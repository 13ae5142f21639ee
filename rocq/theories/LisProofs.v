(* The addresses that the server listens on: specification and proofs. *)
From Verif Require Import Bytes FrameModel DpthModel DpthProofs BuModel BuProofs CntrProofs LisModel.
From Coq Require Import Lia.

(* ---- specification ---- *)
(* An address and a port, with the last colon between them. *)
Definition parts (l a p : bytes) : Prop := l = a ++ 58 :: p /\ ~ In 58 p.
Definition allowed (c : Z) : Prop := 48 <= c <= 57 \/ 65 <= c <= 90 \/ 97 <= c <= 122 \/ c = 58 \/ c = 46.
Definition address_ok (l : bytes) : Prop :=
  Forall allowed l /\ exists a p, parts l a p /\ a <> [] /\ (1 <= List.length p <= 5)%nat /\ 1 <= atoi p <= 65535.
(* Each has its own number, or else the last that was given, or else 5. *)
Definition numbers (ls mcs : list bytes) : list Z :=
  map atol mcs ++ repeat (List.last (map atol mcs) 5) (List.length ls - List.length mcs).

(* ---- proofs ---- *)
Lemma split_spec : forall l, match split_last l with Some (a, p) => parts l a p | None => ~ In 58 l end.
Proof.
  induction l as [|c r IH]; cbn [split_last]; [intros []|].
  destruct (split_last r) as [[a p]|].
  - destruct IH as [-> N]. split; auto.
  - destruct (c =? 58) eqn:E.
    + split; auto. cbn. f_equal. lia.
    + intros [H|H]; [lia|auto].
Qed.
Lemma parts_unique : forall l a p, parts l a p -> split_last l = Some (a, p).
Proof.
  intros l a p [-> N]. induction a as [|c a IH]; cbn [app split_last].
  - pose proof (split_spec p) as S. destruct (split_last p) as [[x y]|]; [|reflexivity].
    destruct S as [-> _]. exfalso. apply N. apply in_or_app. right. left. auto.
  - rewrite IH. auto.
Qed.
Lemma allowed_b : forall l, forallb (fun c => isalnum c || (c =? 58) || (c =? 46)) l = true <-> Forall allowed l.
Proof.
  intros l. rewrite forallb_forall, Forall_forall. unfold allowed, isalnum. split; intros h x i; specialize (h x i); lia.
Qed.
Theorem listen_iff : forall l, listen_config_ok l = true <-> address_ok l.
Proof.
  intros l. unfold listen_config_ok, address_ok. pose proof (allowed_b l) as A.
  destruct (forallb _ l) eqn:F; cbn [negb].
  - pose proof (split_spec l) as S. destruct (split_last l) as [[a p]|] eqn:E.
    + destruct a as [|x a].
      * split; [discriminate|]. intros (_ & a & q & P & N & _). apply parts_unique in P. rewrite P in E. injection E as -> ->. congruence.
      * destruct ((List.length p =? 0)%nat || (5 <? List.length p)%nat) eqn:B.
        -- split; [discriminate|]. intros (_ & a' & q & P & N & L & _). apply parts_unique in P. rewrite P in E. injection E as -> ->. exfalso.
           apply orb_true_iff in B. destruct B as [B|B]; [apply Nat.eqb_eq in B|apply Nat.ltb_lt in B]; lia.
        -- apply orb_false_iff in B. destruct B as [B1 B2]. apply Nat.eqb_neq in B1. apply Nat.ltb_ge in B2. cbv zeta. split.
           ++ intros h. split; [apply A; auto|]. exists (x :: a), p. repeat split; auto; try apply S; try discriminate; lia.
           ++ intros (_ & a' & q & P & N & L & R). apply parts_unique in P. rewrite P in E. injection E as -> ->. lia.
    + split; [discriminate|]. intros (_ & a & q & P & _). apply parts_unique in P. congruence.
  - split; [discriminate|]. intros (H & _). apply A in H. discriminate.
Qed.
Lemma last_cons : forall (l : list Z) a n, List.last (a :: l) n = List.last l a.
Proof.
  induction l as [|b l IH]; intros a n; auto. transitivity (List.last (b :: l) n); [reflexivity|]. rewrite !IH. auto.
Qed.
Definition spread (n : Z) (ls mcs : list bytes) : list (bytes * Z) :=
  combine ls (map atol mcs ++ repeat (List.last (map atol mcs) n) (List.length ls - List.length mcs)).
Lemma spread_cons : forall n l ls m mcs, spread n (l :: ls) (m :: mcs) = (l, atol m) :: spread (atol m) ls mcs.
Proof. intros. unfold spread. cbn [map]. rewrite last_cons. reflexivity. Qed.
Lemma spread_nil : forall n l ls, spread n (l :: ls) [] = (l, n) :: spread n ls [].
Proof. intros. unfold spread. cbn [map List.last List.length app]. rewrite !Nat.sub_0_r. reflexivity. Qed.
Lemma loop_sound : forall ls mcs n x r, children_loop n ls mcs = Some (x, r) ->
  Forall address_ok ls /\ exists u, mcs = u ++ r /\ Forall (fun m => 0 < atol m) u /\ (List.length u <= List.length ls)%nat /\ x = spread n ls u.
Proof.
  induction ls as [|l ls IH]; intros mcs n x r; cbn [children_loop].
  - intros H. injection H as <- <-. split; auto. exists []. repeat split; auto.
  - destruct (listen_config_ok l) eqn:K; cbn [negb]; [|discriminate]. apply listen_iff in K. destruct mcs as [|m mcs].
    + destruct (children_loop n ls []) as [[y q]|] eqn:E; [|discriminate]. intros H. injection H as <- <-.
      destruct (IH _ _ _ _ E) as (A & u & U & P & L & ->). split; auto. symmetry in U. apply app_eq_nil in U. destruct U as [-> ->].
      exists []. repeat split; auto. { cbn. lia. } symmetry. apply spread_nil.
    + cbv zeta. destruct (atol m <=? 0) eqn:M; [discriminate|].
      destruct (children_loop (atol m) ls mcs) as [[y q]|] eqn:E; [|discriminate]. intros H. injection H as <- <-.
      destruct (IH _ _ _ _ E) as (A & u & -> & P & L & ->). split; auto. exists (m :: u). repeat split; auto.
      { constructor; auto. lia. } { cbn [List.length]. lia. } symmetry. apply spread_cons.
Qed.
Lemma loop_complete : forall ls mcs n, Forall address_ok ls -> Forall (fun m => 0 < atol m) mcs -> (List.length mcs <= List.length ls)%nat ->
  children_loop n ls mcs = Some (spread n ls mcs, []).
Proof.
  induction ls as [|l ls IH]; intros mcs n A P L; cbn [children_loop].
  - destruct mcs; [reflexivity|cbn in L; lia].
  - inversion A; subst. apply listen_iff in H1. rewrite H1. cbn [negb]. destruct mcs as [|m mcs].
    + rewrite IH; auto; [|cbn; lia]. rewrite spread_nil. auto.
    + inversion P; subst. cbv zeta. replace (atol m <=? 0) with false by lia. cbn [List.length] in L. rewrite IH; auto; [|lia]. rewrite spread_cons. auto.
Qed.
Theorem limits_iff : forall ls mcs x, max_children ls mcs = Some x <->
  Forall address_ok ls /\ Forall (fun m => 0 < atol m) mcs /\ (List.length mcs <= List.length ls)%nat /\ x = combine ls (numbers ls mcs).
Proof.
  intros ls mcs x. unfold max_children. change (combine ls (numbers ls mcs)) with (spread 5 ls mcs). split.
  - destruct (children_loop 5 ls mcs) as [[y [|m r]]|] eqn:E; try discriminate. intros H. injection H as ->.
    destruct (loop_sound _ _ _ _ _ E) as (A & u & U & P & L & X). rewrite app_nil_r in U. subst u. auto.
  - intros (A & P & L & ->). rewrite loop_complete; auto.
Qed.
(* Every address has a number, which is positive. *)
Theorem all_limited : forall ls mcs x, max_children ls mcs = Some x -> map fst x = ls /\ Forall (fun y => 0 < snd y) x.
Proof.
  intros ls mcs x h. apply limits_iff in h. destruct h as (_ & P & L & ->).
  assert (N : List.length (numbers ls mcs) = List.length ls) by (unfold numbers; rewrite app_length, map_length, repeat_length; lia).
  assert (Q : Forall (fun z => 0 < z) (numbers ls mcs)).
  { assert (D : forall n, 0 < n -> 0 < List.last (map atol mcs) n).
    { clear - P. induction mcs as [|m mcs IH]; intros n hn; auto. cbn [map]. rewrite last_cons. inversion P; subst. apply IH; auto. }
    unfold numbers. apply Forall_app. split.
    - apply Forall_map. auto.
    - apply Forall_forall. intros z hz. apply repeat_spec in hz. subst z. apply D. lia. }
  revert N Q. generalize (numbers ls mcs). clear. induction ls as [|l ls IH]; intros [|z zs] N Q; cbn in N; try lia; cbn; auto.
  inversion Q; subst. destruct (IH zs) as [A B]; auto. rewrite A. auto.
Qed.
(* A port of digits is the number that is written. *)
Theorem port_number : forall p, digits p -> (1 <= List.length p <= 5)%nat -> atoi p = val p 0.
Proof.
  intros p D L. destruct p as [|c r]; [cbn in L; lia|]. pose proof (Forall_inv D) as Hc. cbn in Hc. unfold atoi.
  rewrite skip_ws_digit by auto. cbn [hd0]. replace (c =? 45) with false by lia. replace (c =? 43) with false by lia.
  rewrite dec_run_end by (auto; left; discriminate). cbv zeta.
  pose proof (val_range _ D) as V.
  assert (B : 10 ^ Z.of_nat (List.length (c :: r)) <= 10 ^ 5) by (apply Z.pow_le_mono_r; lia).
  change (10 ^ 5) with 100000 in B. rewrite Z.min_l by lia. apply s32_int. unfold is_int. lia.
Qed.
Theorem splits : forall l, address_ok l -> exists a p, split_addr l = Some (a, p) /\ parts l a p /\ a <> [] /\ (1 <= List.length p <= 5)%nat.
Proof. intros l (_ & a & p & P & N & L & _). exists a, p. split; [apply parts_unique; auto|auto]. Qed.
