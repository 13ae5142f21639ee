(* Specification and proofs about the timer (C36). *)
From Verif Require Import Bytes FrameModel DpthModel RestoreModel BuModel AuthModel TimerModel ActionProofs BuProofs.

(* ---------- Specification ---------- *)

Definition contains (s sub : bytes) : Prop := exists a b, s = a ++ sub ++ b.
(* A band names the day and the hour, without regard to case, or is "always". *)
Definition in_band (day hour band : bytes) : Prop :=
  strlwr band = str "always" \/ (contains (strlwr band) (strlwr day) /\ contains (strlwr band) (strlwr hour)).

(* The length of an interval: digits and a unit. *)
Definition unit_seconds (u : Z) : option Z :=
  match find (fun p => fst p =? u) (combine (str "smhdwn") [1; 60; 3600; 86400; 604800; 2592000]) with
  | Some (_, k) => Some k | None => None end.
Inductive interval : bytes -> Z -> Prop :=
| interval_intro : forall ds u k rest, ds <> [] -> Forall (fun c => 48 <= c <= 57) ds -> val ds 0 < 2 ^ 31 -> unit_seconds u = Some k ->
    interval (ds ++ u :: rest) (val ds 0 * k).

(* When a backup is due. *)
Definition due (e : tenv) (args : list bytes) : Prop :=
  t_manual e = true \/
  (Exists (in_band (t_day e) (t_hour e)) (tl args) /\
   (t_prior e = false \/
    exists i, hd_error args = Some i /\ 0 <= interval_seconds i /\
      (t_last e = None \/ exists last, t_last e = Some last /\ last + interval_seconds i < t_now e))).

(* ---------- Proofs ---------- *)

Lemma strstr_spec : forall s sub, strstr s sub = true <-> contains s sub.
Proof.
  induction s as [|c s IH]; intros sub; cbn [strstr]; rewrite orb_true_iff, starts_with_spec.
  - split.
    + intros [(r & E)|E]; [|discriminate]. exists [], r. auto.
    + intros (a & b & E). symmetry in E. apply app_eq_nil in E. destruct E as (_ & E). left. exists b. auto.
  - rewrite IH. split.
    + intros [(r & E)|(a & b & ->)]; [exists [], r; auto|exists (c :: a), b; auto].
    + intros (a & b & E). destruct a as [|d a]; [left; exists b; auto|right]. injection E as <- E. exists a, b. auto.
Qed.
Lemma timebands_spec : forall day hour bands, check_timebands day hour bands = true <-> Exists (in_band day hour) bands.
Proof.
  intros day hour bands. unfold check_timebands. rewrite existsb_exists, Exists_exists.
  split; intros (x & X & H); exists x; split; auto; unfold in_band in *;
    rewrite orb_true_iff, andb_true_iff, !strstr_spec, beqb_eq in *; auto.
Qed.
Theorem timer_exact : forall e args, run_timer e args = Some 0 <-> due e args.
Proof.
  intros e args. unfold run_timer, due. destruct (t_manual e); [split; auto|].
  pose proof (timebands_spec (t_day e) (t_hour e) (tl args)) as T.
  destruct (check_timebands (t_day e) (t_hour e) (tl args)); cbn [negb].
  2:{ split; [discriminate|]. intros [X|(X & _)]; [discriminate|]. apply T in X. discriminate. }
  assert (B : Exists (in_band (t_day e) (t_hour e)) (tl args)) by (apply T; auto).
  destruct (t_prior e); cbn [negb]; [|split; auto].
  destruct args as [|i r]; [inversion B|]. cbn [hd_error]. unfold check_interval. split.
  - intros H. right. split; auto. right. exists i. split; auto. destruct (Z.ltb_spec (interval_seconds i) 0); [discriminate|].
    split; [lia|]. destruct (t_last e) as [last|]; auto. right. exists last. split; auto.
    destruct (Z.ltb_spec (last + interval_seconds i) (t_now e)); [auto|discriminate].
  - intros [X|(_ & [X|(i' & E & P & L)])]; try discriminate. injection E as <-.
    destruct (Z.ltb_spec (interval_seconds i) 0); [lia|]. destruct L as [->|(last & -> & L)]; auto.
    destruct (Z.ltb_spec (last + interval_seconds i) (t_now e)); [auto|lia].
Qed.
(* The interval is never missing when it is used. *)
Theorem timer_defined : forall e args, run_timer e args <> None.
Proof.
  intros e args. unfold run_timer. destruct (t_manual e); [discriminate|]. destruct args as [|i r].
  - cbn. discriminate.
  - destruct (negb (check_timebands (t_day e) (t_hour e) (tl (i :: r)))); [discriminate|]. destruct (negb (t_prior e)); discriminate.
Qed.
(* An interval that is not understood is an error, never a backup, once there is
   one. *)
Theorem timer_invalid : forall e i bands, t_manual e = false -> t_prior e = true -> interval_seconds i < 0 ->
  run_timer e (i :: bands) = Some 1 \/ run_timer e (i :: bands) = Some (-1).
Proof.
  intros e i bands M P I. unfold run_timer. rewrite M, P. cbn [tl negb]. destruct (check_timebands (t_day e) (t_hour e) bands); auto.
  right. cbn [negb]. unfold check_interval. destruct (Z.ltb_spec (interval_seconds i) 0); auto. lia.
Qed.

Lemma digits_skip : forall c s, 48 <= c <= 57 -> skip_ws (c :: s) = c :: s.
Proof. intros c s H. cbn. unfold isspace. replace (((9 <=? c) && (c <=? 13)) || (c =? 32)) with false; auto. symmetry. lia. Qed.
Lemma num_run_digits : forall ds r v any, Forall (fun c => 48 <= c <= 57) ds -> ds <> [] \/ any = true ->
  isdigit (hd0 r) = false -> num_run (ds ++ r) v any = Some (val ds v, r).
Proof.
  induction ds as [|c ds IH]; intros r v any F N R; cbn [app num_run val].
  - destruct N as [N| ->]; [congruence|]. destruct r as [|d r]; cbn [num_run]; auto. cbn [hd0] in R. rewrite R. auto.
  - assert (Hc : isdigit c = true) by (apply Forall_inv in F; unfold isdigit; lia).
    rewrite Hc. apply IH; auto. apply Forall_inv_tail in F; auto.
Qed.
Lemma val_nonneg : forall ds a, Forall (fun c => 48 <= c <= 57) ds -> 0 <= a -> 0 <= val ds a.
Proof.
  induction ds as [|c ds IH]; intros a F A; cbn; auto. apply IH; [apply Forall_inv_tail in F; auto|].
  apply Forall_inv in F. lia.
Qed.

Theorem interval_value : forall s n, interval s n -> interval_seconds s = n /\ 0 <= n.
Proof.
  intros s n H. destruct H as [ds u k rest N F L U].
  assert (V : 0 <= val ds 0) by (apply val_nonneg; auto; lia).
  assert (D : isdigit u = false /\ 0 <= k).
  { unfold unit_seconds in U. cbn -[Z.eqb] in U. unfold isdigit.
    repeat match type of U with context [if ?x =? u then _ else _] => destruct (Z.eqb_spec x u) as [<-|] end;
      try discriminate; injection U as <-; split; reflexivity || lia. }
  destruct D as (D & K). split; [|nia]. unfold interval_seconds, scan_interval.
  assert (S : skip_ws (ds ++ u :: rest) = ds ++ u :: rest) by (destruct ds as [|c ds]; [congruence|]; apply digits_skip; apply Forall_inv in F; auto).
  rewrite S. assert (H1 : hd0 (ds ++ u :: rest) =? 45 = false).
  { destruct ds as [|c ds]; [congruence|]. apply Forall_inv in F. cbn [app hd0]. lia. }
  assert (H2 : hd0 (ds ++ u :: rest) =? 43 = false).
  { destruct ds as [|c ds]; [congruence|]. apply Forall_inv in F. cbn [app hd0]. lia. }
  rewrite H1, H2. rewrite num_run_digits by auto. cbv iota.
  replace (Z.min (val ds 0) (2 ^ 63 - 1)) with (val ds 0) by lia.
  assert (S32 : s32 (val ds 0) = val ds 0).
  { unfold s32. rewrite Z.mod_small by lia. destruct (Z.ltb_spec (val ds 0) (2 ^ 31)); lia. }
  rewrite S32. unfold unit_seconds in U. cbn -[Z.eqb] in U.
  repeat match type of U with context [if ?x =? u then _ else _] => destruct (Z.eqb_spec x u) as [<-|] end;
    try discriminate; injection U as <-; cbn [Z.eqb Pos.eqb]; lia.
Qed.
