(* Proofs about BakModel.v: at all times, wherever connections stopped, the current
   backup and all that are listed are complete; and what requests are answered. *)
From Verif Require Import Bytes RestoreModel BuModel CntrModel CntrProofs BakModel.

(* ---- Specification --------------------------------------------------------- *)
(* What a user is shown or can restore: the directories but those of the links
   working and finishing *)
Definition hidden (s : store) (n : Z) : Prop := working s = Some n \/ finishing s = Some n.
Definition listed (s : store) (n : Z) : Prop := stage_of n (dirs s) <> None /\ ~ hidden s n.
Definition complete (s : store) (n : Z) : Prop := exists w, stage_of n (dirs s) = Some (Complete w).
(* ... and nothing that the client sent is missing from it *)
Definition whole (s : store) (n : Z) : Prop := stage_of n (dirs s) = Some (Complete true).
(* At any time after any connections *)
Definition reachable (s : store) : Prop := exists h, s = history h empty_store.
(* The two moments: between the removal of the two files of phase 3, and while a
   working directory is being deleted *)
Definition bad_moment (c : cfg) (k : nat) (s : store) : Prop :=
  (exists n, nth_error (plan c s) k = Some (ODelUnchanged n)) \/ (exists n, nth_error (plan c s) k = Some (ORmdir n)).
Fixpoint calm (h : list (cfg * nat * bool)) (s : store) : Prop :=
  match h with
  | [] => True
  | (c, k, b) :: r => ~ bad_moment c k s /\ calm r (connection c k b s)
  end.

(* ---- The directories --------------------------------------------------------- *)
Definition done (x : stage) : bool := match x with Complete _ => true | _ => false end.
Lemma stage_in : forall n d, stage_of n d <> None <-> In n (map fst d).
Proof.
  induction d as [|[m x] d IH]; cbn [stage_of map In fst]; [intuition|].
  destruct (Z.eqb_spec m n); [split; [auto|intros _; discriminate]|]. rewrite IH. intuition.
Qed.
Lemma stage_on : forall n f m d, stage_of m (on_stage n f d) = if m =? n then option_map f (stage_of m d) else stage_of m d.
Proof.
  induction d as [|[a y] d IH]; cbn [on_stage map stage_of fst snd].
  - destruct (m =? n); reflexivity.
  - fold (on_stage n f d). destruct (Z.eqb_spec a n); cbn [stage_of].
    + subst a. destruct (Z.eqb_spec n m).
      * subst m. rewrite Z.eqb_refl. reflexivity.
      * rewrite IH. destruct (Z.eqb_spec m n); [congruence|reflexivity].
    + destruct (Z.eqb_spec a m); [|exact IH]. subst a. destruct (Z.eqb_spec m n); [congruence|reflexivity].
Qed.
Lemma stage_remove : forall n m d, stage_of m (remove n d) = if m =? n then None else stage_of m d.
Proof.
  induction d as [|[a y] d IH]; cbn [remove filter stage_of fst].
  - destruct (m =? n); reflexivity.
  - fold (remove n d). destruct (Z.eqb_spec a n); cbn [negb stage_of].
    + subst a. rewrite IH. destruct (Z.eqb_spec m n); [reflexivity|]. destruct (Z.eqb_spec n m); [congruence|reflexivity].
    + destruct (Z.eqb_spec a m); [|exact IH]. subst a. destruct (Z.eqb_spec m n); [congruence|reflexivity].
Qed.
Lemma max_ge : forall l a, a <= fold_left Z.max l a /\ Forall (fun m => m <= fold_left Z.max l a) l.
Proof.
  induction l as [|x l IH]; intros a; cbn [fold_left]; [split; [lia|constructor]|].
  destruct (IH (Z.max a x)) as [H1 H2]. split; [lia|]. constructor; [lia|exact H2].
Qed.
Lemma new_bno_gt : forall d m, stage_of m d <> None -> m < new_bno d.
Proof.
  intros d m H. apply stage_in in H. unfold new_bno. destruct (max_ge (map fst d) 0) as [_ F].
  rewrite Forall_forall in F. specialize (F m H). lia.
Qed.
Lemma new_bno_pos : forall d, 0 < new_bno d.
Proof. intros d. unfold new_bno. destruct (max_ge (map fst d) 0). lia. Qed.
Lemma new_bno_none : forall d, stage_of (new_bno d) d = None.
Proof. intros d. destruct (stage_of (new_bno d) d) eqn:E; [|reflexivity]. assert (X : stage_of (new_bno d) d <> None) by congruence. apply new_bno_gt in X. lia. Qed.

(* ---- The invariant ------------------------------------------------------------ *)
Record inv (s : store) : Prop := {
  i_current : forall n, current s = Some n -> complete s n;
  i_listed : forall n x, stage_of n (dirs s) = Some x -> done x = true \/ working s = Some n \/ finishing s = Some n;
  i_finishing : forall n, finishing s = Some n -> working s = None /\ current s <> Some n /\
    exists w, stage_of n (dirs s) = Some (Merged w) \/ stage_of n (dirs s) = Some (Complete w);
  i_working : forall n x, working s = Some n -> stage_of n (dirs s) = Some x -> done x = false;
  i_newest : forall n m, working s = Some n \/ finishing s = Some n -> stage_of m (dirs s) <> None -> m <= n;
  i_current_max : forall n m x, current s = Some n -> stage_of m (dirs s) = Some x -> done x = true -> m <= n \/ finishing s = Some m;
  i_has_current : current s = None -> forall m x, stage_of m (dirs s) = Some x -> done x = true -> finishing s = Some m;
  i_pos : forall m, stage_of m (dirs s) <> None -> 0 < m
}.

(* When a step may be done *)
Definition pre (o : op) (s : store) : Prop :=
  match o with
  | OTell _ => True
  | OLink n => working s = None /\ finishing s = None /\ 0 < n /\ (forall m, stage_of m (dirs s) <> None -> m < n)
  | OMkdir n => working s = Some n /\ stage_of n (dirs s) = None /\ 0 < n
  | OScan n => working s = Some n /\ stage_of n (dirs s) = Some Made
  | OReceive n => working s = Some n /\ exists w, stage_of n (dirs s) = Some (Scanned w)
  | OMerge n | ODelChanged n => working s = Some n /\ exists w, stage_of n (dirs s) = Some (Received w)
  | ODelUnchanged n | OEmpty n => working s = Some n /\ exists w, stage_of n (dirs s) = Some (Half w)
  | OToFinishing => exists n w, working s = Some n /\ stage_of n (dirs s) = Some (Merged w)
  | OShuffle n => finishing s = Some n
  | OToCurrent => exists n w, finishing s = Some n /\ stage_of n (dirs s) = Some (Complete w)
  | ODrop n => current s <> Some n /\ working s = None /\ finishing s = None /\ current s <> None
  | OBreak n _ => working s = Some n /\ stage_of n (dirs s) <> None
  | ORmdir n => working s = Some n /\ stage_of n (dirs s) <> None
  | OUnlink => exists n, working s = Some n /\ stage_of n (dirs s) = None
  end.

Lemma wf_excl : forall s n m, inv s -> working s = Some n -> finishing s = Some m -> False.
Proof. intros s n m I H1 H2. destruct (i_finishing s I m H2) as [H _]. congruence. Qed.

(* A change of the stage of the working directory to something that is not complete *)
Lemma inv_on : forall s n f, inv s -> working s = Some n -> (forall x, done x = false -> done (f x) = false) ->
  inv (mkst (on_stage n f (dirs s)) (working s) (finishing s) (current s)).
Proof.
  intros s n f I Hw Hx. pose proof (fun x => i_working s I n x Hw) as Hn.
  assert (N : forall m y, m = n -> option_map f (stage_of m (dirs s)) = Some y -> done y = false).
  { intros m y -> E. destruct (stage_of n (dirs s)) eqn:E1; cbn [option_map] in E; [|discriminate]. injection E as <-. auto. }
  assert (X : forall b, stage_of b (on_stage n f (dirs s)) <> None -> stage_of b (dirs s) <> None).
  { intros b Hb. rewrite stage_on in Hb. destruct (Z.eqb_spec b n); [|exact Hb].
    destruct (stage_of b (dirs s)); [discriminate|exact Hb]. }
  constructor; cbn [dirs working finishing current]; unfold complete; cbn [dirs].
  - intros m Hm. destruct (i_current s I m Hm) as [w H]. exists w. rewrite stage_on. destruct (Z.eqb_spec m n); [|exact H].
    subst. specialize (Hn _ H). discriminate.
  - intros m y. rewrite stage_on. destruct (Z.eqb_spec m n); [intros; subst; auto|]. apply (i_listed s I).
  - intros m Hm. exfalso. apply (wf_excl s n m); assumption.
  - intros m y Hm Hs. rewrite stage_on in Hs. assert (m = n) by congruence. subst m. rewrite Z.eqb_refl in Hs. apply (N n y eq_refl Hs).
  - intros a b Ha Hb. apply (i_newest s I a b Ha), X, Hb.
  - intros a b y Ha Hb Hd. rewrite stage_on in Hb. destruct (Z.eqb_spec b n).
    + rewrite (N b y e Hb) in Hd. discriminate.
    + apply (i_current_max s I a b y Ha Hb Hd).
  - intros Ha b y Hb Hd. rewrite stage_on in Hb. destruct (Z.eqb_spec b n).
    + rewrite (N b y e Hb) in Hd. discriminate.
    + apply (i_has_current s I Ha b y Hb Hd).
  - intros b Hb. apply (i_pos s I), X, Hb.
Qed.

Lemma inv_step : forall o s, inv s -> pre o s -> inv (step o s).
Proof.
  intros o s I P. destruct o; cbn [pre step] in *; cbv zeta.
  - exact I.
  - destruct P as [Hw [Hf [Hp Hm]]].
    constructor; cbn [dirs working finishing current]; unfold complete; cbn [dirs].
    + apply (i_current s I).
    + intros m x H. destruct (i_listed s I m x H) as [X|[X|X]]; try congruence. auto.
    + intros m H. congruence.
    + intros m x H Hs. injection H as <-. assert (Y : stage_of n (dirs s) <> None) by congruence. apply Hm in Y. lia.
    + intros a b [Ha|Ha] Hb; [injection Ha as <-; apply Hm in Hb; lia|congruence].
    + apply (i_current_max s I).
    + apply (i_has_current s I).
    + apply (i_pos s I).
  - destruct P as [Hw [Hn Hp]].
    constructor; cbn [dirs working finishing current]; unfold complete; cbn [dirs stage_of].
    + intros m H. destruct (i_current s I m H) as [w X]. exists w. destruct (Z.eqb_spec n m); [congruence|exact X].
    + intros m x. destruct (Z.eqb_spec n m); [intros _; subst; auto|apply (i_listed s I)].
    + intros m H. exfalso. apply (wf_excl s n m); assumption.
    + intros m x H. assert (m = n) by congruence. subst. rewrite Z.eqb_refl. intros X. injection X as <-. reflexivity.
    + intros a b Ha. destruct (Z.eqb_spec n b).
      * intros _. destruct Ha as [Ha|Ha]; [assert (a = n) by congruence; lia|exfalso; apply (wf_excl s n a); assumption].
      * apply (i_newest s I a b Ha).
    + intros a b x Ha. destruct (Z.eqb_spec n b); [intros X; injection X as <-; discriminate|apply (i_current_max s I a b x Ha)].
    + intros Ha b x. destruct (Z.eqb_spec n b); [intros X; injection X as <-; discriminate|apply (i_has_current s I Ha b)].
    + intros b. destruct (Z.eqb_spec n b); [intros; lia|apply (i_pos s I)].
  - apply inv_on; [exact I|apply P|intros []; cbn; auto].
  - apply inv_on; [exact I|apply P|intros []; cbn; auto].
  - exact I.
  - apply inv_on; [exact I|apply P|intros []; cbn; auto].
  - apply inv_on; [exact I|apply P|intros []; cbn; auto].
  - destruct P as [n [w [Hw Hs]]].
    constructor; cbn [dirs working finishing current]; unfold complete; cbn [dirs].
    + apply (i_current s I).
    + intros m x H. destruct (i_listed s I m x H) as [X|[X|X]]; auto. exfalso. apply (wf_excl s n m); assumption.
    + intros m H. split; [reflexivity|]. assert (m = n) by congruence. subst. split; [|exists w; auto].
      intros C. destruct (i_current s I n C). congruence.
    + intros m x H. discriminate.
    + intros a b [Ha|Ha] Hb; [discriminate|]. apply (i_newest s I a b); auto.
    + intros a b x Ha Hb Hd. destruct (i_current_max s I a b x Ha Hb Hd); auto. exfalso. apply (wf_excl s n b); assumption.
    + intros Ha b x Hb Hd. pose proof (i_has_current s I Ha b x Hb Hd). exfalso. apply (wf_excl s n b); assumption.
    + apply (i_pos s I).
  - (* OShuffle *)
    destruct (i_finishing s I n P) as [Hw [Hc [w Hst]]].
    assert (E : option_map shuffle (stage_of n (dirs s)) = Some (Complete w)) by (destruct Hst as [-> | ->]; reflexivity).
    constructor; cbn [dirs working finishing current]; unfold complete; cbn [dirs].
    + intros m H. destruct (i_current s I m H) as [v X]. exists v. rewrite stage_on. destruct (Z.eqb_spec m n); [congruence|exact X].
    + intros m x H. rewrite stage_on in H. destruct (Z.eqb_spec m n); [subst; auto|apply (i_listed s I m x H)].
    + intros m H. split; [exact Hw|]. assert (m = n) by congruence. subst. split; [exact Hc|]. exists w. right. rewrite stage_on, Z.eqb_refl. exact E.
    + intros m x H. congruence.
    + intros a b Ha Hb. apply (i_newest s I a b Ha). rewrite stage_on in Hb. destruct (Z.eqb_spec b n); [|exact Hb].
      destruct (stage_of b (dirs s)); [discriminate|exact Hb].
    + intros a b x Ha Hb Hd. rewrite stage_on in Hb. destruct (Z.eqb_spec b n); [subst; auto|apply (i_current_max s I a b x Ha Hb Hd)].
    + intros Ha b x Hb Hd. rewrite stage_on in Hb. destruct (Z.eqb_spec b n); [subst; auto|apply (i_has_current s I Ha b x Hb Hd)].
    + intros b Hb. apply (i_pos s I). rewrite stage_on in Hb. destruct (Z.eqb_spec b n); [|exact Hb].
      destruct (stage_of b (dirs s)); [discriminate|exact Hb].
  - (* OToCurrent *)
    destruct P as [n [w [Hf Hs]]]. destruct (i_finishing s I n Hf) as [Hw _].
    constructor; cbn [dirs working finishing current]; unfold complete; cbn [dirs].
    + intros m H. assert (m = n) by congruence. subst. exists w. exact Hs.
    + intros m x H. destruct (i_listed s I m x H) as [X|[X|X]]; auto. assert (m = n) by congruence. left. subst. rewrite Hs in H. injection H as <-. reflexivity.
    + intros m H. discriminate.
    + intros m x H. congruence.
    + intros a b [Ha|Ha]; [congruence|discriminate].
    + intros a b x Ha Hb Hd. left. assert (a = n) by congruence. subst. apply (i_newest s I n b); [auto|congruence].
    + intros Ha. congruence.
    + apply (i_pos s I).
  - (* ODrop *)
    destruct P as [Hc [Hw [Hf Hn]]].
    constructor; cbn [dirs working finishing current]; unfold complete; cbn [dirs].
    + intros m H. destruct (i_current s I m H) as [v X]. exists v. rewrite stage_remove. destruct (Z.eqb_spec m n); [congruence|exact X].
    + intros m x H. rewrite stage_remove in H. destruct (Z.eqb_spec m n); [discriminate|apply (i_listed s I m x H)].
    + intros m H. congruence.
    + intros m x H. congruence.
    + intros a b [Ha|Ha]; congruence.
    + intros a b x Ha Hb. rewrite stage_remove in Hb. destruct (Z.eqb_spec b n); [discriminate|apply (i_current_max s I a b x Ha Hb)].
    + intros Ha. congruence.
    + intros b Hb. rewrite stage_remove in Hb. destruct (Z.eqb_spec b n); [congruence|apply (i_pos s I b Hb)].
  - apply inv_on; [exact I|apply P|intros [] H; destruct r; cbn in *; auto].
  - (* ORmdir *)
    destruct P as [P _]. pose proof (fun x => i_working s I n x P) as Hn.
    constructor; cbn [dirs working finishing current]; unfold complete; cbn [dirs].
    + intros m H. destruct (i_current s I m H) as [v X]. exists v. rewrite stage_remove. destruct (Z.eqb_spec m n); [|exact X].
      subst. specialize (Hn _ X). discriminate.
    + intros m x H. rewrite stage_remove in H. destruct (Z.eqb_spec m n); [discriminate|apply (i_listed s I m x H)].
    + intros m H. exfalso. apply (wf_excl s n m); assumption.
    + intros m x H. rewrite stage_remove. destruct (Z.eqb_spec m n); [discriminate|apply (i_working s I m x H)].
    + intros a b Ha Hb. rewrite stage_remove in Hb. destruct (Z.eqb_spec b n); [congruence|apply (i_newest s I a b Ha Hb)].
    + intros a b x Ha Hb. rewrite stage_remove in Hb. destruct (Z.eqb_spec b n); [discriminate|apply (i_current_max s I a b x Ha Hb)].
    + intros Ha b x Hb. rewrite stage_remove in Hb. destruct (Z.eqb_spec b n); [discriminate|apply (i_has_current s I Ha b x Hb)].
    + intros b Hb. rewrite stage_remove in Hb. destruct (Z.eqb_spec b n); [congruence|apply (i_pos s I b Hb)].
  - (* OUnlink *)
    destruct P as [n [Hw Hs]].
    constructor; cbn [dirs working finishing current]; unfold complete; cbn [dirs].
    + apply (i_current s I).
    + intros m x H. destruct (i_listed s I m x H) as [X|[X|X]]; auto. assert (m = n) by congruence. congruence.
    + intros m H. exfalso. apply (wf_excl s n m); assumption.
    + intros m x H. discriminate.
    + intros a b [Ha|Ha]; [discriminate|]. exfalso. apply (wf_excl s n a); assumption.
    + apply (i_current_max s I).
    + apply (i_has_current s I).
    + apply (i_pos s I).
  - apply inv_on; [exact I|apply P|intros []; cbn; auto].
Qed.

(* ---- The plan may be done --------------------------------------------------------- *)
Fixpoint good (l : list op) (s : store) : Prop :=
  match l with [] => True | o :: r => pre o s /\ good r (step o s) end.
Lemma good_app : forall a b s, good a s -> good b (steps a s) -> good (a ++ b) s.
Proof.
  induction a as [|o a IH]; intros b s Ha Hb; cbn [app good] in *; [exact Hb|].
  split; [apply Ha|]. apply IH; [apply Ha|]. exact Hb.
Qed.
Lemma good_prefix : forall l s k, inv s -> good l s -> inv (steps (firstn k l) s).
Proof.
  induction l as [|o l IH]; intros s k I H.
  - rewrite firstn_nil. exact I.
  - destruct k as [|k]; [exact I|]. cbn [firstn steps fold_left]. cbn [good] in H.
    apply (IH (step o s) k); [apply inv_step; [exact I|apply H]|apply H].
Qed.

Lemma good_prune : forall l s, working s = None -> finishing s = None -> current s <> None ->
  (forall m, In m l -> current s <> Some m) -> good (map ODrop l) s.
Proof.
  induction l as [|n l IH]; intros s Hw Hf Hc Hn; cbn [map good]; [exact I|]. cbn [pre].
  split; [split; [apply Hn; left; reflexivity|auto]|].
  apply IH; cbn [step working finishing current]; auto. intros m Hm. apply Hn. right. exact Hm.
Qed.
Definition core (n : Z) : list op := [OMerge n; ODelChanged n; ODelUnchanged n; OToFinishing; OShuffle n; OToCurrent].
Lemma core_steps : forall n w s, working s = Some n -> finishing s = None -> stage_of n (dirs s) = Some (Received w) ->
  good (core n) s /\ working (steps (core n) s) = None /\ finishing (steps (core n) s) = None /\ current (steps (core n) s) = Some n /\
  stage_of n (dirs (steps (core n) s)) = Some (Complete w) /\
  (forall m, m <> n -> stage_of m (dirs (steps (core n) s)) = stage_of m (dirs s)).
Proof.
  intros n w s Hw Hf Hs. unfold core. cbn [good pre step steps fold_left working finishing dirs current]; cbv zeta; cbn [working finishing dirs current].
  assert (E1 : stage_of n (on_stage n del_changed (dirs s)) = Some (Half w)) by (rewrite stage_on, Z.eqb_refl, Hs; reflexivity).
  assert (E2 : stage_of n (on_stage n del_unchanged (on_stage n del_changed (dirs s))) = Some (Merged w)) by (rewrite stage_on, Z.eqb_refl, E1; reflexivity).
  assert (E3 : stage_of n (on_stage n shuffle (on_stage n del_unchanged (on_stage n del_changed (dirs s)))) = Some (Complete w)) by (rewrite stage_on, Z.eqb_refl, E2; reflexivity).
  split; [|split; [|split; [|split; [|split]]]].
  - split; [eauto|]. split; [eauto|]. split; [split; [exact Hw|eauto]|]. split; [exists n, w; auto|]. split; [exact Hw|]. split; [exists n, w; auto|exact I].
  - reflexivity.
  - reflexivity.
  - exact Hw.
  - exact E3.
  - intros m Hm. rewrite !stage_on. destruct (Z.eqb_spec m n); [contradiction|reflexivity].
Qed.
Lemma good_ending : forall c n w d s, working s = Some n -> finishing s = None -> stage_of n (dirs s) = Some (Received w) -> good (ending c n d) s.
Proof.
  intros c n w d s Hw Hf Hs. unfold ending. fold (core n). destruct (core_steps n w s Hw Hf Hs) as [G [H1 [H2 [H3 _]]]].
  apply good_app; [exact G|]. apply good_prune; auto; [congruence|].
  intros m Hm. apply filter_In in Hm as [_ Hm]. apply andb_prop in Hm as [Hm _]. destruct (Z.eqb_spec m n); [discriminate|]. congruence.
Qed.
Definition start (n : Z) : list op := [OTell WOk; OLink n; OMkdir n; OScan n; OReceive n; OTell WEnd].
Lemma start_steps : forall s, inv s -> working s = None -> finishing s = None -> let n := new_bno (dirs s) in
  good (start n) s /\ working (steps (start n) s) = Some n /\ finishing (steps (start n) s) = None /\ current (steps (start n) s) = current s /\
  stage_of n (dirs (steps (start n) s)) = Some (Received true) /\
  (forall m, m <> n -> stage_of m (dirs (steps (start n) s)) = stage_of m (dirs s)).
Proof.
  intros s I Hw Hf n. unfold start. cbn [good pre step steps fold_left working finishing dirs current]; cbv zeta; cbn [working finishing dirs current].
  assert (E0 : stage_of n ((n, Made) :: dirs s) = Some Made) by (cbn [stage_of]; rewrite Z.eqb_refl; reflexivity).
  assert (E1 : stage_of n (on_stage n scan ((n, Made) :: dirs s)) = Some (Scanned true)) by (rewrite stage_on, Z.eqb_refl, E0; reflexivity).
  assert (E2 : stage_of n (on_stage n receive (on_stage n scan ((n, Made) :: dirs s))) = Some (Received true)) by (rewrite stage_on, Z.eqb_refl, E1; reflexivity).
  split; [|split; [|split; [|split; [|split]]]]; auto.
  - split; [exact Logic.I|]. split; [repeat split; auto; [apply new_bno_pos|intros m; apply new_bno_gt]|].
    split; [repeat split; [apply new_bno_none|apply new_bno_pos]|]. split; [auto|]. split; [eauto|auto].
  - intros m Hm. rewrite !stage_on. destruct (Z.eqb_spec m n); [contradiction|]. cbn [stage_of]. destruct (Z.eqb_spec n m); [congruence|reflexivity].
Qed.
Lemma good_fresh : forall c s, inv s -> working s = None -> finishing s = None -> good (fresh c (dirs s)) s.
Proof.
  intros c s I Hw Hf. unfold fresh. destruct (c_refuse c); [cbn; auto|]. cbv zeta.
  destruct (start_steps s I Hw Hf) as [G [H1 [H2 [H3 [H4 _]]]]]. apply (good_app (start (new_bno (dirs s)))); [exact G|].
  apply (good_ending _ _ true); assumption.
Qed.
Definition clean (n : Z) (r : remains) : list op := [OBreak n r; ORmdir n; OUnlink].
Lemma clean_steps : forall n r s, working s = Some n -> stage_of n (dirs s) <> None ->
  good (clean n r) s /\ working (steps (clean n r) s) = None /\ finishing (steps (clean n r) s) = finishing s /\
  current (steps (clean n r) s) = current s /\ dirs (steps (clean n r) s) = remove n (dirs s).
Proof.
  intros n r s Hw Hs. unfold clean. cbn [good pre step steps fold_left working finishing dirs current]; cbv zeta; cbn [working finishing dirs current].
  split; [|split; [|split; [|split]]]; auto.
  - split; [auto|]. split; [split; [exact Hw|]|split; [|exact I]].
    + rewrite stage_on, Z.eqb_refl. destruct (stage_of n (dirs s)); [discriminate|exact Hs].
    + exists n. split; [exact Hw|]. rewrite stage_remove, Z.eqb_refl. reflexivity.
  - unfold on_stage, remove. generalize (dirs s). clear.
    induction l as [|[m y] l IH]; cbn [map filter fst]; [reflexivity|].
    destruct (Z.eqb_spec m n); cbn [filter fst].
    + rewrite Z.eqb_refl. cbn [negb]. exact IH.
    + destruct (Z.eqb_spec m n); [contradiction|]. cbn [negb]. rewrite IH. reflexivity.
Qed.
Lemma steps_all : forall l s, steps (firstn (List.length l) l) s = steps l s.
Proof. intros. rewrite firstn_all. reflexivity. Qed.
Lemma inv_clean : forall n r s, inv s -> working s = Some n -> stage_of n (dirs s) <> None -> inv (steps (clean n r) s).
Proof. intros n r s I Hw Hs. rewrite <- steps_all. apply good_prefix; [exact I|]. apply clean_steps; assumption. Qed.
Lemma good_plan : forall c s, inv s -> good (plan c s) s.
Proof.
  intros c s I. unfold plan. destruct (finishing s) as [n|] eqn:Hf.
  - cbn [good pre step]. cbv zeta. cbn [working finishing dirs current]. split; [exact Logic.I|]. split; [exact Hf|]. split; [|exact Logic.I].
    destruct (i_finishing s I n Hf) as [_ [_ [w Hst]]]. exists n, w. split; [exact Hf|]. rewrite stage_on, Z.eqb_refl.
    destruct Hst as [-> | ->]; reflexivity.
  - destruct (working s) as [n|] eqn:Hw; [|apply good_fresh; assumption].
    destruct (stage_of n (dirs s)) as [x|] eqn:Hs.
    + assert (Hs' : stage_of n (dirs s) <> None) by congruence.
      destruct (match x with Scanned _ | Received _ | Half _ => c_delete c | _ => true end) eqn:Ed.
      * destruct (clean_steps n (c_left c) s Hw Hs') as [G [H1 [H2 [_ H3]]]].
        apply (good_app (clean n (c_left c))); [exact G|]. rewrite <- H3. apply good_fresh; [apply inv_clean; assumption|exact H1|congruence].
      * unfold resumed. destruct (c_refuse c); [cbn; auto|]. cbn [good pre]. split; [exact Logic.I|]. cbn [step].
        destruct x; try discriminate.
        -- cbn [app good pre step]. cbv zeta. split; [eauto|]. split; [exact Logic.I|].
           apply (good_ending _ _ w); cbn [working finishing dirs]; auto. rewrite stage_on, Z.eqb_refl, Hs. reflexivity.
        -- apply (good_ending _ _ w); assumption.
        -- cbn [good pre]. split; [eauto|exact Logic.I].
    + cbn [good pre]. split; [exists n; auto|exact Logic.I].
Qed.

Lemma inv_empty : inv empty_store.
Proof. constructor; cbn; unfold complete; cbn; intros; try discriminate; try contradiction; destruct H; discriminate. Qed.
Lemma good_nth : forall l s k o, good l s -> nth_error l k = Some o -> pre o (steps (firstn k l) s).
Proof.
  induction l as [|a l IH]; intros s k o H E; [destruct k; discriminate|].
  destruct k as [|k]; cbn [nth_error firstn steps fold_left] in *; [injection E as <-; apply H|].
  apply (IH (step a s) k o); [apply H|exact E].
Qed.
Lemma inv_connection : forall c k b s, inv s -> inv (connection c k b s).
Proof.
  intros c k b s I. unfold connection. cbv zeta. pose proof (good_plan c s I) as G.
  pose proof (good_prefix _ s k I G) as I'.
  destruct (nth_error (plan c s) k) as [o|] eqn:E; [|exact I'].
  destruct o; try exact I'. destruct b; [|exact I'].
  apply inv_step; [exact I'|]. pose proof (good_nth _ _ _ _ G E) as [H1 [H2 _]]. cbn [pre]. exists n. auto.
Qed.
Lemma inv_history : forall h s, inv s -> inv (history h s).
Proof.
  induction h as [|t h IH]; intros s I; [exact I|]. cbn [history fold_left]. apply IH. apply inv_connection, I.
Qed.
Lemma inv_reachable : forall s, reachable s -> inv s.
Proof. intros s [h ->]. apply inv_history, inv_empty. Qed.

(* ---- What holds at all times --------------------------------------------------- *)
Lemma always_complete : forall s, reachable s ->
  (forall n, current s = Some n -> complete s n) /\ (forall n, listed s n -> complete s n) /\
  (forall n m, current s = Some n -> listed s m -> m <= n) /\
  (current s = None -> forall n, ~ listed s n) /\
  (forall n, ~ (hidden s n /\ current s = Some n)).
Proof.
  intros s R. pose proof (inv_reachable s R) as I.
  assert (L : forall n, listed s n -> complete s n).
  { intros n [H1 H2]. destruct (stage_of n (dirs s)) as [x|] eqn:E; [|contradiction].
    destruct (i_listed s I n x E) as [D|H]; [|destruct H2; exact H]. destruct x; try discriminate. exists w. exact E. }
  split; [apply (i_current s I)|]. split; [exact L|]. split; [|split].
  - intros n m Hc Hl. destruct (L m Hl) as [w Hw]. destruct (i_current_max s I n m _ Hc Hw eq_refl) as [H|H]; [exact H|].
    destruct Hl as [_ Hl]. destruct Hl. right. exact H.
  - intros Hc n Hl. destruct (L n Hl) as [w Hw]. pose proof (i_has_current s I Hc n _ Hw eq_refl) as H. destruct Hl as [_ Hl]. apply Hl. right. exact H.
  - intros n [[H|H] Hc].
    + destruct (i_current s I n Hc) as [w Hw]. pose proof (i_working s I n _ H Hw). discriminate.
    + destruct (i_finishing s I n H) as [_ [X _]]. contradiction.
Qed.

(* ---- Nothing is missing, but for the two moments --------------------------------- *)
Definition flag (x : stage) : bool := match x with Scanned w | Received w | Half w | Merged w | Complete w => w | _ => true end.
Definition half (x : stage) : bool := match x with Half _ => true | _ => false end.
Definition all_whole (s : store) : Prop := forall n x, stage_of n (dirs s) = Some x -> flag x = true.
Definition no_half (s : store) : Prop := forall n x, stage_of n (dirs s) = Some x -> half x = false.
Definition harmless (o : op) : Prop := match o with OEmpty _ | OBreak _ _ => False | _ => True end.
Lemma whole_on : forall s n f, all_whole s -> (forall x, flag x = true -> flag (f x) = true) ->
  all_whole (mkst (on_stage n f (dirs s)) (working s) (finishing s) (current s)).
Proof.
  intros s n f H Hf m x. cbn [dirs]. rewrite stage_on. destruct (Z.eqb_spec m n); [|apply H].
  destruct (stage_of m (dirs s)) eqn:E; cbn [option_map]; [|discriminate]. intros X. injection X as <-. apply Hf. apply (H m _ E).
Qed.
Lemma whole_remove : forall s n, all_whole s -> all_whole (mkst (remove n (dirs s)) (working s) (finishing s) (current s)).
Proof. intros s n H m x. cbn [dirs]. rewrite stage_remove. destruct (m =? n); [discriminate|apply H]. Qed.
Lemma whole_step : forall o s, all_whole s -> harmless o -> all_whole (step o s).
Proof.
  intros o s H Ho. destruct o; cbn [harmless step] in *; cbv zeta; try contradiction; try exact H;
    try (apply whole_on; [exact H|intros []; cbn; auto]); try (apply whole_remove, H).
  intros m x. cbn [dirs stage_of]. destruct (n =? m); [intros X; injection X as <-; reflexivity|apply H].
Qed.
Lemma whole_steps : forall l s, all_whole s -> Forall harmless l -> all_whole (steps l s).
Proof.
  induction l as [|o l IH]; intros s H F; [exact H|]. inversion F; subst. cbn [steps fold_left]. apply IH; [apply whole_step; assumption|assumption].
Qed.
Lemma nohalf_on : forall s n f, no_half s -> (forall x, half x = false -> half (f x) = false) ->
  no_half (mkst (on_stage n f (dirs s)) (working s) (finishing s) (current s)).
Proof.
  intros s n f H Hf m x. cbn [dirs]. rewrite stage_on. destruct (Z.eqb_spec m n); [|apply H].
  destruct (stage_of m (dirs s)) eqn:E; cbn [option_map]; [|discriminate]. intros X. injection X as <-. apply Hf. apply (H m _ E).
Qed.
Lemma nohalf_remove : forall s n, no_half s -> no_half (mkst (remove n (dirs s)) (working s) (finishing s) (current s)).
Proof. intros s n H m x. cbn [dirs]. rewrite stage_remove. destruct (m =? n); [discriminate|apply H]. Qed.
Definition plain (o : op) : Prop := match o with OEmpty _ | OBreak _ _ | ODelChanged _ => False | _ => True end.
Lemma nohalf_step : forall o s, no_half s -> plain o -> no_half (step o s).
Proof.
  intros o s H Ho. destruct o; cbn [plain step] in *; cbv zeta; try contradiction; try exact H;
    try (apply nohalf_on; [exact H|intros []; cbn; auto]); try (apply nohalf_remove, H).
  intros m x. cbn [dirs stage_of]. destruct (n =? m); [intros X; injection X as <-; reflexivity|apply H].
Qed.
Lemma nohalf_steps : forall l s, no_half s -> Forall plain l -> no_half (steps l s).
Proof.
  induction l as [|o l IH]; intros s H F; [exact H|]. inversion F; subst. cbn [steps fold_left]. apply IH; [apply nohalf_step; assumption|assumption].
Qed.
(* The two removals together *)
Lemma nohalf_pair : forall n s, no_half s -> no_half (step (ODelUnchanged n) (step (ODelChanged n) s)).
Proof.
  intros n s H m x. cbn [step]. cbv zeta. cbn [dirs]. rewrite !stage_on. destruct (Z.eqb_spec m n); [|apply H].
  destruct (stage_of m (dirs s)) as [y|] eqn:E; cbn [option_map]; [|discriminate]. intros X. injection X as <-.
  specialize (H m y E). destruct y; cbn in *; congruence.
Qed.
Lemma firstn_Forall : forall (A : Type) (P : A -> Prop) k l, Forall P l -> Forall P (firstn k l).
Proof. induction k; intros l H; [constructor|]. destruct l; [constructor|]. inversion H; subst. constructor; auto. Qed.

(* A plan that has one such pair and otherwise plain steps *)
Lemma nohalf_prefix : forall a n b s k, no_half s -> Forall plain a -> Forall plain b ->
  nth_error (a ++ ODelChanged n :: ODelUnchanged n :: b) k <> Some (ODelUnchanged n) ->
  no_half (steps (firstn k (a ++ ODelChanged n :: ODelUnchanged n :: b)) s).
Proof.
  induction a as [|o a IH]; intros n b s k H Fa Fb Hk.
  - cbn [app] in *. destruct k as [|[|k]]; [exact H|cbn in Hk; congruence|].
    cbn [firstn steps fold_left]. apply (nohalf_steps (firstn k b)); [apply nohalf_pair, H|]. apply firstn_Forall, Fb.
  - destruct k as [|k]; [exact H|]. cbn [app firstn steps fold_left] in *. inversion Fa; subst.
    apply (IH n b (step o s) k); auto. apply nohalf_step; assumption.
Qed.
Lemma prune_plain : forall c n d, Forall plain (prune c n d).
Proof. intros. unfold prune. apply Forall_forall. intros o H. apply in_map_iff in H as [m [<- _]]. exact I. Qed.

(* What a plan is made of when nothing is half done *)
Definition shaped (l : list op) : Prop :=
  Forall plain l \/ exists a n b, l = a ++ ODelChanged n :: ODelUnchanged n :: b /\ Forall plain a /\ Forall plain b.
Lemma shaped_prefix : forall l s k, no_half s -> shaped l -> (forall n, nth_error l k <> Some (ODelUnchanged n)) -> no_half (steps (firstn k l) s).
Proof.
  intros l s k H [F|[a [n [b [-> [Fa Fb]]]]]] Hk; [apply nohalf_steps; [exact H|apply firstn_Forall, F]|].
  apply nohalf_prefix; auto.
Qed.
Lemma shaped_ending : forall p c n d, Forall plain p -> shaped (p ++ ending c n d).
Proof.
  intros p c n d F. right. exists (p ++ [OMerge n]), n, ([OToFinishing; OShuffle n; OToCurrent] ++ prune c n d).
  split; [unfold ending; rewrite <- app_assoc; reflexivity|]. split.
  - apply Forall_app. split; [exact F|]. repeat constructor.
  - apply Forall_app. split; [repeat constructor|apply prune_plain].
Qed.
Lemma shaped_fresh : forall c d, shaped (fresh c d).
Proof.
  intros c d. unfold fresh. destruct (c_refuse c); [left; repeat constructor|]. cbv zeta. apply shaped_ending. repeat constructor.
Qed.
Lemma shaped_harmless : forall l, shaped l -> Forall harmless l.
Proof.
  assert (W : forall l, Forall plain l -> Forall harmless l) by (intros l; apply Forall_impl; intros []; cbn; auto).
  intros l [F|[a [n [b [-> [Fa Fb]]]]]]; [apply W, F|]. apply Forall_app. split; [apply W, Fa|]. constructor; [exact I|]. constructor; [exact I|]. apply W, Fb.
Qed.
Definition fine (s : store) : Prop := all_whole s /\ no_half s.
Lemma fine_shaped : forall l s k, fine s -> shaped l -> (forall n, nth_error l k <> Some (ODelUnchanged n)) -> fine (steps (firstn k l) s).
Proof.
  intros l s k [H1 H2] S Hk. split; [|apply shaped_prefix; assumption]. apply whole_steps; [exact H1|]. apply firstn_Forall, shaped_harmless, S.
Qed.
Lemma fine_clean : forall n r s, fine s -> fine (steps (clean n r) s).
Proof.
  intros n r s [H1 H2]. unfold clean. cbn [steps fold_left step]. cbv zeta. cbn [dirs working finishing current].
  split; intros m x; cbn [dirs]; rewrite stage_remove, stage_on; destruct (m =? n); try discriminate; [apply H1|apply H2].
Qed.
Lemma steps_app : forall a b s, steps (a ++ b) s = steps b (steps a s).
Proof. intros. apply fold_left_app. Qed.
Lemma fine_prefix : forall c k s, fine s -> ~ bad_moment c k s -> fine (steps (firstn k (plan c s)) s).
Proof.
  intros c k s F B. unfold bad_moment in B.
  assert (B1 : forall n, nth_error (plan c s) k <> Some (ODelUnchanged n)) by (intros n E; apply B; left; exists n; exact E).
  assert (B2 : forall n, nth_error (plan c s) k <> Some (ORmdir n)) by (intros n E; apply B; right; exists n; exact E).
  clear B. revert B1 B2. unfold plan. destruct (finishing s) as [n|] eqn:Hf.
  - intros B1 _. apply fine_shaped; auto. left. repeat constructor.
  - destruct (working s) as [n|] eqn:Hw; [|intros B1 _; apply fine_shaped; auto; apply shaped_fresh].
    destruct (stage_of n (dirs s)) as [x|] eqn:Hs.
    + destruct (match x with Scanned _ | Received _ | Half _ => c_delete c | _ => true end) eqn:Ed.
      * cbn [app]. intros B1 B2. destruct k as [|[|k]]; [exact F|cbn in B2; destruct (B2 n eq_refl)|].
        destruct k as [|k].
        -- cbn [firstn steps fold_left step]. cbv zeta. cbn [dirs working finishing current]. destruct F as [H1 H2].
           split; intros m y; cbn [dirs]; rewrite stage_remove, stage_on; destruct (m =? n); try discriminate; [apply H1|apply H2].
        -- change (fine (steps (firstn k (fresh c (remove n (dirs s)))) (steps (clean n (c_left c)) s))).
           apply fine_shaped; [apply fine_clean, F|apply shaped_fresh|]. intros m. apply (B1 m).
      * unfold resumed. destruct (c_refuse c); [intros B1 _; apply fine_shaped; auto; left; repeat constructor|].
        intros B1 _. apply fine_shaped; auto. destruct x; try discriminate.
        -- apply (shaped_ending [OTell WResume; OReceive n; OTell WEnd]). repeat constructor.
        -- apply (shaped_ending [OTell WResume]). repeat constructor.
        -- destruct F as [_ F]. specialize (F n _ Hs). discriminate.
    + intros B1 _. apply fine_shaped; auto. left. repeat constructor.
Qed.
Lemma fine_connection : forall c k b s, fine s -> ~ bad_moment c k s -> fine (connection c k b s).
Proof.
  intros c k b s F B. unfold connection. cbv zeta. pose proof (fine_prefix c k s F B) as F'.
  destruct (nth_error (plan c s) k) as [o|]; [|exact F']. destruct o; try exact F'. destruct b; [|exact F']. exact F'.
Qed.
Lemma fine_history : forall h s, fine s -> calm h s -> fine (history h s).
Proof.
  induction h as [|[[c k] b] h IH]; intros s F C; [exact F|]. cbn [calm] in C. cbn [history fold_left fst snd].
  apply IH; [|apply C]. apply fine_connection; [exact F|apply C].
Qed.
Lemma calm_whole : forall h s, s = history h empty_store -> calm h empty_store ->
  (forall n, current s = Some n -> whole s n) /\ (forall n, listed s n -> whole s n).
Proof.
  intros h s -> C. assert (R : reachable (history h empty_store)) by (exists h; reflexivity).
  assert (F : fine (history h empty_store)) by (apply fine_history; [split; intros n x; discriminate|exact C]).
  destruct (always_complete _ R) as [H1 [H2 _]].
  assert (W : forall n, complete (history h empty_store) n -> whole (history h empty_store) n).
  { intros n [w Hw]. unfold whole. destruct F as [F _]. rewrite Hw. specialize (F n _ Hw). cbn in F. subst. reflexivity. }
  split; intros n H; apply W; auto.
Qed.

(* ---- Nothing is lost before there is something newer ------------------------------ *)
Definition current_up (s s' : store) : Prop := forall n, current s = Some n -> exists m, current s' = Some m /\ n <= m.
Lemma up_refl : forall s, current_up s s. Proof. intros s n H. exists n. split; [exact H|lia]. Qed.
Lemma up_trans : forall a b c, current_up a b -> current_up b c -> current_up a c.
Proof. intros a b c H1 H2 n H. destruct (H1 n H) as [m [Hm L]]. destruct (H2 m Hm) as [p [Hp L']]. exists p. split; [exact Hp|lia]. Qed.
Lemma up_step : forall o s, inv s -> pre o s -> current_up s (step o s).
Proof.
  intros o s I P. destruct o; cbn [step] in *; cbv zeta; try (intros a Ha; exists a; cbn [current]; split; [exact Ha|lia]).
  destruct P as [n [w [Hf Hs]]]. intros a Ha. exists n. split; [exact Hf|].
  destruct (i_current s I a Ha) as [v Hv]. apply (i_newest s I n a); [auto|congruence].
Qed.
Lemma up_prefix : forall l s k, inv s -> good l s -> current_up s (steps (firstn k l) s).
Proof.
  induction l as [|o l IH]; intros s k I G; [rewrite firstn_nil; apply up_refl|]. destruct k as [|k]; [apply up_refl|].
  destruct G as [P G]. cbn [firstn steps fold_left]. apply (up_trans _ (step o s)); [apply up_step; assumption|].
  apply (IH (step o s) k); [apply inv_step; assumption|exact G].
Qed.
Lemma up_connection : forall c k b s, inv s -> current_up s (connection c k b s).
Proof.
  intros c k b s I. unfold connection. cbv zeta. pose proof (up_prefix _ s k I (good_plan c s I)) as U.
  destruct (nth_error (plan c s) k) as [o|]; [|exact U]. destruct o; try exact U. destruct b; exact U.
Qed.
Lemma up_history : forall h s, inv s -> current_up s (history h s).
Proof.
  induction h as [|[[c k] b] h IH]; intros s I; [apply up_refl|]. cbn [history fold_left fst snd].
  apply (up_trans _ (connection c k b s)); [apply up_connection, I|]. apply IH, inv_connection, I.
Qed.

(* What a step leaves of a complete directory *)
Lemma step_keeps : forall o s n w, inv s -> pre o s -> stage_of n (dirs s) = Some (Complete w) -> o <> ODrop n ->
  stage_of n (dirs (step o s)) = Some (Complete w).
Proof.
  intros o s n w I P C Hd.
  assert (W : forall m f, working s = Some m -> stage_of n (on_stage m f (dirs s)) = Some (Complete w)).
  { intros m f Hm. rewrite stage_on. destruct (Z.eqb_spec n m); [|exact C]. subst. pose proof (i_working s I m _ Hm C). discriminate. }
  destruct o; cbn [step pre] in *; cbv zeta; cbn [dirs]; try exact C; try (apply W; apply P).
  - cbn [stage_of]. destruct (Z.eqb_spec n0 n); [subst; destruct P as [_ [P _]]; congruence|exact C].
  - rewrite stage_on. destruct (Z.eqb_spec n n0); [subst; rewrite C; reflexivity|exact C].
  - rewrite stage_remove. destruct (Z.eqb_spec n n0); [subst; contradiction|exact C].
  - rewrite stage_remove. destruct (Z.eqb_spec n n0); [subst; destruct P as [P _]; pose proof (i_working s I n0 _ P C); discriminate|exact C].
Qed.
Lemma prefix_keeps : forall l s k n w, inv s -> good l s -> stage_of n (dirs s) = Some (Complete w) -> ~ In (ODrop n) (firstn k l) ->
  stage_of n (dirs (steps (firstn k l) s)) = Some (Complete w).
Proof.
  induction l as [|o l IH]; intros s k n w I G C Hd; [rewrite firstn_nil; exact C|].
  destruct k as [|k]; [exact C|]. cbn [firstn steps fold_left] in *. destruct G as [P G].
  apply (IH (step o s) k n w); [apply inv_step; assumption|exact G| |].
  - apply step_keeps; auto. intros ->. apply Hd. left. reflexivity.
  - intros H. apply Hd. right. exact H.
Qed.
(* Drops come after the new backup is current *)
Lemma new_current : forall l s, inv s -> good l s -> In OToCurrent l ->
  exists m, current (steps l s) = Some m /\ forall a, current s = Some a -> a < m.
Proof.
  induction l as [|o l IH]; intros s I G H; [destruct H|]. destruct G as [P G]. cbn [steps fold_left].
  destruct H as [->|H].
  - destruct P as [n [w [Hf Hs]]]. assert (P' : pre OToCurrent s) by (exists n, w; auto).
    pose proof (inv_step _ s I P') as I'. pose proof (up_prefix l (step OToCurrent s) (List.length l) I' G) as U.
    rewrite firstn_all in U. destruct (U n Hf) as [m [Hm L]]. exists m. split; [exact Hm|].
    intros a Ha. destruct (i_current s I a Ha) as [v Hv]. destruct (i_finishing s I n Hf) as [_ [Hne _]].
    assert (a <= n) by (apply (i_newest s I n a); [auto|congruence]). assert (a <> n) by congruence. lia.
  - destruct (IH (step o s) (inv_step _ s I P) G H) as [m [Hm L]]. exists m. split; [exact Hm|].
    intros a Ha. destruct (up_step o s I P a Ha) as [b [Hb Lb]]. specialize (L b Hb). lia.
Qed.
Definition nodrop (o : op) : Prop := match o with ODrop _ => False | _ => True end.
Definition drops_late (c : cfg) (l : list op) : Prop :=
  Forall nodrop l \/ exists a ns, l = a ++ OToCurrent :: map ODrop ns /\ Forall nodrop a /\ (forall n, In n ns -> exists d, c_prune c d n = true).
Lemma late_ending : forall p c n d, Forall nodrop p -> drops_late c (p ++ ending c n d).
Proof.
  intros p c n d F. right.
  exists (p ++ [OMerge n; ODelChanged n; ODelUnchanged n; OToFinishing; OShuffle n]), (filter (fun m => negb (m =? n) && c_prune c (map fst d) m) (map fst d)).
  split; [unfold ending; rewrite <- app_assoc; reflexivity|]. split; [apply Forall_app; split; [exact F|repeat constructor]|].
  intros m Hm. apply filter_In in Hm as [_ Hm]. apply andb_prop in Hm as [_ Hm]. eexists. exact Hm.
Qed.
Lemma late_app : forall c p l, Forall nodrop p -> drops_late c l -> drops_late c (p ++ l).
Proof.
  intros c p l F [G|[a [ns [-> [Fa H]]]]]; [left; apply Forall_app; auto|]. right. exists (p ++ a), ns.
  split; [apply app_assoc|]. split; [apply Forall_app; auto|exact H].
Qed.
Lemma late_fresh : forall c d, drops_late c (fresh c d).
Proof. intros c d. unfold fresh. destruct (c_refuse c); [left; repeat constructor|]. cbv zeta. apply late_ending. repeat constructor. Qed.
Lemma late_plan : forall c s, drops_late c (plan c s).
Proof.
  intros c s. unfold plan. destruct (finishing s); [left; repeat constructor|].
  destruct (working s) as [n|]; [|apply late_fresh]. destruct (stage_of n (dirs s)) as [x|]; [|left; repeat constructor].
  destruct (match x with Scanned _ | Received _ | Half _ => c_delete c | _ => true end).
  - apply late_app; [repeat constructor|apply late_fresh].
  - unfold resumed. destruct (c_refuse c); [left; repeat constructor|].
    destruct x; try (apply (late_ending [OTell WResume]); repeat constructor).
    + apply (late_ending [OTell WResume; OReceive n; OTell WEnd]). repeat constructor.
    + left. repeat constructor.
Qed.
Lemma good_firstn : forall k l s, good l s -> good (firstn k l) s.
Proof. induction k; intros l s G; [exact I|]. destruct l; [exact I|]. destruct G. split; auto. Qed.
Lemma dropped : forall c k s n, inv s -> In (ODrop n) (firstn k (plan c s)) ->
  In OToCurrent (firstn k (plan c s)) /\ exists d, c_prune c d n = true.
Proof.
  intros c k s n _ H. destruct (late_plan c s) as [F|[a [ns [E [Fa Hn]]]]].
  - pose proof (firstn_Forall _ _ k _ F) as F'. rewrite Forall_forall in F'. destruct (F' _ H).
  - rewrite E in *. rewrite firstn_app in *. apply in_app_or in H as [H|H].
    + pose proof (firstn_Forall _ _ k _ Fa) as F'. rewrite Forall_forall in F'. destruct (F' _ H).
    + destruct (k - List.length a)%nat as [|j]; [destruct H|]. cbn [firstn] in *. destruct H as [H|H]; [discriminate|].
      split; [apply in_or_app; right; left; reflexivity|].
      assert (X : In (ODrop n) (map ODrop ns)) by (rewrite <- (firstn_skipn j); apply in_or_app; left; exact H).
      apply in_map_iff in X as [m [Hm Hi]]. injection Hm as ->. apply Hn, Hi.
Qed.
Lemma is_drop : forall l n, {In (ODrop n) l} + {~ In (ODrop n) l}.
Proof.
  intros. apply in_dec. intros x y. decide equality; try apply Z.eq_dec; decide equality.
Qed.
Lemma kept : forall s c k b n w, reachable s -> stage_of n (dirs s) = Some (Complete w) ->
  let s' := connection c k b s in
  stage_of n (dirs s') = Some (Complete w) \/
  ((exists d, c_prune c d n = true) /\ exists m, current s' = Some m /\ complete s' m /\ (forall a, current s = Some a -> a < m)).
Proof.
  intros s c k b n w R C s'. pose proof (inv_reachable s R) as I. pose proof (good_plan c s I) as G.
  assert (D : dirs s' = dirs (steps (firstn k (plan c s)) s) /\ current s' = current (steps (firstn k (plan c s)) s)).
  { unfold s', connection. cbv zeta. destruct (nth_error (plan c s) k) as [[]|]; auto. destruct b; auto. }
  destruct D as [D1 D2]. unfold complete. rewrite D1, D2. destruct (is_drop (firstn k (plan c s)) n) as [H|H].
  - right. destruct (dropped c k s n I H) as [H1 H2]. split; [exact H2|].
    destruct (new_current _ s I (good_firstn k _ s G) H1) as [m [Hm L]]. exists m. split; [exact Hm|]. split; [|exact L].
    apply (i_current _ (good_prefix _ s k I G) m Hm).
  - left. apply prefix_keeps; assumption.
Qed.
Lemma never_back : forall h g n, current (history h empty_store) = Some n ->
  exists m, current (history (h ++ g) empty_store) = Some m /\ n <= m.
Proof.
  intros h g n H. unfold history in *. rewrite fold_left_app. apply (up_history g _ (inv_history h _ inv_empty) n H).
Qed.

(* ---- A connection that nothing stops ------------------------------------------------ *)
Lemma prune_steps : forall l s, working (steps (map ODrop l) s) = working s /\ finishing (steps (map ODrop l) s) = finishing s /\
  current (steps (map ODrop l) s) = current s /\
  (forall m, ~ In m l -> stage_of m (dirs (steps (map ODrop l) s)) = stage_of m (dirs s)).
Proof.
  induction l as [|a l IH]; intros s; [repeat split; auto|]. cbn [map steps fold_left].
  destruct (IH (step (ODrop a) s)) as [H1 [H2 [H3 H4]]]. unfold steps in *.
  split; [rewrite H1; reflexivity|]. split; [rewrite H2; reflexivity|]. split; [rewrite H3; reflexivity|].
  intros m Hm. rewrite H4; [|intros X; apply Hm; right; exact X]. cbn [step dirs]. rewrite stage_remove.
  destruct (Z.eqb_spec m a); [|reflexivity]. destruct Hm. left. congruence.
Qed.
Lemma ending_steps : forall c n w d s, working s = Some n -> finishing s = None -> stage_of n (dirs s) = Some (Received w) ->
  let s' := steps (ending c n d) s in
  working s' = None /\ finishing s' = None /\ current s' = Some n /\ stage_of n (dirs s') = Some (Complete w).
Proof.
  intros c n w d s Hw Hf Hs s'. unfold s', ending. fold (core n). rewrite steps_app.
  destruct (core_steps n w s Hw Hf Hs) as [_ [H1 [H2 [H3 [H4 _]]]]]. unfold prune.
  destruct (prune_steps (filter (fun m => negb (m =? n) && c_prune c (map fst d) m) (map fst d)) (steps (core n) s)) as [P1 [P2 [P3 P4]]].
  rewrite P1, P2, P3. repeat split; auto. rewrite P4; [exact H4|].
  intros X. apply filter_In in X as [_ X]. apply andb_prop in X as [X _]. rewrite Z.eqb_refl in X. discriminate.
Qed.
Lemma fresh_steps : forall c s, inv s -> working s = None -> finishing s = None -> c_refuse c = false ->
  let n := new_bno (dirs s) in let s' := steps (fresh c (dirs s)) s in
  working s' = None /\ finishing s' = None /\ current s' = Some n /\ whole s' n.
Proof.
  intros c s I Hw Hf Hr n s'. unfold s', fresh. rewrite Hr. cbv zeta. fold n. change ([OTell WOk; OLink n; OMkdir n; OScan n; OReceive n; OTell WEnd]) with (start n).
  rewrite steps_app. destruct (start_steps s I Hw Hf) as [_ [H1 [H2 [_ [H4 _]]]]]. apply ending_steps; assumption.
Qed.
(* Where a connection can make a backup current: not refused, no dangling link, no
   working directory left half merged that would be resumed *)
Definition ready (c : cfg) (s : store) : Prop :=
  match finishing s, working s with
  | Some _, _ => True
  | None, None => c_refuse c = false
  | None, Some n => c_refuse c = false /\
      match stage_of n (dirs s) with None => False | Some (Half _) => c_delete c = true | Some _ => True end
  end.
Lemma finished : forall c s, inv s -> ready c s ->
  let s' := steps (plan c s) s in
  working s' = None /\ finishing s' = None /\ exists n, current s' = Some n /\ complete s' n /\ (forall m, listed s m -> m < n).
Proof.
  intros c s I R s'. unfold s', plan. revert R. unfold ready.
  assert (NL : forall n m, working s = Some n \/ finishing s = Some n -> listed s m -> m < n).
  { intros n m H [H1 H2]. pose proof (i_newest s I n m H H1). assert (m <> n) by (intros ->; apply H2; destruct H; [left|right]; assumption). lia. }
  destruct (finishing s) as [n|] eqn:Hf.
  - intros _. destruct (i_finishing s I n Hf) as [Hw [_ [w Hst]]]. cbn [steps fold_left step]. cbv zeta. cbn [working finishing dirs current].
    split; [exact Hw|]. split; [reflexivity|]. exists n. split; [exact Hf|]. split; [|intros m; apply NL; auto].
    exists w. cbn [dirs]. rewrite stage_on, Z.eqb_refl. destruct Hst as [-> | ->]; reflexivity.
  - destruct (working s) as [n|] eqn:Hw.
    + destruct (stage_of n (dirs s)) as [x|] eqn:Hs; [|intros [_ []]]. intros [Hr Hx].
      assert (Hs' : stage_of n (dirs s) <> None) by congruence.
      destruct (match x with Scanned _ | Received _ | Half _ => c_delete c | _ => true end) eqn:Ed.
      * change ([OBreak n (c_left c); ORmdir n; OUnlink]) with (clean n (c_left c)). rewrite steps_app.
        destruct (clean_steps n (c_left c) s Hw Hs') as [_ [H1 [H2 [_ H3]]]]. rewrite <- H3.
        destruct (fresh_steps c (steps (clean n (c_left c)) s) (inv_clean n _ s I Hw Hs') H1 ltac:(congruence) Hr) as [F1 [F2 [F3 F4]]].
        split; [exact F1|]. split; [exact F2|]. eexists. split; [exact F3|]. split; [exists true; exact F4|].
        intros m [L1 L2]. apply new_bno_gt. rewrite H3, stage_remove. destruct (Z.eqb_spec m n); [|exact L1].
        subst. destruct L2. left. exact Hw.
      * unfold resumed. rewrite Hr. destruct x; try discriminate.
        -- cbn [app steps fold_left step]. cbv zeta.
           destruct (ending_steps c n w (dirs s) (mkst (on_stage n receive (dirs s)) (working s) (finishing s) (current s)) Hw Hf) as [E1 [E2 [E3 E4]]].
           { cbn [dirs]. rewrite stage_on, Z.eqb_refl, Hs. reflexivity. }
           split; [exact E1|]. split; [exact E2|]. exists n. split; [exact E3|]. split; [exists w; exact E4|]. intros m. apply NL. auto.
        -- destruct (ending_steps c n w (dirs s) s Hw Hf Hs) as [E1 [E2 [E3 E4]]].
           split; [exact E1|]. split; [exact E2|]. exists n. split; [exact E3|]. split; [exists w; exact E4|]. intros m. apply NL. auto.
        -- congruence.
    + intros Hr. destruct (fresh_steps c s I Hw Hf Hr) as [F1 [F2 [F3 F4]]].
      split; [exact F1|]. split; [exact F2|]. eexists. split; [exact F3|]. split; [exists true; exact F4|].
      intros m [L1 _]. apply new_bno_gt, L1.
Qed.
Lemma success : forall s c k b, reachable s -> ready c s -> (List.length (plan c s) <= k)%nat ->
  let s' := connection c k b s in
  working s' = None /\ finishing s' = None /\ exists n, current s' = Some n /\ complete s' n /\ (forall m, listed s m -> m < n).
Proof.
  intros s c k b R H L s'. unfold s', connection. cbv zeta. rewrite (proj2 (nth_error_None _ _)) by exact L.
  rewrite firstn_all2 by exact L. apply finished; [apply inv_reachable, R|exact H].
Qed.
(* Whatever was left: the third time at the latest, unless it is refused *)
Lemma reach_connection : forall s c k b, reachable s -> reachable (connection c k b s).
Proof. intros s c k b [h ->]. exists (h ++ [(c, k, b)]). unfold history. rewrite fold_left_app. reflexivity. Qed.
Lemma whole_plan_end : forall s c k b, (List.length (plan c s) <= k)%nat -> connection c k b s = steps (plan c s) s.
Proof.
  intros s c k b L. unfold connection. cbv zeta. rewrite (proj2 (nth_error_None _ _)) by exact L. rewrite firstn_all2 by exact L. reflexivity.
Qed.
Lemma two : forall s c1 k1 b1 c2 k2 b2, reachable s -> c_refuse c1 = false -> c_refuse c2 = false ->
  (List.length (plan c1 s) <= k1)%nat -> let s1 := connection c1 k1 b1 s in (List.length (plan c2 s1) <= k2)%nat ->
  let s2 := connection c2 k2 b2 s1 in
  exists n, current s2 = Some n /\ complete s2 n /\ (forall m, listed s m -> m < n).
Proof.
  intros s c1 k1 b1 c2 k2 b2 R R1 R2 L1 s1 L2 s2. pose proof (inv_reachable s R) as I.
  pose proof (reach_connection s c1 k1 b1 R) as Q. fold s1 in Q. pose proof (inv_reachable _ Q) as I1.
  pose proof (inv_connection c2 k2 b2 s1 I1) as I2. fold s2 in I2.
  (* If the first got there, the second only goes up *)
  assert (A : ready c1 s -> exists n, current s2 = Some n /\ complete s2 n /\ (forall m, listed s m -> m < n)).
  { intros H. destruct (success s c1 k1 b1 R H L1) as [_ [_ [n [Hn [_ Hl]]]]]. fold s1 in Hn.
    destruct (up_connection c2 k2 b2 s1 I1 n Hn) as [m [Hm L]]. fold s2 in Hm. exists m. split; [exact Hm|].
    split; [apply (i_current _ I2 m Hm)|]. intros a Ha. specialize (Hl a Ha). lia. }
  assert (B : ready c2 s1 -> (forall m, listed s m -> listed s1 m) -> exists n, current s2 = Some n /\ complete s2 n /\ (forall m, listed s m -> m < n)).
  { intros H K. destruct (success s1 c2 k2 b2 Q H L2) as [_ [_ [n [Hn [Hc Hl]]]]]. exists n. split; [exact Hn|]. split; [exact Hc|]. intros m Hm. apply Hl, K, Hm. }
  assert (E : s1 = steps (plan c1 s) s) by (apply whole_plan_end, L1).
  unfold ready in A at 1. destruct (finishing s) as [n|] eqn:Hf; [apply A; exact Logic.I|].
  destruct (working s) as [n|] eqn:Hw; [|apply A, R1].
  destruct (stage_of n (dirs s)) as [x|] eqn:Hs.
  - destruct (half x) eqn:Hh; [|apply A; split; [exact R1|]; destruct x; auto; discriminate].
    destruct x; try discriminate. destruct (c_delete c1) eqn:Hd; [apply A; auto|].
    (* half merged, and resumed: what is left can be merged the next time *)
    assert (E1 : s1 = step (OEmpty n) s).
    { rewrite E. unfold plan. rewrite Hf, Hw, Hs, Hd. unfold resumed. rewrite R1. reflexivity. }
    apply B.
    + unfold ready. rewrite E1. cbn [step]. cbv zeta. cbn [finishing working dirs]. rewrite Hf, Hw. split; [exact R2|].
      rewrite stage_on, Z.eqb_refl, Hs. exact Logic.I.
    + intros m [M1 M2]. rewrite E1. cbn [step]. cbv zeta. unfold listed, hidden. cbn [finishing working dirs]. rewrite stage_on. split.
      * destruct (m =? n); [|exact M1]. destruct (stage_of m (dirs s)); [discriminate|exact M1].
      * exact M2.
  - assert (E1 : s1 = step OUnlink s) by (rewrite E; unfold plan; rewrite Hf, Hw, Hs; reflexivity).
    apply B.
    + unfold ready. rewrite E1. cbn [step finishing working dirs]. rewrite Hf. exact R2.
    + intros m [M1 M2]. rewrite E1. cbn [step]. unfold listed, hidden. cbn [finishing working dirs]. split; [exact M1|].
      intros [X|X]; [discriminate|]. apply M2. right. exact X.
Qed.

(* ---- What the client is told -------------------------------------------------------- *)
Lemma told_end : forall s c k, reachable s -> nth_error (plan c s) k = Some (OTell WEnd) ->
  exists n w, working (steps (firstn k (plan c s)) s) = Some n /\ stage_of n (dirs (steps (firstn k (plan c s)) s)) = Some (Received w).
Proof.
  intros s c k R E. pose proof (inv_reachable s R) as I. pose proof (good_plan c s I) as G.
  (* the step after it is the merge *)
  assert (N : forall n d, ~ In (OTell WEnd) (ending c n d)).
  { intros n d H. unfold ending in H. apply in_app_or in H as [H|H].
    - cbn in H. repeat destruct H as [H|H]; try discriminate; contradiction.
    - unfold prune in H. apply in_map_iff in H as [m [H _]]. discriminate. }
  assert (T : forall d p n k', (forall i, nth_error p i <> Some (OTell WEnd)) -> nth_error (p ++ OTell WEnd :: ending c n d) k' = Some (OTell WEnd) -> k' = List.length p).
  { clear -N. induction p as [|o p IH]; intros n k' Hp E.
    - cbn [app] in E. destruct k' as [|k']; [reflexivity|]. cbn [nth_error] in E. apply nth_error_In in E. destruct (N n d E).
    - destruct k' as [|k']; [destruct (Hp 0%nat E)|]. cbn [List.length]. f_equal. apply (IH n k'); [intros i; apply (Hp (Datatypes.S i))|exact E]. }
  assert (M : forall d p n, plan c s = p ++ OTell WEnd :: ending c n d -> (forall i, nth_error p i <> Some (OTell WEnd)) ->
    exists w, working (steps (firstn k (plan c s)) s) = Some n /\ stage_of n (dirs (steps (firstn k (plan c s)) s)) = Some (Received w)).
  { intros d p n Ep Hp. rewrite Ep in E. pose proof (T d p n k Hp E) as Ek.
    assert (E' : nth_error (plan c s) (Datatypes.S k) = Some (OMerge n)).
    { rewrite Ep, nth_error_app2 by lia. rewrite Ek. replace (Datatypes.S (List.length p) - List.length p)%nat with 1%nat by lia. reflexivity. }
    pose proof (good_nth _ _ _ _ G E') as [P1 [w P2]].
    assert (ES : steps (firstn (Datatypes.S k) (plan c s)) s = steps (firstn k (plan c s)) s).
    { assert (X : forall (l : list op) j o, nth_error l j = Some o -> firstn (Datatypes.S j) l = firstn j l ++ [o]).
      { clear. induction l as [|a l IH]; intros j o E; [destruct j; discriminate|]. destruct j as [|j]; cbn [nth_error] in E; [injection E as ->; reflexivity|].
        change (a :: firstn (Datatypes.S j) l = a :: firstn j l ++ [o]). f_equal. apply IH, E. }
      rewrite (X (plan c s) k (OTell WEnd)) by (rewrite Ep; exact E). rewrite steps_app. reflexivity. }
    rewrite ES in *. exists w. auto. }
  assert (FR : forall d, ~ In (OTell WEnd) (fresh c d) \/ fresh c d = [OTell WOk; OLink (new_bno d); OMkdir (new_bno d); OScan (new_bno d); OReceive (new_bno d)] ++ OTell WEnd :: ending c (new_bno d) d).
  { intros d. unfold fresh. destruct (c_refuse c); [left; cbn; intuition discriminate|right; reflexivity]. }
  assert (ND : forall l, Forall (fun o => o <> OTell WEnd) l -> forall i, nth_error l i <> Some (OTell WEnd)).
  { intros l F i H. apply nth_error_In in H. rewrite Forall_forall in F. apply (F _ H eq_refl). }
  revert E M. unfold plan. destruct (finishing s) as [n|] eqn:Hf.
  { intros E _. apply nth_error_In in E. cbn in E. repeat destruct E as [E|E]; try discriminate; contradiction. }
  destruct (working s) as [n|] eqn:Hw.
  - destruct (stage_of n (dirs s)) as [x|] eqn:Hs; [|intros E _; apply nth_error_In in E; cbn in E; intuition discriminate].
    destruct (match x with Scanned _ | Received _ | Half _ => c_delete c | _ => true end) eqn:Ed.
    + intros E M. destruct (FR (remove n (dirs s))) as [F|F].
      * apply nth_error_In in E. apply in_app_or in E as [E|E]; [cbn in E; intuition discriminate|contradiction].
      * eexists. apply (M (remove n (dirs s)) ([OBreak n (c_left c); ORmdir n; OUnlink] ++ [OTell WOk; OLink (new_bno (remove n (dirs s))); OMkdir (new_bno (remove n (dirs s))); OScan (new_bno (remove n (dirs s))); OReceive (new_bno (remove n (dirs s)))]) (new_bno (remove n (dirs s)))).
        -- rewrite F. reflexivity.
        -- apply ND. repeat constructor; discriminate.
    + unfold resumed. destruct (c_refuse c); [intros E _; apply nth_error_In in E; cbn in E; intuition discriminate|].
      destruct x; try discriminate; intros E M.
      * eexists. apply (M (dirs s) [OTell WResume; OReceive n] n); [reflexivity|]. apply ND. repeat constructor; discriminate.
      * apply nth_error_In in E. destruct E as [E|E]; [discriminate|]. destruct (N _ _ E).
      * apply nth_error_In in E. cbn in E. intuition discriminate.
  - intros E M. destruct (FR (dirs s)) as [F|F].
    + apply nth_error_In in E. contradiction.
    + eexists. apply (M (dirs s) [OTell WOk; OLink (new_bno (dirs s)); OMkdir (new_bno (dirs s)); OScan (new_bno (dirs s)); OReceive (new_bno (dirs s))] (new_bno (dirs s))); [exact F|].
      apply ND. repeat constructor; discriminate.
Qed.
Lemma told_whole : forall h c k, calm h empty_store -> let s := history h empty_store in
  nth_error (plan c s) k = Some (OTell WEnd) ->
  exists n, working (steps (firstn k (plan c s)) s) = Some n /\ stage_of n (dirs (steps (firstn k (plan c s)) s)) = Some (Received true).
Proof.
  intros h c k C s E. assert (R : reachable s) by (exists h; reflexivity).
  destruct (told_end s c k R E) as [n [w [H1 H2]]]. exists n. split; [exact H1|].
  assert (F : fine s) by (apply fine_history; [split; intros m x; discriminate|exact C]).
  assert (B : ~ bad_moment c k s) by (intros [[m X]|[m X]]; congruence).
  destruct (fine_prefix c k s F B) as [W _]. specialize (W n _ H2). cbn in W. subst. exact H2.
Qed.

(* ---- What does not hold --------------------------------------------------------------- *)
Definition usual : cfg := mkcfg false false (fun _ _ => false) RNothing.
Definition other_includes (r : remains) : cfg := mkcfg true false (fun _ _ => false) r.
(* Stopped between the two removals of phase 3; then two connections like any other *)
Definition cut_merge : list (cfg * nat * bool) := [(usual, 8%nat, false); (usual, 100%nat, false); (usual, 100%nat, false)].
(* Stopped while the working directory was deleted; then a connection like any other *)
Definition cut_delete : list (cfg * nat * bool) := [(usual, 5%nat, false); (other_includes RAll, 1%nat, false); (usual, 100%nat, false)].

(* ---- The request ------------------------------------------------------------------------ *)
Definition timed (q : req) : Prop := starts_with (q_text q) (str "backupphase1timed") = true.
Definition only_check (q : req) : Prop := starts_with (q_text q) (str "backupphase1timedcheck") = true.
Definition allowed (q : req) : Prop :=
  q_super q = false /\
  (timed q -> q_timer q = 0 /\ ~ only_check q) /\ (~ timed q -> q_force q = true) /\
  (q_seeds q = true -> get_new_bno (q_list q) = 1).
Lemma new_bno_nonneg : forall l, 0 <= get_new_bno l.
Proof. intros [i|]; cbn; [apply Z.mod_pos_bound|]; reflexivity || discriminate. Qed.
Lemma goes_on : forall q n, (snd (fst (run_backup_start q)) = Some n <-> allowed q /\ n = get_new_bno (q_list q)) /\
  (snd (fst (run_backup_start q)) = Some n -> fst (fst (run_backup_start q)) = AGen (okstr (q_resume q) (q_compression q))).
Proof.
  intros q n. unfold allowed, timed, only_check, run_backup_start.
  pose proof (new_bno_nonneg (q_list q)) as B. apply Z.ltb_ge in B. rewrite B.
  destruct (q_super q); [cbn; intuition discriminate|].
  destruct (starts_with (q_text q) (str "backupphase1timed")) eqn:Et; destruct (q_seeds q); destruct (Z.eqb_spec (get_new_bno (q_list q)) 1);
    destruct (starts_with (q_text q) (str "backupphase1timedcheck")) eqn:Ec; destruct (q_force q);
    try (destruct (Z.ltb_spec (q_timer q) 0); [|destruct (Z.eqb_spec (q_timer q) 0)]);
    cbn [fst snd andb negb]; intuition (try congruence; try lia; try discriminate).
Qed.
Lemma go_text : forall r z, is_int z -> okstr r z = str (if r then "resume" else "ok") ++ [58] ++ fmt_d z.
Proof.
  intros r z H. apply cap_all. pose proof (fmt_d_zl z). unfold zl in *. rewrite !app_length. destruct r; cbn [List.length str]; cbn; lia.
Qed.
Lemma read_go : forall before r z, is_int z -> check_answer before (okstr r z) = CBackup r z.
Proof.
  intros before r z H. rewrite (go_text r z H). pose proof (fmt_d_ne z H) as N. pose proof (atoi_fmt z H) as A.
  destruct (fmt_d z) as [|c t] eqn:E; [contradiction|].
  unfold check_answer. destruct r.
  - change (str (if true then "resume" else "ok") ++ [58] ++ c :: t) with (114 :: 101 :: 115 :: 117 :: 109 :: 101 :: 58 :: c :: t).
    cbn [beqb str]. cbn -[atoi Z.of_nat Z.ltb]. rewrite A. match goal with |- context [?a <? ?b] => destruct (Z.ltb_spec a b); [reflexivity|lia] end.
  - change (str (if false then "resume" else "ok") ++ [58] ++ c :: t) with (111 :: 107 :: 58 :: c :: t).
    cbn [beqb str]. cbn -[atoi Z.of_nat Z.ltb]. rewrite A. match goal with |- context [?a <? ?b] => destruct (Z.ltb_spec a b); [reflexivity|lia] end.
Qed.
Lemma agree : forall q before a o t, is_int (q_compression q) -> run_backup_start q = (AGen a, o, t) ->
  (o <> None <-> exists r z, check_answer before a = CBackup r z) /\
  (o <> None -> check_answer before a = CBackup (q_resume q) (q_compression q)).
Proof.
  intros q before a o t Hc E.
  destruct o as [n|].
  - pose proof (goes_on q n) as [_ G]. rewrite E in G. specialize (G eq_refl). cbn [fst] in G. injection G as ->.
    rewrite read_go by exact Hc. split; [split; [eauto|discriminate]|reflexivity].
  - split; [|intros X; contradiction]. split; [intros X; contradiction|].
    intros [r [z Hz]]. exfalso. revert E Hz. unfold run_backup_start.
    destruct (q_super q); [intros E; injection E as <- <-; vm_compute; discriminate|].
    destruct (starts_with (q_text q) (str "backupphase1timed")).
    + destruct (q_timer q <? 0); [discriminate|]. destruct (negb (q_timer q =? 0)); [intros E; injection E as <- <-; vm_compute; discriminate|].
      destruct (starts_with (q_text q) (str "backupphase1timedcheck")); [intros E; injection E as <- <-; vm_compute; discriminate|].
      destruct (get_new_bno (q_list q) <? 0); [discriminate|]. destruct (q_seeds q && negb (get_new_bno (q_list q) =? 1)); discriminate.
    + destruct (negb (q_force q)); [intros E; injection E as <- <-; vm_compute; discriminate|].
      destruct (get_new_bno (q_list q) <? 0); [discriminate|]. destruct (q_seeds q && negb (get_new_bno (q_list q) =? 1)); discriminate.
Qed.

(* Who is notified of a backup that was allowed; of one that was not, a success is *)
Lemma notified : forall q d ql l wo co w c, allowed q ->
  backup_note q d ql l wo co w c =
  if negb (d =? 0) then (if ql && l then None else Some NFailure)
  else if (wo && (0 <? w)) || (co && (0 <? c)) || (negb wo && negb co) then Some NSuccess else None.
Proof.
  intros q d ql l wo co w c A. pose proof (goes_on q (get_new_bno (q_list q))) as [G1 G2].
  assert (E : snd (fst (run_backup_start q)) = Some (get_new_bno (q_list q))) by (apply G1; auto).
  specialize (G2 E). unfold backup_note, run_backup_ret.
  assert (T : snd (run_backup_start q) = 0).
  { destruct A as [A1 [A2 [A3 A4]]]. revert E. unfold run_backup_start, timed, only_check in *. rewrite A1.
    destruct (starts_with (q_text q) (str "backupphase1timed")) eqn:Et.
    - destruct (A2 eq_refl) as [-> Hc]. cbn [Z.ltb Z.compare Z.eqb negb].
      destruct (starts_with (q_text q) (str "backupphase1timedcheck")); [destruct (Hc eq_refl)|].
      destruct (get_new_bno (q_list q) <? 0); [discriminate|]. destruct (q_seeds q && negb (get_new_bno (q_list q) =? 1)); [discriminate|reflexivity].
    - rewrite (A3 ltac:(discriminate)). cbn [negb]. destruct (get_new_bno (q_list q) <? 0); [discriminate|]. destruct (q_seeds q && negb (get_new_bno (q_list q) =? 1)); [discriminate|reflexivity]. }
  destruct (run_backup_start q) as [[a o] t]. cbn [fst snd] in *. subst. cbn [Z.ltb Z.eqb Z.compare].
  unfold notification. destruct (Z.eqb_spec d 0); cbn [negb andb]; [reflexivity|]. destruct (ql && l); reflexivity.
Qed.
(* Nobody hears of a timed request outside its hours *)
Lemma not_due : forall q d ql l wo co w c, q_super q = false -> timed q -> 0 < q_timer q -> backup_note q d ql l wo co w c = None.
Proof.
  intros q d ql l wo co w c Hs Ht Hq. unfold backup_note, run_backup_ret, run_backup_start, timed in *. rewrite Hs, Ht.
  destruct (Z.ltb_spec (q_timer q) 0); [lia|]. destruct (Z.eqb_spec (q_timer q) 0); [lia|]. cbn [negb Z.eqb andb].
  destruct (Z.ltb_spec (q_timer q) 0); [lia|]. destruct (Z.eqb_spec (q_timer q) 0); [lia|]. reflexivity.
Qed.
