(* C46: where a restore makes and removes entries, writes data and sets
   attributes. *)
From Verif Require Import Bytes PathcmpModel PathcmpProofs CmdModel RestoreModel AuthModel RcliModel.

(* ---------- what is claimed ---------- *)
(* A name that an entry of a directory can have. *)
Definition proper (c : bytes) : Prop := c <> [] /\ cstr c /\ ~ In slash c /\ c <> [dot] /\ c <> [dot; dot].
(* A file system: the root is a directory, and whatever exists has a proper name
   and is in a directory. *)
Definition wf (fs : fsys) : Prop := fs [] = Some ODir /\
  forall l c o, fs (l ++ [c]) = Some o -> fs l = Some ODir /\ proper c.
(* l is d, or below d. *)
Definition inside (d l : loc) : Prop := exists e, l = d ++ e.
(* Every entry made or removed is in the directory d or in one below it. *)
Definition entries_inside (d : loc) (log : list event) : Prop := forall p c, In (EName p c) log -> inside d p.

(* ---------- following a path, without the limit on links ---------- *)
Definition ordinary (c : bytes) : Prop := c <> [] /\ c <> [dot] /\ c <> [dot; dot].
Inductive walks (fs : fsys) (follow : bool) : loc -> list bytes -> option loc -> Prop :=
| w_nil : forall cur, walks fs follow cur [] (Some cur)
| w_gone : forall cur c r, fs cur = None -> walks fs follow cur (c :: r) None
| w_stay : forall cur c r x, fs cur = Some ODir -> c = [] \/ c = [dot] -> walks fs follow cur r x -> walks fs follow cur (c :: r) x
| w_up : forall cur r x, fs cur = Some ODir -> walks fs follow (removelast cur) r x -> walks fs follow cur ([dot; dot] :: r) x
| w_none : forall cur c r, fs cur = Some ODir -> ordinary c -> fs (cur ++ [c]) = None -> walks fs follow cur (c :: r) None
| w_empty : forall cur c r, fs cur = Some ODir -> ordinary c -> fs (cur ++ [c]) = Some (OLnk []) -> follow = true \/ r <> [] ->
    walks fs follow cur (c :: r) None
| w_link : forall cur c r t x, fs cur = Some ODir -> ordinary c -> fs (cur ++ [c]) = Some (OLnk t) -> follow = true \/ r <> [] -> t <> [] ->
    walks fs follow (if hd0 t =? slash then [] else cur) (comps t ++ r) x -> walks fs follow cur (c :: r) x
| w_stop : forall cur c t, fs cur = Some ODir -> ordinary c -> fs (cur ++ [c]) = Some (OLnk t) -> follow = false ->
    walks fs follow cur [c] (Some (cur ++ [c]))
| w_go : forall cur c r o x, fs cur = Some ODir -> ordinary c -> fs (cur ++ [c]) = Some o -> (forall t, o <> OLnk t) ->
    walks fs follow (cur ++ [c]) r x -> walks fs follow cur (c :: r) x.

Lemma ordinary_b : forall c, beqb c [] || is_dot c = false -> is_dotdot c = false -> ordinary c.
Proof.
  intros c H H2. apply orb_false_iff in H. destruct H as [A B]. unfold is_dot, is_dotdot in *.
  apply beqb_neq in A, B, H2. split; [exact A|split; assumption].
Qed.
Lemma walk_sound : forall n fs follow cs cur,
  (forall l, walk n fs follow cur cs = WOk l -> walks fs follow cur cs (Some l)) /\
  (walk n fs follow cur cs = WNoent -> walks fs follow cur cs None).
Proof.
  induction n as [|n IHn]; intros fs follow; induction cs as [|c r IH]; intros cur; cbn [walk];
    try (split; [intros l H; injection H as <-; constructor|discriminate]).
  - destruct (fs cur) as [[| |]|] eqn:Ec; try (split; [intros; discriminate|]; try discriminate; intros _; apply w_gone; exact Ec).
    destruct (beqb c [] || is_dot c) eqn:D1.
    { assert (D : c = [] \/ c = [dot]).
      { apply orb_true_iff in D1. destruct D1 as [D|D]; apply beqb_eq in D; auto. }
      split; [intros l H|intros H]; (apply w_stay; [exact Ec|exact D|apply IH; exact H]). }
    destruct (is_dotdot c) eqn:D2.
    { apply beqb_eq in D2. subst c. split; [intros l H|intros H]; (apply w_up; [exact Ec|apply IH; exact H]). }
    pose proof (ordinary_b c D1 D2) as O.
    destruct (fs (cur ++ [c])) as [[|i|t]|] eqn:E2.
    + split; [intros l H|intros H]; (eapply w_go; [exact Ec|exact O|exact E2|discriminate|apply IH; exact H]).
    + split; [intros l H|intros H]; (eapply w_go; [exact Ec|exact O|exact E2|discriminate|apply IH; exact H]).
    + destruct (follow || match r with [] => false | _ => true end) eqn:F.
      * split; discriminate.
      * apply orb_false_iff in F. destruct F as [-> F]. destruct r; [|discriminate].
        split; [intros l H; injection H as <-; eapply w_stop; eauto|discriminate].
    + split; [discriminate|]. intros _. apply w_none; assumption.
  - destruct (fs cur) as [[| |]|] eqn:Ec; try (split; [intros; discriminate|]; try discriminate; intros _; apply w_gone; exact Ec).
    destruct (beqb c [] || is_dot c) eqn:D1.
    { assert (D : c = [] \/ c = [dot]).
      { apply orb_true_iff in D1. destruct D1 as [D|D]; apply beqb_eq in D; auto. }
      split; [intros l H|intros H]; (apply w_stay; [exact Ec|exact D|apply IH; exact H]). }
    destruct (is_dotdot c) eqn:D2.
    { apply beqb_eq in D2. subst c. split; [intros l H|intros H]; (apply w_up; [exact Ec|apply IH; exact H]). }
    pose proof (ordinary_b c D1 D2) as O.
    destruct (fs (cur ++ [c])) as [[|i|t]|] eqn:E2.
    + split; [intros l H|intros H]; (eapply w_go; [exact Ec|exact O|exact E2|discriminate|apply IH; exact H]).
    + split; [intros l H|intros H]; (eapply w_go; [exact Ec|exact O|exact E2|discriminate|apply IH; exact H]).
    + destruct (follow || match r with [] => false | _ => true end) eqn:F.
      * assert (F' : follow = true \/ r <> []).
        { apply orb_true_iff in F. destruct F as [F|F]; [auto|right]. destruct r; [discriminate|congruence]. }
        destruct t as [|t0 t]; [split; [discriminate|intros _; apply w_empty; assumption]|].
        assert (T : t0 :: t <> []) by discriminate.
        split; [intros l H|intros H]; (eapply w_link; [exact Ec|exact O|exact E2|exact F'|exact T|apply IHn; exact H]).
      * apply orb_false_iff in F. destruct F as [-> F]. destruct r; [|discriminate].
        split; [intros l H; injection H as <-; eapply w_stop; eauto|discriminate].
    + split; [discriminate|]. intros _. apply w_none; assumption.
Qed.

Lemma walks_det : forall fs follow cur cs x, walks fs follow cur cs x -> forall y, walks fs follow cur cs y -> x = y.
Proof.
  intros fs follow cur cs x H.
  induction H as [cur|cur c r E|cur c r x E D H IH|cur r x E H IH|cur c r E O E2|cur c r E O E2 F|cur c r t x E O E2 F T H IH|cur c t E O E2 F|cur c r o x E O E2 NL H IH];
    intros y Y; inversion Y; subst; try reflexivity; try congruence;
    try (match goal with O : ordinary _, D : _ = [] \/ _ = [dot] |- _ => destruct O as [O1 [O2 O3]], D; congruence end);
    try (match goal with O : ordinary [dot; dot] |- _ => destruct O as [O1 [O2 O3]]; congruence end);
    try (match goal with D : [dot; dot] = [] \/ [dot; dot] = [dot] |- _ => destruct D; discriminate end);
    try (match goal with F : _ = true \/ [] <> [] |- _ => destruct F; congruence end);
    try (match goal with N : forall t, ?o <> OLnk t, A : ?fs ?l = Some ?o, B : ?fs ?l = Some (OLnk ?t) |- _ => rewrite A in B; injection B as B; exfalso; exact (N _ B) end);
    try (apply IH; assumption).
  - assert (t0 = t) by congruence. subst. apply IH. assumption.
Qed.

(* Following two parts of a path one after the other. *)
Lemma walks_app : forall fs follow cur cs x, walks fs follow cur cs x -> forall a b, cs = a ++ b -> b <> [] ->
  (walks fs true cur a None /\ x = None) \/ exists l, walks fs true cur a (Some l) /\ walks fs follow l b x.
Proof.
  intros fs follow cur cs x H.
  induction H as [cur|cur c r E|cur c r x E D H IH|cur r x E H IH|cur c r E O E2|cur c r E O E2 F|cur c r t x E O E2 F T H IH|cur c t E O E2 F|cur c r o x E O E2 NL H IH];
    intros a b S B.
  - destruct a; [cbn in S; subst; congruence|discriminate].
  - destruct a as [|a0 a]; cbn in S; [right; exists cur; split; [constructor|subst b; apply w_gone; exact E]|].
    injection S as <- ->. left. split; [apply w_gone; exact E|reflexivity].
  - destruct a as [|a0 a]; cbn in S; [right; exists cur; split; [constructor|subst b; apply w_stay; assumption]|].
    injection S as <- S. destruct (IH _ _ S B) as [[I1 I2]|[l [I1 I2]]]; [left; split; [apply w_stay; assumption|exact I2]|].
    right. exists l. split; [apply w_stay; assumption|exact I2].
  - destruct a as [|a0 a]; cbn in S; [right; exists cur; split; [constructor|subst b; apply w_up; assumption]|].
    injection S as <- S. destruct (IH _ _ S B) as [[I1 I2]|[l [I1 I2]]]; [left; split; [apply w_up; assumption|exact I2]|].
    right. exists l. split; [apply w_up; assumption|exact I2].
  - destruct a as [|a0 a]; cbn in S; [right; exists cur; split; [constructor|subst b; apply w_none; assumption]|].
    injection S as <- ->. left. split; [apply w_none; assumption|reflexivity].
  - destruct a as [|a0 a]; cbn in S; [right; exists cur; split; [constructor|subst b; apply w_empty; assumption]|].
    injection S as <- ->. left. split; [apply w_empty; auto|reflexivity].
  - destruct a as [|a0 a]; cbn in S; [right; exists cur; split; [constructor|subst b; eapply w_link; eassumption]|].
    injection S as <- S. subst r.
    destruct (IH (comps t ++ a) b) as [[I1 I2]|[l [I1 I2]]]; [apply app_assoc|exact B| |].
    + left. split; [eapply w_link; eauto|exact I2].
    + right. exists l. split; [eapply w_link; eauto|exact I2].
  - destruct a as [|a0 a]; cbn in S; [right; exists cur; split; [constructor|subst b; eapply w_stop; eassumption]|].
    injection S as <- S. destruct a; [cbn in S; congruence|discriminate].
  - destruct a as [|a0 a]; cbn in S; [right; exists cur; split; [constructor|subst b; eapply w_go; eassumption]|].
    injection S as <- S. destruct (IH _ _ S B) as [[I1 I2]|[l [I1 I2]]]; [left; split; [eapply w_go; eauto|exact I2]|].
    right. exists l. split; [eapply w_go; eauto|exact I2].
Qed.
(* What is found when links are followed is not a link. *)
Lemma walks_exists : forall fs cur cs l, wf fs -> walks fs true cur cs (Some l) -> (exists o, fs cur = Some o /\ forall t, o <> OLnk t) ->
  exists o, fs l = Some o /\ forall t, o <> OLnk t.
Proof.
  intros fs cur cs l [W0 W] H. remember (Some l) as x eqn:X. revert l X.
  induction H as [cur|cur c r E|cur c r x E D H IH|cur r x E H IH|cur c r E O E2|cur c r E O E2 F|cur c r t x E O E2 F T H IH|cur c t E O E2 F|cur c r o x E O E2 NL H IH];
    intros l X P; try discriminate.
  - injection X as <-. exact P.
  - apply IH; [exact X|exact P].
  - apply IH; [exact X|]. exists ODir. split; [|discriminate].
    destruct cur as [|c0 cur]; [exact W0|]. destruct (@exists_last _ (c0 :: cur)) as [cur' [y Y]]; [discriminate|].
    rewrite Y in *. rewrite removelast_last. apply (W _ _ _ E).
  - apply IH; [exact X|]. exists ODir. split; [|discriminate]. destruct (hd0 t =? slash); assumption.
  - apply IH; [exact X|]. exists o. auto.
Qed.

(* ---------- names and paths ---------- *)
Lemma comps_eq : forall p, comps p = components p.
Proof. induction p as [|c p IH]; [reflexivity|]. cbn. rewrite IH. reflexivity. Qed.
Lemma comps_nonnil : forall p, comps p <> [].
Proof. intros p. rewrite comps_eq. apply components_nonnil. Qed.
Lemma comps_slash : forall a b, comps (a ++ slash :: b) = comps a ++ comps b.
Proof.
  induction a as [|c a IH]; intros b; [reflexivity|]. cbn [app comps]. destruct (c =? slash); [rewrite IH; reflexivity|].
  rewrite IH. pose proof (comps_nonnil a) as N. destruct (comps a) as [|w ws]; [congruence|reflexivity].
Qed.
Lemma comps_one : forall x, ~ In slash x -> comps x = [x].
Proof.
  induction x as [|c x IH]; intros N; [reflexivity|]. cbn [comps]. destruct (c =? slash) eqn:E.
  - apply Z.eqb_eq in E. exfalso. apply N. left. exact E.
  - rewrite IH; [reflexivity|]. intros H. apply N. right. exact H.
Qed.
Lemma comps_noslash : forall p c, In c (comps p) -> ~ In slash c.
Proof.
  induction p as [|b p IH]; intros c H; cbn [comps] in H.
  - destruct H as [<-|[]]. intros [].
  - destruct (b =? slash) eqn:E.
    + destruct H as [<-|H]; [intros []|apply IH; exact H].
    + destruct (comps p) as [|w ws]; [destruct H as [<-|[]]|destruct H as [<-|H]].
      * intros [X|[]]. apply Z.eqb_neq in E. congruence.
      * intros [X|X]; [apply Z.eqb_neq in E; congruence|]. apply (IH w); [left; reflexivity|exact X].
      * apply IH. right. exact H.
Qed.
Lemma comps_cstr : forall p c, cstr p -> In c (comps p) -> cstr c.
Proof.
  induction p as [|b p IH]; intros c C H; cbn [comps] in H.
  - destruct H as [<-|[]]. constructor.
  - inversion C as [|? ? Cb Cp]; subst. destruct (b =? slash) eqn:E.
    + destruct H as [<-|H]; [constructor|apply IH; assumption].
    + destruct (comps p) as [|w ws]; [destruct H as [<-|[]]|destruct H as [<-|H]].
      * constructor; [exact Cb|constructor].
      * constructor; [exact Cb|]. apply IH; [exact Cp|left; reflexivity].
      * apply IH; [exact Cp|right; exact H].
Qed.
Lemma join_comps : forall p, join (comps p) = p.
Proof.
  induction p as [|c p IH]; [reflexivity|]. cbn [comps]. destruct (c =? slash) eqn:E.
  - apply Z.eqb_eq in E. subst c. cbn [join]. destruct (comps p) eqn:X; [exfalso; eapply comps_nonnil; exact X|]. rewrite IH. reflexivity.
  - destruct (comps p) as [|w ws] eqn:X; [exfalso; eapply comps_nonnil; exact X|]. rewrite <- IH. destruct ws; reflexivity.
Qed.
Lemma comps_join : forall cs, cs <> [] -> Forall (fun c => ~ In slash c) cs -> comps (join cs) = cs.
Proof.
  induction cs as [|c cs IH]; intros N F; [congruence|]. inversion F as [|? ? F1 F2]; subst. destruct cs as [|d cs].
  - apply comps_one. exact F1.
  - change (join (c :: d :: cs)) with (c ++ slash :: join (d :: cs)). rewrite comps_slash, IH, comps_one; auto. discriminate.
Qed.
Lemma join_app : forall a b, a <> [] -> b <> [] -> join (a ++ b) = join a ++ slash :: join b.
Proof.
  induction a as [|c a IH]; intros b A B; [congruence|]. destruct a as [|d a].
  - destruct b; [congruence|reflexivity].
  - change (join ((c :: d :: a) ++ b)) with (c ++ slash :: join ((d :: a) ++ b)).
    change (join (c :: d :: a)) with (c ++ slash :: join (d :: a)). rewrite IH; [|discriminate|exact B]. rewrite <- app_assoc. reflexivity.
Qed.
Lemma wf_names : forall fs l o, wf fs -> fs l = Some o -> Forall proper l.
Proof.
  intros fs l o [W0 W]. revert o. induction l as [|c l IH] using rev_ind; intros o E; [constructor|].
  destruct (W _ _ _ E) as [D P]. apply Forall_app. split; [eapply IH; exact D|constructor; [exact P|constructor]].
Qed.
Lemma wf_above : forall fs l e o, wf fs -> fs (l ++ e) = Some o -> e <> [] -> fs l = Some ODir.
Proof.
  intros fs l e o W. revert o. induction e as [|c e IH] using rev_ind; intros o E N; [congruence|].
  rewrite app_assoc in E. destruct (proj2 W _ _ _ E) as [D _]. destruct e as [|c' e]; [rewrite app_nil_r in D; exact D|].
  eapply IH; [exact D|discriminate].
Qed.
Lemma proper_ordinary : forall c, proper c -> ordinary c.
Proof. intros c [A [B [C [D E]]]]. split; [exact A|split; assumption]. Qed.
(* A real location is found by its names. *)
Lemma walks_real : forall fs follow e l, wf fs -> fs (l ++ e) = Some ODir -> walks fs follow l e (Some (l ++ e)).
Proof.
  intros fs follow e. induction e as [|c e IH]; intros l W E; [rewrite app_nil_r; constructor|].
  assert (E1 : fs (l ++ [c]) = Some ODir).
  { destruct e as [|d e]; [exact E|]. eapply wf_above; [exact W|rewrite <- app_assoc; exact E|discriminate]. }
  destruct (proj2 W _ _ _ E1) as [D P]. eapply w_go; [exact D|apply proper_ordinary; exact P|exact E1|discriminate|].
  replace (l ++ c :: e) with ((l ++ [c]) ++ e) in * by (rewrite <- app_assoc; reflexivity). apply IH; assumption.
Qed.
Lemma walks_root : forall fs follow cs x, wf fs -> walks fs follow [] ([] :: cs) x <-> walks fs follow [] cs x.
Proof.
  intros fs follow cs x [W0 W]. split; intros H; [|apply w_stay; auto].
  inversion H; subst; try congruence; try assumption;
    match goal with O : ordinary [] |- _ => destruct O as [O _]; congruence end.
Qed.

(* ---------- a path that stays below a directory ---------- *)
(* From the directory p, the names in the list lead nowhere else: they are real,
   not links, until the last name, or until a name that does not exist or is a
   link to nothing, or until something that is not a directory. *)
Definition okname (c : bytes) : Prop := c = [] \/ proper c.
Inductive held (fs : fsys) : loc -> list bytes -> Prop :=
| h_end : forall p, fs p = Some ODir -> held fs p []
| h_last : forall p (c : bytes), fs p = Some ODir -> c <> [] -> held fs p [c]
| h_empty : forall p cs, fs p = Some ODir -> held fs p cs -> held fs p ([] :: cs)
| h_real : forall p c o cs, fs p = Some ODir -> proper c -> fs (p ++ [c]) = Some o -> (forall t, o <> OLnk t) -> held fs (p ++ [c]) cs ->
    held fs p (c :: cs)
| h_none : forall p c cs, fs p = Some ODir -> proper c -> fs (p ++ [c]) = None -> Forall okname cs -> held fs p (c :: cs)
| h_dangling : forall p c t cs, fs p = Some ODir -> proper c -> fs (p ++ [c]) = Some (OLnk t) -> walks fs true p [c] None -> cs <> [] ->
    held fs p (c :: cs)
| h_file : forall p i cs, fs p = Some (OFile i) -> held fs p cs.

Lemma inside_refl : forall d, inside d d.
Proof. intros d. exists []. rewrite app_nil_r. reflexivity. Qed.
Lemma inside_step : forall d c l, inside (d ++ [c]) l -> inside d l.
Proof. intros d c l [e ->]. exists (c :: e). rewrite <- app_assoc. reflexivity. Qed.
Lemma inside_not : forall d l c, inside d l -> d <> l ++ [c].
Proof. intros d l c [e ->] E. apply (f_equal (@List.length _)) in E. rewrite !app_length in E. cbn in E. lia. Qed.
Lemma walks_cons_proper : forall fs follow p c r x, fs p = Some ODir -> ordinary c -> walks fs follow p (c :: r) x ->
  (fs (p ++ [c]) = None /\ x = None) \/
  (exists o, fs (p ++ [c]) = Some o /\ (forall t, o <> OLnk t) /\ walks fs follow (p ++ [c]) r x) \/
  (exists t, fs (p ++ [c]) = Some (OLnk t)).
Proof.
  intros fs follow p c r x E O H. inversion H; subst; try congruence;
    try (match goal with D : _ = [] \/ _ = [dot] |- _ => destruct O as [O1 [O2 O3]], D; congruence end);
    try (destruct O as [O1 [O2 O3]]; congruence); eauto 8.
Qed.
Lemma walks_past_none : forall fs p c r x, walks fs true p [c] None -> walks fs true p (c :: r) x -> x = None.
Proof.
  intros fs p c r x N H. destruct r as [|d r]; [eapply eq_sym, walks_det; [exact N|exact H]|].
  destruct (walks_app _ _ _ _ _ H [c] (d :: r) eq_refl) as [[_ X]|[l [A _]]]; [discriminate|exact X|].
  pose proof (walks_det _ _ _ _ _ N _ A). discriminate.
Qed.
Lemma walks_empty : forall fs follow p r x, fs p = Some ODir -> walks fs follow p ([] :: r) x -> walks fs follow p r x.
Proof.
  intros fs follow p r x E H. inversion H; subst; try congruence; try assumption;
    match goal with O : ordinary [] |- _ => destruct O as [O _]; congruence end.
Qed.
Lemma held_parent : forall fs p ms, held fs p ms -> forall a c b l, ms = a ++ c :: b -> c <> [] -> walks fs true p a (Some l) -> fs l = Some ODir -> inside p l.
Proof.
  intros fs p ms H. induction H as [p E|p c E N|p cs E H IH|p c o1 cs E P E2 NL H IH|p c cs E P E2 F|p c t cs E P E2 WN NN|p i cs E]; intros a c' b l S N' Wk Dl.
  - destruct a; discriminate.
  - destruct a as [|a0 a]; [|injection S as _ S; destruct a; discriminate]. inversion Wk; subst. apply inside_refl.
  - destruct a as [|a0 a]; [injection S as <- _; congruence|]. injection S as <- S. apply walks_empty in Wk; [|exact E]. eapply IH; eauto.
  - destruct a as [|a0 a]; [inversion Wk; subst; apply inside_refl|]. injection S as <- S.
    apply walks_cons_proper in Wk; [|exact E|apply proper_ordinary; exact P].
    destruct Wk as [[X _]|[[o [X [_ Wk]]]|[t X]]]; try congruence. eapply inside_step, IH; eauto.
  - destruct a as [|a0 a]; [inversion Wk; subst; apply inside_refl|]. injection S as <- S.
    apply walks_cons_proper in Wk; [|exact E|apply proper_ordinary; exact P].
    destruct Wk as [[X Y]|[[o [X [_ Wk]]]|[t X]]]; congruence.
  - destruct a as [|a0 a]; [inversion Wk; subst; apply inside_refl|]. injection S as <- S.
    pose proof (walks_past_none _ _ _ _ _ WN Wk). discriminate.
  - destruct a as [|a0 a]; [inversion Wk; subst; apply inside_refl|]. inversion Wk; congruence.
Qed.

(* ---------- changes ---------- *)
Lemma loc_eqb_eq : forall a b, loc_eqb a b = true <-> a = b.
Proof. intros a b. unfold loc_eqb. destruct (list_eq_dec (list_eq_dec Z.eq_dec) a b); split; congruence. Qed.
Lemma put_same : forall fs l o, put fs l o l = o.
Proof. intros. unfold put. rewrite (proj2 (loc_eqb_eq l l) eq_refl). reflexivity. Qed.
Lemma put_other : forall fs l o x, x <> l -> put fs l o x = fs x.
Proof. intros fs l o x N. unfold put. destruct (loc_eqb x l) eqn:E; [apply loc_eqb_eq in E; congruence|reflexivity]. Qed.
Lemma wf_put : forall fs d c o, wf fs -> fs d = Some ODir -> proper c -> fs (d ++ [c]) = None -> wf (put fs (d ++ [c]) (Some o)).
Proof.
  intros fs d c o [W0 W] D P N. split.
  - rewrite put_other; [exact W0|]. destruct d; discriminate.
  - intros l c' o' E. assert (L : l <> d ++ [c]).
    { intros ->. rewrite put_other in E; [|intros X; apply (f_equal (@List.length _)) in X; rewrite !app_length in X; cbn in X; lia].
      destruct (W _ _ _ E). congruence. }
    rewrite (put_other _ _ _ l L). destruct (loc_eqb (l ++ [c']) (d ++ [c])) eqn:Q.
    + apply loc_eqb_eq in Q. apply app_inj_tail in Q. destruct Q as [-> ->]. auto.
    + unfold put in E. rewrite Q in E. apply (W _ _ _ E).
Qed.
Lemma wf_remove : forall fs d c, wf fs -> fs (d ++ [c]) <> Some ODir -> wf (put fs (d ++ [c]) None).
Proof.
  intros fs d c [W0 W] N. split.
  - rewrite put_other; [exact W0|]. destruct d; discriminate.
  - intros l c' o' E. destruct (loc_eqb (l ++ [c']) (d ++ [c])) eqn:Q; [apply loc_eqb_eq in Q; rewrite Q, put_same in E; discriminate|].
    unfold put in E at 1. rewrite Q in E. destruct (W _ _ _ E) as [A B]. split; [|exact B]. rewrite put_other; [exact A|]. intros ->. congruence.
Qed.
(* Nothing is in a directory that has just been made. *)
Lemma held_fresh : forall fs p cs, fs p = Some ODir -> (forall c, fs (p ++ [c]) = None) -> Forall okname cs -> held fs p cs.
Proof.
  intros fs p cs E N F. induction F as [|c cs [-> |P] F IH]; [constructor; exact E|apply h_empty; assumption|apply h_none; auto].
Qed.
Lemma wf_child_none : forall fs l c, wf fs -> fs l <> Some ODir -> fs (l ++ [c]) = None.
Proof. intros fs l c [_ W] N. destruct (fs (l ++ [c])) eqn:E; [|reflexivity]. destruct (W _ _ _ E). congruence. Qed.
Lemma held_put_dir : forall fs p ms, wf fs -> held fs p ms -> forall a c b l, ms = a ++ c :: b -> proper c -> walks fs true p a (Some l) ->
  fs l = Some ODir -> fs (l ++ [c]) = None -> held (put fs (l ++ [c]) (Some ODir)) p ms.
Proof.
  intros fs p ms W H a c b l S P' Wk Dl N.
  assert (IN : inside p l) by (eapply held_parent; eauto; apply P').
  revert a c b l S P' Wk Dl N IN.
  induction H as [p E|p c E N|p cs E H IH|p c o1 cs E P E2 NL H IH|p c cs E P E2 F|p c t cs E P E2 WN NN|p i cs E]; intros a c' b l S P' Wk Dl N' IN;
    assert (EP : put fs (l ++ [c']) (Some ODir) p = fs p) by (apply put_other, inside_not; exact IN).
  - destruct a; discriminate.
  - apply h_last; congruence.
  - destruct a as [|a0 a]; [injection S as <- _; destruct P'; congruence|]. injection S as <- S. apply walks_empty in Wk; [|exact E].
    apply h_empty; [congruence|]. eapply IH; eauto.
  - destruct a as [|a0 a]; [inversion Wk; subst; injection S as -> _; congruence|]. injection S as <- S.
    apply walks_cons_proper in Wk; [|exact E|apply proper_ordinary; exact P].
    destruct Wk as [[X _]|[[o [X [_ Wk]]]|[t X]]]; try congruence.
    assert (IN2 : inside (p ++ [c]) l) by (eapply held_parent; eauto; apply P').
    eapply h_real; [congruence|exact P| |exact NL|eapply IH; eauto].
    rewrite put_other; [exact E2|apply inside_not; exact IN2].
  - destruct a as [|a0 a].
    + inversion Wk; subst. injection S as <- <-. eapply h_real; [congruence|exact P|apply put_same|discriminate|].
      apply held_fresh; [apply put_same| |exact F]. intros c0.
      rewrite put_other; [apply wf_child_none; [exact W|congruence]|]. intros X. apply (f_equal (@List.length _)) in X. rewrite !app_length in X. cbn in X. lia.
    + injection S as <- S. apply walks_cons_proper in Wk; [|exact E|apply proper_ordinary; exact P].
      destruct Wk as [[X Y]|[[o [X [_ Wk]]]|[t X]]]; congruence.
  - destruct a as [|a0 a]; [inversion Wk; subst; injection S as <- _; congruence|]. injection S as <- S.
    pose proof (walks_past_none _ _ _ _ _ WN Wk). discriminate.
  - eapply h_file. rewrite EP. exact E.
Qed.
Lemma held_remove : forall fs p ms, wf fs -> held fs p ms -> forall a c l o, ms = a ++ [c] -> proper c -> walks fs true p a (Some l) ->
  fs l = Some ODir -> fs (l ++ [c]) = Some o -> o <> ODir -> held (put fs (l ++ [c]) None) p ms.
Proof.
  intros fs p ms W H a c l o S P' Wk Dl N NO.
  assert (IN : inside p l) by (eapply held_parent; eauto; apply P').
  revert a c l S P' Wk Dl N IN.
  induction H as [p E|p c E N|p cs E H IH|p c o1 cs E P E2 NL H IH|p c cs E P E2 F|p c t cs E P E2 WN NN|p i cs E]; intros a c' l S P' Wk Dl N' IN;
    assert (EP : put fs (l ++ [c']) None p = fs p) by (apply put_other, inside_not; exact IN).
  - destruct a; discriminate.
  - apply h_last; congruence.
  - destruct a as [|a0 a]; [injection S as <- _; destruct P'; congruence|]. injection S as <- S. apply walks_empty in Wk; [|exact E].
    apply h_empty; [congruence|]. eapply IH; eauto.
  - destruct a as [|a0 a]; [inversion Wk; subst; injection S as -> ->; apply h_last; [congruence|apply P']|]. injection S as <- S.
    apply walks_cons_proper in Wk; [|exact E|apply proper_ordinary; exact P].
    destruct Wk as [[X _]|[[o' [X [_ Wk]]]|[t X]]]; try congruence.
    assert (IN2 : inside (p ++ [c]) l) by (eapply held_parent; eauto; apply P').
    eapply h_real; [congruence|exact P| |exact NL|eapply IH; eauto].
    rewrite put_other; [exact E2|apply inside_not; exact IN2].
  - destruct a as [|a0 a]; [inversion Wk; subst; injection S as <- _; congruence|].
    injection S as <- S. apply walks_cons_proper in Wk; [|exact E|apply proper_ordinary; exact P].
    destruct Wk as [[X Y]|[[o' [X [_ Wk]]]|[t X]]]; congruence.
  - destruct a as [|a0 a]; [inversion Wk; subst; injection S as <- S; congruence|]. injection S as <- S.
    pose proof (walks_past_none _ _ _ _ _ WN Wk). discriminate.
  - eapply h_file. rewrite EP. exact E.
Qed.

(* ---------- the calls ---------- *)
Lemma drop_empty_spec : forall rcs c r, drop_empty rcs = c :: r -> exists e, rcs = e ++ c :: r /\ Forall (eq []) e /\ c <> [].
Proof.
  induction rcs as [|x rcs IH]; intros c r H; [discriminate|]. cbn in H. destruct x as [|x0 x].
  - destruct (IH _ _ H) as [e [-> [F N]]]. exists ([] :: e). split; [reflexivity|]. split; [constructor; auto|exact N].
  - injection H as <- <-. exists []. split; [reflexivity|]. split; [constructor|discriminate].
Qed.
Lemma parent_spec : forall n fs p d c sl, parent n fs p = PIs d c sl ->
  exists a b, comps p = a ++ c :: b /\ Forall (eq []) b /\ ordinary c /\ walks fs true [] a (Some d) /\ fs d = Some ODir /\
    (sl = false -> b = []).
Proof.
  intros n fs p d c sl H. unfold parent in H. destruct p as [|p0 p]; [discriminate|]. remember (p0 :: p) as q.
  destruct (drop_empty (rev (comps q))) as [|c0 r] eqn:D; [discriminate|].
  destruct (walk n fs true [] (rev r)) as [l| |] eqn:Wk; try discriminate.
  destruct (fs l) as [[| |]|] eqn:El; try discriminate.
  destruct (is_dot c0 || is_dotdot c0) eqn:Dt; [discriminate|]. injection H as <- <- <-.
  apply drop_empty_spec in D. destruct D as [e [De [F N]]].
  exists (rev r), (rev e). split.
  - rewrite <- (rev_involutive (comps q)), De, rev_app_distr. cbn [rev]. rewrite <- app_assoc. reflexivity.
  - split; [apply Forall_rev; exact F|]. apply orb_false_iff in Dt. destruct Dt as [D1 D2]. apply beqb_neq in D1, D2.
    split; [split; [exact N|split; assumption]|]. split; [apply walk_sound in Wk; exact Wk|]. split; [exact El|].
    rewrite De. destruct e as [|e0 e]; [reflexivity|]. inversion F; subst. cbn. discriminate.
Qed.

(* What holds between the calls. *)
Definition good (d : loc) (s : rst) : Prop := wf (r_fs s) /\ r_fs s d = Some ODir /\ entries_inside d (r_log s).
(* ms' is ms up to some name, which may be cut short, and nothing after it. *)
Definition begins (ms' ms : list bytes) : Prop := forall a c b, ms' = a ++ c :: b -> c <> [] -> exists c' b', ms = a ++ c' :: b' /\ c' <> [].
Lemma begins_app : forall a b, begins a (a ++ b).
Proof. intros a b x c y -> N. exists c, (y ++ b). rewrite <- app_assoc. split; [reflexivity|exact N]. Qed.
Lemma begins_refl : forall a, begins a a.
Proof. intros a x c y -> N. exists c, y. auto. Qed.

Lemma app_split : forall (A : Type) (a b d m : list A) c, a ++ c :: b = d ++ m ->
  (exists a', a = d ++ a' /\ m = a' ++ c :: b) \/ (exists e, d = a ++ c :: e /\ b = e ++ m).
Proof.
  intros A a. induction a as [|x a IH]; intros b d m c H.
  - destruct d as [|y d]; cbn in H; [left; exists []; auto|]. injection H as <- H. right. exists d. auto.
  - destruct d as [|y d]; cbn in H; [left; exists (x :: a); auto|]. injection H as <- H.
    destruct (IH _ _ _ _ H) as [[a' [-> ->]]|[e [-> ->]]]; [left; exists a'; auto|right; exists e; auto].
Qed.
Lemma noempty_proper : forall e, Forall proper e -> Forall (eq []) e -> e = [].
Proof. intros [|x e] P F; [reflexivity|]. inversion P as [|? ? [N _] _]; inversion F; subst. congruence. Qed.
(* Where a call on a path that begins like a held one acts. *)
Lemma parent_held : forall n fs p D ms ms' d c sl, wf fs -> fs D = Some ODir -> held fs D ms -> begins ms' ms ->
  comps p = [] :: D ++ ms' -> cstr p -> parent n fs p = PIs d c sl ->
  fs d = Some ODir /\ proper c /\
  (d ++ [c] = D \/ (inside D d /\ exists a b, ms' = a ++ c :: b /\ Forall (eq []) b /\ walks fs true D a (Some d) /\ (sl = false -> b = []))).
Proof.
  intros n fs p D ms ms' d c sl W ED H B Cp C Pr. apply parent_spec in Pr.
  destruct Pr as [a [b [S [F [O [Wk [Ed SL]]]]]]].
  assert (P : proper c).
  { assert (I : In c (comps p)) by (rewrite S; apply in_or_app; right; left; reflexivity).
    destruct O as [O1 [O2 O3]]. split; [exact O1|]. split; [eapply comps_cstr; eauto|]. split; [eapply comps_noslash; eauto|]. split; assumption. }
  split; [exact Ed|]. split; [exact P|]. rewrite Cp in S.
  destruct a as [|a0 a]; [injection S as <- _; destruct P; congruence|]. injection S as <- S.
  apply (proj1 (walks_root _ _ _ _ W)) in Wk. symmetry in S. destruct (app_split _ _ _ _ _ _ S) as [[a' [-> ->]]|[e [E1 E2]]].
  - right. destruct a' as [|a0 a'].
    + rewrite app_nil_r in Wk. pose proof (walks_det _ _ _ _ _ (walks_real fs true D [] W ED) _ Wk) as X. injection X as <-.
      split; [apply inside_refl|]. exists [], b. split; [reflexivity|]. split; [exact F|]. split; [constructor|exact SL].
    + destruct (walks_app _ _ _ _ _ Wk D (a0 :: a') eq_refl) as [[_ X]|[l [A1 A2]]]; [discriminate|discriminate|].
      pose proof (walks_det _ _ _ _ _ (walks_real fs true D [] W ED) _ A1) as X. injection X as <-.
      destruct (B _ _ _ eq_refl (proj1 P)) as [c' [b' [E N]]].
      split; [eapply held_parent; eauto|]. exists (a0 :: a'), b. auto.
  - left. assert (e = []) as ->.
    { apply noempty_proper; [|rewrite E2 in F; apply Forall_app in F; apply F].
      pose proof (wf_names _ _ _ W ED) as X. rewrite E1 in X. apply Forall_app in X. destruct X as [_ X]. inversion X; assumption. }
    assert (Ea : fs a = Some ODir) by (eapply wf_above; [exact W|rewrite <- E1; exact ED|discriminate]).
    pose proof (walks_det _ _ _ _ _ (walks_real fs true a [] W Ea) _ Wk) as X. injection X as <-. symmetry. exact E1.
Qed.
Lemma luck_same : forall s b s', luck s = (b, s') -> r_fs s' = r_fs s /\ r_next s' = r_next s /\ r_log s' = r_log s.
Proof. intros s b s' H. unfold luck in H. destruct (r_bad s); injection H as <- <-; auto. Qed.
Lemma good_same : forall d s s', r_fs s' = r_fs s -> r_log s' = r_log s -> good d s -> good d s'.
Proof. intros d s s' E1 E2 G. unfold good in *. rewrite E1, E2. exact G. Qed.
Lemma entries_cons : forall d log p c, entries_inside d log -> inside d p -> entries_inside d (EName p c :: log).
Proof. intros d log p c H I q x [X|X]; [injection X as <- <-; exact I|eapply H; exact X]. Qed.
Lemma entries_other : forall d log e, entries_inside d log -> (forall p c, e <> EName p c) -> entries_inside d (e :: log).
Proof. intros d log e H N q x [X|X]; [exfalso; eapply N; exact X|eapply H; exact X]. Qed.

Lemma make_good : forall n so o p s D ms ms' r s', good D s -> held (r_fs s) D ms -> begins ms' ms -> comps p = [] :: D ++ ms' -> cstr p ->
  make n so o p s = (r, s') -> good D s'.
Proof.
  intros n so o p s D ms ms' r s' [W [ED L]] H B Cp C M. unfold make in M. destruct (luck s) as [bad s0] eqn:Lk.
  destruct (luck_same _ _ _ Lk) as [F1 [F2 F3]].
  assert (G0 : good D s0) by (split; [rewrite F1; exact W|split; [rewrite F1; exact ED|rewrite F3; exact L]]).
  destruct bad; [injection M as <- <-; exact G0|]. rewrite F1 in M.
  destruct (parent n (r_fs s) p) as [d c sl| |] eqn:Pr; try (injection M as <- <-; exact G0).
  destruct (r_fs s (d ++ [c])) as [o0|] eqn:E; [injection M as <- <-; exact G0|].
  destruct (parent_held n _ p D ms ms' d c sl W ED H B Cp C Pr) as [Ed [P [X|[I _]]]]; [congruence|].
  destruct (sl && negb so); injection M as <- <-; [exact G0|].
  unfold good, with_ev, with_fs. cbn. split; [apply wf_put; assumption|]. split; [rewrite put_other; [exact ED|congruence]|].
  rewrite F3. apply entries_cons; assumption.
Qed.
(* Making a directory on the way keeps the rest of the path in hand. *)
Lemma mkdir_held : forall n p s D ms0 ext r s', good D s -> held (r_fs s) D (ms0 ++ ext) -> comps p = [] :: D ++ ms0 -> cstr p ->
  mkdir n p s = (r, s') -> good D s' /\ held (r_fs s') D (ms0 ++ ext).
Proof.
  intros n p s D ms0 ext r s' G H Cp C M. split; [eapply make_good; [exact G|exact H|apply begins_app|exact Cp|exact C|exact M]|].
  unfold mkdir, make in M. destruct (luck s) as [bad s0] eqn:Lk. destruct (luck_same _ _ _ Lk) as [F1 [F2 F3]].
  destruct bad; [injection M as <- <-; rewrite F1; exact H|]. rewrite F1 in M.
  destruct (parent n (r_fs s) p) as [d c sl| |] eqn:Pr; try (injection M as <- <-; rewrite F1; exact H).
  destruct (r_fs s (d ++ [c])) as [o0|] eqn:E; [injection M as <- <-; rewrite F1; exact H|].
  destruct G as [W [ED L]].
  destruct (parent_held n _ p D _ ms0 d c sl W ED H (begins_app _ _) Cp C Pr) as [Ed [P [X|[I [a [b [S [_ [Wk _]]]]]]]]]; [congruence|].
  rewrite andb_false_r in M. injection M as <- <-. cbn.
  eapply held_put_dir with (a := a) (b := b ++ ext); eauto. rewrite S, <- app_assoc. reflexivity.
Qed.
Lemma unlink_held : forall n p s D ms r s', good D s -> held (r_fs s) D ms -> comps p = [] :: D ++ ms -> cstr p ->
  unlink n p s = (r, s') -> good D s' /\ held (r_fs s') D ms.
Proof.
  intros n p s D ms r s' [W [ED L]] H Cp C M. unfold unlink in M. destruct (luck s) as [bad s0] eqn:Lk.
  destruct (luck_same _ _ _ Lk) as [F1 [F2 F3]].
  assert (G0 : good D s0 /\ held (r_fs s0) D ms) by (unfold good; rewrite F1, F3; auto).
  destruct bad; [injection M as <- <-; exact G0|]. rewrite F1 in M.
  destruct (parent n (r_fs s) p) as [d c sl| |] eqn:Pr; try (injection M as <- <-; exact G0).
  destruct (parent_held n _ p D ms ms d c sl W ED H (begins_refl _) Cp C Pr) as [Ed [P X]].
  destruct (r_fs s (d ++ [c])) as [[|i|t]|] eqn:E; try (injection M as <- <-; exact G0);
    (destruct X as [X|[I [a [b [S [_ [Wk SL]]]]]]]; [congruence|]); (destruct sl; injection M as <- <-; [exact G0|]);
    rewrite (SL eq_refl) in S; cbn; (split; [split; [|split]|]).
  - cbn. apply wf_remove; [exact W|congruence].
  - cbn. rewrite put_other; [exact ED|congruence].
  - cbn. rewrite F3. apply entries_cons; assumption.
  - eapply held_remove; eauto. discriminate.
  - cbn. apply wf_remove; [exact W|congruence].
  - cbn. rewrite put_other; [exact ED|congruence].
  - cbn. rewrite F3. apply entries_cons; assumption.
  - eapply held_remove; eauto. discriminate.
Qed.
Lemma open_good : forall n cr p s D ms r s', good D s -> held (r_fs s) D ms -> comps p = [] :: D ++ ms -> cstr p ->
  open_w n cr p s = (r, s') -> good D s'.
Proof.
  intros n cr p s D ms r s' [W [ED L]] H Cp C M. unfold open_w in M. destruct (luck s) as [bad s0] eqn:Lk.
  destruct (luck_same _ _ _ Lk) as [F1 [F2 F3]].
  assert (G0 : good D s0) by (unfold good; rewrite F1, F3; auto).
  destruct bad; [injection M as <- <-; exact G0|]. rewrite F1 in M.
  destruct (parent n (r_fs s) p) as [d c sl| |] eqn:Pr; try (injection M as <- <-; exact G0).
  destruct sl; [injection M as <- <-; exact G0|].
  destruct (parent_held n _ p D ms ms d c false W ED H (begins_refl _) Cp C Pr) as [Ed [P X]].
  destruct (r_fs s (d ++ [c])) as [[|i|t]|] eqn:E; try (injection M as <- <-; exact G0).
  - injection M as <- <-. destruct cr; [|exact G0]. destruct G0 as [A [B Z]]. split; [exact A|split; [exact B|]]. apply entries_other; [exact Z|discriminate].
  - destruct cr; [|injection M as <- <-; exact G0]. destruct X as [X|[I _]]; [congruence|]. injection M as <- <-.
    unfold good, with_next, with_ev, with_fs. cbn. split; [apply wf_put; assumption|]. split; [rewrite put_other; [exact ED|congruence]|].
    rewrite F3. apply entries_cons; assumption.
Qed.
Lemma setattr_same : forall n f p s ok s', setattr n f p s = (ok, s') -> r_fs s' = r_fs s /\ r_next s' = r_next s /\
  (r_log s' = r_log s \/ exists l, r_log s' = EAttr l :: r_log s /\ walks (r_fs s) f [] (comps p) (Some l)).
Proof.
  intros n f p s ok s' H. unfold setattr in H. destruct (luck s) as [bad s0] eqn:Lk. destruct (luck_same _ _ _ Lk) as [F1 [F2 F3]].
  destruct bad; [injection H as <- <-; auto|]. unfold resolve in H. rewrite F1 in H.
  destruct (walk n (r_fs s) f [] (comps p)) as [l| |] eqn:Wk; injection H as <- <-; auto.
  cbn. split; [exact F1|]. split; [exact F2|]. right. exists l. rewrite F3. split; [reflexivity|apply walk_sound in Wk; exact Wk].
Qed.
Lemma setattr_good : forall n f p s ok s' D, setattr n f p s = (ok, s') -> good D s -> good D s'.
Proof.
  intros n f p s ok s' D H [W [E L]]. destruct (setattr_same _ _ _ _ _ _ H) as [F1 [_ F3]]. unfold good. rewrite F1.
  split; [exact W|]. split; [exact E|]. destruct F3 as [->|[l [-> _]]]; [exact L|apply entries_other; [exact L|discriminate]].
Qed.
Lemma attribs_good : forall n p t s D, good D s -> good D (attribs_set n p t s).
Proof.
  intros n p t s D G. unfold attribs_set. destruct (setattr n false p s) as [ok s1] eqn:E1. pose proof (setattr_good _ _ _ _ _ _ _ E1 G) as G1.
  destruct ok; [|exact G1].
  assert (X : good D (snd (setattr n false p s1))) by (destruct (setattr n false p s1) eqn:E; eapply setattr_good; eauto).
  destruct (setattr n true p s1) as [ok s2] eqn:E2. pose proof (setattr_good _ _ _ _ _ _ _ E2 G1) as G2.
  assert (Y : good D (if ok then snd (setattr n false p s2) else s2)).
  { destruct ok; [|exact G2]. destruct (setattr n false p s2) eqn:E; eapply setattr_good; eauto. }
  destruct t; assumption.
Qed.
Lemma attribs_fs : forall n p t s, r_fs (attribs_set n p t s) = r_fs s.
Proof.
  intros n p t s. assert (S : forall f s, r_fs (snd (setattr n f p s)) = r_fs s).
  { intros f s0. destruct (setattr n f p s0) eqn:E. apply (setattr_same _ _ _ _ _ _ E). }
  unfold attribs_set. pose proof (S false s) as E1. destruct (setattr n false p s) as [ok s1]. cbn in E1. destruct ok; [|exact E1].
  pose proof (S true s1) as E2. destruct (setattr n true p s1) as [ok s2]. cbn in E2.
  destruct t; try (destruct ok); rewrite ?S; congruence.
Qed.

Lemma cstr_join : forall cs, Forall cstr cs -> cstr (join cs).
Proof.
  induction cs as [|c cs IH]; intros F; [constructor|]. inversion F as [|? ? A B]; subst. destruct cs as [|d cs]; [exact A|].
  change (join (c :: d :: cs)) with (c ++ slash :: join (d :: cs)). apply cstr_app. split; [exact A|]. constructor; [unfold is_char, slash; lia|apply IH; exact B].
Qed.
Lemma join_cons_nonnil : forall c cs, cs <> [] -> join ([] :: c :: cs) <> [].
Proof. intros c cs N. destruct cs; discriminate. Qed.
(* A real directory is found whatever the limit on links. *)
Lemma walk_real : forall n fs follow e l, wf fs -> fs (l ++ e) = Some ODir -> walk n fs follow l e = WOk (l ++ e).
Proof.
  intros n fs follow e. induction e as [|c e IH]; intros l W E; [rewrite app_nil_r; destruct n; reflexivity|].
  assert (E1 : fs (l ++ [c]) = Some ODir).
  { destruct e as [|d e]; [exact E|]. eapply wf_above; [exact W|rewrite <- app_assoc; exact E|discriminate]. }
  destruct (proj2 W _ _ _ E1) as [D P]. replace (l ++ c :: e) with ((l ++ [c]) ++ e) in * by (rewrite <- app_assoc; reflexivity).
  specialize (IH _ W E). destruct P as [P1 [P2 [P3 [P4 P5]]]]. unfold is_dot, is_dotdot.
  assert (B1 : beqb c [] = false) by (apply beqb_neq; exact P1). assert (B2 : beqb c [dot] = false) by (apply beqb_neq; exact P4).
  assert (B3 : beqb c [dot; dot] = false) by (apply beqb_neq; exact P5).
  destruct n; cbn [walk] in *; unfold is_dot, is_dotdot; rewrite D, B1, B2, B3, E1; cbn [orb]; exact IH.
Qed.
Definition plainname (c : bytes) : Prop := cstr c /\ ~ In slash c.
Lemma proper_plain : forall l, Forall proper l -> Forall plainname l.
Proof. intros l H. eapply Forall_impl; [|exact H]. intros c [A [B [C _]]]. split; assumption. Qed.
Lemma comps_full : forall l, Forall plainname l -> comps (join ([] :: l)) = [] :: l.
Proof.
  intros l F. apply comps_join; [discriminate|]. constructor; [intros []|]. eapply Forall_impl; [|exact F]. intros c [_ H]. exact H.
Qed.
Lemma cstr_full : forall l, Forall plainname l -> cstr (join ([] :: l)).
Proof. intros l F. apply cstr_join. constructor; [constructor|]. eapply Forall_impl; [|exact F]. intros c [H _]. exact H. Qed.
Lemma lstat_real : forall n fs l, wf fs -> fs l = Some ODir -> l <> [] -> lstat n fs (join ([] :: l)) = Some ODir.
Proof.
  intros n fs l W E N. unfold lstat. destruct (join ([] :: l)) as [|x y] eqn:J; [destruct l as [|? [|? ?]]; [congruence|discriminate|discriminate]|].
  rewrite <- J. unfold resolve. rewrite comps_full; [|apply proper_plain; eapply wf_names; eauto].
  assert (X : walk n fs false [] ([] :: l) = WOk l).
  { pose proof (walk_real n fs false l [] W E) as X. destruct n; cbn [walk] in *; rewrite (proj1 W); cbn [beqb orb]; exact X. }
  rewrite X. exact E.
Qed.

Lemma mkpath_held : forall n D ms0 ext s ok s', D <> [] -> good D s -> held (r_fs s) D (ms0 ++ ext) -> Forall plainname ms0 ->
  mkpath_r n (rev ([] :: D ++ ms0)) s = (ok, s') -> good D s' /\ held (r_fs s') D (ms0 ++ ext).
Proof.
  intros n D ms0. induction ms0 as [|c m IH] using rev_ind; intros ext s ok s' ND G H F M.
  - rewrite app_nil_r in M. destruct (@exists_last _ D ND) as [D' [x ->]].
    replace (rev ([] :: D' ++ [x])) with (x :: rev ([] :: D')) in M.
    2: { change ([] :: D' ++ [x]) with (([] :: D') ++ [x]). rewrite rev_app_distr. reflexivity. }
    cbn [mkpath_r] in M. destruct (rev ([] :: D')) as [|y r] eqn:R; [injection M as <- <-; auto|]. rewrite <- R, rev_involutive in M.
    destruct D' as [|d0 D']; [cbn [join] in M; injection M as <- <-; auto|].
    assert (E : r_fs s (d0 :: D') = Some ODir).
    { destruct G as [W [E _]]. eapply wf_above; [exact W|exact E|discriminate]. }
    rewrite (lstat_real n (r_fs s) (d0 :: D')) in M; [|apply G|exact E|discriminate].
    destruct (join ([] :: d0 :: D')); injection M as <- <-; auto.
  - rewrite <- app_assoc in *.
    replace (rev ([] :: D ++ m ++ [c])) with (c :: rev ([] :: D ++ m)) in M.
    2: { replace ([] :: D ++ m ++ [c]) with (([] :: D ++ m) ++ [c]) by (cbn; rewrite <- app_assoc; reflexivity). rewrite rev_app_distr. reflexivity. }
    apply Forall_app in F. destruct F as [F _].
    assert (FD : Forall plainname (D ++ m)).
    { apply Forall_app. split; [apply proper_plain; eapply wf_names; apply G|exact F]. }
    cbn [mkpath_r] in M. destruct (rev ([] :: D ++ m)) as [|y r] eqn:R; [injection M as <- <-; auto|]. rewrite <- R in M. rewrite rev_involutive in M.
    destruct (join ([] :: D ++ m)) as [|z0 z] eqn:J; [injection M as <- <-; auto|]. rewrite <- J in M.
    destruct (lstat n (r_fs s) (join ([] :: D ++ m))); [injection M as <- <-; auto|].
    destruct (mkpath_r n (rev ([] :: D ++ m)) s) as [ok1 s1] eqn:M1. rewrite R in M1.
    destruct (IH ([c] ++ ext) s ok1 s1 ND G H F M1) as [G1 H1].
    destruct ok1.
    + destruct (mkdir n (join ([] :: D ++ m)) s1) as [r1 s2] eqn:M2.
      pose proof (mkdir_held n _ s1 D m ([c] ++ ext) r1 s2 G1 H1 (comps_full _ FD) (cstr_full _ FD) M2) as [G2 H2].
      assert (s' = s2) as -> by (destruct r1; congruence). auto.
    + assert (s' = s1) as -> by congruence. auto.
Qed.

(* ---------- canonicalise() ---------- *)
Lemma before_last_spec : forall p q, before_last_slash p = Some q -> exists x, ~ In slash x /\ p = q ++ slash :: x.
Proof.
  induction p as [|c p IH]; intros q H; [discriminate|]. cbn in H. destruct (before_last_slash p) as [r|] eqn:B.
  - injection H as <-. destruct (IH _ eq_refl) as [x [N ->]]. exists x. auto.
  - destruct (c =? slash) eqn:E; [|discriminate]. injection H as <-. apply Z.eqb_eq in E. subst c. exists p. split; [|reflexivity].
    clear -B. induction p as [|c p IH]; [intros []|]. cbn in B. destruct (before_last_slash p); [discriminate|].
    destruct (c =? slash) eqn:E; [discriminate|]. intros [X|X]; [apply Z.eqb_neq in E; congruence|exact (IH eq_refl X)].
Qed.
Lemma strip_last_spec : forall p q, strip_trailing_component p = Some q -> q = [slash] \/ exists x, ~ In slash x /\ p = q ++ slash :: x.
Proof.
  intros p q H. unfold strip_trailing_component in H. destruct (beqb p [slash]); [discriminate|].
  destruct (before_last_slash p) as [[|r0 r]|] eqn:B; [injection H as <-; left; reflexivity| |discriminate].
  injection H as <-. right. apply before_last_spec. exact B.
Qed.
Lemma canon_loop_spec : forall k n fs cp copy l tl, tl = [] \/ (realpath n fs cp = WNoent /\ exists t, tl = slash :: t) ->
  canon_loop k n fs cp = Some (copy, l) ->
  realpath n fs copy = WOk l /\ (copy = [slash] \/ exists x tl', ~ In slash x /\ cp ++ tl = copy ++ slash :: x ++ tl' /\
    (tl' = [] \/ (realpath n fs (copy ++ slash :: x) = WNoent /\ exists t, tl' = slash :: t))).
Proof.
  induction k as [|k IH]; intros n fs cp copy l tl T H; [discriminate|]. cbn in H.
  destruct (strip_trailing_component cp) as [q|] eqn:S; [|discriminate]. apply strip_last_spec in S.
  destruct (realpath n fs q) as [l'| |] eqn:R; [| |discriminate].
  - injection H as <- <-. split; [exact R|]. destruct S as [->|[x [N ->]]]; [left; reflexivity|right].
    exists x, tl. split; [exact N|]. split; [rewrite <- app_assoc; reflexivity|]. exact T.
  - destruct S as [->|[x [N ->]]].
    + (* "/" always exists *)
      destruct k; [discriminate|]. cbn in H. discriminate.
    + destruct (IH n fs q copy l (slash :: x ++ tl)) as [A B]; [right; split; [exact R|eexists; reflexivity]|exact H|].
      split; [exact A|]. rewrite <- app_assoc. exact B.
Qed.
Lemma realpath_walks : forall n fs p, (forall l, realpath n fs p = WOk l -> walks fs true [] (comps p) (Some l)) /\
  (p <> [] -> realpath n fs p = WNoent -> walks fs true [] (comps p) None).
Proof.
  intros n fs p. unfold realpath, resolve. destruct p as [|p0 p]; [split; [discriminate|congruence]|].
  split; [intros l H; apply walk_sound in H; exact H|intros _ H; apply walk_sound in H; exact H].
Qed.
Lemma comps_text : forall l, Forall plainname l -> comps (text l) = [] :: match l with [] => [[]] | _ => l end.
Proof. intros [|c l] F; [reflexivity|]. unfold text. apply comps_full. exact F. Qed.
Lemma beneath_inside : forall d l, d <> [] -> Forall proper d -> Forall proper l -> beneath (text d) (text l) -> inside d l.
Proof.
  intros d l ND Pd Pl B. pose proof (comps_text d (proper_plain d Pd)) as Cd. pose proof (comps_text l (proper_plain l Pl)) as Cl.
  destruct d as [|d0 d]; [congruence|]. cbv iota in Cd.
  destruct B as [B|[[x B]|[d' [y [x [E1 E2]]]]]].
  - rewrite B, Cd in Cl. destruct l as [|l0 l]; [|injection Cl as -> ->; apply inside_refl].
    injection Cl as -> ->. inversion Pd as [|? ? [N _] _]; subst. congruence.
  - rewrite B, comps_slash, Cd in Cl. destruct l as [|l0 l].
    + injection Cl as -> _. inversion Pd as [|? ? [N _] _]; subst. congruence.
    + injection Cl as -> X. exists (comps x). cbn. congruence.
  - exfalso. rewrite E1, comps_slash in Cd. apply (f_equal (fun f => last f [])) in Cd.
    cbn [comps] in Cd. rewrite last_last in Cd. change (last ([] :: d0 :: d) []) with (last (d0 :: d) []) in Cd.
    destruct (@exists_last _ (d0 :: d)) as [z [u U]]; [discriminate|]. rewrite U in *. rewrite last_last in Cd. subst u.
    apply Forall_app in Pd. destruct Pd as [_ Pd]. inversion Pd as [|? ? [N' _] _]; subst. congruence.
Qed.
Lemma held_down : forall fs e p o cs, wf fs -> fs (p ++ e) = Some o -> (forall t, o <> OLnk t) -> held fs (p ++ e) cs -> held fs p (e ++ cs).
Proof.
  intros fs e. induction e as [|c e IH]; intros p o cs W E NL H; [rewrite app_nil_r in H; exact H|].
  assert (X : exists o1, fs (p ++ [c]) = Some o1 /\ forall t, o1 <> OLnk t).
  { destruct e as [|d e]; [exists o; auto|]. exists ODir. split; [|discriminate]. eapply wf_above; [exact W|rewrite <- app_assoc; exact E|discriminate]. }
  destruct X as [o1 [E1 N1]]. destruct (proj2 W _ _ _ E1) as [D P].
  replace (p ++ c :: e) with ((p ++ [c]) ++ e) in * by (rewrite <- app_assoc; reflexivity).
  cbn [app]. eapply h_real; [exact D|exact P|exact E1|exact N1|]. eapply IH; eauto.
Qed.
Lemma text_cstr : forall l, Forall proper l -> cstr (text l).
Proof.
  intros [|c l] F; [constructor; [unfold is_char, slash; lia|constructor]|]. unfold text. apply cstr_full, proper_plain. exact F.
Qed.
Lemma okname_of : forall p c, cstr p -> Forall (fun c => c <> [dot] /\ c <> [dot; dot]) (comps p) -> In c (comps p) -> okname c.
Proof.
  intros p c C F I. destruct c as [|c0 c]; [left; reflexivity|right]. rewrite Forall_forall in F. destruct (F _ I) as [A B].
  split; [discriminate|]. split; [eapply comps_cstr; eauto|]. split; [eapply comps_noslash; eauto|]. split; assumption.
Qed.

(* What canonicalise() lets through stays below the directory. *)
Theorem canonicalise_held : forall n fs D full F, wf fs -> fs D = Some ODir -> D <> [] -> cstr full ->
  Forall (fun c => c <> [dot] /\ c <> [dot; dot]) (comps full) -> canonicalise n fs (text D) full = Some F ->
  exists ms, comps F = [] :: D ++ ms /\ cstr F /\ held fs D ms.
Proof.
  intros n fs D full F W ED ND C ND2 H. unfold canonicalise in H.
  destruct (canon_loop (Datatypes.S (List.length full)) n fs full) as [[copy l]|] eqn:L; [|discriminate].
  destruct (is_subdir_s (text D) (text l) =? 0) eqn:S; [discriminate|]. injection H as <-.
  destruct (canon_loop_spec _ _ _ _ _ _ [] (or_introl eq_refl) L) as [R T].
  apply realpath_walks in R. destruct (walks_exists fs [] _ l W R) as [o [Eo NL]]; [exists ODir; split; [apply W|discriminate]|].
  pose proof (wf_names _ _ _ W ED) as PD. pose proof (wf_names _ _ _ W Eo) as PL.
  assert (I : inside D l).
  { apply beneath_inside; auto. destruct (is_subdir_s_spec (text D) (text l) (text_cstr D PD) (text_cstr l PL)) as [[B _]|[_ B]]; [exact B|]. rewrite B in S. discriminate. }
  destruct I as [e El].
  assert (NL0 : l <> []) by (rewrite El; destruct D; [congruence|discriminate]).
  destruct T as [->|[x [tl' [Nx [Ef T]]]]].
  { exfalso. apply (proj1 (walks_root _ _ _ _ W)) in R. apply (proj1 (walks_root _ _ _ _ W)) in R. inversion R; subst. congruence. }
  rewrite app_nil_r in Ef.
  assert (SK : skipn (List.length copy) full = slash :: x ++ tl').
  { rewrite Ef. replace (List.length copy) with (List.length copy + 0)%nat by lia. rewrite skipn_app, skipn_all2 by lia.
    replace (List.length copy + 0 - List.length copy)%nat with 0%nat by lia. reflexivity. }
  rewrite SK. assert (TL : text l = join ([] :: l)) by (destruct l; [congruence|reflexivity]).
  assert (PR : prepend_s (text l) (slash :: x ++ tl') = text l ++ match x ++ tl' with [] => [] | _ => slash :: x ++ tl' end).
  { unfold prepend_s. destruct (text l) as [|t0 t] eqn:X; [rewrite TL in X; destruct l as [|? [|? ?]]; try congruence; discriminate|].
    cbn [hd0 tl]. change (slash =? 47) with true. cbv iota. destruct (x ++ tl'); reflexivity. }
  rewrite PR. pose proof (comps_full l (proper_plain l PL)) as Cl. rewrite <- TL in Cl.
  assert (Cr : cstr (x ++ tl')).
  { rewrite Ef in C. apply cstr_app in C. destruct C as [_ C]. inversion C; assumption. }
  assert (CF : cstr (text l ++ match x ++ tl' with [] => [] | _ => slash :: x ++ tl' end)).
  { apply cstr_app. split; [apply text_cstr; exact PL|]. destruct (x ++ tl'); [constructor|]. constructor; [unfold is_char, slash; lia|exact Cr]. }
  assert (OK : forall c, In c (comps (x ++ tl')) -> okname c).
  { intros c Hc. eapply okname_of; [exact C|exact ND2|]. rewrite Ef, comps_slash. apply in_or_app. right. exact Hc. }
  destruct (x ++ tl') as [|r0 r] eqn:XR.
  - exists e. rewrite app_nil_r in *. split; [rewrite Cl, El; reflexivity|]. split; [exact CF|].
    rewrite <- (app_nil_r e). eapply held_down; [exact W|rewrite <- El; exact Eo|exact NL|]. rewrite <- El.
    destruct o as [|i|t]; [apply h_end; exact Eo|eapply h_file; exact Eo|exfalso; eapply NL; reflexivity].
  - rewrite <- XR in *. exists (e ++ comps (x ++ tl')). split; [rewrite comps_slash, Cl, El; cbn; rewrite <- app_assoc; reflexivity|]. split; [exact CF|].
    eapply held_down; [exact W|rewrite <- El; exact Eo|exact NL|]. rewrite <- El.
    destruct o as [|i|t]; [|eapply h_file; exact Eo|exfalso; eapply NL; reflexivity].
    destruct T as [->|[T [t ->]]].
    + rewrite app_nil_r in *. rewrite comps_one; [|exact Nx]. apply h_last; [exact Eo|]. rewrite XR. discriminate.
    + rewrite comps_slash, (comps_one x Nx) in *. cbn [app] in *.
      apply realpath_walks in T; [|destruct copy; discriminate]. rewrite comps_slash, (comps_one x Nx) in T.
      destruct (walks_app _ _ _ _ _ T (comps copy) [x] eq_refl) as [[A _]|[l' [A B]]]; [discriminate| |].
      { pose proof (walks_det _ _ _ _ _ R _ A). discriminate. }
      pose proof (walks_det _ _ _ _ _ R _ A) as X. injection X as <-.
      destruct (OK x (or_introl eq_refl)) as [->|P].
      { apply walks_empty in B; [|exact Eo]. inversion B. }
      assert (F1 : Forall okname (comps t)) by (apply Forall_forall; intros c Hc; apply OK; right; exact Hc).
      destruct (walks_cons_proper _ _ _ _ _ _ Eo (proper_ordinary _ P) B) as [[X _]|[[o [X [_ X2]]]|[t' X]]].
      * apply h_none; assumption.
      * inversion X2.
      * eapply h_dangling; eauto. apply comps_nonnil.
Qed.

(* ---------- what each kind of entry does ---------- *)
(* F is a path below D that leads nowhere else. *)
Definition ready (D : loc) (F : bytes) (s : rst) : Prop :=
  good D s /\ exists ms, comps F = [] :: D ++ ms /\ cstr F /\ held (r_fs s) D ms.
Lemma ready_same : forall D F s s', r_fs s' = r_fs s -> r_log s' = r_log s -> ready D F s -> ready D F s'.
Proof. intros D F s s' E1 E2 [G H]. split; [eapply good_same; eauto|]. rewrite E1. exact H. Qed.
Lemma ready_plain : forall D F ms, comps F = [] :: D ++ ms -> cstr F -> Forall plainname ms.
Proof.
  intros D F ms E C. apply Forall_forall. intros c I. assert (X : In c (comps F)) by (rewrite E; right; apply in_or_app; right; exact I).
  split; [eapply comps_cstr; eauto|eapply comps_noslash; eauto].
Qed.
Lemma build_ready : forall n D F s ok s', D <> [] -> ready D F s -> build_path n F s = (ok, s') -> ready D F s'.
Proof.
  intros n D F s ok s' ND [G [ms [E [C H]]]] B. unfold build_path in B. rewrite E in B.
  pose proof (mkpath_held n D ms [] s ok s' ND G) as M. rewrite app_nil_r in M.
  destruct (M H (ready_plain _ _ _ E C) B) as [G' H']. split; [exact G'|]. exists ms. auto.
Qed.
Lemma make_ready : forall n so o D F s r s', ready D F s -> make n so o F s = (r, s') -> good D s'.
Proof. intros n so o D F s r s' [G [ms [E [C H]]]] M. eapply make_good; [exact G|exact H|apply begins_refl|exact E|exact C|exact M]. Qed.
Lemma unlink_ready : forall n D F s r s', ready D F s -> unlink n F s = (r, s') -> ready D F s'.
Proof.
  intros n D F s r s' [G [ms [E [C H]]]] M. destruct (unlink_held n F s D ms r s' G H E C M) as [G' H'].
  split; [exact G'|]. exists ms. auto.
Qed.
Lemma mkdir_ready : forall n D F s r s', ready D F s -> mkdir n F s = (r, s') -> ready D F s'.
Proof.
  intros n D F s r s' [G [ms [E [C H]]]] M.
  pose proof (mkdir_held n F s D ms [] r s' G) as X. rewrite app_nil_r in X. destruct (X H E C M) as [G' H'].
  split; [exact G'|]. exists ms. auto.
Qed.
Lemma attribs_ready : forall n D F p t s, ready D F s -> ready D F (attribs_set n p t s).
Proof. intros n D F p t s [G H]. split; [apply attribs_good; exact G|]. rewrite attribs_fs. exact H. Qed.
Lemma open_ready : forall n cr D F s r s', ready D F s -> open_w n cr F s = (r, s') -> good D s'.
Proof. intros n cr D F s r s' [G [ms [E [C H]]]] M. eapply open_good; eauto. Qed.
Lemma ready_good : forall D F s, ready D F s -> good D s.
Proof. intros D F s [G _]. exact G. Qed.

Lemma restore_link_good : forall n dir D F it s, D <> [] -> ready D F s -> good D (restore_link n dir F it s).
Proof.
  intros n dir D F it s ND R. unfold restore_link. destruct (build_path n F s) as [ok s1] eqn:B.
  pose proof (build_ready _ _ _ _ _ _ ND R B) as R1. destruct ok; [|exact (ready_good _ _ _ R1)].
  destruct (make_link n dir F it s1) as [ok s2] eqn:M.
  assert (G2 : good D s2).
  { unfold make_link in M. destruct (unlink n F s1) as [u s3] eqn:U. pose proof (unlink_ready _ _ _ _ _ _ R1 U) as R3.
    destruct (i_lcmd it =? CMD_HARD_LINK).
    - unfold link in M. destruct (lstat n (r_fs s3) (prepend_s dir (i_link it))) as [[|i|t]|];
        try (injection M as <- <-; exact (ready_good _ _ _ R3)).
      + destruct (make n false (OFile i) F s3) as [m s4] eqn:K. injection M as <- <-. eapply make_ready; eauto.
      + destruct (make n false (OLnk t) F s3) as [m s4] eqn:K. injection M as <- <-. eapply make_ready; eauto.
    - destruct (i_lcmd it =? CMD_SOFT_LINK); [|injection M as <- <-; exact (ready_good _ _ _ R3)].
      unfold symlink in M. destruct (i_link it) as [|t0 t]; [injection M as <- <-; exact (ready_good _ _ _ R3)|].
      destruct (make n false (OLnk (t0 :: t)) F s3) as [m s4] eqn:K. injection M as <- <-. eapply make_ready; eauto. }
  destruct ok; [apply attribs_good|]; exact G2.
Qed.
Lemma restore_dir_ready : forall n D F it s, D <> [] -> ready D F s -> ready D F (restore_dir n F it s).
Proof.
  intros n D F it s ND R. unfold restore_dir. destruct (build_path n F s) as [ok s1] eqn:B.
  pose proof (build_ready _ _ _ _ _ _ ND R B) as R1. destruct ok; [|exact R1].
  destruct (mkdir n F s1) as [m s2] eqn:M. pose proof (mkdir_ready _ _ _ _ _ _ R1 M) as R2.
  assert (X : ready D F match m with Done => attribs_set n F (i_type it) s2 | _ => s2 end).
  { destruct m; [apply attribs_ready| | |]; exact R2. }
  destruct (lstat n (r_fs s1) F) as [[| |]|]; [apply attribs_ready; exact R1| | |]; exact X.
Qed.
Lemma begins_prefix : forall q z, begins (comps q) (comps (q ++ z)).
Proof.
  induction q as [|c q IH]; intros z.
  - intros a x b E N. destruct a as [|a0 a]; [injection E as <- _; congruence|injection E as _ E; destruct a; discriminate].
  - cbn [app comps]. destruct (c =? slash).
    + intros a x b E N. destruct a as [|a0 a]; [injection E as <- _; congruence|]. injection E as <- E.
      destruct (IH z _ _ _ E N) as [c' [b' [-> N']]]. exists c', b'. auto.
    + specialize (IH z). destruct (comps q) as [|w ws] eqn:E1; [exfalso; eapply comps_nonnil; exact E1|].
      destruct (comps (q ++ z)) as [|w' ws'] eqn:E2; [exfalso; eapply comps_nonnil; exact E2|].
      intros a x b E N. destruct a as [|a0 a].
      * exists (c :: w'), ws'. split; [reflexivity|discriminate].
      * injection E as <- E. destruct (IH (w :: a) x b) as [c' [b' [X N']]]; [cbn; rewrite E; reflexivity|exact N|].
        injection X as <- ->. exists c', b'. auto.
Qed.
Lemma text_join : forall D, D <> [] -> text D = join ([] :: D).
Proof. intros [|d D] N; [congruence|reflexivity]. Qed.
Lemma mksock_good : forall n D F s r s', D <> [] -> (List.length (text D) < sun_path_len)%nat -> ready D F s -> mksock n F s = (r, s') -> good D s'.
Proof.
  intros n D F s r s' ND Len [G [ms [E [C H]]]] M. unfold mksock, mknode in M.
  assert (X : exists ms', begins ms' ms /\ comps (firstn (sun_path_len - 1) F) = [] :: D ++ ms').
  { assert (J : F = join ([] :: D ++ ms)) by (rewrite <- E, join_comps; reflexivity).
    assert (PD : Forall plainname D) by (apply proper_plain; eapply wf_names; apply G).
    destruct ms as [|m ms].
    - exists []. split; [apply begins_refl|]. rewrite app_nil_r in *. rewrite J, <- (text_join D ND).
      rewrite firstn_all2 by lia. rewrite (text_join D ND). apply comps_full. exact PD.
    - change ([] :: D ++ m :: ms) with (([] :: D) ++ m :: ms) in J. rewrite join_app in J by discriminate. rewrite <- (text_join D ND) in J.
      rewrite J, firstn_app. rewrite (firstn_all2 (text D)) by lia.
      destruct (sun_path_len - 1 - List.length (text D))%nat as [|k].
      + exists []. split; [intros a c b X; destruct a; discriminate|]. cbn [firstn]. rewrite !app_nil_r, (text_join D ND). apply comps_full. exact PD.
      + cbn [firstn]. exists (comps (firstn k (join (m :: ms)))). split.
        * assert (CM : comps (join (m :: ms)) = m :: ms).
          { apply comps_join; [discriminate|]. pose proof (ready_plain _ _ _ E C) as P. eapply Forall_impl; [|exact P]. intros a [_ A]. exact A. }
          pose proof (begins_prefix (firstn k (join (m :: ms))) (skipn k (join (m :: ms)))) as B. rewrite firstn_skipn, CM in B. exact B.
        * rewrite comps_slash, (text_join D ND), (comps_full D PD). reflexivity. }
  destruct X as [ms' [B E']]. eapply make_good with (s := with_next s); [exact G|exact H|exact B|exact E'| |exact M].
  clear -C. rewrite <- (firstn_skipn (sun_path_len - 1) F) in C. apply cstr_app in C. apply C.
Qed.
Lemma restore_special_good : forall n D F it s, D <> [] -> (i_type it = TSock -> List.length (text D) < sun_path_len)%nat -> ready D F s ->
  good D (restore_special n F it s).
Proof.
  intros n D F it s ND Len R. unfold restore_special. destruct (build_path n F s) as [ok s1] eqn:B.
  pose proof (build_ready _ _ _ _ _ _ ND R B) as R1. destruct ok; [|exact (ready_good _ _ _ R1)].
  assert (X : good D (let (m, s) := mknode n F s1 in match m with Done | Exists => attribs_set n F (i_type it) s | _ => s end)).
  { unfold mknode. destruct (make n false (OFile (r_next s1)) F (with_next s1)) as [m s2] eqn:M.
    assert (G2 : good D s2) by (eapply make_ready; [|exact M]; eapply ready_same; [| |exact R1]; reflexivity).
    destruct m; try apply attribs_good; exact G2. }
  destruct (i_type it) eqn:T; try exact X; try exact (ready_good _ _ _ R1).
  destruct (mksock n F s1) as [m s2] eqn:M. pose proof (mksock_good _ _ _ _ _ _ ND (Len eq_refl) R1 M) as G2.
  destruct m; try apply attribs_good; exact G2.
Qed.
Lemma good_data : forall D s i, good D s -> good D (with_ev s (EData i)).
Proof. intros D s i [A [B L]]. split; [exact A|]. split; [exact B|]. apply entries_other; [exact L|discriminate]. Qed.
Lemma restore_file_good : forall n D F it s, D <> [] -> ready D F s -> good D (restore_file n F it s).
Proof.
  intros n D F it s ND R. unfold restore_file. destruct (build_path n F s) as [ok s1] eqn:B.
  pose proof (build_ready _ _ _ _ _ _ ND R B) as R1. destruct ok; [|exact (ready_good _ _ _ R1)].
  destruct (open_for_restore n F it s1) as [f s2] eqn:O.
  assert (G2 : good D s2).
  { unfold open_for_restore in O.
    assert (X : forall m s3, unlink n F s1 = (m, s3) -> match m with Done | Noent => open_w n true F s3 | _ => (None, s3) end = (f, s2) -> good D s2).
    { intros m s3 U Q. pose proof (unlink_ready _ _ _ _ _ _ R1 U) as R3.
      destruct m; try (injection Q as <- <-; exact (ready_good _ _ _ R3)); eapply open_ready; eauto. }
    destruct (unlink n F s1) as [m s3] eqn:U. destruct (i_type it); try (eapply X; [reflexivity|exact O]).
    destruct (mkdir n F s1) as [k s4] eqn:K. pose proof (mkdir_ready _ _ _ _ _ _ R1 K) as R4. eapply open_ready; eauto. }
  destruct f as [i|]; [|exact G2]. pose proof (attribs_good n F (i_type it) _ _ (good_data D s2 i G2)) as G3.
  cbv zeta. destruct (i_xfer it); [apply attribs_good|]; exact G3.
Qed.
Lemma extrameta_good : forall n p D ms s ok s', good D s -> set_extrameta n p ms s = (ok, s') -> good D s'.
Proof.
  intros n p D ms. induction ms as [|m ms IH]; intros s ok s' G H; cbn in H; [injection H as <- <-; exact G|].
  destruct (setattr n m p s) as [a s1] eqn:E1. destruct (set_extrameta n p ms s1) as [b s2] eqn:E2. injection H as <- <-.
  eapply IH; [|exact E2]. eapply setattr_good; eauto.
Qed.
Lemma restore_metadata_good : forall n D F it s, D <> [] -> ready D F s -> good D (restore_metadata n F it s).
Proof.
  intros n D F it s ND R. unfold restore_metadata.
  assert (R0 : ready D F match i_type it with TDir => restore_dir n F it s | _ => s end).
  { destruct (i_type it); try exact R. apply restore_dir_ready; assumption. }
  cbv zeta. destruct (build_path n F match i_type it with TDir => restore_dir n F it s | _ => s end) as [ok s1] eqn:B.
  pose proof (build_ready _ _ _ _ _ _ ND R0 B) as R1. destruct (ok && i_xfer it); [|exact (ready_good _ _ _ R1)].
  destruct (set_extrameta n F (i_meta it) s1) as [ok2 s2] eqn:X. pose proof (extrameta_good _ _ _ _ _ _ _ (ready_good _ _ _ R1) X) as G2.
  destruct ok2; [|exact G2]. destruct (setattr n false F s2) as [a s3] eqn:A. cbn [snd]. eapply setattr_good; eauto.
Qed.
Lemma restore_one_good : forall n dir D F it s, D <> [] -> (i_type it = TSock -> List.length (text D) < sun_path_len)%nat -> ready D F s ->
  good D (restore_one n dir F it s).
Proof.
  intros n dir D F it s ND Len R. unfold restore_one. cbv zeta.
  destruct (i_cmd it =? CMD_DIRECTORY); [eapply ready_good, restore_dir_ready; eauto|].
  destruct (cmd_is_link (i_cmd it)); [apply restore_link_good; assumption|].
  destruct (i_cmd it =? CMD_SPECIAL); [apply restore_special_good; assumption|].
  match goal with |- good D (if ?b then _ else _) => destruct b end.
  - destruct (i_datapth it); [apply restore_file_good; assumption|exact (ready_good _ _ _ R)].
  - match goal with |- good D (if ?b then _ else _) => destruct b end; [apply restore_metadata_good; assumption|exact (ready_good _ _ _ R)].
Qed.

(* ---------- the whole restore ---------- *)
Definition nodots (p : bytes) : Prop := Forall (fun c => c <> [dot] /\ c <> [dot; dot]) (comps p).
Lemma nodots_of : forall p, cstr p -> has_dot_component p = false -> nodots p.
Proof.
  intros p C H. unfold nodots. rewrite comps_eq. apply Forall_forall. intros c I. destruct (has_dot_component_exact p C) as [_ X].
  split; intros ->; rewrite X in H by auto; discriminate.
Qed.
Lemma nodots_after : forall a p, nodots (a ++ slash :: p) -> nodots p.
Proof. intros a p H. unfold nodots in *. rewrite comps_slash in H. apply Forall_app in H. apply H. Qed.
Lemma after_slash_spec : forall p q, after_slash p = Some q -> exists a, p = a ++ slash :: q.
Proof.
  induction p as [|c p IH]; intros q H; [discriminate|]. cbn in H. destruct (c =? slash) eqn:E.
  - injection H as <-. apply Z.eqb_eq in E. subst. exists []. reflexivity.
  - destruct (IH _ H) as [a ->]. exists (c :: a). reflexivity.
Qed.
Lemma strip_components_spec : forall k p q, strip_path_components k p = Some q -> q = p \/ exists a, p = a ++ slash :: q.
Proof.
  induction k as [|k IH]; intros p q H; [injection H as <-; auto|]. cbn in H. destruct p as [|c p]; [injection H as <-; auto|].
  destruct (after_slash (c :: p)) as [r|] eqn:A; [|discriminate]. apply after_slash_spec in A. destruct A as [a E].
  right. destruct (IH _ _ H) as [->|[b ->]]; [eauto|]. exists (a ++ slash :: b). rewrite E, <- app_assoc. reflexivity.
Qed.
Lemma full_spec : forall D p, D <> [] -> Forall proper D -> cstr p -> nodots p -> cstr (prepend_s (text D) p) /\ nodots (prepend_s (text D) p).
Proof.
  intros D p ND PD C N. assert (T : exists t0 t, text D = t0 :: t) by (destruct D as [|d [|d' D]]; [congruence| |]; cbn; eauto).
  destruct T as [t0 [t T]]. pose proof (text_cstr D PD) as CT. pose proof (comps_full D (proper_plain D PD)) as CF. rewrite <- (text_join D ND) in CF.
  assert (ND2 : nodots (text D)).
  { unfold nodots. rewrite CF. constructor; [split; discriminate|]. eapply Forall_impl; [|exact PD]. intros a [_ [_ [_ X]]]. exact X. }
  set (p' := if hd0 p =? 47 then tl p else p).
  assert (P' : cstr p' /\ nodots p').
  { unfold p'. destruct (hd0 p =? 47) eqn:E; [|auto]. destruct p as [|c p]; [discriminate|]. cbn in E. apply Z.eqb_eq in E. subst c. cbn [tl].
    split; [inversion C; assumption|]. apply (nodots_after [] p). exact N. }
  assert (E : prepend_s (text D) p = text D ++ match p' with [] => [] | _ => slash :: p' end).
  { unfold prepend_s. rewrite T. fold p'. destruct p'; reflexivity. }
  rewrite E. destruct P' as [C' N']. destruct p' as [|c p']; [rewrite app_nil_r; auto|]. split.
  - apply cstr_app. split; [exact CT|]. constructor; [unfold is_char, slash; lia|exact C'].
  - unfold nodots. rewrite comps_slash. apply Forall_app. split; assumption.
Qed.
(* Sockets fit: the path of the directory leaves room in sun_path. *)
Definition socket_fits (D : loc) (it : item) : Prop := i_type it = TSock -> (List.length (text D) < 108)%nat.
Lemma restore_item_good : forall n o D s it, D <> [] -> o_strip_path o = None -> cstr (i_path it) -> socket_fits D it ->
  good D s -> good D (restore_item n o (text D) s it).
Proof.
  intros n o D s it ND SP C SF G. unfold restore_item. rewrite SP. destruct (has_dot_component (i_path it)) eqn:HD; [exact G|].
  destruct (strip_path_components (o_strip o) (i_path it)) as [p|] eqn:S; [|exact G]. cbn [strip_from_path]. cbv zeta.
  destruct (canonicalise n (r_fs s) (text D) (prepend_s (text D) p)) as [F|] eqn:K; [|exact G].
  match goal with |- good D (if ?b then _ else _) => destruct b; [|exact G] end.
  apply restore_one_good; [exact ND|exact SF|]. split; [exact G|].
  assert (X : cstr p /\ nodots p).
  { pose proof (nodots_of _ C HD) as N. apply strip_components_spec in S. destruct S as [->|[a E]]; [auto|].
    split; [|rewrite E in N; eapply nodots_after; exact N]. rewrite E in C. apply cstr_app in C. destruct C as [_ C]. inversion C; assumption. }
  destruct X as [Cp Np]. destruct G as [W [ED L]].
  destruct (full_spec D p ND (wf_names _ _ _ W ED) Cp Np) as [C1 N1]. eapply canonicalise_held; eauto.
Qed.
Theorem restore_stays_inside : forall n o D its s, wf (r_fs s) -> r_fs s D = Some ODir -> r_log s = [] -> o_strip_path o = None ->
  Forall (fun it => cstr (i_path it) /\ socket_fits D it) its -> entries_inside D (r_log (restore_run n o (text D) its s)).
Proof.
  intros n o D its s W ED L SP F. destruct D as [|d D].
  - intros p c _. exists p. reflexivity.
  - assert (G : good (d :: D) s) by (split; [exact W|split; [exact ED|rewrite L; intros p c []]]).
    cut (good (d :: D) (restore_run n o (text (d :: D)) its s)); [intros [_ [_ X]]; exact X|]. clear W ED L.
    revert s G. induction F as [|it its [C SF] F IH]; intros s G; [exact G|].
    cbn [restore_run fold_left]. apply IH. apply restore_item_good; auto. discriminate.
Qed.

(* ---------- every change of the tree is in the log ---------- *)
Definition logged (s s' : rst) : Prop := (forall e, In e (r_log s) -> In e (r_log s')) /\
  forall l, r_fs s' l = r_fs s l \/ exists p c, l = p ++ [c] /\ In (EName p c) (r_log s').
Lemma logged_refl : forall s, logged s s.
Proof. intros s. split; auto. Qed.
Lemma logged_trans : forall a b c, logged a b -> logged b c -> logged a c.
Proof.
  intros a b c [A1 A2] [B1 B2]. split; [auto|]. intros l. destruct (B2 l) as [E|X]; [|right; exact X]. rewrite E.
  destruct (A2 l) as [E2|[p [x [-> I]]]]; [left; exact E2|right; eauto].
Qed.
Lemma logged_quiet : forall s s', r_fs s' = r_fs s -> (forall e, In e (r_log s) -> In e (r_log s')) -> logged s s'.
Proof. intros s s' E I. split; [exact I|]. intros l. left. rewrite E. reflexivity. Qed.
Lemma logged_luck : forall s b s', luck s = (b, s') -> logged s s'.
Proof. intros s b s' H. destruct (luck_same _ _ _ H) as [A [_ B]]. apply logged_quiet; [exact A|rewrite B; auto]. Qed.
Lemma logged_put : forall s d c o, logged s (with_ev (with_fs s (put (r_fs s) (d ++ [c]) o)) (EName d c)).
Proof.
  intros s d c o. split; [intros e I; right; exact I|]. intros l. cbn. destruct (loc_eqb l (d ++ [c])) eqn:E.
  - right. apply loc_eqb_eq in E. exists d, c. auto.
  - left. unfold put. rewrite E. reflexivity.
Qed.
Lemma make_logged : forall n so o p s r s', make n so o p s = (r, s') -> logged s s'.
Proof.
  intros n so o p s r s' H. unfold make in H. destruct (luck s) as [b s1] eqn:L. apply logged_luck in L.
  destruct b; [injection H as <- <-; exact L|]. destruct (parent n (r_fs s1) p) as [d c sl| |]; try (injection H as <- <-; exact L).
  destruct (r_fs s1 (d ++ [c])); [injection H as <- <-; exact L|]. destruct (sl && negb so); injection H as <- <-; [exact L|].
  eapply logged_trans; [exact L|apply logged_put].
Qed.
Lemma unlink_logged : forall n p s r s', unlink n p s = (r, s') -> logged s s'.
Proof.
  intros n p s r s' H. unfold unlink in H. destruct (luck s) as [b s1] eqn:L. apply logged_luck in L.
  destruct b; [injection H as <- <-; exact L|]. destruct (parent n (r_fs s1) p) as [d c sl| |]; try (injection H as <- <-; exact L).
  destruct (r_fs s1 (d ++ [c])) as [[| |]|]; try (injection H as <- <-; exact L); destruct sl; injection H as <- <-; try exact L;
    (eapply logged_trans; [exact L|apply logged_put]).
Qed.
Lemma open_logged : forall n cr p s r s', open_w n cr p s = (r, s') -> logged s s'.
Proof.
  intros n cr p s r s' H. unfold open_w in H. destruct (luck s) as [b s1] eqn:L. apply logged_luck in L.
  destruct b; [injection H as <- <-; exact L|]. destruct (parent n (r_fs s1) p) as [d c [|]| |]; try (injection H as <- <-; exact L).
  destruct (r_fs s1 (d ++ [c])) as [[| |]|]; try (injection H as <- <-; exact L).
  - injection H as <- <-. destruct cr; [|exact L]. eapply logged_trans; [exact L|]. apply logged_quiet; [reflexivity|intros e I; right; exact I].
  - destruct cr; injection H as <- <-; [|exact L]. eapply logged_trans; [exact L|].
    eapply logged_trans; [apply logged_put|]. apply logged_quiet; [reflexivity|auto].
Qed.
Lemma setattr_logged : forall n f p s ok s', setattr n f p s = (ok, s') -> logged s s'.
Proof.
  intros n f p s ok s' H. destruct (setattr_same _ _ _ _ _ _ H) as [A [_ [B|[l [B _]]]]]; (apply logged_quiet; [exact A|rewrite B]); [auto|intros e I; right; exact I].
Qed.
Lemma attribs_logged : forall n p t s, logged s (attribs_set n p t s).
Proof.
  intros n p t s. unfold attribs_set. destruct (setattr n false p s) as [ok s1] eqn:E1. apply setattr_logged in E1. destruct ok; [|exact E1].
  assert (X : forall s0, logged s0 (snd (setattr n false p s0))) by (intros s0; destruct (setattr n false p s0) eqn:E; eapply setattr_logged; eauto).
  destruct (setattr n true p s1) as [ok s2] eqn:E2. apply setattr_logged in E2.
  destruct t; try (destruct ok); eauto using logged_trans.
Qed.
Lemma mkpath_logged : forall n rcs s ok s', mkpath_r n rcs s = (ok, s') -> logged s s'.
Proof.
  intros n rcs. induction rcs as [|c r IH]; intros s ok s' H; cbn [mkpath_r] in H; [injection H as <- <-; apply logged_refl|].
  destruct r as [|c2 r]; [injection H as <- <-; apply logged_refl|].
  destruct (join (rev (c2 :: r))) as [|z0 z]; [injection H as <- <-; apply logged_refl|].
  destruct (lstat n (r_fs s) (z0 :: z)); [injection H as <- <-; apply logged_refl|].
  destruct (mkpath_r n (c2 :: r) s) as [ok1 s1] eqn:M. apply IH in M. destruct ok1; [|injection H as <- <-; exact M].
  destruct (mkdir n (z0 :: z) s1) as [m s2] eqn:K. unfold mkdir in K. apply make_logged in K. injection H as <- <-. eapply logged_trans; eauto.
Qed.
Lemma build_logged : forall n p s ok s', build_path n p s = (ok, s') -> logged s s'.
Proof. intros. eapply mkpath_logged; eauto. Qed.
Lemma extrameta_logged : forall n p ms s ok s', set_extrameta n p ms s = (ok, s') -> logged s s'.
Proof.
  intros n p ms. induction ms as [|m ms IH]; intros s ok s' H; cbn in H; [injection H as <- <-; apply logged_refl|].
  destruct (setattr n m p s) as [a s1] eqn:E1. destruct (set_extrameta n p ms s1) as [b s2] eqn:E2. injection H as <- <-.
  apply setattr_logged in E1. apply IH in E2. eapply logged_trans; eauto.
Qed.
Lemma restore_dir_logged : forall n p it s, logged s (restore_dir n p it s).
Proof.
  intros n p it s. unfold restore_dir. destruct (build_path n p s) as [ok s1] eqn:B. apply build_logged in B. destruct ok; [|exact B].
  destruct (mkdir n p s1) as [m s2] eqn:M. unfold mkdir in M. apply make_logged in M.
  destruct (lstat n (r_fs s1) p) as [[| |]|]; try destruct m; eauto using logged_trans, attribs_logged.
Qed.
Lemma restore_one_logged : forall n dir p it s, logged s (restore_one n dir p it s).
Proof.
  intros n dir p it s. unfold restore_one. cbv zeta.
  destruct (i_cmd it =? CMD_DIRECTORY); [apply restore_dir_logged|].
  destruct (cmd_is_link (i_cmd it)).
  { unfold restore_link. destruct (build_path n p s) as [ok s1] eqn:B. apply build_logged in B. destruct ok; [|exact B].
    destruct (make_link n dir p it s1) as [ok s2] eqn:M.
    assert (X : logged s1 s2).
    { unfold make_link in M. destruct (unlink n p s1) as [u s3] eqn:U. apply unlink_logged in U.
      destruct (i_lcmd it =? CMD_HARD_LINK); [|destruct (i_lcmd it =? CMD_SOFT_LINK); [|injection M as <- <-; exact U]].
      - unfold link in M. destruct (lstat n (r_fs s3) (prepend_s dir (i_link it))) as [[|i|t]|]; try (injection M as <- <-; exact U).
        + destruct (make n false (OFile i) p s3) as [m s4] eqn:K. apply make_logged in K. injection M as <- <-. eapply logged_trans; eauto.
        + destruct (make n false (OLnk t) p s3) as [m s4] eqn:K. apply make_logged in K. injection M as <- <-. eapply logged_trans; eauto.
      - unfold symlink in M. destruct (i_link it); [injection M as <- <-; exact U|].
        destruct (make n false _ p s3) as [m s4] eqn:K. apply make_logged in K. injection M as <- <-. eapply logged_trans; eauto. }
    destruct ok; eauto using logged_trans, attribs_logged. }
  destruct (i_cmd it =? CMD_SPECIAL).
  { unfold restore_special. destruct (build_path n p s) as [ok s1] eqn:B. apply build_logged in B. destruct ok; [|exact B].
    assert (K : forall q m s2, mknode n q s1 = (m, s2) -> logged s s2).
    { intros q m s2 M. unfold mknode in M. apply make_logged in M. eapply logged_trans; [exact B|]. eapply logged_trans; [|exact M].
      apply logged_quiet; auto. }
    destruct (mksock n p s1) as [ms ss] eqn:Ms. pose proof (K _ _ _ Ms) as K1. destruct (mknode n p s1) as [mn sn] eqn:Mn. pose proof (K _ _ _ Mn) as K2.
    destruct (i_type it); try exact B; try destruct ms; try destruct mn; eauto using logged_trans, attribs_logged. }
  match goal with |- logged s (if ?b then _ else _) => destruct b end.
  { destruct (i_datapth it); [|apply logged_refl].
    unfold restore_file. destruct (build_path n p s) as [ok s1] eqn:B. apply build_logged in B. destruct ok; [|exact B].
    destruct (open_for_restore n p it s1) as [f s2] eqn:O.
    assert (X : logged s1 s2).
    { unfold open_for_restore in O. destruct (unlink n p s1) as [m s3] eqn:U. apply unlink_logged in U.
      assert (Y : match m with Done | Noent => open_w n true p s3 | _ => (None, s3) end = (f, s2) -> logged s1 s2).
      { intros Q. destruct m; try (injection Q as <- <-; exact U); (apply open_logged in Q; eapply logged_trans; eauto). }
      destruct (i_type it); try (apply Y; exact O).
      destruct (mkdir n p s1) as [k s4] eqn:K. unfold mkdir in K. apply make_logged in K. apply open_logged in O. eapply logged_trans; eauto. }
    destruct f as [i|]; [|eauto using logged_trans]. cbv zeta.
    assert (Z : logged s (attribs_set n p (i_type it) (with_ev s2 (EData i)))).
    { eapply logged_trans; [exact B|]. eapply logged_trans; [exact X|]. eapply logged_trans; [|apply attribs_logged].
      apply logged_quiet; [reflexivity|intros e I; right; exact I]. }
    destruct (i_xfer it); eauto using logged_trans, attribs_logged. }
  match goal with |- logged s (if ?b then _ else _) => destruct b end; [|apply logged_refl].
  unfold restore_metadata. cbv zeta.
  assert (R0 : logged s match i_type it with TDir => restore_dir n p it s | _ => s end).
  { destruct (i_type it); try apply logged_refl. apply restore_dir_logged. }
  destruct (build_path n p match i_type it with TDir => restore_dir n p it s | _ => s end) as [ok s1] eqn:B. apply build_logged in B.
  assert (R1 : logged s s1) by eauto using logged_trans. destruct (ok && i_xfer it); [|exact R1].
  destruct (set_extrameta n p (i_meta it) s1) as [ok2 s2] eqn:X. apply extrameta_logged in X.
  destruct ok2; [|eauto using logged_trans]. destruct (setattr n false p s2) as [a s3] eqn:A. apply setattr_logged in A. cbn [snd]. eauto using logged_trans.
Qed.
Lemma restore_run_logged : forall n o dir its s, logged s (restore_run n o dir its s).
Proof.
  intros n o dir its. induction its as [|it its IH]; intros s; [apply logged_refl|]. cbn [restore_run fold_left].
  eapply logged_trans; [|apply IH]. unfold restore_item. destruct (has_dot_component (i_path it)); [apply logged_refl|].
  destruct (strip_path_components (o_strip o) (i_path it)); [|apply logged_refl]. cbv zeta.
  destruct (canonicalise n (r_fs s) dir _); [|apply logged_refl].
  match goal with |- logged s (if ?b then _ else _) => destruct b; [|apply logged_refl] end. apply restore_one_logged.
Qed.
(* Whatever is not below the directory is as it was, and the directory is still
   there. *)
Theorem restore_outside_unchanged : forall n o D its s, wf (r_fs s) -> r_fs s D = Some ODir -> r_log s = [] -> o_strip_path o = None ->
  Forall (fun it => cstr (i_path it) /\ socket_fits D it) its ->
  forall l, (forall e, e <> [] -> l <> D ++ e) -> r_fs (restore_run n o (text D) its s) l = r_fs s l.
Proof.
  intros n o D its s W ED L SP F l N. pose proof (restore_stays_inside n o D its s W ED L SP F) as H.
  destruct (restore_run_logged n o (text D) its s) as [_ X]. destruct (X l) as [E|[p [c [-> I]]]]; [exact E|].
  exfalso. destruct (H _ _ I) as [e ->]. apply (N (e ++ [c])); [destruct e; discriminate|]. rewrite app_assoc. reflexivity.
Qed.

(* ---------- which files are written ---------- *)
Definition nodata (s s' : rst) : Prop := r_next s <= r_next s' /\ forall i, In (EData i) (r_log s') -> In (EData i) (r_log s).
Lemma nodata_refl : forall s, nodata s s.
Proof. intros s. split; [lia|auto]. Qed.
Lemma nodata_trans : forall a b c, nodata a b -> nodata b c -> nodata a c.
Proof. intros a b c [A1 A2] [B1 B2]. split; [lia|auto]. Qed.
Lemma nodata_luck : forall s b s', luck s = (b, s') -> nodata s s'.
Proof. intros s b s' H. destruct (luck_same _ _ _ H) as [_ [A B]]. split; [lia|rewrite B; auto]. Qed.
Lemma nodata_name : forall s fs d c, nodata s (with_ev (with_fs s fs) (EName d c)).
Proof. intros s fs d c. split; [cbn; lia|]. intros i [X|X]; [discriminate|exact X]. Qed.
Lemma make_nodata : forall n so o p s r s', make n so o p s = (r, s') -> nodata s s'.
Proof.
  intros n so o p s r s' H. unfold make in H. destruct (luck s) as [b s1] eqn:L. apply nodata_luck in L.
  destruct b; [injection H as <- <-; exact L|]. destruct (parent n (r_fs s1) p) as [d c sl| |]; try (injection H as <- <-; exact L).
  destruct (r_fs s1 (d ++ [c])); [injection H as <- <-; exact L|]. destruct (sl && negb so); injection H as <- <-; [exact L|].
  eapply nodata_trans; [exact L|apply nodata_name].
Qed.
Lemma unlink_nodata : forall n p s r s', unlink n p s = (r, s') -> nodata s s'.
Proof.
  intros n p s r s' H. unfold unlink in H. destruct (luck s) as [b s1] eqn:L. apply nodata_luck in L.
  destruct b; [injection H as <- <-; exact L|]. destruct (parent n (r_fs s1) p) as [d c sl| |]; try (injection H as <- <-; exact L).
  destruct (r_fs s1 (d ++ [c])) as [[| |]|]; try (injection H as <- <-; exact L); destruct sl; injection H as <- <-; try exact L;
    (eapply nodata_trans; [exact L|apply nodata_name]).
Qed.
Lemma setattr_nodata : forall n f p s ok s', setattr n f p s = (ok, s') -> nodata s s'.
Proof.
  intros n f p s ok s' H. destruct (setattr_same _ _ _ _ _ _ H) as [_ [A [B|[l [B _]]]]]; (split; [lia|]; rewrite B); [auto|].
  intros i [X|X]; [discriminate|exact X].
Qed.
Lemma attribs_nodata : forall n p t s, nodata s (attribs_set n p t s).
Proof.
  intros n p t s. unfold attribs_set. destruct (setattr n false p s) as [ok s1] eqn:E1. apply setattr_nodata in E1. destruct ok; [|exact E1].
  assert (X : forall s0, nodata s0 (snd (setattr n false p s0))) by (intros s0; destruct (setattr n false p s0) eqn:E; eapply setattr_nodata; eauto).
  destruct (setattr n true p s1) as [ok s2] eqn:E2. apply setattr_nodata in E2.
  destruct t; try (destruct ok); eauto using nodata_trans.
Qed.
Lemma build_nodata : forall n p s ok s', build_path n p s = (ok, s') -> nodata s s'.
Proof.
  intros n p. unfold build_path. induction (rev (comps p)) as [|c r IH]; intros s ok s' H; cbn [mkpath_r] in H; [injection H as <- <-; apply nodata_refl|].
  destruct r as [|c2 r]; [injection H as <- <-; apply nodata_refl|].
  destruct (join (rev (c2 :: r))) as [|z0 z]; [injection H as <- <-; apply nodata_refl|].
  destruct (lstat n (r_fs s) (z0 :: z)); [injection H as <- <-; apply nodata_refl|].
  destruct (mkpath_r n (c2 :: r) s) as [ok1 s1] eqn:M. apply IH in M. destruct ok1; [|injection H as <- <-; exact M].
  destruct (mkdir n (z0 :: z) s1) as [m s2] eqn:K. unfold mkdir in K. apply make_nodata in K. injection H as <- <-. eapply nodata_trans; eauto.
Qed.
Lemma extrameta_nodata : forall n p ms s ok s', set_extrameta n p ms s = (ok, s') -> nodata s s'.
Proof.
  intros n p ms. induction ms as [|m ms IH]; intros s ok s' H; cbn in H; [injection H as <- <-; apply nodata_refl|].
  destruct (setattr n m p s) as [a s1] eqn:E1. destruct (set_extrameta n p ms s1) as [b s2] eqn:E2. injection H as <- <-.
  apply setattr_nodata in E1. apply IH in E2. eapply nodata_trans; eauto.
Qed.
Lemma restore_dir_nodata : forall n p it s, nodata s (restore_dir n p it s).
Proof.
  intros n p it s. unfold restore_dir. destruct (build_path n p s) as [ok s1] eqn:B. apply build_nodata in B. destruct ok; [|exact B].
  destruct (mkdir n p s1) as [m s2] eqn:M. unfold mkdir in M. apply make_nodata in M.
  destruct (lstat n (r_fs s1) p) as [[| |]|]; try destruct m; eauto using nodata_trans, attribs_nodata.
Qed.
(* With fewer entries, a path that still leads somewhere leads where it did. *)
Lemma walks_less : forall fs fs' f cur cs l, (forall x o, fs' x = Some o -> fs x = Some o) ->
  walks fs' f cur cs (Some l) -> walks fs f cur cs (Some l).
Proof.
  intros fs fs' f cur cs l S H. remember (Some l) as x eqn:X. revert X.
  induction H as [cur|cur c r E|cur c r x E D H IH|cur r x E H IH|cur c r E O E2|cur c r E O E2 F|cur c r t x E O E2 F T H IH|cur c t E O E2 F|cur c r o x E O E2 NL H IH];
    intros X; try discriminate; subst.
  - constructor.
  - apply w_stay; auto.
  - apply w_up; auto.
  - eapply w_link; eauto.
  - eapply w_stop; eauto.
  - eapply w_go; eauto.
Qed.
Lemma tail_unique : forall (a a' : list bytes) c c' b b', a ++ c :: b = a' ++ c' :: b' -> Forall (eq []) b -> Forall (eq []) b' -> c <> [] -> c' <> [] ->
  a = a' /\ c = c'.
Proof.
  intros a a' c c' b b' E F F' N N'. apply app_split in E. destruct E as [[x [E1 E2]]|[e [E1 E2]]].
  - destruct x as [|x0 x]; [rewrite app_nil_r in E1; cbn in E2; injection E2 as -> _; auto|].
    injection E2 as -> E2. rewrite E2 in F'. apply Forall_app in F'. destruct F' as [_ F']. inversion F'; congruence.
  - exfalso. rewrite E2 in F. apply Forall_app in F. destruct F as [_ F]. inversion F; congruence.
Qed.
Lemma parent_less : forall n fs fs' p d c sl d' c' sl', (forall x o, fs' x = Some o -> fs x = Some o) ->
  parent n fs p = PIs d c sl -> parent n fs' p = PIs d' c' sl' -> d' = d /\ c' = c.
Proof.
  intros n fs fs' p d c sl d' c' sl' S H H'. apply parent_spec in H, H'.
  destruct H as [a [b [E [F [O [Wk _]]]]]], H' as [a' [b' [E' [F' [O' [Wk' _]]]]]]. rewrite E in E'.
  destruct (tail_unique _ _ _ _ _ _ E' F F' (proj1 O) (proj1 O')) as [<- <-].
  apply (walks_less fs) in Wk'; [|exact S]. pose proof (walks_det _ _ _ _ _ Wk _ Wk') as X. injection X as ->. auto.
Qed.
(* A file opened after its old entry was removed is a new one. *)
Lemma fresh_open : forall n p s m s1 f s2, unlink n p s = (m, s1) -> m = Done \/ m = Noent -> open_w n true p s1 = (f, s2) ->
  r_next s <= r_next s2 /\ (forall i, f = Some i -> r_next s <= i) /\ (forall i, In (EData i) (r_log s2) -> In (EData i) (r_log s)).
Proof.
  intros n p s m s1 f s2 U M O. pose proof (unlink_nodata _ _ _ _ _ U) as [N1 N2].
  assert (A : forall d c sl, parent n (r_fs s1) p = PIs d c sl -> r_fs s1 (d ++ [c]) = None).
  { intros d c sl P. unfold unlink in U. destruct (luck s) as [b s0] eqn:L. destruct (luck_same _ _ _ L) as [F1 [F2 F3]].
    destruct b; [injection U as <- <-; destruct M; discriminate|]. rewrite F1 in U.
    destruct (parent n (r_fs s) p) as [d0 c0 sl0| |] eqn:P0; [|injection U as <- <-; rewrite F1 in P; congruence|injection U as <- <-; destruct M; discriminate].
    destruct (r_fs s (d0 ++ [c0])) as [[|i|t]|] eqn:E; try (injection U as <- <-; destruct M; discriminate);
      [| |injection U as <- <-; rewrite F1 in *; congruence];
      (destruct sl0; [injection U as <- <-; destruct M; discriminate|]); injection U as <- <-; cbn in *;
      (destruct (parent_less n (r_fs s) (put (r_fs s) (d0 ++ [c0]) None) p d0 c0 false d c sl) as [-> ->]; [|exact P0|exact P|apply put_same]);
      intros x o X; unfold put in X; destruct (loc_eqb x (d0 ++ [c0])); congruence. }
  unfold open_w in O. destruct (luck s1) as [b s0] eqn:L. destruct (luck_same _ _ _ L) as [F1 [F2 F3]].
  destruct b; [injection O as <- <-; rewrite F2, F3; split; [lia|split; [discriminate|exact N2]]|].
  rewrite F1 in O. destruct (parent n (r_fs s1) p) as [d c [|]| |] eqn:P;
    try (injection O as <- <-; rewrite F2, F3; split; [lia|split; [discriminate|exact N2]]).
  rewrite (A _ _ _ eq_refl) in O. injection O as <- <-. cbn. rewrite F2, F3. split; [lia|]. split; [intros i X; injection X as <-; lia|].
  intros i [X|X]; [discriminate|exact (N2 _ X)].
Qed.
(* Data are only for entries that are not of the type of a directory. *)
Definition plain_data (it : item) : Prop := i_datapth it = true -> i_type it <> TDir.
Definition newer (k : Z) (s : rst) : Prop := k <= r_next s /\ forall i, In (EData i) (r_log s) -> k <= i.
Lemma newer_nodata : forall k s s', nodata s s' -> newer k s -> newer k s'.
Proof. intros k s s' [A B] [C D]. split; [lia|auto]. Qed.
Lemma restore_one_newer : forall n dir p it s k, plain_data it -> newer k s -> newer k (restore_one n dir p it s).
Proof.
  intros n dir p it s k PD N. unfold restore_one. cbv zeta.
  destruct (i_cmd it =? CMD_DIRECTORY); [eapply newer_nodata; [apply restore_dir_nodata|exact N]|].
  destruct (cmd_is_link (i_cmd it)).
  { eapply newer_nodata; [|exact N]. clear N PD k. unfold restore_link. destruct (build_path n p s) as [ok s1] eqn:B. apply build_nodata in B. destruct ok; [|exact B].
    destruct (make_link n dir p it s1) as [ok s2] eqn:M.
    assert (X : nodata s1 s2).
    { unfold make_link in M. destruct (unlink n p s1) as [u s3] eqn:U. apply unlink_nodata in U.
      destruct (i_lcmd it =? CMD_HARD_LINK); [|destruct (i_lcmd it =? CMD_SOFT_LINK); [|injection M as <- <-; exact U]].
      - unfold link in M. destruct (lstat n (r_fs s3) (prepend_s dir (i_link it))) as [[|i|t]|]; try (injection M as <- <-; exact U).
        + destruct (make n false (OFile i) p s3) as [m s4] eqn:K. apply make_nodata in K. injection M as <- <-. eapply nodata_trans; eauto.
        + destruct (make n false (OLnk t) p s3) as [m s4] eqn:K. apply make_nodata in K. injection M as <- <-. eapply nodata_trans; eauto.
      - unfold symlink in M. destruct (i_link it); [injection M as <- <-; exact U|].
        destruct (make n false _ p s3) as [m s4] eqn:K. apply make_nodata in K. injection M as <- <-. eapply nodata_trans; eauto. }
    destruct ok; eauto using nodata_trans, attribs_nodata. }
  destruct (i_cmd it =? CMD_SPECIAL).
  { eapply newer_nodata; [|exact N]. clear N PD k.
    unfold restore_special. destruct (build_path n p s) as [ok s1] eqn:B. apply build_nodata in B. destruct ok; [|exact B].
    assert (K : forall q m s2, mknode n q s1 = (m, s2) -> nodata s s2).
    { intros q m s2 M. unfold mknode in M. apply make_nodata in M. eapply nodata_trans; [exact B|]. eapply nodata_trans; [|exact M].
      split; [cbn; lia|auto]. }
    destruct (mksock n p s1) as [ms ss] eqn:Ms. pose proof (K _ _ _ Ms) as K1. destruct (mknode n p s1) as [mn sn] eqn:Mn. pose proof (K _ _ _ Mn) as K2.
    destruct (i_type it); try exact B; try destruct ms; try destruct mn; eauto using nodata_trans, attribs_nodata. }
  match goal with |- newer k (if ?b then _ else _) => destruct b end.
  { unfold plain_data in PD. destruct (i_datapth it); [|exact N]. specialize (PD eq_refl).
    unfold restore_file. destruct (build_path n p s) as [ok s1] eqn:B. apply build_nodata in B. pose proof (newer_nodata k _ _ B N) as N1. destruct ok; [|exact N1].
    destruct (open_for_restore n p it s1) as [f s2] eqn:O.
    assert (X : newer k s2 /\ forall i, f = Some i -> k <= i).
    { unfold open_for_restore in O. destruct (unlink n p s1) as [m s3] eqn:U.
      assert (Y : match m with Done | Noent => open_w n true p s3 | _ => (None, s3) end = (f, s2) -> newer k s2 /\ forall i, f = Some i -> k <= i).
      { intros Q. assert (Z : m = Done \/ m = Noent -> open_w n true p s3 = (f, s2) -> newer k s2 /\ forall i, f = Some i -> k <= i).
        { intros Z1 Z2. destruct (fresh_open _ _ _ _ _ _ _ U Z1 Z2) as [A [A2 A3]]. destruct N1 as [C C2].
          split; [split; [lia|auto]|]. intros i E. specialize (A2 _ E). lia. }
        destruct m; try (apply Z; [auto|exact Q]); injection Q as <- <-;
          (split; [eapply newer_nodata; [eapply unlink_nodata; exact U|exact N1]|discriminate]). }
      destruct (i_type it); try (apply Y; exact O). congruence. }
    destruct X as [N2 FR]. destruct f as [i|]; [|exact N2]. cbv zeta.
    assert (Z : newer k (attribs_set n p (i_type it) (with_ev s2 (EData i)))).
    { eapply newer_nodata; [apply attribs_nodata|]. destruct N2 as [C C2]. split; [exact C|]. intros j [E|E]; [injection E as <-; auto|auto]. }
    destruct (i_xfer it); [eapply newer_nodata; [apply attribs_nodata|]|]; exact Z. }
  match goal with |- newer k (if ?b then _ else _) => destruct b end; [|exact N].
  eapply newer_nodata; [|exact N]. unfold restore_metadata. cbv zeta.
  assert (R0 : nodata s match i_type it with TDir => restore_dir n p it s | _ => s end).
  { destruct (i_type it); try apply nodata_refl. apply restore_dir_nodata. }
  destruct (build_path n p match i_type it with TDir => restore_dir n p it s | _ => s end) as [ok s1] eqn:B. apply build_nodata in B.
  assert (R1 : nodata s s1) by eauto using nodata_trans. destruct (ok && i_xfer it); [|exact R1].
  destruct (set_extrameta n p (i_meta it) s1) as [ok2 s2] eqn:X. apply extrameta_nodata in X.
  destruct ok2; [|eauto using nodata_trans]. destruct (setattr n false p s2) as [a s3] eqn:A. apply setattr_nodata in A. cbn [snd]. eauto using nodata_trans.
Qed.
(* Nothing is written into a file that was there before the restore, under this or
   any other name. *)
Theorem restore_data_new : forall n o dir its s, Forall plain_data its -> r_log s = [] -> (forall l i, r_fs s l = Some (OFile i) -> i < r_next s) ->
  forall i l, In (EData i) (r_log (restore_run n o dir its s)) -> r_fs s l <> Some (OFile i).
Proof.
  intros n o dir its s F L Fr i l I E. apply Fr in E. set (k := r_next s) in *.
  assert (N : newer k s) by (split; [unfold k; lia|rewrite L; intros j []]).
  cut (newer k (restore_run n o dir its s)); [intros [_ X]; specialize (X _ I); lia|]. clear I E Fr L.
  clearbody k. revert s N. induction F as [|it its P F IH]; intros s N; [exact N|]. cbn [restore_run fold_left]. apply IH.
  unfold restore_item. destruct (has_dot_component (i_path it)); [exact N|].
  destruct (strip_path_components (o_strip o) (i_path it)); [|exact N]. cbv zeta.
  destruct (canonicalise n (r_fs s) dir _); [|exact N].
  match goal with |- newer k (if ?b then _ else _) => destruct b; [|exact N] end. apply restore_one_newer; [exact P|exact N].
Qed.

(* ---------- whose attributes are set ---------- *)
Definition attrs_inside (D : loc) (log : list event) : Prop := forall l, In (EAttr l) log -> inside D l.
Definition noattr (s s' : rst) : Prop := forall l, In (EAttr l) (r_log s') -> In (EAttr l) (r_log s).
Lemma noattr_luck : forall s b s', luck s = (b, s') -> noattr s s'.
Proof. intros s b s' H. destruct (luck_same _ _ _ H) as [_ [_ B]]. intros l I. rewrite B in I. exact I. Qed.
Lemma noattr_trans : forall a b c, noattr a b -> noattr b c -> noattr a c.
Proof. intros a b c A B l I. auto. Qed.
Lemma noattr_refl : forall s, noattr s s.
Proof. intros s l I. exact I. Qed.
Lemma noattr_name : forall s fs d c, noattr s (with_ev (with_fs s fs) (EName d c)).
Proof. intros s fs d c l [X|X]; [discriminate|exact X]. Qed.
Lemma make_noattr : forall n so o p s r s', make n so o p s = (r, s') -> noattr s s'.
Proof.
  intros n so o p s r s' H. unfold make in H. destruct (luck s) as [b s1] eqn:L. apply noattr_luck in L.
  destruct b; [injection H as <- <-; exact L|]. destruct (parent n (r_fs s1) p) as [d c sl| |]; try (injection H as <- <-; exact L).
  destruct (r_fs s1 (d ++ [c])); [injection H as <- <-; exact L|]. destruct (sl && negb so); injection H as <- <-; [exact L|].
  eapply noattr_trans; [exact L|apply noattr_name].
Qed.
Lemma unlink_noattr : forall n p s r s', unlink n p s = (r, s') -> noattr s s'.
Proof.
  intros n p s r s' H. unfold unlink in H. destruct (luck s) as [b s1] eqn:L. apply noattr_luck in L.
  destruct b; [injection H as <- <-; exact L|]. destruct (parent n (r_fs s1) p) as [d c sl| |]; try (injection H as <- <-; exact L).
  destruct (r_fs s1 (d ++ [c])) as [[| |]|]; try (injection H as <- <-; exact L); destruct sl; injection H as <- <-; try exact L;
    (eapply noattr_trans; [exact L|apply noattr_name]).
Qed.
Lemma open_noattr : forall n cr p s r s', open_w n cr p s = (r, s') -> noattr s s'.
Proof.
  intros n cr p s r s' H. unfold open_w in H. destruct (luck s) as [b s1] eqn:L. apply noattr_luck in L.
  destruct b; [injection H as <- <-; exact L|]. destruct (parent n (r_fs s1) p) as [d c [|]| |]; try (injection H as <- <-; exact L).
  destruct (r_fs s1 (d ++ [c])) as [[| |]|]; try (injection H as <- <-; exact L).
  - injection H as <- <-. destruct cr; [|exact L]. intros l [X|X]; [discriminate|apply L; exact X].
  - destruct cr; injection H as <- <-; [|exact L]. intros l [X|X]; [discriminate|apply L; exact X].
Qed.
Lemma build_noattr : forall n p s ok s', build_path n p s = (ok, s') -> noattr s s' /\
  forall x o, o <> ODir -> r_fs s' x = Some o -> r_fs s x = Some o.
Proof.
  intros n p. unfold build_path. induction (rev (comps p)) as [|c r IH]; intros s ok s' H; cbn [mkpath_r] in H; [injection H as <- <-; split; auto using noattr_refl|].
  destruct r as [|c2 r]; [injection H as <- <-; split; auto using noattr_refl|].
  destruct (join (rev (c2 :: r))) as [|z0 z]; [injection H as <- <-; split; auto using noattr_refl|].
  destruct (lstat n (r_fs s) (z0 :: z)); [injection H as <- <-; split; auto using noattr_refl|].
  destruct (mkpath_r n (c2 :: r) s) as [ok1 s1] eqn:M. apply IH in M. destruct ok1; [|injection H as <- <-; exact M]. destruct M as [M1 M2].
  destruct (mkdir n (z0 :: z) s1) as [m s2] eqn:K. unfold mkdir in K. pose proof (make_noattr _ _ _ _ _ _ _ K) as K1. injection H as <- <-.
  split; [eapply noattr_trans; eauto|]. intros x o NO X. apply M2; [exact NO|]. clear -K X NO. unfold make in K. destruct (luck s1) as [b s3] eqn:L.
  destruct (luck_same _ _ _ L) as [F1 _]. destruct b; [injection K as <- <-; rewrite <- F1; exact X|].
  destruct (parent n (r_fs s3) (z0 :: z)) as [d c sl| |]; try (injection K as <- <-; rewrite <- F1; exact X).
  destruct (r_fs s3 (d ++ [c])) eqn:E; [injection K as <- <-; rewrite <- F1; exact X|].
  rewrite andb_false_r in K. injection K as <- <-. cbn in X. unfold put in X. destruct (loc_eqb x (d ++ [c])); [congruence|]. rewrite <- F1. exact X.
Qed.

Lemma held_nofollow : forall fs p ms, held fs p ms -> Forall okname ms -> forall l, walks fs false p ms (Some l) -> inside p l.
Proof.
  intros fs p ms H. induction H as [p E|p c E N|p cs E H IH|p c o1 cs E P E2 NL H IH|p c cs E P E2 F|p c t cs E P E2 WN NN|p i cs E]; intros FO l Wk.
  - inversion Wk; subst. apply inside_refl.
  - inversion FO as [|? ? [->|P] _]; subst; [congruence|].
    destruct (walks_cons_proper _ _ _ _ _ _ E (proper_ordinary _ P) Wk) as [[_ X]|[[o [E2 [_ X]]]|[t E2]]]; [discriminate| |].
    + inversion X; subst. exists [c]. reflexivity.
    + pose proof (walks_det _ _ _ _ _ Wk _ (w_stop fs false p c t E (proper_ordinary _ P) E2 eq_refl)) as X. injection X as ->. exists [c]. reflexivity.
  - inversion FO; subst. apply walks_empty in Wk; [|exact E]. auto.
  - inversion FO; subst. destruct (walks_cons_proper _ _ _ _ _ _ E (proper_ordinary _ P) Wk) as [[_ X]|[[o [_ [_ X]]]|[t X]]]; [discriminate| |exfalso; rewrite E2 in X; injection X as X; exact (NL _ X)].
    eapply inside_step. eauto.
  - destruct (walks_cons_proper _ _ _ _ _ _ E (proper_ordinary _ P) Wk) as [[_ X]|[[o [X _]]|[t X]]]; congruence.
  - exfalso. destruct cs as [|c2 cs]; [congruence|]. destruct (walks_app _ _ _ _ _ Wk [c] (c2 :: cs) eq_refl) as [[_ X]|[l' [A _]]]; [discriminate|discriminate|].
    pose proof (walks_det _ _ _ _ _ WN _ A). discriminate.
  - destruct cs as [|c cs]; [inversion Wk; subst; apply inside_refl|]. inversion Wk; congruence.
Qed.
(* What is at the end of the path, if it is not a directory, is seen by lstat(),
   also before directories were made on the way. *)
Lemma walks_from_file : forall fs f p i cs l, fs p = Some (OFile i) -> walks fs f p cs (Some l) -> cs = [] /\ l = p.
Proof. intros fs f p i cs l E H. inversion H; subst; try congruence. auto. Qed.
Lemma held_seen : forall fs p ms, held fs p ms -> Forall okname ms -> forall l o n fs0, walks fs false p ms (Some l) -> fs l = Some o -> o <> ODir ->
  wf fs0 -> fs0 l = Some o -> walk n fs0 false p ms = WOk l.
Proof.
  intros fs p ms H. induction H as [p E|p c E N|p cs E H IH|p c o1 cs E P E2 NL H IH|p c cs E P E2 F|p c t' cs E P E2 WN NN|p i cs E]; intros FO l o n fs0 Wk El NO W0 E0.
  - inversion Wk; subst. congruence.
  - inversion FO as [|? ? [->|P] _]; subst; [congruence|].
    assert (l = p ++ [c]) as ->.
    { destruct (walks_cons_proper _ _ _ _ _ _ E (proper_ordinary _ P) Wk) as [[_ X]|[[o2 [E2 [_ X]]]|[t2 E2]]]; [discriminate|inversion X; subst; reflexivity|].
      pose proof (walks_det _ _ _ _ _ Wk _ (w_stop fs false p c t2 E (proper_ordinary _ P) E2 eq_refl)) as X. injection X as ->. reflexivity. }
    destruct (proj2 W0 _ _ _ E0) as [Ep _]. destruct (proper_ordinary _ P) as [O1 [O2 O3]]. apply beqb_neq in O1, O2, O3.
    destruct n; cbn [walk]; rewrite Ep; unfold is_dot, is_dotdot; rewrite O1, O2, O3; cbn [orb]; rewrite E0; destruct o; congruence.
  - inversion FO; subst. apply walks_empty in Wk; [|exact E]. pose proof (held_nofollow _ _ _ H H3 _ Wk) as [e ->].
    assert (Ep : fs0 p = Some ODir). { eapply wf_above; [exact W0|exact E0|]. intros ->. rewrite app_nil_r in El. congruence. }
    specialize (IH H3 _ _ n fs0 Wk El NO W0 E0). destruct n; cbn [walk] in *; rewrite Ep; exact IH.
  - inversion FO; subst. destruct (walks_cons_proper _ _ _ _ _ _ E (proper_ordinary _ P) Wk) as [[_ X]|[[o2 [_ [_ X]]]|[t2 X]]]; [discriminate| |exfalso; rewrite E2 in X; injection X as X; exact (NL _ X)].
    pose proof (held_nofollow _ _ _ H H3 _ X) as [e ->]. destruct (proper_ordinary _ P) as [O1 [O2 O3]]. apply beqb_neq in O1, O2, O3.
    destruct e as [|e0 e].
    + rewrite app_nil_r in *. rewrite E2 in El. injection El as ->. destruct o as [|i|t]; [congruence| |exfalso; exact (NL _ eq_refl)].
      destruct (walks_from_file _ _ _ _ _ _ E2 X) as [-> _]. destruct (proj2 W0 _ _ _ E0) as [Ep2 _].
      destruct n; cbn [walk]; rewrite Ep2; unfold is_dot, is_dotdot; rewrite O1, O2, O3, E0; reflexivity.
    + assert (Ep : fs0 (p ++ [c]) = Some ODir) by (eapply wf_above; [exact W0|exact E0|discriminate]).
      destruct (proj2 W0 _ _ _ Ep) as [Ep2 _].
      specialize (IH H3 _ _ n fs0 X El NO W0 E0). destruct n; cbn [walk] in *; rewrite Ep2; unfold is_dot, is_dotdot; rewrite O1, O2, O3, Ep; cbn [orb]; exact IH.
  - destruct (walks_cons_proper _ _ _ _ _ _ E (proper_ordinary _ P) Wk) as [[_ X]|[[o2 [X _]]|[t2 X]]]; congruence.
  - exfalso. destruct cs as [|c2 cs]; [congruence|]. destruct (walks_app _ _ _ _ _ Wk [c] (c2 :: cs) eq_refl) as [[_ X]|[l' [A _]]]; [discriminate|discriminate|].
    pose proof (walks_det _ _ _ _ _ WN _ A). discriminate.
  - destruct (walks_from_file _ _ _ _ _ _ E Wk) as [-> ->]. destruct n; reflexivity.
Qed.
Lemma walk_over_real : forall n fs D ms l, wf fs -> fs D = Some ODir -> walk n fs false D ms = WOk l -> walk n fs false [] ([] :: D ++ ms) = WOk l.
Proof.
  intros n fs D ms l W ED V.
  assert (G : forall e p, fs (p ++ e) = Some ODir -> walk n fs false (p ++ e) ms = WOk l -> walk n fs false p (e ++ ms) = WOk l).
  { clear -W. induction e as [|c e IH]; intros p Ep X; [rewrite app_nil_r in X; exact X|].
    assert (E1 : fs (p ++ [c]) = Some ODir).
    { destruct e as [|d e]; [exact Ep|]. eapply wf_above; [exact W|rewrite <- app_assoc; exact Ep|discriminate]. }
    destruct (proj2 W _ _ _ E1) as [Dp P]. replace (p ++ c :: e) with ((p ++ [c]) ++ e) in * by (rewrite <- app_assoc; reflexivity).
    specialize (IH _ Ep X). destruct (proper_ordinary _ P) as [O1 [O2 O3]]. apply beqb_neq in O1, O2, O3.
    destruct n; cbn [walk app] in *; rewrite Dp; unfold is_dot, is_dotdot; rewrite O1, O2, O3, E1; cbn [orb]; exact IH. }
  specialize (G D [] ED V). clear -G W. destruct W as [W0 _]. destruct n; cbn [walk] in *; rewrite W0; exact G.
Qed.
(* Following the last name too goes nowhere else if it is not a link. *)
Lemma held_follow : forall fs p ms, held fs p ms -> Forall okname ms -> (forall l t, walks fs false p ms (Some l) -> fs l <> Some (OLnk t)) ->
  forall l, walks fs true p ms (Some l) -> inside p l.
Proof.
  intros fs p ms H. induction H as [p E|p c E N|p cs E H IH|p c o1 cs E P E2 NL H IH|p c cs E P E2 F|p c t cs E P E2 WN NN|p i cs E]; intros FO Q l Wk.
  - inversion Wk; subst. apply inside_refl.
  - inversion FO as [|? ? [->|P] _]; subst; [congruence|].
    destruct (walks_cons_proper _ _ _ _ _ _ E (proper_ordinary _ P) Wk) as [[_ X]|[[o [E2 [_ X]]]|[t E2]]]; [discriminate| |].
    + inversion X; subst. exists [c]. reflexivity.
    + exfalso. exact (Q _ _ (w_stop fs false p c t E (proper_ordinary _ P) E2 eq_refl) E2).
  - inversion FO; subst. apply walks_empty in Wk; [|exact E]. apply IH; [assumption| |exact Wk].
    intros l' t X. apply Q. apply w_stay; auto.
  - inversion FO; subst. destruct (walks_cons_proper _ _ _ _ _ _ E (proper_ordinary _ P) Wk) as [[_ X]|[[o [_ [_ X]]]|[t X]]]; [discriminate| |exfalso; rewrite E2 in X; injection X as X; exact (NL _ X)].
    eapply inside_step, IH; [assumption| |exact X]. intros l' t Y. apply Q. eapply w_go; eauto. apply proper_ordinary. exact P.
  - destruct (walks_cons_proper _ _ _ _ _ _ E (proper_ordinary _ P) Wk) as [[_ X]|[[o [X _]]|[t X]]]; congruence.
  - exfalso. pose proof (walks_past_none _ _ _ _ _ WN Wk). discriminate.
  - destruct cs as [|c cs]; [inversion Wk; subst; apply inside_refl|]. inversion Wk; congruence.
Qed.
Lemma held_put_last : forall fs p ms o, wf fs -> held fs p ms -> forall a c l, ms = a ++ [c] -> proper c -> walks fs true p a (Some l) ->
  fs l = Some ODir -> fs (l ++ [c]) = None -> held (put fs (l ++ [c]) (Some o)) p ms.
Proof.
  intros fs p ms o W H a c l S P' Wk Dl N.
  assert (IN : inside p l) by (eapply held_parent; eauto; apply P').
  revert a c l S P' Wk Dl N IN.
  induction H as [p E|p c E N|p cs E H IH|p c o1 cs E P E2 NL H IH|p c cs E P E2 F|p c t cs E P E2 WN NN|p i cs E]; intros a c' l S P' Wk Dl N' IN;
    assert (EP : put fs (l ++ [c']) (Some o) p = fs p) by (apply put_other, inside_not; exact IN).
  - destruct a; discriminate.
  - apply h_last; congruence.
  - destruct a as [|a0 a]; [injection S as <- _; destruct P'; congruence|]. injection S as <- S. apply walks_empty in Wk; [|exact E].
    apply h_empty; [congruence|]. eapply IH; eauto.
  - destruct a as [|a0 a]; [injection S as -> ->; apply h_last; [congruence|apply P']|]. injection S as <- S.
    apply walks_cons_proper in Wk; [|exact E|apply proper_ordinary; exact P].
    destruct Wk as [[X _]|[[o2 [X [_ Wk]]]|[t X]]]; [congruence| |exfalso; rewrite E2 in X; injection X as X; exact (NL _ X)].
    assert (IN2 : inside (p ++ [c]) l) by (eapply held_parent; eauto; apply P').
    eapply h_real; [congruence|exact P|rewrite put_other; [exact E2|apply inside_not; exact IN2]|exact NL|]. eapply IH; eauto.
  - destruct a as [|a0 a]; [injection S as -> ->; apply h_last; [congruence|apply P']|]. injection S as <- S.
    apply walks_cons_proper in Wk; [|exact E|apply proper_ordinary; exact P].
    destruct Wk as [[X Y]|[[o2 [X [_ Wk]]]|[t X]]]; congruence.
  - destruct a as [|a0 a]; [injection S as _ ->; congruence|]. injection S as <- S. pose proof (walks_past_none _ _ _ _ _ WN Wk). discriminate.
  - destruct a as [|a0 a]; [inversion Wk; subst; congruence|]. inversion Wk; congruence.
Qed.
(* If the last name is really something other than a link, the path leads to it. *)
Lemma final_real : forall fs D F a c b d o f l, wf fs -> fs D = Some ODir -> comps F = [] :: D ++ a ++ c :: b -> Forall (eq []) b -> proper c ->
  walks fs true D a (Some d) -> fs d = Some ODir -> inside D d -> fs (d ++ [c]) = Some o -> (forall t, o <> OLnk t) ->
  walks fs f [] (comps F) (Some l) -> inside D l.
Proof.
  intros fs D F a c b d o f l W ED E Fb P Wa Ed I Eo NL Wk. rewrite E in Wk. apply (proj1 (walks_root _ _ _ _ W)) in Wk.
  assert (Wk2 : walks fs f D (a ++ c :: b) (Some l)).
  { destruct (walks_app _ _ _ _ _ Wk D (a ++ c :: b) eq_refl) as [[_ X]|[l1 [A1 A2]]]; [destruct a; discriminate|discriminate|].
    pose proof (walks_det _ _ _ _ _ (walks_real fs true D [] W ED) _ A1) as X. injection X as <-. exact A2. }
  destruct (walks_app _ _ _ _ _ Wk2 a (c :: b) eq_refl) as [[_ X]|[l1 [A1 A2]]]; [discriminate|discriminate|].
  pose proof (walks_det _ _ _ _ _ Wa _ A1) as X. injection X as <-.
  destruct (walks_cons_proper _ _ _ _ _ _ Ed (proper_ordinary _ P) A2) as [[_ X]|[[o2 [_ [_ X]]]|[t X]]]; [discriminate| |exfalso; rewrite Eo in X; injection X as X; exact (NL _ X)].
  assert (l = d ++ [c]) as ->.
  { clear -Fb X Eo NL. remember (d ++ [c]) as q. clear Heqq. revert q X Eo. induction Fb as [|x b <- Fb IH]; intros q X Eo; [inversion X; reflexivity|].
    destruct o as [|i|t]; [apply walks_empty in X; auto| |exfalso; exact (NL t eq_refl)]. inversion X; congruence. }
  destruct I as [e ->]. exists (e ++ [c]). rewrite app_assoc. reflexivity.
Qed.
Lemma to_held : forall fs D F ms f l, wf fs -> fs D = Some ODir -> comps F = [] :: D ++ ms -> walks fs f [] (comps F) (Some l) -> D <> [] ->
  (forall x, f = x -> walks fs x D ms (Some l)).
Proof.
  intros fs D F ms f l W ED E Wk ND x <-. rewrite E in Wk. apply (proj1 (walks_root _ _ _ _ W)) in Wk. destruct ms as [|m ms].
  - rewrite app_nil_r in Wk. assert (X : walks fs f [] D (Some D)) by (apply (walks_real fs f D [] W ED)).
    pose proof (walks_det _ _ _ _ _ X _ Wk) as Y. injection Y as <-. constructor.
  - destruct (walks_app _ _ _ _ _ Wk D (m :: ms) eq_refl) as [[_ X]|[l1 [A1 A2]]]; [discriminate|discriminate|].
    pose proof (walks_det _ _ _ _ _ (walks_real fs true D [] W ED) _ A1) as X. injection X as <-. exact A2.
Qed.
Lemma from_held : forall fs D F ms f l, wf fs -> fs D = Some ODir -> comps F = [] :: D ++ ms -> walks fs f D ms (Some l) -> walks fs f [] (comps F) (Some l).
Proof.
  intros fs D F ms f l W ED E Wk. rewrite E. apply (proj2 (walks_root _ _ _ _ W)).
  assert (G : forall e p, fs (p ++ e) = Some ODir -> walks fs f (p ++ e) ms (Some l) -> walks fs f p (e ++ ms) (Some l)).
  { induction e as [|c e IH]; intros p Ep X; [rewrite app_nil_r in X; exact X|].
    assert (E1 : fs (p ++ [c]) = Some ODir).
    { destruct e as [|d e]; [exact Ep|]. eapply wf_above; [exact W|rewrite <- app_assoc; exact Ep|discriminate]. }
    destruct (proj2 W _ _ _ E1) as [Dp P]. cbn [app]. eapply w_go; [exact Dp|apply proper_ordinary; exact P|exact E1|discriminate|].
    replace (p ++ c :: e) with ((p ++ [c]) ++ e) in * by (rewrite <- app_assoc; reflexivity). auto. }
  apply (G D []); assumption.
Qed.

(* Where a path leads, with and without following its last name. *)
Definition leads (D : loc) (F : bytes) (f : bool) (s : rst) : Prop := forall l, walks (r_fs s) f [] (comps F) (Some l) -> inside D l.
Lemma ready_nofollow : forall D F s, D <> [] -> cstr F -> nodots F -> ready D F s -> leads D F false s.
Proof.
  intros D F s ND C N [[W [ED _]] [ms [E [_ H]]]] l Wk. eapply held_nofollow; [exact H| |eapply to_held; eauto].
  apply Forall_forall. intros c I. eapply okname_of; [exact C|exact N|]. rewrite E. right. apply in_or_app. right. exact I.
Qed.
Lemma ready_follow : forall D F s, D <> [] -> cstr F -> nodots F -> ready D F s ->
  (forall l t, walks (r_fs s) false [] (comps F) (Some l) -> r_fs s l <> Some (OLnk t)) -> leads D F true s.
Proof.
  intros D F s ND C N [[W [ED _]] [ms [E [_ H]]]] Q l Wk. eapply held_follow; [exact H| | |eapply to_held; eauto].
  - apply Forall_forall. intros c I. eapply okname_of; [exact C|exact N|]. rewrite E. right. apply in_or_app. right. exact I.
  - intros l' t X. apply Q. eapply from_held; eauto.
Qed.
Lemma setattr_attrs : forall n f F s ok s' D, setattr n f F s = (ok, s') -> attrs_inside D (r_log s) -> leads D F f s -> attrs_inside D (r_log s').
Proof.
  intros n f F s ok s' D H A L. destruct (setattr_same _ _ _ _ _ _ H) as [_ [_ [->|[l [-> Wk]]]]]; [exact A|].
  intros l' [X|X]; [injection X as <-; apply L; exact Wk|apply A; exact X].
Qed.
Lemma leads_fs : forall D F f s s', r_fs s' = r_fs s -> leads D F f s -> leads D F f s'.
Proof. intros D F f s s' E L l Wk. rewrite E in Wk. auto. Qed.
Lemma setattr_fs : forall n f F s ok s', setattr n f F s = (ok, s') -> r_fs s' = r_fs s.
Proof. intros n f F s ok s' H. apply (setattr_same _ _ _ _ _ _ H). Qed.
Lemma attribs_attrs : forall n F t s D, attrs_inside D (r_log s) -> leads D F false s -> (t <> TLnk -> leads D F true s) ->
  attrs_inside D (r_log (attribs_set n F t s)).
Proof.
  intros n F t s D A L1 L2. unfold attribs_set. destruct (setattr n false F s) as [ok s1] eqn:E1.
  pose proof (setattr_attrs _ _ _ _ _ _ _ E1 A L1) as A1. pose proof (setattr_fs _ _ _ _ _ _ E1) as F1. destruct ok; [|exact A1].
  assert (X : forall s0, r_fs s0 = r_fs s -> attrs_inside D (r_log s0) -> attrs_inside D (r_log (snd (setattr n false F s0)))).
  { intros s0 E A0. destruct (setattr n false F s0) as [k s'] eqn:K. cbn [snd]. eapply setattr_attrs; [exact K|exact A0|eapply leads_fs; eauto]. }
  assert (Y : t <> TLnk -> attrs_inside D (r_log (let (ok, s2) := setattr n true F s1 in if ok then snd (setattr n false F s2) else s2))).
  { intros NT. destruct (setattr n true F s1) as [ok2 s2] eqn:E2.
    assert (A2 : attrs_inside D (r_log s2)) by (eapply setattr_attrs; [exact E2|exact A1|eapply leads_fs; [exact F1|auto]]).
    destruct ok2; [|exact A2]. apply X; [|exact A2]. rewrite (setattr_fs _ _ _ _ _ _ E2). exact F1. }
  destruct t; try (apply Y; discriminate). apply X; assumption.
Qed.
Lemma put_leads : forall n fs D F ms d c sl o f l, wf fs -> fs D = Some ODir -> held fs D ms -> comps F = [] :: D ++ ms -> cstr F ->
  parent n fs F = PIs d c sl -> fs (d ++ [c]) = None -> (forall t, o <> OLnk t) ->
  walks (put fs (d ++ [c]) (Some o)) f [] (comps F) (Some l) -> inside D l.
Proof.
  intros n fs D F ms d c sl o f l W ED H E C P N NL Wk.
  destruct (parent_held n fs F D ms ms d c sl W ED H (begins_refl _) E C P) as [Ed [Pc [X|[I [a [b [S [Fb [Wa _]]]]]]]]]; [congruence|].
  subst ms. eapply final_real with (fs := put fs (d ++ [c]) (Some o)) (a := a) (b := b) (d := d) (c := c) (o := o) (f := f);
    [apply wf_put; assumption|rewrite put_other; [exact ED|congruence]|exact E|exact Fb|exact Pc| | |exact I|apply put_same|exact NL|exact Wk].
  - eapply walks_less; [|exact Wa]. intros x o' X. rewrite put_other; [exact X|congruence].
  - rewrite put_other; [exact Ed|]. intros Y. apply (f_equal (@List.length _)) in Y. rewrite app_length in Y. cbn in Y. lia.
Qed.
Lemma there_leads : forall n fs D F ms d c sl i f l, wf fs -> fs D = Some ODir -> held fs D ms -> comps F = [] :: D ++ ms -> cstr F ->
  parent n fs F = PIs d c sl -> fs (d ++ [c]) = Some (OFile i) -> walks fs f [] (comps F) (Some l) -> inside D l.
Proof.
  intros n fs D F ms d c sl i f l W ED H E C P N Wk.
  destruct (parent_held n fs F D ms ms d c sl W ED H (begins_refl _) E C P) as [Ed [Pc [X|[I [a [b [S [Fb [Wa _]]]]]]]]]; [congruence|].
  subst ms. eapply final_real with (a := a) (b := b) (d := d) (c := c) (f := f); eauto. discriminate.
Qed.
Lemma make_leads : forall n so o D F s s' f, ready D F s -> make n so o F s = (Done, s') -> (forall t, o <> OLnk t) -> leads D F f s'.
Proof.
  intros n so o D F s s' f [[W [ED L]] [ms [E [C H]]]] M NL l Wk. unfold make in M. destruct (luck s) as [b s0] eqn:Lk.
  destruct (luck_same _ _ _ Lk) as [F1 _]. destruct b; [discriminate|]. rewrite F1 in M.
  destruct (parent n (r_fs s) F) as [d c sl| |] eqn:P; try discriminate. destruct (r_fs s (d ++ [c])) eqn:N; [discriminate|].
  destruct (sl && negb so); [discriminate|]. injection M as <-. cbn in Wk. eapply put_leads; eauto.
Qed.
Lemma make_last_ready : forall n o D F s r s', ready D F s -> make n false o F s = (r, s') -> ready D F s'.
Proof.
  intros n o D F s r s' R M. pose proof (make_ready _ _ _ _ _ _ _ _ R M) as G. split; [exact G|].
  destruct R as [[W [ED L]] [ms [E [C H]]]]. exists ms. split; [exact E|]. split; [exact C|].
  unfold make in M. destruct (luck s) as [b s0] eqn:Lk.
  destruct (luck_same _ _ _ Lk) as [F1 _]. destruct b; [injection M as <- <-; rewrite F1; exact H|]. rewrite F1 in M.
  destruct (parent n (r_fs s) F) as [d c sl| |] eqn:P; try (injection M as <- <-; rewrite F1; exact H).
  destruct (r_fs s (d ++ [c])) eqn:N; [injection M as <- <-; rewrite F1; exact H|].
  destruct sl; cbn [andb negb] in M; injection M as <- <-; [rewrite F1; exact H|]. cbn.
  destruct (parent_held n (r_fs s) F D ms ms d c false W ED H (begins_refl _) E C P) as [Ed [Pc [X|[I [a [b [S [Fb [Wa SL]]]]]]]]]; [congruence|].
  rewrite (SL eq_refl) in S. eapply held_put_last; eauto.
Qed.
Lemma restore_dir_attrs : forall n D F it s, D <> [] -> cstr F -> nodots F -> ready D F s -> attrs_inside D (r_log s) ->
  attrs_inside D (r_log (restore_dir n F it s)).
Proof.
  intros n D F it s ND C N R A. unfold restore_dir. destruct (build_path n F s) as [ok s1] eqn:B.
  pose proof (build_ready _ _ _ _ _ _ ND R B) as R1. destruct (build_noattr _ _ _ _ _ B) as [NA _].
  assert (A1 : attrs_inside D (r_log s1)) by (intros l I; apply A, NA, I). destruct ok; [|exact A1].
  destruct (mkdir n F s1) as [m s2] eqn:M. pose proof (mkdir_ready _ _ _ _ _ _ R1 M) as R2. unfold mkdir in M.
  assert (A2 : attrs_inside D (r_log s2)) by (intros l I; apply A1; eapply make_noattr; eauto).
  assert (X : attrs_inside D (r_log match m with Done => attribs_set n F (i_type it) s2 | _ => s2 end)).
  { destruct m; try exact A2. assert (NL : forall t, ODir <> OLnk t) by discriminate.
    apply attribs_attrs; [exact A2| |intros _]; (eapply make_leads; [exact R1|exact M|exact NL]). }
  destruct (lstat n (r_fs s1) F) as [[| |]|] eqn:Ls; try exact X.
  apply attribs_attrs; [exact A1|apply ready_nofollow; assumption|intros _]. apply ready_follow; try assumption.
  intros l t Wk Q. unfold lstat in Ls. destruct F as [|f0 F]; [discriminate|]. unfold resolve in Ls.
  destruct (walk n (r_fs s1) false [] (comps (f0 :: F))) as [l'| |] eqn:K; try discriminate. apply walk_sound in K.
  pose proof (walks_det _ _ _ _ _ Wk _ K) as Y. injection Y as <-. congruence.
Qed.
Lemma restore_link_attrs : forall n dir D F it s, D <> [] -> cstr F -> nodots F -> i_type it = TLnk -> ready D F s -> attrs_inside D (r_log s) ->
  attrs_inside D (r_log (restore_link n dir F it s)).
Proof.
  intros n dir D F it s ND C N T R A. unfold restore_link. destruct (build_path n F s) as [ok s1] eqn:B.
  pose proof (build_ready _ _ _ _ _ _ ND R B) as R1. destruct (build_noattr _ _ _ _ _ B) as [NA _].
  assert (A1 : attrs_inside D (r_log s1)) by (intros l I; apply A, NA, I). destruct ok; [|exact A1].
  destruct (make_link n dir F it s1) as [ok s2] eqn:M.
  assert (X : ready D F s2 /\ attrs_inside D (r_log s2)).
  { unfold make_link in M. destruct (unlink n F s1) as [u s3] eqn:U. pose proof (unlink_ready _ _ _ _ _ _ R1 U) as R3.
    assert (A3 : attrs_inside D (r_log s3)) by (intros l I; apply A1; eapply unlink_noattr; eauto).
    assert (K : forall o m s4, make n false o F s3 = (m, s4) -> ready D F s4 /\ attrs_inside D (r_log s4)).
    { intros o m s4 K. split; [eapply make_last_ready; eauto|intros l I; apply A3; eapply make_noattr; eauto]. }
    destruct (i_lcmd it =? CMD_HARD_LINK); [|destruct (i_lcmd it =? CMD_SOFT_LINK); [|injection M as <- <-; auto]].
    - unfold link in M. destruct (lstat n (r_fs s3) (prepend_s dir (i_link it))) as [[|i|t]|]; try (injection M as <- <-; auto; fail).
      + destruct (make n false (OFile i) F s3) as [m s4] eqn:Q. injection M as <- <-. eapply K; eauto.
      + destruct (make n false (OLnk t) F s3) as [m s4] eqn:Q. injection M as <- <-. eapply K; eauto.
    - unfold symlink in M. destruct (i_link it); [injection M as <- <-; auto|].
      destruct (make n false _ F s3) as [m s4] eqn:Q. injection M as <- <-. eapply K; eauto. }
  destruct X as [R2 A2]. destruct ok; [|exact A2]. rewrite T. apply attribs_attrs; [exact A2|apply ready_nofollow; assumption|congruence].
Qed.
Lemma restore_special_attrs : forall n D F it s, D <> [] -> cstr F -> nodots F -> i_type it <> TSock -> ready D F s -> attrs_inside D (r_log s) ->
  (i_type it <> TDir -> lstat n (r_fs s) F = None) -> attrs_inside D (r_log (restore_special n F it s)).
Proof.
  intros n D F it s ND C N T R A LS. unfold restore_special. destruct (build_path n F s) as [ok s1] eqn:B.
  pose proof (build_ready _ _ _ _ _ _ ND R B) as R1. destruct (build_noattr _ _ _ _ _ B) as [NA OLD].
  assert (A1 : attrs_inside D (r_log s1)) by (intros l I; apply A, NA, I). destruct ok; [|exact A1].
  assert (X : i_type it <> TDir -> attrs_inside D (r_log (let (m, s) := mknode n F s1 in match m with Done | Exists => attribs_set n F (i_type it) s | _ => s end))).
  { intros ND2. specialize (LS ND2). unfold mknode. destruct (make n false (OFile (r_next s1)) F (with_next s1)) as [m s2] eqn:M.
    assert (R1' : ready D F (with_next s1)) by (eapply ready_same; [| |exact R1]; reflexivity).
    assert (A2 : attrs_inside D (r_log s2)) by (intros l I; apply A1; eapply make_noattr in M; apply M; exact I).
    destruct m; try exact A2.
    - assert (NL : forall t, OFile (r_next s1) <> OLnk t) by discriminate.
      apply attribs_attrs; [exact A2| |intros _]; (eapply make_leads; [exact R1'|exact M|exact NL]).
    - assert (R2 : ready D F s2) by (eapply make_last_ready; eauto).
      assert (E2 : r_fs s2 = r_fs s1).
      { unfold make in M. destruct (luck (with_next s1)) as [b s0] eqn:Lk. destruct (luck_same _ _ _ Lk) as [F1 _].
        destruct b; [discriminate|]. destruct (parent n (r_fs s0) F) as [d c sl| |]; try discriminate.
        destruct (r_fs s0 (d ++ [c])); [injection M as <-; exact F1|]. destruct (sl && negb false); discriminate. }
      apply attribs_attrs; [exact A2|apply ready_nofollow; assumption|intros _]. apply ready_follow; try assumption.
      intros l t Wk Q. rewrite E2 in Wk, Q. destruct R as [[W [ED L]] _]. destruct R1 as [[W1 [ED1 _]] [ms [E [_ H]]]].
      assert (FO : Forall okname ms).
      { apply Forall_forall. intros c I. eapply okname_of; [exact C|exact N|]. rewrite E. right. apply in_or_app. right. exact I. }
      pose proof (to_held _ _ _ _ _ _ W1 ED1 E Wk ND _ eq_refl) as Wm.
      assert (NO : OLnk t <> ODir) by discriminate.
      pose proof (held_seen _ _ _ H FO l (OLnk t) n (r_fs s) Wm Q NO W (OLD l (OLnk t) NO Q)) as V.
      unfold lstat in LS. destruct F as [|f0 F]; [cbn in E; destruct D as [|d0 D]; [exfalso; apply ND; reflexivity|discriminate E]|].
      unfold resolve in LS. rewrite E, (walk_over_real n _ D ms l W ED V), (OLD l (OLnk t) NO Q) in LS. discriminate. }
  destruct (i_type it); try (apply X; discriminate); try exact A1. congruence.
Qed.
Lemma restore_file_attrs : forall n D F it s, D <> [] -> cstr F -> nodots F -> ready D F s -> attrs_inside D (r_log s) ->
  attrs_inside D (r_log (restore_file n F it s)).
Proof.
  intros n D F it s ND C N R A. unfold restore_file. destruct (build_path n F s) as [ok s1] eqn:B.
  pose proof (build_ready _ _ _ _ _ _ ND R B) as R1. destruct (build_noattr _ _ _ _ _ B) as [NA _].
  assert (A1 : attrs_inside D (r_log s1)) by (intros l I; apply A, NA, I). destruct ok; [|exact A1].
  destruct (open_for_restore n F it s1) as [g s2] eqn:O.
  assert (K : forall cr s3, ready D F s3 -> attrs_inside D (r_log s3) -> open_w n cr F s3 = (g, s2) ->
    attrs_inside D (r_log s2) /\ (g <> None -> forall f, leads D F f s2)).
  { intros cr s3 [[W [ED L]] [ms [E [_ H]]]] A3 Q. split; [intros l I; apply A3; eapply open_noattr; eauto|].
    intros NG f l Wk. unfold open_w in Q. destruct (luck s3) as [b s0] eqn:Lk. destruct (luck_same _ _ _ Lk) as [F1 [F2 F3]].
    destruct b; [injection Q as <- <-; congruence|]. rewrite F1 in Q.
    destruct (parent n (r_fs s3) F) as [d c [|]| |] eqn:P; try (injection Q as <- <-; congruence).
    destruct (r_fs s3 (d ++ [c])) as [[|i|t]|] eqn:Eo; try (injection Q as <- <-; congruence).
    - injection Q as <- <-. eapply there_leads with (fs := r_fs s3); eauto. destruct cr; cbn in Wk; rewrite F1 in Wk; exact Wk.
    - destruct cr; [|injection Q as <- <-; congruence]. injection Q as <- <-. cbn in Wk. rewrite ?F1, ?F2 in Wk.
      eapply put_leads with (fs := r_fs s3) (o := OFile (r_next s3)); eauto. discriminate. }
  assert (X : attrs_inside D (r_log s2) /\ (g <> None -> forall f, leads D F f s2)).
  { unfold open_for_restore in O. destruct (unlink n F s1) as [m s3] eqn:U. pose proof (unlink_ready _ _ _ _ _ _ R1 U) as R3.
    assert (A3 : attrs_inside D (r_log s3)) by (intros l I; apply A1; eapply unlink_noattr; eauto).
    assert (Y : match m with Done | Noent => open_w n true F s3 | _ => (None, s3) end = (g, s2) -> attrs_inside D (r_log s2) /\ (g <> None -> forall f, leads D F f s2)).
    { intros Q. destruct m; try (eapply K; [exact R3|exact A3|exact Q]); injection Q as <- <-; (split; [exact A3|congruence]). }
    destruct (i_type it); try (apply Y; exact O).
    destruct (mkdir n F s1) as [k s4] eqn:M. pose proof (mkdir_ready _ _ _ _ _ _ R1 M) as R4. unfold mkdir in M.
    eapply K; [exact R4| |exact O]. intros l I; apply A1; eapply make_noattr; eauto. }
  destruct X as [A2 LD]. destruct g as [i|]; [|exact A2]. assert (NG : Some i <> None) by discriminate. specialize (LD NG). cbv zeta.
  assert (A3 : attrs_inside D (r_log (attribs_set n F (i_type it) (with_ev s2 (EData i))))).
  { apply attribs_attrs; [intros l [Q|Q]; [discriminate|apply A2; exact Q]| |intros _]; (eapply leads_fs; [|apply LD]; reflexivity). }
  destruct (i_xfer it); [|exact A3].
  apply attribs_attrs; [exact A3| |intros _]; (eapply leads_fs; [|apply LD]; rewrite attribs_fs; reflexivity).
Qed.
Lemma extrameta_attrs : forall n F D ms s ok s', Forall (eq false) ms -> attrs_inside D (r_log s) -> leads D F false s -> set_extrameta n F ms s = (ok, s') ->
  attrs_inside D (r_log s') /\ r_fs s' = r_fs s.
Proof.
  intros n F D ms s ok s' Fm. revert s ok s'. induction Fm as [|m ms <- Fm IH]; intros s ok s' A L H; cbn in H; [injection H as <- <-; auto|].
  destruct (setattr n false F s) as [a s1] eqn:E1. destruct (set_extrameta n F ms s1) as [b s2] eqn:E2. injection H as <- <-.
  pose proof (setattr_fs _ _ _ _ _ _ E1) as F1. destruct (IH s1 b s2) as [A2 F2];
    [eapply setattr_attrs; eauto|eapply leads_fs; eauto|exact E2|]. split; [exact A2|congruence].
Qed.
Lemma restore_metadata_attrs : forall n D F it s, D <> [] -> cstr F -> nodots F -> Forall (eq false) (i_meta it) -> ready D F s -> attrs_inside D (r_log s) ->
  attrs_inside D (r_log (restore_metadata n F it s)).
Proof.
  intros n D F it s ND C N Fm R A. unfold restore_metadata. cbv zeta.
  set (s0 := match i_type it with TDir => restore_dir n F it s | _ => s end).
  assert (R0 : ready D F s0) by (unfold s0; destruct (i_type it); try exact R; apply restore_dir_ready; assumption).
  assert (A0 : attrs_inside D (r_log s0)) by (unfold s0; destruct (i_type it); try exact A; apply restore_dir_attrs; assumption).
  clearbody s0. destruct (build_path n F s0) as [ok s1] eqn:B. pose proof (build_ready _ _ _ _ _ _ ND R0 B) as R1.
  destruct (build_noattr _ _ _ _ _ B) as [NA _]. assert (A1 : attrs_inside D (r_log s1)) by (intros l I; apply A0, NA, I).
  destruct (ok && i_xfer it); [|exact A1]. pose proof (ready_nofollow D F s1 ND C N R1) as LD.
  destruct (set_extrameta n F (i_meta it) s1) as [ok2 s2] eqn:X. destruct (extrameta_attrs _ _ _ _ _ _ _ Fm A1 LD X) as [A2 F2].
  destruct ok2; [|exact A2]. destruct (setattr n false F s2) as [a s3] eqn:K. cbn [snd]. eapply setattr_attrs; [exact K|exact A2|eapply leads_fs; eauto].
Qed.
Lemma canonicalise_nodots : forall n fs D full F, wf fs -> fs D = Some ODir -> D <> [] -> cstr full -> nodots full ->
  canonicalise n fs (text D) full = Some F -> cstr F /\ nodots F.
Proof.
  intros n fs D full F W ED ND C N H. pose proof (canonicalise_held n fs D full F W ED ND C N H) as [ms [_ [CF _]]]. split; [exact CF|].
  unfold canonicalise in H. destruct (canon_loop (Datatypes.S (List.length full)) n fs full) as [[copy l]|] eqn:L; [|discriminate].
  destruct (is_subdir_s (text D) (text l) =? 0) eqn:S; [discriminate|]. injection H as <-.
  destruct (canon_loop_spec _ _ _ _ _ _ [] (or_introl eq_refl) L) as [R T].
  apply realpath_walks in R. destruct (walks_exists fs [] _ l W R) as [o [Eo NL]]; [exists ODir; split; [apply W|discriminate]|].
  pose proof (wf_names _ _ _ W ED) as PD. pose proof (wf_names _ _ _ W Eo) as PL.
  assert (I : inside D l).
  { apply beneath_inside; auto. destruct (is_subdir_s_spec (text D) (text l) (text_cstr D PD) (text_cstr l PL)) as [[B _]|[_ B]]; [exact B|]. rewrite B in S. discriminate. }
  destruct I as [e El]. assert (NL0 : l <> []) by (rewrite El; destruct D; [congruence|discriminate]).
  destruct T as [->|[x [tl' [Nx [Ef T]]]]].
  { exfalso. apply (proj1 (walks_root _ _ _ _ W)) in R. apply (proj1 (walks_root _ _ _ _ W)) in R. inversion R; subst. congruence. }
  rewrite app_nil_r in Ef.
  assert (SK : skipn (List.length copy) full = slash :: x ++ tl').
  { rewrite Ef. replace (List.length copy) with (List.length copy + 0)%nat by lia. rewrite skipn_app, skipn_all2 by lia.
    replace (List.length copy + 0 - List.length copy)%nat with 0%nat by lia. reflexivity. }
  rewrite SK. assert (Cr : cstr (slash :: x ++ tl')) by (rewrite Ef in C; apply cstr_app in C; apply C).
  apply full_spec; [exact NL0|exact PL|exact Cr|]. rewrite Ef in N. apply nodots_after in N.
  unfold nodots. change (slash :: x ++ tl') with ([] ++ slash :: (x ++ tl')). rewrite comps_slash. constructor; [split; discriminate|exact N].
Qed.
(* Entries that an honest server sends, as far as attributes go: links are of the
   type of a link, nothing special over what is there, no ACLs. *)
Definition tame (o : opts) (it : item) : Prop :=
  (cmd_is_link (i_cmd it) = true -> i_type it = TLnk) /\
  (i_cmd it = CMD_SPECIAL -> i_type it <> TSock /\ o_overwrite o = false) /\
  Forall (eq false) (i_meta it).
Lemma restore_one_attrs : forall n o dir D F it s, D <> [] -> cstr F -> nodots F -> ready D F s -> tame o it ->
  overwrite_ok n (o_overwrite o) F it s = true -> attrs_inside D (r_log s) -> attrs_inside D (r_log (restore_one n dir F it s)).
Proof.
  intros n o dir D F it s ND C N R [T1 [T2 T3]] OV A. unfold restore_one. cbv zeta.
  destruct (i_cmd it =? CMD_DIRECTORY); [apply restore_dir_attrs; assumption|].
  destruct (cmd_is_link (i_cmd it)); [apply restore_link_attrs; auto|].
  destruct (i_cmd it =? CMD_SPECIAL) eqn:K.
  { apply Z.eqb_eq in K. destruct (T2 K) as [TS OF]. apply restore_special_attrs; auto. intros TD.
    unfold overwrite_ok in OV. rewrite OF, K in OV. cbv zeta in OV.
    destruct (i_type it); try congruence; cbn in OV; destruct (lstat n (r_fs s) F); congruence. }
  match goal with |- attrs_inside D (r_log (if ?b then _ else _)) => destruct b end.
  - destruct (i_datapth it); [apply restore_file_attrs; assumption|exact A].
  - match goal with |- attrs_inside D (r_log (if ?b then _ else _)) => destruct b end; [apply restore_metadata_attrs; assumption|exact A].
Qed.
Theorem restore_attrs_inside : forall n o D its s, wf (r_fs s) -> r_fs s D = Some ODir -> r_log s = [] -> o_strip_path o = None ->
  Forall (fun it => cstr (i_path it) /\ tame o it /\ socket_fits D it) its -> attrs_inside D (r_log (restore_run n o (text D) its s)).
Proof.
  intros n o D its s W ED L SP F. destruct D as [|d D]; [intros l _; exists l; reflexivity|].
  assert (ND : d :: D <> []) by discriminate. remember (d :: D) as DD. clear HeqDD d D.
  assert (G : good DD s /\ attrs_inside DD (r_log s)) by (split; [split; [exact W|split; [exact ED|rewrite L; intros p c []]]|rewrite L; intros l []]).
  cut (good DD (restore_run n o (text DD) its s) /\ attrs_inside DD (r_log (restore_run n o (text DD) its s))); [tauto|]. clear W ED L.
  revert s G. induction F as [|it its [C [TM SF]] F IH]; intros s [G A]; [auto|].
  cbn [restore_run fold_left]. apply IH. split; [apply restore_item_good; auto|].
  unfold restore_item. rewrite SP. destruct (has_dot_component (i_path it)) eqn:HD; [exact A|].
  destruct (strip_path_components (o_strip o) (i_path it)) as [p|] eqn:S; [|exact A]. cbn [strip_from_path]. cbv zeta.
  destruct (canonicalise n (r_fs s) (text DD) (prepend_s (text DD) p)) as [K|] eqn:KE; [|exact A].
  match goal with |- attrs_inside DD (r_log (if ?b then _ else _)) => destruct b eqn:OV; [|exact A] end.
  assert (X : cstr p /\ nodots p).
  { pose proof (nodots_of _ C HD) as N. apply strip_components_spec in S. destruct S as [->|[a E]]; [auto|].
    split; [|rewrite E in N; eapply nodots_after; exact N]. rewrite E in C. apply cstr_app in C. destruct C as [_ C]. inversion C; assumption. }
  destruct X as [Cp Np]. pose proof G as [W [ED L]].
  destruct (full_spec DD p ND (wf_names _ _ _ W ED) Cp Np) as [C1 N1].
  destruct (canonicalise_nodots _ _ _ _ _ W ED ND C1 N1 KE) as [CK NK].
  eapply restore_one_attrs; [exact ND|exact CK|exact NK| |exact TM|exact OV|exact A].
  split; [exact G|]. exact (canonicalise_held _ _ _ _ _ W ED ND C1 N1 KE).
Qed.

(* ---------- without overwriting ---------- *)
(* Whatever was there is still there. *)
Definition keeps (s s' : rst) : Prop := forall l o, r_fs s l = Some o -> r_fs s' l = Some o.
Lemma keeps_refl : forall s, keeps s s.
Proof. intros s l o H. exact H. Qed.
Lemma keeps_trans : forall a b c, keeps a b -> keeps b c -> keeps a c.
Proof. intros a b c A B l o H. auto. Qed.
Lemma keeps_fs : forall s s', r_fs s' = r_fs s -> keeps s s'.
Proof. intros s s' E l o H. rewrite E. exact H. Qed.
Lemma make_keeps : forall n so o p s r s', make n so o p s = (r, s') -> keeps s s'.
Proof.
  intros n so o p s r s' H. unfold make in H. destruct (luck s) as [b s1] eqn:L. destruct (luck_same _ _ _ L) as [F1 _].
  pose proof (keeps_fs _ _ F1) as K. destruct b; [injection H as <- <-; exact K|]. destruct (parent n (r_fs s1) p) as [d c sl| |]; try (injection H as <- <-; exact K).
  destruct (r_fs s1 (d ++ [c])) eqn:E; [injection H as <- <-; exact K|]. destruct (sl && negb so); injection H as <- <-; [exact K|].
  intros l o' Q. apply K in Q. cbn. rewrite put_other; [exact Q|congruence].
Qed.
Lemma build_keeps : forall n p s ok s', build_path n p s = (ok, s') -> keeps s s'.
Proof.
  intros n p. unfold build_path. induction (rev (comps p)) as [|c r IH]; intros s ok s' H; cbn [mkpath_r] in H; [injection H as <- <-; apply keeps_refl|].
  destruct r as [|c2 r]; [injection H as <- <-; apply keeps_refl|].
  destruct (join (rev (c2 :: r))) as [|z0 z]; [injection H as <- <-; apply keeps_refl|].
  destruct (lstat n (r_fs s) (z0 :: z)); [injection H as <- <-; apply keeps_refl|].
  destruct (mkpath_r n (c2 :: r) s) as [ok1 s1] eqn:M. apply IH in M. destruct ok1; [|injection H as <- <-; exact M].
  destruct (mkdir n (z0 :: z) s1) as [m s2] eqn:K. unfold mkdir in K. apply make_keeps in K. injection H as <- <-. eapply keeps_trans; eauto.
Qed.
Lemma open_keeps : forall n cr p s r s', open_w n cr p s = (r, s') -> keeps s s'.
Proof.
  intros n cr p s r s' H. unfold open_w in H. destruct (luck s) as [b s1] eqn:L. destruct (luck_same _ _ _ L) as [F1 _].
  pose proof (keeps_fs _ _ F1) as K. destruct b; [injection H as <- <-; exact K|]. destruct (parent n (r_fs s1) p) as [d c [|]| |]; try (injection H as <- <-; exact K).
  destruct (r_fs s1 (d ++ [c])) as [[| |]|] eqn:E; try (injection H as <- <-; exact K).
  - injection H as <- <-. destruct cr; exact K.
  - destruct cr; injection H as <- <-; [|exact K]. intros l o' Q. apply K in Q. cbn. rewrite put_other; [exact Q|congruence].
Qed.
Lemma attribs_keeps : forall n p t s, keeps s (attribs_set n p t s).
Proof. intros. apply keeps_fs, attribs_fs. Qed.
(* What lstat() does not see is not removed, also after directories were made on
   the way. *)
Lemma unlink_keeps : forall n D F s ok s1 r s2, D <> [] -> cstr F -> nodots F -> ready D F s -> lstat n (r_fs s) F = None ->
  build_path n F s = (ok, s1) -> unlink n F s1 = (r, s2) -> r_fs s2 = r_fs s1.
Proof.
  intros n D F s ok s1 r s2 ND C N R LS B U. pose proof (build_ready _ _ _ _ _ _ ND R B) as R1. destruct (build_noattr _ _ _ _ _ B) as [_ OLD].
  unfold unlink in U. destruct (luck s1) as [b s3] eqn:L. destruct (luck_same _ _ _ L) as [F1 _].
  destruct b; [injection U as <- <-; exact F1|]. rewrite F1 in U. destruct (parent n (r_fs s1) F) as [d c sl| |] eqn:P; try (injection U as <- <-; exact F1).
  destruct (r_fs s1 (d ++ [c])) as [o|] eqn:E; [|injection U as <- <-; exact F1].
  destruct sl; [destruct o; injection U as <- <-; exact F1|]. assert (DO : o = ODir \/ o <> ODir) by (destruct o; [auto|right; discriminate|right; discriminate]).
  destruct DO as [->|NO]; [injection U as <- <-; exact F1|]. exfalso.
  destruct R as [[W [ED _]] _]. destruct R1 as [[W1 [ED1 _]] [ms [Em [_ H]]]].
  destruct (parent_held n (r_fs s1) F D ms ms d c false W1 ED1 H (begins_refl _) Em C P) as [Ed [Pc [X|[I [a [b [S [Fb [Wa SL]]]]]]]]]; [congruence|].
  rewrite (SL eq_refl) in S.
  assert (FO : Forall okname ms).
  { apply Forall_forall. intros x J. eapply okname_of; [exact C|exact N|]. rewrite Em. right. apply in_or_app. right. exact J. }
  assert (Wm : walks (r_fs s1) false D ms (Some (d ++ [c]))).
  { assert (Wc : walks (r_fs s1) false d [c] (Some (d ++ [c]))).
    { destruct o as [|i|t]; [congruence| |].
      - eapply w_go; [exact Ed|apply proper_ordinary; exact Pc|exact E|discriminate|constructor].
      - eapply w_stop; [exact Ed|apply proper_ordinary; exact Pc|exact E|reflexivity]. }
    rewrite S. clear -Wa Wc. remember (Some d) as x eqn:Q. revert Q. induction Wa; intros Q; try discriminate Q.
    - injection Q as <-. exact Wc.
    - apply w_stay; auto.
    - apply w_up; auto.
    - eapply w_link; eauto. { right. destruct r; discriminate. } rewrite app_assoc. auto.
    - discriminate.
    - eapply w_go; eauto. }
  pose proof (held_seen _ _ _ H FO (d ++ [c]) o n (r_fs s) Wm E NO W (OLD _ _ NO E)) as V.
  unfold lstat in LS. destruct F as [|f0 F]; [cbn in Em; destruct D as [|d0 D]; [exfalso; apply ND; reflexivity|discriminate Em]|].
  unfold resolve in LS. rewrite Em, (walk_over_real n _ D ms _ W ED V), (OLD _ _ NO E) in LS. discriminate.
Qed.
Lemma restore_dir_keeps : forall n p it s, keeps s (restore_dir n p it s).
Proof.
  intros n p it s. unfold restore_dir. destruct (build_path n p s) as [ok s1] eqn:B. apply build_keeps in B. destruct ok; [|exact B].
  destruct (mkdir n p s1) as [m s2] eqn:M. unfold mkdir in M. apply make_keeps in M.
  destruct (lstat n (r_fs s1) p) as [[| |]|]; try destruct m; eauto using keeps_trans, attribs_keeps.
Qed.
(* Links do not have the type of a directory, and files with data not that of a
   fifo. *)
Definition polite (it : item) : Prop := (cmd_is_link (i_cmd it) = true -> i_type it <> TDir) /\
  (i_cmd it = CMD_FILE \/ i_cmd it = CMD_ENC_FILE -> i_type it <> TFifo).
Lemma restore_one_keeps : forall n dir D F it s, D <> [] -> cstr F -> nodots F -> ready D F s -> polite it ->
  overwrite_ok n false F it s = true -> keeps s (restore_one n dir F it s).
Proof.
  intros n dir D F it s ND C N R [P1 P2] OV. unfold restore_one. cbv zeta.
  destruct (i_cmd it =? CMD_DIRECTORY); [apply restore_dir_keeps|].
  destruct (cmd_is_link (i_cmd it)) eqn:CL.
  { assert (LS : lstat n (r_fs s) F = None).
    { specialize (P1 eq_refl). unfold overwrite_ok in OV. cbv zeta in OV. unfold cmd_is_link in CL. apply orb_true_iff in CL.
      destruct (lstat n (r_fs s) F); [|reflexivity]. exfalso.
      destruct CL as [CL|CL]; apply Z.eqb_eq in CL; rewrite CL in OV; destruct (i_type it); cbn in OV; congruence. }
    unfold restore_link. destruct (build_path n F s) as [ok s1] eqn:B. pose proof (build_keeps _ _ _ _ _ B) as K1. destruct ok; [|exact K1].
    destruct (make_link n dir F it s1) as [ok s2] eqn:M.
    assert (X : keeps s1 s2).
    { unfold make_link in M. destruct (unlink n F s1) as [u s3] eqn:U. pose proof (keeps_fs _ _ (unlink_keeps _ _ _ _ _ _ _ _ ND C N R LS B U)) as K3.
      destruct (i_lcmd it =? CMD_HARD_LINK); [|destruct (i_lcmd it =? CMD_SOFT_LINK); [|injection M as <- <-; exact K3]].
      - unfold link in M. destruct (lstat n (r_fs s3) (prepend_s dir (i_link it))) as [[|i|t]|]; try (injection M as <- <-; exact K3).
        + destruct (make n false (OFile i) F s3) as [m s4] eqn:K. apply make_keeps in K. injection M as <- <-. eapply keeps_trans; eauto.
        + destruct (make n false (OLnk t) F s3) as [m s4] eqn:K. apply make_keeps in K. injection M as <- <-. eapply keeps_trans; eauto.
      - unfold symlink in M. destruct (i_link it); [injection M as <- <-; exact K3|].
        destruct (make n false _ F s3) as [m s4] eqn:K. apply make_keeps in K. injection M as <- <-. eapply keeps_trans; eauto. }
    destruct ok; eauto using keeps_trans, attribs_keeps. }
  destruct (i_cmd it =? CMD_SPECIAL).
  { unfold restore_special. destruct (build_path n F s) as [ok s1] eqn:B. apply build_keeps in B. destruct ok; [|exact B].
    assert (K : forall q m s2, mknode n q s1 = (m, s2) -> keeps s s2).
    { intros q m s2 M. unfold mknode in M. apply make_keeps in M. eapply keeps_trans; [exact B|]. eapply keeps_trans; [|exact M]. apply keeps_fs. reflexivity. }
    destruct (mksock n F s1) as [ms ss] eqn:Ms. pose proof (K _ _ _ Ms) as K1. destruct (mknode n F s1) as [mn sn] eqn:Mn. pose proof (K _ _ _ Mn) as K2.
    destruct (i_type it); try exact B; try destruct ms; try destruct mn; eauto using keeps_trans, attribs_keeps. }
  match goal with |- keeps s (if ?b then _ else _) => destruct b eqn:CF end.
  { destruct (i_datapth it); [|apply keeps_refl].
    assert (LS : i_type it <> TDir -> lstat n (r_fs s) F = None).
    { intros TD. unfold overwrite_ok in OV. cbv zeta in OV. destruct (lstat n (r_fs s) F); [|reflexivity]. exfalso.
      assert (CC : i_cmd it = CMD_FILE \/ i_cmd it = CMD_VSS_T \/ i_cmd it = CMD_ENC_FILE \/ i_cmd it = CMD_ENC_VSS_T \/ i_cmd it = CMD_EFS_FILE).
      { repeat rewrite orb_true_iff in CF. repeat rewrite Z.eqb_eq in CF. tauto. }
      destruct CC as [CC|[CC|[CC|[CC|CC]]]]; rewrite CC in OV, P2; destruct (i_type it); cbn in OV; try congruence; apply P2; auto. }
    unfold restore_file. destruct (build_path n F s) as [ok s1] eqn:B. pose proof (build_keeps _ _ _ _ _ B) as K1. destruct ok; [|exact K1].
    destruct (open_for_restore n F it s1) as [f s2] eqn:O.
    assert (X : keeps s1 s2).
    { unfold open_for_restore in O. destruct (unlink n F s1) as [m s3] eqn:U.
      assert (Y : i_type it <> TDir -> match m with Done | Noent => open_w n true F s3 | _ => (None, s3) end = (f, s2) -> keeps s1 s2).
      { intros TD Q. pose proof (keeps_fs _ _ (unlink_keeps _ _ _ _ _ _ _ _ ND C N R (LS TD) B U)) as K3.
        destruct m; try (injection Q as <- <-; exact K3); (apply open_keeps in Q; eapply keeps_trans; eauto). }
      destruct (i_type it); try (apply Y; [discriminate|exact O]).
      destruct (mkdir n F s1) as [k s4] eqn:K. unfold mkdir in K. apply make_keeps in K. apply open_keeps in O. eapply keeps_trans; eauto. }
    destruct f as [i|]; [|eauto using keeps_trans]. cbv zeta.
    assert (Z : keeps s (attribs_set n F (i_type it) (with_ev s2 (EData i)))).
    { eapply keeps_trans; [exact K1|]. eapply keeps_trans; [exact X|]. eapply keeps_trans; [|apply attribs_keeps]. apply keeps_fs. reflexivity. }
    destruct (i_xfer it); eauto using keeps_trans, attribs_keeps. }
  match goal with |- keeps s (if ?b then _ else _) => destruct b end; [|apply keeps_refl].
  unfold restore_metadata. cbv zeta.
  assert (R0 : keeps s match i_type it with TDir => restore_dir n F it s | _ => s end).
  { destruct (i_type it); try apply keeps_refl. apply restore_dir_keeps. }
  destruct (build_path n F match i_type it with TDir => restore_dir n F it s | _ => s end) as [ok s1] eqn:B. apply build_keeps in B.
  assert (R1 : keeps s s1) by eauto using keeps_trans. destruct (ok && i_xfer it); [|exact R1].
  assert (EX : forall ms s ok s', set_extrameta n F ms s = (ok, s') -> r_fs s' = r_fs s).
  { clear. induction ms as [|m ms IH]; intros s ok s' H; cbn in H; [injection H as <- <-; reflexivity|].
    destruct (setattr n m F s) as [a s1] eqn:E1. destruct (set_extrameta n F ms s1) as [b s2] eqn:E2. injection H as <- <-.
    rewrite (IH _ _ _ E2). eapply setattr_fs; eauto. }
  destruct (set_extrameta n F (i_meta it) s1) as [ok2 s2] eqn:X. apply EX in X. apply keeps_fs in X.
  destruct ok2; [|eauto using keeps_trans]. destruct (setattr n false F s2) as [a s3] eqn:A. apply setattr_fs in A. apply keeps_fs in A. cbn [snd]. eauto using keeps_trans.
Qed.
Theorem restore_keeps : forall n o D its s, wf (r_fs s) -> r_fs s D = Some ODir -> r_log s = [] -> D <> [] -> o_strip_path o = None -> o_overwrite o = false ->
  Forall (fun it => cstr (i_path it) /\ polite it /\ socket_fits D it) its ->
  forall l x, r_fs s l = Some x -> r_fs (restore_run n o (text D) its s) l = Some x.
Proof.
  intros n o D its s W ED L ND SP OV F.
  assert (G : good D s) by (split; [exact W|split; [exact ED|rewrite L; intros p c []]]).
  cut (keeps s (restore_run n o (text D) its s)); [intros H; exact H|]. clear W ED L.
  revert s G. induction F as [|it its [C [PL SF]] F IH]; intros s G; [apply keeps_refl|].
  cbn [restore_run fold_left]. eapply keeps_trans; [|apply IH; apply restore_item_good; auto].
  unfold restore_item. rewrite SP. destruct (has_dot_component (i_path it)) eqn:HD; [apply keeps_refl|].
  destruct (strip_path_components (o_strip o) (i_path it)) as [p|] eqn:S; [|apply keeps_refl]. cbn [strip_from_path]. cbv zeta.
  destruct (canonicalise n (r_fs s) (text D) (prepend_s (text D) p)) as [K|] eqn:KE; [|apply keeps_refl].
  match goal with |- keeps s (if ?b then _ else _) => destruct b eqn:OK; [|apply keeps_refl] end.
  assert (X : cstr p /\ nodots p).
  { pose proof (nodots_of _ C HD) as N. apply strip_components_spec in S. destruct S as [->|[a E]]; [auto|].
    split; [|rewrite E in N; eapply nodots_after; exact N]. rewrite E in C. apply cstr_app in C. destruct C as [_ C]. inversion C; assumption. }
  destruct X as [Cp Np]. pose proof G as [W [ED L]].
  destruct (full_spec D p ND (wf_names _ _ _ W ED) Cp Np) as [C1 N1].
  destruct (canonicalise_nodots _ _ _ _ _ W ED ND C1 N1 KE) as [CK NK]. rewrite OV in OK.
  eapply restore_one_keeps; [exact ND|exact CK|exact NK| |exact PL|exact OK].
  split; [exact G|]. exact (canonicalise_held _ _ _ _ _ W ED ND C1 N1 KE).
Qed.
