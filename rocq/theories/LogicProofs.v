(* Logic expressions: what they mean, and what the evaluation gives. *)
From Verif Require Import Bytes CmdModel RestoreModel BuModel AuthModel ConfModel LogicModel.

(* ------------------------------------------------------------------ *)
(* Specification.  An expression is a chain of operands with 'and' or 'or'
   between them, taken from the left without precedence; an operand is a test
   or a group in parentheses, perhaps with 'not' before it. *)

Inductive chn (A : Type) : Type :=
| One (neg : bool) (a : atm A)
| More (c : chn A) (isand neg : bool) (a : atm A)
with atm (A : Type) : Type :=
| Test (x : A)
| Grp (c : chn A).
Arguments One {A}. Arguments More {A}. Arguments Test {A}. Arguments Grp {A}.
Scheme chn_mut := Induction for chn Sort Prop
with atm_mut := Induction for atm Sort Prop.
Combined Scheme chn_atm_ind from chn_mut, atm_mut.

(* Its value, given the values of the tests. *)
Fixpoint value {A} (f : A -> bool) (c : chn A) : bool :=
  match c with
  | One neg a => xorb neg (avalue f a)
  | More c isand neg a =>
    if isand then value f c && xorb neg (avalue f a) else value f c || xorb neg (avalue f a)
  end
with avalue {A} (f : A -> bool) (a : atm A) : bool :=
  match a with Test x => f x | Grp c => value f c end.

(* How it is written. *)
Inductive tok (A : Type) := KAnd | KOr | KNot | KL | KR | KTest (x : A).
Arguments KAnd {A}. Arguments KOr {A}. Arguments KNot {A}. Arguments KL {A}. Arguments KR {A}. Arguments KTest {A}.
Fixpoint words {A} (c : chn A) : list (tok A) :=
  match c with
  | One neg a => (if neg then [KNot] else []) ++ awords a
  | More c isand neg a =>
    words c ++ (if isand then KAnd else KOr) :: (if neg then [KNot] else []) ++ awords a
  end
with awords {A} (a : atm A) : list (tok A) :=
  match a with Test x => [KTest x] | Grp c => KL :: words c ++ [KR] end.

(* The items of a chain, a group counting as one: which are groups. *)
Definition is_grp {A} (a : atm A) : bool := match a with Grp _ => true | Test _ => false end.
Fixpoint items {A} (g : atm A -> bool) (c : chn A) : list bool :=
  match c with
  | One neg a => (if neg then [false] else []) ++ [g a]
  | More c _ neg a => items g c ++ false :: (if neg then [false] else []) ++ [g a]
  end.

(* Groups inside groups have three items or more. *)
Fixpoint wide {A} (inside : bool) (c : chn A) : Prop :=
  match c with
  | One _ a => awide inside a
  | More c _ _ a => wide inside c /\ awide inside a
  end
with awide {A} (inside : bool) (a : atm A) : Prop :=
  match a with
  | Test _ => True
  | Grp c => (inside = true -> (3 <= List.length (items is_grp c))%nat) /\ wide true c
  end.

(* A group that is neither the first item of the whole expression nor the last,
   or that is the only one. *)
Definition inner_group (l : list bool) : bool :=
  match l with
  | [b] => b
  | _ => existsb (fun b => b) (removelast (tl l))
  end.

(* The token the code has for a word. *)
Definition code_tok {A} (f : A -> bool) (t : tok A) : Z :=
  match t with
  | KAnd => AND_FUNC | KOr => OR_FUNC | KNot => NOT | KL => LEFT_PARENS | KR => RIGHT_PARENS
  | KTest x => b2z (f x)
  end.

(* ------------------------------------------------------------------ *)
(* Evaluating a chain without groups. *)

Lemma b2z_not v : b2z (b2z v =? 0) = b2z (negb v).
Proof. destruct v; reflexivity. Qed.
Lemma b2z_ne v : negb (b2z v =? 0) = v.
Proof. destruct v; reflexivity. Qed.
Lemma b2z_not_NOT v : (b2z v =? NOT) = false.
Proof. destruct v; reflexivity. Qed.

Definition opz (o : bool) : Z := if o then AND_FUNC else OR_FUNC.
Definition flat_ops (ops : list (bool * bool)) : list Z := flat_map (fun p => [opz (fst p); b2z (snd p)]) ops.
Definition ap1 (v : bool) (p : bool * bool) : bool := if fst p then v && snd p else v || snd p.
Definition apply_ops (v : bool) (ops : list (bool * bool)) : bool := fold_left ap1 ops v.

Fixpoint lin {A} (f : A -> bool) (c : chn A) : bool * list (bool * bool) :=
  match c with
  | One neg a => (xorb neg (avalue f a), [])
  | More c o neg a => (fst (lin f c), snd (lin f c) ++ [(o, xorb neg (avalue f a))])
  end.
Lemma lin_value {A} (f : A -> bool) c : apply_ops (fst (lin f c)) (snd (lin f c)) = value f c.
Proof.
  induction c as [neg a | c IH o neg a]; cbn [lin fst snd value]; [reflexivity|].
  unfold apply_ops in *. rewrite fold_left_app, IH. cbn. destruct o; reflexivity.
Qed.

Fixpoint flat {A} (c : chn A) : Prop :=
  match c with
  | One _ (Test _) => True
  | More c _ _ (Test _) => flat c
  | _ => False
  end.

Definition zs {A} (f : A -> bool) (c : chn A) : list Z := map (code_tok f) (words c).

Lemma vals_fresh l : vals (fresh l) = l.
Proof. unfold vals, fresh. cbn. rewrite map_map. cbn. apply map_id. Qed.
Lemma reset_fresh l : reset_bad (fresh l) = false.
Proof.
  unfold reset_bad, fresh. cbn. destruct l; [reflexivity|]. cbn.
  induction l; cbn; [reflexivity|assumption].
Qed.

(* negation *)
Lemma drop_not_app l : forall n m, (forall v, In v l -> v <> NOT) ->
  n = false -> drop_not n (l ++ m) = l ++ drop_not n m.
Proof.
  induction l as [|v l IH]; intros n m H E; [reflexivity|]. subst n. cbn [app drop_not].
  assert ((v =? NOT) = false) as -> by (apply Z.eqb_neq, H; left; reflexivity).
  f_equal. apply IH; [|reflexivity]. intros w Hw. apply H. right; exact Hw.
Qed.
Lemma opz_not o : (opz o =? NOT) = false.
Proof. destruct o; reflexivity. Qed.
Lemma drop_not_end (neg v : bool) : drop_not neg [b2z v] = [b2z (xorb neg v)].
Proof. cbn [drop_not]. rewrite b2z_not_NOT. destruct neg; [rewrite b2z_not|]; destruct v; reflexivity. Qed.


(* drop_not of a flat chain followed by anything *)
Lemma drop_not_flat {A} (f : A -> bool) c rest : flat c ->
  drop_not false (zs f c ++ rest) = b2z (fst (lin f c)) :: flat_ops (snd (lin f c)) ++ drop_not false rest.
Proof.
  revert rest. induction c as [neg a | c IH o neg a]; intros rest F; cbn in F; destruct a as [x|]; try contradiction.
  - unfold zs. cbn [words awords lin fst snd avalue]. destruct neg; cbn -[Z.eqb b2z].
    + rewrite b2z_not_NOT, b2z_not. destruct (f x); reflexivity.
    + rewrite b2z_not_NOT. destruct (f x); reflexivity.
  - specialize (IH (opz o :: (if neg then [NOT] else []) ++ b2z (f x) :: rest) F).
    assert (zs f (More c o neg (Test x)) ++ rest =
      zs f c ++ opz o :: (if neg then [NOT] else []) ++ b2z (f x) :: rest) as ->.
    { unfold zs. cbn [words awords]. rewrite map_app, <- app_assoc. f_equal.
      destruct o, neg; reflexivity. }
    rewrite IH. cbn [lin fst snd avalue]. f_equal. unfold flat_ops. rewrite flat_map_app, <- app_assoc. f_equal.
    cbn [flat_map fst snd app]. cbn [drop_not]. rewrite opz_not. f_equal.
    destruct neg; cbn [app drop_not]; [rewrite Z.eqb_refl|]; cbn [drop_not negb]; rewrite b2z_not_NOT;
      [rewrite b2z_not|]; destruct (f x); reflexivity.
Qed.

(* without negation nothing is dropped *)
Lemma drop_not_id l : existsb (Z.eqb NOT) l = false -> drop_not false l = l.
Proof.
  induction l as [|v l IH]; [reflexivity|]. cbn [existsb drop_not]. intros H. apply orb_false_iff in H as [H1 H2].
  rewrite Z.eqb_sym, H1. f_equal. apply IH, H2.
Qed.

Lemma eval_triplet_ops v o x rest def :
  eval_triplet (b2z v :: opz o :: b2z x :: rest) def = Some (b2z (ap1 v (o, x))).
Proof.
  unfold eval_triplet, ap1. cbn [fst snd]. rewrite !b2z_ne. destruct o; reflexivity.
Qed.
Lemma flat_ops_len ops : List.length (flat_ops ops) = (2 * List.length ops)%nat.
Proof. induction ops; [reflexivity|]. cbn. fold (flat_ops ops). lia. Qed.
Lemma flat_ops_not ops v : existsb (Z.eqb NOT) (b2z v :: flat_ops ops) = false.
Proof.
  cbn [existsb]. rewrite Z.eqb_sym, b2z_not_NOT. cbn [orb].
  induction ops as [|[o x] ops IH]; [reflexivity|]. cbn [flat_ops flat_map fst snd app existsb].
  rewrite Z.eqb_sym, opz_not, Z.eqb_sym, b2z_not_NOT. exact IH.
Qed.

(* The last lines of bool_eval(), for a list without 'not' of three or more. *)
Lemma bool_eval_ops ops : forall fuel d def v, (1 <= List.length ops)%nat ->
  (List.length ops <= fuel)%nat -> vals d = b2z v :: flat_ops ops ->
  exists d' bad, bool_eval fuel d def = Some (b2z (apply_ops v ops), d', bad) /\
    (bad || reset_bad d')%bool = reset_bad d.
Proof.
  induction ops as [|[o x] ops IH]; [cbn; lia|]. intros fuel d def v _ Hf Hv.
  assert (E : (3 <? List.length (vals d))%nat && existsb (Z.eqb NOT) (vals d) = false).
  { rewrite Hv, flat_ops_not. apply andb_false_r. }
  destruct fuel as [|fuel]; [cbn in Hf; lia|].
  destruct ops as [|p ops].
  - exists d, false. split; [|reflexivity].
    cbn [bool_eval]. rewrite E, Hv. cbn -[eval_triplet b2z opz]. rewrite eval_triplet_ops. reflexivity.
  - destruct (IH fuel (fresh (b2z (ap1 v (o, x)) :: flat_ops (p :: ops))) def (ap1 v (o, x))) as (d' & bad & H1 & H2).
    + cbn; lia.
    + cbn in Hf |- *; lia.
    + apply vals_fresh.
    + exists d', ((false || reset_bad d || bad)%bool). split.
      * cbn [bool_eval]. rewrite E, Hv.
        cbn [flat_ops flat_map fst snd app]. cbn [List.length Nat.ltb Nat.leb].
        rewrite eval_triplet_ops.
        change (skipn 3 (b2z v :: opz o :: b2z x :: ?r)) with r.
        cbn [flat_ops flat_map fst snd app] in H1 |- *. cbn [skipn].
        destruct p as [o2 x2]; cbn [fst snd app] in *. rewrite H1. reflexivity.
      * rewrite reset_fresh in H2. apply orb_false_iff in H2 as [-> ->]. cbn.
        rewrite !orb_false_r. reflexivity.
Qed.

Lemma zs_len {A} (f : A -> bool) c : List.length (zs f c) = List.length (words c).
Proof. apply map_length. Qed.

Lemma lin_ops_len {A} (f : A -> bool) c : flat c ->
  (2 * List.length (snd (lin f c)) < List.length (words c))%nat.
Proof.
  induction c as [neg a | c IH o neg a]; intros F; cbn in F; destruct a as [x|]; try contradiction.
  - cbn [lin snd words awords List.length]. rewrite app_length. cbn. lia.
  - specialize (IH F). cbn [lin snd words awords]. rewrite !app_length. cbn [List.length]. rewrite app_length. cbn. lia.
Qed.

Theorem bool_eval_flat {A} (f : A -> bool) c d def fuel : flat c -> vals d = zs f c ->
  (List.length (words c) <= fuel)%nat ->
  exists d' bad, bool_eval fuel d def = Some (b2z (value f c), d', bad) /\
    (bad || reset_bad d')%bool = reset_bad d.
Proof.
  intros F Hv Hf. pose proof (lin_ops_len f c F) as HL. pose proof (lin_value f c) as HV.
  destruct c as [neg a | c o neg a].
  - cbn in F. destruct a as [x|]; [|contradiction]. unfold zs in Hv. cbn in Hv, Hf.
    destruct neg; cbn [map app] in Hv.
    + destruct fuel; [cbn in Hf; lia|]. exists d, (negb (l_tail d)). cbn [bool_eval]. rewrite Hv.
      cbn [code_tok value avalue xorb]. rewrite Z.eqb_refl, b2z_not. split; [reflexivity|].
      unfold reset_bad. destruct (l_nodes d) eqn:E; [unfold vals in Hv; rewrite E in Hv; discriminate|].
      destruct (l_tail d); reflexivity.
    + destruct fuel; [cbn in Hf; lia|]. exists d, false. cbn [bool_eval]. rewrite Hv. cbn. split; [|reflexivity].
      destruct (f x); reflexivity.
  - remember (More c o neg a) as C eqn:EC.
    assert (L1 : (1 <= List.length (snd (lin f C)))%nat) by (subst C; cbn [lin snd]; rewrite app_length; cbn; lia).
    pose proof (drop_not_flat f C [] F) as HD. cbn [drop_not] in HD. rewrite !app_nil_r in HD.
    pose proof (zs_len f C) as HZ.
    destruct (existsb (Z.eqb NOT) (zs f C)) eqn:EN.
    + (* negations *)
      assert (L3 : (3 < List.length (zs f C))%nat).
      { destruct (Nat.ltb 3 (List.length (zs f C))) eqn:E3; [apply Nat.ltb_lt; exact E3|exfalso].
        apply Nat.ltb_ge in E3. rewrite EC in *. cbn in F. destruct a as [x|]; [|contradiction].
        destruct c as [neg2 a2| c2 o2 neg2 a2]; cbn in F; (destruct a2; [|contradiction]).
        - destruct neg, neg2; cbn in E3; try lia. unfold zs in EN. cbn -[Z.eqb b2z] in EN.
          rewrite !(Z.eqb_sym NOT), !b2z_not_NOT in EN. destruct o; discriminate EN.
        - unfold zs in E3. rewrite map_length in E3. cbn [words awords] in E3. rewrite !app_length in E3.
          cbn [List.length] in E3. rewrite !app_length in E3. cbn [List.length] in E3.
          pose proof (lin_ops_len f c2 F). lia. }
      destruct (bool_eval_ops (snd (lin f C)) fuel (fresh (drop_not false (zs f C))) def (fst (lin f C)) L1) as (d' & bad & H1 & H2).
      { lia. } { rewrite vals_fresh. exact HD. }
      exists d', (reset_bad d || bad)%bool. rewrite reset_fresh in H2. apply orb_false_iff in H2 as [-> H2].
      split; [|rewrite H2, !orb_false_r; reflexivity].
      rewrite HV in H1.
      destruct fuel as [|fuel]; [lia|]. cbn [bool_eval] in H1 |- *. rewrite Hv.
      rewrite vals_fresh in H1.
      assert (EN2 : existsb (Z.eqb NOT) (drop_not false (zs f C)) = false) by (rewrite HD; apply flat_ops_not).
      destruct (zs f C) as [|z1 [|z2 zr]] eqn:EZ; [cbn in L3; lia|cbn in L3; lia|].
      destruct zr as [|z3 zr]; [cbn in L3; lia|].
      rewrite EN. assert ((3 <? List.length (z1 :: z2 :: z3 :: zr))%nat = true) as -> by (apply Nat.ltb_lt; exact L3).
      cbn [andb]. rewrite vals_fresh.
      rewrite EN2, andb_false_r, vals_fresh in H1.
      assert (LD : (3 <= List.length (drop_not false (z1 :: z2 :: z3 :: zr)))%nat).
      { rewrite HD. cbn [List.length]. rewrite flat_ops_len. lia. }
      destruct (drop_not false (z1 :: z2 :: z3 :: zr)) as [|w1 [|w2 wr]]; [cbn in LD; lia|cbn in LD; lia|].
      destruct wr as [|w3 wr]; [cbn in LD; lia|].
      destruct ((3 <? List.length (w1 :: w2 :: w3 :: wr))%nat) eqn:EL.
      * destruct (eval_triplet (w1 :: w2 :: w3 :: wr) def); [|discriminate].
        destruct (bool_eval fuel _ def) as [[[r d2] bad2]|]; [|discriminate].
        injection H1 as -> -> HB. cbn [orb] in HB. rewrite reset_fresh in HB. cbn in HB. subst bad2.
        rewrite reset_fresh, !orb_false_r. reflexivity.
      * destruct (negb _); [injection H1 as -> -> |].
        { rewrite orb_false_r. reflexivity. }
        destruct (eval_triplet _ def); [|discriminate]. injection H1 as -> -> .
        rewrite orb_false_r. reflexivity.
    + rewrite (drop_not_id _ EN) in HD. rewrite <- HV.
      apply bool_eval_ops; [exact L1|lia|]. rewrite Hv. exact HD.
Qed.

(* ------------------------------------------------------------------ *)
(* Groups.  While evaluating, tests carry their value and whether they came
   from a group. *)

Definition red (a : atm (bool * bool)) : bool := match a with Test x => snd x | Grp _ => true end.

Lemma items_len {A} g1 g2 (c : chn A) : List.length (items g1 c) = List.length (items g2 c).
Proof.
  induction c as [neg a|c IH o neg a]; cbn [items].
  - destruct neg; reflexivity.
  - rewrite !app_length, IH. destruct neg; reflexivity.
Qed.
Lemma items_flat {A} g (c : chn A) : flat c -> List.length (items g c) = List.length (words c).
Proof.
  induction c as [neg a|c IH o neg a]; cbn [flat items words]; destruct a; try contradiction; intros F.
  - destruct neg; reflexivity.
  - rewrite !app_length, (IH F). destruct neg; reflexivity.
Qed.
Lemma flat_no {A} (c : chn A) t : flat c -> In t (words c) -> t <> KL /\ t <> KR.
Proof.
  induction c as [neg a|c IH o neg a]; cbn [flat words]; destruct a; try contradiction; intros F HI.
  - destruct neg; cbn in HI; intuition; subst; discriminate.
  - apply in_app_or in HI as [HI|HI]; [apply IH; assumption|].
    destruct o, neg; cbn in HI; intuition; subst; discriminate.
Qed.

Definition not_test {A} (t : tok A) : bool := match t with KTest _ => false | _ => true end.
Definition no_test_last {A} (l : list (tok A)) : Prop := match rev l with [] => True | t :: _ => not_test t = true end.

Lemma ntl_app {A} (a : list (tok A)) b : no_test_last b -> b <> [] -> no_test_last (a ++ b).
Proof.
  unfold no_test_last. rewrite rev_app_distr. destruct (rev b) eqn:E; [|auto].
  intros _ H. exfalso. apply H. rewrite <- (rev_involutive b), E. reflexivity.
Qed.

Definition decomposed (inside : bool) (w : list (tok (bool * bool))) (w' : list (tok (bool * bool))) : Prop :=
  exists pre mid post,
    w = pre ++ KL :: words mid ++ KR :: post /\ flat mid /\ ~ In KL post /\
    ((3 <= List.length (words mid))%nat \/ (inside = false /\ ~ In KR post)) /\
    no_test_last pre /\
    w' = pre ++ KTest (value fst mid, true) :: post.

Lemma decomposed_pre inside w w' p : no_test_last p -> decomposed inside w w' -> decomposed inside (p ++ w) (p ++ w').
Proof.
  intros Hp (pre & mid & post & -> & H1 & H2 & H3 & H4 & ->). exists (p ++ pre), mid, post.
  split; [rewrite app_assoc; reflexivity|]. split; [exact H1|]. split; [exact H2|]. split; [exact H3|].
  split; [|rewrite app_assoc; reflexivity].
  destruct pre as [|t pre]; [rewrite app_nil_r; exact Hp|]. apply ntl_app; [exact H4|discriminate].
Qed.
Lemma decomposed_post inside w w' p : ~ In KL p -> (inside = false -> ~ In KR p) ->
  decomposed inside w w' -> decomposed inside (w ++ p) (w' ++ p).
Proof.
  intros Hp Hp2 (pre & mid & post & -> & H1 & H2 & H3 & H4 & ->). exists pre, mid, (post ++ p).
  split; [rewrite <- app_assoc; cbn; rewrite <- app_assoc; reflexivity|]. split; [exact H1|].
  split; [intros H; apply in_app_or in H as [H|H]; auto|]. split; [|split; [exact H4|rewrite <- app_assoc; reflexivity]].
  destruct H3 as [H3|[H3 H5]]; [left; exact H3|right; split; [exact H3|]].
  intros H; apply in_app_or in H as [H|H]; [auto|]. exact (Hp2 H3 H).
Qed.
Lemma decomposed_wide w w' : decomposed true w w' -> forall i, decomposed i w w'.
Proof.
  intros (pre & mid & post & H0 & H1 & H2 & H3 & H4 & H5) i. exists pre, mid, post.
  destruct H3 as [H3|[H3 _]]; [|discriminate].
  split; [exact H0|]. split; [exact H1|]. split; [exact H2|]. split; [left; exact H3|]. split; [exact H4|exact H5].
Qed.

Lemma last_group :
  (forall c : chn (bool * bool), forall inside, wide inside c ->
    flat c \/ exists c', decomposed inside (words c) (words c') /\ value fst c' = value fst c /\
      items red c' = items red c /\ wide inside c') /\
  (forall a : atm (bool * bool), forall inside, awide inside a ->
    (exists x, a = Test x) \/ exists a', decomposed inside (awords a) (awords a') /\ avalue fst a' = avalue fst a /\
      red a' = red a /\ awide inside a').
Proof.
  apply (chn_atm_ind (bool * bool)
    (fun c => forall inside, wide inside c ->
      flat c \/ exists c', decomposed inside (words c) (words c') /\ value fst c' = value fst c /\
        items red c' = items red c /\ wide inside c')
    (fun a => forall inside, awide inside a ->
      (exists x, a = Test x) \/ exists a', decomposed inside (awords a) (awords a') /\ avalue fst a' = avalue fst a /\
        red a' = red a /\ awide inside a')).
  - intros neg a IH inside W. cbn [wide] in W. destruct (IH inside W) as [[x ->]|(a' & H1 & H2 & H3 & H4)]; [left; exact I|].
    right. exists (One neg a'). cbn [words value items wide]. rewrite H2, H3. split; [|auto].
    apply decomposed_pre; [destruct neg; reflexivity || exact I|exact H1].
  - intros c IHc o neg a IHa inside [Wc Wa]. destruct (IHa inside Wa) as [[x ->]|(a' & H1 & H2 & H3 & H4)].
    + destruct (IHc inside Wc) as [F|(c' & H1 & H2 & H3 & H4)]; [left; exact F|].
      right. exists (More c' o neg (Test x)). cbn [words value items wide]. rewrite H2, H3. split; [|cbn; auto].
      apply decomposed_post; [| |exact H1]; destruct o, neg; cbn; intuition discriminate.
    + right. exists (More c o neg a'). cbn [words value items wide]. rewrite H2, H3. split; [|auto].
      assert (E : forall w, words c ++ (if o then KAnd else KOr) :: (if neg then [KNot] else []) ++ w =
        (words c ++ (if o then KAnd else KOr) :: (if neg then [KNot] else [])) ++ w)
        by (intros w; rewrite <- app_assoc; reflexivity).
      rewrite !E. apply decomposed_pre; [|exact H1]. apply ntl_app; [|discriminate].
      destruct o, neg; reflexivity.
  - intros x inside _. left. exists x. reflexivity.
  - intros c IH inside [W1 W2]. right. destruct (IH true W2) as [F|(c' & H1 & H2 & H3 & H4)].
    + exists (Test (value fst c, true)). split; [|cbn; auto].
      exists [], c, []. cbn [awords app]. split; [reflexivity|]. split; [exact F|]. split; [intros []|].
      split; [|split; [exact I|reflexivity]].
      destruct inside; [left|right; split; [reflexivity|intros []]].
      rewrite <- (items_flat is_grp c F). apply W1. reflexivity.
    + exists (Grp c'). cbn [awords avalue red awide]. split; [|split; [exact H2|split; [reflexivity|]]].
      * apply decomposed_wide. apply (decomposed_pre true _ _ [KL]); [reflexivity|].
        apply decomposed_post; [cbn; intuition discriminate|discriminate|exact H1].
      * split; [|exact H4]. intros E. rewrite (items_len is_grp red c'), H3, (items_len red is_grp c). auto.
Qed.

(* ---- finding the parentheses ---- *)
Lemma positions_app a : forall b w i s, positions (a ++ b) w i s = positions a w i s ++ positions b w (i + List.length a) s.
Proof.
  induction a as [|v a IH]; intros b w i s; cbn [app positions List.length]; [rewrite Nat.add_0_r; reflexivity|].
  rewrite IH, <- app_assoc. do 3 f_equal. lia.
Qed.
Lemma positions_none l : forall w i s, ~ In w l -> positions l w i s = [].
Proof.
  induction l as [|v l IH]; intros w i s H; [reflexivity|]. cbn [positions].
  rewrite IH by (intros K; apply H; right; exact K).
  assert ((v =? w) = false) as -> by (apply Z.eqb_neq; intros ->; apply H; left; reflexivity).
  rewrite andb_false_r. reflexivity.
Qed.
Lemma positions_before l : forall w i s, (i + List.length l <= s)%nat -> positions l w i s = [].
Proof.
  induction l as [|v l IH]; intros w i s H; [reflexivity|]. cbn [positions List.length] in *.
  rewrite IH by lia. assert ((s <=? i)%nat = false) as -> by (apply Nat.leb_gt; lia). reflexivity.
Qed.

Lemma parens_found pre mid post :
  ~ In LEFT_PARENS mid -> ~ In RIGHT_PARENS mid -> ~ In LEFT_PARENS post ->
  ((3 <= List.length mid)%nat \/ ~ In RIGHT_PARENS post) ->
  parens (pre ++ LEFT_PARENS :: mid ++ RIGHT_PARENS :: post) =
    PAt (List.length pre) (List.length pre + 1 + List.length mid).
Proof.
  intros H1 H2 H3 H4. unfold parens.
  rewrite positions_app. cbn [positions]. cbn [Nat.leb andb]. rewrite Z.eqb_refl. cbn [Nat.add].
  assert (positions (mid ++ RIGHT_PARENS :: post) LEFT_PARENS (S (List.length pre)) 0 = []) as ->.
  { apply positions_none. intros H. apply in_app_or in H as [H|[H|H]]; [auto|discriminate|auto]. }
  rewrite app_nil_r, rev_app_distr. cbn [rev app].
  assert (P : forall s, (List.length pre < s)%nat -> positions (pre ++ LEFT_PARENS :: mid ++ RIGHT_PARENS :: post) RIGHT_PARENS 0 s =
     (if (s <=? List.length pre + 1 + List.length mid)%nat then [(List.length pre + 1 + List.length mid)%nat] else []) ++
     positions post RIGHT_PARENS (List.length pre + 2 + List.length mid) s).
  { intros s Hs. rewrite positions_app, positions_before by lia. cbn [app positions].
    rewrite andb_false_r. cbn [app]. rewrite positions_app, (positions_none mid) by exact H2.
    cbn [app positions]. rewrite Z.eqb_refl, andb_true_r.
    replace (S (0 + List.length pre) + List.length mid)%nat with (List.length pre + 1 + List.length mid)%nat by lia.
    do 2 f_equal. lia. }
  rewrite (P (List.length pre + 4)%nat), (P (List.length pre + 1)%nat) by lia.
  assert ((List.length pre + 1 <=? List.length pre + 1 + List.length mid)%nat = true) as -> by (apply Nat.leb_le; lia).
  destruct ((List.length pre + 4 <=? List.length pre + 1 + List.length mid)%nat) eqn:E; [reflexivity|].
  apply Nat.leb_gt in E. destruct H4 as [H4|H4]; [lia|].
  rewrite (positions_none post) by exact H4. reflexivity.
Qed.
Lemma parens_none l : ~ In LEFT_PARENS l -> parens l = PNone.
Proof. intros H. unfold parens. rewrite positions_none by exact H. reflexivity. Qed.

(* ---- the nodes ---- *)
Definition rt (t : tok (bool * bool)) : Z * bool :=
  (code_tok fst t, match t with KTest x => snd x | _ => false end).
Fixpoint mark (s : bool) (l : list (Z * bool)) : list (Z * bool) :=
  match l with [] => [] | (v, r) :: l' => (v, s) :: mark r l' end.
Definition nodes (l : list (Z * bool)) : list (Z * bool) :=
  match l with [] => [] | (v, _) :: l' => (v, false) :: mark false l' end.
Definition D (l : list (Z * bool)) : dl := mkdl (nodes l) (match l with [(_, true)] => false | _ => true end).

Lemma mark_app a : forall s b, mark s (a ++ b) = mark s a ++ mark (last (map snd a) s) b.
Proof.
  induction a as [|[v r] a IH]; intros s b; [reflexivity|]. cbn [app mark map snd]. rewrite IH. f_equal. f_equal.
  f_equal. destruct a as [|[v2 r2] a]; [reflexivity|]. cbn [map snd]. 
  assert (K : forall (l : list bool) x y z, last (x :: l) y = last (x :: l) z) by
    (induction l as [|q l IHl]; intros; [reflexivity|exact (IHl q y z)]).
  change (last (r :: r2 :: map snd a) s) with (last (r2 :: map snd a) s). apply K.
Qed.
Lemma mark_len l : forall s, List.length (mark s l) = List.length l.
Proof. induction l as [|[v r] l IH]; intros; cbn; [reflexivity|f_equal; apply IH]. Qed.
Lemma mark_vals l : forall s, map fst (mark s l) = map fst l.
Proof. induction l as [|[v r] l IH]; intros; cbn; [reflexivity|f_equal; apply IH]. Qed.
Lemma vals_D l : vals (D l) = map fst l.
Proof. unfold vals, D. destruct l as [|[v r] l]; [reflexivity|]. cbn. rewrite mark_vals. reflexivity. Qed.
Lemma mark_exists l : forall s, existsb snd (mark s l) =
  match l with [] => false | _ => (s || existsb (fun b => b) (removelast (map snd l)))%bool end.
Proof.
  induction l as [|[v r] l IH]; intros s; [reflexivity|]. cbn [mark existsb snd map]. rewrite IH.
  destruct l as [|[v2 r2] l]; [reflexivity|]. reflexivity.
Qed.
Lemma reset_D l : l <> [] -> reset_bad (D l) = inner_group (map snd l).
Proof.
  destruct l as [|[v r] l]; [congruence|]. intros _. unfold reset_bad, D. cbn [l_nodes l_tail nodes].
  cbn [existsb snd]. rewrite mark_exists. destruct l as [|[v2 r2] l]; [destruct r; reflexivity|].
  destruct r; reflexivity.
Qed.
Lemma fresh_D l : fresh l = D (map (fun v => (v, false)) l).
Proof.
  unfold fresh, D. destruct l as [|v l]; [reflexivity|]. cbn [map nodes].
  assert (E : forall l, mark false (map (fun v : Z => (v, false)) l) = map (fun v => (v, false)) l).
  { induction l0 as [|w l0 IH]; cbn; [reflexivity|f_equal; exact IH]. }
  rewrite E. destruct l; reflexivity.
Qed.

Lemma splice_list A x B y C t v : snd x = false ->
  splice (mkdl (A ++ x :: B ++ y :: C) t) (List.length A) (List.length A + 1 + List.length B) v =
  Some match A, C with
       | [], [] => mkdl [(v, false)] false
       | [], (w, _) :: r => mkdl ((v, false) :: (w, false) :: r) t
       | _, [] => mkdl (A ++ [(v, false)]) true
       | _, (w, _) :: r => mkdl (A ++ (v, false) :: (w, true) :: r) t
       end.
Proof.
  intros Hx. unfold splice. cbn [l_nodes l_tail].
  assert (nth_error (A ++ x :: B ++ y :: C) (List.length A) = Some x) as ->
    by (rewrite nth_error_app2, Nat.sub_diag by lia; reflexivity).
  assert (firstn (List.length A) (A ++ x :: B ++ y :: C) = A) as ->
    by (rewrite firstn_app, Nat.sub_diag, firstn_all; cbn; apply app_nil_r).
  assert (skipn (S (List.length A + 1 + List.length B)) (A ++ x :: B ++ y :: C) = C) as ->.
  { replace (A ++ x :: B ++ y :: C) with ((A ++ x :: B ++ [y]) ++ C)
      by (rewrite <- app_assoc; cbn; rewrite <- app_assoc; reflexivity).
    replace (S (List.length A + 1 + List.length B)) with (List.length (A ++ x :: B ++ [y]))
      by (rewrite app_length; cbn [List.length]; rewrite app_length; cbn [List.length]; lia).
    rewrite skipn_app, Nat.sub_diag, skipn_all2 by lia.
    reflexivity. }
  destruct x as [xv xs]. cbn in Hx. subst xs. reflexivity.
Qed.

Lemma splice_D pre mid post v :
  last (map snd pre) false = false ->
  splice (D (pre ++ (LEFT_PARENS, false) :: mid ++ (RIGHT_PARENS, false) :: post))
    (List.length pre) (List.length pre + 1 + List.length mid) v = Some (D (pre ++ (v, true) :: post)).
Proof.
  intros HL.
  assert (HT : l_tail (D (pre ++ (LEFT_PARENS, false) :: mid ++ (RIGHT_PARENS, false) :: post)) = true).
  { unfold D. cbn [l_tail]. destruct pre as [|[p r] pre]; [destruct mid as [|[m rm] mid]; reflexivity|].
    cbn [app]. destruct r; [|reflexivity]. destruct pre; reflexivity. }
  assert (HD : exists A B s, D (pre ++ (LEFT_PARENS, false) :: mid ++ (RIGHT_PARENS, false) :: post) =
     mkdl (A ++ (LEFT_PARENS, false) :: B ++ (RIGHT_PARENS, s) :: mark false post) true /\
     List.length A = List.length pre /\ List.length B = List.length mid /\ A = nodes pre).
  { destruct pre as [|[p r] pre].
    - exists [], (mark false mid), (last (map snd mid) false). split; [|rewrite mark_len; auto].
      unfold D in *. cbn [l_tail] in HT. rewrite HT. cbn [app nodes]. rewrite mark_app. reflexivity.
    - exists ((p, false) :: mark false pre), (mark false mid), (last (map snd mid) false).
      split; [|cbn [List.length]; rewrite !mark_len; auto].
      unfold D in *. cbn [l_tail] in HT. rewrite HT. cbn [app nodes]. rewrite mark_app. cbn [mark].
      assert (HL' : last (map snd pre) false = false).
      { cbn [map snd last] in HL. destruct (map snd pre); [reflexivity|exact HL]. }
      rewrite HL', mark_app. reflexivity. }
  destruct HD as (A & B & s & HD & HA & HB & EA). rewrite HD, <- HA, <- HB, splice_list by reflexivity.
  f_equal. unfold D. destruct pre as [|[p r] pre].
  - subst A. cbn [nodes app]. destruct post as [|[w rw] post]; reflexivity.
  - assert (HL' : last (map snd pre) false = false).
    { cbn [map snd last] in HL. destruct (map snd pre); [reflexivity|exact HL]. }
    subst A. cbn [nodes app]. rewrite mark_app, HL'. cbn [mark].
    destruct post as [|[w rw] post]; cbn [mark app]; f_equal; destruct r, pre; reflexivity.
Qed.

(* ---- putting it together ---- *)
Lemma map_rt_fst w : map fst (map rt w) = map (code_tok fst) w.
Proof. rewrite map_map. reflexivity. Qed.
Lemma words_ne {A} (c : chn A) : words c <> [].
Proof. destruct c as [[] a|c o neg a]; destruct a; cbn; try discriminate; destruct (words c); discriminate. Qed.
Lemma items_rt c : flat c -> map snd (map rt (words c)) = items red c.
Proof.
  induction c as [neg a|c IH o neg a]; cbn [flat]; destruct a; try contradiction; intros F.
  - destruct neg; reflexivity.
  - cbn [words awords items]. rewrite !map_app, (IH F). f_equal. destruct o, neg; reflexivity.
Qed.
Lemma code_KL t : code_tok (A := bool * bool) fst t = LEFT_PARENS -> t = KL.
Proof. destruct t as [| | | | |[[] r]]; try discriminate; reflexivity. Qed.
Lemma code_KR t : code_tok (A := bool * bool) fst t = RIGHT_PARENS -> t = KR.
Proof. destruct t as [| | | | |[[] r]]; try discriminate; reflexivity. Qed.
Lemma no_code_KL w : ~ In KL w -> ~ In LEFT_PARENS (map (code_tok (A := bool * bool) fst) w).
Proof. intros H K. apply in_map_iff in K as (t & E & K). apply code_KL in E. subst. auto. Qed.
Lemma no_code_KR w : ~ In KR w -> ~ In RIGHT_PARENS (map (code_tok (A := bool * bool) fst) w).
Proof. intros H K. apply in_map_iff in K as (t & E & K). apply code_KR in E. subst. auto. Qed.
Lemma ntl_rt pre : no_test_last pre -> last (map snd (map rt pre)) false = false.
Proof.
  unfold no_test_last. rewrite <- (rev_involutive pre) at 2. destruct (rev pre) as [|t l]; [reflexivity|].
  intros H. cbn [rev]. rewrite !map_app. cbn [map]. rewrite last_last. destruct t; try discriminate H; reflexivity.
Qed.

Theorem eval_parsed_chain : forall n c def, (List.length (words c) <= n)%nat -> wide false c ->
  exists d' bad, eval_parsed n (D (map rt (words c))) def = Some (b2z (value fst c), d', bad) /\
    (bad || reset_bad d')%bool = inner_group (items red c).
Proof.
  induction n as [|n IH]; intros c def Hn W.
  { destruct (words c) eqn:E; [exfalso; exact (words_ne c E)|cbn in Hn; lia]. }
  destruct (proj1 last_group c false W) as [F|(c' & (pre & mid & post & E & H1 & H2 & H3 & H4 & E') & HV & HI & W')].
  - (* no groups *)
    assert (NL : ~ In LEFT_PARENS (vals (D (map rt (words c))))).
    { rewrite vals_D, map_rt_fst. apply no_code_KL. intros K. apply (flat_no c _ F) in K as [K _]. congruence. }
    assert (NE : map rt (words c) <> []).
    { intros K. apply map_eq_nil in K. exact (words_ne c K). }
    assert (HZ : vals (D (map rt (words c))) = zs fst c) by (rewrite vals_D, map_rt_fst; reflexivity).
    rewrite <- (items_rt c F), <- (reset_D _ NE).
    destruct (bool_eval_flat fst c (D (map rt (words c))) def (List.length (vals (D (map rt (words c))))) F HZ) as (d' & bad & HB & HR).
    { rewrite HZ, zs_len. lia. }
    cbn [eval_parsed]. apply parens_none in NL.
    destruct (vals (D (map rt (words c)))) as [|v1 [|v2 vr]] eqn:EV.
    + exfalso. rewrite vals_D in EV. apply map_eq_nil in EV. auto.
    + exists (D (map rt (words c))), false. split; [|reflexivity].
      cbn [bool_eval List.length] in HB. rewrite EV in HB. injection HB as HB _ _. rewrite HB. reflexivity.
    + rewrite NL. exists d', bad. split; [exact HB|exact HR].
  - (* the last group *)
    assert (Em : forall w1 w2, map rt (w1 ++ KL :: words mid ++ KR :: w2) =
       map rt w1 ++ (LEFT_PARENS, false) :: map rt (words mid) ++ (RIGHT_PARENS, false) :: map rt w2).
    { intros. rewrite map_app. cbn [map]. rewrite map_app. reflexivity. }
    assert (HP : parens (vals (D (map rt (words c)))) = PAt (List.length pre) (List.length pre + 1 + List.length (words mid))).
    { rewrite vals_D, map_rt_fst, E, map_app. cbn [map]. rewrite map_app. cbn [map].
      change (code_tok fst KL) with LEFT_PARENS. change (code_tok fst KR) with RIGHT_PARENS.
      rewrite parens_found.
      - rewrite !map_length. reflexivity.
      - apply no_code_KL. intros K. apply (flat_no mid _ H1) in K as [K _]. congruence.
      - apply no_code_KR. intros K. apply (flat_no mid _ H1) in K as [_ K]. congruence.
      - apply no_code_KL. exact H2.
      - rewrite map_length. destruct H3 as [H3|[_ H3]]; [left; exact H3|right; apply no_code_KR; exact H3]. }
    assert (HS : firstn (List.length pre + 1 + List.length (words mid) - List.length pre - 1) (skipn (S (List.length pre)) (vals (D (map rt (words c))))) = zs fst mid).
    { rewrite vals_D, map_rt_fst, E, map_app. cbn [map]. rewrite map_app.
      rewrite skipn_app, skipn_all2 by (rewrite map_length; lia). rewrite map_length. cbn [app].
      replace (S (List.length pre) - List.length pre)%nat with 1%nat by lia. cbn [skipn].
      replace (List.length pre + 1 + List.length (words mid) - List.length pre - 1)%nat with (List.length (map (code_tok fst) (words mid))) by (rewrite map_length; lia).
      rewrite firstn_app, Nat.sub_diag, firstn_all. apply app_nil_r. }
    assert (L : (2 <= List.length (vals (D (map rt (words c)))))%nat).
    { rewrite vals_D, map_rt_fst, map_length, E, app_length. cbn [List.length]. rewrite app_length. cbn [List.length]. lia. }
    destruct (bool_eval_flat fst mid (fresh (zs fst mid)) def (List.length (zs fst mid)) H1 (vals_fresh _)) as (d1 & bad1 & HB & HR).
    { rewrite zs_len. lia. }
    rewrite reset_fresh in HR. apply orb_false_iff in HR as [-> HR].
    destruct (IH c' def) as (d' & bad & HE & HF).
    { rewrite E', app_length. cbn [List.length]. rewrite E, app_length in Hn. cbn [List.length] in Hn.
      rewrite app_length in Hn. cbn [List.length] in Hn.
      pose proof (words_ne mid). destruct (words mid); [congruence|]. cbn [List.length] in Hn. lia. }
    { exact W'. }
    exists d', bad. rewrite <- HI, <- HV. split; [|exact HF].
    cbn [eval_parsed].
    destruct (vals (D (map rt (words c)))) as [|v1 [|v2 vr]] eqn:EV; [cbn in L; lia|cbn in L; lia|].
    rewrite HP, HS, HB.
    assert (SP : splice (D (map rt (words c))) (List.length pre) (List.length pre + 1 + List.length (words mid)) (b2z (value fst mid)) = Some (D (map rt (words c')))).
    { rewrite E, E', Em, map_app. cbn [map]. 
      pose proof (splice_D (map rt pre) (map rt (words mid)) (map rt post) (b2z (value fst mid)) (ntl_rt pre H4)) as K.
      rewrite !map_length in K. exact K. }
    rewrite SP, HE, HR. cbn [orb]. reflexivity.
Qed.

(* From an expression over any tests to one over their values. *)
Fixpoint cmap {A B} (g : A -> B) (c : chn A) : chn B :=
  match c with
  | One neg a => One neg (amap g a)
  | More c o neg a => More (cmap g c) o neg (amap g a)
  end
with amap {A B} (g : A -> B) (a : atm A) : atm B :=
  match a with Test x => Test (g x) | Grp c => Grp (cmap g c) end.
Definition tmap {A B} (g : A -> B) (t : tok A) : tok B :=
  match t with KAnd => KAnd | KOr => KOr | KNot => KNot | KL => KL | KR => KR | KTest x => KTest (g x) end.

Section Map.
Variable A : Type.
Variable f : A -> bool.
Let g := fun x => (f x, false).
Lemma cmap_words : (forall c : chn A, words (cmap g c) = map (tmap g) (words c)) /\
  (forall a : atm A, awords (amap g a) = map (tmap g) (awords a)).
Proof.
  apply (chn_atm_ind A (fun c => words (cmap g c) = map (tmap g) (words c)) (fun a => awords (amap g a) = map (tmap g) (awords a))).
  - intros neg a H. cbn [cmap words]. rewrite map_app, H. destruct neg; reflexivity.
  - intros c Hc o neg a H. cbn [cmap words]. rewrite map_app, Hc. cbn [map]. rewrite map_app, H. destruct neg, o; reflexivity.
  - reflexivity.
  - intros c Hc. cbn [amap awords map]. rewrite map_app, Hc. reflexivity.
Qed.
Lemma cmap_value : (forall c : chn A, value fst (cmap g c) = value f c) /\
  (forall a : atm A, avalue fst (amap g a) = avalue f a).
Proof.
  apply (chn_atm_ind A (fun c => value fst (cmap g c) = value f c) (fun a => avalue fst (amap g a) = avalue f a)).
  - intros neg a H. cbn [cmap value]. rewrite H. reflexivity.
  - intros c Hc o neg a H. cbn [cmap value]. rewrite Hc, H. reflexivity.
  - reflexivity.
  - intros c Hc. exact Hc.
Qed.
Lemma cmap_items_g (c : chn A) : items is_grp (cmap g c) = items is_grp c.
Proof.
  induction c as [neg a|c IH o neg a]; cbn [cmap items]; [|rewrite IH]; destruct a; reflexivity.
Qed.
Lemma cmap_items (c : chn A) : items red (cmap g c) = items is_grp c.
Proof.
  induction c as [neg a|c IH o neg a]; cbn [cmap items]; [|rewrite IH]; destruct a; reflexivity.
Qed.
Lemma cmap_wide : (forall (c : chn A) i, wide i c -> wide i (cmap g c)) /\
  (forall (a : atm A) i, awide i a -> awide i (amap g a)).
Proof.
  apply (chn_atm_ind A (fun c => forall i, wide i c -> wide i (cmap g c)) (fun a => forall i, awide i a -> awide i (amap g a))).
  - intros neg a H i. cbn [cmap wide]. apply H.
  - intros c Hc o neg a H i [W1 W2]. cbn [cmap wide]. split; [apply Hc, W1|apply H, W2].
  - intros x i _. exact I.
  - intros c Hc i [W1 W2]. cbn [amap awide]. rewrite cmap_items_g. split; [exact W1|apply Hc, W2].
Qed.
End Map.

(* The value of an expression, and whether its evaluation uses freed memory. *)
Theorem eval_words_chain {A} (f : A -> bool) (c : chn A) def : wide false c ->
  eval_words (map (code_tok f) (words c)) true def = Some (b2z (value f c), inner_group (items is_grp c)).
Proof.
  intros W. unfold eval_words. cbn [negb].
  set (g := fun x => (f x, false)).
  destruct (eval_parsed_chain (S (List.length (map (code_tok f) (words c)))) (cmap g c) def) as (d' & bad & HE & HB).
  - rewrite (proj1 (cmap_words A f)), !map_length. lia.
  - apply (proj1 (cmap_wide A f)), W.
  - assert (EF : fresh (map (code_tok f) (words c)) = D (map rt (words (cmap g c)))).
    { rewrite fresh_D, map_map. unfold g. rewrite (proj1 (cmap_words A f)), map_map. f_equal.
      apply map_ext. intros t. destruct t; reflexivity. }
    rewrite EF, HE, HB. unfold g. rewrite (proj1 (cmap_value A f)), cmap_items. reflexivity.
Qed.

(* ------------------------------------------------------------------ *)
(* The text.  Specification: a word is made of plain characters, characters
   with a backslash before them, and quoted pieces; words and parentheses are
   laid out with any number of spaces before them, one at least between two
   words. *)

Inductive piece := Plain (c : Z) | Esc (c : Z) | Quoted (q : Z) (s : bytes).
Definition piece_bytes (p : piece) : bytes :=
  match p with Plain c => [c] | Esc c => [backslash; c] | Quoted q s => q :: s ++ [q] end.
Definition word_bytes (w : list piece) : bytes := flat_map piece_bytes w.
Definition piece_ok (p : piece) : Prop :=
  match p with
  | Plain c => c <> squote /\ c <> dquote /\ c <> backslash /\ c <> space /\ c <> lparen /\ c <> rparen
  | Esc c => c <> squote /\ c <> dquote /\ c <> backslash
  | Quoted q s => (q = squote \/ q = dquote) /\ ~ In q s /\ ~ In backslash s
  end.
Definition word_ok (w : list piece) : Prop :=
  w <> [] /\ Forall piece_ok w /\ last w (Plain 0) <> Esc space.

Inductive elem := EWord (w : list piece) | ELeft | ERight.
Definition elem_bytes (e : elem) : bytes :=
  match e with EWord w => word_bytes w | ELeft => [lparen] | ERight => [rparen] end.
Definition elem_ok (e : elem) : Prop := match e with EWord w => word_ok w | _ => True end.
Definition spaces (n : nat) : bytes := repeat space n.
Definition layout := list (nat * elem).
Fixpoint render (l : layout) : bytes :=
  match l with [] => [] | (n, e) :: r => spaces n ++ elem_bytes e ++ render r end.
Definition is_word (e : elem) : bool := match e with EWord _ => true | _ => false end.
Fixpoint apart (prevword : bool) (l : layout) : Prop :=
  match l with
  | [] => True
  | (n, e) :: r => (prevword = true -> is_word e = true -> (1 <= n)%nat) /\ apart (is_word e) r
  end.
Definition layout_ok (l : layout) : Prop := Forall elem_ok (map snd l) /\ apart false l.

(* ---- scanning ---- *)
(* The states after a stretch, and whether there was a hit. *)
Fixpoint scan (X : Z) (b : bytes) (q prev : Z) : Z * Z * bool :=
  match b with
  | [] => (q, prev, false)
  | c :: b' => let '(q', hit) := scan1 q prev X c in
               let '(q2, p2, h2) := scan X b' q' c in (q2, p2, (hit || h2)%bool)
  end.
Lemma scan_app X a : forall b q p, scan X (a ++ b) q p =
  let '(q1, p1, h1) := scan X a q p in let '(q2, p2, h2) := scan X b q1 p1 in (q2, p2, (h1 || h2)%bool).
Proof.
  induction a as [|c a IH]; intros b q p; cbn [app scan].
  - destruct (scan X b q p) as [[q2 p2] h2]. reflexivity.
  - destruct (scan1 q p X c) as [q' hit]. rewrite IH. destruct (scan X a q' c) as [[q1 p1] h1].
    destruct (scan X b q1 p1) as [[q2 p2] h2]. rewrite orb_assoc. reflexivity.
Qed.

Definition special (X : Z) : Prop := X = space \/ X = lparen \/ X = rparen.
Lemma special_ne X : special X -> X <> squote /\ X <> dquote /\ X <> backslash.
Proof. intros [->|[->| ->]]; repeat split; discriminate. Qed.

Lemma scan1_plain X p c : c <> squote -> c <> dquote -> (c <> X \/ p = backslash) -> scan1 0 p X c = (0, false).
Proof.
  intros H1 H2 H3. unfold scan1. cbn [Z.eqb negb andb].
  apply Z.eqb_neq in H1, H2. rewrite H1, H2. cbn [orb].
  destruct (c =? X) eqn:E; [|reflexivity]. apply Z.eqb_eq in E. destruct H3 as [H3| ->]; [congruence|reflexivity].
Qed.

Lemma last_app_ne {A} (a b : list A) d : b <> [] -> last (a ++ b) d = last b d.
Proof.
  intros H. destruct (exists_last H) as (b' & x & ->). rewrite app_assoc, !last_last. reflexivity.
Qed.
Lemma last_indep {A} (l : list A) d d' : l <> [] -> last l d = last l d'.
Proof. intros H. destruct (exists_last H) as (b' & x & ->). rewrite !last_last. reflexivity. Qed.

Lemma scan_inquote X q s : forall p, q <> 0 -> ~ In q s -> scan X s q p = (q, last s p, false).
Proof.
  induction s as [|c s IH]; intros p Hq H; [reflexivity|]. cbn [scan].
  assert (c <> q) by (intros ->; apply H; left; reflexivity).
  unfold scan1. apply Z.eqb_neq in Hq as Hq'. rewrite Hq'. cbn [andb negb].
  assert ((c =? q) = false) as -> by (apply Z.eqb_neq; assumption).
  rewrite IH; [|assumption|intros K; apply H; right; exact K].
  destruct s as [|d s]; [reflexivity|]. cbn [orb]. f_equal. f_equal. cbn [last]. apply (last_indep (d :: s)). discriminate.
Qed.

Lemma scan_piece X w p : special X -> piece_ok w -> scan X (piece_bytes w) 0 p = (0, last (piece_bytes w) p, false).
Proof.
  intros HX. apply special_ne in HX as HN. destruct HN as (N1 & N2 & N3).
  destruct w as [c|c|q s]; cbn [piece_ok piece_bytes].
  - intros (H1 & H2 & H3 & H4 & H5 & H6). cbn [scan]. rewrite scan1_plain; [reflexivity|assumption|assumption|].
    left. destruct HX as [->|[->| ->]]; assumption.
  - intros (H1 & H2 & H3). cbn [scan]. rewrite scan1_plain; [|discriminate|discriminate|left; congruence].
    rewrite scan1_plain; [reflexivity|assumption|assumption|right; reflexivity].
  - intros (Hq & H1 & H2). cbn [scan].
    assert (Q0 : q <> 0) by (destruct Hq as [->| ->]; discriminate).
    assert (scan1 0 p X q = (q, false)) as ->.
    { unfold scan1. destruct Hq as [->| ->]; reflexivity. }
    rewrite scan_app, (scan_inquote X q s q Q0 H1). cbn [scan].
    assert (scan1 q (last s q) X q = (0, false)) as ->.
    { unfold scan1. apply Z.eqb_neq in Q0. rewrite Q0, Z.eqb_refl. cbn [andb negb].
      assert ((last s q =? backslash) = false) as ->; [|reflexivity]. apply Z.eqb_neq.
      destruct s as [|c s]; [destruct Hq as [->| ->]; discriminate|].
      assert (In (last (c :: s) q) (c :: s)).
      { rewrite (app_removelast_last q (l := c :: s)) at 2 by discriminate. apply in_or_app. right. left. reflexivity. }
      congruence. }
    f_equal. f_equal. change (q :: s ++ [q]) with ((q :: s) ++ [q]). rewrite last_last. reflexivity.
Qed.

Lemma piece_ne p : piece_bytes p <> [].
Proof. destruct p; discriminate. Qed.
Lemma scan_word X w : special X -> Forall piece_ok w -> forall p,
  scan X (word_bytes w) 0 p = (0, last (word_bytes w) p, false).
Proof.
  intros HX. induction w as [|x w IH]; intros F p; [reflexivity|]. inversion F; subst.
  cbn [word_bytes flat_map]. fold (word_bytes w). rewrite scan_app, scan_piece by assumption. rewrite IH by assumption.
  f_equal. f_equal. destruct (word_bytes w) as [|c l] eqn:E; [rewrite app_nil_r; reflexivity|].
  rewrite last_app_ne by discriminate. apply last_indep. discriminate.
Qed.

(* What is needed of the text of an element once parentheses stand apart. *)
Definition block (b : bytes) : Prop :=
  b <> [] /\ hd0 b <> space /\ last b 0 <> space /\ last b 0 <> backslash.
Lemma word_block w : word_ok w -> block (word_bytes w).
Proof.
  intros (H1 & H2 & H3). unfold block.
  assert (N : word_bytes w <> []).
  { destruct w as [|x w]; [congruence|]. cbn [word_bytes flat_map]. destruct (piece_bytes x) eqn:E; [destruct (piece_ne x E)|discriminate]. }
  split; [exact N|]. split.
  - destruct w as [|x w]; [congruence|]. inversion H2; subst. destruct x as [c|c|q s]; cbn; [|discriminate|].
    + cbn in H4. tauto.
    + cbn in H4. destruct H4 as [[->| ->] _]; discriminate.
  - destruct (exists_last H1) as (w' & x & ->). rewrite last_last in H3.
    apply Forall_app in H2 as [_ H2]. inversion H2; subst.
    unfold word_bytes. rewrite flat_map_app. cbn [flat_map]. rewrite app_nil_r, last_app_ne by apply piece_ne.
    destruct x as [c|c|q s]; cbn [piece_bytes piece_ok] in *.
    + cbn. tauto.
    + cbn. split; [congruence|tauto].
    + change (q :: s ++ [q]) with ((q :: s) ++ [q]). rewrite last_last.
      destruct H4 as [[->| ->] _]; split; discriminate.
Qed.
Lemma elem_block e : elem_ok e -> block (elem_bytes e).
Proof.
  destruct e; [apply word_block| |]; intros _; repeat split; discriminate.
Qed.
Lemma scan_elem_space e p : elem_ok e -> scan space (elem_bytes e) 0 p = (0, last (elem_bytes e) p, false).
Proof.
  destruct e; [|reflexivity|reflexivity]. intros (H1 & H2 & H3). apply scan_word; [left; reflexivity|exact H2].
Qed.

(* ---- charreplace and charcount over a quiet stretch ---- *)
Lemma charreplace_quiet X rep b : forall q p q' p' rest, scan X b q p = (q', p', false) ->
  charreplace (b ++ rest) X rep q p = b ++ charreplace rest X rep q' p'.
Proof.
  induction b as [|c b IH]; intros q p q' p' rest H; cbn [scan] in H; [injection H as -> ->; reflexivity|].
  cbn [app charreplace]. destruct (scan1 q p X c) as [q1 hit]. destruct (scan X b q1 c) as [[q2 p2] h2] eqn:E.
  injection H as -> -> H. apply orb_false_iff in H as [-> ->]. cbn [app]. f_equal. apply IH. exact E.
Qed.
Lemma charcount_quiet X rep b : forall q p q' p' rest, scan X b q p = (q', p', false) ->
  charcount (b ++ rest) X rep q p = charcount rest X rep q' p'.
Proof.
  induction b as [|c b IH]; intros q p q' p' rest H; cbn [scan] in H; [injection H as -> ->; reflexivity|].
  cbn [app charcount]. destruct (scan1 q p X c) as [q1 hit]. destruct (scan X b q1 c) as [[q2 p2] h2] eqn:E.
  injection H as -> -> H. apply orb_false_iff in H as [-> ->]. cbn [andb]. rewrite Z.add_0_l. apply IH. exact E.
Qed.
Lemma charcount_nonneg X rep s : forall q p, 0 <= charcount s X rep q p.
Proof.
  induction s as [|c s IH]; intros q p; cbn [charcount]; [lia|]. destruct (scan1 q p X c) as [q1 hit].
  specialize (IH q1 c). destruct (hit && _)%bool; lia.
Qed.
Lemma scan_spaces X n : X <> space -> forall p, scan X (spaces n) 0 p = (0, last (spaces n) p, false).
Proof.
  intros HX. induction n as [|n IH]; intros p; [reflexivity|]. cbn [spaces repeat]. fold (spaces n). cbn [scan].
  rewrite scan1_plain by (try discriminate; left; congruence). rewrite IH. destruct n; [reflexivity|]. cbn [orb]. f_equal. f_equal. cbn [last spaces repeat]. apply (last_indep (space :: repeat space n)). discriminate.
Qed.

(* ---- replacing parentheses ---- *)
Definition pelem (X : Z) : elem := if X =? lparen then ELeft else ERight.
Definition is_p (X : Z) (e : elem) : bool :=
  match e with ELeft => X =? lparen | ERight => X =? rparen | _ => false end.
Fixpoint widen (X : Z) (carry : nat) (l : layout) : layout * nat :=
  match l with
  | [] => ([], carry)
  | (n, e) :: r => if is_p X e then let '(r', t) := widen X 1 r in ((carry + n + 1, e)%nat :: r', t)
                   else let '(r', t) := widen X 0 r in ((carry + n, e)%nat :: r', t)
  end.
Definition paren_char (X : Z) : Prop := X = lparen \/ X = rparen.
Definition p_bytes (X : Z) : bytes := [space; X; space].

Lemma scan_elem_other X e p : paren_char X -> elem_ok e -> is_p X e = false ->
  scan X (elem_bytes e) 0 p = (0, last (elem_bytes e) p, false).
Proof.
  intros HX HE HP. destruct e as [w| |]; cbn [elem_bytes].
  - destruct HE as (H1 & H2 & H3). apply scan_word; [right; exact HX|exact H2].
  - cbn [is_p] in HP. destruct HX as [->| ->]; [discriminate|reflexivity].
  - cbn [is_p] in HP. destruct HX as [->| ->]; [reflexivity|discriminate].
Qed.
Lemma is_p_bytes X e : is_p X e = true -> elem_bytes e = [X].
Proof. destruct e; cbn; [discriminate| |]; intros H; apply Z.eqb_eq in H; subst; reflexivity. Qed.
Lemma spaces_snoc n : spaces n ++ [space] = spaces (n + 1).
Proof. induction n; cbn; [reflexivity|f_equal; exact IHn]. Qed.
Lemma spaces_app n m : spaces n ++ spaces m = spaces (n + m).
Proof. symmetry. apply repeat_app. Qed.
Lemma last_spaces n p : p <> backslash -> last (spaces n) p <> backslash.
Proof.
  intros H. destruct n; [exact H|]. replace (spaces (S n)) with (spaces n ++ [space]) by (rewrite spaces_snoc; f_equal; lia).
  rewrite last_last. discriminate.
Qed.
Lemma elem_last e p : elem_ok e -> last (elem_bytes e) p <> backslash.
Proof.
  intros H. destruct (elem_block e H) as (N & _ & _ & L). rewrite (last_indep _ p 0 N). exact L.
Qed.

Lemma replace_render X : paren_char X -> forall l carry p q', p <> backslash -> q' = 0 ->
  Forall elem_ok (map snd l) ->
  spaces carry ++ charreplace (render l) X (p_bytes X) q' p = render (fst (widen X carry l)) ++ spaces (snd (widen X carry l)).
Proof.
  intros HX. assert (XS : X <> space) by (destruct HX as [->| ->]; discriminate).
  induction l as [|[n e] l IH]; intros carry p q' Hp -> HF; [cbn; rewrite app_nil_r; reflexivity|].
  inversion HF as [|? ? HE HF']; subst.
  cbn [render widen].
  rewrite (charreplace_quiet X (p_bytes X) (spaces n) 0 p _ _ _ (scan_spaces X n XS p)).
  destruct (is_p X e) eqn:EP.
  - specialize (IH 1%nat X 0). destruct (widen X 1 l) as [r' t]. cbn [fst snd render] in *.
    rewrite (is_p_bytes X e EP). cbn [app charreplace].
    assert (HN : scan1 0 (last (spaces n) p) X X = (0, true)).
    { unfold scan1. cbn [Z.eqb andb negb]. rewrite Z.eqb_refl.
      assert ((X =? squote) = false /\ (X =? dquote) = false) as [-> ->] by (destruct HX as [->| ->]; split; reflexivity).
      cbn [orb]. assert ((last (spaces n) p =? backslash) = false) as -> by (apply Z.eqb_neq, last_spaces, Hp). reflexivity. }
    rewrite HN. cbn [p_bytes app].
    rewrite <- app_assoc. cbn [app]. rewrite <- IH; [|destruct HX as [->| ->]; discriminate|reflexivity|exact HF'].
    replace (carry + n + 1)%nat with (carry + (n + 1))%nat by lia. rewrite <- spaces_app, <- spaces_snoc, <- !app_assoc. reflexivity.
  - specialize (IH 0%nat (last (elem_bytes e) (last (spaces n) p)) 0). destruct (widen X 0 l) as [r' t]. cbn [fst snd render] in *.
    rewrite (charreplace_quiet X (p_bytes X) (elem_bytes e) 0 _ _ _ _ (scan_elem_other X e _ HX HE EP)).
    rewrite <- !app_assoc. rewrite <- IH; [|apply elem_last; exact HE|reflexivity|exact HF'].
    rewrite <- spaces_app, <- !app_assoc. reflexivity.
Qed.

Lemma count_render X : paren_char X -> forall l p, p <> backslash -> Forall elem_ok (map snd l) ->
  forall m, charcount (render l ++ spaces m) X true 0 p = Z.of_nat (List.length (filter (is_p X) (map snd l))).
Proof.
  intros HX. assert (XS : X <> space) by (destruct HX as [->| ->]; discriminate).
  induction l as [|[n e] l IH]; intros p Hp HF m.
  - cbn [render app]. rewrite <- (app_nil_r (spaces m)). rewrite (charcount_quiet X true (spaces m) 0 p _ _ _ (scan_spaces X m XS p)). reflexivity.
  - inversion HF as [|? ? HE HF']; subst. cbn [render map snd filter]. rewrite <- !app_assoc.
    rewrite (charcount_quiet X true (spaces n) 0 p _ _ _ (scan_spaces X n XS p)).
    destruct (is_p X e) eqn:EP.
    + rewrite (is_p_bytes X e EP). cbn [app charcount].
      assert (HN : scan1 0 (last (spaces n) p) X X = (0, true)).
      { unfold scan1. cbn [Z.eqb andb negb]. rewrite Z.eqb_refl.
        assert ((X =? squote) = false /\ (X =? dquote) = false) as [-> ->] by (destruct HX as [->| ->]; split; reflexivity).
        cbn [orb]. assert ((last (spaces n) p =? backslash) = false) as -> by (apply Z.eqb_neq, last_spaces, Hp). reflexivity. }
      rewrite HN. cbn [andb orb]. rewrite IH; [|destruct HX as [->| ->]; discriminate|exact HF']. cbn [List.length]. lia.
    + rewrite (charcount_quiet X true (elem_bytes e) 0 _ _ _ _ (scan_elem_other X e _ HX HE EP)).
      apply IH; [apply elem_last; exact HE|exact HF'].
Qed.

(* ---- splitting at the spaces ---- *)
Definition sep (l : list (nat * bytes)) : bytes := flat_map (fun p => spaces (S (fst p)) ++ snd p) l.
Definition blk (b : bytes) : Prop := block b /\ forall p, scan space b 0 p = (0, last b p, false).

Lemma split_quiet b : forall q p q' p' buf j k rest, scan space b q p = (q', p', false) ->
  split_loop (b ++ rest) q p buf j k = split_loop rest q' p' buf (j + List.length b) k.
Proof.
  induction b as [|c b IH]; intros q p q' p' buf j k rest H; cbn [scan] in H.
  - injection H as -> ->. cbn. rewrite Nat.add_0_r. reflexivity.
  - cbn [app split_loop List.length]. destruct (scan1 q p space c) as [q1 hit]. destruct (scan space b q1 c) as [[q2 p2] h2] eqn:E.
    injection H as -> -> H. apply orb_false_iff in H as [-> ->]. rewrite (IH _ _ _ _ _ _ _ _ E). f_equal. lia.
Qed.
Lemma scan1_space p : p <> backslash -> scan1 0 p space space = (0, true).
Proof. intros H. unfold scan1. cbn. apply Z.eqb_neq in H. rewrite H. reflexivity. Qed.
Lemma split_spaces m : forall rest buf j k, (exists b2, buf = spaces m ++ b2) ->
  split_loop (spaces m ++ rest) 0 space buf j k = split_loop rest 0 space (skipn m buf) j k.
Proof.
  induction m as [|m IH]; intros rest buf j k [b2 ->]; [reflexivity|].
  cbn [spaces repeat app split_loop]. fold (spaces m). rewrite scan1_space by discriminate.
  rewrite Z.eqb_refl. cbn [tl skipn]. apply IH. exists b2. reflexivity.
Qed.

Lemma split_sep l : forall cur k p pre, Forall (fun x => blk (snd x)) l -> cur <> [] -> hd0 cur <> space ->
  p <> space -> p <> backslash -> pre = match k with O => [] | _ => [space] end ->
  exists ws buf j, split_loop (sep l) 0 p (pre ++ cur ++ sep l) (List.length cur) k = (ws, buf, j) /\
    ws ++ [firstn j (skip_spaces buf)] = cur :: map snd l.
Proof.
  induction l as [|[g b] l IH]; intros cur k p pre HF HC HH HP1 HP2 Hpre.
  - exists [], (pre ++ cur), (List.length cur). cbn [sep flat_map split_loop]. rewrite app_nil_r. split; [reflexivity|].
    cbn [map app]. f_equal.
    assert (skip_spaces cur = cur).
    { destruct cur as [|c cur]; [congruence|]. cbn. cbn in HH. apply Z.eqb_neq in HH. rewrite HH. reflexivity. }
    assert (skip_spaces (pre ++ cur) = cur) as ->.
    { destruct k; subst pre; [exact H|]. cbn. exact H. }
    apply firstn_all.
  - inversion HF as [|? ? HB HF']; subst. destruct HB as [(B1 & B2 & B3 & B4) B5]. cbn [snd] in *.
    cbn [sep flat_map fst snd]. fold (sep l).
    assert (E : (spaces (S g) ++ b) ++ sep l = space :: spaces g ++ b ++ sep l) by (cbn; rewrite <- app_assoc; reflexivity).
    rewrite E. cbn [split_loop]. rewrite scan1_space by exact HP2.
    assert ((p =? space) = false) as -> by (apply Z.eqb_neq; exact HP1).
    set (buf1 := match k with O => _ | Datatypes.S _ => _ end).
    assert (EB : buf1 = cur ++ space :: spaces g ++ b ++ sep l).
    { unfold buf1. destruct k; reflexivity. }
    clearbody buf1. subst buf1.
    assert (E2 : skipn (List.length cur) (cur ++ space :: spaces g ++ b ++ sep l) = space :: spaces g ++ b ++ sep l).
    { rewrite skipn_app, skipn_all2, Nat.sub_diag by lia. reflexivity. }
    assert (E3 : firstn (List.length cur) (cur ++ space :: spaces g ++ b ++ sep l) = cur).
    { rewrite firstn_app, Nat.sub_diag, firstn_all. apply app_nil_r. }
    rewrite E2, E3.
    assert (ES : space :: spaces g ++ b ++ sep l = spaces g ++ space :: b ++ sep l).
    { change (space :: spaces g ++ b ++ sep l) with ((space :: spaces g) ++ b ++ sep l).
      replace (space :: spaces g) with (spaces g ++ [space]) by (rewrite spaces_snoc, Nat.add_1_r; reflexivity).
      rewrite <- app_assoc. reflexivity. }
    rewrite split_spaces by (exists (space :: b ++ sep l); exact ES).
    rewrite ES. assert (EK : skipn g (spaces g ++ space :: b ++ sep l) = space :: b ++ sep l).
    { rewrite skipn_app, skipn_all2 by (unfold spaces; rewrite repeat_length; lia). unfold spaces. rewrite repeat_length, Nat.sub_diag. reflexivity. }
    rewrite EK, (split_quiet b 0 space _ _ _ _ _ _ (B5 space)). cbn [Nat.add].
    destruct (IH b (Datatypes.S k) (last b space) [space] HF' B1 B2) as (ws & buf & j & H1 & H2).
    { rewrite (last_indep b space 0 B1). exact B3. } { rewrite (last_indep b space 0 B1). exact B4. } { reflexivity. }
    cbn [app] in H1. rewrite H1. exists (cur :: ws), buf, j. split; [reflexivity|]. cbn [app map snd]. rewrite H2. reflexivity.
Qed.

Lemma skip_spaces_app n s : hd0 s <> space -> s <> [] -> skip_spaces (spaces n ++ s) = s.
Proof.
  intros H N. induction n as [|n IH]; cbn; [|exact IH]. destruct s as [|c s]; [congruence|]. cbn in H |- *.
  apply Z.eqb_neq in H. rewrite H. reflexivity.
Qed.
Lemma rev_spaces n : rev (spaces n) = spaces n.
Proof. induction n; [reflexivity|]. cbn. unfold spaces in IHn. rewrite IHn. change (repeat space n) with (spaces n). rewrite spaces_snoc, Nat.add_1_r. reflexivity. Qed.
Lemma hd0_rev s : hd0 (rev s) = last s 0.
Proof. destruct s as [|c s] using rev_ind; [reflexivity|]. rewrite rev_app_distr, last_last. reflexivity. Qed.
Lemma strip_spaces n s m : s <> [] -> hd0 s <> space -> last s 0 <> space ->
  strip_whitespace (spaces n ++ s ++ spaces m) = Some s.
Proof.
  intros N H1 H2. unfold strip_whitespace. rewrite skip_spaces_app.
  - rewrite rev_app_distr, rev_spaces, skip_spaces_app, rev_involutive.
    + destruct s; [congruence|reflexivity].
    + rewrite hd0_rev. exact H2.
    + intros K. apply N. rewrite <- (rev_involutive s), K. reflexivity.
  - destruct s; [congruence|exact H1].
  - destruct s; [congruence|discriminate].
Qed.

Lemma sep_last cur l d : Forall (fun x => blk (snd x)) l -> cur <> [] -> last cur d <> space -> last (cur ++ sep l) d <> space.
Proof.
  revert cur. induction l as [|[g b] l IH]; intros cur HF N H; [cbn; rewrite app_nil_r; exact H|].
  inversion HF as [|? ? HB HF']; subst. destruct HB as [(B1 & B2 & B3 & B4) _]. cbn [snd] in *.
  cbn [sep flat_map fst snd]. fold (sep l).
  rewrite app_assoc. apply IH; [exact HF'| |].
  - destruct cur; [congruence|discriminate].
  - rewrite app_assoc, last_app_ne by exact B1. rewrite (last_indep b d 0 B1). exact B3.
Qed.

Lemma charsplit_sep cur l : blk cur -> l <> [] -> Forall (fun x => blk (snd x)) l ->
  charsplit (cur ++ sep l) = Some (cur :: map snd l).
Proof.
  intros [(C1 & C2 & C3 & C4) C5] HL HF. unfold charsplit.
  assert (HC : charcount (cur ++ sep l) space false 0 0 =? 0 = false).
  { apply Z.eqb_neq. rewrite (charcount_quiet space false cur 0 0 _ _ _ (C5 0)). destruct l as [|[g b] l]; [congruence|].
    cbn [sep flat_map fst snd spaces repeat app charcount].
    rewrite scan1_space by exact C4. apply Z.eqb_neq in C3 as C3'. rewrite C3'. cbn [negb orb andb].
    match goal with |- 1 + charcount ?a ?b ?c ?d ?e <> 0 => pose proof (charcount_nonneg b c a d e) end. lia. }
  rewrite HC. rewrite (split_quiet cur 0 0 _ _ _ _ _ _ (C5 0)). cbn [Nat.add].
  destruct (split_sep l cur 0 (last cur 0) [] HF C1 C2 C3 C4 eq_refl) as (ws & buf & j & H1 & H2).
  cbn [app] in H1. rewrite H1, H2. reflexivity.
Qed.

(* ---- the words of a text ---- *)
Definition as_sep (l : layout) : list (nat * bytes) := map (fun p => (pred (fst p), elem_bytes (snd p))) l.
Lemma render_sep l : Forall (fun p => (1 <= fst p)%nat) l -> render l = sep (as_sep l).
Proof.
  induction 1 as [|[n e] l H HF IH]; [reflexivity|]. cbn [render as_sep map sep flat_map fst snd].
  fold (as_sep l). fold (sep (as_sep l)). rewrite IH, <- app_assoc. cbn [fst] in H. destruct n; [lia|reflexivity].
Qed.

Lemma widen_elems X l : forall c, map snd (fst (widen X c l)) = map snd l.
Proof.
  induction l as [|[n e] l IH]; intros c; [reflexivity|]. cbn [widen].
  destruct (is_p X e); [specialize (IH 1%nat); destruct (widen X 1 l)|specialize (IH 0%nat); destruct (widen X 0 l)]; cbn in *; congruence.
Qed.
(* after widening for X, elements next to one that is X stand apart *)
Fixpoint apart2 (ok : elem -> elem -> bool) (prev : option elem) (l : layout) : Prop :=
  match l with
  | [] => True
  | (n, e) :: r => (match prev with Some p => ok p e = true -> (1 <= n)%nat | None => True end) /\ apart2 ok (Some e) r
  end.
Lemma apart2_widen X ok : forall l prev carry, apart2 ok prev l ->
  (match prev with Some p => is_p X p = true -> (1 <= carry)%nat | None => True end) ->
  apart2 (fun a b => ok a b || is_p X a || is_p X b)%bool prev (fst (widen X carry l)).
Proof.
  induction l as [|[n e] l IH]; intros prev carry HA HC; [exact I|]. destruct HA as [H1 H2]. cbn [widen].
  assert (K : forall c2, (is_p X e = true -> (1 <= c2)%nat) -> apart2 (fun a b => ok a b || is_p X a || is_p X b)%bool (Some e) (fst (widen X c2 l))).
  { intros c2 Hc. apply IH; [exact H2|exact Hc]. }
  destruct (is_p X e) eqn:EP.
  - specialize (K 1%nat ltac:(lia)). destruct (widen X 1 l) as [r' t]. cbn [fst apart2] in *. split; [|exact K].
    destruct prev; [lia|exact I].
  - specialize (K 0%nat ltac:(discriminate)). destruct (widen X 0 l) as [r' t]. cbn [fst apart2] in *. split; [|exact K].
    destruct prev as [p|]; [|exact I]. rewrite EP, orb_false_r. intros HO. apply orb_true_iff in HO as [HO|HO].
    + specialize (H1 HO). lia.
    + specialize (HC HO). lia.
Qed.
Lemma apart2_all l e0 : forall prev, apart2 (fun _ _ => true) (Some prev) l -> e0 = prev -> Forall (fun p => (1 <= fst p)%nat) l.
Proof.
  revert e0. induction l as [|[n e] l IH]; intros e0 prev H _; [constructor|]. destruct H as [H1 H2].
  constructor; [apply H1; reflexivity|]. apply (IH e e); [exact H2|reflexivity].
Qed.
Lemma apart2_weaken (f g : elem -> elem -> bool) l : (forall a b, f a b = true -> g a b = true) -> forall prev, apart2 g prev l -> apart2 f prev l.
Proof.
  intros H. induction l as [|[n e] l IH]; intros prev HA; [exact I|]. destruct HA as [H1 H2]. split; [|apply IH; exact H2].
  destruct prev; [|exact I]. auto.
Qed.
Lemma apart_apart2 l : forall p e0, (p = is_word e0) -> apart p l -> apart2 (fun a b => is_word a && is_word b)%bool (Some e0) l.
Proof.
  induction l as [|[n e] l IH]; intros p e0 -> H; [exact I|]. destruct H as [H1 H2]. split.
  - intros K. apply andb_true_iff in K as [K1 K2]. auto.
  - apply (IH (is_word e)); [reflexivity|exact H2].
Qed.

Theorem token_list (l : layout) trail : layout_ok l -> (2 <= List.length l)%nat ->
  create_token_list (render l ++ spaces trail) =
    Words (map (fun p => elem_bytes (snd p)) l)
      (List.length (filter (is_p lparen) (map snd l)) =? List.length (filter (is_p rparen) (map snd l)))%nat.
Proof.
  intros [HF HA] HL. unfold create_token_list.
  assert (P1 : paren_char lparen) by (left; reflexivity). assert (P2 : paren_char rparen) by (right; reflexivity).
  (* first replacement *)
  assert (R1 : exists t1, charreplace (render l ++ spaces trail) lparen (str " ( ") 0 0 = render (fst (widen lparen 0 l)) ++ spaces t1).
  { pose proof (replace_render lparen P1 l 0 0 0 ltac:(discriminate) eq_refl HF) as K. cbn [spaces repeat app] in K.
    (* trailing spaces *)
    assert (KT : forall l p, p <> backslash -> Forall elem_ok (map snd l) -> charreplace (render l ++ spaces trail) lparen (p_bytes lparen) 0 p = charreplace (render l) lparen (p_bytes lparen) 0 p ++ spaces trail).
    { clear. intros l. induction l as [|[n e] l IH]; intros p Hp HF.
      - cbn [render app]. rewrite <- (app_nil_r (spaces trail)) at 1.
        rewrite (charreplace_quiet lparen _ (spaces trail) 0 p _ _ _ (scan_spaces lparen trail ltac:(discriminate) p)). apply app_nil_r.
      - inversion HF as [|? ? HE HF']; subst. cbn [render]. rewrite <- !app_assoc.
        rewrite !(charreplace_quiet lparen _ (spaces n) 0 p _ _ _ (scan_spaces lparen n ltac:(discriminate) p)). rewrite <- app_assoc. f_equal.
        destruct (is_p lparen e) eqn:EP.
        + rewrite (is_p_bytes _ e EP). cbn [app charreplace].
          assert (HN : scan1 0 (last (spaces n) p) lparen lparen = (0, true)).
          { unfold scan1. cbn. assert ((last (spaces n) p =? backslash) = false) as -> by (apply Z.eqb_neq, last_spaces, Hp). reflexivity. }
          rewrite HN. rewrite IH; [|discriminate|exact HF']. rewrite <- app_assoc. reflexivity.
        + rewrite !(charreplace_quiet lparen _ (elem_bytes e) 0 _ _ _ _ (scan_elem_other lparen e _ (or_introl eq_refl) HE EP)).
          rewrite IH; [|apply elem_last; exact HE|exact HF']. rewrite <- app_assoc. reflexivity. }
    exists (snd (widen lparen 0 l) + trail)%nat. change (str " ( ") with (p_bytes lparen).
    rewrite KT by (discriminate || exact HF). rewrite K, <- app_assoc, spaces_app. reflexivity. }
  destruct R1 as [t1 R1]. rewrite R1.
  set (l1 := fst (widen lparen 0 l)) in *.
  assert (M1 : map snd l1 = map snd l) by apply widen_elems.
  assert (HF1 : Forall elem_ok (map snd l1)) by (rewrite M1; exact HF).
  assert (R2 : exists t2, charreplace (render l1 ++ spaces t1) rparen (str " ) ") 0 0 = render (fst (widen rparen 0 l1)) ++ spaces t2).
  { pose proof (replace_render rparen P2 l1 0 0 0 ltac:(discriminate) eq_refl HF1) as K. cbn [spaces repeat app] in K.
    assert (KT : forall l p, p <> backslash -> Forall elem_ok (map snd l) -> charreplace (render l ++ spaces t1) rparen (p_bytes rparen) 0 p = charreplace (render l) rparen (p_bytes rparen) 0 p ++ spaces t1).
    { clear. intros l. induction l as [|[n e] l IH]; intros p Hp HF.
      - cbn [render app]. rewrite <- (app_nil_r (spaces t1)) at 1.
        rewrite (charreplace_quiet rparen _ (spaces t1) 0 p _ _ _ (scan_spaces rparen t1 ltac:(discriminate) p)). apply app_nil_r.
      - inversion HF as [|? ? HE HF']; subst. cbn [render]. rewrite <- !app_assoc.
        rewrite !(charreplace_quiet rparen _ (spaces n) 0 p _ _ _ (scan_spaces rparen n ltac:(discriminate) p)). rewrite <- app_assoc. f_equal.
        destruct (is_p rparen e) eqn:EP.
        + rewrite (is_p_bytes _ e EP). cbn [app charreplace].
          assert (HN : scan1 0 (last (spaces n) p) rparen rparen = (0, true)).
          { unfold scan1. cbn. assert ((last (spaces n) p =? backslash) = false) as -> by (apply Z.eqb_neq, last_spaces, Hp). reflexivity. }
          rewrite HN. rewrite IH; [|discriminate|exact HF']. rewrite <- app_assoc. reflexivity.
        + rewrite !(charreplace_quiet rparen _ (elem_bytes e) 0 _ _ _ _ (scan_elem_other rparen e _ (or_intror eq_refl) HE EP)).
          rewrite IH; [|apply elem_last; exact HE|exact HF']. rewrite <- app_assoc. reflexivity. }
    exists (snd (widen rparen 0 l1) + t1)%nat. change (str " ) ") with (p_bytes rparen).
    rewrite KT by (discriminate || exact HF1). rewrite K, <- app_assoc, spaces_app. reflexivity. }
  destruct R2 as [t2 R2]. rewrite R2.
  set (l2 := fst (widen rparen 0 l1)) in *.
  assert (M2 : map snd l2 = map snd l) by (unfold l2; rewrite widen_elems; exact M1).
  (* elements stand apart *)
  assert (HA2 : apart2 (fun _ _ => true) None l2).
  { assert (A0 : apart2 (fun a b => is_word a && is_word b)%bool None l).
    { destruct l as [|[n e] l]; [exact I|]. destruct HA as [_ HA]. split; [exact I|]. apply (apart_apart2 l (is_word e)); [reflexivity|exact HA]. }
    pose proof (apart2_widen lparen _ l None 0 A0 I) as A1. fold l1 in A1.
    pose proof (apart2_widen rparen _ l1 None 0 A1 I) as A2. fold l2 in A2.
    eapply apart2_weaken; [|exact A2]. intros a b _. destruct a, b; reflexivity. }
  assert (L2 : List.length l2 = List.length l) by (rewrite <- (map_length snd l2), M2, map_length; reflexivity).
  assert (ME : map (fun p => elem_bytes (snd p)) l = map (fun p => elem_bytes (snd p)) l2).
  { rewrite <- (map_map snd elem_bytes l), <- (map_map snd elem_bytes l2), M2. reflexivity. }
  rewrite ME.
  assert (HF2 : Forall elem_ok (map snd l2)) by (rewrite M2; exact HF).
  assert (CNT : (charcount (render l ++ spaces trail) lparen true 0 0 =? charcount (render l1 ++ spaces t1) rparen true 0 0) =
     (List.length (filter (is_p lparen) (map snd l)) =? List.length (filter (is_p rparen) (map snd l)))%nat).
  { rewrite (count_render lparen P1 l 0 ltac:(discriminate) HF), (count_render rparen P2 l1 0 ltac:(discriminate) HF1), M1.
    destruct (_ =? _)%nat eqn:E; [apply Nat.eqb_eq in E; rewrite E; apply Z.eqb_refl|apply Z.eqb_neq; apply Nat.eqb_neq in E; lia]. }
  rewrite CNT. clear CNT.
  clearbody l2. clear l1 R1 R2 M1 HF1 HA HF M2.
  destruct l2 as [|[n0 e0] l2]; [cbn in L2; lia|]. cbn [render]. rewrite <- app_assoc.
  destruct HA2 as [_ HA2]. pose proof (apart2_all l2 e0 e0 HA2 eq_refl) as HG.
  cbn [map snd] in HF2. apply Forall_cons_iff in HF2 as [HE HF3]. rewrite (render_sep l2 HG).
  assert (HB : Forall (fun x => blk (snd x)) (as_sep l2)).
  { unfold as_sep. apply Forall_map. rewrite (Forall_map snd elem_ok) in HF3. eapply Forall_impl; [|exact HF3].
    intros [n e] He. cbn. split; [apply elem_block; exact He|]. intros p. apply scan_elem_space. exact He. }
  destruct (elem_block e0 HE) as (B1 & B2 & B3 & B4).
  rewrite strip_spaces.
  - rewrite charsplit_sep; [|split; [apply elem_block; exact HE|intros p; apply scan_elem_space; exact HE]| |exact HB].
    + cbn [map snd]. f_equal. f_equal. unfold as_sep. rewrite map_map. reflexivity.
    + destruct l2; [cbn in L2; lia|discriminate].
  - destruct (elem_bytes e0); [congruence|discriminate].
  - destruct (elem_bytes e0); [congruence|exact B2].
  - apply sep_last; assumption.
Qed.

(* ------------------------------------------------------------------ *)
(* From the text to the value. *)

Definition plain (s : bytes) : list piece := map Plain s.
Definition elem_of (t : tok (list piece)) : elem :=
  match t with
  | KAnd => EWord (plain (str "and")) | KOr => EWord (plain (str "or")) | KNot => EWord (plain (str "not"))
  | KL => ELeft | KR => ERight | KTest w => EWord w
  end.
(* The text is the expression, laid out somehow. *)
Definition written (c : chn (list piece)) (text : bytes) : Prop :=
  exists l trail, layout_ok l /\ map snd l = map elem_of (words c) /\ text = render l ++ spaces trail.
(* The word is a test, whose outcome is f's. *)
Definition is_test (w : bytes) : Prop :=
  exists n r, In n (map str ["file_ext"; "file_match"; "path_match"; "file_size"]%string) /\ w = n ++ r.

Lemma starts_with_app p r : starts_with (p ++ r) p = true.
Proof. induction p as [|c p IH]; [destruct r; reflexivity|]. cbn. rewrite Z.eqb_refl. exact IH. Qed.

Lemma str_to_node_test re w fname size b : is_test w -> eval_func re w fname size = Some b ->
  str_to_node re w fname size = Some (b2z b).
Proof.
  intros (n & r & Hn & ->) H. unfold str_to_node.
  assert (E : starts_with (n ++ r) (str "and") = false /\ starts_with (n ++ r) (str "or") = false /\
    starts_with (n ++ r) (str "(") = false /\ starts_with (n ++ r) (str ")") = false /\ starts_with (n ++ r) (str "not") = false).
  { cbn in Hn. destruct Hn as [<-|[<-|[<-|[<-|[]]]]]; repeat split; reflexivity. }
  destruct E as (-> & -> & -> & -> & ->). rewrite H. reflexivity.
Qed.

Lemma node_of_elem re fname size (f : list piece -> bool) t :
  (forall w, t = KTest w -> is_test (word_bytes w) /\ eval_func re (word_bytes w) fname size = Some (f w)) ->
  str_to_node re (elem_bytes (elem_of t)) fname size = Some (code_tok f t).
Proof.
  intros H. destruct t as [| | | | |w]; try reflexivity. destruct (H w eq_refl) as [H1 H2].
  cbn [elem_of elem_bytes code_tok]. apply str_to_node_test; assumption.
Qed.

Lemma all_nodes_words re fname size (f : list piece -> bool) ts :
  (forall w, In (KTest w) ts -> is_test (word_bytes w) /\ eval_func re (word_bytes w) fname size = Some (f w)) ->
  all_nodes re (map elem_bytes (map elem_of ts)) fname size = Some (map (code_tok f) ts).
Proof.
  induction ts as [|t ts IH]; intros H; [reflexivity|]. cbn [map all_nodes].
  rewrite (node_of_elem re fname size f t) by (intros w ->; apply H; left; reflexivity).
  rewrite IH by (intros w K; apply H; right; exact K). reflexivity.
Qed.

Definition cnt {A} (p : tok A -> bool) (l : list (tok A)) : nat := List.length (filter p l).
Definition isL {A} (t : tok A) : bool := match t with KL => true | _ => false end.
Definition isR {A} (t : tok A) : bool := match t with KR => true | _ => false end.
Lemma cnt_app {A} p (a b : list (tok A)) : cnt p (a ++ b) = (cnt p a + cnt p b)%nat.
Proof. unfold cnt. rewrite filter_app, app_length. reflexivity. Qed.
Lemma balanced {A} : (forall c : chn A, cnt isL (words c) = cnt isR (words c)) /\
  (forall a : atm A, cnt isL (awords a) = cnt isR (awords a)).
Proof.
  apply (chn_atm_ind A (fun c => cnt isL (words c) = cnt isR (words c)) (fun a => cnt isL (awords a) = cnt isR (awords a))).
  - intros neg a H. cbn [words]. rewrite !cnt_app, H. destruct neg; reflexivity.
  - intros c Hc o neg a H. cbn [words]. rewrite !cnt_app, Hc. f_equal.
    change (?x :: ?y ++ ?z) with ((x :: y) ++ z). rewrite !cnt_app, H. destruct o, neg; reflexivity.
  - reflexivity.
  - intros c Hc. cbn [awords]. change (KL :: words c ++ [KR]) with ([KL] ++ words c ++ [KR]).
    rewrite !cnt_app, Hc. cbn. lia.
Qed.
Lemma filter_elems (ts : list (tok (list piece))) :
  List.length (filter (is_p lparen) (map elem_of ts)) = cnt isL ts /\
  List.length (filter (is_p rparen) (map elem_of ts)) = cnt isR ts.
Proof.
  unfold cnt. induction ts as [|t ts [IH1 IH2]]; [split; reflexivity|].
  destruct t; cbn; split; congruence || (f_equal; assumption) || assumption.
Qed.

Theorem expression_value re fname size def c text (f : list piece -> bool) :
  written c text -> wide false c -> (2 <= List.length (words c))%nat ->
  (forall w, In (KTest w) (words c) -> is_test (word_bytes w) /\ eval_func re (word_bytes w) fname size = Some (f w)) ->
  eval_expression re text fname size def = Some (b2z (value f c), inner_group (items is_grp c)).
Proof.
  intros (l & trail & HL & HM & ->) HW H2 HT. unfold eval_expression.
  rewrite token_list; [|exact HL|rewrite <- (map_length snd l), HM, map_length; exact H2].
  rewrite HM. destruct (filter_elems (words c)) as [-> ->]. rewrite (proj1 balanced), Nat.eqb_refl. cbn [negb].
  rewrite <- (map_map snd elem_bytes l), HM, (all_nodes_words re fname size f _ HT).
  apply eval_words_chain. exact HW.
Qed.

(* The rules together. *)
Definition rule_ok (re : bytes -> bytes -> bool) (fname : bytes) (size : Z) (text : bytes) (b : bool) : Prop :=
  exists c f, written c text /\ wide false c /\ (2 <= List.length (words c))%nat /\
    inner_group (items is_grp c) = false /\
    (forall w, In (KTest w) (words c) -> is_test (word_bytes w) /\ eval_func re (word_bytes w) fname size = Some (f w)) /\
    value f c = b.

Theorem rules_excluded re fname size rules bs : Forall2 (rule_ok re fname size) rules bs ->
  is_logic_excluded re rules true fname size = Some (b2z (existsb (fun b => b) bs)).
Proof.
  intros H. unfold is_logic_excluded, is_logic.
  assert (E : logic_loop re rules fname size 0 0 = Some (b2z (existsb (fun b => b) bs))).
  { induction H as [|text b rules bs (c & f & H1 & H2 & H3 & H4 & H5 & <-) HF IH]; [reflexivity|].
    cbn [logic_loop existsb]. rewrite (expression_value re fname size 0 c text f H1 H2 H3 H5), H4.
    destruct (value f c); [reflexivity|exact IH]. }
  destruct H; [reflexivity|exact E].
Qed.
Lemma not_regular_kept re fname size rules : is_logic_excluded re rules false fname size = Some 0.
Proof. destruct rules; reflexivity. Qed.

(* A single test never matches. *)
Theorem single_test_def re fname size def w : word_ok w ->
  eval_expression re (word_bytes w) fname size def = Some (def, false).
Proof.
  intros HW. unfold eval_expression, create_token_list.
  pose proof (scan_word lparen w ltac:(right; left; reflexivity) (proj1 (proj2 HW)) 0) as S1.
  pose proof (scan_word rparen w ltac:(right; right; reflexivity) (proj1 (proj2 HW)) 0) as S2.
  pose proof (scan_word space w ltac:(left; reflexivity) (proj1 (proj2 HW)) 0) as S3.
  rewrite <- (app_nil_r (word_bytes w)) at 1.
  pose proof (charreplace_quiet lparen (str " ( ") (word_bytes w) 0 0 _ _ [] S1) as R1. rewrite !app_nil_r in R1. cbn [charreplace] in R1.
  pose proof (charreplace_quiet rparen (str " ) ") (word_bytes w) 0 0 _ _ [] S2) as R2. rewrite !app_nil_r in R2. cbn [charreplace] in R2.
  rewrite app_nil_r, R1.
  rewrite R2. destruct (word_block w HW) as (B1 & B2 & B3 & B4).
  pose proof (strip_spaces 0 (word_bytes w) 0 B1 B2 B3) as ST. cbn [spaces repeat app] in ST. rewrite app_nil_r in ST. rewrite ST.
  unfold charsplit. pose proof (charcount_quiet space false (word_bytes w) 0 0 _ _ [] S3) as C3. rewrite app_nil_r in C3.
  cbn [charcount] in C3. rewrite C3. reflexivity.
Qed.

(* ------------------------------------------------------------------ *)
(* The tests. *)

(* How the argument p of a test may be given. *)
Definition argument (a p : bytes) : Prop :=
  (a = p /\ p <> [] /\ hd0 p <> 61 /\ hd0 p <> squote /\ hd0 p <> dquote) \/
  (exists q, (q = squote \/ q = dquote) /\ a = q :: p ++ [q]).

Lemma argument_strip a p : argument a p -> strip_quotes a = Some p.
Proof.
  intros [(-> & N & H1 & H2 & H3)|(q & Hq & ->)].
  - unfold strip_quotes. destruct p as [|c p]; [congruence|]. cbn in H1, H2, H3. apply Z.eqb_neq in H2, H3. rewrite H2, H3. reflexivity.
  - unfold strip_quotes.
    assert (((q =? squote) || (q =? dquote))%bool = true) as -> by (destruct Hq as [->| ->]; reflexivity).
    change (q :: p ++ [q]) with ((q :: p) ++ [q]). rewrite last_last, Z.eqb_refl. cbn [andb].
    destruct (p ++ [q]) eqn:E; [destruct p; discriminate|]. rewrite <- E, removelast_last. reflexivity.
Qed.
Lemma argument_eq a p : argument a p -> skip_eq (61 :: a) = a /\ a <> [].
Proof.
  intros [(-> & N & H1 & H2 & H3)|(q & Hq & ->)].
  - split; [|exact N]. destruct p as [|c p]; [congruence|]. cbn in H1 |- *. apply Z.eqb_neq in H1. rewrite H1. reflexivity.
  - split; [|discriminate]. destruct Hq as [->| ->]; reflexivity.
Qed.

Lemma some_ext_spec ext fname : some_ext ext fname = true <->
  exists a r, fname = a ++ dot :: r /\ map tolower ext = map tolower r.
Proof.
  induction fname as [|c fname IH].
  - split; [discriminate|]. intros (a & r & E & _). destruct a; discriminate.
  - cbn [some_ext]. rewrite orb_true_iff, andb_true_iff, Z.eqb_eq, IH. unfold same_nocase. rewrite beqb_eq. split.
    + intros [[-> H]|(a & r & -> & H)]; [exists [], fname; auto|exists (c :: a), r; auto].
    + intros (a & r & E & H). destruct a as [|x a]; cbn in E; injection E as -> ->; [left; auto|right; exists a, r; auto].
Qed.

Theorem test_file_ext re a p fname size : argument a p ->
  exists b, eval_func re (str "file_ext=" ++ a) fname size = Some b /\
    (b = true <-> exists d r, fname = d ++ dot :: r /\ map tolower p = map tolower r).
Proof.
  intros H. exists (some_ext p fname). split; [|apply some_ext_spec].
  destruct (argument_eq a p H) as [H1 H2]. unfold eval_func. cbn [str]. 
  change (starts_with (str "file_ext=" ++ a) (str "file_ext")) with true. cbv iota.
  change (skipn 8 (str "file_ext=" ++ a)) with (61 :: a). unfold eval_file_ext. rewrite H1.
  destruct a; [congruence|]. rewrite (argument_strip _ p H). reflexivity.
Qed.

Lemma base_name_spec fname : forall cur, exists d, 
  (base_name fname cur = cur /\ ~ In slash fname) \/
  (fname = d ++ slash :: base_name fname cur /\ ~ In slash (base_name fname cur)).
Proof.
  induction fname as [|c r IH]; intros cur; [exists []; left; cbn; auto|]. cbn [base_name].
  destruct (c =? slash) eqn:E.
  - apply Z.eqb_eq in E. subst c. destruct (IH r) as (d & [[H1 H2]|[H1 H2]]).
    + exists []. right. rewrite H1. auto.
    + exists (slash :: d). right. split; [|exact H2]. cbn. f_equal. exact H1.
  - apply Z.eqb_neq in E. destruct (IH cur) as (d & [[H1 H2]|[H1 H2]]).
    + exists []. left. split; [exact H1|]. intros [K|K]; [congruence|auto].
    + exists (c :: d). right. split; [|exact H2]. cbn. f_equal. exact H1.
Qed.

Theorem test_file_match re a p fname size : argument a p ->
  exists base, eval_func re (str "file_match=" ++ a) fname size = Some (re p base) /\ ~ In slash base /\
    (base = fname \/ exists d, fname = d ++ slash :: base).
Proof.
  intros H. exists (base_name fname fname). destruct (argument_eq a p H) as [H1 H2]. split.
  - unfold eval_func. change (starts_with (str "file_match=" ++ a) (str "file_ext")) with false.
    change (starts_with (str "file_match=" ++ a) (str "file_match")) with true. cbv iota.
    change (skipn 10 (str "file_match=" ++ a)) with (61 :: a). unfold eval_file_match, eval_path_match. rewrite H1.
    destruct a; [congruence|]. rewrite (argument_strip _ p H). reflexivity.
  - destruct (base_name_spec fname fname) as (d & [[K1 K2]|[K1 K2]]).
    + split; [rewrite K1; exact K2|left; exact K1].
    + split; [exact K2|right; exists d; exact K1].
Qed.
Theorem test_path_match re a p fname size : argument a p ->
  eval_func re (str "path_match=" ++ a) fname size = Some (re p fname).
Proof.
  intros H. destruct (argument_eq a p H) as [H1 H2].
  unfold eval_func. change (starts_with (str "path_match=" ++ a) (str "file_ext")) with false.
  change (starts_with (str "path_match=" ++ a) (str "file_match")) with false.
  change (starts_with (str "path_match=" ++ a) (str "path_match")) with true. cbv iota.
  change (skipn 10 (str "path_match=" ++ a)) with (61 :: a). unfold eval_path_match. rewrite H1.
  destruct a; [congruence|]. rewrite (argument_strip _ p H). reflexivity.
Qed.

(* The comparisons, as documented. *)
Definition comparisons : list (String.string * (Z -> Z -> bool)) :=
  [("<"%string, Z.ltb); ("<="%string, Z.leb); (">"%string, Z.gtb); (">="%string, Z.geb); ("="%string, Z.eqb)].
Theorem test_file_size re op cmp a p fname size : In (op, cmp) comparisons -> argument a p ->
  hd0 a <> 60 -> hd0 a <> 62 ->
  eval_func re (str "file_size" ++ str op ++ a) fname size = Some (cmp size (size_of p)).
Proof.
  intros HI H L G.
  assert (E : forall e, size_op a e = (e, a)).
  { intros e. assert (hd0 a <> 61 /\ a <> []) as [H61 N].
    { destruct H as [(-> & N & H1 & _)|(q & [->| ->] & ->)]; [split; assumption|split; discriminate|split; discriminate]. }
    destruct a as [|c a]; [congruence|]. cbn in L, G, H61 |- *. apply Z.eqb_neq in L, G, H61. rewrite L, G, H61. reflexivity. }
  assert (K : eval_func re (str "file_size" ++ str op ++ a) fname size = eval_file_size (str op ++ a) size).
  { unfold eval_func. reflexivity. }
  rewrite K. pose proof (argument_strip a p H) as S.
  cbn [comparisons In] in HI.
  destruct HI as [HI|[HI|[HI|[HI|[HI|[]]]]]]; injection HI as <- <-;
    unfold eval_file_size; cbn -[strip_quotes size_op Z.ltb Z.leb size_of]; cbn [size_op Z.eqb Pos.eqb];
    rewrite E, S; rewrite ?Z.gtb_ltb, ?Z.geb_leb; reflexivity.
Qed.

(* Without parentheses all is well. *)
Lemma flat_wide {A} i (c : chn A) : flat c -> wide i c.
Proof.
  induction c as [neg a|c IH o neg a]; cbn [flat wide]; destruct a; try contradiction; intros F; [exact I|].
  split; [apply IH; exact F|exact I].
Qed.
Lemma flat_items {A} (c : chn A) : flat c -> Forall (fun b => b = false) (items is_grp c).
Proof.
  induction c as [neg a|c IH o neg a]; cbn [flat items]; destruct a; try contradiction; intros F.
  - destruct neg; repeat constructor.
  - apply Forall_app. split; [apply IH; exact F|]. destruct neg; repeat constructor.
Qed.
Lemma Forall_removelast {A} (P : A -> Prop) l : Forall P l -> Forall P (removelast l).
Proof.
  induction 1 as [|x l H HF IH]; [constructor|]. destruct l; [constructor|]. cbn [removelast]. constructor; assumption.
Qed.
Lemma no_groups_safe {A} (c : chn A) : flat c -> inner_group (items is_grp c) = false.
Proof.
  intros F. apply flat_items in F.
  assert (E : forall l, Forall (fun b : bool => b = false) l -> existsb (fun b => b) l = false)
    by (induction 1 as [|x l -> HF IH]; [reflexivity|exact IH]).
  unfold inner_group. destruct F as [|x l Hx HF]; [reflexivity|]. destruct l as [|y l]; [exact Hx|].
  apply E, Forall_removelast. exact HF.
Qed.

(* Is there a group that is not at an end. *)
Lemma inner_group_spec l : inner_group l = true <->
  l = [true] \/ exists a b, a <> [] /\ b <> [] /\ l = a ++ true :: b.
Proof.
  destruct l as [|x l].
  - split; [discriminate|]. intros [H|(u & v & _ & _ & H)]; [discriminate|destruct u; discriminate].
  - destruct l as [|y l].
    + cbn. split; [intros ->; left; reflexivity|]. intros [H|(a & b & Ha & Hb & H)]; [congruence|].
      destruct a as [|a1 [|a2 a]]; [congruence|destruct b; discriminate|discriminate].
    + cbn [inner_group tl]. rewrite existsb_exists. split.
      * intros (t & HI & ->). right. destruct (exists_last (l := y :: l) ltac:(discriminate)) as (m & z & E).
        rewrite E, removelast_last in HI. apply in_split in HI as (a & b & ->). exists (x :: a), (b ++ [z]).
        split; [discriminate|]. split; [destruct b; discriminate|]. rewrite E, <- app_assoc. reflexivity.
      * intros [H|(a & b & Ha & Hb & H)]; [discriminate|]. exists true. split; [|reflexivity].
        destruct a as [|a0 a]; [congruence|]. cbn in H. injection H as -> H. rewrite H.
        rewrite removelast_app by discriminate. apply in_or_app. right.
        destruct b; [congruence|]. left. reflexivity.
Qed.

(* Example: the expression in the manual page. *)
Definition tw (s : String.string) : atm (list piece) := Test (plain (str s)).
Definition manual_text : bytes :=
  str "(file_size>=5Mb and file_size<=10Mb) and (file_ext=pst or file_match=movies) and not file_ext=mp3".
Definition manual_expr : chn (list piece) :=
  More (More (One false (Grp (More (One false (tw "file_size>=5Mb")) true false (tw "file_size<=10Mb"))))
    true false (Grp (More (One false (tw "file_ext=pst")) false false (tw "file_match=movies"))))
    true true (tw "file_ext=mp3").
Definition W (n : nat) (s : String.string) : nat * elem := (n, EWord (plain (str s))).
Definition manual_layout : layout :=
  [(0%nat, ELeft); W 0 "file_size>=5Mb"; W 1 "and"; W 1 "file_size<=10Mb"; (0%nat, ERight); W 1 "and";
   (1%nat, ELeft); W 0 "file_ext=pst"; W 1 "or"; W 1 "file_match=movies"; (0%nat, ERight); W 1 "and"; W 1 "not"; W 1 "file_ext=mp3"].
Definition plain_okb (c : Z) : bool :=
  negb (existsb (Z.eqb c) [squote; dquote; backslash; space; lparen; rparen]).
Lemma plain_word_ok s : s <> [] -> forallb plain_okb s = true -> word_ok (plain s).
Proof.
  intros N H. split; [destruct s; [congruence|discriminate]|]. split.
  - apply Forall_map, Forall_forall. intros c Hc. rewrite forallb_forall in H. specialize (H c Hc).
    unfold plain_okb in H. cbn [existsb] in H. rewrite !orb_false_r in H.
    rewrite !negb_orb, !andb_true_iff, !negb_true_iff, !Z.eqb_neq in H. cbn. tauto.
  - destruct (exists_last N) as (s' & x & ->). unfold plain. rewrite map_app. cbn [map]. rewrite last_last. discriminate.
Qed.
Lemma manual_written : written manual_expr manual_text.
Proof.
  exists manual_layout, 0%nat. split; [split|split].
  - unfold manual_layout. cbn [map snd].
    repeat (constructor; [first [exact I | apply plain_word_ok; [discriminate|reflexivity]]|]). constructor.
  - unfold manual_layout, W. cbn [apart is_word]. repeat split; intros; try lia; discriminate.
  - reflexivity.
  - vm_compute. reflexivity.
Qed.
Lemma is_test_by w n r : In n (map str ["file_ext"; "file_match"; "path_match"; "file_size"]%string) -> w = n ++ r -> is_test w.
Proof. intros H E. exists n, r. auto. Qed.
