(* Specification and proofs about restore selection and ordering (C29-C31). *)
From Coq Require Import Permutation Sorted.
From Verif Require Import Bytes PathcmpModel PathcmpProofs CmdModel RestoreModel.

(* ---------- C29 ---------- *)

Lemma starts_with_spec : forall s p, starts_with p s = true <-> exists x, p = s ++ x.
Proof.
  induction s as [|c s IH]; intros p; cbn.
  - split; [intros _; exists p; reflexivity|auto].
  - destruct p as [|d p].
    + split; [discriminate|intros [x H]; discriminate].
    + rewrite andb_true_iff, Z.eqb_eq, IH. split.
      * intros [-> [x ->]]. eauto.
      * intros [x H]. injection H as -> ->. split; eauto.
Qed.

Theorem srestore_exact_prefix : forall l p, srestore_check l p = true <->
  l = [] \/ exists s x, In (true, s) l /\ p = s ++ x.
Proof.
  intros l p. destruct l as [|a l]; [cbn; tauto|].
  unfold srestore_check. rewrite existsb_exists. unfold srestore_matches. split.
  - intros [[f s] [Hin H]]. cbn in H. destruct f; [|discriminate]. cbn in H.
    destruct (starts_with p s) eqn:E; [|discriminate].
    apply starts_with_spec in E. destruct E as [x ->]. right. eauto.
  - intros [H|(s & x & Hin & ->)]; [discriminate|]. exists (true, s). split; auto. cbn.
    replace (starts_with (s ++ x) s) with true; auto. symmetry. apply starts_with_spec. eauto.
Qed.

Lemma beneath_prefix : forall d s, beneath d s -> exists x, s = d ++ x.
Proof.
  intros d s [->|[[x ->]|(d' & y & x & _ & ->)]].
  - exists []. rewrite app_nil_r. auto.
  - eauto.
  - eauto.
Qed.

Theorem srestore_no_false_negative : forall l p s, In (true, s) l -> beneath s p -> srestore_check l p = true.
Proof. intros l p s Hin B. apply srestore_exact_prefix. right. destruct (beneath_prefix _ _ B) as [x ->]. eauto. Qed.

Theorem srestore_slash_exact : forall l p, l <> [] ->
  (forall f s, In (f, s) l -> exists s', s = s' ++ [slash]) ->
  (srestore_check l p = true <-> exists s, In (true, s) l /\ beneath s p).
Proof.
  intros l p Nl Hs. rewrite srestore_exact_prefix. split.
  - intros [H|(s & x & Hin & ->)]; [contradiction|]. exists s. split; auto.
    destruct (Hs _ _ Hin) as [s' Es]. destruct x as [|y x].
    + left. rewrite app_nil_r. auto.
    + right; right. exists s', y, x. auto.
  - intros (s & Hin & B). right. destruct (beneath_prefix _ _ B) as [x ->]. eauto.
Qed.

Theorem srestore_refuted : exists l p, l <> [] /\ cstr p /\ Forall (fun s => cstr (snd s)) l /\
  srestore_check l p = true /\ forall f s, In (f, s) l -> ~ beneath s p.
Proof.
  exists [(true, str "/home/foo")], (str "/home/foobar").
  split; [discriminate|]. split; [apply cstrb_ok; reflexivity|].
  split; [apply Forall_cons; [apply cstrb_ok; reflexivity|apply Forall_nil]|]. split; [reflexivity|].
  intros f s [H|[]] B. injection H as <- <-.
  destruct B as [B|[[x B]|(d' & y & x & E & B)]]; cbv in *; try congruence.
  apply (f_equal (fun l => last l 0)) in E. rewrite last_last in E. cbv in E. congruence.
Qed.

(* ---------- C30 ---------- *)

Lemma path_eq_dec : forall a b : bytes, {a = b} + {a <> b}.
Proof. exact (list_eq_dec Z.eq_dec). Qed.

Lemma pathcmp_s_one : forall a b, raw a -> raw b -> (pathcmp_s a b = 1 <-> path_lt b a).
Proof.
  intros a b Ha Hb. split.
  - intros H. apply pathcmp_s_pos; auto. lia.
  - intros H. apply pathcmp_s_gt; auto.
Qed.

(* What one call answers, for a sorted list. *)
Lemma list_check_spec : forall bad lines p, Forall raw lines -> raw p -> StronglySorted path_le lines ->
  exists dropped, lines = dropped ++ snd (restore_list_check bad lines p) /\
    Forall (fun l => path_lt l p) dropped /\
    (In p lines -> fst (restore_list_check bad lines p) = 1) /\
    (~ In p lines -> fst (restore_list_check bad lines p) =
       if bad && forallb (fun l => pathcmp_s l p <? 0) lines then -1 else 0).
Proof.
  induction lines as [|l rest IH]; intros p Fr Rp Ss.
  - exists []. cbn. destruct bad; cbn; intuition.
  - pose proof (Forall_inv Fr) as Rl. pose proof (Forall_inv_tail Fr) as Fr'.
    inversion Ss as [|? ? Ss' Sl]; subst. cbn [restore_list_check].
    destruct (Z.eqb_spec (pathcmp_s l p) 0) as [E|N].
    + apply pathcmp_s_eq0 in E; auto. subst l. exists []. cbn [fst snd app]. repeat split; auto.
      intros H. exfalso. apply H. left; auto.
    + destruct (Z.eqb_spec (pathcmp_s l p) 1) as [E1|N1].
      * pose proof E1 as E1'. apply pathcmp_s_one in E1; auto. exists []. cbn [fst snd app]. repeat split; auto.
        -- intros [H|H]; [subst; exfalso; eapply path_lt_irrefl; eauto|].
           rewrite Forall_forall in Sl. specialize (Sl p H). exfalso.
           destruct Sl as [->|Sl]; [eapply path_lt_irrefl; eauto|eapply path_lt_asym; eauto].
        -- intros _. cbn [forallb]. rewrite E1'. cbn. rewrite andb_false_r. auto.
      * assert (Lt : path_lt l p).
        { destruct (path_trichotomy l p Rl Rp) as [H|[H|H]]; auto.
          - subst. rewrite pathcmp_s_refl in N. congruence.
          - rewrite pathcmp_s_gt in N1; congruence. }
        destruct (IH p Fr' Rp Ss') as (dr & E & Fd & Y & No).
        exists (l :: dr). cbn [app]. split; [f_equal; auto|]. split; [constructor; auto|]. split.
        -- intros [H|H]; [subst; exfalso; eapply path_lt_irrefl; eauto|auto].
        -- intros H. rewrite No; [|intros H'; apply H; right; auto].
           cbn [forallb]. rewrite (pathcmp_s_lt _ _ Lt). reflexivity.
Qed.

(* Spec: what may be restored, by the filters other than the list. *)
Definition allowed (c : rconf) (e : rent) : Prop :=
  ~ (w_restore c = true /\ w_vss c = false /\
     (cmd_is_vssdata (r_cmd e) = true \/
      (r_isdir e = true /\ cmd_is_filedata (r_cmd e) = true /\ cmd_is_metadata (r_cmd e) = false))) /\
  (w_srestore c = true -> srestore_check (w_includes c) (r_path e) = true) /\
  (forall f, w_regex c = Some f -> f (r_path e) = true).

Inductive chosen (P : rent -> Prop) : list rent -> list rent -> Prop :=
| ch_nil : chosen P [] []
| ch_take : forall e es r, P e -> chosen P es r -> chosen P (e :: es) (e :: r)
| ch_skip : forall e es r, ~ P e -> chosen P es r -> chosen P (e :: es) r.

Lemma chosen_impl : forall (P Q : rent -> Prop) es r, (forall e, In e es -> (P e <-> Q e)) -> chosen P es r -> chosen Q es r.
Proof.
  intros P Q es r H C. induction C; constructor.
  - apply H; auto. left; auto.
  - apply IHC. intros; apply H; right; auto.
  - rewrite <- H; auto. left; auto.
  - apply IHC. intros; apply H; right; auto.
Qed.

Lemma chosen_functional : forall P es r r', chosen P es r -> chosen P es r' -> r = r'.
Proof.
  intros P es r r' H. revert r'. induction H; intros r' H'; inversion H'; subst; try contradiction; auto.
  f_equal; auto.
Qed.

Definition filtered (c : rconf) (e : rent) : bool :=
  w_restore c && negb (w_vss c)
     && (cmd_is_vssdata (r_cmd e)
         || (r_isdir e && cmd_is_filedata (r_cmd e) && negb (cmd_is_metadata (r_cmd e)))).
Definition others (c : rconf) (e : rent) : bool :=
  (negb (w_srestore c) || srestore_check (w_includes c) (r_path e))
     && match w_regex c with None => true | Some f => f (r_path e) end.

Lemma allowed_b : forall c e, allowed c e <-> filtered c e = false /\ others c e = true.
Proof.
  intros c e. unfold allowed, filtered, others.
  destruct (w_restore c), (w_vss c), (cmd_is_vssdata (r_cmd e)), (r_isdir e), (cmd_is_filedata (r_cmd e)),
    (cmd_is_metadata (r_cmd e)), (w_srestore c), (srestore_check (w_includes c) (r_path e));
    cbn; (destruct (w_regex c) as [f|]; [destruct (f (r_path e)) eqn:Ef|]);
    (split; [intros (A & B & C); split; auto; try (exfalso; apply A; tauto); try (specialize (C f eq_refl); congruence);
               try (specialize (B eq_refl); congruence)
            |intros (A & B); try discriminate; repeat split;
               try (intros (H1 & H2 & H3); try discriminate; destruct H3 as [H3|(H3 & H4 & H5)]; discriminate);
               try (intros g Hg; congruence); auto]).
Qed.

Definition wanted (c : rconf) (lines : list bytes) (e : rent) : Prop :=
  allowed c e /\ (w_list c = true -> In (r_path e) lines).

Theorem select_exact : forall c lines es,
  Forall raw lines -> Forall (fun e => raw (r_path e)) es ->
  StronglySorted path_le lines -> StronglySorted path_le (map r_path es) ->
  chosen (wanted c lines) es (select c false lines es).
Proof.
  intros c lines es. revert lines.
  induction es as [|e es IH]; intros lines Fl Fe Sl Se; [constructor|].
  pose proof (Forall_inv Fe) as Re. pose proof (Forall_inv_tail Fe) as Fe'.
  cbn [map] in Se. inversion Se as [|? ? Se' He]; subst.
  cbn [select]. unfold want_to_restore. fold (filtered c e).
  destruct (filtered c e) eqn:Fi.
  - apply ch_skip; [|apply IH; auto].
    intros [A _]. apply allowed_b in A. destruct A; congruence.
  - destruct (w_list c) eqn:Wl.
    + destruct (list_check_spec false lines (r_path e) Fl Re Sl) as (dr & E & Fd & Y & N).
      destruct (restore_list_check false lines (r_path e)) as [r l'] eqn:Er. cbn [fst snd] in *.
      assert (Tail : chosen (wanted c lines) es (select c false l' es)).
      { apply (chosen_impl (wanted c l')).
        - intros x Hx. unfold wanted. rewrite E. split; intros [A B]; split; auto.
          + intros H. apply in_or_app. auto.
          + intros H. specialize (B H). apply in_app_or in B. destruct B as [B|B]; auto. exfalso.
            rewrite Forall_forall in Fd, He. specialize (Fd _ B).
            assert (Hle : path_le (r_path e) (r_path x)) by (apply He; apply in_map; auto).
            destruct Hle as [Q|Hle]; [rewrite Q in Fd; eapply path_lt_irrefl; eauto|eapply path_lt_asym; eauto].
        - apply IH; auto.
          + rewrite E in Fl. apply Forall_app in Fl. tauto.
          + rewrite E in Sl. clear - Sl. induction dr; auto. apply IHdr. cbn in Sl. inversion Sl; auto. }
      rewrite <- andb_assoc. fold (others c e).
      destruct (in_dec path_eq_dec (r_path e) lines) as [Hin|Hn].
      * rewrite (Y Hin). cbn. destruct (others c e) eqn:Eo.
        -- apply ch_take; auto. split; [apply allowed_b; auto|auto].
        -- apply ch_skip; auto. intros [A _]. apply allowed_b in A. destruct A; congruence.
      * rewrite (N Hn). cbn. apply ch_skip; auto. intros [_ B]. apply Hn. auto.
    + rewrite <- andb_assoc. fold (others c e). cbn [andb].
      destruct (others c e) eqn:Eo.
      * apply ch_take; [|apply IH; auto]. split; [apply allowed_b; auto|congruence].
      * apply ch_skip; [|apply IH; auto]. intros [A _]. apply allowed_b in A. destruct A; congruence.
Qed.

(* Finding: when the list cannot be read to its end, everything after the last
   line read is restored. *)
Theorem select_read_error : forall c lines es,
  w_list c = true -> Forall raw lines -> Forall (fun e => raw (r_path e)) es ->
  StronglySorted path_le lines -> StronglySorted path_le (map r_path es) ->
  chosen (fun e => allowed c e /\ (In (r_path e) lines \/ Forall (fun l => path_lt l (r_path e)) lines))
    es (select c true lines es).
Proof.
  intros c lines es Wl. revert lines.
  induction es as [|e es IH]; intros lines Fl Fe Sl Se; [constructor|].
  pose proof (Forall_inv Fe) as Re. pose proof (Forall_inv_tail Fe) as Fe'.
  cbn [map] in Se. inversion Se as [|? ? Se' He]; subst.
  cbn [select]. unfold want_to_restore. fold (filtered c e).
  destruct (filtered c e) eqn:Fi.
  - apply ch_skip; [|apply IH; auto].
    intros [A _]. apply allowed_b in A. destruct A; congruence.
  - rewrite Wl.
    destruct (list_check_spec true lines (r_path e) Fl Re Sl) as (dr & E & Fd & Y & N).
    destruct (restore_list_check true lines (r_path e)) as [r l'] eqn:Er. cbn [fst snd] in *.
    assert (Drop : forall x, In x es -> Forall (fun l => path_lt l (r_path x)) dr).
    { intros x Hx. eapply Forall_impl; [|exact Fd]. intros a Ha. cbn in Ha.
      rewrite Forall_forall in He. assert (Hle : path_le (r_path e) (r_path x)) by (apply He; apply in_map; auto).
      destruct Hle as [Q|Hle]; [rewrite <- Q; auto|eapply path_lt_trans; eauto]. }
    assert (Tail : chosen (fun e => allowed c e /\ (In (r_path e) lines \/ Forall (fun l => path_lt l (r_path e)) lines)) es (select c true l' es)).
    { eapply chosen_impl; [|apply (IH l')]; auto.
      - intros x Hx. cbn. rewrite E. rewrite Forall_app, in_app_iff. pose proof (Drop x Hx) as Dx.
        assert (~ In (r_path x) dr).
        { intros H. rewrite Forall_forall in Dx. eapply path_lt_irrefl; eauto. }
        tauto.
      - rewrite E in Fl. apply Forall_app in Fl. tauto.
      - rewrite E in Sl. clear - Sl. induction dr; auto. apply IHdr. cbn in Sl. inversion Sl; auto. }
    rewrite <- andb_assoc. fold (others c e).
    assert (R : (r =? 0) = false <-> In (r_path e) lines \/ Forall (fun l => path_lt l (r_path e)) lines).
    { destruct (in_dec path_eq_dec (r_path e) lines) as [Hin|Hn].
      - rewrite (Y Hin). cbn. tauto.
      - rewrite (N Hn). cbn [andb].
        destruct (forallb (fun l => pathcmp_s l (r_path e) <? 0) lines) eqn:Ef; cbn.
        + split; auto. intros _. right. rewrite forallb_forall in Ef. rewrite Forall_forall in *.
          intros l Hl. apply pathcmp_s_neg; auto. apply Z.ltb_lt. auto.
        + split; [discriminate|]. intros [H|H]; [contradiction|]. exfalso.
          assert (forallb (fun l => pathcmp_s l (r_path e) <? 0) lines = true); [|congruence].
          apply forallb_forall. rewrite Forall_forall in *. intros l Hl. apply Z.ltb_lt. apply pathcmp_s_neg; auto. }
    destruct (r =? 0); cbn [negb andb].
    + apply ch_skip; auto. intros [_ B]. apply R in B. discriminate.
    + destruct (others c e) eqn:Eo.
      * apply ch_take; auto. split; [apply allowed_b; auto|]. apply R; auto.
      * apply ch_skip; auto. intros [A _]. apply allowed_b in A. destruct A; congruence.
Qed.

(* ---------- C31 ---------- *)

Definition before {A} (x y : A) (l : list A) : Prop := exists a b c, l = a ++ x :: b ++ y :: c.

Lemma before_cons : forall A (x y z : A) l, before x y l -> before x y (z :: l).
Proof. intros A x y z l (a & b & c & ->). exists (z :: a), b, c. auto. Qed.
Lemma before_app : forall A (x y : A) p l, before x y l -> before x y (p ++ l).
Proof. intros A x y p l (a & b & c & ->). exists (p ++ a), b, c. rewrite <- app_assoc. auto. Qed.
Lemma before_app_l : forall A (x y : A) p l, before x y p -> before x y (p ++ l).
Proof. intros A x y p l (a & b & c & ->). exists a, b, (c ++ l). repeat (rewrite <- app_assoc; cbn [app]). auto. Qed.
Lemma before_hd : forall A (x y : A) l, In y l -> before x y (x :: l).
Proof. intros A x y l H. apply in_split in H. destruct H as (b & c & ->). exists [], b, c. auto. Qed.
Lemma before_split : forall A (x y : A) p l, In x p -> In y l -> before x y (p ++ l).
Proof.
  intros A x y p l Hx Hy. apply in_split in Hx. destruct Hx as (a & b & ->).
  apply in_split in Hy. destruct Hy as (b' & c & ->). exists a, (b ++ b'), c.
  repeat (rewrite <- app_assoc; cbn [app]). auto.
Qed.

Lemma beneath_trans : forall a b c, beneath a b -> beneath b c -> beneath a c.
Proof.
  intros a b c H1 H2.
  destruct H1 as [->|[[x ->]|(a' & y & x & Ea & ->)]]; auto;
  destruct H2 as [->|[[z ->]|(b' & w & z & Eb & ->)]].
  - right; left. eauto.
  - right; left. exists (x ++ slash :: z). rewrite <- app_assoc. auto.
  - right; left. exists (x ++ w :: z). rewrite <- app_assoc. auto.
  - right; right. exists a', y, x. auto.
  - right; right. exists a', y, (x ++ slash :: z). rewrite <- app_assoc. auto.
  - right; right. exists a', y, (x ++ w :: z). rewrite <- app_assoc. auto.
Qed.

(* The same functions on entries tagged with their position. *)
Definition tent := (nat * rent)%type.
Definition tpath (t : tent) := r_path (snd t).
Fixpoint tpop (stack : list tent) (p : bytes) : list tent * list tent :=
  match stack with
  | [] => ([], [])
  | x :: rest => if negb (is_subdir_s (tpath x) p =? 0) then ([], stack)
                 else let '(o, s) := tpop rest p in (x :: o, s)
  end.
Fixpoint tents (stack : list tent) (es : list tent) : list tent :=
  match es with
  | [] => stack
  | e :: es' => let '(o, s) := tpop stack (tpath e) in
                o ++ (if deferred (snd e) then tents (e :: s) es' else e :: tents s es')
  end.
Lemma tpop_map : forall st p, pop_dirs (map snd st) p = (map snd (fst (tpop st p)), map snd (snd (tpop st p))).
Proof.
  induction st as [|x st IH]; intros p; auto. cbn. fold (tpath x).
  destruct (negb (is_subdir_s (tpath x) p =? 0)); auto.
  rewrite IH. destruct (tpop st p); auto.
Qed.
Lemma tents_map : forall es st, restore_ents (map snd st) (map snd es) = map snd (tents st es).
Proof.
  induction es as [|e es IH]; intros st; auto. cbn. fold (tpath e).
  rewrite tpop_map. destruct (tpop st (tpath e)) as [o s]. cbn. rewrite map_app. f_equal.
  destruct (deferred (snd e)); cbn; [apply (IH (e :: s))|f_equal; apply IH].
Qed.

Lemma tpop_spec : forall st p, Forall (fun x => cstr (tpath x)) st -> cstr p ->
  ForallOrdPairs (fun a b => beneath (tpath b) (tpath a)) st ->
  st = fst (tpop st p) ++ snd (tpop st p) /\
  Forall (fun x => ~ beneath (tpath x) p) (fst (tpop st p)) /\
  Forall (fun x => beneath (tpath x) p) (snd (tpop st p)).
Proof.
  induction st as [|x st IH]; intros p Fc Cp Ch; cbn; auto.
  pose proof (Forall_inv Fc) as Cx. pose proof (Forall_inv_tail Fc) as Fc'.
  inversion Ch as [|? ? Hx Ch']; subst.
  destruct (is_subdir_s_spec (tpath x) p Cx Cp) as [[B E]|[B E]].
  - pose proof (slashes_nonneg (tpath x)).
    destruct (Z.eqb_spec (is_subdir_s (tpath x) p) 0) as [E0|E0]; [lia|]. cbn.
    split; auto. split; auto. constructor; auto.
    eapply Forall_impl; [|exact Hx]. intros a Ha. cbn in Ha. eapply beneath_trans; eauto.
  - rewrite E. cbn.
    destruct (IH p Fc' Cp Ch') as (A1 & A2 & A3). destruct (tpop st p) as [o s]. cbn in *.
    split; [f_equal; auto|]. split; auto.
Qed.

Lemma before_app_inv : forall A (x y : A) p l, before x y (p ++ l) -> before x y p \/ (In x p /\ In y l) \/ before x y l.
Proof.
  intros A x y p. induction p as [|z p IH]; intros l H; cbn in *; auto.
  destruct H as (a & b & c & H). destruct a as [|a0 a]; cbn in H; injection H as Ez Er.
  - subst z. assert (Hy : In y (p ++ l)) by (rewrite Er; apply in_or_app; right; left; auto).
    apply in_app_or in Hy. destruct Hy as [Hy|Hy]; [left; apply before_hd; auto|right; left; auto].
  - destruct (IH l) as [H|[[H1 H2]|H]]; [exists a, b, c; auto|left; apply before_cons; auto|right; left; auto|auto].
Qed.
Lemma before_cons_inv : forall A (x y z : A) l, before x y (z :: l) -> (x = z /\ In y l) \/ before x y l.
Proof.
  intros A x y z l (a & b & c & H). destruct a as [|a0 a]; cbn in H; injection H as Ez Er.
  - left. split; auto. subst l. apply in_or_app. right; left; auto.
  - right. exists a, b, c. auto.
Qed.

Lemma tents_spec : forall es st,
  Forall (fun x => cstr (tpath x)) st -> Forall (fun x => cstr (tpath x)) es ->
  ForallOrdPairs (fun a b => beneath (tpath b) (tpath a)) st ->
  (forall s x, In s st -> In x es -> path_le (tpath s) (tpath x)) ->
  StronglySorted path_le (map tpath es) ->
  Permutation (tents st es) (st ++ es) /\
  (forall a b, before a b st -> before a b (tents st es)) /\
  (forall s x, In s st -> In x es -> (beneath (tpath s) (tpath x) -> before x s (tents st es)) /\
                                     (~ beneath (tpath s) (tpath x) -> before s x (tents st es))) /\
  (forall x y, before x y es ->
     (deferred (snd x) = true /\ beneath (tpath x) (tpath y) -> before y x (tents st es)) /\
     (~ (deferred (snd x) = true /\ beneath (tpath x) (tpath y)) -> before x y (tents st es))).
Proof.
  induction es as [|e es IH]; intros st Cs Ce Ch Le So.
  - cbn. rewrite app_nil_r. split; auto. split; auto. split; [intros ? ? ? []|].
    intros x y (a & b & c & H). destruct a; discriminate.
  - pose proof (Forall_inv Ce) as Ce0. pose proof (Forall_inv_tail Ce) as Ce'.
    cbn [map] in So. inversion So as [|? ? So' He]; subst.
    assert (He' : forall x, In x es -> path_le (tpath e) (tpath x)).
    { intros x Hx. rewrite Forall_forall in He. apply He. apply in_map; auto. }
    destruct (tpop_spec st (tpath e) Cs Ce0 Ch) as (E & Fo & Fs).
    cbn [tents]. destruct (tpop st (tpath e)) as [o s]. cbn [fst snd] in *.
    assert (Css : Forall (fun x => cstr (tpath x)) s) by (rewrite E in Cs; apply Forall_app in Cs; tauto).
    assert (Chs : ForallOrdPairs (fun a b => beneath (tpath b) (tpath a)) s).
    { rewrite E in Ch. clear - Ch. induction o; auto. apply IHo. cbn in Ch. inversion Ch; auto. }
    assert (Les : forall a x, In a s -> In x es -> path_le (tpath a) (tpath x)).
    { intros a x Ha Hx. apply Le; [rewrite E; apply in_or_app; auto|right; auto]. }
    assert (Oo : forall a x, In a o -> In x (e :: es) -> ~ beneath (tpath a) (tpath x)).
    { intros a x Ha Hx. rewrite Forall_forall in Fo. destruct Hx as [<-|Hx]; [apply Fo; auto|].
      intros B. apply (Fo a Ha). apply beneath_convex with (c := tpath x); auto.
      apply Le; [rewrite E; apply in_or_app; auto|left; auto]. }
    rewrite Forall_forall in Fs.
    destruct (deferred (snd e)) eqn:De.
    + destruct (IH (e :: s)) as (P & B1 & B2 & B3); auto.
      { constructor; auto. apply Forall_forall. auto. }
      { intros a x [<-|Ha] Hx; auto. }
      assert (InT : forall x, In x (e :: s) \/ In x es -> In x (tents (e :: s) es)).
      { intros x Hx. apply (Permutation_in _ (Permutation_sym P)). apply in_or_app. auto. }
      split.
      { rewrite E. rewrite <- app_assoc. apply Permutation_app_head. rewrite P. cbn. apply Permutation_middle. }
      split.
      { intros a b H. rewrite E in H. apply before_app_inv in H. destruct H as [H|[[H1 H2]|H]].
        - apply before_app_l; auto.
        - apply before_split; auto. apply InT. left; right; auto.
        - apply before_app. apply B1. apply before_cons; auto. }
      split.
      { intros a x Ha Hx. rewrite E in Ha. apply in_app_or in Ha. destruct Ha as [Ha|Ha].
        - split; [intros B; exfalso; eapply Oo; eauto|]. intros _. apply before_split; auto.
          apply InT. destruct Hx as [<-|Hx]; [left; left; auto|right; auto].
        - destruct Hx as [<-|Hx].
          + split; [|intros B; exfalso; apply B; apply Fs; auto]. intros _. apply before_app, B1, before_hd; auto.
          + destruct (B2 a x) as [Q1 Q2]; [right; auto|auto|]. split; intros; apply before_app; auto. }
      { intros x y H. apply before_cons_inv in H. destruct H as [[-> H]|H].
        - destruct (B2 e y) as [Q1 Q2]; [left; auto|auto|].
          split; [intros [_ B]; apply before_app; auto|]. intros B. apply before_app, Q2. intros B'. apply B. auto.
        - destruct (B3 x y H) as [Q1 Q2]. split; intros; apply before_app; auto. }
    + destruct (IH s) as (P & B1 & B2 & B3); auto.
      assert (InT : forall x, In x s \/ In x es -> In x (tents s es)).
      { intros x Hx. apply (Permutation_in _ (Permutation_sym P)). apply in_or_app. auto. }
      split.
      { rewrite E. rewrite <- app_assoc. apply Permutation_app_head. rewrite P. apply Permutation_middle. }
      split.
      { intros a b H. rewrite E in H. apply before_app_inv in H. destruct H as [H|[[H1 H2]|H]].
        - apply before_app_l; auto.
        - apply before_split; auto. right. apply InT. auto.
        - apply before_app. apply before_cons. apply B1. auto. }
      split.
      { intros a x Ha Hx. rewrite E in Ha. apply in_app_or in Ha. destruct Ha as [Ha|Ha].
        - split; [intros B; exfalso; eapply Oo; eauto|]. intros _. apply before_split; auto.
          destruct Hx as [<-|Hx]; [left; auto|right; apply InT; auto].
        - destruct Hx as [<-|Hx].
          + split; [|intros B; exfalso; apply B; apply Fs; auto]. intros _. apply before_app, before_hd, InT; auto.
          + destruct (B2 a x) as [Q1 Q2]; auto. split; intros; apply before_app, before_cons; auto. }
      { intros x y H. apply before_cons_inv in H. destruct H as [[-> H]|H].
        - split; [intros [D _]; congruence|]. intros _. apply before_app, before_hd, InT; auto.
        - destruct (B3 x y H) as [Q1 Q2]. split; intros; apply before_app, before_cons; auto. }
Qed.

(* Spec: entries numbered by their place in the manifest. *)
Definition numbered {A} (l : list A) : list (nat * A) := combine (seq 0 (List.length l)) l.

Lemma numbered_snd : forall A (l : list A), map snd (numbered l) = l.
Proof.
  intros A l. unfold numbered. generalize 0%nat. induction l as [|a l IH]; intros k; cbn; auto. f_equal. apply IH.
Qed.
Lemma combine_lt : forall A (l : list A) k i x j y, In (i, x) (combine (seq k (List.length l)) l) ->
  In (j, y) (combine (seq k (List.length l)) l) -> (i < j)%nat -> before (i, x) (j, y) (combine (seq k (List.length l)) l).
Proof.
  induction l as [|a l IH]; intros k i x j y Hi Hj Hlt; cbn in *; [contradiction|].
  assert (G : forall j y, In (j, y) (combine (seq (S k) (List.length l)) l) -> (k < j)%nat).
  { intros j' y' H. apply in_combine_l in H. apply in_seq in H. lia. }
  destruct Hi as [Hi|Hi]; destruct Hj as [Hj|Hj].
  - injection Hi as -> ->. injection Hj as -> ->. lia.
  - injection Hi as <- <-. apply before_hd. auto.
  - injection Hj as <- <-. apply G in Hi. lia.
  - apply before_cons. apply IH; auto.
Qed.

Theorem restore_order : forall es, Forall (fun e => cstr (r_path e)) es ->
  StronglySorted path_le (map r_path es) ->
  exists out, map snd out = restore_all es /\ Permutation out (numbered es) /\
    forall i x j y, In (i, x) (numbered es) -> In (j, y) (numbered es) -> (i < j)%nat ->
      (deferred x = true /\ beneath (r_path x) (r_path y) -> before (j, y) (i, x) out) /\
      (~ (deferred x = true /\ beneath (r_path x) (r_path y)) -> before (i, x) (j, y) out).
Proof.
  intros es Fc So. exists (tents [] (numbered es)).
  assert (M : map tpath (numbered es) = map r_path es).
  { rewrite <- (numbered_snd _ es) at 2. rewrite map_map. reflexivity. }
  destruct (tents_spec (numbered es) []) as (P & _ & _ & B); auto.
  - apply Forall_forall. intros [i x] H. rewrite Forall_forall in Fc. apply Fc. apply in_combine_r in H. auto.
  - constructor.
  - intros ? ? [].
  - rewrite M. auto.
  - split; [|split; auto].
    + unfold restore_all. rewrite <- (numbered_snd _ es) at 2. symmetry. apply (tents_map (numbered es) []).
    + intros i x j y Hi Hj Hlt. apply (B (i, x) (j, y)). apply combine_lt; auto.
Qed.

Lemma numbered_NoDup : forall A (l : list A), NoDup (map fst (numbered l)).
Proof.
  intros A l. unfold numbered. generalize 0%nat.
  induction l as [|a l IH]; intros k; cbn; constructor; auto.
  intros H. apply in_map_iff in H. destruct H as [[i x] [E H]]. cbn in E. subst i.
  apply in_combine_l in H. apply in_seq in H. lia.
Qed.
