(* Hard links in a restore: specification and proofs. *)
From Verif Require Import Bytes PathcmpModel PathcmpProofs CmdModel RestoreModel LinkModel LinkProofs HlsModel.
From Coq Require Import Sorting.Sorted.

(* ---- specification ---- *)
Definition is_link (e : ent) : bool := e_cmd e =? CMD_HARD_LINK.
(* x has the same inode as e, and has data of its own *)
Definition original (e x : ent) : bool := has_data x && ((e_dev x =? e_dev e) && (e_ino x =? e_ino e)).
(* the data of x under the name of e *)
Definition copy_of (x e : ent) : ent := mkent (e_path e) (e_cmd x) (e_dir x) (e_dev x) (e_ino x) (e_link x) (e_body x).
(* What is to come out for an entry that is wanted: itself; but for a link to a file
   that is not restored, that file's data. *)
Definition answer (ms : list (ent * bool)) (e : ent) : ent :=
  if is_link e
  then match find (fun x => original e (fst x)) ms with
       | Some (f, false) => copy_of f e
       | _ => e
       end
  else e.
Definition wanted (ms : list (ent * bool)) : list ent := map fst (filter snd ms).
(* A directory comes after all that is in it. *)
Fixpoint order (stack : list ent) (l : list ent) : list ent :=
  match l with
  | [] => stack
  | e :: r => let '(o, s) := pop stack (e_path e) in
              if later e then o ++ order (e :: s) r else o ++ e :: order s r
  end.
(* A manifest as a client makes it: sorted; and each link has, before it, the file that
   it is a link to, which is the first with its inode and the first with its name. *)
Definition file_of (a es : list ent) (e f : ent) : Prop :=
  find (original e) a = Some f /\ e_path f = e_link e /\ find (fun x => has_data x && beqb (e_path x) (e_link e)) es = Some f.
Definition links_ok (es : list ent) : Prop :=
  forall a e b, es = a ++ e :: b -> is_link e = true -> e_dir e = false /\ exists f, file_of a es e f.
Definition paths_ok (es : list ent) : Prop :=
  StronglySorted (fun x y => path_le (e_path x) (e_path y)) es /\ Forall (fun x => raw (e_path x)) es.
(* Nothing with data is left out between a file that is wanted and a link to it that is
   wanted as well, if it has the same inode. *)
Definition no_between (ms : list (ent * bool)) : Prop :=
  forall a e r f g, ms = a ++ (e, true) :: r -> is_link e = true ->
  find (fun x => original e (fst x)) ms = Some (f, true) -> In (g, false) a -> original e g = false.

(* ---- proofs ---- *)
Lemma order_restore : forall l st, map rent_of (order st l) = restore_ents (map rent_of st) (map rent_of l).
Proof.
  assert (P : forall st p, pop_dirs (map rent_of st) p = (map rent_of (fst (pop st p)), map rent_of (snd (pop st p)))).
  { induction st as [|x st IH]; intros p; cbn [map pop_dirs pop fst snd]; auto.
    change (r_path (rent_of x)) with (e_path x).
    destruct (negb (is_subdir_s (e_path x) p =? 0)); cbn [fst snd map]; auto.
    rewrite IH. destruct (pop st p). cbn. auto. }
  induction l as [|e l IH]; intros st; cbn [order map restore_ents]; auto.
  change (r_path (rent_of e)) with (e_path e). rewrite P. destruct (pop st (e_path e)) as [o s]. cbn [fst snd].
  change (deferred (rent_of e)) with (later e). destruct (later e); rewrite map_app; [rewrite IH|cbn [map]; rewrite IH]; auto.
Qed.
Theorem order_all : forall l, map rent_of (order [] l) = restore_all (map rent_of l).
Proof. intros l. apply (order_restore l []). Qed.
Lemma pop_app : forall st p, fst (pop st p) ++ snd (pop st p) = st.
Proof.
  induction st as [|x st IH]; intros p; cbn [pop]; auto. destruct (negb _); cbn; auto.
  specialize (IH p). destruct (pop st p). cbn in *. rewrite IH. auto.
Qed.
Theorem order_in : forall l st x, In x (order st l) <-> In x st \/ In x l.
Proof.
  induction l as [|e l IH]; intros st x; cbn [order In]; [tauto|].
  pose proof (pop_app st (e_path e)) as P. destruct (pop st (e_path e)) as [o s]. cbn in P. subst st.
  destruct (later e); rewrite !in_app_iff; [|cbn [In]]; rewrite IH; cbn [In]; tauto.
Qed.
Lemma find_app_some : forall A (p : A -> bool) a b x, find p a = Some x -> find p (a ++ b) = Some x.
Proof. intros A p. induction a as [|y a IH]; cbn; intros b x h; [discriminate|]. destruct (p y); auto. Qed.
Lemma find_fst : forall (p : ent -> bool) ms f, find p (map fst ms) = Some f -> exists w : bool, find (fun x : ent * bool => p (fst x)) ms = Some (f, w).
Proof.
  intros p. induction ms as [|[x w] ms IH]; cbn; intros f h; [discriminate|].
  destruct (p x); auto. injection h as ->. eauto.
Qed.
(* The table has the first of those left out with an inode. *)
Definition left_out (d i : Z) (x : ent * bool) : bool := negb (snd x) && (has_data (fst x) && ((e_dev (fst x) =? d) && (e_ino (fst x) =? i))).
Definition tab_of (t : table) (a : list (ent * bool)) : Prop :=
  forall d i, option_map fl_name (linkhash_search t d i) = option_map (fun x => e_path (fst x)) (find (left_out d i) a).
Lemma tab_true : forall t a e, tab_of t a -> tab_of t (a ++ [(e, true)]).
Proof. intros t a e h d i. rewrite h, find_app_l. destruct (find (left_out d i) a); auto. Qed.
Lemma tab_false : forall t a e, tab_of t a -> tab_of (skipped t e) (a ++ [(e, false)]).
Proof.
  intros t a e h d i. rewrite find_app_l. unfold skipped, left_out at 2. cbn [fst snd negb andb].
  destruct (has_data e); cbn [andb].
  - destruct (linkhash_search t (e_dev e) (e_ino e)) as [lp|] eqn:S.
    + rewrite h. destruct (find (left_out d i) a) eqn:F; auto.
      destruct ((e_dev e =? d) && (e_ino e =? i)) eqn:E; auto.
      assert (e_dev e = d /\ e_ino e = i) as [<- <-] by lia.
      specialize (h (e_dev e) (e_ino e)). rewrite S, F in h. discriminate.
    + rewrite search_add. destruct ((i =? e_ino e) && (d =? e_dev e)) eqn:E.
      * assert (d = e_dev e /\ i = e_ino e) as [-> ->] by lia. rewrite !Z.eqb_refl. cbn [andb].
        specialize (h (e_dev e) (e_ino e)). rewrite S in h. destruct (find (left_out (e_dev e) (e_ino e)) a); [discriminate|]. auto.
      * rewrite h. destruct (find (left_out d i) a); auto. replace ((e_dev e =? d) && (e_ino e =? i)) with false by lia. auto.
  - rewrite h. destruct (find (left_out d i) a); auto.
Qed.
Lemma search_ok : forall es n f, raw n -> Forall (fun x => raw (e_path x)) es -> StronglySorted (fun x y => path_le (e_path x) (e_path y)) es ->
  find (fun x => has_data x && beqb (e_path x) n) es = Some f -> search_name n es = FEntry f.
Proof.
  induction es as [|x es IH]; intros n f rn ra so h; cbn [find] in h; [discriminate|]. cbn [search_name].
  inversion ra; subst. inversion so; subst.
  destruct (has_data x && beqb (e_path x) n) eqn:E.
  - injection h as <-. apply andb_true_iff in E. destruct E as [E1 E2]. apply beqb_eq in E2. rewrite E2, pathcmp_s_refl, E1; auto.
  - replace ((pathcmp_s n (e_path x) =? 0) && has_data x) with false.
    + destruct (pathcmp_s n (e_path x) <? 0) eqn:L; [exfalso|eauto].
      apply find_some in h. destruct h as [hi he]. apply andb_true_iff in he. destruct he as [_ he]. apply beqb_eq in he.
      rewrite Forall_forall in H4. specialize (H4 _ hi). cbn in H4. rewrite he in H4.
      apply Z.ltb_lt, pathcmp_s_neg in L; auto. destruct H4 as [e|l]; [rewrite e in L; eapply path_lt_irrefl; eauto|eapply path_lt_irrefl, path_lt_trans; eauto].
    + symmetry. apply not_true_is_false. intros C. apply andb_true_iff in C. destruct C as [C1 C2]. apply Z.eqb_eq in C1.
      apply pathcmp_s_eq0 in C1; auto. rewrite C1, C2, beqb_refl in E. discriminate.
Qed.
Lemma answer_plain : forall ms l, Forall (fun e => is_link e = false) l -> map (answer ms) l = l.
Proof. intros ms l h. induction h as [|e l he hl IH]; cbn; auto. rewrite IH. unfold answer. rewrite he. auto. Qed.
Lemma sbuf_plain : forall es t e, is_link e = false -> restore_sbuf es t e = ([e], true).
Proof. intros es t e h. unfold restore_sbuf. unfold is_link in h. rewrite h. auto. Qed.
Lemma sbufs_plain : forall es t l, Forall (fun e => is_link e = false) l -> restore_sbufs es t l = (l, true).
Proof. intros es t l h. induction h as [|e l he hl IH]; cbn [restore_sbufs]; auto. rewrite sbuf_plain, IH; auto. Qed.
Lemma find_left : forall e (a : list (ent * bool)) f, find (fun x => original e (fst x)) a = Some (f, false) ->
  find (left_out (e_dev e) (e_ino e)) a = Some (f, false).
Proof.
  intros e. induction a as [|[x w] a IH]; cbn [find]; intros f h; [discriminate|].
  unfold left_out at 1. cbn [fst snd] in *. fold (original e x). destruct (original e x); [|rewrite andb_false_r; auto].
  injection h as -> ->. auto.
Qed.
Lemma sbuf_answer : forall ms a e r t, links_ok (map fst ms) -> paths_ok (map fst ms) -> no_between ms ->
  ms = a ++ (e, true) :: r -> tab_of t a -> restore_sbuf (map fst ms) t e = ([answer ms e], true).
Proof.
  intros ms a e r t L [so ra] B E T. destruct (is_link e) eqn:K; [|rewrite sbuf_plain by auto; unfold answer; rewrite K; auto].
  assert (Em : map fst ms = map fst a ++ e :: map fst r) by (rewrite E, map_app; auto).
  destruct (L _ _ _ Em K) as [_ [f [F1 [F2 F3]]]].
  destruct (find_fst _ _ _ F1) as [w F1'].
  assert (F4 : find (fun x => original e (fst x)) ms = Some (f, w)) by (rewrite E; apply find_app_some; auto).
  unfold answer. rewrite K, F4. unfold restore_sbuf. unfold is_link in K. rewrite K. fold (is_link e) in K.
  pose proof (T (e_dev e) (e_ino e)) as Te. destruct w.
  - replace (find (left_out (e_dev e) (e_ino e)) a) with (@None (ent * bool)) in Te.
    + destruct (linkhash_search t (e_dev e) (e_ino e)); [discriminate|]. auto.
    + symmetry. destruct (find (left_out (e_dev e) (e_ino e)) a) as [[g w]|] eqn:G; auto. exfalso.
      apply find_some in G. destruct G as [G1 G2]. unfold left_out in G2. cbn [fst snd] in G2. fold (original e g) in G2.
      destruct w; [discriminate|]. cbn in G2. rewrite (B a e r f g E K F4 G1) in G2. discriminate.
  - rewrite (find_left _ _ _ F1') in Te. cbn [option_map fst] in Te.
    destruct (linkhash_search t (e_dev e) (e_ino e)) as [lp|]; [|discriminate]. cbn in Te. injection Te as Te.
    rewrite Te, F2. rewrite (search_ok _ _ f); auto.
    rewrite <- F2. rewrite Forall_forall in ra. apply ra. apply find_some in F3. tauto.
Qed.
Theorem restored : forall ms, links_ok (map fst ms) -> paths_ok (map fst ms) -> no_between ms ->
  restore_run ms = (map (answer ms) (order [] (wanted ms)), true).
Proof.
  intros ms L P B. unfold restore_run.
  assert (G : forall r a t st, ms = a ++ r -> tab_of t a -> Forall (fun e => is_link e = false) st ->
    stream (map fst ms) t st r = (map (answer ms) (order st (wanted r)), true)).
  { induction r as [|[e w] r IH]; intros a t st E T S.
    { cbn. rewrite answer_plain; auto. }
    assert (E' : ms = (a ++ [(e, w)]) ++ r) by (rewrite <- app_assoc; auto).
    destruct w; cbn [stream].
    - change (wanted ((e, true) :: r)) with (e :: wanted r). cbn [order].
      pose proof (pop_app st (e_path e)) as Pp. destruct (pop st (e_path e)) as [o s]. cbn [fst snd] in Pp.
      rewrite <- Pp in S. apply Forall_app in S. destruct S as [So Ss]. rewrite sbufs_plain by auto.
      assert (T' := tab_true t a e T).
      destruct (later e) eqn:La.
      + assert (K : is_link e = false).
        { destruct (is_link e) eqn:K; auto. exfalso. assert (Em : map fst ms = map fst a ++ e :: map fst r) by (rewrite E, map_app; auto).
          destruct (L _ _ _ Em K) as [D _]. unfold later in La. rewrite D in La. discriminate. }
        rewrite (IH _ t (e :: s) E' T') by (constructor; auto). rewrite map_app, (answer_plain ms o) by auto. auto.
      + rewrite (sbuf_answer ms a e r t) by auto. rewrite (IH _ t s E' T') by auto.
        rewrite map_app, (answer_plain ms o) by auto. auto.
    - change (wanted ((e, false) :: r)) with (wanted r). apply (IH (a ++ [(e, false)])); auto. apply tab_false; auto. }
  apply (G ms [] linkhash_init []); auto. intros d i. reflexivity.
Qed.
(* A link that is wanted comes out with content: the file it is a link to comes out as
   well, or the content of that file comes out under the name of the link. *)
Theorem link_content : forall ms e, links_ok (map fst ms) -> paths_ok (map fst ms) -> no_between ms ->
  In (e, true) ms -> is_link e = true ->
  exists f w, In (f, w) ms /\ has_data f = true /\ e_path f = e_link e /\ e_dev f = e_dev e /\ e_ino f = e_ino e /\ ((w = true /\ In f (fst (restore_run ms)) /\ In e (fst (restore_run ms))) \/
   (w = false /\ In (copy_of f e) (fst (restore_run ms)))).
Proof.
  intros ms e L P B i K. apply in_split in i. destruct i as [a [r E]].
  assert (Em : map fst ms = map fst a ++ e :: map fst r) by (rewrite E, map_app; auto).
  destruct (L _ _ _ Em K) as [_ [f [F1 [F2 F3]]]]. destruct (find_fst _ _ _ F1) as [w F4].
  assert (F5 := find_app_some _ _ _ ((e, true) :: r) _ F4). rewrite <- E in F5.
  pose proof (find_some _ _ F5) as [Fi Fo]. cbn [fst] in Fo. unfold original in Fo. apply andb_true_iff in Fo. destruct Fo as [Fd Fo].
  exists f, w. repeat split; auto; try lia. rewrite (restored ms L P B). cbn [fst].
  assert (Wt : forall x, In (x, true) ms -> In x (wanted ms)) by (intros x h; apply in_map_iff; exists (x, true); split; auto; apply filter_In; auto).
  assert (An : forall x, In (x, true) ms -> In (answer ms x) (map (answer ms) (order [] (wanted ms)))) by (intros x h; apply in_map, order_in; auto).
  assert (Ie : In (e, true) ms) by (rewrite E; apply in_elt).
  assert (Nl : is_link f = false).
  { unfold is_link. apply not_true_is_false. intros c. apply Z.eqb_eq in c. unfold has_data in Fd. rewrite c in Fd. vm_compute in Fd. discriminate. }
  specialize (An e Ie) as Ae. unfold answer in Ae at 1. rewrite K, F5 in Ae. destruct w; [left|right; auto].
  repeat split; auto. specialize (An f Fi). unfold answer in An at 1. rewrite Nl in An. auto.
Qed.
Lemma mark_fst : forall c bad es lines, map fst (mark c bad lines es) = es.
Proof. intros c bad. induction es as [|e es IH]; intros lines; cbn [mark]; auto. destruct (want_to_restore c bad lines (rent_of e)). cbn. rewrite IH. auto. Qed.
Lemma mark_select : forall c bad es lines, map rent_of (wanted (mark c bad lines es)) = select c bad lines (map rent_of es).
Proof.
  intros c bad. induction es as [|e es IH]; intros lines; cbn [mark map select]; auto. unfold wanted in *.
  destruct (want_to_restore c bad lines (rent_of e)) as [w l]. cbn [filter snd]. destruct w; cbn [map fst]; rewrite IH; auto.
Qed.
