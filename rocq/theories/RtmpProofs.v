(* Restoring leaves the stored files alone (C55), unless a restore was stopped. *)
From Verif Require Import Bytes Phase4Model Phase4Proofs RtmpModel.

Definition is_tmp (n : name) : Prop := n = tmp1 \/ n = tmp2.

(* Whatever the outcome. *)
Definition trip (I : fs -> Prop) (r : run) (s : fs) (Q : fs -> Prop) : Prop :=
  Forall I (fst (r s)) /\ (snd (r s) = true -> Q (endst (fst (r s)) s)).

Lemma trip_andthen I f g s Q : trip I f s (fun s' => trip I g s' Q) -> trip I (andthen f g) s Q.
Proof.
  unfold trip, andthen. destruct (f s) as [l o]; cbn [fst snd]. intros [H1 H2]. destruct o.
  - specialize (H2 eq_refl). destruct (g (endst l s)) as [l2 o2]; cbn [fst snd] in *. destruct H2 as [H2 H3].
    split; [apply Forall_app; auto|]. intros E. rewrite endst_app. auto.
  - split; [exact H1|discriminate].
Qed.

Lemma trip_fail I s Q : trip I fail s Q.
Proof. split; [constructor|discriminate]. Qed.

Lemma trip_safe I r s Q : safe I r s Q -> trip I r s Q.
Proof. intros (H1 & _ & H2). split; auto. Qed.

Lemma trip_weaken (I J : fs -> Prop) r s (Q R : fs -> Prop) :
  (forall x, I x -> J x) -> (forall x, Q x -> R x) -> trip I r s Q -> trip J r s R.
Proof. intros HI HQ [H1 H2]. split; [eapply Forall_impl; eauto|auto]. Qed.

Lemma trip_end (I : fs -> Prop) r s Q : I s -> trip I r s Q -> I (endst (fst (r s)) s).
Proof. intros Hs [H _]. apply endst_inv; assumption. Qed.

Section Pure.
Variables (gunzip : bytes -> option bytes) (patch : bytes -> bytes -> option bytes) (many : nat -> bool).
Variable s0 : fs.

(* The files of the repository are as at first. *)
Definition same_files (s : fs) : Prop := only is_tmp s0 s.

(* Private: the names in W; others unchanged. *)
Definition st_ok (W : name -> Prop) (s : fs) : Prop := priv W s /\ same_files s.

Lemma priv_sub (W V : name -> Prop) s : (forall n, V n -> W n) -> priv W s -> priv V s.
Proof. intros H [A B]. split; [exact A|]. intros n m i Hv. apply B, H, Hv. Qed.

Lemma priv_add (W : name -> Prop) n s : priv W s -> content s n = None -> priv (fun m => W m \/ m = n) s.
Proof.
  intros [A B] E. split; [exact A|]. intros x m i [Hx| ->] H1 H2; [apply (B x m i); assumption|].
  unfold content in E. rewrite H1 in E. discriminate.
Qed.

Lemma same_step n s s' : is_tmp n -> same_files s -> only (eq n) s s' -> same_files s'.
Proof.
  intros Hn H1 H2. eapply only_trans; [exact H1|]. eapply only_weaken; [|exact H2]. intros m <-. exact Hn.
Qed.

Lemma trip_write (W : name -> Prop) n c s : W n -> is_tmp n -> st_ok W s ->
  trip (st_ok W) (write n c) s (fun s' => st_ok W s' /\ only (eq n) s s' /\ content s' n = Some c).
Proof.
  intros Hw Hn [H1 H2]. apply trip_safe. apply (safe_write W); [exact H1|exact Hw| |].
  - intros s' k A1 A2 _ _. split; [exact A1|apply (same_step n s); assumption].
  - intros s' A1 A2 A3 _. split; [split; [exact A1|apply (same_step n s); assumption]|auto].
Qed.

Lemma trip_unlink (W : name -> Prop) n s : is_tmp n -> st_ok W s ->
  trip (st_ok W) (unlink n) s (fun s' => st_ok W s' /\ only (eq n) s s' /\ content s' n = None).
Proof.
  intros Hn [H1 H2]. apply trip_safe. apply (safe_unlink W); [exact H1|split; assumption|].
  intros s' A1 A2 A3 _.
  assert (X : st_ok W s') by (split; [exact A1|apply (same_step n s); assumption]). auto.
Qed.

Lemma trip_do_patch (W : name -> Prop) best d tmp s : W tmp -> is_tmp tmp -> st_ok W s ->
  trip (st_ok W) (do_patch patch best d tmp) s
    (fun s' => st_ok W s' /\ only (eq tmp) s s' /\
       exists b dl c, content s best = Some b /\ content s d = Some dl /\ patch b dl = Some c /\ content s' tmp = Some c).
Proof.
  intros Hw Ht Hs. unfold do_patch.
  match goal with |- trip _ (look ?f) _ ?Q => change (trip (st_ok W) (f s) s Q) end. cbv beta.
  destruct (content s best) as [b|] eqn:Eb; [|apply trip_fail].
  destruct (content s d) as [dl|] eqn:Ed; [|apply trip_fail].
  destruct (patch b dl) as [c|] eqn:Ep.
  - eapply trip_weaken; [| |apply (trip_write W tmp c s Hw Ht Hs)]; [auto|]. cbn. intros x (A & B & C).
    split; [exact A|]. split; [exact B|]. exists b, dl, c. auto.
  - apply trip_andthen. eapply trip_weaken; [| |apply (trip_write W tmp _ s Hw Ht Hs)]; [auto|].
    intros x _. apply trip_fail.
Qed.

(* What the deltas make of a file, and where it is put. *)
Fixpoint patched (c : bytes) (dls : list bytes) : option bytes :=
  match dls with
  | [] => Some c
  | dl :: r => match patch c dl with Some c' => patched c' r | None => None end
  end.

Definition both (n : name) : Prop := is_tmp n.

Lemma trip_loop ds : forall dls best tmp c s, is_tmp best -> is_tmp tmp -> best <> tmp -> st_ok both s ->
  content s best = Some c -> Forall2 (fun d dl => ~ is_tmp d /\ content s0 d = Some dl) ds dls ->
  trip (st_ok both) (patch_loop patch best tmp ds) s
    (fun s' => st_ok both s' /\ exists q, patched c dls = Some q /\ content s' (turns best tmp ds) = Some q).
Proof.
  induction ds as [|d r IH]; intros dls best tmp c s Hb Ht Hne Hs Hc Hd; cbn [patch_loop turns].
  - inversion Hd; subst. split; [constructor|intros _; split; [exact Hs|exists c; split; [reflexivity|exact Hc]]].
  - inversion Hd as [|? dl ? dls' [Hnd Hdl] Hr]; subst.
    apply trip_andthen. eapply trip_weaken; [| |apply (trip_do_patch both best d tmp s Ht Ht Hs)]; [auto|].
    intros s1 (A1 & _ & b & dl' & c' & Eb & Ed & Ep & Et).
    assert (b = c) by congruence. subst b.
    assert (dl' = dl) by (destruct Hs as [_ Hf]; specialize (Hf d Hnd); congruence). subst dl'.
    apply trip_andthen.
    eapply trip_weaken; [| |apply (trip_unlink both best s1 Hb A1)]; [auto|].
    intros s2 (B1 & B2 & _). cbn [patched]. rewrite Ep.
    apply IH; try assumption; [congruence|]. rewrite (B2 tmp) by exact Hne. exact Et.
Qed.

(* The first round, when tmp1 is a link to a stored file. *)
Definition only2 (n : name) : Prop := n = tmp2.

Lemma trip_first ds dls c s : st_ok only2 s ->
  content s tmp1 = Some c -> Forall2 (fun d dl => ~ is_tmp d /\ content s0 d = Some dl) ds dls ->
  trip (st_ok only2) (patch_loop patch tmp1 tmp2 ds) s
    (fun s' => st_ok only2 s' /\ exists q, patched c dls = Some q /\ content s' (turns tmp1 tmp2 ds) = Some q).
Proof.
  destruct ds as [|d r]; cbn [patch_loop turns]; intros Hs Hc Hd.
  - inversion Hd; subst. split; [constructor|intros _; split; [exact Hs|exists c; split; [reflexivity|exact Hc]]].
  - inversion Hd as [|? dl ? dls' [Hnd Hdl] Hr]; subst.
    apply trip_andthen.
    eapply trip_weaken; [| |apply (trip_do_patch only2 tmp1 d tmp2 s eq_refl (or_intror eq_refl) Hs)]; [auto|].
    intros s1 (A1 & _ & b & dl' & c' & Eb & Ed & Ep & Et).
    assert (b = c) by congruence. subst b.
    assert (dl' = dl) by (destruct Hs as [_ Hf]; specialize (Hf d Hnd); congruence). subst dl'.
    apply trip_andthen.
    eapply trip_weaken; [| |apply (trip_unlink only2 tmp1 s1 (or_introl eq_refl) A1)]; [auto|].
    intros s2 ([P2 F2] & O2 & E2).
    assert (B2 : st_ok both s2).
    { split; [|exact F2]. eapply priv_sub; [|apply (priv_add only2 tmp1 s2 P2 E2)].
      intros n [->| ->]; [right|left]; reflexivity. }
    cbn [patched]. rewrite Ep.
    eapply trip_weaken; [| |apply (trip_loop r dls' tmp2 tmp1 c' s2); [right; reflexivity|left; reflexivity|discriminate|exact B2| |exact Hr]].
    + intros x [X Y]. split; [|exact Y]. eapply priv_sub; [|exact X]. intros n ->. right; reflexivity.
    + intros x [[X Y] Z]. split; [|exact Z]. split; [|exact Y]. eapply priv_sub; [|exact X]. intros n ->. right; reflexivity.
    + rewrite (O2 tmp2) by discriminate. exact Et.
Qed.

Lemma both_only2 s : st_ok both s -> st_ok only2 s.
Proof. intros [X Y]. split; [|exact Y]. eapply priv_sub; [|exact X]. intros n ->. right; reflexivity. Qed.

Lemma trip_copy path s : ~ is_tmp path -> st_ok both s ->
  trip (st_ok both) (duplicate_file path tmp1) s (fun s' => st_ok both s' /\ content s' tmp1 = content s path).
Proof.
  intros Hnt Hs. pose proof Hs as [[Hb Hp] Hf]. unfold trip, duplicate_file.
  destruct (dir s path) as [ia|] eqn:Ed; [|split; [constructor|discriminate]].
  destruct (creat tmp1 s) as [s1 ib] eqn:Ec. cbn [fst snd].
  assert (T : trip (st_ok both) (write tmp1 (data s1 ia)) s (fun s' => st_ok both s' /\ content s' tmp1 = content s path)).
  { eapply trip_weaken; [| |apply (trip_write both tmp1 (data s1 ia) s (or_introl eq_refl) (or_introl eq_refl) Hs)]; [auto|].
    intros x (A & _ & B). split; [exact A|]. rewrite B. unfold content. rewrite Ed. f_equal.
    unfold creat in Ec. destruct (dir s tmp1) as [it|] eqn:Et.
    - injection Ec as <- <-. cbn. destruct (Nat.eqb_spec ia it) as [->|]; [|reflexivity].
      exfalso. apply Hnt. left. apply (Hp tmp1 path it (or_introl eq_refl) Et Ed).
    - injection Ec as <- <-. cbn. destruct (Nat.eqb_spec ia (next s)) as [->|]; [|reflexivity].
      specialize (Hb _ _ Ed). lia. }
  unfold trip, write in T. rewrite Ec in T. exact T.
Qed.

(* The file as it was before compression. *)
Definition plain (comp : bool) (c : bytes) : option bytes :=
  if comp then match c with [] => Some [] | _ => gunzip c end else Some c.

(* What an earlier restore may have left behind for this one to work: tmp2, if any,
   is a file of its own, and so is tmp1, unless it is going to be replaced by a link. *)
Definition leftovers_ok (path : name) (comp : bool) (s : fs) : Prop :=
  (forall m i, dir s tmp2 = Some i -> dir s m = Some i -> m = tmp2) /\
  ((forall m i, dir s tmp1 = Some i -> dir s m = Some i -> m = tmp1) \/
   (comp = false /\ forall i, dir s path = Some i -> many i = false)).

Definition may_start (path : name) (comp : bool) (s : fs) : Prop :=
  st_ok both s \/ (comp = false /\ (forall i, dir s path = Some i -> many i = false) /\ st_ok only2 s).

Lemma start_only2 path comp s : may_start path comp s -> st_ok only2 s.
Proof. intros [H|(_ & _ & H)]; [apply both_only2|]; exact H. Qed.

Lemma trip_inflate path comp s : ~ is_tmp path -> may_start path comp s ->
  trip (st_ok only2) (inflate_to gunzip many path tmp1 comp) s
       (fun s' => st_ok only2 s' /\ exists c p, content s path = Some c /\ plain comp c = Some p /\ content s' tmp1 = Some p).
Proof.
  intros Hnt Hm. unfold inflate_to.
  match goal with |- trip _ (look ?f) _ ?Q => change (trip (st_ok only2) (f s) s Q) end. cbv beta.
  assert (Wr : st_ok both s -> forall c, trip (st_ok only2) (write tmp1 c) s (fun s' => st_ok only2 s' /\ content s' tmp1 = Some c)).
  { intros Hs c. eapply trip_weaken; [| |apply (trip_write both tmp1 c s (or_introl eq_refl) (or_introl eq_refl) Hs)].
    - intros x; apply both_only2.
    - intros x (A & _ & B). split; [apply both_only2, A|exact B]. }
  destruct (content s path) as [c|] eqn:Ec; [|apply trip_fail].
  destruct comp.
  - destruct Hm as [Hs|(Hm & _)]; [|discriminate]. specialize (Wr Hs).
    destruct c as [|b c].
    + eapply trip_weaken; [| |apply Wr]; [auto|]. cbn. intros x [A B]. split; [exact A|]. exists [], []. auto.
    + destruct (gunzip (b :: c)) as [p|] eqn:Eg.
      * eapply trip_weaken; [| |apply Wr]; [auto|]. cbn. intros x [A B]. split; [exact A|].
        exists (b :: c), p. auto.
      * apply trip_andthen. eapply trip_weaken; [| |apply Wr]; [auto|]. intros x _; apply trip_fail.
  - unfold trip, do_link. pose proof Ec as Ec'. unfold content in Ec'. destruct (dir s path) as [i|] eqn:Ed; [|discriminate].
    pose proof (start_only2 _ _ _ Hm) as H2.
    destruct (many i) eqn:Em.
    + assert (Hs : st_ok both s) by (destruct Hm as [Hs|(_ & Hm & _)]; [exact Hs|rewrite (Hm i Ed) in Em; discriminate]).
      apply (trip_weaken (st_ok both) (st_ok only2) (duplicate_file path tmp1) s
        (fun s' => st_ok both s' /\ content s' tmp1 = content s path)
        (fun s' => st_ok only2 s' /\ exists c0 p, Some c = Some c0 /\ plain false c0 = Some p /\ content s' tmp1 = Some p));
        [| |apply (trip_copy path s Hnt Hs)].
      * intros x; apply both_only2.
      * intros x [A B]. split; [apply both_only2, A|]. exists c, c. rewrite B, Ec. auto.
    + assert (L : forall s', dir s' path = Some i -> data s' i = c -> st_ok only2 s' ->
        st_ok only2 (set_name tmp1 (Some i) s') /\ content (set_name tmp1 (Some i) s') tmp1 = Some c).
      { intros s' Ed' Ei [Hp Hf]. split.
        - split.
          + apply priv_set_link; [exact Hp| |discriminate].
            exists path. split; [|exact Ed']. intros ->. apply Hnt. right; reflexivity.
          + intros n Hn. rewrite content_set_name, name_eqb_neq; [apply Hf, Hn|].
            intros ->. apply Hn. left; reflexivity.
        - rewrite content_set_name, name_eqb_refl. cbn [option_map]. congruence. }
      injection Ec' as Ec'.
      destruct (dir s tmp1) eqn:Et; cbn [fst snd].
      * pose proof (trip_unlink only2 tmp1 s (or_introl eq_refl) H2) as U. unfold trip, unlink in U. rewrite Et in U.
        cbn [fst snd endst last] in U. destruct U as [_ U]. specialize (U eq_refl). destruct U as (U1 & _ & _).
        unfold endst in U1. cbn [last] in U1.
        unfold andthen, unlink. rewrite Et. cbn [fst snd endst last app]. unfold endst. cbn [last].
        assert (Ed' : dir (set_name tmp1 None s) path = Some i).
        { cbn. rewrite name_eqb_neq; [exact Ed|]. intros ->. apply Hnt. left; reflexivity. }
        destruct (L _ Ed' Ec' U1) as [X Y].
        split; [constructor; [exact U1|constructor; [exact X|constructor]]|]. intros _. split; [exact X|].
        exists c, c. auto.
      * destruct (L s Ed Ec' H2) as [X Y].
        split; [constructor; [exact X|constructor]|]. intros _. split; [exact X|].
        exists c, c. auto.
Qed.

Lemma leftovers_start path comp s : s = s0 -> (forall n i, dir s n = Some i -> (i < next s)%nat) ->
  leftovers_ok path comp s -> may_start path comp s.
Proof.
  intros Es Hb [H2 H1]. assert (F : same_files s) by (rewrite Es; apply only_refl).
  destruct H1 as [H1|[-> H1]].
  - left. split; [|exact F]. split; [exact Hb|]. intros n m i [->| ->] A B; [apply (H1 m i A B)|apply (H2 m i A B)].
  - right. split; [reflexivity|]. split; [exact H1|]. split; [|exact F]. split; [exact Hb|].
    intros n m i -> A B. apply (H2 m i A B).
Qed.

(* A restore that finds no temporary files leaves every other file as it is at
   all times, and no temporary files in the end. *)
Lemma restore_pure path ds dls comp s :
  s = s0 -> (forall n i, dir s n = Some i -> (i < next s)%nat) ->
  leftovers_ok path comp s -> ~ is_tmp path ->
  Forall2 (fun d dl => ~ is_tmp d /\ content s0 d = Some dl) ds dls ->
  Forall same_files (fst (process_file gunzip patch many path ds comp s)) /\
  same_files (endst (fst (process_file gunzip patch many path ds comp s)) s) /\
  content (endst (fst (process_file gunzip patch many path ds comp s)) s) tmp1 = None /\
  content (endst (fst (process_file gunzip patch many path ds comp s)) s) tmp2 = None.
Proof.
  intros Es Hb E1 Hp Hd. pose proof (leftovers_start path comp s Es Hb E1) as Hs.
  set (body := make_file gunzip patch many path ds comp).
  assert (B : trip (st_ok only2) body s (fun _ => True)).
  { unfold body, make_file. destruct ds as [|d r].
    - split; [constructor|auto].
    - apply trip_andthen. eapply trip_weaken; [| |apply (trip_inflate path comp s Hp Hs)]; [auto|].
      intros x (Hx & c & p & _ & _ & Hc).
      eapply trip_weaken; [| |apply (trip_first (d :: r) dls p x Hx Hc Hd)]; auto. }
  pose proof (trip_end _ _ _ _ (start_only2 _ _ _ Hs) B) as HE.
  assert (C : trip (st_ok only2) (andthen (unlink tmp1) (unlink tmp2)) (endst (fst (body s)) s)
     (fun s' => st_ok only2 s' /\ content s' tmp1 = None /\ content s' tmp2 = None)).
  { apply trip_andthen. eapply trip_weaken; [| |apply (trip_unlink only2 tmp1 _ (or_introl eq_refl) HE)]; [auto|].
    intros x (X1 & _ & X3).
    eapply trip_weaken; [| |apply (trip_unlink only2 tmp2 x (or_intror eq_refl) X1)]; [auto|].
    intros y (Y1 & Y2 & Y3). split; [exact Y1|]. split; [|exact Y3]. rewrite (Y2 tmp1) by discriminate. exact X3. }
  assert (O : snd (andthen (unlink tmp1) (unlink tmp2) (endst (fst (body s)) s)) = true).
  { unfold andthen, unlink. set (e := endst (fst (body s)) s). destruct (dir e tmp1); cbn [fst snd];
      match goal with |- context [dir ?x tmp2] => destruct (dir x tmp2) end; reflexivity. }
  destruct B as [B1 _], C as [C1 C2]. specialize (C2 O). clear O HE.
  unfold process_file. fold body. unfold always. destruct (body s) as [l o]. cbn [fst snd] in *.
  destruct (andthen (unlink tmp1) (unlink tmp2) (endst l s)) as [l2 o2]. cbn [fst snd] in *.
  rewrite endst_app.
  destruct C2 as ([_ C2] & C3 & C4).
  split; [|auto]. apply Forall_app. split; (eapply Forall_impl; [|eassumption]); intros x [_ X]; exact X.
Qed.

(* When it comes to sending, the file to send has what the deltas make of the
   stored one. *)
Lemma restore_best path d r dl dls comp s :
  s = s0 -> (forall n i, dir s n = Some i -> (i < next s)%nat) ->
  leftovers_ok path comp s -> ~ is_tmp path ->
  Forall2 (fun d dl => ~ is_tmp d /\ content s0 d = Some dl) (d :: r) (dl :: dls) ->
  snd (make_file gunzip patch many path (d :: r) comp s) = true ->
  exists c p q, content s path = Some c /\ plain comp c = Some p /\ patched p (dl :: dls) = Some q /\
    content (endst (fst (make_file gunzip patch many path (d :: r) comp s)) s) (best_of path (d :: r)) = Some q.
Proof.
  intros Es Hb E1 Hp Hd. pose proof (leftovers_start path comp s Es Hb E1) as Hs.
  assert (B : trip (st_ok only2) (make_file gunzip patch many path (d :: r) comp) s
    (fun s' => exists c p q, content s path = Some c /\ plain comp c = Some p /\
       patched p (dl :: dls) = Some q /\ content s' (best_of path (d :: r)) = Some q)).
  { apply trip_andthen. eapply trip_weaken; [| |apply (trip_inflate path comp s Hp Hs)]; [auto|].
    intros x (Hx & c & p & H1 & H2 & Hc).
    eapply trip_weaken; [| |apply (trip_first (d :: r) (dl :: dls) p x Hx Hc Hd)]; [auto|].
    intros y (_ & q & Y1 & Y2). exists c, p, q. auto. }
  exact (proj2 B).
Qed.
End Pure.

Lemma both_deltas s ds dls :
  Forall2 (fun d dl => d <> tmp1 /\ d <> tmp2 /\ content s d = Some dl) ds dls ->
  Forall2 (fun d dl => ~ is_tmp d /\ content s d = Some dl) ds dls.
Proof. induction 1 as [|d dl ds dls (A & B & C)]; constructor; [|assumption]. split; [intros [E|E]; contradiction|exact C]. Qed.

Lemma restore_unchanged gunzip patch many path ds dls comp s :
  (forall n i, dir s n = Some i -> (i < next s)%nat) ->
  leftovers_ok many path comp s -> path <> tmp1 -> path <> tmp2 ->
  Forall2 (fun d dl => d <> tmp1 /\ d <> tmp2 /\ content s d = Some dl) ds dls ->
  let r := process_file gunzip patch many path ds comp s in
  Forall (fun s' => forall n, n <> tmp1 -> n <> tmp2 -> content s' n = content s n) (fst r) /\
  (forall n, n <> tmp1 -> n <> tmp2 -> content (endst (fst r) s) n = content s n) /\
  content (endst (fst r) s) tmp1 = None /\ content (endst (fst r) s) tmp2 = None.
Proof.
  intros Hb E1 N1 N2 Hd r.
  destruct (restore_pure gunzip patch many s path ds dls comp s eq_refl Hb E1
    (fun H => match H with or_introl E => N1 E | or_intror E => N2 E end) (both_deltas s ds dls Hd)) as (A & B & C & D).
  fold r in A, B, C, D. split; [|split; [|auto]].
  - eapply Forall_impl; [|exact A]. intros x Hx n X1 X2. apply Hx. intros [E|E]; contradiction.
  - intros n X1 X2. apply B. intros [E|E]; contradiction.
Qed.

Lemma restore_sends gunzip patch many path d ds dl dls comp s :
  (forall n i, dir s n = Some i -> (i < next s)%nat) ->
  leftovers_ok many path comp s -> path <> tmp1 -> path <> tmp2 ->
  Forall2 (fun d dl => d <> tmp1 /\ d <> tmp2 /\ content s d = Some dl) (d :: ds) (dl :: dls) ->
  let r := make_file gunzip patch many path (d :: ds) comp s in
  snd r = true ->
  exists c p q, content s path = Some c /\ plain gunzip comp c = Some p /\ patched patch p (dl :: dls) = Some q /\
    content (endst (fst r) s) (best_of path (d :: ds)) = Some q.
Proof.
  intros Hb E1 N1 N2 Hd. cbn zeta.
  apply (restore_best gunzip patch many s path d ds dl dls comp s eq_refl Hb E1).
  - intros [E|E]; contradiction.
  - apply both_deltas, Hd.
Qed.

(* ---------- a restore stopped earlier ---------- *)

(* An uncompressed file and a compressed one, each with a reverse delta. *)
Definition na : name := NElse (str "data/a").
Definition nb : name := NElse (str "data/b").
Definition da : name := NElse (str "deltas.reverse/a").
Definition db : name := NElse (str "deltas.reverse/b").
Definition fs_r : fs :=
  fs_of [(na, 0%nat); (da, 1%nat); (nb, 2%nat); (db, 3%nat)] [[1; 2; 3]; [54; 8]; [31; 4; 4]; [54; 9]].

Lemma restore_overwrites : exists s path ds path2 ds2,
  In s (fst (process_file gunzip0 patch0 never path ds false fs_r)) /\
  content fs_r tmp1 = None /\ content fs_r tmp2 = None /\
  snd (process_file gunzip0 patch0 never path2 ds2 true s) = true /\
  content fs_r path = Some [1; 2; 3] /\
  content (endst (fst (process_file gunzip0 patch0 never path2 ds2 true s)) s) path = Some [4; 4].
Proof.
  exists (nth 0 (fst (process_file gunzip0 patch0 never na [da] false fs_r)) fs_r), na, [da], nb, [db].
  split; [|split; [|split; [|split; [|split]]]]; try (vm_compute; reflexivity).
  apply nth_In. apply Nat.ltb_lt. vm_compute. reflexivity.
Qed.
