(* Specification and proofs about deleting backups (C20 to C23). *)
From Coq Require Import Sorted.
From Verif Require Import Bytes FrameModel DpthModel BuModel DeleteModel BuProofs.

(* ---------- Specification ---------- *)

(* How old a backup is: 1 for the newest. *)
Definition age (l : list bu) (b : bu) : Z := last_bno l - b_bno b + 1.

(* Restoring a reads reverse deltas from the newer backups, up to and including
   the one that follows the first hard-linked one. *)
Definition needs (l : list bu) (a b : bu) : Prop :=
  exists x m y, l = x ++ a :: m ++ b :: y /\ Forall (fun c => b_hard c = false) (a :: m).

Definition deletable (l : list bu) (b : bu) : Prop :=
  exists x y, l = x ++ b :: y /\ (x = [] \/ exists x' a, x = x' ++ [a] /\ b_hard a = true).

(* Products of the keep values. *)
Fixpoint product (ks : list Z) : Z := match ks with [] => 1 | k :: r => k * product r end.
Definition keeps_ok (ks : list Z) : Prop := Forall (fun k => 0 < k) ks /\ product ks < 2 ^ 31.

(* The retention windows, as intervals (s,r] of age.  With keep values k1 ... kn:
   for each i < n, the intervals of length k1*...*ki, from the second to number
   k(i+1). *)
Fixpoint window (m : Z) (ks : list Z) (s r : Z) : Prop :=
  match ks with
  | k :: ((k2 :: _) as ks') =>
      (exists j, 2 <= j <= k2 /\ s = m * k * (j - 1) /\ r = m * k * j) \/ window (m * k) ks' s r
  | _ => False
  end.

(* The states of the directory that automatic deletion can leave, wherever it
   stops. *)
Inductive del_run (ks : list Z) : list bu -> list bu -> Prop :=
| run_part : forall l ds1 ds2, do_delete_backups ks (setup_indices l) = Some (ds1 ++ ds2) ->
    del_run ks l (left_after (setup_indices l) ds1)
| run_pass : forall l ds l', do_delete_backups ks (setup_indices l) = Some ds -> ds <> [] ->
    del_run ks (left_after (setup_indices l) ds) l' -> del_run ks l l'.

(* ---------- the numbered list ---------- *)

Lemma number_bu : forall l tr ph i, map e_bu (number tr ph i l) = l.
Proof. induction l; intros; cbn; f_equal; auto. Qed.
Lemma setup_bu : forall l, map e_bu (setup_indices l) = l.
Proof. intros. apply number_bu. Qed.
Lemma number_app : forall x y tr ph i,
  number tr ph i (x ++ y) = number tr ph i x ++ number tr (match rev x with [] => ph | b :: _ => b_hard b end) (i + Z.of_nat (List.length x)) y.
Proof.
  induction x as [|a x IH]; intros y tr ph i.
  - cbn. rewrite Z.add_0_r. auto.
  - cbn [app number List.length rev]. f_equal. rewrite IH. f_equal. f_equal; [|lia].
    destruct (rev x); reflexivity.
Qed.
Lemma number_in : forall l tr ph i e, In e (number tr ph i l) ->
  In (e_bu e) l /\ e_trbno e = trbno tr (b_bno (e_bu e)) /\ i <= e_index e < i + Z.of_nat (List.length l).
Proof.
  induction l as [|b l IH]; intros tr ph i e H; [destruct H|]. cbn [number In List.length] in *. destruct H as [<-|H].
  - cbn [e_bu e_trbno e_index]. repeat split; auto; lia.
  - apply IH in H. destruct H as (A & B & C). repeat split; auto; lia.
Qed.
Lemma number_index_inj : forall l tr ph i a b, In a (number tr ph i l) -> In b (number tr ph i l) ->
  e_index a = e_index b -> a = b.
Proof.
  induction l as [|c l IH]; intros tr ph i a b Ha Hb E; [destruct Ha|]. cbn [number In] in *.
  destruct Ha as [<-|Ha], Hb as [<-|Hb]; auto.
  - apply number_in in Hb. cbn [e_index] in E. lia.
  - apply number_in in Ha. cbn [e_index] in E. lia.
  - eauto.
Qed.
Lemma number_NoDup : forall l tr ph i, NoDup (number tr ph i l).
Proof.
  induction l as [|c l IH]; intros; cbn; constructor; auto. intros H. apply number_in in H. cbn [e_index] in H. lia.
Qed.
Lemma setup_age : forall l e, ascending l -> In e (setup_indices l) -> In (e_bu e) l /\ e_trbno e = age l (e_bu e) /\ 1 <= e_trbno e.
Proof.
  intros l e A H. apply number_in in H. destruct H as (Hi & T & _). rewrite trbno_exact in T by auto.
  repeat split; auto. pose proof (last_bno_max l _ (ascending_le l A) Hi). lia.
Qed.
Lemma number_del : forall l tr ph i e, In e (number tr ph i l) -> e_del e = true ->
  exists x y, l = x ++ e_bu e :: y /\ ((x = [] /\ ph = true) \/ exists x' a, x = x' ++ [a] /\ b_hard a = true).
Proof.
  induction l as [|c l IH]; intros tr ph i e H D; [destruct H|]. cbn [number In] in H. destruct H as [<-|H].
  - exists [], l. cbn in *. auto.
  - apply IH in H; auto. destruct H as (x & y & -> & [(-> & Hc)|(x' & a & -> & Ha)]).
    + exists [c], y. split; auto. right. exists [], c. auto.
    + exists (c :: x' ++ [a]), y. split; auto. right. exists (c :: x'), a. auto.
Qed.
Lemma setup_deletable : forall l e, In e (setup_indices l) -> e_del e = true -> deletable l (e_bu e).
Proof.
  intros l e H D. destruct (number_del _ _ _ _ _ H D) as (x & y & E & [(X & _)|X]); exists x, y; auto.
Qed.

(* ---------- what is left ---------- *)

Definition gone (ds : list ebu) (e : ebu) : bool := existsb (fun d => e_index d =? e_index e) ds.
Lemma gone_spec : forall l ds e, incl ds (setup_indices l) -> In e (setup_indices l) -> gone ds e = true <-> In e ds.
Proof.
  intros l ds e I He. unfold gone. rewrite existsb_exists. split.
  - intros (d & Hd & E). apply Z.eqb_eq in E. rewrite <- (number_index_inj _ _ _ _ d e (I d Hd) He E). auto.
  - intros H. exists e. split; auto. apply Z.eqb_refl.
Qed.
Lemma left_in : forall l ds b, incl ds (setup_indices l) ->
  In b (left_after (setup_indices l) ds) <-> exists e, In e (setup_indices l) /\ e_bu e = b /\ ~ In e ds.
Proof.
  intros l ds b I. unfold left_after. rewrite in_map_iff. split.
  - intros (e & E & H). apply filter_In in H. destruct H as (H & G). exists e. repeat split; auto.
    intros X. apply (gone_spec l ds e I H) in X. unfold gone in X. rewrite X in G. discriminate.
  - intros (e & H & E & N). exists e. split; auto. apply filter_In. split; auto.
    fold (gone ds e). destruct (gone ds e) eqn:G; auto. apply (gone_spec l ds e I H) in G. contradiction.
Qed.
Lemma filter_sorted : forall (A : Type) (R : A -> A -> Prop) p l, StronglySorted R l -> StronglySorted R (filter p l).
Proof.
  intros A R p l H. induction H; cbn; [constructor|]. destruct (p a); auto. constructor; auto.
  rewrite Forall_forall in *. intros x Hx. apply filter_In in Hx. apply H0. tauto.
Qed.
Lemma map_sorted : forall (A B : Type) (f : A -> B) (R : B -> B -> Prop) l,
  StronglySorted R (map f l) <-> StronglySorted (fun a b => R (f a) (f b)) l.
Proof.
  intros A B f R l. split.
  - induction l as [|a l IH]; cbn [map]; intros H; [constructor|]. inversion H as [|? ? H1 H2]; subst.
    constructor; auto. apply (proj1 (Forall_map f (R (f a)) l)) in H2. exact H2.
  - induction l as [|a l IH]; cbn [map]; intros H; [constructor|]. inversion H as [|? ? H1 H2]; subst.
    constructor; auto. apply (proj2 (Forall_map f (R (f a)) l)). auto.
Qed.
Lemma left_ascending : forall l ds, ascending l -> ascending (left_after (setup_indices l) ds).
Proof.
  intros l ds [S F]. split.
  - unfold left_after. apply map_sorted. apply filter_sorted. apply (proj1 (map_sorted _ _ e_bu (fun a b => b_bno a < b_bno b) _)).
    rewrite setup_bu. auto.
  - rewrite Forall_forall in *. intros b Hb. apply F. unfold left_after in Hb. apply in_map_iff in Hb.
    destruct Hb as (e & <- & He). apply filter_In in He. rewrite <- (setup_bu l). apply in_map. tauto.
Qed.
Lemma left_incl : forall es ds, incl (left_after es ds) (map e_bu es).
Proof.
  intros es ds b Hb. unfold left_after in Hb. apply in_map_iff in Hb. destruct Hb as (e & <- & He). apply filter_In in He.
  apply in_map. tauto.
Qed.
Lemma last_bno_unique : forall l b, ascending l -> In b l -> (forall c, In c l -> b_bno c <= b_bno b) -> last_bno l = b_bno b.
Proof.
  intros l b A Hb M. destruct (last_bno_in l) as (z & Hz & E); [intros ->; destruct Hb|].
  pose proof (M z Hz). pose proof (last_bno_max l b (ascending_le l A) Hb). lia.
Qed.
Lemma left_last : forall l ds z, ascending l -> In z l -> b_bno z = last_bno l ->
  In z (left_after (setup_indices l) ds) -> last_bno (left_after (setup_indices l) ds) = last_bno l.
Proof.
  intros l ds z A Hz E H. rewrite <- E. apply last_bno_unique; auto using left_ascending.
  intros c Hc. rewrite E. apply last_bno_max; [apply ascending_le; auto|]. rewrite <- (setup_bu l). apply (left_incl _ ds). auto.
Qed.

(* ---------- C20: dependencies survive ---------- *)

Lemma number_needed : forall m tr i, Forall (fun c => b_hard c = false) m ->
  forall b e, In e (number tr false i (m ++ [b])) -> e_del e = false.
Proof.
  induction m as [|c m IH]; intros tr i F b e H; cbn [app number In] in H.
  - destruct H as [<-|[]]. auto.
  - destruct H as [<-|H]; auto. rewrite (Forall_inv F) in H. eapply IH; eauto. eapply Forall_inv_tail; eauto.
Qed.
Lemma NoDup_split : forall (A : Type) (x y x' y' : list A) a, NoDup (x ++ a :: y) -> x ++ a :: y = x' ++ a :: y' -> x = x' /\ y = y'.
Proof.
  induction x as [|c x IH]; intros y x' y' a N E.
  - destruct x' as [|c' x']; cbn in *; [injection E as ->; auto|]. injection E as -> E. exfalso.
    inversion N; subst. apply H1. apply in_or_app. right; left; auto.
  - destruct x' as [|c' x']; cbn in *.
    + injection E as -> E. exfalso. inversion N; subst. apply H1. apply in_or_app. right; left; auto.
    + injection E as -> E. inversion N; subst. destruct (IH y x' y' a H2 E) as (-> & ->). auto.
Qed.
Lemma ascending_NoDup : forall l, ascending l -> NoDup l.
Proof.
  intros l [S _]. induction S; constructor; auto. intros Hi. rewrite Forall_forall in H. specialize (H a Hi). lia.
Qed.

Lemma left_needs : forall l ds a b, ascending l -> incl ds (setup_indices l) -> Forall (fun e => e_del e = true) ds ->
  In a (left_after (setup_indices l) ds) -> needs l a b -> needs (left_after (setup_indices l) ds) a b.
Proof.
  intros l ds a b A I D Ha (x & m & y & E & F).
  set (p := fun e => negb (gone ds e)).
  assert (Es : setup_indices l = number (s32 (last_bno l)) true 1 x ++
     mkebu a (1 + Z.of_nat (List.length x)) (match rev x with [] => true | b :: _ => b_hard b end) (trbno (s32 (last_bno l)) (b_bno a)) ::
     number (s32 (last_bno l)) false (1 + Z.of_nat (List.length x) + 1) (m ++ [b]) ++
     number (s32 (last_bno l)) (b_hard b) (1 + Z.of_nat (List.length x) + 1 + Z.of_nat (List.length (m ++ [b]))) y).
  { unfold setup_indices. rewrite E at 2. rewrite number_app. f_equal. cbn [number]. f_equal.
    replace (m ++ b :: y) with ((m ++ [b]) ++ y) by (rewrite <- app_assoc; auto).
    rewrite number_app. rewrite (Forall_inv F). f_equal. rewrite rev_app_distr. reflexivity. }
  set (N := number (s32 (last_bno l)) false (1 + Z.of_nat (List.length x) + 1) (m ++ [b])) in *.
  assert (P : filter p N = N).
  { assert (Q : forall e, In e N -> p e = true).
    { intros e He. unfold p. destruct (gone ds e) eqn:G; auto. exfalso.
      assert (In e (setup_indices l)). { rewrite Es. apply in_or_app. right. right. apply in_or_app. left; auto. }
      apply (gone_spec l ds e I H) in G. rewrite Forall_forall in D. specialize (D e G).
      unfold N in He. apply number_needed in He; [congruence|]. eapply Forall_inv_tail; eauto. }
    clear - Q. induction N as [|e N IH]; cbn; auto. rewrite (Q e) by (left; auto). f_equal. apply IH. intros. apply Q. right; auto. }
  assert (L : left_after (setup_indices l) ds = map e_bu (filter p (setup_indices l))) by reflexivity.
  rewrite L in *. rewrite Es in *. rewrite filter_app in *. cbn [filter] in *.
  set (ea := mkebu a _ _ _) in *.
  destruct (p ea) eqn:Pa.
  - rewrite filter_app, P. rewrite map_app. cbn [map]. rewrite map_app. unfold N. rewrite number_bu.
    exists (map e_bu (filter p (number (s32 (last_bno l)) true 1 x))), m,
      (map e_bu (filter p (number (s32 (last_bno l)) (b_hard b) (1 + Z.of_nat (List.length x) + 1 + Z.of_nat (List.length (m ++ [b]))) y))).
    split; auto. rewrite <- (app_assoc m). reflexivity.
  - exfalso. apply in_map_iff in Ha. destruct Ha as (e & Ee & He).
    assert (Nd : NoDup l) by (apply ascending_NoDup; auto).
    assert (e = ea).
    { assert (He' : In e (setup_indices l)).
      { rewrite Es. apply in_app_or in He. destruct He as [He|He]; apply filter_In in He.
        - apply in_or_app. tauto.
        - apply in_or_app. right. right. tauto. }
      assert (Hea : In ea (setup_indices l)) by (rewrite Es; apply in_or_app; right; left; auto).
      clear - Nd He' Hea Ee. unfold setup_indices in *.
      change a with (e_bu ea) in Ee.
      rewrite <- (number_bu l (s32 (last_bno l)) true 1) in Nd. revert Nd He' Hea Ee.
      generalize (number (s32 (last_bno l)) true 1 l). clear. intros es Nd. induction es as [|c es IH]; intros H1 H2 E; [destruct H1|].
      cbn in Nd. inversion Nd; subst. destruct H1 as [->|H1], H2 as [H2|H2]; auto.
      - exfalso. apply H3. rewrite E. apply in_map. auto.
      - exfalso. subst c. apply H3. rewrite <- E. apply in_map. auto. }
    subst e. apply in_app_or in He. destruct He as [He|He]; apply filter_In in He; destruct He as (_ & He); congruence.
Qed.

(* ---------- one pass ---------- *)

Definition wdel (es : list ebu) (s r : Z) : list ebu :=
  if count_range s r es <=? 1 then [] else del_range s r (count_range s r es) (rev es).

Lemma del_range_in : forall l s r c e, In e (del_range s r c l) -> In e l /\ s < e_trbno e < r /\ e_del e = true.
Proof.
  induction l as [|x l IH]; intros s r c e H; [destruct H|]. cbn [del_range] in H.
  destruct ((s <? e_trbno x) && (e_trbno x <? r) && e_del x) eqn:B.
  - destruct H as [<-|H].
    + rewrite !andb_true_iff, !Z.ltb_lt in B. split; [left; auto|tauto].
    + destruct (c - 1 <=? 1); [destruct H|]. apply IH in H. split; [right|]; tauto.
  - apply IH in H. split; [right|]; tauto.
Qed.
Lemma del_range_length : forall l s r c, 1 < c -> Z.of_nat (List.length (del_range s r c l)) <= c - 1.
Proof.
  induction l as [|x l IH]; intros s r c H; cbn [del_range List.length]; [lia|].
  destruct ((s <? e_trbno x) && (e_trbno x <? r) && e_del x); auto.
  cbn [List.length]. destruct (Z.leb_spec (c - 1) 1); [cbn; lia|]. specialize (IH s r (c - 1)). lia.
Qed.
Lemma del_range_nil : forall l s r c, del_range s r c l = [] -> forall e, In e l -> s < e_trbno e < r -> e_del e = false.
Proof.
  induction l as [|x l IH]; intros s r c H e He B; [destruct He|]. cbn [del_range] in H.
  destruct ((s <? e_trbno x) && (e_trbno x <? r) && e_del x) eqn:Bx; [discriminate|].
  destruct He as [<-|He]; eauto. destruct (e_del x); auto.
  replace (s <? e_trbno x) with true in Bx by lia. replace (e_trbno x <? r) with true in Bx by lia. discriminate.
Qed.
Lemma del_range_nil' : forall l s r c, (forall e, In e l -> s < e_trbno e < r -> e_del e = false) -> del_range s r c l = [].
Proof.
  induction l as [|x l IH]; intros s r c H; auto. cbn [del_range].
  destruct ((s <? e_trbno x) && (e_trbno x <? r) && e_del x) eqn:Bx.
  - rewrite !andb_true_iff, !Z.ltb_lt in Bx. rewrite (H x) in Bx; [destruct Bx; discriminate|left; auto|tauto].
  - apply IH. intros; apply H; auto. right; auto.
Qed.
Lemma wdel_in : forall es s r e, In e (wdel es s r) -> In e es /\ s < e_trbno e < r /\ e_del e = true.
Proof.
  intros es s r e H. unfold wdel in H. destruct (count_range s r es <=? 1); [destruct H|].
  apply del_range_in in H. rewrite <- in_rev in H. auto.
Qed.
Definition ebu_dec : forall a b : ebu, {a = b} + {a <> b}.
Proof.
  assert (B : forall a b : bu, {a = b} + {a <> b}).
  { decide equality; try apply Bool.bool_dec; try apply Z.eq_dec; apply (list_eq_dec Z.eq_dec). }
  decide equality; try apply Bool.bool_dec; apply Z.eq_dec.
Defined.
(* Something in the window is left. *)
Lemma wdel_leaves : forall es s r e, NoDup es -> In e es -> s < e_trbno e <= r ->
  exists e', In e' es /\ s < e_trbno e' <= r /\ ~ In e' (wdel es s r).
Proof.
  intros es s r e N He B. unfold wdel. destruct (Z.leb_spec (count_range s r es) 1) as [L|L].
  - exists e. auto.
  - set (D := del_range s r (count_range s r es) (rev es)).
    assert (X : ~ incl (filter (in_range s r) es) D).
    { intros I. pose proof (NoDup_incl_length (NoDup_filter (in_range s r) N) I).
      pose proof (del_range_length (rev es) s r _ L). fold D in H0. unfold count_range in H0. lia. }
    assert (Y : exists e', In e' (filter (in_range s r) es) /\ ~ In e' D).
    { destruct (Exists_dec (fun e' => ~ In e' D) (filter (in_range s r) es)) as [Hx|Hx].
      - intros z. destruct (in_dec ebu_dec z D); [right|left]; tauto.
      - apply Exists_exists in Hx. auto.
      - exfalso. apply X. intros z Hz.
        destruct (in_dec ebu_dec z D) as [Hd|Hd]; auto.
        exfalso. apply Hx. apply Exists_exists. eauto. }
    destruct Y as (e' & H1 & H2). apply filter_In in H1. destruct H1 as (H1 & H3). unfold in_range in H3.
    apply andb_true_iff in H3. exists e'. repeat split; auto; lia.
Qed.

Lemma range_loop_spec : forall f es rmin j, 0 < rmin -> 1 <= j -> rmin * j < 2 ^ 31 -> j - 1 <= Z.of_nat f ->
  exists ds, range_loop f es rmin (rmin * j) = Some ds /\
    forall e, In e ds <-> exists i, 2 <= i <= j /\ In e (wdel es (rmin * (i - 1)) (rmin * i)).
Proof.
  induction f; intros es rmin j Hr Hj Hb Hf.
  - cbn [range_loop]. replace (rmin * j >? rmin) with false by nia. exists []. split; auto.
    intros e. split; [intros []|]. intros (i & X & _). lia.
  - cbn [range_loop]. destruct (Z.gtb_spec (rmin * j) rmin) as [G|G].
    + assert (2 <= j) by nia.
      assert (E : u64 (rmin * j - rmin) = rmin * (j - 1)) by (unfold u64; rewrite Z.mod_small; nia).
      rewrite E. destruct (IHf es rmin (j - 1)) as (ds & E2 & S2); try nia.
      rewrite E2. eexists. split; [reflexivity|]. intros e. rewrite in_app_iff, S2. fold (wdel es (rmin * (j - 1)) (rmin * j)).
      split.
      * intros [X|(i & X & Y)]; [exists j|exists i]; split; auto; lia.
      * intros (i & X & Y). destruct (Z.eq_dec i j) as [->|]; auto. right. exists i. split; auto. lia.
    + exists []. split; auto. intros e. split; [intros []|]. intros (i & X & _). nia.
Qed.

Lemma product_pos : forall ks, Forall (fun k => 0 < k) ks -> 1 <= product ks.
Proof. induction 1; cbn [product]; nia. Qed.

Lemma keeps_loop_spec : forall ks m es, 0 < m -> Forall (fun k => 0 < k) ks -> m * product ks < 2 ^ 31 ->
  exists ds, keeps_loop m ks es = Some (ds, m * product ks) /\
    forall e, In e ds <-> exists s r, window m ks s r /\ In e (wdel es s r).
Proof.
  induction ks as [|k ks IH]; intros m es Hm F B.
  - cbn [keeps_loop product]. exists []. split; [do 2 f_equal; lia|]. intros e. split; [intros []|intros (s & r & [] & _)].
  - pose proof (Forall_inv F) as Hk. pose proof (Forall_inv_tail F) as F'. cbn in Hk. pose proof (product_pos _ F') as Pp.
    cbn [product] in B. cbn [keeps_loop].
    assert (Mk : m * k < 2 ^ 31) by nia.
    assert (E : u64 (m * k) = m * k) by (unfold u64; rewrite Z.mod_small; nia). rewrite E.
    destruct (IH (m * k) es) as (d2 & E2 & S2); auto; try nia. rewrite E2.
    destruct ks as [|k2 ks].
    + exists d2. cbn [product app] in *. split; [do 2 f_equal; nia|]. intros e. rewrite S2. cbn [window].
      split; intros (s & r & [] & _).
    + pose proof (Forall_inv F') as Hk2. cbn in Hk2.
      assert (1 <= product ks) by (apply product_pos; eapply Forall_inv_tail; eauto).
      assert (Mk2 : m * k * k2 < 2 ^ 31) by (cbn [product] in B; nia).
      assert (E3 : u64 (m * k * k2) = m * k * k2) by (unfold u64; rewrite Z.mod_small; nia). rewrite E3.
      destruct (range_loop_spec (Z.to_nat k2) es (m * k) k2) as (d1 & E1 & S1); try nia.
      rewrite E1. exists (d1 ++ d2). split; [do 2 f_equal; cbn [product]; nia|].
      intros e. rewrite in_app_iff, S1, S2. cbn [window]. split.
      * intros [(i & X & Y)|(s & r & X & Y)].
        -- exists (m * k * (i - 1)), (m * k * i). split; auto. left. exists i. auto.
        -- exists s, r. auto.
      * intros (s & r & [(i & X & -> & ->)|X] & Y); [left; eauto|right; eauto].
Qed.

(* Windows do not overlap and lie between the first keep value and the product. *)
Lemma window_bounds : forall ks m s r, 0 < m -> Forall (fun k => 0 < k) ks -> window m ks s r ->
  m * hd 1 ks <= s /\ s < r /\ r <= m * product ks.
Proof.
  induction ks as [|k ks IH]; intros m s r Hm F W; [destruct W|]. destruct ks as [|k2 ks]; [destruct W|].
  pose proof (Forall_inv F) as Hk. pose proof (Forall_inv_tail F) as F'. pose proof (Forall_inv F') as Hk2. cbn in Hk, Hk2.
  pose proof (product_pos _ (Forall_inv_tail F')). change (product (k :: k2 :: ks)) with (k * (k2 * product ks)). cbn [hd].
  change (window m (k :: k2 :: ks) s r) with ((exists j, 2 <= j <= k2 /\ s = m * k * (j - 1) /\ r = m * k * j) \/ window (m * k) (k2 :: ks) s r) in W.
  destruct W as [(j & J & -> & ->)|W].
  - assert (0 < m * k) by nia. set (q := m * k) in *. replace (m * (k * (k2 * product ks))) with (q * (k2 * product ks)) by (unfold q; ring).
    assert (j <= k2 * product ks) by nia. nia.
  - apply IH in W; auto; [|nia]. cbn [hd] in W. change (product (k2 :: ks)) with (k2 * product ks) in W.
    repeat split; try tauto; try nia.
Qed.
Lemma window_disjoint : forall ks m s r s' r' t, 0 < m -> Forall (fun k => 0 < k) ks -> window m ks s r -> window m ks s' r' ->
  s < t <= r -> s' < t <= r' -> s = s' /\ r = r'.
Proof.
  induction ks as [|k ks IH]; intros m s r s' r' t Hm F W W' T T'; [destruct W|]. destruct ks as [|k2 ks]; [destruct W|].
  pose proof (Forall_inv F) as Hk. pose proof (Forall_inv_tail F) as F'. pose proof (Forall_inv F') as Hk2. cbn in Hk, Hk2.
  assert (0 < m * k) by nia.
  assert (U : forall s r, window m (k :: k2 :: ks) s r = ((exists j, 2 <= j <= k2 /\ s = m * k * (j - 1) /\ r = m * k * j) \/ window (m * k) (k2 :: ks) s r)) by reflexivity.
  rewrite U in W, W'.
  destruct W as [(j & J & -> & ->)|W], W' as [(j' & J' & -> & ->)|W'].
  - assert (j = j') by nia. subst; auto.
  - apply window_bounds in W'; auto. cbn [hd] in W'. exfalso. nia.
  - apply window_bounds in W; auto. cbn [hd] in W. exfalso. nia.
  - eapply IH; eauto.
Qed.

(* The oldest. *)
Lemma setup_head : forall l, match setup_indices l with [] => True | e :: r => e_del e = true end.
Proof. destruct l; cbn; auto. Qed.
Lemma setup_sorted : forall l, ascending l -> StronglySorted (fun a b => e_trbno b < e_trbno a) (setup_indices l).
Proof.
  intros l A. pose proof A as [S _]. rewrite <- (setup_bu l) in S. apply (proj1 (map_sorted _ _ e_bu (fun a b => b_bno a < b_bno b) _)) in S.
  assert (Q : forall e, In e (setup_indices l) -> e_trbno e = age l (e_bu e)) by (intros e H; apply setup_age in H; tauto).
  revert S Q. generalize (setup_indices l). intros es S Q. induction S; constructor.
  - apply IHS. intros; apply Q; right; auto.
  - rewrite Forall_forall in *. intros x Hx. specialize (H x Hx).
    rewrite (Q a), (Q x) by (try (left; reflexivity); right; auto). unfold age. lia.
Qed.
Lemma oldest_none : forall m es prevs, Forall (fun e => e_trbno e <= m) es -> oldest m prevs es = [].
Proof.
  induction es as [|e es IH]; intros prevs F; auto. cbn. pose proof (Forall_inv F) as H. cbn in H.
  replace (e_trbno e >? m) with false by lia. apply IH. eapply Forall_inv_tail; eauto.
Qed.
Lemma oldest_spec : forall l m, ascending l ->
  oldest m [] (setup_indices l) = match setup_indices l with [] => [] | e :: _ => if e_trbno e >? m then [e] else [] end.
Proof.
  intros l m A. pose proof (setup_sorted l A) as S. destruct (setup_indices l) as [|e es]; auto.
  cbn [oldest]. destruct (Z.gtb_spec (e_trbno e) m); auto. apply oldest_none.
  inversion S; subst. eapply Forall_impl; [|exact H3]. cbn. intros; lia.
Qed.

Lemma pass_spec : forall ks l, keeps_ok ks -> ascending l ->
  exists ds, do_delete_backups ks (setup_indices l) = Some ds /\
   forall e, In e ds <-> (exists s r, window 1 ks s r /\ In e (wdel (setup_indices l) s r)) \/
      (e_trbno e > product ks /\ exists es, setup_indices l = e :: es).
Proof.
  intros ks l (F & P) A. unfold do_delete_backups.
  destruct (keeps_loop_spec ks 1 (setup_indices l)) as (d & E & S); auto; [lia|lia|].
  rewrite E. eexists. split; [reflexivity|]. intros e. rewrite in_app_iff, S, oldest_spec by auto. rewrite Z.mul_1_l.
  apply or_iff_compat_l. destruct (setup_indices l) as [|x es]; [split; [intros []|intros (_ & es & X); discriminate]|].
  destruct (Z.gtb_spec (e_trbno x) (product ks)).
  - split; [intros [<-|[]]; split; eauto; lia|]. intros (_ & es' & X). injection X as -> ->. left; auto.
  - split; [intros []|]. intros (X & es' & Y). injection Y as -> ->. lia.
Qed.
Lemma pass_in : forall ks l ds e, keeps_ok ks -> ascending l -> do_delete_backups ks (setup_indices l) = Some ds -> In e ds ->
  In e (setup_indices l) /\ e_del e = true /\ hd 1 ks < e_trbno e /\ 1 < e_trbno e.
Proof.
  intros ks l ds e K A E H. destruct (pass_spec ks l K A) as (ds' & E' & S). rewrite E in E'. injection E' as <-.
  pose proof K as (F & _).
  assert (Hh : 1 <= hd 1 ks /\ hd 1 ks <= product ks).
  { destruct ks as [|k ks]; cbn [hd product]; [lia|]. pose proof (Forall_inv F) as X. cbn in X. pose proof (product_pos ks (Forall_inv_tail F)). nia. }
  apply S in H. destruct H as [(s & r & W & H)|(G & es & X)].
  - apply wdel_in in H. apply window_bounds in W; auto; [|lia]. repeat split; try tauto; lia.
  - pose proof (setup_head l) as D. rewrite X in *. repeat split; auto; [left; auto| |]; lia.
Qed.
Lemma pass_incl : forall ks l ds, keeps_ok ks -> ascending l -> do_delete_backups ks (setup_indices l) = Some ds ->
  incl ds (setup_indices l) /\ Forall (fun e => e_del e = true) ds.
Proof.
  intros ks l ds K A E. split; [|apply Forall_forall]; intros e He; apply (pass_in ks l ds e K A E) in He; tauto.
Qed.
Lemma in_setup : forall l b, In b l -> exists e, In e (setup_indices l) /\ e_bu e = b.
Proof. intros l b H. rewrite <- (setup_bu l) in H. apply in_map_iff in H. destruct H as (e & E & He). eauto. Qed.

(* Young backups survive a pass, even one that stops half way. *)
Lemma pass_keeps_young : forall ks l ds ds1 b, keeps_ok ks -> ascending l -> do_delete_backups ks (setup_indices l) = Some ds ->
  incl ds1 ds -> In b l -> age l b <= hd 1 ks \/ age l b = 1 -> In b (left_after (setup_indices l) ds1).
Proof.
  intros ks l ds ds1 b K A E I Hb Y. destruct (pass_incl ks l ds K A E) as (I2 & _).
  destruct (in_setup l b Hb) as (e & He & Ee). apply left_in; [intros z Hz; auto|]. exists e. repeat split; auto.
  intros X. apply I in X. apply (pass_in ks l ds e K A E) in X. destruct (setup_age l e A He) as (_ & T & _). rewrite Ee in T. lia.
Qed.
Lemma pass_last : forall ks l ds ds1, keeps_ok ks -> ascending l -> do_delete_backups ks (setup_indices l) = Some ds ->
  incl ds1 ds -> last_bno (left_after (setup_indices l) ds1) = last_bno l.
Proof.
  intros ks l ds ds1 K A E I. destruct l as [|x l]; [reflexivity|].
  destruct (last_bno_in (x :: l)) as (z & Hz & Ez); [discriminate|].
  eapply left_last; eauto. eapply pass_keeps_young; eauto. right. unfold age. lia.
Qed.
Lemma pass_age : forall ks l ds ds1 b, keeps_ok ks -> ascending l -> do_delete_backups ks (setup_indices l) = Some ds ->
  incl ds1 ds -> age (left_after (setup_indices l) ds1) b = age l b.
Proof. intros. unfold age. erewrite pass_last; eauto. Qed.
(* Something is left in each window. *)
Lemma pass_window : forall ks l ds ds1 s r b, keeps_ok ks -> ascending l -> do_delete_backups ks (setup_indices l) = Some ds ->
  incl ds1 ds -> window 1 ks s r -> In b l -> s < age l b <= r ->
  exists b', In b' (left_after (setup_indices l) ds1) /\ s < age l b' <= r.
Proof.
  intros ks l ds ds1 s r b K A E I W Hb B. destruct (in_setup l b Hb) as (e & He & Ee).
  destruct (setup_age l e A He) as (_ & T & _). rewrite Ee in T.
  destruct (wdel_leaves (setup_indices l) s r e (number_NoDup _ _ _ _) He) as (e' & He' & B' & N); [lia|].
  destruct (setup_age l e' A He') as (_ & T' & _). exists (e_bu e'). split; [|lia].
  destruct (pass_incl ks l ds K A E) as (I2 & _). apply left_in; [intros z Hz; auto|]. exists e'. repeat split; auto.
  intros X. apply I in X. destruct (pass_spec ks l K A) as (ds' & E' & S). rewrite E in E'. injection E' as <-.
  pose proof K as (F & _). apply S in X. destruct X as [(s' & r' & W' & X)|(G & _)].
  - assert (s = s' /\ r = r') as [<- <-]; [|contradiction].
    apply wdel_in in X. eapply (window_disjoint ks 1 s r s' r' (e_trbno e')); eauto; lia.
  - apply window_bounds in W; auto; lia.
Qed.

(* ---------- runs ---------- *)

Theorem run_ascending : forall ks l l', del_run ks l l' -> ascending l -> ascending l'.
Proof. induction 1; intros A; auto using left_ascending. Qed.
Theorem run_needs : forall ks l l', keeps_ok ks -> del_run ks l l' -> ascending l ->
  forall a b, In a l' -> needs l a b -> needs l' a b.
Proof.
  intros ks l l' K H. induction H; intros A a b Ha N.
  - destruct (pass_incl ks l _ K A H) as (I & D). apply left_needs; auto.
    + intros z Hz. apply I. apply in_or_app; auto.
    + apply Forall_app in D. tauto.
  - destruct (pass_incl ks l _ K A H) as (I & D). apply IHdel_run; auto using left_ascending.
    apply left_needs; auto.
    assert (Q : forall l0 l1, del_run ks l0 l1 -> incl l1 l0).
    { clear. induction 1.
      - pose proof (left_incl (setup_indices l) ds1) as X. rewrite setup_bu in X. auto.
      - pose proof (left_incl (setup_indices l) ds) as X. rewrite setup_bu in X. intros z Hz. auto. }
    apply (Q _ _ H1). auto.
Qed.
Theorem run_incl : forall ks l l', del_run ks l l' -> incl l' l.
Proof.
  induction 1.
  - pose proof (left_incl (setup_indices l) ds1) as X. rewrite setup_bu in X. auto.
  - pose proof (left_incl (setup_indices l) ds) as X. rewrite setup_bu in X. intros z Hz. auto.
Qed.
Theorem run_young : forall ks l l', keeps_ok ks -> del_run ks l l' -> ascending l ->
  forall b, In b l -> age l b <= hd 1 ks \/ age l b = 1 -> In b l'.
Proof.
  intros ks l l' K H. induction H; intros A b Hb Y.
  - eapply pass_keeps_young; eauto. apply incl_appl, incl_refl.
  - apply IHdel_run; auto using left_ascending.
    + eapply pass_keeps_young; eauto. apply incl_refl.
    + erewrite pass_age; eauto. apply incl_refl.
Qed.
Theorem run_window : forall ks l l', keeps_ok ks -> del_run ks l l' -> ascending l ->
  forall s r, window 1 ks s r -> (exists b, In b l /\ s < age l b <= r) -> exists b, In b l' /\ s < age l b <= r.
Proof.
  intros ks l l' K H. induction H; intros A s r W (b & Hb & B).
  - eapply pass_window; eauto. apply incl_appl, incl_refl.
  - destruct (pass_window ks l ds ds s r b K A H (incl_refl _) W Hb B) as (b' & Hb' & B').
    destruct (IHdel_run (left_ascending l ds A) s r W) as (c & Hc & C).
    + exists b'. split; auto. erewrite pass_age; eauto. apply incl_refl.
    + exists c. split; auto. erewrite pass_age in C; eauto. apply incl_refl.
Qed.

Lemma left_length : forall l ds, incl ds (setup_indices l) -> ds <> [] ->
  (List.length (left_after (setup_indices l) ds) < List.length l)%nat.
Proof.
  intros l ds I N. unfold left_after. rewrite map_length. rewrite <- (setup_bu l) at 2. rewrite map_length.
  destruct ds as [|d ds]; [contradiction|]. assert (Hd : In d (setup_indices l)) by (apply I; left; auto).
  assert (G : gone (d :: ds) d = true) by (apply (gone_spec l); auto; left; auto).
  revert Hd G. generalize (d :: ds). intros ds'. fold (gone ds'). generalize (setup_indices l). intros es. clear.
  intros Hd G. induction es as [|e es IH]; [destruct Hd|]. cbn [filter List.length].
  assert (Le : (List.length (filter (fun e0 => negb (gone ds' e0)) es) <= List.length es)%nat).
  { clear. induction es; cbn; auto. destruct (negb (gone ds' a)); cbn; lia. }
  destruct Hd as [->|Hd].
  - unfold gone in *. rewrite G. cbn [negb]. lia.
  - specialize (IH Hd). unfold gone in *. destruct (negb _); cbn [List.length]; lia.
Qed.

(* Passes stop, and then there is nothing to delete. *)
Theorem passes_terminate : forall fuel ks l, keeps_ok ks -> ascending l -> (List.length l < fuel)%nat ->
  exists l', delete_backups fuel ks l = Some l' /\ del_run ks l l' /\ do_delete_backups ks (setup_indices l') = Some [].
Proof.
  induction fuel; intros ks l K A L; [lia|]. cbn [delete_backups].
  destruct (pass_spec ks l K A) as (ds & E & S). rewrite E. destruct ds as [|d ds].
  - exists l. split; auto. split; auto.
    assert (X : left_after (setup_indices l) [] = l).
    { unfold left_after. cbn [existsb negb]. rewrite <- (setup_bu l) at 2. f_equal.
      clear. induction (setup_indices l) as [|e es IH]; cbn [filter]; [reflexivity|rewrite IH; reflexivity]. }
    rewrite <- X at 2. apply (run_part ks l [] []). auto.
  - destruct (pass_incl ks l _ K A E) as (I & _).
    destruct (IHfuel ks (left_after (setup_indices l) (d :: ds)) K (left_ascending _ _ A)) as (l' & E' & R & Z).
    + pose proof (left_length l (d :: ds) I ltac:(discriminate)). lia.
    + exists l'. split; auto. split; auto. eapply run_pass; eauto. discriminate.
Qed.

(* What a state without anything to delete looks like. *)
Theorem final_state : forall ks l, keeps_ok ks -> ascending l -> do_delete_backups ks (setup_indices l) = Some [] ->
  (forall b, In b l -> age l b <= product ks) /\
  (forall s r a b, window 1 ks s r -> In a l -> In b l -> a <> b -> s < age l a <= r -> s < age l b < r -> ~ deletable l b).
Proof.
  intros ks l K A E. destruct (pass_spec ks l K A) as (ds & E' & S). rewrite E in E'. injection E' as <-.
  split.
  - intros b Hb. destruct (Z_le_gt_dec (age l b) (product ks)) as [|G]; auto. exfalso.
    destruct (in_setup l b Hb) as (e & He & Ee). destruct (setup_age l e A He) as (_ & T & _). rewrite Ee in T.
    pose proof (setup_sorted l A) as So. destruct (setup_indices l) as [|h es] eqn:X; [destruct He|].
    apply (proj2 (S h)). right. split; [|eauto].
    inversion So; subst. destruct He as [->|He]; [lia|]. rewrite Forall_forall in H2. specialize (H2 e He). cbn in H2. lia.
  - intros s r a b W Ha Hb Nab Ba Bb (x & y & El & D).
    assert (Hd : exists e, In e (setup_indices l) /\ e_bu e = b /\ e_del e = true).
    { assert (Es : setup_indices l = number (s32 (last_bno l)) true 1 (x ++ b :: y)) by (rewrite <- El; reflexivity). rewrite Es, number_app. eexists. split; [apply in_or_app; right; left; reflexivity|].
      cbn [e_bu e_del]. split; auto. destruct D as [->|(x' & c & -> & Hc)]; [reflexivity|]. rewrite rev_app_distr. auto. }
    destruct Hd as (e & He & Ee & De). destruct (setup_age l e A He) as (_ & T & _). rewrite Ee in T.
    destruct (in_setup l a Ha) as (f & Hf & Ef). destruct (setup_age l f A Hf) as (_ & Tf & _). rewrite Ef in Tf.
    assert (Nw : wdel (setup_indices l) s r = []).
    { destruct (wdel (setup_indices l) s r) as [|z zs] eqn:Z; auto. exfalso. apply (proj2 (S z)). left. exists s, r. rewrite Z. split; auto. left; auto. }
    unfold wdel in Nw. destruct (Z.leb_spec (count_range s r (setup_indices l)) 1) as [C|C].
    + assert (Q : (2 <= List.length (filter (in_range s r) (setup_indices l)))%nat); [|unfold count_range in C; lia].
      apply (NoDup_incl_length (l := [e; f])).
      * constructor; [intros [X|[]]; subst; congruence|constructor; [intros []|constructor]].
      * intros z [<-|[<-|[]]]; apply filter_In; split; auto; unfold in_range; apply andb_true_iff; lia.
    + rewrite (del_range_nil _ _ _ _ Nw e) in De; [discriminate|apply in_rev in He; auto|lia].
Qed.

(* ---------- each deletion ---------- *)

Theorem pass_deletable : forall ks l ds e, keeps_ok ks -> ascending l -> do_delete_backups ks (setup_indices l) = Some ds -> In e ds ->
  In (e_bu e) l /\ deletable l (e_bu e).
Proof.
  intros ks l ds e K A E H. destruct (pass_in ks l ds e K A E H) as (I & D & _). split.
  - apply setup_age in I; tauto.
  - apply setup_deletable; auto.
Qed.

(* Manual deletion. *)
Theorem manual_spec : forall backup l,
  match do_delete_server backup l with
  | DelDone e => deletable l (e_bu e) /\ In e (setup_indices l) /\ e_del e = true /\
      (b_timestamp (e_bu e) = backup \/ b_bno (e_bu e) = strtoul10 backup)
  | DelNotDeletable => exists b, In b l /\ (b_timestamp b = backup \/ b_bno b = strtoul10 backup)
  | DelNotFound => forall b, In b l -> b_timestamp b <> backup /\ b_bno b <> strtoul10 backup
  | DelNothing => backup = []
  end.
Proof.
  intros backup l. unfold do_delete_server. destruct backup as [|c r]; auto. set (bk := c :: r).
  assert (G : forall es, incl es (setup_indices l) ->
    match manual_loop bk (strtoul10 bk) es with
    | DelDone e => In e es /\ e_del e = true /\ (b_timestamp (e_bu e) = bk \/ b_bno (e_bu e) = strtoul10 bk)
    | DelNotDeletable => exists b, In b (map e_bu es) /\ (b_timestamp b = bk \/ b_bno b = strtoul10 bk)
    | DelNotFound => forall b, In b (map e_bu es) -> b_timestamp b <> bk /\ b_bno b <> strtoul10 bk
    | DelNothing => False
    end).
  { induction es as [|e es IH]; intros I; cbn [manual_loop]; [intros b []|].
    destruct (beqb (b_timestamp (e_bu e)) bk) eqn:B1; cbn [orb].
    - apply beqb_eq in B1. destruct (e_del e) eqn:D; [split; [left; auto|auto]|]. exists (e_bu e). split; [left; auto|auto].
    - apply beqb_neq in B1. destruct (Z.eqb_spec (b_bno (e_bu e)) (strtoul10 bk)) as [B2|B2].
      + destruct (e_del e) eqn:D; [split; [left; auto|auto]|]. exists (e_bu e). split; [left; auto|auto].
      + specialize (IH (fun z Hz => I z (or_intror Hz))).
        destruct (manual_loop bk (strtoul10 bk) es); auto.
        * destruct IH as (X & Y). split; [right; auto|auto].
        * destruct IH as (b & X & Y). exists b. split; [right; auto|auto].
        * intros b [<-|Hb]; auto. }
  specialize (G (setup_indices l) (incl_refl _)). rewrite setup_bu in G.
  destruct (manual_loop bk (strtoul10 bk) (setup_indices l)); auto; [destruct G|].
  destruct G as (X & Y & Z). repeat split; auto. apply setup_deletable; auto.
Qed.
Theorem manual_needs : forall backup l e, ascending l -> do_delete_server backup l = DelDone e ->
  forall a b, In a (left_after (setup_indices l) [e]) -> needs l a b -> needs (left_after (setup_indices l) [e]) a b.
Proof.
  intros backup l e A E. pose proof (manual_spec backup l) as M. rewrite E in M. destruct M as (_ & I & D & _).
  intros a b Ha N. apply left_needs; auto. intros z [<-|[]]; auto.
Qed.

(* ---------- C23: keep values ---------- *)

Lemma s32_range : forall v, - 2 ^ 31 <= s32 v < 2 ^ 31.
Proof.
  intros v. unfold s32. pose proof (Z.mod_pos_bound v (2 ^ 32)). destruct (Z.ltb_spec (v mod 2 ^ 32) (2 ^ 31)); lia.
Qed.
Lemma atoi_range : forall s, - 2 ^ 31 <= atoi s < 2 ^ 31.
Proof.
  intros s. unfold atoi. destruct (if hd0 (skip_ws s) =? 45 then _ else _) as [neg s'].
  destruct (dec_run s' 0 false); [apply s32_range|lia].
Qed.
Lemma keep_loop_spec : forall l m fs, 0 < m <= 52560000 ->
  keep_loop l m = Some fs <-> fs = map atoi l /\ Forall (fun k => 0 < k) fs /\ m * product fs <= 52560000.
Proof.
  induction l as [|p l IH]; intros m fs Hm; cbn [keep_loop map].
  - split; [intros H; injection H as <-; repeat split; [constructor|cbn; lia]|]. intros (-> & _). auto.
  - pose proof (atoi_range p) as R. destruct (Z.eqb_spec (atoi p) 0) as [Z0|NZ].
    { split; [discriminate|]. intros (-> & F & _). pose proof (Forall_inv F) as X. cbn in X. lia. }
    destruct (Z_lt_le_dec (atoi p) 0) as [Neg|Pos].
    { assert (u64 (m * atoi p) = m * atoi p + 2 ^ 64).
      { unfold u64. symmetry. apply (Z.mod_unique _ _ (-1)); [left; nia|lia]. }
      rewrite H. replace (m * atoi p + 2 ^ 64 >? 52560000) with true by nia.
      split; [discriminate|]. intros (-> & F & _). pose proof (Forall_inv F) as X. cbn in X. lia. }
    assert (E : u64 (m * atoi p) = m * atoi p) by (unfold u64; apply Z.mod_small; nia). rewrite E.
    destruct (Z.gtb_spec (m * atoi p) 52560000) as [G|G].
    { split; [discriminate|]. intros (-> & F & Q). pose proof (product_pos _ (Forall_inv_tail F)). cbn [product] in Q. nia. }
    specialize (IH (m * atoi p)). destruct (keep_loop l (m * atoi p)) as [fs'|].
    + destruct (proj1 (IH fs' ltac:(nia)) eq_refl) as (-> & F' & Q'). split.
      * intros H. injection H as <-. repeat split; auto; [constructor; auto; lia|]. cbn [product]. nia.
      * intros (-> & _). auto.
    + split; [discriminate|]. intros (-> & F & Q). exfalso.
      assert (X : @None (list Z) = Some (map atoi l)); [|discriminate]. apply IH; [nia|]. repeat split; [eapply Forall_inv_tail; eauto|].
      cbn [product] in Q. nia.
Qed.
Definition bumped (fs : list Z) : list Z := match fs with _ :: _ :: _ => removelast fs ++ [List.last fs 0 + 1] | _ => fs end.
Lemma bump_last_eq : forall fs, fs <> [] -> bump_last fs = removelast fs ++ [List.last fs 0 + 1].
Proof.
  induction fs as [|x fs IH]; [congruence|]. intros _. destruct fs as [|y fs]; [reflexivity|].
  cbn [bump_last removelast List.last app] in *. f_equal. apply IH. discriminate.
Qed.
Theorem keep_accepted : forall l ks, finalise_keep_args l = Some ks <->
  Forall (fun p => 0 < atoi p) l /\ product (map atoi l) <= 52560000 /\ ks = bumped (map atoi l).
Proof.
  intros l ks. unfold finalise_keep_args.
  assert (S : forall fs, keep_loop l 1 = Some fs <-> fs = map atoi l /\ Forall (fun k => 0 < k) fs /\ product fs <= 52560000).
  { intros fs. rewrite (keep_loop_spec l 1 fs) by lia. rewrite Z.mul_1_l. tauto. }
  assert (B : (if (1 <? List.length (map atoi l))%nat then bump_last (map atoi l) else map atoi l) = bumped (map atoi l)).
  { generalize (map atoi l). intros [|x [|y r]]; auto. cbn [List.length Nat.ltb Nat.leb]. rewrite bump_last_eq by discriminate. reflexivity. }
  destruct (keep_loop l 1) as [fs|].
  - destruct (proj1 (S fs) eq_refl) as (-> & F & P). rewrite B. split.
    + intros H. injection H as <-. repeat split; auto. apply (proj1 (Forall_map atoi (fun k => 0 < k) l)) in F. auto.
    + intros (_ & _ & ->). auto.
  - split; [discriminate|]. intros (F & P & _). exfalso.
    assert (X : @None (list Z) = Some (map atoi l)); [|discriminate]. apply S. repeat split; auto. apply Forall_map. auto.
Qed.
Lemma product_app : forall a b, product (a ++ b) = product a * product b.
Proof. induction a; intros b; cbn [product app]; [lia|]. rewrite IHa. ring. Qed.
Theorem keep_ok : forall l ks, finalise_keep_args l = Some ks -> keeps_ok ks /\ List.length ks = List.length l /\ hd 1 ks >= hd 1 (map atoi l).
Proof.
  intros l ks H. apply keep_accepted in H. destruct H as (F & P & ->). rewrite <- (map_length atoi l).
  apply (proj2 (Forall_map atoi (fun k => 0 < k) l)) in F. revert F P. generalize (map atoi l). intros fs F P.
  destruct fs as [|x [|y r]]; cbn [bumped].
  - split; [split; [auto|cbn; lia]|]. split; [auto|cbn; lia].
  - split; [split; [auto|lia]|]. split; [auto|cbn [hd]; lia].
  - assert (E : x :: y :: r = removelast (x :: y :: r) ++ [List.last (x :: y :: r) 0]) by (apply app_removelast_last; discriminate).
    set (a := removelast (x :: y :: r)) in *. set (z := List.last (x :: y :: r) 0) in *.
    rewrite E in F, P. apply Forall_app in F. destruct F as (Fa & Fz). assert (Hz : 0 < z) by exact (Forall_inv Fz).
    rewrite product_app in P. cbn [product] in P. pose proof (product_pos a Fa).
    split; [split|split].
    + apply Forall_app. split; auto. constructor; [lia|constructor].
    + rewrite product_app. cbn [product]. nia.
    + rewrite E, !app_length. reflexivity.
    + unfold a. cbn [removelast]. cbn [app hd]. lia.
Qed.

(* ---------- C21: numbers with gaps ---------- *)

(* One of the newest k: fewer than k backups are newer. *)
Definition among_newest (k : Z) (l : list bu) (b : bu) : Prop :=
  exists x y, l = x ++ b :: y /\ Z.of_nat (List.length y) < k.
Definition gap_list : list bu :=
  [mkbu (str "0000001 x") (str "0000001 x") 1 false; mkbu (str "0000010 y") (str "0000010 y") 10 false].
Lemma gap_ascending : ascending gap_list.
Proof.
  split.
  - constructor; [constructor; [constructor|constructor]|]. constructor; [|constructor]. reflexivity.
  - constructor; [cbn; lia|constructor; [cbn; lia|constructor]].
Qed.
Theorem newest_kept_refuted : exists ks l l' b, keeps_ok ks /\ ascending l /\ delete_backups 5 ks l = Some l' /\
  among_newest (hd 1 ks) l b /\ ~ In b l'.
Proof.
  exists [3], gap_list, [mkbu (str "0000010 y") (str "0000010 y") 10 false], (mkbu (str "0000001 x") (str "0000001 x") 1 false).
  split. { split; [constructor; [lia|constructor]|cbn; lia]. }
  split; [apply gap_ascending|]. split; [reflexivity|]. split.
  - exists [], [mkbu (str "0000010 y") (str "0000010 y") 10 false]. split; [reflexivity|]. cbn. lia.
  - intros [H|[]]. discriminate.
Qed.
(* Without gaps it holds. *)
Definition no_gaps (l : list bu) : Prop := forall x a b y, l = x ++ a :: b :: y -> b_bno b = b_bno a + 1.
Lemma no_gaps_age : forall y x b l, ascending l -> no_gaps l -> l = x ++ b :: y -> age l b = Z.of_nat (List.length y) + 1.
Proof.
  induction y as [|c y IH]; intros x b l A N E.
  - unfold age. rewrite E. unfold last_bno. rewrite rev_app_distr. cbn. lia.
  - assert (X : age l c = Z.of_nat (List.length y) + 1).
    { apply (IH (x ++ [b]) c l); auto. rewrite <- app_assoc. auto. }
    pose proof (N _ _ _ _ E). unfold age in *. cbn [List.length]. lia.
Qed.
Theorem newest_kept : forall ks l l' b, keeps_ok ks -> del_run ks l l' -> ascending l -> no_gaps l ->
  among_newest (hd 1 ks) l b -> In b l'.
Proof.
  intros ks l l' b K R A N (x & y & E & L). apply (run_young ks l l' K R A).
  - rewrite E. apply in_or_app. right; left; auto.
  - left. rewrite (no_gaps_age y x b l A N E). lia.
Qed.
