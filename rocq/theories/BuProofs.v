(* Specification and proofs about the list of backups (C24). *)
From Coq Require Import Sorted.
From Verif Require Import Bytes FrameModel DpthModel BuModel.

(* ---------- Specification ---------- *)

(* Order of names as given by strcmp(). *)
Inductive lex_lt : bytes -> bytes -> Prop :=
| lex_nil : forall y b, lex_lt [] (y :: b)
| lex_head : forall x y a b, x < y -> lex_lt (x :: a) (y :: b)
| lex_tail : forall x a b, lex_lt a b -> lex_lt (x :: a) (x :: b).
Definition lex_le (a b : bytes) : Prop := a = b \/ lex_lt a b.

(* n in k decimal digits, zero padded. *)
Fixpoint padded (k : nat) (n : Z) : bytes :=
  match k with O => [] | S k' => padded k' (n / 10) ++ [48 + n mod 10] end.

(* A directory name that starts with number n. *)
Definition named (name : bytes) (n : Z) : Prop :=
  0 < n < 10 ^ 7 /\ exists rest, name = padded 7 n ++ 32 :: rest.

(* Which directories are backups. *)
Definition is_backup (work fin cur : bytes) (d : dent) : Prop :=
  isdigit (hd0 (d_name d)) = true /\
  (d_name d = cur \/ (d_name d <> work /\ d_name d <> fin)) /\
  d_isdir d = true /\ exists t, d_stamp d = Some t /\ firstn 8 t = firstn 8 (d_name d).

(* ---------- digits ---------- *)

Definition digits (ds : bytes) : Prop := Forall (fun c => 48 <= c <= 57) ds.
Fixpoint val (ds : bytes) (v : Z) : Z := match ds with [] => v | c :: r => val r (v * 10 + (c - 48)) end.

Lemma val_shift : forall ds v, val ds v = v * 10 ^ Z.of_nat (List.length ds) + val ds 0.
Proof.
  induction ds as [|c ds IH]; intros v.
  - cbn. lia.
  - cbn [val List.length]. rewrite Nat2Z.inj_succ, Z.pow_succ_r by lia.
    rewrite (IH (v * 10 + (c - 48))), (IH (0 * 10 + (c - 48))). lia.
Qed.
Lemma val_range : forall ds, digits ds -> 0 <= val ds 0 < 10 ^ Z.of_nat (List.length ds).
Proof.
  induction ds as [|c ds IH]; intros H.
  - cbn. lia.
  - pose proof (Forall_inv H) as Hc. pose proof (IH (Forall_inv_tail H)) as I. cbn in Hc.
    cbn [val List.length]. rewrite val_shift, Nat2Z.inj_succ, Z.pow_succ_r by lia. nia.
Qed.
Lemma lex_digits : forall a b x y, digits a -> digits b -> List.length a = List.length b ->
  lex_lt (a ++ x) (b ++ y) -> val a 0 <= val b 0.
Proof.
  induction a as [|c a IH]; intros b x y Da Db L H; destruct b as [|d b]; try discriminate.
  pose proof (Forall_inv Da) as Hc. pose proof (Forall_inv Db) as Hd. cbn in Hc, Hd.
  pose proof (val_range a (Forall_inv_tail Da)). pose proof (val_range b (Forall_inv_tail Db)).
  cbn [List.length] in L. injection L as L. cbn [val]. rewrite (val_shift a), (val_shift b), L in *.
  cbn [app] in H. inversion H; subst.
  - set (P := 10 ^ Z.of_nat (List.length b)) in *. nia.
  - assert (val a 0 <= val b 0); [|lia]. eapply IH; eauto; eapply Forall_inv_tail; eauto.
Qed.
Lemma dec_run_digits : forall ds v any c r, digits ds -> isdigit c = false -> ds <> [] \/ any = true ->
  dec_run (ds ++ c :: r) v any = Some (val ds v).
Proof.
  induction ds as [|d ds IH]; intros v any c r D Hc Hn.
  - cbn. rewrite Hc. destruct Hn as [Hn|Hn]; [contradiction|subst; auto].
  - pose proof (Forall_inv D) as Hd. cbn in Hd. cbn [app dec_run val].
    replace (isdigit d) with true by (unfold isdigit; symmetry; apply andb_true_iff; lia).
    apply IH; auto. eapply Forall_inv_tail; eauto.
Qed.

Lemma padded_length : forall k n, List.length (padded k n) = k.
Proof. induction k; intros n; cbn; auto. rewrite app_length, IHk. cbn. lia. Qed.
Lemma padded_digits : forall k n, digits (padded k n).
Proof.
  induction k; intros n; cbn; [constructor|]. apply Forall_app. split; [apply IHk|].
  constructor; [|constructor]. pose proof (Z.mod_pos_bound n 10). lia.
Qed.
Lemma val_app : forall a b v, val (a ++ b) v = val b (val a v).
Proof. induction a; intros; cbn; auto. Qed.
Lemma val_padded : forall k n, 0 <= n < 10 ^ Z.of_nat k -> val (padded k n) 0 = n.
Proof.
  induction k; intros n H.
  - cbn in *. lia.
  - cbn [padded]. rewrite val_app. cbn [val]. rewrite Nat2Z.inj_succ, Z.pow_succ_r in H by lia.
    rewrite IHk. { pose proof (Z.div_mod n 10). lia. }
    split; [apply Z.div_pos; lia|apply Z.div_lt_upper_bound; lia].
Qed.

Lemma skip_ws_digit : forall c r, 48 <= c <= 57 -> skip_ws (c :: r) = c :: r.
Proof.
  intros c r H. cbn. unfold isspace.
  replace (9 <=? c) with true by lia. replace (c <=? 13) with false by lia. replace (c =? 32) with false by lia. reflexivity.
Qed.

Lemma strtoul_padded : forall n rest, 0 <= n < 10 ^ 7 -> strtoul10 (padded 7 n ++ 32 :: rest) = n.
Proof.
  intros n rest H. unfold strtoul10.
  pose proof (padded_digits 7 n) as D. pose proof (val_padded 7 n H) as V. pose proof (padded_length 7 n) as L.
  destruct (padded 7 n) as [|c r] eqn:E; [discriminate|].
  pose proof (Forall_inv D) as Hc. cbn in Hc. change ((c :: r) ++ 32 :: rest) with (c :: (r ++ 32 :: rest)).
  rewrite skip_ws_digit by auto. cbn [hd0].
  replace (c =? 45) with false by lia. replace (c =? 43) with false by lia.
  change (c :: r ++ 32 :: rest) with ((c :: r) ++ 32 :: rest).
  rewrite dec_run_digits; auto; [|left; discriminate]. rewrite V.
  replace (2 ^ 64 <=? n) with false; auto. symmetry. apply Z.leb_gt. lia.
Qed.

Lemma dec_digits_spec : forall k f n acc, 0 <= n < 10 ^ Z.of_nat (S k) -> (S k <= f)%nat ->
  exists d, dec_digits f n acc = d ++ acc /\ (1 <= List.length d <= S k)%nat /\
    repeat 48 (S k - List.length d) ++ d = padded (S k) n.
Proof.
  induction k; intros f n acc H Hf; (destruct f as [|f]; [lia|]); cbn [dec_digits].
  - change (10 ^ Z.of_nat 1) with 10 in H. replace (n / 10 =? 0) with true.
    2:{ symmetry. apply Z.eqb_eq. apply Z.div_small. lia. }
    exists [48 + n mod 10]. cbn. repeat split; auto.
  - destruct (Z.eqb_spec (n / 10) 0) as [E|E].
    + exists [48 + n mod 10]. split; auto. split; [cbn; lia|].
      assert (Z0 : forall j, padded j 0 = repeat 48 j).
      { induction j; cbn; auto. change (0 / 10) with 0. rewrite IHj. change (48 + 0 mod 10) with 48.
        symmetry. apply repeat_cons. }
      cbn [List.length]. replace (S (S k) - 1)%nat with (S k) by lia. rewrite <- (Z0 (S k)), <- E. reflexivity.
    + rewrite Nat2Z.inj_succ, Z.pow_succ_r in H by lia.
      destruct (IHk f (n / 10) (48 + n mod 10 :: acc)) as (d & E1 & L & P); [|lia|].
      { split; [apply Z.div_pos; lia|apply Z.div_lt_upper_bound; lia]. }
      exists (d ++ [48 + n mod 10]). rewrite E1. rewrite <- app_assoc. split; auto.
      rewrite app_length. cbn [List.length]. split; [lia|].
      replace (S (S k) - (List.length d + 1))%nat with (S k - List.length d)%nat by lia.
      rewrite app_assoc, P. reflexivity.
Qed.
Lemma fmt_07u_padded : forall n, 0 <= n < 10 ^ 7 -> fmt_07u n = padded 7 n.
Proof.
  intros n H. unfold fmt_07u, u64. rewrite Z.mod_small by lia.
  destruct (dec_digits_spec 6 20 n []) as (d & E & L & P); [exact H|lia|].
  rewrite E, app_nil_r. exact P.
Qed.

(* ---------- the list ---------- *)

Definition ent (work fin cur : bytes) (d : dent) : list bu := one_ent work fin cur [] d.
Lemma one_ent_app : forall w f c l d, one_ent w f c l d = ent w f c d ++ l.
Proof.
  intros w f c l d. unfold ent, one_ent, maybe_add_ent.
  destruct (negb (isdigit (hd0 (d_name d)))); auto.
  destruct (negb (d_isdir d)), (d_stamp d) as [b|], (beqb (d_name d) c), (beqb (d_name d) w), (beqb (d_name d) f); auto;
  destruct (negb (beqb (strn 8 b) (strn 8 (d_name d)))); auto.
Qed.
Lemma get_list_eq : forall w f c dp, get_list w f c dp = flat_map (ent w f c) dp.
Proof.
  intros w f c dp. unfold get_list.
  induction dp as [|d dp IH]; cbn [rev flat_map]; auto. rewrite fold_left_app. cbn [fold_left]. rewrite one_ent_app, IH. auto.
Qed.
Lemma ent_spec : forall w f c d b, In b (ent w f c d) <->
  is_backup w f c d /\ exists t, d_stamp d = Some t /\ b = mkbu (d_name d) t (strtoul10 t) (d_hard d).
Proof.
  intros w f c d b. unfold ent, one_ent, is_backup.
  assert (M : In b (maybe_add_ent d []) <-> d_isdir d = true /\ exists t, d_stamp d = Some t /\ firstn 8 t = firstn 8 (d_name d) /\
     b = mkbu (d_name d) t (strtoul10 t) (d_hard d)).
  { unfold maybe_add_ent. destruct (d_isdir d); cbn [negb]; [|cbn; intuition discriminate].
    destruct (d_stamp d) as [t|]; [|cbn; split; [tauto|intros (_ & t & H & _); discriminate]].
    unfold strn. destruct (beqb (firstn 8 t) (firstn 8 (d_name d))) eqn:E; cbn [negb].
    - apply beqb_eq in E. cbn [In]. split.
      + intros [H|[]]. split; auto. exists t. auto.
      + intros (_ & t' & H & _ & ->). injection H as <-. auto.
    - apply beqb_neq in E. cbn. split; [tauto|]. intros (_ & t' & H & H2 & _). injection H as <-. contradiction. }
  destruct (isdigit (hd0 (d_name d))); cbn [negb]; [|cbn; split; [tauto|intros ((H & _) & _); discriminate]].
  assert (X : forall P : Prop, (P -> In b (maybe_add_ent d []) <-> ((true = true /\ P /\ d_isdir d = true /\ (exists t, d_stamp d = Some t /\ firstn 8 t = firstn 8 (d_name d))) /\ exists t, d_stamp d = Some t /\ b = mkbu (d_name d) t (strtoul10 t) (d_hard d)))).
  { intros P HP. rewrite M. split.
    - intros (A & t & B & C & D). split; [|eauto]. repeat split; auto. eauto.
    - intros ((_ & _ & A & t & B & C) & t' & B' & D). rewrite B in B'. injection B' as <-. split; auto. exists t. auto. }
  destruct (beqb (d_name d) c) eqn:Ec; [apply beqb_eq in Ec; apply X; auto|]. apply beqb_neq in Ec.
  destruct (beqb (d_name d) w) eqn:Ew; [apply beqb_eq in Ew; cbn; split; [tauto|intros ((_ & [H|[H _]] & _) & _); contradiction]|].
  apply beqb_neq in Ew.
  destruct (beqb (d_name d) f) eqn:Ef; [apply beqb_eq in Ef; cbn; split; [tauto|intros ((_ & [H|[_ H]] & _) & _); contradiction]|].
  apply beqb_neq in Ef. apply X. auto.
Qed.

(* Exactly the backups are listed. *)
Theorem list_complete : forall w f c dp b, In b (get_list w f c dp) <->
  exists d t, In d dp /\ is_backup w f c d /\ d_stamp d = Some t /\ b = mkbu (d_name d) t (strtoul10 t) (d_hard d).
Proof.
  intros. rewrite get_list_eq, in_flat_map. split.
  - intros (d & Hd & H). apply ent_spec in H. destruct H as (A & t & B & C). eauto 8.
  - intros (d & t & Hd & A & B & C). exists d. split; auto. apply ent_spec. eauto.
Qed.

(* The number of a listed backup is the number its name starts with. *)
Lemma ent_bno : forall w f c d b n, In b (ent w f c d) -> named (d_name d) n -> b_bno b = n /\ b_name b = d_name d.
Proof.
  intros w f c d b n H N. apply ent_spec in H. destruct H as ((_ & _ & _ & t & E & F) & t' & E' & ->).
  rewrite E in E'. injection E' as <-. cbn. split; auto.
  destruct N as (R & rest & Nm). rewrite Nm in F.
  assert (P8 : firstn 8 (padded 7 n ++ 32 :: rest) = padded 7 n ++ [32]).
  { rewrite firstn_app, padded_length, firstn_all2 by (rewrite padded_length; lia). reflexivity. }
  rewrite P8 in F. rewrite <- (firstn_skipn 8 t), F, <- app_assoc. cbn [app]. apply strtoul_padded. lia.
Qed.

Lemma named_order : forall a b n m, named a n -> named b m -> lex_le a b -> n <= m.
Proof.
  intros a b n m (Hn & x & ->) (Hm & y & ->) H.
  assert (val (padded 7 n) 0 <= val (padded 7 m) 0).
  { destruct H as [H|H].
    - assert (X : forall j (u v : bytes), firstn 7 (padded 7 j ++ u) = padded 7 j).
      { intros. rewrite firstn_app, padded_length, firstn_all2 by (rewrite padded_length; lia).
        cbn [Nat.sub firstn]. apply app_nil_r. }
      rewrite <- (X n (32 :: x) []), <- (X m (32 :: y) []), H. lia.
    - eapply lex_digits; eauto using padded_digits. }
  rewrite !val_padded in H0 by (cbn; lia). lia.
Qed.

(* Oldest first. *)
Theorem list_sorted : forall w f c dp,
  StronglySorted lex_le (map d_name dp) ->
  (forall d, In d dp -> isdigit (hd0 (d_name d)) = true -> exists n, named (d_name d) n) ->
  StronglySorted (fun a b => b_bno a <= b_bno b) (get_list w f c dp) /\
  Forall (fun b => named (b_name b) (b_bno b)) (get_list w f c dp).
Proof.
  intros w f c dp So Hn. rewrite get_list_eq.
  assert (All : forall dp, (forall d, In d dp -> isdigit (hd0 (d_name d)) = true -> exists n, named (d_name d) n) ->
    forall b, In b (flat_map (ent w f c) dp) -> exists d, In d dp /\ named (d_name d) (b_bno b) /\ b_name b = d_name d).
  { intros dp' Hn' b Hb. apply in_flat_map in Hb. destruct Hb as (d & Hd & Hb). exists d. split; auto.
    pose proof Hb as Hb'. apply ent_spec in Hb'. destruct Hb' as ((Hdig & _) & _).
    destruct (Hn' d Hd Hdig) as (n & N). destruct (ent_bno _ _ _ _ _ _ Hb N) as (E1 & E2). rewrite E1. auto. }
  split.
  - induction dp as [|d dp IH]; cbn; [constructor|].
    cbn [map] in So. inversion So as [|? ? So' Fd]; subst.
    assert (IH' : StronglySorted (fun a b => b_bno a <= b_bno b) (flat_map (ent w f c) dp)).
    { apply IH; auto. intros. apply Hn; auto. right; auto. }
    assert (L1 : exists o, ent w f c d = match o with Some b => [b] | None => [] end).
    { unfold ent, one_ent, maybe_add_ent.
      destruct (isdigit (hd0 (d_name d))), (beqb (d_name d) c), (beqb (d_name d) w), (beqb (d_name d) f), (d_isdir d), (d_stamp d) as [t|]; cbn [negb];
        try (exists None; reflexivity); destruct (beqb (strn 8 t) (strn 8 (d_name d))); cbn [negb];
        try (exists None; reflexivity); eexists (Some _); reflexivity. }
    destruct L1 as (o & Eo). rewrite Eo. destruct o as [b|]; cbn; auto.
    constructor; auto. apply Forall_forall. intros x Hx.
    destruct (All dp) with (b := x) as (dx & Hdx & Nx & _); auto. { intros; apply Hn; auto; right; auto. }
    assert (Hb : In b (ent w f c d)) by (rewrite Eo; left; auto).
    pose proof Hb as Hb'. apply ent_spec in Hb'. destruct Hb' as ((Hdig & _) & _).
    destruct (Hn d (or_introl eq_refl) Hdig) as (n & N). destruct (ent_bno _ _ _ _ _ _ Hb N) as (-> & _).
    eapply named_order; eauto. rewrite Forall_forall in Fd. apply Fd. apply in_map. auto.
  - apply Forall_forall. intros b Hb. destruct (All dp Hn b Hb) as (d & _ & N & ->). auto.
Qed.

(* ---------- numbering ---------- *)

Lemma number_nth : forall l tr ph i k d b, nth_error l k = Some b ->
  nth_error (number tr ph i l) k = Some (mkebu b (i + Z.of_nat k)
     (match k with O => ph | S j => b_hard (nth j l d) end) (trbno tr (b_bno b))).
Proof.
  induction l as [|x l IH]; intros tr ph i k d b H; [destruct k; discriminate|].
  destruct k as [|k]; cbn [nth_error number] in *.
  - injection H as ->. do 2 f_equal. lia.
  - rewrite (IH tr (b_hard x) (i + 1) k d b H). do 2 f_equal; [lia|]. destruct k; cbn; auto.
Qed.
Lemma number_length : forall l tr ph i, List.length (number tr ph i l) = List.length l.
Proof. induction l; intros; cbn; auto. Qed.

Definition ascending (l : list bu) : Prop :=
  StronglySorted (fun a b => b_bno a < b_bno b) l /\ Forall (fun b => 0 < b_bno b < 2 ^ 31) l.

Lemma last_bno_max : forall l b, StronglySorted (fun a b => b_bno a <= b_bno b) l -> In b l -> b_bno b <= last_bno l.
Proof.
  intros l. induction l as [|x l IH] using rev_ind; intros b So H; [destruct H|].
  unfold last_bno. rewrite rev_app_distr. cbn.
  apply in_app_or in H. destruct H as [H|[<-|[]]]; [|lia].
  clear IH. induction l as [|y l IH]; [destruct H|].
  cbn in So. inversion So as [|? ? So' Fy]; subst. destruct H as [<-|H]; auto.
  rewrite Forall_forall in Fy. apply Fy. apply in_or_app. right; left; auto.
Qed.
Lemma ascending_le : forall l, ascending l -> StronglySorted (fun a b => b_bno a <= b_bno b) l.
Proof.
  intros l [S _]. induction S; constructor; auto. eapply Forall_impl; [|exact H]. cbn. intros; lia.
Qed.
Lemma last_bno_in : forall l, l <> [] -> exists b, In b l /\ b_bno b = last_bno l.
Proof.
  intros l H. destruct (exists_last H) as (l' & b & ->). exists b. unfold last_bno. rewrite rev_app_distr. cbn.
  split; auto. apply in_or_app. right; left; auto.
Qed.
Lemma trbno_exact : forall l b, ascending l -> In b l -> trbno (s32 (last_bno l)) (b_bno b) = last_bno l - b_bno b + 1.
Proof.
  intros l b A Hb. assert (Nl : l <> []) by (intros ->; destruct Hb).
  destruct (last_bno_in l Nl) as (z & Hz & Ez). pose proof A as [_ F]. rewrite Forall_forall in F.
  pose proof (F z Hz). pose proof (F b Hb). pose proof (last_bno_max l b (ascending_le l A) Hb).
  assert (S : s32 (last_bno l) = last_bno l).
  { unfold s32. rewrite Z.mod_small by lia. replace (last_bno l <? 2 ^ 31) with true by lia. auto. }
  rewrite S. unfold trbno. replace (last_bno l =? 0) with false by lia. unfold u64. apply Z.mod_small. lia.
Qed.

(* Position k counts from 1; age is the distance to the newest number, plus 1;
   deletable are the oldest and those whose older neighbour is hard-linked. *)
Theorem numbering : forall l k b d, ascending l -> nth_error l k = Some b ->
  nth_error (setup_indices l) k = Some (mkebu b (Z.of_nat k + 1)
     (match k with O => true | S j => b_hard (nth j l d) end) (last_bno l - b_bno b + 1)) /\
  1 <= last_bno l - b_bno b + 1 /\ (S k = List.length l -> last_bno l - b_bno b + 1 = 1).
Proof.
  intros l k b d A H. unfold setup_indices. rewrite (number_nth l _ _ _ k d b H).
  assert (Hb : In b l) by (eapply nth_error_In; eauto).
  rewrite trbno_exact by auto. pose proof (last_bno_max l b (ascending_le l A) Hb).
  split; [do 2 f_equal; lia|]. split; [lia|]. intros Hk.
  assert (last_bno l = b_bno b); [|lia].
  destruct l as [|x l] using rev_ind; [destruct k; discriminate|]. rewrite app_length in Hk. cbn in Hk.
  rewrite nth_error_app2 in H by lia. replace (k - List.length l)%nat with 0%nat in H by lia. cbn in H. injection H as <-.
  unfold last_bno. rewrite rev_app_distr. reflexivity.
Qed.

(* A new backup gets a number above all listed ones. *)
Theorem new_bno_greater : forall l, ascending l ->
  (forall b, In b l -> b_bno b < get_new_bno l) /\ get_new_bno l = last_bno l + 1 /\ 0 < get_new_bno l.
Proof.
  intros l A.
  assert (R : 0 <= last_bno l < 2 ^ 31).
  { destruct l as [|x l]; [cbn; lia|]. destruct (last_bno_in (x :: l)) as (z & Hz & <-); [discriminate|].
    destruct A as [_ F]. rewrite Forall_forall in F. specialize (F z Hz). lia. }
  assert (E : get_new_bno l = last_bno l + 1) by (unfold get_new_bno, u64; apply Z.mod_small; lia).
  rewrite E. split; [|lia]. intros b Hb. pose proof (last_bno_max l b (ascending_le l A) Hb). lia.
Qed.

(* Its directory name sorts after all of them. *)
Lemma lex_padded : forall k a b x y, 0 <= a < 10 ^ Z.of_nat k -> 0 <= b < 10 ^ Z.of_nat k -> a < b ->
  lex_lt (padded k a ++ x) (padded k b ++ y).
Proof.
  induction k; intros a b x y Ha Hb H.
  - cbn in *. lia.
  - rewrite Nat2Z.inj_succ, Z.pow_succ_r in Ha, Hb by lia. cbn [padded]. rewrite <- !app_assoc. cbn [app].
    destruct (Z_lt_le_dec (a / 10) (b / 10)) as [L|L].
    + apply IHk; auto; (split; [apply Z.div_pos; lia|apply Z.div_lt_upper_bound; lia]).
    + assert (a / 10 = b / 10) by (pose proof (Z.div_le_mono a b 10); lia).
      rewrite H0. pose proof (Z.div_mod a 10). pose proof (Z.div_mod b 10).
      assert (Hm : a mod 10 < b mod 10) by lia.
      clear - Hm. induction (padded k (b / 10)); cbn [app]; [apply lex_head; lia|apply lex_tail; auto].
Qed.
Theorem new_name_last : forall l date, ascending l -> Forall (fun b => named (b_name b) (b_bno b)) l ->
  get_new_bno l < 10 ^ 7 ->
  forall b, In b l -> lex_lt (b_name b) (timestamp_buf (get_new_bno l) date).
Proof.
  intros l date A N R b Hb. destruct (new_bno_greater l A) as (G & E & P). specialize (G b Hb).
  rewrite Forall_forall in N. destruct (N b Hb) as (Rb & rest & ->).
  unfold timestamp_buf. replace (get_new_bno l =? 0) with false by lia. cbn [negb].
  rewrite fmt_07u_padded by lia. apply lex_padded; cbn; lia.
Qed.

(* From 10,000,000 on the order breaks and numbers are reused. *)
Definition big_dir (n : String.string) : dent := mkdent (str n) true (Some (str n)) false.
Theorem list_sorted_refuted : exists dp,
  StronglySorted lex_le (map d_name dp) /\
  (forall d, In d dp -> exists n rest, 0 < n /\ d_name d = fmt_07u n ++ 32 :: rest) /\
  ~ StronglySorted (fun a b => b_bno a <= b_bno b) (get_list [] [] [] dp) /\
  exists b, In b (get_list [] [] [] dp) /\ b_bno b = get_new_bno (get_list [] [] [] dp).
Proof.
  exists [big_dir "10000000 x"; big_dir "9999999 x"].
  split. { cbn [map big_dir d_name]. constructor; [constructor; [constructor|constructor]|]. constructor; [|constructor].
           right. apply lex_head. reflexivity. }
  split. { intros d [<-|[<-|[]]]; [exists 10000000, [120]|exists 9999999, [120]]; split; try lia; reflexivity. }
  split. { intros H. inversion H as [|? ? _ F]. pose proof (Forall_inv F) as X. vm_compute in X. congruence. }
  exists (mkbu (str "10000000 x") (str "10000000 x") 10000000 false). split; [left; reflexivity|reflexivity].
Qed.

(* Backups with distinct numbers are strictly ascending. *)
Lemma sorted_ascending : forall l, StronglySorted (fun a b => b_bno a <= b_bno b) l -> NoDup (map b_bno l) ->
  Forall (fun b => 0 < b_bno b < 2 ^ 31) l -> ascending l.
Proof.
  intros l S N F. split; auto. clear F. induction S; constructor; inversion N; subst; auto.
  rewrite Forall_forall in *. intros x Hx. specialize (H x Hx).
  assert (b_bno x <> b_bno a); [|lia]. intros E. apply H2. rewrite <- E. apply in_map. auto.
Qed.
Theorem list_ascending : forall w f c dp,
  StronglySorted lex_le (map d_name dp) ->
  (forall d, In d dp -> isdigit (hd0 (d_name d)) = true -> exists n, named (d_name d) n) ->
  NoDup (map b_bno (get_list w f c dp)) -> ascending (get_list w f c dp).
Proof.
  intros w f c dp S H N. destruct (list_sorted w f c dp S H) as (A & B). apply sorted_ascending; auto.
  eapply Forall_impl; [|exact B]. cbn. intros b (R & _). lia.
Qed.
