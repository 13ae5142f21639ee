(* What the server says beforehand about a restore, and which backups others do not
   need: specification and proofs. *)
From Verif Require Import Bytes FrameModel DpthModel BuModel BuProofs CmdModel RestoreModel LinkModel.
From Verif Require Import CntrProofs CntrSumProofs DeleteModel DeleteProofs.
From Verif Require Import HlsModel HlsProofs EstModel.
From Coq Require Import Lia.

(* ---- specification ---- *)
(* How many of these are of one kind. *)
Definition of_kind (c : Z) (l : list ent) : Z := Z.of_nat (List.length (filter (fun e => e_cmd e =? c) l)).
(* The sum of their sizes; None: no data of its own. *)
Definition size_sum (size : ent -> option Z) (l : list ent) : Z :=
  fold_right (fun e s => match size e with Some n => n | None => 0 end + s) 0 l.
(* What is noted at the end of the data is its size, and a checksum. *)
Definition noted (size : ent -> option Z) (endfile : ent -> option bytes) : Prop :=
  forall e, match size e with
            | None => endfile e = None
            | Some n => is_u64 n /\ exists md5, endfile e = Some (get_endfile_str n md5)
            end.
Definition known (l : list ent) : Prop := Forall (fun e => In (e_cmd e) rows) l.

(* ---- proofs ---- *)
Lemma strtoul_fmt_colon : forall n m, is_u64 n -> strtoul10 (CntrModel.fmt_u n ++ 58 :: m) = n.
Proof.
  intros n m H. rewrite <- (strtoul_fmt n H) at 2. destruct (fmt_u_spec n H) as (D & L & _).
  destruct (CntrModel.fmt_u n) as [|c r] eqn:E; [cbn in L; lia|].
  pose proof (Forall_inv D) as Hc. cbn in Hc. unfold strtoul10. cbn [app].
  rewrite !skip_ws_digit by auto. cbn [hd0].
  replace (c =? 45) with false by lia. replace (c =? 43) with false by lia.
  replace (dec_run (c :: r ++ 58 :: m) 0 false) with (dec_run (c :: r) 0 false); auto.
  change (c :: r ++ 58 :: m) with ((c :: r) ++ 58 :: m).
  assert (G : forall ds v any, digits ds -> dec_run ds v any = dec_run (ds ++ 58 :: m) v any).
  { induction ds as [|d ds IH]; intros v any X; cbn [app dec_run]; auto.
    inversion X; subst. destruct (isdigit d); auto. }
  apply G; auto.
Qed.
Lemma sumz_app' : forall A (f : A -> Z) a b, sumz f (a ++ b) = sumz f a + sumz f b.
Proof. intros A f a b. induction a as [|x a IH]; cbn [app sumz fold_right] in *; [lia|]. unfold sumz in *. cbn. lia. Qed.
Lemma wanted_cons : forall e w ms, wanted ((e, w) :: ms) = if w then e :: wanted ms else wanted ms.
Proof. intros e [] ms; auto. Qed.
Lemma known_not : forall c, In c rows -> c <> CntrModel.CMD_TOTAL /\ c <> CntrModel.CMD_GRAND_TOTAL /\ c <> CntrModel.CMD_BYTES_ESTIMATED /\ row_letter c.
Proof.
  intros c h. cbn [In rows] in h.
  repeat (destruct h as [<-|h]; [unfold row_letter, has; repeat split; try (vm_compute; discriminate); vm_compute; tauto|]). destruct h.
Qed.
Theorem by_kind : forall start endfile ms c, In c rows ->
  num CntrModel.e_phase1 c (setup_cntr start endfile ms) = u64 (of_kind c (wanted ms)).
Proof.
  intros start endfile ms c h. destruct (known_not _ h) as (N1 & N2 & N3 & R).
  unfold setup_cntr. destruct (each_row start (flat_map (est_ops endfile) ms) c R) as (_ & _ & _ & _ & ->). f_equal.
  induction ms as [|[e w] ms IH]; auto. cbn [flat_map]. rewrite sumz_app', IH, wanted_cons.
  destruct w; cbn [est_ops]; [|cbn; lia]. unfold of_kind at 2. cbn [filter]. fold (of_kind c (wanted ms)).
  assert (X : sumz (n_scanned c) (match endfile e with Some b => [CntrModel.OVal CntrModel.CMD_BYTES_ESTIMATED (strtoul10 b)] | None => [] end) = 0)
    by (destruct (endfile e); reflexivity).
  unfold sumz in *. cbn [fold_right n_scanned]. rewrite X. unfold one, of_kind. destruct (e_cmd e =? c); cbn [List.length]; lia.
Qed.
Theorem in_all : forall start endfile ms, known (wanted ms) ->
  num CntrModel.e_phase1 CntrModel.CMD_GRAND_TOTAL (setup_cntr start endfile ms) = u64 (Z.of_nat (List.length (wanted ms))).
Proof.
  intros start endfile ms K. unfold setup_cntr.
  destruct (grand_total start (flat_map (est_ops endfile) ms)) as (_ & _ & _ & _ & ->).
  - apply Forall_forall. intros o ho. apply in_flat_map in ho. destruct ho as [[e w] [h1 h2]].
    destruct w; cbn [est_ops] in h2; [|destruct h2]. destruct h2 as [<-|h2].
    + unfold known in K. rewrite Forall_forall in K. assert (I : In e (wanted ms)).
      { unfold wanted. apply in_map_iff. exists (e, true). split; auto. apply filter_In. auto. }
      destruct (known_not _ (K e I)) as (N1 & N2 & _). split; cbn; congruence.
    + destruct (endfile e); [|destruct h2]. destruct h2 as [<-|[]]. split; cbn; discriminate.
  - f_equal. clear K. induction ms as [|[e w] ms IH]; auto. cbn [flat_map]. rewrite sumz_app', IH, wanted_cons.
    destruct w; cbn [est_ops]; [|cbn; lia].
    assert (X : sumz g_scanned (match endfile e with Some b => [CntrModel.OVal CntrModel.CMD_BYTES_ESTIMATED (strtoul10 b)] | None => [] end) = 0)
      by (destruct (endfile e); reflexivity).
    unfold sumz in *. cbn [fold_right g_scanned List.length]. rewrite X. lia.
Qed.
Theorem bytes_est : forall start size endfile ms, noted size endfile -> known (wanted ms) ->
  num CntrModel.e_count CntrModel.CMD_BYTES_ESTIMATED (setup_cntr start endfile ms) = u64 (size_sum size (wanted ms)).
Proof.
  intros start size endfile ms N K. unfold setup_cntr.
  destruct (each_row start (flat_map (est_ops endfile) ms) CntrModel.CMD_BYTES_ESTIMATED) as (-> & _).
  { unfold row_letter, has. repeat split; try (vm_compute; discriminate). vm_compute. tauto. }
  f_equal. clear K. induction ms as [|[e w] ms IH]; auto. cbn [flat_map]. rewrite sumz_app', IH, wanted_cons.
  destruct w; cbn [est_ops]; [|cbn; lia]. specialize (N e). unfold size_sum at 2. cbn [fold_right]. fold (size_sum size (wanted ms)).
  destruct (size e) as [n|].
  - destruct N as [U [m ->]]. unfold get_endfile_str. rewrite strtoul_fmt_colon by auto. unfold sumz. cbn. lia.
  - rewrite N. cbn. lia.
Qed.
Lemma order_length : forall l st, List.length (order st l) = (List.length st + List.length l)%nat.
Proof.
  induction l as [|e l IH]; intros st; cbn [order List.length]; [lia|].
  pose proof (pop_app st (e_path e)) as P. destruct (pop st (e_path e)) as [o s]. cbn [fst snd] in P. subst st.
  destruct (later e); rewrite !app_length; cbn [List.length]; rewrite IH; cbn [List.length]; lia.
Qed.
Theorem as_many : forall start endfile ms, links_ok (map fst ms) -> paths_ok (map fst ms) -> no_between ms -> known (wanted ms) ->
  num CntrModel.e_phase1 CntrModel.CMD_GRAND_TOTAL (setup_cntr start endfile ms) = u64 (Z.of_nat (List.length (fst (restore_run ms)))).
Proof.
  intros start endfile ms L P B K. rewrite in_all, restored by auto. cbn [fst]. rewrite map_length, order_length. auto.
Qed.

(* ---- archives ---- *)
(* The backups made one after the other, none removed since: numbered from m on. *)
Fixpoint numbered (m : Z) (l : list bu) : Prop :=
  match l with [] => True | b :: r => b_bno b = m /\ numbered (m + 1) r end.
Definition made_with (opt : bool) (ks : list Z) (l : list bu) : Prop :=
  Forall (fun b => need_hardlinked_archive opt ks (b_bno b) = Some (b_hard b)) l.

Lemma keep_first : forall l ks, finalise_keep_args l = Some ks ->
  match l with
  | p :: _ :: _ => exists r, ks = atoi p :: r /\ r <> [] /\ 1 <= atoi p <= 52560000
  | _ => (List.length ks < 2)%nat
  end.
Proof.
  intros l ks h. apply keep_accepted in h. destruct h as (F & P & ->). destruct l as [|p [|q l]]; cbn; try lia.
  cbn [map bumped]. exists (removelast (atoi q :: map atoi l) ++ [List.last (atoi p :: atoi q :: map atoi l) 0 + 1]).
  split; [reflexivity|]. split; [destruct (removelast _); discriminate|].
  inversion F; subst. cbn [map product] in P.
  assert (G : forall r, Forall (fun p => 0 < atoi p) r -> 1 <= product (map atoi r)).
  { induction r as [|x r IH]; intros f; cbn [map product]; [lia|]. inversion f; subst. specialize (IH H4). nia. }
  specialize (G _ H2). cbn [map product] in G. nia.
Qed.
Theorem archive_iff : forall opt l ks bno, finalise_keep_args l = Some ks -> 1 <= bno < 2 ^ 64 ->
  exists b, need_hardlinked_archive opt ks bno = Some b /\
  (b = true <-> opt = true \/ exists p q r, l = p :: q :: r /\ (atoi p | bno - 1)).
Proof.
  intros opt l ks bno h hb. pose proof (keep_first _ _ h) as K. unfold need_hardlinked_archive.
  destruct opt; [exists true; tauto|].
  destruct l as [|p [|q l]].
  - destruct ks as [|k [|k2 ks]]; cbn in K; try lia; exists false; (split; [reflexivity|]); (split; [discriminate|]); intros [H|(x & y & z & H & _)]; discriminate.
  - destruct ks as [|k [|k2 ks]]; cbn in K; try lia; exists false; (split; [reflexivity|]); (split; [discriminate|]); intros [H|(x & y & z & H & _)]; discriminate.
  - destruct K as (r & -> & nr & R). destruct r as [|k2 r]; [congruence|]. cbv zeta.
    assert (S : forall v, 0 <= v < 52560001 -> s32 v = v) by (intros v hv; apply s32_int; unfold is_int; lia).
    assert (U : forall v, 0 <= v < 2 ^ 64 -> u64 v = v) by (intros; apply u64_small; auto).
    rewrite (S (atoi p)), (U (atoi p)), (U (bno - 1)) by lia.
    replace (atoi p =? 0) with false by lia. eexists. split; [reflexivity|].
    pose proof (Z.mod_pos_bound (bno - 1) (atoi p)) as M. rewrite S by lia. rewrite Z.eqb_eq. split.
    + intros e. right. exists p, q, l. split; auto. apply Z.mod_divide; auto. lia.
    + intros [H|(x & y & z & H & D)]; [discriminate|]. injection H as <- <- <-. apply Z.mod_divide; auto. lia.
Qed.
Lemma need_yes : forall p q r ks bno, finalise_keep_args (p :: q :: r) = Some ks -> 1 <= bno < 2 ^ 64 ->
  (need_hardlinked_archive false ks bno = Some true <-> (atoi p | bno - 1)).
Proof.
  intros p q r ks bno h hb. destruct (archive_iff false _ _ _ h hb) as (b & -> & I). split.
  - intros e. injection e as ->. destruct (proj1 I eq_refl) as [H|(x & y & z & H & D)]; [discriminate|]. injection H as <- <- <-. auto.
  - intros D. f_equal. apply I. right. eauto 6.
Qed.
Theorem one_in_k : forall p q r ks m, finalise_keep_args (p :: q :: r) = Some ks -> 1 <= m -> m + atoi p <= 2 ^ 64 ->
  exists i, m <= i < m + atoi p /\ need_hardlinked_archive false ks i = Some true /\
  forall j, m <= j < m + atoi p -> need_hardlinked_archive false ks j = Some true -> j = i.
Proof.
  intros p q r ks m h hm hp. destruct (keep_first _ _ h) as (_ & _ & _ & R). set (k := atoi p) in *.
  pose proof (Z.mod_pos_bound (1 - m) k ltac:(lia)) as B.
  assert (D : (k | m + (1 - m) mod k - 1)).
  { exists (- ((1 - m) / k)). pose proof (Z.div_mod (1 - m) k ltac:(lia)). nia. }
  exists (m + (1 - m) mod k). split; [lia|]. split; [apply (need_yes _ _ _ _ _ h); auto; lia|].
  intros j hj nj. apply (need_yes _ _ _ _ _ h) in nj; [|lia]. fold k in nj.
  assert (E : (k | j - (m + (1 - m) mod k))).
  { replace (j - (m + (1 - m) mod k)) with ((j - 1) - (m + (1 - m) mod k - 1)) by lia. apply Z.divide_sub_r; auto. }
  destruct E as [x E].
  set (i := (1 - m) mod k) in *.
  assert (H : - k < x * k < k) by lia. assert (x = 0) by nia. subst x. lia.
Qed.
Theorem removable : forall p q r ks l e, finalise_keep_args (p :: q :: r) = Some ks ->
  numbered 1 l -> made_with false ks l -> Z.of_nat (List.length l) < 2 ^ 64 ->
  In e (setup_indices l) -> (e_del e = true <-> b_bno (e_bu e) = 1 \/ (2 <= b_bno (e_bu e) /\ (atoi p | b_bno (e_bu e) - 2))).
Proof.
  intros p q r ks l e h n m z i. unfold setup_indices in i.
  assert (G : forall tr l ph ix n0, 1 <= n0 -> n0 + Z.of_nat (List.length l) <= 2 ^ 64 -> numbered n0 l -> made_with false ks l ->
    (ph = true <-> n0 = 1 \/ (2 <= n0 /\ (atoi p | n0 - 2))) -> forall e, In e (number tr ph ix l) ->
    (e_del e = true <-> b_bno (e_bu e) = 1 \/ (2 <= b_bno (e_bu e) /\ (atoi p | b_bno (e_bu e) - 2)))).
  { clear e i n m z l. intros tr. induction l as [|b l IH]; intros ph ix n0 n1 z n m q0 e i; [destruct i|].
    cbn [number In] in i. destruct n as [n n']. inversion m; subst. cbn [List.length] in z. destruct i as [<-|i]; cbn [e_del e_bu]; auto.
    refine (IH (b_hard b) (ix + 1) (b_bno b + 1) _ _ _ _ _ e i); auto; try lia.
    assert (Y := need_yes _ _ _ _ (b_bno b) h ltac:(lia)). rewrite H1 in Y.
    replace (b_bno b + 1 - 2) with (b_bno b - 1) by lia. split.
    - intros e0. right. split; [lia|]. apply Y. congruence.
    - intros [e0|[_ D]]; [lia|]. apply Y in D. congruence. }
  eapply (G _ l true 1 1); eauto; try lia.
Qed.
