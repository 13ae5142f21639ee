(* The line by which counters are reported, its length, and what reading it
   gives: /repo/src/cntr.c *)
From Coq Require Import Lia.
From Verif Require Import Bytes FrameModel DpthModel BuModel BuProofs CmdModel CntrModel.
Local Open Scope Z_scope.

(* ---------- specification ---------- *)

(* What does not change in an entry. *)
Definition sig (e : ent) := (e_cmd e, e_kind e, e_field e, e_label e).
(* The counters of a process, whatever has been counted. *)
Definition is_u64 (n : Z) : Prop := 0 <= n < 2 ^ 64.
Definition is_int (n : Z) : Prop := - 2 ^ 31 <= n < 2 ^ 31.
Definition in_range (e : ent) : Prop :=
  is_u64 (e_count e) /\ is_u64 (e_changed e) /\ is_u64 (e_same e) /\ is_u64 (e_deleted e) /\ is_u64 (e_phase1 e).
Definition counters (l : list ent) : Prop := map sig l = map sig table /\ Forall in_range l.
(* a reports the same as b: same letter; the count, and unless it has one number
   only, the other numbers too. *)
Definition reports (a b : ent) : Prop :=
  sig a = sig b /\ e_count a = e_count b /\
  (e_kind b <> Single -> e_changed a = e_changed b /\ e_same a = e_same b /\
                         e_deleted a = e_deleted b /\ e_phase1 a = e_phase1 b).
(* No separator of the line inside. *)
Definition plain (s : bytes) : Prop := ~ In 9 s /\ ~ In 10 s.
Definition head_ok (h : head) : Prop := plain (h_cname h) /\ is_int (h_pid h) /\ is_int (h_bno h) /\ is_int (h_status h).

(* ---------- numbers ---------- *)

Lemma val_zeros : forall j, val (repeat 48 j) 0 = 0.
Proof. induction j; cbn; auto. Qed.
Lemma pow64_20 : 2 ^ 64 < 10 ^ 20. Proof. reflexivity. Qed.
Lemma u64_small : forall n, is_u64 n -> u64 n = n.
Proof. intros n H. apply Z.mod_small. exact H. Qed.

Lemma fmt_u_spec : forall n, is_u64 n ->
  digits (fmt_u n) /\ (1 <= List.length (fmt_u n) <= 20)%nat /\ val (fmt_u n) 0 = n.
Proof.
  intros n H. unfold fmt_u. rewrite u64_small by auto.
  destruct (dec_digits_spec 19 20 n []) as (d & E & L & P).
  { change (Z.of_nat 20) with 20. pose proof pow64_20. unfold is_u64 in H. lia. } { lia. }
  rewrite E, app_nil_r.
  pose proof (padded_digits 20 n) as D. rewrite <- P in D. apply Forall_app in D as [_ D].
  repeat split; auto; try lia.
  assert (V : val (padded 20 n) 0 = n).
  { apply val_padded. change (Z.of_nat 20) with 20. pose proof pow64_20. unfold is_u64 in H. lia. }
  rewrite <- P, val_app, val_zeros in V. exact V.
Qed.

Lemma dec_run_end : forall ds v any, digits ds -> ds <> [] \/ any = true -> dec_run ds v any = Some (val ds v).
Proof.
  induction ds as [|d ds IH]; intros v any D Hn.
  - destruct Hn as [Hn|Hn]; [contradiction|subst; auto].
  - pose proof (Forall_inv D) as Hd. cbn in Hd. cbn [dec_run val].
    replace (isdigit d) with true by (unfold isdigit; symmetry; apply andb_true_iff; lia).
    apply IH; auto. eapply Forall_inv_tail; eauto.
Qed.

Lemma strtoul_fmt : forall n, is_u64 n -> strtoul10 (fmt_u n) = n.
Proof.
  intros n H. destruct (fmt_u_spec n H) as (D & L & V).
  destruct (fmt_u n) as [|c r] eqn:E; [cbn in L; lia|].
  pose proof (Forall_inv D) as Hc. cbn in Hc. unfold strtoul10.
  rewrite skip_ws_digit by auto. cbn [hd0].
  replace (c =? 45) with false by lia. replace (c =? 43) with false by lia.
  rewrite dec_run_end; auto; [|left; discriminate]. rewrite V.
  replace (2 ^ 64 <=? n) with false; auto. symmetry. apply Z.leb_gt. apply H.
Qed.

Lemma s32_int : forall n, is_int n -> s32 n = n.
Proof.
  intros n H. unfold s32, is_int in *. change (2 ^ 31) with 2147483648 in *. change (2 ^ 32) with 4294967296.
  destruct (Z_lt_dec n 0).
  - replace (n mod 4294967296) with (n + 4294967296).
    2:{ apply (Z.mod_unique n 4294967296 (-1) (n + 4294967296)); lia. }
    replace (n + 4294967296 <? 2147483648) with false by lia. lia.
  - rewrite Z.mod_small by lia. replace (n <? 2147483648) with true by lia. reflexivity.
Qed.

Lemma int_u64 : forall n, is_int n -> 0 <= n -> is_u64 n.
Proof. intros n H H0. unfold is_int, is_u64 in *. change (2 ^ 31) with 2147483648 in H. change (2 ^ 64) with 18446744073709551616. lia. Qed.
Lemma int_neg_u64 : forall n, is_int n -> n < 0 -> is_u64 (- n).
Proof. intros n H H0. unfold is_int, is_u64 in *. change (2 ^ 31) with 2147483648 in H. change (2 ^ 64) with 18446744073709551616. lia. Qed.

Lemma atoi_fmt : forall n, is_int n -> atoi (fmt_d n) = n.
Proof.
  intros n H. unfold fmt_d. pose proof H as B. unfold is_int in B. change (2 ^ 31) with 2147483648 in B.
  destruct (Z.ltb_spec n 0) as [G|G].
  - destruct (fmt_u_spec (- n) (int_neg_u64 n H G)) as (D & L & V). unfold atoi.
    change (skip_ws (45 :: fmt_u (- n))) with (45 :: fmt_u (- n)). cbn [hd0 tl]. change (45 =? 45) with true. cbv iota.
    rewrite dec_run_end; auto. 2:{ left. destruct (fmt_u (- n)); cbn in L; [lia|discriminate]. }
    rewrite V. rewrite Z.opp_involutive. change (- 2 ^ 63) with (-9223372036854775808). rewrite Z.max_l by lia.
    apply s32_int. exact H.
  - destruct (fmt_u_spec n (int_u64 n H G)) as (D & L & V). unfold atoi.
    destruct (fmt_u n) as [|c r] eqn:E; [cbn in L; lia|].
    pose proof (Forall_inv D) as Hc. cbn in Hc.
    rewrite skip_ws_digit by auto. cbn [hd0].
    replace (c =? 45) with false by lia. replace (c =? 43) with false by lia.
    rewrite dec_run_end; auto; [|left; discriminate]. rewrite V.
    change (2 ^ 63 - 1) with 9223372036854775807. rewrite Z.min_l by lia. apply s32_int. exact H.
Qed.

Lemma digits_not_in : forall d x, digits d -> (x < 48 \/ 57 < x) -> ~ In x d.
Proof. intros d x D H I. pose proof (proj1 (Forall_forall _ d) D x I) as G. cbn in G. lia. Qed.
Lemma fmt_u_not_in : forall n x, is_u64 n -> (x < 48 \/ 57 < x) -> ~ In x (fmt_u n).
Proof. intros n x H G. apply digits_not_in; auto. apply fmt_u_spec. exact H. Qed.
Lemma fmt_d_not_in : forall n x, is_int n -> (x < 45 \/ 57 < x \/ x = 46 \/ x = 47) -> ~ In x (fmt_d n).
Proof.
  intros n x H G. unfold fmt_d. destruct (Z.ltb_spec n 0).
  - intros [E|E]; [lia|]. revert E. apply fmt_u_not_in; [apply int_neg_u64; auto|lia].
  - apply fmt_u_not_in; [apply int_u64; auto|lia].
Qed.
Lemma fmt_d_ne : forall n, is_int n -> fmt_d n <> [].
Proof.
  intros n H. unfold fmt_d. destruct (Z.ltb_spec n 0); [discriminate|].
  destruct (fmt_u_spec n (int_u64 n H ltac:(lia))) as (_ & L & _). destruct (fmt_u n); cbn in L; [lia|discriminate].
Qed.
Lemma fmt_d_len : forall n, is_int n -> (List.length (fmt_d n) <= 21)%nat.
Proof.
  intros n H. unfold fmt_d. destruct (Z.ltb_spec n 0).
  - cbn [List.length]. pose proof (fmt_u_spec (- n) (int_neg_u64 n H ltac:(lia))). lia.
  - pose proof (fmt_u_spec n (int_u64 n H ltac:(lia))). lia.
Qed.

(* ---------- lengths ---------- *)

Definition zl (s : bytes) : Z := Z.of_nat (List.length s).
Lemma zl_app : forall a b, zl (a ++ b) = zl a + zl b.
Proof. intros. unfold zl. rewrite app_length. lia. Qed.
Lemma zl_cons : forall x b, zl (x :: b) = 1 + zl b.
Proof. intros. unfold zl. cbn [List.length]. lia. Qed.
Lemma zl_nil : zl [] = 0. Proof. reflexivity. Qed.
Lemma zl_nonneg : forall a, 0 <= zl a. Proof. intros. unfold zl. lia. Qed.
Lemma cap_len : forall n s, 1 <= n -> zl (cap n s) <= n - 1.
Proof. intros. unfold cap, zl. rewrite firstn_length. lia. Qed.
Lemma cap_le : forall n s, zl (cap n s) <= zl s.
Proof. intros. unfold cap, zl. rewrite firstn_length. lia. Qed.
Lemma cap_all : forall n s, zl s <= n - 1 -> cap n s = s.
Proof. intros n s H. unfold cap, zl in *. apply firstn_all2. lia. Qed.

Lemma fmt_u_zl : forall n, is_u64 n -> zl (fmt_u n) <= 20.
Proof. intros n H. pose proof (fmt_u_spec n H). unfold zl. lia. Qed.
(* Any number at all: the conversion reduces it first. *)
Lemma fmt_u_zl' : forall n, zl (fmt_u n) <= 20.
Proof.
  intros n. assert (H : is_u64 (u64 n)) by (apply Z.mod_pos_bound; reflexivity).
  replace (fmt_u n) with (fmt_u (u64 n)); [apply fmt_u_zl; auto|].
  unfold fmt_u. f_equal. unfold u64. apply Z.mod_mod. discriminate.
Qed.
Lemma fmt_d_zl : forall n, zl (fmt_d n) <= 21.
Proof.
  intros n. unfold fmt_d. destruct (n <? 0); [rewrite zl_cons; pose proof (fmt_u_zl' (- n)); lia|].
  pose proof (fmt_u_zl' n). lia.
Qed.

(* An entry before it is put into tmp[]. *)
Definition ent_body (e : ent) : bytes :=
  match e_kind e with
  | Single => fmt_u (e_count e)
  | _ => fmt_u (e_count e) ++ slash :: fmt_u (e_changed e) ++ slash :: fmt_u (e_same e)
           ++ slash :: fmt_u (e_deleted e) ++ slash :: fmt_u (e_phase1 e)
  end.
Definition tok (e : ent) : bytes := e_cmd e :: ent_body e.
Lemma ent_body_zl : forall e, zl (ent_body e) <= match e_kind e with Single => 20 | _ => 104 end.
Proof.
  intros e. unfold ent_body.
  destruct (e_kind e); rewrite ?zl_app, ?zl_cons, ?zl_app, ?zl_cons, ?zl_app, ?zl_cons, ?zl_app, ?zl_cons;
  pose proof (fmt_u_zl' (e_count e)); pose proof (fmt_u_zl' (e_changed e)); pose proof (fmt_u_zl' (e_same e));
  pose proof (fmt_u_zl' (e_deleted e)); pose proof (fmt_u_zl' (e_phase1 e)); lia.
Qed.
Lemma ent_text_tok : forall e, ent_text e = tok e ++ [9].
Proof.
  intros e. unfold ent_text.
  transitivity (cap (CNTR_PATH_BUF_LEN + 3) (tok e ++ [9])).
  { f_equal. unfold tok, ent_body. destruct (e_kind e); cbn [app]; rewrite <- ?app_assoc; cbn [app]; auto;
    rewrite <- ?app_assoc; cbn [app]; rewrite <- ?app_assoc; cbn [app]; rewrite <- ?app_assoc; cbn [app]; auto. }
  apply cap_all. unfold tok. cbn [app]. rewrite zl_cons, zl_app, zl_cons, zl_nil.
  pose proof (ent_body_zl e). unfold CNTR_PATH_BUF_LEN. destruct (e_kind e); lia.
Qed.

Lemma head_zl : forall h, zl (head_text h) <= zl (h_cname h) + 81.
Proof.
  intros h. unfold head_text.
  rewrite zl_app, zl_cons, zl_app, zl_cons, zl_app, zl_cons, zl_app, zl_cons, zl_app, zl_cons, zl_app, zl_cons, zl_nil.
  change (zl (str "cntr")) with 4. change (zl (fmt_d CNTR_VERSION)) with 1.
  pose proof (fmt_d_zl (h_pid h)). pose proof (fmt_d_zl (h_bno h)). pose proof (fmt_d_zl (h_status h)). lia.
Qed.

Fixpoint sumz {A} (f : A -> Z) (l : list A) : Z := match l with [] => 0 | x :: r => f x + sumz f r end.
Lemma fold_ent_len : forall l, fold_right (fun e n => ent_len e + n) 0 l = sumz ent_len l.
Proof. induction l; cbn; auto. rewrite IHl. auto. Qed.
Lemma texts_zl : forall l, zl (flat_map ent_text l) + sumz (fun e => match e_kind e with Single => 2 | _ => 10 end) l <= sumz ent_len l.
Proof.
  induction l as [|e l IH]; [cbn; lia|]. cbn [flat_map sumz]. rewrite zl_app.
  assert (zl (ent_text e) + match e_kind e with Single => 2 | _ => 10 end <= ent_len e); [|lia].
  rewrite ent_text_tok. unfold tok. cbn [app]. rewrite zl_cons, zl_app, zl_cons, zl_nil.
  pose proof (ent_body_zl e). unfold ent_len. destruct (e_kind e); lia.
Qed.
Lemma sumz_sig : forall (f : kind -> Z) l m, map sig l = map sig m ->
  sumz (fun e => f (e_kind e)) l = sumz (fun e => f (e_kind e)) m.
Proof.
  induction l as [|e l IH]; destruct m as [|g m]; intros H; try discriminate; auto.
  cbn [map] in H. injection H as A B C D E. cbn [sumz]. rewrite (IH m) by auto. congruence.
Qed.

(* setting a counter changes no other thing *)
Lemma sig_set_count : forall v e, sig (set_count v e) = sig e. Proof. reflexivity. Qed.
Lemma at_ent_sig : forall ch f l, (forall e, sig (f e) = sig e) -> map sig (at_ent ch f l) = map sig l.
Proof.
  intros ch f l H. induction l as [|e l IH]; auto. cbn. destruct (e_cmd e =? ch); cbn [map]; [rewrite H; auto|congruence].
Qed.
Lemma u64_range : forall v, is_u64 (u64 v).
Proof. intros. apply Z.mod_pos_bound. reflexivity. Qed.
Lemma at_ent_range : forall ch f l, (forall e, in_range e -> in_range (f e)) -> Forall in_range l -> Forall in_range (at_ent ch f l).
Proof.
  intros ch f l H. induction 1 as [|e l He Hl IH]; [constructor|]. cbn. destruct (e_cmd e =? ch); constructor; auto.
Qed.
Lemma set_count_range : forall v e, in_range e -> in_range (set_count v e).
Proof. unfold in_range. intros v e H. cbn. pose proof (u64_range v). tauto. Qed.
Lemma set_end_counters : forall now l, counters l -> counters (at_ent CMD_TIMESTAMP_END (set_count now) l).
Proof.
  intros now l [A B]. split; [rewrite at_ent_sig; auto|]. apply at_ent_range; auto. intros. apply set_count_range. auto.
Qed.

(* ---------- the text fits ---------- *)

Lemma max_big : forall l cname, map sig l = map sig table -> 2240 + zl cname < calc_max_str_len l cname.
Proof.
  intros l cname H. unfold calc_max_str_len. rewrite fold_ent_len.
  assert (E : sumz ent_len l = sumz ent_len table).
  { unfold ent_len. apply (sumz_sig (fun k => match k with Single => 22 + 2 | _ => 22 * 5 + 6 end)). exact H. }
  rewrite E. change (sumz ent_len table) with 1956. unfold zl, CNTR_PATH_BUF_LEN. lia.
Qed.

Theorem text_fits : forall now h l path, map sig l = map sig table ->
  zl (snd (cntr_to_str now h l path)) + 1 <= calc_max_str_len l (h_cname h).
Proof.
  intros now h l path H. unfold cntr_to_str. cbn [snd].
  set (l' := at_ent CMD_TIMESTAMP_END (set_count now) l).
  assert (H' : map sig l' = map sig table) by (unfold l'; rewrite at_ent_sig; auto).
  rewrite !zl_app.
  pose proof (texts_zl l') as T.
  assert (E : sumz ent_len l' = sumz ent_len table).
  { unfold ent_len. apply (sumz_sig (fun k => match k with Single => 22 + 2 | _ => 22 * 5 + 6 end)). exact H'. }
  rewrite E in T. change (sumz ent_len table) with 1956 in T.
  rewrite (sumz_sig (fun k => match k with Single => 2 | _ => 10 end) l' table H') in T.
  change (sumz (fun e => match e_kind e with Single => 2 | _ => 10 end) table) with 168 in T.
  pose proof (cap_le (calc_max_str_len l' (h_cname h) - 1) (head_text h)). pose proof (head_zl h).
  assert (zl (path_text path) <= 258).
  { unfold path_text. pose proof (cap_len (CNTR_PATH_BUF_LEN + 3) (CMD_DATAPTH :: path ++ [9; 10])).
    unfold CNTR_PATH_BUF_LEN in *. lia. }
  pose proof (max_big l (h_cname h) H). lia.
Qed.

(* ---------- reading the line ---------- *)

Lemma sep9 : is_sep 9 = true. Proof. reflexivity. Qed.
Lemma sep10 : is_sep 10 = true. Proof. reflexivity. Qed.
Lemma not_sep : forall c, c <> 9 -> c <> 10 -> is_sep c = false.
Proof. intros. unfold is_sep. destruct (Z.eqb_spec c 9), (Z.eqb_spec c 10); auto; contradiction. Qed.
Lemma toks_tok : forall t c rest cur, plain t -> is_sep c = true -> rev cur ++ t <> [] ->
  toks (t ++ c :: rest) cur = (rev cur ++ t) :: toks rest [].
Proof.
  induction t as [|x t IH]; intros c rest cur [P Q] S N.
  - cbn [app toks]. rewrite S. rewrite app_nil_r in *. destruct cur; [contradiction|auto].
  - cbn [app toks]. rewrite not_sep; [|intros ->; apply P; left; auto|intros ->; apply Q; left; auto].
    rewrite IH; auto; cbn [rev]; rewrite <- ?app_assoc; cbn [app]; auto.
    split; intros I; [apply P|apply Q]; right; exact I.
Qed.
Lemma toks_one : forall t c rest, plain t -> is_sep c = true -> t <> [] -> toks (t ++ c :: rest) [] = t :: toks rest [].
Proof. intros. rewrite toks_tok; auto. Qed.

Lemma split_tok : forall x t rest cur, ~ In x t -> split_on x (t ++ x :: rest) cur = (rev cur ++ t) :: split_on x rest [].
Proof.
  induction t as [|c t IH]; intros rest cur N.
  - cbn [app split_on]. rewrite Z.eqb_refl, app_nil_r. auto.
  - cbn [app split_on]. destruct (Z.eqb_spec c x); [subst; exfalso; apply N; left; auto|].
    rewrite IH; [|intros I; apply N; right; auto]. cbn [rev]. rewrite <- app_assoc. auto.
Qed.
Lemma split_end : forall x t cur, ~ In x t -> split_on x t cur = [rev cur ++ t].
Proof.
  induction t as [|c t IH]; intros cur N; cbn [split_on]; [rewrite app_nil_r; auto|].
  destruct (Z.eqb_spec c x); [subst; exfalso; apply N; left; auto|].
  rewrite IH; [|intros I; apply N; right; auto]. cbn [rev]. rewrite <- app_assoc. auto.
Qed.
Lemma last_split_none : forall x b, ~ In x b -> last_split x b = None.
Proof.
  induction b as [|c b IH]; intros N; auto. cbn [last_split]. rewrite IH by (intros I; apply N; right; auto).
  destruct (Z.eqb_spec c x); auto. subst. exfalso. apply N. left. auto.
Qed.
Lemma last_split_app : forall x a b, ~ In x b -> last_split x (a ++ x :: b) = Some (a, b).
Proof.
  induction a as [|c a IH]; intros b N; cbn [app last_split].
  - rewrite last_split_none by auto. rewrite Z.eqb_refl. auto.
  - rewrite IH by auto. auto.
Qed.

Lemma extract_ul_body : forall e0 e, in_range e -> e_kind e0 = e_kind e -> sig e0 = sig e -> reports (extract_ul (ent_body e) e0) e.
Proof.
  intros e0 e (R1 & R2 & R3 & R4 & R5) K S. unfold ent_body, extract_ul.
  assert (NS : forall n, is_u64 n -> ~ In slash (fmt_u n)) by (intros; apply fmt_u_not_in; auto; unfold slash; lia).
  destruct (e_kind e) eqn:E.
  - rewrite split_end by auto. cbn [rev app]. rewrite strtoul_fmt by auto. unfold reports.
    cbn. rewrite u64_small by auto. split; [exact S|]. split; [auto|]. intros N. rewrite E in N. contradiction.
  - rewrite !split_tok by auto. rewrite split_end by auto. cbn [rev app]. rewrite !strtoul_fmt by auto.
    unfold reports. cbn. rewrite !u64_small by auto. split; [exact S|]. split; [auto|]. intros _. repeat split; auto.
  - rewrite !split_tok by auto. rewrite split_end by auto. cbn [rev app]. rewrite !strtoul_fmt by auto.
    unfold reports. cbn. rewrite !u64_small by auto. split; [exact S|]. split; [auto|]. intros _. repeat split; auto.
Qed.

Lemma at_ent_app : forall ch f a e b, ~ In ch (map e_cmd a) -> e_cmd e = ch -> at_ent ch f (a ++ e :: b) = a ++ f e :: b.
Proof.
  induction a as [|x a IH]; intros e b N E; cbn [app at_ent].
  - rewrite E, Z.eqb_refl. auto.
  - destruct (Z.eqb_spec (e_cmd x) ch) as [G|G]; [exfalso; apply N; left; auto|].
    rewrite IH; auto. intros I. apply N. right. auto.
Qed.
Lemma cmds_of_sig : forall l m, map sig l = map sig m -> map e_cmd l = map e_cmd m.
Proof.
  intros l m H. assert (E : forall k, map e_cmd k = map (fun p => fst (fst (fst p))) (map sig k)).
  { intros k. rewrite map_map. apply map_ext. auto. }
  rewrite !E, H. auto.
Qed.

Lemma extract_all : forall l fin todo p rest, Forall in_range l -> map sig todo = map sig l ->
  NoDup (map e_cmd (fin ++ todo)) -> ~ In CMD_DATAPTH (map e_cmd l) ->
  exists l', Forall2 reports l' l /\ extract_cntrs (map tok l ++ rest) (fin ++ todo) p = extract_cntrs rest (fin ++ l') p.
Proof.
  induction l as [|e l IH]; intros fin todo p rest R S N T.
  - destruct todo; [|discriminate]. exists []. split; [constructor|reflexivity].
  - destruct todo as [|e0 todo]; [discriminate|]. cbn [map] in S.
    assert (Se : sig e0 = sig e) by (injection S; intros; unfold sig; congruence).
    assert (St : map sig todo = map sig l) by (injection S; auto).
    assert (C : e_cmd e0 = e_cmd e) by (unfold sig in Se; congruence).
    assert (K : e_kind e0 = e_kind e) by (unfold sig in Se; congruence).
    cbn [map app extract_cntrs]. change (hd0 (tok e)) with (e_cmd e). change (tl (tok e)) with (ent_body e).
    destruct (Z.eqb_spec (e_cmd e) CMD_DATAPTH) as [G|G]; [exfalso; apply T; left; auto|].
    assert (Nf : ~ In (e_cmd e) (map e_cmd fin)).
    { rewrite map_app in N. cbn [map] in N. rewrite C in N. apply NoDup_remove_2 in N. intros I. apply N. apply in_or_app. auto. }
    rewrite (at_ent_app (e_cmd e) _ fin e0 todo Nf C).
    pose proof (extract_ul_body e0 e (Forall_inv R) K Se) as B.
    assert (C' : e_cmd (extract_ul (ent_body e) e0) = e_cmd e0) by (destruct B as [B _]; unfold sig in B; congruence).
    destruct (IH (fin ++ [extract_ul (ent_body e) e0]) todo p rest) as (l' & F & X); auto.
    + eapply Forall_inv_tail; eauto.
    + rewrite <- app_assoc. cbn [app]. rewrite map_app in *. cbn [map] in *. rewrite C'. exact N.
    + intros I. apply T. right. auto.
    + exists (extract_ul (ent_body e) e0 :: l'). split; [constructor; auto|]. change (tl (tok e)) with (ent_body e). rewrite <- !app_assoc in X. exact X.
Qed.

Lemma tok_plain : forall e, in_range e -> plain (tok e) <-> (e_cmd e <> 9 /\ e_cmd e <> 10).
Proof.
  intros e (R1 & R2 & R3 & R4 & R5).
  assert (B : forall x, x = 9 \/ x = 10 -> ~ In x (ent_body e)).
  { intros x Hx I. unfold ent_body in I.
    assert (NS : forall n, is_u64 n -> ~ In x (fmt_u n)) by (intros; apply fmt_u_not_in; auto; lia).
    assert (x <> slash) by (unfold slash; lia).
    destruct (e_kind e);
    repeat match goal with
    | I : In _ (_ ++ _) |- _ => apply in_app_or in I; destruct I as [I|I]
    | I : In _ (_ :: _) |- _ => destruct I as [I|I]; [congruence|]
    end;
    match goal with I : In _ (fmt_u ?n) |- _ => apply (NS n); auto end. }
  unfold plain, tok. split.
  - intros [P Q]. split; intros E; [apply P|apply Q]; left; auto.
  - intros [P Q]. split; intros [E|E]; try contradiction; revert E; apply B; auto.
Qed.

Lemma toks_ents : forall l rest, Forall in_range l -> Forall (fun c => c <> 9 /\ c <> 10) (map e_cmd l) ->
  toks (flat_map ent_text l ++ rest) [] = map tok l ++ toks rest [].
Proof.
  induction l as [|e l IH]; intros rest R C; auto. cbn [flat_map map app]. rewrite ent_text_tok.
  rewrite <- !app_assoc. cbn [app].
  rewrite toks_one; [|apply tok_plain; [eapply Forall_inv; eauto|exact (Forall_inv C)]|reflexivity|discriminate].
  rewrite IH; auto. { eapply Forall_inv_tail; eauto. } { exact (Forall_inv_tail C). }
Qed.

Lemma table_cmds : map e_cmd table =
  [102; 121; 109; 110; 100; 76; 108; 115; 118; 86; 117; 85; 107; 101; 89; 90; 119; 112; 71; 79; 80; 81; 98; 69].
Proof. reflexivity. Qed.
Lemma table_nodup : NoDup (map e_cmd table).
Proof. rewrite table_cmds. repeat (constructor; [cbn; lia|]). constructor. Qed.
Lemma table_letters : Forall (fun c => c <> 9 /\ c <> 10) (map e_cmd table) /\ ~ In CMD_DATAPTH (map e_cmd table).
Proof. rewrite table_cmds. split; [repeat constructor; lia|cbn; unfold CMD_DATAPTH; lia]. Qed.

Lemma plain_app : forall a b, plain a -> plain b -> plain (a ++ b).
Proof. intros a b [A B] [C D]. split; intros I; apply in_app_or in I; tauto. Qed.
Lemma plain_cons : forall x b, x <> 9 -> x <> 10 -> plain b -> plain (x :: b).
Proof. intros x b A B [C D]. split; intros [I|I]; auto. Qed.
Lemma fmt_d_plain : forall n, is_int n -> plain (fmt_d n).
Proof. intros n H. split; apply fmt_d_not_in; auto; lia. Qed.

Lemma head_toks : forall h rest, head_ok h ->
  toks (head_text h ++ rest) [] =
    str "cntr" :: (h_cname h ++ dot :: fmt_d (h_pid h) ++ dot :: fmt_d (h_bno h)) :: fmt_d CNTR_VERSION ::
    fmt_d (h_status h) :: toks rest [].
Proof.
  intros h rest (C & P & B & S). unfold head_text.
  assert (V : is_int CNTR_VERSION) by (split; reflexivity || (unfold CNTR_VERSION; discriminate)).
  replace ((str "cntr" ++ 9 :: h_cname h ++ dot :: fmt_d (h_pid h) ++ dot :: fmt_d (h_bno h)
    ++ 9 :: fmt_d CNTR_VERSION ++ 9 :: fmt_d (h_status h) ++ [9]) ++ rest)
   with (str "cntr" ++ 9 :: (h_cname h ++ dot :: fmt_d (h_pid h) ++ dot :: fmt_d (h_bno h))
    ++ 9 :: fmt_d CNTR_VERSION ++ 9 :: fmt_d (h_status h) ++ 9 :: rest).
  2:{ repeat (rewrite <- !app_assoc; cbn [app]). reflexivity. }
  rewrite toks_one; [|split; cbn; lia|reflexivity|discriminate].
  rewrite toks_one; [| |reflexivity|].
  2:{ apply plain_app; auto. apply plain_cons; [unfold dot; lia|unfold dot; lia|]. apply plain_app; [apply fmt_d_plain; auto|].
      apply plain_cons; [unfold dot; lia|unfold dot; lia|]. apply fmt_d_plain; auto. }
  2:{ intros E. apply (f_equal (@List.length Z)) in E. rewrite app_length in E. cbn in E. lia. }
  rewrite toks_one; [|apply fmt_d_plain; auto|reflexivity|apply fmt_d_ne; auto].
  rewrite toks_one; [|apply fmt_d_plain; auto|reflexivity|apply fmt_d_ne; auto]. reflexivity.
Qed.

Lemma identity_back : forall n p b pid0 bno0, is_int p -> is_int b ->
  extract_client_pid_bno (n ++ dot :: fmt_d p ++ dot :: fmt_d b) pid0 bno0 = (n, p, b).
Proof.
  intros n p b pid0 bno0 P B. unfold extract_client_pid_bno.
  replace (n ++ dot :: fmt_d p ++ dot :: fmt_d b) with ((n ++ dot :: fmt_d p) ++ dot :: fmt_d b)
    by (rewrite <- app_assoc; auto).
  rewrite last_split_app by (apply fmt_d_not_in; auto; unfold dot; lia).
  rewrite last_split_app by (apply fmt_d_not_in; auto; unfold dot; lia).
  rewrite !atoi_fmt by auto. reflexivity.
Qed.

(* What another process makes of the line is what was counted. *)
Theorem line_roundtrip : forall now h l path pid0 bno0 st0 l0,
  head_ok h -> counters l -> map sig l0 = map sig table -> plain path -> zl path <= 255 ->
  let '(l1, line) := cntr_to_str now h l path in
  let r := str_to_cntr line pid0 bno0 st0 l0 in
  p_ret r = 0 /\ p_name r = h_cname h /\ p_pid r = h_pid h /\ p_bno r = h_bno h /\ p_status r = h_status h /\ Forall2 reports (p_ents r) l1 /\ p_path r = Some path.
Proof.
  intros now h l path pid0 bno0 st0 l0 H L L0 P PL. unfold cntr_to_str.
  pose proof (set_end_counters now l L) as L1. set (l1 := at_ent CMD_TIMESTAMP_END (set_count now) l) in *. clearbody l1.
  destruct L1 as [S1 R1]. cbv zeta.
  rewrite cap_all. 2:{ pose proof (head_zl h). pose proof (max_big l1 (h_cname h) S1). lia. }
  unfold path_text. rewrite cap_all.
  2:{ rewrite zl_cons, zl_app, !zl_cons, zl_nil. unfold CNTR_PATH_BUF_LEN. lia. }
  unfold str_to_cntr. rewrite head_toks by auto.
  pose proof (cmds_of_sig l1 table S1) as C1. pose proof table_letters as [T1 T2].
  rewrite toks_ents; auto; [|rewrite C1; auto].
  replace (CMD_DATAPTH :: path ++ [9; 10]) with ((CMD_DATAPTH :: path) ++ 9 :: [10]) by reflexivity.
  rewrite toks_one; [|apply plain_cons; auto; discriminate|reflexivity|discriminate].
  destruct H as (Hc & Hp & Hb & Hs).
  rewrite identity_back by auto.
  change (negb (atoi (fmt_d CNTR_VERSION) =? CNTR_VERSION)) with false. cbv iota.
  destruct (extract_all l1 [] l0 None [CMD_DATAPTH :: path]) as (l' & F & X); auto.
  { congruence. } { cbn [app]. rewrite (cmds_of_sig l0 table L0). apply table_nodup. } { rewrite C1. auto. }
  cbn [app] in X. change (toks [10] []) with (@nil bytes). 
  match goal with |- context [extract_cntrs ?a ?b ?c] => replace (extract_cntrs a b c) with (l', Some path) end.
  cbn. rewrite atoi_fmt by auto. repeat split; auto.
Qed.

(* One line: the newline comes at the end and nowhere else. *)
Lemma not_in_ents : forall x l, Forall in_range l -> ~ In x (map e_cmd l) -> x = 10 -> ~ In x (flat_map ent_text l).
Proof.
  intros x l R N X I. apply in_flat_map in I as (e & He & I). rewrite ent_text_tok in I.
  apply in_app_or in I as [I|[I|[]]]; [|lia].
  pose proof (proj1 (Forall_forall _ _) R e He) as Re.
  assert (e_cmd e <> 10) by (intros E; apply N; subst x; rewrite <- E; apply in_map; auto).
  destruct I as [I|I]; [congruence|].
  destruct (proj2 (tok_plain (mkent 102 (e_kind e) (e_field e) (e_label e) (e_count e) (e_changed e) (e_same e) (e_deleted e) (e_phase1 e)) Re)) as [_ Q].
  { cbn. lia. }
  apply Q. right. subst x. exact I.
Qed.
Lemma firstn_in : forall (n : nat) (s : bytes) x, In x (firstn n s) -> In x s.
Proof. intros n s x I. rewrite <- (firstn_skipn n s). apply in_or_app. auto. Qed.
Theorem line_end : forall now h l path, head_ok h -> counters l -> plain path ->
  let line := snd (cntr_to_str now h l path) in
  if zl path <=? 255 then exists body, line = body ++ [10] /\ ~ In 10 body else ~ In 10 line.
Proof.
  intros now h l path H L P. unfold cntr_to_str. cbn [snd].
  pose proof (set_end_counters now l L) as L1. set (l1 := at_ent CMD_TIMESTAMP_END (set_count now) l) in *. clearbody l1.
  destruct L1 as [S1 R1]. cbv zeta.
  assert (A : ~ In 10 (cap (calc_max_str_len l1 (h_cname h) - 1) (head_text h))).
  { intros I. apply firstn_in in I. destruct H as ((_ & C) & Hp & Hb & Hs). unfold head_text in I.
    assert (F : forall n, is_int n -> ~ In 10 (fmt_d n)) by (intros; apply fmt_d_not_in; auto; lia).
    assert (V : is_int CNTR_VERSION) by (split; reflexivity || (unfold CNTR_VERSION; discriminate)).
    apply in_app_or in I as [I|I]; [cbn in I; lia|].
    destruct I as [I|I]; [discriminate|]. apply in_app_or in I as [I|I]; [auto|].
    destruct I as [I|I]; [discriminate|]. apply in_app_or in I as [I|I]; [exact (F _ Hp I)|].
    destruct I as [I|I]; [discriminate|]. apply in_app_or in I as [I|I]; [exact (F _ Hb I)|].
    destruct I as [I|I]; [discriminate|]. apply in_app_or in I as [I|I]; [exact (F _ V I)|].
    destruct I as [I|I]; [discriminate|]. apply in_app_or in I as [I|I]; [exact (F _ Hs I)|].
    destruct I as [I|[]]. discriminate. }
  assert (B : ~ In 10 (flat_map ent_text l1)).
  { apply not_in_ents; auto. rewrite (cmds_of_sig l1 table S1), table_cmds. cbn. lia. }
  destruct (Z.leb_spec (zl path) 255) as [G|G].
  - unfold path_text. rewrite (cap_all (CNTR_PATH_BUF_LEN + 3)) by (rewrite zl_cons, zl_app, !zl_cons, zl_nil; unfold CNTR_PATH_BUF_LEN; lia).
    exists (cap (calc_max_str_len l1 (h_cname h) - 1) (head_text h) ++ flat_map ent_text l1 ++ CMD_DATAPTH :: path ++ [9]).
    split. { rewrite <- !app_assoc. cbn [app]. rewrite <- app_assoc. reflexivity. }
    intros I. apply in_app_or in I as [I|I]; [auto|]. apply in_app_or in I as [I|I]; [auto|].
    destruct I as [I|I]; [discriminate|]. apply in_app_or in I as [I|I]; [apply P; auto|]. destruct I as [I|[]]; discriminate.
  - intros I. apply in_app_or in I as [I|I]; [auto|]. apply in_app_or in I as [I|I]; [auto|].
    unfold path_text, cap, CNTR_PATH_BUF_LEN in I. change (Z.to_nat (256 + 3 - 1)) with (S 257) in I. rewrite firstn_cons in I.
    destruct I as [I|I]; [discriminate|].
    replace (path ++ [9; 10]) with ((path ++ [9]) ++ [10]) in I by (rewrite <- app_assoc; auto).
    rewrite firstn_app in I.
    replace (257 - List.length (path ++ [9%Z]))%nat with O in I.
    2:{ rewrite app_length. cbn [List.length]. unfold zl in G. lia. }
    rewrite firstn_O, app_nil_r in I. apply firstn_in in I. apply in_app_or in I as [I|[I|[]]]; [|discriminate].
    apply P. exact I.
Qed.
