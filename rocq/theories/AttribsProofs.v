(* C06, C07: number encoding and attribute strings. *)
From Verif Require Import Bytes AttribsModel.

Definition b64char (c : Z) : Prop := In c base64_digits.

(* Value of a digit string in base 64, most significant first. *)
Fixpoint b64_value (v : Z) (ds : bytes) : Z :=
  match ds with [] => v | c :: r => b64_value (v * 64 + base64_map c) r end.

Definition digit_okb (n : nat) : bool :=
  let c := nth n base64_digits 0 in
  (base64_map c =? Z.of_nat n) && (isalnum c || (c =? 43) || (c =? 47))
  && negb (c =? 32) && negb (c =? 45) && (1 <=? c) && (c <=? 127).
Lemma digits_ok : forallb digit_okb (seq 0 64) = true.
Proof. vm_compute. reflexivity. Qed.
Lemma digits_len : List.length base64_digits = 64%nat.
Proof. vm_compute. reflexivity. Qed.

Lemma digit_ok : forall n, (n < 64)%nat -> digit_okb n = true.
Proof.
  intros n H. pose proof digits_ok as D. rewrite forallb_forall in D.
  apply D. apply in_seq. lia.
Qed.

Lemma b64char_facts : forall c, b64char c ->
  (isalnum c || (c =? 43) || (c =? 47)) = true /\ c <> 32 /\ c <> 45 /\ 1 <= c <= 127 /\ 0 <= base64_map c < 64.
Proof.
  intros c H. destruct (In_nth _ _ 0 H) as [n [Hn E]]. rewrite digits_len in Hn.
  pose proof (digit_ok n Hn) as D. unfold digit_okb in D. rewrite E in D.
  repeat rewrite andb_true_iff in D. destruct D as [[[[[D1 D2] D3] D4] D5] D6].
  apply Z.eqb_eq in D1. apply negb_true_iff in D3, D4. apply Z.eqb_neq in D3, D4.
  repeat split; auto; lia.
Qed.

Lemma digit_is_char : forall v, 0 <= v < 64 -> b64char (nth (Z.to_nat v) base64_digits 0) /\
  base64_map (nth (Z.to_nat v) base64_digits 0) = v.
Proof.
  intros v H. assert (Hn : (Z.to_nat v < 64)%nat) by lia. split.
  - apply nth_In. rewrite digits_len. auto.
  - pose proof (digit_ok _ Hn) as D. unfold digit_okb in D.
    repeat rewrite andb_true_iff in D. destruct D as [[[[[D1 D2] D3] D4] D5] D6].
    apply Z.eqb_eq in D1. rewrite D1. lia.
Qed.

Lemma b64_value_app : forall a b v, b64_value v (a ++ b) = b64_value (b64_value v a) b.
Proof. induction a; intros; simpl; auto. Qed.

Lemma land63 : forall v, 0 <= v -> Z.land v 63 = v mod 64.
Proof. intros. change 63 with (Z.ones 6). rewrite Z.land_ones by lia. reflexivity. Qed.
Lemma shr6 : forall v, Z.shiftr v 6 = v / 64.
Proof. intros. rewrite Z.shiftr_div_pow2 by lia. reflexivity. Qed.

Lemma b64_put_spec : forall f val acc, 0 <= val < 64 ^ Z.of_nat (S f) ->
  exists ds, b64_put (S f) val acc = Some (ds ++ acc) /\
    (1 <= List.length ds <= S f)%nat /\ Forall b64char ds /\ b64_value 0 ds = val.
Proof.
  induction f as [|f IH]; intros val acc H.
  - simpl Z.of_nat in H. change (64 ^ 1) with 64 in H.
    cbn [b64_put]. rewrite land63, shr6 by lia.
    rewrite Z.mod_small, Z.div_small by lia. simpl.
    exists [nth (Z.to_nat val) base64_digits 0].
    destruct (digit_is_char val H) as [D1 D2].
    repeat split; auto.
  - cbn [b64_put]. rewrite land63, shr6 by lia.
    assert (Hm : 0 <= val mod 64 < 64) by (apply Z.mod_pos_bound; lia).
    destruct (digit_is_char _ Hm) as [D1 D2].
    destruct (Z.eqb_spec (val / 64) 0) as [E|E].
    + exists [nth (Z.to_nat (val mod 64)) base64_digits 0].
      split; [reflexivity|]. split; [simpl; lia|]. split; [auto|].
      change (0 * 64 + base64_map (nth (Z.to_nat (val mod 64)) base64_digits 0) = val).
      rewrite D2. pose proof (Z.div_mod val 64 ltac:(lia)). lia.
    + assert (Hd : 0 <= val / 64 < 64 ^ Z.of_nat (S f)).
      { split; [apply Z.div_pos; lia|]. apply Z.div_lt_upper_bound; [lia|].
        rewrite <- Z.pow_succ_r by lia. replace (Z.succ (Z.of_nat (S f))) with (Z.of_nat (S (S f))) by lia. lia. }
      destruct (IH (val / 64) (nth (Z.to_nat (val mod 64)) base64_digits 0 :: acc) Hd)
        as [ds [P [L [F V]]]].
      exists (ds ++ [nth (Z.to_nat (val mod 64)) base64_digits 0]).
      split; [|split; [|split]].
      * cbn [b64_put] in P. rewrite P. rewrite <- app_assoc. reflexivity.
      * rewrite app_length. simpl. lia.
      * apply Forall_app; auto.
      * rewrite b64_value_app, V.
        change (val / 64 * 64 + base64_map (nth (Z.to_nat (val mod 64)) base64_digits 0) = val).
        rewrite D2. pose proof (Z.div_mod val 64 ltac:(lia)). lia.
Qed.

Definition stops (rest : bytes) : Prop := rest = [] \/ exists r, rest = 32 :: r.

Lemma b64_value_mono : forall ds v, Forall b64char ds -> 0 <= v -> v <= b64_value v ds.
Proof.
  induction ds as [|c ds IH]; intros v F H; simpl; [lia|].
  inversion F as [|? ? Hc Hr]; subst. apply b64char_facts in Hc as [_ [_ [_ [_ M]]]].
  assert (0 <= v * 64 + base64_map c) as K by lia.
  specialize (IH _ Hr K). lia.
Qed.

Lemma from_loop_digits : forall ds rest v i, Forall b64char ds -> stops rest ->
  0 <= v -> b64_value v ds < two64 ->
  from_b64_loop (ds ++ rest) v i = (b64_value v ds, (i + List.length ds)%nat).
Proof.
  induction ds as [|c ds IH]; intros rest v i F S H B; simpl.
  - rewrite Nat.add_0_r. destruct S as [->|[r ->]]; reflexivity.
  - inversion F as [|? ? Hc Hr]; subst. simpl in B.
    pose proof (b64char_facts c Hc) as [A [N32 [_ [_ M]]]].
    pose proof (b64_value_mono ds (v * 64 + base64_map c) Hr ltac:(lia)) as Mo.
    assert (E32 : (c =? 32) = false) by (apply Z.eqb_neq; auto). rewrite E32.
    assert (negb (isalnum c) && negb (c =? 43) && negb (c =? 47) = false) as ->.
    { destruct (isalnum c), (c =? 43), (c =? 47); simpl in *; congruence. }
    rewrite (Z.mod_small (v * 64)) by lia. rewrite Z.mod_small by lia.
    rewrite IH; auto; try lia. f_equal. lia.
Qed.

(* The claim C06, stated with `stops` = the text ends or a blank follows. *)
Lemma base64_roundtrip : forall v, int64_min < v <= int64_max ->
  exists s, to_base64 v = Some s /\ (1 <= List.length s <= 12)%nat /\ cstr s /\ ~ In 32 s /\
    (forall rest, stops rest -> from_base64 (s ++ rest) = Some (v, List.length s)) /\
    (forall rest, stops rest -> from_base64 (32 :: s ++ rest) = Some (v, S (List.length s))).
Proof.
  intros v H. unfold to_base64, int64_min, int64_max in *.
  destruct (Z.eqb_spec v (-2 ^ 63)) as [E|E]; [lia|].
  assert (P66 : 64 ^ Z.of_nat 11 = 2 ^ 66) by reflexivity.
  assert (Hd : forall ds, Forall b64char ds -> cstr ds /\ ~ In 32 ds).
  { intros ds F. split.
    - eapply Forall_impl; [|exact F]. intros c Hc. apply b64char_facts in Hc.
      unfold is_char. lia.
    - intros I. rewrite Forall_forall in F. apply F in I. apply b64char_facts in I. lia. }
  destruct (Z.ltb_spec v 0) as [Hn|Hp].
  - destruct (b64_put_spec 10 (-v) [] ltac:(rewrite P66; lia)) as [ds [P [L [F V]]]].
    rewrite P, app_nil_r. exists (45 :: ds). destruct (Hd ds F) as [C N].
    split; [reflexivity|]. split; [simpl; lia|]. split; [constructor; [unfold is_char; lia|auto]|].
    split; [intros [I|I]; [lia|auto]|].
    assert (W : to_int64 (- v) = - v).
    { unfold to_int64, two64. rewrite Z.mod_small by lia.
      destruct (Z.ltb_spec (-v) (2^63)); lia. }
    split; intros rest S; unfold from_base64; cbn [app];
      rewrite (from_loop_digits ds rest 0) by (auto; try lia; rewrite V; unfold two64; lia);
      rewrite V, W; destruct (Z.eqb_spec (-v) int64_min); unfold int64_min in *; try lia;
      f_equal; f_equal; try lia.
  - destruct (b64_put_spec 10 v [] ltac:(rewrite P66; lia)) as [ds [P [L [F V]]]].
    rewrite P, app_nil_r. exists ds. destruct (Hd ds F) as [C N].
    split; [reflexivity|]. split; [simpl; lia|]. split; [auto|]. split; [auto|].
    assert (W : to_int64 v = v).
    { unfold to_int64, two64. rewrite Z.mod_small by lia.
      destruct (Z.ltb_spec v (2^63)); lia. }
    destruct ds as [|c ds]; [simpl in L; lia|].
    inversion F as [|? ? Hc Hr]; subst.
    pose proof (b64char_facts c Hc) as [A [N32 [N45 _]]].
    assert (G : forall rest, stops rest -> from_b64_loop ((c :: ds) ++ rest) 0 0
              = (b64_value 0 (c :: ds), List.length (c :: ds))).
    { intros rest S. rewrite (from_loop_digits (c :: ds) rest 0 0) by (auto; lia || (unfold two64; lia)). reflexivity. }
    assert (G1 : forall rest, stops rest -> from_b64_loop ((c :: ds) ++ rest) 0 1
              = (b64_value 0 (c :: ds), S (List.length (c :: ds)))).
    { intros rest S. rewrite (from_loop_digits (c :: ds) rest 0 1) by (auto; lia || (unfold two64; lia)). reflexivity. }
    assert (M1 : forall rest, from_base64 ((c :: ds) ++ rest) =
       let '(val, i) := from_b64_loop ((c :: ds) ++ rest) 0 0 in Some (to_int64 val, i)).
    { intros rest. unfold from_base64. cbn [app].
      destruct c as [|c|c]; try reflexivity;
      repeat (destruct c as [c|c|]; try reflexivity; try lia). }
    assert (M2 : forall rest, from_base64 (32 :: (c :: ds) ++ rest) =
       let '(val, i) := from_b64_loop ((c :: ds) ++ rest) 0 1 in Some (to_int64 val, i)).
    { intros rest. unfold from_base64. cbn [app].
      destruct c as [|c|c]; try reflexivity;
      repeat (destruct c as [c|c|]; try reflexivity; try lia). }
    split; intros rest S.
    + rewrite M1, G by auto. rewrite W. reflexivity.
    + rewrite M2, G1 by auto. rewrite W. reflexivity.
Qed.

(* ---- attributes ---- *)
(* Ranges of the C types on the modelled platform. *)
Definition u64 (v : Z) := 0 <= v < 2 ^ 64 /\ v <> 2 ^ 63.
Definition i64 (v : Z) := - 2 ^ 63 < v < 2 ^ 63.
Definition u32 (v : Z) := 0 <= v < 2 ^ 32.
Definition i32 (v : Z) := - 2 ^ 31 <= v < 2 ^ 31.
Definition attrs_ok (a : attrs) : Prop :=
  u64 (st_dev a) /\ u64 (st_ino a) /\ u32 (st_mode a) /\ u64 (st_nlink a) /\
  u32 (st_uid a) /\ u32 (st_gid a) /\ u64 (st_rdev a) /\ i64 (st_size a) /\
  i64 (st_blksize a) /\ i64 (st_blocks a) /\ i64 (st_atime a) /\ i64 (st_mtime a) /\
  i64 (st_ctime a) /\ u64 (winattr a) /\ i32 (compression a) /\ i32 (encryption a) /\
  u64 (salt a) /\ (use_winapi a = 0 \/ use_winapi a = 1).

Definition in64 (v : Z) := int64_min < v <= int64_max.

Lemma enc_fields_ok : forall l, Forall in64 l -> l <> [] ->
  exists s, enc_fields l = Some s /\ (1 <= List.length s <= 13 * List.length l - 1)%nat /\ cstr s.
Proof.
  induction l as [|x l IH]; intros F N; [congruence|].
  inversion F as [|? ? Hx Hl]; subst.
  destruct (base64_roundtrip x Hx) as [s [E [L [C _]]]].
  destruct l as [|y l].
  - simpl. exists s. rewrite E. repeat split; auto; lia.
  - destruct (IH Hl ltac:(congruence)) as [t [E2 [L2 C2]]].
    change (enc_fields (x :: y :: l)) with
      (match to_base64 x, enc_fields (y :: l) with Some a, Some b => Some (a ++ 32 :: b) | _, _ => None end).
    rewrite E, E2. exists (s ++ 32 :: t). split; [reflexivity|]. split.
    + rewrite app_length. simpl in *. lia.
    + apply cstr_app. split; auto. constructor; auto. unfold is_char; lia.
Qed.

(* Running the decoder over the encoding performs exactly the updates. *)
Fixpoint run_steps (steps : list ((attrs -> attrs) * (Z -> attrs -> attrs))) (l : list Z) (a : attrs) : attrs :=
  match steps, l with
  | (pre, plug) :: r, v :: l' => run_steps r l' (plug v (pre a))
  | _, _ => a
  end.

Lemma dec_enc : forall steps l a s lead,
  List.length steps = List.length l -> Forall in64 l -> enc_fields l = Some s -> l <> [] ->
  (lead = [] \/ lead = [32]) ->
  dec_loop steps (lead ++ s) a = Some (run_steps steps l a).
Proof.
  induction steps as [|[pre plug] steps IH]; intros l a s lead Len F E N Ld.
  - destruct l; [congruence|discriminate].
  - destruct l as [|x l]; [congruence|].
    inversion F as [|? ? Hx Hl]; subst.
    destruct (base64_roundtrip x Hx) as [t [Et [L [C [_ [D0 D1]]]]]].
    assert (exists rest, s = t ++ rest /\ stops rest /\
      ((l = [] /\ rest = []) \/ (l <> [] /\ exists s', enc_fields l = Some s' /\ rest = 32 :: s'))) as [rest [Es [St Hr]]].
    { destruct l as [|y l].
      - simpl in E. rewrite Et in E. inversion E; subst. exists []. rewrite app_nil_r.
        split; auto. split; [left; auto|]. left; auto.
      - change (enc_fields (x :: y :: l)) with
          (match to_base64 x, enc_fields (y :: l) with Some a, Some b => Some (a ++ 32 :: b) | _, _ => None end) in E.
        rewrite Et in E. destruct (enc_fields (y :: l)) as [u|] eqn:Eu; [|discriminate].
        inversion E; subst. exists (32 :: u). split; auto. split; [right; eauto|].
        right. split; [congruence|]. exists u. auto. }
    subst s.
    assert (K : exists n, from_base64 (lead ++ t ++ rest) = Some (x, S n) /\
                     skipn (S n) (lead ++ t ++ rest) = rest).
    { assert (SK : skipn (List.length t) (t ++ rest) = rest).
      { rewrite skipn_app, skipn_all, Nat.sub_diag. reflexivity. }
      destruct Ld as [Ld|Ld]; subst lead.
      - simpl app. rewrite (D0 rest St). destruct t as [|c t']; [simpl in L; lia|].
        exists (List.length t'). split; [reflexivity|]. exact SK.
      - cbn [app]. rewrite (D1 rest St). exists (List.length t). split; [reflexivity|].
        cbn [skipn]. exact SK. }
    destruct K as [n [K1 K2]].
    cbn [dec_loop run_steps]. rewrite K1, K2.
    destruct Hr as [[-> Rn]|[Nl [s' [E' Rn]]]]; subst rest.
    + simpl in Len. destruct steps; [reflexivity|discriminate].
    + apply (IH l _ s' [32]); auto.
Qed.

Lemma to_int64_range : forall v, int64_min <= to_int64 v <= int64_max.
Proof.
  intros. unfold to_int64, int64_min, int64_max, two64.
  pose proof (Z.mod_pos_bound v (2^64) ltac:(lia)).
  destruct (Z.ltb_spec (v mod 2^64) (2^63)); lia.
Qed.
Lemma to_int64_min : forall v, u64 v -> in64 (to_int64 v).
Proof.
  intros v [H1 H2]. unfold in64. pose proof (to_int64_range v) as R.
  split; [|lia]. assert (to_int64 v <> int64_min); [|lia].
  unfold to_int64, int64_min, two64. rewrite Z.mod_small by lia.
  destruct (Z.ltb_spec v (2^63)); lia.
Qed.
Lemma cast_u64 : forall v, u64 v -> to_uint64 (to_int64 v) = v.
Proof.
  intros v [H _]. unfold to_uint64, to_int64, two64. rewrite (Z.mod_small v) by lia.
  destruct (Z.ltb_spec v (2^63)).
  - apply Z.mod_small; lia.
  - rewrite <- (Z.mod_add _ 1) by lia. rewrite Z.mod_small; lia.
Qed.
Lemma cast_u32 : forall v, u32 v -> to_uint32 v = v.
Proof. intros v H. unfold to_uint32. apply Z.mod_small. exact H. Qed.
Lemma cast_i64 : forall v, i64 v -> to_int64 v = v.
Proof.
  intros v H. unfold to_int64, two64, i64 in *.
  destruct (Z.leb_spec 0 v).
  - rewrite Z.mod_small by lia. destruct (Z.ltb_spec v (2^63)); lia.
  - rewrite <- (Z.mod_add v 1) by lia. rewrite Z.mod_small by lia.
    destruct (Z.ltb_spec (v + 1 * 2^64) (2^63)); lia.
Qed.
Lemma cast_i32 : forall v, i32 v -> to_int32 v = v.
Proof.
  intros v H. unfold to_int32, i32 in *.
  destruct (Z.leb_spec 0 v).
  - rewrite Z.mod_small by lia. destruct (Z.ltb_spec v (2^31)); lia.
  - rewrite <- (Z.mod_add v 1) by lia. rewrite Z.mod_small by lia.
    destruct (Z.ltb_spec (v + 1 * 2^32) (2^31)); lia.
Qed.

Lemma attr_fields_in64 : forall a, attrs_ok a -> Forall in64 (attr_fields a).
Proof.
  intros a H. unfold attrs_ok in H.
  destruct H as (H1&H2&H3&H4&H5&H6&H7&H8&H9&H10&H11&H12&H13&H14&H15&H16&H17&H18).
  unfold attr_fields.
  repeat (apply Forall_cons; [first [apply to_int64_min; assumption
     | unfold in64, int64_min, int64_max, i64, u32, i32 in *; try (destruct (use_winapi a =? 0)); lia ]|]).
  constructor.
Qed.

Lemma attribs_roundtrip : forall a old, attrs_ok a ->
  exists s, attribs_encode a = Some s /\ cstr s /\
    Z.of_nat (List.length s) + 1 <= attr_buf_size /\
    attribs_decode s old = Some a.
Proof.
  intros a old H. pose proof (attr_fields_in64 a H) as F.
  destruct (enc_fields_ok (attr_fields a) F ltac:(discriminate)) as [s [E [L C]]].
  exists s. unfold attribs_encode. split; [exact E|]. split; [exact C|]. split.
  - unfold attr_buf_size. change (List.length (attr_fields a)) with 19%nat in L. lia.
  - unfold attribs_decode.
    change s with ([] ++ s).
    rewrite (dec_enc dec_steps (attr_fields a) old s []); auto; try discriminate.
    f_equal. destruct old, a. unfold attrs_ok in H.
    cbv [dec_steps attr_fields run_steps set_dev set_ino set_mode set_nlink set_uid set_gid
      set_rdev set_size set_blksize set_blocks set_atime set_mtime set_ctime set_winattr
      set_compression set_encryption set_salt set_winapi
      AttribsModel.st_dev AttribsModel.st_ino AttribsModel.st_mode AttribsModel.st_nlink
      AttribsModel.st_uid AttribsModel.st_gid AttribsModel.st_rdev AttribsModel.st_size
      AttribsModel.st_blksize AttribsModel.st_blocks AttribsModel.st_atime
      AttribsModel.st_mtime AttribsModel.st_ctime AttribsModel.winattr
      AttribsModel.compression AttribsModel.encryption AttribsModel.salt
      AttribsModel.use_winapi] in *.
    destruct H as (H1&H2&H3&H4&H5&H6&H7&H8&H9&H10&H11&H12&H13&H14&H15&H16&H17&H18).
    rewrite !cast_u64, !cast_u32, !cast_i64, !cast_i32 by assumption.
    destruct H18 as [-> | ->]; reflexivity.
Qed.

(* The excluded values really are excluded by the code, not by the proof. *)
Lemma base64_min_undefined : to_base64 int64_min = None.
Proof. reflexivity. Qed.
