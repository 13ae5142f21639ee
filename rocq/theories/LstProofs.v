(* What the client prints of a list, and what can be done with it. *)
From Coq Require Import Sorting.Sorted.
From Verif Require Import Bytes PathcmpModel PathcmpProofs CmdModel CmdProofs AttribsModel AttribsProofs FrameModel FrameProofs
  SbufModel SbufProofs MergeModel MergeProofs DpthModel BuModel BuProofs CntrModel CntrProofs
  RestoreModel RestoreProofs Phase2Model ListModel ListProofs LstModel.
Ltac Zify.zify_post_hook ::= idtac.

(* ---------- specification: how things look ---------- *)

(* The letters of a mode, as ls(1) has them: bits 12-15 are the type, then
   rwx for the owner, the group and the rest, with setuid, setgid and sticky. *)
Definition perm (m k : Z) (c : Z) : Z := if Z.testbit m k then c else 45.
Definition perm_x (m hi lo : Z) (both only : Z) : Z :=
  match Z.testbit m hi, Z.testbit m lo with
  | true, true => both | true, false => only | false, true => 120 | false, false => 45
  end.
Definition mode_text (m : Z) : bytes :=
  [nth (Z.to_nat (m / 4096 mod 16)) (str "-pc-d-b---l-s---") 0;
   perm m 8 114; perm m 7 119; perm_x m 11 6 115 83;
   perm m 5 114; perm m 4 119; perm_x m 10 3 115 83;
   perm m 2 114; perm m 1 119; perm_x m 9 0 116 84].

(* The decimal digits of a number, none to spare in front. *)
Definition dec (n : Z) (d : bytes) : Prop :=
  d <> [] /\ digits d /\ val d 0 = n /\ (d = [48] \/ hd0 d <> 48).
(* A number right-justified in at least w columns. *)
Definition just (fillc : Z) (w : nat) (n : Z) (f : bytes) : Prop :=
  exists k d, f = repeat fillc k ++ d /\ dec n d /\ List.length f = Nat.max w (List.length d).

Definition time_text (t : option tm) (f : bytes) : Prop :=
  match t with
  | None => f = []
  | Some t => exists y mo d h mi s,
      just 48 4 (t_year t) y /\ just 48 2 (t_mon t) mo /\ just 48 2 (t_day t) d /\
      just 48 2 (t_hour t) h /\ just 48 2 (t_min t) mi /\ just 48 2 (t_sec t) s /\
      f = y ++ str "-" ++ mo ++ str "-" ++ d ++ str " " ++ h ++ str ":" ++ mi ++ str ":" ++ s
  end.

(* What localtime() gives: the year is not before the year 0. *)
Definition tm_ok (t : tm) : Prop :=
  0 <= t_year t < 2 ^ 31 /\ 1 <= t_mon t <= 12 /\ 1 <= t_day t <= 31 /\
  0 <= t_hour t <= 23 /\ 0 <= t_min t <= 59 /\ 0 <= t_sec t <= 60.

Definition opt_nl (label : string) (o : option bytes) : bytes :=
  match o with Some s => str label ++ s ++ str "
" | None => [] end.

(* ---------- the letters of a mode ---------- *)

Lemma bit_testbit : forall m k, 0 <= k -> bit m (2 ^ k) = Z.testbit m k.
Proof.
  intros m k K. unfold bit. destruct (Z.testbit m k) eqn:T.
  - destruct (Z.eqb_spec (Z.land m (2 ^ k)) 0) as [E|E]; [|reflexivity].
    assert (B : Z.testbit (Z.land m (2 ^ k)) k = true) by (rewrite Z.land_spec, T, Z.pow2_bits_true by lia; reflexivity).
    rewrite E, Z.bits_0 in B. discriminate.
  - replace (Z.land m (2 ^ k)) with 0; [reflexivity|]. symmetry. apply Z.bits_inj'. intros i I.
    rewrite Z.bits_0, Z.land_spec. destruct (Z.eq_dec i k) as [->|N].
    + rewrite T. reflexivity.
    + rewrite Z.pow2_bits_false by lia. apply andb_false_r.
Qed.

Lemma type_bits : forall m, Z.land m 61440 = (m / 4096 mod 16) * 4096.
Proof.
  intros m. change 16 with (2 ^ 4). change 4096 with (2 ^ 12). rewrite <- Z.land_ones by lia.
  rewrite <- Z.shiftr_div_pow2, <- Z.shiftl_mul_pow2 by lia. apply Z.bits_inj'. intros i I.
  rewrite Z.land_spec, Z.shiftl_spec by lia. change 61440 with (Z.shiftl (Z.ones 4) 12).
  rewrite Z.shiftl_spec by lia. destruct (Z.ltb_spec i 12).
  - rewrite !(Z.testbit_neg_r _ (i - 12)) by lia. apply andb_false_r.
  - rewrite Z.land_spec, Z.shiftr_spec by lia. replace (i - 12 + 12) with i by lia. reflexivity.
Qed.

Lemma encode_mode_text : forall m, encode_mode m = mode_text m.
Proof.
  intros m. unfold encode_mode, mode_text.
  assert (B : forall k b, 0 <= k -> b = 2 ^ k -> bit m b = Z.testbit m k) by (intros; subst; apply bit_testbit; auto).
  rewrite (B 8 256), (B 7 128), (B 11 2048), (B 6 64), (B 5 32), (B 4 16), (B 10 1024), (B 3 8), (B 2 4), (B 1 2),
    (B 9 512), (B 0 1) by (reflexivity || lia).
  refine (f_equal2 cons _ _).
  2:{ unfold perm, perm_x. repeat match goal with |- context [if ?x then _ else _] => destruct x end; reflexivity. }
  unfold mode_is. rewrite type_bits. assert (R : 0 <= m / 4096 mod 16 < 16) by (apply Z.mod_pos_bound; lia).
  set (t := m / 4096 mod 16) in *. clearbody t.
  assert (C : t = 0 \/ t = 1 \/ t = 2 \/ t = 3 \/ t = 4 \/ t = 5 \/ t = 6 \/ t = 7 \/ t = 8 \/ t = 9 \/ t = 10 \/
    t = 11 \/ t = 12 \/ t = 13 \/ t = 14 \/ t = 15) by lia.
  repeat (destruct C as [->|C]; [vm_compute; reflexivity|]). subst. vm_compute. reflexivity.
Qed.

(* ---------- numbers ---------- *)

Lemma dec_digits_lead : forall f n acc, 0 < n < 10 ^ Z.of_nat f -> hd0 (dec_digits f n acc) <> 48.
Proof.
  induction f as [|f IH]; intros n acc H.
  - change (10 ^ Z.of_nat 0) with 1 in H. lia.
  - cbn [dec_digits]. destruct (Z.eqb_spec (n / 10) 0) as [E|E].
    + cbn [hd0]. apply Z.div_small_iff in E; [|lia]. rewrite Z.mod_small by lia. lia.
    + apply IH. rewrite Nat2Z.inj_succ, Z.pow_succ_r in H by lia.
      assert (0 <= n / 10) by (apply Z.div_pos; lia).
      split; [lia|]. apply Z.div_lt_upper_bound; lia.
Qed.

Lemma fmt_u_dec : forall n, is_u64 n -> dec n (fmt_u n).
Proof.
  intros n H. destruct (fmt_u_spec n H) as (D & L & V). repeat split; auto.
  - intros E. rewrite E in L. cbn in L. lia.
  - destruct (Z.eq_dec n 0) as [->|N]; [left; reflexivity|right].
    unfold fmt_u. rewrite u64_small by auto. apply dec_digits_lead. unfold is_u64 in H.
    change (10 ^ Z.of_nat 20) with 100000000000000000000. change (2 ^ 64) with 18446744073709551616 in H. lia.
Qed.

Lemma padl_just : forall w n, is_u64 n -> just 32 w n (padl w (fmt_u n)).
Proof.
  intros w n H. exists (w - List.length (fmt_u n))%nat, (fmt_u n). split; [reflexivity|].
  split; [apply fmt_u_dec; auto|]. unfold padl. rewrite app_length, repeat_length. lia.
Qed.

Lemma padz_just : forall w n, is_u64 n -> just 48 w n (padz w n).
Proof.
  intros w n H. exists (w - List.length (fmt_u n))%nat, (fmt_u n). unfold padz.
  assert (n <? 0 = false) as -> by (unfold is_u64 in H; apply Z.ltb_ge; lia).
  split; [reflexivity|]. split; [apply fmt_u_dec; auto|]. rewrite app_length, repeat_length. lia.
Qed.

Lemma fmt_d_small : forall n, 0 <= n < 2 ^ 31 -> fmt_d (s32 n) = fmt_u n.
Proof.
  intros n H. unfold s32. rewrite Z.mod_small by lia. assert (n <? 2 ^ 31 = true) as -> by (apply Z.ltb_lt; lia).
  unfold fmt_d. assert (n <? 0 = false) as -> by (apply Z.ltb_ge; lia). reflexivity.
Qed.

Lemma padl_len : forall w s, (List.length (padl w s) = Nat.max w (List.length s))%nat.
Proof. intros w s. unfold padl. rewrite app_length, repeat_length. lia. Qed.

Lemma fmt_u_short : forall n k, 0 <= n < 10 ^ Z.of_nat (S k) -> is_u64 n -> (S k <= 20)%nat ->
  (List.length (fmt_u n) <= S k)%nat.
Proof.
  intros n k H U K. unfold fmt_u. rewrite u64_small by auto.
  destruct (dec_digits_spec k 20 n [] H K) as (d & E & L & _). rewrite E, app_nil_r. lia.
Qed.

Lemma int_is_u64 : forall n, 0 <= n < 2 ^ 31 -> is_u64 n.
Proof. intros n H. unfold is_u64. change (2 ^ 64) with 18446744073709551616. change (2 ^ 31) with 2147483648 in H. lia. Qed.

Lemma padz_len : forall w n k, 0 <= n < 10 ^ Z.of_nat (S k) -> n < 2 ^ 31 -> (S k <= 20)%nat ->
  (List.length (padz w n) <= Nat.max w (S k))%nat.
Proof.
  intros w n k H B K. unfold padz. assert (n <? 0 = false) as -> by (apply Z.ltb_ge; lia).
  rewrite app_length, repeat_length.
  pose proof (fmt_u_short n k H (int_is_u64 n ltac:(lia)) K). lia.
Qed.

Lemma encode_time_len : forall t, (forall x, t = Some x -> tm_ok x) -> (List.length (encode_time t) <= 26)%nat.
Proof.
  intros [t|] H; [|cbn; lia]. specialize (H t eq_refl). destruct H as (Y & M & D & Ho & Mi & S).
  change (2 ^ 31) with 2147483648 in Y.
  assert (P : forall n, 0 <= n <= 60 -> (List.length (padz 2 n) <= 2)%nat).
  { intros n G. pose proof (padz_len 2 n 1) as X. change (10 ^ Z.of_nat 2) with 100 in X.
    change (2 ^ 31) with 2147483648 in X. specialize (X ltac:(lia) ltac:(lia) ltac:(lia)). lia. }
  assert (Q : (List.length (padz 4 (t_year t)) <= 10)%nat).
  { pose proof (padz_len 4 (t_year t) 9) as X. change (10 ^ Z.of_nat 10) with 10000000000 in X.
    change (2 ^ 31) with 2147483648 in X. specialize (X ltac:(lia) ltac:(lia) ltac:(lia)). lia. }
  unfold encode_time. repeat (rewrite app_length; cbn [List.length]).
  pose proof (P (t_mon t) ltac:(lia)). pose proof (P (t_day t) ltac:(lia)). pose proof (P (t_hour t) ltac:(lia)).
  pose proof (P (t_min t) ltac:(lia)). pose proof (P (t_sec t) ltac:(lia)). lia.
Qed.

Lemma encode_time_text : forall t, (forall x, t = Some x -> tm_ok x) -> time_text t (encode_time t).
Proof.
  intros [t|] H; [|reflexivity]. specialize (H t eq_refl). destruct H as (Y & M & D & Ho & Mi & S).
  change (2 ^ 31) with 2147483648 in Y.
  exists (padz 4 (t_year t)), (padz 2 (t_mon t)), (padz 2 (t_day t)), (padz 2 (t_hour t)), (padz 2 (t_min t)), (padz 2 (t_sec t)).
  repeat (split; [apply padz_just; apply int_is_u64; change (2 ^ 31) with 2147483648; lia|]). reflexivity.
Qed.

(* ---------- the buffer ---------- *)

Definition ls_ok (b : lsbuf) : Prop := 128 <= l_len b /\ (l_there b = false -> l_len b = 128).

Lemma grow_ok : forall f need b, ls_ok b -> need <= l_len b * 2 ^ Z.of_nat f ->
  ls_ok (grow f need b) /\ need <= l_len (grow f need b) /\
  (128 < need -> l_there (grow f need b) = true).
Proof.
  induction f as [|f IH]; intros need b O N; cbn [grow].
  - change (2 ^ Z.of_nat 0) with 1 in N. split; [auto|]. split; [lia|]. intros G.
    destruct O as [O1 O2]. destruct (l_there b); auto. specialize (O2 eq_refl). lia.
  - destruct (Z.gtb_spec need (l_len b)) as [G|G].
    + apply IH.
      * destruct O as [O1 O2]. split; cbn; [lia|discriminate].
      * cbn [l_len]. rewrite Nat2Z.inj_succ, Z.pow_succ_r in N by lia. lia.
    + split; [auto|]. split; [lia|]. intros H. destruct O as [O1 O2]. destruct (l_there b); auto. specialize (O2 eq_refl). lia.
Qed.

(* ---------- specification: the answer and what is printed of it ---------- *)

(* An answer is made of headings and entries: the kind, the attributes, the
   bytes sent for attributes, path and (for links) target. *)
Inductive item := IHead (t : bytes) | IEnt (c : Z) (a : attrs) (sa p : bytes) (l : option bytes).

Definition imsgs (i : item) : list (Z * bytes) :=
  match i with
  | IHead t => [(CMD_TIMESTAMP, t)]
  | IEnt c a sa p l => (CMD_ATTRIBS, sa) :: (c, p) :: match l with Some t => [(c, t)] | None => [] end
  end.

Definition plain_kind (c : Z) : Prop := In c [CMD_DIRECTORY; CMD_FILE; CMD_ENC_FILE; CMD_EFS_FILE; CMD_SPECIAL].
Definition link_kind (c : Z) : Prop := c = CMD_SOFT_LINK \/ c = CMD_HARD_LINK.

Definition item_ok (i : item) : Prop :=
  match i with
  | IHead _ => True
  | IEnt c a sa p l =>
      attrs_ok a /\ (forall old, attribs_decode (cview sa) old = Some a) /\ p <> [] /\
      Z.of_nat (List.length p) <= 2 ^ 32 /\
      match l with None => plain_kind c | Some _ => link_kind c end
  end.

Section Client.
Variable localtime : Z -> option tm.
Hypothesis lt_ok : forall s t, localtime s = Some t -> tm_ok t.

(* A line of the long format.  Numbers of 2^31 and more are another matter. *)
Definition long_line (a : attrs) (name : bytes) (l : option bytes) (s : bytes) : Prop :=
  exists nl u g sz t,
    s = mode_text (st_mode a) ++ str " " ++ nl ++ str " " ++ u ++ str " " ++ g ++ str " " ++ sz ++ str " " ++ t ++ str " "
        ++ name ++ match l with Some x => str " -> " ++ cview x | None => [] end ++ [10] /\
    (st_nlink a < 2 ^ 31 -> just 32 2 (st_nlink a) nl) /\
    (st_uid a < 2 ^ 31 -> just 32 5 (st_uid a) u) /\
    (st_gid a < 2 ^ 31 -> just 32 5 (st_gid a) g) /\
    (0 <= st_size a -> just 32 7 (st_size a) sz) /\
    time_text (localtime (st_mtime a)) t.

Definition printed (act : lact) (bd rx : option bytes) (i : item) (s : bytes) : Prop :=
  match act, i with
  | AParse, IHead _ => s = []
  | _, IHead t => s = str "Backup: " ++ cview t ++ [10] ++ opt_nl "Listing directory: " bd ++ opt_nl "With regex: " rx
  | ALong, IEnt c a sa p l => long_line a (cview p) l s
  | AParse, IEnt c a sa p l =>
      Z.of_nat (List.length p) <= 65535 -> cstr p -> s = frame (CMD_FILE, p)
  | _, IEnt c a sa p l => s = cview p ++ [10]
  end.

Lemma cview_length : forall s, (List.length (cview s) <= List.length s)%nat.
Proof. induction s as [|c s IH]; cbn [cview]; [lia|]. destruct (c =? 0); cbn [List.length]; lia. Qed.

Lemma ls_line_len : forall a p, (List.length (ls_to_buf localtime a (cview p)) <= List.length p + 127)%nat.
Proof.
  intros a p. unfold ls_to_buf. repeat (rewrite app_length; cbn [List.length]). rewrite !padl_len.
  pose proof (fmt_d_zl (s32 (st_nlink a))). pose proof (fmt_d_zl (s32 (st_uid a))). pose proof (fmt_d_zl (s32 (st_gid a))).
  pose proof (fmt_u_zl' (st_size a)). unfold zl in *.
  pose proof (encode_time_len (localtime (st_mtime a)) (lt_ok _)). pose proof (cview_length p).
  cbn [List.length encode_mode]. lia.
Qed.

Lemma ls_long_ok : forall b a p l, ls_ok b -> p <> [] -> Z.of_nat (List.length p) <= 2 ^ 32 ->
  exists b', ls_ok b' /\
    ls_long_output localtime b a p l =
      Some (b', ls_to_buf localtime a (cview p) ++ match l with Some x => str " -> " ++ cview x | None => [] end ++ [10]).
Proof.
  intros b a p l B N L. unfold ls_long_output.
  destruct (grow_ok 64 (Z.of_nat (List.length p) + 128) b B) as (O & G & T).
  { destruct B as [B _]. change (2 ^ Z.of_nat 64) with 18446744073709551616. change (2 ^ 32) with 4294967296 in L. lia. }
  set (b' := grow 64 (Z.of_nat (List.length p) + 128) b) in *. clearbody b'.
  exists b'. split; [exact O|]. rewrite T.
  2:{ destruct p; [congruence|]. cbn [List.length]. lia. }
  cbn [negb]. pose proof (ls_line_len a p).
  assert (l_len b' <? Z.of_nat (List.length (ls_to_buf localtime a (cview p))) + 1 = false) as -> by (apply Z.ltb_ge; lia).
  reflexivity.
Qed.

Lemma long_line_ok : forall a p l, attrs_ok a ->
  long_line a (cview p) l
    (ls_to_buf localtime a (cview p) ++ match l with Some x => str " -> " ++ cview x | None => [] end ++ [10]).
Proof.
  intros a p l A. unfold long_line, ls_to_buf.
  exists (padl 2 (fmt_d (s32 (st_nlink a)))), (padl 5 (fmt_d (s32 (st_uid a)))), (padl 5 (fmt_d (s32 (st_gid a)))),
    (padl 7 (fmt_u (st_size a))), (encode_time (localtime (st_mtime a))).
  unfold attrs_ok in A. destruct A as (_ & _ & _ & A1 & A2 & A3 & _ & A4 & _).
  unfold AttribsProofs.u64, u32, i64 in *.
  split.
  { rewrite encode_mode_text. change (str " ") with [32]. repeat (rewrite <- app_assoc; cbn [app]). reflexivity. }
  split; [intros H; rewrite fmt_d_small by lia; apply padl_just; apply int_is_u64; lia|].
  split; [intros H; rewrite fmt_d_small by lia; apply padl_just; apply int_is_u64; lia|].
  split; [intros H; rewrite fmt_d_small by lia; apply padl_just; apply int_is_u64; lia|].
  split; [intros H; apply padl_just; unfold is_u64; lia|].
  apply encode_time_text. apply lt_ok.
Qed.

Lemma parse_frame : forall p, Z.of_nat (List.length p) <= 65535 -> cstr p ->
  ls_short_output true p = frame (CMD_FILE, p).
Proof.
  intros p L C. unfold ls_short_output, frame. cbn [fst snd]. rewrite fmt_04X_small by lia.
  rewrite cview_cstr_id by exact C. reflexivity.
Qed.

Lemma item_printed : forall act bd rx b c a sa p l, ls_ok b -> item_ok (IEnt c a sa p l) ->
  exists b' s, ls_ok b' /\ list_item localtime act b a p l = Some (b', s) /\ printed act bd rx (IEnt c a sa p l) s.
Proof.
  intros act bd rx b c a sa p l B (A & D & N & L & _). unfold list_item.
  destruct (is_long act) eqn:E.
  - destruct (ls_long_ok b a p l B N L) as (b' & O & X). rewrite X. do 2 eexists. split; [exact O|]. split; [reflexivity|].
    destruct act; try discriminate. cbn [printed]. apply long_line_ok. exact A.
  - do 2 eexists. split; [exact B|]. split; [reflexivity|].
    destruct act; try discriminate; cbn [printed is_parse]; try reflexivity. apply parse_frame.
Qed.

Lemma plain_listed : forall c, plain_kind c -> lists_plain c = true.
Proof. intros c H. cbn in H. unfold lists_plain. intuition (subst; reflexivity). Qed.
Lemma link_listed : forall c, link_kind c -> lists_plain c = false /\ cmd_is_link c = true.
Proof. intros c [->| ->]; split; reflexivity. Qed.

Lemma client_prints_then : forall act bd rx items b ms, ls_ok b -> Forall item_ok items ->
  exists lines b', Forall2 (printed act bd rx) items lines /\ ls_ok b' /\
    list_loop localtime act bd rx b (flat_map imsgs items ++ ms) =
      (List.concat lines ++ fst (list_loop localtime act bd rx b' ms), snd (list_loop localtime act bd rx b' ms)).
Proof.
  intros act bd rx. induction items as [|i items IH]; intros b ms B F.
  - exists [], b. split; [constructor|]. split; [exact B|]. cbn [flat_map app List.concat].
    destruct (list_loop localtime act bd rx b ms); reflexivity.
  - inversion F as [|? ? O F']; subst. destruct i as [t|c a sa p l].
    + destruct (IH b ms B F') as (lines & b' & P & B' & E). exists (print_heading act bd rx t :: lines), b'.
      split; [|split; [exact B'|]].
      * constructor; [|exact P]. unfold printed, print_heading, opt_nl.
        destruct act; cbn [is_parse]; try reflexivity; destruct bd, rx; cbn [app]; rewrite ?app_nil_r, <- ?app_assoc; reflexivity.
      * cbn [flat_map imsgs app list_loop]. change (CMD_TIMESTAMP =? CMD_MESSAGE) with false.
        change (CMD_TIMESTAMP =? CMD_TIMESTAMP) with true. cbv iota. rewrite E. cbn [List.concat]. rewrite <- app_assoc. reflexivity.
    + destruct (item_printed act bd rx b c a sa p l B O) as (b1 & s & B1 & X & Y).
      destruct (IH b1 ms B1 F') as (lines & b' & P & B' & E). exists (s :: lines), b'. split; [constructor; auto|].
      split; [exact B'|]. destruct O as (A & D & N & L & K).
      cbn [flat_map imsgs app list_loop]. change (CMD_ATTRIBS =? CMD_MESSAGE) with false.
      change (CMD_ATTRIBS =? CMD_TIMESTAMP) with false. change (negb (CMD_ATTRIBS =? CMD_ATTRIBS)) with false. cbv iota.
      rewrite D. cbn [List.concat]. destruct l as [t|].
      * destruct (link_listed c K) as [-> ->]. cbn [app]. rewrite Z.eqb_refl. cbn [negb]. rewrite X, E, <- app_assoc. reflexivity.
      * rewrite (plain_listed c K), X. cbn [app]. rewrite E, <- app_assoc. reflexivity.
Qed.

Theorem client_prints : forall act bd rx items b, ls_ok b -> Forall item_ok items ->
  exists lines, Forall2 (printed act bd rx) items lines /\
    list_loop localtime act bd rx b (flat_map imsgs items) = (List.concat lines, Ret 0).
Proof.
  intros act bd rx items b B F. destruct (client_prints_then act bd rx items b [] B F) as (lines & b' & P & _ & E).
  exists lines. split; [exact P|]. rewrite app_nil_r in E. rewrite E. cbn. rewrite app_nil_r. reflexivity.
Qed.

(* Cut off anywhere: the lines of the entries that came whole. *)
Theorem client_cut : forall act bd rx items b k, ls_ok b -> Forall item_ok items ->
  exists j lines r, Forall2 (printed act bd rx) (firstn j items) lines /\
    list_loop localtime act bd rx b (firstn k (flat_map imsgs items)) = (List.concat lines, Ret r) /\
    (List.length (flat_map imsgs (firstn j items)) <= k)%nat /\
    (r = 0 <-> firstn k (flat_map imsgs items) = flat_map imsgs (firstn j items)) /\ (r = 0 \/ r = -1).
Proof.
  intros act bd rx items b k B F.
  assert (S : exists j rest, firstn k (flat_map imsgs items) = flat_map imsgs (firstn j items) ++ rest /\
    (List.length (flat_map imsgs (firstn j items)) <= k)%nat /\
    (rest = [] \/ exists i n, In i items /\ (0 < n < List.length (imsgs i))%nat /\ rest = firstn n (imsgs i))).
  { clear B F. revert k. induction items as [|i items IH]; intros k.
    - exists 0%nat, []. rewrite firstn_nil. cbn. repeat split; auto. lia.
    - cbn [flat_map]. destruct (le_lt_dec (List.length (imsgs i)) k) as [L|L].
      + destruct (IH (k - List.length (imsgs i))%nat) as (j & rest & E & LE & R).
        exists (S j), rest. rewrite firstn_app, firstn_all2, E by exact L. cbn [firstn flat_map].
        split; [rewrite app_assoc; reflexivity|]. split; [rewrite app_length; lia|].
        destruct R as [R|(i' & n & I & R)]; [auto|]. right. exists i', n. split; [right; exact I|exact R].
      + exists 0%nat, (firstn k (imsgs i)). cbn [firstn flat_map app List.length].
        rewrite firstn_app. replace (k - List.length (imsgs i))%nat with 0%nat by lia. cbn [firstn]. rewrite app_nil_r.
        split; [reflexivity|]. split; [lia|]. destruct k as [|k]; [left; reflexivity|]. right.
        exists i, (S k). split; [left; reflexivity|]. split; [lia|reflexivity]. }
  destruct S as (j & rest & E & LE & R).
  assert (Fj : Forall item_ok (firstn j items)).
  { apply Forall_forall. intros x I. rewrite Forall_forall in F. apply F. rewrite <- (firstn_skipn j items). apply in_app_iff. auto. }
  destruct (client_prints_then act bd rx (firstn j items) b rest B Fj) as (lines & b' & P & B' & X).
  rewrite E, X. destruct R as [->|(i & n & I & N & ->)].
  - exists j, lines, 0. cbn [list_loop fst snd]. rewrite !app_nil_r. repeat split; auto.
  - rewrite Forall_forall in F. specialize (F i I). destruct i as [t|c a sa p l].
    { cbn in N. lia. }
    assert (Z : list_loop localtime act bd rx b' (firstn n (imsgs (IEnt c a sa p l))) = ([], Ret (-1))).
    { destruct F as (A & D & _ & _ & K). cbn [imsgs].
      destruct n as [|[|[|n]]]; [lia| | |].
      - cbn [firstn list_loop]. change (CMD_ATTRIBS =? CMD_MESSAGE) with false.
        change (CMD_ATTRIBS =? CMD_TIMESTAMP) with false. change (negb (CMD_ATTRIBS =? CMD_ATTRIBS)) with false. cbv iota.
        rewrite D. reflexivity.
      - destruct l as [t|]; [|cbn in N; lia].
        cbn [firstn list_loop]. change (CMD_ATTRIBS =? CMD_MESSAGE) with false.
        change (CMD_ATTRIBS =? CMD_TIMESTAMP) with false. change (negb (CMD_ATTRIBS =? CMD_ATTRIBS)) with false. cbv iota.
        rewrite D. destruct (link_listed c K) as [-> ->]. reflexivity.
      - destruct l; cbn in N; lia. }
    rewrite Z. cbn [fst snd]. rewrite app_nil_r. exists j, lines, (-1). repeat split; auto; intros H; [discriminate|].
    exfalso. apply (f_equal (@List.length _)) in H. rewrite app_length, firstn_length_le in H by lia. lia.
Qed.
End Client.

(* ---------- from the server to the client ---------- *)

(* What the client gets of what the server sends, when all of it can be sent: at
   most 65535 bytes a message (/repo/src/asfd.c:380-425).  A message of no bytes is not
   sent at all (/repo/src/asfd.c:479-494); one that is too long is filled up with
   whatever comes after the text. *)
Inductive recv : list lout -> list (Z * bytes) -> Prop :=
| rc_nil : recv [] []
| rc_msg : forall c b o ms, b <> [] -> Z.of_nat (List.length b) <= 65535 -> recv o ms -> recv (LMsg (c, b) :: o) ((c, b) :: ms)
| rc_empty : forall c o ms, recv o ms -> recv (LMsg (c, []) :: o) ms
| rc_none : forall c o ms, recv o ms -> recv (LNone c :: o) ms
| rc_over : forall c b junk o ms, Z.of_nat (S (List.length b) + List.length junk) <= 65535 -> recv o ms ->
    recv (LOver c b (S (List.length b) + List.length junk) :: o) ((c, b ++ 0 :: junk) :: ms).

(* An entry as it stands in a manifest: the attributes are those of the attr
   string, there is a path, links have a target. *)
Definition entry_ok (e : ent) : Prop :=
  faithful e /\
  (exists p, ibuf (e_path e) = Some p /\ p <> [] /\ cstr p /\ Z.of_nat (List.length p) <= 65535) /\
  (plain_kind (e_cmd e) \/
   (link_kind (e_cmd e) /\ icmd (s_link (e_sb e)) = e_cmd e /\ exists t, ibuf (s_link (e_sb e)) = Some t /\ t <> [])).

(* What is listed of it. *)
Definition buf_of (b : iobuf) : bytes := match ibuf b with Some s => s | None => [] end.
Definition ent_item (e : ent) : item :=
  IEnt (e_cmd e) (e_at e) (buf_of (s_attr (e_sb e))) (epath e)
       (if cmd_is_link (e_cmd e) then Some (buf_of (s_link (e_sb e))) else None).

Lemma plain_no_link : forall c, plain_kind c -> cmd_is_link c = false.
Proof. intros c H. cbn in H. intuition (subst; reflexivity). Qed.

Lemma ent_item_ok : forall e, entry_ok e -> item_ok (ent_item e).
Proof.
  intros e ((A & C & s & S & D) & (p & P & N & Cp & L) & K).
  unfold ent_item, item_ok, buf_of. rewrite S. split; [exact A|]. split; [exact D|].
  assert (X : epath e = p) by (unfold epath, text; rewrite P; apply cview_cstr_id; exact Cp).
  rewrite X. split; [exact N|]. split; [change (2 ^ 32) with 4294967296; lia|].
  destruct K as [K|(K & _)].
  - rewrite plain_no_link by exact K. exact K.
  - rewrite (proj2 (link_listed _ K)). exact K.
Qed.

Lemma recv_app : forall o1 o2 ms, recv (o1 ++ o2) ms -> exists m1 m2, ms = m1 ++ m2 /\ recv o1 m1 /\ recv o2 m2.
Proof.
  induction o1 as [|x o1 IH]; intros o2 ms R; cbn [app] in R.
  - exists [], ms. split; [reflexivity|]. split; [constructor|exact R].
  - inversion R; subst;
      match goal with H : recv (o1 ++ o2) _ |- _ => destruct (IH _ _ H) as (m1 & m2 & -> & R1 & R2) end.
    + exists ((c, b) :: m1), m2. split; [reflexivity|]. split; [constructor; auto|exact R2].
    + exists m1, m2. split; [reflexivity|]. split; [constructor; auto|exact R2].
    + exists m1, m2. split; [reflexivity|]. split; [constructor; auto|exact R2].
    + exists ((c, b ++ 0 :: junk) :: m1), m2. split; [reflexivity|]. split; [constructor; auto|exact R2].
Qed.

Lemma attr_msg_ne : forall s a, (forall old, attribs_decode (cview s) old = Some a) -> s <> [].
Proof.
  intros s a D ->. pose proof (D zero_attrs) as D1. pose proof (D (mkattrs 1 1 1 1 1 1 1 1 1 1 1 1 1 1 1 1 1 1)) as D2.
  rewrite <- D1 in D2. vm_compute in D2. discriminate.
Qed.

Lemma recv_one : forall c b o ms, b <> [] -> recv (LMsg (c, b) :: o) ms -> exists m, ms = (c, b) :: m /\ recv o m.
Proof. intros c b o ms N R. inversion R; subst; [eauto|congruence]. Qed.

Lemma recv_entry : forall e o ms, entry_ok e ->
  recv ((send_iobuf (s_attr (e_sb e)) :: send_iobuf (e_path e)
         :: if cmd_is_link (e_cmd e) then [send_iobuf (s_link (e_sb e))] else []) ++ o) ms ->
  exists m, ms = imsgs (ent_item e) ++ m /\ recv o m.
Proof.
  intros e o ms ((A & C & s & S & D) & (p & P & N & Cp & L) & K) R.
  unfold send_iobuf in R. rewrite S, P, C in R. cbn [app] in R.
  apply recv_one in R; [|exact (attr_msg_ne _ _ D)]. destruct R as (m & -> & R).
  apply recv_one in R; [|exact N]. destruct R as (m' & -> & R).
  unfold ent_item, imsgs, buf_of. rewrite S.
  assert (X : epath e = p) by (unfold epath, text; rewrite P; apply cview_cstr_id; exact Cp). rewrite X.
  destruct K as [K|(K & CL & t & T & NT)].
  - rewrite plain_no_link in * by exact K. cbn [app] in R. exists m'. split; [reflexivity|exact R].
  - rewrite (proj2 (link_listed _ K)) in *. rewrite T, CL in R. cbn [app] in R.
    apply recv_one in R; [|exact NT]. destruct R as (m'' & -> & R). rewrite T. exists m''. split; [reflexivity|exact R].
Qed.

Lemma recv_entries : forall es ms, Forall entry_ok es ->
  recv (flat_map (fun e => send_iobuf (s_attr (e_sb e)) :: send_iobuf (e_path e)
                      :: if cmd_is_link (e_cmd e) then [send_iobuf (s_link (e_sb e))] else []) es) ms ->
  ms = flat_map imsgs (map ent_item es).
Proof.
  induction es as [|e es IH]; intros ms F R.
  - inversion R. reflexivity.
  - inversion F; subst. cbn [flat_map] in R. apply recv_entry in R; [|assumption]. destruct R as (m & -> & R).
    cbn [map flat_map]. f_equal. apply IH; auto.
Qed.

(* The entries of a backup that are to be listed. *)
Definition to_list (rx : option (bytes -> bool)) (es : list ent) : list ent :=
  filter (fun e => negb (cmd_is_metadata (e_cmd e)) && accepts rx (epath e)) es.
(* A backup and its heading. *)
Definition backup_items (rx : option (bytes -> bool)) (man : lbu -> list ent) (b : lbu) : list item :=
  IHead (firstn 63 (v_stamp b ++ extradesc b)) :: map ent_item (to_list rx (man b)).

Definition stamped (b : lbu) : Prop := v_stamp b <> [].

Lemma recv_backup : forall rx man b o ms, stamped b -> Forall entry_ok (to_list rx (man b)) ->
  recv ((send_backup_name b :: fst (list_manifest None rx None (man b) MEnd)) ++ o) ms ->
  exists m, ms = flat_map imsgs (backup_items rx man b) ++ m /\ recv o m.
Proof.
  intros rx man b o ms S F R. rewrite full_listing in R. cbn [fst] in R. fold (to_list rx (man b)) in R.
  apply recv_app in R. destruct R as (m1 & m2 & -> & R1 & R2).
  unfold send_backup_name in R1. apply recv_one in R1.
  2:{ unfold stamped in S. destruct (v_stamp b); [congruence|]. discriminate. }
  destruct R1 as (m & -> & R1). apply recv_entries in R1; [|exact F]. subst m.
  exists m2. split; [reflexivity|exact R2].
Qed.

Lemma backup_items_ok : forall rx man b, Forall entry_ok (to_list rx (man b)) -> Forall item_ok (backup_items rx man b).
Proof.
  intros rx man b F. constructor; [exact I|]. apply Forall_map. eapply Forall_impl; [|exact F]. apply ent_item_ok.
Qed.

Lemma many_items : forall rx man l found, 
  Forall (fun b => stamped b /\ Forall entry_ok (to_list rx (man b))) l ->
  snd (list_contents_many (fun b => list_manifest None rx None (man b) MEnd) l found) =
    Some (found || match l with [] => false | _ => true end) /\
  (forall ms, recv (fst (list_contents_many (fun b => list_manifest None rx None (man b) MEnd) l found)) ms ->
   ms = flat_map imsgs (flat_map (backup_items rx man) l)) /\
  Forall item_ok (flat_map (backup_items rx man) l).
Proof.
  intros rx man. induction l as [|b l IH]; intros found F.
  - cbn. rewrite orb_false_r. split; [reflexivity|]. split; [|constructor]. intros ms R. inversion R. reflexivity.
  - inversion F as [|? ? [S E] F']; subst. destruct (IH true F') as (A & B & C).
    cbn [list_contents_many]. pose proof (recv_backup rx man b) as RB.
    assert (T : snd (list_manifest None rx None (man b) MEnd) = true) by (rewrite full_listing; reflexivity).
    destruct (list_manifest None rx None (man b) MEnd) as [o r]. cbn [snd] in T. subst r. cbn [fst] in RB.
    destruct (list_contents_many (fun b0 => list_manifest None rx None (man b0) MEnd) l true) as [o' r'].
    cbn [fst snd] in *. rewrite A. split; [rewrite orb_true_r; reflexivity|].
    split.
    + intros ms R. change (send_backup_name b :: o ++ o') with ((send_backup_name b :: o) ++ o') in R.
      destruct (RB o' ms S E R) as (m & -> & R').
      cbn [flat_map]. rewrite flat_map_app. f_equal. apply B. exact R'.
    + cbn [flat_map]. apply Forall_app. split; [apply backup_items_ok; exact E|exact C].
Qed.

Section Whole.
Variable localtime : Z -> option tm.
Hypothesis lt_ok : forall s t, localtime s = Some t -> tm_ok t.

Lemma ls_init_ok : ls_ok ls_init.
Proof. split; cbn; [lia|reflexivity]. Qed.

(* Contents of all backups. *)
Theorem many_printed : forall act bd prx rx man l backup bno ms,
  l <> [] -> Forall (fun b => stamped b /\ Forall entry_ok (to_list rx (man b))) l ->
  recv (fst (do_list_server_work (fun b => list_manifest None rx None (man b) MEnd) ModeMany backup bno l)) ms ->
  exists lines, Forall2 (printed localtime act bd prx) (flat_map (backup_items rx man) l) lines /\
    list_loop localtime act bd prx ls_init ms = (List.concat lines, Ret 0).
Proof.
  intros act bd prx rx man l backup bno ms N F R. unfold do_list_server_work in R.
  destruct (many_items rx man l false F) as (A & B & C).
  destruct (list_contents_many (fun b => list_manifest None rx None (man b) MEnd) l false) as [o found].
  cbn [fst snd] in *. subst found. destruct l as [|b l]; [congruence|]. cbn [orb fst] in R.
  rewrite (B ms R). apply client_prints; auto. apply ls_init_ok.
Qed.

(* The backup asked for: the first that fits. *)
Definition picked (backup : bytes) (bno : Z) (l : list lbu) (b : lbu) : Prop :=
  exists l1 l2, l = l1 ++ b :: l2 /\ one_matches backup bno b = true /\
    Forall (fun x => one_matches backup bno x = false) l1.

Lemma one_picked : forall cb backup bno l b, picked backup bno l b -> snd (cb b) = true ->
  list_contents_one cb backup bno l = (send_backup_name b :: fst (cb b), Some true).
Proof.
  intros cb backup bno l b (l1 & l2 & -> & M & F) T. induction l1 as [|x l1 IH]; cbn [app list_contents_one].
  - rewrite M. destruct (cb b) as [o r]. cbn [snd fst] in *. subst. reflexivity.
  - inversion F; subst. rewrite H1. apply IH. assumption.
Qed.

Lemma one_none : forall cb backup bno l, Forall (fun x => one_matches backup bno x = false) l ->
  list_contents_one cb backup bno l = ([], Some false).
Proof. intros cb backup bno l F. induction F as [|x l E F IH]; cbn [list_contents_one]; [reflexivity|]. rewrite E. exact IH. Qed.

Theorem one_printed : forall act bd prx rx man l backup bno b ms,
  picked backup bno l b -> stamped b -> Forall entry_ok (to_list rx (man b)) ->
  recv (fst (do_list_server_work (fun b => list_manifest None rx None (man b) MEnd) ModeOne backup bno l)) ms ->
  exists lines, Forall2 (printed localtime act bd prx) (backup_items rx man b) lines /\
    list_loop localtime act bd prx ls_init ms = (List.concat lines, Ret 0).
Proof.
  intros act bd prx rx man l backup bno b ms P S F R. unfold do_list_server_work in R.
  rewrite (one_picked _ backup bno l b P) in R by (rewrite full_listing; reflexivity). cbn [fst] in R.
  rewrite <- (app_nil_r (send_backup_name b :: _)) in R.
  apply recv_backup in R; auto. destruct R as (m & -> & R). inversion R; subst. rewrite app_nil_r.
  apply client_prints; auto; [apply ls_init_ok|apply backup_items_ok; auto].
Qed.

Theorem missing_printed : forall act bd prx cb l backup bno ms,
  Forall (fun x => one_matches backup bno x = false) l ->
  recv (fst (do_list_server_work cb ModeOne backup bno l)) ms ->
  list_loop localtime act bd prx ls_init ms =
    (if is_parse act then [] else str "backup not found" ++ [10], Ret (-1)).
Proof.
  intros act bd prx cb l backup bno ms F R. unfold do_list_server_work in R. rewrite one_none in R by exact F.
  cbn [app fst] in R. apply recv_one in R; [|discriminate]. destruct R as (m & -> & R). inversion R; subst.
  destruct act; vm_compute; reflexivity.
Qed.

Lemma heads_items : forall l ms, Forall stamped l -> recv (map send_backup_name l) ms ->
  ms = flat_map imsgs (map (fun b => IHead (firstn 63 (v_stamp b ++ extradesc b))) l).
Proof.
  induction l as [|b l IH]; intros ms F R; cbn [map] in R; [inversion R; reflexivity|].
  inversion F; subst. unfold send_backup_name in R at 1. apply recv_one in R.
  2:{ unfold stamped in *. destruct (v_stamp b); [congruence|]. discriminate. }
  destruct R as (m & -> & R). cbn [map flat_map imsgs app]. f_equal. apply IH; auto.
Qed.

Theorem backups_printed : forall act bd prx cb l backup bno ms, Forall stamped l ->
  recv (fst (do_list_server_work cb ModeBackups backup bno l)) ms ->
  exists lines,
    Forall2 (printed localtime act bd prx) (map (fun b => IHead (firstn 63 (v_stamp b ++ extradesc b))) l) lines /\
    list_loop localtime act bd prx ls_init ms =
      (List.concat lines ++ (if is_parse act then [] else match l with [] => str "no backups" ++ [10] | _ => [] end), Ret 0).
Proof.
  intros act bd prx cb l backup bno ms F R. unfold do_list_server_work, list_all_backups in R.
  destruct l as [|b l].
  - cbn [map app fst] in R. apply recv_one in R; [|discriminate]. destruct R as (m & -> & R). inversion R; subst.
    exists []. split; [constructor|]. destruct act; vm_compute; reflexivity.
  - cbn [fst] in R. rewrite (heads_items _ _ F R).
    destruct (client_prints localtime lt_ok act bd prx (map (fun b => IHead (firstn 63 (v_stamp b ++ extradesc b))) (b :: l)) ls_init ls_init_ok)
      as (lines & P & E).
    + apply Forall_map. apply Forall_forall. intros; exact I.
    + exists lines. split; [exact P|]. rewrite E. destruct (is_parse act); rewrite app_nil_r; reflexivity.
Qed.

(* ---------- browsing a directory ---------- *)

Definition browse_item (bd : bytes) (it : ent * bytes) (i : item) : Prop :=
  exists a sa p, i = IEnt (e_cmd (fst it)) a sa p
      (if cmd_is_link (e_cmd (fst it)) then Some (buf_of (s_link (e_sb (fst it)))) else None) /\
    cview p = snd it /\
    a = set_mode (st_mode a) (e_at (fst it)) /\
    (marks bd (fst it) -> mode_isdir (st_mode a) = true /\ Z.land (st_mode a) 4095 = Z.land (st_mode (e_at (fst it))) 4095) /\
    (~ marks bd (fst it) -> a = e_at (fst it)).


Lemma recv_name : forall c n m o ms, n <> [] -> name_msg c n m -> recv (m :: o) ms -> cstr n ->
  exists p ms', ms = (c, p) :: ms' /\ cview p = n /\ p <> [] /\ Z.of_nat (List.length p) <= 65535 /\ recv o ms'.
Proof.
  intros c n m o ms N M R C. destruct M as [(b & -> & V)|(k & ->)].
  - inversion R; subst.
    + exists b, ms0. auto.
    + cbn in N. congruence.
  - inversion R; subst. exists (n ++ 0 :: junk), ms0. split; [reflexivity|]. split; [apply cview_app0; exact C|].
    split; [destruct n; discriminate|]. split; [|assumption].
    rewrite app_length. cbn [List.length]. lia.
Qed.

Lemma cstr_of_raw : forall s, raw s -> cstr (cview s).
Proof.
  induction s as [|c s IH]; intros R; cbn [cview]; [constructor|]. inversion R as [|? ? H R']; subst.
  destruct (Z.eqb_spec c 0); [constructor|]. constructor; [|apply IH; exact R']. unfold is_char, is_byte in *. lia.
Qed.

Definition kinds_ok (e : ent) : Prop :=
  plain_kind (e_cmd e) \/
  (link_kind (e_cmd e) /\ icmd (s_link (e_sb e)) = e_cmd e /\ exists t, ibuf (s_link (e_sb e)) = Some t /\ t <> []).

Lemma recv_browse : forall bd its outs o ms,
  Forall2 (item_msgs bd) its outs ->
  Forall (fun it => snd it <> [] /\ cstr (snd it) /\ kinds_ok (fst it) /\ attrs_ok (e_at (fst it))) its ->
  recv (List.concat outs ++ o) ms ->
  exists is ms', Forall2 (browse_item bd) its is /\ Forall item_ok is /\ ms = flat_map imsgs is ++ ms' /\ recv o ms'.
Proof.
  intros bd its outs o ms H. revert ms. induction H as [|[e n] out its outs I H IH]; intros ms F R.
  - exists [], ms. repeat split; auto; constructor.
  - inversion F as [|? ? (N & C & K & AO) F']; subst. cbn [fst snd] in *.
    destruct I as (ma & mn & (s & a & -> & D & SM & MA & NM) & MN & ->). cbn [fst snd] in *.
    cbn [List.concat app] in R. apply recv_one in R; [|exact (attr_msg_ne _ _ D)]. destruct R as (m1 & -> & R).
    apply (recv_name _ _ _ _ _ N MN) in R; [|exact C]. destruct R as (p & m2 & -> & V & NP & LP & R).
    assert (AA : attrs_ok a) by (rewrite SM; apply set_mode_ok; exact AO).
    assert (X : exists m3, m2 = (if cmd_is_link (e_cmd e) then [(e_cmd e, buf_of (s_link (e_sb e)))] else []) ++ m3 /\
      recv (List.concat outs ++ o) m3).
    { destruct K as [K|(K & CL & t & T & NT)].
      - rewrite plain_no_link in * by exact K. exists m2. auto.
      - rewrite (proj2 (link_listed _ K)) in *. unfold send_iobuf in R. rewrite T, CL in R. cbn [app] in R.
        apply recv_one in R; [|exact NT]. destruct R as (m3 & -> & R). exists m3. unfold buf_of. rewrite T. auto. }
    destruct X as (m3 & -> & R'). destruct (IH m3 F' R') as (is & ms' & P & O & E & R'').
    exists (IEnt (e_cmd e) a s p (if cmd_is_link (e_cmd e) then Some (buf_of (s_link (e_sb e))) else None) :: is), ms'.
    split.
    { constructor; [|exact P]. exists a, s, p. cbn [fst snd]. split; [reflexivity|]. auto. }
    split.
    { constructor; [|exact O]. split; [exact AA|]. split; [exact D|]. split; [exact NP|].
      split; [change (2 ^ 32) with 4294967296; lia|]. destruct K as [K|(K & _)].
      - rewrite plain_no_link by exact K. exact K.
      - rewrite (proj2 (link_listed _ K)). exact K. }
    split; [|exact R'']. rewrite E. cbn [flat_map imsgs app].
    destruct (cmd_is_link (e_cmd e)); reflexivity.
Qed.

Theorem browse_printed : forall act prx rx man l bd backup bno b ms,
  picked backup bno l b -> stamped b ->
  manifest_ok (man b) -> Forall (fun e => epath e <> [] /\ faithful e) (man b) ->
  Forall (fun e => shown e -> kinds_ok e) (man b) ->
  (forall e n, In e (man b) -> child bd (epath e) n -> n <> []) ->
  recv (fst (do_list_server_work (fun b => list_manifest (Some bd) rx None (man b) MEnd) ModeOne backup bno l)) ms ->
  exists items is lines, dir_items bd (man b) items /\
    Forall2 (browse_item bd) (filter (fun it => accepts rx (snd it)) items) is /\
    Forall2 (printed localtime act (Some bd) prx) (IHead (firstn 63 (v_stamp b ++ extradesc b)) :: is) lines /\
    list_loop localtime act (Some bd) prx ls_init ms =
      (List.concat lines, Ret (match bd, items with _ :: _, [] => -1 | _, _ => 0 end)).
Proof.
  intros act prx rx man l bd backup bno b ms P S M PF KO NN R.
  assert (NE : Forall (fun e => epath e <> []) (man b)) by (eapply Forall_impl; [|exact PF]; cbn; tauto).
  assert (FF : Forall faithful (man b)) by (eapply Forall_impl; [|exact PF]; cbn; tauto).
  destruct (browse_listing bd rx (man b) MEnd M NE FF) as (items & outs & DI & H & E).
  exists items. unfold do_list_server_work in R.
  rewrite (one_picked _ backup bno l b P) in R by (rewrite E; reflexivity). rewrite E in R. cbn [fst] in R.
  unfold send_backup_name in R. apply recv_one in R.
  2:{ unfold stamped in S. destruct (v_stamp b); [congruence|]. discriminate. }
  destruct R as (m & -> & R).
  assert (F : Forall (fun it => snd it <> [] /\ cstr (snd it) /\ kinds_ok (fst it) /\ attrs_ok (e_at (fst it)))
    (filter (fun it => accepts rx (snd it)) items)).
  { apply Forall_forall. intros [e n] I. apply filter_In in I. destruct I as [I _]. cbn [fst snd].
    destruct DI as (_ & _ & FO & _). destruct (FO e n I) as (e1 & e2 & Em & Sh & Ch & _).
    assert (Ie : In e (man b)) by (rewrite Em; apply in_app_iff; right; left; reflexivity).
    split; [exact (NN e n Ie Ch)|]. rewrite Forall_forall in FF, KO. destruct M as [M _]. rewrite Forall_forall in M.
    destruct (M e Ie) as (s & Bs & Rs & _).
    split; [|split; [exact (KO e Ie Sh)|apply (FF e Ie)]].
    apply (child_cstr bd (epath e)); [|exact Ch]. unfold epath, text. rewrite Bs. apply cstr_of_raw. exact Rs. }
  destruct (recv_browse bd _ outs _ m H F R) as (is & ms' & BI & OK & -> & R').
  exists is.
  destruct (client_prints_then localtime lt_ok act (Some bd) prx (IHead (firstn 63 (v_stamp b ++ extradesc b)) :: is) ls_init ms' ls_init_ok)
    as (lines & b' & PL & B' & EL); [constructor; [exact I|exact OK]|].
  exists lines. split; [exact DI|]. split; [exact BI|]. split; [exact PL|].
  cbn [flat_map imsgs app] in EL.
  refine (eq_trans EL _).
  assert (Z : list_loop localtime act (Some bd) prx b' ms' = ([], Ret (match bd, items with _ :: _, [] => -1 | _, _ => 0 end))).
  { unfold not_found in R'. destruct bd as [|x bd]; [inversion R'; reflexivity|].
    destruct items as [|it items]; [|inversion R'; reflexivity].
    apply recv_one in R'; [|discriminate]. destruct R' as (m & -> & R'). inversion R'; subst. reflexivity. }
  rewrite Z. cbn [fst snd]. rewrite app_nil_r. reflexivity.
Qed.

(* ---------- a list as the input of a restore ---------- *)

(* The entries of a manifest as restoring them sees them. *)
Definition as_rent (e : ent) : rent := mkrent (epath e) (e_cmd e) (mode_isdir (st_mode (e_at e))).

Lemma sorted_paths : forall es, manifest_ok es ->
  StronglySorted path_le (map epath es).
Proof.
  intros es [R S]. induction S as [|e es S IH F]; cbn [map]; [constructor|].
  inversion R as [|? ? Re R']; subst. constructor; [apply IH; exact R'|].
  apply Forall_map. rewrite Forall_forall in F, R'. apply Forall_forall. intros x Ix.
  specialize (F x Ix). specialize (R' x Ix). destruct Re as (s & Es & _). destruct R' as (t & Et & _).
  unfold ent_lt, entry_lt in F. fold (e_path e) (e_path x) in F. unfold ipath in F. rewrite Es, Et in F.
  unfold epath, text. rewrite Es, Et. cbn in F. unfold path_le. destruct F as [F|[F _]]; [auto|]. left. congruence.
Qed.

Lemma filter_sorted : forall A (R : A -> A -> Prop) f l, StronglySorted R l -> StronglySorted R (filter f l).
Proof.
  intros A R f l S. induction S as [|x l S IH F]; cbn [filter]; [constructor|].
  destruct (f x); [|exact IH]. constructor; [exact IH|]. apply Forall_forall. intros y I. apply filter_In in I.
  rewrite Forall_forall in F. apply F. tauto.
Qed.

Lemma to_list_ok : forall rx es, manifest_ok es -> manifest_ok (to_list rx es).
Proof.
  intros rx es [R S]. split.
  - apply Forall_forall. intros e I. apply filter_In in I. rewrite Forall_forall in R. apply R. tauto.
  - apply filter_sorted. exact S.
Qed.

Lemma parse_lines : forall bd prx es lines,
  Forall2 (printed localtime AParse bd prx) (map ent_item es) lines -> Forall entry_ok es ->
  List.concat lines = file_of (map (fun p => (CMD_FILE, p)) (map epath es)).
Proof.
  intros bd prx. induction es as [|e es IH]; intros lines F O; cbn [map] in *; inversion F; subst; [reflexivity|].
  inversion O as [|? ? O1 O2]; subst. unfold file_of. cbn [map List.concat]. f_equal; [|apply IH; auto].
  destruct O1 as (_ & (p & P & _ & C & L) & _). unfold ent_item in H1. cbn [printed] in H1.
  assert (X : epath e = p) by (unfold epath, text; rewrite P; apply cview_cstr_id; exact C). rewrite X in *. auto.
Qed.

Theorem relist : forall bd prx rx man l backup bno b ms c o fuel,
  picked backup bno l b -> stamped b -> manifest_ok (man b) -> Forall entry_ok (to_list rx (man b)) ->
  recv (fst (do_list_server_work (fun b => list_manifest None rx None (man b) MEnd) ModeOne backup bno l)) ms ->
  w_list c = true -> (List.length (man b) < fuel)%nat -> noerr o ->
  exists lines,
    read_all fuel 1 (mkf (fst (list_loop localtime AParse bd prx ls_init ms)) o) =
      (map (fun p => (CMD_FILE, p)) lines, Clean) /\
    chosen (fun e => allowed c e /\
              exists x, In x (man b) /\ shown x /\ accepts rx (epath x) = true /\ r_path e = epath x)
      (map as_rent (man b)) (select c false lines (map as_rent (man b))).
Proof.
  intros bd prx rx man l backup bno b ms c o fuel P S M F R W FU NO.
  destruct (one_printed AParse bd prx rx man l backup bno b ms P S F R) as (ls & PL & E).
  unfold backup_items in PL. inversion PL as [|? x ? ls' H PL']; subst. cbn [printed] in H. subst x.
  exists (map epath (to_list rx (man b))). split.
  - rewrite E. cbn [fst List.concat app]. rewrite (parse_lines bd prx (to_list rx (man b)) ls' PL' F).
    assert (LE : (List.length (to_list rx (man b)) <= List.length (man b))%nat).
    { unfold to_list. clear. induction (man b) as [|e es IH]; cbn [filter]; [lia|].
      destruct (_ && _); cbn [List.length]; lia. }
    set (ml := map (fun p => (CMD_FILE, p)) (map epath (to_list rx (man b)))).
    assert (OK : Forall okmsg ml).
    { apply Forall_map, Forall_map. eapply Forall_impl; [|exact F]. intros e (_ & (p & Pp & _ & C & L) & _).
      split; cbn [fst snd]; [unfold is_char, CMD_FILE; lia|]. unfold epath, text. rewrite Pp, cview_cstr_id by exact C. exact L. }
    assert (LM : (List.length ml < fuel)%nat) by (unfold ml; rewrite !map_length; lia).
    destruct (framing_roundtrip ml o fuel OK LM) as (w & Wr & Rd & _).
    rewrite (write_all_ok ml OK) in Wr. injection Wr as <-. apply Rd. exact NO.
  - pose proof (to_list_ok rx (man b) M) as M'.
    assert (RW : forall es, manifest_ok es -> Forall (fun e => raw (epath e)) es).
    { intros es [Re _]. eapply Forall_impl; [|exact Re]. intros e (s & Es & Rs & _). unfold epath, text. rewrite Es.
      apply cstr_raw. apply cstr_of_raw. exact Rs. }
    pose proof (select_exact c (map epath (to_list rx (man b))) (map as_rent (man b))) as X.
    eapply chosen_impl; [|apply X].
    + intros r _. unfold wanted. rewrite in_map_iff. split.
      * intros (A & I). split; [exact A|]. destruct (I W) as (e & Ee & Ie). apply filter_In in Ie.
        destruct Ie as [Ie Ae]. apply andb_true_iff in Ae. destruct Ae as [A1 A2]. apply negb_true_iff in A1.
        exists e. split; [exact Ie|]. split; [apply shown_meta; exact A1|]. auto.
      * intros (A & e & Ie & Sh & Ac & Pe). split; [exact A|]. intros _. exists e. split; [auto|].
        apply filter_In. split; [exact Ie|]. apply shown_meta in Sh. rewrite Sh, Ac. reflexivity.
    + apply Forall_map. apply RW. exact M'.
    + apply Forall_map. cbn. apply RW. exact M.
    + apply sorted_paths. exact M'.
    + rewrite map_map. cbn. apply sorted_paths. exact M.
Qed.
End Whole.
