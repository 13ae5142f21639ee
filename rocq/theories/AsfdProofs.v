(* C10, C11: the network buffers deliver what was sent. *)
From Verif Require Import Bytes CmdModel FrameModel FrameProofs AsfdModel.

(* Spec: the bytes of one message on the wire. *)
Definition nframe (m : Z * bytes) : bytes :=
  fst m :: four (Z.of_nat (List.length (snd m))) ++ snd m.
Definition wire (l : list (Z * bytes)) : bytes := concat (map nframe l).

(* A message that the peer may send: fits in the buffer. *)
Definition fits (max : nat) (m : Z * bytes) : Prop :=
  okmsg m /\ (List.length (snd m) + 5 < max)%nat.

Definition opt {A} (o : option A) : list A := match o with Some a => [a] | None => [] end.

Lemma app_split : forall (A : Type) (a b x y : list A), a ++ b = x ++ y ->
  (List.length x <= List.length a)%nat -> exists t, a = x ++ t /\ y = t ++ b.
Proof.
  intros A a b x. revert a. induction x as [|c x IH]; intros a y H L.
  - exists a. auto.
  - destruct a as [|d a]; simpl in *; [lia|]. inversion H; subst.
    destruct (IH a y H2 ltac:(lia)) as [t [E1 E2]]. exists t. subst; auto.
Qed.

Lemma wire_app : forall a b, wire (a ++ b) = wire a ++ wire b.
Proof. intros. unfold wire. rewrite map_app, concat_app. reflexivity. Qed.
Lemma wire_cons : forall m l, wire (m :: l) = nframe m ++ wire l.
Proof. reflexivity. Qed.
Lemma nframe_length : forall m, List.length (nframe m) = (5 + List.length (snd m))%nat.
Proof. intros. unfold nframe, four. simpl. lia. Qed.

(* Buffer invariant relative to the messages l2 not yet extracted. *)
Definition binv (max : nat) (l2 : list (Z * bytes)) (s : rst) (net : bytes) : Prop :=
  exists A B, rmem s = A ++ B /\ List.length A = rlen s /\ List.length (rmem s) = max /\
    A ++ net = wire l2 /\ Forall (fits max) l2.

Lemma parse_ok : forall max l2 s net, (5 <= max)%nat -> rmsg s = None -> binv max l2 s net ->
  parse_readbuf max s = UB \/
  (parse_readbuf max s = Ok s /\ (rlen s < max)%nat /\
     (forall m l3, l2 = m :: l3 -> (rlen s < List.length (nframe m))%nat)) \/
  (exists m l3 s', l2 = m :: l3 /\ parse_readbuf max s = Ok s' /\ rmsg s' = Some m /\ binv max l3 s' net).
Proof.
  intros max l2 s net Hmax Hm (A & B & Em & Hl & Hlen & Hw & Hf).
  unfold parse_readbuf. rewrite Hm.
  destruct (Nat.ltb_spec (rlen s) 5) as [L5|L5].
  { right; left. split; auto. split; [lia|]. intros m l3 _. rewrite nframe_length. lia. }
  destruct (has_nul (rmem s)); cbn [negb]; [|left; reflexivity].
  destruct l2 as [|m l3].
  { exfalso. apply (f_equal (@List.length Z)) in Hw. rewrite app_length in Hw. cbn in Hw. lia. }
  pose proof (Forall_inv Hf) as [Hok Hfit]. pose proof (Forall_inv_tail Hf) as Hf3. clear Hf.
  destruct m as [c b]. cbn [fst snd] in *. destruct Hok as [Hc Hb]. cbn [fst snd] in *.
  rewrite wire_cons in Hw.
  assert (HS : A ++ net = (c :: four (Z.of_nat (List.length b))) ++ (b ++ wire l3)).
  { rewrite Hw. unfold nframe. cbn [fst snd]. cbn [app]. rewrite <- app_assoc. reflexivity. }
  assert (F5 : forall n, List.length (c :: four n) = 5%nat) by reflexivity.
  destruct (app_split _ _ _ _ _ HS) as [t [EA Et]]; [rewrite F5; lia|].
  assert (SL : scan_lead (rmem s) = Some (c, Z.of_nat (List.length b))).
  { rewrite Em, EA, <- app_assoc. cbn [app]. apply scan_lead_tail; auto; lia. }
  rewrite SL.
  destruct (Z.leb_spec (Z.of_nat max) (Z.of_nat (List.length b))) as [Bad|Good]; [lia|].
  rewrite Nat2Z.id.
  destruct (Nat.leb_spec (List.length b + 5) (rlen s)) as [G|G].
  - right; right. exists (c, b), l3.
    unfold extract_buf.
    destruct (Nat.leb_spec max (5 + List.length b)) as [X|X]; [lia|].
    eexists. split; [reflexivity|]. split; [reflexivity|].
    assert (Lt : List.length A = (5 + List.length t)%nat) by (rewrite EA, app_length, F5; lia).
    destruct (app_split _ _ _ _ _ (eq_sym Et)) as [u [Eu Eu2]]; [lia|].
    cbn [rmsg rmem rlen].
    assert (Erm : rmem s = (c :: four (Z.of_nat (List.length b))) ++ b ++ u ++ B).
    { rewrite Em, EA, Eu, <- !app_assoc. reflexivity. }
    assert (S5 : forall x, skipn 5 ((c :: four (Z.of_nat (List.length b))) ++ x) = x) by reflexivity.
    split.
    + rewrite Erm, S5. rewrite firstn_app, firstn_all, Nat.sub_diag. cbn [firstn]. rewrite app_nil_r. reflexivity.
    + assert (Lu : List.length A = (5 + List.length b + List.length u)%nat).
      { rewrite Lt, Eu, app_length. lia. }
      unfold binv. cbn [rmem rlen].
      assert (SD : shift_down (rmem s) (List.length b + 5) (rlen s) =
                   u ++ skipn (List.length u) (rmem s)).
      { unfold shift_down. replace (rlen s - (List.length b + 5))%nat with (List.length u) by lia.
        f_equal. rewrite Erm. replace (List.length b + 5)%nat with (5 + List.length b)%nat by lia.
        rewrite <- skipn_skipn', S5, skipn_app, skipn_all, Nat.sub_diag. cbn [skipn app].
        rewrite firstn_app, firstn_all, Nat.sub_diag. cbn [firstn]. rewrite app_nil_r. reflexivity. }
      exists u, (skipn (List.length u) (rmem s)). rewrite SD.
      split; [reflexivity|]. split; [lia|]. split.
      * rewrite app_length, skipn_length.
        assert (List.length (rmem s) = (List.length A + List.length B)%nat) by (rewrite Em, app_length; reflexivity).
        lia.
      * split; [symmetry; exact Eu2|exact Hf3].
  - right; left. split; auto. split; [lia|].
    intros m l4 E. inversion E; subst. rewrite nframe_length. cbn [snd]. lia.
Qed.

Lemma do_read_ok : forall max avail l2 s net, binv max l2 s net -> (rlen s < max)%nat ->
  exists s' net', do_read max avail s net = Ok (s', net') /\ rmsg s' = rmsg s /\ binv max l2 s' net' /\
    (net = [] -> net' = [] /\ rlen s' = rlen s).
Proof.
  intros max avail l2 s net (A & B & Em & Hl & Hlen & Hw & Hf) Lt.
  unfold do_read. destruct (Nat.eqb_spec (max - rlen s) 0) as [Z0|_]; [lia|].
  set (r := Nat.min (Nat.min avail (max - rlen s)) (List.length net)).
  eexists _, _. split; [reflexivity|]. cbn [rmsg]. split; [reflexivity|]. split.
  - exists (A ++ firstn r net), (skipn (rlen s + r) (rmem s)). cbn [rmem rlen].
    assert (EA : firstn (rlen s) (rmem s) = A).
    { rewrite Em, <- Hl. rewrite firstn_app, firstn_all, Nat.sub_diag. apply app_nil_r. }
    assert (Lr : List.length (firstn r net) = r) by (rewrite firstn_length; unfold r; lia).
    rewrite EA. split; [rewrite <- app_assoc; reflexivity|].
    split; [rewrite app_length, Lr; lia|]. split.
    + rewrite !app_length, skipn_length, Lr, Hlen. unfold r. lia.
    + split; auto. rewrite <- app_assoc, firstn_skipn. exact Hw.
  - intros ->. subst r. cbn [List.length]. rewrite Nat.min_0_r. cbn. split; [reflexivity|lia].
Qed.

(* Whole-connection invariant. *)
Definition rinv (max : nat) (l : list (Z * bytes)) (y : rsys) : Prop :=
  exists l2, l = rs_got y ++ opt (rmsg (rs_st y)) ++ l2 /\ binv max l2 (rs_st y) (rs_net y).

(* Everything that can be extracted has been. *)
Definition settled (l : list (Z * bytes)) (y : rsys) : Prop :=
  rmsg (rs_st y) = None -> rs_net y = [] -> rs_got y = l.

Lemma rstep_ok : forall max l y e, (5 <= max)%nat -> rinv max l y ->
  rstep max y e = UB \/
  exists y', rstep max y e = Ok y' /\ rinv max l y' /\ (match e with EvIo _ => settled l y' | EvTake => True end).
Proof.
  intros max l [s net got] e Hmax (l2 & El & Hb). cbn [rs_st rs_net rs_got] in *.
  destruct e as [avail|].
  - unfold rstep. cbn [rs_st rs_net rs_got].
    destruct (rmsg s) as [m|] eqn:Em.
    + right. unfold parse_readbuf. rewrite Em. cbn. rewrite Em. eexists. split; [reflexivity|].
      split; [exists l2; cbn; rewrite Em; auto|]. intros H. cbn in H. congruence.
    + destruct (parse_ok max l2 s net Hmax Em Hb) as [U|[[P [Lt _]]|(m & l3 & s' & E2 & P & Em' & Hb')]].
      * rewrite U. left; reflexivity.
      * rewrite P, Em.
        destruct (do_read_ok max avail l2 s net Hb Lt) as (s1 & net1 & R & Em1 & Hb1 & _).
        rewrite R. rewrite Em in Em1.
        destruct (parse_ok max l2 s1 net1 Hmax Em1 Hb1) as [U|[[P1 [Lt1 Sh]]|(m & l3 & s' & E2 & P1 & Em' & Hb')]].
        -- rewrite U. left; reflexivity.
        -- right. rewrite P1. eexists. split; [reflexivity|]. split.
           ++ exists l2. cbn. rewrite Em1. auto.
           ++ intros _ Nn. cbn in Nn |- *. subst net1. cbn in El.
              destruct l2 as [|m l3]; [rewrite El, app_nil_r; reflexivity|exfalso].
              specialize (Sh m l3 eq_refl). destruct Hb1 as (A & B & _ & HA & _ & Hw & _).
              rewrite app_nil_r in Hw. rewrite wire_cons in Hw.
              apply (f_equal (@List.length Z)) in Hw. rewrite app_length in Hw. lia.
        -- right. rewrite P1. eexists. split; [reflexivity|]. split.
           ++ exists l3. cbn. rewrite Em'. split; [|exact Hb']. rewrite El, E2. reflexivity.
           ++ intros H. cbn in H. congruence.
      * rewrite P, Em'. right. eexists. split; [reflexivity|]. split.
        -- exists l3. cbn. rewrite Em'. split; [|exact Hb']. rewrite El, E2. reflexivity.
        -- intros H. cbn in H. congruence.
  - right. unfold rstep. cbn [rs_st rs_net rs_got]. destruct (rmsg s) as [m|] eqn:Em.
    + eexists. split; [reflexivity|]. split; auto. exists l2. cbn.
      split; [rewrite <- app_assoc; exact El|]. exact Hb.
    + eexists. split; [reflexivity|]. split; auto. exists l2. cbn. rewrite Em. auto.
Qed.

Lemma rrun_ok : forall max evs l y, (5 <= max)%nat -> rinv max l y ->
  rrun max y evs = UB \/ exists y', rrun max y evs = Ok y' /\ rinv max l y'.
Proof.
  intros max evs. induction evs as [|e evs IH]; intros l y Hmax Hi; cbn [rrun].
  - right. exists y. auto.
  - destruct (rstep_ok max l y e Hmax Hi) as [U|[y' [E [Hi' _]]]]; [rewrite U; auto|].
    rewrite E. apply IH; auto.
Qed.

Lemma rrun_app : forall max a b y, rrun max y (a ++ b) =
  match rrun max y a with Ok y' => rrun max y' b | Err => Err | UB => UB end.
Proof.
  intros max a. induction a as [|e a IH]; intros b y; simpl; auto.
  destruct (rstep max y e); auto.
Qed.

Lemma rinit_inv : forall max l, Forall (fits max) l -> rinv max l (rinit max (wire l)).
Proof.
  intros max l F. exists l. cbn. split; auto. exists [], (repeat 0 max). cbn.
  repeat split; auto. apply repeat_length.
Qed.

(* C10: any schedule delivers a prefix of what was sent, never fails, and
   after a read with nothing left in the network everything has arrived. *)
Lemma network_framing : forall max l evs, (5 <= max)%nat -> Forall (fits max) l ->
  rrun max (rinit max (wire l)) evs = UB \/
  exists y, rrun max (rinit max (wire l)) evs = Ok y /\
    (exists l2, l = rs_got y ++ opt (rmsg (rs_st y)) ++ l2) /\
    (List.length (rmem (rs_st y)) = max /\ (rlen (rs_st y) <= max)%nat).
Proof.
  intros max l evs Hmax F.
  destruct (rrun_ok max evs l _ Hmax (rinit_inv max l F)) as [U|[y [E Hi]]]; [auto|].
  right. exists y. split; auto. destruct Hi as (l2 & El & A & B & Em & HA & HL & _).
  split; [exists l2; exact El|]. split; auto.
  apply (f_equal (@List.length Z)) in Em. rewrite app_length in Em. lia.
Qed.

Lemma network_complete : forall max l evs avail y, (5 <= max)%nat -> Forall (fits max) l ->
  rrun max (rinit max (wire l)) (evs ++ [EvIo avail]) = Ok y ->
  rs_net y = [] -> rmsg (rs_st y) = None -> rs_got y = l.
Proof.
  intros max l evs avail y Hmax F E Hn Hm. rewrite rrun_app in E.
  destruct (rrun_ok max evs l _ Hmax (rinit_inv max l F)) as [U|[y1 [E1 Hi]]].
  - rewrite U in E. discriminate.
  - rewrite E1 in E. cbn [rrun] in E.
    destruct (rstep_ok max l y1 (EvIo avail) Hmax Hi) as [U|[y' [E2 [_ S]]]].
    + rewrite U in E; discriminate.
    + rewrite E2 in E. inversion E; subst. apply S; auto.
Qed.

(* Progress: as long as something is left, one more round of I/O that is given
   a byte, followed by taking, either moves bytes or delivers a message. *)
Lemma network_progress : forall max l y avail, (5 <= max)%nat -> rinv max l y -> (1 <= avail)%nat ->
  rstep max y (EvIo avail) = UB \/
  exists y', rstep max y (EvIo avail) = Ok y' /\
    (rmsg (rs_st y') <> None \/ (rs_net y = [] /\ rs_net y' = []) \/ (List.length (rs_net y') < List.length (rs_net y))%nat).
Proof.
  intros max l [s net got] avail Hmax (l2 & El & Hb) Ha. cbn [rs_st rs_net rs_got] in *.
  unfold rstep. cbn [rs_st rs_net rs_got].
  destruct (rmsg s) as [m|] eqn:Em.
  { right. unfold parse_readbuf. rewrite Em. rewrite Em. eexists. split; [reflexivity|].
    left. cbn. congruence. }
  destruct (parse_ok max l2 s net Hmax Em Hb) as [U|[[P [Lt _]]|(m & l3 & s' & E2 & P & Em' & Hb')]].
  - rewrite U. auto.
  - rewrite P, Em.
    destruct (do_read_ok max avail l2 s net Hb Lt) as (s1 & net1 & R & Em1 & Hb1 & N0).
    assert (net = [] \/ (List.length net1 < List.length net)%nat) as D.
    { destruct net as [|b net]; [auto|right]. unfold do_read in R.
      destruct (Nat.eqb_spec (max - rlen s) 0); [lia|]. inversion R; subst.
      rewrite skipn_length. cbn [List.length]. lia. }
    rewrite R. rewrite Em in Em1.
    destruct (parse_ok max l2 s1 net1 Hmax Em1 Hb1) as [U|[[P1 [Lt1 Sh]]|(m & l3 & s' & E2 & P1 & Em' & Hb')]].
    + rewrite U. auto.
    + rewrite P1. right. eexists. split; [reflexivity|]. cbn. right.
      destruct D as [D|D]; [left; split; auto; apply N0; auto|right; auto].
    + rewrite P1. right. eexists. split; [reflexivity|]. cbn. left. congruence.
  - rewrite P, Em'. right. eexists. split; [reflexivity|]. left. cbn. congruence.
Qed.

(* A stream without NUL bytes that fills the buffer makes the header scan run
   off the end of the allocation, whatever the buffer size. *)
Lemma has_nul_false : forall m, Forall is_char m -> has_nul m = false.
Proof.
  induction m as [|x m IH]; intros H; simpl; auto. inversion H; subst.
  rewrite IH by auto. unfold is_char in *. destruct (Z.eqb_spec x 0); [lia|reflexivity].
Qed.

Lemma four_char : forall n, Forall is_char (four n).
Proof.
  intros n. unfold four.
  assert (H : forall d, is_char (hexdig (d mod 16))).
  { intros d. pose proof (Z.mod_pos_bound d 16 ltac:(lia)) as B. apply hexdig_range in B.
    unfold is_char. lia. }
  repeat constructor; apply H.
Qed.

Lemma network_overread : forall max, (20 <= max)%nat /\ Z.of_nat max <= 65535 ->
  exists l, Forall (fits max) l /\ rrun max (rinit max (wire l)) [EvIo max] = UB.
Proof.
  intros max Hmax.
  set (m := (CMD_APPEND, repeat 65 (max - 6))).
  assert (Hfit : fits max m).
  { unfold m. split; [split|]; cbn [fst snd]; rewrite ?repeat_length; unfold is_char, CMD_APPEND; lia. }
  exists [m; m]. split; [auto|].
  assert (Ch : Forall is_char (wire [m; m])).
  { assert (Hm : Forall is_char (nframe m)).
    { unfold nframe. constructor; [unfold is_char, m, CMD_APPEND; cbn; lia|].
      apply Forall_app. split; [apply four_char|]. cbn [snd m].
      apply Forall_forall. intros x Hx. apply repeat_spec in Hx. subst. unfold is_char; lia. }
    unfold wire. cbn [map concat]. apply Forall_app. split; auto. apply Forall_app. split; auto. }
  assert (LL : List.length (wire [m; m]) = (2 * (max - 1))%nat).
  { unfold wire. cbn [map concat]. rewrite !app_length, nframe_length. cbn [snd m List.length].
    unfold m. cbn [snd]. rewrite repeat_length. lia. }
  set (w := wire [m; m]) in *. clearbody w. cbn [rrun].
  unfold rstep, rinit. cbn [rs_st rs_net rs_got]. unfold parse_readbuf at 1. cbn [rmsg rlen].
  change (0 <? 5)%nat with true. cbv iota. cbn [rmsg].
  unfold do_read. cbn [rlen rmsg rmem].
  destruct (Nat.eqb_spec (max - 0) 0); [lia|].
  replace (Nat.min (Nat.min max (max - 0)) (List.length w)) with max by lia.
  unfold parse_readbuf. cbn [rmsg rlen rmem].
  destruct (Nat.ltb_spec (0 + max) 5); [lia|].
  rewrite has_nul_false; [reflexivity|].
  cbn [firstn app]. rewrite skipn_all2 by (rewrite repeat_length; lia). rewrite app_nil_r.
  apply Forall_forall. intros x Hx. rewrite Forall_forall in Ch. apply Ch.
  rewrite <- (firstn_skipn max w). apply in_or_app. auto.
Qed.

(* ---- C11 ---- *)
(* The messages an accepted sequence of asfd_write() calls stands for: empty
   ones are silently dropped. *)
Definition nonempty (m : Z * bytes) : bool := match snd m with [] => false | _ => true end.
Fixpoint offered (l : list wev) : list (Z * bytes) :=
  match l with
  | [] => []
  | WMsg m _ :: r => m :: offered r
  | WIo _ :: r => offered r
  end.

Lemma append_all_ok : forall max s m, Z.of_nat max <= 65535 -> is_char (fst m) ->
  (exists s', append_all max s m = (APPEND_OK, s') /\ wbuf s' = wbuf s ++ nframe m /\ wsent s' = wsent s
      /\ (List.length (wbuf s') + 2 < max)%nat) \/
  (append_all max s m = (APPEND_BLOCKED, s) /\ (max <= List.length (wbuf s) + 7 + List.length (snd m))%nat).
Proof.
  intros max s [c b] Hmax Hc. unfold append_all. cbn [fst snd] in *.
  destruct (Nat.leb_spec (max - 1) (List.length (wbuf s) + 6 + List.length b)) as [L|L].
  - right. split; auto. lia.
  - left. eexists. split; [reflexivity|]. cbn [wbuf wsent].
    rewrite fmt_04X_small by lia.
    assert (E : cview (firstn 9 (c :: four (Z.of_nat (List.length b)))) = c :: four (Z.of_nat (List.length b))).
    { assert (K : forall s, Forall is_char s -> cview s = s).
      { induction s0 as [|x s0 IH]; intros H; simpl; auto. inversion H; subst.
        unfold is_char in H2. destruct (Z.eqb_spec x 0); [lia|]. f_equal; auto. }
      apply K. change (Forall is_char (c :: four (Z.of_nat (List.length b)))).
      constructor; [auto|apply four_char]. }
    rewrite E. split; [reflexivity|]. split; [reflexivity|].
    rewrite app_length. unfold four. simpl. lia.
Qed.

Lemma do_write_stream : forall s w, wsent (do_write s w) ++ wbuf (do_write s w) = wsent s ++ wbuf s /\
  (List.length (wbuf (do_write s w)) <= List.length (wbuf s))%nat.
Proof.
  intros s w. unfold do_write. cbn. rewrite <- app_assoc, firstn_skipn. split; auto.
  rewrite skipn_length. lia.
Qed.

Lemma asfd_write_ok : forall max ws s m s', Z.of_nat max <= 65535 -> is_char (fst m) ->
  (List.length (wbuf s) < max)%nat ->
  asfd_write max s m ws = Some s' ->
  wsent s' ++ wbuf s' = wsent s ++ wbuf s ++ wire (filter nonempty [m]) /\ (List.length (wbuf s') < max)%nat.
Proof.
  intros max ws. induction ws as [|w ws IH]; intros s m s' Hmax Hc Hl H.
  - cbn [asfd_write] in H. destruct (snd m) eqn:E; [|discriminate]. inversion H; subst.
    unfold filter, nonempty. rewrite E. cbn. rewrite app_nil_r. auto.
  - cbn [asfd_write] in H. destruct (snd m) as [|b0 b1] eqn:E.
    { inversion H; subst. unfold filter, nonempty. rewrite E. cbn. rewrite app_nil_r. auto. }
    assert (NE : wire (filter nonempty [m]) = nframe m).
    { unfold filter, nonempty. rewrite E. unfold wire. cbn [map concat]. apply app_nil_r. }
    destruct (append_all_ok max s m Hmax Hc) as [[s1 [A [W [T L]]]]|[A L]]; rewrite A in H.
    + inversion H; subst. destruct (do_write_stream s1 w) as [D1 D2]. rewrite D1, W, T, NE.
      split; [reflexivity|lia].
    + destruct (do_write_stream s w) as [D1 D2].
      destruct (IH (do_write s w) m s' Hmax Hc ltac:(lia) H) as [R1 R2].
      split; auto. rewrite R1, !app_assoc, D1. reflexivity.
Qed.

Lemma send_stream : forall max l s s', Z.of_nat max <= 65535 -> Forall (fun m => is_char (fst m)) (offered l) ->
  (List.length (wbuf s) < max)%nat -> wrun max s l = Some s' ->
  wsent s' ++ wbuf s' = wsent s ++ wbuf s ++ wire (filter nonempty (offered l)) /\
  (List.length (wbuf s') < max)%nat.
Proof.
  intros max l. induction l as [|e l IH]; intros s s' Hmax Hc Hl H.
  - cbn in H. inversion H; subst. cbn. rewrite app_nil_r. auto.
  - destruct e as [m ws|w].
    + cbn [wrun] in H. cbn [offered] in Hc. inversion Hc; subst.
      destruct (asfd_write max s m ws) as [s1|] eqn:E; [|discriminate].
      destruct (asfd_write_ok max ws s m s1 Hmax H2 Hl E) as [R1 R2].
      destruct (IH s1 s' Hmax H3 R2 H) as [Q1 Q2]. split; auto.
      rewrite Q1. cbn [offered]. change (m :: offered l) with ([m] ++ offered l).
      rewrite filter_app, wire_app. rewrite !app_assoc. f_equal.
      rewrite <- !app_assoc. exact R1.
    + cbn [wrun] in H. cbn [offered] in Hc |- *. destruct (do_write_stream s w) as [D1 D2].
      destruct (IH (do_write s w) s' Hmax Hc ltac:(lia) H) as [Q1 Q2]. split; auto.
      rewrite Q1, !app_assoc, D1. reflexivity.
Qed.

(* Every byte written stays inside the allocation, at every append. *)
Lemma append_in_bounds : forall max s m s', Z.of_nat max <= 65535 -> is_char (fst m) ->
  append_all max s m = (APPEND_OK, s') ->
  (List.length (wbuf s') + 1 <= max)%nat. (* the NUL at line 376 included *)
Proof.
  intros max s m s' Hmax Hc H.
  destruct (append_all_ok max s m Hmax Hc) as [[s1 [A [_ [_ L]]]]|[A _]]; rewrite A in H.
  - inversion H; subst. lia.
  - discriminate.
Qed.

Lemma asfd_write_nil : forall max s (m : Z * bytes) ws, snd m = [] -> asfd_write max s m ws = Some s.
Proof. intros max s [c b] ws E. cbn in E. subst b. destruct ws; reflexivity. Qed.
Lemma asfd_write_out : forall max s (m : Z * bytes), snd m <> [] -> asfd_write max s m [] = None.
Proof. intros max s [c b] N. cbn in N. destruct b; [congruence|reflexivity]. Qed.
Lemma asfd_write_step : forall max s (m : Z * bytes) w ws, snd m <> [] ->
  asfd_write max s m (w :: ws) =
  match append_all max s m with
  | (APPEND_OK, s') => Some (do_write s' w)
  | (APPEND_BLOCKED, s') => asfd_write max (do_write s' w) m ws
  end.
Proof. intros max s [c b] w ws N. cbn in N. destruct b; [congruence|reflexivity]. Qed.

(* A message that fits is accepted once the transport has taken everything. *)
Lemma write_progress : forall max s (m : Z * bytes) ws, Z.of_nat max <= 65535 -> is_char (fst m) ->
  (List.length (snd m) + 7 < max)%nat -> (List.length (wbuf s) <= list_sum ws)%nat ->
  Forall (fun w => (1 <= w)%nat) ws ->
  exists s', asfd_write max s m (ws ++ [1%nat]) = Some s'.
Proof.
  intros max s m ws Hmax Hc Hm.
  assert (D : snd m = [] \/ snd m <> []) by (destruct (snd m); [left|right]; congruence).
  destruct D as [D|D]; [intros; rewrite asfd_write_nil by auto; eauto|].
  revert s. induction ws as [|w ws IH]; intros s Hs Hw.
  - change (list_sum []) with 0%nat in Hs. cbn [app]. rewrite asfd_write_step by auto.
    destruct (append_all_ok max s m Hmax Hc) as [[s1 [A _]]|[A L]]; rewrite A; [eauto|lia].
  - cbn [app]. rewrite asfd_write_step by auto.
    destruct (append_all_ok max s m Hmax Hc) as [[s1 [A _]]|[A L]]; rewrite A; [eauto|].
    inversion Hw; subst. apply IH; auto. unfold do_write. cbn [wbuf]. rewrite skipn_length.
    change (list_sum (w :: ws)) with (w + list_sum ws)%nat in Hs. lia.
Qed.

(* A message that does not fit is retried for ever, whatever the transport does. *)
Lemma oversize_never_sent : forall max s (m : Z * bytes) ws, is_char (fst m) -> Z.of_nat max <= 65535 ->
  (max <= List.length (snd m) + 7)%nat -> snd m <> [] -> asfd_write max s m ws = None.
Proof.
  intros max s m ws Hc Hmax H N. revert s. induction ws as [|w ws IH]; intros s.
  - apply asfd_write_out; auto.
  - rewrite asfd_write_step by auto.
    destruct (append_all_ok max s m Hmax Hc) as [[s1 [A [W [_ L]]]]|[A L]]; rewrite A.
    + exfalso. rewrite W, app_length, nframe_length in L. lia.
    + apply IH.
Qed.

(* Sender and receiver together: with everything sent and any receive
   schedule, the receiver gets a prefix of the non-empty messages offered. *)
Lemma end_to_end : forall max l s evs y, (8 <= max)%nat /\ Z.of_nat max <= 65535 ->
  Forall (fun m => okmsg m /\ (List.length (snd m) + 7 < max)%nat) (offered l) ->
  wrun max (mkwst [] []) l = Some s -> wbuf s = [] ->
  rrun max (rinit max (wsent s)) evs = Ok y ->
  exists l2, filter nonempty (offered l) = rs_got y ++ opt (rmsg (rs_st y)) ++ l2.
Proof.
  intros max l s evs y Hmax Ho Hw Hb Hr.
  assert (Hc : Forall (fun m => is_char (fst m)) (offered l)).
  { eapply Forall_impl; [|exact Ho]. intros m [[H _] _]. exact H. }
  destruct (send_stream max l (mkwst [] []) s ltac:(lia) Hc ltac:(cbn; lia) Hw) as [S _].
  rewrite Hb, app_nil_r in S. cbn in S.
  assert (F : Forall (fits max) (filter nonempty (offered l))).
  { apply Forall_forall. intros m Hm. apply filter_In in Hm. destruct Hm as [Hm _].
    rewrite Forall_forall in Ho. destruct (Ho m Hm). split; auto. lia. }
  rewrite S in Hr.
  destruct (network_framing max _ evs ltac:(lia) F) as [U|[y' [E [P _]]]].
  - rewrite U in Hr; discriminate.
  - rewrite E in Hr. inversion Hr; subst. exact P.
Qed.

(* When no read can fill the buffer completely, the header scan stays inside
   it: the last byte of the allocation keeps its initial NUL. *)
Definition last_nul (s : rst) : Prop := exists A, rmem s = A ++ [0].

Lemma last_nul_has : forall s, last_nul s -> has_nul (rmem s) = true.
Proof.
  intros s [A E]. rewrite E. unfold has_nul. rewrite existsb_app. cbn. apply orb_true_r.
Qed.

Lemma skipn_last : forall (A : list Z) n, (n <= List.length A)%nat -> skipn n (A ++ [0]) = skipn n A ++ [0].
Proof.
  intros A n H. rewrite skipn_app. replace (n - List.length A)%nat with 0%nat by lia. reflexivity.
Qed.

Lemma parse_last : forall max s s', last_nul s -> List.length (rmem s) = max -> (rlen s <= max)%nat ->
  parse_readbuf max s = Ok s' -> last_nul s' /\ List.length (rmem s') = max.
Proof.
  intros max s s' Hn HL Hr H. pose proof (last_nul_has s Hn) as Hh. destruct Hn as [A EA].
  assert (LA : max = (List.length A + 1)%nat) by (rewrite <- HL, EA, app_length; reflexivity).
  unfold parse_readbuf in H.
  destruct (rmsg s). { inversion H; subst. split; [exists A; auto|auto]. }
  destruct (rlen s <? 5)%nat. { inversion H; subst. split; [exists A; auto|auto]. }
  rewrite Hh in H. cbn [negb] in H. destruct (scan_lead (rmem s)) as [[c n]|]; [|discriminate].
  destruct (Z.of_nat max <=? n); [discriminate|].
  destruct (Nat.leb_spec (Z.to_nat n + 5) (rlen s)) as [G|G].
  - unfold extract_buf in H. destruct (max <=? 5 + Z.to_nat n)%nat; [discriminate|].
    inversion H; subst s'; clear H. cbn [rmem].
    set (k := (Z.to_nat n + 5)%nat) in *. unfold shift_down, last_nul. cbn [rmem].
    split.
    + exists (firstn (rlen s - k) (skipn k (rmem s)) ++ skipn (rlen s - k) A).
      rewrite <- app_assoc. f_equal. rewrite EA at 1. apply skipn_last. lia.
    + rewrite app_length, firstn_length, !skipn_length, HL. lia.
  - inversion H; subst s'. split; [exists A; auto|auto].
Qed.

Lemma parse_no_ub : forall max s, last_nul s -> parse_readbuf max s <> UB.
Proof.
  intros max s Hn. unfold parse_readbuf. rewrite (last_nul_has s Hn). cbn [negb].
  destruct (rmsg s); [discriminate|]. destruct (rlen s <? 5)%nat; [discriminate|].
  destruct (scan_lead (rmem s)) as [[c n]|]; [|discriminate].
  destruct (Z.of_nat max <=? n); [discriminate|].
  destruct (Z.to_nat n + 5 <=? rlen s)%nat; [|discriminate].
  unfold extract_buf. destruct (_ <=? _)%nat; discriminate.
Qed.

Lemma no_overread : forall max M R l evs, (5 <= max)%nat -> (5 <= M)%nat ->
  Forall (fits max) l -> Forall (fun m : Z * bytes => (List.length (snd m) + 5 <= M)%nat) l ->
  (M - 1 + R < max)%nat -> Forall (fun e => match e with EvIo a => (a <= R)%nat | EvTake => True end) evs ->
  rrun max (rinit max (wire l)) evs <> UB.
Proof.
  intros max M R l evs Hmax HM Ff Fm HR Fe.
  assert (G : forall y, rinv max l y -> last_nul (rs_st y) -> rrun max y evs <> UB).
  { induction evs as [|e evs IH]; intros y Hi Hn; cbn [rrun]; [discriminate|].
    inversion Fe as [|? ? He Fe']; subst.
    assert (K : exists y', rstep max y e = Ok y' /\ last_nul (rs_st y')).
    { destruct y as [s net got]. pose proof Hi as (l2 & El & Hb). cbn [rs_st rs_net rs_got] in *.
      pose proof Hb as (A & B & Em & HA & HL & Hw & _).
      assert (Lr : (rlen s <= max)%nat) by (rewrite <- HL, Em, app_length; lia).
      destruct e as [a|].
      - unfold rstep. cbn [rs_st rs_net rs_got].
        destruct (rmsg s) as [m|] eqn:Er.
        { unfold parse_readbuf. rewrite Er, Er. eexists; split; [reflexivity|exact Hn]. }
        destruct (parse_ok max l2 s net Hmax Er Hb) as [U|[[P [Lt Sh]]|(m & l3 & s' & E2 & P & Em' & Hb')]].
        + exfalso. eapply parse_no_ub; eauto.
        + rewrite P, Er.
          assert (Lm : (rlen s <= M - 1)%nat).
          { destruct l2 as [|m l3].
            - cbn in Hw. apply (f_equal (@List.length Z)) in Hw. rewrite app_length in Hw. cbn in Hw. lia.
            - specialize (Sh m l3 eq_refl). rewrite nframe_length in Sh.
              assert (In m l) by (rewrite El; cbn; apply in_or_app; right; left; reflexivity).
              rewrite Forall_forall in Fm. specialize (Fm m H). cbv beta in Fm. lia. }
          destruct (do_read_ok max a l2 s net Hb Lt) as (s1 & net1 & Rd & Em1 & Hb1 & _).
          rewrite Rd. rewrite Er in Em1.
          assert (Hn1 : last_nul s1).
          { unfold do_read in Rd. destruct (Nat.eqb_spec (max - rlen s) 0); [lia|].
            inversion Rd; subst s1 net1. clear Rd. destruct Hn as [A0 EA0].
            set (r := Nat.min (Nat.min a (max - rlen s)) (List.length net)) in *.
            assert (LA : max = (List.length A0 + 1)%nat) by (rewrite <- HL, EA0, app_length; reflexivity).
            exists (firstn (rlen s) (rmem s) ++ firstn r net ++ skipn (rlen s + r) A0). cbn [rmem].
            rewrite <- !app_assoc. f_equal. f_equal. rewrite EA0 at 1. apply skipn_last.
            assert (r <= a)%nat by (unfold r; lia). lia. }
          destruct (parse_ok max l2 s1 net1 Hmax Em1 Hb1) as [U|[[P1 _]|(m & l3 & s' & E2 & P1 & Em' & Hb')]].
          * exfalso. eapply parse_no_ub; eauto.
          * rewrite P1. eexists; split; [reflexivity|exact Hn1].
          * rewrite P1. eexists; split; [reflexivity|]. cbn.
            destruct Hb1 as (A1 & B1 & Em2 & HA1 & HL1 & _).
            eapply parse_last; [exact Hn1|exact HL1| |exact P1].
            rewrite <- HL1, Em2, app_length. lia.
        + rewrite P, Em'. eexists; split; [reflexivity|]. cbn.
          eapply parse_last; [exact Hn|exact HL|exact Lr|exact P].
      - unfold rstep. cbn [rs_st rs_net rs_got]. destruct (rmsg s); eexists; (split; [reflexivity|exact Hn]). }
    destruct K as [y' [E Hn']]. rewrite E. apply IH; auto.
    destruct (rstep_ok max l y e Hmax Hi) as [U|[y2 [E2 [Hi2 _]]]]; congruence. }
  apply G; [apply rinit_inv; auto|].
  exists (repeat 0 (max - 1)). cbn.
  replace max with (max - 1 + 1)%nat at 1 by lia. rewrite repeat_app. reflexivity.
Qed.
