(* What is sent for a file and what comes out at the other end. *)
From Verif Require Import Bytes CmdModel BuModel Phase2Model TransferModel.

(* ---- what is assumed of zlib and of the ciphers ---- *)

(* Output only grows as more input is given, and what inflate() makes of a
   whole stream is what deflate() was given. *)
Definition zlib_ok (z : zlib) : Prop :=
  (forall a b, exists s, z_def z (a ++ b) = z_def z a ++ s) /\
  (forall a, exists s, z_fin z a = z_def z a ++ s) /\
  (forall a b, exists s, fst (z_inf z (a ++ b)) = fst (z_inf z a) ++ s) /\
  (forall a b, snd (z_inf z (a ++ b)) = false -> snd (z_inf z a) = false) /\
  (forall x, z_inf z (z_fin z x) = (x, false)).

(* The same for a cipher; it never gives more than a block more than it was given. *)
Definition cipher_ok (c : cipher) : Prop :=
  c_upd c [] = [] /\ c_dup c [] = [] /\
  (forall a b, exists s, c_upd c (a ++ b) = c_upd c a ++ s) /\
  (forall a, exists s, c_fin c a = c_upd c a ++ s) /\
  (forall a b, exists s, c_dup c (a ++ b) = c_dup c a ++ s /\ (List.length s <= List.length b + 32)%nat) /\
  (forall a x, c_dfin c a = Some x -> exists s, x = c_dup c a ++ s /\ (List.length s <= 32)%nat) /\
  (forall x, c_dfin c (c_fin c x) = Some x).

(* ---- lists ---- *)

Lemma skipn_app_len : forall (a b : bytes), skipn (List.length a) (a ++ b) = b.
Proof. induction a; simpl; auto. Qed.

Lemma is_nil_iff : forall b, is_nil b = true <-> b = [].
Proof. destruct b; simpl; split; congruence. Qed.

Lemma zchunk_pos : (0 < zchunk)%nat.
Proof. unfold zchunk. lia. Qed.
Lemma zchunk_val : Z.of_nat zchunk = 16000.
Proof. unfold zchunk. lia. Qed.
Lemma doutsize_val : Z.of_nat doutsize = 15968.
Proof. unfold doutsize. lia. Qed.
Global Opaque zchunk doutsize.

Lemma pieces_f_concat : forall f l, concat (pieces_f f l) = l.
Proof.
  induction f as [|f IH]; intros l; cbn [pieces_f concat].
  - apply app_nil_r.
  - destruct (List.length l <? zchunk)%nat; cbn [concat]; [apply app_nil_r|].
    rewrite IH. apply firstn_skipn.
Qed.
Lemma pieces_concat : forall l, concat (pieces l) = l.
Proof. intros. apply pieces_f_concat. Qed.

Lemma pieces_f_len : forall f l b, (List.length l <= f)%nat -> In b (pieces_f f l) -> (List.length b <= zchunk)%nat.
Proof.
  pose proof zchunk_pos as HP.
  induction f as [|f IH]; intros l b Hl; cbn [pieces_f In].
  - intros [<-|[]]. lia.
  - destruct (Nat.ltb_spec (List.length l) zchunk) as [H|H]; cbn [In].
    + intros [<-|[]]. lia.
    + intros [<-|HI]; [rewrite firstn_length; lia|].
      apply (IH (skipn zchunk l)); auto. rewrite skipn_length. lia.
Qed.

Lemma pieces_short : forall l, (List.length l < zchunk)%nat -> pieces l = [l].
Proof.
  intros l H. unfold pieces. destruct (List.length l) as [|n] eqn:E; cbn [pieces_f]; auto.
  rewrite E. destruct (Nat.ltb_spec (S n) zchunk); auto. lia.
Qed.

Lemma chunks_f_spec : forall f l, (List.length l <= f)%nat ->
  concat (chunks_f f l) = l /\ Forall (fun b => b <> [] /\ (List.length b <= zchunk)%nat) (chunks_f f l).
Proof.
  pose proof zchunk_pos as HP.
  induction f as [|f IH]; intros l Hl; cbn [chunks_f concat].
  - destruct l; [split; auto|simpl in Hl; lia].
  - destruct l as [|x l]; [split; auto|].
    destruct (IH (skipn zchunk (x :: l))) as [H1 H2].
    { rewrite skipn_length. cbn [List.length] in *. lia. }
    cbn [concat]. rewrite H1, firstn_skipn. split; auto.
    constructor; auto. split.
    + destruct zchunk; [lia|]. simpl. discriminate.
    + rewrite firstn_length. lia.
Qed.
Lemma chunks_concat : forall l, concat (chunks l) = l.
Proof. intros. apply chunks_f_spec. auto. Qed.
Lemma chunks_ok : forall l, Forall (fun b => b <> [] /\ (List.length b <= zchunk)%nat) (chunks l).
Proof. intros. apply chunks_f_spec. auto. Qed.

(* ---- what is on the wire ---- *)

(* A message carrying data. *)
Definition app_msg (b : bytes) : msg := (CMD_APPEND, b).
(* The messages are data messages for the blocks bs. *)
Definition blocks (l : list msg) (bs : list bytes) : Prop :=
  l = map app_msg bs /\ Forall (fun b => b <> []) bs.
(* The messages are the data d in blocks followed by the end e. *)
Definition wire (l : list msg) (d e : bytes) : Prop :=
  exists bs, l = map app_msg bs ++ [(CMD_END_FILE, e)] /\ Forall (fun b => b <> []) bs /\ concat bs = d.

Lemma blocks_snoc : forall l bs b, blocks l bs -> b <> [] -> blocks (l ++ [(CMD_APPEND, b)]) (bs ++ [b]).
Proof.
  intros l bs b [-> H] Hb. split; [rewrite map_app; reflexivity|].
  apply Forall_app. split; auto.
Qed.

(* ---- sending ---- *)

(* What goes into the connection, or into the cipher before it. *)
Definition passed (c : option cipher) (s : snd_st) (bs : list bytes) : bytes :=
  match c with None => concat bs | Some _ => s_efed s end.
(* What is kept true while sending. *)
Definition sending (c : option cipher) (s : snd_st) (bs : list bytes) : Prop :=
  blocks (s_sent s) bs /\
  match c with None => True | Some c => concat bs = c_upd c (s_efed s) /\ s_md s = concat bs end.

Lemma put_spec : forall o b s s' bs, put o b s = Some s' -> blocks (s_sent s) bs ->
  exists bs', blocks (s_sent s') bs' /\ concat bs' = concat bs ++ b /\ s_efed s' = s_efed s /\ s_md s' = s_md s.
Proof.
  intros o b s s' bs H B. unfold put in H. destruct (is_nil b) eqn:N.
  - apply is_nil_iff in N. subst. injection H as <-. exists bs. rewrite app_nil_r. auto.
  - destruct (o_write o (s_sent s)); [|discriminate]. injection H as <-.
    exists (bs ++ [b]). cbn [s_sent s_efed s_md]. rewrite concat_app. cbn [concat]. rewrite app_nil_r.
    split; [|auto]. apply blocks_snoc; auto. intros ->. discriminate.
Qed.

Lemma do_encryption_spec : forall o c b s s' bs, cipher_ok c ->
  do_encryption o c b s = Some s' -> sending (Some c) s bs ->
  exists bs', sending (Some c) s' bs' /\ s_efed s' = s_efed s ++ b.
Proof.
  intros o c b s s' bs (_ & _ & M & _) H [B [E Md]]. unfold do_encryption in H.
  destruct (is_nil b) eqn:N.
  { apply is_nil_iff in N. subst. injection H as <-. exists bs. rewrite app_nil_r.
    unfold sending. auto. }
  destruct (M (s_efed s) b) as [t Ht].
  rewrite Ht, skipn_app_len in H.
  destruct (is_nil t) eqn:Nt.
  { apply is_nil_iff in Nt. subst. injection H as <-. exists bs.
    unfold sending. cbn [s_sent s_efed s_md]. rewrite app_nil_r in Ht. rewrite Ht. auto. }
  destruct (put o t _) as [s1|] eqn:P; [|discriminate]. injection H as <-.
  destruct (put_spec _ _ _ _ bs P B) as (bs' & B' & C' & F' & Md').
  cbn [s_efed s_md] in F', Md'.
  exists bs'. unfold sending, md5_add. cbn [s_sent s_efed s_md].
  rewrite F', Md', C', Ht, E, Md. rewrite E. auto.
Qed.

Definition never_stops (o : outside) (quick : bool) : Prop := quick = true -> forall l, o_quick o l <> QStop.

Lemma send_piece_spec : forall o quick c b s s' bs, (forall k, c = Some k -> cipher_ok k) ->
  send_piece o quick c b s = Cont s' -> sending c s bs ->
  exists bs', sending c s' bs' /\ passed c s' bs' = passed c s bs ++ b /\
              (c = None -> s_md s' = s_md s).
Proof.
  intros o quick c b s s' bs K H S. unfold send_piece in H.
  assert (exists s1, match c with Some c => do_encryption o c b s | None => put o b s end = Some s1 /\ s' = s1) as (s1 & H1 & ->).
  { destruct (match c with Some c => do_encryption o c b s | None => put o b s end) as [s1|]; [|discriminate].
    exists s1. split; auto. destruct quick; [destruct (o_quick o (s_sent s1))|]; congruence. }
  destruct c as [c|].
  - destruct (do_encryption_spec _ _ _ _ _ bs (K _ eq_refl) H1 S) as (bs' & S' & E').
    exists bs'. repeat split; try (apply S'). cbn [passed]. exact E'. discriminate.
  - destruct (put_spec _ _ _ _ bs H1 (proj1 S)) as (bs' & B' & C' & F' & M').
    exists bs'. repeat split; auto. apply B'. apply B'.
Qed.

Lemma send_pieces_spec : forall o quick c l s s' bs, (forall k, c = Some k -> cipher_ok k) ->
  send_pieces o quick c l s = Cont s' -> sending c s bs ->
  exists bs', sending c s' bs' /\ passed c s' bs' = passed c s bs ++ concat l /\
              (c = None -> s_md s' = s_md s).
Proof.
  intros o quick c l. induction l as [|b l IH]; intros s s' bs K H S; cbn [send_pieces concat] in *.
  - injection H as <-. exists bs. rewrite app_nil_r. auto.
  - destruct (send_piece o quick c b s) as [s1|s1|s1] eqn:E; try discriminate.
    destruct (send_piece_spec _ _ _ _ _ _ bs K E S) as (b1 & S1 & P1 & M1).
    destruct (IH _ _ b1 K H S1) as (b2 & S2 & P2 & M2).
    exists b2. split; auto. split.
    + rewrite P2, P1, app_assoc. reflexivity.
    + intros Hc. rewrite M2, M1; auto.
Qed.

Lemma send_piece_no_stop : forall o quick c b s s', never_stops o quick -> send_piece o quick c b s <> Stop s'.
Proof.
  intros o quick c b s s' N H. unfold send_piece in H.
  destruct (match c with Some c => do_encryption o c b s | None => put o b s end) as [s1|]; [|discriminate].
  destruct quick; [|discriminate]. specialize (N eq_refl (s_sent s1)).
  destruct (o_quick o (s_sent s1)); congruence.
Qed.
Lemma send_pieces_no_stop : forall o quick c l s s', never_stops o quick -> send_pieces o quick c l s <> Stop s'.
Proof.
  intros o quick c l. induction l as [|b l IH]; intros s s' N H; cbn [send_pieces] in H; [discriminate|].
  destruct (send_piece o quick c b s) as [s1|s1|s1] eqn:E.
  - eapply IH; eauto.
  - eapply send_piece_no_stop; eauto.
  - discriminate.
Qed.

(* The outer loop never says the client interrupted if it does not. *)
Lemma gz_loop_no_stop : forall z o quick c comp ins fed g n s m s', never_stops o quick ->
  gz_loop z o quick c comp ins fed g n s <> GStop m s'.
Proof.
  intros z o quick c comp ins. induction ins as [|i ins IH]; intros fed g n s m s' N H; cbn [gz_loop] in H.
  - destruct comp; [|discriminate].
    destruct (send_pieces o quick c _ _) as [s1|s1|s1] eqn:E; try discriminate.
    eapply send_pieces_no_stop; eauto.
  - destruct i as [[|x b]|]; [| |discriminate].
    + destruct comp; [|discriminate].
      destruct (send_pieces o quick c _ _) as [s1|s1|s1] eqn:E; try discriminate.
      eapply send_pieces_no_stop; eauto.
    + destruct (send_pieces o quick c _ _) as [s1|s1|s1] eqn:E; try discriminate.
      * eapply IH; eauto.
      * eapply send_pieces_no_stop; eauto.
Qed.

(* What is passed on for a file with content x. *)
Definition packed (z : zlib) (comp : bool) (x : bytes) : bytes := if comp then z_fin z x else x.

Lemma gz_loop_spec : forall z o quick c comp, zlib_ok z -> (forall k, c = Some k -> cipher_ok k) ->
  forall cs fed g n s m s' bs, Forall (fun b => b <> []) cs ->
  gz_loop z o quick c comp (map Some cs) fed g n s = GDone m s' ->
  sending c s bs -> (c = None -> s_md s = fed) ->
  (comp = true -> g = List.length (passed c s bs) /\ exists t, z_def z fed = passed c s bs ++ t) ->
  (comp = false -> passed c s bs = fed) ->
  exists bs', sending c s' bs' /\ passed c s' bs' = packed z comp (fed ++ concat cs) /\
              m = n + Z.of_nat (List.length (concat cs)) /\ (c = None -> s_md s' = fed ++ concat cs).
Proof.
  intros z o quick c comp Z K.
  pose proof Z as (Z1 & Z2 & _).
  assert (MD : forall b s bs, sending c s bs -> (c = None -> s_md s = [] \/ True) ->
     sending c (match c with None => md5_add b s | Some _ => s end) bs /\
     passed c (match c with None => md5_add b s | Some _ => s end) bs = passed c s bs).
  { intros b s bs S _. destruct c; auto. }
  induction cs as [|b cs IH]; intros fed g n s m s' bs F H S HM HG HP.
  - cbn [map gz_loop concat] in *. rewrite app_nil_r in *. rewrite Z.add_0_r.
    destruct comp; cbn [packed].
    + destruct (HG eq_refl) as [-> [t Ht]].
      destruct (MD [] s bs S (fun _ => or_intror I)) as [S1 P1].
      cbn [is_nil] in H. destruct (Z2 fed) as [u Hu].
      rewrite Hu, Ht in H. rewrite <- app_assoc, skipn_app_len in H.
      destruct (send_pieces o quick c _ _) as [s1|s1|s1] eqn:E; try discriminate. injection H as <- <-.
      destruct (send_pieces_spec _ _ _ _ _ _ bs K E S1) as (bs' & S' & P' & M').
      exists bs'. split; auto. rewrite P', P1, pieces_concat, Hu, Ht, app_assoc. repeat split; auto.
      intros Hc. rewrite (M' Hc). subst c. cbn [md5_add s_md]. rewrite HM, app_nil_r; auto.
    + injection H as <- <-. exists bs. rewrite (HP eq_refl). repeat split; auto; try (apply S); tauto.
  - inversion F as [|? ? Hb F']; subst.
    destruct b as [|x b]; [congruence|].
    cbn [map gz_loop is_nil] in H.
    destruct (MD (x :: b) s bs S (fun _ => or_intror I)) as [S1 P1].
    destruct (send_pieces o quick c _ _) as [s1|s1|s1] eqn:E; try discriminate.
    destruct (send_pieces_spec _ _ _ _ _ _ bs K E S1) as (b1 & S2 & P2 & M2).
    rewrite P1 in P2.
    destruct (IH _ _ _ _ _ _ b1 F' H S2) as (bs' & S' & P' & Hn & M').
    + intros Hc. rewrite (M2 Hc). subst c. cbn [md5_add s_md]. rewrite HM; auto.
    + intros ->. destruct (HG eq_refl) as [-> [t Ht]].
      destruct (Z1 fed (x :: b)) as [u Hu].
      rewrite Hu, Ht, <- app_assoc, skipn_app_len, pieces_concat in P2.
      rewrite Hu, Ht, P2, <- app_assoc. split; auto. exists []. rewrite app_nil_r. reflexivity.
    + intros ->. rewrite P2, (HP eq_refl). cbn [concat]. rewrite app_nil_r. reflexivity.
    + exists bs'. split; auto. cbn [concat]. rewrite app_assoc. split; auto. split; auto.
      rewrite Hn, app_length. lia.
Qed.

(* What is stored for content x. *)
Definition stored (z : zlib) (c : option cipher) (comp : bool) (x : bytes) : bytes :=
  match c with None => packed z comp x | Some k => c_fin k (packed z comp x) end.
(* What the checksum is of. *)
Definition summed (z : zlib) (c : option cipher) (comp : bool) (x : bytes) : bytes :=
  match c with None => x | Some k => c_fin k (packed z comp x) end.

Lemma end_of_file_wire : forall o h r n s l bs, end_of_file o h r n s = (r, l) -> r <> SEND_FATAL ->
  blocks (s_sent s) bs -> wire l (concat bs) (endfile n (h (s_md s))).
Proof.
  intros o h r n s l bs H Hr [B F]. unfold end_of_file, write_endfile in H.
  destruct (o_write o (s_sent s)); [|congruence]. injection H as <-.
  exists bs. rewrite B. auto.
Qed.

Theorem send_gzl_ok : forall z h o quick c comp cs l, zlib_ok z -> (forall k, c = Some k -> cipher_ok k) ->
  Forall (fun b => b <> []) cs -> never_stops o quick ->
  send_whole_file_gzl z h o quick c comp (map Some cs) = (SEND_OK, l) ->
  wire l (stored z c comp (concat cs))
       (endfile (Z.of_nat (List.length (concat cs))) (h (summed z c comp (concat cs)))).
Proof.
  intros z h o quick c comp cs l Z K F N H. unfold send_whole_file_gzl in H.
  destruct (gz_loop z o quick c comp (map Some cs) [] 0 0 (mksnd [] [] [])) as [m s|m s|m s|m s] eqn:E; try discriminate.
  2:{ exfalso. eapply gz_loop_no_stop; eauto. }
  assert (S0 : sending c (mksnd [] [] []) []).
  { split; [split; auto|]. destruct c as [k|]; auto. cbn [s_efed s_md concat].
    destruct (K k eq_refl) as (-> & _). auto. }
  assert (P0 : passed c (mksnd [] [] []) [] = []) by (destruct c; reflexivity).
  destruct (gz_loop_spec _ _ _ _ _ Z K _ _ _ _ _ _ _ _ F E S0) as (bs & [B S] & P & Hm & M).
  - auto.
  - intros _. rewrite P0. split; auto. exists (z_def z []). reflexivity.
  - auto.
  - cbn [app] in P, M. rewrite Z.add_0_l in Hm. subst m.
    destruct c as [k|]; cbn [stored summed].
    + destruct S as [Eq Md]. cbn [passed] in P.
      destruct (K k eq_refl) as (_ & _ & _ & FF & _). destruct (FF (s_efed s)) as [t Ht].
      rewrite Ht, skipn_app_len in H.
      destruct (put o t s) as [s1|] eqn:Pt; [|discriminate].
      destruct (put_spec _ _ _ _ bs Pt B) as (b1 & B1 & C1 & E1 & M1).
      rewrite <- P, Ht, <- Eq, <- C1.
      replace (concat b1) with (s_md (md5_add t s1)) at 2.
      * apply (end_of_file_wire _ _ _ _ _ _ _ H); [discriminate|exact B1].
      * cbn [md5_add s_md]. rewrite M1, Md, C1. reflexivity.
    + cbn [passed] in P. rewrite <- P.
      replace (concat cs) with (s_md s) by (rewrite (M eq_refl); reflexivity).
      pose proof (end_of_file_wire _ _ _ _ _ _ bs H) as W. rewrite (M eq_refl) in *.
      apply W; [discriminate|exact B].
Qed.

Lemma file_loop_spec : forall o quick cs n s m s' bs, Forall (fun b => b <> []) cs ->
  file_loop o quick (map Some cs) n s = GDone m s' -> blocks (s_sent s) bs -> s_md s = concat bs ->
  blocks (s_sent s') (bs ++ cs) /\ s_md s' = concat (bs ++ cs) /\ m = n + Z.of_nat (List.length (concat cs)).
Proof.
  intros o quick cs. induction cs as [|b cs IH]; intros n s m s' bs F H B M.
  - cbn [map file_loop] in H. injection H as <- <-. rewrite app_nil_r, Z.add_0_r. auto.
  - inversion F as [|? ? Hb F']; subst. destruct b as [|x b]; [congruence|].
    cbn [map file_loop] in H. unfold put in H. cbn [is_nil md5_add s_sent s_efed s_md] in H.
    destruct (o_write o (s_sent s)); [|discriminate].
    set (s1 := mksnd (s_sent s ++ [(CMD_APPEND, x :: b)]) (s_efed s) (s_md s ++ x :: b)) in *.
    assert (H' : file_loop o quick (map Some cs) (n + Z.of_nat (List.length (x :: b))) s1 = GDone m s')
      by (destruct quick; [|exact H];
          match type of H with context [o_quick ?a ?b] => destruct (o_quick a b); [exact H|discriminate|discriminate] end).
    destruct (IH _ _ _ _ (bs ++ [x :: b]) F' H') as (B' & M' & N').
    + apply blocks_snoc; auto.
    + unfold s1. cbn [s_md]. rewrite concat_app, M. cbn [concat]. rewrite app_nil_r. reflexivity.
    + rewrite <- app_assoc in B', M'. cbn [app] in B', M'. repeat split; auto; try apply B'.
      rewrite N'. cbn [concat]. rewrite app_length. lia.
Qed.
Lemma file_loop_no_stop : forall o quick ins n s m s', never_stops o quick ->
  file_loop o quick ins n s <> GStop m s'.
Proof.
  intros o quick ins. induction ins as [|i ins IH]; intros n s m s' N H; cbn [file_loop] in H; [discriminate|].
  destruct i as [[|x b]|]; try discriminate.
  destruct (put o (x :: b) _) as [s1|]; [|discriminate].
  destruct quick eqn:Q; [|eapply IH; eauto].
  pose proof (N eq_refl (s_sent s1)). destruct (o_quick o (s_sent s1)); try congruence. eapply IH; eauto.
Qed.

(* Sent as it is, in the blocks it was read in. *)
Theorem send_filel_ok : forall h o quick cs l, Forall (fun b => b <> []) cs -> never_stops o quick ->
  send_whole_filel h o quick (File (map Some cs)) = (SEND_OK, l) ->
  l = map app_msg cs ++ [(CMD_END_FILE, endfile (Z.of_nat (List.length (concat cs))) (h (concat cs)))].
Proof.
  intros h o quick cs l F N H. unfold send_whole_filel in H.
  destruct (file_loop o quick (map Some cs) 0 (mksnd [] [] [])) as [m s|m s|m s|m s] eqn:E; try discriminate.
  - destruct (file_loop_spec _ _ _ _ _ _ _ [] F E) as ([B _] & M & Hm); [split; auto|reflexivity|].
    cbn [app] in *. unfold end_of_file, write_endfile in H.
    destruct (o_write o (s_sent s)); [|congruence]. injection H as <-.
    rewrite B, M, Hm. reflexivity.
  - exfalso. eapply file_loop_no_stop; eauto.
  - unfold end_of_file in H. destruct (write_endfile _ _ _ _); discriminate.
Qed.

Lemma meta_loop_spec : forall o cs ok n s m s' bs, Forall (fun b => b <> []) cs ->
  meta_loop o cs ok n s = (true, m, s') -> blocks (s_sent s) bs -> s_md s = concat bs ->
  ok = true /\ blocks (s_sent s') (bs ++ cs) /\ s_md s' = concat (bs ++ cs)
  /\ m = n + Z.of_nat (List.length (concat cs)).
Proof.
  assert (X : forall o cs n s m s', meta_loop o cs false n s <> (true, m, s')).
  { intros o cs. induction cs as [|b cs IH]; intros n s m s' H; cbn [meta_loop] in H; [discriminate|].
    destruct (put o b _) as [s1|]; eapply IH; eauto. }
  intros o cs. induction cs as [|b cs IH]; intros ok n s m s' bs F H B M.
  - cbn [meta_loop] in H. injection H as -> <- <-. rewrite app_nil_r, Z.add_0_r. auto.
  - inversion F as [|? ? Hb F']; subst. cbn [meta_loop] in H.
    destruct (put o b (md5_add b s)) as [s1|] eqn:P.
    + destruct (put_spec _ _ _ _ bs P B) as (b1 & B1 & C1 & E1 & M1).
      assert (B1' : blocks (s_sent s1) (bs ++ [b])).
      { unfold put in P. destruct b; [congruence|]. cbn [is_nil md5_add s_sent] in P.
        destruct (o_write o (s_sent s)); [|discriminate]. injection P as <-. cbn [s_sent]. apply blocks_snoc; auto. }
      destruct (IH _ _ _ _ _ (bs ++ [b]) F' H B1') as (O & B' & M' & N').
      * rewrite M1. cbn [md5_add s_md]. rewrite concat_app, M. cbn [concat]. rewrite app_nil_r. reflexivity.
      * rewrite <- app_assoc in B', M'. cbn [app] in B', M'. repeat split; auto; try apply B'.
        rewrite N'. cbn [concat]. rewrite app_length. lia.
    + exfalso. eapply X; eauto.
Qed.

(* The content of a source: metadata, or a file read in the non-empty blocks cs. *)
Inductive holds : source -> bytes -> Prop :=
| h_meta : forall m, holds (Meta m) m
| h_file : forall cs : list bytes, Forall (fun b : bytes => b <> []) cs -> holds (File (map Some cs)) (concat cs).

Lemma forall_nonempty : forall l, Forall (fun b : bytes => b <> []) (chunks l).
Proof. intros l. eapply Forall_impl; [|apply chunks_ok]. cbn beta. intros; tauto. Qed.

Lemma holds_input : forall x d, holds x d -> exists cs, gz_input x = map Some cs /\ Forall (fun b => b <> []) cs /\ concat cs = d.
Proof.
  intros x d [m|cs F]; cbn [gz_input].
  - exists (chunks m). split; auto. split; [apply forall_nonempty|apply chunks_concat].
  - exists cs. auto.
Qed.

(* Whether the client's settings and the kind of file mean compression, and the cipher used. *)
Definition comp_of (cmd compression : Z) : bool := negb (compression =? 0) && negb (cmd =? CMD_EFS_FILE).
Definition cipher_of (cmd : Z) (c : option cipher) : option cipher := if cmd =? CMD_EFS_FILE then None else c.

(* What a client sends for a file is its content packed as its settings say, the
   number of bytes of content, and the checksum. *)
Theorem backup_wire : forall z h o cmd c compression x d l, zlib_ok z -> (forall k, c = Some k -> cipher_ok k) ->
  holds x d -> send_whole_file_w z h o cmd c compression x = (SEND_OK, l) ->
  wire l (stored z (cipher_of cmd c) (comp_of cmd compression) d)
       (endfile (Z.of_nat (List.length d)) (h (summed z (cipher_of cmd c) (comp_of cmd compression) d))).
Proof.
  intros z h o cmd c compression x d l Z K X H. unfold send_whole_file_w in H.
  unfold comp_of, cipher_of.
  assert (N : never_stops o false) by discriminate.
  destruct ((negb (compression =? 0) || match c with Some _ => true | None => false end)
            && negb (cmd =? CMD_EFS_FILE)) eqn:G.
  - apply andb_true_iff in G. destruct G as [_ G]. apply negb_true_iff in G. rewrite G. cbn [negb].
    rewrite andb_true_r. destruct (holds_input _ _ X) as (cs & E & F & <-). rewrite E in H.
    eapply send_gzl_ok; eauto.
  - assert (W : wire l d (endfile (Z.of_nat (List.length d)) (h d))).
    { destruct X as [m|cs F].
      - unfold send_whole_filel in H.
        destruct (meta_loop o (chunks m) true 0 (mksnd [] [] [])) as [[[|] n] s] eqn:E; [|discriminate].
        destruct (meta_loop_spec _ _ _ _ _ _ _ [] (forall_nonempty m) E) as (_ & B & M & Hn); [split; auto|reflexivity|].
        cbn [app] in *. rewrite chunks_concat in *.
        pose proof (end_of_file_wire _ _ _ _ _ _ (chunks m) H) as W. rewrite M, Hn, chunks_concat in W.
        apply W; [discriminate|exact B].
      - exists cs. split; [|auto]. eapply send_filel_ok; eauto. }
    destruct (cmd =? CMD_EFS_FILE) eqn:EF; cbn [negb andb] in *.
    + rewrite andb_false_r. exact W.
    + rewrite andb_true_r in *. apply orb_false_iff in G. destruct G as [G1 G2].
      destruct c; [discriminate|]. rewrite G1. exact W.
Qed.

(* A client that can write and read sends the file. *)
Lemma put_all : forall o b s, (forall l, o_write o l = true) -> exists s', put o b s = Some s'.
Proof. intros o b s W. unfold put. destruct (is_nil b); eauto. rewrite W. eauto. Qed.
Lemma send_piece_all : forall o quick c b s, (forall l, o_write o l = true) ->
  (quick = true -> forall l, o_quick o l = QNone) -> exists s', send_piece o quick c b s = Cont s'.
Proof.
  intros o quick c b s W Q. unfold send_piece.
  assert (exists s1, match c with Some c => do_encryption o c b s | None => put o b s end = Some s1) as [s1 ->].
  { destruct c as [c|]; [|apply put_all; auto]. unfold do_encryption. destruct (is_nil b); eauto.
    destruct (is_nil (skipn _ _)); eauto.
    destruct (put_all o (skipn (List.length (c_upd c (s_efed s))) (c_upd c (s_efed s ++ b)))
       (mksnd (s_sent s) (s_efed s ++ b) (s_md s)) W) as [s2 ->]. eauto. }
  destruct quick; eauto. rewrite Q; eauto.
Qed.
Lemma send_pieces_all : forall o quick c l s, (forall l, o_write o l = true) ->
  (quick = true -> forall l, o_quick o l = QNone) -> exists s', send_pieces o quick c l s = Cont s'.
Proof.
  intros o quick c l. induction l as [|b l IH]; intros s W Q; cbn [send_pieces]; eauto.
  destruct (send_piece_all o quick c b s W Q) as [s1 ->]. auto.
Qed.
Lemma gz_loop_all : forall z o quick c comp cs fed g n s, (forall l, o_write o l = true) ->
  (quick = true -> forall l, o_quick o l = QNone) ->
  exists m s', gz_loop z o quick c comp (map Some cs) fed g n s = GDone m s'.
Proof.
  intros z o quick c comp cs. induction cs as [|b cs IH]; intros fed g n s W Q; cbn [map gz_loop].
  - destruct comp; eauto. match goal with |- context [send_pieces o quick c ?l ?s] => destruct (send_pieces_all o quick c l s W Q) as [s1 ->] end.
      eauto.
  - destruct b as [|x b].
    + destruct comp; eauto. match goal with |- context [send_pieces o quick c ?l ?s] => destruct (send_pieces_all o quick c l s W Q) as [s1 ->] end.
      eauto.
    + match goal with |- context [send_pieces o quick c ?l ?s] => destruct (send_pieces_all o quick c l s W Q) as [s1 ->] end.
      auto.
Qed.
Lemma end_of_file_all : forall o h r n s, (forall l, o_write o l = true) -> exists l, end_of_file o h r n s = (r, l).
Proof. intros o h r n s W. unfold end_of_file, write_endfile. rewrite W. eauto. Qed.
Lemma send_gzl_all : forall z h o quick c comp cs, (forall l, o_write o l = true) ->
  (quick = true -> forall l, o_quick o l = QNone) ->
  exists l, send_whole_file_gzl z h o quick c comp (map Some cs) = (SEND_OK, l).
Proof.
  intros z h o quick c comp cs W Q. unfold send_whole_file_gzl.
  destruct (gz_loop_all z o quick c comp cs [] 0 0 (mksnd [] [] []) W Q) as (m & s & ->).
  destruct c as [c|]; [|apply end_of_file_all; auto].
  destruct (put_all o (skipn (List.length (c_upd c (s_efed s))) (c_fin c (s_efed s))) s W) as [s1 ->].
  apply end_of_file_all; auto.
Qed.
Lemma send_filel_all : forall h o quick x d, (forall l, o_write o l = true) ->
  (quick = true -> forall l, o_quick o l = QNone) -> holds x d ->
  exists l, send_whole_filel h o quick x = (SEND_OK, l).
Proof.
  intros h o quick x d W Q [m|cs F]; unfold send_whole_filel.
  - assert (A : forall cs n s, exists m s', meta_loop o cs true n s = (true, m, s')).
    { induction cs as [|b cs IH]; intros n s; cbn [meta_loop]; eauto.
      destruct (put_all o b (md5_add b s) W) as [s1 ->]. auto. }
    destruct (A (chunks m) 0 (mksnd [] [] [])) as (k & s & ->). apply end_of_file_all; auto.
  - assert (A : forall cs n s, exists m s', file_loop o quick (map Some cs) n s = GDone m s').
    { induction cs0 as [|b cs0 IH]; intros n s; cbn [map file_loop]; eauto. destruct b as [|y b]; eauto.
      destruct (put_all o (y :: b) (md5_add (y :: b) s) W) as [s1 ->]. destruct quick; auto. rewrite Q; auto. }
    destruct (A cs 0 (mksnd [] [] [])) as (k & s & ->). apply end_of_file_all; auto.
Qed.
Theorem backup_sends : forall z h o cmd c compression x d, (forall l, o_write o l = true) -> holds x d ->
  exists l, send_whole_file_w z h o cmd c compression x = (SEND_OK, l).
Proof.
  intros z h o cmd c compression x d W X. unfold send_whole_file_w.
  destruct (_ && _).
  - destruct (holds_input _ _ X) as (cs & -> & _). apply send_gzl_all; auto. discriminate.
  - eapply send_filel_all; eauto. discriminate.
Qed.

(* ---- receiving ---- *)

(* A message that is only logged. *)
Definition is_note (m : msg) : bool := (fst m =? CMD_MESSAGE) || (fst m =? CMD_WARNING).
Definition quiet (l : list msg) : list msg := filter (fun m => negb (is_note m)) l.

Lemma transfer_quiet : forall z c k ec l r, transfer_loop z c k ec (quiet l) r = transfer_loop z c k ec l r.
Proof.
  intros z c k ec l. induction l as [|[cmd b] l IH]; intros r; cbn [quiet filter transfer_loop]; auto.
  unfold is_note. cbn [fst].
  destruct (Z.eqb_spec cmd CMD_APPEND) as [->|HA].
  { change (negb ((CMD_APPEND =? CMD_MESSAGE) || (CMD_APPEND =? CMD_WARNING))) with true.
    cbn [transfer_loop]. rewrite Z.eqb_refl. destruct (receive_append z c k ec b r); auto. }
  destruct (Z.eqb_spec cmd CMD_END_FILE) as [->|HE].
  { change (negb ((CMD_END_FILE =? CMD_MESSAGE) || (CMD_END_FILE =? CMD_WARNING))) with true.
    cbn [transfer_loop]. reflexivity. }
  destruct ((cmd =? CMD_MESSAGE) || (cmd =? CMD_WARNING)) eqn:EN; cbn [negb].
  - apply IH.
  - cbn [transfer_loop]. apply Z.eqb_neq in HA, HE. rewrite HA, HE, EN. reflexivity.
Qed.

(* Every write() takes everything. *)
Definition full (w : bytes -> bytes -> Z) : Prop := forall out b, w out b = Z.of_nat (List.length b).

(* A place that can take the content x. *)
Definition takes (k : sink) (x : bytes) : Prop :=
  match k with ToFile w => full w | ToMeta => (List.length x < zchunk)%nat end.

Lemma do_write_full : forall k cap b out, b <> [] ->
  match k with ToFile w => full w | ToMeta => (List.length b < cap)%nat end ->
  do_write k cap b out = TGo (out ++ b).
Proof.
  intros k cap b out Hb H. destruct k as [|w]; cbn [do_write].
  - apply Nat.ltb_lt in H. rewrite H. reflexivity.
  - rewrite H. destruct (Z.leb_spec (Z.of_nat (List.length b)) 0) as [L|L].
    + destruct b; [congruence|]. simpl in L. lia.
    + rewrite Nat2Z.id, firstn_all. reflexivity.
Qed.

Lemma inf_loop_full : forall k l out, match k with ToFile w => full w | ToMeta => Forall (fun b => (List.length b < zchunk)%nat) l end ->
  inf_loop k false l out = TGo (out ++ concat l).
Proof.
  intros k l. induction l as [|b l IH]; intros out H; cbn [inf_loop concat andb].
  - rewrite app_nil_r. reflexivity.
  - destruct (is_nil b) eqn:N.
    + apply is_nil_iff in N. subst. cbn [app]. apply IH. destruct k; auto. inversion H; auto.
    + assert (Hb : b <> []) by (intros ->; discriminate).
      rewrite do_write_full; auto.
      * rewrite IH, app_assoc; [reflexivity|]. destruct k; auto. inversion H; auto.
      * destruct k; auto. inversion H; auto.
Qed.

(* What has been written when the data q has reached do_inflate(). *)
Definition got (z : zlib) (raw_ : bool) (q : bytes) (r : rcv) : Prop :=
  if raw_ then t_out r = q
  else t_zfed r = q /\ t_zgiven r = List.length (t_out r) /\ t_out r = fst (z_inf z q).

Lemma zinf_nil : forall z, zlib_ok z -> fst (z_inf z []) = [].
Proof.
  intros z (_ & _ & M & _ & I). destruct (M [] (z_fin z [])) as [s Hs]. cbn [app] in Hs.
  rewrite I in Hs. cbn [fst] in Hs. symmetry in Hs. apply app_eq_nil in Hs. tauto.
Qed.

Lemma got_start : forall z raw_, zlib_ok z -> got z raw_ [] (mkrcv [] 0 [] []).
Proof.
  intros z raw_ Z. unfold got. destruct raw_; cbn; auto. rewrite zinf_nil; auto.
Qed.

Lemma do_inflate_full : forall z k enc ec b q r, zlib_ok z -> b <> [] \/ enc && negb ec = false ->
  got z (enc && negb ec) q r ->
  (enc && negb ec = false -> snd (z_inf z (q ++ b)) = false) ->
  match k with
  | ToFile w => full w
  | ToMeta => if enc && negb ec then (List.length b < doutsize)%nat
              else (List.length (fst (z_inf z (q ++ b))) < zchunk)%nat
  end ->
  exists r', do_inflate z k enc ec b r = TGo r' /\ got z (enc && negb ec) (q ++ b) r' /\ t_dfed r' = t_dfed r.
Proof.
  intros z k enc ec b q r Z Hb G Hs Hk. unfold do_inflate, got in *.
  destruct (enc && negb ec) eqn:E.
  - destruct Hb as [Hb|Hb]; [|discriminate]. rewrite do_write_full; auto.
    eexists. split; [reflexivity|]. cbn. rewrite G. auto.
  - destruct G as (G1 & G2 & G3). rewrite G1. specialize (Hs eq_refl).
    destruct Z as (_ & _ & M & _). destruct (M q b) as [s Ms].
    destruct (z_inf z (q ++ b)) as [all bad] eqn:EZ. cbn [fst snd] in *. subst bad.
    rewrite G2, G3, Ms, skipn_app_len.
    rewrite inf_loop_full, pieces_concat.
    + eexists. split; [reflexivity|]. cbn. auto.
    + destruct k; auto. subst all. rewrite app_length in Hk.
      rewrite pieces_short; [|lia]. constructor; auto. lia.
Qed.

(* Receiving data that is not encrypted. *)
Lemma transfer_plain : forall z k ec bs e l r q, zlib_ok z -> got z false q r ->
  snd (z_inf z (q ++ concat bs)) = false -> takes k (fst (z_inf z (q ++ concat bs))) ->
  transfer_loop z None k ec (map app_msg bs ++ (CMD_END_FILE, e) :: l) r = TGo (fst (z_inf z (q ++ concat bs))).
Proof.
  intros z k ec bs e l. induction bs as [|b bs IH]; intros r q Z G B T.
  - cbn [map app transfer_loop concat] in *. rewrite app_nil_r.
    change (CMD_END_FILE =? CMD_APPEND) with false. change (CMD_END_FILE =? CMD_END_FILE) with true.
    cbn [receive_end]. destruct G as (_ & _ & ->). reflexivity.
  - cbn [map app concat] in *. unfold app_msg at 1. cbn [transfer_loop].
    rewrite Z.eqb_refl. cbn [receive_append]. rewrite app_assoc in B, T.
    pose proof Z as (_ & _ & M & MB & _).
    destruct (do_inflate_full z k false ec b q r Z (or_intror eq_refl) G) as (r' & -> & G' & _).
    + intros _. eapply MB. exact B.
    + destruct k; auto. cbn [andb takes] in *. destruct (M (q ++ b) (concat bs)) as [s Hs]. rewrite Hs, app_length in T. lia.
    + rewrite app_assoc. apply IH; auto.
Qed.

(* What the data means once it is decrypted. *)
Definition unpack (z : zlib) (ec : bool) (y : bytes) : bytes := if ec then fst (z_inf z y) else y.

(* Receiving encrypted data in blocks of at most 4096 bytes, as it is sent. *)
Lemma transfer_enc : forall z c k ec bs e l r q y, zlib_ok z -> cipher_ok c ->
  Forall (fun b => (List.length b <= Z.to_nat 4096)%nat) bs ->
  t_dfed r = q -> got z (negb ec) (c_dup c q) r ->
  c_dfin c (q ++ concat bs) = Some y -> (ec = true -> snd (z_inf z y) = false) -> takes k (unpack z ec y) ->
  transfer_loop z (Some c) k ec (map app_msg bs ++ (CMD_END_FILE, e) :: l) r = TGo (unpack z ec y).
Proof.
  intros z c k ec bs e l.
  pose proof zchunk_val as V1. pose proof doutsize_val as V2.
  induction bs as [|b bs IH]; intros r q y Z C L D G F B T.
  - cbn [map app transfer_loop concat] in *. rewrite app_nil_r in *.
    change (CMD_END_FILE =? CMD_APPEND) with false. change (CMD_END_FILE =? CMD_END_FILE) with true.
    cbn [receive_end]. rewrite D, F.
    pose proof C as (_ & _ & _ & _ & _ & CF & _). destruct (CF _ _ F) as (s & -> & Ls).
    rewrite skipn_app_len. destruct (is_nil s) eqn:N.
    + apply is_nil_iff in N. subst s. rewrite app_nil_r in *. unfold got in G. unfold unpack.
      destruct ec; cbn [negb] in G; [destruct G as (_ & _ & ->)|rewrite G]; reflexivity.
    + assert (Hs : s <> []) by (intros ->; discriminate).
      destruct (do_inflate_full z k true ec s (c_dup c q) r Z (or_introl Hs) G) as (r' & -> & G' & _).
      * intros X. apply B. destruct ec; auto.
      * destruct k; auto. cbn [andb takes] in *. unfold unpack in T. destruct ec; cbn [negb]; lia.
      * unfold got in G'. unfold unpack. destruct ec; cbn [andb negb] in G'; [destruct G' as (_ & _ & ->)|rewrite G']; reflexivity.
  - inversion L as [|? ? Lb L']; subst. cbn [map app concat] in *. unfold app_msg at 1. cbn [transfer_loop].
    rewrite Z.eqb_refl. cbn [receive_append].
    pose proof C as (_ & _ & _ & _ & CD & CF & _).
    destruct (CD (t_dfed r) b) as (s & Hs & Ls). rewrite Hs, skipn_app_len.
    assert (Lim : (doutsize <? List.length s)%nat = false) by (apply Nat.ltb_ge; lia).
    rewrite Lim. rewrite app_assoc in F.
    destruct (CF _ _ F) as (u & Hu & _). destruct (CD (t_dfed r ++ b) (concat bs)) as (v & Hv & _).
    assert (Hy : y = (c_dup c (t_dfed r) ++ s) ++ (v ++ u)) by (rewrite Hu, Hv, Hs, !app_assoc; reflexivity).
    set (r1 := mkrcv (t_zfed r) (t_zgiven r) (t_dfed r ++ b) (t_out r)).
    assert (G1 : got z (negb ec) (c_dup c (t_dfed r)) r1) by exact G.
    destruct (is_nil s) eqn:N.
    + apply is_nil_iff in N. subst s. rewrite app_nil_r in Hs.
      apply (IH r1 (t_dfed r ++ b)); auto. rewrite Hs. exact G1.
    + assert (Hs' : s <> []) by (intros ->; discriminate).
      pose proof Z as (_ & _ & M & MB & _).
      destruct (do_inflate_full z k true ec s (c_dup c (t_dfed r)) r1 Z (or_introl Hs') G1) as (r' & -> & G' & D').
      * intros X. assert (ec = true) as E1 by (destruct ec; auto; discriminate).
        specialize (B E1). rewrite Hy in B. eapply MB. exact B.
      * destruct k; auto. cbn [andb takes] in *. unfold unpack in T. destruct ec; cbn [negb].
        -- rewrite Hy in T. destruct (M (c_dup c (t_dfed r) ++ s) (v ++ u)) as [w Hw]. rewrite Hw, app_length in T. lia.
        -- lia.
      * apply (IH r' (t_dfed r ++ b)); auto. cbn [andb] in G'. rewrite Hs. exact G'.
Qed.

(* ---- there and back ---- *)

(* The size of the buffer the server reads a stored file with. *)
Definition read_size (cmd : Z) (comp : bool) : Z :=
  if cmd_is_encrypted cmd || comp then 4096 else 16000.

(* A client with a password uses the encrypted kinds of entry, and only then. *)
Definition kind_matches (cmd : Z) (c : option cipher) : Prop :=
  cmd <> CMD_EFS_FILE /\ (cmd_is_encrypted cmd = true <-> exists k, c = Some k).

Theorem there_and_back : forall z h o o2 cmd c compression x d l datapth st l2 l3 k,
  zlib_ok z -> (forall k, c = Some k -> cipher_ok k) -> kind_matches cmd c -> 0 <= compression ->
  holds x d ->
  (* the backup *)
  send_whole_file_w z h o cmd c compression x = (SEND_OK, l) ->
  (* the server stores the data of the messages and reads it back in blocks *)
  concat st = concat (map snd (filter (fun m => fst m =? CMD_APPEND) l)) ->
  Forall (fun b => b <> [] /\ Z.of_nat (List.length b) <= read_size cmd (negb (compression =? 0))) st ->
  never_stops o2 true ->
  (* the restore *)
  do_send_file z h o2 cmd false compression datapth (map Some st) = (SEND_OK, l2) ->
  quiet l3 = l2 -> takes k d ->
  restore_data z c k cmd compression datapth l3 = TGo d.
Proof.
  intros z h o o2 cmd c compression x d l datapth st l2 l3 k Z K [KM KE] HC X H HS FS N H2 HQ T.
  pose proof (backup_wire _ _ _ _ _ _ _ _ _ Z K X H) as (bs & -> & FB & CB).
  assert (EF : (cmd =? CMD_EFS_FILE) = false) by (apply Z.eqb_neq; exact KM).
  unfold cipher_of, comp_of in CB. rewrite EF in CB. cbn [negb] in CB. rewrite andb_true_r in CB.
  assert (HD : concat st = stored z c (negb (compression =? 0)) d).
  { rewrite HS, filter_app, map_app, concat_app, <- CB.
    replace (filter _ [(CMD_END_FILE, _)]) with (@nil msg) by reflexivity. cbn [map concat]. rewrite app_nil_r.
    f_equal. clear. induction bs as [|b bs IH]; auto. cbn [map filter fst app_msg]. rewrite Z.eqb_refl. cbn [map snd]. rewrite IH. reflexivity. }
  assert (FN : Forall (fun b => b <> []) st) by (eapply Forall_impl; [|exact FS]; cbn beta; tauto).
  assert (DC : dpth_is_compressed compression datapth = negb (compression =? 0)).
  { unfold dpth_is_compressed. destruct (Z.gtb_spec compression 0) as [G|G].
    - destruct (Z.eqb_spec compression 0); auto; lia.
    - assert (compression = 0) as -> by lia. reflexivity. }
  unfold restore_data, transfer_gzfile_inl. rewrite DC.
  rewrite <- transfer_quiet, HQ. unfold do_send_file in H2. rewrite DC in H2.
  pose proof Z as (_ & _ & _ & _ & INV).
  destruct (cmd_is_encrypted cmd) eqn:EN.
  - destruct (proj1 KE eq_refl) as [q ->]. specialize (K q eq_refl).
    rewrite (send_filel_ok _ _ _ _ _ FN N H2). cbn [stored] in HD.
    assert (Y : unpack z (negb (compression =? 0)) (packed z (negb (compression =? 0)) d) = d).
    { unfold unpack, packed. destruct (negb (compression =? 0)); auto. rewrite INV. reflexivity. }
    transitivity (@TGo bytes (unpack z (negb (compression =? 0)) (packed z (negb (compression =? 0)) d)));
      [|rewrite Y; reflexivity].
    apply (transfer_enc _ _ _ _ _ _ _ _ []); auto.
    + eapply Forall_impl; [|exact FS]. unfold read_size. rewrite EN. cbn beta. cbn [orb]. intros; lia.
    + pose proof K as (_ & -> & _). apply got_start. exact Z.
    + cbn [app]. rewrite HD. apply K.
    + intros ->. unfold packed. rewrite INV. reflexivity.
    + rewrite Y. exact T.
  - assert (c = None) as ->.
    { destruct c; auto. assert (X' : false = true) by (apply KE; eauto). discriminate. }
    cbn [stored] in HD.
    assert (W : exists bs' e', l2 = map app_msg bs' ++ [(CMD_END_FILE, e')] /\ concat bs' = z_fin z d).
    { destruct (negb (compression =? 0)) eqn:CE; cbn [negb packed] in *.
      - eexists st, _. split; [apply (send_filel_ok _ _ _ _ _ FN N H2)|]. exact HD.
      - assert (KN : forall k0, None = Some k0 -> cipher_ok k0) by discriminate.
        pose proof (send_gzl_ok _ _ _ _ _ _ _ _ Z KN FN N H2) as (b3 & -> & _ & C3).
        cbn [stored packed] in C3. rewrite HD in C3. eexists b3, _. split; [reflexivity|exact C3]. }
    destruct W as (b3 & e3 & -> & C3).
    rewrite (transfer_plain z k (negb (compression =? 0)) b3 e3 [] (mkrcv [] 0 [] []) [] Z (got_start z false Z));
      cbn [app]; rewrite C3, INV; auto.
Qed.

(* A password that is set when a file is restored that was not encrypted. *)
Lemma other_password : forall z cr c k cmd compression datapth l, kind_matches cmd c -> (cmd_is_encrypted cmd = true -> cr = c) ->
  restore_data z cr k cmd compression datapth l = restore_data z c k cmd compression datapth l.
Proof.
  intros z cr c k cmd compression datapth l (_ & E) H. unfold restore_data. destruct (cmd_is_encrypted cmd) eqn:Q; auto. rewrite H; auto.
Qed.
