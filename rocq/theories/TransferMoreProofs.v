(* When a transfer that did not work out is taken for one that did. *)
From Verif Require Import Bytes CmdModel SbufModel AttribsModel BuModel Phase2Model TransferModel TransferProofs.

(* ---- success means everything received was written ---- *)

Lemma pieces_f_bad : forall k f l out o, (List.length l <= f)%nat -> inf_loop k true (pieces_f f l) out <> TGo o.
Proof.
  pose proof zchunk_pos as HP.
  intros k f. induction f as [|f IH]; intros l out o Hl H; cbn [pieces_f] in H.
  - cbn [inf_loop andb] in H. assert (L : (List.length l <? zchunk)%nat = true) by (apply Nat.ltb_lt; lia).
    rewrite L in H. discriminate.
  - destruct (List.length l <? zchunk)%nat eqn:L.
    + cbn [inf_loop andb] in H. rewrite L in H. discriminate.
    + cbn [inf_loop andb] in H. apply Nat.ltb_ge in L.
      assert (L2 : (List.length (firstn zchunk l) <? zchunk)%nat = false).
      { apply Nat.ltb_ge. rewrite firstn_length. lia. }
      rewrite L2 in H.
      assert (HS : (List.length (skipn zchunk l) <= f)%nat) by (rewrite skipn_length; lia).
      destruct (is_nil (firstn zchunk l)); [eapply IH; eauto|].
      destruct (do_write k zchunk (firstn zchunk l) out); try discriminate. eapply IH; eauto.
Qed.

Lemma do_inflate_inv : forall z w enc ec b q r r', zlib_ok z -> full w ->
  got z (enc && negb ec) q r -> do_inflate z (ToFile w) enc ec b r = TGo r' ->
  got z (enc && negb ec) (q ++ b) r' /\ t_dfed r' = t_dfed r /\
  (enc && negb ec = false -> snd (z_inf z (q ++ b)) = false).
Proof.
  intros z w enc ec b q r r' Z W G H.
  destruct (snd (z_inf z (q ++ b))) eqn:B.
  - destruct (enc && negb ec) eqn:E.
    + unfold do_inflate, got in *. rewrite E in H. cbn [do_write] in H. rewrite W in H.
      destruct (Z.of_nat (List.length b) <=? 0); [discriminate|]. injection H as <-. cbn. rewrite G, Nat2Z.id, firstn_all.
      repeat split; auto.
    + unfold do_inflate in H. rewrite E in H. unfold got in G. destruct G as (G1 & _). rewrite G1 in H.
      destruct (z_inf z (q ++ b)) as [all bad]. cbn [snd] in B. subst bad.
      destruct (inf_loop (ToFile w) true (pieces (skipn (t_zgiven r) all)) (t_out r)) eqn:I; try discriminate.
      exfalso. unfold pieces in I. eapply pieces_f_bad in I; [exact I|auto].
  - destruct (enc && negb ec) eqn:E.
    + unfold do_inflate, got in *. rewrite E in H. cbn [do_write] in H. rewrite W in H.
      destruct (Z.of_nat (List.length b) <=? 0); [discriminate|]. injection H as <-. cbn. rewrite G, Nat2Z.id, firstn_all.
      repeat split; auto.
    + destruct (do_inflate_full z (ToFile w) enc ec b q r Z (or_intror E)) as (r1 & H1 & G1 & D1); auto.
      * rewrite E. exact G.
      * rewrite H in H1. injection H1 as <-. rewrite E in G1. auto.
Qed.

Lemma zinf_nil_ok : forall z, zlib_ok z -> snd (z_inf z []) = false.
Proof. intros z (_ & _ & _ & B & I). apply (B [] (z_fin z [])). cbn [app]. rewrite I. reflexivity. Qed.

Lemma quiet_cons : forall m l, quiet (m :: l) = if is_note m then quiet l else m :: quiet l.
Proof. intros m l. unfold quiet. cbn [filter]. destruct (is_note m); reflexivity. Qed.

Lemma transfer_plain_inv : forall z w ec l r q out, zlib_ok z -> full w -> got z false q r ->
  snd (z_inf z q) = false ->
  transfer_loop z None (ToFile w) ec l r = TGo out ->
  exists bs e t, quiet l = map app_msg bs ++ (CMD_END_FILE, e) :: t /\ z_inf z (q ++ concat bs) = (out, false).
Proof.
  intros z w ec l. induction l as [|[cmd b] l IH]; intros r q out Z W G B H; cbn [transfer_loop] in H; [discriminate|].
  rewrite quiet_cons.
  destruct (Z.eqb_spec cmd CMD_APPEND) as [->|HA].
  { change (is_note (CMD_APPEND, b)) with false.
    cbn [receive_append] in H.
    destruct (do_inflate z (ToFile w) false ec b r) as [| |r'] eqn:E; try discriminate.
    destruct (do_inflate_inv z w false ec b q r r' Z W G E) as (G' & _ & B').
    destruct (IH _ _ _ Z W G' (B' eq_refl) H) as (bs & e & t & Q & I).
    exists (b :: bs), e, t. rewrite Q. cbn [map app concat]. rewrite app_assoc. auto. }
  destruct (Z.eqb_spec cmd CMD_END_FILE) as [->|HE].
  { change (is_note (CMD_END_FILE, b)) with false.
    cbn [receive_end] in H. injection H as <-. exists [], b, (quiet l). cbn [map app concat]. rewrite app_nil_r.
    split; auto. destruct G as (_ & _ & ->). rewrite <- B. destruct (z_inf z q); reflexivity. }
  unfold is_note. cbn [fst]. destruct ((cmd =? CMD_MESSAGE) || (cmd =? CMD_WARNING)); [|discriminate]. eapply IH; eauto.
Qed.

Lemma transfer_enc_inv : forall z c w ec l r q out, zlib_ok z -> cipher_ok c -> full w ->
  t_dfed r = q -> got z (negb ec) (c_dup c q) r -> (ec = true -> snd (z_inf z (c_dup c q)) = false) ->
  transfer_loop z (Some c) (ToFile w) ec l r = TGo out ->
  exists bs e t y, quiet l = map app_msg bs ++ (CMD_END_FILE, e) :: t /\
    c_dfin c (q ++ concat bs) = Some y /\ (if ec then z_inf z y = (out, false) else y = out).
Proof.
  intros z c w ec l. induction l as [|[cmd b] l IH]; intros r q out Z C W D G B H; cbn [transfer_loop] in H; [discriminate|].
  rewrite quiet_cons.
  destruct (Z.eqb_spec cmd CMD_APPEND) as [->|HA].
  { change (is_note (CMD_APPEND, b)) with false.
    cbn [receive_append] in H. rewrite D in H.
    pose proof C as (_ & _ & _ & _ & CD & _). destruct (CD q b) as (s & Hs & _). rewrite Hs, skipn_app_len in H.
    destruct (doutsize <? List.length s)%nat; [discriminate|].
    set (r1 := mkrcv (t_zfed r) (t_zgiven r) (q ++ b) (t_out r)) in *.
    assert (G1 : got z (negb ec) (c_dup c q) r1) by exact G.
    assert (X : exists r', transfer_loop z (Some c) (ToFile w) ec l r' = TGo out /\ t_dfed r' = q ++ b
              /\ got z (negb ec) (c_dup c (q ++ b)) r' /\ (ec = true -> snd (z_inf z (c_dup c (q ++ b))) = false)).
    { destruct (is_nil s) eqn:N.
      - apply is_nil_iff in N. subst s. rewrite app_nil_r in Hs. exists r1. rewrite Hs. repeat split; auto.
      - destruct (do_inflate z (ToFile w) true ec s r1) as [| |r'] eqn:E; try discriminate.
        destruct (do_inflate_inv z w true ec s _ r1 r' Z W G1 E) as (G' & D' & B'). exists r'. rewrite Hs.
        repeat split; auto. intros ->. apply B'. reflexivity. }
    destruct X as (r' & H' & D' & G' & B').
    destruct (IH _ _ _ Z C W D' G' B' H') as (bs & e & t & y & Q & F & O).
    exists (b :: bs), e, t, y. rewrite Q. cbn [map app concat]. rewrite app_assoc. auto. }
  destruct (Z.eqb_spec cmd CMD_END_FILE) as [->|HE].
  { change (is_note (CMD_END_FILE, b)) with false.
    cbn [receive_end] in H. rewrite D in H.
    destruct (c_dfin c q) as [y|] eqn:F; [|discriminate].
    pose proof C as (_ & _ & _ & _ & _ & CF & _). destruct (CF _ _ F) as (s & -> & _). rewrite skipn_app_len in H.
    exists [], b, (quiet l), (c_dup c q ++ s). cbn [map app concat]. rewrite app_nil_r. split; auto. split; auto.
    destruct (is_nil s) eqn:N.
    - apply is_nil_iff in N. subst s. rewrite app_nil_r. injection H as <-. unfold got in G.
      destruct ec; cbn [negb] in G; [|auto]. destruct G as (_ & _ & ->). rewrite <- (B eq_refl).
      destruct (z_inf z (c_dup c q)); reflexivity.
    - destruct (do_inflate z (ToFile w) true ec s r) as [| |r'] eqn:E; try discriminate. injection H as <-.
      destruct (do_inflate_inv z w true ec s _ r r' Z W G E) as (G' & _ & B'). unfold got in G'.
      destruct ec; cbn [andb negb] in *; [|auto]. destruct G' as (_ & _ & ->). rewrite <- (B' eq_refl).
      destruct (z_inf z (c_dup c q ++ s)); reflexivity. }
  unfold is_note. cbn [fst]. destruct ((cmd =? CMD_MESSAGE) || (cmd =? CMD_WARNING)); [|discriminate]. eapply IH; eauto.
Qed.

(* What the received data stands for: decrypted if there is a cipher, then
   decompressed unless it was encrypted without having been compressed. *)
Inductive means (z : zlib) (ec : bool) : option cipher -> bytes -> bytes -> Prop :=
| m_plain : forall d x, z_inf z d = (x, false) -> means z ec None d x
| m_enc : forall c d y x, c_dfin c d = Some y -> (if ec then z_inf z y = (x, false) else y = x) ->
          means z ec (Some c) d x.

Theorem success_means : forall z c w ec l out, zlib_ok z -> (forall k, c = Some k -> cipher_ok k) -> full w ->
  transfer_gzfile_inl z c (ToFile w) ec l = TGo out ->
  exists bs e t, quiet l = map app_msg bs ++ (CMD_END_FILE, e) :: t /\ means z ec c (concat bs) out.
Proof.
  intros z c w ec l out Z K W H. unfold transfer_gzfile_inl in H. destruct c as [c|].
  - specialize (K c eq_refl). pose proof K as (_ & K2 & _).
    destruct (transfer_enc_inv z c w ec l (mkrcv [] 0 [] []) [] out Z K W eq_refl) with (3 := H) as (bs & e & t & y & Q & F & O).
    + rewrite K2. apply got_start. exact Z.
    + intros _. rewrite K2. apply zinf_nil_ok. exact Z.
    + exists bs, e, t. split; auto. econstructor; eauto.
  - destruct (transfer_plain_inv z w ec l _ [] out Z W (got_start z false Z) (zinf_nil_ok z Z) H) as (bs & e & t & Q & I).
    exists bs, e, t. split; auto. constructor. exact I.
Qed.

(* ---- a file that could not be read to the end ---- *)

Lemma put_blocks : forall o b s s' bs, put o b s = Some s' -> blocks (s_sent s) bs -> exists bs', blocks (s_sent s') bs'.
Proof. intros o b s s' bs H B. destruct (put_spec _ _ _ _ bs H B) as (bs' & B' & _). eauto. Qed.
Lemma send_piece_blocks : forall o quick c b s bs, blocks (s_sent s) bs ->
  match send_piece o quick c b s with Cont s' | Stop s' | Fatal s' => exists bs', blocks (s_sent s') bs' end.
Proof.
  intros o quick c b s bs B. unfold send_piece.
  destruct (match c with Some c => do_encryption o c b s | None => put o b s end) as [s1|] eqn:E; [|eauto].
  assert (X : exists bs', blocks (s_sent s1) bs').
  { destruct c as [c|]; [|eapply put_blocks; eauto].
    unfold do_encryption in E. destruct (is_nil b); [injection E as <-; eauto|].
    destruct (is_nil (skipn _ _)); [injection E as <-; eauto|].
    destruct (put o _ _) as [s2|] eqn:P; [|discriminate]. injection E as <-. cbn [md5_add s_sent].
    eapply put_blocks in P; [exact P|exact B]. }
  destruct quick; auto. destruct (o_quick o (s_sent s1)); auto.
Qed.
Lemma send_pieces_blocks : forall o quick c l s bs, blocks (s_sent s) bs ->
  match send_pieces o quick c l s with Cont s' | Stop s' | Fatal s' => exists bs', blocks (s_sent s') bs' end.
Proof.
  intros o quick c l. induction l as [|b l IH]; intros s bs B; cbn [send_pieces]; [eauto|].
  pose proof (send_piece_blocks o quick c b s bs B) as X.
  destruct (send_piece o quick c b s) as [s1|s1|s1]; auto. destruct X as [b1 X]. eapply IH; eauto.
Qed.
Lemma gz_loop_blocks : forall z o quick c comp ins fed g n s bs, blocks (s_sent s) bs ->
  match gz_loop z o quick c comp ins fed g n s with
  | GDone _ s' | GStop _ s' | GError _ s' | GFatal _ s' => exists bs', blocks (s_sent s') bs'
  end.
Proof.
  intros z o quick c comp ins. induction ins as [|i ins IH]; intros fed g n s bs B; cbn [gz_loop].
  - destruct comp; [|eauto].
    match goal with |- context [send_pieces o quick c ?l ?s] => pose proof (send_pieces_blocks o quick c l s bs) as X;
      destruct (send_pieces o quick c l s) end; apply X; destruct c; exact B.
  - destruct i as [[|x b]|]; [| |eauto].
    + destruct comp; [|eauto].
      match goal with |- context [send_pieces o quick c ?l ?s] => pose proof (send_pieces_blocks o quick c l s bs) as X;
        destruct (send_pieces o quick c l s) end; apply X; destruct c; exact B.
    + match goal with |- context [send_pieces o quick c ?l ?s] => pose proof (send_pieces_blocks o quick c l s bs) as X;
        destruct (send_pieces o quick c l s) as [s1|s1|s1] end;
      (assert (Y : exists bs', blocks (s_sent s1) bs') by (apply X; destruct c; exact B)); auto.
      destruct Y as [b1 Y]. eapply IH; eauto.
Qed.

(* send_whole_file_gzl() never ends a file it could not read. *)
Lemma gzl_error : forall z h o quick c comp ins l, send_whole_file_gzl z h o quick c comp ins = (SEND_ERROR, l) ->
  exists bs, blocks l bs.
Proof.
  intros z h o quick c comp ins l H. unfold send_whole_file_gzl in H.
  pose proof (gz_loop_blocks z o quick c comp ins [] 0 0 (mksnd [] [] []) []) as X.
  destruct (gz_loop z o quick c comp ins [] 0 0 (mksnd [] [] [])) as [n s|n s|n s|n s].
  - destruct c as [c|]; [destruct (put o _ s); [|discriminate]|];
      unfold end_of_file in H; destruct (write_endfile _ _ _ _); discriminate.
  - unfold end_of_file in H; destruct (write_endfile _ _ _ _); discriminate.
  - injection H as <-. apply X. split; auto.
  - discriminate.
Qed.
(* A read error is an error, wherever it happens. *)
Lemma gz_loop_read_error : forall z o quick c comp cs ins fed g n s m s',
  Forall (fun b : bytes => b <> []) cs -> gz_loop z o quick c comp (map Some cs ++ None :: ins) fed g n s <> GDone m s'.
Proof.
  intros z o quick c comp cs ins. induction cs as [|b cs IH]; intros fed g n s m s' F H; cbn [map app gz_loop] in H; [discriminate|].
  inversion F as [|? ? Hb F']; subst. destruct b as [|x b]; [congruence|].
  destruct (send_pieces o quick c _ _); try discriminate. eapply IH; eauto.
Qed.
Lemma gzl_read_error : forall z h o quick c comp cs ins, Forall (fun b : bytes => b <> []) cs -> never_stops o quick ->
  fst (send_whole_file_gzl z h o quick c comp (map Some cs ++ None :: ins)) <> SEND_OK.
Proof.
  intros z h o quick c comp cs ins F N H. unfold send_whole_file_gzl in H.
  destruct (gz_loop z o quick c comp (map Some cs ++ None :: ins) [] 0 0 (mksnd [] [] [])) as [m s|m s|m s|m s] eqn:E; try discriminate.
  - eapply gz_loop_read_error; eauto.
  - eapply gz_loop_no_stop; eauto.
Qed.

(* Blocks arriving at the server while a file is open. *)
Lemma receive_blocks : forall tree bs a rb delta data last done, Forall (fun b : bytes => b <> []) bs ->
  receive_all tree a (mkrst rb (Some (delta, data)) last done) (map app_msg bs)
  = Some (mkrst rb (Some (delta, data ++ concat bs)) last done, a).
Proof.
  intros tree. induction bs as [|b bs IH]; intros a rb delta data last done F; cbn [map receive_all concat].
  - rewrite app_nil_r. reflexivity.
  - inversion F as [|? ? Hb F']; subst. unfold app_msg at 1. unfold receive at 1.
    change ((CMD_APPEND =? CMD_MESSAGE) || (CMD_APPEND =? CMD_WARNING)) with false. cbn [r_fzp].
    rewrite Z.eqb_refl. destruct b as [|x b]; [congruence|]. cbn [r_rb r_last r_done].
    rewrite IH; auto. rewrite <- app_assoc. reflexivity.
Qed.
Lemma receive_all_app : forall tree l1 l2 a r, receive_all tree a r (l1 ++ l2) =
  match receive_all tree a r l1 with Some (r', a') => receive_all tree a' r' l2 | None => None end.
Proof.
  intros tree. induction l1 as [|m l1 IH]; intros l2 a r; cbn [app receive_all]; auto.
  destruct (receive tree a r m) as [|r' a'|]; auto.
Qed.

(* A file that was being received and is then interrupted leaves nothing behind. *)
Lemma receive_interrupted : forall tree bs p a rb delta data last done, Forall (fun b : bytes => b <> []) bs ->
  receive_all tree a (mkrst rb (Some (delta, data)) last done) (map app_msg bs ++ [(CMD_INTERRUPT, p)])
  = Some (mkrst (clear_ent rb) None (forget_last last (cview p)) done, a).
Proof.
  intros tree bs p a rb delta data last done F. rewrite receive_all_app, receive_blocks; auto.
Qed.

Definition no_file_open (r : rst) : Prop := r_fzp r = None.

(* The server's state once it was told of a new file. *)
Lemma receive_heads : forall tree a r at_ pt, no_file_open r -> has_buf (s_datapth (e_sb (r_rb r))) = false ->
  fst at_ = CMD_ATTRIBS -> cmd_is_filedata (fst pt) || cmd_is_vssdata (fst pt) = true ->
  match receive_all tree a r [at_; pt] with
  | None => True
  | Some (r', a') => r_done r' = r_done r /\ exists rb d, r_fzp r' = Some (false, []) /\ r_rb r' = rb /\ s_datapth (e_sb rb) = d
  end.
Proof.
  intros tree a r [ca ba] [cp bp] N HB Ha Hp. cbn [fst] in *. subst ca.
  cbn [receive_all]. unfold receive at 1.
  change ((CMD_ATTRIBS =? CMD_MESSAGE) || (CMD_ATTRIBS =? CMD_WARNING)) with false. rewrite N.
  change (CMD_ATTRIBS =? CMD_DATAPTH) with false. change (CMD_ATTRIBS =? CMD_ATTRIBS) with true.
  cbv iota. destruct (attribs_decode (cview ba) (e_at (r_rb r))) as [at'|]; [|exact I].
  assert (NC : forall c, In c [CMD_MESSAGE; CMD_WARNING; CMD_DATAPTH; CMD_ATTRIBS; CMD_GEN; CMD_INTERRUPT] -> (cp =? c) = false).
  { intros c HI. apply Z.eqb_neq. intros ->. clear - HI Hp. unfold In in HI.
    repeat (destruct HI as [<-|HI]; [discriminate Hp|]). destruct HI. }
  unfold receive. rewrite !NC by (cbn; tauto). cbn [orb r_fzp]. cbn [r_fzp]. rewrite !NC by (cbn; tauto).
  rewrite Hp. cbn [e_sb r_rb].
  assert (HB2 : has_buf (s_datapth (set_path (mkiobuf cp (Some bp)) (set_attr (mkiobuf CMD_ATTRIBS (Some ba)) (e_sb (r_rb r))))) = false).
  { exact HB. }
  rewrite HB2. destruct (set_new_datapth tree a _) as [dp a']. cbn [r_done r_fzp r_rb]. split; auto. eauto.
Qed.

(* With compression or encryption, a file whose reading failed is not kept. *)
Theorem read_error_not_kept : forall z h o cmd c compression cs ins tree a r at_ p r' a',
  Forall (fun b : bytes => b <> []) cs ->
  (compression <> 0 \/ exists k, c = Some k) -> cmd <> CMD_EFS_FILE ->
  no_file_open r -> has_buf (s_datapth (e_sb (r_rb r))) = false ->
  cmd_is_filedata cmd || cmd_is_vssdata cmd = true ->
  let s := send_whole_file_w z h o cmd c compression (File (map Some cs ++ None :: ins)) in
  fst s <> SEND_FATAL ->
  receive_all tree a r (client_answer (CMD_ATTRIBS, at_) (cmd, p) s) = Some (r', a') ->
  r_done r' = r_done r /\ no_file_open r'.
Proof.
  intros z h o cmd c compression cs ins tree a r at_ p r' a' F G HE N HB Hc s Hf HR.
  assert (S : exists l, s = (SEND_ERROR, l) /\ exists bs, blocks l bs).
  { unfold s, send_whole_file_w in *.
    assert (X : (negb (compression =? 0) || match c with Some _ => true | None => false end) && negb (cmd =? CMD_EFS_FILE) = true).
    { apply andb_true_iff. split; [|apply negb_true_iff, Z.eqb_neq; auto].
      destruct G as [G|[k ->]]; [apply Z.eqb_neq in G; rewrite G; reflexivity|apply orb_true_r]. }
    rewrite X in *. cbn [gz_input] in *.
    assert (NS : never_stops o false) by discriminate.
    pose proof (gzl_read_error z h o false c (negb (compression =? 0)) cs ins F NS) as Y.
    destruct (send_whole_file_gzl _ _ _ _ _ _ _) as [[| |] l] eqn:E; cbn [fst] in *; try congruence.
    exists l. split; auto. eapply gzl_error; eauto. }
  destruct S as (l & -> & bs & [-> FB]). unfold client_answer in HR. cbn [fst snd] in HR.
  change ((CMD_ATTRIBS, at_) :: (cmd, p) :: map app_msg bs ++ [(CMD_INTERRUPT, p)])
    with ([(CMD_ATTRIBS, at_); (cmd, p)] ++ (map app_msg bs ++ [(CMD_INTERRUPT, p)])) in HR.
  rewrite receive_all_app in HR.
  pose proof (receive_heads tree a r (CMD_ATTRIBS, at_) (cmd, p) N HB eq_refl Hc) as X.
  destruct (receive_all tree a r [(CMD_ATTRIBS, at_); (cmd, p)]) as [[r1 a1]|]; [|discriminate].
  destruct X as (D & rb & d & FZ & RB & _). destruct r1 as [rb1 fz1 la1 dn1]. cbn [r_fzp r_rb r_done] in *. subst fz1 rb1 dn1.
  rewrite receive_interrupted in HR; auto. injection HR as <- <-. split; reflexivity.
Qed.

(* ---- verifying ---- *)

Lemma after_colon_none : forall s, ~ In 58 s -> after_colon s = None.
Proof.
  induction s as [|c s IH]; intros H; cbn [after_colon]; auto.
  rewrite IH by (intros X; apply H; right; auto).
  destruct (Z.eqb_spec c 58); auto. subst. exfalso. apply H. left. auto.
Qed.
Lemma after_colon_last : forall a s, ~ In 58 s -> after_colon (a ++ 58 :: s) = Some s.
Proof.
  induction a as [|c a IH]; intros s H; cbn [app after_colon].
  - rewrite after_colon_none; auto.
  - rewrite IH; auto.
Qed.

Lemma cmd_encrypted_list : forall cmd, (cmd =? CMD_ENC_FILE) || (cmd =? CMD_ENC_METADATA) || (cmd =? CMD_EFS_FILE)
                   || (cmd =? CMD_ENC_VSS) || (cmd =? CMD_ENC_VSS_T) = cmd_is_encrypted cmd.
Proof.
  intros cmd. unfold cmd_is_encrypted.
  destruct (cmd =? CMD_ENC_FILE), (cmd =? CMD_ENC_METADATA), (cmd =? CMD_EFS_FILE), (cmd =? CMD_ENC_VSS), (cmd =? CMD_ENC_VSS_T); reflexivity.
Qed.

(* What the stored data is read as when it is verified. *)
Definition read_as (z : zlib) (cmd compression : Z) (data : bytes) : bytes :=
  if cmd_is_encrypted cmd || (compression =? 0) then data else fst (z_inf z data).

Theorem verify_spec : forall z h cmd compression best data n sum, 0 <= compression -> ~ In 58 sum ->
  verify_file z h cmd false compression best data (Some (endfile n sum)) = true
  <-> h (read_as z cmd compression data) = sum.
Proof.
  intros z h cmd compression best data n sum HC NS. unfold verify_file, endfile, read_as.
  rewrite after_colon_last by auto. cbn [orb].
  rewrite cmd_encrypted_list.
  assert (DC : negb (dpth_is_compressed compression best) = (compression =? 0)).
  { unfold dpth_is_compressed. destruct (Z.gtb_spec compression 0) as [G|G].
    - cbn [negb]. symmetry. apply Z.eqb_neq. lia.
    - assert (compression = 0) as -> by lia. reflexivity. }
  rewrite DC. apply beqb_eq.
Qed.

(* Whatever is done to the stored data, verifying it passes exactly when what it
   reads as has the checksum of what it read as when it was stored. *)
Theorem verify_after_backup : forall z h o cmd c compression x d l data best,
  zlib_ok z -> (forall k, c = Some k -> cipher_ok k) -> kind_matches cmd c -> 0 <= compression ->
  (forall y, ~ In 58 (h y)) -> holds x d ->
  send_whole_file_w z h o cmd c compression x = (SEND_OK, l) ->
  exists bs e, l = map app_msg bs ++ [(CMD_END_FILE, e)] /\
    read_as z cmd compression (concat bs) = summed z c (negb (compression =? 0)) d /\
    (verify_file z h cmd false compression best data (Some e) = true
     <-> h (read_as z cmd compression data) = h (read_as z cmd compression (concat bs))).
Proof.
  intros z h o cmd c compression x d l data best Z K [KM KE] HC NH X H.
  destruct (backup_wire _ _ _ _ _ _ _ _ _ Z K X H) as (bs & -> & FB & CB).
  assert (EF : (cmd =? CMD_EFS_FILE) = false) by (apply Z.eqb_neq; exact KM).
  unfold cipher_of, comp_of in *. rewrite EF in *. cbn [negb] in *. rewrite andb_true_r in *.
  eexists bs, _. split; [reflexivity|].
  assert (R : read_as z cmd compression (concat bs) = summed z c (negb (compression =? 0)) d).
  { unfold read_as. rewrite CB. destruct (cmd_is_encrypted cmd) eqn:E.
    - destruct (proj1 KE eq_refl) as [k ->]. reflexivity.
    - assert (c = None) as ->. { destruct c; auto. assert (Y : false = true) by (apply KE; eauto). discriminate. }
      cbn [orb stored summed packed]. destruct (compression =? 0); cbn [negb packed]; auto.
      destruct Z as (_ & _ & _ & _ & I). rewrite I. reflexivity. }
  split; auto. rewrite R. apply verify_spec; auto.
Qed.

(* ---- certificates, scripts and upgrades ---- *)

Lemma transfer_in_eq : forall z w l r, transfer_in_loop z w l r = transfer_loop z None (ToFile w) false l r.
Proof.
  intros z w l. induction l as [|[cmd b] l IH]; intros r; cbn [transfer_in_loop transfer_loop receive_append receive_end]; auto.
  rewrite IH. destruct (do_inflate z (ToFile w) false false b r); rewrite ?IH; reflexivity.
Qed.

Lemma cut_map : forall cs : list bytes,
  (fix cut (l : list (option bytes)) := match l with Some b :: r => Some b :: cut r | _ => [] end) (map Some cs) = map Some cs.
Proof. induction cs as [|b cs IH]; cbn [map]; auto. rewrite IH. reflexivity. Qed.

Theorem a_file_there : forall z o cs l l2 w, zlib_ok z -> full w -> Forall (fun b : bytes => b <> []) cs ->
  send_a_file z o (map Some cs) = (SEND_OK, l) -> quiet l2 = l ->
  receive_a_file z w l2 = (0, concat cs).
Proof.
  intros z o cs l l2 w Z W F H Q. unfold send_a_file in H. rewrite cut_map in H.
  assert (KN : forall k0, None = Some k0 -> cipher_ok k0) by discriminate.
  assert (N : never_stops o false) by discriminate.
  assert (X : exists n sum, wire l (z_fin z (concat cs)) (endfile n sum)).
  { assert (S0 : sending None (mksnd [] [] []) []) by (split; [split; auto|exact I]).
    destruct (gz_loop z o false None true (map Some cs) [] 0 0 (mksnd [] [] [])) as [m s|m s|m s|m s] eqn:E; try discriminate.
    - destruct (gz_loop_spec _ _ _ _ _ Z KN _ _ _ _ _ _ _ _ F E S0) as (bs & [B _] & P & _ & _); auto.
      + intros _. split; auto. exists (z_def z []). reflexivity.
      + cbn [passed app packed] in P. rewrite <- P.
        eexists m, _. apply (end_of_file_wire _ _ _ _ _ _ bs H); [discriminate|exact B].
    - exfalso. eapply gz_loop_no_stop; eauto.
    - exfalso. clear - E F. assert (Y : forall cs fed g n s, Forall (fun b : bytes => b <> []) cs ->
        gz_loop z o false None true (map Some cs) fed g n s <> GError m s -> True) by auto. clear Y.
      revert E. generalize (@nil Z) at 1. generalize 0%nat. generalize 0. generalize (mksnd [] [] []).
      induction cs as [|b cs IH]; intros s0 n0 g fed E; cbn [map gz_loop] in E.
      + destruct (send_pieces o false None _ _); discriminate.
      + inversion F; subst. destruct b as [|y b]; [congruence|].
        destruct (send_pieces o false None _ _); try discriminate. eapply IH; eauto. }
  destruct X as (n & sum & bs & -> & _ & C).
  unfold receive_a_file. rewrite transfer_in_eq, <- transfer_quiet, Q.
  pose proof Z as (_ & _ & _ & _ & I).
  rewrite (transfer_plain z (ToFile w) false bs _ [] (mkrcv [] 0 [] []) [] Z (got_start z false Z));
    cbn [app]; rewrite C, I; auto.
Qed.

(* ---- keys ---- *)

(* The room that is there: 256 bytes for the key, 9 for the IV. *)
Theorem enc_setup_spec : forall p kd,
  (kd = 2 -> enc_setup (Some p) kd = EUB) /\
  (kd = 1 -> enc_setup (Some p) kd = EOk) /\
  (kd = 0 -> enc_setup (Some p) kd = EUB <-> 256 <= Z.of_nat (List.length p)) /\
  (kd <> 0 -> kd <> 1 -> kd <> 2 -> enc_setup (Some p) kd = ENull) /\
  enc_setup None kd = ENone.
Proof.
  intros p kd. repeat split.
  - intros ->. reflexivity.
  - intros ->. reflexivity.
  - subst kd. unfold enc_setup. cbn [Z.eqb orb negb].
    destruct (Z.ltb_spec 256 (Z.of_nat (List.length p) + 1)); [lia|]. cbn. discriminate.
  - intros L. subst kd. unfold enc_setup. cbn [Z.eqb orb negb].
    destruct (Z.ltb_spec 256 (Z.of_nat (List.length p) + 1)); [auto|lia].
  - intros H0 H1 H2. unfold enc_setup. apply Z.eqb_neq in H0, H1, H2. rewrite H0, H1, H2. reflexivity.
Qed.

(* ---- C71: when the other side wants no more of the file ---- *)

(* After an answer that says so only the end of the file is sent. *)
Definition heeded (o : outside) (l : list msg) : Prop :=
  forall p q, l = p ++ q -> p <> [] -> o_quick o p = QStop -> (List.length q <= 1)%nat.
Definition going (o : outside) (l : list msg) : Prop := forall p q, l = p ++ q -> p <> [] -> o_quick o p <> QStop.
Definition ended (o : outside) (l : list msg) : Prop := forall p q, l = p ++ q -> p <> [] -> o_quick o p = QStop -> q = [].
Lemma going_ended : forall o l, going o l -> ended o l.
Proof. intros o l G p q E N Q. exfalso. exact (G p q E N Q). Qed.
Lemma snoc_split : forall A (p q l : list A) a, l ++ [a] = p ++ q -> (q = [] /\ p = l ++ [a]) \/ exists q', q = q' ++ [a] /\ l = p ++ q'.
Proof.
  intros A p q l a E. destruct q as [|b q0] using rev_ind.
  - left. rewrite app_nil_r in E. auto.
  - right. rewrite app_assoc in E. apply app_inj_tail in E as [E ->]. eauto.
Qed.
Lemma going_snoc : forall o l m, going o l -> o_quick o (l ++ [m]) <> QStop -> going o (l ++ [m]).
Proof. intros o l m G Q p q E N. apply snoc_split in E as [(-> & ->)|(q' & -> & ->)]; auto. apply (G p q'); auto. Qed.
Lemma ended_snoc : forall o l m, going o l -> ended o (l ++ [m]).
Proof. intros o l m G p q E N Q. apply snoc_split in E as [(-> & ->)|(q' & -> & ->)]; auto. exfalso. apply (G p q'); auto. Qed.
Lemma ended_heeded : forall o l m, ended o l -> heeded o (l ++ [m]).
Proof. intros o l m G p q E N Q. apply snoc_split in E as [(-> & ->)|(q' & -> & ->)]; cbn; auto. rewrite (G p q' eq_refl N Q). cbn. auto. Qed.
Lemma ended_heeded0 : forall o l, ended o l -> heeded o l.
Proof. intros o l G p q E N Q. rewrite (G p q E N Q). cbn. auto. Qed.

Lemma piece_heeded : forall o b s, going o (s_sent s) ->
  match send_piece o true None b s with Cont s' => going o (s_sent s') | Stop s' | Fatal s' => ended o (s_sent s') end.
Proof.
  intros o b s G. unfold send_piece, put. destruct (is_nil b).
  - destruct (o_quick o (s_sent s)); auto using going_ended.
  - destruct (o_write o (s_sent s)); [|auto using going_ended]. cbn [s_sent].
    destruct (o_quick o (s_sent s ++ [(CMD_APPEND, b)])) eqn:Q; cbn [s_sent]; auto using ended_snoc. apply (going_snoc o (s_sent s)); [exact G|intros X; pose proof (eq_trans (eq_sym Q) X); discriminate].
Qed.
Lemma pieces_heeded : forall o l s, going o (s_sent s) ->
  match send_pieces o true None l s with Cont s' => going o (s_sent s') | Stop s' | Fatal s' => ended o (s_sent s') end.
Proof.
  intros o. induction l as [|b l IH]; intros s G; cbn [send_pieces]; auto.
  pose proof (piece_heeded o b s G) as P. destruct (send_piece o true None b s); auto. apply IH; auto.
Qed.
Lemma gz_heeded : forall z o comp ins fed given n s, going o (s_sent s) ->
  match gz_loop z o true None comp ins fed given n s with GDone _ s' | GStop _ s' | GError _ s' | GFatal _ s' => ended o (s_sent s') end.
Proof.
  intros z o comp. induction ins as [|[[|x b]|] ins IH]; intros fed given n s G; cbn [gz_loop]; auto using going_ended.
  1,2: destruct comp; auto using going_ended;
    match goal with |- context [send_pieces ?o1 true None ?l ?s1] => pose proof (pieces_heeded o1 l s1 G) as P; destruct (send_pieces o1 true None l s1) end; auto using going_ended.
  match goal with |- context [send_pieces ?o1 true None ?l ?s1] => pose proof (pieces_heeded o1 l s1 G) as P; destruct (send_pieces o1 true None l s1) end; auto. apply IH; auto.
Qed.
Lemma file_heeded : forall o ins n s, going o (s_sent s) ->
  match file_loop o true ins n s with GDone _ s' | GStop _ s' | GError _ s' | GFatal _ s' => ended o (s_sent s') end.
Proof.
  intros o. induction ins as [|[[|x b]|] ins IH]; intros n s G; cbn [file_loop]; auto using going_ended.
  unfold put. cbn [is_nil md5_add s_sent]. destruct (o_write o (s_sent s)); [|apply going_ended; exact G]. cbn [s_sent].
  match goal with |- context [match o_quick o ?l with QNone => _ | _ => _ end] => destruct (o_quick o l) eqn:Q end; cbn [s_sent]; auto using ended_snoc.
  apply IH. cbn [s_sent]. apply (going_snoc o (s_sent s)); [exact G|intros X; pose proof (eq_trans (eq_sym Q) X); discriminate].
Qed.
Lemma eof_heeded : forall o h r n s, ended o (s_sent s) -> heeded o (snd (end_of_file o h r n s)).
Proof.
  intros o h r n s E. unfold end_of_file, write_endfile. destruct (o_write o (s_sent s)); cbn [snd]; [apply ended_heeded|apply ended_heeded0]; auto.
Qed.
Theorem interruption_heeded : forall z h o cmd patches compression datapth ins,
  heeded o (snd (do_send_file z h o cmd patches compression datapth ins)).
Proof.
  assert (G0 : forall o, going o []). { intros o p q E N. destruct p; [congruence|discriminate]. }
  assert (A : forall z h o ins, heeded o (snd (send_whole_file_gzl z h o true None true ins))).
  { intros z h o ins. unfold send_whole_file_gzl. pose proof (gz_heeded z o true ins [] 0 0 (mksnd [] [] []) (G0 o)) as P.
    destruct (gz_loop z o true None true ins [] 0 0 (mksnd [] [] [])); cbn [snd]; auto using eof_heeded, ended_heeded0. }
  assert (B : forall h o ins, heeded o (snd (send_whole_filel h o true (File ins)))).
  { intros h o ins. unfold send_whole_filel. pose proof (file_heeded o ins 0 (mksnd [] [] []) (G0 o)) as P.
    destruct (file_loop o true ins 0 (mksnd [] [] [])); cbn [snd]; auto using eof_heeded, ended_heeded0. }
  intros. unfold do_send_file. destruct patches; auto. destruct (cmd_is_encrypted cmd); auto. destruct (negb _); auto.
Qed.
