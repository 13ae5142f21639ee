(* C69-C75: sending and receiving the data of files. *)
From Verif Require Import Bytes CmdModel SbufModel AttribsModel DpthModel BuModel Phase2Model
  TransferModel TransferProofs TransferMoreProofs.

(* ---- a codec and a cipher meeting the assumptions, for the examples ---- *)

(* Run lengths: pairs of a count and a byte, ended by two zeros; nothing is
   given out before the end. *)
Fixpoint run_enc (n b : Z) (r : bytes) : bytes :=
  match r with
  | [] => [n; b; 0; 0]
  | c :: r' => if (c =? b) && (n <? 255) then run_enc (n + 1) b r' else n :: b :: run_enc 1 c r'
  end.
Definition rle_enc (x : bytes) : bytes := match x with [] => [0; 0] | b :: r => run_enc 1 b r end.
Fixpoint rle_dec (c : bytes) : bytes * bool :=
  match c with
  | n :: b :: r =>
    if n =? 0 then ([], false)
    else if n <? 0 then ([], true)
    else let '(o, e) := rle_dec r in (repeat b (Z.to_nat n) ++ o, e)
  | _ => ([], false)
  end.
Definition rle : zlib := mkz (fun _ => []) rle_enc rle_dec.

Lemma run_dec : forall r n b, 0 < n -> rle_dec (run_enc n b r) = (repeat b (Z.to_nat n) ++ r, false).
Proof.
  induction r as [|c r IH]; intros n b Hn; cbn [run_enc].
  - cbn [rle_dec]. destruct (Z.eqb_spec n 0); [lia|]. destruct (Z.ltb_spec n 0); [lia|]. reflexivity.
  - destruct ((c =? b) && (n <? 255)) eqn:E.
    + apply andb_true_iff in E. destruct E as [E _]. apply Z.eqb_eq in E. subst c.
      rewrite IH by lia. f_equal. replace (Z.to_nat (n + 1)) with (Z.to_nat n + 1)%nat by lia.
      rewrite repeat_app, <- app_assoc. reflexivity.
    + cbn [rle_dec]. destruct (Z.eqb_spec n 0); [lia|]. destruct (Z.ltb_spec n 0); [lia|].
      rewrite IH by lia. reflexivity.
Qed.
Lemma rle_mono : forall f a b, (List.length a <= f)%nat ->
  (exists s, fst (rle_dec (a ++ b)) = fst (rle_dec a) ++ s) /\
  (snd (rle_dec (a ++ b)) = false -> snd (rle_dec a) = false).
Proof.
  induction f as [|f IH]; intros a b H.
  - destruct a; [|simpl in H; lia]. cbn [app rle_dec fst snd]. split; [eexists; reflexivity|auto].
  - destruct a as [|n [|c a]]; cbn [app].
    + cbn [rle_dec fst snd]. split; [eexists; reflexivity|auto].
    + cbn [rle_dec fst snd]. split; [eexists; reflexivity|auto].
    + cbn [rle_dec]. destruct (n =? 0); [cbn; split; [exists []; reflexivity|auto]|].
      destruct (n <? 0); [cbn; split; [exists []; reflexivity|auto]|].
      destruct (IH a b) as [[s Hs] Hb]; [simpl in H; lia|].
      destruct (rle_dec (a ++ b)) as [o e], (rle_dec a) as [o' e']. cbn [fst snd] in *. subst o.
      split; auto. exists s. rewrite app_assoc. reflexivity.
Qed.
Lemma rle_ok : zlib_ok rle.
Proof.
  repeat split; cbn [rle z_def z_fin z_inf].
  - intros. exists []. reflexivity.
  - intros. eexists. reflexivity.
  - intros a b. eapply rle_mono. reflexivity.
  - intros a b. eapply rle_mono. reflexivity.
  - intros [|b r]; cbn [rle_enc]; [reflexivity|]. rewrite run_dec by lia. reflexivity.
Qed.

(* Every byte turned over, and a zero at the end; decrypting keeps one byte back. *)
Definition neg (b : Z) : Z := 255 - b.
Definition lag : cipher :=
  mkc (map neg) (fun p => map neg p ++ [0]) (fun c => map neg (removelast c))
      (fun c => match c with [] => None | _ => if last c 1 =? 0 then Some (map neg (removelast c)) else None end).
Lemma neg_neg : forall x, map neg (map neg x) = x.
Proof. induction x as [|b x IH]; auto. cbn [map]. rewrite IH. unfold neg. f_equal. lia. Qed.
Lemma lag_ok : cipher_ok lag.
Proof.
  repeat split; cbn [lag c_upd c_fin c_dup c_dfin]; auto.
  - intros a b. exists (map neg b). apply map_app.
  - intros a. eexists. reflexivity.
  - intros a b. destruct b as [|x b].
    + exists []. rewrite !app_nil_r. split; auto. cbn. lia.
    + rewrite removelast_app by discriminate. rewrite map_app.
      destruct a as [|y a].
      * exists (map neg (removelast (x :: b))). split; auto. rewrite map_length.
        pose proof (app_removelast_last 0 (l := x :: b)) as E.
        assert (X : x :: b <> []) by discriminate. specialize (E X). apply (f_equal (@List.length Z)) in E.
        rewrite app_length in E. cbn [List.length] in *. lia.
      * exists (neg (last (y :: a) 0) :: map neg (removelast (x :: b))). split.
        -- rewrite (app_removelast_last 0 (l := y :: a)) at 1 by discriminate.
           rewrite map_app, <- app_assoc. reflexivity.
        -- cbn [List.length]. rewrite map_length.
           pose proof (app_removelast_last 0 (l := x :: b)) as E.
           assert (X : x :: b <> []) by discriminate. specialize (E X). apply (f_equal (@List.length Z)) in E.
           rewrite app_length in E. cbn [List.length] in *. lia.
  - intros a x H. exists []. destruct a as [|y a]; [discriminate|]. destruct (last (y :: a) 1 =? 0); [|discriminate].
    injection H as <-. rewrite app_nil_r. split; auto. cbn. lia.
  - intros x. destruct (map neg x ++ [0]) as [|y l] eqn:E; [destruct (map neg x); discriminate|]. rewrite <- E.
    rewrite last_last, removelast_last, neg_neg. reflexivity.
Qed.

(* Nothing goes wrong outside, and a checksum that can be computed here. *)
Definition calm : outside := mkout (fun _ => true) (fun _ => QNone).
Definition sum_of (b : bytes) : bytes := [65 + fold_left Z.add b 0 mod 26].
Definition whole (out b : bytes) : Z := Z.of_nat (List.length b).
Definition ex_d : bytes := [7; 7; 7; 7; 9; 9; 4].

(* ---- C69 ---- *)

Theorem C69_content : forall z h o o2 cmd c cr compression x d l datapth st l2 l3 w,
  zlib_ok z -> (forall k, c = Some k -> cipher_ok k) -> kind_matches cmd c -> (cmd_is_encrypted cmd = true -> cr = c) -> 0 <= compression ->
  holds x d ->
  send_whole_file_w z h o cmd c compression x = (SEND_OK, l) ->
  concat st = concat (map snd (filter (fun m => fst m =? CMD_APPEND) l)) ->
  Forall (fun b => b <> [] /\ Z.of_nat (List.length b) <= read_size cmd (negb (compression =? 0))) st ->
  never_stops o2 true ->
  do_send_file z h o2 cmd false compression datapth (map Some st) = (SEND_OK, l2) ->
  quiet l3 = l2 -> full w ->
  restore_data z cr (ToFile w) cmd compression datapth l3 = TGo d.
Proof. intros until w. intros Z K M R. intros. rewrite (other_password z cr c) by auto. eapply there_and_back; eauto. Qed.
Print Assumptions C69_content.

Theorem C69_sent : forall z h o cmd c compression x d, (forall l, o_write o l = true) -> holds x d ->
  exists l, send_whole_file_w z h o cmd c compression x = (SEND_OK, l).
Proof. exact backup_sends. Qed.
Print Assumptions C69_sent.

(* Compressed and encrypted; read in two blocks, stored, read back in three, with a
   warning in between. *)
Definition ex_l : list msg :=
  Eval vm_compute in snd (send_whole_file_w rle sum_of calm CMD_ENC_FILE (Some lag) 9 (File [Some [7; 7; 7]; Some [7; 9; 9; 4]])).
Definition ex_l2 : list msg :=
  Eval vm_compute in snd (do_send_file rle sum_of calm CMD_ENC_FILE false 9 (str "t/0000") [Some [251; 248]; Some [253; 246; 254]; Some [251; 255; 255; 0]]).
Example C69_witness :
  kind_matches CMD_ENC_FILE (Some lag) /\ holds (File [Some [7; 7; 7]; Some [7; 9; 9; 4]]) ex_d /\
  send_whole_file_w rle sum_of calm CMD_ENC_FILE (Some lag) 9 (File [Some [7; 7; 7]; Some [7; 9; 9; 4]]) = (SEND_OK, ex_l) /\
  ex_l = [(CMD_APPEND, [251; 248; 253; 246; 254; 251; 255; 255]); (CMD_APPEND, [0]); (CMD_END_FILE, str "7:L")] /\
  do_send_file rle sum_of calm CMD_ENC_FILE false 9 (str "t/0000") [Some [251; 248]; Some [253; 246; 254]; Some [251; 255; 255; 0]] = (SEND_OK, ex_l2) /\
  full whole /\
  restore_data rle (Some lag) (ToFile whole) CMD_ENC_FILE 9 (str "t/0000") ((CMD_WARNING, str "x") :: ex_l2) = TGo ex_d.
Proof.
  split; [split; [discriminate|split; intros; eauto]|].
  split; [apply (h_file [[7; 7; 7]; [7; 9; 9; 4]]); repeat constructor; discriminate|].
  split; [vm_compute; reflexivity|]. split; [vm_compute; reflexivity|]. split; [vm_compute; reflexivity|].
  split; [intros out b; reflexivity|]. vm_compute. reflexivity.
Qed.
(* The four combinations of settings all give the content back. *)
Definition round (cmd : Z) (c : option cipher) (compression : Z) : tres bytes :=
  let l := snd (send_whole_file_w rle sum_of calm cmd c compression (File [Some [7; 7; 7]; Some [7; 9; 9; 4]])) in
  let st := concat (map snd (filter (fun m => fst m =? CMD_APPEND) l)) in
  restore_data rle c (ToFile whole) cmd compression (str "t") (snd (do_send_file rle sum_of calm cmd false compression (str "t") [Some st])).
Example C69_rounds : round CMD_FILE None 0 = TGo ex_d /\ round CMD_FILE None 9 = TGo ex_d /\
  round CMD_ENC_FILE (Some lag) 0 = TGo ex_d /\ round CMD_ENC_FILE (Some lag) 9 = TGo ex_d.
Proof. vm_compute. repeat split. Qed.

(* ---- C70 ---- *)

(* Missing: metadata of 16000 bytes or more, for which C70_metadata_refuted shows
   a write behind the end of a buffer. *)
Theorem C70_metadata_partial : forall z h o o2 cmd c cr compression d l datapth st l2 l3,
  zlib_ok z -> (forall k, c = Some k -> cipher_ok k) -> kind_matches cmd c -> (cmd_is_encrypted cmd = true -> cr = c) -> 0 <= compression ->
  send_whole_file_w z h o cmd c compression (Meta d) = (SEND_OK, l) ->
  concat st = concat (map snd (filter (fun m => fst m =? CMD_APPEND) l)) ->
  Forall (fun b => b <> [] /\ Z.of_nat (List.length b) <= read_size cmd (negb (compression =? 0))) st ->
  never_stops o2 true ->
  do_send_file z h o2 cmd false compression datapth (map Some st) = (SEND_OK, l2) ->
  quiet l3 = l2 -> Z.of_nat (List.length d) < 16000 ->
  restore_data z cr ToMeta cmd compression datapth l3 = TGo d.
Proof.
  intros until l3. intros Z K M R. intros. rewrite (other_password z cr c) by auto. eapply there_and_back; eauto; [constructor|]. cbn [takes]. pose proof zchunk_val. lia.
Qed.
Print Assumptions C70_metadata_partial.

Definition big_meta : bytes := repeat 65 (Z.to_nat 16000).
Theorem C70_metadata_refuted : exists z h o cmd compression d l st l2 datapth,
  zlib_ok z /\ cmd = CMD_METADATA /\ send_whole_file_w z h o cmd None compression (Meta d) = (SEND_OK, l) /\
  concat st = concat (map snd (filter (fun m => fst m =? CMD_APPEND) l)) /\
  do_send_file z h o cmd false compression datapth (map Some st) = (SEND_OK, l2) /\
  Z.of_nat (List.length d) = 16000 /\
  restore_data z None ToMeta cmd compression datapth l2 = TUB.
Proof.
  exists rle, sum_of, calm, CMD_METADATA, 9, big_meta.
  exists (snd (send_whole_file_w rle sum_of calm CMD_METADATA None 9 (Meta big_meta))).
  exists [rle_enc big_meta].
  exists (snd (do_send_file rle sum_of calm CMD_METADATA false 9 (str "t") (map Some [rle_enc big_meta]))), (str "t").
  split; [exact rle_ok|]. split; [reflexivity|].
  split; [vm_compute; reflexivity|]. split; [vm_compute; reflexivity|].
  split; [vm_compute; reflexivity|]. split; [vm_compute; reflexivity|]. vm_compute. reflexivity.
Qed.
Print Assumptions C70_metadata_refuted.
Example C70_witness :
  let l := snd (send_whole_file_w rle sum_of calm CMD_ENC_METADATA (Some lag) 5 (Meta ex_d)) in
  let st := concat (map snd (filter (fun m => fst m =? CMD_APPEND) l)) in
  kind_matches CMD_ENC_METADATA (Some lag) /\
  restore_data rle (Some lag) ToMeta CMD_ENC_METADATA 5 (str "t")
    (snd (do_send_file rle sum_of calm CMD_ENC_METADATA false 5 (str "t") [Some st])) = TGo ex_d.
Proof. split; [split; [discriminate|split; intros; eauto]|]. vm_compute. reflexivity. Qed.

(* ---- C71 ---- *)

(* Missing: that what arrived before the end is all there was, and that a
   compressed stream was complete; both are refuted below. *)
Theorem C71_restored_partial : forall z c w ec l out, zlib_ok z -> (forall k, c = Some k -> cipher_ok k) -> full w ->
  transfer_gzfile_inl z c (ToFile w) ec l = TGo out ->
  exists bs e t, quiet l = map app_msg bs ++ (CMD_END_FILE, e) :: t /\ means z ec c (concat bs) out.
Proof. exact success_means. Qed.
Print Assumptions C71_restored_partial.

(* The server fails to read the rest of the stored file and the client takes what
   it got for the file. *)
Theorem C71_read_error_refuted : exists z h o cmd compression datapth d l a b l2 w out,
  zlib_ok z /\ full w /\
  send_whole_file_w z h o cmd None compression (File [Some d]) = (SEND_OK, l) /\
  a ++ b = concat (map snd (filter (fun m => fst m =? CMD_APPEND) l)) /\
  do_send_file z h o cmd false compression datapth [Some a; None] = (SEND_ERROR, l2) /\
  restore_data z None (ToFile w) cmd compression datapth l2 = TGo out /\ out <> d.
Proof.
  exists rle, sum_of, calm, CMD_FILE, 9, (str "t"), ex_d.
  exists [(CMD_APPEND, [4; 7; 2; 9; 1; 4; 0; 0]); (CMD_END_FILE, str "7:Y")], [4; 7], [2; 9; 1; 4; 0; 0].
  eexists _, whole, [7; 7; 7; 7].
  split; [exact rle_ok|]. split; [intros o b; reflexivity|]. split; [vm_compute; reflexivity|].
  split; [vm_compute; reflexivity|]. split; [vm_compute; reflexivity|]. split; [vm_compute; reflexivity|]. discriminate.
Qed.
Print Assumptions C71_read_error_refuted.

(* write() takes less than it was given and says so; the rest is lost. *)
Theorem C71_short_write_refuted : exists z w l d out, zlib_ok z /\
  (forall o b, b <> [] -> 0 < w o b <= Z.of_nat (List.length b)) /\
  l = [(CMD_APPEND, z_fin z d); (CMD_END_FILE, [])] /\
  transfer_gzfile_inl z None (ToFile w) true l = TGo out /\ out <> d.
Proof.
  exists rle, (fun _ _ => 1), [(CMD_APPEND, rle_enc ex_d); (CMD_END_FILE, [])], ex_d, [7].
  split; [exact rle_ok|]. split.
  - intros o b Hb. destruct b; [congruence|]. cbn [List.length]. lia.
  - split; [reflexivity|]. split; [vm_compute; reflexivity|discriminate].
Qed.
Print Assumptions C71_short_write_refuted.

(* A compressed stream that stops in the middle is accepted. *)
Theorem C71_cut_short_refuted : exists z d a b l w out, zlib_ok z /\ full w /\
  z_fin z d = a ++ b /\ b <> [] /\ l = [(CMD_APPEND, a); (CMD_END_FILE, [])] /\
  transfer_gzfile_inl z None (ToFile w) true l = TGo out /\ out <> d.
Proof.
  exists rle, ex_d, [4; 7], [2; 9; 1; 4; 0; 0], [(CMD_APPEND, [4; 7]); (CMD_END_FILE, [])], whole, [7; 7; 7; 7].
  split; [exact rle_ok|]. split; [intros o b; reflexivity|]. split; [vm_compute; reflexivity|].
  split; [discriminate|]. split; [reflexivity|]. split; [vm_compute; reflexivity|discriminate].
Qed.
Print Assumptions C71_cut_short_refuted.
Example C71_witness : transfer_gzfile_inl rle (Some lag) (ToFile whole) true ((CMD_MESSAGE, str "hello") :: ex_l2) = TGo ex_d.
Proof. vm_compute. reflexivity. Qed.

(* ---- C72 ---- *)

(* Missing: a client that neither compresses nor encrypts, refuted below. *)
Theorem C72_read_error_partial : forall z h o cmd c compression cs ins tree a r at_ p r' a',
  Forall (fun b : bytes => b <> []) cs ->
  (compression <> 0 \/ exists k, c = Some k) -> cmd <> CMD_EFS_FILE ->
  no_file_open r -> has_buf (s_datapth (e_sb (r_rb r))) = false ->
  cmd_is_filedata cmd || cmd_is_vssdata cmd = true ->
  let s := send_whole_file_w z h o cmd c compression (File (map Some cs ++ None :: ins)) in
  fst s <> SEND_FATAL ->
  receive_all tree a r (client_answer (CMD_ATTRIBS, at_) (cmd, p) s) = Some (r', a') ->
  r_done r' = r_done r /\ no_file_open r'.
Proof. exact read_error_not_kept. Qed.
Print Assumptions C72_read_error_partial.

Definition ex_a : aux := mkaux None (mkdpth 0 0 16 30000) [].
Theorem C72_read_error_refuted : exists z h o cmd d tree a r at_ p r' a' v,
  zlib_ok z /\ no_file_open r /\ r_done r = [] /\ cmd = CMD_FILE /\
  receive_all tree a r (client_answer (CMD_ATTRIBS, at_) (cmd, p)
    (send_whole_file_w z h o cmd None 0 (File [Some d; None]))) = Some (r', a') /\
  r_done r' = [v] /\ v_data v = d /\ ibuf (s_path (e_sb (v_ent v))) = Some p /\
  ibuf (s_endfile (e_sb (v_ent v))) = Some (endfile (Z.of_nat (List.length d)) (h d)).
Proof.
  exists rle, sum_of, calm, CMD_FILE, ex_d, (fun _ => false), ex_a, rst0, (str "A A A A"), (str "/f").
  eexists _, _, _. split; [exact rle_ok|]. split; [reflexivity|]. split; [reflexivity|]. split; [reflexivity|].
  split; [vm_compute; reflexivity|]. split; [vm_compute; reflexivity|].
  split; [reflexivity|]. split; [reflexivity|]. reflexivity.
Qed.
Print Assumptions C72_read_error_refuted.
Example C72_witness : exists r' a',
  receive_all (fun _ => false) ex_a rst0 (client_answer (CMD_ATTRIBS, str "A A A A") (CMD_FILE, str "/f")
    (send_whole_file_w (mkz (fun x => x) (fun x => x) (fun x => (x, false))) sum_of calm CMD_FILE None 5 (File (map Some [ex_d] ++ None :: [])))) = Some (r', a') /\
  no_file_open rst0 /\ has_buf (s_datapth (e_sb (r_rb rst0))) = false.
Proof.
  eexists _, _. split; [vm_compute; reflexivity|]. split; reflexivity.
Qed.

(* ---- C73 ---- *)

(* Missing: the kind of key used for every new backup, 2; see C73_keys_refuted. *)
Theorem C73_keys_partial : forall p kd,
  (kd = 2 -> enc_setup (Some p) kd = EUB) /\
  (kd = 1 -> enc_setup (Some p) kd = EOk) /\
  (kd = 0 -> enc_setup (Some p) kd = EUB <-> 256 <= Z.of_nat (List.length p)) /\
  (kd <> 0 -> kd <> 1 -> kd <> 2 -> enc_setup (Some p) kd = ENull) /\
  enc_setup None kd = ENone.
Proof. exact enc_setup_spec. Qed.
Print Assumptions C73_keys_partial.
Theorem C73_keys_refuted : forall p, enc_setup (Some p) 2 = EUB.
Proof. intros p. exact (proj1 (enc_setup_spec p 2) eq_refl). Qed.
Print Assumptions C73_keys_refuted.
Example C73_witness : enc_setup (Some (str "secret")) 0 = EOk /\ enc_setup (Some (repeat 65 256)) 0 = EUB /\
  enc_setup (Some (repeat 65 255)) 0 = EOk.
Proof. repeat split. Qed.

(* ---- C74 ---- *)

Theorem C74_verify : forall z h o cmd c compression x d l data best,
  zlib_ok z -> (forall k, c = Some k -> cipher_ok k) -> kind_matches cmd c -> 0 <= compression ->
  (forall y, ~ In 58 (h y)) -> holds x d ->
  send_whole_file_w z h o cmd c compression x = (SEND_OK, l) ->
  exists bs e, l = map app_msg bs ++ [(CMD_END_FILE, e)] /\
    read_as z cmd compression (concat bs) = summed z c (negb (compression =? 0)) d /\
    (verify_file z h cmd false compression best data (Some e) = true
     <-> h (read_as z cmd compression data) = h (read_as z cmd compression (concat bs))).
Proof. exact verify_after_backup. Qed.
Print Assumptions C74_verify.
Example C74_witness :
  verify_file rle sum_of CMD_ENC_FILE false 9 (str "t") [251; 248; 253; 246; 254; 251; 255; 255; 0] (Some (str "7:L")) = true /\
  verify_file rle sum_of CMD_ENC_FILE false 9 (str "t") [251; 248; 253; 246; 254; 251; 255; 254; 0] (Some (str "7:L")) = false /\
  verify_file rle sum_of CMD_FILE false 9 (str "t") [4; 7; 2; 9; 1; 4; 0; 0] (Some (str "7:Y")) = true /\
  verify_file rle sum_of CMD_FILE false 9 (str "t") [4; 7; 1; 9; 1; 4; 0; 0] (Some (str "7:Y")) = false.
Proof. vm_compute. repeat split. Qed.
Lemma sum_of_no_colon : forall y, ~ In 58 (sum_of y).
Proof.
  intros y [H|[]]. unfold sum_of in H. pose proof (Z.mod_pos_bound (fold_left Z.add y 0) 26). lia.
Qed.

(* ---- C75 ---- *)

(* Missing: that a failure is reported, refuted below. *)
Theorem C75_a_file_partial : forall z o cs l l2 w, zlib_ok z -> full w -> Forall (fun b : bytes => b <> []) cs ->
  send_a_file z o (map Some cs) = (SEND_OK, l) -> quiet l2 = l ->
  receive_a_file z w l2 = (0, concat cs).
Proof. exact a_file_there. Qed.
Print Assumptions C75_a_file_partial.

(* The connection is lost, or writing fails, and the file counts as received. *)
Theorem C75_a_file_refuted : exists z o cs l l1 l2 w, zlib_ok z /\ full w /\
  send_a_file z o (map Some cs) = (SEND_OK, l) /\ l = l1 ++ l2 /\ l2 <> [] /\
  fst (receive_a_file z w l1) = 0 /\ snd (receive_a_file z w l1) <> concat cs /\
  fst (receive_a_file z (fun _ _ => -1) l) = 0 /\ snd (receive_a_file z (fun _ _ => -1) l) <> concat cs.
Proof.
  exists rle, calm, [ex_d]. eexists _, [], _, whole.
  split; [exact rle_ok|]. split; [intros o b; reflexivity|]. split; [vm_compute; reflexivity|].
  split; [reflexivity|]. split; [discriminate|]. split; [reflexivity|]. split; [discriminate|].
  split; [vm_compute; reflexivity|]. vm_compute. discriminate.
Qed.
Print Assumptions C75_a_file_refuted.
Example C75_witness : send_a_file rle calm (map Some [[7; 7]; [7; 7; 9; 9; 4]]) =
    (SEND_OK, [(CMD_APPEND, [4; 7; 2; 9; 1; 4; 0; 0]); (CMD_END_FILE, str "7:")]) /\
  receive_a_file rle whole [(CMD_APPEND, [4; 7; 2]); (CMD_WARNING, []); (CMD_APPEND, [9; 1; 4; 0; 0]); (CMD_END_FILE, str "7:")] = (0, ex_d).
Proof. vm_compute. split; reflexivity. Qed.

(* ---- C97 ---- *)

Theorem C97_interrupted : forall z h o cmd patches compression datapth ins,
  heeded o (snd (do_send_file z h o cmd patches compression datapth ins)).
Proof. exact interruption_heeded. Qed.
Print Assumptions C97_interrupted.
Example C97_interrupted_witness : let o := mkout (fun _ => true) (fun l => if (List.length l =? 2)%nat then QStop else QNone) in
  do_send_file rle sum_of o CMD_ENC_FILE false 9 (str "t") [Some [1]; Some [2]; Some [3]; Some [4]] =
    (SEND_OK, [(CMD_APPEND, [1]); (CMD_APPEND, [2]); (CMD_END_FILE, str "2:D")]).
Proof. vm_compute. reflexivity. Qed.
