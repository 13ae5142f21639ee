(* What the server keeps of the scan of the client (C131). *)
From Verif Require Import Bytes CmdModel PathcmpModel PathcmpProofs FrameModel FrameProofs SbufModel SbufProofs AttribsModel AttribsProofs Ph1Model.

(* ---------- spec ---------- *)

(* Warnings may come between any two messages. *)
Definition chat (m : Z * bytes) : bool := (fst m =? CMD_WARNING) || (fst m =? CMD_MESSAGE).
Definition warnings (ms : list (Z * bytes)) : Z := Z.of_nat (List.length (filter (fun m => fst m =? CMD_WARNING) ms)).
Definition said (ms : list (Z * bytes)) : list (Z * bytes) := filter (fun m => negb (chat m)) ms.

(* The size that an entry was sent with, for the kinds of file that have one. *)
Definition counts (e : entry) (n : Z) : Prop :=
  let '(c, attr) := match e with EData c _ a _ _ => (c, a) | ELink c _ a _ _ => (c, a) | EPlain c a _ => (c, a) end in
  exists a, attrs_ok a /\ attribs_encode a = Some attr /\
    n = if (c =? CMD_FILE) || (c =? CMD_ENC_FILE) || (c =? CMD_EFS_FILE) then st_size a mod 2 ^ 64 else 0.

Definition sum (l : list Z) : Z := fold_right Z.add 0 l.
Definition tail_msg : Z * bytes := (99, str "phase1end").
Definition ok_msg : Z * bytes := (99, str "ok").

(* The words that end a stream. *)
Definition ends (m : Z * bytes) : Prop := fst m = 99 /\
  In (cview (snd m)) [str "backupphase2"; str "phase1end"; str "restoreend"; str "backupend"; str "estimateend"].

(* ---------- proofs ---------- *)

Lemma cview_id : forall s, cstr s -> cview s = s.
Proof.
  induction s as [|c s IH]; intros H; [reflexivity|]. inversion H as [|? ? Hc Hs]; subst.
  cbn [cview]. unfold is_char in Hc. destruct (Z.eqb_spec c 0); [lia|]. rewrite IH by exact Hs. reflexivity.
Qed.

Lemma counts_est : forall e n, counts e n -> entry_est (entry_sbuf e) = Some n.
Proof.
  intros e n H. unfold counts in H.
  assert (G : forall c attr p, s_attr p = buf 114 attr -> icmd (s_path p) = c ->
    (exists a, attrs_ok a /\ attribs_encode a = Some attr /\
    n = if (c =? CMD_FILE) || (c =? CMD_ENC_FILE) || (c =? CMD_EFS_FILE) then st_size a mod 2 ^ 64 else 0) ->
    entry_est p = Some n).
  { intros c attr p E1 E2 (a & A & B & C). unfold entry_est, entry_size. rewrite E1. cbn [buf ibuf].
    destruct (attribs_roundtrip a attrs0 A) as (s & S1 & S2 & _ & S4). rewrite B in S1. inversion S1; subst s.
    rewrite (cview_id _ S2), S4, E2, C. reflexivity. }
  destruct e; eapply G; try exact H; reflexivity.
Qed.

Lemma top_false : forall cf ms sb w est file, check_fail_on_warning (p_fow cf) w = false ->
  p1_loop cf ms true sb w est file = p1_loop cf ms false (sbuf_free_content sb) w est file.
Proof. intros cf ms sb w est file H. destruct ms; cbn [p1_loop andb]; rewrite H; reflexivity. Qed.

Lemma chat_parse : forall m sb, chat m = true -> parse_cmd sb m = (sb, PNeedMore).
Proof.
  intros [c b] sb H. unfold chat in H. cbn [fst] in H. apply Bool.orb_true_iff in H.
  destruct H as [H|H]; apply Z.eqb_eq in H; subst c; reflexivity.
Qed.

Lemma warnings_cons : forall m ms, warnings (m :: ms) = (if fst m =? CMD_WARNING then 1 else 0) + warnings ms.
Proof. intros m ms. unfold warnings. cbn [filter]. destruct (fst m =? CMD_WARNING); [cbn [List.length]; lia|lia]. Qed.
Lemma warnings_app : forall a b, warnings (a ++ b) = warnings a + warnings b.
Proof. induction a as [|m a IH]; intros b; [reflexivity|]. cbn [app]. rewrite !warnings_cons, IH. lia. Qed.
Lemma warnings_pos : forall a, 0 <= warnings a.
Proof. intros. unfold warnings. lia. Qed.

Definition wadd (w : Z) (ms : list (Z * bytes)) : Z := fold_left (fun w m => if fst m =? CMD_WARNING then (w + 1) mod 2 ^ 64 else w) ms w.
Lemma wadd_small : forall ms w, 0 <= w -> w + warnings ms < 2 ^ 64 -> wadd w ms = w + warnings ms.
Proof.
  induction ms as [|m ms IH]; intros w H L; [cbn; unfold warnings; cbn; lia|].
  rewrite warnings_cons in *. cbn [wadd fold_left]. change (wadd (if fst m =? CMD_WARNING then (w + 1) mod 2 ^ 64 else w) ms = w + ((if fst m =? CMD_WARNING then 1 else 0) + warnings ms)).
  pose proof (warnings_pos ms). destruct (fst m =? CMD_WARNING).
  - rewrite Z.mod_small by lia. rewrite IH by lia. lia.
  - rewrite IH by lia. lia.
Qed.

Lemma skip_chat : forall k cf r sb w est file, forallb chat k = true ->
  p1_loop cf (k ++ r) false sb w est file = p1_loop cf r false sb (wadd w k) est file.
Proof.
  induction k as [|m k IH]; intros cf r sb w est file H; [reflexivity|].
  cbn [forallb] in H. apply andb_prop in H. destruct H as [H1 H2].
  cbn [app p1_loop andb]. rewrite chat_parse by exact H1. cbv iota beta. rewrite IH by exact H2. reflexivity.
Qed.

Lemma split_said : forall ms m l, said ms = m :: l -> exists k r, ms = k ++ m :: r /\ forallb chat k = true /\ said r = l /\ chat m = false.
Proof.
  induction ms as [|x ms IH]; intros m l H; [discriminate|]. unfold said in H. cbn [filter] in H.
  destruct (chat x) eqn:E; cbn [negb] in H.
  - destruct (IH m l H) as (k & r & A & B & C). exists (x :: k), r. subst ms. cbn [app forallb]. rewrite E. auto.
  - inversion H; subst. exists [], ms. cbn [app forallb]. auto.
Qed.
Lemma split_end : forall ms, said ms = [] -> forallb chat ms = true.
Proof.
  induction ms as [|x ms IH]; intros H; [reflexivity|]. unfold said in H. cbn [filter] in H.
  destruct (chat x) eqn:E; cbn [negb] in H; [|discriminate]. cbn [forallb]. rewrite E. apply IH. exact H.
Qed.

Definition calm (cf : p1conf) (w : Z) (ms : list (Z * bytes)) : Prop :=
  0 <= w /\ w + warnings ms < 2 ^ 64 /\ (p_fow cf = true -> w + warnings ms = 0).

Lemma calm_check : forall cf w ms, calm cf w ms -> check_fail_on_warning (p_fow cf) w = false.
Proof.
  intros cf w ms (A & B & C). unfold check_fail_on_warning. destruct (p_fow cf); [|reflexivity].
  pose proof (warnings_pos ms). specialize (C eq_refl). replace w with 0 by lia. reflexivity.
Qed.

(* One message that is not a warning, with warnings before it. *)
Lemma one : forall cf ms m l sb w est file rest, calm cf w ms -> said ms = m :: l ->
  exists w' r, calm cf w' r /\ said r = l /\ w' + warnings r = w + warnings ms /\
    p1_loop cf (ms ++ rest) false sb w est file =
    match parse_cmd sb m with
    | (sb, PError) => Some (mkp1out false [] file w' est)
    | (sb, PFinished) => Some (p1_end cf w' est file)
    | (sb, PNeedMore) => p1_loop cf (r ++ rest) false sb w' est file
    | (sb, PComplete) =>
      match entry_est sb with
      | None => None
      | Some n =>
        match sbuf_to_manifest sb with
        | (b, false) => Some (mkp1out false [] (file ++ b) w' est)
        | (b, true) => p1_loop cf (r ++ rest) true sb w' ((est + n) mod 2 ^ 64) (file ++ b)
        end
      end
    end.
Proof.
  intros cf ms m l sb w est file rest (A & B & C) H. destruct (split_said ms m l H) as (k & r & -> & K & R & Hm).
  rewrite warnings_app, warnings_cons in *. pose proof (warnings_pos k). pose proof (warnings_pos r).
  assert (W : (fst m =? CMD_WARNING) = false). { unfold chat in Hm. destruct (fst m =? CMD_WARNING); [discriminate|reflexivity]. }
  rewrite W in *.
  exists (wadd w k), r. assert (Q : wadd w k = w + warnings k) by (apply wadd_small; lia).
  split; [rewrite Q; split; [lia|split; [lia|intros X; specialize (C X); lia]]|].
  split; [exact R|]. split; [lia|].
  rewrite <- app_assoc. cbn [app]. rewrite skip_chat by exact K.
  cbn [p1_loop andb]. rewrite W. reflexivity.
Qed.

Lemma one_entry : forall cf e n ms l sb w est file rest, wf_entry e -> entry_est (entry_sbuf e) = Some n ->
  s_datapth sb = mkiobuf 116 None -> s_hack sb = false ->
  calm cf w ms -> said ms = entry_msgs e ++ l ->
  exists w' r, calm cf w' r /\ said r = l /\ w' + warnings r = w + warnings ms /\
    p1_loop cf (ms ++ rest) false sb w est file =
    p1_loop cf (r ++ rest) false (sbuf_free_content (entry_sbuf e)) w' ((est + n) mod 2 ^ 64) (file ++ file_of (entry_msgs e)).
Proof.
  intros cf e n ms l sb w est file rest W N Sd Sh C H.
  assert (Fin : forall w' r l0, calm cf w' r -> said r = l0 ->
    match sbuf_to_manifest (entry_sbuf e) with
    | (b, false) => Some (mkp1out false [] (file ++ b) w' est)
    | (b, true) => p1_loop cf (r ++ rest) true (entry_sbuf e) w' ((est + n) mod 2 ^ 64) (file ++ b)
    end = p1_loop cf (r ++ rest) false (sbuf_free_content (entry_sbuf e)) w' ((est + n) mod 2 ^ 64) (file ++ file_of (entry_msgs e))).
  { intros w' r l0 C' _. unfold sbuf_to_manifest. rewrite sbuf_msgs_entry, write_all_ok by (apply entry_msgs_ok; exact W).
    rewrite top_false by (apply (calm_check _ _ _ C')). reflexivity. }
  destruct e as [c dp a p f|c c2 a p t|c a p]; cbn [entry_msgs app] in H; cbn [wf_entry] in W.
  - destruct W as (W1 & W2 & W3 & W4 & W5).
    destruct (one cf ms _ _ sb w est file rest C H) as (w1 & r1 & C1 & H1 & E1 & P1).
    assert (X : parse_cmd sb (116, dp) = (mksbuf nobuf nobuf nobuf nobuf (buf 116 dp) false false, PNeedMore)).
    { unfold parse_cmd. cbn [fst]. rewrite (okpath_safe 116 dp W2), Sh. reflexivity. }
    rewrite X in P1. cbv iota beta in P1.
    destruct (one cf r1 _ _ (mksbuf nobuf nobuf nobuf nobuf (buf 116 dp) false false) w1 est file rest C1 H1) as (w2 & r2 & C2 & H2 & E2 & P2).
    change (parse_cmd (mksbuf nobuf nobuf nobuf nobuf (buf 116 dp) false false) (114, a))
      with (mksbuf nobuf (buf 114 a) nobuf nobuf (buf 116 dp) false false, PNeedMore) in P2. cbv iota beta in P2.
    destruct (one cf r2 _ _ (mksbuf nobuf (buf 114 a) nobuf nobuf (buf 116 dp) false false) w2 est file rest C2 H2) as (w3 & r3 & C3 & H3 & E3 & P3).
    rewrite parse_path_data in P3 by auto. cbv iota beta in P3.
    destruct (one cf r3 _ _ (mksbuf (buf c p) (buf 114 a) nobuf nobuf (buf 116 dp) false false) w3 est file rest C3 H3) as (w4 & r4 & C4 & H4 & E4 & P4).
    rewrite parse_fin in P4 by auto. cbv iota beta in P4.
    exists w4, r4. split; [exact C4|]. split; [exact H4|]. split; [lia|].
    rewrite P1, P2, P3, P4. change (mksbuf (buf c p) (buf 114 a) nobuf (buf 120 f) (buf 116 dp) false false) with (entry_sbuf (EData c dp a p f)).
    rewrite N. apply (Fin w4 r4 l C4 H4).
  - destruct W as (W1 & W2 & W3 & W4 & W5).
    destruct (one cf ms _ _ sb w est file rest C H) as (w1 & r1 & C1 & H1 & E1 & P1).
    rewrite parse_attr in P1 by exact Sd. cbv iota beta in P1.
    destruct (one cf r1 _ _ (mksbuf nobuf (buf 114 a) nobuf nobuf (mkiobuf 116 None) false false) w1 est file rest C1 H1) as (w2 & r2 & C2 & H2 & E2 & P2).
    rewrite parse_path_link in P2 by auto. cbv iota beta in P2.
    destruct (one cf r2 _ _ (mksbuf (buf c p) (buf 114 a) nobuf nobuf (mkiobuf 116 None) true false) w2 est file rest C2 H2) as (w3 & r3 & C3 & H3 & E3 & P3).
    rewrite parse_target in P3 by auto. cbv iota beta in P3.
    exists w3, r3. split; [exact C3|]. split; [exact H3|]. split; [lia|].
    rewrite P1, P2, P3. change (mksbuf (buf c p) (buf 114 a) (buf c2 t) nobuf (mkiobuf 116 None) false false) with (entry_sbuf (ELink c c2 a p t)).
    rewrite N. apply (Fin w3 r3 l C3 H3).
  - destruct W as (W1 & W2 & W3).
    destruct (one cf ms _ _ sb w est file rest C H) as (w1 & r1 & C1 & H1 & E1 & P1).
    rewrite parse_attr in P1 by exact Sd. cbv iota beta in P1.
    destruct (one cf r1 _ _ (mksbuf nobuf (buf 114 a) nobuf nobuf (mkiobuf 116 None) false false) w1 est file rest C1 H1) as (w2 & r2 & C2 & H2 & E2 & P2).
    rewrite parse_path_plain in P2 by auto. cbv iota beta in P2.
    exists w2, r2. split; [exact C2|]. split; [exact H2|]. split; [lia|].
    rewrite P1, P2. change (mksbuf (buf c p) (buf 114 a) nobuf nobuf (mkiobuf 116 None) false false) with (entry_sbuf (EPlain c a p)).
    rewrite N. apply (Fin w2 r2 l C2 H2).
Qed.

Lemma all_entries : forall es ns cf ms sb w est file rest, Forall wf_entry es -> Forall2 (fun e n => entry_est (entry_sbuf e) = Some n) es ns ->
  s_datapth sb = mkiobuf 116 None -> s_hack sb = false -> 0 <= est < 2 ^ 64 ->
  calm cf w ms -> said ms = stream es ->
  exists w' sb', w' = w + warnings ms /\
    p1_loop cf (ms ++ rest) false sb w est file =
    p1_loop cf rest false sb' w' ((est + sum ns) mod 2 ^ 64) (file ++ file_of (stream es)).
Proof.
  induction es as [|e es IH]; intros ns cf ms sb w est file rest W N Sd Sh B C H.
  - inversion N; subst. exists (wadd w ms), sb. destruct C as (C1 & C2 & C3). rewrite wadd_small by lia. split; [reflexivity|].
    rewrite skip_chat by (apply split_end; exact H). rewrite wadd_small by lia. cbn [sum fold_right]. rewrite Z.add_0_r, Z.mod_small by lia.
    cbn. rewrite app_nil_r. reflexivity.
  - inversion N as [|? n ? ns' N1 N2]; subst. inversion W as [|? ? W1 W2]; subst.
    change (stream (e :: es)) with (entry_msgs e ++ stream es) in *.
    destruct (one_entry cf e n ms (stream es) sb w est file rest W1 N1 Sd Sh C H) as (w1 & r & C1 & H1 & E1 & P1).
    destruct (IH ns' cf r (sbuf_free_content (entry_sbuf e)) w1 ((est + n) mod 2 ^ 64) (file ++ file_of (entry_msgs e)) rest W2 N2 eq_refl eq_refl) as (w2 & sb2 & E2 & P2); auto.
    { apply Z.mod_pos_bound. lia. }
    exists w2, sb2. split; [lia|]. rewrite P1, P2. rewrite file_of_app, app_assoc.
    cbn [sum fold_right]. fold (sum ns'). rewrite Zplus_mod_idemp_l. f_equal. f_equal. lia.
Qed.

Lemma ends_str : forall m, ends m <-> fst m = 99 /\ is_end_str (snd m) = true.
Proof.
  intros m. unfold ends, is_end_str. rewrite !Bool.orb_true_iff, !beqb_eq. cbn [In].
  split; intros [A B]; (split; [exact A|]); intuition.
Qed.

Lemma gen_parse : forall m sb, fst m = 99 -> parse_cmd sb m = (sb, if is_end_str (snd m) then PFinished else PError).
Proof. intros [c b] sb H. cbn [fst] in H. subst c. reflexivity. Qed.
Lemma finished_ends : forall m sb sb', parse_cmd sb m = (sb', PFinished) -> ends m.
Proof.
  intros m sb sb' P. apply ends_str. destruct (Z.eqb_spec (fst m) CMD_GEN) as [G|G].
  - split; [exact G|]. rewrite (gen_parse m sb G) in P. destruct (is_end_str (snd m)); [reflexivity|discriminate].
  - exfalso. unfold parse_cmd in P. destruct (Z.eqb_spec (fst m) CMD_GEN); [contradiction|].
    repeat match type of P with context [if ?b then _ else _] => destruct b end; inversion P.
Qed.
Lemma ends_parse : forall m sb, ends m -> parse_cmd sb m = (sb, PFinished).
Proof.
  intros m sb H. apply ends_str in H. destruct H as [A B]. rewrite (gen_parse m sb A), B. reflexivity.
Qed.

Lemma tail_write : fst (write_all [(CMD_GEN, str "phase1end")]) = frame tail_msg.
Proof. reflexivity. Qed.

(* What is done at the end. *)
Definition verdict (cf : p1conf) (w est : Z) (file : bytes) : p1out :=
  mkp1out (negb (p_fow cf && (0 <? w)) && ((p_hard cf =? 0) || (est <=? p_hard cf)))
    (ok_msg :: if p_fow cf && (0 <? w) then []
               else if negb (p_hard cf =? 0) && (p_hard cf <? est) then [(119, str "Hard quota exceeded")]
               else if negb (p_soft cf =? 0) && (p_soft cf <? est) then [(119, str "Soft quota exceeded")] else [])
    (file ++ frame tail_msg) w est.

Lemma p1_end_verdict : forall cf w est file, 0 <= w -> p1_end cf w est file = verdict cf w est file.
Proof.
  intros cf w est file Hw. unfold p1_end, verdict, check_fail_on_warning, check_quota. rewrite tail_write.
  replace (negb (w =? 0)) with (0 <? w) by (destruct (Z.eqb_spec w 0), (Z.ltb_spec 0 w); cbn; lia).
  destruct (p_fow cf && (0 <? w)); [reflexivity|].
  destruct (p_hard cf =? 0); cbn [negb andb orb].
  - destruct (negb (p_soft cf =? 0) && (p_soft cf <? est)); reflexivity.
  - destruct (Z.ltb_spec (p_hard cf) est), (Z.leb_spec est (p_hard cf)); try lia; [reflexivity|].
    destruct (negb (p_soft cf =? 0) && (p_soft cf <? est)); reflexivity.
Qed.

(* A client that sends entries and whatever warnings, and then ends. *)
Theorem scan_kept : forall cf w es ns ms m rest, Forall wf_entry es -> Forall2 counts es ns ->
  said ms = stream es -> ends m -> 0 <= w -> w + warnings ms < 2 ^ 64 -> (p_fow cf = true -> w + warnings ms = 0) ->
  phase1 cf w (ms ++ m :: rest) =
  Some (verdict cf (w + warnings ms) (sum ns mod 2 ^ 64) (file_of (stream es))).
Proof.
  intros cf w es ns ms m rest W N S E H1 H2 H3.
  assert (C : calm cf w ms) by (split; auto).
  unfold phase1. rewrite top_false by (apply (calm_check _ _ _ C)).
  destruct (all_entries es ns cf ms (sbuf_free_content sbuf_alloc) w 0 [] (m :: rest) W) as (w' & sb' & -> & P); auto; try lia.
  { clear -N. induction N; constructor; auto. apply counts_est; auto. }
  rewrite P. cbn [p1_loop andb app]. rewrite (ends_parse m sb' E). destruct E as [E _].
  replace (fst m =? CMD_WARNING) with false by (rewrite E; reflexivity).
  rewrite p1_end_verdict; [reflexivity|]. pose proof (warnings_pos ms). lia.
Qed.

(* Reading the file back gives the entries. *)
Lemma delivers_entries : forall S (next : S -> src S) es s m l st n, Forall wf_entry es -> ends m -> (List.length es < n)%nat ->
  delivers next s (stream es ++ m :: l) st -> read_entries next n 4 s = (map entry_sbuf es, Clean).
Proof.
  induction es as [|e es IH]; intros s m l st n W E Hn D; (destruct n as [|n]; [lia|]).
  - cbn [stream flat_map app] in D. apply dl_inv in D. destruct D as (s' & N & D).
    cbn [read_entries sbuf_fill]. rewrite N, ends_parse by exact E. reflexivity.
  - inversion W; subst. change (stream (e :: es) ++ m :: l) with ((entry_msgs e ++ stream es) ++ m :: l) in D. rewrite <- app_assoc in D.
    destruct (fill_entry _ _ e s _ st 4%nat H1 (le_n _) D) as (s' & F & D').
    cbn [read_entries]. rewrite F, (IH s' m l st n) by (auto; cbn [List.length] in Hn; lia). reflexivity.
Qed.

Theorem scan_read_back : forall es o, Forall wf_entry es -> noerr o ->
  read_entries file_next (S (List.length es)) 4 (mkf (file_of (stream es) ++ frame tail_msg) o) = (map entry_sbuf es, Clean).
Proof.
  intros es o W No.
  assert (Ok : Forall okmsg (stream es ++ [tail_msg])).
  { apply Forall_app. split; [apply stream_ok; exact W|]. constructor; [|constructor]. split; cbn; [|lia]. split; vm_compute; congruence. }
  destruct (framing_roundtrip (stream es ++ [tail_msg]) o (S (List.length (stream es ++ [tail_msg]))) Ok ltac:(lia)) as (w & E & R & _).
  rewrite write_all_ok in E by exact Ok. inversion E; subst w. specialize (R No). fold (file_of (stream es ++ [tail_msg])) in R.
  rewrite file_of_app in R. replace (file_of [tail_msg]) with (frame tail_msg) in R by (unfold file_of; cbn; rewrite ?app_nil_r; reflexivity).
  apply read_all_delivers in R; [|discriminate].
  eapply delivers_entries; eauto. split; [reflexivity|]. cbn [In]. right. left. reflexivity.
Qed.

(* Whatever the client sends. *)
Lemma p1_sound : forall ms cf top sb w est file o, p1_loop cf ms top sb w est file = Some o ->
  Forall rawmsg ms -> safe sb -> 0 <= w -> w + warnings ms < 2 ^ 64 -> o_done o = true ->
  exists pre m post es n, ms = pre ++ m :: post /\ ends m /\ Forall (fun x => ~ ends x) pre /\
    Forall safe es /\ snd (write_entries es) = true /\ Forall (fun e => exists k, entry_est e = Some k) es /\
    n = fold_left (fun x e => match entry_est e with Some k => (x + k) mod 2 ^ 64 | None => x end) es est /\
    o = verdict cf (w + warnings pre) n (file ++ fst (write_entries es)).
Proof.
  induction ms as [|m ms IH]; intros cf top sb w est file o H R Sf W0 WB D.
  { cbn [p1_loop] in H. destruct (top && _); inversion H; subst; discriminate. }
  cbn [p1_loop] in H. destruct (top && _); [inversion H; subst; discriminate|].
  inversion R as [|? ? R1 R2]; subst. rewrite warnings_cons in WB. pose proof (warnings_pos ms).
  set (sb0 := if top then sbuf_free_content sb else sb) in *.
  assert (S0 : safe sb0) by (unfold sb0; destruct top; [apply safe_free|exact Sf]).
  assert (Wn : (if fst m =? CMD_WARNING then (w + 1) mod 2 ^ 64 else w) = w + (if fst m =? CMD_WARNING then 1 else 0)).
  { destruct (fst m =? CMD_WARNING); [rewrite Z.mod_small; lia|lia]. }
  rewrite Wn in H. clear Wn.
  destruct (parse_cmd sb0 m) as [sb' r] eqn:P. pose proof (parse_safe _ _ _ _ R1 S0 P) as S1.
  destruct r.
  - inversion H; subst; discriminate.
  - assert (Ne : ~ ends m). { intros X. rewrite (ends_parse m sb0 X) in P. discriminate. }
    destruct (IH _ _ _ _ _ _ _ H R2 S1) as (pre & m' & post & es & n & A1 & A2 & A3 & A4 & A5 & A6 & A7 & A8); auto.
    { destruct (fst m =? CMD_WARNING); lia. } { destruct (fst m =? CMD_WARNING); lia. }
    exists (m :: pre), m', post, es, n. subst ms. split; [reflexivity|]. do 6 (split; [auto|]).
    rewrite A8, warnings_cons. f_equal. lia.
  - assert (Ne : ~ ends m). { intros X. rewrite (ends_parse m sb0 X) in P. discriminate. }
    destruct (entry_est sb') as [k|] eqn:K; [|discriminate].
    destruct (sbuf_to_manifest sb') as [b ok] eqn:B. destruct ok; [|inversion H; subst; discriminate].
    destruct (IH _ _ _ _ _ _ _ H R2 S1) as (pre & m' & post & es & n & A1 & A2 & A3 & A4 & A5 & A6 & A7 & A8); auto.
    { destruct (fst m =? CMD_WARNING); lia. } { destruct (fst m =? CMD_WARNING); lia. }
    exists (m :: pre), m', post, (sb' :: es), n. subst ms. split; [reflexivity|]. split; [auto|]. split; [auto|]. split; [auto|].
    cbn [write_entries fold_left]. rewrite B, K. destruct (write_entries es) as [w2 ok2]. cbn [fst snd] in *.
    split; [exact A5|]. split; [constructor; eauto|]. split; [exact A7|].
    rewrite A8, warnings_cons, app_assoc. f_equal. lia.
  - pose proof (finished_ends _ _ _ P) as E.
    inversion H; subst o. exists [], m, ms, [], est. repeat split; auto; try apply E.
    destruct E as [E _]. replace (fst m =? CMD_WARNING) with false by (rewrite E; reflexivity).
    change (warnings []) with 0. rewrite !Z.add_0_r, p1_end_verdict by lia. cbn [write_entries fst]. rewrite app_nil_r. reflexivity.
Qed.

Theorem scan_done : forall cf w ms o, Forall rawmsg ms -> 0 <= w -> w + warnings ms < 2 ^ 64 ->
  phase1 cf w ms = Some o -> o_done o = true ->
  exists pre m post es, ms = pre ++ m :: post /\ ends m /\ Forall (fun x => ~ ends x) pre /\
    Forall safe es /\ o_file o = fst (write_entries es) ++ frame tail_msg /\
    o_warn o = w + warnings pre /\ (p_fow cf = true -> w + warnings pre = 0) /\
    (p_hard cf <> 0 -> o_est o <= p_hard cf).
Proof.
  intros cf w ms o R H1 H2 H D.
  destruct (p1_sound ms cf true sbuf_alloc w 0 [] o H R safe_alloc H1 H2 D) as (pre & m & post & es & n & A1 & A2 & A3 & A4 & A5 & A6 & A7 & A8).
  exists pre, m, post, es. do 4 (split; [auto|]). subst o. cbn [verdict o_file o_warn o_est o_done app] in *.
  split; [reflexivity|]. split; [reflexivity|]. apply andb_prop in D. destruct D as [D1 D2].
  pose proof (warnings_pos pre). split.
  - intros F. rewrite F in D1. cbn [andb] in D1. destruct (Z.ltb_spec 0 (w + warnings pre)); [discriminate|lia].
  - intros F. destruct (Z.eqb_spec (p_hard cf) 0); [contradiction|]. cbn [orb] in D2. lia.
Qed.

(* No end, no scan. *)
Theorem scan_cut : forall cf w ms o, Forall rawmsg ms -> 0 <= w -> w + warnings ms < 2 ^ 64 ->
  Forall (fun x => ~ ends x) ms -> phase1 cf w ms = Some o -> o_done o = false /\ o_sent o = [].
Proof.
  intros cf w ms o R H1 H2 N H. split.
  - destruct (o_done o) eqn:D; [|reflexivity].
    destruct (scan_done cf w ms o R H1 H2 H D) as (pre & m & post & es & -> & E & _).
    apply Forall_app in N. destruct N as [_ N]. inversion N; contradiction.
  - clear R H1 H2. unfold phase1 in H. revert H. generalize true sbuf_alloc 0 (@nil Z). revert w o N.
    induction ms as [|m ms IH]; intros w o N top sb est file H; cbn [p1_loop] in H.
    { destruct (top && _); inversion H; reflexivity. }
    destruct (top && _); [inversion H; reflexivity|]. inversion N as [|? ? N1 N2]; subst.
    destruct (parse_cmd (if top then sbuf_free_content sb else sb) m) as [sb' r] eqn:P. destruct r.
    + inversion H; reflexivity.
    + eapply IH; eauto.
    + destruct (entry_est sb'); [|discriminate]. destruct (sbuf_to_manifest sb') as [b ok]. destruct ok; [eapply IH; eauto|inversion H; reflexivity].
    + exfalso. apply N1. exact (finished_ends _ _ _ P).
Qed.

(* With fail_on_warning, one warning is enough. *)
Theorem scan_warned : forall cf w pre m post o, Forall rawmsg (pre ++ m :: post) -> 0 <= w -> w + warnings (pre ++ m :: post) < 2 ^ 64 ->
  Forall (fun x => ~ ends x) pre -> p_fow cf = true -> w + warnings pre <> 0 ->
  phase1 cf w (pre ++ m :: post) = Some o -> o_done o = false.
Proof.
  intros cf w pre m post o R H1 H2 N F W H. destruct (o_done o) eqn:D; [|reflexivity]. exfalso.
  destruct (scan_done cf w _ o R H1 H2 H D) as (pre' & m' & post' & es & E & Em & Np & _ & _ & _ & C & _). specialize (C F).
  assert (X : exists y, pre' = pre ++ y).
  { clear -E Em N. revert pre' E. induction pre as [|a pre IH]; intros pre' E; [exists pre'; reflexivity|].
    destruct pre' as [|b pre']; cbn [app] in E; inversion E; subst.
    - inversion N; contradiction.
    - destruct (IH ltac:(inversion N; auto) pre' H1) as (y & ->). exists y. reflexivity. }
  destruct X as (y & ->). rewrite warnings_app in C. pose proof (warnings_pos y). pose proof (warnings_pos pre). lia.
Qed.
