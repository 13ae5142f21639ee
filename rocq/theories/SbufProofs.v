(* Specification and proofs about manifest entries (C12, C13). *)
From Verif Require Import Bytes PathcmpModel PathcmpProofs CmdModel CmdProofs FrameModel FrameProofs SbufModel.

(* ---- C13 ---- *)

(* Spec: no '/'-separated component of the C string is "." or "..". *)
Definition no_dots (b : bytes) : Prop :=
  ~ In [dot] (components (cview b)) /\ ~ In [dot; dot] (components (cview b)).
Definition safe_buf (b : iobuf) : Prop := match ibuf b with None => True | Some x => no_dots x end.
Definition safe (sb : sbuf) : Prop := safe_buf (s_path sb) /\ safe_buf (s_datapth sb).
Definition rawmsg (m : Z * bytes) : Prop := raw (snd m).

Lemma attack_false : forall m, rawmsg m -> relative_path_attack m = false -> safe_buf (to_iobuf m).
Proof.
  intros [c b] R H. change (no_dots b). unfold relative_path_attack in H. cbn [snd] in H.
  assert (Hc : cstr (cview b)) by (apply cview_cstr; exact R).
  pose proof (has_dot_component_exact _ Hc) as E.
  split; intros G; (assert (has_dot_component (cview b) = true); [apply E; auto|congruence]).
Qed.

Lemma parse_safe : forall sb m sb' r, rawmsg m -> safe sb -> parse_cmd sb m = (sb', r) -> safe sb'.
Proof.
  intros sb m sb' r R [Sp Sd] H. unfold parse_cmd in H.
  repeat match type of H with
  | context [if ?b then _ else _] => destruct b eqn:?
  end; inversion H; subst; clear H; split; cbn; auto; try exact I;
  try (apply attack_false; assumption).
Qed.

(* A source only hands out byte strings. *)
Definition raw_source {S} (next : S -> src S) (ok : S -> Prop) : Prop :=
  forall s m s', ok s -> next s = SMsg m s' -> rawmsg m /\ ok s'.

Definition res_sb {S} (r : fillres S) : option sbuf :=
  match r with FillOk sb _ => Some sb | FillEnd sb => Some sb | FillErr sb => Some sb | FillFuel => None end.

Lemma fill_safe : forall S (next : S -> src S) ok, raw_source next ok ->
  forall fuel s sb, ok s -> safe sb ->
  match sbuf_fill next fuel s sb with
  | FillOk sb' s' => safe sb' /\ ok s' | FillEnd sb' => safe sb' | FillErr sb' => safe sb' | FillFuel => True end.
Proof.
  intros S next ok Rs. induction fuel as [|fuel IH]; intros s sb Ho Hs; cbn [sbuf_fill]; auto.
  destruct (next s) as [m s'| |] eqn:E; auto.
  destruct (Rs _ _ _ Ho E) as [Rm Ho'].
  destruct (parse_cmd sb m) as [sb' r] eqn:P. pose proof (parse_safe _ _ _ _ Rm Hs P) as Hs'.
  destruct r; auto. apply IH; auto.
Qed.

Lemma net_raw : raw_source net_next (Forall rawmsg).
Proof. intros [|m l] m' s' H E; inversion E; subst. inversion H; auto. Qed.

Lemma safe_alloc : safe sbuf_alloc. Proof. split; exact I. Qed.
Lemma safe_free : forall sb, safe (sbuf_free_content sb). Proof. split; exact I. Qed.

Lemma fill_net_safe : forall msgs fuel sb, Forall rawmsg msgs -> safe sb ->
  forall sb', res_sb (sbuf_fill net_next fuel msgs sb) = Some sb' -> safe sb'.
Proof.
  intros msgs fuel sb Hm Hs sb' E.
  pose proof (fill_safe _ net_next _ net_raw fuel msgs sb Hm Hs) as G.
  destruct (sbuf_fill net_next fuel msgs sb) as [x y|x|x|]; cbn in E; inversion E; subst; tauto.
Qed.

(* The same for bytes of a file, whatever is in it. *)
Lemma read_ensure_raw : forall fuel n got f b f', raw got -> raw (fbytes f) ->
  read_ensure fuel n got f = ROk b f' -> raw b /\ raw (fbytes f').
Proof.
  induction fuel; intros n got f b f' Hg Hf H; destruct n; cbn [read_ensure] in H.
  - inversion H; subst; auto.
  - discriminate.
  - inversion H; subst; auto.
  - destruct (match foracle f with [] => (RdShort (S n), []) | o :: r => (o, r) end) as [o rest].
    destruct o; [discriminate|]. destruct (fbytes f) as [|x l] eqn:E; [destruct got; discriminate|].
    set (r := Nat.min (Nat.min (S n) (S k)) (List.length (x :: l))) in *.
    rewrite <- (firstn_skipn r (x :: l)) in Hf. apply raw_app in Hf. destruct Hf.
    eapply IHfuel in H; auto. apply raw_app; auto.
Qed.

Lemma file_raw : raw_source file_next (fun f => raw (fbytes f)).
Proof.
  intros f m f' Hf E. unfold file_next, fill_from_fzp in E.
  destruct (fzp_read_ensure 5 f) as [lead f1| |] eqn:E1; try discriminate.
  destruct (read_ensure_raw _ _ _ _ _ _ (Forall_nil _) Hf E1) as [_ R1].
  destruct (scan_lead lead) as [[c n]|]; try discriminate.
  destruct (fzp_read_ensure (Z.to_nat n + 1) f1) as [b f2| |] eqn:E2; try discriminate.
  destruct (read_ensure_raw _ _ _ _ _ _ (Forall_nil _) R1 E2) as [Rb R2].
  inversion E; subst. split; auto. unfold rawmsg. cbn [snd].
  rewrite <- (firstn_skipn (Z.to_nat n) b) in Rb. apply raw_app in Rb. tauto.
Qed.

Lemma fill_file_safe : forall f fuel sb, raw (fbytes f) -> safe sb ->
  forall sb', res_sb (sbuf_fill file_next fuel f sb) = Some sb' -> safe sb'.
Proof.
  intros f fuel sb Hm Hs sb' E.
  pose proof (fill_safe _ file_next _ file_raw fuel f sb Hm Hs) as G.
  destruct (sbuf_fill file_next fuel f sb) as [x y|x|x|]; cbn in E; inversion E; subst; tauto.
Qed.

(* ---- C12 ---- *)

(* Spec: the kinds of complete entry. *)
Inductive entry :=
| EData (c : Z) (dp attr path fin : bytes)    (* file data stored at dp, end marker fin *)
| ELink (c c2 : Z) (attr path target : bytes)
| EPlain (c : Z) (attr path : bytes).         (* directory, special, or scanned file *)

Definition datacmd (c : Z) : Prop := In c [CMD_FILE; CMD_ENC_FILE; CMD_METADATA; CMD_ENC_METADATA; CMD_EFS_FILE;
  CMD_VSS; CMD_ENC_VSS; CMD_VSS_T; CMD_ENC_VSS_T].
Definition linkcmd (c : Z) : Prop := c = CMD_SOFT_LINK \/ c = CMD_HARD_LINK.
Definition plaincmd (c : Z) : Prop := datacmd c \/ c = CMD_DIRECTORY \/ c = CMD_SPECIAL.

Definition short (b : bytes) : Prop := Z.of_nat (List.length b) <= 65535.
Definition okpath (b : bytes) : Prop := raw b /\ short b /\ no_dots b.
Definition wf_entry (e : entry) : Prop :=
  match e with
  | EData c dp attr path fin => datacmd c /\ okpath dp /\ short attr /\ okpath path /\ short fin
  | ELink c c2 attr path target => linkcmd c /\ linkcmd c2 /\ short attr /\ okpath path /\ short target
  | EPlain c attr path => plaincmd c /\ short attr /\ okpath path
  end.

Definition buf (c : Z) (b : bytes) : iobuf := mkiobuf c (Some b).
Definition nobuf : iobuf := mkiobuf 101 None.
Definition entry_sbuf (e : entry) : sbuf :=
  match e with
  | EData c dp attr path fin => mksbuf (buf c path) (buf 114 attr) nobuf (buf 120 fin) (buf 116 dp) false false
  | ELink c c2 attr path target => mksbuf (buf c path) (buf 114 attr) (buf c2 target) nobuf (mkiobuf 116 None) false false
  | EPlain c attr path => mksbuf (buf c path) (buf 114 attr) nobuf nobuf (mkiobuf 116 None) false false
  end.
Definition entry_msgs (e : entry) : list (Z * bytes) :=
  match e with
  | EData c dp attr path fin => [(116, dp); (114, attr); (c, path); (120, fin)]
  | ELink c c2 attr path target => [(114, attr); (c, path); (c2, target)]
  | EPlain c attr path => [(114, attr); (c, path)]
  end.
Definition stream (es : list entry) : list (Z * bytes) := flat_map entry_msgs es.

Lemma okpath_safe : forall c b, okpath b -> relative_path_attack (c, b) = false.
Proof.
  intros c b (R & _ & N). unfold relative_path_attack. cbn [snd].
  destruct (has_dot_component (cview b)) eqn:E; auto.
  apply has_dot_component_exact in E; [|apply cview_cstr; exact R].
  destruct N. tauto.
Qed.

Lemma sbuf_msgs_entry : forall e, sbuf_msgs (entry_sbuf e) = entry_msgs e.
Proof. destruct e; reflexivity. Qed.

Inductive delivers {S} (next : S -> src S) : S -> list (Z * bytes) -> stop -> Prop :=
| dl_end : forall s, next s = SEnd -> delivers next s [] Clean
| dl_err : forall s, next s = SErr -> delivers next s [] Broken
| dl_msg : forall s m s' l e, next s = SMsg m s' -> delivers next s' l e -> delivers next s (m :: l) e.

Lemma read_all_delivers : forall fuel f l e, read_all fuel 1 f = (l, e) -> e <> OutOfFuel ->
  delivers file_next f l e.
Proof.
  induction fuel as [|fuel IH]; intros f l e H N; cbn [read_all] in H; [inversion H; congruence|].
  destruct (fill_from_fzp 1 f) as [m f'| |] eqn:E.
  - destruct (read_all fuel 1 f') as [l' e'] eqn:E'. inversion H; subst.
    eapply dl_msg; [unfold file_next; rewrite E; reflexivity|]. apply IH; auto.
  - inversion H; subst. apply dl_end. unfold file_next. rewrite E. reflexivity.
  - inversion H; subst. apply dl_err. unfold file_next. rewrite E. reflexivity.
Qed.

Lemma parse_attr : forall sb a, s_datapth sb = mkiobuf 116 None ->
  parse_cmd sb (114, a) = (mksbuf nobuf (buf 114 a) nobuf nobuf (mkiobuf 116 None) false false, PNeedMore).
Proof. intros. unfold parse_cmd. cbn [fst]. rewrite H. reflexivity. Qed.

Lemma path_cmds : forall c, plaincmd c \/ linkcmd c ->
  cmd_is_path c = true /\ (c =? CMD_ATTRIBS) = false /\
  (linkcmd c -> cmd_is_link c = true) /\ (plaincmd c -> cmd_is_link c = false) /\
  (datacmd c -> cmd_is_filedata c = true \/ cmd_is_vssdata c = true).
Proof.
  intros c H. unfold plaincmd, datacmd, linkcmd in *. simpl in H.
  repeat match goal with H : _ \/ _ |- _ => destruct H end; try contradiction; subst c;
  (split; [reflexivity|split; [reflexivity|]]);
  (split; [|split]); intros G; try reflexivity; try (left; reflexivity); try (right; reflexivity); exfalso;
  simpl in G; unfold CMD_FILE, CMD_ENC_FILE, CMD_METADATA, CMD_ENC_METADATA, CMD_EFS_FILE,
  CMD_VSS, CMD_ENC_VSS, CMD_VSS_T, CMD_ENC_VSS_T, CMD_DIRECTORY, CMD_SPECIAL, CMD_SOFT_LINK, CMD_HARD_LINK in *; lia.
Qed.

Lemma datacmd_plain : forall c, datacmd c -> plaincmd c. Proof. left; auto. Qed.

Lemma parse_path_plain : forall c a p, plaincmd c -> okpath p ->
  parse_cmd (mksbuf nobuf (buf 114 a) nobuf nobuf (mkiobuf 116 None) false false) (c, p)
  = (entry_sbuf (EPlain c a p), PComplete).
Proof.
  intros c a p Hc Hp. destruct (path_cmds c (or_introl Hc)) as (E1 & E2 & _ & E3 & _).
  unfold parse_cmd. cbn [fst]. rewrite E1, E2, (okpath_safe c p Hp), (E3 Hc). reflexivity.
Qed.
Lemma parse_path_link : forall c a p, linkcmd c -> okpath p ->
  parse_cmd (mksbuf nobuf (buf 114 a) nobuf nobuf (mkiobuf 116 None) false false) (c, p)
  = (mksbuf (buf c p) (buf 114 a) nobuf nobuf (mkiobuf 116 None) true false, PNeedMore).
Proof.
  intros c a p Hc Hp. destruct (path_cmds c (or_intror Hc)) as (E1 & E2 & E3 & _ & _).
  unfold parse_cmd. cbn [fst]. rewrite E1, E2, (okpath_safe c p Hp), (E3 Hc). reflexivity.
Qed.
Lemma parse_target : forall c c2 a p t, linkcmd c2 ->
  parse_cmd (mksbuf (buf c p) (buf 114 a) nobuf nobuf (mkiobuf 116 None) true false) (c2, t)
  = (entry_sbuf (ELink c c2 a p t), PComplete).
Proof.
  intros c c2 a p t Hc. destruct (path_cmds c2 (or_intror Hc)) as (E1 & E2 & E3 & _ & _).
  unfold parse_cmd. cbn [fst]. rewrite E1, E2, (E3 Hc). reflexivity.
Qed.
Lemma parse_datapth : forall dp, okpath dp ->
  parse_cmd sbuf_alloc (116, dp) = (mksbuf nobuf nobuf nobuf nobuf (buf 116 dp) false false, PNeedMore).
Proof. intros dp H. unfold parse_cmd. cbn [fst]. rewrite (okpath_safe 116 dp H). reflexivity. Qed.
Lemma parse_path_data : forall c dp a p, datacmd c -> okpath p ->
  parse_cmd (mksbuf nobuf (buf 114 a) nobuf nobuf (buf 116 dp) false false) (c, p)
  = (mksbuf (buf c p) (buf 114 a) nobuf nobuf (buf 116 dp) false false, PNeedMore).
Proof.
  intros c dp a p Hc Hp. destruct (path_cmds c (or_introl (datacmd_plain c Hc))) as (E1 & E2 & _ & E3 & _).
  unfold parse_cmd. cbn [fst]. rewrite E1, E2, (okpath_safe c p Hp), (E3 (datacmd_plain c Hc)). reflexivity.
Qed.
Lemma parse_fin : forall c dp a p f, datacmd c ->
  parse_cmd (mksbuf (buf c p) (buf 114 a) nobuf nobuf (buf 116 dp) false false) (120, f)
  = (entry_sbuf (EData c dp a p f), PComplete).
Proof.
  intros c dp a p f Hc. destruct (path_cmds c (or_introl (datacmd_plain c Hc))) as (_ & _ & _ & _ & E).
  unfold parse_cmd. cbn [fst]. simpl. specialize (E Hc).
  destruct (cmd_is_filedata c), (cmd_is_vssdata c); destruct E; try discriminate; reflexivity.
Qed.

Lemma dl_inv : forall S (next : S -> src S) s m l e, delivers next s (m :: l) e ->
  exists s', next s = SMsg m s' /\ delivers next s' l e.
Proof. intros. inversion H; subst. eauto. Qed.
Lemma dl_nil : forall S (next : S -> src S) s e, delivers next s [] e ->
  (e = Clean /\ next s = SEnd) \/ (e = Broken /\ next s = SErr).
Proof. intros. inversion H; subst; auto. Qed.

Ltac dstep H := apply dl_inv in H; destruct H as (?s & ?N & H).

Lemma fill_entry : forall St (next : St -> src St) e s rest st fuel, wf_entry e -> (4 <= fuel)%nat ->
  delivers next s (entry_msgs e ++ rest) st ->
  exists s', sbuf_fill next fuel s sbuf_alloc = FillOk (entry_sbuf e) s' /\ delivers next s' rest st.
Proof.
  intros St next e s rest st fuel W Hf D.
  do 4 (destruct fuel as [|fuel]; [lia|]).
  destruct e as [c dp a p f|c c2 a p t|c a p]; cbn [entry_msgs app] in D; cbn [wf_entry] in W; cbn [sbuf_fill].
  - destruct W as (W1 & W2 & W3 & W4 & W5). do 4 (dstep D).
    rewrite N, parse_datapth, N0 by auto.
    change (parse_cmd (mksbuf nobuf nobuf nobuf nobuf (buf 116 dp) false false) (114, a))
      with (mksbuf nobuf (buf 114 a) nobuf nobuf (buf 116 dp) false false, PNeedMore). cbv iota beta.
    rewrite N1, parse_path_data, N2, parse_fin by auto. eauto.
  - destruct W as (W1 & W2 & W3 & W4 & W5). do 3 (dstep D).
    rewrite N, parse_attr, N0, parse_path_link, N1, parse_target by auto. eauto.
  - destruct W as (W1 & W2 & W3). do 2 (dstep D).
    rewrite N, parse_attr, N0, parse_path_plain by auto. eauto.
Qed.

Definition endres {S} (r : fillres S) (st : stop) : Prop :=
  match r, st with FillEnd _, Clean => True | FillErr _, Broken => True | _, _ => False end.

Lemma fill_partial : forall St (next : St -> src St) e s j st fuel, wf_entry e -> (4 <= fuel)%nat ->
  (j < List.length (entry_msgs e))%nat -> delivers next s (firstn j (entry_msgs e)) st ->
  endres (sbuf_fill next fuel s sbuf_alloc) st.
Proof.
  intros St next e s j st fuel W Hf Hj D.
  do 4 (destruct fuel as [|fuel]; [lia|]).
  assert (Q : forall s0 sb n, delivers next s0 [] st ->
     endres (match next s0 with
    | SEnd => FillEnd sb | SErr => FillErr sb
    | SMsg m s' => match parse_cmd sb m with
      | (sb', PNeedMore) => sbuf_fill next n s' sb' | (sb', PComplete) => FillOk sb' s'
      | (sb', PFinished) => FillEnd sb' | (sb', PError) => FillErr sb' end end) st).
  { intros s0 sb n D0. apply dl_nil in D0. destruct D0 as [[-> E]|[-> E]]; rewrite E; exact I. }
  destruct e as [c dp a p f|c c2 a p t|c a p]; cbn [entry_msgs List.length] in *; cbn [wf_entry] in W.
  - destruct W as (W1 & W2 & W3 & W4 & W5).
    destruct j as [|[|[|[|j]]]]; [| | | |lia]; cbn [firstn] in D; cbn [sbuf_fill].
    + apply (Q _ _ (S (S (S fuel)))); auto.
    + dstep D. rewrite N, parse_datapth by auto. apply (Q _ _ (S (S fuel))); auto.
    + do 2 (dstep D). rewrite N, parse_datapth, N0 by auto.
      change (parse_cmd (mksbuf nobuf nobuf nobuf nobuf (buf 116 dp) false false) (114, a))
        with (mksbuf nobuf (buf 114 a) nobuf nobuf (buf 116 dp) false false, PNeedMore). cbv iota beta.
      apply (Q _ _ (S fuel)); auto.
    + do 3 (dstep D). rewrite N, parse_datapth, N0 by auto.
      change (parse_cmd (mksbuf nobuf nobuf nobuf nobuf (buf 116 dp) false false) (114, a))
        with (mksbuf nobuf (buf 114 a) nobuf nobuf (buf 116 dp) false false, PNeedMore). cbv iota beta.
      rewrite N1, parse_path_data by auto. apply (Q _ _ fuel); auto.
  - destruct W as (W1 & W2 & W3 & W4 & W5).
    destruct j as [|[|[|j]]]; [| | |lia]; cbn [firstn] in D; cbn [sbuf_fill].
    + apply (Q _ _ (S (S (S fuel)))); auto.
    + dstep D. rewrite N, parse_attr by auto. apply (Q _ _ (S (S fuel))); auto.
    + do 2 (dstep D). rewrite N, parse_attr, N0, parse_path_link by auto. apply (Q _ _ (S fuel)); auto.
  - destruct W as (W1 & W2 & W3).
    destruct j as [|[|j]]; [| |lia]; cbn [firstn] in D; cbn [sbuf_fill].
    + apply (Q _ _ (S (S (S fuel)))); auto.
    + dstep D. rewrite N, parse_attr by auto. apply (Q _ _ (S (S fuel))); auto.
Qed.

Lemma read_entries_prefix : forall S (next : S -> src S) es s j st n fuel,
  Forall wf_entry es -> (4 <= fuel)%nat -> (List.length es < n)%nat -> (j <= List.length (stream es))%nat ->
  delivers next s (firstn j (stream es)) st -> st <> OutOfFuel ->
  exists i, read_entries next n fuel s = (map entry_sbuf (firstn i es), st) /\
    (i <= List.length es)%nat /\
    (List.length (stream (firstn i es)) <= j)%nat /\
    (i = List.length es \/ (j < List.length (stream (firstn (Datatypes.S i) es)))%nat).
Proof.
  intros S next es. induction es as [|e es IH]; intros s j st n fuel W Hf Hn Hj D Hst;
    (destruct n as [|n]; [lia|]).
  - cbn [stream flat_map List.length] in *. rewrite firstn_nil in D. exists 0%nat.
    apply dl_nil in D. destruct fuel as [|fuel]; [lia|].
    cbn [read_entries sbuf_fill firstn map].
    destruct D as [[-> E]|[-> E]]; rewrite E;
      (split; [reflexivity|]; split; [lia|]; split; [cbn; lia|left; reflexivity]).
  - inversion W as [|? ? We Wes]; subst.
    change (stream (e :: es)) with (entry_msgs e ++ stream es) in *.
    rewrite app_length in Hj. cbn [List.length] in Hn.
    destruct (Nat.lt_ge_cases j (List.length (entry_msgs e))) as [L|L].
    + rewrite firstn_app in D. replace (j - List.length (entry_msgs e))%nat with 0%nat in D by lia.
      rewrite firstn_O, app_nil_r in D.
      pose proof (fill_partial _ _ _ _ _ _ _ We Hf L D) as G.
      exists 0%nat. cbn [read_entries]. destruct (sbuf_fill next fuel s sbuf_alloc), st; cbn in G; try contradiction.
      * split; [reflexivity|]. split; [lia|]. split; [cbn; lia|]. right. unfold stream. simpl. rewrite app_nil_r. exact L.
      * split; [reflexivity|]. split; [lia|]. split; [cbn; lia|]. right. unfold stream. simpl. rewrite app_nil_r. exact L.
    + rewrite firstn_app, firstn_all2 in D by lia.
      destruct (fill_entry _ _ _ _ _ _ _ We Hf D) as (s' & E & D').
      destruct (IH s' (j - List.length (entry_msgs e))%nat st n fuel Wes Hf ltac:(lia) ltac:(lia) D' Hst) as (i & R & H1 & H2 & H3).
      exists (Datatypes.S i). cbn [read_entries]. rewrite E, R. split; [reflexivity|].
      change (firstn (Datatypes.S i) (e :: es)) with (e :: firstn i es).
      change (firstn (Datatypes.S (Datatypes.S i)) (e :: es)) with (e :: firstn (Datatypes.S i) es).
      change (stream (e :: firstn i es)) with (entry_msgs e ++ stream (firstn i es)).
      change (stream (e :: firstn (Datatypes.S i) es)) with (entry_msgs e ++ stream (firstn (Datatypes.S i) es)).
      rewrite !app_length. cbn [List.length]. repeat split; try lia.
Qed.

Lemma entry_msgs_ok : forall e, wf_entry e -> Forall okmsg (entry_msgs e).
Proof.
  assert (C : forall c, plaincmd c \/ linkcmd c -> is_char c).
  { intros c H. unfold plaincmd, datacmd, linkcmd in H. simpl in H. unfold is_char.
    repeat match goal with H : _ \/ _ |- _ => destruct H end; try contradiction; subst c; split; vm_compute; congruence. }
  assert (C1 : is_char 114 /\ is_char 116 /\ is_char 120) by (unfold is_char; lia).
  destruct C1 as (C1 & C2 & C3).
  unfold okpath, short. intros [c dp a p f|c c2 a p t|c a p] W; cbn [wf_entry] in W; unfold okpath, short in W;
    repeat (constructor; [split; cbn [fst snd]; [auto|tauto]|]); try constructor;
    try (apply C; unfold plaincmd; tauto).
Qed.
Lemma stream_ok : forall es, Forall wf_entry es -> Forall okmsg (stream es).
Proof.
  induction es; intros H; [constructor|]. inversion H; subst. cbn. apply Forall_app. split; auto.
  apply entry_msgs_ok; auto.
Qed.

Lemma write_entries_ok : forall es, Forall wf_entry es ->
  write_entries (map entry_sbuf es) = (file_of (stream es), true).
Proof.
  induction es as [|e es IH]; intros H; [reflexivity|]. inversion H; subst.
  cbn [map write_entries]. unfold sbuf_to_manifest. rewrite sbuf_msgs_entry, write_all_ok by (apply entry_msgs_ok; auto).
  rewrite IH by auto. change (stream (e :: es)) with (entry_msgs e ++ stream es).
  rewrite file_of_app. reflexivity.
Qed.

(* Enough fuel for any file: each entry needs at most four messages. *)
Theorem entries_roundtrip : forall es o, Forall wf_entry es -> noerr o ->
  exists w, write_entries (map entry_sbuf es) = (w, true) /\
    read_entries file_next (S (List.length es)) 4 (mkf w o) = (map entry_sbuf es, Clean).
Proof.
  intros es o W No. exists (file_of (stream es)). split; [apply write_entries_ok; auto|].
  pose proof (stream_ok es W) as Ok.
  destruct (framing_roundtrip (stream es) o (S (List.length (stream es))) Ok ltac:(lia)) as (w & E & R & _).
  rewrite write_all_ok in E by auto. inversion E; subst w. specialize (R No). fold (file_of (stream es)) in R.
  apply read_all_delivers in R; [|discriminate].
  rewrite <- (firstn_all (stream es)) in R.
  apply (read_entries_prefix _ _ es _ (List.length (stream es)) _ (S (List.length es)) 4) in R; auto; try discriminate.
  destruct R as (i & R & H1 & H2 & H3). rewrite firstn_all in R. rewrite R. f_equal. f_equal.
  destruct H3 as [->|H3]; [apply firstn_all|].
  exfalso. assert (List.length (stream (firstn (S i) es)) <= List.length (stream es))%nat; [|lia].
  rewrite <- (firstn_skipn (S i) es) at 2. unfold stream. rewrite flat_map_app, app_length. lia.
Qed.

Lemma read_cut_fits : forall l k o fuel j e, Forall okmsg l ->
  read_all fuel 1 (mkf (firstn k (file_of l)) o) = (firstn j l, e) -> (j <= List.length l)%nat ->
  (List.length (file_of (firstn j l)) <= k)%nat.
Proof.
  induction l as [|m l IH]; intros k o fuel j e F R Hj.
  - rewrite firstn_nil. cbn. lia.
  - inversion F as [|? ? Hm Hl]; subst. destruct j as [|j]; [cbn; lia|].
    destruct fuel; [discriminate|]. cbn [read_all] in R.
    change (file_of (m :: l)) with (frame m ++ file_of l) in R.
    destruct (fill_cut m (file_of l) k o Hm) as [[E N]|[[E N]|[Lk [o' [E N]]]]]; rewrite E in R; try discriminate.
    destruct (read_all fuel 1 _) as [l' e'] eqn:R'. cbn [firstn] in R. inversion R; subst.
    cbn [List.length] in Hj. apply IH in R'; [|auto|lia].
    cbn [firstn]. change (file_of (m :: firstn j l)) with (frame m ++ file_of (firstn j l)).
    rewrite app_length, frame_length. lia.
Qed.

(* Any truncation, any read errors: a prefix of the entries, and the number
   delivered is the number completely inside the part that was read; if all the
   bytes of the first i entries are there, at least those are delivered unless
   a read failed. *)
Theorem entries_truncated : forall es k o, Forall wf_entry es -> (k <= List.length (file_of (stream es)))%nat ->
  exists i e, read_entries file_next (S (List.length es)) 4 (mkf (firstn k (file_of (stream es))) o)
    = (map entry_sbuf (firstn i es), e) /\ e <> OutOfFuel /\ (i <= List.length es)%nat /\
    (List.length (file_of (stream (firstn i es))) <= k)%nat /\
    (noerr o -> i = List.length es \/ (k < List.length (file_of (stream (firstn (S i) es))))%nat).
Proof.
  intros es k o W Hk. pose proof (stream_ok es W) as Ok.
  destruct (read_cut (stream es) k o (S (List.length (stream es))) Ok ltac:(lia)) as (j & e & Hj & R & Ne & HC & HB).
  assert (Lk : List.length (firstn k (file_of (stream es))) = k) by (apply firstn_length_le; auto).
  rewrite Lk in *. pose proof (read_cut_fits _ _ _ _ _ _ Ok R Hj) as Fit.
  apply read_all_delivers in R; auto.
  apply (read_entries_prefix _ _ es _ j _ (S (List.length es)) 4) in R; auto.
  destruct R as (i & R & H1 & H2 & H3).
  assert (SP : forall i, stream es = stream (firstn i es) ++ stream (skipn i es)).
  { intros i0. rewrite <- (firstn_skipn i0 es) at 1. unfold stream. apply flat_map_app. }
  assert (PJ : forall i0, (List.length (stream (firstn i0 es)) <= j)%nat ->
     (List.length (file_of (stream (firstn i0 es))) <= List.length (file_of (firstn j (stream es))))%nat).
  { intros i0 G. rewrite (SP i0), firstn_app, (firstn_all2 (n:=j) (stream (firstn i0 es))) by lia. rewrite file_of_app, app_length. lia. }
  assert (PK : forall i0, (j < List.length (stream (firstn i0 es)))%nat ->
     (List.length (file_of (firstn (S j) (stream es))) <= List.length (file_of (stream (firstn i0 es))))%nat).
  { intros i0 G. rewrite (SP i0), firstn_app.
    replace (S j - List.length (stream (firstn i0 es)))%nat with 0%nat by lia. rewrite firstn_O, app_nil_r.
    rewrite <- (firstn_skipn (S j) (stream (firstn i0 es))) at 2. rewrite file_of_app, app_length. lia. }
  assert (JL : forall i0, (j < List.length (stream (firstn i0 es)))%nat -> (j < List.length (stream es))%nat).
  { intros i0 G. rewrite (SP i0), app_length. lia. }
  exists i, e. split; [exact R|]. split; [auto|]. split; [auto|]. split.
  - specialize (PJ i H2). lia.
  - intros No. destruct H3 as [H3|H3]; [left; auto|right].
    specialize (PK (S i) H3). specialize (JL _ H3).
    destruct e; [| |congruence].
    + destruct (HC eq_refl) as [H|[H4 H5]].
      * pose proof (file_of_mono (stream es) j (S j) ltac:(lia)). lia.
      * pose proof (file_of_mono (stream es) j (S j) ltac:(lia)). lia.
    + destruct (HB eq_refl No) as (_ & H5 & _). lia.
Qed.
