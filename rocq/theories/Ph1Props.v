(* Property C131: the scan as the server keeps it. *)
From Verif Require Import Bytes CmdModel PathcmpModel PathcmpProofs FrameModel FrameProofs SbufModel SbufProofs AttribsModel AttribsProofs Ph1Model Ph1Proofs.

Theorem C131_kept : forall cf w es ns ms m rest, Forall wf_entry es -> Forall2 counts es ns ->
  said ms = stream es -> ends m -> 0 <= w -> w + warnings ms < 2 ^ 64 -> (p_fow cf = true -> w + warnings ms = 0) ->
  phase1 cf w (ms ++ m :: rest) =
  Some (verdict cf (w + warnings ms) (sum ns mod 2 ^ 64) (file_of (stream es))).
Proof. exact scan_kept. Qed.
Print Assumptions C131_kept.

Theorem C131_read_back : forall es o, Forall wf_entry es -> noerr o ->
  read_entries file_next (S (List.length es)) 4 (mkf (file_of (stream es) ++ frame tail_msg) o) = (map entry_sbuf es, Clean).
Proof. exact scan_read_back. Qed.
Print Assumptions C131_read_back.

Theorem C131_done : forall cf w ms o, Forall rawmsg ms -> 0 <= w -> w + warnings ms < 2 ^ 64 ->
  phase1 cf w ms = Some o -> o_done o = true ->
  exists pre m post es, ms = pre ++ m :: post /\ ends m /\ Forall (fun x => ~ ends x) pre /\
    Forall safe es /\ o_file o = fst (write_entries es) ++ frame tail_msg /\
    o_warn o = w + warnings pre /\ (p_fow cf = true -> w + warnings pre = 0) /\
    (p_hard cf <> 0 -> o_est o <= p_hard cf).
Proof. exact scan_done. Qed.
Print Assumptions C131_done.

Theorem C131_cut : forall cf w ms o, Forall rawmsg ms -> 0 <= w -> w + warnings ms < 2 ^ 64 ->
  Forall (fun x => ~ ends x) ms -> phase1 cf w ms = Some o -> o_done o = false /\ o_sent o = [].
Proof. exact scan_cut. Qed.
Print Assumptions C131_cut.

Theorem C131_warned : forall cf w pre m post o, Forall rawmsg (pre ++ m :: post) -> 0 <= w -> w + warnings (pre ++ m :: post) < 2 ^ 64 ->
  Forall (fun x => ~ ends x) pre -> p_fow cf = true -> w + warnings pre <> 0 ->
  phase1 cf w (pre ++ m :: post) = Some o -> o_done o = false.
Proof. exact scan_warned. Qed.
Print Assumptions C131_warned.

(* What is missing for the full claim: sizes that add up to 2^64 or more. *)
Theorem C131_quota_partial : forall cf w es ns ms m rest o, Forall wf_entry es -> Forall2 counts es ns ->
  said ms = stream es -> ends m -> 0 <= w -> w + warnings ms < 2 ^ 64 -> (p_fow cf = true -> w + warnings ms = 0) ->
  0 <= sum ns < 2 ^ 64 -> p_hard cf <> 0 -> phase1 cf w (ms ++ m :: rest) = Some o ->
  (o_done o = true <-> sum ns <= p_hard cf).
Proof.
  intros cf w es ns ms m rest o W N S E H1 H2 H3 B Hd H. rewrite (scan_kept cf w es ns ms m rest W N S E H1 H2 H3) in H.
  inversion H; subst o. cbn [verdict o_done]. rewrite Z.mod_small by exact B.
  assert (F : (p_fow cf && (0 <? w + warnings ms)) = false).
  { destruct (p_fow cf); [|reflexivity]. rewrite H3 by reflexivity. reflexivity. }
  rewrite F. cbn [negb andb]. destruct (Z.eqb_spec (p_hard cf) 0); [contradiction|]. cbn [orb]. lia.
Qed.
Print Assumptions C131_quota_partial.

Definition att (size : Z) : attrs := mkattrs 1 2 33188 1 0 0 0 size 4096 8 5 6 7 0 0 0 0 1.
Definition enc (size : Z) : bytes := match attribs_encode (att size) with Some s => s | None => [] end.
Definition a_file (size : Z) (p : string) : entry := EPlain CMD_FILE (enc size) (str p).
Definition a_scan (n : Z) : list entry :=
  [a_file n "/a"; ELink CMD_SOFT_LINK CMD_SOFT_LINK (enc 5) (str "/b") (str "a"); EPlain CMD_DIRECTORY (enc 4096) (str "/c"); a_file 30 "/c/d"].
Definition with_warning (ms : list (Z * bytes)) : list (Z * bytes) := firstn 3 ms ++ (CMD_WARNING, str "gone") :: skipn 3 ms.
Definition bye : Z * bytes := (99, str "backupphase2").

Lemma short_ok : forall b, forallb (fun c => (1 <=? c) && (c <=? 255)) b = true -> has_dot_component b = false ->
  Z.of_nat (List.length b) <= 65535 -> okpath b.
Proof.
  intros b F N L. assert (C : cstr b). { apply Forall_forall. intros x I. rewrite forallb_forall in F. specialize (F x I). apply andb_prop in F. destruct F. split; lia. }
  split; [|split; [exact L|]].
  - apply Forall_forall. intros x I. rewrite forallb_forall in F. specialize (F x I). apply andb_prop in F. destruct F. split; lia.
  - unfold no_dots. rewrite cview_id by exact C. pose proof (has_dot_component_exact _ C) as E. rewrite N in E.
    split; intros G; destruct E as [_ E]; discriminate E; auto.
Qed.
Lemma att_ok : forall n, 0 <= n < 2 ^ 63 -> attrs_ok (att n).
Proof. intros n H. unfold attrs_ok, att, u64, i64, u32, i32. cbn [st_dev st_ino st_mode st_nlink st_uid st_gid st_rdev st_size st_blksize st_blocks st_atime st_mtime st_ctime winattr compression encryption salt use_winapi].
  change int64_max with (2 ^ 63 - 1). change int64_min with (- 2 ^ 63). change two64 with (2 ^ 64). lia. Qed.
Lemma enc_ok : forall n, 0 <= n < 2 ^ 63 -> attribs_encode (att n) = Some (enc n) /\ short (enc n).
Proof.
  intros n H. destruct (attribs_roundtrip (att n) attrs0 (att_ok n H)) as (s & E & _ & L & _). unfold enc. rewrite E. split; [reflexivity|].
  unfold short. change attr_buf_size with 256 in L. lia.
Qed.

Lemma a_scan_ok : forall n, 0 <= n < 2 ^ 63 -> Forall wf_entry (a_scan n) /\ Forall2 counts (a_scan n) [n; 0; 0; 30].
Proof.
  intros n H. pose proof (enc_ok n H) as [E1 S1]. pose proof (enc_ok 5 ltac:(lia)) as [E2 S2].
  pose proof (enc_ok 4096 ltac:(lia)) as [E3 S3]. pose proof (enc_ok 30 ltac:(lia)) as [E4 S4].
  split.
  - unfold a_scan, a_file. constructor; [|constructor; [|constructor; [|constructor; [|constructor]]]].
    + split; [left; cbn; auto|]. split; [exact S1|]. apply short_ok; [reflexivity|reflexivity|cbn; lia].
    + split; [left; reflexivity|]. split; [left; reflexivity|]. split; [exact S2|].
      split; [apply short_ok; [reflexivity|reflexivity|cbn; lia]|]. unfold short; cbn; lia.
    + split; [right; left; reflexivity|]. split; [exact S3|]. apply short_ok; [reflexivity|reflexivity|cbn; lia].
    + split; [left; cbn; auto|]. split; [exact S4|]. apply short_ok; [reflexivity|reflexivity|cbn; lia].
  - repeat apply Forall2_cons; try apply Forall2_nil.
    + exists (att n). split; [apply att_ok; exact H|]. split; [exact E1|]. symmetry. apply Z.mod_small. lia.
    + exists (att 5). split; [apply att_ok; lia|]. split; [exact E2|reflexivity].
    + exists (att 4096). split; [apply att_ok; lia|]. split; [exact E3|reflexivity].
    + exists (att 30). split; [apply att_ok; lia|]. split; [exact E4|]. reflexivity.
Qed.

Example C131_witness :
  let ms := with_warning (stream (a_scan 100)) in
  Forall wf_entry (a_scan 100) /\ Forall2 counts (a_scan 100) [100; 0; 0; 30] /\ said ms = stream (a_scan 100) /\ ends bye /\
  warnings ms = 1 /\
  option_map o_done (phase1 (mkp1conf false 130 0) 0 (ms ++ [bye])) = Some true /\
  option_map o_done (phase1 (mkp1conf false 129 0) 0 (ms ++ [bye])) = Some false /\
  option_map o_done (phase1 (mkp1conf true 130 0) 0 (ms ++ [bye])) = Some false /\
  option_map o_done (phase1 (mkp1conf false 130 0) 0 ms) = Some false /\
  option_map o_sent (phase1 (mkp1conf false 130 129) 0 (ms ++ [bye])) = Some [ok_msg; (119, str "Soft quota exceeded")].
Proof.
  cbv zeta. split; [apply a_scan_ok; lia|]. split; [apply a_scan_ok; lia|]. split; [vm_compute; reflexivity|].
  split; [split; [reflexivity|left; reflexivity]|]. repeat split; vm_compute; reflexivity.
Qed.

(* Sizes that add up to 2^64 and a little are within any quota. *)
Theorem C131_quota_refuted : exists cf es ns o, Forall wf_entry es /\ Forall2 counts es ns /\
  p_hard cf <> 0 /\ p_hard cf < sum ns /\ phase1 cf 0 (stream es ++ [bye]) = Some o /\ o_done o = true.
Proof.
  exists (mkp1conf false 1000 0), (a_scan (2 ^ 63 - 1) ++ a_scan (2 ^ 63 - 1)), ([2 ^ 63 - 1; 0; 0; 30] ++ [2 ^ 63 - 1; 0; 0; 30]).
  destruct (a_scan_ok (2 ^ 63 - 1) ltac:(lia)) as [A B].
  eexists. split; [apply Forall_app; auto|]. split; [apply Forall2_app; exact B|].
  split; [discriminate|]. split; [reflexivity|]. split; vm_compute; reflexivity.
Qed.
Print Assumptions C131_quota_refuted.

(* The client is told to go on before the quota is looked at. *)
Theorem C131_ok_refuted : exists cf es o, Forall wf_entry es /\ phase1 cf 0 (stream es ++ [bye]) = Some o /\
  In ok_msg (o_sent o) /\ o_done o = false.
Proof.
  exists (mkp1conf false 100 0), (a_scan 100). eexists. split; [apply a_scan_ok; lia|].
  split; [vm_compute; reflexivity|]. split; [left; reflexivity|reflexivity].
Qed.
Print Assumptions C131_ok_refuted.

(* The word for the end of a restore ends the scan as well. *)
Theorem C131_word_refuted : exists cf o, phase1 cf 0 [(99, str "restoreend")] = Some o /\ o_done o = true.
Proof. exists (mkp1conf false 0 0). eexists. split; vm_compute; reflexivity. Qed.
Print Assumptions C131_word_refuted.
