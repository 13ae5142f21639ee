(* Properties C12, C13: manifest entries. *)
From Verif Require Import Bytes PathcmpModel PathcmpProofs CmdModel FrameModel FrameProofs SbufModel SbufProofs.

Theorem C12_entries_roundtrip : forall es o, Forall wf_entry es -> noerr o ->
  exists w, write_entries (map entry_sbuf es) = (w, true) /\
    read_entries file_next (S (List.length es)) 4 (mkf w o) = (map entry_sbuf es, Clean).
Proof. exact entries_roundtrip. Qed.
Print Assumptions C12_entries_roundtrip.

(* A manifest cut at byte k: exactly the entries completely inside the first k
   bytes are delivered (fewer only if a read fails). *)
Theorem C12_entries_truncated : forall es k o, Forall wf_entry es -> (k <= List.length (file_of (stream es)))%nat ->
  exists i e, read_entries file_next (S (List.length es)) 4 (mkf (firstn k (file_of (stream es))) o)
    = (map entry_sbuf (firstn i es), e) /\ e <> OutOfFuel /\ (i <= List.length es)%nat /\
    (List.length (file_of (stream (firstn i es))) <= k)%nat /\
    (noerr o -> i = List.length es \/ (k < List.length (file_of (stream (firstn (S i) es))))%nat).
Proof. exact entries_truncated. Qed.
Print Assumptions C12_entries_truncated.

Example C12_witness :
  let es := [EPlain CMD_DIRECTORY (str "A B") (str "/"); EData CMD_FILE (str "t/0001/0000/0000") (str "A C") (str "/a") (str "3:abc");
             ELink CMD_SOFT_LINK CMD_SOFT_LINK (str "A") (str "/l") (str "../x")] in
  Forall wf_entry es /\
  read_entries file_next 4 4 (mkf (fst (write_entries (map entry_sbuf es))) [RdShort 2; RdShort 0]) = (map entry_sbuf es, Clean).
Proof.
  cbv zeta. split.
  - assert (P : forall b, forallb (fun x => (0 <=? x) && (x <=? 255)) b = true ->
      (Z.of_nat (List.length b) <=? 65535) = true -> has_dot_component (cview b) = false -> okpath b).
    { intros b R L N. assert (Rb : raw b).
      { apply Forall_forall. intros x Hx. rewrite forallb_forall in R. specialize (R x Hx). unfold is_byte. lia. }
      split; auto. split; [unfold short; lia|].
      pose proof (has_dot_component_exact (cview b) (CmdProofs.cview_cstr b Rb)) as E.
      split; intros G; (assert (has_dot_component (cview b) = true); [apply E; auto|congruence]). }
    repeat (constructor; [cbn [wf_entry]; repeat split; try (apply P; reflexivity);
      try (unfold short; vm_compute; congruence);
      try (unfold plaincmd, linkcmd, datacmd; cbn [In]; tauto)|]). constructor.
  - vm_compute. reflexivity.
Qed.

(* Whatever the peer sends, and whatever the parser returns (complete, finished
   or failed), the path and data path have no dot component. *)
Theorem C13_network_paths_safe : forall msgs fuel sb, Forall rawmsg msgs -> safe sb ->
  forall sb', res_sb (sbuf_fill net_next fuel msgs sb) = Some sb' -> safe sb'.
Proof. exact fill_net_safe. Qed.
Print Assumptions C13_network_paths_safe.

Theorem C13_file_paths_safe : forall f fuel sb, raw (fbytes f) -> safe sb ->
  forall sb', res_sb (sbuf_fill file_next fuel f sb) = Some sb' -> safe sb'.
Proof. exact fill_file_safe. Qed.
Print Assumptions C13_file_paths_safe.

Theorem C13_start_safe : safe sbuf_alloc /\ forall sb, safe (sbuf_free_content sb).
Proof. exact (conj safe_alloc safe_free). Qed.
Print Assumptions C13_start_safe.

(* A traversing path is refused; a harmless one is delivered. *)
Example C13_witness :
  sbuf_fill net_next 5 [(CMD_ATTRIBS, str "A"); (CMD_FILE, str "/a/../../etc/passwd")] sbuf_alloc
    = FillErr (mksbuf iobuf_empty (mkiobuf CMD_ATTRIBS (Some (str "A"))) iobuf_empty iobuf_empty (mkiobuf CMD_DATAPTH None) false false)
  /\ exists sb r, sbuf_fill net_next 5 [(CMD_ATTRIBS, str "A"); (CMD_FILE, str "/a/..b"); (CMD_GEN, str "x")] sbuf_alloc = FillOk sb r
     /\ s_path sb = mkiobuf CMD_FILE (Some (str "/a/..b")).
Proof. split; [vm_compute; reflexivity|]. eexists; eexists. vm_compute. split; reflexivity. Qed.
