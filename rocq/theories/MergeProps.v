(* Properties C16, C45: merging and trimming manifests. *)
From Coq Require Import Permutation Sorted.
From Verif Require Import Bytes PathcmpProofs CmdModel CmdProofs FrameModel FrameProofs SbufModel SbufProofs MergeModel MergeProofs.

(* Full claim: "sorted union, nothing lost, invented or twice".  False: an entry
   in both lists is written twice. *)
Theorem C16_merge_refuted : exists us cs, ents_ok (us ++ cs) /\
  StronglySorted ent_lt us /\ StronglySorted ent_lt cs /\
  exists a b, phase3 us cs = [a; b] /\ ent_eq a b.
Proof. exact phase3_duplicates. Qed.
Print Assumptions C16_merge_refuted.

(* Nothing lost or invented, for any two lists. *)
Theorem C16_merge_complete_partial : forall us cs, Permutation (phase3 us cs) (us ++ cs).
Proof. exact phase3_permutation. Qed.
Print Assumptions C16_merge_complete_partial.

Theorem C16_merge_sorted_partial : forall us cs, ents_ok (us ++ cs) ->
  StronglySorted ent_le us -> StronglySorted ent_le cs -> StronglySorted ent_le (phase3 us cs).
Proof. exact phase3_sorted. Qed.
Print Assumptions C16_merge_sorted_partial.

(* Nothing twice when no entry is in both lists. *)
Theorem C16_merge_strict_partial : forall us cs, ents_ok (us ++ cs) ->
  StronglySorted ent_lt us -> StronglySorted ent_lt cs ->
  (forall u c, In u us -> In c cs -> ~ ent_eq u c) ->
  StronglySorted ent_lt (phase3 us cs).
Proof. exact phase3_no_duplicates. Qed.
Print Assumptions C16_merge_strict_partial.

(* Down to the file: what is written can be read back as the merged list. *)
Theorem C16_merge_file_partial : forall eu ec o, Forall wf_entry eu -> Forall wf_entry ec -> noerr o ->
  exists es w, Permutation (eu ++ ec) es /\
    phase3 (map entry_sbuf eu) (map entry_sbuf ec) = map entry_sbuf es /\
    write_entries (phase3 (map entry_sbuf eu) (map entry_sbuf ec)) = (w, true) /\
    read_entries file_next (S (List.length es)) 4 (mkf w o) = (map entry_sbuf es, Clean).
Proof. exact phase3_manifest. Qed.
Print Assumptions C16_merge_file_partial.

(* Exactly the entries not listed remain, in order. *)
Theorem C45_delete_exact : forall ms ds, ents_ok (ms ++ ds) ->
  StronglySorted ent_lt ms -> StronglySorted ent_le ds ->
  remains ds ms (delete_entries ms ds).
Proof. exact delete_exact. Qed.
Print Assumptions C45_delete_exact.

Theorem C45_remains_functional : forall ds ms r r', remains ds ms r -> remains ds ms r' -> r = r'.
Proof. exact remains_functional. Qed.
Print Assumptions C45_remains_functional.

(* Non-vacuity. *)
Definition ex_ent (c : Z) (p a : bytes) : entry := EPlain c a p.
Definition ex_us := map entry_sbuf [ex_ent CMD_DIRECTORY (str "/a") (str "A"); ex_ent CMD_DIRECTORY (str "/a/c") (str "A"); ex_ent CMD_SPECIAL (str "/z") (str "A")].
Definition ex_cs := map entry_sbuf [ex_ent CMD_SPECIAL (str "/a/b") (str "A"); ex_ent CMD_DIRECTORY (str "/b") (str "A")].

Ltac in_solve H := cbn [In] in H; repeat destruct H as [<-|H]; [..|destruct H].
Lemma ex_ok : ents_ok (ex_us ++ ex_cs).
Proof.
  split.
  - apply Forall_forall. intros x H. unfold ex_us, ex_cs in H. cbn [map app] in H.
    in_solve H; apply cstr_raw, cstrb_ok; reflexivity.
  - left. intros x H. unfold ex_us, ex_cs in H. cbn [map app] in H. in_solve H; discriminate.
Qed.
Ltac lt_solve := left; repeat (apply plt_tail); first [apply plt_nil|apply plt_head; unfold byte_lt, slash, schar; cbn; lia].
Ltac ss_solve := repeat first [apply SSorted_nil|apply SSorted_cons|apply Forall_nil|apply Forall_cons]; lt_solve.
Lemma ex_us_sorted : StronglySorted ent_lt ex_us.
Proof. unfold ex_us. cbn [map]. ss_solve. Qed.
Lemma ex_cs_sorted : StronglySorted ent_lt ex_cs.
Proof. unfold ex_cs. cbn [map]. ss_solve. Qed.

Example ex_C16 : ents_ok (ex_us ++ ex_cs) /\ StronglySorted ent_lt ex_us /\ StronglySorted ent_lt ex_cs /\
  (forall u c, In u ex_us -> In c ex_cs -> ~ ent_eq u c) /\
  map (fun s => ibuf (s_path s)) (phase3 ex_us ex_cs) =
    map (fun s => Some (str s)) ["/a"%string; "/a/b"%string; "/a/c"%string; "/b"%string; "/z"%string].
Proof.
  split; [exact ex_ok|]. split; [exact ex_us_sorted|]. split; [exact ex_cs_sorted|]. split; [|reflexivity].
  intros u c Hu Hc [E _]. unfold ex_us, ex_cs in *. cbn [map] in *. in_solve Hu; in_solve Hc; discriminate.
Qed.
Example ex_C45 : map (fun s => ibuf (s_path s)) (delete_entries ex_us (ex_cs ++ [nth 2 ex_us sbuf_alloc])) =
    map (fun s => Some (str s)) ["/a"%string; "/a/c"%string].
Proof. reflexivity. Qed.
