(* Properties C91, C92 and C95: the include/exclude settings one side gives to the
   other, and the place of a restore that the server asks for. *)
From Coq Require Import Sorting.Sorted.
From Verif Require Import Bytes PathcmpModel FrameModel BuModel AuthModel ConfModel CntrModel IncexcModel.
From Verif Require Import PathcmpProofs BuProofs ConfProofs CntrProofs IncexcProofs.

(* ---------- C91 ---------- *)
(* Missing: values that are not plain, which incexc_same_refuted is about. *)
Theorem C91_same_partial : forall inclusion S D, Forall2 same_kind S D -> NoDup (named S) ->
  Forall (fun s => o_inc s = true -> opt_name (o_field s) /\ sendable s) S -> (exists s, In s S /\ o_inc s = true /\ opt_lines s <> []) ->
  exists t D', recv_text (do_sends Incexc S) = Some t /\ incexcs_buf inclusion D t = Some D' /\
    all3 (fun s d d' => if o_inc s then o_field d' = o_field s /\ o_val d' = o_val s else d' = d) S D D'.
Proof. exact incexc_same. Qed.
Print Assumptions C91_same_partial.
Theorem C91_taken_partial : forall inclusion w S D, Forall2 same_kind S D -> NoDup (named S) ->
  Forall (fun s => flagged w s = true -> opt_name (o_field s) /\ sendable s) S -> Forall (lists_clear w) S -> do_sends w S <> [] ->
  exists t D', recv_text (do_sends w S) = Some t /\ incexcs_buf inclusion D t = Some D' /\ all3 (taken w) S D D'.
Proof. exact taken_over. Qed.
Print Assumptions C91_taken_partial.
Theorem C91_same_refuted : forall inclusion, exists S t D', Forall2 same_kind S table /\
  Forall (fun s => match o_val s with VList l => Forall (fun v => v <> [] /\ cstr v /\ ~ In 10 v) l | _ => True end) S /\
  recv_text (do_sends Incexc S) = Some t /\ incexcs_buf inclusion table t = Some D' /\
  map o_val (filter (fun o => beqb (o_field o) (str "include")) S) = [VList [str "'/a'"; str "/b "]] /\
  map o_val (filter (fun o => beqb (o_field o) (str "include")) D') = [VList [str "/a"; str "/b"]].
Proof. exact incexc_same_refuted. Qed.
Print Assumptions C91_same_refuted.

(* The options as they are, with two directories, an extension, a size and no ACLs. *)
Definition with_val (f : String.string) (v : cval) (c : conf) : conf := map (fun o => if beqb (o_field o) (str f) then set_val o v else o) c.
Definition given : conf := with_val "include" (VList [str "/etc"; str "/home/a b"]) (with_val "exclude_ext" (VList [str "o"])
  (with_val "max_file_size" (VU64 1048576) (with_val "acl" (VInt 0) (with_val "vss_drives" (VStr (Some (str "cd"))) table)))).
Definition plainb (v : bytes) : bool :=
  negb (beqb v []) && cstrb v && negb (has_byte 10 v) && negb (isspace (hd0 v)) && negb (isspace (List.last v 0)) && negb (hd0 v =? 39) && negb (hd0 v =? 34).
Definition sendableb (o : opt) : bool :=
  match o_val o with
  | VStr None => true | VStr (Some s) => plainb s
  | VInt n => (- 2 ^ 31 <=? n) && (n <? 2 ^ 31)
  | VU64 n => (0 <=? n) && (n <? 18446744073709551616)
  | VList l => forallb plainb l && (forallb cstrb l && sorted_pathb l)
  | VOther _ => false
  end.
Lemma plainb_ok : forall v, plainb v = true -> plain v.
Proof.
  intros v H. unfold plainb in H. repeat (apply andb_true_iff in H as [H ?]). unfold plain.
  repeat match goal with X : negb _ = true |- _ => apply negb_true_iff in X end.
  split; [apply beqb_neq; auto|]. split; [apply cstrb_ok; auto|].
  split. { intros X. assert (Y : has_byte 10 v = true) by (unfold has_byte; apply existsb_exists; exists 10; split; auto). congruence. }
  repeat split; auto; apply Z.eqb_neq; auto.
Qed.
Lemma given_sendable : Forall (fun s => o_inc s = true -> opt_name (o_field s) /\ sendable s) given.
Proof.
  apply Forall_forall. intros s Hs Fs.
  assert (E : forallb (fun o => implb (o_inc o) (opt_nameb (o_field o) && sendableb o)) given = true) by (vm_compute; reflexivity).
  rewrite forallb_forall in E. apply E in Hs as X. rewrite Fs in X. cbn [implb] in X. apply andb_true_iff in X as [Xn Xs].
  split; [apply opt_nameb_ok; auto|]. unfold sendable. unfold sendableb in Xs. destruct (o_val s) as [[v|]|n|n|l|v] eqn:Ev; auto; try discriminate.
  - apply plainb_ok; auto.
  - apply andb_true_iff in Xs as [A B]. unfold is_int. lia.
  - apply andb_true_iff in Xs as [A B]. unfold is_u64. lia.
  - apply andb_true_iff in Xs as [A B]. apply andb_true_iff in B as [B C]. split.
    + apply Forall_forall. intros v Hv. apply plainb_ok. rewrite forallb_forall in A. auto.
    + intros _. apply sorted_pathb_ok; auto.
Qed.
Lemma given_kind : Forall2 same_kind given table.
Proof. unfold given, with_val, table. cbn. repeat first [apply Forall2_nil | apply Forall2_cons; [do 4 (split; [reflexivity|]); exact I|]]. Qed.
Example C91_witness : Forall2 same_kind given table /\ NoDup (named given) /\
  Forall (fun s => o_inc s = true -> opt_name (o_field s) /\ sendable s) given /\
  firstn 3 (do_sends Incexc given) = [str "include = /etc"; str "include = /home/a b"; str "exclude_ext = o"].
Proof.
  split; [exact given_kind|]. split.
  - assert (E : forall l : list bytes, nodup (list_eq_dec Z.eq_dec) l = l -> NoDup l) by (intros l <-; apply NoDup_nodup).
    apply E. vm_compute. reflexivity.
  - split; [exact given_sendable|vm_compute; reflexivity].
Qed.
Example C91_run : match recv_text (do_sends Incexc given) with
  | Some t => match incexcs_buf (fun _ _ => None) table t with Some D' => map o_val D' = map o_val given | None => False end | None => False end.
Proof. vm_compute. reflexivity. Qed.
(* What is sent for a restore. *)
Example C91_restore_witness : Forall (lists_clear Restore) given /\ do_sends Restore given <> [].
Proof.
  split; [|vm_compute; discriminate]. apply Forall_forall. intros s Hs Fs. destruct (o_val s) eqn:E; auto.
  assert (X : forallb (fun o => match o_val o with VList _ => implb (o_res o) (o_inc o) | _ => true end) given = true) by reflexivity.
  rewrite forallb_forall in X. apply X in Hs. rewrite E in Hs. cbn in Fs. rewrite Fs in Hs. exact Hs.
Qed.

(* ---------- C92 ---------- *)
(* Missing: lines that name options which are not include/exclude ones, or other
   files; they are obeyed too. *)
Theorem C92_unnamed_partial : forall inclusion D t D' i d, incexcs_buf inclusion D t = Some D' ->
  (forall l, In l (ltoks t []) -> firstn 2 l <> str ". " /\ ~ line_names l (o_field d)) ->
  nth_error D i = Some d -> o_inc d = false -> nth_error D' i = Some d.
Proof. exact unnamed_kept. Qed.
Print Assumptions C92_unnamed_partial.
Theorem C92_any_option_refuted : forall inclusion, exists t D', incexcs_buf inclusion table t = Some D' /\
  t = str "include = /home" ++ [10] ++ str "backup_script_pre = /tmp/x" ++ [10] ++ [10] /\
  get_str (str "backup_script_pre") table = None /\ get_str (str "backup_script_pre") D' = Some (str "/tmp/x") /\
  map o_inc (filter (fun o => beqb (o_field o) (str "backup_script_pre")) table) = [false].
Proof. exact any_option_refuted. Qed.
Print Assumptions C92_any_option_refuted.
Theorem C92_any_file_refuted : forall inclusion c f, f <> [] -> ~ In 10 f ->
  incexcs_buf inclusion c (str ". " ++ f ++ [10; 10]) = inclusion f (free_incexcs c).
Proof. exact any_file_refuted. Qed.
Print Assumptions C92_any_file_refuted.
Example C92_witness : let t := str "include = /home" ++ [10] ++ str "acl=0" ++ [10] ++ [10] in
  ltoks t [] = [str "include = /home"; str "acl=0"] /\ conf_get_pair (str "acl=0") = PPair (str "acl") (str "0") false /\
  nth_error table 40 = Some (mkopt (str "backup_script_pre") false false false (VStr None)) /\
  match incexcs_buf (fun _ _ => None) table t with Some D' => nth_error D' 40 = nth_error table 40 | None => False end.
Proof. vm_compute. repeat split. Qed.

(* ---------- C95 ---------- *)
(* Missing: a client whose own prefix is the root directory. *)
Theorem C95_prefix_partial : forall inclusion, (forall f c c', inclusion f c = Some c' -> map o_field c' = map o_field c) ->
  forall c t c', incexcs_srestore inclusion c t = Some c' ->
  exists old new, get_str rp_field c = Some old /\ get_str rp_field c' = Some new /\
    (old <> [] -> old <> str "/" ->
     new = old \/ exists rest, new = old ++ slash :: rest /\ (cstr rest -> ~ In [dot] (components rest) /\ ~ In [dot; dot] (components rest))).
Proof. exact prefix_kept. Qed.
Print Assumptions C95_prefix_partial.
Theorem C95_prefix_refuted : forall inclusion, exists c t c', incexcs_srestore inclusion c t = Some c' /\
  get_str rp_field c = Some (str "/") /\ t = str "restoreprefix = tmp/x" ++ [10; 10] /\ get_str rp_field c' = Some (str "tmp/x").
Proof. exact prefix_refuted. Qed.
Print Assumptions C95_prefix_refuted.
Example C95_witness : let c := set_str rp_field (Some (str "/restored")) table in
  match incexcs_srestore (fun _ _ => None) c (str "restoreprefix = /new/place" ++ [10] ++ str "include = /etc" ++ [10; 10]) with
  | Some c' => get_str rp_field c' = Some (str "/restored/new/place") | None => False end /\
  incexcs_srestore (fun _ _ => None) c (str "restoreprefix = /a/../b" ++ [10; 10]) = None /\
  incexcs_srestore (fun _ _ => None) table (str "restoreprefix = /a" ++ [10; 10]) = None.
Proof. vm_compute. repeat split. Qed.
