(* Properties C125, C126, C127. *)
From Coq Require Import Sorting.Sorted.
From Verif Require Import Bytes PathcmpModel PathcmpProofs CmdModel CmdProofs AttribsModel AttribsProofs FrameModel FrameProofs
  SbufModel SbufProofs MergeModel MergeProofs DpthModel BuModel BuProofs CntrModel CntrProofs
  RestoreModel RestoreProofs Phase2Model ListModel ListProofs ListProps AuthModel ActionModel LstModel LstProofs LstReqProofs.

(* ---------- C125 ---------- *)

(* The letters of a mode are those of ls(1). *)
Theorem C125_mode : forall m, encode_mode m = mode_text m.
Proof. exact encode_mode_text. Qed.
Print Assumptions C125_mode.
Example C125_mode_witness : encode_mode 33261 = str "-rwxr-xr-x" /\ encode_mode 17407 = str "drwxrwxrwt" /\
  encode_mode 35309 = str "-rwsr-xr-x" /\ encode_mode 41471 = str "lrwxrwxrwx" /\ encode_mode 33152 = str "-rw-------".
Proof. vm_compute. repeat split. Qed.

(* Whatever the client gets in the form of an answer is printed as such: a line
   for each heading and each entry, in order. *)
Theorem C125_client_prints : forall localtime, (forall s t, localtime s = Some t -> tm_ok t) ->
  forall act bd rx items b, ls_ok b -> Forall item_ok items ->
  exists lines, Forall2 (printed localtime act bd rx) items lines /\
    list_loop localtime act bd rx b (flat_map imsgs items) = (List.concat lines, Ret 0).
Proof. exact client_prints. Qed.
Print Assumptions C125_client_prints.

(* From the manifest on the server to the screen: one backup, *)
Theorem C125_one : forall localtime, (forall s t, localtime s = Some t -> tm_ok t) ->
  forall act bd prx rx man l backup bno b ms,
  picked backup bno l b -> stamped b -> Forall entry_ok (to_list rx (man b)) ->
  recv (fst (do_list_server_work (fun b => list_manifest None rx None (man b) MEnd) ModeOne backup bno l)) ms ->
  exists lines, Forall2 (printed localtime act bd prx) (backup_items rx man b) lines /\
    list_loop localtime act bd prx ls_init ms = (List.concat lines, Ret 0).
Proof. exact one_printed. Qed.
Print Assumptions C125_one.

(* all of them, *)
Theorem C125_many : forall localtime, (forall s t, localtime s = Some t -> tm_ok t) ->
  forall act bd prx rx man l backup bno ms,
  l <> [] -> Forall (fun b => stamped b /\ Forall entry_ok (to_list rx (man b))) l ->
  recv (fst (do_list_server_work (fun b => list_manifest None rx None (man b) MEnd) ModeMany backup bno l)) ms ->
  exists lines, Forall2 (printed localtime act bd prx) (flat_map (backup_items rx man) l) lines /\
    list_loop localtime act bd prx ls_init ms = (List.concat lines, Ret 0).
Proof. exact many_printed. Qed.
Print Assumptions C125_many.

(* which backups there are, *)
Theorem C125_backups : forall localtime, (forall s t, localtime s = Some t -> tm_ok t) ->
  forall act bd prx cb l backup bno ms, Forall stamped l ->
  recv (fst (do_list_server_work cb ModeBackups backup bno l)) ms ->
  exists lines,
    Forall2 (printed localtime act bd prx) (map (fun b => IHead (firstn 63 (v_stamp b ++ extradesc b))) l) lines /\
    list_loop localtime act bd prx ls_init ms =
      (List.concat lines ++ (if is_parse act then [] else match l with [] => str "no backups" ++ [10] | _ => [] end), Ret 0).
Proof. exact backups_printed. Qed.
Print Assumptions C125_backups.

(* that there is no such backup, *)
Theorem C125_missing : forall localtime act bd prx cb l backup bno ms,
  Forall (fun x => one_matches backup bno x = false) l ->
  recv (fst (do_list_server_work cb ModeOne backup bno l)) ms ->
  list_loop localtime act bd prx ls_init ms =
    (if is_parse act then [] else str "backup not found" ++ [10], Ret (-1)).
Proof. exact missing_printed. Qed.
Print Assumptions C125_missing.

(* and what is in a directory, whatever the server sends after the names. *)
Theorem C125_browse : forall localtime, (forall s t, localtime s = Some t -> tm_ok t) ->
  forall act prx rx man l bd backup bno b ms,
  picked backup bno l b -> stamped b ->
  manifest_ok (man b) -> Forall (fun e => epath e <> [] /\ faithful e) (man b) ->
  Forall (fun e => shown e -> kinds_ok e) (man b) ->
  (forall e n, In e (man b) -> child bd (epath e) n -> n <> []) ->
  recv (fst (do_list_server_work (fun b => list_manifest (Some bd) rx None (man b) MEnd) ModeOne backup bno l)) ms ->
  exists items is lines, dir_items bd (man b) items /\
    Forall2 (browse_item bd) (filter (fun it => accepts rx (snd it)) items) is /\
    Forall2 (printed localtime act (Some bd) prx) (IHead (firstn 63 (v_stamp b ++ extradesc b)) :: is) lines /\
    list_loop localtime act (Some bd) prx ls_init ms =
      (List.concat lines, Ret (match bd, items with _ :: _, [] => -1 | _, _ => 0 end)).
Proof. exact browse_printed. Qed.
Print Assumptions C125_browse.

(* A backup to look at, with the manifest of C51, and a clock. *)
Definition clock (s : Z) : option tm := if s =? 1600000000 then Some (mktm 2020 9 13 12 26 40) else None.
Lemma clock_ok : forall s t, clock s = Some t -> tm_ok t.
Proof.
  intros s t H. unfold clock in H. destruct (s =? 1600000000); [|discriminate]. injection H as <-.
  unfold tm_ok. cbn. lia.
Qed.
Definition bk : lbu := mklbu (str "0000001 2020-09-13 12:26:40 +0000") 1 false false true true.

Lemma man_entries : forall rx, Forall entry_ok (to_list rx man).
Proof.
  intros rx. apply Forall_forall. intros e I. apply filter_In in I. destruct I as [I H].
  apply andb_true_iff in H. destruct H as [H _].
  split; [pose proof man_faithful as F; rewrite Forall_forall in F; apply F; exact I|].
  assert (K : forallb okb man = true) by (vm_compute; reflexivity). rewrite forallb_forall in K. specialize (K e I).
  assert (L : forallb (fun e => (path_len e <=? 100)%nat) man = true) by (vm_compute; reflexivity).
  rewrite forallb_forall in L. specialize (L e I). apply Nat.leb_le in L.
  unfold okb in K. unfold path_len in L. split.
  - destruct (ibuf (e_path e)) as [s|]; [|discriminate]. exists s. split; [reflexivity|].
    apply andb_true_iff in K. destruct K as [K N]. apply andb_true_iff in K. destruct K as [K _].
    split; [apply negb_true_iff in N; apply beqb_neq in N; exact N|]. split; [apply cstrb_ok; exact K|]. lia.
  - assert (Z : forallb (fun e => cmd_is_metadata (e_cmd e) || lists_plain (e_cmd e) ||
      (cmd_is_link (e_cmd e) && (icmd (s_link (e_sb e)) =? e_cmd e) && match ibuf (s_link (e_sb e)) with Some (_ :: _) => true | _ => false end)) man = true)
      by (vm_compute; reflexivity).
    rewrite forallb_forall in Z. specialize (Z e I). apply negb_true_iff in H. rewrite H in Z. cbn [orb] in Z.
    apply orb_true_iff in Z. destruct Z as [Z|Z].
    + left. unfold lists_plain in Z. rewrite !orb_true_iff, !Z.eqb_eq in Z. cbn. intuition congruence.
    + right. rewrite !andb_true_iff, Z.eqb_eq in Z. destruct Z as [[Z1 Z2] Z3].
      split; [unfold cmd_is_link in Z1; rewrite orb_true_iff, !Z.eqb_eq in Z1; exact Z1|]. split; [exact Z2|].
      destruct (ibuf (s_link (e_sb e))) as [[|x t]|]; try discriminate. exists (x :: t). split; [reflexivity|discriminate].
Qed.

Fixpoint recv_fn (o : list lout) : list (Z * bytes) :=
  match o with
  | LMsg m :: o => m :: recv_fn o
  | LOver c b n :: o => (c, b ++ 0 :: repeat 88 (n - S (List.length b))) :: recv_fn o
  | LNone _ :: o => recv_fn o
  | [] => []
  end.
Definition recv_b (x : lout) : bool :=
  match x with
  | LMsg (_, b) => negb (beqb b []) && (Z.of_nat (List.length b) <=? 65535)
  | LOver _ b n => (S (List.length b) <=? n)%nat && (Z.of_nat n <=? 65535)
  | LNone _ => true
  end.
Lemma recv_fn_ok : forall o, forallb recv_b o = true -> recv o (recv_fn o).
Proof.
  induction o as [|x o IH]; intros H; cbn [forallb recv_fn] in *; [constructor|].
  apply andb_true_iff in H. destruct H as [H R]. specialize (IH R). destruct x as [[c b]|c b n|c]; cbn [recv_b] in H.
  - apply andb_true_iff in H. destruct H as [N L]. apply negb_true_iff, beqb_neq in N. apply Z.leb_le in L. constructor; auto.
  - apply andb_true_iff in H. destruct H as [N L]. apply Nat.leb_le in N. apply Z.leb_le in L.
    replace (LOver c b n) with (LOver c b (S (List.length b) + List.length (repeat 88 (n - S (List.length b))))).
    + constructor; auto. rewrite repeat_length. lia.
    + rewrite repeat_length. f_equal. lia.
  - constructor. exact IH.
Qed.

Definition work (bd : option bytes) : list lout :=
  fst (do_list_server_work (fun b => list_manifest bd None None man MEnd) ModeOne (str "1") 1 [bk]).

Example C125_witness :
  picked (str "1") 1 [bk] bk /\ stamped bk /\ Forall entry_ok (to_list None man) /\
  recv (work None) (recv_fn (work None)) /\
  list_loop clock AList None None ls_init (recv_fn (work None)) =
    (str "Backup: 0000001 2020-09-13 12:26:40 +0000 (deletable)
/
/home
/home/a
/home/b/c
/home/b/d/e
/home/b-x
/homes
", Ret 0) /\
  list_loop clock ALong None None ls_init (recv_fn (work None)) =
    (str "Backup: 0000001 2020-09-13 12:26:40 +0000 (deletable)
drwxr-xr-x  1  1000  1000      10 2020-09-13 12:26:40 /
drwxr-xr-x  1  1000  1000      10 2020-09-13 12:26:40 /home
-rw-r--r--  1  1000  1000      10 2020-09-13 12:26:40 /home/a
-rw-r--r--  1  1000  1000      10 2020-09-13 12:26:40 /home/b/c
-rw-r--r--  1  1000  1000      10 2020-09-13 12:26:40 /home/b/d/e
lrwxrwxrwx  1  1000  1000      10 2020-09-13 12:26:40 /home/b-x -> /x
drwxr-xr-x  1  1000  1000      10 2020-09-13 12:26:40 /homes
", Ret 0) /\
  recv (work (Some (str "/home"))) (recv_fn (work (Some (str "/home")))) /\
  list_loop clock AList (Some (str "/home")) None ls_init (recv_fn (work (Some (str "/home")))) =
    (str "Backup: 0000001 2020-09-13 12:26:40 +0000 (deletable)
Listing directory: /home
.
a
b
b-x
", Ret 0).
Proof.
  split. { exists [], []. repeat split. constructor. }
  split; [discriminate|]. split; [apply man_entries|]. split; [apply recv_fn_ok; vm_compute; reflexivity|].
  split; [vm_compute; reflexivity|]. split; [vm_compute; reflexivity|].
  split; [apply recv_fn_ok; vm_compute; reflexivity|]. vm_compute. reflexivity.
Qed.

Example C125_browse_witness : manifest_ok man /\ Forall (fun e => epath e <> [] /\ faithful e) man /\
  Forall (fun e => shown e -> kinds_ok e) man /\
  (forall e n, In e man -> child (str "/home") (epath e) n -> n <> []).
Proof.
  split; [exact man_ok|]. split.
  { pose proof man_paths as A. pose proof man_faithful as B. rewrite Forall_forall in *. intros e I. split; auto. }
  split.
  { apply Forall_forall. intros e I S. pose proof (man_entries None) as F. rewrite Forall_forall in F.
    assert (X : In e (to_list None man)).
    { apply filter_In. split; [exact I|]. apply shown_meta in S. rewrite S. reflexivity. }
    destruct (F e X) as (_ & _ & K). exact K. }
  intros e n I C ->. apply name_of_child in C. unfold man in I.
  repeat (destruct I as [<-|I]; [vm_compute in C; discriminate|]). destruct I.
Qed.

(* Cut off anywhere, the entries that came whole are printed.  It is noticed
   exactly when the cut is within an entry. *)
Theorem C125_cut_partial : forall localtime, (forall s t, localtime s = Some t -> tm_ok t) ->
  forall act bd rx items b k, ls_ok b -> Forall item_ok items ->
  exists j lines r, Forall2 (printed localtime act bd rx) (firstn j items) lines /\
    list_loop localtime act bd rx b (firstn k (flat_map imsgs items)) = (List.concat lines, Ret r) /\
    (List.length (flat_map imsgs (firstn j items)) <= k)%nat /\
    (r = 0 <-> firstn k (flat_map imsgs items) = flat_map imsgs (firstn j items)) /\ (r = 0 \/ r = -1).
Proof. exact client_cut. Qed.
Print Assumptions C125_cut_partial.

(* So an exit status of 0 does not say that all was listed: neither when the
   connection is lost *)
Theorem C125_status_refuted : exists items k, Forall item_ok items /\
  (k < List.length (flat_map imsgs items))%nat /\
  snd (list_loop clock AList None None ls_init (firstn k (flat_map imsgs items))) = Ret 0 /\
  fst (list_loop clock AList None None ls_init (firstn k (flat_map imsgs items))) <>
  fst (list_loop clock AList None None ls_init (flat_map imsgs items)).
Proof.
  exists (backup_items None (fun _ => man) bk), 5%nat. split; [apply backup_items_ok; apply man_entries|].
  split; [vm_compute; lia|]. split; [vm_compute; reflexivity|]. vm_compute. discriminate.
Qed.
Print Assumptions C125_status_refuted.

(* nor when the server fails to read the manifest to its end. *)
Theorem C125_server_failure_refuted : exists es ms,
  let r := do_list_server_work (fun _ => list_manifest None None None es MErr) ModeOne (str "1") 1 [bk] in
  snd r = false /\ recv (fst r) ms /\ snd (list_loop clock AList None None ls_init ms) = Ret 0.
Proof.
  exists (firstn 2 man), (recv_fn (fst (do_list_server_work (fun _ => list_manifest None None None (firstn 2 man) MErr) ModeOne (str "1") 1 [bk]))).
  cbv zeta. split; [vm_compute; reflexivity|]. split; [apply recv_fn_ok; vm_compute; reflexivity|]. vm_compute. reflexivity.
Qed.
Print Assumptions C125_server_failure_refuted.

(* Owners from 2^31 on are printed as negative numbers. *)
Theorem C125_owner_refuted : exists a, attrs_ok a /\ st_uid a = 4294967294 /\
  ls_to_buf clock a (str "/f") = str "-rw-r--r--  1    -2  1000      10 2020-09-13 12:26:40 /f".
Proof.
  exists (mkattrs 64769 1 33188 1 4294967294 1000 0 10 4096 8 1600000000 1600000000 1600000000 0 (-1) 0 0 1).
  split; [|split; [reflexivity|vm_compute; reflexivity]].
  unfold attrs_ok, AttribsProofs.u64, i64, u32, i32. cbn. lia.
Qed.
Print Assumptions C125_owner_refuted.

(* A first entry with an empty path is written to a NULL pointer; no other is. *)
Theorem C125_empty_refuted : exists ms, snd (list_loop clock ALong None None ls_init ms) = Undef.
Proof. exists [(CMD_ATTRIBS, []); (CMD_FILE, [])]. vm_compute. reflexivity. Qed.
Print Assumptions C125_empty_refuted.

Theorem C125_buffer : forall localtime, (forall s t, localtime s = Some t -> tm_ok t) ->
  forall b a p l, ls_ok b -> p <> [] -> Z.of_nat (List.length p) <= 2 ^ 32 ->
  exists b', ls_ok b' /\
    ls_long_output localtime b a p l =
      Some (b', ls_to_buf localtime a (cview p) ++ match l with Some x => str " -> " ++ cview x | None => [] end ++ [10]).
Proof. exact ls_long_ok. Qed.
Print Assumptions C125_buffer.

(* A long diff is no longer than a diff. *)
Theorem C125_long_diff_refuted : forall localtime bd rx ms b,
  list_loop localtime ADiffLong bd rx b ms = list_loop localtime ADiff bd rx b ms.
Proof.
  intros lt bd rx. fix IH 1. intros [|[c t] ms] b; [reflexivity|]. cbn [list_loop].
  destruct (c =? CMD_MESSAGE); [reflexivity|]. destruct (c =? CMD_TIMESTAMP); [rewrite IH; reflexivity|].
  destruct (negb (c =? CMD_ATTRIBS)); [reflexivity|]. destruct (attribs_decode (cview t) zero_attrs) as [a|]; [|reflexivity].
  destruct ms as [|[pc p] ms]; [reflexivity|]. destruct (lists_plain pc).
  - cbn [list_item is_long is_parse]. rewrite IH. reflexivity.
  - destruct (cmd_is_link pc); [|apply IH]. destruct ms as [|[lc l] ms]; [reflexivity|].
    destruct (negb (lc =? pc)); [reflexivity|]. cbn [list_item is_long is_parse]. rewrite IH. reflexivity.
Qed.
Print Assumptions C125_long_diff_refuted.

(* ---------- C126 ---------- *)

(* The parseable list of a backup, given back as the list of what to restore,
   selects exactly the entries listed (with their metadata). *)
Theorem C126_relist : forall localtime, (forall s t, localtime s = Some t -> tm_ok t) ->
  forall bd prx rx man l backup bno b ms c o fuel,
  picked backup bno l b -> stamped b -> manifest_ok (man b) -> Forall entry_ok (to_list rx (man b)) ->
  recv (fst (do_list_server_work (fun b => list_manifest None rx None (man b) MEnd) ModeOne backup bno l)) ms ->
  w_list c = true -> (List.length (man b) < fuel)%nat -> noerr o ->
  exists lines,
    read_all fuel 1 (mkf (fst (list_loop localtime AParse bd prx ls_init ms)) o) =
      (map (fun p => (CMD_FILE, p)) lines, Clean) /\
    chosen (fun e => allowed c e /\
              exists x, In x (man b) /\ shown x /\ accepts rx (epath x) = true /\ r_path e = epath x)
      (map as_rent (man b)) (select c false lines (map as_rent (man b))).
Proof. exact relist. Qed.
Print Assumptions C126_relist.

Definition rc : rconf := mkrconf true false true false [] None.
Definition has_b (p : bytes) : bool := existsb (fun c => c =? 98) p.
Definition work_b : list lout :=
  fst (do_list_server_work (fun b => list_manifest None (Some has_b) None man MEnd) ModeOne (str "1") 1 [bk]).
Example C126_witness : manifest_ok man /\ w_list rc = true /\ Forall entry_ok (to_list (Some has_b) man) /\
  recv work_b (recv_fn work_b) /\
  fst (list_loop clock AParse None None ls_init (recv_fn work_b)) =
    str "f0009/home/b/c
f000B/home/b/d/e
f0009/home/b-x
" /\
  map r_path (select rc false [str "/home/b/c"; str "/home/b/d/e"; str "/home/b-x"] (map as_rent man)) =
    [str "/home/b/c"; str "/home/b/d/e"; str "/home/b-x"].
Proof.
  split; [exact man_ok|]. split; [reflexivity|]. split; [apply man_entries|].
  split; [apply recv_fn_ok; vm_compute; reflexivity|]. vm_compute. auto.
Qed.

(* Not so with a directory: the lengths are those of the whole paths, so that
   what is read back is no path of the backup. *)
Theorem C126_browse_refuted : exists ms,
  recv (work (Some (str "/home"))) ms /\
  (forall fuel, fst (read_all fuel 1 (mkf (fst (list_loop clock AParse (Some (str "/home")) None ls_init ms)) [])) <> [] ->
     exists m, In m (fst (read_all fuel 1 (mkf (fst (list_loop clock AParse (Some (str "/home")) None ls_init ms)) []))) /\
       forall e, In e man -> snd m <> epath e).
Proof.
  exists (recv_fn (work (Some (str "/home")))). split; [apply recv_fn_ok; vm_compute; reflexivity|].
  intros [|fuel]; [intros H; exfalso; apply H; reflexivity|]. intros _.
  set (w := fst (list_loop clock AParse (Some (str "/home")) None ls_init (recv_fn (work (Some (str "/home")))))).
  assert (W : exists m f', fill_from_fzp 1 (mkf w []) = FMsg m f' /\ forallb (fun e => negb (beqb (snd m) (epath e))) man = true).
  { vm_compute. do 2 eexists. split; reflexivity. }
  destruct W as (m & f' & E & N). exists m. cbn [read_all]. rewrite E. destruct (read_all fuel 1 f') as [r z].
  split; [left; reflexivity|]. intros e I. rewrite forallb_forall in N. specialize (N e I).
  apply negb_true_iff, beqb_neq in N. exact N.
Qed.
Print Assumptions C126_browse_refuted.

(* ---------- C127 ---------- *)

(* The server does what was asked for. *)
Theorem C127_understood_partial : forall w e p q, wish_ok w -> plain w -> grants e p -> ask w = Some q ->
  done (run_action e p (mkreq true q)) = [meant w].
Proof. exact understood. Qed.
Print Assumptions C127_understood_partial.

Definition env0 : env := mkenv false LGot RNone 0 0 true true.
Definition all_perms : perms := mkp true true true true true true true.
Definition w1 : wish := WRestore false true (Some (str "3")) (Some (str "^/home:/x")).
Example C127_witness : wish_ok w1 /\ plain w1 /\ grants env0 all_perms /\
  ask w1 = Some (str "restore restore_list 3:^/home:/x") /\
  meant w1 = DidRestore true (str "3") (Some (str "^/home:/x")) /\
  ask (WDelete (Some (str "12"))) = Some (str "Delete 12") /\
  ask (WBrowse AList None (str "/home/")) = Some (str "listb :/home/").
Proof.
  split; [exact I|]. split.
  { split; [vm_compute; lia|]. split; [vm_compute; lia|]. intros v b r H. discriminate. }
  split; [repeat split|]. vm_compute. auto.
Qed.

(* Both a directory and a regular expression: nothing is asked. *)
Theorem C127_both : forall act b b2 d r, lists act -> list_request act b b2 (Some d) (Some r) = None.
Proof. intros act b b2 d r [->|[->| ->]]; reflexivity. Qed.
Print Assumptions C127_both.

(* Trailing slashes of the directory go away, except for the root. *)
Theorem C127_slashes : forall s,
  (exists t k, s = t ++ repeat 47 k /\ t <> [] /\ last t 0 <> 47 /\ strip_slashes s = t) \/
  (exists k, s = repeat 47 (S k) /\ strip_slashes s = [47]) \/ (s = [] /\ strip_slashes s = []).
Proof. exact strip_spec. Qed.
Print Assumptions C127_slashes.
Example C127_slashes_witness : strip_slashes (str "/home//") = str "/home" /\ strip_slashes (str "//") = str "/".
Proof. vm_compute. auto. Qed.

(* A long regular expression is cut: other files are restored than asked for. *)
Theorem C127_long_refuted : exists w q, wish_ok w /\ ~ In 58 (backup_of w) /\ grants env0 all_perms /\ ask w = Some q /\
  done (run_action env0 all_perms (mkreq true q)) = [DidRestore false (str "1") (Some (repeat 97 501))] /\
  meant w = DidRestore false (str "1") (Some (repeat 97 501 ++ str "/only-this")).
Proof.
  exists (WRestore false false (Some (str "1")) (Some (repeat 97 501 ++ str "/only-this"))).
  eexists. split; [exact I|]. split; [vm_compute; lia|]. split; [repeat split|]. split; [reflexivity|].
  split; [vm_compute; reflexivity|reflexivity].
Qed.
Print Assumptions C127_long_refuted.

(* A backup given by its time is not understood, as that has colons in it. *)
Theorem C127_stamp_refuted : exists w q, wish_ok w /\ grants env0 all_perms /\ ask w = Some q /\
  backup_of w = v_stamp bk /\ rest_of w = [] /\
  done (run_action env0 all_perms (mkreq true q)) = [DidList (str "0000001 2020-09-13 12") (Some (str "26:40 +0000:"))].
Proof.
  exists (WList AList (Some (v_stamp bk)) None). eexists. split; [left; reflexivity|]. split; [repeat split|].
  split; [reflexivity|]. split; [reflexivity|]. split; [reflexivity|]. vm_compute. reflexivity.
Qed.
Print Assumptions C127_stamp_refuted.
