(* C46: where a restore on the client makes and removes entries, writes data and
   sets attributes. *)
From Verif Require Import Bytes PathcmpModel PathcmpProofs CmdModel RestoreModel AuthModel RcliModel RcliProofs.

(* Into whatever directory D a restore goes, whatever the server sends, whatever
   links are in D and whichever calls fail: every entry that is made or removed
   is in D or in a directory below it. *)
Theorem C46_entries_inside_partial : forall n o D its s, wf (r_fs s) -> r_fs s D = Some ODir -> r_log s = [] -> o_strip_path o = None ->
  Forall (fun it => cstr (i_path it) /\ socket_fits D it) its -> entries_inside D (r_log (restore_run n o (text D) its s)).
Proof. exact restore_stays_inside. Qed.
(* The same without the log: whatever is not below D is as it was. *)
Theorem C46_outside_unchanged_partial : forall n o D its s, wf (r_fs s) -> r_fs s D = Some ODir -> r_log s = [] -> o_strip_path o = None ->
  Forall (fun it => cstr (i_path it) /\ socket_fits D it) its ->
  forall l, (forall e, e <> [] -> l <> D ++ e) -> r_fs (restore_run n o (text D) its s) l = r_fs s l.
Proof. exact restore_outside_unchanged. Qed.
(* Data are never written into a file that was there before the restore, under
   this or any other name, unless the server sends data for an entry with the
   type of a directory. *)
Theorem C46_data_new_partial : forall n o dir its s, Forall plain_data its -> r_log s = [] -> (forall l i, r_fs s l = Some (OFile i) -> i < r_next s) ->
  forall i l, In (EData i) (r_log (restore_run n o dir its s)) -> r_fs s l <> Some (OFile i).
Proof. exact restore_data_new. Qed.
(* Owners, modes, times and extra attributes are set on D and below it, if the
   entries are of the types that an honest server sends. *)
Theorem C46_attributes_inside_partial : forall n o D its s, wf (r_fs s) -> r_fs s D = Some ODir -> r_log s = [] -> o_strip_path o = None ->
  Forall (fun it => cstr (i_path it) /\ tame o it /\ socket_fits D it) its -> attrs_inside D (r_log (restore_run n o (text D) its s)).
Proof. exact restore_attrs_inside. Qed.
(* What the check lets through, on its own: the path that is used begins with the
   real path of D, and goes through no link. *)
Theorem C46_check : forall n fs D full F, wf fs -> fs D = Some ODir -> D <> [] -> cstr full ->
  Forall (fun c => c <> [dot] /\ c <> [dot; dot]) (comps full) -> canonicalise n fs (text D) full = Some F ->
  exists ms, comps F = [] :: D ++ ms /\ cstr F /\ held fs D ms.
Proof. exact canonicalise_held. Qed.

(* ---------- a case ---------- *)
(* A tree from a list of what is in it. *)
Fixpoint tree (es : list (loc * obj)) (l : loc) : option obj :=
  match es with
  | [] => match l with [] => Some ODir | _ => None end
  | (x, o) :: r => if loc_eqb l x then Some o else tree r l
  end.
Definition treeok (es : list (loc * obj)) : Prop := forall l c o, tree es (l ++ [c]) = Some o -> tree es l = Some ODir /\ proper c.
Definition properb (c : bytes) : bool := negb (beqb c []) && cstrb c && negb (has_byte 47 c) && negb (is_dot c) && negb (is_dotdot c).
Lemma properb_ok : forall c, properb c = true -> proper c.
Proof.
  intros c H. unfold properb in H. repeat (apply andb_true_iff in H; destruct H as [H ?]).
  repeat match goal with X : negb _ = true |- _ => apply negb_true_iff in X end. unfold is_dot, is_dotdot in *.
  repeat match goal with X : beqb _ _ = false |- _ => apply beqb_neq in X end.
  split; [assumption|]. split; [apply cstrb_ok; assumption|]. split; [|split; assumption].
  intros I. match goal with X : has_byte 47 c = false |- _ => clear -X I; induction c as [|x c IH]; [destruct I|]; cbn in X end.
  destruct (x =? 47) eqn:E; [discriminate|]. destruct I as [I|I]; [subst x; discriminate|auto].
Qed.
Definition entry_okb (all : list (loc * obj)) (e : loc * obj) : bool :=
  match rev (fst e) with
  | [] => match snd e with ODir => true | _ => false end
  | c :: r => properb c && match tree all (rev r) with Some ODir => true | _ => false end
  end.
Lemma tree_wf : forall es, forallb (entry_okb es) es = true -> wf (tree es).
Proof.
  intros es H. assert (G : forall xs, forallb (entry_okb es) xs = true -> tree xs [] = Some ODir /\
    forall l c o, tree xs (l ++ [c]) = Some o -> tree es l = Some ODir /\ proper c).
  { induction xs as [|[x o] xs IH]; intros B.
    - split; [reflexivity|]. intros l c o E. cbn in E. destruct (l ++ [c]) eqn:Q; [destruct l; discriminate|discriminate].
    - cbn [forallb] in B. apply andb_true_iff in B. destruct B as [B1 B2]. destruct (IH B2) as [I1 I2]. split.
      + cbn [tree]. destruct (loc_eqb [] x) eqn:Q; [|exact I1]. apply loc_eqb_eq in Q. subst x. cbn in B1. destruct o; [reflexivity| |]; discriminate.
      + intros l c o' E. cbn [tree] in E. destruct (loc_eqb (l ++ [c]) x) eqn:Q; [|eapply I2; exact E]. apply loc_eqb_eq in Q. subst x.
        unfold entry_okb in B1. cbn [fst] in B1. rewrite rev_app_distr in B1. cbn [rev app] in B1. rewrite rev_involutive in B1.
        apply andb_true_iff in B1. destruct B1 as [P T]. split; [|apply properb_ok; exact P]. destruct (tree es l) as [[| |]|]; congruence. }
  destruct (G es H) as [A B]. split; [exact A|exact B].
Qed.

(* /r is restored into; /r/lnk leads out to /out, which has a file; /r/old is a
   second name for that file. *)
Definition fs0 : list (loc * obj) :=
  [ ([str "r"], ODir); ([str "out"], ODir); ([str "out"; str "secret"], OFile 1);
    ([str "r"; str "lnk"], OLnk (str "/out")); ([str "r"; str "in"], OLnk (str "sub"));
    ([str "r"; str "sub"], ODir); ([str "r"; str "old"], OFile 1); ([str "r"; str "d"], OLnk (str "gone")) ].
Definition s0 : rst := mk_rst (tree fs0) 2 [] [].
Definition o0 := mk_opts 0 None false.
Definition o1 := mk_opts 0 None true.
Definition D0 : loc := [str "r"].
Example ex_wf : wf (r_fs s0) /\ r_fs s0 D0 = Some ODir /\ r_log s0 = [] /\ (forall l i, r_fs s0 l = Some (OFile i) -> i < r_next s0).
Proof.
  split; [apply tree_wf; vm_compute; reflexivity|]. split; [vm_compute; reflexivity|]. split; [reflexivity|].
  intros l i H. unfold s0, fs0, r_fs, r_next, tree in *.
  repeat match type of H with (if ?b then _ else _) = _ => destruct b; [try discriminate; injection H as <-; lia|] end. destruct l; discriminate.
Qed.
Definition file (p : string) : item := mk_item CMD_FILE (str p) 0 [] TReg true [] true.
Definition dirent (p : string) : item := mk_item CMD_DIRECTORY (str p) 0 [] TDir false [] true.
Definition soft (p t : string) : item := mk_item CMD_SOFT_LINK (str p) CMD_SOFT_LINK (str t) TLnk false [] true.
(* A backup with a link out and a file behind it, a file through a link inside, a
   new directory, dots, a file over a name that has another outside. *)
Definition its0 : list item :=
  [ soft "/x" "/out"; file "/x/secret"; file "/lnk/secret"; file "/in/a"; dirent "/n/m"; file "/n/m/b"; file "/../out/c"; file "/old"; file "/d/e";
    mk_item CMD_SPECIAL (str "/fifo") 0 [] TFifo false [] true;
    mk_item CMD_METADATA (str "/old") 0 [] TReg false [false] true ].
Example ex_items : Forall (fun it => cstr (i_path it) /\ tame o0 it /\ socket_fits D0 it) its0 /\
  Forall (fun it => cstr (i_path it) /\ socket_fits D0 it) its0 /\ Forall plain_data its0.
Proof.
  assert (K : forall p, cstrb (str p) = true -> cstr (str p)) by (intros p H; apply cstrb_ok; exact H).
  unfold its0, file, dirent, soft, tame, socket_fits, plain_data. split; [|split].
  - repeat (constructor; [split; [apply K; vm_compute; reflexivity|split; [split; [intros H; first [reflexivity|discriminate H]|split;
      [intros H; first [discriminate H|split; [discriminate|reflexivity]]|repeat constructor]]|discriminate]]|]). constructor.
  - repeat (constructor; [split; [apply K; vm_compute; reflexivity|discriminate]|]). constructor.
  - repeat (constructor; [cbn; intros; congruence|]). constructor.
Qed.
(* With --overwrite, the entries that get through are made where they should be:
   /x, /sub/a, /n, /n/m, /n/m/b, /old again, and nothing in /out. *)
Example ex_run : forall l, In l [[str "r"; str "x"]; [str "r"; str "sub"; str "a"]; [str "r"; str "n"; str "m"; str "b"]; [str "r"; str "fifo"]] ->
  r_fs (restore_run 40 o1 (str "/r") its0 s0) l <> None.
Proof. intros l H. repeat (destruct H as [<-|H]; [vm_compute; discriminate|]). destruct H. Qed.
Example ex_run_old : r_fs (restore_run 40 o1 (str "/r") its0 s0) [str "r"; str "old"] <> Some (OFile 1) /\
  r_fs (restore_run 40 o1 (str "/r") its0 s0) [str "out"; str "secret"] = Some (OFile 1) /\
  r_fs (restore_run 40 o1 (str "/r") its0 s0) [str "r"; str "d"] = Some (OLnk (str "gone")).
Proof. split; [vm_compute; discriminate|]. split; vm_compute; reflexivity. Qed.
Example ex_text : text D0 = str "/r".
Proof. vm_compute. reflexivity. Qed.
Example ex_log : exists i, In (EData i) (r_log (restore_run 40 o1 (str "/r") its0 s0)) /\ In (EAttr [str "r"; str "x"]) (r_log (restore_run 40 o1 (str "/r") its0 s0)).
Proof. exists 2. vm_compute. tauto. Qed.
Example ex_C46_check : canonicalise 40 (tree fs0) (text D0) (str "/r/in/a/b") = Some (str "/r/sub/a/b") /\
  canonicalise 40 (tree fs0) (text D0) (str "/r/lnk/b") = None /\ canonicalise 40 (tree fs0) (text D0) (str "/rr") = None.
Proof. split; [vm_compute; reflexivity|]. split; vm_compute; reflexivity. Qed.

(* ---------- where it goes wrong ---------- *)
(* The log of a run on one or two entries. *)
Definition log1 (o : opts) (its : list item) : list event := r_log (restore_run 40 o (str "/r") its s0).
(* A soft link sent with the type of a file: chmod() follows it out of the
   directory. *)
Theorem C46_attributes_soft_link_refuted : exists its,
  Forall (fun it => cstr (i_path it) /\ i_cmd it = CMD_SOFT_LINK) its /\ In (EAttr [str "out"; str "secret"]) (log1 o0 its).
Proof.
  exists [mk_item CMD_SOFT_LINK (str "/y") CMD_SOFT_LINK (str "/out/secret") TReg false [] true]. split.
  - constructor; [split; [apply cstrb_ok; vm_compute; reflexivity|reflexivity]|constructor].
  - vm_compute. tauto.
Qed.
(* A hard link whose text has '..' in it, which is never checked: the file outside
   gets a name inside, where its attributes are then changed. *)
Theorem C46_hard_link_refuted : exists it, has_dot_component (i_path it) = false /\ i_cmd it = CMD_HARD_LINK /\ i_type it = TReg /\
  r_fs (restore_run 40 o0 (str "/r") [it] s0) [str "r"; str "z"] = Some (OFile 1) /\ r_fs s0 [str "out"; str "secret"] = Some (OFile 1) /\
  In (EAttr [str "r"; str "z"]) (log1 o0 [it]).
Proof.
  exists (mk_item CMD_HARD_LINK (str "/z") CMD_HARD_LINK (str "/../out/secret") TReg false [] true).
  split; [vm_compute; reflexivity|]. split; [reflexivity|]. split; [reflexivity|]. split; [vm_compute; reflexivity|]. split; [vm_compute; reflexivity|]. vm_compute. tauto.
Qed.
(* ... and through a link that the same server sent before, without '..'. *)
Theorem C46_hard_link_through_soft_link_refuted : exists its, Forall (fun it => has_dot_component (i_link it) = false) its /\
  r_fs (restore_run 40 o0 (str "/r") its s0) [str "r"; str "z"] = Some (OFile 1).
Proof.
  exists [soft "/w" "/out"; mk_item CMD_HARD_LINK (str "/z") CMD_HARD_LINK (str "/w/secret") TReg false [] true].
  split; [constructor; [vm_compute; reflexivity|constructor; [vm_compute; reflexivity|constructor]]|vm_compute; reflexivity].
Qed.
(* Data for an entry with the type of a directory: the file is opened as it is
   and written into, so that a hard link out, sent before, is written through:
   both entries have ordinary paths. *)
Theorem C46_data_refuted : exists its, Forall (fun it => has_dot_component (i_path it) = false) its /\
  r_fs s0 [str "out"; str "secret"] = Some (OFile 1) /\ In (EData 1) (log1 o0 its).
Proof.
  exists [mk_item CMD_HARD_LINK (str "/z") CMD_HARD_LINK (str "/../out/secret") TReg false [] true;
          mk_item CMD_FILE (str "/z") 0 [] TDir true [] true].
  split; [constructor; [vm_compute; reflexivity|constructor; [vm_compute; reflexivity|constructor]]|]. split; [vm_compute; reflexivity|]. vm_compute. tauto.
Qed.
(* With --overwrite, a fifo over a link to the outside: that it is there already is
   taken as done, and chmod() follows the link. *)
Theorem C46_attributes_special_refuted : exists it, i_cmd it = CMD_SPECIAL /\ i_type it = TFifo /\ In (EAttr [str "out"]) (log1 o1 [it]).
Proof.
  exists (mk_item CMD_SPECIAL (str "/lnk") 0 [] TFifo false [] true). split; [reflexivity|]. split; [reflexivity|]. vm_compute. tauto.
Qed.
(* An ACL for a link: acl_set_file() follows it. *)
Theorem C46_attributes_acl_refuted : exists it, i_cmd it = CMD_METADATA /\ i_meta it = [true] /\ In (EAttr [str "out"]) (log1 o0 [it]).
Proof.
  exists (mk_item CMD_METADATA (str "/lnk") 0 [] TLnk false [true] true). split; [reflexivity|]. split; [reflexivity|]. vm_compute. tauto.
Qed.
(* A socket, when the path of the directory is longer than sun_path: it is made at
   a cut path, beside the directory. *)
Definition long : bytes := repeat 97 120.
Definition s2 : rst := mk_rst (tree [([long], ODir)]) 2 [] [].
Theorem C46_socket_refuted : wf (r_fs s2) /\ r_fs s2 [long] = Some ODir /\ exists it, i_cmd it = CMD_SPECIAL /\ i_type it = TSock /\
  ~ entries_inside [long] (r_log (restore_run 40 o0 (text [long]) [it] s2)).
Proof.
  split; [apply tree_wf; vm_compute; reflexivity|]. split; [vm_compute; reflexivity|].
  exists (mk_item CMD_SPECIAL (str "/s") 0 [] TSock false [] true). split; [reflexivity|]. split; [reflexivity|].
  intros H. assert (I : In (EName [] (repeat 97 106)) (r_log (restore_run 40 o0 (text [long]) [mk_item CMD_SPECIAL (str "/s") 0 [] TSock false [] true] s2))) by (vm_compute; tauto).
  destruct (H _ _ I) as [e E]. discriminate.
Qed.
(* A path to be stripped that joins two dots: the attributes of the directory above
   are set. *)
Theorem C46_strip_path_refuted : exists it, has_dot_component (i_path it) = false /\
  In (EAttr []) (r_log (restore_run 40 (mk_opts 0 (Some (str "tmp")) false) (str "/r") [it] s0)).
Proof. exists (dirent "/.tmp."). split; [vm_compute; reflexivity|]. vm_compute. tauto. Qed.

Print Assumptions C46_entries_inside_partial.
Print Assumptions C46_outside_unchanged_partial.
Print Assumptions C46_data_new_partial.
Print Assumptions C46_attributes_inside_partial.
Print Assumptions C46_check.
Print Assumptions C46_attributes_soft_link_refuted.
Print Assumptions C46_hard_link_refuted.
Print Assumptions C46_hard_link_through_soft_link_refuted.
Print Assumptions C46_data_refuted.
Print Assumptions C46_attributes_special_refuted.
Print Assumptions C46_attributes_acl_refuted.
Print Assumptions C46_socket_refuted.
Print Assumptions C46_strip_path_refuted.

(* ---------- C58 ---------- *)
(* Without --overwrite, whatever was there before is still there afterwards, the
   same object: nothing is removed or replaced. *)
Theorem C58_nothing_replaced_partial : forall n o D its s, wf (r_fs s) -> r_fs s D = Some ODir -> r_log s = [] -> D <> [] -> o_strip_path o = None -> o_overwrite o = false ->
  Forall (fun it => cstr (i_path it) /\ polite it /\ socket_fits D it) its ->
  forall l x, r_fs s l = Some x -> r_fs (restore_run n o (text D) its s) l = Some x.
Proof. exact restore_keeps. Qed.
Example ex_C58 : D0 <> [] /\ Forall (fun it => cstr (i_path it) /\ polite it /\ socket_fits D0 it) its0 /\
  r_fs (restore_run 40 o0 (str "/r") its0 s0) [str "r"; str "old"] = Some (OFile 1) /\
  r_fs (restore_run 40 o0 (str "/r") its0 s0) [str "r"; str "n"; str "m"; str "b"] <> None.
Proof.
  assert (K : forall p, cstrb (str p) = true -> cstr (str p)) by (intros p H; apply cstrb_ok; exact H).
  split; [discriminate|]. split; [|split; vm_compute; [reflexivity|discriminate]].
  unfold its0, file, dirent, soft, polite, socket_fits.
  repeat (constructor; [split; [apply K; vm_compute; reflexivity|split; [split; [intros H; first [discriminate H|discriminate]|
    intros H; first [discriminate|destruct H as [H|H]; discriminate H]]|discriminate]]|]). constructor.
Qed.
(* A soft link sent with the type of a directory replaces a file, without
   --overwrite; a file with the type of a fifo too. *)
Theorem C58_replaced_refuted : exists it1 it2, i_cmd it1 = CMD_SOFT_LINK /\ i_cmd it2 = CMD_FILE /\ o_overwrite o0 = false /\
  r_fs s0 [str "r"; str "old"] = Some (OFile 1) /\
  r_fs (restore_run 40 o0 (str "/r") [it1] s0) [str "r"; str "old"] = Some (OLnk (str "t")) /\
  r_fs (restore_run 40 o0 (str "/r") [it2] s0) [str "r"; str "old"] = Some (OFile 2).
Proof.
  exists (mk_item CMD_SOFT_LINK (str "/old") CMD_SOFT_LINK (str "t") TDir false [] true), (mk_item CMD_FILE (str "/old") 0 [] TFifo true [] true).
  split; [reflexivity|]. split; [reflexivity|]. split; [reflexivity|]. split; [vm_compute; reflexivity|]. split; vm_compute; reflexivity.
Qed.

Print Assumptions C58_nothing_replaced_partial.
Print Assumptions C58_replaced_refuted.
