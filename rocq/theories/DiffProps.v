(* Property C64: comparing two backups. *)
From Coq Require Import Sorting.Sorted.
From Verif Require Import Bytes PathcmpModel CmdModel CmdProofs AttribsModel SbufModel MergeModel MergeProofs AuthModel BuModel Phase2Model DiffModel DiffProofs.

Theorem C64_diff_partial : forall l b1 b2 s1 s2, NoDup (map b_no l) -> In b1 l -> In b2 l -> b_no b1 <> b_no b2 ->
  b_no b1 <> 0 -> b_no b2 <> 0 -> s1 <> [] -> s2 <> [] -> strtoul10 s1 = b_no b1 -> strtoul10 s2 = b_no b2 ->
  forall l1 l2, b_man b1 = (l1, true) -> b_man b2 = (l2, true) ->
  good (l1 ++ l2) -> StronglySorted before l1 -> StronglySorted before l2 -> Forall rooted (l1 ++ l2) ->
  exists o, do_diff_server l (Some s1) (Some s2) =
      ((CMD_TIMESTAMP, firstn 63 (b_ts b1)) :: (CMD_TIMESTAMP, firstn 63 (b_ts b2)) :: flat_map line o, true)
    /\ (forall e, In (Minus, e) o <-> In e l1 /\ differs l2 e)
    /\ (forall e, In (Plus, e) o <-> In e l2 /\ differs l1 e)
    /\ StronglySorted line_lt o.
Proof. exact server_diff. Qed.
Theorem C64_error : forall l s1 s2,
  ~ (exists b1 b2, In b1 l /\ In b2 l /\ asks s1 (b_no b1) /\ asks s2 (b_no b2) /\ b_no b1 <> 0 /\ b_no b2 <> 0 /\ b_no b1 <> b_no b2) ->
  exists m, do_diff_server l s1 s2 = ([(CMD_ERROR, m)], false).
Proof. exact server_error. Qed.
Theorem C64_unread : forall l s1 s2 b1 b2, NoDup (map b_no l) -> In b1 l -> In b2 l -> asks s1 (b_no b1) -> asks s2 (b_no b2) ->
  snd (b_man b1) && snd (b_man b2) = false -> snd (do_diff_server l s1 s2) = false.
Proof. exact server_unread. Qed.

(* Two manifests. *)
Definition at_ (mtime : Z) : attrs := mkattrs 64769 1 33188 1 1000 1000 0 10 4096 8 1600000000 mtime 1600000000 0 (-1) 0 0 1.
Definition mk (c : Z) (p : string) (mtime : Z) : ent :=
  mkent (mksbuf (mkiobuf c (Some (str p))) (mkiobuf CMD_ATTRIBS (Some (str "A")))
           (if cmd_is_link c then mkiobuf c (Some (str "/x")) else mkiobuf CMD_ERROR None)
           (mkiobuf CMD_ERROR None) (mkiobuf 116 None) false false) (at_ mtime).
Definition old : list ent := [mk 100 "/a" 5; mk 102 "/a/b" 5; mk 102 "/a/c" 5; mk 108 "/a/d" 5].
Definition new : list ent := [mk 100 "/a" 5; mk 102 "/a/b" 6; mk 108 "/a/d" 5; mk 102 "/a/e" 5].
Definition store : list dbu := [mkdbu 1 (str "0000001 t") (old, true); mkdbu 2 (str "0000002 u") (new, true)].
Lemma both_good : good (old ++ new).
Proof.
  split.
  - apply Forall_forall. intros x I. apply in_map_iff in I. destruct I as (e & <- & I).
    assert (K : forallb (fun e => match ibuf (s_path (e_sb e)) with Some s => cstrb s | None => false end) (old ++ new) = true) by (vm_compute; reflexivity).
    rewrite forallb_forall in K. specialize (K e I). unfold iraw.
    destruct (ibuf (s_path (e_sb e))) as [s|]; [|exact Logic.I]. apply cstr_raw. apply cstrb_ok. exact K.
  - left. intros x I. apply in_map_iff in I. destruct I as (e & <- & I).
    repeat (destruct I as [<-|I]; [vm_compute; discriminate|]); destruct I.
Qed.
Lemma sorted_by : forall l, incl l (old ++ new) ->
  (fix go (l : list ent) := match l with [] => true | a :: r => forallb (fun b => sbuf_pathcmp (e_sb a) (e_sb b) <? 0) r && go r end) l = true ->
  StronglySorted before l.
Proof.
  induction l as [|a r IH]; intros I H; [constructor|]. apply andb_prop in H. destruct H as [H1 H2].
  constructor; [apply IH; [intros x Hx; apply I; right; exact Hx|exact H2]|].
  apply Forall_forall. intros b Ib. rewrite forallb_forall in H1. specialize (H1 b Ib). apply Z.ltb_lt in H1.
  apply (cmp3 (old ++ new) both_good a b); [apply I; left; reflexivity|apply I; right; exact Ib|exact H1].
Qed.
Example C64_witness :
  (NoDup (map b_no store) /\ good (old ++ new) /\ StronglySorted before old /\ StronglySorted before new /\ Forall rooted (old ++ new)) /\
  do_diff_server store (Some (str "1")) (Some (str "2")) =
  ([(CMD_TIMESTAMP, str "0000001 t"); (CMD_TIMESTAMP, str "0000002 u");
    (CMD_ATTRIBS, str "A"); (102, str "- /a/b"); (CMD_ATTRIBS, str "A"); (102, str "+ /a/b");
    (CMD_ATTRIBS, str "A"); (102, str "- /a/c"); (CMD_ATTRIBS, str "A"); (102, str "+ /a/e")], true) /\
  snd (do_diff_server store (Some (str "1")) (Some (str "3"))) = false.
Proof.
  split.
  - split. { vm_compute. repeat constructor; cbn; intuition discriminate. }
    split; [exact both_good|]. split; [apply sorted_by; [apply incl_appl, incl_refl|vm_compute; reflexivity]|].
    split; [apply sorted_by; [apply incl_appr, incl_refl|vm_compute; reflexivity]|].
    repeat (constructor; [unfold rooted; cbn; eexists; eexists; eexists; split; [reflexivity|vm_compute; reflexivity]|]). constructor.
  - split; vm_compute; reflexivity.
Qed.
(* A path without a slash in front gets one, and the root loses its own: C:/x is
   shown as /C:/x and / as nothing. *)
Theorem C64_text_refuted : exists e1 e2,
  s_path (e_sb e1) = mkiobuf 102 (Some (str "C:/x")) /\ In (102, str "- /C:/x") (send_diff (Minus, e1)) /\ ~ In (102, str "- C:/x") (send_diff (Minus, e1)) /\
  s_path (e_sb e2) = mkiobuf 100 (Some (str "/")) /\ In (100, str "+ ") (send_diff (Plus, e2)) /\ ~ In (100, str "+ /") (send_diff (Plus, e2)).
Proof.
  exists (mk 102 "C:/x" 1), (mk 100 "/" 1). split; [reflexivity|]. split; [vm_compute; tauto|]. split; [vm_compute; intuition discriminate|].
  split; [reflexivity|]. split; [vm_compute; tauto|]. vm_compute; intuition discriminate.
Qed.

Print Assumptions C64_diff_partial.
Print Assumptions C64_error.
Print Assumptions C64_unread.
Print Assumptions C64_text_refuted.
