(* Phase 2 of a backup: C17 (every scanned entry once), C18 (what is carried
   over), C54 (what is received and the manifest that results). *)
From Coq Require Import Permutation Sorted.
From Verif Require Import Bytes PathcmpModel PathcmpProofs CmdModel CmdProofs AttribsModel FrameModel SbufModel MergeModel MergeProofs DpthModel DpthProofs AuthModel Phase2Model Phase2Proofs.

Theorem C17_each_once : forall tree old_regular link_ok open_ok allents cf p1 cur a r l evs o,
  hm_ok allents a ->
  p2_run tree old_regular link_ok open_ok allents cf (start p1 cur a) r l = (evs, o) ->
  exists rest, map e_path (handled evs) ++ rest = map e_path p1 /\ (In EEnd evs -> rest = []).
Proof. exact each_once. Qed.
Print Assumptions C17_each_once.

Theorem C17_fates : forall tree old_regular link_ok open_ok allents cf p1 cur a r l evs o,
  hm_ok allents a -> well (p1 ++ match cur with Some c => c | None => [] end) ->
  sorted p1 -> sorted (match cur with Some c => c | None => [] end) ->
  p2_run tree old_regular link_ok open_ok allents cf (start p1 cur a) r l = (evs, o) ->
  exists done rest, p1 = done ++ rest /\ (In EEnd evs -> rest = []) /\
    Forall2 (fate old_regular link_ok open_ok allents cf (match cur with Some c => c | None => [] end)) done (mains evs).
Proof. exact fates. Qed.
Print Assumptions C17_fates.

(* Counted as deleted, in order: exactly the old entries no new entry builds on. *)
Theorem C17_deleted_exact : forall tree old_regular link_ok open_ok allents cf p1 cur a r l evs o,
  hm_ok allents a -> well (p1 ++ match cur with Some c => c | None => [] end) ->
  sorted p1 -> sorted (match cur with Some c => c | None => [] end) ->
  p2_run tree old_regular link_ok open_ok allents cf (start p1 cur a) r l = (evs, o) -> In EEnd evs ->
  kept_by evs (match cur with Some c => c | None => [] end) (deleted evs).
Proof. exact deleted_exact. Qed.
Print Assumptions C17_deleted_exact.

Theorem C17_deleted_refuted : exists p1 cur l evs s r,
  well (p1 ++ cur) /\ sorted p1 /\ sorted cur /\
  p2_run no_tree yes1 yes2 yes1 cur nix (start p1 (Some cur) (mkaux (Some cur) d0 [])) rst0 l = (evs, Going s r) /\
  In EEnd evs /\ exists p c, In p p1 /\ In c cur /\ same c p /\ In (EDeleted c) evs /\ In (EWrite CNew p) evs.
Proof. exact deleted_also_scanned. Qed.
Print Assumptions C17_deleted_refuted.

Theorem C17_early_end_refuted : exists p1 l s r,
  p2_run no_tree yes1 yes2 yes1 [] nix (start p1 None (mkaux None d0 [])) rst0 l = ([], Finished s r) /\ p1 <> [] /\
  manifest_of [] r = [].
Proof. exact early_end. Qed.
Print Assumptions C17_early_end_refuted.

Theorem C18_decision : forall tree old_regular link_ok open_ok allents cf a c p r evs a',
  hm_ok allents a ->
  maybe_do_delta_stuff tree old_regular link_ok open_ok allents cf a c p = ((r, evs), a') ->
  decided old_regular link_ok open_ok allents cf c p r evs.
Proof. exact delta_spec. Qed.
Print Assumptions C18_decision.

Theorem C18_delta_when : forall tree old_regular link_ok open_ok allents cf a c p,
  e_cmd c = CMD_FILE -> e_cmd p = CMD_FILE -> ~ unmodified cf c p ->
  k_librsync cf = true ->
  (k_libmax cf = 0 \/ (st_size (e_at c) <= k_libmax cf /\ st_size (e_at p) <= k_libmax cf)) ->
  (stored_compressed c <-> compression (e_at p) <> 0) ->
  open_ok (text (s_datapth (e_sb c))) = true ->
  exists e, maybe_do_delta_stuff tree old_regular link_ok open_ok allents cf a c p = ((P_CHANGED, [EReq true e]), a).
Proof. exact delta_when. Qed.
Print Assumptions C18_delta_when.

Theorem C18_same_only_if_partial : forall tree old_regular link_ok open_ok allents cf p1 cur a r l evs o e,
  hm_ok allents a -> well (p1 ++ match cur with Some c => c | None => [] end) ->
  sorted p1 -> sorted (match cur with Some c => c | None => [] end) ->
  p2_run tree old_regular link_ok open_ok allents cf (start p1 cur a) r l = (evs, o) ->
  In (EWrite CSame e) evs ->
  exists p c, In p p1 /\ In c (match cur with Some c => c | None => [] end) /\ same c p /\
    ((unmodified cf c p /\ carried c p e) \/ former_link allents old_regular link_ok c p e).
Proof. exact same_only_if. Qed.
Print Assumptions C18_same_only_if_partial.

Theorem C18_same_refuted : exists c p e,
  e_cmd c = CMD_FILE /\ e_cmd p = CMD_FILE /\ st_size (e_at c) <> st_size (e_at p) /\ st_ctime (e_at c) <> st_ctime (e_at p) /\
  compression (e_at c) <> compression (e_at p) /\
  fst (maybe_do_delta_stuff no_tree yes1 yes2 yes1 [] nix (mkaux None d0 []) c p) = (P_DONE_UNCHANGED, [EWrite CSame e]).
Proof. exact same_though_changed. Qed.
Print Assumptions C18_same_refuted.

Theorem C18_former_link_refuted : exists h c p e new,
  e_cmd h = CMD_ENC_FILE /\ compression (e_at h) = 0 /\ salt (e_at h) = 77 /\
  fst (maybe_do_delta_stuff no_tree yes1 yes2 yes1 [h; c] nix (mkaux (Some [h; c]) d0 []) c p) = (P_DONE_UNCHANGED, [EWrite CSame e]) /\
  s_datapth (e_sb e) = mkiobuf CMD_DATAPTH (Some new) /\ s_endfile (e_sb e) = s_endfile (e_sb h) /\
  compression (e_at e) = 9 /\ salt (e_at e) = 0.
Proof. exact former_link_form. Qed.
Print Assumptions C18_former_link_refuted.

Theorem C54_conversation : forall tree old_regular link_ok open_ok allents cf ans p1 cur a l evs o,
  let cu := match cur with Some c => c | None => [] end in
  hm_ok allents a -> Forall scan_ok p1 -> Forall old_ok cu ->
  (forall q, In q (requests evs) -> ans_ok (ans (snd q))) ->
  p2_run tree old_regular link_ok open_ok allents cf (start p1 cur a) rst0 l = (evs, o) ->
  rcvs l = replies ans (requests evs) ++ [ok_end] ->
  (o = Failed \/ exists s' r', o = Finished s' r' /\
     Forall2 (got ans) (filter (fun q => was_sent (ans (snd q))) (requests evs)) (r_done r')) /\
  ((forall x, open_ok x = true) -> (forall x y, link_ok x y = true) ->
   (forall c p, In c cu -> In p p1 -> encodes c p) -> o <> Failed).
Proof. exact conversation. Qed.
Print Assumptions C54_conversation.

Theorem C54_new_paths_distinct : forall old_regular link_ok open_ok allents cf p1 cur hm d l evs s' r',
  okd d -> steps_ok (pred (List.length l)) d ->
  p2_run (fun _ => false) old_regular link_ok open_ok allents cf (start p1 cur (mkaux hm d [])) rst0 l = (evs, Finished s' r') ->
  NoDup (map cview (new_paths (r_done r'))).
Proof. exact new_paths_distinct. Qed.
Print Assumptions C54_new_paths_distinct.

Theorem C54_new_manifest : forall tree old_regular link_ok open_ok allents cf ans p1 cur a l evs s' r',
  hm_ok allents a -> Forall scan_ok p1 -> Forall old_ok (match cur with Some c => c | None => [] end) ->
  well p1 -> sorted p1 ->
  (forall q, In q (requests evs) -> ans_ok (ans (snd q))) ->
  p2_run tree old_regular link_ok open_ok allents cf (start p1 cur a) rst0 l = (evs, Finished s' r') ->
  In EEnd evs -> rcvs l = replies ans (requests evs) ++ [ok_end] ->
  StronglySorted ent_lt (manifest_of evs r') /\
  forall x, In x (map s_path (manifest_of evs r')) <->
    In x (map e_path p1) /\
    ~ exists q, In q (requests evs) /\ e_path (snd q) = x /\ was_sent (ans (snd q)) = false.
Proof. exact new_manifest. Qed.
Print Assumptions C54_new_manifest.

(* Non-vacuity: a directory and a file as before, a file changed, a former hard
   link, a file that is gone when the client is asked for it, a new file; two
   old entries are no longer there. *)
Definition ex_p1 : list ent :=
  [sc CMD_DIRECTORY (str "/d") (eat 5 5 0 0 0); sc CMD_FILE (str "/d/a") (eat 5 5 3 9 0);
   sc CMD_FILE (str "/d/b") (eat 7 7 4 9 0); sc CMD_FILE (str "/d/l") (eat 5 5 3 9 0);
   sc CMD_FILE (str "/e") (eat 8 8 4 9 0); sc CMD_FILE (str "/f") (eat 8 8 4 9 0)].
Definition ex_cur : list ent :=
  [sc CMD_DIRECTORY (str "/c") (eat 5 5 0 0 0); sc CMD_DIRECTORY (str "/d") (eat 5 5 0 0 0);
   of CMD_FILE (str "/d/a") (str "0000/0000/0000.gz") (str "3:x") (eat 5 5 3 9 0);
   of CMD_FILE (str "/d/b") (str "0000/0000/0001.gz") (str "3:y") (eat 5 5 3 9 0);
   of CMD_FILE (str "/d/h") (str "0000/0000/0002.gz") (str "3:z") (eat 5 5 3 9 0);
   hl (str "/d/l") (str "/d/h") (eat 5 5 3 9 0)].
Definition ex_d : dpth := mkdpth 0 0 16 30000.
Definition ex_aux : aux := mkaux (Some ex_cur) ex_d [].
Definition ex_ans (e : ent) : answer :=
  if beqb (text (e_path e)) (str "/e") then CForget
  else CSent (match attribs_encode (eat 8 8 4 9 0) with Some b => b | None => [] end) [str "da"; str "ta"] (str "4:w").
Definition ex_msgs : list (Z * bytes) :=
  [(CMD_DATAPTH, str "0000/0000/0001.gz");
   (CMD_ATTRIBS, match attribs_encode (eat 8 8 4 9 0) with Some b => b | None => [] end); (CMD_FILE, str "/d/b");
   (CMD_APPEND, str "da"); (CMD_APPEND, str "ta"); (CMD_END_FILE, str "4:w");
   (CMD_INTERRUPT, str "/e");
   (CMD_ATTRIBS, match attribs_encode (eat 8 8 4 9 0) with Some b => b | None => [] end); (CMD_FILE, str "/f");
   (CMD_APPEND, str "da"); (CMD_APPEND, str "ta"); (CMD_END_FILE, str "4:w"); ok_end].
Definition ex_l : list step := [Snd; Snd; Snd; Rcv (hd ok_end ex_msgs)] ++ [Snd; Snd; Snd; Snd] ++ map Rcv (tl ex_msgs).
Definition ex_run := p2_run (fun _ => false) yes1 yes2 yes1 ex_cur nix (start ex_p1 (Some ex_cur) ex_aux) rst0 ex_l.
Definition ex_evs := fst ex_run.
Definition ex_r : rst := match snd ex_run with Finished _ r => r | _ => rst0 end.

Ltac lt_solve := left; repeat (apply plt_tail); first [apply plt_nil|apply plt_head; unfold byte_lt, slash, schar; cbn; lia].
Ltac ss_solve := repeat first [apply SSorted_nil|apply SSorted_cons|apply Forall_nil|apply Forall_cons]; lt_solve.
Lemma ex_well : well (ex_p1 ++ ex_cur).
Proof. apply ent_raw. repeat constructor; discriminate. Qed.
Lemma ex_sorted1 : sorted ex_p1.
Proof. unfold ex_p1. ss_solve. Qed.
Lemma ex_sorted2 : sorted ex_cur.
Proof. unfold ex_cur. ss_solve. Qed.
Lemma ex_hm : hm_ok ex_cur ex_aux.
Proof. cbn. apply incl_refl. Qed.

Example ex_C17 : hm_ok ex_cur ex_aux /\ well (ex_p1 ++ ex_cur) /\ sorted ex_p1 /\ sorted ex_cur /\
  In EEnd ex_evs /\
  map (fun e => text (e_path e)) (deleted ex_evs) = [str "/c"; str "/d/h"] /\
  map (fun x => match x with EWrite k e => (Some k, text (e_path e)) | EReq _ e => (None, text (e_path e)) | _ => (None, []) end) (mains ex_evs) =
  [(Some CSame, str "/d"); (Some CSame, str "/d/a"); (None, str "/d/b"); (Some CSame, str "/d/l"); (None, str "/e"); (None, str "/f")].
Proof.
  split; [exact ex_hm|]. split; [exact ex_well|]. split; [exact ex_sorted1|]. split; [exact ex_sorted2|].
  split; [vm_compute; tauto|]. split; vm_compute; reflexivity.
Qed.
(* C18: a former hard link and an unmodified file, both counted as the same. *)
Example ex_C18 : flat_map (fun x => match x with EWrite CSame e => [(text (e_path e), text (s_datapth (e_sb e)))] | _ => [] end) ex_evs =
  [(str "/d", []); (str "/d/a", str "0000/0000/0000.gz"); (str "/d/l", str "0000/0000/0010.gz")].
Proof. vm_compute. reflexivity. Qed.
Example ex_C54 : Forall scan_ok ex_p1 /\ Forall old_ok ex_cur /\
  (forall q, In q (requests ex_evs) -> ans_ok (ex_ans (snd q))) /\
  rcvs ex_l = replies ex_ans (requests ex_evs) ++ [ok_end] /\
  (exists s, ex_run = (ex_evs, Finished s ex_r)) /\ In EEnd ex_evs /\
  (forall c p, In c ex_cur -> In p ex_p1 -> encodes c p) /\
  map (fun s => text (s_path s)) (manifest_of ex_evs ex_r) = [str "/d"; str "/d/a"; str "/d/b"; str "/d/l"; str "/f"] /\
  new_paths (r_done ex_r) = [str "0000/0000/0011.gz"] /\ okd ex_d /\ steps_ok (pred (List.length ex_l)) ex_d.
Proof.
  split; [repeat constructor; discriminate|].
  split.
  { unfold ex_cur. repeat (apply Forall_cons; [intros E; first [vm_compute in E; discriminate E|eexists; split; reflexivity]|]). apply Forall_nil. }
  split.
  { intros q Hq. unfold ex_ans. destruct (beqb _ _); [exact I|]. split.
    - intros a. vm_compute. discriminate.
    - repeat constructor; discriminate. }
  split; [vm_compute; reflexivity|].
  split; [eexists; vm_compute; reflexivity|].
  split; [vm_compute; tauto|].
  split.
  { intros c p Hc Hp. unfold ex_cur, ex_p1 in *. cbn [In] in Hc, Hp.
    repeat destruct Hc as [<-|Hc]; [..|destruct Hc];
    (repeat destruct Hp as [<-|Hp]; [..|destruct Hp]); vm_compute; discriminate. }
  split; [vm_compute; reflexivity|]. split; [vm_compute; reflexivity|].
  split; [repeat split; vm_compute; discriminate|].
  apply steps_ok_count; [repeat split; vm_compute; discriminate|vm_compute; discriminate|vm_compute; discriminate|].
  vm_compute. discriminate.
Qed.
(* C18: the changed file, of just the largest size allowed. *)
Example ex_C18_delta :
  let c := of CMD_FILE (str "/d/b") (str "0000/0000/0001.gz") (str "3:y") (eat 5 5 3 9 0) in
  let p := sc CMD_FILE (str "/d/b") (eat 7 7 4 9 0) in
  let cf := mkp2conf false true 4 in
  e_cmd c = CMD_FILE /\ e_cmd p = CMD_FILE /\ ~ unmodified cf c p /\ k_librsync cf = true /\
  (st_size (e_at c) <= k_libmax cf /\ st_size (e_at p) = k_libmax cf) /\
  (stored_compressed c <-> compression (e_at p) <> 0).
Proof.
  cbv zeta. split; [reflexivity|]. split; [reflexivity|]. split.
  { intros (_ & H & _). vm_compute in H. discriminate H. }
  split; [reflexivity|]. split; [vm_compute; split; [discriminate|reflexivity]|].
  rewrite <- compressed_spec. vm_compute. split; [discriminate|reflexivity].
Qed.
