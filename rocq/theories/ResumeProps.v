(* C38: resuming an interrupted backup. *)
From Coq Require Import Sorting.Sorted.
From Verif Require Import Bytes PathcmpModel PathcmpProofs CmdModel CmdProofs AttribsModel FrameModel FrameProofs
  SbufModel SbufProofs MergeModel MergeProofs DpthModel DpthProofs Phase2Model Phase2Proofs ResumeModel ResumeProofs ResumeRunProofs.

Theorem C38_plan : forall P cur C U kc ku k d o1,
  k_p1 k = file P -> k_cur k = option_map file cur -> k_ch k = firstn kc (file C) -> k_un k = firstn ku (file U) ->
  let cu := match cur with Some l => l | None => [] end in
  Forall wf_entry (P ++ cu ++ C ++ U) -> Forall stored (C ++ U) -> Forall (fun e => seen (edp e)) (C ++ U) ->
  esorted P -> esorted cu -> (forall c e, In c C -> In e (P ++ cu ++ U) -> comparable (epath c) e) ->
  noerr (k_p1o k) -> noerr (k_curo k) -> noerr o1 -> okd d ->
  exists mc mu, reaches kc (k_cho k) [] C mc /\ reaches ku (k_uno k) [] U mu /\
  ((do_resume k o1 d = None /\ exists d', okd d' /\ exhausted d') \/
   exists z g h j jc, do_resume k o1 d = Some z /\ plan P cur C U mc mu z g h j jc /\
     okd (z_dp z) /\ trip_lt (trip d) (trip (z_dp z)) /\
     forall e a b c x, In e (firstn mc C ++ firstn h U) -> is_u16 a -> is_u16 b -> is_u16 c ->
       edp e = Some (pathstr (a, b, c, x)) -> trip_lt (a, b, c) (trip (z_dp z))).
Proof. exact resume_plan. Qed.
Print Assumptions C38_plan.

Theorem C38_interrupted : forall tree old_regular link_ok open_ok allents cf ans p1 cur a l evs s' r' more,
  hm_ok allents a -> Forall scan_ok p1 -> Forall old_ok (match cur with Some c => c | None => [] end) ->
  (forall q, In q (requests evs) -> ans_ok (ans (snd q))) ->
  p2_run tree old_regular link_ok open_ok allents cf (start p1 cur a) rst0 l = (evs, Going s' r') ->
  rcvs l ++ more = replies ans (requests evs) ->
  exists m, Forall2 (got ans) (filter (fun q => was_sent (ans (snd q))) (firstn m (requests evs))) (r_done r').
Proof. exact interrupted. Qed.
Print Assumptions C38_interrupted.

Theorem C38_resumed_backup_partial :
  forall tree1 tree2 oldr1 oldr2 lnk1 lnk2 opn1 opn2 all1 all2 cf1 cf2
         ans1 ans2 p1 cur a l1 evs1 s1 r1 more P oldP C U kc ku k d o1 z,
  let cu := match cur with Some c => c | None => [] end in
  let ocu := match oldP with Some c => c | None => [] end in
  (* the scan and the previous manifest *)
  well (p1 ++ cu) -> sorted p1 -> sorted cu -> Forall scan_ok p1 -> Forall old_ok cu ->
  map e_sb p1 = map entry_sbuf P -> map e_sb cu = map entry_sbuf ocu -> hm_ok all1 a ->
  (* the first run, stopped *)
  p2_run tree1 oldr1 lnk1 opn1 all1 cf1 (start p1 cur a) rst0 l1 = (evs1, Going s1 r1) ->
  rcvs l1 ++ more = replies ans1 (requests evs1) ->
  (forall q, In q (requests evs1) -> ans_ok (ans1 (snd q))) ->
  (* the disk *)
  written_as (received r1) C -> written_as (map e_sb (written evs1)) U ->
  k_p1 k = file P -> k_cur k = option_map file oldP -> k_ch k = firstn kc (file C) -> k_un k = firstn ku (file U) ->
  Forall wf_entry (P ++ ocu ++ C ++ U) -> Forall stored (C ++ U) -> Forall (fun e => seen (edp e)) (C ++ U) ->
  noerr (k_p1o k) -> noerr (k_curo k) -> noerr (k_uno k) -> noerr o1 -> okd d ->
  in_order kc ku C U ->
  (* resuming *)
  do_resume k o1 d = Some z ->
  exists j C' U', z_p1 z = size (firstn j P) /\ z_ch z = file C' /\ z_un z = file U' /\
  (* the second run, finished *)
  forall cur2 a2 l2 evs2 s2 r2,
    hm_ok all2 a2 -> Forall old_ok (match cur2 with Some c => c | None => [] end) ->
    p2_run tree2 oldr2 lnk2 opn2 all2 cf2 (start (skipn j p1) cur2 a2) rst0 l2 = (evs2, Finished s2 r2) -> In EEnd evs2 ->
    rcvs l2 = replies ans2 (requests evs2) ++ [ok_end] ->
    (forall q, In q (requests evs2) -> ans_ok (ans2 (snd q))) ->
    let M := phase3 (map entry_sbuf U' ++ map e_sb (written evs2)) (map entry_sbuf C' ++ received r2) in
    let no1 x := exists q, In q (requests evs1) /\ e_path (snd q) = x /\ was_sent (ans1 (snd q)) = false in
    let no2 x := exists q, In q (requests evs2) /\ e_path (snd q) = x /\ was_sent (ans2 (snd q)) = false in
    StronglySorted ent_lt M /\
    forall x, In x (map s_path M) <->
      In x (map e_path p1) /\ ~ (no1 x /\ In x (map e_path (firstn j p1))) /\ ~ no2 x.
Proof. exact resumed_backup. Qed.
Print Assumptions C38_resumed_backup_partial.

Theorem C38_unflushed_refuted : loses 0 [].
Proof. exact loses_cut. Qed.
Print Assumptions C38_unflushed_refuted.
Theorem C38_read_error_refuted : loses (List.length (file exU)) [RdErr].
Proof. exact loses_error. Qed.
Print Assumptions C38_read_error_refuted.

(* Non-vacuity: the example of ResumeRunProofs.v, changed cut in its second
   entry and unchanged read in bits; all the hypotheses of C38_plan and of
   C38_resumed_backup_partial. *)
Definition ex_k := ex_disk (size (firstn 1 exC) + 30) (List.length (file exU)) [RdShort 2].
Lemma ex_wf : Forall wf_entry (exP ++ exO ++ exC ++ exU).
Proof.
  assert (P : forall b, forallb (fun x => (0 <=? x) && (x <=? 255)) b = true ->
    (Z.of_nat (List.length b) <=? 65535) = true -> has_dot_component (cview b) = false -> okpath b).
  { intros b R L N. assert (Rb : raw b).
    { apply Forall_forall. intros x Hx. rewrite forallb_forall in R. specialize (R x Hx). unfold is_byte. lia. }
    split; auto. split; [unfold short; lia|].
    pose proof (has_dot_component_exact (cview b) (CmdProofs.cview_cstr b Rb)) as E.
    split; intros G; (assert (has_dot_component (cview b) = true); [apply E; auto|congruence]). }
  unfold exP, exO, exC, exU. cbn [app].
  repeat (constructor; [cbn [wf_entry]; repeat split; try (apply P; reflexivity);
    try (unfold short; vm_compute; congruence);
    try (unfold plaincmd, linkcmd, datacmd; cbn [In]; tauto)|]). constructor.
Qed.
Lemma ex_stored : Forall stored (exC ++ exU).
Proof. repeat constructor. cbn. unfold datacmd. cbn. unfold CMD_DIRECTORY. intuition discriminate. Qed.
Lemma ex_seen : Forall (fun e => seen (edp e)) (exC ++ exU).
Proof.
  assert (S : forall c z, is_u16 c -> seen (Some (pathstr (0, 0, c, z)))).
  { intros c z H. right. exists 0, 0, c, z. unfold is_u16 in *. repeat split; auto; lia. }
  constructor; [exact (S 16 true ltac:(unfold is_u16; lia))|].
  constructor; [exact (S 17 true ltac:(unfold is_u16; lia))|].
  constructor; [exact I|]. constructor; [exact (S 3 true ltac:(unfold is_u16; lia))|constructor].
Qed.

Lemma ex_order : in_order (size (firstn 1 exC) + 30) (List.length (file exU)) exC exU.
Proof.
  intros a c b n _ _ _. rewrite <- (firstn_skipn n exU) at 2. rewrite file_app, app_length. unfold size, file. lia.
Qed.
Lemma ex_comparable : forall c e, In c exC -> In e (exP ++ exO ++ exU) -> comparable (epath c) e.
Proof.
  intros c e Hc He.
  assert (Q : forall x, In x (map s_path (map e_sb (map ent_of exP ++ map ent_of exO))) ->
    exists b, In b (map e_sb (map ent_of exP ++ map ent_of exO)) /\ x = s_path b).
  { intros x Hx. apply in_map_iff in Hx. destruct Hx as (b & E & Hb). eauto. }
  assert (X := Q (epath e)). assert (Y := Q (epath c)). clear Q.
  lapply X; [clear X; intros X|unfold exP, exO, exU in He; cbn [app In] in He; decompose [or] He; try contradiction; subst e; cbn; tauto].
  lapply Y; [clear Y; intros Y|unfold exC in Hc; cbn [In] in Hc; decompose [or] Hc; try contradiction; subst c; cbn; tauto].
  destruct X as (b2 & B2 & E2). destruct Y as (b1 & B1 & E1). unfold comparable. rewrite E1, E2. apply (nomix_unmixed _ _ _ ex_well); auto.
Qed.
Example ex_plan : Forall wf_entry (exP ++ exO ++ exC ++ exU) /\ Forall stored (exC ++ exU) /\ Forall (fun e => seen (edp e)) (exC ++ exU) /\
  esorted exP /\ esorted exO /\ (forall c e, In c exC -> In e (exP ++ exO ++ exU) -> comparable (epath c) e) /\
  noerr (k_p1o ex_k) /\ noerr (k_curo ex_k) /\ noerr (k_uno ex_k) /\ okd ex_d /\
  exists z, do_resume ex_k [] ex_d = Some z /\ z_ch z = file (firstn 1 exC) /\ z_un z = file (firstn 1 exU) /\
    z_p1 z = size (firstn 2 exP) /\ z_cur z = Some 0%nat /\ z_dp z = mkdpth 0 0 18 30000.
Proof.
  split; [exact ex_wf|]. split; [exact ex_stored|]. split; [exact ex_seen|].
  split; [unfold exP; ss_solve|]. split; [unfold exO; repeat constructor|]. split; [exact ex_comparable|].
  split; [constructor|]. split; [constructor|]. split; [repeat constructor; discriminate|].
  split; [repeat split; vm_compute; discriminate|].
  eexists. split; [vm_compute; reflexivity|]. repeat split; vm_compute; reflexivity.
Qed.
Example ex_resumed : well (map ent_of exP ++ map ent_of exO) /\ sorted (map ent_of exP) /\ sorted (map ent_of exO) /\
  Forall scan_ok (map ent_of exP) /\ Forall old_ok (map ent_of exO) /\
  map e_sb (map ent_of exP) = map entry_sbuf exP /\ map e_sb (map ent_of exO) = map entry_sbuf exO /\
  ex_run (start (map ent_of exP) (Some (map ent_of exO)) ex_a) rst0 ex_l1 = (ex_evs1, Going ex_s1 ex_r1) /\
  rcvs ex_l1 ++ ex_more = replies ex_ans (requests ex_evs1) /\ (forall e, ans_ok (ex_ans e)) /\
  written_as (received ex_r1) exC /\ written_as (map e_sb (written ex_evs1)) exU /\
  in_order (size (firstn 1 exC) + 30) (List.length (file exU)) exC exU /\
  let l2 := [Snd; Snd; Snd] ++ map Rcv (ex_file (str "/d/f") ++ ex_file (str "/g")) ++ [Snd; Rcv ok_end] in
  let two := ex_run (start (skipn 2 (map ent_of exP)) (Some (map ent_of exO)) ex_a) rst0 l2 in
  let r2 := match snd two with Finished _ r => r | _ => rst0 end in
  (exists s2, snd two = Finished s2 r2) /\ In EEnd (fst two) /\
  rcvs l2 = replies ex_ans (requests (fst two)) ++ [ok_end] /\
  map (fun s => text (s_path s)) (phase3 (map entry_sbuf (firstn 1 exU) ++ map e_sb (written (fst two))) (map entry_sbuf (firstn 1 exC) ++ received r2)) =
    [str "/d"; str "/d/a"; str "/d/b"; str "/d/f"; str "/g"].
Proof.
  split; [exact ex_well|]. split; [exact ex_sorted|]. split; [unfold exO; repeat constructor|]. split; [exact ex_scan|].
  split; [unfold exO; cbn [map]; constructor; [|constructor]; intros _; eexists; split; reflexivity|].
  split; [vm_compute; reflexivity|]. split; [vm_compute; reflexivity|]. split; [exact ex_going|]. split; [exact ex_replies|].
  split; [exact ex_ans_ok|]. split; [exact ex_C_written|]. split; [exact ex_U_written|]. split; [exact ex_order|].
  cbv zeta. split; [eexists; vm_compute; reflexivity|]. split; [vm_compute; tauto|]. split; vm_compute; reflexivity.
Qed.
