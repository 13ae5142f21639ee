(* C98-C103: the main process of the server and its children. *)
From Coq Require Import ZArith List Bool Lia.
From Verif Require Import Bytes CntrModel CntrProofs MonModel ChldModel ChldProofs ChldParProofs.
Import ListNotations.
Open Scope Z_scope.

(* a server with two addresses for clients and one for the status monitor *)
Definition cf1 : sconf := mksconf [(str "0.0.0.0:4971", 2); (str "0.0.0.0:4973", 1)] [(str "127.0.0.1:4972", 1)] 1.
Lemma cf1_distinct : addresses_distinct cf1.
Proof. unfold addresses_distinct. cbn. repeat constructor; cbn; intuition discriminate. Qed.
Definition conn_ok (i : nat) (p : Z) : wev := WConn i (COk true (Some p)).
Definition line1 (name : bytes) (p b st : Z) : bytes := snd (cntr_to_str 0 (mkhead name p b st) table (str "/x")).

(* ---------- C98 ---------- *)

(* Without a reload no address ever serves more clients than it may have children. *)
Theorem C98_children_bound_partial : forall cf es w x n, addresses_distinct cf -> no_hup es -> wrun (wstart cf) es = Some w ->
  configured cf x n -> serving w x <= Z.max 0 n.
Proof. exact children_bound. Qed.
Print Assumptions C98_children_bound_partial.

(* and a connection gets a child exactly when the address has one to spare *)
Theorem C98_served_iff_partial : forall cf es w i d p n, addresses_distinct cf -> no_hup es -> wrun (wstart cf) es = Some w ->
  s_end (w_srv w) = None -> nth_error (s_fds (w_srv w)) i = Some d -> is_listener d = true -> configured cf (d_listen d) n ->
  0 < p -> is_live p (w_live w) = false -> has_pid p (s_fds (w_srv w)) = false ->
  exists w', wstep w (WConn i (COk true (Some p))) = Some w' /\
    (registered w (d_listen d) < n -> is_live p (w_live w') = true /\ serving w' (d_listen d) = serving w (d_listen d) + 1) /\
    (n <= registered w (d_listen d) -> w' = w).
Proof. exact served_iff. Qed.
Print Assumptions C98_served_iff_partial.

Theorem C98_registered_partial : forall cf es w x, addresses_distinct cf -> no_hup es -> wrun (wstart cf) es = Some w ->
  s_end (w_srv w) = None -> settled w -> registered w x = serving w x.
Proof. exact settled_registered. Qed.
Print Assumptions C98_registered_partial.

(* two clients, a third refused, one leaves, the next is served; the other address has its own number *)
Definition run98 : list wev :=
  [conn_ok 0 10; conn_ok 0 11; conn_ok 0 12; conn_ok 1 13; WFinish 10; WReap 10; conn_ok 0 14; WConn 2 (COk true (Some 15)); WConn 1 CDenied].
Example C98_witness : no_hup run98 /\ addresses_distinct cf1 /\
  match wrun (wstart cf1) run98 with
  | Some w => map k_id (w_live w) = [15; 14; 13; 11] /\ serving w (str "0.0.0.0:4971") = 2 /\
              registered w (str "0.0.0.0:4971") = 2 /\ s_end (w_srv w) = None
  | None => False
  end.
Proof.
  split; [intros c I; cbn in I; intuition discriminate|]. split; [apply cf1_distinct|]. vm_compute. auto.
Qed.

(* After a reload the children from before are no longer counted. *)
Theorem C98_reload_refuted : exists es w, wrun (wstart cf1) es = Some w /\ addresses_distinct cf1 /\
  configured cf1 (str "0.0.0.0:4973") 1 /\ serving w (str "0.0.0.0:4973") = 2.
Proof.
  exists [conn_ok 1 10; WHup cf1; conn_ok 1 11]. eexists. split; [vm_compute; reflexivity|]. split; [apply cf1_distinct|].
  split; [right; left; auto|vm_compute; auto].
Qed.
Print Assumptions C98_reload_refuted.

(* ---------- C99 ---------- *)

(* The server ends with an error only over an accept, address lookup, pipe or fork that fails. *)
Theorem C99_ends_only_partial : forall w e w', wstep w e = Some w' -> s_end (w_srv w) = None -> s_end (w_srv w') = Some false ->
  exists i c, e = WConn i c /\
    (c = CErr \/ c = CNoAddr \/ (exists f, c = COk false f) \/ (exists b, c = COk b None)).
Proof. exact ends_badly. Qed.
Print Assumptions C99_ends_only_partial.

Theorem C99_ends_well_partial : forall cf es w, wrun (wstart cf) es = Some w -> s_end (w_srv w) = Some true -> In WUsr2 es.
Proof. exact ends_well. Qed.
Print Assumptions C99_ends_well_partial.

Example C99_witness :
  match wrun (wstart cf1) [conn_ok 0 10; WConn 0 CIntr; WConn 0 CDenied; WFinish 10; WProblem 10; conn_ok 0 10] with
  | Some w => s_end (w_srv w) = None /\ map k_id (w_live w) = [10]
  | None => False
  end.
Proof. vm_compute. auto. Qed.

(* One connection that is gone before it is accepted ends the server for every client. *)
Theorem C99_accept_refuted : exists es w, wrun (wstart cf1) es = Some w /\ es = [conn_ok 0 10; WConn 0 CErr] /\
  s_end (w_srv w) = Some false /\ is_live 10 (w_live w) = true.
Proof. do 2 eexists. split; [|split; [reflexivity|]]; vm_compute; auto. Qed.
Print Assumptions C99_accept_refuted.

(* and so does one fork that fails *)
Theorem C99_fork_refuted : exists es w, wrun (wstart cf1) es = Some w /\ es = [conn_ok 0 10; WConn 0 (COk true None)] /\
  s_end (w_srv w) = Some false /\ is_live 10 (w_live w) = true.
Proof. do 2 eexists. split; [|split; [reflexivity|]]; vm_compute; auto. Qed.
Print Assumptions C99_fork_refuted.

(* ---------- C100 ---------- *)

(* Without a reload, and as long as the server does not end with an error, every report of a child is taken. *)
Theorem C100_reports_partial : forall cf es w, addresses_distinct cf -> no_hup es -> wrun (wstart cf) es = Some w ->
  s_end (w_srv w) <> Some false -> w_broken w = [].
Proof. exact reports_arrive. Qed.
Print Assumptions C100_reports_partial.

Example C100_witness :
  match wrun (wstart cf1) [conn_ok 0 10; WReport 10 (line1 (str "c") 10 3 2); conn_ok 0 11; WReport 11 (str "x"); WFinish 11; WReap 11; WReport 10 (line1 (str "c") 10 3 3)] with
  | Some w => w_broken w = [] /\ map d_status (s_fds (w_srv w)) = [0; 0; 0; 3]
  | None => False
  end.
Proof. vm_compute. auto. Qed.

(* A reload cuts off every child that is at work: its next report fails and with it the backup. *)
Theorem C100_reload_refuted : exists es w, wrun (wstart cf1) es = Some w /\
  es = [conn_ok 0 10; WReport 10 (line1 (str "c") 10 3 2); WHup cf1; WReport 10 (line1 (str "c") 10 3 2)] /\
  s_end (w_srv w) = None /\ w_broken w = [10].
Proof. do 2 eexists. split; [|split; [reflexivity|]]; vm_compute; auto. Qed.
Print Assumptions C100_reload_refuted.

(* ---------- C101 ---------- *)

(* Without a reload a server asked to end gently ends only when no child is serving ... *)
Theorem C101_end_partial : forall cf es w, addresses_distinct cf -> no_hup es -> wrun (wstart cf) es = Some w ->
  s_end (w_srv w) = Some true -> w_live w = [] /\ w_broken w = [].
Proof. exact gentle_end. Qed.
Print Assumptions C101_end_partial.

Theorem C101_waits_partial : forall cf es w, addresses_distinct cf -> no_hup es -> wrun (wstart cf) es = Some w ->
  s_end (w_srv w) = None -> w_live w <> [] -> wstep w WCheck = Some w.
Proof. exact gentle_waits. Qed.
Print Assumptions C101_waits_partial.

(* ... and does end once the last one has been noticed. *)
Theorem C101_ends_partial : forall cf es w, addresses_distinct cf -> no_hup es -> wrun (wstart cf) es = Some w ->
  s_end (w_srv w) = None -> s_gentle (w_srv w) = true -> settled w -> w_live w = [] ->
  exists w', wstep w WCheck = Some w' /\ s_end (w_srv w') = Some true.
Proof. exact gentle_ends. Qed.
Print Assumptions C101_ends_partial.

Example C101_witness :
  match wrun (wstart cf1) [conn_ok 0 10; WUsr2; WCheck; conn_ok 0 11; WFinish 10; WCheck; WReap 10; WCheck; WFinish 11; WCheck; WReap 11] with
  | Some w => s_end (w_srv w) = None /\ s_gentle (w_srv w) = true /\ w_live w = [] /\
              match wstep w WCheck with Some w' => s_end (w_srv w') = Some true | None => False end
  | None => False
  end.
Proof. vm_compute. auto. Qed.

(* After a reload it does not wait for the children from before. *)
Theorem C101_reload_refuted : exists es w, wrun (wstart cf1) es = Some w /\ es = [conn_ok 0 10; WHup cf1; WUsr2; WCheck] /\
  s_end (w_srv w) = Some true /\ is_live 10 (w_live w) = true.
Proof. do 2 eexists. split; [|split; [reflexivity|]]; vm_compute; auto. Qed.
Print Assumptions C101_reload_refuted.

(* ---------- C102 ---------- *)

(* A backup is refused exactly when at the connection the number of children that last reported to be at it has
   reached the maximum. *)
Theorem C102_decision_partial : forall cf es w i p w', addresses_distinct cf -> no_hup es -> wrun (wstart cf) es = Some w ->
  0 < sc_maxpar cf -> wstep w (WConn i (COk true (Some p))) = Some w' -> w' <> w ->
  exists k, In k (w_live w') /\ k_id k = p /\
    (too_many (sc_maxpar cf) (k_working k) = true <->
     sc_maxpar cf <= Z.of_nat (length (filter (fun d => (d_status d =? ST_SCANNING) || (d_status d =? ST_BACKUP)) (s_fds (w_srv w))))).
Proof. exact decision. Qed.
Print Assumptions C102_decision_partial.

(* with no maximum set none is refused *)
Theorem C102_unlimited : forall cf k, sc_maxpar cf = 0 -> too_many (sc_maxpar cf) (k_working k) = false.
Proof. exact unlimited. Qed.
Print Assumptions C102_unlimited.

(* what a child reports is recorded for it and for no other *)
Theorem C102_recorded : forall cf es w p t h, addresses_distinct cf -> no_hup es -> wrun (wstart cf) es = Some w ->
  s_end (w_srv w) = None -> sc_maxpar cf <> 0 -> is_reporter p (w_live w) = true -> line_of h t ->
  exists w', wstep w (WReport p t) = Some w' /\
    (exists d, In d (s_fds (w_srv w')) /\ d_pid d = p /\ d_status d = h_status h) /\
    (forall d, d_pid d <> p -> In d (s_fds (w_srv w')) <-> In d (s_fds (w_srv w))) /\
    (forall d, In d (s_fds (w_srv w')) -> d_pid d = p -> d_status d = h_status h).
Proof. exact report_recorded. Qed.
Print Assumptions C102_recorded.

(* If each client connects only after the backups before it have been reported, there are never more than the
   maximum. *)
Theorem C102_bound_partial : forall cf es s, addresses_distinct cf -> 0 < sc_maxpar cf -> no_hup_p es ->
  prompt (sc_maxpar cf) (pstart cf) es -> prun (sc_maxpar cf) (pstart cf) es = Some s ->
  Z.of_nat (length (ps_undone s)) <= sc_maxpar cf.
Proof. exact backups_bound. Qed.
Print Assumptions C102_bound_partial.

Definition run102 : list pev :=
  [PE (conn_ok 0 10); PE (WReport 10 (line1 (str "c") 10 3 1)); PE (conn_ok 0 11); PE (WFinish 11); PE (WReap 11);
   PE (WReport 10 (line1 (str "c") 10 3 3)); PEnd 10; PE (conn_ok 0 12)].
Lemma line_of_line1 : forall n p b st, head_ok (mkhead n p b st) -> line_of (mkhead n p b st) (line1 n p b st).
Proof.
  intros. exists 0, table, (str "/x"). split; [|auto]. split; auto. apply Forall_forall. intros e I.
  assert (X : forallb (fun e => (e_count e =? 0) && (e_changed e =? 0) && (e_same e =? 0) && (e_deleted e =? 0) && (e_phase1 e =? 0)) table = true) by reflexivity.
  rewrite forallb_forall in X. specialize (X e I). rewrite !andb_true_iff, !Z.eqb_eq in X. destruct X as ((((A & B) & C) & D) & E).
  unfold in_range, is_u64. rewrite A, B, C, D, E. lia.
Qed.
Lemma prompt_step : forall s e r, (match e with PE (WConn _ _) => forall p, In p (ps_undone s) -> known_busy (ps_w s) p | _ => True end) ->
  (forall s', pstep 1 s e = Some s' -> prompt 1 s' r) -> prompt 1 s (e :: r).
Proof. intros s e r A B. cbn [prompt]. split; auto. destruct (pstep 1 s e); auto. Qed.
Example C102_witness : no_hup_p run102 /\ prompt 1 (pstart cf1) run102 /\
  match prun 1 (pstart cf1) run102 with Some s => ps_undone s = [12] | None => False end.
Proof.
  split; [intros c I; cbn in I; intuition discriminate|]. split; [|vm_compute; auto].
  unfold run102.
  apply prompt_step; [cbn; intros p []|intros s' Hs; vm_compute in Hs; injection Hs as <-].
  apply prompt_step; [exact I|intros s' Hs; vm_compute in Hs; injection Hs as <-].
  apply prompt_step; [cbn; intros p [<-|[]]; eexists; split; [right; right; right; left; reflexivity|]; split; [reflexivity|left; reflexivity]|intros s' Hs; vm_compute in Hs; injection Hs as <-].
  apply prompt_step; [exact I|intros s' Hs; vm_compute in Hs; injection Hs as <-].
  apply prompt_step; [exact I|intros s' Hs; vm_compute in Hs; injection Hs as <-].
  apply prompt_step; [exact I|intros s' Hs; vm_compute in Hs; injection Hs as <-].
  apply prompt_step; [exact I|intros s' Hs; vm_compute in Hs; injection Hs as <-].
  apply prompt_step; [cbn; intros p []|intros s' Hs; vm_compute in Hs; injection Hs as <-].
  exact I.
Qed.

(* Two clients that connect at about the same time both do their backup although one is the maximum. *)
Theorem C102_race_refuted : exists es s, prun (sc_maxpar cf1) (pstart cf1) es = Some s /\ no_hup_p es /\ sc_maxpar cf1 = 1 /\
  ps_undone s = [11; 10].
Proof.
  exists [PE (conn_ok 0 10); PE (conn_ok 0 11); PE (WReport 10 (line1 (str "c") 10 3 1)); PE (WReport 11 (line1 (str "d") 11 1 1))].
  eexists. split; [vm_compute; reflexivity|]. split; [intros c I; cbn in I; intuition discriminate|]. split; vm_compute; auto.
Qed.
Print Assumptions C102_race_refuted.

(* ---------- C103 ---------- *)

(* What the status monitor is told: the children that have reported, with what they said of themselves ... *)
Theorem C103_listed : forall cf es w, no_hup es -> genuine es -> wrun (wstart cf) es = Some w ->
  exists ids, clients_text (s_fds (w_srv w)) = clients_message ids /\ ids_from es (s_fds (w_srv w)) ids.
Proof. exact clients_listed. Qed.
Print Assumptions C103_listed.

(* ... each of them once ... *)
Theorem C103_once : forall cf es w ids, addresses_distinct cf -> no_hup es -> wrun (wstart cf) es = Some w ->
  s_end (w_srv w) = None -> ids_from es (s_fds (w_srv w)) ids -> NoDup (map (fun i => snd (fst i)) ids).
Proof. exact listed_once. Qed.
Print Assumptions C103_once.

(* ... and as long as they serve. *)
Theorem C103_stays : forall cf es1 es2 p t w ids, addresses_distinct cf -> no_hup (es1 ++ WReport p t :: es2) ->
  genuine (es1 ++ WReport p t :: es2) -> wrun (wstart cf) (es1 ++ WReport p t :: es2) = Some w -> s_end (w_srv w) = None ->
  ~ In (WFinish p) es2 -> ids_from (es1 ++ WReport p t :: es2) (s_fds (w_srv w)) ids -> exists n b, In (n, p, b) ids.
Proof. exact reported_listed. Qed.
Print Assumptions C103_stays.

Definition run103 : list wev :=
  [conn_ok 0 10; conn_ok 0 11; WReport 11 (line1 (str "d") 11 1 1); WReport 11 (line1 (str "d") 11 1 2); WReport 10 (line1 (str "c") 10 7 1)].
Example C103_witness : no_hup run103 /\ genuine run103 /\
  match wrun (wstart cf1) run103 with
  | Some w => clients_text (s_fds (w_srv w)) = str "clients" ++ [9] ++ str "c.10.7" ++ [9] ++ str "d.11.1"
  | None => False
  end.
Proof.
  split; [intros c I; cbn in I; intuition discriminate|]. split; [|vm_compute; auto].
  intros p t I. cbn [In run103 conn_ok] in I. repeat (destruct I as [I|I]; [try discriminate; injection I as <- <-|]); [| | |contradiction];
  (eexists; split; [|apply line_of_line1]; [reflexivity|]); split; try (split; cbn; intuition discriminate);
  cbn; unfold is_int; lia.
Qed.
