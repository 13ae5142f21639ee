(* C104-C108: scripts, exit status, failover, timed reports *)
From Coq Require Import ZArith List Bool Lia.
From Verif Require Import Bytes CmdModel BuModel RestoreModel CntrModel CntrProofs ScrModel ScrProofs.
Import ListNotations.
Open Scope Z_scope.

(* ---- C104: scripts of the client ---- *)
Theorem C104_backup_partial : forall s msgs o resume comp d r, args_fit s -> says_go msgs resume comp ->
  backup_wrapper s false true msgs o = Some (d, r) ->
  around s (sc_glob s) (DBackup resume comp) o d (r = CLIENT_OK) /\ (r = CLIENT_OK \/ r = CLIENT_ERROR).
Proof. exact backup_around. Qed.
Theorem C104_restore_partial : forall s o w d r, args_fit s -> restore_wrapper s o w = (d, r) ->
  around s false DRestore o d (r = CLIENT_OK \/ r = CLIENT_RESTORE_WARNINGS) /\
  (r = CLIENT_RESTORE_WARNINGS -> w <> 0) /\ (r = CLIENT_OK -> w = 0).
Proof. exact restore_around. Qed.
Theorem C104_nothing_unasked : forall s tc dirs msgs o d r, (forall x y, ~ says_go msgs x y) \/ tc = true \/ dirs = false ->
  backup_wrapper s tc dirs msgs o = Some (d, r) -> d = [].
Proof. exact backup_nothing. Qed.
Theorem C104_at_most_63_words : forall args user c, script_cmd args user = Some c ->
  (length c <= 63)%nat /\ c = firstn 63 (args ++ user).
Proof. exact script_cmd_max. Qed.

Definition w_scripts : scripts :=
  mkscripts (Some (str "/etc/pre")) [str "-v"] (Some (str "/etc/post")) [str "x"; str "y"] true true true.
Definition w_msgs : list (Z * bytes) := [(CMD_WARNING, str "be careful"); (CMD_GEN, str "resume:7")].
(* the script after a backup that failed is told so *)
Example C104_case : args_fit w_scripts /\ says_go w_msgs true (Some 7) /\
  backup_wrapper w_scripts false true w_msgs (mkoutcome (SExit 0) true false (SExit 0)) =
  Some ([DScript [str "/etc/pre"; str "pre"; str "reserved2"; str "reserved3"; str "reserved4"; str "reserved5"; str "-v"];
         DGlob; DBackup true (Some 7);
         DScript [str "/etc/post"; str "post"; str "1"; str "reserved3"; str "reserved4"; str "reserved5"; str "x"; str "y"]], CLIENT_ERROR) /\
  (* the script before one that is not to be *)
  backup_wrapper w_scripts false true w_msgs (mkoutcome (SSignal 9) true true (SExit 0)) =
  Some ([DScript [str "/etc/pre"; str "pre"; str "reserved2"; str "reserved3"; str "reserved4"; str "reserved5"; str "-v"];
         DGlob;
         DScript [str "/etc/post"; str "post"; str "1"; str "reserved3"; str "reserved4"; str "reserved5"; str "x"; str "y"]], CLIENT_ERROR) /\
  backup_wrapper w_scripts false true [(CMD_GEN, str "timer conditions not met")] (mkoutcome (SExit 0) true true (SExit 0)) =
  Some ([], CLIENT_SERVER_TIMER_NOT_MET) /\
  restore_wrapper w_scripts (mkoutcome (SExit 0) true true (SExit 0)) 3 =
  ([DScript [str "/etc/pre"; str "pre"; str "reserved2"; str "reserved3"; str "reserved4"; str "reserved5"; str "-v"];
    DRestore;
    DScript [str "/etc/post"; str "post"; str "0"; str "reserved3"; str "reserved4"; str "reserved5"; str "x"; str "y"]], CLIENT_RESTORE_WARNINGS).
Proof.
  split. { unfold args_fit; cbn; lia. } split. { left. vm_compute. reflexivity. }
  split; [vm_compute; reflexivity|]. split; [vm_compute; reflexivity|]. split; vm_compute; reflexivity.
Qed.

(* the full statement, without the bound on the number of arguments, is false: what comes after the 63rd word is
   dropped without a word *)
Theorem C104_arguments_dropped_refuted : exists s msgs o d, says_go msgs false (Some 5) /\
  backup_wrapper s false true msgs o = Some (d, CLIENT_OK) /\
  In (str "--keep") (sc_pre_args s) /\ ~ exists c, In (DScript c) d /\ In (str "--keep") c.
Proof.
  exists (mkscripts (Some (str "/etc/pre")) (repeat (str "-x") 62 ++ [str "--keep"]) None [] false false false),
    [(CMD_GEN, str "ok:5")], (mkoutcome (SExit 0) true true (SExit 0)).
  eexists. split. { left. vm_compute. reflexivity. } split. { vm_compute. reflexivity. }
  split. { cbn [sc_pre_args]. apply in_or_app. right. cbn. auto. }
  intros (c & H1 & H2). cbn [In] in H1. destruct H1 as [H1|[H1|[]]]; [|discriminate H1]. injection H1 as <-.
  cbn [In] in H2. repeat (destruct H2 as [H2|H2]; [vm_compute in H2; discriminate H2|]). exact H2.
Qed.

(* ---- C105: the exit status ---- *)
Theorem C105_status_partial : forall a n, n_setup n = true -> n_act n <> AEstimate -> (do_client a n = CLIENT_OK <-> all_well a n).
Proof. exact exit_ok. Qed.
Theorem C105_backup_done_partial : forall s msgs o n d r, args_fit s -> backup_wrapper s false true msgs o = Some (d, r) ->
  n_setup n = true -> n_act n = ABackup -> n_work n = r -> do_client ABackup n = CLIENT_OK ->
  n_connect n = true /\ n_comms n = 0 /\ n_flush n = true /\
  (exists resume comp, says_go msgs resume comp /\ In (DBackup resume comp) d) /\ oc_work o = true /\
  (sc_pre s = None \/ ends_well (oc_pre o)) /\ (sc_post s = None \/ ends_well (oc_post o)).
Proof. exact backup_success. Qed.
Theorem C105_refusals : forall s tc msgs o d r, backup_wrapper s tc true msgs o = Some (d, r) ->
  (r = CLIENT_SERVER_MAX_PARALLEL_BACKUPS <-> check_timer msgs = RMax) /\
  (r = CLIENT_SERVER_TIMER_NOT_MET <-> check_timer msgs = RNotMet).
Proof. exact backup_codes. Qed.
Theorem C105_code_passed : forall a n, a <> AStatus -> a <> AEstimate -> n_connect n = true -> n_setup n = true -> n_comms n = 0 ->
  has_wrapper (n_act n) = true -> n_flush n = true -> do_client a n = n_work n.
Proof. exact exit_code_passed. Qed.
Theorem C105_go_ahead : forall resume comp, is_int comp -> check_timer_func (ok_text resume comp) = RGo resume (Some comp).
Proof. exact ok_text_read. Qed.
Theorem C105_log_skipped : forall l1 b l2, Forall (fun m => fst m = CMD_WARNING \/ fst m = CMD_MESSAGE \/ fst m = CMD_INTERRUPT) l1 ->
  check_timer (l1 ++ (CMD_GEN, b) :: l2) = check_timer_func b.
Proof. exact check_timer_skips. Qed.
Theorem C105_behind_the_end : forall b, check_timer_func b = RUB <-> b = str "resume".
Proof. exact reply_ub. Qed.

(* when the buffers of the connection cannot be set up the client ends with success, and nothing is backed up *)
Theorem C105_silent_failure_refuted : exists n, n_connect n = true /\ n_setup n = false /\ n_work n <> 0 /\
  do_client ABackup n = CLIENT_OK /\ fst (client_main true ABackup true (fun _ => n) (str "s1") [str "s2"]) = [(str "s1", 1%nat)] /\
  snd (client_main true ABackup true (fun _ => n) (str "s1") [str "s2"]) = 0.
Proof. exists (mksession true false 0 ABackup 1 true). repeat split; vm_compute; congruence. Qed.

Example C105_case :
  all_well ABackup (mksession true true 0 ABackup 0 true) /\ ~ all_well ABackup (mksession true true 0 ABackup 0 false) /\
  do_client ABackup (mksession true true 0 ABackup 0 false) = CLIENT_ERROR /\
  do_client ABackup (mksession true true 0 ABackup 5 true) = 5 /\
  do_client ABackup (mksession false true 0 ABackup 0 true) = CLIENT_COULD_NOT_CONNECT /\
  do_client AList (mksession true true 0 AList (-1) true) = CLIENT_ERROR /\
  (* the server has turned a backup into a restore, which warned *)
  do_client ABackup (mksession true true 0 ARestore 2 true) = CLIENT_RESTORE_WARNINGS /\
  ok_text true (-1) = str "resume:-1" /\ check_timer_func (str "resume:-1") = RGo true (Some (-1)) /\
  check_timer_func (str "ok") = RGo false None /\ check_timer_func (str "nope") = RErr /\
  check_timer w_msgs = RGo true (Some 7) /\ is_int (-1).
Proof.
  split; [cbn; auto|]. split; [cbn; intros (_ & _ & _ & H); discriminate H|].
  repeat (split; [vm_compute; reflexivity|]). unfold is_int. lia.
Qed.

(* ---- C106: failing over ---- *)
Theorem C106_failover : forall a on_error e failover i server t r, client_loop a on_error e i server failover = (t, r) ->
  exists atts, atts <> [] /\ t = calls atts /\
    Forall codes_ok (map snd atts) /\
    concat (map snd atts) = map (fun k => do_client a (e k)) (seq i (length t)) /\
    map (fun x => fst (fst x)) atts = firstn (length atts) (server :: failover) /\
    map (fun x => snd (fst x)) atts = firstn (length atts) (rev (seq 0 (S (length failover)))) /\
    Forall (fun x => reason a on_error (last_code x)) (removelast atts) /\
    r = last_code (last atts (server, 0%nat, [])) /\
    (reason a on_error r -> length atts = S (length failover)).
Proof. exact failover_spec. Qed.
(* the first cannot be reached, the second wants a new connection and then fails, the third is fine *)
Definition w_sessions (k : nat) : session :=
  match k with
  | O => mksession false true 0 ABackup 0 true
  | S O => mksession true true CLIENT_RECONNECT ABackup 0 true
  | S (S O) => mksession true true 0 ABackup 1 true
  | _ => mksession true true 0 ABackup 0 true
  end.
Example C106_case :
  client_main true ABackup true w_sessions (str "a") [str "b"; str "c"; str "d"] =
    ([(str "a", 3%nat); (str "b", 2%nat); (str "b", 2%nat); (str "c", 1%nat)], CLIENT_OK) /\
  client_main true ABackup false w_sessions (str "a") [str "b"; str "c"; str "d"] =
    ([(str "a", 3%nat); (str "b", 2%nat); (str "b", 2%nat)], CLIENT_ERROR) /\
  client_main true ABackup true w_sessions (str "a") [] = ([(str "a", 0%nat)], CLIENT_COULD_NOT_CONNECT) /\
  client_main false ABackup true w_sessions (str "a") [str "b"] = ([], CLIENT_OK) /\
  reason ABackup true CLIENT_ERROR /\ ~ reason ARestore true CLIENT_ERROR.
Proof.
  do 4 (split; [vm_compute; reflexivity|]). split. { right. auto. }
  intros [H|(_ & _ & [H|H])]; discriminate H.
Qed.

(* ---- C107: scripts of the server ---- *)
Theorem C107_scripts_partial : forall c q o d r, sargs_fit c -> child_scripts c q o = (d, r) -> child_spec c q o d r.
Proof. exact child_scripts_spec. Qed.
Definition w_server : sscripts :=
  mksscripts (Some (str "/etc/spre")) [] true (Some (str "/etc/spost")) [str "z"] true true (str "cli")
    (Some (str "/etc/notify")) [str "root"] true false.
Example C107_case : sargs_fit w_server /\
  child_scripts w_server (str "backupphase1timed") (mksoutcome (SExit 0) [] (-1) 0 (SExit 0) []) =
  ([SDScript [str "/etc/spre"; str "pre"; str "backup_timed"; str "cli"; str "0"; str "0"];
    SDAction;
    SDScript [str "/etc/spost"; str "post"; str "backup_timed"; str "cli"; str "1"; str "0"; str "z"]], 0) /\
  child_scripts w_server (str "restore 3:x") (mksoutcome (SExit 2) (str "no disk") 0 0 (SExit 0) []) =
  ([SDScript [str "/etc/spre"; str "pre"; str "restore"; str "cli"; str "0"; str "0"];
    SDNotify [str "/etc/notify"; str "cli"; []; str "no disk"; []; []; []; str "root"];
    SDScript [str "/etc/spost"; str "post"; str "restore"; str "cli"; str "1"; str "0"; str "z"]], 0).
Proof. split. { unfold sargs_fit; cbn; lia. } split; vm_compute; reflexivity. Qed.
(* that a child ends with success only if the action was carried out is false: the script after it, run although
   it failed, puts its own result in the place of the failure *)
Theorem C107_failure_lost_refuted : exists c q o, sargs_fit c /\ so_action o <> 0 /\ ends_well (so_pre o) /\ snd (child_scripts c q o) = 0.
Proof.
  exists w_server, (str "backupphase1"), (mksoutcome (SExit 0) [] (-1) 0 (SExit 0) []).
  split. { unfold sargs_fit; cbn; lia. } split; [discriminate|]. split; [exists 0; auto|]. vm_compute. reflexivity.
Qed.

(* ---- C108: from time to time ---- *)
Theorem C108_intervals : forall timed iv cs s t0 d ok, t_last s <= t0 -> t_tlast s <= t0 -> forward t0 cs ->
  timed_run timed iv s cs = (d, ok) ->
  apart 2 (t_last s) (map fst (reports_of d)) /\
  apart (iv * 60) (t_tlast s) (timers_of d) /\
  (timed = false \/ iv = 0 -> timers_of d = []) /\
  (forall t, In t (timers_of d) -> exists c, In c cs /\ tc_now c = t /\ (tc_status c = 1 \/ tc_status c = 2)) /\
  (forall t b, In (t, b) (reports_of d) -> t0 <= t /\ (t_pend s = Some b \/ exists c, In c cs /\ tc_now c <= t /\ tc_line c = b)).
Proof. exact timed_run_spec. Qed.
Theorem C108_report_prompt : forall timed iv s c, t_last s + 2 <= tc_now c -> tc_append c = AppOk ->
  exists d, snd (fst (timed_operation timed iv s c)) = TReport (match t_pend s with Some b => b | None => tc_line c end) :: d.
Proof. exact timed_prompt. Qed.
Theorem C108_timer_prompt : forall iv s c, 0 < iv -> t_tlast s + iv * 60 <= tc_now c -> tc_status c = 1 \/ tc_status c = 2 ->
  tc_append c <> AppErr ->
  In TTimer (snd (fst (timed_operation true iv s c))) /\ snd (timed_operation true iv s c) = tc_timer c.
Proof. exact timer_prompt. Qed.
Definition w_calls : list tcall :=
  [mktcall 1000 1 (str "a") AppOk 0; mktcall 1001 1 (str "b") AppOk 0; mktcall 1002 2 (str "c") AppBlocked 0;
   mktcall 1004 2 (str "d") AppOk 0; mktcall 1061 2 (str "e") AppOk 0; mktcall 1130 3 (str "f") AppOk 0; mktcall 1131 2 (str "g") AppOk 1].
Example C108_case : forward 0 w_calls /\
  timed_run true 1 (mktstate 0 None 0) w_calls =
  ([(1000, TReport (str "a")); (1000, TTimer); (1004, TReport (str "c")); (1061, TReport (str "e")); (1061, TTimer);
    (1130, TReport (str "f")); (1131, TTimer)], false).
Proof. split. { cbn; lia. } vm_compute. reflexivity. Qed.

Print Assumptions C104_backup_partial.
Print Assumptions C104_restore_partial.
Print Assumptions C104_nothing_unasked.
Print Assumptions C104_at_most_63_words.
Print Assumptions C104_arguments_dropped_refuted.
Print Assumptions C105_status_partial.
Print Assumptions C105_backup_done_partial.
Print Assumptions C105_refusals.
Print Assumptions C105_code_passed.
Print Assumptions C105_go_ahead.
Print Assumptions C105_log_skipped.
Print Assumptions C105_behind_the_end.
Print Assumptions C105_silent_failure_refuted.
Print Assumptions C106_failover.
Print Assumptions C107_scripts_partial.
Print Assumptions C107_failure_lost_refuted.
Print Assumptions C108_intervals.
Print Assumptions C108_report_prompt.
Print Assumptions C108_timer_prompt.
