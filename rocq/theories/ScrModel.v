(* Scripts around the work of client and server, what the client makes of the server's answer, failing over to
   other servers and the exit status of the client: /repo/src/client/main.c, /repo/src/server/child.c,
   /repo/src/run_script.c *)
From Coq Require Import ZArith List Bool.
From Verif Require Import Bytes CmdModel BuModel RestoreModel CntrModel.
Import ListNotations.
Open Scope Z_scope.

(* ---------- running a script ---------- *)

(* /repo/src/run_script.c:129-130 *)
Definition MAXCMD : nat := 64.
(* /repo/src/run_script.c:136-140: the command with its arguments; None: there is no script, nothing is run.
   [args] are those before the NULL. *)
Definition script_cmd (args user : list bytes) : option (list bytes) :=
  match args with
  | [] => None
  | _ => let a := firstn (MAXCMD - 1) args in Some (a ++ firstn (MAXCMD - 1 - length a) user)
  end.

(* how a script came to its end: it could not be started, its output could not be read, it exited, it was killed,
   or waitpid gave nothing (/repo/src/run_script.c:149-150, 168, 172-194) *)
Inductive sout : Type := SNoFork | SNoRead | SExit (n : Z) | SSignal (n : Z) | SStrange.
(* /repo/src/run_script.c:120-196 (run_script_to_buf), the return value for a script that is run.  0-255 is the
   range of WEXITSTATUS. *)
Definition script_ret (o : sout) : Z :=
  match o with
  | SExit n => n mod 256
  | _ => -1
  end.

(* ---------- the answer of the server to a client that wants to back up ---------- *)

(* /repo/src/client/main.c:51-97: the server has too many backups, the timer says no, the timer says yes (asked
   for by a timer check), go ahead with this compression level (None: keep the one configured), something else,
   or a read behind the end of the message *)
Inductive reply : Type := RMax | RNotMet | RMet | RGo (resume : bool) (comp : option Z) | RErr | RUB.

(* /repo/src/client/main.c:51-97 (maybe_check_timer_func) *)
Definition check_timer_func (b : bytes) : reply :=
  if beqb b (str "max parallel backups") then RMax
  else if beqb b (str "timer conditions not met") then RNotMet
  else if beqb b (str "timer conditions met") then RMet
  else
    let go (resume : bool) (complen : nat) :=
      if (3 <? length b)%nat then
        if (length b <? complen)%nat then RUB                        (* 92: buf+complen is behind the NUL *)
        else RGo resume (Some (atoi (skipn complen b)))
      else RGo resume None in
    if starts_with b (str "ok") then go false 3%nat
    else if starts_with b (str "resume") then go true 7%nat
    else RErr.

(* /repo/src/client/main.c:99-111 (maybe_check_timer) with /repo/src/asfd.c:508-555 (asfd_simple_loop): the messages that
   come, up to the end of the connection.  Simplification: writing the request works. *)
Fixpoint check_timer (l : list (Z * bytes)) : reply :=
  match l with
  | [] => RErr
  | (c, b) :: r =>
    if c =? CMD_GEN then check_timer_func b
    else if (c =? CMD_WARNING) || (c =? CMD_MESSAGE) || (c =? CMD_INTERRUPT) then check_timer r
    else RErr
  end.

(* /repo/src/server/backup.c:363-366: what the server says when the backup begins.  okstr is long enough for any
   int. *)
Definition ok_text (resume : bool) (comp : Z) : bytes :=
  (if resume then str "resume" else str "ok") ++ [58] ++ fmt_d comp.

(* ---------- the client ---------- *)

(* /repo/src/client/main.c:34 *)
Definition CLIENT_OK : Z := 0.
(* /repo/src/client/main.c:35 *)
Definition CLIENT_ERROR : Z := 1.
(* /repo/src/client/main.c:36 *)
Definition CLIENT_RESTORE_WARNINGS : Z := 2.
(* /repo/src/client/main.c:37 *)
Definition CLIENT_SERVER_TIMER_NOT_MET : Z := 3.
(* /repo/src/client/main.c:38 *)
Definition CLIENT_COULD_NOT_CONNECT : Z := 4.
(* /repo/src/client/main.c:39 *)
Definition CLIENT_SERVER_MAX_PARALLEL_BACKUPS : Z := 5.
(* /repo/src/client/main.c:42 *)
Definition CLIENT_RECONNECT : Z := 100.

(* the scripts of a client: /repo/src/client/main.c:119-120, 148-200 for backups, 387-388, 390-434 for restores.
   [sc_glob] is glob_after_script_pre, used for backups only. *)
Record scripts := mkscripts { sc_pre : option bytes; sc_pre_args : list bytes; sc_post : option bytes;
  sc_post_args : list bytes; sc_reserved : bool; sc_onfail : bool; sc_glob : bool }.

(* what the client does, in order: a script, the globs again, the backup itself (with the level of compression
   in force if the server gave one), the restore or verification itself
   (/repo/src/client/main.c:162, 169, 174, 195, 404, 411, 430) *)
Inductive cdo : Type := DScript (cmd : list bytes) | DGlob | DBackup (resume : bool) (comp : option Z) | DRestore.

(* what comes of it: /repo/src/client/main.c:162, 169, 174, 195 *)
Record outcome := mkoutcome { oc_pre : sout; oc_glob : bool; oc_work : bool; oc_post : sout }.

(* /repo/src/client/main.c:150-161, 180-192: the arguments before those of the user *)
Definition reserved_args (script : bytes) (reserved : bool) (a1 a2 : bytes) : list bytes :=
  script :: if reserved then [a1; a2; str "reserved3"; str "reserved4"; str "reserved5"] else [].

(* /repo/src/client/main.c:148-172: the script before; the globs are done again even if the script has failed *)
Definition run_pre (s : scripts) (o : outcome) : list cdo * Z :=
  match sc_pre s with
  | None => ([], CLIENT_OK)
  | Some p =>
    let d := match script_cmd (reserved_args p (sc_reserved s) (str "pre") (str "reserved2")) (sc_pre_args s) with
             | Some c => [DScript c] | None => [] end in
    let r := if script_ret (oc_pre o) =? 0 then CLIENT_OK else CLIENT_ERROR in
    if sc_glob s then (d ++ [DGlob], if oc_glob o then r else CLIENT_ERROR) else (d, r)
  end.

(* /repo/src/client/main.c:177-199, 414-434: the script after *)
Definition run_post (s : scripts) (o : outcome) (ret : Z) : list cdo * Z :=
  match sc_post s with
  | None => ([], ret)
  | Some p =>
    if (ret =? CLIENT_OK) || sc_onfail s then
      (match script_cmd (reserved_args p (sc_reserved s) (str "post") (if ret =? 0 then str "0" else str "1")) (sc_post_args s) with
       | Some c => [DScript c] | None => [] end,
       if script_ret (oc_post o) =? 0 then ret else CLIENT_ERROR)
    else ([], ret)
  end.

(* /repo/src/client/main.c:113-215 (backup_wrapper).  None: undefined behaviour.  [dirs]: there are paths to back
   up.  Simplification: logging the overriding settings works. *)
Definition backup_wrapper (s : scripts) (timercheck dirs : bool) (msgs : list (Z * bytes)) (o : outcome) : option (list cdo * Z) :=
  if negb dirs then Some ([], CLIENT_ERROR)
  else
    let work (resume : bool) (comp : option Z) :=
      if timercheck then Some ([], CLIENT_OK)
      else
        let '(d1, r1) := run_pre s o in
        let '(d2, r2) := if r1 =? CLIENT_OK then ([DBackup resume comp], if oc_work o then CLIENT_OK else CLIENT_ERROR)
                         else ([], r1) in
        let '(d3, r3) := run_post s o r2 in
        Some (d1 ++ d2 ++ d3, r3) in
    match check_timer msgs with
    | RUB => None
    | RMax => Some ([], CLIENT_SERVER_MAX_PARALLEL_BACKUPS)
    | RNotMet => Some ([], CLIENT_SERVER_TIMER_NOT_MET)
    | RErr => Some ([], CLIENT_ERROR)
    | RMet => work false None
    | RGo resume comp => work resume comp
    end.

(* /repo/src/client/main.c:383-442 (restore_wrapper); [warnings] is the count of CMD_WARNING at the end *)
Definition restore_wrapper (s : scripts) (o : outcome) (warnings : Z) : list cdo * Z :=
  let '(d1, r1) := run_pre (mkscripts (sc_pre s) (sc_pre_args s) (sc_post s) (sc_post_args s) (sc_reserved s) (sc_onfail s) false) o in
  let '(d2, r2) := if r1 =? CLIENT_OK then ([DRestore], if oc_work o then CLIENT_OK else CLIENT_ERROR) else ([], r1) in
  let '(d3, r3) := run_post s o r2 in
  (d1 ++ d2 ++ d3, if (r3 =? CLIENT_OK) && negb (warnings =? 0) then CLIENT_RESTORE_WARNINGS else r3).

(* /repo/src/action.h:4-23: the actions; those that only list or compare are one *)
Inductive caction : Type := ABackup | ABackupTimed | ATimerCheck | ARestore | AVerify | AEstimate | ADelete | AMonitor | AList | AStatus.

(* One connection, /repo/src/client/main.c:444-575: does it stand; are the buffers set up; what initial_comms
   returns and to which action it changes (a restore the server asks for, C93-C95); what the work returns (the
   wrappers their code, the others 0 or an error); are the last bytes sent. *)
Record session := mksession { n_connect : bool; n_setup : bool; n_comms : Z; n_act : caction; n_work : Z; n_flush : bool }.

(* /repo/src/client/main.c:506-554: which actions come to the flush with any code, and which go to error *)
Definition has_wrapper (a : caction) : bool :=
  match a with ABackup | ABackupTimed | ATimerCheck | ARestore | AVerify => true | _ => false end.

(* /repo/src/client/main.c:505-561.  An estimate has no connection, there is nothing to flush
   (/repo/src/asfd.c:804). *)
Definition session_work (a : caction) (n : session) : Z :=
  let flushed := match a with AEstimate => true | _ => n_flush n end in
  if has_wrapper a then if flushed then n_work n else CLIENT_ERROR
  else if n_work n =? 0 then if flushed then CLIENT_OK else CLIENT_ERROR
  else CLIENT_ERROR.

(* /repo/src/client/main.c:444-575 (do_client).  Simplification: allocating the counters works. *)
Definition do_client (a : caction) (n : session) : Z :=
  match a with
  | AStatus => if n_work n =? 0 then CLIENT_OK else CLIENT_ERROR
  | AEstimate => session_work AEstimate n
  | _ =>
    if negb (n_connect n) then CLIENT_COULD_NOT_CONNECT
    else if negb (n_setup n) then CLIENT_OK                       (* 488-491: to end with what ret was at first *)
    else if negb (n_comms n =? 0) then n_comms n
    else session_work (n_act n) n
  end.

(* /repo/src/client/main.c:609-646: is it over, or on to the next server *)
Definition goes_on (a : caction) (on_error : bool) (ret : Z) : bool :=
  if ret =? CLIENT_ERROR then match a with ABackup | ABackupTimed => on_error | _ => false end
  else ret =? CLIENT_COULD_NOT_CONNECT.

(* /repo/src/client/main.c:598-647, the loop.  [e i] is the session of the call number i of do_client.  The result are
   the servers connected to, each with how many failovers it was told are left, and the exit status. *)
Fixpoint client_loop (a : caction) (on_error : bool) (e : nat -> session) (i : nat) (server : bytes) (failover : list bytes)
  : list (bytes * nat) * Z :=
  let r1 := do_client a (e i) in
  let '(t, i2, r) :=
    if r1 =? CLIENT_RECONNECT then
      ([(server, length failover); (server, length failover)], S (S i), do_client a (e (S i)))
    else ([(server, length failover)], S i, r1) in
  if goes_on a on_error r then
    match failover with
    | [] => (t, r)
    | s :: f => let '(t2, r2) := client_loop a on_error e i2 s f in (t ++ t2, r2)
    end
  else (t, r).

(* /repo/src/client/main.c:577-656 (client) *)
Definition client_main (enabled : bool) (a : caction) (on_error : bool) (e : nat -> session) (server : bytes) (failover : list bytes)
  : list (bytes * nat) * Z :=
  if enabled then client_loop a on_error e 0 server failover else ([], CLIENT_OK).

(* ---------- the scripts of the server ---------- *)

(* /repo/src/server/child.c:147-205, 299-325: what is configured for the client.  An n_failure_script that is not
   set is None. *)
Record sscripts := mksscripts { ss_pre : option bytes; ss_pre_args : list bytes; ss_pre_notify : bool;
  ss_post : option bytes; ss_post_args : list bytes; ss_post_notify : bool; ss_onfail : bool; ss_cname : bytes;
  ss_nscript : option bytes; ss_nargs : list bytes; ss_nleft : bool; ss_failovers : bool }.

(* /repo/src/server/child.c:147-325: the script before, the action, the script after; a notification *)
Inductive sdo : Type := SDScript (cmd : list bytes) | SDAction | SDNotify (cmd : list bytes).

(* /repo/src/server/child.c:207-231 (get_action_from_client): the name of the action for the scripts *)
Fixpoint upto_space (s : bytes) : bytes :=
  match s with [] => [] | c :: r => if c =? 32 then [] else c :: upto_space r end.
(* /repo/src/server/child.c:207-231 *)
Definition action_name (b : bytes) : bytes :=
  if beqb b (str "backupphase1") then str "backup"
  else if beqb b (str "backupphase1timed") then str "backup_timed"
  else upto_space b.

(* /repo/src/server/child.c:163-165 *)
Definition zero_one (r : Z) : bytes := if r =? 0 then str "0" else str "1".

(* /repo/src/server/child.c:147-205 (run_server_script): how the script ends, and what it printed *)
Definition run_server_script (c : sscripts) (when action script : bytes) (user : list bytes) (notify : bool)
  (backup_ret timer_ret : Z) (o : sout) (printed : bytes) : list sdo * Z :=
  let d := match script_cmd [script; when; action; ss_cname c; zero_one backup_ret; zero_one timer_ret] user with
           | Some x => [SDScript x] | None => [] end in
  if script_ret o =? 0 then (d, 0)
  else if negb notify then (d, -1)
  else if starts_with action (str "backup") && ss_nleft c && ss_failovers c then (d, -1)
  else match ss_nscript c with
       | None => (d, -1)
       | Some n => match script_cmd [n; ss_cname c; []; printed; []; []; []] (ss_nargs c) with
                   | Some x => (d ++ [SDNotify x], -1) | None => (d, -1) end
       end.

(* what comes of it: the scripts with their output, the result of the action and what it says about the timer
   (/repo/src/server/child.c:299-325) *)
Record soutcome := mksoutcome { so_pre : sout; so_pre_out : bytes; so_action : Z; so_timer : Z; so_post : sout; so_post_out : bytes }.

(* /repo/src/server/child.c:295-330 (child, from the action of the client on) *)
Definition child_scripts (c : sscripts) (request : bytes) (o : soutcome) : list sdo * Z :=
  let action := action_name request in
  let '(d1, r1) := match ss_pre c with
                   | None => ([], 0)
                   | Some s => run_server_script c (str "pre") action s (ss_pre_args c) (ss_pre_notify c) 0 0 (so_pre o) (so_pre_out o)
                   end in
  let '(d2, r2, t) := if r1 =? 0 then ([SDAction], so_action o, so_timer o) else ([], r1, 0) in
  match ss_post c with
  | None => (d1 ++ d2, r2)
  | Some s =>
    if negb (r2 =? 0) && negb (ss_onfail c) then (d1 ++ d2, r2)
    else let '(d3, r3) := run_server_script c (str "post") action s (ss_post_args c) (ss_post_notify c) r2 t (so_post o) (so_post_out o) in
         (d1 ++ d2 ++ d3, r3)
  end.

(* ---------- what a child does from time to time ---------- *)

(* the result of putting a report into the buffer: /repo/src/server/child.c:60-67 *)
Inductive append : Type := AppOk | AppBlocked | AppErr.
(* the static variables of write_status and check_timer_script: /repo/src/server/child.c:30-32, 83.  [t_pend] is the
   report that could not be written, None when l is 0. *)
Record tstate := mktstate { t_last : Z; t_pend : option bytes; t_tlast : Z }.
(* one call of timed_operation: the time, the state of the child, the line the counters give now, what the buffer
   says, and what the timer script says *)
Record tcall := mktcall { tc_now : Z; tc_status : Z; tc_line : bytes; tc_append : append; tc_timer : Z }.
(* what is done: a report, a run of the timer script (/repo/src/server/child.c:60, 104) *)
Inductive tdo : Type := TReport (line : bytes) | TTimer.

(* /repo/src/server/child.c:24-72 (write_status) in a child with a pipe and the number of its backup *)
Definition write_status (s : tstate) (c : tcall) : tstate * list tdo * Z :=
  let diff := tc_now c - t_last s in
  if diff <? 2 then (mktstate (if diff <? 0 then tc_now c else t_last s) (t_pend s) (t_tlast s), [], 0)
  else
    let line := match t_pend s with Some l => l | None => tc_line c end in
    match tc_append c with
    | AppOk => (mktstate (tc_now c) None (t_tlast s), [TReport line], 0)
    | AppBlocked => (mktstate (tc_now c) (Some line) (t_tlast s), [], 0)
    | AppErr => (mktstate (tc_now c) (Some line) (t_tlast s), [], -1)
    end.

(* /repo/src/server/child.c:74-109 (check_timer_script); [interval] in minutes *)
Definition check_timer_script (interval : Z) (s : tstate) (c : tcall) : tstate * list tdo * Z :=
  if negb ((tc_status c =? 1) || (tc_status c =? 2)) then (s, [], 0)
  else if interval * 60 =? 0 then (s, [], 0)
  else
    let diff := tc_now c - t_tlast s in
    if diff <? interval * 60 then (mktstate (t_last s) (t_pend s) (if diff <? 0 then tc_now c else t_tlast s), [], 0)
    else (mktstate (t_last s) (t_pend s) (tc_now c), [TTimer], tc_timer c).

(* /repo/src/server/child.c:111-131 (timed_operation); [timed]: the client asked for a timed backup *)
Definition timed_operation (timed : bool) (interval : Z) (s : tstate) (c : tcall) : tstate * list tdo * Z :=
  let '(s1, d1, r1) := write_status s c in
  if negb (r1 =? 0) then (s1, d1, -1)
  else if negb timed then (s1, d1, 0)
  else let '(s2, d2, r2) := check_timer_script interval s1 c in (s2, d1 ++ d2, r2).

(* the calls of a backup, up to the one that fails: /repo/src/server/child.c:111-131.  Each thing done with its time. *)
Fixpoint timed_run (timed : bool) (interval : Z) (s : tstate) (cs : list tcall) : list (Z * tdo) * bool :=
  match cs with
  | [] => ([], true)
  | c :: r =>
    let '(s1, d, ret) := timed_operation timed interval s c in
    let d := map (fun x => (tc_now c, x)) d in
    if ret =? 0 then let '(d2, ok) := timed_run timed interval s1 r in (d ++ d2, ok) else (d, false)
  end.
