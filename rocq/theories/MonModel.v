(* Model of the status monitor of the server: how a request is taken apart, what
   is told about which client, what the messages from the main process do.
   /repo/src/server/monitor/status_server.c, json_output.c and cstat.c,
   /repo/src/cstat.c *)
From Verif Require Import Bytes FrameModel DpthModel BuModel CmdModel UtilModel AuthModel CntrModel.

(* ---------- requests ---------- *)

(* ':' *)
Definition colon : Z := 58.

(* The five strings status_server_parse_cmd() fills, None being NULL:
   /repo/src/server/monitor/status_server.c:252-256 *)
Record req := mkreq { q_command : option bytes; q_client : option bytes; q_backup : option bytes;
                      q_log : option bytes; q_browse : option bytes }.
(* /repo/src/server/monitor/status_server.c:252-256 *)
Definition noreq : req := mkreq None None None None None.
(* What current points to: /repo/src/server/monitor/status_server.c:175,197-204 *)
Inductive key := KCommand | KClient | KBackup | KLog.
(* /repo/src/server/monitor/status_server.c:197-204,216-217 *)
Definition key_of (t : bytes) : option key :=
  if beqb t [106] then Some KCommand
  else if beqb t [99] then Some KClient
  else if beqb t [98] then Some KBackup
  else if beqb t [108] then Some KLog
  else None.
(* *current=strdup_w(tok): /repo/src/server/monitor/status_server.c:191 *)
Definition set_key (k : key) (v : bytes) (r : req) : req :=
  match k with
  | KCommand => mkreq (Some v) (q_client r) (q_backup r) (q_log r) (q_browse r)
  | KClient => mkreq (q_command r) (Some v) (q_backup r) (q_log r) (q_browse r)
  | KBackup => mkreq (q_command r) (q_client r) (Some v) (q_log r) (q_browse r)
  | KLog => mkreq (q_command r) (q_client r) (q_backup r) (Some v) (q_browse r)
  end.
(* /repo/src/server/monitor/status_server.c:211 *)
Definition set_browse (v : bytes) (r : req) : req :=
  mkreq (q_command r) (q_client r) (q_backup r) (q_log r) (Some v).
(* status_server_parse_cmd(): /repo/src/server/monitor/status_server.c:165-225.
   The calls of strtok() are put in line: cur is the token so far, backwards.
   Memory is to be had. *)
Fixpoint parse_cmd (s cur : bytes) (current : option key) (r : req) : req :=
  match s with
  | [] => match cur, current with
          | _ :: _, Some k => set_key k (rev cur) r
          | _, _ => r
          end
  | c :: s' =>
    if c =? colon then
      match cur with
      | [] => parse_cmd s' [] current r
      | _ :: _ =>
        match current with
        | Some k => parse_cmd s' [] None (set_key k (rev cur) r)           (* 189-194 *)
        | None => if beqb (rev cur) [112] then set_browse s' r             (* 205-215 *)
                  else parse_cmd s' [] (key_of (rev cur)) r
        end
      end
    else parse_cmd s' (c :: cur) current r
  end.

(* What the ncurses client asks for on its pages: /repo/src/client/monitor/status_client_ncurses.c:919-972 *)
Inductive page := PClients | PBackups | PBackup (bno : Z) | PLog (bno : Z) (lname : bytes).
(* request_status(): /repo/src/client/monitor/status_client_ncurses.c:915-989,
   with a backup selected where one is needed. *)
Definition request_status (client : bytes) (p : page) : bytes :=
  cap 256
    match p with
    | PClients => str "c:" ++ [10%Z]
    | PBackups => str "c:" ++ client ++ [10%Z]
    | PBackup b => str "c:" ++ client ++ str ":b:" ++ fmt_u b ++ [10%Z]
    | PLog b l => str "c:" ++ client ++ str ":b:" ++ fmt_u b ++ str ":l:" ++ l ++ [10%Z]
    end.

(* isspace() in the C locale: /repo/src/asfd.c:100 *)
Definition isspace_c (c : Z) : bool := (c =? 32) || ((9 <=? c) && (c <=? 13)).
(* Taking the white space off the end: /repo/src/asfd.c:98-101 *)
Fixpoint strip_front (s : bytes) : bytes :=
  match s with [] => [] | c :: r => if isspace_c c then strip_front r else s end.
(* /repo/src/asfd.c:98-101 *)
Definition strip_end (s : bytes) : bytes := rev (strip_front (rev s)).
(* parse_readbuf_line_buf(): /repo/src/asfd.c:81-107.  What has been read so
   far; the line taken from it, if there is one, and what stays. *)
Fixpoint take_line (buf cur : bytes) : option (bytes * bytes) :=
  match buf with
  | [] => None
  | c :: r => if c =? 10 then Some (strip_end (rev (c :: cur)), r) else take_line r (c :: cur)
  end.

(* ---------- clients ---------- *)

(* enum run_status: /repo/src/cstat.h:10-15 *)
Inductive runst := RUnset | RIdle | RRunning.
(* A struct cntr in the list of a client: /repo/src/cntr.h:61-88.  k_found: the
   flag found, k_ents the counters. *)
Record chl := mkchl { k_pid : Z; k_bno : Z; k_status : Z; k_found : bool; k_ents : list ent }.
(* The flags of a backup that matter here: /repo/src/bu.h:4-18 *)
Inductive flag := FHardlinked | FDeletable | FWorking | FFinishing | FCurrent | FManifest
  | FLogBackup | FLogRestore | FLogVerify | FStatsBackup | FStatsRestore | FStatsVerify.
(* A backup found on disk: number, time, flags; the lines of its log files (None:
   neither file can be opened), and what browsing gives for a directory (None:
   an error).  /repo/src/bu.h:23-42, /repo/src/server/monitor/json_output.c:106-166 *)
Record mbu := mkmbu { m_bno : Z; m_time : Z; m_flag : flag -> bool;
  m_log : bytes -> option (list bytes); m_browse : bytes -> option (list bytes) }.
(* struct cstat: /repo/src/cstat.h:17-39.  w_disk: what bu_get_list_with_working()
   finds, newest first; None: it fails.  w_bu: the list kept since
   reload_from_clientdir() or cstat_set_backup_list(). *)
Record cst := mkcst { w_name : bytes; w_labels : list bytes; w_permitted : bool; w_run : runst;
  w_cntrs : list chl; w_disk : option (list mbu); w_bu : list mbu }.

(* cstat_permitted(): /repo/src/server/monitor/cstat.c:17-46.  mname: the name of
   the client that watches, msuper: it has the option super_client; restore and
   super: the lists of the client watched. *)
Definition permitted (name : bytes) (mname : option bytes) (msuper : bool) (restore super : list bytes) : bool :=
  match mname with
  | None => false
  | Some m => if beqb name m then true
              else if msuper then false
              else if existsb (fun r => beqb m r) restore then true
              else existsb (fun r => beqb m r) super
  end.

(* cstat_set_run_status(): /repo/src/server/monitor/cstat.c:244-249 *)
Definition set_run (s : runst) (c : cst) : cst :=
  if w_permitted c then mkcst (w_name c) (w_labels c) (w_permitted c) s (w_cntrs c) (w_disk c) (w_bu c) else c.
(* /repo/src/cstat.h:17-39 *)
Definition set_cntrs (l : list chl) (c : cst) : cst :=
  mkcst (w_name c) (w_labels c) (w_permitted c) (w_run c) l (w_disk c) (w_bu c).
(* cstat_set_backup_list(): /repo/src/server/monitor/cstat.c:303-324 *)
Definition set_backup_list (c : cst) : cst :=
  mkcst (w_name c) (w_labels c) (w_permitted c) (w_run c) (w_cntrs c) (w_disk c)
    (if w_permitted c then match w_disk c with Some l => l | None => [] end else []).

(* ---------- messages from the main process ---------- *)

(* The part up to a tab: /repo/src/cntr.c:832-838 *)
Fixpoint upto_tab (s : bytes) : bytes :=
  match s with [] => [] | c :: r => if c =? 9 then [] else c :: upto_tab r end.
(* The part behind the first tab: /repo/src/server/monitor/status_server.c:26-28 *)
Fixpoint after_tab (s : bytes) : option bytes :=
  match s with [] => None | c :: r => if c =? 9 then Some r else after_tab r end.

(* str_to_cntr() into an entry of the list: /repo/src/cntr.c:855-911 *)
Definition fill (s : bytes) (h : chl) : Z * chl :=
  let p := str_to_cntr s (k_pid h) (k_bno h) (k_status h) (k_ents h) in
  (p_ret p, mkchl (p_pid p) (p_bno p) (p_status p) (k_found h) (p_ents p)).
(* The first entry of that pid, changed in place: /repo/src/server/monitor/status_server.c:45-57.
   None: there is none. *)
Fixpoint fill_pid (s : bytes) (pid : Z) (l : list chl) : option (Z * list chl) :=
  match l with
  | [] => None
  | h :: r => if k_pid h =? pid then let '(e, h) := fill s h in Some (e, h :: r)
              else match fill_pid s pid r with Some (e, r) => Some (e, h :: r) | None => None end
  end.
(* cntr_alloc() and cntr_init(): /repo/src/server/monitor/status_server.c:51-53,
   /repo/src/cntr.c:97-165 *)
Definition new_chl (pid : Z) : chl := mkchl pid 0 0 false table.
(* One client in parse_cntr_data(): /repo/src/server/monitor/status_server.c:39-57 *)
Definition cntr_one (s : bytes) (pid : Z) (c : cst) : Z * cst :=
  let c := set_run RRunning c in
  match fill_pid s pid (w_cntrs c) with
  | Some (e, l) => (e, set_cntrs l c)
  | None => let '(e, h) := fill s (new_chl pid) in (e, set_cntrs (h :: w_cntrs c) c)
  end.
(* The loop of parse_cntr_data(): /repo/src/server/monitor/status_server.c:37-58.
   None: it returns -1. *)
Fixpoint cntr_all (s cname : bytes) (pid : Z) (l : list cst) : option (list cst) :=
  match l with
  | [] => Some []
  | c :: r => if beqb (w_name c) cname
              then let '(e, c) := cntr_one s pid c in
                   if e =? 0 then match cntr_all s cname pid r with Some r => Some (c :: r) | None => None end
                   else None
              else match cntr_all s cname pid r with Some r => Some (c :: r) | None => None end
  end.
(* parse_cntr_data(): /repo/src/server/monitor/status_server.c:15-67 *)
Definition parse_cntr_data (s : bytes) (l : list cst) : option (list cst) :=
  match after_tab s with
  | None => Some l
  | Some d => let '(n, pid, _) := extract_client_pid_bno (upto_tab d) (-1) 0 in cntr_all s n pid l
  end.

(* The first entry of that pid is marked: /repo/src/server/monitor/status_server.c:122-129 *)
Fixpoint mark (pid bno : Z) (l : list chl) : list chl :=
  match l with
  | [] => []
  | h :: r => if k_pid h =? pid then mkchl (k_pid h) bno (k_status h) true (k_ents h) :: r
              else h :: mark pid bno r
  end.
(* One token of parse_clients_list(): the first client of that name.
   /repo/src/server/monitor/status_server.c:116-131 *)
Fixpoint mark_client (n : bytes) (pid bno : Z) (l : list cst) : list cst :=
  match l with
  | [] => []
  | c :: r => if beqb (w_name c) n
              then let c := set_run RRunning c in set_cntrs (mark pid bno (w_cntrs c)) c :: r
              else c :: mark_client n pid bno r
  end.
(* /repo/src/server/monitor/status_server.c:109-133 *)
Fixpoint mark_all (ts : list bytes) (l : list cst) : list cst :=
  match ts with
  | [] => l
  | t :: r => let '(n, pid, bno) := extract_client_pid_bno t (-1) 0 in mark_all r (mark_client n pid bno l)
  end.
(* Before: nothing found, everything idle.  /repo/src/server/monitor/status_server.c:101-107 *)
Definition unmark (c : cst) : cst :=
  set_run RIdle
    (set_cntrs (map (fun h => mkchl (k_pid h) (k_bno h) (k_status h) false (k_ents h)) (w_cntrs c)) c).
(* clean_up_cntrs(): /repo/src/server/monitor/status_server.c:69-88.  The entry
   taken out is the one looked at, the search starts again at the head. *)
Definition clean_up (c : cst) : cst := set_cntrs (filter k_found (w_cntrs c)) c.
(* parse_clients_list(): /repo/src/server/monitor/status_server.c:90-138 *)
Definition parse_clients_list (s : bytes) (l : list cst) : list cst :=
  match l, toks s [] with
  | [], _ => []
  | _, [] => l
  | _, _ :: ts => map clean_up (mark_all ts (map unmark l))
  end.
(* parse_parent_data(): /repo/src/server/monitor/status_server.c:143-160 *)
Definition parse_parent_data (s : bytes) (l : list cst) : option (list cst) :=
  if RestoreModel.starts_with s (str "cntr") then parse_cntr_data s l
  else if RestoreModel.starts_with s (str "clients") then Some (parse_clients_list s l)
  else Some l.
(* update_status_child_client_lists(): /repo/src/server/main.c:790-815.  ids: the
   names, pids and numbers of backups the children first reported (699-718). *)
Definition clients_message (ids : list (bytes * Z * Z)) : bytes :=
  str "clients" ++
  flat_map (fun i => let '(n, p, b) := i in 9 :: n ++ [46] ++ fmt_d p ++ [46] ++ fmt_d b) ids.

(* ---------- answers ---------- *)

(* A backup in an answer: number, time, flags; counters for old clients; what
   logs there are, the log asked for, the directory asked for.
   /repo/src/server/monitor/json_output.c:218-301 *)
Record obu := mkobu { o_bno : Z; o_time : Z; o_flags : list flag; o_counters : option (list row);
  o_logs : option (list flag); o_log : option (flag * list bytes); o_browse : option (bytes * list bytes) }.
(* A child of the server in an answer: /repo/src/server/monitor/json_output.c:318-340 *)
Record och := mkoch { och_pid : Z; och_bno : Z; och_status : Z; och_counters : list row }.
(* A client in an answer: /repo/src/server/monitor/json_output.c:342-372.
   o_phase: for old clients. *)
Record ocl := mkocl { o_name : bytes; o_labels : list bytes; o_run : runst; o_children : list och;
  o_phase : option Z; o_backups : list obu }.
(* What comes of a request: a warning, clients, an error that ends the status
   server, or a NULL pointer followed.  /repo/src/server/monitor/status_server.c:309-400 *)
Inductive answer := AWarn (m : bytes) | AClients (l : list ocl) | AFail | ACrash.

(* version_to_long("2.1.8"): /repo/src/server/monitor/json_output.c:62-63 *)
Definition version_2_1_8 : Z := 20108.
(* The flags listed first: /repo/src/server/monitor/json_output.c:233-238 *)
Definition some_flags : list flag := [FHardlinked; FDeletable; FWorking; FFinishing; FCurrent; FManifest].
(* The flags of files with logs and statistics: /repo/src/server/monitor/json_output.c:257-262 *)
Definition log_flags : list flag := [FLogBackup; FLogRestore; FLogVerify; FStatsBackup; FStatsRestore; FStatsVerify].
(* Their names: /repo/src/server/monitor/json_output.c:267-278 *)
Definition log_name (f : flag) : bytes :=
  match f with
  | FLogBackup => str "backup" | FLogRestore => str "restore" | FLogVerify => str "verify"
  | FStatsBackup => str "backup_stats" | FStatsRestore => str "restore_stats" | FStatsVerify => str "verify_stats"
  | _ => []
  end.
(* What is made of one backup: it may fail or crash.
   /repo/src/server/monitor/json_output.c:218-301 *)
Inductive part (A : Type) := Good (a : A) | Fail | Crash.
Arguments Good {A} a.
Arguments Fail {A}.
Arguments Crash {A}.
(* Putting parts together, in order.  The first that is not good ends it:
   /repo/src/server/monitor/json_output.c:228-300 *)
Definition bind {A B : Type} (x : part A) (f : A -> part B) : part B :=
  match x with Good a => f a | Fail => Fail | Crash => Crash end.
(* do_counters() of the counters of a child: /repo/src/server/monitor/json_output.c:168-216.
   The time it writes into them is written again before it is read, and not kept
   here. *)
Definition counters_now (now : Z) (h : chl) : list row := do_counters now (k_ents h).
(* flag_wrap_str_zp() for the six files in turn: /repo/src/server/monitor/json_output.c:139-166,265-280 *)
Definition send_log (b : mbu) (logfile : option bytes) : part (option (flag * list bytes)) :=
  match logfile with
  | None => Good None
  | Some n =>
    match find (fun f => m_flag b f && beqb n (log_name f)) log_flags with
    | None => Good None
    | Some f => match m_log b n with Some ls => Good (Some (f, ls)) | None => Fail end
    end
  end.
(* json_send_backup() with print_flags: /repo/src/server/monitor/json_output.c:218-301 *)
Definition send_backup (now pv : Z) (c : cst) (b : mbu) (logfile browse : option bytes) : part obu :=
  bind (if (m_flag b FWorking || m_flag b FFinishing) && (pv <=? version_2_1_8)
        then match w_cntrs c with
             | [] => Crash                                                 (* 245, 174: cntr is NULL *)
             | h :: _ => Good (Some (counters_now now h))
             end
        else Good None)
    (fun cn =>
     if existsb (m_flag b) log_flags then
       bind (send_log b logfile) (fun lg =>
       bind (match browse with
             | None => Good None
             | Some d => match m_browse b d with Some l => Good (Some (d, l)) | None => Fail end
             end) (fun br =>
       Good (mkobu (m_bno b) (m_time b) (filter (m_flag b) some_flags) cn
               (Some (filter (m_flag b) log_flags)) lg br)))
     else Good (mkobu (m_bno b) (m_time b) (filter (m_flag b) some_flags) cn None None None)).
(* /repo/src/server/monitor/json_output.c:389-394,407-413 *)
Fixpoint send_backups (now pv : Z) (c : cst) (l : list mbu) (logfile browse : option bytes) : part (list obu) :=
  match l with
  | [] => Good []
  | b :: r => bind (send_backup now pv c b logfile browse) (fun o =>
              bind (send_backups now pv c r logfile browse) (fun os => Good (o :: os)))
  end.
(* json_send_client_start(), the backups, json_send_client_end():
   /repo/src/server/monitor/json_output.c:342-418.  Writing is taken to succeed. *)
Definition send_client (now pv : Z) (c : cst) (l : list mbu) (logfile browse : option bytes) : part ocl :=
  bind (send_backups now pv c l logfile browse) (fun os =>
  Good (mkocl (w_name c) (w_labels c) (w_run c)
    (if version_2_1_8 <? pv
     then map (fun h => mkoch (k_pid h) (k_bno h) (k_status h) (counters_now now h)) (w_cntrs c) else [])
    (if version_2_1_8 <? pv then None
     else match w_cntrs c with [] => None | h :: _ => Some (k_status h) end)
    os)).
(* bu_find(): /repo/src/bu.c:67-80.  The list is given whole; when no more than
   one backup has the flag, where the search starts makes no difference. *)
Definition bu_find (f : flag) (l : list mbu) : option mbu := find (fun b => m_flag b f) l.
(* bu_find_current() and bu_find_working_or_finishing() as given to
   json_send_client_backup(): /repo/src/server/monitor/json_output.c:446-450, /repo/src/bu.c:82-92 *)
Definition opt {A : Type} (o : option A) : list A := match o with Some a => [a] | None => [] end.
(* /repo/src/server/monitor/json_output.c:446-450, /repo/src/bu.c:82-92 *)
Definition latest (l : list mbu) : list mbu :=
  opt (bu_find FCurrent l) ++
  opt (match bu_find FWorking l with Some b => Some b | None => bu_find FFinishing l end).
(* The loop of json_send(): /repo/src/server/monitor/json_output.c:443-451 *)
Fixpoint send_clients (now pv : Z) (l : list cst) : part (list ocl) :=
  match l with
  | [] => Good []
  | c :: r => if w_permitted c
              then bind (send_client now pv c (latest (w_bu c)) None None) (fun o =>
                   bind (send_clients now pv r) (fun os => Good (o :: os)))
              else send_clients now pv r
  end.
(* What json_send() returns to its caller: /repo/src/server/monitor/json_output.c:420-458 *)
Definition answer_of (x : part (list ocl)) : answer :=
  match x with Good l => AClients l | Fail => AFail | Crash => ACrash end.

(* strip_trailing_slashes(): /repo/src/handy.c:851-864, on the string backwards *)
Fixpoint drop_slashes (s : bytes) : bytes :=
  match s with
  | [] => []
  | c :: r => if c =? slash then match r with [] => s | _ => drop_slashes r end else s
  end.
(* /repo/src/handy.c:851-864 *)
Definition strip_trailing_slashes (s : bytes) : bytes := rev (drop_slashes (rev s)).

(* The files that may be asked for: /repo/src/server/monitor/status_server.c:371-377 *)
Definition supported (n : bytes) : bool :=
  existsb (fun x => beqb n x)
    [str "manifest"; str "backup"; str "restore"; str "verify"; str "backup_stats"; str "restore_stats"; str "verify_stats"].
(* cstat_get_by_name(): /repo/src/cstat.c:138-143, and cstat_set_backup_list() on
   what it finds: /repo/src/server/monitor/status_server.c:332-342 *)
Fixpoint by_name (n : bytes) (l : list cst) : option cst :=
  match l with [] => None | c :: r => if beqb (w_name c) n then Some c else by_name n r end.
(* /repo/src/server/monitor/status_server.c:332-342 *)
Fixpoint load_by_name (n : bytes) (l : list cst) : list cst :=
  match l with [] => [] | c :: r => if beqb (w_name c) n then set_backup_list c :: r else c :: load_by_name n r end.

(* The name of the command that sets the version: /repo/src/server/monitor/status_server.c:275 *)
Definition pv_cmd : bytes := str "peer_version=".
(* The part of parse_client_data() that deals with a command: /repo/src/server/monitor/status_server.c:272-307.
   The new version and the warning.  None: it fails.  Turning pretty printing and
   response markers on and off is left out but for the warning.  A version too
   large for a long counts as a failure. *)
Definition do_command (s : bytes) (pv : Z) : option (Z * bytes) :=
  if beqb s (str "pretty-print-on") then Some (pv, str "Pretty print on")
  else if beqb s (str "pretty-print-off") then Some (pv, str "Pretty print off")
  else if beqb s (str "response-markers-on") then Some (pv, str "Response markers on")
  else if beqb s (str "response-markers-off") then Some (pv, str "Response markers off")
  else if RestoreModel.starts_with s pv_cmd then
    match version_to_long (skipn (List.length pv_cmd) s) with
    | Some 0 | None => None
    | Some v => Some (v, str "Peer version updated")
    end
  else Some (pv, str "Unknown command").
(* parse_client_data(): /repo/src/server/monitor/status_server.c:248-406, without
   response markers.  The clients, the version and the answer. *)
Definition parse_client_data (now : Z) (s : bytes) (pv : Z) (l : list cst) : list cst * Z * answer :=
  let q := parse_cmd s [] None noreq in
  match q_command q with
  | Some cmd => match do_command cmd pv with
                | Some (pv, w) => (l, pv, AWarn w)
                | None => (l, pv, AFail)
                end
  | None =>
    let browse := option_map strip_trailing_slashes (q_browse q) in
    let logfile := match browse with Some _ => Some (str "manifest") | None => q_log q end in
    let bad_log := match logfile with Some n => negb (supported n) | None => false end in
    match q_client q with
    | Some n =>                                                            (* 330-349 *)
      match by_name n l with
      | None => (l, pv, AWarn (cap 256 (str "Could not find client: " ++ n)))
      | Some c0 =>
        let c := set_backup_list c0 in
        let l := load_by_name n l in
        match q_backup q with
        | Some b =>                                                        (* 350-368 *)
          if strtoul10 b =? 0 then (l, pv, AWarn (str "Could not get backup number"))
          else match find (fun u => m_bno u =? strtoul10 b) (w_bu c) with
               | None => (l, pv, AWarn (str "Backup not found"))
               | Some u =>
                 if bad_log then (l, pv, AWarn (str "File not supported"))
                 else (l, pv, answer_of (bind (send_client now pv c [u] logfile browse) (fun o => Good [o])))
               end
        | None =>
          if bad_log then (l, pv, AWarn (str "File not supported"))
          else (l, pv, answer_of (bind (send_client now pv c (w_bu c) None None) (fun o => Good [o])))
        end
      end
    | None =>
      if bad_log then (l, pv, AWarn (str "File not supported"))
      else (l, pv, answer_of (send_clients now pv l))
    end
  end.

(* What the status server sees: a message from the main process, or a request at
   a time.  /repo/src/server/monitor/status_server.c:408-415 *)
Inductive ev := EParent (s : bytes) | EReq (now : Z) (s : bytes).
(* The clients, the version, and what has been answered; None: it has stopped.
   /repo/src/server/monitor/status_server.c:513-537 *)
Fixpoint serve (evs : list ev) (pv : Z) (l : list cst) : list answer * option (list cst * Z) :=
  match evs with
  | [] => ([], Some (l, pv))
  | EParent s :: r => match parse_parent_data s l with
                      | Some l => serve r pv l
                      | None => ([], None)
                      end
  | EReq now s :: r =>
    let '(l, pv, a) := parse_client_data now s pv l in
    match a with
    | AFail | ACrash => ([a], None)
    | _ => let '(as_, z) := serve r pv l in (a :: as_, z)
    end
  end.
