(* Model of the exchange before the work begins, in which client and server tell
   each other what they support and want: /repo/src/client/extra_comms.c:19-291,
   /repo/src/server/extra_comms.c:21-515, incexc_send.c:95-129, incexc_recv.c:10-77,
   the answers of client/autoupgrade.c:25-88 and server/autoupgrade.c:11-113.
   Every message is a CMD_GEN one.  Each side is a machine that takes one message
   and gives the messages it sends before it reads again. *)
From Verif Require Import Bytes PathcmpModel FrameModel BuModel AuthModel ConfModel CntrModel IncexcModel RestoreModel TimerModel MonModel.

(* enum action: /repo/src/action.h:5-24, as far as it matters here *)
Inductive xaction := XBackup | XBackupTimed | XTimerCheck | XRestore | XMonitor | XOther.
(* enum rshash: /repo/src/conf.h:24-29 *)
Inductive rshash := RsUnset | RsMd4 | RsBlake2.
(* enum vss_restore: /repo/src/conf.h:31-36 *)
Inductive vss_restore := VssOff | VssStrip | VssOn.

(* get_int() of the option that is called f: /repo/src/conf.c:76-80 *)
Definition get_int (f : bytes) (c : conf) : Z :=
  match find (fun o => beqb (o_field o) f) c with Some o => match o_val o with VInt n => n | _ => 0 end | None => 0 end.
(* The tests at /repo/src/client/extra_comms.c:87,137,272 *)
Definition is_on (f : bytes) (c : conf) : bool := negb (get_int f c =? 0).

(* ---------- the client ---------- *)

(* What extra_comms_client() is given and leaves: /repo/src/client/extra_comms.c:34-35.
   x_os: autoupgrade_os, when autoupgrade_dir is set too.  x_uname: what uname()
   says.  x_failovers: the length of the list of servers left.  x_blake2:
   HAVE_BLAKE2. *)
Record cl := mkcl {
  x_conf : conf; x_os : option bytes; x_action : xaction; x_uname : option bytes; x_failovers : Z;
  x_vss : vss_restore; x_blake2 : bool;
  x_incexc : option bytes; x_cntr : bool; x_msg : bool; x_rshash : rshash }.
(* Set by conf_parse_incexcs_srestore() and conf_parse_incexcs_buf(): /repo/src/client/extra_comms.c:94,143 *)
Definition set_xconf (x : cl) (c : conf) : cl :=
  mkcl c (x_os x) (x_action x) (x_uname x) (x_failovers x) (x_vss x) (x_blake2 x) (x_incexc x) (x_cntr x) (x_msg x) (x_rshash x).
(* /repo/src/client/extra_comms.c:96 *)
Definition set_xaction (x : cl) (a : xaction) : cl :=
  mkcl (x_conf x) (x_os x) a (x_uname x) (x_failovers x) (x_vss x) (x_blake2 x) (x_incexc x) (x_cntr x) (x_msg x) (x_rshash x).
(* /repo/src/client/extra_comms.c:90,140 *)
Definition set_xincexc (x : cl) (t : option bytes) : cl :=
  mkcl (x_conf x) (x_os x) (x_action x) (x_uname x) (x_failovers x) (x_vss x) (x_blake2 x) t (x_cntr x) (x_msg x) (x_rshash x).
(* /repo/src/client/extra_comms.c:156 *)
Definition set_xcntr (x : cl) : cl :=
  mkcl (x_conf x) (x_os x) (x_action x) (x_uname x) (x_failovers x) (x_vss x) (x_blake2 x) (x_incexc x) true (x_msg x) (x_rshash x).
(* /repo/src/client/extra_comms.c:197 *)
Definition set_xmsg (x : cl) : cl :=
  mkcl (x_conf x) (x_os x) (x_action x) (x_uname x) (x_failovers x) (x_vss x) (x_blake2 x) (x_incexc x) (x_cntr x) true (x_rshash x).
(* /repo/src/client/extra_comms.c:202-212 *)
Definition set_xrshash (x : cl) (r : rshash) : cl :=
  mkcl (x_conf x) (x_os x) (x_action x) (x_uname x) (x_failovers x) (x_vss x) (x_blake2 x) (x_incexc x) (x_cntr x) (x_msg x) r.

(* Where the client reads: the answer to extra_comms_begin (54), to autoupgrade
   (autoupgrade.c:81), the lines of a restore (90) and of an override (140), the
   answer to orig_client (120), to incexc and incexc end (incexc_send.c:104,106),
   to extra_comms_end (281); or where it has ended: 287, 288, and the exit at
   /repo/src/client/autoupgrade.c:90-133, which the files come before. *)
Inductive cmode :=
| CBegin | CAuto (feat : bytes) | CRest (feat : bytes) (t : option bytes) | COrig (feat : bytes)
| CInc (feat : bytes) (t : option bytes) | CIncOk (feat : bytes) | CIncEnd (feat : bytes) | CEnd
| CDone | CFail | CUpgrade.
(* Where the client is after a message, what it knows, what it has sent:
   /repo/src/client/extra_comms.c:34-291 *)
Definition cout : Type := cmode * cl * list bytes.
(* Messages that are sent before. *)
Definition first (ms : list bytes) (o : cout) : cout := let '(m, x, out) := o in (m, x, ms ++ out).

(* server_supports(): /repo/src/client/extra_comms.c:19-22 *)
Definition supports (feat wanted : bytes) : bool := strstr feat wanted.

(* /repo/src/client/extra_comms.c:166-193 *)
Definition m_uname (feat : bytes) (x : cl) : list bytes :=
  if supports feat (str ":uname:") then match x_uname x with Some u => [str "uname=" ++ u] | None => [] end else [].
(* /repo/src/client/extra_comms.c:195-200 *)
Definition m_msg (feat : bytes) : list bytes := if supports feat (str ":msg:") then [str "msg"] else [].
(* /repo/src/client/extra_comms.c:202-212 *)
Definition blake2 (feat : bytes) (x : cl) : bool := x_blake2 x && supports feat (str ":rshash=blake2:").
Definition m_rshash (feat : bytes) (x : cl) : list bytes := if blake2 feat x then [str "rshash=blake2"] else [].
(* /repo/src/client/extra_comms.c:216-217 *)
Definition x_backs (a : xaction) : bool := match a with XBackup | XBackupTimed => true | _ => false end.
(* /repo/src/client/extra_comms.c:214-229 *)
Definition m_failover (feat : bytes) (x : cl) : list bytes :=
  if supports feat (str ":failover:") && x_backs (x_action x)
  then [firstn 63 (str "backup_failovers_left=" ++ fmt_d (x_failovers x))] else [].
(* /repo/src/client/extra_comms.c:231-256 *)
Definition m_seed (feat : bytes) (x : cl) : list bytes :=
  match get_str (str "seed_src") (x_conf x), get_str (str "seed_dst") (x_conf x) with
  | Some (a :: s), Some (b :: d) =>
    if supports feat (str ":seed:") then [str "seed_src=" ++ a :: s; str "seed_dst=" ++ b :: d] else []
  | _, _ => []
  end.
(* /repo/src/client/extra_comms.c:258-268 *)
Definition m_vss (feat : bytes) (x : cl) : list bytes :=
  if supports feat (str ":vss_restore:")
  then match x_vss x with VssOff => [str "vss_restore=off"] | VssStrip => [str "vss_restore=strip"] | VssOn => [] end else [].
(* /repo/src/client/extra_comms.c:270-278 *)
Definition m_icase (feat : bytes) (x : cl) : list bytes :=
  if supports feat (str ":regex_icase:") && is_on (str "regex_case_insensitive") (x_conf x) then [str "regex_icase=1"] else [].
(* /repo/src/client/extra_comms.c:166-281 *)
Definition p_rest (feat : bytes) (x : cl) : cout :=
  let x1 := if supports feat (str ":msg:") then set_xmsg x else x in
  let x2 := set_xrshash x1 (if blake2 feat x then RsBlake2 else RsMd4) in
  (CEnd, x2,
   m_uname feat x ++ m_msg feat ++ m_rshash feat x ++ m_failover feat x ++ m_seed feat x ++ m_vss feat x ++ m_icase feat x ++
   [str "extra_comms_end"]).
(* /repo/src/client/extra_comms.c:152-164, incexc_send.c:102-104 *)
Definition p_cntr (feat : bytes) (x : cl) : cout :=
  let j := supports feat (str ":counters_json:") in
  let x1 := if j then set_xcntr x else x in
  first (if j then [str "counters_json ok"] else [])
    (if supports feat (str ":incexc:") then (CIncOk feat, x1, [str "incexc"]) else p_rest feat x1).
(* /repo/src/client/extra_comms.c:130-132 *)
Definition backs_up (a : xaction) : bool := match a with XBackup | XBackupTimed | XTimerCheck => true | _ => false end.
(* /repo/src/client/extra_comms.c:128-150, incexc_recv.c:43-44 *)
Definition p_sinc (feat : bytes) (x : cl) : cout :=
  if backs_up (x_action x) && (match x_incexc x with None => true | Some _ => false end) && supports feat (str ":sincexc:") &&
     is_on (str "server_can_override_includes") (x_conf x)
  then (CInc feat None, x, [str "sincexc ok"]) else p_cntr feat x.
(* /repo/src/client/extra_comms.c:108-126 *)
Definition p_orig (feat : bytes) (x : cl) : cout :=
  match get_str (str "orig_client") (x_conf x) with
  | Some n => if supports feat (str ":orig_client:") then (COrig feat, x, [firstn 511 (str "orig_client=" ++ n)]) else (CFail, x, [])
  | None => p_sinc feat x
  end.
(* /repo/src/client/extra_comms.c:83 *)
Definition is_monitor (a : xaction) : bool := match a with XMonitor => true | _ => false end.
(* /repo/src/client/extra_comms.c:79-106, incexc_recv.c:43-44 *)
Definition p_srest (feat : bytes) (x : cl) : cout :=
  if supports feat (str ":srestore:") then
    if is_monitor (x_action x) then p_orig feat x
    else if is_on (str "server_can_restore") (x_conf x) then (CRest feat None, x, [str "srestore ok"])
    else first [str "srestore not ok"] (p_orig feat x)
  else p_orig feat x.
(* server_supports_autoupgrade(): /repo/src/client/extra_comms.c:24-30 *)
Definition supports_auto (feat : bytes) : bool := beqb feat (str "extra_comms_begin ok") || supports feat (str ":autoupgrade:").
(* /repo/src/client/extra_comms.c:70-76, autoupgrade.c:75-79 *)
Definition p_auto (feat : bytes) (x : cl) : cout :=
  match x_os x with
  | Some os => if supports_auto feat then (CAuto feat, x, [firstn 255 (str "autoupgrade:" ++ os)]) else p_srest feat x
  | None => p_srest feat x
  end.

Section Client.
(* conf_parse_incexcs_srestore() and conf_parse_incexcs_buf():
   /repo/src/conffile.c:1366-1433 *)
Variable srestore incexcs : conf -> bytes -> option conf.
(* What the client does with a message: /repo/src/client/extra_comms.c:54-288 *)
Definition cstep (m : cmode) (x : cl) (msg : bytes) : cout :=
  match m with
  | CBegin => if starts_with msg (str "extra_comms_begin ok") then p_auto msg x else (CFail, x, [])   (* 54-76 *)
  | CAuto feat =>                                                          (* autoupgrade.c:25-37,81-88 *)
    if beqb msg (str "do not autoupgrade") then p_srest feat x
    else if beqb msg (str "autoupgrade ok") then (CUpgrade, x, []) else (CFail, x, [])
  | CRest feat t =>                                                        (* incexc_recv.c:22-53, extra_comms.c:90-98 *)
    if beqb msg (str "srestore end") then
      first [str "srestore end ok"]
        (match add_to_incexc t [10] with
         | Some txt => match srestore (x_conf x) txt with
                       | Some c => p_orig feat (set_xaction (set_xincexc (set_xconf x c) (Some txt)) XRestore)
                       | None => (CFail, x, [])
                       end
         | None => (CFail, x, [])
         end)
    else (CRest feat (add_to_incexc t msg), x, [])
  | COrig feat => if beqb msg (str "orig_client ok") then p_sinc feat x else (CFail, x, [])   (* 120 *)
  | CInc feat t =>                                                         (* incexc_recv.c:22-53, extra_comms.c:140-143 *)
    if beqb msg (str "sincexc end") then
      first [str "sincexc end ok"]
        (match add_to_incexc t [10] with
         | Some txt => match incexcs (x_conf x) txt with
                       | Some c => p_cntr feat (set_xincexc (set_xconf x c) (Some txt))
                       | None => (CFail, x, [])
                       end
         | None => (CFail, x, [])
         end)
    else (CInc feat (add_to_incexc t msg), x, [])
  | CIncOk feat =>                                                         (* incexc_send.c:104-106 *)
    if beqb msg (str "incexc ok") then (CIncEnd feat, x, do_sends Incexc (x_conf x) ++ [str "incexc end"]) else (CFail, x, [])
  | CIncEnd feat => if beqb msg (str "incexc end ok") then p_rest feat x else (CFail, x, [])   (* incexc_send.c:106 *)
  | CEnd => if beqb msg (str "extra_comms_end ok") then (CDone, x, []) else (CFail, x, [])     (* 281 *)
  | CDone | CFail | CUpgrade => (m, x, [])
  end.
End Client.
(* /repo/src/client/extra_comms.c:287-291 *)
Definition c_ended (m : cmode) : bool := match m with CDone | CFail | CUpgrade => true | _ => false end.

(* ---------- the server ---------- *)

(* What the configuration on the server of the client, or of the one that is
   switched to, has: its include/exclude lines, seeds, regex_case_insensitive *)
Record own := mkown { w_lines : list bytes; w_src : option bytes; w_dst : option bytes; w_icase : bool }.
(* What autoupgrade_server() does: /repo/src/server/autoupgrade.c:11-113: 0 after
   "do not autoupgrade", -1 after it, or the files and the exit *)
Inductive auto := AutoNo | AutoErr | AutoOk.
(* What extra_comms() is given and leaves: /repo/src/server/extra_comms.c:454-455.
   v_restore: the restore path is set; v_offers: there is a startdir or an
   include_glob; v_json: the client is new enough; v_comp: compression;
   v_auto: autoupgrade_server() of an operating system; v_rfile: the restore file
   read into the settings, and what they then send (270-271); v_switch:
   conf_switch_to_orig_client() and the restore file again (338-352). *)
Record sv := mksv {
  v_own : own; v_restore : bool; v_offers : bool; v_json : bool; v_blake2 : bool; v_comp : Z;
  v_auto : bytes -> auto; v_rfile : own -> option (list bytes * own); v_switch : bytes -> bool -> own -> option own;
  v_srestore : bool; v_incexc : option bytes; v_cntr : bool; v_windows : bool;
  v_rshash : rshash; v_msg : bool; v_left : Z; v_vss : vss_restore }.
(* /repo/src/server/extra_comms.c:181-218,270,341,407 *)
Definition set_own (v : sv) (w : own) : sv :=
  mksv w (v_restore v) (v_offers v) (v_json v) (v_blake2 v) (v_comp v) (v_auto v) (v_rfile v) (v_switch v)
    (v_srestore v) (v_incexc v) (v_cntr v) (v_windows v) (v_rshash v) (v_msg v) (v_left v) (v_vss v).
(* /repo/src/server/extra_comms.c:264,287-291 *)
Definition set_restore (v : sv) (path srest : bool) : sv :=
  mksv (v_own v) path (v_offers v) (v_json v) (v_blake2 v) (v_comp v) (v_auto v) (v_rfile v) (v_switch v)
    srest (v_incexc v) (v_cntr v) (v_windows v) (v_rshash v) (v_msg v) (v_left v) (v_vss v).
(* /repo/src/server/extra_comms.c:309-322 *)
Definition set_incexc (v : sv) (t : option bytes) : sv :=
  mksv (v_own v) (v_restore v) (v_offers v) (v_json v) (v_blake2 v) (v_comp v) (v_auto v) (v_rfile v) (v_switch v)
    (v_srestore v) t (v_cntr v) (v_windows v) (v_rshash v) (v_msg v) (v_left v) (v_vss v).
(* /repo/src/server/extra_comms.c:329 *)
Definition set_cntr (v : sv) : sv :=
  mksv (v_own v) (v_restore v) (v_offers v) (v_json v) (v_blake2 v) (v_comp v) (v_auto v) (v_rfile v) (v_switch v)
    (v_srestore v) (v_incexc v) true (v_windows v) (v_rshash v) (v_msg v) (v_left v) (v_vss v).
(* /repo/src/server/extra_comms.c:336 *)
Definition set_windows (v : sv) : sv :=
  mksv (v_own v) (v_restore v) (v_offers v) (v_json v) (v_blake2 v) (v_comp v) (v_auto v) (v_rfile v) (v_switch v)
    (v_srestore v) (v_incexc v) (v_cntr v) true (v_rshash v) (v_msg v) (v_left v) (v_vss v).
(* /repo/src/server/extra_comms.c:364,503-507 *)
Definition set_rshash (v : sv) (r : rshash) : sv :=
  mksv (v_own v) (v_restore v) (v_offers v) (v_json v) (v_blake2 v) (v_comp v) (v_auto v) (v_rfile v) (v_switch v)
    (v_srestore v) (v_incexc v) (v_cntr v) (v_windows v) r (v_msg v) (v_left v) (v_vss v).
(* /repo/src/server/extra_comms.c:373 *)
Definition set_msg (v : sv) : sv :=
  mksv (v_own v) (v_restore v) (v_offers v) (v_json v) (v_blake2 v) (v_comp v) (v_auto v) (v_rfile v) (v_switch v)
    (v_srestore v) (v_incexc v) (v_cntr v) (v_windows v) (v_rshash v) true (v_left v) (v_vss v).
(* /repo/src/server/extra_comms.c:380 *)
Definition set_left (v : sv) (n : Z) : sv :=
  mksv (v_own v) (v_restore v) (v_offers v) (v_json v) (v_blake2 v) (v_comp v) (v_auto v) (v_rfile v) (v_switch v)
    (v_srestore v) (v_incexc v) (v_cntr v) (v_windows v) (v_rshash v) (v_msg v) n (v_vss v).
(* /repo/src/server/extra_comms.c:397,402 *)
Definition set_vss (v : sv) (s : vss_restore) : sv :=
  mksv (v_own v) (v_restore v) (v_offers v) (v_json v) (v_blake2 v) (v_comp v) (v_auto v) (v_rfile v) (v_switch v)
    (v_srestore v) (v_incexc v) (v_cntr v) (v_windows v) (v_rshash v) (v_msg v) (v_left v) s.

(* send_features(): /repo/src/server/extra_comms.c:81-151, with set_restore_path()
   52-68: what is written *)
Definition features (v : sv) : bytes :=
  str "extra_comms_begin ok:" ++ str "autoupgrade:" ++ str "incexc:" ++ str "orig_client:" ++ str "uname:" ++ str "failover:" ++
  str "vss_restore:" ++ str "regex_icase:" ++ (if v_restore v then str "srestore:" else []) ++ (if v_offers v then str "sincexc:" else []) ++
  (if v_json v then str "counters_json:" else []) ++ str "msg:" ++ str "forceproto=1:" ++
  (if v_blake2 v then str "rshash=blake2:" else []) ++ str "seed:".

(* Where the server reads: extra_comms_begin (476), the loop (230-414), the lines of
   the client (incexc_recv.c:48), the answer to the end of its own lines
   (incexc_send.c:116,126); or where it has ended: 512, 514, and the exit at
   /repo/src/server/autoupgrade.c:105. *)
Inductive smode := SBegin | SLoop | SInc (t : option bytes) | SWait (reply : bytes) | SDone | SFail | SExit.
(* As for the client: /repo/src/server/extra_comms.c:454-515 *)
Definition sout : Type := smode * sv * list bytes.
(* /repo/src/server/extra_comms.c:512-514, autoupgrade.c:105 *)
Definition s_ended (m : smode) : bool := match m with SDone | SFail | SExit => true | _ => false end.

(* Path separators in the name of the operating system: /repo/src/server/extra_comms.c:167-170 *)
Definition sanitise (os : bytes) : bytes := map (fun c => if (c =? 47) || (c =? 92) || (c =? 58) then 45 else c) os.
(* setup_seed(): /repo/src/server/extra_comms.c:181-218, the value; None: not
   absolute.  src: opt==OPT_SEED_SRC *)
Definition seed_value (src : bool) (s : bytes) : option bytes :=
  let s := strip_trailing_slashes s in
  if negb (is_absolute s) then None
  else if src && negb (hd0 s =? 47) then Some (47 :: s) else Some s.
(* strncasecmp() with "Windows": /repo/src/server/extra_comms.c:334-336 *)
Definition is_windows (u : bytes) : bool := starts_with (map tolower u) (str "windows").
(* The end of extra_comms(): /repo/src/server/extra_comms.c:503-514, check_seed() 434-452 *)
Definition s_finish (v : sv) : sout :=
  let v := match v_rshash v with RsUnset => set_rshash v RsMd4 | _ => v end in
  match w_src (v_own v), w_dst (v_own v) with
  | None, None | Some _, Some _ => (SDone, v, [str "extra_comms_end ok"])
  | _, _ => (SFail, v, [str "extra_comms_end ok"])
  end.
(* One turn of extra_comms_read(): /repo/src/server/extra_comms.c:230-414 *)
Definition s_loop (v : sv) (m : bytes) : sout :=
  if beqb m (str "extra_comms_end") then s_finish v                        (* 241-246 *)
  else if starts_with m (str "autoupgrade:") then                          (* 247-251, 153-179 *)
    match skipn 12 m with
    | [] => (SLoop, v, [])
    | os => match v_auto v (sanitise os) with
            | AutoNo => (SLoop, v, [str "do not autoupgrade"])
            | AutoErr => (SFail, v, [str "do not autoupgrade"])
            | AutoOk => (SExit, v, [str "autoupgrade ok"])
            end
    end
  else if beqb m (str "srestore ok") then                                  (* 252-283 *)
    if negb (v_restore v) then (SFail, v, [])
    else match v_rfile v (v_own v) with
         | None => (SFail, set_restore v true true, [])
         | Some (ls, w) => (SWait (str "srestore end ok"), set_own (set_restore v true true) w, ls ++ [str "srestore end"])
         end
  else if beqb m (str "srestore not ok") then (SLoop, set_restore v false (v_srestore v), [])   (* 284-294 *)
  else if beqb m (str "sincexc ok") then (SWait (str "sincexc end ok"), v, w_lines (v_own v) ++ [str "sincexc end"])   (* 295-302 *)
  else if beqb m (str "incexc") then (SInc None, v, [str "incexc ok"])     (* 303-310 *)
  else if beqb m (str "counters_json ok") then (SLoop, set_cntr v, [])     (* 324-330 *)
  else if starts_with m (str "uname=") && (6 <? Z.of_nat (List.length m))
  then (SLoop, if is_windows (skipn 6 m) then set_windows v else v, [])    (* 331-337 *)
  else if starts_with m (str "orig_client=") && (12 <? Z.of_nat (List.length m)) then   (* 338-355 *)
    match v_switch v (skipn 12 m) (v_srestore v) (v_own v) with
    | Some w => (SLoop, set_own v w, [str "orig_client ok"])
    | None => (SFail, v, [])
    end
  else if starts_with m (str "restore_spool=") then (SLoop, v, [])         (* 356-359 *)
  else if starts_with m (str "rshash=blake2") then (if v_blake2 v then (SLoop, set_rshash v RsBlake2, []) else (SFail, v, []))   (* 360-369 *)
  else if starts_with m (str "msg") then (SLoop, set_msg v, [])            (* 370-374 *)
  else if starts_with m (str "backup_failovers_left=") then (SLoop, set_left v (atoi (skipn 22 m)), [])   (* 375-381 *)
  else if starts_with m (str "seed_src=") then                             (* 382-387 *)
    match seed_value true (skipn 9 m) with
    | Some s => (SLoop, set_own v (mkown (w_lines (v_own v)) (Some s) (w_dst (v_own v)) (w_icase (v_own v))), [])
    | None => (SFail, v, [])
    end
  else if starts_with m (str "seed_dst=") then                             (* 388-393 *)
    match seed_value false (skipn 9 m) with
    | Some s => (SLoop, set_own v (mkown (w_lines (v_own v)) (w_src (v_own v)) (Some s) (w_icase (v_own v))), [])
    | None => (SFail, v, [])
    end
  else if starts_with m (str "vss_restore=off") then (SLoop, set_vss v VssOff, [])          (* 394-398 *)
  else if starts_with m (str "vss_restore=strip") then (SLoop, set_vss v VssStrip, [])      (* 399-403 *)
  else if starts_with m (str "regex_icase=1")
  then (SLoop, set_own v (mkown (w_lines (v_own v)) (w_src (v_own v)) (w_dst (v_own v)) true), [])   (* 404-408 *)
  else (SFail, v, []).                                                     (* 409-413 *)
(* What the server does with a message: /repo/src/server/extra_comms.c:230-512 *)
Definition sstep (m : smode) (v : sv) (msg : bytes) : sout :=
  match m with
  | SBegin => if beqb msg (str "extra_comms_begin") then (SLoop, v, [features v]) else (SFail, v, [])   (* 476-497 *)
  | SLoop => s_loop v msg
  | SInc t =>                                                              (* incexc_recv.c:22-53, extra_comms.c:309-322 *)
    if beqb msg (str "incexc end") then
      (SLoop, set_incexc v (match add_to_incexc t [10] with
                            | Some txt => Some (txt ++ str "compression = " ++ fmt_d (v_comp v) ++ [10]) | None => None end),
       [str "incexc end ok"])
    else (SInc (add_to_incexc t msg), v, [])
  | SWait r => if beqb msg r then (SLoop, v, []) else (SFail, v, [])       (* incexc_send.c:116,126 *)
  | SDone | SFail | SExit => (m, v, [])
  end.

(* ---------- both ---------- *)

(* The two sides and what is under way between them, in order: /repo/src/asfd.c:482-494,
   /repo/src/async.c *)
Record sys := mksys { y_c : cmode; y_x : cl; y_s : smode; y_v : sv; y_c2s : list bytes; y_s2c : list bytes }.
Section Both.
Variable srestore incexcs : conf -> bytes -> option conf.
(* A side that has not ended takes the next message for it. *)
Inductive step : sys -> sys -> Prop :=
| step_s : forall c x s v m r q s' v' out, s_ended s = false -> sstep s v m = (s', v', out) ->
    step (mksys c x s v (m :: r) q) (mksys c x s' v' r (q ++ out))
| step_c : forall c x s v m r q c' x' out, c_ended c = false -> cstep srestore incexcs c x m = (c', x', out) ->
    step (mksys c x s v q (m :: r)) (mksys c' x' s v (q ++ out) r).
End Both.
(* /repo/src/client/extra_comms.c:47, /repo/src/server/extra_comms.c:476 *)
Definition begin (x : cl) (v : sv) : sys := mksys CBegin x SBegin v [str "extra_comms_begin"] [].
