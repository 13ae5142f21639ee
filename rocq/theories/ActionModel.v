(* Model of the handling of a client's request: /repo/src/server/run_action.c. *)
From Verif Require Import Bytes FrameModel DpthModel RestoreModel AuthModel.

(* A request: is the command CMD_GEN, and the text.
   /repo/src/server/run_action.c:447, 491 *)
Record request := mkreq { q_gen : bool; q_text : bytes }.

(* What happens outside: is the server-side restore file there, the lock, the
   leftovers of earlier backups, how many backups run, does writing "ok" to the
   client work, does receiving a restore list work.
   /repo/src/server/run_action.c:28-68 *)
Inductive lockres := LGot | LNotGot | LError.
(* /repo/src/server/run_action.c:543-556 *)
Inductive rubbleres := RNone | RFinalising | RError.
(* /repo/src/server/run_action.c:28-68, 91, 249-275, 543-568 *)
Record env := mkenv { v_restore_file : bool; v_lock : lockres; v_rubble : rubbleres;
                      v_working : Z; v_max_parallel : Z; v_write : bool; v_receive : bool }.

(* What is carried out.
   /repo/src/server/run_action.c:74-420, 538-604 *)
Inductive did :=
| Nothing
| DidList (backup : bytes) (regex : option bytes)
| DidBrowse (backup : bytes) (dir : option bytes)
| DidDiff (backup1 : bytes) (backup2 : option bytes)
| DidRestore (list : bool) (backup : bytes) (regex : option bytes)
| DidVerify (list : bool) (backup : bytes) (regex : option bytes)
| DidDelete (backup : bytes)
| DidBackup.

(* Effects in order.
   /repo/src/server/run_action.c:39, 91, 543 *)
Inductive effect :=
| TryLock          (* lock_get() *)
| CleanRubble      (* check_for_rubble_and_clean() *)
| UnlinkRestoreFile
| Do (d : did).

(* strchr(s, ':'): what is before, and after if found. *)
Fixpoint split_colon (s : bytes) : bytes * option bytes :=
  match s with
  | [] => ([], None)
  | c :: r => if c =? 58 then ([], Some r) else let '(a, b) := split_colon r in (c :: a, b)
  end.

(* parse_restore_str() and parse_restore_str_and_set_confs():
   /repo/src/server/run_action.c:141-225.  Result: is it a verify, is there a
   list, the backup, the regex if not empty. *)
Definition parse_restore_str (s : bytes) : option (bool * bool * bytes * option bytes) :=
  let verify := starts_with s (str "verify ") in
  if starts_with s (str "restore ") || verify then
    let cp := if starts_with s (str "restore ") then skipn 8 s else skipn 7 s in          (* 171-176 *)
    let input := starts_with cp (str "restore_list ") in
    let cp := if input then skipn 13 cp else cp in
    let '(backup, regex) := split_colon cp in
    Some (negb (starts_with s (str "restore ")), input, backup,
          match regex with Some [] => None | r => r end)
  else None.

(* run_restore(): /repo/src/server/run_action.c:227-290, and client_can_restore(),
   86-99. *)
Definition run_restore (e : env) (p : perms) (s : bytes) : list effect :=
  match parse_restore_str s with
  | None => []
  | Some (verify, input, backup, regex) =>
      let pre := if negb verify && v_restore_file e then [UnlinkRestoreFile] else [] in
      let allowed := if verify : bool then can_verify p else v_restore_file e || can_restore p in
      pre ++
      if negb allowed then []
      else if negb (v_write e) then []
      else if input && negb (v_receive e) then []
      else [Do (if verify then DidVerify input backup regex else DidRestore input backup regex)]
  end.

(* run_list(): /repo/src/server/run_action.c:310-366.  The removal of trailing
   slashes from the directory is left out. *)
Definition run_list (e : env) (p : perms) (s : bytes) : list effect :=
  if negb (can_list p) then []
  else if negb (v_write e) then []
  else if starts_with s (str "list ") then
    let '(a, b) := split_colon s in [Do (DidList (skipn 5 a) b)]
  else
    let '(a, b) := split_colon s in [Do (DidBrowse (skipn 6 a) b)].

(* run_diff(): /repo/src/server/run_action.c:368-405 *)
Definition run_diff (e : env) (p : perms) (s : bytes) : list effect :=
  if negb (can_diff p) then []
  else if negb (v_write e) then []
  else let '(a, b) := split_colon s in [Do (DidDiff (skipn 5 a) b)].

(* run_delete(): /repo/src/server/run_action.c:292-308 *)
Definition run_delete (p : perms) (s : bytes) : list effect :=
  if negb (can_delete p) then [] else [Do (DidDelete (skipn 7 s))].

(* run_action_server_do(): /repo/src/server/run_action.c:460-590, from line 491.
   Making directories, the log of commands and notifications are left out. *)
Definition run_action (e : env) (p : perms) (q : request) : list effect :=
  let s := q_text q in
  if negb (q_gen q) then []                                                             (* 491-492 *)
  else if starts_with s (str "list ") || starts_with s (str "listb ") then run_list e p s
  else if starts_with s (str "diff ") then run_diff e p s
  else if starts_with s (str "delete ") then []                                         (* 506-513 *)
  else if starts_with s (str "restore ") || starts_with s (str "verify ") then run_restore e p s
  else if negb (starts_with s (str "backup")) && negb (starts_with s (str "Delete ")) then []  (* 525-527 *)
  else
    TryLock ::
    match v_lock e with
    | LNotGot | LError => []
    | LGot =>
        CleanRubble ::
        match v_rubble e with
        | RFinalising | RError => []
        | RNone =>
            if starts_with s (str "Delete ") then run_delete p s
            else if negb (v_max_parallel e =? 0) && (v_working e >=? v_max_parallel e) then []  (* 564-569 *)
            else [Do DidBackup]
        end
    end.
