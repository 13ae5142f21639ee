(* Model of the backups of one client on the server over all connections: the
   directories, the three links to them, what a connection that asks for a backup
   does to them, and where it may stop: /repo/src/server/backup.c:137-298, rubble.c:95-127,
   161-176, 251-299, 309-402, 460-496, sdirs.c:75-119, run_action.c:543-570.
   And what a request for a backup is answered, what the client makes of the answer,
   and who is notified: /repo/src/server/backup.c:300-377, run_action.c:101-139, 557-595,
   /repo/src/client/main.c:51-110. *)
From Verif Require Import Bytes RestoreModel BuModel CntrModel.

(* How far a backup directory has come, by the files in it: Scanned: phase1data is there;
   Received: changed and unchanged are there and phase1data is not; Half: unchanged only;
   Merged: none of them.  The flag: what it holds is all that the client sent.  Broken:
   recursive_delete() has begun on it and none of the three files is left.  What a phase
   leaves when it stops half way is otherwise counted as not begun: C27 and C38 are about
   that.  /repo/src/server/rubble.c:331-340, backup.c:216-227, backup_phase3.c:142-149 *)
Inductive stage := Made | Scanned (w : bool) | Received (w : bool) | Half (w : bool) | Merged (w : bool) | Complete (w : bool) | Broken.
(* Which of the three files recursive_delete() has left when it stops; it goes by
   readdir(), so in any order: /repo/src/fsops.c:177-264 *)
Inductive remains := RNothing | RUnchanged | RBoth | RAll.
(* The directories by number, and the links working, finishing and current:
   /repo/src/server/sdirs.h.  currenttmp is never made by this program. *)
Record store := mkst { dirs : list (Z * stage); working : option Z; finishing : option Z; current : option Z }.

(* What the client is told: /repo/src/server/backup.c:237, 364-366, rubble.c:265-268 *)
Inductive word := WOk | WResume | WEnd | WLater | WNo.
(* The steps.  OLink, OMkdir: sdirs.c:98-110; OScan: backup.c:209; OReceive: 231;
   OMerge, ODelChanged, ODelUnchanged: backup_phase3.c:142-148; OToFinishing: backup.c:262;
   OShuffle: 265 and rubble.c:279; OToCurrent: backup.c:275 and rubble.c:297; ODrop:
   backup.c:371; OBreak, ORmdir, OUnlink: rubble.c:118-125, 172; OEmpty: do_resume() makes an
   empty file changed (resume.c:591) and then fails as there is no phase1data (540). *)
Inductive op :=
| OTell (w : word) | OLink (n : Z) | OMkdir (n : Z) | OScan (n : Z) | OReceive (n : Z)
| OMerge (n : Z) | ODelChanged (n : Z) | ODelUnchanged (n : Z)
| OToFinishing | OShuffle (n : Z) | OToCurrent | ODrop (n : Z)
| OBreak (n : Z) (r : remains) | ORmdir (n : Z) | OUnlink | OEmpty (n : Z).

(* lstat() on a directory: /repo/src/server/rubble.c:168 *)
Fixpoint stage_of (n : Z) (d : list (Z * stage)) : option stage :=
  match d with [] => None | (m, x) :: r => if m =? n then Some x else stage_of n r end.
(* What a phase does to its directory: /repo/src/server/backup.c:209-265 *)
Definition on_stage (n : Z) (f : stage -> stage) (d : list (Z * stage)) : list (Z * stage) :=
  map (fun b => if fst b =? n then (n, f (snd b)) else b) d.
(* recursive_delete(): /repo/src/server/rubble.c:118 *)
Definition remove (n : Z) (d : list (Z * stage)) : list (Z * stage) := filter (fun b => negb (fst b =? n)) d.

(* Phase 1: /repo/src/server/backup.c:209 *)
Definition scan (x : stage) : stage := match x with Made => Scanned true | _ => x end.
(* Phase 2, which ends by removing phase1data: /repo/src/server/backup_phase2.c:1320-1321 *)
Definition receive (x : stage) : stage := match x with Scanned w => Received w | _ => x end.
(* /repo/src/server/backup_phase3.c:147 *)
Definition del_changed (x : stage) : stage := match x with Received w => Half w | _ => x end.
(* /repo/src/server/backup_phase3.c:148 *)
Definition del_unchanged (x : stage) : stage := match x with Half w => Merged w | _ => x end.
(* Phase 4 (C35, C36): /repo/src/server/backup.c:265 *)
Definition shuffle (x : stage) : stage := match x with Merged w => Complete w | _ => x end.
(* An empty file changed: /repo/src/server/resume.c:591 *)
Definition empty_changed (x : stage) : stage := match x with Half _ => Received false | _ => x end.
(* What is left may look as if it were worth resuming, though data is gone:
   /repo/src/fsops.c:177-264, /repo/src/server/rubble.c:331-340 *)
Definition broken (r : remains) (x : stage) : stage :=
  match x, r with
  | Scanned _, RAll => Scanned false
  | Scanned _, RBoth | Received _, (RBoth | RAll) => Received false
  | Scanned _, RUnchanged | Received _, RUnchanged | Half _, (RUnchanged | RBoth | RAll) => Half false
  | _, _ => Broken
  end.

(* One step that succeeds: /repo/src/server/backup.c:191-284 *)
Definition step (o : op) (s : store) : store :=
  let on n f := mkst (on_stage n f (dirs s)) (working s) (finishing s) (current s) in
  match o with
  | OTell _ => s
  | OLink n => mkst (dirs s) (Some n) (finishing s) (current s)
  | OMkdir n => mkst ((n, Made) :: dirs s) (working s) (finishing s) (current s)
  | OScan n => on n scan
  | OReceive n => on n receive
  | OMerge n => s
  | ODelChanged n => on n del_changed
  | ODelUnchanged n => on n del_unchanged
  | OToFinishing => mkst (dirs s) None (working s) (current s)
  | OShuffle n => on n shuffle
  | OToCurrent => mkst (dirs s) (working s) None (finishing s)
  | ODrop n => mkst (remove n (dirs s)) (working s) (finishing s) (current s)
  | OBreak n r => on n (broken r)
  | ORmdir n => mkst (remove n (dirs s)) (working s) (finishing s) (current s)
  | OUnlink => mkst (dirs s) None (finishing s) (current s)
  | OEmpty n => on n empty_changed
  end.
(* Steps one after the other: /repo/src/server/backup.c:191-284 *)
Definition steps (l : list op) (s : store) : store := fold_left (fun s o => step o s) l s.

(* What decides in a connection: c_delete: the working directory is not to be resumed
   (working_dir_recovery_method, max_resume_attempts, other includes: C27); c_refuse:
   run_backup() or max_parallel_backups says no; c_prune: which of the old backups
   delete_backups() removes (C20 to C22); c_left:
   what recursive_delete() has left if it is stopped.  /repo/src/server/rubble.c:329-396,
   run_action.c:557-570, backup.c:310-352, 371-374 *)
Record cfg := mkcfg { c_delete : bool; c_refuse : bool; c_prune : list Z -> Z -> bool; c_left : remains }.

(* get_new_bno(): /repo/src/server/backup.c:146-165; the directories of working and
   finishing are not there any more when it is called *)
Definition new_bno (d : list (Z * stage)) : Z := fold_left Z.max (map fst d) 0 + 1.

(* The old backups that go: /repo/src/server/backup.c:371-374 *)
Definition prune (c : cfg) (n : Z) (d : list (Z * stage)) : list op :=
  map ODrop (filter (fun m => negb (m =? n) && c_prune c (map fst d) m) (map fst d)).
(* From phase 3 on: /repo/src/server/backup.c:248-284, 371-374 *)
Definition ending (c : cfg) (n : Z) (d : list (Z * stage)) : list op :=
  [OMerge n; ODelChanged n; ODelUnchanged n; OToFinishing; OShuffle n; OToCurrent] ++ prune c n d.
(* A backup from its beginning: /repo/src/server/backup.c:191-238 *)
Definition fresh (c : cfg) (d : list (Z * stage)) : list op :=
  if c_refuse c then [OTell WNo]
  else let n := new_bno d in
       [OTell WOk; OLink n; OMkdir n; OScan n; OReceive n; OTell WEnd] ++ ending c n d.
(* A resumed backup: /repo/src/server/backup.c:176-190, 216-238; x: what the working
   directory shows *)
Definition resumed (c : cfg) (n : Z) (x : stage) (d : list (Z * stage)) : list op :=
  if c_refuse c then [OTell WNo]
  else OTell WResume ::
       match x with
       | Half _ => [OEmpty n]                                               (* resume.c:591, 540 *)
       | Scanned _ => [OReceive n; OTell WEnd] ++ ending c n d
       | _ => ending c n d                                                  (* backup.c:219-226 *)
       end.
(* check_for_rubble_and_clean() and run_backup(): what a connection does if nothing
   stops it.  /repo/src/server/rubble.c:251-299, 309-402, 460-496, run_action.c:543-571.  The super client
   is left out. *)
Definition plan (c : cfg) (s : store) : list op :=
  match finishing s with
  | Some n => [OTell WLater; OShuffle n; OToCurrent]                        (* rubble.c:251-299 *)
  | None =>
    match working s with
    | None => fresh c (dirs s)
    | Some n =>
      match stage_of n (dirs s) with
      | None => [OUnlink]                                                   (* rubble.c:168-174, 326 *)
      | Some x =>
        if (match x with Scanned _ | Received _ | Half _ => c_delete c | _ => true end)
        then [OBreak n (c_left c); ORmdir n; OUnlink] ++ fresh c (remove n (dirs s))
        else resumed c n x (dirs s)
      end
    end
  end.
(* A connection: the steps done before it stopped, for whatever reason; a failure of
   mkdir() that is noticed removes the link (sdirs.c:108).  /repo/src/server/backup.c:176-298 *)
Definition connection (c : cfg) (k : nat) (noticed : bool) (s : store) : store :=
  let s' := steps (firstn k (plan c s)) s in
  match nth_error (plan c s) k with
  | Some (OMkdir _) => if noticed then step OUnlink s' else s'
  | _ => s'
  end.
(* A client that has no backups: /repo/src/server/backup.c:152-164 *)
Definition empty_store : store := mkst [] None None None.
(* All connections one after the other (the lock: C31) *)
Definition history (h : list (cfg * nat * bool)) (s : store) : store :=
  fold_left (fun s t => connection (fst (fst t)) (snd (fst t)) (snd t) s) h s.

(* ---------- the request ---------- *)

(* What run_backup() looks at.  q_timer: the result of run_timer(); q_list: the highest
   number of bu_get_list(), None: it failed.  /repo/src/server/backup.c:300-362 *)
Record req := mkreq { q_super : bool; q_text : bytes; q_timer : Z; q_force : bool; q_list : option Z;
                      q_seeds : bool; q_resume : bool; q_compression : Z }.
(* get_new_bno(), an uint64_t: /repo/src/server/backup.c:146-165 *)
Definition get_new_bno (l : option Z) : Z := match l with None => 2 ^ 64 - 1 | Some i => (i + 1) mod 2 ^ 64 end.
(* The answer: /repo/src/server/backup.c:315-366.  ABad: nothing is sent; AErr: a CMD_ERROR. *)
Inductive answer := AGen (s : bytes) | AErr (s : bytes) | ABad.
(* The text that says which way it goes on: /repo/src/server/backup.c:364-366 *)
Definition okstr (resume : bool) (compression : Z) : bytes :=
  cap 32 (str (if resume then "resume" else "ok") ++ [58] ++ fmt_d compression).
(* run_backup() up to do_backup_server(): /repo/src/server/backup.c:310-366.  The number is
   given to do_backup_server().  The last is *timer_ret, which is 0 before. *)
Definition run_backup_start (q : req) : answer * option Z * Z :=
  if q_super q then (AGen (str "Backup is not allowed"), None, 0)                        (* 310-316 *)
  else
    let go t :=
      let n := get_new_bno (q_list q) in
      if n <? 0 then (ABad, None, t)                                                     (* 354-355 *)
      else if q_seeds q && negb (n =? 1)
      then (AErr (str "When seeding, there must be no previous backups for this client" ++ [10]), None, t)   (* 356-362 *)
      else (AGen (okstr (q_resume q) (q_compression q)), Some n, t) in
    if starts_with (q_text q) (str "backupphase1timed")                                  (* 321-346 *)
    then
      let checkonly := starts_with (q_text q) (str "backupphase1timedcheck") in
      if q_timer q <? 0 then (ABad, None, q_timer q)
      else if negb (q_timer q =? 0) then (AGen (str "timer conditions not met"), None, q_timer q)
      else if checkonly then (AGen (str "timer conditions met"), None, 0)
      else go 0
    else if negb (q_force q) then (AGen (str "Forced backup is not allowed"), None, 0)    (* 347-352 *)
    else go 0.

(* maybe_check_timer_func(): /repo/src/client/main.c:51-96.  CBackup resume compression: go
   on; the compression is that of before if the answer is too short. *)
Inductive cli := CBackup (resume : bool) (compression : Z) | CMax | CNotMet | CMet | CError.
Definition check_answer (before : Z) (s : bytes) : cli :=
  if beqb s (str "max parallel backups") then CMax
  else if beqb s (str "timer conditions not met") then CNotMet
  else if beqb s (str "timer conditions met") then CMet
  else
    let level k := if 3 <? Z.of_nat (List.length s) then atoi (skipn k s) else before in
    if starts_with s (str "ok") then CBackup false (level 3%nat)
    else if starts_with s (str "resume") then CBackup true (level 7%nat)
    else CError.

(* Who hears of it: maybe_do_notification(): /repo/src/server/run_action.c:101-139 *)
Inductive note := NSuccess | NFailure.
Definition notification (status : Z) (warnings_only changes_only : bool) (warnings changed : Z) : option note :=
  if negb (status =? 0) then Some NFailure
  else if (warnings_only && (0 <? warnings)) || (changes_only && (0 <? changed)) || (negb warnings_only && negb changes_only)
  then Some NSuccess else None.
(* What run_backup() returns: the answer could be written; done: the result of
   do_backup_server() and delete_backups().  /repo/src/server/backup.c:310-376 *)
Definition run_backup_ret (q : req) (done : Z) : Z :=
  match run_backup_start q with
  | (AGen _, Some _, _) => done
  | (AGen _, None, _) => 0
  | _ => -1
  end.
(* The end of run_action_server_do(): /repo/src/server/run_action.c:571-594 *)
Definition backup_note (q : req) (done : Z) (quiet_left left : bool) (wo co : bool) (warnings changed : Z) : option note :=
  let ret := run_backup_ret q done in
  let '(_, _, t) := run_backup_start q in
  if negb (ret =? 0) && quiet_left && left then None
  else if t <? 0 then notification ret wo co warnings changed
  else if t =? 0 then notification ret wo co warnings changed
  else None.
