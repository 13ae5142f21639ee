(* Model of the links current, current.tmp, working and finishing in the directory
   of a client, of what happens to them and to the backup directories when a backup
   is deleted and when one is finalised, and of the recovery at the next request.
   /repo/src/server/delete.c:50-101, /repo/src/server/backup_phase4.c:726-868,
   /repo/src/server/deleteme.c:9-59, /repo/src/server/rubble.c:188-299 and 404-500.
   Backups are numbered in the order of their directory names.  A link that is not
   a symlink is left out. *)
From Verif Require Import Bytes.

(* dirs: the backup directories there are, and whether they have a timestamp file;
   hl: those with a hardlinked file; dup, duptmp: currentdup and currentdup.tmp in the
   finishing directory; lg, gz: log and log.gz there.
   /repo/src/server/sdirs.c:121-145, /repo/src/server/fdirs.c:14-25 *)
Record st := mkst {
  cur : option Z; ctmp : option Z; work : option Z; fin : option Z;
  dirs : Z -> option bool; hl : Z -> bool; dup : bool; duptmp : bool; lg : bool; gz : bool }.

(* Setting one part: /repo/src/fsops.c:143-154, 551-558 *)
Definition s_cur x s := mkst x (ctmp s) (work s) (fin s) (dirs s) (hl s) (dup s) (duptmp s) (lg s) (gz s).
Definition s_ctmp x s := mkst (cur s) x (work s) (fin s) (dirs s) (hl s) (dup s) (duptmp s) (lg s) (gz s). (* /repo/src/fsops.c:551-558 *)
Definition s_work x s := mkst (cur s) (ctmp s) x (fin s) (dirs s) (hl s) (dup s) (duptmp s) (lg s) (gz s). (* /repo/src/fsops.c:551-558 *)
Definition s_fin x s := mkst (cur s) (ctmp s) (work s) x (dirs s) (hl s) (dup s) (duptmp s) (lg s) (gz s). (* /repo/src/fsops.c:143-154 *)
Definition s_dir i b s := (* /repo/src/fsops.c:143-154 *)
  mkst (cur s) (ctmp s) (work s) (fin s) (fun j => if j =? i then b else dirs s j) (hl s) (dup s) (duptmp s) (lg s) (gz s).
Definition s_hl i b s := (* /repo/src/server/backup_phase4.c:810, 823 *)
  mkst (cur s) (ctmp s) (work s) (fin s) (dirs s) (fun j => if j =? i then b else hl s j) (dup s) (duptmp s) (lg s) (gz s).
Definition s_dup b t s := mkst (cur s) (ctmp s) (work s) (fin s) (dirs s) (hl s) b t (lg s) (gz s). (* /repo/src/server/backup_phase4.c:785-789 *)
Definition s_log l g s := mkst (cur s) (ctmp s) (work s) (fin s) (dirs s) (hl s) (dup s) (duptmp s) l g. (* /repo/src/server/rubble.c:188-249 *)

(* What a step of the server does: the states it goes through and whether it
   succeeds, as in Phase4Model. *)
Definition run := st -> list st * bool. (* /repo/src/server/delete.c:50-101 *)
Definition endst (l : list st) (s : st) : st := last l s. (* the last of them: /repo/src/server/delete.c:50-101 *)
(* A step of one system call: /repo/src/fsops.c:143-154 *)
Definition step (f : st -> st) : run := fun s => ([f s], true).
(* Nothing; an error return: /repo/src/server/delete.c:51-101 *)
Definition ok : run := fun _ => ([], true).
Definition fail : run := fun _ => ([], false). (* /repo/src/server/delete.c:60 *)
(* if(f) return -1; g: /repo/src/server/delete.c:59-69 *)
Definition andthen (f g : run) : run := fun s =>
  let '(l, o) := f s in
  if o then let '(l2, o2) := g (endst l s) in (l ++ l2, o2) else (l, false).
(* A step that depends on what is there: /repo/src/server/rubble.c:404-450 *)
Definition look (k : st -> run) : run := fun s => k s s.

(* do_rename() of a link over another; said not to be atomic, so that the old
   target is taken to be removed first.  /repo/src/fsops.c:143-154 *)
Definition rename_ctmp : run := look (fun s =>
  andthen (step (s_cur None)) (step (fun s' => s_cur (ctmp s) (s_ctmp None s')))).
Definition rename_fin : run := look (fun s => (* /repo/src/server/backup.c:275, /repo/src/server/rubble.c:297 *)
  andthen (step (s_cur None)) (step (fun s' => s_cur (fin s) (s_fin None s')))).

(* is_lnk_valid(): /repo/src/fsops.c:543-549 *)
Definition valid (s : st) (l : option Z) : bool :=
  match l with Some i => match dirs s i with Some _ => true | None => false end | None => false end.

(* ---------- deletion ---------- *)

(* delete_backup(): /repo/src/server/delete.c:50-101, with bu->prev and bu->next.
   Emptying the deleteme directory is left out. *)
Definition delete_backup (id : Z) (prev next : option Z) : run :=
  match next, prev with
  | None, None =>
    andthen (step (s_dir id None))                                       (* 59 *)
            (look (fun s => match cur s with
                            | None => fail                               (* 63-68 *)
                            | Some _ => step (s_cur None)
                            end))
  | None, Some p =>
    andthen (step (s_ctmp None))                                         (* 78 *)
    (andthen (step (s_ctmp (Some p)))                                    (* 79 *)
    (andthen (step (s_dir id None))                                      (* 83 *)
             rename_ctmp))                                               (* 87 *)
  | Some _, _ => step (s_dir id None)                                    (* 97 *)
  end.

(* ---------- finalisation ---------- *)

(* deleteme_move(): /repo/src/server/deleteme.c:9-59.  There is room in deleteme. *)
Definition deleteme_move (c : Z) : run := look (fun s =>
  match dirs s c with
  | None => ok                                                           (* 19-25 *)
  | Some _ => andthen (step (s_dir c (Some false)))                      (* 48 *)
                      (step (s_dir c None))                              (* 52 *)
  end).

(* Duplicating the current backup: /repo/src/server/backup_phase4.c:768-791.
   recursive_hardlink() makes the directory first, then fails if there is nothing
   to open: /repo/src/server/link.c:22-35 *)
Definition duplicate (c : Z) : run := look (fun s =>
  if dup s then ok
  else andthen (if duptmp s then step (s_dup false false) else ok)
      (andthen (step (s_dup false true))
               (look (fun s => match dirs s c with
                               | None => fail
                               | Some _ => step (s_dup true false)
                               end)))).

(* backup_phase4_server_all() as to directories: /repo/src/server/backup_phase4.c:726-868.
   arch: what need_hardlinked_archive() says.  The jiggle is in Phase4Model; here it
   does nothing. *)
Definition phase4 (arch : bool) (f : Z) : run := look (fun s =>
  match cur s with
  | None => step (s_hl f arch)                                           (* 751, 805-823 *)
  | Some c =>
    let hlc := valid s (Some c) && hl s c in                             (* 755-766 *)
    if hlc then step (s_hl f arch)
    else andthen (duplicate c)                                           (* 770-791 *)
         (andthen (step (s_hl f arch))
         (andthen (deleteme_move c)                                      (* 851 *)
                  (step (fun s => s_dup false false (s_dir c (Some true) s)))))  (* 855 *)
  end).

(* ---------- recovery ---------- *)

(* fix_log_finishing(): /repo/src/server/rubble.c:188-249 *)
Definition fix_log : run := look (fun s =>
  match lg s, gz s with
  | true, true => andthen (step (s_log true false)) fail                 (* 202-209 *)
  | true, false => ok                                                    (* 212 *)
  | false, true => andthen (step (s_log true true)) (andthen (step (s_log true false)) fail)  (* 218-229 *)
  | false, false => step (s_log true false)                              (* 232-241 *)
  end).

(* recover_finishing(): /repo/src/server/rubble.c:251-299 *)
Definition recover_finishing (arch : bool) (f : Z) : run :=
  andthen fix_log
  (andthen (phase4 arch f)
  (andthen (step (s_log true true)) (andthen (step (s_log false true))   (* 287 *)
  rename_fin))).

(* recover_currenttmp(): /repo/src/server/rubble.c:404-450.  Writing to the file
   resumed in current.tmp fails when that leads nowhere. *)
Definition recover_currenttmp : run := look (fun s =>
  if negb (valid s (ctmp s)) then fail                                   (* 407-414 *)
  else match cur s with
  | None => rename_ctmp                                                  (* 444-448 *)
  | Some _ => if valid s (cur s) then step (s_ctmp None)                 (* 437-440 *)
              else rename_ctmp                                           (* 429-436 *)
  end).

(* What is done with a working directory (RubbleModel): *)
Inductive wdone := WDeleted | WResume | WRefused. (* /repo/src/server/rubble.c:309-402 *)

(* working_delete(): /repo/src/server/rubble.c:118-125 *)
Definition working_delete (w : Z) : run :=
  andthen (step (s_dir w None)) (step (s_work None)).

(* check_for_rubble_and_clean(): /repo/src/server/rubble.c:459-500 *)
Definition check (arch : bool) (d : wdone) : run := look (fun s =>
  match fin s with
  | Some f => recover_finishing arch f
  | None =>
    match work s with
    | Some w => if valid s (Some w)
                then match d with WDeleted => working_delete w | WResume => ok | WRefused => fail end
                else andthen (step (s_work None)) fail                   (* 168-174, 326 *)
    | None =>
      match ctmp s with
      | Some _ => recover_currenttmp
      | None => ok
      end
    end
  end).

(* The backups that bu_get_list() gives: those with a timestamp, but not what
   working or finishing point to unless current does too.
   /repo/src/server/bu_get.c:176-200, 52-61 *)
Definition points (l : option Z) (i : Z) : bool := match l with Some j => i =? j | None => false end.
Definition listed (s : st) (i : Z) : bool := (* /repo/src/server/bu_get.c:184-199 *)
  match dirs s i with
  | Some true => points (cur s) i || negb (points (work s) i) && negb (points (fin s) i)
  | _ => false
  end.

(* The backup begun: the link and the directory.  /repo/src/server/sdirs.c:98-116 *)
Definition begin_backup (w : Z) : run :=
  andthen (step (s_work (Some w))) (andthen (step (s_dir w (Some false))) (step (s_dir w (Some true)))).

(* Renaming working to finishing, phase 4 and renaming finishing to current:
   /repo/src/server/backup.c:262-276; currentdup is not in the new directory, and it
   has a log. *)
Definition start_finish : run := look (fun s => (* /repo/src/server/backup.c:262 *)
  step (fun s' => s_log true false (s_dup false false (s_fin (work s) (s_work None s'))))).
(* /repo/src/server/backup.c:265-276 *)
Definition finish (arch : bool) (f : Z) : run := andthen (phase4 arch f) rename_fin. (* /repo/src/server/backup.c:265-276 *)
