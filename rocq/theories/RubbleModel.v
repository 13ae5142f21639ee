(* Model of what the server does with the working directory of an interrupted
   backup: /repo/src/server/rubble.c:19-176 and 309-402, the steps of a backup
   that show in that directory (/repo/src/server/backup.c:167-298), and a resumed
   backup. *)
From Verif Require Import Bytes.

(* ---------- comparing the includes and excludes ---------- *)

(* sizeof(buf) of incexc_matches(): /repo/src/server/rubble.c:68 *)
Definition chunk : nat := Z.to_nat 4096.

(* strncmp(buf, inc, got), with strlen(inc)>=got; bytes of inc are not 0, so equal
   means that all got bytes are: /repo/src/server/rubble.c:84 *)
Fixpoint same_start (a b : bytes) : bool :=
  match a, b with
  | [], _ => true
  | _, [] => false
  | x :: a', y :: b' => (x =? y) && same_start a' b'
  end.

(* The loop of incexc_matches(): what is left of inc.
   /repo/src/server/rubble.c:80-86.  fread() gives a full buffer until the end of
   the file is near.  The fuel is the size of the file. *)
Fixpoint inc_left (fuel : nat) (file inc : bytes) : bytes :=
  match fuel, file with
  | O, _ => inc
  | _, [] => inc
  | S k, _ =>
    let buf := firstn chunk file in
    if (List.length inc <? List.length buf)%nat then inc
    else if same_start buf inc then inc_left k (skipn chunk file) (skipn (List.length buf) inc)
    else inc
  end.

(* incexc_matches(): /repo/src/server/rubble.c:63-93; None: there is no incexc file.
   Running out of memory is left out. *)
Definition incexc_matches (old : option bytes) (inc : bytes) : bool :=
  match old with
  | None => true
  | Some f => match inc_left (List.length f) f inc with [] => true | _ => false end
  end.

(* ---------- the working directory ---------- *)

(* The files of the directory that matter here.  /repo/src/server/sdirs.c:121-135;
   w_there: the directory itself; the working symlink is taken to be there.  The
   entries of changed, unchanged and the new manifest are numbers.
   w_resumes: the lines of the file resumed, /repo/src/server/rubble.c:19-61. *)
Record wdir := mkw {
  w_there : bool; w_p1tmp : bool; w_p1 : bool;
  w_ch : option (list Z); w_un : option (list Z); w_man : option (list Z);
  w_inc : option bytes; w_resumes : option Z }.

(* lstat() on a file: /repo/src/server/rubble.c:333-339 *)
Definition is {A} (f : option A) : bool := match f with Some _ => true | None => false end.

(* /repo/src/conf.h recovery_method, /repo/src/conf.c:30-50 *)
Inductive method := MDelete | MResume | MUnset.

(* The options looked at: /repo/src/server/rubble.c:319-321, 132; incexc is what the
   client has sent this time. *)
Record cfg := mkcfg { c_method : method; c_max : Z; c_super : bool; c_inc : bytes }.

(* Deleted: the directory and the symlink are gone; Resume: the next backup goes on
   with the directory; Refused: the request is answered with an error. *)
Inductive outcome := Deleted | Resume | Refused.

(* append_to_resume_file(): /repo/src/server/rubble.c:24-41.  It works when the
   directory is there. *)
Definition count_up (w : wdir) : option Z :=
  match w_resumes w with None => Some 1 | Some n => Some (n + 1) end.

(* The test for a scan that did not complete: /repo/src/server/rubble.c:332-339 *)
Definition scan_unfinished (w : wdir) : bool :=
  w_p1tmp w || (negb (w_p1tmp w) && negb (w_p1 w) && negb (is (w_ch w)) && negb (is (w_un w))).

(* working_resume(): /repo/src/server/rubble.c:129-159 *)
Definition working_resume (c : cfg) (w : wdir) : outcome :=
  if c_super c then Refused
  else if incexc_matches (w_inc w) (c_inc c) then Resume
  else Deleted.

(* recover_working(): /repo/src/server/rubble.c:309-402.  A deletion is taken to
   work; see half_deleted for one that is stopped. *)
Definition recover_working (c : cfg) (w : wdir) : outcome :=
  if negb (w_there w) then Refused                                  (* 325-326 *)
  else
    let m := if scan_unfinished w then MDelete                      (* 333-344 *)
             else match count_up w with
                  | Some n => if (0 <? c_max c) && (c_max c <? n) then MDelete else c_method c  (* 349-365 *)
                  | None => c_method c
                  end in
    match m with
    | MDelete => Deleted                                            (* 368-372 *)
    | MResume => working_resume c w                                 (* 385-387 *)
    | MUnset => Refused                                             (* 388-394 *)
    end.

(* A file that may have been deleted. *)
Definition maybe {A} (f g : option A) : Prop := g = f \/ g = None. (* /repo/src/fsops.c:246-254 *)

(* A deletion of the directory stopped on the way: any of the files may be gone
   already, as readdir() gives them in any order.
   /repo/src/server/rubble.c:118, /repo/src/fsops.c:213-259 *)
Definition half_deleted (w w' : wdir) : Prop :=
  w_there w' = true /\ (w_p1tmp w' = true -> w_p1tmp w = true) /\ (w_p1 w' = true -> w_p1 w = true) /\
  maybe (w_ch w) (w_ch w') /\ maybe (w_un w) (w_un w') /\ maybe (w_man w) (w_man w') /\
  maybe (w_inc w) (w_inc w') /\ maybe (w_resumes w) (w_resumes w').

(* ---------- the steps of a backup in the working directory ---------- *)

(* One step each. *)
Definition w_mkdir (w : wdir) : wdir :=                  (* /repo/src/server/sdirs.c:105 *)
  mkw true (w_p1tmp w) (w_p1 w) (w_ch w) (w_un w) (w_man w) (w_inc w) (w_resumes w).
Definition w_incexc (i : bytes) (w : wdir) : wdir :=     (* /repo/src/server/backup.c:68-95 *)
  mkw (w_there w) (w_p1tmp w) (w_p1 w) (w_ch w) (w_un w) (w_man w) (Some i) (w_resumes w).
Definition w_scan (w : wdir) : wdir :=                   (* /repo/src/server/backup_phase1.c:39-41 *)
  mkw (w_there w) true (w_p1 w) (w_ch w) (w_un w) (w_man w) (w_inc w) (w_resumes w).
Definition w_scanned (w : wdir) : wdir :=                (* /repo/src/server/backup_phase1.c:96 *)
  mkw (w_there w) false true (w_ch w) (w_un w) (w_man w) (w_inc w) (w_resumes w).
(* fopen(..., ab): /repo/src/server/manio.c:56 *)
Definition created (f : option (list Z)) : option (list Z) := match f with None => Some [] | _ => f end.
Definition w_changed (w : wdir) : wdir :=                (* /repo/src/server/manios.c:22, resume.c:591 *)
  mkw (w_there w) (w_p1tmp w) (w_p1 w) (created (w_ch w)) (w_un w) (w_man w) (w_inc w) (w_resumes w).
Definition w_unchanged (w : wdir) : wdir :=              (* /repo/src/server/manios.c:23, resume.c:592 *)
  mkw (w_there w) (w_p1tmp w) (w_p1 w) (w_ch w) (created (w_un w)) (w_man w) (w_inc w) (w_resumes w).
(* Phase 2 when all of it has been done, resumed or not: the entries ch for changed
   and un for unchanged.  /repo/src/server/backup_phase2.c:1240-1302 *)
Definition w_filled (ch un : list Z) (w : wdir) : wdir :=
  mkw (w_there w) (w_p1tmp w) (w_p1 w) (Some ch) (Some un) (w_man w) (w_inc w) (w_resumes w).
Definition w_received (w : wdir) : wdir :=               (* /repo/src/server/backup_phase2.c:1320-1321 *)
  mkw (w_there w) (w_p1tmp w) false (w_ch w) (w_un w) (w_man w) (w_inc w) (w_resumes w).
(* A manifest that is not there reads as empty: /repo/src/server/manio.c:47-49, 215-219 *)
Definition entries (f : option (list Z)) : list Z := match f with Some l => l | None => [] end.
(* Phase 3: the entries of both; their order is left out (MergeProofs has it).
   /repo/src/server/backup_phase3.c:33-143 *)
Definition w_merged (w : wdir) : wdir :=
  mkw (w_there w) (w_p1tmp w) (w_p1 w) (w_ch w) (w_un w) (Some (entries (w_ch w) ++ entries (w_un w))) (w_inc w) (w_resumes w).
Definition w_rm_changed (w : wdir) : wdir :=             (* /repo/src/server/backup_phase3.c:147 *)
  mkw (w_there w) (w_p1tmp w) (w_p1 w) None (w_un w) (w_man w) (w_inc w) (w_resumes w).
Definition w_rm_unchanged (w : wdir) : wdir :=           (* /repo/src/server/backup_phase3.c:148 *)
  mkw (w_there w) (w_p1tmp w) (w_p1 w) (w_ch w) None (w_man w) (w_inc w) (w_resumes w).

(* Only the symlink: /repo/src/server/sdirs.c:98 *)
Definition w_empty : wdir := mkw false false false None None None None None.

(* The states before and after each of some steps, and the last:
   the order in /repo/src/server/backup.c:191-262 *)
Fixpoint states (l : list (wdir -> wdir)) (w : wdir) : list wdir :=
  match l with [] => [w] | f :: r => w :: states r (f w) end.
Fixpoint final (l : list (wdir -> wdir)) (w : wdir) : wdir := (* /repo/src/server/backup.c:191-262 *)
  match l with [] => w | f :: r => final r (f w) end.

Section Backup.
(* What phase 2 comes to for this backup: the entries that get into changed and
   into unchanged.  /repo/src/server/backup_phase2.c:1240-1302 *)
Variables (ch un : list Z).

(* Until the scan is complete.  No incexc file is written for no includes.
   /repo/src/server/backup.c:191-213, 75 *)
Definition scan_steps (inc : bytes) : list (wdir -> wdir) :=
  [w_mkdir] ++ match inc with [] => [] | _ => [w_incexc inc] end ++ [w_scan].
(* /repo/src/server/backup.c:229-238 *)
Definition phase2_steps : list (wdir -> wdir) := [w_changed; w_unchanged; w_filled ch un; w_received].
(* /repo/src/server/backup_phase3.c:133-149 *)
Definition phase3_steps : list (wdir -> wdir) := [w_merged; w_rm_changed; w_rm_unchanged].

(* A new backup with these includes while its scan goes on, and from then until
   its symlink is renamed to finishing.  /repo/src/server/backup.c:191-262 *)
Definition new_scanning (inc : bytes) : list wdir := states (scan_steps inc) w_empty.
Definition new_scanned (inc : bytes) : list wdir := (* /repo/src/server/backup.c:209-262 *)
  states (phase2_steps ++ phase3_steps) (w_scanned (final (scan_steps inc) w_empty)).

(* do_backup_server() with resume set: /repo/src/server/backup.c:176-190, 216-262.
   The steps and whether it gets to rename the symlink.  Phase 2 is skipped when
   it seems to be done; else do_resume() fails without the list of the scan, as
   then nothing had been transferred and manio_tell() is called without a file:
   /repo/src/server/resume.c:475-548, /repo/src/server/manio.c:386-396.  It has
   made changed and unchanged before: /repo/src/server/resume.c:589-594. *)
Definition resume_steps (w : wdir) : list (wdir -> wdir) * bool :=
  if negb (w_p1 w) && is (w_ch w) && is (w_un w) then (phase3_steps, true)
  else if w_p1 w then (phase2_steps ++ phase3_steps, true)
  else ([w_changed; w_unchanged], false).

(* The line added by recover_working(): /repo/src/server/rubble.c:347 *)
Definition with_count (w : wdir) : wdir :=
  mkw (w_there w) (w_p1tmp w) (w_p1 w) (w_ch w) (w_un w) (w_man w) (w_inc w) (count_up w).

(* A resumed backup: the states on the way, whether it gets to the end, and the
   directory then.  /repo/src/server/backup.c:216-262 *)
Definition resumed (w : wdir) : list wdir := states (fst (resume_steps w)) (with_count w).
Definition resumed_ok (w : wdir) : bool := snd (resume_steps w). (* /repo/src/server/backup.c:248-262 *)
Definition resumed_end (w : wdir) : wdir := final (fst (resume_steps w)) (with_count w). (* /repo/src/server/backup.c:248-262 *)
End Backup.
