(* Model of lock files: /repo/src/lock.c, for builds with lockf().  Processes run
   concurrently; each system call is one step.  A file is known by its inode
   number; the kernel keeps, for each inode, which process has it locked.  A
   process uses one lock file at a time through one descriptor. *)
From Verif Require Import Bytes.

(* Where a process is: /repo/src/lock.c:40-80, 140-175 *)
Inductive pstate :=
| Idle
| Opened (i : Z)      (* in lock_get_quick(), after open(): lines 46-58 *)
| Holds (i : Z)       (* lock_get_quick() gave GET_LOCK_GOT: line 70 *)
| Failed (i : Z)      (* gave GET_LOCK_NOT_GOT; the descriptor stays open: lines 61-62, 75-77 *)
| Stuck (i : Z)       (* locked, but lock_write_pid() failed: lines 67-68, 72-74 *)
| Releasing (i : Z)   (* in lock_release(), after unlink(): line 166 *)
| TestOpened (i : Z)  (* in lock_test(), after open(): line 147 *)
| TestLocked (i : Z). (* in lock_test(), after lockf() succeeded: line 150 *)

(* path: the inode the lock file's name leads to; next: the next unused inode
   number; owner: the kernel's lock table.
   /repo/src/lock.c, the calls at 46, 59, 147, 150, 166, 169 *)
Record lstate := mkl { l_path : option Z; l_next : Z; l_owner : Z -> option Z; l_proc : Z -> pstate }.

(* Update of a function at one place, for the tables changed at /repo/src/lock.c:46, 59, 166 *)
Definition upd {A : Type} (f : Z -> A) (k : Z) (v : A) : Z -> A := fun x => if x =? k then v else f x.

(* Closing a descriptor drops the process's lock on the file (POSIX); so does
   the end of the process.
   /repo/src/lock.c:153, 156, 167-174 *)
Definition drop_lock (st : lstate) (p i : Z) : Z -> option Z :=
  match l_owner st i with
  | Some q => if q =? p then upd (l_owner st) i None else l_owner st
  | None => l_owner st
  end.

(* One system call of a process: /repo/src/lock.c:40-175 *)
Inductive levent :=
| EOpen (p : Z)               (* open(path, O_WRONLY|O_CREAT): lines 46-53 *)
| ETry (p : Z) (pid_ok : bool) (* lockf(F_TLOCK), lock_write_pid(): lines 59-71 *)
| EUnlink (p : Z)             (* lock_release(), unlink(path): line 166 *)
| EClose (p : Z)              (* lock_release(), close(fd): lines 167-174 *)
| ETestOpen (p : Z)           (* lock_test(), open(path, O_WRONLY): line 147 *)
| ETestTry (p : Z)            (* lock_test(), lockf(F_TLOCK): line 150 *)
| ETestClose (p : Z)          (* lock_test(), close(): lines 153, 156 *)
| EExit (p : Z).              (* the process ends, at any point *)

(* The file a process has open: /repo/src/lock.c:46, 147 *)
Definition inode_of (s : pstate) : option Z :=
  match s with
  | Idle => None
  | Opened i | Holds i | Failed i | Stuck i | Releasing i | TestOpened i | TestLocked i => Some i
  end.

(* Can p get the kernel's lock on i?
   lockf() at /repo/src/lock.c:59, 150 *)
Definition free_for (st : lstate) (p i : Z) : bool :=
  match l_owner st i with None => true | Some q => q =? p end.

(* None: the step is not possible for the process.
   /repo/src/lock.c:40-175 *)
Definition lstep (st : lstate) (e : levent) : option lstate :=
  match e with
  | EOpen p =>
      match l_proc st p with
      | Idle | Failed _ =>
          match l_path st with
          | Some i => Some (mkl (l_path st) (l_next st) (l_owner st) (upd (l_proc st) p (Opened i)))
          | None => Some (mkl (Some (l_next st)) (l_next st + 1) (l_owner st) (upd (l_proc st) p (Opened (l_next st))))
          end
      | _ => None
      end
  | ETry p pid_ok =>
      match l_proc st p with
      | Opened i =>
          if free_for st p i
          then Some (mkl (l_path st) (l_next st) (upd (l_owner st) i (Some p))
                 (upd (l_proc st) p (if pid_ok then Holds i else Stuck i)))
          else Some (mkl (l_path st) (l_next st) (l_owner st) (upd (l_proc st) p (Failed i)))
      | _ => None
      end
  | EUnlink p =>
      match l_proc st p with
      | Holds i => Some (mkl None (l_next st) (l_owner st) (upd (l_proc st) p (Releasing i)))
      | _ => None
      end
  | EClose p =>
      match l_proc st p with
      | Releasing i => Some (mkl (l_path st) (l_next st) (drop_lock st p i) (upd (l_proc st) p Idle))
      | _ => None
      end
  | ETestOpen p =>
      match l_proc st p, l_path st with
      | Idle, Some i => Some (mkl (l_path st) (l_next st) (l_owner st) (upd (l_proc st) p (TestOpened i)))
      | Idle, None => Some st
      | _, _ => None
      end
  | ETestTry p =>
      match l_proc st p with
      | TestOpened i =>
          if free_for st p i
          then Some (mkl (l_path st) (l_next st) (upd (l_owner st) i (Some p)) (upd (l_proc st) p (TestLocked i)))
          else Some (mkl (l_path st) (l_next st) (l_owner st) (upd (l_proc st) p Idle))
      | _ => None
      end
  | ETestClose p =>
      match l_proc st p with
      | TestLocked i => Some (mkl (l_path st) (l_next st) (drop_lock st p i) (upd (l_proc st) p Idle))
      | _ => None
      end
  | EExit p =>
      match inode_of (l_proc st p) with
      | Some i => Some (mkl (l_path st) (l_next st) (drop_lock st p i) (upd (l_proc st) p Idle))
      | None => Some st
      end
  end.

(* No process running; the lock file may be left over from before.
   The lock as /repo/src/lock.c finds it *)
Definition linit (leftover : bool) : lstate :=
  mkl (if leftover then Some 0 else None) 1 (fun _ => None) (fun _ => Idle).

(* Steps of any processes in any order, each from /repo/src/lock.c:40-175 *)
Fixpoint lrun (st : lstate) (es : list levent) : option lstate :=
  match es with
  | [] => Some st
  | e :: r => match lstep st e with Some st' => lrun st' r | None => None end
  end.
