(* Model of getting a file back out of the kept backups:
   /repo/src/server/restore_sbuf.c, restore_file() and
   process_data_dir_file(). *)
From Verif Require Import Bytes.

(* One backup: its flag BU_HARDLINKED, its manifest as the storage paths with
   whether they are stored compressed and what the file contained, and what is
   in its data and deltas.reverse directories.  /repo/src/bu.h,
   /repo/src/server/bu_get.c:30-75. *)
Record backup := mkb { b_hl : bool; b_man : list (bytes * bool * bytes);
                       b_data : bytes -> option bytes; b_rev : bytes -> option bytes }.

Section Restore.
(* zlib and librsync, as in Phase4Model: /repo/src/server/zlibio.c:8-58 and
   do_patch(), /repo/src/server/backup_phase4.c:31-65 *)
Variables (gunzip : bytes -> option bytes) (patch : bytes -> bytes -> option bytes).

(* The first loop of restore_file(): from the backup asked for towards newer
   ones, until the file is in a data directory; also the backups passed over.
   /repo/src/server/restore_sbuf.c:367-375 *)
Fixpoint find_data (bs : list backup) (d : bytes) : option (bytes * list backup) :=
  match bs with
  | [] => None
  | b :: r =>
    match b_data b d with
    | Some c => Some (c, [])
    | None => match find_data r d with
              | Some (c, l) => Some (c, b :: l)
              | None => None
              end
    end
  end.

(* inflate_or_link_oldfile() and create_zero_length_file():
   /repo/src/server/restore_sbuf.c:25-70 *)
Definition inflate (comp : bool) (c : bytes) : option bytes :=
  if comp then match c with [] => Some [] | _ => gunzip c end else Some c.

(* One turn of the loop of process_data_dir_file(), with whether there have been
   patches before: /repo/src/server/restore_sbuf.c:282-321 *)
Definition apply_delta (comp : bool) (d : bytes) (b : backup) (acc : option (bool * bytes)) : option (bool * bytes) :=
  match acc with
  | None => None
  | Some (patched, c) =>
    match b_rev b d with
    | None => Some (patched, c)
    | Some dl =>
      match (if patched then Some c else inflate comp c) with
      | None => None
      | Some p => match patch p dl with
                  | None => None
                  | Some q => Some (true, q)
                  end
      end
    end
  end.

(* restore_file(), for the backup at the head of the list and the newer ones:
   /repo/src/server/restore_sbuf.c:259-403.  What is sent: whether it has been
   patched, and then is sent as it is, else as it is stored; None when the file
   is not found or a step fails (a warning). *)
Definition restore_file (bs : list backup) (d : bytes) (comp : bool) : option (bool * bytes) :=
  match find_data bs d with
  | None => None
  | Some (c, passed) => fold_right (apply_delta comp d) (Some (false, c)) passed
  end.

(* What the client makes of it: do_send_file(),
   /repo/src/server/restore_sbuf.c:72-163.  A file stored compressed is sent as
   it is and inflated by the client; the others are compressed for sending. *)
Definition restored (bs : list backup) (d : bytes) (comp : bool) : option bytes :=
  match restore_file bs d comp with
  | None => None
  | Some (true, c) => Some c
  | Some (false, c) => if comp then gunzip c else Some c
  end.
End Restore.

(* Whether a backup may be deleted: the oldest, or one that comes after a
   hardlinked one.  /repo/src/server/bu_get.c:112-128 *)
Definition deletable (R : list backup) (k : nat) : Prop :=
  k = 0%nat \/ exists b, nth_error R (k - 1) = Some b /\ b_hl b = true.
