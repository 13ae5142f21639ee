(* Model of what the server says beforehand about a restore:
   /repo/src/server/restore.c:166-226, and of which backups are made such that others do
   not need them: /repo/src/server/backup_phase4.c:501-529. *)
From Verif Require Import Bytes FrameModel DpthModel BuModel CmdModel RestoreModel LinkModel.
From Verif Require CntrModel.
From Verif Require Import HlsModel.

(* get_endfile_str(), what is noted at the end of the data of a file: its size and its
   checksum.  /repo/src/handy_extra.c:139-146 *)
Definition get_endfile_str (n : Z) (md5 : bytes) : bytes := CntrModel.fmt_u n ++ 58 :: md5.

(* The calls for one entry: /repo/src/server/restore.c:201-213.  The flag says whether
   the entry is wanted; endfile is what was noted at the end of its data. *)
Definition est_ops (endfile : ent -> option bytes) (x : ent * bool) : list CntrModel.op :=
  let '(e, want) := x in
  if want then
    CntrModel.OPhase1 (e_cmd e) ::
    match endfile e with
    | Some b => [CntrModel.OVal CntrModel.CMD_BYTES_ESTIMATED (strtoul10 b)]
    | None => []
    end
  else [].

(* setup_cntr(): /repo/src/server/restore.c:166-226, on counters that were just made.
   Files that cannot be opened or read left out. *)
Definition setup_cntr (start : Z) (endfile : ent -> option bytes) (ms : list (ent * bool)) : list CntrModel.ent :=
  CntrModel.run start (flat_map (est_ops endfile) ms).

(* need_hardlinked_archive(): /repo/src/server/backup_phase4.c:501-529.  None is a
   division by zero.  kp is an int, and bno a uint64_t. *)
Definition need_hardlinked_archive (opt : bool) (keep : list Z) (bno : Z) : option bool :=
  if opt then Some true
  else match keep with
  | k :: _ :: _ =>
    let kp := s32 k in
    if kp =? 0 then None else Some (s32 (u64 (bno - 1) mod u64 kp) =? 0)
  | _ => Some false
  end.
