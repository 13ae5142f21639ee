(* Model of phase 1 of a backup as the server runs it:
   /repo/src/server/backup_phase1.c and /repo/src/server/quota.c. *)
From Verif Require Import Bytes CmdModel FrameModel SbufModel AttribsModel.

(* What the settings say: /repo/src/server/backup_phase1.c:33, 89-90 *)
Record p1conf := mkp1conf { p_fow : bool; p_hard : Z; p_soft : Z }.

(* What is left after backup_phase1_server_all(): whether the file was renamed
   to the name that says the scan is complete (and 0 returned), what was sent
   to the client, what was written to the temporary file, the number of
   warnings counted, the bytes estimated.
   /repo/src/server/backup_phase1.c:21-106 *)
Record p1out := mkp1out {
  o_done : bool; o_sent : list (Z * bytes); o_file : bytes; o_warn : Z; o_est : Z }.

(* None: undefined behaviour in reading the attributes. *)
(* /repo/src/server/backup_phase1.c:21-106 *)
Definition p1res := option p1out.

(* check_fail_on_warning(): /repo/src/cntr.c:1100-1107.  The counters are
   always there on the server. *)
Definition check_fail_on_warning (fow : bool) (w : Z) : bool := fow && negb (w =? 0).

(* check_quota() with quota_log_bytes(): /repo/src/server/quota.c:9-35.  What
   is sent to the client, and whether the backup may go on; what goes to the
   log is left out (the text for the hard quota shows the soft one). *)
Definition check_quota (est hard soft : Z) : list (Z * bytes) * bool :=
  if negb (hard =? 0) && (hard <? est) then ([(CMD_WARNING, str "Hard quota exceeded")], false)
  else if negb (soft =? 0) && (soft <? est) then ([(CMD_WARNING, str "Soft quota exceeded")], true)
  else ([], true).

(* The attributes of an entry before anything is decoded: sbuf_free_content()
   clears them, /repo/src/sbuf.c:38-50 *)
Definition attrs0 : attrs := mkattrs 0 0 0 0 0 0 0 0 0 0 0 0 0 0 0 0 0 0.

(* The st_size of an entry, from the attributes it came with:
   /repo/src/sbuf.c:143-146, as a uint64_t: /repo/src/server/backup_phase1.c:73-74.
   None: undefined behaviour. *)
Definition entry_size (sb : sbuf) : option Z :=
  match ibuf (s_attr sb) with
  | None => Some 0
  | Some t => match attribs_decode (cview t) attrs0 with
              | Some a => Some (st_size a mod 2 ^ 64)
              | None => None
              end
  end.

(* What is added to the bytes estimated for one entry:
   /repo/src/server/backup_phase1.c:71-75 *)
Definition entry_est (sb : sbuf) : option Z :=
  match entry_size sb with
  | None => None
  | Some n => Some (if cmd_is_estimatable (icmd (s_path sb)) then n else 0)
  end.

(* What follows the end of the stream:
   /repo/src/server/backup_phase1.c:57-61, 78-100.  Sending, closing the file
   and renaming it are taken to succeed. *)
Definition p1_end (cf : p1conf) (w est : Z) (file : bytes) : p1out :=
  let file := file ++ fst (write_all [(CMD_GEN, str "phase1end")]) in
  let ok := (CMD_GEN, str "ok") in
  if check_fail_on_warning (p_fow cf) w then mkp1out false [ok] file w est
  else let '(q, go) := check_quota est (p_hard cf) (p_soft cf) in
       mkp1out go (ok :: q) file w est.

(* The loop: /repo/src/server/backup_phase1.c:45-76, together with the loop of
   sbuf_fill_from_net(): /repo/src/sbuf.c:264-312.  One message of the client
   is taken at each step; when there is none the connection is lost.  [top] says
   that the step is the first one for a new entry, where warnings are looked
   at (49).  Warnings are counted by log_recvd(), /repo/src/sbuf.c:208-211.
   timed_operation() (65) is taken to succeed, and writing to the file (67) to
   fail only for entries that are too long (send_msg_fzp()). *)
Fixpoint p1_loop (cf : p1conf) (msgs : list (Z * bytes)) (top : bool) (sb : sbuf)
    (w est : Z) (file : bytes) {struct msgs} : p1res :=
  let sb := if top then sbuf_free_content sb else sb in
  if top && check_fail_on_warning (p_fow cf) w then Some (mkp1out false [] file w est)
  else match msgs with
  | [] => Some (mkp1out false [] file w est)
  | m :: r =>
    let w := if fst m =? CMD_WARNING then (w + 1) mod 2 ^ 64 else w in
    match parse_cmd sb m with
    | (sb, PError) => Some (mkp1out false [] file w est)
    | (sb, PFinished) => Some (p1_end cf w est file)
    | (sb, PNeedMore) => p1_loop cf r false sb w est file
    | (sb, PComplete) =>
      match entry_est sb with
      | None => None
      | Some n =>
        match sbuf_to_manifest sb with
        | (b, false) => Some (mkp1out false [] (file ++ b) w est)
        | (b, true) => p1_loop cf r true sb w ((est + n) mod 2 ^ 64) (file ++ b)
        end
      end
    end
  end.

(* backup_phase1_server_all(): /repo/src/server/backup_phase1.c:21-106, started
   with w warnings already counted. *)
Definition phase1 (cf : p1conf) (w : Z) (msgs : list (Z * bytes)) : p1res :=
  p1_loop cf msgs true sbuf_alloc w 0 [].
