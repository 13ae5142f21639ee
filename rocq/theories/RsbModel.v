(* Feeding librsync: files and messages in, messages and files out, /repo/src/rs_buf.c, with the loops of
   /repo/src/client/backup_phase2.c and /repo/src/server/backup_phase2.c.  librsync itself is not modelled: a job
   is anything that can be stepped. *)
From Coq Require Import ZArith List Bool.
From Verif Require Import Bytes CmdModel.
Import ListNotations.
Open Scope Z_scope.

(* rs_result: /repo/src/rs_buf.c:324-348 tells these apart *)
Inductive rres : Type := RsDone | RsBlocked | RsRunning | RsErr.
(* one read of a file: data, the end, an error (/repo/src/rs_buf.c:168-231) *)
Inductive rd : Type := RdData (b : bytes) | RdEof | RdErr.
(* append_all_to_write_buffer or fzp_write: /repo/src/rs_buf.c:295-302, 308-314 *)
Inductive wr : Type := WrOk | WrBlocked | WrErr.

(* struct rs_filebuf twice and rs_buffers_t (/repo/src/rs_buf.h:26-45): [f_in] what avail_in counts from next_in on;
   [f_out] what is between the start of the output buffer and next_out, None while next_out is NULL; [f_left] is
   data_len if the byte count is known; [f_bytes] and [f_md5] the bytes counted and summed on the way in; [f_sent]
   what was written, one element a time; [f_osent] the bytes counted on the way out. *)
Record fst8 := mkf { f_reads : list rd; f_left : option nat; f_in : bytes; f_eof : bool; f_bytes : nat; f_md5 : bytes;
  f_out : option bytes; f_sent : list bytes; f_osent : nat }.

Section Job.
(* rs_job_iter() of librsync: the job with the bytes at hand, whether these are the last, and the room for output;
   the new job, how many bytes were taken, the bytes put out, and the result.  Called at
   /repo/src/rs_buf.c:337 *)
Variable J : Type.
Variable iter : J -> bytes -> bool -> nat -> J * nat * bytes * rres.
(* buf_len: /repo/src/rs_buf.c:64 *)
Variable cap : nat.

(* one read of a file of at most n bytes; files that give more than they are asked for do not exist.
   /repo/src/rs_buf.c:174-175, 187, 210 *)
Definition read_file (n : nat) (l : list rd) : rd * list rd :=
  match l with
  | [] => (RdEof, [])
  | RdData b :: r =>
    match b with
    | [] => (RdEof, r)                                            (* 188: nothing read is the end *)
    | _ => if (length b <=? n)%nat then (RdData b, r)
           else (RdData (firstn n b), RdData (skipn n b) :: r)
    end
  | x :: r => (x, r)
  end.

(* rs_infilebuf_fill(): /repo/src/rs_buf.c:98-237, for files.  The checks of the pointers hold. *)
Definition fill_file (s : fst8) : option fst8 :=
  match f_in s with
  | _ :: _ => Some s                                              (* 144-147 *)
  | [] =>
    let '(x, r) := match f_left s with
                   | Some O => (RdEof, f_reads s)                 (* 178-184 *)
                   | Some n => read_file (Nat.min cap n) (f_reads s)
                   | None => read_file cap (f_reads s)
                   end in
    match x with
    | RdErr => None
    | RdEof => Some (mkf r (f_left s) [] true (f_bytes s) (f_md5 s) (f_out s) (f_sent s) (f_osent s))
    | RdData b => Some (mkf r (match f_left s with Some n => Some (n - length b)%nat | None => None end) b false
                          (f_bytes s + length b) (f_md5 s ++ b) (f_out s) (f_sent s) (f_osent s))
    end
  end.

(* rs_outfilebuf_drain(): /repo/src/rs_buf.c:244-322.  None: an error; the bool: blocked. *)
Definition drain (s : fst8) (w : wr) : option (fst8 * bool) :=
  let put o sent n := mkf (f_reads s) (f_left s) (f_in s) (f_eof s) (f_bytes s) (f_md5 s) o sent n in
  match f_out s with
  | None => Some (put (Some []) (f_sent s) (f_osent s), false)    (* 254-265 *)
  | Some [] => Some (s, false)                                    (* 287, 318-319 *)
  | Some b =>
    match w with
    | WrOk => Some (put (Some []) (f_sent s ++ [b]) (f_osent s + length b)%nat, false)
    | WrBlocked => Some (s, true)
    | WrErr => None
    end
  end.

(* rs_async_drive(): /repo/src/rs_buf.c:324-348, with both ends *)
Definition drive (j : J) (s : fst8) (w : wr) : J * fst8 * rres :=
  match (if f_eof s then Some s else fill_file s) with
  | None => (j, s, RsErr)
  | Some s1 =>
    let room := match f_out s1 with Some b => (cap - length b)%nat | None => O end in
    let '(j2, n, p, r) := iter j (f_in s1) (f_eof s1) room in
    let s2 := mkf (f_reads s1) (f_left s1) (skipn n (f_in s1)) (f_eof s1) (f_bytes s1) (f_md5 s1)
                (match f_out s1 with Some b => Some (b ++ p) | None => None end) (f_sent s1) (f_osent s1) in
    match r with
    | RsErr => (j2, s2, RsErr)
    | RsRunning => (j2, s2, RsRunning)                            (* 338-339 *)
    | _ =>
      match drain s2 w with
      | None => (j2, s2, RsErr)
      | Some (s3, true) => (j2, s3, RsBlocked)
      | Some (s3, false) => (j2, s3, r)
      end
    end
  end.

(* the loops around it, which go on while the result is blocked or running: /repo/src/client/backup_phase2.c:112-141,
   /repo/src/server/backup_phase2.c:653-673 with the loop that calls it, and rs_job_drive() of librsync for
   /repo/src/rs_buf.c:373-375.  [ws] are the answers of the write side, one for each round; the result when they
   run out is that of the last round. *)
Fixpoint drive_loop (j : J) (s : fst8) (ws : list wr) : J * fst8 * rres :=
  match ws with
  | [] => (j, s, RsRunning)
  | w :: r =>
    let '(j2, s2, x) := drive j s w in
    match x with
    | RsDone | RsErr => (j2, s2, x)
    | _ => drive_loop j2 s2 r
    end
  end.

(* the start: /repo/src/rs_buf.c:59-72, memset at /repo/src/client/backup_phase2.c:92 *)
Definition fstart (reads : list rd) (data_len : option nat) : fst8 :=
  mkf reads (match data_len with Some O => None | x => x end) [] false O [] None [] O.

(* ---------- the signature on its way into the client ---------- *)

(* what is left of the last message, and whether the end has come (/repo/src/client/backup_phase2.c:23-26) *)
Record rst8 := mkr { r_in : bytes; r_eof : bool }.
(* rs_infilebuf_fill(): /repo/src/rs_buf.c:141-167, 233-236, for messages.  The first None: the copy at 157 is
   longer than the buffer; the second: an error. *)
Definition fill_msg (s : rst8) (m : Z * bytes) : option (option rst8) :=
  match r_in s with
  | _ :: _ => Some (Some s)                                       (* the message is not looked at *)
  | [] =>
    if fst m =? CMD_APPEND then
      if (cap <? length (snd m))%nat then None else Some (Some (mkr (snd m) false))
    else if fst m =? CMD_END_FILE then Some (Some (mkr [] true))
    else Some None
  end.

(* what comes of rs_loadsig_network_run(): the job is done, with the messages after that; an error; undefined
   behaviour; the messages have run out *)
Inductive lres : Type := LDone (j : J) (rest : list (Z * bytes)) | LErr | LUB | LMore (j : J) (s : rst8).

(* rs_loadsig_network_run(): /repo/src/client/backup_phase2.c:19-61, with /repo/src/rs_buf.c:324-348 *)
Fixpoint loadsig (j : J) (s : rst8) (ms : list (Z * bytes)) : lres :=
  match ms with
  | [] => LMore j s
  | m :: r =>
    if (fst m =? CMD_MESSAGE) || (fst m =? CMD_WARNING) then loadsig j s r
    else
      match (if r_eof s then Some (Some s) else fill_msg s m) with
      | None => LUB
      | Some None => LErr
      | Some (Some s1) =>
        let '(j2, n, _, x) := iter j (r_in s1) (r_eof s1) O in
        let s2 := mkr (skipn n (r_in s1)) (r_eof s1) in
        match x with
        | RsDone => LDone j2 r
        | RsErr => LErr
        | _ => loadsig j2 s2 r
        end
      end
  end.
End Job.

(* ASYNC_BUF_LEN: /repo/src/async.h:4, as a size of buffers at /repo/src/client/backup_phase2.c:29, 104, 106 *)
Definition ASYNC_BUF_LEN : Z := 16000.
