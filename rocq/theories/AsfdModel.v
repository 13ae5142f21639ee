(* Model of the buffered network layer: /repo/src/asfd.c and the read/write
   loop of /repo/src/async.c, for the standard stream type. *)
From Verif Require Import Bytes CmdModel FrameModel.

(* The receiving half of struct asfd: readbuf (the whole allocation of
   bufmaxsize bytes, asfd.c:30-35), readbuflen and rbuf.
   /repo/src/asfd.h:43-72 *)
Record rst := mkrst { rmem : bytes; rlen : nat; rmsg : option (Z * bytes) }.

(* Outcome of a step.  UB: sscanf() is given a buffer without a NUL, so it
   reads past the allocation.
   /repo/src/asfd.c:74-110 *)
Inductive out (A : Type) := Ok (a : A) | Err | UB.
Arguments Ok {A} _. Arguments Err {A}. Arguments UB {A}.

(* memmove(readbuf, readbuf+n, readbuflen-n): asfd.c:59-60.  Bytes after the
   moved part keep their old values. *)
Definition shift_down (mem : bytes) (n len : nat) : bytes :=
  firstn (len - n) (skipn n mem) ++ skipn (len - n) mem.

(* extract_buf(): /repo/src/asfd.c:37-68.  [max] is bufmaxsize. *)
Definition extract_buf (max : nat) (c : Z) (len offset : nat) (s : rst) : out rst :=
  if (max <=? offset + len)%nat then Err
  else Ok (mkrst (shift_down (rmem s) (len + offset) (rlen s))
                 (rlen s - (len + offset))
                 (Some (c, firstn len (skipn offset (rmem s))))).

(* A NUL occurs in the buffer. *)
Definition has_nul (m : bytes) : bool := existsb (fun b => b =? 0) m.

(* parse_readbuf_standard() and asfd_parse_readbuf(): /repo/src/asfd.c:109-146.
   The caller gives up on error, so the truncation of line 141 is not shown. *)
Definition parse_readbuf (max : nat) (s : rst) : out rst :=
  match rmsg s with
  | Some _ => Ok s                                        (* 137 *)
  | None =>
    if (rlen s <? 5)%nat then Ok s                        (* 113 *)
    else if negb (has_nul (rmem s)) then UB
    else match scan_lead (rmem s) with                    (* 114-119 *)
    | None => Err
    | Some (c, n) =>
      if Z.of_nat max <=? n then Err                      (* 120-125 *)
      else if (Z.to_nat n + 5 <=? rlen s)%nat             (* 126 *)
      then extract_buf max c (Z.to_nat n) 5 s
      else Ok s
    end
  end.

(* asfd_do_read()/asfd_do_read_ssl(): /repo/src/asfd.c:165-190, 198-247.  The
   transport hands over at most [avail] bytes of what is still to come; 0 is
   "try again".  With no room left read() is asked for zero bytes, returns 0
   and that is taken as the end of data (178-183). *)
Definition do_read (max avail : nat) (s : rst) (net : bytes) : out (rst * bytes) :=
  if (max - rlen s =? 0)%nat then Err
  else
    let r := Nat.min (Nat.min avail (max - rlen s)) (List.length net) in
    Ok (mkrst (firstn (rlen s) (rmem s) ++ firstn r net ++ skipn (rlen s + r) (rmem s))
              (rlen s + r) (rmsg s),
        skipn r net).

(* What happens to a connection: one async_io() with reading enabled
   (/repo/src/async.c:115-121, 188-205), or the caller taking the message and
   freeing it (e.g. /repo/src/asfd.c:515, /repo/src/sbuf.c:280). *)
Inductive rev := EvIo (avail : nat) | EvTake.

(* Receiver state, bytes still in the network, messages taken so far.
   /repo/src/asfd.c:37-170 *)
Record rsys := mkrsys { rs_st : rst; rs_net : bytes; rs_got : list (Z * bytes) }.

(* One event: /repo/src/async.c:115-121, 188-205; /repo/src/asfd.c:515 *)
Definition rstep (max : nat) (y : rsys) (e : rev) : out rsys :=
  match e with
  | EvTake =>
    match rmsg (rs_st y) with
    | None => Ok y
    | Some m => Ok (mkrsys (mkrst (rmem (rs_st y)) (rlen (rs_st y)) None) (rs_net y) (rs_got y ++ [m]))
    end
  | EvIo avail =>
    match parse_readbuf max (rs_st y) with                (* async.c:117 *)
    | Ok s =>
      match rmsg s with
      | Some _ => Ok (mkrsys s (rs_net y) (rs_got y))     (* 119-120 *)
      | None =>
        match do_read max avail s (rs_net y) with         (* 200 *)
        | Ok (s, net) =>
          match parse_readbuf max s with                  (* 201 *)
          | Ok s => Ok (mkrsys s net (rs_got y))
          | Err => Err | UB => UB
          end
        | Err => Err | UB => UB
        end
      end
    | Err => Err | UB => UB
    end
  end.

Fixpoint rrun (max : nat) (y : rsys) (l : list rev) : out rsys :=
  match l with
  | [] => Ok y
  | e :: l' => match rstep max y e with Ok y' => rrun max y' l' | Err => Err | UB => UB end
  end.

(* calloc() of the read buffer: /repo/src/asfd.c:32. *)
Definition rinit (max : nat) (net : bytes) : rsys :=
  mkrsys (mkrst (repeat 0 max) 0 None) net [].

(* ---- sending ---- *)

(* The sending half of struct asfd: writebuf up to writebuflen, and (ghost)
   everything the transport has accepted. *)
Record wst := mkwst { wbuf : bytes; wsent : bytes }.

Inductive append_ret := APPEND_OK | APPEND_BLOCKED.

(* asfd_append_all_to_write_buffer(), standard stream:
   /repo/src/asfd.c:380-412, with append_to_write_buffer() 371-378.  The
   header is printed into 10 bytes and measured with strlen() (392-394). *)
Definition append_all (max : nat) (s : wst) (m : Z * bytes) : append_ret * wst :=
  if (max - 1 <=? List.length (wbuf s) + 6 + List.length (snd m))%nat
  then (APPEND_BLOCKED, s)
  else
    let head := cview (firstn 9 (fst m :: fmt_04X (Z.of_nat (List.length (snd m))))) in
    (APPEND_OK, mkwst (wbuf s ++ head ++ snd m) (wsent s)).

(* asfd_do_write()/asfd_do_write_ssl(): /repo/src/asfd.c:285-319, 321-369.
   The transport accepts at most [w] bytes (0: would block or rate limited). *)
Definition do_write (s : wst) (w : nat) : wst :=
  mkwst (skipn w (wbuf s)) (wsent s ++ firstn w (wbuf s)).

(* asfd_write(): /repo/src/asfd.c:482-494.  Each round tries to append and then
   lets the transport take some bytes; [ws] says how many in each round.  None
   when the rounds ran out before the message was appended. *)
Fixpoint asfd_write (max : nat) (s : wst) (m : Z * bytes) (ws : list nat) : option wst :=
  match snd m with
  | [] => Some s                                     (* while(wbuf->len) *)
  | _ =>
    match ws with
    | [] => None
    | w :: ws' =>
      match append_all max s m with
      | (APPEND_OK, s') => Some (do_write s' w)      (* wbuf->len=0 (410) *)
      | (APPEND_BLOCKED, s') => asfd_write max (do_write s' w) m ws'
      end
    end
  end.

(* Several asfd_write() calls, with more transport progress in between.
   /repo/src/asfd.c:479-494 *)
Inductive wev := WMsg (m : Z * bytes) (ws : list nat) | WIo (w : nat).
(* The calls one after the other: /repo/src/asfd.c:479-494 *)
Fixpoint wrun (max : nat) (s : wst) (l : list wev) : option wst :=
  match l with
  | [] => Some s
  | WIo w :: l' => wrun max (do_write s w) l'
  | WMsg m ws :: l' =>
      match asfd_write max s m ws with Some s' => wrun max s' l' | None => None end
  end.
