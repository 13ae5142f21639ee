(* Model of the limit on the rate of sending: /repo/src/asfd.c:250-345. *)
From Verif Require Import Bytes.

(* rlstart, rlbytes and rlsleeptime: /repo/src/asfd.h:59-62 *)
Record rl := mkrl { rl_start : Z; rl_bytes : Z; rl_sleep : Z }.
(* asfd_init(): /repo/src/asfd.c:578, in memory from calloc() *)
Definition rl_init : rl := mkrl 0 0 10000.

(* An attempt to write: as->now, as set at /repo/src/async.c:94; what time() says now;
   and the number of bytes that write() or SSL_write() would take (0 if they ask to
   try again).  /repo/src/asfd.c:285-345 *)
Record att := mkatt { a_now : Z; a_time : Z; a_w : Z }.

(* What comes of it: bytes are sent, or there is a sleep of so many microseconds.
   /repo/src/asfd.c:285-345 *)
Inductive outcome := Sent (w : Z) | Slept (us : Z).

(* The doubling and halving: /repo/src/asfd.c:277, 281 *)
Definition sleep_more (s : Z) : Z := if 500000 <=? s * 2 then 500000 else s * 2.
(* /repo/src/asfd.c:281 *)
Definition sleep_less (s : Z) : Z := if s / 2 <=? 9999 then 10000 else s / 2.

(* check_ratelimit(): /repo/src/asfd.c:250-283.  over: the comparison f>=ratelimit
   (267) for a number of bytes per second, which goes through a conversion to float.
   Setting as->now (258) is seen by nobody before async.c:94 sets it again, if this is the only
   connection with a limit. *)
Definition check_ratelimit (over : Z -> bool) (s : rl) (a : att) : rl * option Z :=
  let start := if rl_start s =? 0 then a_time a else rl_start s in
  let diff := a_now a - start in
  if diff <? 0 then (mkrl start 0 (rl_sleep s), None)                             (* 255-263 *)
  else if diff =? 0 then (mkrl start (rl_bytes s) (rl_sleep s), None)             (* 264 *)
  else if over (rl_bytes s / diff)                                                (* 265-267 *)
  then (mkrl start (rl_bytes s) (sleep_more (rl_sleep s)), Some (rl_sleep s))     (* 274-278 *)
  else (mkrl start (rl_bytes s) (sleep_less (rl_sleep s)), None).                 (* 281 *)

(* asfd_do_write(), asfd_do_write_ssl(): /repo/src/asfd.c:285-345, with a limit.  The
   counter has 64 bits. *)
Definition do_write (over : Z -> bool) (s : rl) (a : att) : rl * outcome :=
  match check_ratelimit over s a with
  | (s, Some us) => (s, Slept us)
  | (s, None) => (mkrl (rl_start s) ((rl_bytes s + a_w a) mod 2 ^ 64) (rl_sleep s), Sent (a_w a))
  end.

(* The attempts of a connection: /repo/src/asfd.c:285-345 *)
Fixpoint writes (over : Z -> bool) (s : rl) (l : list att) : list outcome :=
  match l with
  | [] => []
  | a :: r => let '(s, o) := do_write over s a in o :: writes over s r
  end.

(* The option: /repo/src/conffile.c:279-291.  f: the number after the conversion to
   bytes per second, here a whole number.  Whether it is taken. *)
Definition ratelimit_taken (f : Z) : bool := negb (f =? 0).
