(* Model of the built-in timer: /repo/src/server/timer.c. *)
From Verif Require Import Bytes FrameModel DpthModel RestoreModel BuModel AuthModel.

(* strstr(s, sub) != NULL: /repo/src/server/timer.c:101-102 *)
Fixpoint strstr (s sub : bytes) : bool :=
  starts_with s sub || match s with [] => false | _ :: r => strstr r sub end.

(* check_timebands(): /repo/src/server/timer.c:72-117; out of memory is left out. *)
Definition check_timebands (day hour : bytes) (bands : list bytes) : bool :=
  existsb (fun t => let t := strlwr t in
    beqb t (str "always") || (strstr t (strlwr day) && strstr t (strlwr hour))) bands.

(* The digits of a number and the rest. *)
Fixpoint num_run (s : bytes) (v : Z) (any : bool) : option (Z * bytes) :=
  match s with
  | c :: s' => if isdigit c then num_run s' (v * 10 + (c - 48)) true else if any then Some (v, s) else None
  | [] => if any then Some (v, []) else None
  end.
(* sscanf(s, "%d%c"): /repo/src/server/timer.c:124.  As glibc does it: a number
   too large for long is the largest long, and then cut to int. *)
Definition scan_interval (s : bytes) : option (Z * Z) :=
  let s := skip_ws s in
  let '(neg, s) := if hd0 s =? 45 then (true, tl s) else if hd0 s =? 43 then (false, tl s) else (false, s) in
  match num_run s 0 false with
  | None => None
  | Some (v, r) =>
      let l := if (neg : bool) then Z.max (- v) (- 2 ^ 63) else Z.min v (2 ^ 63 - 1) in
      match r with [] => None | c :: _ => Some (s32 l, c) end
  end.
(* get_interval_in_seconds(): /repo/src/server/timer.c:119-145.  long has 64
   bits, so there is no overflow. *)
Definition interval_seconds (s : bytes) : Z :=
  match scan_interval s with
  | None => -1
  | Some (n, u) =>
      if u =? 115 then n
      else if u =? 109 then n * 60
      else if u =? 104 then n * 60 * 60
      else if u =? 100 then n * 60 * 60 * 24
      else if u =? 119 then n * 60 * 60 * 24 * 7
      else if u =? 110 then n * 60 * 60 * 24 * 30
      else -1
  end.

(* The state looked at: is there a regular file 'backup' (removed when found),
   is the current backup a directory, what its timestamp reads as (None: not
   readable), the time. *)
Record tenv := mkt { t_manual : bool; t_prior : bool; t_last : option Z; t_day : bytes; t_hour : bytes; t_now : Z }.

(* check_interval(): /repo/src/server/timer.c:147-182 *)
Definition check_interval (e : tenv) (interval : bytes) : Z :=
  let seconds := interval_seconds interval in
  if seconds <? 0 then -1
  else match t_last e with
       | None => 0
       | Some last => if last + seconds <? t_now e then 0 else 1
       end.

(* run_timer_internal(): /repo/src/server/timer.c:187-250.  0: back up, 1: do
   not, -1: error.  None: the NULL interval is used (lines 203, 236). *)
Definition run_timer (e : tenv) (args : list bytes) : option Z :=
  if t_manual e then Some 0
  else if negb (check_timebands (t_day e) (t_hour e) (tl args)) then Some 1
  else if negb (t_prior e) then Some 0
  else match args with
       | [] => None
       | i :: _ => Some (check_interval e i)
       end.
