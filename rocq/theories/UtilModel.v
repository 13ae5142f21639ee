(* Models of small functions: the comparison of include/exclude settings
   (/repo/src/server/rubble.c), lists of strings (/repo/src/strlist.c), the delta
   block length (/repo/src/server/blocklen.c), quotas (/repo/src/server/quota.c)
   and version numbers (/repo/src/handy.c). *)
From Coq Require Import Floats.SpecFloat.
From Verif Require Import Bytes FrameModel PathcmpModel BuModel.

(* The loop of incexc_matches(): /repo/src/server/rubble.c:81-86.  file: what is
   left of the stored text; inc: what is left of the offered text (a C string).
   fzp_read() gives sizeof(buf) bytes unless the file ends, and no read fails.
   The result is inc after the loop.  fuel: at least the number of reads. *)
Fixpoint incexc_loop (fuel : nat) (file inc : bytes) : bytes :=
  match fuel with
  | O => inc
  | S f =>
      let buf := firstn (Z.to_nat 4096) file in
      let got := List.length buf in
      if (got =? 0)%nat then inc
      else if (List.length inc <? got)%nat then inc                        (* 83 *)
      else if negb (beqb buf (firstn got inc)) then inc                    (* 84: inc has no NUL in its first got characters *)
      else incexc_loop f (skipn (Z.to_nat 4096) file) (skipn got inc)
  end.
(* incexc_matches(): /repo/src/server/rubble.c:63-93.  None: the file cannot be
   opened. *)
Definition incexc_matches (file : option bytes) (incexc : bytes) : bool :=
  match file with
  | None => true
  | Some f => match incexc_loop (S (List.length f)) f incexc with [] => true | _ => false end
  end.

(* do_strlist_add(): /repo/src/strlist.c:49-90.  struct strlist: path and flag. *)
Fixpoint strlist_add_w (sorted uniq : bool) (path : bytes) (flag : Z) (l : list (bytes * Z)) : list (bytes * Z) :=
  match l with
  | [] => [(path, flag)]
  | (p, f) :: r =>
      let c := pathcmp_s path p in
      if uniq && (c =? 0) && (flag =? f) then l                            (* 65-69 *)
      else if sorted && ((c <? 0) || ((c =? 0) && (flag <? f))) then (path, flag) :: l   (* 70-75 *)
      else (p, f) :: strlist_add_w sorted uniq path flag r
  end.
(* strlist_add(), strlist_add_sorted(), strlist_add_sorted_uniq(): /repo/src/strlist.c:92-108 *)
Definition strlist_add : bytes -> Z -> list (bytes * Z) -> list (bytes * Z) := strlist_add_w false false.
(* /repo/src/strlist.c:92-108 *)
Definition strlist_add_sorted : bytes -> Z -> list (bytes * Z) -> list (bytes * Z) := strlist_add_w true false.
(* /repo/src/strlist.c:92-108 *)
Definition strlist_add_sorted_uniq : bytes -> Z -> list (bytes * Z) -> list (bytes * Z) := strlist_add_w true true.
(* strlist_find(): /repo/src/strlist.c:121-128 *)
Fixpoint strlist_find (l : list (bytes * Z)) (path : bytes) (flag : Z) : bool :=
  match l with
  | [] => false
  | (p, f) :: r => if beqb path p && (flag =? f) then true else strlist_find r path flag
  end.

(* (double)n: the nearest binary64 value; used in /repo/src/server/blocklen.c:19. *)
Definition to_double (n : Z) : spec_float := binary_normalize 53 1024 n 0 false.
(* ceil(x/16) for a finite non-negative x: /repo/src/server/blocklen.c:19.  The
   division by a power of two and ceil() are exact here. *)
Definition ceil16 (x : spec_float) : Z :=
  match x with
  | S754_finite _ m e => if 4 <=? e then Z.pos m * 2 ^ (e - 4) else - (- Z.pos m / 2 ^ (4 - e))
  | _ => 0
  end.
(* get_librsync_block_len(): /repo/src/server/blocklen.c:13-23 *)
Definition get_librsync_block_len (endfile : bytes) : Z :=
  let oldlen := strtoul10 endfile in
  let ret := ceil16 (SFsqrt 53 1024 (to_double oldlen)) * 16 in
  if ret <? 64 then 64 else if 131072 <? ret then 131072 else ret.

(* check_quota(): /repo/src/server/quota.c:18-35: the warnings sent to the client
   and logged, each with the estimated size and the quota logged with it, and the
   return value. *)
Definition check_quota (byte hard_quota soft_quota : Z) : list (bytes * Z * Z) * Z :=
  if negb (hard_quota =? 0) && (hard_quota <? byte) then ([(str "Hard quota exceeded", byte, soft_quota)], -1)
  else if negb (soft_quota =? 0) && (soft_quota <? byte) then ([(str "Soft quota exceeded", byte, soft_quota)], 0)
  else ([], 0).

(* atol(), which is strtol(s, NULL, 10): /repo/src/handy.c:495-497 *)
Definition atol (s : bytes) : Z :=
  let s := skip_ws s in
  let '(neg, s) := if hd0 s =? 45 then (true, tl s) else if hd0 s =? 43 then (false, tl s) else (false, s) in
  match dec_run s 0 false with
  | None => 0
  | Some v => if (neg : bool) then Z.max (- v) (- 2 ^ 63) else Z.min v (2 ^ 63 - 1)
  end.
(* strtok(s, "."): /repo/src/handy.c:488-490.  The token and what is left for the
   next call. *)
Fixpoint tok_rest (s : bytes) : bytes * bytes :=
  match s with
  | [] => ([], [])
  | c :: r => if c =? 46 then ([], r) else let '(t, u) := tok_rest r in (c :: t, u)
  end.
(* strtok(): /repo/src/handy.c:488-490 *)
Fixpoint strtok_dot (s : bytes) : option (bytes * bytes) :=
  match s with
  | [] => None
  | c :: r => if c =? 46 then strtok_dot r else Some (tok_rest s)
  end.
(* The value fits in a long: /repo/src/handy.c:478-500 *)
Definition long_ok (x : Z) : bool := (- 2 ^ 63 <=? x) && (x <? 2 ^ 63).
(* version_to_long(): /repo/src/handy.c:478-500.  None: signed overflow, which is
   undefined. *)
Definition version_to_long (version : bytes) : option Z :=
  if hd0 version =? 0 then Some 0
  else match strtok_dot version with
       | None => Some (-1)
       | Some (t1, r1) =>
           match strtok_dot r1 with
           | None => Some (-1)
           | Some (t2, r2) =>
               match strtok_dot r2 with
               | None => Some (-1)
               | Some (t3, _) =>
                   let a := atol t3 in
                   let b := atol t2 * 100 in
                   let c := atol t1 * 100 in
                   if long_ok b && long_ok (a + b) && long_ok c && long_ok (c * 100) && long_ok (a + b + c * 100)
                   then Some (a + b + c * 100) else None
               end
           end
       end.
