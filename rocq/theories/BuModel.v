(* Model of the list of backups of a client: /repo/src/server/bu_get.c,
   /repo/src/bu.c, and the numbering of new backups in
   /repo/src/server/backup.c and timestamp.c. *)
From Verif Require Import Bytes FrameModel DpthModel.

(* uint64_t / unsigned long arithmetic on 64-bit Linux.
   /repo/src/bu.h:33, /repo/src/bu.c:22 *)
Definition u64 (x : Z) : Z := x mod 2 ^ 64.

(* isdigit(): /repo/src/server/bu_get.c:181 *)
Definition isdigit (c : Z) : bool := (48 <=? c) && (c <=? 57).

(* The digits strtol()/strtoul() read in base 10: value, or None without any. *)
Fixpoint dec_run (s : bytes) (v : Z) (any : bool) : option Z :=
  match s with
  | c :: s' => if isdigit c then dec_run s' (v * 10 + (c - 48)) true else if any then Some v else None
  | [] => if any then Some v else None
  end.

(* strtoul(s, NULL, 10): /repo/src/bu.c:22, server/delete.c:231.  Out of range
   gives ULONG_MAX; a minus sign negates modulo 2^64. *)
Definition strtoul10 (s : bytes) : Z :=
  let s := skip_ws s in
  let '(neg, s) := if hd0 s =? 45 then (true, tl s) else if hd0 s =? 43 then (false, tl s) else (false, s) in
  match dec_run s 0 false with
  | None => 0
  | Some v => if 2 ^ 64 <=? v then 2 ^ 64 - 1 else if (neg : bool) then u64 (- v) else v
  end.

(* atoi(s), which is (int)strtol(s, NULL, 10) in glibc: /repo/src/conffile.c:766 *)
Definition atoi (s : bytes) : Z :=
  let s := skip_ws s in
  let '(neg, s) := if hd0 s =? 45 then (true, tl s) else if hd0 s =? 43 then (false, tl s) else (false, s) in
  match dec_run s 0 false with
  | None => 0
  | Some v => let l := if (neg : bool) then Z.max (- v) (- 2 ^ 63) else Z.min v (2 ^ 63 - 1) in s32 l
  end.

(* struct bu: /repo/src/bu.h:24-44, what is read from the directory.  b_hard is
   the BU_HARDLINKED flag. *)
Record bu := mkbu { b_name : bytes; b_timestamp : bytes; b_bno : Z; b_hard : bool }.

(* A directory entry below the client's storage directory: its name, whether it
   is a directory, the first line of its regular file "timestamp" as read by
   timestamp_read() (None if missing or unreadable), whether it holds
   "hardlinked".
   /repo/src/server/bu_get.c:35-66 *)
Record dent := mkdent { d_name : bytes; d_isdir : bool; d_stamp : option bytes; d_hard : bool }.

(* The first n bytes as strncmp(.., .., n) sees them.
   /repo/src/server/bu_get.c:60 *)
Definition strn (n : nat) (s : bytes) : bytes := firstn n s.

(* maybe_add_ent(): /repo/src/server/bu_get.c:35-102 (allocation failures, and
   the flags for logs and statistics, left out). *)
Definition maybe_add_ent (d : dent) (l : list bu) : list bu :=
  if negb (d_isdir d) then l                                            (* 55 *)
  else match d_stamp d with
  | None => l                                                           (* 56-57 *)
  | Some buf =>
    if negb (beqb (strn 8 buf) (strn 8 (d_name d))) then l              (* 60-64 *)
    else mkbu (d_name d) buf (strtoul10 buf) (d_hard d) :: l            (* 68-78 *)
  end.

(* The loop of do_bu_get_list() without the working directories, as
   bu_get_list() calls it: /repo/src/server/bu_get.c:175-200.  dp is what
   scandir() returned; work, fin and cur are the targets of the symlinks. *)
Definition one_ent (work fin cur : bytes) (l : list bu) (d : dent) : list bu :=
  if negb (isdigit (hd0 (d_name d))) then l                             (* 181 *)
  else if beqb (d_name d) cur then maybe_add_ent d l                    (* 184-187 *)
  else if beqb (d_name d) work then l                                   (* 188-190 *)
  else if beqb (d_name d) fin then l                                    (* 193-195 *)
  else maybe_add_ent d l.
(* bu_get_list() over the whole directory: /repo/src/server/bu_get.c:142-205 *)
Definition get_list (work fin cur : bytes) (dp : list dent) : list bu :=
  fold_left (one_ent work fin cur) (rev dp) [].

(* A backup after setup_indices().
   /repo/src/bu.h:24-44 *)
Record ebu := mkebu { e_bu : bu; e_index : Z; e_del : bool; e_trbno : Z }.

(* The number of the newest: /repo/src/server/bu_get.c:110-118 *)
Definition last_bno (l : list bu) : Z := match rev l with [] => 0 | b :: _ => b_bno b end.

(* setup_indices(): /repo/src/server/bu_get.c:104-140.  tr is an int; trbno is
   left at 0 when tr is 0.  [ph]: the previous backup is hard-linked, or there
   is none. *)
Definition trbno (tr bno : Z) : Z := if tr =? 0 then 0 else u64 (tr - bno + 1).
(* /repo/src/server/bu_get.c:104-140 *)
Fixpoint number (tr : Z) (ph : bool) (i : Z) (l : list bu) : list ebu :=
  match l with
  | [] => []
  | b :: r => mkebu b i ph (trbno tr (b_bno b)) :: number tr (b_hard b) (i + 1) r
  end.
(* /repo/src/server/bu_get.c:104-140 *)
Definition setup_indices (l : list bu) : list ebu := number (s32 (last_bno l)) true 1 l.

(* get_new_bno(): /repo/src/server/backup.c:146-165 *)
Definition get_new_bno (l : list bu) : Z := u64 (last_bno l + 1).

(* snprintf("%07" PRIu64): /repo/src/server/timestamp.c:49 *)
Fixpoint dec_digits (fuel : nat) (n : Z) (acc : bytes) : bytes :=
  match fuel with
  | O => acc
  | S f => let acc' := 48 + n mod 10 :: acc in
           if n / 10 =? 0 then acc' else dec_digits f (n / 10) acc'
  end.
Definition fmt_07u (n : Z) : bytes :=
  let d := dec_digits 20 (u64 n) [] in repeat 48 (7 - List.length d) ++ d.

(* timestamp_write_to_buf(): /repo/src/server/timestamp.c:41-52, before any
   truncation to the buffer; date is what strftime() produced. *)
Definition timestamp_buf (index : Z) (date : bytes) : bytes :=
  if negb (index =? 0) then fmt_07u index ++ 32 :: date else date.
