(* Model of /repo/src/pathcmp.c *)
From Verif Require Import Bytes.

(* pathcmp() on two non-NULL strings: the loop at /repo/src/pathcmp.c:42-61.
   Each iteration of the for loop is one recursive step. *)
Fixpoint pathcmp_s (a b : bytes) : Z :=
  match a, b with
  | [], [] => 0                                  (* 57-58 *)
  | _ :: _, [] => 1                              (* 59-60 *)
  | [], _ :: _ => -1                             (* 61 *)
  | x :: a', y :: b' =>
      if x =? y then pathcmp_s a' b'             (* 44-45 *)
      else if (x =? slash) && negb (y =? slash) then -1   (* 46-47 *)
      else if negb (x =? slash) && (y =? slash) then 1    (* 48-49 *)
      else if schar x <? schar y then -1         (* 52-53 *)
      else if schar x >? schar y then 1          (* 54-55 *)
      else pathcmp_s a' b'
  end.

(* pathcmp(): /repo/src/pathcmp.c:30-62, with NULL handling. *)
Definition pathcmp (a b : option bytes) : Z :=
  match a, b with
  | None, None => 0
  | Some _, None => 1
  | None, Some _ => -1
  | Some x, Some y => pathcmp_s x y
  end.

(* The for loop of is_subdir(): /repo/src/pathcmp.c:15-21.  The four cursors
   d, s, dl, sl are the suffixes they point at. *)
Fixpoint subdir_loop (d s dl sl : bytes) (count : Z) {struct d}
  : bytes * bytes * bytes * bytes * Z :=
  match d, s with
  | x :: d', y :: s' =>
      if y =? x
      then subdir_loop d' s' d s (if y =? slash then count + 1 else count)
      else (d, s, dl, sl, count)
  | _, _ => (d, s, dl, sl, count)
  end.

(* is_subdir(): /repo/src/pathcmp.c:7-28 for non-NULL arguments. *)
Definition is_subdir_s (dir sub : bytes) : Z :=
  let '(d, s, dl, sl, count) := subdir_loop dir sub dir sub 1 in
  if (hd0 d =? 0) && (hd0 s =? 0) then count                    (* 22 *)
  else if (hd0 d =? 0) && (hd0 s =? slash) then count           (* 23-24 *)
  else if (hd0 dl =? slash) && (hd0 sl =? slash)
          && negb (hd0 (tl sl) =? 0) && (hd0 (tl dl) =? 0) then count  (* 26 *)
  else 0.

(* is_subdir() with its NULL check, line 14. *)
Definition is_subdir (dir sub : option bytes) : Z :=
  match dir, sub with
  | Some d, Some s => is_subdir_s d s
  | _, _ => 0
  end.

(* The loop of has_dot_component(): /repo/src/pathcmp.c:68-79.
   [start] is (p==path || *(p-1)=='/'). *)
Fixpoint has_dot_loop (start : bool) (p : bytes) : bool :=
  match p with
  | [] => false
  | c :: p' =>
      if negb (c =? dot) then has_dot_loop (c =? slash) p'
      else if start && ((hd0 p' =? slash) || (hd0 p' =? 0)) then true
      else if (hd0 p' =? dot) && start
              && ((hd0 (tl p') =? slash) || (hd0 (tl p') =? 0)) then true
      else has_dot_loop (c =? slash) p'
  end.

(* has_dot_component(): /repo/src/pathcmp.c:65-81. *)
Definition has_dot_component (p : bytes) : bool := has_dot_loop true p.

(* isalpha() in the C locale, used at /repo/src/pathcmp.c:89.  Bytes above 127
   would make the argument negative where char is signed; the C locale answer
   (false) is used. *)
Definition isalpha (c : Z) : bool :=
  ((65 <=? c) && (c <=? 90)) || ((97 <=? c) && (c <=? 122)).

(* is_absolute(): /repo/src/pathcmp.c:83-95, non-Windows build. *)
Definition is_absolute (p : bytes) : bool :=
  if has_dot_component p then false
  else (isalpha (hd0 p) && (hd0 (tl p) =? 58)) || (hd0 p =? slash).
