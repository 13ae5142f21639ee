(* Model of what is done to directories: removing them with all that is in them,
   making those that lead to a path, moving a backup aside, and comparing two
   files: /repo/src/fsops.c, /repo/src/server/deleteme.c. *)
From Verif Require Import Bytes PathcmpModel CntrModel.

(* What a path names: Leaf: a file with its content, or anything else that is no
   directory, a symbolic link with its target among them; Dir: a directory, with
   its entries in the order of readdir(), without . and ..  (filter_dot()).
   /repo/src/fsops.c:25-56, 441-448 *)
Inductive node := Leaf (b : bytes) | Dir (kids : list (bytes * node)).

(* What the system refuses, by the path below the one given: lstat(), opendir(),
   unlink(), rmdir() other than for entries left, and the call of readdir() that
   fails, counted from 0.  /repo/src/fsops.c:199, 206, 216, 248, 261 *)
Record rules := mkrules {
  no_look : list bytes -> bool; no_open : list bytes -> bool; no_unlink : list bytes -> bool;
  no_rmdir : list bytes -> bool; no_read : list bytes -> option nat }.

(* RECDEL_ERROR, RECDEL_OK, RECDEL_ENTRIES_REMAINING: /repo/src/fsops.c:165-167 *)
Definition RECDEL_ERROR : Z := -1.
(* /repo/src/fsops.c:166 *)
Definition RECDEL_OK : Z := 0.
(* /repo/src/fsops.c:167 *)
Definition RECDEL_REMAINING : Z := 1.

Section Delete.
Variable w : rules.
(* delfiles, ignore_not_empty_errors: /repo/src/fsops.c:178-179 *)
Variable delfiles ignore : bool.

(* An entry as it is afterwards: /repo/src/fsops.c:234-258 *)
Definition keep (name : bytes) (x : option node) : list (bytes * node) :=
  match x with Some x => [(name, x)] | None => [] end.

(* The loop over the entries: /repo/src/fsops.c:213-259.  k: the calls of readdir() so
   far; ret: the variable.  Its value, whether the end of the directory was
   reached, and what is left in it. *)
Definition del_loop (rec : list bytes -> node -> Z * option node) (p : list bytes) :=
  fix loop (k : nat) (ret : Z) (kids : list (bytes * node)) : Z * bool * list (bytes * node) :=
    if match no_read w p with Some j => Nat.eqb j k | None => false end then (ret, false, kids)    (* 218-223 *)
    else
      match kids with
      | [] => (RECDEL_OK, true, [])                                                                (* 225 *)
      | (name, x) :: r =>
        match x with
        | Dir _ =>                                                                                 (* 234-245 *)
          let '(c, y) := rec (p ++ [name]) x in
          if c =? RECDEL_ERROR then (ret, false, keep name y ++ r)
          else let '(ret, fin, l) := loop (S k) (if c =? RECDEL_REMAINING then c else ret) r in
               (ret, fin, keep name y ++ l)
        | Leaf _ =>                                                                                (* 246-258 *)
          if delfiles && negb (no_unlink w (p ++ [name])) then loop (S k) ret r
          else let '(ret, fin, l) := loop (S k) RECDEL_REMAINING r in (ret, fin, (name, x) :: l)
        end
      end.

(* do_recursive_delete(): /repo/src/fsops.c:177-274, for a directory; the path is not a
   symbolic link.  What it returns and what is left. *)
Fixpoint del (p : list bytes) (n : node) {struct n} : Z * option node :=
  if no_look w p then (RECDEL_OK, Some n)                                                          (* 199-204 *)
  else
    match n with
    | Leaf _ => (RECDEL_ERROR, Some n)                                                             (* 206-211 *)
    | Dir kids =>
      if no_open w p then (RECDEL_ERROR, Some n)
      else
        match del_loop del p O RECDEL_ERROR kids with
        | (ret, false, l) => (ret, Some (Dir l))
        | (_, true, l) =>                                                                          (* 261-268 *)
          if no_rmdir w p then (RECDEL_ERROR, Some (Dir l))
          else match l with
               | [] => (RECDEL_OK, None)
               | _ => (if ignore then RECDEL_OK else RECDEL_ERROR, Some (Dir l))
               end
        end
    end.
End Delete.

(* recursive_delete(): /repo/src/fsops.c:285-298; None: nothing is there *)
Definition recursive_delete (w : rules) (n : option node) : Z * option node :=
  match n with
  | None => (RECDEL_OK, None)
  | Some (Leaf b) =>
    if no_look w [] then (RECDEL_OK, n)
    else if no_unlink w [] then (RECDEL_REMAINING, n) else (RECDEL_OK, None)
  | Some d => del w true false [] d
  end.

(* recursive_delete_dirs_only(): /repo/src/fsops.c:300-303 *)
Definition dirs_only (w : rules) (n : option node) : Z * option node :=
  match n with None => (RECDEL_OK, None) | Some d => del w false false [] d end.

(* recursive_delete_dirs_only_no_warnings(): /repo/src/fsops.c:305-308 *)
Definition dirs_only_quiet (w : rules) (n : option node) : Z * option node :=
  match n with None => (RECDEL_OK, None) | Some d => del w false true [] d end.

(* ---------- making a path ---------- *)

(* S_ISDIR, S_ISLNK, neither: /repo/src/fsops.c:110-123 *)
Inductive kind := KDir | KLink | KOther.

(* The text of a path by its components: /repo/src/fsops.c:64 *)
Fixpoint path_text (p : list bytes) : bytes :=
  match p with [] => [] | c :: r => slash :: c ++ path_text r end.

Section Make.
(* lstat(): /repo/src/fsops.c:77 *)
Variable ex : list bytes -> option kind.
(* mkdir() would succeed: /repo/src/fsops.c:104 *)
Variable can : list bytes -> bool.
(* limit: /repo/src/fsops.c:58 *)
Variable limit : option (list bytes).

(* limit && pathcmp() of rpath and limit is below 0: /repo/src/fsops.c:99 *)
Definition too_high (p : list bytes) : bool :=
  match limit with Some l => pathcmp_s (path_text p) (path_text l) <? 0 | None => false end.

(* mkpath(), not on Windows: /repo/src/fsops.c:58-130, for an absolute path, its
   components backwards.  The directories made, in order, and whether 0 is
   returned. *)
Fixpoint mkpath_rev (r : list bytes) : list (list bytes) * bool :=
  match r with
  | [] => ([], true)
  | _ :: up =>
    match up with
    | [] => ([], true)                                       (* 73-76 *)
    | _ =>
      match ex (rev up) with
      | Some _ => ([], true)                                 (* 110-123 *)
      | None =>
        let '(made, ok) := mkpath_rev up in                  (* 81 *)
        if negb ok then (made, false)
        else if too_high (rev up) then (made, false)
        else if can (rev up) then (made ++ [rev up], true)
        else (made, false)
      end
    end
  end.
(* mkpath(): /repo/src/fsops.c:58-130 *)
Definition mkpath (p : list bytes) : list (list bytes) * bool := mkpath_rev (rev p).
End Make.

(* ---------- moving aside ---------- *)

(* lstat(dest): /repo/src/server/deleteme.c:36 *)
Fixpoint entry (name : bytes) (l : list (bytes * node)) : option node :=
  match l with [] => None | (m, x) :: r => if beqb m name then Some x else entry name r end.

(* The loop: /repo/src/server/deleteme.c:34-42, 100 rounds at most *)
Fixpoint pick (fuel : nat) (tmp dest : bytes) (attempts : Z) (l : list (bytes * node)) : bytes :=
  match fuel, entry dest l with
  | S f, Some _ =>
    let a := attempts + 1 in
    let d := tmp ++ 46 :: fmt_d a in
    if 100 <=? a then d else pick f tmp d a l
  | _, _ => dest
  end.

(* unlink(timestamp): /repo/src/server/deleteme.c:44-48 *)
Definition unstamp (n : node) : node :=
  match n with
  | Leaf b => n
  | Dir kids => Dir (filter (fun e => negb (beqb (fst e) (str "timestamp")
                                            && match snd e with Leaf _ => true | Dir _ => false end)) kids)
  end.

(* rename(2) onto what may be there: a directory replaces only an empty
   directory, anything else only what is no directory.  None: it fails.
   /repo/src/fsops.c:143-154 *)
Definition rename_onto (n : node) (dest : bytes) (l : list (bytes * node)) : option (list (bytes * node)) :=
  let drop := filter (fun e => negb (beqb (fst e) dest)) l in
  match entry dest l, n with
  | None, _ => Some ((dest, n) :: l)
  | Some (Dir []), Dir _ => Some ((dest, n) :: drop)
  | Some (Leaf _), Leaf _ => Some ((dest, n) :: drop)
  | _, _ => None
  end.

(* deleteme_move(): /repo/src/server/deleteme.c:9-59.  name: path, one component; src: what
   is at fullpath; l: what is in the directory deleteme; mk: mkpath() succeeds; rn:
   rename() is not refused for other reasons.  What it returns, and the two
   afterwards. *)
Definition deleteme_move (mk rn : bool) (name : bytes) (src : option node) (l : list (bytes * node))
  : Z * option node * list (bytes * node) :=
  match src with
  | None => (0, None, l)
  | Some n =>
    if negb mk then (-1, src, l)
    else
      let dest := pick 100 name name 0 l in
      let n := unstamp n in
      if negb rn then (-1, Some n, l)
      else match rename_onto n dest l with
           | Some l => (0, None, l)
           | None => (-1, Some n, l)
           end
  end.

(* ---------- comparing files ---------- *)

(* A file as it is read: its content, and how much can be read before reading
   fails, if it does.  /repo/src/fsops.c:464-514 *)
Record rfile := mkrfile { f_text : bytes; f_stop : option nat }.
(* What fzp_read() gives altogether: /repo/src/fsops.c:498-499 *)
Definition got (f : rfile) : bytes := match f_stop f with Some k => firstn k (f_text f) | None => f_text f end.
(* The comparison of what is in the two buffers: /repo/src/fsops.c:502-506 *)
Fixpoint same_bytes (a b : bytes) : bool :=
  match a, b with
  | x :: a, y :: b => (x =? y) && same_bytes a b
  | _, _ => true
  end.
(* The loop: /repo/src/fsops.c:496-509, with FULL_CHUNK as n.  The fuel is the length of
   one, plus one. *)
Fixpoint equal_loop (fuel n : nat) (o w : bytes) : bool :=
  match fuel with
  | O => true
  | S f =>
    let a := firstn n o in
    let b := firstn n w in
    if negb (Nat.eqb (List.length a) (List.length b)) then false
    else if negb (same_bytes a b) then false
    else if Nat.ltb (List.length a) n then true
    else equal_loop f n (skipn n o) (skipn n w)
  end.
(* FULL_CHUNK: /repo/src/fsops.c:462 *)
Definition FULL_CHUNK : nat := Z.to_nat 4096.
(* files_equal(): /repo/src/fsops.c:464-514, not compressed; None: it cannot be opened *)
Definition files_equal (o w : option rfile) : bool :=
  match o, w with
  | None, None => true
  | Some o, Some w => equal_loop (S (List.length (got o))) FULL_CHUNK (got o) (got w)
  | _, _ => false
  end.
