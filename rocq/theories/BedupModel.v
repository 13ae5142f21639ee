(* Model of the deduplication of stored files: /repo/src/server/bedup.c.  A
   disk is a set of names of regular files, each giving an inode, and what each
   inode holds; running out of memory and errors inside md5 are left out. *)
From Verif Require Import Bytes AuthModel RestoreModel.

(* st_dev and st_ino: /repo/src/server/bedup.c:599-600 *)
Definition node := (Z * Z)%type.
(* The equality of /repo/src/server/bedup.c:344-349 *)
Definition node_eqb (a b : node) : bool := (fst a =? fst b) && (snd a =? snd b).
(* The regular files of the file system that process_dir() walks:
   /repo/src/server/bedup.c:585-601 *)
Record disk := mkdisk { d_names : list (bytes * node); d_data : node -> bytes }.

(* What lstat() finds at a name: /repo/src/server/bedup.c:585.  None is ENOENT
   or not a regular file. *)
Fixpoint find_name (p : bytes) (l : list (bytes * node)) : option node :=
  match l with
  | [] => None
  | (q, n) :: r => if beqb q p then Some n else find_name p r
  end.
(* /repo/src/server/bedup.c:585 *)
Definition look (d : disk) (p : bytes) : option node := find_name p (d_names d).
(* st_nlink: /repo/src/server/bedup.c:601 *)
Definition nlinks (d : disk) (n : node) : Z :=
  Z.of_nat (List.length (filter (fun x => node_eqb (snd x) n) (d_names d))).
(* unlink(2) as used in /repo/src/server/bedup.c:301, 431 *)
Definition d_unlink (p : bytes) (d : disk) : disk :=
  mkdisk (filter (fun x => negb (beqb (fst x) p)) (d_names d)) (d_data d).
(* The directory entry that link(2) makes: /repo/src/server/bedup.c:289 *)
Definition d_add (p : bytes) (n : node) (d : disk) : disk :=
  mkdisk ((p, n) :: d_names d) (d_data d).

(* The disk, the disks it has been after each change, and what the system
   answers: whether each fopen() works, how many bytes each fread() that fails
   delivers (None: it does not fail), whether each link(), rename() and unlink()
   works.  An empty list: everything works.
   /repo/src/server/bedup.c:157, 166, 170-171, 289, 295, 301, 431 *)
Record world := mkworld {
  w_disk : disk; w_past : list disk; w_open : list bool; w_read : list (option nat); w_sys : list bool }.

(* fzp_open(path, "rb"): /repo/src/fzp.c:57-113, what is opened. *)
Definition fzp_open (path : option bytes) (w : world) : option node * world :=
  let w' := mkworld (w_disk w) (w_past w) (tl (w_open w)) (w_read w) (w_sys w) in
  if hd true (w_open w)
  then (match path with Some p => look (w_disk w) p | None => None end, w')
  else (None, w').
(* fzp_read() of n bytes: /repo/src/fzp.c:140-148, from what is left of the
   file.  A read that fails delivers some of the bytes and is not told from the
   end of the file. *)
Definition fzp_read (n : nat) (rest : bytes) (w : world) : bytes * bytes * world :=
  let w' := mkworld (w_disk w) (w_past w) (w_open w) (tl (w_read w)) (w_sys w) in
  match hd None (w_read w) with
  | None => (firstn n rest, skipn n rest, w')
  | Some k => (firstn k (firstn n rest), skipn (Nat.min k n) rest, w')
  end.
(* A system call that changes the disk: whether it works is in w_sys. *)
Definition syscall (possible : bool) (f : disk -> disk) (w : world) : bool * world := (* /repo/src/server/bedup.c:289, 295, 301, 431 *)
  if hd true (w_sys w) && possible
  then (true, mkworld (f (w_disk w)) (f (w_disk w) :: w_past w) (w_open w) (w_read w) (tl (w_sys w)))
  else (false, mkworld (w_disk w) (w_past w) (w_open w) (w_read w) (tl (w_sys w))).

(* struct file: /repo/src/server/bedup.c:38-47, without next. *)
Record file := mkfile { f_path : option bytes; f_node : node; f_nlink : Z; f_full : Z; f_part : Z }.

(* FULL_CHUNK and PART_CHUNK: /repo/src/server/bedup.c:145, 181 *)
Definition full_chunk : nat := Z.to_nat 4096.
Definition part_chunk : nat := Z.to_nat 1024. (* /repo/src/server/bedup.c:181 *)

(* The loop of full_match(): /repo/src/server/bedup.c:168-178.  Both files
   have been opened or rewound to their start.  One turn for each chunk. *)
Fixpoint match_loop (fuel : nat) (o n : bytes) (w : world) : bool * world :=
  match fuel with
  | O => (false, w)
  | S fuel' =>
    let '(ob, o', w) := fzp_read full_chunk o w in                         (* 170 *)
    let '(nb, n', w) := fzp_read full_chunk n w in                         (* 171 *)
    if negb (List.length ob =? List.length nb)%nat then (false, w)         (* 172 *)
    else if negb (beqb ob nb) then (false, w)                              (* 173-174 *)
    else if (List.length ob <? full_chunk)%nat then (true, w)              (* 175 *)
    else match_loop fuel' o' n' w
  end.
(* full_match(o, n, ofp, nfp): /repo/src/server/bedup.c:147-179.  The result,
   o as it is left, the two open files. *)
Definition full_match (o n : file) (ofp nfp : option node) (w : world)
  : bool * file * option node * option node * world :=
  let '(ofp, w) := match ofp with Some _ => (ofp, w) | None => fzp_open (f_path o) w end in
  match ofp with
  | None => (false, mkfile None (f_node o) (f_nlink o) (f_full o) (f_part o), ofp, nfp, w) (* 159-162 *)
  | Some a =>
    let '(nfp, w) := match nfp with Some _ => (nfp, w) | None => fzp_open (f_path n) w end in
    match nfp with
    | None => (false, o, ofp, nfp, w)                                      (* 166 *)
    | Some b =>
      let '(r, w) := match_loop (S (List.length (d_data (w_disk w) a)))
                       (d_data (w_disk w) a) (d_data (w_disk w) b) w in
      (r, o, ofp, nfp, w)
    end
  end.

(* The loop of get_full_cksum(): /repo/src/server/bedup.c:255-263, what is given
   to md5_update(). *)
Fixpoint sum_loop (fuel : nat) (rest : bytes) (w : world) : bytes * world :=
  match fuel with
  | O => ([], w)
  | S fuel' =>
    let '(b, rest', w) := fzp_read full_chunk rest w in
    match b with
    | [] => ([], w)                                                        (* 255 *)
    | _ => if (List.length b <? full_chunk)%nat then (b, w)                (* 262 *)
           else let '(m, w) := sum_loop fuel' rest' w in (b ++ m, w)
    end
  end.

(* The size as the hash table of sizes sees it: HASH_FIND_INT and HASH_ADD_INT
   take the first sizeof(int) bytes of an off_t (of 8 bytes, the lowest first).
   /repo/src/server/bedup.c:62, 88 *)
Definition size_key (size : Z) : Z := size mod 2 ^ 32.
(* myfiles: /repo/src/server/bedup.c:49-56 *)
Definition table := list (Z * list file).
(* find_key(): /repo/src/server/bedup.c:58-64 *)
Fixpoint find_key (k : Z) (t : table) : option (list file) :=
  match t with
  | [] => None
  | (k', l) :: r => if k' =? k then Some l else find_key k r
  end.
(* The list of files of a size as check_files() leaves it:
   /repo/src/server/bedup.c:405, 423, 462 *)
Fixpoint put_key (k : Z) (l : list file) (t : table) : table :=
  match t with
  | [] => []
  | (k', l') :: r => if k' =? k then (k', l) :: r else (k', l') :: put_key k l r
  end.

(* The world, the table, the two numbers that are reported:
   /repo/src/server/bedup.c:25-26, 56 *)
Record state := mkstate { s_w : world; s_table : table; s_count : Z; s_saved : Z }.
(* uint64_t: /repo/src/server/bedup.c:25-26 *)
Definition u64 (x : Z) : Z := x mod 2 ^ 64.

(* How the search in check_files() ends: found is not 0, found is 0, or an
   error (/repo/src/server/bedup.c:421, 456-462). *)
Inductive found := Found | NotFound | Failed.

Section Bedup.
(* The first sizeof(unsigned) bytes of an md5 as a number:
   /repo/src/server/bedup.c:220, 271 *)
Variable md5 : bytes -> Z.
(* makelinks, deletedups, maxlinks, ext: /repo/src/server/bedup.c:22-34 *)
Variables (makelinks deletedups : bool) (maxlinks : Z) (ext : bytes).

(* get_part_cksum(): /repo/src/server/bedup.c:183-230 *)
Definition get_part_cksum (f : file) (fp : option node) (w : world) : file * option node * world :=
  let '(fp, w) := match fp with Some _ => (fp, w) | None => fzp_open (f_path f) w end in
  match fp with
  | None => (mkfile (f_path f) (f_node f) (f_nlink f) (f_full f) 0, fp, w)  (* 194-195 *)
  | Some a =>
    let '(b, _, w) := fzp_read part_chunk (d_data (w_disk w) a) w in       (* 206 *)
    (mkfile (f_path f) (f_node f) (f_nlink f)
            (if (List.length b <? part_chunk)%nat then md5 b else f_full f) (md5 b), fp, w)
  end.
(* get_full_cksum(): /repo/src/server/bedup.c:232-277 *)
Definition get_full_cksum (f : file) (fp : option node) (w : world) : file * option node * world :=
  let '(fp, w) := match fp with Some _ => (fp, w) | None => fzp_open (f_path f) w end in
  match fp with
  | None => (mkfile (f_path f) (f_node f) (f_nlink f) 0 (f_part f), fp, w)  (* 243-244 *)
  | Some a =>
    let '(b, w) := sum_loop (S (List.length (d_data (w_disk w) a))) (d_data (w_disk w) a) w in
    (mkfile (f_path f) (f_node f) (f_nlink f) (md5 b) (f_part f), fp, w)
  end.
(* "!f->part_cksum && get_part_cksum()": /repo/src/server/bedup.c:362-363 *)
Definition need_part (f : file) (fp : option node) (w : world) : file * option node * world :=
  if f_part f =? 0 then get_part_cksum f fp w else (f, fp, w).
(* "!f->full_cksum && get_full_cksum()": /repo/src/server/bedup.c:376-377 *)
Definition need_full (f : file) (fp : option node) (w : world) : file * option node * world :=
  if f_full f =? 0 then get_full_cksum f fp w else (f, fp, w).

(* do_hardlink(o, n): /repo/src/server/bedup.c:279-309, the rename of
   /repo/src/fsops.c:143-154.  rename(2) of a name onto another of the same
   inode does nothing.  True is 0. *)
Definition do_hardlink (o n : file) (w : world) : bool * world :=
  match f_path o, f_path n with
  | Some op, Some np =>
    let tmp := op ++ ext in                                                (* 284 *)
    match look (w_disk w) np, look (w_disk w) tmp with
    | Some a, None =>
      match syscall true (d_add tmp a) w with                              (* 289 *)
      | (false, w) => (false, w)
      | (true, w) =>
        let mv d := match look d op with
                    | Some b => if node_eqb a b then d else d_add op a (d_unlink op (d_unlink tmp d))
                    | None => d_add op a (d_unlink tmp d)
                    end in
        match syscall true mv w with                                       (* 295 *)
        | (true, w) => (true, w)
        | (false, w) => let '(_, w) := syscall true (d_unlink tmp) w in (false, w) (* 301 *)
        end
      end
    | _, _ => let '(_, w) := syscall false (fun d => d) w in (false, w)
    end
  | _, _ => (false, w)
  end.

(* The loop of check_files(): /repo/src/server/bedup.c:333-452.  What is left of
   the list and of newfile. *)
Fixpoint check_loop (l : list file) (nw : file) (size : Z) (nfp ofp : option node) (w : world)
  (count saved : Z) : list file * file * found * world * Z * Z :=
  match l with
  | [] => ([], nw, NotFound, w, count, saved)
  | f :: r =>
    let next f nw nfp ofp w :=
      let '(r', nw', res, w', c, s) := check_loop r nw size nfp ofp w count saved in
      (f :: r', nw', res, w', c, s) in
    match f_path f with
    | None => next f nw nfp ofp w                                          (* 336-343 *)
    | Some _ =>
      if negb (fst (f_node nw) =? fst (f_node f)) then next f nw nfp ofp w (* 344-348 *)
      else if snd (f_node nw) =? snd (f_node f) then (f :: r, nw, Found, w, count, saved) (* 349-355 *)
      else if maxlinks <=? f_nlink nw then (f :: r, nw, Found, w, count, saved) (* 356-361 *)
      else
        let '(nw, nfp, w) := need_part nw nfp w in                         (* 362 *)
        let '(f, ofp, w) := need_part f ofp w in                           (* 363 *)
        if negb (f_part nw =? f_part f) then next f nw nfp None w          (* 368-372 *)
        else
          let '(nw, nfp, w) := need_full nw nfp w in                       (* 376 *)
          let '(f, ofp, w) := need_full f ofp w in                         (* 377 *)
          if negb (f_full nw =? f_full f) then next f nw nfp None w        (* 382-386 *)
          else
            match full_match nw f nfp ofp w with                           (* 389 *)
            | (false, nw, nfp, ofp, w) => next f nw nfp None w             (* 390-393 *)
            | (true, nw, nfp, ofp, w) =>
              if maxlinks <=? f_nlink f
              then (nw :: r, mkfile None (f_node nw) (f_nlink nw) (f_full nw) (f_part nw), Found, w, count, saved) (* 400-408 *)
              else
                let count' := u64 (count + 1) in                           (* 411 *)
                let more := u64 (saved + size) in
                if makelinks then
                  match do_hardlink nw f w with                            (* 418-422 *)
                  | (false, w) => (f :: r, nw, Failed, w, count, saved)
                  | (true, w) =>
                    (mkfile (f_path f) (f_node f) (f_nlink f + 1) (f_full f) (f_part f) :: r, nw, Found, w,
                     count', if f_nlink nw =? 1 then more else saved)      (* 423-427 *)
                  end
                else if deletedups then
                  match f_path nw with
                  | None => (f :: r, nw, Found, w, count', saved)
                  | Some p =>
                    match syscall (match look (w_disk w) p with Some _ => true | None => false end) (d_unlink p) w with
                    | (false, w) => (f :: r, nw, Found, w, count', saved)  (* 431-435 *)
                    | (true, w) => (f :: r, nw, Found, w, count', if f_nlink nw =? 1 then more else saved) (* 436-442 *)
                    end
                  end
                else (f :: r, nw, Found, w, count', more)                  (* 444-449 *)
            end
    end
  end.

(* process_dir() for one name: /repo/src/server/bedup.c:581-617, with the end of
   check_files() (453-464), add_file() (66-76) and add_key() (78-90).  False is an
   error. *)
Definition process_file (p : bytes) (s : state) : bool * state :=
  let w := s_w s in
  match look (w_disk w) p with
  | None => (true, s)                                                      (* 585-586, 595 *)
  | Some n =>
    let size := Z.of_nat (List.length (d_data (w_disk w) n)) in
    if size =? 0 then (true, s)                                            (* 596 *)
    else
      let nw := mkfile (Some p) n (nlinks (w_disk w) n) 0 0 in             (* 599-604 *)
      match find_key (size_key size) (s_table s) with
      | Some l =>
        let '(l', nw', res, w', c, sv) := check_loop l nw size None None w (s_count s) (s_saved s) in
        match res with
        | Failed => (false, mkstate w' (put_key (size_key size) l' (s_table s)) c sv)
        | Found => (true, mkstate w' (put_key (size_key size) l' (s_table s)) c sv)
        | NotFound => (true, mkstate w' (put_key (size_key size) (nw' :: l') (s_table s)) c sv)
        end
      | None => (true, mkstate w ((size_key size, [nw]) :: s_table s) (s_count s) (s_saved s))
      end
  end.

(* The names that the walk comes to, one after the other; None: a directory
   below the first could not be opened, which ends everything
   (/repo/src/server/bedup.c:562-567, 590-592). *)
Fixpoint process_all (l : list (option bytes)) (s : state) : bool * state :=
  match l with
  | [] => (true, s)
  | None :: _ => (false, s)
  | Some p :: r => match process_file p s with (true, s') => process_all r s' | (false, s') => (false, s') end
  end.
End Bedup.

(* The state at the start: /repo/src/server/bedup.c:25-26, 56 *)
Definition start (w : world) : state := mkstate w [] 0 0.

(* What readdir() gives in a directory, in its order, without . and ..: names
   that are no directories, and directories with whether they can be opened.
   /repo/src/server/bedup.c:562-572, 588 *)
Inductive tree := Leaf (name : bytes) | Sub (name : bytes) (opens : bool) (kids : list tree).
(* d_name: /repo/src/server/bedup.c:577 *)
Definition tname (t : tree) : bytes := match t with Leaf n => n | Sub n _ _ => n end.

(* level_exclusion(): /repo/src/server/bedup.c:498-529 *)
Definition level_exclusion (level : nat) (fname working finishing : bytes) : bool :=
  match level with
  | O => beqb fname (str "lockfile") || beqb fname (str "lockfile.bedup")
         || beqb fname working || beqb fname finishing || beqb fname (str "deleteme")
  | S O => starts_with fname (str "log") || starts_with fname (str "verifylog") || starts_with fname (str "restorelog")
  | _ => false
  end.
(* The loop of process_dir(): /repo/src/server/bedup.c:568-618, for one name in
   the directory path.  What is no regular file is found out in process_file. *)
Fixpoint walk (burp_mode : bool) (working finishing : bytes) (level : nat) (path : bytes) (t : tree)
  : list (option bytes) :=
  if burp_mode && level_exclusion level (tname t) working finishing then []  (* 576-579 *)
  else match t with
       | Leaf n => [Some (prepend_s path n)]
       | Sub n opens kids =>
         if opens then flat_map (walk burp_mode working finishing (S level) (prepend_s path n)) kids
         else [None]
       end.

(* get_link(): /repo/src/server/bedup.c:489-496, with readlink_w_in_dir()
   (/repo/src/fsops.c:560-588), which leaves the buffer when there is no link.
   Also whether it looks at the byte before the buffer. *)
Definition get_link (real : bytes) (target : option bytes) : bytes * bool :=
  let real := match target with Some t => firstn 255 t | None => real end in
  match rev real with
  | [] => (real, true)                                                     (* 493 *)
  | c :: r => (if c =? slash then rev r else real, false)                  (* 493-494 *)
  end.

(* A client as iterate_over_clients() finds it: its directory, whether the lock
   of /repo/src/server/bedup.c:723-735 was got (or its group is not wanted,
   701-708), the two links, whether there is a link current, whether the
   directory can be opened, and what is in it. *)
Record client := mkclient { c_path : bytes; c_lock : bool; c_working : option bytes; c_finishing : option bytes;
                            c_ours : bool; c_opens : bool; c_kids : list tree }.
(* What is static in process_dir() and whether memory outside it was read:
   /repo/src/server/bedup.c:542-543 *)
Record statics := mkstatics { st_working : bytes; st_finishing : bytes; st_under : bool }.

(* process_dir(path, "", 1, 0), what it visits: /repo/src/server/bedup.c:547-567 *)
Definition client_names (z : statics) (c : client) : statics * list (option bytes) :=
  let '(wk, u1) := get_link (st_working z) (c_working c) in                (* 551 *)
  let '(fin, u2) := get_link (st_finishing z) (c_finishing c) in           (* 552 *)
  let z' := mkstatics wk fin (st_under z || u1 || u2) in
  (z', if c_ours c && c_opens c                                            (* 554-567 *)
       then flat_map (walk true wk fin 0 (c_path c)) (c_kids c) else []).
(* The loop of iterate_over_clients(): /repo/src/server/bedup.c:676-750, what all
   clients together visit.  An error ends it, as in process_all. *)
Fixpoint clients_names (z : statics) (l : list client) : statics * list (option bytes) :=
  match l with
  | [] => (z, [])
  | c :: r =>
    if c_lock c
    then let '(z', a) := client_names z c in
         let '(z'', b) := clients_names z' r in (z'', a ++ b)
    else clients_names z r
  end.
(* /repo/src/server/bedup.c:542-543 *)
Definition statics0 : statics := mkstatics [] [] false.
