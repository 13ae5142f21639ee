(* Model of what a restore does to the client's file system:
   /repo/src/client/restore.c, /repo/src/client/restore_switch.c, and the parts
   of /repo/src/fsops.c, /repo/src/attribs.c, /repo/src/bfile.c,
   /repo/src/client/extrameta.c that touch the file system for it.  The build
   without HAVE_WIN32.

   The file system is outside /repo; it is modelled by what POSIX says of the
   calls that /repo makes.  Names are resolved against the tree of directories,
   with symbolic links, '.' and '..'.  Nothing else changes the file system
   while the restore runs. *)
From Verif Require Import Bytes PathcmpModel CmdModel RestoreModel AuthModel.

(* ---- the file system ---- *)

(* Where something really is: the names of the directories from the root, without
   links, '.' or '..' (what realpath() at /repo/src/client/restore.c:607, 669
   gives, cut at the slashes). *)
Definition loc := list bytes.

(* What can be found at a location, as told apart by lstat() at
   /repo/src/fsops.c:75, /repo/src/client/restore.c:529: a directory, a symbolic
   link with its text, or anything else, known by its inode. *)
Inductive obj := ODir | OFile (i : Z) | OLnk (t : bytes).

(* The tree that the calls of /repo/src/client/restore.c act upon. *)
Definition fsys := loc -> option obj.

(* Equality of locations, for the calls that make or remove an entry, such as
   /repo/src/client/restore.c:97, 112. *)
Definition loc_eqb (a b : loc) : bool :=
  if list_eq_dec (list_eq_dec Z.eq_dec) a b then true else false.
Definition put (fs : fsys) (l : loc) (o : option obj) : fsys :=
  fun x => if loc_eqb x l then o else fs x.

(* What is between the slashes of a path: the names that the calls of
   /repo/src/client/restore.c look up one by one. *)
Fixpoint comps (s : bytes) : list bytes :=
  match s with
  | [] => [[]]
  | c :: r =>
      if c =? slash then [] :: comps r
      else match comps r with
           | [] => [[c]]
           | w :: ws => (c :: w) :: ws
           end
  end.

(* The path with the given names between its slashes; the inverse of comps, used
   where /repo/src/fsops.c:64-66 puts a NUL over a slash. *)
Fixpoint join (cs : list bytes) : bytes :=
  match cs with
  | [] => []
  | [c] => c
  | c :: r => c ++ slash :: join r
  end.

(* The text that realpath() gives for a location: /repo/src/client/restore.c:607, 669 *)
Definition text (l : loc) : bytes :=
  match l with [] => [slash] | _ => join ([] :: l) end.

(* '.' and '..', which no call makes: used by mkdir() and the others at
   /repo/src/client/restore.c:97-112, 198, 210. *)
Definition is_dot (c : bytes) : bool := beqb c [dot].
Definition is_dotdot (c : bytes) : bool := beqb c [dot; dot].

(* The outcome of following a path: /repo/src/client/restore.c:669-671 tells
   ENOENT from other errors. *)
Inductive wres := WOk (l : loc) | WNoent | WErr.

(* Following the names cs from the directory cur, as lstat() at
   /repo/src/fsops.c:75 and realpath() at /repo/src/client/restore.c:669 do.
   A symbolic link is followed unless it is the last name and follow is false;
   at most n links are followed (ELOOP). *)
Fixpoint walk (n : nat) (fs : fsys) (follow : bool) : loc -> list bytes -> wres :=
  fix go (cur : loc) (cs : list bytes) {struct cs} : wres :=
    match cs with
    | [] => WOk cur
    | c :: r =>
        match fs cur with
        | None => WNoent
        | Some ODir =>
            if beqb c [] || is_dot c then go cur r
            else if is_dotdot c then go (removelast cur) r
            else
              match fs (cur ++ [c]) with
              | None => WNoent
              | Some (OLnk t) =>
                  if follow || match r with [] => false | _ => true end then
                    match n with
                    | O => WErr
                    | Datatypes.S n' =>
                        match t with
                        | [] => WNoent
                        | _ => walk n' fs follow (if hd0 t =? slash then [] else cur) (comps t ++ r)
                        end
                    end
                  else WOk (cur ++ [c])
              | Some _ => go (cur ++ [c]) r
              end
        | Some _ => WErr
        end
    end.

(* Absolute paths only, which is all that a restore into a directory uses:
   /repo/src/client/restore.c:581-605 makes the directory absolute. *)
Definition resolve (n : nat) (fs : fsys) (follow : bool) (p : bytes) : wres :=
  walk n fs follow [] (comps p).

(* realpath(): /repo/src/client/restore.c:607, 669 *)
Definition realpath (n : nat) (fs : fsys) (p : bytes) : wres :=
  match p with [] => WNoent | _ => resolve n fs true p end.

(* lstat() for whether something is there: /repo/src/client/restore.c:529,
   /repo/src/fsops.c:75 *)
Definition lstat (n : nat) (fs : fsys) (p : bytes) : option obj :=
  match p with
  | [] => None
  | _ => match resolve n fs false p with WOk l => fs l | _ => None end
  end.

(* ---- the state of a restore ---- *)

(* What a call changed: an entry of a directory made or removed; the contents of
   a file; the owner, mode, times or extra attributes of what is at a location.
   For the calls in /repo/src/client/restore.c, /repo/src/attribs.c,
   /repo/src/client/extrameta.c. *)
Inductive event :=
  | EName (d : loc) (n : bytes)
  | EData (i : Z)
  | EAttr (l : loc).

(* The file system, the next unused inode, the calls that fail for reasons of
   their own (no space, no permission: one boolean for each call that changes
   something, true when it fails), and what was changed, newest first.  For
   do_restore_client(): /repo/src/client/restore.c:722-974 *)
Record rst := mk_rst { r_fs : fsys; r_next : Z; r_bad : list bool; r_log : list event }.

(* Results of a call that /repo tells apart: done, ENOENT, EEXIST, another error
   (/repo/src/client/restore.c:206, 281, 310). *)
Inductive sysr := Done | Noent | Exists | Fail.

(* The next call's luck, for all calls in /repo/src/client/restore.c. *)
Definition luck (s : rst) : bool * rst :=
  match r_bad s with
  | [] => (false, s)
  | b :: r => (b, mk_rst (r_fs s) (r_next s) r (r_log s))
  end.

(* Effects of calls of /repo/src/client/restore.c on the state. *)
Definition with_fs (s : rst) (fs : fsys) : rst := mk_rst fs (r_next s) (r_bad s) (r_log s).
(* /repo/src/client/restore.c *)
Definition with_ev (s : rst) (e : event) : rst :=
  mk_rst (r_fs s) (r_next s) (r_bad s) (e :: r_log s).
(* /repo/src/client/restore.c *)
Definition with_next (s : rst) : rst := mk_rst (r_fs s) (r_next s + 1) (r_bad s) (r_log s).

(* The directory and the name that a call making or removing an entry acts upon:
   all but the last name are followed, the last is not.  The flag says that
   slashes come after the last name.  For the calls at
   /repo/src/client/restore.c:97-112, 198, 206, 218, 281, 292, 310. *)
Inductive pres := PIs (d : loc) (n : bytes) (sl : bool) | PNoent | PErr.

(* The names without the empty ones that trailing slashes leave, last name first:
   see pres, /repo/src/client/restore.c:97-112. *)
Fixpoint drop_empty (rcs : list bytes) : list bytes :=
  match rcs with [] :: r => drop_empty r | _ => rcs end.

(* See pres: /repo/src/client/restore.c:97-112. *)
Definition parent (n : nat) (fs : fsys) (p : bytes) : pres :=
  match p with
  | [] => PNoent
  | _ =>
    let rcs := rev (comps p) in
    match drop_empty rcs with
    | [] => PErr
    | c :: r =>
        match walk n fs true [] (rev r) with
        | WOk d =>
            match fs d with
            | Some ODir =>
                if is_dot c || is_dotdot c then PErr
                else PIs d c (beqb (hd [] rcs) [])
            | _ => PErr
            end
        | WNoent => PNoent
        | WErr => PErr
        end
    end
  end.

(* A call that makes a new entry: mkdir() with slash_ok, the others without.
   /repo/src/client/restore.c:112, 198, 281, 310, /repo/src/fsops.c:100 *)
Definition make (n : nat) (slash_ok : bool) (o : obj) (p : bytes) (s : rst) : sysr * rst :=
  let (bad, s) := luck s in
  if bad then (Fail, s)
  else match parent n (r_fs s) p with
       | PNoent => (Noent, s)
       | PErr => (Fail, s)
       | PIs d c sl =>
           match r_fs s (d ++ [c]) with
           | Some _ => (Exists, s)
           | None =>
               if sl && negb slash_ok then (Fail, s)
               else (Done, with_ev (with_fs s (put (r_fs s) (d ++ [c]) (Some o))) (EName d c))
           end
       end.

(* mkdir(): /repo/src/fsops.c:100, /repo/src/client/restore.c:198, 347 *)
Definition mkdir (n : nat) (p : bytes) (s : rst) : sysr * rst := make n true ODir p s.

(* symlink(): /repo/src/client/restore.c:112.  An empty text is refused. *)
Definition symlink (n : nat) (t p : bytes) (s : rst) : sysr * rst :=
  match t with [] => (Noent, s) | _ => make n false (OLnk t) p s end.

(* mkfifo() and mknod(): /repo/src/client/restore.c:281, 310 *)
Definition mknode (n : nat) (p : bytes) (s : rst) : sysr * rst :=
  make n false (OFile (r_next s)) p (with_next s).

(* mksock(): /repo/src/fsops.c:518-533.  strncpy() keeps the first 107 bytes of
   the path, so that the socket may be bound to another path. *)
Definition sun_path_len : nat := 108.
Definition mksock (n : nat) (p : bytes) (s : rst) : sysr * rst :=
  mknode n (firstn (sun_path_len - 1) p) s.

(* unlink(): /repo/src/client/restore.c:97, 206 *)
Definition unlink (n : nat) (p : bytes) (s : rst) : sysr * rst :=
  let (bad, s) := luck s in
  if bad then (Fail, s)
  else match parent n (r_fs s) p with
       | PNoent => (Noent, s)
       | PErr => (Fail, s)
       | PIs d c sl =>
           match r_fs s (d ++ [c]) with
           | None => (Noent, s)
           | Some ODir => (Fail, s)
           | Some _ =>
               if sl then (Fail, s)
               else (Done, with_ev (with_fs s (put (r_fs s) (d ++ [c]) None)) (EName d c))
           end
       end.

(* link(): /repo/src/client/restore.c:106.  The old name is not followed at its
   end; directories cannot be linked. *)
Definition link (n : nat) (old new : bytes) (s : rst) : sysr * rst :=
  match lstat n (r_fs s) old with
  | None | Some ODir => (Fail, s)
  | Some o => make n false o new s
  end.

(* open() with O_CREAT|O_TRUNC|O_NOFOLLOW (creat), or with O_NOFOLLOW alone, for
   writing: /repo/src/client/restore.c:188-218, /repo/src/bfile.c:473-491.
   Gives the inode. *)
Definition open_w (n : nat) (creat : bool) (p : bytes) (s : rst) : option Z * rst :=
  let (bad, s) := luck s in
  if bad then (None, s)
  else match parent n (r_fs s) p with
       | PIs d c false =>
           match r_fs s (d ++ [c]) with
           | Some (OFile i) => (Some i, if creat then with_ev s (EData i) else s)
           | Some _ => (None, s)
           | None =>
               if creat then
                 (Some (r_next s),
                  with_next (with_ev (with_fs s (put (r_fs s) (d ++ [c]) (Some (OFile (r_next s)))))
                               (EName d c)))
               else (None, s)
           end
       | _ => (None, s)
       end.

(* A call that sets owner, mode, times or extra attributes; follow tells whether
   it follows a link at the end of the path.  /repo/src/attribs.c:280, 316, 351,
   /repo/src/client/acl.c:192, /repo/src/client/xattr.c:552 *)
Definition setattr (n : nat) (follow : bool) (p : bytes) (s : rst) : bool * rst :=
  let (bad, s) := luck s in
  if bad then (false, s)
  else match resolve n (r_fs s) follow p with
       | WOk l => (true, with_ev s (EAttr l))
       | _ => (false, s)
       end.

(* ---- the code of burp ---- *)

(* The type in st_mode: S_ISDIR and others, /repo/src/client/restore.c:195, 279,
   290, 509, /repo/src/attribs.c:341 *)
Inductive ftype := TReg | TDir | TLnk | TFifo | TSock | TOther.

(* attribs_set(): /repo/src/attribs.c:311-388.  lchown() and utimensat() do not
   follow links, chmod() does. *)
Definition attribs_set (n : nat) (p : bytes) (t : ftype) (s : rst) : rst :=
  let (ok, s) := setattr n false p s in
  if ok then
    match t with
    | TLnk => snd (setattr n false p s)
    | _ => let (ok, s) := setattr n true p s in
           if ok then snd (setattr n false p s) else s
    end
  else s.

(* mkpath() with limit NULL: /repo/src/fsops.c:58-131, on the names of *rpath, last
   name first. *)
Fixpoint mkpath_r (n : nat) (rcs : list bytes) (s : rst) : bool * rst :=
  match rcs with
  | [] | [_] => (true, s)                                    (* no slash *)
  | _ :: r =>
      let p := join (rev r) in
      match p with
      | [] => (true, s)                                      (* 73-77 *)
      | _ =>
          match lstat n (r_fs s) p with
          | Some _ => (true, s)                              (* 107-121 *)
          | None =>
              let (ok, s) := mkpath_r n r s in               (* 82 *)
              if ok then
                let (m, s) := mkdir n p s in                 (* 100 *)
                (match m with Done => true | _ => false end, s)
              else (false, s)
          end
      end
  end.

(* build_path(fname, "", &rpath, NULL): /repo/src/fsops.c:133-142.  rpath is the
   same text as fname. *)
Definition build_path (n : nat) (p : bytes) (s : rst) : bool * rst :=
  mkpath_r n (rev (comps p)) s.

(* What the server sends for one entry: command, path, link and its command,
   type in st_mode, whether there is a datapth, and what is inside the metadata
   (true: an ACL, false: extended attributes); whether the transfer of data
   succeeds.  /repo/src/sbuf.c:143-207 *)
Record item := mk_item {
  i_cmd : Z; i_path : bytes; i_lcmd : Z; i_link : bytes;
  i_type : ftype; i_datapth : bool; i_meta : list bool; i_xfer : bool }.

(* make_link(): /repo/src/client/restore.c:81-122 *)
Definition make_link (n : nat) (dir : bytes) (p : bytes) (it : item) (s : rst) : bool * rst :=
  let (_, s) := unlink n p s in                                        (* 97 *)
  let (r, s) :=
    if i_lcmd it =? CMD_HARD_LINK then link n (prepend_s dir (i_link it)) p s   (* 98-108 *)
    else if i_lcmd it =? CMD_SOFT_LINK then symlink n (i_link it) p s            (* 109-113 *)
    else (Fail, s) in
  (match r with Done => true | _ => false end, s).

(* restore_link(): /repo/src/client/restore.c:364-403 *)
Definition restore_link (n : nat) (dir p : bytes) (it : item) (s : rst) : rst :=
  let (ok, s) := build_path n p s in
  if ok then
    let (ok, s) := make_link n dir p it s in
    if ok then attribs_set n p (i_type it) s else s
  else s.

(* restore_dir(): /repo/src/client/restore.c:331-362.  False when it stops with a
   warning; the caller at restore_metadata() goes on all the same, because
   restore_interrupt() gives 0. *)
Definition restore_dir (n : nat) (p : bytes) (it : item) (s : rst) : rst :=
  let (ok, s) := build_path n p s in
  if ok then
    match lstat n (r_fs s) p with
    | Some ODir => attribs_set n p (i_type it) s
    | _ =>
        let (m, s) := mkdir n p s in                                   (* 345-353 *)
        match m with Done => attribs_set n p (i_type it) s | _ => s end
    end
  else s.

(* restore_special(): /repo/src/client/restore.c:254-329 *)
Definition restore_special (n : nat) (p : bytes) (it : item) (s : rst) : rst :=
  let (ok, s) := build_path n p s in
  if ok then
    match i_type it with
    | TSock =>
        let (m, s) := mksock n p s in                                  (* 290-301 *)
        match m with Done => attribs_set n p (i_type it) s | _ => s end
    | TDir | TLnk => s                                                 (* mknod() refuses these *)
    | _ =>
        let (m, s) := mknode n p s in                                  (* 279-289, 310-318 *)
        match m with Done | Exists => attribs_set n p (i_type it) s | _ => s end
    end
  else s.

(* open_for_restore(): /repo/src/client/restore.c:125-232 *)
Definition open_for_restore (n : nat) (p : bytes) (it : item) (s : rst) : option Z * rst :=
  match i_type it with
  | TDir =>
      let (_, s) := mkdir n p s in                                     (* 195-199 *)
      open_w n false p s
  | _ =>
      let (m, s) := unlink n p s in                                    (* 206 *)
      match m with
      | Done | Noent => open_w n true p s                              (* 218 *)
      | _ => (None, s)
      end
  end.

(* restore_file_or_get_meta() without metadata, and the part of
   do_restore_file_or_get_meta() for it: /repo/src/client/restore_switch.c:66-86,
   96-151.  The data are written, then closing the file sets the attributes
   (/repo/src/bfile.c:456-471), and they are set again. *)
Definition restore_file (n : nat) (p : bytes) (it : item) (s : rst) : rst :=
  let (ok, s) := build_path n p s in
  if ok then
    let (f, s) := open_for_restore n p it s in
    match f with
    | None => s
    | Some i =>
        let s := with_ev s (EData i) in
        let s := attribs_set n p (i_type it) s in
        if i_xfer it then attribs_set n p (i_type it) s else s
    end
  else s.

(* set_extrameta(): /repo/src/client/extrameta.c:144-237.  acl_set_file() follows a
   link, lsetxattr() does not. *)
Fixpoint set_extrameta (n : nat) (p : bytes) (ms : list bool) (s : rst) : bool * rst :=
  match ms with
  | [] => (true, s)
  | m :: r =>
      let (ok, s) := setattr n m p s in
      let (ok', s) := set_extrameta n p r s in
      (ok && ok', s)
  end.

(* restore_metadata(): /repo/src/client/restore_switch.c:153-210 *)
Definition restore_metadata (n : nat) (p : bytes) (it : item) (s : rst) : rst :=
  let s := match i_type it with TDir => restore_dir n p it s | _ => s end in  (* 177-179 *)
  let (ok, s) := build_path n p s in                                           (* 115 *)
  if ok && i_xfer it then
    let (ok, s) := set_extrameta n p (i_meta it) s in
    if ok then snd (setattr n false p s) else s                                (* 192-200 *)
  else s.

(* The switches on the command: /repo/src/client/restore.c:909-935,
   /repo/src/client/restore_switch.c:212-255 *)
Definition restore_one (n : nat) (dir p : bytes) (it : item) (s : rst) : rst :=
  let c := i_cmd it in
  if c =? CMD_DIRECTORY then restore_dir n p it s
  else if cmd_is_link c then restore_link n dir p it s
  else if c =? CMD_SPECIAL then restore_special n p it s
  else if (c =? CMD_FILE) || (c =? CMD_VSS_T) || (c =? CMD_ENC_FILE) || (c =? CMD_ENC_VSS_T)
          || (c =? CMD_EFS_FILE) then
    if i_datapth it then restore_file n p it s else s
  else if (c =? CMD_METADATA) || (c =? CMD_VSS) || (c =? CMD_ENC_METADATA)
          || (c =? CMD_ENC_VSS) then
    restore_metadata n p it s
  else s.

(* overwrite_ok(): /repo/src/client/restore.c:488-535 *)
Definition overwrite_ok (n : nat) (overwrite : bool) (p : bytes) (it : item) (s : rst) : bool :=
  let c := i_cmd it in
  if overwrite then negb ((c =? CMD_VSS_T) || (c =? CMD_ENC_VSS_T))
  else if match i_type it with TDir => true | _ => false end
          || (c =? CMD_METADATA) || (c =? CMD_ENC_METADATA) || (c =? CMD_VSS)
          || (c =? CMD_ENC_VSS) then true
  else if ((c =? CMD_FILE) || (c =? CMD_ENC_FILE))
          && match i_type it with TFifo => true | _ => false end then true
  else match lstat n (r_fs s) p with Some _ => false | None => true end.

(* strip_path_components(): /repo/src/client/restore.c:450-486.  None when too
   many are stripped. *)
Fixpoint after_slash (s : bytes) : option bytes :=
  match s with [] => None | c :: r => if c =? slash then Some r else after_slash r end.
Fixpoint strip_path_components (strip : nat) (p : bytes) : option bytes :=
  match strip, p with
  | O, _ => Some p
  | _, [] => Some p
  | Datatypes.S k, _ =>
      match after_slash p with None => None | Some q => strip_path_components k q end
  end.

(* strip_from_path(): /repo/src/client/restore.c:432-446: cut_str removes the first
   place where sub is found. *)
Fixpoint cut_str (s sub : bytes) : bytes :=
  if starts_with s sub then skipn (List.length sub) s
  else match s with [] => [] | c :: r => c :: cut_str r sub end.
Definition strip_from_path (p : bytes) (sub : option bytes) : bytes :=
  match sub with
  | None => p
  | Some t => if (Z.of_nat (List.length p) <=? Z.of_nat (List.length t)) then p else cut_str p t
  end.

(* The text before the last slash, strrchr(): /repo/src/client/restore.c:634 *)
Fixpoint before_last_slash (s : bytes) : option bytes :=
  match s with
  | [] => None
  | c :: r =>
      match before_last_slash r with
      | Some q => Some (c :: q)
      | None => if c =? slash then Some [] else None
      end
  end.

(* strip_trailing_component(): /repo/src/client/restore.c:628-641 *)
Definition strip_trailing_component (p : bytes) : option bytes :=
  if beqb p [slash] then None
  else match before_last_slash p with
       | None => None
       | Some [] => Some [slash]
       | Some q => Some q
       end.

(* The loop of canonicalise(): /repo/src/client/restore.c:661-682.  Every round
   shortens the path, so that its length bounds the rounds.  Gives the path whose
   real location was found, and that location. *)
Fixpoint canon_loop (rounds n : nat) (fs : fsys) (copy : bytes) : option (bytes * loc) :=
  match rounds with
  | O => None
  | Datatypes.S k =>
      match strip_trailing_component copy with
      | None => None
      | Some q =>
          match realpath n fs q with
          | WOk l => Some (q, l)
          | WNoent => canon_loop k n fs q
          | WErr => None
          end
      end
  end.

(* canonicalise(): /repo/src/client/restore.c:643-720 *)
Definition canonicalise (n : nat) (fs : fsys) (dir full : bytes) : option bytes :=
  match canon_loop (Datatypes.S (List.length full)) n fs full with
  | None => None
  | Some (copy, l) =>
      if is_subdir_s dir (text l) =? 0 then None                             (* 687-699 *)
      else Some (prepend_s (text l) (skipn (List.length copy) full))         (* 702 *)
  end.

(* What the user asked for: --strip, the path to strip, --overwrite.
   /repo/src/client/restore.c:733-735 *)
Record opts := mk_opts { o_strip : nat; o_strip_path : option bytes; o_overwrite : bool }.

(* One round of the loop of do_restore_client() for a restore into a directory
   whose real path is dir: /repo/src/client/restore.c:810-935.  A path with a dot
   component ends the restore (/repo/src/sbuf.c:186-187), here it changes
   nothing: a run that ends early is a run with fewer entries. *)
Definition restore_item (n : nat) (o : opts) (dir : bytes) (s : rst) (it : item) : rst :=
  if has_dot_component (i_path it) then s
  else match strip_path_components (o_strip o) (i_path it) with              (* 845-859 *)
       | None => s
       | Some p =>
           let p := strip_from_path p (o_strip_path o) in                    (* 860-868 *)
           let lnk := if is_absolute (i_link it)
                      then strip_from_path (i_link it) (o_strip_path o) else i_link it in
           let it := mk_item (i_cmd it) p (i_lcmd it) lnk (i_type it)
                       (i_datapth it) (i_meta it) (i_xfer it) in
           match canonicalise n (r_fs s) dir (prepend_s dir p) with          (* 870, 888-900 *)
           | None => s
           | Some full =>
               if overwrite_ok n (o_overwrite o) full it s
               then restore_one n dir full it s
               else s
           end
       end.

(* do_restore_client() for the entries that the server sends, in order:
   /repo/src/client/restore.c:809-936 *)
Definition restore_run (n : nat) (o : opts) (dir : bytes) (its : list item) (s : rst) : rst :=
  fold_left (restore_item n o dir) its s.
