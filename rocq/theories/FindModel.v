(* Model of the client's scan of the file system: /repo/src/client/find.c,
   /repo/src/client/backup_phase1.c, and the lists of directories that
   /repo/src/strlist.c and /repo/src/conffile.c make for it.  The build without
   HAVE_WIN32. *)
From Verif Require Import Bytes PathcmpModel CmdModel LinkModel AuthModel.

(* ---- the lists of directories ---- *)

(* struct strlist: /repo/src/strlist.h.  flag: true for 'include'. *)
Definition ent := (bytes * bool)%type.

(* flag < s->flag, as in /repo/src/strlist.c:72 *)
Definition flag_lt (a b : bool) : bool := negb a && b.

(* do_strlist_add() with sorted set: /repo/src/strlist.c:49-90.  The loop at
   63-78 and the insertion after slast. *)
Fixpoint strlist_add (uniq : bool) (l : list ent) (path : bytes) (flag : bool) : list ent :=
  match l with
  | [] => [(path, flag)]
  | (p, f) :: r =>
      if uniq && (pathcmp_s path p =? 0) && Bool.eqb flag f then l             (* 65-69 *)
      else if pathcmp_s path p <? 0 then (path, flag) :: l                     (* 71-72 *)
      else if (pathcmp_s path p =? 0) && flag_lt flag f then (path, flag) :: l (* 73-74 *)
      else (p, f) :: strlist_add uniq r path flag
  end.

(* The list of an option as it is filled from the lines of a configuration:
   /repo/src/conffile.c:326, /repo/src/conf.c:196-203. *)
Definition sorted_list (flag : bool) (paths : list bytes) : list ent :=
  fold_left (fun l p => strlist_add false l p flag) paths [].

(* incexc_munge() on every entry of a list: /repo/src/conffile.c:791-805, 833-836 *)
Fixpoint incexc_munge (l src : list ent) : option (list ent) :=
  match src with
  | [] => Some l
  | (p, f) :: r => if is_absolute p then incexc_munge (strlist_add true l p f) r else None
  end.

(* sanity_check_no_dupes(): /repo/src/conffile.c:807-826.  true: there is one. *)
Fixpoint has_dupes (l : list ent) : bool :=
  match l with
  | (a, _) :: (((b, _) :: _) as r) => beqb b a || has_dupes r
  | _ => false
  end.

(* finalise_incexc_dirs(): /repo/src/conffile.c:828-850, from an empty
   incexcdir; the test at 838-843, which is about regular expressions, is left
   out. *)
Definition finalise_incexc_dirs (inc exc : list ent) : option (list ent) :=
  match incexc_munge [] inc with
  | None => None
  | Some l => match incexc_munge l exc with
              | None => None
              | Some l => if has_dupes l then None else Some l
              end
  end.

(* The loop of finalise_start_dirs(): /repo/src/conffile.c:891-920.  last: the
   path of last_sd; result: startdir. *)
Fixpoint start_dirs (last : option bytes) (inc : list ent) : option (list ent) :=
  match inc with
  | [] => Some []
  | (p, f) :: r =>
      if negb (is_absolute p) then None
      else
        let beneath_last := match last with Some d => negb (is_subdir_s d p =? 0) | None => false end in
        if beneath_last then start_dirs last r
        else match start_dirs (Some p) r with Some l => Some ((p, f) :: l) | None => None end
  end.
(* finalise_start_dirs(): /repo/src/conffile.c:882-931; check_start_dirs_and_seed()
   (seeding) is left out. *)
Definition finalise_start_dirs (inc : list ent) : option (list ent) :=
  match start_dirs None inc with
  | Some l => if has_dupes l then None else Some l
  | None => None
  end.

(* ---- extensions ---- *)

(* A list of extensions: the flag of its first item, and the items. *)
Record exts := mkexts { e_flag : Z; e_items : list bytes }.

(* set_max_ext(): /repo/src/conffile.c:1001-1011 *)
Definition set_max_ext (items : list bytes) : exts :=
  mkexts (fold_left (fun m p => if Z.of_nat (List.length p) >? m then Z.of_nat (List.length p) else m) items 0 + 1) items.

(* strcasecmp(a, b)==0, as used in /repo/src/client/find.c:106, 128, 152 *)
Definition casecmp0 (a b : bytes) : bool := beqb (strlwr a) (strlwr b).

(* The loop of in_include_ext(), in_exclude_ext() and in_exclude_comp():
   /repo/src/client/find.c:102-111, 124-133, 148-156.  back: what is left of the
   name, last byte first; after: what cp+1 points at; n: how many more
   characters may be looked at.  None: no '.' was found. *)
Fixpoint ext_loop (items : list bytes) (back after : bytes) (n : nat) : option bool :=
  match n, back with
  | S n', c :: r =>
      if c =? dot then Some (existsb (fun i => casecmp0 i after) items)
      else ext_loop items r (c :: after) n'
  | _, _ => None
  end.
(* The same from the end of the name. *)
Definition ext_match (x : exts) (fname : bytes) : bool :=
  match ext_loop (e_items x) (rev fname) [] (Z.to_nat (e_flag x)) with Some b => b | None => false end.

(* in_include_ext(): /repo/src/client/find.c:91-112 *)
Definition in_include_ext (x : exts) (fname : bytes) : bool :=
  match e_items x with [] => true | _ => ext_match x fname end.
(* in_exclude_ext(): /repo/src/client/find.c:114-134 *)
Definition in_exclude_ext (x : exts) (fname : bytes) : bool :=
  match e_items x with [] => false | _ => ext_match x fname end.
(* in_exclude_comp(): /repo/src/client/find.c:137-157 *)
Definition in_exclude_comp (x : exts) (fname : bytes) (compression : Z) : Z :=
  if (compression =? 0) || match e_items x with [] => true | _ => false end then compression
  else if ext_match x fname then 0 else compression.

(* ---- configuration and file system ---- *)

(* What S_ISREG() and so on say of st_mode. *)
Inductive mode := MReg | MDir | MLnk | MBlk | MChr | MFifo | MSock | MNone.
(* struct stat, the fields /repo/src/client/find.c looks at. *)
Record stat := mkstat { st_dev : Z; st_ino : Z; st_nlink : Z; st_mode : mode; st_size : Z }.
(* find_files_init() (/repo/src/client/find.c:71-83) gives zeros. *)
Definition stat0 : stat := mkstat 0 0 0 MNone 0.

(* What entries_in_directory() (/repo/src/fsops.c:398-438) finds: the names in
   the order readdir() gives them, no way to open the directory (429), or an
   error while reading it (435). *)
Inductive listing := Names (l : list bytes) | NoOpen | ReadErr.

(* The file system, as a scan sees it: lstat(), the listing of a directory,
   readlink(), and fstype_matches() (/repo/src/client/find.c:360-394) for
   'exclude_fs' and 'include_fs' (true: not 0, also when statfs() fails). *)
Record fsys := mkfs {
  lstat : bytes -> option stat;
  readdir : bytes -> listing;
  readlink : bytes -> option bytes;
  excfs : bytes -> bool;
  incfs : bytes -> bool }.

(* The options the scan looks at.  c_re: regex_check() for a pattern;
   c_logic: is_logic_excluded() (/repo/src/client/find_logic.c, in LogicModel);
   c_meta: has_extrameta() (/repo/src/client/extrameta.c:12-37);
   c_wr: whether the n-th thing that is sent cannot be sent. *)
Record conf := mkconf {
  c_dirs : list ent;                    (* OPT_INCEXCDIR *)
  c_incext : exts; c_excext : exts;
  c_increg : list bytes; c_excreg : list bytes;
  c_re : bytes -> bytes -> bool;
  c_logic : bytes -> stat -> bool;
  c_minsize : Z; c_maxsize : Z;
  c_nobackup : list bytes;
  c_crossall : bool; c_fschg : list bytes;
  c_has_incfs : bool;
  c_fifos : list bytes; c_allfifos : bool;
  c_blockdevs : list bytes; c_allblockdevs : bool;
  c_enc : bool; c_meta : bytes -> Z -> bool;
  c_raise : bool;                       (* OPT_SCAN_PROBLEM_RAISES_ERROR *)
  c_wr : nat -> bool }.

(* ---- what is included ---- *)

(* in_include_regex(): /repo/src/client/find.c:160-168 *)
Definition in_include_regex (c : conf) (fname : bytes) : bool :=
  match c_increg c with [] => true | l => existsb (fun r => c_re c r fname) l end.
(* in_exclude_regex(): /repo/src/client/find.c:170-177 *)
Definition in_exclude_regex (c : conf) (fname : bytes) : bool :=
  existsb (fun r => c_re c r fname) (c_excreg c).

(* The loop at /repo/src/client/find.c:197-205. *)
Fixpoint best_dir (l : list ent) (fname : bytes) (longest : Z) (best : option ent) : option ent :=
  match l with
  | [] => best
  | e :: r =>
      let matching := is_subdir_s (fst e) fname in
      if matching >=? longest then best_dir r fname matching (Some e)
      else best_dir r fname longest best
  end.

(* file_is_included_no_incext(): /repo/src/client/find.c:183-210 *)
Definition file_is_included_no_incext (c : conf) (fname : bytes) : bool :=
  if in_exclude_ext (c_excext c) fname || in_exclude_regex c fname || negb (in_include_regex c fname) then false
  else match best_dir (c_dirs c) fname 0 None with
       | None => false
       | Some e => snd e
       end.

(* file_is_included(): /repo/src/client/find.c:212-227 *)
Definition file_is_included (c : conf) (fname : bytes) (top : bool) : bool :=
  if negb top && negb (in_include_ext (c_incext c) fname) then false
  else file_is_included_no_incext c fname.

(* file_size_match(): /repo/src/client/find.c:274-286 *)
Definition file_size_match (c : conf) (s : stat) : bool :=
  if negb (c_minsize c =? 0) && (st_size s <? c_minsize c) then false
  else if negb (c_maxsize c =? 0) && (st_size s >? c_maxsize c) then false
  else true.

(* ---- sending ---- *)

(* ff->type: /repo/src/client/find.h; FT_REPARSE and FT_JUNCTION are for Windows. *)
Inductive ftype := FT_REG | FT_DIR | FT_LNK_S | FT_LNK_H | FT_SPEC | FT_RAW | FT_FIFO
                 | FT_NOFSCHG | FT_NOFOLLOW | FT_NOSTAT | FT_NOOPEN.

(* What goes to the server: an entry of the file list (its kind, its path, and
   where a link leads), or a warning about a path.
   /repo/src/client/backup_phase1.c:40-75, 119-190 *)
Inductive report := Entry (cmd : Z) (path : bytes) (link : option bytes) | Warn (t : ftype) (path : bytes).

(* How a part of the scan ends: 0, -1, or (in the model only) the number of
   steps given to it has run out.
   /repo/src/client/find.c:640-693 *)
Inductive res := Ok | Err | Fuel.

(* The state of the scan: ff_pkt->statp, the table of hard links, and how many
   things have been sent.
   /repo/src/client/find.h, struct FF_PKT; /repo/src/linkhash.c *)
Record st := mkst { s_stat : stat; s_links : table; s_n : nat }.
Definition set_stat (s : st) (x : stat) : st := mkst x (s_links s) (s_n s).      (* field update for lstat(), /repo/src/client/find.c:658 *)
Definition set_links (s : st) (t : table) : st := mkst (s_stat s) t (s_n s).     (* field update for linkhash_add(), /repo/src/client/find.c:324 *)
Definition sent1 (s : st) : st := mkst (s_stat s) (s_links s) (S (s_n s)).       (* one more thing has been sent, /repo/src/client/backup_phase1.c:69-72 *)

(* usual_stuff(): /repo/src/client/backup_phase1.c:61-76 *)
Definition usual_stuff (c : conf) (s : st) (cmd : Z) (path : bytes) (link : option bytes) : st * list report * res :=
  if c_wr c (s_n s) then (sent1 s, [], Err)
  else (sent1 s, [Entry cmd path (if (cmd =? CMD_HARD_LINK) || (cmd =? CMD_SOFT_LINK) then link else None)], Ok).

(* The symbol for metadata: /repo/src/client/backup_phase1.c:237 and 55 *)
Definition metasymbol (c : conf) : Z := if c_enc c then CMD_ENC_METADATA else CMD_METADATA.
(* The symbol for files: /repo/src/client/backup_phase1.c:236 and 50 *)
Definition filesymbol (c : conf) : Z := if c_enc c then CMD_ENC_FILE else CMD_FILE.

(* do_to_server(): /repo/src/client/backup_phase1.c:104-150, with
   maybe_send_extrameta(), 78-89. *)
Definition do_to_server (c : conf) (s : st) (cmd : Z) (path : bytes) (link : option bytes) : st * list report * res :=
  match usual_stuff c s cmd path link with
  | (s, l, Ok) =>
      if c_meta c path cmd                                                  (* 86 *)
      then let '(s, l', r) := usual_stuff c s (metasymbol c) path None in (s, l ++ l', r)
      else (s, l, Ok)
  | x => x
  end.

(* ft_err(): /repo/src/client/backup_phase1.c:91-102 *)
Definition ft_err (c : conf) (s : st) (t : ftype) (path : bytes) : st * list report * res :=
  if c_wr c (s_n s) then (sent1 s, [], Err) else (sent1 s, [Warn t path], if c_raise c then Err else Ok).

(* my_send_file(): /repo/src/client/backup_phase1.c:159-219 *)
Definition my_send_file (c : conf) (s : st) (t : ftype) (path : bytes) (link : option bytes) : st * list report * res :=
  match t with
  | FT_REG | FT_RAW | FT_FIFO => do_to_server c s (filesymbol c) path link
  | FT_DIR => do_to_server c s CMD_DIRECTORY path link
  | FT_LNK_S => do_to_server c s CMD_SOFT_LINK path link
  | FT_LNK_H => do_to_server c s CMD_HARD_LINK path link
  | FT_SPEC => do_to_server c s CMD_SPECIAL path link
  | _ => ft_err c s t path
  end.

(* The kinds at /repo/src/client/find.c:306-310 *)
Definition linkable (m : mode) : bool :=
  match m with MReg | MChr | MBlk | MFifo | MSock => true | _ => false end.
(* S_ISREG() at /repo/src/client/find.c:295 *)
Definition is_reg (m : mode) : bool := match m with MReg => true | _ => false end.

(* my_send_file_w(): /repo/src/client/find.c:289-330 *)
Definition my_send_file_w (c : conf) (s : st) (t : ftype) (fname : bytes) (link : option bytes) (top : bool)
  : st * list report * res :=
  let x := s_stat s in
  if negb (file_is_included c fname top) || c_logic c fname x then (s, [], Ok)       (* 291-292 *)
  else if is_reg (st_mode x) && negb (file_size_match c x) then (s, [], Ok)           (* 295-297 *)
  else if (st_nlink x >? 1) && linkable (st_mode x) then
    match linkhash_search (s_links s) (st_dev x) (st_ino x) with                      (* 315 *)
    | Some lp =>
        if beqb (fl_name lp) fname then (s, [], Ok)                                   (* 317 *)
        else my_send_file c s FT_LNK_H fname (Some (fl_name lp))                      (* 318-320 *)
    | None =>
        my_send_file c (set_links s (linkhash_add (s_links s) (st_dev x) (st_ino x) fname)) t fname link
    end
  else my_send_file c s t fname link.

(* ---- the scan ---- *)

(* filter_dot(): /repo/src/fsops.c:441-448 *)
Definition filter_dot (n : bytes) : bool := negb (beqb n [dot]) && negb (beqb n [dot; dot]).
(* qsort() with my_alphasort() (/repo/src/fsops.c:385, 450-453): putting the
   names in the order of pathcmp().  The names of a directory are distinct, so
   which way of sorting is used does not matter. *)
Fixpoint insert_name (n : bytes) (l : list bytes) : list bytes :=
  match l with
  | [] => [n]
  | m :: r => if pathcmp_s n m <=? 0 then n :: l else m :: insert_name n r
  end.
(* qsort() of all the names: /repo/src/fsops.c:385 *)
Definition sort_names (l : list bytes) : list bytes := fold_right insert_name [] l.

(* The canonical name with one '/' at its end: /repo/src/client/find.c:512-523.
   strip_back takes the name last byte first. *)
Fixpoint strip_back (b : bytes) : bytes :=
  match b with c :: r => if c =? slash then strip_back r else b | [] => [] end.
Definition strip (fname : bytes) : bytes := rev (strip_back (rev fname)).   (* /repo/src/client/find.c:520 *)

(* nobackup_directory(): /repo/src/client/find.c:256-272 *)
Definition nobackup_directory (c : conf) (f : fsys) (path : bytes) : bool :=
  existsb (fun n => match lstat f (prepend_s path n) with Some _ => true | None => false end) (c_nobackup c).

(* fs_change_is_allowed(): /repo/src/client/find.c:229-236 *)
Definition fs_change_is_allowed (c : conf) (fname : bytes) : bool :=
  c_crossall c || existsb (fun p => beqb p fname) (c_fschg c).
(* need_to_read_fifo(): /repo/src/client/find.c:238-245 *)
Definition need_to_read_fifo (c : conf) (fname : bytes) : bool :=
  c_allfifos c || existsb (fun p => beqb p fname) (c_fifos c).
(* need_to_read_blockdev(): /repo/src/client/find.c:247-254 *)
Definition need_to_read_blockdev (c : conf) (fname : bytes) : bool :=
  c_allblockdevs c || existsb (fun p => beqb p fname) (c_blockdevs c).

Section scan.
Context (c : conf) (f : fsys).

(* One thing after another: the second is done if the first returned 0. *)
Definition andthen (a : st * list report * res) (k : st -> st * list report * res) : st * list report * res :=
  match a with
  | (s, l, Ok) => let '(s', l', r) := k s in (s', l ++ l', r)
  | x => x
  end.

(* The loop over incexcdir at /repo/src/client/find.c:470-489.  The loop over y
   in it (484-487) changes nothing but y.  scan: find_files(). *)
Fixpoint jump (scan : bytes -> st -> st * list report * res) (link : bytes) (l : list ent) (s : st)
  : st * list report * res :=
  match l with
  | [] => (s, [], Ok)
  | (p, flag) :: r =>
      if flag && negb (is_subdir_s link p =? 0)
      then andthen (scan p s) (jump scan link r)
      else jump scan link r s
  end.

(* process_entries_in_directory(): /repo/src/client/find.c:431-495.  base: link,
   up to the '/' at its end. *)
Fixpoint process_entries (scan : bytes -> st -> st * list report * res) (base : bytes) (names : list bytes) (s : st)
  : st * list report * res :=
  match names with
  | [] => (s, [], Ok)
  | n :: r =>
      let link := base ++ n in
      andthen (if file_is_included_no_incext c link then scan link s
               else jump scan link (c_dirs c) s)
              (process_entries scan base r)
  end.

(* found_directory(): /repo/src/client/find.c:497-603.  scan: find_files() with
   our_device as the parent device, and not at the top. *)
Definition found_directory (scan : Z -> bytes -> st -> st * list report * res)
  (fname : bytes) (parent : Z) (top : bool) (s : st) : st * list report * res :=
  let our_device := st_dev (s_stat s) in
  andthen (my_send_file_w c s FT_DIR fname (Some (strip fname ++ [slash])) top)         (* 532-533 *)
   (fun s =>
    if nobackup_directory c f fname then (s, [], Ok)                                     (* 536-542 *)
    else
      let boundary := top || negb (parent =? st_dev (s_stat s)) in                       (* 551-556 *)
      if boundary && (excfs f fname || (c_has_incfs c && negb (incfs f fname)))          (* 558-560 *)
      then my_send_file_w c s FT_DIR fname (Some (strip fname ++ [slash])) top           (* 565 *)
      else if boundary && negb top && negb (fs_change_is_allowed c fname)                (* 568 *)
      then my_send_file_w c s FT_NOFSCHG fname (Some (strip fname ++ [slash])) top       (* 570-573 *)
      else match readdir f fname with
           | NoOpen => my_send_file_w c s FT_NOOPEN fname (Some fname) top               (* 585-587 *)
           | ReadErr => (s, [], Err)                                                     (* 588-589 *)
           | Names l => process_entries (scan our_device) (strip fname ++ [slash])
                          (sort_names (filter filter_dot l)) s                           (* 592-597 *)
           end).

(* found_other(): /repo/src/client/find.c:605-638 *)
Definition found_other (fname : bytes) (top : bool) (s : st) : st * list report * res :=
  let t := match st_mode (s_stat s) with
           | MBlk => if need_to_read_blockdev c fname then FT_RAW else FT_SPEC
           | MFifo => if need_to_read_fifo c fname then FT_FIFO else FT_SPEC
           | _ => FT_SPEC
           end in
  my_send_file_w c s t fname (Some fname) top.

(* found_soft_link(): /repo/src/client/find.c:340-358 *)
Definition found_soft_link (fname : bytes) (top : bool) (s : st) : st * list report * res :=
  match readlink f fname with
  | None => my_send_file_w c s FT_NOFOLLOW fname (Some fname) top
  | Some b => my_send_file_w c s FT_LNK_S fname (Some b) top
  end.

(* find_files(): /repo/src/client/find.c:640-693.  When lstat() fails
   ff_pkt->statp keeps what it had.  fuel: how deep the calls may go. *)
Fixpoint find_files (fuel : nat) (parent : Z) (top : bool) (fname : bytes) (s : st) : st * list report * res :=
  match fuel with
  | O => (s, [], Fuel)
  | S k =>
      match lstat f fname with
      | None => my_send_file_w c s FT_NOSTAT fname (Some fname) top                      (* 658-663 *)
      | Some x =>
          let s := set_stat s x in
          match st_mode x with
          | MReg => my_send_file_w c s FT_REG fname (Some fname) top
          | MLnk =>
              if existsb (fun p => beqb p fname) (c_blockdevs c)                         (* 674-684 *)
              then found_other fname top
                     (set_stat s (mkstat (st_dev x) (st_ino x) (st_nlink x) MBlk (st_size x)))
              else found_soft_link fname top s
          | MDir => found_directory (fun dev p s => find_files k dev false p s) fname parent top s
          | _ => found_other fname top s
          end
      end
  end.

(* The loop of backup_phase1_client(): /repo/src/client/backup_phase1.c:244-247 *)
Fixpoint start_scan (fuel : nat) (l : list ent) (s : st) : st * list report * res :=
  match l with
  | [] => (s, [], Ok)
  | (p, flag) :: r =>
      if flag then andthen (find_files fuel (-1) true p s) (start_scan fuel r) else start_scan fuel r s
  end.
(* backup_phase1_client(): /repo/src/client/backup_phase1.c:221-257 *)
Definition backup_phase1_client (fuel : nat) (startdir : list ent) : list report * res :=
  let '(_, l, r) := start_scan fuel startdir (mkst stat0 linkhash_init 0) in (l, r).
End scan.
