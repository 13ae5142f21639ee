(* Model of the finalisation of a backup, the "data jiggle":
   /repo/src/server/backup_phase4.c, with /repo/src/server/link.c.
   Files are inodes with contents, so that two names of one file are seen. *)
From Verif Require Import Bytes.

(* The names used for a storage path d, and the two scratch names:
   /repo/src/server/backup_phase4.c:383-387, 475, 667-669, 172, 280.
   NOld: currentdup/data/d, or current/data/d when the previous backup is a
   hardlinked archive.  NElse: any other file of the repository, such as
   current/data/d when NOld is currentdup/data/d, or one of an earlier backup.
   The directories themselves are taken as present. *)
Inductive name :=
| NOld (d : bytes) | NNew (d : bytes) | NFin (d : bytes) | NFwd (d : bytes)
| NRev (d : bytes) | NRelink (d : bytes) | NElse (p : bytes) | NInf | NSig.

(* Deciding equality of names; no counterpart but the path names of
   /repo/src/server/backup_phase4.c:383-387. *)
Definition name_dec : forall a b : name, {a = b} + {a <> b}.
Proof. decide equality; apply (list_eq_dec Z.eq_dec). Defined.
Definition name_eqb (a b : name) : bool := if name_dec a b then true else false. (* as name_dec,
   /repo/src/server/backup_phase4.c:383-387 *)

(* The file system: what inode a name is for, what an inode contains, a bound on
   the inodes in use, and the deletions file as the storage paths noted in it
   (/repo/src/server/backup_phase4.c:303-318). *)
Record fs := mkfs { dir : name -> option nat; data : nat -> bytes; next : nat; dels : list bytes }.

(* lstat() and S_ISREG: /repo/src/server/backup_phase4.c:390, 413, 438, 453, 477 *)
Definition present (s : fs) (n : name) : bool := match dir s n with Some _ => true | None => false end.
(* Reading a file: fzp_open(.., "rb"), /repo/src/server/backup_phase4.c:39, 79, 136 *)
Definition content (s : fs) (n : name) : option bytes := option_map (data s) (dir s n).

(* Changing a name or an inode; what the system calls of
   /repo/src/server/backup_phase4.c and /repo/src/server/link.c come down to:
   link.c:144-149, backup_phase4.c:339-361. *)
Definition set_name (n : name) (v : option nat) (s : fs) : fs :=
  mkfs (fun m => if name_eqb m n then v else dir s m) (data s) (next s) (dels s).
Definition set_data (i : nat) (c : bytes) (s : fs) : fs :=  (* as set_name; fzp_write(),
   /repo/src/server/link.c:118 *)
  mkfs (dir s) (fun j => if (j =? i)%nat then c else data s j) (next s) (dels s).

(* What is done: the states passed through, each of which a stop of the server
   may leave behind, and whether it succeeded (0 or -1 in
   /repo/src/server/backup_phase4.c). *)
Definition run := fs -> list fs * bool.
Definition endst (l : list fs) (s : fs) : fs := last l s. (* /repo/src/server/backup_phase4.c:371-493 *)
Definition ok : run := fun _ => ([], true).     (* return 0, /repo/src/server/backup_phase4.c:403 *)
Definition fail : run := fun _ => ([], false).  (* return -1, /repo/src/server/backup_phase4.c:371 *)
(* One thing after another, if the first succeeds: the chains of || and goto end
   in /repo/src/server/backup_phase4.c *)
Definition andthen (f g : run) : run := fun s =>
  let '(l, o) := f s in
  if o then let '(l2, o2) := g (endst l s) in (l ++ l2, o2) else (l, false).
(* One thing after another whatever the first gives: the "end:" parts, as
   /repo/src/server/backup_phase4.c:358-364 *)
Definition always (f g : run) : run := fun s =>
  let '(l, o) := f s in let '(l2, _) := g (endst l s) in (l ++ l2, o).
Definition look (k : fs -> run) : run := fun s => k s s. (* lstat() and reads,
   /repo/src/server/backup_phase4.c:390 *)

(* unlink(), nothing said if the name does not exist:
   /repo/src/server/backup_phase4.c:201, 301, 345, 354, 361, 394, 468 *)
Definition unlink (n : name) : run := fun s =>
  match dir s n with None => ([], true) | Some _ => ([set_name n None s], true) end.
(* do_rename(): /repo/src/fsops.c:143-154.  Taken as atomic. *)
Definition rename (a b : name) : run := fun s =>
  match dir s a with
  | None => ([], false)
  | Some i => ([set_name a None (set_name b (Some i) s)], true)
  end.
(* fzp_open(.., "wb"): an existing file is emptied, else a new one made.
   /repo/src/server/link.c:113, /repo/src/server/zlibio.c:23 *)
Definition creat (n : name) (s : fs) : fs * nat :=
  match dir s n with
  | Some i => (set_data i [] s, i)
  | None => (mkfs (fun m => if name_eqb m n then Some (next s) else dir s m)
                  (fun j => if (j =? next s)%nat then [] else data s j) (S (next s)) (dels s), next s)
  end.
(* Writing c to a file just opened; it may stop after any byte:
   /repo/src/server/link.c:116-125, /repo/src/server/zlibio.c:30-38 *)
Definition fill (i : nat) (c : bytes) (s : fs) : list fs :=
  map (fun k => set_data i (firstn k c) s) (seq 0 (S (List.length c))).
Definition write (n : name) (c : bytes) : run := fun s => (* both,
   /repo/src/server/zlibio.c:23-52 *)
  let '(s1, i) := creat n s in (fill i c s1, true).

(* duplicate_file(): /repo/src/server/link.c:103-133.  The source is read after
   the target has been opened for writing. *)
Definition duplicate_file (a b : name) : run := fun s =>
  match dir s a with
  | None => ([], false)
  | Some ia => let '(s1, ib) := creat b s in (fill ib (data s1 ia) s1, true)
  end.
(* do_link(): /repo/src/server/link.c:135-160.  many: whether the inode has
   max_hardlinks names already, in this run of the server. *)
Definition do_link (many : nat -> bool) (a b : name) (overwrite : bool) : run := fun s =>
  match dir s a with
  | None => ([], false)
  | Some i =>
    if many i then duplicate_file a b s
    else match dir s b with
         | None => ([set_name b (Some i) s], true)
         | Some _ => if overwrite then andthen (unlink b) (fun s' => ([set_name b (Some i) s'], true)) s
                     else ([], false)
         end
  end.

Section Jiggle.
(* zlib: gz and gunzip; librsync: the signature of a file, the delta from a
   signature and a file, and patching a file with a delta (None: an error).
   /repo/src/server/backup_phase4.c:51, 85, 147; deltas are taken after any
   decompression, which fzp_gzopen() does by itself (:41). *)
Variables (gz : bytes -> bytes) (gunzip : bytes -> option bytes).
Variables (sigof : bytes -> bytes) (mkdelta : bytes -> bytes -> bytes) (patch : bytes -> bytes -> option bytes).
Variable many : nat -> bool.
(* hardlinked_current: /repo/src/server/backup_phase4.c:751-766 *)
Variable hl : bool.

(* How a file is stored, comp standing for dpth_is_compressed():
   /repo/src/server/backup_phase4.c:44-47, 76-79 *)
Definition enc (comp : bool) (c : bytes) : bytes := if comp then gz c else c.
Definition dec (comp : bool) (c : bytes) : option bytes := if comp then gunzip c else Some c. (* the same
   for reading, /repo/src/server/backup_phase4.c:76-79, 133-136 *)

(* inflate_or_link_oldfile(): /repo/src/server/backup_phase4.c:209-254.  When
   the stored file is broken what could be read has been written. *)
Definition inflate_or_link (d : bytes) (comp : bool) : run := look (fun s =>
  match content s (NOld d) with
  | None => fail
  | Some c =>
    if comp then
      match c with
      | [] => write NInf []                                      (* 214-224 *)
      | _ => match gunzip c with
             | Some p => write NInf p
             | None => andthen (write NInf []) fail
             end
      end
    else do_link many (NOld d) NInf true                         (* 252-253 *)
  end).

(* gen_rev_delta(): /repo/src/server/backup_phase4.c:166-207 *)
Definition gen_rev_delta (d : bytes) (comp : bool) : run := look (fun s =>
  match content s (NNew d) with
  | None => fail
  | Some n =>
    match dec comp n with
    | None => fail
    | Some nc =>
      andthen (write NSig (sigof nc)) (look (fun s' =>           (* make_rev_sig, 67-103 *)
        match content s' NSig, content s' (NOld d) with
        | Some sg, Some o =>
          match dec comp o with
          | None => fail
          | Some oc => andthen (write (NRev d) (mkdelta sg oc)) (* make_rev_delta, 105-164 *)
                               (unlink NSig)                     (* 201 *)
          end
        | _, _ => fail
        end))
    end
  end).

(* Noting the entry in the deletions file: /repo/src/server/backup_phase4.c:303-318 *)
Definition note_deletion (d : bytes) : run := fun s =>
  ([mkfs (dir s) (data s) (next s) (dels s ++ [d])], true).

(* forward_patch_and_reverse_diff(): /repo/src/server/backup_phase4.c:256-365.
   A patch that fails may have written anything; it is removed at once, so
   nothing of it is recorded here but an empty file. *)
Definition forward_patch (d : bytes) (comp : bool) : run :=
  always
    (andthen (inflate_or_link d comp) (look (fun s =>
      match content s NInf, content s (NFwd d) with
      | Some b, Some dl =>
        match patch b dl with
        | None => andthen (write (NNew d) []) (andthen (unlink (NNew d)) (note_deletion d))  (* 295-321 *)
        | Some nc =>
          andthen (write (NNew d) (enc comp nc))                                             (* 293 *)
         (andthen (if hl then ok else gen_rev_delta d comp)                                  (* 325-330 *)
         (andthen (rename (NNew d) (NFin d))                                                 (* 339 *)
         (andthen (unlink (NFwd d))                                                          (* 345 *)
                  (if hl then ok else unlink (NOld d)))))                                    (* 351-355 *)
        end
      | _, _ => fail
      end)))
    (unlink NInf).                                                                           (* 359-363 *)

(* jiggle(): /repo/src/server/backup_phase4.c:367-494 *)
Definition jiggle (e : bytes * bool) : run := look (fun s =>
  let '(d, comp) := e in
  if present s (NFin d) then unlink (NFwd d)                                                 (* 390-405 *)
  else if present s (NFwd d) then forward_patch d comp                                       (* 413-436 *)
  else if present s (NNew d) then rename (NNew d) (NFin d)                                   (* 438-451 *)
  else if present s (NOld d) then                                                            (* 453-473 *)
    andthen (do_link many (NOld d) (NFin d) false) (if hl then ok else unlink (NOld d))
  else if present s (NRelink d) then rename (NRelink d) (NFin d)                             (* 475-484 *)
  else fail).                                                                                (* 486 *)

(* The loop of atomic_data_jiggle(): /repo/src/server/backup_phase4.c:678-696,
   over the entries of the new manifest that have a storage path, with whether
   they are stored compressed. *)
Fixpoint jiggle_all (es : list (bytes * bool)) : run :=
  match es with
  | [] => ok
  | e :: r => andthen (jiggle e) (jiggle_all r)
  end.
End Jiggle.
