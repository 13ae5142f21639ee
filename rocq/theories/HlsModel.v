(* Model of restoring hard links, on the server: /repo/src/server/restore.c:228-490, with
   the table of /repo/src/linkhash.c. *)
From Verif Require Import Bytes PathcmpModel CmdModel RestoreModel LinkModel.

(* An entry of the manifest: path, kind, whether its attributes are those of a
   directory, device and inode, the target if it is a link, and the data that it
   stands for.  /repo/src/server/restore.c:228-490 *)
Record ent := mkent { e_path : bytes; e_cmd : Z; e_dir : bool; e_dev : Z; e_ino : Z; e_link : bytes; e_body : bytes }.

(* What the selection looks at: /repo/src/server/restore.c:114-148 *)
Definition rent_of (e : ent) : rent := mkrent (e_path e) (e_cmd e) (e_dir e).

(* Which entries are wanted: want_to_restore() on each, /repo/src/server/restore.c:464-466 *)
Fixpoint mark (c : rconf) (bad : bool) (lines : list bytes) (es : list ent) : list (ent * bool) :=
  match es with
  | [] => []
  | e :: r => let '(w, lines) := want_to_restore c bad lines (rent_of e) in (e, w) :: mark c bad lines r
  end.

(* sbuf_is_filedata(sb) || sbuf_is_vssdata(sb): /repo/src/server/restore.c:257, 474 *)
Definition has_data (e : ent) : bool := cmd_is_filedata (e_cmd e) || cmd_is_vssdata (e_cmd e).

(* The path is that of the link: /repo/src/server/restore.c:259-263 *)
Definition renamed (h sb : ent) : ent :=
  mkent (e_path sb) (e_cmd h) (e_dir h) (e_dev h) (e_ino h) (e_link h) (e_body h).

(* How the search in hard_link_substitution() ends: with an entry, at the end of the
   manifest (0 is returned), or past the name (-1).
   /repo/src/server/restore.c:246-275 *)
Inductive found := FEntry (h : ent) | FEnd | FPast.

(* hard_link_substitution(), the loop: /repo/src/server/restore.c:246-275 *)
Fixpoint search_name (name : bytes) (es : list ent) : found :=
  match es with
  | [] => FEnd
  | h :: r =>
    let pcmp := pathcmp_s name (e_path h) in
    if (pcmp =? 0) && has_data h then FEntry h
    else if pcmp <? 0 then FPast
    else search_name name r
  end.

(* restore_sbuf(): /repo/src/server/restore.c:282-315: what is sent, and whether 0 is
   returned.  The entry put in for a link is no link itself, so that it goes to
   restore_sbuf_all().  es: the whole manifest. *)
Definition restore_sbuf (es : list ent) (t : table) (sb : ent) : list ent * bool :=
  if e_cmd sb =? CMD_HARD_LINK then
    match linkhash_search t (e_dev sb) (e_ino sb) with
    | Some lp => match search_name (fl_name lp) es with
                 | FEntry h => ([renamed h sb], true)
                 | FEnd => ([], true)
                 | FPast => ([], false)
                 end
    | None => ([sb], true)
    end
  else ([sb], true).

(* One after the other until one fails: /repo/src/server/restore.c:338-356 *)
Fixpoint restore_sbufs (es : list ent) (t : table) (l : list ent) : list ent * bool :=
  match l with
  | [] => ([], true)
  | x :: r =>
    match restore_sbuf es t x with
    | (o, false) => (o, false)
    | (o, true) => let '(o', ok) := restore_sbufs es t r in (o ++ o', ok)
    end
  end.

(* The directories that are done: /repo/src/server/restore.c:338-356 *)
Fixpoint pop (stack : list ent) (p : bytes) : list ent * list ent :=
  match stack with
  | [] => ([], [])
  | x :: rest =>
    if negb (is_subdir_s (e_path x) p =? 0) then ([], stack)
    else let '(o, s) := pop rest p in (x :: o, s)
  end.

(* S_ISDIR() and no metadata: /repo/src/server/restore.c:365-367 *)
Definition later (e : ent) : bool := e_dir e && negb (cmd_is_metadata (e_cmd e)).

(* An entry that is not wanted: /repo/src/server/restore.c:474-482 *)
Definition skipped (t : table) (e : ent) : table :=
  if has_data e
  then match linkhash_search t (e_dev e) (e_ino e) with
       | Some _ => t
       | None => linkhash_add t (e_dev e) (e_ino e) (e_path e)
       end
  else t.

(* restore_stream(), restore_ent() and restore_remaining_dirs():
   /repo/src/server/restore.c:317-490.  What the client sends meanwhile is left out. *)
Fixpoint stream (es : list ent) (t : table) (stack : list ent) (ms : list (ent * bool)) : list ent * bool :=
  match ms with
  | [] => (stack, true)
  | (e, false) :: r => stream es (skipped t e) stack r
  | (e, true) :: r =>
    let '(o, s) := pop stack (e_path e) in
    match restore_sbufs es t o with
    | (out, false) => (out, false)
    | (out, true) =>
      if later e then let '(o', ok) := stream es t (e :: s) r in (out ++ o', ok)
      else match restore_sbuf es t e with
           | (x, false) => (out ++ x, false)
           | (x, true) => let '(o', ok) := stream es t s r in (out ++ x ++ o', ok)
           end
    end
  end.

(* actual_restore(): /repo/src/server/restore.c:498-533, what is sent to the client *)
Definition restore_run (ms : list (ent * bool)) : list ent * bool := stream (map fst ms) linkhash_init [] ms.
