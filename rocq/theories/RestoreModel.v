(* Model of selecting and ordering restored entries: /repo/src/server/restore.c *)
From Verif Require Import Bytes PathcmpModel CmdModel.

(* What the functions below look at in a struct sbuf: the path as a C string,
   the command, and S_ISDIR(statp.st_mode) of the decoded attributes. *)
Record rent := mkrent { r_path : bytes; r_cmd : Z; r_isdir : bool }.

(* strncmp(path, s, strlen(s))==0, that is !strncmp_w(path, s):
   /repo/src/handy.c:567-570 *)
Fixpoint starts_with (path s : bytes) {struct s} : bool :=
  match s with
  | [] => true
  | c :: s' => match path with
               | d :: path' => (c =? d) && starts_with path' s'
               | [] => false
               end
  end.

(* srestore_matches(): /repo/src/server/restore.c:46-55.  (flag, path) is a
   struct strlist element.  Lines 52-54 cannot be reached. *)
Definition srestore_matches (s : bool * bytes) (path : bytes) : bool :=
  if negb (fst s) then false                            (* 49 *)
  else if negb (starts_with path (snd s)) then false    (* 50 *)
  else true.                                            (* 51 *)

(* srestore_check(): /repo/src/server/restore.c:58-69 *)
Definition srestore_check (l : list (bool * bytes)) (path : bytes) : bool :=
  match l with
  | [] => true
  | _ => existsb (fun s => srestore_matches s path) l
  end.

(* restore_list_check(): /repo/src/server/restore.c:71-112.  lines: the lines of
   the list from the one held in rl_iobuf, or the next to be read if none is
   held.  bad: reading past the last line fails instead of reporting the end.
   The ordering warning (92-97) only logs. *)
Fixpoint restore_list_check (bad : bool) (lines : list bytes) (path : bytes) : Z * list bytes :=
  match lines with
  | [] => (if bad then -1 else 0, [])                   (* 84-89 *)
  | l :: rest =>
      let r := pathcmp_s l path in
      if r =? 0 then (1, lines)                         (* 101 *)
      else if r =? 1 then (0, lines)                    (* 102 *)
      else restore_list_check bad rest path             (* 103-107 *)
  end.

(* The parameters of want_to_restore(). *)
Record rconf := mkrconf {
  w_restore : bool;      (* act==ACTION_RESTORE *)
  w_vss : bool;          (* client is windows and vss_restore is on *)
  w_list : bool;         (* a restore list was given *)
  w_srestore : bool;     (* restore initiated by the server *)
  w_includes : list (bool * bytes);
  w_regex : option (bytes -> bool)   (* regex_check(), an oracle *)
}.

(* want_to_restore(): /repo/src/server/restore.c:114-148 *)
Definition want_to_restore (c : rconf) (bad : bool) (lines : list bytes) (sb : rent) : bool * list bytes :=
  if w_restore c && negb (w_vss c)
     && (cmd_is_vssdata (r_cmd sb)
         || (r_isdir sb && cmd_is_filedata (r_cmd sb) && negb (cmd_is_metadata (r_cmd sb))))
  then (false, lines)                                   (* 124-139 *)
  else
    let '(inlist, lines') :=
      if w_list c then let '(r, l') := restore_list_check bad lines (r_path sb) in (negb (r =? 0), l')
      else (true, lines) in
    (inlist
     && (negb (w_srestore c) || srestore_check (w_includes c) (r_path sb))
     && match w_regex c with None => true | Some f => f (r_path sb) end, lines').

(* The entries for which restore_stream() calls restore_ent():
   /repo/src/server/restore.c:432-488 *)
Fixpoint select (c : rconf) (bad : bool) (lines : list bytes) (es : list rent) : list rent :=
  match es with
  | [] => []
  | e :: es' =>
      let '(w, lines') := want_to_restore c bad lines e in
      if w then e :: select c bad lines' es' else select c bad lines' es'
  end.

(* The condition for remembering an entry: /repo/src/server/restore.c:365-367 *)
Definition deferred (e : rent) : bool := r_isdir e && negb (cmd_is_metadata (r_cmd e)).

(* The while loop of restore_ent(): /repo/src/server/restore.c:338-356.
   Result: what was restored, and the stack left. *)
Fixpoint pop_dirs (stack : list rent) (p : bytes) : list rent * list rent :=
  match stack with
  | [] => ([], [])
  | x :: rest =>
      if negb (is_subdir_s (r_path x) p =? 0) then ([], stack)
      else let '(o, s) := pop_dirs rest p in (x :: o, s)
  end.

(* restore_ent() (317-389) on each selected entry and then
   restore_remaining_dirs() (391-406): the entries in the order restore_sbuf()
   is called on them.  Errors, and the substitution of hard links within
   restore_sbuf(), are not modelled.
   /repo/src/server/restore.c:317-406 *)
Fixpoint restore_ents (stack : list rent) (es : list rent) : list rent :=
  match es with
  | [] => stack
  | e :: es' =>
      let '(o, s) := pop_dirs stack (r_path e) in
      o ++ (if deferred e then restore_ents (e :: s) es' else e :: restore_ents s es')
  end.

(* /repo/src/server/restore.c:432-490 *)
Definition restore_all (es : list rent) : list rent := restore_ents [] es.
