(* Model of listing backups and their contents: /repo/src/server/list.c. *)
From Verif Require Import Bytes CmdModel AttribsModel FrameModel SbufModel DpthModel BuModel RestoreModel Phase2Model.

(* What goes to the client.  LOver c b n: a message of n bytes read from the
   buffer that holds b and its NUL, where n is more than there are: undefined
   behaviour from the byte after the NUL on.  LNone: a message without buffer.
   /repo/src/server/list.c:199, 224-228, 261-262, 352, 358 *)
Inductive lout := LMsg (m : Z * bytes) | LOver (c : Z) (b : bytes) (n : nat) | LNone (c : Z).

(* asfd_write_wrapper() of an iobuf: /repo/src/asfd.c:380-425, 479-494 *)
Definition send_iobuf (b : iobuf) : lout :=
  match ibuf b with Some s => LMsg (icmd b, s) | None => LNone (icmd b) end.

(* S_ISDIR(): /repo/src/server/list.c:99 *)
Definition mode_isdir (m : Z) : bool := Z.land m 61440 =? 16384.

(* mb->statp.st_mode &= ~S_IFMT, then |= S_IFDIR: /repo/src/server/list.c:103-104 *)
Definition dir_mode (m : Z) : Z := Z.lor (Z.ldiff m 61440) 16384.

(* maybe_fake_directory(): /repo/src/server/list.c:97-110 *)
Definition maybe_fake_directory (e : ent) : ent :=
  if mode_isdir (st_mode (e_at e)) then e
  else let a := set_mode (dir_mode (st_mode (e_at e))) (e_at e) in
       mkent (set_attr (mkiobuf CMD_ATTRIBS (attribs_encode a)) (e_sb e)) a.

(* The part of a string before the first '/', and the rest from it on:
   strchr() at /repo/src/server/list.c:136 *)
Fixpoint cut_slash (s : bytes) : bytes * bytes :=
  match s with
  | [] => ([], [])
  | c :: s' => if c =? slash then ([], s) else let '(a, b) := cut_slash s' in (c :: a, b)
  end.

(* strrchr(s, '/') with what is before it: /repo/src/server/list.c:150 *)
Fixpoint cut_rslash (s : bytes) : option bytes :=
  match s with
  | [] => None
  | c :: s' => match cut_rslash s' with
               | Some a => Some (c :: a)
               | None => if c =? slash then Some [] else None
               end
  end.

(* The browsed directory is a C string without NUL; its last character:
   /repo/src/server/list.c:122 *)
Definition last_char (s : bytes) : Z := last s 0.

(* The part of a path below the directory: /repo/src/server/list.c:115-133.
   None is the return of 0. *)
Definition below_dir (bd p : bytes) : option bytes :=
  let r :=
    match bd with
    | [] => Some p
    | _ =>
      if starts_with p bd then                                             (* 119-121 *)
        let q := skipn (List.length bd) p in
        if last_char bd =? slash then Some q
        else match q with                                                  (* 124-129 *)
             | [] => Some q
             | c :: q' => if c =? slash then Some q' else None
             end
      else None
    end in
  match r with
  | Some [] => Some [dot]                                                  (* 132-133 *)
  | _ => r
  end.

(* Strip off possible trailing slash: /repo/src/server/list.c:149-151 *)
Definition strip_slash (s : bytes) : bytes :=
  match cut_rslash s with
  | Some (c :: a) => c :: a
  | _ => s
  end.

(* check_browsedir(): /repo/src/server/list.c:112-170, with memory to be had.
   The entry as left behind, the name it is listed under (None: it is not), the
   last match.  path.buf is the name then, path.len stays. *)
Definition check_browsedir (bd : bytes) (e : ent) (lastm : option bytes)
  : ent * option bytes * option bytes :=
  let p := text (e_path e) in
  match below_dir bd p with
  | None => (e, None, lastm)
  | Some cp =>
    let '(a, b) := cut_slash cp in
    let '(copy, e) :=
      match b with
      | _ :: _ =>                                                          (* 136-142 *)
        ((match bd with [] => a ++ [slash] | _ => a end), maybe_fake_directory e)
      | [] =>
        (cp, if (beqb p [slash] && beqb bd [slash]) || (e_cmd e =? CMD_DIRECTORY)
             then maybe_fake_directory e else e)                           (* 143-147 *)
      end in
    let copy := strip_slash copy in
    if match lastm with Some l => beqb l copy | None => false end
    then (e, None, lastm)                                                  (* 153-159 *)
    else (e, Some copy, Some copy)
  end.

(* The length of path as read: /repo/src/iobuf.h:7-12 *)
Definition path_len (e : ent) : nat :=
  match ibuf (e_path e) with Some s => List.length s | None => 0 end.

(* asfd_write_wrapper() of path, with the buffer of check_browsedir() and the
   length of the whole path: /repo/src/server/list.c:225, /repo/src/asfd.c:380-425 *)
Definition send_name (c : Z) (name : bytes) (len : nat) : lout :=
  if (len <=? S (List.length name))%nat then LMsg (c, firstn len (name ++ [0]))
  else LOver c name len.

(* How reading the manifest ends: /repo/src/server/list.c:195-204 *)
Inductive mend := MEnd | MErr.

(* What is sent for an entry: /repo/src/server/list.c:224-229 *)
Definition send_entry (e : ent) (name : option bytes) : list lout :=
  send_iobuf (s_attr (e_sb e))
  :: match name with Some n => send_name (e_cmd e) n (path_len e) | None => send_iobuf (e_path e) end
  :: if cmd_is_link (e_cmd e) then [send_iobuf (s_link (e_sb e))] else [].

(* The loop of list_manifest(): /repo/src/server/list.c:191-234.  The manifest
   is given as its entries and the end of reading them (C08, C09, C13); the
   regular expression as what it accepts.  Sending is taken to succeed, the
   status line to be sent (209) to be no error.  true: it returns 0. *)
Fixpoint list_manifest (bd : option bytes) (rx : option (bytes -> bool)) (lastm : option bytes)
  (es : list ent) (stop : mend) : list lout * bool :=
  match es with
  | [] =>
    match stop with
    | MErr => ([], false)
    | MEnd =>
      (match bd, lastm with
       | Some (_ :: _), None => [LMsg (CMD_ERROR, str "directory not found")] (* 198-201 *)
       | _, _ => []
       end, true)
    end
  | e :: es' =>
    if cmd_is_metadata (e_cmd e) then list_manifest bd rx lastm es' stop   (* 206-207 *)
    else
      let '(e, name, lastm, skip) :=
        match bd with
        | None => (e, None, lastm, false)
        | Some d => let '(e, n, l) := check_browsedir d e lastm in
                    (e, n, l, match n with None => true | Some _ => false end)
        end in
      if skip then list_manifest bd rx lastm es' stop                      (* 218 *)
      else if match rx with
              | None => false
              | Some f => negb (f (match name with Some n => n | None => text (e_path e) end))
              end
      then list_manifest bd rx lastm es' stop                              (* 221-222 *)
      else let '(o, r) := list_manifest bd rx lastm es' stop in (send_entry e name ++ o, r)
  end.

(* A backup as far as listing it goes: /repo/src/bu.h:24-44, the number as
   read, and the flags BU_WORKING, BU_FINISHING, BU_DELETABLE, BU_CURRENT. *)
Record lbu := mklbu { v_stamp : bytes; v_bno : Z; v_working : bool; v_finishing : bool;
                      v_deletable : bool; v_current : bool }.

(* enum list_mode: /repo/src/server/list.c:18-23 *)
Inductive lmode := ModeBackups | ModeOne | ModeMany.

(* The mode list_server_init() settles on and the number asked for:
   /repo/src/server/list.c:68-81, for a given (perhaps empty) backup, with
   whether a regular expression or a directory is given.  A backup that is NULL
   is taken as empty. *)
Definition list_mode (backup : bytes) (rx bd : bool) : lmode * Z :=
  match backup with
  | [] => (if rx || bd then ModeMany else ModeBackups, 0)
  | c :: _ =>
    let n := strtoul10 backup in
    if 0 <? n then (ModeOne, n)
    else if c =? 99 then (ModeOne, n)
    else if c =? 97 then (ModeMany, n)
    else (ModeOne, n)
  end.

(* get_extradesc(): /repo/src/server/list.c:242-252 *)
Definition extradesc (b : lbu) : bytes :=
  if v_working b then str " (working)"
  else if v_finishing b then str " (finishing)"
  else if v_deletable b then str " (deletable)"
  else [].

(* send_backup_name_to_client(): /repo/src/server/list.c:254-265, the buffer of
   64 bytes included *)
Definition send_backup_name (b : lbu) : lout :=
  LMsg (CMD_TIMESTAMP, firstn 63 (v_stamp b ++ extradesc b)).

(* The test of list_contents_one(): /repo/src/server/list.c:286-288 *)
Definition one_matches (backup : bytes) (bno : Z) (b : lbu) : bool :=
  beqb (v_stamp b) backup || (v_bno b =? bno) || ((hd0 backup =? 99) && v_current b).

Section Work.
(* list_server_callback: /repo/src/server/list.c:322, 372 *)
Variable callback : lbu -> list lout * bool.

(* list_all_backups(): /repo/src/server/list.c:267-278.  The backups listed. *)
Definition list_all_backups (l : list lbu) : list lout := map send_backup_name l.

(* list_contents_one(): /repo/src/server/list.c:280-299.  None is -1, otherwise
   whether one was found. *)
Fixpoint list_contents_one (backup : bytes) (bno : Z) (l : list lbu) : list lout * option bool :=
  match l with
  | [] => ([], Some false)
  | b :: l' =>
    if one_matches backup bno b
    then let '(o, r) := callback b in (send_backup_name b :: o, if r then Some true else None)
    else list_contents_one backup bno l'
  end.

(* list_contents_many(): /repo/src/server/list.c:301-316 *)
Fixpoint list_contents_many (l : list lbu) (found : bool) : list lout * option bool :=
  match l with
  | [] => ([], Some found)
  | b :: l' =>
    let '(o, r) := callback b in
    if r then let '(o', r') := list_contents_many l' true in (send_backup_name b :: o ++ o', r')
    else (send_backup_name b :: o, None)
  end.

(* do_list_server_work(): /repo/src/server/list.c:318-368, true for 0 *)
Definition do_list_server_work (m : lmode) (backup : bytes) (bno : Z) (l : list lbu) : list lout * bool :=
  let '(o, found) :=
    match m with
    | ModeBackups => (list_all_backups l, Some (match l with [] => false | _ => true end))
    | ModeOne => list_contents_one backup bno l
    | ModeMany => list_contents_many l false
    end in
  match found with
  | None => (o, false)
  | Some true => (o, true)
  | Some false =>
    match m with
    | ModeBackups => (o ++ [LMsg (CMD_MESSAGE, str "no backups")], true)   (* 350-355 *)
    | _ => (o ++ [LMsg (CMD_MESSAGE, str "backup not found")], false)      (* 356-361 *)
    end
  end.
End Work.
