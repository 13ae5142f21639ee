(* Model of listing on the client: /repo/src/client/list.c, and of
   encode_time() of /repo/src/times.c. *)
From Verif Require Import Bytes CmdModel AttribsModel FrameModel SbufModel DpthModel BuModel CntrModel ListModel.

(* S_ISBLK() and the like: /repo/src/client/list.c:19-20 *)
Definition mode_is (t m : Z) : bool := Z.land m 61440 =? t.
(* mode&S_IRUSR and the like: /repo/src/client/list.c:21-29 *)
Definition bit (m b : Z) : bool := negb (Z.land m b =? 0).

(* encode_mode(): /repo/src/client/list.c:16-32, the constants of <sys/stat.h>
   written out.  114 is 'r', 119 'w', 120 'x', 115 's', 83 'S', 116 't', 84 'T',
   45 '-', and 100 'd', 98 'b', 99 'c', 108 'l', 112 'p'. *)
Definition encode_mode (m : Z) : bytes :=
  [ if mode_is 16384 m then 100 else if mode_is 24576 m then 98 else if mode_is 8192 m then 99
    else if mode_is 40960 m then 108 else if mode_is 4096 m then 112 else if mode_is 49152 m then 115 else 45;
    if bit m 256 then 114 else 45;
    if bit m 128 then 119 else 45;
    if bit m 2048 then (if bit m 64 then 115 else 83) else if bit m 64 then 120 else 45;
    if bit m 32 then 114 else 45;
    if bit m 16 then 119 else 45;
    if bit m 1024 then (if bit m 8 then 115 else 83) else if bit m 8 then 120 else 45;
    if bit m 4 then 114 else 45;
    if bit m 2 then 119 else 45;
    if bit m 512 then (if bit m 1 then 116 else 84) else if bit m 1 then 120 else 45 ].

(* A conversion with a field width, "%5d" and the like:
   /repo/src/client/list.c:43-48 *)
Definition padl (w : nat) (s : bytes) : bytes := repeat 32 (w - List.length s) ++ s.
(* "%02d" and the like: /repo/src/times.c:76 *)
Definition padz (w : nat) (n : Z) : bytes :=
  if n <? 0 then 45 :: repeat 48 (w - S (List.length (fmt_u (- n)))) ++ fmt_u (- n)
  else repeat 48 (w - List.length (fmt_u n)) ++ fmt_u n.

(* What encode_time() shows of a struct tm: tm_year+1900, tm_mon+1, tm_mday,
   tm_hour, tm_min, tm_sec: /repo/src/times.c:77-78 *)
Record tm := mktm { t_year : Z; t_mon : Z; t_day : Z; t_hour : Z; t_min : Z; t_sec : Z }.

(* encode_time(), not on Windows: /repo/src/times.c:57-80; the result of
   localtime() is given, None for NULL. *)
Definition encode_time (t : option tm) : bytes :=
  match t with
  | None => []
  | Some t => padz 4 (t_year t) ++ 45 :: padz 2 (t_mon t) ++ 45 :: padz 2 (t_day t) ++ 32
              :: padz 2 (t_hour t) ++ 58 :: padz 2 (t_min t) ++ 58 :: padz 2 (t_sec t)
  end.

(* The actions that list: /repo/src/client/list.c:112, 117-136 *)
Inductive lact := AList | ALong | AParse | ADiff | ADiffLong.
(* act==ACTION_LIST_LONG: /repo/src/client/list.c:94 *)
Definition is_long (a : lact) : bool := match a with ALong => true | _ => false end.
(* parseable_format: /repo/src/client/list.c:112 *)
Definition is_parse (a : lact) : bool := match a with AParse => true | _ => false end.

(* lsbuf and len of ls_long_output(): whether there is a buffer, and len.
   /repo/src/client/list.c:59-60 *)
Record lsbuf := mkls { l_there : bool; l_len : Z }.
(* /repo/src/client/list.c:59-60 *)
Definition ls_init : lsbuf := mkls false 128.

(* The loop of ls_long_output(): /repo/src/client/list.c:62-67, with memory to be
   had.  len doubles, so that 64 rounds are enough for every size_t. *)
Fixpoint grow (fuel : nat) (need : Z) (b : lsbuf) : lsbuf :=
  match fuel with
  | O => b
  | S f => if need >? l_len b then grow f need (mkls true (l_len b * 2)) else b
  end.

Section Client.
(* localtime(): /repo/src/times.c:75 *)
Variable localtime : Z -> option tm.

(* ls_to_buf(): /repo/src/client/list.c:34-55.  The unsigned numbers are printed
   with %d. *)
Definition ls_to_buf (a : attrs) (path : bytes) : bytes :=
  encode_mode (st_mode a) ++ 32 :: padl 2 (fmt_d (s32 (st_nlink a)))
    ++ 32 :: padl 5 (fmt_d (s32 (st_uid a))) ++ 32 :: padl 5 (fmt_d (s32 (st_gid a)))
    ++ 32 :: padl 7 (fmt_u (st_size a)) ++ 32 :: encode_time (localtime (st_mtime a)) ++ 32 :: path.

(* ls_long_output(): /repo/src/client/list.c:57-74.  path is the buffer as it
   came, printed up to its NUL.  None: the line is written to a NULL pointer or
   past the end of the buffer. *)
Definition ls_long_output (b : lsbuf) (a : attrs) (path : bytes) (link : option bytes) : option (lsbuf * bytes) :=
  let b := grow 64 (Z.of_nat (List.length path) + 128) b in
  let line := ls_to_buf a (cview path) in
  if negb (l_there b) then None
  else if l_len b <? Z.of_nat (List.length line) + 1 then None
  else Some (b, line ++ match link with Some l => str " -> " ++ cview l | None => [] end ++ [10]).

(* ls_short_output(): /repo/src/client/list.c:76-90 *)
Definition ls_short_output (parse : bool) (path : bytes) : bytes :=
  if parse then CMD_FILE :: fmt_04X (Z.of_nat (List.length path)) ++ cview path ++ [10]
  else cview path ++ [10].

(* list_item(): /repo/src/client/list.c:92-99 *)
Definition list_item (act : lact) (b : lsbuf) (a : attrs) (path : bytes) (link : option bytes)
  : option (lsbuf * bytes) :=
  if is_long act then ls_long_output b a path link
  else Some (b, ls_short_output (is_parse act) path).

(* How it ends: a return value, or undefined behaviour.
   /repo/src/client/list.c:101, 187 *)
Inductive lret := Ret (r : Z) | Undef.

(* sbuf_free_content(): /repo/src/sbuf.c:30-51 *)
Definition zero_attrs : attrs := mkattrs 0 0 0 0 0 0 0 0 0 0 0 0 0 0 (-1) 0 0 1.

(* The kinds listed without a link: /repo/src/client/list.c:197-201 *)
Definition lists_plain (c : Z) : bool :=
  (c =? CMD_DIRECTORY) || (c =? CMD_FILE) || (c =? CMD_ENC_FILE) || (c =? CMD_EFS_FILE) || (c =? CMD_SPECIAL).

(* The headings of a backup: /repo/src/client/list.c:165-178 *)
Definition print_heading (act : lact) (bd rx : option bytes) (t : bytes) : bytes :=
  if is_parse act then []
  else str "Backup: " ++ cview t ++ 10
       :: match bd with Some d => str "Listing directory: " ++ d ++ [10] | None => [] end
       ++ match rx with Some r => str "With regex: " ++ r ++ [10] | None => [] end.

(* do_list_client() from its loop on: /repo/src/client/list.c:150-230.  The
   messages that come are given; after them reading fails, which is the end of
   the connection too.  What is printed, and how it ends. *)
Fixpoint list_loop (act : lact) (bd rx : option bytes) (b : lsbuf) (ms : list (Z * bytes)) {struct ms} : bytes * lret :=
  match ms with
  | [] => ([], Ret 0)                                                      (* 156, 225 *)
  | (c, t) :: ms =>
    if c =? CMD_MESSAGE then                                               (* 157-164 *)
      (if is_parse act then [] else cview t ++ [10],
       Ret (if beqb (cview t) (str "no backups") then 0 else -1))
    else if c =? CMD_TIMESTAMP then
      let '(o, r) := list_loop act bd rx b ms in (print_heading act bd rx t ++ o, r)
    else if negb (c =? CMD_ATTRIBS) then ([], Ret (-1))                    (* 179-183 *)
    else
      match attribs_decode (cview t) zero_attrs with                       (* 187 *)
      | None => ([], Undef)
      | Some a =>
        match ms with
        | [] => ([], Ret (-1))                                             (* 189-193 *)
        | (pc, p) :: ms =>
          if lists_plain pc then                                           (* 197-205 *)
            match list_item act b a p None with
            | None => ([], Undef)
            | Some (b, o) => let '(o', r) := list_loop act bd rx b ms in (o ++ o', r)
            end
          else if cmd_is_link pc then                                      (* 206-218 *)
            match ms with
            | [] => ([], Ret (-1))
            | (lc, l) :: ms =>
              if negb (lc =? pc) then ([], Ret (-1))
              else
                match list_item act b a p (Some l) with
                | None => ([], Undef)
                | Some (b, o) => let '(o', r) := list_loop act bd rx b ms in (o ++ o', r)
                end
            end
          else list_loop act bd rx b ms                                    (* 219-222 *)
        end
      end
  end.
End Client.

(* snprintf() into msg[512]: /repo/src/client/list.c:104, 126-135 *)
Definition msg512 (s : bytes) : bytes := firstn 511 s.
(* backup?backup:"" and the like: /repo/src/client/list.c:127-135 *)
Definition or_empty (s : option bytes) : bytes := match s with Some s => s | None => [] end.

(* The request of do_list_client(): /repo/src/client/list.c:115-140.  None: both a
   directory and a regular expression are given. *)
Definition list_request (act : lact) (backup backup2 bd rx : option bytes) : option bytes :=
  match act with
  | AList | ALong | AParse =>
    match bd, rx with
    | Some _, Some _ => None
    | Some d, None => Some (msg512 (str "listb " ++ or_empty backup ++ 58 :: d))
    | None, _ => Some (msg512 (str "list " ++ or_empty backup ++ 58 :: or_empty rx))
    end
  | ADiff | ADiffLong => Some (msg512 (str "diff " ++ or_empty backup ++ 58 :: or_empty backup2))
  end.

(* do_delete_client(): /repo/src/client/delete.c:7-17 *)
Definition delete_request (backup : option bytes) : bytes := firstn 127 (str "Delete " ++ or_empty backup).

(* The request of do_restore_client(): /repo/src/client/restore.c:772-776, act_str()
   of /repo/src/client/restore.c:421-427 *)
Definition restore_request (verify rlist : bool) (backup rx : option bytes) : bytes :=
  msg512 ((if verify then str "verify" else str "restore")
          ++ (if rlist then str " restore_list" else []) ++ 32 :: or_empty backup ++ 58 :: or_empty rx).

(* strip_trailing_slashes(): /repo/src/handy.c:851-864 on the text reversed; the
   loop stops at "/" and at what does not end in a slash. *)
Fixpoint strip_rev (s : bytes) : bytes :=
  match s with
  | c :: ((_ :: _) as r) => if c =? 47 then strip_rev r else s
  | _ => s
  end.
(* strip_trailing_slashes(): /repo/src/handy.c:851-864 *)
Definition strip_slashes (s : bytes) : bytes := rev (strip_rev (rev s)).
