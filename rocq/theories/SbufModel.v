(* Model of manifest entries: /repo/src/sbuf.c. *)
From Verif Require Import Bytes CmdModel PathcmpModel FrameModel.

(* iobuf_init(): /repo/src/iobuf.c:25-28 *)
Definition iobuf_empty : iobuf := mkiobuf CMD_ERROR None.

(* struct sbuf: /repo/src/sbuf.h:34-62, the fields that come from or go to a
   manifest.  The fields decoded from attr (statp, compression, ...) are a
   function of attr (C07) and are left out; flags other than NEED_LINK and
   CLIENT_RESTORE_HACK are not used by the parser. *)
Record sbuf := mksbuf {
  s_path : iobuf; s_attr : iobuf; s_link : iobuf; s_endfile : iobuf;
  s_datapth : iobuf; s_need_link : bool; s_hack : bool }.

(* sbuf_alloc(): /repo/src/sbuf.c:13-28 *)
Definition sbuf_alloc : sbuf :=
  mksbuf iobuf_empty (mkiobuf CMD_ATTRIBS None) iobuf_empty iobuf_empty
         (mkiobuf CMD_DATAPTH None) false false.

(* sbuf_free_content(): /repo/src/sbuf.c:30-51.  flags becomes 0. *)
Definition sbuf_free_content (sb : sbuf) : sbuf :=
  mksbuf iobuf_empty iobuf_empty iobuf_empty iobuf_empty (mkiobuf CMD_DATAPTH None) false false.

(* buf is not NULL: /repo/src/sbuf.c:164, 196 *)
Definition has_buf (b : iobuf) : bool := match ibuf b with Some _ => true | None => false end.

(* iobuf_relative_path_attack(): /repo/src/iobuf.c:203-209 (strlen-style use
   of the buffer: only the bytes before the first NUL count). *)
Definition relative_path_attack (m : Z * bytes) : bool := has_dot_component (cview (snd m)).

(* enum parse_ret: /repo/src/sbuf.c:127-133 *)
Inductive parse_ret := PError | PNeedMore | PComplete | PFinished.

(* iobuf_move() of what was read: /repo/src/sbuf.c:145, 188, 242, 246 *)
Definition to_iobuf (m : Z * bytes) : iobuf := mkiobuf (fst m) (Some (snd m)).

(* Field update, for /repo/src/sbuf.c:135-262 *)
Definition set_path b sb := mksbuf b (s_attr sb) (s_link sb) (s_endfile sb) (s_datapth sb) (s_need_link sb) (s_hack sb).
(* Field update, for /repo/src/sbuf.c:135-262 *)
Definition set_attr b sb := mksbuf (s_path sb) b (s_link sb) (s_endfile sb) (s_datapth sb) (s_need_link sb) (s_hack sb).
(* Field update, for /repo/src/sbuf.c:135-262 *)
Definition set_link b sb := mksbuf (s_path sb) (s_attr sb) b (s_endfile sb) (s_datapth sb) (s_need_link sb) (s_hack sb).
(* Field update, for /repo/src/sbuf.c:135-262 *)
Definition set_endfile b sb := mksbuf (s_path sb) (s_attr sb) (s_link sb) b (s_datapth sb) (s_need_link sb) (s_hack sb).
(* Field update, for /repo/src/sbuf.c:135-262 *)
Definition set_datapth b sb := mksbuf (s_path sb) (s_attr sb) (s_link sb) (s_endfile sb) b (s_need_link sb) (s_hack sb).
(* Field update, for /repo/src/sbuf.c:135-262 *)
Definition set_need_link f sb := mksbuf (s_path sb) (s_attr sb) (s_link sb) (s_endfile sb) (s_datapth sb) f (s_hack sb).
(* Field update, for /repo/src/sbuf.c:135-262 *)
Definition set_hack f sb := mksbuf (s_path sb) (s_attr sb) (s_link sb) (s_endfile sb) (s_datapth sb) (s_need_link sb) f.

(* The CMD_GEN strings that end a stream: /repo/src/sbuf.c:213-217 *)
Definition is_end_str (b : bytes) : bool :=
  beqb (cview b) (str "restoreend") || beqb (cview b) (str "phase1end")
  || beqb (cview b) (str "backupphase2") || beqb (cview b) (str "backupend")
  || beqb (cview b) (str "estimateend").

(* parse_cmd(): /repo/src/sbuf.c:135-262.  Logging is left out. *)
Definition parse_cmd (sb : sbuf) (m : Z * bytes) : sbuf * parse_ret :=
  let c := fst m in
  if c =? CMD_ATTRIBS then                                             (* 140-147 *)
    let sb := if has_buf (s_datapth sb) then sb else sbuf_free_content sb in
    (set_attr (to_iobuf m) sb, PNeedMore)
  else if cmd_is_path c then                                           (* 149-207 *)
    if negb (has_buf (s_attr sb)) then (sb, PError)                    (* 164-168 *)
    else if s_need_link sb then                                        (* 169-183 *)
      if cmd_is_link c then (set_need_link false (set_link (to_iobuf m) sb), PComplete)
      else (sb, PNeedMore)
    else if relative_path_attack m then (sb, PError)                   (* 186-187 *)
    else
      let sb := set_path (to_iobuf m) sb in
      if cmd_is_link c then (set_need_link true sb, PNeedMore)         (* 191-195 *)
      else if has_buf (s_datapth sb)
           then (sb, if s_hack sb then PComplete else PNeedMore)       (* 196-205 *)
      else (sb, PComplete)                                             (* 206 *)
  else if (c =? CMD_MESSAGE) || (c =? CMD_WARNING) then (sb, PNeedMore) (* 208-211 *)
  else if c =? CMD_GEN then (sb, if is_end_str (snd m) then PFinished else PError) (* 212-220 *)
  else if c =? CMD_MANIFEST then                                       (* 221-226 *)
    if relative_path_attack m then (sb, PError)
    else (set_path (to_iobuf m) sb, PComplete)
  else if c =? CMD_ERROR then (sb, PError)                             (* 227-229 *)
  else if c =? CMD_DATAPTH then                                        (* 230-243 *)
    if relative_path_attack m then (sb, PError)
    else
      let sb' := set_hack (s_hack sb) (sbuf_free_content sb) in
      (set_datapth (to_iobuf m) sb', PNeedMore)
  else if c =? CMD_END_FILE then                                       (* 244-255 *)
    let sb := set_endfile (to_iobuf m) sb in
    if negb (has_buf (s_attr sb)) || negb (has_buf (s_datapth sb))
       || (negb (cmd_is_filedata (icmd (s_path sb))) && negb (cmd_is_vssdata (icmd (s_path sb))))
    then (sb, PError) else (sb, PComplete)
  else (sb, PError).                                                   (* 256-258 *)

(* Where messages come from: asfd->read() (288) or iobuf_fill_from_fzp() (283).
   /repo/src/sbuf.c:283-288 *)
Inductive src (S : Type) := SMsg (m : Z * bytes) (s : S) | SEnd | SErr.
Arguments SMsg {S}. Arguments SEnd {S}. Arguments SErr {S}.

(* iobuf_fill_from_fzp(): /repo/src/iobuf.c:172-175 as a source. *)
Definition file_next (f : fstate) : src fstate :=
  match fill_from_fzp 1 f with FMsg m f' => SMsg m f' | FEnd => SEnd | FError => SErr end.

(* asfd->read(): the messages delivered (C10), then an error when the
   connection closes; /repo/src/sbuf.c:288-292. *)
Definition net_next (l : list (Z * bytes)) : src (list (Z * bytes)) :=
  match l with m :: r => SMsg m r | [] => SErr end.

(* Result of sbuf_fill(): 0, 1, -1.
   /repo/src/sbuf.c:264-312 *)
Inductive fillres (S : Type) := FillOk (sb : sbuf) (s : S) | FillEnd (sb : sbuf) | FillErr (sb : sbuf) | FillFuel.
Arguments FillOk {S}. Arguments FillEnd {S}. Arguments FillErr {S}. Arguments FillFuel {S}.

(* sbuf_fill(): /repo/src/sbuf.c:264-312.  One unit of fuel per message. *)
Fixpoint sbuf_fill {S} (next : S -> src S) (fuel : nat) (s : S) (sb : sbuf) : fillres S :=
  match fuel with
  | O => FillFuel
  | Datatypes.S fuel' =>
    match next s with
    | SEnd => FillEnd sb                 (* 283-284 *)
    | SErr => FillErr sb                 (* 283-284, 288-292 *)
    | SMsg m s' =>
      match parse_cmd sb m with
      | (sb', PNeedMore) => sbuf_fill next fuel' s' sb'
      | (sb', PComplete) => FillOk sb' s'
      | (sb', PFinished) => FillEnd sb'
      | (sb', PError) => FillErr sb'
      end
    end
  end.

(* A caller's loop: fill, use, sbuf_free_content(), until the end, as at
   /repo/src/server/manio.c:211-236 called from e.g.
   /repo/src/server/restore.c:470-487 and backup_phase4.c:676-696. *)
Fixpoint read_entries {S} (next : S -> src S) (n : nat) (fuel : nat) (s : S) : list sbuf * stop :=
  match n with
  | O => ([], OutOfFuel)
  | Datatypes.S n' =>
    match sbuf_fill next fuel s sbuf_alloc with
    | FillOk sb s' => let '(l, e) := read_entries next n' fuel s' in (sb :: l, e)
    | FillEnd _ => ([], Clean)
    | FillErr _ => ([], Broken)
    | FillFuel => ([], OutOfFuel)
    end
  end.

(* sbuf_to_manifest(): /repo/src/sbuf.c:90-110, as the list of messages
   written.  Only called with attr.buf set; an iobuf without buffer that is
   written unconditionally has length 0 and appears as an empty message. *)
Definition msg_of (b : iobuf) : Z * bytes :=
  (icmd b, match ibuf b with Some x => x | None => [] end).
(* /repo/src/sbuf.c:94-107 *)
Definition opt_msg (b : iobuf) : list (Z * bytes) := if has_buf b then [msg_of b] else [].
(* sbuf_to_manifest(): /repo/src/sbuf.c:90-110 *)
Definition sbuf_msgs (sb : sbuf) : list (Z * bytes) :=
  if negb (has_buf (s_path sb)) then []
  else opt_msg (s_datapth sb) ++ [msg_of (s_attr sb)] ++ [msg_of (s_path sb)]
       ++ opt_msg (s_link sb) ++ opt_msg (s_endfile sb).
Definition sbuf_to_manifest (sb : sbuf) : bytes * bool := write_all (sbuf_msgs sb).

(* Writing a list of entries one after the other to the same file, stopping at
   the first failure (manio_write_sbuf(), /repo/src/server/manio.c:238-242). *)
Fixpoint write_entries (l : list sbuf) : bytes * bool :=
  match l with
  | [] => ([], true)
  | sb :: r => match sbuf_to_manifest sb with
               | (w, true) => let '(w2, ok) := write_entries r in (w ++ w2, ok)
               | (w, false) => (w, false)
               end
  end.
