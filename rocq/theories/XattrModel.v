(* Model of saving and restoring ACLs and extended attributes:
   /repo/src/client/xattr.c, /repo/src/client/acl.c, /repo/src/client/extrameta.c
   and their use at /repo/src/client/backup_phase1.c:76-89 and
   /repo/src/client/backup_phase2.c:281-321.  Failing allocations are left out. *)
From Verif Require Import Bytes CmdModel FrameModel DpthModel.

(* META_ACCESS_ACL ... META_XATTR_BSD: /repo/src/client/extrameta.h:7-11 *)
Definition META_ACCESS_ACL : Z := 65.
(* /repo/src/client/extrameta.h:8 *)
Definition META_DEFAULT_ACL : Z := 68.
(* /repo/src/client/extrameta.h:10 *)
Definition META_XATTR : Z := 88.
(* /repo/src/client/extrameta.h:11 *)
Definition META_XATTR_BSD : Z := 66.

(* maxlen: /repo/src/client/xattr.c:391, /repo/src/client/acl.c:115 *)
Definition maxlen : Z := 2147483647.
(* Length of a buffer as a number: the size_t of /repo/src/client/xattr.c:66 *)
Definition zlen (b : bytes) : Z := Z.of_nat (List.length b).

(* snprintf("%08X", n) of a uint32_t: /repo/src/client/xattr.c:70, 443, 444 *)
Definition fmt_08X (n : Z) : bytes :=
  let d := hex_digits 8 (n mod 2 ^ 32) [] in
  repeat 48 (8 - List.length d) ++ d.

(* The "%08X" of sscanf(): /repo/src/client/xattr.c:98, extrameta.c:102.  Blanks
   are skipped, a sign and 0x are accepted, at most eight characters. *)
Definition scan_08X (s : bytes) : option Z :=
  let s := skip_ws s in
  let '(neg, w, s) := take_sign 8 s in
  let '(w, s) := take_0x w s in
  match hex_run w s 0 false with
  | Some (v, _) => Some ((if (neg : bool) then - v else v) mod 2 ^ 32)
  | None => None
  end.

(* What the system answers about one file while it is being saved.
   k_acc, k_def: acl_contains_something() of the access and of the default ACL
   (None: nothing worth saving), and inside it acl_to_text() (None: it failed):
   /repo/src/client/acl.c:67-87, 117.
   k_len: llistxattr(path, NULL, 0); k_list: llistxattr(path, buf, len):
   /repo/src/client/xattr.c:488-499.  k_size, k_val: the two lgetxattr():
   /repo/src/client/xattr.c:414, 425.  None is a negative result. *)
Record kern := mkkern {
  k_acc : option (option bytes); k_def : option (option bytes);
  k_len : option Z; k_list : option bytes;
  k_size : bytes -> option Z; k_val : bytes -> option bytes }.

(* Result of collecting: a memory error, or the text so far (None is NULL). *)
Inductive got := GUB | GGot (t : option bytes).
(* The bytes of a text that may be NULL: /repo/src/prepend.c:7-28 with plen 0 *)
Definition text (t : option bytes) : bytes := match t with Some b => b | None => [] end.

(* get_acl_string(): /repo/src/client/acl.c:106-141 *)
Definition get_acl_string (t : option bytes) (acl : option bytes) (type : Z) : option bytes :=
  match acl with
  | None => t                                                            (* 117-121 *)
  | Some a => if maxlen <? zlen a then t                                 (* 125-129 *)
              else Some (text t ++ type :: fmt_08X (zlen a) ++ a)        (* 131-134 *)
  end.
(* get_acl(): /repo/src/client/acl.c:143-170 *)
Definition get_acl (k : kern) (isdir : bool) : option bytes :=
  let t := match k_acc k with Some a => get_acl_string None a META_ACCESS_ACL | None => None end in
  if isdir then match k_def k with Some a => get_acl_string t a META_DEFAULT_ACL | None => t end
  else t.

(* in_skiplist(): /repo/src/client/xattr.c:41-45, 57-63 (Linux) *)
Definition in_skiplist (z : bytes) : bool :=
  beqb z (str "system.posix_acl_access") || beqb z (str "system.posix_acl_default").

(* The value that is read for one name: /repo/src/client/xattr.c:414-432.
   None: go on with the next name. *)
Definition get_value (k : kern) (z : bytes) : option bytes :=
  match k_size k z with
  | None => None
  | Some n => if n <=? 0 then Some []
              else match k_val k z with Some v => Some (firstn (Z.to_nat n) v) | None => None end
  end.

(* Is there a NUL for strlen() to stop at: /repo/src/client/xattr.c:403, 393 *)
Fixpoint has_nul (b : bytes) : bool :=
  match b with [] => false | x :: r => if x =? 0 then true else has_nul r end.

(* get_toappend(): /repo/src/client/xattr.c:383-476.  [buf] is what is left of
   the list buffer from z on, [left] is len-(z-xattrlist).  newlen is a uint32_t:
   when it wraps the block is too small for what is copied into it.
   Lists of 4 GiB and more are left out (zlen is a uint32_t). *)
Fixpoint get_toappend (fuel : nat) (k : kern) (have_acl : bool) (buf : bytes) (left : Z)
         (acc : option bytes) : got :=
  match fuel with
  | O => GGot acc
  | S fuel =>
    if left <=? 0 then GGot acc                                          (* 393 *)
    else if negb (has_nul buf) then GUB
    else
      let z := cview buf in
      let n := S (List.length z) in
      let next := get_toappend fuel k have_acl (skipn n buf) (left - Z.of_nat n) in
      if maxlen <? zlen z then GGot None                                 (* 403-409 *)
      else if have_acl && in_skiplist z then next acc                    (* 411-412 *)
      else match get_value k z with
      | None => next acc                                                 (* 414-431 *)
      | Some v =>
        if maxlen <? zlen v then GGot None                               (* 434-440 *)
        else
          let tot := zlen (text acc) + 8 + zlen z + 8 + zlen v in
          if negb (tot mod 2 ^ 32 =? tot) then GUB                       (* 445-446 *)
          else
            let a := text acc ++ fmt_08X (zlen z) ++ z ++ fmt_08X (zlen v) ++ v in
            if maxlen <? tot then GGot None                              (* 457-463 *)
            else next (Some a)
      end
  end.

(* append_to_extrameta(): /repo/src/client/xattr.c:65-81 *)
Definition append_to_extrameta (toappend : bytes) (sym : Z) (t : option bytes) : option bytes :=
  Some (text t ++ sym :: fmt_08X (zlen toappend) ++ toappend).

(* get_xattr(): /repo/src/client/xattr.c:478-527.  The buffer has the length of
   the first answer; what the second leaves of it is zero (calloc). *)
Definition get_xattr (k : kern) (t : option bytes) : got :=
  match k_len k, k_list k with
  | Some n, Some l =>
    let have_acl := match t with Some _ => true | None => false end in   (* 506-511 *)
    match get_toappend (S (List.length l)) k have_acl
            (l ++ repeat 0 (Z.to_nat (n - zlen l))) (zlen l) None with
    | GUB => GUB
    | GGot None => GGot t
    | GGot (Some a) => GGot (append_to_extrameta a META_XATTR t)         (* 520-522 *)
    end
  | _, _ => GGot t                                                       (* 488-504 *)
  end.

(* get_extrameta(): /repo/src/client/extrameta.c:39-73, on Linux with ACLs and
   extended attributes compiled in. *)
Definition get_extrameta (k : kern) (isdir : bool) : got := get_xattr k (get_acl k isdir).

(* has_acl(): /repo/src/client/acl.c:89-104 *)
Definition has_acl (k : kern) (cmd : Z) : bool :=
  match k_acc k with
  | Some _ => true
  | None => (cmd =? CMD_DIRECTORY) && match k_def k with Some _ => true | None => false end
  end.
(* has_xattr(): /repo/src/client/xattr.c:377-381 *)
Definition has_xattr (k : kern) : bool := match k_len k with Some n => 0 <? n | None => false end.
(* has_extrameta(): /repo/src/client/extrameta.c:12-37 *)
Definition has_extrameta (k : kern) (cmd : Z) (enable_acl enable_xattr : bool) : bool :=
  (enable_acl && has_acl k cmd) || (enable_xattr && has_xattr k).

(* What is saved of one file: it is announced in the scan
   (/repo/src/client/backup_phase1.c:76-89) and collected when it is asked for
   (/repo/src/client/backup_phase2.c:281-321; "No meta data after all" is None). *)
Definition saved (k k2 : kern) (cmd : Z) (enable_acl enable_xattr : bool) : got :=
  if has_extrameta k cmd enable_acl enable_xattr then get_extrameta k2 (cmd =? CMD_DIRECTORY)
  else GGot None.

(* What is asked of the system while restoring: acl_from_text() to acl_set_file()
   of /repo/src/client/acl.c:172-203 (one request; access false, default true) and
   lsetxattr() of /repo/src/client/xattr.c:552. *)
Inductive ask := AAcl (default : bool) (t : bytes) | AXattr (name value : bytes)
  | AExt (nspace name value : bytes).
(* Does a request succeed, after the requests made before it (last first). *)
Definition answers := list ask -> ask -> bool.

(* memcpy() of n bytes out of a buffer of the given bytes and a NUL:
   /repo/src/client/xattr.c:114, extrameta.c:120.  None: it reads past the end. *)
Definition copy (n : Z) (b : bytes) : option bytes :=
  if n <=? zlen b + 1 then Some (firstn (Z.to_nat n) (b ++ [0])) else None.

(* Result of taking one string: a memory error, a failure, or the string, what
   is left and its length s (the length given to lsetxattr). *)
Inductive next := NUB | NFail | NStr (v : bytes) (rest : bytes).

(* get_next_xattr_str(): /repo/src/client/xattr.c:86-121 *)
Definition get_next_xattr_str (data : bytes) : next :=
  if zlen data <? 8 then NFail                                           (* 91-96 *)
  else match scan_08X (cview data) with
  | None => NFail                                                        (* 98-103 *)
  | Some s =>
    let data := skipn 8 data in
    if zlen data <? s then NFail                                         (* 106-111 *)
    else match copy s data with
    | None => NUB
    | Some v => NStr v (skipn (Z.to_nat s) data)
    end
  end.

(* Requests made so far (last first) and the result: a memory error, or the
   returned number. *)
Inductive put := PUB (log : list ask) | PDone (ret : Z) (log : list ask).

(* do_set_xattr(): /repo/src/client/xattr.c:529-565 *)
Fixpoint do_set_xattr (fuel : nat) (ans : answers) (data : bytes) (log : list ask) : put :=
  match fuel with
  | O => PDone 0 log
  | S fuel =>
    if zlen data <=? 0 then PDone 0 log
    else match get_next_xattr_str data with
    | NUB => PUB log
    | NFail => PDone (-1) log
    | NStr name data =>
      match get_next_xattr_str data with
      | NUB => PUB log
      | NFail => PDone (-1) log
      | NStr value data =>
        let a := AXattr (cview name) value in
        if ans log a then do_set_xattr fuel ans data (a :: log) else PDone (-1) (a :: log)
      end
    end
  end.
(* set_xattr(): /repo/src/client/xattr.c:567-581, only called with META_XATTR *)
Definition set_xattr (ans : answers) (m : bytes) (log : list ask) : put :=
  do_set_xattr (S (List.length m)) ans m log.

(* set_acl(): /repo/src/client/acl.c:172-221 *)
Definition set_acl (ans : answers) (default : bool) (m : bytes) (log : list ask) : put :=
  let a := AAcl default (cview m) in
  PDone (if ans log a then 0 else -1) (a :: log).

(* One entry of the metadata: /repo/src/client/extrameta.c:126-177 (Linux) *)
Definition set_one (ans : answers) (c : Z) (m : bytes) (log : list ask) : put :=
  if c =? META_ACCESS_ACL then set_acl ans false m log
  else if c =? META_DEFAULT_ACL then set_acl ans true m log
  else if c =? META_XATTR then set_xattr ans m log
  else PDone (-1) log.

(* The loop of set_extrameta(): /repo/src/client/extrameta.c:92-179.  [handle]
   is the switch at 126-177. *)
Fixpoint set_loop (handle : Z -> bytes -> list ask -> put) (fuel : nat) (data : bytes) (errors : Z)
         (log : list ask) : put :=
  match fuel with
  | O => PDone errors log
  | S fuel =>
    if zlen data <=? 0 then PDone errors log                             (* 92 *)
    else if zlen data <? 9 then PDone (-1) log                           (* 95-101 *)
    else match cview data with
    | [] => PDone (-1) log                                               (* 102-108 *)
    | c :: r =>
      match scan_08X r with
      | None => PDone (-1) log
      | Some s =>
        let data := skipn 9 data in
        if zlen data <? s then PDone (-1) log                            (* 111-117 *)
        else match copy s data with
        | None => PUB log
        | Some m =>
          match handle c m log with
          | PUB log => PUB log
          | PDone e log =>
            set_loop handle fuel (skipn (Z.to_nat s) data)
                     (if e =? 0 then errors else errors + 1) log
          end
        end
      end
    end
  end.
(* set_extrameta(): /repo/src/client/extrameta.c:75-180 (Linux) *)
Definition set_extrameta (ans : answers) (data : bytes) : put :=
  set_loop (set_one ans) (S (List.length data)) data 0 [].

(* The systems with extattr(): /repo/src/client/xattr.c:123-373.
   What they answer for one namespace: b_len and b_list are the two
   extattr_list_link() at 158 and 173 (each name is preceded by one byte with
   its length), b_val is the whole value of an attribute; extattr_get_link()
   gives as much of it as there is room for. *)
Record bsd := mkbsd { b_name : bytes; b_len : option Z; b_list : option bytes;
                      b_val : bytes -> option bytes }.

(* in_skiplist(): /repo/src/client/xattr.c:46-49, 57-63 (FreeBSD) *)
Definition in_skiplist_bsd (z : bytes) : bool := beqb z (str "system.posix1e.acl_access").

(* The loop over the names: /repo/src/client/xattr.c:191-275.  char is signed:
   a length byte above 127 makes cnt negative and strncpy() write without
   limit.  The room for the value is the length of the list of names (213-228).
   BGo: go on; BStop: return. *)
Inductive bgot := BUB | BGo (t : option bytes) | BStop.
Fixpoint bsd_names (fuel : nat) (b : bsd) (have_acl : bool) (len : Z) (list : bytes)
         (acc : option bytes) : bgot :=
  match fuel with
  | O => BGo acc
  | S fuel =>
    match list with
    | [] => BGo acc                                                      (* 191 *)
    | c :: r =>
      if schar c <? 0 then BUB                                           (* 200-204 *)
      else
        let cattrname := cview (firstn (Z.to_nat c) r) in
        let z := b_name b ++ dot :: cattrname in                         (* 205-206 *)
        let next := bsd_names fuel b have_acl len (skipn (Z.to_nat c) r) in
        if have_acl && in_skiplist_bsd z then next acc                   (* 208-209 *)
        else match b_val b cattrname with
        | None => next acc                                               (* 227-233 *)
        | Some v =>
          let v := firstn (Z.to_nat len) v in                            (* 213-228 *)
          let a := text acc ++ fmt_08X (zlen z) ++ z ++ fmt_08X (zlen v) ++ v in
          if maxlen <? zlen a then BStop                                 (* 265-274 *)
          else next (Some a)
        end
    end
  end.
(* get_xattr(): /repo/src/client/xattr.c:141-292, the loop over the namespaces *)
Fixpoint get_xattr_bsd (l : list bsd) (t : option bytes) : got :=
  match l with
  | [] => GGot t
  | b :: r =>
    match b_len b with
    | None => GGot t                                                     (* 158-163 *)
    | Some n =>
      if n =? 0 then get_xattr_bsd r t                                   (* 164 *)
      else match b_list b with
      | None => GGot t                                                   (* 173-179 *)
      | Some [] => GGot t
      | Some names =>
        match bsd_names (S (List.length names)) b
                (match t with Some _ => true | None => false end) (zlen names) names None with
        | BUB => GUB
        | BStop => GGot t
        | BGo None => get_xattr_bsd r t
        | BGo (Some a) => get_xattr_bsd r (append_to_extrameta a META_XATTR_BSD t)
        end
      end
    end
  end.

(* strchr(nspace, '.'): /repo/src/client/xattr.c:319.  The two parts. *)
Fixpoint split_dot (b : bytes) : option (bytes * bytes) :=
  match b with
  | [] => None
  | x :: r => if x =? dot then Some ([], r)
              else match split_dot r with Some (p, q) => Some (x :: p, q) | None => None end
  end.
(* do_set_xattr_bsd(): /repo/src/client/xattr.c:294-356.  The request stands for
   extattr_string_to_namespace() and extattr_set_link(). *)
Fixpoint do_set_xattr_bsd (fuel : nat) (ans : answers) (data : bytes) (log : list ask) : put :=
  match fuel with
  | O => PDone 0 log
  | S fuel =>
    if zlen data <=? 0 then PDone 0 log
    else match get_next_xattr_str data with
    | NUB => PUB log
    | NFail => PDone (-1) log
    | NStr nspace data =>
      match get_next_xattr_str data with
      | NUB => PUB log
      | NFail => PDone (-1) log
      | NStr value data =>
        match split_dot (cview nspace) with
        | None => PDone (-1) log
        | Some (ns, name) =>
          let a := AExt ns name value in
          if ans log a then do_set_xattr_bsd fuel ans data (a :: log) else PDone (-1) (a :: log)
        end
      end
    end
  end.
(* The switch: /repo/src/client/extrameta.c:126-177 (FreeBSD, NetBSD) *)
Definition set_one_bsd (ans : answers) (c : Z) (m : bytes) (log : list ask) : put :=
  if c =? META_ACCESS_ACL then set_acl ans false m log
  else if c =? META_DEFAULT_ACL then set_acl ans true m log
  else if c =? META_XATTR_BSD then do_set_xattr_bsd (S (List.length m)) ans m log
  else PDone (-1) log.
(* get_extrameta() and set_extrameta(): /repo/src/client/extrameta.c:39-180
   (FreeBSD, NetBSD) *)
Definition get_extrameta_bsd (k : kern) (l : list bsd) (isdir : bool) : got :=
  get_xattr_bsd l (get_acl k isdir).
(* /repo/src/client/extrameta.c:75-180 *)
Definition set_extrameta_bsd (ans : answers) (data : bytes) : put :=
  set_loop (set_one_bsd ans) (S (List.length data)) data 0 [].
