(* Model of authentication, client names and switching to another client:
   /repo/src/server/auth.c, /repo/src/conffile.c, /repo/src/prepend.c. *)
From Verif Require Import Bytes FrameModel DpthModel RestoreModel.

(* compare_password(): /repo/src/server/auth.c:20-62.  sleep_fails: nanosleep()
   gives an error.  Any non-zero result of strcmp() is 1. *)
Definition compare_password (sleep_fails : bool) (secret supplied : bytes) : Z :=
  if beqb secret supplied then 0
  else if sleep_fails then -1 else 1.

(* check_passwd(): /repo/src/server/auth.c:67-86.  have_crypt: built with
   HAVE_CRYPT, not on OpenBSD.  crypt: the library function; None is NULL. *)
Definition check_passwd (have_crypt : bool) (crypt : bytes -> bytes -> option bytes) (sleep_fails : bool)
  (passwd plain : bytes) : Z :=
  if have_crypt then
    if (List.length passwd <? 13)%nat then 0
    else match crypt plain passwd with
         | None => -1
         | Some encrypted => if compare_password sleep_fails passwd encrypted =? 0 then 1 else 0
         end
  else -1.

(* The settings used by check_client_and_password(), as loaded for the client. *)
Record aconf := mka { a_check : bool; a_passwd : option bytes; a_password : option bytes; a_keep : list bytes }.

(* check_client_and_password(): /repo/src/server/auth.c:88-143, after the
   client's configuration has been loaded; true is return value 0. *)
Definition check_client_and_password (have_crypt : bool) (crypt : bytes -> bytes -> option bytes) (sleep_fails : bool)
  (c : aconf) (password : bytes) : bool :=
  let pw_ok :=
    if a_check c then
      match a_password c, a_passwd c with
      | None, None => false                                                                 (* 117-121 *)
      | p, h =>
          (match p with
           | Some p => compare_password sleep_fails p password =? 0                         (* 123-127 *)
           | None => true
           end) &&
          (match h with
           | Some h => negb (check_passwd have_crypt crypt sleep_fails h password =? 0)     (* 129-133 *)
           | None => true
           end)
      end
    else true in
  pw_ok && match a_keep c with [] => false | _ => true end.                                 (* 136-141 *)

Definition has_byte (c : Z) (s : bytes) : bool := existsb (fun x => x =? c) s.

(* cname_valid(): /repo/src/conffile.c:1575-1585.  before: the byte in memory in
   front of the string, read at line 1582 when the string is empty. *)
Definition cname_valid (before : Z) (cname : bytes) : bool :=
  if (hd0 cname =? 46) || has_byte 47 cname || has_byte 92 cname || (List.last cname before =? 126)
  then false else true.

(* prepend_s(): /repo/src/prepend.c:7-58 *)
Definition prepend_s (prep fname : bytes) : bytes :=
  match prep with
  | [] => fname
  | _ =>
      let fname := if hd0 fname =? 47 then tl fname else fname in
      prep ++ (match fname with [] => [] | _ => [47] end) ++ fname
  end.

(* strip_fqdn(): /repo/src/handy.c:888-895 *)
Fixpoint strip_fqdn (s : bytes) : bytes :=
  match s with
  | [] => []
  | c :: r => if c =? 46 then [] else c :: strip_fqdn r
  end.
(* strlwr(): /repo/src/handy.c:881-886, in the C locale. *)
Definition tolower (c : Z) : Z := if (65 <=? c) && (c <=? 90) then c + 32 else c.
Definition strlwr (s : bytes) : bytes := map tolower s.

(* The name a connecting client gets: /repo/src/server/auth.c:217-224.  fqdn and
   lower are OPT_CNAME_FQDN and OPT_CNAME_LOWERCASE. *)
Definition client_name (fqdn lower : bool) (sent : bytes) : bytes :=
  let n := if fqdn then sent else strip_fqdn sent in
  if lower then strlwr n else n.

(* conf_load_clientconfdir(): /repo/src/conffile.c:1587-1607.  files: what
   conf_load_overrides() makes of the file at a path. *)
Definition load_clientconfdir {A : Type} (files : bytes -> option A) (dir : bytes) (before : Z) (cname : bytes) : option A :=
  if cname_valid before cname then files (prepend_s dir cname) else None.

(* The options of a client's configuration that matter for switching.
   /repo/src/conf.h:283-289 *)
Record perms := mkp { can_force : bool; can_delete : bool; can_diff : bool; can_list : bool;
                      can_monitor : bool; can_restore : bool; can_verify : bool }.
(* The same with the names and lists: /repo/src/conf.h:278-299, /repo/src/conffile.c:1625-1700 *)
Record cconf := mkc { c_name : bytes; c_perms : perms; c_super : list bytes; c_restore : list bytes;
                      c_connect : bytes; c_orig : option bytes }.

(* restore_client_allowed(): /repo/src/conffile.c:1627-1639 *)
Definition restore_client_allowed (c s : cconf) : Z :=
  if existsb (fun r => beqb r (c_name c)) (c_super s) then 2
  else if existsb (fun r => beqb r (c_name c)) (c_restore s) then 1
  else 0.

(* conf_switch_to_orig_client(): /repo/src/conffile.c:1641-1739.  load: the
   configuration loaded for a client name; None: -1.  Counters and the restore
   file path, which are carried over, are left out. *)
Definition switch_to (load : bytes -> option cconf) (c : cconf) (orig : bytes) : option cconf :=
  if beqb (c_name c) orig then Some c                                            (* 1649 *)
  else
    match load orig with
    | None => None                                                               (* 1659-1664 *)
    | Some s =>
        let me := c_perms c in
        let it := c_perms s in
        let finish p := Some (mkc orig p (c_super s) (c_restore s) (c_connect c) (Some orig)) in
        let r := restore_client_allowed c s in
        if r =? 1 then                                                           (* 1697-1713 *)
          finish (mkp false
            (if can_delete me then can_delete it else false)
            (if can_diff me then can_diff it else false)
            (if can_list me then can_list it else false)
            (if can_monitor me then can_monitor it else false)
            (if can_restore me then can_restore it else false)
            (if can_verify me then can_verify it else false))
        else if r =? 2 then                                                      (* 1682-1696 *)
          finish (mkp false (can_delete me) (can_diff me) (can_list me) (can_monitor me) (can_restore me) (can_verify me))
        else None
    end.

(* The loop over requests in extra_comms_read(), orig_client= only:
   /repo/src/server/extra_comms.c:230-414, 338-355.  A failed request ends the
   connection. *)
Fixpoint switches (load : bytes -> option cconf) (c : cconf) (reqs : list bytes) : option cconf :=
  match reqs with
  | [] => Some c
  | r :: rs => match switch_to load c r with Some c' => switches load c' rs | None => None end
  end.

(* run_child(): /repo/src/server/main.c:316-317, after authorise_server(): the
   name a connection ends up with.  The other reasons for refusal are left out. *)
Definition admitted_name (before : Z) (fqdn lower : bool) (sent : bytes) : option bytes :=
  let n := client_name fqdn lower sent in
  if cname_valid before n then match n with [] => None | _ => Some n end else None.

(* The name in an orig_client= request: /repo/src/server/extra_comms.c:338-343 *)
Definition orig_request (s : bytes) : option bytes :=
  if starts_with s (str "orig_client=") && (12 <? List.length s)%nat then Some (skipn 12 s) else None.
