(* Model of the checks of the settings of a program after they were read:
   /repo/src/conffile.c:424-757, 1129-1152, 1265-1294. *)
From Verif Require Import Bytes PathcmpModel RestoreModel AuthModel BuModel TimerModel.

(* BURP_MODE_...: /repo/src/burp.h, as read at /repo/src/conffile.c:1277 *)
Inductive bmode := MUnset | MServer | MClient.
(* The settings that are looked at.  None: not set.  g_recovery says whether
   working_dir_recovery_method is set, g_keep whether there is a keep value.
   /repo/src/conffile.c:439-757 *)
Record gconf := mkg {
  g_mode : bmode; g_lockfile : option bytes; g_pidfile : option bytes; g_cert : option bytes; g_cert_ca : option bytes;
  g_key : option bytes; g_key_pw : option bytes;
  (* server *)
  g_dir : option bytes; g_dedup : option bytes; g_ccd : option bytes; g_recovery : bool; g_dh : option bytes;
  g_encpw : option bytes; g_keep : bool; g_hardlinks : Z; g_subdirs : Z; g_stamp : option bytes;
  g_ca_conf : option bytes; g_ca_name : option bytes; g_ca_server : option bytes; g_burp_ca : option bytes; g_manual : option bytes;
  (* client *)
  g_cname : option bytes; g_fqdn : bool; g_lower : bool; g_password : option bytes; g_server : option bytes;
  g_peer : option bytes; g_os : option bytes; g_csr_dir : option bytes }.

(* What is found in the certificate, if there is one that can be opened; and the name
   of the host: /repo/src/conffile.c:559-602, 609-661.  Running out of memory left out. *)
Inductive cert := NoCert | BadCert | CertName (cn : bytes).

(* !get_string(): /repo/src/conffile.c:442 *)
Definition unset (o : option bytes) : bool := match o with None => true | Some _ => false end.
(* conf_problem(): /repo/src/conffile.c:424-428 *)
Definition problem (b : bool) (r : Z) : Z := if b then r - 1 else r.

(* confs_get_lockfile(): /repo/src/conffile.c:663-668 *)
Definition get_lockfile (c : gconf) : option bytes := match g_lockfile c with Some l => Some l | None => g_pidfile c end.
(* general_conf_checks(): /repo/src/conffile.c:670-679 *)
Definition general_checks (c : gconf) (r : Z) : Z :=
  problem (unset (g_cert_ca c)) (problem (unset (g_cert c)) (problem (unset (get_lockfile c)) r)).

(* DEFAULT_TIMESTAMP_FORMAT: /repo/src/times.h:7 *)
Definition default_stamp : bytes := str "%Y-%m-%d %H:%M:%S %z".
(* What set_string() leaves: /repo/src/conffile.c:462-464 *)
Definition set_stamp (s : option bytes) (c : gconf) : gconf :=
  mkg (g_mode c) (g_lockfile c) (g_pidfile c) (g_cert c) (g_cert_ca c) (g_key c) (g_key_pw c)
    (g_dir c) (g_dedup c) (g_ccd c) (g_recovery c) (g_dh c) (g_encpw c) (g_keep c) (g_hardlinks c) (g_subdirs c) s
    (g_ca_conf c) (g_ca_name c) (g_ca_server c) (g_burp_ca c) (g_manual c)
    (g_cname c) (g_fqdn c) (g_lower c) (g_password c) (g_server c) (g_peer c) (g_os c) (g_csr_dir c).
(* The errors with a certificate authority: /repo/src/conffile.c:465-514 *)
Definition ca_err (c : gconf) : Z :=
  let n := 0 in
  let n := if unset (g_ca_name c) then n + 1 else n in
  let n := if unset (g_ca_server c) then n + 1 else n in
  let n := match g_ca_name c, g_ca_server c with Some a, Some b => if beqb a b then n + 1 else n | _, _ => n end in
  let n := if unset (g_burp_ca c) then n + 1 else n in
  let n := if unset (g_dh c) then n + 1 else n in
  let n := if unset (g_cert_ca c) then n + 1 else n in
  let n := if unset (g_cert c) then n + 1 else n in
  if unset (g_key c) then n + 1 else n.
(* server_conf_checks(): /repo/src/conffile.c:439-525.  What is returned (0 is true),
   r, and the settings afterwards. *)
Definition server_checks (c : gconf) (r : Z) : bool * Z * gconf :=
  let r := problem (unset (g_dir c)) r in
  let r := problem (unset (g_dedup c)) r in
  let r := problem (unset (g_ccd c)) r in
  let r := problem (negb (g_recovery c)) r in
  let r := problem (unset (g_dh c)) r in
  let r := problem (negb (unset (g_encpw c))) r in
  let r := problem (negb (g_keep c)) r in
  let r := problem (g_hardlinks c <? 2) r in
  let r := problem (g_subdirs c <=? 1000) r in
  let c := if unset (g_stamp c) then set_stamp (Some default_stamp) c else c in
  if negb (unset (g_ca_conf c)) && negb (ca_err c =? 0) then (false, r, c)
  else match g_manual c with
  | Some m => (is_absolute m, r, c)
  | None => (true, r, c)
  end.

(* mangle_cname(): /repo/src/conffile.c:551-557 *)
Definition mangle (c : gconf) (n : bytes) : bytes :=
  let n := if negb (g_fqdn c) then strip_fqdn n else n in
  if g_lower c then strlwr n else n.
(* The string up to a colon: /repo/src/conffile.c:716-720 *)
Fixpoint to_colon (s : bytes) : bytes := match s with [] => [] | x :: r => if x =? 58 then [] else x :: to_colon r end.
(* What set_string() leaves on a client: /repo/src/conffile.c:590, 652, 704, 722 *)
Definition set_client (cn pw peer : option bytes) (c : gconf) : gconf :=
  mkg (g_mode c) (g_lockfile c) (g_pidfile c) (g_cert c) (g_cert_ca c) (g_key c) (g_key_pw c)
    (g_dir c) (g_dedup c) (g_ccd c) (g_recovery c) (g_dh c) (g_encpw c) (g_keep c) (g_hardlinks c) (g_subdirs c) (g_stamp c)
    (g_ca_conf c) (g_ca_name c) (g_ca_server c) (g_burp_ca c) (g_manual c)
    cn (g_fqdn c) (g_lower c) pw (g_server c) peer (g_os c) (g_csr_dir c).
(* The name of the client: /repo/src/conffile.c:687-700.  None: an error. *)
Definition find_cname (x : cert) (host : option bytes) (c : gconf) : option bytes :=
  match g_cname c with
  | Some n => Some n
  | None =>
    let x := match g_cert c with Some _ => x | None => NoCert end in       (* 569 *)
    match x with
    | CertName n => Some (mangle c n)
    | BadCert => None
    | NoCert => match host with Some h => Some (mangle c h) | None => None end
    end
  end.
(* client_conf_checks(): /repo/src/conffile.c:681-757.  The listing at 742-751 is never
   made: r is a pointer that is not NULL. *)
Definition client_checks (x : cert) (host : option bytes) (c : gconf) (r : Z) : bool * Z * gconf :=
  match find_cname x host c with
  | None => (false, r, c)
  | Some cn =>
    let pw := match g_password c with Some p => p | None => str "password" end in
    let r := problem (unset (g_server c)) r in
    let peer := match g_peer c with
                | Some p => Some p
                | None => match g_server c with Some s => Some (to_colon s) | None => None end
                end in
    let r := problem match g_os c with Some o => strstr o (str "..") | None => false end r in
    let r := if unset (g_burp_ca c) then r else
      problem (unset (g_key c)) (problem (unset (g_cert c)) (problem (unset (g_cert_ca c)) (problem (unset (g_csr_dir c)) r))) in
    (true, r, set_client (Some cn) (Some pw) peer c)
  end.

(* What set_string() leaves: /repo/src/conffile.c:1271-1273 *)
Definition set_key_pw (s : option bytes) (c : gconf) : gconf :=
  mkg (g_mode c) (g_lockfile c) (g_pidfile c) (g_cert c) (g_cert_ca c) (g_key c) s
    (g_dir c) (g_dedup c) (g_ccd c) (g_recovery c) (g_dh c) (g_encpw c) (g_keep c) (g_hardlinks c) (g_subdirs c) (g_stamp c)
    (g_ca_conf c) (g_ca_name c) (g_ca_server c) (g_burp_ca c) (g_manual c)
    (g_cname c) (g_fqdn c) (g_lower c) (g_password c) (g_server c) (g_peer c) (g_os c) (g_csr_dir c).
(* conf_finalise_global_only(): /repo/src/conffile.c:1265-1294 *)
Definition finalise_global (x : cert) (host : option bytes) (c : gconf) : Z * gconf :=
  let c := if unset (g_key_pw c) then set_key_pw (Some []) c else c in
  let r := general_checks c 0 in
  match g_mode c with
  | MServer => let '(ok, r, c) := server_checks c r in (if (ok : bool) then r else r - 1, c)
  | MClient => let '(ok, r, c) := client_checks x host c r in (if (ok : bool) then r else r - 1, c)
  | MUnset => (r - 1, c)
  end.

(* The ports of a client for what it can do: /repo/src/conffile.c:1140-1149 *)
Record ports := mkports { p_backup : Z; p_restore : Z; p_verify : Z; p_list : Z; p_delete : Z }.
(* finalise_client_ports(): /repo/src/conffile.c:1129-1152 *)
Definition client_ports (port : list bytes) (p : ports) : ports :=
  let n := fold_left (fun _ x => atoi x) port 0 in
  if n =? 0 then p
  else
    let dft v d := if v =? 0 then d else v in
    let restore := dft (p_restore p) n in
    mkports (dft (p_backup p) n) restore (dft (p_verify p) restore) (dft (p_list p) n) (dft (p_delete p) n).
