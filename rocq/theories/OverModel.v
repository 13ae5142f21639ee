(* Model of the settings in force on the server for one client: those of the
   server's configuration file, overridden by the client's own file in
   clientconfdir, and then by the command line of the server:
   /repo/src/conffile.c:152-161, 1037-1053, 1154-1263, 1296-1319, 1435-1607,
   /repo/src/conf.c:353-830.  Running out of memory is left out. *)
From Verif Require Import Bytes PathcmpModel BuModel AuthModel ConfModel IncexcModel.

(* An option with the flags CONF_FLAG_CC_OVERRIDE and CONF_FLAG_STRLIST_REPLACE:
   /repo/src/conf.h:4-8 *)
Definition row (f : String.string) (inc res srt : bool) (v : cval) (over repl : bool) : opt * (bool * bool) :=
  (mkopt (str f) inc res srt v, (over, repl)).
(* reset_conf(): /repo/src/conf.c:351-837, in the order of the source.  Of the float,
   the mode, the umask, the recovery method and the hash only the text last given
   is kept. *)
Definition full : list (opt * (bool * bool)) :=
  [
    row "mode" false false false (VOther []) false false;
    row "lockfile" false false false (VStr None) false false;
    row "pidfile" false false false (VStr None) false false;
    row "ssl_cert_ca" false false false (VStr None) false false;
    row "ssl_cert" false false false (VStr None) false false;
    row "ssl_key" false false false (VStr None) false false;
    row "ssl_key_password" false false false (VStr None) false false;
    row "ssl_peer_cn" false false false (VStr None) false false;
    row "ssl_ciphers" false false false (VStr None) false false;
    row "ssl_compression" false false false (VInt 5) false false;
    row "ssl_verify_peer_early" false false false (VInt 0) false false;
    row "ratelimit" false false false (VOther []) false false;
    row "network_timeout" false false false (VInt 7200) false false;
    row "client_is_windows" false false false (VInt 0) false false;
    row "peer_version" false false false (VStr None) false false;
    row "port" false false false (VList []) false false;
    row "status_port" false false false (VList []) false false;
    row "listen" false false false (VList []) false false;
    row "listen_status" false false false (VList []) false false;
    row "network_allow" false false false (VList []) true true;
    row "network_allow_status" false false false (VList []) true true;
    row "port_backup" false false false (VInt 0) false false;
    row "port_restore" false false false (VInt 0) false false;
    row "port_verify" false false false (VInt 0) false false;
    row "port_list" false false false (VInt 0) false false;
    row "port_delete" false false false (VInt 0) false false;
    row "ssl_dhfile" false false false (VStr None) false false;
    row "max_children" false false false (VList []) false false;
    row "max_status_children" false false false (VList []) false false;
    row "max_parallel_backups" false false false (VInt 0) true false;
    row "client_lockdir" false false false (VStr None) true false;
    row "umask" false false false (VOther []) false false;
    row "max_hardlinks" false false false (VInt 10000) false false;
    row "max_storage_subdirs" false false false (VInt 30000) false false;
    row "daemon" false false false (VInt 1) false false;
    row "ca_conf" false false false (VStr None) false false;
    row "ca_name" false false false (VStr None) false false;
    row "ca_server_name" false false false (VStr None) false false;
    row "ca_burp_ca" false false false (VStr None) false false;
    row "ca_crl" false false false (VStr None) false false;
    row "ca_crl_check" false false false (VInt 0) false false;
    row "rblk_memory_max" false false false (VU64 268435456) true false;
    row "sparse_size_max" false false false (VU64 268435456) true false;
    row "monitor_logfile" false false false (VStr None) false false;
    row "monitor_exe" false false false (VStr None) false false;
    row "" false false false (VInt 0) false false;
    row "cname" false false false (VStr None) false false;
    row "cname_lowercase" false false false (VInt 0) false false;
    row "cname_fqdn" false false false (VInt 1) false false;
    row "password" false false false (VStr None) false false;
    row "passwd" false false false (VStr None) false false;
    row "server" false false false (VStr None) false false;
    row "server_failover" false false false (VList []) false false;
    row "failover_on_backup_error" false false false (VInt 0) false false;
    row "encryption_password" false false false (VStr None) false false;
    row "autoupgrade_os" false false false (VStr None) false false;
    row "autoupgrade_dir" false false false (VStr None) false false;
    row "ca_csr_dir" false false false (VStr None) false false;
    row "randomise" false false false (VInt 0) false false;
    row "restore_list" false false false (VStr None) false false;
    row "enabled" false false false (VInt 1) true false;
    row "server_can_override_includes" false false false (VInt 1) false false;
    row "backup" false true false (VStr None) false false;
    row "backup2" false false false (VStr None) false false;
    row "restoreprefix" false true false (VStr None) false false;
    row "stripfrompath" false true false (VStr None) false false;
    row "browsefile" false false false (VStr None) false false;
    row "browsedir" false false false (VStr None) false false;
    row "glob_after_script_pre" false false false (VInt 1) false false;
    row "backup_script_pre" false false false (VStr None) false false;
    row "backup_script_pre_arg" false false false (VList []) false false;
    row "backup_script_post" false false false (VStr None) false false;
    row "backup_script_post_arg" false false false (VList []) false false;
    row "backup_script_post_run_on_fail" false false false (VInt 0) false false;
    row "backup_script_reserved_args" false false false (VInt 1) false false;
    row "restore_script_pre" false false false (VStr None) false false;
    row "restore_script_pre_arg" false false false (VList []) false false;
    row "restore_script_post" false false false (VStr None) false false;
    row "restore_script_post_arg" false false false (VList []) false false;
    row "restore_script_post_run_on_fail" false false false (VInt 0) false false;
    row "backup_script" false false false (VStr None) false false;
    row "backup_script_arg" false false false (VList []) false false;
    row "restore_script" false false false (VStr None) false false;
    row "restore_script_arg" false false false (VList []) false false;
    row "restore_script_reserved_args" false false false (VInt 1) false false;
    row "send_client_cntr" false false false (VInt 0) false false;
    row "" false false false (VStr None) false false;
    row "restore_path" false false false (VStr None) false false;
    row "orig_client" false true false (VStr None) false false;
    row "" false false false (VStr None) false false;
    row "" false false false (VOther []) false false;
    row "" false false false (VInt 2) false false;
    row "readall" false false false (VInt 0) true false;
    row "breakpoint" false false false (VInt 0) true false;
    row "conffile" false false false (VStr None) true false;
    row "syslog" false false false (VInt 0) true false;
    row "stdout" false false false (VInt 1) true false;
    row "progress_counter" false false false (VInt 0) true false;
    row "user" false false false (VStr None) true false;
    row "group" false false false (VStr None) true false;
    row "directory" false false false (VStr None) true false;
    row "timestamp_format" false false false (VStr None) true false;
    row "clientconfdir" false false false (VStr None) true false;
    row "fork" false false false (VInt 1) false false;
    row "directory_tree" false false false (VInt 1) true false;
    row "password_check" false false false (VInt 1) true false;
    row "manual_delete" false false false (VStr None) true false;
    row "monitor_browse_cache" false false false (VInt 0) true false;
    row "server_script_pre" false false false (VStr None) true false;
    row "server_script_pre_arg" false false false (VList []) true true;
    row "server_script_pre_notify" false false false (VInt 0) true false;
    row "server_script_post" false false false (VStr None) true false;
    row "server_script_post_arg" false false false (VList []) true true;
    row "server_script_post_run_on_fail" false false false (VInt 0) true false;
    row "server_script_post_notify" false false false (VInt 0) true false;
    row "server_script" false false false (VStr None) true false;
    row "server_script_arg" false false false (VList []) true true;
    row "server_script_notify" false false false (VInt 0) true false;
    row "hardlinked_archive" false false false (VInt 0) true false;
    row "keep" false false false (VList []) true true;
    row "librsync" false false false (VInt 1) true false;
    row "librsync_max_size" false false false (VU64 0) true false;
    row "compression" false false false (VInt 9) true false;
    row "version_warn" false false false (VInt 1) true false;
    row "path_length_warn" false false false (VInt 1) true false;
    row "hard_quota" false false false (VU64 0) true false;
    row "soft_quota" false false false (VU64 0) true false;
    row "timer_script" false false false (VStr None) true false;
    row "timer_arg" false false false (VList []) true true;
    row "timer_repeat_interval" false false false (VInt 0) true false;
    row "label" false false false (VList []) true true;
    row "notify_success_script" false false false (VStr None) true false;
    row "notify_success_arg" false false false (VList []) true true;
    row "notify_success_warnings_only" false false false (VInt 0) true false;
    row "notify_success_changes_only" false false false (VInt 0) true false;
    row "notify_failure_script" false false false (VStr None) true false;
    row "notify_failure_arg" false false false (VList []) true true;
    row "notify_failure_on_backup_with_failovers_left" false false false (VInt 1) true false;
    row "notify_failure_on_backup_working_dir_deletion" false false false (VInt 0) true false;
    row "restore_client" false false true (VList []) true false;
    row "super_client" false false true (VList []) true false;
    row "dedup_group" false false false (VStr None) true false;
    row "client_can_delete" false false false (VInt 1) true false;
    row "client_can_diff" false false false (VInt 1) true false;
    row "client_can_force_backup" false false false (VInt 1) true false;
    row "client_can_list" false false false (VInt 1) true false;
    row "client_can_monitor" false false false (VInt 1) true false;
    row "client_can_restore" false false false (VInt 1) true false;
    row "client_can_verify" false false false (VInt 1) true false;
    row "server_can_restore" false false false (VInt 1) true false;
    row "working_dir_recovery_method" false false false (VOther (str "delete")) true false;
    row "max_resume_attempts" false false false (VInt 0) true false;
    row "fail_on_warning" false false false (VInt 0) true false;
    row "" false false false (VOther []) true false;
    row "" false false false (VInt 0) true false;
    row "incexcdir" false false true (VList []) false false;
    row "startdir" false false false (VList []) false false;
    row "include" true true true (VList []) false false;
    row "exclude" true true true (VList []) false false;
    row "cross_filesystem" true false true (VList []) false false;
    row "nobackup" true false true (VList []) false false;
    row "include_ext" true false true (VList []) false false;
    row "exclude_ext" true false true (VList []) false false;
    row "include_regex" true false true (VList []) false false;
    row "exclude_regex" true false true (VList []) false false;
    row "include_logic" true false true (VList []) false false;
    row "exclude_logic" true false true (VList []) false false;
    row "exclude_fs" true false true (VList []) false false;
    row "include_fs" true false true (VList []) false false;
    row "exclude_comp" true false true (VList []) false false;
    row "include_glob" true false true (VList []) false false;
    row "seed_src" false false false (VStr None) false false;
    row "seed_dst" false false false (VStr None) false false;
    row "cross_all_filesystems" true false false (VInt 0) false false;
    row "read_all_fifos" true false false (VInt 0) false false;
    row "read_fifo" true false false (VList []) false false;
    row "read_all_blockdevs" true false false (VInt 0) false false;
    row "read_blockdev" true false false (VList []) false false;
    row "min_file_size" true false false (VU64 0) false false;
    row "max_file_size" true false false (VU64 0) false false;
    row "split_vss" true false false (VInt 0) false false;
    row "strip_vss" true false false (VInt 0) false false;
    row "vss_drives" true false false (VStr None) false false;
    row "remote_drives" true false false (VStr None) false false;
    row "acl" true false false (VInt 1) false false;
    row "xattr" true false false (VInt 1) false false;
    row "atime" true false false (VInt 0) false false;
    row "scan_problem_raises_error" true false false (VInt 0) false false;
    row "overwrite" true true false (VInt 0) false false;
    row "strip" true true false (VInt 0) false false;
    row "regex" true true false (VStr None) false false;
    row "regex_case_insensitive" true true false (VInt 0) false false ].
(* confs_init(): /repo/src/conf.c:987-994 *)
Definition defaults : conf := map fst full.
(* The flags of the options: /repo/src/conf.c:351-837 *)
Definition marks : list (bool * bool) := map snd full.

(* The loop of conf_set_from_global(): /repo/src/conffile.c:1437-1474; g: what the
   server has, c: what the client has *)
Fixpoint from_global (ms : list (bool * bool)) (g c : conf) : conf :=
  match ms, g, c with
  | (over, _) :: ms', og :: g', oc :: c' =>
    (if over then match o_val oc with VList _ => oc | _ => set_val oc (o_val og) end else oc) :: from_global ms' g' c'
  | _, _, _ => c
  end.
(* conf_set_from_global(): /repo/src/conffile.c:1435-1484 *)
Definition conf_set_from_global (g c : conf) : conf :=
  let c := from_global marks g c in
  match get_str (str "ssl_peer_cn") g with
  | None => set_str (str "ssl_peer_cn") (get_str (str "cname") c) c
  | Some _ => c
  end.

(* append_strlist(): /repo/src/conffile.c:1486-1493 *)
Definition append_strlist (srt : bool) (src dst : list bytes) : list bytes :=
  fold_left (fun d s => add_to_strlist srt s d) src dst.
(* conf_set_from_global_arg_list_overrides(): /repo/src/conffile.c:1496-1525 *)
Fixpoint arg_lists (ms : list (bool * bool)) (g c : conf) : conf :=
  match ms, g, c with
  | (over, repl) :: ms', og :: g', oc :: c' =>
    (match over, o_val og, o_val oc with
     | true, VList lg, VList lc =>
       if repl then (match lc with [] => set_val oc (VList (append_strlist (o_sorted oc) lg [])) | _ => oc end)
       else set_val oc (VList (append_strlist (o_sorted oc) lc (append_strlist (o_sorted oc) lg [])))
     | _, _, _ => oc
     end) :: arg_lists ms' g' c'
  | _, _, _ => c
  end.

(* conf_init_save_cname_and_version(): /repo/src/conffile.c:1527-1550 *)
Definition init_save (c : conf) : conf :=
  set_str (str "peer_version") (get_str (str "peer_version") c)
    (set_str (str "cname") (get_str (str "cname") c) defaults).

(* fgets() with the buffer of 4096 bytes: /repo/src/conffile.c:1301,1308; k: how many
   bytes of the line have been read.  The newline is left out, since
   conf_parse_line() passes over it. *)
Fixpoint fgets_lines (s cur : bytes) (k : Z) : list bytes :=
  match s with
  | [] => match cur with [] => [] | _ => [rev cur] end
  | c :: r =>
    if c =? 10 then rev cur :: fgets_lines r [] 0
    else if k =? 4094 then rev (c :: cur) :: fgets_lines r [] 0
    else fgets_lines r (c :: cur) (k + 1)
  end.

(* get_int(): /repo/src/conf.c:76-80 *)
Definition get_num (f : bytes) (c : conf) : Z :=
  match find (fun o => beqb (o_field o) f) c with Some o => match o_val o with VInt n => n | _ => 0 end | None => 0 end.
(* get_strlist(): /repo/src/conf.c:64-68 *)
Definition get_list (f : bytes) (c : conf) : list bytes :=
  match find (fun o => beqb (o_field o) f) c with Some o => match o_val o with VList l => l | _ => [] end | None => [] end.
(* set_strlist(): /repo/src/conf.c:139-145 *)
Definition set_list (f : bytes) (l : list bytes) (c : conf) : conf :=
  map (fun o => if beqb (o_field o) f then set_val o (VList l) else o) c.

(* pre_post_override(): /repo/src/conffile.c:152-161 *)
Definition pre_post_override (f pre post : bytes) (c : conf) : conf :=
  match get_str f c with None => c | Some s => set_str post (Some s) (set_str pre (Some s) c) end.
(* setup_script_arg_override(): /repo/src/conffile.c:1037-1045; none of these lists
   is sorted *)
Definition arg_override (f args : bytes) (c : conf) : conf := set_list args (append_strlist false (get_list f c) []) c.
(* setup_script_arg_overrides(): /repo/src/conffile.c:1047-1053 *)
Definition arg_overrides (f pre post : bytes) (c : conf) : conf :=
  match get_list f c with [] => c | _ => arg_override f post (arg_override f pre c) end.
(* /repo/src/conffile.c:1235-1239 *)
Definition notify_override (c : conf) : conf :=
  let n := get_num (str "server_script_notify") c in
  if n =? 0 then c
  else set_named (str "server_script_post_notify") n (set_named (str "server_script_pre_notify") n c).
(* /repo/src/conffile.c:1241-1262 *)
Definition scripts (c : conf) : conf :=
  let c := pre_post_override (str "backup_script") (str "backup_script_pre") (str "backup_script_post") c in
  let c := pre_post_override (str "restore_script") (str "restore_script_pre") (str "restore_script_post") c in
  let c := pre_post_override (str "server_script") (str "server_script_pre") (str "server_script_post") c in
  let c := arg_overrides (str "backup_script_arg") (str "backup_script_pre_arg") (str "backup_script_post_arg") c in
  let c := arg_overrides (str "restore_script_arg") (str "restore_script_pre_arg") (str "restore_script_post_arg") c in
  let c := arg_overrides (str "server_script_arg") (str "server_script_pre_arg") (str "server_script_post_arg") c in
  set_list (str "server_script_arg") [] (set_str (str "server_script") None c).

Section Load.
(* deal_with_dot_inclusion(): /repo/src/conffile.c:344-389 *)
Variable inclusion : bytes -> conf -> option conf.
(* The -o options of the command line: /repo/src/conffile.c:1154-1178 *)
Variable cli : list bytes.
(* Whether the checks of conf_finalise() that can fail pass:
   /repo/src/conffile.c:1188-1233.  What these lines do to the settings is left out:
   they change incexcdir, startdir, cross_filesystem, max_children,
   max_status_children and the ports that a client uses, no other option. *)
Variable checks : conf -> bool.

(* conf_load_lines_from_file(): /repo/src/conffile.c:1296-1319.  It goes on after a
   line that is wrong, but then reports failure, and no caller uses the settings
   after that. *)
Definition load_file (s : bytes) (c : conf) : option conf := parse_lines inclusion (fgets_lines s [] 0) c.
(* conf_finalise(): /repo/src/conffile.c:1180-1263 *)
Definition conf_finalise (c : conf) : option conf :=
  match parse_lines inclusion cli c with
  | None => None
  | Some c => if checks c then Some (scripts (notify_override c)) else None
  end.
(* conf_load_overrides(): /repo/src/conffile.c:1552-1573, from a file *)
Definition conf_load_overrides (g c : conf) (s : bytes) : option conf :=
  match load_file s (conf_set_from_global g c) with
  | None => None
  | Some c => conf_finalise (arg_lists marks g c)
  end.
(* conf_load_clientconfdir(): /repo/src/conffile.c:1587-1607; files: the files under
   clientconfdir, by path *)
Definition load_clientconfdir (before : Z) (files : bytes -> option bytes) (g c : conf) : option conf :=
  let c := init_save c in
  match get_str (str "cname") c with
  | None => None
  | Some cname =>
    if cname_valid before cname
    then match files (prepend_s (match get_str (str "clientconfdir") g with Some d => d | None => [] end) cname) with
         | None => None
         | Some s => conf_load_overrides g c s
         end
    else None
  end.
(* do_load_global_only(): /repo/src/conffile.c:1609-1621, without
   conf_finalise_global_only(), which checks *)
Definition load_global (path s : bytes) : option conf :=
  match load_file s (set_str (str "conffile") (Some path) defaults) with None => None | Some c => conf_finalise c end.
End Load.
