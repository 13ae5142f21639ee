# Formal model of burp's backup logic — design

The subject is the C source in `/repo/src`.  Nothing is built or run; the
source is read as text.  The model is written in Rocq (Coq 8.16.1), standard
library only, in `rocq/theories/`.

## Layout

Every area has up to three files:

* `XModel.v`  — executable Gallina functions following the C functions one by
  one.  Each definition has a comment citing the file and lines it models and
  saying what is simplified.
* `XProofs.v` — a small specification that does not mention the model's
  helpers, and the proofs.
* `XProps.v`  — only `Theorem … exact lemma.`, `Print Assumptions` and the
  `Example`s that show the hypotheses can be met.

## Trusted base

* Coq's kernel (and `vm_compute`).
* What `Print Assumptions` prints for each theorem (see the last section).
* The reading of the C code: the model is tied to it only by the citations.
* Not modelled at all unless said below: memory exhaustion, malloc failures,
  TLS, zlib, librsync internals, OpenSSL, signals, Windows-only code
  (`HAVE_WIN32`), logging.

## Common representation choices

* A C string is a `list Z` of bytes in 1..255 (no NUL).  Where signedness or
  values matter the byte range is an explicit hypothesis.
* NULL pointers are `option`.
* Loops over linked lists are structural recursion; loops over streams are
  recursion on the stream or on fuel with a distinct out-of-fuel result which
  the theorems exclude.
* Undefined behaviour is a distinct outcome.

## Plan per property

| id | what is modelled | how it is proved |
|----|------------------|------------------|
| C01 | `pathcmp` as recursion on two byte lists, option for NULL | characterisation as lexicographic order with key function; order laws by induction |
| C02 | as C01 plus the spec of "at or beneath" | interval lemma: between two descendants everything is a descendant |
| C03 | `is_subdir` with its four cursors | induction; equivalence with a three-case spec |
| C04 | `has_dot_component`, `is_absolute` | induction with previous-byte state; spec by splitting at '/' |
| C05 | `iobuf_pathcmp` over the cmd enumeration | case analysis; refutation witness for metadata against trailing VSS; order laws without that pair |
| C06 | `to_base64`, `from_base64` on Z | induction on digits; bound on length |
| C07 | `attribs_encode`, `attribs_decode` | composition of C06 over the 19 fields |
| C08, C09 | `send_msg_fzp`, `do_iobuf_fill_from_fzp`, `fzp_read_ensure`, `sscanf("%c%04X")` | induction on messages; cut positions by case analysis |
| C10, C11 | `asfd` read and write buffers as byte lists with the length checks | invariant: delivered ++ parse(buffer ++ future) is constant |
| C12, C13 | `parse_cmd` state machine of `sbuf.c`, `sbuf_to_manifest` | induction on entries / invariant over streams |
| C14, C15 | `dpth_incr`, `dpth_mk`, `dpth_set_from_string`, `dpth_init` | lexicographic measure, injectivity of the hex format; witness for the wrap |
| C16 | phase 3 merge loop | induction; refutation for equal keys |
| C17, C18 | phase 2 walk and the delta decision | induction on the two lists; case analysis |
| C19 | repository state: list of backups with data, delta and manifest maps; backup finalisation, deletion and restore | invariant over histories |
| C20–C23 | backup list flags, `range_loop`, `delete_backups`, keep parsing | induction, invariants, measure |
| C24 | directory listing, sort, numbering | sorting lemma, induction |
| C25, C26 | file system steps of phase 4 and delete, crash after any step, re-run | small-step semantics; invariant over all prefixes |
| C27 | rubble decision function | case analysis |
| C28 | processes, inodes, locks as a transition system | witness run for the race; invariant for the restricted system |
| C29–C31 | restore selection and ordering | induction |
| C32–C34 | authentication, permission switch, request dispatch | case analysis, induction over switch sequences |
| C35 | `ipacl` masks on N | bit lemmas |
| C36 | timer functions | case analysis |
| C37 | chunked comparison | induction on chunks; witness |
| C38 | resume reading, continued by phase 2 | builds on C09, C12 and C54; invariant over interrupted runs |
| C39–C42 | include/exclude, scan, lists, link hash | induction |
| C43, C44 | block length, quota | arithmetic |
| C45 | manifest difference | induction |
| C46, C47 | restore containment, client names | uses C03, C04 |
| C48–C50 | versions, logic expressions, configuration quoting | arithmetic / induction |
| C51 | directory browsing of `restore_list`/`check_browsedir` on a sorted manifest | induction on the manifest against "names directly below"; witness for the length sent |
| C52, C53 | `conf_get_pair`, `get_file_size`, `get_compression` with reads outside the buffer as an outcome | exact characterisation by case analysis; arithmetic |
| C54 | phase 2 as a pair of processes with requests and answers | invariant over all interleavings |
| C55 | temporary files of a restore as a map from names to inodes | invariant over all steps and failures; witness after a stopped restore |
| C56, C57 | the scan over an arbitrary tree with oracles for `lstat`, `readdir` | induction on the tree; invariant on the table of hard links |
| C58 | the client's restore on a file system map | invariant over entries and failing calls |
| C59 | the selection of `do_list_server` | case analysis |
| C60–C63 | `bedup.c` on names, inodes and contents with failing calls | invariants over the walk; witnesses for read errors |
| C64 | the comparison walk of `diff.c` | induction on two sorted lists |
| C65–C68 | the metadata blocks of `acl.c`, `xattr.c`, `extrameta.c` as bytes | round trip by induction; out-of-bounds as an outcome |
| C69–C75, C97 | `transfer.c`, the sending functions of `handy.c`, the restore end, for any compressor and cipher meeting a stated law | round trip by induction on chunks; invariants over message streams |
| C76–C78 | the stripping state machine of `bfile.c`, and `vss_strip.c` | induction on pieces and streams |
| C79–C82 | `cntr.c`: rows, totals, text form, buffer size, JSON names | round trip, invariant over calls, arithmetic |
| C83–C86 | the monitor's request line and the status server's answers | round trip, induction on clients and requests |
| C87 | the list of clients against the configuration directory | invariant over reloads |
| C88–C90 | the tree of `cache.c` and browsing through it | induction on insertion; refinement against C51's specification |
| C91, C92 | `incexc_send.c`, `incexc_recv.c` and the options they name | round trip by induction on options; frame property |
| C93–C95 | both `extra_comms` functions as two processes with queues | confluence and invariants over all interleavings |
| C96 | `autoupgrade.c` on both sides | case analysis, path components |
| C98–C103 | `server/main.c` from the listening sockets to the reports of children, as a transition system with the children around it | invariant over all event sequences; counting argument; refutations by short runs |
| C104–C108 | `client/main.c`, `server/child.c`, `run_script.c`: scripts, exit status, failover, timed reports | functions from outcomes to traces, compared with a declarative description by case analysis; induction over the failover list and over the calls |
| C109, C110 | `rs_buf.c` with the loops of `client/backup_phase2.c` and `server/backup_phase2.c`, for any librsync job that keeps its contract | invariant over all rounds: taken ++ at hand = read, sent ++ buffered = put out |
| C111–C114 | the JSON writer and reader `yajl_encode.c`, `yajl_gen.c`, `yajl_lex.c`, `yajl_parser.c` as burp uses them | round trip by induction over value trees; a lemma that the reader's state depends only on the text so far; invariant between stack of states and open containers |
| C115–C119 | `client/monitor/json_input.c` as a state machine over the callbacks of the JSON reader, and the calls of `server/monitor/json_output.c` | symbolic execution of the callbacks over answer trees by induction; depth invariant for the pieces; sortedness and permutation for the lists |
| C120–C124 | `server/ca.c`, `client/ca.c` and `ssl_check_cert()`, on a map of paths to files, with any signing program, over the file transfer of C75 and the configuration lines of C50–C52 | case analysis of each step; both sides run against what the other wrote; induction over lines for the configuration file |
| C125–C127 | `client/list.c`, `encode_time()`, the requests of `client/list.c`, `client/delete.c`, `client/restore.c`, `strip_trailing_slashes()`; against the listing of C51–C53, the restore selection and the actions of the server | the text printed as a relation between entries and lines, by induction over the messages; composition with what the server sends; the request parsed back by the model of the server |
| C128 | `authorise_client()`, `authorise_server()`, `version_warn()`, the refusal in `run_child()`; each side as a function of what it has received | all interleavings as an inductive relation; an invariant listing the stages; case analysis for hostile peers |
| C129–C130 | `prog.c` with glibc's `getopt()`; the effects of `real_main()` as a list of events, the configuration, lock and user as oracles | reading back what is written, by induction; field by field invariant of the option loop; the shape of all event lists that run something |
| C131 | `backup_phase1_server_all()`, `check_quota()`, `check_fail_on_warning()` on top of the parser of C12; one message per step | induction over the entries with warnings skipped; an invariant over all message lists for what is kept; round trip through C12 |
| C132 | `conffile.c`: the server's file, the client's file, the command line, with the whole table of `conf.c`; included files as given settings | per option invariant over all settings; two passes over the table by induction on it; the last of the settings as specification |
| C133 | `do_backup_server()`, `rubble.c`, `sdirs_create_real_working()`: directories with a stage, three links, the plan of a connection as a list of steps; a connection does any prefix of it | an invariant of all steps with their preconditions, the plan meets them; histories by induction; a second invariant for what is whole |
| C134 | `run_backup()` up to the backup, `maybe_check_timer_func()`, the end of `run_action_server_do()` | case analysis against an independent predicate; round trip of the answer |
| C135 | `recursive_delete()` and its variants on trees, with the calls that the system refuses by path | induction over trees with an inner induction over the entries of a directory |
| C136 | `mkpath()` on paths by components, the limit compared as text with the `pathcmp()` of C01 | induction over the components against an independent list of what is missing |
| C137 | `deleteme_move()` with rename(2) on what is in the directory | induction over the names tried; case analysis |
| C138 | `files_equal()` with its buffer, files that stop being readable | induction over the pieces |
| C139 | `restore_stream()`, `restore_ent()`, `restore_sbuf()`, `hard_link_substitution()` on the selection of C30 and the table of C42 | refinement to a function of the manifest alone, with an invariant that says what the table has; refutations by computation |
| C140 | `check_ratelimit()` and the two writing functions as one step per attempt; clock, sizes and the float comparison as inputs | induction over the attempts with the counter as a function of what was sent; refutations for all rates |
| C141 | `path_too_long()`, `treedata()`, `set_new_datapth()`, `init_fs_max()` on paths of any length | induction over the names of the path against a specification of what a name in a path is; refutations by computation |
| C142 | `manio_find_boundary`/`manio_copy_entry()` with a seed, and the move of the directory, as functions on paths; reading past the end as an outcome of its own | case analysis on paths against a specification of being below a directory; refutations for all sources of a kind |
| C143 | `setup_cntr()` as a run of the counter calls of C81 over the marked manifest of C139 | induction over the manifest, C81 and C139 |
| C144 | `need_hardlinked_archive()` with the arithmetic of its types; division by zero as an outcome of its own; `setup_indices()` of C17 | arithmetic of divisibility, induction over the list of backups |
| C145 | the check functions on a record of the settings they look at, the error counter as a number; certificate and host name as inputs | the counter is never positive and 0 only if each check passes; equivalence with an independent list of what is needed |
| C146 | `listen_config_ok()`, `finalise_server_max_children()`, `split_addr()` on texts and lists; `atoi()`, `atol()` with the limits of their types | equivalence with an independent description; induction over the list of addresses |
| C147 | the key functions, `select` part of the main loop and what `update_screen()` changes, pointers as places in lists, a NULL pointer followed as an outcome of its own | invariant over sequences of keys; arithmetic of the window |

## Exactly what is modelled

The table is made from the citations in the model files.  A function with a
number is modelled in the cited lines only (the first number is how many of its
lines are cited); the comment at the definition says what is left out.
Functions in the last column are not modelled; where a modelled function calls
one of them, the comment at the caller says what is assumed of it (an oracle, a
fixed result, or an event in the trace).

| file | modelled functions (lines cited / lines; where) | not modelled |
|---|---|---|
| asfd.c | asfd_alloc_buf (1/6; Asfd); extract_buf (Asfd); parse_readbuf_ncurses (Asfd); parse_readbuf_line_buf (Asfd, Mon); parse_readbuf_standard (Asfd); asfd_parse_readbuf (Asfd); asfd_do_read_ncurses (Asfd); asfd_do_write_ncurses (Asfd); asfd_do_read (Asfd); asfd_do_read_ssl (Asfd); check_ratelimit (Rl); asfd_do_write (Asfd, Chld, Rl); asfd_do_write_ssl (Asfd, Rl); asfd_append_all_to_write_buffer (Asfd, List); asfd_connection_af (List); asfd_read_expect (Asfd, Ca, List, Login); asfd_write (Asfd, Extra, List, Login, Transfer); asfd_write_str (Login); asfd_simple_loop (Asfd, Ca, Scr); asfd_init (1/72; Rl); asfd_flush_asio (1/11; Scr) | truncate_readbuf; peer_msg; append_to_write_buffer; asfd_set_bulk_packets; asfd_read; asfd_set_timeout; get_asfd_desc; asfd_alloc; asfd_close; asfd_free_content; asfd_free; do_setup_asfd; setup_asfd_ssl; setup_asfd; setup_asfd_linebuf; setup_asfd_linebuf_read; setup_asfd_linebuf_write; fileno_error; setup_asfd_stdin; setup_asfd_stdout; setup_asfd_ncurses_stdin; read_and_write; asfd_write_wrapper; asfd_write_wrapper_str |
| async.c | async_io (Asfd, Chld, Rl); async_asfd_add (Chld) | async_free; async_settimers; asfd_problem; windows_stupidity_hacks; async_read_write; async_write; async_read_quick; async_asfd_remove; async_asfd_free_all; async_init; async_alloc |
| attribs.c | attribs_encode (Attribs); attribs_decode (Attribs); attribs_set_file_times (1/39; Rcli); attribs_set (Rcli) | decode_file_no; decode_file_no_and_save_path |
| base64.c | base64_init (Attribs); to_base64 (Attribs); from_base64 (Attribs) | base64_to_uint64; base64_from_uint64 |
| bfile.c | setup_vss_strip (Vss); bfile_write_vss_strip (Vss); bfile_close (Rcli, Vss); bfile_open (Rcli, Vss); bfile_read (Vss); bfile_write (Transfer, Vss) | bfile_free; bfile_set_win32_api; have_win32_api; bfile_open_encrypted; bfile_error; bfile_open; bfile_close_encrypted; bfile_close; bfile_read; bfile_write_windows; bfile_write; bfile_open_for_send; bfile_set_vss_strip; bfile_setup_funcs; bfile_init; bfile_alloc |
| bu.c | bu_init (1/17; Bu); bu_find (Mon); bu_find_current (Mon); bu_find_working_or_finishing (Mon) | bu_alloc; bu_free_content; bu_free; bu_list_free |
| client/acl.c | acl_contains_something (Xattr); has_acl (Xattr); get_acl_string (Xattr); get_acl (Xattr); do_set_acl (Rcli, Xattr); set_acl (Xattr) | acl_is_trivial; default_acl_contains_something |
| client/auth.c | authorise_client (Login) | — |
| client/autoupgrade.c | autoupgrade_client (44/101; Extra) | receive_file; autoupgrade_func |
| client/backup_phase1.c | usual_stuff (Find, Xattr); maybe_send_extrameta (Xattr); ft_err (Find); do_to_server (Find); to_server (Find); my_send_file (Find); backup_phase1_client (Find) | — |
| client/backup_phase2.c | rs_loadsig_network_run (Rsb); load_signature_and_send_delta (33/68; Rsb); send_whole_file_w (Transfer); deal_with_data (Phase2, Transfer, Xattr) | load_signature; forget_file; size_checks; parse_rbuf; do_backup_phase2_client; backup_phase2_client |
| client/ca.c | generate_key_and_csr (10/43; Ca); rewrite_client_conf (Ca); csr_client_func (Ca); ca_client_setup (Ca) | hack_windows_perms |
| client/delete.c | do_delete_client (Lst) | — |
| client/extra_comms.c | server_supports (Extra); server_supports_autoupgrade (Extra); extra_comms_client (Extra) | — |
| client/extrameta.c | has_extrameta (Find, Xattr) | — |
| client/find.c | find_files_init (Find); in_include_ext (Find); in_exclude_ext (Find); in_exclude_comp (Find); in_include_regex (Find); in_exclude_regex (Find); file_is_included_no_incext (Find); file_is_included (Find); fs_change_is_allowed (Find); need_to_read_fifo (Find); need_to_read_blockdev (Find); nobackup_directory (Find); file_size_match (Find, Link); my_send_file_w (Find, Link); found_soft_link (Find); fstype_matches (Find); process_entries_in_directory (Find); found_directory (Find); found_other (Find); find_files (Find) | find_files_free; found_regular_file; windows_reparse_point_fiddling; find_files_begin |
| client/find_logic.c | list_append (Logic); list_reset (Logic); create_token_list (Logic); find (Logic); parens (Logic); strip_quotes (Logic); eval_file_ext (Logic); eval_path_match (Logic); eval_file_match (Logic); eval_file_size (Logic); eval_func (Logic); str_to_node (Logic); eval_triplet (Logic); bool_eval (Logic); eval_parsed_expression (Logic); eval_expression (Logic); is_logic (Logic); is_logic_excluded (Logic) | free_tokens; free_expression; free_cregex; free_node; list_get_node_by_id; new_list; new_node; parse_expression; free_logic_cache; is_logic_included |
| client/list.c | encode_mode (Lst); ls_to_buf (Lst); ls_long_output (Lst); ls_short_output (Lst); list_item (Lst); do_list_client (Lst) | — |
| client/main.c | maybe_check_timer_func (Bak, Scr); maybe_check_timer (Bak, Scr); backup_wrapper (Scr); restore_wrapper (Scr); do_client (Scr); client (Scr) | ssl_setup; initial_comms |
| client/monitor/json_input.c | is_wrap (Jin); input_integer (Jin); input_string (Jin); input_map_key (Jin); add_to_bu_list (Jin); input_start_map (1/6; Jin); input_end_map (Jin); input_start_array (Jin); merge_bu_lists (Jin); update_live_counter_flag (Jin); input_end_array (Jin); json_input_init (1/7; Json); json_input (Jin) | do_yajl_error; json_input_free; json_input_get_loglines; json_input_get_warnings; json_input_clear_loglines; json_input_clear_warnings |
| client/monitor/sel.c | sel_alloc (Nav) | sel_free_content; sel_free |
| client/monitor/status_client_ncurses.c | print_logs_list_line (Nav); print_client (Nav); client_and_status (Nav); client_and_status_and_backup (Nav); client_and_status_and_backup_and_log (Nav); selindex_from_cstat (Nav); selindex_from_bu (Nav); selindex_from_lline (Nav); print_logs_list (Nav); update_screen_clients (Nav); get_extradesc (Nav); update_screen_backups (Nav); update_screen_live_counter_table (Nav); update_screen_live_counters_w (Nav); update_screen_view_log (Nav); update_screen (Nav); request_status (Mon); left (Nav); right (Nav); up_client (Nav); down_client (Nav); up_backup (Nav); down_backup (Nav); up_logs (Nav); down_logs (Nav); up_view_log (Nav); down_view_log (Nav); up (Nav); down (Nav); page_up_client (Nav); page_down_client (Nav); page_up_backup (Nav); page_down_backup (Nav); page_up (Nav); page_down (Nav); parse_stdin_data (Nav); parse_data (Jin); status_client_ncurses_main_loop (Nav) | print_line_ncurses; print_line_stdout; print_line; get_bu_str; client_summary; to_msg; print_cntr_ent; table_header; print_detail2; print_detail3; detail; screen_header_ncurses; screen_header_stdout; screen_header; need_status; logop_to_text; update_screen_live_counter_single; update_screen_live_counters; ncurses_free; sighandler; setup_signals; ncurses_init; fork_monitor; status_client_ncurses_init; show_loglines; status_client_ncurses |
| client/restore.c | open_for_restore (Rcli); warn_and_interrupt (1/5; Rcli); restore_special (Rcli); restore_dir (Rcli); restore_link (Rcli); strip_invalid_characters (6/22; Rcli); act_str (Lst); strip_from_path (Rcli); strip_path_components (Rcli); get_restore_desired_dir (26/53; Rcli); strip_trailing_component (Rcli); canonicalise (Rcli); do_restore_client (Lst, Rcli) | restore_interrupt; build_msg; do_logw; restore_style_func; get_restore_style |
| client/restore_switch.c | do_restore_file_or_get_meta (Rcli, Transfer); restore_file_or_get_meta (Rcli); restore_metadata (Rcli); restore_switch (Rcli) | — |
| client/xattr.c | in_skiplist (Xattr); append_to_extrameta (Xattr); get_next_xattr_str (Xattr); has_xattr (Xattr); get_xattr (Xattr); do_set_xattr_bsd (Xattr); set_xattr (Xattr); has_xattr (Xattr); get_toappend (Xattr); get_xattr (Xattr); do_set_xattr (Rcli, Xattr); set_xattr (Xattr) | fs_supports_xattr |
| cmd.c | cmd_is_filedata (Cmd); cmd_is_vssdata (Cmd); cmd_is_link (Cmd); cmd_is_encrypted (Cmd); cmd_is_metadata (Cmd); cmd_is_estimatable (Cmd) | cmd_to_text; cmd_print_all; cmd_is_endfile |
| cntr.c | add_cntr_ent (Cntr); calc_max_str_len (Cntr); cntr_init (Cntr, Jin, Mon); bytes_to_human (Cntr); set_count_val (Cntr); set_changed_val (Cntr); set_same_val (Cntr); set_deleted_val (Cntr); set_phase1_val (Cntr); incr_count_val (Cntr); incr_same_val (Cntr); incr_changed_val (Cntr); incr_deleted_val (Cntr); incr_phase1_val (Cntr); cntr_add (Cntr); cntr_add_phase1 (Cntr); cntr_add_val (Cntr); cntr_add_new (Cntr); cntr_add_same (Cntr); cntr_add_same_val (Cntr); cntr_add_changed (Cntr); cntr_add_changed_val (Cntr); cntr_add_deleted (Cntr); cntr_add_bytes (Cntr); cntr_set_sentbytes (Cntr); cntr_set_recvbytes (Cntr); cntr_set_bytes (Cntr); quint_print (Cntr); cntr_print (2/46; Cntr); cntr_to_str (Cntr); extract_ul (Cntr); extract_cntrs (Cntr); extract_client_pid_bno (Cntr, Mon); str_to_cntr (Cntr, Mon); cntr_recv_func (Jin); cntr_status_to_str (Cntr); cntr_str_to_status (Cntr); cntr_status_to_action_str (Jin); check_fail_on_warning (Cntr, Ph1) | cntr_ent_free_content; cntr_ent_free; cntr_alloc; cntr_free_content; cntr_free; cntrs_free; border; table_border; incr_count; incr_same; incr_changed; incr_deleted; incr_phase1; print_end; get_count; bottom_part; cntr_stats_to_file; cntr_print_end; cntr_print_end_phase1; get_backup_str; add_to_backup_list; cntr_send_bu; cntr_send_sdirs; cntr_recv |
| conf.c | burp_mode_to_str (2/10; Rubble); str_to_recovery_method (Rubble); recovery_method_to_str (Rubble); get_strlist (Over); get_string (Incexc); get_int (Extra, Over); set_string (Incexc); set_int (Incexc); set_strlist (Incexc, Over); set_float (Incexc); set_e_burp_mode (Incexc); set_e_recovery_method (Incexc); set_e_rshash (Incexc); set_mode_t (Incexc); set_uint64_t (Incexc); set_cntr (Incexc); add_to_strlist (Find, Incexc); add_to_strlist_sorted_uniq (Incexc); conf_free_content (Incexc); confs_memcpy (Incexc); confs_null (Incexc); confs_free_content (Incexc); free_incexcs (Incexc); reset_conf (Incexc, Over); confs_init (Over) | str_to_burp_mode; rshash_to_str; get_uint64_t; get_float; get_mode_t; get_e_burp_mode; get_e_recovery_method; get_e_rshash; get_cntr; sc; sc_str; sc_int; sc_lst; sc_flt; sc_ebm; sc_rec; sc_rsh; sc_mod; sc_u64; sc_cntr; set_conf; conf_set; conf_data_to_str; confs_alloc; confs_free; confs_dump |
| conffile.c | remove_quotes (Conf); conf_get_pair (Conf, Frame); get_file_size (Conf, Logic); pre_post_override (Over); get_compression (Conf); load_conf_field_and_value (Find, Incexc, Rl); deal_with_dot_inclusion (Incexc, Over); conf_parse_line (Incexc); conf_problem (Gc, Incexc); burp_ca_conf_problem (Gc); server_conf_checks (Ca, Gc); extract_cn (Gc); mangle_cname (Gc); get_cname_from_ssl_cert (Gc); get_fqdn (Gc); confs_get_lockfile (Gc); general_conf_checks (Gc); client_conf_checks (Ca, Gc); finalise_keep_args (Bu, Delete); incexc_munge (Find); sanity_check_no_dupes (Find); finalise_incexc_dirs (Find); finalise_start_dirs (Find); set_max_ext (Find); setup_script_arg_override (Over); setup_script_arg_overrides (Over); listen_config_ok (Lis); finalise_server_max_children (Chld, Lis); finalise_client_ports (Gc); apply_cli_overrides (Over); conf_finalise (Over); conf_finalise_global_only (Gc); conf_load_lines_from_file (Over); conf_load_lines_from_buf (Incexc); conf_parse_incexcs_path (Incexc); conf_parse_incexcs_buf (Extra, Incexc); conf_parse_incexcs_srestore (Extra, Incexc); conf_set_from_global (Over); append_strlist (Over); conf_set_from_global_arg_list_overrides (Over); conf_init_save_cname_and_version (Over); do_conf_load_overrides (Over); conf_load_overrides (Over); cname_valid (Auth, Over); conf_load_clientconfdir (Auth, Over); do_load_global_only (Over); conf_load_global_only (1/4; Auth); restore_client_allowed (Auth); conf_switch_to_orig_client (Auth) | conf_set_cli_overrides; conf_error; main; fstype_to_flag; add_to_cross_filesystem; check_start_dirs_and_seed; finalise_fschg_dirs; finalise_remote_drives; finalise_glob; reeval_glob; finalise_fstypes; config_default_path |
| cstat.c | cstat_alloc (Cstat); cstat_init (Cstat); cstat_add_to_list (Cstat, Jin); run_status_to_str (Jin); run_str_to_status (Jin); cstat_get_by_name (Jin, Mon) | cstat_free_content; cstat_add_cntr_to_list; cstat_remove_cntr_from_list; cstat_free; cstat_list_free; cstat_count |
| fsops.c | is_dir_lstat (Ca, Fs); is_reg_lstat (Ca, Fs); is_dir (Fs); mkpath (Fs, Rcli); build_path (Rcli); do_rename (Bedup, Ca, Fs, Links, Phase4); do_recursive_delete (Bak, Ca, Fs, Rubble); do_recursive_delete_w (Ca); recursive_delete (Ca, Fs); recursive_delete_dirs_only (Fs); recursive_delete_dirs_only_no_warnings (Fs); init_max (Tp); init_fs_max (Tp); do_get_entries_in_directory (1/54; Find); entries_in_directory (Find); filter_dot (Find, Fs); my_alphasort (Find); files_equal (Fs); mksock (Rcli); is_lnk_valid (Links); do_symlink (Links); do_readlink (Bedup); readlink_w (Bedup); readlink_w_in_dir (Bedup) | close_fd; build_path_w; get_max; unlink_w; entries_in_directory_alphasort; is_lnk_lstat |
| fzp.c | close_zp (Bedup); unknown_type (Bedup); not_open (Bedup, Ca); fzp_do_open (Bedup, Ca); fzp_open (Bedup); fzp_read (9/16; Bedup); fzp_gets (Ca); fzp_read_ensure (Frame) | fzp_alloc; fzp_free; open_fp; open_zp; close_fp; fzp_gzopen; fzp_close; fzp_write; fzp_eof; fzp_flush; fzp_seek; fzp_tell; gztruncate; fzp_truncate; fzp_printf; fzp_setlinebuf; fzp_fileno; fzp_do_dopen; fzp_dopen; fzp_gzdopen; fzp_ERR_print_errors_fp; fzp_PEM_read_X509; pass_msg |
| handy.c | do_quick_read (Transfer); send_whole_file_gz (Transfer); dpth_is_compressed (Phase2); version_to_long (Util); receive_a_file (Ca, Transfer); send_a_file (Ca, Transfer); strncmp_w (Restore); charcount_noescaped (Logic); charreplace_noescaped_w (Logic); strip_whitespace_w (Logic); charsplit_noescaped_w (Logic); strip_trailing_slashes (Lst, Mon); strlwr (Auth); strip_fqdn (Auth) | set_non_blocking; set_blocking; get_tmp_filename; add_fd_to_sets; get_address_and_port; set_peer_env_vars; set_keepalive; init_client_socket; reuseaddr; setup_signal; chuser_and_or_chgrp; strreplace_w; strsplit_w; free_list_w; breakpoint; convert_backslashes |
| handy_extra.c | do_encryption (Transfer); enc_setup (Transfer); get_endfile_str (Est, Transfer); write_endfile (1/5; Transfer); send_whole_file_gzl (Transfer); write_efs (3/27; Transfer) | — |
| incexc_recv.c | add_to_incexc (Incexc); incexc_recv (Incexc) | incexc_recv_func; incexc_recv_client; incexc_recv_client_restore; incexc_recv_server |
| incexc_send.c | send_incexc_string (Incexc); send_incexc_str (Incexc); send_incexc_uint (Incexc); send_incexc_uint64 (Incexc); send_incexc_strlist (Incexc); do_sends (Incexc); incexc_send_client (1/8; Incexc); incexc_send_server (1/9; Incexc); incexc_send_server_restore (1/9; Incexc) | do_request_response |
| iobuf.c | iobuf_init (Sbuf); iobuf_move (1/5; Resume); iobuf_from_str (Resume); iobuf_pathcmp (Cmd); do_iobuf_fill_from_fzp (Frame); iobuf_fill_from_fzp (Sbuf); iobuf_relative_path_attack (Sbuf) | iobuf_alloc; iobuf_set; iobuf_free_content; iobuf_free; iobuf_log_unexpected; iobuf_copy; iobuf_send_msg_fzp; iobuf_is_filedata; iobuf_is_vssdata; iobuf_is_link; iobuf_is_encrypted; iobuf_is_metadata; iobuf_is_estimatable; iobuf_fill_from_fzp_data; is_printable; iobuf_to_printable |
| ipacl.c | ipacl_netmask (Ipacl); ipacl_netmask6 (Ipacl); ip6_netmask (Ipacl); ipv_prefix_equal (Ipacl); __ipv6_prefix_equal64_half (Ipacl); ipv6_prefix_equal (Ipacl); ipacl_create (Ipacl); parse_prefix (Ipacl); check_prefix (Ipacl); trim (Ipacl); ipacl_emplace (Ipacl); ipacl_append (7/33; Ipacl); ipacl_test_saddr_storage (Ipacl) | ipacl_net4_data_netmask; ipacl_net6_data_netmask; ipacl_net4_do_match; ipacl_net6_do_match; ipacl_strerror; ipacl_free; ipacl_test_saddr; ipacl_test_ip; ipacl_is_empty |
| linkhash.c | linkhash_init (Link); get_hash (Link); linkhash_search (Link); linkhash_add (Link) | linkhash_free |
| lock.c | lock_get_quick (Lock); lock_write_pid (Lock); lock_get (Lock); lock_test (Lock); lock_release (Lock) | lock_alloc; lock_init; lock_alloc_and_init; lock_free_content; lock_free; lock_add_to_list; locks_release_and_free |
| log.c | logw (Login); log_and_send (Ca) | log_init; logp; logp_ssl_err; logc; logfmt; progname; log_fzp_set; log_fzp_set_direct; log_out_of_memory; log_restore_settings; logm; log_and_send_oom; log_set_json; log_oom_w; log_incexcs_buf; log_recvd |
| msg.c | send_msg_fzp (Frame); do_write (Transfer); do_inflate (Transfer); transfer_gzfile_in (Ca, Transfer) | — |
| pathcmp.c | is_subdir (Pathcmp); pathcmp (Bytes, Pathcmp); has_dot_component (Pathcmp); is_absolute (Pathcmp) | — |
| prepend.c | prepend_len (Auth, Xattr); prepend_n (Auth, Incexc); prepend (Auth); prepend_slash (Auth); prepend_s (Auth) | astrcat |
| prog.c | replace_conf_str (Prog); parse_action (Prog); run_test_confs (Prog); real_main (Prog) | usage_server; usage_client; reload; usage; random_delay; get_prog_lock; main |
| rs_buf.c | rs_filebuf_new (14/32; Rsb); rs_infilebuf_fill (Rsb); rs_outfilebuf_drain (Rsb); rs_async_drive (Rsb); rs_whole_gzrun (3/23; Rsb) | rs_filebuf_free; rs_async; rs_patch_gzfile; rs_sig_gzfile; rs_delta_gzfile; rshash_to_magic_number; rs_loadsig_fzp |
| run_script.c | run_script_to_buf (Scr) | log_script_output; run_script_sigchld_handler; run_script_select; run_script |
| sbuf.c | sbuf_alloc (Phase2, Resume, Sbuf); sbuf_free_content (Lst, Ph1, Phase2, Resume, Sbuf); sbuf_free (Resume); sbuf_is_link (Resume); sbuf_is_filedata (Resume); sbuf_is_vssdata (Resume); sbuf_is_encrypted (2/4; Resume); sbuf_to_manifest (Frame, Sbuf); sbuf_pathcmp (Merge); parse_cmd (Cmd, Ph1, Rcli, Sbuf); sbuf_fill (Asfd, Frame, Ph1, Sbuf) | sbuf_is_metadata; sbuf_is_estimatable; sbuf_to_manifest_cntr; sbuf_fill_from_net; sbuf_fill_from_file |
| server/auth.c | compare_password (Auth); check_passwd (Auth); check_client_and_password (Auth, Login); version_warn (Login); authorise_server (Auth, Login) | — |
| server/autoupgrade.c | autoupgrade_server (Auto, Extra) | — |
| server/backup.c | write_incexc (Rubble); get_bno_from_sdirs (Bak); get_new_bno (Bak, Bu); do_backup_server (Bak, Links, Rubble); run_backup (Bak, Scr) | log_rshash; open_log; backup_phase1_server; backup_phase2_server; backup_phase3_server; backup_phase4_server |
| server/backup_phase1.c | backup_phase1_server_all (Ph1, Rubble) | — |
| server/backup_phase2.c | path_too_long (Tp); treedata (Tp); set_new_datapth (Dpth, Phase2, Tp); start_to_receive_new_file (Dpth, Phase2); process_changed_file (Phase2); new_non_file (Phase2); changed_non_file (Phase2); process_new (Phase2); process_unchanged_file (Phase2); get_hardlink_master_from_hmanio (Phase2); relink_deleted_hardlink_master (Phase2); librsync_enabled (Phase2); maybe_do_delta_stuff (Phase2); deleted_file (Phase2); maybe_process_file (Phase2); do_stuff_to_send (Phase2, Rsb); deal_with_receive_end_file (31/58; Phase2); do_stuff_to_receive (Phase2, Transfer); process_next_file_from_manios (Phase2); maybe_move_seed_dir (Seed); backup_phase2_server_all (73/189; Bak, Phase2, Rubble, Transfer) | path_length_warn; open_previous_manifest; start_to_receive_delta; finish_delta; deal_with_receive_append; deal_with_filedata; vss_opts_changed |
| server/backup_phase3.c | backup_phase3_server_all (Bak, Merge, Rubble) | — |
| server/backup_phase4.c | do_patch (Hist, Phase4, Rtmp); make_rev_sig (5/37; Phase4); make_rev_delta (5/60; Phase4); gen_rev_delta (Phase4); inflate_oldfile (Phase4); inflate_or_link_oldfile (Phase4); forward_patch_and_reverse_diff (Phase4); jiggle (Phase4); need_hardlinked_archive (Est); maybe_delete_files_from_manifest (48/101; Merge); atomic_data_jiggle (22/90; Phase4); backup_phase4_server_all (Links, Phase4) | — |
| server/bedup.c | find_key (Bedup); add_key (1/13; Bedup); full_match (Bedup); get_part_cksum (Bedup); get_full_cksum (Bedup); do_hardlink (Bedup); check_files (Bedup); get_link (Bedup); level_exclusion (Bedup); process_dir (Bedup); iterate_over_clients (Bedup) | add_file; file_free_content; file_free; files_free; mystruct_free_content; mystruct_free; mystruct_delete_all; reset_old_file; looks_like_ours; sighandler; is_regular_file; in_group; process_from_conf; process_from_command_line; usage; run_bedup |
| server/blocklen.c | get_librsync_block_len (Util) | — |
| server/bu_get.c | have_backup_file_name_w (4/8; Hist); maybe_add_ent (Bu, Hist, Links); setup_indices (Bu, Hist); do_bu_get_list (Bu, Links) | get_link; have_backup_file_name; bu_get_list; bu_get_list_with_working; bu_get_current |
| server/ca.c | get_ca_dir (Ca); get_generated_crl_path (Ca); get_crl_path (Ca); remove_file (1/5; Ca); symlink_file (Ca); ca_init (Ca); maybe_make_dhfile (9/32; Ca); maybe_make_crl (12/51; Ca); ca_server_setup (Ca); check_path_does_not_exist (Ca); sign_client_cert (Ca); csr_server_func (Ca); ca_x509_verify_crl (Ca) | ca_server_maybe_sign_client_cert |
| server/child.c | write_status (Chld, Scr); check_timer_script (Scr); timed_operation (Scr); run_server_script (Scr); get_action_from_client (Scr); child (Scr) | timed_operation_status_only |
| server/delete.c | delete_backup (Links); range_loop (Delete); do_delete_backups (Delete); delete_backups (Delete); do_delete_server (Delete) | do_rename_w; recursive_delete_w |
| server/deleteme.c | deleteme_move (Fs, Links) | deleteme_maybe_delete |
| server/diff.c | send_diff (Diff); send_deletion (Diff); send_addition (Diff); diff_manifests (63/96; Diff); send_backup_name_to_client (Diff); do_diff_server (Diff) | get_manifest_path |
| server/dpth.c | incr (Dpth); dpth_incr (Dpth); dpth_mk (Dpth); dpth_mk_prim (Dpth); dpth_mk_seco (Dpth); get_highest_entry (Dpth); dpth_init (Dpth); dpth_set_from_string (Dpth) | dpth_alloc; dpth_free; dpth_release_and_move_to_next_in_list; dpth_release_all; get_next_comp |
| server/extra_comms.c | append_to_feat (Extra); get_restorepath (Extra); set_restore_path (Extra); send_features (Extra); do_autoupgrade (Auto, Extra); setup_seed (Extra); extra_comms_read (Auth, Extra); vers_init (Extra); check_seed (Extra); extra_comms (Extra) | — |
| server/fdirs.c | fdirs_init (12/20; Links) | fdirs_alloc; fdirs_free_content; fdirs_free |
| server/link.c | recursive_hardlink (14/89; Links); duplicate_file (Phase4); do_link (Phase4, Rtmp) | — |
| server/list.c | list_server_init (14/52; List); maybe_fake_directory (List); check_browsedir (List); list_manifest (44/69; List); get_extradesc (List); send_backup_name_to_client (List); list_all_backups (List); list_contents_one (List); list_contents_many (List); do_list_server_work (List); do_list_server (1/4; List) | list_server_free |
| server/main.c | huphandler (Chld); usr2handler (Chld); chld_check_for_exiting (Chld); split_addr (Lis); init_listen_socket (Chld); init_listen_sockets (Chld); check_ipacl (Ipacl); run_child (16/161; Auth, Chld, Login); find_listen_in_conf (Chld); chld_check_counts (Chld); setup_parent_child_pipe (Chld); setup_parent_child_pipes (Chld); process_incoming_client (Chld); extract_client_name (Chld); server_get_working (Chld); extract_client_cntr_status (Chld); update_status_child_client_lists (Chld, Mon); run_server (Chld); server (Chld) | get_in_addr; log_listen_socket; setup_signals; daemonise; write_to_status_children; maybe_update_status_child_client_lists; check_addr_for_desc; socket_activated_init_listen_sockets |
| server/manio.c | manio_open_next_fpath (4/30; Rubble); do_manio_open (16/32; Resume); manio_read (Resume, Rubble, Sbuf); manio_write_sbuf (Sbuf); manio_copy_entry (82/126; Seed); manio_tell (Resume, Rubble); manio_close_and_truncate (Resume) | man_off_t_free_content; man_off_t_free; man_off_t_alloc; get_next_fpath; manio_open_last_fpath; manio_alloc; manio_open; manio_open_phase1; manio_open_phase2; manio_open_phase3; manio_free_content; get_fcount_path; manio_read_fcount; manio_close; manio_write_cntr; manio_forward_through_sigs; manio_seek |
| server/manios.c | manios_open_phase2 (2/40; Rubble) | manios_alloc; manios_close |
| server/monitor/browse.c | do_browse_manifest (7/44; Cache); browse_manifest (Cache) | browse_manifest_start |
| server/monitor/cache.c | ent_add_to_list (1/16; Cache); cache_load (Cache); cache_loaded (Cache); result_list (Cache); cache_lookup (Cache) | ent_free; ent_alloc; ents_free; cache_free; cache_dump; result_single |
| server/monitor/cstat.c | cstat_permitted (Mon); cstat_get_client_names (Cstat); cstat_free_w (Cstat); cstat_remove (Cstat); cstat_reload_from_client_confs (Cstat); cstat_set_run_status (Mon); cstat_load_data_from_disk (Cstat); cstat_set_backup_list (Mon) | cstat_set_sdirs_protocol_known; cstat_set_sdirs; set_cstat_from_conf; reload_from_clientdir |
| server/monitor/json_output.c | json_start (Jin, Json, Mon); json_clients (Jin); json_clients_end (Jin); json_end (Jin); flag_wrap_str (Jin); open_backup_log (Mon); flag_wrap_str_zp (Jin, Mon); do_counters (Cntr, Jin, Mon); json_send_backup (Cache, Jin, Mon); str_array (Jin); do_children (Jin, Mon); json_send_client_start (Jin, Mon); json_send_client_end (Jin, Mon); json_send_client_backup (Jin, Mon); json_send_client_backup_list (Jin, Mon); json_send (Jin, Mon); json_from_entry (Cache); json_send_msg (Jin) | json_set_pretty_print; write_all; flag_matches; json_cntr; json_send_warn |
| server/monitor/status_server.c | parse_cntr_data (Mon); clean_up_cntrs (Mon); parse_clients_list (Mon); parse_parent_data (Mon); status_server_parse_cmd (Mon); parse_client_data (Mon); parse_data (Mon); get_initial_data (1/40; Cstat); status_server (25/61; Cstat, Mon) | dump_cbno; response_marker_start; response_marker_end; have_data_for_running_clients; have_run_statuses |
| server/quota.c | quota_log_bytes (Ph1); check_quota (Ph1, Util) | — |
| server/restore.c | srestore_matches (Restore); srestore_check (Restore); restore_list_check (Restore); want_to_restore (Hls, Restore); setup_cntr (Est); hard_link_substitution (Hls); restore_sbuf (Hls); restore_ent (Hls, Restore); restore_remaining_dirs (Hls, Restore); restore_stream (Hls, Restore, Sbuf); actual_restore (Hls); get_logpaths (1/8; Hls) | restore_end_func; restore_end; maybe_open_restore_list; parallelism_warnings; restore_manifest; do_restore_server |
| server/restore_sbuf.c | create_zero_length_file (Hist); inflate_or_link_oldfile (Hist, Rtmp); do_send_file (Hist, Transfer); verify_file (Transfer); process_data_dir_file (Hist, Rtmp); restore_file (Hist) | restore_sbuf_all |
| server/resume.c | read_phase1 (Resume); set_higher_datapth (Dpth, Resume); forward_past_entry (Resume); forward_before_entry (Resume); get_last_good_entry (Dpth, Resume); do_resume_work (Resume, Rubble); do_resume (Bak, Dpth, Resume, Rubble) | add_to_cntr; forward_past_entry_counter; tell_and_truncate |
| server/rubble.c | get_resume_path (Rubble); append_to_resume_file (Rubble); resume_count (Rubble); incexc_matches (Rubble, Util); working_delete (Bak, Links, Rubble); working_resume (Rubble); get_fullrealwork (Bak, Rubble); fix_log_finishing (Links); recover_finishing (Bak, Links); recover_working (Bak, Links, Rubble); recover_currenttmp (Links); check_for_rubble (Links); check_for_rubble_and_clean (Bak, Links) | do_unlink; log_recovery_method |
| server/run_action.c | get_lock_sdirs_for_write (Action); client_can_generic (Action); client_can_monitor (Action); client_can_restore (Action); maybe_do_notification (Action, Bak); parse_restore_str (Action); parse_restore_str_and_set_confs (Action); run_restore (Action); run_delete (Action); run_list (Action); run_diff (Action); unknown_command (Action); buf_to_notify_str (7/11; Action); log_command (1/20; Action); run_action_server_do (Action, Bak, Chld); run_action_server (Action, Bak) | maybe_write_first_created_file |
| server/sdirs.c | sdirs_create_real_working (19/45; Links, Rubble); do_common_dirs (Links, Rubble) | sdirs_alloc; do_lock_dirs; free_prepend_s; sdirs_get_real_manifest; sdirs_get_real_working_from_symlink; do_dirs; sdirs_init_from_confs_plus_cname; sdirs_init_from_confs; sdirs_init; sdirs_free_content; sdirs_free |
| server/timer.c | check_timebands (Timer); get_interval_in_seconds (Timer); check_interval (Timer); run_timer_internal (Timer) | is_dir_stat; check_manual_file; get_current_day_and_hour_and_unixtime; strtolower; run_timer_internal_w; run_timer_script; run_timer |
| server/timestamp.c | timestamp_write_to_buf (Bu) | timestamp_read; timestamp_write; timestamp_get_new; timestamp_to_long |
| server/vss_strip.c | dump_sid (Vss); skip_data (Vss); ensure_read (Vss); dump_headers (Vss); ensure_write (Vss); extract_data (Vss); main_work (Vss); main (18/53; Vss) | open_fp; usage; get_progname |
| server/zlibio.c | zlib_inflate (Hist, Phase4, Rtmp) | — |
| ssl.c | ssl_check_cert (Ca) | ssl_do_accept; ssl_load_dh_params; ssl_load_dh_params; password_cb; ssl_load_globals; check_path; ssl_load_keys_and_certs; ssl_initialise_ctx; ssl_destroy_ctx; sanitise; setenv_x509; setenv_x509_date; setenv_x509_serialnumber |
| strlist.c | do_strlist_add (Find, Incexc, Util); strlist_add (Util); strlist_add_sorted (Util); strlist_add_sorted_uniq (Util); strlist_find (Util) | strlist_free; strlists_free; strlist_alloc; strlist_compile_regexes |
| times.c | encode_time (Lst) | format_datestr; getdatestr; gettimenow; time_taken |
| transfer.c | do_write (Transfer, Vss); do_inflate (Transfer) | read_efs; transfer_efs_in |

Not modelled at all: alloc.c, berrno.c, client/backup.c, client/cvss.c, client/glob_windows.c, client/monitor.c, client/monitor/lline.c, forkchild.c, hexmap.c, md5.c, regexp.c, server/compress.c, slist.c; everything below win32, yajl and uthash; all
header files except for the structures and constants cited.

## What is false of the code, or proved only in part

These are the claims with status `partial`; the note says what is proved, what
is not, and which theorem refutes the rest of the statement.

* **C05** Ordering of manifest entries with the same path is consistent — False for metadata against trailing VSS data of one path (both orders answer 1); everything else proved. (`C05_entry_order_refuted`)
* **C09** A truncated manifest is never mistaken for a complete one — False for a cut exactly after a 5-byte header; exact characterisation proved. (`C09_truncation_refuted`)
* **C10** Network framing does not depend on how the bytes arrive — Memory-safety half false: a full buffer without a NUL is scanned past its end. Delivery, order, completeness proved for every schedule that does not hit it, and absence of it proved when reads cannot fill the buffer. (`C10_overread_refuted`)
* **C100** A reload leaves the work under way alone — Proved for all runs without a reload and in which the server does not end with an error. Refuted with a reload: run_server closes its ends of the pipes of all children, so that the next report of a child fails (EPIPE), which ends its backup with an error. (`C100_reload_refuted`)
* **C101** A gentle shutdown waits for all children — Proved for all runs without a reload. Refuted after one: the server ends at once although children from before the reload are still at work. New clients go on being accepted while it waits, as in the witness. (`C101_reload_refuted`)
* **C102** No more backups at the same time than max_parallel_backups — The number is taken when the child is forked, from the last reports. Proved: the decision is exactly that, and the maximum holds if every backup has been reported before the next client connects. Refuted otherwise: a child reports only after two seconds, and two clients that connect before that both do their backups. (`C102_race_refuted`)
* **C104** Client scripts run in order, guard the work and are told how it went — Proved for at most 57 configured arguments per script. Refuted beyond: a command line has at most 63 words, those after are dropped silently and the script is run without them. (`C104_arguments_dropped_refuted`)
* **C105** Exit status 0 of the client means the work was done — Proved if the buffers of the connection can be set up. Refuted otherwise: after a failure there the client ends with status 0 without having backed up anything, and does not fail over. The answer resume alone, without a level, is read behind its end (C105_behind_the_end: only that one); a server of this version never sends it. (`C105_silent_failure_refuted`)
* **C107** Server scripts guard the action and are told how it went — Proved: order, guarding, arguments and notifications, for argument lists that fit into 63 words. Refuted: the last sentence; a post script that is run although the action failed puts its own result in the place of the failure, so the child ends with success. (`C107_failure_lost_refuted`)
* **C110** A signature cannot overrun the client's buffer — Refuted: the copy is not bounded. A data message of more than 16000 bytes is accepted by the network layer, whose limit is 32026, and overruns the buffer on the client's heap. Proved: no overrun if no message is longer than the buffer, which C109_sent_exact gives for a server of this version. (`C110_overflow_refuted`)
* **C112** A value in an answer is the same after writing and reading — Proved for values at most 127 deep whose integers are between -(2^63-1) and 2^63-1. Refuted: the smallest integer, -2^63, is written and then refused by the reader; and the bound MAX_VALUE_TO_MULTIPLY of yajl_parser.c:32 adds the last digit of LLONG_MAX in place of nothing, so a text such as [9223372036854775870] gets past the check and overflows a signed integer. (`C112_smallest_refuted`, `C112_overflow_refuted`)
* **C114** If every call of the writer succeeds, the text is well formed — Proved for calls that close the kind of container that is open and give each key a value. Refuted: closing a map as an array, and closing a map after a lone key, succeed and give ill-formed texts (the error path of json_send_backup() does the like when a log cannot be opened); a call refused for its depth, or a close of nothing, leaves the depth outside of the array of states, which the next call reads. (`C114_wrong_close_refuted`, `C114_lone_key_refuted`, `C114_depth_refuted`)
* **C115** An answer of the server is shown as it was written — Proved for answers as they are sent to clients later than 2.1.8, without the counters of a backup that is over and without the listing of its files, with the contents of at most one log per client and then only that one backup, as requests ask for them. Refuted: the last sentence. If what is left comes as a piece of its own, it is taken for the beginning of the next answer and is an error; the server cuts what it writes every 16000 bytes, so this happens when an answer has one byte more than a multiple of that. (`C115_newline_refuted`)
* **C116** After an answer the screen has the server's clients and backups — Proved: all but two clauses; for the backups, that they are right exactly if the newest one that was shown is still there, or at most one was shown. Refuted: if the newest backup is gone (deleted, or a cancelled one), the loop that merges ends at once (json_input.c:425-428), and older backups are shown twice and those that are gone are kept; and a client that the server has no more is shown on (as a comment at json_input.c:578-579 says). (`C116_twice_refuted`, `C116_gone_refuted`)
* **C117** No text makes the monitor's reader write or read outside of its memory — Refuted: a key of 32 bytes or more is copied into an array of 32 bytes with snprintf's limit taken from its own length; an array of counters or of backups before any name follows a NULL pointer; a number for a counter without its kind, after a client that is known was named a second time, is written through a pointer into counters that were freed (json_input.c:165-168, cntr_ent is not reset). What holds is that the answers of the server do none of this (C115_answer_partial: the result is JEnd, not JUndef). (`C117_key_refuted`, `C117_counters_refuted`, `C117_backups_refuted`, `C117_freed_refuted`)
* **C118** The counters that arrive are those of the server — Proved for all values below 2^64 of all counters but one, given that the text arrives (C115, which needs that no count is 2^63); a start time of 0 is shown as the time at which the answer came. Refuted: the entry for the total is not sent and is 0 on the other side. (`C118_total_refuted`)
* **C120** Signing a client's certificate request touches nothing that was there — Proved: everything but the arrival. Refuted: receive_a_file() sets ret=0 whatever transfer_gzfile_in() returned (handy.c:530-537), so a request of which nothing has come is signed all the same. The content of the request is not looked at: it is for the signing program to see that the name in it is that of the client (burp_ca gives the request to openssl ca as it is). One process at a time; links in the directories are not followed. (`C120_whole_refuted`)
* **C121** A client that got its certificate has the one that was signed — Proved: if all that was sent has come and both report success, the files are the right ones; an idle client changes nothing; no file but its own eight is touched; a client that failed has no key. Refuted: after a lost connection the client reports success with empty certificates and never asks again; a failing client removes certificates that were there before; and if the client fails after the server has signed, all its further requests are refused. (`C121_lost_refuted`, `C121_removed_refuted`, `C121_retry_refuted`)
* **C122** Putting the server's name into the configuration changes nothing else — Proved for names without newline, NUL, blanks or quotes at the ends, and lines of at most 4094 bytes. Refuted: the name is written as it came, so a server (before its certificate is checked) can add lines to the client's configuration, such as scripts to run; and a name with which the old one begins is not written, since strncmp_w() compares over the length of the new one only (ca.c:249). (`C122_lines_refuted`, `C122_prefix_refuted`)
* **C123** Only the right certificate is accepted — Proved for certificates with a common name of at most 255 bytes without NUL; the revocation check is proved in full. Refuted: a name is compared up to its first NUL, and up to 255 bytes; and a certificate without common name is compared with the description of the cipher, which is still in the buffer. OpenSSL's X509_NAME_get_text_by_NID() is taken to copy the bytes and to leave the buffer alone if there is no such entry. (`C123_name_refuted`)
* **C124** Starting the server does not damage its certificate authority — Proved: the first three sentences, for a directory that is not reached through a link. Refuted: is_dir_lstat() does not follow links, so with a link everything is made again and the link is removed if that fails; and existing certificates are removed before it is known whether they can be replaced. (`C124_link_refuted`, `C124_removed_refuted`)
* **C125** A list prints what is in the backup — Proved: what is printed, from the manifest on the server to the text, with localtime() as any function. Refuted: the exit status, since the client takes the end of the connection for the end of the list (list.c:156), so that a list cut between two entries, or one that the server could not read to its end, exits with 0; an owner of 2^31 or more is printed as a negative number; a server that sends an empty path first makes the long list write through a NULL pointer; a long diff prints the same as a short one. (`C125_status_refuted`, `C125_server_failure_refuted`, `C125_owner_refuted`, `C125_empty_refuted`, `C125_long_diff_refuted`)
* **C126** A parseable list given to a restore restores what was listed — Proved for whole backups, with or without a pattern. Refuted for a directory: the length printed is that of the whole path but the text is the name alone, so that what is read back is no path at all. (`C126_browse_refuted`)
* **C127** The server does what the command line asked for — Proved for requests of at most 511 bytes (127 for a deletion) and backups named without a colon. Refuted otherwise: a longer pattern is cut without a word, and other files are restored; and a backup named by its timestamp, which the server would accept, is cut at its first colon. (`C127_long_refuted`, `C127_stamp_refuted`)
* **C128** Client and server agree on the login — Proved for names and passwords that are not empty and versions that parse. Refuted: an empty text is never sent (asfd.c:482-494), so with an empty password both sides wait for each other; and a client can, before any password, have the server compute with a version that overflows. The check of name and password is any function here (see C30 and after for it). Sending is taken to succeed. (`C128_empty_refuted`, `C128_version_refuted`)
* **C129** The command line says what is done — Proved for all but the last of a kind and the last sentence. Refuted: with -a R -a r the list of standard input still limits the restore; -q 0 does not switch off a delay of the configuration; and daemon=0 and fork=0 of the configuration are always replaced by the defaults of the command line (prog.c:514-515). getopt() is modelled after glibc. (`C129_last_refuted`, `C129_delay_refuted`, `C129_daemon_refuted`)
* **C130** Testing the configuration tests the configuration — Proved: the first sentence, and the second without -C. Refuted with -C: run_test_confs() never sets its return value to 0 on that path (prog.c:207-229), so the exit status is that of a failure whatever the configuration. (`C130_client_refuted`)
* **C131** The scan that the server keeps is the scan that was sent — Proved: all but the quota for sizes that add up to 2^64 or more, and the last sentence. Refuted: the sum is a uint64_t, so sizes that add up to a little over 2^64 are within any quota; the client is told ok before warnings and quota are looked at (backup_phase1.c:57, 79-91); any of the five words that end a stream ends the scan. Writing to disk and to the client is taken to succeed, but for messages that are too long. (`C131_quota_refuted`, `C131_ok_refuted`, `C131_word_refuted`)
* **C132** What is in force for a client is what its own file says, else what the server's file says — Proved: single values, own lists, scripts, what is private, and that nothing stays. Refuted: server_script_notify=1 in the server's file makes the client's own notify settings ineffective (conffile.c:1235-1239, it is copied into both settings, which are inherited, and not cleared); a list option on the command line is added once for the server and again for each client (1154-1178 runs in both); := in the client's file does not replace the server's restore_client and super_client; with ssl_peer_cn in the server's file no name at all is expected (1478-1481), so that the certificate check refuses each client without its own; a line of 4095 bytes or more is read as two lines (1308). What included files set is taken as given; options that conf_finalise() derives are left out. (`C132_notify_refuted`, `C132_notify_own_refuted`, `C132_cli_refuted`, `C132_reset_refuted`, `C132_peer_cn_refuted`, `C132_lines_refuted`)
* **C133** At any time, wherever earlier connections stopped, the current backup is complete — Proved for all histories: all phases done, newest, never back, kept, success, second connection; that nothing is missing if no connection stopped in one of two moments. Refuted: if the server stops between the removal of changed and unchanged (backup_phase3.c:147-148), the next connection resumes, makes an empty file changed and fails (resume.c:591, 540), and the one after it takes that for an interruption of phase 3 (backup.c:219-226) and merges anew, so that all new and changed files are missing from the current backup; if it stops while a working directory is being deleted (rubble.c:118), what is left may be resumed by the next connection, above all since a missing file incexc counts as equal includes (rubble.c:73-79); if it stops after phase 3 and before the link finishing, the next connection deletes the backup although the client was told that it has ended (rubble.c:335-344); a backup that is resumed after phase 2 is completed without okbackupend (backup.c:229-238). What a phase leaves when it stops half way is counted as not begun (C27, C38); the file systems calls keep their order over a stop; the super client is left out. (`C133_whole_refuted`, `C133_delete_refuted`, `C133_told_refuted`, `C133_untold_refuted`)
* **C134** A backup is made when it is allowed and due, both sides agree on it, and notifications say what happened — Proved: when a backup is made, that both sides agree, and who is notified of a backup that was made or tried. Refuted: get_new_bno() returns -1 as an uint64_t and the test for a number below 0 never holds (backup.c:146-165, 354), so a backup that could not list the others goes on with number 2^64-1; a success is notified of a refused forced backup, of one refused to a super client and of a check of the timer (run_action.c:583-594 with backup.c:310-352). Writing the answer is taken to succeed. (`C134_number_refuted`, `C134_notified_refuted`)
* **C135** Removing a directory removes it and nothing else, and says whether it is gone — Proved: the first sentence if the path itself can be looked at, that nothing is added or changed, that all goes if nothing is refused, that directories-only keeps every file, and that its quiet variant leaves no directory without files if nothing is refused. Refuted: a path that lstat() fails on for any reason counts as gone (fsops.c:199-204); an entry that cannot be removed in a directory below makes the removal stop, so that entries that could be removed stay (fsops.c:238-241), since RECDEL_ENTRIES_REMAINING is overwritten with RECDEL_OK at the end of a directory (fsops.c:225) and rmdir() then fails; for the same reason recursive_delete_dirs_only() stops at the first directory that keeps a file. Links are leaves of the model; the path given is taken not to be one for the variants that remove directories only. (`C135_gone_refuted`, `C135_rest_refuted`, `C135_dirs_refuted`)
* **C136** Making the directories that lead to a path makes just those, and none above the limit — Proved: what is made, in success and failure; the limit for paths at or below it, which is how the server calls it. Refuted: for a path elsewhere that sorts after the limit directories are made outside of it (fsops.c:99); success is returned although a component is a file (fsops.c:118-123). Paths are absolute, by components. (`C136_limit_refuted`, `C136_dir_refuted`)
* **C137** A backup that is moved aside is moved whole, and nothing moved aside before is lost — Proved: the move if one of the hundred names that are tried is free; in any case that the directory is whole, but for its timestamp, in one of the two places, and that only an empty directory can be lost. Refuted: the timestamp is removed before rename() is tried (deleteme.c:46-52), and the name with .100 is used without looking whether it is taken (deleteme.c:41), so that a backup which cannot be moved stays where it was without a timestamp, and is not listed any more (bu_get.c:56). (`C137_keeps_refuted`)
* **C138** Files count as equal exactly if they have the same content — Proved for files that can be read to the end. Refuted: a failing read counts as the end of the file, and two files that cannot be opened count as equal (fsops.c:485-489, 498-508). (`C138_equal_refuted`)
* **C139** A hard link that is restored has the content of the file it was linked to — Proved for sorted manifests in which the file comes before its links and is the first entry with data of its inode and of its name, provided that no entry with data of the same inode is left out between a wanted file and a wanted link to it. False otherwise. (1) Metadata entries count as file data and hard links have metadata entries of their own (client/backup_phase1.c:147), with the inode of the file. If the file and a later link are restored but a link in between is not, its metadata is put in the table of files left out (server/restore.c:476-483), and the later link is answered with that metadata alone: neither the data nor a link comes out for it. (2) A special file has no data, so that a link to one which is not wanted is sent as a link to something that is not restored. (3) With separate VSS entries, that entry comes first under the name and is put in for the link instead of the data; as VSS entries are never wanted in a restore without vss_restore, this happens to every link even if everything is restored. (`C139_meta_refuted`, `C139_special_refuted`, `C139_vss_refuted`)
* **C140** The rate at which data is sent stays within the configured limit — Proved for clocks that do not fall behind the first attempt: the total so far is what is limited. Not true of single seconds: nothing is limited in the second in which the first attempt is made (asfd.c:264), and after a time of silence as much as was not sent goes at once. If the clock is set back to before the first attempt there is no limit at all until it has caught up: the start is not moved (asfd.c:258 sets the current time, which the next round sets again). A limit below zero is accepted although the message says that it should be greater than zero (conffile.c:286), and then nothing is ever sent after the first second: the connection hangs. The comparison is made in float: the theorems need only that a number which is not below the limit does not become one that is, which holds for a conversion that is monotone and exact on floats. (`C140_second_refuted`, `C140_clock_refuted`, `C140_zero_refuted`)
* **C141** A file is stored under its own path only where that path can be made — The decision is proved exactly, and for absolute paths that every name in the tree is within the limit and that places differ. The limit for the whole path is the longest path plus the longest name (fsops.c:339), 4351 on Linux, while open() takes no more than 4095 bytes: a path that the client can open, but that is too long once it is below the directory of the tree, is put in the tree, cannot be opened there, and the backup fails (backup_phase2.c:128-132) where storing it under a number was meant. The first name of a path that does not begin with a slash is not looked at (backup_phase2.c:53-58). (`C141_path_refuted`, `C141_first_refuted`)
* **C142** Seeding moves a whole first backup from one directory to another — Proved for entries below the source directory whose data is under their path or a number. False otherwise. (1) The source directory itself is recorded with a slash at its end (manio.c:275-285), so that the next backup does not know it. (2) The targets of links are not changed: a hard link names the old path of its file, which the backup does not have. (3) The start of a path is taken off by length alone, without a look whether it is that of the source. For a shorter path the server reads past the end of the path and records what it finds there. This is so for the source directory itself on Windows, because setup_seed puts a slash before the drive letter (extra_comms.c:202-212), and for any short path outside the source that a client sends. (`C142_dir_refuted`, `C142_link_refuted`, `C142_past_refuted`)
* **C143** What the server announces for a restore is what it sends — The numbers announced are proved for all manifests and selections, and that as many entries are sent, under the conditions of C139. By kind and in bytes it is false: a hard link whose file is not restored is announced as a link without data and sent as a file with data (restore.c:201-213 against 228-275). Counters that were just made are assumed; when all backups are restored in one go the numbers add up, and only the first are sent, as the comment at restore.c:631-636 says. (`C143_kind_refuted`)
* **C145** A program starts only with complete settings — What is accepted, and what the settings are afterwards, is proved exactly. False: the default for the name in the server's certificate is cut at the first colon (conffile.c:719-720), so that for a server given by an IPv6 address it is the first group of the address. A name of a client that begins with a dot, in the certificate or of the host, becomes the empty name when domains are cut off, and is accepted (conffile.c:551-557, 687-700). Also seen: the listing of the configured paths (conffile.c:742-751) is never made, as it is under a test of a pointer that is never NULL where the number was meant; autoupgrade_os with '..' inside a name is refused though the message speaks of a component. Certificates and host names are inputs; running out of memory is left out. (`C145_peer_refuted`, `C145_name_refuted`)
* **C146** Every address a server listens on has a valid port and a positive limit of children — What is accepted and which limit each address has is proved exactly. False: the port is only checked with atoi(), so that '49x' passes as a port, and the mistake shows when the socket is opened (main.c, getaddrinfo). Also seen: an IPv6 address in brackets and a host name with a hyphen are refused. Characters are those of the C locale. (`C146_port_refuted`)
* **C147** The keys of the status monitor move as they say and always leave something selected — What the keys select is proved for all sequences of keys while the lists and the size of the screen stay as they are. That the program never follows a NULL pointer is proved if every client has a backup, and it is proved exactly when it does. False otherwise: the kind of log that was chosen is remembered when another client is chosen (status_client_ncurses.c:440), and the keys up and down on the page of logs use the backup without a test (1095, 1110): after a log of one client, down on that page of a client without backups ends the program with a segmentation fault. False as well: when the list of another client is opened, the window is moved to the end of that list, because the backup selected is still that of the client before, and the one selected then is not shown until the next turn of the loop (494-504, 648). Not modelled: q, resizing, what the server changes meanwhile (C115 to C117). (`C147_crash_refuted`, `C147_shown_refuted`)
* **C15** Running out of storage paths is reported, not wrapped — The counter reports exhaustion exactly, but phase 2 ignores the report and wraps to the first path. (`C15_exhaustion_refuted`)
* **C16** Merging changed and unchanged lists gives the complete sorted manifest — False when one entry is in both lists: it is written twice. Everything else proved. Seeding is not modelled. (`C16_merge_refuted`)
* **C17** Every scanned entry is dealt with exactly once — For every interleaving each scanned entry is dealt with exactly once and in order, with the outcome its matching old entry calls for; the old entries counted as deleted are exactly those nothing new builds on. Refuted as stated: an entry whose type changed (or that is fetched anew) is counted as deleted although the scan has it; and a client that says it has finished before being told the end makes the server accept a backup with scanned entries not dealt with. (`C17_deleted_refuted`, `C17_early_end_refuted`)
* **C18** A modified file is never recorded as unchanged — The whole decision table is characterised and what is carried over keeps the old data's location and stored form. Refuted as stated: on a Unix client a different change time (and size, and compression setting) does not stop a file from being carried over when the modification time is the same; a hard link turned into a file reuses the master's data but records the link's compression and no salt. (`C18_same_refuted`, `C18_former_link_refuted`)
* **C19** Every kept backup restores exactly what was backed up — Proved for all histories of backups, each stopped and run again any number of times, and deletions, with finalisation as modelled for C25 and restoring as in restore_file(); under the laws of zlib and librsync. Missing: backups finalised with a file at max_hardlinks or with deltas for both compressed and uncompressed files, where the claim fails if the server stops (C25). What the transfer leaves behind is taken from C18 and C54.
* **C21** The most recent backups are always kept — As worded false when backup numbers have gaps (ages are differences of numbers). Proved without gaps, and for every backup of age up to the first keep value; the newest always survives. (`C21_newest_kept_refuted`)
* **C24** The backup list is ordered and numbered — Order holds for numbers below 10,000,000; from there names sort wrongly and a number is given out twice (refuted). (`C24_list_sorted_refuted`)
* **C25** Finalising a backup survives a crash at any point — Proved for any number of stops at any write, link, rename or unlink, under the laws of zlib and librsync: the previous backup and all other files stay readable and unchanged, and a run to the end gives the new backup. Missing, because false: (1) a file at max_hardlinks is copied in place, and a stop while copying leaves a piece that the next run takes as finished; (2) with max_hardlinks reached the next run empties the link of the old file left by a stopped run; (3) if uncompressed and compressed files are mixed, a compressed file is inflated into that link, overwriting the old contents of another file. Losing data not yet written by the operating system is not modelled. (`C25_copy_refuted`, `C25_link_limit_refuted`, `C25_wrong_file_refuted`)
* **C26** The current symlink survives a crash during deletion or finalisation — Proved for all histories of backups, deletions and recoveries with a stop at every step, except stops while deleting the only backup, or the newest one during an unfinished backup. For these the claim is refuted: the client directory is left in a state from which no later request recovers. A stop after the log was compressed needs two requests instead of one. (`C26_only_backup_refuted`, `C26_unfinished_refuted`, `C26_dangling_refuted`, `C26_twice_refuted`)
* **C27** Leftovers of an interrupted backup are handled consistently — Which interrupted backups are resumed, deleted or refused is proved for all states. Refuted parts: a kept scan may lose entries, a complete backup may be deleted, settings that are a prefix of the old ones count as the same, and a half deleted working directory is resumed. That finishing is completed before anything else belongs to the connection model of C26. (`C27_entries_lost_refuted`, `C27_complete_deleted_refuted`, `C27_shorter_settings_refuted`, `C27_half_deleted_refuted`)
* **C28** Two backups of the same client never run at once — As worded false: a process that opened the lock file before it was unlinked locks the orphan while another creates and locks a new one. Proved for all interleavings in which no process has the file open when it is unlinked, and in general that each file has one holder. (`C28_mutual_exclusion_refuted`)
* **C29** Server-initiated restore includes restore only the named trees — The test is a plain prefix test, so siblings sharing a prefix are restored too; exact characterisation proved. (`C29_includes_refuted`)
* **C32** Authentication needs the right password — As worded false: when crypt() fails, or is not built in, any password is accepted for a hashed password. Proved exactly when crypt() gives a result; the plain form and the absence of both hold in general. (`C32_auth_refuted`)
* **C33** Acting as another client never widens permissions — Permissions only shrink and force is never gained, for all sequences. 'Must be listed' is true of one switch, but false of two: the second is checked against the client switched to first. (`C33_listed_refuted`)
* **C37** A resume happens only with identical include/exclude settings — As worded false: an offered text whose length is a multiple of 4096 and that is a beginning of the stored one is taken for the same. Exact characterisation proved; exact equality for all other lengths. (`C37_settings_refuted`)
* **C38** Resuming after any truncation loses and repeats nothing — For every list of entries, every cut of the two manifests at any byte and every behaviour of the reads of them: what is kept is exactly the complete entries of changed (less an unfinished group of entries for one Windows file) and the complete entries of unchanged before the last one kept; scan and previous manifest are continued behind it; storage paths are new. With any interrupted run of phase 2 before and any finished run after it, the manifest is in order and has every scanned path once but those the client did not send, provided the entries of unchanged before the last complete entry of changed had reached the disk. Without that (nothing flushes the files), or with a read error in unchanged, entries are lost silently: shown by example. Counters and the truncation itself are not modelled. (`C38_unflushed_refuted`, `C38_read_error_refuted`)
* **C39** The nearest include/exclude entry decides — Proved: the longest configured directory over a path decides (with the filters), it is unique, and everything a scan lists has such a directory that includes it. False part: a path in no configured directory takes the flag of the last entry of the list (it is never asked for during a scan whose directories end in at most one slash). Extensions with a dot in them never match. (`C39_outside_refuted`, `C39_dotted_refuted`)
* **C40** The scan reports entries in file-list order, each once — Proved for all trees and configurations without the three causes refuted beside it: directories to include inside one another below an excluded one, starting directories on an excluded kind of file system, and directories to include that end in two slashes; each of these is listed twice. (`C40_nested_refuted`, `C40_filesystem_refuted`, `C40_slashes_refuted`)
* **C44** Quota decisions — Refusal exact. Over both quotas no soft-quota warning is given, and the soft quota is logged as the hard one. (`C44_soft_refuted`)
* **C46** Client restore never writes outside the chosen directory — For every tree of directories, files and links, every list of entries, every choice of failing calls: entries are made and removed only in the restore directory and below (no path to strip; sockets only if the directory's path fits in sun_path), nothing outside changes in the tree, no old file is written into (unless data come with the type of a directory), and attributes are set only inside (for links of the type of a link, no hard links of other types, no ACLs, no special files with overwrite). The six ways out that remain are shown as counterexamples. Nothing else changes the tree during the restore in the model. (`C46_attributes_soft_link_refuted`, `C46_hard_link_refuted`, `C46_hard_link_through_soft_link_refuted`, `C46_data_refuted`, `C46_attributes_special_refuted`, `C46_attributes_acl_refuted`, `C46_socket_refuted`, `C46_strip_path_refuted`)
* **C47** Client names cannot escape the configuration directory — Proved in full for the name a connection ends up with and for clients switched to. While authenticating, the configuration read is a direct child only for non-empty names: the empty name, also what is left of '.example.com', reads memory in front of the string and may be accepted. (`C47_cname_refuted`)
* **C48** Version comparison — Second and third components of 100 or more run into the next component. (`C48_version_refuted`)
* **C49** Exclude logic expressions evaluate like boolean expressions — True for expressions of two words or more whose operands have at most one 'not' and whose nested groups have three items or more; freed memory is then used exactly when a group stands neither first nor last or is the whole line. Refuted: the manual page's own example uses freed memory; nested short groups and empty groups crash; 'not not' and a line of a single test give the default. regcomp/regexec are a parameter. (`C49_memory_refuted`, `C49_nested_refuted`, `C49_double_not_refuted`, `C49_empty_group_refuted`, `C49_empty_refuted`, `C49_single_refuted`, `C49_escaped_end_refuted`)
* **C51** Browsing a directory of a backup lists exactly what is in it, each name once — The names, their order, attributes and marks are proved for every directory and sorted manifest. Two parts of the statement are refuted: the length sent with a name is that of the whole path, so bytes behind the name's buffer go to the client whenever a directory of three characters or more is browsed (C51_overreads, C51_bytes_refuted); a directory only known from a link in it is sent as that link (C51_link_refuted). Regular expressions are an arbitrary predicate; sending is taken to succeed. (`C51_bytes_refuted`, `C51_link_refuted`)
* **C52** Configuration lines are parsed inside their buffer — As worded false. Exact characterisation: memory outside is used when the part before '=' holds only blanks and colons, or when a quoted value ends in a backslash that escapes nothing. (`C52_lines_refuted`)
* **C53** Sizes and compression levels mean what they say — Sizes of 2^64 bytes or more wrap around silently; proved below. Compression levels exact. (`C53_file_size_refuted`)
* **C55** Restoring or verifying a backup leaves the repository as it is — A restore or verify leaves every other file with its content at every step and removes the temporary ones, also when leftover temporary files are files of their own or tmp1 gets replaced by a link. False after a stopped restore: tmp1 may be a hard link to a stored file, and the next restore of a compressed file inflates into it. (`C55_stopped_refuted`)
* **C56** A scan lists exactly what is there and wanted — Soundness for all scans, with the kind of every entry; completeness when file system borders are crossed freely. False part: a name that cannot be looked at right after a hard-linked file is sent as a hard link to that file. (`C56_absent_refuted`)
* **C57** Hard links in the file list lead to something sent before — Proved for all scans in which everything that is reached can be looked at. Otherwise a vanished name can take the place of a file in the table of hard links, and the file's content is then not backed up. (`C57_vanished_refuted`)
* **C58** A restore without overwrite replaces nothing — For every tree, list of entries and choice of failing calls. Holds if links do not carry the type of a directory and files not that of a fifo; otherwise refuted by example. (`C58_replaced_refuted`)
* **C60** Linking duplicates changes the content of no file at any moment — Proved for every checksum function and every pattern of failing open, link, rename and unlink calls, at every moment of the run. With failing reads it is false (C60_content_refuted): a read error is taken for the end of the file, so that two different files of one size whose reads fail at the same place match and the second is replaced by a link to the first. Other programs changing the disk during the run are not modelled; the names are visited in any order given beforehand. (`C60_content_refuted`)
* **C61** Deleting duplicates never deletes the last copy — Proved when no read fails, with any failing open or unlink. With failing reads the only copy can be deleted (C61_copy_refuted), for the reason given for C60. (`C61_copy_refuted`)
* **C62** Deduplication saves what it says, stays under the link limit and misses no duplicate — Saved bytes, limit and completeness are proved (limit and completeness when every file can be opened and read). What a run without options calls saveable is not what a linking run saves when a duplicate has several names (C62_report_refuted). (`C62_report_refuted`)
* **C63** Deduplication on the server keeps out of backups that are going on — What is left alone is proved for every set of clients with directories of their own and link targets of at most 254 bytes, for links that do not change during the run. Two parts are refuted: the links of one client are remembered for the next, so a backup of the next client with the same name is left out (C63_all_refuted); and the byte before the link buffer is read when the first client lacks one of the links, as an idle client does (C63_memory_refuted). (`C63_all_refuted`, `C63_memory_refuted`)
* **C64** Comparing two backups lists exactly what differs — The lines and their order are proved for all sorted manifests whose paths begin with a slash and are longer than it. For other paths the text is wrong (C64_text_refuted): C:/x of a Windows client is shown as /C:/x, and the root directory as an empty path. Sending is taken to succeed. (`C64_text_refuted`)
* **C65** ACLs and extended attributes come back as they were saved — Proved for attributes that fit in 2^31-1 bytes together, which every Linux file system ensures; when they do not fit together none of them is saved (C65_too_long). Two attributes of almost 2^31 bytes each make the size of a block wrap around and memory is overwritten (C65_wrap_refuted). Failing allocations are not modelled, and an ACL is one request to the system. (`C65_wrap_refuted`)
* **C67** The acl and xattr settings decide what is saved — The settings only decide whether a file is announced in the scan; what is collected afterwards is always everything. A file with an ACL and an attribute is saved with both when either setting is on (C67_settings_refuted). (`C67_settings_refuted`)
* **C68** Extended attributes come back on the BSDs — Proved for names of at most 127 bytes and values not longer than the list of the names. The code asks for the length of the list of names where it needs the length of the value, so longer values come back cut (C68_value_refuted, for every name and value); names of 128 bytes and more overwrite memory where char is signed (C68_name_refuted). (`C68_value_refuted`, `C68_name_refuted`)
* **C70** Metadata comes back whatever the settings — Proved below 16000 bytes. At 16000 the NUL put behind a full buffer is written outside it (C70_metadata_refuted). (`C70_metadata_refuted`)
* **C71** A file reported as restored is whole — Proved: with complete writes, a successful transfer wrote exactly what the data before the end message decodes to. The full claim is false in three ways: the server sends the end message after a read error of a file it sends as it is stored; a short write is taken for a full one; a compressed stream that stops early is accepted. (`C71_read_error_refuted`, `C71_short_write_refuted`, `C71_cut_short_refuted`)
* **C72** A file that could not be read to the end is not kept — Proved for clients that compress or encrypt. Without either, the end message with a matching checksum is sent after the read error, the server keeps the part it got, and the interrupt that follows comes too late (C72_read_error_refuted). (`C72_read_error_refuted`)
* **C73** Setting up a key stays within its buffers — The initialisation vector has 9 bytes, and the cipher every new backup uses needs 16 (C73_keys_refuted, for all passwords); the oldest kind copies the password into 256 bytes without looking at its length. The lengths of keys and vectors are those OpenSSL documents for the two ciphers. (`C73_keys_refuted`)
* **C75** Certificates and upgrades arrive whole or fail — The content of a complete transfer is proved; a failed one is reported as a success (C75_a_file_refuted). (`C75_a_file_refuted`)
* **C76** Stripped Windows files hold exactly their data — Proved when no piece ends right behind the header of the data; such a piece makes the restore fail (C76_cut_refuted). A file that stops early is restored without complaint (C76_truncated_refuted). (`C76_cut_refuted`, `C76_truncated_refuted`)
* **C77** Failing writes are noticed while stripping — Proved for write() taking nothing or part. Its error return is compared as an unsigned number and not noticed: the writing runs backwards out of the buffer, or one error puts a wrong byte into the file. (`C77_error_refuted`, `C77_once_refuted`)
* **C78** vss_strip gives the file's data — A cut inside a header is no error, a second data stream is left out, and a short write repeats data. (`C78_cut_refuted`, `C78_two_refuted`, `C78_short_refuted`)
* **C79** A status report read back is what was counted — Proved for paths of at most 255 characters. Refuted beyond: the text is cut before its newline, so the report is not seen until another one ends the line. (`C79_long_path_refuted`)
* **C81** The counters say how often each thing happened, and their total is their sum — Rows are exact. The grand total is the sum of the rows for all calls about the kinds in the table; refuted for a changed file counted by the client, which the grand total counts as changed and as new, and for the printed column of deletions, because a row with deletions only is not printed. (`C81_changed_refuted`, `C81_deleted_refuted`)
* **C82** Statistics carry the right name, number and unit — Right for every type letter and every name except hard_links and soft_links, which are exchanged. Units are right below 2^50 - 2^26 and wrong for every size from 2^50 on (EB and PB exchanged). (`C82_links_refuted`, `C82_human_refuted`)
* **C83** A monitor's request is read as it was meant — Proved for names without colons and requests that fit the buffer. Refuted for a client with a colon in its name, which is another request, and for requests that are too long, which are sent without end of line. (`C83_colon_refuted`, `C83_too_long_refuted`)
* **C84** A monitor is told about the clients it may see and no others — Proved for requests that name no client, and for the backups of a hidden client whatever is asked. Refuted for a request by name: labels, children and their counters of a hidden client are told. (`C84_named_refuted`)
* **C86** Every request gets an answer — Proved when the logs can be opened and the peer version is not set or is new. Refuted: an old peer version with an unfinished backup nobody works on is a NULL pointer; a log that cannot be opened or a version of zero ends the status server. (`C86_crash_refuted`, `C86_end_refuted`)
* **C87** The list of clients is what is configured — The list is exact. Permission is that of the present configuration whenever the time of its file or of the main configuration has changed; refuted otherwise: a change within the same second, or in an included file, is not noticed. (`C87_stale_refuted`)
* **C88** Browsing through the cache lists what is in the directory — Proved for directories that are in the backup. Refuted for others: a part of the path that is not found is passed over, so that /nowhere/etc lists /etc. (`C88_absent_refuted`)
* **C89** Browsing through the cache shows each entry's own attributes — What is shown is given exactly. It is the entry's own if an entry for its directory is in the manifest. Refuted otherwise: the mode of a made-up directory, and of the first entry in it, is masked with S_IFDIR instead of being set to it, which gives 0 for files. (`C89_made_up_refuted`)
* **C90** The browse cache makes no difference to the answers — Proved as long as the manifest of a numbered backup stays the same. Refuted when it changes: a number that is used again after a deletion, or a backup that was browsed before it had a manifest, shows the old names. (`C90_stale_refuted`)
* **C91** Include and exclude settings arrive as they were sent — Proved for values that begin with no quote and have no blank at either end. Refuted for others: quotes and blanks, which the configuration file can have with quotes, are lost on the way. (`C91_same_refuted`)
* **C92** A server may set nothing but include and exclude options — Options that no line names are kept. Refuted for those that are named: every option can be set, scripts included, and every file of the client's can be read as configuration. (`C92_any_option_refuted`, `C92_any_file_refuted`)
* **C93** Client and server agree before the work begins — Proved for all interleavings when autoupgrade_os is not set to an empty name and the server's configuration for the client has no seeds and no regex_case_insensitive of its own. Refuted for those: with an empty name both sides wait for ever, and the server's own settings are not taken back. (`C93_silence_refuted`, `C93_own_refuted`)
* **C95** A restore the server asks for stays below the client's prefix — Proved for client prefixes other than the root directory. Refuted with it: a server prefix without a slash is relative to the directory the client was started in. (`C95_prefix_refuted`)
* **C96** Upgrades are sent only to older clients and only from the upgrade directory — Which files are sent is exact. They are below the directory unless the name given is . or .., for which files beside the directory are sent. (`C96_confined_refuted`)
* **C98** No address serves more clients at once than configured — Proved for all runs without a reload (SIGHUP). Refuted with one: the reload forgets the children that are at work, which are then no longer counted, so that the address serves up to its number again. (`C98_reload_refuted`)
* **C99** A connection that fails does not end the server — Proved: the server ends with an error only when accept fails other than by a signal, the address of the peer cannot be told, or pipe or fork fail; in good order only after SIGUSR2. Refuted for these failures: a connection that the client has taken back before accept (ECONNABORTED, or EAGAIN as the socket does not block), or one fork that fails under load, ends the whole server. (`C99_accept_refuted`, `C99_fork_refuted`)

## Other observations made while reading (not claimed)

* `server/main.c`: children only report when a backup number is set, so
  restores and verifies are never shown as running.
* `cntr.c:625-631`: the JSON statistics file is opened without truncation.
* `handy.c`: the 15968-byte output buffer is too small for what a cipher may
  put out for a message of up to 65535 bytes; a key derivation outside 0..2
  passes a NULL cipher.
* `fsops.c:225`: a recursive delete replaces "entries remaining" by "ok".
* `server/diff.c`: `cntr->bno` is used though the configuration may be NULL.
* `bu_get.c`: `get_new_bno` returns -1 as an unsigned number.
* `deleteme.c`: after 100 attempts an existing directory is renamed over.
* `conffile.c`: a negative keep value is not rejected; including files by a
  pattern that matches nothing is an error.
* `client/restore.c`: `restore_link` leaks a path; stripping path components
  does not update the recorded length.
* `log.c`/`handy.c`: `set_blocking` uses `flags | ~O_NONBLOCK`.
* `server/quota.c`: the message about the hard quota prints the soft quota.
* `run_script.c`: at most 63 arguments are passed on.
* `vss_strip.c`: after a short read the remaining part is read at an address
  computed with the wrong unit.
* Sparse Windows data (stream 9) is lost by stripping.
* JSON numbers from 2^63 on are shown negative.
* `cache.c`: freeing leaves the root pointer dangling.

* `process_incoming_client`: when fork fails, the accepted socket and the four pipe ends are not closed (the server
  ends anyway).
* `maybe_update_status_child_client_lists`: a list that does not fit into the write buffer is dropped, and so is
  every later one of that length.
- C105: `do_client()` jumps to `end` with the initial `CLIENT_OK` when `async_alloc()`, `as->init()` or `setup_asfd_ssl()` fail (client/main.c:488-491).
- C107: `child()` overwrites the result of the action with that of the post script (server/child.c:322).
- C108: on an append error `write_status()` frees its iobuf, and with it the string of the counters, which is freed again when the counters are. The error cannot happen for the stream type used there.
- C110: `rs_infilebuf_fill()` copies `rbuf->len` bytes into a buffer of `ASYNC_BUF_LEN` without a check (rs_buf.c:157); `asfd` accepts messages of about twice that length.
- C112: `MAX_VALUE_TO_MULTIPLY` (yajl_parser.c:32) is LLONG_MAX/10 + LLONG_MAX%10; the product in the loop can overflow before it is checked.
- C114: `yajl_gen_map_close()` and `yajl_gen_array_close()` do not look at what is open (yajl_gen.c:419-462).
- C115: `write_all()` sends the newline of an unbeautified answer as a message of its own, and cuts longer texts every 16000 bytes (json_output.c:35-49); a last message of blanks only is an error for `json_input()`.
- C116: `merge_bu_lists()` sets its loop variable to NULL after removing the first element (json_input.c:425-428).
- C117: `lastkey[32]` and `snprintf(lastkey, len+1, …)` with the length of the key (json_input.c:32, 265-272).
- `json_send_backup()`: if a log cannot be opened, the containers that are open are not those that are closed (C114), and the answer is not valid JSON.
- C120, C121: `receive_a_file()` returns 0 after any failure of the transfer (handy.c:530-537).
- C120: `check_path_does_not_exist()` and the reception are not one step; two connections of the same client can both pass the check (not modelled).
- C120: `burp_ca --sign` passes the request to `openssl ca -batch`, which takes the name from the request (configs/certs/CA/burp_ca.in:262-286); nothing compares it with the name of the client.
- C122: the name of the server is taken from a message that comes before `ssl_check_cert()` (client/main.c:346-364).
- C123: with `ca_crl_check` but without `ca_conf`, `fopen(NULL)` is called (ca.c:539, 25).
- C125: `do_list_client()` breaks out of its loop with ret=0 on any failure to read (list.c:156, 225).
- C125: `list_item()` of a link ignores its return value (list.c:217), unlike the others; it can only differ if memory runs out.
- C126: `ls_short_output()` prints `path.len`, which in a browse list is the length of the full path (the server shortens the text, not the length).
- C128: `authorise_server()` returns directly at auth.c:202, past its cleanup.
- C128: the client sends its password before `ssl_check_cert()` has compared the name in the certificate of the server (client/main.c:334, 364).
- C129: `-a delet` is a diff; `-b` given a third time is ignored; `-j` is accepted by getopt() but is wrong usage.
- C129: `real_main()` returns directly if the user cannot be changed (prog.c:510), so the lock is not released.
- C130: `if(!r)` in `client_conf_checks()` (conffile.c:742) tests a pointer that is never NULL, so the configured paths are never listed.
- C131: the log of an exceeded hard quota shows the value of the soft quota (quota.c:27).
- C131: an entry of type manifest is accepted during the scan and kept without attributes; reading it back fails, so the backup ends in phase 2.
- C132: an unknown word for working_dir_recovery_method sets the method to unset without an error (conffile.c:321-323); a misspelt option name is passed over without a word.
- C133: recovery of a finishing backup whose log is already compressed fails once, as fix_log_finishing() returns -1 after inflating it (rubble.c:187-249); the following connection succeeds.
- C133: the connection that removes a dangling link working fails (rubble.c:172, 326).
- C134: notify_success_changes_only looks only at what changed (run_action.c:117-124), so a backup with only new files notifies nobody, though the manual page says new or changed.
## What `Print Assumptions` lists

Every theorem named in MANIFEST.json was given to `Print Assumptions` (the
commands are also in the `…Props.v` files).  No axiom is added by this
development and no theorem depends on one.  (`coqchk` over the whole build also
names seven constants of the standard library's `ssr.ssrunder`, which are the
parameters of a module type there; no theorem here uses them.)

Closed under the global context (646):
`C01_path_order_shape`, `C01_pathcmp_total_order`, `C02_dir_contiguous`, `C03_is_subdir_deeper`, `C03_is_subdir_exact`, `C04_components_faithful`, `C04_has_dot_component_exact`, `C04_is_absolute_exact`, `C05_entry_order_partial`, `C05_entry_order_refuted`, `C06_base64_roundtrip`, `C06_min_undefined`, `C07_attribs_roundtrip`, `C08_framing_roundtrip`, `C08_long_rejected`, `C09_file_of_is_written`, `C09_truncation_partial`, `C09_truncation_refuted`, `C100_reload_refuted`, `C100_reports_partial`, `C101_end_partial`, `C101_ends_partial`, `C101_reload_refuted`, `C101_waits_partial`, `C102_bound_partial`, `C102_decision_partial`, `C102_race_refuted`, `C102_recorded`, `C102_unlimited`, `C103_listed`, `C103_once`, `C103_stays`, `C104_arguments_dropped_refuted`, `C104_at_most_63_words`, `C104_backup_partial`, `C104_nothing_unasked`, `C104_restore_partial`, `C105_backup_done_partial`, `C105_behind_the_end`, `C105_code_passed`, `C105_go_ahead`, `C105_log_skipped`, `C105_refusals`, `C105_silent_failure_refuted`, `C105_status_partial`, `C106_failover`, `C107_failure_lost_refuted`, `C107_scripts_partial`, `C108_intervals`, `C108_report_prompt`, `C108_timer_prompt`, `C109_received_exact`, `C109_sent_exact`, `C109_signature_arrives`, `C10_network_complete`, `C10_network_framing_partial`, `C10_no_overread`, `C10_overread_refuted`, `C110_overflow`, `C110_overflow_refuted`, `C110_safe_partial`, `C111_string`, `C111_unicode`, `C112_overflow_refuted`, `C112_smallest_refuted`, `C112_value_partial`, `C113_nested`, `C113_pieces`, `C114_depth_refuted`, `C114_lone_key_refuted`, `C114_well_formed_partial`, `C114_wrong_close_refuted`, `C115_answer_partial`, `C115_flags`, `C115_live`, `C115_newline_refuted`, `C116_backups_partial`, `C116_first`, `C116_gone_refuted`, `C116_others`, `C116_own`, `C116_twice_refuted`, `C117_backups_refuted`, `C117_counters_refuted`, `C117_freed_refuted`, `C117_key_refuted`, `C118_counters_partial`, `C118_total_refuted`, `C119_message`, `C11_append_in_bounds`, `C11_end_to_end`, `C11_oversize_never_sent`, `C11_send_stream`, `C11_write_progress`, `C120_failed`, `C120_keeps`, `C120_once`, `C120_runs_partial`, `C120_whole_refuted`, `C121_again`, `C121_both_partial`, `C121_idle`, `C121_keeps_partial`, `C121_link`, `C121_lost_refuted`, `C121_removed_refuted`, `C121_retry_refuted`, `C122_file`, `C122_lines_refuted`, `C122_prefix_refuted`, `C122_settings_partial`, `C122_text`, `C123_crl`, `C123_crl_closed`, `C123_crl_off`, `C123_name_partial`, `C123_name_refuted`, `C123_needed`, `C124_cleared`, `C124_keeps_partial`, `C124_link_refuted`, `C124_links`, `C124_removed_refuted`, `C124_settled`, `C125_backups`, `C125_browse`, `C125_buffer`, `C125_client_prints`, `C125_cut_partial`, `C125_empty_refuted`, `C125_long_diff_refuted`, `C125_many`, `C125_missing`, `C125_mode`, `C125_one`, `C125_owner_refuted`, `C125_server_failure_refuted`, `C125_status_refuted`, `C126_browse_refuted`, `C126_relist`, `C127_both`, `C127_long_refuted`, `C127_slashes`, `C127_stamp_refuted`, `C127_understood_partial`, `C128_agree_partial`, `C128_client`, `C128_empty_refuted`, `C128_server`, `C128_version_refuted`, `C128_warning`, `C129_daemon_refuted`, `C129_delay_refuted`, `C129_delete`, `C129_end`, `C129_happens`, `C129_last_refuted`, `C129_missing`, `C129_quiet`, `C129_run`, `C129_stop`, `C129_stray`, `C129_unknown`, `C129_words`, `C12_entries_roundtrip`, `C12_entries_truncated`, `C130_client_refuted`, `C130_only`, `C130_status_partial`, `C131_cut`, `C131_done`, `C131_kept`, `C131_ok_refuted`, `C131_quota_partial`, `C131_quota_refuted`, `C131_read_back`, `C131_warned`, `C131_word_refuted`, `C132_cli_refuted`, `C132_fresh`, `C132_inherited`, `C132_lines_partial`, `C132_lines_refuted`, `C132_list_partial`, `C132_notify_own_refuted`, `C132_notify_refuted`, `C132_own_list`, `C132_peer_cn_partial`, `C132_peer_cn_refuted`, `C132_private`, `C132_reset_refuted`, `C132_script`, `C132_together_partial`, `C132_value`, `C133_current`, `C133_delete_refuted`, `C133_forward`, `C133_kept`, `C133_success`, `C133_told_partial`, `C133_told_refuted`, `C133_two`, `C133_untold_refuted`, `C133_whole_partial`, `C133_whole_refuted`, `C134_agree`, `C134_goes_on`, `C134_not_due`, `C134_notified_partial`, `C134_notified_refuted`, `C134_number_refuted`, `C135_all`, `C135_dirs_partial`, `C135_dirs_refuted`, `C135_files`, `C135_files_part`, `C135_gone_partial`, `C135_gone_refuted`, `C135_part`, `C135_rest_partial`, `C135_rest_refuted`, `C136_any`, `C136_dir_refuted`, `C136_limit_partial`, `C136_limit_refuted`, `C136_whole`, `C137_keeps_partial`, `C137_keeps_refuted`, `C137_moved_partial`, `C137_stamp`, `C138_equal_partial`, `C138_equal_refuted`, `C138_missing`, `C139_content_partial`, `C139_meta_refuted`, `C139_order`, `C139_sent_partial`, `C139_special_refuted`, `C139_vss_refuted`, `C139_wanted`, `C13_file_paths_safe`, `C13_network_paths_safe`, `C13_start_safe`, `C140_clock_refuted`, `C140_first`, `C140_limited_partial`, `C140_second_refuted`, `C140_sent`, `C140_sleeps`, `C140_zero_refuted`, `C141_apart`, `C141_first_refuted`, `C141_long`, `C141_names_partial`, `C141_path_refuted`, `C141_placed`, `C142_data`, `C142_dir_refuted`, `C142_entry_partial`, `C142_link_refuted`, `C142_none`, `C142_order`, `C142_past_refuted`, `C143_by_kind`, `C143_bytes`, `C143_kind_refuted`, `C143_sent_partial`, `C143_total`, `C144_one_in_k`, `C144_removable`, `C144_when`, `C145_accepted`, `C145_client_partial`, `C145_name_refuted`, `C145_peer_refuted`, `C145_ports`, `C145_server`, `C146_address`, `C146_all`, `C146_limits`, `C146_port_partial`, `C146_port_refuted`, `C147_backups`, `C147_clients`, `C147_crash`, `C147_crash_refuted`, `C147_logs`, `C147_safe_partial`, `C147_selected`, `C147_shown_refuted`, `C14_capacity`, `C14_hand_out_distinct`, `C14_hand_out_increasing`, `C14_init_fresh`, `C14_names_injective`, `C14_resume_fresh`, `C15_exhaustion_partial`, `C15_exhaustion_refuted`, `C16_merge_complete_partial`, `C16_merge_file_partial`, `C16_merge_refuted`, `C16_merge_sorted_partial`, `C16_merge_strict_partial`, `C17_deleted_exact`, `C17_deleted_refuted`, `C17_each_once`, `C17_early_end_refuted`, `C17_fates`, `C18_decision`, `C18_delta_when`, `C18_former_link_refuted`, `C18_same_only_if_partial`, `C18_same_refuted`, `C19_restores_partial`, `C20_auto_safe`, `C20_manual_answer`, `C20_manual_safe`, `C20_only_deletable`, `C21_newest_kept_partial`, `C21_newest_kept_refuted`, `C21_young_kept_partial`, `C22_final_state`, `C22_subset`, `C22_terminates`, `C22_window_kept`, `C22_windows_disjoint`, `C23_keep_accepted`, `C23_keep_ok`, `C24_list_ascending_partial`, `C24_list_complete`, `C24_list_sorted_partial`, `C24_list_sorted_refuted`, `C24_new_name`, `C24_new_number`, `C24_numbering`, `C25_completes_partial`, `C25_copy_refuted`, `C25_link_limit_refuted`, `C25_previous_safe_partial`, `C25_success_means`, `C25_wrong_file_refuted`, `C26_dangling_refuted`, `C26_deleted_partial`, `C26_finished_partial`, `C26_never_lost_partial`, `C26_only_backup_refuted`, `C26_recovers_at_once_partial`, `C26_recovers_partial`, `C26_twice_refuted`, `C26_unfinished_refuted`, `C27_complete_deleted_refuted`, `C27_deleted_when`, `C27_entries_lost_refuted`, `C27_half_deleted_refuted`, `C27_incomplete_scan`, `C27_resumed_finishes_partial`, `C27_resumed_when`, `C27_same_settings_partial`, `C27_shorter_settings_refuted`, `C28_mutual_exclusion_partial`, `C28_mutual_exclusion_refuted`, `C28_no_release_calm`, `C28_one_holder_per_file`, `C29_includes_no_miss_partial`, `C29_includes_prefix_partial`, `C29_includes_refuted`, `C29_includes_slash_partial`, `C30_chosen_functional`, `C30_read_error`, `C30_select_exact`, `C31_numbers_distinct`, `C31_restore_order`, `C32_auth_exact_partial`, `C32_auth_none`, `C32_auth_plain`, `C32_auth_refuted`, `C33_listed_refuted`, `C33_switch`, `C33_switches_chain_partial`, `C33_switches_perms`, `C34_lock_first`, `C34_old_delete_nothing`, `C34_only_permitted`, `C34_permitted_done`, `C34_refused_effects`, `C34_unknown_nothing`, `C35_check_exact`, `C35_entry4_exact`, `C35_entry6_exact`, `C35_list_exact`, `C35_text_exact`, `C36_interval_value`, `C36_timer_defined`, `C36_timer_exact`, `C36_timer_invalid`, `C37_settings_exact`, `C37_settings_partial`, `C37_settings_refuted`, `C38_interrupted`, `C38_plan`, `C38_read_error_refuted`, `C38_resumed_backup_partial`, `C38_unflushed_refuted`, `C39_dotted_refuted`, `C39_extensions`, `C39_filters`, `C39_include_extensions`, `C39_listed_is_included_partial`, `C39_longest_decides_partial`, `C39_longest_unique`, `C39_outside_refuted`, `C40_filesystem_refuted`, `C40_in_order_partial`, `C40_nested_refuted`, `C40_not_nested`, `C40_slashes_refuted`, `C41_add_end`, `C41_find`, `C41_sorted`, `C41_uniq`, `C42_bucket_in_range`, `C42_data_once`, `C42_send_exact`, `C42_send_length`, `C43_block_len_exact`, `C43_block_len_functional`, `C44_refused`, `C44_soft_partial`, `C44_soft_refuted`, `C45_delete_exact`, `C45_remains_functional`, `C46_attributes_acl_refuted`, `C46_attributes_inside_partial`, `C46_attributes_soft_link_refuted`, `C46_attributes_special_refuted`, `C46_check`, `C46_data_new_partial`, `C46_data_refuted`, `C46_entries_inside_partial`, `C46_hard_link_refuted`, `C46_hard_link_through_soft_link_refuted`, `C46_outside_unchanged_partial`, `C46_socket_refuted`, `C46_strip_path_refuted`, `C47_admitted_component`, `C47_client_conf_path_partial`, `C47_cname_component_partial`, `C47_cname_exact`, `C47_cname_refuted`, `C47_switched_component`, `C48_version_compare_partial`, `C48_version_refuted`, `C48_version_short`, `C48_version_value`, `C49_double_not_refuted`, `C49_empty_group_refuted`, `C49_empty_refuted`, `C49_escaped_end_refuted`, `C49_excluded`, `C49_file_ext`, `C49_file_match`, `C49_file_size`, `C49_memory_refuted`, `C49_nested_refuted`, `C49_no_groups`, `C49_not_regular`, `C49_path_match`, `C49_single_refuted`, `C49_value_partial`, `C49_which_groups`, `C50_quoted_roundtrip`, `C51_browse_partial`, `C51_bytes_refuted`, `C51_full_listing`, `C51_link_refuted`, `C51_name`, `C51_overreads`, `C52_lines_in_bounds_partial`, `C52_lines_refuted`, `C53_compression_exact`, `C53_file_size_partial`, `C53_file_size_refuted`, `C54_conversation`, `C54_new_manifest`, `C54_new_paths_distinct`, `C55_sent`, `C55_stopped_refuted`, `C55_unchanged_partial`, `C56_absent_refuted`, `C56_all_wanted_partial`, `C56_only_wanted_partial`, `C57_links_lead_back_partial`, `C57_vanished_refuted`, `C58_nothing_replaced_partial`, `C58_replaced_refuted`, `C59_all`, `C59_backups`, `C59_current`, `C59_number`, `C59_other`, `C60_clean`, `C60_content_partial`, `C60_content_refuted`, `C60_others`, `C60_report`, `C61_copy_partial`, `C61_copy_refuted`, `C62_complete`, `C62_limit`, `C62_report_refuted`, `C62_saved`, `C63_all_partial`, `C63_all_refuted`, `C63_change`, `C63_going`, `C63_logs`, `C63_memory_refuted`, `C64_diff_partial`, `C64_error`, `C64_text_refuted`, `C64_unread`, `C65_roundtrip_partial`, `C65_too_long`, `C65_wrap_refuted`, `C66_any_bytes`, `C66_any_bytes_bsd`, `C66_cut`, `C67_off_partial`, `C67_on`, `C67_settings_refuted`, `C68_name_refuted`, `C68_roundtrip_partial`, `C68_value_refuted`, `C69_content`, `C69_sent`, `C70_metadata_partial`, `C70_metadata_refuted`, `C71_cut_short_refuted`, `C71_read_error_refuted`, `C71_restored_partial`, `C71_short_write_refuted`, `C72_read_error_partial`, `C72_read_error_refuted`, `C73_keys_partial`, `C73_keys_refuted`, `C74_verify`, `C75_a_file_partial`, `C75_a_file_refuted`, `C76_chunks`, `C76_cut_refuted`, `C76_stripped_partial`, `C76_truncated_refuted`, `C77_error_refuted`, `C77_nothing_taken_partial`, `C77_once_refuted`, `C78_agrees`, `C78_cut_partial`, `C78_cut_refuted`, `C78_first`, `C78_headers`, `C78_headers_cut`, `C78_short_refuted`, `C78_two_refuted`, `C79_long_path_refuted`, `C79_one_line`, `C79_roundtrip_partial`, `C80_any_run`, `C80_fits`, `C81_changed_refuted`, `C81_deleted_refuted`, `C81_each_row`, `C81_fail_on_warning`, `C81_grand_total`, `C81_printed_partial`, `C81_sums_up_partial`, `C82_by_name_partial`, `C82_by_type`, `C82_human_partial`, `C82_human_refuted`, `C82_links_refuted`, `C82_phase_names`, `C82_phase_words`, `C83_colon_refuted`, `C83_page_partial`, `C83_request_partial`, `C83_too_long_refuted`, `C84_backups_partial`, `C84_listing_names`, `C84_listing_partial`, `C84_named_partial`, `C84_named_refuted`, `C84_permitted`, `C84_status_partial`, `C85_listed`, `C85_report`, `C85_running`, `C86_answered_partial`, `C86_browse`, `C86_crash_refuted`, `C86_end_refuted`, `C86_file`, `C86_unknown`, `C86_unsupported`, `C87_earned`, `C87_fresh_partial`, `C87_list`, `C87_stale_refuted`, `C88_absent_refuted`, `C88_kinds`, `C88_names_partial`, `C88_top`, `C89_first`, `C89_made_up_refuted`, `C89_own_partial`, `C90_same_partial`, `C90_stale_refuted`, `C91_same_partial`, `C91_same_refuted`, `C91_taken_partial`, `C92_any_file_refuted`, `C92_any_option_refuted`, `C92_unnamed_partial`, `C93_agreement_partial`, `C93_half`, `C93_lines`, `C93_own_refuted`, `C93_seed`, `C93_silence_refuted`, `C94_confirmed`, `C94_no_upgrade`, `C94_protected`, `C95_prefix_partial`, `C95_prefix_refuted`, `C96_confined_partial`, `C96_confined_refuted`, `C96_never`, `C96_sent`, `C97_interrupted`, `C98_children_bound_partial`, `C98_registered_partial`, `C98_reload_refuted`, `C98_served_iff_partial`, `C99_accept_refuted`, `C99_ends_only_partial`, `C99_ends_well_partial`, `C99_fork_refuted`.
