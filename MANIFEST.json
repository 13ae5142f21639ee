{
 "claims": [
  {
   "property": "C01",
   "status": "proved",
   "theorems": [
    "C01_pathcmp_total_order",
    "C01_path_order_shape"
   ],
   "note": ""
  },
  {
   "property": "C02",
   "status": "proved",
   "theorems": [
    "C02_dir_contiguous"
   ],
   "note": ""
  },
  {
   "property": "C03",
   "status": "proved",
   "theorems": [
    "C03_is_subdir_exact",
    "C03_is_subdir_deeper"
   ],
   "note": ""
  },
  {
   "property": "C04",
   "status": "proved",
   "theorems": [
    "C04_has_dot_component_exact",
    "C04_is_absolute_exact",
    "C04_components_faithful"
   ],
   "note": "C locale isalpha; bytes above 127 are not alphabetic"
  },
  {
   "property": "C05",
   "status": "partial",
   "theorems": [
    "C05_entry_order_refuted",
    "C05_entry_order_partial"
   ],
   "note": "False for metadata against trailing VSS data of one path (both orders answer 1); everything else proved."
  },
  {
   "property": "C06",
   "status": "proved",
   "theorems": [
    "C06_base64_roundtrip",
    "C06_min_undefined"
   ],
   "note": "INT64_MIN excluded: the C code negates it (undefined)."
  },
  {
   "property": "C07",
   "status": "proved",
   "theorems": [
    "C07_attribs_roundtrip"
   ],
   "note": "Field ranges of 64-bit Linux; unsigned fields equal to 2^63 excluded (undefined negation)."
  },
  {
   "property": "C08",
   "status": "proved",
   "theorems": [
    "C08_framing_roundtrip",
    "C08_long_rejected"
   ],
   "note": "Payloads of 4 GiB or more are outside the model of the 32-bit length print."
  },
  {
   "property": "C09",
   "status": "partial",
   "theorems": [
    "C09_truncation_refuted",
    "C09_truncation_partial",
    "C09_file_of_is_written"
   ],
   "note": "False for a cut exactly after a 5-byte header; exact characterisation proved."
  },
  {
   "property": "C10",
   "status": "partial",
   "theorems": [
    "C10_overread_refuted",
    "C10_network_framing_partial",
    "C10_network_complete",
    "C10_no_overread"
   ],
   "note": "Memory-safety half false: a full buffer without a NUL is scanned past its end. Delivery, order, completeness proved for every schedule that does not hit it, and absence of it proved when reads cannot fill the buffer."
  },
  {
   "property": "C100",
   "status": "partial",
   "theorems": [
    "C100_reports_partial",
    "C100_reload_refuted"
   ],
   "note": "Proved for all runs without a reload and in which the server does not end with an error. Refuted with a reload: run_server closes its ends of the pipes of all children, so that the next report of a child fails (EPIPE), which ends its backup with an error."
  },
  {
   "property": "C101",
   "status": "partial",
   "theorems": [
    "C101_end_partial",
    "C101_waits_partial",
    "C101_ends_partial",
    "C101_reload_refuted"
   ],
   "note": "Proved for all runs without a reload. Refuted after one: the server ends at once although children from before the reload are still at work. New clients go on being accepted while it waits, as in the witness."
  },
  {
   "property": "C102",
   "status": "partial",
   "theorems": [
    "C102_unlimited",
    "C102_decision_partial",
    "C102_recorded",
    "C102_bound_partial",
    "C102_race_refuted"
   ],
   "note": "The number is taken when the child is forked, from the last reports. Proved: the decision is exactly that, and the maximum holds if every backup has been reported before the next client connects. Refuted otherwise: a child reports only after two seconds, and two clients that connect before that both do their backups."
  },
  {
   "property": "C103",
   "status": "proved",
   "theorems": [
    "C103_listed",
    "C103_once",
    "C103_stays"
   ],
   "note": "For the text of the message. It is put into the buffers of the status children only if it fits; a list longer than the buffer (32032 bytes) is never delivered, which is not part of the statement."
  },
  {
   "property": "C104",
   "status": "partial",
   "theorems": [
    "C104_backup_partial",
    "C104_restore_partial",
    "C104_nothing_unasked",
    "C104_at_most_63_words",
    "C104_arguments_dropped_refuted"
   ],
   "note": "Proved for at most 57 configured arguments per script. Refuted beyond: a command line has at most 63 words, those after are dropped silently and the script is run without them."
  },
  {
   "property": "C105",
   "status": "partial",
   "theorems": [
    "C105_status_partial",
    "C105_backup_done_partial",
    "C105_refusals",
    "C105_code_passed",
    "C105_go_ahead",
    "C105_log_skipped",
    "C105_behind_the_end",
    "C105_silent_failure_refuted"
   ],
   "note": "Proved if the buffers of the connection can be set up. Refuted otherwise: after a failure there the client ends with status 0 without having backed up anything, and does not fail over. The answer resume alone, without a level, is read behind its end (C105_behind_the_end: only that one); a server of this version never sends it."
  },
  {
   "property": "C106",
   "status": "proved",
   "theorems": [
    "C106_failover"
   ],
   "note": "The sessions are arbitrary: the k-th has any outcome. A client that is not enabled contacts nobody and ends with 0, as in the witness."
  },
  {
   "property": "C107",
   "status": "partial",
   "theorems": [
    "C107_scripts_partial",
    "C107_failure_lost_refuted"
   ],
   "note": "Proved: order, guarding, arguments and notifications, for argument lists that fit into 63 words. Refuted: the last sentence; a post script that is run although the action failed puts its own result in the place of the failure, so the child ends with success."
  },
  {
   "property": "C108",
   "status": "proved",
   "theorems": [
    "C108_intervals",
    "C108_report_prompt",
    "C108_timer_prompt"
   ],
   "note": "For a child with a pipe to the main process and a backup number. The product of the interval with 60 is taken not to overflow an int."
  },
  {
   "property": "C109",
   "status": "proved",
   "theorems": [
    "C109_sent_exact",
    "C109_received_exact",
    "C109_signature_arrives"
   ],
   "note": "librsync is not modelled: its jobs are any transition functions that keep the promises written down as contract and contract_in (hypotheses of the theorems, met by the jobs of the examples): it takes no more than there is, puts out no more than there is room for, says done only at the end, and a signature load consumes all its input."
  },
  {
   "property": "C11",
   "status": "proved",
   "theorems": [
    "C11_send_stream",
    "C11_append_in_bounds",
    "C11_write_progress",
    "C11_oversize_never_sent",
    "C11_end_to_end"
   ],
   "note": "Empty messages are dropped and oversize messages are retried for ever by the code; both are stated."
  },
  {
   "property": "C110",
   "status": "partial",
   "theorems": [
    "C110_safe_partial",
    "C110_overflow",
    "C110_overflow_refuted"
   ],
   "note": "Refuted: the copy is not bounded. A data message of more than 16000 bytes is accepted by the network layer, whose limit is 32026, and overruns the buffer on the client's heap. Proved: no overrun if no message is longer than the buffer, which C109_sent_exact gives for a server of this version."
  },
  {
   "property": "C111",
   "status": "proved",
   "theorems": [
    "C111_unicode",
    "C111_string"
   ],
   "note": "Strings as the lexer sees them when all of the string is there; C113 is for pieces. Checking of UTF-8 is switched off by burp."
  },
  {
   "property": "C112",
   "status": "partial",
   "theorems": [
    "C112_value_partial",
    "C112_smallest_refuted",
    "C112_overflow_refuted"
   ],
   "note": "Proved for values at most 127 deep whose integers are between -(2^63-1) and 2^63-1. Refuted: the smallest integer, -2^63, is written and then refused by the reader; and the bound MAX_VALUE_TO_MULTIPLY of yajl_parser.c:32 adds the last digit of LLONG_MAX in place of nothing, so a text such as [9223372036854775870] gets past the check and overflows a signed integer."
  },
  {
   "property": "C113",
   "status": "proved",
   "theorems": [
    "C113_pieces",
    "C113_nested"
   ],
   "note": "Up to the first callback of burp that refuses, which ends the reading."
  },
  {
   "property": "C114",
   "status": "partial",
   "theorems": [
    "C114_well_formed_partial",
    "C114_wrong_close_refuted",
    "C114_lone_key_refuted",
    "C114_depth_refuted"
   ],
   "note": "Proved for calls that close the kind of container that is open and give each key a value. Refuted: closing a map as an array, and closing a map after a lone key, succeed and give ill-formed texts (the error path of json_send_backup() does the like when a log cannot be opened); a call refused for its depth, or a close of nothing, leaves the depth outside of the array of states, which the next call reads."
  },
  {
   "property": "C115",
   "status": "partial",
   "theorems": [
    "C115_flags",
    "C115_live",
    "C115_answer_partial",
    "C115_newline_refuted"
   ],
   "note": "Proved for answers as they are sent to clients later than 2.1.8, without the counters of a backup that is over and without the listing of its files, with the contents of at most one log per client and then only that one backup, as requests ask for them. Refuted: the last sentence. If what is left comes as a piece of its own, it is taken for the beginning of the next answer and is an error; the server cuts what it writes every 16000 bytes, so this happens when an answer has one byte more than a multiple of that."
  },
  {
   "property": "C116",
   "status": "partial",
   "theorems": [
    "C116_own",
    "C116_others",
    "C116_first",
    "C116_backups_partial",
    "C116_twice_refuted",
    "C116_gone_refuted"
   ],
   "note": "Proved: all but two clauses; for the backups, that they are right exactly if the newest one that was shown is still there, or at most one was shown. Refuted: if the newest backup is gone (deleted, or a cancelled one), the loop that merges ends at once (json_input.c:425-428), and older backups are shown twice and those that are gone are kept; and a client that the server has no more is shown on (as a comment at json_input.c:578-579 says)."
  },
  {
   "property": "C117",
   "status": "partial",
   "theorems": [
    "C117_key_refuted",
    "C117_counters_refuted",
    "C117_backups_refuted",
    "C117_freed_refuted",
    "C115_answer_partial"
   ],
   "note": "Refuted: a key of 32 bytes or more is copied into an array of 32 bytes with snprintf's limit taken from its own length; an array of counters or of backups before any name follows a NULL pointer; a number for a counter without its kind, after a client that is known was named a second time, is written through a pointer into counters that were freed (json_input.c:165-168, cntr_ent is not reset). What holds is that the answers of the server do none of this (C115_answer_partial: the result is JEnd, not JUndef)."
  },
  {
   "property": "C118",
   "status": "partial",
   "theorems": [
    "C118_counters_partial",
    "C118_total_refuted"
   ],
   "note": "Proved for all values below 2^64 of all counters but one, given that the text arrives (C115, which needs that no count is 2^63); a start time of 0 is shown as the time at which the answer came. Refuted: the entry for the total is not sent and is 0 on the other side."
  },
  {
   "property": "C119",
   "status": "proved",
   "theorems": [
    "C119_message"
   ],
   "note": "Messages without NUL bytes."
  },
  {
   "property": "C12",
   "status": "proved",
   "theorems": [
    "C12_entries_roundtrip",
    "C12_entries_truncated"
   ],
   "note": ""
  },
  {
   "property": "C120",
   "status": "partial",
   "theorems": [
    "C120_keeps",
    "C120_runs_partial",
    "C120_whole_refuted",
    "C120_failed",
    "C120_once"
   ],
   "note": "Proved: everything but the arrival. Refuted: receive_a_file() sets ret=0 whatever transfer_gzfile_in() returned (handy.c:530-537), so a request of which nothing has come is signed all the same. The content of the request is not looked at: it is for the signing program to see that the name in it is that of the client (burp_ca gives the request to openssl ca as it is). One process at a time; links in the directories are not followed."
  },
  {
   "property": "C121",
   "status": "partial",
   "theorems": [
    "C121_link",
    "C121_both_partial",
    "C121_lost_refuted",
    "C121_idle",
    "C121_keeps_partial",
    "C121_removed_refuted",
    "C121_again",
    "C121_retry_refuted"
   ],
   "note": "Proved: if all that was sent has come and both report success, the files are the right ones; an idle client changes nothing; no file but its own eight is touched; a client that failed has no key. Refuted: after a lost connection the client reports success with empty certificates and never asks again; a failing client removes certificates that were there before; and if the client fails after the server has signed, all its further requests are refused."
  },
  {
   "property": "C122",
   "status": "partial",
   "theorems": [
    "C122_settings_partial",
    "C122_text",
    "C122_file",
    "C122_lines_refuted",
    "C122_prefix_refuted"
   ],
   "note": "Proved for names without newline, NUL, blanks or quotes at the ends, and lines of at most 4094 bytes. Refuted: the name is written as it came, so a server (before its certificate is checked) can add lines to the client's configuration, such as scripts to run; and a name with which the old one begins is not written, since strncmp_w() compares over the length of the new one only (ca.c:249)."
  },
  {
   "property": "C123",
   "status": "partial",
   "theorems": [
    "C123_name_partial",
    "C123_needed",
    "C123_name_refuted",
    "C123_crl",
    "C123_crl_closed",
    "C123_crl_off"
   ],
   "note": "Proved for certificates with a common name of at most 255 bytes without NUL; the revocation check is proved in full. Refuted: a name is compared up to its first NUL, and up to 255 bytes; and a certificate without common name is compared with the description of the cipher, which is still in the buffer. OpenSSL's X509_NAME_get_text_by_NID() is taken to copy the bytes and to leave the buffer alone if there is no such entry."
  },
  {
   "property": "C124",
   "status": "partial",
   "theorems": [
    "C124_settled",
    "C124_keeps_partial",
    "C124_links",
    "C124_cleared",
    "C124_link_refuted",
    "C124_removed_refuted"
   ],
   "note": "Proved: the first three sentences, for a directory that is not reached through a link. Refuted: is_dir_lstat() does not follow links, so with a link everything is made again and the link is removed if that fails; and existing certificates are removed before it is known whether they can be replaced."
  },
  {
   "property": "C125",
   "status": "partial",
   "theorems": [
    "C125_mode",
    "C125_client_prints",
    "C125_one",
    "C125_many",
    "C125_backups",
    "C125_missing",
    "C125_browse",
    "C125_buffer",
    "C125_cut_partial",
    "C125_status_refuted",
    "C125_server_failure_refuted",
    "C125_owner_refuted",
    "C125_empty_refuted",
    "C125_long_diff_refuted"
   ],
   "note": "Proved: what is printed, from the manifest on the server to the text, with localtime() as any function. Refuted: the exit status, since the client takes the end of the connection for the end of the list (list.c:156), so that a list cut between two entries, or one that the server could not read to its end, exits with 0; an owner of 2^31 or more is printed as a negative number; a server that sends an empty path first makes the long list write through a NULL pointer; a long diff prints the same as a short one."
  },
  {
   "property": "C126",
   "status": "partial",
   "theorems": [
    "C126_relist",
    "C126_browse_refuted"
   ],
   "note": "Proved for whole backups, with or without a pattern. Refuted for a directory: the length printed is that of the whole path but the text is the name alone, so that what is read back is no path at all."
  },
  {
   "property": "C127",
   "status": "partial",
   "theorems": [
    "C127_understood_partial",
    "C127_both",
    "C127_slashes",
    "C127_long_refuted",
    "C127_stamp_refuted"
   ],
   "note": "Proved for requests of at most 511 bytes (127 for a deletion) and backups named without a colon. Refuted otherwise: a longer pattern is cut without a word, and other files are restored; and a backup named by its timestamp, which the server would accept, is cut at its first colon."
  },
  {
   "property": "C128",
   "status": "partial",
   "theorems": [
    "C128_agree_partial",
    "C128_server",
    "C128_client",
    "C128_warning",
    "C128_empty_refuted",
    "C128_version_refuted"
   ],
   "note": "Proved for names and passwords that are not empty and versions that parse. Refuted: an empty text is never sent (asfd.c:482-494), so with an empty password both sides wait for each other; and a client can, before any password, have the server compute with a version that overflows. The check of name and password is any function here (see C30 and after for it). Sending is taken to succeed."
  },
  {
   "property": "C129",
   "status": "partial",
   "theorems": [
    "C129_words",
    "C129_end",
    "C129_run",
    "C129_happens",
    "C129_unknown",
    "C129_missing",
    "C129_stray",
    "C129_stop",
    "C129_delete",
    "C129_quiet",
    "C129_last_refuted",
    "C129_delay_refuted",
    "C129_daemon_refuted"
   ],
   "note": "Proved for all but the last of a kind and the last sentence. Refuted: with -a R -a r the list of standard input still limits the restore; -q 0 does not switch off a delay of the configuration; and daemon=0 and fork=0 of the configuration are always replaced by the defaults of the command line (prog.c:514-515). getopt() is modelled after glibc."
  },
  {
   "property": "C13",
   "status": "proved",
   "theorems": [
    "C13_network_paths_safe",
    "C13_file_paths_safe",
    "C13_start_safe"
   ],
   "note": ""
  },
  {
   "property": "C130",
   "status": "partial",
   "theorems": [
    "C130_only",
    "C130_status_partial",
    "C130_client_refuted"
   ],
   "note": "Proved: the first sentence, and the second without -C. Refuted with -C: run_test_confs() never sets its return value to 0 on that path (prog.c:207-229), so the exit status is that of a failure whatever the configuration."
  },
  {
   "property": "C131",
   "status": "partial",
   "theorems": [
    "C131_kept",
    "C131_read_back",
    "C131_done",
    "C131_cut",
    "C131_warned",
    "C131_quota_partial",
    "C131_quota_refuted",
    "C131_ok_refuted",
    "C131_word_refuted"
   ],
   "note": "Proved: all but the quota for sizes that add up to 2^64 or more, and the last sentence. Refuted: the sum is a uint64_t, so sizes that add up to a little over 2^64 are within any quota; the client is told ok before warnings and quota are looked at (backup_phase1.c:57, 79-91); any of the five words that end a stream ends the scan. Writing to disk and to the client is taken to succeed, but for messages that are too long."
  },
  {
   "property": "C132",
   "status": "partial",
   "theorems": [
    "C132_value",
    "C132_list_partial",
    "C132_together_partial",
    "C132_own_list",
    "C132_script",
    "C132_peer_cn_partial",
    "C132_private",
    "C132_inherited",
    "C132_fresh",
    "C132_lines_partial",
    "C132_notify_refuted",
    "C132_notify_own_refuted",
    "C132_cli_refuted",
    "C132_reset_refuted",
    "C132_peer_cn_refuted",
    "C132_lines_refuted"
   ],
   "note": "Proved: single values, own lists, scripts, what is private, and that nothing stays. Refuted: server_script_notify=1 in the server's file makes the client's own notify settings ineffective (conffile.c:1235-1239, it is copied into both settings, which are inherited, and not cleared); a list option on the command line is added once for the server and again for each client (1154-1178 runs in both); := in the client's file does not replace the server's restore_client and super_client; with ssl_peer_cn in the server's file no name at all is expected (1478-1481), so that the certificate check refuses each client without its own; a line of 4095 bytes or more is read as two lines (1308). What included files set is taken as given; options that conf_finalise() derives are left out."
  },
  {
   "property": "C133",
   "status": "partial",
   "theorems": [
    "C133_current",
    "C133_whole_partial",
    "C133_forward",
    "C133_kept",
    "C133_success",
    "C133_two",
    "C133_told_partial",
    "C133_whole_refuted",
    "C133_delete_refuted",
    "C133_told_refuted",
    "C133_untold_refuted"
   ],
   "note": "Proved for all histories: all phases done, newest, never back, kept, success, second connection; that nothing is missing if no connection stopped in one of two moments. Refuted: if the server stops between the removal of changed and unchanged (backup_phase3.c:147-148), the next connection resumes, makes an empty file changed and fails (resume.c:591, 540), and the one after it takes that for an interruption of phase 3 (backup.c:219-226) and merges anew, so that all new and changed files are missing from the current backup; if it stops while a working directory is being deleted (rubble.c:118), what is left may be resumed by the next connection, above all since a missing file incexc counts as equal includes (rubble.c:73-79); if it stops after phase 3 and before the link finishing, the next connection deletes the backup although the client was told that it has ended (rubble.c:335-344); a backup that is resumed after phase 2 is completed without okbackupend (backup.c:229-238). What a phase leaves when it stops half way is counted as not begun (C27, C38); the file systems calls keep their order over a stop; the super client is left out."
  },
  {
   "property": "C134",
   "status": "partial",
   "theorems": [
    "C134_goes_on",
    "C134_agree",
    "C134_notified_partial",
    "C134_not_due",
    "C134_number_refuted",
    "C134_notified_refuted"
   ],
   "note": "Proved: when a backup is made, that both sides agree, and who is notified of a backup that was made or tried. Refuted: get_new_bno() returns -1 as an uint64_t and the test for a number below 0 never holds (backup.c:146-165, 354), so a backup that could not list the others goes on with number 2^64-1; a success is notified of a refused forced backup, of one refused to a super client and of a check of the timer (run_action.c:583-594 with backup.c:310-352). Writing the answer is taken to succeed."
  },
  {
   "property": "C135",
   "status": "partial",
   "theorems": [
    "C135_part",
    "C135_gone_partial",
    "C135_gone_refuted",
    "C135_all",
    "C135_rest_partial",
    "C135_rest_refuted",
    "C135_files",
    "C135_files_part",
    "C135_dirs_partial",
    "C135_dirs_refuted"
   ],
   "note": "Proved: the first sentence if the path itself can be looked at, that nothing is added or changed, that all goes if nothing is refused, that directories-only keeps every file, and that its quiet variant leaves no directory without files if nothing is refused. Refuted: a path that lstat() fails on for any reason counts as gone (fsops.c:199-204); an entry that cannot be removed in a directory below makes the removal stop, so that entries that could be removed stay (fsops.c:238-241), since RECDEL_ENTRIES_REMAINING is overwritten with RECDEL_OK at the end of a directory (fsops.c:225) and rmdir() then fails; for the same reason recursive_delete_dirs_only() stops at the first directory that keeps a file. Links are leaves of the model; the path given is taken not to be one for the variants that remove directories only."
  },
  {
   "property": "C136",
   "status": "partial",
   "theorems": [
    "C136_whole",
    "C136_any",
    "C136_limit_partial",
    "C136_limit_refuted",
    "C136_dir_refuted"
   ],
   "note": "Proved: what is made, in success and failure; the limit for paths at or below it, which is how the server calls it. Refuted: for a path elsewhere that sorts after the limit directories are made outside of it (fsops.c:99); success is returned although a component is a file (fsops.c:118-123). Paths are absolute, by components."
  },
  {
   "property": "C137",
   "status": "partial",
   "theorems": [
    "C137_moved_partial",
    "C137_keeps_partial",
    "C137_keeps_refuted",
    "C137_stamp"
   ],
   "note": "Proved: the move if one of the hundred names that are tried is free; in any case that the directory is whole, but for its timestamp, in one of the two places, and that only an empty directory can be lost. Refuted: the timestamp is removed before rename() is tried (deleteme.c:46-52), and the name with .100 is used without looking whether it is taken (deleteme.c:41), so that a backup which cannot be moved stays where it was without a timestamp, and is not listed any more (bu_get.c:56)."
  },
  {
   "property": "C138",
   "status": "partial",
   "theorems": [
    "C138_equal_partial",
    "C138_equal_refuted",
    "C138_missing"
   ],
   "note": "Proved for files that can be read to the end. Refuted: a failing read counts as the end of the file, and two files that cannot be opened count as equal (fsops.c:485-489, 498-508)."
  },
  {
   "property": "C139",
   "status": "partial",
   "theorems": [
    "C139_sent_partial",
    "C139_content_partial",
    "C139_order",
    "C139_wanted",
    "C139_meta_refuted",
    "C139_special_refuted",
    "C139_vss_refuted"
   ],
   "note": "Proved for sorted manifests in which the file comes before its links and is the first entry with data of its inode and of its name, provided that no entry with data of the same inode is left out between a wanted file and a wanted link to it. False otherwise. (1) Metadata entries count as file data and hard links have metadata entries of their own (client/backup_phase1.c:147), with the inode of the file. If the file and a later link are restored but a link in between is not, its metadata is put in the table of files left out (server/restore.c:476-483), and the later link is answered with that metadata alone: neither the data nor a link comes out for it. (2) A special file has no data, so that a link to one which is not wanted is sent as a link to something that is not restored. (3) With separate VSS entries, that entry comes first under the name and is put in for the link instead of the data; as VSS entries are never wanted in a restore without vss_restore, this happens to every link even if everything is restored."
  },
  {
   "property": "C14",
   "status": "proved",
   "theorems": [
    "C14_init_fresh",
    "C14_names_injective",
    "C14_hand_out_increasing",
    "C14_hand_out_distinct",
    "C14_capacity",
    "C14_resume_fresh"
   ],
   "note": ""
  },
  {
   "property": "C140",
   "status": "partial",
   "theorems": [
    "C140_limited_partial",
    "C140_sent",
    "C140_sleeps",
    "C140_first",
    "C140_second_refuted",
    "C140_clock_refuted",
    "C140_zero_refuted"
   ],
   "note": "Proved for clocks that do not fall behind the first attempt: the total so far is what is limited. Not true of single seconds: nothing is limited in the second in which the first attempt is made (asfd.c:264), and after a time of silence as much as was not sent goes at once. If the clock is set back to before the first attempt there is no limit at all until it has caught up: the start is not moved (asfd.c:258 sets the current time, which the next round sets again). A limit below zero is accepted although the message says that it should be greater than zero (conffile.c:286), and then nothing is ever sent after the first second: the connection hangs. The comparison is made in float: the theorems need only that a number which is not below the limit does not become one that is, which holds for a conversion that is monotone and exact on floats."
  },
  {
   "property": "C141",
   "status": "partial",
   "theorems": [
    "C141_placed",
    "C141_long",
    "C141_names_partial",
    "C141_apart",
    "C141_path_refuted",
    "C141_first_refuted"
   ],
   "note": "The decision is proved exactly, and for absolute paths that every name in the tree is within the limit and that places differ. The limit for the whole path is the longest path plus the longest name (fsops.c:339), 4351 on Linux, while open() takes no more than 4095 bytes: a path that the client can open, but that is too long once it is below the directory of the tree, is put in the tree, cannot be opened there, and the backup fails (backup_phase2.c:128-132) where storing it under a number was meant. The first name of a path that does not begin with a slash is not looked at (backup_phase2.c:53-58)."
  },
  {
   "property": "C142",
   "status": "partial",
   "theorems": [
    "C142_entry_partial",
    "C142_data",
    "C142_order",
    "C142_none",
    "C142_dir_refuted",
    "C142_link_refuted",
    "C142_past_refuted"
   ],
   "note": "Proved for entries below the source directory whose data is under their path or a number. False otherwise. (1) The source directory itself is recorded with a slash at its end (manio.c:275-285), so that the next backup does not know it. (2) The targets of links are not changed: a hard link names the old path of its file, which the backup does not have. (3) The start of a path is taken off by length alone, without a look whether it is that of the source. For a shorter path the server reads past the end of the path and records what it finds there. This is so for the source directory itself on Windows, because setup_seed puts a slash before the drive letter (extra_comms.c:202-212), and for any short path outside the source that a client sends."
  },
  {
   "property": "C143",
   "status": "partial",
   "theorems": [
    "C143_by_kind",
    "C143_total",
    "C143_bytes",
    "C143_sent_partial",
    "C143_kind_refuted"
   ],
   "note": "The numbers announced are proved for all manifests and selections, and that as many entries are sent, under the conditions of C139. By kind and in bytes it is false: a hard link whose file is not restored is announced as a link without data and sent as a file with data (restore.c:201-213 against 228-275). Counters that were just made are assumed; when all backups are restored in one go the numbers add up, and only the first are sent, as the comment at restore.c:631-636 says."
  },
  {
   "property": "C144",
   "status": "proved",
   "theorems": [
    "C144_when",
    "C144_one_in_k",
    "C144_removable"
   ],
   "note": "Numbers below 2^64. That removals take only what is said here to be removable is C20."
  },
  {
   "property": "C145",
   "status": "partial",
   "theorems": [
    "C145_accepted",
    "C145_client_partial",
    "C145_server",
    "C145_ports",
    "C145_peer_refuted",
    "C145_name_refuted"
   ],
   "note": "What is accepted, and what the settings are afterwards, is proved exactly. False: the default for the name in the server's certificate is cut at the first colon (conffile.c:719-720), so that for a server given by an IPv6 address it is the first group of the address. A name of a client that begins with a dot, in the certificate or of the host, becomes the empty name when domains are cut off, and is accepted (conffile.c:551-557, 687-700). Also seen: the listing of the configured paths (conffile.c:742-751) is never made, as it is under a test of a pointer that is never NULL where the number was meant; autoupgrade_os with '..' inside a name is refused though the message speaks of a component. Certificates and host names are inputs; running out of memory is left out."
  },
  {
   "property": "C146",
   "status": "partial",
   "theorems": [
    "C146_address",
    "C146_limits",
    "C146_all",
    "C146_port_partial",
    "C146_port_refuted"
   ],
   "note": "What is accepted and which limit each address has is proved exactly. False: the port is only checked with atoi(), so that '49x' passes as a port, and the mistake shows when the socket is opened (main.c, getaddrinfo). Also seen: an IPv6 address in brackets and a host name with a hyphen are refused. Characters are those of the C locale."
  },
  {
   "property": "C147",
   "status": "partial",
   "theorems": [
    "C147_selected",
    "C147_clients",
    "C147_backups",
    "C147_logs",
    "C147_safe_partial",
    "C147_crash",
    "C147_crash_refuted",
    "C147_shown_refuted"
   ],
   "note": "What the keys select is proved for all sequences of keys while the lists and the size of the screen stay as they are. That the program never follows a NULL pointer is proved if every client has a backup, and it is proved exactly when it does. False otherwise: the kind of log that was chosen is remembered when another client is chosen (status_client_ncurses.c:440), and the keys up and down on the page of logs use the backup without a test (1095, 1110): after a log of one client, down on that page of a client without backups ends the program with a segmentation fault. False as well: when the list of another client is opened, the window is moved to the end of that list, because the backup selected is still that of the client before, and the one selected then is not shown until the next turn of the loop (494-504, 648). Not modelled: q, resizing, what the server changes meanwhile (C115 to C117)."
  },
  {
   "property": "C15",
   "status": "partial",
   "theorems": [
    "C15_exhaustion_partial",
    "C15_exhaustion_refuted"
   ],
   "note": "The counter reports exhaustion exactly, but phase 2 ignores the report and wraps to the first path."
  },
  {
   "property": "C16",
   "status": "partial",
   "theorems": [
    "C16_merge_refuted",
    "C16_merge_complete_partial",
    "C16_merge_sorted_partial",
    "C16_merge_strict_partial",
    "C16_merge_file_partial"
   ],
   "note": "False when one entry is in both lists: it is written twice. Everything else proved. Seeding is not modelled."
  },
  {
   "property": "C17",
   "status": "partial",
   "theorems": [
    "C17_each_once",
    "C17_fates",
    "C17_deleted_exact",
    "C17_deleted_refuted",
    "C17_early_end_refuted"
   ],
   "note": "For every interleaving each scanned entry is dealt with exactly once and in order, with the outcome its matching old entry calls for; the old entries counted as deleted are exactly those nothing new builds on. Refuted as stated: an entry whose type changed (or that is fetched anew) is counted as deleted although the scan has it; and a client that says it has finished before being told the end makes the server accept a backup with scanned entries not dealt with."
  },
  {
   "property": "C18",
   "status": "partial",
   "theorems": [
    "C18_decision",
    "C18_delta_when",
    "C18_same_only_if_partial",
    "C18_same_refuted",
    "C18_former_link_refuted"
   ],
   "note": "The whole decision table is characterised and what is carried over keeps the old data's location and stored form. Refuted as stated: on a Unix client a different change time (and size, and compression setting) does not stop a file from being carried over when the modification time is the same; a hard link turned into a file reuses the master's data but records the link's compression and no salt."
  },
  {
   "property": "C19",
   "status": "partial",
   "theorems": [
    "C19_restores_partial"
   ],
   "note": "Proved for all histories of backups, each stopped and run again any number of times, and deletions, with finalisation as modelled for C25 and restoring as in restore_file(); under the laws of zlib and librsync. Missing: backups finalised with a file at max_hardlinks or with deltas for both compressed and uncompressed files, where the claim fails if the server stops (C25). What the transfer leaves behind is taken from C18 and C54."
  },
  {
   "property": "C20",
   "status": "proved",
   "theorems": [
    "C20_only_deletable",
    "C20_auto_safe",
    "C20_manual_answer",
    "C20_manual_safe"
   ],
   "note": "For ascending backup numbers below 2^31 and accepted keep values. 'Needs' follows the restore chain: newer backups up to the one after the first hard-linked."
  },
  {
   "property": "C21",
   "status": "partial",
   "theorems": [
    "C21_newest_kept_refuted",
    "C21_newest_kept_partial",
    "C21_young_kept_partial"
   ],
   "note": "As worded false when backup numbers have gaps (ages are differences of numbers). Proved without gaps, and for every backup of age up to the first keep value; the newest always survives."
  },
  {
   "property": "C22",
   "status": "proved",
   "theorems": [
    "C22_window_kept",
    "C22_subset",
    "C22_terminates",
    "C22_final_state",
    "C22_windows_disjoint"
   ],
   "note": "Also at every point where deletion stops early."
  },
  {
   "property": "C23",
   "status": "proved",
   "theorems": [
    "C23_keep_accepted",
    "C23_keep_ok"
   ],
   "note": "Exact characterisation; values are what atoi() returns, so only the low 32 bits of a large number count (ex_keep)."
  },
  {
   "property": "C24",
   "status": "partial",
   "theorems": [
    "C24_list_complete",
    "C24_list_sorted_partial",
    "C24_list_ascending_partial",
    "C24_list_sorted_refuted",
    "C24_numbering",
    "C24_new_number",
    "C24_new_name"
   ],
   "note": "Order holds for numbers below 10,000,000; from there names sort wrongly and a number is given out twice (refuted)."
  },
  {
   "property": "C25",
   "status": "partial",
   "theorems": [
    "C25_previous_safe_partial",
    "C25_completes_partial",
    "C25_success_means",
    "C25_copy_refuted",
    "C25_link_limit_refuted",
    "C25_wrong_file_refuted"
   ],
   "note": "Proved for any number of stops at any write, link, rename or unlink, under the laws of zlib and librsync: the previous backup and all other files stay readable and unchanged, and a run to the end gives the new backup. Missing, because false: (1) a file at max_hardlinks is copied in place, and a stop while copying leaves a piece that the next run takes as finished; (2) with max_hardlinks reached the next run empties the link of the old file left by a stopped run; (3) if uncompressed and compressed files are mixed, a compressed file is inflated into that link, overwriting the old contents of another file. Losing data not yet written by the operating system is not modelled."
  },
  {
   "property": "C26",
   "status": "partial",
   "theorems": [
    "C26_recovers_partial",
    "C26_recovers_at_once_partial",
    "C26_never_lost_partial",
    "C26_deleted_partial",
    "C26_finished_partial",
    "C26_only_backup_refuted",
    "C26_unfinished_refuted",
    "C26_dangling_refuted",
    "C26_twice_refuted"
   ],
   "note": "Proved for all histories of backups, deletions and recoveries with a stop at every step, except stops while deleting the only backup, or the newest one during an unfinished backup. For these the claim is refuted: the client directory is left in a state from which no later request recovers. A stop after the log was compressed needs two requests instead of one."
  },
  {
   "property": "C27",
   "status": "partial",
   "theorems": [
    "C27_resumed_when",
    "C27_deleted_when",
    "C27_incomplete_scan",
    "C27_same_settings_partial",
    "C27_resumed_finishes_partial",
    "C27_entries_lost_refuted",
    "C27_complete_deleted_refuted",
    "C27_shorter_settings_refuted",
    "C27_half_deleted_refuted"
   ],
   "note": "Which interrupted backups are resumed, deleted or refused is proved for all states. Refuted parts: a kept scan may lose entries, a complete backup may be deleted, settings that are a prefix of the old ones count as the same, and a half deleted working directory is resumed. That finishing is completed before anything else belongs to the connection model of C26."
  },
  {
   "property": "C28",
   "status": "partial",
   "theorems": [
    "C28_mutual_exclusion_refuted",
    "C28_mutual_exclusion_partial",
    "C28_no_release_calm",
    "C28_one_holder_per_file"
   ],
   "note": "As worded false: a process that opened the lock file before it was unlinked locks the orphan while another creates and locks a new one. Proved for all interleavings in which no process has the file open when it is unlinked, and in general that each file has one holder."
  },
  {
   "property": "C29",
   "status": "partial",
   "theorems": [
    "C29_includes_refuted",
    "C29_includes_prefix_partial",
    "C29_includes_no_miss_partial",
    "C29_includes_slash_partial"
   ],
   "note": "The test is a plain prefix test, so siblings sharing a prefix are restored too; exact characterisation proved."
  },
  {
   "property": "C30",
   "status": "proved",
   "theorems": [
    "C30_select_exact",
    "C30_chosen_functional",
    "C30_read_error"
   ],
   "note": "Lists that can be read to their end; the effect of a read error is characterised separately."
  },
  {
   "property": "C31",
   "status": "proved",
   "theorems": [
    "C31_restore_order",
    "C31_numbers_distinct"
   ],
   "note": ""
  },
  {
   "property": "C32",
   "status": "partial",
   "theorems": [
    "C32_auth_exact_partial",
    "C32_auth_refuted",
    "C32_auth_plain",
    "C32_auth_none"
   ],
   "note": "As worded false: when crypt() fails, or is not built in, any password is accepted for a hashed password. Proved exactly when crypt() gives a result; the plain form and the absence of both hold in general."
  },
  {
   "property": "C33",
   "status": "partial",
   "theorems": [
    "C33_switch",
    "C33_switches_perms",
    "C33_switches_chain_partial",
    "C33_listed_refuted"
   ],
   "note": "Permissions only shrink and force is never gained, for all sequences. 'Must be listed' is true of one switch, but false of two: the second is checked against the client switched to first."
  },
  {
   "property": "C34",
   "status": "proved",
   "theorems": [
    "C34_only_permitted",
    "C34_lock_first",
    "C34_unknown_nothing",
    "C34_old_delete_nothing",
    "C34_refused_effects",
    "C34_permitted_done"
   ],
   "note": "Creation of the client's directories and the log of commands, which happen for every request, are not modelled. Also the converse: what is permitted and asked for is done. A refused delete still takes the lock and cleans up leftovers."
  },
  {
   "property": "C35",
   "status": "proved",
   "theorems": [
    "C35_entry4_exact",
    "C35_entry6_exact",
    "C35_text_exact",
    "C35_list_exact",
    "C35_check_exact"
   ],
   "note": "From the configured lines to the decision; the whole table of masks is transcribed. inet_pton() is a parameter. A prefix may have trailing garbage, which is ignored (ex_C35)."
  },
  {
   "property": "C36",
   "status": "proved",
   "theorems": [
    "C36_timer_exact",
    "C36_timer_defined",
    "C36_timer_invalid",
    "C36_interval_value"
   ],
   "note": "The clock, the day and hour names and the timestamp read are inputs."
  },
  {
   "property": "C37",
   "status": "partial",
   "theorems": [
    "C37_settings_exact",
    "C37_settings_partial",
    "C37_settings_refuted"
   ],
   "note": "As worded false: an offered text whose length is a multiple of 4096 and that is a beginning of the stored one is taken for the same. Exact characterisation proved; exact equality for all other lengths."
  },
  {
   "property": "C38",
   "status": "partial",
   "theorems": [
    "C38_plan",
    "C38_interrupted",
    "C38_resumed_backup_partial",
    "C38_unflushed_refuted",
    "C38_read_error_refuted"
   ],
   "note": "For every list of entries, every cut of the two manifests at any byte and every behaviour of the reads of them: what is kept is exactly the complete entries of changed (less an unfinished group of entries for one Windows file) and the complete entries of unchanged before the last one kept; scan and previous manifest are continued behind it; storage paths are new. With any interrupted run of phase 2 before and any finished run after it, the manifest is in order and has every scanned path once but those the client did not send, provided the entries of unchanged before the last complete entry of changed had reached the disk. Without that (nothing flushes the files), or with a read error in unchanged, entries are lost silently: shown by example. Counters and the truncation itself are not modelled."
  },
  {
   "property": "C39",
   "status": "partial",
   "theorems": [
    "C39_longest_decides_partial",
    "C39_longest_unique",
    "C39_listed_is_included_partial",
    "C39_extensions",
    "C39_filters",
    "C39_include_extensions",
    "C39_outside_refuted",
    "C39_dotted_refuted"
   ],
   "note": "Proved: the longest configured directory over a path decides (with the filters), it is unique, and everything a scan lists has such a directory that includes it. False part: a path in no configured directory takes the flag of the last entry of the list (it is never asked for during a scan whose directories end in at most one slash). Extensions with a dot in them never match."
  },
  {
   "property": "C40",
   "status": "partial",
   "theorems": [
    "C40_in_order_partial",
    "C40_not_nested",
    "C40_nested_refuted",
    "C40_filesystem_refuted",
    "C40_slashes_refuted"
   ],
   "note": "Proved for all trees and configurations without the three causes refuted beside it: directories to include inside one another below an excluded one, starting directories on an excluded kind of file system, and directories to include that end in two slashes; each of these is listed twice."
  },
  {
   "property": "C41",
   "status": "proved",
   "theorems": [
    "C41_add_end",
    "C41_sorted",
    "C41_uniq",
    "C41_find"
   ],
   "note": ""
  },
  {
   "property": "C42",
   "status": "proved",
   "theorems": [
    "C42_send_exact",
    "C42_send_length",
    "C42_data_once",
    "C42_bucket_in_range"
   ],
   "note": "From the point where a file has passed the include/exclude and size tests."
  },
  {
   "property": "C43",
   "status": "proved",
   "theorems": [
    "C43_block_len_exact",
    "C43_block_len_functional"
   ],
   "note": "Includes the binary64 arithmetic of the square root, as defined in Coq.Floats.SpecFloat."
  },
  {
   "property": "C44",
   "status": "partial",
   "theorems": [
    "C44_refused",
    "C44_soft_partial",
    "C44_soft_refuted"
   ],
   "note": "Refusal exact. Over both quotas no soft-quota warning is given, and the soft quota is logged as the hard one."
  },
  {
   "property": "C45",
   "status": "proved",
   "theorems": [
    "C45_delete_exact",
    "C45_remains_functional"
   ],
   "note": "Manifests not mixing metadata and trailing VSS data, see C05."
  },
  {
   "property": "C46",
   "status": "partial",
   "theorems": [
    "C46_entries_inside_partial",
    "C46_outside_unchanged_partial",
    "C46_data_new_partial",
    "C46_attributes_inside_partial",
    "C46_check",
    "C46_attributes_soft_link_refuted",
    "C46_hard_link_refuted",
    "C46_hard_link_through_soft_link_refuted",
    "C46_data_refuted",
    "C46_attributes_special_refuted",
    "C46_attributes_acl_refuted",
    "C46_socket_refuted",
    "C46_strip_path_refuted"
   ],
   "note": "For every tree of directories, files and links, every list of entries, every choice of failing calls: entries are made and removed only in the restore directory and below (no path to strip; sockets only if the directory's path fits in sun_path), nothing outside changes in the tree, no old file is written into (unless data come with the type of a directory), and attributes are set only inside (for links of the type of a link, no hard links of other types, no ACLs, no special files with overwrite). The six ways out that remain are shown as counterexamples. Nothing else changes the tree during the restore in the model."
  },
  {
   "property": "C47",
   "status": "partial",
   "theorems": [
    "C47_cname_exact",
    "C47_cname_component_partial",
    "C47_client_conf_path_partial",
    "C47_cname_refuted",
    "C47_admitted_component",
    "C47_switched_component"
   ],
   "note": "Proved in full for the name a connection ends up with and for clients switched to. While authenticating, the configuration read is a direct child only for non-empty names: the empty name, also what is left of '.example.com', reads memory in front of the string and may be accepted."
  },
  {
   "property": "C48",
   "status": "partial",
   "theorems": [
    "C48_version_value",
    "C48_version_compare_partial",
    "C48_version_refuted",
    "C48_version_short"
   ],
   "note": "Second and third components of 100 or more run into the next component."
  },
  {
   "property": "C49",
   "status": "partial",
   "theorems": [
    "C49_value_partial",
    "C49_which_groups",
    "C49_no_groups",
    "C49_excluded",
    "C49_not_regular",
    "C49_file_ext",
    "C49_file_match",
    "C49_path_match",
    "C49_file_size",
    "C49_memory_refuted",
    "C49_nested_refuted",
    "C49_double_not_refuted",
    "C49_empty_group_refuted",
    "C49_empty_refuted",
    "C49_single_refuted",
    "C49_escaped_end_refuted"
   ],
   "note": "True for expressions of two words or more whose operands have at most one 'not' and whose nested groups have three items or more; freed memory is then used exactly when a group stands neither first nor last or is the whole line. Refuted: the manual page's own example uses freed memory; nested short groups and empty groups crash; 'not not' and a line of a single test give the default. regcomp/regexec are a parameter."
  },
  {
   "property": "C50",
   "status": "proved",
   "theorems": [
    "C50_quoted_roundtrip"
   ],
   "note": "Single and double quotes, any blanks around name and equals sign, anything after the closing quote."
  },
  {
   "property": "C51",
   "status": "partial",
   "theorems": [
    "C51_name",
    "C51_browse_partial",
    "C51_full_listing",
    "C51_overreads",
    "C51_bytes_refuted",
    "C51_link_refuted"
   ],
   "note": "The names, their order, attributes and marks are proved for every directory and sorted manifest. Two parts of the statement are refuted: the length sent with a name is that of the whole path, so bytes behind the name's buffer go to the client whenever a directory of three characters or more is browsed (C51_overreads, C51_bytes_refuted); a directory only known from a link in it is sent as that link (C51_link_refuted). Regular expressions are an arbitrary predicate; sending is taken to succeed."
  },
  {
   "property": "C52",
   "status": "partial",
   "theorems": [
    "C52_lines_in_bounds_partial",
    "C52_lines_refuted"
   ],
   "note": "As worded false. Exact characterisation: memory outside is used when the part before '=' holds only blanks and colons, or when a quoted value ends in a backslash that escapes nothing."
  },
  {
   "property": "C53",
   "status": "partial",
   "theorems": [
    "C53_file_size_partial",
    "C53_file_size_refuted",
    "C53_compression_exact"
   ],
   "note": "Sizes of 2^64 bytes or more wrap around silently; proved below. Compression levels exact."
  },
  {
   "property": "C54",
   "status": "proved",
   "theorems": [
    "C54_conversation",
    "C54_new_paths_distinct",
    "C54_new_manifest"
   ],
   "note": "All interleavings by induction over the steps; failures of the server's own file operations are a separate outcome. Distinct storage places assume the counters do not run out (C13) and tree storage is not used."
  },
  {
   "property": "C55",
   "status": "partial",
   "theorems": [
    "C55_unchanged_partial",
    "C55_sent",
    "C55_stopped_refuted"
   ],
   "note": "A restore or verify leaves every other file with its content at every step and removes the temporary ones, also when leftover temporary files are files of their own or tmp1 gets replaced by a link. False after a stopped restore: tmp1 may be a hard link to a stored file, and the next restore of a compressed file inflates into it."
  },
  {
   "property": "C56",
   "status": "partial",
   "theorems": [
    "C56_only_wanted_partial",
    "C56_all_wanted_partial",
    "C56_absent_refuted"
   ],
   "note": "Soundness for all scans, with the kind of every entry; completeness when file system borders are crossed freely. False part: a name that cannot be looked at right after a hard-linked file is sent as a hard link to that file."
  },
  {
   "property": "C57",
   "status": "partial",
   "theorems": [
    "C57_links_lead_back_partial",
    "C57_vanished_refuted"
   ],
   "note": "Proved for all scans in which everything that is reached can be looked at. Otherwise a vanished name can take the place of a file in the table of hard links, and the file's content is then not backed up."
  },
  {
   "property": "C58",
   "status": "partial",
   "theorems": [
    "C58_nothing_replaced_partial",
    "C58_replaced_refuted"
   ],
   "note": "For every tree, list of entries and choice of failing calls. Holds if links do not carry the type of a directory and files not that of a fifo; otherwise refuted by example."
  },
  {
   "property": "C59",
   "status": "proved",
   "theorems": [
    "C59_number",
    "C59_current",
    "C59_all",
    "C59_backups",
    "C59_other"
   ],
   "note": "The listing of one backup's contents is an arbitrary function. Numbers are read as strtoul reads them."
  },
  {
   "property": "C60",
   "status": "partial",
   "theorems": [
    "C60_content_partial",
    "C60_clean",
    "C60_others",
    "C60_report",
    "C60_content_refuted"
   ],
   "note": "Proved for every checksum function and every pattern of failing open, link, rename and unlink calls, at every moment of the run. With failing reads it is false (C60_content_refuted): a read error is taken for the end of the file, so that two different files of one size whose reads fail at the same place match and the second is replaced by a link to the first. Other programs changing the disk during the run are not modelled; the names are visited in any order given beforehand."
  },
  {
   "property": "C61",
   "status": "partial",
   "theorems": [
    "C61_copy_partial",
    "C61_copy_refuted"
   ],
   "note": "Proved when no read fails, with any failing open or unlink. With failing reads the only copy can be deleted (C61_copy_refuted), for the reason given for C60."
  },
  {
   "property": "C62",
   "status": "partial",
   "theorems": [
    "C62_saved",
    "C62_limit",
    "C62_complete",
    "C62_report_refuted"
   ],
   "note": "Saved bytes, limit and completeness are proved (limit and completeness when every file can be opened and read). What a run without options calls saveable is not what a linking run saves when a duplicate has several names (C62_report_refuted)."
  },
  {
   "property": "C63",
   "status": "partial",
   "theorems": [
    "C63_change",
    "C63_going",
    "C63_logs",
    "C63_all_partial",
    "C63_all_refuted",
    "C63_memory_refuted"
   ],
   "note": "What is left alone is proved for every set of clients with directories of their own and link targets of at most 254 bytes, for links that do not change during the run. Two parts are refuted: the links of one client are remembered for the next, so a backup of the next client with the same name is left out (C63_all_refuted); and the byte before the link buffer is read when the first client lacks one of the links, as an idle client does (C63_memory_refuted)."
  },
  {
   "property": "C64",
   "status": "partial",
   "theorems": [
    "C64_diff_partial",
    "C64_error",
    "C64_unread",
    "C64_text_refuted"
   ],
   "note": "The lines and their order are proved for all sorted manifests whose paths begin with a slash and are longer than it. For other paths the text is wrong (C64_text_refuted): C:/x of a Windows client is shown as /C:/x, and the root directory as an empty path. Sending is taken to succeed."
  },
  {
   "property": "C65",
   "status": "partial",
   "theorems": [
    "C65_roundtrip_partial",
    "C65_too_long",
    "C65_wrap_refuted"
   ],
   "note": "Proved for attributes that fit in 2^31-1 bytes together, which every Linux file system ensures; when they do not fit together none of them is saved (C65_too_long). Two attributes of almost 2^31 bytes each make the size of a block wrap around and memory is overwritten (C65_wrap_refuted). Failing allocations are not modelled, and an ACL is one request to the system."
  },
  {
   "property": "C66",
   "status": "proved",
   "theorems": [
    "C66_any_bytes",
    "C66_any_bytes_bsd",
    "C66_cut"
   ],
   "note": "For the Linux and the BSD variant; the cut for the Linux one. The metadata is followed by a NUL, as the code that receives it ensures."
  },
  {
   "property": "C67",
   "status": "partial",
   "theorems": [
    "C67_off_partial",
    "C67_on",
    "C67_settings_refuted"
   ],
   "note": "The settings only decide whether a file is announced in the scan; what is collected afterwards is always everything. A file with an ACL and an attribute is saved with both when either setting is on (C67_settings_refuted)."
  },
  {
   "property": "C68",
   "status": "partial",
   "theorems": [
    "C68_roundtrip_partial",
    "C68_value_refuted",
    "C68_name_refuted"
   ],
   "note": "Proved for names of at most 127 bytes and values not longer than the list of the names. The code asks for the length of the list of names where it needs the length of the value, so longer values come back cut (C68_value_refuted, for every name and value); names of 128 bytes and more overwrite memory where char is signed (C68_name_refuted)."
  },
  {
   "property": "C69",
   "status": "proved",
   "theorems": [
    "C69_content",
    "C69_sent"
   ],
   "note": "zlib and the ciphers are any functions whose output grows with their input and whose decoding undoes the encoding (zlib_ok, cipher_ok; a run-length code and a toy cipher meet them in TransferProps.v). Every write takes all it is given. The files of a delta (patches) and Windows EFS files are not covered."
  },
  {
   "property": "C70",
   "status": "partial",
   "theorems": [
    "C70_metadata_partial",
    "C70_metadata_refuted"
   ],
   "note": "Proved below 16000 bytes. At 16000 the NUL put behind a full buffer is written outside it (C70_metadata_refuted)."
  },
  {
   "property": "C71",
   "status": "partial",
   "theorems": [
    "C71_restored_partial",
    "C71_read_error_refuted",
    "C71_short_write_refuted",
    "C71_cut_short_refuted"
   ],
   "note": "Proved: with complete writes, a successful transfer wrote exactly what the data before the end message decodes to. The full claim is false in three ways: the server sends the end message after a read error of a file it sends as it is stored; a short write is taken for a full one; a compressed stream that stops early is accepted."
  },
  {
   "property": "C72",
   "status": "partial",
   "theorems": [
    "C72_read_error_partial",
    "C72_read_error_refuted"
   ],
   "note": "Proved for clients that compress or encrypt. Without either, the end message with a matching checksum is sent after the read error, the server keeps the part it got, and the interrupt that follows comes too late (C72_read_error_refuted)."
  },
  {
   "property": "C73",
   "status": "partial",
   "theorems": [
    "C73_keys_partial",
    "C73_keys_refuted"
   ],
   "note": "The initialisation vector has 9 bytes, and the cipher every new backup uses needs 16 (C73_keys_refuted, for all passwords); the oldest kind copies the password into 256 bytes without looking at its length. The lengths of keys and vectors are those OpenSSL documents for the two ciphers."
  },
  {
   "property": "C74",
   "status": "proved",
   "theorems": [
    "C74_verify"
   ],
   "note": "For files stored whole (no patches) with the compression level in the manifest, and reading without errors. The checksum function is any function whose text has no colon."
  },
  {
   "property": "C75",
   "status": "partial",
   "theorems": [
    "C75_a_file_partial",
    "C75_a_file_refuted"
   ],
   "note": "The content of a complete transfer is proved; a failed one is reported as a success (C75_a_file_refuted)."
  },
  {
   "property": "C76",
   "status": "partial",
   "theorems": [
    "C76_stripped_partial",
    "C76_chunks",
    "C76_cut_refuted",
    "C76_truncated_refuted"
   ],
   "note": "Proved when no piece ends right behind the header of the data; such a piece makes the restore fail (C76_cut_refuted). A file that stops early is restored without complaint (C76_truncated_refuted)."
  },
  {
   "property": "C77",
   "status": "partial",
   "theorems": [
    "C77_nothing_taken_partial",
    "C77_error_refuted",
    "C77_once_refuted"
   ],
   "note": "Proved for write() taking nothing or part. Its error return is compared as an unsigned number and not noticed: the writing runs backwards out of the buffer, or one error puts a wrong byte into the file."
  },
  {
   "property": "C78",
   "status": "partial",
   "theorems": [
    "C78_first",
    "C78_agrees",
    "C78_cut_partial",
    "C78_cut_refuted",
    "C78_two_refuted",
    "C78_short_refuted",
    "C78_headers",
    "C78_headers_cut"
   ],
   "note": "A cut inside a header is no error, a second data stream is left out, and a short write repeats data."
  },
  {
   "property": "C79",
   "status": "partial",
   "theorems": [
    "C79_roundtrip_partial",
    "C79_one_line",
    "C79_long_path_refuted"
   ],
   "note": "Proved for paths of at most 255 characters. Refuted beyond: the text is cut before its newline, so the report is not seen until another one ends the line."
  },
  {
   "property": "C80",
   "status": "proved",
   "theorems": [
    "C80_fits",
    "C80_any_run"
   ],
   "note": "For every state of the counters, every name and path."
  },
  {
   "property": "C81",
   "status": "partial",
   "theorems": [
    "C81_each_row",
    "C81_grand_total",
    "C81_sums_up_partial",
    "C81_changed_refuted",
    "C81_printed_partial",
    "C81_deleted_refuted",
    "C81_fail_on_warning"
   ],
   "note": "Rows are exact. The grand total is the sum of the rows for all calls about the kinds in the table; refuted for a changed file counted by the client, which the grand total counts as changed and as new, and for the printed column of deletions, because a row with deletions only is not printed."
  },
  {
   "property": "C82",
   "status": "partial",
   "theorems": [
    "C82_by_type",
    "C82_by_name_partial",
    "C82_links_refuted",
    "C82_human_partial",
    "C82_human_refuted",
    "C82_phase_names",
    "C82_phase_words"
   ],
   "note": "Right for every type letter and every name except hard_links and soft_links, which are exchanged. Units are right below 2^50 - 2^26 and wrong for every size from 2^50 on (EB and PB exchanged)."
  },
  {
   "property": "C83",
   "status": "partial",
   "theorems": [
    "C83_request_partial",
    "C83_page_partial",
    "C83_colon_refuted",
    "C83_too_long_refuted"
   ],
   "note": "Proved for names without colons and requests that fit the buffer. Refuted for a client with a colon in its name, which is another request, and for requests that are too long, which are sent without end of line."
  },
  {
   "property": "C84",
   "status": "partial",
   "theorems": [
    "C84_permitted",
    "C84_listing_partial",
    "C84_listing_names",
    "C84_backups_partial",
    "C84_named_partial",
    "C84_status_partial",
    "C84_named_refuted"
   ],
   "note": "Proved for requests that name no client, and for the backups of a hidden client whatever is asked. Refuted for a request by name: labels, children and their counters of a hidden client are told."
  },
  {
   "property": "C85",
   "status": "proved",
   "theorems": [
    "C85_running",
    "C85_listed",
    "C85_report"
   ],
   "note": "For lists of clients with distinct names and process ids, and for reports that are lines (C79)."
  },
  {
   "property": "C86",
   "status": "partial",
   "theorems": [
    "C86_answered_partial",
    "C86_crash_refuted",
    "C86_end_refuted",
    "C86_browse",
    "C86_file",
    "C86_unsupported",
    "C86_unknown"
   ],
   "note": "Proved when the logs can be opened and the peer version is not set or is new. Refuted: an old peer version with an unfinished backup nobody works on is a NULL pointer; a log that cannot be opened or a version of zero ends the status server."
  },
  {
   "property": "C87",
   "status": "partial",
   "theorems": [
    "C87_list",
    "C87_fresh_partial",
    "C87_earned",
    "C87_stale_refuted"
   ],
   "note": "The list is exact. Permission is that of the present configuration whenever the time of its file or of the main configuration has changed; refuted otherwise: a change within the same second, or in an included file, is not noticed."
  },
  {
   "property": "C88",
   "status": "partial",
   "theorems": [
    "C88_names_partial",
    "C88_top",
    "C88_absent_refuted",
    "C88_kinds"
   ],
   "note": "Proved for directories that are in the backup. Refuted for others: a part of the path that is not found is passed over, so that /nowhere/etc lists /etc."
  },
  {
   "property": "C89",
   "status": "partial",
   "theorems": [
    "C89_first",
    "C89_own_partial",
    "C89_made_up_refuted"
   ],
   "note": "What is shown is given exactly. It is the entry's own if an entry for its directory is in the manifest. Refuted otherwise: the mode of a made-up directory, and of the first entry in it, is masked with S_IFDIR instead of being set to it, which gives 0 for files."
  },
  {
   "property": "C90",
   "status": "partial",
   "theorems": [
    "C90_same_partial",
    "C90_stale_refuted"
   ],
   "note": "Proved as long as the manifest of a numbered backup stays the same. Refuted when it changes: a number that is used again after a deletion, or a backup that was browsed before it had a manifest, shows the old names."
  },
  {
   "property": "C91",
   "status": "partial",
   "theorems": [
    "C91_same_partial",
    "C91_taken_partial",
    "C91_same_refuted"
   ],
   "note": "Proved for values that begin with no quote and have no blank at either end. Refuted for others: quotes and blanks, which the configuration file can have with quotes, are lost on the way."
  },
  {
   "property": "C92",
   "status": "partial",
   "theorems": [
    "C92_unnamed_partial",
    "C92_any_option_refuted",
    "C92_any_file_refuted"
   ],
   "note": "Options that no line names are kept. Refuted for those that are named: every option can be set, scripts included, and every file of the client's can be read as configuration."
  },
  {
   "property": "C93",
   "status": "partial",
   "theorems": [
    "C93_agreement_partial",
    "C93_lines",
    "C93_silence_refuted",
    "C93_own_refuted",
    "C93_seed",
    "C93_half"
   ],
   "note": "Proved for all interleavings when autoupgrade_os is not set to an empty name and the server's configuration for the client has no seeds and no regex_case_insensitive of its own. Refuted for those: with an empty name both sides wait for ever, and the server's own settings are not taken back."
  },
  {
   "property": "C94",
   "status": "proved",
   "theorems": [
    "C94_protected",
    "C94_no_upgrade",
    "C94_confirmed"
   ],
   "note": "For all sequences of messages. That the includes may be overridden in any option is C92."
  },
  {
   "property": "C95",
   "status": "partial",
   "theorems": [
    "C95_prefix_partial",
    "C95_prefix_refuted"
   ],
   "note": "Proved for client prefixes other than the root directory. Refuted with it: a server prefix without a slash is relative to the directory the client was started in."
  },
  {
   "property": "C96",
   "status": "partial",
   "theorems": [
    "C96_sent",
    "C96_never",
    "C96_confined_partial",
    "C96_confined_refuted"
   ],
   "note": "Which files are sent is exact. They are below the directory unless the name given is . or .., for which files beside the directory are sent."
  },
  {
   "property": "C97",
   "status": "proved",
   "theorems": [
    "C97_interrupted"
   ],
   "note": "For every way in which the server sends a file."
  },
  {
   "property": "C98",
   "status": "partial",
   "theorems": [
    "C98_children_bound_partial",
    "C98_served_iff_partial",
    "C98_registered_partial",
    "C98_reload_refuted"
   ],
   "note": "Proved for all runs without a reload (SIGHUP). Refuted with one: the reload forgets the children that are at work, which are then no longer counted, so that the address serves up to its number again."
  },
  {
   "property": "C99",
   "status": "partial",
   "theorems": [
    "C99_ends_only_partial",
    "C99_ends_well_partial",
    "C99_accept_refuted",
    "C99_fork_refuted"
   ],
   "note": "Proved: the server ends with an error only when accept fails other than by a signal, the address of the peer cannot be told, or pipe or fork fail; in good order only after SIGUSR2. Refuted for these failures: a connection that the client has taken back before accept (ECONNABORTED, or EAGAIN as the socket does not block), or one fork that fails under load, ends the whole server."
  }
 ]
}