{"id": "C01", "title": "File-list ordering is a total order", "statement": "The comparison used to sort and merge every file list is a total order on path strings: it returns 0 exactly for equal paths, swapping the arguments flips the sign, it is transitive, and a missing path sorts before every path. In it '/' sorts before every other byte and a proper prefix sorts before its extensions.", "quantifier": "all pairs and triples of byte strings of any length (including bytes above 127) and missing paths", "why_tests_cant": "A comparison that is wrong on one triple of byte strings silently corrupts sorted merges; the triples are unbounded in number and include signed-char cases.", "anchors": ["src/pathcmp.c: pathcmp"]}
{"id": "C02", "title": "A directory's contents are contiguous in a sorted list", "statement": "In any list sorted by the file-list ordering, the entries at or beneath a given directory form one contiguous block, and the directory itself precedes its contents.", "quantifier": "all sorted lists of paths and all directories", "why_tests_cant": "The merge, browse and restore code all rely on contiguity for arbitrary trees; a test fixes one tree.", "anchors": ["src/pathcmp.c: pathcmp, is_subdir"]}
{"id": "C03", "title": "Sub-directory test is exact", "statement": "The sub-directory test says yes exactly when the second path equals the first, or extends it with '/...', or the first already ends in '/' and the second extends it by at least one byte; '/home/foo' is never taken to contain '/home/foobar'. For nested matching directories the deeper one never yields a smaller number, and a strictly larger one unless the shallower ends in a slash.", "quantifier": "all pairs of byte strings", "why_tests_cant": "Include/exclude decisions and the restore containment check both rest on this for every possible path, including odd slashes.", "anchors": ["src/pathcmp.c: is_subdir"]}
{"id": "C04", "title": "Dot components are always recognised", "statement": "The path safety check reports a dot component exactly when some '/'-separated component of the path is '.' or '..', and a path is accepted as absolute only if it has none and starts with '/' or a drive letter and colon.", "quantifier": "all byte strings", "why_tests_cant": "Path traversal protection must hold for adversarial strings of every length, not sampled ones.", "anchors": ["src/pathcmp.c: has_dot_component, is_absolute"]}
{"id": "C05", "title": "Ordering of manifest entries with the same path is consistent", "statement": "The comparison of manifest entries (entry type, then path) is a strict weak order for every mix of entry types: leading VSS data before the file, metadata and trailing VSS data after it, and swapping arguments flips the sign.", "quantifier": "all pairs and triples of (entry type, path)", "why_tests_cant": "Sorting and merging rely on antisymmetry for every combination of types.", "anchors": ["src/iobuf.c: iobuf_pathcmp", "src/sbuf.c: sbuf_pathcmp"]}
{"id": "C06", "title": "Integer text encoding round-trips", "statement": "Every integer field stored in a manifest through the base64 number encoding decodes to the same integer, the decoder consumes exactly the encoder's characters, and at most 12 characters are produced.", "quantifier": "all 64-bit signed integers (minus those the C code cannot negate)", "why_tests_cant": "2^64 values.", "anchors": ["src/base64.c: to_base64, from_base64"]}
{"id": "C07", "title": "File attributes survive storage in the manifest", "statement": "Decoding an encoded attribute string gives back every stat field, the Windows attributes, compression level, encryption kind, salt and API flag that were encoded, and the encoded string never exceeds the buffer it is written to.", "quantifier": "all attribute records over 64-bit field values", "why_tests_cant": "Nineteen independent 64-bit fields and a fixed-size buffer: only a proof covers the whole range.", "anchors": ["src/attribs.c: attribs_encode, attribs_decode"]}
{"id": "C08", "title": "Manifest message framing round-trips", "statement": "Any sequence of messages written to a manifest file is read back as exactly that sequence followed by a clean end of file, provided each payload is at most 65535 bytes; longer payloads are rejected when written.", "quantifier": "all finite sequences of messages with arbitrary binary payloads", "why_tests_cant": "Payload contents (newlines, hex digits, NULs) and sequence lengths are unbounded.", "anchors": ["src/msg.c: send_msg_fzp", "src/iobuf.c: iobuf_send_msg_fzp, do_iobuf_fill_from_fzp", "src/fzp.c: fzp_read_ensure"]}
{"id": "C09", "title": "A truncated manifest is never mistaken for a complete one", "statement": "Reading a manifest that was cut at any byte position delivers a prefix of the written messages and then, unless the cut is on a message boundary, an error rather than a clean end.", "quantifier": "all message sequences and all cut positions", "why_tests_cant": "Every crash point of a writer is a cut position.", "anchors": ["src/iobuf.c: do_iobuf_fill_from_fzp", "src/fzp.c: fzp_read_ensure"]}
{"id": "C10", "title": "Network framing does not depend on how the bytes arrive", "statement": "However the transport splits the byte stream, the receiver delivers exactly the messages that were sent, in order, with the same contents, and never reads or writes outside its buffer.", "quantifier": "all message sequences and all ways of splitting the stream into reads", "why_tests_cant": "The split is chosen by the network: every schedule must work.", "anchors": ["src/asfd.c: parse_readbuf_standard, extract_buf, parse_readbuf, asfd_do_read"]}
{"id": "C11", "title": "The send buffer never overflows and never reorders", "statement": "For any sequence of messages offered and any partial writes by the transport, the bytes handed to the transport are the concatenation of the framed messages accepted, in order, and the buffered amount never exceeds the buffer.", "quantifier": "all sequences of append attempts and partial writes", "why_tests_cant": "Interleavings of appends and short writes are unbounded.", "anchors": ["src/asfd.c: asfd_append_all_to_write_buffer, append_to_write_buffer, asfd_do_write"]}
{"id": "C12", "title": "Manifest entries round-trip", "statement": "A list of complete manifest entries (files with data path and end marker, directories, links, metadata) written out and read back gives the same list of entries, field for field.", "quantifier": "all lists of well-formed entries", "why_tests_cant": "Unbounded lists and payloads; the parser is a state machine whose state spans messages.", "anchors": ["src/sbuf.c: sbuf_to_manifest, sbuf_fill, parse_cmd", "src/server/manio.c: manio_read, manio_write_sbuf"]}
{"id": "C13", "title": "No entry read from the peer or a manifest carries a traversing path", "statement": "Whatever message stream is received, an entry that the parser returns as complete never has a path, data path or manifest path containing a '.' or '..' component.", "quantifier": "all message streams, including malicious ones", "why_tests_cant": "Adversarial inputs are unbounded.", "anchors": ["src/sbuf.c: parse_cmd, parse_cmd_*"]}
{"id": "C14", "title": "Storage paths are never reused", "statement": "Starting from the highest storage path already present, the successive storage paths handed out are strictly increasing and pairwise distinct, and distinct counters give distinct file names, until the space is exhausted.", "quantifier": "all starting points, all numbers of increments, all subdirectory limits", "why_tests_cant": "A collision needs a carry across components deep into a long history.", "anchors": ["src/server/dpth.c: dpth_incr, dpth_mk, dpth_init, dpth_set_from_string"]}
{"id": "C15", "title": "Running out of storage paths is reported, not wrapped", "statement": "When no further storage path exists, a new file is refused instead of being written over the first path.", "quantifier": "all counter states at the limit", "why_tests_cant": "Needs 2^16 * limit^2 files to hit in practice.", "anchors": ["src/server/dpth.c: dpth_incr", "src/server/backup_phase2.c: start_to_receive_new_file, relink"]}
{"id": "C16", "title": "Merging changed and unchanged lists gives the complete sorted manifest", "statement": "The final manifest of a backup is the sorted union of the unchanged and the changed entries: nothing lost, nothing invented, nothing twice.", "quantifier": "all pairs of sorted lists", "why_tests_cant": "Merges fail on particular interleavings and equal keys.", "anchors": ["src/server/backup_phase3.c: phase3", "src/server/manio.c: manio_copy_entry"]}
{"id": "C17", "title": "Every scanned entry is dealt with exactly once", "statement": "For each entry reported by the scan, exactly one of these happens: it is carried over as unchanged, its data is requested, or it is written as changed without data; entries only in the previous manifest are counted as deleted; no entry of the previous backup is carried over unless the scan reported it.", "quantifier": "all sorted scan lists and sorted previous manifests", "why_tests_cant": "The two-list walk must be right for all interleavings.", "anchors": ["src/server/backup_phase2.c: do_stuff_to_send, deal_with_... , maybe_do_delta_stuff, process_new, process_unchanged_file"]}
{"id": "C18", "title": "A modified file is never recorded as unchanged", "statement": "A file is carried over without requesting data only if its type, modification time and change time in the previous backup agree with the scan and no storage option that affects its stored form changed.", "quantifier": "all attribute pairs and option combinations", "why_tests_cant": "The decision table has many interacting conditions.", "anchors": ["src/server/backup_phase2.c: maybe_do_delta_stuff"]}
{"id": "C19", "title": "Every kept backup restores exactly what was backed up", "statement": "After any history of backups (each file new, unchanged, changed by delta, or gone; archive kept hard-linked or not) and deletions of deletable backups, restoring any file of any remaining backup yields exactly the contents that file had when that backup was made.", "quantifier": "all histories of backups and deletions, all files, all remaining backups", "why_tests_cant": "Reverse-delta chains grow with history; errors show only after particular sequences of backups and deletions.", "anchors": ["src/server/backup_phase4.c: jiggle, atomic_data_jiggle", "src/server/restore_sbuf.c: restore_file, process_data_dir_file", "src/server/delete.c: delete_backup, range_loop"]}
{"id": "C20", "title": "Only backups that nothing depends on are deleted", "statement": "Automatic and manual deletion only ever remove a backup that is the oldest or whose older neighbour is stored hard-linked, so no remaining backup loses data it needs.", "quantifier": "all backup lists, all keep settings, all deletion requests", "why_tests_cant": "The loop over ranges and the flags computed from neighbours interact for arbitrary lists.", "anchors": ["src/server/delete.c: range_loop, delete_backups, do_delete_server", "src/server/bu_get.c: setup_indices"]}
{"id": "C21", "title": "The most recent backups are always kept", "statement": "Automatic deletion never removes any of the newest K backups, where K is the first keep value; in particular the newest backup survives for every accepted keep configuration.", "quantifier": "all backup lists and accepted keep configurations", "why_tests_cant": "Unbounded lists and products of keep values.", "anchors": ["src/server/delete.c: range_loop, do_delete_backups", "src/conffile.c: finalise_keep_args"]}
{"id": "C22", "title": "Automatic deletion keeps a backup in each retention window and terminates", "statement": "In each window of the keep scheme that holds at least one backup, a deletion pass leaves at least one, a pass deletes only backups that were in the list, and repeating passes terminates with nothing more to delete.", "quantifier": "all backup lists and keep schemes", "why_tests_cant": "Windows, list shapes and repeated passes are unbounded.", "anchors": ["src/server/delete.c: range_loop, do_delete_backups, delete_backups"]}
{"id": "C23", "title": "Keep settings are validated", "statement": "A keep configuration is accepted only if every value is positive and the product is bounded, so that retention window arithmetic is meaningful and never wraps.", "quantifier": "all lists of keep strings", "why_tests_cant": "Integer parsing and products over arbitrary lists.", "anchors": ["src/conffile.c: finalise_keep_args"]}
{"id": "C24", "title": "The backup list is ordered and numbered", "statement": "The list of backups is in order of age, with each backup's position numbered from 1, the newest having age 1 with ages equal to the distance in backup numbers, and each new backup gets a number greater than all existing.", "quantifier": "all directory contents", "why_tests_cant": "Directory listing order is arbitrary.", "anchors": ["src/server/bu_get.c: do_bu_get_list, setup_indices", "src/server/backup.c: get_new_bno", "src/server/timestamp.c: timestamp_get_new"]}
{"id": "C25", "title": "Finalising a backup survives a crash at any point", "statement": "If the server stops at any step while finalising a file and finalisation is run again (any number of times), the new backup's copy of the file and the previous backup's restorable copy end up the same as without the crash.", "quantifier": "all crash points, any number of crashes, all combinations of delta / new / unchanged / hard-linked", "why_tests_cant": "Crash points multiply with states; tests cover the happy path.", "anchors": ["src/server/backup_phase4.c: jiggle, do_patch, get_sig..., atomic_data_jiggle, backup_phase4_server_all"]}
{"id": "C26", "title": "The current symlink survives a crash during deletion or finalisation", "statement": "Whatever step the server stops at while deleting the newest backup or switching 'current', the next run ends with a 'current' link to an existing complete backup, or with no backup at all if none remain.", "quantifier": "all crash points", "why_tests_cant": "Crash points.", "anchors": ["src/server/delete.c: delete_backup", "src/server/rubble.c: recover_currenttmp", "src/server/backup_phase4.c: backup_phase4_server_all"]}
{"id": "C27", "title": "Leftovers of an interrupted backup are handled consistently", "statement": "On the next connection an interrupted backup is resumed, finished or removed as configured: an incomplete scan is never used, a finishing backup is always completed before anything else, and resumption happens only for the same client with unchanged include/exclude settings.", "quantifier": "all combinations of leftover state and configuration", "why_tests_cant": "Many-way decision over file system state.", "anchors": ["src/server/rubble.c: check_for_rubble_and_clean, recover_working, recover_finishing"]}
{"id": "C28", "title": "Two backups of the same client never run at once", "statement": "At most one process at a time holds the client's write lock, for every interleaving of processes acquiring, testing, releasing and crashing.", "quantifier": "all numbers of processes and all interleavings", "why_tests_cant": "Race windows are not reachable by deterministic tests.", "anchors": ["src/lock.c: lock_get_quick, lock_get, lock_release, lock_test"]}
{"id": "C29", "title": "Server-initiated restore includes restore only the named trees", "statement": "With server-initiated include paths, an entry is restored exactly when it equals an include path or lies beneath it.", "quantifier": "all include lists and entry paths", "why_tests_cant": "Prefix-versus-component mistakes need adversarial path pairs.", "anchors": ["src/server/restore.c: srestore_matches, check_srestore"]}
{"id": "C30", "title": "A restore list selects exactly the listed entries", "statement": "Restoring with a list of paths (sorted) restores exactly the manifest entries whose path is in the list.", "quantifier": "all sorted restore lists and sorted manifests", "why_tests_cant": "Merge of two unbounded lists.", "anchors": ["src/server/restore.c: restore_list_check, want_to_restore"]}
{"id": "C31", "title": "Directory attributes are restored after the directory's contents", "statement": "During a restore each directory entry is sent after all selected entries beneath it, every selected entry is sent exactly once, and siblings keep their order.", "quantifier": "all sorted manifests", "why_tests_cant": "Nesting depth and shape are unbounded.", "anchors": ["src/server/restore.c: restore_ent, restore_remaining_dirs"]}
{"id": "C32", "title": "Authentication needs the right password", "statement": "With password checking on, a client is accepted only if a password is configured and the supplied one matches every configured form of it.", "quantifier": "all configured and supplied passwords, all outcomes of the system's hashing call", "why_tests_cant": "Failure outcomes of the hashing call are not reachable in tests.", "anchors": ["src/server/auth.c: check_client_and_password, check_passwd, compare_password"]}
{"id": "C33", "title": "Acting as another client never widens permissions", "statement": "A client that switches to another client's backups must be listed by that client as a restore or super client; afterwards it never has a permission that it did not itself have, and can never force a backup.", "quantifier": "all configurations of both clients and all sequences of switch requests", "why_tests_cant": "Combinations of permission flags and repeated switches.", "anchors": ["src/conffile.c: conf_switch_to_orig_client, restore_client_allowed"]}
{"id": "C34", "title": "Requests are refused unless permitted", "statement": "A list, diff, restore, verify or delete request is carried out only if the effective configuration permits that action (or a server-side restore file authorises the restore), unknown or old-style requests carry out no action, and a delete or backup runs only while the write lock is held.", "quantifier": "all request strings and configurations", "why_tests_cant": "Request strings are adversarial.", "anchors": ["src/server/run_action.c: run_action_server_do, run_list, run_diff, run_restore, run_delete"]}
{"id": "C35", "title": "Network access lists match exactly the configured ranges", "statement": "An address is accepted by an access-list entry exactly when the families agree and the first prefix-length bits agree, for both IPv4 and IPv6; an unlisted address is rejected by a non-empty list.", "quantifier": "all addresses, prefixes and lists", "why_tests_cant": "2^32 and 2^128 addresses.", "anchors": ["src/ipacl.c: ipacl_test..., ipv4/ipv6 prefix match"]}
{"id": "C36", "title": "The backup timer decision is right", "statement": "A timed backup runs exactly when a manual trigger is present, or the current day and hour are in an allowed time band and either no backup exists yet, or the time of the last backup cannot be read, or the interval since it has passed. An interval that is not understood never runs one once a backup exists.", "quantifier": "all arguments, clock values and time bands", "why_tests_cant": "Clock values and band strings are unbounded.", "anchors": ["src/server/timer.c: check_interval, check_timebands, run_timer_internal"]}
{"id": "C37", "title": "A resume happens only with identical include/exclude settings", "statement": "The comparison of stored and offered include/exclude settings says 'same' exactly when the texts are identical.", "quantifier": "all pairs of texts", "why_tests_cant": "Failure depends on lengths relative to the read chunk.", "anchors": ["src/server/rubble.c: incexc_matches"]}
{"id": "C38", "title": "Resuming after any truncation loses and repeats nothing", "statement": "If the changed/unchanged manifests are cut at any byte by a crash, resuming keeps exactly the entries that were completely written and continues with the next entry of the scan.", "quantifier": "all cut positions and lists", "why_tests_cant": "Every byte offset is a crash point.", "anchors": ["src/server/resume.c", "src/server/manio.c: manio_truncate..., manio_forward_through_sigs..."]}
{"id": "C39", "title": "The nearest include/exclude entry decides", "statement": "Whether a scanned path is included is decided by the longest configured include/exclude directory containing it; a path under no configured directory is not included.", "quantifier": "all include/exclude lists and paths", "why_tests_cant": "Lists and nesting are unbounded.", "anchors": ["src/client/find.c: file_is_included_no_incext"]}
{"id": "C40", "title": "The scan reports entries in file-list order, each once", "statement": "For any directory tree, the scan reports the directory first and then its contents so that the whole report is strictly increasing in the file-list ordering.", "quantifier": "all directory trees", "why_tests_cant": "Trees are unbounded; order errors break the later merge.", "anchors": ["src/client/find.c: find_files, found_directory, process_entries_in_directory", "src/fsops.c: entries_in_directory_alphasort"]}
{"id": "C41", "title": "Configuration path lists stay sorted and free of duplicates", "statement": "Adding paths to a sorted list keeps it sorted and keeps all previous entries; the 'uniq' form adds an entry only if the same path and flag are not present.", "quantifier": "all sequences of additions", "why_tests_cant": "Unbounded sequences.", "anchors": ["src/strlist.c: do_strlist_add"]}
{"id": "C42", "title": "Hard-linked data is sent once", "statement": "For any sequence of scanned files, the first name of each hard-linked inode is sent with data and every later name with a different path is sent as a link to that first name; distinct (device, inode) pairs are never confused even when their hashes collide.", "quantifier": "all sequences of (device, inode, name)", "why_tests_cant": "Needs hash collisions.", "anchors": ["src/linkhash.c: linkhash_search, linkhash_add, get_hash", "src/client/find.c: my_send_file_w"]}
{"id": "C43", "title": "Delta block length stays in range", "statement": "The delta block length chosen for a file of any size is between 64 and 131072 and a multiple of 16; between those limits it is the least multiple of 16 that is not below the square root of the old file's size.", "quantifier": "all file sizes", "why_tests_cant": "2^64 sizes.", "anchors": ["src/server/blocklen.c: get_librsync_block_len"]}
{"id": "C44", "title": "Quota decisions", "statement": "A backup is refused for exceeding the hard quota exactly when the estimated size exceeds a non-zero hard quota, and warned exactly when it exceeds a non-zero soft quota.", "quantifier": "all sizes and quota settings", "why_tests_cant": "64-bit value ranges.", "anchors": ["src/server/quota.c: check_quota"]}
{"id": "C45", "title": "Removing deleted entries from a manifest removes exactly those", "statement": "Applying a sorted list of entries to delete to a sorted manifest leaves exactly the entries not listed, in order.", "quantifier": "all sorted manifests and deletion lists", "why_tests_cant": "Merge of two unbounded lists.", "anchors": ["src/server/backup_phase4.c: maybe_delete_files_from_manifest"]}
{"id": "C46", "title": "Client restore never writes outside the chosen directory", "statement": "For any server-supplied path, the client writes an entry only if the real location of its nearest existing parent directory is inside the chosen restore directory and the path has no dot component.", "quantifier": "all server-supplied paths and directory states", "why_tests_cant": "A malicious server picks the paths.", "anchors": ["src/client/restore.c: canonicalise, strip_trailing_component", "src/pathcmp.c: is_subdir"]}
{"id": "C47", "title": "Client names cannot escape the configuration directory", "statement": "A client name accepted by the server is a single path component that is neither '.' nor '..', so the client configuration read is a direct child of the configuration directory.", "quantifier": "all byte strings", "why_tests_cant": "Adversarial names.", "anchors": ["src/conffile.c: cname_valid, conf_load_clientconfdir", "src/prepend.c: prepend_s"]}
{"id": "C48", "title": "Version comparison", "statement": "Versions compare like their dotted triples.", "quantifier": "all dotted triples", "why_tests_cant": "Component overflow past 99.", "anchors": ["src/handy.c: version_to_long"]}
{"id": "C49", "title": "Exclude logic expressions evaluate like boolean expressions", "statement": "An exclude_logic line made of tests (file_ext, file_match, path_match, file_size) joined by 'and', 'or', 'not' and parentheses, with any spacing, quoting and escaping the manual allows, evaluates from left to right to its boolean value for the file at hand; a regular file is excluded exactly when one of the lines is true; evaluating a line never uses freed or foreign memory.", "quantifier": "all expressions of any length and nesting, all layouts of their text, all file names and sizes", "why_tests_cant": "Length, nesting, spacing and the position of groups are unbounded; the faults depend on where a group stands and how many items it has.", "anchors": ["src/client/find_logic.c: create_token_list, parens, bool_eval, eval_parsed_expression, eval_expression, is_logic", "src/handy.c: charreplace_noescaped_w, charsplit_noescaped_w"]}
{"id": "C50", "title": "Quoted configuration values round-trip", "statement": "A value written in quotes with quotes and backslashes escaped is read back exactly.", "quantifier": "all byte strings", "why_tests_cant": "Escapes at every position.", "anchors": ["src/conffile.c: conf_get_pair, remove_quotes"]}
{"id": "C51", "title": "Browsing a directory of a backup lists exactly what is in it, each name once", "statement": "Listing one directory of a backup sends the client exactly the names found directly in that directory: \".\" for the directory itself if the backup has it, and one name for every file or directory the backup has directly in it or anywhere below it, whether or not the intermediate directory was backed up on its own. Each name is sent once, in the order of the manifest, with the attributes of the first entry under that name, and marked as a directory when something lies below it; entries that only hold metadata are never listed; a regular expression only removes names. If nothing is found the client is told \"directory not found\". Without a directory every entry is sent as it is in the manifest. Nothing else is sent, in particular no memory of the server.", "quantifier": "every manifest in the order in which backups write it, every directory string (absent, empty, with or without trailing slash, a root, a Windows drive), every regular expression, reading that ends cleanly or with an error", "why_tests_cant": "Duplicates are only suppressed against the previous match, so that a name is sent once depends on all paths below it being neighbours in every sorted manifest; a test sees a few directory shapes, and bytes read past a short buffer usually go unnoticed.", "anchors": ["src/server/list.c:check_browsedir", "src/server/list.c:list_manifest", "src/server/list.c:maybe_fake_directory"]}
{"id": "C52", "title": "Configuration lines are parsed inside their buffer", "statement": "Whatever a configuration line contains, parsing it reads and writes only the memory of that line.", "quantifier": "all configuration lines", "why_tests_cant": "Lines are arbitrary byte strings; the failing ones need a particular last or first character.", "anchors": ["src/conffile.c: conf_get_pair, remove_quotes"]}
{"id": "C53", "title": "Sizes and compression levels mean what they say", "statement": "A size written as a decimal number with an optional b, k, m or g suffix is read as that number of bytes, kibibytes, mebibytes or gibibytes; a compression level is accepted exactly when it is one digit, optionally after gzip or zlib.", "quantifier": "all numbers, suffixes and values", "why_tests_cant": "All numbers, including those whose product does not fit.", "anchors": ["src/conffile.c: get_file_size, get_compression"]}
{"id": "C54", "title": "Requested files are recorded exactly, in order, and the new manifest follows from scan and answers", "statement": "However sending and receiving interleave, when the client answers every request (in full, partly, or with a refusal) the server ends with exactly the files sent in full, in the order requested, each with the path, attributes, data and end marker sent; new files are stored at pairwise different places; and the manifest of the new backup is in order and has exactly one entry for each scanned path except those requested and not sent in full.", "quantifier": "all scans, previous manifests, answers and interleavings of messages", "why_tests_cant": "The interleavings of a two-way conversation and the combinations of answers are unbounded.", "anchors": ["src/server/backup_phase2.c: do_stuff_to_receive, do_stuff_to_send, backup_phase2_server_all", "src/client/backup_phase2.c: deal_with_data", "src/server/backup_phase3.c"]}
{"id": "C55", "title": "Restoring or verifying a backup leaves the repository as it is", "statement": "While a file is restored or verified, every file stored in the repository keeps its content at all times, also if an earlier restore was stopped at any point; afterwards no temporary file is left, and what is sent is what the reverse deltas, applied in turn to the stored file, make of it.", "quantifier": "for all repositories, all files with any number of reverse deltas, stored compressed or not, all points at which an earlier restore was stopped, and any link count limit", "why_tests_cant": "The stored data is only harmed when a restore is stopped in the short time in which a temporary name is a hard link to it, and a later restore meets another kind of file first; the tests run restores to the end.", "anchors": ["src/server/restore_sbuf.c:35-70", "src/server/restore_sbuf.c:259-348", "src/server/backup_phase4.c:31-65", "src/server/link.c:135-165"]}
{"id": "C56", "title": "A scan lists exactly what is there and wanted", "statement": "When the client's scan of its files succeeds, the list it sends has an entry, of the right kind, for everything that can be reached from the starting directories and that the include, exclude and size settings let through, and for nothing else; a path that cannot be looked at is not listed.", "quantifier": "for all file systems, all include and exclude directories, all extension, regular expression, size and logic filters, and all points at which sending may fail", "why_tests_cant": "What goes wrong depends on what was looked at just before a path that has gone or that never was there; the tests scan small trees in which everything can be read.", "anchors": ["src/client/find.c:289-330", "src/client/find.c:427-693", "src/client/backup_phase1.c:61-257", "src/conffile.c:791-931"]}
{"id": "C57", "title": "Hard links in the file list lead to something sent before", "statement": "Every hard link in the list that a scan sends names an earlier entry of the same list that is the same file on the client and that is not itself sent as a hard link.", "quantifier": "for all file systems, configurations and scans, whether they succeed or not", "why_tests_cant": "It needs a hard-linked file, a filter and a vanishing name to come in a particular order.", "anchors": ["src/client/find.c:289-330", "src/client/find.c:640-693", "src/linkhash.c"]}
{"id": "C58", "title": "A restore without overwrite replaces nothing", "statement": "When the user did not ask to overwrite, a restore into a directory leaves every file, link and directory that was there before in its place as the same object, whatever the server sends.", "quantifier": "all directory trees, server-sent entry lists, failing calls", "why_tests_cant": "Depends on links in the tree, on which call fails and on every combination of entry types a server may send.", "anchors": ["src/client/restore.c: overwrite_ok, make_link, open_for_restore", "src/fsops.c: mkpath"]}
{"id": "C59", "title": "A listing shows the backup that was asked for and no other", "statement": "Asked for a number, or for a time stamp, a listing shows the backup with that number and no other, and fails with \"backup not found\" if there is none; asked for a word beginning with c it shows the current backup and only that; asked for a word beginning with a, or for no backup with a regular expression or a directory, it shows the contents of all backups in order, up to the first that cannot be read; asked for nothing it shows the names of all backups and no contents; anything else finds nothing and fails.", "quantifier": "every string given by the client, every list of backups with distinct numbers taken from their time stamps, every outcome of listing the contents of each", "why_tests_cant": "The request string is parsed as a number, a letter and a time stamp at once; that these tests never pick a second backup or the wrong one needs all strings and all lists.", "anchors": ["src/server/list.c:list_server_init", "src/server/list.c:do_list_server_work", "src/server/list.c:list_contents_one", "src/server/list.c:list_contents_many"]}
{"id": "C60", "title": "Linking duplicates changes the content of no file at any moment", "statement": "A deduplication run that makes hard links leaves, after every system call it makes and so wherever it is killed, every name on the disk with the content it had before; it changes only names of files it came to and temporary names next to them. If nothing fails and no temporary name was taken it succeeds and leaves exactly the names that were there. Asked only to report, it changes nothing.", "quantifier": "all disks (names, inodes, devices, contents), all orders of visiting, all checksum functions including ones that collide, all limits, all patterns of failing open, read, link, rename and unlink calls", "why_tests_cant": "Colliding checksums, links between the visited files, runs that die between link and rename, and failing calls at every position combine without bound.", "anchors": ["src/server/bedup.c: check_files, full_match, do_hardlink, get_part_cksum, get_full_cksum", "src/fzp.c: fzp_read"]}
{"id": "C61", "title": "Deleting duplicates never deletes the last copy", "statement": "A deduplication run that deletes duplicates only removes names, and after every system call each file that was on the disk before still has a name, on the same device, under which the same bytes can be read.", "quantifier": "all disks, all orders of visiting, all checksum functions, all patterns of failing calls", "why_tests_cant": "Whether a copy is the last depends on the whole sequence of names visited and links between them.", "anchors": ["src/server/bedup.c: check_files 363-445"]}
{"id": "C62", "title": "Deduplication saves what it says, stays under the link limit and misses no duplicate", "statement": "The number of bytes a linking or deleting run reports as saved is the difference of what the files on the disk occupied before and after, modulo 2^64. No file gets more names than the configured limit unless it had them before. If every file can be opened and read and the limit is above the number of names, then any two visited non-empty files on one device with the same bytes end as the same file. The bytes a run without options reports as saveable are those that a linking run would save.", "quantifier": "all disks with existing hard links, all orders of visiting, limits, checksum functions and failing calls", "why_tests_cant": "Counting has to be right for every way in which visited names are already linked to each other.", "anchors": ["src/server/bedup.c: check_files, reset_old_file, add_file, add_key, find_key"]}
{"id": "C63", "title": "Deduplication on the server keeps out of backups that are going on", "statement": "Run with the server configuration, deduplication changes only files in the directories of clients whose lock it holds and that have a current link; it leaves alone the lock files, everything under deleteme, everything in the backups that the working and finishing links of the client lead to, and the logs of every backup. All other files of such a client are considered. It reads no memory outside its buffers.", "quantifier": "all sets of clients, directory trees, link targets, and deduplication runs as in C60", "why_tests_cant": "The exclusions depend on the depth of a name, on the links of the client and on what earlier clients left behind.", "anchors": ["src/server/bedup.c: process_dir, level_exclusion, get_link, looks_like_ours, iterate_over_clients"]}
{"id": "C64", "title": "Comparing two backups lists exactly what differs", "statement": "Asked for the differences of two existing backups, the server sends their names and then, in path order, one line '- path' for every entry of the first that the second does not have with the same modification time, and one line '+ path' for every entry of the second that the first does not have with the same modification time, and nothing else. If a number is missing, 0, unknown or given twice it sends one error and no entry; if a manifest cannot be read to its end it does not report success.", "quantifier": "all sets of backups, all pairs of sorted manifests, all requested strings", "why_tests_cant": "It needs every interleaving of two sorted lists, with directories, metadata and links of the same path.", "anchors": ["src/server/diff.c", "src/prepend.c: prepend_s"]}
{"id": "C65", "title": "ACLs and extended attributes come back as they were saved", "statement": "Restoring the metadata saved for a file asks the system for exactly the access ACL, for a directory the default ACL, and every extended attribute that could be read, with names and values byte for byte and in the order they were listed; attributes that only hold the ACLs are left out when the ACLs themselves were saved. If the system refuses an ACL the rest is still asked for and the failure is counted; if it refuses an attribute the attributes after it are not asked for. Nothing is saved if there is nothing, and no memory outside the buffers is touched.", "quantifier": "all ACL texts, all lists of attribute names, all values including NUL bytes and empty ones, all failures to read a value, all refusals while restoring", "why_tests_cant": "Names, values and failures combine freely; a test sees a few attributes on one file system.", "anchors": ["src/client/xattr.c: get_xattr, get_toappend, append_to_extrameta, set_xattr, do_set_xattr, get_next_xattr_str", "src/client/acl.c: get_acl, get_acl_string, set_acl", "src/client/extrameta.c: get_extrameta, set_extrameta"]}
{"id": "C66", "title": "No metadata can make a restore read outside it", "statement": "Whatever bytes the server sends as metadata of a file, restoring them reads nothing outside them and terminates, and every ACL text, attribute name and value handed to the system is a piece of them. If metadata is cut short, the whole entries before the cut are restored exactly as without the cut, nothing is made of the broken entry, and failure is returned unless the cut is between two entries.", "quantifier": "all byte strings as metadata, all refusals by the system, all places to cut", "why_tests_cant": "The lengths are parsed from the data with signs, blanks and 0x accepted; every byte string is a possible input.", "anchors": ["src/client/extrameta.c: set_extrameta", "src/client/xattr.c: get_next_xattr_str, do_set_xattr, do_set_xattr_bsd", "src/client/acl.c: set_acl"]}
{"id": "C67", "title": "The acl and xattr settings decide what is saved", "statement": "With acl=0 no ACL is saved and with xattr=0 no extended attribute is saved.", "quantifier": "all files, all four combinations of the settings", "why_tests_cant": "The scan and the collection of metadata are different phases with their own tests.", "anchors": ["src/client/extrameta.c: has_extrameta, get_extrameta", "src/client/backup_phase1.c: maybe_send_extrameta", "src/client/backup_phase2.c: deal_with_data"]}
{"id": "C68", "title": "Extended attributes come back on the BSDs", "statement": "On systems with extattr the attributes of both namespaces come back with their whole names and values, each namespace until an attribute is refused, as in C65.", "quantifier": "all ACL texts, all namespaces, names and values, all refusals", "why_tests_cant": "As for C65; and the project's tests run on Linux.", "anchors": ["src/client/xattr.c: get_xattr (extattr), do_set_xattr_bsd"]}
{"id": "C69", "title": "A file's content comes back whatever the settings", "statement": "If a client sends a file in full (compressed or not, encrypted or not), the server stores the data of the messages it gets, and later sends the stored data to a client that restores the file with the same password, then the client writes exactly the content that was read in the backup, however the data is cut into blocks on the way and whatever messages and warnings come in between.", "quantifier": "all contents, all four combinations of compression and encryption, all ways of cutting the reads, all codecs and ciphers whose decoding undoes their encoding", "why_tests_cant": "The chain of choices (who compresses, who decompresses, in which order with encryption) depends on four settings at once, and the block boundaries of reads, of compression, of encryption and of the network are all different; tests fix one of each.", "anchors": ["src/handy_extra.c: send_whole_file_gzl, send_whole_filel", "src/client/backup_phase2.c: send_whole_file_w", "src/server/restore_sbuf.c: do_send_file", "src/transfer.c: transfer_gzfile_inl", "src/client/restore_switch.c: do_restore_file_or_get_meta"]}
{"id": "C70", "title": "Metadata comes back whatever the settings", "statement": "As C69 for a file's metadata (ACLs and extended attributes), which is collected in memory in the restore; receiving it stays within its buffers.", "quantifier": "all metadata, all settings", "why_tests_cant": "The one byte written too much needs metadata that decompresses to a full buffer of 16000 bytes, which no test has.", "anchors": ["src/transfer.c: do_write, do_inflate, transfer_gzfile_inl", "src/prepend.c: prepend_len"]}
{"id": "C71", "title": "A file reported as restored is whole", "statement": "If the client's transfer of a file succeeds, then the file it wrote is the whole content that was backed up.", "quantifier": "all message sequences, all results of reading on the server and of writing on the client", "why_tests_cant": "It needs errors in the middle of files: read errors on the server's disk, short writes, streams that stop early.", "anchors": ["src/transfer.c: transfer_gzfile_inl, do_write", "src/server/restore_sbuf.c: do_send_file", "src/handy_extra.c: send_whole_filel"]}
{"id": "C72", "title": "A file that could not be read to the end is not kept", "statement": "If reading a file fails in the middle of a backup, the server does not keep the part it got as a file of the backup.", "quantifier": "all files, all points of failure, all settings, all states of the server", "why_tests_cant": "Needs read errors in the middle of a file and both programs at once.", "anchors": ["src/handy_extra.c: send_whole_file_gzl, send_whole_filel", "src/client/backup_phase2.c: deal_with_data, forget_file", "src/server/backup_phase2.c: do_stuff_to_receive"]}
{"id": "C73", "title": "Setting up a key stays within its buffers", "statement": "Setting up encryption or decryption with a password writes only within the buffers for the key and the initialisation vector.", "quantifier": "all passwords, all kinds of key", "why_tests_cant": "Writing a few bytes behind an array on the stack does not show in a test's result.", "anchors": ["src/handy_extra.c: enc_setup"]}
{"id": "C74", "title": "Verifying a backup passes exactly when the content has its checksum", "statement": "After a file has been backed up, verifying it passes for the data as it was stored, and for any other data in its place passes only if what is read from it has the same checksum.", "quantifier": "all contents, settings, checksum functions, and all stored data at the time of verifying", "why_tests_cant": "The checksum is taken before compression but after encryption, and the reader has to undo exactly that; tests cannot cover all stored data.", "anchors": ["src/server/restore_sbuf.c: verify_file", "src/handy_extra.c: send_whole_file_gzl, get_endfile_str"]}
{"id": "C75", "title": "Certificates and upgrades arrive whole or fail", "statement": "A certificate, script or upgrade that is sent arrives with its content unchanged, and if it does not arrive in full the receiver is told so.", "quantifier": "all contents, all interruptions of the transfer, all results of writing", "why_tests_cant": "Needs transfers that fail in the middle.", "anchors": ["src/handy.c: send_a_file, receive_a_file, send_whole_file_gz", "src/msg.c: transfer_gzfile_in"]}
{"id": "C76", "title": "Stripped Windows files hold exactly their data", "statement": "Restoring a Windows file with its headers taken away writes exactly the bytes of the file's data, whatever other streams were saved with it and in whatever pieces the stored file arrives.", "quantifier": "all lists of streams, all ways the stored file is cut into pieces, all short writes", "why_tests_cant": "The result depends on where the pieces happen to end relative to the 20 byte headers.", "anchors": ["src/bfile.c: bfile_write_vss_strip, setup_vss_strip"]}
{"id": "C77", "title": "Failing writes are noticed while stripping", "statement": "If writing a stripped Windows file fails the restore of that file fails; it never reports success for a file with other content.", "quantifier": "all files, all pieces, all results of write()", "why_tests_cant": "Needs write() to fail at a chosen moment.", "anchors": ["src/bfile.c: bfile_write_vss_strip"]}
{"id": "C78", "title": "vss_strip gives the file's data", "statement": "The stripping program writes the data of a stored Windows file, the same bytes a stripped restore writes, and fails when its input is incomplete; it prints the headers that are there.", "quantifier": "all lists of streams, all places where the input ends, all results of writing", "why_tests_cant": "Inputs can be cut anywhere and hold any streams.", "anchors": ["src/server/vss_strip.c: main_work, extract_data, ensure_write, ensure_read, skip_data, dump_headers"]}
{"id": "C79", "title": "A status report read back is what was counted", "statement": "The line of text a child process writes about itself (client name, process id, backup number, phase, every counter, and the path it is at), when parsed by the process that shows the status, gives back exactly the same name, process id, backup number, phase, counters and path; and it is exactly one line, ended by a newline.", "quantifier": "For all client names and paths without tabs or newlines, all int process ids, backup numbers and phases, all values of all 24 counters (any uint64), and any earlier contents of the reader's counters.", "why_tests_cant": "The values are 64-bit and there are about a hundred of them, the name may contain the dots that separate its parts, and the path has any length; tests try a few.", "anchors": ["src/cntr.c:689-724", "src/cntr.c:727-911"]}
{"id": "C80", "title": "The status report fits its buffer", "statement": "The text of a status report, with its terminating NUL, is never longer than the buffer that was allocated for it when the counters were set up, although it is put together with strcat().", "quantifier": "For all client names, all int process ids, backup numbers and phases, all values of all counters, all sequences of counting calls, and all paths however long.", "why_tests_cant": "It is a statement about the longest possible text over all values; an overflow would need many large counters and a long path together.", "anchors": ["src/cntr.c:65-95", "src/cntr.c:689-724"]}
{"id": "C81", "title": "The counters say how often each thing happened, and their total is their sum", "statement": "After any sequence of counting calls each row of the table holds the number of new, changed, duplicate, deleted and scanned entries of its kind that were counted, and the grand total is the sum of the rows, both in the counters and in the table that is printed. With fail_on_warning set a backup fails if and only if a warning was counted.", "quantifier": "For all finite sequences of the calls that count, with all letters and values, modulo 2^64.", "why_tests_cant": "The totals are kept beside the rows by separate increments in separate functions; that no sequence of calls makes them disagree needs induction over sequences.", "anchors": ["src/cntr.c:282-451", "src/cntr.c:453-498", "src/cntr.c:586-587", "src/cntr.c:1100-1107", "src/client/backup_phase2.c:341"]}
{"id": "C82", "title": "Statistics carry the right name, number and unit", "statement": "In the statistics written beside a backup and sent to monitors, the numbers under the name (and under the type letter) of a counter are those of that counter, and a counter that is not listed is zero; a size printed with a unit is the size in that unit; the name of a phase is read back as that phase.", "quantifier": "For all values of all counters, all counter names and types, all sizes below 2^64, all phases.", "why_tests_cant": "The table of names and the chain of divisions must be right for every entry and every magnitude up to 2^64, and floating point rounding must not disturb the choice of unit.", "anchors": ["src/cntr.c:97-168", "src/cntr.c:206-231", "src/server/monitor/json_output.c:168-216", "src/cntr.c:1036-1074"]}
{"id": "C83", "title": "A monitor's request is read as it was meant", "statement": "What the status monitor client writes to ask for a client, a backup or a log is read by the server as a request for exactly that client, that backup and that log, and a path to browse is read whole, colons included.", "quantifier": "For all client names, backup numbers, log names and paths, all orders and repetitions of the fields, and whatever bytes follow the request.", "why_tests_cant": "Fields are separated by a character that may stand in names and paths, and lines are cut from a stream; only a proof covers every combination of values.", "anchors": ["src/server/monitor/status_server.c:165-225", "src/client/monitor/status_client_ncurses.c:915-989", "src/asfd.c:81-107"]}
{"id": "C84", "title": "A monitor is told about the clients it may see and no others", "statement": "A monitor may see a client if and only if it is that client, or restore access is given to it in the way the configuration says. Whatever is asked and whatever the backup processes report, nothing that the monitor is told depends on a client that it may not see.", "quantifier": "For all lists of clients, all sequences of requests and of reports from backup processes, all configurations.", "why_tests_cant": "Non-interference compares all pairs of states that differ in the hidden part, over all sequences of requests.", "anchors": ["src/server/monitor/cstat.c:17-46", "src/server/monitor/status_server.c:15-160", "src/server/monitor/status_server.c:248-406", "src/server/monitor/json_output.c:218-458"]}
{"id": "C85", "title": "The monitor shows as running just what runs", "statement": "After the main server process has said which children run, a client is shown as running if and only if one of its children was named, with just those of its processes that were named and with the backup numbers that were given. A report of a child updates that child's counters and no other client.", "quantifier": "For all lists of children, all client lists with distinct names and process ids, all reports.", "why_tests_cant": "The list is parsed from text and merged into linked lists that are changed while walked; every combination of old and new children must come out right.", "anchors": ["src/server/monitor/status_server.c:15-160", "src/server/main.c:790-815", "src/cntr.c:827-911"]}
{"id": "C86", "title": "Every request gets an answer", "statement": "Every request of a monitor is answered, and no request ends or crashes the status server. A request that names a client, one of its backups and a directory in it is answered with exactly that client, that backup, the files it has, and the names in that directory; one that names one of the log or statistics files, with its lines; other files are refused and clients that are not known are named in a warning.", "quantifier": "For all requests and all lists of clients, whether or not backups run and whether or not their logs can be read.", "why_tests_cant": "It is a statement about all byte strings as requests in all states.", "anchors": ["src/server/monitor/status_server.c:248-415", "src/server/monitor/json_output.c:106-166", "src/server/monitor/json_output.c:218-458"]}
{"id": "C87", "title": "The list of clients is what is configured", "statement": "After each look at the disk the status server's list has each validly named client whose configuration is a regular file, once, in strictly ascending order, and nothing else. A client may be seen by the monitor only if some configuration that was read let it, and as its present configuration says.", "quantifier": "For all sequences of states of the configuration directory, with all names, times and contents.", "why_tests_cant": "The list is changed and restarted while it is walked, over any number of looks with clients coming, going and changing; this needs induction over the looks.", "anchors": ["src/cstat.c:68-94", "src/server/monitor/cstat.c:90-242"]}
{"id": "C88", "title": "Browsing through the cache lists what is in the directory", "statement": "With the browse cache, asking for a directory of a backup lists exactly the names that entries of the backup have in that directory, each once and in ascending order, whether or not the directory itself was backed up; nothing is listed for a directory that is not in the backup.", "quantifier": "For all manifests in path order without doubled slashes, all directories and all ways of writing them with slashes.", "why_tests_cant": "The tree is built by comparing each name with the last one added only; that this never makes doubles or loses names depends on the order of all manifests.", "anchors": ["src/server/monitor/cache.c:98-174", "src/server/monitor/cache.c:191-235"]}
{"id": "C89", "title": "Browsing through the cache shows each entry's own attributes", "statement": "The link target, mode and other attributes shown for a name in a directory are those of the entry of that path in the backup; a directory that was not backed up itself is shown as a directory.", "quantifier": "For all manifests in path order, all entries and directories.", "why_tests_cant": "Which attributes are shown depends on which entries came before; only a proof covers all manifests.", "anchors": ["src/server/monitor/cache.c:50-65", "src/server/monitor/cache.c:131-164", "src/server/monitor/json_output.c:472-491"]}
{"id": "C90", "title": "The browse cache makes no difference to the answers", "statement": "Each answer given through the cache is the one that would be given by reading the manifest of the backup that is asked for afresh, in whatever order clients, backups and directories are asked for, also after a manifest could not be read.", "quantifier": "For all sequences of requests, all clients, backups and manifests.", "why_tests_cant": "It is about all interleavings of requests with a state that is kept between them.", "anchors": ["src/server/monitor/cache.c:46-48", "src/server/monitor/cache.c:98-183", "src/server/monitor/browse.c:82-99"]}
{"id": "C91", "title": "Include and exclude settings arrive as they were sent", "statement": "When one side gives its include/exclude settings to the other, the receiver's include/exclude options afterwards have exactly the values the sender's have, in the same order, and all its other options are unchanged.", "quantifier": "For all settings of both sides, all option tables.", "why_tests_cant": "Values, list lengths and option tables are unbounded, and quoting rules make particular values behave differently.", "anchors": ["src/incexc_send.c:10-129", "src/incexc_recv.c:13-77", "src/conffile.c:260-424", "src/conffile.c:1324-1373", "src/strlist.c:49-108"]}
{"id": "C92", "title": "A server may set nothing but include and exclude options", "statement": "The lines that a server sends to replace the client's include/exclude settings change no other option of the client.", "quantifier": "For all texts a server may send, all client settings.", "why_tests_cant": "It is about every text that a hostile server may send.", "anchors": ["src/conffile.c:1366-1373", "src/conffile.c:391-424", "src/client/extra_comms.c:128-150"]}
{"id": "C93", "title": "Client and server agree before the work begins", "statement": "The exchange before the work always ends. When both sides go on, they agree: on the checksum algorithm, which is the better one if both have it, on whether counters are sent, on how Windows data is restored, on the failovers left, on case sensitivity, on the seeds, on whether the server has the client restore, and the server has the client's include/exclude settings as text. Directories to seed from and to are kept only if they are absolute, and only one of the two is an error.", "quantifier": "For all settings of client and server, all orders in which messages arrive.", "why_tests_cant": "There are unboundedly many settings and interleavings of two communicating processes.", "anchors": ["src/client/extra_comms.c:34-291", "src/server/extra_comms.c:52-515", "src/incexc_send.c:95-129", "src/incexc_recv.c:22-77"]}
{"id": "C94", "title": "A client is not talked into what it does not allow", "statement": "Whatever a server sends before the work begins: a client that does not let the server restore keeps to the action it was started for; if it does not let the server override its includes either, its settings stay as they are; it upgrades itself only if it is configured with an operating system name for that; and if it acts for another client, it goes on only after the server has confirmed that.", "quantifier": "For all sequences of messages from a server, all client settings.", "why_tests_cant": "It is about every sequence of messages of a hostile or broken server.", "anchors": ["src/client/extra_comms.c:34-291", "src/client/autoupgrade.c:25-88"]}
{"id": "C95", "title": "A restore the server asks for stays below the client's prefix", "statement": "A client lets a server start a restore only if it has a restore prefix of its own, and then the place of the restore is that prefix or a path below it.", "quantifier": "For all texts a server may send, all client settings.", "why_tests_cant": "It is about every text that a hostile server may send.", "anchors": ["src/conffile.c:1376-1433", "src/pathcmp.c:65-81", "src/prepend.c:37-58"]}
{"id": "C96", "title": "Upgrades are sent only to older clients and only from the upgrade directory", "statement": "A server sends a client that asks for an upgrade the script and the package for its operating system, if the client is older than the server and both are regular files, and nothing otherwise; what is sent is below the upgrade directory.", "quantifier": "For all names of operating systems a client may give, all versions and all states of the file system.", "why_tests_cant": "It is about every name that a hostile client may give.", "anchors": ["src/server/autoupgrade.c:11-113", "src/server/extra_comms.c:153-179"]}
{"id": "C97", "title": "After a request to stop, nothing more of a file is sent", "statement": "When the client asks the server to stop sending the file under way, the server sends no more of its data: only the end of the file follows.", "quantifier": "For all files, all ways of sending them and all moments of the request.", "why_tests_cant": "It depends on when the request arrives among unboundedly many blocks.", "anchors": ["src/handy_extra.c:274-300", "src/handy_extra.c:543-608", "src/handy.c:27-57", "src/server/restore_sbuf.c:72-165"]}
{"id": "C98", "title": "No address serves more clients at once than configured", "statement": "At no time are more clients served through a listen address of the server than the number of children configured for it, and a connection is served whenever the address has a child to spare.", "quantifier": "For all configurations with distinct addresses and all sequences of connections, ends of children, reports and signals.", "why_tests_cant": "The number depends on the order of connections, exits, broken pipes and signals; there are unboundedly many orders.", "anchors": ["src/server/main.c:55-73", "src/server/main.c:421-642", "src/server/main.c:982-1098"]}
{"id": "C99", "title": "A connection that fails does not end the server", "statement": "Whatever becomes of one incoming connection, the server goes on serving the others; it ends only after having been asked to.", "quantifier": "For all states of the server and all outcomes of the system calls for one connection.", "why_tests_cant": "The failures are those of accept, pipe and fork at a moment given by clients and load.", "anchors": ["src/server/main.c:528-642", "src/server/main.c:985-1036", "src/server/main.c:1109-1156"]}
{"id": "C100", "title": "A reload leaves the work under way alone", "statement": "Every report of a child that is doing a backup or restore is taken by the main process, so that the child's work is never ended by a report that cannot be delivered; also when the server is told to reload its configuration.", "quantifier": "For all sequences of connections, reports, exits and signals.", "why_tests_cant": "It takes a signal at any moment of any number of backups.", "anchors": ["src/server/main.c:938-1107", "src/server/main.c:1133-1147", "src/server/child.c:24-71", "src/asfd.c:285-299"]}
{"id": "C101", "title": "A gentle shutdown waits for all children", "statement": "A server told to shut down gently ends exactly when no child serves a client any more.", "quantifier": "For all sequences of connections, exits and signals before and after the request.", "why_tests_cant": "It is about every order of exits, their detection and new connections.", "anchors": ["src/server/main.c:47-52", "src/server/main.c:1058-1082", "src/server/main.c:1109-1156"]}
{"id": "C102", "title": "No more backups at the same time than max_parallel_backups", "statement": "A backup is refused exactly when as many others as allowed are being done, so that there are never more backups at the same time than max_parallel_backups.", "quantifier": "For all maxima and all interleavings of connections, reports and ends of backups.", "why_tests_cant": "It depends on how connections and reports interleave.", "anchors": ["src/server/main.c:720-755", "src/server/main.c:995-1001", "src/server/main.c:1038-1053", "src/server/run_action.c:559-569"]}
{"id": "C103", "title": "The list for the status monitor names each working child once", "statement": "As long as the configuration is not reloaded, the list of clients the main process makes for the status monitor holds every child that has reported and still serves, once, with the client name, process and backup number the child reported.", "quantifier": "For all sequences of connections, reports and exits.", "why_tests_cant": "The list depends on the whole history of children.", "anchors": ["src/server/main.c:699-718", "src/server/main.c:790-815", "src/server/main.c:1038-1056"]}
{"id": "C104", "title": "Client scripts run in order, guard the work and are told how it went", "statement": "When the server lets a backup go ahead, or for a restore, the client runs the configured pre script with exactly its configured arguments, then (if so configured) evaluates the include globs again, then does the work only if both went well, then runs the post script if all went well or if it is to run on failure, telling it 0 or 1 when reserved arguments are on; the result is success exactly if everything that was run went well. If the server refuses, or for a timer check, or without any include path, no script is run at all.", "quantifier": "For all configurations of scripts and arguments, all answers of the server, all ways each script and the work can end.", "why_tests_cant": "All combinations of script failures, signals and flags cannot be run.", "anchors": ["src/client/main.c:113-215", "src/client/main.c:383-442", "src/run_script.c:120-196"]}
{"id": "C105", "title": "Exit status 0 of the client means the work was done", "statement": "The client ends with status 0 only if it connected, the preliminaries and the work succeeded and everything was sent; a refusal of the server because of the timer or of too many backups comes out as status 3 and 5 exactly then; the go-ahead of the server is understood with the compression level and the wish to resume it contains, for every level, whatever log messages come before it.", "quantifier": "For all actions, all outcomes of each step, all messages of the server.", "why_tests_cant": "The failures of single steps, such as buffers that cannot be set up, are hard to provoke, and the answer is an arbitrary string.", "anchors": ["src/client/main.c:51-111", "src/client/main.c:444-575", "src/server/backup.c:363-366"]}
{"id": "C106", "title": "Failing over visits the servers in order and stops at the first answer", "statement": "The client contacts the configured server and then the failover servers strictly in the configured order, each once, or twice if the first session asks for a new connection; it goes on to the next only if the last session could not connect, or ended in an error of a backup with failover on backup errors switched on; it tells each how many servers remain after it; it never stops early while there is a reason to go on and a server left, and its exit status is that of the last session.", "quantifier": "For all actions, lists of servers and outcomes of all sessions.", "why_tests_cant": "The number of servers and the combinations of outcomes are unbounded.", "anchors": ["src/client/main.c:577-656"]}
{"id": "C107", "title": "Server scripts guard the action and are told how it went", "statement": "For each request the server runs the pre script, then the action only if that script succeeded, then the post script if all went well or it is to run on failure, each told the kind of action, the client, and whether the action failed or the timer said no; a failing script leads to a notification with its output exactly if notifications are on for it and a script is configured, except for a backup that can still fail over. The child reports success only if the action succeeded.", "quantifier": "For all configurations, requests and outcomes.", "why_tests_cant": "All combinations of outcomes and flags cannot be run.", "anchors": ["src/server/child.c:147-231", "src/server/child.c:298-331"]}
{"id": "C108", "title": "Reports and timer checks of a child keep their intervals", "statement": "With a clock that does not go back, a child hands out its progress at most once in two seconds, and at least at the first chance after two seconds unless the buffer is full; each report is a state the child was in at that time or before. In a timed backup the timer script is run again while scanning or backing up at most once per configured interval and at the first chance after it, and its answer decides whether the backup goes on; it is never run when the interval is 0, for other backups or in other states.", "quantifier": "For all sequences of calls with all times, states, texts and buffer conditions.", "why_tests_cant": "Time and the state of the pipe are not under control of a test.", "anchors": ["src/server/child.c:24-131"]}
{"id": "C109", "title": "Nothing is lost or added between a file, librsync and the network", "statement": "When the exchange of a delta or a signature ends well, the data messages sent, put together, are exactly what librsync makes of the bytes of the file (or of the first so many if a count is known), however the file is read in pieces and however often the network is busy; the size and checksum sent afterwards are those of exactly these bytes; no message is empty or longer than the buffer. The receiving side gives librsync exactly the data messages up to the end marker, ignoring only messages for the log, and reads nothing beyond the marker; so the client's librsync gets exactly the signature the server's librsync made of the old file.", "quantifier": "For all files, ways of reading them, buffer sizes, sequences of busy and free network, and all librsync jobs that keep librsync's promises.", "why_tests_cant": "The interleavings of partial reads, full output buffers and a busy network are unbounded.", "anchors": ["src/rs_buf.c:98-356", "src/client/backup_phase2.c:19-61", "src/client/backup_phase2.c:112-141", "src/server/backup_phase2.c:653-686"]}
{"id": "C110", "title": "A signature cannot overrun the client's buffer", "statement": "Whatever data messages a server sends as a signature, the client does not write beyond the buffer it copies them into.", "quantifier": "For all sequences of messages that the network layer accepts.", "why_tests_cant": "The server of the test suite never sends longer messages than the client's buffer.", "anchors": ["src/rs_buf.c:154-159", "src/client/backup_phase2.c:28-29", "src/asfd.c:581"]}
{"id": "C111", "title": "A string in an answer is the same after writing and reading", "statement": "For every string of bytes, quotes, backslashes, control characters and bytes above 127 included, the text the server writes for it is read by the client as exactly that string and ends exactly at its closing quote; the text contains no control character, so an answer can be sent line by line.", "quantifier": "For all strings of bytes and everything that may follow them.", "why_tests_cant": "All strings of all lengths, with every combination of escapes.", "anchors": ["src/yajl/yajl_encode.c:24-180", "src/yajl/yajl_lex.c:281-409", "src/yajl/yajl_parser.c:254-285"]}
{"id": "C112", "title": "A value in an answer is the same after writing and reading", "statement": "What the server writes for any nested value of maps, arrays, strings and integers is a complete JSON text, and the client's reader reports exactly that value, element by element and in order, however the text is cut into pieces on its way, with or without beautification. No text takes the reader to undefined behaviour.", "quantifier": "For all values, for all ways of cutting the text.", "why_tests_cant": "Values are unbounded trees, and the number of ways to cut a text grows exponentially.", "anchors": ["src/yajl/yajl_gen.c:206-462", "src/yajl/yajl_lex.c:413-768", "src/yajl/yajl_parser.c:32-62", "src/yajl/yajl_parser.c:191-504", "src/yajl_gen_w.c:6-35"]}
{"id": "C113", "title": "The reader's reports do not depend on the pieces, and are nested", "statement": "Whatever text arrives, well formed or not, the client's reader makes the same reports and comes to the same result as if the text had arrived in one piece; each end of a map or array that it reports closes the innermost open one and is of its kind, a key is reported only directly inside a map, and when the text is complete nothing is left open.", "quantifier": "For all sequences of pieces of all texts.", "why_tests_cant": "Tests cut well-formed texts in a few places.", "anchors": ["src/yajl/yajl_lex.c:106-111", "src/yajl/yajl_lex.c:551-768", "src/yajl/yajl_parser.c:147-504", "src/yajl/yajl.c:158-173"]}
{"id": "C114", "title": "If every call of the writer succeeds, the text is well formed", "statement": "If the server's calls for writing an answer all report success, then what was written is the beginning of a well-formed text, or a well-formed text when the outermost map or array has been closed; and a call that fails leaves the writer in a state in which further calls fail as well.", "quantifier": "For all sequences of calls.", "why_tests_cant": "Tests make the calls in the right order.", "anchors": ["src/yajl/yajl_gen.c:206-280", "src/yajl/yajl_gen.c:404-462", "src/server/monitor/json_output.c:218-301"]}
{"id": "C115", "title": "An answer of the server is shown as it was written", "statement": "When the server writes an answer about any clients, with their labels, running children and their counters, backups, flags, lists of logs and the contents of one log, the monitor that reads it, in whatever pieces it arrives, comes to its end exactly once, reports no warning, is ready for the next answer, and then holds precisely the clients, states, children, backups and log lines of the answer. Only blanks may be left unread, and they do no harm.", "quantifier": "For all answers, all ways of cutting them into pieces, all lists of clients shown before.", "why_tests_cant": "Tests feed a few recorded answers, in a few chunk sizes.", "anchors": ["src/client/monitor/json_input.c:21-618", "src/server/monitor/json_output.c:25-93", "src/server/monitor/json_output.c:168-458"]}
{"id": "C116", "title": "After an answer the screen has the server's clients and backups", "statement": "After an answer each client in it is shown with the run state, children and backups of the answer, each backup once and the newest first, marked as running if one of the children is at it; clients are in the order of their names, each name once; clients that the answer does not name are as before, and clients that the server has no more are not shown.", "quantifier": "For all answers and all lists shown before.", "why_tests_cant": "Tests load single answers into an empty list, hence never merge lists of backups.", "anchors": ["src/client/monitor/json_input.c:162-177", "src/client/monitor/json_input.c:367-494", "src/client/monitor/json_input.c:577-581", "src/cstat.c:68-94"]}
{"id": "C117", "title": "No text makes the monitor's reader write or read outside of its memory", "statement": "Whatever text arrives from the server, reading it never writes outside of the array for the last key and never follows a NULL pointer.", "quantifier": "For all texts and all states of the reader.", "why_tests_cant": "Tests feed well-formed answers.", "anchors": ["src/client/monitor/json_input.c:32", "src/client/monitor/json_input.c:265-272", "src/client/monitor/json_input.c:323-365", "src/client/monitor/json_input.c:475-494"]}
{"id": "C118", "title": "The counters that arrive are those of the server", "statement": "After an answer with the counters of a child, every counter on the receiving side has the values that it has on the server, whatever they are, with the end time set to the time of the answer.", "quantifier": "For all values of all counters.", "why_tests_cant": "Tests use small counts and compare recorded output.", "anchors": ["src/server/monitor/json_output.c:168-216", "src/client/monitor/json_input.c:60-103", "src/client/monitor/json_input.c:143-161", "src/cntr.c:97-168"]}
{"id": "C119", "title": "Messages of the server reach the monitor", "statement": "A line of the log or a warning that the server sends in place of an answer arrives unchanged, whatever characters it has and in whatever pieces it comes; a warning is reported as such, a line of the log is not; and nothing else that is shown changes.", "quantifier": "For all messages, all ways of cutting them, all states between answers.", "why_tests_cant": "Tests send one fixed message.", "anchors": ["src/server/monitor/json_output.c:493-515", "src/client/monitor/json_input.c:229-256", "src/client/monitor/json_input.c:582-618"]}
{"id": "C120", "title": "Signing a client's certificate request touches nothing that was there", "statement": "When a client asks the server for a certificate, the server neither changes nor removes any file that was there before. It signs at most one request, for the name the client has logged in with, which is not the name of the authority, only if that name has neither a request nor a certificate yet, and only once the request has wholly arrived. If anything fails, the request and the certificate are gone again; if nothing fails, no further request under that name is signed.", "quantifier": "For all settings, client names, messages, existing files, failures of writing, opening, closing and sending, and all that the signing program may do to other files.", "why_tests_cant": "Tests use one directory, one name and a stub for the signing program.", "anchors": ["src/server/ca.c:332-514", "src/handy.c:502-566"]}
{"id": "C121", "title": "A client that got its certificate has the one that was signed", "statement": "If client and server both report success, the request that was signed is the one the client made, the client's certificate files hold exactly what the server had after signing, and the client knows the server's name. Success is reported only then. A client that already has a key changes nothing and asks for nothing. If the client fails, it removes only what it made, and can ask again with success.", "quantifier": "For all files, settings, compression libraries meeting their contract, and failures on either side.", "why_tests_cant": "The unit tests run each side against a mock and never both with a connection that breaks.", "anchors": ["src/client/ca.c:155-271", "src/server/ca.c:349-514", "src/handy.c:502-566"]}
{"id": "C122", "title": "Putting the server's name into the configuration changes nothing else", "statement": "When the client is told the server's name, its configuration file is rewritten so that every setting is read back as before, but that the expected name of the server is the one told.", "quantifier": "For all configuration files and all names that a server can send.", "why_tests_cant": "Tests rewrite one small file with one well-formed name.", "anchors": ["src/client/ca.c:71-168", "src/client/ca.c:247-252", "src/conffile.c:78-124"]}
{"id": "C123", "title": "Only the right certificate is accepted", "statement": "The other side is accepted exactly if its certificate verifies, its common name is the configured one apart from case, and, if revocation lists are to be checked, the list can be read, is from the issuer of the certificate and does not have its serial number.", "quantifier": "For all certificates, names, revocation lists and settings.", "why_tests_cant": "There are no tests of this code; certificates with unusual names are not made by usual tools.", "anchors": ["src/ssl.c:303-363", "src/server/ca.c:516-599"]}
{"id": "C124", "title": "Starting the server does not damage its certificate authority", "statement": "An authority that is complete is left alone when the server starts: nothing is run and nothing changes. One whose directory exists loses nothing; at most the missing Diffie-Hellman parameters and revocation list are made. A new one is made with three runs of the program in order, after which the server's certificates and key are links to those made. If that fails, files that were there before are still there.", "quantifier": "For all settings, existing files, and all that the program may do.", "why_tests_cant": "Tests check a few of the failures with mocked programs, with directories only.", "anchors": ["src/server/ca.c:18-330", "src/fsops.c:177-298"]}
{"id": "C125", "title": "A list prints what is in the backup", "statement": "Listing prints, for each backup asked for, one heading with its number, time and deletability and then one line for each entry of the manifest that is listed, in order: the path, and in the long form also mode letters as ls(1) writes them, links, owner, group, size and time, and the target of a link. Listing a directory prints the names in it. Listing backups prints the heading of each. If there are none, or not the one asked for, that is said. The exit status is 0 exactly if all was listed.", "quantifier": "For all backups, manifests, patterns, directories and times, and all points at which the connection is lost.", "why_tests_cant": "Tests list a handful of entries with fixed attributes and never cut the connection within a list.", "anchors": ["src/client/list.c:16-230", "src/times.c:57-80", "src/server/list.c"]}
{"id": "C126", "title": "A parseable list given to a restore restores what was listed", "statement": "The output of a parseable list, given as the list of files to a restore of the same backup, selects exactly the entries that were listed together with their metadata.", "quantifier": "For all manifests, patterns and directories.", "why_tests_cant": "Tests check the printed text and the reading of a restore list apart, with a few names.", "anchors": ["src/client/list.c:76-90", "src/server/restore.c:55-170", "src/iobuf.c", "src/fzp.c"]}
{"id": "C127", "title": "The server does what the command line asked for", "statement": "A request to list, browse, diff, restore, verify or delete that the client writes as text is understood by the server as that action on that backup with that pattern, directory or second backup; asking for a directory and a pattern at once is refused. The slashes at the end of a directory do not matter.", "quantifier": "For all backups, patterns and directories, of any length and any bytes.", "why_tests_cant": "Tests compare the text of a request on one side and parse fixed requests on the other; long ones and those with colons are not among them.", "anchors": ["src/client/list.c:101-143", "src/client/delete.c:7-17", "src/client/restore.c:772-776", "src/server/run_action.c", "src/prog.c:518-519", "src/handy.c:851-864"]}
{"id": "C128", "title": "Client and server agree on the login", "statement": "When a client and a server meet, in whatever order messages travel, both come to an end with the same verdict, which is that of the check of name and password; the server then knows the client by its name and version, and a client of 1.3.2 or later knows the version of the server. Whatever a client sends, it is let in only with a name and a password that pass. Whatever a server sends, a client gives its password only when asked for it and goes on only when told so. A version warning is sent exactly if it is wanted and the versions differ, and does not disturb the login.", "quantifier": "For all names, passwords, versions, settings, orders of delivery, and all messages of a hostile peer.", "why_tests_cant": "Tests script one side at a time with fixed replies; the two sides never run against each other.", "anchors": ["src/client/auth.c:11-81", "src/server/auth.c:145-260", "src/server/main.c:316-324", "src/handy.c:478-500"]}
{"id": "C129", "title": "The command line says what is done", "statement": "Options are understood alike whether written together or apart, and the last of a kind decides. What is run is the action asked for, with the backup, directory, pattern and other settings asked for, and defaults where nothing was said: a list as the action, the most recent backup for restores, verifications and diffs. Only backups need the lock on a client, a server always does, and a random delay comes before the lock. Wrong usage does nothing but explain itself and exits with 1. Nothing is deleted unless delete is spelt out and a backup is named. A parseable list is not mixed with log messages. Settings of the configuration hold where the command line says nothing.", "quantifier": "For all lists of arguments, configurations, and outcomes of taking the lock and of changing the user.", "why_tests_cant": "The tests of the command line mock the rest of the program and try single options.", "anchors": ["src/prog.c:109-551"]}
{"id": "C130", "title": "Testing the configuration tests the configuration", "statement": "With -t nothing is done but load and print the configuration: no lock, no change of user, no connection, no server. The exit status is 0 exactly if the configuration, with -C that of the client, is good.", "quantifier": "For all other options given with it and all configurations.", "why_tests_cant": "The exit status with a client is not tested at all.", "anchors": ["src/prog.c:207-229", "src/prog.c:420-425"]}
{"id": "C131", "title": "The scan that the server keeps is the scan that was sent", "statement": "When a client has sent a list of entries, with warnings anywhere between the messages, and then the end of the scan, the server keeps exactly those entries in that order, and reads exactly them back. The scan counts as complete only if the end arrived, no warning did when warnings are to be failures, and the sizes of the files do not add up to more than the hard quota; a connection lost at any point leaves no complete scan; whatever was sent, no path kept climbs out of its directory. The client is told to go on only if the scan was accepted, and only the word for the end of the scan ends it.", "quantifier": "For all lists of entries, places and numbers of warnings, quotas, settings, and for all other sequences of messages and points where the connection is lost.", "why_tests_cant": "Tests send some entries; they do not put warnings between every two messages, cut at every point or add sizes up to 2^64.", "anchors": ["src/server/backup_phase1.c:21-106", "src/server/quota.c:9-35", "src/cntr.c:1100-1107", "src/sbuf.c:135-312"]}
{"id": "C132", "title": "What is in force for a client is what its own file says, else what the server's file says", "statement": "For every client and every option, the value in force on the server is the last one given on the server's command line, else the last one given in the client's own file, else, if the option may be inherited, the last one given in the server's file, else the default. A list that the client's own file gives replaces the server's; the lists of clients that may look at it are added together, unless the own file gives one that is to replace. Passwords, certificate settings and includes never come from the server's file. The scripts run for a client, the notifications, and the name expected in its certificate follow the same order, the last being the client's name if nothing is given. What is given once counts once, a line of a file sets one option, and nothing stays of what was in force for another client.", "quantifier": "For all texts of the server's file and the client's file, all command lines, all names of clients and all options.", "why_tests_cant": "Tests try some options in one file; they do not combine all options with all places where they can be given.", "anchors": ["src/conffile.c:152-161", "src/conffile.c:1037-1053", "src/conffile.c:1154-1263", "src/conffile.c:1296-1319", "src/conffile.c:1435-1607", "src/conf.c:351-837"]}
{"id": "C133", "title": "At any time, wherever earlier connections stopped, the current backup is complete", "statement": "After any number of backup connections of a client, each of which may have stopped at any step for any reason, the current backup and every other backup that is listed has been through all its phases and holds everything that the client sent; the current one is the newest of them; it is never replaced by an older one; a complete backup is removed only if it is to be pruned and a newer one has become current. A connection that nothing stops ends with a newer current backup and nothing left over, and whatever earlier ones left behind, the second such connection at the latest does. When the client is told that its backup has ended, the server has all of it and will complete it, and a client whose backup is completed is told so.", "quantifier": "For all histories of connections of any length, all points at which each may stop, all decisions on resuming, refusing and pruning.", "why_tests_cant": "Tests interrupt a backup at a few chosen points once; they do not combine interruptions of several connections, including interruptions of the recovery itself.", "anchors": ["src/server/backup.c:137-298", "src/server/rubble.c:95-127", "src/server/rubble.c:161-176", "src/server/rubble.c:251-299", "src/server/rubble.c:309-402", "src/server/rubble.c:460-496", "src/server/backup_phase3.c:142-149", "src/server/resume.c:569-618", "src/server/sdirs.c:75-119", "src/fsops.c:177-264"]}
{"id": "C134", "title": "A backup is made when it is allowed and due, both sides agree on it, and notifications say what happened", "statement": "A request for a backup is granted exactly if the client is the original one, a timed request is due and not only a question, another request may be forced, and seeding is asked for only for the first backup; the backups must have been listed to know the number of the new one. The client goes on with a backup exactly if the server does, with the same choice of resuming and the same compression. A success is notified only of a backup that was made, subject to the settings, a failure only of one that failed and not if another server is to be tried, and nothing of a timed request that is not due.", "quantifier": "For all requests, timer results, settings, lists of backups, compression levels and results of the backup.", "why_tests_cant": "Tests look at single requests; they do not combine the kinds of request with the settings and the notifications.", "anchors": ["src/server/backup.c:146-165", "src/server/backup.c:300-377", "src/server/run_action.c:101-139", "src/server/run_action.c:557-595", "src/client/main.c:51-110"]}
{"id": "C135", "title": "Removing a directory removes it and nothing else, and says whether it is gone", "statement": "Removing a path with all below it returns success exactly if it is gone afterwards. It never adds or changes anything, follows no symbolic link, and if the system refuses nothing all is removed; if the system refuses some of it, all the rest is removed nevertheless. Removing only directories removes no file, whatever the system refuses, and leaves no directory without files below it.", "quantifier": "For all trees of directories, files and links, all orders of their entries and all calls that the system refuses.", "why_tests_cant": "Tests remove small trees that can be removed; they do not go through which of the calls is refused, at which depth and in which order.", "anchors": ["src/fsops.c:177-274", "src/fsops.c:285-308"]}
{"id": "C136", "title": "Making the directories that lead to a path makes just those, and none above the limit", "statement": "If the directories that lead to a path are asked for, those that are missing are made, and nothing else. If a limit is given nothing above it is made: if something above it is missing, the call fails and makes nothing. It succeeds exactly if the path leads through directories afterwards.", "quantifier": "For all paths, limits, states of the file system and failures of mkdir().", "why_tests_cant": "Which directories are missing and where the limit lies among them are too many cases for tests; the comparison with the limit is one of texts, not of components.", "anchors": ["src/fsops.c:58-141"]}
{"id": "C137", "title": "A backup that is moved aside is moved whole, and nothing moved aside before is lost", "statement": "When a backup is moved aside to be deleted, it is afterwards under a name that was free, without its timestamp, so that it is not taken for a backup, and all else that had been moved aside is as it was. If it cannot be moved, it stays as it was.", "quantifier": "For all backups, all contents of the directory it is moved to, and all calls that fail.", "why_tests_cant": "The hundred names that are tried and the failures of the calls are not combined in tests.", "anchors": ["src/server/deleteme.c:9-59", "src/fsops.c:143-154"]}
{"id": "C138", "title": "Files count as equal exactly if they have the same content", "statement": "Two files are found to be equal exactly if both can be read and have the same content.", "quantifier": "For all contents of any length, and all failures to open or read.", "why_tests_cant": "Differences at every position relative to the buffer, and failing reads, cannot be enumerated.", "anchors": ["src/fsops.c:464-514"]}
{"id": "C139", "title": "A hard link that is restored has the content of the file it was linked to", "statement": "When a restore wants a hard link, the client gets either the link together with the file it is a link to, or, if that file is not among what is wanted, that file's data under the name of the link. All other wanted entries are sent as they are, in the order in which directories come after their contents.", "quantifier": "all manifests, all selections of entries, all inodes", "why_tests_cant": "What is put in for a link depends on every entry left out before it that shares its inode, and on the position of the first entry with the name; a test tries a few selections of a few files.", "anchors": ["src/server/restore.c:228-490", "src/linkhash.c:46-117"]}
{"id": "C140", "title": "The rate at which data is sent stays within the configured limit", "statement": "With a limit on the rate, data is sent only while the number of bytes sent so far is less than the limit times the seconds since the first attempt, so that the average never exceeds the limit by more than one write; below the limit nothing is held up; a pause lasts between a hundredth and half a second.", "quantifier": "all limits, all sequences of attempts with any sizes and times", "why_tests_cant": "The limit depends on the whole history of sizes and times, and on clocks that jump; a test sends a few buffers within a few seconds.", "anchors": ["src/asfd.c:250-345", "src/conffile.c:279-291"]}
{"id": "C141", "title": "A file is stored under its own path only where that path can be made", "statement": "With directory_tree on, the server stores a regular file's data under its own path if every name in it and the path as a whole are within the limits of the file system, and under a number otherwise; directories, metadata and other kinds are always stored under a number. Two files never get the same place.", "quantifier": "all paths, all limits of the file system, all kinds of entries", "why_tests_cant": "Whether a path fits depends on each of its names and on the limits of the file system the server runs on; a test has one file system and a few paths.", "anchors": ["src/server/backup_phase2.c:34-113", "src/fsops.c:321-341"]}
{"id": "C142", "title": "Seeding moves a whole first backup from one directory to another", "statement": "With a seed source and destination, every entry of the first backup below the source is recorded at the same place below the destination with everything else unchanged, in the same order, and its data is recorded where the renaming of the source's directory in the tree puts it; data under a number stays where it is.", "quantifier": "all sources and destinations, with or without a drive letter, all entries below the source", "why_tests_cant": "Paths are cut and joined by length alone, so that errors are in the paths that do not fit the pattern: the source itself, drive letters, links, entries outside of the source.", "anchors": ["src/server/manio.c:252-333", "src/server/backup_phase2.c:1101-1136", "src/server/extra_comms.c:181-218"]}
{"id": "C143", "title": "What the server announces for a restore is what it sends", "statement": "Before a restore the server announces, for each kind of entry, how many entries of that kind are wanted, how many in all, and the sum of the sizes of their data. As many entries are then sent as were announced.", "quantifier": "all manifests, all selections, all sizes", "why_tests_cant": "The numbers depend on every entry of the manifest and on the selection being made twice with the same result; a test compares the totals of a few small restores.", "anchors": ["src/server/restore.c:166-226", "src/server/restore.c:600-660", "src/handy_extra.c:139-146"]}
{"id": "C144", "title": "With several keep values, one backup in as many as the first value says is made independent of the others", "statement": "A new backup is made an archive that later removals do not affect if hardlinked_archive is set, or if there are at least two keep values and the first divides the number of the backup less one. With accepted keep values there is never a division by zero, and exactly one of any such number of backups in a row is an archive. Of backups made one after the other, those that can be removed are the oldest and those that come right after an archive.", "quantifier": "all keep settings, all backup numbers, all lists of backups", "why_tests_cant": "The schedule is a claim about every run of consecutive backup numbers up to the largest; a test makes a handful of backups with one setting.", "anchors": ["src/server/backup_phase4.c:501-529", "src/server/backup_phase4.c:805-824", "src/server/bu_get.c:104-140", "src/conffile.c:759-789"]}
{"id": "C145", "title": "A program starts only with complete settings", "statement": "The settings are accepted exactly if everything is there that the mode needs: lock file and certificates for both; for a server the directories, the Diffie-Hellman file, keep values, a recovery method, large enough limits, no encryption password, an absolute path for manual deletion and, with a certificate authority, all that belongs to it with different names for authority and server; for a client a name (as given, else from its certificate, else its host's), a server, no '..' in the name of its system, and what belongs to an authority. Afterwards a client has a name, a password, the name to ask for in the server's certificate (by default the server's name) and a port for each action; a server has a format for times.", "quantifier": "all settings, certificates and host names", "why_tests_cant": "There are twenty settings that may each be missing or wrong; a test leaves out one at a time.", "anchors": ["src/conffile.c:424-525", "src/conffile.c:551-757", "src/conffile.c:1129-1152", "src/conffile.c:1265-1294"]}
{"id": "C146", "title": "Every address a server listens on has a valid port and a positive limit of children", "statement": "An address in the settings is accepted exactly if it consists of letters, digits, dots and colons and has, after its last colon, one to five characters that begin with a number from 1 to 65535, and something before that colon. The settings are accepted exactly if all addresses are, no more limits are given than addresses, and every limit is positive; then every address has its own limit, or the last one given, or 5 if there is none. The server takes an accepted address apart at the last colon, and its port is a number.", "quantifier": "all lists of addresses and limits, all texts", "why_tests_cant": "Addresses and limits are free text and lists of any length; a test tries a few of them.", "anchors": ["src/conffile.c:1055-1127", "src/server/main.c:98-109"]}
{"id": "C147", "title": "The keys of the status monitor move as they say and always leave something selected", "statement": "However the keys are pressed, a client of the list is selected, and past the first page a backup of that client if it has any. Up and down move by one, the page keys by the height of the screen less one, and all stop at the ends of the list; on the page of logs they go to the next entry that is shown. What is selected is among the lines shown, and the program does not stop on an invalid pointer.", "quantifier": "all lists of clients and backups, all heights of the screen, all sequences of keys", "why_tests_cant": "What a key does depends on what was selected on other pages and for other clients before; the tests run the main loop with a few prepared lists and no sequences of keys.", "anchors": ["src/client/monitor/status_client_ncurses.c:431-660", "src/client/monitor/status_client_ncurses.c:783-913", "src/client/monitor/status_client_ncurses.c:1017-1300", "src/client/monitor/status_client_ncurses.c:1412-1427"]}
