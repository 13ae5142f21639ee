(* Model of the include/exclude settings that one side gives to the other:
   /repo/src/incexc_send.c, incexc_recv.c, and of how the receiver takes them over:
   /repo/src/conffile.c:260-424, 1324-1433, /repo/src/conf.c:123-269, strlist.c:49-108. *)
From Verif Require Import Bytes PathcmpModel FrameModel BuModel AuthModel ConfModel CntrModel.

(* union conf data with conf_type: /repo/src/conf.h.  CT_STRING, CT_UINT,
   CT_SSIZE_T, CT_STRLIST; the other types (float, mode_t, the enumerations, the
   counters) hold what they were last given as text.  Of a list only the paths are
   kept: the flag of an entry is decided by the option it is in
   (/repo/src/conffile.c:326-327). *)
Inductive cval :=
| VStr (s : option bytes)
| VInt (n : Z)
| VU64 (n : Z)
| VList (l : list bytes)
| VOther (s : bytes).
(* struct conf: /repo/src/conf.h.  CONF_FLAG_INCEXC, CONF_FLAG_INCEXC_RESTORE,
   CONF_FLAG_STRLIST_SORTED: conf.h:5-7 *)
Record opt := mkopt { o_field : bytes; o_inc : bool; o_res : bool; o_sorted : bool; o_val : cval }.
(* struct conf **: the options in the order of /repo/src/conf.h *)
Definition conf := list opt.
(* set_string(), set_int(), set_uint64_t(), set_strlist(): /repo/src/conf.c:123-187 *)
Definition set_val (o : opt) (v : cval) : opt := mkopt (o_field o) (o_inc o) (o_res o) (o_sorted o) v.

(* prepend_n(): /repo/src/prepend.c:29-35, with prepend_len() 7-27 *)
Definition prepend_n (prep fname sep : bytes) : bytes := prep ++ (if hd0 fname =? 0 then [] else sep) ++ fname.

(* The flag given to do_sends(): /repo/src/incexc_send.c:105,115,125 *)
Inductive which := Incexc | Restore.
Definition flagged (w : which) (o : opt) : bool := match w with Incexc => o_inc o | Restore => o_res o end.

(* send_incexc_string(): /repo/src/incexc_send.c:10-27: the message *)
Definition incexc_string (field s : bytes) : bytes := prepend_n field s (str " = ").
(* One turn of do_sends(): /repo/src/incexc_send.c:29-54, 63-88 *)
Definition opt_lines (o : opt) : list bytes :=
  match o_val o with
  | VStr None => []
  | VStr (Some s) => [incexc_string (o_field o) s]
  | VInt n => [incexc_string (o_field o) (fmt_d n)]
  | VU64 n => [incexc_string (o_field o) (fmt_u n)]
  | VList l => map (incexc_string (o_field o)) l
  | VOther _ => []
  end.
(* do_sends(): /repo/src/incexc_send.c:56-93 *)
Definition do_sends (w : which) (c : conf) : list bytes := flat_map (fun o => if flagged w o then opt_lines o else []) c.

(* add_to_incexc(): /repo/src/incexc_recv.c:13-20 *)
Definition add_to_incexc (t : option bytes) (src : bytes) : option bytes :=
  Some (prepend_n (match t with Some t => t | None => [] end) src (match t with Some _ => [10] | None => [] end)).
(* incexc_recv(): /repo/src/incexc_recv.c:39-53, of the lines before the message
   that ends them *)
Definition recv_text (lines : list bytes) : option bytes := add_to_incexc (fold_left add_to_incexc lines None) [10].

(* do_strlist_add() not uniq, all flags alike: /repo/src/strlist.c:49-90 *)
Fixpoint insert_sorted (p : bytes) (l : list bytes) : list bytes :=
  match l with [] => [p] | s :: r => if pathcmp_s p s <? 0 then p :: l else s :: insert_sorted p r end.
(* add_to_strlist(): /repo/src/conf.c:196-203 *)
Definition add_to_strlist (sorted : bool) (p : bytes) (l : list bytes) : list bytes :=
  if sorted then insert_sorted p l else l ++ [p].

(* conf_free_content(): /repo/src/conf.c:210-234 *)
Definition free_content (v : cval) : cval :=
  match v with VStr _ => VStr None | VInt _ => VInt 0 | VU64 _ => VU64 0 | VList _ => VList [] | VOther _ => VOther [] end.
(* free_incexcs(): /repo/src/conf.c:262-269 *)
Definition free_incexcs (c : conf) : conf := map (fun o => if o_inc o then set_val o (free_content (o_val o)) else o) c.

(* The switch of load_conf_field_and_value(): /repo/src/conffile.c:299-334 *)
Definition load_val (o : opt) (v : bytes) (reset : bool) : option opt :=
  match o_val o with
  | VStr _ => Some (set_val o (VStr (Some v)))
  | VInt _ => Some (set_val o (VInt (atoi v)))
  | VU64 _ => match get_file_size v with Some n => Some (set_val o (VU64 n)) | None => None end
  | VList l => Some (set_val o (VList (add_to_strlist (o_sorted o) v (if reset then [] else l))))
  | VOther _ => Some (set_val o (VOther v))
  end.
(* Its loop: /repo/src/conffile.c:295-335.  An unknown name is passed over. *)
Fixpoint load_field (f v : bytes) (reset : bool) (c : conf) : option conf :=
  match c with
  | [] => Some []
  | o :: r =>
    if beqb (o_field o) f then match load_val o v reset with Some o' => Some (o' :: r) | None => None end
    else match load_field f v reset r with Some r' => Some (o :: r') | None => None end
  end.
(* set_int() of the option that is called f: /repo/src/conffile.c:271,277 *)
Definition set_named (f : bytes) (n : Z) (c : conf) : conf :=
  map (fun o => if beqb (o_field o) f then set_val o (VInt n) else o) c.
(* load_conf_field_and_value(): /repo/src/conffile.c:260-338.  The text of a
   ratelimit is kept instead of the number (279-292). *)
Definition load_conf (f v : bytes) (reset : bool) (c : conf) : option conf :=
  if beqb f (str "compression") || beqb f (str "ssl_compression")
  then if get_compression v <? 0 then None else Some (set_named f (get_compression v) c)
  else load_field f v reset c.

Section Parse.
(* deal_with_dot_inclusion(): /repo/src/conffile.c:344-389: what the files named
   on the line do to the settings *)
Variable inclusion : bytes -> conf -> option conf.
(* conf_parse_line(): /repo/src/conffile.c:391-424.  A line that makes
   conf_get_pair() leave its buffer counts as an error. *)
Definition parse_line (c : conf) (buf : bytes) : option conf :=
  if beqb (firstn 2 buf) (str ". ")
  then (match skipn 2 buf with [] => None | extra => inclusion extra c end)
  else match conf_get_pair buf with
       | PNone => Some c
       | PPair f v r => load_conf f v r c
       | PErr | POut => None
       end.
(* strtok() with a newline: /repo/src/conffile.c:1334,1348 *)
Fixpoint ltoks (s cur : bytes) : list bytes :=
  match s with
  | [] => match cur with [] => [] | _ => [rev cur] end
  | c :: r => if c =? 10 then (match cur with [] => ltoks r [] | _ => rev cur :: ltoks r [] end) else ltoks r (c :: cur)
  end.
(* The loop of conf_load_lines_from_buf(): /repo/src/conffile.c:1340-1348 *)
Fixpoint parse_lines (ls : list bytes) (c : conf) : option conf :=
  match ls with [] => Some c | l :: r => match parse_line c l with Some c' => parse_lines r c' | None => None end end.
(* conf_load_lines_from_buf(): /repo/src/conffile.c:1324-1352 *)
Definition load_buf (buf : bytes) (c : conf) : option conf :=
  match ltoks buf [] with [] => None | ls => parse_lines ls c end.

(* conf_parse_incexcs_buf(): /repo/src/conffile.c:1366-1373, without
   conf_finalise() *)
Definition incexcs_buf (c : conf) (t : bytes) : option conf := load_buf t (free_incexcs c).

(* get_string(c[OPT_RESTOREPREFIX]) and set_string() of it, and the like:
   /repo/src/conf.c:70-74, 123-130 *)
Definition get_str (f : bytes) (c : conf) : option bytes :=
  match find (fun o => beqb (o_field o) f) c with Some o => match o_val o with VStr s => s | _ => None end | None => None end.
(* /repo/src/conf.c:123-130 *)
Definition set_str (f : bytes) (s : option bytes) (c : conf) : conf :=
  map (fun o => if beqb (o_field o) f then set_val o (VStr s) else o) c.
(* conf_parse_incexcs_srestore(): /repo/src/conffile.c:1376-1433, without
   conf_finalise() and without build_path_w(), which makes the directories *)
Definition rp_field : bytes := str "restoreprefix".
Definition incexcs_srestore (c : conf) (t : bytes) : option conf :=
  match get_str rp_field c with
  | None => None                                                           (* 1385-1389 *)
  | Some old =>
    match load_buf t (set_str rp_field None (free_incexcs c)) with         (* 1393-1397 *)
    | None => None
    | Some c' =>
      match get_str rp_field c' with
      | Some srv =>
        if has_dot_component srv then None                                 (* 1401-1406 *)
        else Some (set_str rp_field (Some (prepend_s (if beqb old (str "/") then [] else old) srv)) c')   (* 1407-1419 *)
      | None => Some (set_str rp_field (Some old) c')                      (* 1423-1427 *)
      end
    end
  end.
End Parse.

(* The options with CONF_FLAG_INCEXC or CONF_FLAG_INCEXC_RESTORE, and some others,
   as conf_init() leaves them: /repo/src/conf.c:483-503, 535-538, 714-716, 742-831, in the
   order of /repo/src/conf.h:155-218 *)
Definition lst (f : String.string) (res : bool) : opt := mkopt (str f) true res true (VList []).
(* CT_UINT options: /repo/src/conf.c:742-831 *)
Definition int_ (f : String.string) (res : bool) (n : Z) : opt := mkopt (str f) true res false (VInt n).
(* /repo/src/conf.c:483-831 *)
Definition table : conf :=
  [ mkopt (str "server_can_override_includes") false false false (VInt 1);
    lst "include" true; lst "exclude" true; lst "cross_filesystem" false; lst "nobackup" false;
    lst "include_ext" false; lst "exclude_ext" false; lst "include_regex" false; lst "exclude_regex" false;
    lst "include_logic" false; lst "exclude_logic" false; lst "exclude_fs" false; lst "include_fs" false;
    lst "exclude_comp" false; lst "include_glob" false;
    mkopt (str "seed_src") false false false (VStr None);
    mkopt (str "seed_dst") false false false (VStr None);
    int_ "cross_all_filesystems" false 0; int_ "read_all_fifos" false 0;
    mkopt (str "read_fifo") true false false (VList []);
    int_ "read_all_blockdevs" false 0;
    mkopt (str "read_blockdev") true false false (VList []);
    mkopt (str "min_file_size") true false false (VU64 0);
    mkopt (str "max_file_size") true false false (VU64 0);
    int_ "split_vss" false 0; int_ "strip_vss" false 0;
    mkopt (str "vss_drives") true false false (VStr None);
    mkopt (str "remote_drives") true false false (VStr None);
    int_ "acl" false 1; int_ "xattr" false 1; int_ "atime" false 0; int_ "scan_problem_raises_error" false 0;
    int_ "overwrite" true 0; int_ "strip" true 0;
    mkopt (str "stripfrompath") false true false (VStr None);
    mkopt (str "backup") false true false (VStr None);
    mkopt (str "backup2") false false false (VStr None);
    mkopt (str "restoreprefix") false true false (VStr None);
    mkopt (str "regex") true true false (VStr None);
    int_ "regex_case_insensitive" true 0;
    mkopt (str "backup_script_pre") false false false (VStr None);
    mkopt (str "restore_script_pre") false false false (VStr None);
    mkopt (str "server_can_restore") false false false (VInt 1);
    mkopt (str "orig_client") false true false (VStr None) ].
