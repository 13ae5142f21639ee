(* Model of the server's phase 2, in which the list of files scanned on the
   client is compared with the previous manifest and file data is received:
   /repo/src/server/backup_phase2.c, and of the client's answers:
   /repo/src/client/backup_phase2.c. *)
From Verif Require Import Bytes PathcmpModel CmdModel AttribsModel FrameModel SbufModel MergeModel DpthModel AuthModel.

(* struct sbuf with the fields decoded from attr by attribs_decode():
   /repo/src/sbuf.h:34-62 *)
Record ent := mkent { e_sb : sbuf; e_at : attrs }.
(* sb->path, sb->path.cmd: /repo/src/sbuf.h:36 *)
Definition e_path (e : ent) : iobuf := s_path (e_sb e).
Definition e_cmd (e : ent) : Z := icmd (e_path e).

(* The settings phase 2 looks at: OPT_CLIENT_IS_WINDOWS
   (/repo/src/server/backup_phase2.c:527), OPT_LIBRSYNC and
   OPT_LIBRSYNC_MAX_SIZE (441-443, the latter already converted to off_t). *)
Record p2conf := mkp2conf { k_windows : bool; k_librsync : bool; k_libmax : Z }.

(* What phase 2 does that can be seen: an entry written to the "unchanged"
   manifest with the counter it is accounted under (CNTR_MANIO_NEW, _CHANGED,
   _SAME); an entry of the old manifest counted as deleted; the client asked
   for a file (with the storage path and signature of the old data if delta);
   "backupphase2end" sent.
   /repo/src/server/backup_phase2.c:231-234, 245-248, 286-289, 571, 613-686, 998 *)
Inductive cnt := CNew | CChanged | CSame.
Inductive ev :=
| EWrite (k : cnt) (e : ent)
| EDeleted (c : ent)
| EReq (delta : bool) (e : ent)
| EEnd.

(* enum processed_e: /repo/src/server/backup_phase2.c:140-149 *)
Inductive processed := P_ERROR | P_DONE_NEW | P_DONE_CHANGED | P_DONE_UNCHANGED | P_DONE_DELETED | P_NEW | P_CHANGED.

(* strrchr(datapath, '.') compared with ".gz": /repo/src/handy.c:474 *)
Fixpoint last_dot (s : bytes) : option bytes :=
  match s with
  | [] => None
  | c :: s' => match last_dot s' with
               | Some t => Some t
               | None => if c =? dot then Some s else None
               end
  end.
(* dpth_is_compressed(): /repo/src/handy.c:465-476, as a truth value *)
Definition dpth_is_compressed (compressed : Z) (datapath : bytes) : bool :=
  if compressed >? 0 then true
  else if compressed =? 0 then false
  else match last_dot datapath with Some t => beqb t (str ".gz") | None => false end.

(* buf of an iobuf as a C string, NULL as empty (the callers below only use it
   where it is set): /repo/src/iobuf.h:7-12 *)
Definition text (b : iobuf) : bytes := match ibuf b with Some s => cview s | None => [] end.

(* Setting decoded fields of an sbuf: /repo/src/server/backup_phase2.c:278-280 *)
Definition stored_form (c p : attrs) : attrs :=
  mkattrs (st_dev p) (st_ino p) (st_mode p) (st_nlink p) (st_uid p) (st_gid p) (st_rdev p) (st_size p)
    (st_blksize p) (st_blocks p) (st_atime p) (st_mtime p) (st_ctime p)
    (winattr p) (compression c) (encryption c) (salt c) (use_winapi p).

Section Phase2.
(* Environment, see the uses below.
   tree: treedata() with OPT_DIRECTORY_TREE (/repo/src/server/backup_phase2.c:87-88);
   old_regular: lstat() of the path below currentdata finds a regular file (404);
   link_ok: build_path_w() and do_link() succeed (411-415);
   open_ok: the old data can be opened and a signature job started (172-207);
   allents: the entries of the previous manifest as read from its start (309-347). *)
Variables (tree : ent -> bool) (old_regular : bytes -> bool) (link_ok : bytes -> bytes -> bool)
          (open_ok : bytes -> bool) (allents : list ent) (cf : p2conf).

(* What the two halves of phase 2 share: hmanio's position (None: closed), the
   next storage path, and (not in the code) the counter paths handed out.
   /repo/src/server/backup_phase2.c:1144,1146 *)
Record aux := mkaux { a_hm : option (list ent); a_dp : dpth; a_given : list bytes }.

(* set_new_datapth() and the dpth_incr() that follows it in both callers:
   /repo/src/server/backup_phase2.c:82-113, 133, 387.  build_path() is taken to
   succeed.  Result: sb->datapth and the state of dpth. *)
Definition set_new_datapth (a : aux) (e : ent) : bytes * aux :=
  if tree e then (prepend_s (str "t") (text (e_path e)), a)
  else let '(p, d) := new_datapth (a_dp a) (compression (e_at e)) (e_cmd e) in
       (p, mkaux (a_hm a) d (a_given a ++ [p])).

(* The inner loop of get_hardlink_master_from_hmanio():
   /repo/src/server/backup_phase2.c:316-345 *)
Fixpoint find_master (link : bytes) (l : list ent) : option (ent * list ent) :=
  match l with
  | [] => None
  | h :: r =>
    if ((e_cmd h =? CMD_FILE) || (e_cmd h =? CMD_ENC_FILE))
       && beqb (text (e_path h)) link && has_buf (s_datapth (e_sb h))
    then Some (h, r) else find_master link r
  end.
(* get_hardlink_master_from_hmanio(): /repo/src/server/backup_phase2.c:309-347.
   From the current position to the end, then once over the whole manifest;
   closed when not found.  Reading errors are not modelled. *)
Definition get_hardlink_master (rest : list ent) (cb : ent) : option ent * option (list ent) :=
  let link := text (s_link (e_sb cb)) in
  match find_master link rest with
  | Some (h, r) => (Some h, Some r)
  | None => match find_master link allents with
            | Some (h, r) => (Some h, Some r)
            | None => (None, None)
            end
  end.

(* relink_deleted_hardlink_master(): /repo/src/server/backup_phase2.c:349-434.
   RNo is 0, RDone 1 (with cb as changed by 417-424), RFail -1.  p1b's datapth
   set at 384 is taken away again at 421, and is not looked at by process_new()
   when 408 is reached. *)
Inductive relinked := RNo | RDone (cb : ent) | RFail.
Definition relink (a : aux) (rest : list ent) (p1 cb : ent) : relinked * aux :=
  match get_hardlink_master rest cb with
  | (None, hm) => (RNo, mkaux hm (a_dp a) (a_given a))                    (* 371-372 *)
  | (Some hb, hm) =>
    let a := mkaux hm (a_dp a) (a_given a) in
    if negb (e_cmd p1 =? e_cmd hb) then (RNo, a)                          (* 381-382 *)
    else
      let '(new, a) := set_new_datapth a p1 in                            (* 384-387 *)
      let old := text (s_datapth (e_sb hb)) in
      if negb (old_regular old) then (RNo, a)                             (* 404-410 *)
      else if negb (link_ok old new) then (RFail, a)                      (* 411-415 *)
      else (RDone (mkent (set_endfile (s_endfile (e_sb hb))
                           (set_datapth (mkiobuf CMD_DATAPTH (Some new)) (e_sb cb))) (e_at cb)), a)
  end.

(* librsync_enabled(): /repo/src/server/backup_phase2.c:436-447 *)
Definition librsync_enabled (p1 cb : ent) : bool :=
  if negb (k_librsync cf) then false
  else if k_libmax cf =? 0 then true
  else (k_libmax cf >=? st_size (e_at cb)) && (k_libmax cf >=? st_size (e_at p1)).

(* new_non_file(), process_new(): /repo/src/server/backup_phase2.c:223-238, 254-267.
   Writing a manifest is taken to succeed here and below. *)
Definition process_new (p1 : ent) : processed * list ev :=
  if cmd_is_filedata (e_cmd p1) || cmd_is_vssdata (e_cmd p1) then (P_NEW, [EReq false p1])
  else (P_DONE_NEW, [EWrite CNew p1]).

(* changed_non_file(): /repo/src/server/backup_phase2.c:240-252 *)
Definition changed_non_file (p1 : ent) : processed * list ev := (P_DONE_CHANGED, [EWrite CChanged p1]).

(* process_unchanged_file(): /repo/src/server/backup_phase2.c:269-295 *)
Definition process_unchanged_file (p1 cb : ent) : processed * list ev :=
  let at' := stored_form (e_at cb) (e_at p1) in                           (* 278-280 *)
  match attribs_encode at' with                                           (* 283-285 *)
  | None => (P_ERROR, [])
  | Some b =>
    let sb := set_datapth (s_datapth (e_sb cb)) (set_endfile (s_endfile (e_sb cb)) (e_sb p1)) in (* 276-277 *)
    (P_DONE_UNCHANGED, [EWrite CSame (mkent (set_attr (mkiobuf CMD_ATTRIBS (Some b)) sb) at')])
  end.

(* process_changed_file(): /repo/src/server/backup_phase2.c:153-221.  A file
   entry read from a manifest always has a storage path (C12). *)
Definition process_changed_file (p1 cb : ent) : processed * list ev :=
  if open_ok (text (s_datapth (e_sb cb)))
  then (P_CHANGED, [EReq true (mkent (set_datapth (s_datapth (e_sb cb)) (e_sb p1)) (e_at p1))])
  else (P_ERROR, []).

(* maybe_do_delta_stuff(): /repo/src/server/backup_phase2.c:449-563 *)
Definition maybe_do_delta_stuff (a : aux) (cb p1 : ent) : (processed * list ev) * aux :=
  let c := e_cmd cb in
  let p := e_cmd p1 in
  if negb (c =? p) then                                                   (* 460-492 *)
    match a_hm a with
    | Some rest =>
      if (c =? CMD_HARD_LINK) && ((p =? CMD_FILE) || (p =? CMD_ENC_FILE))
         && (st_dev (e_at p1) =? st_dev (e_at cb))
         && (st_ino (e_at p1) =? st_ino (e_at cb))
         && (st_mtime (e_at p1) =? st_mtime (e_at cb))
      then match relink a rest p1 cb with
           | (RNo, a') => (process_new p1, a')
           | (RDone cb', a') => (process_unchanged_file p1 cb', a')
           | (RFail, a') => ((P_ERROR, []), a')
           end
      else (process_new p1, a)
    | None => (process_new p1, a)
    end
  else
    let same_m := st_mtime (e_at cb) =? st_mtime (e_at p1) in
    let same_c := st_ctime (e_at cb) =? st_ctime (e_at p1) in
    if same_m && same_c then (process_unchanged_file p1 cb, a)            (* 496-503 *)
    else if same_m && negb same_c
            && ((c =? CMD_ENC_METADATA) || (p =? CMD_ENC_METADATA)
                || (c =? CMD_EFS_FILE) || (p =? CMD_EFS_FILE)
                || (c =? CMD_METADATA) || (p =? CMD_METADATA)
                || cmd_is_vssdata c || cmd_is_vssdata p)
    then (process_new p1, a)                                              (* 505-521 *)
    else if same_m && negb same_c && negb (k_windows cf)
    then (process_unchanged_file p1 cb, a)                                (* 527-528 *)
    else if negb (cmd_is_filedata p) && negb (cmd_is_vssdata p)
    then (changed_non_file p1, a)                                         (* 531-533 *)
    else if negb (librsync_enabled p1 cb)
            || (c =? CMD_METADATA) || (p =? CMD_METADATA)
            || cmd_is_encrypted c || cmd_is_encrypted p
            || cmd_is_vssdata c || cmd_is_vssdata p
    then (process_new p1, a)                                              (* 541-549 *)
    else
      let oldcompressed := has_buf (s_datapth (e_sb cb))
           && dpth_is_compressed (compression (e_at cb)) (text (s_datapth (e_sb cb))) in (* 552-555 *)
      let comp := negb (compression (e_at p1) =? 0) in
      if (oldcompressed && negb comp) || (negb oldcompressed && comp)
      then (process_new p1, a)                                            (* 556-558 *)
      else (process_changed_file p1 cb, a).                               (* 561-562 *)

(* maybe_process_file() and deleted_file():
   /repo/src/server/backup_phase2.c:565-602 *)
Definition maybe_process_file (a : aux) (cb : ent) (p1 : option ent) : (processed * list ev) * aux :=
  match p1 with
  | None => ((P_DONE_DELETED, [EDeleted cb]), a)
  | Some p =>
    let pcmp := sbuf_pathcmp (e_sb cb) (e_sb p) in
    if pcmp =? 0 then maybe_do_delta_stuff a cb p
    else if pcmp >? 0 then (process_new p, a)
    else ((P_DONE_DELETED, [EDeleted cb]), a)
  end.

(* The sending half's state: manios->phase1 and manios->current (None: closed)
   as the entries left to read, and cb (None: no path).
   /repo/src/server/backup_phase2.c:1147-1149 *)
Record sst := mksst { q_p1 : option (list ent); q_cur : option (list ent); q_cb : option ent; q_aux : aux }.

(* The loop reading the old manifest: /repo/src/server/backup_phase2.c:1051-1093.
   Result: events, what is left of the old manifest, cb. None is -1. *)
Fixpoint cur_loop (a : aux) (p1 : option ent) (cur : list ent)
  : option (list ev * option (list ent) * option ent * aux) :=
  match cur with
  | [] => match p1 with                                                   (* 1057-1068 *)
          | Some p => Some (snd (process_new p), None, None, a)
          | None => Some ([], None, None, a)
          end
  | cb :: cur' =>
    match maybe_process_file a cb p1 with
    | ((P_NEW, evs), a') => Some (evs, Some cur', Some cb, a')            (* 1074-1075 *)
    | ((P_CHANGED, evs), a') => Some (evs, Some cur', None, a')           (* 1076-1080 *)
    | ((P_DONE_NEW, evs), a') => Some (evs, Some cur', Some cb, a')       (* 1081-1082 *)
    | ((P_DONE_CHANGED, evs), a') => Some (evs, Some cur', None, a')      (* 1083-1086 *)
    | ((P_DONE_UNCHANGED, evs), a') => Some (evs, Some cur', None, a')
    | ((P_DONE_DELETED, evs), a') =>                                      (* 1087-1089 *)
        match cur_loop a' p1 cur' with
        | Some (evs', cu, cb', a'') => Some (evs ++ evs', cu, cb', a'')
        | None => None
        end
    | ((P_ERROR, _), _) => None                                           (* 1090-1091 *)
    end
  end.

(* process_next_file_from_manios() together with the sending of what it flags
   (do_stuff_to_send(), which is always completed before the next call, 1279-1293):
   /repo/src/server/backup_phase2.c:981-1099.  None is -1.  Not called again
   once phase1 is closed (1290). *)
Definition process_next (s : sst) : option (list ev * sst) :=
  match q_p1 s with
  | None => Some ([], s)
  | Some l =>
    let '(p1, l', e0) := match l with                                     (* 992-1004 *)
                         | p :: l' => (Some p, Some l', [])
                         | [] => (None, None, [EEnd])
                         end in
    let a := q_aux s in
    let fin r := match r with
                 | Some (evs, cu, cb, a') => Some (e0 ++ evs, mksst l' cu cb a')
                 | None => None
                 end in
    match q_cur s with
    | None => match p1 with                                               (* 1006-1019 *)
              | None => Some (e0, mksst l' None (q_cb s) a)
              | Some p => Some (e0 ++ snd (process_new p), mksst l' None (q_cb s) a)
              end
    | Some cur =>
      match q_cb s with
      | None => fin (cur_loop a p1 cur)
      | Some cb =>                                                        (* 1025-1049 *)
        match maybe_process_file a cb p1 with
        | ((P_NEW, evs), a') => Some (e0 ++ evs, mksst l' (Some cur) (Some cb) a')
        | ((P_CHANGED, evs), a') => Some (e0 ++ evs, mksst l' (Some cur) None a')
        | ((P_DONE_NEW, evs), a') => Some (e0 ++ evs, mksst l' (Some cur) (Some cb) a')
        | ((P_DONE_CHANGED, evs), a') => Some (e0 ++ evs, mksst l' (Some cur) None a')
        | ((P_DONE_UNCHANGED, evs), a') => Some (e0 ++ evs, mksst l' (Some cur) None a')
        | ((P_DONE_DELETED, evs), a') =>
            match cur_loop a' p1 cur with
            | Some (evs', cu, cb', a'') => Some (e0 ++ evs ++ evs', mksst l' cu cb' a'')
            | None => None
            end
        | ((P_ERROR, _), _) => None
        end
      end
    end
  end.

(* ---- receiving ---- *)

(* A file received in full: its entry as written to the "changed" manifest,
   whether it came as a delta, and the bytes stored.
   /repo/src/server/backup_phase2.c:735-763 *)
Record recvd := mkrecvd { v_ent : ent; v_delta : bool; v_data : bytes }.

(* The receiving half's state: rb, the file being written (rb->fzp) with
   SBUF_RECV_DELTA, last_requested, and what has been received.
   /repo/src/server/backup_phase2.c:1145,1150 *)
Record rst := mkrst { r_rb : ent; r_fzp : option (bool * bytes); r_last : option bytes; r_done : list recvd }.

(* sbuf_free_content() on the decoded fields: /repo/src/sbuf.c:30-51
   (encryption is not reset). *)
Definition clear_at (a : attrs) : attrs :=
  mkattrs 0 0 0 0 0 0 0 0 0 0 0 0 0 0 (-1) (encryption a) 0 1.
Definition clear_ent (e : ent) : ent := mkent (sbuf_free_content (e_sb e)) (clear_at (e_at e)).
(* sbuf_alloc(): /repo/src/sbuf.c:13-28 (calloc, so encryption is 0) *)
Definition ent_alloc : ent := mkent sbuf_alloc (mkattrs 0 0 0 0 0 0 0 0 0 0 0 0 0 0 (-1) 0 0 1).
(* The state of the receiving half at the start: /repo/src/server/backup_phase2.c:1145,1237 *)
Definition rst0 : rst := mkrst ent_alloc None None [].

(* Forgetting last_requested if it is the path given:
   /repo/src/server/backup_phase2.c:765-766, 863-865, 897-899 *)
Definition forget_last (last : option bytes) (path : bytes) : option bytes :=
  match last with
  | Some l => if beqb path l then None else Some l
  | None => None
  end.

(* enum str_e: /repo/src/server/backup_phase2.c:824-829 *)
Inductive strres := STR_ERROR | STR_OK (r : rst) (a : aux) | STR_FINISHED.

(* do_stuff_to_receive(): /repo/src/server/backup_phase2.c:832-917, with
   deal_with_receive_append() (782-796), deal_with_receive_end_file() (723-780),
   deal_with_filedata() (798-822), start_to_receive_new_file() (115-138) and
   start_to_receive_delta() (688-704).  Opening, writing, closing and renaming
   files is taken to succeed; a write of no bytes is an error (790-795).
   Undefined behaviour in attribs_decode() is an error here. *)
Definition receive (a : aux) (r : rst) (m : Z * bytes) : strres :=
  let '(c, b) := m in
  let rb := r_rb r in
  if (c =? CMD_MESSAGE) || (c =? CMD_WARNING) then STR_OK r a             (* 839-846 *)
  else match r_fzp r with
  | Some (delta, data) =>                                                 (* 848-873 *)
    if c =? CMD_APPEND then
      match b with
      | [] => STR_ERROR
      | _ => STR_OK (mkrst rb (Some (delta, data ++ b)) (r_last r) (r_done r)) a
      end
    else if c =? CMD_END_FILE then
      let done := mkent (set_endfile (mkiobuf c (Some b)) (e_sb rb)) (e_at rb) in
      STR_OK (mkrst (clear_ent rb) None (forget_last (r_last r) (text (e_path rb)))
                    (r_done r ++ [mkrecvd done delta data])) a
    else if c =? CMD_INTERRUPT then
      STR_OK (mkrst (clear_ent rb) None (forget_last (r_last r) (cview b)) (r_done r)) a
    else STR_ERROR
  | None =>                                                               (* 875-912 *)
    if c =? CMD_DATAPTH then
      if relative_path_attack m then STR_ERROR
      else STR_OK (mkrst (mkent (set_datapth (mkiobuf c (Some b)) (e_sb rb)) (e_at rb)) None (r_last r) (r_done r)) a
    else if c =? CMD_ATTRIBS then
      match attribs_decode (cview b) (e_at rb) with
      | None => STR_ERROR
      | Some at' => STR_OK (mkrst (mkent (set_attr (mkiobuf c (Some b)) (e_sb rb)) at') None (r_last r) (r_done r)) a
      end
    else if c =? CMD_GEN then
      if beqb (cview b) (str "okbackupphase2end") then STR_FINISHED else STR_ERROR
    else if c =? CMD_INTERRUPT then
      STR_OK (mkrst rb None (forget_last (r_last r) (cview b)) (r_done r)) a
    else if cmd_is_filedata c || cmd_is_vssdata c then
      let rb := mkent (set_path (mkiobuf c (Some b)) (e_sb rb)) (e_at rb) in
      if has_buf (s_datapth (e_sb rb)) then                               (* 804-813 *)
        STR_OK (mkrst rb (Some (true, [])) (r_last r) (r_done r)) a
      else                                                                (* 815-821 *)
        let '(dp, a) := set_new_datapth a rb in
        STR_OK (mkrst (mkent (set_datapth (mkiobuf CMD_DATAPTH (Some dp)) (e_sb rb)) (e_at rb))
                      (Some (false, [])) (r_last r) (r_done r)) a
    else STR_ERROR
  end.

(* ---- the main loop ---- *)

(* One pass of the loop does some of: receive a message, send, process the next
   entry (/repo/src/server/backup_phase2.c:1240-1294).  Which of them happens
   when depends on the network, so a run is a list of steps in any order. *)
Inductive step := Snd | Rcv (m : Z * bytes).
(* last_requested is set when the path of a request is sent:
   /repo/src/server/backup_phase2.c:649-651 *)
Fixpoint last_req (last : option bytes) (evs : list ev) : option bytes :=
  match evs with
  | [] => last
  | EReq _ e :: r => last_req (Some (text (e_path e))) r
  | _ :: r => last_req last r
  end.
(* Field updates, for /repo/src/server/backup_phase2.c:998-1100 *)
Definition with_aux (s : sst) (a : aux) : sst := mksst (q_p1 s) (q_cur s) (q_cb s) a.
(* /repo/src/server/backup_phase2.c:998-1100 *)
Definition set_last (r : rst) (l : option bytes) : rst := mkrst (r_rb r) (r_fzp r) l (r_done r).

(* How a run ends: still going, finished (1269-1273), or failed (1296). *)
Inductive outcome := Going (s : sst) (r : rst) | Finished (s : sst) (r : rst) | Failed.

(* backup_phase2_server_all(), the loop: /repo/src/server/backup_phase2.c:1240-1294.
   Warnings that fail the backup, quotas and timed status updates are left
   out. Result: what was done on the sending side, and the outcome. *)
Fixpoint p2_run (s : sst) (r : rst) (l : list step) : list ev * outcome :=
  match l with
  | [] => ([], Going s r)
  | Snd :: l' =>
    match process_next s with
    | None => ([], Failed)
    | Some (evs, s') =>
      let '(evs', o) := p2_run s' (set_last r (last_req (r_last r) evs)) l' in (evs ++ evs', o)
    end
  | Rcv m :: l' =>
    match receive (q_aux s) r m with
    | STR_ERROR => ([], Failed)
    | STR_FINISHED => ([], Finished s r)
    | STR_OK r' a' => p2_run (with_aux s a') r' l'
    end
  end.
End Phase2.

(* ---- the client ---- *)

(* What can happen to a file the client is asked for: it is gone, refused or
   cannot be read before anything is sent (CForget: /repo/src/client/backup_phase2.c:245-278,
   296-321); it is sent in full with fresh attributes, as the blocks read and
   the end-of-file text (CSent: 324-367); or reading fails part way and the
   server is told to forget it (CBroken: 359-361, 372). *)
Inductive answer :=
| CForget
| CSent (attr : bytes) (blocks : list bytes) (endf : bytes)
| CBroken (attr : bytes) (blocks : list bytes).

(* The messages deal_with_data() sends for a request:
   /repo/src/client/backup_phase2.c:212-387.  Requests are (path, storage path
   if a delta is wanted); a delta is sent for CMD_FILE with a storage path (324-325). *)
Definition answer_msgs (path : iobuf) (datapth : iobuf) (w : answer) : list (Z * bytes) :=
  let heads attr := (if (icmd path =? CMD_FILE) && has_buf datapth then [msg_of datapth] else [])
                    ++ [(CMD_ATTRIBS, attr); msg_of path] in
  match w with
  | CForget => [(CMD_INTERRUPT, snd (msg_of path))]
  | CSent attr blocks endf => heads attr ++ map (fun b => (CMD_APPEND, b)) blocks ++ [(CMD_END_FILE, endf)]
  | CBroken attr blocks => heads attr ++ map (fun b => (CMD_APPEND, b)) blocks ++ [(CMD_INTERRUPT, snd (msg_of path))]
  end.
