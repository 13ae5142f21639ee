(* Model of resuming an interrupted backup: /repo/src/server/resume.c, with the
   reading, telling and truncating of /repo/src/server/manio.c.  Files are byte
   strings (a compressed one stands for its content, and a position in it for
   what gztell() says). *)
From Verif Require Import Bytes CmdModel AttribsModel FrameModel SbufModel MergeModel DpthModel.

(* manio_read(): /repo/src/server/manio.c:211-236, on an sbuf without content
   (every caller below frees it first, /repo/src/server/resume.c:22, 78, 172,
   271).  Enough fuel for one message for each byte. *)
Definition manio_read (f : fstate) : fillres fstate :=
  sbuf_fill file_next (4 + List.length (fbytes f)) f sbuf_alloc.

(* manio_tell(): /repo/src/server/manio.c:386-406, as the number of bytes of
   the file w that are before what is left in f. *)
Definition tell (w : bytes) (f : fstate) : nat := List.length w - List.length (fbytes f).

(* set_higher_datapth(): /repo/src/server/resume.c:39-53.  None is -1. *)
Definition higher (d : dpth) (sb : sbuf) : option dpth :=
  match dpth_set_from_string d (option_map cview (ibuf (s_datapth sb))) with
  | (d', true) => Some d'
  | (_, false) => None
  end.

(* sbuf_is_filedata(), sbuf_is_vssdata(): /repo/src/sbuf.c:53-76 *)
Definition is_filedata (sb : sbuf) : bool := cmd_is_filedata (icmd (s_path sb)).
Definition is_vssdata (sb : sbuf) : bool := cmd_is_vssdata (icmd (s_path sb)).

(* The decoded attributes of a fresh sbuf: /repo/src/sbuf.c:13-51 *)
Definition no_attrs : attrs := mkattrs 0 0 0 0 0 0 0 0 0 0 0 0 0 0 (-1) 0 0 1.
(* S_ISDIR(sb->statp.st_mode): /repo/src/server/resume.c:305.  Undefined
   behaviour in attribs_decode() (C07) counts as not a directory. *)
Definition is_dir (sb : sbuf) : bool :=
  match ibuf (s_attr sb) with
  | None => false
  | Some b => match attribs_decode (cview b) no_attrs with
              | Some a => Z.land (st_mode a) 61440 =? 16384
              | None => false
              end
  end.

(* iobuf_move(): /repo/src/iobuf.c:59-63, what is left of the source. *)
Definition moved (b : iobuf) : iobuf := mkiobuf (icmd b) None.

(* The "hacks for split_vss": /repo/src/server/resume.c:293-310 *)
Definition vss_next (vss : bool) (sb : sbuf) : bool :=
  let c := icmd (s_path sb) in
  if (c =? CMD_VSS) || (c =? CMD_ENC_VSS) then true
  else if (c =? CMD_VSS_T) || (c =? CMD_ENC_VSS_T) then false
  else if ((c =? CMD_FILE) || (c =? CMD_ENC_FILE)) && is_dir sb then false
  else vss.

(* The loop of get_last_good_entry(): /repo/src/server/resume.c:235-321.  [lastp]
   is lastpath, [vss] got_vss_start, [pos] the position returned so far.  None
   is -1 (or no fuel left).  Counters are left out here and below. *)
Fixpoint last_good_loop (n : nat) (w : bytes) (f : fstate) (d : dpth) (sb : sbuf) (vss : bool)
  (lastp result : iobuf) (pos : nat) : option (iobuf * nat * dpth) :=
  match n with
  | O => None
  | S n' =>
    let '(lastp, result, pos) :=                                           (* 237-254 *)
      if has_buf (s_path sb) && negb vss then
        if negb (is_filedata sb) && negb (is_vssdata sb)
        then (moved (s_path sb), s_path sb, tell w f)
        else (s_path sb, result, pos)
      else (lastp, result, pos) in
    let '(lastp, result, pos) :=                                           (* 255-267 *)
      if has_buf (s_endfile sb) && negb vss then (moved lastp, lastp, tell w f)
      else (lastp, result, pos) in
    match manio_read f with
    | FillOk sb' f' =>
      match higher d sb' with
      | Some d' => last_good_loop n' w f' d' sb' (vss_next vss sb') lastp result pos
      | None => None                                                       (* 271 *)
      end
    | FillEnd sb' | FillErr sb' =>                                         (* 276-289 *)
      match higher d sb' with Some d' => Some (result, pos, d') | None => None end
    | FillFuel => None
    end
  end.
(* get_last_good_entry(): /repo/src/server/resume.c:212-328.  A result without
   buffer: no entry was found good. *)
Definition get_last_good_entry (w : bytes) (o : list rd) (d : dpth) : option (iobuf * nat * dpth) :=
  last_good_loop (S (List.length w)) w (mkf w o) d sbuf_alloc false iobuf_empty iobuf_empty 0.

(* The loop of forward_past_entry(): /repo/src/server/resume.c:76-128.  None is
   -1 (or no fuel left). *)
Fixpoint forward_past_loop (n : nat) (w : bytes) (f : fstate) (target : iobuf) : option nat :=
  match n with
  | O => None
  | S n' =>
    let pos := tell w f in                                                 (* 80 *)
    match manio_read f with
    | FillEnd _ => Some pos                                                (* 91-103 *)
    | FillErr _ | FillFuel => None                                         (* 104-106 *)
    | FillOk sb f' =>
      let c := iobuf_pathcmp target (s_path sb) in
      if c =? 0 then Some (tell w f')                                      (* 111-120 *)
      else if c =? -1 then Some pos                                        (* 121-125 *)
      else forward_past_loop n' w f' target
    end
  end.
(* forward_past_entry(): /repo/src/server/resume.c:55-135 *)
Definition forward_past_entry (w : bytes) (o : list rd) (target : iobuf) : option nat :=
  forward_past_loop (S (List.length w)) w (mkf w o) target.

(* The loop of forward_before_entry(): /repo/src/server/resume.c:157-204 *)
Fixpoint forward_before_loop (n : nat) (w : bytes) (f : fstate) (d : dpth) (sb : sbuf)
  (target : iobuf) (pos : nat) : option (nat * dpth) :=
  match n with
  | O => None
  | S n' =>
    let pos := if has_buf (s_endfile sb) || (has_buf (s_path sb) && negb (is_filedata sb))
               then tell w f else pos in                                   (* 159-169 *)
    match manio_read f with
    | FillOk sb' f' =>
      match higher d sb' with
      | None => None                                                       (* 173 *)
      | Some d' =>
        if iobuf_pathcmp target (s_path sb') <=? 0 then Some (pos, d')     (* 190-194 *)
        else forward_before_loop n' w f' d' sb' target pos
      end
    | FillEnd sb' | FillErr sb' =>                                         (* 178-187 *)
      match higher d sb' with Some d' => Some (pos, d') | None => None end
    | FillFuel => None
    end
  end.
(* forward_before_entry(): /repo/src/server/resume.c:137-210 *)
Definition forward_before_entry (w : bytes) (o : list rd) (d : dpth) (target : iobuf) : option (nat * dpth) :=
  forward_before_loop (S (List.length w)) w (mkf w o) d sbuf_alloc target 0.

(* What resuming leaves: the position in the scan from which phase 2 goes on,
   the position in the previous manifest (None: not moved), the two manifests
   of phase 2 as truncated, the next storage path.
   /repo/src/server/resume.c:456-461, 569-574 *)
Record resumed := mkresumed { z_p1 : nat; z_cur : option nat; z_ch : bytes; z_un : bytes; z_dp : dpth }.

(* The files as found: the scan (phase1data), the previous manifest (None:
   there is none, /repo/src/server/manio.c:88-103), changed and unchanged, each
   with the behaviour of the reads.  /repo/src/server/resume.c:474-480 *)
Record disk := mkdisk { k_p1 : bytes; k_p1o : list rd; k_cur : option bytes; k_curo : list rd;
                        k_ch : bytes; k_cho : list rd; k_un : bytes; k_uno : list rd }.

(* manio_close_and_truncate(): /repo/src/server/manio.c:422-438, which is
   taken to succeed. *)
Definition cut (w : bytes) (pos : nat) : bytes := firstn pos w.

(* do_resume_work(): /repo/src/server/resume.c:456-567.  Opening the files is
   taken to succeed.  counters_d and counters_n are left out.  None is -1. *)
Definition do_resume_work (k : disk) (d : dpth) : option resumed :=
  match get_last_good_entry (k_ch k) (k_cho k) d with                      (* 488-490 *)
  | None => None
  | Some (chb, pos, d) =>
    let ch := cut (k_ch k) pos in
    if has_buf chb then                                                    (* 494-532 *)
      match forward_past_entry (k_p1 k) (k_p1o k) chb with                 (* 502 *)
      | None => None
      | Some p1 =>
        let cur := match k_cur k with                                      (* 506-512 *)
                   | None => Some None
                   | Some w => option_map Some (forward_past_entry w (k_curo k) chb)
                   end in
        match cur with
        | None => None
        | Some cur =>
          match forward_before_entry (k_un k) (k_uno k) d chb with         (* 516-520 *)
          | None => None
          | Some (upos, d) => Some (mkresumed p1 cur ch (cut (k_un k) upos) d)
          end
        end
      end
    else Some (mkresumed 0 None ch (cut (k_un k) 0) d)                     (* 534-545 *)
  end.

(* read_phase1(): /repo/src/server/resume.c:12-37.  Whether it returns 0. *)
Definition read_phase1 (w : bytes) (o : list rd) : bool :=
  match read_entries file_next (S (List.length w)) (4 + List.length w) (mkf w o) with
  | (_, Clean) => true
  | _ => false
  end.

(* do_resume(): /repo/src/server/resume.c:569-615.  The scan is read twice; o1
   is what the first reading meets. *)
Definition do_resume (k : disk) (o1 : list rd) (d : dpth) : option resumed :=
  if read_phase1 (k_p1 k) o1 then
    match do_resume_work k d with
    | None => None
    | Some z => match dpth_incr (z_dp z) with                              (* 604 *)
                | (d', true) => Some (mkresumed (z_p1 z) (z_cur z) (z_ch z) (z_un z) d')
                | (_, false) => None
                end
    end
  else None.
