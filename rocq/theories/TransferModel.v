(* Sending the data of a file and receiving it: compression, encryption, the
   checksum sent at the end.  /repo/src/handy_extra.c, /repo/src/handy.c,
   /repo/src/transfer.c, /repo/src/msg.c, with the choices made by
   /repo/src/client/backup_phase2.c, /repo/src/server/restore_sbuf.c and
   /repo/src/client/restore_switch.c.

   The Windows branches are left out (the known byte count, EFS reading and
   writing); allocation, md5 and cipher initialisation succeed. *)
From Verif Require Import Bytes CmdModel BuModel Phase2Model.

(* ZCHUNK: /repo/src/async.h:4 *)
Definition zchunk : nat := Z.to_nat 16000.
(* ZCHUNK-EVP_MAX_BLOCK_LENGTH, the size of doutbuf: /repo/src/transfer.c:184 *)
Definition doutsize : nat := Z.to_nat (16000 - 32).

(* zlib, as /repo/src/handy_extra.c:258-262 and /repo/src/transfer.c:68-78 use
   it.  [z_def p]: everything deflate() can have given out after it was fed p;
   [z_fin p]: the whole stream once Z_FINISH was asked for after p; [z_inf c]:
   everything inflate() can give out after it was fed c, and whether it then
   reports an error in the data. *)
Record zlib := mkz { z_def : bytes -> bytes; z_fin : bytes -> bytes; z_inf : bytes -> bytes * bool }.

(* An OpenSSL cipher context with its key, as /repo/src/handy_extra.c:24-25,324
   and /repo/src/transfer.c:233-236,275-276 use it.  [c_upd p], [c_dup p]: all
   output of EVP_CipherUpdate() for the input p; [c_fin p], [c_dfin p]: the same
   with that of EVP_CipherFinal_ex(), which may fail when decrypting. *)
Record cipher := mkc { c_upd : bytes -> bytes; c_fin : bytes -> bytes;
                       c_dup : bytes -> bytes; c_dfin : bytes -> option bytes }.

Definition is_nil (b : bytes) : bool := match b with [] => true | _ => false end.

(* A message on the connection: /repo/src/iobuf.h:7-12 *)
Definition msg := (Z * bytes)%type.

(* What the loop over deflate() (or inflate()) with a buffer of ZCHUNK bytes
   takes out, call by call, until the buffer is not full.
   /repo/src/handy_extra.c:253-302, /repo/src/transfer.c:64-84 *)
Fixpoint pieces_f (fuel : nat) (l : bytes) : list bytes :=
  match fuel with
  | O => [l]
  | S f => if (List.length l <? zchunk)%nat then [l]
           else firstn zchunk l :: pieces_f f (skipn zchunk l)
  end.
Definition pieces (l : bytes) : list bytes := pieces_f (List.length l) l.

(* Metadata is sent in chunks of at most ZCHUNK bytes.
   /repo/src/handy_extra.c:203-213, 488-509 *)
Fixpoint chunks_f (fuel : nat) (l : bytes) : list bytes :=
  match fuel with
  | O => []
  | S f => match l with
           | [] => []
           | _ => firstn zchunk l :: chunks_f f (skipn zchunk l)
           end
  end.
Definition chunks (l : bytes) : list bytes := chunks_f (List.length l) l.

(* What do_quick_read() returns: /repo/src/handy.c:27-57 (0, 1 and -1) *)
Inductive qres := QNone | QStop | QBad.

(* enum send_e: /repo/src/handy_extra.h *)
Inductive send_e := SEND_OK | SEND_ERROR | SEND_FATAL.

(* What the outside does to a sender: whether the next asfd->write() succeeds
   and what do_quick_read() returns, given what has been sent.
   /repo/src/asfd.c:482-494, /repo/src/handy.c:27-57 *)
Record outside := mkout { o_write : list msg -> bool; o_quick : list msg -> qres }.

(* What has been sent, what the cipher was fed and what md5_update() was given.
   /repo/src/handy_extra.c:165-189 *)
Record snd_st := mksnd { s_sent : list msg; s_efed : bytes; s_md : bytes }.

(* asfd->write() of a CMD_APPEND; a message without data is not sent at all.
   /repo/src/asfd.c:482-494 *)
Definition put (o : outside) (b : bytes) (s : snd_st) : option snd_st :=
  if is_nil b then Some s
  else if o_write o (s_sent s)
       then Some (mksnd (s_sent s ++ [(CMD_APPEND, b)]) (s_efed s) (s_md s))
       else None.
(* md5_update(): /repo/src/md5.c *)
Definition md5_add (b : bytes) (s : snd_st) : snd_st := mksnd (s_sent s) (s_efed s) (s_md s ++ b).

(* do_encryption(): /repo/src/handy_extra.c:19-42 *)
Definition do_encryption (o : outside) (c : cipher) (b : bytes) (s : snd_st) : option snd_st :=
  if is_nil b then Some s
  else
    let got := skipn (List.length (c_upd c (s_efed s))) (c_upd c (s_efed s ++ b)) in
    let s := mksnd (s_sent s) (s_efed s ++ b) (s_md s) in
    if is_nil got then Some s
    else match put o got s with Some s => Some (md5_add got s) | None => None end.

(* The result of one turn of a loop: go on, the client wants to interrupt, or a
   fatal error.  /repo/src/handy_extra.c:274-300 *)
Inductive turn := Cont (s : snd_st) | Stop (s : snd_st) | Fatal (s : snd_st).

(* One turn of the inner loop, from `have' on: /repo/src/handy_extra.c:274-300.
   [quick] is quick_read && datapth. *)
Definition send_piece (o : outside) (quick : bool) (c : option cipher) (b : bytes) (s : snd_st) : turn :=
  match (match c with Some c => do_encryption o c b s | None => put o b s end) with
  | None => Fatal s
  | Some s =>
    if quick then match o_quick o (s_sent s) with QNone => Cont s | QStop => Stop s | QBad => Fatal s end
    else Cont s
  end.
(* The inner loop: /repo/src/handy_extra.c:253-302 *)
Fixpoint send_pieces (o : outside) (quick : bool) (c : option cipher) (l : list bytes) (s : snd_st) : turn :=
  match l with
  | [] => Cont s
  | b :: r => match send_piece o quick c b s with Cont s => send_pieces o quick c r s | t => t end
  end.

(* How the outer loop of send_whole_file_gzl() ends, with *bytes.
   /repo/src/handy_extra.c:200-313 *)
Inductive gzend := GDone (n : Z) (s : snd_st) | GStop (n : Z) (s : snd_st)
                 | GError (n : Z) (s : snd_st) | GFatal (n : Z) (s : snd_st).

(* The outer loop: /repo/src/handy_extra.c:200-313.  [ins]: what bfd->read()
   returns, or the chunks of metadata; None is a read error, and after the end
   of the list there is nothing more to read.  deflate() takes all its input
   (306-312) and gives Z_STREAM_END after Z_FINISH (317-321). *)
Fixpoint gz_loop (z : zlib) (o : outside) (quick : bool) (c : option cipher) (comp : bool)
         (ins : list (option bytes)) (fed : bytes) (given : nat) (n : Z) (s : snd_st) {struct ins} : gzend :=
  let turn_with (b : bytes) :=
      let s := match c with None => md5_add b s | Some _ => s end in          (* 234-243 *)
      let all := if is_nil b then z_fin z (fed ++ b) else z_def z (fed ++ b) in
      let ps := if comp then pieces (skipn given all) else [b] in
      (List.length all, send_pieces o quick c ps s) in
  match ins with
  | None :: _ => GError n s                                                   (* 224-230 *)
  | Some (x :: b) :: r =>
    let n := n + Z.of_nat (List.length (x :: b)) in
    match turn_with (x :: b) with
    | (g, Cont s) => gz_loop z o quick c comp r (fed ++ x :: b) g n s
    | (_, Stop s) => GStop n s
    | (_, Fatal s) => GFatal n s
    end
  | Some [] :: _ | [] =>
    if comp then
      match turn_with [] with
      | (_, Cont s) => GDone n s
      | (_, Stop s) => GStop n s
      | (_, Fatal s) => GFatal n s
      end
    else GDone n s                                                            (* 233-234 *)
  end.

(* get_endfile_str(): /repo/src/handy_extra.c:134-142; [sum] is the text of the
   checksum. *)
Definition endfile (n : Z) (sum : bytes) : bytes := dec_digits 20 (u64 n) [] ++ 58 :: sum.

(* write_endfile(): /repo/src/handy_extra.c:144-148 *)
Definition write_endfile (o : outside) (n : Z) (sum : bytes) (l : list msg) : option (list msg) :=
  if o_write o l then Some (l ++ [(CMD_END_FILE, endfile n sum)]) else None.

(* What a sending function leaves behind: what it returned and what it sent. *)
Definition sent := (send_e * list msg)%type.

(* md5_final() and write_endfile() at the end: /repo/src/handy_extra.c:351-364,
   610-623.  [h] is bytes_to_md5str() of MD5. *)
Definition end_of_file (o : outside) (h : bytes -> bytes) (r : send_e) (n : Z) (s : snd_st) : sent :=
  match write_endfile o n (h (s_md s)) (s_sent s) with
  | Some l => (r, l)
  | None => (SEND_FATAL, s_sent s)
  end.

(* send_whole_file_gzl(): /repo/src/handy_extra.c:160-366 *)
Definition send_whole_file_gzl (z : zlib) (h : bytes -> bytes) (o : outside) (quick : bool)
           (c : option cipher) (comp : bool) (ins : list (option bytes)) : sent :=
  match gz_loop z o quick c comp ins [] 0 0 (mksnd [] [] []) with
  | GDone n s =>
    match c with
    | None => end_of_file o h SEND_OK n s
    | Some c =>                                                               (* 322-341 *)
      let got := skipn (List.length (c_upd c (s_efed s))) (c_fin c (s_efed s)) in
      match put o got s with
      | None => (SEND_FATAL, s_sent s)
      | Some s => end_of_file o h SEND_OK n (md5_add got s)
      end
    end
  | GStop n s => end_of_file o h SEND_OK n s                                  (* 296-299 *)
  | GError n s => (SEND_ERROR, s_sent s)
  | GFatal n s => (SEND_FATAL, s_sent s)
  end.

(* Metadata in send_whole_filel(): /repo/src/handy_extra.c:480-510.  A failed
   write does not end the loop. *)
Fixpoint meta_loop (o : outside) (l : list bytes) (ok : bool) (n : Z) (s : snd_st) : bool * Z * snd_st :=
  match l with
  | [] => (ok, n, s)
  | b :: r =>
    let s := md5_add b s in
    let n := n + Z.of_nat (List.length b) in
    match put o b s with
    | Some s => meta_loop o r ok n s
    | None => meta_loop o r false n s
    end
  end.

(* The loop over a file in send_whole_filel(): /repo/src/handy_extra.c:543-608 *)
Fixpoint file_loop (o : outside) (quick : bool) (ins : list (option bytes)) (n : Z) (s : snd_st) : gzend :=
  match ins with
  | None :: _ => GError n s                                                   (* 566-572 *)
  | Some (x :: b) :: r =>
    let n := n + Z.of_nat (List.length (x :: b)) in
    match put o (x :: b) (md5_add (x :: b) s) with
    | None => GFatal n (md5_add (x :: b) s)
    | Some s =>
      if quick then
        match o_quick o (s_sent s) with
        | QNone => file_loop o quick r n s
        | QStop => GStop n s
        | QBad => GFatal n s
        end
      else file_loop o quick r n s
    end
  | Some [] :: _ | [] => GDone n s                                            (* 564-565 *)
  end.

(* What is sent: metadata already read, or what bfd->read() returns.
   /repo/src/handy_extra.c:160-163 (extrameta, elen, bfd) *)
Inductive source := Meta (m : bytes) | File (ins : list (option bytes)).

(* send_whole_filel(): /repo/src/handy_extra.c:451-627 *)
Definition send_whole_filel (h : bytes -> bytes) (o : outside) (quick : bool) (x : source) : sent :=
  match x with
  | Meta m =>
    match meta_loop o (chunks m) true 0 (mksnd [] [] []) with
    | (true, n, s) => end_of_file o h SEND_OK n s
    | (false, _, s) => (SEND_FATAL, s_sent s)
    end
  | File ins =>
    match file_loop o quick ins 0 (mksnd [] [] []) with
    | GDone n s | GStop n s => end_of_file o h SEND_OK n s
    | GError n s => end_of_file o h SEND_ERROR n s                            (* 610: not SEND_FATAL *)
    | GFatal _ s => (SEND_FATAL, s_sent s)
    end
  end.

(* The input of send_whole_file_gzl(): /repo/src/handy_extra.c:202-232.  With
   metadata the loop also reads nothing once it is used up. *)
Definition gz_input (x : source) : list (option bytes) :=
  match x with Meta m => map Some (chunks m) | File ins => ins end.

(* send_whole_file_w(), which the client calls with quick_read 0:
   /repo/src/client/backup_phase2.c:150-170, 352-355 *)
Definition send_whole_file_w (z : zlib) (h : bytes -> bytes) (o : outside) (cmd : Z)
           (c : option cipher) (compression : Z) (x : source) : sent :=
  if (negb (compression =? 0) || match c with Some _ => true | None => false end)
     && negb (cmd =? CMD_EFS_FILE)
  then send_whole_file_gzl z h o false c (negb (compression =? 0)) (gz_input x)
  else send_whole_filel h o false x.

(* do_send_file(): /repo/src/server/restore_sbuf.c:72-165, after the path was
   sent; [ins] is what reading the stored (or patched) file returns. *)
Definition do_send_file (z : zlib) (h : bytes -> bytes) (o : outside) (cmd : Z)
           (patches : bool) (compression : Z) (datapth : bytes) (ins : list (option bytes)) : sent :=
  if patches then send_whole_file_gzl z h o true None true ins                (* 86-104 *)
  else if cmd_is_encrypted cmd then send_whole_filel h o true (File ins)      (* 110-117 *)
  else if negb (dpth_is_compressed compression datapth)
       then send_whole_file_gzl z h o true None true ins                      (* 121-138 *)
       else send_whole_filel h o true (File ins).                             (* 139-148 *)

(* ---- receiving ---- *)

(* What came of receiving a file: undefined behaviour, failure with what was
   written so far, or success with what was written.
   /repo/src/transfer.c:160-316 *)
Inductive tres (A : Type) := TUB | TBad (out : bytes) | TGo (a : A).
Arguments TUB {A}. Arguments TBad {A} out. Arguments TGo {A} a.

(* Where the data goes: metadata in memory, or a file for which [w] says how
   much write() takes, given what was written and what is to be written.
   /repo/src/transfer.c:14-46, /repo/src/bfile.c:499-505 *)
Inductive sink := ToMeta | ToFile (w : bytes -> bytes -> Z).

(* do_write(): /repo/src/transfer.c:14-46.  [cap] is the size of the buffer the
   data is in, into which a NUL is put behind metadata (22). *)
Definition do_write (k : sink) (cap : nat) (b out : bytes) : tres bytes :=
  match k with
  | ToMeta => if (List.length b <? cap)%nat then TGo (out ++ b) else TUB
  | ToFile w => if w out b <=? 0 then TBad out else TGo (out ++ firstn (Z.to_nat (w out b)) b)
  end.

(* What inflate() and the cipher were fed, what inflate() gave, and what has
   been written.  /repo/src/transfer.c:180-189 *)
Record rcv := mkrcv { t_zfed : bytes; t_zgiven : nat; t_dfed : bytes; t_out : bytes }.

(* The loop of do_inflate(): /repo/src/transfer.c:64-84.  An error in the data
   is reported by the call that would have left the buffer not full. *)
Fixpoint inf_loop (k : sink) (bad : bool) (l : list bytes) (out : bytes) : tres bytes :=
  match l with
  | [] => TGo out
  | b :: r =>
    if bad && (List.length b <? zchunk)%nat then TBad out
    else if is_nil b then inf_loop k bad r out                                (* 80: avail_out is not 0 *)
    else match do_write k zchunk b out with
         | TGo out => inf_loop k bad r out
         | TBad o => TBad o
         | TUB => TUB
         end
  end.

(* do_inflate(): /repo/src/transfer.c:48-86 *)
Definition do_inflate (z : zlib) (k : sink) (enc enccompressed : bool) (b : bytes) (r : rcv) : tres rcv :=
  if enc && negb enccompressed then
    match do_write k doutsize b (t_out r) with
    | TGo out => TGo (mkrcv (t_zfed r) (t_zgiven r) (t_dfed r) out)
    | TBad o => TBad o
    | TUB => TUB
    end
  else
    let fed := t_zfed r ++ b in
    let '(all, bad) := z_inf z fed in
    match inf_loop k bad (pieces (skipn (t_zgiven r) all)) (t_out r) with
    | TGo out => TGo (mkrcv fed (List.length all) (t_dfed r) out)
    | TBad o => TBad o
    | TUB => TUB
    end.

(* A CMD_APPEND in transfer_gzfile_inl(): /repo/src/transfer.c:220-268.  The
   decrypted data goes into doutbuf. *)
Definition receive_append (z : zlib) (c : option cipher) (k : sink) (enccompressed : bool)
           (b : bytes) (r : rcv) : tres rcv :=
  match c with
  | None => do_inflate z k false enccompressed b r
  | Some c =>
    let got := skipn (List.length (c_dup c (t_dfed r))) (c_dup c (t_dfed r ++ b)) in
    let r := mkrcv (t_zfed r) (t_zgiven r) (t_dfed r ++ b) (t_out r) in
    if (doutsize <? List.length got)%nat then TUB
    else if is_nil got then TGo r                                             (* 242 *)
    else do_inflate z k true enccompressed got r
  end.

(* CMD_END_FILE: /repo/src/transfer.c:269-291 *)
Definition receive_end (z : zlib) (c : option cipher) (k : sink) (enccompressed : bool) (r : rcv) : tres rcv :=
  match c with
  | None => TGo r
  | Some c =>
    match c_dfin c (t_dfed r) with
    | None => TBad (t_out r)
    | Some all =>
      let got := skipn (List.length (c_dup c (t_dfed r))) all in
      if is_nil got then TGo r else do_inflate z k true enccompressed got r
    end
  end.

(* transfer_gzfile_inl(): /repo/src/transfer.c:160-316.  [l]: the messages
   asfd->read() gives; it fails at the end of the list.  There is a file or
   metadata to write to. *)
Fixpoint transfer_loop (z : zlib) (c : option cipher) (k : sink) (enccompressed : bool)
         (l : list msg) (r : rcv) : tres bytes :=
  match l with
  | [] => TBad (t_out r)
  | (cmd, b) :: l' =>
    if cmd =? CMD_APPEND then
      match receive_append z c k enccompressed b r with
      | TGo r => transfer_loop z c k enccompressed l' r
      | TBad o => TBad o
      | TUB => TUB
      end
    else if cmd =? CMD_END_FILE then
      match receive_end z c k enccompressed r with
      | TGo r => TGo (t_out r)
      | TBad o => TBad o
      | TUB => TUB
      end
    else if (cmd =? CMD_MESSAGE) || (cmd =? CMD_WARNING) then transfer_loop z c k enccompressed l' r
    else TBad (t_out r)
  end.
Definition transfer_gzfile_inl (z : zlib) (c : option cipher) (k : sink) (enccompressed : bool) (l : list msg) : tres bytes :=
  transfer_loop z c k enccompressed l (mkrcv [] 0 [] []).

(* do_restore_file_or_get_meta(): /repo/src/client/restore_switch.c:19-94.
   [c]: the cipher for the client's password, if it has one. *)
Definition restore_data (z : zlib) (c : option cipher) (k : sink) (cmd compression : Z) (datapth : bytes)
           (l : list msg) : tres bytes :=
  transfer_gzfile_inl z (if cmd_is_encrypted cmd then c else None) k
                      (dpth_is_compressed compression datapth) l.

(* ---- verifying ---- *)

(* verify_file(): /repo/src/server/restore_sbuf.c:168-257, when the file is read
   without errors; gzread() gives what inflate() does.  [best] is the file's path and
   [data] its content.  True: the sum matches, and the path is sent. *)
Fixpoint after_colon (s : bytes) : option bytes :=
  match s with
  | [] => None
  | c :: t => match after_colon t with Some u => Some u | None => if c =? 58 then Some t else None end
  end.
Definition verify_file (z : zlib) (h : bytes -> bytes) (cmd : Z) (patches : bool) (compression : Z)
           (best data : bytes) (endf : option bytes) : bool :=
  match endf with
  | None => false                                                             (* 180-187 *)
  | Some e =>
    match after_colon e with
    | None => false
    | Some cp =>
      let plain := patches || (cmd =? CMD_ENC_FILE) || (cmd =? CMD_ENC_METADATA) || (cmd =? CMD_EFS_FILE)
                   || (cmd =? CMD_ENC_VSS) || (cmd =? CMD_ENC_VSS_T)
                   || negb (dpth_is_compressed compression best) in           (* 197-206 *)
      beqb (h (if plain then data else fst (z_inf z data))) cp
    end
  end.

(* ---- certificates, scripts and upgrades ---- *)

(* send_whole_file_gz() as send_a_file() calls it: /repo/src/handy.c:59-172,
   549-566.  fread() gives 0 for an error as for the end of the file.  No
   checksum is sent. *)
Definition send_a_file (z : zlib) (o : outside) (ins : list (option bytes)) : sent :=
  let ins := (fix cut (l : list (option bytes)) := match l with Some b :: r => Some b :: cut r | _ => [] end) ins in
  match gz_loop z o false None true ins [] 0 0 (mksnd [] [] []) with
  | GDone n s | GStop n s | GError n s => end_of_file o (fun _ => []) SEND_OK n s
  | GFatal _ s => (SEND_FATAL, s_sent s)
  end.

(* transfer_gzfile_in() with its do_inflate() and do_write():
   /repo/src/msg.c:24-154 *)
Fixpoint transfer_in_loop (z : zlib) (w : bytes -> bytes -> Z) (l : list msg) (r : rcv) : tres bytes :=
  match l with
  | [] => TBad (t_out r)
  | (cmd, b) :: l' =>
    if cmd =? CMD_APPEND then
      match do_inflate z (ToFile w) false false b r with
      | TGo r => transfer_in_loop z w l' r
      | TBad o => TBad o
      | TUB => TUB
      end
    else if cmd =? CMD_END_FILE then TGo (t_out r)
    else if (cmd =? CMD_MESSAGE) || (cmd =? CMD_WARNING) then transfer_in_loop z w l' r
    else TBad (t_out r)
  end.
(* receive_a_file(): /repo/src/handy.c:502-544, once the file is open and if it
   closes without error: what is returned (0 is success), and the content. *)
Definition receive_a_file (z : zlib) (w : bytes -> bytes -> Z) (l : list msg) : Z * bytes :=
  match transfer_in_loop z w l (mkrcv [] 0 [] []) with
  | TGo out | TBad out => (0, out)                                            (* 537: ret=0 *)
  | TUB => (0, [])
  end.

(* ---- keys ---- *)

(* enc_setup(): /repo/src/handy_extra.c:44-132: how many bytes are put into
   enc_key (256 bytes) and enc_iv (9 bytes), by EVP_BytesToKey() or by strcpy()
   and memcpy(), and how many of enc_iv the cipher takes.  The key and IV
   lengths are those of the ciphers: 16 and 8 for EVP_bf_cbc(), 32 and 16 for
   EVP_aes_256_cbc(). *)
Inductive encset := ENone | ENull | EUB | EOk.
(* /repo/src/handy_extra.c:44-132 *)
Definition enc_setup (password : option bytes) (key_deriv : Z) : encset :=
  let lens := if (key_deriv =? 0) || (key_deriv =? 1) then Some (16, 8)
              else if key_deriv =? 2 then Some (32, 16) else None in
  match password with
  | None => ENone                                                             (* 68-72 *)
  | Some p =>
    match lens with
    | None => ENull                                                           (* cipher is NULL *)
    | Some (key, iv) =>
      if negb (key_deriv =? 0) then (if (256 <? key) || (9 <? iv) then EUB else EOk)
      else if 256 <? Z.of_nat (List.length p) + 1 then EUB
      else if 9 <? iv then EUB else EOk
    end
  end.

(* ---- what the client answers when asked for a whole file ---- *)

(* deal_with_data(): /repo/src/client/backup_phase2.c:341-372, once the file is
   open: the attributes, the path, the data, and forget_file() (172-179) if
   sending gave SEND_ERROR.  Nothing more is sent after SEND_FATAL. *)
Definition client_answer (attr path : msg) (r : sent) : list msg :=
  attr :: path :: snd r ++ match fst r with SEND_ERROR => [(CMD_INTERRUPT, snd path)] | _ => [] end.

(* do_stuff_to_receive() for one message after another:
   /repo/src/server/backup_phase2.c:832-917, 1240-1294 *)
Fixpoint receive_all (tree : ent -> bool) (a : aux) (r : rst) (l : list msg) : option (rst * aux) :=
  match l with
  | [] => Some (r, a)
  | m :: t => match receive tree a r m with STR_OK r a => receive_all tree a r t | _ => None end
  end.
