(* Getting a client's certificate signed, and checking certificates:
   /repo/src/server/ca.c, /repo/src/client/ca.c and ssl_check_cert() of
   /repo/src/ssl.c, on top of the sending of files of TransferModel.v and the
   configuration lines of ConfModel.v.

   Files are a map from paths to what is there; two paths are the same file
   only if they are the same text.  The program that ca_burp_ca names may do
   anything to the files.  Left out: Windows, memory running out, what is
   logged. *)
From Verif Require Import Bytes CmdModel FrameModel AuthModel BuModel UtilModel ConfModel RestoreModel CntrModel Phase2Model TransferModel.

(* ---- files ---- *)

(* What lstat() tells apart: /repo/src/fsops.c:25-39, and the content. *)
Inductive node := File (b : bytes) | Link (target : bytes) | Dir.
(* The paths and what is at each: /repo/src/fsops.c:25-39 *)
Definition fs := bytes -> option node.
(* What is at a path is replaced: /repo/src/fsops.c:143-154, /repo/src/handy.c:516-522 *)
Definition upd (f : fs) (p : bytes) (n : option node) : fs := fun q => if beqb p q then n else f q.
(* !lstat(path, &statp): /repo/src/server/ca.c:216, 258, 336, /repo/src/client/ca.c:198 *)
Definition there (f : fs) (p : bytes) : bool := match f p with Some _ => true | None => false end.
(* unlink(): /repo/src/server/ca.c:79, 436-437, /repo/src/client/ca.c:126, 149, 261-266.
   Simplification: it works for everything but directories. *)
Definition unlink (f : fs) (p : bytes) : fs :=
  match p with
  | [] => f
  | _ => match f p with Some (File _) | Some (Link _) => upd f p None | _ => f end
  end.
(* do_rename(): /repo/src/fsops.c:143-154.  None: -1.  ok: the system lets it. *)
Definition rename (ok : bool) (f : fs) (a b : bytes) : option fs :=
  match f a with
  | None | Some Dir => None
  | Some n =>
    if negb ok then None
    else if beqb a b then Some f
    else match f b with Some Dir => None | _ => Some (upd (upd f a None) b (Some n)) end
  end.
(* What is read through fzp_open(path, "rb"): /repo/src/fzp.c:78-104, links
   being followed as often as Linux does.  Simplification: every file can be
   read, and links are absolute paths. *)
Fixpoint content_n (n : nat) (f : fs) (p : bytes) : option bytes :=
  match f p with
  | Some (File b) => Some b
  | Some (Link t) => match n with O => None | S n => content_n n f t end
  | _ => None
  end.
(* The same with the limit of 40 links: /repo/src/fzp.c:78-104 *)
Definition content : fs -> bytes -> option bytes := content_n 40.

(* The world of one side: the program ca_burp_ca (its arguments and the files
   give whether run_script() returns 0, and the files then), whether a message
   can be written after those already written, whether a path can be opened for
   writing, closed after writing and renamed to, and what write(2) returns. *)
Record env := mkenv { v_script : list bytes -> fs -> bool * fs;
                      v_write : list msg -> bool;
                      v_open : bytes -> bool; v_close : bytes -> bool; v_ren : bytes -> bool;
                      v_wr : bytes -> bytes -> Z }.

(* send_a_file(): /repo/src/handy.c:549-566, once the messages pre have been
   written.  Whether it returned 0, and the messages. *)
Definition send_file (z : zlib) (e : env) (pre : list msg) (f : fs) (p : bytes) : bool * list msg :=
  match content f p with
  | None => (false, [])
  | Some b =>
    match send_a_file z (mkout (fun l => v_write e (pre ++ l)) (fun _ => QNone)) (map Some (chunks b)) with
    | (SEND_OK, l) => (true, l)
    | (_, l) => (false, l)
    end
  end.

(* The messages that transfer_gzfile_in() has not read when it returns:
   /repo/src/msg.c:84-154 *)
Fixpoint transfer_rest (z : zlib) (w : bytes -> bytes -> Z) (l : list msg) (r : rcv) : list msg :=
  match l with
  | [] => []
  | (cmd, b) :: l' =>
    if cmd =? CMD_APPEND then
      match do_inflate z (ToFile w) false false b r with
      | TGo r => transfer_rest z w l' r
      | _ => l'
      end
    else if cmd =? CMD_END_FILE then l'
    else if (cmd =? CMD_MESSAGE) || (cmd =? CMD_WARNING) then transfer_rest z w l' r
    else l'
  end.
(* transfer_gzfile_in() returned 0: /repo/src/msg.c:84-154 *)
Definition transferred (z : zlib) (w : bytes -> bytes -> Z) (l : list msg) : bool :=
  match transfer_in_loop z w l (mkrcv [] 0 [] []) with TGo _ => true | _ => false end.
(* receive_a_file(): /repo/src/handy.c:502-544.  l: the messages that come.
   O_NOFOLLOW makes the opening of a link fail; O_TRUNC empties what is there.
   With an error on closing (532-536) the result is that of the transfer. *)
Definition receive_file (z : zlib) (e : env) (l : list msg) (f : fs) (p : bytes) : bool * fs * list msg :=
  match f p with
  | Some Dir | Some (Link _) => (false, f, l)
  | _ =>
    if v_open e p then
      (v_close e p || transferred z (v_wr e) l,
       upd f p (Some (File (snd (receive_a_file z (v_wr e) l)))),
       transfer_rest z (v_wr e) l (mkrcv [] 0 [] []))
    else (false, f, l)
  end.

(* asfd_simple_loop(): /repo/src/asfd.c:508-555, up to the first message that is
   given to the callback, and the messages after it.  None: the error. *)
Fixpoint first_gen (l : list msg) : option (bytes * list msg) :=
  match l with
  | [] => None
  | (c, b) :: r =>
    if c =? CMD_GEN then Some (b, r)
    else if (c =? CMD_WARNING) || (c =? CMD_MESSAGE) || (c =? CMD_INTERRUPT) then first_gen r
    else None
  end.

(* What a side has done: what it returned, the files, the messages written, the
   programs run, and whether memory outside a buffer was used. *)
Record res := mkres { r_ret : Z; r_fs : fs; r_out : list msg; r_runs : list (list bytes); r_ub : bool }.

(* ---- lines of configuration files ---- *)

(* fzp_gets() with a buffer of 4096 bytes, again and again: /repo/src/fzp.c:378-393,
   /repo/src/server/ca.c:27, /repo/src/client/ca.c:91.  k: the room that is left. *)
Fixpoint gets (k : Z) (acc b : bytes) : list bytes :=
  match b with
  | [] => match acc with [] => [] | _ => [rev acc] end
  | c :: r => if (c =? 10) || (k =? 1) then rev (c :: acc) :: gets 4095 [] r else gets (k - 1) (c :: acc) r
  end.
Definition lines (b : bytes) : list bytes := gets 4095 [] b.
(* What a line read with fgets() is for the string functions: the bytes before the
   first NUL.  /repo/src/server/ca.c:31, /repo/src/client/ca.c:98-100 *)
Fixpoint to_nul (b : bytes) : bytes :=
  match b with [] => [] | c :: r => if c =? 0 then [] else c :: to_nul r end.

(* strcasecmp()==0: /repo/src/server/ca.c:34, /repo/src/ssl.c:332 *)
Definition same_case (a b : bytes) : bool := beqb (strlwr a) (strlwr b).
(* The loop of get_ca_dir(): /repo/src/server/ca.c:27-40.  Simplification: a line
   for which conf_get_pair() would look outside of its buffer is skipped. *)
Fixpoint ca_dir_of (ls : list bytes) : option bytes :=
  match ls with
  | [] => None
  | l :: r => match conf_get_pair (to_nul l) with
              | PPair k v _ => if same_case k (str "CA_DIR") then Some v else ca_dir_of r
              | _ => ca_dir_of r
              end
  end.
(* get_ca_dir(): /repo/src/server/ca.c:18-44 *)
Definition get_ca_dir (f : fs) (ca_conf : bytes) : option bytes :=
  match content f ca_conf with None => None | Some b => ca_dir_of (lines b) end.

(* ---- the server signs ---- *)

(* The settings: /repo/src/server/ca.c:360-364, 453.  With ca_conf the names must be
   set for the server to start: /repo/src/conffile.c:466-491 *)
Record sconf := mksc { s_ca_conf : option bytes; s_ca_name : bytes; s_server_name : bytes;
                       s_burp_ca : bytes; s_cert_ca : bytes }.

(* /repo/src/server/ca.c:370-371: snprintf() into 512 bytes. *)
Definition in_ca_dir (d client ext : bytes) : bytes := firstn 511 (d ++ slash :: client ++ ext).
(* /repo/src/server/ca.c:370 *)
Definition csr_of (d client : bytes) : bytes := in_ca_dir d client (str ".csr").
(* /repo/src/server/ca.c:371 *)
Definition crt_of (d client : bytes) : bytes := in_ca_dir d client (str ".crt").
(* /repo/src/server/ca.c:402-413 *)
Definition sign_args (c : sconf) (d conf client : bytes) : list bytes :=
  [s_burp_ca c; str "--name"; client; str "--ca"; s_ca_name c; str "--sign"; str "--batch";
   str "--dir"; d; str "--config"; conf].
(* log_and_send(): /repo/src/log.c:260-265, with check_path_does_not_exist():
   /repo/src/server/ca.c:332-344 *)
Definition complain (e : env) (m : bytes) : list msg := if v_write e [] then [(CMD_ERROR, m)] else [].
Definition exists_text (client path : bytes) : bytes :=
  firstn 1023 (str "Will not accept a client certificate request for '" ++ client ++ str "' - " ++ path ++ str " already exists!").
(* /repo/src/server/ca.c:376 *)
Definition same_name_text (ca_name : bytes) : bytes :=
  firstn 511 (str "Will not accept a client certificate request with the same name as the CA (" ++ ca_name ++ str ")!").
(* /repo/src/server/ca.c:387 *)
Definition csr_ok (name : bytes) : bytes := firstn 255 (str "csr ok:" ++ name).

(* The end of sign_client_cert() on an error: /repo/src/server/ca.c:433-438 *)
Definition del_files (f : fs) (crt csr : bytes) : fs := unlink (unlink f crt) csr.

(* sign_client_cert(): /repo/src/server/ca.c:349-442.  l: the messages that come. *)
Definition sign_client_cert (z : zlib) (c : sconf) (e : env) (conf client : bytes) (l : list msg) (f : fs) : res :=
  match get_ca_dir f conf with
  | None => mkres (-1) f [] [] false                                          (* 367-368 *)
  | Some d =>
    let csr := csr_of d client in
    let crt := crt_of d client in
    if beqb client (s_ca_name c) then mkres (-1) f (complain e (same_name_text (s_ca_name c))) [] false
    else if there f crt then mkres (-1) f (complain e (exists_text client crt)) [] false
    else if there f csr then mkres (-1) f (complain e (exists_text client csr)) [] false
    else if negb (v_write e []) then mkres (-1) f [] [] false                 (* 388 *)
    else
      let ok := (CMD_GEN, csr_ok (s_server_name c)) in
      match receive_file z e l f csr with
      | (false, f, _) => mkres (-1) (del_files f crt csr) [ok] [] false       (* 395-396 *)
      | (true, f, _) =>
        let args := sign_args c d conf client in
        match v_script e args f with
        | (false, f) => mkres (-1) (del_files f crt csr) [ok] [args] false    (* 414-420 *)
        | (true, f) =>
          match send_file z e [ok] f crt with
          | (false, m) => mkres (-1) (del_files f crt csr) (ok :: m) [args] false
          | (true, m) =>
            match send_file z e (ok :: m) f (s_cert_ca c) with
            | (false, m2) => mkres (-1) (del_files f crt csr) (ok :: m ++ m2) [args] false
            | (true, m2) => mkres 0 f (ok :: m ++ m2) [args] false
            end
          end
        end
      end
  end.

(* csr_server_func(): /repo/src/server/ca.c:444-485, and
   ca_server_maybe_sign_client_cert(): 487-514.  ver: the version of the client. *)
Definition maybe_sign (z : zlib) (c : sconf) (e : env) (ver client : bytes) (l : list msg) (f : fs) : res :=
  match version_to_long ver with
  | None => mkres (-1) f [] [] true
  | Some v =>
    if v <? 0 then mkres (-1) f [] [] false
    else if v <? 10302 then mkres 0 f [] [] false                             (* 496-500 *)
    else match first_gen l with
         | None => mkres (-1) f [] [] false
         | Some (b, l) =>
           if beqb b (str "csr") then
             match s_ca_conf c with
             | None => mkres (-1) f (complain e (str "server not configured to sign client certificates")) [] false
             | Some conf =>
               let r := sign_client_cert z c e conf client l f in
               mkres (if r_ret r =? 0 then 1 else -1) (r_fs r) (r_out r) (r_runs r) (r_ub r)
             end
           else if beqb b (str "nocsr") then
             if v_write e [] then mkres 0 f [(CMD_GEN, str "nocsr ok")] [] false else mkres (-1) f [] [] false
           else mkres (-1) f [] [] false
         end
  end.

(* ---- the client asks ---- *)

(* The settings: /repo/src/client/ca.c:179-188.  ssl_peer_cn is set once the
   configuration is loaded: /repo/src/conffile.c:707-724 *)
Record cconf := mkcc { k_burp_ca : option bytes; k_csr_dir : option bytes; k_cert_ca : option bytes;
                       k_cert : option bytes; k_key : option bytes; k_cname : bytes; k_peer_cn : bytes;
                       k_conf : bytes; k_pid : Z }.

(* One turn of the loop of rewrite_client_conf(): /repo/src/client/ca.c:91-114.  None:
   memory outside the line is used. *)
Definition rewrite_line (cn l : bytes) : option bytes :=
  let l := to_nul l in
  match conf_get_pair l with
  | POut => None
  | PPair k _ _ => Some (if beqb k (str "ssl_peer_cn") then str "ssl_peer_cn = " ++ cn ++ [10] else l)
  | _ => Some l
  end.
(* The loop: /repo/src/client/ca.c:91-114.  Simplification: fzp_printf() works. *)
Fixpoint rewrite_lines (cn : bytes) (ls : list bytes) : option bytes :=
  match ls with
  | [] => Some []
  | l :: r => match rewrite_line cn l, rewrite_lines cn r with Some a, Some b => Some (a ++ b) | _, _ => None end
  end.
Definition rewrite (cn b : bytes) : option bytes := rewrite_lines cn (lines b).

(* /repo/src/client/ca.c:84-86 *)
Definition dot_pid (pid : Z) : bytes := dot :: fmt_d pid.
(* rewrite_client_conf(): /repo/src/client/ca.c:73-153.  Whether it returned 0, the
   files, and whether memory outside a buffer was used. *)
Definition rewrite_client_conf (c : cconf) (e : env) (cn : bytes) (f : fs) : bool * fs * bool :=
  let tmp := k_conf c ++ dot_pid (k_pid c) in
  match content f (k_conf c) with
  | None => (false, unlink f tmp, false)
  | Some b =>
    match f tmp with
    | Some Dir | Some (Link _) => (false, unlink f tmp, false)
    | _ =>
      if negb (v_open e tmp) then (false, unlink f tmp, false)
      else match rewrite cn b with
           | None => (false, f, true)
           | Some b' =>
             let f := upd f tmp (Some (File b')) in
             if negb (v_close e tmp) then (false, unlink f tmp, false)
             else if beqb b b' then (true, unlink f tmp, false)               (* 122-128 *)
             else match rename (v_ren e (k_conf c)) f tmp (k_conf c) with
                  | Some f => (true, f, false)
                  | None => (false, unlink f tmp, false)
                  end
           end
    end
  end.

(* /repo/src/client/ca.c:220, 226-229 *)
Definition csr_path (dir cname : bytes) : bytes := firstn 255 (dir ++ slash :: cname ++ str ".csr").
Definition tmp_path (p : bytes) (pid : Z) : bytes := firstn 511 (p ++ dot_pid pid).
(* generate_key_and_csr(): /repo/src/client/ca.c:44-53 *)
Definition gen_args (prog key csr cname : bytes) : list bytes :=
  [prog; str "--key"; str "--keypath"; key; str "--request"; str "--requestpath"; csr; str "--name"; cname].
(* csr_client_func(): /repo/src/client/ca.c:155-168.  The name of the server. *)
Definition server_named (b : bytes) : option bytes :=
  if starts_with b (str "csr ok:") then Some (skipn 7 b) else None.
(* asfd_read_expect(): /repo/src/asfd.c:467-480 *)
Definition expect (cmd : Z) (text : bytes) (l : list msg) : bool :=
  match l with (c, b) :: _ => (c =? cmd) && beqb b text | [] => false end.

(* The six files of /repo/src/client/ca.c:261-266.  The last two are not known
   before line 226. *)
Definition cleanup (f : fs) (ps : list bytes) : fs := fold_left unlink ps f.

(* ca_client_setup(): /repo/src/client/ca.c:170-271.  With what it does, the name of
   the server in its settings afterwards. *)
Definition client_setup (z : zlib) (c : cconf) (e : env) (l : list msg) (f : fs) : res * bytes :=
  match k_burp_ca c, k_csr_dir c, k_cert_ca c, k_cert c, k_key c with
  | Some prog, Some dir, Some ca, Some cert, Some key =>
    if there f key then
      (if v_write e [] then mkres (if expect CMD_GEN (str "nocsr ok") l then 0 else -1) f [(CMD_GEN, str "nocsr")] [] false
       else mkres (-1) f [] [] false, k_peer_cn c)
    else if negb (v_write e []) then (mkres (-1) f [] [] false, k_peer_cn c)
    else
      let asked := (CMD_GEN, str "csr") in
      match first_gen l with
      | None => (mkres (-1) f [asked] [] false, k_peer_cn c)
      | Some (b, l) =>
        match server_named b with
        | None => (mkres (-1) f [asked] [] false, k_peer_cn c)
        | Some cn =>
          let csr := csr_path dir (k_cname c) in
          let args := gen_args prog key csr (k_cname c) in
          let early := [csr; key; cert; ca] in
          match v_script e args f with
          | (false, f) => (mkres (-1) (cleanup f early) [asked] [args] false, cn)
          | (true, f) =>
            match send_file z e [asked] f csr with
            | (false, m) => (mkres (-1) (cleanup f early) (asked :: m) [args] false, cn)
            | (true, m) =>
              let t1 := tmp_path cert (k_pid c) in
              let t2 := tmp_path ca (k_pid c) in
              let fail f := (mkres (-1) (cleanup f (early ++ [t1; t2])) (asked :: m) [args] false, cn) in
              match receive_file z e l f t1 with
              | (false, f, _) => fail f
              | (true, f, l) =>
                match receive_file z e l f t2 with
                | (false, f, _) => fail f
                | (true, f, _) =>
                  match rename (v_ren e cert) f t1 cert with
                  | None => fail f
                  | Some f =>
                    match rename (v_ren e ca) f t2 ca with
                    | None => fail f
                    | Some f =>
                      if starts_with (k_peer_cn c) cn then                    (* 249: the comparison stops at the end of the new name *)
                        (mkres 1 f (asked :: m) [args] false, cn)
                      else match rewrite_client_conf c e cn f with
                           | (_, f, true) => (mkres (-1) f (asked :: m) [args] true, cn)
                           | (true, f, false) => (mkres 1 f (asked :: m) [args] false, cn)
                           | (false, f, false) => fail f
                           end
                    end
                  end
                end
              end
            end
          end
        end
      end
  | _, _, _, _, _ =>
    (if v_write e [] then mkres (if expect CMD_GEN (str "nocsr ok") l then 0 else -1) f [(CMD_GEN, str "nocsr")] [] false
     else mkres (-1) f [] [] false, k_peer_cn c)
  end.

(* ---- checking the certificate of the other side ---- *)

(* What is looked at in a certificate: the common name of its subject (bytes as
   they are in it), its issuer and its serial number.
   /repo/src/ssl.c:330-331, /repo/src/server/ca.c:563-564, 581 *)
Record x509 := mkx { x_cn : option bytes; x_issuer : bytes; x_serial : Z }.
(* A revocation list: /repo/src/server/ca.c:557-574 *)
Record crl := mkcrl { l_issuer : bytes; l_serials : list Z }.

(* get_crl_path(): /repo/src/server/ca.c:46-74 *)
Definition get_crl_path (ca_crl : option bytes) (d name : bytes) : bytes :=
  match ca_crl with Some p => p | None => prepend_s d (str "CA_" ++ name ++ str ".crl") end.

(* ca_x509_verify_crl(): /repo/src/server/ca.c:516-599.  pem: what
   PEM_read_bio_X509_CRL() makes of the content of a file.  Without ca_conf,
   fopen() is given NULL (539, 25); that is taken to fail. *)
Definition verify_crl (pem : bytes -> option crl) (f : fs) (check : bool) (ca_conf ca_name ca_crl : option bytes)
           (p : x509) : bool :=
  if negb check then true
  else match match ca_conf with Some conf => get_ca_dir f conf | None => None end with
       | None => false
       | Some d =>
         match ca_name with
         | None | Some [] => true                                            (* 542-546 *)
         | Some name =>
           match content f (get_crl_path ca_crl d name) with
           | None => false
           | Some b => match pem b with
                       | None => false
                       | Some r => beqb (l_issuer r) (x_issuer p) && negb (existsb (fun s => s =? x_serial p) (l_serials r))
                       end
           end
         end
       end.

(* X509_NAME_get_text_by_NID() into 256 bytes which hold text before:
   /repo/src/ssl.c:330-331.  Without a common name they stay as they are. *)
Definition cn_text (before : bytes) (cn : option bytes) : bytes :=
  match cn with None => before | Some b => to_nul (firstn 255 b) end.

(* ssl_check_cert(): /repo/src/ssl.c:303-363.  cipher: the description of the cipher
   in use; verified: what SSL_get_verify_result() says; crl_ok: the result of
   ca_x509_verify_crl(), asked for on the server only (true on the client).
   Simplification: setting the environment works. *)
Definition check_cert (cipher : bytes) (peer_cn : option bytes) (peer : option x509) (verified : bool)
           (crl_ok : x509 -> bool) : bool :=
  match peer_cn with
  | None => false
  | Some name =>
    match peer with
    | None => false
    | Some p => verified && same_case (cn_text (firstn 255 cipher) (x_cn p)) name && crl_ok p
    end
  end.

(* ---- setting up the authority ---- *)

(* The settings: /repo/src/server/ca.c:104-110, 214-215, 250-251 *)
Record pconf := mkpc { p_sc : sconf; p_cert : bytes; p_key : bytes; p_dh : bytes; p_crl : option bytes }.

(* symlink_file(): /repo/src/server/ca.c:82-97.  ok: the system lets it. *)
Definition symlink_file (ok : bool) (f : fs) (old new : bytes) : option fs :=
  if negb (there f old) then None
  else if there f new || negb ok then None
  else Some (upd f new (Some (Link old))).
(* The three times of /repo/src/server/ca.c:182-204 *)
Definition link_to (e : env) (f : fs) (target p : bytes) : bool * fs :=
  let target := firstn 1023 target in
  if beqb target p then (true, f)
  else let f := unlink f p in
       match symlink_file (v_open e p) f target p with Some f => (true, f) | None => (false, f) end.
(* recursive_delete() of the directory: /repo/src/fsops.c:177-298.  Simplification:
   everything can be removed. *)
Definition recursive_delete (f : fs) (d : bytes) : fs :=
  match f d with
  | None => f
  | Some Dir => fun q => if beqb q d || starts_with q (d ++ [slash]) then None else f q
  | Some _ => unlink f d
  end.

(* /repo/src/server/ca.c:119-127 *)
Definition init_args (c : sconf) (d conf : bytes) : list bytes :=
  [s_burp_ca c; str "--init"; str "--ca"; s_ca_name c; str "--dir"; d; str "--config"; conf].
(* /repo/src/server/ca.c:140-149 *)
Definition key_args (c : sconf) (d conf : bytes) : list bytes :=
  [s_burp_ca c; str "--key"; str "--request"; str "--name"; s_server_name c; str "--dir"; d; str "--config"; conf].
(* /repo/src/server/ca.c:162-173 *)
Definition own_args (c : sconf) (d conf : bytes) : list bytes :=
  [s_burp_ca c; str "--sign"; str "--ca"; s_ca_name c; str "--name"; s_server_name c; str "--batch";
   str "--dir"; d; str "--config"; conf].
(* /repo/src/server/ca.c:225-230 *)
Definition dh_args (c : sconf) (d dh : bytes) : list bytes := [s_burp_ca c; str "--dhfile"; dh; str "--dir"; d].
(* /repo/src/server/ca.c:272-280 *)
Definition crl_args (c : sconf) (d conf : bytes) : list bytes :=
  [s_burp_ca c; str "--name"; s_ca_name c; str "--config"; conf; str "--dir"; d; str "--crl"].

(* Running programs one after the other until one fails: whether all worked, the
   files, and what was run.  /repo/src/server/ca.c:128-180 *)
Fixpoint run_all (e : env) (l : list (list bytes)) (f : fs) : bool * fs * list (list bytes) :=
  match l with
  | [] => (true, f, [])
  | a :: r => match v_script e a f with
              | (false, f) => (false, f, [a])
              | (true, f) => match run_all e r f with (ok, f, l) => (ok, f, a :: l) end
              end
  end.
(* ca_init(): /repo/src/server/ca.c:99-207 *)
Definition ca_init (p : pconf) (e : env) (d conf : bytes) (f : fs) : bool * fs * list (list bytes) :=
  let c := p_sc p in
  match f d with
  | Some Dir => (true, f, [])                                                 (* 112 *)
  | _ =>
    match run_all e [init_args c d conf; key_args c d conf; own_args c d conf] f with
    | (false, f, l) => (false, f, l)
    | (true, f, l) =>
      match link_to e f (d ++ slash :: str "CA_" ++ s_ca_name c ++ str ".crt") (s_cert_ca c) with
      | (false, f) => (false, f, l)
      | (true, f) =>
        match link_to e f (d ++ slash :: s_server_name c ++ str ".crt") (p_cert p) with
        | (false, f) => (false, f, l)
        | (true, f) =>
          match link_to e f (d ++ slash :: s_server_name c ++ str ".key") (p_key p) with
          | (ok, f) => (ok, f, l)
          end
        end
      end
    end
  end.
(* ca_server_setup(): /repo/src/server/ca.c:294-330, with maybe_make_dhfile(): 209-240,
   and maybe_make_crl(): 242-292 *)
Definition ca_server_setup (p : pconf) (e : env) (f : fs) : res :=
  let c := p_sc p in
  match s_ca_conf c with
  | None => mkres 0 f [] [] false
  | Some conf =>
    match get_ca_dir f conf with
    | None => mkres (-1) f [] [] false
    | Some d =>
      match (if there f (p_dh p) then (true, f, []) else run_all e [dh_args c d (p_dh p)] f) with
      | (false, f, l) => mkres (-1) f [] l false
      | (true, f, l) =>
        match ca_init p e d conf f with
        | (false, f, l2) => mkres (-1) (recursive_delete f d) [] (l ++ l2) false
        | (true, f, l2) =>
          if is_nil conf || is_nil (s_burp_ca c) || is_nil (s_ca_name c)
             || there f (get_crl_path (p_crl p) d (s_ca_name c))
          then mkres 0 f [] (l ++ l2) false
          else match run_all e [crl_args c d conf] f with
               | (ok, f, l3) => mkres (if ok then 0 else -1) f [] (l ++ l2 ++ l3) false
               end
        end
      end
    end
  end.
