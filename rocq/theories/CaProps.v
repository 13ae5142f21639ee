(* What is claimed about certificates: how they are signed, fetched, checked, and how
   the authority is set up. *)
From Verif Require Import Bytes CmdModel FrameModel AuthModel BuModel UtilModel ConfModel RestoreModel CntrModel Phase2Model TransferModel TransferProofs TransferMoreProofs TransferProps CaModel CaProofs CaConfProofs.

(* ---- the examples ---- *)

Definition ex_z : zlib := rle.
(* The server: an authority in /ca. *)
Definition ex_sc : sconf := mksc (Some (str "/etc/CA.cnf")) (str "burpCA") (str "burp") (str "/bin/burp_ca") (str "/etc/cacert").
Definition ex_fs : fs :=
  upd (upd (upd (upd (fun _ => None) (str "/etc/CA.cnf") (Some (File (str "# conf" ++ 10 :: str "CA_DIR = /ca" ++ [10]))))
                (str "/ca") (Some Dir)) (str "/ca/CA_burpCA.crt") (Some (File (str "the CA"))))
      (str "/etc/cacert") (Some (Link (str "/ca/CA_burpCA.crt"))).
Definition ex_sign (args : list bytes) (f : fs) : bool * fs :=
  (true, upd f (str "/ca/cl.crt") (match f (str "/ca/cl.csr") with Some (File b) => Some (File (str "signed " ++ b)) | _ => None end)).
Definition ex_se : env := mkenv ex_sign (fun _ => true) (fun _ => true) (fun _ => true) (fun _ => true) whole.
(* The client. *)
Definition ex_cc : cconf := mkcc (Some (str "/bin/burp_ca")) (Some (str "/csr")) (Some (str "/c/ca.pem")) (Some (str "/c/cert.pem"))
  (Some (str "/c/key.pem")) (str "cl") (str "elsewhere") (str "/c/burp.conf") 77.
Definition ex_conf : bytes := str "mode = client" ++ 10 :: str "ssl_peer_cn = elsewhere" ++ 10 :: str "password = a" ++ [10].
Definition ex_cf : fs := upd (upd (fun _ => None) (str "/c/burp.conf") (Some (File ex_conf))) (str "/c/cert.pem") (Some (File (str "old"))).
Definition ex_gen (args : list bytes) (f : fs) : bool * fs :=
  (true, upd (upd f (str "/c/key.pem") (Some (File (str "key")))) (str "/csr/cl.csr") (Some (File (str "request")))).
Definition ex_ce : env := mkenv ex_gen (fun _ => true) (fun _ => true) (fun _ => true) (fun _ => true) whole.

(* What each tells the other. *)
Definition ex_l : list msg := (CMD_GEN, str "csr") :: snd (send_file ex_z ex_ce [(CMD_GEN, str "csr")] (snd (ex_gen [] ex_cf)) (str "/csr/cl.csr")).
Definition ex_l' : list msg := r_out (maybe_sign ex_z ex_sc ex_se (str "2.4.0") (str "cl") ex_l ex_fs).

Lemma ex_leaves : leaves ex_se (str "/ca/CA_burpCA.crt") (File (str "the CA")).
Proof.
  intros args g H. unfold ex_se, ex_sign. cbn [v_script snd]. rewrite upd_other; [exact H|discriminate].
Qed.
Lemma whole_full : full whole.
Proof. intros o b. reflexivity. Qed.

(* ---- C120 ---- *)

Theorem C120_keeps : forall z c e ver client l f p n, f p = Some n -> leaves e p n ->
  r_fs (maybe_sign z c e ver client l f) p = Some n.
Proof. exact server_keeps. Qed.
Print Assumptions C120_keeps.
Example C120_keeps_witness : ex_fs (str "/ca/CA_burpCA.crt") = Some (File (str "the CA")) /\ leaves ex_se (str "/ca/CA_burpCA.crt") (File (str "the CA")).
Proof. split; [vm_compute; reflexivity|exact ex_leaves]. Qed.

Theorem C120_runs_partial : forall z c e ver client l f a,
  In a (r_runs (maybe_sign z c e ver client l f)) ->
  exists conf d l' g,
    s_ca_conf c = Some conf /\ get_ca_dir f conf = Some d /\ first_gen l = Some (str "csr", l') /\
    a = [s_burp_ca c; str "--name"; client; str "--ca"; s_ca_name c; str "--sign"; str "--batch";
         str "--dir"; d; str "--config"; conf] /\
    r_runs (maybe_sign z c e ver client l f) = [a] /\
    client <> s_ca_name c /\ f (csr_of d client) = None /\ f (crt_of d client) = None /\
    receive_file z e l' f (csr_of d client) = (true, upd f (csr_of d client) (Some (File (snd (receive_a_file z (v_wr e) l')))), g).
Proof. exact server_runs. Qed.
Print Assumptions C120_runs_partial.

(* The connection is lost before a single byte of the request has come, and it is signed
   all the same. *)
Theorem C120_whole_refuted : exists z c e ver client l f a, zlib_ok z /\ full (v_wr e) /\
  l = [(CMD_GEN, str "csr")] /\ In a (r_runs (maybe_sign z c e ver client l f)) /\
  r_ret (maybe_sign z c e ver client l f) = 1.
Proof.
  exists ex_z, ex_sc, ex_se, (str "2.4.0"), (str "cl"), [(CMD_GEN, str "csr")], ex_fs, (sign_args ex_sc (str "/ca") (str "/etc/CA.cnf") (str "cl")).
  split; [exact rle_ok|]. split; [exact whole_full|]. split; [reflexivity|]. split; [vm_compute; auto|vm_compute; reflexivity].
Qed.
Print Assumptions C120_whole_refuted.

Theorem C120_failed : forall z c e ver client l f conf d p,
  r_ret (maybe_sign z c e ver client l f) = -1 ->
  s_ca_conf c = Some conf -> get_ca_dir f conf = Some d -> p = csr_of d client \/ p = crt_of d client ->
  f p = None -> r_fs (maybe_sign z c e ver client l f) p = None \/ r_fs (maybe_sign z c e ver client l f) p = Some Dir.
Proof. exact server_failed. Qed.
Print Assumptions C120_failed.
Example C120_failed_witness :
  let e := mkenv ex_sign (fun l => (List.length l <? 2)%nat) (fun _ => true) (fun _ => true) (fun _ => true) whole in
  let r := maybe_sign ex_z ex_sc e (str "2.4.0") (str "cl") ex_l ex_fs in
  r_ret r = -1 /\ List.length (r_runs r) = 1%nat /\ r_fs r (str "/ca/cl.crt") = None /\
  csr_of (str "/ca") (str "cl") = str "/ca/cl.csr" /\ crt_of (str "/ca") (str "cl") = str "/ca/cl.crt" /\
  get_ca_dir ex_fs (str "/etc/CA.cnf") = Some (str "/ca").
Proof. vm_compute. repeat split; reflexivity. Qed.

Theorem C120_once : forall z c e e2 ver ver2 client l l2 f conf,
  r_ret (maybe_sign z c e ver client l f) = 1 -> s_ca_conf c = Some conf ->
  get_ca_dir (r_fs (maybe_sign z c e ver client l f)) conf = get_ca_dir f conf ->
  r_ret (maybe_sign z c e2 ver2 client l2 (r_fs (maybe_sign z c e ver client l f))) <> 1.
Proof. exact server_once. Qed.
Print Assumptions C120_once.
Example C120_once_witness :
  let r := maybe_sign ex_z ex_sc ex_se (str "2.4.0") (str "cl") ex_l ex_fs in
  r_ret r = 1 /\ r_fs r (str "/ca/cl.crt") = Some (File (str "signed request")) /\
  get_ca_dir (r_fs r) (str "/etc/CA.cnf") = get_ca_dir ex_fs (str "/etc/CA.cnf") /\
  r_out (maybe_sign ex_z ex_sc ex_se (str "2.4.0") (str "cl") ex_l (r_fs r))
    = [(CMD_ERROR, str "Will not accept a client certificate request for 'cl' - /ca/cl.crt already exists!")].
Proof. vm_compute. repeat split; reflexivity. Qed.

(* ---- C121 ---- *)

(* Missing: that success means this also when the connection is lost, refuted below. *)
Theorem C121_both_partial : forall z c e ver k e' f fk l l',
  zlib_ok z -> full (v_wr e) -> full (v_wr e') -> (List.length (s_server_name c) <= 248)%nat ->
  l = r_out (fst (client_setup z k e' l' fk)) -> l' = r_out (maybe_sign z c e ver (k_cname k) l f) ->
  r_ret (maybe_sign z c e ver (k_cname k) l f) = 1 -> r_ret (fst (client_setup z k e' l' fk)) = 1 ->
  exists prog dir ca cert key conf d csr crt cacert g,
    k_burp_ca k = Some prog /\ k_csr_dir k = Some dir /\ k_cert_ca k = Some ca /\ k_cert k = Some cert /\ k_key k = Some key /\
    s_ca_conf c = Some conf /\ get_ca_dir f conf = Some d /\
    v_script e' (gen_args prog key (csr_path dir (k_cname k)) (k_cname k)) fk = (true, g) /\
    content g (csr_path dir (k_cname k)) = Some csr /\
    v_script e (sign_args c d conf (k_cname k)) (upd f (csr_of d (k_cname k)) (Some (File csr)))
      = (true, r_fs (maybe_sign z c e ver (k_cname k) l f)) /\
    content (r_fs (maybe_sign z c e ver (k_cname k) l f)) (crt_of d (k_cname k)) = Some crt /\
    content (r_fs (maybe_sign z c e ver (k_cname k) l f)) (s_cert_ca c) = Some cacert /\
    snd (client_setup z k e' l' fk) = s_server_name c /\
    (NoDup [cert; ca; tmp_path cert (k_pid k); tmp_path ca (k_pid k); k_conf k; k_conf k ++ dot_pid (k_pid k)] ->
     r_fs (fst (client_setup z k e' l' fk)) cert = Some (File crt) /\
     r_fs (fst (client_setup z k e' l' fk)) ca = Some (File cacert)).
Proof. exact both_signed. Qed.
Print Assumptions C121_both_partial.
Example C121_both_witness :
  zlib_ok ex_z /\ full (v_wr ex_se) /\ full (v_wr ex_ce) /\
  ex_l = r_out (fst (client_setup ex_z ex_cc ex_ce ex_l' ex_cf)) /\
  ex_l' = r_out (maybe_sign ex_z ex_sc ex_se (str "2.4.0") (k_cname ex_cc) ex_l ex_fs) /\
  r_ret (maybe_sign ex_z ex_sc ex_se (str "2.4.0") (k_cname ex_cc) ex_l ex_fs) = 1 /\
  r_ret (fst (client_setup ex_z ex_cc ex_ce ex_l' ex_cf)) = 1 /\
  r_fs (fst (client_setup ex_z ex_cc ex_ce ex_l' ex_cf)) (str "/c/cert.pem") = Some (File (str "signed request")) /\
  r_fs (fst (client_setup ex_z ex_cc ex_ce ex_l' ex_cf)) (str "/c/ca.pem") = Some (File (str "the CA")) /\
  snd (client_setup ex_z ex_cc ex_ce ex_l' ex_cf) = str "burp" /\
  r_fs (fst (client_setup ex_z ex_cc ex_ce ex_l' ex_cf)) (str "/c/burp.conf")
    = Some (File (str "mode = client" ++ 10 :: str "ssl_peer_cn = burp" ++ 10 :: str "password = a" ++ [10])) /\
  tmp_path (str "/c/cert.pem") 77 = str "/c/cert.pem.77".
Proof.
  split; [exact rle_ok|]. split; [exact whole_full|]. split; [exact whole_full|].
  vm_compute. repeat split; reflexivity.
Qed.

(* The connection is lost after the server has agreed: the client says that all is well,
   with empty certificates, and as it has a key now it will never ask again. *)
Theorem C121_lost_refuted : exists z k e' fk l cert key, zlib_ok z /\ full (v_wr e') /\
  k_cert k = Some cert /\ k_key k = Some key /\ l = [(CMD_GEN, csr_ok (str "burp"))] /\
  r_ret (fst (client_setup z k e' l fk)) = 1 /\
  r_fs (fst (client_setup z k e' l fk)) cert = Some (File []) /\
  forall e2 l2, r_runs (fst (client_setup z k e2 l2 (r_fs (fst (client_setup z k e' l fk))))) = [].
Proof.
  exists ex_z, ex_cc, ex_ce, ex_cf, [(CMD_GEN, csr_ok (str "burp"))], (str "/c/cert.pem"), (str "/c/key.pem").
  split; [exact rle_ok|]. split; [exact whole_full|]. split; [reflexivity|]. split; [reflexivity|]. split; [reflexivity|].
  split; [vm_compute; reflexivity|]. split; [vm_compute; reflexivity|].
  intros e2 l2. apply (client_idle ex_z ex_cc e2 l2). left. intros key K. injection K as <-. vm_compute. discriminate.
Qed.
Print Assumptions C121_lost_refuted.

Theorem C121_idle : forall z c e l f,
  (forall key, k_key c = Some key -> f key <> None) \/ k_burp_ca c = None \/ k_csr_dir c = None \/ k_cert_ca c = None \/ k_cert c = None ->
  r_fs (fst (client_setup z c e l f)) = f /\ r_runs (fst (client_setup z c e l f)) = [] /\ snd (client_setup z c e l f) = k_peer_cn c /\
  (r_ret (fst (client_setup z c e l f)) = 0 <->
   r_out (fst (client_setup z c e l f)) = [(CMD_GEN, str "nocsr")] /\ exists l', l = (CMD_GEN, str "nocsr ok") :: l').
Proof. exact client_idle. Qed.
Print Assumptions C121_idle.
Example C121_idle_witness : forall key, k_key ex_cc = Some key -> upd ex_cf (str "/c/key.pem") (Some (File [])) key <> None.
Proof. intros key K. injection K as <-. vm_compute. discriminate. Qed.

(* Missing: that the files removed are those it made, refuted below. *)
Theorem C121_keeps_partial : forall z c e l f p n, f p = Some n -> leaves e p n -> ~ In p (client_paths c) ->
  r_fs (fst (client_setup z c e l f)) p = Some n.
Proof. exact client_keeps. Qed.
Print Assumptions C121_keeps_partial.
Example C121_keeps_witness : ~ In (str "/c/other") (client_paths ex_cc) /\ leaves ex_ce (str "/c/other") Dir.
Proof.
  split; [vm_compute; intuition discriminate|].
  intros args g H. unfold ex_ce, ex_gen. cbn [v_script snd]. rewrite !upd_other; [exact H|discriminate|discriminate].
Qed.

(* A link in the place of a file that is to come is not followed: the client fails. *)
Theorem C121_link : forall z c e l f cert ca p t, k_cert c = Some cert -> k_cert_ca c = Some ca ->
  p = tmp_path cert (k_pid c) \/ p = tmp_path ca (k_pid c) -> f p = Some (Link t) -> leaves e p (Link t) ->
  r_ret (fst (client_setup z c e l f)) <> 1.
Proof.
  intros z c e l f cert ca p t C A P F L. unfold client_setup. rewrite C, A.
  destruct (k_burp_ca c) as [prog|]; [|(destruct (v_write e []); [destruct (expect _ _ _)|]; cbn; lia)]. destruct (k_csr_dir c) as [dir|]; [|(destruct (v_write e []); [destruct (expect _ _ _)|]; cbn; lia)]. destruct (k_key c) as [key|]; [|(destruct (v_write e []); [destruct (expect _ _ _)|]; cbn; lia)].
  destruct (there f key). { destruct (v_write e []); [destruct (expect _ _ _)|]; cbn; lia. }
  destruct (v_write e []); [|cbn; lia]. cbn [negb]. destruct (first_gen l) as [[b l1]|]; [|cbn; lia].
  destruct (server_named b) as [cn|]; [|cbn; lia]. cbv zeta.
  specialize (L (gen_args prog key (csr_path dir (k_cname c)) (k_cname c)) f F).
  destruct (v_script e _ f) as [[] f1]; [|cbn; lia]. cbn [snd] in L.
  destruct (send_file z e _ f1 _) as [[] m]; [|cbn; lia].
  assert (R : forall l g q, g q = Some (Link t) -> receive_file z e l g q = (false, g, l)) by (intros l0 g q G; unfold receive_file; rewrite G; auto).
  destruct (list_eq_dec Z.eq_dec p (tmp_path cert (k_pid c))) as [E|N].
  - rewrite (R l1 f1 (tmp_path cert (k_pid c))) by (rewrite <- E; auto). cbn. lia.
  - destruct P as [P|P]; [congruence|].
    assert (K : snd (fst (receive_file z e l1 f1 (tmp_path cert (k_pid c)))) p = Some (Link t)).
    { unfold receive_file. destruct (f1 (tmp_path cert (k_pid c))) as [[]|]; try destruct (v_open e _); cbn [fst snd]; auto; rewrite upd_other; auto. }
    destruct (receive_file z e l1 f1 (tmp_path cert (k_pid c))) as [[[] f2] l2]; cbn [fst snd] in K; [|cbn; lia].
    rewrite (R l2 f2 (tmp_path ca (k_pid c))) by (rewrite <- P; auto). cbn. lia.
Qed.
Print Assumptions C121_link.
Definition ex_planted : fs := upd ex_cf (tmp_path (str "/c/cert.pem") (k_pid ex_cc)) (Some (Link (str "/etc/passwd"))).
Example C121_link_witness : k_cert ex_cc = Some (str "/c/cert.pem") /\ k_cert_ca ex_cc <> None /\ leaves ex_ce (tmp_path (str "/c/cert.pem") (k_pid ex_cc)) (Link (str "/etc/passwd")) /\ r_ret (fst (client_setup ex_z ex_cc ex_ce ex_l' ex_cf)) = 1 /\ r_ret (fst (client_setup ex_z ex_cc ex_ce ex_l' ex_planted)) = -1.
Proof.
  split; [reflexivity|]. split; [discriminate|]. split; [|split; vm_compute; reflexivity].
  intros args g H. unfold ex_ce, ex_gen. cbn [v_script snd]. rewrite !upd_other; [exact H| |]; vm_compute; discriminate.
Qed.

(* A certificate that was there before is removed when the making of a key fails. *)
Theorem C121_removed_refuted : exists z k e' fk l cert, k_cert k = Some cert /\ fk cert <> None /\
  (forall args g p, snd (v_script e' args g) p = g p) /\
  r_fs (fst (client_setup z k e' l fk)) cert = None.
Proof.
  exists ex_z, ex_cc, (mkenv (fun _ f => (false, f)) (fun _ => true) (fun _ => true) (fun _ => true) (fun _ => true) whole), ex_cf, ex_l', (str "/c/cert.pem").
  split; [reflexivity|]. split; [vm_compute; discriminate|]. split; [reflexivity|]. vm_compute. reflexivity.
Qed.
Print Assumptions C121_removed_refuted.

Theorem C121_again : forall z c e l f key, k_key c = Some key -> key <> [] -> f key = None ->
  r_ret (fst (client_setup z c e l f)) = -1 -> r_ub (fst (client_setup z c e l f)) = false ->
  r_fs (fst (client_setup z c e l f)) key = None \/ r_fs (fst (client_setup z c e l f)) key = Some Dir.
Proof. exact client_asks_again. Qed.
Print Assumptions C121_again.

(* The client could not put its certificate in place, and so will ask again; the server
   has signed, and refuses for ever. *)
Definition ex_ce_stuck : env := mkenv ex_gen (fun _ => true) (fun _ => true) (fun _ => true) (fun _ => false) whole.
Theorem C121_retry_refuted : exists z c e ver k e' f fk l l', zlib_ok z /\ full (v_wr e) /\ full (v_wr e') /\
  l = r_out (fst (client_setup z k e' l' fk)) /\ l' = r_out (maybe_sign z c e ver (k_cname k) l f) /\
  r_ret (fst (client_setup z k e' l' fk)) = -1 /\
  (forall key, k_key k = Some key -> r_fs (fst (client_setup z k e' l' fk)) key = None) /\
  forall e2 ver2 l2, r_ret (maybe_sign z c e2 ver2 (k_cname k) l2 (r_fs (maybe_sign z c e ver (k_cname k) l f))) <> 1.
Proof.
  exists ex_z, ex_sc, ex_se, (str "2.4.0"), ex_cc, ex_ce_stuck, ex_fs, ex_cf, ex_l, ex_l'.
  split; [exact rle_ok|]. split; [exact whole_full|]. split; [exact whole_full|].
  split; [vm_compute; reflexivity|]. split; [vm_compute; reflexivity|]. split; [vm_compute; reflexivity|].
  split; [intros key K; injection K as <-; vm_compute; reflexivity|].
  intros e2 ver2 l2. apply (server_once ex_z ex_sc ex_se e2 (str "2.4.0") ver2 _ ex_l l2 ex_fs (str "/etc/CA.cnf")); vm_compute; reflexivity.
Qed.
Print Assumptions C121_retry_refuted.
Example C121_again_witness :
  k_key ex_cc = Some (str "/c/key.pem") /\ ex_cf (str "/c/key.pem") = None /\
  r_ret (fst (client_setup ex_z ex_cc ex_ce_stuck ex_l' ex_cf)) = -1 /\ r_ub (fst (client_setup ex_z ex_cc ex_ce_stuck ex_l' ex_cf)) = false.
Proof. vm_compute. repeat split; reflexivity. Qed.

(* ---- C122 ---- *)

(* Missing: other names of servers, refuted below; longer lines. *)
Theorem C122_settings_partial : forall cn ls rest b', Forall plain ls -> plain rest -> good_name cn ->
  rewrite cn (text ls rest) = Some b' ->
  settings b' = map (fun s => if beqb (fst (fst s)) (str "ssl_peer_cn") then (str "ssl_peer_cn", cn, false) else s)
                    (settings (text ls rest)).
Proof. exact rewrite_settings. Qed.
Print Assumptions C122_settings_partial.
Theorem C122_text : forall cn ls rest b', Forall plain ls -> plain rest ->
  rewrite cn (text ls rest) = Some b' -> b' = new_text cn ls rest.
Proof. exact rewrite_text. Qed.
Print Assumptions C122_text.
Theorem C122_file : forall c e cn f g b, rewrite_client_conf c e cn f = (true, g, false) ->
  f (k_conf c) = Some (File b) ->
  exists b', rewrite cn b = Some b' /\ g (k_conf c) = Some (File b') /\ g (k_conf c ++ dot_pid (k_pid c)) = None.
Proof. exact conf_rewritten. Qed.
Print Assumptions C122_file.
Lemma ex_plain : Forall plain [str "mode = client"; str "ssl_peer_cn = elsewhere"; str "password = a"] /\ plain (str "# ssl_peer_cn = b").
Proof.
  assert (P : forall l, forallb (fun c => negb (c =? 10) && negb (c =? 0)) l = true -> Z.of_nat (List.length l) <= 4094 -> plain l).
  { intros l H L. rewrite forallb_forall in H. repeat split; auto; intros I; specialize (H _ I); discriminate. }
  split; [repeat apply Forall_cons; try apply Forall_nil|]; apply P; vm_compute; congruence.
Qed.
Example C122_witness :
  good_name (str "burp") /\
  text [str "mode = client"; str "ssl_peer_cn = elsewhere"; str "password = a"] [] = ex_conf /\
  rewrite (str "burp") ex_conf = Some (str "mode = client" ++ 10 :: str "ssl_peer_cn = burp" ++ 10 :: str "password = a" ++ [10]) /\
  settings ex_conf = [(str "mode", str "client", false); (str "ssl_peer_cn", str "elsewhere", false); (str "password", str "a", false)] /\
  fst (fst (rewrite_client_conf ex_cc ex_ce (str "burp") ex_cf)) = true /\ snd (rewrite_client_conf ex_cc ex_ce (str "burp") ex_cf) = false.
Proof.
  split; [|vm_compute; repeat split; reflexivity].
  unfold good_name. repeat split; vm_compute; intuition congruence.
Qed.

(* The name that the server sends may hold further lines for the configuration. *)
Theorem C122_lines_refuted : exists l' k e' fk cn, l' = (CMD_GEN, str "csr ok:" ++ cn) :: tl ex_l' /\
  r_ret (fst (client_setup ex_z k e' l' fk)) = 1 /\
  exists b, r_fs (fst (client_setup ex_z k e' l' fk)) (k_conf k) = Some (File b) /\
    In (str "backup_script_pre", str "/bin/evil", false) (settings b) /\
    forall b0, fk (k_conf k) = Some (File b0) -> ~ In (str "backup_script_pre", str "/bin/evil", false) (settings b0).
Proof.
  exists ((CMD_GEN, str "csr ok:" ++ str "burp" ++ 10 :: str "backup_script_pre = /bin/evil") :: tl ex_l'), ex_cc, ex_ce, ex_cf,
    (str "burp" ++ 10 :: str "backup_script_pre = /bin/evil").
  split; [reflexivity|]. split; [vm_compute; reflexivity|].
  exists (str "mode = client" ++ 10 :: str "ssl_peer_cn = burp" ++ 10 :: str "backup_script_pre = /bin/evil" ++ 10 :: str "password = a" ++ [10]).
  split; [vm_compute; reflexivity|]. split; [vm_compute; auto|].
  intros b0 H. injection H as <-. vm_compute. intuition discriminate.
Qed.
Print Assumptions C122_lines_refuted.

(* A new name with which the old one begins is not written, and the next connection
   fails as the old name is asked for. *)
Theorem C122_prefix_refuted : exists k e' fk l', r_ret (fst (client_setup ex_z k e' l' fk)) = 1 /\
  snd (client_setup ex_z k e' l' fk) = str "burp" /\
  r_fs (fst (client_setup ex_z k e' l' fk)) (k_conf k) = fk (k_conf k) /\
  (exists b, fk (k_conf k) = Some (File b) /\ settings b = [(str "ssl_peer_cn", str "burp2", false)]) /\
  forall cipher iss n v crl, check_cert cipher (Some (str "burp2")) (Some (mkx (Some (str "burp")) iss n)) v crl = false.
Proof.
  exists (mkcc (k_burp_ca ex_cc) (k_csr_dir ex_cc) (k_cert_ca ex_cc) (k_cert ex_cc) (k_key ex_cc) (str "cl") (str "burp2") (str "/c/burp.conf") 77),
    ex_ce, (upd ex_cf (str "/c/burp.conf") (Some (File (str "ssl_peer_cn=burp2")))), ex_l'.
  split; [vm_compute; reflexivity|]. split; [vm_compute; reflexivity|]. split; [vm_compute; reflexivity|].
  split; [eexists; split; [vm_compute; reflexivity|vm_compute; reflexivity]|].
  intros cipher iss n v crl. destruct v; vm_compute; reflexivity.
Qed.
Print Assumptions C122_prefix_refuted.

(* ---- C123 ---- *)

(* Missing: other common names, refuted below. *)
Theorem C123_name_partial : forall cipher name p verified crl_ok b,
  x_cn p = Some b -> cstr b -> (List.length b <= 255)%nat ->
  (check_cert cipher (Some name) (Some p) verified crl_ok = true <->
   verified = true /\ map tolower b = map tolower name /\ crl_ok p = true).
Proof. exact cert_checked. Qed.
Print Assumptions C123_name_partial.
Theorem C123_needed : forall cipher name peer verified crl_ok,
  check_cert cipher name peer verified crl_ok = true ->
  verified = true /\ name <> None /\ exists p, peer = Some p /\ crl_ok p = true.
Proof. exact cert_needed. Qed.
Print Assumptions C123_needed.

(* The name in the certificate goes on behind a NUL, or is longer than 255 bytes, or is
   missing while the configured one is the description of the cipher. *)
Theorem C123_name_refuted :
  (exists cipher p b, x_cn p = Some b /\ b <> str "cl" /\ map tolower b <> map tolower (str "cl") /\
     check_cert cipher (Some (str "cl")) (Some p) true (fun _ => true) = true) /\
  (exists cipher name p b, x_cn p = Some b /\ cstr b /\ map tolower b <> map tolower name /\
     check_cert cipher (Some name) (Some p) true (fun _ => true) = true) /\
  (exists cipher name p, x_cn p = None /\ check_cert cipher (Some name) (Some p) true (fun _ => true) = true).
Proof.
  split; [|split].
  - exists [], (mkx (Some (str "cl" ++ 0 :: str "ient")) [] 1), (str "cl" ++ 0 :: str "ient").
    split; [reflexivity|]. split; [discriminate|]. split; [discriminate|vm_compute; reflexivity].
  - exists [], (repeat 97 255), (mkx (Some (repeat 97 256)) [] 1), (repeat 97 256).
    split; [reflexivity|]. split; [apply cstrb_ok; vm_compute; reflexivity|]. split; [discriminate|vm_compute; reflexivity].
  - exists (str "AES"), (str "aes"), (mkx None [] 1). split; vm_compute; reflexivity.
Qed.
Print Assumptions C123_name_refuted.

Theorem C123_crl : forall pem f conf d name ca_crl p,
  get_ca_dir f conf = Some d -> name <> [] ->
  (verify_crl pem f true (Some conf) (Some name) ca_crl p = true <->
   exists b r, content f (get_crl_path ca_crl d name) = Some b /\ pem b = Some r /\
               l_issuer r = x_issuer p /\ ~ In (x_serial p) (l_serials r)).
Proof. exact crl_checked. Qed.
Print Assumptions C123_crl.
Theorem C123_crl_closed : forall pem f conf name ca_crl p,
  (forall c, conf = Some c -> get_ca_dir f c = None) -> verify_crl pem f true conf name ca_crl p = false.
Proof. exact crl_unreadable. Qed.
Print Assumptions C123_crl_closed.
Theorem C123_crl_off : forall pem f conf name ca_crl p, verify_crl pem f false conf name ca_crl p = true.
Proof. exact crl_off. Qed.
Print Assumptions C123_crl_off.
Example C123_witness :
  let f := upd ex_fs (str "/ca/CA_burpCA.crl") (Some (File (str "list"))) in
  let pem b := if beqb b (str "list") then Some (mkcrl (str "burpCA") [5; 9]) else None in
  let ok n := verify_crl pem f true (Some (str "/etc/CA.cnf")) (Some (str "burpCA")) None (mkx (Some (str "CL")) (str "burpCA") n) in
  ok 7 = true /\ ok 9 = false /\
  verify_crl pem f true (Some (str "/etc/CA.cnf")) (Some (str "burpCA")) None (mkx (Some (str "cl")) (str "other") 7) = false /\
  verify_crl pem ex_fs true (Some (str "/etc/CA.cnf")) (Some (str "burpCA")) None (mkx (Some (str "cl")) (str "burpCA") 7) = false /\
  check_cert [] (Some (str "cl")) (Some (mkx (Some (str "CL")) (str "burpCA") 7)) true (verify_crl pem f true (Some (str "/etc/CA.cnf")) (Some (str "burpCA")) None) = true /\
  check_cert [] (Some (str "cl")) (Some (mkx (Some (str "CL")) (str "burpCA") 5)) true (verify_crl pem f true (Some (str "/etc/CA.cnf")) (Some (str "burpCA")) None) = false.
Proof. vm_compute. repeat split; reflexivity. Qed.

(* ---- C124 ---- *)

Theorem C124_settled : forall p e f conf d,
  s_ca_conf (p_sc p) = Some conf -> get_ca_dir f conf = Some d ->
  f d = Some Dir -> f (p_dh p) <> None -> f (get_crl_path (p_crl p) d (s_ca_name (p_sc p))) <> None ->
  ca_server_setup p e f = mkres 0 f [] [] false.
Proof. exact setup_settled. Qed.
Print Assumptions C124_settled.

(* Missing: a directory that is reached through a link, refuted below. *)
Theorem C124_keeps_partial : forall p e f conf d q n,
  s_ca_conf (p_sc p) = Some conf -> get_ca_dir f conf = Some d ->
  f d = Some Dir -> leaves e d Dir -> f q = Some n -> leaves e q n ->
  r_fs (ca_server_setup p e f) q = Some n /\
  forall a, In a (r_runs (ca_server_setup p e f)) -> a = dh_args (p_sc p) d (p_dh p) \/ a = crl_args (p_sc p) d conf.
Proof. exact setup_keeps. Qed.
Print Assumptions C124_keeps_partial.

Theorem C124_links : forall p e d conf f g l,
  ca_init p e d conf f = (true, g, l) -> f d <> Some Dir ->
  NoDup [s_cert_ca (p_sc p); p_cert p; p_key p] ->
  let linked q t := firstn 1023 t = q \/ g q = Some (Link (firstn 1023 t)) in
  l = [init_args (p_sc p) d conf; key_args (p_sc p) d conf; own_args (p_sc p) d conf] /\
  linked (s_cert_ca (p_sc p)) (d ++ str "/CA_" ++ s_ca_name (p_sc p) ++ str ".crt") /\
  linked (p_cert p) (d ++ str "/" ++ s_server_name (p_sc p) ++ str ".crt") /\
  linked (p_key p) (d ++ str "/" ++ s_server_name (p_sc p) ++ str ".key").
Proof. exact init_links. Qed.
Print Assumptions C124_links.

(* What is cleared away when a new authority could not be made is its directory and nothing else. *)
Theorem C124_cleared : forall f d q, q <> d -> (forall r, q <> d ++ slash :: r) -> recursive_delete f d q = f q.
Proof.
  intros f d q A B. assert (E : beqb q d = false) by (destruct (beqb q d) eqn:E; auto; apply beqb_eq in E; congruence).
  assert (E2 : beqb d q = false) by (destruct (beqb d q) eqn:E2; auto; apply beqb_eq in E2; congruence).
  assert (U : unlink f d q = f q) by (unfold unlink; destruct d; auto; destruct (f _) as [[]|]; auto; unfold upd; rewrite ?E, ?E2; auto).
  unfold recursive_delete. destruct (f d) as [[]|] eqn:F; auto.
  rewrite E. cbn [orb]. destruct (starts_with q (d ++ [slash])) eqn:S; auto. exfalso.
  assert (H : forall p x, starts_with x p = true -> exists r, x = p ++ r).
  { induction p as [|a p IH]; intros x h; [exists x; auto|]. destruct x as [|b x]; cbn in h; [discriminate|]. apply andb_prop in h. destruct h as [K h]. apply Z.eqb_eq in K. subst b.
    destruct (IH x h) as [r ->]. exists r. auto. }
  destruct (H _ _ S) as [r ->]. apply (B r). rewrite <- app_assoc. auto.
Qed.
Print Assumptions C124_cleared.
Example C124_cleared_ex : let f := upd (upd (upd (fun _ => None) (str "/ca") (Some Dir)) (str "/ca/x") (Some (File []))) (str "/ca2") (Some (File [1])) in
  recursive_delete f (str "/ca") (str "/ca2") = Some (File [1]) /\ recursive_delete f (str "/ca") (str "/ca/x") = None.
Proof. vm_compute. auto. Qed.

Definition ex_pc : pconf := mkpc ex_sc (str "/etc/cert") (str "/etc/key") (str "/etc/dh") None.
Definition ex_done : fs := upd (upd ex_fs (str "/etc/dh") (Some (File []))) (str "/ca/CA_burpCA.crl") (Some (File [])).
(* A program that makes all it is asked for. *)
Definition ex_make (args : list bytes) (f : fs) : bool * fs :=
  (true, upd (upd (upd (upd f (str "/ca") (Some Dir)) (str "/ca/CA_burpCA.crt") (Some (File [1]))) (str "/ca/burp.crt") (Some (File [2])))
             (str "/ca/burp.key") (Some (File [3]))).
Definition ex_pe : env := mkenv ex_make (fun _ => true) (fun _ => true) (fun _ => true) (fun _ => true) whole.
Example C124_witness :
  ex_done (str "/ca") = Some Dir /\ get_ca_dir ex_done (str "/etc/CA.cnf") = Some (str "/ca") /\ ex_done (str "/etc/dh") <> None /\
  get_crl_path None (str "/ca") (str "burpCA") = str "/ca/CA_burpCA.crl" /\ leaves ex_pe (str "/ca") Dir /\
  (let r := ca_init ex_pc ex_pe (str "/ca") (str "/etc/CA.cnf") (upd ex_fs (str "/ca") None) in
   fst (fst r) = true /\ snd (fst r) (str "/etc/key") = Some (Link (str "/ca/burp.key")) /\ List.length (snd r) = 3%nat) /\
  List.length (r_runs (ca_server_setup ex_pc ex_pe (upd (upd ex_fs (str "/etc/dh") (Some (File []))) (str "/ca") None))) = 4%nat /\
  List.length (r_runs (ca_server_setup ex_pc ex_pe ex_fs)) = 2%nat.
Proof.
  split; [vm_compute; reflexivity|]. split; [vm_compute; reflexivity|]. split; [vm_compute; discriminate|].
  split; [vm_compute; reflexivity|]. split; [|vm_compute; repeat split; reflexivity].
  intros args g H. unfold ex_pe, ex_make. cbn [v_script snd].
  rewrite 3 upd_other by discriminate. apply upd_same.
Qed.

(* The directory of the authority is a link: everything is made again, and the link is
   removed when that fails; so is a certificate that cannot be replaced. *)
Theorem C124_link_refuted : exists p e f conf d real,
  s_ca_conf (p_sc p) = Some conf /\ get_ca_dir f conf = Some d /\ f d = Some (Link real) /\ f real = Some Dir /\
  (forall args g q, snd (v_script e args g) q = g q) /\
  In (init_args (p_sc p) d conf) (r_runs (ca_server_setup p e f)) /\ r_fs (ca_server_setup p e f) d = None.
Proof.
  exists ex_pc, (mkenv (fun _ f => (false, f)) (fun _ => true) (fun _ => true) (fun _ => true) (fun _ => true) whole),
    (upd (upd ex_done (str "/real") (Some Dir)) (str "/ca") (Some (Link (str "/real")))), (str "/etc/CA.cnf"), (str "/ca"), (str "/real").
  split; [reflexivity|]. split; [vm_compute; reflexivity|]. split; [vm_compute; reflexivity|]. split; [vm_compute; reflexivity|].
  split; [reflexivity|]. split; vm_compute; auto.
Qed.
Print Assumptions C124_link_refuted.
Theorem C124_removed_refuted : exists p e f q n,
  f q = Some n /\ q = s_cert_ca (p_sc p) /\ (forall args g q, snd (v_script e args g) q = g q) /\
  r_ret (ca_server_setup p e f) = -1 /\ r_fs (ca_server_setup p e f) q = None.
Proof.
  exists ex_pc, (mkenv (fun _ f => (true, f)) (fun _ => true) (fun _ => true) (fun _ => true) (fun _ => true) whole),
    (upd (upd ex_done (str "/ca") None) (str "/ca/CA_burpCA.crt") None), (str "/etc/cacert"), (Link (str "/ca/CA_burpCA.crt")).
  split; [vm_compute; reflexivity|]. split; [vm_compute; reflexivity|]. split; [reflexivity|]. split; vm_compute; reflexivity.
Qed.
Print Assumptions C124_removed_refuted.
