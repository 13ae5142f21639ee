(* Proofs about CaModel.v: what the server signs and keeps, what the client gets and
   keeps. *)
From Verif Require Import Bytes CmdModel FrameModel AuthModel BuModel UtilModel ConfModel RestoreModel CntrModel Phase2Model TransferModel TransferProofs TransferMoreProofs CaModel.

(* ---- files ---- *)

Lemma upd_same : forall f p n, upd f p n p = n.
Proof. intros. unfold upd. rewrite beqb_refl. reflexivity. Qed.
Lemma upd_other : forall f p n q, p <> q -> upd f p n q = f q.
Proof. intros. unfold upd. apply beqb_neq in H. rewrite H. reflexivity. Qed.
Lemma there_true : forall f p, there f p = true <-> f p <> None.
Proof. intros f p. unfold there. destruct (f p); split; intros; congruence. Qed.
Lemma there_false : forall f p, there f p = false <-> f p = None.
Proof. intros f p. unfold there. destruct (f p); split; intros; congruence. Qed.
Lemma unlink_other : forall f p q, p <> q -> unlink f p q = f q.
Proof.
  intros f p q H. unfold unlink. destruct p as [|c p]; auto.
  destruct (f (c :: p)) as [[]|]; auto; apply upd_other; auto.
Qed.
Lemma unlink_none : forall f p q, f q = None -> unlink f p q = None.
Proof.
  intros f p q H. unfold unlink. destruct p as [|c p]; auto.
  destruct (f (c :: p)) as [[]|]; auto; unfold upd; destruct (beqb _ _); auto.
Qed.
Lemma unlink_same : forall f p, p <> [] -> unlink f p p = None \/ unlink f p p = Some Dir.
Proof.
  intros f p H. unfold unlink. destruct p as [|c p]; [congruence|].
  destruct (f (c :: p)) as [[]|] eqn:E; rewrite ?upd_same; auto.
Qed.
Lemma unlink_sub : forall f p q, unlink f p q = f q \/ (q = p /\ unlink f p q = None).
Proof.
  intros f p q. destruct (beqb p q) eqn:E.
  - apply beqb_eq in E. subst q. unfold unlink. destruct p as [|c p]; auto.
    destruct (f (c :: p)) as [[]|] eqn:F; rewrite ?upd_same; auto.
  - left. apply unlink_other. intros ->. rewrite beqb_refl in E. discriminate.
Qed.
Lemma cleanup_other : forall ps f q, ~ In q ps -> cleanup f ps q = f q.
Proof.
  unfold cleanup. induction ps as [|p ps IH]; intros f q H; cbn [fold_left]; auto.
  rewrite IH; [apply unlink_other|]; firstorder.
Qed.

(* A file that the program ca_burp_ca leaves as it is. *)
Definition leaves (e : env) (p : bytes) (n : node) : Prop :=
  forall args g, g p = Some n -> snd (v_script e args g) p = Some n.

Lemma receive_file_other : forall z e l f p ok g r q, receive_file z e l f p = (ok, g, r) -> p <> q -> g q = f q.
Proof.
  intros z e l f p ok g r q H N. unfold receive_file in H.
  destruct (f p) as [[]|]; try (injection H as <- <- <-; reflexivity);
    (destruct (v_open e p); injection H as <- <- <-; auto using upd_other).
Qed.

(* ---- the server ---- *)

Lemma del_files_other : forall f crt csr q, crt <> q -> csr <> q -> del_files f crt csr q = f q.
Proof. intros. unfold del_files. rewrite !unlink_other; auto. Qed.

Theorem sign_keeps : forall z c e conf client l f p n, f p = Some n -> leaves e p n ->
  r_fs (sign_client_cert z c e conf client l f) p = Some n.
Proof.
  intros z c e conf client l f p n H K. unfold sign_client_cert.
  destruct (get_ca_dir f conf) as [d|]; auto.
  destruct (beqb client (s_ca_name c)); auto.
  destruct (there f (crt_of d client)) eqn:T1; auto. destruct (there f (csr_of d client)) eqn:T2; auto.
  apply there_false in T1, T2.
  assert (N1 : crt_of d client <> p) by congruence. assert (N2 : csr_of d client <> p) by congruence.
  destruct (v_write e []); cbn [negb]; auto.
  destruct (receive_file z e l f (csr_of d client)) as [[[] g] rest] eqn:R; cbn [r_fs].
  - pose proof (receive_file_other _ _ _ _ _ _ _ _ p R N2) as G. rewrite H in G.
    pose proof (K (sign_args c d conf client) g G) as G2.
    destruct (v_script e (sign_args c d conf client) g) as [[] g2]; cbn [snd r_fs] in *.
    + destruct (send_file z e _ g2 (crt_of d client)) as [[] m]; cbn [r_fs]; [|rewrite del_files_other; auto].
      destruct (send_file z e _ g2 (s_cert_ca c)) as [[] m2]; cbn [r_fs]; auto. rewrite del_files_other; auto.
    + rewrite del_files_other; auto.
  - rewrite del_files_other; auto. rewrite <- H. eapply receive_file_other; eauto.
Qed.

Theorem server_keeps : forall z c e ver client l f p n, f p = Some n -> leaves e p n ->
  r_fs (maybe_sign z c e ver client l f) p = Some n.
Proof.
  intros z c e ver client l f p n H K. unfold maybe_sign.
  destruct (version_to_long ver) as [v|]; auto. destruct (v <? 0); auto. destruct (v <? 10302); auto.
  destruct (first_gen l) as [[b l']|]; auto. destruct (beqb b (str "csr")).
  - destruct (s_ca_conf c) as [conf|]; auto. cbn [r_fs]. apply sign_keeps; auto.
  - destruct (beqb b (str "nocsr")); auto. destruct (v_write e []); auto.
Qed.

(* What the server runs, and when. *)
Theorem server_runs : forall z c e ver client l f a,
  In a (r_runs (maybe_sign z c e ver client l f)) ->
  exists conf d l' g,
    s_ca_conf c = Some conf /\ get_ca_dir f conf = Some d /\ first_gen l = Some (str "csr", l') /\
    a = [s_burp_ca c; str "--name"; client; str "--ca"; s_ca_name c; str "--sign"; str "--batch";
         str "--dir"; d; str "--config"; conf] /\
    r_runs (maybe_sign z c e ver client l f) = [a] /\
    client <> s_ca_name c /\ f (csr_of d client) = None /\ f (crt_of d client) = None /\
    receive_file z e l' f (csr_of d client) = (true, upd f (csr_of d client) (Some (File (snd (receive_a_file z (v_wr e) l')))), g).
Proof.
  intros z c e ver client l f a H. unfold maybe_sign in *.
  destruct (version_to_long ver) as [v|]; [|contradiction]. destruct (v <? 0); [contradiction|]. destruct (v <? 10302); [contradiction|].
  destruct (first_gen l) as [[b l']|]; [|contradiction]. destruct (beqb b (str "csr")) eqn:B.
  2: { destruct (beqb b (str "nocsr")); [|contradiction]. destruct (v_write e []); contradiction. }
  apply beqb_eq in B. subst b. destruct (s_ca_conf c) as [conf|]; [|contradiction]. cbn [r_runs] in *.
  exists conf. unfold sign_client_cert in *.
  destruct (get_ca_dir f conf) as [d|]; [|contradiction]. exists d, l'.
  destruct (beqb client (s_ca_name c)) eqn:N; [contradiction|].
  destruct (there f (crt_of d client)) eqn:T1; [contradiction|]. destruct (there f (csr_of d client)) eqn:T2; [contradiction|].
  apply there_false in T1, T2.
  destruct (v_write e []); cbn [negb] in *; [|contradiction].
  destruct (receive_file z e l' f (csr_of d client)) as [[[] g] rest] eqn:R; cbn [r_runs] in *; [|contradiction].
  exists rest.
  assert (Q : g = upd f (csr_of d client) (Some (File (snd (receive_a_file z (v_wr e) l'))))).
  { unfold receive_file in R. rewrite T2 in R. destruct (v_open e (csr_of d client)); [|discriminate]. injection R as _ <- _. reflexivity. }
  rewrite <- Q.
  assert (P : r_runs (match v_script e (sign_args c d conf client) g with
     | (true, f) => match send_file z e [(CMD_GEN, csr_ok (s_server_name c))] f (crt_of d client) with
       | (true, m) => match send_file z e ((CMD_GEN, csr_ok (s_server_name c)) :: m) f (s_cert_ca c) with
         | (true, m2) => mkres 0 f ((CMD_GEN, csr_ok (s_server_name c)) :: m ++ m2) [sign_args c d conf client] false
         | (false, m2) => mkres (-1) (del_files f (crt_of d client) (csr_of d client)) ((CMD_GEN, csr_ok (s_server_name c)) :: m ++ m2) [sign_args c d conf client] false end
       | (false, m) => mkres (-1) (del_files f (crt_of d client) (csr_of d client)) ((CMD_GEN, csr_ok (s_server_name c)) :: m) [sign_args c d conf client] false end
     | (false, f) => mkres (-1) (del_files f (crt_of d client) (csr_of d client)) [(CMD_GEN, csr_ok (s_server_name c))] [sign_args c d conf client] false end)
     = [sign_args c d conf client]).
  { destruct (v_script e (sign_args c d conf client) g) as [[] g2]; [|reflexivity].
    destruct (send_file z e [(CMD_GEN, csr_ok (s_server_name c))] g2 (crt_of d client)) as [[] m]; [|reflexivity].
    destruct (send_file z e _ g2 (s_cert_ca c)) as [[] m2]; reflexivity. }
  rewrite P in *. destruct H as [<-|[]].
  repeat split; auto. intros ->. rewrite beqb_refl in N. discriminate.
Qed.

(* What the server has done when it says that it signed. *)
Theorem server_signed : forall z c e ver client l f,
  r_ret (maybe_sign z c e ver client l f) = 1 ->
  exists conf d l' g g' r m1 m2,
    s_ca_conf c = Some conf /\ get_ca_dir f conf = Some d /\ first_gen l = Some (str "csr", l') /\
    client <> s_ca_name c /\ f (csr_of d client) = None /\ f (crt_of d client) = None /\
    g = upd f (csr_of d client) (Some (File (snd (receive_a_file z (v_wr e) l')))) /\
    receive_file z e l' f (csr_of d client) = (true, g, r) /\
    v_script e (sign_args c d conf client) g = (true, g') /\
    send_file z e [(CMD_GEN, csr_ok (s_server_name c))] g' (crt_of d client) = (true, m1) /\
    send_file z e ((CMD_GEN, csr_ok (s_server_name c)) :: m1) g' (s_cert_ca c) = (true, m2) /\
    maybe_sign z c e ver client l f =
      mkres 1 g' ((CMD_GEN, csr_ok (s_server_name c)) :: m1 ++ m2) [sign_args c d conf client] false.
Proof.
  intros z c e ver client l f H. unfold maybe_sign in *.
  destruct (version_to_long ver) as [v|]; [|discriminate]. destruct (v <? 0); [discriminate|]. destruct (v <? 10302); [discriminate|].
  destruct (first_gen l) as [[b l']|]; [|discriminate]. destruct (beqb b (str "csr")) eqn:B.
  2: { destruct (beqb b (str "nocsr")); [|discriminate]. destruct (v_write e []); discriminate. }
  apply beqb_eq in B. subst b. destruct (s_ca_conf c) as [conf|]; [|discriminate]. cbn [r_ret] in *.
  exists conf. unfold sign_client_cert in *.
  destruct (get_ca_dir f conf) as [d|]; [|discriminate]. exists d, l'.
  destruct (beqb client (s_ca_name c)) eqn:N; [discriminate|].
  destruct (there f (crt_of d client)) eqn:T1; [discriminate|]. destruct (there f (csr_of d client)) eqn:T2; [discriminate|].
  apply there_false in T1, T2.
  destruct (v_write e []); cbn [negb] in *; [|discriminate].
  destruct (receive_file z e l' f (csr_of d client)) as [[[] g] rest] eqn:R; cbn [r_ret] in *; [|discriminate].
  assert (Q : g = upd f (csr_of d client) (Some (File (snd (receive_a_file z (v_wr e) l'))))).
  { unfold receive_file in R. rewrite T2 in R. destruct (v_open e (csr_of d client)); [|discriminate]. injection R as _ <- _. reflexivity. }
  destruct (v_script e (sign_args c d conf client) g) as [[] g2] eqn:S; [|discriminate].
  destruct (send_file z e [(CMD_GEN, csr_ok (s_server_name c))] g2 (crt_of d client)) as [[] m] eqn:M1; [|discriminate].
  destruct (send_file z e _ g2 (s_cert_ca c)) as [[] m2] eqn:M2; [|discriminate].
  exists g, g2, rest, m, m2. repeat split; auto.
  intros ->. rewrite beqb_refl in N. discriminate.
Qed.

Lemma path_nonempty : forall d client ext, in_ca_dir d client ext <> [].
Proof. intros d client ext. unfold in_ca_dir. destruct d; cbn; discriminate. Qed.

(* When it fails, what it made is gone again. *)
Theorem server_failed : forall z c e ver client l f conf d p,
  r_ret (maybe_sign z c e ver client l f) = -1 ->
  s_ca_conf c = Some conf -> get_ca_dir f conf = Some d -> p = csr_of d client \/ p = crt_of d client ->
  f p = None -> r_fs (maybe_sign z c e ver client l f) p = None \/ r_fs (maybe_sign z c e ver client l f) p = Some Dir.
Proof.
  intros z c e ver client l f conf d p H C G P F. unfold maybe_sign in *.
  destruct (version_to_long ver) as [v|]; auto. destruct (v <? 0); auto. destruct (v <? 10302); auto.
  destruct (first_gen l) as [[b l']|]; auto. destruct (beqb b (str "csr")) eqn:B.
  2: { destruct (beqb b (str "nocsr")); auto. destruct (v_write e []); auto. }
  rewrite C in *. cbn [r_ret r_fs] in *.
  assert (D : forall g, del_files g (crt_of d client) (csr_of d client) p = None
                        \/ del_files g (crt_of d client) (csr_of d client) p = Some Dir).
  { intros g. unfold del_files. destruct P as [-> | ->].
    - apply unlink_same. apply path_nonempty.
    - destruct (unlink_sub (unlink g (crt_of d client)) (csr_of d client) (crt_of d client)) as [-> | [_ ->]]; auto.
      apply unlink_same. apply path_nonempty. }
  unfold sign_client_cert in *. rewrite G in *.
  destruct (beqb client (s_ca_name c)); auto.
  destruct (there f (crt_of d client)); auto. destruct (there f (csr_of d client)); auto.
  destruct (v_write e []); cbn [negb] in *; auto.
  destruct (receive_file z e l' f (csr_of d client)) as [[[] g] rest]; cbn [r_fs]; auto.
  destruct (v_script e (sign_args c d conf client) g) as [[] g2]; cbn [r_fs]; auto.
  destruct (send_file z e [(CMD_GEN, csr_ok (s_server_name c))] g2 (crt_of d client)) as [[] m]; cbn [r_fs]; auto.
  destruct (send_file z e _ g2 (s_cert_ca c)) as [[] m2]; cbn [r_fs r_ret] in *; auto.
  discriminate.
Qed.

Lemma content_there : forall f p b, content f p = Some b -> f p <> None.
Proof. intros f p b H. unfold content in H. cbn [content_n] in H. destruct (f p); congruence. Qed.

(* Once signed, never again (until the files are removed by hand). *)
Theorem server_once : forall z c e e2 ver ver2 client l l2 f conf,
  r_ret (maybe_sign z c e ver client l f) = 1 -> s_ca_conf c = Some conf ->
  get_ca_dir (r_fs (maybe_sign z c e ver client l f)) conf = get_ca_dir f conf ->
  r_ret (maybe_sign z c e2 ver2 client l2 (r_fs (maybe_sign z c e ver client l f))) <> 1.
Proof.
  intros z c e e2 ver ver2 client l l2 f conf H C G X.
  destruct (server_signed _ _ _ _ _ _ _ H) as (conf1 & d & l' & g & g' & r & m1 & m2 & C1 & D & _ & _ & _ & _ & _ & _ & _ & M1 & _ & E).
  rewrite E in X, G. cbn [r_fs] in X, G.
  destruct (server_signed _ _ _ _ _ _ _ X) as (conf2 & d2 & l3 & g2 & g3 & r2 & n1 & n2 & C2 & D2 & _ & _ & _ & T & _).
  assert (conf1 = conf) by congruence. assert (conf2 = conf) by congruence. subst conf1 conf2.
  rewrite G, D in D2. injection D2 as <-.
  unfold send_file in M1. destruct (content g' (crt_of d client)) as [b|] eqn:B; [|discriminate].
  apply content_there in B. congruence.
Qed.

(* ---- messages of a file among others ---- *)

Lemma send_a_file_wire : forall z o cs l, zlib_ok z -> Forall (fun b : bytes => b <> []) cs ->
  send_a_file z o (map Some cs) = (SEND_OK, l) -> exists n sum, wire l (z_fin z (concat cs)) (endfile n sum).
Proof.
  intros z o cs l Z F H. unfold send_a_file in H. rewrite cut_map in H.
  assert (KN : forall k0, None = Some k0 -> cipher_ok k0) by discriminate.
  assert (N : never_stops o false) by discriminate.
  assert (S0 : sending None (mksnd [] [] []) []) by (split; [split; auto|exact I]).
  destruct (gz_loop z o false None true (map Some cs) [] 0 0 (mksnd [] [] [])) as [m s|m s|m s|m s] eqn:E; try discriminate.
  - destruct (gz_loop_spec _ _ _ _ _ Z KN _ _ _ _ _ _ _ _ F E S0) as (bs & [B _] & P & _ & _); auto.
    + intros _. split; auto. exists (z_def z []). reflexivity.
    + cbn [passed app packed] in P. rewrite <- P.
      eexists m, _. apply (end_of_file_wire _ _ _ _ _ _ bs H); [discriminate|exact B].
  - exfalso. eapply gz_loop_no_stop; eauto.
  - exfalso. clear - E F.
    revert E. generalize (@nil Z) at 1. generalize 0%nat. generalize 0. generalize (mksnd [] [] []).
    induction cs as [|b cs IH]; intros s0 n0 g fed E; cbn [map gz_loop] in E.
    + destruct (send_pieces o false None _ _); discriminate.
    + inversion F; subst. destruct b as [|y b]; [congruence|].
      destruct (send_pieces o false None _ _); try discriminate. eapply IH; eauto.
Qed.

Lemma transfer_more : forall z w l t r out, transfer_in_loop z w l r = TGo out ->
  transfer_in_loop z w (l ++ t) r = TGo out /\ transfer_rest z w (l ++ t) r = transfer_rest z w l r ++ t.
Proof.
  intros z w l t. induction l as [|[cmd b] l IH]; intros r out H; cbn [app transfer_in_loop transfer_rest] in *; [discriminate|].
  destruct (cmd =? CMD_APPEND).
  { destruct (do_inflate z (ToFile w) false false b r); try discriminate. eapply IH; eauto. }
  destruct (cmd =? CMD_END_FILE); auto.
  destruct ((cmd =? CMD_MESSAGE) || (cmd =? CMD_WARNING)); [|discriminate]. eapply IH; eauto.
Qed.
Lemma rest_wire : forall z w bs e r out, transfer_in_loop z w (map app_msg bs ++ [(CMD_END_FILE, e)]) r = TGo out ->
  transfer_rest z w (map app_msg bs ++ [(CMD_END_FILE, e)]) r = [].
Proof.
  intros z w bs e. induction bs as [|b bs IH]; intros r out H; cbn [map app transfer_in_loop transfer_rest] in *.
  - change (CMD_END_FILE =? CMD_APPEND) with false. reflexivity.
  - unfold app_msg at 1. unfold app_msg in H at 1. cbn [transfer_in_loop transfer_rest] in *.
    rewrite Z.eqb_refl in *. destruct (do_inflate z (ToFile w) false false b r); try discriminate. eapply IH; eauto.
Qed.

(* A file that was sent without error arrives, and what follows it is left to be read. *)
Theorem file_arrives : forall z e e' pre f p l t b, zlib_ok z -> full (v_wr e') ->
  content f p = Some b -> send_file z e pre f p = (true, l) ->
  snd (receive_a_file z (v_wr e') (l ++ t)) = b /\ transferred z (v_wr e') (l ++ t) = true /\
  transfer_rest z (v_wr e') (l ++ t) (mkrcv [] 0 [] []) = t.
Proof.
  intros z e e' pre f p l t b Z W C H. unfold send_file in H. rewrite C in H.
  destruct (send_a_file z _ (map Some (chunks b))) as [[] m] eqn:S; try discriminate. injection H as ->.
  destruct (send_a_file_wire _ _ _ _ Z (forall_nonempty b) S) as (n & sum & bs & E & _ & CC).
  assert (T : transfer_in_loop z (v_wr e') l (mkrcv [] 0 [] []) = TGo b).
  { rewrite transfer_in_eq, E. pose proof Z as (_ & _ & _ & _ & I).
    rewrite (transfer_plain z (ToFile (v_wr e')) false bs _ [] (mkrcv [] 0 [] []) [] Z (got_start z false Z));
      cbn [app]; rewrite CC, I; cbn [fst snd]; auto. rewrite chunks_concat. reflexivity. }
  destruct (transfer_more _ _ _ t _ _ T) as [T1 T2].
  unfold receive_a_file, transferred. rewrite T1. split; [reflexivity|]. split; [reflexivity|].
  rewrite T2. rewrite E in *. rewrite (rest_wire _ _ _ _ _ _ T). reflexivity.
Qed.

(* ---- the client ---- *)

Lemma cleanup_none : forall ps f p, f p = None \/ f p = Some Dir -> cleanup f ps p = None \/ cleanup f ps p = Some Dir.
Proof.
  unfold cleanup. induction ps as [|q ps IH]; intros f p H; cbn [fold_left]; auto.
  apply IH. destruct (unlink_sub f q p) as [-> | [_ ->]]; auto.
Qed.
Lemma cleanup_in : forall ps f p, In p ps -> p <> [] -> cleanup f ps p = None \/ cleanup f ps p = Some Dir.
Proof.
  induction ps as [|q ps IH]; intros f p H N; [contradiction|].
  change (cleanup f (q :: ps)) with (cleanup (unlink f q) ps).
  destruct (beqb q p) eqn:E.
  - apply beqb_eq in E. subst q. apply cleanup_none. apply unlink_same; auto.
  - apply beqb_neq in E. destruct H as [->|H]; [congruence|]. apply IH; auto.
Qed.

Lemma rename_other : forall ok f a b g q, rename ok f a b = Some g -> a <> q -> b <> q -> g q = f q.
Proof.
  intros ok f a b g q H A B. unfold rename in H.
  destruct (f a) as [[]|]; try discriminate; (destruct ok; cbn [negb] in H; [|discriminate]);
    (destruct (beqb a b); [injection H as <-; reflexivity|]);
    destruct (f b) as [[]|]; try discriminate; injection H as <-; rewrite !upd_other; auto.
Qed.
Lemma rename_to : forall ok f a b g, rename ok f a b = Some g -> g b = f a.
Proof.
  intros ok f a b g H. unfold rename in H.
  destruct (f a) as [[]|] eqn:A; try discriminate; (destruct ok; cbn [negb] in H; [|discriminate]);
    (destruct (beqb a b) eqn:E; [apply beqb_eq in E; subst b; injection H as <-; auto|]);
    destruct (f b) as [[]|]; try discriminate; injection H as <-; apply upd_same.
Qed.
Lemma rewrite_conf_other : forall c e cn f ok g ub q, rewrite_client_conf c e cn f = (ok, g, ub) ->
  k_conf c <> q -> k_conf c ++ dot_pid (k_pid c) <> q -> g q = f q.
Proof.
  intros c e cn f ok g ub q H A B. unfold rewrite_client_conf in H.
  set (tmp := k_conf c ++ dot_pid (k_pid c)) in *.
  destruct (content f (k_conf c)) as [b|]; [|injection H as <- <- <-; apply unlink_other; auto].
  assert (Q : forall g, unlink f tmp = g -> g q = f q) by (intros ? <-; apply unlink_other; auto).
  destruct (f tmp) as [[]|]; try (injection H as _ H _; apply Q; auto; fail);
    (destruct (v_open e tmp); cbn [negb] in H; [|injection H as _ H _; apply Q; auto; fail]);
    (destruct (rewrite cn b) as [b'|]; [|injection H as _ H _; congruence]);
    (destruct (v_close e tmp); cbn [negb] in H; [|injection H as _ <- _; rewrite unlink_other; auto; apply upd_other; auto]);
    (destruct (beqb b b'); [injection H as _ <- _; rewrite unlink_other; auto; apply upd_other; auto|]);
    (destruct (rename (v_ren e (k_conf c)) _ tmp (k_conf c)) as [h|] eqn:R;
      [|injection H as _ <- _; rewrite unlink_other; auto; apply upd_other; auto]);
    injection H as _ <- _; rewrite (rename_other _ _ _ _ _ q R) by auto; apply upd_other; auto.
Qed.

(* What the client has done when it says that all is well. *)
Theorem client_signed : forall z c e l f,
  r_ret (fst (client_setup z c e l f)) = 1 ->
  exists prog dir ca cert key b l1 cn g m g1 l2 g2 l3 g3 g4,
    k_burp_ca c = Some prog /\ k_csr_dir c = Some dir /\ k_cert_ca c = Some ca /\ k_cert c = Some cert /\ k_key c = Some key /\
    f key = None /\ first_gen l = Some (b, l1) /\ server_named b = Some cn /\
    v_script e (gen_args prog key (csr_path dir (k_cname c)) (k_cname c)) f = (true, g) /\
    send_file z e [(CMD_GEN, str "csr")] g (csr_path dir (k_cname c)) = (true, m) /\
    receive_file z e l1 g (tmp_path cert (k_pid c)) = (true, g1, l2) /\
    receive_file z e l2 g1 (tmp_path ca (k_pid c)) = (true, g2, l3) /\
    rename (v_ren e cert) g2 (tmp_path cert (k_pid c)) cert = Some g3 /\
    rename (v_ren e ca) g3 (tmp_path ca (k_pid c)) ca = Some g4 /\
    snd (client_setup z c e l f) = cn /\
    r_out (fst (client_setup z c e l f)) = (CMD_GEN, str "csr") :: m /\
    r_ub (fst (client_setup z c e l f)) = false /\
    (if starts_with (k_peer_cn c) cn then r_fs (fst (client_setup z c e l f)) = g4
     else rewrite_client_conf c e cn g4 = (true, r_fs (fst (client_setup z c e l f)), false)).
Proof.
  intros z c e l f H. unfold client_setup in *.
  assert (NO : r_ret (if v_write e [] then mkres (if expect CMD_GEN (str "nocsr ok") l then 0 else -1) f [(CMD_GEN, str "nocsr")] [] false
       else mkres (-1) f [] [] false) <> 1).
  { destruct (v_write e []); cbn [r_ret]; [|lia]. destruct (expect _ _ _); lia. }
  destruct (k_burp_ca c) as [prog|]; [|exfalso; exact (NO H)]. destruct (k_csr_dir c) as [dir|]; [|exfalso; exact (NO H)].
  destruct (k_cert_ca c) as [ca|]; [|exfalso; exact (NO H)]. destruct (k_cert c) as [cert|]; [|exfalso; exact (NO H)].
  destruct (k_key c) as [key|]; [|exfalso; exact (NO H)].
  exists prog, dir, ca, cert, key.
  destruct (there f key) eqn:T; [exfalso; exact (NO H)|]. apply there_false in T.
  destruct (v_write e []); cbn [negb] in *; [|discriminate].
  destruct (first_gen l) as [[b l1]|]; [|discriminate].
  destruct (server_named b) as [cn|] eqn:SN; [|discriminate].
  destruct (v_script e _ f) as [[] g] eqn:S; [|discriminate].
  destruct (send_file z e _ g _) as [[] m] eqn:SF; [|discriminate].
  destruct (receive_file z e l1 g _) as [[[] g1] l2] eqn:R1; [|discriminate].
  destruct (receive_file z e l2 g1 _) as [[[] g2] l3] eqn:R2; [|discriminate].
  destruct (rename _ g2 _ cert) as [g3|] eqn:N1; [|discriminate].
  destruct (rename _ g3 _ ca) as [g4|] eqn:N2; [|discriminate].
  exists b, l1, cn, g, m, g1, l2, g2, l3, g3, g4.
  destruct (starts_with (k_peer_cn c) cn) eqn:P.
  - cbn [fst snd r_fs r_out r_ub]. repeat (split; [auto|]). auto.
  - destruct (rewrite_client_conf c e cn g4) as [[[] g5] []] eqn:W; try discriminate.
    cbn [fst snd r_fs r_out r_ub]. repeat (split; [auto|]). auto.
Qed.

(* A client that has a key, or is not set up for it, changes nothing. *)
Theorem client_idle : forall z c e l f,
  (forall key, k_key c = Some key -> f key <> None) \/ k_burp_ca c = None \/ k_csr_dir c = None \/ k_cert_ca c = None \/ k_cert c = None ->
  r_fs (fst (client_setup z c e l f)) = f /\ r_runs (fst (client_setup z c e l f)) = [] /\ snd (client_setup z c e l f) = k_peer_cn c /\
  (r_ret (fst (client_setup z c e l f)) = 0 <->
   r_out (fst (client_setup z c e l f)) = [(CMD_GEN, str "nocsr")] /\ exists l', l = (CMD_GEN, str "nocsr ok") :: l').
Proof.
  intros z c e l f H.
  assert (NO : client_setup z c e l f = (if v_write e [] then mkres (if expect CMD_GEN (str "nocsr ok") l then 0 else -1) f [(CMD_GEN, str "nocsr")] [] false
       else mkres (-1) f [] [] false, k_peer_cn c)).
  { unfold client_setup.
    destruct (k_burp_ca c) as [prog|]; auto. destruct (k_csr_dir c) as [dir|]; auto.
    destruct (k_cert_ca c) as [ca|]; auto. destruct (k_cert c) as [cert|]; auto.
    destruct (k_key c) as [key|]; auto. destruct (there f key) eqn:T; auto.
    apply there_false in T. destruct H as [H|[H|[H|[H|H]]]]; try discriminate. specialize (H key eq_refl). contradiction. }
  rewrite NO. cbn [fst snd]. destruct (v_write e []); cbn [r_fs r_runs r_ret r_out]; repeat (split; [reflexivity|]).
  - unfold expect. destruct l as [|[cm b] l]; [split; intros H0; [lia|destruct H0 as (_ & l' & X); discriminate]|].
    destruct (cm =? CMD_GEN) eqn:E1; cbn [andb].
    + apply Z.eqb_eq in E1. subst cm. destruct (beqb b (str "nocsr ok")) eqn:E2.
      * apply beqb_eq in E2. subst b. split; eauto.
      * apply beqb_neq in E2. split; [lia|]. intros (_ & l' & X). congruence.
    + apply Z.eqb_neq in E1. split; [lia|]. intros (_ & l' & X). congruence.
  - split; [lia|]. intros (X & _). discriminate.
Qed.

(* Where the client leaves its traces. *)
Definition client_paths (c : cconf) : list bytes :=
  [k_conf c; k_conf c ++ dot_pid (k_pid c)] ++
  match k_csr_dir c with Some d => [csr_path d (k_cname c)] | None => [] end ++
  match k_key c with Some k => [k] | None => [] end ++
  match k_cert c with Some p => [p; tmp_path p (k_pid c)] | None => [] end ++
  match k_cert_ca c with Some p => [p; tmp_path p (k_pid c)] | None => [] end.

Theorem client_keeps : forall z c e l f p n, f p = Some n -> leaves e p n -> ~ In p (client_paths c) ->
  r_fs (fst (client_setup z c e l f)) p = Some n.
Proof.
  intros z c e l f p n H L N. unfold client_setup, client_paths in *.
  assert (NO : r_fs (if v_write e [] then mkres (if expect CMD_GEN (str "nocsr ok") l then 0 else -1) f [(CMD_GEN, str "nocsr")] [] false
       else mkres (-1) f [] [] false) p = Some n) by (destruct (v_write e []); auto).
  destruct (k_burp_ca c) as [prog|]; auto. destruct (k_csr_dir c) as [dir|]; auto.
  destruct (k_cert_ca c) as [ca|]; auto. destruct (k_cert c) as [cert|]; auto.
  destruct (k_key c) as [key|]; auto. cbn [app In] in N.
  destruct (there f key); auto. destruct (v_write e []); cbn [negb]; auto.
  destruct (first_gen l) as [[b l1]|]; auto. destruct (server_named b) as [cn|]; auto.
  pose proof (L (gen_args prog key (csr_path dir (k_cname c)) (k_cname c)) f H) as G.
  destruct (v_script e _ f) as [[] g]; cbn [snd] in G.
  2: { cbn [fst r_fs]. rewrite cleanup_other; auto. cbn [In]. tauto. }
  destruct (send_file z e _ g _) as [[] m].
  2: { cbn [fst r_fs]. rewrite cleanup_other; auto. cbn [In]. tauto. }
  assert (X : forall h, h p = Some n ->
    cleanup h ([csr_path dir (k_cname c); key; cert; ca] ++ [tmp_path cert (k_pid c); tmp_path ca (k_pid c)]) p = Some n).
  { intros h E. rewrite cleanup_other; auto. cbn [In app]. tauto. }
  destruct (receive_file z e l1 g _) as [[ok1 g1] l2] eqn:R1.
  assert (G1 : g1 p = Some n) by (rewrite (receive_file_other _ _ _ _ _ _ _ _ p R1); auto; tauto).
  destruct ok1; [|cbn [fst r_fs]; auto].
  destruct (receive_file z e l2 g1 _) as [[ok2 g2] l3] eqn:R2.
  assert (G2 : g2 p = Some n) by (rewrite (receive_file_other _ _ _ _ _ _ _ _ p R2); auto; tauto).
  destruct ok2; [|cbn [fst r_fs]; auto].
  destruct (rename _ g2 _ cert) as [g3|] eqn:N1; [|cbn [fst r_fs]; auto].
  assert (G3 : g3 p = Some n) by (rewrite (rename_other _ _ _ _ _ p N1); auto; tauto).
  destruct (rename _ g3 _ ca) as [g4|] eqn:N2; [|cbn [fst r_fs]; auto].
  assert (G4 : g4 p = Some n) by (rewrite (rename_other _ _ _ _ _ p N2); auto; tauto).
  destruct (starts_with (k_peer_cn c) cn); [cbn [fst r_fs]; auto|].
  destruct (rewrite_client_conf c e cn g4) as [[ok g5] ub] eqn:W.
  assert (G5 : g5 p = Some n) by (rewrite (rewrite_conf_other _ _ _ _ _ _ _ p W); auto; tauto).
  destruct ok, ub; cbn [fst r_fs]; auto.
Qed.

(* A client that failed has no key, so that it will ask again. *)
Theorem client_asks_again : forall z c e l f key, k_key c = Some key -> key <> [] -> f key = None ->
  r_ret (fst (client_setup z c e l f)) = -1 -> r_ub (fst (client_setup z c e l f)) = false ->
  r_fs (fst (client_setup z c e l f)) key = None \/ r_fs (fst (client_setup z c e l f)) key = Some Dir.
Proof.
  intros z c e l f key K NE F R U. unfold client_setup in *. rewrite K in *.
  assert (NO : r_fs (if v_write e [] then mkres (if expect CMD_GEN (str "nocsr ok") l then 0 else -1) f [(CMD_GEN, str "nocsr")] [] false
       else mkres (-1) f [] [] false) key = None) by (destruct (v_write e []); auto).
  destruct (k_burp_ca c) as [prog|]; auto. destruct (k_csr_dir c) as [dir|]; auto.
  destruct (k_cert_ca c) as [ca|]; auto. destruct (k_cert c) as [cert|]; auto.
  destruct (there f key); auto. destruct (v_write e []); cbn [negb] in *; auto.
  destruct (first_gen l) as [[b l1]|]; auto. destruct (server_named b) as [cn|]; auto.
  destruct (v_script e _ f) as [[] g].
  2: { cbn [fst r_fs]. apply cleanup_in; auto. cbn [In]. tauto. }
  destruct (send_file z e _ g _) as [[] m].
  2: { cbn [fst r_fs]. apply cleanup_in; auto. cbn [In]. tauto. }
  assert (X : forall h,
    cleanup h ([csr_path dir (k_cname c); key; cert; ca] ++ [tmp_path cert (k_pid c); tmp_path ca (k_pid c)]) key = None \/
    cleanup h ([csr_path dir (k_cname c); key; cert; ca] ++ [tmp_path cert (k_pid c); tmp_path ca (k_pid c)]) key = Some Dir).
  { intros h. apply cleanup_in; auto. cbn [In app]. tauto. }
  destruct (receive_file z e l1 g _) as [[[] g1] l2]; [|cbn [fst r_fs]; auto].
  destruct (receive_file z e l2 g1 _) as [[[] g2] l3]; [|cbn [fst r_fs]; auto].
  destruct (rename _ g2 _ cert) as [g3|]; [|cbn [fst r_fs]; auto].
  destruct (rename _ g3 _ ca) as [g4|]; [|cbn [fst r_fs]; auto].
  destruct (starts_with (k_peer_cn c) cn); [cbn [fst r_ret] in R; discriminate|].
  destruct (rewrite_client_conf c e cn g4) as [[[] g5] []]; cbn [fst r_fs r_ret r_ub] in *; try discriminate; auto.
Qed.

(* ---- both ---- *)

Lemma starts_with_app : forall a b, starts_with (a ++ b) a = true.
Proof. induction a as [|x a IH]; intros b; [destruct b; reflexivity|]. cbn. rewrite Z.eqb_refl. apply IH. Qed.

Lemma receive_file_ok : forall z e l f p g r, receive_file z e l f p = (true, g, r) ->
  g = upd f p (Some (File (snd (receive_a_file z (v_wr e) l)))) /\ r = transfer_rest z (v_wr e) l (mkrcv [] 0 [] []).
Proof.
  intros z e l f p g r H. unfold receive_file in H.
  destruct (f p) as [[]|]; try discriminate; (destruct (v_open e p); [|discriminate]); injection H as _ <- <-; auto.
Qed.

Theorem both_signed : forall z c e ver k e' f fk l l',
  zlib_ok z -> full (v_wr e) -> full (v_wr e') -> (List.length (s_server_name c) <= 248)%nat ->
  l = r_out (fst (client_setup z k e' l' fk)) -> l' = r_out (maybe_sign z c e ver (k_cname k) l f) ->
  r_ret (maybe_sign z c e ver (k_cname k) l f) = 1 -> r_ret (fst (client_setup z k e' l' fk)) = 1 ->
  exists prog dir ca cert key conf d csr crt cacert g,
    k_burp_ca k = Some prog /\ k_csr_dir k = Some dir /\ k_cert_ca k = Some ca /\ k_cert k = Some cert /\ k_key k = Some key /\
    s_ca_conf c = Some conf /\ get_ca_dir f conf = Some d /\
    v_script e' (gen_args prog key (csr_path dir (k_cname k)) (k_cname k)) fk = (true, g) /\
    content g (csr_path dir (k_cname k)) = Some csr /\
    v_script e (sign_args c d conf (k_cname k)) (upd f (csr_of d (k_cname k)) (Some (File csr)))
      = (true, r_fs (maybe_sign z c e ver (k_cname k) l f)) /\
    content (r_fs (maybe_sign z c e ver (k_cname k) l f)) (crt_of d (k_cname k)) = Some crt /\
    content (r_fs (maybe_sign z c e ver (k_cname k) l f)) (s_cert_ca c) = Some cacert /\
    snd (client_setup z k e' l' fk) = s_server_name c /\
    (NoDup [cert; ca; tmp_path cert (k_pid k); tmp_path ca (k_pid k); k_conf k; k_conf k ++ dot_pid (k_pid k)] ->
     r_fs (fst (client_setup z k e' l' fk)) cert = Some (File crt) /\
     r_fs (fst (client_setup z k e' l' fk)) ca = Some (File cacert)).
Proof.
  intros z c e ver k e' f fk l l' Z W W' LN EL EL' S K.
  destruct (server_signed _ _ _ _ _ _ _ S) as (conf & d & l2 & g & g' & r & m1 & m2 & C1 & C2 & C3 & _ & _ & _ & C4 & _ & C5 & M1 & M2 & E).
  destruct (client_signed _ _ _ _ _ K) as (prog & dir & ca & cert & key & b & l1 & cn & h & m & h1 & l3 & h2 & l4 & h3 & h4 &
    K1 & K2 & K3 & K4 & K5 & _ & F1 & F2 & V & SF & R1 & R2 & N1 & N2 & CN & OUT & _ & FIN).
  rewrite E in *. cbn [r_fs r_out] in *.
  unfold send_file in SF at 1. destruct (content h (csr_path dir (k_cname k))) as [csr|] eqn:CS; [|discriminate].
  assert (SF' : send_file z e' [(CMD_GEN, str "csr")] h (csr_path dir (k_cname k)) = (true, m)).
  { unfold send_file. rewrite CS. exact SF. }
  destruct (content g' (crt_of d (k_cname k))) as [crt|] eqn:CR; [|unfold send_file in M1; rewrite CR in M1; discriminate].
  destruct (content g' (s_cert_ca c)) as [cacert|] eqn:CA; [|unfold send_file in M2; rewrite CA in M2; discriminate].
  exists prog, dir, ca, cert, key, conf, d, csr, crt, cacert, h.
  rewrite OUT in EL. rewrite EL in C3. cbn [first_gen] in C3. rewrite Z.eqb_refl in C3. injection C3 as <-.
  destruct (file_arrives z e' e [(CMD_GEN, str "csr")] h _ m [] csr Z W CS SF') as (A1 & _ & _).
  rewrite app_nil_r in A1. rewrite A1 in C4. rewrite C4 in C5.
  rewrite EL' in F1. cbn [first_gen] in F1. rewrite Z.eqb_refl in F1. injection F1 as <- <-.
  assert (CN' : cn = s_server_name c).
  { unfold server_named, csr_ok in F2. rewrite firstn_all2 in F2.
    2: { rewrite app_length. replace (List.length (str "csr ok:")) with 7%nat by reflexivity. lia. }
    rewrite starts_with_app in F2. injection F2 as <-. reflexivity. }
  destruct (file_arrives z e e' _ g' _ m1 m2 crt Z W' CR M1) as (B1 & _ & B2).
  destruct (receive_file_ok _ _ _ _ _ _ _ R1) as [-> ->]. rewrite B1, B2 in *.
  destruct (file_arrives z e e' _ g' _ m2 [] cacert Z W' CA M2) as (D1 & _ & _). rewrite app_nil_r in D1.
  destruct (receive_file_ok _ _ _ _ _ _ _ R2) as [-> ->]. rewrite D1 in *.
  repeat (split; [first [eassumption|congruence]|]).
  intros ND. inversion_clear ND as [|? ? I1 ND1]. inversion_clear ND1 as [|? ? I2 ND2]. inversion_clear ND2 as [|? ? I3 ND3].
  inversion_clear ND3 as [|? ? I4 ND4]. cbn [In] in *.
  assert (G4 : h4 cert = Some (File crt) /\ h4 ca = Some (File cacert)).
  { split.
    - rewrite (rename_other _ _ _ _ _ cert N2) by (intro; intuition congruence). rewrite (rename_to _ _ _ _ _ N1).
      rewrite upd_other by (intro; intuition congruence). apply upd_same.
    - rewrite (rename_to _ _ _ _ _ N2). rewrite (rename_other _ _ _ _ _ _ N1) by (intro; intuition congruence). apply upd_same. }
  destruct (starts_with (k_peer_cn k) cn).
  - rewrite FIN. exact G4.
  - rewrite (rewrite_conf_other _ _ _ _ _ _ _ cert FIN) by (intro; intuition congruence). rewrite (rewrite_conf_other _ _ _ _ _ _ _ ca FIN) by (intro; intuition congruence). exact G4.
Qed.
