(* Proofs about CaModel.v: the configuration file of the client, the checks of
   certificates, and the setting up of the authority. *)
From Verif Require Import Bytes CmdModel FrameModel AuthModel BuModel UtilModel ConfModel RestoreModel CntrModel Phase2Model TransferModel CaModel CaProofs.

(* ---- the configuration file ---- *)

(* Lines without their ends, and what follows the last end of line. *)
Definition text (ls : list bytes) (rest : bytes) : bytes := concat (map (fun l => l ++ [10]) ls) ++ rest.
Definition plain (l : bytes) : Prop := ~ In 10 l /\ ~ In 0 l /\ Z.of_nat (List.length l) <= 4094.

Lemma gets_long : forall l k acc r, ~ In 10 l -> Z.of_nat (List.length l) < k ->
  gets k acc (l ++ 10 :: r) = (rev acc ++ l ++ [10]) :: gets 4095 [] r.
Proof.
  induction l as [|c l IH]; intros k acc r N K; cbn [app gets].
  - rewrite Z.eqb_refl. cbn [orb rev]. reflexivity.
  - cbn [List.length] in K. destruct (Z.eqb_spec c 10) as [->|E]; [exfalso; apply N; left; reflexivity|].
    destruct (Z.eqb_spec k 1); [lia|]. cbn [orb]. rewrite IH; [|firstorder|lia].
    cbn [rev]. rewrite <- !app_assoc. reflexivity.
Qed.
Lemma gets_last : forall l k acc, ~ In 10 l -> Z.of_nat (List.length l) < k ->
  gets k acc l = match rev acc ++ l with [] => [] | x => [x] end.
Proof.
  induction l as [|c l IH]; intros k acc N K; cbn [gets].
  - rewrite app_nil_r. destruct acc as [|x acc]; auto. destruct (rev (x :: acc)) eqn:E; auto.
    apply (f_equal (@List.length Z)) in E. rewrite rev_length in E. discriminate.
  - cbn [List.length] in K. destruct (Z.eqb_spec c 10) as [->|E]; [exfalso; apply N; left; reflexivity|].
    destruct (Z.eqb_spec k 1); [lia|]. cbn [orb]. rewrite IH; [|firstorder|lia].
    cbn [rev]. rewrite <- !app_assoc. reflexivity.
Qed.
Lemma lines_text : forall ls rest, Forall plain ls -> plain rest ->
  lines (text ls rest) = map (fun l => l ++ [10]) ls ++ match rest with [] => [] | _ => [rest] end.
Proof.
  unfold lines, text. induction ls as [|l ls IH]; intros rest F P; cbn [map concat app].
  - destruct P as (P1 & _ & P3). rewrite gets_last by (auto; lia). destruct rest; reflexivity.
  - inversion F as [|? ? [P1 [_ P3]] F2]; subst. rewrite <- !app_assoc. cbn [app].
    rewrite gets_long; auto; [|lia]. cbn [rev app]. rewrite IH; auto.
Qed.
Lemma to_nul_id : forall l, ~ In 0 l -> to_nul l = l.
Proof.
  induction l as [|c l IH]; intros N; cbn [to_nul]; auto.
  destruct (Z.eqb_spec c 0) as [->|_]; [exfalso; apply N; left; reflexivity|]. rewrite IH; auto. firstorder.
Qed.
Lemma plain_nul : forall l, plain l -> to_nul (l ++ [10]) = l ++ [10] /\ to_nul l = l.
Proof.
  intros l (_ & P & _). split; apply to_nul_id; auto. intros H. apply in_app_iff in H. destruct H as [H|[H|[]]]; [auto|lia].
Qed.

(* The settings that are read from a file. *)
Definition setting (l : bytes) : list (bytes * bytes * bool) :=
  match conf_get_pair (to_nul l) with PPair k v r => [(k, v, r)] | _ => [] end.
Definition settings (b : bytes) : list (bytes * bytes * bool) := flat_map setting (lines b).

(* A name that can be written as it is into a configuration file. *)
Definition good_name (cn : bytes) : Prop :=
  cn <> [] /\ ~ In 10 cn /\ ~ In 0 cn /\ Z.of_nat (List.length cn) <= 4000 /\
  isspace (hd0 cn) = false /\ isspace (hd0 (rev cn)) = false /\ hd0 cn <> 39 /\ hd0 cn <> 34.

Lemma skip_ws_id : forall s, isspace (hd0 s) = false -> skip_ws s = s.
Proof. intros [|c s] H; cbn [skip_ws hd0] in *; auto. rewrite H. reflexivity. Qed.
Lemma skip_back_id : forall p s, p (hd0 s) = false -> skip_back p s = s.
Proof. intros p [|c s] H; cbn [skip_back hd0] in *; auto. rewrite H. reflexivity. Qed.

Lemma named_line : forall cn, good_name cn ->
  conf_get_pair (str "ssl_peer_cn = " ++ cn ++ [10]) = PPair (str "ssl_peer_cn") cn false.
Proof.
  intros cn (N & _ & _ & _ & H1 & H2 & H3 & H4). unfold conf_get_pair.
  replace (skip_ws (str "ssl_peer_cn = " ++ cn ++ [10])) with (str "ssl_peer_cn = " ++ cn ++ [10]) by reflexivity.
  replace ((hd0 (str "ssl_peer_cn = " ++ cn ++ [10]) =? 0) || (hd0 (str "ssl_peer_cn = " ++ cn ++ [10]) =? 35)) with false by reflexivity.
  replace (split_eq (str "ssl_peer_cn = " ++ cn ++ [10])) with (Some (str "ssl_peer_cn ", 32 :: cn ++ [10])) by reflexivity.
  replace (skip_back space_or_colon (rev (str "ssl_peer_cn "))) with (rev (str "ssl_peer_cn")) by reflexivity.
  replace (skip_ws (32 :: cn ++ [10])) with (skip_ws (cn ++ [10])) by reflexivity.
  assert (E : hd0 (cn ++ [10]) = hd0 cn) by (destruct cn; [congruence|reflexivity]).
  rewrite (skip_ws_id (cn ++ [10])) by (rewrite E; exact H1). rewrite rev_app_distr. cbn [rev app].
  replace (skip_back isspace (10 :: rev cn)) with (skip_back isspace (rev cn)) by reflexivity.
  rewrite skip_back_id by auto. rewrite rev_involutive.
  replace (rev (str "ssl_peer_cn")) with (110 :: rev (str "ssl_peer_c")) by reflexivity. cbn iota beta.
  unfold remove_quotes. apply Z.eqb_neq in H3, H4. rewrite H3, H4.
  destruct cn; [congruence|]. reflexivity.
Qed.

(* What the rewriting makes of a line that has its end, and of one that has not. *)
Definition names_cn (l : bytes) : bool :=
  match conf_get_pair l with PPair k _ _ => beqb k (str "ssl_peer_cn") | _ => false end.
Definition new_text (cn : bytes) (ls : list bytes) (rest : bytes) : bytes :=
  text (map (fun l => if names_cn (l ++ [10]) then str "ssl_peer_cn = " ++ cn else l) ls
        ++ (if names_cn rest then [str "ssl_peer_cn = " ++ cn] else []))
       (if names_cn rest then [] else rest).

Lemma rewrite_lines_app : forall cn a b, rewrite_lines cn (a ++ b) =
  match rewrite_lines cn a, rewrite_lines cn b with Some x, Some y => Some (x ++ y) | _, _ => None end.
Proof.
  intros cn a b. induction a as [|l a IH]; cbn [app rewrite_lines].
  - destruct (rewrite_lines cn b); reflexivity.
  - rewrite IH. destruct (rewrite_line cn l), (rewrite_lines cn a), (rewrite_lines cn b); rewrite ?app_assoc; reflexivity.
Qed.
Lemma text_app : forall a b r, text (a ++ b) r = text a [] ++ text b r.
Proof. intros. unfold text. rewrite map_app, concat_app, app_nil_r, app_assoc. reflexivity. Qed.

Lemma some_eq : forall (A : Type) (a b : A), Some a = Some b -> a = b.
Proof. intros. congruence. Qed.
Theorem rewrite_text : forall cn ls rest b', Forall plain ls -> plain rest ->
  rewrite cn (text ls rest) = Some b' -> b' = new_text cn ls rest.
Proof.
  intros cn ls rest b' F P H. unfold rewrite in H. rewrite lines_text in H by auto.
  rewrite rewrite_lines_app in H.
  assert (A : forall x, rewrite_lines cn (map (fun l => l ++ [10]) ls) = Some x ->
    x = text (map (fun l => if names_cn (l ++ [10]) then str "ssl_peer_cn = " ++ cn else l) ls) []).
  { clear H. induction F as [|l ls Pl F IH]; intros x H; cbn [map rewrite_lines] in *; [apply some_eq in H; rewrite <- H; reflexivity|].
    unfold rewrite_line in H at 1. rewrite (proj1 (plain_nul l Pl)) in H. unfold names_cn at 1.
    destruct (conf_get_pair (l ++ [10])) as [| |k v r|]; try discriminate;
      (destruct (rewrite_lines cn (map (fun l => l ++ [10]) ls)) as [y|]; [|discriminate]);
      apply some_eq in H; rewrite <- H; rewrite (IH y eq_refl); unfold text; cbn [map concat]; rewrite <- ?app_assoc; try reflexivity.
    destruct (beqb k (str "ssl_peer_cn")); rewrite <- ?app_assoc; reflexivity. }
  destruct (rewrite_lines cn (map (fun l => l ++ [10]) ls)) as [x|]; [|discriminate].
  specialize (A x eq_refl). unfold new_text. rewrite text_app, <- A.
  destruct rest as [|c rest]; [cbn [rewrite_lines] in H; apply some_eq in H; rewrite <- H; reflexivity|].
  cbn [rewrite_lines] in H. unfold rewrite_line in H. rewrite (proj2 (plain_nul _ P)) in H. unfold names_cn.
  destruct (conf_get_pair (c :: rest)) as [| |k v r|]; try discriminate; apply some_eq in H; rewrite <- H; unfold text; cbn [map concat app]; rewrite ?app_nil_r; try reflexivity.
  destruct (beqb k (str "ssl_peer_cn")); cbn [map concat app]; rewrite ?app_nil_r, <- ?app_assoc; reflexivity.
Qed.

Lemma new_plain : forall cn, good_name cn -> plain (str "ssl_peer_cn = " ++ cn).
Proof.
  intros cn (_ & A & B & L & _). unfold plain. repeat split.
  - intros H. apply in_app_iff in H. destruct H as [H|H]; auto. revert H. vm_compute. intuition congruence.
  - intros H. apply in_app_iff in H. destruct H as [H|H]; auto. revert H. vm_compute. intuition congruence.
  - rewrite app_length. replace (List.length (str "ssl_peer_cn = ")) with 14%nat by reflexivity. lia.
Qed.

(* The settings afterwards: those of before, but for the name of the server. *)
Theorem rewrite_settings : forall cn ls rest b', Forall plain ls -> plain rest -> good_name cn ->
  rewrite cn (text ls rest) = Some b' ->
  settings b' = map (fun s => if beqb (fst (fst s)) (str "ssl_peer_cn") then (str "ssl_peer_cn", cn, false) else s)
                    (settings (text ls rest)).
Proof.
  intros cn ls rest b' F P G H. rewrite (rewrite_text _ _ _ _ F P H). unfold new_text, settings.
  set (sw := fun s : bytes * bytes * bool => if beqb (fst (fst s)) (str "ssl_peer_cn") then (str "ssl_peer_cn", cn, false) else s).
  set (nl := fun l => if names_cn (l ++ [10]) then str "ssl_peer_cn = " ++ cn else l).
  pose proof (new_plain cn G) as NP.
  assert (N1 : to_nul ((str "ssl_peer_cn = " ++ cn) ++ [10]) = str "ssl_peer_cn = " ++ cn ++ [10]).
  { rewrite (proj1 (plain_nul _ NP)). rewrite <- app_assoc. reflexivity. }
  assert (S1 : setting ((str "ssl_peer_cn = " ++ cn) ++ [10]) = [(str "ssl_peer_cn", cn, false)]).
  { unfold setting. rewrite N1. rewrite (named_line cn G). reflexivity. }
  assert (L1 : forall l, plain l -> setting (nl l ++ [10]) = map sw (setting (l ++ [10]))).
  { intros l Pl. unfold nl, names_cn. destruct (conf_get_pair (l ++ [10])) as [| |k v r|] eqn:E;
      try (unfold setting; rewrite (proj1 (plain_nul l Pl)), E; reflexivity).
    destruct (beqb k (str "ssl_peer_cn")) eqn:B.
    - rewrite S1. unfold setting. rewrite (proj1 (plain_nul l Pl)), E. cbn [map]. unfold sw. cbn [fst]. rewrite B. reflexivity.
    - unfold setting. rewrite (proj1 (plain_nul l Pl)), E. cbn [map]. unfold sw. cbn [fst]. rewrite B. reflexivity. }
  assert (FP : Forall plain (map nl ls)).
  { apply Forall_map. eapply Forall_impl; [|exact F]. intros l Pl. unfold nl. destruct (names_cn (l ++ [10])); auto. }
  assert (PN : plain []) by (repeat split; cbn; auto; lia).
  rewrite (lines_text ls rest F P).
  assert (A : flat_map setting (map (fun l => l ++ [10]) (map nl ls)) = map sw (flat_map setting (map (fun l => l ++ [10]) ls))).
  { clear - F L1. induction F as [|l ls Pl F IH]; auto. cbn [map flat_map]. rewrite map_app, <- IH, L1; auto. }
  rewrite flat_map_app. rewrite map_app. refine (eq_trans _ (f_equal2 (@app _) A eq_refl)). clear A.
  destruct (names_cn rest) eqn:NR.
  - rewrite lines_text; auto; [|apply Forall_app; auto].
    rewrite map_app, !flat_map_app. rewrite <- app_assoc. f_equal.
    cbn [map flat_map]. rewrite S1. cbn [app].
    destruct rest as [|c rest]; [discriminate|]. cbn [flat_map]. rewrite app_nil_r.
    unfold setting. rewrite (proj2 (plain_nul _ P)). unfold names_cn in NR.
    destruct (conf_get_pair (c :: rest)) as [| |k v r|]; try discriminate. cbn [map]. unfold sw. cbn [fst]. rewrite NR. reflexivity.
  - rewrite app_nil_r. rewrite lines_text; auto. rewrite flat_map_app. f_equal.
    destruct rest as [|c rest]; auto. cbn [flat_map map app]. rewrite app_nil_r.
    unfold setting. rewrite (proj2 (plain_nul _ P)). unfold names_cn in NR.
    destruct (conf_get_pair (c :: rest)) as [| |k v r|]; auto. cbn [map]. unfold sw. cbn [fst]. rewrite NR. reflexivity.
Qed.

Lemma tmp_differs : forall p pid, p ++ dot_pid pid <> p.
Proof.
  intros p pid H. apply (f_equal (@List.length Z)) in H. rewrite app_length in H. unfold dot_pid in H. cbn [List.length] in H. lia.
Qed.
Theorem conf_rewritten : forall c e cn f g b, rewrite_client_conf c e cn f = (true, g, false) ->
  f (k_conf c) = Some (File b) ->
  exists b', rewrite cn b = Some b' /\ g (k_conf c) = Some (File b') /\ g (k_conf c ++ dot_pid (k_pid c)) = None.
Proof.
  intros c e cn f g b H F. unfold rewrite_client_conf in H. pose proof (tmp_differs (k_conf c) (k_pid c)) as D.
  set (tmp := k_conf c ++ dot_pid (k_pid c)) in *.
  unfold content in H. cbn [content_n] in H. rewrite F in H.
  assert (X : match rewrite cn b with
       | None => (false, f, true)
       | Some b' =>
         if negb (v_close e tmp) then (false, unlink (upd f tmp (Some (File b'))) tmp, false)
         else if beqb b b' then (true, unlink (upd f tmp (Some (File b'))) tmp, false)
         else match rename (v_ren e (k_conf c)) (upd f tmp (Some (File b'))) tmp (k_conf c) with
              | Some f => (true, f, false)
              | None => (false, unlink (upd f tmp (Some (File b'))) tmp, false)
              end
       end = (true, g, false)).
  { destruct (f tmp) as [[]|]; try discriminate; (destruct (v_open e tmp); cbn [negb] in H; [exact H|discriminate]). }
  clear H. destruct (rewrite cn b) as [b'|]; [|discriminate]. exists b'. split; auto.
  destruct (v_close e tmp); cbn [negb] in X; [|discriminate].
  assert (TN : tmp <> []) by (unfold tmp, dot_pid; destruct (k_conf c); discriminate).
  destruct (beqb b b') eqn:E.
  - apply beqb_eq in E. subst b'. injection X as <-. split.
    + rewrite unlink_other, upd_other; auto.
    + unfold unlink. destruct tmp as [|x t] eqn:ET; [congruence|]. rewrite upd_same. apply upd_same.
  - destruct (rename _ _ tmp (k_conf c)) as [h|] eqn:R; [|discriminate]. injection X as <-. split.
    + rewrite (rename_to _ _ _ _ _ R). apply upd_same.
    + unfold rename in R. rewrite upd_same in R. destruct (v_ren e (k_conf c)); cbn [negb] in R; [|discriminate].
      destruct (beqb tmp (k_conf c)) eqn:B; [apply beqb_eq in B; congruence|].
      rewrite upd_other in R by auto. rewrite F in R. injection R as <-. rewrite upd_other by auto. apply upd_same.
Qed.

(* ---- certificates ---- *)

Theorem cert_checked : forall cipher name p verified crl_ok b,
  x_cn p = Some b -> cstr b -> (List.length b <= 255)%nat ->
  (check_cert cipher (Some name) (Some p) verified crl_ok = true <->
   verified = true /\ map tolower b = map tolower name /\ crl_ok p = true).
Proof.
  intros cipher name p verified crl_ok b H C L. unfold check_cert, cn_text. rewrite H.
  rewrite firstn_all2 by lia.
  rewrite to_nul_id. 2: { intros I. eapply Forall_forall in C; [|exact I]. unfold is_char in C. lia. }
  rewrite !andb_true_iff. unfold same_case. split.
  - intros ((A & B) & D). apply beqb_eq in B. auto.
  - intros (A & B & D). repeat split; auto. apply beqb_eq. exact B.
Qed.
Theorem cert_needed : forall cipher name peer verified crl_ok,
  check_cert cipher name peer verified crl_ok = true ->
  verified = true /\ name <> None /\ exists p, peer = Some p /\ crl_ok p = true.
Proof.
  intros cipher name peer verified crl_ok H. unfold check_cert in H.
  destruct name as [name|]; [|discriminate]. destruct peer as [p|]; [|discriminate].
  apply andb_true_iff in H. destruct H as [H D]. apply andb_true_iff in H. destruct H as [A B].
  repeat split; auto; [discriminate|]. exists p. auto.
Qed.

Theorem crl_checked : forall pem f conf d name ca_crl p,
  get_ca_dir f conf = Some d -> name <> [] ->
  (verify_crl pem f true (Some conf) (Some name) ca_crl p = true <->
   exists b r, content f (get_crl_path ca_crl d name) = Some b /\ pem b = Some r /\
               l_issuer r = x_issuer p /\ ~ In (x_serial p) (l_serials r)).
Proof.
  intros pem f conf d name ca_crl p D N. unfold verify_crl. cbn [negb]. rewrite D.
  destruct name as [|x name]; [congruence|].
  destruct (content f (get_crl_path ca_crl d (x :: name))) as [b|]; [|split; [discriminate|intros (b & r & X & _); discriminate]].
  destruct (pem b) as [r|] eqn:P; [|split; [discriminate|intros (b' & r & X & Y & _); congruence]].
  rewrite andb_true_iff, negb_true_iff. split.
  - intros [A B]. apply beqb_eq in A. exists b, r. repeat split; auto. intros I.
    rewrite <- not_true_iff_false in B. apply B. apply existsb_exists. exists (x_serial p). rewrite Z.eqb_refl. auto.
  - intros (b' & r' & X & Y & A & B). injection X as <-. rewrite P in Y. injection Y as <-. split.
    + apply beqb_eq. exact A.
    + rewrite <- not_true_iff_false. intros E. apply existsb_exists in E. destruct E as (s & I & Q). apply Z.eqb_eq in Q. subst s. auto.
Qed.
Theorem crl_unreadable : forall pem f conf name ca_crl p,
  (forall c, conf = Some c -> get_ca_dir f c = None) -> verify_crl pem f true conf name ca_crl p = false.
Proof.
  intros pem f conf name ca_crl p H. unfold verify_crl. cbn [negb]. destruct conf as [c|]; auto. rewrite (H c); auto.
Qed.
Theorem crl_off : forall pem f conf name ca_crl p, verify_crl pem f false conf name ca_crl p = true.
Proof. reflexivity. Qed.

(* ---- the setting up ---- *)

Theorem setup_settled : forall p e f conf d,
  s_ca_conf (p_sc p) = Some conf -> get_ca_dir f conf = Some d ->
  f d = Some Dir -> f (p_dh p) <> None -> f (get_crl_path (p_crl p) d (s_ca_name (p_sc p))) <> None ->
  ca_server_setup p e f = mkres 0 f [] [] false.
Proof.
  intros p e f conf d C D A B E. unfold ca_server_setup. rewrite C, D.
  apply there_true in B, E. rewrite B. unfold ca_init. rewrite A, E. rewrite !orb_true_r. reflexivity.
Qed.

Lemma run_all_leaves : forall e q n l f ok g r, leaves e q n -> f q = Some n -> run_all e l f = (ok, g, r) -> g q = Some n.
Proof.
  intros e q n l. induction l as [|a l IH]; intros f ok g r L F H; cbn [run_all] in H; [congruence|].
  pose proof (L a f F) as G. destruct (v_script e a f) as [[] h]; cbn [snd] in G.
  - destruct (run_all e l h) as [[ok' g'] r'] eqn:R. injection H as <- <- <-. eapply IH; eauto.
  - injection H as <- <- <-. auto.
Qed.

(* An authority whose directory is there loses nothing by it. *)
Theorem setup_keeps : forall p e f conf d q n,
  s_ca_conf (p_sc p) = Some conf -> get_ca_dir f conf = Some d ->
  f d = Some Dir -> leaves e d Dir -> f q = Some n -> leaves e q n ->
  r_fs (ca_server_setup p e f) q = Some n /\
  forall a, In a (r_runs (ca_server_setup p e f)) -> a = dh_args (p_sc p) d (p_dh p) \/ a = crl_args (p_sc p) d conf.
Proof.
  intros p e f conf d q n C D A LA F L. unfold ca_server_setup. rewrite C, D.
  assert (X : exists ok g l, (if there f (p_dh p) then (true, f, []) else run_all e [dh_args (p_sc p) d (p_dh p)] f) = (ok, g, l) /\
    g d = Some Dir /\ g q = Some n /\ forall a, In a l -> a = dh_args (p_sc p) d (p_dh p)).
  { destruct (there f (p_dh p)).
    - exists true, f, []. repeat split; auto. contradiction.
    - destruct (run_all e [dh_args (p_sc p) d (p_dh p)] f) as [[ok g] l] eqn:R. exists ok, g, l.
      split; auto. split; [exact (run_all_leaves _ _ _ _ _ _ _ _ LA A R)|]. split; [exact (run_all_leaves _ _ _ _ _ _ _ _ L F R)|].
      cbn [run_all] in R. destruct (v_script e _ f) as [[] h]; injection R as _ _ <-; intros a [<-|[]]; auto. }
  destruct X as (ok & g & l & -> & G1 & G2 & G3). destruct ok; cbn [r_fs r_runs]; [|split; auto].
  unfold ca_init. rewrite G1.
  destruct (is_nil conf || is_nil (s_burp_ca (p_sc p)) || is_nil (s_ca_name (p_sc p)) || there g _); cbn [r_fs r_runs app].
  - rewrite app_nil_r. split; auto.
  - destruct (run_all e [crl_args (p_sc p) d conf] g) as [[ok h] l3] eqn:R. cbn [r_fs r_runs].
    split; [exact (run_all_leaves _ _ _ _ _ _ _ _ L G2 R)|].
    intros a I. apply in_app_iff in I. destruct I as [I|I]; auto. right.
    cbn [run_all] in R. destruct (v_script e (crl_args (p_sc p) d conf) g) as [[] h2]; injection R as _ _ <-; destruct I as [<-|[]]; auto.
Qed.

(* When a new authority was set up without error, the certificates and the key of the
   server are links into its directory, or are there by themselves. *)
Lemma link_to_ok : forall e f t p g, link_to e f t p = (true, g) -> firstn 1023 t = p /\ g = f \/ g p = Some (Link (firstn 1023 t)).
Proof.
  intros e f t p g H. unfold link_to in H. destruct (beqb (firstn 1023 t) p) eqn:B.
  - apply beqb_eq in B. injection H as <-. auto.
  - unfold symlink_file in H. destruct (there _ (firstn 1023 t)); cbn [negb] in H; [|discriminate].
    destruct (there (unlink f p) p || negb (v_open e p)); [discriminate|]. injection H as <-. right. apply upd_same.
Qed.
Lemma link_to_other : forall e f t p ok g q, link_to e f t p = (ok, g) -> p <> q -> g q = f q.
Proof.
  intros e f t p ok g q H N. unfold link_to in H. destruct (beqb (firstn 1023 t) p); [injection H as _ <-; auto|].
  unfold symlink_file in H. destruct (negb (there _ (firstn 1023 t))); [injection H as _ <-; apply unlink_other; auto|].
  destruct (there (unlink f p) p || negb (v_open e p)); injection H as _ <-; rewrite ?upd_other by auto; apply unlink_other; auto.
Qed.
Theorem init_links : forall p e d conf f g l,
  ca_init p e d conf f = (true, g, l) -> f d <> Some Dir ->
  NoDup [s_cert_ca (p_sc p); p_cert p; p_key p] ->
  let linked q t := firstn 1023 t = q \/ g q = Some (Link (firstn 1023 t)) in
  l = [init_args (p_sc p) d conf; key_args (p_sc p) d conf; own_args (p_sc p) d conf] /\
  linked (s_cert_ca (p_sc p)) (d ++ str "/CA_" ++ s_ca_name (p_sc p) ++ str ".crt") /\
  linked (p_cert p) (d ++ str "/" ++ s_server_name (p_sc p) ++ str ".crt") /\
  linked (p_key p) (d ++ str "/" ++ s_server_name (p_sc p) ++ str ".key").
Proof.
  intros p e d conf f g l H N ND linked. unfold linked. unfold ca_init in H.
  assert (X : match run_all e [init_args (p_sc p) d conf; key_args (p_sc p) d conf; own_args (p_sc p) d conf] f with
    | (false, f, l) => (false, f, l)
    | (true, f, l) =>
      match link_to e f (d ++ slash :: str "CA_" ++ s_ca_name (p_sc p) ++ str ".crt") (s_cert_ca (p_sc p)) with
      | (false, f) => (false, f, l)
      | (true, f) =>
        match link_to e f (d ++ slash :: s_server_name (p_sc p) ++ str ".crt") (p_cert p) with
        | (false, f) => (false, f, l)
        | (true, f) => match link_to e f (d ++ slash :: s_server_name (p_sc p) ++ str ".key") (p_key p) with (ok, f) => (ok, f, l) end
        end end end = (true, g, l)).
  { destruct (f d) as [[]|]; auto. congruence. }
  clear H. destruct (run_all e _ f) as [[ok h] r] eqn:R. destruct ok; [|discriminate].
  assert (RR : r = [init_args (p_sc p) d conf; key_args (p_sc p) d conf; own_args (p_sc p) d conf]).
  { clear - R. cbn [run_all] in R. destruct (v_script e (init_args (p_sc p) d conf) f) as [[] f1]; [|discriminate].
    destruct (v_script e (key_args (p_sc p) d conf) f1) as [[] f2]; [|discriminate].
    destruct (v_script e (own_args (p_sc p) d conf) f2) as [[] f3]; [|discriminate]. injection R as _ <-. reflexivity. }
  destruct (link_to e h _ (s_cert_ca (p_sc p))) as [[] h1] eqn:L1; [|discriminate].
  destruct (link_to e h1 _ (p_cert p)) as [[] h2] eqn:L2; [|discriminate].
  destruct (link_to e h2 _ (p_key p)) as [ok h3] eqn:L3. injection X as -> <- <-.
  inversion_clear ND as [|? ? I1 ND1]. inversion_clear ND1 as [|? ? I2 ND2]. cbn [In] in *.
  split; auto. split; [|split].
  - destruct (link_to_ok _ _ _ _ _ L1) as [[A _]|A]; [left; exact A|right].
    rewrite (link_to_other _ _ _ _ _ _ (s_cert_ca (p_sc p)) L3) by (intro; intuition congruence).
    rewrite (link_to_other _ _ _ _ _ _ (s_cert_ca (p_sc p)) L2) by (intro; intuition congruence). exact A.
  - destruct (link_to_ok _ _ _ _ _ L2) as [[A _]|A]; [left; exact A|right].
    rewrite (link_to_other _ _ _ _ _ _ (p_cert p) L3) by (intro; intuition congruence). exact A.
  - destruct (link_to_ok _ _ _ _ _ L3) as [[A _]|A]; [left; exact A|right; exact A].
Qed.
