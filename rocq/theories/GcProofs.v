(* The checks of settings: specification and proofs. *)
From Verif Require Import Bytes PathcmpModel RestoreModel AuthModel BuModel TimerModel GcModel.
From Coq Require Import Lia.

(* ---- specification ---- *)
Definition given (o : option bytes) : Prop := o <> None.
(* For both: somewhere to lock, and certificates. *)
Definition common_ok (c : gconf) : Prop := (given (g_lockfile c) \/ given (g_pidfile c)) /\ given (g_cert c) /\ given (g_cert_ca c).
Definition authority_ok (c : gconf) : Prop :=
  (exists a s, g_ca_name c = Some a /\ g_ca_server c = Some s /\ a <> s) /\
  given (g_burp_ca c) /\ given (g_dh c) /\ given (g_cert_ca c) /\ given (g_cert c) /\ given (g_key c).
Definition server_ok (c : gconf) : Prop :=
  given (g_dir c) /\ given (g_dedup c) /\ given (g_ccd c) /\ g_recovery c = true /\ given (g_dh c) /\ g_encpw c = None /\
  g_keep c = true /\ 2 <= g_hardlinks c /\ 1000 < g_subdirs c /\
  (given (g_ca_conf c) -> authority_ok c) /\ (forall m, g_manual c = Some m -> is_absolute m = true).
(* The name of a client: as given, else that in its certificate, else that of its host. *)
Definition named (x : cert) (host : option bytes) (c : gconf) (n : bytes) : Prop :=
  g_cname c = Some n \/
  (g_cname c = None /\ exists p m, g_cert c = Some p /\ x = CertName m /\ n = mangle c m) \/
  (g_cname c = None /\ (g_cert c = None \/ x = NoCert) /\ exists h, host = Some h /\ n = mangle c h).
Definition client_ok (x : cert) (host : option bytes) (c : gconf) : Prop :=
  (exists n, named x host c n) /\ given (g_server c) /\ (forall o, g_os c = Some o -> strstr o (str "..") = false) /\
  (given (g_burp_ca c) -> given (g_csr_dir c) /\ given (g_cert_ca c) /\ given (g_cert c) /\ given (g_key c)).
Definition conf_ok (x : cert) (host : option bytes) (c : gconf) : Prop :=
  common_ok c /\ ((g_mode c = MServer /\ server_ok c) \/ (g_mode c = MClient /\ client_ok x host c)).
(* No colon in it. *)
Definition plain_host (s : bytes) : Prop := ~ In 58 s.

(* ---- proofs ---- *)
Lemma unset_t : forall o, unset o = true <-> o = None.
Proof. intros []; cbn; split; congruence. Qed.
Lemma unset_f : forall o, unset o = false <-> given o.
Proof. intros []; unfold given; cbn; split; congruence. Qed.
Lemma problem_le : forall b r, problem b r <= r. Proof. intros [] r; cbn; lia. Qed.
Lemma problem_0 : forall b r, r <= 0 -> (problem b r = 0 <-> b = false /\ r = 0).
Proof. intros [] r h; cbn; intuition (try lia; try congruence). Qed.
Ltac prb := repeat match goal with
  | |- context [problem ?b ?r = 0] => rewrite (problem_0 b r) by (repeat (eapply Z.le_trans; [apply problem_le|]); lia)
  end.
Lemma general_0 : forall c, general_checks c 0 = 0 <-> common_ok c.
Proof.
  intros c. unfold general_checks, common_ok, get_lockfile. prb. rewrite !unset_f. unfold given.
  destruct (g_lockfile c); intuition congruence.
Qed.
Lemma general_le : forall c, general_checks c 0 <= 0.
Proof. intros c. unfold general_checks. repeat (eapply Z.le_trans; [apply problem_le|]). lia. Qed.
Lemma ca_0 : forall c, ca_err c = 0 <-> authority_ok c.
Proof.
  intros c. unfold ca_err, authority_ok, given. cbv zeta.
  destruct (g_ca_name c) as [a|]; destruct (g_ca_server c) as [s|]; cbn [unset];
  destruct (g_burp_ca c); destruct (g_dh c); destruct (g_cert_ca c); destruct (g_cert c); destruct (g_key c); cbn [unset];
  try destruct (beqb a s) eqn:E; split;
  try (intros h; exfalso; lia);
  try (intros ((a' & s' & A & B & N) & h); exfalso; intuition congruence);
  try (intros ((a' & s' & A & B & N) & h); injection A as <-; injection B as <-; apply beqb_eq in E; exfalso; congruence);
  try (intros _; split; [exists a, s; repeat split; intros ->; rewrite beqb_refl in E; discriminate|intuition congruence]);
  try (intros ((a' & s' & A & B & N) & h); reflexivity).
Qed.
Lemma ca_le : forall c, 0 <= ca_err c.
Proof.
  intros c. unfold ca_err. cbv zeta.
  repeat match goal with |- context [if ?b then _ else _] => destruct b end;
  destruct (g_ca_name c), (g_ca_server c); repeat match goal with |- context [if ?b then _ else _] => destruct b end; lia.
Qed.
Lemma server_0 : forall c r, r <= 0 ->
  (let '(ok, r', _) := server_checks c r in (if (ok : bool) then r' else r' - 1) = 0) <-> r = 0 /\ server_ok c.
Proof.
  intros c r hr. unfold server_checks. cbv zeta.
  set (c' := if unset (g_stamp c) then set_stamp (Some default_stamp) c else c).
  assert (E1 : g_ca_conf c' = g_ca_conf c) by (unfold c'; destruct (unset _); auto).
  assert (E2 : ca_err c' = ca_err c) by (unfold c'; destruct (unset _); auto).
  assert (E3 : g_manual c' = g_manual c) by (unfold c'; destruct (unset _); auto).
  rewrite E1, E2, E3.
  match goal with |- context [problem (g_subdirs c <=? 1000) ?r0] => set (q := problem (g_subdirs c <=? 1000) r0) end.
  assert (Q : q <= 0) by (unfold q; repeat (eapply Z.le_trans; [apply problem_le|]); lia).
  assert (Q0 : q = 0 <-> r = 0 /\ given (g_dir c) /\ given (g_dedup c) /\ given (g_ccd c) /\ g_recovery c = true /\ given (g_dh c) /\ g_encpw c = None /\
    g_keep c = true /\ 2 <= g_hardlinks c /\ 1000 < g_subdirs c).
  { unfold q. prb. rewrite !negb_false_iff, !unset_f, unset_t, Z.ltb_ge, Z.leb_gt. tauto. }
  unfold server_ok. clearbody q.
  destruct (unset (g_ca_conf c)) eqn:U; cbn [negb andb].
  - apply unset_t in U. destruct (g_manual c) as [m|].
    + destruct (is_absolute m) eqn:A.
      * rewrite Q0. split; [intros H; intuition (try congruence); unfold given in *; congruence|tauto].
      * split; [lia|]. intros (_ & H). exfalso. destruct H as (_ & _ & _ & _ & _ & _ & _ & _ & _ & _ & H). rewrite (H m eq_refl) in A. discriminate.
    + rewrite Q0. split; [intros H; intuition (try congruence); unfold given in *; congruence|tauto].
  - apply unset_f in U. destruct (ca_err c =? 0) eqn:Z0; cbn [negb].
    + apply Z.eqb_eq, ca_0 in Z0. destruct (g_manual c) as [m|].
      * destruct (is_absolute m) eqn:A.
        -- rewrite Q0. split; [intros H; intuition congruence|tauto].
        -- split; [lia|]. intros (_ & H). exfalso. destruct H as (_ & _ & _ & _ & _ & _ & _ & _ & _ & _ & H). rewrite (H m eq_refl) in A. discriminate.
      * rewrite Q0. split; [intros H; intuition congruence|tauto].
    + split; [lia|]. intros (_ & H). exfalso. apply Z.eqb_neq in Z0. apply Z0. apply ca_0. tauto.
Qed.
Lemma cname_found : forall x host c n, find_cname x host c = Some n <-> named x host c n.
Proof.
  intros x host c n. unfold find_cname, named. destruct (g_cname c) as [k|].
  { split; [auto|]. intros [H|[[H _]|[H _]]]; congruence. }
  split.
  - intros H. right. destruct (g_cert c) as [p|].
    + destruct x as [| |m]; [right|discriminate|left].
      * destruct host as [h|]; [|discriminate]. injection H as <-. eauto 6.
      * injection H as <-. eauto 8.
    + right. destruct host as [h|]; [|discriminate]. injection H as <-. eauto 6.
  - intros [H|[(_ & p & m & -> & -> & ->)|(_ & H & h & -> & ->)]]; [discriminate|auto|].
    destruct (g_cert c); auto. destruct H as [H| ->]; [discriminate|auto].
Qed.
Lemma client_0 : forall x host c r, r <= 0 ->
  (let '(ok, r', _) := client_checks x host c r in (if (ok : bool) then r' else r' - 1) = 0) <-> r = 0 /\ client_ok x host c.
Proof.
  intros x host c r hr. unfold client_checks, client_ok. destruct (find_cname x host c) as [n|] eqn:F.
  - cbv zeta.
    match goal with |- context [problem (match g_os c with _ => _ end) ?r0] => set (q := problem (match g_os c with Some o => strstr o (str "..") | None => false end) r0) end.
    assert (Q : q <= 0) by (unfold q; repeat (eapply Z.le_trans; [apply problem_le|]); lia).
    assert (Q0 : q = 0 <-> r = 0 /\ given (g_server c) /\ (forall o, g_os c = Some o -> strstr o (str "..") = false)).
    { unfold q. prb. rewrite unset_f. destruct (g_os c) as [o|].
      - split; [intros (A & B & C); repeat split; auto; congruence|]. intros (A & B & C). auto.
      - split; [intros (A & B & C); repeat split; auto; congruence|]. tauto. }
    clearbody q. apply cname_found in F.
    destruct (unset (g_burp_ca c)) eqn:U.
    + apply unset_t in U. rewrite Q0. split; [|tauto]. intros (A & B & C). repeat split; eauto; unfold given in *; congruence.
    + prb. rewrite !unset_f, Q0. apply unset_f in U. split; [|tauto]. intros H. split; [tauto|]. split; [eauto|]. tauto.
  - split; [lia|]. intros (_ & [n N] & _). apply cname_found in N. congruence.
Qed.
Theorem accepted_iff : forall x host c, fst (finalise_global x host c) = 0 <-> conf_ok x host c.
Proof.
  intros x host c. unfold finalise_global. cbv zeta.
  set (c' := if unset (g_key_pw c) then set_key_pw (Some []) c else c).
  assert (M : g_mode c' = g_mode c) by (unfold c'; destruct (unset _); auto).
  assert (E1 : common_ok c' <-> common_ok c) by (unfold c'; destruct (unset _); reflexivity).
  assert (E2 : server_ok c' <-> server_ok c) by (unfold c'; destruct (unset _); reflexivity).
  assert (E3 : client_ok x host c' <-> client_ok x host c).
  { assert (G : forall n, named x host c' n <-> named x host c n) by (intros n; unfold c'; destruct (unset _); reflexivity).
    unfold client_ok.
    assert (G2 : (exists n, named x host c' n) <-> (exists n, named x host c n)) by (split; intros [n N]; exists n; apply G; auto).
    rewrite G2. unfold c'. destruct (unset _); reflexivity. }
  pose proof (general_le c') as L. pose proof (general_0 c') as G0.
  unfold conf_ok. rewrite M, <- E1, <- E2, <- E3. destruct (g_mode c) eqn:EM.
  - cbn [fst]. split; [lia|]. intros (_ & [[H _]|[H _]]); discriminate.
  - pose proof (server_0 c' _ L) as S. destruct (server_checks c' (general_checks c' 0)) as [[ok r'] c2]. cbn [fst]. rewrite S, G0.
    split; [tauto|]. intros (A & [[_ B]|[B _]]); [tauto|discriminate].
  - pose proof (client_0 x host c' _ L) as S. destruct (client_checks x host c' (general_checks c' 0)) as [[ok r'] c2]. cbn [fst]. rewrite S, G0.
    split; [tauto|]. intros (A & [[B _]|[_ B]]); [discriminate|tauto].
Qed.
(* What a client has then. *)
Theorem client_complete : forall x host c, fst (finalise_global x host c) = 0 -> g_mode c = MClient ->
  let c' := snd (finalise_global x host c) in
  (exists n, named x host c n /\ g_cname c' = Some n) /\
  g_password c' = Some (match g_password c with Some p => p | None => str "password" end) /\
  g_server c' = g_server c /\
  (exists s, g_server c = Some s /\ (g_peer c' = g_peer c \/ g_peer c = None) /\ (g_peer c = None -> plain_host s -> g_peer c' = Some s) /\
    (g_peer c = None -> forall h p, s = h ++ 58 :: p -> plain_host h -> g_peer c' = Some h)) /\
  given (g_key_pw c').
Proof.
  intros x host c h m. cbv zeta. pose proof (proj1 (accepted_iff x host c) h) as (_ & [[H _]|[_ K]]); [congruence|]. clear h.
  destruct K as ((n & N) & S & _). unfold finalise_global. cbv zeta.
  set (c' := if unset (g_key_pw c) then set_key_pw (Some []) c else c).
  assert (M : g_mode c' = MClient) by (unfold c'; destruct (unset _); auto). rewrite M.
  assert (F : find_cname x host c' = Some n) by (apply cname_found; revert N; unfold c'; destruct (unset _); auto).
  unfold client_checks. rewrite F. cbv zeta. cbn [snd set_client g_cname g_password g_server g_peer g_key_pw].
  assert (E1 : g_password c' = g_password c) by (unfold c'; destruct (unset _); auto).
  assert (E2 : g_server c' = g_server c) by (unfold c'; destruct (unset _); auto).
  assert (E3 : g_peer c' = g_peer c) by (unfold c'; destruct (unset _); auto).
  rewrite E1, E2, E3. split; [eauto|]. split; auto. split; auto. split.
  - unfold given in S. destruct (g_server c) as [s|]; [|congruence]. exists s. split; auto.
    assert (P : forall a b, plain_host a -> to_colon (a ++ 58 :: b) = a /\ to_colon a = a).
    { unfold plain_host. induction a as [|y a IH]; intros b pa; cbn [app to_colon]; auto.
      destruct (y =? 58) eqn:Y. { exfalso. apply pa. left. lia. }
      destruct (IH b) as [I1 I2]; [intros I; apply pa; right; auto|]. rewrite I1, I2. auto. }
    destruct (g_peer c) as [p|]. { repeat split; auto; discriminate. }
    split; [auto|]. split; [intros _ ps; f_equal; apply (P s []); auto|]. intros _ hh p -> ph. f_equal. apply P. auto.
  - unfold c', given. destruct (g_key_pw c) eqn:E; cbn [unset]; [rewrite E|cbn]; discriminate.
Qed.
Theorem server_complete : forall x host c, fst (finalise_global x host c) = 0 -> g_mode c = MServer ->
  let c' := snd (finalise_global x host c) in server_ok c' /\ common_ok c' /\
  g_stamp c' = Some (match g_stamp c with Some s => s | None => default_stamp end) /\ given (g_key_pw c').
Proof.
  intros x host c h m. cbv zeta. pose proof (proj1 (accepted_iff x host c) h) as (C & [[_ K]|[H _]]); [|congruence]. clear h.
  unfold finalise_global. cbv zeta.
  set (c1 := if unset (g_key_pw c) then set_key_pw (Some []) c else c).
  assert (M : g_mode c1 = MServer) by (unfold c1; destruct (unset _); auto). rewrite M.
  assert (K1 : server_ok c1) by (unfold c1; destruct (unset _); auto).
  assert (C1 : common_ok c1) by (unfold c1; destruct (unset _); auto).
  assert (P1 : given (g_key_pw c1)) by (unfold c1, given; destruct (g_key_pw c) eqn:E; cbn [unset]; [rewrite E|cbn]; discriminate).
  assert (S1 : g_stamp c1 = g_stamp c) by (unfold c1; destruct (unset _); auto). clearbody c1.
  assert (X : snd (server_checks c1 (general_checks c1 0)) = if unset (g_stamp c1) then set_stamp (Some default_stamp) c1 else c1).
  { unfold server_checks. cbv zeta. destruct (_ && _); auto. destruct (g_manual _); auto. }
  destruct (server_checks c1 (general_checks c1 0)) as [[ok r'] c2]. cbn [snd] in *. subst c2. rewrite <- S1.
  destruct (g_stamp c1) eqn:E; cbn [unset]; [rewrite E|]; auto.
Qed.
Theorem ports_set : forall l x p, let q := client_ports (l ++ [x]) p in atoi x <> 0 ->
  (p_backup q = if p_backup p =? 0 then atoi x else p_backup p) /\ (p_restore q = if p_restore p =? 0 then atoi x else p_restore p) /\
  (p_verify q = if p_verify p =? 0 then p_restore q else p_verify p) /\
  (p_list q = if p_list p =? 0 then atoi x else p_list p) /\ (p_delete q = if p_delete p =? 0 then atoi x else p_delete p).
Proof.
  intros l x p. cbv zeta. unfold client_ports. rewrite fold_left_app. cbn [fold_left]. intros h.
  replace (atoi x =? 0) with false by lia. cbv zeta. auto.
Qed.
