(* Specification and proofs about authentication, client names and switching
   (C32, C33, C47). *)
From Verif Require Import Bytes FrameModel DpthModel RestoreModel AuthModel.

(* ---------- Specification ---------- *)

(* The supplied password matches every configured form, and there is one. *)
Definition matches_all (crypt : bytes -> bytes -> option bytes) (c : aconf) (password : bytes) : Prop :=
  (a_password c <> None \/ a_passwd c <> None) /\
  (forall p, a_password c = Some p -> password = p) /\
  (forall h, a_passwd c = Some h -> (13 <= List.length h)%nat /\ crypt password h = Some h).

(* One component of a path. *)
Definition component (s : bytes) : Prop := s <> [] /\ ~ In 47 s /\ s <> [46] /\ s <> [46; 46].

(* No more than. *)
Definition perms_le (a b : perms) : Prop :=
  (can_delete a = true -> can_delete b = true) /\ (can_diff a = true -> can_diff b = true) /\
  (can_list a = true -> can_list b = true) /\ (can_monitor a = true -> can_monitor b = true) /\
  (can_restore a = true -> can_restore b = true) /\ (can_verify a = true -> can_verify b = true) /\
  (can_force a = true -> can_force b = true).

(* ---------- C32 ---------- *)

Lemma compare_password_zero : forall sf a b, compare_password sf a b = 0 <-> a = b.
Proof.
  intros sf a b. unfold compare_password. destruct (beqb a b) eqn:E.
  - apply beqb_eq in E. tauto.
  - apply beqb_neq in E. destruct sf; split; intros; try lia; contradiction.
Qed.

Theorem auth_exact : forall crypt sf c password,
  (forall h, a_passwd c = Some h -> crypt password h <> None) -> a_check c = true ->
  check_client_and_password true crypt sf c password = true <-> matches_all crypt c password /\ a_keep c <> [].
Proof.
  intros crypt sf c password Hc Ck. unfold check_client_and_password, matches_all. rewrite Ck.
  assert (K : (match a_keep c with [] => false | _ => true end) = true <-> a_keep c <> []) by (destruct (a_keep c); split; congruence).
  assert (P : forall p, (compare_password sf p password =? 0) = true <-> password = p).
  { intros p. rewrite Z.eqb_eq, compare_password_zero. split; congruence. }
  assert (H : forall h, crypt password h <> None -> negb (check_passwd true crypt sf h password =? 0) = true <->
     (13 <= List.length h)%nat /\ crypt password h = Some h).
  { intros h Nh. unfold check_passwd. destruct (Nat.ltb_spec (List.length h) 13) as [L|L]; cbn [negb Z.eqb].
    - split; [discriminate|]. intros (X & _). lia.
    - destruct (crypt password h) as [e|]; [|congruence].
      destruct (Z.eqb_spec (compare_password sf h e) 0) as [Z|Z]; cbn [negb Z.eqb].
      + apply compare_password_zero in Z. subst e. tauto.
      + split; [discriminate|]. intros (_ & X). exfalso. apply Z. apply compare_password_zero. congruence. }
  rewrite andb_true_iff, K. apply and_iff_compat_r.
  destruct (a_password c) as [p|] eqn:Ep, (a_passwd c) as [h|] eqn:Eh.
  - rewrite andb_true_iff, P, (H h) by auto. split.
    + intros (A & B). split; [left; discriminate|]. split; [intros q X; congruence|intros q X; injection X as <-; auto].
    + intros (_ & A & B). split; [apply A; auto|apply B; auto].
  - rewrite andb_true_iff, P. split.
    + intros (A & _). split; [left; discriminate|]. split; [intros q X; congruence|discriminate].
    + intros (_ & A & _). split; auto.
  - rewrite andb_true_iff, (H h) by auto. split.
    + intros (_ & B). split; [right; discriminate|]. split; [discriminate|intros q X; injection X as <-; auto].
    + intros (_ & _ & B). split; auto.
  - split; [discriminate|]. intros ([A|A] & _); congruence.
Qed.
(* A configured plain password is always needed, whatever crypt() does. *)
Theorem auth_plain : forall hc crypt sf c p password, a_check c = true -> a_password c = Some p ->
  check_client_and_password hc crypt sf c password = true -> password = p.
Proof.
  intros hc crypt sf c p password Ck Ep H. unfold check_client_and_password in H. rewrite Ck, Ep in H.
  apply andb_true_iff in H. destruct H as (H & _). apply andb_true_iff in H. destruct H as (H & _).
  apply Z.eqb_eq in H. apply compare_password_zero in H. auto.
Qed.
(* Without any password configured, nobody gets in. *)
Theorem auth_none : forall hc crypt sf c password, a_check c = true -> a_password c = None -> a_passwd c = None ->
  check_client_and_password hc crypt sf c password = false.
Proof. intros hc crypt sf c password Ck E1 E2. unfold check_client_and_password. rewrite Ck, E1, E2. auto. Qed.

(* When crypt() fails, or is not built in, any password is accepted. *)
Theorem auth_refuted : forall hc (crypt : bytes -> bytes -> option bytes) sf c h password,
  a_passwd c = Some h -> a_password c = None -> a_keep c <> [] -> (13 <= List.length h)%nat ->
  crypt password h = None \/ hc = false -> check_client_and_password hc crypt sf c password = true.
Proof.
  intros hc crypt sf c h password E1 E2 K L D. unfold check_client_and_password. rewrite E1, E2.
  destruct (a_keep c); [congruence|]. destruct (a_check c); auto. cbn [andb]. unfold check_passwd.
  destruct hc; [|auto]. destruct D as [D|D]; [|discriminate]. rewrite D.
  destruct (Nat.ltb_spec (List.length h) 13); [lia|auto].
Qed.

(* ---------- C47 ---------- *)

Lemma has_byte_spec : forall c s, has_byte c s = true <-> In c s.
Proof.
  intros c s. unfold has_byte. rewrite existsb_exists. split.
  - intros (x & H & E). apply Z.eqb_eq in E. congruence.
  - intros H. exists c. split; auto. apply Z.eqb_refl.
Qed.
Theorem cname_exact : forall before s, s <> [] ->
  cname_valid before s = true <-> hd0 s <> 46 /\ ~ In 47 s /\ ~ In 92 s /\ List.last s 0 <> 126.
Proof.
  intros before s N. unfold cname_valid.
  assert (L : List.last s before = List.last s 0).
  { clear - N. induction s as [|a s IH]; [congruence|]. destruct s as [|b s]; auto. cbn [List.last]. apply IH. discriminate. }
  rewrite L. destruct ((hd0 s =? 46) || has_byte 47 s || has_byte 92 s || (List.last s 0 =? 126)) eqn:E.
  - split; [discriminate|]. intros (A & B & C & D). rewrite !orb_true_iff, !has_byte_spec, !Z.eqb_eq in E. tauto.
  - split; auto. intros _. rewrite !orb_false_iff in E. destruct E as (((A & B) & C) & D).
    rewrite !Z.eqb_neq in *. repeat split; auto; intros X; apply has_byte_spec in X; congruence.
Qed.
Theorem cname_component : forall before s dir, s <> [] -> dir <> [] -> cname_valid before s = true ->
  component s /\ prepend_s dir s = dir ++ [47] ++ s.
Proof.
  intros before s dir N Nd H. apply cname_exact in H; auto. destruct H as (A & B & _). split.
  - repeat split; auto; intros ->; apply A; reflexivity.
  - unfold prepend_s. destruct dir; [congruence|]. destruct s as [|c s]; [congruence|]. cbn [hd0].
    destruct (Z.eqb_spec c 47) as [->|]; [exfalso; apply B; left; auto|]. reflexivity.
Qed.
(* What is loaded for a connecting client is directly in the directory. *)
Theorem client_conf_path : forall (A : Type) (files : bytes -> option A) dir before fqdn lower sent x,
  dir <> [] -> client_name fqdn lower sent <> [] ->
  load_clientconfdir files dir before (client_name fqdn lower sent) = Some x ->
  exists s, component s /\ files (dir ++ [47] ++ s) = Some x.
Proof.
  intros A files dir before fqdn lower sent x Nd Ns H. unfold load_clientconfdir in H.
  destruct (cname_valid before (client_name fqdn lower sent)) eqn:E; [|discriminate].
  destruct (cname_component before _ dir Ns Nd E) as (C & P). rewrite P in H. eauto.
Qed.
(* The empty name, sent as such or left after removing a domain, is valid
   depending on memory in front of it; then the directory itself is loaded. *)
Theorem cname_refuted : exists fqdn lower sent before, client_name fqdn lower sent = [] /\ sent <> [] /\
  cname_valid before [] = true /\ forall dir, prepend_s dir [] = dir.
Proof.
  exists false, false, (str ".example.com"), 0. repeat split; try discriminate.
  intros dir. unfold prepend_s. destruct dir; auto. cbn [hd0 Z.eqb]. rewrite app_nil_r. auto.
Qed.

(* The name that a connection ends up with is never empty. *)
Theorem admitted_component : forall before fqdn lower sent n dir, dir <> [] ->
  admitted_name before fqdn lower sent = Some n -> component n /\ prepend_s dir n = dir ++ [47] ++ n.
Proof.
  intros before fqdn lower sent n dir Nd H. unfold admitted_name in H.
  destruct (cname_valid before (client_name fqdn lower sent)) eqn:E; [|discriminate].
  destruct (client_name fqdn lower sent) as [|c r] eqn:C; [discriminate|]. injection H as <-.
  eapply cname_component; eauto. discriminate.
Qed.
(* Nor is the name of a client switched to. *)
Theorem switched_component : forall files dir before c s orig c', dir <> [] -> orig_request s = Some orig ->
  switch_to (load_clientconfdir files dir before) c orig = Some c' -> c_name c' <> c_name c ->
  component (c_name c') /\ exists t, files (dir ++ [47] ++ c_name c') = Some t.
Proof.
  intros files dir before c s orig c' Nd R H N. unfold orig_request in R.
  destruct (starts_with s (str "orig_client=") && (12 <? List.length s)%nat) eqn:E; [|discriminate].
  apply andb_true_iff in E. destruct E as (_ & L). apply Nat.ltb_lt in L.
  assert (Ne : orig <> []).
  { intros ->. assert (X : List.length (skipn 12 s) = 0%nat) by (apply (f_equal (option_map (@List.length Z))) in R; cbn [option_map List.length] in R; congruence).
    rewrite skipn_length in X. lia. }
  unfold switch_to in H. destruct (beqb (c_name c) orig) eqn:B; [injection H as <-; congruence|].
  unfold load_clientconfdir in H. destruct (cname_valid before orig) eqn:V; [|discriminate].
  destruct (cname_component before orig dir Ne Nd V) as (C & P). rewrite P in H.
  destruct (files (dir ++ [47] ++ orig)) as [t|] eqn:F; [|discriminate].
  assert (X : c_name c' = orig).
  { destruct (restore_client_allowed c t =? 1); [injection H as <-; auto|].
    destruct (restore_client_allowed c t =? 2); [injection H as <-; auto|discriminate]. }
  rewrite X. split; auto. exists t. auto.
Qed.

(* ---------- C33 ---------- *)

Lemma perms_le_refl : forall a, perms_le a a.
Proof. unfold perms_le. tauto. Qed.
Lemma perms_le_trans : forall a b c, perms_le a b -> perms_le b c -> perms_le a c.
Proof. unfold perms_le. intros. tauto. Qed.

Lemma listed : forall n l, existsb (fun r => beqb r n) l = true <-> In n l.
Proof.
  intros n l. rewrite existsb_exists. split.
  - intros (x & H & E). apply beqb_eq in E. congruence.
  - intros H. exists n. split; auto. apply beqb_eq. auto.
Qed.
Theorem switch_spec : forall load c orig c', switch_to load c orig = Some c' ->
  (orig = c_name c /\ c' = c) \/
  (c_name c <> orig /\ exists s, load orig = Some s /\ (In (c_name c) (c_super s) \/ In (c_name c) (c_restore s)) /\
   perms_le (c_perms c') (c_perms c) /\ can_force (c_perms c') = false /\
   c_name c' = orig /\ c_connect c' = c_connect c /\
   (~ In (c_name c) (c_super s) -> perms_le (c_perms c') (c_perms s))).
Proof.
  intros load c orig c' H. unfold switch_to in H. destruct (beqb (c_name c) orig) eqn:E.
  { apply beqb_eq in E. injection H as <-. left; auto. }
  apply beqb_neq in E. right. split; auto. destruct (load orig) as [s|]; [|discriminate]. exists s. split; auto.
  unfold restore_client_allowed in H. destruct (existsb (fun r => beqb r (c_name c)) (c_super s)) eqn:S.
  - apply listed in S. cbn [Z.eqb Pos.eqb] in H. injection H as <-. cbn.
    split; auto. split; [unfold perms_le; cbn; intuition discriminate|]. repeat split; auto; contradiction.
  - destruct (existsb (fun r => beqb r (c_name c)) (c_restore s)) eqn:R; cbn [Z.eqb Pos.eqb] in H; [|discriminate].
    apply listed in R. injection H as <-. cbn. split; auto.
    split; [|split; [auto|split; [auto|split; [auto|]]]].
    + unfold perms_le; cbn. destruct (c_perms c) as [f d di l m r v]; cbn.
      repeat split; intros X; try discriminate; [destruct d|destruct di|destruct l|destruct m|destruct r|destruct v]; auto.
    + intros _. unfold perms_le; cbn. destruct (c_perms c) as [f d di l m r v]; cbn.
      repeat split; intros X; try discriminate; [destruct d|destruct di|destruct l|destruct m|destruct r|destruct v]; auto; discriminate.
Qed.
Theorem switches_perms : forall reqs load c c', switches load c reqs = Some c' ->
  perms_le (c_perms c') (c_perms c) /\ c_connect c' = c_connect c /\
  (c' = c \/ can_force (c_perms c') = false).
Proof.
  induction reqs as [|r rs IH]; intros load c c' H; cbn in H.
  - injection H as <-. split; [apply perms_le_refl|auto].
  - destruct (switch_to load c r) as [c1|] eqn:E; [|discriminate].
    destruct (IH load c1 c' H) as (P & C & F). destruct (switch_spec _ _ _ _ E) as [(_ & ->)|(_ & s & _ & _ & P1 & F1 & _ & C1 & _)]; auto.
    split; [eapply perms_le_trans; eauto|]. split; [congruence|]. right. destruct F as [->|F]; auto.
Qed.
(* Each switch needs the permission of the client switched to, for the client
   acted as so far: a chain. *)
Inductive chain (load : bytes -> option cconf) : bytes -> bytes -> Prop :=
| chain_refl : forall n, chain load n n
| chain_step : forall a b c s, load b = Some s -> In a (c_super s) \/ In a (c_restore s) -> chain load b c -> chain load a c.
Theorem switches_chain : forall reqs load c c', switches load c reqs = Some c' -> chain load (c_name c) (c_name c').
Proof.
  induction reqs as [|r rs IH]; intros load c c' H; cbn in H.
  - injection H as <-. constructor.
  - destruct (switch_to load c r) as [c1|] eqn:E; [|discriminate]. specialize (IH load c1 c' H).
    destruct (switch_spec _ _ _ _ E) as [(_ & ->)|(_ & s & L & P & _ & _ & N & _)]; auto.
    rewrite N in IH. eapply chain_step; eauto.
Qed.
(* Two switches reach a client that does not list the connected one. *)
Definition all_perms := mkp true true true true true true true.
Definition ex_load (n : bytes) : option cconf :=
  if beqb n (str "b") then Some (mkc (str "b") all_perms [] [str "a"] [] None)
  else if beqb n (str "c") then Some (mkc (str "c") all_perms [] [str "b"] [] None)
  else None.
Definition ex_a : cconf := mkc (str "a") all_perms [] [] (str "a") None.
Theorem switch_listed_refuted : exists load c reqs c' s, switches load c reqs = Some c' /\ load (c_name c') = Some s /\
  c_name c' <> c_name c /\ ~ In (c_name c) (c_super s) /\ ~ In (c_name c) (c_restore s).
Proof.
  exists ex_load, ex_a, [str "b"; str "c"].
  destruct (switches ex_load ex_a [str "b"; str "c"]) as [c'|] eqn:E; [|vm_compute in E; discriminate].
  exists c', (mkc (str "c") all_perms [] [str "b"] [] None).
  assert (N : c_name c' = str "c") by (vm_compute in E; injection E as <-; reflexivity). rewrite N.
  repeat split; auto; try (vm_compute; congruence); cbn; intuition discriminate.
Qed.
