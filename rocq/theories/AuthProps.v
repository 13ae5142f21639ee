(* C32, C33, C47. *)
From Verif Require Import Bytes AuthModel AuthProofs.

(* C32.  The full statement, for all outcomes of crypt(), is refuted below; it
   holds when crypt() gives a result and is built in. *)
Theorem C32_auth_exact_partial : forall crypt sf c password,
  (forall h, a_passwd c = Some h -> crypt password h <> None) -> a_check c = true ->
  check_client_and_password true crypt sf c password = true <-> matches_all crypt c password /\ a_keep c <> [].
Proof. exact auth_exact. Qed.
Theorem C32_auth_refuted : forall hc (crypt : bytes -> bytes -> option bytes) sf c h password,
  a_passwd c = Some h -> a_password c = None -> a_keep c <> [] -> (13 <= List.length h)%nat ->
  crypt password h = None \/ hc = false -> check_client_and_password hc crypt sf c password = true.
Proof. exact auth_refuted. Qed.
Theorem C32_auth_plain : forall hc crypt sf c p password, a_check c = true -> a_password c = Some p ->
  check_client_and_password hc crypt sf c password = true -> password = p.
Proof. exact auth_plain. Qed.
Theorem C32_auth_none : forall hc crypt sf c password, a_check c = true -> a_password c = None -> a_passwd c = None ->
  check_client_and_password hc crypt sf c password = false.
Proof. exact auth_none. Qed.

(* C33.  One switch. *)
Theorem C33_switch : forall load c orig c', switch_to load c orig = Some c' ->
  (orig = c_name c /\ c' = c) \/
  (c_name c <> orig /\ exists s, load orig = Some s /\ (In (c_name c) (c_super s) \/ In (c_name c) (c_restore s)) /\
   perms_le (c_perms c') (c_perms c) /\ can_force (c_perms c') = false /\
   c_name c' = orig /\ c_connect c' = c_connect c /\
   (~ In (c_name c) (c_super s) -> perms_le (c_perms c') (c_perms s))).
Proof. exact switch_spec. Qed.
(* Any sequence: permissions only shrink. *)
Theorem C33_switches_perms : forall reqs load c c', switches load c reqs = Some c' ->
  perms_le (c_perms c') (c_perms c) /\ c_connect c' = c_connect c /\ (c' = c \/ can_force (c_perms c') = false).
Proof. exact switches_perms. Qed.
(* Any sequence: the client reached lists the client acted as before, not
   necessarily the connected one. *)
Theorem C33_switches_chain_partial : forall reqs load c c', switches load c reqs = Some c' -> chain load (c_name c) (c_name c').
Proof. exact switches_chain. Qed.
Theorem C33_listed_refuted : exists load c reqs c' s, switches load c reqs = Some c' /\ load (c_name c') = Some s /\
  c_name c' <> c_name c /\ ~ In (c_name c) (c_super s) /\ ~ In (c_name c) (c_restore s).
Proof. exact switch_listed_refuted. Qed.

(* C47.  The name a connection ends up with, and the name of a client switched to. *)
Theorem C47_admitted_component : forall before fqdn lower sent n dir, dir <> [] ->
  admitted_name before fqdn lower sent = Some n -> component n /\ prepend_s dir n = dir ++ [47] ++ n.
Proof. exact admitted_component. Qed.
Theorem C47_switched_component : forall files dir before c s orig c', dir <> [] -> orig_request s = Some orig ->
  switch_to (load_clientconfdir files dir before) c orig = Some c' -> c_name c' <> c_name c ->
  component (c_name c') /\ exists t, files (dir ++ [47] ++ c_name c') = Some t.
Proof. exact switched_component. Qed.
(* While authenticating, the empty name is not refused: the configuration read
   is then the directory itself. *)
Theorem C47_cname_exact : forall before s, s <> [] ->
  cname_valid before s = true <-> hd0 s <> 46 /\ ~ In 47 s /\ ~ In 92 s /\ List.last s 0 <> 126.
Proof. exact cname_exact. Qed.
Theorem C47_cname_component_partial : forall before s dir, s <> [] -> dir <> [] -> cname_valid before s = true ->
  component s /\ prepend_s dir s = dir ++ [47] ++ s.
Proof. exact cname_component. Qed.
Theorem C47_client_conf_path_partial : forall (A : Type) (files : bytes -> option A) dir before fqdn lower sent x,
  dir <> [] -> client_name fqdn lower sent <> [] ->
  load_clientconfdir files dir before (client_name fqdn lower sent) = Some x ->
  exists s, component s /\ files (dir ++ [47] ++ s) = Some x.
Proof. exact client_conf_path. Qed.
Theorem C47_cname_refuted : exists fqdn lower sent before, client_name fqdn lower sent = [] /\ sent <> [] /\
  cname_valid before [] = true /\ forall dir, prepend_s dir [] = dir.
Proof. exact cname_refuted. Qed.

(* A client with both forms of password; crypt() here reverses. *)
Definition ex_crypt (p h : bytes) : option bytes := Some (rev p).
Definition ex_aconf : aconf := mka true (Some (str "4321drowssap-")) (Some (str "-password1234")) [str "7"].
Example ex_C32 : check_client_and_password true ex_crypt false ex_aconf (str "-password1234") = true /\
  check_client_and_password true ex_crypt false ex_aconf (str "-password1235") = false /\
  check_client_and_password true ex_crypt true ex_aconf [] = false /\
  matches_all ex_crypt ex_aconf (str "-password1234").
Proof.
  split; [reflexivity|]. split; [reflexivity|]. split; [reflexivity|]. split; [left; discriminate|]. split.
  - intros p H. injection H as <-. reflexivity.
  - intros h H. injection H as <-. split; [cbn; lia|reflexivity].
Qed.
Example ex_C32_refuted : check_client_and_password true (fun _ _ => None) false
  (mka true (Some (str "$badsalt$xxxxxxxxxx")) None [str "7"]) (str "anything") = true.
Proof. reflexivity. Qed.
(* a without delete switches to b, which allows everything. *)
Example ex_C33 : exists c', switch_to ex_load (mkc (str "a") (mkp true false true true true true false) [] [] (str "a") None) (str "b") = Some c' /\
  c_perms c' = mkp false false true true true true false /\
  switch_to ex_load (mkc (str "x") all_perms [] [] (str "x") None) (str "b") = None.
Proof. eexists. split; [reflexivity|]. split; reflexivity. Qed.
Example ex_C47 : cname_valid 0 (str "host1") = true /\ cname_valid 0 (str "..") = false /\
  cname_valid 0 (str "a/../b") = false /\ cname_valid 0 (str "conf~") = false /\
  prepend_s (str "/etc/burp/clientconfdir") (str "host1") = str "/etc/burp/clientconfdir/host1" /\
  client_name false true (str "Host1.Example") = str "host1" /\
  admitted_name 0 false true (str "Host1.Example") = Some (str "host1") /\
  admitted_name 0 false true (str ".Example") = None /\ orig_request (str "orig_client=b") = Some (str "b").
Proof. repeat split; reflexivity. Qed.
Example ex_C47_switch : exists c', switch_to (load_clientconfdir (fun p => if beqb p (str "/c/b") then ex_load (str "b") else None) (str "/c") 0)
  ex_a (str "b") = Some c' /\ c_name c' = str "b".
Proof. eexists. split; reflexivity. Qed.

Print Assumptions C32_auth_exact_partial.
Print Assumptions C32_auth_refuted.
Print Assumptions C32_auth_plain.
Print Assumptions C32_auth_none.
Print Assumptions C33_switch.
Print Assumptions C33_switches_perms.
Print Assumptions C33_switches_chain_partial.
Print Assumptions C33_listed_refuted.
Print Assumptions C47_admitted_component.
Print Assumptions C47_switched_component.
Print Assumptions C47_cname_exact.
Print Assumptions C47_cname_component_partial.
Print Assumptions C47_client_conf_path_partial.
Print Assumptions C47_cname_refuted.
