(* C35. *)
From Verif Require Import Bytes FrameModel BuModel IpaclModel IpaclProofs.

Theorem C35_entry4_exact : forall ip n x, 0 <= n <= 32 -> elem_match (create4 ip n) (A4 x) = true <-> agree 32 n x ip.
Proof. exact elem4_exact. Qed.
Theorem C35_entry6_exact : forall ip n x, words ip -> words x -> 0 <= n <= 128 ->
  elem_match (create6 ip n) (A6 x) = true <-> agree 128 n (num6 x) (num6 ip).
Proof. exact elem6_exact. Qed.
(* From the text of an entry. *)
Theorem C35_text_exact : forall pton4 pton6, pton_ok pton4 pton6 -> forall s e x, addr_ok x ->
  emplace pton4 pton6 s = (Ok, Some e) -> elem_match e x = true <-> in_range pton4 pton6 s x.
Proof. exact emplace_exact. Qed.
Theorem C35_list_exact : forall l a, acl_test l a = true <-> exists e, In e l /\ elem_match e a = true.
Proof. exact acl_test_exact. Qed.
(* The decision for a connection, from the configured lines. *)
Theorem C35_check_exact : forall pton4 pton6, pton_ok pton4 pton6 -> forall lines x, addr_ok x ->
  check_ipacl pton4 pton6 lines x = true <->
  Forall (well_formed pton4 pton6) (entries lines) /\ (entries lines = [] \/ accepts pton4 pton6 (entries lines) x).
Proof. exact check_exact. Qed.

(* inet_pton() for two addresses. *)
Definition ex_pton4 (s : bytes) : option Z := if beqb s (str "192.168.1.5") then Some 0xC0A80105 else None.
Definition ex_pton6 (s : bytes) : option word4 := if beqb s (str "2001:db8::1") then Some (0x20010db8, 0, 0, 1) else None.
Example ex_C35 :
  check_ipacl ex_pton4 ex_pton6 [str "192.168.1.5/24, 2001:db8::1/65"] (A4 0xC0A801FF) = true /\
  check_ipacl ex_pton4 ex_pton6 [str "192.168.1.5/24, 2001:db8::1/65"] (A4 0xC0A80205) = false /\
  check_ipacl ex_pton4 ex_pton6 [str "192.168.1.5/24"; str "2001:db8::1/65"] (A6 (0x20010db8, 0, 0x7fffffff, 7)) = true /\
  check_ipacl ex_pton4 ex_pton6 [str "192.168.1.5/24"; str "2001:db8::1/65"] (A6 (0x20010db8, 0, 0x80000000, 7)) = false /\
  check_ipacl ex_pton4 ex_pton6 [str "192.168.1.5/33"] (A4 0xC0A80105) = false /\
  check_ipacl ex_pton4 ex_pton6 [str "192.168.1.5/2x4"] (A4 0xC0000000) = true /\
  check_ipacl ex_pton4 ex_pton6 [str " ; "] (A4 0) = true /\ entries [str "192.168.1.5/24, 2001:db8::1/65"] = [str "192.168.1.5/24"; str "2001:db8::1/65"].
Proof. vm_compute. repeat split. Qed.
Example ex_C35_ok : pton_ok ex_pton4 ex_pton6.
Proof.
  split; intros a ip; [unfold ex_pton4|unfold ex_pton6];
    match goal with |- context [beqb ?x ?y] => destruct (beqb x y) end; intros H; try discriminate; injection H as <-; cbn; unfold word; lia.
Qed.

Print Assumptions C35_entry4_exact.
Print Assumptions C35_entry6_exact.
Print Assumptions C35_text_exact.
Print Assumptions C35_list_exact.
Print Assumptions C35_check_exact.
