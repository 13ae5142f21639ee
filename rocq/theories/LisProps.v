(* C146: the addresses that a server listens on and the numbers of their children. *)
From Verif Require Import Bytes FrameModel DpthModel DpthProofs BuModel BuProofs LisModel LisProofs.
From Coq Require Import Lia.

Theorem C146_address : forall l, listen_config_ok l = true <-> address_ok l.
Proof. exact listen_iff. Qed.
Print Assumptions C146_address.
Theorem C146_limits : forall ls mcs x, max_children ls mcs = Some x <->
  Forall address_ok ls /\ Forall (fun m => 0 < atol m) mcs /\ (List.length mcs <= List.length ls)%nat /\ x = combine ls (numbers ls mcs).
Proof. exact limits_iff. Qed.
Print Assumptions C146_limits.
Theorem C146_all : forall ls mcs x, max_children ls mcs = Some x -> map fst x = ls /\ Forall (fun y => 0 < snd y) x.
Proof. exact all_limited. Qed.
Print Assumptions C146_all.
(* What is accepted can be split into an address and a port; a port of digits is from 1 to 65535. *)
Theorem C146_port_partial : forall l, listen_config_ok l = true -> exists a p, split_addr l = Some (a, p) /\ parts l a p /\ a <> [] /\
  (digits p -> 1 <= val p 0 <= 65535).
Proof.
  intros l h. apply listen_iff in h. destruct h as (_ & a & p & P & N & L & R). exists a, p.
  split; [apply parts_unique; auto|]. split; [auto|]. split; [auto|]. intros D. rewrite <- (port_number p D L). auto.
Qed.
Print Assumptions C146_port_partial.

(* A setting with two addresses and one number: the second has the number of the first. *)
Example C146_ex : max_children [str "0.0.0.0:4971"; str "::1:4972"; str "::1:4973"] [str "7"; str "9"]
  = Some [(str "0.0.0.0:4971", 7); (str "::1:4972", 9); (str "::1:4973", 9)].
Proof. vm_compute. reflexivity. Qed.
Example C146_ex_default : max_children [str "0.0.0.0:4971"] [] = Some [(str "0.0.0.0:4971", 5)].
Proof. vm_compute. reflexivity. Qed.
Example C146_ex_many : max_children [str "0.0.0.0:4971"] [str "7"; str "9"] = None.
Proof. vm_compute. reflexivity. Qed.
Example C146_ex_port : listen_config_ok (str "::1:65536") = false /\ listen_config_ok (str "::1:65535") = true /\ split_addr (str "::1:65535") = Some (str "::1", str "65535")
  /\ digits (str "65535") /\ val (str "65535") 0 = 65535.
Proof. repeat split; try (vm_compute; reflexivity). repeat constructor; vm_compute; intuition discriminate. Qed.
(* A port that is not a number is accepted if it begins with one. *)
Theorem C146_port_refuted : exists l a p, listen_config_ok l = true /\ split_addr l = Some (a, p) /\ ~ digits p.
Proof.
  exists (str "0.0.0.0:49x"), (str "0.0.0.0"), (str "49x"). repeat split; try (vm_compute; reflexivity).
  intros D. inversion D as [|? ? _ D1]; subst. inversion D1 as [|? ? _ D2]; subst. inversion D2 as [|? ? K _]; subst. vm_compute in K. intuition congruence.
Qed.
Print Assumptions C146_port_refuted.
