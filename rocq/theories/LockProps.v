(* C28. *)
From Verif Require Import Bytes LockModel LockProofs.

(* The full statement, mutual exclusion in every execution, is refuted: a
   process may lock a file that has been removed since it opened it. *)
Theorem C28_mutual_exclusion_refuted :
  exists es st p q, lrun (linit false) es = Some st /\ holding st p /\ holding st q /\ p <> q.
Proof. exact exclusion_refuted. Qed.
(* It holds when no lock is released while another process is between opening
   and locking; processes may crash at any point. *)
Theorem C28_mutual_exclusion_partial : forall b es st, calm (linit b) es -> lrun (linit b) es = Some st -> mutual_exclusion st.
Proof. exact calm_exclusion. Qed.
Theorem C28_no_release_calm : forall es st, (forall p, ~ In (EUnlink p) es) -> calm st es.
Proof. exact no_release_calm. Qed.
(* In every execution two holders never hold the same file. *)
Theorem C28_one_holder_per_file : forall b es st p q i, lrun (linit b) es = Some st ->
  l_proc st p = Holds i -> l_proc st q = Holds i -> p = q.
Proof. exact one_holder_per_file. Qed.

(* A calm execution with a refused attempt, a release, a crash and a test. *)
Definition ex_calm : list levent :=
  [EOpen 1; ETry 1 true; EOpen 2; ETry 2 true; ETestOpen 4; ETestTry 4; EUnlink 1; EOpen 3; EClose 1; ETry 3 true; EExit 3;
   EOpen 2; ETry 2 true].
Example ex_C28 : calm (linit false) ex_calm /\
  exists st, lrun (linit false) ex_calm = Some st /\ holding st 2.
Proof.
  split.
  - unfold ex_calm. vm_compute.
    repeat (split; [intros p H; first [discriminate H|intros q i; repeat match goal with |- context [match ?x with _ => _ end] => destruct x end; discriminate]|]).
    exact I.
  - eexists. split; [vm_compute; reflexivity|]. exists 2. reflexivity.
Qed.

Print Assumptions C28_mutual_exclusion_refuted.
Print Assumptions C28_mutual_exclusion_partial.
Print Assumptions C28_no_release_calm.
Print Assumptions C28_one_holder_per_file.
