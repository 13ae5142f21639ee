(* C34. *)
From Verif Require Import Bytes RestoreModel AuthModel ActionModel ActionProofs.

Theorem C34_only_permitted : forall e p q d, In (Do d) (run_action e p q) -> permitted e p d.
Proof. exact only_permitted. Qed.
Theorem C34_lock_first : forall e p q d, In (Do d) (run_action e p q) ->
  (exists b, d = DidDelete b) \/ d = DidBackup ->
  v_lock e = LGot /\ run_action e p q = [TryLock; CleanRubble; Do d].
Proof. exact lock_first. Qed.
Theorem C34_unknown_nothing : forall e p q,
  (q_gen q = false \/
   forall w, In w ["list "; "listb "; "diff "; "restore "; "verify "; "backup"; "Delete "]%string -> starts_with (q_text q) (str w) = false) ->
  run_action e p q = [].
Proof. exact unknown_nothing. Qed.
Theorem C34_old_delete_nothing : forall e p q, starts_with (q_text q) (str "delete ") = true -> run_action e p q = [].
Proof. exact old_delete_nothing. Qed.
Theorem C34_refused_effects : forall e p q, (forall d, ~ In (Do d) (run_action e p q)) ->
  forall x, In x (run_action e p q) -> x = TryLock \/ x = CleanRubble \/ x = UnlinkRestoreFile.
Proof. exact refused_effects. Qed.
Theorem C34_permitted_done : forall e p s d, asks s d -> permitted e p d -> v_write e = true -> v_receive e = true ->
  In (Do d) (run_action e p (mkreq true s)).
Proof. exact permitted_done. Qed.

Definition ex_env : env := mkenv false LGot RNone 1 2 true true.
Definition ex_perms : perms := mkp false true false true false false true.
Example ex_C34 :
  run_action ex_env ex_perms (mkreq true (str "list 5:^/home")) = [Do (DidList (str "5") (Some (str "^/home")))] /\
  run_action ex_env ex_perms (mkreq true (str "diff 1:2")) = [] /\
  run_action ex_env ex_perms (mkreq true (str "restore 3")) = [] /\
  run_action (mkenv true LGot RNone 1 2 true true) ex_perms (mkreq true (str "restore restore_list 3")) =
    [UnlinkRestoreFile; Do (DidRestore true (str "3") None)] /\
  run_action ex_env ex_perms (mkreq true (str "verify 3:a:b")) = [Do (DidVerify false (str "3") (Some (str "a:b")))] /\
  run_action ex_env ex_perms (mkreq true (str "Delete 0000004")) = [TryLock; CleanRubble; Do (DidDelete (str "0000004"))] /\
  run_action ex_env ex_perms (mkreq true (str "backup_timed")) = [TryLock; CleanRubble; Do DidBackup] /\
  run_action (mkenv false LNotGot RNone 1 2 true true) ex_perms (mkreq true (str "backup")) = [TryLock] /\
  run_action ex_env ex_perms (mkreq true (str "rm -rf")) = [].
Proof. vm_compute. repeat split. Qed.
Example ex_C34_hyps : asks (str "list 5:^/home") (DidList (str "5") (Some (str "^/home"))) /\
  permitted ex_env ex_perms (DidDelete (str "4")).
Proof.
  split; [apply (ask_list (str "5") (Some (str "^/home"))); apply no_colonb; reflexivity|]. vm_compute. auto.
Qed.

Print Assumptions C34_only_permitted.
Print Assumptions C34_lock_first.
Print Assumptions C34_unknown_nothing.
Print Assumptions C34_old_delete_nothing.
Print Assumptions C34_refused_effects.
Print Assumptions C34_permitted_done.
