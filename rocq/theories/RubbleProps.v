(* C27: leftovers of an interrupted backup. *)
From Verif Require Import Bytes RubbleModel RubbleProofs.

(* When the next backup goes on with the directory: just when it is configured,
   attempts are left, the scan is complete, it is the client itself and the
   comparison of the includes says they are the same. *)
Theorem C27_resumed_when : forall c w,
  recover_working c w = Resume <->
  w_there w = true /\
  (w_p1tmp w = false /\ (w_p1 w = true \/ w_ch w <> None \/ w_un w <> None)) /\
  (c_max c <= 0 \/ match w_resumes w with None => 1 | Some n => n + 1 end <= c_max c) /\
  c_method c = MResume /\ c_super c = false /\ incexc_matches (w_inc w) (c_inc c) = true.
Proof. exact resume_iff. Qed.
Print Assumptions C27_resumed_when.

(* When it is deleted. *)
Theorem C27_deleted_when : forall c w,
  recover_working c w = Deleted <->
  w_there w = true /\
  (~ (w_p1tmp w = false /\ (w_p1 w = true \/ w_ch w <> None \/ w_un w <> None)) \/
   ~ (c_max c <= 0 \/ match w_resumes w with None => 1 | Some n => n + 1 end <= c_max c) \/
   c_method c = MDelete \/
   c_method c = MResume /\ c_super c = false /\ incexc_matches (w_inc w) (c_inc c) = false).
Proof. exact delete_iff. Qed.
Print Assumptions C27_deleted_when.

(* An incomplete scan is never used. *)
Theorem C27_incomplete_scan : forall inc c w,
  In w (new_scanning inc) -> recover_working c w <> Resume.
Proof. exact never_unscanned. Qed.
Print Assumptions C27_incomplete_scan.

(* Only the client itself resumes, and with the includes of the scan.  Missing:
   includes cut short at a multiple of 4096 bytes, backups begun without any, and
   directories half deleted; see the refuted ones below. *)
Theorem C27_same_settings_partial : forall ch un inc c w,
  left_by ch un inc w -> recover_working c w = Resume -> inc <> [] ->
  c_super c = false /\
  (c_inc c = inc \/
   exists k, List.length (c_inc c) = (k * Z.to_nat 4096)%nat /\ exists r, r <> [] /\ inc = c_inc c ++ r).
Proof. exact same_settings. Qed.
Print Assumptions C27_same_settings_partial.

(* A backup stopped, resumed, stopped again and so on is, when resumed and left to
   run, finished with every entry in its manifest.  Missing: stops after the merge
   of the manifests, see C27_entries_lost_refuted and C27_complete_deleted_refuted. *)
Theorem C27_resumed_finishes_partial : forall ch un inc c w,
  left_well ch un inc w -> ~ (w_man w <> None /\ w_ch w = None) -> recover_working c w = Resume ->
  resumed_ok ch un w = true /\ w_man (resumed_end ch un w) = Some (ch ++ un).
Proof. exact resumed_completes. Qed.
Print Assumptions C27_resumed_finishes_partial.

(* Stopped between the deletions of changed and unchanged: the first resume fails
   but makes an empty changed, the second takes that for the whole and makes a
   manifest without what the client has sent. *)
Theorem C27_entries_lost_refuted : exists c w w2,
  In w (new_scanned [1; 2] [3] (str "include = /home")) /\
  recover_working c w = Resume /\ resumed_ok [1; 2] [3] w = false /\ w2 = resumed_end [1; 2] [3] w /\
  recover_working c w2 = Resume /\ resumed_ok [1; 2] [3] w2 = true /\
  w_man w = Some [1; 2; 3] /\ w_man (resumed_end [1; 2] [3] w2) = Some [3].
Proof. exact merged_without_changed. Qed.
Print Assumptions C27_entries_lost_refuted.

(* Stopped after both, before the symlink is renamed: the complete backup is
   deleted, though resuming is configured. *)
Theorem C27_complete_deleted_refuted : exists c w,
  In w (new_scanned [1; 2] [3] (str "include = /home")) /\ c_method c = MResume /\
  c_inc c = str "include = /home" /\ w_man w = Some [1; 2; 3] /\ recover_working c w = Deleted.
Proof. exact complete_deleted. Qed.
Print Assumptions C27_complete_deleted_refuted.

Theorem C27_shorter_settings_refuted : exists old inc c w,
  In w (new_scanned [1; 2] [3] old) /\ c_inc c = inc /\ inc <> old /\ recover_working c w = Resume.
Proof. exact shorter_settings. Qed.
Print Assumptions C27_shorter_settings_refuted.

(* The includes have changed and the directory is being deleted; stopped, the rest
   of it is resumed with the other includes. *)
Theorem C27_half_deleted_refuted : exists old c w w',
  In w (new_scanned [1; 2] [3] old) /\ recover_working c w = Deleted /\ half_deleted w w' /\
  recover_working c w' = Resume /\ c_inc c <> old /\ w_ch w' = None /\ resumed_ok [1; 2] [3] w' = true.
Proof. exact half_deleted_resumed. Qed.
Print Assumptions C27_half_deleted_refuted.

(* ---------- non-vacuity ---------- *)

Definition inc0 : bytes := str "include = /home".

Example ex_C27_states : List.length (new_scanning inc0) = 4%nat /\ List.length (new_scanned [1; 2] [3] inc0) = 8%nat.
Proof. split; reflexivity. Qed.

(* Stopped in phase 2, resumed, stopped in phase 3, resumed. *)
Example ex_C27_twice :
  let w := nth 2 (new_scanned [1; 2] [3] inc0) w_empty in
  let w' := nth 4 (resumed [1; 2] [3] w) w_empty in
  left_well [1; 2] [3] inc0 w /\ left_well [1; 2] [3] inc0 w' /\
  recover_working (cfg0 inc0) w = Resume /\ recover_working (cfg0 inc0) w' = Resume /\
  w_p1 w' = false /\ ~ (w_man w' <> None /\ w_ch w' = None) /\
  w_man (resumed_end [1; 2] [3] w') = Some [1; 2; 3] /\ w_resumes (resumed_end [1; 2] [3] w') = Some 2.
Proof.
  cbn zeta. set (w := nth 2 (new_scanned [1; 2] [3] inc0) w_empty).
  assert (Hw : left_well [1; 2] [3] inc0 w) by (apply well_scanned, nth_In; cbn; lia).
  assert (Hr : recover_working (cfg0 inc0) w = Resume) by reflexivity.
  split; [exact Hw|]. split.
  - apply (well_again _ _ _ (cfg0 inc0) w); [exact Hw|intros [H _]; apply H; reflexivity|exact Hr|].
    apply nth_In. cbn. lia.
  - split; [exact Hr|]. split; [reflexivity|]. split; [reflexivity|].
    split; [intros [_ H]; discriminate H|]. split; reflexivity.
Qed.

Example ex_C27_settings :
  incexc_matches (Some inc0) inc0 = true /\ incexc_matches (Some inc0) (inc0 ++ str "1") = false /\
  incexc_matches (Some inc0) (str "include = /") = false /\ incexc_matches None inc0 = true /\
  incexc_matches (Some inc0) [] = true.
Proof. vm_compute. auto. Qed.

Example ex_C27_attempts :
  let w := nth 2 (new_scanned [1; 2] [3] inc0) w_empty in
  recover_working (mkcfg MResume 1 false inc0) w = Resume /\
  recover_working (mkcfg MResume 1 false inc0) (with_count w) = Deleted /\
  recover_working (mkcfg MResume 1 true inc0) w = Refused /\
  recover_working (mkcfg MDelete 1 true inc0) w = Deleted.
Proof. vm_compute. auto. Qed.
