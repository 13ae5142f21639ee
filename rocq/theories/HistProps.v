(* C19: every kept backup restores what was backed up. *)
From Verif Require Import Bytes Phase4Model Phase4Proofs HistModel HistProofs.

(* The claim itself is false where C25 is: what is missing here is a backup
   finalised with a file at max_hardlinks, or with deltas for both compressed
   and uncompressed files, and stopped on the way (C25_copy_refuted,
   C25_link_limit_refuted, C25_wrong_file_refuted). *)
Theorem C19_restores_partial : forall gz gunzip sigof mkdelta patch,
  codec_laws gz gunzip sigof mkdelta patch ->
  forall older b newer d comp t,
  history gz gunzip sigof mkdelta patch (older ++ b :: newer) -> In (d, comp, t) (b_man b) ->
  restored gunzip patch (b :: newer) d comp = Some t.
Proof. exact history_restores. Qed.
Print Assumptions C19_restores_partial.

(* ---------- non-vacuity: three backups, one stopped on the way, one deleted ---------- *)

Lemma st1_prep : prep0 None es1 st1.
Proof.
  split; [|split; [reflexivity|split; [reflexivity|]]].
  - split; [repeat (constructor; [cbn; let H := fresh in intros H; repeat (destruct H as [H|H]; [discriminate H|]); exact H|]); constructor|].
    split; [repeat constructor|]. split; [repeat constructor|]. split; [|reflexivity].
    apply (carry_priv (written true)); [|vm_compute; reflexivity]. split; discriminate.
  - repeat constructor; eexists; reflexivity.
Qed.

Lemma end1_priv : priv (written true) end1.
Proof.
  apply (end_priv false es1 st1 st1 true never laws0 (proj1 st1_prep)).
  - repeat constructor.
  - constructor.
  - exact never_no_limit.
Qed.

Ltac no_dup := repeat (constructor; [cbn; let H := fresh in intros H; repeat (destruct H as [H|H]; [discriminate H|]); exact H|]); constructor.

Example ex_hist1 : hist0 R1.
Proof.
  apply (hist_backup _ _ _ _ _ [] es1 st1 st1 true never false man1 (fst (finalise gz0 gunzip0 sig0 mkdelta0 patch0 false never es1 st1))).
  - constructor.
  - exact st1_prep.
  - repeat constructor.
  - constructor.
  - exact never_no_limit.
  - apply fin0_split. vm_compute. reflexivity.
  - intros d comp t. split.
    + intros H. cbn in H. repeat destruct H as [H|H]; try (injection H as <- <- <-; eexists;
        split; [cbn; auto|split; [reflexivity|vm_compute; tauto]]). destruct H.
    + intros (k & H & H1 & _). cbn in H. repeat destruct H as [H|H]; try (injection H as <- <- <-; cbn in H1;
        injection H1 as <-; cbn; auto). destruct H.
Qed.

Lemma st2_prep : prep0 (newest R1) es2 st2.
Proof.
  split; [|split; [|split; [reflexivity|]]].
  - split; [no_dup|]. split; [repeat constructor|].
    split; [repeat (constructor; [vm_compute; tauto|]); constructor|]. split; [|reflexivity].
    apply (carry_priv (written true)); [exact end1_priv|vm_compute; reflexivity].
  - intros d. cbn [newest R1 after rev app nth_error data_of removelast new_after b_data].
    apply (carry_old (written true)), end1_priv.
  - repeat constructor; cbn; eexists; try split; cbn; eauto.
Qed.

Lemma st2'_reach : reach gz0 gunzip0 sig0 mkdelta0 patch0 false no_limit es2 st2 st2'.
Proof. apply reach_nth; [constructor|exact never_no_limit|vm_compute; reflexivity]. Qed.

Lemma es2_mode : one_mode true es2.
Proof. repeat constructor. Qed.

Lemma end2_priv : priv (written true) end2.
Proof. exact (end_priv false es2 st2 st2' true never laws0 (proj1 st2_prep) es2_mode st2'_reach never_no_limit). Qed.

Example ex_hist2 : hist0 R2.
Proof.
  apply (hist_backup _ _ _ _ _ R1 es2 st2 st2' true never true man2 (fst (finalise gz0 gunzip0 sig0 mkdelta0 patch0 false never es2 st2'))).
  - exact ex_hist1.
  - exact st2_prep.
  - exact es2_mode.
  - exact st2'_reach.
  - exact never_no_limit.
  - apply fin0_split. vm_compute. reflexivity.
  - intros d comp t. split.
    + intros H. cbn in H. repeat destruct H as [H|H]; try (injection H as <- <- <-; eexists;
        split; [cbn; eauto|split; [cbn; auto|vm_compute; tauto]]). destruct H.
    + intros (k & H & H1 & _). cbn in H. repeat destruct H as [H|H]; [..|destruct H]; injection H as <- <- <-; cbn in H1.
      * destruct H1 as [_ ->]. cbn; auto.
      * destruct H1 as [H1|[H1|[]]]; inversion H1; cbn; auto.
      * injection H1 as <-. cbn; auto.
Qed.

Lemma st3_prep : prep0 (newest R2) es3 st3.
Proof.
  split; [|split; [|split; [reflexivity|]]].
  - split; [no_dup|]. split; [repeat constructor|].
    split; [repeat (constructor; [vm_compute; tauto|]); constructor|]. split; [|reflexivity].
    apply (carry_priv (written true)); [exact end2_priv|vm_compute; reflexivity].
  - intros d. change (data_of (newest R2) d) with (content end2 (NFin d)).
    apply (carry_old (written true)), end2_priv.
  - repeat constructor; cbn; eexists; try split; cbn; eauto.
Qed.

Example ex_hist3 : hist0 R3.
Proof.
  apply (hist_backup _ _ _ _ _ R2 es3 st3 st3 true never false man3 (fst (finalise gz0 gunzip0 sig0 mkdelta0 patch0 true never es3 st3))).
  - exact ex_hist2.
  - exact st3_prep.
  - repeat constructor.
  - constructor.
  - exact never_no_limit.
  - apply fin0_split. vm_compute. reflexivity.
  - intros d comp t. split.
    + intros H. cbn in H. repeat destruct H as [H|H]; try (injection H as <- <- <-; eexists;
        split; [cbn; eauto|split; [cbn; auto|vm_compute; tauto]]). destruct H.
    + intros (k & H & H1 & _). cbn in H. repeat destruct H as [H|H]; [..|destruct H]; injection H as <- <- <-; cbn in H1.
      * destruct H1 as [_ ->]. cbn; auto.
      * destruct H1 as [H1|[H1|[H1|[]]]]; inversion H1; cbn; auto.
Qed.

(* The newest comes after a hardlinked one and can be deleted. *)
Example ex_hist4 : exists a b, hist0 [a; b] /\ b_man a = man1 /\ b_man b = man2 /\
  map (fun d => (b_data a d, b_rev a d, b_data b d)) [[97]; [98]; [99]] =
  [(None, Some [54; 1; 2; 3], Some [31; 7; 8]); (None, None, Some [31; 5]); (None, None, Some [6])] /\
  restored gunzip0 patch0 [a; b] [97] true = Some [1; 2; 3].
Proof.
  pose proof ex_hist3 as H. unfold R3, after in H.
  change (newest R2) with (Some (new_after end2 true man2)) in H. cbn [R2 after] in H.
  set (a := prev_after end2 (new_after end1 false man1)).
  set (b := prev_after end3 (new_after end2 true man2)).
  change (hist0 ([a; b] ++ [new_after end3 false man3])) in H.
  exists a, b. split; [|split; [reflexivity|split; [reflexivity|split; vm_compute; reflexivity]]].
  change [a; b] with ([a; b] ++ []). apply (hist_delete _ _ _ _ _ _ _ _ H).
  right. exists b. split; reflexivity.
Qed.
