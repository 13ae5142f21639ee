(* C55: restoring leaves the repository as it is. *)
From Verif Require Import Bytes Phase4Model Phase4Proofs RtmpModel RtmpProofs.

(* At every moment of the restore of one file each file but the two temporary
   ones has what it had, and in the end there are no temporary ones.  Temporary files
   that are there at first do no harm when they are files of their own, or, for
   tmp1, when the stored file is not compressed and may still be linked.  Missing:
   the other cases; there it is false, see C55_stopped_refuted. *)
Theorem C55_unchanged_partial : forall gunzip patch many path ds dls comp s,
  (forall n i, dir s n = Some i -> (i < next s)%nat) ->
  leftovers_ok many path comp s -> path <> tmp1 -> path <> tmp2 ->
  Forall2 (fun d dl => d <> tmp1 /\ d <> tmp2 /\ content s d = Some dl) ds dls ->
  let r := process_file gunzip patch many path ds comp s in
  Forall (fun s' => forall n, n <> tmp1 -> n <> tmp2 -> content s' n = content s n) (fst r) /\
  (forall n, n <> tmp1 -> n <> tmp2 -> content (endst (fst r) s) n = content s n) /\
  content (endst (fst r) s) tmp1 = None /\ content (endst (fst r) s) tmp2 = None.
Proof. exact restore_unchanged. Qed.
Print Assumptions C55_unchanged_partial.

(* What is sent then is what the reverse deltas make of the stored file. *)
Theorem C55_sent : forall gunzip patch many path d ds dl dls comp s,
  (forall n i, dir s n = Some i -> (i < next s)%nat) ->
  leftovers_ok many path comp s -> path <> tmp1 -> path <> tmp2 ->
  Forall2 (fun d dl => d <> tmp1 /\ d <> tmp2 /\ content s d = Some dl) (d :: ds) (dl :: dls) ->
  let r := make_file gunzip patch many path (d :: ds) comp s in
  snd r = true ->
  exists c p q, content s path = Some c /\ plain gunzip comp c = Some p /\ patched patch p (dl :: dls) = Some q /\
    content (endst (fst r) s) (best_of path (d :: ds)) = Some q.
Proof. exact restore_sends. Qed.
Print Assumptions C55_sent.

(* A restore stopped while tmp1 is a link to a stored file, then one of a
   compressed file: the stored file is overwritten. *)
Theorem C55_stopped_refuted : exists s path ds path2 ds2,
  In s (fst (process_file gunzip0 patch0 never path ds false fs_r)) /\
  content fs_r tmp1 = None /\ content fs_r tmp2 = None /\
  snd (process_file gunzip0 patch0 never path2 ds2 true s) = true /\
  content fs_r path = Some [1; 2; 3] /\
  content (endst (fst (process_file gunzip0 patch0 never path2 ds2 true s)) s) path = Some [4; 4].
Proof. exact restore_overwrites. Qed.
Print Assumptions C55_stopped_refuted.

(* ---------- non-vacuity ---------- *)

Lemma fs_r_bound n i : dir fs_r n = Some i -> (i < next fs_r)%nat.
Proof.
  intros H. unfold fs_r, fs_of in H; cbn [dir] in H. apply lookup_name_in in H. cbn in H.
  repeat (destruct H as [H|H]; [injection H as <- <-; cbn; lia|]). destruct H.
Qed.

Example ex_C55_deltas : Forall2 (fun d dl => d <> tmp1 /\ d <> tmp2 /\ content fs_r d = Some dl) [db; da] [[54; 9]; [54; 8]].
Proof. repeat constructor; discriminate. Qed.

(* Two deltas over a compressed file. *)
Example ex_C55_sent :
  snd (make_file gunzip0 patch0 never nb [db; da] true fs_r) = true /\
  content (endst (fst (make_file gunzip0 patch0 never nb [db; da] true fs_r)) fs_r) (best_of nb [db; da]) = Some [8] /\
  best_of nb [db; da] = tmp1 /\ best_of nb [db] = tmp2 /\ best_of nb [] = nb.
Proof. vm_compute. auto. Qed.

Example ex_C55_files : List.length (fst (process_file gunzip0 patch0 never nb [db; da] true fs_r)) = 10%nat.
Proof. vm_compute. reflexivity. Qed.

(* Nothing left over; and tmp1 left over as a link to the stored file. *)
Example ex_C55_start : leftovers_ok never nb true fs_r.
Proof. split; [|left]; discriminate. Qed.
Example ex_C55_left : let s := nth 0 (fst (process_file gunzip0 patch0 never na [da] false fs_r)) fs_r in
  leftovers_ok never na false s /\ content s tmp1 = content s na /\ content s na = Some [1; 2; 3] /\
  snd (process_file gunzip0 patch0 never na [da] false s) = true /\
  content (endst (fst (process_file gunzip0 patch0 never na [da] false s)) s) na = Some [1; 2; 3] /\
  content (endst (fst (process_file gunzip0 patch0 never na [da] false s)) s) tmp1 = None.
Proof.
  cbv zeta. split; [|vm_compute; auto]. split; [vm_compute; discriminate|]. right. split; [reflexivity|]. intros; reflexivity.
Qed.
