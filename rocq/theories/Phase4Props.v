(* C25: finalising a backup survives being stopped, and where it does not. *)
From Verif Require Import Bytes Phase4Model Phase4Proofs.

(* The full claim, with any number of stops, any mixture of compressed and
   uncompressed files and any limit on links, is false: see the refutations.
   Proved when no file has reached max_hardlinks, and the files sent as deltas
   are all stored compressed or all not. *)
Theorem C25_previous_safe_partial : forall gz gunzip sigof mkdelta patch hl,
  codec_laws gz gunzip sigof mkdelta patch ->
  forall es s0 cm s, starts gz patch es s0 -> one_mode cm es ->
  reach gz gunzip sigof mkdelta patch hl no_limit es s0 s ->
  Forall (fun e => holds_old gunzip patch hl e s) es /\
  (forall n, outside es n -> content s n = content s0 n).
Proof. exact previous_safe. Qed.
Print Assumptions C25_previous_safe_partial.

Theorem C25_completes_partial : forall gz gunzip sigof mkdelta patch hl,
  codec_laws gz gunzip sigof mkdelta patch ->
  forall es s0 cm s many, starts gz patch es s0 -> one_mode cm es ->
  reach gz gunzip sigof mkdelta patch hl no_limit es s0 s -> no_limit many ->
  let '(l, o) := finalise gz gunzip sigof mkdelta patch hl many es s in
  o = true /\
  Forall (fun e => holds_new gunzip e (endst l s)) es /\
  Forall (fun e => holds_old gunzip patch hl e (endst l s)) es /\
  (forall n, outside es n -> content (endst l s) n = content s0 n) /\
  (forall d, In d (dels (endst l s)) <-> is_bad es d).
Proof. exact completes. Qed.
Print Assumptions C25_completes_partial.

(* Whatever was there before: when finalising succeeds, each entry with data has a
   file in the new backup, or is noted to be taken out of the manifest. *)
Theorem C25_success_means : forall gz gunzip sigof mkdelta patch hl many es s,
  snd (finalise gz gunzip sigof mkdelta patch hl many es s) = true ->
  forall d comp k, In (d, comp, k) es ->
  let s' := endst (fst (finalise gz gunzip sigof mkdelta patch hl many es s)) s in
  content s' (NFin d) <> None \/ In d (dels s').
Proof. exact success_means. Qed.
Print Assumptions C25_success_means.

(* Stopped while copying a file that cannot be linked any more, the next run
   takes the piece for the whole. *)
Theorem C25_copy_refuted :
  exists es s0 s, starts gz0 patch0 es s0 /\ one_mode false es /\
    reach gz0 gunzip0 sig0 mkdelta0 patch0 false anything es s0 s /\
    snd (finalise gz0 gunzip0 sig0 mkdelta0 patch0 false never es s) = true /\
    ~ Forall (fun e => holds_new gunzip0 e (fin_end false never es s)) es.
Proof. exact copy_cut_short. Qed.
Print Assumptions C25_copy_refuted.

(* The link left behind by a stopped run is emptied by the copy made instead of
   a link in the next: the previous backup is lost. *)
Theorem C25_link_limit_refuted :
  exists es s0 s p, starts gz0 patch0 es s0 /\ one_mode false es /\
    reach gz0 gunzip0 sig0 mkdelta0 patch0 false anything es s0 s /\
    content s0 (NElse p) = Some [1; 2; 3] /\ content s (NElse p) = Some [].
Proof. exact link_truncated. Qed.
Print Assumptions C25_link_limit_refuted.

(* The link left behind by a stopped run is overwritten with the contents of the
   next compressed file: the previous backup has the wrong contents. *)
Theorem C25_wrong_file_refuted :
  exists es s0 s p, starts gz0 patch0 es s0 /\ reach gz0 gunzip0 sig0 mkdelta0 patch0 false no_limit es s0 s /\
    snd (finalise gz0 gunzip0 sig0 mkdelta0 patch0 false never es s) = true /\
    content s0 (NElse p) = Some [1; 2; 3] /\ content (fin_end false never es s) (NElse p) = Some [4; 4; 4] /\
    ~ Forall (fun e => holds_old gunzip0 patch0 false e (fin_end false never es s)) es.
Proof. exact wrong_file_overwritten. Qed.
Print Assumptions C25_wrong_file_refuted.

(* ---------- non-vacuity ---------- *)

Definition es_all : list entry :=
  [([97], true, KDelta [1; 2; 3] [7; 8] [54; 7; 8]); ([98], true, KBad [4; 4; 4] [0; 9]);
   ([99], false, KNew [5] None); ([100], true, KSame [31; 6]); ([101], false, KRelink [3; 3])].
Definition fs_all : fs :=
  fs_of [(NOld [97], 0%nat); (NElse [97], 0%nat); (NFwd [97], 1%nat);
         (NOld [98], 2%nat); (NElse [98], 2%nat); (NFwd [98], 3%nat);
         (NNew [99], 4%nat); (NOld [100], 5%nat); (NElse [100], 5%nat); (NRelink [101], 6%nat)]
        [[31; 1; 2; 3]; [54; 7; 8]; [31; 4; 4; 4]; [0; 9]; [5]; [31; 6]; [3; 3]].

Example ex_C25_laws : codec_laws gz0 gunzip0 sig0 mkdelta0 patch0.
Proof. exact laws0. Qed.

Example ex_C25_starts : starts gz0 patch0 es_all fs_all /\ one_mode true es_all.
Proof. split; [start0|repeat constructor]. Qed.

(* Stopped in the middle of writing the new file, and again at the reverse delta. *)
Definition s_twice : fs := stop_at false never es_all 12 (stop_at false never es_all 5 fs_all).
Example ex_C25_reach : reach gz0 gunzip0 sig0 mkdelta0 patch0 false no_limit es_all fs_all s_twice.
Proof.
  apply reach_nth; [|intro; reflexivity|vm_compute; reflexivity].
  apply reach_nth; [constructor|intro; reflexivity|vm_compute; reflexivity].
Qed.
Example ex_C25_there :
  (content s_twice (NNew [97]), content s_twice (NRev [97]), content s_twice (NOld [97]))
  = (Some [31; 7; 8], Some [54], Some [31; 1; 2; 3]).
Proof. vm_compute. reflexivity. Qed.
Example ex_C25_end :
  let s := fin_end false never es_all s_twice in
  (map (fun d => content s (NFin d)) [[97]; [98]; [99]; [100]; [101]], content s (NRev [97]),
   map (fun d => content s (NOld d)) [[97]; [98]; [99]; [100]; [101]], dels s)
  = ([Some [31; 7; 8]; None; Some [5]; Some [31; 6]; Some [3; 3]], Some [54; 1; 2; 3],
     [None; Some [31; 4; 4; 4]; None; None; None], [[98]]).
Proof. vm_compute. reflexivity. Qed.
(* Without the data it fails. *)
Example ex_C25_missing :
  snd (finalise gz0 gunzip0 sig0 mkdelta0 patch0 false never es_all (fs_of [] [])) = false /\
  snd (finalise gz0 gunzip0 sig0 mkdelta0 patch0 false never es_all s_twice) = true.
Proof. vm_compute. auto. Qed.
