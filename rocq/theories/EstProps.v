(* C143: what the server says beforehand about a restore.
   C144: which backups can be removed on their own. *)
From Verif Require Import Bytes FrameModel DpthModel BuModel BuProofs CmdModel RestoreModel LinkModel.
From Verif Require Import CntrProofs CntrSumProofs DeleteModel DeleteProofs.
From Verif Require Import HlsModel HlsProofs HlsProps EstModel EstProofs.
From Coq Require Import Lia.

(* For each kind, the number said is the number of entries wanted of that kind. *)
Theorem C143_by_kind : forall start endfile ms c, In c rows ->
  num CntrModel.e_phase1 c (setup_cntr start endfile ms) = u64 (of_kind c (wanted ms)).
Proof. exact by_kind. Qed.
Print Assumptions C143_by_kind.
Theorem C143_total : forall start endfile ms, known (wanted ms) ->
  num CntrModel.e_phase1 CntrModel.CMD_GRAND_TOTAL (setup_cntr start endfile ms) = u64 (Z.of_nat (List.length (wanted ms))).
Proof. exact in_all. Qed.
Print Assumptions C143_total.
Theorem C143_bytes : forall start size endfile ms, noted size endfile -> known (wanted ms) ->
  num CntrModel.e_count CntrModel.CMD_BYTES_ESTIMATED (setup_cntr start endfile ms) = u64 (size_sum size (wanted ms)).
Proof. exact bytes_est. Qed.
Print Assumptions C143_bytes.
(* As many entries are sent as were said, under the conditions of C139. *)
Theorem C143_sent_partial : forall start endfile ms, links_ok (map fst ms) -> paths_ok (map fst ms) -> no_between ms -> known (wanted ms) ->
  num CntrModel.e_phase1 CntrModel.CMD_GRAND_TOTAL (setup_cntr start endfile ms) = u64 (Z.of_nat (List.length (fst (restore_run ms)))).
Proof. exact as_many. Qed.
Print Assumptions C143_sent_partial.

Definition ex_size (e : ent) : option Z := if e_cmd e =? CMD_FILE then Some 4 else None.
Definition ex_end (e : ent) : option bytes := if e_cmd e =? CMD_FILE then Some (str "4:8d777f385d3dfec8815d20f7496026dc") else None.
Example C143_ex_noted : noted ex_size ex_end.
Proof.
  intros e. unfold ex_size, ex_end. destruct (e_cmd e =? CMD_FILE); auto. split; [unfold is_u64; lia|].
  exists (str "8d777f385d3dfec8815d20f7496026dc"). vm_compute. reflexivity.
Qed.
Example C143_ex_known : known (wanted some_ms) /\ links_ok (map fst some_ms) /\ paths_ok (map fst some_ms) /\ no_between some_ms.
Proof.
  split; [|split; [exact C139_ex_links|split; [exact C139_ex_paths|exact C139_ex_between]]].
  apply Forall_forall. intros x [<-|[<-|[]]]; vm_compute; tauto.
Qed.
Definition all_ms : list (ent * bool) := map (fun x => (fst x, true)) some_ms.
Example C143_ex_all : let l := setup_cntr 0 ex_end all_ms in
  num CntrModel.e_phase1 CMD_FILE l = 1 /\ num CntrModel.e_phase1 CMD_HARD_LINK l = 2 /\ num CntrModel.e_phase1 CMD_METADATA l = 2 /\
  num CntrModel.e_phase1 CntrModel.CMD_GRAND_TOTAL l = 6 /\ num CntrModel.e_count CntrModel.CMD_BYTES_ESTIMATED l = 4.
Proof. vm_compute. auto. Qed.

(* By kind, and in bytes, what is said need not be what is sent: a link whose file is
   not restored is said to be a link without data, and sent as a file with data. *)
Theorem C143_kind_refuted : exists ms endfile size, noted size endfile /\
  links_ok (map fst ms) /\ paths_ok (map fst ms) /\ no_between ms /\ known (wanted ms) /\
  let l := setup_cntr 0 endfile ms in let sent := fst (restore_run ms) in
  num CntrModel.e_phase1 CMD_FILE l = 0 /\ of_kind CMD_FILE sent = 1 /\
  num CntrModel.e_phase1 CMD_HARD_LINK l = 1 /\ of_kind CMD_HARD_LINK sent = 0 /\
  num CntrModel.e_count CntrModel.CMD_BYTES_ESTIMATED l = 0 /\ size_sum size sent = 4.
Proof.
  exists some_ms, ex_end, ex_size. destruct C143_ex_known as (K & L & P & B).
  repeat (split; [first [assumption|exact C143_ex_noted]|]). vm_compute. repeat split.
Qed.
Print Assumptions C143_kind_refuted.
(* C144.  An archive is made if the option is set, or if there are at least two keep
   values and the first divides the number of backups before; there is no division by
   zero with values that were accepted. *)
Theorem C144_when : forall opt l ks bno, finalise_keep_args l = Some ks -> 1 <= bno < 2 ^ 64 ->
  exists b, need_hardlinked_archive opt ks bno = Some b /\
  (b = true <-> opt = true \/ exists p q r, l = p :: q :: r /\ (atoi p | bno - 1)).
Proof. exact archive_iff. Qed.
Print Assumptions C144_when.
Theorem C144_one_in_k : forall p q r ks m, finalise_keep_args (p :: q :: r) = Some ks -> 1 <= m -> m + atoi p <= 2 ^ 64 ->
  exists i, m <= i < m + atoi p /\ need_hardlinked_archive false ks i = Some true /\
  forall j, m <= j < m + atoi p -> need_hardlinked_archive false ks j = Some true -> j = i.
Proof. exact one_in_k. Qed.
Print Assumptions C144_one_in_k.
(* Of backups made one after the other, those that may be removed are the first, and
   those after an archive. *)
Theorem C144_removable : forall p q r ks l e, finalise_keep_args (p :: q :: r) = Some ks ->
  numbered 1 l -> made_with false ks l -> Z.of_nat (List.length l) < 2 ^ 64 ->
  In e (setup_indices l) -> (e_del e = true <-> b_bno (e_bu e) = 1 \/ (2 <= b_bno (e_bu e) /\ (atoi p | b_bno (e_bu e) - 2))).
Proof. exact removable. Qed.
Print Assumptions C144_removable.

Definition ex_bu (n : Z) (h : bool) : bu := mkbu (CntrModel.fmt_u n) (CntrModel.fmt_u n) n h.
Definition ex_l : list bu := [ex_bu 1 true; ex_bu 2 false; ex_bu 3 false; ex_bu 4 true; ex_bu 5 false; ex_bu 6 false; ex_bu 7 true].
Example C144_ex : finalise_keep_args [str "3"; str "2"] = Some [3; 3] /\ numbered 1 ex_l /\ made_with false [3; 3] ex_l.
Proof.
  split; [vm_compute; reflexivity|]. split; [cbn [numbered ex_l ex_bu b_bno]; repeat (split; [lia|]); exact I|].
  unfold made_with, ex_l. repeat (apply Forall_cons; [vm_compute; reflexivity|]). apply Forall_nil.
Qed.
Example C144_ex_del : map e_del (setup_indices ex_l) = [true; true; false; false; true; false; false].
Proof. vm_compute. reflexivity. Qed.
(* One value: none is an archive.  The option: each is.  Without the check of the
   configuration, a value of 0 would be a division by zero. *)
Example C144_ex_single : need_hardlinked_archive false [7] 8 = Some false /\ need_hardlinked_archive true [7] 9 = Some true /\
  need_hardlinked_archive false [0; 4] 8 = None /\ finalise_keep_args [str "0"; str "4"] = None.
Proof. vm_compute. auto. Qed.
