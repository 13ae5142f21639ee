(* C147: moving through the status monitor with keys. *)
From Verif Require Import Bytes NavModel NavLogProofs NavProofs.
From Coq Require Import Lia.

Theorem C147_selected : forall l row p ks s, l <> [] -> Forall (Forall (fun f => 0 <= f < 2 ^ 13)) l -> 1 <= row -> p = PClients \/ p = PBackups ->
  turns l row ks (start l row p) = Some s -> selected_ok l s.
Proof. intros l row p ks s N F R P T. apply (turns_good l row ks _ s F R (start_good l row p N R P) T). Qed.
Print Assumptions C147_selected.
(* From any state that the keys lead to, each key moves as it says and what is selected is shown. *)
Theorem C147_clients : forall l row p ks s k i, l <> [] -> Forall (Forall (fun f => 0 <= f < 2 ^ 13)) l -> 1 <= row -> p = PClients \/ p = PBackups ->
  turns l row ks (start l row p) = Some s -> stays k -> n_page s = PClients -> n_client s = Some i ->
  exists s', turn l row k s = Some s' /\ n_page s' = PClients /\ n_client s' = Some (moves row k (List.length l) i) /\ shown s'.
Proof. intros l row p ks s k i N F R P T. apply clients_moved; auto. apply (turns_good l row ks _ s F R (start_good l row p N R P) T). Qed.
Print Assumptions C147_clients.
Theorem C147_backups : forall l row p ks s k i j, l <> [] -> Forall (Forall (fun f => 0 <= f < 2 ^ 13)) l -> 1 <= row -> p = PClients \/ p = PBackups ->
  turns l row ks (start l row p) = Some s -> stays k -> n_page s = PBackups -> n_client s = Some i -> n_backup s = Some (i, j) ->
  exists s', turn l row k s = Some s' /\ n_page s' = PBackups /\ n_client s' = Some i /\ n_backup s' = Some (i, moves row k (List.length (bus l i)) j) /\ shown s'.
Proof. intros l row p ks s k i j N F R P T. apply backups_moved; auto. apply (turns_good l row ks _ s F R (start_good l row p N R P) T). Qed.
Print Assumptions C147_backups.
Theorem C147_logs : forall l row p ks s c j o, l <> [] -> Forall (Forall (fun f => 0 <= f < 2 ^ 13)) l -> 1 <= row -> p = PClients \/ p = PBackups ->
  turns l row ks (start l row p) = Some s -> n_page s = PLogs -> n_backup s = Some (c, j) -> n_logop s = o -> o <> 0 ->
  let f := nth j (bus l c) 0 in
  (exists s', turn l row KDown s = Some s' /\ n_page s' = PLogs /\ n_backup s' = Some (c, j) /\ n_logop s' = hd o (filter (fun b => o <? b) (entries f))) /\
  (exists s', turn l row KUp s = Some s' /\ n_page s' = PLogs /\ n_backup s' = Some (c, j) /\ n_logop s' = List.last (filter (fun b => b <? o) (entries f)) o).
Proof. intros l row p ks s c j o N F R P T. apply logs_moved; auto. apply (turns_good l row ks _ s F R (start_good l row p N R P) T). Qed.
Print Assumptions C147_logs.
Theorem C147_safe_partial : forall l row p ks, l <> [] -> Forall (Forall (fun f => 0 <= f < 2 ^ 13)) l -> Forall (fun b => b <> []) l -> 1 <= row ->
  p = PClients \/ p = PBackups -> turns l row ks (start l row p) <> None.
Proof. intros l row p ks N F B R P. apply never_crash; auto. apply start_good; auto. Qed.
Print Assumptions C147_safe_partial.
(* Exactly when a NULL pointer is followed. *)
Theorem C147_crash : forall l row p ks s k, l <> [] -> Forall (Forall (fun f => 0 <= f < 2 ^ 13)) l -> 1 <= row -> p = PClients \/ p = PBackups ->
  turns l row ks (start l row p) = Some s -> (turn l row k s = None <->
  n_page s = PLogs /\ n_backup s = None /\ (k = KDown /\ n_logop s <> 0 \/ k = KUp /\ 32 < n_logop s)).
Proof. intros l row p ks s k N F R P T. apply crash_iff. apply (turns_good l row ks _ s F R (start_good l row p N R P) T). Qed.
Print Assumptions C147_crash.

(* The keys right, down and up on the logs of a backup. *)
Definition two : clients := [[192; 64]; []].
Definition keys (l : list key) : list (nat * key) := map (fun k => (0%nat, k)) l.
Example C147_ex : option_map (fun s => (n_page s, n_client s, n_backup s, n_logop s)) (turns two 24 (keys [KRight; KRight; KDown]) (start two 24 PClients))
  = Some (PLogs, Some 0%nat, Some (0%nat, 0%nat), 128).
Proof. vm_compute. reflexivity. Qed.
Example C147_ex_list : option_map (fun s => (n_page s, n_client s, n_backup s)) (turns two 24 (keys [KRight; KDown; KDown; KUp; KPageDown]) (start two 24 PClients))
  = Some (PBackups, Some 0%nat, Some (0%nat, 1%nat)).
Proof. vm_compute. reflexivity. Qed.
Example C147_ex_hyp : two <> [] /\ Forall (Forall (fun f => 0 <= f < 2 ^ 13)) two /\ Forall (fun b => b <> []) [[192; 64]; [32]].
Proof. split; [discriminate|]. split; repeat constructor; try discriminate; lia. Qed.
(* A log of a client is looked at, then a client without backups, and down is pressed. *)
Theorem C147_crash_refuted : exists l row ks, l <> [] /\ Forall (Forall (fun f => 0 <= f < 2 ^ 13)) l /\ 1 <= row /\ turns l row ks (start l row PClients) = None.
Proof.
  exists two, 24, (keys [KRight; KRight; KLeft; KLeft; KDown; KRight; KRight; KDown]).
  split; [discriminate|]. split; [apply C147_ex_hyp|]. split; [lia|]. vm_compute. reflexivity.
Qed.
Print Assumptions C147_crash_refuted.
(* The list of a client with more backups than fit is opened: the one selected is not shown. *)
Theorem C147_shown_refuted : exists l row ks s, Forall (Forall (fun f => 0 <= f < 2 ^ 13)) l /\ 1 <= row /\
  turns l row ks (start l row PClients) = Some s /\ n_page s = PBackups /\ n_backup s = Some (1%nat, 0%nat) /\ ~ shown s.
Proof.
  exists [[64]; repeat 64 40], 24, (keys [KDown; KRight]). eexists. split; [repeat constructor; lia|]. split; [lia|].
  split; [vm_compute; reflexivity|]. split; [reflexivity|]. split; [reflexivity|]. unfold shown. cbn. lia.
Qed.
Print Assumptions C147_shown_refuted.
