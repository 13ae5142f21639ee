(* Proofs about the status monitor: what it tells about whom. *)
From Verif Require Import Bytes FrameModel DpthModel BuModel CmdModel UtilModel AuthModel CntrModel CntrProofs MonModel MonProofs.

(* ---------- who may look ---------- *)

Theorem permitted_exact : forall n m sup restore super,
  permitted n m sup restore super = true <->
  exists w, m = Some w /\ (n = w \/ (sup = false /\ (In w restore \/ In w super))).
Proof.
  assert (X : forall w l, existsb (fun r => beqb w r) l = true <-> In w l).
  { intros w l. rewrite existsb_exists. split; [intros (x & I & E); apply beqb_eq in E; subst; auto|].
    intros I; exists w; split; auto. apply beqb_eq; auto. }
  intros n m sup restore super. unfold permitted. destruct m as [w|].
  2:{ split; [discriminate|intros (w & E & _); discriminate]. }
  destruct (beqb n w) eqn:E.
  { apply beqb_eq in E. split; auto. intros _. exists w; auto. }
  assert (NE : n <> w) by (intros ->; rewrite (proj2 (beqb_eq w w) eq_refl) in E; discriminate).
  destruct sup.
  { split; [discriminate|]. intros (x & Ex & [A|[A _]]); [|discriminate]. injection Ex as <-. contradiction. }
  destruct (existsb (fun r => beqb w r) restore) eqn:R.
  { split; auto. intros _. exists w. split; auto. right. split; auto. left. apply X; auto. }
  rewrite X. split.
  - intros I. exists w. auto.
  - intros (x & Ex & [A|[_ [A|A]]]); injection Ex as <-; [contradiction| |auto]. apply X in A. congruence.
Qed.

(* ---------- messages and permission ---------- *)

Lemma set_run_perm : forall s c, w_permitted (set_run s c) = w_permitted c.
Proof. intros s c. unfold set_run. destruct (w_permitted c) eqn:E; auto. Qed.
Lemma set_run_name : forall s c, w_name (set_run s c) = w_name c.
Proof. intros s c. unfold set_run. destruct (w_permitted c); auto. Qed.
Lemma set_run_cntrs : forall s c, w_cntrs (set_run s c) = w_cntrs c.
Proof. intros s c. unfold set_run. destruct (w_permitted c); auto. Qed.
Lemma cntr_one_keeps : forall s pid c, w_permitted (snd (cntr_one s pid c)) = w_permitted c /\ w_name (snd (cntr_one s pid c)) = w_name c.
Proof.
  intros s pid c. unfold cntr_one. destruct (fill_pid s pid (w_cntrs (set_run RRunning c))) as [[e l]|].
  - cbn [snd set_cntrs w_permitted w_name]. rewrite set_run_perm, set_run_name. auto.
  - destruct (fill s (new_chl pid)). cbn [snd set_cntrs w_permitted w_name]. rewrite set_run_perm, set_run_name. auto.
Qed.

(* Those that may be seen. *)
Definition seen (l : list cst) : list cst := filter w_permitted l.

Lemma cntr_all_seen : forall s n pid l l', cntr_all s n pid l = Some l' -> cntr_all s n pid (seen l) = Some (seen l').
Proof.
  induction l as [|c l IH]; intros l' H; cbn [cntr_all] in H.
  - injection H as <-. reflexivity.
  - destruct (beqb (w_name c) n) eqn:B.
    + pose proof (cntr_one_keeps s pid c) as [P N]. destruct (cntr_one s pid c) as [e c'] eqn:E. cbn [snd] in P, N.
      destruct (e =? 0) eqn:Ez; [|discriminate]. destruct (cntr_all s n pid l) as [r|] eqn:R; [|discriminate].
      injection H as <-. specialize (IH r eq_refl). unfold seen in *. cbn [filter]. rewrite P.
      destruct (w_permitted c); auto. cbn [cntr_all]. rewrite B, E, Ez, IH. reflexivity.
    + destruct (cntr_all s n pid l) as [r|] eqn:R; [|discriminate]. injection H as <-. specialize (IH r eq_refl).
      unfold seen in *. cbn [filter]. destruct (w_permitted c); auto. cbn [cntr_all]. rewrite B, IH. reflexivity.
Qed.
Lemma mark_client_seen : forall n pid bno l, NoDup (map w_name l) ->
  seen (mark_client n pid bno l) = mark_client n pid bno (seen l).
Proof.
  induction l as [|c l IH]; intros D; [reflexivity|]. cbn [mark_client map] in *. inversion D; subst.
  unfold seen in *. destruct (beqb (w_name c) n) eqn:B.
  - cbn [filter]. unfold set_cntrs at 1. cbn [w_permitted]. rewrite set_run_perm.
    destruct (w_permitted c) eqn:P.
    + cbn [mark_client]. rewrite B. reflexivity.
    + apply beqb_eq in B. subst n. clear IH D H2. induction l as [|d l IH]; [reflexivity|].
      cbn [filter map] in *. destruct (w_permitted d); [|apply IH; intros I; apply H1; right; auto].
      cbn [mark_client]. destruct (beqb (w_name d) (w_name c)) eqn:B2.
      * exfalso. apply H1. left. apply beqb_eq; auto.
      * f_equal. apply IH. intros I; apply H1; right; auto.
  - cbn [filter]. destruct (w_permitted c); auto. cbn [mark_client]. rewrite B. f_equal. auto.
Qed.
Lemma mark_client_names : forall n pid bno l, map w_name (mark_client n pid bno l) = map w_name l.
Proof.
  induction l as [|c l IH]; [reflexivity|]. cbn [mark_client]. destruct (beqb (w_name c) n); cbn [map]; [|f_equal; auto].
  cbn [set_cntrs w_name]. rewrite set_run_name. reflexivity.
Qed.
Lemma mark_all_names : forall ts l, map w_name (mark_all ts l) = map w_name l.
Proof.
  induction ts as [|t ts IH]; intros l; [reflexivity|]. cbn [mark_all].
  destruct (extract_client_pid_bno t (-1) 0) as [[n pid] bno]. rewrite IH. apply mark_client_names.
Qed.
Lemma mark_all_seen : forall ts l, NoDup (map w_name l) -> seen (mark_all ts l) = mark_all ts (seen l).
Proof.
  induction ts as [|t ts IH]; intros l D; [reflexivity|]. cbn [mark_all].
  destruct (extract_client_pid_bno t (-1) 0) as [[n pid] bno].
  rewrite IH by (rewrite mark_client_names; auto). rewrite mark_client_seen by auto. reflexivity.
Qed.
Lemma seen_map : forall f l, (forall c, w_permitted (f c) = w_permitted c) -> seen (map f l) = map f (seen l).
Proof.
  intros f l H. unfold seen. induction l as [|c l IH]; [reflexivity|]. cbn [map filter]. rewrite H.
  destruct (w_permitted c); cbn [map]; [f_equal|]; auto.
Qed.
Lemma unmark_name : forall c, w_name (unmark c) = w_name c.
Proof. intros c. unfold unmark. rewrite set_run_name. reflexivity. Qed.
Lemma unmark_perm : forall c, w_permitted (unmark c) = w_permitted c.
Proof. intros c. unfold unmark. rewrite set_run_perm. reflexivity. Qed.
Lemma map_names : forall f l, (forall c, w_name (f c) = w_name c) -> map w_name (map f l) = map w_name l.
Proof. intros f l H. induction l; cbn [map]; [reflexivity|]. rewrite H, IHl. reflexivity. Qed.
Lemma clients_list_names : forall s l, map w_name (parse_clients_list s l) = map w_name l.
Proof.
  intros s l. unfold parse_clients_list. destruct l as [|c l]; [reflexivity|]. destruct (toks s []) as [|t ts]; [reflexivity|].
  rewrite map_names by reflexivity. rewrite mark_all_names. apply map_names. apply unmark_name.
Qed.
Lemma mark_all_nil : forall ts, mark_all ts [] = [].
Proof.
  induction ts as [|t ts IH]; [reflexivity|]. cbn [mark_all].
  destruct (extract_client_pid_bno t (-1) 0) as [[n pid] bno]. exact IH.
Qed.
Lemma clients_list_seen : forall s l, NoDup (map w_name l) ->
  seen (parse_clients_list s l) = parse_clients_list s (seen l).
Proof.
  intros s l D. unfold parse_clients_list. destruct l as [|c l]; [reflexivity|]. destruct (toks s []) as [|t ts].
  { destruct (seen (c :: l)) eqn:E; reflexivity. }
  rewrite seen_map by reflexivity. rewrite mark_all_seen.
  2:{ rewrite map_names; [exact D|apply unmark_name]. }
  rewrite seen_map by apply unmark_perm.
  destruct (seen (c :: l)) eqn:E; [|reflexivity]. cbn [map]. rewrite mark_all_nil. reflexivity.
Qed.
Lemma cntr_all_names : forall s n pid l l', cntr_all s n pid l = Some l' -> map w_name l' = map w_name l.
Proof.
  induction l as [|c l IH]; intros l' H; cbn [cntr_all] in H; [injection H as <-; reflexivity|].
  destruct (beqb (w_name c) n).
  - pose proof (cntr_one_keeps s pid c) as [P N]. destruct (cntr_one s pid c) as [e c']. cbn [snd] in P, N.
    destruct (e =? 0); [|discriminate]. destruct (cntr_all s n pid l) as [r|]; [|discriminate].
    injection H as <-. cbn [map]. rewrite N. f_equal. auto.
  - destruct (cntr_all s n pid l) as [r|]; [|discriminate]. injection H as <-. cbn [map]. f_equal. auto.
Qed.
Lemma parent_names : forall s l l', parse_parent_data s l = Some l' -> map w_name l' = map w_name l.
Proof.
  intros s l l' H. unfold parse_parent_data in H. destruct (RestoreModel.starts_with s (str "cntr")).
  - unfold parse_cntr_data in H. destruct (after_tab s); [|injection H as <-; reflexivity].
    destruct (extract_client_pid_bno (upto_tab b) (-1) 0) as [[n pid] ?]. eapply cntr_all_names; eauto.
  - destruct (RestoreModel.starts_with s (str "clients")); injection H as <-; [|reflexivity]. apply clients_list_names.
Qed.
Lemma parent_seen : forall s l l', NoDup (map w_name l) -> parse_parent_data s l = Some l' ->
  parse_parent_data s (seen l) = Some (seen l').
Proof.
  intros s l l' D H. unfold parse_parent_data in *. destruct (RestoreModel.starts_with s (str "cntr")).
  - unfold parse_cntr_data in *. destruct (after_tab s); [|injection H as <-; reflexivity].
    destruct (extract_client_pid_bno (upto_tab b) (-1) 0) as [[n pid] ?]. apply cntr_all_seen; auto.
  - destruct (RestoreModel.starts_with s (str "clients")); injection H as <-; [|reflexivity].
    rewrite clients_list_seen by auto. reflexivity.
Qed.
Lemma send_clients_seen : forall now pv l, send_clients now pv l = send_clients now pv (seen l).
Proof.
  intros now pv. unfold seen. induction l as [|c l IH]; [reflexivity|]. cbn [send_clients filter].
  destruct (w_permitted c) eqn:P; auto. cbn [send_clients]. rewrite P, <- IH. reflexivity.
Qed.

(* Requests that name no client. *)
Definition unnamed (e : ev) : Prop :=
  match e with EParent _ => True | EReq _ s => q_client (parse_cmd s [] None noreq) = None end.
Lemma unnamed_answer : forall now s pv l, q_client (parse_cmd s [] None noreq) = None ->
  exists pv', forall l', (l' = l \/ l' = seen l) ->
    parse_client_data now s pv l' = (l', pv', snd (parse_client_data now s pv l)).
Proof.
  intros now s pv l Q. unfold parse_client_data. rewrite Q.
  destruct (q_command (parse_cmd s [] None noreq)) as [cmd|].
  { destruct (do_command cmd pv) as [[v w]|]; eexists; intros; reflexivity. }
  match goal with |- context [if ?b then (l, pv, AWarn ?m) else _] => destruct b end; exists pv; intros l' [->| ->]; auto.
  cbn [snd]. rewrite <- send_clients_seen. reflexivity.
Qed.
(* What is answered to them depends on the clients that may be seen only. *)
Theorem listing_depends : forall evs pv l as_ l' pv', NoDup (map w_name l) -> Forall unnamed evs ->
  serve evs pv l = (as_, Some (l', pv')) -> serve evs pv (seen l) = (as_, Some (seen l', pv')).
Proof.
  induction evs as [|e evs IH]; intros pv l as_ l' pv' D U H; cbn [serve] in *.
  - injection H as <- <- <-. reflexivity.
  - inversion U; subst. destruct e as [s|now s].
    + destruct (parse_parent_data s l) as [l1|] eqn:E; [|discriminate].
      rewrite (parent_seen _ _ _ D E). eapply IH; eauto. rewrite (parent_names _ _ _ E). auto.
    + cbn [unnamed] in H2. destruct (unnamed_answer now s pv l H2) as (pv1 & A).
      rewrite (A (seen l)) by auto. rewrite (A l) in H by auto.
      destruct (snd (parse_client_data now s pv l)); try discriminate;
      destruct (serve evs pv1 l) as [as1 z] eqn:Z; injection H as <- ->; rewrite (IH _ _ _ _ _ D H3 Z); reflexivity.
Qed.
(* And names those only. *)
Lemma send_clients_names : forall now pv l o, send_clients now pv l = Good o -> map o_name o = map w_name (seen l).
Proof.
  intros now pv. unfold seen. induction l as [|c l IH]; intros o H; cbn [send_clients filter] in *; [injection H as <-; reflexivity|].
  destruct (w_permitted c); auto.
  unfold send_client, bind in H. destruct (send_backups now pv c (latest (w_bu c)) None None); try discriminate.
  destruct (send_clients now pv l); try discriminate. injection H as <-. cbn [map o_name]. f_equal. auto.
Qed.
Theorem listing_names : forall now s pv l o, q_client (parse_cmd s [] None noreq) = None ->
  snd (parse_client_data now s pv l) = AClients o -> map o_name o = map w_name (seen l).
Proof.
  intros now s pv l o Q H. unfold parse_client_data in H. rewrite Q in H.
  destruct (q_command (parse_cmd s [] None noreq)) as [cmd|].
  { destruct (do_command cmd pv) as [[v w]|]; discriminate. }
  match type of H with context [if ?b then (l, pv, AWarn ?m) else _] => destruct b end; [discriminate|].
  cbn [snd] in H. destruct (send_clients now pv l) eqn:E; try discriminate. injection H as <-.
  eapply send_clients_names; eauto.
Qed.

(* ---------- backups of others ---------- *)

(* The same but for what is on disk, and has been read of it, for clients that
   may not be seen. *)
Definition alike (a b : cst) : Prop :=
  a = b \/ (w_permitted a = false /\ w_permitted b = false /\ w_name a = w_name b /\ w_labels a = w_labels b /\
            w_run a = w_run b /\ w_cntrs a = w_cntrs b).
Definition all_alike : list cst -> list cst -> Prop := Forall2 alike.

Lemma alike_fields : forall a b, alike a b -> w_name a = w_name b /\ w_labels a = w_labels b /\ w_run a = w_run b /\ w_cntrs a = w_cntrs b /\ w_permitted a = w_permitted b.
Proof. intros a b [->|(P1 & P2 & N & L & R & C)]; repeat split; auto. congruence. Qed.
Lemma alike_set_run : forall s a b, alike a b -> alike (set_run s a) (set_run s b).
Proof.
  intros s a b [->|(P1 & P2 & H)]; [left; auto|]. unfold set_run. rewrite P1, P2. right. auto.
Qed.
Lemma alike_set_cntrs : forall l a b, alike a b -> alike (set_cntrs l a) (set_cntrs l b).
Proof. intros l a b [->|(P1 & P2 & N & L & R & C)]; [left; auto|]. right. cbn. auto 10. Qed.
Lemma alike_cntr_one : forall s pid a b, alike a b ->
  fst (cntr_one s pid a) = fst (cntr_one s pid b) /\ alike (snd (cntr_one s pid a)) (snd (cntr_one s pid b)).
Proof.
  intros s pid a b H. unfold cntr_one. rewrite !set_run_cntrs. destruct (alike_fields a b H) as (_ & _ & _ & C & _). rewrite C.
  destruct (fill_pid s pid (w_cntrs b)) as [[e l]|].
  - split; auto. apply alike_set_cntrs, alike_set_run; auto.
  - destruct (fill s (new_chl pid)). split; auto. apply alike_set_cntrs, alike_set_run; auto.
Qed.
Lemma alike_cntr_all : forall s n pid l1 l2, all_alike l1 l2 ->
  match cntr_all s n pid l1, cntr_all s n pid l2 with
  | Some a, Some b => all_alike a b | None, None => True | _, _ => False
  end.
Proof.
  induction 1; cbn [cntr_all]; [constructor|]. destruct (alike_fields x y H) as (N & _). rewrite N.
  destruct (beqb (w_name y) n).
  - destruct (alike_cntr_one s pid x y H) as [A B]. destruct (cntr_one s pid x) as [e1 c1], (cntr_one s pid y) as [e2 c2].
    cbn [fst snd] in *. subst e2. destruct (e1 =? 0); [|exact I].
    destruct (cntr_all s n pid l), (cntr_all s n pid l'); auto. constructor; auto.
  - destruct (cntr_all s n pid l), (cntr_all s n pid l'); auto. constructor; auto.
Qed.
Lemma alike_mark_client : forall n pid bno l1 l2, all_alike l1 l2 -> all_alike (mark_client n pid bno l1) (mark_client n pid bno l2).
Proof.
  induction 1; cbn [mark_client]; [constructor|]. destruct (alike_fields x y H) as (N & _ & _ & C & _). rewrite N.
  destruct (beqb (w_name y) n); constructor; auto. rewrite !set_run_cntrs, C. apply alike_set_cntrs, alike_set_run; auto.
Qed.
Lemma alike_mark_all : forall ts l1 l2, all_alike l1 l2 -> all_alike (mark_all ts l1) (mark_all ts l2).
Proof.
  induction ts as [|t ts IH]; intros l1 l2 H; [exact H|]. cbn [mark_all].
  destruct (extract_client_pid_bno t (-1) 0) as [[n pid] bno]. apply IH, alike_mark_client, H.
Qed.
Lemma alike_map : forall f l1 l2, (forall a b, alike a b -> alike (f a) (f b)) -> all_alike l1 l2 -> all_alike (map f l1) (map f l2).
Proof. induction 2; cbn [map]; constructor; auto. Qed.
Lemma alike_parent : forall s l1 l2, all_alike l1 l2 ->
  match parse_parent_data s l1, parse_parent_data s l2 with
  | Some a, Some b => all_alike a b | None, None => True | _, _ => False
  end.
Proof.
  intros s l1 l2 H. unfold parse_parent_data. destruct (RestoreModel.starts_with s (str "cntr")).
  - unfold parse_cntr_data. destruct (after_tab s); auto.
    destruct (extract_client_pid_bno (upto_tab b) (-1) 0) as [[n pid] ?]. apply alike_cntr_all; auto.
  - destruct (RestoreModel.starts_with s (str "clients")); auto.
    unfold parse_clients_list. destruct H; [constructor|]. destruct (toks s []) as [|t ts]; [constructor; auto|].
    apply alike_map.
    { intros a b A. unfold clean_up. destruct (alike_fields a b A) as (_ & _ & _ & C & _). rewrite C. apply alike_set_cntrs; auto. }
    apply alike_mark_all. apply (alike_map unmark (x :: l) (y :: l')); [|constructor; auto].
    intros a b A. unfold unmark. destruct (alike_fields a b A) as (_ & _ & _ & C & _). rewrite C. apply alike_set_run, alike_set_cntrs; auto.
Qed.
Lemma alike_seen : forall l1 l2, all_alike l1 l2 -> seen l1 = seen l2.
Proof.
  unfold seen. induction 1; [reflexivity|]. cbn [filter]. destruct H as [->|(P1 & P2 & _)].
  - destruct (w_permitted y); [f_equal|]; auto.
  - rewrite P1, P2. auto.
Qed.
Lemma set_backup_alike : forall a b, alike a b ->
  alike (set_backup_list a) (set_backup_list b) /\ w_bu (set_backup_list a) = w_bu (set_backup_list b).
Proof.
  intros a b [->|(P1 & P2 & N & L & R & C)]; [split; [left|]; auto|]. unfold set_backup_list. rewrite P1, P2. split; auto.
  right. cbn. auto 10.
Qed.
Lemma alike_by_name : forall n l1 l2, all_alike l1 l2 ->
  match by_name n l1, by_name n l2 with Some a, Some b => alike a b | None, None => True | _, _ => False end.
Proof.
  induction 1; cbn [by_name]; auto. destruct (alike_fields x y H) as (N & _). rewrite N. destruct (beqb (w_name y) n); auto.
Qed.
Lemma alike_load : forall n l1 l2, all_alike l1 l2 -> all_alike (load_by_name n l1) (load_by_name n l2).
Proof.
  induction 1; cbn [load_by_name]; [constructor|]. destruct (alike_fields x y H) as (N & _). rewrite N.
  destruct (beqb (w_name y) n); constructor; auto. apply set_backup_alike; auto.
Qed.
Lemma send_backup_alike : forall now pv a b u lf br, w_cntrs a = w_cntrs b -> send_backup now pv a u lf br = send_backup now pv b u lf br.
Proof. intros. unfold send_backup. rewrite H. reflexivity. Qed.
Lemma send_backups_alike : forall now pv a b l lf br, w_cntrs a = w_cntrs b -> send_backups now pv a l lf br = send_backups now pv b l lf br.
Proof. induction l as [|u l IH]; intros; [reflexivity|]. cbn [send_backups]. rewrite IH, (send_backup_alike now pv a b) by auto. reflexivity. Qed.
Lemma send_client_alike : forall now pv a b l lf br, alike a b -> send_client now pv a l lf br = send_client now pv b l lf br.
Proof.
  intros now pv a b l lf br H. destruct (alike_fields a b H) as (N & L & R & C & _).
  unfold send_client. rewrite N, L, R, C, (send_backups_alike now pv a b) by auto. reflexivity.
Qed.
Lemma client_data_alike : forall now s pv l1 l2, all_alike l1 l2 ->
  all_alike (fst (fst (parse_client_data now s pv l1))) (fst (fst (parse_client_data now s pv l2))) /\
  snd (fst (parse_client_data now s pv l1)) = snd (fst (parse_client_data now s pv l2)) /\
  snd (parse_client_data now s pv l1) = snd (parse_client_data now s pv l2).
Proof.
  intros now s pv l1 l2 H. unfold parse_client_data.
  destruct (q_command (parse_cmd s [] None noreq)) as [cmd|].
  { destruct (do_command cmd pv) as [[v w]|]; cbn [fst snd]; auto. }
  match goal with |- context [if ?b then (l1, pv, AWarn ?m) else _] => generalize b end. intros bad.
  generalize (match option_map strip_trailing_slashes (q_browse (parse_cmd s [] None noreq)) with Some _ => Some (str "manifest") | None => q_log (parse_cmd s [] None noreq) end). intros lf.
  destruct (q_client (parse_cmd s [] None noreq)) as [n|].
  - pose proof (alike_by_name n l1 l2 H) as B. destruct (by_name n l1) as [a|], (by_name n l2) as [b|]; try contradiction; cbn [fst snd]; auto.
    destruct (set_backup_alike a b B) as [A Bu]. pose proof (alike_load n l1 l2 H).
    destruct (q_backup (parse_cmd s [] None noreq)) as [bk|].
    + destruct (strtoul10 bk =? 0); cbn [fst snd]; auto. rewrite Bu.
      destruct (find (fun u => m_bno u =? strtoul10 bk) (w_bu (set_backup_list b))); cbn [fst snd]; auto.
      destruct bad; cbn [fst snd]; auto. rewrite (send_client_alike now pv _ _ _ _ _ A). auto.
    + destruct bad; cbn [fst snd]; auto. rewrite Bu, (send_client_alike now pv _ _ _ _ _ A). auto.
  - destruct bad; cbn [fst snd]; auto. rewrite send_clients_seen, (alike_seen l1 l2 H), <- send_clients_seen. auto.
Qed.

(* Whatever is asked, and whatever the main process says: what is on disk for a
   client that may not be seen makes no difference. *)
Theorem backups_hidden : forall evs pv l1 l2, all_alike l1 l2 ->
  fst (serve evs pv l1) = fst (serve evs pv l2) /\
  (snd (serve evs pv l1) = None <-> snd (serve evs pv l2) = None).
Proof.
  induction evs as [|e evs IH]; intros pv l1 l2 H; cbn [serve].
  - split; auto. cbn [snd]. split; discriminate.
  - destruct e as [s|now s].
    + pose proof (alike_parent s l1 l2 H) as P. destruct (parse_parent_data s l1), (parse_parent_data s l2); try contradiction; auto.
      cbn [fst snd]. tauto.
    + destruct (client_data_alike now s pv l1 l2 H) as (A & B & C).
      destruct (parse_client_data now s pv l1) as [[m1 v1] a1], (parse_client_data now s pv l2) as [[m2 v2] a2].
      cbn [fst snd] in *. subst v2 a2. destruct (IH v1 m1 m2 A) as [X Y].
      destruct a1; cbn [fst snd]; try tauto;
      destruct (serve evs v1 m1), (serve evs v1 m2); cbn [fst snd] in *; split; auto; congruence.
Qed.

(* Asked by name: no backups. *)
Theorem hidden_answer : forall now s pv l c o, 
  by_name (w_name c) l = Some c -> w_permitted c = false ->
  q_client (parse_cmd s [] None noreq) = Some (w_name c) -> snd (parse_client_data now s pv l) = AClients o ->
  exists x, o = [x] /\ o_name x = w_name c /\ o_run x = w_run c /\ o_backups x = [].
Proof.
  intros now s pv l c o B P Q H. unfold parse_client_data in H. rewrite Q, B in H.
  destruct (q_command (parse_cmd s [] None noreq)) as [cmd|].
  { destruct (do_command cmd pv) as [[v w]|]; discriminate. }
  assert (E : w_bu (set_backup_list c) = []) by (unfold set_backup_list; rewrite P; reflexivity).
  rewrite E in H. destruct (q_backup (parse_cmd s [] None noreq)) as [bk|].
  { cbn [find] in H. destruct (strtoul10 bk =? 0); discriminate. }
  match type of H with context [if ?b then (_, pv, AWarn ?m) else _] => destruct b end; [discriminate|].
  cbn [snd] in H. unfold send_client in H. cbn [send_backups bind answer_of] in H. injection H as <-.
  eexists. split; [reflexivity|]. auto.
Qed.

(* The run status of one that may not be seen stays what it was. *)
Definition same_hidden (a b : cst) : Prop := w_name a = w_name b /\ w_permitted a = w_permitted b /\ (w_permitted a = false -> w_run a = w_run b).
Lemma same_hidden_refl : forall a, same_hidden a a.
Proof. intros a. repeat split. Qed.
Lemma same_hidden_trans : forall a b c, same_hidden a b -> same_hidden b c -> same_hidden a c.
Proof.
  intros a b c (A1 & A2 & A3) (B1 & B2 & B3). split; [congruence|split; [congruence|]].
  intros H. rewrite A3 by auto. apply B3. congruence.
Qed.
Lemma hidden_set_run : forall s a, same_hidden a (set_run s a).
Proof. intros s a. unfold set_run, same_hidden. destruct (w_permitted a) eqn:P; cbn; auto. repeat split; auto. discriminate. Qed.
Lemma hidden_map : forall f l, (forall a, same_hidden a (f a)) -> Forall2 same_hidden l (map f l).
Proof. induction l; cbn [map]; constructor; auto. Qed.
Lemma hidden_refl : forall l, Forall2 same_hidden l l.
Proof. induction l; constructor; auto. apply same_hidden_refl. Qed.
Lemma hidden_trans : forall l1 l2 l3, Forall2 same_hidden l1 l2 -> Forall2 same_hidden l2 l3 -> Forall2 same_hidden l1 l3.
Proof.
  intros l1 l2 l3 A. revert l3. induction A; intros l3 B; inversion B; subst; constructor; auto.
  eapply same_hidden_trans; eauto.
Qed.
Lemma hidden_mark_client : forall n pid bno l, Forall2 same_hidden l (mark_client n pid bno l).
Proof.
  induction l as [|c l IH]; cbn [mark_client]; [constructor|]. destruct (beqb (w_name c) n); constructor; auto.
  - destruct (hidden_set_run RRunning c) as (A & B & C). repeat split; auto.
  - apply hidden_refl.
  - apply same_hidden_refl.
Qed.
Lemma hidden_mark_all : forall ts l, Forall2 same_hidden l (mark_all ts l).
Proof.
  induction ts as [|t ts IH]; intros l; cbn [mark_all]; [apply hidden_refl|].
  destruct (extract_client_pid_bno t (-1) 0) as [[n pid] bno]. eapply hidden_trans; [apply hidden_mark_client|apply IH].
Qed.
Lemma hidden_cntr_one : forall s pid c, same_hidden c (snd (cntr_one s pid c)).
Proof.
  intros s pid c. unfold cntr_one. destruct (hidden_set_run RRunning c) as (A & B & C).
  destruct (fill_pid s pid (w_cntrs (set_run RRunning c))) as [[e l]|]; [repeat split; auto|].
  destruct (fill s (new_chl pid)). repeat split; auto.
Qed.
Lemma hidden_cntr_all : forall s n pid l l', cntr_all s n pid l = Some l' -> Forall2 same_hidden l l'.
Proof.
  induction l as [|c l IH]; intros l' H; cbn [cntr_all] in H; [injection H as <-; constructor|].
  destruct (beqb (w_name c) n).
  - pose proof (hidden_cntr_one s pid c) as X. destruct (cntr_one s pid c) as [e c']. destruct (e =? 0); [|discriminate].
    destruct (cntr_all s n pid l); [|discriminate]. injection H as <-. constructor; auto.
  - destruct (cntr_all s n pid l); [|discriminate]. injection H as <-. constructor; auto. apply same_hidden_refl.
Qed.
Lemma hidden_load : forall n l, Forall2 same_hidden l (load_by_name n l).
Proof.
  induction l as [|c l IH]; cbn [load_by_name]; [constructor|]. destruct (beqb (w_name c) n); constructor; auto;
  [repeat split|apply hidden_refl|apply same_hidden_refl].
Qed.
Lemma hidden_client_data : forall now s pv l, Forall2 same_hidden l (fst (fst (parse_client_data now s pv l))).
Proof.
  intros now s pv l. unfold parse_client_data.
  destruct (q_command (parse_cmd s [] None noreq)) as [cmd|].
  { destruct (do_command cmd pv) as [[v w]|]; apply hidden_refl. }
  destruct (q_client (parse_cmd s [] None noreq)) as [n|].
  - destruct (by_name n l); [|apply hidden_refl]. destruct (q_backup (parse_cmd s [] None noreq)) as [bk|].
    + destruct (strtoul10 bk =? 0); [apply hidden_load|].
      match goal with |- context [find ?f ?x] => destruct (find f x) end; [|apply hidden_load].
      match goal with |- context [if ?b then (_, pv, AWarn ?m) else _] => destruct b end; apply hidden_load.
    + match goal with |- context [if ?b then (_, pv, AWarn ?m) else _] => destruct b end; apply hidden_load.
  - match goal with |- context [if ?b then (_, pv, AWarn ?m) else _] => destruct b end; apply hidden_refl.
Qed.
Theorem status_hidden : forall evs pv l as_ l' pv', serve evs pv l = (as_, Some (l', pv')) -> Forall2 same_hidden l l'.
Proof.
  induction evs as [|e evs IH]; intros pv l as_ l' pv' H; cbn [serve] in H; [injection H as <- <- <-; apply hidden_refl|].
  destruct e as [s|now s].
  - destruct (parse_parent_data s l) as [m|] eqn:E; [|discriminate]. eapply hidden_trans; [|eapply IH; eauto].
    unfold parse_parent_data in E. destruct (RestoreModel.starts_with s (str "cntr")).
    + unfold parse_cntr_data in E. destruct (after_tab s); [|injection E as <-; apply hidden_refl].
      destruct (extract_client_pid_bno (upto_tab b) (-1) 0) as [[n pid] ?]. eapply hidden_cntr_all; eauto.
    + destruct (RestoreModel.starts_with s (str "clients")); injection E as <-; [|apply hidden_refl].
      unfold parse_clients_list. destruct l; [constructor|]. destruct (toks s []); [apply hidden_refl|].
      eapply hidden_trans; [eapply hidden_trans; [apply (hidden_map unmark)|apply hidden_mark_all]|apply hidden_map].
      * intros a. unfold unmark. match goal with |- same_hidden a (set_run RIdle ?x) => destruct (hidden_set_run RIdle x) as (A & B & C) end.
        repeat split; auto.
      * intros a. repeat split.
  - pose proof (hidden_client_data now s pv l) as X. destruct (parse_client_data now s pv l) as [[m v] a]. cbn [fst] in X.
    destruct a; try discriminate; destruct (serve evs v m) as [as1 z] eqn:Z; injection H as <- ->; eapply hidden_trans; eauto.
Qed.
