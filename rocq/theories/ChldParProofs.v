(* What the reports of the children are used for: the limit on backups at the same time and the list of clients
   for the status monitor.  /repo/src/server/main.c *)
From Coq Require Import ZArith List Bool Lia.
From Verif Require Import Bytes BuModel CntrModel CntrProofs MonModel ChldModel ChldProofs.
Import ListNotations.
Open Scope Z_scope.

(* ---------- specification ---------- *)

(* a line as a child makes it *)
Definition line_of (h : head) (t : bytes) : Prop :=
  exists now l path, counters l /\ head_ok h /\ t = snd (cntr_to_str now h l path).
(* the state a child is in while it does the part of a backup that is limited *)
Definition busy_state (st : Z) : Prop := st = ST_SCANNING \/ st = ST_BACKUP.
(* the last report the main process has of this child says so *)
Definition known_busy (w : world) (p : Z) : Prop :=
  exists d, In d (s_fds (w_srv w)) /\ d_pid d = p /\ busy_state (d_status d).

(* Children that were allowed to do a backup and have not come to the end of it.  PEnd: a child does. *)
Inductive pev : Type := PE (e : wev) | PEnd (p : Z).
Record pst := mkpst { ps_w : world; ps_undone : list Z }.
(* the child forked in this step, if its backup will not be refused *)
Definition allowed_new (maxpar : Z) (w w' : world) : list Z :=
  match w_live w' with
  | k :: r => if (length r =? length (w_live w))%nat && match k_from k with LMain => true | _ => false end
                 && negb (too_many maxpar (k_working k)) then [k_id k] else []
  | [] => []
  end.
Definition pstep (maxpar : Z) (s : pst) (e : pev) : option pst :=
  match e with
  | PEnd p => Some (mkpst (ps_w s) (filter (fun q => negb (q =? p)) (ps_undone s)))
  | PE e => match wstep (ps_w s) e with
            | Some w' => Some (mkpst w' (allowed_new maxpar (ps_w s) w' ++
                                         filter (fun q => is_live q (w_live w')) (ps_undone s)))
            | None => None
            end
  end.
Fixpoint prun (maxpar : Z) (s : pst) (es : list pev) : option pst :=
  match es with
  | [] => Some s
  | e :: r => match pstep maxpar s e with Some s' => prun maxpar s' r | None => None end
  end.
(* Whenever a client connects, the main process has been told of every backup that is going on or is allowed. *)
Fixpoint prompt (maxpar : Z) (s : pst) (es : list pev) : Prop :=
  match es with
  | [] => True
  | e :: r =>
    match e with PE (WConn _ _) => forall p, In p (ps_undone s) -> known_busy (ps_w s) p | _ => True end /\
    match pstep maxpar s e with Some s' => prompt maxpar s' r | None => True end
  end.
Definition no_hup_p (es : list pev) : Prop := forall cf, ~ In (PE (WHup cf)) es.
Definition pstart (cf : sconf) : pst := mkpst (wstart cf) [].

(* ---------- a line as the main process reads it ---------- *)

Lemma line_head : forall h t, line_of h t -> exists rest, t = head_text h ++ rest /\ head_ok h.
Proof.
  intros h t (now & l & path & C & H & ->). unfold cntr_to_str. cbn [snd].
  pose proof (set_end_counters now l C) as [S _]. set (l1 := at_ent CMD_TIMESTAMP_END (set_count now) l) in *.
  rewrite cap_all. 2:{ pose proof (head_zl h). pose proof (max_big l1 (h_cname h) S). lia. }
  eexists. split; auto.
Qed.

Definition id_text (n : bytes) (p b : Z) : bytes := n ++ [46] ++ fmt_d p ++ [46] ++ fmt_d b.
Lemma id_no_tab : forall h, head_ok h -> ~ In 9 (id_text (h_cname h) (h_pid h) (h_bno h)).
Proof.
  intros h ((C & _) & P & B & _) I. unfold id_text in I. cbn [app] in I. apply in_app_or in I. destruct I as [I|I]; [auto|].
  cbn [In] in I. destruct I as [I|I]; [discriminate|]. apply in_app_or in I. destruct I as [I|I]; [apply fmt_d_plain in P; destruct P; auto|].
  cbn [In] in I. destruct I as [I|I]; [discriminate|]. apply fmt_d_plain in B. destruct B; auto.
Qed.
Lemma upto_tab_app : forall a r, ~ In 9 a -> upto_tab (a ++ 9 :: r) = a.
Proof.
  induction a as [|c a IH]; intros r H; cbn; auto. destruct (Z.eqb_spec c 9); [exfalso; apply H; left; auto|].
  f_equal. apply IH. intros I. apply H. right; auto.
Qed.
Lemma after_tab_app : forall a r, ~ In 9 a -> after_tab (a ++ 9 :: r) = Some r.
Proof.
  induction a as [|c a IH]; intros r H; cbn; auto. destruct (Z.eqb_spec c 9); [exfalso; apply H; left; auto|].
  apply IH. intros I. apply H. right; auto.
Qed.
Lemma head_text_id : forall h, exists rest, head_text h = str "cntr" ++ 9 :: id_text (h_cname h) (h_pid h) (h_bno h) ++ 9 :: rest.
Proof.
  intros h. unfold head_text, id_text. exists (fmt_d CNTR_VERSION ++ 9 :: fmt_d (h_status h) ++ [9]).
  repeat (rewrite <- !app_assoc; cbn [app]). reflexivity.
Qed.

Lemma line_name : forall h t d, line_of h t -> d_client d = None ->
  d_client (extract_client_name t d) = Some (id_text (h_cname h) (h_pid h) (h_bno h)).
Proof.
  intros h t d L N. destruct (line_head h t L) as (rest & -> & HO). destruct (head_text_id h) as (r & ->).
  unfold extract_client_name. rewrite N.
  replace ((str "cntr" ++ 9 :: id_text (h_cname h) (h_pid h) (h_bno h) ++ 9 :: r) ++ rest)
    with (str "cntr" ++ 9 :: id_text (h_cname h) (h_pid h) (h_bno h) ++ 9 :: (r ++ rest))
    by (repeat (rewrite <- !app_assoc; cbn [app]); reflexivity).
  rewrite after_tab_app by (cbn; intuition discriminate).
  rewrite after_tab_app by (apply id_no_tab; auto). rewrite upto_tab_app by (apply id_no_tab; auto). reflexivity.
Qed.
Lemma extract_name_keeps : forall t d c, d_client d = Some c -> extract_client_name t d = d.
Proof. intros t d c H. unfold extract_client_name. rewrite H. auto. Qed.

Lemma line_status : forall h t d, line_of h t -> d_status (extract_status t d) = h_status h.
Proof.
  intros h t d L. destruct (line_head h t L) as (rest & -> & HO). unfold extract_status.
  replace (beqb (firstn 4 (head_text h ++ rest)) (str "cntr")) with true by reflexivity. cbn [d_status].
  unfold str_to_cntr. rewrite head_toks by auto. destruct (extract_client_pid_bno _ _ _) as ((n & p) & b).
  change (negb (atoi (fmt_d CNTR_VERSION) =? CNTR_VERSION)) with false. cbv iota.
  destruct (extract_cntrs _ _ _). cbn. apply atoi_fmt. apply HO.
Qed.

(* ---------- a report is recorded for the child it comes from and for no other ---------- *)

Lemma take_other : forall m p t l d, In d l -> d_pid d <> p -> In d (take_report m p t l).
Proof.
  induction l as [|a l IH]; cbn; intros d I N; auto. destruct (Z.eqb_spec (d_pid a) p) as [E|E].
  - destruct I as [->|I]; [congruence|right; auto].
  - destruct I as [->|I]; [left; auto|right; auto].
Qed.
Lemma take_from : forall m p t l d, NoDup (map d_pid l) -> In d (take_report m p t l) -> d_pid d <> p -> In d l.
Proof.
  induction l as [|a l IH]; cbn; intros d N I E; auto. inversion N; subst. destruct (Z.eqb_spec (d_pid a) p) as [Q|Q].
  - destruct I as [I|I]; [|right; auto]. exfalso. apply E. rewrite <- I. destruct (d_kind a); auto.
    destruct (m =? 0); [destruct (shape_name t a) as (_ & _ & X); congruence|].
    destruct (shape_status t (extract_client_name t a)) as (_ & _ & X). destruct (shape_name t a) as (_ & _ & Y). congruence.
  - destruct I as [->|I]; [left; auto|right; auto].
Qed.
Lemma take_self : forall m p t l d, NoDup (map d_pid l) -> In d l -> d_pid d = p -> d_kind d = PRead ->
  In (if m =? 0 then extract_client_name t d else extract_status t (extract_client_name t d)) (take_report m p t l).
Proof.
  induction l as [|a l IH]; cbn; intros d N I E K; [contradiction|]. inversion N; subst. destruct I as [->|I].
  - rewrite Z.eqb_refl, K. left. auto.
  - destruct (Z.eqb_spec (d_pid a) (d_pid d)) as [Q|Q].
    + exfalso. apply H1. rewrite Q. apply in_map; auto.
    + right. apply IH; auto.
Qed.

(* The last report of each child is what the main process goes by. *)
Theorem report_recorded : forall cf es w p t h, addresses_distinct cf -> no_hup es -> wrun (wstart cf) es = Some w ->
  s_end (w_srv w) = None -> sc_maxpar cf <> 0 -> is_reporter p (w_live w) = true -> line_of h t ->
  exists w', wstep w (WReport p t) = Some w' /\
    (exists d, In d (s_fds (w_srv w')) /\ d_pid d = p /\ d_status d = h_status h) /\
    (forall d, d_pid d <> p -> In d (s_fds (w_srv w')) <-> In d (s_fds (w_srv w))) /\
    (forall d, In d (s_fds (w_srv w')) -> d_pid d = p -> d_status d = h_status h).
Proof.
  intros cf es w p t h AD NH H En MP Rp Lo.
  destruct (run_inv cf es _ _ AD (start_inv cf) NH H) as (C & N & P & S & R). rewrite En in R. destruct R as [(chs & F & K & D & Q & L) Br].
  cbn [wstep]. rewrite Rp. apply reporter_in in Rp. destruct Rp as (k & Ik & Ek & Fk).
  destruct (L k Ik) as (d & Id & (A & B & Cc)). rewrite Fk in Cc. rewrite Ek in A.
  assert (P0 : 0 < p) by (rewrite Forall_forall in P; rewrite <- Ek; auto).
  replace (has_pid p (s_fds (w_srv w))) with true.
  2:{ symmetry. apply has_pid_in. exists d. split; auto. rewrite F. apply in_or_app; auto. }
  eexists. split; [reflexivity|]. cbn [w_srv with_fds s_fds]. rewrite C, F.
  rewrite take_skip by (intros; eapply no_listener_pid; eauto).
  pose proof (take_self (sc_maxpar cf) p t chs d D Id A Cc) as TS.
  replace (sc_maxpar cf =? 0) with false in TS by (symmetry; apply Z.eqb_neq; auto).
  assert (PS : d_pid (extract_status t (extract_client_name t d)) = p).
  { destruct (shape_status t (extract_client_name t d)) as (_ & _ & X). destruct (shape_name t d) as (_ & _ & Y). congruence. }
  split; [|split].
  - exists (extract_status t (extract_client_name t d)). split; [apply in_or_app; auto|]. split; auto. apply line_status; auto.
  - intros a Na. rewrite !in_app_iff. split; intros [I|I]; auto; right.
    + apply (take_from (sc_maxpar cf) p t chs a D I Na). + apply take_other; auto.
  - intros a I E. apply in_app_or in I. destruct I as [I|I]; [exfalso; eapply no_listener_pid; eauto|].
    assert (X : a = extract_status t (extract_client_name t d)).
    { eapply (nodup_map_inj d_pid _ a _ _ I TS). congruence. Unshelve. rewrite (shape_pids _ _ (take_shape _ _ _ _)). auto. }
    rewrite X. apply line_status; auto.
Qed.

(* ---------- C102: the limit ---------- *)

(* A new child goes by the number of children whose last report said that they were at it. *)
Theorem decision : forall cf es w i p w', addresses_distinct cf -> no_hup es -> wrun (wstart cf) es = Some w ->
  0 < sc_maxpar cf -> wstep w (WConn i (COk true (Some p))) = Some w' -> w' <> w ->
  exists k, In k (w_live w') /\ k_id k = p /\
    (too_many (sc_maxpar cf) (k_working k) = true <->
     sc_maxpar cf <= Z.of_nat (length (filter (fun d => (d_status d =? ST_SCANNING) || (d_status d =? ST_BACKUP)) (s_fds (w_srv w))))).
Proof.
  intros cf es w i p w' AD NH H MP Q NE. destruct (run_inv cf es _ _ AD (start_inv cf) NH H) as (C & _).
  cbn [wstep] in Q. destruct (s_end (w_srv w)); [discriminate|]. destruct (nth_error _ _) as [d|]; [|discriminate].
  destruct (is_listener d); [|discriminate]. cbn [process_incoming] in Q.
  destruct (chld_check_counts _ _ _ _); [|congruence]. destruct (_ && _); [|discriminate]. injection Q as <-.
  eexists. split; [left; reflexivity|]. split; auto. cbn [k_working]. unfold too_many, inherited. rewrite C.
  replace (sc_maxpar cf =? 0) with false by (symmetry; apply Z.eqb_neq; lia). cbn [negb andb]. rewrite Z.leb_le. reflexivity.
Qed.
(* Without a maximum none is refused *)
Theorem unlimited : forall cf k, sc_maxpar cf = 0 -> too_many (sc_maxpar cf) (k_working k) = false.
Proof. intros cf k ->. reflexivity. Qed.

Definition PInv (cf : sconf) (s : pst) : Prop :=
  WInv cf (ps_w s) /\ NoDup (ps_undone s) /\ (forall p, In p (ps_undone s) -> is_live p (w_live (ps_w s)) = true) /\
  Z.of_nat (length (ps_undone s)) <= sc_maxpar cf.

Lemma filter_le : forall {A} (f : A -> bool) l, (length (filter f l) <= length l)%nat.
Proof. induction l; cbn; auto. destruct (f a); cbn; lia. Qed.

Lemma allowed_none : forall m w w', (length (w_live w') <= length (w_live w))%nat -> allowed_new m w w' = [].
Proof.
  intros m w w' H. unfold allowed_new. destruct (w_live w') as [|k r]; auto. cbn in H.
  destruct (Nat.eqb_spec (length r) (length (w_live w))); [lia|auto].
Qed.

Lemma step_live_le : forall w e w', wstep w e = Some w' -> (forall i c, e <> WConn i c) -> (length (w_live w') <= length (w_live w))%nat.
Proof.
  intros w e w' H N. destruct e as [i c|p|p|p|p t| |c|]; cbn [wstep] in H; [exfalso; eapply N; eauto| | | | | | | ];
  repeat match type of H with context [match ?x with _ => _ end] => destruct x eqn:?; try discriminate end;
  injection H as <-; cbn [w_live]; auto; apply filter_le.
Qed.

Lemma pstep_inv : forall cf s e s', addresses_distinct cf -> 0 < sc_maxpar cf -> PInv cf s -> (forall c, e <> PE (WHup c)) ->
  (match e with PE (WConn _ _) => forall p, In p (ps_undone s) -> known_busy (ps_w s) p | _ => True end) ->
  pstep (sc_maxpar cf) s e = Some s' -> PInv cf s'.
Proof.
  intros cf s e s' AD MP (W & N & Lv & B) NH PR H. destruct e as [e|p]; cbn [pstep] in H.
  2:{ injection H as <-. unfold PInv. cbn [ps_w ps_undone]. split; auto. split; [apply NoDup_filter; auto|]. split.
      - intros q I. apply filter_In in I. apply Lv. tauto.
      - pose proof (filter_le (fun q => negb (q =? p)) (ps_undone s)). lia. }
  destruct (wstep (ps_w s) e) as [w'|] eqn:Q; [|discriminate]. injection H as <-.
  assert (W' : WInv cf w') by (apply (step_inv cf (ps_w s) e w' AD W); auto; intros c ->; apply (NH c); auto).
  assert (G : forall a, a = [] -> PInv cf (mkpst w' (a ++ filter (fun q => is_live q (w_live w')) (ps_undone s)))).
  { intros a ->. unfold PInv. cbn [ps_w ps_undone app]. split; auto. split; [apply NoDup_filter; auto|]. split.
    - intros q I. apply filter_In in I. tauto.
    - pose proof (filter_le (fun q => is_live q (w_live w')) (ps_undone s)). lia. }
  destruct e as [i c|p|p|p|p t| |c|]; try (apply G; apply allowed_none; eapply step_live_le; eauto; discriminate).
  destruct W as (C & Nl & Pl & Sl & R). pose proof Q as Q0. cbn [wstep] in Q.
  destruct (s_end (w_srv (ps_w s))) eqn:En; [discriminate|]. destruct (nth_error _ _) as [d|] eqn:Nt; [|discriminate].
  destruct (is_listener d) eqn:Li; [|discriminate]. destruct (process_incoming _ _ _ _ _) eqn:Pi.
  - injection Q as <-. apply G. apply allowed_none. cbn. lia.
  - injection Q as <-. apply G. apply allowed_none. lia.
  - destruct (0 <? pid) eqn:P0; [|discriminate]. destruct (is_live pid (w_live (ps_w s))) eqn:Lp; [discriminate|].
    destruct (has_pid pid (s_fds (w_srv (ps_w s)))) eqn:Hp; [discriminate|]. cbn [andb negb] in Q. injection Q as <-.
    unfold allowed_new. cbn [w_live]. rewrite Nat.eqb_refl. cbn [k_from k_working k_id andb].
    destruct (match d_kind d with LMain => true | _ => false end) eqn:Km; cbn [andb]; [|apply (G []); auto].
    destruct (too_many (sc_maxpar cf) (inherited (s_conf (w_srv (ps_w s))) (s_fds (w_srv (ps_w s))))) eqn:TM; cbn [negb]; [apply (G []); auto|].
    unfold PInv. cbn [ps_w ps_undone app]. split; auto.
    assert (NI : ~ In pid (ps_undone s)) by (intros I; specialize (Lv pid I); congruence).
    split.
    { constructor; [|apply NoDup_filter; auto]. intros I. apply filter_In in I. tauto. }
    split.
    { intros q [<-|I]; [cbn; rewrite Z.eqb_refl; auto|]. apply filter_In in I. tauto. }
    unfold too_many, inherited in TM. rewrite C in TM.
    assert (M0 : sc_maxpar cf =? 0 = false) by (apply Z.eqb_neq; lia). rewrite M0 in TM. cbn [negb andb] in TM. apply Z.leb_gt in TM.
    assert (LE : (length (ps_undone s) <= length (filter (fun a => (d_status a =? ST_SCANNING)%Z || (d_status a =? ST_BACKUP)%Z) (s_fds (w_srv (ps_w s)))))%nat).
    { apply (nodup_incl_len (fun q => q) d_pid).
      - rewrite map_id. auto.
      - intros q I. destruct (PR q I) as (a & Ia & Ea & Ba). rewrite <- Ea. apply in_map. apply filter_In. split; auto.
        destruct Ba as [-> | ->]; auto. }
    unfold get_working in TM. cbn [length].
    pose proof (filter_le (fun q => is_live q (mkchild pid (d_listen d) (d_kind d) (inherited (s_conf (w_srv (ps_w s))) (s_fds (w_srv (ps_w s)))) :: w_live (ps_w s))) (ps_undone s)).
    lia.
Qed.

Theorem backups_bound : forall cf es s, addresses_distinct cf -> 0 < sc_maxpar cf -> no_hup_p es ->
  prompt (sc_maxpar cf) (pstart cf) es -> prun (sc_maxpar cf) (pstart cf) es = Some s ->
  Z.of_nat (length (ps_undone s)) <= sc_maxpar cf.
Proof.
  intros cf es s AD MP NH PR H.
  assert (G : forall es s0, PInv cf s0 -> no_hup_p es -> prompt (sc_maxpar cf) s0 es -> prun (sc_maxpar cf) s0 es = Some s -> PInv cf s).
  { clear es NH PR H. induction es as [|e es IH]; cbn [prun prompt]; intros s0 I NH PR H; [congruence|]. destruct PR as [P1 P2].
    destruct (pstep (sc_maxpar cf) s0 e) as [s1|] eqn:Q; [|discriminate]. apply (IH s1); auto.
    - apply (pstep_inv cf s0 e s1 AD MP I); auto. intros c ->. apply (NH c). left; auto.
    - intros c J. apply (NH c). right; auto. }
  assert (I0 : PInv cf (pstart cf)).
  { unfold PInv, pstart. cbn [ps_w ps_undone]. split; [apply start_inv|]. split; [constructor|]. split; [intros p []|cbn; lia]. }
  destruct (G es (pstart cf) I0 NH PR H) as (_ & _ & _ & B). exact B.
Qed.

(* ---------- C103: the list of clients ---------- *)

(* every report is a line the child with this pid made about itself *)
Definition genuine (es : list wev) : Prop := forall p t, In (WReport p t) es -> exists h, h_pid h = p /\ line_of h t.

(* the children on the list that have a name, as the message tells them *)
Definition ids_from (es : list wev) (l : list fd) (ids : list (bytes * Z * Z)) : Prop :=
  map (fun i => snd (fst i)) ids =
    map d_pid (filter (fun d => match d_kind d, d_client d with PRead, Some _ => true | _, _ => false end) l) /\
  (forall n p b, In (n, p, b) ids -> exists t h, In (WReport p t) es /\ line_of h t /\ h_cname h = n /\ h_pid h = p /\ h_bno h = b).

Definition named (es : list wev) (d : fd) : Prop :=
  forall c, d_kind d = PRead -> d_client d = Some c ->
    exists t h, In (WReport (d_pid d) t) es /\ line_of h t /\ h_pid h = d_pid d /\ c = id_text (h_cname h) (h_pid h) (h_bno h).

Lemma named_more : forall es es' d, (forall p t, In (WReport p t) es -> In (WReport p t) es') -> named es d -> named es' d.
Proof. intros es es' d S N c K Cl. destruct (N c K Cl) as (t & h & I & R). exists t, h. split; auto. Qed.

Lemma take_named : forall m p t es l h, line_of h t -> h_pid h = p -> In (WReport p t) es -> Forall (named es) l ->
  Forall (named es) (take_report m p t l).
Proof.
  intros m p t es l h Lo Hp I. induction 1 as [|d l N F IH]; cbn; [constructor|]. destruct (Z.eqb_spec (d_pid d) p) as [E|E]; [|constructor; auto].
  constructor; auto. destruct (d_kind d) eqn:K; auto.
  assert (N1 : named es (extract_client_name t d)).
  { destruct (d_client d) as [c|] eqn:Cl; [rewrite (extract_name_keeps t d c Cl); auto|].
    intros c _ X. rewrite (line_name h t d Lo Cl) in X. injection X as <-. exists t, h.
    destruct (shape_name t d) as (_ & _ & Pd). rewrite Pd, E. auto. }
  destruct (m =? 0); auto.
  intros c K' X. destruct (shape_status t (extract_client_name t d)) as (A & B & C). rewrite C. apply (N1 c); [congruence|].
  unfold extract_status in X. destruct (beqb _ _); auto.
Qed.

Lemma step_named : forall es w e w', wstep w e = Some w' -> (forall c, e <> WHup c) ->
  (forall p t, e = WReport p t -> In e es /\ exists h, h_pid h = p /\ line_of h t) ->
  Forall (named es) (s_fds (w_srv w)) -> Forall (named es) (s_fds (w_srv w')).
Proof.
  intros es w e w' H NH G F. destruct e as [i c|p|p|p|p t| |c|]; cbn [wstep] in H.
  - destruct (s_end _); [discriminate|]. destruct (nth_error _ _) as [d|]; [|discriminate]. destruct (is_listener d); [|discriminate].
    destruct (process_incoming _ _ _ _ _); [| |destruct (_ && _); [|discriminate]]; injection H as <-; cbn; auto.
    apply Forall_app. split; auto. constructor; [|constructor]. intros x _ X. discriminate.
  - destruct (is_live _ _); [|discriminate]. injection H as <-. auto.
  - destruct (s_end _); [discriminate|]. destruct (_ && _); [|discriminate]. injection H as <-. cbn. rewrite Forall_forall in *. intros d I. apply F. eapply drop_in; eauto.
  - destruct (s_end _); [discriminate|]. destruct (_ && _); [|discriminate]. injection H as <-. cbn. rewrite Forall_forall in *. intros d I. apply F. eapply drop_in; eauto.
  - destruct (is_reporter _ _); [|discriminate]. destruct (G p t eq_refl) as (I & h & Hp & Lo). destruct (has_pid _ _); injection H as <-; cbn; auto.
    eapply take_named; eauto.
  - destruct (s_end _); [discriminate|]. destruct (_ && _); injection H as <-; cbn; auto.
  - exfalso. apply (NH c). auto.
  - destruct (s_end _); [discriminate|]. injection H as <-. auto.
Qed.

Lemma run_named : forall all es w w', wrun w es = Some w' -> no_hup es -> (forall e, In e es -> In e all) -> genuine es ->
  Forall (named all) (s_fds (w_srv w)) -> Forall (named all) (s_fds (w_srv w')).
Proof.
  induction es as [|e es IH]; cbn; intros w w' H NH S G F; [congruence|]. destruct (wstep w e) as [w1|] eqn:Q; [|discriminate].
  apply (IH w1 w' H).
  - intros c J. apply (NH c). right; auto.
  - auto.
  - intros p t J. apply (G p t). right; auto.
  - apply (step_named all w e w1 Q); auto.
    + intros c ->. apply (NH c). left; auto.
    + intros p t ->. split; [apply S; left; auto|]. apply (G p t). left; auto.
Qed.

Lemma clients_text_ids : forall es l pre, Forall (named es) l -> exists ids, ids_from es l ids /\
  fold_left (fun b a => match d_kind a, d_client a with PRead, Some c => b ++ [9] ++ c | _, _ => b end) l pre =
  pre ++ flat_map (fun i => let '(n, p, b) := i in 9 :: n ++ [46] ++ fmt_d p ++ [46] ++ fmt_d b) ids.
Proof.
  intros es. induction l as [|d l IH]; intros pre F.
  - exists []. cbn. rewrite app_nil_r. repeat split; auto. intros n p b [].
  - inversion F; subst. cbn [fold_left]. destruct (d_kind d) eqn:K; try (
      destruct (IH pre H2) as (ids & [A B] & E); exists ids; split; [split; auto; cbn [filter]; rewrite K; auto|exact E]).
    destruct (d_client d) as [c|] eqn:Cl.
    2:{ destruct (IH pre H2) as (ids & [A B] & E). exists ids. split; [|exact E]. split; auto. cbn [filter]. rewrite K, Cl. auto. }
    destruct (IH (pre ++ [9] ++ c) H2) as (ids & [A B] & E). destruct (H1 c K Cl) as (t & h & I & Lo & Hp & ->).
    exists ((h_cname h, h_pid h, h_bno h) :: ids). split.
    + split; [cbn [filter]; rewrite K, Cl; cbn [map fst snd]; rewrite Hp, A; auto|].
      intros n p b [X|X]; [|auto]. injection X as <- <- <-. exists t, h. rewrite Hp. auto.
    + rewrite E. cbn [flat_map]. unfold id_text. repeat (rewrite <- ?app_assoc; cbn [app]). reflexivity.
Qed.

(* What the status monitor is told: each child that has reported, once, with what it said of itself. *)
Theorem clients_listed : forall cf es w, no_hup es -> genuine es -> wrun (wstart cf) es = Some w ->
  exists ids, clients_text (s_fds (w_srv w)) = clients_message ids /\ ids_from es (s_fds (w_srv w)) ids.
Proof.
  intros cf es w NH G H.
  assert (F : Forall (named es) (s_fds (w_srv w))).
  { apply (run_named es es (wstart cf) w H NH); auto. cbn. apply Forall_forall. intros d I c K _.
    unfold init_fds in I. apply in_app_or in I. destruct I as [I|I]; apply in_map_iff in I; destruct I as (a & <- & _); discriminate. }
  destruct (clients_text_ids es (s_fds (w_srv w)) (str "clients") F) as (ids & A & E). exists ids. split; auto.
Qed.

(* no pid is listed twice *)
Lemma nodup_map_filter : forall (f : fd -> bool) l, NoDup (map d_pid l) -> NoDup (map d_pid (filter f l)).
Proof. intros. apply nodup_filter_map; auto. Qed.
Theorem listed_once : forall cf es w ids, addresses_distinct cf -> no_hup es -> wrun (wstart cf) es = Some w ->
  s_end (w_srv w) = None -> ids_from es (s_fds (w_srv w)) ids -> NoDup (map (fun i => snd (fst i)) ids).
Proof.
  intros cf es w ids AD NH H En [A _]. rewrite A.
  destruct (run_inv cf es _ _ AD (start_inv cf) NH H) as (C & N & P & S & R). rewrite En in R. destruct R as [(chs & F & K & D & Q & L) Br].
  rewrite F, filter_app.
  replace (filter (fun d => match d_kind d, d_client d with PRead, Some _ => true | _, _ => false end) (init_fds cf)) with (@nil fd).
  { apply nodup_map_filter; auto. }
  symmetry. assert (Z : forall d, In d (init_fds cf) -> is_listener d = true) by (intros d I; apply (init_listener cf d I)).
  clear F. induction (init_fds cf) as [|d l IH]; cbn; auto. assert (X := Z d (or_introl eq_refl)). unfold is_listener in X.
  destruct (d_kind d); try discriminate; apply IH; intros; apply Z; right; auto.
Qed.

Definition has_name (w : world) (p : Z) : Prop :=
  exists d, In d (s_fds (w_srv w)) /\ d_pid d = p /\ d_kind d = PRead /\ d_client d <> None.

Lemma take_has_name : forall m q t l d, In d l -> d_kind d = PRead -> d_client d <> None ->
  exists d', In d' (take_report m q t l) /\ d_pid d' = d_pid d /\ d_kind d' = PRead /\ d_client d' <> None.
Proof.
  intros m q t. induction l as [|a l IH]; cbn; intros d I K Cl; [contradiction|]. destruct (d_pid a =? q).
  - destruct I as [->|I]; [|exists d; split; [right; auto|auto]]. rewrite K.
    destruct (d_client d) as [c|] eqn:X; [|congruence]. rewrite (extract_name_keeps t d c X).
    destruct (m =? 0); [exists d; split; [left; auto|]; repeat split; auto; congruence|].
    exists (extract_status t d). split; [left; auto|]. destruct (shape_status t d) as (A & _ & B). repeat split; try congruence.
    unfold extract_status. destruct (beqb _ _); cbn; rewrite X; discriminate.
  - destruct I as [->|I]; [exists d; split; [left; auto|auto]|]. destruct (IH d I K Cl) as (d' & J & R). exists d'. split; [right; auto|auto].
Qed.

Lemma name_stays : forall cf w e w' p, addresses_distinct cf -> WInv cf w -> wstep w e = Some w' -> (forall c, e <> WHup c) -> e <> WFinish p ->
  s_end (w_srv w') = None -> is_live p (w_live w) = true -> has_name w p -> is_live p (w_live w') = true /\ has_name w' p.
Proof.
  intros cf w e w' p AD I H NH NF En Lv (d & Id & Ed & Kd & Cd).
  assert (FL : forall q, q <> p -> is_live p (filter (fun k => negb (k_id k =? q)) (w_live w)) = true).
  { intros q Nq. apply live_in in Lv. destruct Lv as (k & Ik & Ek). apply live_in. exists k. split; auto. apply filter_In. split; auto.
    destruct (Z.eqb_spec (k_id k) q); auto. congruence. }
  destruct e as [i c|q|q|q|q t| |c|]; cbn [wstep] in H.
  - destruct (s_end _); [discriminate|]. destruct (nth_error _ _) as [a|]; [|discriminate]. destruct (is_listener a); [|discriminate].
    destruct (process_incoming _ _ _ _ _).
    + injection H as <-. discriminate.
    + injection H as <-. split; auto. exists d. auto.
    + destruct (_ && _); [|discriminate]. injection H as <-. cbn [w_live w_srv with_fds s_fds]. split.
      * apply live_in in Lv. apply live_in. destruct Lv as (k & Ik & Ek). exists k. split; auto. right; auto.
      * exists d. cbn. split; auto. apply in_or_app; auto.
  - destruct (is_live q _) eqn:Lq; [|discriminate]. injection H as <-. cbn. split; [apply FL; congruence|exists d; auto].
  - destruct (s_end _); [discriminate|]. destruct (0 <? q); [|discriminate]. destruct (is_live q (w_live w)) eqn:Lq; [discriminate|]. injection H as <-. cbn. split; auto.
    exists d. cbn. split; auto. apply drop_keeps; auto. congruence.
  - destruct (s_end _); [discriminate|]. destruct (0 <? q); [|discriminate]. destruct (is_live q (w_live w)) eqn:Lq; [discriminate|]. injection H as <-. cbn. split; auto.
    exists d. cbn. split; auto. apply drop_keeps; auto. congruence.
  - destruct (is_reporter _ _) eqn:Rq; [|discriminate]. destruct (has_pid q _) eqn:Hq; injection H as <-; cbn [w_live w_srv with_fds s_fds].
    + split; auto. destruct (take_has_name (sc_maxpar (s_conf (w_srv w))) q t _ d Id Kd Cd) as (d' & J & A & B & C). exists d'. cbn. repeat split; auto. congruence.
    + split; [|exists d; auto]. apply FL. intros ->. assert (has_pid p (s_fds (w_srv w)) = true) by (apply has_pid_in; eauto). congruence.
  - destruct (s_end _); [discriminate|]. destruct (_ && _); injection H as <-; [discriminate|]. split; auto. exists d. auto.
  - exfalso. apply (NH c). auto.
  - destruct (s_end _); [discriminate|]. injection H as <-. split; auto. exists d. auto.
Qed.

(* A child that has reported is in the list as long as it serves. *)
Theorem reported_listed : forall cf es1 es2 p t w ids, addresses_distinct cf -> no_hup (es1 ++ WReport p t :: es2) ->
  genuine (es1 ++ WReport p t :: es2) -> wrun (wstart cf) (es1 ++ WReport p t :: es2) = Some w -> s_end (w_srv w) = None ->
  ~ In (WFinish p) es2 -> ids_from (es1 ++ WReport p t :: es2) (s_fds (w_srv w)) ids -> exists n b, In (n, p, b) ids.
Proof.
  intros cf es1 es2 p t w ids AD NH G H En NF [A _].
  assert (HN : has_name w p).
  2:{ destruct HN as (d & Id & Ed & Kd & Cd). assert (X : In p (map (fun i : bytes * Z * Z => snd (fst i)) ids)).
      { rewrite A, <- Ed. apply in_map. apply filter_In. split; auto. rewrite Kd. destruct (d_client d); congruence. }
      apply in_map_iff in X. destruct X as (((n & q) & b) & Y & Z). cbn in Y. subst q. eauto. }
  clear A. assert (SP : forall es w0, wrun w0 (es ++ WReport p t :: es2) = Some w -> exists w1, wrun w0 es = Some w1 /\ wrun w1 (WReport p t :: es2) = Some w).
  { induction es as [|e es IH]; cbn [app wrun]; intros w0 Q; [exists w0; auto|]. destruct (wstep w0 e); [auto|discriminate]. }
  destruct (SP es1 (wstart cf) H) as (w1 & R1 & R2).
  assert (I1 : WInv cf w1). { apply (run_inv cf es1 _ _ AD (start_inv cf)); auto. intros c J. apply (NH c). apply in_or_app; auto. }
  cbn [wrun] in R2. destruct (wstep w1 (WReport p t)) as [w2|] eqn:Q; [|discriminate].
  assert (I2 : WInv cf w2) by (apply (step_inv cf w1 (WReport p t) w2 AD I1); [discriminate|exact Q]).
  assert (EN : forall es w0, wrun w0 es = Some w -> s_end (w_srv w0) = None).
  { assert (M : forall a e b, wstep a e = Some b -> s_end (w_srv a) <> None -> s_end (w_srv b) <> None).
    { intros a e b Hs Ns. destruct (s_end (w_srv a)) as [g|] eqn:Eg; [|congruence]. destruct e; cbn [wstep] in Hs; rewrite ?Eg in Hs; try discriminate;
      repeat match type of Hs with context [match ?x with _ => _ end] => destruct x eqn:?; try discriminate end; injection Hs as <-; cbn; congruence. }
    induction es as [|e es IH]; cbn [wrun]; intros w0 Hw; [congruence|]. destruct (wstep w0 e) as [w3|] eqn:Qe; [|discriminate].
    destruct (s_end (w_srv w0)) eqn:E0; auto. exfalso. apply (M w0 e w3 Qe); [congruence|]. apply (IH w3 Hw). }
  assert (S2 : is_live p (w_live w2) = true /\ has_name w2 p).
  { assert (E1 : s_end (w_srv w1) = None) by (apply (EN (WReport p t :: es2)); cbn [wrun]; rewrite Q; auto).
    destruct I1 as (C & N & P & S & R). rewrite E1 in R. destruct R as [(chs & F & K & D & Qc & L) Br].
    cbn [wstep] in Q. destruct (is_reporter p (w_live w1)) eqn:Rp; [|discriminate]. apply reporter_in in Rp. destruct Rp as (k & Ik & Ek & Fk).
    destruct (L k Ik) as (d & Id & (Ad & Bd & Cd)). rewrite Fk in Cd. rewrite Ek in Ad.
    assert (P0 : 0 < p) by (rewrite Forall_forall in P; rewrite <- Ek; auto).
    replace (has_pid p (s_fds (w_srv w1))) with true in Q.
    2:{ symmetry. apply has_pid_in. exists d. split; auto. rewrite F. apply in_or_app; auto. }
    injection Q as <-. cbn [w_live w_srv with_fds s_fds]. split; [apply live_in; eauto|].
    destruct (G p t) as (h & Hp & Lo). { apply in_or_app. right; left; auto. }
    pose proof (take_self (sc_maxpar (s_conf (w_srv w1))) p t chs d D Id Ad Cd) as TS.
    eexists. cbn [w_srv with_fds s_fds]. rewrite F at 1. rewrite take_skip by (intros; eapply no_listener_pid; eauto).
    split; [apply in_or_app; right; exact TS|].
    assert (NN : d_client (extract_client_name t d) <> None).
    { destruct (d_client d) eqn:X; [rewrite (extract_name_keeps t d _ X), X; discriminate|rewrite (line_name h t d Lo X); discriminate]. }
    destruct (shape_name t d) as (K1 & _ & P1). destruct (shape_status t (extract_client_name t d)) as (K2 & _ & P2).
    destruct (_ =? 0); repeat split; try congruence. unfold extract_status. destruct (beqb _ _); auto. }
  assert (NH2 : no_hup es2) by (intros c J; apply (NH c); apply in_or_app; right; right; auto).
  clear -AD I2 S2 R2 NF En EN NH2. revert w2 I2 S2 R2. induction es2 as [|e es IH]; cbn [wrun]; intros w2 I2 [L2 N2] R2; [congruence|].
  destruct (wstep w2 e) as [w3|] eqn:Q; [|discriminate].
  assert (NHe : forall c, e <> WHup c) by (intros c ->; apply (NH2 c); left; auto).
  apply (IH ltac:(intros J; apply NF; right; auto) ltac:(intros c J; apply (NH2 c); right; auto) w3); auto.
  - apply (step_inv cf w2 e w3 AD I2); auto.
  - apply (name_stays cf w2 e w3 p AD I2 Q); auto. + intros ->. apply NF. left; auto. + apply (EN es). auto.
Qed.
