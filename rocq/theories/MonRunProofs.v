(* Proofs about the status monitor: who is running, counters, answers to all
   requests. *)
From Verif Require Import Bytes FrameModel DpthModel BuModel CmdModel UtilModel AuthModel CntrModel CntrProofs MonModel MonProofs MonSeeProofs.

(* ---------- the list of clients that are running ---------- *)

(* Specification.  ids: the names, pids and backup numbers of the children. *)
Definition id := (bytes * Z * Z)%type.
Definition id_ok (i : id) : Prop := plain (fst (fst i)) /\ is_int (snd (fst i)) /\ is_int (snd i).
Definition is_listed (n : bytes) (ids : list id) : bool := existsb (fun i => beqb n (fst (fst i))) ids.
Fixpoint listed_bno (n : bytes) (p : Z) (ids : list id) : option Z :=
  match ids with
  | [] => None
  | (n', p', b) :: r => match listed_bno n p r with
                        | Some x => Some x
                        | None => if beqb n n' && (p =? p') then Some b else None
                        end
  end.
(* What a client looks like afterwards: running or not if it may be seen; the
   counters of the children listed, with the number of their backup. *)
Definition expected (ids : list id) (c : cst) : cst :=
  mkcst (w_name c) (w_labels c) (w_permitted c)
    (if w_permitted c then if is_listed (w_name c) ids then RRunning else RIdle else w_run c)
    (flat_map (fun h => match listed_bno (w_name c) (k_pid h) ids with
                        | Some b => [mkchl (k_pid h) b (k_status h) true (k_ents h)]
                        | None => []
                        end) (w_cntrs c))
    (w_disk c) (w_bu c).
(* One child, one list of counters. *)
Definition tidy (l : list cst) : Prop :=
  NoDup (map w_name l) /\ Forall (fun c => NoDup (map k_pid (w_cntrs c))) l.

Definition id_text (i : id) : bytes := let '(n, p, b) := i in n ++ dot :: fmt_d p ++ dot :: fmt_d b.
Lemma id_text_ok : forall i, id_ok i -> plain (id_text i) /\ id_text i <> [] /\ extract_client_pid_bno (id_text i) (-1) 0 = i.
Proof.
  intros [[n p] b] (N & P & B). cbn [fst snd] in *. cbn [id_text]. split; [|split].
  - apply plain_app; auto. apply plain_cons; [unfold dot; lia|unfold dot; lia|]. apply plain_app; [apply fmt_d_plain; auto|].
    apply plain_cons; [unfold dot; lia|unfold dot; lia|]. apply fmt_d_plain; auto.
  - destruct n; discriminate.
  - apply identity_back; auto.
Qed.
Lemma toks_last : forall t cur, plain t -> rev cur ++ t <> [] -> toks t cur = [rev cur ++ t].
Proof.
  induction t as [|c t IH]; intros cur P N.
  - cbn [toks]. rewrite app_nil_r in *. destruct cur; [cbn in N; congruence|reflexivity].
  - destruct P as [P1 P2]. cbn [toks]. rewrite not_sep; [|intros ->; apply P1; left; auto|intros ->; apply P2; left; auto].
    rewrite IH.
    + cbn [rev]. rewrite <- app_assoc. reflexivity.
    + split; intro; [apply P1|apply P2]; right; auto.
    + cbn [rev]. rewrite <- app_assoc. exact N.
Qed.
Lemma toks_ids : forall ids t, Forall id_ok ids -> plain t -> t <> [] ->
  toks (t ++ flat_map (fun i => 9 :: id_text i) ids) [] = t :: map id_text ids.
Proof.
  induction ids as [|i ids IH]; intros t F P N.
  - cbn [flat_map map]. rewrite app_nil_r. rewrite toks_last; auto.
  - inversion F; subst. cbn [flat_map map]. destruct (id_text_ok i H1) as (A & B & _).
    change ((9 :: id_text i) ++ flat_map (fun i => 9 :: id_text i) ids) with (9 :: (id_text i ++ flat_map (fun i => 9 :: id_text i) ids)).
    rewrite toks_one by auto. rewrite IH by auto. reflexivity.
Qed.
Lemma message_toks : forall ids, Forall id_ok ids -> toks (clients_message ids) [] = str "clients" :: map id_text ids.
Proof.
  intros ids F. unfold clients_message.
  replace (flat_map (fun i => let '(n, p, b) := i in 9 :: n ++ [46] ++ fmt_d p ++ [46] ++ fmt_d b) ids)
    with (flat_map (fun i => 9 :: id_text i) ids).
  - apply toks_ids; auto; [|discriminate]. split; vm_compute; intuition discriminate.
  - clear F. induction ids as [|[[n p] b] ids IH]; [reflexivity|]. cbn [flat_map]. rewrite IH. reflexivity.
Qed.

Definition mark1 (p b : Z) (h : chl) : chl :=
  if k_pid h =? p then mkchl (k_pid h) b (k_status h) true (k_ents h) else h.
Lemma mark_map : forall p b l, NoDup (map k_pid l) -> mark p b l = map (mark1 p b) l.
Proof.
  induction l as [|h l IH]; intros D; [reflexivity|]. cbn [mark map] in *. inversion D; subst. unfold mark1 at 1.
  destruct (Z.eqb_spec (k_pid h) p).
  - f_equal. subst p. rewrite <- (map_id l) at 1. apply map_ext_in. intros x I. unfold mark1.
    destruct (Z.eqb_spec (k_pid x) (k_pid h)) as [E|]; auto. exfalso. apply H1. rewrite <- E. apply in_map; auto.
  - f_equal. apply IH; auto.
Qed.
Lemma mark1_pid : forall p b h, k_pid (mark1 p b h) = k_pid h.
Proof. intros. unfold mark1. destruct (k_pid h =? p); auto. Qed.
Lemma map_pids : forall f l, (forall h, k_pid (f h) = k_pid h) -> map k_pid (map f l) = map k_pid l.
Proof. intros f l H. induction l; cbn [map]; [reflexivity|]. rewrite H, IHl. reflexivity. Qed.
Definition mark_c (i : id) (c : cst) : cst :=
  let '(n, p, b) := i in
  if beqb (w_name c) n then set_run RRunning (set_cntrs (map (mark1 p b) (w_cntrs c)) c) else c.
Lemma set_comm : forall s l c, set_cntrs l (set_run s c) = set_run s (set_cntrs l c).
Proof. intros. unfold set_run, set_cntrs. destruct (w_permitted c) eqn:P; cbn [w_permitted]; rewrite ?P; reflexivity. Qed.
Lemma mark_client_map : forall n p b l, tidy l -> mark_client n p b l = map (mark_c (n, p, b)) l.
Proof.
  intros n p b. induction l as [|c l IH]; intros [D F]; [reflexivity|]. cbn [mark_client map] in *. inversion D; subst. inversion F; subst.
  unfold mark_c at 1. destruct (beqb (w_name c) n) eqn:B.
  - rewrite set_run_cntrs, mark_map, set_comm by auto. f_equal. apply beqb_eq in B. subst n.
    rewrite <- (map_id l) at 1. apply map_ext_in. intros x I. unfold mark_c.
    destruct (beqb (w_name x) (w_name c)) eqn:E; auto. exfalso. apply H1. apply beqb_eq in E. rewrite <- E. apply in_map; auto.
  - f_equal. apply IH. split; auto.
Qed.
Lemma mark_c_name : forall i c, w_name (mark_c i c) = w_name c.
Proof. intros [[n p] b] c. unfold mark_c. destruct (beqb (w_name c) n); auto. rewrite set_run_name. reflexivity. Qed.
Lemma mark_c_pids : forall i c, map k_pid (w_cntrs (mark_c i c)) = map k_pid (w_cntrs c).
Proof.
  intros [[n p] b] c. unfold mark_c. destruct (beqb (w_name c) n); auto. rewrite set_run_cntrs. cbn [set_cntrs w_cntrs].
  apply map_pids. apply mark1_pid.
Qed.
Lemma tidy_map : forall f l, (forall c, w_name (f c) = w_name c) -> (forall c, map k_pid (w_cntrs (f c)) = map k_pid (w_cntrs c)) ->
  tidy l -> tidy (map f l).
Proof.
  intros f l N P [D F]. split; [rewrite map_names; auto|]. rewrite Forall_map. eapply Forall_impl; [|exact F].
  intros c H. rewrite P. exact H.
Qed.
Lemma mark_all_map : forall ids l, Forall id_ok ids -> tidy l ->
  mark_all (map id_text ids) l = map (fun c => fold_left (fun c i => mark_c i c) ids c) l.
Proof.
  induction ids as [|i ids IH]; intros l F T; cbn [map mark_all fold_left].
  - symmetry. apply map_id.
  - inversion F; subst. destruct (id_text_ok i H1) as (_ & _ & E). rewrite E. destruct i as [[n p] b].
    rewrite mark_client_map by auto. rewrite IH; auto.
    + rewrite map_map. reflexivity.
    + apply tidy_map; auto; [apply mark_c_name|apply mark_c_pids].
Qed.

(* One client, one child. *)
Definition mark_h (n : bytes) (ids : list id) (h : chl) : chl :=
  fold_left (fun h i => let '(n', p, b) := i in if beqb n n' then mark1 p b h else h) ids h.
Lemma mark_h_spec : forall n ids h,
  mark_h n ids h = match listed_bno n (k_pid h) ids with
                   | Some b => mkchl (k_pid h) b (k_status h) true (k_ents h)
                   | None => h
                   end.
Proof.
  intros n. induction ids as [|[[n' p] b] ids IH]; intros h; [reflexivity|]. unfold mark_h. cbn [fold_left listed_bno].
  match goal with |- fold_left ?f ids ?x = _ => change (fold_left f ids x) with (mark_h n ids x) end. rewrite IH.
  destruct (beqb n n').
  - rewrite mark1_pid. unfold mark1. cbn [andb]. destruct (k_pid h =? p); destruct (listed_bno n (k_pid h) ids); reflexivity.
  - cbn [andb]. destruct (listed_bno n (k_pid h) ids); reflexivity.
Qed.
Lemma fold_client : forall ids c,
  fold_left (fun c i => mark_c i c) ids c =
  mkcst (w_name c) (w_labels c) (w_permitted c)
    (if w_permitted c && is_listed (w_name c) ids then RRunning else w_run c)
    (map (mark_h (w_name c) ids) (w_cntrs c)) (w_disk c) (w_bu c).
Proof.
  induction ids as [|[[n p] b] ids IH]; intros c; cbn [fold_left].
  - cbn [is_listed existsb]. rewrite andb_false_r. rewrite (map_ext (mark_h (w_name c) []) (fun h => h)) by reflexivity.
    rewrite map_id. destruct c; reflexivity.
  - rewrite IH. unfold mark_c. cbn [is_listed existsb fst]. fold (is_listed (w_name c) ids).
    destruct (beqb (w_name c) n) eqn:B.
    + cbn [orb]. rewrite andb_true_r. unfold set_run. cbn [set_cntrs w_permitted]. destruct (w_permitted c) eqn:P.
      * cbn [set_cntrs w_name w_labels w_permitted w_run w_cntrs w_disk w_bu andb]. f_equal.
        { match goal with |- (if ?x then _ else _) = _ => destruct x; reflexivity end. }
        rewrite map_map. apply map_ext. intros h. unfold mark_h. cbn [fold_left]. rewrite B. reflexivity.
      * cbn [set_cntrs w_name w_labels w_permitted w_run w_cntrs w_disk w_bu]. rewrite P. cbn [andb]. f_equal.
        rewrite map_map. apply map_ext. intros h. unfold mark_h. cbn [fold_left]. rewrite B. reflexivity.
    + cbn [orb]. f_equal. apply map_ext. intros h. unfold mark_h. cbn [fold_left]. rewrite B. reflexivity.
Qed.
Lemma client_expected : forall ids c,
  clean_up (fold_left (fun c i => mark_c i c) ids (unmark c)) = expected ids c.
Proof.
  intros ids c. rewrite fold_client. unfold clean_up, expected, set_cntrs.
  cbn [w_name w_labels w_permitted w_run w_cntrs w_disk w_bu].
  rewrite unmark_name, unmark_perm. unfold unmark. rewrite set_run_cntrs. unfold set_run. cbn [set_cntrs w_permitted].
  assert (X : filter k_found (map (mark_h (w_name c) ids) (map (fun h => mkchl (k_pid h) (k_bno h) (k_status h) false (k_ents h)) (w_cntrs c))) =
     flat_map (fun h => match listed_bno (w_name c) (k_pid h) ids with
                        | Some b => [mkchl (k_pid h) b (k_status h) true (k_ents h)] | None => [] end) (w_cntrs c)).
  { rewrite map_map. induction (w_cntrs c) as [|h l IH]; [reflexivity|]. cbn [map filter flat_map]. rewrite mark_h_spec. cbn [k_pid].
    destruct (listed_bno (w_name c) (k_pid h) ids); cbn [k_found]; rewrite IH; reflexivity. }
  cbn [set_cntrs w_cntrs]. rewrite X.
  destruct (w_permitted c); cbn [set_cntrs w_name w_labels w_permitted w_run w_cntrs w_disk w_bu andb]; [|reflexivity].
  destruct (is_listed (w_name c) ids); reflexivity.
Qed.

(* The message of the main process: those in it are running, the others are not. *)
Theorem clients_running : forall ids l, tidy l -> Forall id_ok ids ->
  parse_parent_data (clients_message ids) l = Some (map (expected ids) l).
Proof.
  intros ids l T F. unfold parse_parent_data.
  replace (RestoreModel.starts_with (clients_message ids) (str "cntr")) with false by reflexivity.
  replace (RestoreModel.starts_with (clients_message ids) (str "clients")) with true by reflexivity.
  f_equal. unfold parse_clients_list. destruct l as [|c l]; [reflexivity|].
  rewrite message_toks by auto. rewrite mark_all_map; auto.
  - rewrite !map_map. apply map_ext. intros x. apply client_expected.
  - apply tidy_map; auto; [apply unmark_name|]. intros x. unfold unmark. rewrite set_run_cntrs. cbn [set_cntrs w_cntrs].
    apply map_pids. reflexivity.
Qed.
Lemma listed_in : forall n p ids b, listed_bno n p ids = Some b -> In (n, p, b) ids.
Proof.
  induction ids as [|[[n' p'] b'] ids IH]; intros b H; cbn [listed_bno] in H; [discriminate|].
  destruct (listed_bno n p ids) as [x|]; [right; apply IH; auto|].
  destruct (beqb n n') eqn:B; [|discriminate]. destruct (Z.eqb_spec p p'); [|discriminate]. cbn [andb] in H. injection H as <-.
  apply beqb_eq in B. subst. left; auto.
Qed.
Lemma listed_some : forall n p ids b, In (n, p, b) ids -> listed_bno n p ids <> None.
Proof.
  induction ids as [|[[n' p'] b'] ids IH]; intros b H; cbn [listed_bno]; [inversion H|].
  destruct H as [H|H].
  - injection H as -> -> ->. rewrite (proj2 (beqb_eq n n) eq_refl), Z.eqb_refl. destruct (listed_bno n p ids); discriminate.
  - specialize (IH b H). destruct (listed_bno n p ids); congruence.
Qed.
Lemma is_listed_in : forall n ids, is_listed n ids = true <-> exists p b, In (n, p, b) ids.
Proof.
  intros n ids. unfold is_listed. rewrite existsb_exists. split.
  - intros ([[n' p] b] & I & E). apply beqb_eq in E. cbn in E. subst n'. eauto.
  - intros (p & b & I). exists (n, p, b). split; auto. apply beqb_eq. auto.
Qed.

(* ---------- a report of a child ---------- *)

Definition sound (c : cst) : Prop :=
  NoDup (map k_pid (w_cntrs c)) /\ Forall (fun h => map sig (k_ents h) = map sig table) (w_cntrs c).
(* What a report changes about the client it is about. *)
Definition reported (h : head) (l1 : list ent) (c c' : cst) : Prop :=
  w_name c' = w_name c /\ w_labels c' = w_labels c /\ w_permitted c' = w_permitted c /\
  w_disk c' = w_disk c /\ w_bu c' = w_bu c /\
  w_run c' = (if w_permitted c then RRunning else w_run c) /\
  (exists k, In k (w_cntrs c') /\ k_pid k = h_pid h /\ k_bno k = h_bno h /\ k_status k = h_status h /\
             Forall2 reports (k_ents k) l1) /\
  (forall k, k_pid k <> h_pid h -> (In k (w_cntrs c') <-> In k (w_cntrs c))) /\
  sound c'.

Lemma starts_app : forall p s, RestoreModel.starts_with (p ++ s) p = true.
Proof. induction p as [|x p IH]; intros s; [destruct s; reflexivity|]. cbn. rewrite Z.eqb_refl. apply IH. Qed.
Lemma upto_tab_app : forall a r, ~ In 9 a -> upto_tab (a ++ 9 :: r) = a.
Proof.
  induction a as [|x a IH]; intros r H; [reflexivity|]. cbn [app upto_tab].
  destruct (Z.eqb_spec x 9); [exfalso; apply H; left; auto|]. f_equal. apply IH. intro; apply H; right; auto.
Qed.
Lemma sig_reports : forall a b, Forall2 reports a b -> map sig a = map sig b.
Proof. induction 1; cbn [map]; auto. destruct H as [H _]. rewrite H, IHForall2. reflexivity. Qed.

Section Report.
  Variables (now : Z) (h : head) (l : list ent) (path l1line : bytes) (l1 : list ent).
  Hypothesis (H : head_ok h) (L : counters l) (P : plain path) (PL : zl path <= 255).
  Hypothesis E : cntr_to_str now h l path = (l1, l1line).

  Lemma line_shape : exists rest, l1line = str "cntr" ++ 9 :: id_text (h_cname h, h_pid h, h_bno h) ++ 9 :: rest.
  Proof.
    unfold cntr_to_str in E. injection E as E1 E2. rewrite <- E2. clear E2.
    pose proof (set_end_counters now l L) as L1. rewrite E1 in *. destruct L1 as [S1 R1].
    rewrite cap_all. 2:{ pose proof (head_zl h). pose proof (max_big l1 (h_cname h) S1). lia. }
    unfold head_text. cbn [id_text]. eexists.
    repeat (rewrite <- app_assoc || rewrite <- app_comm_cons). reflexivity.
  Qed.
  Lemma fill_ok : forall k, map sig (k_ents k) = map sig table ->
    exists k', fill l1line k = (0, k') /\ k_pid k' = h_pid h /\ k_bno k' = h_bno h /\ k_status k' = h_status h /\ Forall2 reports (k_ents k') l1.
  Proof.
    intros k S. pose proof (line_roundtrip now h l path (k_pid k) (k_bno k) (k_status k) (k_ents k) H L S P PL) as R.
    rewrite E in R. cbv zeta in R. destruct R as (R0 & _ & R1 & R2 & R3 & R4 & _).
    unfold fill. rewrite R0. eexists. split; [reflexivity|]. cbn [k_pid k_bno k_status k_ents]. auto.
  Qed.
  Lemma l1_sig : map sig l1 = map sig table.
  Proof. unfold cntr_to_str in E. injection E as E1 E2. pose proof (set_end_counters now l L) as [S _]. rewrite E1 in S. exact S. Qed.
  Lemma fill_pid_ok : forall ks, NoDup (map k_pid ks) -> Forall (fun k => map sig (k_ents k) = map sig table) ks ->
    match fill_pid l1line (h_pid h) ks with
    | Some (e, ks') => e = 0 /\ In (h_pid h) (map k_pid ks) /\ map k_pid ks' = map k_pid ks /\
        (exists k, In k ks' /\ k_pid k = h_pid h /\ k_bno k = h_bno h /\ k_status k = h_status h /\ Forall2 reports (k_ents k) l1) /\
        (forall k, k_pid k <> h_pid h -> (In k ks' <-> In k ks)) /\
        Forall (fun k => map sig (k_ents k) = map sig table) ks'
    | None => ~ In (h_pid h) (map k_pid ks)
    end.
  Proof.
    induction ks as [|k ks IH]; intros D F; cbn [fill_pid map] in *; [intros []|]. inversion D; subst. inversion F; subst.
    destruct (Z.eqb_spec (k_pid k) (h_pid h)) as [Ep|Ep].
    - destruct (fill_ok k H4) as (k' & Ef & A & B & C & R). rewrite Ef.
      split; auto. split; [left; auto|]. split; [cbn [map]; congruence|]. split; [exists k'; split; [left; auto|auto]|]. split.
      + intros x Nx. cbn [In]. split; intros [I|I]; auto; subst; congruence.
      + constructor; auto. rewrite (sig_reports _ _ R). apply l1_sig.
    - specialize (IH H3 H5). destruct (fill_pid l1line (h_pid h) ks) as [[e ks']|].
      + destruct IH as (Ez & Ii & M & (k' & Ik & Rk) & O & G). split; auto. split; [right; auto|]. split; [cbn [map]; congruence|].
        split; [exists k'; split; [right; auto|auto]|]. split.
        * intros x Nx. cbn [In]. rewrite (O x Nx). tauto.
        * constructor; auto.
      + intros [I|I]; auto.
  Qed.
  Lemma cntr_one_ok : forall c, sound c -> exists c', cntr_one l1line (h_pid h) c = (0, c') /\ reported h l1 c c'.
  Proof.
    intros c [D F]. unfold cntr_one. rewrite set_run_cntrs. pose proof (fill_pid_ok (w_cntrs c) D F) as X.
    assert (R : w_run (set_run RRunning c) = if w_permitted c then RRunning else w_run c).
    { unfold set_run. destruct (w_permitted c); reflexivity. }
    assert (O : w_labels (set_run RRunning c) = w_labels c /\ w_disk (set_run RRunning c) = w_disk c /\ w_bu (set_run RRunning c) = w_bu c).
    { unfold set_run. destruct (w_permitted c); auto. }
    destruct O as (O1 & O2 & O3).
    destruct (fill_pid l1line (h_pid h) (w_cntrs c)) as [[e ks]|].
    - destruct X as (-> & _ & M & K & Oth & G). eexists. split; [reflexivity|].
      unfold reported. cbn [set_cntrs w_name w_labels w_permitted w_run w_cntrs w_disk w_bu].
      rewrite set_run_name, set_run_perm. do 6 (split; [auto|]). split; [auto|]. split; [auto|]. split; cbn [set_cntrs w_cntrs]; [congruence|auto].
    - destruct (fill_ok (new_chl (h_pid h)) eq_refl) as (k' & Ef & A & B & C & Rk). rewrite Ef. eexists. split; [reflexivity|].
      unfold reported. cbn [set_cntrs w_name w_labels w_permitted w_run w_cntrs w_disk w_bu].
      rewrite set_run_name, set_run_perm. do 6 (split; [auto|]). split; [exists k'; split; [left; auto|auto]|]. split.
      + intros x Nx. cbn [In]. split; [intros [I|I]; auto; subst; congruence|auto].
      + split; cbn [set_cntrs w_cntrs map].
        * constructor; auto. congruence.
        * constructor; auto. rewrite (sig_reports _ _ Rk). apply l1_sig.
  Qed.
  Definition one (c c' : cst) : Prop := if beqb (w_name c) (h_cname h) then reported h l1 c c' else c' = c.
  Theorem report_read : forall cl, Forall sound cl ->
    exists cl', parse_parent_data l1line cl = Some cl' /\ Forall2 one cl cl'.
  Proof.
    intros cl S. destruct line_shape as (rest & Sh).
    assert (X : parse_parent_data l1line cl = cntr_all l1line (h_cname h) (h_pid h) cl).
    { unfold parse_parent_data. rewrite Sh at 1. rewrite starts_app. unfold parse_cntr_data. rewrite Sh at 1.
      change (after_tab (str "cntr" ++ 9 :: id_text (h_cname h, h_pid h, h_bno h) ++ 9 :: rest))
        with (Some (id_text (h_cname h, h_pid h, h_bno h) ++ 9 :: rest)). cbv iota.
      destruct H as (Hc & Hp & Hb & _). destruct (id_text_ok (h_cname h, h_pid h, h_bno h)) as ([A _] & _ & B).
      { split; auto. } rewrite upto_tab_app by auto. rewrite B. reflexivity. }
    rewrite X. clear X Sh rest. induction cl as [|c cl IH]; cbn [cntr_all]; [exists []; split; auto|].
    inversion S; subst. destruct (IH H3) as (r & Er & Fr). rewrite Er. unfold one.
    destruct (beqb (w_name c) (h_cname h)) eqn:B.
    - destruct (cntr_one_ok c H2) as (c' & Ec & R). rewrite Ec. change (0 =? 0) with true. cbv iota.
      exists (c' :: r). split; auto. constructor; auto. rewrite B. exact R.
    - exists (c :: r). split; auto. constructor; auto. rewrite B. reflexivity.
  Qed.
End Report.

(* ---------- answers to all requests ---------- *)

(* What it takes for backups to be shown. *)
Definition readable (b : mbu) : Prop := (forall n, m_log b n <> None) /\ (forall d, m_browse b d <> None).
Definition shown (c : cst) : Prop :=
  Forall readable (w_bu c) /\ match w_disk c with Some l => Forall readable l | None => True end.
(* For old clients: there are counters when there is an unfinished backup. *)
Definition counted (c : cst) : Prop :=
  w_cntrs c <> [] \/
  (forall b, In b (w_bu c) \/ (exists l, w_disk c = Some l /\ In b l) -> m_flag b FWorking = false /\ m_flag b FFinishing = false).

Lemma find_in : forall (f : mbu -> bool) l b, find f l = Some b -> In b l.
Proof. intros f l b H. apply find_some in H. tauto. Qed.
Lemma send_log_ok : forall b lf, readable b -> exists x, send_log b lf = Good x.
Proof.
  intros b lf [R _]. unfold send_log. destruct lf as [n|]; [|eauto].
  destruct (find (fun f => m_flag b f && beqb n (log_name f)) log_flags); [|eauto].
  specialize (R n). destruct (m_log b n); [eauto|congruence].
Qed.
Lemma send_backup_ok : forall now pv c b lf br, readable b ->
  (version_2_1_8 < pv \/ w_cntrs c <> [] \/ (m_flag b FWorking = false /\ m_flag b FFinishing = false)) ->
  exists o, send_backup now pv c b lf br = Good o.
Proof.
  intros now pv c b lf br R V. unfold send_backup.
  match goal with |- context [bind ?x _] => assert (X : exists y, x = Good y) end.
  { destruct ((m_flag b FWorking || m_flag b FFinishing) && (pv <=? version_2_1_8)) eqn:C; [|eauto].
    apply andb_prop in C as [C1 C2]. apply Z.leb_le in C2.
    destruct (w_cntrs c) eqn:K; [|eauto]. exfalso. destruct V as [V|[V|[V1 V2]]]; [lia|congruence|].
    rewrite V1, V2 in C1. discriminate. }
  destruct X as (y & ->). cbn [bind]. destruct (existsb (m_flag b) log_flags); [|eauto].
  destruct (send_log_ok b lf R) as (x & ->). cbn [bind].
  destruct br as [d|]; [|cbn [bind]; eauto]. destruct R as [_ R]. specialize (R d). destruct (m_browse b d); [cbn [bind]; eauto|congruence].
Qed.
Lemma send_backups_ok : forall now pv c l lf br, Forall readable l ->
  (version_2_1_8 < pv \/ w_cntrs c <> [] \/ (forall b, In b l -> m_flag b FWorking = false /\ m_flag b FFinishing = false)) ->
  exists o, send_backups now pv c l lf br = Good o.
Proof.
  induction l as [|b l IH]; intros lf br R V; cbn [send_backups]; [eauto|]. inversion R; subst.
  destruct (send_backup_ok now pv c b lf br H1) as (o & ->). { destruct V as [V|[V|V]]; auto. right; right. apply V. left; auto. }
  cbn [bind]. destruct (IH lf br H2) as (os & ->). { destruct V as [V|[V|V]]; auto. right; right. intros. apply V. right; auto. }
  cbn [bind]. eauto.
Qed.
Lemma send_client_ok : forall now pv c l lf br, Forall readable l ->
  (version_2_1_8 < pv \/ w_cntrs c <> [] \/ (forall b, In b l -> m_flag b FWorking = false /\ m_flag b FFinishing = false)) ->
  exists o, send_client now pv c l lf br = Good o.
Proof. intros. unfold send_client. destruct (send_backups_ok now pv c l lf br) as (o & ->); auto. cbn [bind]. eauto. Qed.
Lemma latest_in : forall b l, In b (latest l) -> In b l.
Proof.
  intros b l H. unfold latest in H. apply in_app_or in H as [H|H].
  - unfold bu_find in H. destruct (find (fun b => m_flag b FCurrent) l) eqn:F; [|inversion H]. destruct H as [->|[]]. eapply find_in; eauto.
  - unfold bu_find in H. destruct (find (fun b => m_flag b FWorking) l) eqn:F.
    + destruct H as [->|[]]. eapply find_in; eauto.
    + destruct (find (fun b => m_flag b FFinishing) l) eqn:F2; [|inversion H]. destruct H as [->|[]]. eapply find_in; eauto.
Qed.
Lemma send_clients_ok : forall now pv l, Forall shown l -> (version_2_1_8 < pv \/ Forall counted l) ->
  exists o, send_clients now pv l = Good o.
Proof.
  induction l as [|c l IH]; intros S V; cbn [send_clients]; [eauto|]. inversion S; subst.
  assert (V' : version_2_1_8 < pv \/ Forall counted l) by (destruct V as [V|V]; [auto|inversion V; auto]).
  destruct (IH H2 V') as (os & Es). destruct (w_permitted c); [|eauto].
  destruct (send_client_ok now pv c (latest (w_bu c)) None None) as (o & ->).
  - apply Forall_forall. intros b I. destruct H1 as [H1 _]. rewrite Forall_forall in H1. apply H1, latest_in, I.
  - destruct V as [V|V]; [auto|]. inversion V; subst. destruct H3 as [H3|H3]; auto. right; right. intros b I. apply H3. left. apply latest_in, I.
  - cbn [bind]. rewrite Es. cbn [bind]. eauto.
Qed.
Lemma by_name_in : forall n l c, by_name n l = Some c -> In c l.
Proof.
  induction l as [|x l IH]; intros c H; cbn [by_name] in H; [discriminate|]. destruct (beqb (w_name x) n); [injection H as <-; left; auto|right; auto].
Qed.

(* With everything readable, a request is answered unless it is a version number
   of zero; with an old client's number, unless there is an unfinished backup
   that nobody is working on. *)
Theorem answered : forall now s pv l, Forall shown l -> (version_2_1_8 < pv \/ Forall counted l) ->
  (forall cmd, q_command (parse_cmd s [] None noreq) = Some cmd -> RestoreModel.starts_with cmd pv_cmd = false) ->
  snd (parse_client_data now s pv l) <> AFail /\ snd (parse_client_data now s pv l) <> ACrash.
Proof.
  intros now s pv l S V C. unfold parse_client_data.
  destruct (q_command (parse_cmd s [] None noreq)) as [cmd|].
  { unfold do_command. rewrite (C cmd eq_refl).
    destruct (beqb cmd (str "pretty-print-on")); [split; discriminate|]. destruct (beqb cmd (str "pretty-print-off")); [split; discriminate|].
    destruct (beqb cmd (str "response-markers-on")); [split; discriminate|]. destruct (beqb cmd (str "response-markers-off")); split; discriminate. }
  destruct (q_client (parse_cmd s [] None noreq)) as [n|].
  - destruct (by_name n l) as [c|] eqn:B; [|split; discriminate]. apply by_name_in in B.
    rewrite Forall_forall in S. pose proof (S c B) as [_ Sc].
    assert (R : Forall readable (w_bu (set_backup_list c))).
    { unfold set_backup_list. cbn [w_bu]. destruct (w_permitted c); auto. destruct (w_disk c); auto. }
    assert (K : version_2_1_8 < pv \/ w_cntrs (set_backup_list c) <> [] \/ (forall b, In b (w_bu (set_backup_list c)) -> m_flag b FWorking = false /\ m_flag b FFinishing = false)).
    { destruct V as [V|V]; auto. rewrite Forall_forall in V. destruct (V c B) as [K|K]; auto. right; right.
      intros b I. apply K. right. unfold set_backup_list in I. cbn [w_bu] in I. destruct (w_permitted c); [|inversion I].
      destruct (w_disk c) as [m|]; [exists m; auto|inversion I]. }
    destruct (q_backup (parse_cmd s [] None noreq)) as [bk|].
    + destruct (strtoul10 bk =? 0); [split; discriminate|].
      destruct (find (fun u => m_bno u =? strtoul10 bk) (w_bu (set_backup_list c))) as [u|] eqn:F; [|split; discriminate].
      apply find_in in F.
      match goal with |- context [if ?b then (_, pv, AWarn ?m) else _] => destruct b end; [split; discriminate|]. cbn [snd].
      match goal with |- context [send_client now pv ?c ?l ?lf ?br] => destruct (send_client_ok now pv c l lf br) as (o & ->) end.
      * constructor; auto. rewrite Forall_forall in R. apply R, F.
      * destruct K as [K|[K|K]]; auto. right; right. intros b [<-|[]]. apply K, F.
      * split; discriminate.
    + match goal with |- context [if ?b then (_, pv, AWarn ?m) else _] => destruct b end; [split; discriminate|]. cbn [snd].
      destruct (send_client_ok now pv (set_backup_list c) (w_bu (set_backup_list c)) None None R K) as (o & ->). split; discriminate.
  - match goal with |- context [if ?b then (_, pv, AWarn ?m) else _] => destruct b end; [split; discriminate|]. cbn [snd].
    destruct (send_clients_ok now pv l S V) as (o & ->). split; discriminate.
Qed.
