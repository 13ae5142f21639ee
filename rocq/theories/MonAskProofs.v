(* What a request for one backup is answered with (C86). *)
From Verif Require Import Bytes FrameModel DpthModel BuModel CmdModel UtilModel AuthModel CntrModel CntrProofs.
From Verif Require Import MonModel MonProofs MonSeeProofs MonRunProofs.

(* ---------- spec ---------- *)

(* d without the slashes at its end; a single slash stays. *)
Definition trimmed (d d' : bytes) : Prop :=
  (exists k, d = d' ++ repeat 47 k) /\ (d' = [] \/ d' = [47] \/ last d' 0 <> 47) /\ (d <> [] -> d' <> []).
(* The files there are logs or statistics in, and their names. *)
Definition six : list (flag * bytes) :=
  [(FLogBackup, str "backup"); (FLogRestore, str "restore"); (FLogVerify, str "verify");
   (FStatsBackup, str "backup_stats"); (FStatsRestore, str "restore_stats"); (FStatsVerify, str "verify_stats")].
Definition on (u : mbu) (fs : list flag) : list flag := filter (m_flag u) fs.
Definition some_log (u : mbu) : Prop := exists f, In f (map fst six) /\ m_flag u f = true.

(* The backup as asked for. *)
Definition shown_as (u : mbu) (log : option (flag * list bytes)) (browse : option (bytes * list bytes)) (o : obu) : Prop :=
  o_bno o = m_bno u /\ o_time o = m_time u /\
  o_flags o = on u [FHardlinked; FDeletable; FWorking; FFinishing; FCurrent; FManifest] /\
  o_counters o = None /\ o_logs o = Some (on u (map fst six)) /\ o_log o = log /\ o_browse o = browse.

(* ---------- proofs ---------- *)

Lemma drop_spec : forall s, exists k, s = repeat 47 k ++ drop_slashes s /\
  (drop_slashes s = [] \/ drop_slashes s = [47] \/ hd 0 (drop_slashes s) <> 47) /\ (s <> [] -> drop_slashes s <> []).
Proof.
  induction s as [|c s IH]; [exists O; cbn; auto|]. cbn [drop_slashes].
  destruct (Z.eqb_spec c slash) as [->|N].
  - destruct s as [|x s].
    + exists O. cbn. repeat split; auto; discriminate.
    + destruct IH as (k & E & H & G). exists (S k). cbn [repeat app]. split; [f_equal; exact E|]. split; [exact H|]. intros _. apply G. discriminate.
  - exists O. cbn. repeat split; auto; discriminate.
Qed.
Lemma repeat_rev : forall k (x : Z), rev (repeat x k) = repeat x k.
Proof. induction k as [|k IH]; intros x; [reflexivity|]. cbn [repeat rev]. rewrite IH. clear IH. induction k; [reflexivity|]. cbn [repeat app]. f_equal. exact IHk. Qed.
Lemma last_rev : forall (l : bytes), last (rev l) 0 = hd 0 l.
Proof. destruct l as [|x l]; [reflexivity|]. cbn [rev hd]. rewrite last_last. reflexivity. Qed.

Lemma strip_trimmed : forall d, trimmed d (strip_trailing_slashes d).
Proof.
  intros d. unfold strip_trailing_slashes. destruct (drop_spec (rev d)) as (k & E & H & G). split; [|split].
  - exists k. rewrite <- (repeat_rev k 47), <- rev_app_distr, <- E. symmetry. apply rev_involutive.
  - destruct H as [H|[H|H]]; [left|right; left|right; right]; try (rewrite H; reflexivity). rewrite last_rev. exact H.
  - intros N X. apply (f_equal (@rev Z)) in X. rewrite rev_involutive in X. apply G; [|exact X].
    intros Y. apply N. rewrite <- (rev_involutive d), Y. reflexivity.
Qed.
Lemma repeat_snoc : forall k (x : Z), repeat x (S k) = repeat x k ++ [x].
Proof. induction k as [|k IH]; intros x; [reflexivity|]. cbn [repeat app] in *. rewrite <- IH. reflexivity. Qed.
Lemma trimmed_one : forall d a b, trimmed d a -> trimmed d b -> a = b.
Proof.
  intros d a b ((i & A) & A2 & A3) ((j & B) & B2 & B3).
  assert (G : forall x y i j, d = x ++ repeat 47 i -> d = y ++ repeat 47 j ->
     (x = [] \/ x = [47] \/ last x 0 <> 47) -> (d <> [] -> y <> []) -> (d <> [] -> x <> []) -> (i <= j)%nat -> x = y).
  { clear. intros x y i j X Y P N N2 L. assert (E : x = y ++ repeat 47 (j - i)).
    { apply (app_inv_tail (repeat 47 i)). rewrite <- app_assoc, <- repeat_app. replace (j - i + i)%nat with j by lia. congruence. }
    destruct (j - i)%nat as [|m]; [rewrite E, app_nil_r; reflexivity|].
    rewrite repeat_snoc, app_assoc in E. destruct P as [P|[P|P]].
    - rewrite P in E. destruct (y ++ repeat 47 m); discriminate.
    - rewrite P in E. assert (Z : y ++ repeat 47 m = []). { destruct (y ++ repeat 47 m) as [|? [|? ?]]; [reflexivity|discriminate|discriminate]. }
      apply app_eq_nil in Z. destruct Z as [-> _]. exfalso. apply N; [|reflexivity]. rewrite X, P. discriminate.
    - rewrite E, last_last in P. contradiction. }
  destruct (Nat.le_ge_cases i j); [eapply G; eauto|symmetry; eapply G; eauto].
Qed.

Lemma supported_spec : forall n, supported n = true <-> n = str "manifest" \/ In n (map snd six).
Proof.
  intros n. unfold supported. rewrite existsb_exists. split.
  - intros (x & I & E). apply beqb_eq in E. subst x. cbn [In six map snd] in *. intuition.
  - intros H. exists n. rewrite beqb_refl. split; [|reflexivity]. cbn [In six map snd] in *. intuition.
Qed.

Lemma six_flags : map fst six = log_flags. Proof. reflexivity. Qed.
Lemma find_six : forall u f n, In (f, n) six -> m_flag u f = true ->
  find (fun f => m_flag u f && beqb n (log_name f)) log_flags = Some f.
Proof.
  intros u f n I F. cbn [six In] in I.
  repeat (destruct I as [I|I]; [inversion I; subst; clear I; cbn [find log_flags log_name]; 
    repeat (rewrite Bool.andb_false_r); rewrite F; 
    repeat match goal with |- context [beqb ?a ?b] => let v := eval vm_compute in (beqb a b) in change (beqb a b) with v end;
    rewrite ?Bool.andb_false_r; reflexivity|]).
  contradiction.
Qed.
Lemma find_manifest : forall u, find (fun f => m_flag u f && beqb (str "manifest") (log_name f)) log_flags = None.
Proof.
  intros u. cbn [find log_flags log_name].
  repeat match goal with |- context [beqb ?a ?b] => let v := eval vm_compute in (beqb a b) in change (beqb a b) with v end.
  rewrite !Bool.andb_false_r. reflexivity.
Qed.

Section Ask.
Variables (now pv : Z) (s : bytes) (l : list cst) (n b : bytes) (c : cst) (bus : list mbu) (u : mbu).
Let q := parse_cmd s [] None noreq.
Hypothesis Hcmd : q_command q = None.
Hypothesis Hcl : q_client q = Some n.
Hypothesis Hname : by_name n l = Some c.
Hypothesis Hperm : w_permitted c = true.
Hypothesis Hdisk : w_disk c = Some bus.
Hypothesis Hb : q_backup q = Some b.
Hypothesis Hno : strtoul10 b = m_bno u.
Hypothesis Hnz : m_bno u <> 0.
Hypothesis Hfind : find (fun x => m_bno x =? m_bno u) bus = Some u.
Hypothesis Hpv : version_2_1_8 < pv.
Hypothesis Hlog : some_log u.

Lemma has_log : existsb (m_flag u) log_flags = true.
Proof. destruct Hlog as (f & I & F). apply existsb_exists. exists f. rewrite six_flags in I. auto. Qed.

Lemma ask_common : forall lf br lg bw,
  lf = match option_map strip_trailing_slashes (q_browse q) with Some _ => Some (str "manifest") | None => q_log q end ->
  br = option_map strip_trailing_slashes (q_browse q) ->
  (forall f, lf = Some f -> supported f = true) ->
  send_log u lf = Good lg ->
  match br with None => Good None | Some d => match m_browse u d with Some x => Good (Some (d, x)) | None => Fail end end = Good bw ->
  exists x o, snd (parse_client_data now s pv l) = AClients [x] /\ o_name x = w_name c /\ o_labels x = w_labels c /\ o_run x = w_run c /\ o_backups x = [o] /\ shown_as u lg bw o.
Proof.
  intros lf br lg bw E1 E2 Sup L B. unfold parse_client_data. fold q. rewrite Hcmd, Hcl, Hname, Hb, Hno.
  cbv zeta. rewrite <- E2. rewrite <- E2 in E1. rewrite <- E1.
  replace (match lf with Some n0 => negb (supported n0) | None => false end) with false
    by (destruct lf as [f|]; [rewrite (Sup f eq_refl)|]; reflexivity).
  destruct (Z.eqb_spec (m_bno u) 0); [contradiction|].
  cbn [set_backup_list w_bu]. rewrite Hperm, Hdisk, Hfind.
  cbn [send_client send_backups]. unfold send_client. cbn [send_backups].
  unfold send_backup. replace (pv <=? version_2_1_8) with false by lia. rewrite Bool.andb_false_r. cbn [bind].
  rewrite has_log, L. cbn [bind]. rewrite B. cbn [bind answer_of snd].
  do 2 eexists. split; [reflexivity|]. cbn [o_name o_labels o_run o_backups w_name w_labels w_run]. do 4 (split; [reflexivity|]).
  repeat split.
Qed.

Theorem ask_browse : forall d d' names, q_browse q = Some d -> trimmed d d' -> m_browse u d' = Some names ->
  exists x o, snd (parse_client_data now s pv l) = AClients [x] /\ o_name x = w_name c /\ o_labels x = w_labels c /\ o_run x = w_run c /\ o_backups x = [o] /\ shown_as u None (Some (d', names)) o.
Proof.
  intros d d' names Q T M. rewrite (trimmed_one d d' (strip_trailing_slashes d) T (strip_trimmed d)) in *.
  eapply (ask_common (Some (str "manifest")) (Some (strip_trailing_slashes d))).
  - rewrite Q. reflexivity.
  - rewrite Q. reflexivity.
  - intros f E. inversion E. reflexivity.
  - unfold send_log. rewrite find_manifest. reflexivity.
  - rewrite M. reflexivity.
Qed.

Theorem ask_log : forall f name ls, q_browse q = None -> q_log q = Some name -> In (f, name) six -> m_flag u f = true -> m_log u name = Some ls ->
  exists x o, snd (parse_client_data now s pv l) = AClients [x] /\ o_name x = w_name c /\ o_labels x = w_labels c /\ o_run x = w_run c /\ o_backups x = [o] /\ shown_as u (Some (f, ls)) None o.
Proof.
  intros f name ls Q1 Q2 I F M. eapply (ask_common (Some name) None).
  - rewrite Q1, Q2. reflexivity.
  - rewrite Q1. reflexivity.
  - intros g E. inversion E; subst g. apply supported_spec. right. apply (in_map snd) in I. exact I.
  - unfold send_log. rewrite (find_six u f name I F), M. reflexivity.
  - reflexivity.
Qed.

Theorem ask_unsupported : forall name, q_browse q = None -> q_log q = Some name -> name <> str "manifest" -> ~ In name (map snd six) ->
  snd (parse_client_data now s pv l) = AWarn (str "File not supported").
Proof.
  intros name Q1 Q2 N1 N2. unfold parse_client_data. fold q. rewrite Hcmd, Hcl, Hname, Hb, Hno, Q1, Q2. cbn [option_map].
  assert (X : supported name = false). { destruct (supported name) eqn:E; [|reflexivity]. apply supported_spec in E. tauto. }
  rewrite X. cbn [negb]. destruct (Z.eqb_spec (m_bno u) 0); [contradiction|].
  cbn [set_backup_list w_bu]. rewrite Hperm, Hdisk, Hfind. reflexivity.
Qed.
End Ask.

Theorem ask_unknown : forall now s pv l n, let q := parse_cmd s [] None noreq in
  q_command q = None -> q_client q = Some n -> by_name n l = None -> Z.of_nat (List.length n) <= 232 ->
  parse_client_data now s pv l = (l, pv, AWarn (str "Could not find client: " ++ n)).
Proof.
  intros now s pv l n q H1 H2 H3 H4. unfold parse_client_data. fold q. rewrite H1, H2, H3. cbv zeta.
  unfold cap. rewrite firstn_all2; [reflexivity|]. rewrite app_length. change (List.length (str "Could not find client: ")) with 23%nat. lia.
Qed.
