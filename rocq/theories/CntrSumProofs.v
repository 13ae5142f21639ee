(* What the counters say about the calls that were made, and what the statistics
   say about the counters: /repo/src/cntr.c, server/monitor/json_output.c *)
From Coq Require Import Lia.
From Verif Require Import Bytes FrameModel DpthModel BuModel CmdModel CntrModel CntrProofs.
Local Open Scope Z_scope.

(* ---------- specification ---------- *)

(* The number of the entry with letter c. *)
Definition num (sel : ent -> Z) (c : Z) (l : list ent) : Z :=
  match find (fun e => e_cmd e =? c) l with Some e => sel e | None => 0 end.

Definition one (b : bool) : Z := if b then 1 else 0.
(* How many of the calls were of each kind for the letter c. *)
Definition n_new (c : Z) (o : op) : Z := match o with OAdd ch => one (ch =? c) | OVal ch v => if ch =? c then v else 0 | _ => 0 end.
Definition n_changed (c : Z) (o : op) : Z :=
  match o with OChanged ch => one (ch =? c) | OAdd ch => one ((ch =? CMD_FILE_CHANGED) && (c =? CMD_FILE)) | _ => 0 end.
Definition n_same (c : Z) (o : op) : Z := match o with OSame ch => one (ch =? c) | _ => 0 end.
Definition n_deleted (c : Z) (o : op) : Z := match o with ODeleted ch => one (ch =? c) | _ => 0 end.
Definition n_scanned (c : Z) (o : op) : Z := match o with OPhase1 ch => one (ch =? c) | _ => 0 end.

(* How many were of each kind, whatever the letter.  Warnings and messages do
   not count. *)
Definition g_new (o : op) : Z := match o with OAdd ch => one (negb ((ch =? CMD_WARNING) || (ch =? CMD_MESSAGE))) | _ => 0 end.
Definition g_changed (o : op) : Z := match o with OChanged _ => 1 | OAdd ch => one (ch =? CMD_FILE_CHANGED) | _ => 0 end.
Definition g_same (o : op) : Z := match o with OSame _ => 1 | _ => 0 end.
Definition g_deleted (o : op) : Z := match o with ODeleted _ => 1 | _ => 0 end.
Definition g_scanned (o : op) : Z := match o with OPhase1 _ => 1 | _ => 0 end.

(* The letter a call is about; the totals and the letter of a changed file are
   not given to the calls from outside, except the last to cntr_add(). *)
Definition letter (o : op) : option Z :=
  match o with OAdd c | OSame c | OChanged c | ODeleted c | OPhase1 c | OVal c _ => Some c | OSet _ _ => None end.
Definition ordinary (o : op) : Prop := letter o <> Some CMD_TOTAL /\ letter o <> Some CMD_GRAND_TOTAL.

(* The rows of the table above its last line. *)
Definition rows : list Z :=
  [CMD_FILE; CMD_ENC_FILE; CMD_METADATA; CMD_ENC_METADATA; CMD_DIRECTORY; CMD_HARD_LINK; CMD_SOFT_LINK; CMD_SPECIAL;
   CMD_VSS; CMD_ENC_VSS; CMD_VSS_T; CMD_ENC_VSS_T; CMD_EFS_FILE].
(* A call that belongs into the table, or that has nothing to do with it. *)
Definition tabled (o : op) : Prop :=
  match o with
  | OAdd c => In c rows \/ c = CMD_WARNING \/ c = CMD_MESSAGE
  | OSame c | OChanged c | ODeleted c | OPhase1 c => In c rows
  | OVal c _ => ~ In c rows /\ c <> CMD_TOTAL /\ c <> CMD_GRAND_TOTAL
  | OSet _ _ => True
  end.

(* ---------- one call ---------- *)

Lemma find_at : forall ch f c l, (forall e, e_cmd (f e) = e_cmd e) ->
  find (fun e => e_cmd e =? c) (at_ent ch f l) =
  if ch =? c then option_map f (find (fun e => e_cmd e =? c) l) else find (fun e => e_cmd e =? c) l.
Proof.
  intros ch f c l H. induction l as [|e l IH]; cbn [at_ent find]. { destruct (ch =? c); auto. }
  destruct (Z.eqb_spec (e_cmd e) ch) as [G|G].
  - cbn [find]. rewrite H. destruct (Z.eqb_spec (e_cmd e) c), (Z.eqb_spec ch c); auto; congruence.
  - cbn [find]. rewrite IH. destruct (Z.eqb_spec (e_cmd e) c), (Z.eqb_spec ch c); auto; congruence.
Qed.
Definition has (c : Z) (l : list ent) : Prop := In c (map e_cmd l).
Lemma has_find : forall c l, has c l -> exists e, find (fun e => e_cmd e =? c) l = Some e /\ e_cmd e = c.
Proof.
  unfold has. induction l as [|e l IH]; intros H; [destruct H|]. cbn [find].
  destruct (Z.eqb_spec (e_cmd e) c); [exists e; auto|]. apply IH. destruct H; [contradiction|auto].
Qed.

Lemma num_at : forall sel ch f c l, (forall e, e_cmd (f e) = e_cmd e) -> has c l ->
  exists e, num sel c l = sel e /\ num sel c (at_ent ch f l) = if ch =? c then sel (f e) else sel e.
Proof.
  intros sel ch f c l H P. destruct (has_find c l P) as (e & F & C). exists e. unfold num.
  rewrite find_at, F by auto. split; auto. destruct (ch =? c); auto.
Qed.

Lemma u64_add : forall a b, u64 (u64 a + b) = u64 (a + b).
Proof. intros. unfold u64. rewrite Zplus_mod_idemp_l. auto. Qed.
Lemma u64_0 : forall a, is_u64 a -> u64 (a + 0) = a.
Proof. intros. rewrite Z.add_0_r. apply u64_small. auto. Qed.

Definition sels : list (ent -> Z) := [e_count; e_changed; e_same; e_deleted; e_phase1].
Lemma num_range : forall sel c l, In sel sels -> Forall in_range l -> is_u64 (num sel c l).
Proof.
  intros sel c l S R. unfold num. destruct (find _ l) as [e|] eqn:F; [|split; [lia|reflexivity]].
  apply find_some in F as [F _]. pose proof (proj1 (Forall_forall _ _) R e F) as (A & B & C & D & E).
  repeat (destruct S as [<-|S]; auto). destruct S.
Qed.

(* Every increment keeps letters and ranges. *)
Ltac keep := intros; unfold in_range in *; cbn; repeat match goal with |- context [u64 ?v] => pose proof (u64_range v); generalize dependent (u64 v); intros end; tauto.
Lemma step_sig : forall o l, map sig (step l o) = map sig l.
Proof.
  destruct o; intros l; cbn [step]; unfold cntr_add, cntr_add_same, cntr_add_changed, cntr_add_deleted, cntr_add_phase1,
    incr_count_val, incr_same_val, incr_changed_val, incr_deleted_val, incr_phase1_val;
  repeat match goal with |- context [if ?b then _ else _] => destruct b end;
  repeat (rewrite at_ent_sig; [|reflexivity]); auto.
Qed.
Lemma step_range : forall o l, Forall in_range l -> Forall in_range (step l o).
Proof.
  destruct o; intros l H; cbn [step]; unfold cntr_add, cntr_add_same, cntr_add_changed, cntr_add_deleted, cntr_add_phase1,
    incr_count_val, incr_same_val, incr_changed_val, incr_deleted_val, incr_phase1_val;
  repeat match goal with |- context [if ?b then _ else _] => destruct b end;
  repeat (apply at_ent_range; [keep|]); auto.
Qed.
Lemma run_counters : forall start os, counters (run start os).
Proof.
  intros start os. unfold run. assert (S : counters (at_ent CMD_TIMESTAMP (set_count start) table)).
  { split; [rewrite at_ent_sig; auto|]. apply at_ent_range; [intros; apply set_count_range; auto|].
    repeat constructor; cbn; try lia. }
  revert S. generalize (at_ent CMD_TIMESTAMP (set_count start) table).
  induction os as [|o os IH]; intros l H; auto. cbn [fold_left]. apply IH. destruct H as [A B].
  split; [rewrite step_sig; auto|apply step_range; auto].
Qed.

(* Adding v to a number of the entry with letter ch. *)
Inductive fld := FCount | FChanged | FSame | FDeleted | FPhase1.
Definition sel (f : fld) : ent -> Z :=
  match f with FCount => e_count | FChanged => e_changed | FSame => e_same | FDeleted => e_deleted | FPhase1 => e_phase1 end.
Definition incr (f : fld) : Z -> Z -> list ent -> list ent :=
  match f with FCount => incr_count_val | FChanged => incr_changed_val | FSame => incr_same_val
             | FDeleted => incr_deleted_val | FPhase1 => incr_phase1_val end.
Definition fld_eqb (f g : fld) : bool :=
  match f, g with FCount, FCount | FChanged, FChanged | FSame, FSame | FDeleted, FDeleted | FPhase1, FPhase1 => true | _, _ => false end.
Lemma sel_in : forall f, In (sel f) sels.
Proof. destruct f; cbn; auto 6. Qed.

Lemma num_incr : forall f g ch v c l, has c l ->
  num (sel g) c (incr f ch v l) = if fld_eqb f g && (ch =? c) then u64 (num (sel g) c l + v) else num (sel g) c l.
Proof.
  intros f g ch v c l H.
  destruct f; cbn [incr]; unfold incr_count_val, incr_same_val, incr_changed_val, incr_deleted_val, incr_phase1_val;
  match goal with |- num _ _ (at_ent _ ?F _) = _ => destruct (num_at (sel g) ch F c l) as (e & A & B); auto end;
  rewrite A, B; destruct g, (ch =? c); reflexivity.
Qed.
Lemma has_sig : forall c l m, map sig l = map sig m -> has c l -> has c m.
Proof. unfold has. intros c l m H P. rewrite <- (cmds_of_sig l m H). auto. Qed.
Lemma incr_sig : forall f ch v l, map sig (incr f ch v l) = map sig l.
Proof. destruct f; intros; cbn [incr]; apply at_ent_sig; reflexivity. Qed.
Lemma incr_range : forall f ch v l, Forall in_range l -> Forall in_range (incr f ch v l).
Proof. destruct f; intros; cbn [incr]; apply at_ent_range; auto; keep. Qed.

Definition upd := (fld * Z * Z)%type.
Definition app_upd (l : list ent) (u : upd) : list ent := let '(f, ch, v) := u in incr f ch v l.
Definition weight (g : fld) (c : Z) (u : upd) : Z := let '(f, ch, v) := u in if fld_eqb f g && (ch =? c) then v else 0.
Lemma upds_num : forall us g c l, has c l -> Forall in_range l ->
  num (sel g) c (fold_left app_upd us l) = u64 (num (sel g) c l + sumz (weight g c) us).
Proof.
  induction us as [|[[f ch] v] us IH]; intros g c l H R; cbn [fold_left sumz].
  - rewrite u64_0; auto. apply num_range; auto. apply sel_in.
  - rewrite IH. 2:{ eapply has_sig; [|exact H]. symmetry. apply incr_sig. } 2:{ apply incr_range; auto. }
    cbn [app_upd weight]. rewrite num_incr by auto. destruct (fld_eqb f g && (ch =? c)).
    + rewrite u64_add. f_equal. lia.
    + f_equal.
Qed.

Definition updates (o : op) : list upd :=
  match o with
  | OAdd ch => if ch =? CMD_FILE_CHANGED then [(FChanged, CMD_FILE, 1); (FChanged, CMD_TOTAL, 1); (FChanged, CMD_GRAND_TOTAL, 1); (FCount, CMD_GRAND_TOTAL, 1)]
               else if (ch =? CMD_WARNING) || (ch =? CMD_MESSAGE) then [(FCount, ch, 1)]
               else [(FCount, ch, 1); (FCount, CMD_TOTAL, 1); (FCount, CMD_GRAND_TOTAL, 1)]
  | OSame ch => [(FSame, ch, 1); (FSame, CMD_TOTAL, 1); (FSame, CMD_GRAND_TOTAL, 1)]
  | OChanged ch => [(FChanged, ch, 1); (FChanged, CMD_TOTAL, 1); (FChanged, CMD_GRAND_TOTAL, 1)]
  | ODeleted ch => [(FDeleted, ch, 1); (FDeleted, CMD_TOTAL, 1); (FDeleted, CMD_GRAND_TOTAL, 1)]
  | OPhase1 ch => [(FPhase1, ch, 1); (FPhase1, CMD_GRAND_TOTAL, 1)]
  | OVal ch v => [(FCount, ch, v)]
  | OSet _ _ => []
  end.
Lemma step_updates : forall o l, (forall s r, o <> OSet s r) -> step l o = fold_left app_upd (updates o) l.
Proof.
  destruct o; intros l H; try reflexivity.
  - cbn [step updates]. unfold cntr_add. destruct (ch =? CMD_FILE_CHANGED); [reflexivity|].
    destruct ((ch =? CMD_WARNING) || (ch =? CMD_MESSAGE)); reflexivity.
  - exfalso. apply (H sent rcvd). reflexivity.
Qed.
Lemma step_num : forall o g c l, has c l -> Forall in_range l -> c <> CMD_BYTES_SENT -> c <> CMD_BYTES_RECV ->
  num (sel g) c (step l o) = u64 (num (sel g) c l + sumz (weight g c) (updates o)).
Proof.
  intros o g c l H R N1 N2. destruct o as [ch|ch|ch|ch|ch|ch v|s r];
    try (rewrite step_updates by discriminate; apply upds_num; assumption).
  cbn [step updates sumz]. rewrite u64_0 by (apply num_range; auto; apply sel_in). unfold num.
  rewrite !find_at by reflexivity.
  destruct (Z.eqb_spec CMD_BYTES_RECV c); [congruence|]. destruct (Z.eqb_spec CMD_BYTES_SENT c); [congruence|]. reflexivity.
Qed.
Lemma fold_num : forall os g c l, has c l -> Forall in_range l -> c <> CMD_BYTES_SENT -> c <> CMD_BYTES_RECV ->
  num (sel g) c (fold_left step os l) = u64 (num (sel g) c l + sumz (fun o => sumz (weight g c) (updates o)) os).
Proof.
  induction os as [|o os IH]; intros g c l H R N1 N2; cbn [fold_left sumz].
  - rewrite u64_0; auto. apply num_range; auto. apply sel_in.
  - rewrite IH; auto. 2:{ eapply has_sig; [|exact H]. symmetry. apply step_sig. } 2:{ apply step_range; auto. }
    rewrite step_num, u64_add by auto. f_equal. lia.
Qed.
Lemma run_num : forall start os g c, has c table -> c <> CMD_BYTES_SENT -> c <> CMD_BYTES_RECV -> c <> CMD_TIMESTAMP ->
  num (sel g) c (run start os) = u64 (sumz (fun o => sumz (weight g c) (updates o)) os).
Proof.
  intros start os g c H N1 N2 N3. unfold run.
  pose proof (run_counters start []) as [A B]. unfold run in A, B. cbn [fold_left] in A, B.
  rewrite fold_num; auto; try (eapply has_sig; [|exact H]; auto; fail).
  replace (num (sel g) c (at_ent CMD_TIMESTAMP (set_count start) table)) with 0; [reflexivity|].
  unfold num. rewrite find_at by reflexivity. destruct (Z.eqb_spec CMD_TIMESTAMP c); [congruence|].
  destruct (find (fun e => e_cmd e =? c) table) as [e|] eqn:F; auto. apply find_some in F as [F _].
  assert (Z : Forall (fun e => sel g e = 0) table) by (destruct g; repeat constructor).
  symmetry. exact (proj1 (Forall_forall _ _) Z e F).
Qed.

Lemma sumz_ext : forall A (f g : A -> Z) l, Forall (fun x => f x = g x) l -> sumz f l = sumz g l.
Proof. induction 1; cbn; auto. congruence. Qed.

(* ---------- each row, and the grand total ---------- *)

Definition row_letter (c : Z) : Prop :=
  has c table /\ c <> CMD_TOTAL /\ c <> CMD_GRAND_TOTAL /\ c <> CMD_BYTES_SENT /\ c <> CMD_BYTES_RECV /\ c <> CMD_TIMESTAMP.
Ltac cmp := repeat match goal with |- context [Z.eqb ?a ?b] => destruct (Z.eqb_spec a b); try congruence end; cbn; try lia; auto.

Theorem each_row : forall start os c, row_letter c ->
  let l := run start os in
  num e_count c l = u64 (sumz (n_new c) os) /\ num e_changed c l = u64 (sumz (n_changed c) os) /\
  num e_same c l = u64 (sumz (n_same c) os) /\ num e_deleted c l = u64 (sumz (n_deleted c) os) /\
  num e_phase1 c l = u64 (sumz (n_scanned c) os).
Proof.
  intros start os c (H & N1 & N2 & N3 & N4 & N5). cbv zeta.
  assert (Nz : c <> CMD_FILE_CHANGED) by (intros ->; unfold has in H; rewrite table_cmds in H; cbn in H; unfold CMD_FILE_CHANGED in H; lia).
  repeat apply conj;
  [etransitivity; [apply (run_num start os FCount c)|]|etransitivity; [apply (run_num start os FChanged c)|]
  |etransitivity; [apply (run_num start os FSame c)|]|etransitivity; [apply (run_num start os FDeleted c)|]
  |etransitivity; [apply (run_num start os FPhase1 c)|]]; auto;
  f_equal; apply sumz_ext; apply Forall_forall; intros o _; destruct o; cbn [updates];
  repeat match goal with |- context [if ?b then [_] else _] => destruct b eqn:? | |- context [if ?b then _ :: _ else _] => destruct b eqn:? end;
  unfold n_new, n_changed, n_same, n_deleted, n_scanned, one; cbn [sumz weight fld_eqb andb];
  repeat match goal with E : (_ =? _) = true |- _ => apply Z.eqb_eq in E | E : (_ =? _) = false |- _ => apply Z.eqb_neq in E end; cmp.
Qed.

Theorem grand_total : forall start os, Forall ordinary os ->
  let l := run start os in
  num e_count CMD_GRAND_TOTAL l = u64 (sumz g_new os) /\ num e_changed CMD_GRAND_TOTAL l = u64 (sumz g_changed os) /\
  num e_same CMD_GRAND_TOTAL l = u64 (sumz g_same os) /\ num e_deleted CMD_GRAND_TOTAL l = u64 (sumz g_deleted os) /\
  num e_phase1 CMD_GRAND_TOTAL l = u64 (sumz g_scanned os).
Proof.
  intros start os O. cbv zeta. set (c := CMD_GRAND_TOTAL) in *.
  assert (H : has c table) by (unfold has, c; rewrite table_cmds; cbn; unfold CMD_GRAND_TOTAL; auto 20).
  repeat apply conj;
  [etransitivity; [apply (run_num start os FCount c)|]|etransitivity; [apply (run_num start os FChanged c)|]
  |etransitivity; [apply (run_num start os FSame c)|]|etransitivity; [apply (run_num start os FDeleted c)|]
  |etransitivity; [apply (run_num start os FPhase1 c)|]]; auto; try discriminate;
  f_equal; apply sumz_ext; eapply Forall_impl; [|exact O| |exact O| |exact O| |exact O| |exact O]; intros o [O1 O2];
  destruct o as [ch|ch|ch|ch|ch|ch v|s r]; cbn [updates letter] in *;
  try (assert (ch <> CMD_GRAND_TOTAL) by congruence);
  repeat match goal with |- context [if ?b then [_] else _] => destruct b eqn:? | |- context [if ?b then _ :: _ else _] => destruct b eqn:? end;
  unfold g_new, g_changed, g_same, g_deleted, g_scanned, one; cbn [sumz weight fld_eqb andb]; unfold c;
  repeat match goal with E : (_ || _) = _ |- _ => rewrite E; revert E end; intros; cbn [negb];
  repeat match goal with E : (_ =? _) = true |- _ => apply Z.eqb_eq in E; subst | E : (_ =? _) = false |- _ => apply Z.eqb_neq in E end; cmp; try discriminate.
Qed.

(* ---------- the last line of the table ---------- *)

Lemma sumz_swap : forall A B (f : A -> B -> Z) l m,
  sumz (fun x => sumz (f x) m) l = sumz (fun y => sumz (fun x => f x y) l) m.
Proof.
  intros A B f l m. induction l as [|x l IH]; cbn [sumz].
  - induction m; cbn [sumz]; auto; lia.
  - rewrite IH. clear. induction m as [|y m IH]; cbn [sumz]; auto. lia.
Qed.
Lemma one_row : forall ch, In ch rows -> sumz (fun c => one (ch =? c)) rows = 1.
Proof. intros ch H. repeat (destruct H as [<-|H]; [reflexivity|]). destruct H. Qed.
Lemma no_row : forall ch v, ~ In ch rows -> sumz (fun c => if ch =? c then v else 0) rows = 0.
Proof.
  intros ch v. generalize rows. induction l as [|c l IH]; intros H; auto. cbn [sumz].
  destruct (Z.eqb_spec ch c); [exfalso; apply H; left; auto|]. rewrite IH; auto. intros I. apply H. right. auto.
Qed.
Lemma zero_row : sumz (fun _ : Z => 0) rows = 0. Proof. reflexivity. Qed.
Lemma u64_sum : forall (f : Z -> Z) l, u64 (sumz (fun c => u64 (f c)) l) = u64 (sumz f l).
Proof.
  intros f. induction l as [|c l IH]; auto. cbn [sumz]. rewrite u64_add. rewrite Z.add_comm.
  rewrite <- u64_add, IH, u64_add. f_equal. lia.
Qed.
Lemma rows_letters : forall c, In c rows -> row_letter c.
Proof.
  intros c H. unfold row_letter, has. rewrite table_cmds.
  repeat (destruct H as [<-|H]; [split; [vm_compute; auto 30|repeat split; discriminate]|]). destruct H.
Qed.
Lemma rows_not_z : ~ In CMD_FILE_CHANGED rows.
Proof. cbn. unfold CMD_FILE_CHANGED. vm_compute. intuition discriminate. Qed.
Lemma rows_not_w : ~ In CMD_WARNING rows /\ ~ In CMD_MESSAGE rows.
Proof. split; vm_compute; intuition discriminate. Qed.
Lemma tabled_ordinary : forall o, tabled o -> ordinary o.
Proof.
  assert (R : ~ In CMD_TOTAL rows /\ ~ In CMD_GRAND_TOTAL rows) by (split; vm_compute; intuition discriminate).
  destruct R as [R1 R2].
  destruct o as [ch|ch|ch|ch|ch|ch v|s r]; cbn [tabled]; unfold ordinary; cbn [letter]; intros H; split; intros E; try discriminate;
  injection E as ->; try tauto; destruct H as [H|[H|H]]; try tauto; discriminate.
Qed.

Theorem sums_up : forall start os, Forall tabled os ->
  let l := run start os in
  Forall (fun f => num f CMD_GRAND_TOTAL l = u64 (sumz (fun c => num f c l) rows)) sels.
Proof.
  intros start os T. cbv zeta.
  assert (O : Forall ordinary os) by (eapply Forall_impl; [|exact T]; apply tabled_ordinary).
  pose proof (grand_total start os O) as (G1 & G2 & G3 & G4 & G5). cbv zeta in *.
  pose proof rows_not_z as NZ. pose proof rows_not_w as [NW NM].
  assert (FC : forall b : bool, one (b && false) = 0) by (destruct b; auto).
  assert (S : forall (n : Z -> op -> Z) (g : op -> Z), (forall o, tabled o -> sumz (fun c => n c o) rows = g o) ->
    forall f, (forall c, In c rows -> num f c (run start os) = u64 (sumz (n c) os)) ->
    num f CMD_GRAND_TOTAL (run start os) = u64 (sumz g os) ->
    num f CMD_GRAND_TOTAL (run start os) = u64 (sumz (fun c => num f c (run start os)) rows)).
  { intros n g E f R G. rewrite G. rewrite (sumz_ext _ _ (fun c => u64 (sumz (n c) os))) by (apply Forall_forall; exact R).
    rewrite u64_sum, sumz_swap. f_equal. apply sumz_ext. eapply Forall_impl; [|exact T]. intros o Ho. symmetry. apply E. exact Ho. }
  unfold sels. repeat (apply Forall_cons); try apply Forall_nil.
  - apply (S n_new g_new); auto; [|intros c Hc; apply each_row; apply rows_letters; auto].
    intros o Ho. destruct o as [ch|ch|ch|ch|ch|ch v|s r]; cbn [n_new g_new]; try apply zero_row.
    + destruct Ho as [Ho|[->| ->]].
      * rewrite one_row by auto. destruct (Z.eqb_spec ch CMD_WARNING); [subst; contradiction|].
        destruct (Z.eqb_spec ch CMD_MESSAGE); [subst; contradiction|]. reflexivity.
      * apply (no_row CMD_WARNING 1 NW).
      * apply (no_row CMD_MESSAGE 1 NM).
    + apply no_row. apply Ho.
  - apply (S n_changed g_changed); auto; [|intros c Hc; apply each_row; apply rows_letters; auto].
    intros o Ho. destruct o as [ch|ch|ch|ch|ch|ch v|s r]; cbn [n_changed g_changed]; try apply zero_row.
    + destruct (Z.eqb_spec ch CMD_FILE_CHANGED) as [->|N].
      * exfalso. destruct Ho as [Ho|[Ho|Ho]]; [auto|discriminate|discriminate].
      * cbn. reflexivity.
    + apply one_row. exact Ho.
  - apply (S n_same g_same); auto; [|intros c Hc; apply each_row; apply rows_letters; auto].
    intros o Ho. destruct o as [ch|ch|ch|ch|ch|ch v|s r]; cbn [n_same g_same]; try apply zero_row. apply one_row. exact Ho.
  - apply (S n_deleted g_deleted); auto; [|intros c Hc; apply each_row; apply rows_letters; auto].
    intros o Ho. destruct o as [ch|ch|ch|ch|ch|ch v|s r]; cbn [n_deleted g_deleted]; try apply zero_row. apply one_row. exact Ho.
  - apply (S n_scanned g_scanned); auto; [|intros c Hc; apply each_row; apply rows_letters; auto].
    intros o Ho. destruct o as [ch|ch|ch|ch|ch|ch v|s r]; cbn [n_scanned g_scanned]; try apply zero_row. apply one_row. exact Ho.
Qed.

(* A file that has changed since the last backup, on the client
   (/repo/src/client/backup_phase2.c:341): counted as new too, in the grand
   total only. *)
Theorem changed_twice : forall start n, 0 < n < 2 ^ 63 ->
  let l := run start (repeat (OAdd CMD_FILE_CHANGED) (Z.to_nat n)) in
  num e_changed CMD_FILE l = n /\ num e_changed CMD_GRAND_TOTAL l = n /\ num e_count CMD_GRAND_TOTAL l = n /\
  Forall (fun c => num e_count c l = 0) rows.
Proof.
  intros start n H. cbv zeta. set (os := repeat (OAdd CMD_FILE_CHANGED) (Z.to_nat n)).
  assert (W : forall f v, f (OAdd CMD_FILE_CHANGED) = v -> sumz f os = v * n).
  { intros f v E. unfold os. rewrite <- (Z2Nat.id n) at 2 by lia. generalize (Z.to_nat n). induction n0 as [|k IH]; [cbn; lia|].
    cbn [repeat sumz]. rewrite IH, E. lia. }
  assert (O : Forall ordinary os).
  { apply Forall_forall. intros o I. apply repeat_spec in I. subst o. split; discriminate. }
  assert (B : is_u64 n) by (unfold is_u64; change (2 ^ 63) with 9223372036854775808 in H; change (2 ^ 64) with 18446744073709551616; lia).
  destruct (each_row start os CMD_FILE) as (_ & A2 & _); [apply rows_letters; left; auto|]. cbv zeta in A2.
  destruct (grand_total start os O) as (G1 & G2 & _). cbv zeta in *.
  rewrite A2, G2, G1. rewrite (W (n_changed CMD_FILE) 1), (W g_changed 1), (W g_new 1) by reflexivity.
  rewrite Z.mul_1_l, u64_small by auto. repeat split; auto.
  apply Forall_forall. intros c Hc. destruct (each_row start os c (rows_letters c Hc)) as (A1 & _). cbv zeta in A1. rewrite A1.
  rewrite (W (n_new c) 0); [reflexivity|]. unfold n_new, one. destruct (Z.eqb_spec CMD_FILE_CHANGED c); auto.
  subst. exfalso. apply rows_not_z. auto.
Qed.
