(* Specification and proofs about phase 2 (C17, C18, C54). *)
From Coq Require Import Permutation Sorted.
From Verif Require FrameProofs.
From Verif Require Import Bytes PathcmpModel PathcmpProofs CmdModel CmdProofs AttribsModel FrameModel SbufModel MergeModel MergeProofs DpthModel DpthProofs AuthModel Phase2Model.

(* ---- specification ---- *)

(* The entries of the scan that were dealt with, in order. *)
Fixpoint handled (evs : list ev) : list ent :=
  match evs with
  | [] => []
  | EWrite _ e :: r => e :: handled r
  | EReq _ e :: r => e :: handled r
  | _ :: r => handled r
  end.
Fixpoint deleted (evs : list ev) : list ent :=
  match evs with [] => [] | EDeleted c :: r => c :: deleted r | _ :: r => deleted r end.
(* Written to the manifest of entries that need no data. *)
Fixpoint written (evs : list ev) : list ent :=
  match evs with [] => [] | EWrite _ e :: r => e :: written r | _ :: r => written r end.
Fixpoint requests (evs : list ev) : list (bool * ent) :=
  match evs with [] => [] | EReq d e :: r => (d, e) :: requests r | _ :: r => requests r end.

(* The entry is the same file as p in the scan. *)
Definition lt (a b : ent) : Prop := ent_lt (e_sb a) (e_sb b).
Definition same (a b : ent) : Prop := ent_eq (e_sb a) (e_sb b).
Definition sorted (l : list ent) : Prop := StronglySorted lt l.
Definition well (l : list ent) : Prop := ents_ok (map e_sb l).

(* An event builds on the old entry: the new entry is counted as the same or as
   a change of it. *)
Definition builds (x : ev) : option ent :=
  match x with
  | EWrite CSame e => Some e
  | EWrite CChanged e => Some e
  | EReq true e => Some e
  | _ => None
  end.
Definition built_on (evs : list ev) (c : ent) : Prop :=
  exists x e, In x evs /\ builds x = Some e /\ same e c.

(* Types whose extra data is not covered by the modification time. *)
Definition side_data (c : Z) : Prop :=
  c = CMD_METADATA \/ c = CMD_ENC_METADATA \/ c = CMD_EFS_FILE \/
  c = CMD_VSS \/ c = CMD_ENC_VSS \/ c = CMD_VSS_T \/ c = CMD_ENC_VSS_T.
Definition has_data (c : Z) : Prop := c = CMD_FILE \/ c = CMD_ENC_FILE \/ side_data c.

(* How an entry is carried over from the old entry c: the scan's path, type,
   link and file attributes with the old data's location, length and stored form. *)
Definition carried (c p e : ent) : Prop :=
  e_path e = e_path p /\ s_link (e_sb e) = s_link (e_sb p) /\
  s_datapth (e_sb e) = s_datapth (e_sb c) /\ s_endfile (e_sb e) = s_endfile (e_sb c) /\
  compression (e_at e) = compression (e_at c) /\ encryption (e_at e) = encryption (e_at c) /\
  salt (e_at e) = salt (e_at c) /\
  (st_dev (e_at e), st_ino (e_at e), st_mode (e_at e), st_nlink (e_at e), st_uid (e_at e), st_gid (e_at e),
   st_rdev (e_at e), st_size (e_at e), st_blksize (e_at e), st_blocks (e_at e), st_atime (e_at e),
   st_mtime (e_at e), st_ctime (e_at e), winattr (e_at e), use_winapi (e_at e)) =
  (st_dev (e_at p), st_ino (e_at p), st_mode (e_at p), st_nlink (e_at p), st_uid (e_at p), st_gid (e_at p),
   st_rdev (e_at p), st_size (e_at p), st_blksize (e_at p), st_blocks (e_at p), st_atime (e_at p),
   st_mtime (e_at p), st_ctime (e_at p), winattr (e_at p), use_winapi (e_at p)) /\
  attribs_encode (e_at e) = ibuf (s_attr (e_sb e)) /\ icmd (s_attr (e_sb e)) = CMD_ATTRIBS /\
  ibuf (s_attr (e_sb e)) <> None.

(* When an entry of the same type may be carried over. *)
Definition unmodified (cf : p2conf) (c p : ent) : Prop :=
  e_cmd c = e_cmd p /\ st_mtime (e_at c) = st_mtime (e_at p) /\
  (st_ctime (e_at c) = st_ctime (e_at p) \/ (k_windows cf = false /\ ~ side_data (e_cmd p))).

(* A hard link whose master is gone: the old data of the master is reused. *)
Definition former_link (allents : list ent) (old_regular : bytes -> bool) (link_ok : bytes -> bytes -> bool) (c p e : ent) : Prop :=
  e_cmd c = CMD_HARD_LINK /\ (e_cmd p = CMD_FILE \/ e_cmd p = CMD_ENC_FILE) /\
  st_dev (e_at c) = st_dev (e_at p) /\ st_ino (e_at c) = st_ino (e_at p) /\
  st_mtime (e_at c) = st_mtime (e_at p) /\
  exists h new, In h allents /\ e_cmd h = e_cmd p /\ text (e_path h) = text (s_link (e_sb c)) /\
    ibuf (s_datapth (e_sb h)) <> None /\
    old_regular (text (s_datapth (e_sb h))) = true /\ link_ok (text (s_datapth (e_sb h))) new = true /\
    e_path e = e_path p /\ s_datapth (e_sb e) = mkiobuf CMD_DATAPTH (Some new) /\
    s_endfile (e_sb e) = s_endfile (e_sb h) /\
    st_size (e_at e) = st_size (e_at p) /\ st_mtime (e_at e) = st_mtime (e_at p).

Lemma cases_side : forall c,
  ((c =? CMD_ENC_METADATA) || (c =? CMD_EFS_FILE) || (c =? CMD_METADATA) || cmd_is_vssdata c) = true <-> side_data c.
Proof.
  intros c. unfold cmd_is_vssdata, side_data. rewrite !orb_true_iff, !Z.eqb_eq. tauto.
Qed.
Lemma cases_data : forall c, cmd_is_filedata c || cmd_is_vssdata c = true <-> has_data c.
Proof.
  intros c. unfold cmd_is_vssdata, cmd_is_filedata, has_data, side_data. rewrite !orb_true_iff, !Z.eqb_eq. tauto.
Qed.

(* The old data is stored compressed, as its entry says, or for entries that do
   not say as its name does. *)
Definition stored_compressed (c : ent) : Prop :=
  ibuf (s_datapth (e_sb c)) <> None /\
  (compression (e_at c) > 0 \/
   compression (e_at c) < 0 /\ exists x, text (s_datapth (e_sb c)) = x ++ str ".gz").

Lemma last_dot_split : forall s t, last_dot s = Some t -> (exists x, s = x ++ t) /\ exists t', t = dot :: t' /\ ~ In dot t'.
Proof.
  induction s as [|c s IH]; cbn [last_dot]; intros t H; [discriminate|].
  destruct (last_dot s) as [u|] eqn:L.
  - inversion H; subst. destruct (IH t eq_refl) as ((x & E) & R). split; auto. exists (c :: x). cbn. congruence.
  - destruct (Z.eqb_spec c dot); [|discriminate]. inversion H; subst. split; [exists []; auto|].
    exists s. split; auto. clear - L. induction s as [|d s IH]; cbn in *; auto.
    destruct (last_dot s) eqn:E; [discriminate|]. destruct (Z.eqb_spec d dot); [discriminate|].
    intros [->|I]; auto. apply IH in I; auto.
Qed.
Lemma last_dot_app : forall x t, last_dot t <> None -> last_dot (x ++ t) = last_dot t.
Proof.
  induction x as [|c x IH]; intros t H; cbn; auto. rewrite IH by auto. destruct (last_dot t); congruence.
Qed.
Lemma gz_spec : forall s, match last_dot s with Some t => beqb t (str ".gz") | None => false end = true <->
  exists x, s = x ++ str ".gz".
Proof.
  intros s. split.
  - destruct (last_dot s) as [t|] eqn:L; [|discriminate]. intros B. apply beqb_eq in B. subst t.
    apply last_dot_split in L. apply L.
  - intros (x & ->). rewrite last_dot_app by discriminate. reflexivity.
Qed.
Lemma compressed_spec : forall c, has_buf (s_datapth (e_sb c))
    && dpth_is_compressed (compression (e_at c)) (text (s_datapth (e_sb c))) = true <-> stored_compressed c.
Proof.
  intros c. unfold stored_compressed, dpth_is_compressed, has_buf. rewrite andb_true_iff.
  destruct (ibuf (s_datapth (e_sb c))) eqn:E; [|split; [intros [? _]; discriminate|intros [[] _]; auto]].
  destruct (Z.gtb_spec (compression (e_at c)) 0); [intuition (try congruence; try lia)|].
  destruct (Z.eqb_spec (compression (e_at c)) 0); [split; [intros [_ ?]; discriminate|lia]|].
  rewrite gz_spec. intuition (try congruence; try lia).
Qed.

Lemma comp_agree : forall c p,
  let old := has_buf (s_datapth (e_sb c)) && dpth_is_compressed (compression (e_at c)) (text (s_datapth (e_sb c))) in
  (old && negb (negb (compression (e_at p) =? 0))) || (negb old && negb (compression (e_at p) =? 0)) = false ->
  (stored_compressed c <-> compression (e_at p) <> 0).
Proof.
  intros c p old. rewrite <- compressed_spec. fold old.
  destruct old, (Z.eqb_spec (compression (e_at p)) 0); cbn; intuition congruence.
Qed.

Section Spec.
Variables (tree : ent -> bool) (old_regular : bytes -> bool) (link_ok : bytes -> bytes -> bool)
          (open_ok : bytes -> bool) (allents : list ent) (cf : p2conf).
Notation delta := (maybe_do_delta_stuff tree old_regular link_ok open_ok allents cf).
Notation next := (process_next tree old_regular link_ok open_ok allents cf).
Notation cloop := (cur_loop tree old_regular link_ok open_ok allents cf).
Notation mproc := (maybe_process_file tree old_regular link_ok open_ok allents cf).
Notation run := (p2_run tree old_regular link_ok open_ok allents cf).

(* ---- the decision about one entry ---- *)

Inductive new_outcome (p : ent) : processed -> list ev -> Prop :=
| no_data : has_data (e_cmd p) -> new_outcome p P_NEW [EReq false p]
| no_nodata : ~ has_data (e_cmd p) -> new_outcome p P_DONE_NEW [EWrite CNew p].

Lemma process_new_spec : forall p, new_outcome p (fst (process_new p)) (snd (process_new p)).
Proof.
  intros p. unfold process_new. destruct (cmd_is_filedata (e_cmd p) || cmd_is_vssdata (e_cmd p)) eqn:E; cbn.
  - apply no_data. apply cases_data; auto.
  - apply no_nodata. rewrite <- cases_data. congruence.
Qed.

Inductive decided (c p : ent) : processed -> list ev -> Prop :=
| d_new : forall r evs, new_outcome p r evs -> ~ unmodified cf c p -> decided c p r evs
| d_same : forall e, unmodified cf c p -> carried c p e -> decided c p P_DONE_UNCHANGED [EWrite CSame e]
| d_relink : forall e, former_link allents old_regular link_ok c p e -> decided c p P_DONE_UNCHANGED [EWrite CSame e]
| d_changed : e_cmd c = e_cmd p -> ~ unmodified cf c p -> ~ has_data (e_cmd p) -> decided c p P_DONE_CHANGED [EWrite CChanged p]
| d_delta : forall e, e_cmd c = CMD_FILE -> e_cmd p = CMD_FILE -> ~ unmodified cf c p ->
    k_librsync cf = true ->
    (k_libmax cf = 0 \/ (st_size (e_at c) <= k_libmax cf /\ st_size (e_at p) <= k_libmax cf)) ->
    (stored_compressed c <-> compression (e_at p) <> 0) ->
    e_path e = e_path p -> s_attr (e_sb e) = s_attr (e_sb p) -> e_at e = e_at p ->
    s_datapth (e_sb e) = s_datapth (e_sb c) ->
    open_ok (text (s_datapth (e_sb c))) = true ->
    decided c p P_CHANGED [EReq true e]
| d_error : decided c p P_ERROR [].

Lemma find_master_in : forall link l h r, find_master link l = Some (h, r) ->
  In h l /\ text (e_path h) = link /\ ibuf (s_datapth (e_sb h)) <> None.
Proof.
  induction l as [|x l IH]; cbn [find_master]; intros h r H; [discriminate|].
  destruct (((e_cmd x =? CMD_FILE) || (e_cmd x =? CMD_ENC_FILE)) && beqb (text (e_path x)) link && has_buf (s_datapth (e_sb x))) eqn:E.
  - inversion H; subst. rewrite !andb_true_iff in E. destruct E as [[_ E] B]. apply beqb_eq in E.
    unfold has_buf in B. split; [left; auto|]. split; auto. destruct (ibuf (s_datapth (e_sb h))); congruence.
  - destruct (IH _ _ H) as (? & ?). split; auto. right; auto.
Qed.

Lemma unchanged_spec : forall p c, let r := process_unchanged_file p c in
  r = (P_ERROR, []) \/ exists e, r = (P_DONE_UNCHANGED, [EWrite CSame e]) /\ carried c p e.
Proof.
  intros p c. unfold process_unchanged_file. destruct (attribs_encode _) as [b|] eqn:E; [right|left; auto].
  eexists. split; [reflexivity|]. unfold carried, e_path. cbn. repeat split; auto. discriminate.
Qed.

Lemma get_master_spec : forall rest cb hb hm, incl rest allents ->
  get_hardlink_master allents rest cb = (Some hb, hm) ->
  In hb allents /\ text (e_path hb) = text (s_link (e_sb cb)) /\ ibuf (s_datapth (e_sb hb)) <> None.
Proof.
  intros rest cb hb hm I. unfold get_hardlink_master.
  destruct (find_master _ rest) as [[h r]|] eqn:F1.
  - intros H. inversion H; subst. destruct (find_master_in _ _ _ _ F1) as (? & ? & ?). auto.
  - destruct (find_master _ allents) as [[h r]|] eqn:F2; intros H; inversion H; subst.
    apply (find_master_in _ _ _ _ F2).
Qed.

Definition hm_ok (a : aux) : Prop := match a_hm a with Some l => incl l allents | None => True end.

Lemma find_master_rest : forall link l h r, find_master link l = Some (h, r) -> incl r l.
Proof.
  induction l as [|x l IH]; cbn [find_master]; intros h r H; [discriminate|].
  match type of H with (if ?b then _ else _) = _ => destruct b end.
  - inversion H; subst. intros y Hy; right; auto.
  - intros y Hy. right. eapply IH; eauto.
Qed.
Lemma get_master_hm : forall rest cb o hm, incl rest allents ->
  get_hardlink_master allents rest cb = (o, hm) -> match hm with Some l => incl l allents | None => True end.
Proof.
  intros rest cb o hm I. unfold get_hardlink_master.
  destruct (find_master _ rest) as [[h r]|] eqn:F1.
  - intros H. inversion H; subst. intros y Hy. apply I. eapply find_master_rest; eauto.
  - destruct (find_master _ allents) as [[h r]|] eqn:F2; intros H; inversion H; subst; auto.
    eapply find_master_rest; eauto.
Qed.
Lemma set_new_hm : forall a e p a', set_new_datapth tree a e = (p, a') -> a_hm a' = a_hm a.
Proof.
  intros a e p a'. unfold set_new_datapth. destruct (tree e).
  - intros H; inversion H; auto.
  - destruct (new_datapth _ _ _). intros H; inversion H; auto.
Qed.
Lemma relink_hm : forall a rest p c r a', incl rest allents -> relink tree old_regular link_ok allents a rest p c = (r, a') -> hm_ok a'.
Proof.
  intros a rest p c r a' I. unfold relink.
  destruct (get_hardlink_master allents rest c) as [o hm] eqn:G. pose proof (get_master_hm _ _ _ _ I G) as Hm.
  destruct o as [hb|]; [|intros H; inversion H; exact Hm].
  destruct (negb _); [intros H; inversion H; exact Hm|].
  destruct (set_new_datapth _ _ _) as [new a2] eqn:Sn. pose proof (set_new_hm _ _ _ _ Sn) as E. cbn in E.
  assert (Hk : hm_ok a2) by (unfold hm_ok; rewrite E; exact Hm).
  destruct (negb (old_regular _)); [intros H; inversion H; subst; exact Hk|].
  destruct (negb (link_ok _ _)); intros H; inversion H; subst; exact Hk.
Qed.
Lemma delta_hm : forall a c p r a', hm_ok a -> delta a c p = (r, a') -> hm_ok a'.
Proof.
  intros a c p r a' Hk. unfold maybe_do_delta_stuff.
  destruct (negb (e_cmd c =? e_cmd p)).
  - destruct (a_hm a) as [rest|] eqn:Hm; [|intros H; inversion H; subst; auto].
    match goal with |- context [if ?b then _ else _] => destruct b end; [|intros H; inversion H; subst; auto].
    destruct (relink _ _ _ _ a rest p c) as [rl a2] eqn:R.
    assert (hm_ok a2) by (eapply relink_hm; [|exact R]; unfold hm_ok in Hk; rewrite Hm in Hk; exact Hk).
    destruct rl; intros H1; inversion H1; subst; auto.
  - repeat match goal with |- context [if ?b then _ else _] => destruct b end; intros H; inversion H; subst; auto.
Qed.

Theorem delta_spec : forall a c p r evs a', hm_ok a -> delta a c p = ((r, evs), a') -> decided c p r evs.
Proof.
  intros a c p r evs a' Hk. unfold maybe_do_delta_stuff.
  pose proof (process_new_spec p) as PN. destruct (process_new p) as [rn en]. cbn [fst snd] in PN.
  destruct (Z.eqb_spec (e_cmd c) (e_cmd p)) as [Ec|Nc]; cbn [negb].
  2:{ assert (DN : decided c p rn en) by (apply d_new; [exact PN|unfold unmodified; tauto]).
      destruct (a_hm a) as [rest|] eqn:Hm; [|intros H; inversion H; subst; auto].
      match goal with |- context [if ?b then _ else _] => destruct b eqn:B end; [|intros H; inversion H; subst; auto].
      rewrite !andb_true_iff, orb_true_iff, !Z.eqb_eq in B.
      destruct B as ((((B1 & B2) & B3) & B4) & B5).
      destruct (relink _ _ _ _ a rest p c) as [rl a2] eqn:R. unfold relink in R.
      assert (I : incl rest allents) by (unfold hm_ok in Hk; rewrite Hm in Hk; exact Hk).
      destruct (get_hardlink_master allents rest c) as [o hm] eqn:G.
      destruct o as [hb|]; [|inversion R; subst; intros H; inversion H; subst; auto].
      destruct (get_master_spec _ _ _ _ I G) as (Hin & Ht & Hd).
      destruct (Z.eqb_spec (e_cmd p) (e_cmd hb)) as [Eh|Nh]; cbn [negb] in R.
      2:{ inversion R; subst; intros H; inversion H; subst; auto. }
      destruct (set_new_datapth _ _ _) as [new a3].
      destruct (old_regular _) eqn:Or; cbn [negb] in R.
      2:{ inversion R; subst; intros H; inversion H; subst; auto. }
      destruct (link_ok _ _) eqn:Lk; cbn [negb] in R.
      2:{ inversion R; subst; intros H; inversion H; subst. apply d_error. }
      inversion R; subst. intros H. injection H as H1 H2.
      match type of H1 with process_unchanged_file p ?x = _ =>
        destruct (unchanged_spec p x) as [E|(e & E & C)]; rewrite E in H1 end.
      - inversion H1; subst. apply d_error.
      - inversion H1; subst. apply d_relink.
        unfold carried in C. cbn in C. destruct C as (C1 & _ & C3 & C4 & _ & _ & _ & C8 & _).
        injection C8. intros.
        unfold former_link. repeat split; auto. exists hb, new. repeat split; auto. }
  destruct (Z.eqb_spec (st_mtime (e_at c)) (st_mtime (e_at p))) as [Em|Nm];
  destruct (Z.eqb_spec (st_ctime (e_at c)) (st_ctime (e_at p))) as [Et|Nt]; cbn [andb negb].
  - intros H. injection H as H1 H2.
    destruct (unchanged_spec p c) as [E|(e & E & C)]; rewrite E in H1; inversion H1; subst.
    + apply d_error.
    + apply d_same; auto. unfold unmodified. auto.
  - match goal with |- context [if ?b then _ else _] => destruct b eqn:SB end.
    + intros H. inversion H; subst. apply d_new; auto.
      assert (SD : side_data (e_cmd p)).
      { rewrite <- cases_side. rewrite Ec in SB. rewrite !orb_true_iff in *. tauto. }
      unfold unmodified. intros (_ & _ & [?|[_ ?]]); auto.
    + assert (NS : ~ side_data (e_cmd p)).
      { rewrite <- cases_side. rewrite !orb_false_iff in SB.
        destruct SB as (((((((S1 & S2) & S3) & S4) & S5) & S6) & S7) & S8). rewrite S2, S4, S6, S8. discriminate. }
      destruct (k_windows cf) eqn:W; cbn [negb].
      2:{ intros H. injection H as H1 H2.
          destruct (unchanged_spec p c) as [E|(e & E & C)]; rewrite E in H1; inversion H1; subst.
          - apply d_error.
          - apply d_same; auto. unfold unmodified. auto. }
      assert (NU : ~ unmodified cf c p) by (unfold unmodified; intros (_ & _ & [?|[? _]]); congruence).
      destruct (cmd_is_filedata (e_cmd p)) eqn:F; destruct (cmd_is_vssdata (e_cmd p)) eqn:V; cbn [negb andb];
        try (intros H; inversion H; subst; apply d_changed; auto; rewrite <- cases_data, F, V; discriminate).
      all: match goal with |- context [if ?b then _ else _] => destruct b eqn:LB end;
        [intros H; inversion H; subst; apply d_new; auto|].
      all: rewrite !orb_false_iff, negb_false_iff in LB; destruct LB as ((((((L1 & L2) & L3) & L4) & L5) & L6) & L7); try congruence.
      all: match goal with |- context [if ?b then _ else _] => destruct b eqn:CB end;
        [intros H; inversion H; subst; apply d_new; auto|].
      all: unfold process_changed_file; destruct (open_ok _) eqn:Oo; intros H; inversion H; subst; [|apply d_error].
      all: assert (Ef : e_cmd p = CMD_FILE)
        by (unfold cmd_is_filedata in F; unfold cmd_is_encrypted in L5; rewrite !orb_true_iff, !Z.eqb_eq in F;
            rewrite !orb_false_iff, !Z.eqb_neq in L5; rewrite Z.eqb_neq in L3; tauto).
      all: unfold librsync_enabled in L1; destruct (k_librsync cf) eqn:Kl; cbn [negb] in L1; [|discriminate].
      all: apply d_delta; auto; [congruence| |exact (comp_agree c p CB)].
      all: destruct (Z.eqb_spec (k_libmax cf) 0); [auto|right; rewrite andb_true_iff in L1; lia].
  - match goal with |- context [if ?b then _ else _] => destruct b eqn:FV end.
    + intros H. inversion H; subst. apply d_changed; auto.
      * unfold unmodified. intros (_ & ? & _). congruence.
      * rewrite <- cases_data. rewrite andb_true_iff, !negb_true_iff in FV. destruct FV as [-> ->]. discriminate.
    + assert (NU : ~ unmodified cf c p) by (unfold unmodified; intros (_ & ? & _); congruence).
      match goal with |- context [if ?b then _ else _] => destruct b eqn:LB end;
        [intros H; inversion H; subst; apply d_new; auto|].
      rewrite !orb_false_iff, negb_false_iff in LB. destruct LB as ((((((L1 & L2) & L3) & L4) & L5) & L6) & L7).
      match goal with |- context [if ?b then _ else _] => destruct b eqn:CB end;
        [intros H; inversion H; subst; apply d_new; auto|].
      unfold process_changed_file; destruct (open_ok _) eqn:Oo; intros H; inversion H; subst; [|apply d_error].
      assert (Ef : e_cmd p = CMD_FILE).
      { rewrite L7 in FV. cbn [negb] in FV. rewrite andb_true_r, negb_false_iff in FV.
        unfold cmd_is_filedata in FV; unfold cmd_is_encrypted in L5; rewrite !orb_true_iff, !Z.eqb_eq in FV;
            rewrite !orb_false_iff, !Z.eqb_neq in L5; rewrite Z.eqb_neq in L3; tauto. }
      unfold librsync_enabled in L1; destruct (k_librsync cf) eqn:Kl; cbn [negb] in L1; [|discriminate].
      apply d_delta; auto; [congruence| |exact (comp_agree c p CB)].
      destruct (Z.eqb_spec (k_libmax cf) 0); [auto|right; rewrite andb_true_iff in L1; lia].
  - match goal with |- context [if ?b then _ else _] => destruct b eqn:FV end.
    + intros H. inversion H; subst. apply d_changed; auto.
      * unfold unmodified. intros (_ & ? & _). congruence.
      * rewrite <- cases_data. rewrite andb_true_iff, !negb_true_iff in FV. destruct FV as [-> ->]. discriminate.
    + assert (NU : ~ unmodified cf c p) by (unfold unmodified; intros (_ & ? & _); congruence).
      match goal with |- context [if ?b then _ else _] => destruct b eqn:LB end;
        [intros H; inversion H; subst; apply d_new; auto|].
      rewrite !orb_false_iff, negb_false_iff in LB. destruct LB as ((((((L1 & L2) & L3) & L4) & L5) & L6) & L7).
      match goal with |- context [if ?b then _ else _] => destruct b eqn:CB end;
        [intros H; inversion H; subst; apply d_new; auto|].
      unfold process_changed_file; destruct (open_ok _) eqn:Oo; intros H; inversion H; subst; [|apply d_error].
      assert (Ef : e_cmd p = CMD_FILE).
      { rewrite L7 in FV. cbn [negb] in FV. rewrite andb_true_r, negb_false_iff in FV.
        unfold cmd_is_filedata in FV; unfold cmd_is_encrypted in L5; rewrite !orb_true_iff, !Z.eqb_eq in FV;
            rewrite !orb_false_iff, !Z.eqb_neq in L5; rewrite Z.eqb_neq in L3; tauto. }
      unfold librsync_enabled in L1; destruct (k_librsync cf) eqn:Kl; cbn [negb] in L1; [|discriminate].
      apply d_delta; auto; [congruence| |exact (comp_agree c p CB)].
      destruct (Z.eqb_spec (k_libmax cf) 0); [auto|right; rewrite andb_true_iff in L1; lia].
Qed.

(* A changed plain file is asked for as a delta whenever that is allowed. *)
Lemma delta_when : forall a c p, e_cmd c = CMD_FILE -> e_cmd p = CMD_FILE -> ~ unmodified cf c p ->
  k_librsync cf = true ->
  (k_libmax cf = 0 \/ (st_size (e_at c) <= k_libmax cf /\ st_size (e_at p) <= k_libmax cf)) ->
  (stored_compressed c <-> compression (e_at p) <> 0) ->
  open_ok (text (s_datapth (e_sb c))) = true ->
  exists e, delta a c p = ((P_CHANGED, [EReq true e]), a).
Proof.
  intros a c p Hc Hp NU Hl Hm Hz Ho. unfold maybe_do_delta_stuff. rewrite Hc, Hp. cbn [negb Z.eqb].
  assert (HL : librsync_enabled cf p c = true).
  { unfold librsync_enabled. rewrite Hl. cbn [negb].
    destruct (Z.eqb_spec (k_libmax cf) 0); [reflexivity|]. apply andb_true_iff. lia. }
  assert (Fin : exists e,
     (if negb (librsync_enabled cf p c) || (CMD_FILE =? CMD_METADATA) || (CMD_FILE =? CMD_METADATA)
         || cmd_is_encrypted CMD_FILE || cmd_is_encrypted CMD_FILE || cmd_is_vssdata CMD_FILE || cmd_is_vssdata CMD_FILE
      then (process_new p, a)
      else
       let old := has_buf (s_datapth (e_sb c)) && dpth_is_compressed (compression (e_at c)) (text (s_datapth (e_sb c))) in
       let comp := negb (compression (e_at p) =? 0) in
       if (old && negb comp) || (negb old && comp) then (process_new p, a)
       else (process_changed_file open_ok p c, a)) = ((P_CHANGED, [EReq true e]), a)).
  { rewrite HL. change (exists e,
      (let old := has_buf (s_datapth (e_sb c)) && dpth_is_compressed (compression (e_at c)) (text (s_datapth (e_sb c))) in
       let comp := negb (compression (e_at p) =? 0) in
       if (old && negb comp) || (negb old && comp) then (process_new p, a)
       else (process_changed_file open_ok p c, a)) = ((P_CHANGED, [EReq true e]), a)).
    rewrite <- compressed_spec in Hz. cbv zeta.
    set (old := has_buf _ && _) in *.
    assert (E : (old && negb (negb (compression (e_at p) =? 0))) || (negb old && negb (compression (e_at p) =? 0)) = false).
    { destruct old, (Z.eqb_spec (compression (e_at p)) 0); cbn; try reflexivity; exfalso.
      - destruct Hz as [Hz _]. apply (Hz eq_refl). assumption.
      - destruct Hz as [_ Hz]. discriminate (Hz n). }
    rewrite E. unfold process_changed_file. rewrite Ho. eexists; reflexivity. }
  unfold unmodified in NU. rewrite Hc, Hp in NU.
  destruct (Z.eqb_spec (st_mtime (e_at c)) (st_mtime (e_at p))) as [Em|Nm];
  destruct (Z.eqb_spec (st_ctime (e_at c)) (st_ctime (e_at p))) as [Et|Nt]; cbn [andb negb].
  - exfalso. apply NU. auto.
  - cbn [CMD_FILE] in *. destruct (k_windows cf) eqn:W; [exact Fin|].
    exfalso. apply NU. split; [reflexivity|]. split; [exact Em|]. right. split; [reflexivity|].
    intros SD. rewrite <- cases_side in SD. vm_compute in SD. discriminate SD.
  - exact Fin.
  - exact Fin.
Qed.
End Spec.

(* ---- the walk over the two lists ---- *)
Section Walk.
Variables (tree : ent -> bool) (old_regular : bytes -> bool) (link_ok : bytes -> bytes -> bool)
          (open_ok : bytes -> bool) (allents : list ent) (cf : p2conf).
Notation delta := (maybe_do_delta_stuff tree old_regular link_ok open_ok allents cf).
Notation next := (process_next tree old_regular link_ok open_ok allents cf).
Notation cloop := (cur_loop tree old_regular link_ok open_ok allents cf).
Notation mproc := (maybe_process_file tree old_regular link_ok open_ok allents cf).
Notation run := (p2_run tree old_regular link_ok open_ok allents cf).
Notation decided := (decided old_regular link_ok open_ok allents cf).
Notation hmk := (hm_ok allents).

(* What is left of the old manifest, the entry held included. *)
Definition avail (s : sst) : list ent :=
  match q_cb s with Some c => [c] | None => [] end ++ match q_cur s with Some l => l | None => [] end.
Definition inv (s : sst) : Prop := (q_cur s = None -> q_cb s = None) /\ hmk (q_aux s).

Definition keeps (r : processed) : bool := match r with P_NEW | P_DONE_NEW => true | _ => false end.

(* Dealing with one entry p of the scan. *)
Inductive picks (p : ent) : list ent -> list ev -> list ent -> Prop :=
| pick_end : forall r evs, new_outcome p r evs -> picks p [] evs []
| pick_new : forall c l r evs, sbuf_pathcmp (e_sb c) (e_sb p) > 0 -> new_outcome p r evs -> picks p (c :: l) evs (c :: l)
| pick_eq : forall c l r evs, sbuf_pathcmp (e_sb c) (e_sb p) = 0 -> decided c p r evs -> r <> P_ERROR ->
    picks p (c :: l) evs (if keeps r then c :: l else l)
| pick_del : forall c l evs l', sbuf_pathcmp (e_sb c) (e_sb p) < 0 -> picks p l evs l' ->
    picks p (c :: l) (EDeleted c :: evs) l'.

Lemma decided_not_deleted : forall c p evs, ~ decided c p P_DONE_DELETED evs.
Proof. intros c p evs H. inversion H as [r e N U| | | | |]; subst. inversion N. Qed.

Lemma cloop_picks : forall cur a p evs cu cb a', hmk a ->
  cloop a (Some p) cur = Some (evs, cu, cb, a') ->
  picks p cur evs ((match cb with Some c => [c] | None => [] end) ++ match cu with Some l => l | None => [] end) /\
  (cu = None -> cb = None) /\ hmk a'.
Proof.
  induction cur as [|c cur IH]; intros a p evs cu cb a' Hk H; cbn [cur_loop] in H.
  - inversion H; subst. split; [|auto]. eapply pick_end. apply process_new_spec.
  - unfold maybe_process_file in H.
    destruct (Z.eqb_spec (sbuf_pathcmp (e_sb c) (e_sb p)) 0) as [E|N].
    + destruct (delta a c p) as [[r evs0] a2] eqn:D.
      pose proof (delta_spec _ _ _ _ _ _ _ _ _ _ _ _ Hk D) as DD. pose proof (delta_hm _ _ _ _ _ _ _ _ _ _ _ Hk D) as Hk2.
      destruct r; try discriminate; try (exfalso; eapply decided_not_deleted; eassumption);
        inversion H; subst; (split; [|split; [discriminate|auto]]).
      * change ([c] ++ cur) with (if keeps P_DONE_NEW then c :: cur else cur). eapply pick_eq; eauto. discriminate.
      * change ([] ++ cur) with (if keeps P_DONE_CHANGED then c :: cur else cur). eapply pick_eq; eauto. discriminate.
      * change ([] ++ cur) with (if keeps P_DONE_UNCHANGED then c :: cur else cur). eapply pick_eq; eauto. discriminate.
      * change ([c] ++ cur) with (if keeps P_NEW then c :: cur else cur). eapply pick_eq; eauto. discriminate.
      * change ([] ++ cur) with (if keeps P_CHANGED then c :: cur else cur). eapply pick_eq; eauto. discriminate.
    + destruct (Z.gtb_spec (sbuf_pathcmp (e_sb c) (e_sb p)) 0) as [G|L].
      * pose proof (process_new_spec p) as PN. destruct (process_new p) as [r evs0]. cbn [fst snd] in PN.
        inversion PN; subst; inversion H; subst; (split; [|split; [discriminate|auto]]);
          (eapply pick_new; [lia|eauto]).
      * destruct (cloop a (Some p) cur) as [[[[evs' cu'] cb'] a'']|] eqn:R; [|discriminate].
        inversion H; subst. destruct (IH _ _ _ _ _ _ Hk R) as (P & ? & ?). split; auto.
        cbn [app]. apply pick_del; [lia|exact P].
Qed.
Lemma cloop_none : forall cur a, cloop a None cur = Some (map EDeleted cur, None, None, a).
Proof. induction cur as [|c cur IH]; intros a; cbn [cur_loop maybe_process_file map]; auto. rewrite IH. reflexivity. Qed.

Lemma next_picks : forall s p l evs s', inv s -> q_p1 s = Some (p :: l) -> next s = Some (evs, s') ->
  picks p (avail s) evs (avail s') /\ q_p1 s' = Some l /\ inv s'.
Proof.
  intros [p1 cur cb a] p l evs s' [I Hk]. cbn [q_p1 q_cur q_cb q_aux] in *. intros -> H.
  unfold process_next in H. cbn [q_p1 q_cur q_cb q_aux] in H. unfold avail, inv. cbn [q_cur q_cb q_aux].
  destruct cur as [cur|].
  2:{ rewrite (I eq_refl) in *. inversion H; subst. cbn. repeat split; auto. eapply pick_end, process_new_spec. }
  destruct cb as [c|].
  2:{ destruct (cloop a (Some p) cur) as [[[[evs' cu'] cb'] a'']|] eqn:R; [|discriminate].
      inversion H; subst. cbn. destruct (cloop_picks _ _ _ _ _ _ _ Hk R) as (P & Q & ?). repeat split; auto. }
  (* the held entry behaves as the next one read *)
  assert (U : exists cu cb' a', cloop a (Some p) (c :: cur) = Some (evs, cu, cb', a') /\ s' = mksst (Some l) cu cb' a').
  { cbn [cur_loop]. destruct (mproc a c (Some p)) as [[r evs0] a2].
    destruct r; try discriminate; try (inversion H; subst; cbn; do 3 eexists; split; reflexivity).
    destruct (cloop a2 (Some p) cur) as [[[[evs' cu'] cb'] a'']|]; [|discriminate].
    inversion H; subst. do 3 eexists. split; reflexivity. }
  destruct U as (cu & cb' & a' & R & ->). cbn. destruct (cloop_picks _ _ _ _ _ _ _ Hk R) as (P & Q & ?). repeat split; auto.
Qed.
Lemma next_end : forall s evs s', inv s -> q_p1 s = Some [] -> next s = Some (evs, s') ->
  evs = EEnd :: map EDeleted (avail s) /\ q_p1 s' = None /\ avail s' = [] /\ inv s'.
Proof.
  intros [p1 cur cb a] evs s' [I Hk]. cbn [q_p1 q_cur q_cb q_aux] in *. intros -> H.
  unfold process_next in H. cbn [q_p1 q_cur q_cb q_aux] in H. unfold avail, inv. cbn [q_cur q_cb q_aux].
  destruct cur as [cur|].
  2:{ rewrite (I eq_refl) in *. inversion H; subst. cbn. repeat split; auto. }
  destruct cb as [c|]; cbn [maybe_process_file] in H; rewrite cloop_none in H; inversion H; subst; cbn; repeat split; auto.
Qed.
Lemma next_done : forall s evs s', q_p1 s = None -> next s = Some (evs, s') -> evs = [] /\ s' = s.
Proof. intros s evs s' E H. unfold process_next in H. rewrite E in H. inversion H; auto. Qed.

(* A run of the sending side, whatever is received in between. *)
Inductive walks : option (list ent) -> list ent -> list ev -> option (list ent) -> list ent -> Prop :=
| w_stop : forall p1 av, walks p1 av [] p1 av
| w_next : forall p l av evs av1 evs' p1' av', picks p av evs av1 -> walks (Some l) av1 evs' p1' av' ->
    walks (Some (p :: l)) av (evs ++ evs') p1' av'
| w_end : forall av, walks (Some []) av (EEnd :: map EDeleted av) None [].

Lemma walks_none : forall av evs p1' av', walks None av evs p1' av' -> evs = [] /\ p1' = None /\ av' = av.
Proof. intros av evs p1' av' H. inversion H; auto. Qed.

Lemma set_new_hm2 : forall a e p a', set_new_datapth tree a e = (p, a') -> hmk a -> hmk a'.
Proof. intros a e p a' H K. unfold hm_ok. rewrite (set_new_hm _ _ _ _ _ H). exact K. Qed.
Lemma receive_hm : forall a r m r' a', receive tree a r m = STR_OK r' a' -> hmk a -> hmk a'.
Proof.
  intros a r [c b] r' a' H K. unfold receive in H.
  repeat match type of H with
  | (if ?x then _ else _) = _ => destruct x
  | match ?x with Some _ => _ | None => _ end = _ => destruct x as [[? ?]|]
  | match ?x with Some _ => _ | None => _ end = _ => destruct x
  | match ?x with [] => _ | _ => _ end = _ => destruct x
  | (let '(_, _) := ?x in _) = _ => destruct x eqn:?
  end; try discriminate; inversion H; subst; auto; try (eapply set_new_hm2; eauto).
Qed.

Definition final (o : outcome) (p1 : option (list ent)) (av : list ent) : Prop :=
  match o with Going s _ | Finished s _ => q_p1 s = p1 /\ avail s = av | Failed => True end.

Theorem run_walks : forall l s r evs o, inv s -> run s r l = (evs, o) ->
  exists p1' av', walks (q_p1 s) (avail s) evs p1' av' /\ final o p1' av'.
Proof.
  induction l as [|[|m] l IH]; intros s r evs o I H; cbn [p2_run] in H.
  - inversion H; subst. exists (q_p1 s), (avail s). split; [constructor|cbn; auto].
  - destruct (next s) as [[evs0 s']|] eqn:N.
    2:{ inversion H; subst. exists (q_p1 s), (avail s). split; [constructor|cbn; auto]. }
    destruct (run s' _ l) as [evs' o'] eqn:R. inversion H; subst.
    destruct (q_p1 s) as [[|p p1]|] eqn:Ep.
    + destruct (next_end _ _ _ I Ep N) as (-> & E1 & E2 & I').
      destruct (IH _ _ _ _ I' R) as (p1' & av' & W & F). rewrite E1, E2 in W. destruct (walks_none _ _ _ _ W) as (-> & -> & ->).
      exists None, []. rewrite app_nil_r. split; [constructor|exact F].
    + destruct (next_picks _ _ _ _ _ I Ep N) as (P & E1 & I').
      destruct (IH _ _ _ _ I' R) as (p1' & av' & W & F). rewrite E1 in W.
      exists p1', av'. split; [eapply w_next; eauto|exact F].
    + destruct (next_done _ _ _ Ep N) as [-> ->].
      destruct (IH _ _ _ _ I R) as (p1' & av' & W & F). rewrite Ep in W. exists p1', av'. auto.
  - destruct (receive tree (q_aux s) r m) as [|r' a'|] eqn:Rv.
    + inversion H; subst. exists (q_p1 s), (avail s). split; [constructor|cbn; auto].
    + assert (I' : inv (with_aux s a')).
      { destruct I as [I1 I2]. split; [exact I1|]. cbn. eapply receive_hm; eauto. }
      destruct (IH _ _ _ _ I' H) as (p1' & av' & W & F). exists p1', av'. auto.
    + inversion H; subst. exists (q_p1 s), (avail s). split; [constructor|cbn; auto].
Qed.

(* ---- every scanned entry exactly once ---- *)

Lemma handled_app : forall a b, handled (a ++ b) = handled a ++ handled b.
Proof. induction a as [|[]]; intros; cbn; auto; f_equal; auto. Qed.
Lemma handled_del : forall l, handled (map EDeleted l) = [].
Proof. induction l; cbn; auto. Qed.
Lemma picks_handled : forall p av evs av', picks p av evs av' -> map e_path (handled evs) = [e_path p].
Proof.
  intros p av evs av' H. induction H as [r evs N|c l r evs _ N|c l r evs _ D NE|]; auto.
  - inversion N; reflexivity.
  - inversion N; reflexivity.
  - inversion D as [r' e' N _|e U C|e F|E1 U1 D1|e E1 E2 U L1 L2 L3 P1 P2 P3 P4 P5|]; subst; cbn; auto.
    + inversion N; reflexivity.
    + destruct C as (-> & _). reflexivity.
    + destruct F as (_ & _ & _ & _ & _ & h & new & F). destruct F as (_ & _ & _ & _ & _ & _ & -> & _). reflexivity.
    + rewrite P1. reflexivity.
    + congruence.
Qed.
Lemma walks_handled : forall p1 av evs p1' av', walks p1 av evs p1' av' ->
  map e_path (handled evs) ++ map e_path (match p1' with Some l => l | None => [] end) =
  map e_path (match p1 with Some l => l | None => [] end).
Proof.
  intros p1 av evs p1' av' H. induction H as [| |av]; cbn; auto.
  - rewrite handled_app, map_app, (picks_handled _ _ _ _ H). cbn. f_equal. exact IHwalks.
  - rewrite handled_del. reflexivity.
Qed.
Lemma picks_noend : forall p av evs av', picks p av evs av' -> ~ In EEnd evs.
Proof.
  intros p av evs av' H I. induction H as [r evs N|c l r evs _ N|c l r evs _ D _|].
  - inversion N; subst; destruct I as [I|[]]; discriminate.
  - inversion N; subst; destruct I as [I|[]]; discriminate.
  - inversion D as [r' e' N _| | | | |]; subst; try (destruct I as [I|[]]; discriminate); try destruct I.
    inversion N; subst; destruct I as [I|[]]; discriminate.
  - destruct I as [I|I]; [discriminate|auto].
Qed.
Lemma walks_end : forall p1 av evs p1' av', walks p1 av evs p1' av' -> In EEnd evs -> p1' = None.
Proof.
  intros p1 av evs p1' av' H. induction H as [| |av]; intros I; auto.
  - destruct I.
  - apply in_app_or in I. destruct I as [I|I]; auto. exfalso. eapply picks_noend; eauto.
Qed.

Definition start (p1 : list ent) (cur : option (list ent)) (a : aux) : sst := mksst (Some p1) cur None a.
Lemma start_inv : forall p1 cur a, hmk a -> inv (start p1 cur a).
Proof. intros p1 cur a H. split; auto. Qed.
Lemma start_avail : forall p1 cur a, avail (start p1 cur a) = match cur with Some l => l | None => [] end.
Proof. reflexivity. Qed.

Theorem each_once : forall p1 cur a r l evs o, hmk a -> run (start p1 cur a) r l = (evs, o) ->
  exists rest, map e_path (handled evs) ++ rest = map e_path p1 /\ (In EEnd evs -> rest = []).
Proof.
  intros p1 cur a r l evs o K H. destruct (run_walks _ _ _ _ _ (start_inv p1 cur a K) H) as (p1' & av' & W & _).
  eexists. split; [apply (walks_handled _ _ _ _ _ W)|]. intros I. rewrite (walks_end _ _ _ _ _ W I). reflexivity.
Qed.

(* ---- matching with the old manifest ---- *)

(* What may be done with p, given the entries of the previous manifest. *)
Definition fate (cur : list ent) (p : ent) (x : ev) : Prop :=
  (exists c r, In c cur /\ same c p /\ decided c p r [x] /\ r <> P_ERROR) \/
  ((forall c, In c cur -> ~ same c p) /\ exists r, new_outcome p r [x]).

Definition is_main (x : ev) : bool := match x with EWrite _ _ | EReq _ _ => true | _ => false end.
Definition mains (evs : list ev) : list ev := filter is_main evs.
Lemma mains_app : forall a b, mains (a ++ b) = mains a ++ mains b.
Proof. intros. apply filter_app. Qed.
Lemma mains_del : forall l, mains (map EDeleted l) = [].
Proof. induction l; cbn; auto. Qed.

Lemma new_single : forall p r evs, new_outcome p r evs -> exists x, evs = [x] /\ is_main x = true.
Proof. intros p r evs H. inversion H; eauto. Qed.
Lemma decided_single : forall c p r evs, decided c p r evs -> r <> P_ERROR -> exists x, evs = [x] /\ is_main x = true.
Proof. intros c p r evs H N. inversion H as [r' e' W _| | | | |]; subst; eauto; [eapply new_single; eauto|congruence]. Qed.

Section Sorted.
Variable all : list ent.
Hypothesis W : well all.
Lemma cmp3 : forall a b, In a all -> In b all ->
  (sbuf_pathcmp (e_sb a) (e_sb b) < 0 <-> lt a b) /\ (sbuf_pathcmp (e_sb a) (e_sb b) = 0 <-> same a b) /\
  (sbuf_pathcmp (e_sb a) (e_sb b) > 0 <-> lt b a).
Proof. intros a b Ha Hb. apply (ents_ok_pair (map e_sb all)); auto; apply in_map; auto. Qed.
Lemma lt_tr : forall a b c, In a all -> In b all -> In c all -> lt a b -> lt b c -> lt a c.
Proof. intros a b c Ha Hb Hc. apply (ent_lt_trans (map e_sb all)); auto; apply in_map; auto. Qed.
Lemma lt_ir : forall a, In a all -> ~ lt a a.
Proof. intros a Ha. apply (ent_lt_irrefl (map e_sb all)); auto. apply in_map; auto. Qed.
Lemma lt_not_same : forall a b, In a all -> In b all -> lt a b -> ~ same a b.
Proof.
  intros a b Ha Hb L S. apply (lt_ir b Hb). eapply ent_eq_lt; [apply ent_eq_sym; exact S|exact L].
Qed.
Lemma same_sym : forall a b, same a b -> same b a. Proof. intros. apply ent_eq_sym; auto. Qed.

(* The invariant of the walk: p comes after everything already consumed. *)
Lemma picks_spec : forall p av evs av', incl av all -> In p all -> sorted av -> picks p av evs av' ->
  exists gone x, evs = map EDeleted gone ++ [x] /\ is_main x = true /\
    (forall c, In c gone -> lt c p) /\
    ((exists c, av = gone ++ c :: av' /\ same c p /\ builds x <> None /\ (exists r, decided c p r [x] /\ r <> P_ERROR)) \/
     (av = gone ++ av' /\ builds x = None /\ (forall c, In c av' -> same c p \/ lt p c) /\
      ((exists c r, In c av' /\ same c p /\ decided c p r [x] /\ r <> P_ERROR) \/
       ((forall c, In c av' -> ~ same c p) /\ exists r, new_outcome p r [x])))).
Proof.
  intros p av evs av' Ia Hp S H. induction H as [r evs N|c l r evs C N|c l r evs C D NE|c l evs l' C H IH].
  - destruct (new_single _ _ _ N) as (x & -> & M). exists [], x. cbn. repeat split; auto; [intros ? []|].
    right. split; auto. split; [inversion N; reflexivity|]. split; [intros ? []|]. right. split; [intros ? []|eauto].
  - destruct (new_single _ _ _ N) as (x & -> & M). exists [], x. cbn. repeat split; auto; [intros ? []|].
    assert (Hc : In c all) by (apply Ia; left; auto). apply (cmp3 c p Hc Hp) in C.
    inversion S as [|? ? S' F]; subst. rewrite Forall_forall in F.
    assert (G : forall d, In d (c :: l) -> lt p d).
    { intros d [<-|Hd]; auto. apply (lt_tr p c d); auto. apply Ia; right; auto. }
    right. split; auto. split; [inversion N; reflexivity|]. split; [auto|]. right. split; [|eauto].
    intros d Hd Sd. apply (lt_not_same p d); auto. apply same_sym; auto.
  - destruct (decided_single _ _ _ _ D NE) as (x & -> & M). exists [], x. cbn. repeat split; auto; [intros ? []|].
    assert (Hc : In c all) by (apply Ia; left; auto). apply (cmp3 c p Hc Hp) in C.
    inversion S as [|? ? S' F]; subst. rewrite Forall_forall in F.
    destruct (keeps r) eqn:K.
    + right. split; auto. split.
      { inversion D as [r' e' N _| | | | |]; subst; try discriminate. inversion N; reflexivity. }
      split; [intros d [<-|Hd]; auto; right; eapply ent_eq_lt; [apply ent_eq_sym; exact C|apply F; auto]|].
      left. exists c, r. split; [left; auto|auto].
    + left. exists c. split; [auto|split; [auto|split; [|eauto]]].
      inversion D as [r' e' N _| | | | |]; subst; try discriminate. inversion N; subst; discriminate.
  - assert (Hc : In c all) by (apply Ia; left; auto). apply (cmp3 c p Hc Hp) in C.
    inversion S as [|? ? S' F]; subst.
    destruct (IH (fun d Hd => Ia d (or_intror Hd)) S') as (gone & x & -> & M & G & Q).
    exists (c :: gone), x. cbn. repeat split; auto; [intros d [<-|Hd]; auto|].
    destruct Q as [(d & -> & Q)|(-> & Q)]; [left; exists d; split; auto|right; split; auto].
Qed.

Lemma sorted_app_r : forall a b, sorted (a ++ b) -> sorted b.
Proof. induction a; cbn; intros b H; auto. inversion H; subst. apply IHa; auto. Qed.

(* Every entry's fate is decided by the old entry for the same file, if any. *)
Lemma walks_fate : forall p1 av evs p1' av', walks p1 av evs p1' av' -> forall l gone, p1 = Some l ->
  incl l all -> incl (gone ++ av) all -> sorted l -> sorted av ->
  (forall g p, In g gone -> In p l -> lt g p) ->
  exists done rest, l = done ++ rest /\ Forall2 (fate (gone ++ av)) done (mains evs) /\
    (p1' = None -> rest = []).
Proof.
  intros p1 av evs p1' av' H. induction H as [p1 av|p l0 av evs av1 evs' p1' av' P H IH|av]; intros l gone E Il Ia Sl Sa G.
  - exists [], l. subst. split; [auto|split; [constructor|discriminate]].
  - inversion E; subst l. clear E. inversion Sl as [|? ? Sl' Fl]; subst. rewrite Forall_forall in Fl.
    assert (Hp : In p all) by (apply Il; left; auto).
    assert (Iav : incl av all) by (intros d Hd; apply Ia; apply in_or_app; auto).
    destruct (picks_spec p av evs av1 Iav Hp Sa P) as (gn & x & -> & M & Gn & Q).
    rewrite mains_app, mains_app, mains_del. cbn [app mains filter]. rewrite M.
    assert (NG : forall g, In g gone -> ~ same g p).
    { intros g Hg. apply lt_not_same; [apply Ia; apply in_or_app; auto|auto|apply G; [auto|left; auto]]. }
    destruct Q as [(c & -> & Sc & _ & (r & D & NE))|(-> & _ & A & Q)].
    + destruct (IH l0 (gone ++ gn ++ [c]) eq_refl) as (dn & rest & -> & F2 & R).
      * intros d Hd; apply Il; right; auto.
      * rewrite <- !app_assoc in *. cbn [app] in *. exact Ia.
      * auto.
      * apply sorted_app_r in Sa. inversion Sa; auto.
      * intros g q Hg Hq. apply in_app_or in Hg. destruct Hg as [Hg|Hg]; [apply G; auto; right; auto|].
        assert (Hq' : In q all) by (apply Il; right; auto).
        apply in_app_or in Hg. destruct Hg as [Hg|[<-|[]]].
        -- apply (lt_tr g p q); auto. apply Ia. rewrite !in_app_iff. auto.
        -- eapply ent_eq_lt; [exact Sc|]. apply Fl; auto.
      * exists (p :: dn), rest. repeat split; auto. constructor.
        -- left. exists c, r. split; [rewrite !in_app_iff; right; right; left; auto|auto].
        -- rewrite <- !app_assoc in F2. exact F2.
    + destruct (IH l0 (gone ++ gn) eq_refl) as (dn & rest & -> & F2 & R).
      * intros d Hd; apply Il; right; auto.
      * rewrite <- app_assoc. exact Ia.
      * auto.
      * apply sorted_app_r in Sa. auto.
      * intros g q Hg Hq. apply in_app_or in Hg. destruct Hg as [Hg|Hg]; [apply G; auto; right; auto|].
        apply (lt_tr g p q); auto; [apply Ia; rewrite !in_app_iff; auto|apply Il; right; auto].
      * exists (p :: dn), rest. repeat split; auto. constructor.
        -- destruct Q as [(c & r & Hc & Sc & D & NE)|[N (r & O)]].
           ++ left. exists c, r. split; [rewrite !in_app_iff; auto|auto].
           ++ right. split; [|eauto]. intros c Hc. apply in_app_or in Hc. destruct Hc as [Hc|Hc]; auto.
              apply in_app_or in Hc. destruct Hc as [Hc|Hc]; auto.
              apply lt_not_same; auto. apply Ia. rewrite !in_app_iff. auto.
        -- rewrite <- app_assoc in F2. exact F2.
  - inversion E; subst l. exists [], []. repeat split; auto. cbn [mains filter is_main]. 
    fold (mains (map EDeleted av)). rewrite mains_del. constructor.
Qed.

(* The entries counted as deleted are those nothing builds on. *)
Lemma deleted_app : forall a b, deleted (a ++ b) = deleted a ++ deleted b.
Proof. induction a as [|[]]; intros; cbn; auto; f_equal; auto. Qed.
Lemma deleted_map : forall l, deleted (map EDeleted l) = l.
Proof. induction l; cbn; auto. f_equal; auto. Qed.

Inductive kept_by (evs : list ev) : list ent -> list ent -> Prop :=
| kb_nil : kept_by evs [] []
| kb_del : forall c l d, ~ built_on evs c -> kept_by evs l d -> kept_by evs (c :: l) (c :: d)
| kb_keep : forall c l d, built_on evs c -> kept_by evs l d -> kept_by evs (c :: l) d.

Lemma kept_by_all : forall evs l, (forall c, In c l -> ~ built_on evs c) -> kept_by evs l l.
Proof. induction l; intros H; constructor; auto; [apply H; left; auto|apply IHl; intros; apply H; right; auto]. Qed.
Lemma kept_by_app : forall evs a b x y, kept_by evs a x -> kept_by evs b y -> kept_by evs (a ++ b) (x ++ y).
Proof. intros evs a b x y H Hb. induction H; cbn; auto; [apply kb_del|apply kb_keep]; auto. Qed.
Lemma kept_by_ext : forall e1 e2 l d, (forall c, In c l -> (built_on e1 c <-> built_on e2 c)) -> kept_by e1 l d -> kept_by e2 l d.
Proof.
  intros e1 e2 l d H K. induction K.
  - constructor.
  - apply kb_del; [rewrite <- H; [auto|left; auto]|apply IHK; intros; apply H; right; auto].
  - apply kb_keep; [apply H; [left; auto|auto]|apply IHK; intros; apply H; right; auto].
Qed.

Lemma builds_handled : forall evs x e, In x evs -> builds x = Some e -> In e (handled evs).
Proof.
  induction evs as [|y evs IH]; intros x e I B; [destruct I|]; destruct I as [->|I].
  - destruct x as [[]| |[]|]; cbn in B; inversion B; subst; left; auto.
  - destruct y; cbn; auto; try (right; eapply IH; eauto); eapply IH; eauto.
Qed.
Lemma built_path : forall l rest evs c, map e_path (handled evs) ++ rest = map e_path l -> built_on evs c ->
  exists p, In p l /\ same p c.
Proof.
  intros l rest evs c E (x & e & I & B & S). pose proof (builds_handled _ _ _ I B) as H.
  apply (in_map e_path) in H. assert (Hl : In (e_path e) (map e_path l)) by (rewrite <- E; apply in_or_app; auto).
  apply in_map_iff in Hl. destruct Hl as (p & Ep & Hp). exists p. split; auto.
  unfold same, ent_eq in *. fold (e_path p). fold (e_path e) in S. rewrite Ep. exact S.
Qed.

Lemma walks_deleted : forall p1 av evs p1' av', walks p1 av evs p1' av' -> forall l, p1 = Some l -> p1' = None ->
  incl l all -> incl av all -> sorted l -> sorted av ->
  kept_by evs av (deleted evs).
Proof.
  intros p1 av evs p1' av' H. induction H as [p1 av|p l0 av evs av1 evs' p1' av' P H IH|av]; intros l E N Il Ia Sl Sa.
  - subst. discriminate.
  - inversion E; subst l. clear E. inversion Sl as [|? ? Sl' Fl]; subst. rewrite Forall_forall in Fl.
    assert (Hp : In p all) by (apply Il; left; auto).
    assert (Il0 : incl l0 all) by (intros d Hd; apply Il; right; auto).
    destruct (picks_spec p av evs av1 Ia Hp Sa P) as (gn & x & -> & M & Gn & Q).
    pose proof (walks_handled _ _ _ _ _ H) as HH. cbn [map] in HH.
    assert (PX : forall e, builds x = Some e -> same e p).
    { intros e B. pose proof (picks_handled _ _ _ _ P) as HP. rewrite handled_app, handled_del in HP. cbn [app] in HP.
      pose proof (builds_handled [x] x e (or_introl eq_refl) B) as I.
      apply (in_map e_path) in I. rewrite HP in I. destruct I as [I|[]]. unfold same, ent_eq. fold (e_path e) (e_path p).
      rewrite <- I. split; reflexivity. }
    (* the events of this step, seen from an entry c *)
    assert (B1 : forall c, built_on ((map EDeleted gn ++ [x]) ++ evs') c <->
                  ((exists e, builds x = Some e /\ same e c) \/ built_on evs' c)).
    { intros c. unfold built_on. split.
      - intros (y & e & I & B & S). rewrite !in_app_iff in I. destruct I as [[I|[<-|[]]]|I]; eauto.
        + apply in_map_iff in I. destruct I as (g & <- & _). discriminate.
        + right. eauto.
      - intros [(e & B & S)|(y & e & I & B & S)].
        + exists x, e. split; auto. rewrite !in_app_iff. left; right; left; auto.
        + exists y, e. split; auto. rewrite !in_app_iff. auto. }
    assert (Late : forall c, In c all -> (lt c p \/ same c p) -> ~ built_on evs' c).
    { intros c Hc L B. destruct (built_path l0 _ evs' c HH B) as (q & Hq & S).
      assert (Hq' : In q all) by (apply Il0; auto).
      assert (lt c q) as Lcq.
      { destruct L as [L|L]; [apply (lt_tr c p q); auto|eapply ent_eq_lt; [exact L|apply Fl; auto]]. }
      apply (lt_not_same c q Hc Hq' Lcq). apply same_sym; auto. }
    rewrite !deleted_app, deleted_map.
    assert (Dx : deleted [x] = []) by (destruct x; try discriminate; reflexivity).
    rewrite Dx, app_nil_r.
    destruct Q as [(c & -> & Sc & Bx & (r & D & NE))|(-> & Bx & A & Q)].
    + assert (Hc : In c all) by (apply Ia; rewrite in_app_iff; right; left; auto).
      apply kept_by_app.
      * apply kept_by_all. intros g Hg B. assert (Hg' : In g all) by (apply Ia; rewrite in_app_iff; auto).
        apply B1 in B. destruct B as [(e & B & S)|B].
        -- apply (lt_not_same g p); auto. apply PX in B. apply same_sym. eapply ent_eq_trans; [apply same_sym; exact B|exact S].
        -- apply (Late g Hg'); auto.
      * apply kb_keep.
        -- apply B1. left. destruct (builds x) as [e|] eqn:Be; [|congruence]. exists e. split; auto.
           eapply ent_eq_trans; [apply PX; auto|apply same_sym; auto].
        -- assert (Sa2 : sorted (c :: av1)) by (apply sorted_app_r in Sa; auto).
           inversion Sa2 as [|? ? Sa1 Fc]; subst. rewrite Forall_forall in Fc.
           apply (kept_by_ext evs').
           ++ intros d Hd. rewrite B1. split; auto. intros [(e & B & S)|B]; auto. exfalso.
              assert (Hd' : In d all) by (apply Ia; rewrite in_app_iff; right; right; auto).
              apply (lt_not_same c d Hc Hd' (Fc d Hd)). eapply ent_eq_trans; [exact Sc|].
              eapply ent_eq_trans; [apply same_sym, PX; exact B|exact S].
           ++ apply (IH l0); auto. intros d Hd. apply Ia. rewrite in_app_iff. right; right; auto.
    + apply kept_by_app.
      * apply kept_by_all. intros g Hg B. assert (Hg' : In g all) by (apply Ia; rewrite in_app_iff; auto).
        apply B1 in B. destruct B as [(e & B & S)|B]; [congruence|]. apply (Late g Hg'); auto.
      * apply (kept_by_ext evs').
        -- intros d Hd. rewrite B1. split; auto. intros [(e & B & S)|B]; auto. congruence.
        -- apply (IH l0); auto; [intros d Hd; apply Ia; rewrite in_app_iff; auto|eapply sorted_app_r; eauto].
  - inversion E; subst l. cbn [deleted]. rewrite deleted_map. apply kept_by_all.
    intros c Hc (x & e & I & B & S). destruct I as [<-|I]; [discriminate|].
    apply in_map_iff in I. destruct I as (g & <- & _). discriminate.
Qed.
End Sorted.

Theorem fates : forall p1 cur a r l evs o, hmk a -> well (p1 ++ match cur with Some c => c | None => [] end) ->
  sorted p1 -> sorted (match cur with Some c => c | None => [] end) ->
  run (start p1 cur a) r l = (evs, o) ->
  exists done rest, p1 = done ++ rest /\ (In EEnd evs -> rest = []) /\
    Forall2 (fate (match cur with Some c => c | None => [] end)) done (mains evs).
Proof.
  intros p1 cur a r l evs o K W Sp Sc H. destruct (run_walks _ _ _ _ _ (start_inv p1 cur a K) H) as (p1' & av' & Wk & _).
  rewrite start_avail in Wk. set (cu := match cur with Some c => c | None => [] end) in *.
  destruct (walks_fate (p1 ++ cu) W _ _ _ _ _ Wk p1 [] eq_refl) as (dn & rest & E & F & R); auto.
  - apply incl_appl, incl_refl.
  - apply incl_appr, incl_refl.
  - intros g p [].
  - exists dn, rest. repeat split; auto. intros I. apply R. eapply walks_end; eauto.
Qed.
Theorem deleted_exact : forall p1 cur a r l evs o, hmk a -> well (p1 ++ match cur with Some c => c | None => [] end) ->
  sorted p1 -> sorted (match cur with Some c => c | None => [] end) ->
  run (start p1 cur a) r l = (evs, o) -> In EEnd evs ->
  kept_by evs (match cur with Some c => c | None => [] end) (deleted evs).
Proof.
  intros p1 cur a r l evs o K W Sp Sc H I. destruct (run_walks _ _ _ _ _ (start_inv p1 cur a K) H) as (p1' & av' & Wk & _).
  rewrite start_avail in Wk. pose proof (walks_end _ _ _ _ _ Wk I) as E.
  eapply (walks_deleted _ W _ _ _ _ _ Wk p1 eq_refl E); auto.
  - apply incl_appl, incl_refl.
  - apply incl_appr, incl_refl.
Qed.
End Walk.

(* ---- receiving ---- *)

Fixpoint rcvs (l : list step) : list (Z * bytes) :=
  match l with [] => [] | Snd :: r => rcvs r | Rcv m :: r => m :: rcvs r end.

(* The client's whole side of the conversation. *)
Definition replies (ans : ent -> answer) (qs : list (bool * ent)) : list (Z * bytes) :=
  flat_map (fun q => answer_msgs (e_path (snd q)) (s_datapth (e_sb (snd q))) (ans (snd q))) qs.
Definition ok_end : Z * bytes := (CMD_GEN, str "okbackupphase2end").
Definition was_sent (w : answer) : bool := match w with CSent _ _ _ => true | _ => false end.

(* A request as process_new() and process_changed_file() make them. *)
Definition req_ok (q : bool * ent) : Prop :=
  has_data (e_cmd (snd q)) /\ ibuf (e_path (snd q)) <> None /\
  (if fst q then e_cmd (snd q) = CMD_FILE /\ exists b, s_datapth (e_sb (snd q)) = mkiobuf CMD_DATAPTH (Some b) /\
                    relative_path_attack (CMD_DATAPTH, b) = false
   else ibuf (s_datapth (e_sb (snd q))) = None).
(* Attributes that can be decoded, and no empty block. *)
Definition ans_ok (w : answer) : Prop :=
  match w with
  | CForget => True
  | CSent attr blocks _ | CBroken attr blocks =>
      (forall a, attribs_decode (cview attr) a <> None) /\ Forall (fun b => b <> []) blocks
  end.
(* What the server ends up with for a request answered in full. *)
Definition got (ans : ent -> answer) (q : bool * ent) (v : recvd) : Prop :=
  match ans (snd q) with
  | CSent attr blocks endf =>
      v_delta v = fst q /\ v_data v = concat blocks /\
      e_path (v_ent v) = e_path (snd q) /\
      s_attr (e_sb (v_ent v)) = mkiobuf CMD_ATTRIBS (Some attr) /\
      s_endfile (e_sb (v_ent v)) = mkiobuf CMD_END_FILE (Some endf) /\
      ibuf (s_link (e_sb (v_ent v))) = None /\
      (if fst q then s_datapth (e_sb (v_ent v)) = s_datapth (e_sb (snd q))
       else exists p, s_datapth (e_sb (v_ent v)) = mkiobuf CMD_DATAPTH (Some p))
  | _ => False
  end.

Section Recv.
Variable tree : ent -> bool.
Notation rcv := (receive tree).

(* After the messages ms, whatever else happens in between, P holds. *)
Fixpoint after (r : rst) (ms : list (Z * bytes)) (P : rst -> Prop) : Prop :=
  match ms with
  | [] => P r
  | m :: ms' => forall a last, match rcv a (set_last r last) m with
                               | STR_OK r1 _ => after r1 ms' P
                               | _ => False
                               end
  end.
Definition blind (P : rst -> Prop) : Prop := forall r l, P r <-> P (set_last r l).

Lemma after_app : forall m1 m2 r P, after r m1 (fun r' => after r' m2 P) -> after r (m1 ++ m2) P.
Proof.
  induction m1 as [|m m1 IH]; intros m2 r P H; cbn in *; auto.
  intros a last. specialize (H a last). destruct (rcv a (set_last r last) m); auto.
Qed.
Lemma after_impl : forall ms r (P Q : rst -> Prop), (forall r', P r' -> Q r') -> after r ms P -> after r ms Q.
Proof.
  induction ms as [|m ms IH]; intros r P Q H A; cbn in *; auto.
  intros a last. specialize (A a last). destruct (rcv a (set_last r last) m); eauto.
Qed.
Lemma set_last_set : forall r l l', set_last (set_last r l) l' = set_last r l'.
Proof. destruct r; reflexivity. Qed.
Lemma set_last_id : forall r, set_last r (r_last r) = r.
Proof. destruct r; reflexivity. Qed.
Lemma after_blind : forall ms r l P, blind P -> after r ms P -> after (set_last r l) ms P.
Proof.
  intros [|m ms] r l P B H; cbn in *; [apply (B r l); auto|].
  intros a last. rewrite set_last_set. apply H.
Qed.

Definition idle (r : rst) : Prop :=
  r_fzp r = None /\ s_datapth (e_sb (r_rb r)) = mkiobuf CMD_DATAPTH None /\ ibuf (s_link (e_sb (r_rb r))) = None.
Lemma idle0 : idle rst0. Proof. repeat split. Qed.

Lemma after_blocks : forall blocks ms r d data P, Forall (fun b => b <> []) blocks -> r_fzp r = Some (d, data) ->
  (forall l, after (mkrst (r_rb r) (Some (d, data ++ concat blocks)) l (r_done r)) ms P) ->
  after r (map (fun b => (CMD_APPEND, b)) blocks ++ ms) P.
Proof.
  induction blocks as [|b blocks IH]; intros ms r d data P F E H.
  - cbn [map app concat] in *. rewrite app_nil_r in H. specialize (H (r_last r)). destruct r as [rb f la dn]. cbn [r_fzp r_rb r_last r_done] in *. subst f. exact H.
  - inversion F; subst. cbn [map app after]. intros a last. unfold receive. cbn [set_last r_fzp r_rb r_last r_done]. rewrite E.
    change ((CMD_APPEND =? CMD_MESSAGE) || (CMD_APPEND =? CMD_WARNING)) with false. change (CMD_APPEND =? CMD_APPEND) with true.
    cbv iota. destruct b as [|x b]; [congruence|].
    apply (IH ms _ d (data ++ x :: b) P); auto. cbn [r_rb r_done]. intros l.
    rewrite <- app_assoc. apply H.
Qed.

Lemma data_cmd : forall c, has_data c ->
  ((c =? CMD_MESSAGE) || (c =? CMD_WARNING)) = false /\ (c =? CMD_DATAPTH) = false /\ (c =? CMD_ATTRIBS) = false /\
  (c =? CMD_GEN) = false /\ (c =? CMD_INTERRUPT) = false /\ cmd_is_filedata c || cmd_is_vssdata c = true.
Proof. intros c [->|[->|[->|[->|[->|[->|[->|[->| ->]]]]]]]]; repeat split. Qed.

(* The messages that introduce a file. *)
Lemma after_heads : forall q attr ms r P, req_ok q -> idle r -> (forall a, attribs_decode (cview attr) a <> None) ->
  (forall r', e_path (r_rb r') = e_path (snd q) -> r_fzp r' = Some (fst q, []) -> r_done r' = r_done r ->
     s_attr (e_sb (r_rb r')) = mkiobuf CMD_ATTRIBS (Some attr) -> ibuf (s_link (e_sb (r_rb r'))) = None ->
     (if fst q then s_datapth (e_sb (r_rb r')) = s_datapth (e_sb (snd q))
      else exists p, s_datapth (e_sb (r_rb r')) = mkiobuf CMD_DATAPTH (Some p)) ->
     after r' ms P) ->
  after r (((if (icmd (e_path (snd q)) =? CMD_FILE) && has_buf (s_datapth (e_sb (snd q))) then [msg_of (s_datapth (e_sb (snd q)))] else [])
            ++ [(CMD_ATTRIBS, attr); msg_of (e_path (snd q))]) ++ ms) P.
Proof.
  intros [d e] attr ms r P (Hd & Hb & Hq) (I1 & I2 & I3) Da H. cbn [fst snd] in *.
  assert (EP : exists b, e_path e = mkiobuf (e_cmd e) (Some b)).
  { unfold e_cmd. destruct (e_path e) as [c [b|]]; cbn in *; [eauto|congruence]. }
  destruct EP as (pb & EP).
  destruct (data_cmd _ Hd) as (C1 & C2 & C3 & C4 & C5 & C6).
  assert (Tail : forall r1, r_fzp r1 = None -> r_done r1 = r_done r -> ibuf (s_link (e_sb (r_rb r1))) = None ->
     (if d then s_datapth (e_sb (r_rb r1)) = s_datapth (e_sb e) else ibuf (s_datapth (e_sb (r_rb r1))) = None) ->
     after r1 ((CMD_ATTRIBS, attr) :: msg_of (e_path e) :: ms) P).
  { intros r1 F1 F2 F3 F4. cbn [after]. intros a last. unfold receive at 1. cbn [set_last r_fzp r_rb r_last r_done]. rewrite F1.
    change ((CMD_ATTRIBS =? CMD_MESSAGE) || (CMD_ATTRIBS =? CMD_WARNING)) with false.
    change (CMD_ATTRIBS =? CMD_DATAPTH) with false. change (CMD_ATTRIBS =? CMD_ATTRIBS) with true. cbv iota.
    destruct (attribs_decode (cview attr) (e_at (r_rb r1))) as [at'|] eqn:D; [|exfalso; eapply Da; eauto].
    intros a2 last2. unfold receive. rewrite EP. unfold msg_of. cbn [icmd ibuf set_last r_fzp r_rb r_last r_done e_sb e_at].
    rewrite C1, C2, C3, C4, C5, C6. cbn [s_datapth set_path set_attr].
    destruct d.
    - rewrite F4. destruct Hq as (Ef & b & Eb & _). rewrite Eb. cbn [has_buf ibuf].
      apply H; cbn; auto; try (rewrite EP; reflexivity).
    - unfold has_buf. rewrite F4. destruct (set_new_datapth tree a2 _) as [dp a3].
      apply H; cbn; auto; try (rewrite EP; reflexivity). eauto. }
  destruct d.
  - destruct Hq as (Ef & b & Eb & Na). fold (e_cmd e). rewrite Ef, Eb.
    change (CMD_FILE =? CMD_FILE) with true. cbn [has_buf ibuf andb app].
    cbn [after]. intros a last. unfold receive. unfold msg_of at 1. cbn [icmd ibuf set_last r_fzp r_rb r_last r_done]. rewrite I1.
    change ((CMD_DATAPTH =? CMD_MESSAGE) || (CMD_DATAPTH =? CMD_WARNING)) with false. change (CMD_DATAPTH =? CMD_DATAPTH) with true.
    cbv iota. unfold msg_of. cbn [icmd ibuf]. rewrite Na. apply Tail; cbn; auto.
  - assert (Hn : has_buf (s_datapth (e_sb e)) = false) by (unfold has_buf; rewrite Hq; auto).
    rewrite Hn, andb_false_r. cbn [app]. apply Tail; auto. rewrite I2. reflexivity.
Qed.

Definition Post (ans : ent -> answer) (qs : list (bool * ent)) (r r' : rst) : Prop :=
  idle r' /\ exists vs, r_done r' = r_done r ++ vs /\
    Forall2 (got ans) (filter (fun q => was_sent (ans (snd q))) qs) vs.

Lemma after_answer : forall ans q ms r P, req_ok q -> ans_ok (ans (snd q)) -> idle r ->
  (forall r', Post ans [q] r r' -> after r' ms P) ->
  after r (answer_msgs (e_path (snd q)) (s_datapth (e_sb (snd q))) (ans (snd q)) ++ ms) P.
Proof.
  intros ans q ms r P Rq Aq I H. unfold answer_msgs. unfold Post in H. cbn [filter] in H.
  destruct (ans (snd q)) as [|attr blocks endf|attr blocks] eqn:Ea; cbn [was_sent] in H.
  - cbn [app after]. intros a last. unfold receive. cbn [set_last r_fzp r_rb r_last r_done]. destruct I as (I1 & I2 & I3).
    rewrite I1. change ((CMD_INTERRUPT =? CMD_MESSAGE) || (CMD_INTERRUPT =? CMD_WARNING)) with false.
    change (CMD_INTERRUPT =? CMD_DATAPTH) with false. change (CMD_INTERRUPT =? CMD_ATTRIBS) with false.
    change (CMD_INTERRUPT =? CMD_GEN) with false. change (CMD_INTERRUPT =? CMD_INTERRUPT) with true. cbv iota.
    apply H. split; [repeat split; cbn; auto|]. exists []. rewrite app_nil_r. split; [reflexivity|constructor].
  - destruct Aq as [Da Fb]. rewrite <- app_assoc. apply after_heads; auto.
    intros r' E1 E2 E3 E4 E5 E6. rewrite <- app_assoc. eapply after_blocks; [exact Fb|exact E2|]. intros l.
    cbn [app after]. intros a last. unfold receive. cbn [set_last r_fzp r_rb r_last r_done].
    change ((CMD_END_FILE =? CMD_MESSAGE) || (CMD_END_FILE =? CMD_WARNING)) with false.
    change (CMD_END_FILE =? CMD_APPEND) with false. change (CMD_END_FILE =? CMD_END_FILE) with true. cbv iota.
    apply H. split; [repeat split|]. cbn [r_done]. rewrite E3.
    eexists. split; [reflexivity|]. constructor; [|constructor].
    unfold got. rewrite Ea. cbn. repeat split; auto.
  - destruct Aq as [Da Fb]. rewrite <- app_assoc. apply after_heads; auto.
    intros r' E1 E2 E3 E4 E5 E6. rewrite <- app_assoc. eapply after_blocks; [exact Fb|exact E2|]. intros l.
    cbn [app after]. intros a last. unfold receive. cbn [set_last r_fzp r_rb r_last r_done].
    change ((CMD_INTERRUPT =? CMD_MESSAGE) || (CMD_INTERRUPT =? CMD_WARNING)) with false.
    change (CMD_INTERRUPT =? CMD_APPEND) with false. change (CMD_INTERRUPT =? CMD_END_FILE) with false.
    change (CMD_INTERRUPT =? CMD_INTERRUPT) with true. cbv iota.
    apply H. split; [repeat split|]. cbn [r_done]. rewrite E3. exists []. rewrite app_nil_r. split; [reflexivity|constructor].
Qed.

Theorem after_replies : forall ans qs r, Forall req_ok qs -> (forall q, In q qs -> ans_ok (ans (snd q))) -> idle r ->
  after r (replies ans qs) (Post ans qs r).
Proof.
  induction qs as [|q qs IH]; intros r Rq Aq I.
  - cbn. split; auto. exists []. rewrite app_nil_r. split; [reflexivity|constructor].
  - inversion Rq; subst. unfold replies. cbn [flat_map]. apply after_answer; auto; [apply Aq; left; auto|].
    intros r1 (I1 & vs1 & E1 & F1). eapply after_impl; [|apply IH; auto; intros; apply Aq; right; auto].
    intros r2 (I2 & vs2 & E2 & F2). split; auto. exists (vs1 ++ vs2). rewrite E2, E1, <- app_assoc. split; auto.
    change (q :: qs) with ([q] ++ qs). rewrite filter_app. apply Forall2_app; auto.
Qed.
Lemma Post_blind : forall ans qs r, blind (Post ans qs r).
Proof. intros ans qs r r' l. reflexivity. Qed.
End Recv.

Section Run.
Variables (tree : ent -> bool) (old_regular : bytes -> bool) (link_ok : bytes -> bytes -> bool)
          (open_ok : bytes -> bool) (allents : list ent) (cf : p2conf).
Notation run := (p2_run tree old_regular link_ok open_ok allents cf).
Notation next := (process_next tree old_regular link_ok open_ok allents cf).

(* A run whose messages are as expected ends as expected, unless the sending
   side fails. *)
Lemma run_after : forall l s r evs o ms P, blind P -> after tree r ms P ->
  run s r l = (evs, o) -> rcvs l = ms ++ [ok_end] -> (forall r', P r' -> r_fzp r' = None) ->
  o = Failed \/ exists s' r', o = Finished s' r' /\ P r'.
Proof.
  induction l as [|[|m] l IH]; intros s r evs o ms P B A H E N; cbn [p2_run rcvs] in *.
  - destruct ms; discriminate.
  - destruct (next s) as [[evs0 s']|]; [|inversion H; auto].
    destruct (run s' _ l) as [evs' o'] eqn:R. inversion H; subst.
    eapply IH; [exact B| |exact R|exact E|exact N]. apply after_blind; auto.
  - destruct ms as [|m0 ms]; cbn [app] in E; inversion E; subst.
    + cbn in A. unfold receive in H. cbn [ok_end] in H. rewrite (N _ A) in H. cbn in H. inversion H; subst. right. eauto.
    + cbn [after] in A. specialize (A (q_aux s) (r_last r)). rewrite set_last_id in A.
      destruct (receive tree (q_aux s) r m0) as [|r1 a1|] eqn:Rv; try contradiction.
      eapply IH; eauto.
Qed.

(* ---- the sending side does not fail of itself ---- *)

Definition encodes (c p : ent) : Prop := attribs_encode (stored_form (e_at c) (e_at p)) <> None.
Section Smooth.
Hypotheses (Ho : forall x, open_ok x = true) (Hl : forall x y, link_ok x y = true).

Lemma unchanged_smooth : forall p c, encodes c p -> fst (process_unchanged_file p c) <> P_ERROR.
Proof. intros p c H. unfold process_unchanged_file. unfold encodes in H. destruct (attribs_encode _); cbn; congruence. Qed.
Lemma new_smooth : forall p, fst (process_new p) <> P_ERROR.
Proof. intros p. unfold process_new. destruct (_ || _); discriminate. Qed.
Lemma delta_smooth : forall a c p, encodes c p ->
  fst (fst (maybe_do_delta_stuff tree old_regular link_ok open_ok allents cf a c p)) <> P_ERROR.
Proof.
  intros a c p E. unfold maybe_do_delta_stuff.
  pose proof (unchanged_smooth p c E) as U. pose proof (new_smooth p) as N.
  destruct (negb (e_cmd c =? e_cmd p)).
  - destruct (a_hm a) as [rest|]; [|exact N].
    match goal with |- context [if ?b then _ else _] => destruct b end; [|exact N].
    destruct (relink _ _ _ _ _ _ _ _) as [rl a2] eqn:R. unfold relink in R.
    destruct (get_hardlink_master allents rest c) as [o hm]. destruct o as [hb|]; [|inversion R; subst; exact N].
    destruct (negb _); [inversion R; subst; exact N|].
    destruct (set_new_datapth _ _ _) as [new a3]. destruct (negb _); [inversion R; subst; exact N|].
    rewrite Hl in R. cbn [negb] in R. inversion R; subst. cbn [fst]. apply unchanged_smooth. exact E.
  - repeat match goal with |- context [if ?b then _ else _] => destruct b end; cbn [fst]; auto.
    + discriminate.
    + unfold process_changed_file. rewrite Ho. discriminate.
Qed.
Lemma mproc_smooth : forall a c p1, (forall p, p1 = Some p -> encodes c p) ->
  fst (fst (maybe_process_file tree old_regular link_ok open_ok allents cf a c p1)) <> P_ERROR.
Proof.
  intros a c [p|] E; cbn [maybe_process_file]; [|discriminate].
  destruct (_ =? 0); [apply delta_smooth; auto|]. destruct (_ >? 0); [apply new_smooth|discriminate].
Qed.
Lemma cloop_smooth : forall cur a p1, (forall c p, In c cur -> p1 = Some p -> encodes c p) ->
  cur_loop tree old_regular link_ok open_ok allents cf a p1 cur <> None.
Proof.
  induction cur as [|c cur IH]; intros a p1 E; cbn [cur_loop]; [destruct p1; discriminate|].
  pose proof (mproc_smooth a c p1 (fun p Hp => E c p (or_introl eq_refl) Hp)) as M.
  destruct (maybe_process_file _ _ _ _ _ _ a c p1) as [[r evs] a2]. cbn [fst] in M.
  destruct r; try discriminate; [congruence|].
  specialize (IH a2 p1 (fun d p Hd Hp => E d p (or_intror Hd) Hp)).
  destruct (cur_loop _ _ _ _ _ _ a2 p1 cur) as [[[[? ?] ?] ?]|]; [discriminate|congruence].
Qed.
Definition safe (s : sst) : Prop :=
  forall c p, In c (avail s) -> In p (match q_p1 s with Some l => l | None => [] end) -> encodes c p.
Lemma next_smooth : forall s, safe s -> next s <> None.
Proof.
  intros [p1 cur cb a] S. unfold safe, avail in S. cbn [q_p1 q_cur q_cb] in S. unfold process_next. cbn [q_p1 q_cur q_cb q_aux].
  destruct p1 as [l|]; [|discriminate].
  assert (G : forall o l', (match l with p :: l2 => (Some p, Some l2, []) | [] => (None, None, [EEnd]) end) = (o, l', (match l with p :: _ => [] | [] => [EEnd] end)) ->
     forall c p, In c (match cb with Some c => [c] | None => [] end ++ match cur with Some l => l | None => [] end) -> o = Some p -> encodes c p).
  { intros o l' E c p Hc ->. apply S; auto. destruct l; inversion E; subst. left; auto. }
  destruct l as [|p l].
  - specialize (G None None eq_refl). destruct cur as [cur|]; [|discriminate].
    destruct cb as [c|].
    + cbn [maybe_process_file]. rewrite cloop_none. discriminate.
    + rewrite cloop_none. discriminate.
  - specialize (G (Some p) (Some l) eq_refl). destruct cur as [cur|]; [|discriminate].
    destruct cb as [c|].
    + pose proof (mproc_smooth a c (Some p) (fun q Hq => G c q (or_introl eq_refl) Hq)) as M.
      destruct (maybe_process_file _ _ _ _ _ _ a c (Some p)) as [[r evs] a2]. cbn [fst] in M.
      destruct r; try discriminate; [congruence|].
      pose proof (cloop_smooth cur a2 (Some p) (fun d q Hd Hq => G d q (or_intror Hd) Hq)) as C.
      destruct (cur_loop _ _ _ _ _ _ a2 (Some p) cur) as [[[[? ?] ?] ?]|]; [discriminate|congruence].
    + pose proof (cloop_smooth cur a (Some p) (fun d q Hd Hq => G d q Hd Hq)) as C.
      destruct (cur_loop _ _ _ _ _ _ a (Some p) cur) as [[[[? ?] ?] ?]|]; [discriminate|congruence].
Qed.
Notation picksn := (picks old_regular link_ok open_ok allents cf).
Lemma picks_incl : forall p av evs av', picksn p av evs av' -> incl av' av.
Proof.
  intros p av evs av' H. induction H; try apply incl_refl.
  - destruct (keeps r); [apply incl_refl|intros x Hx; right; auto].
  - intros x Hx. right. auto.
Qed.
Lemma next_safe : forall s evs s', inv allents s -> safe s -> next s = Some (evs, s') -> safe s' /\ inv allents s'.
Proof.
  intros s evs s' I S H. destruct (q_p1 s) as [[|p l]|] eqn:E.
  - destruct (next_end _ _ _ _ _ _ _ _ _ I E H) as (_ & E1 & E2 & I'). split; auto. unfold safe. rewrite E2. intros c q [].
  - destruct (next_picks _ _ _ _ _ _ _ _ _ _ _ I E H) as (P & E1 & I'). split; auto. unfold safe in *. rewrite E in S. rewrite E1.
    intros c q Hc Hq. apply S; [apply (picks_incl _ _ _ _ P); auto|right; auto].
  - destruct (next_done _ _ _ _ _ _ _ _ _ E H) as [-> ->]. auto.
Qed.
Lemma run_smooth : forall l s r evs o ms P, inv allents s -> safe s -> blind P -> after tree r ms P ->
  run s r l = (evs, o) -> rcvs l = ms ++ [ok_end] -> (forall r', P r' -> r_fzp r' = None) ->
  exists s' r', o = Finished s' r' /\ P r'.
Proof.
  induction l as [|[|m] l IH]; intros s r evs o ms P I S B A H E N; cbn [p2_run rcvs] in *.
  - destruct ms; discriminate.
  - pose proof (next_smooth s S) as NS. destruct (next s) as [[evs0 s']|] eqn:Nx; [|congruence].
    destruct (run s' _ l) as [evs' o'] eqn:R. inversion H; subst.
    destruct (next_safe _ _ _ I S Nx) as [S' I'].
    eapply IH; [exact I'|exact S'|exact B| |exact R|exact E|exact N]. apply after_blind; auto.
  - destruct ms as [|m0 ms]; cbn [app] in E; inversion E; subst.
    + cbn in A. unfold receive in H. cbn [ok_end] in H. rewrite (N _ A) in H. cbn in H. inversion H; subst. eauto.
    + cbn [after] in A. specialize (A (q_aux s) (r_last r)). rewrite set_last_id in A.
      destruct (receive tree (q_aux s) r m0) as [|r1 a1|] eqn:Rv; try contradiction.
      eapply (IH (with_aux s a1) r1 evs o ms P); try eassumption.
      destruct I as [I1 I2]. split; [exact I1|]. cbn. eapply receive_hm; eauto.
Qed.
End Smooth.

(* ---- requests ---- *)
Notation picksn := (picks old_regular link_ok open_ok allents cf).
Notation walksn := (walks old_regular link_ok open_ok allents cf).
Definition scan_ok (p : ent) : Prop := ibuf (e_path p) <> None /\ ibuf (s_datapth (e_sb p)) = None.
Definition old_ok (c : ent) : Prop := e_cmd c = CMD_FILE ->
  exists b, s_datapth (e_sb c) = mkiobuf CMD_DATAPTH (Some b) /\ relative_path_attack (CMD_DATAPTH, b) = false.
Lemma requests_app : forall a b, requests (a ++ b) = requests a ++ requests b.
Proof. induction a as [|[]]; intros; cbn; auto; f_equal; auto. Qed.
Lemma requests_del : forall l, requests (map EDeleted l) = [].
Proof. induction l; cbn; auto. Qed.
Lemma new_req : forall p r evs, scan_ok p -> new_outcome p r evs -> Forall req_ok (requests evs).
Proof.
  intros p r evs [S1 S2] H. inversion H; subst; cbn; constructor; [|constructor].
  repeat split; auto.
Qed.
Lemma decided_req : forall c p r evs, scan_ok p -> old_ok c -> decided old_regular link_ok open_ok allents cf c p r evs -> Forall req_ok (requests evs).
Proof.
  intros c p r evs Sp Oc H. destruct H as [r evs N _| | | |e E1 E2 U L1 L2 L3 P1 P2 P3 P4 P5|].
  - eapply new_req; eauto.
  - constructor.
  - constructor.
  - constructor.
  - destruct Sp as [S1 S2]. destruct (Oc E1) as (b & Eb & Nb). apply Forall_cons; [|apply Forall_nil].
    unfold req_ok, e_cmd in *. cbn [fst snd]. rewrite P1, P4.
    split; [rewrite E2; left; auto|]. split; eauto.
  - constructor.
Qed.
Lemma picks_req : forall p av evs av', scan_ok p -> Forall old_ok av -> picksn p av evs av' -> Forall req_ok (requests evs).
Proof.
  intros p av evs av' Sp F H. induction H as [r evs N|c l r evs _ N|c l r evs _ D NE|].
  - eapply new_req; eauto.
  - eapply new_req; eauto.
  - inversion F; subst. eapply decided_req; eauto.
  - inversion F; subst. cbn [requests]. auto.
Qed.
Lemma walks_req : forall p1 av evs p1' av', walksn p1 av evs p1' av' -> Forall old_ok av ->
  Forall scan_ok (match p1 with Some l => l | None => [] end) -> Forall req_ok (requests evs).
Proof.
  intros p1 av evs p1' av' H. induction H as [| |av]; intros F S.
  - constructor.
  - inversion S; subst. rewrite requests_app. apply Forall_app. split; [eapply picks_req; eauto|].
    apply IHwalks; auto. rewrite Forall_forall in *. intros x Hx. apply F. eapply picks_incl; eauto.
  - cbn [requests]. rewrite requests_del. constructor.
Qed.

(* What the server has after a complete conversation with the client. *)
Theorem conversation : forall ans p1 cur a l evs o,
  let cu := match cur with Some c => c | None => [] end in
  hm_ok allents a -> Forall scan_ok p1 -> Forall old_ok cu ->
  (forall q, In q (requests evs) -> ans_ok (ans (snd q))) ->
  run (start p1 cur a) rst0 l = (evs, o) -> rcvs l = replies ans (requests evs) ++ [ok_end] ->
  (o = Failed \/ exists s' r', o = Finished s' r' /\
     Forall2 (got ans) (filter (fun q => was_sent (ans (snd q))) (requests evs)) (r_done r')) /\
  ((forall x, open_ok x = true) -> (forall x y, link_ok x y = true) ->
   (forall c p, In c cu -> In p p1 -> encodes c p) -> o <> Failed).
Proof.
  intros ans p1 cur a l evs o cu K Sp Oc Aq H E.
  pose proof (start_inv allents p1 cur a K) as I.
  destruct (run_walks _ _ _ _ _ _ _ _ _ _ _ I H) as (p1' & av' & W & _). rewrite start_avail in W. fold cu in W.
  pose proof (walks_req _ _ _ _ _ W Oc Sp) as Rq.
  pose proof (after_replies tree ans (requests evs) rst0 Rq Aq idle0) as A.
  assert (N : forall r', Post ans (requests evs) rst0 r' -> r_fzp r' = None) by (intros r' ((? & _) & _); auto).
  split.
  - destruct (run_after _ _ _ _ _ _ _ (Post_blind ans (requests evs) rst0) A H E N) as [->|(s' & r' & -> & P)]; auto.
    right. exists s', r'. split; auto. destruct P as (_ & vs & Ev & F). cbn in Ev. rewrite Ev. exact F.
  - intros Ho Hl He. destruct (run_smooth Ho Hl _ _ _ _ _ _ _ I ltac:(exact He) (Post_blind ans (requests evs) rst0) A H E N) as (s' & r' & -> & _). discriminate.
Qed.
End Run.

(* ---- storage paths ---- *)

Lemma hand_out_snoc : forall fs d z c, hand_out d (fs ++ [(z, c)]) =
  let '(ps, d') := hand_out d fs in (ps ++ [fst (new_datapth d' z c)], snd (new_datapth d' z c)).
Proof.
  induction fs as [|[z0 c0] fs IH]; intros d z c.
  - cbn. destruct (dpth_incr d); reflexivity.
  - cbn [app hand_out]. destruct (new_datapth d z0 c0) as [p d1]. rewrite IH. destruct (hand_out d1 fs) as [ps d2]. reflexivity.
Qed.

Section Paths.
Variables (old_regular : bytes -> bool) (link_ok : bytes -> bytes -> bool)
          (open_ok : bytes -> bool) (allents : list ent) (cf : p2conf).
Notation tree := (fun _ : ent => false).
Notation run := (p2_run tree old_regular link_ok open_ok allents cf).
Notation next := (process_next tree old_regular link_ok open_ok allents cf).

(* The storage paths of the files received in full as new files. *)
Definition new_paths (vs : list recvd) : list bytes :=
  flat_map (fun v => if v_delta v then [] else [snd (msg_of (s_datapth (e_sb (v_ent v))))]) vs.
Definition opened (r : rst) : list bytes :=
  match r_fzp r with Some (false, _) => [snd (msg_of (s_datapth (e_sb (r_rb r))))] | _ => [] end.

(* n: how many paths may have been handed out. *)
Definition given_ok (d : dpth) (n : nat) (a : aux) : Prop :=
  exists fs, hand_out d fs = (a_given a, a_dp a) /\ (List.length fs <= n)%nat.
Definition tracked (a : aux) (r : rst) : Prop :=
  exists junk, Permutation (a_given a) (new_paths (r_done r) ++ opened r ++ junk).

Lemma set_new_given : forall d n a e p a', set_new_datapth tree a e = (p, a') -> given_ok d n a ->
  given_ok d (S n) a' /\ a_given a' = a_given a ++ [p].
Proof.
  intros d n a e p a' H (fs & Hf & L). unfold set_new_datapth in H.
  destruct (new_datapth (a_dp a) (compression (e_at e)) (e_cmd e)) as [q d2] eqn:N. inversion H; subst. split; auto.
  exists (fs ++ [(compression (e_at e), e_cmd e)]). rewrite hand_out_snoc, Hf. cbn [a_given a_dp]. rewrite N. split; auto.
  rewrite app_length. cbn. lia.
Qed.
Lemma given_mono : forall d n m a, (n <= m)%nat -> given_ok d n a -> given_ok d m a.
Proof. intros d n m a L (fs & H & K). exists fs. split; auto. lia. Qed.

Definition grows (d : dpth) (n : nat) (a a' : aux) : Prop :=
  given_ok d n a -> given_ok d (S n) a' /\ exists more, a_given a' = a_given a ++ more.
Lemma grows_refl : forall d n a, grows d n a a.
Proof. intros d n a H. split; [eapply given_mono; [|exact H]; lia|]. exists []. rewrite app_nil_r. auto. Qed.
Lemma relink_grows : forall d n a rest p c r a', relink tree old_regular link_ok allents a rest p c = (r, a') -> grows d n a a'.
Proof.
  intros d n a rest p c r a' H G. unfold relink in H.
  destruct (get_hardlink_master allents rest c) as [o hm].
  assert (G2 : given_ok d n (mkaux hm (a_dp a) (a_given a))) by exact G.
  destruct o as [hb|]; [|inversion H; subst; apply grows_refl in G2; exact G2].
  destruct (negb _); [inversion H; subst; apply grows_refl in G2; exact G2|].
  destruct (set_new_datapth _ _ _) as [new a2] eqn:Sn.
  destruct (set_new_given d n _ _ _ _ Sn G2) as [G3 E]. cbn in E.
  assert (R : given_ok d (S n) a2 /\ exists more, a_given a2 = a_given a ++ more) by (split; eauto).
  destruct (negb _); [inversion H; subst; exact R|]. destruct (negb _); inversion H; subst; exact R.
Qed.
Lemma delta_grows : forall d n a c p x a', maybe_do_delta_stuff tree old_regular link_ok open_ok allents cf a c p = (x, a') -> grows d n a a'.
Proof.
  intros d n a c p x a'. unfold maybe_do_delta_stuff.
  destruct (negb (e_cmd c =? e_cmd p)).
  - destruct (a_hm a) as [rest|]; [|intros H; inversion H; apply grows_refl].
    match goal with |- context [if ?b then _ else _] => destruct b end; [|intros H; inversion H; apply grows_refl].
    destruct (relink _ _ _ _ a rest p c) as [rl a2] eqn:R. pose proof (relink_grows d n _ _ _ _ _ _ R).
    destruct rl; intros H1; inversion H1; subst; auto.
  - repeat match goal with |- context [if ?b then _ else _] => destruct b end; intros H; inversion H; subst; apply grows_refl.
Qed.
Lemma mproc_grows : forall d n a c p1 x a', maybe_process_file tree old_regular link_ok open_ok allents cf a c p1 = (x, a') ->
  (fst x = P_DONE_DELETED -> a' = a) /\ grows d n a a'.
Proof.
  intros d n a c [p|] x a'; cbn [maybe_process_file]; [|intros H; inversion H; subst; split; auto; apply grows_refl].
  destruct (_ =? 0).
  - intros H. split; [|eapply delta_grows; eauto]. intros E. exfalso.
    revert H E. unfold maybe_do_delta_stuff, process_new, process_unchanged_file, changed_non_file, process_changed_file.
    repeat match goal with |- context [if ?b then _ else _] => destruct b
      | |- context [match ?b with Some _ => _ | None => _ end] => destruct b
      | |- context [match ?b with (_, _) => _ end] => destruct b as [[] ?] end; intros H; inversion H; subst; cbn; discriminate.
  - destruct (_ >? 0); intros H; inversion H; subst; split; auto; apply grows_refl.
Qed.
Lemma cloop_grows : forall d n cur a p1 evs cu cb a',
  cur_loop tree old_regular link_ok open_ok allents cf a p1 cur = Some (evs, cu, cb, a') -> grows d n a a'.
Proof.
  induction cur as [|c cur IH]; intros a p1 evs cu cb a' H; cbn [cur_loop] in H.
  - destruct p1; inversion H; subst; apply grows_refl.
  - destruct (maybe_process_file _ _ _ _ _ _ a c p1) as [[r evs0] a2] eqn:M. destruct (mproc_grows d n _ _ _ _ _ M) as [E G].
    cbn [fst] in E. destruct r; try discriminate; try (inversion H; subst; exact G).
    rewrite (E eq_refl) in *. destruct (cur_loop _ _ _ _ _ _ a p1 cur) as [[[[? ?] ?] ?]|] eqn:C; [|discriminate].
    inversion H; subst. eapply IH; eauto.
Qed.
Lemma next_grows : forall d n s evs s', next s = Some (evs, s') -> grows d n (q_aux s) (q_aux s').
Proof.
  intros d n [p1 cur cb a] evs s' H. unfold process_next in H. cbn [q_p1 q_cur q_cb q_aux] in *.
  destruct p1 as [l|]; [|inversion H; apply grows_refl].
  destruct (match l with p :: l' => (Some p, Some l', []) | [] => (None, None, [EEnd]) end) as [[p l'] e0].
  destruct cur as [cur|]; [|destruct p; inversion H; apply grows_refl].
  destruct cb as [c|].
  - destruct (maybe_process_file _ _ _ _ _ _ a c p) as [[r evs0] a2] eqn:M. destruct (mproc_grows d n _ _ _ _ _ M) as [E G].
    cbn [fst] in E. destruct r; try discriminate; try (inversion H; subst; exact G).
    rewrite (E eq_refl) in *. destruct (cur_loop _ _ _ _ _ _ a p cur) as [[[[? ?] ?] ?]|] eqn:C; [|discriminate].
    inversion H; subst. eapply cloop_grows; eauto.
  - destruct (cur_loop _ _ _ _ _ _ a p cur) as [[[[? ?] ?] ?]|] eqn:C; [|discriminate].
    inversion H; subst. eapply cloop_grows; eauto.
Qed.

Lemma new_paths_app : forall a b, new_paths (a ++ b) = new_paths a ++ new_paths b.
Proof. intros. unfold new_paths. apply flat_map_app. Qed.

Lemma perm_drop : forall (A : Type) (g x y z : list A), Permutation g (x ++ y ++ z) -> exists j, Permutation g (x ++ [] ++ j).
Proof. intros A g x y z H. exists (y ++ z). exact H. Qed.

Lemma receive_tracked : forall d n a r m r' a', receive tree a r m = STR_OK r' a' ->
  given_ok d n a -> tracked a r -> given_ok d (S n) a' /\ tracked a' r'.
Proof.
  intros d n a r [c b] r' a' H G (junk & T).
  assert (G' : given_ok d (S n) a) by (eapply given_mono; [|exact G]; lia).
  unfold receive in H.
  destruct ((c =? CMD_MESSAGE) || (c =? CMD_WARNING)); [inversion H; subst; split; auto; exists junk; auto|].
  unfold opened in T.
  destruct (r_fzp r) as [[delta data]|] eqn:Fz.
  - destruct (c =? CMD_APPEND).
    { destruct b; [discriminate|]. inversion H; subst. split; auto. exists junk. unfold opened. cbn. exact T. }
    destruct (c =? CMD_END_FILE).
    { inversion H; subst. split; auto. exists junk. unfold opened. cbn [r_fzp r_done app]. rewrite new_paths_app, <- app_assoc.
      unfold new_paths at 2. cbn. destruct delta; cbn; exact T. }
    destruct (c =? CMD_INTERRUPT); [|discriminate].
    inversion H; subst. split; auto. unfold tracked, opened. cbn [r_fzp r_done]. eapply perm_drop; eauto.
  - destruct (c =? CMD_DATAPTH).
    { destruct (relative_path_attack (c, b)); [discriminate|]. inversion H; subst. split; auto. exists junk. exact T. }
    destruct (c =? CMD_ATTRIBS).
    { destruct (attribs_decode _ _); [|discriminate]. inversion H; subst. split; auto. exists junk. exact T. }
    destruct (c =? CMD_GEN); [destruct (beqb _ _); discriminate|].
    destruct (c =? CMD_INTERRUPT).
    { inversion H; subst. split; auto. exists junk. exact T. }
    destruct (cmd_is_filedata c || cmd_is_vssdata c); [|discriminate].
    destruct (has_buf _).
    { inversion H; subst. split; auto. exists junk. exact T. }
    destruct (set_new_datapth _ a _) as [dp a2] eqn:Sn. inversion H; subst.
    destruct (set_new_given d n _ _ _ _ Sn G) as [G2 E]. split; auto.
    exists junk. rewrite E. unfold opened. cbn [r_fzp r_done r_rb e_sb s_datapth set_datapth msg_of snd ibuf app].
    cbn [app] in T. rewrite T. rewrite <- app_assoc. apply Permutation_app_head. symmetry. apply Permutation_cons_append.
Qed.
Lemma tracked_set_last : forall a r x, tracked a r -> tracked a (set_last r x).
Proof. intros a [] x H. exact H. Qed.
Lemma tracked_more : forall a a' r more, a_given a' = a_given a ++ more -> tracked a r -> tracked a' r.
Proof.
  intros a a' r more E (junk & T). exists (junk ++ more). rewrite E, T, <- !app_assoc. apply Permutation_refl.
Qed.
Lemma run_tracked : forall d l n s r evs s' r', given_ok d n (q_aux s) -> tracked (q_aux s) r ->
  run s r l = (evs, Finished s' r') -> given_ok d (n + List.length l) (q_aux s') /\ tracked (q_aux s') r'.
Proof.
  intros d. induction l as [|[|m] l IH]; intros n s r evs s' r' G T H; cbn [p2_run] in H.
  - discriminate.
  - destruct (next s) as [[evs0 s1]|] eqn:Nx; [|discriminate].
    destruct (run s1 _ l) as [evs' o'] eqn:R. inversion H; subst.
    destruct (next_grows d n _ _ _ Nx G) as [G1 [more E]].
    pose proof (tracked_set_last _ _ (last_req (r_last r) evs0) (tracked_more _ _ _ _ E T)) as T1.
    destruct (IH _ _ _ _ _ _ G1 T1 R) as [G2 T2]. split; auto. eapply given_mono; [|exact G2]. cbn. lia.
  - destruct (receive _ (q_aux s) r m) as [|r1 a1|] eqn:Rv.
    + discriminate.
    + destruct (receive_tracked d n _ _ _ _ _ Rv G T) as [G1 T1].
      destruct (IH (S n) (with_aux s a1) r1 _ _ _ G1 T1 H) as [G2 T2]. split; auto. eapply given_mono; [|exact G2]. cbn. lia.
    + inversion H; subst. split; auto. eapply given_mono; [|exact G]. cbn. lia.
Qed.

Lemma mk_text : forall d z k, okd d -> cview (dpth_mk d z k) = dpth_mk d z k.
Proof.
  intros d z k (A & B & C). unfold dpth_mk. rewrite !FrameProofs.fmt_04X_small by (unfold is_u16 in *; lia).
  rewrite (cview_four _ _ A). f_equal. cbn [app cview]. f_equal.
  change (slash =? 0) with false. cbv iota. f_equal. 
  rewrite (cview_four _ _ B). f_equal. cbn [app cview]. 
  change (slash =? 0) with false. cbv iota. f_equal. 
  rewrite (cview_four _ _ C). f_equal. destruct (_ && _); reflexivity.
Qed.
Lemma handed_text : forall fs d, okd d -> steps_ok (pred (List.length fs)) d -> Forall (fun p => cview p = p) (fst (hand_out d fs)).
Proof.
  intros fs d Hd Hs. destruct (hand_out_increasing fs d Hd Hs) as (ts & F & _).
  induction F as [|p t ps ts (d' & z & k & O & _ & ->)]; constructor; auto. apply mk_text; auto.
Qed.

Lemma nodup_front : forall (A : Type) (a b : list A), NoDup (a ++ b) -> NoDup a.
Proof.
  induction a as [|x a IH]; intros b H; [constructor|]. inversion H; subst. constructor; [|eapply IH; eauto].
  intros I. apply H2. apply in_or_app. auto.
Qed.
Lemma map_fix : forall l, Forall (fun p => cview p = p) l -> map cview l = l.
Proof. intros l F. induction F as [|? ? F1 F2 IH]; cbn; auto. rewrite F1, IH. auto. Qed.

(* In whatever order things happen, no two files received in full are stored in
   one place. *)
Theorem new_paths_distinct : forall p1 cur hm d l evs s' r', okd d -> steps_ok (pred (List.length l)) d ->
  run (start p1 cur (mkaux hm d [])) rst0 l = (evs, Finished s' r') -> NoDup (map cview (new_paths (r_done r'))).
Proof.
  intros p1 cur hm d l evs s' r' Hd Hs H.
  assert (G0 : given_ok d 0 (q_aux (start p1 cur (mkaux hm d [])))) by (exists []; cbn; auto).
  assert (T0 : tracked (q_aux (start p1 cur (mkaux hm d []))) rst0) by (exists []; apply Permutation_refl).
  destruct (run_tracked d l 0 _ _ _ _ _ G0 T0 H) as [(fs & Hf & L) (junk & T)].
  assert (Hs' : steps_ok (pred (List.length fs)) d).
  { cbn in L. assert (L' : (pred (List.length fs) <= pred (List.length l))%nat) by lia.
    clear -L' Hs. induction L'; auto. apply IHL'. apply steps_ok_weaken. auto. }
  pose proof (hand_out_distinct fs d Hd Hs') as N. pose proof (handed_text fs d Hd Hs') as X. rewrite Hf in N, X. cbn [fst] in *.
  assert (E : map cview (new_paths (r_done r')) = new_paths (r_done r')).
  { assert (F : Forall (fun p => cview p = p) (new_paths (r_done r'))).
    { rewrite Forall_forall in *. intros p Hp. apply X. eapply Permutation_in; [apply Permutation_sym; exact T|]. apply in_or_app. auto. }
    apply map_fix. exact F. }
  rewrite E. eapply nodup_front. eapply Permutation_NoDup; [exact T|exact N].
Qed.
End Paths.

(* ---- the new manifest ---- *)

Section Sub.
Variable R : iobuf -> iobuf -> Prop.
Notation ss := (StronglySorted R).
Lemma ss_map : forall (A : Type) (f : A -> iobuf) l, StronglySorted (fun a b => R (f a) (f b)) l <-> ss (map f l).
Proof.
  induction l as [|x l IH]; [split; constructor|]. cbn [map]. split; intros H; inversion H as [|? ? H1 H2]; subst; constructor; try tauto.
  - rewrite Forall_map. exact H2.
  - rewrite Forall_map in H2. exact H2.
Qed.
Definition rp (q : bool * ent) : iobuf := e_path (snd q).
Lemma written_in : forall evs e, In e (written evs) -> In e (handled evs).
Proof. induction evs as [|[] evs IH]; cbn; intros x H; auto. destruct H; auto. Qed.
Lemma requests_in : forall evs q, In q (requests evs) -> In (snd q) (handled evs).
Proof. induction evs as [|[] evs IH]; cbn; intros x H; auto. destruct H as [<-|H]; auto. Qed.
Lemma handled_in : forall evs e, In e (handled evs) -> In e (written evs) \/ exists d, In (d, e) (requests evs).
Proof.
  induction evs as [|[] evs IH]; cbn; intros x H; auto.
  - destruct H as [->|H]; auto. destruct (IH _ H); auto.
  - destruct H as [->|H]; eauto. destruct (IH _ H) as [|[d ?]]; eauto.
Qed.
Lemma ss_written : forall evs, ss (map e_path (handled evs)) -> ss (map e_path (written evs)).
Proof.
  induction evs as [|[k e|c|d e|] evs IH]; cbn; intros H; auto; [|inversion H; subst; auto].
  inversion H as [|? ? H1 H2]; subst. rewrite Forall_map in H2. rewrite Forall_forall in H2.
  constructor; auto. rewrite Forall_map, Forall_forall. intros y Hy. apply H2. apply written_in. auto.
Qed.
Lemma ss_requests : forall evs, ss (map e_path (handled evs)) -> ss (map rp (requests evs)).
Proof.
  induction evs as [|[k e|c|d e|] evs IH]; cbn; intros H; auto; [inversion H; subst; auto|].
  inversion H as [|? ? H1 H2]; subst. rewrite Forall_map in H2. rewrite Forall_forall in H2.
  constructor; auto. rewrite Forall_map, Forall_forall. intros y Hy. apply H2. apply requests_in. auto.
Qed.
Lemma ss_filter : forall (A : Type) (g : A -> iobuf) f l, ss (map g l) -> ss (map g (filter f l)).
Proof.
  induction l as [|x l IH]; cbn; intros H; auto. inversion H as [|? ? H1 H2]; subst. destruct (f x); auto.
  cbn. constructor; auto. rewrite Forall_map, Forall_forall in *. intros y Hy. apply filter_In in Hy. apply H2. tauto.
Qed.
Lemma wr_apart : forall evs, ss (map e_path (handled evs)) ->
  forall e q, In e (written evs) -> In q (requests evs) -> R (e_path e) (rp q) \/ R (rp q) (e_path e).
Proof.
  induction evs as [|[k x|c|d x|] evs IH]; cbn; intros H e q He Hq; auto; [contradiction| |];
    inversion H as [|? ? H1 H2]; subst; rewrite Forall_map, Forall_forall in H2.
  - destruct He as [->|He]; auto. left. apply H2. apply requests_in. auto.
  - destruct Hq as [<-|Hq]; auto. right. apply H2. apply written_in. auto.
Qed.
Lemma filter_apart : forall (A : Type) (g : A -> iobuf) f l, ss (map g l) ->
  forall x y, In x (filter f l) -> In y (filter (fun q => negb (f q)) l) -> R (g x) (g y) \/ R (g y) (g x).
Proof.
  induction l as [|z l IH]; cbn; intros H x y Hx Hy; [contradiction|].
  inversion H as [|? ? H1 H2]; subst. rewrite Forall_map, Forall_forall in H2.
  destruct (f z); cbn in Hx, Hy.
  - destruct Hx as [->|Hx]; auto. left. apply H2. apply filter_In in Hy. tauto.
  - destruct Hy as [->|Hy]; auto. right. apply H2. apply filter_In in Hx. tauto.
Qed.
End Sub.

Definition manifest_of (evs : list ev) (r : rst) : list sbuf :=
  phase3 (map e_sb (written evs)) (map (fun v => e_sb (v_ent v)) (r_done r)).

Lemma got_paths : forall ans qs vs, Forall2 (got ans) qs vs -> map (fun v => s_path (e_sb (v_ent v))) vs = map rp qs.
Proof.
  intros ans qs vs F. induction F as [|q v qs vs G F IH]; cbn; auto. rewrite IH. f_equal.
  unfold got in G. destruct (ans (snd q)); try contradiction. destruct G as (_ & _ & G & _). exact G.
Qed.

(* Scan, old manifest and answers in, new manifest out: in order, one entry for
   each scanned path but those the client was asked for and did not send. *)
Theorem new_manifest : forall tree old_regular link_ok open_ok allents cf ans p1 cur a l evs s' r',
  hm_ok allents a -> Forall scan_ok p1 -> Forall old_ok (match cur with Some c => c | None => [] end) ->
  well p1 -> sorted p1 ->
  (forall q, In q (requests evs) -> ans_ok (ans (snd q))) ->
  p2_run tree old_regular link_ok open_ok allents cf (start p1 cur a) rst0 l = (evs, Finished s' r') ->
  In EEnd evs -> rcvs l = replies ans (requests evs) ++ [ok_end] ->
  StronglySorted ent_lt (manifest_of evs r') /\
  forall x, In x (map s_path (manifest_of evs r')) <->
    In x (map e_path p1) /\
    ~ exists q, In q (requests evs) /\ e_path (snd q) = x /\ was_sent (ans (snd q)) = false.
Proof.
  intros tree old_regular link_ok open_ok allents cf ans p1 cur a l evs s' r' K Sp Oc W S Aq H I E.
  destruct (each_once _ _ _ _ _ _ _ _ _ _ _ _ _ K H) as (rest & Ho & Hr). rewrite (Hr I), app_nil_r in Ho.
  destruct (conversation _ _ _ _ _ _ ans _ _ _ _ _ _ K Sp Oc Aq H E) as [[X|(s2 & r2 & X & F)] _]; [discriminate|].
  inversion X; subst s2 r2. clear X.
  apply got_paths in F.
  set (sent := fun q : bool * ent => was_sent (ans (snd q))) in *.
  assert (SS : StronglySorted entry_lt (map e_path (handled evs))).
  { rewrite Ho. apply (proj1 (ss_map entry_lt _ e_path _)). exact S. }
  assert (Raw : forall e, In e (map e_path (handled evs)) -> iraw e).
  { rewrite Ho. destruct W as [W _]. rewrite Forall_map, Forall_forall in W. intros e He. apply in_map_iff in He. destruct He as (p & <- & Hp). apply W; auto. }
  assert (Irr : forall x y, In x (map e_path (handled evs)) -> entry_lt x y \/ entry_lt y x -> ~ entry_eq x y).
  { intros x y Hx Hl [E1 E2]. pose proof (Raw _ Hx) as Rx. apply (entry_lt_irrefl x Rx).
    unfold entry_lt in *. rewrite <- E1, <- E2 in Hl. tauto. }
  pose proof (ss_written _ _ SS) as Sw. pose proof (ss_requests _ _ SS) as Sr.
  pose proof (ss_filter _ _ rp sent _ Sr) as Sf.
  assert (Hw : forall e, In e (written evs) -> In (e_path e) (map e_path (handled evs))).
  { intros e He. apply in_map. apply written_in. auto. }
  assert (Hq : forall q, In q (requests evs) -> In (rp q) (map e_path (handled evs))).
  { intros q Q. unfold rp. apply in_map. apply requests_in. auto. }
  assert (Pd : map s_path (map (fun v => e_sb (v_ent v)) (r_done r')) = map rp (filter sent (requests evs))).
  { rewrite map_map. exact F. }
  assert (P : forall x, In x (map s_path (manifest_of evs r')) <->
              In x (map e_path (written evs)) \/ In x (map rp (filter sent (requests evs)))).
  { intros x. unfold manifest_of. rewrite <- Pd.
    pose proof (Permutation_map s_path (phase3_permutation (map e_sb (written evs)) (map (fun v => e_sb (v_ent v)) (r_done r')))) as PP.
    split; intros Hx.
    - apply (Permutation_in _ PP) in Hx. rewrite map_app, map_map in Hx. apply in_app_or in Hx. exact Hx.
    - apply (Permutation_in _ (Permutation_sym PP)). rewrite map_app, map_map. apply in_or_app. exact Hx. }
  split.
  - apply phase3_no_duplicates.
    + assert (IN : forall x, In x (map e_sb (written evs) ++ map (fun v => e_sb (v_ent v)) (r_done r')) -> In (s_path x) (map e_path p1)).
      { intros x Hx. rewrite <- Ho. apply in_app_or in Hx. destruct Hx as [Hx|Hx].
        - apply in_map_iff in Hx. destruct Hx as (e & <- & He). apply Hw. auto.
        - apply (in_map s_path) in Hx. rewrite Pd in Hx. apply in_map_iff in Hx. destruct Hx as (q & <- & Q).
          apply Hq. apply filter_In in Q. tauto. }
      destruct W as [W1 W2]. rewrite Forall_map, Forall_forall in W1. split.
      * rewrite Forall_forall. intros x Hx. apply IN in Hx. apply in_map_iff in Hx. destruct Hx as (p & <- & Hp). apply W1. auto.
      * destruct W2 as [W2|W2]; [left|right]; intros x Hx; apply IN in Hx; apply in_map_iff in Hx; destruct Hx as (p & <- & Hp); apply W2; apply in_map; auto.
    + apply (proj2 (ss_map entry_lt _ s_path _)). rewrite map_map. exact Sw.
    + apply (proj2 (ss_map entry_lt _ s_path _)). rewrite Pd. exact Sf.
    + intros u c Hu Hc. apply in_map_iff in Hu. destruct Hu as (e & <- & He).
      apply (in_map s_path) in Hc. rewrite Pd in Hc. apply in_map_iff in Hc. destruct Hc as (q & Eq & Q). apply filter_In in Q.
      unfold ent_eq. rewrite <- Eq. apply Irr; [apply Hw; auto|]. apply (wr_apart _ _ SS); tauto.
  - intros x. rewrite P, <- Ho. split.
    + intros [Hx|Hx]; apply in_map_iff in Hx.
      * destruct Hx as (e & <- & He). split; [auto|]. intros (q & Q & Eq & _).
        apply (Irr (e_path e) (e_path e)); [auto| |split; reflexivity].
        pose proof (wr_apart _ _ SS e q He Q) as A. unfold rp in A. rewrite Eq in A. tauto.
      * destruct Hx as (q & <- & Q). assert (Q' := Q). apply filter_In in Q'. destruct Q' as [Q1 Q2]. split; [auto|].
        intros (q' & Q' & Eq & N). apply (Irr (rp q) (rp q)); [auto| |split; reflexivity].
        assert (Q3 : In q' (filter (fun q => negb (sent q)) (requests evs))).
        { apply filter_In. split; auto. unfold sent. rewrite N. reflexivity. }
        pose proof (filter_apart _ _ rp sent _ Sr q q' Q Q3) as A. change (rp q' = rp q) in Eq. rewrite Eq in A. tauto.
    + intros [Hx N]. apply in_map_iff in Hx. destruct Hx as (e & <- & He). apply handled_in in He.
      destruct He as [He|[d He]]; [left; apply in_map; auto|]. right.
      apply in_map_iff. exists (d, e). split; auto. apply filter_In. split; auto. unfold sent.
      destruct (was_sent (ans (snd (d, e)))) eqn:Es; auto. exfalso. apply N. exists (d, e). auto.
Qed.

(* ---- consequences and exceptions ---- *)

(* An entry counted as the same was carried over from an unmodified entry, or
   reuses the data of the former master of a hard link. *)
Theorem same_only_if : forall tree old_regular link_ok open_ok allents cf p1 cur a r l evs o e,
  hm_ok allents a -> well (p1 ++ match cur with Some c => c | None => [] end) ->
  sorted p1 -> sorted (match cur with Some c => c | None => [] end) ->
  p2_run tree old_regular link_ok open_ok allents cf (start p1 cur a) r l = (evs, o) ->
  In (EWrite CSame e) evs ->
  exists p c, In p p1 /\ In c (match cur with Some c => c | None => [] end) /\ same c p /\
    ((unmodified cf c p /\ carried c p e) \/ former_link allents old_regular link_ok c p e).
Proof.
  intros tree old_regular link_ok open_ok allents cf p1 cur a r l evs o e K W S1 S2 H I.
  destruct (fates _ _ _ _ _ _ _ _ _ _ _ _ _ K W S1 S2 H) as (dn & rest & E & _ & F).
  assert (M : In (EWrite CSame e) (mains evs)) by (apply filter_In; auto).
  clear I H. subst p1.
  assert (G : exists p, In p dn /\ fate old_regular link_ok open_ok allents cf (match cur with Some c => c | None => [] end) p (EWrite CSame e)).
  { clear -F M. induction F as [|p x dn m Fx F IH]; [contradiction|]. destruct M as [->|M].
    - exists p. split; [left; auto|exact Fx].
    - destruct (IH M) as (q & Q & R). exists q. split; [right; auto|exact R]. }
  destruct G as (p & Hp & [(c & r0 & Hc & Sm & D & _)|(_ & r0 & N)]); [|inversion N].
  exists p, c. split; [apply in_or_app; auto|]. split; auto. split; auto.
  inversion D as [r1 e1 N| | | | |]; subst; auto. inversion N.
Qed.

(* Small entries for the exceptions and for the examples. *)
Definition eat (m c sz comp sl : Z) : attrs := mkattrs 1 2 33188 1 0 0 0 sz 4096 8 m m c 0 comp 0 sl 0.
Definition attr_iobuf (x : attrs) : iobuf := mkiobuf CMD_ATTRIBS (attribs_encode x).
(* An entry of a scan. *)
Definition sc (k : Z) (p : bytes) (x : attrs) : ent :=
  mkent (mksbuf (mkiobuf k (Some p)) (attr_iobuf x) iobuf_empty iobuf_empty iobuf_empty false false) x.
(* A file of an old manifest. *)
Definition of (k : Z) (p d en : bytes) (x : attrs) : ent :=
  mkent (mksbuf (mkiobuf k (Some p)) (attr_iobuf x) iobuf_empty (mkiobuf CMD_END_FILE (Some en))
                (mkiobuf CMD_DATAPTH (Some d)) false false) x.
Definition hl (p t : bytes) (x : attrs) : ent :=
  mkent (mksbuf (mkiobuf CMD_HARD_LINK (Some p)) (attr_iobuf x) (mkiobuf CMD_HARD_LINK (Some t)) iobuf_empty iobuf_empty false false) x.
Definition nix : p2conf := mkp2conf false true 0.
Definition no_tree (e : ent) : bool := false.
Definition yes1 (x : bytes) : bool := true.
Definition yes2 (x y : bytes) : bool := true.
Definition d0 : dpth := mkdpth 0 0 0 30000.

Lemma ent_raw : forall l, Forall (fun e => cstrb (match ibuf (e_path e) with Some b => b | None => [] end) = true /\
    kind_of (e_cmd e) <> KTrail) l -> well l.
Proof.
  intros l F. split.
  - rewrite Forall_map, Forall_forall in *. intros e He. destruct (F e He) as [C _]. unfold iraw, e_path in *.
    apply cstrb_ok in C. destruct (ibuf (s_path (e_sb e))); auto. apply cstr_raw. exact C.
  - left. rewrite Forall_forall in F. intros x Hx. apply in_map_iff in Hx. destruct Hx as (e & <- & He). apply (F e He).
Qed.

(* C17: a file that is also in the scan is counted as deleted (and as new) when
   its type has changed. *)
Lemma deleted_also_scanned : exists p1 cur l evs s r,
  well (p1 ++ cur) /\ sorted p1 /\ sorted cur /\
  p2_run no_tree yes1 yes2 yes1 cur nix (start p1 (Some cur) (mkaux (Some cur) d0 [])) rst0 l = (evs, Going s r) /\
  In EEnd evs /\ exists p c, In p p1 /\ In c cur /\ same c p /\ In (EDeleted c) evs /\ In (EWrite CNew p) evs.
Proof.
  set (p := sc CMD_DIRECTORY (str "/a") (eat 5 5 0 0 0)). set (c := of CMD_FILE (str "/a") (str "0000/0000/0000") (str "0:x") (eat 5 5 0 0 0)).
  exists [p], [c], [Snd; Snd]. eexists. eexists. eexists.
  split; [apply ent_raw; repeat constructor; discriminate|]. split; [repeat constructor|]. split; [repeat constructor|].
  split; [vm_compute; reflexivity|]. split; [cbn; auto|]. exists p, c. split; [left; auto|]. split; [left; auto|].
  split; [split; reflexivity|]. split; [right; right; left; reflexivity|left; reflexivity].
Qed.

(* A client that says it has finished before it was told that there is nothing
   left ends the phase with scanned entries not dealt with. *)
Lemma early_end : exists p1 l s r,
  p2_run no_tree yes1 yes2 yes1 [] nix (start p1 None (mkaux None d0 [])) rst0 l = ([], Finished s r) /\ p1 <> [] /\
  manifest_of [] r = [].
Proof.
  exists [sc CMD_DIRECTORY (str "/a") (eat 5 5 0 0 0)], [Rcv ok_end]. eexists. eexists.
  split; [vm_compute; reflexivity|]. split; [discriminate|reflexivity].
Qed.

(* C18: another size and change time, and the file is taken to be unmodified. *)
Lemma same_though_changed : exists c p e,
  e_cmd c = CMD_FILE /\ e_cmd p = CMD_FILE /\ st_size (e_at c) <> st_size (e_at p) /\ st_ctime (e_at c) <> st_ctime (e_at p) /\
  compression (e_at c) <> compression (e_at p) /\
  fst (maybe_do_delta_stuff no_tree yes1 yes2 yes1 [] nix (mkaux None d0 []) c p) = (P_DONE_UNCHANGED, [EWrite CSame e]).
Proof.
  exists (of CMD_FILE (str "/a") (str "0000/0000/0000.gz") (str "9:x") (eat 5 5 9 9 0)), (sc CMD_FILE (str "/a") (eat 5 6 10 0 0)).
  eexists. do 2 (split; [reflexivity|]). do 3 (split; [discriminate|]). vm_compute. reflexivity.
Qed.

(* C18: the former hard link reuses the master's data but not the record of how
   that data is stored. *)
Lemma former_link_form : exists h c p e new,
  e_cmd h = CMD_ENC_FILE /\ compression (e_at h) = 0 /\ salt (e_at h) = 77 /\
  fst (maybe_do_delta_stuff no_tree yes1 yes2 yes1 [h; c] nix (mkaux (Some [h; c]) d0 []) c p) = (P_DONE_UNCHANGED, [EWrite CSame e]) /\
  s_datapth (e_sb e) = mkiobuf CMD_DATAPTH (Some new) /\ s_endfile (e_sb e) = s_endfile (e_sb h) /\
  compression (e_at e) = 9 /\ salt (e_at e) = 0.
Proof.
  exists (of CMD_ENC_FILE (str "/a.gz") (str "0000/0000/0000") (str "9:x") (eat 5 5 9 0 77)), (hl (str "/b.gz") (str "/a.gz") (eat 5 5 9 9 0)),
    (sc CMD_ENC_FILE (str "/b.gz") (eat 5 5 9 0 88)).
  eexists. eexists. split; [reflexivity|]. split; [reflexivity|]. split; [reflexivity|].
  split; [vm_compute; reflexivity|]. vm_compute. repeat split; reflexivity.
Qed.
