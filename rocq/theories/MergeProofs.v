(* Specification and proofs about merging and trimming manifests (C16, C45). *)
From Coq Require Import Permutation Sorted.
From Verif Require Import Bytes PathcmpModel PathcmpProofs CmdModel CmdProofs FrameModel FrameProofs SbufModel SbufProofs MergeModel.

(* Spec: the order of manifest entries by path and kind. *)
Definition ent_lt (a b : sbuf) : Prop := entry_lt (s_path a) (s_path b).
Definition ent_eq (a b : sbuf) : Prop := entry_eq (s_path a) (s_path b).
Definition ent_le (a b : sbuf) : Prop := ent_lt a b \/ ent_eq a b.

(* Unix manifests have no trailing VSS data, Windows ones no metadata (C05). *)
Definition nomix (l : list sbuf) : Prop :=
  (forall x, In x l -> kind_of (icmd (s_path x)) <> KTrail) \/
  (forall x, In x l -> kind_of (icmd (s_path x)) <> KMeta).
Definition ents_ok (l : list sbuf) : Prop := Forall (fun x => iraw (s_path x)) l /\ nomix l.

Lemma ents_ok_pair : forall l a b, ents_ok l -> In a l -> In b l ->
  (sbuf_pathcmp a b < 0 <-> ent_lt a b) /\ (sbuf_pathcmp a b = 0 <-> ent_eq a b) /\
  (sbuf_pathcmp a b > 0 <-> ent_lt b a).
Proof.
  intros l a b [R N] Ha Hb. rewrite Forall_forall in R.
  assert (U : unmixed (s_path a) (s_path b) /\ unmixed (s_path b) (s_path a)).
  { unfold unmixed. destruct N as [N|N]; pose proof (N a Ha); pose proof (N b Hb); tauto. }
  destruct U as [U1 U2].
  destruct (entry_cmp_spec _ _ (R a Ha) (R b Hb) U1) as (L & E & S).
  destruct (entry_cmp_spec _ _ (R b Hb) (R a Ha) U2) as (L2 & _ & S2).
  unfold sbuf_pathcmp, ent_lt, ent_eq. split; [exact L|]. split; [exact E|].
  rewrite <- L2. lia.
Qed.

Lemma ent_lt_trans : forall l a b c, ents_ok l -> In a l -> In b l -> In c l -> ent_lt a b -> ent_lt b c -> ent_lt a c.
Proof.
  intros l a b c [R _] Ha Hb Hc. rewrite Forall_forall in R. unfold ent_lt.
  apply entry_lt_trans; apply R; auto.
Qed.
Lemma ent_lt_irrefl : forall l a, ents_ok l -> In a l -> ~ ent_lt a a.
Proof. intros l a [R _] Ha. rewrite Forall_forall in R. apply entry_lt_irrefl. apply R; auto. Qed.
Lemma ent_eq_lt : forall a b c, ent_eq a b -> ent_lt b c -> ent_lt a c.
Proof. unfold ent_eq, ent_lt, entry_eq, entry_lt. intros a b c [E R] H. rewrite E, R. exact H. Qed.
Lemma ent_lt_eq : forall a b c, ent_lt a b -> ent_eq b c -> ent_lt a c.
Proof. unfold ent_eq, ent_lt, entry_eq, entry_lt. intros a b c H [E R]. rewrite <- E, <- R. exact H. Qed.
Lemma ent_eq_sym : forall a b, ent_eq a b -> ent_eq b a.
Proof. unfold ent_eq, entry_eq. intuition congruence. Qed.
Lemma ent_eq_trans : forall a b c, ent_eq a b -> ent_eq b c -> ent_eq a c.
Proof. unfold ent_eq, entry_eq. intuition congruence. Qed.
Lemma ent_eq_refl : forall a, ent_eq a a. Proof. split; reflexivity. Qed.
Lemma ent_le_trans : forall l a b c, ents_ok l -> In a l -> In b l -> In c l -> ent_le a b -> ent_le b c -> ent_le a c.
Proof.
  unfold ent_le. intros l a b c O Ha Hb Hc [H|H] [G|G].
  - left. eapply ent_lt_trans with (l := l) (b := b); eauto.
  - left. eapply ent_lt_eq; eauto.
  - left. eapply ent_eq_lt; eauto.
  - right. eapply ent_eq_trans; eauto.
Qed.

Lemma phase3_nil_l : forall cs, phase3 [] cs = cs.
Proof. induction cs; cbn; auto. f_equal. exact IHcs. Qed.
Lemma phase3_cons : forall u us c cs, phase3 (u :: us) (c :: cs) =
  (if sbuf_pathcmp u c =? 0 then c :: phase3 (u :: us) cs
   else if sbuf_pathcmp u c <? 0 then u :: phase3 us (c :: cs) else c :: phase3 (u :: us) cs).
Proof. reflexivity. Qed.
Lemma phase3_nil_r : forall us, phase3 us [] = us.
Proof. induction us; cbn; auto. f_equal. exact IHus. Qed.

(* Nothing lost, nothing invented. *)
Theorem phase3_permutation : forall us cs, Permutation (phase3 us cs) (us ++ cs).
Proof.
  induction us as [|u us IH]; intros cs.
  - rewrite phase3_nil_l. reflexivity.
  - induction cs as [|c cs IHc].
    + rewrite phase3_nil_r, app_nil_r. reflexivity.
    + rewrite phase3_cons.
      assert (M : Permutation (c :: phase3 (u :: us) cs) ((u :: us) ++ c :: cs)).
      { rewrite IHc. apply Permutation_middle. }
      destruct (sbuf_pathcmp u c =? 0); auto. destruct (sbuf_pathcmp u c <? 0); auto.
      cbn. constructor. apply IH.
Qed.

(* Sorted input gives sorted output. *)
Theorem phase3_sorted : forall us cs, ents_ok (us ++ cs) ->
  StronglySorted ent_le us -> StronglySorted ent_le cs -> StronglySorted ent_le (phase3 us cs).
Proof.
  intros us cs O. remember (us ++ cs) as all eqn:Ea.
  assert (Iu : incl us all) by (subst; apply incl_appl, incl_refl).
  assert (Ic : incl cs all) by (subst; apply incl_appr, incl_refl).
  clear Ea. revert cs Iu Ic.
  induction us as [|u us IH]; intros cs Iu Ic Su Sc; [rewrite phase3_nil_l; auto|].
  induction cs as [|c cs IHc]; [rewrite phase3_nil_r; auto|].
  rewrite phase3_cons.
  inversion Su as [|? ? Su' Fu]; subst. inversion Sc as [|? ? Sc' Fc]; subst.
  assert (Hu : In u all) by (apply Iu; left; auto). assert (Hc : In c all) by (apply Ic; left; auto).
  destruct (ents_ok_pair all u c O Hu Hc) as (L & E & G).
  assert (Ic' : incl cs all) by (intros x Hx; apply Ic; right; auto).
  assert (Iu' : incl us all) by (intros x Hx; apply Iu; right; auto).
  rewrite Forall_forall in Fu, Fc.
  assert (TakeC : ent_le c u -> StronglySorted ent_le (c :: phase3 (u :: us) cs)).
  { intros Hle. constructor; [apply IHc; auto|]. apply Forall_forall. intros x Hx.
    apply (Permutation_in _ (phase3_permutation (u :: us) cs)) in Hx. apply in_app_or in Hx.
    destruct Hx as [[<-|Hx]|Hx]; auto.
    apply (ent_le_trans all c u x); auto. }
  destruct (Z.eqb_spec (sbuf_pathcmp u c) 0) as [E0|N0]; [apply TakeC; right; apply ent_eq_sym, E; auto|].
  destruct (Z.ltb_spec (sbuf_pathcmp u c) 0) as [L0|G0].
  - constructor; [apply IH; auto|]. apply Forall_forall. intros x Hx.
    apply (Permutation_in _ (phase3_permutation us (c :: cs))) in Hx. apply in_app_or in Hx.
    destruct Hx as [Hx|[<-|Hx]]; auto; [left; apply L; auto|].
    apply (ent_le_trans all u c x); auto. left. apply L; auto.
  - apply TakeC. left. apply G. lia.
Qed.

(* With no entry in both lists, nothing appears twice. *)
Theorem phase3_no_duplicates : forall us cs, ents_ok (us ++ cs) ->
  StronglySorted ent_lt us -> StronglySorted ent_lt cs ->
  (forall u c, In u us -> In c cs -> ~ ent_eq u c) ->
  StronglySorted ent_lt (phase3 us cs).
Proof.
  intros us cs O Su Sc D.
  assert (SS : StronglySorted ent_le (phase3 us cs)).
  { apply phase3_sorted; auto.
    - clear - Su. induction Su; constructor; auto. eapply Forall_impl; [|exact H]. left; auto.
    - clear - Sc. induction Sc; constructor; auto. eapply Forall_impl; [|exact H]. left; auto. }
  (* pairwise distinct in a permutation-invariant way *)
  remember (us ++ cs) as all eqn:Ea.
  assert (Iu : incl us all) by (subst; apply incl_appl, incl_refl).
  assert (Ic : incl cs all) by (subst; apply incl_appr, incl_refl).
  clear Ea SS. revert cs Iu Ic Su Sc D.
  induction us as [|u us IH]; intros cs Iu Ic Su Sc D; [rewrite phase3_nil_l; auto|].
  induction cs as [|c cs IHc]; [rewrite phase3_nil_r; auto|].
  rewrite phase3_cons.
  inversion Su as [|? ? Su' Fu]; subst. inversion Sc as [|? ? Sc' Fc]; subst.
  assert (Hu : In u all) by (apply Iu; left; auto). assert (Hc : In c all) by (apply Ic; left; auto).
  destruct (ents_ok_pair all u c O Hu Hc) as (L & E & G).
  assert (Ic' : incl cs all) by (intros x Hx; apply Ic; right; auto).
  assert (Iu' : incl us all) by (intros x Hx; apply Iu; right; auto).
  rewrite Forall_forall in Fu, Fc.
  destruct (Z.eqb_spec (sbuf_pathcmp u c) 0) as [E0|N0]; [exfalso; apply (D u c); cbn; auto; apply E; auto|].
  destruct (Z.ltb_spec (sbuf_pathcmp u c) 0) as [L0|G0].
  - constructor; [apply IH; auto; intros; apply D; cbn; auto|]. apply Forall_forall. intros x Hx.
    apply (Permutation_in _ (phase3_permutation us (c :: cs))) in Hx. apply in_app_or in Hx.
    destruct Hx as [Hx|[<-|Hx]]; auto; [apply L; auto|].
    apply (ent_lt_trans all u c x); auto. apply L; auto.
  - constructor; [apply IHc; auto; intros; apply D; cbn; auto|]. apply Forall_forall. intros x Hx.
    apply (Permutation_in _ (phase3_permutation (u :: us) cs)) in Hx. apply in_app_or in Hx.
    assert (ent_lt c u) by (apply G; lia).
    destruct Hx as [[<-|Hx]|Hx]; auto.
    apply (ent_lt_trans all c u x); auto.
Qed.

(* An entry in both lists appears twice, although each list has it once. *)
Theorem phase3_duplicates : exists us cs, ents_ok (us ++ cs) /\
  StronglySorted ent_lt us /\ StronglySorted ent_lt cs /\
  exists a b, phase3 us cs = [a; b] /\ ent_eq a b.
Proof.
  set (e1 := entry_sbuf (EPlain CMD_DIRECTORY (str "A") (str "/a"))).
  set (e2 := entry_sbuf (EPlain CMD_DIRECTORY (str "B") (str "/a"))).
  exists [e1], [e2].
  assert (R : raw (str "/a")) by (apply cstr_raw, cstrb_ok; reflexivity).
  split; [split; [apply Forall_cons; [exact R|apply Forall_cons; [exact R|apply Forall_nil]]
                 |left; intros x [<-|[<-|[]]]; discriminate]|].
  split; [apply SSorted_cons; [apply SSorted_nil|apply Forall_nil]|].
  split; [apply SSorted_cons; [apply SSorted_nil|apply Forall_nil]|].
  exists e2, e1. split; [reflexivity|split; reflexivity].
Qed.

(* ---- file to file ---- *)

Lemma perm_map_inv : forall (A B : Type) (f : A -> B) l l', Permutation (map f l) l' -> exists m, l' = map f m /\ Permutation l m.
Proof.
  intros A B f l l' H. apply Permutation_sym in H.
  destruct (Permutation_map_inv _ _ H) as (m & E & P). eauto.
Qed.

Theorem phase3_manifest : forall eu ec o, Forall wf_entry eu -> Forall wf_entry ec -> noerr o ->
  exists es w, Permutation (eu ++ ec) es /\
    phase3 (map entry_sbuf eu) (map entry_sbuf ec) = map entry_sbuf es /\
    write_entries (phase3 (map entry_sbuf eu) (map entry_sbuf ec)) = (w, true) /\
    read_entries file_next (S (List.length es)) 4 (mkf w o) = (map entry_sbuf es, Clean).
Proof.
  intros eu ec o Wu Wc No.
  pose proof (phase3_permutation (map entry_sbuf eu) (map entry_sbuf ec)) as P.
  rewrite <- map_app in P. apply Permutation_sym in P. apply perm_map_inv in P. destruct P as (es & E & P).
  assert (W : Forall wf_entry es).
  { eapply Permutation_Forall; [exact P|]. apply Forall_app; auto. }
  destruct (entries_roundtrip es o W No) as (w & Ew & Er).
  exists es, w. rewrite E. auto.
Qed.

(* ---- deletions ---- *)

Lemma delete_nil_r : forall ms, delete_entries ms [] = ms.
Proof. induction ms; cbn; auto. f_equal. exact IHms. Qed.
Lemma delete_nil_l : forall ds, delete_entries [] ds = [].
Proof. induction ds; cbn; auto. Qed.
Lemma delete_cons : forall m ms d ds, delete_entries (m :: ms) (d :: ds) =
  (if sbuf_pathcmp m d =? 0 then delete_entries ms ds
   else if sbuf_pathcmp m d <? 0 then m :: delete_entries ms (d :: ds) else delete_entries (m :: ms) ds).
Proof. reflexivity. Qed.

(* Spec of "what is left". *)
Inductive remains (ds : list sbuf) : list sbuf -> list sbuf -> Prop :=
| rem_nil : remains ds [] []
| rem_keep : forall m ms r, (forall d, In d ds -> ~ ent_eq m d) -> remains ds ms r -> remains ds (m :: ms) (m :: r)
| rem_drop : forall m ms r d, In d ds -> ent_eq m d -> remains ds ms r -> remains ds (m :: ms) r.

Lemma remains_skip : forall ds d ms r, (forall m, In m ms -> ~ ent_eq m d) -> remains ds ms r -> remains (d :: ds) ms r.
Proof.
  intros ds d ms r N H. induction H.
  - constructor.
  - constructor; [|apply IHremains; intros; apply N; right; auto].
    intros d' [<-|Hd]; auto. apply N. left; auto.
  - eapply rem_drop; [right; exact H|auto|]. apply IHremains. intros; apply N; right; auto.
Qed.
Lemma remains_none : forall ds ms, (forall m d, In m ms -> In d ds -> ~ ent_eq m d) -> remains ds ms ms.
Proof.
  induction ms; intros H; constructor.
  - intros d Hd. apply H; auto. left; auto.
  - apply IHms. intros; apply H; auto. right; auto.
Qed.

Theorem delete_exact : forall ms ds, ents_ok (ms ++ ds) ->
  StronglySorted ent_lt ms -> StronglySorted ent_le ds ->
  remains ds ms (delete_entries ms ds).
Proof.
  intros ms ds O. remember (ms ++ ds) as all eqn:Ea.
  assert (Im : incl ms all) by (subst; apply incl_appl, incl_refl).
  assert (Id : incl ds all) by (subst; apply incl_appr, incl_refl).
  clear Ea. revert ds Im Id.
  induction ms as [|m ms IH]; intros ds Im Id Sm Sd; [rewrite delete_nil_l; constructor|].
  induction ds as [|d ds IHd]; [rewrite delete_nil_r; apply remains_none; intros ? ? ? []|].
  rewrite delete_cons.
  inversion Sm as [|? ? Sm' Fm]; subst. inversion Sd as [|? ? Sd' Fd]; subst.
  assert (Hm : In m all) by (apply Im; left; auto). assert (Hd : In d all) by (apply Id; left; auto).
  assert (Im' : incl ms all) by (intros x Hx; apply Im; right; auto).
  assert (Id' : incl ds all) by (intros x Hx; apply Id; right; auto).
  destruct (ents_ok_pair all m d O Hm Hd) as (L & E & G).
  rewrite Forall_forall in Fm, Fd.
  destruct (Z.eqb_spec (sbuf_pathcmp m d) 0) as [E0|N0].
  - apply E in E0. eapply rem_drop; [left; reflexivity|exact E0|].
    apply remains_skip; [|apply IH; auto].
    intros x Hx Ex. apply (ent_lt_irrefl all m O Hm). eapply ent_lt_eq; [apply (Fm x Hx)|].
    eapply ent_eq_trans; [exact Ex|apply ent_eq_sym; auto].
  - destruct (Z.ltb_spec (sbuf_pathcmp m d) 0) as [L0|G0].
    + apply L in L0. constructor; [|apply IH; auto].
      intros x [<-|Hx] Ex.
      * apply (ent_lt_irrefl all m O Hm). eapply ent_lt_eq; [exact L0|apply ent_eq_sym; auto].
      * apply (ent_lt_irrefl all m O Hm).
        destruct (Fd x Hx) as [Fx|Fx].
        -- apply (ent_lt_trans all m d m); auto. eapply ent_lt_eq; [exact Fx|apply ent_eq_sym; auto].
        -- eapply ent_lt_eq; [exact L0|]. eapply ent_eq_trans; [exact Fx|apply ent_eq_sym; auto].
    + assert (ent_lt d m) as Ldm by (apply G; lia).
      apply remains_skip; [|apply IHd; auto].
      intros x [<-|Hx] Ex.
      * apply (ent_lt_irrefl all d O Hd). eapply ent_lt_eq; eauto.
      * apply (ent_lt_irrefl all d O Hd). apply (ent_lt_trans all d m d); auto.
        eapply ent_lt_eq; [apply (Fm x Hx)|auto].
Qed.

(* The relation determines the result. *)
Theorem remains_functional : forall ds ms r r', remains ds ms r -> remains ds ms r' -> r = r'.
Proof.
  intros ds ms r r' H. revert r'. induction H; intros r' H'; inversion H'; subst; auto.
  - f_equal. auto.
  - exfalso. eapply H; eauto.
  - exfalso. eapply H4; eauto.
Qed.
