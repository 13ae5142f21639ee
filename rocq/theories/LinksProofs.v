(* What a stop at any moment of a deletion or a finalisation leaves behind, and that
   the next requests put it right; and the cases where they never do. *)
From Verif Require Import Bytes LinksModel.

(* ---------- specification ---------- *)

(* c is the newest of the backups listed. *)
Definition newest (s : st) (c : Z) : Prop := listed s c = true /\ forall j, listed s j = true -> j <= c.

(* current leads to the newest backup, or there is neither. *)
Definition right_current (s : st) : Prop :=
  match cur s with
  | None => forall j, listed s j = false
  | Some c => newest s c
  end.

(* Nothing is left over (but maybe an unfinished backup). *)
Definition settled (s : st) : Prop := fin s = None /\ ctmp s = None /\ right_current s.

(* The neighbours of a backup in the list: /repo/src/server/bu_get.c:103-121 *)
Definition is_prev (s : st) (i : Z) (p : option Z) : Prop :=
  match p with
  | None => forall j, listed s j = true -> i <= j
  | Some q => listed s q = true /\ q < i /\ forall j, listed s j = true -> j < i -> j <= q
  end.
Definition is_next (s : st) (i : Z) (n : option Z) : Prop :=
  match n with
  | None => forall j, listed s j = true -> j <= i
  | Some q => listed s q = true /\ i < q /\ forall j, listed s j = true -> i < j -> q <= j
  end.

(* What may happen to the directory of a client, request after request, each of
   them stopped anywhere.  After the check the request is only served when the check
   is happy and had nothing to finish: /repo/src/server/run_action.c:525-604.
   any: whether deletions may be stopped anywhere; else those of the only backup,
   and those of the newest during an unfinished backup, run to the end. *)
Inductive event (any : Prop) : st -> st -> Prop :=
| ev_check s arch d s' : In s' (fst (check arch d s)) -> event any s s'
| ev_delete s arch d s1 id p n s' :
    fin s = None -> snd (check arch d s) = true -> s1 = endst (fst (check arch d s)) s ->
    listed s1 id = true -> is_prev s1 id p -> is_next s1 id n ->
    In s' (fst (delete_backup id p n s1)) ->
    any \/ s' = endst (fst (delete_backup id p n s1)) s1 \/ (n = None -> p <> None /\ work s1 = None) ->
    event any s s'
| ev_begin s arch d s1 w s' :
    fin s = None -> snd (check arch d s) = true -> s1 = endst (fst (check arch d s)) s ->
    work s1 = None -> (forall j, dirs s1 j <> None -> j < w) -> cur s1 <> Some w ->
    In s' (fst (begin_backup w s1)) -> event any s s'
| ev_finish s d arch s1 w s' :
    fin s = None -> snd (check arch d s) = true -> s1 = endst (fst (check arch d s)) s ->
    work s1 = Some w -> dirs s1 w = Some true ->
    In s' (fst (andthen start_finish (finish arch w) s1)) -> event any s s'.

Inductive later (any : Prop) : st -> st -> Prop :=
| later_refl s : later any s s
| later_step s t u : later any s t -> event any t u -> later any s u.

(* The directory of a new client. *)
Definition nothing : st :=
  mkst None None None None (fun _ => None) (fun _ => false) false false false false.

(* What must be there: backups that have got as far as finishing, less those whose
   deletion was begun. *)
Inductive kept : (Z -> Prop) -> st -> Prop :=
| k_new : kept (fun _ => False) nothing
| k_check K s arch d s' : kept K s -> In s' (fst (check arch d s)) -> kept K s'
| k_delete K s arch d s1 id p n s' :
    kept K s ->
    fin s = None -> snd (check arch d s) = true -> s1 = endst (fst (check arch d s)) s ->
    listed s1 id = true -> is_prev s1 id p -> is_next s1 id n ->
    In s' (fst (delete_backup id p n s1)) ->
    s' = endst (fst (delete_backup id p n s1)) s1 \/ (n = None -> p <> None /\ work s1 = None) ->
    kept (fun k => K k /\ k <> id) s'
| k_begin K s arch d s1 w s' :
    kept K s ->
    fin s = None -> snd (check arch d s) = true -> s1 = endst (fst (check arch d s)) s ->
    work s1 = None -> (forall j, dirs s1 j <> None -> j < w) -> cur s1 <> Some w ->
    In s' (fst (begin_backup w s1)) -> kept K s'
| k_finish K s d arch s1 w s' :
    kept K s ->
    fin s = None -> snd (check arch d s) = true -> s1 = endst (fst (check arch d s)) s ->
    work s1 = Some w -> dirs s1 w = Some true ->
    In s' (fst (andthen start_finish (finish arch w) s1)) -> kept (fun k => K k \/ k = w) s'.

(* ---------- the invariant ---------- *)

Definition wkok (s : st) : Prop :=
  forall w, work s = Some w -> cur s <> Some w /\ (forall j, dirs s j <> None -> j <= w).
Definition InvA (K : Z -> Prop) s :=
  fin s = None /\ ctmp s = None /\ right_current s /\ (forall k, K k -> listed s k = true).
Definition InvB (K : Z -> Prop) s :=
  fin s = None /\ work s = None /\ (exists t, ctmp s = Some t /\ dirs s t <> None) /\
  (exists c, cur s = Some c) /\ right_current s /\ (forall k, K k -> listed s k = true).
Definition InvC (K : Z -> Prop) s :=
  fin s = None /\ work s = None /\ (exists t, ctmp s = Some t /\ newest s t) /\
  valid s (cur s) = false /\ (forall k, K k -> listed s k = true).
Definition InvD (K : Z -> Prop) s :=
  exists f, fin s = Some f /\ work s = None /\ ctmp s = None /\ dirs s f = Some true /\
  (forall j, dirs s j <> None -> j <= f) /\
  (forall c, cur s = Some c -> c < f /\ (dirs s c <> None \/ dup s = true) /\ (dup s = true -> hl s c = false)) /\
  (forall k, K k -> k = f \/ dirs s k = Some true \/ (cur s = Some k /\ dup s = true)).
Definition Inv (K : Z -> Prop) s := wkok s /\ (InvA K s \/ InvB K s \/ InvC K s \/ InvD K s).

Ltac um := unfold look, andthen, step, ok, fail, endst; cbn [fst snd last app].

Lemma listed_none s i : fin s = None -> work s = None -> listed s i = match dirs s i with Some true => true | _ => false end.
Proof.
  intros F W. unfold listed. rewrite F, W. cbn. destruct (dirs s i) as [[]|]; auto. rewrite Bool.orb_true_r. auto.
Qed.

Lemma listed_dirs s i : listed s i = true -> dirs s i = Some true.
Proof. unfold listed. destruct (dirs s i) as [[]|]; congruence. Qed.

Lemma valid_iff s c : valid s (Some c) = true <-> dirs s c <> None.
Proof. cbn. destruct (dirs s c); split; congruence. Qed.

(* setters *)
Lemma listed_s_dir_none s i j : listed (s_dir i None s) j = if j =? i then false else listed s j.
Proof. unfold listed, s_dir; cbn. destruct (j =? i); auto. Qed.

Ltac inv H := inversion H; subst; clear H.

Lemma checkA (K : Z -> Prop) s arch d s1 : wkok s -> InvA K s -> In s1 (fst (check arch d s)) \/ s1 = s -> wkok s1 /\ InvA K s1.
Proof.
  intros W (F&C&R&KK) [H| ->]; [|repeat split; auto; apply (W _ H) || (destruct (W _ H); auto)].
  unfold check in H. um. unfold look in H. rewrite F in H.
  destruct (work s) as [w|] eqn:EW; [|rewrite C in H; destruct H].
  destruct (W _ EW) as [W1 W2].
  assert (LW : listed s w = false).
  { unfold listed. rewrite EW. cbn. rewrite Z.eqb_refl. cbn.
    destruct (points (cur s) w) eqn:P; [|destruct (dirs s w) as [[]|]; auto].
    unfold points in P. destruct (cur s); [|discriminate P]. apply Z.eqb_eq in P. subst. congruence. }
  assert (Hd : forall s', s' = s_dir w None s \/ s' = s_work None (s_dir w None s) \/ (dirs s w = None /\ s' = s_work None s) ->
     wkok s' /\ InvA K s').
  { intros s' HS.
    assert (L : forall j, listed s' j = listed s j).
    { intros j. unfold listed.
      destruct HS as [->|[->|[DN ->]]]; cbn; rewrite ?EW, ?F; cbn.
      - destruct (Z.eqb_spec j w) as [->|].
        * pose proof LW as LW'. unfold listed in LW'. rewrite EW, F in LW'. cbn in LW'. rewrite Z.eqb_refl in LW'. cbn in LW'. rewrite ?Z.eqb_refl. auto.
        * cbn. auto.
      - destruct (Z.eqb_spec j w) as [->|].
        * pose proof LW as LW'. unfold listed in LW'. rewrite EW, F in LW'. cbn in LW'. rewrite Z.eqb_refl in LW'. cbn in LW'. rewrite ?Z.eqb_refl. auto.
        * cbn. auto.
      - destruct (Z.eqb_spec j w) as [->|]; auto. rewrite DN. auto. }
    assert (cur s' = cur s /\ fin s' = None /\ ctmp s' = None) as (c1&c2&c3) by (destruct HS as [->|[->|[DN ->]]]; auto).
    split.
    - intros w' Hw. rewrite c1. destruct HS as [->|[->|[DN ->]]]; cbn in *; try discriminate Hw.
      rewrite EW in Hw. inv Hw. split; auto. intros j. destruct (j =? w'); [congruence|auto].
    - repeat split; auto.
      + unfold right_current in *. rewrite c1. destruct (cur s).
        * split; [rewrite L; apply R|intros j; rewrite L; apply R].
        * intros j; rewrite L; apply R.
      + intros k Hk. rewrite L. auto. }
  destruct (valid s (Some w)) eqn:V.
  - destruct d; cbn in H.
    + destruct H as [<-|[<-|[]]]; apply Hd; auto.
    + destruct H.
    + destruct H.
  - cbn in H. destruct H as [<-|[]]. apply Hd. right; right. split; auto.
    cbn in V. destruct (dirs s w); congruence.
Qed.

Lemma wk_none s : work s = None -> wkok s.
Proof. intros E w H. congruence. Qed.
#[local] Hint Resolve wk_none : core.

Lemma renamed_ctmp (K : Z -> Prop) s t : fin s = None -> work s = None -> ctmp s = Some t -> newest s t ->
  (forall k, K k -> listed s k = true) ->
  Forall (Inv K) (fst (rename_ctmp s)) /\ snd (rename_ctmp s) = true /\ InvA K (endst (fst (rename_ctmp s)) s).
Proof.
  intros F W C [N1 N2] KK. unfold rename_ctmp. um.
  assert (L : forall a b j, listed (s_cur a (s_ctmp b s)) j = listed s j).
  { intros. rewrite !listed_none; auto. }
  assert (A : InvA K (s_cur (ctmp s) (s_ctmp None (s_cur None s)))).
  { repeat split; auto.
    - unfold right_current. cbn. rewrite C. split.
      + rewrite listed_none by auto. cbn. rewrite listed_none in N1 by auto. auto.
      + intros j. rewrite listed_none by auto. cbn. specialize (N2 j). rewrite listed_none in N2 by auto. auto.
    - intros k Hk. rewrite listed_none by auto. cbn. specialize (KK k Hk). rewrite listed_none in KK by auto. auto. }
  split; [|split; [auto|exact A]].
  constructor; [|constructor; [|constructor]].
  - split; [apply wk_none; auto|]. right; right; left. repeat split; auto.
    + exists t. split; [auto|]. split.
      * rewrite listed_none by auto. rewrite listed_none in N1 by auto. auto.
      * intros j. rewrite listed_none by auto. specialize (N2 j). rewrite listed_none in N2 by auto. auto.
    + intros k Hk. rewrite listed_none by auto. specialize (KK k Hk). rewrite listed_none in KK by auto. auto.
  - split; [apply wk_none; auto|auto].
Qed.

Lemma newest_valid s c : newest s c -> dirs s c <> None.
Proof. intros [H _]. apply listed_dirs in H. congruence. Qed.

Lemma unlinked_ctmp (K : Z -> Prop) s : InvB K s -> InvA K (s_ctmp None s).
Proof.
  intros (F&W&_&_&R&KK). repeat split; auto.
Qed.

Lemma checkBC (K : Z -> Prop) s arch d : InvB K s \/ InvC K s ->
  Forall (Inv K) (fst (check arch d s)) /\ snd (check arch d s) = true /\ InvA K (endst (fst (check arch d s)) s).
Proof.
  intros H.
  assert (exists t, fin s = None /\ work s = None /\ ctmp s = Some t /\ dirs s t <> None) as (t&F&W&C&V).
  { destruct H as [(F&W&(t&C&V)&_)|(F&W&(t&C&N)&_)]; exists t; auto using newest_valid. }
  assert (V' : valid s (ctmp s) = true) by (rewrite C; apply valid_iff; auto).
  unfold check, look. rewrite F, W, C. unfold recover_currenttmp, look. rewrite V'. cbn [negb].
  destruct H as [B|(_&_&(t'&C'&N)&VC&KK)].
  - pose proof B as (_&_&_&(c&Ec)&R&_). rewrite Ec.
    assert (VC : valid s (Some c) = true) by (apply valid_iff, newest_valid; unfold right_current in R; rewrite Ec in R; auto).
    rewrite VC. um. pose proof (unlinked_ctmp K s B). repeat split; try apply H. constructor; [|constructor].
    split; [apply wk_none; auto|auto].
  - assert (t' = t) by congruence. subst. destruct (cur s) eqn:Ec; [rewrite VC|]; apply (renamed_ctmp K s t); auto.
Qed.

(* finalising *)
Lemma D_log (K : Z -> Prop) s l g : InvD K s -> InvD K (s_log l g s).
Proof. intros (f&H). exists f. exact H. Qed.
Lemma D_hl (K : Z -> Prop) s f b : fin s = Some f -> InvD K s -> InvD K (s_hl f b s).
Proof.
  intros F (f'&E&H). assert (f' = f) by congruence. subst. exists f. split; [exact E|]. cbn.
  destruct H as (W&C&Df&Dj&Dc&DK). repeat split; auto; try apply Dc; auto.
  intros Hd. destruct (Dc c H) as (?&_&?). destruct (Z.eqb_spec c f); [lia|auto].
Qed.
Lemma D_Inv (K : Z -> Prop) s : InvD K s -> Inv K s.
Proof. intros (f&H). split; [apply wk_none; apply H|]. right; right; right. exists f. auto. Qed.

Lemma last_cons {A} (l : list A) : forall x s, last (x :: l) s = last l x.
Proof. induction l as [|y l IH]; intros x s; [auto|]. change (last (y :: l) s = last (y :: l) x). rewrite !IH. auto. Qed.
Lemma endst_app l1 l2 s : endst (l1 ++ l2) s = endst l2 (endst l1 s).
Proof.
  unfold endst. revert s. induction l1 as [|x l IH]; intros s; [auto|]. cbn [app]. rewrite !last_cons. apply IH.
Qed.

(* A run from a state: all states on the way satisfy I, it succeeds, and the last satisfies Q. *)
Definition goes (I : st -> Prop) (r : run) (Q : st -> Prop) (s : st) : Prop :=
  Forall I (fst (r s)) /\ snd (r s) = true /\ Q (endst (fst (r s)) s).
Lemma goes_then (I : st -> Prop) r1 r2 (Q R : st -> Prop) s :
  goes I r1 Q s -> (forall s', Q s' -> goes I r2 R s') -> goes I (andthen r1 r2) R s.
Proof.
  intros (A&B&C) H. destruct (H _ C) as (A2&B2&C2). unfold goes, andthen.
  destruct (r1 s) as [l o]. cbn [fst snd] in *. subst o. destruct (r2 (endst l s)) as [l2 o2]. cbn [fst snd] in *.
  repeat split; auto. { apply Forall_app; auto. } rewrite endst_app; auto.
Qed.
Lemma goes_step (I : st -> Prop) f (Q : st -> Prop) s : I (f s) -> Q (f s) -> goes I (step f) Q s.
Proof. intros; split; [constructor; auto|split; auto]. Qed.
Lemma goes_ok (I : st -> Prop) (Q : st -> Prop) s : Q s -> goes I ok Q s.
Proof. intros; split; [constructor|split; auto]. Qed.
Lemma goes_weaken (I : st -> Prop) (Q R : st -> Prop) r s : goes I r Q s -> (forall s', Q s' -> R s') -> goes I r R s.
Proof. intros (A&B&C) H; repeat split; auto. Qed.
Lemma goes_look (I : st -> Prop) (Q : st -> Prop) k s : goes I (k s) Q s -> goes I (look k) Q s.
Proof. auto. Qed.

(* ready to be renamed: everything is where it should be *)
Definition ready (K : Z -> Prop) f s := InvD K s /\ fin s = Some f /\ (forall k, K k -> k = f \/ dirs s k = Some true).

Lemma phase4_goes (K : Z -> Prop) s arch f : InvD K s -> fin s = Some f -> goes (Inv K) (phase4 arch f) (ready K f) s.
Proof.
  intros D F. apply goes_look.
  pose proof D as (f'&F'&W&C&Df&Dj&Dc&DK). assert (f' = f) by congruence. subst f'.
  destruct (cur s) as [c|] eqn:Ec.
  2:{ apply goes_step; [apply D_Inv, D_hl; auto|]. split; [apply D_hl; auto|]. split; auto.
      intros k Hk. destruct (DK k Hk) as [|[|[? _]]]; auto. discriminate. }
  destruct (Dc c eq_refl) as (Cf&Cd&Ch).
  cbv zeta. destruct (valid s (Some c) && hl s c) eqn:HL.
  { apply andb_prop in HL as [_ HL].
    apply goes_step; [apply D_Inv, D_hl; auto|]. split; [apply D_hl; auto|]. split; auto.
    intros k Hk. destruct (DK k Hk) as [|[|[E1 E2]]]; auto. rewrite Ch in HL; auto. discriminate. }
  assert (HL' : hl s c = false).
  { destruct Cd as [Cd|Cd]; [|auto]. rewrite (proj2 (valid_iff s c) Cd) in HL. exact HL. }
  apply goes_then with (Q := fun s' => InvD K s' /\ fin s' = Some f /\ cur s' = Some c /\ dup s' = true).
  { apply goes_look. destruct (dup s) eqn:Ed; [apply goes_ok; auto|].
    assert (X : forall a b, a = true \/ a = dup s -> InvD K (s_dup a b s)).
    { intros a b Ha. exists f. cbn. rewrite Ec. repeat apply conj; auto.
      - intros c0 H. injection H as <-. repeat apply conj; auto.
        destruct Ha; subst; auto. rewrite Ed in *. auto.
      - intros k Hk. destruct (DK k Hk) as [|[|[E1 E2]]]; auto. congruence. }
    apply goes_then with (Q := fun s' => exists b, s' = s_dup false b s).
    { destruct (duptmp s) eqn:Et.
      - apply goes_step; [apply D_Inv, X; auto|eauto].
      - apply goes_ok. exists false. destruct s; cbn in *; subst; auto. }
    intros s' (b&->).
    apply goes_then with (Q := fun s' => s' = s_dup false true s).
    { apply goes_step; [|auto]. apply D_Inv. apply (X false true); auto. }
    intros s' ->. apply goes_look. cbn.
    destruct (dirs s c) as [v|] eqn:Ev; [|destruct Cd; congruence].
    apply goes_step; [apply D_Inv; apply (X true false); auto|]. split; [apply (X true false); auto|auto]. }
  intros s1 (D1&F1&C1&P1).
  apply goes_then with (Q := fun s' => InvD K s' /\ fin s' = Some f /\ cur s' = Some c /\ dup s' = true).
  { apply goes_step; [apply D_Inv, D_hl; auto|]. split; [apply D_hl; auto|auto]. }
  clear s1 D1 F1 C1 P1. intros s1 (D1&F1&C1&P1).
  assert (Y : forall s' b, b = None \/ b = Some false -> InvD K s' -> fin s' = Some f -> cur s' = Some c -> dup s' = true -> InvD K (s_dir c b s')).
  { clear - Cf. intros s' b Hb (f'&F'&W&C&Df&Dj&Dc&DK) F1 C1 P1. assert (f' = f) by congruence. subst f'.
    exists f. cbn. repeat split; auto; try (apply Dc; auto).
    - destruct (Z.eqb_spec f c); [lia|auto].
    - intros j. destruct (Z.eqb_spec j c); [lia|auto].
    - intros k Hk. destruct (DK k Hk) as [|[|[E1 E2]]]; auto.
      destruct (Z.eqb_spec k c); [subst; auto|auto]. }
  apply goes_then with (Q := fun s' => InvD K s' /\ fin s' = Some f /\ cur s' = Some c /\ dup s' = true).
  { apply goes_look. destruct (dirs s1 c); [|apply goes_ok; auto].
    apply goes_then with (Q := fun s' => InvD K s' /\ fin s' = Some f /\ cur s' = Some c /\ dup s' = true);
    [|intros s2 (D2&F2&C2&P2)];
    (apply goes_step; [apply D_Inv; apply Y; auto|split; [apply Y; auto|auto]]). }
  clear s1 D1 F1 C1 P1. intros s1 (D1&F1&C1&P1).
  assert (Z0 : ready K f (s_dup false false (s_dir c (Some true) s1))).
  { clear - Cf D1 F1 C1 P1. destruct D1 as (f'&F'&W&C&Df&Dj&Dc&DK). assert (f' = f) by congruence. subst f'.
    assert (KF : forall k, K k -> k = f \/ (if k =? c then Some true else dirs s1 k) = Some true).
    { intros k Hk. destruct (DK k Hk) as [|[|[E1 E2]]]; auto; destruct (Z.eqb_spec k c); auto. congruence. }
    split; [|split; auto]. exists f. cbn. repeat split; auto.
    - destruct (Z.eqb_spec f c); auto.
    - intros j. destruct (Z.eqb_spec j c); [lia|auto].
    - assert (c0 = c) by congruence. lia.
    - assert (c0 = c) by congruence. subst. rewrite Z.eqb_refl. left; congruence.
    - discriminate.
    - intros k Hk. destruct (KF k Hk); auto. }
  apply goes_step; [|exact Z0]. apply D_Inv, Z0.
Qed.

Lemma rename_goes (K : Z -> Prop) s f : ready K f s -> goes (Inv K) rename_fin (fun s' => InvA K s' /\ cur s' = Some f) s.
Proof.
  intros ((f'&F'&W&C&Df&Dj&Dc&DK)&F&KF). assert (f' = f) by congruence. subst f'.
  apply goes_look.
  apply goes_then with (Q := fun s' => s' = s_cur None s).
  { apply goes_step; [|auto]. apply D_Inv. exists f. cbn. repeat split; auto; try discriminate.
    intros k Hk. destruct (KF k Hk); auto. }
  intros s' ->.
  assert (A : InvA K (s_cur (fin s) (s_fin None (s_cur None s)))).
  { assert (L : forall j, listed (s_cur (fin s) (s_fin None (s_cur None s))) j = match dirs s j with Some true => true | _ => false end).
    { intros j. rewrite listed_none; auto. }
    repeat split; auto.
    - unfold right_current. replace (cur (s_cur (fin s) (s_fin None (s_cur None s)))) with (Some f) by (symmetry; exact F). split; [rewrite L, Df; auto|]. intros j. rewrite L. intros. apply Dj.
      destruct (dirs s j); congruence.
    - intros k Hk. rewrite L. destruct (KF k Hk) as [-> | ->]; [rewrite Df|]; auto. }
  apply goes_step; [split; [apply wk_none; auto|auto]|split; auto].
Qed.

Lemma finish_goes (K : Z -> Prop) s arch f : InvD K s -> fin s = Some f -> goes (Inv K) (finish arch f) (fun s' => InvA K s' /\ cur s' = Some f) s.
Proof.
  intros D F. eapply goes_then; [apply phase4_goes; auto|]. intros; apply rename_goes; auto.
Qed.

Lemma ready_log (K : Z -> Prop) f s l g : ready K f s -> ready K f (s_log l g s).
Proof. intros (A&B&C). split; [apply D_log; auto|auto]. Qed.

Lemma recover_goes (K : Z -> Prop) s arch f : InvD K s -> fin s = Some f -> gz s = false ->
  goes (Inv K) (recover_finishing arch f) (fun s' => InvA K s' /\ cur s' = Some f) s.
Proof.
  intros D F G. unfold recover_finishing.
  apply goes_then with (Q := fun s' => InvD K s' /\ fin s' = Some f).
  { apply goes_look. rewrite G. destruct (lg s); [apply goes_ok; auto|].
    apply goes_step; [apply D_Inv|split; [|auto]]; apply D_log; auto. }
  intros s1 (D1&F1). eapply goes_then; [apply phase4_goes; auto|].
  intros s2 R2.
  apply goes_then with (Q := ready K f); [apply goes_step; [apply D_Inv|]; apply (ready_log _ _ _ true true R2)|].
  intros s3 R3.
  apply goes_then with (Q := ready K f); [apply goes_step; [apply D_Inv|]; apply (ready_log _ _ _ false true R3)|].
  intros s4 R4. apply rename_goes; auto.
Qed.

(* With log.gz there, the first request only puts the log back. *)
Lemma recover_gz (K : Z -> Prop) s arch f : InvD K s -> fin s = Some f -> gz s = true ->
  Forall (Inv K) (fst (recover_finishing arch f s)) /\ InvD K (endst (fst (recover_finishing arch f s)) s) /\
  fin (endst (fst (recover_finishing arch f s)) s) = Some f /\ gz (endst (fst (recover_finishing arch f s)) s) = false.
Proof.
  intros D F G.
  assert (E : exists l, fix_log s = (l, false) /\ (l = [s_log true false s] \/ l = [s_log true true s; s_log true false (s_log true true s)])).
  { unfold fix_log. um. rewrite G. destruct (lg s); eexists; split; try reflexivity; auto. }
  destruct E as (l&E&Hl).
  assert (E2 : recover_finishing arch f s = (l, false)) by (unfold recover_finishing; unfold andthen at 1; rewrite E; auto).
  rewrite E2. cbn [fst].
  destruct Hl as [->| ->];
    (split; [repeat apply Forall_cons; try apply Forall_nil; apply D_Inv; repeat apply D_log; auto|]);
    (split; [repeat apply D_log; auto|auto]).
Qed.

Lemma check_inv (K : Z -> Prop) s arch d : Inv K s -> Forall (Inv K) (fst (check arch d s)).
Proof.
  intros [W [A|[B|[C|D]]]].
  - apply Forall_forall. intros x Hx. destruct (checkA K s arch d x W A) as [W1 A1]; auto. split; auto.
  - apply checkBC; auto.
  - apply checkBC; auto.
  - pose proof D as (f&F&_). unfold check, look. rewrite F. destruct (gz s) eqn:G.
    + apply (recover_gz K s arch f D F G).
    + apply (recover_goes K s arch f D F G).
Qed.

Lemma endst_in l s : In (endst l s) l \/ endst l s = s.
Proof.
  unfold endst. induction l as [|x l IH]; [auto|]. destruct l; [cbn; auto|].
  change (last (x :: s0 :: l) s) with (last (s0 :: l) s). destruct IH; [left; right|right]; auto.
Qed.

Lemma check_done (K : Z -> Prop) s arch d : Inv K s -> fin s = None -> snd (check arch d s) = true ->
  wkok (endst (fst (check arch d s)) s) /\ InvA K (endst (fst (check arch d s)) s).
Proof.
  intros [W [A|[B|[C|(f&F&_)]]]] F0 S0.
  - apply (checkA K s arch d); auto. apply endst_in.
  - pose proof (checkBC K s arch d (or_introl B)) as (H1&_&H2). split; auto.
    destruct (endst_in (fst (check arch d s)) s) as [HI|HI].
    + rewrite Forall_forall in H1. apply (proj1 (H1 _ HI)).
    + rewrite HI. auto.
  - pose proof (checkBC K s arch d (or_intror C)) as (H1&_&H2). split; auto.
    destruct (endst_in (fst (check arch d s)) s) as [HI|HI].
    + rewrite Forall_forall in H1. apply (proj1 (H1 _ HI)).
    + rewrite HI. auto.
  - congruence.
Qed.

(* deletions *)
Definition less (K : Z -> Prop) (id : Z) : Z -> Prop := fun k => K k /\ k <> id.

Lemma wk_gone s id : wkok s -> wkok (s_dir id None s).
Proof.
  intros W w E. destruct (W w E) as [H1 H2]. split; auto. intros j. cbn. destruct (j =? id); [congruence|auto].
Qed.

Lemma delete_inv (K : Z -> Prop) s id p n : wkok s -> InvA K s -> listed s id = true -> is_prev s id p -> is_next s id n ->
  (forall s', In s' (fst (delete_backup id p n s)) ->
    s' = endst (fst (delete_backup id p n s)) s \/ (n = None -> p <> None /\ work s = None) -> Inv (less K id) s') /\
  InvA (less K id) (endst (fst (delete_backup id p n s)) s) /\
  snd (delete_backup id p n s) = true.
Proof.
  intros W (F&C&R&KK) L P N.
  unfold right_current in R.
  destruct (cur s) as [c|] eqn:Ec; [|rewrite R in L; discriminate].
  destruct R as [R1 R2].
  destruct n as [n|].
  - (* not the newest *)
    assert (id < c) by (destruct N as (N1&N2&_); specialize (R2 n N1); lia).
    cbn [delete_backup]. um.
    assert (A : InvA (less K id) (s_dir id None s)).
    { repeat split; auto.
      - unfold right_current. cbn. rewrite Ec. split.
        + rewrite listed_s_dir_none. destruct (Z.eqb_spec c id); [lia|auto].
        + intros j. rewrite listed_s_dir_none. destruct (j =? id); [discriminate|auto].
      - intros k [Hk Hn]. rewrite listed_s_dir_none. destruct (Z.eqb_spec k id); [congruence|auto]. }
    split; [|split; [exact A|auto]]. intros s' [<-|[]] _. split; [apply wk_gone; auto|left; exact A].
  - (* the newest *)
    assert (c = id) by (cbn in N; specialize (N c R1); specialize (R2 id L); lia). subst c.
    destruct p as [p|].
    + destruct P as (P1&P2&P3).
      assert (NP : forall x, listed (s_dir id None (s_ctmp x s)) p = true /\ forall j, listed (s_dir id None (s_ctmp x s)) j = true -> j <= p).
      { intros x. split.
        - rewrite listed_s_dir_none. destruct (Z.eqb_spec p id); [lia|]. exact P1.
        - intros j. rewrite listed_s_dir_none. destruct (Z.eqb_spec j id); [discriminate|]. intros Hj.
          apply P3; auto. assert (j <= id) by (apply R2; exact Hj). lia. }
      assert (KK' : forall x k, less K id k -> listed (s_dir id None (s_ctmp x s)) k = true).
      { intros x k [Hk Hn]. rewrite listed_s_dir_none. destruct (Z.eqb_spec k id); [congruence|]. apply (KK k Hk). }
      pose proof (listed_dirs _ _ P1) as Dp.
      set (e := s_cur (Some p) (s_ctmp None (s_cur None (s_dir id None (s_ctmp (Some p) (s_ctmp None s)))))).
      assert (E : fst (delete_backup id (Some p) None s) =
        [s_ctmp None s; s_ctmp (Some p) (s_ctmp None s); s_dir id None (s_ctmp (Some p) (s_ctmp None s));
         s_cur None (s_dir id None (s_ctmp (Some p) (s_ctmp None s))); e] /\ snd (delete_backup id (Some p) None s) = true).
      { unfold delete_backup, rename_ctmp. um. auto. }
      destruct E as [E1 E2]. rewrite E1, E2.
      assert (LE : forall j, j <> p -> listed e j = listed (s_dir id None s) j).
      { intros j Hj. unfold listed, e, s_dir. cbn. rewrite Ec, F. cbn.
        destruct (Z.eqb_spec j id); auto. destruct (Z.eqb_spec j p); [congruence|]. reflexivity. }
      assert (A : InvA (less K id) e).
      { assert (Lp : listed e p = true).
        { unfold listed, e. cbn. rewrite Z.eqb_refl. cbn. destruct (Z.eqb_spec p id); [lia|]. rewrite Dp. auto. }
        repeat split; auto.
        - intros j Hj. destruct (Z.eq_dec j p) as [->|Hp]; [lia|]. rewrite LE in Hj by auto. apply (NP (ctmp s)).
          destruct s; exact Hj.
        - intros k Hk. destruct (Z.eq_dec k p) as [->|Hp]; [auto|]. rewrite LE by auto. specialize (KK' (ctmp s) k Hk).
          destruct s; exact KK'. }
      assert (We : wkok e).
      { intros w Ew. destruct (W w Ew) as [_ W2]. cbn. split.
        - intros X. injection X as <-. specialize (W2 id). assert (id <= p) by (apply W2; apply listed_dirs in L; congruence). lia.
        - intros j. destruct (j =? id); [congruence|]. apply W2. }
      split; [|split; [exact A|auto]]. intros s' H H0. split.
      { destruct H0 as [->|H0]; [exact We|]. destruct (H0 eq_refl) as [_ W0].
        apply wk_none. destruct H as [<-|[<-|[<-|[<-|[<-|[]]]]]]; auto. }
      destruct H0 as [->|H0]; [left; exact A|]. destruct (H0 eq_refl) as [_ W0].
      destruct H as [<-|[<-|[<-|[<-|[<-|[]]]]]].
      * left. repeat split; auto. { unfold right_current. cbn. rewrite Ec. split; auto. } intros k [Hk _]. apply (KK k Hk).
      * right; left. repeat split; auto.
        -- exists p. cbn. split; congruence.
        -- exists id. auto.
        -- unfold right_current. cbn. rewrite Ec. split; auto.
        -- intros k [Hk _]. apply (KK k Hk).
      * right; right; left. repeat split; auto.
        -- exists p. split; auto. apply (NP (Some p)).
        -- cbn. rewrite Ec. cbn. rewrite Z.eqb_refl. auto.
        -- apply (KK' (Some p)).
      * right; right; left. repeat split; auto.
        -- exists p. split; auto. split.
           ++ rewrite listed_none by auto. pose proof (proj1 (NP (Some p))) as H. rewrite listed_none in H by auto. exact H.
           ++ intros j. rewrite listed_none by auto. intros Hj. apply (NP (Some p)). rewrite listed_none by auto. exact Hj.
        -- intros k Hk. rewrite listed_none by auto. specialize (KK' (Some p) k Hk). rewrite listed_none in KK' by auto. exact KK'.
      * left. auto.
    + (* the only one *)
      cbn in P, N.
      assert (U : forall j, listed s j = true -> j = id) by (intros j Hj; specialize (P j Hj); specialize (N j Hj); lia).
      cbn [delete_backup]. um. change (cur (s_dir id None s)) with (cur s). rewrite Ec. cbn [fst snd app last].
      assert (A : InvA (less K id) (s_cur None (s_dir id None s))).
      { repeat split; auto.
        - unfold right_current. cbn. intros j. destruct (listed _ j) eqn:Lj; auto. exfalso.
          assert (j <> id). { intros ->. unfold listed in Lj. cbn in Lj. rewrite Z.eqb_refl in Lj. discriminate. }
          assert (listed s j = true).
          { unfold listed in *. cbn in Lj. destruct (Z.eqb_spec j id); [congruence|]. rewrite Ec. cbn.
            destruct (dirs s j) as [[]|]; try discriminate. cbn in Lj. rewrite Lj. apply Bool.orb_true_r. }
          apply H, U; auto.
        - intros k [Hk Hn]. exfalso. apply Hn, U, KK; auto. }
      assert (We : wkok (s_cur None (s_dir id None s))).
      { intros w Ew. split; [discriminate|]. apply (wk_gone s id W w Ew). }
      split; [|split; [exact A|auto]]. intros s' H H0.
      destruct H0 as [->|H0]; [split; [exact We|left; exact A]|destruct (H0 eq_refl); congruence].
Qed.

Lemma listed_other_dir s w b j : j <> w -> listed (s_dir w b s) j = listed s j.
Proof. intros H. unfold listed, s_dir. cbn. destruct (Z.eqb_spec j w); [congruence|auto]. Qed.

Lemma begin_inv (K : Z -> Prop) s w : InvA K s -> work s = None -> (forall j, dirs s j <> None -> j < w) -> cur s <> Some w ->
  Forall (Inv K) (fst (begin_backup w s)).
Proof.
  intros (F&C&R&KK) W0 Nw Cw. unfold begin_backup. um.
  assert (Dw : dirs s w = None) by (destruct (dirs s w) eqn:E; auto; specialize (Nw w); rewrite E in Nw; assert (w < w) by (apply Nw; congruence); lia).
  assert (X : forall s', cur s' = cur s -> fin s' = fin s -> ctmp s' = ctmp s -> work s' = Some w ->
     (forall j, j <> w -> dirs s' j = dirs s j) -> Inv K s').
  { intros s' E1 E2 E3 E4 E5.
    assert (L : forall j, listed s' j = listed s j).
    { intros j. unfold listed. rewrite E1, E2, E4, W0, F. cbn.
      destruct (Z.eqb_spec j w) as [->|Hj].
      - rewrite Dw. cbn. replace (points (cur s) w) with false; [destruct (dirs s' w) as [[]|]; auto|].
        unfold points. destruct (cur s) as [c|]; auto. destruct (Z.eqb_spec w c); congruence.
      - rewrite E5 by auto. auto. }
    split.
    - intros w' Hw. assert (w' = w) by congruence. subst. split; [congruence|]. intros j Hj.
      destruct (Z.eq_dec j w); [lia|]. rewrite E5 in Hj by auto. specialize (Nw j Hj). lia.
    - left. repeat split; try congruence.
      + unfold right_current in *. rewrite E1. destruct (cur s).
        * split; [rewrite L; apply R|intros j; rewrite L; apply R].
        * intros j; rewrite L; apply R.
      + intros k Hk. rewrite L. auto. }
  repeat apply Forall_cons; try apply Forall_nil; apply X; auto; intros j Hj; cbn; destruct (Z.eqb_spec j w); congruence.
Qed.

Lemma finishing_inv (K : Z -> Prop) s w arch : wkok s -> InvA K s -> work s = Some w -> dirs s w = Some true ->
  goes (Inv (fun k => K k \/ k = w)) (andthen start_finish (finish arch w))
    (fun s' => InvA (fun k => K k \/ k = w) s' /\ cur s' = Some w) s.
Proof.
  intros W (F&C&R&KK) E D. destruct (W w E) as [W1 W2].
  assert (DD : InvD (fun k => K k \/ k = w) (s_log true false (s_dup false false (s_fin (work s) (s_work None s))))).
  { apply D_log. exists w. cbn. repeat split; auto.
    - assert (dirs s c <> None).
      { unfold right_current in R. rewrite H in R. apply newest_valid; auto. }
      specialize (W2 c H0). assert (c <> w) by congruence. lia.
    - left. unfold right_current in R. rewrite H in R. apply newest_valid; auto.
    - discriminate.
    - intros k [Hk|Hk]; auto. right; left. apply listed_dirs; auto. }
  eapply goes_then with (Q := fun s' => InvD (fun k => K k \/ k = w) s' /\ fin s' = Some w).
  { unfold start_finish. apply goes_look. apply goes_step; [apply D_Inv; auto|split; auto]. }
  intros s' (D'&F'). apply finish_goes; auto.
Qed.

Lemma kept_inv (K : Z -> Prop) s : kept K s -> Inv K s.
Proof.
  intros H. induction H as [|K s arch d s' H IH HI|K s arch d s1 id p n s' H IH F S0 -> L P N HI HA
    |K s arch d s1 w s' H IH F S0 -> W0 Nw Cw HI|K s d arch s1 w s' H IH F S0 -> W0 D0 HI].
  - split; [apply wk_none; auto|]. left. repeat split; auto.
  - pose proof (check_inv K s arch d IH) as X. rewrite Forall_forall in X. auto.
  - destruct (check_done K s arch d IH F S0) as [W A].
    apply (delete_inv K _ id p n W A L P N); auto.
  - destruct (check_done K s arch d IH F S0) as [W A].
    pose proof (begin_inv K _ w A W0 Nw Cw) as X. rewrite Forall_forall in X. auto.
  - destruct (check_done K s arch d IH F S0) as [W A].
    destruct (finishing_inv K _ w arch W A W0 D0) as (X&_). rewrite Forall_forall in X. auto.
Qed.

(* ---------- results ---------- *)

Lemma A_settled (K : Z -> Prop) s : InvA K s -> settled s /\ (forall k, K k -> listed s k = true).
Proof. intros (F&C&R&KK). repeat split; auto. Qed.

Lemma check_A (K : Z -> Prop) s arch d : wkok s -> InvA K s -> InvA K (endst (fst (check arch d s)) s).
Proof. intros W A. apply (checkA K s arch d); auto. apply endst_in. Qed.

Lemma one_check (K : Z -> Prop) s arch d : kept K s -> fin s = None \/ gz s = false ->
  settled (endst (fst (check arch d s)) s) /\ forall k, K k -> listed (endst (fst (check arch d s)) s) k = true.
Proof.
  intros H G. destruct (kept_inv K s H) as [W [A|[B|[C|D]]]]; apply A_settled.
  - apply check_A; auto.
  - apply checkBC; auto.
  - apply checkBC; auto.
  - pose proof D as (f&F&_). destruct G as [G|G]; [congruence|]. unfold check, look. rewrite F.
    destruct (recover_goes K s arch f D F G) as (_&_&X&_). exact X.
Qed.

Lemma two_checks (K : Z -> Prop) s arch d arch' d' : kept K s ->
  let s1 := endst (fst (check arch d s)) s in
  let s2 := endst (fst (check arch' d' s1)) s1 in
  settled s2 /\ forall k, K k -> listed s2 k = true.
Proof.
  intros H s1 s2. unfold s2. apply one_check with (K := K).
  - unfold s1. destruct (endst_in (fst (check arch d s)) s) as [X|X]; [eapply k_check; eauto|rewrite X; auto].
  - destruct (fin s) as [f|] eqn:F.
    + destruct (kept_inv K s H) as [W [A|[B|[C|D]]]]; try (left; apply A); try (destruct B; congruence); try (destruct C; congruence); try (destruct A; congruence).
      destruct (gz s) eqn:G.
      * right. unfold s1, check, look. rewrite F. apply (recover_gz K s arch f D F G).
      * left. unfold s1, check, look. rewrite F. destruct (recover_goes K s arch f D F G) as (_&_&X&_). apply X.
    + left. pose proof (one_check K s arch d H (or_introl F)) as [(X&_) _]. exact X.
Qed.

Lemma never_lost (K : Z -> Prop) s k : kept K s -> K k -> listed s k = true \/ fin s <> None.
Proof.
  intros H Hk. destruct (kept_inv K s H) as [W [A|[B|[C|(f&F&_)]]]].
  - left. apply A; auto.
  - left. apply B; auto.
  - left. apply C; auto.
  - right. congruence.
Qed.

Lemma delete_done (K : Z -> Prop) s arch d s1 id p n : kept K s -> fin s = None -> snd (check arch d s) = true ->
  s1 = endst (fst (check arch d s)) s -> listed s1 id = true -> is_prev s1 id p -> is_next s1 id n ->
  let s2 := endst (fst (delete_backup id p n s1)) s1 in
  snd (delete_backup id p n s1) = true /\ settled s2 /\ listed s2 id = false /\
  (forall k, K k -> k <> id -> listed s2 k = true).
Proof.
  intros H F S0 -> L P N. cbv zeta. destruct (check_done K s arch d (kept_inv K s H) F S0) as [W A].
  destruct (delete_inv K _ id p n W A L P N) as (_&B&C). split; auto.
  destruct (A_settled _ _ B) as [B1 B2]. split; auto. split.
  - clear - A L P N. destruct (endst (fst (check arch d s)) s) as [cu ct wo fi di h du dt l g] eqn:E.
    destruct n; [|destruct p].
    + cbn. unfold listed. cbn. rewrite Z.eqb_refl. auto.
    + cbn. unfold listed. cbn. rewrite Z.eqb_refl. auto.
    + cbn. destruct cu; cbn; unfold listed; cbn; rewrite Z.eqb_refl; auto.
  - intros k Hk Hn. apply B2. split; auto.
Qed.

Lemma finish_done (K : Z -> Prop) s d arch s1 w : kept K s -> fin s = None -> snd (check arch d s) = true ->
  s1 = endst (fst (check arch d s)) s -> work s1 = Some w -> dirs s1 w = Some true ->
  let r := andthen start_finish (finish arch w) s1 in
  snd r = true /\ settled (endst (fst r) s1) /\ cur (endst (fst r) s1) = Some w /\
  (forall k, K k -> listed (endst (fst r) s1) k = true).
Proof.
  intros H F S0 -> W0 D0. cbv zeta. destruct (check_done K s arch d (kept_inv K s H) F S0) as [W A].
  destruct (finishing_inv K _ w arch W A W0 D0) as (_&X&Y&Z). destruct (A_settled _ _ Y) as [Y1 Y2].
  repeat split; auto; apply Y1.
Qed.

(* ---------- states from which nothing recovers ---------- *)

(* current leads nowhere and there is no backup at all *)
Definition lost (c : Z) (s : st) : Prop :=
  cur s = Some c /\ dirs s c = None /\ ctmp s = None /\ dup s = false /\ forall j, listed s j = false.

(* current leads nowhere while a backup is being finished *)
Definition hung (f c : Z) (s : st) : Prop :=
  fin s = Some f /\ cur s = Some c /\ dirs s c = None /\ dup s = false.

Lemma phase4_hung arch f g c s : hung f c s ->
  snd (phase4 arch g s) = false /\
  forall s', In s' (fst (phase4 arch g s)) -> exists b, s' = s_dup false b s.
Proof.
  intros (F&C&D&P). unfold phase4, look. rewrite C. cbv zeta.
  assert (V : valid s (Some c) = false) by (cbn; rewrite D; auto). rewrite V. cbn [andb].
  unfold duplicate, andthen, look, step, fail, ok. rewrite P.
  destruct (duptmp s); cbn; rewrite D; cbn; (split; [auto|]); intros s'.
  - intros [<-|[<-|[]]]; [exists false|exists true]; auto.
  - intros [<-|[]]. exists true. auto.
Qed.

Lemma fix_log_states s s' : In s' (fst (fix_log s)) -> exists l g, s' = s_log l g s.
Proof.
  unfold fix_log. um. destruct (lg s), (gz s); cbn; intuition; subst; eauto.
  - exists true, false. destruct s; auto.
Qed.
Lemma fix_log_end s : exists l g, endst (fst (fix_log s)) s = s_log l g s.
Proof.
  destruct (endst_in (fst (fix_log s)) s) as [H|H]; [apply fix_log_states; auto|].
  rewrite H. exists (lg s), (gz s). destruct s; auto.
Qed.

(* Only the log and the unfinished copy change. *)
Lemma recover_hung arch f c s s' : hung f c s -> In s' (fst (recover_finishing arch f s)) ->
  cur s' = cur s /\ dirs s' = dirs s /\ work s' = work s /\ fin s' = fin s /\ ctmp s' = ctmp s /\ dup s' = false.
Proof.
  intros H HI. pose proof H as (F&C&D&P). unfold recover_finishing in HI. unfold andthen at 1 in HI.
  destruct (fix_log_end s) as (l&g&E).
  pose proof (fix_log_states s) as FS.
  destruct (fix_log s) as [l1 o1]. cbn [fst] in *. rewrite E in HI.
  assert (X : In s' l1 -> cur s' = cur s /\ dirs s' = dirs s /\ work s' = work s /\ fin s' = fin s /\ ctmp s' = ctmp s /\ dup s' = false).
  { intros Y. destruct (FS s' Y) as (l'&g'&->). repeat split; auto. }
  destruct o1; [|auto].
  assert (H' : hung f c (s_log l g s)) by (split; auto).
  destruct (phase4_hung arch f f c _ H') as [N S0].
  unfold andthen at 1 in HI. destruct (phase4 arch f (s_log l g s)) as [l2 o2]. cbn [fst snd] in *. subst o2.
  cbn [fst] in HI. apply in_app_or in HI as [HI|HI]; [auto|].
  destruct (S0 s' HI) as (b&->). repeat split; auto.
Qed.

Lemma check_hung arch d f c s s' : hung f c s -> In s' (fst (check arch d s)) -> hung f c s'.
Proof.
  intros H HI. pose proof H as (F&C&D&P). unfold check, look in HI. rewrite F in HI.
  destruct (recover_hung arch f c s s' H HI) as (E1&E2&E3&E4&E5&E6). unfold hung. rewrite E1, E2, E4. auto.
Qed.

Lemma later_hung f c s s' : later True s s' -> hung f c s -> hung f c s'.
Proof.
  intros L H. induction L as [|s t u L IH E]; auto. specialize (IH H). pose proof IH as (F&_).
  inversion E; subst; try congruence. eapply check_hung; eauto.
Qed.

Lemma listed_same s s' : cur s' = cur s -> dirs s' = dirs s -> work s' = work s -> fin s' = fin s ->
  forall j, listed s' j = listed s j.
Proof. intros A B C D j. unfold listed. rewrite A, B, C, D. auto. Qed.

Lemma check_lost arch d c s s' : lost c s -> In s' (fst (check arch d s)) -> lost c s'.
Proof.
  intros (C&D&T&P&L) HI. pose proof HI as HI0. unfold check, look in HI.
  destruct (fin s) as [f|] eqn:F.
  - assert (H : hung f c s) by (split; auto).
    destruct (recover_hung arch f c s s' H HI) as (E1&E2&E3&E4&E5&E6).
    split; [congruence|]. split; [rewrite E2; auto|]. split; [congruence|]. split; auto. intros j.
    rewrite (listed_same s s'); auto.
  - destruct (work s) as [w|] eqn:W; [|rewrite T in HI; destruct HI].
    assert (G : forall j, j <> w -> dirs s j <> Some true).
    { intros j Hj X. specialize (L j). unfold listed in L. rewrite X, W, F in L. cbn in L.
      destruct (Z.eqb_spec j w); [congruence|]. cbn in L. rewrite Bool.orb_true_r in L. discriminate. }
    assert (X : s' = s_dir w None s \/ s' = s_work None (s_dir w None s) \/ (dirs s w = None /\ s' = s_work None s)).
    { destruct (valid s (Some w)) eqn:V.
      - destruct d; [|destruct HI|destruct HI]. cbn in HI. destruct HI as [<-|[<-|[]]]; auto.
      - cbn in HI. destruct HI as [<-|[]]. cbn in V. destruct (dirs s w); [discriminate|auto]. }
    destruct X as [->|[->|[X ->]]]; (split; [exact C|]);
      (split; [cbn; destruct (c =? w); auto|]); (split; [exact T|]); (split; [exact P|]); intros j; unfold listed; cbn.
    + destruct (Z.eqb_spec j w); auto. destruct (dirs s j) as [[]|] eqn:Y; auto. exfalso. apply (G j); auto.
    + destruct (Z.eqb_spec j w); auto. destruct (dirs s j) as [[]|] eqn:Y; auto. exfalso. apply (G j); auto.
    + destruct (Z.eq_dec j w) as [->|Hj]; [rewrite X; auto|]. destruct (dirs s j) as [[]|] eqn:Y; auto. exfalso. apply (G j); auto.
Qed.

Lemma check_lost_end arch d c s : lost c s -> lost c (endst (fst (check arch d s)) s).
Proof.
  intros H. destruct (endst_in (fst (check arch d s)) s) as [X|X]; [eapply check_lost; eauto|rewrite X; auto].
Qed.

Lemma check_fin arch d s : fin s = None -> fin (endst (fst (check arch d s)) s) = None.
Proof.
  intros F. destruct (endst_in (fst (check arch d s)) s) as [X|X]; [|rewrite X; auto].
  set (s1 := endst _ s) in *. unfold check, look in X. rewrite F in X.
  destruct (work s); [|destruct (ctmp s)].
  - destruct (valid s (Some z)); [destruct d|]; cbn in X; intuition;
      match goal with H : _ = s1 |- _ => rewrite <- H end; auto.
  - unfold recover_currenttmp, rename_ctmp, look in X.
    destruct (negb _); [destruct X|]. destruct (cur s); [destruct (valid _ _)|]; cbn in X; intuition;
      match goal with H : _ = s1 |- _ => rewrite <- H end; auto.
  - destruct X.
Qed.

Lemma event_lost c s s' : lost c s -> event True s s' -> lost c s'.
Proof.
  intros H E. inversion E; subst.
  - eapply check_lost; eauto.
  - destruct (check_lost_end arch d c s H) as (_&_&_&_&L). rewrite L in *. discriminate.
  - pose proof (check_lost_end arch d c s H) as (C&D&T&P&L). set (s1 := endst _ s) in *.
    assert (F1 : fin s1 = None).
    { apply check_fin; auto. }
    unfold begin_backup in *. revert H6. um. intros H6.
    assert (wc : w <> c) by congruence.
    assert (X : cur s' = cur s1 /\ ctmp s' = ctmp s1 /\ dup s' = dup s1 /\ fin s' = fin s1 /\ work s' = Some w /\
      forall j, j <> w -> dirs s' j = dirs s1 j).
    { destruct H6 as [<-|[<-|[<-|[]]]]; repeat split; auto; intros j Hj; cbn; destruct (Z.eqb_spec j w); congruence. }
    destruct X as (X1&X2&X3&X4&X5&X6). split; [congruence|]. split; [rewrite X6; auto|]. split; [congruence|]. split; [congruence|].
    intros j. unfold listed. destruct (Z.eq_dec j w) as [->|Hj].
    + rewrite X1, X5, C. cbn. rewrite Z.eqb_refl. cbn. destruct (Z.eqb_spec w c); [congruence|]. destruct (dirs s' w) as [[]|]; auto.
    + rewrite X6, X1, X4, X5 by auto. specialize (L j). unfold listed in L. rewrite H3, F1 in L. rewrite F1. cbn in *.
      destruct (dirs s1 j) as [[]|]; auto. rewrite Bool.orb_true_r in L. discriminate.
  - pose proof (check_lost_end arch d c s H) as (C&D&T&P&L). set (s1 := endst _ s) in *.
    set (s2 := s_log true false (s_dup false false (s_fin (work s1) (s_work None s1)))).
    assert (G : forall j, j <> w -> dirs s1 j <> Some true).
    { intros j Hj X. specialize (L j). unfold listed in L. rewrite X, H3 in L. cbn in L.
      destruct (Z.eqb_spec j w); [congruence|]. cbn in L.
      destruct (points (fin s1) j) eqn:PF; [|cbn in L; rewrite Bool.orb_true_r in L; discriminate].
      clear L. unfold s1 in PF. rewrite check_fin in PF by auto. discriminate. }
    assert (L2 : lost c s2).
    { split; [exact C|]. split; [exact D|]. split; [exact T|]. split; [auto|]. intros j.
      unfold listed, s2. cbn. rewrite H3, C. cbn. destruct (dirs s1 j) as [[]|] eqn:Dj; auto.
      destruct (Z.eqb_spec j c); [congruence|]. cbn.
      destruct (Z.eqb_spec j w) as [->|Hj]; auto. exfalso. apply (G j); auto. }
    revert H5. unfold start_finish. unfold andthen at 1. unfold look, step. cbn [endst last fst snd app]. fold s2. unfold endst. cbn [last].
    assert (Hh : hung w c s2) by (split; [exact H3|split; [exact C|split; auto]]).
    unfold finish, andthen. destruct (phase4_hung arch w w c s2 Hh) as [N S0].
    destruct (phase4 arch w s2) as [l2 o2]. cbn [fst snd] in *. subst o2. cbn [fst].
    intros [<-|HI]; [exact L2|]. destruct (S0 s' HI) as (b&->).
    destruct L2 as (A1&A2&A3&A4&A5). split; [exact A1|]. split; [exact A2|]. split; [exact A3|]. split; [auto|].
    intros j. rewrite (listed_same s2); auto.
Qed.

Lemma later_lost c s s' : later True s s' -> lost c s -> lost c s'.
Proof. intros L H. induction L as [|s t u L IH E]; auto. apply (event_lost c t u (IH H) E). Qed.

Lemma lost_never c s s' : lost c s -> later True s s' -> ~ settled s' /\ forall j, listed s' j = false.
Proof.
  intros H L. destruct (later_lost c s s' L H) as (C&_&_&_&N). split; auto.
  intros (_&_&R). unfold right_current in R. rewrite C in R. destruct R as [R _]. rewrite N in R. discriminate.
Qed.

Lemma hung_never f c s s' : hung f c s -> later True s s' -> fin s' = Some f /\ ~ settled s'.
Proof.
  intros H L. destruct (later_hung f c s s' L H) as (F&_). split; auto. intros (F'&_). congruence.
Qed.

(* current.tmp leads nowhere and nothing else is left over *)
Lemma tmp_never t s s' : fin s = None -> work s = None -> ctmp s = Some t -> dirs s t = None -> later True s s' ->
  s' = s /\ forall arch d, snd (check arch d s) = false.
Proof.
  intros F W C D L.
  assert (X : forall arch d, check arch d s = ([], false)).
  { intros. unfold check, look. rewrite F, W, C. unfold recover_currenttmp, look. rewrite C. cbn. rewrite D. auto. }
  split; [|intros; rewrite X; auto].
  induction L as [|s t' u L IH E]; auto. rewrite IH in E by auto.
  inversion E; subst; rewrite X in *; cbn in *; try discriminate; contradiction.
Qed.

(* ---------- examples of histories ---------- *)

Definition begun (w : Z) (s : st) : st := endst (fst (begin_backup w s)) s.
Definition backed (w : Z) (s : st) : st := endst (fst (andthen start_finish (finish false w) (begun w s))) (begun w s).

Lemma in_end l s : l <> [] -> In (endst l s) l.
Proof.
  intros H. unfold endst. destruct (exists_last H) as (l'&x&->). rewrite last_last. apply in_or_app. right. left. auto.
Qed.

Lemma check_idle arch d s : fin s = None -> work s = None -> ctmp s = None -> check arch d s = ([], true).
Proof. intros F W C. unfold check, look. rewrite F, W, C. auto. Qed.

Lemma check_work arch s w : fin s = None -> work s = Some w -> dirs s w = Some true -> check arch WResume s = ([], true).
Proof. intros F W D. unfold check, look. rewrite F, W. cbn. rewrite D. auto. Qed.

Lemma kept_begun K s w : kept K s -> fin s = None -> work s = None -> ctmp s = None ->
  (forall j, dirs s j <> None -> j < w) -> cur s <> Some w -> kept K (begun w s).
Proof.
  intros H F W C N Cw. apply (k_begin K s false WResume s w); auto.
  - rewrite check_idle; auto.
  - rewrite check_idle; auto.
  - apply in_end. discriminate.
Qed.

Lemma kept_backed K s w : kept K s -> fin s = None -> work s = None -> ctmp s = None ->
  (forall j, dirs s j <> None -> j < w) -> cur s <> Some w -> kept (fun k => K k \/ k = w) (backed w s).
Proof.
  intros H F W C N Cw. pose proof (kept_begun K s w H F W C N Cw) as B.
  assert (D : dirs (begun w s) w = Some true) by (cbn; rewrite Z.eqb_refl; auto).
  apply (k_finish K (begun w s) WResume false (begun w s) w); auto.
  - rewrite (check_work false _ w); auto.
  - rewrite (check_work false _ w); auto.
  - apply in_end. unfold start_finish, andthen, look, step. cbn [endst last].
    destruct (finish false w _). destruct b; discriminate.
Qed.

(* One and two backups, and a third begun; the directories are written as
   the steps leave them. *)
Definition one : st :=
  mkst (Some 1) None None None (fun j => if j =? 1 then Some true else if j =? 1 then Some false else None) (fun j => if j =? 1 then false else false) false false true false.
Definition two : st :=
  mkst (Some 2) None None None (fun j => if j =? 1 then Some true else if j =? 1 then None else if j =? 1 then Some false else if j =? 2 then Some true else if j =? 2 then Some false else if j =? 1 then Some true else if j =? 1 then Some false else None) (fun j => if j =? 2 then false else if j =? 1 then false else false) false false true false.
Lemma one_is : one = backed 1 nothing. Proof. vm_compute. reflexivity. Qed.
Lemma two_is : two = backed 2 one. Proof. vm_compute. reflexivity. Qed.
Definition two_and : st := begun 3 two.

Ltac eqs j := repeat match goal with |- context [j =? ?n] => destruct (Z.eqb_spec j n) end.
Ltac small := let j := fresh in intros j; cbn; repeat match goal with |- context [j =? ?n] => destruct (Z.eqb_spec j n) end; try lia; try congruence.

Lemma kept_one : kept (fun k => False \/ k = 1) one.
Proof. rewrite one_is. apply kept_backed; auto; [constructor|small|discriminate]. Qed.
Lemma kept_two : kept (fun k => (False \/ k = 1) \/ k = 2) two.
Proof. rewrite two_is. apply kept_backed; auto; [apply kept_one|small|discriminate]. Qed.
Lemma kept_two_and : kept (fun k => (False \/ k = 1) \/ k = 2) two_and.
Proof. apply kept_begun; auto; [apply kept_two|small|discriminate]. Qed.

(* Deleting the only backup, stopped before current is removed. *)
Lemma only_deleted : exists K s s', kept K s /\ settled s /\ event True s s' /\
  forall s'', later True s' s'' -> ~ settled s'' /\ forall j, listed s'' j = false.
Proof.
  exists (fun k => False \/ k = 1), one, (s_dir 1 None one). split; [apply kept_one|]. split.
  { repeat split; auto. intros j. unfold listed. cbn. destruct (Z.eqb_spec j 1); [lia|congruence]. }
  split.
  { apply (ev_delete True one false WResume one 1 None None); auto.
    - intros j. unfold listed. cbn. destruct (Z.eqb_spec j 1); [lia|congruence].
    - intros j. unfold listed. cbn. destruct (Z.eqb_spec j 1); [lia|congruence].
    - cbn. auto. }
  intros s''. apply lost_never with (c := 1). repeat split; auto.
  intros j. unfold listed. cbn. destruct (j =? 1); auto.
Qed.

(* Deleting the newest while there is an unfinished backup, stopped; then that
   backup is finished. *)
Definition stopped_at : st := s_dir 2 None (s_ctmp (Some 1) (s_ctmp None two_and)).
Definition resumed_at : st := endst (fst (andthen start_finish (finish false 3) stopped_at)) stopped_at.
Lemma newest_deleted : exists K s s1 s2, kept K s /\ settled s /\ event True s s1 /\ event True s1 s2 /\
  listed s1 1 = true /\
  forall s3, later True s2 s3 -> fin s3 <> None /\ ~ settled s3.
Proof.
  exists (fun k => (False \/ k = 1) \/ k = 2), two_and, stopped_at, resumed_at. split; [apply kept_two_and|].
  assert (N : forall j, listed two_and j = true -> j = 1 \/ j = 2).
  { intros j. unfold listed. cbn. eqs j; cbn; auto; try congruence; lia. }
  split.
  { repeat split; auto. intros j Hj. destruct (N j Hj); lia. }
  split.
  { apply (ev_delete True two_and false WResume two_and 2 (Some 1) None); auto.
    - cbn. split; [auto|]. split; [lia|]. intros j Hj ?. destruct (N j Hj); lia.
    - intros j Hj. destruct (N j Hj); lia.
    - cbn. right; right; left. reflexivity. }
  split.
  { apply (ev_finish True stopped_at WResume false stopped_at 3); auto.
    apply in_end. vm_compute. discriminate. }
  split; [auto|].
  intros s3 L. destruct (hung_never 3 2 resumed_at s3) as [A B]; auto.
  - repeat split; auto.
  - split; auto. congruence.
Qed.

(* Deleting the newest while there is an unfinished backup, stopped before anything
   is deleted; then the oldest is deleted, and the backup finished. *)
Definition linked_at : st := s_ctmp (Some 1) (s_ctmp None two_and).
Definition dangling_at : st := s_dir 1 None linked_at.
Definition finished_at : st := endst (fst (andthen start_finish (finish false 3) dangling_at)) dangling_at.
Lemma tmp_dangles : exists K s s1 s2 s3, kept K s /\ settled s /\ event True s s1 /\ event True s1 s2 /\ event True s2 s3 /\
  right_current s3 /\ listed s3 3 = true /\
  forall s4, later True s3 s4 -> s4 = s3 /\ forall arch d, snd (check arch d s4) = false.
Proof.
  exists (fun k => (False \/ k = 1) \/ k = 2), two_and, linked_at, dangling_at, finished_at. split; [apply kept_two_and|].
  assert (N : forall j, listed two_and j = true -> j = 1 \/ j = 2).
  { intros j. unfold listed. cbn. eqs j; cbn; auto; try congruence; lia. }
  assert (N' : forall j, listed linked_at j = true -> j = 1 \/ j = 2) by exact N.
  split.
  { repeat split; auto. intros j Hj. destruct (N j Hj); lia. }
  split.
  { apply (ev_delete True two_and false WResume two_and 2 (Some 1) None); auto.
    - cbn. split; [auto|]. split; [lia|]. intros j Hj ?. destruct (N j Hj); lia.
    - intros j Hj. destruct (N j Hj); lia.
    - cbn. right; left. reflexivity. }
  split.
  { apply (ev_delete True linked_at false WResume linked_at 1 None (Some 2)); auto.
    - intros j Hj. destruct (N' j Hj); lia.
    - cbn. split; [auto|]. split; [lia|]. intros j Hj ?. destruct (N' j Hj); lia.
    - cbn. left. reflexivity. }
  split.
  { apply (ev_finish True dangling_at WResume false dangling_at 3); auto.
    apply in_end. vm_compute. discriminate. }
  assert (X : cur finished_at = Some 3 /\ fin finished_at = None /\ work finished_at = None /\
     ctmp finished_at = Some 1 /\ dirs finished_at 1 = None /\ listed finished_at 3 = true) by (vm_compute; auto 10).
  destruct X as (X1&X2&X3&X4&X5&X6).
  split.
  { unfold right_current. rewrite X1. split; auto. intros j. rewrite listed_none by auto.
    assert (Y : dirs finished_at = fun j => if j =? 2 then Some true else if j =? 2 then None else if j =? 2 then Some false else dirs dangling_at j)
      by (vm_compute; reflexivity).
    rewrite Y. unfold dangling_at. cbn. eqs j; cbn; try lia; congruence. }
  split; [auto|].
  intros s4 L. destruct (tmp_never 1 finished_at s4 X2 X3 X4 X5 L) as [-> B]. auto.
Qed.

(* Finishing stopped between compressing the log and the last rename. *)
Definition begun_finish : st := s_log true false (s_dup false false (s_fin (work two_and) (s_work None two_and))).
Definition after_gz : st :=
  endst (fst (andthen fix_log (andthen (phase4 false 3) (step (s_log true true))) begun_finish)) begun_finish.
Lemma finish_twice : exists K s, kept K s /\
  forall arch d, snd (check arch d s) = false /\ ~ settled (endst (fst (check arch d s)) s).
Proof.
  exists (fun k => ((False \/ k = 1) \/ k = 2) \/ k = 3), after_gz. split.
  - apply (k_check _ begun_finish false WResume).
    + apply (k_finish _ two_and WResume false two_and 3); auto; [apply kept_two_and|].
      assert (X : nth_error (fst (andthen start_finish (finish false 3) two_and)) 0 = Some begun_finish) by (vm_compute; reflexivity).
      apply nth_error_In in X. exact X.
    + assert (X : nth_error (fst (check false WResume begun_finish)) 6 = Some after_gz) by (vm_compute; reflexivity).
      apply nth_error_In in X. exact X.
  - intros arch d. assert (E : check arch d after_gz = ([s_log true false after_gz], false)) by (vm_compute; reflexivity).
    rewrite E. split; [auto|]. intros (X&_). revert X. vm_compute. discriminate.
Qed.
