(* Specification and proofs for ListModel. *)
From Coq Require Import Sorting.Sorted.
From Verif Require Import Bytes PathcmpModel PathcmpProofs CmdModel CmdProofs AttribsModel AttribsProofs FrameModel
  SbufModel SbufProofs MergeModel MergeProofs DpthModel BuModel RestoreModel RestoreProofs Phase2Model ListModel.

(* ---------- Specification ---------- *)

(* A directory with its '/'. *)
Definition dirslash (bd : bytes) : bytes := if last_char bd =? slash then bd else bd ++ [slash].

Definition tail_ok (s : bytes) : Prop := s = [] \/ exists t, s = slash :: t.

(* The name under which a path shows in a directory: "." for the directory
   itself, otherwise the component that follows.  Without a directory: the root
   the path is under. *)
Definition child (bd p n : bytes) : Prop :=
  match bd with
  | [] => (p = [] /\ n = [dot]) \/ ((exists t, p = slash :: t) /\ n = [slash]) \/
          (n <> [] /\ ~ In slash n /\ exists s, p = n ++ s /\ tail_ok s)
  | _ => (n = [dot] /\ (p = bd \/ p = dirslash bd)) \/
         (p <> dirslash bd /\ ~ In slash n /\ exists s, p = dirslash bd ++ n ++ s /\ tail_ok s)
  end.

(* ---------- the name ---------- *)

(* What check_browsedir() compares and lists. *)
Definition name_of (bd p : bytes) : option bytes :=
  match below_dir bd p with
  | None => None
  | Some cp => let '(a, b) := cut_slash cp in
               Some (strip_slash (match b with
                                  | _ :: _ => match bd with [] => a ++ [slash] | _ => a end
                                  | [] => cp
                                  end))
  end.

Lemma cut_slash_spec : forall s a b, cut_slash s = (a, b) ->
  s = a ++ b /\ ~ In slash a /\ tail_ok b.
Proof.
  induction s as [|c s IH]; cbn [cut_slash]; intros a b H.
  - inversion H; subst. repeat split; [intros []|left; reflexivity].
  - destruct (c =? slash) eqn:E.
    + inversion H; subst. apply Z.eqb_eq in E. subst. repeat split; [intros []|right; eauto].
    + destruct (cut_slash s) as [a' b'] eqn:C. inversion H; subst.
      destruct (IH _ _ eq_refl) as (-> & N & T). repeat split; auto.
      intros [->|I]; [unfold slash in E; discriminate E|tauto].
Qed.

Lemma cut_slash_of : forall a b, ~ In slash a -> tail_ok b -> cut_slash (a ++ b) = (a, b).
Proof.
  induction a as [|c a IH]; intros b N T; cbn [app cut_slash].
  - destruct T as [->|[t ->]]; [reflexivity|]. cbn [cut_slash]. rewrite Z.eqb_refl. reflexivity.
  - destruct (c =? slash) eqn:E; [apply Z.eqb_eq in E; subst; exfalso; apply N; left; reflexivity|].
    rewrite IH; auto. intros I. apply N. right. exact I.
Qed.

Lemma cut_rslash_none : forall s, ~ In slash s -> cut_rslash s = None.
Proof.
  induction s as [|c s IH]; intros N; cbn [cut_rslash]; [reflexivity|].
  rewrite IH by (intros I; apply N; right; exact I).
  destruct (c =? slash) eqn:E; [|reflexivity].
  apply Z.eqb_eq in E. subst. exfalso. apply N. left. reflexivity.
Qed.

Lemma cut_rslash_end : forall s, cut_rslash (s ++ [slash]) = Some s.
Proof. induction s as [|c s IH]; cbn [app cut_rslash]; [reflexivity|]. rewrite IH. reflexivity. Qed.

Lemma strip_none : forall s, ~ In slash s -> strip_slash s = s.
Proof. intros s N. unfold strip_slash. rewrite cut_rslash_none; auto. Qed.

Lemma strip_end : forall s, s <> [] -> strip_slash (s ++ [slash]) = s.
Proof. intros s N. unfold strip_slash. rewrite cut_rslash_end. destruct s; congruence. Qed.

Lemma below_root : forall p, below_dir [] p = Some (match p with [] => [dot] | _ => p end).
Proof. intros [|c p]; reflexivity. Qed.

(* below a directory *)
Lemma below_some : forall bd p cp, bd <> [] ->
  (below_dir bd p = Some cp <->
   (cp = [dot] /\ (p = bd \/ p = dirslash bd)) \/ (cp <> [] /\ p = dirslash bd ++ cp)).
Proof.
  intros bd p cp NE. unfold below_dir, dirslash. destruct bd as [|x bd']; [congruence|].
  set (bd := x :: bd') in *. clearbody bd.
  destruct (starts_with p bd) eqn:S.
  - apply starts_with_spec in S. destruct S as [r ->]. rewrite skipn_app, skipn_all, Nat.sub_diag.
    cbn [app skipn]. destruct (last_char bd =? slash) eqn:L.
    + destruct r as [|c r].
      * rewrite app_nil_r. split.
        -- intros H. inversion H; subst. left. auto.
        -- intros [[-> _]|[N E]]; [reflexivity|].
           rewrite <- (app_nil_r bd) in E at 1. apply app_inv_head in E. congruence.
      * split.
        -- intros H. inversion H; subst. right. split; [discriminate|reflexivity].
        -- intros [[-> [E|E]]|[N E]].
           ++ rewrite <- (app_nil_r bd) in E at 2. apply app_inv_head in E. discriminate.
           ++ rewrite <- (app_nil_r bd) in E at 2. apply app_inv_head in E. discriminate.
           ++ apply app_inv_head in E. rewrite E. reflexivity.
    + destruct r as [|c r].
      * rewrite app_nil_r. split.
        -- intros H. inversion H; subst. left. auto.
        -- intros [[-> _]|[N E]]; [reflexivity|].
           rewrite <- (app_nil_r bd), <- !app_assoc in E at 1. apply app_inv_head in E. discriminate.
      * destruct (c =? slash) eqn:C.
        -- apply Z.eqb_eq in C. subst c. destruct r as [|c r].
           ++ split.
              ** intros H. inversion H; subst. left. auto.
              ** intros [[-> _]|[N E]]; [reflexivity|].
                 rewrite <- app_assoc in E. apply app_inv_head in E. inversion E. congruence.
           ++ split.
              ** intros H. inversion H; subst. right. split; [discriminate|].
                 rewrite <- app_assoc. reflexivity.
              ** intros [[-> [E|E]]|[N E]].
                 --- rewrite <- (app_nil_r bd) in E at 2. apply app_inv_head in E. discriminate.
                 --- apply app_inv_head in E. discriminate.
                 --- rewrite <- app_assoc in E. apply app_inv_head in E. inversion E. reflexivity.
        -- split; [discriminate|]. intros [[-> [E|E]]|[N E]].
           ++ rewrite <- (app_nil_r bd) in E at 2. apply app_inv_head in E. discriminate.
           ++ apply app_inv_head in E. inversion E; subst. rewrite Z.eqb_refl in C. discriminate.
           ++ rewrite <- app_assoc in E. apply app_inv_head in E. inversion E; subst.
              rewrite Z.eqb_refl in C. discriminate.
  - split; [discriminate|]. intros H. exfalso. apply not_true_iff_false in S. apply S. apply starts_with_spec.
    destruct (last_char bd =? slash).
    + destruct H as [[_ [->| ->]]|[_ ->]]; [exists []|exists []|eauto]; rewrite app_nil_r; reflexivity.
    + destruct H as [[_ [->| ->]]|[_ ->]]; [exists []; rewrite app_nil_r; reflexivity|eauto|].
      rewrite <- app_assoc. eauto.
Qed.

Lemma dot_noslash : ~ In slash [dot].
Proof. intros [H|[]]. discriminate H. Qed.

Theorem name_of_child : forall bd p n, name_of bd p = Some n <-> child bd p n.
Proof.
  intros bd p n. destruct bd as [|x bd'].
  - unfold name_of. rewrite below_root. unfold child. destruct p as [|c p].
    + cbn [cut_slash]. change (dot =? slash) with false. cbn iota. rewrite strip_none by exact dot_noslash.
      split; [intros H; inversion H; left; auto|].
      intros [[_ ->]|[[[t H] _]|(N & _ & s & H & _)]]; [reflexivity|discriminate|].
      destruct n; [congruence|discriminate].
    + destruct (cut_slash (c :: p)) as [a b] eqn:C. apply cut_slash_spec in C. destruct C as (E & N & T).
      rewrite E. destruct T as [->|[t ->]].
      * rewrite app_nil_r in *. subst a. rewrite strip_none by exact N. split.
        -- intros H. inversion H; subst. right. right. split; [discriminate|]. split; [exact N|].
           exists []. rewrite app_nil_r. split; [reflexivity|left; reflexivity].
        -- intros [[H _]|[[[t H] _]|(N0 & N1 & s & H & [->|[t ->]])]].
           ++ discriminate.
           ++ inversion H; subst. exfalso. apply N. left. reflexivity.
           ++ rewrite app_nil_r in H. congruence.
           ++ exfalso. apply N. rewrite H. apply in_app_iff. right. left. reflexivity.
      * destruct a as [|a0 a].
        -- change (strip_slash ([] ++ [slash])) with [slash]. split.
           ++ intros H. inversion H. right. left. split; [eexists; reflexivity|reflexivity].
           ++ intros [[H _]|[[_ ->]|(N0 & N1 & s & H & _)]]; [discriminate|reflexivity|].
              destruct n as [|n0 n]; [congruence|]. inversion H; subst. exfalso. apply N1. left. reflexivity.
        -- rewrite strip_end by discriminate. split.
           ++ intros H. inversion H; subst. right. right. split; [discriminate|]. split; [exact N|].
              eexists. split; [reflexivity|right; eauto].
           ++ intros [[H _]|[[[t' H] _]|(N0 & N1 & s & H & T)]].
              ** discriminate.
              ** inversion H; subst. exfalso. apply N. left. reflexivity.
              ** pose proof (cut_slash_of n s N1 T) as A.
                 rewrite <- H, (cut_slash_of _ (slash :: t) N) in A by (right; eauto).
                 inversion A. reflexivity.
  - set (bd := x :: bd'). assert (NE : bd <> []) by discriminate.
    assert (CH : child bd p n =
      ((n = [dot] /\ (p = bd \/ p = dirslash bd)) \/
       (p <> dirslash bd /\ ~ In slash n /\ exists s, p = dirslash bd ++ n ++ s /\ tail_ok s))) by reflexivity.
    rewrite CH. clear CH. unfold name_of. destruct (below_dir bd p) as [cp|] eqn:B.
    + destruct (cut_slash cp) as [a b] eqn:C. apply cut_slash_spec in C. destruct C as (E & N & T).
      assert (X : strip_slash (match b with _ :: _ => match bd with [] => a ++ [slash] | _ => a end | [] => cp end) = a).
      { destruct b as [|b0 b]; [rewrite E, app_nil_r|unfold bd]; apply strip_none; exact N. }
      rewrite X. clear X. clearbody bd.
      apply (below_some bd p cp NE) in B. split.
      * intros H. inversion H; subst n; clear H. destruct B as [[-> B]|[NC B]].
        -- left. split; [|exact B].
           pose proof (cut_slash_of [dot] [] dot_noslash (or_introl eq_refl)) as A.
           pose proof (cut_slash_of a b N T) as A2. rewrite <- E in A2. rewrite app_nil_r, A2 in A.
           inversion A. reflexivity.
        -- right. split.
           ++ rewrite B. intros H. rewrite <- (app_nil_r (dirslash bd)) in H at 2.
              apply app_inv_head in H. congruence.
           ++ split; [exact N|]. exists b. rewrite <- E. auto.
      * intros [[-> Q]|(Q & N1 & s & Q2 & T1)].
        -- destruct B as [[-> B]|[NC B]].
           ++ pose proof (cut_slash_of [dot] [] dot_noslash (or_introl eq_refl)) as A.
              pose proof (cut_slash_of a b N T) as A2. rewrite <- E in A2. rewrite app_nil_r, A2 in A.
              inversion A. reflexivity.
           ++ exfalso. destruct Q as [Q|Q]; rewrite Q in B.
              ** unfold dirslash in B. destruct (last_char bd =? slash).
                 --- rewrite <- (app_nil_r bd) in B at 1. apply app_inv_head in B. congruence.
                 --- rewrite <- (app_nil_r bd), <- !app_assoc in B at 1. apply app_inv_head in B. discriminate.
              ** rewrite <- (app_nil_r (dirslash bd)) in B at 1. apply app_inv_head in B. congruence.
        -- destruct B as [[-> [B|B]]|[NC B]].
           ++ exfalso. rewrite B in Q2, Q. unfold dirslash in *. destruct (last_char bd =? slash); [congruence|].
              rewrite <- (app_nil_r bd), <- !app_assoc in Q2 at 1. apply app_inv_head in Q2. discriminate.
           ++ congruence.
           ++ rewrite B in Q2. apply app_inv_head in Q2. rewrite Q2 in E.
              pose proof (cut_slash_of a b N T) as A. rewrite <- E, cut_slash_of in A by auto.
              inversion A. reflexivity.
    + clearbody bd. split; [discriminate|]. intros H. exfalso.
      assert (B2 : exists cp, below_dir bd p = Some cp).
      { destruct H as [[-> Q]|(Q & N1 & s & Q2 & T1)].
        - exists [dot]. apply (below_some bd p _ NE). left. auto.
        - exists (n ++ s). apply (below_some bd p _ NE). right. split; [|exact Q2].
          intros E. rewrite E, app_nil_r in Q2. congruence. }
      destruct B2 as [cp B2]. congruence.
Qed.

Lemma child_fun : forall bd p n m, child bd p n -> child bd p m -> n = m.
Proof. intros bd p n m A B. apply name_of_child in A. apply name_of_child in B. congruence. Qed.

(* ---------- names come together in a sorted manifest ---------- *)

Lemma path_le_lt_app : forall w s t, path_le (w ++ s) (w ++ t) -> path_le s t.
Proof.
  intros w s t [H|H]; [left; eapply app_inv_head; eauto|right; eapply path_lt_app_inv; eauto].
Qed.

Lemma path_le_trans : forall a b c, path_le a b -> path_le b c -> path_le a c.
Proof.
  intros a b c [->|H] [->|H2]; unfold path_le; auto. right. eapply path_lt_trans; eauto.
Qed.

Lemma path_le_app : forall w s, path_le w (w ++ s).
Proof.
  intros w [|c s]; [left; symmetry; apply app_nil_r|right].
  induction w as [|x w IH]; cbn [app]; [apply plt_nil|apply plt_tail; exact IH].
Qed.

(* between two extensions of w there are only extensions of w *)
Lemma between_app : forall w s t b, path_le (w ++ s) b -> path_le b (w ++ t) ->
  exists z, b = w ++ z /\ path_le s z /\ path_le z t.
Proof.
  intros w s t b A B. destruct (between_prefix w t b) as [z ->]; auto.
  - eapply path_le_trans; [apply path_le_app|exact A].
  - exists z. split; [reflexivity|]. split; eapply path_le_lt_app; eauto.
Qed.

Lemma le_slash : forall z t, path_le z (slash :: t) -> tail_ok z.
Proof.
  intros [|c z] t H; [left; reflexivity|right].
  destruct H as [H|H]; [inversion H; eauto|]. inversion H; subst; eauto.
  exfalso. unfold byte_lt in *. destruct H1 as [[? ?]|[? [? ?]]]; congruence.
Qed.

Lemma le_nil : forall z, path_le z [] -> z = [].
Proof. intros z [H|H]; [exact H|inversion H]. Qed.

Lemma le_tail : forall z t, tail_ok t -> path_le z t -> tail_ok z.
Proof.
  intros z t [->|[t' ->]] H; [left; apply le_nil; exact H|eapply le_slash; eauto].
Qed.

Lemma components_pre : forall u w, components (u ++ slash :: w) = components u ++ components w.
Proof.
  induction u as [|c u IH]; intros w; cbn [app components].
  - rewrite Z.eqb_refl. reflexivity.
  - rewrite IH. destruct (c =? slash); [reflexivity|].
    destruct (components u) as [|x xs] eqn:E; [|reflexivity].
    destruct u; cbn [components] in E; [discriminate|].
    destruct (z =? slash); [discriminate|]. destruct (components u); discriminate.
Qed.

Lemma components_head : forall n s, ~ In slash n -> tail_ok s -> In n (components (n ++ s)).
Proof.
  intros n s N [->|[t ->]].
  - rewrite app_nil_r. induction n as [|c n IH]; cbn [components]; [left; reflexivity|].
    destruct (c =? slash) eqn:E; [apply Z.eqb_eq in E; subst; exfalso; apply N; left; reflexivity|].
    assert (N2 : ~ In slash n) by (intros I; apply N; right; exact I). specialize (IH N2).
    assert (L : components n = [n]).
    { clear -N2. induction n as [|d n IH]; cbn [components]; [reflexivity|].
      destruct (d =? slash) eqn:E; [apply Z.eqb_eq in E; subst; exfalso; apply N2; left; reflexivity|].
      rewrite IH; [reflexivity|]. intros I. apply N2. right. exact I. }
    rewrite L. left. reflexivity.
  - rewrite components_pre. apply in_app_iff. left.
    induction n as [|c n IH]; cbn [components]; [left; reflexivity|].
    destruct (c =? slash) eqn:E; [apply Z.eqb_eq in E; subst; exfalso; apply N; left; reflexivity|].
    assert (N2 : ~ In slash n) by (intros I; apply N; right; exact I).
    assert (L : components n = [n]).
    { clear -N2. induction n as [|d n IH]; cbn [components]; [reflexivity|].
      destruct (d =? slash) eqn:E; [apply Z.eqb_eq in E; subst; exfalso; apply N2; left; reflexivity|].
      rewrite IH; [reflexivity|]. intros I. apply N2. right. exact I. }
    rewrite L. left. reflexivity.
Qed.

Lemma last_slash : forall s, s <> [] -> last_char s = slash -> exists r, s = r ++ [slash].
Proof.
  intros s N L. exists (removelast s). unfold last_char in L.
  rewrite (app_removelast_last 0 N) at 1. rewrite L. reflexivity.
Qed.

Lemma dirslash_end : forall bd, bd <> [] -> exists r, dirslash bd = r ++ [slash].
Proof.
  intros bd N. unfold dirslash. destruct (last_char bd =? slash) eqn:E; [|eauto].
  apply last_slash; [exact N|]. apply Z.eqb_eq. exact E.
Qed.

(* no entry of a manifest has a component "." (C13) *)
Definition no_dot (p : bytes) : Prop := ~ In [dot] (components p).

Lemma child_convex : forall bd a b c n, no_dot a -> no_dot c ->
  path_le a b -> path_le b c -> child bd a n -> child bd c n -> child bd b n.
Proof.
  intros bd a b c n Da Dc Hab Hbc Ca Cc. destruct bd as [|x bd'].
  - unfold child in *. destruct Ca as [[-> ->]|[[[t ->] ->]|(N0 & N1 & s & -> & T)]].
    + destruct Cc as [[-> _]|[[_ H]|(_ & N1 & s & -> & T)]]; [|discriminate H|].
      * left. split; [apply le_nil; exact Hbc|reflexivity].
      * exfalso. apply Dc. apply components_head; auto.
    + destruct Cc as [[_ H]|[[[u ->] _]|(_ & N1 & _)]].
      * discriminate H.
      * right. left. split; [|reflexivity].
        destruct (between_app [slash] t u b Hab Hbc) as (z & -> & _). eexists. reflexivity.
      * exfalso. apply N1. left. reflexivity.
    + destruct Cc as [[_ H]|[[_ H]|(_ & _ & u & -> & U)]].
      * subst n. exfalso. apply Da. apply components_head; auto.
      * subst n. exfalso. apply N1. left. reflexivity.
      * right. right. split; [exact N0|]. split; [exact N1|].
        destruct (between_app n s u b Hab Hbc) as (z & -> & _ & Z). exists z. split; [reflexivity|].
        eapply le_tail; eauto.
  - set (bd := x :: bd') in *. assert (NE : bd <> []) by discriminate.
    assert (CH : forall p, child bd p n =
      ((n = [dot] /\ (p = bd \/ p = dirslash bd)) \/
       (p <> dirslash bd /\ ~ In slash n /\ exists s, p = dirslash bd ++ n ++ s /\ tail_ok s))) by reflexivity.
    rewrite !CH in *. clear CH. clearbody bd. clear x bd'.
    assert (ND : forall p, no_dot p -> forall s, p = dirslash bd ++ [dot] ++ s -> tail_ok s -> False).
    { intros p D s -> T. apply D. destruct (dirslash_end bd NE) as [r ->].
      rewrite <- app_assoc. change ([slash] ++ [dot] ++ s) with (slash :: [dot] ++ s).
      rewrite components_pre. apply in_app_iff. right. apply components_head; [exact dot_noslash|exact T]. }
    destruct Ca as [[-> Ca]|(Na & N1 & s & Ea & T)].
    + destruct Cc as [[_ Cc]|(_ & _ & s & Ec & T)]; [|exfalso; eapply (ND c); eauto].
      left. split; [reflexivity|]. unfold dirslash in *. destruct (last_char bd =? slash).
      * assert (A : a = bd) by tauto. assert (C : c = bd) by tauto. subst a c. left.
        destruct (between_app bd [] [] b) as (z & -> & _ & Z); rewrite ?app_nil_r; auto.
        rewrite (le_nil _ Z), app_nil_r. reflexivity.
      * assert (A : exists s, a = bd ++ s /\ (s = [] \/ s = [slash])).
        { destruct Ca as [->| ->]; [exists []; rewrite app_nil_r; auto|exists [slash]; auto]. }
        assert (C : exists s, c = bd ++ s /\ (s = [] \/ s = [slash])).
        { destruct Cc as [->| ->]; [exists []; rewrite app_nil_r; auto|exists [slash]; auto]. }
        destruct A as (sa & -> & _). destruct C as (sc & -> & C).
        destruct (between_app bd sa sc b Hab Hbc) as (z & -> & _ & Z).
        destruct C as [->| ->].
        -- left. rewrite (le_nil _ Z). apply app_nil_r.
        -- destruct (le_slash _ _ Z) as [->|[t ->]]; [left; apply app_nil_r|].
           right. apply (path_le_lt_app [slash] t []) in Z. rewrite (le_nil _ Z). reflexivity.
    + destruct Cc as [[-> _]|(Nc & _ & u & Ec & U)]; [exfalso; eapply (ND a); eauto|].
      right. rewrite Ea, Ec in *. rewrite !app_assoc in *.
      destruct (between_app (dirslash bd ++ n) s u b Hab Hbc) as (z & -> & S & Z).
      rewrite <- !app_assoc in *. split; [|split; [exact N1|exists z; split; [reflexivity|eapply le_tail; eauto]]].
      intros H. rewrite <- (app_nil_r (dirslash bd)) in H at 2. apply app_inv_head in H.
      apply app_eq_nil in H. destruct H as [-> ->]. apply Na.
      assert (s = []) by (apply le_nil; exact S). subst. rewrite !app_nil_r. reflexivity.
Qed.

(* ---------- which entries are listed ---------- *)

Definition epath (e : ent) : bytes := text (e_path e).
(* Entries that hold only metadata are not listed. *)
Definition shown (e : ent) : Prop := kind_of (e_cmd e) = KPlain.

(* A manifest as phase 3 writes it (C16). *)
Definition manifest_ok (es : list ent) : Prop :=
  Forall (fun e => exists s, ibuf (e_path e) = Some s /\ raw s /\ no_dots s) es /\
  StronglySorted (fun a b => ent_lt (e_sb a) (e_sb b)) es.

(* e is the first entry of the manifest that shows as n in the directory. *)
Definition first_for (bd : bytes) (es : list ent) (e : ent) (n : bytes) : Prop :=
  exists es1 es2, es = es1 ++ e :: es2 /\ shown e /\ child bd (epath e) n /\
    forall x, In x es1 -> shown x -> ~ child bd (epath x) n.

(* The names in a directory, each with its entry: each name once, all of them,
   in the order of the manifest. *)
Definition dir_items (bd : bytes) (es : list ent) (items : list (ent * bytes)) : Prop :=
  NoDup (map snd items) /\
  (forall n, In n (map snd items) <-> exists e, In e es /\ shown e /\ child bd (epath e) n) /\
  (forall e n, In (e, n) items -> first_for bd es e n) /\
  StronglySorted (fun a b => ent_lt (e_sb a) (e_sb b)) (map fst items).

Lemma shown_meta : forall e, cmd_is_metadata (e_cmd e) = false <-> shown e.
Proof.
  intros e. unfold shown, cmd_is_metadata, cmd_is_vssdata, kind_of,
    CMD_VSS, CMD_ENC_VSS, CMD_VSS_T, CMD_ENC_VSS_T, CMD_METADATA, CMD_ENC_METADATA.
  destruct (e_cmd e =? 118) eqn:E1, (e_cmd e =? 86) eqn:E2, (e_cmd e =? 109) eqn:E3, (e_cmd e =? 110) eqn:E4,
    (e_cmd e =? 117) eqn:E5, (e_cmd e =? 85) eqn:E6; cbn; split; intros H; congruence.
Qed.

(* The entries listed, as the loop finds them. *)
Fixpoint picks (bd : bytes) (lastm : option bytes) (es : list ent) : list (ent * bytes) :=
  match es with
  | [] => []
  | e :: es' =>
    if cmd_is_metadata (e_cmd e) then picks bd lastm es'
    else match name_of bd (epath e) with
         | None => picks bd lastm es'
         | Some n => if match lastm with Some l => beqb l n | None => false end
                     then picks bd lastm es' else (e, n) :: picks bd (Some n) es'
         end
  end.

Lemma picks_in : forall bd es lastm e n, In (e, n) (picks bd lastm es) ->
  exists es1 es2, es = es1 ++ e :: es2 /\ shown e /\ child bd (epath e) n.
Proof.
  induction es as [|x es IH]; intros lastm e n H; cbn [picks] in H; [destruct H|].
  destruct (cmd_is_metadata (e_cmd x)) eqn:M.
  { destruct (IH _ _ _ H) as (a & b & -> & R). exists (x :: a), b. auto. }
  destruct (name_of bd (epath x)) as [m|] eqn:N.
  2:{ destruct (IH _ _ _ H) as (a & b & -> & R). exists (x :: a), b. auto. }
  destruct (match lastm with Some l => beqb l m | None => false end).
  { destruct (IH _ _ _ H) as (a & b & -> & R). exists (x :: a), b. auto. }
  destruct H as [H|H].
  - inversion H; subst. exists [], es. split; [reflexivity|]. split; [apply shown_meta; exact M|].
    apply name_of_child. exact N.
  - destruct (IH _ _ _ H) as (a & b & -> & R). exists (x :: a), b. auto.
Qed.

Lemma picks_all : forall bd es lastm e n, In e es -> shown e -> child bd (epath e) n ->
  lastm = Some n \/ In n (map snd (picks bd lastm es)).
Proof.
  induction es as [|x es IH]; intros lastm e n I S C; [destruct I|]. cbn [picks].
  destruct I as [->|I].
  - apply shown_meta in S. rewrite S. apply name_of_child in C. rewrite C.
    destruct lastm as [l|]; [|right; left; reflexivity].
    destruct (beqb l n) eqn:B; [apply beqb_eq in B; subst; auto|right; left; reflexivity].
  - destruct (cmd_is_metadata (e_cmd x)); [eauto|].
    destruct (name_of bd (epath x)) as [m|]; [|eauto].
    destruct (match lastm with Some l => beqb l m | None => false end); [eauto|].
    destruct (IH (Some m) e n I S C) as [H|H]; [|right; right; exact H].
    inversion H; subst. right. left. reflexivity.
Qed.

Lemma sorted_le : forall a b, (exists s, ibuf (e_path a) = Some s /\ raw s /\ no_dots s) ->
  (exists s, ibuf (e_path b) = Some s /\ raw s /\ no_dots s) ->
  ent_lt (e_sb a) (e_sb b) -> path_le (epath a) (epath b).
Proof.
  intros a b (s & A & _) (t & B & _) H. unfold ent_lt, entry_lt, ipath in H.
  unfold epath, text. unfold e_path in *. rewrite A, B in *. cbn [option_map opath_lt] in H.
  destruct H as [H|[H _]]; [right; exact H|left; congruence].
Qed.

Lemma ok_no_dot : forall e, (exists s, ibuf (e_path e) = Some s /\ raw s /\ no_dots s) -> no_dot (epath e).
Proof.
  intros e (s & A & _ & N). unfold no_dot, epath, text. rewrite A. unfold no_dots in N. tauto.
Qed.

(* With the last match carried along: it is the name of some entry before, and
   everything listed from here on is another name. *)
Lemma picks_fresh : forall bd es lastm, manifest_ok es ->
  match lastm with
  | None => True
  | Some l => exists x, no_dot (epath x) /\ child bd (epath x) l /\
                Forall (fun y => path_le (epath x) (epath y)) es
  end ->
  NoDup (map snd (picks bd lastm es)) /\
  (forall l, lastm = Some l -> ~ In l (map snd (picks bd lastm es))) /\
  (forall e n, In (e, n) (picks bd lastm es) -> first_for bd es e n).
Proof.
  induction es as [|x es IH]; intros lastm OK L; cbn [picks map].
  - split; [constructor|]. split; [intros l _ []|intros e n []].
  - destruct OK as [F S]. inversion F as [|? ? Fx F']; subst. inversion S as [|? ? S' Sx]; subst.
    assert (OK' : manifest_ok es) by (split; assumption).
    assert (LE : Forall (fun y => path_le (epath x) (epath y)) es).
    { rewrite Forall_forall in *. intros y I. apply sorted_le; auto. }
    assert (L' : match lastm with
                 | None => True
                 | Some l => exists x, no_dot (epath x) /\ child bd (epath x) l /\
                               Forall (fun y => path_le (epath x) (epath y)) es
                 end).
    { destruct lastm as [l|]; [|exact I]. destruct L as (z & D & C & Fz). exists z.
      inversion Fz; subst. auto. }
    (* an entry left out takes no name from a later one *)
    assert (G : (forall n, shown x -> child bd (epath x) n -> lastm = Some n) ->
      NoDup (map snd (picks bd lastm es)) /\
      (forall l, lastm = Some l -> ~ In l (map snd (picks bd lastm es))) /\
      (forall e n, In (e, n) (picks bd lastm es) -> first_for bd (x :: es) e n)).
    { intros Q. destruct (IH lastm OK' L') as (A & B & C). split; [exact A|]. split; [exact B|].
      intros e n I. destruct (C e n I) as (a & b & -> & Se & Ce & N).
      exists (x :: a), b. split; [reflexivity|]. split; [exact Se|]. split; [exact Ce|].
      intros y [<-|Iy] Sy Cy; [|exact (N y Iy Sy Cy)].
      apply (B n (Q n Sy Cy)). apply in_map_iff. exists (e, n). auto. }
    destruct (cmd_is_metadata (e_cmd x)) eqn:M.
    { apply G. intros n Sx'. apply shown_meta in Sx'. congruence. }
    destruct (name_of bd (epath x)) as [m|] eqn:N.
    2:{ apply G. intros n _ C. apply name_of_child in C. congruence. }
    assert (Cx : child bd (epath x) m) by (apply name_of_child; exact N).
    destruct (match lastm with Some l => beqb l m | None => false end) eqn:B.
    { apply G. intros n _ C. pose proof (child_fun _ _ _ _ C Cx). subst n.
      destruct lastm as [l|]; [|discriminate]. apply beqb_eq in B. congruence. }
    assert (Dx : no_dot (epath x)) by (apply ok_no_dot; exact Fx).
    destruct (IH (Some m) OK') as (A1 & A2 & A3).
    { exists x. auto. }
    cbn [map snd]. split; [constructor; [apply A2; reflexivity|exact A1]|]. split.
    + intros l -> [H|H].
      * subst m. rewrite (proj2 (beqb_eq l l) eq_refl) in B. discriminate.
      * (* l before x, m at x, l again after: x would be l *)
        apply in_map_iff in H. destruct H as ([e l'] & E & I). cbn [snd] in E. subst l'.
        apply picks_in in I. destruct I as (a & b & -> & _ & Ce).
        destruct L as (z & Dz & Cz & Fz). inversion Fz as [|? ? Zx _]; subst.
        assert (Ie : In e (a ++ e :: b)) by (apply in_app_iff; right; left; reflexivity).
        assert (C : child bd (epath x) l).
        { apply (child_convex bd (epath z) (epath x) (epath e) l); auto.
          - apply ok_no_dot. rewrite Forall_forall in F'. auto.
          - rewrite Forall_forall in LE. auto. }
        rewrite (child_fun _ _ _ _ C Cx), (proj2 (beqb_eq m m) eq_refl) in B. discriminate.
    + intros e n [H|H].
      * inversion H; subst. exists [], es. split; [reflexivity|]. split; [apply shown_meta; exact M|].
        split; [exact Cx|]. intros y [].
      * destruct (A3 e n H) as (a & b & -> & Se & Ce & Ne). exists (x :: a), b.
        split; [reflexivity|]. split; [exact Se|]. split; [exact Ce|].
        intros y [<-|Iy] Sy Cy; [|exact (Ne y Iy Sy Cy)].
        apply (A2 m eq_refl). apply in_map_iff. exists (e, n). split; [|exact H].
        cbn [snd]. eapply child_fun; eauto.
Qed.

Lemma picks_sorted : forall bd es lastm, StronglySorted (fun a b => ent_lt (e_sb a) (e_sb b)) es ->
  StronglySorted (fun a b => ent_lt (e_sb a) (e_sb b)) (map fst (picks bd lastm es)).
Proof.
  induction es as [|x es IH]; intros lastm S; cbn [picks map]; [constructor|].
  inversion S as [|? ? S' F]; subst.
  destruct (cmd_is_metadata (e_cmd x)); [auto|]. destruct (name_of bd (epath x)) as [m|]; [|auto].
  destruct (match lastm with Some l => beqb l m | None => false end); [auto|].
  cbn [map fst]. constructor; [auto|]. rewrite Forall_forall in *. intros y I.
  apply in_map_iff in I. destruct I as ([e n] & <- & I). apply picks_in in I.
  destruct I as (a & b & -> & _). apply F. apply in_app_iff. right. left. reflexivity.
Qed.

Theorem picks_items : forall bd es, manifest_ok es -> dir_items bd es (picks bd None es).
Proof.
  intros bd es OK. destruct (picks_fresh bd es None OK I) as (A & _ & C).
  split; [exact A|]. split; [|split; [exact C|apply picks_sorted; apply OK]].
  intros n. split.
  - intros H. apply in_map_iff in H. destruct H as ([e m] & E & H). cbn [snd] in E. subst m.
    apply picks_in in H. destruct H as (a & b & -> & S & Ch). exists e. split; [|auto].
    apply in_app_iff. right. left. reflexivity.
  - intros (e & Ie & S & Ch). destruct (picks_all bd es None e n Ie S Ch) as [H|H]; [discriminate|exact H].
Qed.

(* ---------- what is sent ---------- *)

(* The path goes on below the name it shows as. *)
Definition deeper (bd p : bytes) : Prop :=
  match bd with
  | [] => In slash p
  | _ => exists q, p = dirslash bd ++ q /\ In slash q
  end.
(* It is to show as a directory. *)
Definition marks (bd : bytes) (e : ent) : Prop :=
  deeper bd (epath e) \/ (epath e = [slash] /\ bd = [slash]) \/ e_cmd e = CMD_DIRECTORY.

(* The attributes held with an entry are those of its attr string. *)
Definition faithful (e : ent) : Prop :=
  attrs_ok (e_at e) /\ icmd (s_attr (e_sb e)) = CMD_ATTRIBS /\
  exists s, ibuf (s_attr (e_sb e)) = Some s /\ forall old, attribs_decode (cview s) old = Some (e_at e).

(* The attributes sent for an entry: its own, as those of a directory if it is
   to show as one. *)
Definition attr_msg (bd : bytes) (e : ent) (m : lout) : Prop :=
  exists s a, m = LMsg (CMD_ATTRIBS, s) /\ (forall old, attribs_decode (cview s) old = Some a) /\
    a = set_mode (st_mode a) (e_at e) /\
    (marks bd e -> mode_isdir (st_mode a) = true /\ Z.land (st_mode a) 4095 = Z.land (st_mode (e_at e)) 4095) /\
    (~ marks bd e -> a = e_at e).

(* A message in which the client reads the name n. *)
Definition name_msg (c : Z) (n : bytes) (m : lout) : Prop :=
  (exists b, m = LMsg (c, b) /\ cview b = n) \/ (exists k, m = LOver c n k).

(* The messages for a name. *)
Definition item_msgs (bd : bytes) (it : ent * bytes) (ms : list lout) : Prop :=
  exists ma mn, attr_msg bd (fst it) ma /\ name_msg (e_cmd (fst it)) (snd it) mn /\
    ms = ma :: mn :: if cmd_is_link (e_cmd (fst it)) then [send_iobuf (s_link (e_sb (fst it)))] else [].

Definition accepts (rx : option (bytes -> bool)) (n : bytes) : bool :=
  match rx with None => true | Some f => f n end.

Definition not_found (bd : bytes) (items : list (ent * bytes)) : list lout :=
  match bd, items with
  | _ :: _, [] => [LMsg (CMD_ERROR, str "directory not found")]
  | _, _ => []
  end.

Lemma set_mode_at : forall a v, st_mode (set_mode v a) = to_uint32 v.
Proof. reflexivity. Qed.

Lemma mod32 : forall x c, Z.land (2 ^ 32 - 1) c = c -> Z.land (to_uint32 x) c = Z.land x c.
Proof.
  intros x c H. unfold to_uint32. rewrite <- Z.land_ones by lia. rewrite <- Z.land_assoc.
  change (Z.ones 32) with (2 ^ 32 - 1). rewrite H. reflexivity.
Qed.

Lemma dir_mode_isdir : forall m, mode_isdir (to_uint32 (dir_mode m)) = true.
Proof.
  intros m. unfold mode_isdir. rewrite mod32 by reflexivity. unfold dir_mode.
  rewrite Z.land_lor_distr_l, Z.land_ldiff. reflexivity.
Qed.

Lemma dir_mode_perm : forall m, Z.land (to_uint32 (dir_mode m)) 4095 = Z.land m 4095.
Proof.
  intros m. rewrite mod32 by reflexivity. unfold dir_mode. rewrite Z.land_lor_distr_l.
  rewrite Z.ldiff_land, <- Z.land_assoc.
  change (Z.land (Z.lnot 61440) 4095) with 4095. change (Z.land 16384 4095) with 0. apply Z.lor_0_r.
Qed.

Lemma set_mode_ok : forall a v, attrs_ok a -> attrs_ok (set_mode v a).
Proof.
  intros a v H. unfold attrs_ok in *. cbn.
  assert (u32 (to_uint32 v)) by (unfold u32, to_uint32; apply Z.mod_pos_bound; lia). tauto.
Qed.

Lemma set_mode_same : forall a, attrs_ok a -> a = set_mode (st_mode a) a.
Proof.
  intros a H. unfold set_mode. rewrite cast_u32; [destruct a; reflexivity|].
  unfold attrs_ok in H. tauto.
Qed.

Lemma set_mode_again : forall a v, set_mode v a = set_mode (st_mode (set_mode v a)) a.
Proof.
  intros a v. unfold set_mode. cbn. f_equal. unfold to_uint32.
  rewrite Z.mod_mod by lia. reflexivity.
Qed.

Lemma cview_cstr_id : forall s, cstr s -> cview s = s.
Proof.
  induction s as [|c s IH]; intros H; cbn [cview]; [reflexivity|]. inversion H as [|? ? C H']; subst.
  destruct (c =? 0) eqn:E; [apply Z.eqb_eq in E; unfold is_char, is_byte in C; lia|]. rewrite IH; auto.
Qed.

Lemma fake_attr : forall e, faithful e ->
  let e' := maybe_fake_directory e in
  e_path e' = e_path e /\ s_link (e_sb e') = s_link (e_sb e) /\
  exists s a, send_iobuf (s_attr (e_sb e')) = LMsg (CMD_ATTRIBS, s) /\
    (forall old, attribs_decode (cview s) old = Some a) /\
    a = set_mode (st_mode a) (e_at e) /\
    mode_isdir (st_mode a) = true /\ Z.land (st_mode a) 4095 = Z.land (st_mode (e_at e)) 4095.
Proof.
  intros e (OK & C & s & B & D). cbv zeta. unfold maybe_fake_directory.
  destruct (mode_isdir (st_mode (e_at e))) eqn:M.
  - split; [reflexivity|]. split; [reflexivity|]. exists s, (e_at e).
    unfold send_iobuf. rewrite B, C. split; [reflexivity|]. split; [exact D|].
    split; [apply set_mode_same; exact OK|]. auto.
  - split; [reflexivity|]. split; [reflexivity|].
    set (a := set_mode (dir_mode (st_mode (e_at e))) (e_at e)).
    assert (OKa : attrs_ok a) by (apply set_mode_ok; exact OK).
    destruct (attribs_roundtrip a (e_at e) OKa) as (t & E & Ct & _).
    exists t, a. cbn [e_sb s_attr set_attr]. unfold send_iobuf. cbn [ibuf icmd]. rewrite E.
    split; [reflexivity|]. split.
    { intros old. rewrite cview_cstr_id by exact Ct.
      destruct (attribs_roundtrip a old OKa) as (t2 & E2 & _ & _ & D2). congruence. }
    split; [apply set_mode_again|]. unfold a. rewrite set_mode_at.
    split; [apply dir_mode_isdir|apply dir_mode_perm].
Qed.

(* check_browsedir() finds that mark. *)
Definition marksb (bd : bytes) (e : ent) : bool :=
  match below_dir bd (epath e) with
  | None => false
  | Some cp => match snd (cut_slash cp) with
               | _ :: _ => true
               | [] => (beqb (epath e) [slash] && beqb bd [slash]) || (e_cmd e =? CMD_DIRECTORY)
               end
  end.

Lemma marksb_spec : forall bd e n, child bd (epath e) n -> (marksb bd e = true <-> marks bd e).
Proof.
  intros bd e n C. unfold marksb, marks. apply name_of_child in C. unfold name_of in C.
  destruct (below_dir bd (epath e)) as [cp|] eqn:B; [|discriminate].
  destruct (cut_slash cp) as [a b] eqn:K. cbn [snd]. apply cut_slash_spec in K. destruct K as (E & N & T).
  assert (D : deeper bd (epath e) <-> In slash cp).
  { unfold deeper. destruct bd as [|x bd'].
    - rewrite below_root in B. destruct (epath e) as [|c p]; inversion B; subst; [|tauto].
      split; [intros []|]. intros H. exfalso. exact (dot_noslash H).
    - apply below_some in B; [|discriminate]. set (bd := x :: bd') in *. clearbody bd.
      destruct B as [[-> B]|[NC B]].
      + split; [|intros H; exfalso; exact (dot_noslash H)]. intros (q & Q & I). exfalso.
        destruct B as [B|B]; rewrite B in Q.
        * unfold dirslash in Q. destruct (last_char bd =? slash).
          -- rewrite <- (app_nil_r bd) in Q at 1. apply app_inv_head in Q. subst. destruct I.
          -- rewrite <- (app_nil_r bd), <- !app_assoc in Q at 1. apply app_inv_head in Q. discriminate.
        * rewrite <- (app_nil_r (dirslash bd)) in Q at 1. apply app_inv_head in Q. subst. destruct I.
      + split.
        * intros (q & Q & I). rewrite B in Q. apply app_inv_head in Q. subst. exact I.
        * intros I. exists cp. auto. }
  rewrite D. destruct T as [->|[t ->]].
  - rewrite app_nil_r in E. subst a. rewrite orb_true_iff, andb_true_iff, Z.eqb_eq, !beqb_eq. tauto.
  - split; [|reflexivity]. intros _. left. rewrite E. apply in_app_iff. right. left. reflexivity.
Qed.

Definition listed (bd : bytes) (e : ent) : ent := if marksb bd e then maybe_fake_directory e else e.

Lemma fake_path : forall e, e_path (maybe_fake_directory e) = e_path e.
Proof. intros e. unfold maybe_fake_directory. destruct (mode_isdir (st_mode (e_at e))); reflexivity. Qed.

Lemma listed_path : forall bd e, e_path (listed bd e) = e_path e.
Proof. intros bd e. unfold listed. destruct (marksb bd e); [apply fake_path|reflexivity]. Qed.

Lemma check_spec : forall bd e lastm,
  match name_of bd (epath e) with
  | None => check_browsedir bd e lastm = (e, None, lastm)
  | Some n =>
    check_browsedir bd e lastm =
      if match lastm with Some l => beqb l n | None => false end
      then (listed bd e, None, lastm) else (listed bd e, Some n, Some n)
  end.
Proof.
  intros bd e lastm. unfold name_of, check_browsedir, listed, marksb. fold (epath e).
  destruct (below_dir bd (epath e)) as [cp|]; [|reflexivity].
  destruct (cut_slash cp) as [a b] eqn:K. cbn [snd]. destruct b as [|b0 b].
  - apply cut_slash_spec in K. destruct K as (E & _). rewrite app_nil_r in E. subst a.
    destruct ((beqb (epath e) [slash] && beqb bd [slash]) || (e_cmd e =? CMD_DIRECTORY)); reflexivity.
  - reflexivity.
Qed.

Lemma child_len : forall bd p n, p <> [] -> child bd p n -> (List.length n <= List.length p)%nat.
Proof.
  intros bd p n NE C. unfold child in C. destruct bd as [|x bd'].
  - destruct C as [[-> _]|[[[t ->] ->]|(_ & _ & s & -> & _)]]; [congruence|cbn; lia|rewrite app_length; lia].
  - destruct C as [[-> _]|(_ & _ & s & -> & _)]; [destruct p; [congruence|cbn; lia]|].
    rewrite !app_length. lia.
Qed.

Lemma child_cstr : forall bd p n, cstr p -> child bd p n -> cstr n.
Proof.
  assert (DC : cstr [dot]) by (constructor; [unfold is_char, is_byte, dot; lia|constructor]).
  intros bd p n Cp C. unfold child in C. unfold cstr in *. destruct bd as [|x bd'].
  - destruct C as [[_ ->]|[[[t ->] ->]|(_ & _ & s & -> & _)]]; [exact DC| |].
    + inversion Cp; subst. constructor; [assumption|constructor].
    + apply Forall_app in Cp. tauto.
  - destruct C as [[-> _]|(_ & _ & s & -> & _)]; [exact DC|].
    apply Forall_app in Cp. destruct Cp as [_ Cp]. apply Forall_app in Cp. tauto.
Qed.

Lemma cview_app0 : forall n s, cstr n -> cview (n ++ 0 :: s) = n.
Proof.
  induction n as [|c n IH]; intros s H; cbn [app cview]; [reflexivity|]. inversion H as [|? ? C H']; subst.
  destruct (c =? 0) eqn:E; [apply Z.eqb_eq in E; unfold is_char, is_byte in C; lia|]. rewrite IH; auto.
Qed.

Lemma cview_len : forall s, (List.length (cview s) <= List.length s)%nat.
Proof. induction s as [|c s IH]; cbn [cview]; [lia|]. destruct (c =? 0); cbn [List.length]; lia. Qed.

Lemma send_name_reads : forall c n k, cstr n -> (List.length n <= k)%nat -> name_msg c n (send_name c n k).
Proof.
  intros c n k C L. unfold send_name, name_msg. destruct (k <=? S (List.length n))%nat eqn:E; [|eauto].
  left. eexists. split; [reflexivity|]. apply Nat.leb_le in E.
  assert (K : k = List.length n \/ k = S (List.length n)) by lia.
  destruct K as [->| ->].
  - rewrite firstn_app, firstn_all, Nat.sub_diag. cbn [firstn]. rewrite app_nil_r. apply cview_cstr_id. exact C.
  - rewrite firstn_all2 by (rewrite app_length; cbn; lia). apply cview_app0. exact C.
Qed.

Lemma item_sent : forall bd e n, faithful e -> epath e <> [] -> (exists s, ibuf (e_path e) = Some s /\ raw s /\ no_dots s) ->
  child bd (epath e) n -> item_msgs bd (e, n) (send_entry (listed bd e) (Some n)).
Proof.
  intros bd e n F NE (s & B & R & _) C. unfold item_msgs, send_entry. cbn [fst snd].
  assert (P : path_len (listed bd e) = path_len e /\ e_cmd (listed bd e) = e_cmd e).
  { unfold path_len, e_cmd. rewrite listed_path. auto. }
  destruct P as [-> ->].
  eexists. eexists. split; [|split; [|f_equal; f_equal]].
  - unfold attr_msg, listed. pose proof (marksb_spec bd e n C) as M.
    destruct (marksb bd e).
    + destruct (fake_attr e F) as (_ & _ & t & a & E & D & A & X & Y). exists t, a.
      split; [exact E|]. split; [exact D|]. split; [exact A|]. split; [auto|]. intros Q. exfalso. apply Q. tauto.
    + destruct F as (OK & Ca & t & Bt & D). exists t, (e_at e).
      unfold send_iobuf. rewrite Bt, Ca. split; [reflexivity|]. split; [exact D|].
      split; [apply set_mode_same; exact OK|]. split; [|auto]. intros Q. apply M in Q. discriminate.
  - apply send_name_reads.
    + eapply child_cstr; [|exact C]. unfold epath, text. rewrite B. apply cview_cstr. exact R.
    + pose proof (child_len _ _ _ NE C) as L. unfold path_len. rewrite B.
      unfold epath, text in L. rewrite B in L. pose proof (cview_len s). lia.
  - destruct (cmd_is_link (e_cmd e)); [|reflexivity]. f_equal. f_equal. unfold listed.
    destruct (marksb bd e); [|reflexivity]. apply (fake_attr e F).
Qed.

Lemma list_manifest_picks : forall bd rx es lastm stop,
  list_manifest (Some bd) rx lastm es stop =
  (flat_map (fun it => send_entry (listed bd (fst it)) (Some (snd it)))
     (filter (fun it => accepts rx (snd it)) (picks bd lastm es))
   ++ match stop with
      | MErr => []
      | MEnd => match lastm with Some _ => [] | None => not_found bd (picks bd lastm es) end
      end,
   match stop with MEnd => true | MErr => false end).
Proof.
  induction es as [|e es IH]; intros lastm stop; cbn [list_manifest picks].
  - cbn [filter flat_map app]. destruct stop; [|reflexivity].
    destruct bd, lastm; reflexivity.
  - destruct (cmd_is_metadata (e_cmd e)); [apply IH|].
    pose proof (check_spec bd e lastm) as K. destruct (name_of bd (epath e)) as [n|].
    + destruct (match lastm with Some l => beqb l n | None => false end).
      * rewrite K. apply IH.
      * rewrite K. cbn [filter snd]. fold (accepts rx n).
        destruct rx as [f|]; cbn [accepts].
        -- destruct (f n); cbn [negb].
           ++ rewrite IH. cbn [flat_map fst snd]. rewrite <- app_assoc. f_equal. f_equal.
              f_equal. destruct stop, lastm; try reflexivity. destruct bd; reflexivity.
           ++ rewrite IH. f_equal. f_equal. destruct stop, lastm; try reflexivity. destruct bd; reflexivity.
        -- rewrite IH. cbn [flat_map fst snd]. rewrite <- app_assoc. f_equal. f_equal.
           f_equal. destruct stop, lastm; try reflexivity. destruct bd; reflexivity.
    + rewrite K. apply IH.
Qed.

(* The listing of a directory: exactly its names, each once, each with the
   attributes of its first entry, marked as a directory if something is below. *)
Theorem browse_listing : forall bd rx es stop,
  manifest_ok es -> Forall (fun e => epath e <> []) es -> Forall faithful es ->
  exists items outs, dir_items bd es items /\
    Forall2 (item_msgs bd) (filter (fun it => accepts rx (snd it)) items) outs /\
    list_manifest (Some bd) rx None es stop =
      (List.concat outs ++ match stop with MErr => [] | MEnd => not_found bd items end,
       match stop with MEnd => true | MErr => false end).
Proof.
  intros bd rx es stop OK NE F. exists (picks bd None es).
  exists (map (fun it => send_entry (listed bd (fst it)) (Some (snd it)))
            (filter (fun it => accepts rx (snd it)) (picks bd None es))).
  split; [apply picks_items; exact OK|]. split.
  - assert (A : forall it, In it (picks bd None es) ->
      item_msgs bd it (send_entry (listed bd (fst it)) (Some (snd it)))).
    { intros [e n] I. cbn [fst snd]. apply picks_in in I. destruct I as (a & b & E & _ & C).
      assert (Ie : In e es) by (rewrite E; apply in_app_iff; right; left; reflexivity).
      destruct OK as [O _]. rewrite Forall_forall in *. apply item_sent; auto. }
    induction (picks bd None es) as [|it l IH]; cbn [filter map]; [constructor|].
    destruct (accepts rx (snd it)); [|apply IH; intros x I; apply A; right; exact I].
    cbn [map]. constructor; [apply A; left; reflexivity|]. apply IH. intros x I. apply A. right. exact I.
  - rewrite list_manifest_picks, flat_map_concat_map. reflexivity.
Qed.

(* Without a directory every entry is listed as it is. *)
Theorem full_listing : forall rx es stop,
  list_manifest None rx None es stop =
  (flat_map (fun e => send_iobuf (s_attr (e_sb e)) :: send_iobuf (e_path e)
                      :: if cmd_is_link (e_cmd e) then [send_iobuf (s_link (e_sb e))] else [])
     (filter (fun e => negb (cmd_is_metadata (e_cmd e)) && accepts rx (epath e)) es),
   match stop with MEnd => true | MErr => false end).
Proof.
  intros rx es stop. induction es as [|e es IH]; cbn [list_manifest filter].
  - destruct stop; reflexivity.
  - destruct (cmd_is_metadata (e_cmd e)); cbn [negb andb]; [exact IH|]. fold (epath e).
    destruct rx as [f|]; cbn [accepts].
    + destruct (f (epath e)); cbn [negb]; [|exact IH]. rewrite IH. reflexivity.
    + rewrite IH. reflexivity.
Qed.

(* ---------- the length ---------- *)

(* Whenever a directory whose name has three characters or more is browsed and
   something is found, the server sends bytes from behind the name's buffer. *)
Theorem browse_overreads : forall bd es stop e,
  (3 <= List.length bd)%nat -> In e es -> shown e -> (exists n, child bd (epath e) n) ->
  exists c n k, In (LOver c n k) (fst (list_manifest (Some bd) None None es stop)) /\ (S (List.length n) < k)%nat.
Proof.
  intros bd es stop e L I Se (n & C).
  destruct (picks_all bd es None e n I Se C) as [H|H]; [discriminate|].
  apply in_map_iff in H. destruct H as ([x m] & E & H). cbn [snd] in E. subst m.
  pose proof H as H2. apply picks_in in H2. destruct H2 as (_ & _ & _ & _ & Cx).
  rewrite list_manifest_picks. cbn [fst].
  assert (K : (S (List.length n) < path_len x)%nat).
  { assert (P : (List.length (epath x) <= path_len x)%nat).
    { unfold epath, text, path_len. destruct (ibuf (e_path x)); [apply cview_len|cbn; lia]. }
    assert (DL : (List.length bd <= List.length (dirslash bd))%nat).
    { unfold dirslash. destruct (last_char bd =? slash); rewrite ?app_length; lia. }
    unfold child in Cx. destruct bd as [|y bd']; [cbn in L; lia|]. set (bd := y :: bd') in *. clearbody bd.
    destruct Cx as [[-> [Cx|Cx]]|(_ & _ & s & Cx & _)]; rewrite Cx in P; rewrite ?app_length in P;
      cbn [List.length]; lia. }
  exists (e_cmd x), n, (path_len x). split; [|exact K].
  apply in_app_iff. left. apply in_flat_map. exists (x, n). split.
  - apply filter_In. split; [exact H|reflexivity].
  - cbn [fst snd]. unfold send_entry. right. left. unfold send_name.
    assert (PL : path_len (listed bd x) = path_len x) by (unfold path_len; rewrite listed_path; reflexivity).
    assert (CL : e_cmd (listed bd x) = e_cmd x) by (unfold e_cmd; rewrite listed_path; reflexivity).
    rewrite PL, CL. destruct (path_len x <=? S (List.length n))%nat eqn:Q; [apply Nat.leb_le in Q; lia|reflexivity].
Qed.

(* ---------- which backups are listed ---------- *)

(* The backups as the server reads them: the number is that of the time stamp
   and not 0, no two have the same (C21, C23). *)
Definition backups_ok (l : list lbu) : Prop :=
  Forall (fun b => v_bno b = strtoul10 (v_stamp b) /\ 0 < v_bno b) l /\ NoDup (map v_bno l).

Definition heading (b : lbu) : lout := LMsg (CMD_TIMESTAMP, firstn 63 (v_stamp b ++ extradesc b)).
Definition said (s : bytes) : lout := LMsg (CMD_MESSAGE, s).

(* The whole request: /repo/src/server/list.c, from the strings of the client. *)
Definition listing (callback : lbu -> list lout * bool) (backup : bytes) (rx bd : bool) (l : list lbu)
  : list lout * bool :=
  do_list_server_work callback (fst (list_mode backup rx bd)) backup (snd (list_mode backup rx bd)) l.

Lemma strtoul_letter : forall c s, 65 <= c -> strtoul10 (c :: s) = 0.
Proof.
  intros c s H. unfold strtoul10. cbn [skip_ws].
  assert (W : isspace c = false).
  { unfold isspace. replace (c <=? 13) with false by lia. replace (c =? 32) with false by lia.
    rewrite andb_false_r. reflexivity. }
  rewrite W. cbn [hd0 tl].
  destruct (c =? 45) eqn:E1; [apply Z.eqb_eq in E1; lia|].
  destruct (c =? 43) eqn:E2; [apply Z.eqb_eq in E2; lia|].
  cbn [dec_run]. unfold isdigit.
  destruct (c <=? 57) eqn:E3; [apply Z.leb_le in E3; lia|]. rewrite andb_false_r. reflexivity.
Qed.

Lemma one_first : forall cb backup n l b, In b l -> one_matches backup n b = true ->
  (forall x, In x l -> one_matches backup n x = true -> x = b) ->
  list_contents_one cb backup n l = (heading b :: fst (cb b), if snd (cb b) then Some true else None).
Proof.
  intros cb backup n l b. induction l as [|x l IH]; intros I M U; [destruct I|].
  cbn [list_contents_one]. destruct (one_matches backup n x) eqn:Mx.
  - rewrite (U x (or_introl eq_refl) Mx) in *. destruct (cb b) as [o r]. reflexivity.
  - destruct I as [->|I]; [congruence|]. apply IH; auto. intros y Iy. apply U. right. exact Iy.
Qed.

Lemma one_none : forall cb backup n l, (forall x, In x l -> one_matches backup n x = false) ->
  list_contents_one cb backup n l = ([], Some false).
Proof.
  intros cb backup n l. induction l as [|x l IH]; intros U; [reflexivity|].
  cbn [list_contents_one]. rewrite (U x (or_introl eq_refl)). apply IH. intros y I. apply U. right. exact I.
Qed.

Lemma hd_letter : forall s, hd0 s = 99 -> strtoul10 s = 0.
Proof. intros [|c s] H; [reflexivity|]. cbn [hd0] in H. subst. apply strtoul_letter. lia. Qed.

Lemma nodup_bno : forall l a b, NoDup (map v_bno l) -> In a l -> In b l -> v_bno a = v_bno b -> a = b.
Proof.
  induction l as [|x l IH]; intros a b N A B E; [destruct A|]. inversion N as [|? ? N1 N2]; subst.
  destruct A as [->|A], B as [->|B]; auto.
  - exfalso. apply N1. rewrite E. apply in_map. exact B.
  - exfalso. apply N1. rewrite <- E. apply in_map. exact A.
Qed.

(* A number, or a whole time stamp, asks for that backup and no other. *)
Theorem listing_number : forall cb backup rx bd l, backups_ok l -> 0 < strtoul10 backup ->
  (forall b, In b l -> v_bno b = strtoul10 backup ->
     listing cb backup rx bd l = (heading b :: fst (cb b), snd (cb b))) /\
  ((forall b, In b l -> v_bno b <> strtoul10 backup) ->
     listing cb backup rx bd l = ([said (str "backup not found")], false)).
Proof.
  intros cb backup rx bd l [F N] P.
  assert (M : list_mode backup rx bd = (ModeOne, strtoul10 backup)).
  { unfold list_mode. destruct backup as [|c r]; [cbn in P; lia|].
    rewrite (proj2 (Z.ltb_lt _ _) P). reflexivity. }
  assert (H99 : (hd0 backup =? 99) = false).
  { apply Z.eqb_neq. intros H. rewrite (hd_letter _ H) in P. lia. }
  assert (K : forall x, In x l -> one_matches backup (strtoul10 backup) x = true -> v_bno x = strtoul10 backup).
  { intros x I H. unfold one_matches in H. rewrite H99, orb_false_r in H. apply orb_true_iff in H.
    destruct H as [H|H]; [|apply Z.eqb_eq; exact H]. apply beqb_eq in H.
    rewrite Forall_forall in F. destruct (F x I) as [-> _]. congruence. }
  unfold listing. rewrite M. cbn [fst snd]. split.
  - intros b I E. unfold do_list_server_work.
    rewrite (one_first cb backup (strtoul10 backup) l b I).
    + destruct (snd (cb b)); reflexivity.
    + unfold one_matches. rewrite (proj2 (Z.eqb_eq _ _) E), orb_true_r. reflexivity.
    + intros x Ix Mx. eapply nodup_bno; eauto. rewrite (K x Ix Mx). auto.
  - intros U. unfold do_list_server_work. rewrite one_none; [reflexivity|].
    intros x I. destruct (one_matches backup (strtoul10 backup) x) eqn:Q; [|reflexivity].
    exfalso. exact (U x I (K x I Q)).
Qed.

(* A word that begins with c asks for the current backup. *)
Theorem listing_current : forall cb r rx bd l, backups_ok l ->
  (forall b, In b l -> v_current b = true -> (forall x, In x l -> v_current x = true -> x = b) ->
     listing cb (99 :: r) rx bd l = (heading b :: fst (cb b), snd (cb b))) /\
  ((forall b, In b l -> v_current b = false) ->
     listing cb (99 :: r) rx bd l = ([said (str "backup not found")], false)).
Proof.
  intros cb r rx bd l [F N]. set (backup := 99 :: r).
  assert (Z0 : strtoul10 backup = 0) by (apply strtoul_letter; lia).
  assert (M : list_mode backup rx bd = (ModeOne, 0)).
  { unfold list_mode. unfold backup at 1. rewrite Z0. reflexivity. }
  assert (K : forall x, In x l -> one_matches backup 0 x = v_current x).
  { intros x I. rewrite Forall_forall in F. destruct (F x I) as [E P]. unfold one_matches.
    change (hd0 backup =? 99) with true.
    destruct (beqb (v_stamp x) backup) eqn:B; [apply beqb_eq in B; rewrite B in E; lia|].
    destruct (v_bno x =? 0) eqn:B2; [apply Z.eqb_eq in B2; lia|]. reflexivity. }
  unfold listing. rewrite M. cbn [fst snd]. unfold do_list_server_work. split.
  - intros b I C U. rewrite (one_first cb backup 0 l b I).
    + destruct (snd (cb b)); reflexivity.
    + rewrite K by exact I. exact C.
    + intros x Ix Mx. apply U; [exact Ix|]. rewrite <- K by exact Ix. exact Mx.
  - intros U. rewrite one_none; [reflexivity|]. intros x I. rewrite K by exact I. auto.
Qed.

(* All backups up to and with the first whose contents cannot be listed. *)
Fixpoint each (cb : lbu -> list lout * bool) (l : list lbu) : list lout * bool :=
  match l with
  | [] => ([], true)
  | b :: l' => if snd (cb b) then (heading b :: fst (cb b) ++ fst (each cb l'), snd (each cb l'))
               else (heading b :: fst (cb b), false)
  end.

Lemma many_each : forall cb l f, list_contents_many cb l f =
  (fst (each cb l), if snd (each cb l) then Some (f || match l with [] => false | _ => true end) else None).
Proof.
  intros cb. induction l as [|b l IH]; intros f; cbn [list_contents_many each].
  - cbn. rewrite orb_false_r. reflexivity.
  - destruct (cb b) as [o [|]]; cbn [fst snd]; [|reflexivity].
    rewrite IH. destruct (each cb l) as [o' [|]]; cbn [fst snd]; [|reflexivity].
    cbn [orb]. rewrite orb_true_r. reflexivity.
Qed.

(* A word that begins with a, or no backup with a regular expression or
   directory, asks for all. *)
Theorem listing_all : forall cb backup rx bd l,
  (exists r, backup = 97 :: r) \/ (backup = [] /\ rx || bd = true) ->
  listing cb backup rx bd l =
    match l with [] => ([said (str "backup not found")], false) | _ => each cb l end.
Proof.
  intros cb backup rx bd l H.
  assert (M : fst (list_mode backup rx bd) = ModeMany).
  { destruct H as [[r ->]|[-> H]]; unfold list_mode; [|rewrite H; reflexivity].
    rewrite (strtoul_letter 97 r) by lia. reflexivity. }
  unfold listing. rewrite M. unfold do_list_server_work. rewrite many_each.
  destruct l as [|b l]; [reflexivity|]. cbn [orb]. destruct (each cb (b :: l)) as [o [|]]; reflexivity.
Qed.

(* Nothing at all asks for the backups and not their contents. *)
Theorem listing_backups : forall cb l,
  listing cb [] false false l =
    (match l with [] => [said (str "no backups")] | _ => map heading l end, true).
Proof. intros cb [|b l]; reflexivity. Qed.

(* Anything else finds nothing. *)
Theorem listing_other : forall cb c r rx bd l, backups_ok l ->
  strtoul10 (c :: r) = 0 -> c <> 99 -> c <> 97 ->
  listing cb (c :: r) rx bd l = ([said (str "backup not found")], false).
Proof.
  intros cb c r rx bd l [F N] Z0 N1 N2.
  assert (M : list_mode (c :: r) rx bd = (ModeOne, 0)).
  { unfold list_mode. rewrite Z0. change (0 <? 0) with false. cbn iota.
    destruct (c =? 99); [reflexivity|]. destruct (c =? 97) eqn:E; [apply Z.eqb_eq in E; congruence|reflexivity]. }
  unfold listing. rewrite M. cbn [fst snd]. unfold do_list_server_work. rewrite one_none; [reflexivity|].
  intros x I. rewrite Forall_forall in F. destruct (F x I) as [E P]. unfold one_matches. cbn [hd0].
  destruct (beqb (v_stamp x) (c :: r)) eqn:B; [apply beqb_eq in B; rewrite B in E; lia|].
  destruct (v_bno x =? 0) eqn:B2; [apply Z.eqb_eq in B2; lia|].
  destruct (c =? 99) eqn:B3; [apply Z.eqb_eq in B3; congruence|reflexivity].
Qed.
