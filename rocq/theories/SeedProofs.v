(* Moving a first backup to another place: specification and proofs. *)
From Verif Require Import Bytes PathcmpModel PathcmpProofs RestoreModel AuthModel SeedModel.

(* ---- specification ---- *)
(* x under a directory *)
Definition under (dir x : bytes) : bytes := dir ++ slash :: x.
(* The path that is taken out: as it is, or, for one of Windows, without the slash that
   was put before it. *)
Definition same_dir (src dir : bytes) : Prop := src = dir \/ src = slash :: dir.
(* Data is kept under the path itself, or under a number. *)
Definition data_ok (e : ment) : Prop :=
  match m_data e with None => True | Some d => d = prepend_s (str "t") (m_path e) \/ hd0 d <> 116 end.
(* Where a file is after a directory was renamed. *)
Definition renamed (a b p q : bytes) : Prop :=
  (p = a /\ q = b) \/ (exists x, p = a ++ slash :: x /\ q = b ++ slash :: x) \/
  (p <> a /\ (forall x, p <> a ++ slash :: x) /\ q = p).

(* ---- proofs ---- *)
Lemma skip_app : forall a b, skip (List.length a) (a ++ b) = Some b.
Proof.
  intros a b. unfold skip. rewrite app_length. replace (List.length a + List.length b <? List.length a)%nat with false by (symmetry; apply Nat.ltb_ge; lia).
  rewrite skipn_app, skipn_all, Nat.sub_diag. auto.
Qed.
Lemma drop_plain : forall x, hd0 x <> slash -> drop_slash x = x.
Proof. intros x h. unfold drop_slash. replace (hd0 x =? slash) with false by lia. auto. Qed.
Lemma drop_one : forall x, drop_slash (slash :: x) = x.
Proof. intros x. reflexivity. Qed.
Lemma path_moved : forall src dir dst x, same_dir src dir -> hd0 x <> slash -> seed_path src dst (under dir x) = Some (under dst x).
Proof.
  intros src dir dst x [->| ->] h; unfold seed_path, under.
  - rewrite skip_app, drop_one. auto.
  - replace (dir ++ slash :: x) with ((dir ++ [slash]) ++ x) by (rewrite <- app_assoc; auto).
    replace (List.length (slash :: dir)) with (List.length (dir ++ [slash])) by (rewrite app_length; cbn; lia).
    rewrite skip_app, drop_plain by auto. auto.
Qed.
Lemma tree_of : forall p, p <> [] -> p <> [slash] -> prepend_s (str "t") p = str "t" ++ (if hd0 p =? slash then [] else [slash]) ++ p.
Proof.
  intros p h h'. unfold prepend_s. cbn [str]. change (str "t") with [116]. cbn [app]. f_equal. change 47 with slash.
  destruct p as [|c p]; [congruence|]. cbn [hd0 tl]. destruct (c =? slash) eqn:E; [|auto].
  assert (c = slash) by lia. subst c. destruct p; [congruence|]. reflexivity.
Qed.
Lemma hd_under : forall d x, d <> [] -> hd0 (under d x) = hd0 d.
Proof. intros [|c d] x h; [congruence|]. reflexivity. Qed.
Lemma under_long : forall d x, d <> [] -> under d x <> [] /\ under d x <> [slash].
Proof. intros [|c [|c' d]] x h; [congruence| |]; split; discriminate. Qed.
Lemma data_moved : forall src dir dst x, dir <> [] -> dst <> [] -> hd0 src = slash -> same_dir src dir -> (src = dir \/ hd0 dir <> slash) -> hd0 x <> slash ->
  seed_data src dst (prepend_s (str "t") (under dir x)) = Some (prepend_s (str "t") (under dst x)).
Proof.
  intros src dir dst x d0 t0 hs sd nd hx.
  destruct (under_long dir x d0). destruct (under_long dst x t0). rewrite !tree_of by auto. rewrite !hd_under by auto.
  assert (E : str "t" ++ (if hd0 dir =? slash then [] else [slash]) ++ under dir x = (str "t" ++ src) ++ slash :: x).
  { destruct sd as [->| ->].
    - replace (hd0 dir =? slash) with true by lia. unfold under. rewrite <- app_assoc. auto.
    - destruct nd as [e|e]; [exfalso; assert (L : List.length (slash :: dir) = List.length dir) by (rewrite e; auto); cbn in L; lia|].
      replace (hd0 dir =? slash) with false by lia. unfold under. rewrite <- app_assoc. auto. }
  rewrite E. unfold seed_data.
  replace (starts_with ((str "t" ++ src) ++ slash :: x) (str "t")) with true by (rewrite <- app_assoc; reflexivity).
  change (1 + List.length src)%nat with (List.length (str "t" ++ src)). rewrite skip_app, drop_one. unfold under. auto.
Qed.
Lemma not_t : forall src dst d, hd0 d <> 116 -> seed_data src dst d = Some d.
Proof.
  intros src dst d h. unfold seed_data. replace (starts_with d (str "t")) with false; auto. symmetry.
  destruct d as [|c d]; [reflexivity|]. change (str "t") with [116]. cbn [starts_with hd0] in *. replace (116 =? c) with false by lia. auto.
Qed.
(* The directory to take out, as it is on the client (dir) and as the server has it (src). *)
Definition seed_ok (src dir dst : bytes) : Prop :=
  dir <> [] /\ dst <> [] /\ hd0 src = slash /\ ((src = dir) \/ (src = slash :: dir /\ hd0 dir <> slash)).
Theorem seeded : forall src dir dst e x, seed_ok src dir dst -> m_path e = under dir x -> hd0 x <> slash -> data_ok e ->
  exists e', copy_entry (Some (src, dst)) e = Some e' /\ m_path e' = under dst x /\ data_ok e' /\
  m_cmd e' = m_cmd e /\ m_link e' = m_link e /\ m_rest e' = m_rest e /\
  match m_data e with None => m_data e' = None | Some d => exists d', m_data e' = Some d' /\ (hd0 d <> 116 -> d' = d) end.
Proof.
  intros src dir dst e x [d0 [t0 [hs so]]] p hx D.
  assert (sd : same_dir src dir) by (unfold same_dir; tauto).
  assert (nd : src = dir \/ hd0 dir <> slash) by tauto.
  unfold copy_entry. rewrite p, (path_moved src dir) by auto. unfold data_ok in *. rewrite p in D. destruct (m_data e) as [d|].
  - destruct D as [->|h].
    + rewrite (data_moved src dir dst x); auto. eexists. split; [reflexivity|]. cbn. repeat split; auto. eexists. split; [reflexivity|].
      intros C. exfalso. apply C. reflexivity.
    + rewrite not_t by auto. eexists. split; [reflexivity|]. cbn. repeat split; auto. eexists; split; auto.
  - eexists. split; [reflexivity|]. cbn. repeat split; auto.
Qed.
(* The data is where the renaming puts it. *)
Theorem found_again : forall src dir dst x, seed_ok src dir dst -> hd0 x <> slash ->
  renamed (move_from src) (move_to dst) (prepend_s (str "t") (under dir x)) (prepend_s (str "t") (under dst x)).
Proof.
  intros src dir dst x [d0 [t0 [hs so]]] hx. right; left. exists x. unfold move_from, move_to.
  destruct (under_long dir x d0). destruct (under_long dst x t0). rewrite !tree_of by auto. rewrite !hd_under by auto. unfold under. rewrite <- !app_assoc. split; auto.
  destruct so as [->|[-> h]]; [rewrite hs; auto|]. replace (hd0 dir =? slash) with false by lia. auto.
Qed.
(* The order stays. *)
Lemma lt_app : forall p a b, path_lt a b -> path_lt (p ++ a) (p ++ b).
Proof. induction p as [|c p IH]; intros a b h; cbn; auto. apply plt_tail; auto. Qed.
Theorem order_stays : forall a b x y, path_lt (under a x) (under a y) <-> path_lt (under b x) (under b y).
Proof.
  assert (G : forall a b x y, path_lt (under a x) (under a y) -> path_lt (under b x) (under b y)).
  { unfold under. intros a b x y h. apply path_lt_app_inv in h. apply lt_app; auto. }
  split; apply G.
Qed.
(* The directory itself gets a slash at its end. *)
Theorem dir_itself : forall src dst e, m_path e = src -> m_data e = None ->
  copy_entry (Some (src, dst)) e = Some (mkment (dst ++ [slash]) (m_cmd e) None (m_link e) (m_rest e)).
Proof.
  intros src dst e p d. unfold copy_entry, seed_path. rewrite p, d. pose proof (skip_app src []) as K. rewrite app_nil_r in K. rewrite K. reflexivity.
Qed.
