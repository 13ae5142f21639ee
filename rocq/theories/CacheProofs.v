(* Proofs about the browse cache. *)
From Coq Require Import Sorting.Sorted.
From Verif Require Import Bytes CmdModel PathcmpModel PathcmpProofs CacheModel.

(* ---------- Specification ---------- *)
(* The names a path is made of, from the top. *)
Definition words (s : bytes) : list bytes := filter (fun w => negb (beqb w [])) (components s).
Definition prefix (p q : list bytes) : Prop := exists r, q = p ++ r.
(* A path with no two slashes together; all are absolute, or none is. *)
Definition neat (abs : bool) (s : bytes) : Prop :=
  exists ws post, components s = (if abs then [[] : bytes] else []) ++ ws ++ post /\ Forall (fun w => w <> []) ws /\ (post = [] \/ post = [[]]).
Definition shown (es : list rec) : list rec := filter (fun e => browsable (r_cmd e)) es.
Definition manifest_ok (abs : bool) (es : list rec) : Prop :=
  Forall (fun e => neat abs (r_path e)) (shown es) /\ StronglySorted path_le (map r_path (shown es)).
(* Entries are in the directory p, or are p. *)
Definition under (p : list bytes) (es : list rec) : Prop := exists e, In e (shown es) /\ prefix p (words (r_path e)).

(* ---------- tokens ---------- *)
Definition ne (w : bytes) : bool := negb (beqb w []).
Lemma stoks_words : forall s cur, ~ In slash cur ->
  stoks s cur = filter ne (match components s with [] => [rev cur] | w :: ws => (rev cur ++ w) :: ws end).
Proof.
  induction s as [|c s IH]; intros cur N; cbn [stoks components].
  - destruct cur as [|x cur]; [reflexivity|]. cbn [filter]. rewrite app_nil_r. unfold ne.
    destruct (rev (x :: cur)) eqn:E; [|reflexivity]. apply (f_equal (@rev Z)) in E. rewrite rev_involutive in E. discriminate.
  - destruct (c =? slash) eqn:C.
    + rewrite app_nil_r.
      assert (R : stoks s [] = filter ne (components s)).
      { rewrite IH by intros []. destruct (components s) eqn:K; [|reflexivity]. exfalso. exact (components_nonnil s K). }
      rewrite R. destruct cur as [|x cur]; [reflexivity|]. cbn [filter].
      destruct (rev (x :: cur)) eqn:E; [apply (f_equal (@rev Z)) in E; rewrite rev_involutive in E; discriminate|]. reflexivity.
    + rewrite IH.
      * destruct (components s) as [|w ws] eqn:K; [exfalso; exact (components_nonnil s K)|]. cbn [rev]. rewrite <- app_assoc. reflexivity.
      * intros [->|I]; [rewrite Z.eqb_refl in C; discriminate|auto].
Qed.
Lemma stoks_is : forall s, stoks s [] = words s.
Proof.
  intros s. rewrite stoks_words by intros []. unfold words. destruct (components s) eqn:K; [|reflexivity].
  exfalso. exact (components_nonnil s K).
Qed.

(* ---------- the order of paths is that of their names ---------- *)
Inductive words_lt : list bytes -> list bytes -> Prop :=
| wlt_nil : forall w ws, words_lt [] (w :: ws)
| wlt_head : forall w v ws vs, path_lt w v -> words_lt (w :: ws) (v :: vs)
| wlt_tail : forall w ws vs, words_lt ws vs -> words_lt (w :: ws) (w :: vs).
Definition words_le (a b : list bytes) : Prop := a = b \/ words_lt a b.
Lemma path_words : forall a b, path_lt a b -> words_lt (components a) (components b).
Proof.
  induction 1.
  - cbn [components]. destruct (y =? slash) eqn:Y.
    + apply wlt_tail. destruct (components b) eqn:K; [exfalso; exact (components_nonnil b K)|constructor].
    + destruct (components b); apply wlt_head; constructor.
  - cbn [components]. destruct H as [[-> N]|(NX & NY & L)].
    + rewrite Z.eqb_refl. assert (E : (y =? slash) = false) by (apply Z.eqb_neq; auto). rewrite E.
      destruct (components b); apply wlt_head; constructor.
    + assert (E1 : (y =? slash) = false) by (apply Z.eqb_neq; auto). assert (E2 : (x =? slash) = false) by (apply Z.eqb_neq; auto).
      rewrite E1, E2. destruct (components a), (components b); apply wlt_head; apply plt_head; right; auto.
  - cbn [components]. destruct (x =? slash) eqn:X; [apply wlt_tail; auto|].
    destruct (components a) as [|w ws] eqn:A; [exfalso; exact (components_nonnil a A)|].
    destruct (components b) as [|v vs] eqn:B; [exfalso; exact (components_nonnil b B)|].
    inversion IHpath_lt; subst; [apply wlt_head, plt_tail; auto|apply wlt_tail; auto].
Qed.
Lemma words_lt_irrefl : forall a, ~ words_lt a a.
Proof. induction a as [|w a IH]; intros H; inversion H; subst; [eapply path_lt_irrefl; eauto|auto]. Qed.
Lemma words_lt_trans : forall a b c, words_lt a b -> words_lt b c -> words_lt a c.
Proof.
  intros a b c H. revert c. induction H; intros c Q; inversion Q; subst;
    try apply wlt_nil; try (apply wlt_tail; auto; fail); apply wlt_head; auto; eapply path_lt_trans; eauto.
Qed.
Lemma words_le_trans : forall a b c, words_le a b -> words_le b c -> words_le a c.
Proof. intros a b c [->|H] [->|H2]; unfold words_le; auto. right. eapply words_lt_trans; eauto. Qed.
Lemma drop_post : forall a pa b pb, Forall (fun w : bytes => w <> []) a -> Forall (fun w : bytes => w <> []) b ->
  (pa = [] \/ pa = [[]]) -> (pb = [] \/ pb = [[]]) -> words_le (a ++ pa) (b ++ pb) -> words_le a b.
Proof.
  induction a as [|w a IH]; intros pa b pb Ha Hb Pa Pb H.
  - destruct b; [left; auto|right; constructor].
  - inversion Ha; subst. destruct b as [|v b].
    + exfalso. cbn [app] in H. destruct Pb as [->| ->], H as [H|H].
      * discriminate.
      * inversion H.
      * inversion H. congruence.
      * inversion H; subst; [match goal with X : path_lt _ [] |- _ => inversion X end|congruence].
    + inversion Hb; subst. cbn [app] in H. destruct H as [H|H].
      * injection H as -> H. destruct (IH pa b pb) as [->|L]; auto; [left; auto|left; auto|right; apply wlt_tail; auto].
      * inversion H; subst; [right; apply wlt_head; auto|].
        destruct (IH pa b pb) as [->|L]; auto; [right; auto|left; auto|right; apply wlt_tail; auto].
Qed.
Lemma words_neat : forall (abs : bool) (s : bytes) (ws post : list bytes), components s = (if abs then [[] : bytes] else []) ++ ws ++ post -> Forall (fun w => w <> []) ws ->
  (post = [] \/ post = [[]]) -> words s = ws.
Proof.
  intros abs s ws post E F P. unfold words. rewrite E, !filter_app.
  assert (A : filter (fun w : bytes => negb (beqb w [])) ws = ws).
  { clear E. induction F; [reflexivity|]. cbn [filter]. rewrite IHF. destruct x; [congruence|reflexivity]. }
  rewrite A. destruct abs, P as [->| ->]; cbn; rewrite ?app_nil_r; reflexivity.
Qed.
Lemma words_order : forall abs a b, neat abs a -> neat abs b -> path_le a b -> words_le (words a) (words b).
Proof.
  intros abs a b (wa & pa & Ea & Fa & Pa) (wb & pb & Eb & Fb & Pb) H.
  rewrite (words_neat abs a wa pa), (words_neat abs b wb pb) by auto.
  apply (drop_post wa pa wb pb); auto.
  assert (L : words_le (components a) (components b)) by (destruct H as [->|H]; [left; auto|right; apply path_words; auto]).
  rewrite Ea, Eb in L. destruct abs; [|exact L]. cbn [app] in L. destruct L as [L|L]; [left; congruence|].
  inversion L; subst; [exfalso; eapply path_lt_irrefl; eauto|right; auto].
Qed.

(* ---------- the tree ---------- *)
Definition named (t : bytes) (n : node) : bool := beqb t (i_name (n_item n)).
Fixpoint sub (p : list bytes) (ents : list node) : option (list node) :=
  match p with
  | [] => Some ents
  | t :: r => match find (named t) ents with Some n => sub r (n_ents n) | None => None end
  end.
Definition present (p : list bytes) (ents : list node) : bool := match sub p ents with Some _ => true | None => false end.
Definition its (p : list bytes) (ents : list node) : list item := match sub p ents with Some l => map n_item l | None => [] end.
Fixpoint strip (p q : list bytes) : option (list bytes) :=
  match p, q with
  | [], _ => Some q
  | a :: p, b :: q => if beqb a b then strip p q else None
  | _, _ => None
  end.
Lemma beqb_r : forall t, beqb t t = true. Proof. intros. apply beqb_eq. reflexivity. Qed.
Lemma strip_ok : forall p q r, strip p q = Some r <-> q = p ++ r.
Proof.
  induction p as [|a p IH]; intros q r; cbn [strip app].
  - split; [intros E; injection E; auto|intros ->; auto].
  - destruct q as [|b q]; [split; discriminate|]. destruct (beqb a b) eqn:E.
    + apply beqb_eq in E. subst b. rewrite IH. split; [intros ->; auto|intros H; injection H; auto].
    + split; [discriminate|]. intros H. injection H as -> _. rewrite beqb_r in E. discriminate.
Qed.
Lemma strip_none : forall p q, strip p q = None <-> ~ prefix p q.
Proof.
  intros p q. destruct (strip p q) as [r|] eqn:E.
  - apply strip_ok in E. split; [discriminate|]. intros H. exfalso. apply H. exists r. auto.
  - split; auto. intros _ [r H]. apply strip_ok in H. congruence.
Qed.
Definition iname (t : bytes) (i : item) : bool := beqb t (i_name i).
Lemma find_some_name : forall t l n, find (named t) l = Some n -> In n l /\ i_name (n_item n) = t.
Proof. intros t l n F. apply find_some in F as [I E]. unfold named in E. apply beqb_eq in E. auto. Qed.
Lemma find_none_name : forall t l, find (named t) l = None <-> ~ In t (map i_name (map n_item l)).
Proof.
  intros t l. split.
  - intros F I. apply in_map_iff in I as (i & E & I). apply in_map_iff in I as (n & E2 & I).
    pose proof (find_none _ _ F n I) as X. unfold named in X. rewrite E2, E, beqb_r in X. discriminate.
  - intros N. destruct (find (named t) l) as [n|] eqn:F; auto. apply find_some_name in F as [I E]. exfalso. apply N.
    rewrite <- E. apply in_map, in_map, I.
Qed.
Lemma sub_app : forall p r ents, sub (p ++ r) ents = match sub p ents with Some l => sub r l | None => None end.
Proof. induction p as [|t p IH]; intros r ents; [reflexivity|]. cbn [app sub]. destruct (find (named t) ents); auto. Qed.
Lemma child_present : forall p n ents, In n (map i_name (its p ents)) <-> present (p ++ [n]) ents = true.
Proof.
  intros p n ents. unfold its, present. rewrite sub_app. destruct (sub p ents) as [l|]; [|split; [intros []|discriminate]].
  cbn [sub]. destruct (find (named n) l) eqn:F.
  - split; auto. intros _. apply find_some_name in F as [I <-]. apply in_map, in_map, I.
  - split; [|discriminate]. intros I. apply find_none_name in F. contradiction.
Qed.
Lemma present_prefix : forall p r ents, present (p ++ r) ents = true -> present p ents = true.
Proof. intros p r ents. unfold present. rewrite sub_app. destruct (sub p ents); auto. Qed.

(* Names newest first, and nothing beyond q. *)
Definition desc (l : list bytes) : Prop := StronglySorted (fun a b => path_lt b a) l.
Definition good (ents : list node) (q : list bytes) : Prop :=
  (forall p, desc (map i_name (its p ents))) /\ (forall p, present p ents = true -> words_le p q).
Lemma good_nil : forall q, good [] q.
Proof.
  intros q. split.
  - intros [|t p]; constructor.
  - intros [|t p] H; [|discriminate]. destruct q; [left; auto|right; constructor].
Qed.
Lemma good_le : forall ents q q', good ents q -> words_le q q' -> good ents q'.
Proof. intros ents q q' [A B] L. split; auto. intros p P. eapply words_le_trans; eauto. Qed.
Lemma le_step : forall p n t r, words_le (p ++ [n]) (p ++ t :: r) -> n = t \/ path_lt n t.
Proof.
  induction p as [|a p IH]; intros n t r H; cbn [app] in H.
  - destruct H as [H|H]; [injection H; auto|]. inversion H; subst; auto.
  - apply (IH n t r). destruct H as [H|H]; [left; congruence|]. inversion H; subst; [exfalso; eapply path_lt_irrefl; eauto|right; auto].
Qed.

Definition new_mode (r : list bytes) (trail there : bool) (mode : Z) : Z :=
  if match r with [] => true | _ => false end && negb trail && there then mode else Z.land mode S_IFDIR.
Lemma land_twice : forall m, Z.land (Z.land m S_IFDIR) S_IFDIR = Z.land m S_IFDIR.
Proof. intros. rewrite <- Z.land_assoc, Z.land_diag. reflexivity. Qed.
Lemma good_sub : forall i l rest r, good (Node i l :: rest) (i_name i :: r) -> good l r.
Proof.
  intros i l rest r [A B].
  assert (F : find (named (i_name i)) (Node i l :: rest) = Some (Node i l)) by (cbn [find]; unfold named at 1; cbn [n_item]; rewrite beqb_r; reflexivity).
  split.
  - intros p. specialize (A (i_name i :: p)). unfold its in A. cbn [sub] in A. rewrite F in A. exact A.
  - intros p P. assert (Q : present (i_name i :: p) (Node i l :: rest) = true) by (unfold present; cbn [sub]; rewrite F; exact P).
    apply B in Q. destruct Q as [Q|Q]; [left; congruence|]. inversion Q; subst; [exfalso; eapply path_lt_irrefl; eauto|right; auto].
Qed.
Lemma fresh : forall ents t r, good ents (t :: r) ->
  (match ents with [] => True | n :: _ => named t n = false end) -> find (named t) ents = None.
Proof.
  intros ents t r [A B] H. apply find_none_name. intros I. destruct ents as [|n ents]; [exact I|].
  specialize (A []). unfold its in A. cbn [sub map] in A. inversion A; subst. cbn [map] in I. destruct I as [E|I].
  - unfold named in H. rewrite E, beqb_r in H. discriminate.
  - rewrite Forall_forall in H3. specialize (H3 t I).
    assert (P : present ([] ++ [i_name (n_item n)]) (n :: ents) = true) by (apply child_present; unfold its; cbn [sub map]; left; auto).
    apply B in P. destruct (le_step [] (i_name (n_item n)) t r P) as [E|L].
    + rewrite E in H3. eapply path_lt_irrefl; eauto.
    + eapply path_lt_asym; eauto.
Qed.

Lemma ins_spec : forall q trail link mode stat ents, good ents q ->
  (forall p, its p (ins q trail link mode stat ents) =
     match strip p q with
     | Some (t :: r) => if existsb (iname t) (its p ents) then its p ents
                        else mkitem t link (new_mode r trail (present p ents) mode) stat :: its p ents
     | _ => its p ents
     end) /\
  (forall p, present p (ins q trail link mode stat ents) = present p ents || match strip p q with Some _ => true | None => false end).
Proof.
  induction q as [|t q IH]; intros trail link mode stat ents G.
  { cbn [ins]. split; intros [|u p]; cbn [strip]; rewrite ?orb_false_r; auto. }
  cbn [ins]. set (m := match q with [] => if trail then Z.land mode S_IFDIR else mode | _ :: _ => Z.land mode S_IFDIR end).
  cbv zeta.
  set (res := match ents with
      | [] => Node (mkitem t link m stat) (ins q trail link m stat []) :: ents
      | Node i l :: rest => if beqb t (i_name i) then Node i (ins q trail link mode stat l) :: rest
                            else Node (mkitem t link m stat) (ins q trail link m stat []) :: ents
      end).
  assert (C : (exists i l rest, ents = Node i l :: rest /\ i_name i = t /\ res = Node i (ins q trail link mode stat l) :: rest) \/
              (find (named t) ents = None /\ res = Node (mkitem t link m stat) (ins q trail link m stat []) :: ents)).
  { subst res. destruct ents as [|[i l] rest]; [right; split; reflexivity|].
    destruct (beqb t (i_name i)) eqn:E.
    - apply beqb_eq in E. left. exists i, l, rest. auto.
    - right. split; auto. eapply fresh; [exact G|]. exact E. }
  clearbody res. destruct C as [(i & l & rest & -> & E & ->)|[F ->]].
  - assert (FN : forall l', find (named t) (Node i l' :: rest) = Some (Node i l')).
    { intros l'. cbn [find]. unfold named at 1. cbn [n_item]. rewrite <- E, beqb_r. reflexivity. }
    assert (GL : good l q) by (apply good_sub with (i := i) (rest := rest); rewrite E; exact G).
    destruct (IH trail link mode stat l GL) as [IA IB]. split.
    + intros [|u p].
      * cbn [strip]. unfold its at 1. cbn [sub map n_item].
        assert (X : existsb (iname t) (its [] (Node i l :: rest)) = true).
        { unfold its. cbn [sub map existsb n_item]. unfold iname at 1. rewrite <- E, beqb_r. reflexivity. }
        rewrite X. reflexivity.
      * destruct (beqb u t) eqn:U.
        -- apply beqb_eq in U. subst u. cbn [strip]. rewrite beqb_r.
           assert (Y : forall l', its (t :: p) (Node i l' :: rest) = its p l') by (intros l'; unfold its; cbn [sub]; rewrite FN; reflexivity).
           assert (Z : present (t :: p) (Node i l :: rest) = present p l) by (unfold present; cbn [sub]; rewrite FN; reflexivity).
           rewrite !Y, Z. apply IA.
        -- cbn [strip]. rewrite U. unfold its. cbn [sub find]. unfold named at 1 3. cbn [n_item]. rewrite E, U. reflexivity.
    + intros [|u p]; [reflexivity|]. destruct (beqb u t) eqn:U.
      * apply beqb_eq in U. subst u. cbn [strip]. rewrite beqb_r.
        assert (Z : forall l', present (t :: p) (Node i l' :: rest) = present p l') by (intros l'; unfold present; cbn [sub]; rewrite FN; reflexivity).
        rewrite !Z. apply IB.
      * cbn [strip]. rewrite U, orb_false_r. unfold present. cbn [sub find]. unfold named at 1 3. cbn [n_item]. rewrite E, U. reflexivity.
  - set (nw := Node (mkitem t link m stat) (ins q trail link m stat [])).
    destruct (IH trail link m stat [] (good_nil q)) as [IA IB].
    assert (FN : find (named t) (nw :: ents) = Some nw).
    { cbn [find]. unfold named at 1. subst nw. cbn [n_item i_name]. rewrite beqb_r. reflexivity. }
    split.
    + intros [|u p].
      * cbn [strip]. unfold its at 1. cbn [sub map].
        assert (X : existsb (iname t) (its [] ents) = false).
        { destruct (existsb (iname t) (its [] ents)) eqn:X; auto. apply existsb_exists in X as (j & J & X). unfold iname in X. apply beqb_eq in X.
          apply find_none_name in F. exfalso. apply F. rewrite X. apply in_map. exact J. }
        rewrite X. subst nw. cbn [n_item]. unfold its. cbn [sub]. f_equal. f_equal.
        subst m. unfold new_mode, present. cbn [sub]. destruct q; [destruct trail; reflexivity|reflexivity].
      * destruct (beqb u t) eqn:U.
        -- apply beqb_eq in U. subst u. cbn [strip]. rewrite beqb_r.
           assert (Y : its (t :: p) (nw :: ents) = its p (ins q trail link m stat [])) by (unfold its; cbn [sub]; rewrite FN; reflexivity).
           assert (Y0 : its (t :: p) ents = []) by (unfold its; cbn [sub]; rewrite F; reflexivity).
           assert (Z : present (t :: p) ents = false) by (unfold present; cbn [sub]; rewrite F; reflexivity).
           assert (N0 : its p [] = []) by (destruct p; reflexivity).
           rewrite Y, Y0, Z, IA, N0. destruct (strip p q) as [[|t2 r2]|] eqn:S; try reflexivity.
           cbn [existsb]. f_equal. f_equal. apply strip_ok in S. subst m.
           destruct q as [|z q]; [destruct p; discriminate|]. unfold new_mode. rewrite andb_false_r, land_twice.
           destruct (match r2 with [] => true | _ :: _ => false end && negb trail && present p []); reflexivity.
        -- cbn [strip]. rewrite U. unfold its. cbn [sub find]. unfold named at 1. subst nw. cbn [n_item i_name]. rewrite U. reflexivity.
    + intros [|u p]; [reflexivity|]. destruct (beqb u t) eqn:U.
      * apply beqb_eq in U. subst u. cbn [strip]. rewrite beqb_r.
        assert (Z : present (t :: p) (nw :: ents) = present p (ins q trail link m stat [])) by (unfold present; cbn [sub]; rewrite FN; reflexivity).
        assert (Z0 : present (t :: p) ents = false) by (unfold present; cbn [sub]; rewrite F; reflexivity).
        rewrite Z, Z0, IB. cbn [orb]. destruct p; [destruct q; reflexivity|reflexivity].
      * cbn [strip]. rewrite U, orb_false_r. unfold present. cbn [sub find]. unfold named at 1. subst nw. cbn [n_item i_name]. rewrite U. reflexivity.
Qed.

Lemma prefix_le : forall p q, prefix p q -> words_le p q.
Proof.
  induction p as [|t p IH]; intros q [r ->]; [destruct r; [left; auto|right; constructor]|]. cbn [app].
  destruct (IH (p ++ r)) as [E|L]; [exists r; auto|left; congruence|right; apply wlt_tail; auto].
Qed.
Lemma ins_good : forall q trail link mode stat ents, good ents q -> good (ins q trail link mode stat ents) q.
Proof.
  intros q trail link mode stat ents G. destruct (ins_spec q trail link mode stat ents G) as [A B]. destruct G as [GA GB]. split.
  - intros p. rewrite A. destruct (strip p q) as [[|t r]|] eqn:S; auto.
    destruct (existsb (iname t) (its p ents)) eqn:X; auto. cbn [map i_name]. constructor; [apply GA|].
    apply Forall_forall. intros n I. apply strip_ok in S. subst q.
    pose proof (proj1 (child_present p n ents) I) as P. apply GB in P.
    destruct (le_step p n t r P) as [E|L]; auto. exfalso.
    assert (Y : existsb (iname t) (its p ents) = true); [|congruence]. apply existsb_exists.
    apply in_map_iff in I as (j & J & I). exists j. split; auto. unfold iname. apply beqb_eq. congruence.
  - intros p P. rewrite B in P. apply orb_prop in P as [P|P]; auto.
    destruct (strip p q) as [r|] eqn:S; [|discriminate]. apply prefix_le. apply strip_ok in S. exists r. auto.
Qed.

(* ---------- the whole manifest ---------- *)
Lemma load_ents : forall es root, n_ents (load es root) =
  fold_left (fun l e => ins (words (r_path e)) (trails (r_path e)) (r_link e) (r_mode e) (r_stat e) l) (shown es) (n_ents root).
Proof.
  induction es as [|e es IH]; intros root; cbn [load shown filter]; [reflexivity|]. rewrite IH.
  destruct (browsable (r_cmd e)); [|reflexivity]. cbn [fold_left]. unfold load_one. destruct root as [i l]. cbn [n_ents]. rewrite stoks_is. reflexivity.
Qed.
Definition tree (L : list rec) : list node :=
  fold_left (fun l e => ins (words (r_path e)) (trails (r_path e)) (r_link e) (r_mode e) (r_stat e) l) L [].
Lemma tree_snoc : forall L e, tree (L ++ [e]) = ins (words (r_path e)) (trails (r_path e)) (r_link e) (r_mode e) (r_stat e) (tree L).
Proof. intros. unfold tree. rewrite fold_left_app. reflexivity. Qed.
Definition lists (L : list rec) : Prop := StronglySorted words_le (map (fun e => words (r_path e)) L).
Lemma sorted_app : forall (A : Type) (R : A -> A -> Prop) (l : list A) x, StronglySorted R (l ++ [x]) -> StronglySorted R l /\ Forall (fun y => R y x) l.
Proof.
  induction l as [|a l IH]; intros x H; [split; constructor|]. cbn [app] in H. inversion H; subst. destruct (IH x H2) as [A1 A2].
  apply Forall_app in H3 as [B1 B2]. inversion B2; subst. split; constructor; auto.
Qed.
Lemma tree_spec : forall L, lists L ->
  (forall p, desc (map i_name (its p (tree L)))) /\
  (forall p, present p (tree L) = true <-> p = [] \/ exists e, In e L /\ prefix p (words (r_path e))) /\
  (forall e, Forall (fun x => words_le (words (r_path x)) (words (r_path e))) L -> good (tree L) (words (r_path e))).
Proof.
  intros L. induction L as [|e L IH] using rev_ind; intros S.
  - split; [intros [|t p]; constructor|]. split.
    + intros [|t p]; cbn; [split; auto|split; [discriminate|]]. intros [H|(e & [] & _)]. discriminate.
    + intros e _. apply good_nil.
  - unfold lists in S. rewrite map_app in S. cbn [map] in S. apply sorted_app in S as [S1 S2].
    destruct (IH S1) as (A & B & C). assert (G : good (tree L) (words (r_path e))) by (apply C; rewrite Forall_map in S2; exact S2).
    rewrite tree_snoc. pose proof (ins_good _ (trails (r_path e)) (r_link e) (r_mode e) (r_stat e) _ G) as G2.
    split; [apply G2|]. split.
    + intros p. destruct (ins_spec _ (trails (r_path e)) (r_link e) (r_mode e) (r_stat e) _ G) as [_ P]. rewrite P, orb_true_iff, B. split.
      * intros [[->|(x & I & X)]|H]; auto.
        -- right. exists x. split; auto. apply in_or_app; auto.
        -- right. exists e. split; [apply in_or_app; right; left; auto|].
           destruct (strip p (words (r_path e))) as [r|] eqn:E; [|discriminate]. apply strip_ok in E. exists r; auto.
      * intros [->|(x & I & X)]; auto. apply in_app_or in I as [I|[<-|[]]]; [left; right; eauto|].
        right. destruct (strip p (words (r_path e))) eqn:E; auto. apply strip_none in E. contradiction.
    + intros x F. eapply good_le; [exact G2|]. apply Forall_app in F as [_ F]. inversion F; auto.
Qed.
Lemma tree_keeps : forall L2 L1 p i, lists (L1 ++ L2) -> In i (its p (tree L1)) -> In i (its p (tree (L1 ++ L2))).
Proof.
  induction L2 as [|e L2 IH]; intros L1 p i S I; [rewrite app_nil_r; auto|].
  replace (L1 ++ e :: L2) with ((L1 ++ [e]) ++ L2) in * by (rewrite <- app_assoc; reflexivity).
  apply IH; auto. rewrite tree_snoc.
  assert (S3 : lists (L1 ++ [e])).
  { unfold lists in *. rewrite map_app in S. remember (map (fun e => words (r_path e)) (L1 ++ [e])) as a. remember (map (fun e => words (r_path e)) L2) as b.
    clear - S. revert S. induction a as [|x a IHa]; intros S; [constructor|]. cbn [app] in S. inversion S; subst. constructor; auto.
    apply Forall_app in H2. tauto. }
  assert (G : good (tree L1) (words (r_path e))).
  { unfold lists in S3. rewrite map_app in S3. apply sorted_app in S3 as [S1 S2]. apply (tree_spec L1 S1). rewrite Forall_map in S2; exact S2. }
  rewrite (proj1 (ins_spec _ (trails (r_path e)) (r_link e) (r_mode e) (r_stat e) _ G)).
  destruct (strip p (words (r_path e))) as [[|t r]|]; auto. destruct (existsb (iname t) (its p (tree L1))); auto. right; auto.
Qed.
(* The entry that a name in a directory stands for is the first of its kind. *)
Lemma tree_attrs : forall L1 e L2 p n, lists (L1 ++ e :: L2) -> prefix (p ++ [n]) (words (r_path e)) ->
  Forall (fun x => ~ prefix (p ++ [n]) (words (r_path x))) L1 ->
  exists m, In (mkitem n (r_link e) m (r_stat e)) (its p (tree (L1 ++ e :: L2))) /\
    ((words (r_path e) = p ++ [n] /\ trails (r_path e) = false /\ (p = [] \/ exists x, In x L1 /\ prefix p (words (r_path x)))) -> m = r_mode e) /\
    (~ (words (r_path e) = p ++ [n] /\ trails (r_path e) = false /\ (p = [] \/ exists x, In x L1 /\ prefix p (words (r_path x)))) -> m = Z.land (r_mode e) S_IFDIR).
Proof.
  intros L1 e L2 p n S [r P] F.
  assert (S' : lists ((L1 ++ [e]) ++ L2)) by (rewrite <- app_assoc; exact S).
  assert (S3 : lists (L1 ++ [e])).
  { clear - S'. unfold lists in *. rewrite map_app in S'. remember (map (fun e => words (r_path e)) (L1 ++ [e])) as a. remember (map (fun e => words (r_path e)) L2) as b.
    clear - S'. revert S'. induction a as [|x a IHa]; intros S; [constructor|]. cbn [app] in S. inversion S; subst. constructor; auto.
    apply Forall_app in H2. tauto. }
  pose proof S3 as S4. unfold lists in S4. rewrite map_app in S4. apply sorted_app in S4 as [S1 S2].
  destruct (tree_spec L1 S1) as (A & B & C).
  assert (G : good (tree L1) (words (r_path e))) by (apply C; rewrite Forall_map in S2; exact S2).
  exists (new_mode r (trails (r_path e)) (present p (tree L1)) (r_mode e)). split.
  - replace (L1 ++ e :: L2) with ((L1 ++ [e]) ++ L2) by (rewrite <- app_assoc; reflexivity).
    apply tree_keeps; auto. rewrite tree_snoc.
    rewrite (proj1 (ins_spec _ (trails (r_path e)) (r_link e) (r_mode e) (r_stat e) _ G)).
    assert (E : strip p (words (r_path e)) = Some (n :: r)) by (apply strip_ok; rewrite P, <- app_assoc; reflexivity).
    rewrite E. destruct (existsb (iname n) (its p (tree L1))) eqn:X; [|left; reflexivity]. exfalso.
    apply existsb_exists in X as (j & J & X). unfold iname in X. apply beqb_eq in X.
    assert (Q : In n (map i_name (its p (tree L1)))) by (rewrite X; apply in_map, J). apply child_present, B in Q.
    destruct Q as [Q|(x & I & Q)]; [destruct p; discriminate|]. rewrite Forall_forall in F. exact (F x I Q).
  - assert (PR : present p (tree L1) = true <-> p = [] \/ exists x, In x L1 /\ prefix p (words (r_path x))) by apply B.
    assert (RE : words (r_path e) = p ++ [n] <-> r = []).
    { rewrite P. split; [|intros ->; apply app_nil_r]. intros H. rewrite <- (app_nil_r (p ++ [n])) in H at 2. apply app_inv_head in H. exact H. }
    unfold new_mode. split.
    + intros (H1 & H2 & H3). apply RE in H1. apply PR in H3. rewrite H1, H2, H3. reflexivity.
    + intros H. destruct r; [|reflexivity]. destruct (trails (r_path e)) eqn:T; [reflexivity|]. destruct (present p (tree L1)) eqn:Q; [|reflexivity].
      exfalso. apply H. split; [apply RE; auto|]. split; auto. apply PR. reflexivity.
Qed.

Lemma manifest_lists : forall abs es, manifest_ok abs es -> lists (shown es).
Proof.
  intros abs es [N S]. unfold lists. induction (shown es) as [|e L IH]; [constructor|]. cbn [map] in *. inversion N; subst. inversion S; subst.
  constructor; auto. rewrite Forall_map in *. rewrite Forall_forall in *. intros x I. eapply words_order; eauto.
Qed.

(* ---------- looking up ---------- *)
Lemma desc_nodup : forall l, desc l -> NoDup l.
Proof.
  induction 1; constructor; auto. intros I. rewrite Forall_forall in H0. eapply path_lt_irrefl; eauto.
Qed.
Lemma find_unique : forall t l n, NoDup (map i_name (map n_item l)) -> In n l -> i_name (n_item n) = t -> find (named t) l = Some n.
Proof.
  induction l as [|x l IH]; intros n D I E; [inversion I|]. cbn [map] in D. inversion D; subst. cbn [find].
  destruct I as [->|I]; [unfold named at 1; rewrite beqb_r; reflexivity|].
  destruct (named (i_name (n_item n)) x) eqn:X; [|apply IH; auto]. exfalso. apply beqb_eq in X. apply H1. rewrite <- X. apply in_map, in_map, I.
Qed.
Lemma find_rev : forall t l, NoDup (map i_name (map n_item l)) -> find (named t) (rev l) = find (named t) l.
Proof.
  intros t l D. destruct (find (named t) l) as [n|] eqn:F.
  - apply find_some_name in F as [I E]. apply find_unique; auto.
    + rewrite !map_rev. apply NoDup_rev. exact D.
    + apply in_rev in I. exact I.
  - apply find_none_name in F. apply find_none_name. intros I. apply F. rewrite !map_rev in I. apply in_rev in I. exact I.
Qed.
Lemma walk_sub : forall p n l, (forall q, desc (map i_name (its q (n_ents n)))) -> sub p (n_ents n) = Some l -> n_ents (walk p n) = l.
Proof.
  induction p as [|t p IH]; intros n l D S; cbn [sub walk] in *; [congruence|].
  change (fun n0 => beqb t (i_name (n_item n0))) with (named t). rewrite find_rev by (apply desc_nodup; exact (D [])).
  destruct (find (named t) (n_ents n)) as [k|] eqn:F; [|discriminate]. apply IH; auto.
  intros q. specialize (D (t :: q)). unfold its in D. cbn [sub] in D. rewrite F in D. exact D.
Qed.
Lemma rev_desc : forall l, desc l -> StronglySorted path_lt (rev l).
Proof.
  assert (S : forall l x, StronglySorted path_lt l -> Forall (fun y => path_lt y x) l -> StronglySorted path_lt (l ++ [x])).
  { induction l as [|a l IH]; intros x S F; cbn [app]; [repeat constructor|]. inversion S; subst. inversion F; subst. constructor; auto.
    apply Forall_app. split; auto. }
  induction 1; cbn [rev]; [constructor|]. apply S; auto. apply Forall_rev. exact H0.
Qed.
Lemma lookup_its : forall abs es b, manifest_ok abs es -> b <> [] -> (words b = [] \/ under (words b) es) ->
  cache_lookup (cache_load es) b = rev (its (words b) (tree (shown es))).
Proof.
  intros abs es b M N U. apply manifest_lists in M. destruct (tree_spec _ M) as (A & B & _).
  assert (E : n_ents (cache_load es) = tree (shown es)) by (unfold cache_load; rewrite load_ents; reflexivity).
  assert (P : present (words b) (tree (shown es)) = true) by (apply B; destruct U as [U|(e & I & U)]; eauto).
  unfold cache_lookup. destruct b as [|c b]; [congruence|]. rewrite stoks_is. unfold result_list.
  unfold present in P. unfold its. destruct (sub (words (c :: b)) (tree (shown es))) as [l|] eqn:S; [|discriminate].
  rewrite (walk_sub (words (c :: b)) (cache_load es) l); [rewrite map_rev; reflexivity| |rewrite E; exact S].
  rewrite E. exact A.
Qed.
Theorem lookup_names : forall abs es b, manifest_ok abs es -> b <> [] -> (words b = [] \/ under (words b) es) ->
  let l := map i_name (cache_lookup (cache_load es) b) in
  StronglySorted path_lt l /\ (forall n, In n l <-> under (words b ++ [n]) es).
Proof.
  intros abs es b M N U l. subst l. rewrite (lookup_its abs es b) by auto. apply manifest_lists in M. destruct (tree_spec _ M) as (A & B & _).
  rewrite map_rev. split; [apply rev_desc, A|]. intros n. rewrite <- in_rev, child_present, B. unfold under. split; auto.
  intros [H|H]; auto. destruct (words b); discriminate.
Qed.
(* The first entry of the manifest at or below the path p. *)
Definition first_at (p : list bytes) (es : list rec) (before : list rec) (e : rec) : Prop :=
  exists after, shown es = before ++ e :: after /\ prefix p (words (r_path e)) /\ Forall (fun x => ~ prefix p (words (r_path x))) before.
(* An entry has its own name, and comes after others of its directory. *)
Definition own_entry (p : list bytes) (n : bytes) (before : list rec) (e : rec) : Prop :=
  words (r_path e) = p ++ [n] /\ trails (r_path e) = false /\ (p = [] \/ exists x, In x before /\ prefix p (words (r_path x))).
Theorem lookup_attrs : forall abs es b n before e, manifest_ok abs es -> b <> [] -> first_at (words b ++ [n]) es before e ->
  exists i, In i (cache_lookup (cache_load es) b) /\ i_name i = n /\ i_link i = r_link e /\ i_stat i = r_stat e /\
    (own_entry (words b) n before e -> i_mode i = r_mode e) /\
    (~ own_entry (words b) n before e -> i_mode i = Z.land (r_mode e) S_IFDIR).
Proof.
  intros abs es b n before e M N (after & E & P & F).
  assert (U : under (words b) es).
  { exists e. split; [rewrite E; apply in_or_app; right; left; auto|]. destruct P as [r P]. exists ([n] ++ r). rewrite P, <- app_assoc. reflexivity. }
  rewrite (lookup_its abs es b) by auto. apply manifest_lists in M. rewrite E in M |- *.
  destruct (tree_attrs before e after (words b) n M P F) as (m & I & H1 & H2).
  exists (mkitem n (r_link e) m (r_stat e)). split; [apply in_rev in I; exact I|]. auto 10.
Qed.
(* An entry whose directory has an entry before it is shown as it is. *)
Theorem lookup_own : forall abs es b n es1 d es2 e es3, manifest_ok abs es -> b <> [] ->
  shown es = es1 ++ d :: es2 ++ e :: es3 -> words (r_path d) = words b -> words (r_path e) = words b ++ [n] -> trails (r_path e) = false ->
  Forall (fun x => words (r_path x) <> words (r_path e)) (es1 ++ d :: es2) ->
  In (mkitem n (r_link e) (r_mode e) (r_stat e)) (cache_lookup (cache_load es) b).
Proof.
  intros abs es b n es1 d es2 e es3 M N E D W T F.
  assert (S : lists (shown es)) by (eapply manifest_lists; eauto).
  assert (F2 : Forall (fun x => ~ prefix (words b ++ [n]) (words (r_path x))) (es1 ++ d :: es2)).
  { rewrite Forall_forall in *. intros x I P. specialize (F x I). rewrite W in F.
    assert (L : words_le (words (r_path x)) (words (r_path e))).
    { apply in_split in I as (a & c & I). unfold lists in S. rewrite E in S.
      replace (es1 ++ d :: es2 ++ e :: es3) with ((es1 ++ d :: es2) ++ e :: es3) in S by (rewrite <- app_assoc; reflexivity).
      rewrite I in S. rewrite <- app_assoc in S. rewrite map_app in S. cbn [map app] in S. rewrite map_app in S. cbn [map] in S.
      clear - S. induction (map (fun e => words (r_path e)) a) as [|y l IH]; cbn [app] in S; inversion S; subst; auto.
      rewrite Forall_app in H2. destruct H2 as [_ H2]. inversion H2; auto. }
    destruct L as [L|L]; [congruence|]. apply prefix_le in P. rewrite W in L. destruct P as [P|P]; [congruence|].
    eapply words_lt_irrefl, words_lt_trans; eauto. }
  assert (U : under (words b) es) by (exists d; split; [rewrite E; apply in_or_app; right; left; auto|exists []; rewrite app_nil_r; auto]).
  rewrite (lookup_its abs es b) by auto. rewrite E in S |- *.
  replace (es1 ++ d :: es2 ++ e :: es3) with ((es1 ++ d :: es2) ++ e :: es3) in * by (rewrite <- app_assoc; reflexivity).
  destruct (tree_attrs (es1 ++ d :: es2) e es3 (words b) n S) as (m & I & H1 & _); auto.
  { exists []. rewrite app_nil_r. exact W. }
  rewrite H1 in I; [apply in_rev in I; exact I|]. split; auto. split; auto. right. exists d.
  split; [apply in_or_app; right; left; auto|]. exists []. rewrite app_nil_r. auto.
Qed.

(* ---------- the top ---------- *)
Lemma load_root : forall es i l, n_item (load es (Node i l)) =
  if beqb (i_name i) [] then match find (fun e => hd0 (r_path e) =? slash) (shown es) with
                             | Some e => mkitem [slash] (i_link i) (r_mode e) (r_stat e) | None => i end
  else i.
Proof.
  induction es as [|e es IH]; intros i l; cbn [load shown filter].
  - destruct (beqb (i_name i) []); reflexivity.
  - destruct (browsable (r_cmd e)) eqn:B; [|apply IH]. cbn [load_one find]. rewrite IH.
    destruct (beqb (i_name i) []) eqn:N; cbn [andb]; [|rewrite N; reflexivity].
    destruct (hd0 (r_path e) =? slash); [reflexivity|]. rewrite N. reflexivity.
Qed.
Theorem lookup_top : forall es, 
  match find (fun e => hd0 (r_path e) =? slash) (shown es) with
  | Some e => cache_lookup (cache_load es) [] = [mkitem [slash] [] (r_mode e) (r_stat e)]
  | None => cache_lookup (cache_load es) [] = cache_lookup (cache_load es) [slash]
  end.
Proof.
  intros es. unfold cache_lookup. unfold cache_load, root0. rewrite load_root. cbn [i_name beqb].
  change (beqb [] []) with true. cbv iota.
  destruct (find (fun e => hd0 (r_path e) =? slash) (shown es)); reflexivity.
Qed.

(* ---------- one request after another ---------- *)
Definition steady (rs : list bask) : Prop := forall a b, In a rs -> In b rs -> b_client a = b_client b -> b_bno a = b_bno b -> b_manifest a = b_manifest b.
Definition fresh_answer (r : bask) : option (list item) :=
  if snd (b_manifest r) then Some (cache_lookup (cache_load (fst (b_manifest r))) (b_dir r)) else None.
Lemma browses_from : forall rs c, steady rs ->
  match c_key c with
  | Some (n, b) => forall r, In r rs -> b_client r = n -> b_bno r = b -> snd (b_manifest r) = true /\ c_root c = cache_load (fst (b_manifest r))
  | None => True
  end -> browses c rs = map fresh_answer rs.
Proof.
  induction rs as [|r rs IH]; intros c S K; [reflexivity|]. cbn [browses map].
  assert (S2 : steady rs) by (intros a b A B; apply S; right; auto).
  unfold browse_manifest. destruct (cache_loaded c (b_client r) (b_bno r)) eqn:L.
  - unfold cache_loaded in L. destruct (c_key c) as [[n b]|] eqn:C; [|discriminate]. apply andb_prop in L as [L1 L2].
    apply beqb_eq in L1. apply Z.eqb_eq in L2. destruct (K r (or_introl eq_refl) L1 (eq_sym L2)) as [K1 K2].
    unfold fresh_answer at 1. rewrite K1, K2. f_equal. apply IH; auto. rewrite C. intros x I. apply K. right; auto.
  - unfold fresh_answer at 1. destruct (snd (b_manifest r)) eqn:M; (f_equal; apply IH; auto; cbn [c_key c_root]; auto).
    intros x I E1 E2. rewrite (S x r); auto; [right; auto|left; auto].
Qed.
Theorem browses_exact : forall rs, steady rs -> browses cache0 rs = map fresh_answer rs.
Proof. intros rs S. apply browses_from; auto. exact I. Qed.
