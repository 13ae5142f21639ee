(* Comparing two backups: proofs for C64. *)
From Verif Require Import Bytes PathcmpModel PathcmpProofs CmdModel AttribsModel SbufModel MergeModel AuthModel BuModel Phase2Model DiffModel.
From Verif Require Import CmdProofs MergeProofs.
From Coq Require Import Sorting.Sorted.

(* ---- the specification ---- *)
(* The order of the entries of a manifest. *)
Definition before (a b : ent) : Prop := ent_lt (e_sb a) (e_sb b).
Definition same_name (a b : ent) : Prop := ent_eq (e_sb a) (e_sb b).
Definition changed (a b : ent) : Prop := st_mtime (e_at a) <> st_mtime (e_at b).
(* The entries of l that l' does not have as they are. *)
Definition differs (l' : list ent) (a : ent) : Prop := forall b, In b l' -> same_name a b -> changed a b.
(* The order of lines: that of the entries, what was before what is. *)
Definition line_lt (x y : sign * ent) : Prop :=
  before (snd x) (snd y) \/ (same_name (snd x) (snd y) /\ fst x = Minus /\ fst y = Plus).
Definition good (l : list ent) : Prop := ents_ok (map e_sb l).

(* ---- proofs ---- *)
Lemma diff_cons : forall a l1 k1 k2 b l2, diff_entries (a :: l1) k1 k2 (b :: l2) =
  (let pcmp := sbuf_pathcmp (e_sb a) (e_sb b) in
   if pcmp =? 0 then let '(o, r) := diff_entries l1 k1 k2 l2 in
     (if st_mtime (e_at a) =? st_mtime (e_at b) then o else (Minus, a) :: (Plus, b) :: o, r)
   else if pcmp <? 0 then let '(o, r) := diff_entries l1 k1 k2 (b :: l2) in ((Minus, a) :: o, r)
   else let '(o, r) := diff_entries (a :: l1) k1 k2 l2 in ((Plus, b) :: o, r)).
Proof. reflexivity. Qed.
Lemma diff_nil : forall k1 k2 b l2, diff_entries [] k1 k2 (b :: l2) =
  if k1 then let '(o, r) := diff_entries [] k1 k2 l2 in ((Plus, b) :: o, r) else ([], false).
Proof. reflexivity. Qed.

Section Diff.
Variable all : list ent.
Hypothesis Ok : good all.
Lemma cmp3 : forall a b, In a all -> In b all ->
  (sbuf_pathcmp (e_sb a) (e_sb b) < 0 <-> before a b) /\ (sbuf_pathcmp (e_sb a) (e_sb b) = 0 <-> same_name a b)
  /\ (sbuf_pathcmp (e_sb a) (e_sb b) > 0 <-> before b a).
Proof. intros a b A B. apply (ents_ok_pair (map e_sb all)); [exact Ok|apply in_map; exact A|apply in_map; exact B]. Qed.
Lemma b_irrefl : forall a, In a all -> ~ before a a.
Proof. intros a A. apply (ent_lt_irrefl (map e_sb all)); [exact Ok|apply in_map; exact A]. Qed.
Lemma b_trans : forall a b c, In a all -> In b all -> In c all -> before a b -> before b c -> before a c.
Proof. intros a b c A B C. apply (ent_lt_trans (map e_sb all)); try exact Ok; apply in_map; assumption. Qed.
Lemma b_eq : forall a b c, before a b -> same_name b c -> before a c.
Proof. intros a b c. apply ent_lt_eq. Qed.
Lemma eq_b : forall a b c, same_name a b -> before b c -> before a c.
Proof. intros a b c. apply ent_eq_lt. Qed.
Lemma s_sym : forall a b, same_name a b -> same_name b a.
Proof. intros a b. apply ent_eq_sym. Qed.
Lemma s_trans : forall a b c, same_name a b -> same_name b c -> same_name a c.
Proof. intros a b c. apply ent_eq_trans. Qed.

Lemma diff_spec : forall l1 l2 k1 k2 o, incl l1 all -> incl l2 all -> StronglySorted before l1 -> StronglySorted before l2 ->
  diff_entries l1 k1 k2 l2 = (o, true) ->
  k1 = true /\ k2 = true
  /\ (forall s e, In (s, e) o <-> match s with Minus => In e l1 /\ differs l2 e | Plus => In e l2 /\ differs l1 e end)
  /\ StronglySorted line_lt o.
Proof.
  induction l1 as [|a l1 IH]; intros l2 k1 k2 o I1 I2 S1 S2.
  - revert o. induction l2 as [|b l2 IH2]; intros o H.
    + cbn [diff_entries] in H. injection H as <- H. apply andb_prop in H. destruct H as [-> ->]. do 2 (split; [reflexivity|]).
      split; [|constructor]. intros s e. destruct s; cbn [In]; tauto.
    + rewrite diff_nil in H. destruct k1; [|discriminate H].
      destruct (diff_entries [] true k2 l2) as [o' r] eqn:E. injection H as <- ->.
      inversion S2 as [|x y S2' F2]; subst.
      destruct (IH2 (fun x Hx => I2 x (or_intror Hx)) S2' o' eq_refl) as (_ & K2 & C & S). split; [reflexivity|]. split; [exact K2|]. split.
      * intros s e. cbn [In]. rewrite C. destruct s.
        -- split; [intros [X|[[] _]]; discriminate X|intros [[] _]].
        -- split; [intros [X|[X Y]]; [injection X as <-|]; (split; [auto|intros z []])|].
           intros [[->|X] Y]; [left; reflexivity|right; split; [exact X|intros z []]].
      * constructor; [exact S|]. apply Forall_forall. intros [s e] Ie. apply C in Ie. left.
        rewrite Forall_forall in F2. destruct s; [destruct Ie as [[] _]|]. apply F2. apply Ie.
  - revert o. induction l2 as [|b l2 IH2]; intros o H.
    + cbn [diff_entries] in H. destruct k2; [|discriminate H]. destruct (diff_entries l1 k1 true []) as [o' r] eqn:E. injection H as <- ->.
      inversion S1 as [|x y S1' F1]; subst.
      destruct (IH [] k1 true o' (fun x Hx => I1 x (or_intror Hx)) I2 S1' S2 E) as (K1 & _ & C & S). split; [exact K1|]. split; [reflexivity|]. split.
      * intros s e. cbn [In]. rewrite C. destruct s.
        -- split; [intros [X|[X Y]]; [injection X as <-|]; (split; [auto|intros z []])|].
           intros [[->|X] Y]; [left; reflexivity|right; split; [exact X|intros z []]].
        -- split; [intros [X|[[] _]]; discriminate X|intros [[] _]].
      * constructor; [exact S|]. apply Forall_forall. intros [s e] Ie. apply C in Ie. left.
        rewrite Forall_forall in F1. destruct s; [|destruct Ie as [[] _]]. apply F1. apply Ie.
    + rewrite diff_cons in H. cbv zeta in H.
      inversion S1 as [|x y S1' F1]; subst x y. inversion S2 as [|x y S2' F2]; subst x y.
      assert (Ia : In a all) by (apply I1; left; reflexivity). assert (Ib : In b all) by (apply I2; left; reflexivity).
      assert (I1' : incl l1 all) by (intros x Hx; apply I1; right; exact Hx).
      assert (I2' : incl l2 all) by (intros x Hx; apply I2; right; exact Hx).
      destruct (cmp3 a b Ia Ib) as (CL & CE & CG). rewrite Forall_forall in F1, F2.
      destruct (Z.eqb_spec (sbuf_pathcmp (e_sb a) (e_sb b)) 0) as [E0|N0].
      * apply CE in E0. destruct (diff_entries l1 k1 k2 l2) as [o' r] eqn:E. injection H as HO ->.
        destruct (IH l2 k1 k2 o' I1' I2' S1' S2' E) as (K1 & K2 & C & S). do 2 (split; [assumption|]).
        assert (A1 : forall x, In x l2 -> before a x) by (intros x Hx; eapply eq_b; [exact E0|auto]).
        assert (B1 : forall x, In x l1 -> before b x) by (intros x Hx; eapply eq_b; [apply s_sym; exact E0|auto]).
        assert (NA : forall x, In x l2 -> ~ same_name a x).
        { intros x Hx Q. apply (b_irrefl a Ia). eapply b_eq; [apply A1; exact Hx|apply s_sym; exact Q]. }
        assert (NB : forall x, In x l1 -> ~ same_name b x).
        { intros x Hx Q. apply (b_irrefl b Ib). eapply b_eq; [apply B1; exact Hx|apply s_sym; exact Q]. }
        assert (DA : forall e, In e l1 -> (differs (b :: l2) e <-> differs l2 e)).
        { intros e Ie. split; intros D x Hx Q; [apply D; [right; exact Hx|exact Q]|]. destruct Hx as [<-|Hx]; [|apply D; assumption].
          exfalso. apply (NB e Ie). apply s_sym. exact Q. }
        assert (DB : forall e, In e l2 -> (differs (a :: l1) e <-> differs l1 e)).
        { intros e Ie. split; intros D x Hx Q; [apply D; [right; exact Hx|exact Q]|]. destruct Hx as [<-|Hx]; [|apply D; assumption].
          exfalso. apply (NA e Ie). apply s_sym. exact Q. }
        assert (HA : differs (b :: l2) a <-> changed a b).
        { split; [intros D; apply D; [left; reflexivity|exact E0]|]. intros D x [<-|Hx] Q; [exact D|]. destruct (NA x Hx Q). }
        assert (HB : differs (a :: l1) b <-> changed a b).
        { split; [intros D X; apply (D a); [left; reflexivity|apply s_sym; exact E0|symmetry; exact X]|].
          intros D x [<-|Hx] Q; [intros X; apply D; symmetry; exact X|]. destruct (NB x Hx Q). }
        assert (OL : forall x, In x o' -> before a (snd x) /\ before b (snd x)).
        { intros [s e] Ie. apply C in Ie. cbn [snd]. destruct s; destruct Ie as [Ie _]; split; auto. }
        destruct (Z.eqb_spec (st_mtime (e_at a)) (st_mtime (e_at b))) as [M|M]; subst o.
        -- assert (NC : ~ changed a b) by (intros D; apply D; exact M). split; [|exact S].
           intros s e. rewrite C. destruct s; cbn [In].
           ++ split; [intros [X Y]; split; [auto|apply DA; assumption]|]. intros [[->|X] Y]; [destruct (NC (proj1 HA Y))|].
              split; [exact X|apply DA; assumption].
           ++ split; [intros [X Y]; split; [auto|apply DB; assumption]|]. intros [[->|X] Y]; [destruct (NC (proj1 HB Y))|].
              split; [exact X|apply DB; assumption].
        -- split.
           ++ intros s e. cbn [In]. rewrite C. destruct s.
              ** split.
                 --- intros [X|[X|[X Y]]]; [injection X as <-; split; [auto|apply (proj2 HA); exact M]|discriminate X|split; [auto|apply DA; assumption]].
                 --- intros [[->|X] Y]; [left; reflexivity|]. right. right. split; [exact X|apply DA; assumption].
              ** split.
                 --- intros [X|[X|[X Y]]]; [discriminate X|injection X as <-; split; [auto|apply (proj2 HB); exact M]|split; [auto|apply DB; assumption]].
                 --- intros [[->|X] Y]; [right; left; reflexivity|]. right. right. split; [exact X|apply DB; assumption].
           ++ constructor; [constructor; [exact S|]|].
              ** apply Forall_forall. intros x Hx. left. apply OL. exact Hx.
              ** constructor; [right; split; [exact E0|auto]|]. apply Forall_forall. intros x Hx. left. apply OL. exact Hx.
      * destruct (Z.ltb_spec (sbuf_pathcmp (e_sb a) (e_sb b)) 0) as [L0|G0].
        -- apply CL in L0. destruct (diff_entries l1 k1 k2 (b :: l2)) as [o' r] eqn:E. injection H as <- ->.
           destruct (IH (b :: l2) k1 k2 o' I1' I2 S1' S2 E) as (K1 & K2 & C & S). do 2 (split; [assumption|]).
           assert (A2 : forall x, In x (b :: l2) -> before a x).
           { intros x [<-|Hx]; [exact L0|]. apply (b_trans a b x); auto. }
           assert (NA : forall x, In x (b :: l2) -> ~ same_name a x).
           { intros x Hx Q. apply (b_irrefl a Ia). eapply b_eq; [apply A2; exact Hx|apply s_sym; exact Q]. }
           split.
           ++ intros s e. cbn [In]. rewrite C. destruct s.
              ** split.
                 --- intros [X|[X Y]]; [injection X as <-|auto]. split; [auto|]. intros x Hx Q. destruct (NA x Hx Q).
                 --- intros [[->|X] Y]; [left; reflexivity|right; auto].
              ** split.
                 --- intros [X|[X Y]]; [discriminate X|]. split; [exact X|]. intros x [<-|Hx] Q; [|apply Y; assumption].
                     destruct (NA e X). apply s_sym. exact Q.
                 --- intros [X Y]. right. split; [exact X|]. intros x Hx Q. apply Y; [right; exact Hx|exact Q].
           ++ constructor; [exact S|]. apply Forall_forall. intros [s e] Ie. apply C in Ie. left. cbn [snd].
              destruct s; destruct Ie as [Ie _]; auto.
        -- assert (G1 : before b a) by (apply CG; lia). destruct (diff_entries (a :: l1) k1 k2 l2) as [o' r] eqn:E. injection H as <- ->.
           destruct (IH2 I2' S2' o' eq_refl) as (K1 & K2 & C & S). do 2 (split; [assumption|]).
           assert (B2 : forall x, In x (a :: l1) -> before b x).
           { intros x [<-|Hx]; [exact G1|]. apply (b_trans b a x); auto. }
           assert (NB : forall x, In x (a :: l1) -> ~ same_name b x).
           { intros x Hx Q. apply (b_irrefl b Ib). eapply b_eq; [apply B2; exact Hx|apply s_sym; exact Q]. }
           split.
           ++ intros s e. cbn [In]. rewrite C. destruct s.
              ** split.
                 --- intros [X|[X Y]]; [discriminate X|]. split; [exact X|]. intros x [<-|Hx] Q; [|apply Y; assumption].
                     destruct (NB e X). apply s_sym. exact Q.
                 --- intros [X Y]. right. split; [exact X|]. intros x Hx Q. apply Y; [right; exact Hx|exact Q].
              ** split.
                 --- intros [X|[X Y]]; [injection X as <-|auto]. split; [auto|]. intros x Hx Q. destruct (NB x Hx Q).
                 --- intros [[->|X] Y]; [left; reflexivity|right; auto].
           ++ constructor; [exact S|]. apply Forall_forall. intros [s e] Ie. apply C in Ie. left. cbn [snd].
              destruct s; destruct Ie as [Ie _]; auto.
Qed.
End Diff.
(* Both read to the end: the comparison ends well. *)
Lemma diff_ends : forall l1 l2, snd (diff_entries l1 true true l2) = true.
Proof.
  induction l1 as [|a l1 IH]; intros l2; induction l2 as [|b l2 IH2]; [reflexivity| | |].
  - rewrite diff_nil. destruct (diff_entries [] true true l2). exact IH2.
  - cbn [diff_entries]. specialize (IH []). destruct (diff_entries l1 true true []). exact IH.
  - rewrite diff_cons. cbv zeta. destruct (_ =? 0).
    + specialize (IH l2). destruct (diff_entries l1 true true l2). exact IH.
    + destruct (_ <? 0).
      * specialize (IH (b :: l2)). destruct (diff_entries l1 true true (b :: l2)). exact IH.
      * destruct (diff_entries (a :: l1) true true l2). exact IH2.
Qed.
Theorem diff_exact : forall l1 l2, good (l1 ++ l2) -> StronglySorted before l1 -> StronglySorted before l2 ->
  exists o, diff_entries l1 true true l2 = (o, true)
  /\ (forall e, In (Minus, e) o <-> In e l1 /\ differs l2 e)
  /\ (forall e, In (Plus, e) o <-> In e l2 /\ differs l1 e)
  /\ StronglySorted line_lt o.
Proof.
  intros l1 l2 G S1 S2. pose proof (diff_ends l1 l2) as E. destruct (diff_entries l1 true true l2) as [o r] eqn:D. cbn [snd] in E. subst r.
  exists o. split; [reflexivity|].
  destruct (diff_spec (l1 ++ l2) G l1 l2 true true o (incl_appl _ (incl_refl _)) (incl_appr _ (incl_refl _)) S1 S2 D) as (_ & _ & C & S).
  split; [intros e; apply (C Minus)|]. split; [intros e; apply (C Plus)|exact S].
Qed.
(* A manifest that cannot be read to its end makes the comparison fail. *)
Theorem diff_fails : forall l1 l2 k1 k2, k1 && k2 = false -> snd (diff_entries l1 k1 k2 l2) = false.
Proof.
  intros l1 l2 k1 k2 K. revert l2. induction l1 as [|a l1 IH]; intros l2; induction l2 as [|b l2 IH2].
  - exact K.
  - rewrite diff_nil. destruct k1; [|reflexivity]. destruct (diff_entries [] true k2 l2). exact IH2.
  - cbn [diff_entries]. destruct k2; [|reflexivity]. specialize (IH []). destruct (diff_entries l1 k1 true []). exact IH.
  - rewrite diff_cons. cbv zeta. destruct (_ =? 0).
    + specialize (IH l2). destruct (diff_entries l1 k1 k2 l2). exact IH.
    + destruct (_ <? 0).
      * specialize (IH (b :: l2)). destruct (diff_entries l1 k1 k2 (b :: l2)). exact IH.
      * destruct (diff_entries (a :: l1) k1 k2 l2). exact IH2.
Qed.

(* ---- what the client is sent ---- *)
(* A line as it should be: the attributes, the path behind its sign, the target of a link. *)
Definition line (x : sign * ent) : list (Z * bytes) :=
  let sb := e_sb (snd x) in
  let p := match ibuf (s_path sb) with Some b => cview b | None => [] end in
  [msg_of (s_attr sb); (icmd (s_path sb), match fst x with Minus => str "- " | Plus => str "+ " end ++ p)]
  ++ (if cmd_is_link (icmd (s_path sb)) then [msg_of (s_link sb)] else []).
Definition rooted (e : ent) : Prop := exists b c r, ibuf (s_path (e_sb e)) = Some b /\ cview b = slash :: c :: r.
Lemma send_line : forall x, rooted (snd x) -> send_diff x = line x.
Proof.
  intros [s e] (b & c & r & B & C). unfold send_diff, line. cbn [fst snd] in *. rewrite B, C.
  destruct s; reflexivity.
Qed.
Lemma find_in : forall n l b, find_bno n l = Some b -> In b l /\ b_no b = n.
Proof.
  intros n l b. induction l as [|x r IH]; cbn [find_bno]; [discriminate|]. destruct (Z.eqb_spec (b_no x) n) as [E|E].
  - intros H. injection H as <-. split; [left; reflexivity|exact E].
  - intros H. destruct (IH H). split; [right; assumption|assumption].
Qed.
Lemma find_none : forall n l, find_bno n l = None -> forall b, In b l -> b_no b <> n.
Proof.
  intros n l. induction l as [|x r IH]; cbn [find_bno]; [intros _ b []|]. destruct (Z.eqb_spec (b_no x) n) as [E|E]; [discriminate|].
  intros H b [<-|I]; [exact E|auto].
Qed.
Lemma find_the : forall l b, NoDup (map b_no l) -> In b l -> find_bno (b_no b) l = Some b.
Proof.
  intros l b N I. destruct (find_bno (b_no b) l) as [x|] eqn:E.
  - apply find_in in E. destruct E as [Ix Ex]. f_equal.
    clear - N I Ix Ex. induction l as [|y r IH]; [destruct I|]. cbn [map] in N. inversion N as [|u v Nu Nv]; subst.
    destruct I as [<-|I], Ix as [<-|Ix]; auto.
    + exfalso. apply Nu. rewrite <- Ex. apply in_map. exact Ix.
    + exfalso. apply Nu. rewrite Ex. apply in_map. exact I.
  - exfalso. apply (find_none _ _ E b I). reflexivity.
Qed.
(* Asked for two backups that are there. *)
Theorem server_diff : forall l b1 b2 s1 s2, NoDup (map b_no l) -> In b1 l -> In b2 l -> b_no b1 <> b_no b2 ->
  b_no b1 <> 0 -> b_no b2 <> 0 -> s1 <> [] -> s2 <> [] -> strtoul10 s1 = b_no b1 -> strtoul10 s2 = b_no b2 ->
  forall l1 l2, b_man b1 = (l1, true) -> b_man b2 = (l2, true) ->
  good (l1 ++ l2) -> StronglySorted before l1 -> StronglySorted before l2 -> Forall rooted (l1 ++ l2) ->
  exists o, do_diff_server l (Some s1) (Some s2) =
      ((CMD_TIMESTAMP, firstn 63 (b_ts b1)) :: (CMD_TIMESTAMP, firstn 63 (b_ts b2)) :: flat_map line o, true)
    /\ (forall e, In (Minus, e) o <-> In e l1 /\ differs l2 e)
    /\ (forall e, In (Plus, e) o <-> In e l2 /\ differs l1 e)
    /\ StronglySorted line_lt o.
Proof.
  intros l b1 b2 s1 s2 N I1 I2 D Z1 Z2 E1 E2 R1 R2 l1 l2 M1 M2 G S1 S2 RT.
  destruct (diff_exact l1 l2 G S1 S2) as (o & DO & A & B & S). exists o. split; [|auto].
  unfold do_diff_server, read_bno. destruct s1 as [|c1 s1]; [congruence|]. destruct s2 as [|c2 s2]; [congruence|].
  rewrite R1, R2. apply Z.eqb_neq in D, Z1, Z2. rewrite D, Z1, Z2. cbn [orb].
  rewrite !find_the by assumption. rewrite M1, M2. cbn [fst snd]. rewrite DO. unfold send_name. do 3 f_equal.
  assert (RO : forall x, In x o -> rooted (snd x)).
  { intros [s e] I. rewrite Forall_forall in RT. apply RT. apply in_app_iff. destruct s; [left; apply A|right; apply B]; exact I. }
  clear - RO. induction o as [|x o IH]; [reflexivity|]. cbn [flat_map]. rewrite send_line by (apply RO; left; reflexivity).
  f_equal. apply IH. intros y Hy. apply RO. right. exact Hy.
Qed.
(* Anything else is an error, and nothing of a backup is sent. *)
Definition asks (s : option bytes) (n : Z) : Prop := exists t, s = Some t /\ t <> [] /\ strtoul10 t = n.
Theorem server_error : forall l s1 s2,
  ~ (exists b1 b2, In b1 l /\ In b2 l /\ asks s1 (b_no b1) /\ asks s2 (b_no b2) /\ b_no b1 <> 0 /\ b_no b2 <> 0 /\ b_no b1 <> b_no b2) ->
  exists m, do_diff_server l s1 s2 = ([(CMD_ERROR, m)], false).
Proof.
  intros l s1 s2 H. unfold do_diff_server.
  destruct ((read_bno s1 =? 0) || (read_bno s2 =? 0) || (read_bno s1 =? read_bno s2)) eqn:E; [eauto|].
  apply orb_false_iff in E. destruct E as [E E3]. apply orb_false_iff in E. destruct E as [E1 E2]. apply Z.eqb_neq in E1, E2, E3.
  destruct (find_bno (read_bno s1) l) as [b1|] eqn:F1; [|eauto]. destruct (find_bno (read_bno s2) l) as [b2|] eqn:F2; [|eauto].
  exfalso. apply H. apply find_in in F1, F2. destruct F1 as [I1 N1], F2 as [I2 N2].
  assert (A : forall s, read_bno s <> 0 -> asks s (read_bno s)).
  { intros [[|c t]|] X; try (destruct (X eq_refl)). exists (c :: t). split; [reflexivity|]. split; [discriminate|reflexivity]. }
  exists b1, b2. rewrite N1, N2. do 2 (split; [assumption|]). do 2 (split; [apply A; assumption|]). auto.
Qed.
(* A manifest that cannot be read makes it fail. *)
Theorem server_unread : forall l s1 s2 b1 b2, NoDup (map b_no l) -> In b1 l -> In b2 l -> asks s1 (b_no b1) -> asks s2 (b_no b2) ->
  snd (b_man b1) && snd (b_man b2) = false -> snd (do_diff_server l s1 s2) = false.
Proof.
  intros l s1 s2 b1 b2 N I1 I2 (t1 & -> & T1 & A1) (t2 & -> & T2 & A2) K. unfold do_diff_server, read_bno.
  destruct t1 as [|c1 t1]; [congruence|]. destruct t2 as [|c2 t2]; [congruence|]. rewrite A1, A2.
  destruct (_ || _); [reflexivity|]. rewrite !find_the by assumption.
  pose proof (diff_fails (fst (b_man b1)) (fst (b_man b2)) _ _ K) as X.
  destruct (diff_entries _ _ _ _). exact X.
Qed.
