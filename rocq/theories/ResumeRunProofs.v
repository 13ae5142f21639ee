(* An interrupted backup, resumed and finished: the manifest in the end. *)
From Coq Require Import Sorting.Sorted Permutation.
From Verif Require Import Bytes PathcmpModel PathcmpProofs CmdModel CmdProofs AttribsModel FrameModel FrameProofs
  SbufModel SbufProofs MergeModel MergeProofs DpthModel DpthProofs Phase2Model Phase2Proofs ResumeModel ResumeProofs.

(* ---- what a run has received when it is stopped ---- *)

Section Weak.
Variable tree : ent -> bool.
Notation rcv := (receive tree).

(* As [after], but the run may also have failed. *)
Fixpoint afterw (r : rst) (ms : list (Z * bytes)) (P : rst -> Prop) : Prop :=
  match ms with
  | [] => P r
  | m :: ms' => forall a last, match rcv a (set_last r last) m with
                               | STR_OK r1 _ => afterw r1 ms' P
                               | _ => True
                               end
  end.
Lemma afterw_app : forall m1 m2 r (Q P : rst -> Prop), after tree r m1 Q -> (forall r', Q r' -> afterw r' m2 P) -> afterw r (m1 ++ m2) P.
Proof.
  induction m1 as [|m m1 IH]; intros m2 r Q P A H; cbn in *; auto.
  intros a last. specialize (A a last). destruct (rcv a (set_last r last) m); try contradiction. eauto.
Qed.
Lemma afterw_blind : forall ms r l P, blind P -> afterw r ms P -> afterw (set_last r l) ms P.
Proof.
  intros [|m ms] r l P B H; cbn in *; [apply (B r l); auto|].
  intros a last. rewrite set_last_set. apply H.
Qed.
Lemma receive_done : forall a r m r1 a1, rcv a r m = STR_OK r1 a1 -> fst m <> CMD_END_FILE -> r_done r1 = r_done r.
Proof.
  intros a r [c b] r1 a1 H N. cbn [fst] in N. unfold receive in H.
  repeat match type of H with
  | context [match ?x with _ => _ end] => destruct x eqn:?
  end; try discriminate; try (inversion H; subst; cbn; auto; fail).
  all: exfalso; apply N; apply Z.eqb_eq; auto.
Qed.
Lemma afterw_same : forall ms r, Forall (fun m => fst m <> CMD_END_FILE) ms -> afterw r ms (fun r' => r_done r' = r_done r).
Proof.
  induction ms as [|m ms IH]; intros r F; cbn; auto. inversion F; subst. intros a last.
  destruct (rcv a (set_last r last) m) as [|r1 a1|] eqn:E; auto. apply receive_done in E; auto.
  assert (X : r_done r1 = r_done r) by (rewrite E; reflexivity). rewrite <- X. apply IH. auto.
Qed.
Lemma afterw_impl : forall ms r (P Q : rst -> Prop), (forall r', P r' -> Q r') -> afterw r ms P -> afterw r ms Q.
Proof.
  induction ms as [|m ms IH]; intros r P Q H A; cbn in *; auto.
  intros a last. specialize (A a last). destruct (rcv a (set_last r last) m); eauto.
Qed.

Lemma app_split : forall (A : Type) (a b c d : list A), a ++ b = c ++ d ->
  (exists x, a = c ++ x /\ x ++ b = d) \/ (exists y, y <> [] /\ c = a ++ y).
Proof.
  induction a as [|x a IH]; intros b c d H.
  - destruct c as [|y c]; [left; exists []; auto|]. right. exists (y :: c). split; [discriminate|reflexivity].
  - destruct c as [|y c].
    + left. exists (x :: a). auto.
    + cbn in H. inversion H as [[H0 H1]]; subst. destruct (IH _ _ _ H1) as [(z & -> & E)|(z & N & ->)].
      * left. exists z. auto.
      * right. exists z. auto.
Qed.
Lemma prefix_of_snoc : forall (A : Type) (a y b : list A) x, y <> [] -> a ++ y = b ++ [x] -> exists w, b = a ++ w.
Proof.
  intros A a y b x N E. destruct (app_split _ a y b [x] E) as [(z & -> & E2)|(z & _ & ->)]; [|eauto].
  destruct z as [|z0 z]; [exists []; rewrite !app_nil_r; reflexivity|]. cbn in E2. inversion E2 as [[E3 E4]]. 
  apply app_eq_nil in E4. destruct E4 as [_ ->]. contradiction.
Qed.
Lemma no_end_inside : forall q w ms y, req_ok q -> y <> [] ->
  answer_msgs (e_path (snd q)) (s_datapth (e_sb (snd q))) w = ms ++ y -> Forall (fun m => fst m <> CMD_END_FILE) ms.
Proof.
  intros [b e] w ms y (D & N & Rq) Ny E. cbn [fst snd] in *.
  assert (Pc : icmd (e_path e) <> CMD_END_FILE).
  { change (icmd (e_path e)) with (e_cmd e). unfold has_data, side_data in D. intros X. rewrite X in D.
    unfold CMD_END_FILE, CMD_FILE, CMD_ENC_FILE in D. intuition discriminate. }
  assert (Dp : Forall (fun m : Z * bytes => fst m <> CMD_END_FILE)
             ((if (icmd (e_path e) =? CMD_FILE) && has_buf (s_datapth (e_sb e)) then [msg_of (s_datapth (e_sb e))] else []))).
  { destruct b.
    - destruct Rq as (_ & d & Ed & _). rewrite Ed. destruct (_ && _); constructor; [cbn; discriminate|constructor].
    - unfold has_buf. rewrite Rq, andb_false_r. constructor. }
  assert (Hd : forall attr, Forall (fun m : Z * bytes => fst m <> CMD_END_FILE)
             ((if (icmd (e_path e) =? CMD_FILE) && has_buf (s_datapth (e_sb e)) then [msg_of (s_datapth (e_sb e))] else []) ++ [(CMD_ATTRIBS, attr); msg_of (e_path e)])).
  { intros attr. apply Forall_app. split; auto. constructor; [cbn; discriminate|]. constructor; [|constructor].
    unfold msg_of. cbn [fst]. exact Pc. }
  assert (Bl : forall bl, Forall (fun m : Z * bytes => fst m <> CMD_END_FILE) (map (fun b => (CMD_APPEND, b)) bl)).
  { intros bl. apply Forall_map. apply Forall_forall. intros; cbn; discriminate. }
  unfold answer_msgs in E. destruct w as [|attr bl en|attr bl].
  - destruct ms as [|m ms]; [constructor|]. cbn in E. inversion E as [[E1 E2]]. symmetry in E2. apply app_eq_nil in E2. destruct E2 as [_ ->]. contradiction.
  - rewrite app_assoc in E. destruct (prefix_of_snoc _ ms y _ _ Ny (eq_sym E)) as (z & Ez).
    assert (F : Forall (fun m : Z * bytes => fst m <> CMD_END_FILE) (ms ++ z)) by (rewrite <- Ez; apply Forall_app; auto).
    apply Forall_app in F. tauto.
  - rewrite app_assoc in E. destruct (prefix_of_snoc _ ms y _ _ Ny (eq_sym E)) as (z & Ez).
    assert (F : Forall (fun m : Z * bytes => fst m <> CMD_END_FILE) (ms ++ z)) by (rewrite <- Ez; apply Forall_app; auto).
    apply Forall_app in F. tauto.
Qed.

Definition Sofar (ans : ent -> answer) (qs : list (bool * ent)) (r r' : rst) : Prop :=
  exists m vs, r_done r' = r_done r ++ vs /\
    Forall2 (got ans) (filter (fun q => was_sent (ans (snd q))) (firstn m qs)) vs.
Lemma Sofar_blind : forall ans qs r, blind (Sofar ans qs r).
Proof. intros ans qs r r' l. reflexivity. Qed.

Lemma partial_replies : forall ans qs r ms more, Forall req_ok qs -> (forall q, In q qs -> ans_ok (ans (snd q))) -> idle r ->
  ms ++ more = replies ans qs -> afterw r ms (Sofar ans qs r).
Proof.
  induction qs as [|q qs IH]; intros r ms more Rq Aq I E.
  - cbn in E. apply app_eq_nil in E. destruct E as [-> _]. cbn. exists 0%nat, []. rewrite app_nil_r. split; [reflexivity|constructor].
  - inversion Rq; subst. unfold replies in E. cbn [flat_map] in E. fold (replies ans qs) in E.
    destruct (app_split _ _ _ _ _ E) as [(x & -> & Ex)|(y & Ny & Ey)].
    + apply afterw_app with (Q := Post ans [q] r).
      * rewrite <- (app_nil_r (answer_msgs _ _ _)). apply after_answer; auto. apply Aq; left; auto.
      * intros r1 (I1 & vs1 & E1 & F1).
        apply afterw_impl with (P := Sofar ans qs r1); [|eapply IH; eauto; intros; apply Aq; right; auto].
        intros r2 (m & vs2 & E2 & F2). exists (S m), (vs1 ++ vs2). rewrite E2, E1, <- app_assoc. split; auto.
        cbn [firstn]. change (q :: firstn m qs) with ([q] ++ firstn m qs). rewrite filter_app. apply Forall2_app; auto.
    + eapply afterw_impl; [|apply afterw_same; eapply no_end_inside; eauto].
      intros r' Hr. exists 0%nat, []. rewrite app_nil_r. split; [exact Hr|constructor].
Qed.
End Weak.

Section RunW.
Variables (tree : ent -> bool) (old_regular : bytes -> bool) (link_ok : bytes -> bytes -> bool)
          (open_ok : bytes -> bool) (allents : list ent) (cf : p2conf).
Notation run := (p2_run tree old_regular link_ok open_ok allents cf).
Lemma run_weak : forall l s r evs s' r' P, blind P -> afterw tree r (rcvs l) P -> run s r l = (evs, Going s' r') -> P r'.
Proof.
  induction l as [|[|m] l IH]; intros s r evs s' r' P B A H; cbn [p2_run rcvs] in *.
  - inversion H; subst. exact A.
  - destruct (process_next tree old_regular link_ok open_ok allents cf s) as [[evs0 s1]|]; [|discriminate].
    destruct (run s1 _ l) as [evs' o'] eqn:R. inversion H; subst. eapply IH; [exact B| |exact R]. apply afterw_blind; auto.
  - cbn [afterw] in A. specialize (A (q_aux s) (r_last r)). rewrite set_last_id in A.
    destruct (receive tree (q_aux s) r m) as [|r1 a1|] eqn:Rv; try discriminate. eapply IH; eauto.
Qed.

(* An interrupted conversation: what has been received is the files sent for
   the first of the requests. *)
Theorem interrupted : forall ans p1 cur a l evs s' r' more,
  hm_ok allents a -> Forall scan_ok p1 -> Forall old_ok (match cur with Some c => c | None => [] end) ->
  (forall q, In q (requests evs) -> ans_ok (ans (snd q))) ->
  run (start p1 cur a) rst0 l = (evs, Going s' r') -> rcvs l ++ more = replies ans (requests evs) ->
  exists m, Forall2 (got ans) (filter (fun q => was_sent (ans (snd q))) (firstn m (requests evs))) (r_done r').
Proof.
  intros ans p1 cur a l evs s' r' more K Sp Oc Aq H E.
  pose proof (start_inv allents p1 cur a K) as I.
  destruct (run_walks _ _ _ _ _ _ _ _ _ _ _ I H) as (p1' & av' & W & _). rewrite start_avail in W.
  pose proof (walks_req _ _ _ _ _ _ _ _ _ _ W Oc Sp) as Rq.
  pose proof (partial_replies tree ans (requests evs) rst0 _ _ Rq Aq idle0 E) as A.
  destruct (run_weak _ _ _ _ _ _ _ (Sofar_blind ans (requests evs) rst0) A H) as (m & vs & Ev & F).
  exists m. cbn in Ev. rewrite Ev. exact F.
Qed.
End RunW.

(* ---- the two halves together ---- *)

Notation plt := entry_lt.
Lemma lt_apart : forall x y, iraw x -> plt x y \/ plt y x -> ~ entry_eq x y.
Proof. intros x y Rx Hl [E1 E2]. apply (entry_lt_irrefl x Rx). unfold entry_lt in *. rewrite <- E1, <- E2 in Hl. tauto. Qed.
Section Parts.
Variables (evs : list ev) (sent : bool * ent -> bool).
Hypothesis SS : StronglySorted plt (map e_path (handled evs)).
Hypothesis Raw : forall x, In x (map e_path (handled evs)) -> iraw x.
Definition wr_paths := map e_path (written evs).
Definition rq_paths := map rp (filter sent (requests evs)).
Definition refused (x : iobuf) : Prop := exists q, In q (requests evs) /\ e_path (snd q) = x /\ sent q = false.

Lemma wr_in : forall x, In x wr_paths -> In x (map e_path (handled evs)).
Proof. intros x H. apply in_map_iff in H. destruct H as (e & <- & He). apply in_map. apply written_in. auto. Qed.
Lemma rq_in : forall x, In x rq_paths -> In x (map e_path (handled evs)).
Proof. intros x H. apply in_map_iff in H. destruct H as (q & <- & Q). apply filter_In in Q. unfold rp. apply in_map. apply requests_in. tauto. Qed.
Lemma parts_apart : forall x y, In x wr_paths -> In y rq_paths -> plt x y \/ plt y x.
Proof.
  intros x y Hx Hy. apply in_map_iff in Hx, Hy. destruct Hx as (e & <- & He). destruct Hy as (q & <- & Q). apply filter_In in Q.
  apply (wr_apart _ _ SS); tauto.
Qed.
Lemma parts_all : forall x, In x wr_paths \/ In x rq_paths <-> In x (map e_path (handled evs)) /\ ~ refused x.
Proof.
  pose proof (ss_requests _ _ SS) as Sr. intros x. split.
  - intros Hx. split; [destruct Hx as [Hx|Hx]; [apply wr_in|apply rq_in]; auto|]. intros (q & Q & Eq & N).
    assert (Rx : iraw x) by (apply Raw; destruct Hx as [Hx|Hx]; [apply wr_in|apply rq_in]; auto).
    apply (lt_apart x x Rx); [|split; reflexivity]. destruct Hx as [Hx|Hx]; apply in_map_iff in Hx.
    + destruct Hx as (e & <- & He). pose proof (wr_apart _ _ SS e q He Q) as A. unfold rp in A. rewrite Eq in A. tauto.
    + destruct Hx as (q' & <- & Q').
      assert (Q3 : In q (filter (fun q => negb (sent q)) (requests evs))) by (apply filter_In; rewrite N; auto).
      pose proof (filter_apart _ _ rp sent _ Sr q' q Q' Q3) as A. change (rp q = rp q') in Eq. rewrite Eq in A. tauto.
  - intros [Hx N]. apply in_map_iff in Hx. destruct Hx as (e & <- & He). apply handled_in in He.
    destruct He as [He|[d He]]; [left; apply in_map; auto|]. right.
    apply in_map_iff. exists (d, e). split; auto. apply filter_In. split; auto.
    destruct (sent (d, e)) eqn:Es; auto. exfalso. apply N. exists (d, e). auto.
Qed.
Lemma parts_wr : StronglySorted plt wr_paths. Proof. apply ss_written. exact SS. Qed.
Lemma parts_rq : StronglySorted plt rq_paths. Proof. apply (ss_filter _ _ rp). apply ss_requests. exact SS. Qed.
End Parts.

Lemma ss_app : forall a b, StronglySorted plt (a ++ b) <->
  StronglySorted plt a /\ StronglySorted plt b /\ (forall x y, In x a -> In y b -> plt x y).
Proof.
  induction a as [|x a IH]; intros b; cbn [app].
  - split; [intros H; split; [constructor|]; split; [exact H|intros ? ? []]|tauto].
  - split.
    + intros H. inversion H as [|? ? H1 H2]; subst. apply IH in H1. destruct H1 as (A & B & D). rewrite Forall_app in H2. destruct H2 as [F1 F2].
      split; [constructor; auto|]. split; [exact B|]. rewrite Forall_forall in F2. intros u v [<-|Hu] Hv; auto.
    + intros (A & B & D). inversion A as [|? ? A1 A2]; subst. constructor.
      * apply IH. split; [exact A1|]. split; [exact B|]. intros; apply D; auto. right; auto.
      * apply Forall_app. split; [exact A2|]. rewrite Forall_forall. intros y Hy. apply D; auto. left; auto.
Qed.
Lemma firstn_filter : forall (A : Type) (f : A -> bool) l m, exists n, filter f (firstn m l) = firstn n (filter f l).
Proof.
  induction l as [|x l IH]; intros m; [exists 0%nat; rewrite firstn_nil; reflexivity|].
  destruct m as [|m]; [exists 0%nat; reflexivity|]. cbn [firstn filter]. destruct (IH m) as (n & ->).
  destruct (f x); [exists (S n); reflexivity|exists n; reflexivity].
Qed.
Lemma in_skip : forall (A : Type) n (l : list A) x, In x l -> In x (firstn n l) \/ In x (skipn n l).
Proof. intros A n l x H. rewrite <- (firstn_skipn n l) in H. apply in_app_or. exact H. Qed.
Lemma in_first : forall (A : Type) n (l : list A) x, In x (firstn n l) -> In x l.
Proof. intros A n l x H. rewrite <- (firstn_skipn n l). apply in_or_app. auto. Qed.
Lemma in_last : forall (A : Type) n (l : list A) x, In x (skipn n l) -> In x l.
Proof. intros A n l x H. rewrite <- (firstn_skipn n l). apply in_or_app. auto. Qed.

(* What the first half leaves: exactly the part of the scan up to the path t
   of the last entry kept of those received. *)
Definition upto (t x : iobuf) : Prop := plt x t \/ entry_eq t x.
Lemma upto_not_after : forall t x, iraw t -> iraw x -> upto t x -> ~ plt t x.
Proof.
  intros t x Rt Rx [H|H] A.
  - apply (entry_lt_irrefl t Rt). eapply entry_lt_trans with (b := x); eauto.
  - apply (lt_apart t x Rt); auto.
Qed.
Lemma before_not_upto : forall t x, iraw t -> iraw x -> plt x t -> ~ (plt t x \/ entry_eq t x).
Proof.
  intros t x Rt Rx H [A|A].
  - apply (entry_lt_irrefl t Rt). eapply entry_lt_trans with (b := x); eauto.
  - apply (lt_apart t x Rt); auto.
Qed.

Lemma first_half : forall evs sent A rest h g n,
  map e_path (handled evs) ++ rest = A -> StronglySorted plt A -> (forall x, In x A -> iraw x) ->
  let W := wr_paths evs in let R := rq_paths evs sent in
  (0 < g <= n)%nat -> (g <= List.length R)%nat ->
  let t := last (firstn g (firstn n R)) iobuf_empty in
  (forall x, In x (firstn h W) -> plt x t) -> (forall x, In x (skipn h W) -> ~ plt x t) ->
  In t R /\ (forall x, In x (firstn h W) \/ In x (firstn g R) -> upto t x) /\
  forall x, In x (firstn h W) \/ In x (firstn g R) <-> In x A /\ upto t x /\ ~ refused evs sent x.
Proof.
  intros evs sent A rest h g n EA SA Raw W R Hg HgR t H1 H2.
  assert (SH : StronglySorted plt (map e_path (handled evs))) by (rewrite <- EA in SA; apply ss_app in SA; tauto).
  assert (RH : forall x, In x (map e_path (handled evs)) -> iraw x) by (intros x Hx; apply Raw; rewrite <- EA; apply in_or_app; auto).
  pose proof (parts_rq evs sent SH) as SR. fold R in SR.
  assert (Et : firstn g (firstn n R) = firstn g R) by (rewrite firstn_firstn; f_equal; lia).
  assert (L : exists l, firstn g R = l ++ [t]).
  { unfold t. rewrite Et. assert (N : firstn g R <> []) by (intros X; apply (f_equal (@List.length _)) in X; rewrite firstn_length in X; cbn in X; lia).
    exists (removelast (firstn g R)). apply app_removelast_last. exact N. }
  destruct L as (l & El). 
  assert (It : In t R) by (apply (in_first _ g); rewrite El; apply in_or_app; right; left; reflexivity).
  assert (Rt : iraw t) by (apply RH; apply (rq_in evs sent); exact It).
  rewrite <- (firstn_skipn g R) in SR. rewrite El in SR. rewrite <- app_assoc in SR. cbn [app] in SR.
  apply ss_app in SR. destruct SR as (_ & St & Sl). inversion St as [|? ? _ Sk]; subst. rewrite Forall_forall in Sk.
  assert (K : forall x, In x (firstn g R) -> upto t x).
  { intros x Hx. rewrite El in Hx. apply in_app_or in Hx. destruct Hx as [Hx|[<-|[]]]; [left; apply Sl; [auto|left; auto]|right; split; reflexivity]. }
  split; [exact It|]. split; [intros x [Hx|Hx]; [left; apply H1; auto|auto]|].
  intros x. split.
  - intros Hx. assert (U : upto t x) by (destruct Hx as [Hx|Hx]; [left; auto|auto]).
    assert (X : In x W \/ In x R) by (destruct Hx as [Hx|Hx]; [left|right]; eapply in_first; eauto).
    apply (parts_all evs sent SH RH) in X. destruct X as [X N]. split; [apply in_or_app; auto|]. auto.
  - intros (Ix & U & N). assert (Rx := Raw _ Ix).
    assert (Hx : In x (map e_path (handled evs))).
    { apply in_app_or in Ix. destruct Ix as [Ix|Ix]; auto. exfalso. apply ss_app in SA. destruct SA as (_ & _ & SA).
      apply (upto_not_after t x Rt Rx U). apply SA; auto. apply (rq_in evs sent); auto. }
    destruct (proj2 (parts_all evs sent SH RH x) (conj Hx N)) as [X|X].
    + left. destruct (in_skip _ h _ _ X) as [Y|Y]; auto. exfalso. apply (H2 x Y). destruct U as [U|U]; auto. exfalso.
      apply (lt_apart t x Rt); auto. destruct (parts_apart evs sent SH x t X It); auto.
    + right. destruct (in_skip _ g _ _ X) as [Y|Y]; auto. exfalso. apply (upto_not_after t x Rt Rx U). auto.
Qed.

(* The manifest of two halves of a scan, the first up to t and the second
   after it. *)
Lemma two_halves : forall (A1 A2 : list iobuf) U1 C1 U2 C2 (t : iobuf) (N1 N2 : iobuf -> Prop),
  (forall x, In x (A1 ++ A2) -> iraw x) ->
  ents_ok (U1 ++ C1 ++ U2 ++ C2) ->
  (forall x y, In x A1 -> In y A2 -> plt x y) ->
  let pa := map s_path in
  StronglySorted plt (pa U1) -> StronglySorted plt (pa C1) -> StronglySorted plt (pa U2) -> StronglySorted plt (pa C2) ->
  (forall x y, In x (pa U1) -> In y (pa C1) -> plt x y \/ plt y x) ->
  (forall x y, In x (pa U2) -> In y (pa C2) -> plt x y \/ plt y x) ->
  (forall x, In x (pa U1) \/ In x (pa C1) <-> In x A1 /\ ~ N1 x) ->
  (forall x, In x (pa U2) \/ In x (pa C2) <-> In x A2 /\ ~ N2 x) ->
  let M := phase3 (U1 ++ U2) (C1 ++ C2) in
  StronglySorted ent_lt M /\
  forall x, In x (pa M) <-> (In x A1 /\ ~ N1 x) \/ (In x A2 /\ ~ N2 x).
Proof.
  intros A1 A2 U1 C1 U2 C2 t N1 N2 Raw Ok Lt pa S1 S2 S3 S4 P1 P2 H1 H2 M. split.
  - apply phase3_no_duplicates.
    + destruct Ok as [O1 O2]. assert (Pm : forall x, In x ((U1 ++ U2) ++ C1 ++ C2) -> In x (U1 ++ C1 ++ U2 ++ C2)).
      { intros x. rewrite !in_app_iff. tauto. }
      split.
      * rewrite Forall_forall in *. intros x Hx. apply O1. auto.
      * destruct O2 as [O2|O2]; [left|right]; intros x Hx; apply O2; auto.
    + apply (proj2 (ss_map plt _ s_path _)). rewrite map_app. apply ss_app. split; [exact S1|]. split; [exact S3|].
      intros x y Hx Hy. apply Lt; [apply H1; auto|apply H2; auto].
    + apply (proj2 (ss_map plt _ s_path _)). rewrite map_app. apply ss_app. split; [exact S2|]. split; [exact S4|].
      intros x y Hx Hy. apply Lt; [apply H1; auto|apply H2; auto].
    + intros u c Hu Hc. apply (in_map s_path) in Hu, Hc. rewrite map_app in Hu, Hc. fold pa in Hu, Hc.
      unfold ent_eq. apply lt_apart.
      * apply Raw. apply in_or_app. apply in_app_or in Hu. destruct Hu as [Hu|Hu]; [left; apply H1; auto|right; apply H2; auto].
      * apply in_app_or in Hu, Hc. destruct Hu as [Hu|Hu], Hc as [Hc|Hc]; auto.
        -- left. apply Lt; [apply H1; auto|apply H2; auto].
        -- right. apply Lt; [apply H1; auto|apply H2; auto].
  - intros x. rewrite <- H1, <- H2.
    pose proof (Permutation_map s_path (phase3_permutation (U1 ++ U2) (C1 ++ C2))) as PP. fold M in PP. unfold pa.
    assert (Q : In x (map s_path M) <-> In x (map s_path ((U1 ++ U2) ++ C1 ++ C2))).
    { split; intros Hx; [apply (Permutation_in _ PP)|apply (Permutation_in _ (Permutation_sym PP))]; exact Hx. }
    rewrite Q, !map_app, !in_app_iff. tauto.
Qed.

(* ---- interrupted, resumed, finished ---- *)

(* The entries es stand for what was written for sbs. *)
Definition written_as (sbs : list sbuf) (es : list entry) : Prop :=
  map sbuf_msgs sbs = map entry_msgs es /\ map s_path sbs = map epath es.
Definition received (r : rst) : list sbuf := map (fun v => e_sb (v_ent v)) (r_done r).

(* Every entry of unchanged that comes before an entry of changed that is on
   the disk is on the disk itself. *)
Definition in_order (kc ku : nat) (C U : list entry) : Prop :=
  forall a c b n, C = a ++ c :: b -> (size (a ++ [c]) <= kc)%nat ->
    Forall (fun u => entry_lt (epath u) (epath c)) (firstn n U) -> (size (firstn n U) <= ku)%nat.

Lemma nomix_unmixed : forall l a b, ents_ok l -> In a l -> In b l -> iraw (s_path a) /\ iraw (s_path b) /\ unmixed (s_path a) (s_path b).
Proof.
  intros l a b [R N] Ha Hb. rewrite Forall_forall in R. split; [auto|]. split; [auto|].
  destruct N as [N|N]; pose proof (N a Ha); pose proof (N b Hb); unfold unmixed; tauto.
Qed.

Section Whole.
Variables (tree1 tree2 : ent -> bool) (oldr1 oldr2 : bytes -> bool) (lnk1 lnk2 : bytes -> bytes -> bool)
          (opn1 opn2 : bytes -> bool) (all1 all2 : list ent) (cf1 cf2 : p2conf).
Notation run1 := (p2_run tree1 oldr1 lnk1 opn1 all1 cf1).
Notation run2 := (p2_run tree2 oldr2 lnk2 opn2 all2 cf2).

Theorem resumed_backup : forall ans1 ans2 p1 cur a l1 evs1 s1 r1 more P oldP C U kc ku k d o1 z,
  let cu := match cur with Some c => c | None => [] end in
  let ocu := match oldP with Some c => c | None => [] end in
  (* the scan and the previous manifest *)
  well (p1 ++ cu) -> sorted p1 -> sorted cu -> Forall scan_ok p1 -> Forall old_ok cu ->
  map e_sb p1 = map entry_sbuf P -> map e_sb cu = map entry_sbuf ocu -> hm_ok all1 a ->
  (* the first run, stopped *)
  run1 (start p1 cur a) rst0 l1 = (evs1, Going s1 r1) ->
  rcvs l1 ++ more = replies ans1 (requests evs1) ->
  (forall q, In q (requests evs1) -> ans_ok (ans1 (snd q))) ->
  (* the disk *)
  written_as (received r1) C -> written_as (map e_sb (written evs1)) U ->
  k_p1 k = file P -> k_cur k = option_map file oldP -> k_ch k = firstn kc (file C) -> k_un k = firstn ku (file U) ->
  Forall wf_entry (P ++ ocu ++ C ++ U) -> Forall stored (C ++ U) -> Forall (fun e => seen (edp e)) (C ++ U) ->
  noerr (k_p1o k) -> noerr (k_curo k) -> noerr (k_uno k) -> noerr o1 -> okd d ->
  in_order kc ku C U ->
  (* resuming *)
  do_resume k o1 d = Some z ->
  exists j C' U', z_p1 z = size (firstn j P) /\ z_ch z = file C' /\ z_un z = file U' /\
  (* the second run, finished *)
  forall cur2 a2 l2 evs2 s2 r2,
    hm_ok all2 a2 -> Forall old_ok (match cur2 with Some c => c | None => [] end) ->
    run2 (start (skipn j p1) cur2 a2) rst0 l2 = (evs2, Finished s2 r2) -> In EEnd evs2 ->
    rcvs l2 = replies ans2 (requests evs2) ++ [ok_end] ->
    (forall q, In q (requests evs2) -> ans_ok (ans2 (snd q))) ->
    let M := phase3 (map entry_sbuf U' ++ map e_sb (written evs2)) (map entry_sbuf C' ++ received r2) in
    let no1 x := exists q, In q (requests evs1) /\ e_path (snd q) = x /\ was_sent (ans1 (snd q)) = false in
    let no2 x := exists q, In q (requests evs2) /\ e_path (snd q) = x /\ was_sent (ans2 (snd q)) = false in
    StronglySorted ent_lt M /\
    forall x, In x (map s_path M) <->
      In x (map e_path p1) /\ ~ (no1 x /\ In x (map e_path (firstn j p1))) /\ ~ no2 x.
Proof.
  intros ans1 ans2 p1 cur a l1 evs1 s1 r1 more P oldP C U kc ku k d o1 z cu ocu
    W So Sc Sk Oc EP EO Hm R1 E1 A1 WC WU Kp Kc Kh Ku Wf St Sn Np Nc Nu No O IO Z.
  set (sent1 := fun q : bool * ent => was_sent (ans1 (snd q))).
  set (sent2 := fun q : bool * ent => was_sent (ans2 (snd q))).
  destruct (each_once _ _ _ _ _ _ _ _ _ _ _ _ _ Hm R1) as (rest & EA & _).
  destruct (interrupted _ _ _ _ _ _ _ _ _ _ _ _ _ _ _ Hm Sk Oc A1 R1 E1) as (m & F1). apply got_paths in F1.
  fold sent1 in F1.
  destruct (firstn_filter _ sent1 (requests evs1) m) as (n & En). rewrite En in F1. clear En.
  set (A := map e_path p1) in *.
  assert (SA : StronglySorted plt A) by (apply (proj1 (ss_map plt _ e_path _)); exact So).
  assert (WI : forall e, In e p1 -> In (e_sb e) (map e_sb (p1 ++ cu))) by (intros e He; apply in_map; apply in_or_app; auto).
  assert (Raw : forall x, In x A -> iraw x).
  { intros x Hx. apply in_map_iff in Hx. destruct Hx as (p & <- & Hp). destruct W as [W _]. rewrite Forall_forall in W. apply (W (e_sb p)). auto. }
  assert (PA : map epath P = A).
  { unfold A. change (fun e => epath e) with epath. replace (map e_path p1) with (map s_path (map e_sb p1)) by (rewrite map_map; reflexivity).
    rewrite EP, map_map. reflexivity. }
  assert (CA : map epath C = firstn n (rq_paths evs1 sent1)).
  { destruct WC as [_ WC]. rewrite <- WC. unfold received. rewrite map_map, F1. unfold rq_paths. symmetry. apply firstn_map. }
  assert (UA : map epath U = wr_paths evs1).
  { destruct WU as [_ WU]. rewrite <- WU, map_map. reflexivity. }
  assert (SH : StronglySorted plt (map e_path (handled evs1))) by (rewrite <- EA in SA; apply ss_app in SA; tauto).
  assert (InH : forall x, In x (map e_path (handled evs1)) -> In x A) by (intros x Hx; rewrite <- EA; apply in_or_app; auto).
  assert (CinA : forall c, In c C -> In (epath c) A).
  { intros c Hc. apply InH. apply (rq_in evs1 sent1). apply (in_first _ n). rewrite <- CA. apply in_map. auto. }
  assert (UinA : forall c, In c U -> In (epath c) A).
  { intros c Hc. apply InH. apply (wr_in evs1). rewrite <- UA. apply in_map. auto. }
  assert (OA : map epath ocu = map e_path cu).
  { replace (map e_path cu) with (map s_path (map e_sb cu)) by (rewrite map_map; reflexivity). rewrite EO, map_map. reflexivity. }
  assert (Cmp : forall c e, In c C -> In e (P ++ ocu ++ U) -> comparable (epath c) e).
  { intros c e Hc He.
    assert (X : forall y, In y A \/ In y (map e_path cu) -> exists b, In b (map e_sb (p1 ++ cu)) /\ y = s_path b).
    { intros y [Hy|Hy]; apply in_map_iff in Hy; destruct Hy as (p & <- & Hp); exists (e_sb p); (split; [|reflexivity]); apply in_map; apply in_or_app; auto. }
    destruct (X (epath c)) as (b1 & B1 & Eb1); [left; auto|].
    destruct (X (epath e)) as (b2 & B2 & Eb2).
    { apply in_app_or in He. destruct He as [He|He]; [left; rewrite <- PA; apply in_map; auto|].
      apply in_app_or in He. destruct He as [He|He]; [right; rewrite <- OA; apply in_map; auto|left; auto]. }
    unfold comparable. rewrite Eb1, Eb2. apply (nomix_unmixed _ _ _ W); auto. }
  assert (SP : esorted P) by (apply (proj2 (ss_map plt _ epath _)); rewrite PA; exact SA).
  assert (SO : esorted ocu) by (apply (proj2 (ss_map plt _ epath _)); rewrite OA; apply (proj1 (ss_map plt _ e_path _)); exact Sc).
  destruct (resume_plan P oldP C U kc ku k d o1 Kp Kc Kh Ku Wf St Sn SP SO Cmp Np Nc No O)
    as (mc & mu & Rc & Ru & [[X _]|(z' & g & h & j & jc & Ez & PL & _)]); [congruence|].
  rewrite Z in Ez. inversion Ez; subst z'. clear Ez.
  exists j, (firstn g C), (firstn h U). split; [apply PL|]. split; [apply PL|]. split; [apply PL|].
  intros cur2 a2 l2 evs2 s2 r2 Hm2 Oc2 R2 I2 E2 A2 M no1 no2.
  destruct (each_once _ _ _ _ _ _ _ _ _ _ _ _ _ Hm2 R2) as (rest2 & EB & Hr2). rewrite (Hr2 I2), app_nil_r in EB. clear rest2 Hr2.
  assert (Sk2 : Forall scan_ok (skipn j p1)) by (rewrite Forall_forall in *; intros x Hx; apply Sk; eapply in_last; eauto).
  destruct (conversation _ _ _ _ _ _ ans2 _ _ _ _ _ _ Hm2 Sk2 Oc2 A2 R2 E2) as [[X|(s3 & r3 & X & F2)] _]; [discriminate|].
  inversion X; subst s3 r3. clear X. apply got_paths in F2. fold sent2 in F2.
  set (B1 := firstn j A). set (B2 := skipn j A).
  assert (EB2 : map e_path (handled evs2) = B2) by (rewrite EB; unfold B2, A; symmetry; apply skipn_map).
  assert (AB : A = B1 ++ B2) by (symmetry; apply firstn_skipn).
  assert (LtB : forall x y, In x B1 -> In y B2 -> plt x y) by (rewrite AB in SA; apply ss_app in SA; tauto).
  assert (SB2 : StronglySorted plt (map e_path (handled evs2))) by (rewrite EB2; rewrite AB in SA; apply ss_app in SA; tauto).
  assert (RB2 : forall x, In x (map e_path (handled evs2)) -> iraw x) by (intros x Hx; apply Raw; rewrite AB; apply in_or_app; right; rewrite <- EB2; auto).
  assert (U1 : map s_path (map entry_sbuf (firstn h U)) = firstn h (wr_paths evs1)).
  { rewrite <- UA, firstn_map, map_map. reflexivity. }
  assert (C1 : map s_path (map entry_sbuf (firstn g C)) = firstn g (firstn n (rq_paths evs1 sent1))).
  { rewrite <- CA, firstn_map, map_map. reflexivity. }
  assert (U2 : map s_path (map e_sb (written evs2)) = wr_paths evs2) by (rewrite map_map; reflexivity).
  assert (C2 : map s_path (received r2) = rq_paths evs2 sent2) by (unfold received; rewrite map_map, F2; reflexivity).
  pose proof (pl_g _ _ _ _ _ _ _ _ _ _ _ PL) as Gw. pose proof (whole_le _ _ Gw) as Gl. rewrite firstn_length in Gl.
  assert (Lc : List.length C = Nat.min n (List.length (rq_paths evs1 sent1))).
  { rewrite <- (map_length epath C), CA, firstn_length. reflexivity. }
  assert (C1' : firstn g (firstn n (rq_paths evs1 sent1)) = firstn g (rq_paths evs1 sent1)).
  { rewrite firstn_firstn. f_equal. lia. }
  assert (Half : forall x, In x (firstn h (wr_paths evs1)) \/ In x (firstn g (rq_paths evs1 sent1)) <-> In x B1 /\ ~ refused evs1 sent1 x).
  { destruct (Nat.eq_dec g 0) as [G0|G0].
    - destruct (pl_none _ _ _ _ _ _ _ _ _ _ _ PL G0) as (-> & Hj & _). subst g. unfold B1. rewrite Hj. cbn. tauto.
    - set (t := last_path (firstn g C)).
      destruct (pl_some _ _ _ _ _ _ _ _ _ _ _ PL t ltac:(lia) eq_refl) as (T1 & T2 & Fr & _).
      assert (Et : t = last (firstn g (firstn n (rq_paths evs1 sent1))) iobuf_empty).
      { unfold t, last_path. rewrite <- CA, firstn_map. reflexivity. }
      assert (T1' : forall x, In x B1 -> upto t x).
      { intros x Hx. unfold B1 in Hx. rewrite <- PA, firstn_map in Hx. apply in_map_iff in Hx. destruct Hx as (e & <- & He).
        rewrite Forall_forall in T1. destruct (T1 e He) as [H|H]; [left|right]; exact H. }
      assert (T2' : forall x, In x B2 -> plt t x).
      { intros x Hx. unfold B2 in Hx. rewrite <- PA, skipn_map in Hx. apply in_map_iff in Hx. destruct Hx as (e & <- & He).
        rewrite Forall_forall in T2. apply (T2 e He). }
      assert (Gt : exists l c, firstn g C = l ++ [c] /\ t = epath c /\ In c C).
      { assert (N0 : firstn g C <> []) by (intros Y; apply (f_equal (@List.length _)) in Y; rewrite firstn_length in Y; cbn in Y; lia).
        destruct (exists_last N0) as (l & c & El). exists l, c. split; [exact El|]. split; [unfold t; rewrite El; apply last_path_snoc|].
        apply (in_first _ g). rewrite El. apply in_or_app. right. left. reflexivity. }
      destruct Gt as (gl & gc & Eg & Etc & Igc).
      assert (Rt : iraw t) by (rewrite Etc; apply Raw; apply CinA; auto).
      destruct Fr as (Hh & Fb & Fn).
      assert (SU : StronglySorted plt (wr_paths evs1)) by (apply parts_wr; exact SH).
      assert (H1 : forall x, In x (firstn h (wr_paths evs1)) -> plt x t).
      { intros x Hx. rewrite <- UA, firstn_map in Hx. apply in_map_iff in Hx. destruct Hx as (e & <- & He).
        rewrite Forall_forall in Fb. apply (Fb e He). }
      assert (H2 : forall x, In x (skipn h (wr_paths evs1)) -> ~ plt x t).
      { intros x Hx Lx. assert (Rx : iraw x) by (apply Raw; apply InH; apply (wr_in evs1); eapply in_last; eauto).
        rewrite <- (firstn_skipn h (wr_paths evs1)) in SU. apply ss_app in SU. destruct SU as (_ & SU & _).
        rewrite <- UA, skipn_map in SU, Hx.
        destruct (skipn h U) as [|u ur] eqn:Es; [contradiction|]. cbn [map] in SU, Hx.
        assert (Ru' : iraw (epath u)) by (apply Raw; apply UinA; apply (in_last _ h); rewrite Es; left; auto).
        assert (Lu : plt (epath u) t).
        { destruct Hx as [<-|Hx]; auto. inversion SU as [|? ? _ SU2]; subst. rewrite Forall_forall in SU2.
          eapply entry_lt_trans with (b := x); eauto. }
        destruct Fn as [->|(e & er & Ee & Ca)].
        - destruct Ru as (_ & _ & Ru). destruct (Ru Nu) as [Em|Big].
          + rewrite Em, skipn_all in Es. discriminate.
          + cbn [app] in Big.
            assert (Sz : (size (firstn (S mu) U) <= ku)%nat); [|lia].
            apply (IO gl gc (skipn g C) (S mu)).
            * rewrite <- (firstn_skipn g C) at 1. rewrite Eg, <- app_assoc. reflexivity.
            * rewrite <- Eg. eapply size_firstn; eauto. lia.
            * assert (Ef : firstn (S mu) U = firstn mu U ++ [u]).
              { rewrite <- (firstn_skipn mu U) at 1. rewrite Es.
                assert (Lm : List.length (firstn mu U) = mu).
                { apply firstn_length_le. assert (Lq : List.length (skipn mu U) = S (List.length ur)) by (rewrite Es; reflexivity).
                  rewrite skipn_length in Lq. lia. }
                rewrite firstn_app, Lm. rewrite firstn_all2 by lia. replace (S mu - mu)%nat with 1%nat by lia. reflexivity. }
              rewrite Ef. apply Forall_app. rewrite Etc in *. split; [|constructor; [exact Lu|constructor]].
              eapply Forall_impl; [|exact Fb]. intros y Hy. exact Hy.
        - inversion Ee; subst e er. exact (before_not_upto t (epath u) Rt Ru' Lu Ca). }
      destruct (first_half evs1 sent1 A rest h g n EA SA Raw ltac:(lia) ltac:(lia)) as (_ & _ & Eq).
      + rewrite <- Et. exact H1.
      + rewrite <- Et. exact H2.
      + rewrite <- Et in Eq. intros x. rewrite Eq. rewrite AB, in_app_iff. split; [|intros [X Y]; auto].
        intros ([X|X] & Y & V); [auto|]. exfalso. apply (upto_not_after t x Rt); auto.
        apply Raw. rewrite AB. apply in_or_app. auto. }
  assert (SR1 : StronglySorted plt (rq_paths evs1 sent1)) by (apply parts_rq; exact SH).
  assert (SW1 : StronglySorted plt (wr_paths evs1)) by (apply parts_wr; exact SH).
  destruct (two_halves B1 B2 (map entry_sbuf (firstn h U)) (map entry_sbuf (firstn g C)) (map e_sb (written evs2)) (received r2) iobuf_empty
              (refused evs1 sent1) (refused evs2 sent2)) as (T1 & T2).
  - intros x Hx. apply Raw. rewrite AB. exact Hx.
  - assert (IN : forall x, In x (map entry_sbuf (firstn h U) ++ map entry_sbuf (firstn g C) ++ map e_sb (written evs2) ++ received r2) -> In (s_path x) A).
    { intros x Hx. apply (in_map s_path) in Hx. rewrite !map_app, U1, C1, U2, C2, !in_app_iff in Hx.
      destruct Hx as [Hx|[Hx|[Hx|Hx]]].
      - apply InH. apply (wr_in evs1). eapply in_first; eauto.
      - apply InH. apply (rq_in evs1 sent1). eapply in_first. eapply in_first. eauto.
      - rewrite AB. apply in_or_app. right. rewrite <- EB2. apply (wr_in evs2). auto.
      - rewrite AB. apply in_or_app. right. rewrite <- EB2. apply (rq_in evs2 sent2). auto. }
    destruct W as [W1 W2]. rewrite Forall_forall in W1. split.
    + rewrite Forall_forall. intros x Hx. apply Raw. auto.
    + destruct W2 as [W2|W2]; [left|right]; intros x Hx; apply IN in Hx; apply in_map_iff in Hx; destruct Hx as (p & Ep & Hp); rewrite <- Ep; apply (W2 (e_sb p)); auto.
  - exact LtB.
  - rewrite U1. rewrite <- (firstn_skipn h (wr_paths evs1)) in SW1. apply ss_app in SW1. tauto.
  - rewrite C1, C1'. rewrite <- (firstn_skipn g (rq_paths evs1 sent1)) in SR1. apply ss_app in SR1. tauto.
  - rewrite U2. apply parts_wr. exact SB2.
  - rewrite C2. apply parts_rq. exact SB2.
  - rewrite U1, C1, C1'. intros x y Hx Hy. apply (parts_apart evs1 sent1 SH); eapply in_first; eauto.
  - rewrite U2, C2. intros x y Hx Hy. apply (parts_apart evs2 sent2 SB2); auto.
  - intros x. rewrite U1, C1, C1'. apply Half.
  - intros x. rewrite U2, C2, <- EB2. apply (parts_all evs2 sent2 SB2 RB2).
  - split; [exact T1|]. intros x. unfold M. rewrite T2.
    assert (N2 : refused evs2 sent2 x -> In x B2).
    { intros (q & Q & <- & _). rewrite <- EB2. apply in_map. apply requests_in. auto. }
    assert (Dj : In x B1 -> In x B2 -> False).
    { intros X Y. apply (entry_lt_irrefl x); [apply Raw; rewrite AB; apply in_or_app; auto|auto]. }
    change (no1 x) with (refused evs1 sent1 x). change (no2 x) with (refused evs2 sent2 x).
    replace (map e_path (firstn j p1)) with B1 by (unfold B1, A; apply firstn_map).
    rewrite AB, in_app_iff. tauto.
Qed.
End Whole.

(* ---- an example, and how entries are lost ---- *)

(* A directory, two new files received before the stop and one not, and a file
   as in the previous backup. *)
Definition at1 : bytes := Eval vm_compute in match attribs_encode (eat 8 8 4 9 0) with Some b => b | None => [] end.
Definition ent_of (e : entry) : ent := mkent (entry_sbuf e) (eat 8 8 4 9 0).
Definition exP : list entry :=
  [EPlain CMD_DIRECTORY at1 (str "/d"); EPlain CMD_FILE at1 (str "/d/a"); EPlain CMD_FILE at1 (str "/d/b");
   EPlain CMD_FILE at1 (str "/d/f"); EPlain CMD_FILE at1 (str "/g")].
Definition exO : list entry := [EData CMD_FILE (str "0000/0000/0003.gz") at1 (str "/d/b") (str "3:y")].
Definition exC : list entry :=
  [EData CMD_FILE (str "0000/0000/0010.gz") at1 (str "/d/a") (str "4:w"); EData CMD_FILE (str "0000/0000/0011.gz") at1 (str "/d/f") (str "4:w")].
Definition exU : list entry :=
  [EPlain CMD_DIRECTORY at1 (str "/d"); EData CMD_FILE (str "0000/0000/0003.gz") at1 (str "/d/b") (str "3:y")].
Definition ex_ans (e : ent) : answer := CSent at1 [str "da"; str "ta"] (str "4:w").
Definition ex_file (p : bytes) : list (Z * bytes) :=
  [(CMD_ATTRIBS, at1); (CMD_FILE, p); (CMD_APPEND, str "da"); (CMD_APPEND, str "ta"); (CMD_END_FILE, str "4:w")].
Definition ex_l1 : list step := [Snd; Snd; Snd; Snd; Snd] ++ map Rcv (ex_file (str "/d/a") ++ ex_file (str "/d/f") ++ [(CMD_ATTRIBS, at1)]).
Definition ex_more : list (Z * bytes) := tl (ex_file (str "/g")).
Definition ex_d : dpth := mkdpth 0 0 16 30000.
Definition ex_a : aux := mkaux None ex_d [].
Definition ex_run := p2_run no_tree yes1 yes2 yes1 (map ent_of exO) nix.
Definition ex_1 := Eval vm_compute in ex_run (start (map ent_of exP) (Some (map ent_of exO)) ex_a) rst0 ex_l1.
Definition ex_evs1 : list ev := fst ex_1.
Definition ex_s1 : sst := match snd ex_1 with Going s _ => s | _ => start [] None ex_a end.
Definition ex_r1 : rst := match snd ex_1 with Going _ r => r | _ => rst0 end.
Definition ex_disk (kc ku : nat) (uno : list rd) : disk :=
  mkdisk (file exP) [] (Some (file exO)) [] (firstn kc (file exC)) [] (firstn ku (file exU)) uno.

Lemma ex_going : ex_run (start (map ent_of exP) (Some (map ent_of exO)) ex_a) rst0 ex_l1 = (ex_evs1, Going ex_s1 ex_r1).
Proof. vm_compute. reflexivity. Qed.
Lemma ex_replies : rcvs ex_l1 ++ ex_more = replies ex_ans (requests ex_evs1).
Proof. vm_compute. reflexivity. Qed.
Lemma ex_C_written : written_as (received ex_r1) exC.
Proof. split; vm_compute; reflexivity. Qed.
Lemma ex_U_written : written_as (map e_sb (written ex_evs1)) exU.
Proof. split; vm_compute; reflexivity. Qed.
Lemma ex_well : well (map ent_of exP ++ map ent_of exO).
Proof. apply ent_raw. repeat constructor; discriminate. Qed.
Ltac lt_solve := left; repeat (apply plt_tail); first [apply plt_nil|apply plt_head; unfold byte_lt, slash, schar; cbn; lia].
Ltac ss_solve := repeat first [apply SSorted_nil|apply SSorted_cons|apply Forall_nil|apply Forall_cons]; lt_solve.
Lemma ex_sorted : sorted (map ent_of exP).
Proof. unfold exP. cbn [map]. ss_solve. Qed.
Lemma ex_scan : Forall scan_ok (map ent_of exP).
Proof. repeat constructor; discriminate. Qed.
Lemma ex_ans_ok : forall e, ans_ok (ex_ans e).
Proof. intros e. split; [intros a; vm_compute; discriminate|repeat constructor; discriminate]. Qed.

(* The last file received is on the disk, but of the unchanged entries before
   it only the first ku bytes are, or the reading of them stops with an error
   (uno).  The resumed backup goes on behind that file and ends well, without
   the entries missing. *)
Definition ex_2 := Eval vm_compute in ex_run (start (skipn 4 (map ent_of exP)) (Some []) ex_a) rst0
  ([Snd] ++ map Rcv (ex_file (str "/g")) ++ [Snd; Rcv ok_end]).
Definition loses (ku : nat) (uno : list rd) : Prop :=
  exists z C' U' s2 r2, do_resume (ex_disk (List.length (file exC)) ku uno) [] ex_d = Some z /\
    z_p1 z = size (firstn 4 exP) /\ z_cur z = Some (List.length (file exO)) /\ z_ch z = file C' /\ z_un z = file U' /\
    ex_run (start (skipn 4 (map ent_of exP)) (Some []) ex_a) rst0 ([Snd] ++ map Rcv (ex_file (str "/g")) ++ [Snd; Rcv ok_end]) =
      (fst ex_2, Finished s2 r2) /\ In EEnd (fst ex_2) /\
    map Rcv (replies ex_ans (requests (fst ex_2))) = map Rcv (ex_file (str "/g")) /\
    map (fun s => text (s_path s)) (phase3 (map entry_sbuf U' ++ map e_sb (written (fst ex_2))) (map entry_sbuf C' ++ received r2)) =
      [str "/d/a"; str "/d/f"; str "/g"].
Ltac lose := eexists; exists exC, []; eexists; eexists; (split; [vm_compute; reflexivity|]);
  do 4 (split; [vm_compute; reflexivity|]); (split; [vm_compute; reflexivity|]); (split; [vm_compute; tauto|]);
  split; vm_compute; reflexivity.
Lemma loses_cut : loses 0 [].
Proof. lose. Qed.
Lemma loses_error : loses (List.length (file exU)) [RdErr].
Proof. lose. Qed.
