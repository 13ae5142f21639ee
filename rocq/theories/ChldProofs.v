(* What the main process of the server guarantees about its children: /repo/src/server/main.c *)
From Coq Require Import ZArith List Bool Lia.
From Verif Require Import Bytes CntrModel CntrProofs MonModel ChldModel.
Import ListNotations.
Open Scope Z_scope.

(* ---------- specification ---------- *)

(* no reload *)
Definition no_hup (es : list wev) : Prop := forall cf, ~ In (WHup cf) es.
(* the number of children an address may have *)
Definition configured (cf : sconf) (x : bytes) (n : Z) : Prop := In (x, n) (sc_main cf ++ sc_status cf).
(* no address is given twice: the second could not be bound *)
Definition addresses_distinct (cf : sconf) : Prop := NoDup (map fst (sc_main cf ++ sc_status cf)).
(* the clients served at this moment through an address *)
Definition serving (w : world) (x : bytes) : Z :=
  Z.of_nat (length (filter (fun k => beqb x (k_listen k)) (w_live w))).
(* the children the main process knows of *)
Definition registered (w : world) (x : bytes) : Z :=
  Z.of_nat (length (filter (fun d => beqb x (d_listen d) && (0 <? d_pid d)) (s_fds (w_srv w)))).
(* every child that is over has been noticed *)
Definition settled (w : world) : Prop :=
  forall d, In d (s_fds (w_srv w)) -> 0 < d_pid d -> is_live (d_pid d) (w_live w) = true.

(* ---------- lists ---------- *)

Lemma nodup_incl_len : forall {A B C} (f : A -> C) (g : B -> C) (l : list A) (m : list B),
  NoDup (map f l) -> (forall a, In a l -> In (f a) (map g m)) -> (length l <= length m)%nat.
Proof.
  intros A B C f g l m N H. rewrite <- (map_length f l), <- (map_length g m). apply NoDup_incl_length; auto.
  intros c I. apply in_map_iff in I. destruct I as (a & <- & I). auto.
Qed.
Lemma nodup_filter_map : forall {A B} (f : A -> B) (p : A -> bool) l, NoDup (map f l) -> NoDup (map f (filter p l)).
Proof.
  induction l as [|a l IH]; cbn; auto. intros N. inversion N; subst. destruct (p a); cbn; auto. constructor; auto.
  intros I. apply in_map_iff in I. destruct I as (b & E & I). apply filter_In in I. apply H1. rewrite <- E.
  apply in_map. tauto.
Qed.
Lemma nodup_map_inj : forall {A B} (f : A -> B) l a b, NoDup (map f l) -> In a l -> In b l -> f a = f b -> a = b.
Proof.
  induction l as [|c l IH]; cbn; intros a b N Ia Ib E; [contradiction|]. inversion N; subst.
  destruct Ia as [->|Ia], Ib as [->|Ib]; auto.
  - exfalso. apply H1. rewrite E. apply in_map; auto.
  - exfalso. apply H1. rewrite <- E. apply in_map; auto.
Qed.

(* ---------- counting ---------- *)

Definition cnt (x : bytes) (l : list fd) : nat := length (filter (fun a => beqb x (d_listen a)) l).
Lemma cnt_app : forall x a b, cnt x (a ++ b) = (cnt x a + cnt x b)%nat.
Proof. intros. unfold cnt. rewrite filter_app, app_length. auto. Qed.
Lemma cnt_without : forall x l i d, nth_error l i = Some d ->
  (cnt x (firstn i l ++ skipn (S i) l) + (if beqb x (d_listen d) then 1 else 0) = cnt x l)%nat.
Proof.
  induction l as [|a l IH]; destruct i; intros d H; cbn [nth_error] in H; try discriminate.
  - injection H as ->. cbn [firstn skipn app]. unfold cnt. cbn [filter]. destruct (beqb x (d_listen d)); cbn [length]; lia.
  - specialize (IH i d H). cbn [firstn app]. change (skipn (S (S i)) (a :: l)) with (skipn (S i) l).
    unfold cnt in *. cbn [filter]. destruct (beqb x (d_listen a)); cbn [length]; lia.
Qed.

Definition child_ok (d : fd) : Prop := 0 < d_pid d /\ (d_kind d = PRead \/ d_kind d = PWrite).
Definition lst (k : fdk) (a : bytes * Z) : fd := mkfd k (fst a) 0 None 0.

Lemma init_listener : forall cf d, In d (init_fds cf) ->
  d_pid d = 0 /\ d_status d = 0 /\ is_listener d = true /\
  exists n, (d_kind d = LMain /\ In (d_listen d, n) (sc_main cf)) \/ (d_kind d = LStatus /\ In (d_listen d, n) (sc_status cf)).
Proof.
  intros cf d I. unfold init_fds in I. apply in_app_or in I. destruct I as [I|I]; apply in_map_iff in I;
    destruct I as ((x & n) & <- & I); cbn; do 3 (split; auto); exists n; auto.
Qed.
Lemma cnt_init : forall cf x, cnt x (init_fds cf) = length (filter (fun a => beqb x a) (map fst (sc_main cf ++ sc_status cf))).
Proof.
  intros cf x. unfold init_fds. rewrite cnt_app, map_app, filter_app, app_length. f_equal.
  - induction (sc_main cf) as [|a l IH]; cbn; auto. unfold cnt in *. cbn. destruct (beqb x (fst a)); cbn; auto.
  - induction (sc_status cf) as [|a l IH]; cbn; auto. unfold cnt in *. cbn. destruct (beqb x (fst a)); cbn; auto.
Qed.
Lemma one_of : forall x l, NoDup l -> In x l -> length (filter (fun a => beqb x a) l) = 1%nat.
Proof.
  induction l as [|a l IH]; cbn; intros N I; [contradiction|]. inversion N; subst. destruct (beqb x a) eqn:Q.
  - apply beqb_eq in Q. subst a. cbn. f_equal. clear -H1. induction l as [|b l IH]; cbn; auto.
    destruct (beqb x b) eqn:Q; [apply beqb_eq in Q; subst; exfalso; apply H1; left; auto|]. apply IH. intros I. apply H1. right; auto.
  - destruct I as [->|I]; [rewrite beqb_refl in Q; discriminate|auto].
Qed.
Lemma find_listen_in : forall l x n, NoDup (map fst l) -> In (x, n) l -> find_listen l x = Some n.
Proof.
  induction l as [|(a, m) l IH]; cbn; intros x n N I; [contradiction|]. inversion N; subst.
  destruct I as [E|I]; [injection E as -> ->; rewrite beqb_refl; auto|].
  destruct (beqb x a) eqn:Q; auto. apply beqb_eq in Q. subst. exfalso. apply H1. apply in_map_iff. exists (a, n). auto.
Qed.
Lemma nodup_app_l : forall {A} (a b : list A), NoDup (a ++ b) -> NoDup a.
Proof. induction a; cbn; intros b N; constructor; inversion N; subst; eauto. intros I. apply H1. apply in_or_app; auto. Qed.
Lemma nodup_app_r : forall {A} (a b : list A), NoDup (a ++ b) -> NoDup b.
Proof. induction a; cbn; intros b N; auto. inversion N; subst; eauto. Qed.
Lemma nodup_fst_inj : forall (l : list (bytes * Z)) x n m, NoDup (map fst l) -> In (x, n) l -> In (x, m) l -> n = m.
Proof. intros l x n m N I J. assert (E : (x, n) = (x, m)) by (eapply (nodup_map_inj fst); eauto). congruence. Qed.

(* what chld_check_counts comes to: the children on the list against the number for the address *)
Lemma check_counts : forall cf chs i d, addresses_distinct cf -> Forall child_ok chs ->
  nth_error (init_fds cf ++ chs) i = Some d -> is_listener d = true ->
  d_pid d = 0 /\ exists n, configured cf (d_listen d) n /\
    chld_check_counts cf (init_fds cf ++ chs) i d = (Z.of_nat (cnt (d_listen d) chs) <? n).
Proof.
  intros cf chs i d N C H L.
  assert (I : In d (init_fds cf)).
  { apply nth_error_In in H. apply in_app_or in H. destruct H as [H|H]; auto. exfalso.
    rewrite Forall_forall in C. destruct (C d H) as [_ [K|K]]; unfold is_listener in L; rewrite K in L; discriminate. }
  destruct (init_listener cf d I) as (P & _ & _ & n & D). split; auto. exists n.
  assert (CF : configured cf (d_listen d) n).
  { unfold configured. apply in_or_app. destruct D as [[_ D]|[_ D]]; auto. }
  split; auto. unfold chld_check_counts.
  replace (match d_kind d with LMain => find_listen (sc_main cf) (d_listen d)
           | LStatus => find_listen (sc_status cf) (d_listen d) | _ => None end) with (Some n).
  2:{ unfold addresses_distinct in N. rewrite map_app in N. destruct D as [[-> D]|[-> D]]; symmetry; apply find_listen_in; auto.
      - eapply nodup_app_l; eauto. - eapply nodup_app_r; eauto. }
  pose proof (cnt_without (d_listen d) _ i d H) as W. rewrite beqb_refl, (cnt_app _ (init_fds cf) chs), cnt_init in W.
  rewrite one_of in W; auto.
  2:{ apply in_map_iff. exists (d_listen d, n). split; auto. }
  unfold count_listen, cnt in *. replace (length (filter (fun a => beqb (d_listen d) (d_listen a)) (firstn i (init_fds cf ++ chs) ++ skipn (S i) (init_fds cf ++ chs))))
    with (length (filter (fun a => beqb (d_listen d) (d_listen a)) chs)) by lia. reflexivity.
Qed.

(* ---------- the operations on the list ---------- *)

Lemma drop_skip : forall p a b, (forall d, In d a -> d_pid d <> p) -> drop_pid p (a ++ b) = a ++ drop_pid p b.
Proof.
  induction a as [|d a IH]; intros b H; cbn; auto. destruct (Z.eqb_spec (d_pid d) p) as [E|E].
  - exfalso. apply (H d); [left; auto|auto].
  - f_equal. apply IH. intros. apply H. right. auto.
Qed.
Lemma drop_in : forall p l d, In d (drop_pid p l) -> In d l.
Proof. induction l as [|a l IH]; cbn; intros d I; auto. destruct (d_pid a =? p); [right; auto|]. destruct I as [->|I]; [left|right]; auto. Qed.
Lemma drop_keeps : forall p l d, In d l -> d_pid d <> p -> In d (drop_pid p l).
Proof.
  induction l as [|a l IH]; cbn; intros d I E; auto. destruct (Z.eqb_spec (d_pid a) p) as [Q|Q].
  - destruct I as [->|I]; [congruence|auto].
  - destruct I as [->|I]; [left; auto|right; auto].
Qed.
Lemma drop_nodup : forall p l, NoDup (map d_pid l) -> NoDup (map d_pid (drop_pid p l)).
Proof.
  induction l as [|a l IH]; cbn; intros N; auto. inversion N; subst. destruct (d_pid a =? p); auto. cbn. constructor; auto.
  intros I. apply H1. apply in_map_iff in I. destruct I as (b & E & I). apply drop_in in I. rewrite <- E. apply in_map; auto.
Qed.
Lemma drop_cnt : forall x p l, (cnt x (drop_pid p l) <= cnt x l)%nat.
Proof.
  intros x p. induction l as [|a l IH]; cbn; auto. unfold cnt in *. destruct (d_pid a =? p); cbn [filter]; destruct (beqb x (d_listen a)); cbn [length]; lia.
Qed.

Definition same_shape (a b : fd) : Prop := d_kind a = d_kind b /\ d_listen a = d_listen b /\ d_pid a = d_pid b.
Lemma shape_name : forall s d, same_shape (extract_client_name s d) d.
Proof. intros. unfold extract_client_name, same_shape. destruct (d_client d); auto. destruct (after_tab s) as [r|]; auto. destruct (after_tab r); auto. Qed.
Lemma shape_status : forall s d, same_shape (extract_status s d) d.
Proof. intros. unfold extract_status, same_shape. destruct (beqb _ _); auto. Qed.
Lemma take_shape : forall m p s l, Forall2 same_shape (take_report m p s l) l.
Proof.
  induction l as [|d l IH]; cbn; auto. destruct (d_pid d =? p).
  - constructor.
    + destruct (d_kind d) eqn:K; try (repeat split; auto; fail). destruct (m =? 0); [apply shape_name|].
      destruct (shape_status s (extract_client_name s d)) as (A & B & C). destruct (shape_name s d) as (A' & B' & C').
      repeat split; congruence.
    + clear. induction l; constructor; auto. repeat split.
  - constructor; auto. repeat split.
Qed.
Lemma take_skip : forall m p s a b, (forall d, In d a -> d_pid d <> p) -> take_report m p s (a ++ b) = a ++ take_report m p s b.
Proof.
  induction a as [|d a IH]; intros b H; cbn; auto. destruct (Z.eqb_spec (d_pid d) p) as [E|E].
  - exfalso. apply (H d); [left; auto|auto].
  - f_equal. apply IH. intros. apply H. right. auto.
Qed.
Lemma shape_pids : forall l m, Forall2 same_shape l m -> map d_pid l = map d_pid m.
Proof. induction 1 as [|a b l m (_ & _ & E) F IH]; cbn; auto. congruence. Qed.
Lemma shape_cnt : forall x l m, Forall2 same_shape l m -> cnt x l = cnt x m.
Proof.
  induction 1 as [|a b l m (_ & E & _) F IH]; cbn; auto. unfold cnt in *. cbn [filter]. rewrite E. destruct (beqb x (d_listen b)); cbn; auto.
Qed.
Lemma shape_ok : forall l m, Forall2 same_shape l m -> Forall child_ok m -> Forall child_ok l.
Proof.
  induction 1 as [|a b l m (K & E & P) F IH]; intros C; constructor; inversion C; subst; auto.
  destruct H1 as [A B]. split; [rewrite P; auto|rewrite K; auto].
Qed.
Lemma shape_in : forall l m d, Forall2 same_shape l m -> In d m -> exists d', In d' l /\ same_shape d' d.
Proof.
  induction 1 as [|a b l m E F IH]; intros I; [contradiction|]. destruct I as [->|I].
  - exists a. split; auto. left; auto.
  - destruct (IH I) as (d' & J & S). exists d'. split; auto. right; auto.
Qed.

(* ---------- the invariant ---------- *)

Definition of_child (k : child) (d : fd) : Prop :=
  d_pid d = k_id k /\ d_listen d = k_listen k /\ d_kind d = match k_from k with LMain => PRead | _ => PWrite end.

Definition listening (cf : sconf) (w : world) : Prop :=
  exists chs, s_fds (w_srv w) = init_fds cf ++ chs /\ Forall child_ok chs /\ NoDup (map d_pid chs) /\
    (forall x n, configured cf x n -> Z.of_nat (cnt x chs) <= Z.max 0 n) /\
    (forall k, In k (w_live w) -> exists d, In d chs /\ of_child k d).

Definition WInv (cf : sconf) (w : world) : Prop :=
  s_conf (w_srv w) = cf /\
  NoDup (map k_id (w_live w)) /\ Forall (fun k => 0 < k_id k) (w_live w) /\
  (forall x n, configured cf x n -> serving w x <= Z.max 0 n) /\
  match s_end (w_srv w) with
  | None => listening cf w /\ w_broken w = []
  | Some true => w_live w = [] /\ w_broken w = [] /\ s_fds (w_srv w) = [] /\ s_gentle (w_srv w) = true
  | Some false => s_fds (w_srv w) = []
  end.

Lemma filter_serving : forall p x (l : list child),
  (length (filter (fun k => beqb x (k_listen k)) (filter (fun k => negb (k_id k =? p)%Z) l)) <= length (filter (fun k => beqb x (k_listen k)) l))%nat.
Proof.
  induction l as [|k l IH]; cbn; auto. destruct (negb (k_id k =? p)); cbn; destruct (beqb x (k_listen k)); cbn; lia.
Qed.
Lemma live_in : forall p l, is_live p l = true <-> exists k, In k l /\ k_id k = p.
Proof.
  intros. unfold is_live. rewrite existsb_exists. split; intros (k & I & E); exists k; split; auto; [apply Z.eqb_eq|apply Z.eqb_eq]; auto.
Qed.
Lemma reporter_in : forall p l, is_reporter p l = true <-> exists k, In k l /\ k_id k = p /\ k_from k = LMain.
Proof.
  intros. unfold is_reporter. rewrite existsb_exists. split.
  - intros (k & I & E). apply andb_true_iff in E. destruct E as [E F]. apply Z.eqb_eq in E. exists k. repeat split; auto.
    destruct (k_from k); try discriminate; auto.
  - intros (k & I & E & F). exists k. split; auto. apply andb_true_iff. split; [apply Z.eqb_eq; auto|rewrite F; auto].
Qed.
Lemma has_pid_in : forall p l, has_pid p l = true <-> exists d, In d l /\ d_pid d = p.
Proof.
  intros. unfold has_pid. rewrite existsb_exists. split; intros (k & I & E); exists k; split; auto; apply Z.eqb_eq; auto.
Qed.
Lemma not_live : forall p l k, is_live p l = false -> In k l -> k_id k <> p.
Proof. intros p l k H I E. assert (is_live p l = true) by (apply live_in; eauto). congruence. Qed.

Lemma start_inv : forall cf, WInv cf (wstart cf).
Proof.
  intros cf. unfold WInv, wstart. cbn. do 3 (split; [constructor|]). split; [intros; unfold serving; cbn; lia|].
  split; [|auto]. exists []. cbn. rewrite app_nil_r. do 3 (split; [auto; constructor|]).
  split; [intros; unfold cnt; cbn; lia|intros k []].
Qed.

Lemma no_listener_pid : forall cf p d, 0 < p -> In d (init_fds cf) -> d_pid d <> p.
Proof. intros cf p d P I. destruct (init_listener cf d I) as (E & _). lia. Qed.

Lemma of_child_shape : forall k d d', of_child k d -> same_shape d' d -> of_child k d'.
Proof. intros k d d' (A & B & C) (X & Y & Z). unfold of_child. repeat split; congruence. Qed.

Lemma serving_registered : forall chs w x, NoDup (map k_id (w_live w)) ->
  (forall k, In k (w_live w) -> exists d, In d chs /\ of_child k d) -> (serving w x <= Z.of_nat (cnt x chs)).
Proof.
  intros chs w x N H. unfold serving, cnt. apply inj_le. apply (nodup_incl_len k_id d_pid).
  - apply nodup_filter_map; auto.
  - intros k I. apply filter_In in I. destruct I as [I E]. destruct (H k I) as (d & J & (A & B & C)). rewrite <- A. apply in_map.
    apply filter_In. split; auto. rewrite B. auto.
Qed.

Lemma live_filter_ok : forall cf w p b, WInv cf w -> s_end (w_srv w) <> Some true ->
  (s_end (w_srv w) = None -> b = []) ->
  WInv cf (mkworld (w_srv w) (filter (fun k => negb (k_id k =? p)) (w_live w)) b).
Proof.
  intros cf w p b (C & N & P & S & R) E B. unfold WInv. cbn [w_srv w_live w_broken]. split; auto.
  split; [apply nodup_filter_map; auto|]. split.
  { rewrite Forall_forall in *. intros k I. apply filter_In in I. apply P; tauto. }
  split.
  { intros x n X. specialize (S x n X). unfold serving in *. cbn [w_live]. pose proof (filter_serving p x (w_live w)). lia. }
  destruct (s_end (w_srv w)) as [[|]|]; auto; [congruence|]. destruct R as [(chs & F & K & D & Q & L) _]. split; auto.
  exists chs. cbn [w_srv w_live]. do 4 (split; auto). intros k I. apply L. apply filter_In in I. tauto.
Qed.

Lemma step_inv : forall cf w e w', addresses_distinct cf -> WInv cf w -> (forall c, e <> WHup c) -> wstep w e = Some w' -> WInv cf w'.
Proof.
  intros cf w e w' AD I NH H. destruct e as [i c|p|p|p|p t| |c|]; cbn [wstep] in H.
  - (* a connection *)
    destruct I as (C & N & P & S & R). destruct (s_end (w_srv w)) as [g|] eqn:En; [discriminate|].
    destruct (nth_error (s_fds (w_srv w)) i) as [d|] eqn:Nt; [|discriminate]. destruct (is_listener d) eqn:Li; [|discriminate].
    destruct R as [(chs & F & K & D & Q & L) Br].
    destruct (process_incoming _ _ _ _ _) eqn:Pi.
    + injection H as <-. unfold WInv. cbn. do 4 (split; auto).
    + injection H as <-. unfold WInv. do 4 (split; auto). rewrite En. split; auto. exists chs. auto.
    + destruct (0 <? pid) eqn:P0; [|discriminate]. destruct (is_live pid (w_live w)) eqn:Lv; [discriminate|].
      destruct (has_pid pid (s_fds (w_srv w))) eqn:Hp; [discriminate|]. cbn in H. injection H as <-. apply Z.ltb_lt in P0.
      rewrite F in Nt. destruct (check_counts cf chs i d AD K Nt Li) as (Pd & n & CF & CC).
      assert (LT : Z.of_nat (cnt (d_listen d) chs) < n).
      { rewrite C, F in Pi. unfold process_incoming in Pi. destruct c; try discriminate. rewrite CC in Pi.
        destruct (Z.ltb_spec (Z.of_nat (cnt (d_listen d) chs)) n); [auto|discriminate]. }
      assert (NL : forall k, In k (w_live w) -> k_id k <> pid) by (intros; eapply not_live; eauto).
      assert (NC : forall a, In a chs -> d_pid a <> pid).
      { intros a Ia E. assert (has_pid pid (s_fds (w_srv w)) = true).
        { apply has_pid_in. exists a. split; auto. rewrite F. apply in_or_app; auto. } congruence. }
      assert (CN : forall x, cnt x (chs ++ [child_fd d pid]) = (cnt x chs + if beqb x (d_listen d) then 1 else 0)%nat).
      { intros x. rewrite cnt_app. f_equal. unfold cnt. cbn. destruct (beqb x (d_listen d)); auto. }
      assert (Q' : forall x m, configured cf x m -> Z.of_nat (cnt x (chs ++ [child_fd d pid])) <= Z.max 0 m).
      { intros x m X. rewrite CN. specialize (Q x m X). destruct (beqb x (d_listen d)) eqn:B; [|lia].
        apply beqb_eq in B. subst x. assert (m = n) by (eapply nodup_fst_inj; eauto). subst m. lia. }
      assert (LI : forall k, In k (mkchild pid (d_listen d) (d_kind d) (inherited (s_conf (w_srv w)) (s_fds (w_srv w))) :: w_live w) ->
        exists a, In a (chs ++ [child_fd d pid]) /\ of_child k a).
      { intros k [<-|Ik].
        - exists (child_fd d pid). split; [apply in_or_app; right; left; auto|]. unfold of_child, child_fd. cbn. auto.
        - destruct (L k Ik) as (a & Ia & O). exists a. split; auto. apply in_or_app; auto. }
      assert (ND : NoDup (map k_id (mkchild pid (d_listen d) (d_kind d) (inherited (s_conf (w_srv w)) (s_fds (w_srv w))) :: w_live w))).
      { cbn. constructor; auto. intros Im. apply in_map_iff in Im. destruct Im as (k & E & Ik). apply (NL k Ik E). }
      assert (CK : Forall child_ok (chs ++ [child_fd d pid])).
      { apply Forall_app. split; auto. constructor; [|constructor]. unfold child_ok, child_fd. cbn. split; auto.
        destruct (d_kind d); auto. }
      unfold WInv. cbn [w_srv w_live w_broken with_fds s_conf s_end]. split; auto. split; auto. split; [constructor; auto|]. split.
      * intros x m X. eapply Z.le_trans; [|apply (Q' x m X)]. apply serving_registered; auto.
      * rewrite En. split; auto. exists (chs ++ [child_fd d pid]). cbn [w_srv w_live with_fds s_fds].
        split; [rewrite F, <- app_assoc; auto|]. split; [auto|]. split; [|split; [exact Q'|exact LI]].
        rewrite map_app. cbn. apply NoDup_rev in D. rewrite <- (rev_involutive (map d_pid chs ++ [pid])). apply NoDup_rev.
        rewrite rev_app_distr. cbn. constructor; auto. intros Im. apply in_rev in Im. apply in_map_iff in Im.
        destruct Im as (a & E & Ia). apply (NC a Ia E).
  - (* the end of a child *)
    destruct (is_live p (w_live w)) eqn:Lv; [|discriminate]. injection H as <-. apply live_filter_ok; auto.
    + intros E. destruct I as (_ & _ & _ & _ & R). rewrite E in R. destruct R as (L & _). rewrite L in Lv. discriminate.
    + intros E. destruct I as (_ & _ & _ & _ & R). rewrite E in R. tauto.
  - (* waitpid *)
    destruct I as (C & N & P & S & R). destruct (s_end (w_srv w)) as [g|] eqn:En; [discriminate|].
    destruct (0 <? p) eqn:P0; [|discriminate]. destruct (is_live p (w_live w)) eqn:Lv; [discriminate|]. injection H as <-.
    apply Z.ltb_lt in P0. destruct R as [(chs & F & K & D & Q & L) Br]. unfold WInv. cbn. do 4 (split; auto). rewrite En. split; auto.
    exists (drop_pid p chs). cbn. rewrite F, drop_skip by (intros; eapply no_listener_pid; eauto). do 1 (split; auto).
    split; [rewrite Forall_forall in *; intros a Ia; apply K; eapply drop_in; eauto|]. split; [apply drop_nodup; auto|]. split.
    + intros x n X. specialize (Q x n X). pose proof (drop_cnt x p chs). lia.
    + intros k Ik. destruct (L k Ik) as (a & Ia & O). exists a. split; auto. apply drop_keeps; auto. destruct O as (E & _).
      rewrite E. eapply not_live; eauto.
  - (* a broken pipe *)
    destruct I as (C & N & P & S & R). destruct (s_end (w_srv w)) as [g|] eqn:En; [discriminate|].
    destruct (0 <? p) eqn:P0; [|discriminate]. destruct (is_live p (w_live w)) eqn:Lv; [discriminate|]. injection H as <-.
    apply Z.ltb_lt in P0. destruct R as [(chs & F & K & D & Q & L) Br]. unfold WInv. cbn. do 4 (split; auto). rewrite En. split; auto.
    exists (drop_pid p chs). cbn. rewrite F, drop_skip by (intros; eapply no_listener_pid; eauto). do 1 (split; auto).
    split; [rewrite Forall_forall in *; intros a Ia; apply K; eapply drop_in; eauto|]. split; [apply drop_nodup; auto|]. split.
    + intros x n X. specialize (Q x n X). pose proof (drop_cnt x p chs). lia.
    + intros k Ik. destruct (L k Ik) as (a & Ia & O). exists a. split; auto. apply drop_keeps; auto. destruct O as (E & _).
      rewrite E. eapply not_live; eauto.
  - (* a report *)
    destruct (is_reporter p (w_live w)) eqn:Rp; [|discriminate]. apply reporter_in in Rp. destruct Rp as (k0 & Ik0 & Ek0 & Fk0).
    destruct (has_pid p (s_fds (w_srv w))) eqn:Hp.
    + injection H as <-. destruct I as (C & N & P & S & R).
      assert (P0 : 0 < p) by (rewrite Forall_forall in P; rewrite <- Ek0; auto).
      unfold WInv. cbn [w_srv w_live w_broken with_fds s_conf s_end s_fds s_gentle]. do 4 (split; auto).
      destruct (s_end (w_srv w)) as [[|]|].
      * destruct R as (R1 & R2 & R3 & R4). rewrite R3 in Hp. discriminate.
      * rewrite R in Hp. discriminate.
      * destruct R as [(chs & F & K & D & Q & L) Br]. split; auto.
        pose proof (take_shape (sc_maxpar (s_conf (w_srv w))) p t chs) as TS.
        exists (take_report (sc_maxpar (s_conf (w_srv w))) p t chs). cbn [w_srv w_live with_fds s_fds].
        rewrite F, take_skip by (intros; eapply no_listener_pid; eauto). split; auto. split; [eapply shape_ok; eauto|].
        split; [rewrite (shape_pids _ _ TS); auto|]. split; [intros x n X; rewrite (shape_cnt x _ _ TS); auto|].
        intros k Ik. destruct (L k Ik) as (a & Ia & O). destruct (shape_in _ _ a TS Ia) as (a' & Ia' & Sh). exists a'.
        split; auto. eapply of_child_shape; eauto.
    + injection H as <-. apply live_filter_ok; auto.
      * intros E. destruct I as (_ & _ & _ & _ & R). rewrite E in R. destruct R as (L & _). rewrite L in Ik0. contradiction.
      * intros E. exfalso. destruct I as (_ & _ & _ & _ & R). rewrite E in R. destruct R as [(chs & F & K & D & Q & L) Br].
        destruct (L k0 Ik0) as (a & Ia & O & _). assert (has_pid p (s_fds (w_srv w)) = true).
        { apply has_pid_in. exists a. split; [rewrite F; apply in_or_app; auto|congruence]. } congruence.
  - (* the check *)
    destruct (s_end (w_srv w)) as [g|] eqn:En; [discriminate|]. destruct (s_gentle (w_srv w)) eqn:G; cbn in H.
    + destruct (child_left (s_fds (w_srv w))) eqn:CL; cbn in H; injection H as <-; auto.
      destruct I as (C & N & P & S & R). rewrite En in R. destruct R as [(chs & F & K & D & Q & L) Br].
      unfold WInv. cbn. do 4 (split; auto). repeat split; auto. destruct (w_live w) as [|k r]; auto. exfalso.
      destruct (L k (or_introl eq_refl)) as (a & Ia & O). assert (child_left (s_fds (w_srv w)) = true).
      { unfold child_left. apply existsb_exists. exists a. split; [rewrite F; apply in_or_app; auto|].
        rewrite Forall_forall in K. destruct (K a Ia) as [A _]. apply Z.ltb_lt. auto. } congruence.
    + injection H as <-. auto.
  - exfalso. apply (NH c). auto.
  - destruct (s_end (w_srv w)) as [g|] eqn:En; [discriminate|]. injection H as <-.
    destruct I as (C & N & P & S & R). rewrite En in R. unfold WInv. cbn. do 4 (split; auto).
Qed.

Lemma run_inv : forall cf es w w', addresses_distinct cf -> WInv cf w -> no_hup es -> wrun w es = Some w' -> WInv cf w'.
Proof.
  induction es as [|e es IH]; cbn; intros w w' AD I NH H; [congruence|]. destruct (wstep w e) as [w1|] eqn:Q; [|discriminate].
  apply (IH w1 w' AD); [|intros c J; apply (NH c); right; auto|auto].
  apply (step_inv cf w e w1 AD I); [intros c ->; apply (NH c); left; auto|auto].
Qed.

(* ---------- C98: never more children than configured ---------- *)

Theorem children_bound : forall cf es w x n, addresses_distinct cf -> no_hup es -> wrun (wstart cf) es = Some w ->
  configured cf x n -> serving w x <= Z.max 0 n.
Proof. intros cf es w x n AD NH H X. destruct (run_inv cf es _ _ AD (start_inv cf) NH H) as (_ & _ & _ & S & _). auto. Qed.

Lemma registered_cnt : forall cf w chs x, s_fds (w_srv w) = init_fds cf ++ chs -> Forall child_ok chs -> registered w x = Z.of_nat (cnt x chs).
Proof.
  intros cf w chs x F K. unfold registered. rewrite F, filter_app, app_length.
  replace (filter (fun d => beqb x (d_listen d) && (0 <? d_pid d)) (init_fds cf)) with (@nil fd).
  - cbn. f_equal. clear F. unfold cnt. induction K as [|d chs [A _] K IH]; cbn; auto. apply Z.ltb_lt in A. rewrite A, andb_true_r.
    destruct (beqb x (d_listen d)); cbn; auto.
  - symmetry. assert (Z : forall d, In d (init_fds cf) -> d_pid d = 0) by (intros d I; apply (init_listener cf d I)).
    clear F. induction (init_fds cf) as [|d l IH]; cbn; auto. rewrite (Z d) by (left; auto). rewrite andb_false_r. apply IH. intros; apply Z; right; auto.
Qed.

(* A connection is served exactly when the address has a child to spare. *)
Theorem served_iff : forall cf es w i d p n, addresses_distinct cf -> no_hup es -> wrun (wstart cf) es = Some w ->
  s_end (w_srv w) = None -> nth_error (s_fds (w_srv w)) i = Some d -> is_listener d = true -> configured cf (d_listen d) n ->
  0 < p -> is_live p (w_live w) = false -> has_pid p (s_fds (w_srv w)) = false ->
  exists w', wstep w (WConn i (COk true (Some p))) = Some w' /\
    (registered w (d_listen d) < n -> is_live p (w_live w') = true /\ serving w' (d_listen d) = serving w (d_listen d) + 1) /\
    (n <= registered w (d_listen d) -> w' = w).
Proof.
  intros cf es w i d p n AD NH H En Nt Li CF P0 Lv Hp.
  destruct (run_inv cf es _ _ AD (start_inv cf) NH H) as (C & N & P & S & R). rewrite En in R. destruct R as [(chs & F & K & D & Q & L) Br].
  pose proof Nt as Nt'. rewrite F in Nt'. destruct (check_counts cf chs i d AD K Nt' Li) as (Pd & m & CF' & CC).
  assert (m = n) by (eapply nodup_fst_inj; eauto). subst m.
  rewrite (registered_cnt cf w chs _ F K).
  cbn [wstep]. rewrite En, Nt, Li. unfold process_incoming. rewrite C. replace (chld_check_counts cf (s_fds (w_srv w)) i d) with (Z.of_nat (cnt (d_listen d) chs) <? n)
    by (rewrite F; auto).
  destruct (Z.ltb_spec (Z.of_nat (cnt (d_listen d) chs)) n).
  - apply Z.ltb_lt in P0. rewrite P0, Lv, Hp. cbn [negb andb]. eexists. split; [reflexivity|]. split; [|lia]. intros _. cbn. rewrite Z.eqb_refl.
    split; auto. unfold serving. cbn [w_live filter k_listen]. rewrite beqb_refl. cbn [length]. lia.
  - exists w. split; auto. split; [lia|auto].
Qed.

(* Once every child that is over has been noticed, the children known are the children serving. *)
Theorem settled_registered : forall cf es w x, addresses_distinct cf -> no_hup es -> wrun (wstart cf) es = Some w ->
  s_end (w_srv w) = None -> settled w -> registered w x = serving w x.
Proof.
  intros cf es w x AD NH H En St.
  destruct (run_inv cf es _ _ AD (start_inv cf) NH H) as (C & N & P & S & R). rewrite En in R. destruct R as [(chs & F & K & D & Q & L) Br].
  rewrite (registered_cnt cf w chs x F K). apply Z.le_antisymm; [|apply serving_registered; auto].
  unfold serving, cnt. apply inj_le. apply (nodup_incl_len d_pid k_id).
  - apply nodup_filter_map; auto.
  - intros d I. apply filter_In in I. destruct I as [I E].
    assert (Lv : is_live (d_pid d) (w_live w) = true).
    { apply St; [rewrite F; apply in_or_app; auto|]. rewrite Forall_forall in K. apply (K d I). }
    apply live_in in Lv. destruct Lv as (k & Ik & Ek). rewrite <- Ek. apply in_map. apply filter_In. split; auto.
    destruct (L k Ik) as (a & Ia & (A & B & _)). assert (a = d) by (eapply (nodup_map_inj d_pid); eauto; congruence). subst a. congruence.
Qed.

(* ---------- C99: what ends the server ---------- *)

Theorem ends_badly : forall w e w', wstep w e = Some w' -> s_end (w_srv w) = None -> s_end (w_srv w') = Some false ->
  exists i c, e = WConn i c /\
    (c = CErr \/ c = CNoAddr \/ (exists f, c = COk false f) \/ (exists b, c = COk b None)).
Proof.
  intros w e w' H En E. destruct e as [i c|p|p|p|p t| |c|]; cbn [wstep] in H; rewrite ?En in H.
  - exists i, c. split; auto. destruct (nth_error _ _); [|discriminate]. destruct (is_listener f); [|discriminate].
    destruct c; cbn [process_incoming] in H; auto.
    + injection H as <-. congruence.
    + injection H as <-. congruence.
    + destruct (chld_check_counts _ _ _ _); [|injection H as <-; congruence]. destruct pipes; [|right; right; left; eauto].
      destruct fork; [|right; right; right; eauto]. destruct (_ && _); [|discriminate]. injection H as <-. cbn in E. congruence.
  - destruct (is_live p _); [|discriminate]. injection H as <-. cbn in E. congruence.
  - destruct (_ && _); [|discriminate]. injection H as <-. cbn in E. congruence.
  - destruct (_ && _); [|discriminate]. injection H as <-. cbn in E. congruence.
  - destruct (is_reporter _ _); [|discriminate]. destruct (has_pid _ _); injection H as <-; cbn in E; congruence.
  - destruct (s_gentle _ && _); injection H as <-; cbn in E; congruence.
  - destruct (s_gentle _); injection H as <-; cbn in E; congruence.
  - injection H as <-. cbn in E. congruence.
Qed.

(* the server ends in good order only after it was asked to *)
Theorem ends_well : forall cf es w, wrun (wstart cf) es = Some w -> s_end (w_srv w) = Some true -> In WUsr2 es.
Proof.
  intros cf es w H E.
  assert (G : forall es w0, wrun w0 es = Some w -> s_gentle (w_srv w0) = false -> s_end (w_srv w0) <> Some true -> In WUsr2 es).
  { clear H. induction es0 as [|e es0 IH]; cbn [wrun]; intros w0 H G N; [congruence|]. destruct (wstep w0 e) as [w1|] eqn:Q; [|discriminate].
    destruct e as [i c|p|p|p|p t| |c|]; [| | | | | | |left; auto]; right; apply (IH w1 H); cbn [wstep] in Q; rewrite ?G in Q;
      destruct (s_end (w_srv w0)) as [b|] eqn:En; try discriminate;
      repeat match type of Q with context [match ?x with _ => _ end] => destruct x eqn:?; try discriminate end;
      injection Q as <-; cbn; rewrite ?G, ?En; try discriminate; auto. }
  apply (G es (wstart cf)); auto. discriminate.
Qed.

(* ---------- C100: reports arrive ---------- *)

Theorem reports_arrive : forall cf es w, addresses_distinct cf -> no_hup es -> wrun (wstart cf) es = Some w ->
  s_end (w_srv w) <> Some false -> w_broken w = [].
Proof.
  intros cf es w AD NH H E. destruct (run_inv cf es _ _ AD (start_inv cf) NH H) as (_ & _ & _ & _ & R).
  destruct (s_end (w_srv w)) as [[|]|]; try tauto.
Qed.

(* ---------- C101: a gentle end ---------- *)

Theorem gentle_end : forall cf es w, addresses_distinct cf -> no_hup es -> wrun (wstart cf) es = Some w ->
  s_end (w_srv w) = Some true -> w_live w = [] /\ w_broken w = [].
Proof.
  intros cf es w AD NH H E. destruct (run_inv cf es _ _ AD (start_inv cf) NH H) as (_ & _ & _ & _ & R). rewrite E in R. tauto.
Qed.
Theorem gentle_waits : forall cf es w, addresses_distinct cf -> no_hup es -> wrun (wstart cf) es = Some w ->
  s_end (w_srv w) = None -> w_live w <> [] -> wstep w WCheck = Some w.
Proof.
  intros cf es w AD NH H En Lv. destruct (wstep w WCheck) as [w'|] eqn:Q.
  2:{ cbn in Q. rewrite En in Q. destruct (_ && _); discriminate. }
  pose proof (run_inv cf es _ _ AD (start_inv cf) NH H) as I.
  assert (I' : WInv cf w') by (apply (step_inv cf w WCheck w' AD I); [discriminate|exact Q]).
  cbn in Q. rewrite En in Q. destruct (s_gentle (w_srv w) && negb (child_left (s_fds (w_srv w)))) eqn:B.
  - injection Q as <-. destruct I' as (_ & _ & _ & _ & R). cbn in R. tauto.
  - injection Q as <-. auto.
Qed.
(* and it does end: when the last child has been noticed *)
Theorem gentle_ends : forall cf es w, addresses_distinct cf -> no_hup es -> wrun (wstart cf) es = Some w ->
  s_end (w_srv w) = None -> s_gentle (w_srv w) = true -> settled w -> w_live w = [] ->
  exists w', wstep w WCheck = Some w' /\ s_end (w_srv w') = Some true.
Proof.
  intros cf es w AD NH H En G St Lv. cbn. rewrite En, G. replace (child_left (s_fds (w_srv w))) with false.
  - eexists. split; [reflexivity|auto].
  - symmetry. unfold child_left. destruct (existsb _ _) eqn:Q; auto. apply existsb_exists in Q. destruct Q as (d & I & P).
    apply Z.ltb_lt in P. specialize (St d I P). rewrite Lv in St. discriminate.
Qed.
