(* Proofs about the list of clients of the status monitor. *)
From Coq Require Import Sorting.Sorted.
From Verif Require Import Bytes AuthModel CstatModel.

(* Specification: the order of strings. *)
Inductive str_lt : bytes -> bytes -> Prop :=
| lt_end : forall y b, str_lt [] (y :: b)
| lt_here : forall x y a b, x < y -> str_lt (x :: a) (y :: b)
| lt_next : forall x a b, str_lt a b -> str_lt (x :: a) (x :: b).
Definition ordered (l : list cs) : Prop := StronglySorted str_lt (map s_name l).

Lemma str_lt_trans : forall a b c, str_lt a b -> str_lt b c -> str_lt a c.
Proof.
  intros a b c H. revert c. induction H; intros c Q; inversion Q; subst; try (constructor; auto; lia); auto.
Qed.
Lemma str_lt_irrefl : forall a, ~ str_lt a a.
Proof. induction a; intro H; inversion H; subst; [lia|auto]. Qed.
Lemma strcmp_spec : forall a b, match strcmp a b with Lt => str_lt a b | Eq => a = b | Gt => str_lt b a end.
Proof.
  induction a as [|x a IH]; intros [|y b]; cbn [strcmp]; try constructor.
  destruct (Z.compare_spec x y).
  - subst y. specialize (IH b). destruct (strcmp a b); [congruence|apply lt_next; auto|apply lt_next; auto].
  - apply lt_here; auto.
  - apply lt_here; auto.
Qed.

Lemma add_in : forall c l x, In x (add_to_list c l) <-> x = c \/ In x l.
Proof.
  induction l as [|y l IH]; intros x; cbn [add_to_list]; [cbn; intuition|].
  destruct (strcmp (s_name c) (s_name y)); cbn [In]; rewrite ?IH; intuition.
Qed.
Lemma add_ordered : forall c l, ordered l -> ~ In (s_name c) (map s_name l) -> ordered (add_to_list c l).
Proof.
  unfold ordered. induction l as [|y l IH]; intros S N; cbn [add_to_list map] in *; [repeat constructor|].
  inversion S; subst. pose proof (strcmp_spec (s_name c) (s_name y)) as C.
  destruct (strcmp (s_name c) (s_name y)).
  - exfalso. apply N. left. auto.
  - cbn [map]. constructor; auto. constructor; auto. eapply Forall_impl; [|exact H2]. intros a A. eapply str_lt_trans; eauto.
  - cbn [map]. constructor; [apply IH; auto; intro; apply N; right; auto|].
    rewrite Forall_map. apply Forall_forall. intros x I. apply add_in in I as [->|I]; auto.
    rewrite Forall_map, Forall_forall in H2. apply H2; auto.
Qed.
Lemma exists_name : forall n l, existsb (fun c => beqb n (s_name c)) l = true <-> In n (map s_name l).
Proof.
  intros n l. rewrite existsb_exists, in_map_iff. split.
  - intros (c & I & E). apply beqb_eq in E. exists c; auto.
  - intros (c & E & I). exists c. split; auto. apply beqb_eq; auto.
Qed.
Lemma names_spec : forall dir l, ordered l ->
  ordered (get_client_names dir l) /\
  (forall c, In c (get_client_names dir l) <->
     In c l \/ (exists n, c = new_cs n /\ In n dir /\ cname_valid 0 n = true /\ ~ In n (map s_name l))).
Proof.
  induction dir as [|n dir IH]; intros l S; cbn [get_client_names].
  { split; auto. intros c. split; auto. intros [I|(n & _ & [] & _)]; auto. }
  destruct (cname_valid 0 n) eqn:V; cbn [negb].
  2:{ destruct (IH l S) as [A B]. split; auto. intros c. rewrite B. split; intros [I|(m & E & I & Q)]; auto.
      - right. exists m. repeat split; auto. right; auto. tauto. tauto.
      - destruct I as [->|I]; [destruct Q; congruence|]. right. exists m. auto. }
  destruct (existsb (fun c => beqb n (s_name c)) l) eqn:X.
  - apply exists_name in X. destruct (IH l S) as [A B]. split; auto. intros c. rewrite B. split; intros [I|(m & E & I & Q)]; auto.
    + right. exists m. split; auto. split; [right; auto|auto].
    + destruct I as [<-|I]; [destruct Q; contradiction|]. right. exists m. auto.
  - assert (N : ~ In n (map s_name l)) by (intro I; apply exists_name in I; congruence).
    destruct (IH (add_to_list (new_cs n) l)) as [A B]; [apply add_ordered; auto|]. split; auto.
    intros c. rewrite B, add_in. split.
    + intros [[->|I]|(m & E & I & V2 & M)]; auto.
      * right. exists n. split; auto. split; [left; auto|auto].
      * right. exists m. split; auto. split; [right; auto|]. split; auto. intro J. apply M.
        apply in_map_iff in J as (y & <- & J). apply in_map_iff. exists y. split; auto. apply add_in; auto.
    + intros [I|(m & E & I & V2 & M)]; auto. destruct (list_eq_dec Z.eq_dec m n) as [->|NE]; [left; left; auto|].
      destruct I as [->|I]; [congruence|]. right. exists m. repeat split; auto. intro J.
      apply in_map_iff in J as (y & <- & J). apply add_in in J as [->|J]; [apply NE; reflexivity|].
      apply M. apply in_map; auto.
Qed.

(* What becomes of a client. *)
Definition kept (d : disk) (gold : Z) (c c' : cs) : Prop :=
  exists m, f_mtime d (s_name c) = Some m /\ c' = reload d gold m c.
Lemma reload_name : forall d gold m c, s_name (reload d gold m c) = s_name c.
Proof. intros. unfold reload. destruct ((m =? s_mtime c) && (f_global d =? gold)); auto. Qed.
Lemma reload_twice : forall d gold m c, reload d gold m (reload d gold m c) = reload d gold m c.
Proof.
  intros. destruct ((m =? s_mtime c) && (f_global d =? gold)) eqn:E.
  - assert (R : reload d gold m c = c) by (unfold reload; rewrite E; reflexivity). rewrite !R. reflexivity.
  - assert (R : reload d gold m c = mkcs (s_name c) m match f_load d (s_name c) with Some p => p | None => false end)
      by (unfold reload; rewrite E; reflexivity).
    rewrite R. unfold reload. cbn [s_mtime s_name]. destruct ((m =? m) && (f_global d =? gold)); reflexivity.
Qed.
Definition all_kept (d : disk) (gold : Z) (l : list cs) : list cs :=
  flat_map (fun c => match f_mtime d (s_name c) with Some m => [reload d gold m c] | None => [] end) l.
Lemma round_spec : forall d gold l,
  all_kept d gold (fst (round d gold l)) = all_kept d gold l /\
  (snd (round d gold l) = false -> fst (round d gold l) = all_kept d gold l) /\
  (snd (round d gold l) = true -> (List.length (fst (round d gold l)) < List.length l)%nat).
Proof.
  intros d gold. induction l as [|c l IH]; cbn [round].
  - repeat split; auto. discriminate.
  - destruct (f_mtime d (s_name c)) as [m|] eqn:M.
    + destruct (round d gold l) as [r b]. cbn [fst snd] in *. destruct IH as (A & B & C).
      unfold all_kept in *. cbn [flat_map List.length]. rewrite reload_name, M, reload_twice, A. split; auto. split.
      * intros E. rewrite (B E). reflexivity.
      * intros E. specialize (C E). lia.
    + cbn [fst snd]. unfold all_kept. cbn [flat_map List.length]. rewrite M. split; auto. split; [discriminate|]. intros; lia.
Qed.
Lemma rounds_spec : forall fuel d gold l, (List.length l < fuel)%nat -> rounds fuel d gold l = all_kept d gold l.
Proof.
  induction fuel as [|n IH]; intros d gold l H; [lia|]. cbn [rounds].
  destruct (round_spec d gold l) as (A & B & C). destruct (round d gold l) as [r b]. cbn [fst snd] in *.
  destruct b; [|auto]. rewrite IH; auto. specialize (C eq_refl). lia.
Qed.
Theorem reload_exact : forall d gold l, reload_all d gold l = all_kept d gold l.
Proof. intros. unfold reload_all. apply rounds_spec. lia. Qed.

Lemma kept_names : forall d gold l, map s_name (all_kept d gold l) =
  filter (fun n => match f_mtime d n with Some _ => true | None => false end) (map s_name l).
Proof.
  intros d gold l. unfold all_kept. induction l as [|c l IH]; [reflexivity|]. cbn [flat_map map filter].
  destruct (f_mtime d (s_name c)); [|exact IH]. cbn [app map]. rewrite reload_name, IH. reflexivity.
Qed.
Lemma filter_sorted : forall (f : bytes -> bool) l, StronglySorted str_lt l -> StronglySorted str_lt (filter f l).
Proof.
  induction 1; cbn [filter]; [constructor|]. destruct (f a); auto. constructor; auto.
  apply Forall_forall. intros x I. apply filter_In in I as [I _]. rewrite Forall_forall in H0. auto.
Qed.
Lemma load_ordered : forall d st, ordered (fst st) -> ordered (fst (load_from_disk d st)).
Proof.
  intros d [l g] S. unfold load_from_disk. cbn [fst snd] in *. rewrite reload_exact. unfold ordered. rewrite kept_names.
  apply filter_sorted. apply names_spec, S.
Qed.
Theorem load_step : forall d st c', ordered (fst st) ->
  (In c' (fst (load_from_disk d st)) <->
   exists c, (In c (fst st) \/ (exists n, c = new_cs n /\ In n (f_names d) /\ cname_valid 0 n = true /\ ~ In n (map s_name (fst st)))) /\
     kept d (snd st) c c').
Proof.
  intros d [l g] c' S. unfold load_from_disk. cbn [fst snd] in *. rewrite reload_exact. unfold all_kept. rewrite in_flat_map.
  destruct (names_spec (f_names d) l S) as [_ N]. split.
  - intros (c & I & K). apply N in I. exists c. split; auto. unfold kept.
    destruct (f_mtime d (s_name c)) as [m|]; [|inversion K]. destruct K as [<-|[]]. eauto.
  - intros (c & I & m & M & E). exists c. split; [apply N; auto|]. rewrite M. left; auto.
Qed.
Lemma loads_ordered : forall ds st, ordered (fst st) -> ordered (fst (fold_left (fun st d => load_from_disk d st) ds st)).
Proof. induction ds as [|d ds IH]; intros st S; cbn [fold_left]; auto. apply IH, load_ordered, S. Qed.
Lemma loads_snoc : forall ds d, loads (ds ++ [d]) = load_from_disk d (loads ds).
Proof. intros. unfold loads. rewrite fold_left_app. reflexivity. Qed.
Lemma loads_valid : forall ds n, In n (map s_name (fst (loads ds))) -> cname_valid 0 n = true.
Proof.
  intros ds. induction ds as [|d ds IH] using rev_ind; intros n I; [inversion I|]. rewrite loads_snoc in I.
  apply in_map_iff in I as (c & <- & I). apply load_step in I; [|apply loads_ordered; constructor].
  destruct I as (c0 & I & m & M & ->). rewrite reload_name. destruct I as [I|(k & -> & _ & V & _)]; auto. apply IH, in_map, I.
Qed.

(* The list after the last look: every client that is there, once, in order. *)
Theorem list_exact : forall ds d, (forall n, cname_valid 0 n = true -> f_mtime d n <> None -> In n (f_names d)) ->
  let l := fst (loads (ds ++ [d])) in
  ordered l /\ (forall n, In n (map s_name l) <-> cname_valid 0 n = true /\ f_mtime d n <> None).
Proof.
  intros ds d C l. subst l. split; [apply loads_ordered; constructor|].
  assert (S : ordered (fst (loads ds))) by (apply loads_ordered; constructor).
  intros n. rewrite loads_snoc. split.
  - intros I. pose proof I as I2. rewrite <- loads_snoc in I2. split; [eapply loads_valid; eauto|].
    apply in_map_iff in I as (c & <- & I). apply load_step in I; auto. destruct I as (c0 & _ & m & M & ->). rewrite reload_name. congruence.
  - intros [V M]. destruct (f_mtime d n) as [m|] eqn:E; [|congruence]. apply in_map_iff.
    destruct (in_dec (list_eq_dec Z.eq_dec) n (map s_name (fst (loads ds)))) as [I|N].
    + apply in_map_iff in I as (c & Ec & I). exists (reload d (snd (loads ds)) m c). rewrite reload_name. split; auto.
      apply load_step; auto. exists c. split; auto. exists m. rewrite Ec. auto.
    + exists (reload d (snd (loads ds)) m (new_cs n)). rewrite reload_name. split; auto. apply load_step; auto.
      exists (new_cs n). split; [right; exists n; repeat split; auto; apply C; congruence|]. exists m. auto.
Qed.

(* Who may be seen: as the configuration says, whenever it has been touched. *)
Theorem permission_fresh : forall ds d c', In c' (fst (loads (ds ++ [d]))) ->
  exists m, f_mtime d (s_name c') = Some m /\ s_mtime c' = m /\
  ((exists c, In c (fst (loads ds)) /\ s_name c = s_name c' /\ s_mtime c = m /\ f_global d = snd (loads ds) /\ s_permitted c' = s_permitted c) \/
   s_permitted c' = match f_load d (s_name c') with Some p => p | None => false end \/
   (m = 0 /\ s_permitted c' = false)).
Proof.
  intros ds d c' I. rewrite loads_snoc in I. apply load_step in I; [|apply loads_ordered; constructor].
  destruct I as (c & I & m & M & ->). exists m. rewrite reload_name. split; auto. unfold reload.
  destruct ((m =? s_mtime c) && (f_global d =? snd (loads ds))) eqn:E.
  - apply andb_prop in E as [E1 E2]. apply Z.eqb_eq in E1, E2. split; auto. destruct I as [I|(n & -> & _)].
    + left. exists c. auto.
    + right; right. auto.
  - split; auto. 
Qed.
(* Nobody is shown that no configuration ever let be seen. *)
Theorem permission_earned : forall ds c, In c (fst (loads ds)) -> s_permitted c = true ->
  exists d, In d ds /\ f_mtime d (s_name c) = Some (s_mtime c) /\ f_load d (s_name c) = Some true.
Proof.
  intros ds. induction ds as [|d ds IH] using rev_ind; intros c I P; [inversion I|].
  destruct (permission_fresh ds d c I) as (m & M & T & [(c0 & I0 & N & T0 & _ & P0)|[L|[_ L]]]).
  - destruct (IH c0 I0) as (d0 & D0 & M0 & L0); [congruence|]. exists d0. split; [apply in_or_app; auto|]. rewrite <- N. split; auto. congruence.
  - exists d. split; [apply in_or_app; right; left; auto|]. split; [congruence|].
    destruct (f_load d (s_name c)) as [[|]|]; congruence.
  - congruence.
Qed.
