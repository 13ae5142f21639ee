(* What a whole run of the deduplication does: proofs for C60 to C63. *)
From Verif Require Import Bytes AuthModel RestoreModel RestoreProofs BedupModel BedupProofs.
From Coq Require Import Permutation.
Local Opaque full_chunk part_chunk.

(* ---- spec ---- *)
Definition sumz (l : list Z) : Z := fold_right Z.add 0 l.
Lemma node_dec : forall a b : node, {a = b} + {a <> b}.
Proof. intros [a1 a2] [b1 b2]. destruct (Z.eq_dec a1 b1), (Z.eq_dec a2 b2); subst; [left; reflexivity|right; congruence..]. Defined.
(* The inodes that have a name, each once. *)
Definition nodes (d : disk) : list node := nodup node_dec (map snd (d_names d)).
Definition fsize (d : disk) (n : node) : Z := Z.of_nat (List.length (d_data d n)).
(* The bytes that the files of a disk take. *)
Definition total (d : disk) : Z := sumz (map (fsize d) (nodes d)).
(* No name is there twice. *)
Definition wf (d : disk) : Prop := NoDup (map fst (d_names d)).

(* ---- names, links, bytes ---- *)
Lemma find_name_in : forall l p n, find_name p l = Some n -> In (p, n) l.
Proof.
  induction l as [|[q m] r IH]; intros p n H; cbn [find_name] in H; [discriminate H|].
  destruct (beqb q p) eqn:E; [|right; apply IH; exact H].
  apply beqb_eq in E. left. congruence.
Qed.
Lemma in_find_name : forall l p n, NoDup (map fst l) -> In (p, n) l -> find_name p l = Some n.
Proof.
  induction l as [|[q m] r IH]; intros p n N H; [destruct H|]. cbn [find_name].
  inversion N as [|x y Nx Ny]; subst. destruct H as [H|H].
  - injection H as -> ->. rewrite beqb_refl. reflexivity.
  - destruct (beqb q p) eqn:E; [|apply IH; assumption].
    apply beqb_eq in E. subst q. exfalso. apply Nx. apply in_map_iff. exists (p, n). auto.
Qed.
Lemma find_name_none : forall l p, find_name p l = None -> ~ In p (map fst l).
Proof.
  induction l as [|[q m] r IH]; intros p H I; [destruct I|]. cbn [find_name] in H.
  destruct (beqb q p) eqn:E; [discriminate H|]. apply beqb_neq in E.
  destruct I as [I|I]; [apply E; exact I|]. apply (IH p H I).
Qed.
Lemma in_node : forall d n, wf d -> (In n (map snd (d_names d)) <-> exists p, look d p = Some n).
Proof.
  intros d n W. split.
  - intros H. apply in_map_iff in H. destruct H as ([p m] & E & H). simpl in E. subst m.
    exists p. apply in_find_name; assumption.
  - intros (p & H). apply find_name_in in H. apply in_map_iff. exists (p, n). auto.
Qed.
Lemma wf_add : forall d p n, wf d -> look d p = None -> wf (d_add p n d).
Proof. intros d p n W H. unfold wf, d_add. simpl. constructor; [apply find_name_none; exact H|exact W]. Qed.
Lemma map_filter_nodup : forall (l : list (bytes * node)) g, NoDup (map fst l) -> NoDup (map fst (filter g l)).
Proof.
  induction l as [|x l IH]; intros g N; [constructor|]. inversion N as [|y z Ny Nz]; subst. simpl.
  destruct (g x); [|apply IH; exact Nz]. simpl. constructor; [|apply IH; exact Nz].
  intros I. apply Ny. apply in_map_iff in I. destruct I as (u & E & I). apply filter_In in I.
  apply in_map_iff. exists u. tauto.
Qed.
Lemma wf_unlink : forall d p, wf d -> wf (d_unlink p d).
Proof. intros d p W. apply map_filter_nodup. exact W. Qed.
Lemma filter_gone : forall (l : list (bytes * node)) p, ~ In p (map fst l) -> filter (fun x => negb (beqb (fst x) p)) l = l.
Proof.
  induction l as [|[q m] r IH]; intros p H; [reflexivity|]. cbn [filter fst].
  destruct (beqb q p) eqn:E.
  - apply beqb_eq in E. exfalso. apply H. left. exact E.
  - cbn [negb]. f_equal. apply IH. intros I. apply H. right. exact I.
Qed.
Lemma unlink_add : forall d p n, look d p = None -> d_unlink p (d_add p n d) = d.
Proof.
  intros [names data] p n H. unfold d_unlink, d_add. cbn [d_names d_data filter fst]. rewrite beqb_refl. cbn [negb].
  f_equal. apply filter_gone. apply find_name_none. exact H.
Qed.
Lemma unlink_gone : forall d p, look d p = None -> d_unlink p d = d.
Proof. intros [names data] p H. unfold d_unlink. simpl. f_equal. apply filter_gone, find_name_none. exact H. Qed.
Lemma unlink_comm_add : forall d p q n, p <> q -> d_unlink p (d_add q n d) = d_add q n (d_unlink p d).
Proof.
  intros d p q n H. unfold d_unlink, d_add. cbn [d_names d_data filter fst].
  replace (beqb q p) with false; [reflexivity|]. symmetry. apply beqb_neq. congruence.
Qed.
Definition one (b : bool) : Z := if b then 1 else 0.
Lemma nlinks_add : forall d p n m, nlinks (d_add p n d) m = nlinks d m + one (node_eqb n m).
Proof.
  intros d p n m. unfold nlinks, d_add. cbn [d_names filter snd]. unfold one.
  destruct (node_eqb n m); cbn [List.length]; lia.
Qed.
Lemma nlinks_unlink : forall d p a m, wf d -> look d p = Some a ->
  nlinks (d_unlink p d) m = nlinks d m - one (node_eqb a m).
Proof.
  intros [names data] p a m. unfold wf, look, nlinks, d_unlink. cbn [d_names].
  induction names as [|[q n] r IH]; intros W H; cbn [find_name] in H; [discriminate H|].
  inversion W as [|x y Nx Ny]; subst. cbn [filter fst].
  destruct (beqb q p) eqn:E.
  - apply beqb_eq in E. subst q. injection H as ->. cbn [negb filter snd].
    rewrite filter_gone by exact Nx. unfold one. destruct (node_eqb a m); cbn [List.length]; lia.
  - cbn [negb filter snd]. specialize (IH Ny H).
    destruct (node_eqb n m); cbn [List.length] in *; lia.
Qed.
Lemma nlinks_pos : forall d n, wf d -> (0 < nlinks d n <-> exists p, look d p = Some n).
Proof.
  intros d n W. unfold nlinks. split.
  - intros H. destruct (filter _ _) as [|[p m] r] eqn:F; [simpl in H; lia|].
    assert (I : In (p, m) (filter (fun x => node_eqb (snd x) n) (d_names d))) by (rewrite F; left; reflexivity).
    apply filter_In in I. destruct I as [I E]. apply node_eqb_eq in E. simpl in E. subst m.
    exists p. apply in_find_name; assumption.
  - intros (p & H). apply find_name_in in H.
    assert (I : In (p, n) (filter (fun x => node_eqb (snd x) n) (d_names d))).
    { apply filter_In. split; [exact H|]. apply node_eqb_eq. reflexivity. }
    destruct (filter _ _); [destruct I|]. cbn [List.length]. lia.
Qed.
Lemma nlinks_nonneg : forall d n, 0 <= nlinks d n.
Proof. intros. unfold nlinks. lia. Qed.
Lemma nlinks_two : forall d p q n, wf d -> p <> q -> look d p = Some n -> look d q = Some n -> 2 <= nlinks d n.
Proof.
  intros d p q n W N P Q.
  assert (H : 0 < nlinks (d_unlink p d) n).
  { apply nlinks_pos; [apply wf_unlink; exact W|]. exists q. rewrite look_unlink.
    replace (beqb q p) with false; [exact Q|]. symmetry. apply beqb_neq. congruence. }
  rewrite (nlinks_unlink d p n n W P) in H. unfold one in H.
  replace (node_eqb n n) with true in H by (symmetry; apply node_eqb_eq; reflexivity). lia.
Qed.

Lemma sumz_perm : forall l l', Permutation l l' -> sumz l = sumz l'.
Proof. intros l l' P. induction P; simpl; lia. Qed.
Lemma in_nodes : forall d n, wf d -> (In n (nodes d) <-> 0 < nlinks d n).
Proof.
  intros d n W. unfold nodes. rewrite nodup_In. rewrite in_node by exact W. symmetry. apply nlinks_pos. exact W.
Qed.
Lemma total_same : forall d d', wf d -> wf d' -> d_data d' = d_data d ->
  (forall n, 0 < nlinks d n <-> 0 < nlinks d' n) -> total d' = total d.
Proof.
  intros d d' W W' D H. unfold total. apply sumz_perm.
  assert (E : fsize d' = fsize d) by (unfold fsize; rewrite D; reflexivity). rewrite E. apply Permutation_map.
  apply NoDup_Permutation; try apply NoDup_nodup. intros n.
  rewrite !in_nodes by assumption. symmetry. apply H.
Qed.
Lemma total_drop : forall d d' a, wf d -> wf d' -> d_data d' = d_data d ->
  0 < nlinks d a -> nlinks d' a = 0 -> (forall n, n <> a -> (0 < nlinks d n <-> 0 < nlinks d' n)) ->
  total d = total d' + fsize d a.
Proof.
  intros d d' a W W' D Ha Ha' H. unfold total.
  assert (E : fsize d' = fsize d) by (unfold fsize; rewrite D; reflexivity). rewrite E.
  assert (P : Permutation (nodes d) (a :: nodes d')).
  { apply NoDup_Permutation.
    - apply NoDup_nodup.
    - constructor; [|apply NoDup_nodup]. rewrite in_nodes by exact W'. lia.
    - intros n. cbn [In]. rewrite !in_nodes by assumption. destruct (node_dec n a) as [->|N].
      + split; auto.
      + rewrite H by exact N. split; [auto|]. intros [X|X]; [congruence|exact X]. }
  rewrite (sumz_perm _ _ (Permutation_map (fsize d) P)). simpl. lia.
Qed.

(* ---- making a hard link ---- *)
Lemma syscall_spec : forall b f w ok w', syscall b f w = (ok, w') ->
  (rd_ok w -> rd_ok w') /\ (op_ok w -> op_ok w') /\ (sys_ok w -> sys_ok w') /\ (sys_ok w -> b = true -> ok = true) /\ (b = false -> ok = false)
  /\ (ok = true -> w_disk w' = f (w_disk w) /\ w_past w' = f (w_disk w) :: w_past w)
  /\ (ok = false -> w_disk w' = w_disk w /\ w_past w' = w_past w).
Proof.
  intros b f w ok w' H. unfold syscall in H.
  assert (S : sys_ok w -> hd true (w_sys w) = true).
  { unfold sys_ok. intros X. destruct (w_sys w); [reflexivity|]. inversion X; subst; reflexivity. }
  destruct (hd true (w_sys w) && b) eqn:E; injection H as <- <-; unfold rd_ok, op_ok, sys_ok; simpl;
    repeat split; auto; try apply Forall_tl; try discriminate.
  - intros ->. rewrite andb_false_r in E. discriminate E.
  - intros X ->. rewrite S in E by exact X. discriminate E.
Qed.
Definition linked (p : bytes) (b : node) (d : disk) : disk := d_add p b (d_unlink p d).
Lemma hardlink_spec : forall ext o n p q a b w ok w',
  do_hardlink ext o n w = (ok, w') -> f_path o = Some p -> f_path n = Some q ->
  look (w_disk w) p = Some a -> look (w_disk w) q = Some b ->
  let d0 := w_disk w in let tmp := p ++ ext in
  (rd_ok w -> rd_ok w') /\ (op_ok w -> op_ok w') /\ (sys_ok w -> sys_ok w')
  /\ (sys_ok w -> look d0 tmp = None -> ok = true)
  /\ (   (ok = false /\ w_disk w' = d0 /\ w_past w' = w_past w)
      \/ (look d0 tmp = None /\ ok = true /\ a <> b /\ w_disk w' = linked p b d0
          /\ w_past w' = linked p b d0 :: d_add tmp b d0 :: w_past w)
      \/ (look d0 tmp = None /\ ok = true /\ a = b /\ w_disk w' = d_add tmp b d0
          /\ w_past w' = d_add tmp b d0 :: d_add tmp b d0 :: w_past w)
      \/ (look d0 tmp = None /\ ok = false /\ w_disk w' = d0 /\ w_past w' = d0 :: d_add tmp b d0 :: w_past w)
      \/ (look d0 tmp = None /\ ok = false /\ w_disk w' = d_add tmp b d0 /\ w_past w' = d_add tmp b d0 :: w_past w)).
Proof.
  intros ext o n p q a b w ok w' H Po Pn La Lb d0 tmp. subst d0 tmp. unfold do_hardlink in H.
  rewrite Po, Pn, Lb in H. set (tmp := p ++ ext) in *. clearbody tmp.
  destruct (look (w_disk w) tmp) as [t|] eqn:Lt.
  { destruct (syscall false (fun d => d) w) as [k w1] eqn:S1. apply syscall_spec in S1.
    destruct S1 as (A & B & C & _ & N & T & F). injection H as <- <-.
    split; [exact A|]. split; [exact B|]. split; [exact C|]. split; [intros _ X; discriminate X|].
    left. split; [reflexivity|]. apply F. apply N. reflexivity. }
  assert (Np : tmp <> p) by congruence.
  destruct (syscall true (d_add tmp b) w) as [k w1] eqn:S1. apply syscall_spec in S1.
  destruct S1 as (A & B & C & Y & _ & T & F). destruct k.
  2:{ injection H as <- <-. repeat (split; [assumption|]). split; [intros X _; exact (Y X eq_refl)|].
      left. split; [reflexivity|]. apply F. reflexivity. }
  destruct (T eq_refl) as [T1 T2]. clear T F.
  match type of H with context [syscall true ?g w1] => set (mv := g) in * end.
  assert (Lp : look (w_disk w1) p = Some a).
  { rewrite T1, look_add. replace (beqb tmp p) with false; [exact La|]. symmetry. apply beqb_neq. exact Np. }
  assert (M : mv (w_disk w1) = if node_eqb b a then d_add tmp b (w_disk w) else linked p b (w_disk w)).
  { unfold mv. rewrite Lp. destruct (node_eqb b a); [exact T1|]. unfold linked. f_equal. f_equal.
    rewrite T1. apply unlink_add. exact Lt. }
  destruct (syscall true mv w1) as [k w2] eqn:S2. apply syscall_spec in S2.
  destruct S2 as (A2 & B2 & C2 & Y2 & _ & T3 & F3). destruct k.
  { injection H as <- <-. repeat (split; [solve [auto]|]). destruct (T3 eq_refl) as [T4 T5].
    rewrite M in T4, T5. rewrite T2 in T5. right. destruct (node_eqb b a) eqn:E.
    - apply node_eqb_eq in E. right. left. auto.
    - apply node_eqb_neq in E. left. auto. }
  destruct (F3 eq_refl) as [F4 F5].
  destruct (syscall true (d_unlink tmp) w2) as [k w3] eqn:S3. apply syscall_spec in S3.
  destruct S3 as (A3 & B3 & C3 & Y3 & _ & T6 & F6). injection H as <- <-.
  split; [auto|]. split; [auto|]. split; [auto|]. split; [intros X _; apply (Y2 (C X)); reflexivity|].
  right. right. right. destruct k.
  - left. destruct (T6 eq_refl) as [T7 T8]. rewrite F4, T1 in T7, T8. rewrite (unlink_add _ _ _ Lt) in T7, T8.
    rewrite F5, T2 in T8. auto.
  - right. destruct (F6 eq_refl) as [T7 T8]. rewrite F4, T1 in T7. rewrite F5, T2 in T8. auto.
Qed.

(* ---- one file ---- *)
Lemma find_key_in : forall t k l, find_key k t = Some l -> In (k, l) t.
Proof.
  induction t as [|[k' l'] r IH]; intros k l H; cbn [find_key] in H; [discriminate H|].
  destruct (k' =? k) eqn:E; [|right; apply IH; exact H]. apply Z.eqb_eq in E. left. congruence.
Qed.
Lemma find_put : forall t k l k', find_key k t <> None ->
  find_key k' (put_key k l t) = if k' =? k then Some l else find_key k' t.
Proof.
  induction t as [|[k0 l0] r IH]; intros k l k' H; cbn [find_key] in H; [congruence|].
  cbn [put_key]. destruct (k0 =? k) eqn:E.
  - apply Z.eqb_eq in E. subst k0. cbn [find_key]. rewrite (Z.eqb_sym k' k). destruct (k =? k'); reflexivity.
  - cbn [find_key]. rewrite IH by exact H. destruct (k0 =? k') eqn:E2; [|reflexivity].
    apply Z.eqb_eq in E2. subst k0. rewrite E. reflexivity.
Qed.
(* The file f is remembered. *)
Definition known (t : table) (f : file) : Prop := exists k l, find_key k t = Some l /\ In f l.

Section Run.
Variable md5 : bytes -> Z.
Variables (mk del : bool) (maxlinks : Z) (ext : bytes).
Notation process := (process_file md5 mk del maxlinks ext).
Notation process_all := (process_all md5 mk del maxlinks ext).
Notation checked := (checked mk del maxlinks ext).

Definition newfile (d : disk) (p : bytes) (n : node) : file := mkfile (Some p) n (nlinks d n) 0 0.
Definition key (d : disk) (n : node) : Z := size_key (fsize d n).
Definition kept (res : found) (nw : file) (l : list file) : list file :=
  match res with NotFound => nw :: l | _ => l end.

Lemma file_spec : forall p s ok s', process p s = (ok, s') ->
  let w := s_w s in let d := w_disk w in
  (ok = true /\ s' = s /\ forall n, look d p = Some n -> d_data d n = [])
  \/ exists n, look d p = Some n /\ d_data d n <> []
     /\ (   (find_key (key d n) (s_table s) = None /\ ok = true
             /\ s' = mkstate w ((key d n, [newfile d p n]) :: s_table s) (s_count s) (s_saved s))
         \/ (exists l l' nw' res w' c sv, find_key (key d n) (s_table s) = Some l
             /\ check_loop md5 mk del maxlinks ext l (newfile d p n) (fsize d n) None None w (s_count s) (s_saved s)
                = (l', nw', res, w', c, sv)
             /\ (ok = false <-> res = Failed)
             /\ s' = mkstate w' (put_key (key d n) (kept res nw' l') (s_table s)) c sv)).
Proof.
  intros p s ok s' H w d. unfold process_file in H. fold w in H. fold d in H.
  destruct (look d p) as [n|] eqn:L.
  2:{ left. injection H as <- <-. split; [reflexivity|]. split; [reflexivity|]. discriminate. }
  destruct (Z.of_nat (List.length (d_data d n)) =? 0) eqn:Z0.
  { left. injection H as <- <-. split; [reflexivity|]. split; [reflexivity|]. intros m Hm. injection Hm as <-.
    apply Z.eqb_eq in Z0. destruct (d_data d n); [reflexivity|]. simpl in Z0. lia. }
  right. exists n. split; [reflexivity|].
  split. { intros X. rewrite X in Z0. discriminate Z0. }
  change (Z.of_nat (List.length (d_data d n))) with (fsize d n) in H.
  change (size_key (fsize d n)) with (key d n) in H. change (mkfile (Some p) n (nlinks d n) 0 0) with (newfile d p n) in H.
  destruct (find_key (key d n) (s_table s)) as [l|] eqn:F.
  2:{ left. injection H as <- <-. auto. }
  right. destruct (check_loop _ _ _ _ _ l _ _ _ _ w _ _) as [[[[[l' nw'] res] w'] c] sv] eqn:E.
  exists l, l', nw', res, w', c, sv. split; [reflexivity|]. split; [exact E|].
  destruct res; injection H as <- <-; cbn [kept]; (split; [split; congruence|reflexivity]).
Qed.

Lemma run_inv : forall (I : state -> Prop) l s ok s',
  (forall p s ok s', In (Some p) l -> I s -> process p s = (ok, s') -> I s') ->
  I s -> process_all l s = (ok, s') -> I s'.
Proof.
  intros I l. induction l as [|[p|] r IH]; intros s ok s' St Is H; cbn [BedupModel.process_all] in H.
  - injection H as <- <-. exact Is.
  - destruct (process p s) as [[|] s1] eqn:E.
    + eapply IH; [|eapply St; [left; reflexivity|exact Is|exact E]|exact H].
      intros. eapply St; [right; eassumption|eassumption|eassumption].
    + injection H as <- <-. eapply St; [left; reflexivity|exact Is|exact E].
  - injection H as <- <-. exact Is.
Qed.
(* The same, with the names that have been come to. *)
Lemma run_inv2 : forall (I : list bytes -> state -> Prop) l s V ok s',
  (forall V p s ok s', In (Some p) l -> ~ In p V -> I V s -> process p s = (ok, s') -> I (p :: V) s') ->
  NoDup l -> (forall p, In (Some p) l -> ~ In p V) ->
  I V s -> process_all l s = (ok, s') ->
  exists V', I V' s' /\ (ok = true -> forall p, In (Some p) l \/ In p V -> In p V').
Proof.
  intros I l. induction l as [|[p|] r IH]; intros s V ok s' St N D Is H; cbn [BedupModel.process_all] in H.
  - injection H as <- <-. exists V. split; [exact Is|]. intros _ p [[]|X]. exact X.
  - inversion N as [|x y Nx Ny]; subst.
    destruct (process p s) as [[|] s1] eqn:E.
    + apply (IH s1 (p :: V)) in H.
      * destruct H as (V' & I' & C). exists V'. split; [exact I'|]. intros O q Q. apply C; [exact O|].
        destruct Q as [[Q|Q]|Q]; [right; left; congruence|left; exact Q|right; right; exact Q].
      * intros. eapply St; [right; eassumption|eassumption|eassumption|eassumption].
      * exact Ny.
      * intros q Q [X|X]; [subst q; exact (Nx Q)|]. exact (D q (or_intror Q) X).
      * eapply St; [left; reflexivity|apply D; left; reflexivity|exact Is|exact E].
    + injection H as <- <-. exists (p :: V). split; [|discriminate].
      eapply St; [left; reflexivity|apply D; left; reflexivity|exact Is|exact E].
  - injection H as <- <-. exists V. split; [exact Is|discriminate].
Qed.

(* ---- C60: what a name holds does not change ---- *)
Definition keeps (d0 d : disk) : Prop := d_data d = d_data d0 /\ forall p c, content d0 p = Some c -> content d p = Some c.
Lemma keeps_refl : forall d, keeps d d.
Proof. intros d. split; auto. Qed.
Lemma keeps_trans : forall a b c, keeps a b -> keeps b c -> keeps a c.
Proof. intros a b c [A1 A2] [B1 B2]. split; [congruence|auto]. Qed.
Lemma keeps_add : forall d p n, look d p = None -> keeps d (d_add p n d).
Proof.
  intros d p n L. split; [reflexivity|]. intros q c. unfold content. rewrite look_add.
  destruct (beqb p q) eqn:E; [|auto]. apply beqb_eq in E. subst q. rewrite L. discriminate.
Qed.
Lemma keeps_linked : forall d p a b, look d p = Some a -> d_data d a = d_data d b -> keeps d (linked p b d).
Proof.
  intros d p a b L E. split; [reflexivity|]. intros q c. unfold content, linked. rewrite look_add, look_unlink.
  cbn [d_add d_unlink d_data]. destruct (beqb p q) eqn:B.
  - apply beqb_eq in B. subst q. rewrite L. simpl. rewrite E. auto.
  - rewrite (beqb_sym q p), B. auto.
Qed.
Definition inv_content (d0 : disk) (s : state) : Prop :=
  rd_ok (s_w s) /\ Forall (keeps d0) (disks s).
Lemma step_content : mk = true -> forall d0 p s ok s', inv_content d0 s -> process p s = (ok, s') -> inv_content d0 s'.
Proof.
  intros Mk d0 p s ok s' [R K] H. apply file_spec in H. cbv zeta in H.
  destruct H as [(_ & -> & _)|(n & L & _ & H)]; [split; assumption|].
  destruct H as [(_ & _ & ->)|(l & l' & nw' & res & w' & c & sv & F & E & _ & ->)]; [split; assumption|].
  unfold inv_content, disks in *. cbn [s_w] in *.
  apply check_spec in E; [|apply held_none].
  assert (K0 : keeps d0 (w_disk (s_w s))) by (inversion K; assumption).
  assert (CM : forall w1, calm (s_w s) w1 -> rd_ok w1 /\ Forall (keeps d0) (w_disk w1 :: w_past w1)).
  { intros w1 (D & P & _ & RR & _). rewrite D, P. auto. }
  inversion E; subst; try (apply CM; assumption).
  match goal with X : calm (s_w s) ?z |- _ => rename X into C; rename z into w1 end.
  pose proof (CM _ C) as [R1 K1]. destruct C as (D & P & SY & RR & OO).
  assert (DH : exists ok, do_hardlink ext nw'0 f' w1 = (ok, w')) by intuition (try congruence; eauto).
  destruct DH as (okk & DH).
  repeat match goal with X : upd _ _ |- _ => destruct X as (? & ? & ?) end.
  apply (hardlink_spec ext nw'0 f' p0 q a b) in DH; try congruence.
  cbv zeta in DH. destruct DH as (A & _ & _ & _ & CS).
  match goal with X : f_path (newfile _ _ _) = Some p0 |- _ => injection X as X; subst p0 end.
  match goal with X : rd_ok _ -> d_data _ a = _ |- _ => specialize (X R); rename X into DE end.
  rewrite <- D in K0, DE. 
  assert (La : look (w_disk w1) p = Some a) by congruence.
  assert (X1 : look (w_disk w1) (p ++ ext) = None -> keeps d0 (d_add (p ++ ext) b (w_disk w1))).
  { intros X. eapply keeps_trans; [exact K0|apply keeps_add; exact X]. }
  assert (X2 : keeps d0 (linked p b (w_disk w1))).
  { eapply keeps_trans; [exact K0|]. eapply keeps_linked; eassumption. }
  split; [auto|]. inversion K1; subst.
  destruct CS as [(_ & -> & ->)|[(T & _ & _ & -> & ->)|[(T & _ & _ & -> & ->)|[(T & _ & -> & ->)|(T & _ & -> & ->)]]]];
    repeat (constructor; auto).
Qed.
Theorem run_content : mk = true -> forall l w ok s', rd_ok w -> w_past w = [] -> process_all l (start w) = (ok, s') ->
  forall d, In d (disks s') -> forall p c, content (w_disk w) p = Some c -> content d p = Some c.
Proof.
  intros Mk l w ok s' R P H d Id.
  assert (I : inv_content (w_disk w) s').
  { eapply run_inv; [|split|exact H].
    - intros. eapply step_content; eassumption.
    - exact R.
    - unfold disks, start. cbn [s_w]. rewrite P. constructor; [apply keeps_refl|constructor]. }
  destruct I as [_ K]. rewrite Forall_forall in K. apply (K d Id).
Qed.

(* ---- no -l, no -d: nothing is changed ---- *)
Theorem run_report : mk = false -> del = false -> forall l w ok s', process_all l (start w) = (ok, s') ->
  w_disk (s_w s') = w_disk w /\ w_past (s_w s') = w_past w.
Proof.
  intros Mk De l w ok s' H.
  apply (run_inv (fun s => w_disk (s_w s) = w_disk w /\ w_past (s_w s) = w_past w)) in H; [exact H| |split; reflexivity].
  clear H s' ok. intros p s ok s' _ [D P] H. apply file_spec in H. cbv zeta in H.
  destruct H as [(_ & -> & _)|(n & L & _ & H)]; [split; assumption|].
  destruct H as [(_ & _ & ->)|(l0 & l' & nw' & res & w' & c & sv & F & E & _ & ->)]; [split; assumption|].
  cbn [s_w]. apply check_spec in E; [|apply held_none].
  inversion E; subst; try (match goal with X : calm _ _ |- _ => destruct X as (X1 & X2 & _) end; split; congruence).
  match goal with X : calm _ _ |- _ => destruct X as (X1 & X2 & _) end.
  match goal with X : _ \/ _ |- _ =>
    destruct X as [(? & _)|[(? & _)|[(_ & ? & _)|[(_ & ? & _)|(_ & _ & -> & _)]]]]; try congruence end.
  split; congruence.
Qed.

(* ---- what becomes of the remembered files ---- *)
Lemma forall2_in : forall (A : Type) (R : A -> A -> Prop) l l' y, Forall2 R l l' -> In y l' -> exists x, In x l /\ R x y.
Proof.
  intros A R l l' y H. induction H as [|a b l l' Hab H IH]; intros I; [destruct I|].
  destruct I as [->|I]; [exists a; split; [left; reflexivity|exact Hab]|].
  destruct (IH I) as (x & Ix & Rx). exists x. split; [right; exact Ix|exact Rx].
Qed.
(* A remembered file was remembered before, under the same name and with the
   same inode, or it is the new one. *)
Lemma checked_known : forall w nw size count saved l l' nw' res w' c s, checked w nw size count saved l l' nw' res w' c s ->
  forall g q, In g (kept res nw' l') -> f_path g = Some q ->
  (exists f, In f l /\ f_path f = Some q /\ f_node f = f_node g) \/ (f_path nw = Some q /\ f_node nw = f_node g).
Proof.
  intros w nw size count saved l l' nw' res w' c s H g q I Q.
  assert (FU : forall l l', Forall2 upd l l' -> In g l' -> exists f, In f l /\ f_path f = Some q /\ f_node f = f_node g).
  { intros k k' F J. destruct (forall2_in _ _ _ _ _ F J) as (x & Ix & U1 & U2 & U3). exists x. repeat split; congruence. }
  inversion H; subst; cbn [kept] in I.
  - destruct I as [->|I].
    + right. match goal with X : upd0 nw g |- _ => destruct X as ([U1|U1] & U2 & U3) end; [split; congruence|congruence].
    + left. eapply FU; eassumption.
  - left. apply in_app_iff in I. destruct I as [I|[->|I]].
    + destruct (FU _ _ ltac:(eassumption) I) as (x & Ix & X). exists x. split; [apply in_app_iff; left; exact Ix|exact X].
    + exists g. split; [apply in_app_iff; right; left; reflexivity|split; congruence].
    + exists g. split; [apply in_app_iff; right; right; exact I|split; congruence].
  - apply in_app_iff in I. destruct I as [I|[->|I]].
    + left. destruct (FU _ _ ltac:(eassumption) I) as (x & Ix & X). exists x. split; [apply in_app_iff; left; exact Ix|exact X].
    + right. match goal with X : upd nw g |- _ => destruct X as (U1 & U2 & U3) end. split; congruence.
    + left. exists g. split; [apply in_app_iff; right; right; exact I|split; congruence].
  - assert (I' : In g (pre' ++ f'' :: post)).
    { destruct res; [exact I| |exact I]. exfalso. intuition discriminate. }
    apply in_app_iff in I'. left. destruct I' as [I'|[->|I']].
    + destruct (FU _ _ ltac:(eassumption) I') as (x & Ix & X). exists x. split; [apply in_app_iff; left; exact Ix|exact X].
    + exists f. split; [apply in_app_iff; right; left; reflexivity|].
      match goal with X : upd f f' |- _ => destruct X as (U1 & U2 & U3) end.
      assert (f_path g = f_path f' /\ f_node g = f_node f').
      { match goal with X : _ \/ _ |- _ => destruct X as [(_&_&_&->&_)|[(_&_&_&->&_)|[(_&_&_&_&->&_)|[(_&_&_&_&->&_)|(_&_&_&_&->&_)]]]] end;
        split; reflexivity. }
      split; intuition congruence.
    + exists g. split; [apply in_app_iff; right; right; exact I'|split; congruence].
Qed.
Lemma known_put : forall t k l f, find_key k t <> None -> known (put_key k l t) f -> In f l \/ known t f.
Proof.
  intros t k l f N (k' & l' & F & I). rewrite find_put in F by exact N.
  destruct (k' =? k); [left; congruence|right; exists k', l'; auto].
Qed.
Lemma known_cons : forall t k nw f, find_key k t = None -> known ((k, [nw]) :: t) f -> f = nw \/ known t f.
Proof.
  intros t k nw f N (k' & l' & F & I). cbn [find_key] in F. destruct (k =? k').
  - injection F as <-. destruct I as [I|[]]. left. auto.
  - right. exists k', l'. auto.
Qed.

(* ---- C61: -d ---- *)
(* Each file that was there has a file with what it held on its device. *)
Definition copies (d0 d : disk) : Prop :=
  d_data d = d_data d0 /\ (forall p n, look d p = Some n -> look d0 p = Some n)
  /\ forall p a, look d0 p = Some a -> exists q b, look d q = Some b /\ fst b = fst a /\ d_data d0 b = d_data d0 a.
Definition inv_copy (d0 : disk) (s : state) : Prop :=
  rd_ok (s_w s) /\ Forall (copies d0) (disks s)
  /\ forall f q, known (s_table s) f -> f_path f = Some q -> look d0 q = Some (f_node f).
Lemma copies_unlink : forall d0 d p q a b, copies d0 d -> look d p = Some a -> look d q = Some b ->
  a <> b -> fst a = fst b -> d_data d a = d_data d b -> copies d0 (d_unlink p d).
Proof.
  intros d0 d p q a b (D & S & C) La Lb N FE DE. split; [exact D|]. split.
  - intros x n. rewrite look_unlink. destruct (beqb x p); [discriminate|apply S].
  - intros x n L. destruct (C x n L) as (y & m & Ly & Fm & Dm).
    destruct (beqb y p) eqn:E.
    + apply beqb_eq in E. subst y. exists q, b. rewrite look_unlink.
      replace (beqb q p) with false.
      * rewrite D in DE. split; [exact Lb|]. assert (m = a) by congruence. subst m. split; congruence.
      * symmetry. apply beqb_neq. intros ->. congruence.
    + exists y, m. rewrite look_unlink, E. auto.
Qed.
Lemma step_copy : mk = false -> forall d0 p s ok s', inv_copy d0 s -> process p s = (ok, s') -> inv_copy d0 s'.
Proof.
  intros Mk d0 p s ok s' (R & K & T) H. apply file_spec in H. cbv zeta in H.
  assert (K0 : copies d0 (w_disk (s_w s))) by (unfold disks in K; inversion K; assumption).
  destruct H as [(_ & -> & _)|(n & L & _ & H)]; [repeat split; assumption|].
  pose proof K0 as (D0 & S0 & _).
  destruct H as [(F & _ & ->)|(l & l' & nw' & res & w' & c & sv & F & E & _ & ->)].
  { split; [exact R|]. split; [exact K|]. cbn [s_table]. intros f q I Q. apply known_cons in I; [|exact F].
    destruct I as [->|I]; [|apply T; assumption]. cbn [newfile f_path f_node] in *. injection Q as <-. apply S0. exact L. }
  unfold inv_copy, disks in *. cbn [s_w s_table] in *.
  apply check_spec in E; [|apply held_none].
  assert (TT : forall f q, known (put_key (key (w_disk (s_w s)) n) (kept res nw' l') (s_table s)) f -> f_path f = Some q ->
                 look d0 q = Some (f_node f)).
  { intros f q I Q. apply known_put in I; [|congruence]. destruct I as [I|I]; [|apply T; assumption].
    destruct (checked_known _ _ _ _ _ _ _ _ _ _ _ _ E f q I Q) as [(g & Ig & Qg & Ng)|(Qg & Ng)].
    - rewrite <- Ng. apply T; [|exact Qg]. eexists. eexists. split; [exact F|exact Ig].
    - rewrite <- Ng. cbn [newfile f_path f_node] in *. injection Qg as <-. apply S0. exact L. }
  assert (CM : forall w1, calm (s_w s) w1 -> rd_ok w1 /\ Forall (copies d0) (w_disk w1 :: w_past w1)).
  { intros w1 (D & P & _ & RR & _). rewrite D, P. auto. }
  assert (G : rd_ok w' /\ Forall (copies d0) (w_disk w' :: w_past w')).
  2:{ destruct G. auto. }
  inversion E; subst; try (apply CM; assumption).
  match goal with X : calm (s_w s) ?z |- _ => rename X into C; rename z into w1 end.
  pose proof (CM _ C) as [R1 K1]. destruct C as (D & P & SY & RR & OO).
  assert (SC : w' = w1 \/ exists ok, syscall true (d_unlink p0) w1 = (ok, w')) by intuition (try congruence; eauto).
  destruct SC as [->|(okk & SC)]; [auto|].
  apply syscall_spec in SC. destruct SC as (A & _ & _ & _ & _ & Y & Z).
  split; [auto|]. destruct okk; [destruct (Y eq_refl) as [-> ->]|destruct (Z eq_refl) as [-> ->]; exact K1].
  assert (X : copies d0 (d_unlink p0 (w_disk w1))).
  { rewrite D. match goal with X : rd_ok _ -> d_data _ a = _ |- _ => specialize (X R); rename X into DE end.
    match goal with X : f_path (newfile _ _ _) = Some p0 |- _ => injection X as X; subst p0 end.
    assert (a = n) by congruence. subst a. cbn [newfile f_node f_nlink] in *.
    assert (b = f_node f).
    { assert (X : look d0 q = Some b) by (apply S0; assumption).
      assert (Y' : look d0 q = Some (f_node f)).
      { apply T; [|assumption]. eexists. eexists. split; [exact F|]. apply in_app_iff. right. left. reflexivity. }
      congruence. }
    subst b. eapply copies_unlink; eassumption. }
  inversion K1; subst. repeat (constructor; auto).
Qed.
Theorem run_copy : mk = false -> forall l w ok s', rd_ok w -> w_past w = [] -> process_all l (start w) = (ok, s') ->
  forall d, In d (disks s') -> copies (w_disk w) d.
Proof.
  intros Mk l w ok s' R P H d Id.
  assert (I : inv_copy (w_disk w) s').
  { eapply run_inv; [|split; [|split]|exact H].
    - intros. eapply step_copy; eassumption.
    - exact R.
    - unfold disks, start. cbn [s_w]. rewrite P. constructor; [|constructor].
      split; [reflexivity|]. split; [auto|]. intros p a L. exists p, a. auto.
    - intros f q (k & l0 & F & _). discriminate F. }
  destruct I as (_ & K & _). rewrite Forall_forall in K. apply (K d Id).
Qed.

(* ---- what is not come to is left alone ---- *)
Definition same_but (V : list (option bytes)) (d0 d : disk) : Prop :=
  d_data d = d_data d0 /\ forall x, ~ In (Some x) V -> (forall v, In (Some v) V -> x <> v ++ ext) -> look d x = look d0 x.
Theorem run_others : forall l w ok s', w_past w = [] -> process_all l (start w) = (ok, s') ->
  forall d, In d (disks s') -> same_but l (w_disk w) d.
Proof.
  intros l w ok s' P H.
  cut (Forall (same_but l (w_disk w)) (disks s')).
  { intros K d Id. rewrite Forall_forall in K. apply (K d Id). }
  apply (run_inv (fun s => Forall (same_but l (w_disk w)) (disks s))) in H; [exact H| |].
  2:{ unfold disks, start. cbn [s_w]. rewrite P. constructor; [split; auto|constructor]. }
  clear H s' ok. intros p s ok s' Il K H. apply file_spec in H. cbv zeta in H.
  destruct H as [(_ & -> & _)|(n & L & _ & H)]; [exact K|].
  destruct H as [(_ & _ & ->)|(l0 & l' & nw' & res & w' & c & sv & F & E & _ & ->)]; [exact K|].
  unfold disks in *. cbn [s_w] in *.
  apply check_spec in E; [|apply held_none].
  assert (CM : forall w1, calm (s_w s) w1 -> Forall (same_but l (w_disk w)) (w_disk w1 :: w_past w1)).
  { intros w1 (D & PP & _ & RR & _). rewrite D, PP. auto. }
  inversion E; subst; try (apply CM; assumption).
  match goal with X : calm (s_w s) ?z |- _ => rename X into C; rename z into w1 end.
  pose proof (CM _ C) as K1. destruct C as (D & PP & SY & RR & OO).
  match goal with X : f_path (newfile _ _ _) = Some p0 |- _ => injection X as X; subst p0 end.
  assert (K0 : same_but l (w_disk w) (w_disk w1)) by (inversion K1; assumption).
  assert (XU : forall d, same_but l (w_disk w) d -> same_but l (w_disk w) (d_unlink p d)).
  { intros d [S1 S2]. split; [exact S1|]. intros x N1 N2. rewrite look_unlink.
    replace (beqb x p) with false; [apply S2; assumption|]. symmetry. apply beqb_neq. intros ->. exact (N1 Il). }
  assert (XA : forall d, same_but l (w_disk w) d -> same_but l (w_disk w) (d_add p b d)).
  { intros d [S1 S2]. split; [exact S1|]. intros x N1 N2. rewrite look_add.
    replace (beqb p x) with false; [apply S2; assumption|]. symmetry. apply beqb_neq. intros ->. exact (N1 Il). }
  assert (XT : forall d, same_but l (w_disk w) d -> same_but l (w_disk w) (d_add (p ++ ext) b d)).
  { intros d [S1 S2]. split; [exact S1|]. intros x N1 N2. rewrite look_add.
    replace (beqb (p ++ ext) x) with false; [apply S2; assumption|]. symmetry. apply beqb_neq. intros X.
    exact (N2 p Il (eq_sym X)). }
  assert (SC : w' = w1 \/ (exists ok, syscall true (d_unlink p) w1 = (ok, w')) \/ exists ok, do_hardlink ext nw'0 f' w1 = (ok, w'))
    by intuition (try congruence; eauto).
  destruct SC as [->|[(okk & SC)|(okk & SC)]]; [exact K1| |].
  - apply syscall_spec in SC. destruct SC as (_ & _ & _ & _ & _ & Y & Z).
    destruct okk; [destruct (Y eq_refl) as [-> ->]|destruct (Z eq_refl) as [-> ->]; exact K1].
    inversion K1; subst. repeat (constructor; auto).
  - repeat match goal with X : upd _ _ |- _ => destruct X as (? & ? & ?) end.
    cbn [newfile f_path] in *.
    apply (hardlink_spec ext nw'0 f' p q a b) in SC; try congruence.
    cbv zeta in SC. destruct SC as (_ & _ & _ & _ & CS). inversion K1; subst.
    unfold linked in CS.
    destruct CS as [(_ & -> & ->)|[(_ & _ & _ & -> & ->)|[(_ & _ & _ & -> & ->)|[(_ & _ & -> & ->)|(_ & _ & -> & ->)]]]];
      repeat (constructor; auto).
Qed.

(* ---- C62: the bytes that are said to be saved ---- *)
(* What is remembered of a file is so. *)
Definition exact_tab (d : disk) (t : table) : Prop :=
  forall f q, known t f -> f_path f = Some q -> look d q = Some (f_node f).
Definition inv_saved (d0 : disk) (V : list bytes) (s : state) : Prop :=
  let d := w_disk (s_w s) in
  wf d /\ d_data d = d_data d0 /\ exact_tab d (s_table s)
  /\ (forall f q, known (s_table s) f -> f_path f = Some q -> In q V)
  /\ s_saved s = u64 (total d0 - total d).
Lemma u64_add : forall x y, u64 (u64 x + y) = u64 (x + y).
Proof. intros. unfold u64. apply Z.add_mod_idemp_l. lia. Qed.
Lemma total_add : forall d p q b, wf d -> look d p = None -> look d q = Some b -> total (d_add p b d) = total d.
Proof.
  intros d p q b W L Q. apply total_same; [exact W|apply wf_add; assumption|reflexivity|].
  intros m. rewrite nlinks_add. unfold one. destruct (node_eqb b m) eqn:E; [|lia].
  apply node_eqb_eq in E. subst m. assert (0 < nlinks d b) by (apply nlinks_pos; eauto). lia.
Qed.
Lemma total_unlink : forall d p a, wf d -> look d p = Some a ->
  total d = total (d_unlink p d) + (if nlinks d a =? 1 then fsize d a else 0).
Proof.
  intros d p a W L.
  assert (X : forall m, nlinks (d_unlink p d) m = nlinks d m - one (node_eqb a m)) by (intros; apply nlinks_unlink; assumption).
  assert (P : 0 < nlinks d a) by (apply nlinks_pos; eauto).
  assert (Xa : nlinks (d_unlink p d) a = nlinks d a - 1).
  { rewrite X. replace (node_eqb a a) with true; [reflexivity|]. symmetry. apply node_eqb_eq. reflexivity. }
  assert (Xo : forall m, m <> a -> nlinks (d_unlink p d) m = nlinks d m).
  { intros m N. rewrite X. replace (node_eqb a m) with false; [simpl; lia|]. symmetry. apply node_eqb_neq. congruence. }
  destruct (nlinks d a =? 1) eqn:E.
  - apply Z.eqb_eq in E. apply total_drop; [exact W|apply wf_unlink; exact W|reflexivity|exact P|lia|].
    intros m N. rewrite Xo by exact N. tauto.
  - apply Z.eqb_neq in E. rewrite Z.add_0_r. symmetry. apply total_same; [exact W|apply wf_unlink; exact W|reflexivity|].
    intros m. destruct (node_dec m a) as [->|N]; [lia|]. rewrite Xo by exact N. tauto.
Qed.
Lemma step_saved : mk = true \/ del = true -> forall d0 V p s ok s', ~ In p V -> inv_saved d0 V s ->
  process p s = (ok, s') -> inv_saved d0 (p :: V) s'.
Proof.
  intros Mode d0 V p s ok s' Fr (W & D0 & T & TV & SV) H. apply file_spec in H. cbv zeta in H.
  destruct H as [(_ & -> & _)|(n & L & _ & H)].
  { repeat split; try assumption. intros f q I Q. right. eapply TV; eassumption. }
  destruct H as [(F & _ & ->)|(l & l' & nw' & res & w' & c & sv & F & E & _ & ->)].
  { unfold inv_saved. cbn [s_w s_table s_saved]. repeat split; try assumption.
    - intros f q I Q. apply known_cons in I; [|exact F]. destruct I as [->|I]; [|apply T; assumption].
      cbn [newfile f_path f_node] in *. congruence.
    - intros f q I Q. apply known_cons in I; [|exact F]. destruct I as [->|I]; [|right; eapply TV; eassumption].
      cbn [newfile f_path f_node] in *. left. congruence. }
  set (d := w_disk (s_w s)) in *.
  apply check_spec in E; [|apply held_none].
  assert (TP : forall g q, known (put_key (key d n) (kept res nw' l') (s_table s)) g -> f_path g = Some q ->
     (exists f, known (s_table s) f /\ f_path f = Some q /\ f_node f = f_node g) \/ (q = p /\ f_node g = n)).
  { intros g q I Q. apply known_put in I; [|congruence]. destruct I as [I|I]; [|left; exists g; auto].
    destruct (checked_known _ _ _ _ _ _ _ _ _ _ _ _ E g q I Q) as [(f & Ig & Qg & Ng)|(Qg & Ng)].
    - left. exists f. split; [eexists; eexists; split; [exact F|exact Ig]|auto].
    - right. cbn [newfile f_path f_node] in *. split; congruence. }
  assert (TV' : forall f q, known (put_key (key d n) (kept res nw' l') (s_table s)) f -> f_path f = Some q -> In q (p :: V)).
  { intros g q I Q. destruct (TP g q I Q) as [(f & If & Qf & _)|(-> & _)]; [right; eapply TV; eassumption|left; reflexivity]. }
  assert (T' : exact_tab d (put_key (key d n) (kept res nw' l') (s_table s))).
  { intros g q I Q. destruct (TP g q I Q) as [(f & If & Qf & Nf)|(-> & Nf)]; [|congruence].
    rewrite <- Nf. apply T; assumption. }
  unfold inv_saved. cbn [s_w s_table s_saved].
  cut (wf (w_disk w') /\ d_data (w_disk w') = d_data d
       /\ (exact_tab (w_disk w') (put_key (key d n) (kept res nw' l') (s_table s)))
       /\ sv = u64 (total d0 - total (w_disk w'))).
  { intros (G1 & G2 & G3 & G4). repeat split; try assumption. congruence. }
  assert (CM : forall w1, calm (s_w s) w1 -> wf (w_disk w1) /\ d_data (w_disk w1) = d_data d
       /\ exact_tab (w_disk w1) (put_key (key d n) (kept res nw' l') (s_table s)) /\ s_saved s = u64 (total d0 - total (w_disk w1))).
  { intros w1 (D & _). rewrite D. auto. }
  inversion E; subst; try (apply CM; assumption).
  match goal with X : calm (s_w s) ?z |- _ => rename X into C; rename z into w1 end.
  pose proof (CM _ C) as K1. destruct C as (D & PP & SY & RR & OO). fold d in D.
  match goal with X : f_path (newfile _ _ _) = Some p0 |- _ => injection X as X; subst p0 end.
  cbn [newfile f_node f_nlink] in *. repeat match goal with X : context [w_disk (s_w s)] |- _ => progress fold d in X end.
  assert (a = n) by congruence. subst a.
  assert (KF : known (s_table s) f).
  { eexists. eexists. split; [exact F|]. apply in_app_iff. right. left. reflexivity. }
  assert (b = f_node f).
  { assert (look d q = Some (f_node f)) by (apply T; assumption). congruence. }
  subst b.
  assert (Npq : p <> q) by (intros ->; congruence).
  (* what is remembered stays so when p changes after q was matched, or tmp appears *)
  assert (NM : forall g x, known (put_key (key d n) (kept res nw'0 (pre' ++ f'' :: post)) (s_table s)) g -> f_path g = Some x -> x <> p).
  { intros g x I Q. assert (Kp : forall f0 q0, In f0 (pre ++ f :: post) -> f_path f0 = Some q0 -> q0 <> p).
    { intros f0 q0 I0 Q0 ->. apply Fr. apply (TV f0); [|exact Q0]. eexists. eexists. split; [exact F|exact I0]. }
    apply known_put in I; [|congruence]. destruct I as [I|I].
    - assert (I' : In g (pre' ++ f'' :: post)).
      { destruct res; [exact I| |exact I]. exfalso. intuition discriminate. }
      apply in_app_iff in I'. destruct I' as [I'|[<-|I']].
      + destruct (forall2_in _ _ _ _ _ ltac:(eassumption) I') as (y & Iy & U1 & U2 & U3).
        apply (Kp y); [apply in_app_iff; left; exact Iy|congruence].
      + match goal with X : upd f f' |- _ => destruct X as (U1 & U2 & U3) end.
        apply (Kp f); [apply in_app_iff; right; left; reflexivity|].
        assert (f_path f'' = f_path f').
        { match goal with X : _ \/ _ |- _ => destruct X as [(_&_&_&->&_)|[(_&_&_&->&_)|[(_&_&_&_&->&_)|[(_&_&_&_&->&_)|(_&_&_&_&->&_)]]]] end; reflexivity. }
        congruence.
      + apply (Kp g); [apply in_app_iff; right; right; exact I'|exact Q].
    - intros ->. apply Fr. eapply TV; eassumption. }
  assert (EU : forall d1, (forall x, x <> p -> look d x <> None -> look d1 x = look d x) ->
               exact_tab d1 (put_key (key d n) (kept res nw'0 (pre' ++ f'' :: post)) (s_table s))).
  { intros d1 X g x I Q. rewrite X; [apply T'; assumption| |].
    - eapply NM; eassumption.
    - rewrite (T' g x I Q). discriminate. }
  assert (OU : forall x, x <> p -> look (d_unlink p d) x = look d x).
  { intros x N. rewrite look_unlink. replace (beqb x p) with false; [reflexivity|]. symmetry. apply beqb_neq. exact N. }
  assert (HL : forall d1, d1 = d_add (p ++ ext) (f_node f) d -> look d (p ++ ext) = None ->
     wf d1 /\ d_data d1 = d_data d /\ exact_tab d1 (put_key (key d n) (kept res nw'0 (pre' ++ f'' :: post)) (s_table s))
     /\ total d1 = total d).
  { intros d1 -> Lt. split; [apply wf_add; assumption|]. split; [reflexivity|]. split; [|eapply total_add; eassumption].
    apply EU. intros x _ X. rewrite look_add. destruct (beqb (p ++ ext) x) eqn:B; [|reflexivity].
    apply beqb_eq in B. subst x. congruence. }
  pose proof (total_unlink d p n W L) as TU.
  match goal with X : upd (newfile _ _ _) _ |- _ => destruct X as (V1 & V2 & V3) end. cbn [newfile f_path f_node f_nlink] in V1, V2, V3.
  match goal with X : upd f f' |- _ => destruct X as (U1 & U2 & U3) end.
  assert (Lp1 : look (w_disk w1) p = Some n) by congruence.
  assert (Lq1 : look (w_disk w1) q = Some (f_node f)) by congruence.
  assert (Eqn : forall x, (if nlinks d n =? 1 then u64 (s_saved s + fsize d n) else s_saved s) = u64 (total d0 - (total d - x))
            \/ x <> (if nlinks d n =? 1 then fsize d n else 0)).
  { intros x. destruct (Z.eq_dec x (if nlinks d n =? 1 then fsize d n else 0)) as [->|N]; [left|right; exact N].
    rewrite SV. destruct (nlinks d n =? 1); [|f_equal; lia]. rewrite u64_add. f_equal. lia. }
  match goal with X : _ \/ _ |- _ =>
    destruct X as [(Z1&Z2&Z3&Z4&Z5&Z6)|[(Z1&Z2&Z3&Z4&Z5&Z6)|[(Z0&Z1&Z2&Z3&Z4&Z5&Z6)|[(Z0&Z1&Z2&Z3&Z4&Z5&Z6)|(Z0&Z1&_)]]]] end.
  - apply (hardlink_spec ext nw'0 f' p q n (f_node f)) in Z2; try congruence.
    cbv zeta in Z2. destruct Z2 as (_ & _ & _ & _ & CS). rewrite D in CS.
    destruct CS as [(X & _)|[(Lt & _ & _ & -> & _)|[(_ & _ & X & _)|[(_ & X & _)|(_ & X & _)]]]]; try congruence.
    assert (Lp2 : look (d_unlink p d) p = None) by (rewrite look_unlink, beqb_refl; reflexivity).
    assert (TL : total (linked p (f_node f) d) = total (d_unlink p d)).
    { unfold linked. apply (total_add _ p q); [apply wf_unlink; exact W|exact Lp2|].
      rewrite OU by congruence. congruence. }
    split; [unfold linked; apply wf_add; [apply wf_unlink; exact W|exact Lp2]|].
    split; [reflexivity|]. split.
    + apply EU. intros x N _. unfold linked. rewrite look_add.
      replace (beqb p x) with false; [apply OU; exact N|]. symmetry. apply beqb_neq. congruence.
    + rewrite TL, Z6. destruct (Eqn (if nlinks d n =? 1 then fsize d n else 0)) as [->|X]; [|congruence]. f_equal. lia.
  - apply (hardlink_spec ext nw'0 f' p q n (f_node f)) in Z2; try congruence.
    cbv zeta in Z2. destruct Z2 as (_ & _ & _ & _ & CS). rewrite D in CS. rewrite Z6.
    destruct CS as [(_ & X & _)|[(_ & X & _)|[(_ & X & _)|[(_ & _ & X & _)|(Lt & _ & X & _)]]]]; try congruence.
    destruct (HL _ X Lt) as (G1 & G2 & G3 & G4). rewrite G4. split; [exact G1|]. split; [exact G2|]. split; [exact G3|exact SV].
  - apply syscall_spec in Z2. destruct Z2 as (_ & _ & _ & _ & _ & Y & _). destruct (Y eq_refl) as [-> _]. rewrite D.
    split; [apply wf_unlink; exact W|]. split; [reflexivity|]. split.
    + apply EU. intros x N _. apply OU. exact N.
    + rewrite Z6. destruct (Eqn (if nlinks d n =? 1 then fsize d n else 0)) as [->|X]; [|congruence]. f_equal. lia.
  - apply syscall_spec in Z2. destruct Z2 as (_ & _ & _ & _ & _ & _ & Y). destruct (Y eq_refl) as [-> _]. rewrite Z6. exact K1.
  - destruct Mode; congruence.
Qed.
Theorem run_saved : mk = true \/ del = true -> forall l w ok s', wf (w_disk w) -> NoDup l ->
  process_all l (start w) = (ok, s') ->
  s_saved s' = u64 (total (w_disk w) - total (w_disk (s_w s'))).
Proof.
  intros Mode l w ok s' W N H.
  apply (run_inv2 (inv_saved (w_disk w)) l (start w) []) in H.
  - destruct H as (V' & (_ & _ & _ & _ & X) & _). exact X.
  - intros. eapply step_saved; eassumption.
  - exact N.
  - intros p _ [].
  - unfold inv_saved, start. cbn [s_w s_table s_saved]. split; [exact W|]. split; [reflexivity|].
    split; [intros f q (k & l0 & F & _); discriminate F|]. split; [intros f q (k & l0 & F & _); discriminate F|].
    rewrite Z.sub_diag. reflexivity.
Qed.
End Run.
