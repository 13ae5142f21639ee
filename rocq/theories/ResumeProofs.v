(* Resuming an interrupted backup: what is kept and where it goes on. *)
From Coq Require Import Sorting.Sorted.
From Verif Require Import Bytes PathcmpModel PathcmpProofs CmdModel CmdProofs AttribsModel FrameModel FrameProofs
  SbufModel SbufProofs MergeModel MergeProofs DpthModel DpthProofs ResumeModel.

(* ---- reading one entry ---- *)

Inductive steps {S} (next : S -> src S) : S -> list (Z * bytes) -> S -> Prop :=
| st_nil : forall s, steps next s [] s
| st_msg : forall s m s' l s'', next s = SMsg m s' -> steps next s' l s'' -> steps next s (m :: l) s''.

Definition blen (l : list (Z * bytes)) : nat := List.length (file_of l).
Lemma blen_cons : forall m l, blen (m :: l) = (6 + List.length (snd m) + blen l)%nat.
Proof. intros. unfold blen. change (file_of (m :: l)) with (frame m ++ file_of l). rewrite app_length, frame_length. reflexivity. Qed.

Lemma msgs_cut : forall ms rest k o, Forall okmsg ms ->
  let f := mkf (firstn k (file_of ms ++ rest)) o in
  ((blen ms <= k)%nat /\ exists o', (noerr o -> noerr o') /\ steps file_next f ms (mkf (firstn (k - blen ms) rest) o')) \/
  ((noerr o -> (k < blen ms)%nat) /\ exists j f', (j < List.length ms)%nat /\ steps file_next f (firstn j ms) f' /\
     (file_next f' = SEnd \/ file_next f' = SErr)).
Proof.
  induction ms as [|m ms IH]; intros rest k o F; cbv zeta.
  - left. unfold blen. cbn [file_of map concat List.length app]. rewrite Nat.sub_0_r. split; [lia|]. exists o. split; [auto|constructor].
  - inversion F as [|? ? Hm Hl]; subst. rewrite blen_cons.
    change (file_of (m :: ms)) with (frame m ++ file_of ms). rewrite <- app_assoc.
    destruct (fill_cut m (file_of ms ++ rest) k o Hm) as [[E N]|[[E N]|[Lk [o' [E N]]]]].
    + right. split; [intros No; specialize (N No); lia|]. exists 0%nat. eexists. split; [cbn; lia|]. split; [constructor|].
      right. unfold file_next. rewrite E. reflexivity.
    + right. split; [intros No; lia|]. exists 0%nat. eexists. split; [cbn; lia|]. split; [constructor|].
      left. unfold file_next. rewrite E. reflexivity.
    + destruct (IH rest (k - (6 + List.length (snd m)))%nat o' Hl) as [[L (o2 & N2 & S2)]|[L (j & f' & Hj & S2 & E2)]].
      * left. split; [lia|]. exists o2. split; [auto|]. eapply st_msg; [unfold file_next; rewrite E; reflexivity|].
        replace (k - (6 + List.length (snd m) + blen ms))%nat with (k - (6 + List.length (snd m)) - blen ms)%nat by lia. exact S2.
      * right. split; [intros No; specialize (L (N No)); lia|]. exists (S j), f'. split; [cbn; lia|]. split; [|exact E2].
        cbn [firstn]. eapply st_msg; [unfold file_next; rewrite E; reflexivity|exact S2].
Qed.

Lemma st_inv : forall S (next : S -> src S) s m l s'', steps next s (m :: l) s'' ->
  exists s', next s = SMsg m s' /\ steps next s' l s''.
Proof. intros. inversion H; subst. eauto. Qed.
Lemma st_end : forall S (next : S -> src S) s s'', steps next s [] s'' -> s'' = s.
Proof. intros. inversion H; auto. Qed.
Ltac sstep H := apply st_inv in H; destruct H as (?s & ?N & H).

Lemma fill_steps : forall St (next : St -> src St) e s s' n, wf_entry e -> steps next s (entry_msgs e) s' ->
  sbuf_fill next (4 + n) s sbuf_alloc = FillOk (entry_sbuf e) s'.
Proof.
  intros St next e s s' n W D.
  destruct e as [c dp a p f|c c2 a p t|c a p]; cbn [entry_msgs] in D; cbn [wf_entry] in W; cbn [plus sbuf_fill].
  - destruct W as (W1 & W2 & W3 & W4 & W5). do 4 (sstep D). apply st_end in D. subst s'.
    rewrite N, parse_datapth, N0 by auto.
    change (parse_cmd (mksbuf nobuf nobuf nobuf nobuf (buf 116 dp) false false) (114, a))
      with (mksbuf nobuf (buf 114 a) nobuf nobuf (buf 116 dp) false false, PNeedMore). cbv iota beta.
    rewrite N1, parse_path_data, N2, parse_fin by auto. reflexivity.
  - destruct W as (W1 & W2 & W3 & W4 & W5). do 3 (sstep D). apply st_end in D. subst s'.
    rewrite N, parse_attr, N0, parse_path_link, N1, parse_target by auto. reflexivity.
  - destruct W as (W1 & W2 & W3). do 2 (sstep D). apply st_end in D. subst s'.
    rewrite N, parse_attr, N0, parse_path_plain by auto. reflexivity.
Qed.

(* What an entry that is only partly there leaves in the sbuf. *)
Definition rest_of (e : entry) (sb : sbuf) : Prop :=
  s_datapth sb = s_datapth (entry_sbuf e) \/ ibuf (s_datapth sb) = None.
Definition stopped {S} (r : fillres S) (sb : sbuf) : Prop := r = FillEnd sb \/ r = FillErr sb.

Lemma fill_steps_partial : forall St (next : St -> src St) e s s' j n, wf_entry e ->
  (j < List.length (entry_msgs e))%nat -> steps next s (firstn j (entry_msgs e)) s' ->
  next s' = SEnd \/ next s' = SErr ->
  exists sb, rest_of e sb /\ stopped (sbuf_fill next (4 + n) s sbuf_alloc) sb.
Proof.
  intros St next e s s' j n W Hj D X.
  assert (Q : forall sb n0, rest_of e sb -> exists sb', rest_of e sb' /\ stopped (match next s' with
    | SEnd => FillEnd sb | SErr => FillErr sb
    | SMsg m s' => match parse_cmd sb m with
      | (sb', PNeedMore) => sbuf_fill next n0 s' sb' | (sb', PComplete) => FillOk sb' s'
      | (sb', PFinished) => FillEnd sb' | (sb', PError) => FillErr sb' end end) sb').
  { intros sb n0 R. exists sb. split; auto. unfold stopped. destruct X as [-> | ->]; auto. }
  destruct e as [c dp a p f|c c2 a p t|c a p]; cbn [entry_msgs List.length] in *; cbn [wf_entry] in W.
  - destruct W as (W1 & W2 & W3 & W4 & W5).
    destruct j as [|[|[|[|j]]]]; [| | | |lia]; cbn [firstn] in D; cbn [plus sbuf_fill].
    + apply st_end in D. subst s'. apply (Q _ (S (S (S n)))). right. reflexivity.
    + sstep D. apply st_end in D. subst s'. rewrite N, parse_datapth by auto. apply (Q _ (S (S n))). left. reflexivity.
    + do 2 (sstep D). apply st_end in D. subst s'. rewrite N, parse_datapth, N0 by auto.
      change (parse_cmd (mksbuf nobuf nobuf nobuf nobuf (buf 116 dp) false false) (114, a))
        with (mksbuf nobuf (buf 114 a) nobuf nobuf (buf 116 dp) false false, PNeedMore). cbv iota beta.
      apply (Q _ (S n)). left. reflexivity.
    + do 3 (sstep D). apply st_end in D. subst s'. rewrite N, parse_datapth, N0 by auto.
      change (parse_cmd (mksbuf nobuf nobuf nobuf nobuf (buf 116 dp) false false) (114, a))
        with (mksbuf nobuf (buf 114 a) nobuf nobuf (buf 116 dp) false false, PNeedMore). cbv iota beta.
      rewrite N1, parse_path_data by auto. apply (Q _ n). left. reflexivity.
  - destruct W as (W1 & W2 & W3 & W4 & W5).
    destruct j as [|[|[|j]]]; [| | |lia]; cbn [firstn] in D; cbn [plus sbuf_fill].
    + apply st_end in D. subst s'. apply (Q _ (S (S (S n)))). left. reflexivity.
    + sstep D. apply st_end in D. subst s'. rewrite N, parse_attr by auto. apply (Q _ (S (S n))). left. reflexivity.
    + do 2 (sstep D). apply st_end in D. subst s'. rewrite N, parse_attr, N0, parse_path_link by auto. apply (Q _ (S n)). left. reflexivity.
  - destruct W as (W1 & W2 & W3).
    destruct j as [|[|j]]; [| |lia]; cbn [firstn] in D; cbn [plus sbuf_fill].
    + apply st_end in D. subst s'. apply (Q _ (S (S (S n)))). left. reflexivity.
    + sstep D. apply st_end in D. subst s'. rewrite N, parse_attr by auto. apply (Q _ (S (S n))). left. reflexivity.
Qed.

(* The size of entries in a manifest. *)
Definition size (es : list entry) : nat := List.length (file_of (stream es)).
Definition file (es : list entry) : bytes := file_of (stream es).
Lemma file_cons : forall e es, file (e :: es) = file_of (entry_msgs e) ++ file es.
Proof. intros. unfold file. change (stream (e :: es)) with (entry_msgs e ++ stream es). apply file_of_app. Qed.
Lemma file_app : forall a b, file (a ++ b) = file a ++ file b.
Proof. intros. unfold file, stream. rewrite flat_map_app, file_of_app. reflexivity. Qed.
Lemma size_cons : forall e es, size (e :: es) = (blen (entry_msgs e) + size es)%nat.
Proof. intros. unfold size, blen. fold (file (e :: es)). rewrite file_cons, app_length. reflexivity. Qed.
Lemma size_app : forall a b, size (a ++ b) = (size a + size b)%nat.
Proof. intros. unfold size. fold (file (a ++ b)). rewrite file_app, app_length. reflexivity. Qed.
Lemma blen_pos : forall e, (12 <= blen (entry_msgs e))%nat.
Proof. intros e. destruct e; cbn [entry_msgs]; rewrite !blen_cons; unfold blen; cbn [file_of map concat List.length]; lia. Qed.

Lemma read_cut1 : forall e rest k o, wf_entry e ->
  let f := mkf (firstn k (file_of (entry_msgs e) ++ rest)) o in
  ((blen (entry_msgs e) <= k)%nat /\ exists o', (noerr o -> noerr o') /\
     manio_read f = FillOk (entry_sbuf e) (mkf (firstn (k - blen (entry_msgs e)) rest) o')) \/
  ((noerr o -> (k < blen (entry_msgs e))%nat) /\ exists sb, rest_of e sb /\ stopped (manio_read f) sb).
Proof.
  intros e rest k o W. cbv zeta.
  destruct (msgs_cut (entry_msgs e) rest k o (entry_msgs_ok e W)) as [[L (o' & N & S)]|[L (j & f' & Hj & S & X)]].
  - left. split; [exact L|]. exists o'. split; [exact N|]. unfold manio_read. apply fill_steps; auto.
  - right. split; [exact L|]. unfold manio_read. eapply fill_steps_partial; eauto.
Qed.

Lemma read_cut0 : forall k o,
  exists sb, ibuf (s_datapth sb) = None /\ stopped (manio_read (mkf (firstn k []) o)) sb /\
    (noerr o -> manio_read (mkf (firstn k []) o) = FillEnd sb).
Proof.
  intros k o. rewrite firstn_nil. exists sbuf_alloc. split; [reflexivity|]. unfold manio_read, stopped. cbn [plus sbuf_fill]. unfold file_next.
  destruct (fill_empty o) as [[E N]|E]; rewrite E; auto. split; auto. contradiction.
Qed.

(* ---- storage paths ---- *)

Definition epath (e : entry) : iobuf := s_path (entry_sbuf e).
Definition edp (e : entry) : option bytes := option_map cview (ibuf (s_datapth (entry_sbuf e))).

(* dpth_set_from_string() over a list of paths, without the increment. *)
Fixpoint hs (d : dpth) (ps : list (option bytes)) : option dpth :=
  match ps with
  | [] => Some d
  | p :: r => match dpth_set_from_string d p with (d', true) => hs d' r | (_, false) => None end
  end.
Lemma hs_resume : forall ps d, resume_paths d ps =
  match hs d ps with
  | Some d' => match dpth_incr d' with (d2, true) => Some d2 | (_, false) => None end
  | None => None
  end.
Proof. induction ps as [|p ps IH]; intros d; cbn; auto. destruct (dpth_set_from_string d p) as [d' []]; auto. Qed.
Lemma hs_app : forall a b d, hs d (a ++ b) = match hs d a with Some d' => hs d' b | None => None end.
Proof. induction a as [|p a IH]; intros b d; cbn; auto. destruct (dpth_set_from_string d p) as [d' []]; auto. Qed.
Lemma set_ok : forall d p, okd d -> seen p -> exists d1, dpth_set_from_string d p = (d1, true) /\ okd d1.
Proof.
  intros d [s|] Hd Sp; [|exists d; auto]. destruct Sp as [Ht|(a & b & c & z & Ha & Hb & Hc & ->)].
  - exists d. unfold dpth_set_from_string. rewrite Ht, Z.eqb_refl. auto.
  - destruct (set_from_string_spec d a b c z Hd Ha Hb Hc) as (d1 & E & O1 & _). eauto.
Qed.
Lemma higher_ok : forall d sb, okd d -> seen (option_map cview (ibuf (s_datapth sb))) ->
  exists d1, higher d sb = Some d1 /\ okd d1 /\ hs d [option_map cview (ibuf (s_datapth sb))] = Some d1.
Proof.
  intros d sb O Sp. destruct (set_ok _ _ O Sp) as (d1 & E & O1). exists d1. unfold higher, hs. rewrite E. auto.
Qed.
Lemma rest_seen : forall e sb, seen (edp e) -> rest_of e sb -> seen (option_map cview (ibuf (s_datapth sb))).
Proof. intros e sb H [E|E]; [rewrite E; exact H|rewrite E; exact I]. Qed.

(* What dpth has gone through: the paths of all the entries read, and what
   there was of the next one. *)
Definition counted (d : dpth) (es : list entry) (d' : dpth) : Prop :=
  okd d' /\ exists ps, Forall seen ps /\ hs d (map edp es ++ ps) = Some d'.

(* ---- the last good entry ---- *)

(* An entry as phase 2 writes it: one with data says where the data is. *)
Definition stored (e : entry) : Prop := match e with EPlain c _ _ => ~ datacmd c | _ => True end.

(* How far a list of entries is good: the longest prefix that does not end
   inside a group of entries for one file (see [whole] below). *)
Fixpoint best (vss : bool) (i kept : nat) (l : list entry) : nat :=
  match l with
  | [] => kept
  | e :: r => let v := vss_next vss (entry_sbuf e) in best v (S i) (if v then kept else S i) r
  end.
Definition last_path (l : list entry) : iobuf := last (map epath l) iobuf_empty.

Lemma stored_top : forall e w f vss lastp result pos, wf_entry e -> stored e ->
  let '(lastp1, result1, pos1) :=
      if has_buf (s_path (entry_sbuf e)) && negb vss then
        if negb (is_filedata (entry_sbuf e)) && negb (is_vssdata (entry_sbuf e))
        then (moved (s_path (entry_sbuf e)), s_path (entry_sbuf e), tell w f)
        else (s_path (entry_sbuf e), result, pos)
      else (lastp, result, pos) in
  exists lastp2,
    (if has_buf (s_endfile (entry_sbuf e)) && negb vss then (moved lastp1, lastp1, tell w f) else (lastp1, result1, pos1))
    = (lastp2, (if vss then result else epath e), (if vss then pos else tell w f)).
Proof.
  intros e w f vss lastp result pos W St.
  destruct vss; [cbn [negb]; rewrite !andb_false_r; eauto|].
  assert (ND : forall c, ~ datacmd c -> cmd_is_filedata c = false /\ cmd_is_vssdata c = false).
  { intros c N. unfold datacmd in N. cbn [In] in N. unfold cmd_is_filedata, cmd_is_vssdata.
    split; repeat (rewrite (proj2 (Z.eqb_neq _ _)) by (intros ->; apply N; tauto)); reflexivity. }
  destruct e as [c dp a p fi|c c2 a p t|c a p]; cbn [wf_entry stored] in *.
  - destruct W as (W1 & _). destruct (path_cmds c (or_introl (datacmd_plain c W1))) as (_ & _ & _ & _ & E). specialize (E W1).
    unfold is_filedata, is_vssdata. cbn [entry_sbuf s_path s_endfile has_buf ibuf buf icmd negb andb].
    replace (negb (cmd_is_filedata c) && negb (cmd_is_vssdata c)) with false by (destruct E as [-> | ->]; [reflexivity|destruct (cmd_is_filedata c); reflexivity]).
    cbv iota. eauto.
  - destruct W as (W1 & _). assert (N : cmd_is_filedata c = false /\ cmd_is_vssdata c = false) by (destruct W1 as [-> | ->]; split; reflexivity).
    unfold is_filedata, is_vssdata. cbn [entry_sbuf s_path s_endfile has_buf ibuf buf nobuf icmd negb andb].
    destruct N as [-> ->]. cbn [negb andb]. eauto.
  - destruct (ND c St) as [N1 N2].
    unfold is_filedata, is_vssdata. cbn [entry_sbuf s_path s_endfile has_buf ibuf buf nobuf icmd negb andb].
    rewrite N1, N2. cbn [negb andb]. eauto.
Qed.

Lemma tell_cut : forall done rest K o, (size done <= K)%nat ->
  tell (firstn K (file (done ++ rest))) (mkf (firstn (K - size done) (file rest)) o) = size done.
Proof.
  intros done rest K o H. unfold tell. cbn [fbytes]. rewrite !firstn_length, file_app, app_length.
  fold (size done). unfold size in *. fold (file done) in *. lia.
Qed.
Lemma last_path_snoc : forall l e, last_path (l ++ [e]) = epath e.
Proof. intros. unfold last_path. rewrite map_app. cbn. apply last_last. Qed.
Lemma firstn_snoc_len : forall (done : list entry) e rest, firstn (List.length (done ++ [e])) (done ++ e :: rest) = done ++ [e].
Proof.
  intros. replace (done ++ e :: rest) with ((done ++ [e]) ++ rest) by (rewrite <- app_assoc; reflexivity).
  rewrite firstn_app, firstn_all, Nat.sub_diag. cbn. apply app_nil_r.
Qed.
Lemma next_cut : forall done e rest K o, (size done + blen (entry_msgs e) <= K)%nat ->
  mkf (firstn (K - size done - blen (entry_msgs e)) (file rest)) o = mkf (firstn (K - size (done ++ [e])) (file rest)) o.
Proof. intros. rewrite size_app, size_cons. unfold size at 3. cbn [stream flat_map file_of map concat List.length]. f_equal. f_equal. lia. Qed.
Lemma size1 : forall done e, size (done ++ [e]) = (size done + blen (entry_msgs e))%nat.
Proof. intros. rewrite size_app, size_cons. unfold size at 2. cbn [stream flat_map file_of map concat List.length]. lia. Qed.

(* How many entries a reader that is not stopped otherwise gets. *)
Definition reaches (K : nat) (o : list rd) (done rest : list entry) (m : nat) : Prop :=
  (m <= List.length rest)%nat /\ (size (done ++ firstn m rest) <= K)%nat /\
  (noerr o -> m = List.length rest \/ (K < size (done ++ firstn (S m) rest))%nat).
Lemma reaches_0 : forall K o done rest, (size done <= K)%nat -> (noerr o -> rest = [] \/ exists e r, rest = e :: r /\ (K - size done < blen (entry_msgs e))%nat) ->
  reaches K o done rest 0.
Proof.
  intros K o done rest H1 H. split; [lia|]. cbn [firstn]. rewrite app_nil_r. split; [exact H1|]. intros No.
  destruct (H No) as [->|(e & r & -> & L)]; [left; reflexivity|right]. cbn [firstn]. rewrite size1. lia.
Qed.
Lemma reaches_S : forall K o o' done e rest m, (noerr o -> noerr o') -> reaches K o' (done ++ [e]) rest m ->
  reaches K o done (e :: rest) (S m).
Proof.
  intros K o o' done e rest m N (H1 & H2 & H3). unfold reaches. cbn [firstn List.length]. rewrite <- app_assoc in H2. cbn [app] in H2.
  split; [lia|]. split; [exact H2|]. intros No. destruct (H3 (N No)) as [->|L]; [left; reflexivity|right].
  rewrite <- app_assoc in L. exact L.
Qed.

Lemma last_good_spec : forall rest done K o n d sb vss lastp result pos kept,
  Forall wf_entry rest -> Forall stored rest -> Forall (fun e => seen (edp e)) rest -> okd d ->
  (size done <= K)%nat -> (List.length (firstn (K - size done) (file rest)) < n)%nat ->
  (kept <= List.length done)%nat ->
  let es := done ++ rest in
  let w := firstn K (file es) in
  let f := mkf (firstn (K - size done) (file rest)) o in
  (let '(lastp1, result1, pos1) :=
      if has_buf (s_path sb) && negb vss then
        if negb (is_filedata sb) && negb (is_vssdata sb)
        then (moved (s_path sb), s_path sb, tell w f)
        else (s_path sb, result, pos)
      else (lastp, result, pos) in
   exists lastp2,
    (if has_buf (s_endfile sb) && negb vss then (moved lastp1, lastp1, tell w f) else (lastp1, result1, pos1))
    = (lastp2, last_path (firstn kept es), size (firstn kept es))) ->
  exists m d', reaches K o done rest m /\ counted d (firstn m rest) d' /\
    let g := best vss (List.length done) kept (firstn m rest) in
    (g <= List.length done + m)%nat /\
    last_good_loop n w f d sb vss lastp result pos = Some (last_path (firstn g es), size (firstn g es), d').
Proof.
  induction rest as [|e rest IH]; intros done K o n d sb vss lastp result pos kept W St Sn O HK Hn Hk es w f Top;
    (destruct n as [|n]; [lia|]); cbn [last_good_loop]; fold w f;
    destruct (if has_buf (s_path sb) && negb vss then _ else _) as [[lastp1 result1] pos1];
    destruct Top as (lastp2 & Top); rewrite Top; clear Top lastp1 result1 pos1.
  - destruct (read_cut0 (K - size done) o) as (sb' & E & Sp & _).
    destruct (higher_ok d sb' O ltac:(rewrite E; exact I)) as (d1 & Hh & O1 & H1).
    exists 0%nat, d1. split; [apply reaches_0; auto|]. split.
    { split; auto. eexists. cbn [firstn map app]. split; [|exact H1]. rewrite E. repeat constructor. }
    cbn [firstn best]. split; [lia|].
    change (manio_read f) with (manio_read (mkf (firstn (K - size done) []) o)).
    destruct Sp as [-> | ->]; rewrite Hh; reflexivity.
  - inversion W as [|? ? We Wr]; inversion St as [|? ? Se Sr]; inversion Sn as [|? ? Ne Nr]; subst.
    destruct (read_cut1 e (file rest) (K - size done) o We) as [[L (o' & N & E)]|[L (sb' & R & Sp)]].
    + assert (Ef : manio_read f = FillOk (entry_sbuf e) (mkf (firstn (K - size (done ++ [e])) (file rest)) o')).
      { rewrite <- next_cut by lia. rewrite <- E. unfold f. rewrite file_cons. reflexivity. }
      rewrite Ef. destruct (higher_ok d (entry_sbuf e) O Ne) as (d1 & Hh & O1 & H1). rewrite Hh.
      assert (Es : es = (done ++ [e]) ++ rest) by (unfold es; rewrite <- app_assoc; reflexivity).
      set (v := vss_next vss (entry_sbuf e)).
      destruct (IH (done ++ [e]) K o' n d1 (entry_sbuf e) v lastp2 (last_path (firstn kept es)) (size (firstn kept es))
                 (if v then kept else S (List.length done))) as (m & d' & R1 & C1 & G1 & E1); auto.
      * rewrite size1. lia.
      * rewrite size1. pose proof (blen_pos e). revert Hn. rewrite !firstn_length, file_cons, app_length.
        fold (blen (entry_msgs e)). lia.
      * rewrite app_length. cbn [List.length]. destruct v; lia.
      * rewrite <- Es. fold w.
        pose proof (stored_top e w (mkf (firstn (K - size (done ++ [e])) (file rest)) o') v lastp2 (last_path (firstn kept es)) (size (firstn kept es)) We Se) as T.
        destruct (if has_buf (s_path (entry_sbuf e)) && negb v then _ else _) as [[l1 r1] p1].
        destruct T as (l2 & T). exists l2. rewrite T.
        assert (Tl : tell w (mkf (firstn (K - size (done ++ [e])) (file rest)) o') = size (done ++ [e])).
        { unfold w. rewrite Es. apply tell_cut. rewrite size1. lia. }
        destruct v; [reflexivity|]. rewrite Tl.
        replace (firstn (S (List.length done)) es) with (done ++ [e]); [rewrite last_path_snoc; reflexivity|].
        unfold es. replace (S (List.length done)) with (List.length (done ++ [e])) by (rewrite app_length; cbn; lia).
        symmetry. apply firstn_snoc_len.
      * exists (S m), d'. split; [apply (reaches_S K o o'); auto|]. split.
        { destruct C1 as (C1 & ps & F & Hs). split; auto. exists ps. split; auto. cbn [firstn map app].
          change (edp e :: map edp (firstn m rest) ++ ps) with ([edp e] ++ (map edp (firstn m rest) ++ ps)).
          rewrite hs_app. unfold edp at 1. rewrite H1. exact Hs. }
        rewrite app_length in G1, E1. cbn [List.length] in G1, E1.
        cbn [firstn best]. fold v. replace (List.length done + 1)%nat with (S (List.length done)) in * by lia.
        split; [lia|]. rewrite <- Es in E1. fold w in E1. exact E1.
    + destruct (higher_ok d sb' O (rest_seen _ _ Ne R)) as (d1 & Hh & O1 & H1).
      exists 0%nat, d1. split.
      { apply reaches_0; auto. intros No. right. eauto. }
      split.
      { split; auto. eexists. cbn [firstn map app]. split; [|exact H1]. constructor; [|constructor]. eapply rest_seen; eauto. }
      cbn [firstn best]. split; [lia|].
      assert (Ef : manio_read f = manio_read (mkf (firstn (K - size done) (file_of (entry_msgs e) ++ file rest)) o)).
      { unfold f. rewrite file_cons. reflexivity. }
      rewrite Ef. destruct Sp as [-> | ->]; rewrite Hh; reflexivity.
Qed.

(* ---- going forward to an entry ---- *)

Lemma pathcmp_s_range : forall a b, pathcmp_s a b = -1 \/ pathcmp_s a b = 0 \/ pathcmp_s a b = 1.
Proof.
  induction a as [|x a IH]; intros [|y b]; cbn [pathcmp_s]; auto.
  repeat match goal with |- context [if ?c then _ else _] => destruct c end; auto.
Qed.
Lemma iobuf_pathcmp_range : forall a b, iobuf_pathcmp a b = -1 \/ iobuf_pathcmp a b = 0 \/ iobuf_pathcmp a b = 1.
Proof.
  intros a b. rewrite iobuf_pathcmp_tie.
  assert (P : pathcmp (ipath a) (ipath b) = -1 \/ pathcmp (ipath a) (ipath b) = 0 \/ pathcmp (ipath a) (ipath b) = 1).
  { unfold pathcmp. destruct (ipath a), (ipath b); auto. apply pathcmp_s_range. }
  destruct (negb _); auto. unfold tie. destruct (kind_of (icmd a)), (kind_of (icmd b)); auto.
Qed.

(* Paths that can be compared (C05). *)
Definition comparable (t : iobuf) (e : entry) : Prop := iraw t /\ iraw (epath e) /\ unmixed t (epath e).
Definition after_t (t : iobuf) (e : entry) : Prop := entry_lt t (epath e).
Definition before_t (t : iobuf) (e : entry) : Prop := entry_lt (epath e) t.
Definition upto_t (t : iobuf) (e : entry) : Prop := before_t t e \/ entry_eq t (epath e).

Lemma cmp_t : forall t e, comparable t e ->
  (iobuf_pathcmp t (epath e) = -1 /\ after_t t e) \/ (iobuf_pathcmp t (epath e) = 0 /\ entry_eq t (epath e)) \/
  (iobuf_pathcmp t (epath e) = 1 /\ before_t t e).
Proof.
  intros t e (R1 & R2 & U). destruct (entry_cmp_spec _ _ R1 R2 U) as (L & E & Op).
  destruct (iobuf_pathcmp_range t (epath e)) as [X|[X|X]].
  - left. split; auto. apply L. lia.
  - right; left. split; auto. apply E. auto.
  - right; right. split; auto. assert (U' : unmixed (epath e) t) by (unfold unmixed in *; tauto).
    destruct (entry_cmp_spec _ _ R2 R1 U') as (L' & _ & _). apply L'. lia.
Qed.

Definition esorted (es : list entry) : Prop := StronglySorted (fun a b => entry_lt (epath a) (epath b)) es.

Lemma lt_trans3 : forall a b c, iraw a -> iraw b -> iraw c -> entry_lt a b -> entry_lt b c -> entry_lt a c.
Proof. intros. eapply entry_lt_trans with (b := b); eauto. Qed.
Lemma eq_lt3 : forall a b c, entry_eq a b -> entry_lt b c -> entry_lt a c.
Proof. unfold entry_eq, entry_lt. intros a b c [E R] H. rewrite E, R. exact H. Qed.

(* Beyond an entry that is not before the target, everything is after it. *)
Lemma beyond : forall t e rest, Forall (comparable t) (e :: rest) -> esorted (e :: rest) ->
  after_t t e \/ entry_eq t (epath e) -> Forall (after_t t) rest.
Proof.
  intros t e rest C S H. inversion C as [|? ? Ce Cr]; inversion S as [|? ? Sr Se]; subst.
  rewrite Forall_forall in *. intros x Hx. specialize (Se x Hx). destruct (Cr x Hx) as (R1 & R2 & _). destruct Ce as (_ & Re & _).
  destruct H as [H|H]; [eapply lt_trans3 with (b := epath e); eauto|eapply eq_lt3; eauto].
Qed.

Lemma forward_past_spec : forall rest done o n t,
  Forall wf_entry rest -> Forall (comparable t) rest -> esorted rest -> noerr o ->
  (List.length (file rest) < n)%nat -> Forall (upto_t t) done ->
  let es := done ++ rest in
  exists j, forward_past_loop n (file es) (mkf (file rest) o) t = Some (size (firstn j es)) /\
    Forall (upto_t t) (firstn j es) /\ Forall (after_t t) (skipn j es).
Proof.
  induction rest as [|e rest IH]; intros done o n t W C S No Hn D es; (destruct n as [|n]; [lia|]); cbn [forward_past_loop].
  - destruct (read_cut0 0 o) as (sb' & E & _ & Ee). specialize (Ee No). cbn [firstn] in Ee.
    change (file []) with (@nil Z). rewrite Ee. exists (List.length done). unfold es. rewrite app_nil_r, firstn_all, skipn_all.
    split; [|split; auto]. unfold tell. cbn [fbytes List.length]. rewrite Nat.sub_0_r. reflexivity.
  - inversion W as [|? ? We Wr]; inversion C as [|? ? Ce Cr]; inversion S as [|? ? Sr Se]; subst.
    pose proof (blen_pos e) as Bp.
    assert (Es : es = (done ++ [e]) ++ rest) by (unfold es; rewrite <- app_assoc; reflexivity).
    destruct (read_cut1 e (file rest) (List.length (file (e :: rest))) o We) as [[L (o' & N & E)]|[L _]].
    2: { specialize (L No). rewrite file_cons, app_length in L. fold (blen (entry_msgs e)) in L. lia. }
    rewrite file_cons, firstn_all in E. rewrite <- file_cons in E.
    rewrite (firstn_all2 (file rest)) in E by (rewrite file_cons, app_length; fold (blen (entry_msgs e)); lia).
    rewrite E. change (s_path (entry_sbuf e)) with (epath e).
    assert (T1 : forall oo, tell (file es) (mkf (file rest) oo) = size (done ++ [e])).
    { intros oo. unfold tell. cbn [fbytes]. rewrite Es, file_app, app_length. fold (size (done ++ [e])). unfold size, file. lia. }
    assert (T0 : forall oo, tell (file es) (mkf (file (e :: rest)) oo) = size done).
    { intros oo. unfold tell, es. cbn [fbytes]. rewrite file_app, app_length. fold (size done). unfold size, file. lia. }
    destruct (cmp_t t e Ce) as [[X A]|[[X A]|[X A]]]; rewrite X.
    + cbn [Z.eqb]. exists (List.length done). rewrite T0. unfold es. rewrite firstn_app, firstn_all, Nat.sub_diag, skipn_app, skipn_all, Nat.sub_diag.
      cbn [firstn skipn app]. rewrite app_nil_r. split; [reflexivity|]. split; [exact D|]. constructor; [exact A|].
      eapply beyond; [constructor; eauto|exact S|left; exact A].
    + exists (List.length (done ++ [e])). rewrite T1, Es, firstn_app, firstn_all, Nat.sub_diag, skipn_app, skipn_all, Nat.sub_diag.
      cbn [firstn skipn app]. rewrite app_nil_r. split; [reflexivity|]. split.
      * apply Forall_app. split; [exact D|]. constructor; [right; exact A|constructor].
      * eapply beyond; [constructor; eauto|exact S|right; exact A].
    + cbn [Z.eqb].
      destruct (IH (done ++ [e]) o' n t Wr Cr Sr (N No)) as (j & E1 & H1 & H2).
      * rewrite file_cons, app_length in Hn. fold (blen (entry_msgs e)) in Hn. lia.
      * apply Forall_app. split; [exact D|]. constructor; [left; exact A|constructor].
      * exists j. rewrite <- Es in *. auto.
Qed.

Lemma stored_before : forall e, wf_entry e -> stored e ->
  has_buf (s_endfile (entry_sbuf e)) || (has_buf (s_path (entry_sbuf e)) && negb (is_filedata (entry_sbuf e))) = true.
Proof.
  intros [c dp a p fi|c c2 a p t|c a p] W St; cbn [wf_entry stored] in *; [reflexivity| |].
  - destruct W as ([-> | ->] & _); reflexivity.
  - unfold is_filedata. cbn [entry_sbuf s_path s_endfile has_buf ibuf buf nobuf icmd orb andb].
    unfold datacmd in St. cbn [In] in St. unfold cmd_is_filedata.
    repeat (rewrite (proj2 (Z.eqb_neq _ _)) by (intros ->; apply St; tauto)). reflexivity.
Qed.

(* How many of the entries at the front are before the target. *)
Definition front (t : iobuf) (es : list entry) (m g : nat) : Prop :=
  (g <= m)%nat /\ Forall (before_t t) (firstn g es) /\
  (g = m \/ exists e r, skipn g es = e :: r /\ (after_t t e \/ entry_eq t (epath e))).

Lemma forward_before_spec : forall rest done K o n d sb t pos,
  Forall wf_entry rest -> Forall stored rest -> Forall (fun e => seen (edp e)) rest -> okd d ->
  Forall (comparable t) rest ->
  (size done <= K)%nat -> (List.length (firstn (K - size done) (file rest)) < n)%nat ->
  Forall (before_t t) done ->
  let es := done ++ rest in
  let w := firstn K (file es) in
  let f := mkf (firstn (K - size done) (file rest)) o in
  (if has_buf (s_endfile sb) || (has_buf (s_path sb) && negb (is_filedata sb)) then tell w f else pos) = size done ->
  exists m c d' g, reaches K o done rest m /\ (c <= m)%nat /\ counted d (firstn c rest) d' /\
    front t es (List.length done + m) g /\ (g <= List.length done + c)%nat /\
    forward_before_loop n w f d sb t pos = Some (size (firstn g es), d').
Proof.
  induction rest as [|e rest IH]; intros done K o n d sb t pos W St Sn O C HK Hn D es w f Top;
    (destruct n as [|n]; [lia|]); cbn [forward_before_loop]; fold w f; rewrite Top; clear Top.
  - destruct (read_cut0 (K - size done) o) as (sb' & E & Sp & _).
    destruct (higher_ok d sb' O ltac:(rewrite E; exact I)) as (d1 & Hh & O1 & H1).
    exists 0%nat, 0%nat, d1, (List.length done). split; [apply reaches_0; auto|]. split; [lia|]. split.
    { split; auto. eexists. cbn [firstn map app]. split; [|exact H1]. rewrite E. repeat constructor. }
    unfold es. rewrite app_nil_r, firstn_all. split.
    { split; [lia|]. split; [rewrite firstn_all; exact D|left; lia]. }
    split; [lia|].
    change (manio_read f) with (manio_read (mkf (firstn (K - size done) []) o)).
    destruct Sp as [-> | ->]; rewrite Hh; reflexivity.
  - inversion W as [|? ? We Wr]; inversion St as [|? ? Se Sr]; inversion Sn as [|? ? Ne Nr]; inversion C as [|? ? Ce Cr]; subst.
    assert (Fd : firstn (List.length done) es = done).
    { unfold es. rewrite firstn_app, firstn_all, Nat.sub_diag. cbn. apply app_nil_r. }
    assert (Sd : skipn (List.length done) es = e :: rest).
    { unfold es. rewrite skipn_app, skipn_all, Nat.sub_diag. reflexivity. }
    destruct (read_cut1 e (file rest) (K - size done) o We) as [[L (o' & N & E)]|[L (sb' & R & Sp)]].
    + assert (Ef : manio_read f = FillOk (entry_sbuf e) (mkf (firstn (K - size (done ++ [e])) (file rest)) o')).
      { rewrite <- next_cut by lia. rewrite <- E. unfold f. rewrite file_cons. reflexivity. }
      rewrite Ef. destruct (higher_ok d (entry_sbuf e) O Ne) as (d1 & Hh & O1 & H1). rewrite Hh.
      change (s_path (entry_sbuf e)) with (epath e).
      assert (Es : es = (done ++ [e]) ++ rest) by (unfold es; rewrite <- app_assoc; reflexivity).
      assert (Tl : tell w (mkf (firstn (K - size (done ++ [e])) (file rest)) o') = size (done ++ [e])).
      { unfold w. rewrite Es. apply tell_cut. rewrite size1. lia. }
      assert (Reach : exists m0, reaches K o' (done ++ [e]) rest m0).
      { clear -L HK. remember (done ++ [e]) as dn eqn:Ed.
        assert (B : (size dn <= K)%nat) by (subst dn; rewrite size1; lia). clear Ed L HK. revert dn B.
        induction rest as [|x rest IHr]; intros dn B.
        - exists 0%nat. apply reaches_0; auto.
        - destruct (Nat.le_gt_cases (size (dn ++ [x])) K) as [G|G].
          + destruct (IHr (dn ++ [x]) G) as (m0 & H). exists (S m0). eapply reaches_S; eauto.
          + exists 0%nat. apply reaches_0; auto. intros _. right. exists x, rest. split; auto. rewrite size1 in G. lia. }
      destruct (cmp_t t e Ce) as [[X A]|[[X A]|[X A]]]; rewrite X.
      * change (-1 <=? 0) with true. cbv iota. destruct Reach as (m0 & Rm).
        exists (S m0), 1%nat, d1, (List.length done). split; [apply (reaches_S K o o'); auto|]. split; [lia|]. split.
        { split; auto. exists []. split; [constructor|]. cbn [firstn map app]. exact H1. }
        split; [|split; [lia|rewrite Fd; reflexivity]]. split; [lia|]. rewrite Fd. split; [exact D|]. right. eauto.
      * change (0 <=? 0) with true. cbv iota. destruct Reach as (m0 & Rm).
        exists (S m0), 1%nat, d1, (List.length done). split; [apply (reaches_S K o o'); auto|]. split; [lia|]. split.
        { split; auto. exists []. split; [constructor|]. cbn [firstn map app]. exact H1. }
        split; [|split; [lia|rewrite Fd; reflexivity]]. split; [lia|]. rewrite Fd. split; [exact D|]. right. eauto.
      * change (1 <=? 0) with false. cbv iota.
        destruct (IH (done ++ [e]) K o' n d1 (entry_sbuf e) t (size done)) as (m & c & d' & g & R1 & Hc & C1 & G1 & G2 & E1); auto.
        -- rewrite size1. lia.
        -- rewrite size1. pose proof (blen_pos e). revert Hn. rewrite !firstn_length, file_cons, app_length.
           fold (blen (entry_msgs e)). lia.
        -- apply Forall_app. split; [exact D|]. constructor; [exact A|constructor].
        -- rewrite stored_before by auto. rewrite <- Es. exact Tl.
        -- exists (S m), (S c), d', g. split; [apply (reaches_S K o o'); auto|]. split; [lia|]. split.
           { destruct C1 as (C1 & ps & F & Hs). split; auto. exists ps. split; auto. cbn [firstn map app].
             change (edp e :: map edp (firstn c rest) ++ ps) with ([edp e] ++ (map edp (firstn c rest) ++ ps)).
             rewrite hs_app. unfold edp at 1. rewrite H1. exact Hs. }
           rewrite app_length in G1, G2. cbn [List.length] in G1, G2.
           rewrite <- Es in *. replace (List.length done + S m)%nat with (List.length done + 1 + m)%nat by lia.
           split; [exact G1|]. split; [lia|]. exact E1.
    + destruct (higher_ok d sb' O (rest_seen _ _ Ne R)) as (d1 & Hh & O1 & H1).
      exists 0%nat, 0%nat, d1, (List.length done). split.
      { apply reaches_0; auto. intros No. right. eauto. }
      split; [lia|]. split.
      { split; auto. eexists. cbn [firstn map app]. split; [|exact H1]. constructor; [|constructor]. eapply rest_seen; eauto. }
      rewrite Fd. split.
      { split; [lia|]. rewrite Fd. split; [exact D|left; lia]. }
      split; [lia|].
      assert (Ef : manio_read f = manio_read (mkf (firstn (K - size done) (file_of (entry_msgs e) ++ file rest)) o)).
      { unfold f. rewrite file_cons. reflexivity. }
      rewrite Ef. destruct Sp as [-> | ->]; rewrite Hh; reflexivity.
Qed.

(* ---- groups of entries ---- *)

(* The entries for one Windows file: backup data to begin with, trailing backup
   data at the end; a directory has no end of its own but ends the group before. *)
Definition begins (e : entry) : Prop := icmd (epath e) = CMD_VSS \/ icmd (epath e) = CMD_ENC_VSS.
Definition directory (e : entry) : Prop :=
  exists b a, ibuf (s_attr (entry_sbuf e)) = Some b /\ attribs_decode (cview b) no_attrs = Some a /\
    Z.land (st_mode a) 61440 = 16384.
Definition ends (e : entry) : Prop :=
  icmd (epath e) = CMD_VSS_T \/ icmd (epath e) = CMD_ENC_VSS_T \/
  ((icmd (epath e) = CMD_FILE \/ icmd (epath e) = CMD_ENC_FILE) /\ directory e).
Definition open_after (l : list entry) : Prop :=
  exists a s b, l = a ++ s :: b /\ begins s /\ Forall (fun e => ~ ends e) b.
(* g is the most entries of l that do not stop inside a group. *)
Definition whole (l : list entry) (g : nat) : Prop :=
  (g <= List.length l)%nat /\ ~ open_after (firstn g l) /\
  forall i, (g < i <= List.length l)%nat -> open_after (firstn i l).

Definition st (l : list entry) : bool := fold_left (fun v e => vss_next v (entry_sbuf e)) l false.
Lemma is_dir_spec : forall e, is_dir (entry_sbuf e) = true <-> directory e.
Proof.
  intros e. unfold is_dir, directory. destruct (ibuf (s_attr (entry_sbuf e))) as [b|].
  - destruct (attribs_decode (cview b) no_attrs) as [a|] eqn:E.
    + rewrite Z.eqb_eq. split; [eauto|]. intros (b' & a' & E1 & E2 & E3). inversion E1; subst. congruence.
    + split; [discriminate|]. intros (b' & a' & E1 & E2 & E3). inversion E1; subst. congruence.
  - split; [discriminate|]. intros (b' & a' & E1 & _). discriminate.
Qed.
Lemma vss_cases : forall v e, (begins e /\ ~ ends e /\ vss_next v (entry_sbuf e) = true) \/
  (~ begins e /\ ends e /\ vss_next v (entry_sbuf e) = false) \/ (~ begins e /\ ~ ends e /\ vss_next v (entry_sbuf e) = v).
Proof.
  intros v e. unfold vss_next, begins, ends. fold (epath e). remember (icmd (epath e)) as c eqn:Ec. clear Ec.
  unfold CMD_VSS, CMD_ENC_VSS, CMD_VSS_T, CMD_ENC_VSS_T, CMD_FILE, CMD_ENC_FILE. cbv zeta.
  pose proof (is_dir_spec e) as D.
  repeat match goal with |- context [?x =? ?y] => destruct (Z.eqb_spec x y) end; subst; cbn [orb andb];
    try (left; split; [auto|split; [intros [?|[?|[[?|?] _]]]; discriminate|reflexivity]]);
    try (right; left; split; [intros [?|?]; discriminate|split; [auto|reflexivity]]);
    try (destruct (is_dir (entry_sbuf e));
         [right; left; split; [intros [?|?]; discriminate|split; [right; right; split; [auto|tauto]|reflexivity]]
         |right; right; split; [intros [?|?]; discriminate|split; [intros [?|[?|[_ ?]]]; [discriminate|discriminate|apply D in H; discriminate]|reflexivity]]]).
  right; right. split; [tauto|]. split; [tauto|reflexivity].
Qed.
Lemma st_snoc : forall l e, st (l ++ [e]) = vss_next (st l) (entry_sbuf e).
Proof. intros. unfold st. rewrite fold_left_app. reflexivity. Qed.
Lemma open_snoc : forall l e, open_after (l ++ [e]) <-> begins e \/ (open_after l /\ ~ ends e).
Proof.
  intros l e. split.
  - intros (a & s & b & E & B & N). destruct b as [|x b' _] using rev_ind.
    + apply app_inj_tail in E. destruct E as [_ <-]. auto.
    + rewrite app_comm_cons, app_assoc in E. apply app_inj_tail in E. destruct E as [-> <-].
      apply Forall_app in N. destruct N as [N1 N2]. inversion N2; subst. right. split; auto. exists a, s, b'. auto.
  - intros [B|[(a & s & b & -> & B & N) Ne]].
    + exists l, e, []. auto.
    + exists a, s, (b ++ [e]). rewrite <- app_assoc. split; [reflexivity|]. split; auto. apply Forall_app. auto.
Qed.
Lemma st_open : forall l, st l = true <-> open_after l.
Proof.
  apply rev_ind.
  - split; [discriminate|]. intros (a & s & b & E & _). destruct a; discriminate.
  - intros e l IH. rewrite st_snoc, open_snoc, <- IH.
    destruct (vss_cases (st l) e) as [(A & B & ->)|[(A & B & ->)|(A & B & ->)]]; intuition discriminate.
Qed.
Lemma best_whole : forall l done kept, whole done kept ->
  whole (done ++ l) (best (st done) (List.length done) kept l).
Proof.
  induction l as [|e l IH]; intros done kept H; cbn [best]; [rewrite app_nil_r; exact H|].
  rewrite <- st_snoc. replace (done ++ e :: l) with ((done ++ [e]) ++ l) by (rewrite <- app_assoc; reflexivity).
  replace (S (List.length done)) with (List.length (done ++ [e])) by (rewrite app_length; cbn; lia).
  apply IH. destruct H as (H1 & H2 & H3). destruct (st (done ++ [e])) eqn:Es.
  - split; [rewrite app_length; lia|]. rewrite firstn_app. replace (kept - List.length done)%nat with 0%nat by lia.
    cbn [firstn]. rewrite app_nil_r. split; [exact H2|]. intros i Hi. rewrite app_length in Hi. cbn [List.length] in Hi.
    destruct (Nat.eq_dec i (List.length done + 1)) as [->|Ni].
    + rewrite firstn_all2 by (rewrite app_length; cbn; lia). apply st_open. auto.
    + rewrite firstn_app. replace (i - List.length done)%nat with 0%nat by lia. cbn [firstn]. rewrite app_nil_r. apply H3. lia.
  - split; [lia|]. rewrite firstn_all. split; [|lia]. rewrite <- st_open. congruence.
Qed.
Lemma best_spec : forall l, whole l (best false 0 0 l).
Proof.
  intros l. apply (best_whole l [] 0%nat). split; [cbn; lia|]. split; [|cbn; lia].
  rewrite <- st_open. discriminate.
Qed.

(* ---- resuming ---- *)

Lemma size_length : forall es, (List.length es <= size es)%nat.
Proof. induction es as [|e es IH]; [cbn; lia|]. rewrite size_cons. pose proof (blen_pos e). cbn [List.length]. lia. Qed.
Lemma read_phase1_ok : forall es o, Forall wf_entry es -> noerr o -> read_phase1 (file es) o = true.
Proof.
  intros es o W No. unfold read_phase1. unfold file.
  pose proof (stream_ok es W) as Ok.
  destruct (framing_roundtrip (stream es) o (S (List.length (stream es))) Ok ltac:(lia)) as (w & E & R & _).
  rewrite write_all_ok in E by auto. inversion E; subst w. specialize (R No). fold (file_of (stream es)) in R.
  apply read_all_delivers in R; [|discriminate].
  rewrite <- (firstn_all (stream es)) in R.
  apply (read_entries_prefix _ _ es _ (List.length (stream es)) _ (S (List.length (file_of (stream es)))) (4 + List.length (file_of (stream es)))) in R; auto; try discriminate; try lia.
  - destruct R as (i & R & _). unfold file in R. rewrite firstn_all in R. rewrite R. reflexivity.
  - pose proof (size_length es). unfold size in H. lia.
Qed.
Lemma size_firstn : forall K o es m g, reaches K o [] es m -> (g <= m)%nat -> (size (firstn g es) <= K)%nat.
Proof.
  intros K o es m g (_ & H & _) L. cbn [app] in H.
  replace (firstn m es) with (firstn g es ++ skipn g (firstn m es)) in H.
  - rewrite size_app in H. lia.
  - rewrite <- (firstn_skipn g (firstn m es)) at 2. rewrite firstn_firstn. f_equal. f_equal. lia.
Qed.
Lemma cut_ok : forall K es g, (size (firstn g es) <= K)%nat -> cut (firstn K (file es)) (size (firstn g es)) = file (firstn g es).
Proof.
  intros K es g H. unfold cut. rewrite firstn_firstn, Nat.min_l by lia.
  rewrite <- (firstn_skipn g es) at 2. rewrite file_app. unfold size at 1. fold (file (firstn g es)).
  rewrite firstn_app, Nat.sub_diag, firstn_all. cbn. apply app_nil_r.
Qed.
Lemma last_good_entry_spec : forall C K o d, Forall wf_entry C -> Forall stored C -> Forall (fun e => seen (edp e)) C -> okd d ->
  exists m g d', reaches K o [] C m /\ counted d (firstn m C) d' /\ whole (firstn m C) g /\
    get_last_good_entry (firstn K (file C)) o d = Some (last_path (firstn g C), size (firstn g C), d').
Proof.
  intros C K o d W St Sn O. unfold get_last_good_entry.
  destruct (last_good_spec C [] K o (S (List.length (firstn K (file C)))) d sbuf_alloc false iobuf_empty iobuf_empty 0 0) as (m & d' & R & Cn & G & E); auto.
  - cbn; lia.
  - cbn [size stream flat_map file_of map concat List.length]. rewrite Nat.sub_0_r. lia.
  - cbn. eauto.
  - cbn [app size stream flat_map file_of map concat List.length] in E. rewrite Nat.sub_0_r in E.
    exists m, (best false 0 0 (firstn m C)), d'. split; [exact R|]. split; [exact Cn|]. split; [apply best_spec|exact E].
Qed.
Lemma last_path_buf : forall C g, Forall wf_entry C -> (0 < g <= List.length C)%nat -> has_buf (last_path (firstn g C)) = true /\
  exists c, In c C /\ last_path (firstn g C) = epath c.
Proof.
  intros C g W H. assert (L : List.length (firstn g C) = g) by (apply firstn_length_le; lia).
  destruct (firstn g C) as [|x l] eqn:E using rev_ind; [cbn in L; lia|]. clear IHl. rewrite last_path_snoc.
  assert (I : In x C) by (rewrite <- (firstn_skipn g C), E; apply in_or_app; left; apply in_or_app; right; left; reflexivity).
  split; [|eauto]. destruct x; reflexivity.
Qed.
Lemma whole_le : forall l g, whole l g -> (g <= List.length l)%nat. Proof. intros l g H. apply H. Qed.

(* What a resumed backup starts from.  mc and mu: how many entries of changed
   and unchanged were read; g, h: how many are kept; j, jc: how many of the scan
   and of the previous manifest are passed over. *)
Record plan (P : list entry) (cur : option (list entry)) (C U : list entry) (mc mu : nat) (z : resumed) (g h j jc : nat) : Prop := {
  pl_g : whole (firstn mc C) g;
  pl_ch : z_ch z = file (firstn g C);
  pl_un : z_un z = file (firstn h U);
  pl_p1 : z_p1 z = size (firstn j P);
  pl_none : g = 0%nat -> h = 0%nat /\ j = 0%nat /\ z_cur z = None;
  pl_some : forall t, (0 < g)%nat -> t = last_path (firstn g C) ->
    Forall (upto_t t) (firstn j P) /\ Forall (after_t t) (skipn j P) /\ front t U mu h /\
    match cur with
    | None => z_cur z = None
    | Some l => z_cur z = Some (size (firstn jc l)) /\ Forall (upto_t t) (firstn jc l) /\ Forall (after_t t) (skipn jc l)
    end }.

Theorem resume_plan : forall P cur C U kc ku k d o1,
  k_p1 k = file P -> k_cur k = option_map file cur -> k_ch k = firstn kc (file C) -> k_un k = firstn ku (file U) ->
  let cu := match cur with Some l => l | None => [] end in
  Forall wf_entry (P ++ cu ++ C ++ U) -> Forall stored (C ++ U) -> Forall (fun e => seen (edp e)) (C ++ U) ->
  esorted P -> esorted cu -> (forall c e, In c C -> In e (P ++ cu ++ U) -> comparable (epath c) e) ->
  noerr (k_p1o k) -> noerr (k_curo k) -> noerr o1 -> okd d ->
  exists mc mu, reaches kc (k_cho k) [] C mc /\ reaches ku (k_uno k) [] U mu /\
  ((do_resume k o1 d = None /\ exists d', okd d' /\ exhausted d') \/
   exists z g h j jc, do_resume k o1 d = Some z /\ plan P cur C U mc mu z g h j jc /\
     okd (z_dp z) /\ trip_lt (trip d) (trip (z_dp z)) /\
     forall e a b c x, In e (firstn mc C ++ firstn h U) -> is_u16 a -> is_u16 b -> is_u16 c ->
       edp e = Some (pathstr (a, b, c, x)) -> trip_lt (a, b, c) (trip (z_dp z))).
Proof.
  intros P cur C U kc ku k d o1 Ep Ec Eh Eu cu W St Sn Sp Sc Cm Np Nc No O.
  apply Forall_app in W. destruct W as [Wp W]. apply Forall_app in W. destruct W as [Wc W]. apply Forall_app in W. destruct W as [Wh Wu].
  apply Forall_app in St. destruct St as [Sth Stu]. apply Forall_app in Sn. destruct Sn as [Snh Snu].
  destruct (last_good_entry_spec C kc (k_cho k) d Wh Sth Snh O) as (mc & g & d1 & Rc & C1 & Gw & E1).
  assert (Hg : (g <= mc)%nat) by (apply whole_le in Gw; rewrite firstn_length in Gw; lia).
  assert (Hmc : (mc <= List.length C)%nat) by apply Rc.
  destruct C1 as (O1 & ps1 & F1 & H1).
  assert (Fm : forall m, Forall seen (map edp (firstn m C))).
  { intros m. apply Forall_map. rewrite Forall_forall in *. intros x Hx. apply Snh. rewrite <- (firstn_skipn m C). apply in_or_app. auto. }
  unfold do_resume, do_resume_work. rewrite Ep, read_phase1_ok by auto. rewrite Eh, E1, cut_ok by (eapply size_firstn; eauto).
  destruct (Nat.eq_dec g 0) as [G0|G0].
  - subst g. cbn [firstn]. change (has_buf (last_path [])) with false. cbv iota. cbn [z_dp].
    assert (RU : exists mu, reaches ku (k_uno k) [] U mu).
    { destruct (last_good_entry_spec U ku (k_uno k) d Wu Stu Snu O) as (mu & _ & _ & Ru & _). eauto. }
    destruct RU as (mu & Ru). exists mc, mu. split; [exact Rc|]. split; [exact Ru|].
    destruct (dpth_incr_spec d1 O1) as [(d2 & E2 & O2 & _ & L2 & _)|[E2 X]]; rewrite E2.
    + right. eexists _, 0%nat, 0%nat, 0%nat, 0%nat. split; [reflexivity|].
      assert (RF : resume_paths d (map edp (firstn mc C) ++ ps1) = Some d2) by (rewrite hs_resume, H1, E2; reflexivity).
      destruct (resume_fresh _ _ _ O (proj2 (Forall_app _ _ _) (conj (Fm mc) F1)) RF) as (_ & T1 & T2).
      cbn [z_dp z_ch z_un z_p1 z_cur]. split; [|split; [exact O2|]; split; [exact T1|]].
      * constructor; cbn [z_dp z_ch z_un z_p1 z_cur firstn]; auto; try (intros; lia).
      * intros e a b c x He Ha Hb Hc Hx. eapply T2; eauto. apply in_or_app. left. rewrite <- Hx. apply in_map.
        cbn [firstn] in He. rewrite app_nil_r in He. exact He.
    + left. split; [reflexivity|]. eauto.
  - destruct (last_path_buf C g Wh ltac:(lia)) as (Hb & c0 & Ic0 & El). rewrite Hb. set (t := last_path (firstn g C)) in *.
    assert (Ct : forall e, In e (P ++ cu ++ U) -> comparable t e) by (intros e He; rewrite El; apply Cm; auto).
    unfold forward_past_entry.
    destruct (forward_past_spec P [] (k_p1o k) (S (List.length (file P))) t Wp) as (j & Ej & J1 & J2); auto.
    { rewrite Forall_forall. intros e He. apply Ct. apply in_or_app. auto. }
    cbn [app] in Ej, J1, J2. rewrite Ej.
    assert (Cur : exists jc zc, (match k_cur k with None => Some None | Some w => option_map Some (forward_past_loop (S (List.length w)) w (mkf w (k_curo k)) t) end) = Some zc /\
               match cur with None => zc = None | Some l => zc = Some (size (firstn jc l)) /\ Forall (upto_t t) (firstn jc l) /\ Forall (after_t t) (skipn jc l) end).
    { rewrite Ec. destruct cur as [l|]; cbn [option_map]; [|exists 0%nat, None; auto].
      destruct (forward_past_spec l [] (k_curo k) (S (List.length (file l))) t Wc) as (jc & Ejc & J3 & J4); auto.
      { rewrite Forall_forall. intros e He. apply Ct. apply in_or_app. right. apply in_or_app. left. exact He. }
      cbn [app] in Ejc, J3, J4. exists jc, (Some (size (firstn jc l))). rewrite Ejc. cbn [option_map]. auto. }
    destruct Cur as (jc & zc & Ezc & Hzc). rewrite Ezc.
    unfold forward_before_entry. rewrite Eu.
    destruct (forward_before_spec U [] ku (k_uno k) (S (List.length (firstn ku (file U)))) d1 sbuf_alloc t 0) as (mu & c & d' & h & Ru & Hc & C2 & Fr & Hh & E2); auto.
    { rewrite Forall_forall. intros e He. apply Ct. apply in_or_app. right. apply in_or_app. right. exact He. }
    { cbn; lia. }
    { cbn [size stream flat_map file_of map concat List.length]. rewrite Nat.sub_0_r. lia. }
    cbn [app size stream flat_map file_of map concat List.length plus] in E2, Fr, Hh. rewrite Nat.sub_0_r in E2. rewrite E2.
    exists mc, mu. split; [exact Rc|]. split; [exact Ru|].
    destruct C2 as (O2 & ps2 & F2 & H2). cbn [z_dp z_p1 z_cur z_ch z_un].
    assert (Hhm : (h <= mu)%nat) by (apply Fr).
    rewrite cut_ok by (eapply size_firstn; eauto).
    destruct (dpth_incr_spec d' O2) as [(d2 & E3 & O3 & _ & L3 & _)|[E3 X]]; rewrite E3; [|left; split; [reflexivity|eauto]].
    right. eexists _, g, h, j, jc. split; [reflexivity|]. cbn [z_dp z_p1 z_cur z_ch z_un].
    assert (RF : resume_paths d ((map edp (firstn mc C) ++ ps1) ++ (map edp (firstn c U) ++ ps2)) = Some d2).
    { rewrite hs_resume, hs_app, H1, H2, E3. reflexivity. }
    assert (Fu : Forall seen (map edp (firstn c U))).
    { apply Forall_map. rewrite Forall_forall in *. intros x Hx. apply Snu. rewrite <- (firstn_skipn c U). apply in_or_app. auto. }
    assert (FA : Forall seen ((map edp (firstn mc C) ++ ps1) ++ (map edp (firstn c U) ++ ps2))).
    { apply Forall_app. split; apply Forall_app; split; auto. }
    destruct (resume_fresh _ _ _ O FA RF) as (_ & T1 & T2).
    split; [|split; [exact O3|]; split; [exact T1|]].
    + constructor; cbn [z_dp z_p1 z_cur z_ch z_un]; auto; [intros; lia|]. intros t' _ ->. fold t.
      split; [exact J1|]. split; [exact J2|]. split; [exact Fr|exact Hzc].
    + intros e a b c1 x He Ha Hb1 Hc1 Hx. eapply T2; eauto. rewrite <- Hx. apply in_app_or in He.
      apply in_or_app. destruct He as [He|He]; [left|right]; apply in_or_app; left; apply in_map; auto.
      replace (firstn h U) with (firstn h (firstn c U)) in He by (rewrite firstn_firstn; f_equal; lia).
      rewrite <- (firstn_skipn h (firstn c U)). apply in_or_app. auto.
Qed.
