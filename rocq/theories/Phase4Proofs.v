(* Crash safety of the finalisation of a backup (C25). *)
From Verif Require Import Bytes Phase4Model.

(* ---------- statements over the states passed through ---------- *)

Definition safe (I : fs -> Prop) (r : run) (s : fs) (Q : fs -> Prop) : Prop :=
  Forall I (fst (r s)) /\ snd (r s) = true /\ Q (endst (fst (r s)) s).

Lemma last_step {A} (l : list A) a d : last (a :: l) d = last l a.
Proof.
  revert a d; induction l as [|b l IH]; intros a d; [reflexivity|].
  change (last (a :: b :: l) d) with (last (b :: l) d). rewrite !IH. reflexivity.
Qed.

Lemma endst_app l1 l2 s : endst (l1 ++ l2) s = endst l2 (endst l1 s).
Proof.
  unfold endst. revert s; induction l1 as [|a l IH]; intros s; [reflexivity|].
  cbn [app]. rewrite !last_step. apply IH.
Qed.

Lemma endst_in l s : endst l s = s /\ l = [] \/ In (endst l s) l.
Proof.
  unfold endst. induction l as [|a l IH]; [left; split; reflexivity|right].
  destruct l as [|b l']; [left; reflexivity|].
  destruct IH as [[_ H]|H]; [discriminate|]. right. exact H.
Qed.

Lemma endst_inv (I : fs -> Prop) l s : I s -> Forall I l -> I (endst l s).
Proof.
  intros Hs Hl. destruct (endst_in l s) as [[E _]|H]; [rewrite E; exact Hs|].
  rewrite Forall_forall in Hl. apply Hl, H.
Qed.

Lemma safe_andthen I f g s Q : safe I f s (fun s' => safe I g s' Q) -> safe I (andthen f g) s Q.
Proof.
  unfold safe, andthen. destruct (f s) as [l o]; cbn [fst snd]. intros (H1 & -> & H2).
  destruct (g (endst l s)) as [l2 o2]; cbn [fst snd] in *. destruct H2 as (H2 & -> & H3).
  split; [apply Forall_app; split; assumption|]. split; [reflexivity|]. rewrite endst_app. exact H3.
Qed.

Lemma safe_always I f g s Q : safe I f s (fun s' => safe I g s' Q) -> safe I (always f g) s Q.
Proof.
  unfold safe, always. destruct (f s) as [l o]; cbn [fst snd]. intros (H1 & -> & H2).
  destruct (g (endst l s)) as [l2 o2]; cbn [fst snd] in *. destruct H2 as (H2 & _ & H3).
  split; [apply Forall_app; split; assumption|]. split; [reflexivity|]. rewrite endst_app. exact H3.
Qed.

Lemma safe_look I k s Q : safe I (k s) s Q -> safe I (look k) s Q.
Proof. exact (fun H => H). Qed.

Lemma safe_ok I s (Q : fs -> Prop) : Q s -> safe I ok s Q.
Proof. intros H; split; [constructor|]. split; [reflexivity|exact H]. Qed.

Lemma safe_weaken (I J : fs -> Prop) r s (Q R : fs -> Prop) :
  (forall s', I s' -> J s') -> (forall s', Q s' -> R s') -> safe I r s Q -> safe J r s R.
Proof.
  intros HI HQ (H1 & H2 & H3). split; [eapply Forall_impl; [|exact H1]; exact HI|].
  split; [exact H2|apply HQ, H3].
Qed.

(* ---------- names and inodes ---------- *)

Lemma name_eqb_eq a b : name_eqb a b = true <-> a = b.
Proof. unfold name_eqb. destruct (name_dec a b); split; congruence. Qed.

Lemma name_eqb_refl a : name_eqb a a = true.
Proof. apply name_eqb_eq; reflexivity. Qed.

Lemma name_eqb_neq a b : a <> b -> name_eqb a b = false.
Proof. intros H. destruct (name_eqb a b) eqn:E; [apply name_eqb_eq in E; contradiction|reflexivity]. Qed.

(* The contents of all names outside P are the same. *)
Definition only (P : name -> Prop) (s s' : fs) : Prop :=
  forall n, ~ P n -> content s' n = content s n.

Lemma only_refl P s : only P s s.
Proof. intros n _; reflexivity. Qed.

Lemma only_trans P s1 s2 s3 : only P s1 s2 -> only P s2 s3 -> only P s1 s3.
Proof. intros H1 H2 n Hn. rewrite (H2 n Hn). apply H1, Hn. Qed.

Lemma only_weaken (P Q : name -> Prop) s s' : (forall n, P n -> Q n) -> only P s s' -> only Q s s'.
Proof. intros H H1 n Hn. apply H1. intros Hp; apply Hn, H, Hp. Qed.

Section Private.
(* W: the names whose files are written to. *)
Variable W : name -> Prop.

Definition priv (s : fs) : Prop :=
  (forall n i, dir s n = Some i -> (i < next s)%nat) /\
  (forall n m i, W n -> dir s n = Some i -> dir s m = Some i -> m = n).

Lemma present_content s n : present s n = match content s n with Some _ => true | None => false end.
Proof. unfold present, content. destruct (dir s n); reflexivity. Qed.

Lemma content_set_name n v s m :
  content (set_name n v s) m = if name_eqb m n then option_map (data s) v else content s m.
Proof. unfold content, set_name; cbn. destruct (name_eqb m n); reflexivity. Qed.

(* unlink *)
Lemma safe_unlink (I : fs -> Prop) n s (Q : fs -> Prop) :
  priv s -> I s ->
  (forall s', priv s' -> only (eq n) s s' -> content s' n = None -> dels s' = dels s -> I s' /\ Q s') ->
  safe I (unlink n) s Q.
Proof.
  intros [Hb Hp] Hs H. unfold safe, unlink.
  destruct (dir s n) eqn:E; cbn [fst snd].
  - assert (X : I (set_name n None s) /\ Q (set_name n None s)).
    { apply H.
      - split.
        + intros m i Hm. cbn in Hm. destruct (name_eqb m n); [discriminate|]. apply (Hb m i Hm).
        + intros m k i Hw Hm Hk. cbn in Hm, Hk.
          destruct (name_eqb m n); [discriminate|]. destruct (name_eqb k n); [discriminate|].
          apply (Hp m k i Hw Hm Hk).
      - intros m Hm. rewrite content_set_name, name_eqb_neq; [reflexivity|congruence].
      - rewrite content_set_name, name_eqb_refl. reflexivity.
      - reflexivity. }
    split; [constructor; [apply X|constructor]|]. split; [reflexivity|apply X].
  - split; [constructor|]. split; [reflexivity|]. cbn. apply H.
    + split; assumption.
    + apply only_refl.
    + unfold content. rewrite E. reflexivity.
    + reflexivity.
Qed.

(* rename to a name not written to *)
Lemma safe_rename (I : fs -> Prop) a b s c (Q : fs -> Prop) :
  priv s -> content s a = Some c -> ~ W b -> a <> b ->
  (forall s', priv s' -> only (fun n => n = a \/ n = b) s s' -> content s' a = None ->
              content s' b = Some c -> dels s' = dels s -> I s' /\ Q s') ->
  safe I (rename a b) s Q.
Proof.
  intros [Hb Hp] Hc Hw Hab H. unfold safe, rename.
  unfold content in Hc. destruct (dir s a) as [i|] eqn:E; [|discriminate]. cbn [fst snd].
  injection Hc as Hc.
  assert (X : I (set_name a None (set_name b (Some i) s)) /\ Q (set_name a None (set_name b (Some i) s))).
  { apply H.
    - split.
      + intros m j Hm. cbn in Hm. destruct (name_eqb m a); [discriminate|].
        destruct (name_eqb m b); [injection Hm as <-; apply (Hb a _ E)|apply (Hb m _ Hm)].
      + intros m k j Hwm Hm Hk. cbn in Hm, Hk.
        destruct (name_eqb m a) eqn:Ema; [discriminate|]. destruct (name_eqb k a) eqn:Eka; [discriminate|].
        destruct (name_eqb m b) eqn:Emb.
        { apply name_eqb_eq in Emb. subst m. contradiction. }
        destruct (name_eqb k b) eqn:Ekb; [|apply (Hp m k j Hwm Hm Hk)].
        injection Hk as <-. pose proof (Hp m a i Hwm Hm E) as Ea. subst m.
        rewrite name_eqb_refl in Ema. discriminate.
    - intros m Hm. rewrite !content_set_name.
      rewrite (name_eqb_neq m a) by tauto. rewrite (name_eqb_neq m b) by tauto. reflexivity.
    - rewrite content_set_name, name_eqb_refl. reflexivity.
    - rewrite !content_set_name, name_eqb_refl, name_eqb_neq by congruence.
      cbn. rewrite Hc. reflexivity.
    - reflexivity. }
  split; [constructor; [apply X|constructor]|]. split; [reflexivity|apply X].
Qed.

(* writing to a private name *)
Lemma safe_write (I : fs -> Prop) n c s (Q : fs -> Prop) :
  priv s -> W n ->
  (forall s' k, priv s' -> only (eq n) s s' -> content s' n = Some (firstn k c) -> dels s' = dels s -> I s') ->
  (forall s', priv s' -> only (eq n) s s' -> content s' n = Some c -> dels s' = dels s -> Q s') ->
  safe I (write n c) s Q.
Proof.
  intros [Hb Hp] Hw HI HQ. unfold safe, write.
  destruct (creat n s) as [s1 i] eqn:Ec.
  assert (X : forall p, priv (set_data i p s1) /\ only (eq n) s (set_data i p s1)
            /\ content (set_data i p s1) n = Some p /\ dels (set_data i p s1) = dels s).
  { intros p. unfold creat in Ec. destruct (dir s n) as [j|] eqn:E; injection Ec as <- <-.
    - split; [split|split; [|split]].
      + intros m k Hm; cbn in *. apply (Hb m k Hm).
      + intros m k l Hwm Hm Hk; cbn in *. apply (Hp m k l Hwm Hm Hk).
      + intros m Hm. unfold content; cbn. destruct (dir s m) as [k|] eqn:Em; [|reflexivity]. cbn.
        destruct (Nat.eqb_spec k j) as [->|Hkj]; [|reflexivity].
        pose proof (Hp n m j Hw E Em). congruence.
      + unfold content; cbn. rewrite E. cbn. rewrite Nat.eqb_refl. reflexivity.
      + reflexivity.
    - split; [split|split; [|split]].
      + intros m k Hm; cbn in *. destruct (name_eqb m n); [injection Hm as <-; lia|].
        specialize (Hb m k Hm). lia.
      + intros m k l Hwm Hm Hk; cbn in *.
        destruct (name_eqb m n) eqn:Emn, (name_eqb k n) eqn:Ekn.
        * apply name_eqb_eq in Emn, Ekn. congruence.
        * injection Hm as <-. specialize (Hb k _ Hk). lia.
        * injection Hk as <-. specialize (Hb m _ Hm). lia.
        * apply (Hp m k l Hwm Hm Hk).
      + intros m Hm. unfold content; cbn. rewrite name_eqb_neq by congruence.
        destruct (dir s m) as [k|] eqn:Em; [|reflexivity]. cbn.
        destruct (Nat.eqb_spec k (next s)) as [->|Hkj]; [|reflexivity].
        specialize (Hb m _ Em). lia.
      + unfold content; cbn. rewrite name_eqb_refl. cbn. rewrite Nat.eqb_refl. reflexivity.
      + reflexivity. }
  cbn [fst snd]. split; [|split; [reflexivity|]].
  - unfold fill. rewrite Forall_map. apply Forall_forall. intros k _.
    destruct (X (firstn k c)) as (X1 & X2 & X3 & X4). exact (HI _ k X1 X2 X3 X4).
  - unfold fill, endst. rewrite seq_S, map_app. cbn [map]. rewrite last_last.
    rewrite Nat.add_0_l, firstn_all.
    destruct (X c) as (X1 & X2 & X3 & X4). exact (HQ _ X1 X2 X3 X4).
Qed.

(* linking a name not written to to another *)
Lemma priv_set_link s b i :
  priv s -> (exists a, ~ W a /\ dir s a = Some i) -> ~ W b -> priv (set_name b (Some i) s).
Proof.
  intros [Hb Hp] (a & Ha & E) Hw. split.
  - intros m j Hm; cbn in Hm. destruct (name_eqb m b); [injection Hm as <-; apply (Hb a _ E)|apply (Hb m j Hm)].
  - intros m k j Hwm Hm Hk; cbn in *.
    destruct (name_eqb m b) eqn:Emb; [apply name_eqb_eq in Emb; subst m; contradiction|].
    destruct (name_eqb k b); [|apply (Hp m k j Hwm Hm Hk)].
    injection Hk as <-. pose proof (Hp m a i Hwm Hm E). congruence.
Qed.

Lemma safe_link (I : fs -> Prop) many a b ow s c (Q : fs -> Prop) :
  (forall i, many i = false) ->
  priv s -> I s -> content s a = Some c -> ~ W a -> ~ W b -> a <> b ->
  (ow = true \/ content s b = None) ->
  (forall s', priv s' -> only (eq b) s s' -> content s' b = None -> dels s' = dels s -> I s') ->
  (forall s', priv s' -> only (eq b) s s' -> content s' b = Some c -> dels s' = dels s -> I s' /\ Q s') ->
  safe I (do_link many a b ow) s Q.
Proof.
  intros Hmany HP Hs Hc Ha Hb Hab How H1 H2. unfold safe, do_link.
  unfold content in Hc. destruct (dir s a) as [i|] eqn:E; [|discriminate].
  injection Hc as Hc. rewrite Hmany.
  assert (L : forall t, priv t -> only (eq b) s t -> dels t = dels s -> dir t a = Some i -> data t = data s ->
              I (set_name b (Some i) t) /\ Q (set_name b (Some i) t)).
  { intros t Ht1 Ht2 Ht3 Ht4 Ht5. apply H2.
    - apply priv_set_link; [exact Ht1|exists a; split; assumption|exact Hb].
    - intros m Hm. rewrite content_set_name, name_eqb_neq by congruence. apply Ht2. congruence.
    - rewrite content_set_name, name_eqb_refl. cbn. rewrite Ht5, Hc. reflexivity.
    - exact Ht3. }
  destruct (dir s b) as [j|] eqn:Eb.
  - assert (Eow : ow = true).
    { destruct How as [H|H]; [exact H|]. unfold content in H. rewrite Eb in H. discriminate. }
    rewrite Eow. unfold andthen, unlink. rewrite Eb. cbn [fst snd endst last app].
    assert (U : safe I (unlink b) s (fun _ => True)).
    { apply safe_unlink; [exact HP|exact Hs|]. intros s' A1 A2 A3 A4. split; [apply (H1 s' A1 A2 A3 A4)|exact Logic.I]. }
    unfold safe, unlink in U. rewrite Eb in U. cbn [fst snd] in U. destruct U as (U1 & _ & _).
    inversion U1 as [|x l U2 _]; subst.
    assert (P0 : priv (set_name b None s)).
    { destruct HP as [P1 P2]. split.
      - intros m k Hm; cbn in Hm. destruct (name_eqb m b); [discriminate|apply (P1 m k Hm)].
      - intros m k l Hwm Hm Hk; cbn in *. destruct (name_eqb m b); [discriminate|].
        destruct (name_eqb k b); [discriminate|apply (P2 m k l Hwm Hm Hk)]. }
    destruct (L (set_name b None s)) as [L1 L2].
    + exact P0.
    + intros m Hm. rewrite content_set_name, name_eqb_neq by congruence. reflexivity.
    + reflexivity.
    + cbn. rewrite name_eqb_neq by congruence. exact E.
    + reflexivity.
    + split; [constructor; [exact U2|constructor; [exact L1|constructor]]|]. split; [reflexivity|exact L2].
  - destruct (L s HP (only_refl _ s) eq_refl E eq_refl) as [L1 L2].
    split; [constructor; [exact L1|constructor]|]. split; [reflexivity|exact L2].
Qed.
End Private.

(* ---------- what a manifest entry is made from ---------- *)

(* KDelta: a changed file, with its old and new contents and the forward delta;
   KBad: the same, but the delta cannot be applied; KNew: a file received whole,
   as stored, and what the previous backup has under the same storage path;
   KSame: an unchanged file, as stored; KRelink: a file that used to be a hard
   link of one that is gone, as stored. *)
Inductive kind :=
| KDelta (old new dl : bytes) | KBad (old dl : bytes) | KNew (c : bytes) (o : option bytes)
| KSame (c : bytes) | KRelink (c : bytes).

Definition entry := (bytes * bool * kind)%type.

Section Spec.
Variables (gz : bytes -> bytes) (gunzip : bytes -> option bytes).
Variables (sigof : bytes -> bytes) (mkdelta : bytes -> bytes -> bytes) (patch : bytes -> bytes -> option bytes).
Variable hl : bool.

Notation enc := (Phase4Model.enc gz).
Notation dec := (Phase4Model.dec gunzip).

(* The laws of zlib and librsync used. *)
Definition codec_laws : Prop :=
  (forall c, gunzip (gz c) = Some c) /\ gunzip [] = Some [] /\
  (forall new old, patch new (mkdelta (sigof new) old) = Some old).

(* The file with contents p can be read from the name. *)
Definition reads (comp : bool) (s : fs) (n : name) (p : bytes) : Prop :=
  exists c, content s n = Some c /\ dec comp c = Some p.

(* The previous backup still has its version of the file: a restore takes the
   whole file if there is one, else it works back from the next backup
   (/repo/src/server/restore_sbuf.c). *)
Definition holds_old (e : entry) (s : fs) : Prop :=
  let '(d, comp, k) := e in
  match k with
  | KDelta old _ _ =>
      reads comp s (NOld d) old \/
      (hl = false /\ content s (NOld d) = None /\
       exists n r, reads comp s (NFin d) n /\ content s (NRev d) = Some r /\ patch n r = Some old)
  | KBad old _ => reads comp s (NOld d) old
  | KNew _ o => content s (NOld d) = o
  | KSame c => content s (NOld d) = Some c \/
      (hl = false /\ content s (NOld d) = None /\ content s (NRev d) = None /\ content s (NFin d) = Some c)
  | KRelink _ => True
  end.

(* The new backup has its version, or the file has been noted as one to leave out. *)
Definition holds_new (e : entry) (s : fs) : Prop :=
  let '(d, comp, k) := e in
  match k with
  | KDelta _ new _ => reads comp s (NFin d) new
  | KBad _ _ => In d (dels s)
  | KNew c _ | KSame c | KRelink c => content s (NFin d) = Some c
  end.

(* As the transfer leaves it: /repo/src/server/backup_phase2.c. *)
Definition waiting (e : entry) (s : fs) : Prop :=
  let '(d, comp, k) := e in
  content s (NFin d) = None /\
  match k with
  | KDelta old _ dl | KBad old dl => content s (NOld d) = Some (enc comp old) /\ content s (NFwd d) = Some dl
  | KNew c o => content s (NNew d) = Some c /\ content s (NFwd d) = None /\ content s (NOld d) = o
  | KSame c => content s (NOld d) = Some c /\ content s (NNew d) = None /\ content s (NFwd d) = None
               /\ content s (NRev d) = None
  | KRelink c => content s (NRelink d) = Some c /\ content s (NOld d) = None
                 /\ content s (NNew d) = None /\ content s (NFwd d) = None
  end.

(* cm: whether the files sent as deltas are stored compressed. *)
Definition entry_ok (cm : bool) (e : entry) : Prop :=
  let '(_, comp, k) := e in
  match k with
  | KDelta old new dl => comp = cm /\ patch old dl = Some new
  | KBad old dl => comp = cm /\ patch old dl = None
  | _ => True
  end.

(* Once done with (internal). *)
Definition settled (e : entry) (s : fs) : Prop :=
  let '(d, comp, k) := e in
  match k with
  | KDelta old new _ =>
      content s (NFin d) = Some (enc comp new) /\
      (content s (NOld d) = Some (enc comp old)
       \/ (hl = false /\ content s (NOld d) = None /\ content s (NRev d) = Some (mkdelta (sigof new) old)))
  | KBad _ _ => waiting e s /\ In d (dels s)
  | KNew c o => content s (NFin d) = Some c /\ content s (NOld d) = o
  | KSame c => content s (NFin d) = Some c /\
      content s (NRev d) = None /\
      (content s (NOld d) = Some c \/ (hl = false /\ content s (NOld d) = None))
  | KRelink c => content s (NFin d) = Some c
  end.

Definition written (cm : bool) (n : name) : Prop :=
  match n with NNew _ | NRev _ | NSig => True | NInf => cm = true | _ => False end.

Definition mine (d : bytes) (n : name) : Prop :=
  match n with
  | NOld x | NNew x | NFin x | NFwd x | NRev x | NRelink x => x = d
  | NElse _ => False
  | NInf | NSig => True
  end.

Definition st (e : entry) (s : fs) : Prop := waiting e s \/ settled e s.

Definition noted (e : entry) (s s' : fs) : Prop :=
  dels s' = dels s \/ (exists d comp old dl, e = (d, comp, KBad old dl) /\ dels s' = dels s ++ [d]).

Hypothesis laws : codec_laws.
Variable many : nat -> bool.
Hypothesis few : forall i, many i = false.
Variable cm : bool.

Notation P := (priv (written cm)).

Lemma dec_enc comp c : dec comp (enc comp c) = Some c.
Proof. destruct laws as (L & _ & _). destruct comp; cbn; [apply L|reflexivity]. Qed.

Lemma safe_inflate (I : fs -> Prop) d comp old s (Q : fs -> Prop) :
  P s -> I s -> comp = cm -> content s (NOld d) = Some (enc comp old) ->
  (forall s', P s' -> only (eq NInf) s s' -> dels s' = dels s -> I s') ->
  (forall s', P s' -> only (eq NInf) s s' -> dels s' = dels s -> content s' NInf = Some old -> Q s') ->
  safe I (inflate_or_link gunzip many d comp) s Q.
Proof.
  intros HP Hs Hcm Ho H1 H2. unfold inflate_or_link. apply safe_look. rewrite Ho.
  destruct laws as (L1 & L2 & _). destruct comp; cbn [Phase4Model.enc].
  - specialize (L1 old). destruct (gz old) as [|b g] eqn:Eg.
    + rewrite L2 in L1. injection L1 as <-.
      apply (safe_write (written cm)); [exact HP|symmetry; exact Hcm| |]; intros; auto.
    + rewrite L1. apply (safe_write (written cm)); [exact HP|symmetry; exact Hcm| |]; intros; auto.
  - cbn in Ho. apply (safe_link (written cm)) with (c := old); auto.
    + cbn. congruence.
    + discriminate.
Qed.

Lemma safe_rev (I : fs -> Prop) d comp old new s (Q : fs -> Prop) :
  P s -> I s -> content s (NOld d) = Some (enc comp old) -> content s (NNew d) = Some (enc comp new) ->
  (forall s', P s' -> only (fun n => n = NSig \/ n = NRev d) s s' -> dels s' = dels s -> I s') ->
  (forall s', P s' -> only (fun n => n = NSig \/ n = NRev d) s s' -> dels s' = dels s ->
              content s' (NRev d) = Some (mkdelta (sigof new) old) -> Q s') ->
  safe I (gen_rev_delta gunzip sigof mkdelta d comp) s Q.
Proof.
  intros HP Hs Ho Hn H1 H2. unfold gen_rev_delta. apply safe_look. rewrite Hn, dec_enc.
  assert (Wk : forall t t', only (eq NSig) t t' -> only (fun n => n = NSig \/ n = NRev d) t t').
  { intros t t'. apply only_weaken. intros n <-; left; reflexivity. }
  assert (Wr : forall t t', only (eq (NRev d)) t t' -> only (fun n => n = NSig \/ n = NRev d) t t').
  { intros t t'. apply only_weaken. intros n <-; right; reflexivity. }
  apply safe_andthen, (safe_write (written cm)); [exact HP|exact Logic.I| |].
  { intros s' k A1 A2 A3 A4. apply H1; auto. }
  intros s1 A1 A2 A3 A4. apply safe_look. rewrite A3.
  rewrite (A2 (NOld d)) by discriminate. rewrite Ho, dec_enc.
  apply safe_andthen, (safe_write (written cm)); [exact A1|exact Logic.I| |].
  { intros s' k B1 B2 B3 B4. apply H1; [exact B1|eapply only_trans; eauto|congruence]. }
  intros s2 B1 B2 B3 B4. apply (safe_unlink (written cm)); [exact B1| |].
  { apply H1; [exact B1|eapply only_trans; eauto|congruence]. }
  intros s3 C1 C2 C3 C4.
  assert (F : only (fun n => n = NSig \/ n = NRev d) s s3) by (eapply only_trans; [eauto|eapply only_trans; eauto]).
  assert (G : dels s3 = dels s) by congruence.
  split; [apply H1; assumption|]. apply H2; try assumption.
  rewrite (C2 (NRev d)) by discriminate. exact B3.
Qed.


Lemma safe_forward d comp old new dl s :
  P s -> comp = cm -> patch old dl = Some new -> waiting (d, comp, KDelta old new dl) s ->
  safe (fun s' => P s' /\ only (mine d) s s' /\ st (d, comp, KDelta old new dl) s' /\ dels s' = dels s)
       (forward_patch gz gunzip sigof mkdelta patch many hl d comp) s
       (fun s' => settled (d, comp, KDelta old new dl) s').
Proof.
  intros HP Hcm Hpat (Hf & Ho & Hw).
  assert (KW : forall s', only (fun n => n <> NOld d /\ n <> NFwd d /\ n <> NFin d /\ mine d n) s s' -> P s' -> dels s' = dels s ->
     P s' /\ only (mine d) s s' /\ st (d, comp, KDelta old new dl) s' /\ dels s' = dels s).
  { intros s' HO HP' HD. split; [exact HP'|]. split; [|split; [|exact HD]].
    - eapply only_weaken; [|exact HO]. intros n Hn; apply Hn.
    - left. cbn. rewrite !HO by (intros (A & B & C & _); congruence). auto. }
  unfold forward_patch. apply safe_always, safe_andthen.
  apply safe_inflate with (old := old); try assumption.
  { apply KW; [apply only_refl|exact HP|reflexivity]. }
  { intros s' A1 A2 A3. apply KW; [|exact A1|exact A3].
    eapply only_weaken; [|exact A2]. intros n <-. repeat split; discriminate. }
  intros s1 A1 A2 A3 A4. apply safe_look. rewrite A4.
  rewrite (A2 (NFwd d)) by discriminate. rewrite Hw, Hpat.
  assert (O1 : only (fun n => n <> NOld d /\ n <> NFwd d /\ n <> NFin d /\ mine d n) s s1).
  { eapply only_weaken; [|exact A2]. intros n <-. repeat split; discriminate. }
  apply safe_andthen, (safe_write (written cm)); [exact A1|exact Logic.I| |].
  { intros s' k B1 B2 B3 B4. apply KW; [|exact B1|congruence].
    eapply only_trans; [exact O1|]. eapply only_weaken; [|exact B2]. intros n <-. repeat split; discriminate. }
  intros s2 B1 B2 B3 B4.
  assert (O2 : only (fun n => n <> NOld d /\ n <> NFwd d /\ n <> NFin d /\ mine d n) s s2).
  { eapply only_trans; [exact O1|]. eapply only_weaken; [|exact B2]. intros n <-. repeat split; discriminate. }
  assert (D2 : dels s2 = dels s) by congruence.
  assert (Rest : forall s3, P s3 -> only (fun n => n <> NOld d /\ n <> NFwd d /\ n <> NFin d /\ mine d n) s s3 ->
     dels s3 = dels s -> content s3 (NNew d) = Some (enc comp new) ->
     (hl = true \/ content s3 (NRev d) = Some (mkdelta (sigof new) old)) ->
     safe (fun s' => P s' /\ only (mine d) s s' /\ st (d, comp, KDelta old new dl) s' /\ dels s' = dels s)
       (andthen (rename (NNew d) (NFin d)) (andthen (unlink (NFwd d)) (if hl then ok else unlink (NOld d)))) s3
       (fun s' => safe (fun s' => P s' /\ only (mine d) s s' /\ st (d, comp, KDelta old new dl) s' /\ dels s' = dels s)
          (unlink NInf) s' (fun s' => settled (d, comp, KDelta old new dl) s'))).
  { intros s3 C1 C2 C3 C4 C5.
    assert (KS : forall s', P s' -> only (mine d) s s' -> dels s' = dels s ->
      content s' (NFin d) = Some (enc comp new) ->
      (content s' (NOld d) = Some (enc comp old) \/ (hl = false /\ content s' (NOld d) = None /\ content s' (NRev d) = Some (mkdelta (sigof new) old))) ->
      (P s' /\ only (mine d) s s' /\ st (d, comp, KDelta old new dl) s' /\ dels s' = dels s)
      /\ settled (d, comp, KDelta old new dl) s').
    { intros s' E1 E2 E3 E4 E5.
      assert (X : settled (d, comp, KDelta old new dl) s') by (split; assumption).
      split; [split; [exact E1|split; [exact E2|split; [right; exact X|exact E3]]]|exact X]. }
    assert (M3 : only (mine d) s s3) by (eapply only_weaken; [|exact C2]; intros n Hn; apply Hn).
    assert (HO3 : content s3 (NOld d) = Some (enc comp old)).
    { rewrite (C2 (NOld d)) by (intros (A & _); congruence). exact Ho. }
    apply safe_andthen, (safe_rename (written cm)) with (c := enc comp new); [exact C1|exact C4|intros []|discriminate|].
    intros s4 E1 E2 E3 E4 E5.
    assert (M4 : only (mine d) s s4).
    { eapply only_trans; [exact M3|]. eapply only_weaken; [|exact E2]. intros n [->| ->]; reflexivity. }
    assert (HO4 : content s4 (NOld d) = Some (enc comp old)).
    { rewrite (E2 (NOld d)) by (intros [?|?]; discriminate). exact HO3. }
    assert (HR4 : hl = true \/ content s4 (NRev d) = Some (mkdelta (sigof new) old)).
    { rewrite (E2 (NRev d)) by (intros [?|?]; discriminate). exact C5. }
    assert (D4 : dels s4 = dels s) by congruence.
    split; [apply KS; auto|].
    apply safe_andthen, (safe_unlink (written cm)); [exact E1|apply KS; auto|].
    intros s5 F1 F2 F3 F4.
    assert (M5 : only (mine d) s s5).
    { eapply only_trans; [exact M4|]. eapply only_weaken; [|exact F2]. intros n <-; reflexivity. }
    assert (HF5 : content s5 (NFin d) = Some (enc comp new)) by (rewrite (F2 (NFin d)) by discriminate; exact E4).
    assert (HO5 : content s5 (NOld d) = Some (enc comp old)) by (rewrite (F2 (NOld d)) by discriminate; exact HO4).
    assert (HR5 : hl = true \/ content s5 (NRev d) = Some (mkdelta (sigof new) old)).
    { rewrite (F2 (NRev d)) by discriminate. exact HR4. }
    assert (D5 : dels s5 = dels s) by congruence.
    split; [apply KS; auto|].
    assert (Fin : forall s6, P s6 -> only (mine d) s s6 -> dels s6 = dels s -> content s6 (NFin d) = Some (enc comp new) ->
      (content s6 (NOld d) = Some (enc comp old) \/ (hl = false /\ content s6 (NOld d) = None /\ content s6 (NRev d) = Some (mkdelta (sigof new) old))) ->
      safe (fun s' => P s' /\ only (mine d) s s' /\ st (d, comp, KDelta old new dl) s' /\ dels s' = dels s)
          (unlink NInf) s6 (fun s' => settled (d, comp, KDelta old new dl) s')).
    { intros s6 G1 G2 G3 G4 G5. apply (safe_unlink (written cm)); [exact G1|apply KS; auto|].
      intros s7 H1 H2 H3 H4. apply KS; [exact H1| |congruence| |].
      - eapply only_trans; [exact G2|]. eapply only_weaken; [|exact H2]. intros n <-; exact Logic.I.
      - rewrite (H2 (NFin d)) by discriminate. exact G4.
      - rewrite (H2 (NOld d)), (H2 (NRev d)) by discriminate. exact G5. }
    destruct hl eqn:Eh.
    - apply safe_ok. apply Fin; auto.
    - destruct HR5 as [HR5|HR5]; [discriminate|].
      apply (safe_unlink (written cm)); [exact F1|apply KS; auto|].
      intros s6 G1 G2 G3 G4.
      assert (M6 : only (mine d) s s6).
      { eapply only_trans; [exact M5|]. eapply only_weaken; [|exact G2]. intros n <-; reflexivity. }
      assert (HF6 : content s6 (NFin d) = Some (enc comp new)) by (rewrite (G2 (NFin d)) by discriminate; exact HF5).
      assert (HR6 : content s6 (NRev d) = Some (mkdelta (sigof new) old)) by (rewrite (G2 (NRev d)) by discriminate; exact HR5).
      assert (D6 : dels s6 = dels s) by congruence.
      split; [apply KS; auto|]. apply Fin; auto. }
  apply safe_andthen. destruct hl eqn:Eh.
  - apply safe_ok. apply Rest; auto.
  - apply safe_rev with (old := old) (new := new); [exact B1|apply KW; assumption| |exact B3| |].
    + rewrite (O2 (NOld d)) by (intros (A & _); congruence). exact Ho.
    + intros s' C1 C2 C3. apply KW; [|exact C1|congruence].
      eapply only_trans; [exact O2|]. eapply only_weaken; [|exact C2].
      intros n [->| ->]; repeat split; discriminate.
    + intros s3 C1 C2 C3 C4. apply Rest; [exact C1| |congruence| |right; exact C4].
      * eapply only_trans; [exact O2|]. eapply only_weaken; [|exact C2].
        intros n [->| ->]; repeat split; discriminate.
      * rewrite (C2 (NNew d)) by (intros [?|?]; discriminate). exact B3.
Qed.

Lemma safe_bad d comp old dl s :
  P s -> comp = cm -> patch old dl = None -> waiting (d, comp, KBad old dl) s ->
  safe (fun s' => P s' /\ only (mine d) s s' /\ st (d, comp, KBad old dl) s' /\ noted (d, comp, KBad old dl) s s')
       (forward_patch gz gunzip sigof mkdelta patch many hl d comp) s
       (fun s' => settled (d, comp, KBad old dl) s').
Proof.
  intros HP Hcm Hpat (Hf & Ho & Hw).
  assert (KW : forall s', P s' -> only (fun n => n = NInf \/ n = NNew d) s s' ->
     (dels s' = dels s \/ dels s' = dels s ++ [d]) ->
     P s' /\ only (mine d) s s' /\ st (d, comp, KBad old dl) s' /\ noted (d, comp, KBad old dl) s s').
  { intros s' HP' HO HD. split; [exact HP'|]. split; [|split].
    - eapply only_weaken; [|exact HO]. intros n [->| ->]; [exact Logic.I|reflexivity].
    - left. cbn. rewrite !HO by (intros [?|?]; discriminate). auto.
    - destruct HD as [HD|HD]; [left; exact HD|right; exists d, comp, old, dl; split; [reflexivity|exact HD]]. }
  assert (OI : forall t t', only (eq NInf) t t' -> only (fun n => n = NInf \/ n = NNew d) t t').
  { intros t t'. apply only_weaken. intros n <-; left; reflexivity. }
  assert (ON : forall t t', only (eq (NNew d)) t t' -> only (fun n => n = NInf \/ n = NNew d) t t').
  { intros t t'. apply only_weaken. intros n <-; right; reflexivity. }
  unfold forward_patch. apply safe_always, safe_andthen.
  apply safe_inflate with (old := old); try assumption.
  { apply KW; [exact HP|apply only_refl|left; reflexivity]. }
  { intros s' A1 A2 A3. apply KW; auto. }
  intros s1 A1 A2 A3 A4. apply safe_look. rewrite A4.
  rewrite (A2 (NFwd d)) by discriminate. rewrite Hw, Hpat.
  apply safe_andthen, (safe_write (written cm)); [exact A1|exact Logic.I| |].
  { intros s' k B1 B2 B3 B4. apply KW; [exact B1| |left; congruence]. eapply only_trans; eauto. }
  intros s2 B1 B2 B3 B4.
  assert (O2 : only (fun n => n = NInf \/ n = NNew d) s s2) by (eapply only_trans; eauto).
  apply safe_andthen, (safe_unlink (written cm)); [exact B1|apply KW; [exact B1|exact O2|left; congruence]|].
  intros s3 C1 C2 C3 C4.
  assert (O3 : only (fun n => n = NInf \/ n = NNew d) s s3) by (eapply only_trans; eauto).
  assert (D3 : dels s3 = dels s) by congruence.
  split; [apply KW; auto|].
  set (s4 := mkfs (dir s3) (data s3) (next s3) (dels s3 ++ [d])).
  assert (P4 : P s4) by (destruct C1 as [X Y]; split; [exact X|exact Y]).
  assert (O4 : only (fun n => n = NInf \/ n = NNew d) s s4) by exact O3.
  assert (D4 : dels s4 = dels s ++ [d]) by (cbn; rewrite D3; reflexivity).
  unfold note_deletion, safe; fold s4; cbn [fst snd].
  split; [constructor; [apply KW; auto|constructor]|]. split; [reflexivity|].
  change (safe (fun s' => P s' /\ only (mine d) s s' /\ st (d, comp, KBad old dl) s' /\ noted (d, comp, KBad old dl) s s')
            (unlink NInf) s4 (fun s' => settled (d, comp, KBad old dl) s')).
  apply (safe_unlink (written cm)); [exact P4|apply KW; auto|].
  intros s5 E1 E2 E3 E4.
  assert (O5 : only (fun n => n = NInf \/ n = NNew d) s s5) by (eapply only_trans; eauto).
  split; [apply KW; [exact E1|exact O5|right; congruence]|].
  split.
  - cbn. rewrite !O5 by (intros [?|?]; discriminate). auto.
  - rewrite E4, D4. apply in_or_app; right; left; reflexivity.
Qed.

Definition jig := jiggle gz gunzip sigof mkdelta patch many hl.

Lemma safe_jiggle e s :
  P s -> entry_ok cm e -> st e s ->
  safe (fun s' => P s' /\ only (mine (fst (fst e))) s s' /\ st e s' /\ noted e s s')
       (jig (fst e)) s (settled e).
Proof.
  intros HP Hok Hst. destruct e as [[d comp] k]. cbn [fst].
  unfold jig, jiggle. apply safe_look.
  (* the file is already there *)
  assert (Skip : present s (NFin d) = true -> settled (d, comp, k) s -> (forall old dl, k <> KBad old dl) ->
     safe (fun s' => P s' /\ only (mine d) s s' /\ st (d, comp, k) s' /\ noted (d, comp, k) s s')
       (unlink (NFwd d)) s (settled (d, comp, k))).
  { intros _ Hset Hk. apply (safe_unlink (written cm)); [exact HP| |].
    - split; [exact HP|split; [apply only_refl|split; [right; exact Hset|left; reflexivity]]].
    - intros s' A1 A2 A3 A4.
      assert (X : settled (d, comp, k) s').
      { destruct k as [old new dl|old dl|c o|c|c]; cbn in *;
          rewrite ?(A2 (NFin d)), ?(A2 (NOld d)), ?(A2 (NRev d)) by discriminate; try exact Hset.
        exfalso. apply (Hk old dl eq_refl). }
      split; [|exact X]. split; [exact A1|]. split; [|split; [right; exact X|left; exact A4]].
      eapply only_weaken; [|exact A2]. intros n <-; reflexivity. }
  destruct k as [old new dl|old dl|c o|c|c].
  - destruct Hok as [Hcm Hpat]. destruct Hst as [Hwt|Hset].
    + rewrite !present_content. destruct Hwt as (Hf & Ho & Hw). rewrite Hf, Hw.
      eapply safe_weaken; [| |apply (safe_forward d comp old new dl s HP Hcm Hpat)].
      * intros s' (A & B & C & D). split; [exact A|split; [exact B|split; [exact C|left; exact D]]].
      * intros s' A; exact A.
      * split; [exact Hf|split; [exact Ho|exact Hw]].
    + assert (E : present s (NFin d) = true) by (rewrite present_content; destruct Hset as [-> _]; reflexivity).
      rewrite E. apply Skip; [exact E|exact Hset|discriminate].
  - destruct Hok as [Hcm Hpat].
    assert (Hwt : waiting (d, comp, KBad old dl) s) by (destruct Hst as [H|[H _]]; exact H).
    rewrite !present_content. pose proof Hwt as (Hf & Ho & Hw). rewrite Hf, Hw.
    apply (safe_bad d comp old dl s HP Hcm Hpat Hwt).
  - destruct Hst as [(Hf & Hn & Hw & Ho)|Hset].
    + rewrite !present_content, Hf, Hw, Hn.
      apply (safe_rename (written cm)) with (c := c); [exact HP|exact Hn|intros []|discriminate|].
      intros s' A1 A2 A3 A4 A5.
      assert (X : settled (d, comp, KNew c o) s').
      { split; [exact A4|]. rewrite (A2 (NOld d)) by (intros [?|?]; discriminate). exact Ho. }
      split; [|exact X]. split; [exact A1|]. split; [|split; [right; exact X|left; exact A5]].
      eapply only_weaken; [|exact A2]. intros n [->| ->]; reflexivity.
    + assert (E : present s (NFin d) = true) by (rewrite present_content; destruct Hset as [-> _]; reflexivity).
      rewrite E. apply Skip; [exact E|exact Hset|discriminate].
  - destruct Hst as [(Hf & Ho & Hn & Hw & Hrv)|Hset].
    + rewrite !present_content, Hf, Hw, Hn, Ho.
      assert (K1 : forall s', P s' -> only (eq (NFin d)) s s' -> content s' (NFin d) = None -> dels s' = dels s ->
         P s' /\ only (mine d) s s' /\ st (d, comp, KSame c) s' /\ noted (d, comp, KSame c) s s').
      { intros s' A1 A2 A3 A4. split; [exact A1|]. split; [|split; [left|left; exact A4]].
        - eapply only_weaken; [|exact A2]. intros n <-; reflexivity.
        - cbn. rewrite (A2 (NOld d)), (A2 (NNew d)), (A2 (NFwd d)), (A2 (NRev d)) by discriminate. auto 6. }
      apply safe_andthen, (safe_link (written cm)) with (c := c);
        [exact few|exact HP|apply K1; auto using only_refl|exact Ho|intros []|intros []|discriminate|right; exact Hf|exact K1|].
      intros s1 A1 A2 A3 A4.
      assert (Y1 : content s1 (NOld d) = Some c) by (rewrite (A2 (NOld d)) by discriminate; exact Ho).
      assert (R1 : content s1 (NRev d) = None) by (rewrite (A2 (NRev d)) by discriminate; exact Hrv).
      assert (X1 : settled (d, comp, KSame c) s1) by (split; auto).
      assert (M1 : only (mine d) s s1) by (eapply only_weaken; [|exact A2]; intros n <-; reflexivity).
      assert (I1 : P s1 /\ only (mine d) s s1 /\ st (d, comp, KSame c) s1 /\ noted (d, comp, KSame c) s s1).
      { split; [exact A1|]. split; [exact M1|]. split; [right; exact X1|left; exact A4]. }
      split; [exact I1|]. destruct hl eqn:Eh; [apply safe_ok; exact X1|].
      apply (safe_unlink (written cm)); [exact A1|exact I1|].
      intros s2 B1 B2 B3 B4.
      assert (X2 : settled (d, comp, KSame c) s2).
      { split; [|split; [|right; split; [exact Eh|exact B3]]].
        - rewrite (B2 (NFin d)) by discriminate. exact A3.
        - rewrite (B2 (NRev d)) by discriminate. exact R1. }
      split; [|exact X2]. split; [exact B1|]. split; [|split; [right; exact X2|left; congruence]].
      eapply only_trans; [exact M1|]. eapply only_weaken; [|exact B2]. intros n <-; reflexivity.
    + assert (E : present s (NFin d) = true) by (rewrite present_content; destruct Hset as [-> _]; reflexivity).
      rewrite E. apply Skip; [exact E|exact Hset|discriminate].
  - destruct Hst as [(Hf & Hr & Ho & Hn & Hw)|Hset].
    + rewrite !present_content, Hf, Hw, Hn, Ho, Hr.
      apply (safe_rename (written cm)) with (c := c); [exact HP|exact Hr|intros []|discriminate|].
      intros s' A1 A2 A3 A4 A5.
      split; [|exact A4]. split; [exact A1|]. split; [|split; [right; exact A4|left; exact A5]].
      eapply only_weaken; [|exact A2]. intros n [->| ->]; reflexivity.
    + assert (E : present s (NFin d) = true) by (rewrite present_content; rewrite Hset; reflexivity).
      rewrite E. apply Skip; [exact E|exact Hset|discriminate].
Qed.

(* ---------- all entries ---------- *)

Definition path_of (e : entry) : bytes := fst (fst e).

Definition is_bad (es : list entry) (d : bytes) : Prop :=
  exists comp old dl, In (d, comp, KBad old dl) es.

(* All that is true in every state (internal). *)
Definition fine (es : list entry) (s0 s : fs) : Prop :=
  P s /\ Forall (fun e => st e s) es /\
  (forall n, ~ (exists d, In d (map path_of es) /\ mine d n) -> n <> NInf -> n <> NSig -> content s n = content s0 n) /\
  (forall d, In d (dels s) -> In d (dels s0) \/ is_bad es d) /\
  (forall d, In d (dels s0) -> In d (dels s)).

Lemma waiting_frame e s s' :
  (forall n, mine (path_of e) n -> n <> NInf -> n <> NSig -> content s' n = content s n) ->
  waiting e s -> waiting e s'.
Proof.
  destruct e as [[d comp] k]. unfold path_of; cbn [fst]. intros H.
  assert (X : content s' (NFin d) = content s (NFin d) /\ content s' (NOld d) = content s (NOld d) /\
     content s' (NNew d) = content s (NNew d) /\ content s' (NFwd d) = content s (NFwd d) /\
     content s' (NRelink d) = content s (NRelink d) /\ content s' (NRev d) = content s (NRev d)).
  { repeat split; apply H; (reflexivity || discriminate). }
  destruct X as (E1 & E2 & E3 & E4 & E5 & E6). cbn. rewrite E1. destruct k; rewrite ?E2, ?E3, ?E4, ?E5, ?E6; exact (fun A => A).
Qed.

Lemma settled_frame e s s' :
  (forall n, mine (path_of e) n -> n <> NInf -> n <> NSig -> content s' n = content s n) ->
  (forall d, In d (dels s) -> In d (dels s')) ->
  settled e s -> settled e s'.
Proof.
  intros H HD. pose proof (waiting_frame e s s' H) as HW.
  destruct e as [[d comp] k]. unfold path_of in *; cbn [fst] in *.
  assert (X : content s' (NFin d) = content s (NFin d) /\ content s' (NOld d) = content s (NOld d) /\
     content s' (NRev d) = content s (NRev d)).
  { repeat split; apply H; (reflexivity || discriminate). }
  destruct X as (E1 & E2 & E3). cbn [settled]. destruct k; rewrite ?E1, ?E2, ?E3; try exact (fun A => A).
  intros [A B]. split; [apply HW, A|apply HD, B].
Qed.

Lemma mine_unique d d' n : mine d n -> mine d' n -> n <> NInf -> n <> NSig -> d = d'.
Proof. destruct n; cbn; intros; try contradiction; congruence. Qed.

(* A step on one entry keeps all of it. *)
Lemma fine_step es s0 s s' e :
  NoDup (map path_of es) -> In e es -> fine es s0 s ->
  P s' -> only (mine (path_of e)) s s' -> st e s' -> noted e s s' -> fine es s0 s'.
Proof.
  intros HND He (F1 & F2 & F3 & F4 & F5) A1 A2 A3 A4.
  assert (HD : forall d, In d (dels s) -> In d (dels s')).
  { intros d Hd. destruct A4 as [->|(x & y & z & w & _ & ->)]; [exact Hd|apply in_or_app; left; exact Hd]. }
  split; [exact A1|]. split; [|split; [|split]].
  - rewrite Forall_forall in *. intros e' He'.
    destruct (list_eq_dec Z.eq_dec (path_of e') (path_of e)) as [Ep|Np].
    + assert (e' = e) as ->.
      { clear - HND He He' Ep. induction es as [|x l IH]; [destruct He|].
        inversion HND as [|? ? N1 N2]; subst. destruct He as [->|He], He' as [->|He']; auto.
        - exfalso; apply N1. rewrite <- Ep. apply in_map, He'.
        - exfalso; apply N1. rewrite Ep. apply in_map, He. }
      exact A3.
    + assert (Fr : forall n, mine (path_of e') n -> n <> NInf -> n <> NSig -> content s' n = content s n).
      { intros n Hn Hn1 Hn2. apply A2. intros Hm. apply Np. apply (mine_unique _ _ n Hn Hm Hn1 Hn2). }
      destruct (F2 e' He') as [H|H]; [left; apply (waiting_frame _ s); assumption|right; apply (settled_frame _ s); assumption].
  - intros n Hn Hn1 Hn2. rewrite <- (F3 n Hn Hn1 Hn2). apply A2. intros Hm.
    apply Hn. exists (path_of e). split; [apply in_map, He|exact Hm].
  - intros d Hd. destruct A4 as [E|(d' & comp & old & dl & E & E2)].
    + apply F4. rewrite <- E. exact Hd.
    + rewrite E2 in Hd. apply in_app_or in Hd. destruct Hd as [Hd|[<-|[]]]; [apply F4, Hd|].
      right. exists comp, old, dl. rewrite <- E. exact He.
  - intros d Hd. apply HD, F5, Hd.
Qed.

Lemma safe_all es s0 : NoDup (map path_of es) -> Forall (entry_ok cm) es ->
  forall r don s, es = don ++ r -> fine es s0 s -> Forall (fun e => settled e s) don ->
  safe (fine es s0) (jiggle_all gz gunzip sigof mkdelta patch many hl (map fst r)) s
       (fun s' => Forall (fun e => settled e s') es).
Proof.
  intros HND Hok r. induction r as [|e r IH]; intros don s Hes Hf Hd; cbn [map jiggle_all].
  - apply safe_ok. rewrite Hes, app_nil_r. exact Hd.
  - assert (He : In e es) by (rewrite Hes; apply in_or_app; right; left; reflexivity).
    pose proof Hf as (F1 & F2 & F3 & F4 & F5).
    pose proof (safe_jiggle e s F1) as SJ.
    rewrite Forall_forall in Hok, F2. specialize (SJ (Hok e He) (F2 e He)).
    apply safe_andthen.
    destruct SJ as (S1 & S2 & S3). unfold jig in *. split; [|split; [exact S2|]].
    + eapply Forall_impl; [|exact S1]. intros s' (A & B & C & D). apply (fine_step es s0 s s' e HND He Hf A B C D).
    + set (s1 := endst _ s) in *.
      assert (J1 : P s1 /\ only (mine (path_of e)) s s1 /\ st e s1 /\ noted e s s1).
      { unfold s1. apply endst_inv; [|exact S1]. split; [exact F1|].
        split; [apply only_refl|]. split; [apply F2, He|left; reflexivity]. }
      destruct J1 as (A & B & C & D).
      apply (IH (don ++ [e])).
      * rewrite Hes, <- app_assoc. reflexivity.
      * apply (fine_step es s0 s s1 e HND He Hf A B C D).
      * apply Forall_app; split; [|constructor; [exact S3|constructor]].
        rewrite Forall_forall in *. intros e' He'. apply (settled_frame _ s); [| |apply Hd, He'].
        -- intros n Hn Hn1 Hn2. apply B. intros Hm.
           pose proof (mine_unique _ _ n Hn Hm Hn1 Hn2) as Ep.
           rewrite Hes, map_app in HND. cbn [map] in HND.
           apply NoDup_remove_2 in HND. apply HND. apply in_or_app; left.
           rewrite <- Ep. apply in_map, He'.
        -- intros d Hdd. destruct D as [->|(x & y & z & w & _ & ->)]; [exact Hdd|apply in_or_app; left; exact Hdd].
Qed.
End Spec.

(* ---------- stops and restarts ---------- *)

Section Top.
Variables (gz : bytes -> bytes) (gunzip : bytes -> option bytes).
Variables (sigof : bytes -> bytes) (mkdelta : bytes -> bytes -> bytes) (patch : bytes -> bytes -> option bytes).
Variable hl : bool.

(* Each entry is as the transfer leaves it, under its own storage path, no
   written file has a second name, and nothing is noted for leaving out. *)
Definition delta_ok (e : entry) : Prop :=
  match snd e with
  | KDelta old new dl => patch old dl = Some new
  | KBad old dl => patch old dl = None
  | _ => True
  end.

Definition starts (es : list entry) (s : fs) : Prop :=
  NoDup (map path_of es) /\ Forall delta_ok es /\ Forall (fun e => waiting gz e s) es /\
  priv (written true) s /\ dels s = [].

(* The files sent as deltas are all stored compressed, or all not. *)
Definition one_mode (cm : bool) (es : list entry) : Prop :=
  Forall (fun e => match snd e with KDelta _ _ _ | KBad _ _ => snd (fst e) = cm | _ => True end) es.

(* One run over all entries, the function saying for which files another link is
   refused. *)
Definition finalise (many : nat -> bool) (es : list entry) : run :=
  jiggle_all gz gunzip sigof mkdelta patch many hl (map fst es).

(* The states that any number of runs, each stopped at any point, can leave. *)
Inductive reach (allowed : (nat -> bool) -> Prop) (es : list entry) (s0 : fs) : fs -> Prop :=
| reach_start : reach allowed es s0 s0
| reach_stop many s s' : reach allowed es s0 s -> allowed many -> In s' (fst (finalise many es s)) ->
    reach allowed es s0 s'.

Definition no_limit (many : nat -> bool) : Prop := forall i, many i = false.

(* A name that is neither one of an entry nor a scratch name: all that other
   backups have. *)
Definition outside (es : list entry) (n : name) : Prop :=
  match n with
  | NOld d | NNew d | NFin d | NFwd d | NRev d | NRelink d => ~ In d (map path_of es)
  | NElse _ => True
  | NInf | NSig => False
  end.

Lemma outside_frame es n : outside es n -> ~ (exists d, In d (map path_of es) /\ mine d n) /\ n <> NInf /\ n <> NSig.
Proof.
  intros H. split; [|split].
  - intros (d & H1 & H2). destruct n; cbn in *; try contradiction; subst; contradiction.
  - intros ->; exact H.
  - intros ->; exact H.
Qed.

Lemma priv_less s cm : priv (written true) s -> priv (written cm) s.
Proof.
  intros [A B]. split; [exact A|]. intros n m i Hw. apply B. destruct n; cbn in *; auto.
Qed.

Lemma starts_fine es s cm : starts es s -> fine gz sigof mkdelta hl cm es s s.
Proof.
  intros (H1 & H2 & H3 & H4 & H5). split; [apply priv_less, H4|]. split; [|split; [|split]].
  - eapply Forall_impl; [|exact H3]. intros e He; left; exact He.
  - reflexivity.
  - intros d Hd; left; exact Hd.
  - auto.
Qed.

Lemma starts_ok es s cm : starts es s -> one_mode cm es -> Forall (entry_ok patch cm) es.
Proof.
  intros (_ & H2 & _) Hm. unfold one_mode in Hm. rewrite Forall_forall in *. intros [[d comp] k] He.
  specialize (H2 _ He). specialize (Hm _ He). unfold delta_ok in H2. cbn in *.
  destruct k; auto.
Qed.

Hypothesis laws : codec_laws gz gunzip sigof mkdelta patch.

Lemma reach_fine es s0 cm s : starts es s0 -> one_mode cm es -> reach no_limit es s0 s ->
  fine gz sigof mkdelta hl cm es s0 s.
Proof.
  intros Hs Hm Hr. induction Hr as [|many s s' Hr IH Ha Hin]; [apply starts_fine, Hs|].
  pose proof (safe_all gz gunzip sigof mkdelta patch hl laws many Ha cm es s0
    (proj1 Hs) (starts_ok es s0 cm Hs Hm) es [] s eq_refl IH (Forall_nil _)) as (S & _ & _).
  rewrite Forall_forall in S. apply S, Hin.
Qed.

Lemma st_holds_old e s : st gz sigof mkdelta hl e s -> holds_old gunzip patch hl e s.
Proof.
  pose proof (dec_enc gz gunzip sigof mkdelta patch laws) as DE.
  destruct laws as (_ & _ & L3).
  destruct e as [[d comp] k]. intros [(Hf & H)|H]; destruct k as [old new dl|old dl|c o|c|c]; cbn in *.
  - left. exists (enc gz comp old). split; [apply H|apply DE].
  - exists (enc gz comp old). split; [apply H|apply DE].
  - apply H.
  - left; apply H.
  - exact I.
  - destruct H as (H1 & [H2|(H2 & H2' & H3)]).
    + left. exists (enc gz comp old). split; [exact H2|apply DE].
    + right. split; [exact H2|]. split; [exact H2'|]. exists new, (mkdelta (sigof new) old). split; [|split; [exact H3|apply L3]].
      exists (enc gz comp new). split; [exact H1|apply DE].
  - destruct H as [(Hf & H & _) _]. exists (enc gz comp old). split; [exact H|apply DE].
  - apply H.
  - destruct H as [H1 [H0 [H2|[H2 H3]]]]; [left; exact H2|right; split; [exact H2|split; [exact H3|split; [exact H0|exact H1]]]].
  - exact I.
Qed.

Lemma settled_holds_new e s : settled gz sigof mkdelta hl e s -> holds_new gunzip e s.
Proof.
  pose proof (dec_enc gz gunzip sigof mkdelta patch laws) as DE.
  destruct e as [[d comp] k]. destruct k as [old new dl|old dl|c o|c|c]; cbn; intros H.
  - exists (enc gz comp new). split; [apply H|apply DE].
  - apply H.
  - apply H.
  - apply H.
  - apply H.
Qed.

(* Whatever has happened, the previous backup is whole. *)
Lemma previous_safe es s0 cm s : starts es s0 -> one_mode cm es -> reach no_limit es s0 s ->
  Forall (fun e => holds_old gunzip patch hl e s) es /\
  (forall n, outside es n -> content s n = content s0 n).
Proof.
  intros Hs Hm Hr. destruct (reach_fine es s0 cm s Hs Hm Hr) as (F1 & F2 & F3 & _). split.
  - eapply Forall_impl; [|exact F2]. intros e He; apply st_holds_old, He.
  - intros n Hn. apply outside_frame in Hn. apply F3; apply Hn.
Qed.

(* And running it to the end completes the new one. *)
Lemma completes es s0 cm s many : starts es s0 -> one_mode cm es -> reach no_limit es s0 s -> no_limit many ->
  let '(l, o) := finalise many es s in
  o = true /\
  Forall (fun e => holds_new gunzip e (endst l s)) es /\
  Forall (fun e => holds_old gunzip patch hl e (endst l s)) es /\
  (forall n, outside es n -> content (endst l s) n = content s0 n) /\
  (forall d, In d (dels (endst l s)) <-> is_bad es d).
Proof.
  intros Hs Hm Hr Ha.
  pose proof (reach_fine es s0 cm s Hs Hm Hr) as Hf.
  pose proof (safe_all gz gunzip sigof mkdelta patch hl laws many Ha cm es s0
    (proj1 Hs) (starts_ok es s0 cm Hs Hm) es [] s eq_refl Hf (Forall_nil _)) as (S1 & S2 & S3).
  unfold finalise. destruct (jiggle_all gz gunzip sigof mkdelta patch many hl (map fst es) s) as [l o].
  cbn [fst snd] in *.
  pose proof (endst_inv _ l s Hf S1) as (F1 & F2 & F3 & F4 & F5).
  split; [exact S2|]. split; [|split; [|split; [|split]]].
  - eapply Forall_impl; [|exact S3]. intros e He; apply settled_holds_new, He.
  - eapply Forall_impl; [|exact F2]. intros e He; apply st_holds_old, He.
  - intros n Hn. apply outside_frame in Hn. apply F3; apply Hn.
  - intros Hd. destruct (F4 d Hd) as [H|H]; [|exact H].
    destruct Hs as (_ & _ & _ & _ & E). rewrite E in H. destruct H.
  - intros (comp & old & dl & Hin). rewrite Forall_forall in S3. apply (S3 _ Hin).
Qed.
End Top.

(* ---------- concrete codecs, to show the laws can be met ---------- *)

Definition gz0 (c : bytes) : bytes := 31 :: c.
Definition gunzip0 (c : bytes) : option bytes :=
  match c with [] => Some [] | b :: r => if b =? 31 then Some r else Some c end.
Definition sig0 (c : bytes) : bytes := [1; 2].
Definition mkdelta0 (sg o : bytes) : bytes := 54 :: o.
Definition patch0 (b dl : bytes) : option bytes :=
  match dl with [] => None | x :: r => if x =? 54 then Some r else None end.

Lemma laws0 : codec_laws gz0 gunzip0 sig0 mkdelta0 patch0.
Proof. split; [reflexivity|]. split; reflexivity. Qed.

(* A file system from a list of names and inodes, and of contents. *)
Definition lookup_name (l : list (name * nat)) (n : name) : option nat :=
  match find (fun p => name_eqb (fst p) n) l with Some p => Some (snd p) | None => None end.
Definition fs_of (l : list (name * nat)) (cs : list bytes) : fs :=
  mkfs (lookup_name l) (fun i => nth i cs []) (List.length cs) [].

Lemma lookup_name_in l n i : lookup_name l n = Some i -> In (n, i) l.
Proof.
  unfold lookup_name. destruct (find _ l) as [[m j]|] eqn:E; [|discriminate]. cbn.
  intros H; injection H as <-. apply find_some in E. cbn in E. destruct E as [E1 E2].
  apply name_eqb_eq in E2. subst m. exact E1.
Qed.

Definition writtenb (n : name) : bool :=
  match n with NNew _ | NRev _ | NSig | NInf => true | _ => false end.
Definition privb (l : list (name * nat)) (cs : list bytes) : bool :=
  forallb (fun p => (snd p <? List.length cs)%nat) l &&
  forallb (fun p => if writtenb (fst p)
                    then forallb (fun q => if (snd q =? snd p)%nat then name_eqb (fst q) (fst p) else true) l
                    else true) l.

Lemma privb_priv l cs : privb l cs = true -> priv (written true) (fs_of l cs).
Proof.
  intros H. apply andb_true_iff in H. destruct H as [H1 H2]. rewrite forallb_forall in H1, H2. split.
  - intros n i Hi. apply lookup_name_in in Hi. specialize (H1 _ Hi). cbn in *. apply Nat.ltb_lt in H1. exact H1.
  - intros n m i Hw Hn Hm. apply lookup_name_in in Hn, Hm. specialize (H2 _ Hn). cbn in H2.
    assert (E : writtenb n = true) by (destruct n; cbn in *; try reflexivity; contradiction).
    rewrite E in H2. rewrite forallb_forall in H2. specialize (H2 _ Hm). cbn in H2.
    rewrite Nat.eqb_refl in H2. apply name_eqb_eq in H2. exact H2.
Qed.

(* ---------- where it goes wrong ---------- *)

Notation fin0 := (finalise gz0 gunzip0 sig0 mkdelta0 patch0).
Notation reach0 := (reach gz0 gunzip0 sig0 mkdelta0 patch0).

(* The k-th state of a run. *)
Definition stop_at (hl : bool) (many : nat -> bool) (es : list entry) (k : nat) (s : fs) : fs :=
  nth k (fst (fin0 hl many es s)) s.
Definition fin_end (hl : bool) (many : nat -> bool) (es : list entry) (s : fs) : fs :=
  endst (fst (fin0 hl many es s)) s.

Lemma reach_nth hl allowed es s0 s many k :
  reach0 hl allowed es s0 s -> allowed many -> (k <? List.length (fst (fin0 hl many es s)))%nat = true ->
  reach0 hl allowed es s0 (stop_at hl many es k s).
Proof.
  intros H1 H2 H3. apply (reach_stop _ _ _ _ _ _ _ _ _ many s); [exact H1|exact H2|].
  apply nth_In. apply Nat.ltb_lt, H3.
Qed.

Definition never (_ : nat) : bool := false.
Definition full (_ : nat) : bool := true.
Definition anything (_ : nat -> bool) : Prop := True.

(* An unchanged file, no more links allowed, stopped while it is being copied. *)
Definition es_same : list entry := [([97], false, KSame [1; 2; 3])].
Definition fs_same : fs := fs_of [(NOld [97], 0%nat); (NElse [97], 0%nat)] [[1; 2; 3]].

(* A changed file stored as it is. *)
Definition es_one : list entry := [([97], false, KDelta [1; 2; 3] [7; 8] [54; 7; 8])].
Definition fs_one : fs :=
  fs_of [(NOld [97], 0%nat); (NElse [97], 0%nat); (NFwd [97], 1%nat)] [[1; 2; 3]; [54; 7; 8]].

(* A changed file stored as it is, and one stored compressed. *)
Definition es_two : list entry :=
  [([97], false, KDelta [1; 2; 3] [7; 8] [54; 7; 8]); ([98], true, KDelta [4; 4; 4] [9] [54; 9])].
Definition fs_two : fs :=
  fs_of [(NOld [97], 0%nat); (NElse [97], 0%nat); (NFwd [97], 1%nat);
         (NOld [98], 2%nat); (NElse [98], 2%nat); (NFwd [98], 3%nat)]
        [[1; 2; 3]; [54; 7; 8]; [31; 4; 4; 4]; [54; 9]].

Ltac start0 := split;
  [repeat (constructor; [cbn; let H := fresh in intros H; repeat (destruct H as [H|H]; [discriminate H|]); exact H|]); constructor|];
  split; [repeat constructor|]; split; [repeat constructor|];
  split; [apply privb_priv; vm_compute; reflexivity|reflexivity].

Lemma same_starts : starts gz0 patch0 es_same fs_same.
Proof. start0. Qed.
Lemma one_starts : starts gz0 patch0 es_one fs_one.
Proof. start0. Qed.
Lemma two_starts : starts gz0 patch0 es_two fs_two.
Proof. start0. Qed.

Lemma copy_cut_short :
  exists es s0 s, starts gz0 patch0 es s0 /\ one_mode false es /\ reach0 false anything es s0 s /\
    snd (fin0 false never es s) = true /\ ~ Forall (fun e => holds_new gunzip0 e (fin_end false never es s)) es.
Proof.
  exists es_same, fs_same, (stop_at false full es_same 1 fs_same).
  split; [exact same_starts|]. split; [repeat constructor|]. split; [|split].
  - apply reach_nth; [constructor|exact I|vm_compute; reflexivity].
  - vm_compute; reflexivity.
  - intros H. inversion H as [|? ? H1 _]; subst. vm_compute in H1. discriminate H1.
Qed.

Lemma link_truncated :
  exists es s0 s p, starts gz0 patch0 es s0 /\ one_mode false es /\ reach0 false anything es s0 s /\
    content s0 (NElse p) = Some [1; 2; 3] /\ content s (NElse p) = Some [].
Proof.
  exists es_one, fs_one, (stop_at false full es_one 0 (stop_at false never es_one 0 fs_one)), [97].
  split; [exact one_starts|]. split; [repeat constructor|]. split; [|split].
  - apply reach_nth; [|exact I|vm_compute; reflexivity].
    apply reach_nth; [constructor|exact I|vm_compute; reflexivity].
  - vm_compute; reflexivity.
  - vm_compute; reflexivity.
Qed.

Lemma wrong_file_overwritten :
  exists es s0 s p, starts gz0 patch0 es s0 /\ reach0 false no_limit es s0 s /\
    snd (fin0 false never es s) = true /\
    content s0 (NElse p) = Some [1; 2; 3] /\ content (fin_end false never es s) (NElse p) = Some [4; 4; 4] /\
    ~ Forall (fun e => holds_old gunzip0 patch0 false e (fin_end false never es s)) es.
Proof.
  exists es_two, fs_two, (stop_at false never es_two 13 fs_two), [97].
  split; [exact two_starts|]. split; [|split; [|split; [|split]]].
  - apply reach_nth; [constructor|intro; reflexivity|vm_compute; reflexivity].
  - vm_compute; reflexivity.
  - vm_compute; reflexivity.
  - vm_compute; reflexivity.
  - intros H. inversion H as [|? ? H1 _]; subst.
    assert (E1 : content (fin_end false never es_two (stop_at false never es_two 13 fs_two)) (NOld [97]) = Some [4; 4; 4]).
    { vm_compute. reflexivity. }
    destruct H1 as [(c & Hc & Hd)|(_ & Hn & _)].
    + rewrite E1 in Hc. injection Hc as <-. cbn in Hd. discriminate Hd.
    + rewrite E1 in Hn. discriminate Hn.
Qed.

(* ---------- what success means, whatever was there ---------- *)

(* Nothing that is final goes away. *)
Definition grows (s s' : fs) : Prop :=
  (forall d, present s (NFin d) = true -> present s' (NFin d) = true) /\ incl (dels s) (dels s').
Definition growing (r : run) : Prop := forall s, grows s (endst (fst (r s)) s).

Lemma grows_refl s : grows s s.
Proof. split; [auto|apply incl_refl]. Qed.
Lemma grows_trans a b c : grows a b -> grows b c -> grows a c.
Proof. intros [A B] [C D]. split; [auto|eapply incl_tran; eauto]. Qed.

Lemma growing_ok : growing ok. Proof. intros s. apply grows_refl. Qed.
Lemma growing_fail : growing fail. Proof. intros s. apply grows_refl. Qed.
Lemma growing_andthen f g : growing f -> growing g -> growing (andthen f g).
Proof.
  intros F G s. unfold andthen. specialize (F s). destruct (f s) as [l o]. cbn [fst] in F. destruct o; [|exact F].
  specialize (G (endst l s)). destruct (g (endst l s)) as [l2 o2]. cbn [fst] in *. rewrite endst_app. eapply grows_trans; eauto.
Qed.
Lemma growing_always f g : growing f -> growing g -> growing (always f g).
Proof.
  intros F G s. unfold always. specialize (F s). destruct (f s) as [l o]. cbn [fst] in F.
  specialize (G (endst l s)). destruct (g (endst l s)) as [l2 o2]. cbn [fst] in *. rewrite endst_app. eapply grows_trans; eauto.
Qed.
Lemma growing_look k : (forall s, growing (k s)) -> growing (look k).
Proof. intros H s. apply H. Qed.

Definition not_final (n : name) : Prop := forall d, n <> NFin d.

Lemma grows_set n v s : not_final n \/ v <> None -> grows s (set_name n v s).
Proof.
  intros H. split; [|apply incl_refl]. intros d P. unfold present in *. cbn.
  destruct (name_eqb (NFin d) n) eqn:E; [|exact P]. apply name_eqb_eq in E. subst.
  destruct H as [H|H]; [exfalso; apply (H d); auto|destruct v; congruence].
Qed.
Lemma growing_unlink n : not_final n -> growing (unlink n).
Proof.
  intros H s. unfold unlink. destruct (dir s n); cbn [fst endst last]; [|apply grows_refl]. apply grows_set. auto.
Qed.
Lemma growing_rename a b : not_final a -> growing (rename a b).
Proof.
  intros H s. unfold rename. destruct (dir s a) as [i|]; cbn [fst endst last]; [|apply grows_refl].
  apply grows_trans with (set_name b (Some i) s); apply grows_set; [right; discriminate|auto].
Qed.
Lemma grows_creat n s : grows s (fst (creat n s)).
Proof.
  unfold creat. destruct (dir s n) eqn:E; cbn [fst]; [exact (grows_refl s)|].
  split; [|apply incl_refl]. intros d P. unfold present in *. cbn. destruct (name_eqb (NFin d) n); auto.
Qed.
Lemma grows_fill i c s s1 : grows s s1 -> grows s (endst (fill i c s1) s).
Proof.
  intros H. unfold endst. destruct (fill i c s1) as [|x l] eqn:E; [apply grows_refl|].
  assert (X : In (last (x :: l) s) (fill i c s1)).
  { rewrite E. destruct (exists_last (l := x :: l)) as (l'&y&->); [discriminate|]. rewrite last_last. apply in_or_app. right; left; auto. }
  unfold fill in X. apply in_map_iff in X as (k&<-&_). exact H.
Qed.
Lemma growing_write n c : growing (write n c).
Proof.
  intros s. unfold write. pose proof (grows_creat n s) as H. destruct (creat n s) as [s1 i]. cbn [fst] in *. apply grows_fill, H.
Qed.
Lemma growing_dup a b : growing (duplicate_file a b).
Proof.
  intros s. unfold duplicate_file. destruct (dir s a); [|apply grows_refl].
  pose proof (grows_creat b s) as H. destruct (creat b s) as [s1 i]. cbn [fst] in *. apply grows_fill, H.
Qed.
Lemma growing_link many a b o : not_final b \/ o = false -> growing (do_link many a b o).
Proof.
  intros H s. unfold do_link. destruct (dir s a) as [i|]; [|apply grows_refl].
  destruct (many i); [apply growing_dup|].
  destruct (dir s b); [|cbn [fst endst last]; apply grows_set; right; discriminate].
  destruct o; [|apply grows_refl]. destruct H as [H|H]; [|discriminate].
  apply growing_andthen; [apply growing_unlink; auto|]. intros s'. apply grows_set. auto.
Qed.

Section Sound.
Variables (gz : bytes -> bytes) (gunzip : bytes -> option bytes).
Variables (sigof : bytes -> bytes) (mkdelta : bytes -> bytes -> bytes) (patch : bytes -> bytes -> option bytes).
Variables (many : nat -> bool) (hl : bool).

Local Ltac gr := repeat match goal with
  | |- growing (andthen _ _) => apply growing_andthen
  | |- growing (always _ _) => apply growing_always
  | |- growing (look _) => apply growing_look; intros ?
  | |- growing ok => apply growing_ok
  | |- growing fail => apply growing_fail
  | |- growing (unlink _) => apply growing_unlink; intros ?; discriminate
  | |- growing (rename _ _) => apply growing_rename; intros ?; discriminate
  | |- growing (write _ _) => apply growing_write
  | |- growing (do_link _ _ _ _) => apply growing_link; first [right; reflexivity | left; intros ?; discriminate]
  | |- growing (inflate_or_link _ _ _ _) => unfold inflate_or_link
  end.

Lemma growing_note d : growing (note_deletion d).
Proof. intros s. split; [auto|]. cbn. intros x Hx. apply in_or_app. auto. Qed.

Lemma growing_rev d comp : growing (gen_rev_delta gunzip sigof mkdelta d comp).
Proof.
  unfold gen_rev_delta. apply growing_look. intros s. destruct (content s (NNew d)); [|gr].
  destruct (dec gunzip comp b); [|gr]. gr. destruct (content s0 NSig); [|gr]. destruct (content s0 (NOld d)); [|gr].
  destruct (dec gunzip comp b2); gr.
Qed.

Lemma growing_fwd d comp : growing (forward_patch gz gunzip sigof mkdelta patch many hl d comp).
Proof.
  unfold forward_patch. gr.
  - destruct (content s (NOld d)); [|gr]. destruct comp; [|gr]. destruct b; [gr|]. destruct (gunzip (z :: b)); gr.
  - destruct (content s NInf); [|gr]. destruct (content s (NFwd d)); [|gr].
    destruct (patch b b0); gr; [destruct hl; [gr|apply growing_rev]|destruct hl; gr|apply growing_note].
Qed.

Definition settled_entry (d : bytes) (s : fs) : Prop := present s (NFin d) = true \/ In d (dels s).
Lemma settled_grows d s s' : grows s s' -> settled_entry d s -> settled_entry d s'.
Proof. intros [A B] [H|H]; [left|right]; auto. Qed.

Lemma andthen_ok f g s : snd (andthen f g s) = true ->
  snd (f s) = true /\ snd (g (endst (fst (f s)) s)) = true /\
  endst (fst (andthen f g s)) s = endst (fst (g (endst (fst (f s)) s))) (endst (fst (f s)) s).
Proof.
  unfold andthen. destruct (f s) as [l o]. cbn [fst snd]. destruct o; [|discriminate].
  destruct (g (endst l s)) as [l2 o2]. cbn [fst snd]. intros ->. rewrite endst_app. auto.
Qed.
Lemma always_ok f g s : snd (always f g s) = true ->
  snd (f s) = true /\ endst (fst (always f g s)) s = endst (fst (g (endst (fst (f s)) s))) (endst (fst (f s)) s).
Proof.
  unfold always. destruct (f s) as [l o]. cbn [fst snd].
  destruct (g (endst l s)) as [l2 o2]. cbn [fst snd]. rewrite endst_app. auto.
Qed.

Lemma rename_there a b s : not_final a -> snd (rename a b s) = true -> a <> b -> present (endst (fst (rename a b s)) s) b = true.
Proof.
  intros _ H N. unfold rename in *. destruct (dir s a); [|discriminate]. cbn [fst endst last]. unfold present, endst. cbn.
  destruct (name_eqb b a) eqn:E; [apply name_eqb_eq in E; congruence|]. rewrite name_eqb_refl. auto.
Qed.

Lemma look_eq k s : look k s = k s s. Proof. reflexivity. Qed.

Lemma fwd_settles d comp s : snd (forward_patch gz gunzip sigof mkdelta patch many hl d comp s) = true ->
  settled_entry d (endst (fst (forward_patch gz gunzip sigof mkdelta patch many hl d comp s)) s).
Proof.
  unfold forward_patch. intros H. apply always_ok in H as [H E]. rewrite E.
  eapply settled_grows; [apply growing_unlink; intros ?; discriminate|].
  apply andthen_ok in H as (_&H&E2). rewrite E2. clear E E2. set (s1 := endst (fst (inflate_or_link _ _ _ _ _)) _) in *. clearbody s1.
  rewrite look_eq in *. destruct (content s1 NInf); [|discriminate]. destruct (content s1 (NFwd d)); [|discriminate].
  destruct (patch b b0).
  - apply andthen_ok in H as (_&H&E). rewrite E; clear E. set (s2 := endst _ s1) in *. clearbody s2.
    apply andthen_ok in H as (_&H&E). rewrite E; clear E. set (s3 := endst _ s2) in *. clearbody s3.
    apply andthen_ok in H as (H&_&E). rewrite E; clear E.
    eapply settled_grows; [|left; apply (rename_there (NNew d) (NFin d) s3); [intros d'; discriminate|exact H|discriminate]].
    assert (G : growing (andthen (unlink (NFwd d)) (if hl then ok else unlink (NOld d)))) by (gr; destruct hl; gr). apply G.
  - apply andthen_ok in H as (_&H&E). rewrite E; clear E. set (s2 := endst _ s1) in *. clearbody s2.
    apply andthen_ok in H as (_&H&E). rewrite E; clear E. right. cbn. apply in_or_app. right; left; auto.
Qed.

Lemma link_there a b o s : snd (do_link many a b o s) = true -> present (endst (fst (do_link many a b o s)) s) b = true.
Proof.
  unfold do_link. destruct (dir s a) as [i|] eqn:E; [|discriminate]. destruct (many i).
  - intros _. unfold duplicate_file. rewrite E. destruct (creat b s) as [s1 ib] eqn:C. cbn [fst].
    assert (P : present s1 b = true).
    { unfold creat in C. destruct (dir s b) eqn:Db; injection C as <- <-; unfold present; cbn; [rewrite Db; auto|rewrite name_eqb_refl; auto]. }
    unfold endst. destruct (fill ib (data s1 i) s1) as [|x l] eqn:Ef; [discriminate Ef|].
    assert (X : In (last (x :: l) s) (fill ib (data s1 i) s1)).
    { rewrite Ef. destruct (exists_last (l := x :: l)) as (l'&y&->); [discriminate|]. rewrite last_last. apply in_or_app. right; left; auto. }
    unfold fill in X. apply in_map_iff in X as (k&<-&_). exact P.
  - destruct (dir s b).
    + destruct o; [|discriminate]. intros H. apply andthen_ok in H as (_&_&E2). rewrite E2. cbn [fst endst last]. unfold present, endst. cbn.
      rewrite name_eqb_refl. auto.
    + intros _. unfold present, endst. cbn. rewrite name_eqb_refl. auto.
Qed.

Notation jig := (jiggle gz gunzip sigof mkdelta patch many hl).

Lemma growing_jiggle e : growing (jig e).
Proof.
  unfold jiggle. apply growing_look. intros s. destruct e as [d comp].
  destruct (present s (NFin d)); [gr|]. destruct (present s (NFwd d)); [apply growing_fwd|].
  destruct (present s (NNew d)); [gr|]. destruct (present s (NOld d)); [gr; destruct hl; gr|].
  destruct (present s (NRelink d)); gr.
Qed.

Lemma jiggle_settles d comp s : snd (jig (d, comp) s) = true -> settled_entry d (endst (fst (jig (d, comp) s)) s).
Proof.
  unfold jiggle. rewrite look_eq.
  destruct (present s (NFin d)) eqn:P1.
  { intros _. eapply settled_grows; [apply growing_unlink; intros ?; discriminate|left; auto]. }
  destruct (present s (NFwd d)); [apply fwd_settles|].
  destruct (present s (NNew d)). { intros H. left. apply rename_there; auto; intros ?; discriminate. }
  destruct (present s (NOld d)).
  { intros H. apply andthen_ok in H as (H&_&E). rewrite E. eapply settled_grows; [|left; apply link_there; exact H].
    assert (G : growing (if hl then ok else unlink (NOld d))) by (destruct hl; gr). apply G. }
  destruct (present s (NRelink d)); [|discriminate]. intros H. left. apply rename_there; auto; intros ?; discriminate.
Qed.

Lemma jiggle_all_settles es : forall s, snd (jiggle_all gz gunzip sigof mkdelta patch many hl es s) = true ->
  forall d comp, In (d, comp) es ->
  settled_entry d (endst (fst (jiggle_all gz gunzip sigof mkdelta patch many hl es s)) s).
Proof.
  assert (G : forall es, growing (jiggle_all gz gunzip sigof mkdelta patch many hl es)).
  { clear es. induction es as [|e r IH]; [apply growing_ok|]. cbn [jiggle_all]. apply growing_andthen; [apply growing_jiggle|exact IH]. }
  induction es as [|e r IH]; intros s H d comp Hin; [destruct Hin|].
  cbn [jiggle_all] in *. apply andthen_ok in H as (H1&H2&E). rewrite E. destruct Hin as [->|Hin].
  - eapply settled_grows; [apply G|]. apply jiggle_settles. exact H1.
  - eapply IH; eauto.
Qed.
End Sound.

Lemma success_means gz gunzip sigof mkdelta patch hl many es s :
  snd (finalise gz gunzip sigof mkdelta patch hl many es s) = true ->
  forall d comp k, In (d, comp, k) es ->
  let s' := endst (fst (finalise gz gunzip sigof mkdelta patch hl many es s)) s in
  content s' (NFin d) <> None \/ In d (dels s').
Proof.
  intros H d comp k Hin s'. unfold finalise in *.
  assert (I : In (d, comp) (map fst es)) by (apply in_map_iff; exists (d, comp, k); auto).
  destruct (jiggle_all_settles gz gunzip sigof mkdelta patch many hl (map fst es) s H d comp I) as [P|P]; [left|right; exact P].
  unfold present in P. unfold content, s', finalise. destruct (dir _ (NFin d)); [discriminate|discriminate P].
Qed.
