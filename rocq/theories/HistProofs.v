(* Every kept backup restores what was backed up (C19). *)
From Verif Require Import Bytes Phase4Model Phase4Proofs HistModel.

Section Hist.
Variables (gz : bytes -> bytes) (gunzip : bytes -> option bytes).
Variables (sigof : bytes -> bytes) (mkdelta : bytes -> bytes -> bytes) (patch : bytes -> bytes -> option bytes).

Notation dec := (Phase4Model.dec gunzip).
Notation fin hl := (finalise gz gunzip sigof mkdelta patch hl).

(* ---------- the histories ---------- *)

(* The newest backup, and what it has. *)
Definition newest (R : list backup) : option backup := nth_error (rev R) 0.
Definition hl_of (p : option backup) : bool := match p with Some b => b_hl b | None => false end.
Definition man_of (p : option backup) : list (bytes * bool * bytes) := match p with Some b => b_man b | None => [] end.
Definition data_of (p : option backup) (d : bytes) : option bytes := match p with Some b => b_data b d | None => None end.
Definition rev_of (p : option backup) (d : bytes) : option bytes :=
  match p with Some b => if b_hl b then None else b_rev b d | None => None end.

(* What the file of an entry of the new manifest contains (C18, C54: the data of
   a changed or unchanged file is that of an entry of the previous manifest, in
   the same form). *)
Definition truth (p : option backup) (e : entry) (t : bytes) : Prop :=
  let '(d, comp, k) := e in
  match k with
  | KDelta old new _ => In (d, comp, old) (man_of p) /\ t = new
  | KBad old _ => False
  | KNew c _ => dec comp c = Some t
  | KSame _ => In (d, comp, t) (man_of p)
  | KRelink c => dec comp c = Some t
  end.

(* The transfer has finished: the new data, deltas and links are there besides
   the previous backup. *)
Definition prepared (p : option backup) (es : list entry) (s0 : fs) : Prop :=
  starts gz patch es s0 /\
  (forall d, content s0 (NOld d) = data_of p d) /\
  (forall d, content s0 (NRev d) = rev_of p d) /\
  Forall (fun e => match snd e with
                   | KBad old _ => In (fst e, old) (man_of p)
                   | _ => exists t, truth p e t
                   end) es.

(* What finalising leaves in the end. *)
Definition prev_after (s : fs) (b : backup) : backup :=
  mkb (b_hl b) (b_man b) (fun d => content s (NOld d)) (if b_hl b then b_rev b else fun d => content s (NRev d)).
Definition new_after (s : fs) (hl : bool) (man : list (bytes * bool * bytes)) : backup :=
  mkb hl man (fun d => content s (NFin d)) (fun _ => None).

Definition after (R : list backup) (s : fs) (hl : bool) (man : list (bytes * bool * bytes)) : list backup :=
  removelast R ++ match newest R with Some b => [prev_after s b] | None => [] end ++ [new_after s hl man].

(* Backups, stopped and run again any number of times before they complete, and
   deletions. *)
Inductive history : list backup -> Prop :=
| hist_none : history []
| hist_backup R es s0 s cm many hl man l :
    history R -> prepared (newest R) es s0 -> one_mode cm es ->
    reach gz gunzip sigof mkdelta patch (hl_of (newest R)) no_limit es s0 s -> no_limit many ->
    fin (hl_of (newest R)) many es s = (l, true) ->
    (forall d comp t, In (d, comp, t) man <->
       exists k, In (d, comp, k) es /\ truth (newest R) (d, comp, k) t /\ ~ In d (dels (endst l s))) ->
    history (after R (endst l s) hl man)
| hist_delete R1 b R2 : history (R1 ++ b :: R2) -> deletable (R1 ++ b :: R2) (List.length R1) -> history (R1 ++ R2).

(* ---------- the invariant ---------- *)

Definition whole (b : backup) (d : bytes) (comp : bool) (t : bytes) : Prop :=
  exists c, b_data b d = Some c /\ dec comp c = Some t.

(* Either the backup has the file itself, or the next newer one has it. *)
Definition good (b : backup) (nxt : option backup) : Prop :=
  forall d comp t, In (d, comp, t) (b_man b) ->
    whole b d comp t \/
    (b_hl b = false /\ b_data b d = None /\ exists n t', nxt = Some n /\ In (d, comp, t') (b_man n) /\
       match b_rev b d with None => t = t' | Some r => patch t' r = Some t end).

Fixpoint inv (R : list backup) : Prop :=
  match R with [] => True | b :: r => good b (nth_error r 0) /\ inv r end.

Hypothesis laws : codec_laws gz gunzip sigof mkdelta patch.

Lemma inflate_dec comp c : inflate gunzip comp c = dec comp c.
Proof.
  destruct laws as (_ & L & _). destruct comp; [|reflexivity]. cbn. destruct c; [symmetry; exact L|reflexivity].
Qed.

Definition plain (comp : bool) (x : bool * bytes) : option bytes :=
  if fst x then Some (snd x) else dec comp (snd x).

Lemma inv_restores : forall R b, inv (b :: R) -> forall d comp t, In (d, comp, t) (b_man b) ->
  exists x, restore_file gunzip patch (b :: R) d comp = Some x /\ plain comp x = Some t.
Proof.
  induction R as [|n R IH]; intros b [Hg Hi] d comp t Hin;
    destruct (Hg d comp t Hin) as [(c & Hc & Hd)|(_ & Hn & m & t' & Hm & Hin' & Hl)].
  - exists (false, c). unfold restore_file. cbn [find_data]. rewrite Hc. cbn. split; [reflexivity|exact Hd].
  - discriminate.
  - exists (false, c). unfold restore_file. cbn [find_data]. rewrite Hc. cbn. split; [reflexivity|exact Hd].
  - cbn in Hm. injection Hm as <-. destruct (IH n Hi d comp t' Hin') as ([pt c] & Hx & Hp).
    unfold restore_file in *.
    assert (E : find_data (b :: n :: R) d =
      match find_data (n :: R) d with Some (c, l) => Some (c, b :: l) | None => None end).
    { cbn [find_data]. rewrite Hn. reflexivity. }
    rewrite E. destruct (find_data (n :: R) d) as [[c0 l]|]; [|discriminate].
    cbn [fold_right]. rewrite Hx. cbn [apply_delta].
    destruct (b_rev b d) as [r|].
    + unfold plain in Hp; cbn [fst snd] in Hp. destruct pt.
      * injection Hp as ->. rewrite Hl. exists (true, t). split; reflexivity.
      * rewrite inflate_dec, Hp, Hl. exists (true, t). split; reflexivity.
    + subst t'. exists (pt, c). split; [reflexivity|exact Hp].
Qed.


(* Each storage path once. *)
Definition once (m : list (bytes * bool * bytes)) : Prop :=
  forall d c1 t1 c2 t2, In (d, c1, t1) m -> In (d, c2, t2) m -> c1 = c2 /\ t1 = t2.

Lemma good_next b n n' : b_man n' = b_man n -> good b (Some n) -> good b (Some n').
Proof.
  intros E H d comp t Hin. destruct (H d comp t Hin) as [Hw|(A & B & m & t' & C & D & F)]; [left; exact Hw|].
  right. split; [exact A|]. split; [exact B|]. injection C as <-. exists n', t'. rewrite E. auto.
Qed.

Lemma inv_grow R p p' n : b_man p' = b_man p -> inv (R ++ [p]) -> good p' (Some n) -> good n None ->
  inv (R ++ [p'; n]).
Proof.
  intros E. induction R as [|a R IH]; cbn [app inv]; intros Hi Hp Hn.
  - cbn [inv nth_error]. auto.
  - destruct Hi as [Ha Hi]. split; [|apply IH; assumption].
    destruct R as [|x R]; [|exact Ha]. cbn in *. apply (good_next a p); assumption.
Qed.

Lemma inv_last R p : inv (R ++ [p]) -> good p None.
Proof. induction R as [|a R IH]; cbn [app inv]; intros [H1 H2]; [exact H1|apply IH, H2]. Qed.

Lemma good_whole b d comp t : good b None -> In (d, comp, t) (b_man b) -> whole b d comp t.
Proof.
  intros H Hin. destruct (H d comp t Hin) as [Hw|(_ & _ & m & t' & E & _)]; [exact Hw|discriminate].
Qed.

Lemma inv_drop R1 b R2 : inv (R1 ++ b :: R2) -> deletable (R1 ++ b :: R2) (List.length R1) -> inv (R1 ++ R2).
Proof.
  intros Hi Hd. assert (Ht : inv R2).
  { clear Hd. induction R1 as [|a R IH]; cbn [app inv] in Hi; [apply Hi|apply IH, Hi]. }
  destruct R1 as [|r R1'] using rev_ind; [exact Ht|]. clear IHR1'.
  destruct Hd as [H0|(a & Ha & Hh)]; [rewrite app_length in H0; cbn in H0; lia|].
  rewrite app_length in Ha. cbn [List.length] in Ha. rewrite Nat.add_sub in Ha.
  rewrite <- app_assoc in Ha. rewrite nth_error_app2 in Ha by lia. rewrite Nat.sub_diag in Ha.
  cbn in Ha. injection Ha as <-.
  rewrite <- app_assoc in *. cbn [app] in *.
  induction R1' as [|x R IH]; cbn [app inv] in *.
  - destruct Hi as [Hr _]. split; [|exact Ht]. intros d comp t Hin.
    destruct (Hr d comp t Hin) as [Hw|(E & _)]; [left; exact Hw|congruence].
  - destruct Hi as [Hx Hi]. split; [|apply IH; exact Hi].
    destruct R; exact Hx.
Qed.

Lemma newest_app R p : newest (R ++ [p]) = Some p.
Proof. unfold newest. rewrite rev_app_distr. reflexivity. Qed.

Lemma newest_nil R : newest R = None -> R = [].
Proof.
  destruct R as [|p R] using rev_ind; [reflexivity|]. rewrite newest_app. discriminate.
Qed.

Lemma entry_unique (es : list entry) d c1 k1 c2 k2 : NoDup (map path_of es) ->
  In (d, c1, k1) es -> In (d, c2, k2) es -> c1 = c2 /\ k1 = k2.
Proof.
  induction es as [|e es IH]; [intros _ []|]. cbn [map]. intros HN. inversion HN as [|? ? N1 N2]; subst.
  intros [->|H1] [E|H2].
  - injection E as -> ->. auto.
  - exfalso; apply N1. apply (in_map path_of) in H2. exact H2.
  - subst e. exfalso; apply N1. apply (in_map path_of) in H1. exact H1.
  - apply IH; assumption.
Qed.

Section Step.
Variables (p : option backup) (es : list entry) (s0 s : fs) (cm : bool) (many : nat -> bool) (l : list fs).
Variable man : list (bytes * bool * bytes).
Hypothesis Hprep : prepared p es s0.
Hypothesis Hmode : one_mode cm es.
Hypothesis Hreach : reach gz gunzip sigof mkdelta patch (hl_of p) no_limit es s0 s.
Hypothesis Hmany : no_limit many.
Hypothesis Hrun : fin (hl_of p) many es s = (l, true).
Hypothesis Hman : forall d comp t, In (d, comp, t) man <->
  exists k, In (d, comp, k) es /\ truth p (d, comp, k) t /\ ~ In d (dels (endst l s)).
Hypothesis Honce : once (man_of p).
Hypothesis Hwhole : forall b, p = Some b -> forall d comp t, In (d, comp, t) (b_man b) -> whole b d comp t.

Notation e := (endst l s).

Lemma step_done :
  Forall (fun x => holds_new gunzip x e) es /\ Forall (fun x => holds_old gunzip patch (hl_of p) x e) es /\
  (forall n, outside es n -> content e n = content s0 n) /\ (forall d, In d (dels e) <-> is_bad es d).
Proof.
  destruct Hprep as (Hs & _).
  pose proof (completes gz gunzip sigof mkdelta patch (hl_of p) laws es s0 cm s many Hs Hmode Hreach Hmany) as H.
  rewrite Hrun in H. apply H.
Qed.

Lemma data_whole d comp t : In (d, comp, t) (man_of p) -> exists c, data_of p d = Some c /\ dec comp c = Some t.
Proof. destruct p as [b|]; [|intros []]. intros H. exact (Hwhole b eq_refl d comp t H). Qed.

Lemma step_once : once man.
Proof.
  destruct Hprep as ((HN & _) & _).
  intros d c1 t1 c2 t2 H1 H2. apply Hman in H1, H2.
  destruct H1 as (k1 & I1 & T1 & _), H2 as (k2 & I2 & T2 & _).
  destruct (entry_unique es d c1 k1 c2 k2 HN I1 I2) as [<- <-]. split; [reflexivity|].
  destruct k1; cbn in T1, T2.
  - destruct T1, T2; congruence.
  - destruct T1.
  - congruence.
  - apply (Honce d c1 t1 c1 t2 T1 T2).
  - congruence.
Qed.

Lemma waits d comp k : In (d, comp, k) es -> waiting gz (d, comp, k) s0.
Proof.
  destruct Hprep as ((_ & _ & H & _) & _). intros Hin. rewrite Forall_forall in H. apply (H _ Hin).
Qed.

Lemma step_new hl : good (new_after e hl man) None.
Proof.
  destruct step_done as (D1 & _ & _ & _). destruct Hprep as (_ & Ho & _ & _).
  intros d comp t Hin. left. cbn in Hin. apply Hman in Hin. destruct Hin as (k & Hk & Ht & _).
  rewrite Forall_forall in D1. specialize (D1 _ Hk). pose proof (waits d comp k Hk) as W.
  unfold whole; cbn [b_data new_after].
  destruct k as [old new dl|old dl|c o|c|c]; cbn in D1, Ht.
  - destruct Ht as [_ ->]. exact D1.
  - destruct Ht.
  - exists c. auto.
  - exists c. split; [exact D1|]. destruct (data_whole d comp t Ht) as (c0 & E1 & E2).
    destruct W as (_ & W & _). rewrite Ho in W. congruence.
  - exists c. auto.
Qed.

Lemma step_prev b hl : p = Some b -> good (prev_after e b) (Some (new_after e hl man)).
Proof.
  intros Ep. destruct step_done as (D1 & D2 & D3 & D4).
  destruct Hprep as ((HN & _) & Ho & _ & Hf).
  intros d comp t Hin. cbn [b_man prev_after] in Hin.
  destruct (Hwhole b Ep d comp t Hin) as (c0 & E1 & E2).
  assert (E0 : content s0 (NOld d) = Some c0) by (rewrite Ho, Ep; exact E1).
  assert (Hin' : In (d, comp, t) (man_of p)) by (rewrite Ep; exact Hin).
  unfold whole; cbn [b_data b_hl b_rev prev_after].
  destruct (in_dec (list_eq_dec Z.eq_dec) d (map path_of es)) as [Hd|Hd].
  2:{ left. exists c0. split; [|exact E2]. rewrite (D3 (NOld d) Hd). exact E0. }
  apply in_map_iff in Hd. destruct Hd as ([[d' comp'] k] & Ed & Hk). unfold path_of in Ed; cbn in Ed. subst d'.
  rewrite Forall_forall in D1, D2, Hf.
  pose proof (D1 _ Hk) as N. pose proof (D2 _ Hk) as O. pose proof (Hf _ Hk) as F. pose proof (waits d comp' k Hk) as W.
  assert (NB : (forall old dl, k <> KBad old dl) -> ~ In d (dels e)).
  { intros Hnb Hb. apply D4 in Hb. destruct Hb as (cb & ob & db & Hb).
    destruct (entry_unique es d comp' k cb _ HN Hk Hb) as [_ E]. apply (Hnb ob db E). }
  destruct k as [old new dl|old dl|c o|c|c]; cbn in N, O, F.
  - destruct F as (t0 & F & _). destruct (Honce d comp t comp' old Hin' F) as [<- <-].
    destruct O as [O|(Hh & On & n & r & R1 & R2 & R3)]; [left; exact O|right].
    rewrite Ep in Hh. cbn in Hh. split; [exact Hh|]. split; [exact On|].
    exists (new_after e hl man), new. split; [reflexivity|]. split.
    + cbn. apply Hman. exists (KDelta t new dl). split; [exact Hk|]. split; [split; [exact F|reflexivity]|].
      apply NB. discriminate.
    + rewrite Hh, R2. destruct N as (x & X1 & X2), R1 as (y & Y1 & Y2). congruence.
  - destruct (Honce d comp t comp' old Hin' F) as [<- <-]. left; exact O.
  - left. exists c0. split; [|exact E2]. rewrite O. destruct W as (_ & _ & _ & W). congruence.
  - destruct F as (t0 & F). destruct (Honce d comp t comp' t0 Hin' F) as [<- <-].
    destruct W as (_ & W & _). assert (c = c0) as -> by congruence.
    destruct O as [O|(Hh & On & Or & Of)]; [left; exists c0; auto|right].
    rewrite Ep in Hh. cbn in Hh. split; [exact Hh|]. split; [exact On|].
    exists (new_after e hl man), t. split; [reflexivity|]. split.
    + cbn. apply Hman. exists (KSame c0). split; [exact Hk|]. split; [exact F|]. apply NB. discriminate.
    + rewrite Hh, Or. reflexivity.
  - destruct W as (_ & _ & W & _). congruence.
Qed.
End Step.

Lemma history_inv R : history R -> inv R /\ Forall (fun b => once (b_man b)) R.
Proof.
  induction 1 as [|R es s0 s cm many hl man l HR [IH1 IH2] Hp Hm Hr Ha Hf Hman|R1 b R2 HR [IH1 IH2] Hd].
  - split; [exact I|constructor].
  - assert (Ho : once (man_of (newest R))).
    { destruct (newest R) as [b|] eqn:E; [|intros ? ? ? ? ? []].
      unfold newest in E. apply nth_error_In in E. apply in_rev in E. rewrite Forall_forall in IH2. apply (IH2 _ E). }
    assert (Hw : forall b, newest R = Some b -> forall d comp t, In (d, comp, t) (b_man b) -> whole b d comp t).
    { intros b E d comp t. destruct R as [|x R _] using rev_ind; [discriminate|].
      rewrite newest_app in E. injection E as ->. apply good_whole. apply (inv_last _ _ IH1). }
    pose proof (step_once _ _ _ _ _ _ Hp Hman Ho) as O.
    pose proof (step_new _ _ _ _ _ _ _ _ Hp Hm Hr Ha Hf Hman Ho Hw hl) as G1.
    pose proof (fun b => step_prev _ _ _ _ _ _ _ _ Hp Hm Hr Ha Hf Hman Ho Hw b hl) as G2.
    unfold after. destruct R as [|x R _] using rev_ind.
    + cbn. split; [split; [exact G1|exact I]|]. constructor; [exact O|constructor].
    + rewrite newest_app in *. rewrite removelast_last. cbn [app]. split.
      * apply (inv_grow R x); [reflexivity|exact IH1|apply G2; reflexivity|exact G1].
      * apply Forall_app in IH2. destruct IH2 as [I1 I2]. apply Forall_app. split; [exact I1|].
        inversion I2; subst. constructor; [assumption|constructor; [exact O|constructor]].
  - split; [apply (inv_drop R1 b R2 IH1 Hd)|].
    apply Forall_app in IH2. destruct IH2 as [I1 I2]. inversion I2; subst. apply Forall_app. auto.
Qed.

Lemma history_restores R1 b R2 d comp t : history (R1 ++ b :: R2) -> In (d, comp, t) (b_man b) ->
  restored gunzip patch (b :: R2) d comp = Some t.
Proof.
  intros H Hin. destruct (history_inv _ H) as [Hi _].
  assert (Hb : inv (b :: R2)).
  { clear - Hi. induction R1 as [|a R IH]; [exact Hi|]. apply IH, Hi. }
  destruct (inv_restores R2 b Hb d comp t Hin) as ([pt c] & E1 & E2).
  unfold restored. rewrite E1. unfold plain in E2; cbn in E2. destruct pt; [exact E2|].
  destruct comp; exact E2.
Qed.
End Hist.

(* ---------- a concrete history, to show there are some ---------- *)

(* The state the next backup starts from: the last one's files as the old ones,
   and some new files. *)
Definition carry (e : fs) (l : list (name * nat)) (cs : list bytes) : fs :=
  mkfs (fun n => match n with
                 | NOld d => dir e (NFin d)
                 | NNew _ | NFwd _ | NRelink _ =>
                     match lookup_name l n with Some i => Some (next e + i)%nat | None => None end
                 | _ => None
                 end)
       (fun i => if (i <? next e)%nat then data e i else nth (i - next e) cs [])
       (next e + List.length cs) [].

Lemma carry_old W e l cs d : priv W e -> content (carry e l cs) (NOld d) = content e (NFin d).
Proof.
  intros [Hb _]. unfold content, carry; cbn [dir data]. destruct (dir e (NFin d)) as [i|] eqn:E; [|reflexivity].
  cbn [option_map].
  specialize (Hb _ _ E). apply Nat.ltb_lt in Hb. rewrite Hb. reflexivity.
Qed.

Definition distinctb (l : list (name * nat)) (cs : list bytes) : bool :=
  forallb (fun p => (snd p <? List.length cs)%nat
                    && forallb (fun q => if (snd q =? snd p)%nat then name_eqb (fst q) (fst p) else true) l) l.

Lemma carry_priv W e l cs : priv W e -> distinctb l cs = true -> priv (written true) (carry e l cs).
Proof.
  intros [Hb _] Hd. unfold distinctb in Hd. rewrite forallb_forall in Hd.
  assert (L : forall n i, lookup_name l n = Some i -> (i < List.length cs)%nat /\
            forall m, lookup_name l m = Some i -> m = n).
  { intros n i Hn. apply lookup_name_in in Hn. specialize (Hd _ Hn). apply andb_true_iff in Hd. destruct Hd as [H1 H2].
    cbn in *. apply Nat.ltb_lt in H1. split; [exact H1|]. intros m Hm. apply lookup_name_in in Hm.
    rewrite forallb_forall in H2. specialize (H2 _ Hm). cbn in H2. rewrite Nat.eqb_refl in H2. apply name_eqb_eq, H2. }
  split.
  - intros n i Hn. cbn in *. destruct n; try discriminate;
      try (destruct (lookup_name l _) as [j|] eqn:E; [|discriminate]; injection Hn as <-; apply L in E; lia).
    specialize (Hb _ _ Hn). lia.
  - intros n m i Hw Hn Hm. cbn in *. destruct n; try contradiction; try discriminate.
    destruct (lookup_name l (NNew d)) as [j|] eqn:E; [|discriminate]. injection Hn as <-.
    destruct (L _ _ E) as [L1 L2].
    destruct m; try discriminate; try (specialize (Hb _ _ Hm); lia);
      (match type of Hm with context [lookup_name l ?x] => destruct (lookup_name l x) as [k|] eqn:E2 end;
       [|discriminate Hm]; assert (k = j) as -> by (injection Hm; lia); apply L2; exact E2).
Qed.

Lemma end_priv hl es s0 s cm many : codec_laws gz0 gunzip0 sig0 mkdelta0 patch0 ->
  starts gz0 patch0 es s0 -> one_mode cm es ->
  reach gz0 gunzip0 sig0 mkdelta0 patch0 hl no_limit es s0 s -> no_limit many ->
  priv (written cm) (endst (fst (finalise gz0 gunzip0 sig0 mkdelta0 patch0 hl many es s)) s).
Proof.
  intros L Hs Hm Hr Ha.
  pose proof (reach_fine gz0 gunzip0 sig0 mkdelta0 patch0 hl L es s0 cm s Hs Hm Hr) as Hf.
  pose proof (safe_all gz0 gunzip0 sig0 mkdelta0 patch0 hl L many Ha cm es s0
    (proj1 Hs) (starts_ok gz0 patch0 es s0 cm Hs Hm) es [] s eq_refl Hf (Forall_nil _)) as (S1 & _).
  apply (endst_inv _ _ _ Hf S1).
Qed.

Definition empty_fs : fs := mkfs (fun _ => None) (fun _ => []) 0 [].

(* First two files; then one changed, the other as before, a third one; then the
   second changed, the first gone; then the third back to what it was. *)
Definition es1 : list entry := [([97], true, KNew [31; 1; 2; 3] None); ([98], true, KNew [31; 5] None)].
Definition st1 : fs := carry empty_fs [(NNew [97], 0%nat); (NNew [98], 1%nat)] [[31; 1; 2; 3]; [31; 5]].
Definition man1 : list (bytes * bool * bytes) := [([97], true, [1; 2; 3]); ([98], true, [5])].
Definition end1 : fs := fin_end false never es1 st1.
Definition R1 : list backup := after [] end1 false man1.

Definition es2 : list entry :=
  [([97], true, KDelta [1; 2; 3] [7; 8] [54; 7; 8]); ([98], true, KSame [31; 5]); ([99], false, KNew [6] None)].
Definition st2 : fs := carry end1 [(NFwd [97], 0%nat); (NNew [99], 1%nat)] [[54; 7; 8]; [6]].
Definition st2' : fs := stop_at false never es2 7 st2.
Definition man2 : list (bytes * bool * bytes) := [([97], true, [7; 8]); ([98], true, [5]); ([99], false, [6])].
Definition end2 : fs := fin_end false never es2 st2'.
Definition R2 : list backup := after R1 end2 true man2.

Definition es3 : list entry := [([98], true, KDelta [5] [9; 9] [54; 9; 9]); ([99], false, KSame [6])].
Definition st3 : fs := carry end2 [(NFwd [98], 0%nat)] [[54; 9; 9]].
Definition man3 : list (bytes * bool * bytes) := [([98], true, [9; 9]); ([99], false, [6])].
Definition end3 : fs := fin_end true never es3 st3.
Definition R3 : list backup := after R2 end3 false man3.

Notation hist0 := (history gz0 gunzip0 sig0 mkdelta0 patch0).
Notation prep0 := (prepared gz0 gunzip0 patch0).

Lemma fin0_split hl many es s : snd (finalise gz0 gunzip0 sig0 mkdelta0 patch0 hl many es s) = true ->
  finalise gz0 gunzip0 sig0 mkdelta0 patch0 hl many es s
  = (fst (finalise gz0 gunzip0 sig0 mkdelta0 patch0 hl many es s), true).
Proof. destruct (finalise _ _ _ _ _ _ _ _ _) as [l o]; cbn. intros ->; reflexivity. Qed.

Lemma never_no_limit : no_limit never.
Proof. intro; reflexivity. Qed.
