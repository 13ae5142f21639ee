(* Specification and proofs about storage paths (C14, C15). *)
From Verif Require Import Bytes PathcmpModel PathcmpProofs CmdModel CmdProofs FrameModel FrameProofs DpthModel.

Definition is_u16 (x : Z) : Prop := 0 <= x <= 65535.
Definition okd (d : dpth) : Prop := is_u16 (c0 d) /\ is_u16 (c1 d) /\ is_u16 (c2 d).

(* Spec: lexicographic order of the three counters. *)
Definition trip_lt (x y : Z * Z * Z) : Prop :=
  let '(a, b, c) := x in let '(a', b', c') := y in
  a < a' \/ (a = a' /\ (b < b' \/ (b = b' /\ c < c'))).
Definition trip (d : dpth) : Z * Z * Z := (c0 d, c1 d, c2 d).
(* The number of paths still free for the given limit, counting this one. *)
Definition exhausted (d : dpth) : Prop := c2 d = 65535 /\ u16 (subdirs d) <= c1 d /\ u16 (subdirs d) <= c0 d.

Ltac Zify.zify_post_hook ::= Z.div_mod_to_equations.

Lemma u16_small : forall x, is_u16 x -> u16 x = x.
Proof. unfold u16, is_u16. intros. apply Z.mod_small. lia. Qed.
Lemma u16_range : forall x, is_u16 (u16 x). Proof. unfold u16, is_u16. intros. lia. Qed.

Lemma incr_spec : forall x m, is_u16 x ->
  (incr x m = (x + 1, true) /\ x < u16 m) \/ (incr x m = (0, false) /\ u16 m <= x).
Proof.
  intros x m H. unfold incr. destruct (Z.ltb_spec x (u16 m)); [left|right]; split; auto.
  f_equal. apply u16_small. pose proof (u16_range m). unfold is_u16 in *. lia.
Qed.

Lemma dpth_incr_spec : forall d, okd d ->
  (exists d', dpth_incr d = (d', true) /\ okd d' /\ subdirs d' = subdirs d /\ trip_lt (trip d) (trip d') /\ ~ exhausted d) \/
  (dpth_incr d = (mkdpth 0 0 0 (subdirs d), false) /\ exhausted d).
Proof.
  intros [a b c m] (Ha & Hb & Hc). unfold dpth_incr, exhausted, trip, trip_lt, okd in *. cbn [c0 c1 c2 subdirs] in *.
  pose proof (u16_range m) as R.
  destruct (incr_spec c 65535 Hc) as [[E L]|[E L]]; rewrite E; cbn [c0 c1 c2 subdirs].
  - left. eexists. split; [reflexivity|]. change (u16 65535) with 65535 in L. unfold is_u16 in *. cbn [c0 c1 c2 subdirs]. lia.
  - change (u16 65535) with 65535 in L.
    destruct (incr_spec b m Hb) as [[E1 L1]|[E1 L1]]; rewrite E1; cbn [c0 c1 c2 subdirs].
    + left. eexists. split; [reflexivity|]. unfold is_u16 in *. cbn [c0 c1 c2 subdirs]. lia.
    + destruct (incr_spec a m Ha) as [[E2 L2]|[E2 L2]]; rewrite E2; cbn [c0 c1 c2 subdirs].
      * left. eexists. split; [reflexivity|]. unfold is_u16 in *. cbn [c0 c1 c2 subdirs]. lia.
      * right. split; auto. unfold is_u16 in *. lia.
Qed.

Lemma trip_lt_trans : forall x y z, trip_lt x y -> trip_lt y z -> trip_lt x z.
Proof. intros [[? ?] ?] [[? ?] ?] [[? ?] ?]. unfold trip_lt. lia. Qed.
Lemma trip_lt_irrefl : forall x, ~ trip_lt x x.
Proof. intros [[? ?] ?]. unfold trip_lt. lia. Qed.

(* Names are injective. *)
Lemma hexdig_inj : forall a b, 0 <= a < 16 -> 0 <= b < 16 -> hexdig a = hexdig b -> a = b.
Proof. intros a b Ha Hb H. pose proof (hexdig_val a Ha). pose proof (hexdig_val b Hb). rewrite H in *. congruence. Qed.
Lemma four_inj : forall a b, is_u16 a -> is_u16 b -> four a = four b -> a = b.
Proof.
  unfold is_u16, four. intros a b Ha Hb H.
  injection H as H3 H2 H1 H0.
  apply hexdig_inj in H3; [|lia|lia]. apply hexdig_inj in H2; [|lia|lia].
  apply hexdig_inj in H1; [|lia|lia]. apply hexdig_inj in H0; [|lia|lia]. lia.
Qed.

Lemma app_eq_len : forall (A : Type) (a b c d : list A), List.length a = List.length c -> a ++ b = c ++ d -> a = c /\ b = d.
Proof.
  induction a; destruct c; intros d L E; try discriminate; cbn in *; auto.
  injection E as -> E. apply IHa in E; [|lia]. destruct E as [-> ->]. auto.
Qed.

Lemma dpth_mk_inj : forall d d' z z' k k', okd d -> okd d' ->
  dpth_mk d z k = dpth_mk d' z' k' -> trip d = trip d'.
Proof.
  intros [a b c m] [a' b' c' m'] z z' k k' (Ha & Hb & Hc) (Ha' & Hb' & Hc') E.
  unfold dpth_mk in E. cbn [c0 c1 c2] in *.
  rewrite !fmt_04X_small in E by (unfold is_u16 in *; lia).
  apply app_eq_len in E; [|reflexivity]. destruct E as [E1 E].
  apply app_eq_len in E; [|reflexivity]. destruct E as [_ E].
  apply app_eq_len in E; [|reflexivity]. destruct E as [E2 E].
  apply app_eq_len in E; [|reflexivity]. destruct E as [_ E].
  apply app_eq_len in E; [|reflexivity]. destruct E as [E3 _].
  apply four_inj in E1; auto. apply four_inj in E2; auto. apply four_inj in E3; auto.
  unfold trip. cbn. congruence.
Qed.

(* The number of successful increments still possible; hand_out stays within
   it when no increment failed. *)
Fixpoint steps_ok (n : nat) (d : dpth) : Prop :=
  match n with
  | O => True
  | S n' => ~ exhausted d /\ steps_ok n' (fst (dpth_incr d))
  end.

(* Paths handed out, with the counters they stand for: strictly increasing. *)
Definition stands (p : bytes) (t : Z * Z * Z) : Prop :=
  exists d z k, okd d /\ trip d = t /\ p = dpth_mk d z k.

Fixpoint increasing (t : Z * Z * Z) (l : list (Z * Z * Z)) : Prop :=
  match l with [] => True | x :: r => trip_lt t x /\ increasing x r end.

Lemma increasing_all : forall l t x, increasing t l -> In x l -> trip_lt t x.
Proof.
  induction l as [|y l IH]; intros t x H Hi; [contradiction|]. destruct H as [H1 H2].
  destruct Hi as [->|Hi]; auto. eapply trip_lt_trans; [exact H1|apply IH; auto].
Qed.

Lemma steps_ok_weaken : forall n d, steps_ok (S n) d -> steps_ok n d.
Proof. induction n; intros d H; cbn; auto. destruct H as [H1 H2]. split; auto. Qed.

Lemma hand_out_increasing : forall fs d, okd d -> steps_ok (pred (List.length fs)) d ->
  exists ts, Forall2 stands (fst (hand_out d fs)) ts /\
    match ts with [] => fs = [] | t :: r => t = trip d /\ increasing t r end.
Proof.
  induction fs as [|[z c] fs IH]; intros d Hd Hs.
  - exists []. split; [constructor|reflexivity].
  - cbn [hand_out]. unfold new_datapth.
    destruct (hand_out (fst (dpth_incr d)) fs) as [ps d''] eqn:E. cbn [fst].
    destruct fs as [|f fs].
    + cbn in E. inversion E; subst. exists [trip d]. split; [constructor; [|constructor]|cbn; auto].
      exists d, z, c. auto.
    + cbn [List.length pred] in Hs. destruct Hs as [Hne Hs].
      destruct (dpth_incr_spec d Hd) as [(d' & E' & Hd' & _ & Lt & _)|[_ X]]; [|contradiction].
      rewrite E' in E. cbn [fst] in E. rewrite E' in Hs. cbn [fst] in Hs.
      destruct (IH d' Hd' Hs) as (ts & F & T). rewrite E in F. cbn [fst] in F.
      destruct ts as [|t r]; [discriminate|]. destruct T as [-> T].
      exists (trip d :: trip d' :: r). split.
      * constructor; auto. exists d, z, c. auto.
      * split; auto. cbn. auto.
Qed.

Lemma stands_inj : forall p t t', stands p t -> stands p t' -> t = t'.
Proof.
  intros p t t' (d & z & k & Hd & <- & E) (d' & z' & k' & Hd' & <- & E').
  apply (dpth_mk_inj d d' z z' k k'); auto. congruence.
Qed.

Lemma increasing_nodup : forall ts t ps, increasing t ts -> Forall2 stands ps ts -> NoDup ps.
Proof.
  induction ts as [|x ts IH]; intros t ps H F; inversion F; subst; constructor.
  - intros Hin. destruct H as [_ H].
    assert (exists t', In t' ts /\ stands x0 t') as (t' & Ht' & St).
    { clear - Hin H4. induction H4; [contradiction|]. destruct Hin as [->|Hin]; [exists y; cbn; auto|].
      destruct (IHForall2 Hin) as (t' & A & B). exists t'. cbn; auto. }
    pose proof (stands_inj _ _ _ H3 St) as E. subst t'.
    apply (trip_lt_irrefl x). eapply increasing_all; eauto.
  - destruct H as [_ H]. eapply IH; eauto.
Qed.

Theorem hand_out_distinct : forall fs d, okd d -> steps_ok (pred (List.length fs)) d ->
  NoDup (fst (hand_out d fs)).
Proof.
  intros fs d Hd Hs. destruct (hand_out_increasing fs d Hd Hs) as (ts & F & T).
  destruct ts as [|t r]; [inversion F; constructor|]. destruct T as [-> T].
  eapply (increasing_nodup (trip d :: r) (-1, 0, 0)); eauto. cbn. split; auto.
  destruct Hd as ((? & ?) & _ & _). unfold trip, trip_lt. lia.
Qed.

(* How many increments succeed: every path up to (m, m, 65535) is handed out. *)
Definition pos (d : dpth) : Z := (c0 d * (u16 (subdirs d) + 1) + c1 d) * 65536 + c2 d.
Definition total (m : Z) : Z := (u16 m + 1) * (u16 m + 1) * 65536.
Lemma incr_pos : forall d, okd d -> c0 d <= u16 (subdirs d) -> c1 d <= u16 (subdirs d) ->
  let d' := fst (dpth_incr d) in
  (~ exhausted d -> pos d' = pos d + 1 /\ c0 d' <= u16 (subdirs d') /\ c1 d' <= u16 (subdirs d')) /\
  (exhausted d <-> pos d = total (subdirs d) - 1).
Proof.
  intros [a b c m] (Ha & Hb & Hc) L0 L1. cbn [c0 c1 c2 subdirs] in *.
  pose proof (u16_range m) as R. unfold exhausted, dpth_incr, pos, total. cbn [c0 c1 c2 subdirs] in *.
  unfold is_u16 in *.
  split.
  - intros Hne.
    destruct (incr_spec c 65535 Hc) as [[E L]|[E L]]; rewrite E; cbn [fst c0 c1 c2 subdirs].
    + split; [lia|lia].
    + change (u16 65535) with 65535 in L.
      destruct (incr_spec b m Hb) as [[E1 L2]|[E1 L2]]; rewrite E1; cbn [fst c0 c1 c2 subdirs].
      * split; [nia|lia].
      * destruct (incr_spec a m Ha) as [[E2 L3]|[E2 L3]]; rewrite E2; cbn [fst c0 c1 c2 subdirs].
        -- split; [nia|lia].
        -- exfalso. lia.
  - split; intros; [nia|].
    assert (a <= u16 m /\ b <= u16 m /\ c <= 65535) by lia.
    destruct (Z.eq_dec c 65535); [|nia]. split; auto.
    destruct (Z.eq_dec b (u16 m)); [|nia]. destruct (Z.eq_dec a (u16 m)); [|nia]. lia.
Qed.

Theorem steps_ok_count : forall n d, okd d -> c0 d <= u16 (subdirs d) -> c1 d <= u16 (subdirs d) ->
  (steps_ok n d <-> Z.of_nat n <= total (subdirs d) - 1 - pos d).
Proof.
  induction n as [|n IH]; intros d Hd L0 L1.
  - cbn [steps_ok]. split; [|auto]. intros _. unfold pos, total.
    destruct Hd as (Ha & Hb & Hc). pose proof (u16_range (subdirs d)). unfold is_u16 in *. nia.
  - cbn [steps_ok]. destruct (incr_pos d Hd L0 L1) as [P Q].
    destruct (dpth_incr_spec d Hd) as [(d' & E' & Hd' & Hs & Lt & Hne)|[_ X]].
    + rewrite E' in *. cbn [fst] in *. specialize (P Hne). destruct P as (P1 & P2 & P3).
      rewrite (IH d' Hd' P2 P3). rewrite P1, Hs. rewrite Hs in *. split; [intros [_ H]; lia|].
      intros H. split; auto. lia.
    + split; [intros [H _]; contradiction|]. intros H. apply Q in X. lia.
Qed.

(* ---- starting point ---- *)

Lemma hex_run_four : forall n t w, is_u16 n -> (4 <= w)%nat -> (w = 4%nat \/ hexval (hd0 t) = None) ->
  hex_run w (four n ++ t) 0 false = Some (n, t).
Proof.
  intros n t w Hn Hw Ht. unfold is_u16 in Hn. unfold four.
  destruct w as [|[|[|[|w]]]]; try lia. cbn [app hex_run].
  rewrite !hexdig_val by lia. 
  replace ((((0 * 16 + n / 4096 mod 16) * 16 + n / 256 mod 16) * 16 + n / 16 mod 16) * 16 + n mod 16) with n by lia.
  destruct w; [destruct t; reflexivity|]. destruct Ht as [Ht|Ht]; [lia|].
  destruct t; [reflexivity|]. cbn [hd0] in Ht. cbn [hex_run]. rewrite Ht. reflexivity.
Qed.

Lemma hexdig_cases : forall d, 0 <= d < 16 ->
  isspace (hexdig d) = false /\ (hexdig d =? 45) = false /\ (hexdig d =? 43) = false /\
  (hexdig d =? 120) = false /\ (hexdig d =? 88) = false /\ (hexdig d =? 0) = false.
Proof.
  intros d H. pose proof (hexdig_range d H) as R. unfold isspace.
  repeat split; lia.
Qed.

Lemma four_lead : forall n t, is_u16 n ->
  skip_ws (four n ++ t) = four n ++ t /\ (forall w, take_sign w (four n ++ t) = (false, w, four n ++ t)) /\
  (forall w, take_0x w (four n ++ t) = (w, four n ++ t)).
Proof.
  intros n t Hn. unfold is_u16 in Hn. unfold four.
  destruct (hexdig_cases (n / 4096 mod 16) ltac:(lia)) as (A1 & A2 & A3 & A4 & A5 & A6).
  destruct (hexdig_cases (n / 256 mod 16) ltac:(lia)) as (B1 & B2 & B3 & B4 & B5 & B6).
  cbn [app skip_ws]. rewrite A1. split; auto. split; intros w.
  - unfold take_sign. cbn [hd0]. rewrite A2, A3. reflexivity.
  - unfold take_0x. cbn [hd0 tl]. rewrite B4, B5. cbn [orb]. rewrite andb_false_r. reflexivity.
Qed.

Lemma cview_four : forall n t, is_u16 n -> cview (four n ++ t) = four n ++ cview t.
Proof.
  intros n t Hn. unfold is_u16 in Hn. unfold four. cbn [app cview].
  destruct (hexdig_cases (n / 4096 mod 16) ltac:(lia)) as (_ & _ & _ & _ & _ & A).
  destruct (hexdig_cases (n / 256 mod 16) ltac:(lia)) as (_ & _ & _ & _ & _ & B).
  destruct (hexdig_cases (n / 16 mod 16) ltac:(lia)) as (_ & _ & _ & _ & _ & C).
  destruct (hexdig_cases (n mod 16) ltac:(lia)) as (_ & _ & _ & _ & _ & D).
  rewrite A, B, C, D. reflexivity.
Qed.

Lemma s32_u16 : forall n, is_u16 n -> s32 n = n.
Proof. unfold is_u16, s32. intros n H. rewrite Z.mod_small by lia. destruct (Z.ltb_spec n (2^31)); lia. Qed.

(* The names dpth_mk() creates at each level are read back as their number. *)
Lemma strtol16_four : forall n t, is_u16 n -> hexval (hd0 (cview t)) = None -> strtol16 (four n ++ t) = n.
Proof.
  intros n t Hn Ht. unfold strtol16. rewrite cview_four by auto.
  destruct (four_lead n (cview t) Hn) as (E1 & E2 & E3). rewrite E1, E2, E3.
  rewrite hex_run_four; auto.
  - rewrite s32_u16; auto.
  - rewrite app_length. cbn. lia.
Qed.

Lemma highest_ge : forall names max, is_u16 max ->
  (forall n, In n names -> is_u16 (strtol16 n)) ->
  is_u16 (highest names max) /\ max <= highest names max /\
  forall n, In n names -> n <> str "." -> n <> str ".." -> strtol16 n <= highest names max.
Proof.
  induction names as [|x names IH]; intros max Hm Hn; cbn [highest].
  - repeat split; auto; try lia; try (destruct Hm; lia). intros n [].
  - assert (Hx : is_u16 (strtol16 x)) by (apply Hn; left; auto).
    assert (Hn' : forall n, In n names -> is_u16 (strtol16 n)) by (intros; apply Hn; right; auto).
    destruct (beqb x (str ".") || beqb x (str "..")) eqn:Ed.
    + destruct (IH max Hm Hn') as (A & B & C). repeat split; auto; try (destruct A; lia).
      intros n [->|Hin] N1 N2; [|apply C; auto].
      apply orb_true_iff in Ed. destruct Ed as [Ed|Ed]; apply beqb_eq in Ed; contradiction.
    + rewrite (u16_small _ Hx).
      destruct (Z.ltb_spec max (strtol16 x)).
      * destruct (IH (strtol16 x) Hx Hn') as (A & B & C). repeat split; try (destruct A; lia).
        intros n [->|Hin] N1 N2; [lia|apply C; auto].
      * destruct (IH max Hm Hn') as (A & B & C). repeat split; try (destruct A; lia).
        intros n [->|Hin] N1 N2; [lia|apply C; auto].
Qed.

(* Spec: what the storage directory holds.  [files] are the numbered data files
   present; every one is visible through the directory listings; other names
   may be present as long as they read as numbers in range. *)
Definition gz (b : bool) : bytes := if b then str ".gz" else [].
Definition listed (ls : bytes -> list bytes) (files : list (Z * Z * Z * bool)) : Prop :=
  (forall p n, In n (ls p) -> is_u16 (strtol16 n)) /\
  Forall (fun f => let '(a, b, c, z) := f in is_u16 a /\ is_u16 b /\ is_u16 c /\
    In (four a) (ls []) /\ In (four b) (ls (four a)) /\ In (four c ++ gz z) (ls (four a ++ [slash] ++ four b))) files.

Lemma four_not_dot : forall n t, four n ++ t <> str "." /\ four n ++ t <> str "..".
Proof. intros. split; discriminate. Qed.

Theorem init_fresh : forall ls files m d, listed ls files -> dpth_init ls m = Some d ->
  okd d /\ Forall (fun f => let '(a, b, c, z) := f in
     trip_lt (a, b, c) (trip d) /\
     forall y k, dpth_mk d y k <> four a ++ [slash] ++ four b ++ [slash] ++ four c ++ gz z) files.
Proof.
  intros ls files m d [Hr Hf] H. unfold dpth_init in H.
  assert (U0 : is_u16 0) by (unfold is_u16; lia).
  destruct (highest_ge (ls []) 0 U0 (fun n => Hr [] n)) as (A0 & _ & M0). fold (get_highest_entry (ls [])) in *.
  set (x0 := get_highest_entry (ls [])) in *.
  unfold dpth_mk_prim in H. cbn [c0] in H. rewrite fmt_04X_small in H by (unfold is_u16 in A0; lia).
  destruct (highest_ge (ls (four x0)) 0 U0 (fun n => Hr _ n)) as (A1 & _ & M1). fold (get_highest_entry (ls (four x0))) in *.
  set (x1 := get_highest_entry (ls (four x0))) in *.
  unfold dpth_mk_seco in H. cbn [c0 c1] in H. rewrite !fmt_04X_small in H by (unfold is_u16 in *; lia).
  destruct (highest_ge (ls (four x0 ++ [slash] ++ four x1)) 0 U0 (fun n => Hr _ n)) as (A2 & _ & M2).
  fold (get_highest_entry (ls (four x0 ++ [slash] ++ four x1))) in *.
  set (x2 := get_highest_entry (ls (four x0 ++ [slash] ++ four x1))) in *.
  assert (Ok : okd (mkdpth x0 x1 x2 m)) by (repeat split; cbn; unfold is_u16 in *; lia).
  destruct (dpth_incr_spec _ Ok) as [(d' & E & Od & _ & Lt & _)|[E _]]; rewrite E in H; [|discriminate].
  inversion H; subst d'. split; auto.
  eapply Forall_impl; [|exact Hf]. intros [[[a b] c] z] (Ha & Hb & Hc & I0 & I1 & I2).
  assert (T : trip_lt (a, b, c) (trip d)).
  { specialize (M0 _ I0).
    rewrite <- (app_nil_r (four a)) in M0. rewrite strtol16_four in M0; auto.
    specialize (M0 (proj1 (four_not_dot a [])) (proj2 (four_not_dot a []))).
    unfold trip in *. cbn [c0 c1 c2] in Lt.
    destruct (Z.eq_dec a x0) as [->|]; [|unfold trip_lt in *; unfold is_u16 in *; lia].
    specialize (M1 _ I1). rewrite <- (app_nil_r (four b)) in M1. rewrite strtol16_four in M1; auto.
    specialize (M1 (proj1 (four_not_dot b [])) (proj2 (four_not_dot b []))).
    destruct (Z.eq_dec b x1) as [->|]; [|unfold trip_lt in *; unfold is_u16 in *; lia].
    specialize (M2 _ I2). rewrite strtol16_four in M2; [|auto|destruct z; reflexivity].
    specialize (M2 (proj1 (four_not_dot c _)) (proj2 (four_not_dot c _))).
    unfold trip_lt in *; unfold is_u16 in *; lia. }
  split; auto. intros y k E2.
  apply (trip_lt_irrefl (a, b, c)).
  replace (trip d) with (a, b, c) in T; auto.
  symmetry.
  assert (Ok2 : okd (mkdpth a b c m)) by (repeat split; cbn; unfold is_u16 in *; lia).
  change (a, b, c) with (trip (mkdpth a b c m)).
  eapply (dpth_mk_inj d _ y (if z then 1 else 0) k 0); auto.
  rewrite E2. unfold dpth_mk. cbn [c0 c1 c2]. rewrite !fmt_04X_small by (unfold is_u16 in *; lia).
  destruct z; reflexivity.
Qed.

(* ---- resuming ---- *)

Lemma scan_04X_four : forall n t, is_u16 n -> scan_04X (four n ++ t) = Some (n, t).
Proof.
  intros n t Hn. unfold scan_04X. destruct (four_lead n t Hn) as (E1 & E2 & E3).
  rewrite E1, E2, E3, hex_run_four by auto. unfold is_u16 in Hn. rewrite Z.mod_small by lia. reflexivity.
Qed.

Lemma cview_gz : forall z, cview (gz z) = gz z. Proof. destruct z; reflexivity. Qed.

Definition pathstr (f : Z * Z * Z * bool) : bytes :=
  let '(a, b, c, z) := f in four a ++ [slash] ++ four b ++ [slash] ++ four c ++ gz z.

Lemma scan_path_mk : forall a b c z, is_u16 a -> is_u16 b -> is_u16 c ->
  scan_path (pathstr (a, b, c, z)) = Some (a, b, c).
Proof.
  intros a b c z Ha Hb Hc. unfold scan_path, pathstr.
  rewrite cview_four by auto. change (cview ([slash] ++ four b ++ [slash] ++ four c ++ gz z))
    with (slash :: cview (four b ++ [slash] ++ four c ++ gz z)).
  rewrite cview_four by auto. change (cview ([slash] ++ four c ++ gz z)) with (slash :: cview (four c ++ gz z)).
  rewrite cview_four, cview_gz by auto.
  rewrite scan_04X_four by auto. cbn [scan_slash hd0 tl]. unfold scan_slash. cbn [hd0 tl]. rewrite Z.eqb_refl.
  rewrite scan_04X_four by auto. cbn [hd0 tl]. rewrite Z.eqb_refl.
  rewrite scan_04X_four by auto. reflexivity.
Qed.

Definition trip_le x y := trip_lt x y \/ x = y.

Lemma set_from_string_spec : forall d a b c z, okd d -> is_u16 a -> is_u16 b -> is_u16 c ->
  exists d', dpth_set_from_string d (Some (pathstr (a, b, c, z))) = (d', true) /\ okd d' /\
    subdirs d' = subdirs d /\ trip_le (trip d) (trip d') /\ trip_le (a, b, c) (trip d').
Proof.
  intros [x y w m] a b c z (Hx & Hy & Hw) Ha Hb Hc. cbn [c0 c1 c2 subdirs] in *.
  unfold dpth_set_from_string.
  replace (hd0 (pathstr (a, b, c, z)) =? 116) with false.
  2:{ cbn. symmetry. apply Z.eqb_neq. unfold is_u16 in Ha. pose proof (hexdig_range (a / 4096 mod 16) ltac:(lia)). lia. }
  rewrite scan_path_mk by auto. cbn [c0 c1 c2 subdirs]. rewrite !s32_u16 by auto.
  set (d := mkdpth x y w m).
  assert (Od : okd d) by (repeat split; cbn; unfold is_u16 in *; lia).
  assert (K : trip_lt (a, b, c) (trip d) -> exists d', (d, true) = (d', true) /\ okd d' /\ subdirs d' = subdirs d /\
     trip_le (trip d) (trip d') /\ trip_le (a, b, c) (trip d')).
  { intros L. exists d. repeat split; try apply Od; [right; auto|left; auto]. }
  destruct ((x =? a) && (y =? b) && (c <? w)) eqn:E1; [apply K; unfold d, trip, trip_lt; cbn; lia|].
  destruct ((x =? a) && (b <? y)) eqn:E2; [apply K; unfold d, trip, trip_lt; cbn; lia|].
  destruct (a <? x) eqn:E3; [apply K; unfold d, trip, trip_lt; cbn; lia|].
  exists (mkdpth a b c m). rewrite !u16_small by auto. split; [reflexivity|].
  split; [repeat split; cbn; unfold is_u16 in *; lia|]. split; [reflexivity|].
  split; [|right; reflexivity].
  unfold trip_le, trip, d. cbn [c0 c1 c2].
  destruct (Z.eq_dec x a), (Z.eq_dec y b), (Z.eq_dec w c); try (left; unfold trip_lt; lia).
  right. congruence.
Qed.

Lemma trip_le_trans : forall x y z, trip_le x y -> trip_le y z -> trip_le x z.
Proof.
  intros x y z [H|<-] [G|<-]; unfold trip_le; auto. left. eapply trip_lt_trans; eauto.
Qed.

(* Paths in the manifests read on resume: numbered, tree-style, or none. *)
Definition seen (p : option bytes) : Prop :=
  match p with
  | None => True
  | Some s => hd0 s = 116 \/ exists a b c z, is_u16 a /\ is_u16 b /\ is_u16 c /\ s = pathstr (a, b, c, z)
  end.

Theorem resume_fresh : forall ps d d', okd d -> Forall seen ps -> resume_paths d ps = Some d' ->
  okd d' /\ trip_lt (trip d) (trip d') /\
  forall a b c z, is_u16 a -> is_u16 b -> is_u16 c -> In (Some (pathstr (a, b, c, z))) ps -> trip_lt (a, b, c) (trip d').
Proof.
  induction ps as [|p ps IH]; intros d d' Hd F H; cbn [resume_paths] in H.
  - destruct (dpth_incr_spec d Hd) as [(d1 & E & Od & _ & Lt & _)|[E _]]; rewrite E in H; [|discriminate].
    inversion H; subst. repeat split; auto; try apply Od. intros; contradiction.
  - inversion F as [|? ? Sp Fp]; subst.
    assert (K : exists d1, dpth_set_from_string d p = (d1, true) /\ okd d1 /\ trip_le (trip d) (trip d1) /\
       forall a b c z, is_u16 a -> is_u16 b -> is_u16 c -> p = Some (pathstr (a, b, c, z)) -> trip_le (a, b, c) (trip d1)).
    { destruct p as [s|]; [|exists d; repeat split; try apply Hd; [right; auto|discriminate]].
      destruct Sp as [Ht|(a & b & c & z & Ha & Hb & Hc & ->)].
      - exists d. unfold dpth_set_from_string. rewrite Ht. rewrite Z.eqb_refl. repeat split; try apply Hd; [right; auto|].
        intros a b c z Ha Hb Hc E. inversion E; subst. cbn in Ht. exfalso.
        unfold is_u16 in Ha. pose proof (hexdig_range (a / 4096 mod 16) ltac:(lia)). lia.
      - destruct (set_from_string_spec d a b c z Hd Ha Hb Hc) as (d1 & E & O1 & _ & L1 & L2).
        exists d1. split; auto. split; auto. split; auto. intros a' b' c' z' Ha' Hb' Hc' E'.
        pose proof (scan_path_mk a b c z Ha Hb Hc) as S1.
        pose proof (scan_path_mk a' b' c' z' Ha' Hb' Hc') as S2.
        assert (pathstr (a, b, c, z) = pathstr (a', b', c', z')) as EE by congruence.
        rewrite EE, S2 in S1. inversion S1; subst. exact L2. }
    destruct K as (d1 & E & O1 & L1 & P). rewrite E in H.
    destruct (IH d1 d' O1 Fp H) as (O2 & L2 & Q).
    split; auto. split.
    + destruct L1 as [L1| ->]; auto. eapply trip_lt_trans; eauto.
    + intros a b c z Ha Hb Hc [Ep|Hin]; [|apply Q with z; auto].
      destruct (P a b c z Ha Hb Hc Ep) as [G| ->]; auto. eapply trip_lt_trans; eauto.
Qed.

(* ---- C15 ---- *)

(* The increment itself reports exhaustion exactly. *)
Theorem incr_exact : forall d, okd d -> (snd (dpth_incr d) = false <-> exhausted d).
Proof.
  intros d Hd. destruct (dpth_incr_spec d Hd) as [(d' & E & _ & _ & _ & N)|[E X]]; rewrite E; cbn.
  - split; [discriminate|]. intros; contradiction.
  - tauto.
Qed.

(* But the caller ignores it: with a full counter two more files are accepted
   and the second is given the very first path. *)
Theorem exhaustion_ignored : forall m z k, let d := mkdpth (u16 m) (u16 m) 65535 m in
  exhausted d /\ hand_out d [(z, k); (z, k)] =
    ([dpth_mk d z k; dpth_mk (mkdpth 0 0 0 m) z k], mkdpth 0 0 1 m).
Proof.
  intros m z k d. pose proof (u16_range m) as R. split; [unfold exhausted, d; cbn; lia|].
  assert (Ok : okd d) by (repeat split; cbn; unfold is_u16 in *; lia).
  assert (X : exhausted d) by (unfold exhausted, d; cbn; lia).
  destruct (dpth_incr_spec d Ok) as [(d' & _ & _ & _ & _ & N)|[E _]]; [contradiction|].
  cbn [hand_out]. unfold new_datapth. rewrite E. cbn [fst]. reflexivity.
Qed.
