(* C08, C09: framing of manifest files. *)
From Verif Require Import Bytes CmdModel FrameModel.

Definition noerr (o : list rd) : Prop := Forall (fun x => x <> RdErr) o.
Definition okmsg (m : Z * bytes) : Prop :=
  is_char (fst m) /\ Z.of_nat (List.length (snd m)) <= 65535.

Lemma read_ensure_cases : forall fuel n got f, (n <= fuel)%nat ->
  let r := read_ensure fuel n got f in
  (r = RFail /\ (noerr (foracle f) -> (List.length (fbytes f) < n)%nat /\ (got <> [] \/ fbytes f <> []))) \/
  ((n <= List.length (fbytes f))%nat /\ exists o', r = ROk (got ++ firstn n (fbytes f)) (mkf (skipn n (fbytes f)) o')
      /\ (noerr (foracle f) -> noerr o')) \/
  ((0 < n)%nat /\ fbytes f = [] /\ got = [] /\ r = REof).
Proof.
  induction fuel as [|fuel IH]; intros n got [b o] Hn; cbv zeta.
  - assert (n = 0%nat) by lia. subst. cbn. right; left. split; [lia|].
    exists o. split; auto. rewrite app_nil_r. reflexivity.
  - destruct n as [|n].
    { cbn. right; left. split; [lia|]. exists o. split; auto. rewrite app_nil_r. reflexivity. }
    cbn [read_ensure foracle fbytes].
    assert (exists x rest, (match o with [] => (RdShort (S n), []) | y :: r => (y, r) end) = (x, rest) /\
              (noerr o -> x <> RdErr /\ noerr rest)) as [x [rest [Ex Hx]]].
    { destruct o as [|y r]; [exists (RdShort (S n)), []|exists y, r]; split; auto.
      - intros _. split; [discriminate|constructor].
      - intros H. inversion H; subst; auto. }
    rewrite Ex. destruct x as [|k].
    + left. split; auto. intros H. destruct (Hx H) as [K _]. congruence.
    + destruct b as [|c b].
      * destruct got as [|g got].
        -- right; right. repeat split; auto. lia.
        -- left. split; auto. intros _. split; [simpl; lia|left; discriminate].
      * set (r := Nat.min (Nat.min (S n) (S k)) (List.length (c :: b))).
        assert (Hr : (1 <= r <= S n)%nat /\ (r <= List.length (c :: b))%nat)
          by (unfold r; simpl List.length; lia).
        specialize (IH (S n - r)%nat (got ++ firstn r (c :: b)) (mkf (skipn r (c :: b)) rest) ltac:(lia)).
        cbv zeta in IH. cbn [fbytes foracle] in IH.
        assert (Hg : got ++ firstn r (c :: b) <> []).
        { destruct r; [lia|]. simpl. destruct got; discriminate. }
        rewrite skipn_length in IH.
        destruct IH as [[E H]|[[H [o' [E H2]]]|[H1 [H2 [H3 E]]]]].
        -- left. split; [exact E|]. intros N. destruct (Hx N) as [_ N2].
           destruct (H N2) as [L _]. split; [lia|right; discriminate].
        -- right; left. split; [lia|]. exists o'. split.
           ++ unfold r in E |- *. etransitivity; [exact E|]. fold r. f_equal.
              ** rewrite <- app_assoc. f_equal.
                 replace (S n) with (r + (S n - r))%nat at 2 by lia.
                 symmetry. rewrite <- (firstn_skipn r (c :: b)) at 1.
                 rewrite firstn_app. rewrite firstn_firstn.
                 replace (Nat.min (r + (S n - r)) r) with r by lia. f_equal.
                 rewrite firstn_length. f_equal. lia.
              ** f_equal. rewrite skipn_skipn'. f_equal. lia.
           ++ intros N. apply H2. destruct (Hx N); auto.
        -- contradiction.
Qed.

Lemma fzp_read_cases : forall n f,
  (fzp_read_ensure n f = RFail /\ (noerr (foracle f) -> (0 < List.length (fbytes f) < n)%nat)) \/
  ((n <= List.length (fbytes f))%nat /\ exists o', fzp_read_ensure n f = ROk (firstn n (fbytes f)) (mkf (skipn n (fbytes f)) o')
      /\ (noerr (foracle f) -> noerr o')) \/
  ((0 < n)%nat /\ fbytes f = [] /\ fzp_read_ensure n f = REof).
Proof.
  intros n f. destruct (read_ensure_cases n n [] f (le_n _)) as [[E H]|[H|[H1 [H2 [H3 E]]]]].
  - left. split; auto. intros N. destruct (H N) as [L [K|K]]; [congruence|].
    destruct (fbytes f); [congruence|simpl in *; lia].
  - right; left. exact H.
  - right; right. auto.
Qed.

(* ---- the header ---- *)
Lemma hexdig_val : forall d, 0 <= d < 16 -> hexval (hexdig d) = Some d.
Proof.
  intros d H. unfold hexdig, hexval.
  destruct (Z.ltb_spec d 10).
  - replace ((48 <=? 48 + d) && (48 + d <=? 57)) with true by lia. f_equal; lia.
  - replace ((48 <=? 55 + d) && (55 + d <=? 57)) with false by lia.
    replace ((65 <=? 55 + d) && (55 + d <=? 70)) with true by lia. f_equal; lia.
Qed.

Definition four (n : Z) : bytes :=
  [hexdig (n / 4096 mod 16); hexdig (n / 256 mod 16); hexdig (n / 16 mod 16); hexdig (n mod 16)].

Ltac Zify.zify_post_hook ::= Z.div_mod_to_equations.

Lemma fmt_04X_small : forall n, 0 <= n <= 65535 -> fmt_04X n = four n.
Proof.
  intros n H. unfold fmt_04X. rewrite Z.mod_small by lia. unfold four.
  cbn [hex_digits].
  rewrite !Z.div_div by lia. change (16 * 16) with 256. change (256 * 16) with 4096.
  change (4096 * 16) with 65536.
  destruct (Z.eqb_spec (n / 16) 0).
  { cbn [List.length Nat.sub repeat app].
    replace (n / 4096 mod 16) with 0 by lia. replace (n / 256 mod 16) with 0 by lia.
    replace (n / 16 mod 16) with 0 by lia. reflexivity. }
  destruct (Z.eqb_spec (n / 256) 0).
  { cbn [List.length Nat.sub repeat app].
    replace (n / 4096 mod 16) with 0 by lia. replace (n / 256 mod 16) with 0 by lia. reflexivity. }
  destruct (Z.eqb_spec (n / 4096) 0).
  { cbn [List.length Nat.sub repeat app].
    replace (n / 4096 mod 16) with 0 by lia. reflexivity. }
  destruct (Z.eqb_spec (n / 65536) 0); [|lia].
  reflexivity.
Qed.

Lemma hex_digits_longer : forall fuel n acc, (List.length acc <= List.length (hex_digits fuel n acc))%nat.
Proof.
  induction fuel; intros; simpl; auto. destruct (n / 16 =? 0); simpl; [lia|].
  etransitivity; [|apply IHfuel]. simpl; lia.
Qed.

Lemma fmt_04X_big : forall n, 65535 < n < 2 ^ 32 -> (5 <= List.length (fmt_04X n))%nat.
Proof.
  intros n H. unfold fmt_04X. rewrite Z.mod_small by lia. rewrite app_length.
  enough (5 <= List.length (hex_digits 8 n []))%nat by lia.
  cbn [hex_digits]. rewrite !Z.div_div by lia. change (16 * 16) with 256. change (256 * 16) with 4096.
  change (4096 * 16) with 65536.
  destruct (Z.eqb_spec (n / 16) 0); [lia|].
  destruct (Z.eqb_spec (n / 256) 0); [lia|].
  destruct (Z.eqb_spec (n / 4096) 0); [lia|].
  destruct (Z.eqb_spec (n / 65536) 0); [lia|].
  match goal with |- context [if ?b then ?x else ?y] => assert (L : (5 <= List.length x)%nat) by (simpl; lia) end.
  destruct (_ =? 0); [exact L|].
  match goal with |- (5 <= List.length (if ?b then ?x else ?y))%nat => destruct b end; [simpl; lia|].
  match goal with |- (5 <= List.length (if ?b then ?x else ?y))%nat => destruct b end; [simpl; lia|].
  match goal with |- (5 <= List.length (if ?b then ?x else ?y))%nat => destruct b end; simpl; lia.
Qed.

Lemma hexdig_range : forall d, 0 <= d < 16 -> (48 <= hexdig d <= 57) \/ (65 <= hexdig d <= 70).
Proof. intros. unfold hexdig. destruct (Z.ltb_spec d 10); lia. Qed.

Lemma scan_lead_tail : forall c n t, is_char c -> 0 <= n <= 65535 ->
  scan_lead (c :: four n ++ t) = Some (c, n).
Proof.
  intros c n t Hc Hn. unfold scan_lead, four. cbn [app].
  set (d3 := n / 4096 mod 16). set (d2 := n / 256 mod 16). set (d1 := n / 16 mod 16). set (d0 := n mod 16).
  assert (B3 : 0 <= d3 < 16) by (unfold d3; lia). assert (B2 : 0 <= d2 < 16) by (unfold d2; lia).
  assert (B1 : 0 <= d1 < 16) by (unfold d1; lia). assert (B0 : 0 <= d0 < 16) by (unfold d0; lia).
  assert (V : n = d3 * 4096 + d2 * 256 + d1 * 16 + d0) by (unfold d3, d2, d1, d0; lia).
  clearbody d3 d2 d1 d0.
  pose proof (hexdig_range _ B3) as R3. pose proof (hexdig_range _ B2) as R2.
  pose proof (hexdig_range _ B1) as R1. pose proof (hexdig_range _ B0) as R0.
  unfold is_char in Hc. cbn [cview].
  replace (c =? 0) with false by lia. replace (hexdig d3 =? 0) with false by lia.
  replace (hexdig d2 =? 0) with false by lia. replace (hexdig d1 =? 0) with false by lia.
  replace (hexdig d0 =? 0) with false by lia.
  cbn [skip_ws]. replace (isspace (hexdig d3)) with false by (unfold isspace; lia).
  cbn [hd0 tl].
  replace (hexdig d3 =? 45) with false by lia. replace (hexdig d3 =? 43) with false by lia.
  cbv iota. cbn [hd0 tl].
  replace (hexdig d2 =? 120) with false by lia. replace (hexdig d2 =? 88) with false by lia.
  cbn [orb]. rewrite andb_false_r.
  cbn [scan_digits]. rewrite !hexdig_val by assumption.
  f_equal. f_equal. rewrite Z.mod_small; lia.
Qed.

Lemma scan_lead_four : forall c n, is_char c -> 0 <= n <= 65535 ->
  scan_lead (c :: four n) = Some (c, n).
Proof. intros. rewrite <- (app_nil_r (four n)). apply scan_lead_tail; auto. Qed.

(* Spec of the file contents: header, payload, newline for each message. *)
Definition frame (m : Z * bytes) : bytes := fst m :: four (Z.of_nat (List.length (snd m))) ++ snd m ++ [10].

Lemma send_msg_ok : forall m, okmsg m -> send_msg (fst m) (snd m) = (frame m, true).
Proof.
  intros [c b] [Hc Hl]. simpl in *. unfold send_msg, frame. cbn [fst snd].
  rewrite fmt_04X_small by lia. reflexivity.
Qed.
Lemma send_msg_long : forall c b, 65535 < Z.of_nat (List.length b) < 2 ^ 32 -> snd (send_msg c b) = false.
Proof.
  intros c b H. unfold send_msg. pose proof (fmt_04X_big _ H) as L.
  cbn [List.length]. destruct (Z.eqb_spec (Z.of_nat (S (List.length (fmt_04X (Z.of_nat (List.length b)))))) 5); [lia|].
  reflexivity.
Qed.

Lemma write_all_ok : forall l, Forall okmsg l -> write_all l = (concat (map frame l), true).
Proof.
  induction l as [|[c b] l IH]; intros F; simpl; auto.
  inversion F; subst. pose proof (send_msg_ok (c, b) H1) as E. simpl in E. rewrite E.
  rewrite IH by auto. reflexivity.
Qed.

Lemma frame_length : forall m, List.length (frame m) = (6 + List.length (snd m))%nat.
Proof. intros. unfold frame, four. simpl. rewrite app_length. simpl. lia. Qed.

Lemma frame_split : forall m rest k, (5 <= k)%nat -> 
  firstn k (frame m ++ rest) = (fst m :: four (Z.of_nat (List.length (snd m)))) ++ firstn (k - 5) ((snd m ++ [10]) ++ rest).
Proof.
  intros m rest k H. unfold frame, four.
  replace k with (5 + (k - 5))%nat at 1 by lia. reflexivity.
Qed.

(* What one read does on a prefix of framed data. *)
Lemma fill_cut : forall m rest k o, okmsg m ->
  let L := (6 + List.length (snd m))%nat in
  let f := mkf (firstn k (frame m ++ rest)) o in
  (fill_from_fzp 1 f = FError /\ (noerr o -> (0 < k < L)%nat /\ k <> 5%nat)) \/
  (fill_from_fzp 1 f = FEnd /\ (k = 0%nat \/ k = 5%nat)) \/
  ((L <= k)%nat /\ exists o', fill_from_fzp 1 f = FMsg m (mkf (firstn (k - L) rest) o') /\ (noerr o -> noerr o')).
Proof.
  intros m rest k o Hm L f. subst f. unfold fill_from_fzp.
  assert (Lf : (List.length (frame m ++ rest) >= L)%nat) by (rewrite app_length, frame_length; unfold L; lia).
  destruct (fzp_read_cases 5 (mkf (firstn k (frame m ++ rest)) o)) as [[E H]|[[H [o1 [E N1]]]|[H1 [H2 E]]]];
    cbn [fbytes foracle] in *; rewrite E.
  - left. split; auto. intros N. specialize (H N). rewrite firstn_length in H. lia.
  - assert (Hk : (5 <= k)%nat) by (rewrite firstn_length in H; lia).
    rewrite frame_split by auto.
    assert (F5 : forall t, firstn 5 ((fst m :: four (Z.of_nat (List.length (snd m)))) ++ t) = fst m :: four (Z.of_nat (List.length (snd m)))) by reflexivity.
    assert (S5 : forall t, skipn 5 ((fst m :: four (Z.of_nat (List.length (snd m)))) ++ t) = t) by reflexivity.
    rewrite F5, S5. destruct Hm as [Hc Hl].
    rewrite scan_lead_four by (auto; lia). rewrite Nat2Z.id.
    set (b := snd m) in *.
    destruct (fzp_read_cases (List.length b + 1) (mkf (firstn (k - 5) ((b ++ [10]) ++ rest)) o1))
      as [[E2 H2]|[[H2 [o2 [E2 N2]]]|[H3 [H2 E2]]]]; cbn [fbytes foracle] in *; rewrite E2.
    + left. split; auto. intros N. specialize (H2 (N1 N)).
      rewrite firstn_length, !app_length in H2. simpl in H2. unfold L. lia.
    + right; right. rewrite firstn_length in H2.
      assert (Lk : (L <= k)%nat) by (unfold L; lia). split; [exact Lk|]. exists o2.
      split; [|auto].
      assert (B1 : (List.length b + 1)%nat = List.length (b ++ [10])) by (rewrite app_length; reflexivity).
      assert (X : firstn (k - 5) ((b ++ [10]) ++ rest) = (b ++ [10]) ++ firstn (k - L) rest).
      { rewrite firstn_app. rewrite firstn_all2 by (rewrite <- B1; unfold L in Lk; fold b in Lk; lia).
        f_equal. f_equal. rewrite <- B1. unfold L. fold b. lia. }
      rewrite X, B1. rewrite firstn_app, firstn_all, Nat.sub_diag, skipn_app, skipn_all, Nat.sub_diag.
      cbn [firstn skipn app]. rewrite app_nil_r.
      rewrite firstn_app, firstn_all, Nat.sub_diag. cbn [firstn]. rewrite app_nil_r.
      f_equal. destruct m; reflexivity.
    + right; left. split; auto. right.
      assert (List.length (firstn (k - 5) ((b ++ [10]) ++ rest)) = 0%nat) by (rewrite H2; reflexivity).
      rewrite firstn_length, !app_length in H0. simpl in H0. lia.
  - right; left. split; auto. left.
    assert (List.length (firstn k (frame m ++ rest)) = 0%nat) by (rewrite H2; reflexivity).
    rewrite firstn_length in H. unfold L in Lf. lia.
Qed.

Lemma fill_empty : forall o, 
  (fill_from_fzp 1 (mkf [] o) = FError /\ ~ noerr o) \/ fill_from_fzp 1 (mkf [] o) = FEnd.
Proof.
  intros o. unfold fill_from_fzp.
  destruct (fzp_read_cases 5 (mkf [] o)) as [[E H]|[[H [o1 [E N1]]]|[H1 [H2 E]]]]; cbn [fbytes foracle] in *; rewrite E; auto.
  - left. split; auto. intros N. apply H in N. simpl in N. lia.
  - simpl in H. lia.
Qed.

(* Cut positions: [boundary l k j] says that k bytes are exactly the first j
   messages (k may exceed the file). *)
Definition file_of (l : list (Z * bytes)) : bytes := concat (map frame l).

Lemma read_cut : forall l k o fuel, Forall okmsg l -> (List.length l < fuel)%nat ->
  let w := firstn k (file_of l) in
  exists j e, (j <= List.length l)%nat /\ read_all fuel 1 (mkf w o) = (firstn j l, e) /\ e <> OutOfFuel /\
    (e = Clean -> List.length w = List.length (file_of (firstn j l)) \/
       ((j < List.length l)%nat /\ List.length w = (List.length (file_of (firstn j l)) + 5)%nat)) /\
    (e = Broken -> noerr o -> (j < List.length l)%nat /\
       (List.length (file_of (firstn j l)) < List.length w < List.length (file_of (firstn (S j) l)))%nat /\
       List.length w <> (List.length (file_of (firstn j l)) + 5)%nat).
Proof.
  induction l as [|m l IH]; intros k o fuel F Hf; cbv zeta.
  - destruct fuel; [simpl in Hf; lia|]. unfold file_of. cbn [map concat]. rewrite firstn_nil.
    cbn [read_all]. destruct (fill_empty o) as [[E N]|E]; rewrite E.
    + exists 0%nat, Broken. simpl. repeat split; auto; try discriminate; contradiction.
    + exists 0%nat, Clean. simpl. repeat split; auto; try discriminate.
  - inversion F as [|? ? Hm Hl]; subst. destruct fuel; [lia|]. simpl in Hf.
    change (file_of (m :: l)) with (frame m ++ file_of l).
    cbn [read_all].
    pose proof (frame_length m) as FL.
    destruct (fill_cut m (file_of l) k o Hm) as [[E N]|[[E N]|[Lk [o' [E N]]]]]; rewrite E.
    + exists 0%nat, Broken. split; [lia|]. split; [reflexivity|]. split; [discriminate|].
      split; [discriminate|]. intros _ No. specialize (N No).
      change (file_of (firstn 0 (m :: l))) with (@nil Z). change (firstn 1 (m :: l)) with [m].
      assert (file_of [m] = frame m) as FM by (unfold file_of; cbn [map concat]; apply app_nil_r).
      rewrite FM, firstn_length, app_length, FL. simpl. lia.
    + exists 0%nat, Clean. split; [lia|]. split; [reflexivity|]. split; [discriminate|].
      split; [|discriminate]. intros _. change (file_of (firstn 0 (m :: l))) with (@nil Z).
      cbn [List.length]. rewrite firstn_length, app_length, FL. lia.
    + destruct (IH (k - (6 + List.length (snd m)))%nat o' fuel Hl ltac:(lia)) as [j [e [Hj [R [Ne [HC HB]]]]]].
      rewrite R. exists (S j), e. split; [simpl; lia|]. split; [reflexivity|]. split; [auto|].
      assert (W : List.length (firstn k (frame m ++ file_of l)) =
                  (List.length (frame m) + List.length (firstn (k - (6 + List.length (snd m))) (file_of l)))%nat).
      { rewrite !firstn_length, app_length, FL. lia. }
      assert (G : forall i, List.length (file_of (firstn (S i) (m :: l))) = (List.length (frame m) + List.length (file_of (firstn i l)))%nat).
      { intros i. simpl firstn. change (file_of (m :: firstn i l)) with (frame m ++ file_of (firstn i l)).
        apply app_length. }
      rewrite W, !G. split.
      * intros H. destruct (HC H) as [H1|[H1 H2]]; [left; lia|right; cbn [List.length]; lia].
      * intros H No. destruct (HB H (N No)) as [H1 [H2 H3]]. cbn [List.length]. lia.
Qed.

Lemma file_of_app : forall a b, file_of (a ++ b) = file_of a ++ file_of b.
Proof. intros. unfold file_of. rewrite map_app, concat_app. reflexivity. Qed.

Lemma file_of_mono : forall l i j, (i < j <= List.length l)%nat ->
  (List.length (file_of (firstn i l)) + 6 <= List.length (file_of (firstn j l)))%nat.
Proof.
  intros l i j H.
  replace (firstn j l) with (firstn i l ++ firstn (j - i) (skipn i l)).
  - rewrite file_of_app, app_length.
    destruct (firstn (j - i) (skipn i l)) as [|m r] eqn:E.
    + apply (f_equal (@List.length _)) in E. rewrite firstn_length, skipn_length in E. simpl in E. lia.
    + change (file_of (m :: r)) with (frame m ++ file_of r). rewrite app_length, frame_length. lia.
  - replace j with (i + (j - i))%nat at 2 by lia.
    rewrite <- (firstn_skipn i l) at 3. rewrite firstn_app.
    rewrite firstn_firstn. replace (Nat.min (i + (j - i)) i) with i by lia. f_equal.
    rewrite firstn_length. f_equal. lia.
Qed.

(* C08 *)
Lemma framing_roundtrip : forall l o fuel, Forall okmsg l -> (List.length l < fuel)%nat ->
  exists w, write_all l = (w, true) /\
   (noerr o -> read_all fuel 1 (mkf w o) = (l, Clean)) /\
   (exists j e, read_all fuel 1 (mkf w o) = (firstn j l, e) /\ e <> OutOfFuel /\ (e = Clean -> firstn j l = l)).
Proof.
  intros l o fuel F Hf. exists (file_of l). split; [apply write_all_ok; auto|].
  pose proof (read_cut l (List.length (file_of l)) o fuel F Hf) as R. cbv zeta in R.
  rewrite firstn_all in R. destruct R as [j [e [Hj [R [Ne [HC HB]]]]]].
  assert (J : e = Clean -> j = List.length l).
  { intros H. destruct (Nat.eq_dec j (List.length l)) as [|Nj]; auto. exfalso.
    pose proof (file_of_mono l j (List.length l) ltac:(lia)) as M. rewrite firstn_all in M.
    destruct (HC H) as [K|[_ K]]; lia. }
  split.
  - intros No. destruct e; [|exfalso|congruence].
    + rewrite R. rewrite (J eq_refl), firstn_all. reflexivity.
    + destruct (HB eq_refl No) as [K1 [K2 K3]].
      assert (List.length (file_of (firstn (S j) l)) <= List.length (file_of l))%nat; [|lia].
      rewrite <- (firstn_skipn (S j) l) at 2. rewrite file_of_app, app_length. lia.
  - exists j, e. split; [exact R|]. split; [auto|]. intros H. rewrite (J H). apply firstn_all.
Qed.

(* C09, exact: where a cut is noticed. *)
Lemma truncation_exact : forall l k o fuel, Forall okmsg l -> (List.length l < fuel)%nat ->
  (k <= List.length (file_of l))%nat ->
  exists j e, read_all fuel 1 (mkf (firstn k (file_of l)) o) = (firstn j l, e) /\ e <> OutOfFuel /\
    (e = Clean -> k = List.length (file_of (firstn j l)) \/ k = (List.length (file_of (firstn j l)) + 5)%nat) /\
    (noerr o -> (exists i, k = List.length (file_of (firstn i l))) -> e = Clean) /\
    (noerr o -> (List.length (file_of (firstn j l)) <= k)%nat /\ ((j < List.length l)%nat -> (k < List.length (file_of (firstn (S j) l)))%nat)).
Proof.
  intros l k o fuel F Hf Hk.
  pose proof (read_cut l k o fuel F Hf) as R. cbv zeta in R.
  destruct R as [j [e [Hj [R [Ne [HC HB]]]]]].
  rewrite firstn_length in *. replace (Nat.min k (List.length (file_of l))) with k in * by lia.
  exists j, e. split; [exact R|]. split; [auto|]. split; [|split].
  - intros H. destruct (HC H) as [K|[_ K]]; auto.
  - intros No [i Hi]. destruct e; auto; [|congruence]. exfalso.
    destruct (HB eq_refl No) as [K1 [K2 K3]].
    assert (X : (List.length (file_of (firstn (Nat.min i (List.length l)) l)) = k)%nat).
    { destruct (Nat.le_gt_cases i (List.length l)).
      - rewrite Nat.min_l by lia. auto.
      - rewrite Nat.min_r by lia. rewrite firstn_all2 in Hi by lia. rewrite firstn_all. auto. }
    set (i' := Nat.min i (List.length l)) in *. assert (i' <= List.length l)%nat by (unfold i'; lia).
    destruct (Nat.lt_trichotomy i' j) as [C|[C|C]].
    + pose proof (file_of_mono l i' j ltac:(lia)). lia.
    + rewrite C in X. lia.
    + destruct (Nat.eq_dec i' (S j)) as [D|D]; [rewrite D in X; lia|].
      pose proof (file_of_mono l (S j) i' ltac:(lia)). lia.
  - intros No. destruct e; [| |congruence].
    + destruct (HC eq_refl) as [K|[K1 K2]]; split; try lia; intros J;
        pose proof (file_of_mono l j (S j) ltac:(lia)); lia.
    + destruct (HB eq_refl No) as [K1 [K2 K3]]. lia.
Qed.

(* C09 as stated is false: a cut right after a header looks like a clean end. *)
Lemma truncation_refuted : exists l k, Forall okmsg l /\ (k <= List.length (file_of l))%nat /\
  (forall i, k <> List.length (file_of (firstn i l))) /\
  read_all 10 1 (mkf (firstn k (file_of l)) []) = ([(CMD_FILE, str "/a")], Clean).
Proof.
  exists [(CMD_FILE, str "/a"); (CMD_FILE, str "/b")], 13%nat.
  split; [|split; [|split]].
  - repeat constructor; simpl; unfold is_char, CMD_FILE; try lia.
  - vm_compute. repeat constructor.
  - intros [|[|[|i]]]; [vm_compute; discriminate..|]. simpl firstn. destruct i; vm_compute; discriminate.
  - vm_compute. reflexivity.
Qed.
