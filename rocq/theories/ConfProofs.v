(* Specification and proofs about configuration lines (C50, C52, C53). *)
From Verif Require Import Bytes FrameModel BuModel AuthModel ConfModel DpthModel BuProofs TimerModel TimerProofs.

(* ---------- Specification ---------- *)

Definition blank (s : bytes) : Prop := Forall (fun c => isspace c = true) s.
(* A value in quotes. *)
Definition escape (q : Z) (v : bytes) : bytes := flat_map (fun c => if (c =? q) || (c =? 92) then [92; c] else [c]) v.
Definition quoted (q : Z) (v : bytes) : bytes := q :: escape q v ++ [q].
(* A name: not empty, no '=', does not begin like a comment or with a blank, does
   not end with a blank or a colon. *)
Definition name_ok (f : bytes) : Prop :=
  f <> [] /\ cstr f /\ ~ In 61 f /\ hd0 f <> 35 /\ isspace (hd0 f) = false /\ space_or_colon (List.last f 0) = false.
(* Text inside quotes and what it means. *)
Inductive inside (q : Z) : bytes -> bytes -> Prop :=
| inside_nil : inside q [] []
| inside_char : forall c t m, c <> q -> c <> 92 -> inside q t m -> inside q (c :: t) (c :: m)
| inside_esc : forall c t m, inside q t m -> inside q (92 :: c :: t) (c :: m).
(* A value opened by a quote that ends in a backslash that escapes nothing. *)
Definition dangling (v : bytes) : Prop := exists q t m, (q = 39 \/ q = 34) /\ inside q t m /\ v = q :: t ++ [92].

(* ---------- C50 ---------- *)

Lemma unquote_inside : forall q t m, q <> 92 -> inside q t m -> forall r acc, unquote q (t ++ r) acc = unquote q r (rev m ++ acc).
Proof.
  intros q t m Q H. induction H as [|c t m N1 N2 H IH|c t m H IH]; intros r acc; auto.
  - cbn [app unquote]. destruct (Z.eqb_spec c q); [congruence|]. destruct (Z.eqb_spec c 92); [congruence|].
    rewrite IH. cbn [rev]. rewrite <- app_assoc. auto.
  - cbn [app unquote]. destruct (Z.eqb_spec 92 q); [congruence|]. cbn [Z.eqb Pos.eqb].
    rewrite IH. cbn [rev]. rewrite <- app_assoc. auto.
Qed.
Lemma escape_inside : forall q v, inside q (escape q v) v.
Proof.
  intros q. induction v as [|c v IH]; cbn [escape flat_map]; [constructor|].
  destruct (Z.eqb_spec c q) as [->|]; cbn [orb app]; [constructor; auto|].
  destruct (Z.eqb_spec c 92) as [->|]; cbn [app]; [apply inside_esc; auto|apply inside_char; auto].
Qed.
Lemma unquote_quoted : forall q v tail, q <> 92 -> unquote q (escape q v ++ q :: tail) [] = Some v.
Proof.
  intros q v tail Q. rewrite (unquote_inside q _ v Q (escape_inside q v)). cbn [unquote]. rewrite Z.eqb_refl, app_nil_r, rev_involutive. auto.
Qed.

Lemma skip_ws_app : forall l s, blank l -> isspace (hd0 s) = false -> skip_ws (l ++ s) = s.
Proof.
  induction l as [|c l IH]; intros s B H; cbn [app].
  - destruct s as [|c s]; auto. cbn in *. rewrite H. auto.
  - cbn [skip_ws]. rewrite (Forall_inv B). apply IH; auto. apply Forall_inv_tail in B; auto.
Qed.
Lemma split_eq_app : forall a b, ~ In 61 a -> split_eq (a ++ 61 :: b) = Some (a, b).
Proof.
  induction a as [|c a IH]; intros b N; cbn [app split_eq]; auto.
  destruct (Z.eqb_spec c 61) as [->|]; [exfalso; apply N; left; auto|]. rewrite IH; auto. intros X. apply N. right; auto.
Qed.
Lemma skip_back_app : forall p l s, Forall (fun c => p c = true) l -> (s = [] \/ p (hd0 s) = false) -> skip_back p (l ++ s) = s.
Proof.
  intros p. induction l as [|c l IH]; intros s F H; cbn [app].
  - destruct H as [->|H]; auto. destruct s as [|c s]; auto. cbn in *. rewrite H. auto.
  - cbn [skip_back]. rewrite (Forall_inv F). apply IH; auto. apply Forall_inv_tail in F; auto.
Qed.
Lemma skip_back_split : forall p s, exists l, s = l ++ skip_back p s /\ Forall (fun c => p c = true) l /\
  (skip_back p s = [] \/ p (hd0 (skip_back p s)) = false).
Proof.
  intros p. induction s as [|c s IH]; [exists []; cbn; auto|]. cbn [skip_back]. destruct (p c) eqn:E.
  - destruct IH as (l & A & B & C). exists (c :: l). split; [cbn; f_equal; auto|]. split; auto.
  - exists []. split; auto.
Qed.
Lemma hd0_rev_last : forall s, hd0 (rev s) = List.last s 0.
Proof.
  intros s. destruct s as [|c s] using rev_ind; auto. rewrite rev_app_distr, last_last. auto.
Qed.
Lemma rstrip_keeps : forall x c tail, isspace c = false -> exists tail', rev (skip_back isspace (rev (x ++ c :: tail))) = x ++ c :: tail'.
Proof.
  intros x c tail H. replace (x ++ c :: tail) with ((x ++ [c]) ++ tail) by (rewrite <- app_assoc; auto).
  rewrite rev_app_distr, rev_app_distr. cbn [rev app].
  destruct (skip_back_split isspace (rev tail)) as (l & A & B & C).
  assert (E : skip_back isspace (rev tail ++ c :: rev x) = skip_back isspace (rev tail) ++ c :: rev x).
  { rewrite A at 1. rewrite <- app_assoc. apply skip_back_app; auto. right.
    destruct C as [->|C]; [cbn; auto|]. destruct (skip_back isspace (rev tail)); cbn in *; auto. }
  rewrite E, rev_app_distr. cbn [rev]. rewrite rev_involutive, <- app_assoc. cbn [app]. eexists. reflexivity.
Qed.

Lemma soc_not_eq : forall s, Forall (fun c => space_or_colon c = true) s -> ~ In 61 s.
Proof. intros s F X. rewrite Forall_forall in F. specialize (F 61 X). vm_compute in F. discriminate. Qed.

Theorem quoted_roundtrip : forall lead f sp1 sp2 q v tail, blank lead -> name_ok f ->
  Forall (fun c => space_or_colon c = true) sp1 -> blank sp2 -> q = 39 \/ q = 34 -> v <> [] ->
  conf_get_pair (lead ++ f ++ sp1 ++ 61 :: sp2 ++ quoted q v ++ tail) = PPair f v (has_byte 58 sp1).
Proof.
  intros lead f sp1 sp2 q v tail Bl (Nf & Cf & Ef & Hf & Sf & Lf) F1 B2 Q Nv.
  assert (Qs : isspace q = false) by (destruct Q as [->| ->]; reflexivity).
  assert (Q92 : q <> 92) by (destruct Q; lia).
  unfold conf_get_pair. rewrite skip_ws_app; auto.
  2:{ destruct f; [congruence|]. exact Sf. }
  assert (H0 : (hd0 (f ++ sp1 ++ 61 :: sp2 ++ quoted q v ++ tail) =? 0) || (hd0 (f ++ sp1 ++ 61 :: sp2 ++ quoted q v ++ tail) =? 35) = false).
  { destruct f as [|c f]; [congruence|]. apply Forall_inv in Cf. unfold is_char in Cf. cbn [app hd0] in *. lia. }
  rewrite H0, app_assoc, split_eq_app.
  2:{ intros X. apply in_app_or in X. destruct X as [X|X]; [auto|]. exact (soc_not_eq _ F1 X). }
  rewrite rev_app_distr, skip_back_app; [|apply Forall_rev; auto|right; rewrite hd0_rev_last; auto].
  destruct (rev f) as [|b bs] eqn:Rf.
  { exfalso. apply Nf. rewrite <- (rev_involutive f), Rf. auto. }
  rewrite <- Rf, rev_involutive.
  assert (R : firstn (List.length (f ++ sp1) - List.length f) (rev sp1 ++ rev f) = rev sp1).
  { rewrite app_length. replace (List.length f + List.length sp1 - List.length f)%nat with (List.length (rev sp1)) by (rewrite rev_length; lia).
    apply firstn_app_2_nil || (rewrite firstn_app, Nat.sub_diag, firstn_O, app_nil_r; apply firstn_all). }
  rewrite R. assert (Hc : has_byte 58 (rev sp1) = has_byte 58 sp1).
  { destruct (has_byte 58 sp1) eqn:E; apply Bool.eq_true_iff_eq; unfold has_byte in *.
    - split; auto. intros _. apply existsb_exists in E. destruct E as (x & X & Y). apply existsb_exists. exists x. split; auto. apply -> in_rev. auto.
    - split; [|discriminate]. intros X. apply existsb_exists in X. destruct X as (x & X & Y). rewrite <- E. apply existsb_exists. exists x. split; auto. apply in_rev. auto. }
  rewrite Hc. cbv zeta. rewrite skip_ws_app by (auto; exact Qs).
  destruct (rstrip_keeps (q :: escape q v) q tail Qs) as (tail' & T).
  assert (E : quoted q v ++ tail = (q :: escape q v) ++ q :: tail) by (unfold quoted; cbn [app]; rewrite <- app_assoc; auto).
  rewrite E, T. unfold remove_quotes. cbn [app hd0 tl].
  destruct Q as [->| ->].
  - rewrite Z.eqb_refl, unquote_quoted by auto. destruct v; [congruence|auto].
  - cbn [Z.eqb Pos.eqb]. rewrite unquote_quoted by auto. destruct v; [congruence|auto].
Qed.

(* ---------- C52 ---------- *)

Lemma unquote_none : forall q, q <> 92 -> forall s acc, unquote q s acc = None <-> exists t m, inside q t m /\ s = t ++ [92].
Proof.
  intros q Q. intros s. remember (List.length s) as n eqn:En. revert s En.
  induction n as [n IH] using lt_wf_ind. intros s En acc. destruct s as [|c r]; cbn [unquote].
  - split; [discriminate|]. intros (t & m & _ & E). destruct t; discriminate.
  - destruct (Z.eqb_spec c q) as [->|N].
    + split; [discriminate|]. intros (t & m & I & E). destruct I; injection E as E1 E2; congruence.
    + destruct (Z.eqb_spec c 92) as [->|N2].
      * destruct r as [|d r].
        -- split; auto. intros _. exists [], []. split; [constructor|auto].
        -- cbn in En. rewrite (IH (List.length r)) by (auto; lia). split.
           ++ intros (t & m & I & ->). exists (92 :: d :: t), (d :: m). split; [constructor; auto|auto].
           ++ intros (t & m & I & E). destruct I as [|c t m A B I|c t m I].
              ** discriminate.
              ** injection E as E1 E2. congruence.
              ** injection E as <- ->. exists t, m. auto.
      * cbn in En. rewrite (IH (List.length r)) by (auto; lia). split.
        -- intros (t & m & I & ->). exists (c :: t), (c :: m). split; [constructor; auto|auto].
        -- intros (t & m & I & E). destruct I as [|d t m A B I|d t m I].
           ** injection E as E1 E2. congruence.
           ** injection E as <- ->. exists t, m. auto.
           ** injection E as E1 E2. congruence.
Qed.
(* The value part of a line, as looked at. *)
Definition value_of (line : bytes) : bytes :=
  match split_eq (skip_ws line) with Some (_, v) => rev (skip_back isspace (rev (skip_ws v))) | None => [] end.
Lemma rq_none : forall v, (match remove_quotes v 39 with None => True | Some (true, _) => False | Some (false, _) => remove_quotes v 34 = None end) <-> dangling v.
Proof.
  intros v. unfold remove_quotes, dangling. destruct v as [|c r]; cbn [hd0 tl].
  - cbn. split; [discriminate|]. intros (q & t & m & _ & _ & E). discriminate.
  - destruct (Z.eqb_spec c 39) as [->|N].
    + pose proof (unquote_none 39 ltac:(lia) r []) as U. destruct (unquote 39 r []) as [w|].
      * split; [tauto|]. intros (q & t & m & Q & I & E). injection E as <- ->.
        assert (X : Some w = None) by (apply U; eauto). discriminate.
      * split; auto. intros _. destruct (proj1 U eq_refl) as (t & m & I & ->). exists 39, t, m. auto.
    + destruct (Z.eqb_spec c 34) as [->|N2].
      * pose proof (unquote_none 34 ltac:(lia) r []) as U. destruct (unquote 34 r []) as [w|].
        -- split; [discriminate|]. intros (q & t & m & Q & I & E). injection E as <- ->.
           assert (X : Some w = None) by (apply U; eauto). discriminate.
        -- split; auto. intros _. destruct (proj1 U eq_refl) as (t & m & I & ->). exists 34, t, m. auto.
      * split; [discriminate|]. intros (q & t & m & Q & I & E). injection E as <- _. lia.
Qed.
(* Memory outside the line is used in exactly two cases. *)
Theorem out_exact : forall line, cstr line ->
  conf_get_pair line = POut <->
  exists name value, split_eq (skip_ws line) = Some (name, value) /\ hd0 (skip_ws line) <> 35 /\
    (Forall (fun c => space_or_colon c = true) name \/ dangling (value_of line)).
Proof.
  intros line Cl. unfold conf_get_pair.
  destruct ((hd0 (skip_ws line) =? 0) || (hd0 (skip_ws line) =? 35)) eqn:H0.
  { split; [discriminate|]. intros (name & value & E & H & _). destruct (skip_ws line) as [|c r] eqn:S; [discriminate|].
    cbn [hd0] in *. assert (X : is_char c).
    { assert (Y : In c line).
      { clear - S. induction line as [|d l IH]; [discriminate|]. cbn in S. destruct (isspace d); [right; auto|]. injection S as -> _. left; auto. }
      unfold cstr in Cl. rewrite Forall_forall in Cl. auto. }
    unfold is_char in X. lia. }
  unfold value_of. destruct (split_eq (skip_ws line)) as [[name value]|] eqn:E.
  2:{ split; [discriminate|]. intros (name & value & X & _). discriminate. }
  assert (H35 : hd0 (skip_ws line) <> 35) by lia.
  destruct (skip_back_split space_or_colon (rev name)) as (l & A & B & C).
  destruct (skip_back space_or_colon (rev name)) as [|b bs] eqn:K.
  - split; auto. intros _. exists name, value. split; auto. split; auto. left.
    rewrite app_nil_r in A. rewrite <- (rev_involutive name), A. apply Forall_rev. auto.
  - set (v := rev (skip_back isspace (rev (skip_ws value)))) in *. cbv zeta.
    pose proof (rq_none v) as RN. split.
    + intros H. exists name, value. split; auto. split; auto. right. apply RN.
      destruct (remove_quotes v 39) as [[[|] w]|]; auto.
      * destruct w; discriminate.
      * destruct (remove_quotes v 34) as [[b2 w2]|]; auto. destruct w2; discriminate.
    + intros (n' & v' & X & _ & [F|D]).
      * exfalso. injection X as <- <-.
        destruct C as [C|C]; [discriminate|].
        assert (Y : In b (rev name)) by (rewrite A; apply in_or_app; right; left; auto). apply in_rev in Y.
        rewrite Forall_forall in F. specialize (F b Y). cbn [hd0] in C. congruence.
      * apply RN in D. destruct (remove_quotes v 39) as [[[|] w]|]; auto; [tauto|]. rewrite D. auto.
Qed.
Theorem out_refuted : exists l1 l2, cstr l1 /\ cstr l2 /\ conf_get_pair l1 = POut /\ conf_get_pair l2 = POut.
Proof.
  exists (str "= value"), (str "password = 'abc\"). split; [apply cstrb_ok; reflexivity|]. split; [apply cstrb_ok; reflexivity|].
  split; reflexivity.
Qed.

(* ---------- C53 ---------- *)

Definition suffix (s : bytes) : option Z :=
  if existsb (beqb s) (map str [""; "b"]%string) then Some 1
  else if existsb (beqb s) (map str ["k"; "K"; "kb"; "Kb"; "KB"; "kB"]%string) then Some 1024
  else if existsb (beqb s) (map str ["m"; "M"; "mb"; "Mb"; "MB"; "mB"]%string) then Some (1024 * 1024)
  else if existsb (beqb s) (map str ["g"; "G"; "gb"; "Gb"; "GB"; "gB"]%string) then Some (1024 * 1024 * 1024)
  else None.
Lemma dec_run_val : forall ds r v any, Forall (fun c => 48 <= c <= 57) ds -> ds <> [] \/ any = true -> isdigit (hd0 r) = false ->
  dec_run (ds ++ r) v any = Some (val ds v).
Proof.
  induction ds as [|c ds IH]; intros r v any F N R; cbn [app dec_run val].
  - destruct N as [N| ->]; [congruence|]. destruct r as [|d r]; cbn [dec_run]; auto. cbn [hd0] in R. rewrite R. auto.
  - assert (Hc : isdigit c = true) by (apply Forall_inv in F; unfold isdigit; lia).
    rewrite Hc. apply IH; auto. apply Forall_inv_tail in F; auto.
Qed.
Lemma suffix_cases : forall s k, suffix s = Some k -> isdigit (hd0 s) = false /\ isspace (hd0 s) = false /\
  forall n, (let c := tolower (hd0 s) in
  if c =? 107 then Some (u64 (n * 1024))
  else if c =? 109 then Some (u64 (n * (1024 * 1024)))
  else if c =? 103 then Some (u64 (n * (1024 * 1024 * 1024)))
  else if (hd0 s =? 0) || (hd0 s =? 98) then Some n
  else None) = Some (if k =? 1 then n else u64 (n * k)).
Proof.
  intros s k H. unfold suffix in H.
  repeat match type of H with
  | context [if existsb (beqb s) ?l then _ else _] => destruct (existsb (beqb s) l) eqn:?
  end; try discriminate; injection H as <-;
  match goal with E : existsb (beqb s) _ = true |- _ => apply existsb_exists in E; destruct E as (x & X & Y); apply beqb_eq in Y; subst x end;
  cbn [map In] in X; repeat (destruct X as [<-|X]; [repeat split; reflexivity|]); destruct X.
Qed.
Theorem size_exact : forall ds s k, ds <> [] -> Forall (fun c => 48 <= c <= 57) ds -> suffix s = Some k ->
  val ds 0 * k < 2 ^ 64 -> get_file_size (ds ++ s) = Some (val ds 0 * k).
Proof.
  intros ds s k N F S L. destruct (suffix_cases s k S) as (D & W & C).
  assert (V : 0 <= val ds 0) by (apply val_nonneg; auto; lia).
  assert (K : 1 <= k).
  { unfold suffix in S. repeat match type of S with context [if ?b then _ else _] => destruct b end; try discriminate; injection S as <-; lia. }
  assert (T : strtoul10 (ds ++ s) = val ds 0).
  { unfold strtoul10. destruct ds as [|c ds]; [congruence|]. cbn [app]. pose proof (Forall_inv F) as Fc. cbv beta in Fc. rewrite digits_skip by auto. cbn [hd0].
    destruct (Z.eqb_spec c 45); [lia|]. destruct (Z.eqb_spec c 43); [lia|].
    change (c :: ds ++ s) with ((c :: ds) ++ s). rewrite dec_run_val by (auto; left; discriminate).
    destruct (Z.leb_spec (2 ^ 64) (val (c :: ds) 0)); [nia|auto]. }
  unfold get_file_size. rewrite T. rewrite skip_back_app.
  - rewrite C. destruct (Z.eqb_spec k 1) as [->|]; [f_equal; lia|]. unfold u64. rewrite Z.mod_small by nia. auto.
  - eapply Forall_impl; [|exact F]. intros c Hc. unfold isdigit. cbv beta in Hc.
    replace ((48 <=? c) && (c <=? 57)) with true by lia. apply orb_true_r.
  - right. rewrite D, W. auto.
Qed.
(* Sizes of 2^64 bytes or more wrap around. *)
Theorem size_refuted : exists s, get_file_size s = Some 0 /\ s = str "17179869184gb".
Proof. eexists. split; [|reflexivity]. vm_compute. reflexivity. Qed.

(* Compression levels are one digit. *)
Theorem compression_exact : forall v n, 0 <= n -> get_compression v = n <->
  exists pre d, In pre [[]; str "gzip"; str "zlib"] /\ 48 <= d <= 57 /\ v = pre ++ [d] /\ n = d - 48.
Proof.
  intros v n Hn. unfold get_compression. set (pre := beqb (firstn 4 v) (str "gzip") || beqb (firstn 4 v) (str "zlib")).
  assert (A1 : forall d, 48 <= d <= 57 -> atoi [d] = d - 48).
  { intros d Hd. unfold atoi. rewrite digits_skip by auto. cbn [hd0]. destruct (Z.eqb_spec d 45); [lia|]. destruct (Z.eqb_spec d 43); [lia|].
    cbn [dec_run]. replace (isdigit d) with true by (unfold isdigit; lia). unfold s32.
    replace (Z.min (0 * 10 + (d - 48)) (2 ^ 63 - 1)) with (d - 48) by lia. rewrite Z.mod_small by lia.
    destruct (Z.ltb_spec (d - 48) (2 ^ 31)); lia. }
  assert (One : forall cp, ((List.length cp =? 1)%nat && isdigit (hd0 cp) = true) <-> exists d, cp = [d] /\ 48 <= d <= 57).
  { intros cp. rewrite andb_true_iff, Nat.eqb_eq. unfold isdigit. split.
    - intros (L & D). destruct cp as [|d [|e cp]]; cbn in L; try discriminate. exists d. cbn [hd0] in D. split; auto. lia.
    - intros (d & -> & D). cbn. split; auto. lia. }
  split.
  - match goal with |- (if ?b then _ else _) = _ -> _ => destruct b eqn:E end; intros H; [|lia].
    apply One in E. destruct E as (d & Ed & D). rewrite Ed, A1 in H by auto. destruct pre eqn:P.
    + unfold pre in P. rewrite orb_true_iff, !beqb_eq in P. exists (firstn 4 v), d. split; [cbn [In]; destruct P; auto|].
      split; auto. split; [|lia]. rewrite <- (firstn_skipn 4 v) at 1. rewrite Ed. auto.
    + exists [], d. split; [left; auto|]. auto.
  - intros (p & d & P & D & -> & ->). cbn [In] in P. destruct P as [<-|[<-|[<-|[]]]].
    + assert (X : pre = false). { unfold pre. cbn [app firstn]. unfold str. cbn. rewrite !andb_false_r. auto. }
      rewrite X. cbn [app]. replace ((List.length [d] =? 1)%nat && isdigit (hd0 [d])) with true; [apply A1; auto|].
      symmetry. apply One. eauto.
    + change pre with true. cbv iota. change (skipn 4 (str "gzip" ++ [d])) with [d].
      replace ((List.length [d] =? 1)%nat && isdigit (hd0 [d])) with true; [apply A1; auto|]. symmetry. apply One. eauto.
    + change pre with true. cbv iota. change (skipn 4 (str "zlib" ++ [d])) with [d].
      replace ((List.length [d] =? 1)%nat && isdigit (hd0 [d])) with true; [apply A1; auto|]. symmetry. apply One. eauto.
Qed.
