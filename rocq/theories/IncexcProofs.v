(* C91, C92: the include/exclude settings one side gives to the other. *)
From Coq Require Import Sorting.Sorted.
From Verif Require Import Bytes PathcmpModel FrameModel BuModel AuthModel ConfModel CntrModel IncexcModel.
From Verif Require Import PathcmpProofs BuProofs ConfProofs CntrProofs.

(* ---------- what is meant ---------- *)

(* A value that is the same on both sides of the equals sign of a configuration
   line: not empty, no newline, no blank at either end, not beginning with a quote. *)
Definition plain (v : bytes) : Prop :=
  v <> [] /\ cstr v /\ ~ In 10 v /\ isspace (hd0 v) = false /\ isspace (List.last v 0) = false /\ hd0 v <> 39 /\ hd0 v <> 34.
(* The name of an option that can be sent. *)
Definition opt_name (f : bytes) : Prop :=
  name_ok f /\ ~ In 10 f /\ hd0 f <> 46 /\ f <> str "compression" /\ f <> str "ssl_compression".
Definition opt_nameb (f : bytes) : bool :=
  match f with [] => false | _ => true end && cstrb f && negb (has_byte 61 f) && negb (hd0 f =? 35) && negb (isspace (hd0 f)) &&
  negb (space_or_colon (List.last f 0)) && negb (has_byte 10 f) && negb (hd0 f =? 46) &&
  negb (beqb f (str "compression")) && negb (beqb f (str "ssl_compression")).
(* Lists that are kept in order are in order. *)
Definition sendable (o : opt) : Prop :=
  match o_val o with
  | VStr None => True
  | VStr (Some s) => plain s
  | VInt n => is_int n
  | VU64 n => is_u64 n
  | VList l => Forall plain l /\ (o_sorted o = true -> StronglySorted path_le l)
  | VOther _ => False
  end.
(* The same option of the two sides. *)
Definition same_kind (a b : opt) : Prop :=
  o_field a = o_field b /\ o_inc a = o_inc b /\ o_res a = o_res b /\ o_sorted a = o_sorted b /\
  match o_val a, o_val b with
  | VStr _, VStr _ | VInt _, VInt _ | VU64 _, VU64 _ | VList _, VList _ | VOther _, VOther _ => True
  | _, _ => False
  end.
(* The receiver's value when the giver says nothing. *)
Definition cleared (d : opt) : cval :=
  if o_inc d then match o_val d with VStr _ => VStr None | VInt _ => VInt 0 | VU64 _ => VU64 0 | VList _ => VList [] | VOther _ => VOther [] end
  else o_val d.
(* What the receiver has afterwards. *)
Definition taken (w : which) (s d d' : opt) : Prop :=
  same_kind d d' /\
  o_val d' = if flagged w s then match o_val s with VStr None => cleared d | v => v end else cleared d.
Inductive all3 {A B C : Type} (R : A -> B -> C -> Prop) : list A -> list B -> list C -> Prop :=
| all3_nil : all3 R [] [] []
| all3_cons : forall a b c x y z, R a b c -> all3 R x y z -> all3 R (a :: x) (b :: y) (c :: z).
Definition named (c : conf) : list bytes := filter (fun f => negb (beqb f [])) (map o_field c).

(* ---------- lines ---------- *)

Lemma opt_nameb_ok : forall f, opt_nameb f = true -> opt_name f.
Proof.
  intros f H. unfold opt_nameb in H. repeat (apply andb_true_iff in H as [H ?]).
  assert (NB : forall x, negb (has_byte x f) = true -> ~ In x f).
  { intros x Hx X. apply negb_true_iff in Hx. unfold has_byte in Hx.
    assert (Y : existsb (fun y => y =? x) f = true) by (apply existsb_exists; exists x; split; auto; apply Z.eqb_refl). congruence. }
  split; [split; [intros ->; discriminate|]; split; [apply cstrb_ok; auto|]; split; [auto|]; split; [lia|]; split; [apply negb_true_iff; auto|apply negb_true_iff; auto]|].
  split; [auto|]. split; [lia|].
  split; intros E; [match goal with X : negb (beqb f (str "compression")) = true |- _ => rewrite E in X; vm_compute in X; discriminate end|
                    match goal with X : negb (beqb f (str "ssl_compression")) = true |- _ => rewrite E in X; vm_compute in X; discriminate end].
Qed.

Lemma plain_hd : forall v, plain v -> hd0 v <> 0.
Proof. intros v (N & C & _). destruct v as [|c v]; [congruence|]. apply Forall_inv in C. unfold is_char in C. cbn. lia. Qed.
Lemma incexc_string_plain : forall f v, plain v -> incexc_string f v = f ++ str " = " ++ v.
Proof. intros f v P. unfold incexc_string, prepend_n. pose proof (plain_hd v P). destruct (Z.eqb_spec (hd0 v) 0); [congruence|]. auto. Qed.

Lemma pair_plain : forall f v, opt_name f -> plain v -> conf_get_pair (f ++ str " = " ++ v) = PPair f v false.
Proof.
  intros f v ((Nf & Cf & Ef & Hf & Sf & Lf) & _) (Nv & Cv & _ & Sv & Lv & Q1 & Q2).
  unfold conf_get_pair. replace (f ++ str " = " ++ v) with ([] ++ (f ++ [32%Z]) ++ 61 :: 32 :: v) by (cbn [app]; rewrite <- app_assoc; auto).
  rewrite skip_ws_app; [|apply Forall_nil|destruct f; [congruence|]; exact Sf].
  assert (H0 : (hd0 ((f ++ [32]) ++ 61 :: 32 :: v) =? 0) || (hd0 ((f ++ [32]) ++ 61 :: 32 :: v) =? 35) = false).
  { destruct f as [|c f]; [congruence|]. apply Forall_inv in Cf. unfold is_char in Cf. cbn [app hd0] in *. lia. }
  rewrite H0, split_eq_app.
  2:{ intros X. apply in_app_or in X. destruct X as [X|[X|[]]]; [auto|lia]. }
  rewrite rev_app_distr, skip_back_app; [|apply Forall_rev; apply Forall_cons; [reflexivity|apply Forall_nil]|right; rewrite hd0_rev_last; auto].
  destruct (rev f) as [|b bs] eqn:Rf.
  { exfalso. apply Nf. rewrite <- (rev_involutive f), Rf. auto. }
  rewrite <- Rf, rev_involutive.
  assert (R : firstn (List.length (f ++ [32]) - List.length f) (rev [32] ++ rev f) = [32]).
  { rewrite app_length, Nat.add_comm, Nat.add_sub. reflexivity. }
  rewrite R. change (has_byte 58 [32]) with false. cbv zeta.
  change (32 :: v) with ([32] ++ v). rewrite skip_ws_app; [|apply Forall_cons; [reflexivity|apply Forall_nil]|auto].
  assert (T : skip_back isspace (rev v) = rev v).
  { change (rev v) with ([] ++ rev v) at 1. apply skip_back_app; [apply Forall_nil|right; rewrite hd0_rev_last; auto]. }
  rewrite T, rev_involutive. unfold remove_quotes.
  destruct (Z.eqb_spec (hd0 v) 39); [congruence|]. destruct (Z.eqb_spec (hd0 v) 34); [congruence|].
  destruct v; [congruence|auto].
Qed.

Lemma ltoks_app : forall a r cur, ~ In 10 a -> ltoks (a ++ r) cur = ltoks r (rev a ++ cur).
Proof.
  induction a as [|c a IH]; intros r cur N; auto. cbn [app ltoks]. destruct (Z.eqb_spec c 10) as [->|]; [exfalso; apply N; left; auto|].
  rewrite IH by (intros X; apply N; right; auto). cbn [rev]. rewrite <- app_assoc. auto.
Qed.
Definition line_ok (l : bytes) : Prop := l <> [] /\ ~ In 10 l /\ hd0 l <> 0.
Definition tail_of (ls : list bytes) : bytes := flat_map (fun x => 10 :: x) ls.
Lemma ltoks_tail : forall ls, Forall line_ok ls -> forall cur, cur <> [] -> ltoks (tail_of ls ++ [10; 10]) cur = rev cur :: ls.
Proof.
  induction ls as [|l ls IH]; intros F cur N.
  - cbn. destruct cur; [congruence|auto].
  - destruct (Forall_inv F) as (N1 & N2 & _). apply Forall_inv_tail in F. unfold tail_of. cbn [flat_map app ltoks Z.eqb Pos.eqb].
    destruct cur as [|c cur]; [congruence|]. f_equal. rewrite <- app_assoc, ltoks_app by auto. fold (tail_of ls). rewrite IH; auto.
    + rewrite app_nil_r, rev_involutive. auto.
    + intros E. apply N1. rewrite app_nil_r in E. rewrite <- (rev_involutive l), E. auto.
Qed.
Lemma recv_tail : forall ls t, Forall line_ok ls -> fold_left add_to_incexc ls (Some t) = Some (t ++ tail_of ls).
Proof.
  induction ls as [|l ls IH]; intros t F; [cbn; rewrite app_nil_r; auto|].
  destruct (Forall_inv F) as (_ & _ & H). apply Forall_inv_tail in F. cbn [fold_left]. unfold add_to_incexc at 2, prepend_n.
  destruct (Z.eqb_spec (hd0 l) 0); [congruence|]. rewrite IH by auto. unfold tail_of. cbn [flat_map app].
  f_equal. rewrite <- !app_assoc. auto.
Qed.
Lemma recv_lines : forall ls, Forall line_ok ls -> ls <> [] -> exists t, recv_text ls = Some t /\ ltoks t [] = ls /\ t <> [].
Proof.
  intros [|l ls] F N; [congruence|]. destruct (Forall_inv F) as (N1 & N2 & H). pose proof (Forall_inv_tail F) as F'.
  exists (l ++ tail_of ls ++ [10; 10]). split; [|split].
  - unfold recv_text. cbn [fold_left]. unfold add_to_incexc at 3, prepend_n. destruct (Z.eqb_spec (hd0 l) 0); [congruence|]. cbn [app].
    rewrite recv_tail by auto. unfold add_to_incexc, prepend_n. cbn [hd0 Z.eqb]. rewrite <- !app_assoc. auto.
  - rewrite ltoks_app by auto. rewrite ltoks_tail; auto.
    + rewrite app_nil_r, rev_involutive. auto.
    + intros E. apply N1. rewrite app_nil_r in E. rewrite <- (rev_involutive l), E. auto.
  - destruct l; [congruence|discriminate].
Qed.

(* ---------- numbers are plain ---------- *)

Lemma digit_not_space : forall c, 48 <= c <= 57 -> isspace c = false.
Proof. intros c H. unfold isspace. lia. Qed.
Lemma plain_fmt_u : forall n, is_u64 n -> plain (fmt_u n).
Proof.
  intros n H. destruct (fmt_u_spec n H) as (D & L & _). unfold digits in D.
  assert (Hl : forall x, In x (fmt_u n) -> 48 <= x <= 57) by (apply Forall_forall; auto).
  destruct (fmt_u n) as [|c r] eqn:E; [cbn in L; lia|]. rewrite <- E in *.
  assert (Hh : 48 <= hd0 (fmt_u n) <= 57) by (apply Hl; rewrite E; left; auto).
  assert (Ht : 48 <= List.last (fmt_u n) 0 <= 57).
  { apply Hl. rewrite E. destruct (@exists_last Z (c :: r) ltac:(discriminate)) as (a & b & Eb). rewrite Eb, last_last. apply in_or_app. right. left. auto. }
  split; [rewrite E; discriminate|]. split; [eapply Forall_impl; [|exact D]; cbn; unfold is_char; intros; lia|].
  split; [intros X; specialize (Hl 10 X); lia|]. split; [apply digit_not_space; auto|]. split; [apply digit_not_space; auto|]. lia.
Qed.
Lemma plain_fmt_d : forall n, is_int n -> plain (fmt_d n).
Proof.
  intros n H. unfold is_int in H. unfold fmt_d. destruct (Z.ltb_spec n 0).
  - assert (U : is_u64 (- n)) by (unfold is_u64; lia). destruct (plain_fmt_u (- n) U) as (N & C & T & S1 & S2 & Q1 & Q2).
    split; [discriminate|]. split; [constructor; [unfold is_char; lia|auto]|]. split; [intros [X|X]; [lia|auto]|].
    split; [reflexivity|]. split; [destruct (fmt_u (- n)); [congruence|exact S2]|]. cbn. lia.
  - apply plain_fmt_u. unfold is_u64. lia.
Qed.
Lemma size_fmt : forall n, is_u64 n -> get_file_size (fmt_u n) = Some n.
Proof.
  intros n H. destruct (fmt_u_spec n H) as (D & L & V). rewrite <- (app_nil_r (fmt_u n)).
  rewrite (size_exact (fmt_u n) [] 1).
  - rewrite V. f_equal. lia.
  - intros E. rewrite E in L. cbn in L. lia.
  - exact D.
  - reflexivity.
  - rewrite V. unfold is_u64 in H. lia.
Qed.

(* ---------- one line ---------- *)

Section P.
Variable inclusion : bytes -> conf -> option conf.

Lemma parse_plain : forall c f v, opt_name f -> plain v -> parse_line inclusion c (incexc_string f v) = load_field f v false c.
Proof.
  intros c f v Hf Pv. rewrite incexc_string_plain by auto. unfold parse_line.
  pose proof Hf as ((Nf & Cf & _) & _ & H46 & C1 & C2).
  assert (X : beqb (firstn 2 (f ++ str " = " ++ v)) (str ". ") = false).
  { destruct f as [|c0 f]; [congruence|]. cbn [app firstn]. cbn [hd0] in H46. change (str ". ") with [46%Z; 32%Z]. cbn [beqb].
    destruct (Z.eqb_spec c0 46); [congruence|]. auto. }
  rewrite X, pair_plain by auto. unfold load_conf.
  destruct (beqb f (str "compression")) eqn:B1; [apply beqb_eq in B1; contradiction|].
  destruct (beqb f (str "ssl_compression")) eqn:B2; [apply beqb_eq in B2; contradiction|]. auto.
Qed.
Lemma load_field_at : forall D1 d D2 f v r, ~ In f (map o_field D1) -> o_field d = f ->
  load_field f v r (D1 ++ d :: D2) = match load_val d v r with Some d' => Some (D1 ++ d' :: D2) | None => None end.
Proof.
  induction D1 as [|x D1 IH]; intros d D2 f v r N E; cbn [app load_field].
  - rewrite E, beqb_refl. auto.
  - destruct (beqb (o_field x) f) eqn:B; [apply beqb_eq in B; exfalso; apply N; left; auto|].
    rewrite IH; auto; [|intros X; apply N; right; auto]. destruct (load_val d v r); auto.
Qed.
Lemma parse_app : forall a b c, parse_lines inclusion (a ++ b) c =
  match parse_lines inclusion a c with Some c' => parse_lines inclusion b c' | None => None end.
Proof. induction a as [|l a IH]; intros b c; cbn [app parse_lines]; auto. destruct (parse_line inclusion c l); auto. Qed.

(* Adding in order keeps the list. *)
Lemma insert_last : forall l p, raw p -> Forall raw l -> Forall (fun x => path_le x p) l -> insert_sorted p l = l ++ [p].
Proof.
  induction l as [|s l IH]; intros p R F L; auto. cbn [insert_sorted app].
  assert (H : ~ pathcmp_s p s < 0).
  { intros X. apply pathcmp_s_neg in X; [|auto|apply Forall_inv in F; auto]. destruct (Forall_inv L) as [E|E].
    - subst. eapply path_lt_irrefl; eauto.
    - eapply path_lt_asym; eauto. }
  destruct (Z.ltb_spec (pathcmp_s p s) 0); [contradiction|]. rewrite IH; auto; eapply Forall_inv_tail; eauto.
Qed.
Lemma sorted_app : forall (a b : list bytes), StronglySorted path_le (a ++ b) -> Forall (fun x => Forall (path_le x) b) a.
Proof.
  induction a as [|x a IH]; intros b S; [constructor|]. inversion S; subst. constructor; [|apply IH; auto].
  match goal with X : Forall _ (a ++ b) |- _ => apply Forall_app in X; apply X end.
Qed.
Lemma list_lines : forall f l D1 d D2 done, opt_name f -> ~ In f (map o_field D1) -> o_field d = f -> Forall plain l ->
  Forall plain done -> o_val d = VList done -> (o_sorted d = true -> StronglySorted path_le (done ++ l)) ->
  parse_lines inclusion (map (incexc_string f) l) (D1 ++ d :: D2) = Some (D1 ++ set_val d (VList (done ++ l)) :: D2).
Proof.
  intros f. induction l as [|v l IH]; intros D1 d D2 done Hf N E P Pd V S; cbn [map parse_lines].
  - rewrite app_nil_r, <- V. destruct d; auto.
  - rewrite parse_plain; auto; [|eapply Forall_inv; eauto]. rewrite load_field_at by auto. unfold load_val. rewrite V.
    assert (A : add_to_strlist (o_sorted d) v done = done ++ [v]).
    { unfold add_to_strlist. destruct (o_sorted d) eqn:Hs; auto. specialize (S eq_refl). apply insert_last.
      - apply cstr_raw. destruct (Forall_inv P) as (_ & C & _). auto.
      - eapply Forall_impl; [|exact Pd]. intros x (_ & C & _). apply cstr_raw; auto.
      - pose proof (sorted_app done (v :: l) S) as H. eapply Forall_impl; [|exact H]. intros x Hx. exact (Forall_inv Hx). }
    rewrite A. rewrite (IH D1 (set_val d (VList (done ++ [v]))) D2 (done ++ [v])); auto.
    + unfold set_val. cbn. rewrite <- app_assoc. auto.
    + eapply Forall_inv_tail; eauto.
    + apply Forall_app. split; auto. constructor; [eapply Forall_inv; eauto|constructor].
    + intros Hs. rewrite <- app_assoc. apply S. auto.
Qed.

Lemma set_val_id : forall d, set_val d (o_val d) = d. Proof. destruct d; auto. Qed.
(* One option. *)
Lemma opt_parse : forall s d D1 D2, same_kind s d -> opt_name (o_field s) -> ~ In (o_field s) (map o_field D1) -> sendable s ->
  (match o_val d with VList l => l = [] | _ => True end) ->
  parse_lines inclusion (opt_lines s) (D1 ++ d :: D2) =
  Some (D1 ++ set_val d (match o_val s with VStr None => o_val d | v => v end) :: D2).
Proof.
  intros s d D1 D2 (Kf & Ki & Kr & Ks & Kv) Hn N Sd Emp. unfold opt_lines, sendable in *.
  destruct (o_val s) as [[v|]|n|n|l|x] eqn:Vs; destruct (o_val d) as [v'|n'|n'|l'|x'] eqn:Vd; try contradiction; cbn [parse_lines].
  - rewrite parse_plain, load_field_at by auto. unfold load_val. rewrite Vd. auto.
  - rewrite <- Vd, set_val_id. auto.
  - rewrite parse_plain, load_field_at by (auto using plain_fmt_d). unfold load_val. rewrite Vd, atoi_fmt by auto. auto.
  - rewrite parse_plain, load_field_at by (auto using plain_fmt_u). unfold load_val. rewrite Vd, size_fmt by auto. auto.
  - subst l'. destruct Sd as (P & S). rewrite (list_lines (o_field s) l D1 d D2 []); auto. cbn [app]. rewrite <- Ks. auto.
Qed.

Definition freed (d : opt) : opt := set_val d (cleared d).
Lemma free_incexcs_freed : forall c, free_incexcs c = map freed c.
Proof. intros c. unfold free_incexcs. apply map_ext. intros [f i r s v]. unfold freed, cleared. cbn. destruct i; destruct v; auto. Qed.
Lemma same_kind_freed : forall s d, same_kind s d -> same_kind s (freed d).
Proof.
  intros s d (Kf & Ki & Kr & Ks & Kv). unfold freed, cleared. do 4 (split; [auto|]). cbn.
  destruct (o_inc d), (o_val d), (o_val s); auto.
Qed.
Lemma same_kind_sym : forall a b, same_kind a b -> same_kind b a.
Proof. intros a b (H1 & H2 & H3 & H4 & H5). do 4 (split; [auto|]). destruct (o_val a), (o_val b); auto. Qed.

Definition merged (w : which) (s d : opt) : opt :=
  if flagged w s then set_val (freed d) (match o_val s with VStr None => cleared d | v => v end) else freed d.
Lemma merged_taken : forall w s d, same_kind s d -> taken w s d (merged w s d).
Proof.
  intros w s d (Kf & Ki & Kr & Ks & Kv). unfold taken, merged. split.
  - destruct (flagged w s).
    + do 4 (split; [auto|]). cbn. unfold cleared. destruct (o_val s) as [[x|]| | | |], (o_val d), (o_inc d); auto; contradiction.
    + apply same_kind_freed. do 4 (split; [auto|]). destruct (o_val d); auto.
  - destruct (flagged w s); auto.
Qed.

Definition tosend (w : which) (o : opt) : list bytes := if flagged w o then opt_lines o else [].
(* For lists: what is flagged is cleared first. *)
Definition lists_clear (w : which) (s : opt) : Prop := flagged w s = true -> match o_val s with VList _ => o_inc s = true | _ => True end.

Lemma merge_all : forall w S D done, Forall2 same_kind S D ->
  Forall (fun s => flagged w s = true -> opt_name (o_field s) /\ sendable s) S -> Forall (lists_clear w) S ->
  NoDup (filter (fun f => negb (beqb f [])) (map o_field done) ++ named S) ->
  parse_lines inclusion (flat_map (tosend w) S) (done ++ map freed D) = Some (done ++ map (fun p => merged w (fst p) (snd p)) (combine S D)).
Proof.
  intros w S D done K. revert done. induction K as [|s d S D Ks K IH]; intros done Fo Fl Nd; cbn [flat_map map combine].
  { reflexivity. }
  rewrite parse_app. pose proof (Forall_inv Fo) as Hs. pose proof (Forall_inv Fl) as Hl. apply Forall_inv_tail in Fo. apply Forall_inv_tail in Fl.
  assert (E : parse_lines inclusion (tosend w s) (done ++ freed d :: map freed D) = Some (done ++ merged w s d :: map freed D)).
  { unfold tosend, merged. destruct (flagged w s) eqn:Fw; [|reflexivity]. destruct (Hs Fw) as (Hn & Hsd).
    rewrite opt_parse; auto.
    - apply same_kind_freed; auto.
    - unfold named in Nd. cbn [map filter] in Nd.
      assert (B : negb (beqb (o_field s) []) = true).
      { apply negb_true_iff, beqb_neq. destruct Hn as ((Nf & _) & _). auto. }
      rewrite B in Nd. apply NoDup_remove_2 in Nd. intros X. apply Nd. apply in_or_app. left. apply filter_In. split; auto.
    - specialize (Hl Fw). destruct Ks as (_ & Ki & _ & _ & Kv). unfold freed, cleared. cbn.
      destruct (o_val s), (o_val d); try contradiction; destruct (o_inc d); auto; congruence. }
  rewrite E. cbn [fst snd]. specialize (IH (done ++ [merged w s d])). rewrite <- !app_assoc in IH. cbn [app] in IH. apply IH; auto.
  assert (Fm : o_field (merged w s d) = o_field s) by (destruct Ks as (Kf & _); unfold merged; destruct (flagged w s); cbn; auto).
  rewrite map_app, filter_app, <- app_assoc. cbn [map]. rewrite Fm. unfold named in Nd. cbn [map filter] in Nd. cbn [filter].
  destruct (negb (beqb (o_field s) [])); auto.
Qed.

Lemma do_sends_lines : forall w S, Forall (fun s => flagged w s = true -> opt_name (o_field s) /\ sendable s) S -> Forall line_ok (do_sends w S).
Proof.
  intros w S F. unfold do_sends. apply Forall_forall. intros l Hl. apply in_flat_map in Hl as (o & Ho & Hl).
  rewrite Forall_forall in F. specialize (F o Ho). destruct (flagged w o); [|contradiction]. destruct (F eq_refl) as (((Nf & Cf & _) & N10 & _) & Sd).
  assert (G : forall v, plain v -> line_ok (incexc_string (o_field o) v)).
  { intros v P. rewrite incexc_string_plain by auto. destruct (o_field o) as [|c f]; [congruence|]. split; [discriminate|]. split.
    - intros X. apply in_app_or in X as [X|X]; [auto|]. destruct P as (_ & _ & N & _). apply in_app_or in X as [X|X]; [|auto].
      cbn in X. lia.
    - apply Forall_inv in Cf. unfold is_char in Cf. cbn. lia. }
  unfold opt_lines, sendable in *. destruct (o_val o) as [[v|]|n|n|ls|x]; try contradiction.
  - destruct Hl as [<-|[]]; auto.
  - destruct Hl as [<-|[]]; auto using plain_fmt_d.
  - destruct Hl as [<-|[]]; auto using plain_fmt_u.
  - apply in_map_iff in Hl as (v & <- & Hv). destruct Sd as (P & _). rewrite Forall_forall in P. auto.
Qed.
Lemma all3_merged : forall w S D, Forall2 same_kind S D -> all3 (taken w) S D (map (fun p => merged w (fst p) (snd p)) (combine S D)).
Proof. intros w S D K. induction K; cbn [combine map]; constructor; auto. cbn. apply merged_taken; auto. Qed.

(* C91 *)
Theorem taken_over : forall w S D, Forall2 same_kind S D -> NoDup (named S) ->
  Forall (fun s => flagged w s = true -> opt_name (o_field s) /\ sendable s) S -> Forall (lists_clear w) S -> do_sends w S <> [] ->
  exists t D', recv_text (do_sends w S) = Some t /\ incexcs_buf inclusion D t = Some D' /\ all3 (taken w) S D D'.
Proof.
  intros w S D K Nd Fo Fl Ne. destruct (recv_lines (do_sends w S) (do_sends_lines w S Fo) Ne) as (t & Et & Lt & _).
  exists t, (map (fun p => merged w (fst p) (snd p)) (combine S D)). split; auto. split; [|apply all3_merged; auto].
  unfold incexcs_buf, load_buf. rewrite Lt. destruct (do_sends w S) as [|l0 ls] eqn:E; [congruence|]. rewrite <- E.
  rewrite free_incexcs_freed. apply (merge_all w S D []); auto.
Qed.
End P.

(* ---------- C91, all include/exclude options ---------- *)

Theorem incexc_same : forall inclusion S D, Forall2 same_kind S D -> NoDup (named S) ->
  Forall (fun s => o_inc s = true -> opt_name (o_field s) /\ sendable s) S -> (exists s, In s S /\ o_inc s = true /\ opt_lines s <> []) ->
  exists t D', recv_text (do_sends Incexc S) = Some t /\ incexcs_buf inclusion D t = Some D' /\
    all3 (fun s d d' => if o_inc s then o_field d' = o_field s /\ o_val d' = o_val s else d' = d) S D D'.
Proof.
  intros inclusion S D K Nd Fo (s0 & I0 & F0 & L0).
  assert (Fl : Forall (lists_clear Incexc) S).
  { apply Forall_forall. intros s _ Fw. cbn in Fw. destruct (o_val s); auto. }
  assert (Ne : do_sends Incexc S <> []).
  { intros E. unfold do_sends in E. destruct (opt_lines s0) as [|l ls] eqn:El; [congruence|].
    assert (X : In l (flat_map (fun o => if flagged Incexc o then opt_lines o else []) S)).
    { apply in_flat_map. exists s0. split; auto. cbn. rewrite F0, El. left; auto. }
    rewrite E in X. exact X. }
  destruct (taken_over inclusion Incexc S D K Nd Fo Fl Ne) as (t & D' & Et & Ed & A).
  exists t, D'. split; auto. split; auto. clear - K A.
  revert D' A. induction K as [|s d S D Ks K IH]; intros D' A; inversion A; subst; constructor; auto.
  match goal with H : taken _ _ _ _ |- _ => destruct H as (Hk & Hv) end. cbn in Hv.
  destruct Ks as (Kf & Ki & Kr & Kso & Kv). destruct Hk as (Hf & Hi & Hr & Hso & _). destruct (o_inc s) eqn:Is.
  - split; [congruence|]. rewrite Hv. unfold cleared. rewrite <- Ki. destruct (o_val s) as [[x|]| | | |]; auto. destruct (o_val d); auto; contradiction.
  - unfold cleared in Hv. rewrite <- Ki in Hv. destruct d, c. cbn in *. congruence.
Qed.

(* A value with a blank at its end, which can be had with quotes, loses it; one in
   quotes loses the quotes. *)
Theorem incexc_same_refuted : forall inclusion, exists S t D', Forall2 same_kind S table /\
  Forall (fun s => match o_val s with VList l => Forall (fun v => v <> [] /\ cstr v /\ ~ In 10 v) l | _ => True end) S /\
  recv_text (do_sends Incexc S) = Some t /\ incexcs_buf inclusion table t = Some D' /\
  map o_val (filter (fun o => beqb (o_field o) (str "include")) S) = [VList [str "'/a'"; str "/b "]] /\
  map o_val (filter (fun o => beqb (o_field o) (str "include")) D') = [VList [str "/a"; str "/b"]].
Proof.
  intros inclusion.
  exists (map (fun o => if beqb (o_field o) (str "include") then set_val o (VList [str "'/a'"; str "/b "]) else o) table).
  eexists. eexists. split; [|split; [|split; [reflexivity|split; [reflexivity|split; reflexivity]]]].
  - repeat first [apply Forall2_nil | apply Forall2_cons; [do 4 (split; [reflexivity|]); exact I|]].
  - assert (P : forall v, negb (beqb v []) && cstrb v && negb (has_byte 10 v) = true -> v <> [] /\ cstr v /\ ~ In 10 v).
    { intros v H. repeat (apply andb_true_iff in H as [H ?]). split; [apply beqb_neq, negb_true_iff; auto|]. split; [apply cstrb_ok; auto|].
      intros X. assert (Y : has_byte 10 v = true) by (unfold has_byte; apply existsb_exists; exists 10; split; auto).
      rewrite Y in *. discriminate. }
    repeat first [apply Forall_nil | apply Forall_cons; [first [exact I | apply Forall_nil | apply Forall_cons; [apply P; reflexivity|apply Forall_cons; [apply P; reflexivity|apply Forall_nil]]]|]].
Qed.

(* ---------- C92: what the text may set ---------- *)

Theorem any_option_refuted : forall inclusion, exists t D', incexcs_buf inclusion table t = Some D' /\
  t = str "include = /home" ++ [10] ++ str "backup_script_pre = /tmp/x" ++ [10] ++ [10] /\
  get_str (str "backup_script_pre") table = None /\ get_str (str "backup_script_pre") D' = Some (str "/tmp/x") /\
  map o_inc (filter (fun o => beqb (o_field o) (str "backup_script_pre")) table) = [false].
Proof. intros inclusion. eexists. eexists. split; [|split; [reflexivity|]]; [reflexivity|]. split; [reflexivity|]. split; reflexivity. Qed.
(* A line ". file" has a file of the client's read as configuration. *)
Theorem any_file_refuted : forall inclusion c f, f <> [] -> ~ In 10 f ->
  incexcs_buf inclusion c (str ". " ++ f ++ [10; 10]) = inclusion f (free_incexcs c).
Proof.
  intros inclusion c f N N10. unfold incexcs_buf, load_buf.
  assert (E : ltoks (str ". " ++ f ++ [10; 10]) [] = [str ". " ++ f]).
  { rewrite ltoks_app by (cbn; lia). rewrite ltoks_app by auto. cbn [ltoks Z.eqb Pos.eqb].
    destruct (rev f ++ rev (str ". ") ++ []) eqn:E; [apply app_eq_nil in E as [E _]; exfalso; apply N; rewrite <- (rev_involutive f), E; auto|].
    rewrite <- E, rev_app_distr, app_nil_r, !rev_involutive. auto. }
  rewrite E. cbn [parse_lines]. unfold parse_line. change (firstn 2 (str ". " ++ f)) with (str ". "). rewrite beqb_refl.
  change (skipn 2 (str ". " ++ f)) with f. destruct f; [congruence|]. destruct (inclusion (z :: f) (free_incexcs c)); auto.
Qed.

(* What no line names, and is no include/exclude option, stays. *)
Definition line_names (l f : bytes) : Prop := exists v r, conf_get_pair l = PPair f v r.
Lemma load_field_other : forall f v r c c' i d, load_field f v r c = Some c' -> nth_error c i = Some d -> o_field d <> f -> nth_error c' i = Some d.
Proof.
  intros f v r. induction c as [|o c IH]; intros c' i d H N Nf; cbn [load_field] in H; [destruct i; discriminate|].
  destruct (beqb (o_field o) f) eqn:B.
  - destruct (load_val o v r); [|discriminate]. injection H as <-. destruct i; cbn in *; auto. injection N as ->. apply beqb_eq in B. contradiction.
  - destruct (load_field f v r c) as [c1|] eqn:L; [|discriminate]. injection H as <-. destruct i; cbn in *; auto.
Qed.
Theorem unnamed_kept : forall inclusion D t D' i d, incexcs_buf inclusion D t = Some D' ->
  (forall l, In l (ltoks t []) -> firstn 2 l <> str ". " /\ ~ line_names l (o_field d)) ->
  nth_error D i = Some d -> o_inc d = false -> nth_error D' i = Some d.
Proof.
  intros inclusion D t D' i d H Hl N F. unfold incexcs_buf, load_buf in H.
  assert (N1 : nth_error (free_incexcs D) i = Some d). { unfold free_incexcs. rewrite nth_error_map, N. cbn. rewrite F. auto. }
  destruct (ltoks t []) as [|l0 ls0] eqn:E; [discriminate|]. rewrite <- E in *. clear E l0 ls0 N.
  revert N1 H. generalize (free_incexcs D). revert Hl. generalize (ltoks t []). clear D t.
  induction l as [|l ls IH]; intros Hl c N H; cbn [parse_lines] in H; [congruence|].
  destruct (parse_line inclusion c l) as [c1|] eqn:P; [|discriminate]. apply (IH (fun x X => Hl x (or_intror X)) c1); auto.
  destruct (Hl l (or_introl eq_refl)) as (Nd & Nn). unfold parse_line in P.
  destruct (beqb (firstn 2 l) (str ". ")) eqn:B; [apply beqb_eq in B; contradiction|].
  destruct (conf_get_pair l) as [| |f v r|] eqn:G; try discriminate; [congruence|].
  assert (Nf : o_field d <> f). { intros <-. apply Nn. exists v, r. auto. }
  unfold load_conf in P. destruct (beqb f (str "compression") || beqb f (str "ssl_compression")).
  - destruct (get_compression v <? 0); [discriminate|]. injection P as <-. unfold set_named. rewrite nth_error_map, N. cbn.
    apply beqb_neq in Nf. rewrite Nf. auto.
  - eapply load_field_other; eauto.
Qed.

(* ---------- C95: where a restore asked for by the server goes ---------- *)

Section Prefix.
Variable inclusion : bytes -> conf -> option conf.
Hypothesis keeps : forall x c c', inclusion x c = Some c' -> map o_field c' = map o_field c.

Lemma load_val_field : forall o v r o', load_val o v r = Some o' -> o_field o' = o_field o.
Proof.
  intros o v r o' H. unfold load_val in H. destruct (o_val o); try (injection H as <-; reflexivity).
  destruct (get_file_size v); [injection H as <-; reflexivity|discriminate].
Qed.
Lemma load_field_fields : forall f v r c c', load_field f v r c = Some c' -> map o_field c' = map o_field c.
Proof.
  intros f v r. induction c as [|o c IH]; intros c' H; cbn [load_field] in H; [injection H as <-; auto|].
  destruct (beqb (o_field o) f).
  - destruct (load_val o v r) eqn:L; [|discriminate]. injection H as <-. cbn. rewrite (load_val_field _ _ _ _ L). auto.
  - destruct (load_field f v r c) as [c1|]; [|discriminate]. injection H as <-. cbn. rewrite (IH c1); auto.
Qed.
Lemma map_if_fields : forall (p : opt -> bool) v c, map o_field (map (fun o => if p o then set_val o (v o) else o) c) = map o_field c.
Proof. intros p v c. rewrite map_map. apply map_ext. intros o. destruct (p o); auto. Qed.
Lemma parse_line_fields : forall l c c', parse_line inclusion c l = Some c' -> map o_field c' = map o_field c.
Proof.
  intros l c c' H. unfold parse_line in H. destruct (beqb (firstn 2 l) (str ". ")).
  - destruct (skipn 2 l); [discriminate|]. eapply keeps; eauto.
  - destruct (conf_get_pair l) as [| |f v r|]; try discriminate; [congruence|]. unfold load_conf in H.
    destruct (beqb f (str "compression") || beqb f (str "ssl_compression")).
    + destruct (get_compression v <? 0); [discriminate|]. injection H as <-. apply (map_if_fields (fun o => beqb (o_field o) f) (fun _ => VInt (get_compression v))).
    + eapply load_field_fields; eauto.
Qed.
Lemma parse_lines_fields : forall ls c c', parse_lines inclusion ls c = Some c' -> map o_field c' = map o_field c.
Proof.
  induction ls as [|l ls IH]; intros c c' H; cbn [parse_lines] in H; [congruence|].
  destruct (parse_line inclusion c l) eqn:P; [|discriminate]. rewrite (IH _ _ H). eapply parse_line_fields; eauto.
Qed.
Lemma get_set_str : forall f v c, In f (map o_field c) -> get_str f (set_str f v c) = v.
Proof.
  intros f v. unfold get_str, set_str. induction c as [|o c IH]; intros H; [contradiction|]. cbn [map find].
  destruct (beqb (o_field o) f) eqn:B; cbn [o_field set_val]; rewrite B; auto.
  apply IH. destruct H as [H|H]; auto. subst. rewrite beqb_refl in B. discriminate.
Qed.
Lemma get_str_in : forall f c s, get_str f c = Some s -> In f (map o_field c).
Proof.
  intros f c s H. unfold get_str in H. destruct (find (fun o => beqb (o_field o) f) c) as [o|] eqn:E; [|discriminate].
  apply find_some in E as (I & B). apply beqb_eq in B. subst. apply in_map. auto.
Qed.

Theorem prefix_kept : forall c t c', incexcs_srestore inclusion c t = Some c' ->
  exists old new, get_str rp_field c = Some old /\ get_str rp_field c' = Some new /\
    (old <> [] -> old <> str "/" ->
     new = old \/ exists rest, new = old ++ slash :: rest /\ (cstr rest -> ~ In [dot] (components rest) /\ ~ In [dot; dot] (components rest))).
Proof.
  intros c t c' H. unfold incexcs_srestore in H. destruct (get_str rp_field c) as [old|] eqn:Go; [|discriminate].
  destruct (load_buf inclusion t (set_str rp_field None (free_incexcs c))) as [c1|] eqn:L; [|discriminate].
  assert (In1 : In rp_field (map o_field c1)).
  { unfold load_buf in L. destruct (ltoks t []) as [|l0 ls]; [discriminate|].
    rewrite (parse_lines_fields _ _ _ L). unfold set_str. rewrite (map_if_fields (fun o => beqb (o_field o) rp_field) (fun _ => VStr None)).
    unfold free_incexcs. rewrite (map_if_fields o_inc (fun o => free_content (o_val o))). eapply get_str_in; eauto. }
  exists old. destruct (get_str rp_field c1) as [srv|] eqn:Gs.
  - destruct (has_dot_component srv) eqn:Dt; [discriminate|]. injection H as <-.
    exists (prepend_s (if beqb old (str "/") then [] else old) srv). split; auto. split; [apply get_set_str; auto|].
    intros No Nr. apply beqb_neq in Nr. rewrite Nr. unfold prepend_s. destruct old as [|o0 old]; [congruence|].
    destruct srv as [|x srv]; [left; cbn; rewrite app_nil_r; auto|]. cbn [hd0 tl].
    destruct (Z.eqb_spec x 47) as [->|Nx].
    + destruct srv as [|y srv]; [left; rewrite app_nil_r; auto|]. right. exists (y :: srv). split; auto. intros C.
      assert (Cs : cstr (47 :: y :: srv)) by (constructor; [unfold is_char; lia|auto]).
      pose proof (has_dot_component_exact _ Cs) as X. rewrite Dt in X.
      change (components (47 :: y :: srv)) with ([] :: components (y :: srv)) in X.
      split; intros Y; assert (false = true) by (apply X; cbn [In]; auto); discriminate.
    + right. exists (x :: srv). split; auto. intros C. pose proof (has_dot_component_exact _ C) as X. rewrite Dt in X.
      split; intros Y; assert (false = true) by (apply X; auto); discriminate.
  - injection H as <-. exists old. split; auto. split; [apply get_set_str; auto|]. intros; left; auto.
Qed.
End Prefix.

(* With the client's prefix "/" a prefix of the server's that does not begin with
   a slash is relative to wherever the client was started. *)
Theorem prefix_refuted : forall inclusion, exists c t c', incexcs_srestore inclusion c t = Some c' /\
  get_str rp_field c = Some (str "/") /\ t = str "restoreprefix = tmp/x" ++ [10; 10] /\ get_str rp_field c' = Some (str "tmp/x").
Proof.
  intros inclusion. exists (set_str rp_field (Some (str "/")) table). eexists. eexists.
  split; [|split; [reflexivity|split; [reflexivity|]]]; [reflexivity|]. reflexivity.
Qed.
