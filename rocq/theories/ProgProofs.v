(* Proofs about the command line. *)
From Verif Require Import Bytes RestoreModel BuModel LstModel ProgModel.

(* ---------- reading the words ---------- *)

Definition flag (c : Z) : Prop := In c (str "FfghijnQtVvXx?").
Definition valued (c : Z) : Prop := In c (str "abCcdolqRrsz").
Definition bare (c : Z) : Z * bytes := (c, []).

(* How options may be written: letters without argument together behind one dash,
   the last with its argument in the same word or in the next. *)
Inductive written : list (Z * bytes) -> list bytes -> Prop :=
| wr_nil : written [] []
| wr_flags : forall fl es argv, fl <> [] -> Forall flag fl -> written es argv ->
    written (map bare fl ++ es) ((45 :: fl) :: argv)
| wr_next : forall fl c t es argv, Forall flag fl -> valued c -> written es argv ->
    written (map bare fl ++ (c, t) :: es) ((45 :: fl ++ [c]) :: t :: argv)
| wr_same : forall fl c t es argv, Forall flag fl -> valued c -> t <> [] -> written es argv ->
    written (map bare fl ++ (c, t) :: es) ((45 :: fl ++ c :: t) :: argv).

Lemma kind_flag : forall c, flag c -> opt_kind c = NoArg.
Proof. intros c H. cbn in H. repeat (destruct H as [<-|H]; [reflexivity|]). destruct H. Qed.
Lemma kind_valued : forall c, valued c -> opt_kind c = WithArg.
Proof. intros c H. cbn in H. repeat (destruct H as [<-|H]; [reflexivity|]). destruct H. Qed.

Lemma cluster_flags : forall fl s next, Forall flag fl ->
  cluster (fl ++ s) next = (map bare fl ++ fst (cluster s next), snd (cluster s next)).
Proof.
  induction fl as [|c fl IH]; intros s next F; [cbn; apply surjective_pairing|].
  apply Forall_cons_iff in F. destruct F as [Fc F]. cbn [app cluster map]. rewrite (kind_flag c Fc), (IH s next F). reflexivity.
Qed.
Lemma cluster_valued : forall c t next, valued c -> t <> [] -> cluster (c :: t) next = ([(c, t)], false).
Proof. intros c [|x t] next H N; [contradiction|]. cbn [cluster]. rewrite (kind_valued c H). reflexivity. Qed.
Lemma cluster_next : forall c t next, valued c -> cluster [c] (t :: next) = ([(c, t)], true).
Proof. intros c t next H. cbn [cluster]. rewrite (kind_valued c H). reflexivity. Qed.

Lemma getopt_cons : forall s rest, s <> [] -> s <> [45] ->
  getopt ((45 :: s) :: rest) =
    let '(l, used) := cluster s rest in
    match used, rest with
    | true, _ :: rest' => let '(l', w) := getopt rest' in (l ++ l', w)
    | _, _ => let '(l', w) := getopt rest in (l ++ l', w)
    end.
Proof.
  intros s rest N M. cbn [getopt].
  replace (beqb (45 :: s) (str "--")) with false
    by (symmetry; apply beqb_neq; intros X; apply M; injection X; intros; assumption).
  cbn [hd0 tl]. replace (beqb s []) with false by (symmetry; apply beqb_neq; exact N). reflexivity.
Qed.

Lemma not_dash : forall c, flag c \/ valued c -> c <> 45.
Proof.
  intros c [H|H] ->; cbn in H; repeat (destruct H as [H|H]; [discriminate|]); destruct H.
Qed.

Lemma getopt_written : forall es argv, written es argv -> forall more, 
  getopt (argv ++ more) = (es ++ fst (getopt more), snd (getopt more)).
Proof.
  intros es argv H. induction H as [|fl es argv N F _ IH|fl c t es argv F V _ IH|fl c t es argv F V N _ IH]; intros more.
  - cbn. apply surjective_pairing.
  - cbn [app]. rewrite getopt_cons; [|exact N|].
    + replace fl with (fl ++ []) at 1 by apply app_nil_r. rewrite (cluster_flags fl [] _ F). cbn [cluster fst snd].
      rewrite app_nil_r. cbv beta iota zeta. rewrite (IH more). destruct (argv ++ more); rewrite app_assoc; reflexivity.
    + intros X. subst fl. apply Forall_inv in F. apply (not_dash 45); auto.
  - cbn [app]. rewrite getopt_cons.
    + rewrite (cluster_flags fl [c] _ F), (cluster_next c t _ V). cbn [fst snd]. cbv beta iota zeta. rewrite (IH more).
      rewrite <- !app_assoc. reflexivity.
    + intros X. apply app_eq_nil in X. destruct X. discriminate.
    + intros X. destruct fl as [|a [|b fl]]; [|discriminate|discriminate]. injection X as ->. apply (not_dash 45); auto.
  - cbn [app]. rewrite getopt_cons.
    + rewrite (cluster_flags fl (c :: t) _ F), (cluster_valued c t _ V N). cbn [fst snd]. cbv beta iota zeta. rewrite (IH more).
      destruct (argv ++ more); rewrite <- !app_assoc; reflexivity.
    + intros X. apply app_eq_nil in X. destruct X. discriminate.
    + intros X. destruct fl as [|a [|b fl]]; [|discriminate|discriminate]. injection X as -> ->. apply (not_dash 45); auto.
Qed.

Lemma getopt_all : forall es argv, written es argv -> getopt argv = (es, []).
Proof.
  intros es argv H. pose proof (getopt_written es argv H []) as X. rewrite app_nil_r in X. rewrite X.
  cbn. rewrite app_nil_r. reflexivity.
Qed.

(* A word that is no option. *)
Definition stray (a : bytes) : Prop := a = [45] \/ hd0 a <> 45.
Lemma getopt_stray : forall es argv a more, written es argv -> stray a -> In a (snd (getopt (argv ++ a :: more))).
Proof.
  intros es argv a more H S. rewrite (getopt_written es argv H). cbn [snd getopt].
  assert (E : beqb a (str "--") = false).
  { apply beqb_neq. intros ->. destruct S as [S|S]; [discriminate|]. apply S. reflexivity. }
  rewrite E.
  assert (E2 : (hd0 a =? 45) && negb (beqb (tl a) []) = false).
  { destruct S as [->|S]; [reflexivity|]. apply Z.eqb_neq in S. rewrite S. reflexivity. }
  rewrite E2. destruct (getopt more). left. reflexivity.
Qed.

(* ---------- what they mean ---------- *)

(* The words for the actions. *)
Inductive word : bytes -> act -> bool -> Prop :=
| wd_b : forall r, word (str "b" ++ r) PBackup false
| wd_t : forall r, word (str "t" ++ r) PTimed false
| wd_T : forall r, word (str "T" ++ r) PTimer false
| wd_r : forall r, word (str "r" ++ r) PRestore false
| wd_R : forall r, word (str "R" ++ r) PRestore true
| wd_v : forall r, word (str "v" ++ r) PVerify false
| wd_V : forall r, word (str "V" ++ r) PVerify true
| wd_l : forall r, word (str "l" ++ r) PList false
| wd_L : forall r, word (str "L" ++ r) PLong false
| wd_p : forall r, word (str "p" ++ r) PParse false
| wd_s : forall r, word (str "s" ++ r) PStatus false
| wd_S : forall r, word (str "S" ++ r) PSnap false
| wd_e : forall r, word (str "e" ++ r) PEstimate false
| wd_delete : forall r, word (str "delete" ++ r) PDelete false
| wd_d : forall r, (forall q, str "d" ++ r <> str "delete" ++ q) -> word (str "d" ++ r) PDiff false
| wd_D : forall r, word (str "D" ++ r) PDiffLong false
| wd_m : forall r, word (str "m" ++ r) PMonitor false.

Lemma starts_split : forall a b, starts_with a b = true -> exists r, a = b ++ r.
Proof.
  intros a b. revert a. induction b as [|c b IH]; intros a H; [exists a; reflexivity|].
  destruct a as [|d a]; [discriminate|]. cbn in H. apply andb_true_iff in H. destruct H as [E H]. apply Z.eqb_eq in E. subst d.
  destruct (IH a H) as [r ->]. exists r. reflexivity.
Qed.
Lemma starts_self : forall a r, starts_with (a ++ r) a = true.
Proof. induction a as [|c a IH]; intros r; [reflexivity|]. cbn. rewrite Z.eqb_refl. apply IH. Qed.
Lemma first_cons : forall s c, c <> 0 -> first_is s c = true -> exists r, s = c :: r.
Proof.
  intros s c N H. unfold first_is in H. apply Z.eqb_eq in H. destruct s as [|x s]; cbn [hd0] in H; [congruence|].
  subst. exists s. reflexivity.
Qed.

Definition stdin_over (b : bool) : list bytes := if b then [str "restore_list=/dev/stdin"] else [].

Lemma parse_word : forall s a x, parse_action s = Some (a, x) -> exists b, word s a b /\ x = stdin_over b.
Proof.
  intros s a x H. unfold parse_action in H.
  repeat match type of H with
  | (if first_is s ?c then Some (?a', ?x') else _) = _ =>
    let E := fresh "E" in destruct (first_is s c) eqn:E;
      [injection H as <- <-; apply first_cons in E; [destruct E as [r E]; rewrite E in *; clear E|discriminate]|]
  | (if starts_with s ?c then _ else _) = _ =>
    let E := fresh "D" in destruct (starts_with s c) eqn:E;
      [injection H as <- <-; apply starts_split in E; destruct E as [r ->]|]
  end; try discriminate.
  all: try (eexists; split; [constructor|reflexivity]).
  intros q X. change (100 :: r) with (str "d" ++ r) in D. rewrite X, starts_self in D. discriminate.
Qed.
Lemma word_parse : forall s a b, word s a b -> parse_action s = Some (a, stdin_over b).
Proof.
  intros s a b H. destruct H; try reflexivity.
  unfold parse_action. destruct (starts_with (str "d" ++ r) (str "delete")) eqn:E; [|reflexivity].
  apply starts_split in E. destruct E as [q E]. exfalso. apply (H q E).
Qed.

(* The argument of the last, all arguments, is it there. *)
Definition last_of (c : Z) (es : list (Z * bytes)) : option bytes :=
  fold_left (fun acc e => if fst e =? c then Some (snd e) else acc) es None.
Definition args (c : Z) (es : list (Z * bytes)) : list bytes := map snd (filter (fun e => fst e =? c) es).
Definition given (c : Z) (es : list (Z * bytes)) : bool := existsb (fun e => fst e =? c) es.
(* The last of two kinds. *)
Definition last_either (c d : Z) (es : list (Z * bytes)) : option (Z * bytes) :=
  fold_left (fun acc e => if (fst e =? c) || (fst e =? d) then Some e else acc) es None.
(* The overrides an option stands for. *)
Definition overs (e : Z * bytes) : list bytes :=
  if fst e =? 111 then [snd e]
  else if fst e =? 81 then [str "progress_counter=0"; str "stdout=0"]
  else if fst e =? 118 then [str "stdout=1"]
  else if fst e =? 97 then
    (if (hd0 (snd e) =? 82) || (hd0 (snd e) =? 86) then [str "restore_list=/dev/stdin"] else [])
  else [].
Definition num (o : option bytes) : Z := match o with Some t => atoi t | None => 0 end.

Lemma parse_over : forall s a x, parse_action s = Some (a, x) ->
  x = if (hd0 s =? 82) || (hd0 s =? 86) then [str "restore_list=/dev/stdin"] else [].
Proof. intros s a x H. apply parse_word in H. destruct H as (b & W & ->). destruct W; reflexivity. Qed.

(* One step, field by field. *)
Lemma step_fields : forall o c t o', option_step o (c, t) = inl o' ->
  (c = 97 /\ (exists b, word t (o_act o') b) \/ c <> 97 /\ o_act o' = o_act o) /\
  o_backup o' = (if c =? 98 then match o_backup o with None => Some t | b => b end else o_backup o) /\
  o_backup2 o' = (if c =? 98 then match o_backup o, o_backup2 o with Some _, None => Some t | _, b => b end else o_backup2 o) /\
  o_client o' = (if c =? 67 then Some t else o_client o) /\
  o_conf o' = (if c =? 99 then Some t else o_conf o) /\
  o_dir o' = (if c =? 100 then Some t else o_dir o) /\
  o_daemon o' = (o_daemon o && negb (c =? 70)) /\
  o_force o' = (o_force o || (c =? 102)) /\
  o_ca o' = (o_ca o || (c =? 103)) /\
  o_log o' = (if c =? 108 then Some t else o_log o) /\
  o_fork o' = (o_fork o && negb (c =? 110)) /\
  o_over o' = (o_over o ++ overs (c, t)) /\
  o_rand o' = (if c =? 113 then atoi t else o_rand o) /\
  o_regex o' = (if (c =? 114) || (c =? 82) then Some t else o_regex o) /\
  o_icase o' = (if c =? 82 then true else if c =? 114 then false else o_icase o) /\
  o_strip o' = (if c =? 115 then atoi t else o_strip o) /\
  o_vss o' = (if c =? 88 then VssOff else if c =? 120 then VssStrip else o_vss o) /\
  o_test o' = (o_test o || (c =? 116)) /\
  o_file o' = (if c =? 122 then Some t else o_file o).
Proof.
  intros [a b b2 cl cf d dm fo ca lg fk ov rn rx ic st vs ts bf] c t o' H. unfold option_step in H.
  repeat match type of H with
  | (if c =? ?k then _ else _) = _ =>
    let E := fresh "E" in destruct (c =? k) eqn:E;
    [apply Z.eqb_eq in E; subst c; first [discriminate H
      | injection H as <-; cbn; unfold overs; cbn; rewrite ?app_nil_r, ?andb_true_r, ?orb_true_r, ?orb_false_r, ?andb_false_r;
        repeat split; try (right; split; [discriminate|reflexivity]); fail
      | idtac]|]
  end; try discriminate.
  - destruct (parse_action t) as [[a' x]|] eqn:P; [|discriminate]. injection H as <-. cbn.
    pose proof (parse_over _ _ _ P) as Q. apply parse_word in P. destruct P as (bb & W & _).
    unfold overs. cbn. rewrite Q. rewrite ?andb_true_r, ?orb_false_r.
    repeat split. left. split; [reflexivity|]. exists bb. exact W.
  - injection H as <-. cbn. unfold overs. cbn. rewrite ?app_nil_r, ?andb_true_r, ?orb_false_r.
    repeat split; try (right; split; [discriminate|reflexivity]); destruct b, b2; reflexivity.
Qed.

Lemma loop_cons : forall o e es, option_loop o (e :: es) = match option_step o e with inl o => option_loop o es | inr s => inr s end.
Proof. reflexivity. Qed.

Lemma loop_gen : forall es o L o', option_loop o es = inl o' ->
  o_backup o = nth_error L 0 -> o_backup2 o = nth_error L 1 ->
  o_backup o' = nth_error (L ++ args 98 es) 0 /\ o_backup2 o' = nth_error (L ++ args 98 es) 1 /\
  (given 97 es = false -> o_act o' = o_act o) /\
  (forall t, fold_left (fun acc e => if fst e =? 97 then Some (snd e) else acc) es None = Some t -> exists b, word t (o_act o') b) /\
  o_client o' = fold_left (fun acc e => if fst e =? 67 then Some (snd e) else acc) es (o_client o) /\
  o_conf o' = fold_left (fun acc e => if fst e =? 99 then Some (snd e) else acc) es (o_conf o) /\
  o_dir o' = fold_left (fun acc e => if fst e =? 100 then Some (snd e) else acc) es (o_dir o) /\
  o_log o' = fold_left (fun acc e => if fst e =? 108 then Some (snd e) else acc) es (o_log o) /\
  o_file o' = fold_left (fun acc e => if fst e =? 122 then Some (snd e) else acc) es (o_file o) /\
  (forall x, o_rand o = num x -> o_rand o' = num (fold_left (fun acc e => if fst e =? 113 then Some (snd e) else acc) es x)) /\
  (forall x, o_strip o = num x -> o_strip o' = num (fold_left (fun acc e => if fst e =? 115 then Some (snd e) else acc) es x)) /\
  (forall x : option (Z * bytes), o_regex o = option_map snd x -> o_icase o = match x with Some e => fst e =? 82 | None => false end ->
    let y := fold_left (fun acc e => if (fst e =? 114) || (fst e =? 82) then Some e else acc) es x in
    o_regex o' = option_map snd y /\ o_icase o' = match y with Some e => fst e =? 82 | None => false end) /\
  (forall x : option (Z * bytes), o_vss o = match x with Some e => if fst e =? 88 then VssOff else VssStrip | None => VssOn end ->
    o_vss o' = match fold_left (fun acc e => if (fst e =? 88) || (fst e =? 120) then Some e else acc) es x with
               | Some e => if fst e =? 88 then VssOff else VssStrip | None => VssOn end) /\
  o_daemon o' = o_daemon o && negb (given 70 es) /\ o_fork o' = o_fork o && negb (given 110 es) /\
  o_force o' = o_force o || given 102 es /\ o_ca o' = o_ca o || given 103 es /\ o_test o' = o_test o || given 116 es /\
  o_over o' = o_over o ++ flat_map overs es.
Proof.
  induction es as [|[c t] es IH]; intros o L o' H B1 B2.
  { cbn in H. injection H as <-. cbn. rewrite !app_nil_r, !andb_true_r, !orb_false_r.
    split; [exact B1|]. split; [exact B2|]. repeat split; auto; try discriminate. }
  rewrite loop_cons in H. destruct (option_step o (c, t)) as [o1|s] eqn:S; [|discriminate].
  apply step_fields in S.
  destruct S as (S1 & S2 & S3 & S4 & S5 & S6 & S7 & S8 & S9 & S10 & S11 & S12 & S13 & S14 & S15 & S16 & S17 & S18 & S19).
  assert (K : exists L1, o_backup o1 = nth_error L1 0 /\ o_backup2 o1 = nth_error L1 1 /\
                nth_error (L1 ++ args 98 es) 0 = nth_error (L ++ args 98 ((c, t) :: es)) 0 /\
                nth_error (L1 ++ args 98 es) 1 = nth_error (L ++ args 98 ((c, t) :: es)) 1).
  { unfold args. cbn [filter map fst snd]. destruct (c =? 98) eqn:E.
    - exists (L ++ [t]). cbn [map snd]. rewrite <- app_assoc. cbn [app].
      rewrite S2, S3, B1, B2. destruct L as [|x [|y L]]; cbn; auto.
    - exists L. rewrite S2, S3. auto. }
  destruct K as (L1 & K1 & K2 & K3 & K4).
  destruct (IH o1 L1 o' H K1 K2) as (I1 & I2 & I3 & I4 & I5 & I6 & I7 & I8 & I9 & I10 & I11 & I12 & I13 & I14 & I15 & I16 & I17 & I18 & I19).
  split; [rewrite <- K3; exact I1|]. split; [rewrite <- K4; exact I2|].
  cbn [given existsb fold_left fst snd flat_map] in *.
  split. { intros X. apply orb_false_iff in X. destruct X as [X Y]. rewrite (I3 Y). apply Z.eqb_neq in X. destruct S1 as [[S1 _]|[_ S1]]; [contradiction|exact S1]. }
  split.
  { intros u X. destruct (c =? 97) eqn:E; [|apply I4; exact X].
    apply Z.eqb_eq in E. destruct S1 as [[_ S1]|[S1 _]]; [|contradiction].
    destruct (given 97 es) eqn:G.
    - apply I4. rewrite <- X. clear -G. unfold given in G.
      assert (Q : forall z z', fold_left (fun acc e => if fst e =? 97 then Some (snd e) else acc) es z =
                               fold_left (fun acc e => if fst e =? 97 then Some (snd e) else acc) es z').
      { revert G. induction es as [|e es IH]; intros G z z'; [discriminate|]. cbn in *. destruct (fst e =? 97); [reflexivity|]. apply IH. exact G. }
      apply Q.
    - rewrite (I3 eq_refl). assert (u = t).
      { revert X. unfold given in G. clear -G.
        assert (Q : forall z, fold_left (fun acc e => if fst e =? 97 then Some (snd e) else acc) es z = z).
        { induction es as [|e es IH]; intros z; [reflexivity|]. cbn in *. apply orb_false_iff in G. destruct G as [G1 G2]. rewrite G1. apply IH. exact G2. }
        rewrite Q. intros X. injection X as <-. reflexivity. }
      subst u. exact S1. }
  split; [rewrite I5, S4; reflexivity|]. split; [rewrite I6, S5; reflexivity|]. split; [rewrite I7, S6; reflexivity|].
  split; [rewrite I8, S10; reflexivity|]. split; [rewrite I9, S19; reflexivity|].
  split. { intros x X. apply I10. rewrite S13, X. destruct (c =? 113); reflexivity. }
  split. { intros x X. apply I11. rewrite S16, X. destruct (c =? 115); reflexivity. }
  split. { intros x X Y. apply I12; [rewrite S14, X|rewrite S15, Y].
           - destruct ((c =? 114) || (c =? 82)); reflexivity.
           - destruct (c =? 82) eqn:E1; [rewrite orb_true_r; cbn [fst]; rewrite E1; reflexivity|].
             rewrite orb_false_r. destruct (c =? 114); [cbn [fst]; rewrite E1|]; reflexivity. }
  split. { intros x X. apply I13. rewrite S17, X. destruct (c =? 88) eqn:E1; [cbn [orb fst]; rewrite E1; reflexivity|].
           cbn [orb]. destruct (c =? 120); [cbn [fst]; rewrite E1|]; reflexivity. }
  split; [rewrite I14, S7, negb_orb, andb_assoc; reflexivity|]. split; [rewrite I15, S11, negb_orb, andb_assoc; reflexivity|].
  split; [rewrite I16, S8, orb_assoc; reflexivity|]. split; [rewrite I17, S9, orb_assoc; reflexivity|].
  split; [rewrite I18, S18, orb_assoc; reflexivity|]. rewrite I19, S12, app_assoc. reflexivity.
Qed.

(* What the options mean, all told. *)
Record meaning (es : list (Z * bytes)) (o : opts) : Prop := mkmeaning {
  m_act : match last_of 97 es with Some t => exists b, word t (o_act o) b | None => o_act o = PList end;
  m_backup : o_backup o = nth_error (args 98 es) 0;
  m_backup2 : o_backup2 o = nth_error (args 98 es) 1;
  m_client : o_client o = last_of 67 es;
  m_conf : o_conf o = last_of 99 es;
  m_dir : o_dir o = last_of 100 es;
  m_log : o_log o = last_of 108 es;
  m_file : o_file o = last_of 122 es;
  m_rand : o_rand o = num (last_of 113 es);
  m_strip : o_strip o = num (last_of 115 es);
  m_regex : o_regex o = option_map snd (last_either 114 82 es);
  m_icase : o_icase o = match last_either 114 82 es with Some e => fst e =? 82 | None => false end;
  m_vss : o_vss o = match last_either 88 120 es with Some e => if fst e =? 88 then VssOff else VssStrip | None => VssOn end;
  m_daemon : o_daemon o = negb (given 70 es);
  m_fork : o_fork o = negb (given 110 es);
  m_force : o_force o = given 102 es;
  m_ca : o_ca o = given 103 es;
  m_test : o_test o = given 116 es;
  m_over : o_over o = flat_map overs es }.

Lemma given_last : forall c es, given c es = true <-> exists t, last_of c es = Some t.
Proof.
  intros c es. unfold last_of. 
  assert (Q : forall es z, given c es = false -> fold_left (fun acc e => if fst e =? c then Some (snd e) else acc) es z = z).
  { clear. induction es as [|e es IH]; intros z G; [reflexivity|]. cbn in *. apply orb_false_iff in G. destruct G as [G1 G2].
    rewrite G1. apply IH. exact G2. }
  assert (P : forall es z, given c es = true -> exists t, fold_left (fun acc e => if fst e =? c then Some (snd e) else acc) es z = Some t).
  { clear -Q. induction es as [|e es IH]; intros z G; [discriminate|]. cbn in *. destruct (given c es) eqn:G2.
    - apply IH. reflexivity.
    - destruct (fst e =? c) eqn:E; [|cbn in G; fold (given c es) in G; congruence]. rewrite (Q es (Some (snd e)) G2). eauto. }
  split; [apply P|]. intros [t X]. destruct (given c es) eqn:G; [reflexivity|]. rewrite (Q es None G) in X. discriminate.
Qed.

Lemma loop_meaning : forall es o, option_loop opts0 es = inl o -> meaning es o.
Proof.
  intros es o H. destruct (loop_gen es opts0 [] o H eq_refl eq_refl) as
    (I1 & I2 & I3 & I4 & I5 & I6 & I7 & I8 & I9 & I10 & I11 & I12 & I13 & I14 & I15 & I16 & I17 & I18 & I19).
  destruct (I12 None eq_refl eq_refl) as [I12a I12b].
  constructor; auto.
  - destruct (last_of 97 es) eqn:E; [apply I4; exact E|]. apply I3. destruct (given 97 es) eqn:G; [|reflexivity].
    apply given_last in G. destruct G as [t G]. congruence.
  - apply (I10 None). reflexivity.
  - apply (I11 None). reflexivity.
  - apply (I13 None). reflexivity.
Qed.

(* What ends it before anything is done. *)
Definition known (c : Z) : Prop := In c (str "abCcdolqRrszFfgnQtvXx").
Inductive stops : Z * bytes -> stop -> Prop :=
| st_i : forall t, stops (105, t) SIndex
| st_V : forall t, stops (86, t) SVersion
| st_a : forall t, (forall a b, ~ word t a b) -> stops (97, t) SUsage
| st_u : forall c t, ~ known c -> c <> 105 -> c <> 86 -> stops (c, t) SUsage.
Definition goes (e : Z * bytes) : Prop := known (fst e) /\ (fst e = 97 -> exists a b, word (snd e) a b).

Lemma step_stop : forall o e s, option_step o e = inr s <-> stops e s.
Proof.
  intros [a b b2 cl cf d dm fo ca lg fk ov rn rx ic st vs ts bf] [c t] s. split; intros H.
  - unfold option_step in H.
    repeat match type of H with
    | (if c =? ?k then _ else _) = _ =>
      let E := fresh "E" in destruct (c =? k) eqn:E; [apply Z.eqb_eq in E; subst c; try discriminate H|apply Z.eqb_neq in E]
    end.
    + destruct (parse_action t) as [[a' x]|] eqn:P; [discriminate|]. injection H as <-. apply st_a.
      intros a' b' W. rewrite (word_parse _ _ _ W) in P. discriminate.
    + injection H as <-. constructor.
    + injection H as <-. constructor.
    + injection H as <-. apply st_u; auto. intros K. cbn in K.
      repeat (destruct K as [K|K]; [congruence|]). destruct K.
  - inversion H as [t' X Y|t' X Y|t' N X Y|c' t' N N1 N2 X Y]; subst.
    + reflexivity.
    + reflexivity.
    + cbn. destruct (parse_action t) as [[a' x]|] eqn:P; [|reflexivity]. apply parse_word in P. destruct P as (b' & W & _).
      exfalso. apply (N _ _ W).
    + unfold option_step.
      repeat match goal with
      | |- (if c =? ?k then _ else _) = _ =>
        let E := fresh "E" in destruct (c =? k) eqn:E; [apply Z.eqb_eq in E; subst c; exfalso; first [contradiction|apply N; vm_compute; tauto]|]
      end. reflexivity.
Qed.

Lemma goes_stops : forall e, goes e -> forall s, ~ stops e s.
Proof.
  intros e [K W] s H. destruct H as [t|t|t N|c t N]; cbn [fst snd] in *.
  - cbn in K. repeat (destruct K as [K|K]; [discriminate|]). destruct K.
  - cbn in K. repeat (destruct K as [K|K]; [discriminate|]). destruct K.
  - destruct (W eq_refl) as (a & b & X). apply (N _ _ X).
  - contradiction.
Qed.
Lemma known_dec : forall c, known c \/ ~ known c.
Proof. intros c. destruct (in_dec Z.eq_dec c (str "abCcdolqRrszFfgnQtvXx")); [left|right]; assumption. Qed.
Lemma goes_or : forall e, goes e \/ exists s, stops e s.
Proof.
  intros [c t]. destruct (known_dec c) as [K|K].
  - destruct (Z.eq_dec c 97) as [->|N].
    + destruct (parse_action t) as [[a x]|] eqn:P.
      * apply parse_word in P. destruct P as (b & W & _). left. split; [exact K|]. intros _. eauto.
      * right. exists SUsage. apply st_a. intros a b W. rewrite (word_parse _ _ _ W) in P. discriminate.
    + left. split; [exact K|]. intros X. contradiction.
  - right. destruct (Z.eq_dec c 105) as [->|N1]; [eexists; constructor|]. destruct (Z.eq_dec c 86) as [->|N2]; [eexists; constructor|].
    exists SUsage. apply st_u; assumption.
Qed.

Lemma loop_goes : forall es o, Forall goes es -> exists o', option_loop o es = inl o'.
Proof.
  induction es as [|e es IH]; intros o F; [exists o; reflexivity|]. apply Forall_cons_iff in F. destruct F as [Fe F].
  rewrite loop_cons. destruct (option_step o e) as [o1|s] eqn:S; [apply IH; exact F|].
  exfalso. apply step_stop in S. apply (goes_stops e Fe s S).
Qed.

Lemma loop_stops : forall es o s, option_loop o es = inr s <->
  exists es1 e es2, es = es1 ++ e :: es2 /\ Forall goes es1 /\ stops e s.
Proof.
  induction es as [|e es IH]; intros o s.
  - split; [discriminate|]. intros ([|] & ? & ? & X & _); discriminate.
  - rewrite loop_cons. destruct (option_step o e) as [o1|s1] eqn:S.
    + assert (G : goes e).
      { destruct (goes_or e) as [G|[s' G]]; [exact G|]. apply (step_stop o) in G. congruence. }
      rewrite IH. split.
      * intros (es1 & x & es2 & -> & F & T). exists (e :: es1), x, es2. repeat split; auto.
      * intros ([|y es1] & x & es2 & X & F & T).
        -- injection X as <- _. exfalso. apply (goes_stops e G s T).
        -- injection X as <- ->. apply Forall_cons_iff in F. exists es1, x, es2. repeat split; tauto.
    + pose proof S as S'. apply step_stop in S'. split.
      * intros X. injection X as <-. exists [], e, es. repeat split; auto.
      * intros ([|y es1] & x & es2 & X & F & T).
        -- injection X as <- _. apply (step_stop o) in T. congruence.
        -- injection X as <- _. apply Forall_cons_iff in F. exfalso. apply (goes_stops e (proj1 F) s1 S').
Qed.

(* ---------- what is done ---------- *)

Definition locking (a : act) : Prop := a = PBackup \/ a = PTimed \/ a = PTimer.

Definition over_all (es : list (Z * bytes)) (a : act) : list bytes :=
  flat_map overs es ++ match a with PParse => [str "stdout=0"] | _ => [] end.

(* The backup and the second one. *)
Definition wants (es : list (Z * bytes)) (a : act) : option bytes :=
  match nth_error (args 98 es) 0, a with
  | None, (PRestore | PVerify | PDiff | PDiffLong) => Some (str "0")
  | b, _ => b
  end.
Definition wants2 (es : list (Z * bytes)) (a : act) : option bytes :=
  match nth_error (args 98 es) 1, a with
  | None, (PDiff | PDiffLong) => Some (str "n")
  | b, _ => b
  end.
Definition or_conf (x y : option bytes) : option bytes := match x with Some _ => x | None => y end.

(* The settings that are handed on. *)
Definition handed (es : list (Z * bytes)) (a : act) (c : conf) (j : job) : Prop :=
  j_conf j = last_of 99 es /\ j_over j = over_all es a /\
  j_backup j = or_conf (wants es a) (c_backup c) /\ j_backup2 j = or_conf (wants2 es a) (c_backup2 c) /\
  j_prefix j = or_conf (option_map strip_slashes (last_of 100 es)) (c_prefix c) /\
  j_browse j = or_conf (option_map strip_slashes (last_of 100 es)) (c_browse c) /\
  j_regex j = or_conf (option_map snd (last_either 114 82 es)) (c_regex c) /\
  j_icase j = match last_either 114 82 es with Some e => fst e =? 82 | None => false end /\
  j_strip j = num (last_of 115 es) /\ j_force j = given 102 es /\ j_fork j = negb (given 110 es) /\
  j_daemon j = negb (given 70 es) /\ j_file j = or_conf (last_of 122 es) (c_file c) /\
  j_log j = or_conf (last_of 108 es) (c_log c) /\
  j_orig j = match last_of 67 es with Some (_ :: _) => last_of 67 es | _ => c_orig c end /\
  j_vss j = match last_either 88 120 es with Some e => if fst e =? 88 then VssOff else VssStrip | None => VssOn end.

(* All there is when something is run. *)
Definition is_run (e : event) : bool := match e with EClient _ _ | EServer _ _ => true | _ => false end.

Lemma run_shape : forall w argv e, In e (fst (real_main w argv)) -> is_run e = true ->
  exists es c a j d l,
    getopt argv = (es, []) /\ Forall goes es /\ given 116 es = false /\
    match last_of 97 es with Some t => exists b, word t a b | None => a = PList end /\
    w_load w (last_of 99 es) (over_all es a) = Some c /\
    (a = PDelete -> nth_error (args 98 es) 0 <> None) /\
    handed es a c j /\
    fst (real_main w argv) = ELoad (last_of 99 es) (over_all es a) :: d ++ l ++ [EUser; e] /\
    (d = [] \/ exists r, d = [EDelay r] /\ c_mode c = MClient /\ (a = PTimed \/ a = PTimer) /\ r <> 0 /\
       r = (if num (last_of 113 es) =? 0 then c_rand c else num (last_of 113 es))) /\
    ((l = [] /\ c_mode c <> MServer /\ (c_mode c = MClient -> ~ locking a)) \/
     (l = [ELock] /\ w_lock w = true /\ (c_mode c = MServer \/ (c_mode c = MClient /\ locking a)))) /\
    w_user w = true /\
    (c_mode c = MServer -> e = EServer (given 103 es) j /\ snd (real_main w argv) = w_server w) /\
    (c_mode c <> MServer -> e = EClient a j /\ snd (real_main w argv) = w_client w).
Proof.
  intros w argv e I R. unfold real_main in *. destruct (getopt argv) as [es words] eqn:G.
  destruct (option_loop opts0 es) as [o|[| |]] eqn:L.
  2:{ destruct I as [<-|[]]. discriminate. } 2:{ destruct I as [<-|[]]. discriminate. } 2:{ destruct I as [<-|[]]. discriminate. }
  destruct words as [|x words]; [|destruct I as [<-|[]]; discriminate].
  pose proof (loop_meaning es o L) as M. destruct M.
  set (over := o_over o ++ match o_act o with PParse => [str "stdout=0"] | _ => [] end) in *.
  assert (O : over = over_all es (o_act o)) by (unfold over, over_all; rewrite m_over0; reflexivity).
  destruct (w_load w (o_conf o) over) as [c|] eqn:W; [|destruct I as [<-|[]]; discriminate].
  unfold go in *. destruct (o_test o) eqn:T.
  { exfalso. unfold run_test_confs in I. destruct (o_client o) as [cc|]; [destruct (w_cload w cc)|];
      repeat (destruct I as [<-|I]; [discriminate|]); destruct I. }
  destruct (first_backup o) as [b|] eqn:B; [|destruct I as [<-|[]]; discriminate].
  set (rand := if o_rand o =? 0 then c_rand c else o_rand o) in *.
  set (d := match c_mode c, o_act o with
            | MClient, (PTimed | PTimer) => if rand =? 0 then [] else [EDelay rand] | _, _ => [] end) in *.
  assert (Dn : forall x, In x d -> is_run x = false).
  { intros x X. unfold d in X. destruct (c_mode c); [|destruct X|destruct X]. destruct (o_act o); try destruct X;
      destruct (rand =? 0); try destruct X as [<-|[]]; try reflexivity; destruct X. }
  set (locks := needs_lock (c_mode c) (o_act o)) in *.
  assert (Ln : forall x, In x (if locks then [ELock] else []) -> is_run x = false).
  { intros x X. destruct locks; [destruct X as [<-|[]]; reflexivity|destruct X]. }
  destruct (locks && negb (w_lock w)) eqn:K.
  { exfalso. destruct I as [<-|I]; [discriminate|]. cbn [fst] in I. apply in_app_iff in I. destruct I as [I|I]; [rewrite (Dn e I) in R|rewrite (Ln e I) in R]; discriminate. }
  destruct (w_user w) eqn:U; cbn [negb] in *.
  2:{ exfalso. cbn [fst] in I. destruct I as [<-|I]; [discriminate|]. apply in_app_iff in I. destruct I as [I|[<-|[]]]; [|discriminate].
      apply in_app_iff in I. destruct I as [I|I]; [rewrite (Dn e I) in R|rewrite (Ln e I) in R]; discriminate. }
  assert (E : e = match c_mode c with MServer => EServer (o_ca o) (settle c o over b) | _ => EClient (o_act o) (settle c o over b) end).
  { destruct (c_mode c); cbn [fst] in I; (destruct I as [<-|I]; [discriminate|]); apply in_app_iff in I;
      (destruct I as [I|[<-|[]]]; [|reflexivity]); apply in_app_iff in I; (destruct I as [I|[<-|[]]]; [|discriminate]);
      apply in_app_iff in I; (destruct I as [I|I]; [rewrite (Dn e I) in R|rewrite (Ln e I) in R]; discriminate). }
  assert (Fg : Forall goes es).
  { apply Forall_forall. intros y Y. destruct (goes_or y) as [Q|Q]; [exact Q|]. exfalso.
    assert (Z : exists s, option_loop opts0 es = inr s).
    { clear -Y Q. revert Y. generalize opts0. induction es as [|z es IH]; intros o0 Y; [destruct Y|]. rewrite loop_cons.
      destruct (option_step o0 z) as [o1|s1] eqn:S; [|eauto]. destruct Y as [->|Y]; [|apply IH; exact Y].
      destruct Q as [s Q]. apply (step_stop o0) in Q. congruence. }
    destruct Z as [s Z]. congruence. }
  exists es, c, (o_act o), (settle c o over b), d, (if locks then [ELock] else []).
  split; [reflexivity|]. split; [exact Fg|]. split; [congruence|]. split; [exact m_act0|].
  split; [rewrite <- m_conf0, <- O; exact W|].
  assert (Bw : b = wants es (o_act o) /\ (o_act o = PDelete -> nth_error (args 98 es) 0 <> None)).
  { unfold first_backup in B. unfold wants. rewrite m_backup0 in B. destruct (nth_error (args 98 es) 0) as [t|].
    - injection B as <-. split; [reflexivity|]. discriminate.
    - destruct (o_act o); try discriminate; injection B as <-; split; try reflexivity; discriminate. }
  destruct Bw as [Bw Bd]. split; [exact Bd|].
  split.
  { unfold handed, settle, replace_str, or_conf. cbn [j_conf j_over j_backup j_backup2 j_prefix j_browse j_regex j_icase j_strip j_force j_fork j_daemon j_file j_log j_orig j_vss].
    rewrite <- O, <- Bw, <- m_conf0, <- m_dir0, <- m_strip0, <- m_force0, <- m_fork0, <- m_daemon0, <- m_file0, <- m_log0, <- m_client0, <- m_vss0, <- m_regex0, <- m_icase0.
    assert (S2 : second_backup o = wants2 es (o_act o)).
    { unfold second_backup, wants2. rewrite m_backup3. destruct (nth_error (args 98 es) 1); destruct (o_act o); reflexivity. }
    rewrite S2. repeat split. }
  split. { rewrite E, O, m_conf0. destruct (c_mode c); cbn [fst]; rewrite <- !app_assoc; reflexivity. }
  split.
  { unfold d. destruct (c_mode c) eqn:Mo; [|left; reflexivity|left; reflexivity].
    destruct (o_act o) eqn:A; try (left; reflexivity); (destruct (rand =? 0) eqn:Z; [left; reflexivity|right]);
      exists rand; (split; [reflexivity|]); (split; [reflexivity|]); (split; [auto|]); (split; [apply Z.eqb_neq; exact Z|]);
      unfold rand; rewrite m_rand0; reflexivity. }
  split.
  { destruct locks eqn:Q.
    - right. cbn [andb] in K. apply negb_false_iff in K. split; [reflexivity|]. split; [exact K|].
      unfold locks, needs_lock in Q. destruct (c_mode c); [right|left; reflexivity|discriminate]. split; [reflexivity|].
      unfold locking. destruct (o_act o); try discriminate; auto.
    - left. split; [reflexivity|]. unfold locks, needs_lock in Q. destruct (c_mode c); [|discriminate|].
      + split; [discriminate|]. intros _ [X|[X|X]]; rewrite X in Q; discriminate.
      + split; discriminate. }
  split; [reflexivity|].
  split.
  - intros Ms. rewrite E, Ms, m_ca0. split; reflexivity.
  - intros Ms. rewrite E. destruct (c_mode c); [split; reflexivity|contradiction|split; reflexivity].
Qed.

(* What is asked for is done, if nothing is in the way. *)
Lemma run_happens : forall w argv es, written es argv -> Forall goes es -> given 116 es = false ->
  exists a, match last_of 97 es with Some t => exists b, word t a b | None => a = PList end /\
  forall c, w_load w (last_of 99 es) (over_all es a) = Some c -> w_user w = true -> w_lock w = true ->
    (a = PDelete -> nth_error (args 98 es) 0 <> None) ->
    exists e, In e (fst (real_main w argv)) /\ is_run e = true.
Proof.
  intros w argv es Wr F T. pose proof (getopt_all es argv Wr) as G. destruct (loop_goes es opts0 F) as [o L].
  pose proof (loop_meaning es o L) as M. destruct M. exists (o_act o). split; [exact m_act0|].
  intros c W U K B. unfold real_main. rewrite G, L.
  replace (o_over o ++ match o_act o with PParse => [str "stdout=0"] | _ => [] end) with (over_all es (o_act o)) by (unfold over_all; rewrite m_over0; reflexivity).
  rewrite m_conf0, W. unfold go. rewrite m_test0, T.
  assert (Fb : exists b, first_backup o = Some b).
  { unfold first_backup. rewrite m_backup0. destruct (nth_error (args 98 es) 0); [eauto|].
    destruct (o_act o); eauto. exfalso. apply B; reflexivity. }
  destruct Fb as [b Fb]. rewrite Fb, K, U, andb_false_r. cbn [negb].
  destruct (c_mode c); eexists; (split; [right; apply in_app_iff; right; left; reflexivity|reflexivity]).
Qed.

(* Wrong usage. *)
Lemma usage_unknown : forall w es argv fl c r more, written es argv -> Forall goes es -> Forall flag fl ->
  Forall goes (map bare fl) -> opt_kind c = Unknown -> c <> 45 \/ fl <> [] ->
  real_main w (argv ++ (45 :: fl ++ c :: r) :: more) = ([EUsage], 1).
Proof.
  intros w es argv fl c r more W F Ff Fg K N. unfold real_main. rewrite (getopt_written es argv W).
  assert (X : exists l ws, getopt ((45 :: fl ++ c :: r) :: more) = (map bare fl ++ (63, []) :: l, ws)).
  { assert (N2 : fl ++ c :: r <> [45] \/ fl = [] /\ c = 45 /\ r = []).
    { destruct fl as [|x fl]; [|left; intros X; destruct fl; discriminate]. destruct N as [N|N]; [|contradiction].
      left. intros X. injection X as X _. contradiction. }
    destruct N2 as [N2|(-> & -> & _)]; [|destruct N; contradiction].
    rewrite getopt_cons; [|intros X; apply app_eq_nil in X; destruct X; discriminate|exact N2].
    rewrite (cluster_flags fl (c :: r) more Ff). cbn [cluster]. rewrite K. destruct (cluster r more) as [l u]. cbn [fst snd].
    destruct u; [destruct more as [|m more]|]; destruct (getopt _) as [l' w']; eexists _, _; rewrite <- app_assoc; reflexivity. }
  destruct X as (l & ws & X). rewrite X. cbn [fst snd].
  replace (option_loop opts0 (es ++ map bare fl ++ (63, []) :: l)) with (@inr opts stop SUsage); [reflexivity|].
  symmetry. apply loop_stops. exists (es ++ map bare fl), (63, []), l. split; [rewrite <- app_assoc; reflexivity|].
  split; [apply Forall_app; split; assumption|]. apply st_u; try discriminate. intros Q. vm_compute in Q.
  repeat (destruct Q as [Q|Q]; [discriminate|]). destruct Q.
Qed.

Lemma usage_missing : forall w es argv fl c, written es argv -> Forall goes es -> Forall flag fl ->
  Forall goes (map bare fl) -> valued c ->
  real_main w (argv ++ [45 :: fl ++ [c]]) = ([EUsage], 1).
Proof.
  intros w es argv fl c W F Ff Fg V. unfold real_main. rewrite (getopt_written es argv W).
  rewrite getopt_cons.
  - rewrite (cluster_flags fl [c] _ Ff). cbn [cluster]. rewrite (kind_valued c V). cbn [fst snd getopt]. cbn [fst snd]. rewrite app_nil_r.
    replace (option_loop opts0 (es ++ map bare fl ++ [(63, [])])) with (@inr opts stop SUsage); [reflexivity|].
    symmetry. apply loop_stops. exists (es ++ map bare fl), (63, []), []. split; [rewrite <- app_assoc; reflexivity|].
    split; [apply Forall_app; split; assumption|]. apply st_u; try discriminate. intros Q. vm_compute in Q.
    repeat (destruct Q as [Q|Q]; [discriminate|]). destruct Q.
  - intros X. apply app_eq_nil in X. destruct X. discriminate.
  - intros X. destruct fl as [|a [|b fl]]; [|discriminate|discriminate]. injection X as ->. apply (not_dash 45); auto.
Qed.

Lemma usage_stray : forall w es argv a es2 argv2, written es argv -> Forall goes es -> stray a ->
  written es2 argv2 -> Forall goes es2 -> real_main w (argv ++ a :: argv2) = ([EUsage], 1).
Proof.
  intros w es argv a es2 argv2 W F S W2 F2. pose proof (getopt_stray es argv a argv2 W S) as I.
  unfold real_main. destruct (getopt (argv ++ a :: argv2)) as [l ws] eqn:G. cbn [snd] in I.
  assert (E : l = es ++ es2).
  { rewrite (getopt_written es argv W) in G. cbn [getopt] in G.
    assert (E : beqb a (str "--") = false).
    { apply beqb_neq. intros ->. destruct S as [S|S]; [discriminate|]. apply S. reflexivity. }
    assert (E2 : (hd0 a =? 45) && negb (beqb (tl a) []) = false).
    { destruct S as [->|S]; [reflexivity|]. apply Z.eqb_neq in S. rewrite S. reflexivity. }
    rewrite E, E2, (getopt_all es2 argv2 W2) in G. cbn [fst snd] in G. injection G as <- _. reflexivity. }
  subst l. destruct (loop_goes (es ++ es2) opts0) as [o L]; [apply Forall_app; split; assumption|]. rewrite L.
  destruct ws; [destruct I|reflexivity].
Qed.

Lemma stop_first : forall w es1 e es2 argv s, written (es1 ++ e :: es2) argv -> Forall goes es1 -> stops e s ->
  real_main w argv = match s with SUsage => ([EUsage], 1) | SIndex => ([EIndex], 0) | SVersion => ([EVersion], 0) end.
Proof.
  intros w es1 e es2 argv s W F S. unfold real_main. rewrite (getopt_all _ _ W).
  replace (option_loop opts0 (es1 ++ e :: es2)) with (@inr opts stop s); [destruct s; reflexivity|].
  symmetry. apply loop_stops. exists es1, e, es2. auto.
Qed.

(* Testing the configuration. *)
Lemma test_only : forall w argv es words, getopt argv = (es, words) -> given 116 es = true ->
  forall e, In e (fst (real_main w argv)) ->
    match e with EUsage | EIndex | EVersion | ELoad _ _ | EDump | EDumpClient _ => True | _ => False end.
Proof.
  intros w argv es words G T e I. unfold real_main in I. rewrite G in I.
  destruct (option_loop opts0 es) as [o|[| |]] eqn:L.
  2:{ destruct I as [<-|[]]. exact Logic.I. } 2:{ destruct I as [<-|[]]. exact Logic.I. } 2:{ destruct I as [<-|[]]. exact Logic.I. }
  destruct words; [|destruct I as [<-|[]]; exact Logic.I]. pose proof (m_test _ _ (loop_meaning es o L)) as Mt.
  destruct (w_load w (o_conf o) _); [|destruct I as [<-|[]]; exact Logic.I].
  unfold go in I. rewrite Mt, T in I. unfold run_test_confs in I. destruct (o_client o) as [cc|]; [destruct (w_cload w cc)|];
    repeat (destruct I as [<-|I]; [exact Logic.I|]); destruct I.
Qed.

Lemma test_status : forall w argv es, written es argv -> Forall goes es -> given 116 es = true -> given 67 es = false ->
  exists a, match last_of 97 es with Some t => exists b, word t a b | None => a = PList end /\
    (snd (real_main w argv) = 0 <-> w_load w (last_of 99 es) (over_all es a) <> None).
Proof.
  intros w argv es W F T N. destruct (loop_goes es opts0 F) as [o L]. pose proof (loop_meaning es o L) as M. destruct M.
  exists (o_act o). split; [exact m_act0|]. unfold real_main. rewrite (getopt_all _ _ W), L.
  replace (o_over o ++ match o_act o with PParse => [str "stdout=0"] | _ => [] end) with (over_all es (o_act o)) by (unfold over_all; rewrite m_over0; reflexivity).
  rewrite m_conf0. destruct (w_load w (last_of 99 es) (over_all es (o_act o))) as [c|]; cbn [snd].
  - unfold go. rewrite m_test0, T. unfold run_test_confs. rewrite m_client0.
    destruct (last_of 67 es) eqn:E; [|split; [discriminate|reflexivity]].
    assert (X : given 67 es = true) by (apply given_last; eauto). congruence.
  - split; [discriminate|]. intros X. exfalso. apply X. reflexivity.
Qed.
