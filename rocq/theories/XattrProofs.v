(* Proofs about XattrModel: what is saved of ACLs and extended attributes is
   what is asked for when they are restored, and no metadata makes the restore
   read outside it. *)
From Verif Require Import Bytes CmdModel CmdProofs FrameModel FrameProofs DpthModel DpthProofs XattrModel.

(* ---------- the specification ---------- *)

(* What is worth saving of one file, in the order it is asked for again: the
   access ACL, for a directory the default ACL, and the attributes that can be
   read, without the ones that hold the ACLs when the ACLs are there already. *)
Definition acls (k : kern) (isdir : bool) : list ask :=
  (match k_acc k with Some (Some a) => [AAcl false a] | _ => [] end) ++
  (if isdir then match k_def k with Some (Some a) => [AAcl true a] | _ => [] end else []).
(* What the system gives for the value of an attribute. *)
Definition value (k : kern) (z v : bytes) : Prop :=
  exists n, k_size k z = Some n /\
  ((n <= 0 /\ v = []) \/ (0 < n /\ exists w, k_val k z = Some w /\ v = firstn (Z.to_nat n) w)).
Definition acl_name (z : bytes) : Prop :=
  z = str "system.posix_acl_access" \/ z = str "system.posix_acl_default".
(* The attributes kept of a list of names. *)
Inductive kept (k : kern) (have : bool) : list bytes -> list (bytes * bytes) -> Prop :=
| kept_nil : kept k have [] []
| kept_acl : forall z ns ps, have = true -> acl_name z -> kept k have ns ps -> kept k have (z :: ns) ps
| kept_none : forall z ns ps, (have = false \/ ~ acl_name z) -> (forall v, ~ value k z v) ->
    kept k have ns ps -> kept k have (z :: ns) ps
| kept_val : forall z v ns ps, (have = false \/ ~ acl_name z) -> value k z v ->
    kept k have ns ps -> kept k have (z :: ns) ((z, v) :: ps).
(* The names as the system lists them: each followed by a NUL. *)
Definition listing (ns : list bytes) : bytes := concat (map (fun z => z ++ [0]) ns).
(* The room the attributes take in what is saved. *)
Definition room (ps : list (bytes * bytes)) : Z :=
  fold_right (fun p t => 16 + zlen (fst p) + zlen (snd p) + t) 0 ps.

(* ---------- small facts ---------- *)
Definition eight (n : Z) : bytes := four (n / 65536) ++ four (n mod 65536).
Definition is_u32 (n : Z) : Prop := 0 <= n < 2 ^ 32.

Fixpoint digs (f : nat) (n : Z) : bytes :=
  match f with O => [] | S f => digs f (n / 16) ++ [hexdig (n mod 16)] end.
Lemma digs_zero : forall f, digs f 0 = repeat 48 f.
Proof.
  induction f as [|f IH]; [reflexivity|]. cbn [digs]. change (0 / 16) with 0. change (0 mod 16) with 0.
  rewrite IH. change (hexdig 0) with 48. clear IH.
  induction f as [|f IH]; [reflexivity|]. cbn [repeat app]. rewrite IH. reflexivity.
Qed.
Lemma digs_len : forall f n, List.length (digs f n) = f.
Proof. induction f as [|f IH]; intros n; [reflexivity|]. cbn [digs]. rewrite app_length, IH. cbn. lia. Qed.
Lemma hex_digits_digs : forall f n acc, (0 < f)%nat -> 0 <= n < 16 ^ Z.of_nat f ->
  exists d, hex_digits f n acc = d ++ acc /\ (List.length d <= f)%nat /\
    repeat 48 (f - List.length d) ++ d = digs f n.
Proof.
  induction f as [|f IH]; intros n acc Hf Hn; [lia|]. cbn [hex_digits].
  destruct (Z.eqb_spec (n / 16) 0) as [E|E].
  - exists [hexdig (n mod 16)]. cbn [List.length]. split; [reflexivity|]. split; [lia|].
    cbn [digs]. rewrite E, digs_zero. replace (S f - 1)%nat with f by lia. reflexivity.
  - destruct f as [|f].
    { change (16 ^ Z.of_nat 1) with 16 in Hn. lia. }
    assert (Hn' : 0 <= n / 16 < 16 ^ Z.of_nat (S f)).
    { split; [lia|]. apply Z.div_lt_upper_bound; [lia|].
      replace (16 * 16 ^ Z.of_nat (S f)) with (16 ^ Z.of_nat (S (S f))); [lia|].
      rewrite (Nat2Z.inj_succ (S f)), Z.pow_succ_r by lia. reflexivity. }
    destruct (IH (n / 16) (hexdig (n mod 16) :: acc) ltac:(lia) Hn') as (d & E1 & L & E2).
    exists (d ++ [hexdig (n mod 16)]). split; [rewrite E1, <- app_assoc; reflexivity|].
    rewrite app_length. cbn [List.length]. split; [lia|].
    replace (S (S f) - (List.length d + 1))%nat with (S f - List.length d)%nat by lia.
    rewrite app_assoc, E2. reflexivity.
Qed.
Lemma fmt_08X_eight : forall n, is_u32 n -> fmt_08X n = eight n.
Proof.
  intros n Hn. unfold is_u32 in Hn. unfold fmt_08X. rewrite Z.mod_small by lia.
  destruct (hex_digits_digs 8 n [] ltac:(lia)) as (d & E & L & D); [change (16 ^ Z.of_nat 8) with (2 ^ 32); lia|].
  rewrite E, app_nil_r, D. unfold eight, four. cbn [digs app].
  rewrite !Z.div_div by lia.
  assert (F : forall x y (l m : bytes), x = y -> l = m -> hexdig x :: l = hexdig y :: m) by congruence.
  repeat (apply F; [lia|]). reflexivity.
Qed.

Lemma cview_eight : forall n t, is_u32 n -> cview (eight n ++ t) = eight n ++ cview t.
Proof.
  intros n t Hn. unfold is_u32 in Hn. unfold eight. rewrite <- !app_assoc.
  rewrite !cview_four by (unfold is_u16; lia). reflexivity.
Qed.
Lemma eight_len : forall n, List.length (eight n) = 8%nat. Proof. reflexivity. Qed.
Lemma scan_eight : forall n t, is_u32 n -> scan_08X (eight n ++ t) = Some n.
Proof.
  intros n t Hn. unfold is_u32 in Hn. unfold scan_08X, eight. rewrite <- app_assoc.
  destruct (four_lead (n / 65536) (four (n mod 65536) ++ t) ltac:(unfold is_u16; lia)) as (A & B & C).
  rewrite A, B, C.
  assert (R : hex_run 8 (four (n / 65536) ++ four (n mod 65536) ++ t) 0 false = Some (n, t)).
  { unfold four. cbn [app hex_run]. rewrite !hexdig_val by lia.
    match goal with |- (if ?b then _ else _) = _ => destruct b; f_equal; f_equal; lia
      | |- _ = _ => f_equal; f_equal; lia end. }
  rewrite R, Z.mod_small by lia. reflexivity.
Qed.
Lemma zlen_app : forall a b, zlen (a ++ b) = zlen a + zlen b.
Proof. intros. unfold zlen. rewrite app_length. lia. Qed.
Lemma zlen_cons : forall x b, zlen (x :: b) = 1 + zlen b.
Proof. intros. unfold zlen. cbn [List.length]. lia. Qed.
Lemma zlen_pos : forall b, 0 <= zlen b. Proof. intros. unfold zlen. lia. Qed.
Lemma zlen_nil : zlen [] = 0. Proof. reflexivity. Qed.
Lemma zlen_eight : forall n, zlen (eight n) = 8. Proof. reflexivity. Qed.
Lemma zlen_fmt : forall n, is_u32 n -> zlen (fmt_08X n) = 8.
Proof. intros. rewrite fmt_08X_eight by auto. reflexivity. Qed.

(* ---------- the encoding ---------- *)
Definition field (b : bytes) : bytes := fmt_08X (zlen b) ++ b.
Definition group (ps : list (bytes * bytes)) : bytes :=
  concat (map (fun p => field (fst p) ++ field (snd p)) ps).
Definition entry (e : Z * bytes) : bytes := fst e :: field (snd e).
Definition meta (es : list (Z * bytes)) : bytes := concat (map entry es).
Definition small (b : bytes) : Prop := zlen b <= maxlen.

Lemma small_u32 : forall b, small b -> is_u32 (zlen b).
Proof. intros b H. unfold small, maxlen in H. unfold is_u32. pose proof (zlen_pos b). lia. Qed.
Lemma zlen_field : forall b, small b -> zlen (field b) = 8 + zlen b.
Proof. intros. unfold field. rewrite zlen_app, zlen_fmt by (apply small_u32; auto). lia. Qed.
Lemma room_group : forall ps, Forall (fun p => small (fst p) /\ small (snd p)) ps -> zlen (group ps) = room ps.
Proof.
  induction ps as [|p ps IH]; intros H; [reflexivity|].
  unfold group. cbn [map concat room fold_right]. apply Forall_cons_iff in H. destruct H as [[H1 H2] H].
  rewrite !zlen_app, !zlen_field by auto. fold (group ps). rewrite IH by auto.
  unfold room. lia.
Qed.
Lemma room_pos : forall ps, 0 <= room ps.
Proof. induction ps as [|p ps IH]; cbn [room fold_right]; [lia|]. fold (room ps). pose proof (zlen_pos (fst p)). pose proof (zlen_pos (snd p)). lia. Qed.

Lemma copy_app : forall v r, copy (zlen v) (v ++ r) = Some v.
Proof.
  intros. unfold copy. rewrite zlen_app. pose proof (zlen_pos r).
  replace (zlen v <=? zlen v + zlen r + 1) with true by lia.
  unfold zlen. rewrite Nat2Z.id, <- app_assoc, firstn_app, Nat.sub_diag, firstn_all. cbn. rewrite app_nil_r. reflexivity.
Qed.
Lemma skip_app : forall (v r : bytes), skipn (Z.to_nat (zlen v)) (v ++ r) = r.
Proof. intros. unfold zlen. rewrite Nat2Z.id, skipn_app, Nat.sub_diag, skipn_all. reflexivity. Qed.
Lemma skip8 : forall n (r : bytes), skipn 8 (eight n ++ r) = r. Proof. reflexivity. Qed.

Lemma next_field : forall v r, small v -> get_next_xattr_str (field v ++ r) = NStr v r.
Proof.
  intros v r H. unfold get_next_xattr_str. pose proof (small_u32 v H) as U.
  rewrite zlen_app, zlen_field by auto. pose proof (zlen_pos v). pose proof (zlen_pos r).
  replace (8 + zlen v + zlen r <? 8) with false by lia.
  unfold field. rewrite fmt_08X_eight, <- app_assoc by auto. rewrite cview_eight, scan_eight by auto.
  rewrite skip8. rewrite zlen_app. replace (zlen v + zlen r <? zlen v) with false by lia.
  rewrite copy_app, skip_app. reflexivity.
Qed.

(* ---------- restoring ---------- *)
(* The attributes are asked for one after the other until one is refused. *)
Fixpoint ask_all (ans : answers) (log : list ask) (l : list ask) : list ask * bool :=
  match l with
  | [] => (log, true)
  | a :: r => if ans log a then ask_all ans (a :: log) r else (a :: log, false)
  end.
Definition xask (p : bytes * bytes) : ask := AXattr (fst p) (snd p).

Lemma set_xattr_group : forall ans ps fuel log,
  Forall (fun p => cstr (fst p) /\ small (fst p) /\ small (snd p)) ps -> (List.length ps < fuel)%nat ->
  do_set_xattr fuel ans (group ps) log =
  let '(l, ok) := ask_all ans log (map xask ps) in PDone (if ok then 0 else -1) l.
Proof.
  intros ans. induction ps as [|[z v] ps IH]; intros fuel log H Hf; (destruct fuel as [|fuel]; [cbn in Hf; lia|]).
  - reflexivity.
  - apply Forall_cons_iff in H. destruct H as [(H1 & H2 & H3) H]. cbn [fst snd] in *.
    cbn [do_set_xattr]. unfold group. cbn [map concat fst snd]. fold (group ps).
    rewrite <- app_assoc.
    assert (L : zlen (field z ++ field v ++ group ps) <=? 0 = false).
    { rewrite zlen_app, zlen_field by auto. pose proof (zlen_pos z). pose proof (zlen_pos (field v ++ group ps)). lia. }
    rewrite L, !next_field by auto. rewrite (cview_id z) by auto.
    cbn [map ask_all]. change (xask (z, v)) with (AXattr z v). destruct (ans log (AXattr z v)); [|reflexivity].
    rewrite IH by (auto; cbn in Hf; lia). reflexivity.
Qed.

(* The loop over the entries, one entry at a time. *)
Lemma set_loop_entry : forall handle fuel c m r errors log, is_char c -> small m ->
  set_loop handle (S fuel) (entry (c, m) ++ r) errors log =
  match handle c m log with
  | PUB l => PUB l
  | PDone e l => set_loop handle fuel r (if e =? 0 then errors else errors + 1) l
  end.
Proof.
  intros handle fuel c m r errors log Hc Hm. pose proof (small_u32 m Hm) as U.
  unfold entry. cbn [fst snd]. cbn [set_loop].
  assert (L : zlen ((c :: field m) ++ r) = 9 + zlen m + zlen r).
  { rewrite zlen_app, zlen_cons, zlen_field by auto. lia. }
  rewrite L. pose proof (zlen_pos m). pose proof (zlen_pos r).
  replace (9 + zlen m + zlen r <=? 0) with false by lia.
  replace (9 + zlen m + zlen r <? 9) with false by lia.
  unfold field. rewrite fmt_08X_eight by auto. cbn [app cview].
  unfold is_char in Hc. replace (c =? 0) with false by lia.
  rewrite <- app_assoc, cview_eight, scan_eight by auto.
  change (skipn 9 (c :: eight (zlen m) ++ m ++ r)) with (m ++ r).
  rewrite zlen_app. replace (zlen m + zlen r <? zlen m) with false by lia.
  rewrite copy_app, skip_app. reflexivity.
Qed.

Definition ent_ok (e : Z * bytes) : Prop := is_char (fst e) /\ small (snd e).
(* All entries of a list, then what follows. *)
Fixpoint handle_all (handle : Z -> bytes -> list ask -> put) (es : list (Z * bytes)) (errors : Z) (log : list ask) : put :=
  match es with
  | [] => PDone errors log
  | (c, m) :: r =>
    match handle c m log with
    | PUB l => PUB l
    | PDone e l => handle_all handle r (if e =? 0 then errors else errors + 1) l
    end
  end.
Lemma set_loop_meta : forall handle es r fuel errors log, Forall ent_ok es ->
  set_loop handle (List.length es + fuel) (meta es ++ r) errors log =
  match handle_all handle es errors log with
  | PUB l => PUB l
  | PDone e l => set_loop handle fuel r e l
  end.
Proof.
  intros handle. induction es as [|[c m] es IH]; intros r fuel errors log H; [reflexivity|].
  apply Forall_cons_iff in H. destruct H as [[H1 H2] H]. cbn [fst snd] in *.
  unfold meta. cbn [map concat]. fold (meta es). rewrite <- app_assoc.
  cbn [List.length Nat.add]. rewrite set_loop_entry by auto. cbn [handle_all].
  destruct (handle c m log) as [l|e l]; [reflexivity|]. apply IH. auto.
Qed.
Lemma set_loop_fuel : forall handle f f' data errors log, (List.length data < f)%nat -> (List.length data < f')%nat ->
  set_loop handle f data errors log = set_loop handle f' data errors log.
Proof.
  intros handle. induction f as [|f IH]; intros f' data errors log H H'; [lia|].
  destruct f' as [|f']; [lia|]. cbn [set_loop].
  destruct (Z.leb_spec (zlen data) 0); [reflexivity|].
  destruct (Z.ltb_spec (zlen data) 9); [reflexivity|].
  destruct (cview data); [reflexivity|]. destruct (scan_08X b) as [s|]; [|reflexivity].
  destruct (Z.ltb_spec (zlen (skipn 9 data)) s); [reflexivity|].
  destruct (copy s (skipn 9 data)); [|reflexivity].
  destruct (handle z b0 log) as [l|e l]; [reflexivity|].
  apply IH; unfold zlen in *; rewrite !skipn_length; lia.
Qed.
Lemma meta_len : forall es, (List.length es <= List.length (meta es))%nat.
Proof.
  induction es as [|e es IH]; [cbn; lia|]. unfold meta. cbn [map concat]. fold (meta es).
  rewrite app_length. unfold entry. cbn. lia.
Qed.
Lemma set_meta : forall handle es r errors log, Forall ent_ok es ->
  set_loop handle (S (List.length (meta es ++ r))) (meta es ++ r) errors log =
  match handle_all handle es errors log with
  | PUB l => PUB l
  | PDone e l => set_loop handle (S (List.length r)) r e l
  end.
Proof.
  intros handle es r errors log H. pose proof (meta_len es) as L.
  replace (S (List.length (meta es ++ r))) with
    (List.length es + (S (List.length (meta es ++ r)) - List.length es))%nat by (rewrite app_length; lia).
  rewrite set_loop_meta by auto. destruct (handle_all handle es errors log); [reflexivity|].
  apply set_loop_fuel; rewrite ?app_length; lia.
Qed.

(* ---------- saving ---------- *)
Lemma get_value_iff : forall k z v, get_value k z = Some v <-> value k z v.
Proof.
  intros k z v. unfold get_value, value. destruct (k_size k z) as [n|].
  - destruct (Z.leb_spec n 0).
    + split; [intros E; injection E as <-; exists n; auto|]. intros (n' & E & [[_ ->]|[? _]]); [reflexivity|].
      injection E as <-. lia.
    + destruct (k_val k z) as [w|].
      * split; [intros E; injection E as <-; exists n; eauto 8|].
        intros (n' & E & [[? _]|[_ (w' & E' & ->)]]); injection E as <-; [lia|]. injection E' as <-. reflexivity.
      * split; [discriminate|]. intros (n' & E & [[? _]|[_ (w' & E' & _)]]); [|discriminate]. injection E as <-. lia.
  - split; [discriminate|]. intros (n' & E & _). discriminate.
Qed.
Lemma get_value_none : forall k z, (forall v, ~ value k z v) -> get_value k z = None.
Proof. intros k z H. destruct (get_value k z) as [v|] eqn:E; [|reflexivity]. exfalso. apply (H v). apply get_value_iff. exact E. Qed.
Lemma in_skiplist_iff : forall z, in_skiplist z = true <-> acl_name z.
Proof.
  intros z. unfold in_skiplist, acl_name. rewrite orb_true_iff, !beqb_eq. tauto.
Qed.
Lemma not_skipped : forall have z, have = false \/ ~ acl_name z -> have && in_skiplist z = false.
Proof.
  intros have z [->|H]; [reflexivity|]. destruct (in_skiplist z) eqn:E; [|apply andb_false_r].
  exfalso. apply H. apply in_skiplist_iff. exact E.
Qed.

Lemma has_nul_app : forall z r, has_nul (z ++ 0 :: r) = true.
Proof. induction z as [|x z IH]; intros r; [reflexivity|]. cbn [app has_nul]. destruct (x =? 0); auto. Qed.
Lemma cview_stop : forall z r, cstr z -> cview (z ++ 0 :: r) = z.
Proof.
  induction z as [|x z IH]; intros r H; [reflexivity|]. apply Forall_cons_iff in H. destruct H as [H1 H].
  cbn [app cview]. unfold is_char in H1. replace (x =? 0) with false by lia. rewrite IH by exact H. reflexivity.
Qed.
Lemma skip_name : forall (z r : bytes), skipn (S (List.length z)) (z ++ 0 :: r) = r.
Proof. induction z as [|x z IH]; intros r; [reflexivity|]. cbn [List.length app]. rewrite skipn_cons. apply IH. Qed.

Definition fits (p : bytes * bytes) : Prop := 16 + zlen (fst p) + zlen (snd p) <= maxlen.
Definition add (acc : option bytes) (ps : list (bytes * bytes)) : option bytes :=
  match ps with [] => acc | _ => Some (text acc ++ group ps) end.
Lemma fits_small : forall z v, fits (z, v) -> small z /\ small v.
Proof. unfold fits, small. intros z v H. cbn [fst snd] in H. pose proof (zlen_pos z). pose proof (zlen_pos v). lia. Qed.
Lemma text_add : forall acc ps, text (add acc ps) = text acc ++ group ps.
Proof. intros acc [|p ps]; [cbn; rewrite app_nil_r; reflexivity|reflexivity]. Qed.
Lemma add_step : forall acc z v ps,
  add (Some (text acc ++ fmt_08X (zlen z) ++ z ++ fmt_08X (zlen v) ++ v)) ps = add acc ((z, v) :: ps).
Proof.
  intros acc z v ps. unfold add, group. cbn [text]. destruct ps as [|p ps]; cbn [map concat]; unfold field; cbn [fst snd];
  rewrite ?app_nil_r, <- ?app_assoc; reflexivity.
Qed.

Lemma toappend_spec : forall k have ns ps, kept k have ns ps -> forall pad fuel acc,
  Forall cstr ns -> Forall small ns -> Forall fits ps -> zlen (text acc) <= maxlen -> (List.length ns < fuel)%nat ->
  get_toappend fuel k have (listing ns ++ pad) (zlen (listing ns)) acc =
  GGot (if zlen (text acc) + room ps <=? maxlen then add acc ps else None).
Proof.
  intros k have ns ps K. induction K as [|z ns ps Hh Ha K IH|z ns ps Hs Hv K IH|z v ns ps Hs Hv K IH];
    intros pad fuel acc Hc Hm Hf Hacc Hfuel; (destruct fuel as [|fuel]; [cbn in Hfuel; lia|]).
  - cbn. rewrite Z.add_0_r. replace (zlen (text acc) <=? maxlen) with true by lia. reflexivity.
  - apply Forall_cons_iff in Hc. destruct Hc as [Hc1 Hc]. apply Forall_cons_iff in Hm. destruct Hm as [Hm1 Hm].
    cbn [get_toappend]. unfold listing. cbn [map concat]. fold (listing ns). rewrite <- !app_assoc. cbn [app].
    rewrite !zlen_app, zlen_cons. pose proof (zlen_pos z). pose proof (zlen_pos (listing ns)).
    replace (zlen z + (1 + zlen (listing ns)) <=? 0) with false by lia.
    rewrite has_nul_app, cview_stop by auto. cbn [negb]. unfold small in Hm1. replace (maxlen <? zlen z) with false by lia.
    rewrite Hh. apply in_skiplist_iff in Ha. rewrite Ha. cbn [andb]. subst have.
    rewrite skip_name. replace (zlen z + (1 + zlen (listing ns)) - Z.of_nat (S (List.length z))) with (zlen (listing ns)) by (unfold zlen; lia).
    apply IH; auto. cbn in Hfuel; lia.
  - apply Forall_cons_iff in Hc. destruct Hc as [Hc1 Hc]. apply Forall_cons_iff in Hm. destruct Hm as [Hm1 Hm].
    cbn [get_toappend]. unfold listing. cbn [map concat]. fold (listing ns). rewrite <- !app_assoc. cbn [app].
    rewrite !zlen_app, zlen_cons. pose proof (zlen_pos z). pose proof (zlen_pos (listing ns)).
    replace (zlen z + (1 + zlen (listing ns)) <=? 0) with false by lia.
    rewrite has_nul_app, cview_stop by auto. cbn [negb]. unfold small in Hm1. replace (maxlen <? zlen z) with false by lia.
    rewrite not_skipped by auto. rewrite get_value_none by auto.
    rewrite skip_name. replace (zlen z + (1 + zlen (listing ns)) - Z.of_nat (S (List.length z))) with (zlen (listing ns)) by (unfold zlen; lia).
    apply IH; auto. cbn in Hfuel; lia.
  - apply Forall_cons_iff in Hc. destruct Hc as [Hc1 Hc]. apply Forall_cons_iff in Hm. destruct Hm as [Hm1 Hm].
    apply Forall_cons_iff in Hf. destruct Hf as [Hf1 Hf]. destruct (fits_small z v Hf1) as [_ Hv1].
    cbn [get_toappend]. unfold listing. cbn [map concat]. fold (listing ns). rewrite <- !app_assoc. cbn [app].
    rewrite !(zlen_app z), zlen_cons. pose proof (zlen_pos z). pose proof (zlen_pos (listing ns)).
    replace (zlen z + (1 + zlen (listing ns)) <=? 0) with false by lia.
    rewrite has_nul_app, cview_stop by auto. cbn [negb]. unfold small in Hm1, Hv1. replace (maxlen <? zlen z) with false by lia.
    rewrite not_skipped by auto. apply get_value_iff in Hv. rewrite Hv. cbn [room fold_right fst snd]. fold (room ps).
    replace (maxlen <? zlen v) with false by lia.
    unfold fits in Hf1. cbn [fst snd] in Hf1. pose proof (zlen_pos v). pose proof (zlen_pos (text acc)). unfold maxlen in *.
    rewrite Z.mod_small by lia. rewrite Z.eqb_refl. cbn [negb].
    pose proof (room_pos ps).
    destruct (Z.ltb_spec 2147483647 (zlen (text acc) + 8 + zlen z + 8 + zlen v)) as [B|B].
    { replace (zlen (text acc) + (16 + zlen z + zlen v + room ps) <=? 2147483647) with false by lia. reflexivity. }
    rewrite skip_name. replace (zlen z + (1 + zlen (listing ns)) - Z.of_nat (S (List.length z))) with (zlen (listing ns)) by (unfold zlen; lia).
    assert (Lz : is_u32 (zlen z)) by (unfold is_u32; lia). assert (Lv : is_u32 (zlen v)) by (unfold is_u32; lia).
    assert (T : zlen (text (Some (text acc ++ fmt_08X (zlen z) ++ z ++ fmt_08X (zlen v) ++ v))) = zlen (text acc) + 8 + zlen z + 8 + zlen v).
    { cbn [text]. rewrite !zlen_app, !zlen_fmt by auto. lia. }
    rewrite IH; auto; [|rewrite T; lia|cbn in Hfuel; lia].
    rewrite T, add_step. replace (zlen (text acc) + 8 + zlen z + 8 + zlen v + room ps) with (zlen (text acc) + (16 + zlen z + zlen v + room ps)) by lia.
    reflexivity.
Qed.

(* The entries the ACLs become. *)
Definition aent (a : ask) : Z * bytes :=
  match a with AAcl false t => (META_ACCESS_ACL, t) | AAcl true t => (META_DEFAULT_ACL, t) | _ => (0, []) end.
Definition acl_ok (k : kern) : Prop :=
  (forall a, k_acc k = Some (Some a) -> cstr a /\ small a) /\ (forall a, k_def k = Some (Some a) -> cstr a /\ small a).
Definition meta_of (es : list (Z * bytes)) : option bytes := match es with [] => None | _ => Some (meta es) end.
Definition have (k : kern) (isdir : bool) : bool := match acls k isdir with [] => false | _ => true end.
(* The listing the system gives, and names it can be. *)
Definition lists (k : kern) (ns : list bytes) : Prop :=
  (exists n, k_len k = Some n) /\ k_list k = Some (listing ns) /\ Forall cstr ns /\ Forall small ns.

Lemma get_acl_spec : forall k isdir, acl_ok k -> get_acl k isdir = meta_of (map aent (acls k isdir)).
Proof.
  intros k isdir [H1 H2]. unfold get_acl, acls.
  destruct (k_acc k) as [[a|]|] eqn:E1.
  1: destruct (H1 a eq_refl) as [_ S1]; unfold small in S1.
  all: destruct isdir; [destruct (k_def k) as [[d|]|] eqn:E2|].
  all: try (destruct (H2 d eq_refl) as [_ S2]; unfold small in S2).
  all: unfold get_acl_string; repeat match goal with |- context [maxlen <? zlen ?x] => replace (maxlen <? zlen x) with false by lia end; unfold meta_of, meta, entry, field, text; cbn [map app concat aent fst snd]; rewrite ?app_nil_r, <- ?app_assoc; try reflexivity.
Qed.

Definition xents (ps : list (bytes * bytes)) : list (Z * bytes) :=
  match ps with [] => [] | _ => if room ps <=? maxlen then [(META_XATTR, group ps)] else [] end.

Lemma meta_app : forall a b, meta (a ++ b) = meta a ++ meta b.
Proof. intros. unfold meta. rewrite map_app, concat_app. reflexivity. Qed.
Lemma text_meta : forall es, text (meta_of es) = meta es. Proof. destruct es; reflexivity. Qed.
Lemma listing_len : forall ns, (List.length ns <= List.length (listing ns))%nat.
Proof.
  induction ns as [|z ns IH]; [cbn; lia|]. unfold listing. cbn [map concat]. fold (listing ns). rewrite !app_length. cbn. lia.
Qed.

Theorem get_spec : forall k isdir ns ps, acl_ok k -> lists k ns -> kept k (have k isdir) ns ps -> Forall fits ps ->
  get_extrameta k isdir = GGot (meta_of (map aent (acls k isdir) ++ xents ps)).
Proof.
  intros k isdir ns ps A (L1 & L2 & L3 & L4) K F. destruct L1 as [n L1].
  unfold get_extrameta, get_xattr. rewrite L1, L2, get_acl_spec by auto.
  replace (match meta_of (map aent (acls k isdir)) with Some _ => true | None => false end) with (have k isdir)
    by (unfold have; destruct (acls k isdir); reflexivity).
  rewrite (toappend_spec k _ ns ps K) with (acc := None); auto; [|cbn; unfold maxlen; lia|pose proof (listing_len ns); lia].
  cbn [text]. rewrite zlen_nil, Z.add_0_l.
  assert (G : Forall (fun p => small (fst p) /\ small (snd p)) ps).
  { eapply Forall_impl; [|exact F]. intros [z v] Hp. apply fits_small in Hp. exact Hp. }
  unfold xents. destruct ps as [|p ps].
  { cbn. rewrite app_nil_r. reflexivity. }
  destruct (room (p :: ps) <=? maxlen) eqn:R; [|rewrite app_nil_r; reflexivity].
  unfold add. cbn [text app]. unfold append_to_extrameta. rewrite text_meta.
  replace (meta_of (map aent (acls k isdir) ++ [(META_XATTR, group (p :: ps))])) with
    (Some (meta (map aent (acls k isdir) ++ [(META_XATTR, group (p :: ps))]))) by (destruct (map aent (acls k isdir)); reflexivity).
  rewrite meta_app. do 3 f_equal. unfold meta. cbn [map concat]. unfold entry, field. cbn [fst snd app]. rewrite app_nil_r. reflexivity.
Qed.

(* ---------- round trip ---------- *)
(* Every ACL is asked for whatever became of the others; the number refused. *)
Fixpoint ask_each (ans : answers) (log : list ask) (l : list ask) : list ask * Z :=
  match l with
  | [] => (log, 0)
  | a :: r => let '(l, n) := ask_each ans (a :: log) r in (l, (if ans log a then 0 else 1) + n)
  end.
(* Restoring: the ACLs, then the attributes until one is refused. *)
Definition asked (ans : answers) (acl xs : list ask) : put :=
  let '(l1, n) := ask_each ans [] acl in
  let '(l2, ok) := ask_all ans l1 xs in
  PDone (if (ok : bool) then n else n + 1) l2.

Lemma handle_app : forall handle a b errors log,
  handle_all handle (a ++ b) errors log =
  match handle_all handle a errors log with PUB l => PUB l | PDone e l => handle_all handle b e l end.
Proof.
  intros handle. induction a as [|[c m] a IH]; intros b errors log; [reflexivity|].
  cbn [app handle_all]. destruct (handle c m log); [reflexivity|]. apply IH.
Qed.
Lemma acls_in : forall k isdir a, In a (acls k isdir) -> acl_ok k -> exists d t, a = AAcl d t /\ cstr t /\ small t.
Proof.
  intros k isdir a H [O1 O2]. unfold acls in H. apply in_app_iff in H. destruct H as [H|H].
  - destruct (k_acc k) as [[t|]|]; try contradiction. destruct H as [<-|[]]. destruct (O1 t eq_refl). eauto 6.
  - destruct isdir; [|contradiction]. destruct (k_def k) as [[t|]|]; try contradiction. destruct H as [<-|[]]. destruct (O2 t eq_refl). eauto 6.
Qed.
(* An entry that is handed to set_acl() by both switches. *)
Definition acl_handle (ans : answers) (h : Z -> bytes -> list ask -> put) : Prop :=
  forall m log, h META_ACCESS_ACL m log = set_acl ans false m log /\ h META_DEFAULT_ACL m log = set_acl ans true m log.
Lemma handle_acls : forall ans h l errors log, acl_handle ans h ->
  (forall a, In a l -> exists d t, a = AAcl d t /\ cstr t /\ small t) ->
  handle_all h (map aent l) errors log = let '(l1, n) := ask_each ans log l in PDone (errors + n) l1.
Proof.
  intros ans h. induction l as [|a l IH]; intros errors log Hh H.
  - cbn. rewrite Z.add_0_r. reflexivity.
  - destruct (H a (or_introl eq_refl)) as (d & t & -> & C & Sm).
    cbn [map handle_all]. destruct (Hh t log) as [E1 E2].
    assert (E : h (fst (aent (AAcl d t))) (snd (aent (AAcl d t))) log = set_acl ans d t log) by (destruct d; assumption).
    destruct (aent (AAcl d t)) as [c m]. cbn [fst snd] in E. rewrite E. unfold set_acl. rewrite (cview_id t) by auto.
    cbn [ask_each]. rewrite IH by (auto; intros a' Ha; apply H; right; exact Ha).
    destruct (ask_each ans (AAcl d t :: log) l) as [l1 n]. destruct (ans log (AAcl d t)).
    + rewrite Z.eqb_refl. f_equal; lia.
    + change (-1 =? 0) with false. cbv iota. f_equal; lia.
Qed.
Lemma acl_handle_linux : forall ans, acl_handle ans (set_one ans).
Proof. intros ans m log. split; reflexivity. Qed.

Lemma ents_ok_acls : forall k isdir, acl_ok k -> Forall ent_ok (map aent (acls k isdir)).
Proof.
  intros k isdir A. apply Forall_forall. intros e H. apply in_map_iff in H. destruct H as (a & <- & H).
  destruct (acls_in k isdir a H A) as (d & t & -> & C & Sm). destruct d; (split; [unfold is_char, aent, META_ACCESS_ACL, META_DEFAULT_ACL, META_XATTR, META_XATTR_BSD; cbn [fst]; lia|exact Sm]).
Qed.
Lemma set_whole : forall h es, Forall ent_ok es ->
  set_loop h (S (List.length (meta es))) (meta es) 0 [] = handle_all h es 0 [].
Proof.
  intros h es H. pose proof (set_meta h es [] 0 [] H) as E. rewrite app_nil_r in E. rewrite E.
  destruct (handle_all h es 0 []); reflexivity.
Qed.

Lemma kept_cstr : forall k hv ns ps, kept k hv ns ps -> Forall cstr ns -> Forall (fun p => cstr (fst p)) ps.
Proof.
  induction 1; intros C; auto; apply Forall_cons_iff in C; destruct C as [C1 C]; auto.
Qed.

Theorem roundtrip : forall k isdir ns ps, acl_ok k -> lists k ns -> kept k (have k isdir) ns ps -> Forall fits ps ->
  room ps <= maxlen ->
  exists t, get_extrameta k isdir = GGot t /\ (t = None <-> acls k isdir = [] /\ ps = []) /\
    forall ans, set_extrameta ans (text t) = asked ans (acls k isdir) (map xask ps).
Proof.
  intros k isdir ns ps A L K F R. eexists. split; [apply (get_spec k isdir ns ps); auto|].
  assert (X : xents ps = match ps with [] => [] | _ => [(META_XATTR, group ps)] end).
  { unfold xents. destruct ps; [reflexivity|]. replace (room (p :: ps) <=? maxlen) with true by lia. reflexivity. }
  rewrite X. split.
  { destruct (acls k isdir) as [|a l]; destruct ps as [|p ps]; unfold meta_of; cbn [map app]; split; intros H; auto;
    solve [discriminate H | destruct H as [H H0]; first [discriminate H | discriminate H0]]. }
  intros ans. rewrite text_meta. unfold set_extrameta.
  assert (G : Forall (fun p => cstr (fst p) /\ small (fst p) /\ small (snd p)) ps).
  { destruct L as (_ & _ & L3 & _). pose proof (kept_cstr _ _ _ _ K L3) as C.
    apply Forall_forall. intros [z v] Hp. rewrite Forall_forall in C, F. pose proof (C _ Hp). destruct (fits_small z v (F _ Hp)). auto. }
  assert (GR : zlen (group ps) = room ps).
  { apply room_group. eapply Forall_impl; [|exact G]. cbn. intros p Hp. tauto. }
  rewrite set_whole.
  2: { apply Forall_app. split; [apply ents_ok_acls; auto|]. destruct ps; [constructor|]. constructor; [|constructor].
       split; [unfold is_char, aent, META_ACCESS_ACL, META_DEFAULT_ACL, META_XATTR, META_XATTR_BSD; cbn [fst]; lia|]. cbn [snd]. unfold small. rewrite GR. exact R. }
  rewrite handle_app, (handle_acls ans); [|apply acl_handle_linux|intros a Ha; apply (acls_in k isdir); auto].
  unfold asked. destruct (ask_each ans [] (acls k isdir)) as [l1 n]. rewrite Z.add_0_l.
  destruct ps as [|p ps].
  { reflexivity. }
  cbn [handle_all]. change (set_one ans META_XATTR (group (p :: ps)) l1) with (set_xattr ans (group (p :: ps)) l1).
  unfold set_xattr. rewrite set_xattr_group; auto.
  2: { assert (P : forall qs : list (bytes * bytes), Forall (fun p => cstr (fst p) /\ small (fst p) /\ small (snd p)) qs -> (List.length qs <= List.length (group qs))%nat).
       { clear. induction qs as [|q qs IH]; intros H; [cbn; lia|]. apply Forall_cons_iff in H. destruct H as [(_ & H1 & _) H]. specialize (IH H).
         unfold group. cbn [map concat]. fold (group qs). rewrite !app_length. cbn [List.length].
         pose proof (zlen_field (fst q) H1) as E. pose proof (zlen_pos (fst q)). unfold zlen in *. lia. }
       specialize (P _ G). lia. }
  destruct (ask_all ans l1 (map xask (p :: ps))) as [l2 [|]]; [rewrite Z.eqb_refl; reflexivity|].
  change (-1 =? 0) with false. reflexivity.
Qed.

(* Nothing refused: everything is asked for, in order, and 0 is returned. *)
Lemma ask_each_all : forall ans l log, (forall g a, ans g a = true) -> ask_each ans log l = (rev l ++ log, 0).
Proof.
  intros ans. induction l as [|a l IH]; intros log H; [reflexivity|]. cbn [ask_each rev]. rewrite IH, H by auto.
  rewrite <- app_assoc. reflexivity.
Qed.
Lemma ask_all_all : forall ans l log, (forall g a, ans g a = true) -> ask_all ans log l = (rev l ++ log, true).
Proof.
  intros ans. induction l as [|a l IH]; intros log H; [reflexivity|]. cbn [ask_all rev]. rewrite H, IH by auto.
  rewrite <- app_assoc. reflexivity.
Qed.
Theorem asked_all : forall ans acl xs, (forall g a, ans g a = true) -> asked ans acl xs = PDone 0 (rev (acl ++ xs)).
Proof.
  intros ans acl xs H. unfold asked. rewrite ask_each_all by auto. cbv beta iota. rewrite ask_all_all by auto. cbv beta iota.
  rewrite rev_app_distr, app_nil_r. reflexivity.
Qed.

(* Attributes that do not fit together: none of them is saved, the ACLs are. *)
Theorem too_long : forall k isdir ns ps, acl_ok k -> lists k ns -> kept k (have k isdir) ns ps -> Forall fits ps ->
  maxlen < room ps ->
  exists t, get_extrameta k isdir = GGot t /\ (t = None <-> acls k isdir = []) /\
    forall ans, set_extrameta ans (text t) = asked ans (acls k isdir) [].
Proof.
  intros k isdir ns ps A L K F R. eexists. split; [apply (get_spec k isdir ns ps); auto|].
  assert (X : xents ps = []).
  { unfold xents. destruct ps; [reflexivity|]. replace (room (p :: ps) <=? maxlen) with false by lia. reflexivity. }
  rewrite X, app_nil_r. split.
  { destruct (acls k isdir) as [|a l]; unfold meta_of; cbn [map app]; split; intros H; auto; discriminate H. }
  intros ans. rewrite text_meta. unfold set_extrameta. rewrite set_whole by (apply ents_ok_acls; auto).
  rewrite (handle_acls ans); [|apply acl_handle_linux|intros a Ha; apply (acls_in k isdir); auto].
  unfold asked. destruct (ask_each ans [] (acls k isdir)) as [l1 n]. reflexivity.
Qed.

(* ---------- any metadata at all ---------- *)
Definition within (data b : bytes) : Prop := exists p q, data = p ++ b ++ q.
(* A request made of pieces of the metadata (names and ACL texts end at a NUL). *)
Definition piece (data t : bytes) : Prop := exists m, within data m /\ t = cview m.
Definition ask_from (data : bytes) (a : ask) : Prop :=
  match a with
  | AAcl _ t => piece data t
  | AXattr n v => piece data n /\ within data v
  | AExt s n v => piece data (s ++ dot :: n) /\ within data v
  end.
Definition log_of (p : put) : list ask := match p with PUB l => l | PDone _ l => l end.
Definition no_ub (p : put) : Prop := match p with PUB _ => False | PDone _ _ => True end.

Lemma within_trans : forall a b c, within a b -> within b c -> within a c.
Proof.
  intros a b c (p & q & ->) (p' & q' & ->). exists (p ++ p'), (q' ++ q). rewrite <- !app_assoc. reflexivity.
Qed.
Lemma within_refl : forall a, within a a. Proof. intros a. exists [], []. rewrite app_nil_r. reflexivity. Qed.
Lemma within_skip : forall n a, within a (skipn n a).
Proof. intros n a. exists (firstn n a), []. rewrite app_nil_r, firstn_skipn. reflexivity. Qed.
Lemma within_first : forall n a, within a (firstn n a).
Proof. intros n a. exists [], (skipn n a). cbn. rewrite firstn_skipn. reflexivity. Qed.
Lemma ask_from_mono : forall a b x, within a b -> ask_from b x -> ask_from a x.
Proof.
  intros a b x W H. destruct x as [d t|n v|s n v]; cbn [ask_from] in *.
  - destruct H as (m & M & ->). exists m. split; [eapply within_trans; eauto|reflexivity].
  - destruct H as [(m & M & ->) V]. split; [|eapply within_trans; eauto]. exists m. split; [eapply within_trans; eauto|reflexivity].
  - destruct H as [(m & M & E) V]. split; [|eapply within_trans; eauto]. exists m. split; [eapply within_trans; eauto|exact E].
Qed.
Lemma forall_mono : forall a b l, within a b -> Forall (ask_from b) l -> Forall (ask_from a) l.
Proof. intros a b l W H. eapply Forall_impl; [|exact H]. intros x. apply ask_from_mono. exact W. Qed.

Lemma copy_in : forall s b, 0 <= s -> s <= zlen b -> copy s b = Some (firstn (Z.to_nat s) b).
Proof.
  intros s b H0 H. unfold copy. replace (s <=? zlen b + 1) with true by lia.
  rewrite firstn_app. unfold zlen in H. replace (Z.to_nat s - List.length b)%nat with 0%nat by lia.
  cbn [firstn]. rewrite app_nil_r. reflexivity.
Qed.
Lemma scan_pos : forall s n, scan_08X s = Some n -> 0 <= n < 2 ^ 32.
Proof.
  intros s n. unfold scan_08X. destruct (take_sign 8 (skip_ws s)) as [[neg w] s1]. destruct (take_0x w s1) as [w2 s2].
  destruct (hex_run w2 s2 0 false) as [[v r]|]; [|discriminate]. intros E. injection E as <-.
  apply Z.mod_pos_bound. lia.
Qed.
Lemma next_safe : forall data, match get_next_xattr_str data with
  | NUB => False | NFail => True
  | NStr v r => within data v /\ within data r /\ (List.length r < List.length data)%nat end.
Proof.
  intros data. unfold get_next_xattr_str. destruct (Z.ltb_spec (zlen data) 8); [exact I|].
  destruct (scan_08X (cview data)) as [s|] eqn:E; [|exact I]. apply scan_pos in E.
  destruct (Z.ltb_spec (zlen (skipn 8 data)) s); [exact I|].
  rewrite copy_in by lia. split; [|split].
  - eapply within_trans; [apply (within_skip 8)|apply within_first].
  - eapply within_trans; [apply (within_skip 8)|apply within_skip].
  - rewrite !skipn_length. unfold zlen in *. lia.
Qed.

Lemma set_xattr_safe : forall ans fuel data log,
  no_ub (do_set_xattr fuel ans data log) /\
  exists l, log_of (do_set_xattr fuel ans data log) = l ++ log /\ Forall (ask_from data) l.
Proof.
  intros ans. induction fuel as [|fuel IH]; intros data log.
  - split; [exact I|]. exists []. split; [reflexivity|constructor].
  - cbn [do_set_xattr]. destruct (Z.leb_spec (zlen data) 0).
    { split; [exact I|]. exists []. split; [reflexivity|constructor]. }
    pose proof (next_safe data) as S1. destruct (get_next_xattr_str data) as [| |n d1]; [contradiction| |].
    { split; [exact I|]. exists []. split; [reflexivity|constructor]. }
    destruct S1 as (W1 & W2 & _).
    pose proof (next_safe d1) as S2. destruct (get_next_xattr_str d1) as [| |v d2]; [contradiction| |].
    { split; [exact I|]. exists []. split; [reflexivity|constructor]. }
    destruct S2 as (W3 & W4 & _).
    assert (F : ask_from data (AXattr (cview n) v)).
    { split; [exists n; auto|]. eapply within_trans; eauto. }
    destruct (ans log (AXattr (cview n) v)).
    + destruct (IH d2 (AXattr (cview n) v :: log)) as [U (l & E & Fl)]. split; [exact U|].
      exists (l ++ [AXattr (cview n) v]). rewrite <- app_assoc. split; [exact E|].
      apply Forall_app. split; [|auto]. eapply forall_mono; [|exact Fl]. eapply within_trans; eauto.
    + split; [exact I|]. exists [AXattr (cview n) v]. split; [reflexivity|auto].
Qed.
Lemma split_dot_spec : forall b p q, split_dot b = Some (p, q) -> b = p ++ dot :: q /\ ~ In dot p.
Proof.
  induction b as [|x b IH]; intros p q E; [discriminate|]. cbn [split_dot] in E.
  destruct (Z.eqb_spec x dot) as [->|N].
  - injection E as <- <-. split; [reflexivity|intros []].
  - destruct (split_dot b) as [[p' q']|]; [|discriminate]. injection E as <- <-. destruct (IH _ _ eq_refl) as [-> I].
    split; [reflexivity|]. intros [H|H]; [congruence|contradiction].
Qed.
Lemma set_xattr_bsd_safe : forall ans fuel data log,
  no_ub (do_set_xattr_bsd fuel ans data log) /\
  exists l, log_of (do_set_xattr_bsd fuel ans data log) = l ++ log /\ Forall (ask_from data) l.
Proof.
  intros ans. induction fuel as [|fuel IH]; intros data log.
  - split; [exact I|]. exists []. split; [reflexivity|constructor].
  - cbn [do_set_xattr_bsd]. destruct (Z.leb_spec (zlen data) 0).
    { split; [exact I|]. exists []. split; [reflexivity|constructor]. }
    pose proof (next_safe data) as S1. destruct (get_next_xattr_str data) as [| |n d1]; [contradiction| |].
    { split; [exact I|]. exists []. split; [reflexivity|constructor]. }
    destruct S1 as (W1 & W2 & _).
    pose proof (next_safe d1) as S2. destruct (get_next_xattr_str d1) as [| |v d2]; [contradiction| |].
    { split; [exact I|]. exists []. split; [reflexivity|constructor]. }
    destruct S2 as (W3 & W4 & _).
    destruct (split_dot (cview n)) as [[s m]|] eqn:D.
    2: { split; [exact I|]. exists []. split; [reflexivity|constructor]. }
    apply split_dot_spec in D. destruct D as [D _].
    assert (F : ask_from data (AExt s m v)).
    { split; [exists n; auto|]. eapply within_trans; eauto. }
    destruct (ans log (AExt s m v)).
    + destruct (IH d2 (AExt s m v :: log)) as [U (l & E & Fl)]. split; [exact U|].
      exists (l ++ [AExt s m v]). rewrite <- app_assoc. split; [exact E|].
      apply Forall_app. split; [|auto]. eapply forall_mono; [|exact Fl]. eapply within_trans; eauto.
    + split; [exact I|]. exists [AExt s m v]. split; [reflexivity|auto].
Qed.
Definition safe_handle (h : Z -> bytes -> list ask -> put) : Prop := forall c m log,
  no_ub (h c m log) /\ exists l, log_of (h c m log) = l ++ log /\ Forall (ask_from m) l.
Lemma set_acl_safe : forall ans d m log,
  no_ub (set_acl ans d m log) /\ exists l, log_of (set_acl ans d m log) = l ++ log /\ Forall (ask_from m) l.
Proof.
  intros ans d m log. split; [exact I|]. exists [AAcl d (cview m)]. split; [reflexivity|].
  constructor; [|constructor]. exists m. split; [apply within_refl|reflexivity].
Qed.
Lemma set_one_safe : forall ans, safe_handle (set_one ans).
Proof.
  intros ans c m log. unfold set_one. destruct (c =? META_ACCESS_ACL); [apply set_acl_safe|].
  destruct (c =? META_DEFAULT_ACL); [apply set_acl_safe|]. destruct (c =? META_XATTR); [apply set_xattr_safe|].
  split; [exact I|]. exists []. split; [reflexivity|constructor].
Qed.
Lemma set_one_bsd_safe : forall ans, safe_handle (set_one_bsd ans).
Proof.
  intros ans c m log. unfold set_one_bsd. destruct (c =? META_ACCESS_ACL); [apply set_acl_safe|].
  destruct (c =? META_DEFAULT_ACL); [apply set_acl_safe|]. destruct (c =? META_XATTR_BSD); [apply set_xattr_bsd_safe|].
  split; [exact I|]. exists []. split; [reflexivity|constructor].
Qed.
Lemma set_loop_safe : forall h, safe_handle h -> forall fuel data errors log,
  no_ub (set_loop h fuel data errors log) /\
  exists l, log_of (set_loop h fuel data errors log) = l ++ log /\ Forall (ask_from data) l.
Proof.
  intros h Hh. induction fuel as [|fuel IH]; intros data errors log.
  - split; [exact I|]. exists []. split; [reflexivity|constructor].
  - cbn [set_loop]. destruct (Z.leb_spec (zlen data) 0); [split; [exact I|]; exists []; split; [reflexivity|constructor]|].
    destruct (Z.ltb_spec (zlen data) 9); [split; [exact I|]; exists []; split; [reflexivity|constructor]|].
    destruct (cview data) as [|c r]; [split; [exact I|]; exists []; split; [reflexivity|constructor]|].
    destruct (scan_08X r) as [s|] eqn:E; [|split; [exact I|]; exists []; split; [reflexivity|constructor]].
    apply scan_pos in E.
    destruct (Z.ltb_spec (zlen (skipn 9 data)) s); [split; [exact I|]; exists []; split; [reflexivity|constructor]|].
    rewrite copy_in by lia.
    destruct (Hh c (firstn (Z.to_nat s) (skipn 9 data)) log) as [U (l & El & Fl)].
    assert (W : within data (firstn (Z.to_nat s) (skipn 9 data))).
    { eapply within_trans; [apply (within_skip 9)|apply within_first]. }
    destruct (h c (firstn (Z.to_nat s) (skipn 9 data)) log) as [l'|e l']; [contradiction|].
    cbn [log_of] in El. subst l'.
    destruct (IH (skipn (Z.to_nat s) (skipn 9 data)) (if e =? 0 then errors else errors + 1) (l ++ log)) as [U2 (l2 & E2 & F2)].
    split; [exact U2|]. exists (l2 ++ l). rewrite <- app_assoc. split; [exact E2|]. apply Forall_app. split.
    + eapply forall_mono; [|exact F2]. eapply within_trans; [apply (within_skip 9)|apply within_skip].
    + eapply forall_mono; [|exact Fl]. exact W.
Qed.
Theorem set_safe : forall ans data, no_ub (set_extrameta ans data) /\ Forall (ask_from data) (log_of (set_extrameta ans data)).
Proof.
  intros ans data. destruct (set_loop_safe _ (set_one_safe ans) (S (List.length data)) data 0 []) as [U (l & E & F)].
  split; [exact U|]. unfold set_extrameta. rewrite E, app_nil_r. exact F.
Qed.
Theorem set_safe_bsd : forall ans data, no_ub (set_extrameta_bsd ans data) /\ Forall (ask_from data) (log_of (set_extrameta_bsd ans data)).
Proof.
  intros ans data. destruct (set_loop_safe _ (set_one_bsd_safe ans) (S (List.length data)) data 0 []) as [U (l & E & F)].
  split; [exact U|]. unfold set_extrameta_bsd. rewrite E, app_nil_r. exact F.
Qed.

(* ---------- metadata cut short ---------- *)
Lemma loop_cut : forall h e j fuel errors log, ent_ok e -> (0 < j < List.length (entry e))%nat ->
  set_loop h (S fuel) (firstn j (entry e)) errors log = PDone (-1) log.
Proof.
  intros h [c m] j fuel errors log [Hc Hm] Hj. cbn [fst snd] in *. pose proof (small_u32 m Hm) as U.
  assert (EL : List.length (entry (c, m)) = (9 + List.length m)%nat).
  { unfold entry, field. cbn [fst snd List.length]. rewrite app_length, fmt_08X_eight, eight_len by auto. lia. }
  rewrite EL in Hj. cbn [set_loop].
  assert (L : zlen (firstn j (entry (c, m))) = Z.of_nat j).
  { unfold zlen. rewrite firstn_length, EL. lia. }
  rewrite L. replace (Z.of_nat j <=? 0) with false by lia.
  destruct (Z.ltb_spec (Z.of_nat j) 9); [reflexivity|].
  assert (F : firstn j (entry (c, m)) = c :: eight (zlen m) ++ firstn (j - 9) m).
  { unfold entry, field. cbn [fst snd]. rewrite fmt_08X_eight by auto.
    destruct j as [|j]; [lia|]. cbn [firstn]. rewrite firstn_app, eight_len, firstn_all2 by (rewrite eight_len; lia).
    replace (S j - 9)%nat with (j - 8)%nat by lia. reflexivity. }
  rewrite F. cbn [cview]. unfold is_char in Hc. replace (c =? 0) with false by lia.
  rewrite cview_eight, scan_eight by auto.
  change (skipn 9 (c :: eight (zlen m) ++ firstn (j - 9) m)) with (firstn (j - 9) m).
  destruct (Z.ltb_spec (zlen (firstn (j - 9) m)) (zlen m)) as [_|B]; [reflexivity|].
  unfold zlen in B. rewrite firstn_length in B. lia.
Qed.
Theorem set_cut : forall ans es e j r l, Forall ent_ok es -> ent_ok e -> (j < List.length (entry e))%nat ->
  set_extrameta ans (meta es) = PDone r l ->
  set_extrameta ans (meta es ++ firstn j (entry e)) = PDone (if Nat.eqb j 0 then r else -1) l.
Proof.
  intros ans es e j r l Hes He Hj E. unfold set_extrameta in *. rewrite set_whole in E by auto.
  rewrite set_meta by auto. rewrite E. destruct j as [|j]; [reflexivity|].
  rewrite loop_cut by (auto; lia). reflexivity.
Qed.

(* ---------- the settings ---------- *)
Theorem settings_off : forall k k2 cmd, saved k k2 cmd false false = GGot None.
Proof. reflexivity. Qed.
(* Nothing is announced for a setting that is on when there is nothing of its kind. *)
Theorem settings_nothing : forall k k2 cmd ea ex,
  (ea = true -> has_acl k cmd = false) -> (ex = true -> has_xattr k = false) -> saved k k2 cmd ea ex = GGot None.
Proof.
  intros k k2 cmd ea ex H1 H2. unfold saved, has_extrameta. destruct ea.
  - rewrite (H1 eq_refl). destruct ex; [rewrite (H2 eq_refl)|]; reflexivity.
  - destruct ex; [rewrite (H2 eq_refl)|]; reflexivity.
Qed.

(* There is something of a kind whose setting is on. *)
Definition worth (k : kern) (cmd : Z) (ea ex : bool) : Prop :=
  (ea = true /\ (k_acc k <> None \/ (cmd = CMD_DIRECTORY /\ k_def k <> None))) \/
  (ex = true /\ exists n, k_len k = Some n /\ 0 < n).
Lemma worth_exact : forall k cmd ea ex, worth k cmd ea ex <-> has_extrameta k cmd ea ex = true.
Proof.
  intros. unfold worth, has_extrameta. rewrite orb_true_iff, !andb_true_iff.
  assert (A : has_acl k cmd = true <-> (k_acc k <> None \/ (cmd = CMD_DIRECTORY /\ k_def k <> None))).
  { unfold has_acl. destruct (k_acc k); [split; auto; left; discriminate|]. rewrite andb_true_iff, Z.eqb_eq.
    destruct (k_def k); split; intros H.
    - right. destruct H. split; auto. discriminate.
    - destruct H as [H|[H _]]; [congruence|auto].
    - destruct H; discriminate.
    - destruct H as [H|[_ H]]; congruence. }
  assert (X : has_xattr k = true <-> exists n, k_len k = Some n /\ 0 < n).
  { unfold has_xattr. destruct (k_len k) as [n|]; split.
    - intros H. apply Z.ltb_lt in H. eauto.
    - intros (m & E & H). injection E as ->. apply Z.ltb_lt; auto.
    - discriminate.
    - intros (m & E & _). discriminate. }
  rewrite A, X. tauto.
Qed.
Theorem settings_on : forall k k2 cmd ea ex, worth k cmd ea ex ->
  exists isdir, (isdir = true <-> cmd = CMD_DIRECTORY) /\ saved k k2 cmd ea ex = get_extrameta k2 isdir.
Proof.
  intros k k2 cmd ea ex W. apply worth_exact in W. exists (cmd =? CMD_DIRECTORY). split; [apply Z.eqb_eq|].
  unfold saved. rewrite W. reflexivity.
Qed.
Theorem settings_none : forall k k2 cmd ea ex, ~ worth k cmd ea ex -> saved k k2 cmd ea ex = GGot None.
Proof.
  intros k k2 cmd ea ex W. unfold saved. destruct (has_extrameta k cmd ea ex) eqn:E; auto. apply worth_exact in E. contradiction.
Qed.

(* A file with an ACL and an attribute. *)
Definition k_both : kern :=
  mkkern (Some (Some (str "user::rw-,user:1000:r--,group::r--,mask::r--,other::---"))) None
    (Some 37) (Some (listing [str "user.comment"; str "system.posix_acl_access"]))
    (fun z => if beqb z (str "user.comment") then Some 5 else Some 4)
    (fun z => if beqb z (str "user.comment") then Some [104; 0; 108; 108; 111] else Some [2; 0; 0; 0]).
(* With ACLs switched off and attributes on, the ACL is saved and restored all
   the same (and the other way round). *)
Theorem settings_ignored : exists k t, has_acl k CMD_FILE = true /\
  saved k k CMD_FILE false true = GGot (Some t) /\ saved k k CMD_FILE true false = GGot (Some t) /\
  exists l, set_extrameta (fun _ _ => true) t = PDone 0 l /\
    In (AAcl false (str "user::rw-,user:1000:r--,group::r--,mask::r--,other::---")) l /\
    In (AXattr (str "user.comment") [104; 0; 108; 108; 111]) l.
Proof.
  exists k_both. eexists. split; [reflexivity|]. split; [vm_compute; reflexivity|]. split; [vm_compute; reflexivity|].
  eexists. split; [vm_compute; reflexivity|]. split; [right; left; vm_compute; reflexivity|left; vm_compute; reflexivity].
Qed.

(* Two attributes of two gigabytes each: the size of the block wraps. *)
Lemma wraps : forall k va vb, k_acc k = None -> k_len k = Some 4 -> k_list k = Some [97; 0; 98; 0] ->
  k_size k [97] = Some (zlen va) -> k_val k [97] = Some va -> k_size k [98] = Some (zlen vb) -> k_val k [98] = Some vb ->
  zlen va = maxlen - 17 -> zlen vb = maxlen -> get_extrameta k false = GUB.
Proof.
  intros k va vb A L1 L2 S1 V1 S2 V2 Z1 Z2.
  assert (G1 : get_value k [97] = Some va).
  { apply get_value_iff. exists (zlen va). split; [exact S1|]. right. split; [rewrite Z1; unfold maxlen; lia|]. exists va. split; [exact V1|].
    unfold zlen. rewrite Nat2Z.id, firstn_all. reflexivity. }
  assert (G2 : get_value k [98] = Some vb).
  { apply get_value_iff. exists (zlen vb). split; [exact S2|]. right. split; [rewrite Z2; unfold maxlen; lia|]. exists vb. split; [exact V2|].
    unfold zlen. rewrite Nat2Z.id, firstn_all. reflexivity. }
  unfold get_extrameta, get_xattr, get_acl. rewrite A, L1, L2.
  change (zlen [97; 0; 98; 0]) with 4. change (Z.to_nat (4 - 4)) with 0%nat. cbn [repeat app List.length].
  cbn [get_toappend]. change (4 <=? 0) with false. change (negb (has_nul [97; 0; 98; 0])) with false. cbv iota.
  change (cview [97; 0; 98; 0]) with [97]. change (zlen [97]) with 1. change (maxlen <? 1) with false. cbn [andb]. cbv iota.
  rewrite G1. cbn [text]. change (zlen []) with 0. rewrite Z1. unfold maxlen. change (2147483647 <? 2147483647 - 17) with false. cbv iota.
  change (negb ((0 + 8 + 1 + 8 + (2147483647 - 17)) mod 2 ^ 32 =? 0 + 8 + 1 + 8 + (2147483647 - 17))) with false. cbv iota.
  change (2147483647 <? 0 + 8 + 1 + 8 + (2147483647 - 17)) with false. cbv iota.
  change (4 - Z.of_nat (S (List.length [97])) <=? 0) with false. change (skipn (S (List.length [97])) [97; 0; 98; 0]) with [98; 0].
  change (negb (has_nul [98; 0])) with false. cbv iota. change (cview [98; 0]) with [98]. change (zlen [98]) with 1.
  change (2147483647 <? 1) with false. cbv iota. rewrite G2, Z2. unfold maxlen. change (2147483647 <? 2147483647) with false. cbv iota.
  cbn [app]. rewrite !zlen_app, zlen_cons, zlen_app, Z1.
  rewrite !zlen_fmt by (unfold is_u32, maxlen; lia). reflexivity.
Qed.
Lemma big : forall n, 0 <= n -> exists v : bytes, zlen v = n.
Proof. intros n H. exists (repeat 1 (Z.to_nat n)). unfold zlen. rewrite repeat_length. lia. Qed.
Theorem wrap_reached : exists k, (forall z n, k_size k z = Some n -> n <= maxlen) /\ get_extrameta k false = GUB.
Proof.
  destruct (big (maxlen - 17) ltac:(unfold maxlen; lia)) as [va Za]. destruct (big maxlen ltac:(unfold maxlen; lia)) as [vb Zb].
  exists (mkkern None None (Some 4) (Some [97; 0; 98; 0])
    (fun z => if beqb z [97] then Some (zlen va) else if beqb z [98] then Some (zlen vb) else None)
    (fun z => if beqb z [97] then Some va else if beqb z [98] then Some vb else None)).
  split.
  - cbn [k_size]. intros z n. destruct (beqb z [97]); [|destruct (beqb z [98])]; intros E; try discriminate; injection E as <-; rewrite ?Za, ?Zb; unfold maxlen; lia.
  - apply (wraps _ va vb); auto.
Qed.
