(* What the statistics and the printed table say: /repo/src/cntr.c and
   /repo/src/server/monitor/json_output.c *)
From Coq Require Import Lia.
From Verif Require Import Bytes FrameModel DpthModel BuModel CmdModel CntrModel CntrProofs CntrSumProofs.
Local Open Scope Z_scope.

(* ---------- specification ---------- *)

(* Looking a number up in the statistics, by the name of the counter or by its
   type; nothing there means 0. *)
Definition key_of (k : fld) : bytes :=
  match k with FCount => str "count" | FChanged => str "changed" | FSame => str "same" | FDeleted => str "deleted"
             | FPhase1 => str "scanned" end.
Definition assoc (k : bytes) (vs : list (bytes * Z)) : Z :=
  match find (fun p => beqb (fst p) k) vs with Some p => snd p | None => 0 end.
Definition by_name (n k : bytes) (rs : list row) : Z :=
  match find (fun r => beqb (r_name r) n) rs with Some r => assoc k (r_vals r) | None => 0 end.
Definition by_type (t : Z) (k : bytes) (rs : list row) : Z :=
  match find (fun r => r_type r =? t) rs with Some r => assoc k (r_vals r) | None => 0 end.

(* What each name means. *)
Definition meaning : list (bytes * Z) :=
  [(str "files", CMD_FILE); (str "files_encrypted", CMD_ENC_FILE); (str "meta_data", CMD_METADATA);
   (str "meta_data_encrypted", CMD_ENC_METADATA); (str "directories", CMD_DIRECTORY);
   (str "hard_links", CMD_HARD_LINK); (str "soft_links", CMD_SOFT_LINK); (str "special_files", CMD_SPECIAL);
   (str "vss_headers", CMD_VSS); (str "vss_headers_encrypted", CMD_ENC_VSS); (str "vss_footers", CMD_VSS_T);
   (str "vss_footers_encrypted", CMD_ENC_VSS_T); (str "efs_files", CMD_EFS_FILE); (str "errors", CMD_ERROR);
   (str "grand_total", CMD_GRAND_TOTAL); (str "warnings", CMD_WARNING); (str "messages", CMD_MESSAGE);
   (str "bytes_estimated", CMD_BYTES_ESTIMATED); (str "bytes", CMD_BYTES); (str "bytes_received", CMD_BYTES_RECV);
   (str "bytes_sent", CMD_BYTES_SENT); (str "time_start", CMD_TIMESTAMP)].
Definition is_link (c : Z) : Prop := c = CMD_HARD_LINK \/ c = CMD_SOFT_LINK.
(* The counters with one number have no others to show. *)
Definition shown (e : ent) (k : fld) : Z := match e_kind e, k with Single, FCount => sel k e | Single, _ => 0 | _, _ => sel k e end.

(* ---------- one row ---------- *)

Lemma s64_0 : s64 0 = 0. Proof. reflexivity. Qed.
Lemma row_val : forall e r k, in_range e -> row_of e = Some r -> assoc (key_of k) (r_vals r) = s64 (shown e k).
Proof.
  intros e r k _ H. unfold row_of in H. unfold shown. destruct (e_kind e); [| |discriminate].
  - destruct (e_count e =? 0); [discriminate|]. injection H as <-. destruct k; reflexivity.
  - destruct ((e_count e =? 0) && (e_changed e =? 0) && (e_same e =? 0) && (e_deleted e =? 0) && (e_phase1 e =? 0)); [discriminate|].
    injection H as <-. destruct k; reflexivity.
Qed.
Lemma no_row_zero : forall e k, e_kind e <> Plain -> row_of e = None -> shown e k = 0.
Proof.
  intros e k P H. unfold row_of in H. unfold shown. destruct (e_kind e); [| |contradiction].
  - destruct (Z.eqb_spec (e_count e) 0); [|discriminate]. destruct k; auto.
  - destruct (Z.eqb_spec (e_count e) 0), (Z.eqb_spec (e_changed e) 0), (Z.eqb_spec (e_same e) 0), (Z.eqb_spec (e_deleted e) 0), (Z.eqb_spec (e_phase1 e) 0);
      try discriminate. destruct k; auto.
Qed.
Lemma row_name : forall e r, row_of e = Some r -> r_name r = e_field e /\ r_type r = e_cmd e.
Proof.
  intros e r H. unfold row_of in H. destruct (e_kind e); [| |discriminate];
  match type of H with (if ?b then _ else _) = _ => destruct b end; try discriminate; injection H as <-; auto.
Qed.

Definition rows_of (l : list ent) : list row := flat_map (fun e => match row_of e with Some r => [r] | None => [] end) l.
Lemma lookup_gen : forall (p : row -> bool) (q : ent -> bool) k l e,
  (forall e r, row_of e = Some r -> p r = q e) -> Forall in_range l -> In e l -> q e = true ->
  (forall x, In x l -> q x = true -> x = e) -> e_kind e <> Plain ->
  match find p (rows_of l) with Some r => assoc (key_of k) (r_vals r) | None => 0 end = s64 (shown e k).
Proof.
  intros p q k l e PQ R I Q U P. induction l as [|x l IH]; [destruct I|].
  unfold rows_of. cbn [flat_map]. fold (rows_of l).
  destruct (row_of x) as [r|] eqn:E.
  - cbn [app find]. rewrite (PQ x r E). destruct (q x) eqn:Qx.
    + assert (x = e) by (apply U; [left; auto|auto]). subst x. apply row_val; auto. eapply Forall_inv; eauto.
    + apply IH; auto. { eapply Forall_inv_tail; eauto. } { destruct I as [->|I]; [congruence|auto]. }
      intros y Hy Qy. apply U; [right; auto|auto].
  - cbn [app]. destruct I as [->|I].
    + rewrite (no_row_zero e k P E), s64_0.
      destruct (find p (rows_of l)) as [r|] eqn:F; auto. apply find_some in F as [F Pr].
      apply in_flat_map in F as (y & Hy & F). destruct (row_of y) as [r'|] eqn:Ey; [|destruct F]. destruct F as [<-|[]].
      rewrite (PQ y r' Ey) in Pr. assert (y = e) by (apply U; [right; auto|auto]). subst y. congruence.
    + apply IH; auto. { eapply Forall_inv_tail; eauto. } intros y Hy Qy. apply U; [right; auto|auto].
Qed.

(* entries are told apart by letter and by name *)
Lemma sig_in : forall l e, map sig l = map sig table -> In e l -> In (sig e) (map sig table).
Proof. intros l e H I. rewrite <- H. apply in_map. auto. Qed.
Lemma NoDup_map_inj : forall A B (f : A -> B) l x y, NoDup (map f l) -> In x l -> In y l -> f x = f y -> x = y.
Proof.
  induction l as [|a l IH]; intros x y N X Y E; [destruct X|]. cbn [map] in N. inversion N as [|? ? Na Nl]; subst.
  destruct X as [->|X], Y as [->|Y]; auto.
  - exfalso. apply Na. rewrite E. apply in_map. auto.
  - exfalso. apply Na. rewrite <- E. apply in_map. auto.
Qed.
Lemma table_fields : NoDup (map e_field table).
Proof.
  assert (D : forall l : list bytes, (fix d (l : list bytes) : bool := match l with [] => true | x :: r => forallb (fun y => negb (beqb x y)) r && d r end) l = true -> NoDup l).
  { induction l as [|x l IH]; intros H; [constructor|]. apply andb_true_iff in H as [H1 H2]. constructor; [|auto].
    intros I. rewrite forallb_forall in H1. specialize (H1 x I). rewrite (proj2 (beqb_eq x x) eq_refl) in H1. discriminate. }
  apply D. vm_compute. reflexivity.
Qed.
Lemma fields_of_sig : forall l m, map sig l = map sig m -> map e_field l = map e_field m.
Proof.
  intros l m H. assert (E : forall k, map e_field k = map (fun p => snd (fst p)) (map sig k)).
  { intros k. rewrite map_map. apply map_ext. auto. }
  rewrite !E, H. auto.
Qed.

Lemma num_of : forall f e l, NoDup (map e_cmd l) -> In e l -> num f (e_cmd e) l = f e.
Proof.
  intros f e l N I. unfold num. destruct (has_find (e_cmd e) l) as (x & F & C); [apply in_map; auto|].
  rewrite F. f_equal. apply find_some in F as [F _]. eapply NoDup_map_inj; eauto.
Qed.

(* What is found under the letter of a counter is that counter. *)
Theorem stats_by_type : forall now l c k, counters l -> has c table -> c <> CMD_TOTAL ->
  exists e, In e (at_ent CMD_TIMESTAMP_END (set_count now) l) /\ e_cmd e = c /\
    by_type c (key_of k) (do_counters now l) = s64 (shown e k).
Proof.
  intros now l c k L H T. pose proof (set_end_counters now l L) as [S1 R1].
  unfold by_type, do_counters. set (l1 := at_ent CMD_TIMESTAMP_END (set_count now) l) in *. clearbody l1.
  destruct (has_find c l1) as (e & F & C); [eapply has_sig; [symmetry; exact S1|exact H]|].
  apply find_some in F as [F _]. exists e. split; auto. split; auto.
  pose proof (table_nodup) as N. rewrite <- (cmds_of_sig l1 table S1) in N.
  apply (lookup_gen (fun r => r_type r =? c) (fun e => e_cmd e =? c)); auto.
  - intros x r X. apply row_name in X as [_ X]. rewrite X. auto.
  - apply Z.eqb_eq. auto.
  - intros x Hx X. apply Z.eqb_eq in X. eapply NoDup_map_inj; eauto. congruence.
  - intros P. pose proof (sig_in l1 e S1 F) as I. unfold sig in I. rewrite P, C in I. clear -I T.
    repeat (destruct I as [I|I]; [injection I; intros; try discriminate; congruence|]). destruct I.
Qed.

(* What is found under a name is what the name means, but for the links. *)
Theorem stats_by_name : forall now l n c k, counters l -> In (n, c) meaning ->
  let c' := if c =? CMD_HARD_LINK then CMD_SOFT_LINK else if c =? CMD_SOFT_LINK then CMD_HARD_LINK else c in
  exists e, In e l /\ e_cmd e = c' /\ by_name n (key_of k) (do_counters now l) = s64 (shown e k).
Proof.
  intros now l n c k L M c'. pose proof (set_end_counters now l L) as [S1 R1].
  unfold by_name, do_counters. set (l1 := at_ent CMD_TIMESTAMP_END (set_count now) l) in *.
  assert (X : exists e0, In e0 table /\ e_field e0 = n /\ e_cmd e0 = c' /\ e_kind e0 <> Plain /\ c' <> CMD_TIMESTAMP_END).
  { assert (Q : forallb (fun p => let c' := if snd p =? CMD_HARD_LINK then CMD_SOFT_LINK else if snd p =? CMD_SOFT_LINK then CMD_HARD_LINK else snd p in
        negb (c' =? CMD_TIMESTAMP_END) &&
        existsb (fun e => beqb (e_field e) (fst p) && (e_cmd e =? c') && match e_kind e with Plain => false | _ => true end) table) meaning = true)
      by (vm_compute; reflexivity).
    rewrite forallb_forall in Q. specialize (Q (n, c) M). cbv zeta in Q. cbn [fst snd] in Q. fold c' in Q.
    apply andb_true_iff in Q as [Q1 Q2]. apply existsb_exists in Q2 as (e0 & I & Q2).
    apply andb_true_iff in Q2 as [Q2 Q4]. apply andb_true_iff in Q2 as [Q2 Q3].
    exists e0. apply beqb_eq in Q2. apply Z.eqb_eq in Q3. repeat split; auto.
    - intros K. rewrite K in Q4. discriminate.
    - intros K. rewrite K in Q1. discriminate. }
  destruct X as (e0 & I0 & E0 & C0 & K0 & NE).
  assert (I : In (sig e0) (map sig l1)) by (rewrite S1; apply in_map; auto).
  apply in_map_iff in I as (e & Es & I). unfold sig in Es.
  assert (Ef : e_field e = n) by congruence. assert (Ec : e_cmd e = c') by congruence. assert (Ek : e_kind e = e_kind e0) by congruence.
  exists e. split; [|split; auto].
  - assert (A : forall m, In e (at_ent CMD_TIMESTAMP_END (set_count now) m) -> In e m).
    { induction m as [|x m IH]; intros G; auto. cbn in G. destruct (Z.eqb_spec (e_cmd x) CMD_TIMESTAMP_END) as [Z|Z].
      - destruct G as [G|G]; [|right; auto]. exfalso. subst e. cbn in Ec. congruence.
      - destruct G as [G|G]; [left; auto|right; auto]. }
    apply A. exact I.
  - pose proof table_fields as N. rewrite <- (fields_of_sig l1 table S1) in N.
    apply (lookup_gen (fun r => beqb (r_name r) n) (fun e => beqb (e_field e) n)); auto.
    + intros x r Y. apply row_name in Y as [Y _]. rewrite Y. auto.
    + rewrite Ef. apply beqb_eq. auto.
    + intros x Hx Y. apply beqb_eq in Y. eapply NoDup_map_inj; eauto. congruence.
    + congruence.
Qed.

(* ---------- sizes for people ---------- *)

(* What the units mean. *)
Definition unit_size (u : bytes) : Z :=
  if beqb u (str "KB") then 2 ^ 10 else if beqb u (str "MB") then 2 ^ 20 else if beqb u (str "GB") then 2 ^ 30
  else if beqb u (str "TB") then 2 ^ 40 else if beqb u (str "PB") then 2 ^ 50 else if beqb u (str "EB") then 2 ^ 60 else 1.
(* d / q units are n bytes, to 24 binary digits. *)
Definition right (n : Z) : Prop :=
  match bytes_to_human n with
  | None => n < 1024
  | Some (d, q, u) => q = unit_size u /\ q <= d /\ 2 ^ 24 * Z.abs (d - n) <= n
  end.

Lemma to_float_near : forall n, 0 <= n -> 2 ^ 24 * Z.abs (to_float n - n) <= n.
Proof.
  intros n H. unfold to_float. destruct (Z.ltb_spec n (2 ^ 24)) as [G|G].
  - rewrite Z.sub_diag. cbn. exact H.
  - assert (G0 : 0 < n) by (change (2 ^ 24) with 16777216 in G; lia).
    assert (Hl : 24 <= Z.log2 n) by (apply Z.log2_le_pow2; auto).
    pose proof (Z.log2_spec n G0) as [A B]. set (e := Z.log2 n - 23). assert (He : 1 <= e) by (unfold e; lia).
    replace (Z.log2 n) with (23 + 1 + (e - 1)) in A by (unfold e; lia).
    rewrite Z.pow_add_r in A by lia. change (2 ^ (23 + 1)) with (2 ^ 24) in A.
    assert (E2 : 2 ^ e = 2 * 2 ^ (e - 1)).
    { replace (2 ^ e) with (2 ^ (1 + (e - 1))) by (f_equal; lia). rewrite Z.pow_add_r by lia. reflexivity. }
    set (h := 2 ^ (e - 1)) in *. assert (Hh : 0 < h) by (apply Z.pow_pos_nonneg; lia).
    rewrite E2. pose proof (Z.div_mod n (2 * h) ltac:(lia)) as D. pose proof (Z.mod_pos_bound n (2 * h) ltac:(lia)) as M.
    set (q := n / (2 * h)) in *. set (r := n mod (2 * h)) in *. clearbody h q r.
    assert (K : Z.abs ((if (h <? r) || (r =? h) && Z.odd q then q + 1 else q) * (2 * h) - n) <= h).
    { destruct (Z.ltb_spec h r); cbn [orb].
      - rewrite D. replace ((q + 1) * (2 * h) - (2 * h * q + r)) with (2 * h - r) by ring. lia.
      - destruct (Z.eqb_spec r h); cbn [andb].
        + destruct (Z.odd q).
          * rewrite D. replace ((q + 1) * (2 * h) - (2 * h * q + r)) with (2 * h - r) by ring. lia.
          * rewrite D. replace (q * (2 * h) - (2 * h * q + r)) with (- r) by ring. lia.
        + rewrite D. replace (q * (2 * h) - (2 * h * q + r)) with (- r) by ring. lia. }
    set (a := Z.abs _) in *. clearbody a. change (2 ^ 24) with 16777216 in *. nia.
Qed.

Theorem human_right : forall n, 0 <= n < 2 ^ 50 - 2 ^ 26 -> right n.
Proof.
  intros n H. unfold right, bytes_to_human. pose proof (to_float_near n ltac:(lia)) as N.
  set (d := to_float n) in *.
  assert (D : n < 2 ^ 24 -> d = n).
  { intros G. unfold d, to_float. replace (n <? 2 ^ 24) with true; auto. symmetry. apply Z.ltb_lt. auto. }
  clearbody d.
  change (2 ^ 50 - 2 ^ 26) with 1125899839733760 in H. change (2 ^ 24) with 16777216 in *.
  change (1024 ^ 2) with 1048576. change (1024 ^ 3) with 1073741824. change (1024 ^ 4) with 1099511627776.
  change (1024 ^ 5) with 1125899906842624. change (1024 ^ 6) with 1152921504606846976.
  assert (d < 1125899906842624) by lia.
  destruct (Z.ltb_spec d 1024). { destruct (Z_lt_dec n 16777216); [rewrite <- (D l); lia|lia]. }
  destruct (Z.ltb_spec d (1024 * 1024)). { split; [reflexivity|]. lia. }
  destruct (Z.ltb_spec d (1024 * 1048576)). { split; [reflexivity|]. lia. }
  destruct (Z.ltb_spec d (1024 * 1073741824)). { split; [reflexivity|]. lia. }
  destruct (Z.ltb_spec d (1024 * 1099511627776)). { split; [reflexivity|]. lia. }
  lia.
Qed.
Theorem human_wrong : forall n, 2 ^ 50 <= n < 2 ^ 64 -> ~ right n.
Proof.
  intros n H R. unfold right, bytes_to_human in R. pose proof (to_float_near n ltac:(lia)) as N.
  assert (G : 2 ^ 50 <= to_float n).
  { unfold to_float. destruct (Z.ltb_spec n (2 ^ 24)) as [G|G]; [lia|].
    assert (Hl : 50 <= Z.log2 n) by (apply Z.log2_le_pow2; lia).
    pose proof (Z.log2_spec n ltac:(lia)) as [A _]. set (e := Z.log2 n - 23) in *. assert (He : 27 <= e) by (unfold e; lia).
    replace (Z.log2 n) with (23 + e) in A by (unfold e; lia). rewrite Z.pow_add_r in A by lia.
    assert (P : 0 < 2 ^ e) by (apply Z.pow_pos_nonneg; lia).
    assert (Q : 2 ^ 23 <= n / 2 ^ e) by (apply Z.div_le_lower_bound; lia).
    assert (P27 : 2 ^ 27 <= 2 ^ e) by (apply Z.pow_le_mono_r; lia).
    change (2 ^ 50) with (2 ^ 23 * 2 ^ 27).
    transitivity (n / 2 ^ e * 2 ^ e); [apply Z.mul_le_mono_nonneg; lia|].
    destruct ((2 ^ (e - 1) <? n mod 2 ^ e) || (n mod 2 ^ e =? 2 ^ (e - 1)) && Z.odd (n / 2 ^ e)); [|lia].
    apply Z.mul_le_mono_nonneg_r; lia. }
  set (d := to_float n) in *. clearbody d.
  change (2 ^ 50) with 1125899906842624 in *. change (2 ^ 64) with 18446744073709551616 in H.
  change (1024 ^ 2) with 1048576 in R. change (1024 ^ 3) with 1073741824 in R. change (1024 ^ 4) with 1099511627776 in R.
  change (1024 ^ 5) with 1125899906842624 in R. change (1024 ^ 6) with 1152921504606846976 in R.
  destruct (Z.ltb_spec d 1024); [lia|]. destruct (Z.ltb_spec d (1024 * 1024)); [lia|].
  destruct (Z.ltb_spec d (1024 * 1048576)); [lia|]. destruct (Z.ltb_spec d (1024 * 1073741824)); [lia|].
  destruct (Z.ltb_spec d (1024 * 1099511627776)); [lia|].
  destruct (Z.ltb_spec d (1024 * 1125899906842624)); destruct R as [R _]; discriminate.
Qed.

(* ---------- phases ---------- *)

Theorem status_roundtrip : forall s, 1 <= s <= 9 -> str_to_status (status_to_str s) = s.
Proof.
  intros s H. assert (E : s = 1 \/ s = 2 \/ s = 3 \/ s = 4 \/ s = 5 \/ s = 6 \/ s = 7 \/ s = 8 \/ s = 9) by lia.
  repeat (destruct E as [->|E]; [reflexivity|]). subst. reflexivity.
Qed.
Theorem status_unknown : forall s, ~ (1 <= s <= 9) -> str_to_status (status_to_str s) = 0.
Proof.
  intros s H. assert (E : status_to_str s = str "unknown").
  { unfold status_to_str. destruct (find (fun p => fst p =? s) status_names) as [p|] eqn:F; auto.
    apply find_some in F as [F G]. apply Z.eqb_eq in G. exfalso.
    assert (R : Forall (fun p => 1 <= fst p <= 9) status_names) by (repeat constructor; cbn; lia).
    pose proof (proj1 (Forall_forall _ _) R p F) as X. cbn in X. lia. }
  rewrite E. reflexivity.
Qed.

(* With fail_on_warning a backup with a warning fails, and only then. *)
Theorem fails_on_warning : forall start os on, 0 <= sumz (n_new CMD_WARNING) os < 2 ^ 64 ->
  check_fail_on_warning on (run start os) = if on && (0 <? sumz (n_new CMD_WARNING) os) then -1 else 0.
Proof.
  intros start os on H. unfold check_fail_on_warning.
  assert (W : row_letter CMD_WARNING) by (split; [vm_compute; auto 30|repeat split; discriminate]).
  destruct (each_row start os CMD_WARNING W) as (A & _). cbv zeta in A. unfold num in A.
  destruct (has_find CMD_WARNING (run start os)) as (e & F & C).
  { eapply has_sig; [symmetry; apply run_counters|apply W]. }
  rewrite F in A |- *. rewrite u64_small in A by exact H. rewrite A.
  destruct on; cbn [negb orb andb]; auto.
  destruct (Z.eqb_spec (sumz (n_new CMD_WARNING) os) 0) as [E|E], (Z.ltb_spec 0 (sumz (n_new CMD_WARNING) os)); auto; lia.
Qed.

(* ---------- the printed table ---------- *)

(* The sums of a column over the lines above the last. *)
Definition column (j : nat) (t : list (bytes * list Z)) : Z :=
  sumz (fun r => if beqb (fst r) (str "Grand total") then 0 else nth j (snd r) 0) t.
Definition last_line (j : nat) (t : list (bytes * list Z)) : Z :=
  match find (fun r => beqb (fst r) (str "Grand total")) t with Some r => nth j (snd r) 0 | None => 0 end.

Definition in_table (s : Z * kind * bytes * bytes) : bool :=
  let '(c, k, f, lab) := s in match k with Tab => negb (beqb lab (str "Grand total")) | _ => false end.
Lemma filter_map : forall l, map e_cmd (filter (fun e => in_table (sig e)) l) = map (fun s => fst (fst (fst s))) (filter in_table (map sig l)).
Proof. induction l as [|e l IH]; auto. cbn [map filter]. destruct (in_table (sig e)); cbn [map]; rewrite IH; auto. Qed.
Lemma table_rows : map (fun s => fst (fst (fst s))) (filter in_table (map sig table)) = rows.
Proof. reflexivity. Qed.
Lemma sumz_filter : forall f l, sumz (fun e => if in_table (sig e) then f e else 0) l = sumz f (filter (fun e => in_table (sig e)) l).
Proof. intros f. induction l as [|e l IH]; auto. cbn [sumz filter]. rewrite IH. destruct (in_table (sig e)); auto. Qed.
Lemma sumz_map : forall A B (g : A -> B) (f : B -> Z) l, sumz f (map g l) = sumz (fun x => f (g x)) l.
Proof. induction l; cbn; auto. rewrite IHl. auto. Qed.
Lemma rows_sum : forall f l, map sig l = map sig table ->
  sumz (fun c => num f c l) rows = sumz (fun e => if in_table (sig e) then f e else 0) l.
Proof.
  intros f l H. rewrite sumz_filter. rewrite <- table_rows, <- H, <- filter_map, sumz_map.
  apply sumz_ext. apply Forall_forall. intros e I. apply filter_In in I as [I _]. apply num_of; auto.
  rewrite (cmds_of_sig l table H). apply table_nodup.
Qed.
Lemma column_eq : forall j l, (j <> 3)%nat ->
  column j (print_table l) = sumz (fun e => if in_table (sig e) then nth j [e_count e; e_changed e; e_same e; e_deleted e; u64 (e_count e + e_changed e + e_same e); e_phase1 e] 0 else 0) l.
Proof.
  intros j l J. unfold column, print_table. induction l as [|e l IH]; auto. cbn [flat_map sumz].
  assert (A : forall a b, sumz (fun r : bytes * list Z => if beqb (fst r) (str "Grand total") then 0 else nth j (snd r) 0) (a ++ b) =
    sumz (fun r : bytes * list Z => if beqb (fst r) (str "Grand total") then 0 else nth j (snd r) 0) a +
    sumz (fun r : bytes * list Z => if beqb (fst r) (str "Grand total") then 0 else nth j (snd r) 0) b).
  { induction a as [|x a IHa]; intros b; cbn [app sumz]; [lia|]. rewrite IHa. lia. }
  rewrite A, IH. f_equal. unfold quint_print, in_table, sig. destruct (e_kind e); auto.
  destruct ((e_phase1 e =? 0) && (e_count e =? 0) && (e_changed e =? 0) && (e_same e =? 0)) eqn:Z.
  - cbn [sumz]. destruct (negb (beqb (e_label e) (str "Grand total"))); auto.
    apply andb_true_iff in Z as [Z Z4]. apply andb_true_iff in Z as [Z Z3]. apply andb_true_iff in Z as [Z1 Z2].
    apply Z.eqb_eq in Z1, Z2, Z3, Z4. rewrite Z1, Z2, Z3, Z4.
    do 6 (destruct j as [|j]; [try reflexivity; contradiction|]). destruct j; reflexivity.
  - cbn [sumz fst snd]. rewrite Z.add_0_r. destruct (beqb (e_label e) (str "Grand total")); reflexivity.
Qed.
Lemma last_line_eq : forall j l e, map sig l = map sig table -> In e l -> e_cmd e = CMD_GRAND_TOTAL -> (j <> 3)%nat ->
  last_line j (print_table l) = nth j [e_count e; e_changed e; e_same e; e_deleted e; u64 (e_count e + e_changed e + e_same e); e_phase1 e] 0.
Proof.
  intros j l e S I C J.
  assert (Se : In (sig e) (map sig table)) by (rewrite <- S; apply in_map; auto).
  assert (KL : e_kind e = Tab /\ e_label e = str "Grand total").
  { unfold sig in Se. rewrite C in Se. clear -Se. repeat (destruct Se as [Se|Se]; [try discriminate; injection Se; intros <- _ <-; auto|]). destruct Se. }
  destruct KL as [K Lb].
  assert (U : forall x, In x l -> e_label x = str "Grand total" -> x = e).
  { intros x Hx Lx. apply (NoDup_map_inj _ _ e_cmd l); auto.
    - rewrite (cmds_of_sig l table S). apply table_nodup.
    - rewrite C. assert (Sx : In (sig x) (map sig table)) by (rewrite <- S; apply in_map; auto).
      assert (Q : forallb (fun s => let '(c, k, f, lab) := s in negb (beqb lab (str "Grand total")) || (c =? CMD_GRAND_TOTAL)) (map sig table) = true)
        by (vm_compute; reflexivity).
      rewrite forallb_forall in Q. specialize (Q _ Sx). unfold sig in Q. rewrite Lx in Q.
      rewrite (proj2 (beqb_eq _ _) eq_refl) in Q. cbn [negb orb] in Q. apply Z.eqb_eq in Q. exact Q. }
  assert (G : forall p, quint_print e = Some p -> snd p = [e_count e; e_changed e; e_same e; e_deleted e; u64 (e_count e + e_changed e + e_same e); e_phase1 e] /\ fst p = e_label e).
  { intros p P. unfold quint_print in P. rewrite K in P. destruct ((e_phase1 e =? 0) && (e_count e =? 0) && (e_changed e =? 0) && (e_same e =? 0)); [discriminate|].
    injection P as <-. auto. }
  assert (L : forall x p, quint_print x = Some p -> fst p = e_label x).
  { intros x p P. unfold quint_print in P. destruct (e_kind x); try discriminate.
    destruct ((e_phase1 x =? 0) && (e_count x =? 0) && (e_changed x =? 0) && (e_same x =? 0)); [discriminate|]. injection P as <-. auto. }
  unfold last_line. destruct (find _ (print_table l)) as [r|] eqn:F.
  - apply find_some in F as [F E]. apply in_flat_map in F as (x & Hx & F).
    destruct (quint_print x) as [p|] eqn:P; [|destruct F]. destruct F as [<-|[]].
    apply beqb_eq in E. rewrite (L x p P) in E. assert (x = e) by auto. subst x.
    destruct (G p P) as [-> _]. reflexivity.
  - destruct (quint_print e) as [p|] eqn:P.
    + exfalso. destruct (G p eq_refl) as [_ Gl].
      assert (Ip : In p (print_table l)) by (apply in_flat_map; exists e; split; auto; rewrite P; left; auto).
      pose proof (find_none _ _ F p Ip) as N. cbn in N. rewrite Gl, Lb, (proj2 (beqb_eq _ _) eq_refl) in N. discriminate.
    + unfold quint_print in P. rewrite K in P.
      destruct ((e_phase1 e =? 0) && (e_count e =? 0) && (e_changed e =? 0) && (e_same e =? 0)) eqn:Z; [|discriminate].
      apply andb_true_iff in Z as [Z Z4]. apply andb_true_iff in Z as [Z Z3]. apply andb_true_iff in Z as [Z1 Z2].
      apply Z.eqb_eq in Z1, Z2, Z3, Z4. rewrite Z1, Z2, Z3, Z4.
      do 6 (destruct j as [|j]; [try reflexivity; contradiction|]). destruct j; reflexivity.
Qed.

Lemma u64_3 : forall a b c, u64 (u64 a + u64 b + u64 c) = u64 (a + b + c).
Proof.
  intros. replace (u64 a + u64 b + u64 c) with (u64 a + (u64 b + u64 c)) by lia. rewrite u64_add.
  replace (a + (u64 b + u64 c)) with (u64 b + (a + u64 c)) by lia. rewrite u64_add.
  replace (b + (a + u64 c)) with (u64 c + (a + b)) by lia. rewrite u64_add. f_equal. lia.
Qed.
Lemma cond_sum : forall (p : ent -> bool) f m,
  u64 (sumz (fun e => if p e then u64 (f e) else 0) m) = u64 (sumz (fun e => if p e then f e else 0) m).
Proof.
  intros p f. induction m as [|x m IH]; auto. cbn [sumz]. destruct (p x); [|exact IH].
  rewrite u64_add, Z.add_comm, <- u64_add, IH, u64_add. f_equal. lia.
Qed.
Theorem printed_sums : forall start os j, Forall tabled os -> (j < 6)%nat -> (j <> 3)%nat ->
  let t := print_table (run start os) in last_line j t = u64 (column j t).
Proof.
  intros start os j T J6 J3. cbv zeta. set (l := run start os).
  pose proof (run_counters start os) as [S R]. fold l in S, R.
  pose proof (sums_up start os T) as F. cbv zeta in F. fold l in F. rewrite Forall_forall in F.
  destruct (has_find CMD_GRAND_TOTAL l) as (e & Fe & C).
  { eapply has_sig; [symmetry; exact S|]. vm_compute. auto 20. }
  apply find_some in Fe as [I _].
  assert (N : NoDup (map e_cmd l)) by (rewrite (cmds_of_sig l table S); apply table_nodup).
  assert (G : forall f, In f sels -> f e = u64 (sumz (fun e => if in_table (sig e) then f e else 0) l)).
  { intros f Hf. rewrite <- (num_of f e l N I), C, (F f Hf), (rows_sum f l S). reflexivity. }
  rewrite (last_line_eq j l e S I C J3), (column_eq j l J3).
  assert (X : j = 0%nat \/ j = 1%nat \/ j = 2%nat \/ j = 4%nat \/ j = 5%nat) by lia.
  destruct X as [->|[->|[->|[->| ->]]]]; cbn [nth].
  - apply (G e_count). cbn. auto 8.
  - apply (G e_changed). cbn. auto 8.
  - apply (G e_same). cbn. auto 8.
  - rewrite (G e_count), (G e_changed), (G e_same) by (cbn; auto 8).
    assert (A : forall m, u64 (u64 (sumz (fun e => if in_table (sig e) then e_count e else 0) m) +
       u64 (sumz (fun e => if in_table (sig e) then e_changed e else 0) m) +
       u64 (sumz (fun e => if in_table (sig e) then e_same e else 0) m)) =
       u64 (sumz (fun e => if in_table (sig e) then u64 (e_count e + e_changed e + e_same e) else 0) m)).
    { intros m. rewrite u64_3, cond_sum. f_equal. induction m as [|x m IH]; auto. cbn [sumz]. destruct (in_table (sig x)); lia. }
    apply A.
  - apply (G e_phase1). cbn. auto 8.
Qed.

(* The column of the deleted does not add up: a line with deletions only is left
   out. *)
Theorem deleted_hidden : exists os, Forall tabled os /\
  let t := print_table (run 0 os) in last_line 3 t = 1 /\ column 3 t = 0.
Proof.
  exists [OAdd CMD_FILE; ODeleted CMD_DIRECTORY]. split; [|vm_compute; auto].
  constructor; [left; left; auto|]. constructor; [|constructor]. cbn. auto 8.
Qed.
