(* What \u escapes in a JSON text mean: C111; and that the flags of a backup can be told apart: C115. *)
From Coq Require Import ZArith List Bool Lia.
From Verif Require Import Bytes CntrModel JsonModel JsonProofs MonModel JinModel JinProofs.
Import ListNotations.
Open Scope Z_scope.

(* ---- Specification: RFC 3629 and RFC 8259 ---- *)
(* The number that a sequence of bytes stands for; only the shortest one counts *)
Definition tail (b : Z) : bool := (128 <=? b) && (b <? 192).
Definition utf8_value (s : bytes) : option Z :=
  match s with
  | [a] => if (0 <=? a) && (a <? 128) then Some a else None
  | [a; b] => let p := (a - 192) * 64 + (b - 128) in
      if (192 <=? a) && (a <? 224) && tail b && (128 <=? p) then Some p else None
  | [a; b; c] => let p := ((a - 224) * 64 + (b - 128)) * 64 + (c - 128) in
      if (224 <=? a) && (a <? 240) && tail b && tail c && (2048 <=? p) then Some p else None
  | [a; b; c; d] => let p := (((a - 240) * 64 + (b - 128)) * 64 + (c - 128)) * 64 + (d - 128) in
      if (240 <=? a) && (a <? 248) && tail b && tail c && tail d && (65536 <=? p) then Some p else None
  | _ => None
  end.
(* A hexadecimal digit in either case, and an escape *)
Definition hexd (up : bool) (n : Z) : Z := if n <? 10 then 48 + n else if up then 55 + n else 87 + n.
Definition esc (up : bool) (p : Z) : bytes :=
  [92; 117; hexd up (p / 4096); hexd up ((p / 256) mod 16); hexd up ((p / 16) mod 16); hexd up (p mod 16)].
Definition surrogate (p : Z) : Prop := 55296 <= p < 57344.
(* A character as it may be written: one escape, or two *)
Definition written (up : bool) (p : Z) : bytes :=
  if p <? 65536 then esc up p
  else esc up (55296 + (p - 65536) / 1024) ++ esc up (56320 + (p - 65536) mod 1024).

(* ---- Proofs ---- *)
Lemma hexval_d : forall up n, 0 <= n < 16 -> hexval (hexd up n) = Some n.
Proof.
  intros up n H. assert (E : In n [0;1;2;3;4;5;6;7;8;9;10;11;12;13;14;15]) by (cbn; lia).
  cbn [In] in E. repeat destruct E as [<-|E]; try (destruct up; reflexivity). contradiction.
Qed.
Lemma hex4_esc : forall up p, 0 <= p < 65536 ->
  hex4 (hexd up (p / 4096)) (hexd up ((p / 256) mod 16)) (hexd up ((p / 16) mod 16)) (hexd up (p mod 16)) = Some p.
Proof.
  intros up p H. unfold hex4.
  assert (0 <= p / 4096 < 16) by (split; [apply Z.div_pos; lia|apply Z.div_lt_upper_bound; lia]).
  rewrite !hexval_d by (auto; apply Z.mod_pos_bound; lia). f_equal.
  pose proof (Z.div_mod p 16 ltac:(lia)) as D1. pose proof (Z.div_mod (p / 16) 16 ltac:(lia)) as D2. pose proof (Z.div_mod (p / 256) 16 ltac:(lia)) as D3.
  rewrite Z.div_div in D2 by lia. change (16 * 16) with 256 in D2. rewrite Z.div_div in D3 by lia. change (256 * 16) with 4096 in D3. lia.
Qed.
Lemma b64 : forall x, 0 <= x mod 64 < 64.
Proof. intros. apply Z.mod_pos_bound. lia. Qed.
Lemma utf8_right : forall p, 0 <= p < 2097152 -> utf8_value (utf8 p) = Some p.
Proof.
  intros p H. unfold utf8.
  pose proof (Z.div_mod p 64 ltac:(lia)) as D1. pose proof (Z.div_mod (p / 64) 64 ltac:(lia)) as D2. pose proof (Z.div_mod (p / 4096) 64 ltac:(lia)) as D3.
  rewrite Z.div_div in D2 by lia. change (64 * 64) with 4096 in D2. rewrite Z.div_div in D3 by lia. change (4096 * 64) with 262144 in D3.
  pose proof (b64 p). pose proof (b64 (p / 64)). pose proof (b64 (p / 4096)).
  assert (P1 : 0 <= p / 64) by (apply Z.div_pos; lia). assert (P2 : 0 <= p / 4096) by (apply Z.div_pos; lia). assert (P3 : 0 <= p / 262144) by (apply Z.div_pos; lia).
  destruct (Z.ltb_spec p 128); [cbn [utf8_value]; replace (0 <=? p) with true by (symmetry; apply Z.leb_le; lia); replace (p <? 128) with true by (symmetry; apply Z.ltb_lt; lia); reflexivity|].
  assert (G : forall (b : bool) q, b = true -> q = p -> (if b then Some q else None) = Some p) by (intros b q -> ->; reflexivity).
  destruct (Z.ltb_spec p 2048); [|destruct (Z.ltb_spec p 65536); [|destruct (Z.ltb_spec p 2097152); [|lia]]];
    cbn [utf8_value]; cbv zeta; apply G; unfold tail; try lia;
    repeat (apply andb_true_intro; split); try (apply Z.leb_le; lia); try (apply Z.ltb_lt; lia).
Qed.
Lemma high_iff : forall p, high p = true <-> 55296 <= p < 56320.
Proof.
  intros p. unfold high. rewrite Z.eqb_eq. pose proof (Z.div_mod p 1024 ltac:(lia)). pose proof (Z.mod_pos_bound p 1024 ltac:(lia)).
  split; intros; [lia|]. assert (p / 1024 = 54) by (symmetry; apply (Z.div_unique p 1024 54 (p - 55296)); lia). assumption.
Qed.
Lemma decode_esc : forall up p r, 0 <= p < 65536 -> high p = false -> decode (esc up p ++ r) = pre (utf8 p) (decode r).
Proof.
  intros up p r H Hh. unfold esc. cbn [app decode]. change (negb (92 =? 92)) with false. cbv iota. change (117 =? 117) with true. cbv iota.
  rewrite (hex4_esc up p H), Hh. reflexivity.
Qed.
Lemma decode_pair : forall up p q r, 0 <= p < 65536 -> 0 <= q < 65536 -> high p = true ->
  decode (esc up p ++ esc up q ++ r) = pre (utf8 (pair_up p q)) (decode r).
Proof.
  intros up p q r H Hq Hh. unfold esc at 1. cbn [app decode]. change (negb (92 =? 92)) with false. cbv iota. change (117 =? 117) with true. cbv iota.
  rewrite (hex4_esc up p H), Hh. unfold esc. cbn [app]. change ((92 =? 92) && (117 =? 117)) with true. cbv iota. rewrite (hex4_esc up q Hq). reflexivity.
Qed.
Lemma pair_value : forall p, 65536 <= p < 1114112 -> pair_up (55296 + (p - 65536) / 1024) (56320 + (p - 65536) mod 1024) = p.
Proof.
  intros p H. unfold pair_up. set (h := (p - 65536) / 1024). set (l := (p - 65536) mod 1024).
  assert (Hl : 0 <= l < 1024) by (apply Z.mod_pos_bound; lia).
  assert (D : p - 65536 = 1024 * h + l) by (apply Z.div_mod; lia). assert (Hh : 0 <= h < 1024) by lia.
  assert (E1 : (56320 + l) mod 1024 = l) by (symmetry; apply (Z.mod_unique _ _ 55); lia).
  pose proof (Z.div_mod h 64 ltac:(lia)) as D2. pose proof (b64 h) as B. assert (0 <= h / 64 < 16) by lia.
  assert (E2 : (55296 + h) mod 64 = h mod 64) by (symmetry; apply (Z.mod_unique _ _ (864 + h / 64)); lia).
  assert (E3 : (55296 + h) / 64 = 864 + h / 64) by (symmetry; apply (Z.div_unique _ _ _ (h mod 64)); lia).
  assert (E4 : (864 + h / 64) mod 16 = h / 64) by (symmetry; apply (Z.mod_unique _ _ 54); lia).
  rewrite E1, E2, E3, E4. lia.
Qed.
Lemma unicode : forall up p r, 0 <= p < 1114112 -> ~ surrogate p ->
  exists u, decode (written up p ++ r) = pre u (decode r) /\ utf8_value u = Some p.
Proof.
  intros up p r H Hs. exists (utf8 p). split; [|apply utf8_right; lia]. unfold written. destruct (Z.ltb_spec p 65536).
  - apply decode_esc; [lia|]. destruct (high p) eqn:E; [|reflexivity]. apply high_iff in E. destruct Hs. unfold surrogate. lia.
  - pose proof (Z.mod_pos_bound (p - 65536) 1024 ltac:(lia)). pose proof (Z.div_mod (p - 65536) 1024 ltac:(lia)).
    assert (0 <= (p - 65536) / 1024 < 1024) by lia. rewrite <- app_assoc, decode_pair; [rewrite pair_value by lia; reflexivity|lia|lia|apply high_iff; lia].
Qed.
Lemma unicode_all : forall up l, Forall (fun p => 0 <= p < 1114112 /\ ~ surrogate p) l ->
  exists us, decode (flat_map (written up) l) = Some (concat us) /\ map utf8_value us = map Some l.
Proof.
  induction l as [|p l IH]; intros F; [exists []; split; reflexivity|]. inversion F as [|? ? [H1 H2] F']; subst.
  destruct (IH F') as [us [E1 E2]]. destruct (unicode up p (flat_map (written up) l) H1 H2) as [u [U1 U2]].
  exists (u :: us). cbn [flat_map map concat]. rewrite U1, E1, U2, E2. split; reflexivity.
Qed.

(* ---- The flags ---- *)
Definition place (f : flag) : Z :=
  match f with
  | FHardlinked => 0 | FDeletable => 1 | FWorking => 2 | FFinishing => 3 | FCurrent => 4 | FManifest => 6
  | FLogBackup => 7 | FLogRestore => 8 | FLogVerify => 9 | FStatsBackup => 10 | FStatsRestore => 11 | FStatsVerify => 12
  end.
Lemma bit_place : forall f, bit f = 2 ^ place f. Proof. intros []; reflexivity. Qed.
Lemma place_inj : forall f g, place f = place g -> f = g. Proof. intros [] []; cbn; congruence. Qed.
Lemma bits_test : forall l z f, Z.testbit (bits l z) (place f) = true <-> Z.testbit z (place f) = true \/ In f l.
Proof.
  induction l as [|g l IH]; intros z f; cbn [bits fold_left In]; [tauto|]. fold (bits l (Z.lor z (bit g))). rewrite IH, Z.lor_spec, orb_true_iff.
  assert (E : Z.testbit (bit g) (place f) = true <-> g = f).
  { rewrite bit_place. rewrite Z.pow2_bits_eqb by (destruct g; cbn; lia). rewrite Z.eqb_eq. split; [intros H; apply place_inj; congruence|congruence]. }
  rewrite E. tauto.
Qed.
Lemma land_bit : forall z f, Z.land z (bit f) <> 0 <-> Z.testbit z (place f) = true.
Proof.
  intros z f. rewrite bit_place. assert (P : 0 <= place f) by (destruct f; cbn; lia). split.
  - intros H. destruct (Z.testbit z (place f)) eqn:E; [reflexivity|]. destruct H. apply Z.bits_inj'. intros n Hn.
    rewrite Z.land_spec, Z.pow2_bits_eqb by exact P. rewrite Z.bits_0. destruct (Z.eqb_spec (place f) n); [subst; rewrite E; reflexivity|apply andb_false_r].
  - intros H E. assert (X : Z.testbit (Z.land z (2 ^ place f)) (place f) = true) by (rewrite Z.land_spec, Z.pow2_bits_eqb, Z.eqb_refl, H by exact P; reflexivity).
    rewrite E, Z.bits_0 in X. discriminate.
Qed.
Lemma flags_told : forall l f, Z.land (bits l 0) (bit f) <> 0 <-> In f l.
Proof. intros l f. rewrite land_bit, bits_test. rewrite Z.bits_0. intuition discriminate. Qed.
Lemma flags_live : forall l, Z.land (bits l 0) live_bit = 0 /\ forall f, Z.land (Z.lor (bits l 0) live_bit) (bit f) <> 0 <-> In f l.
Proof.
  intros l. split.
  - induction l as [|g l IH] using rev_ind; [reflexivity|]. unfold bits in *. rewrite fold_left_app. cbn [fold_left].
    rewrite Z.land_lor_distr_l, IH. destruct g; reflexivity.
  - intros f. rewrite Z.land_lor_distr_l. replace (Z.land live_bit (bit f)) with 0 by (destruct f; reflexivity). rewrite Z.lor_0_r. apply flags_told.
Qed.
