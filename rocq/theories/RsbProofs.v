(* What goes into a job of librsync and what comes out of it, and the proofs *)
From Coq Require Import ZArith List Bool Lia.
From Verif Require Import Bytes CmdModel RsbModel.
Import ListNotations.
Open Scope Z_scope.

(* ====================== specification ====================== *)

(* the bytes of a file that is read like this *)
Fixpoint content (l : list rd) : bytes :=
  match l with
  | RdData (x :: b) :: r => (x :: b) ++ content r
  | _ => []
  end.
(* at most n of them, if a number is known *)
Definition limited (n : option nat) (b : bytes) : bytes := match n with Some k => firstn k b | None => b end.

Section Spec.
Variable J : Type.
Variable iter : J -> bytes -> bool -> nat -> J * nat * bytes * rres.
(* What librsync promises: it takes no more than there is and puts out no more than there is room for; it says done
   only when it has taken the last byte, and what it has put out by then is the function F of all it was given.
   [Inv j c q]: the job has taken c and put out q. *)
Record contract (Inv : J -> bytes -> bytes -> Prop) (F : bytes -> bytes) : Prop := {
  k_bounds : forall j i e o j2 n p r, iter j i e o = (j2, n, p, r) -> (n <= length i)%nat /\ (length p <= o)%nat;
  k_inv : forall j c q i e o j2 n p r, Inv j c q -> iter j i e o = (j2, n, p, r) -> Inv j2 (c ++ firstn n i) (q ++ p);
  k_done : forall j c q i e o j2 n p, Inv j c q -> iter j i e o = (j2, n, p, RsDone) -> e = true /\ n = length i /\ q ++ p = F (c ++ i) }.
(* ... and of a job that puts out nothing (loading a signature): it takes all it is given, and with the end it is
   done or it fails. *)
Record contract_in (Inv : J -> bytes -> Prop) : Prop := {
  i_bounds : forall j i e o j2 n p r, iter j i e o = (j2, n, p, r) -> (n <= length i)%nat;
  i_inv : forall j c i e o j2 n p r, Inv j c -> iter j i e o = (j2, n, p, r) -> Inv j2 (c ++ firstn n i);
  i_done : forall j i e o j2 n p, iter j i e o = (j2, n, p, RsDone) -> e = true /\ n = length i;
  i_more : forall j i e o j2 n p r, iter j i e o = (j2, n, p, r) -> r = RsBlocked \/ r = RsRunning -> n = length i /\ e = false }.
End Spec.

(* the data in the messages of a signature; None: there is something else in it *)
Fixpoint sig_data (ms : list (Z * bytes)) : option bytes :=
  match ms with
  | [] => Some []
  | (c, b) :: r =>
    if c =? CMD_APPEND then match sig_data r with Some d => Some (b ++ d) | None => None end
    else if (c =? CMD_MESSAGE) || (c =? CMD_WARNING) then sig_data r
    else None
  end.

(* ====================== proofs ====================== *)

Lemma read_data : forall n l b r, (0 < n)%nat -> read_file n l = (RdData b, r) ->
  b <> [] /\ (length b <= n)%nat /\ content l = b ++ content r.
Proof.
  intros n l b r N E. destruct l as [|[d| |] l]; cbn [read_file] in E; try discriminate E.
  destruct d as [|x d]; [discriminate E|]. destruct (Nat.leb_spec (length (x :: d)) n) as [L|L]; injection E as <- <-.
  - split; [discriminate|]. split; [auto|]. reflexivity.
  - destruct n as [|n]; [lia|]. split; [discriminate|]. split. { rewrite firstn_length. lia. }
    change (content (RdData (x :: d) :: l)) with ((x :: d) ++ content l).
    destruct (skipn (S n) (x :: d)) as [|y e] eqn:S.
    + exfalso. apply (f_equal (@length Z)) in S. rewrite skipn_length in S. cbn [length] in *. lia.
    + change (content (RdData (y :: e) :: l)) with ((y :: e) ++ content l). rewrite <- S, app_assoc, firstn_skipn. reflexivity.
Qed.
Lemma read_eof : forall n l r, read_file n l = (RdEof, r) -> content l = [].
Proof.
  intros n l r E. destruct l as [|[d| |] l]; cbn [read_file] in E; try reflexivity.
  destruct d as [|x d]; [reflexivity|]. destruct (length (x :: d) <=? n)%nat; discriminate E.
Qed.

Section Proofs.
Variable J : Type.
Variable iter : J -> bytes -> bool -> nat -> J * nat * bytes * rres.
Variable cap : nat.
Variable Inv : J -> bytes -> bytes -> Prop.
Variable F : bytes -> bytes.
Hypothesis K : contract J iter Inv F.
Hypothesis CP : (0 < cap)%nat.

Definition outb (s : fst8) : bytes := match f_out s with Some b => b | None => [] end.

Definition good (data : bytes) (j : J) (s : fst8) : Prop :=
  (exists c, Inv j c (concat (f_sent s) ++ outb s) /\ c ++ f_in s = f_md5 s) /\
  f_bytes s = length (f_md5 s) /\
  f_osent s = length (concat (f_sent s)) /\
  Forall (fun b => (0 < length b <= cap)%nat) (f_sent s) /\
  (length (outb s) <= cap)%nat /\
  (f_eof s = false -> f_md5 s ++ limited (f_left s) (content (f_reads s)) = data) /\
  (f_eof s = true -> f_md5 s = data).

Lemma fill_good : forall data j s s1, good data j s -> f_eof s = false -> fill_file cap s = Some s1 -> good data j s1.
Proof.
  intros data j s s1 G E H. unfold fill_file in H. destruct (f_in s) as [|x b] eqn:I; [|injection H as <-; exact G].
  destruct G as ((c & G1 & G2) & G3 & G4 & G5 & G6 & G7 & _). specialize (G7 E).
  destruct (f_left s) as [[|k]|] eqn:L.
  - injection H as <-. unfold good, outb. cbn. split. { exists c. rewrite I in G2. auto. }
    do 4 (split; [auto|]). split; [discriminate|]. intros _. cbn in G7. rewrite app_nil_r in G7. exact G7.
  - destruct (read_file (Nat.min cap (S k)) (f_reads s)) as [[d| |] r] eqn:R; [| |discriminate H]; injection H as <-.
    + apply read_data in R; [|lia]. destruct R as (R1 & R2 & R3). unfold good, outb. cbn [f_out f_sent f_in f_md5 f_bytes f_osent f_eof f_reads f_left].
      rewrite I, app_nil_r in G2. subst c.
      split. { exists (f_md5 s). auto. } split. { rewrite app_length. lia. } do 3 (split; [auto|]). split; [|discriminate].
      intros _. rewrite <- G7, R3. cbn [limited]. rewrite <- app_assoc. f_equal. rewrite firstn_app. f_equal. symmetry. apply firstn_all2. lia.
    + apply read_eof in R. unfold good, outb. cbn. split. { exists c. rewrite I in G2. auto. }
      do 4 (split; [auto|]). split; [discriminate|]. intros _. rewrite R in G7. cbn in G7. rewrite app_nil_r in G7. exact G7.
  - destruct (read_file cap (f_reads s)) as [[d| |] r] eqn:R; [| |discriminate H]; injection H as <-.
    + apply read_data in R; [|lia]. destruct R as (R1 & R2 & R3). unfold good, outb. cbn [f_out f_sent f_in f_md5 f_bytes f_osent f_eof f_reads f_left].
      rewrite I, app_nil_r in G2. subst c.
      split. { exists (f_md5 s). auto. } split. { rewrite app_length. lia. } do 3 (split; [auto|]). split; [|discriminate].
      intros _. rewrite <- G7, R3. cbn [limited]. rewrite app_assoc. reflexivity.
    + apply read_eof in R. unfold good, outb. cbn. split. { exists c. rewrite I in G2. auto. }
      do 4 (split; [auto|]). split; [discriminate|]. intros _. rewrite R in G7. cbn in G7. rewrite app_nil_r in G7. exact G7.
Qed.

Lemma drain_good : forall data j s w s1 b, good data j s -> drain s w = Some (s1, b) -> good data j s1 /\
  f_md5 s1 = f_md5 s /\ f_eof s1 = f_eof s /\ f_in s1 = f_in s /\
  concat (f_sent s1) ++ outb s1 = concat (f_sent s) ++ outb s /\ (b = false -> f_out s1 = Some []).
Proof.
  intros data j s w s1 b G H. unfold drain in H. destruct (f_out s) as [[|x o]|] eqn:O.
  - injection H as <- <-. auto 8.
  - destruct w; [|injection H as <- <-; split; [exact G|]; do 4 (split; [auto|]); discriminate|discriminate H].
    injection H as <- <-.
    assert (Q : concat (f_sent s ++ [x :: o]) ++ [] = concat (f_sent s) ++ outb s).
    { unfold outb. rewrite O, concat_app. cbn [concat]. rewrite !app_nil_r. reflexivity. }
    split; [|cbn; unfold outb at 1; cbn; auto 6].
    destruct G as ((c & G1 & G2) & G3 & G4 & G5 & G6 & G7 & G8).
    unfold good, outb. cbn [f_out f_sent f_in f_md5 f_bytes f_osent f_eof f_reads f_left].
    split. { exists c. split; [|exact G2]. refine (eq_ind_r (fun v => Inv j c v) G1 Q). } split; [auto|].
    split. { rewrite concat_app, app_length, <- G4. cbn [concat]. rewrite app_nil_r. reflexivity. }
    split. { apply Forall_app. split; auto. constructor; [|constructor]. unfold outb in G6. rewrite O in G6. cbn [length] in *. lia. }
    split; [cbn; lia|]. auto.
  - injection H as <- <-.
    assert (Q : outb s = []) by (unfold outb; rewrite O; reflexivity).
    split; [|cbn; unfold outb; rewrite O; cbn; auto 6].
    destruct G as ((c & G1 & G2) & G3 & G4 & G5 & G6 & G7 & G8). rewrite Q in *.
    unfold good, outb. cbn [f_out f_sent f_in f_md5 f_bytes f_osent f_eof f_reads f_left]. split; [exists c; auto|]. auto 8.
Qed.

Lemma drive_good : forall data j s w j2 s2 x, good data j s -> drive J iter cap j s w = (j2, s2, x) -> x <> RsErr ->
  good data j2 s2 /\
  (x = RsDone -> f_md5 s2 = data /\ concat (f_sent s2) = F data /\ f_out s2 = Some []).
Proof.
  intros data j s w j2 s2 x G H NE. unfold drive in H.
  destruct (if f_eof s then Some s else fill_file cap s) as [s1|] eqn:FI; [|injection H as <- <- <-; congruence].
  assert (G1 : good data j s1).
  { destruct (f_eof s) eqn:E; [injection FI as <-; exact G|]. eapply fill_good; eauto. }
  clear G FI s. set (room := match f_out s1 with Some b => (cap - length b)%nat | None => O end) in *.
  destruct (iter j (f_in s1) (f_eof s1) room) as [[[j3 n] p] r] eqn:IT.
  set (s3 := mkf (f_reads s1) (f_left s1) (skipn n (f_in s1)) (f_eof s1) (f_bytes s1) (f_md5 s1)
                (match f_out s1 with Some b => Some (b ++ p) | None => None end) (f_sent s1) (f_osent s1)) in *.
  pose proof (k_bounds _ _ _ _ K _ _ _ _ _ _ _ _ IT) as (B1 & B2).
  assert (OB : outb s3 = outb s1 ++ p /\ (length (outb s3) <= cap)%nat).
  { destruct G1 as (_ & _ & _ & _ & G6 & _). unfold outb in *. cbn. unfold room in B2. destruct (f_out s1).
    - rewrite app_length. split; [reflexivity|]. lia.
    - split; [|cbn; lia]. destruct p; [reflexivity|cbn in B2; lia]. }
  destruct OB as (OB1 & OB2).
  assert (G3 : good data j3 s3).
  { destruct G1 as ((c & G1 & G2) & G3 & G4 & G5 & G6 & G7 & G8). unfold good. cbn [f_sent f_in f_md5 f_bytes f_osent f_eof f_reads f_left s3].
    split. { exists (c ++ firstn n (f_in s1)). split.
      - rewrite OB1, app_assoc. eapply (k_inv _ _ _ _ K); eauto.
      - rewrite <- app_assoc, firstn_skipn. exact G2. }
    do 3 (split; [auto|]). split; [exact OB2|]. auto. }
  assert (DONE : r = RsDone -> f_md5 s3 = data /\ concat (f_sent s3) ++ outb s3 = F data).
  { intros ->. destruct G1 as ((c & G1 & G2) & _ & _ & _ & _ & _ & G8).
    destruct (k_done _ _ _ _ K _ _ _ _ _ _ _ _ _ G1 IT) as (D1 & D2 & D3). specialize (G8 D1).
    split; [exact G8|]. rewrite OB1, app_assoc. cbn [f_sent s3]. rewrite D3, G2, G8. reflexivity. }
  destruct r.
  - destruct (drain s3 w) as [[s4 b]|] eqn:DR; [|injection H as <- <- <-; congruence].
    pose proof (drain_good _ _ _ _ _ _ G3 DR) as (D1 & D2 & D3 & D4 & D5 & D6).
    destruct b; injection H as <- <- <-; split; auto; intros X; [discriminate X|].
    destruct (DONE eq_refl) as (E1 & E2). split; [congruence|]. specialize (D6 eq_refl). split; [|exact D6].
    rewrite <- E2, <- D5. unfold outb at 1. rewrite D6, app_nil_r. reflexivity.
  - destruct (drain s3 w) as [[s4 b]|] eqn:DR; [|injection H as <- <- <-; congruence].
    pose proof (drain_good _ _ _ _ _ _ G3 DR) as (D1 & D2 & D3 & D4 & D5 & D6).
    destruct b; injection H as <- <- <-; split; auto; intros X; discriminate X.
  - injection H as <- <- <-. split; auto. intros X; discriminate X.
  - injection H as <- <- <-. congruence.
Qed.

Lemma loop_good : forall data ws j s j2 s2, good data j s -> drive_loop J iter cap j s ws = (j2, s2, RsDone) ->
  good data j2 s2 /\ f_md5 s2 = data /\ concat (f_sent s2) = F data /\ f_out s2 = Some [].
Proof.
  intros data. induction ws as [|w ws IH]; intros j s j2 s2 G H; cbn [drive_loop] in H; [discriminate H|].
  destruct (drive J iter cap j s w) as [[j3 s3] x] eqn:D.
  destruct x; try (injection H as <- <-); try discriminate H.
  - destruct (drive_good data _ _ _ _ _ _ G D) as (A & B); [discriminate|]. specialize (B eq_refl). tauto.
  - destruct (drive_good data _ _ _ _ _ _ G D) as (A & B); [discriminate|]. eapply IH; eauto.
  - destruct (drive_good data _ _ _ _ _ _ G D) as (A & B); [discriminate|]. eapply IH; eauto.
Qed.

Theorem sent_exact : forall j0 reads dl ws j s, Inv j0 [] [] -> drive_loop J iter cap j0 (fstart reads dl) ws = (j, s, RsDone) ->
  let data := limited (match dl with Some O => None | x => x end) (content reads) in
  concat (f_sent s) = F data /\ Forall (fun b => (0 < length b <= cap)%nat) (f_sent s) /\
  f_bytes s = length data /\ f_md5 s = data /\ f_osent s = length (F data).
Proof.
  intros j0 reads dl ws j s I H data.
  assert (G : good data j0 (fstart reads dl)).
  { unfold good, fstart, outb. cbn. split. { exists []. auto. } do 2 (split; [auto|]). split; [constructor|]. split; [lia|]. split; [|discriminate]. reflexivity. }
  destruct (loop_good _ _ _ _ _ _ G H) as (A & B & C & D). destruct A as (_ & A2 & A3 & A4 & _).
  split; [exact C|]. split; [exact A4|]. split; [congruence|]. split; [exact B|]. rewrite A3, C. reflexivity.
Qed.
End Proofs.

Section In.
Variable J : Type.
Variable iter : J -> bytes -> bool -> nat -> J * nat * bytes * rres.
Variable cap : nat.
Variable Inv : J -> bytes -> Prop.
Hypothesis K : contract_in J iter Inv.

Theorem loadsig_exact : forall ms j c j2 rest, Inv j c -> loadsig J iter cap j (mkr [] false) ms = LDone J j2 rest ->
  exists pre x d, ms = pre ++ (CMD_END_FILE, x) :: rest /\ sig_data pre = Some d /\ Inv j2 (c ++ d).
Proof.
  induction ms as [|[m b] ms IH]; intros j c j2 rest I H; cbn [loadsig fst] in H; [discriminate H|].
  destruct ((m =? CMD_MESSAGE) || (m =? CMD_WARNING)) eqn:MW.
  { destruct (IH _ _ _ _ I H) as (pre & x & d & E & S & I2). exists ((m, b) :: pre), x, d. split; [cbn; congruence|]. split; [|exact I2].
    cbn [sig_data]. destruct (Z.eqb_spec m CMD_APPEND) as [->|N]; [discriminate MW|]. rewrite MW. exact S. }
  cbn [r_eof] in H. unfold fill_msg in H. cbn [r_in fst snd] in H.
  destruct (Z.eqb_spec m CMD_APPEND) as [->|N].
  - destruct (cap <? length b)%nat; [discriminate H|]. cbn [r_in r_eof] in H.
    destruct (iter j b false 0) as [[[j3 n] p] x] eqn:IT.
    assert (X : n = length b -> loadsig J iter cap j3 (mkr (skipn n b) false) ms = LDone J j2 rest ->
      exists pre x d, (CMD_APPEND, b) :: ms = pre ++ (CMD_END_FILE, x) :: rest /\ sig_data pre = Some d /\ Inv j2 (c ++ d)).
    { intros -> H'. rewrite skipn_all in H'. pose proof (i_inv _ _ _ K _ _ _ _ _ _ _ _ _ I IT) as I3. rewrite firstn_all in I3.
      destruct (IH _ _ _ _ I3 H') as (pre & y & d & E & S & I2). exists ((CMD_APPEND, b) :: pre), y, (b ++ d). split; [cbn; congruence|].
      split; [cbn [sig_data]; rewrite S; reflexivity|]. rewrite app_assoc. exact I2. }
    destruct x; try discriminate H.
    + apply (i_done _ _ _ K) in IT. destruct IT as [IT _]. discriminate IT.
    + apply X; [|exact H]. eapply (i_more _ _ _ K); eauto.
    + apply X; [|exact H]. eapply (i_more _ _ _ K); eauto.
  - destruct (Z.eqb_spec m CMD_END_FILE) as [->|N2]; [|discriminate H]. cbn [r_in r_eof] in H.
    destruct (iter j [] true 0) as [[[j3 n] p] x] eqn:IT.
    destruct x; try discriminate H.
    + injection H as <- <-. pose proof (i_inv _ _ _ K _ _ _ _ _ _ _ _ _ I IT) as I3. rewrite firstn_nil in I3.
      exists [], b, []. split; [reflexivity|]. split; [reflexivity|]. exact I3.
    + destruct (i_more _ _ _ K _ _ _ _ _ _ _ _ IT) as [_ Z]; [auto|discriminate Z].
    + destruct (i_more _ _ _ K _ _ _ _ _ _ _ _ IT) as [_ Z]; [auto|discriminate Z].
Qed.

(* no message longer than the buffer, nothing undefined *)
Theorem loadsig_safe : forall ms j, Forall (fun m => (length (snd m) <= cap)%nat) ms ->
  forall s, loadsig J iter cap j s ms <> LUB J.
Proof.
  induction ms as [|[m b] ms IH]; intros j FA s; cbn [loadsig fst]; [discriminate|]. inversion FA as [|? ? L FA']; subst. cbn [snd] in L.
  destruct ((m =? CMD_MESSAGE) || (m =? CMD_WARNING)); [apply IH; auto|].
  assert (X : exists y, (if r_eof s then Some (Some s) else fill_msg cap s (m, b)) = Some y).
  { destruct (r_eof s); [eauto|]. unfold fill_msg. destruct (r_in s); [|eauto]. cbn [fst snd]. destruct (Nat.ltb_spec cap (length b)); [lia|].
    destruct (m =? CMD_APPEND), (m =? CMD_END_FILE); eauto. }
  destruct X as ([s1|] & ->); [|discriminate]. destruct (iter j (r_in s1) (r_eof s1) 0) as [[[j3 n] p] x].
  destruct x; try discriminate; apply IH; auto.
Qed.

(* ... and with one, the buffer is written beyond its end *)
Theorem loadsig_overflow : forall ms j b rest, (cap < length b)%nat -> Forall (fun m => fst m = CMD_MESSAGE \/ fst m = CMD_WARNING) ms ->
  loadsig J iter cap j (mkr [] false) (ms ++ (CMD_APPEND, b) :: rest) = LUB J.
Proof.
  induction ms as [|[m x] ms IH]; intros j b rest L FA.
  - cbn [app loadsig fst r_eof]. change ((CMD_APPEND =? CMD_MESSAGE) || (CMD_APPEND =? CMD_WARNING)) with false. cbv iota.
    unfold fill_msg. cbn [r_in fst snd]. change (CMD_APPEND =? CMD_APPEND) with true. cbv iota.
    destruct (Nat.ltb_spec cap (length b)); [reflexivity|lia].
  - inversion FA as [|? ? A B]; subst. cbn [fst] in A. cbn [app loadsig fst].
    assert (E : (m =? CMD_MESSAGE) || (m =? CMD_WARNING) = true) by (destruct A as [-> | ->]; reflexivity). rewrite E. auto.
Qed.
End In.

(* the way of a signature: what the server's job puts out is what the client's job takes in *)
Theorem signature_arrives : forall J1 iter1 cap1 Inv1 F J2 iter2 cap2 Inv2 j1 reads ws j1' s1 j2 ms j2' rest,
  contract J1 iter1 Inv1 F -> contract_in J2 iter2 Inv2 -> (0 < cap1)%nat -> Inv1 j1 [] [] -> Inv2 j2 [] ->
  drive_loop J1 iter1 cap1 j1 (fstart reads None) ws = (j1', s1, RsDone) ->
  (* the messages are those of the server, then the end, with anything for the log in between *)
  filter (fun m => negb ((fst m =? CMD_MESSAGE) || (fst m =? CMD_WARNING))) ms =
    map (fun b => (CMD_APPEND, b)) (f_sent s1) ++ [(CMD_END_FILE, str "endfile")] ->
  loadsig J2 iter2 cap2 j2 (mkr [] false) ms = LDone J2 j2' rest ->
  Inv2 j2' (F (content reads)) /\ Forall (fun m => fst m = CMD_MESSAGE \/ fst m = CMD_WARNING) rest.
Proof.
  intros J1 iter1 cap1 Inv1 F J2 iter2 cap2 Inv2 j1 reads ws j1' s1 j2 ms j2' rest K1 K2 CP I1 I2 D M L.
  destruct (sent_exact J1 iter1 cap1 Inv1 F K1 CP j1 reads None ws j1' s1 I1 D) as (S & _). cbn [limited] in S.
  destruct (loadsig_exact J2 iter2 cap2 Inv2 K2 ms j2 [] j2' rest I2 L) as (pre & x & d & E & SD & I3). cbn [app] in I3.
  subst ms. rewrite filter_app in M. cbn [filter fst] in M.
  change (negb ((CMD_END_FILE =? CMD_MESSAGE) || (CMD_END_FILE =? CMD_WARNING))) with true in M. cbv iota in M.
  assert (A : forall pre d, sig_data pre = Some d -> exists l, filter (fun m => negb ((fst m =? CMD_MESSAGE) || (fst m =? CMD_WARNING))) pre = map (fun b => (CMD_APPEND, b)) l /\ d = concat l).
  { clear. induction pre as [|[m b] pre IH]; intros d H; cbn [sig_data] in H.
    - injection H as <-. exists []. auto.
    - destruct (Z.eqb_spec m CMD_APPEND) as [->|N].
      + destruct (sig_data pre) as [d'|] eqn:SP; [|discriminate H]. injection H as <-. destruct (IH _ eq_refl) as (l & A & B).
        exists (b :: l). cbn [filter fst]. change (negb ((CMD_APPEND =? CMD_MESSAGE) || (CMD_APPEND =? CMD_WARNING))) with true. cbv iota.
        rewrite A. split; [reflexivity|]. cbn. congruence.
      + destruct ((m =? CMD_MESSAGE) || (m =? CMD_WARNING)) eqn:MW; [|discriminate H]. destruct (IH _ H) as (l & A & B).
        exists l. cbn [filter fst]. rewrite MW. auto. }
  destruct (A _ _ SD) as (l & A1 & A2). rewrite A1 in M.
  set (tl := filter (fun m : Z * bytes => negb ((fst m =? CMD_MESSAGE) || (fst m =? CMD_WARNING))) rest) in *.
  assert (Q : forall l l' x y t, map (fun b : bytes => (CMD_APPEND, b)) l ++ (CMD_END_FILE, x) :: t = map (fun b => (CMD_APPEND, b)) l' ++ [(CMD_END_FILE, y)] -> l = l' /\ t = []).
  { clear. induction l as [|a l IH]; intros [|a' l'] x y t H; cbn in H.
    - injection H as _ H. auto.
    - discriminate H.
    - discriminate H.
    - injection H as -> H. destruct (IH _ _ _ _ H) as [-> ->]. auto. }
  apply Q in M. destruct M as [-> M].
  split. { rewrite <- S, <- A2. exact I3. }
  apply Forall_forall. intros m Hm. destruct ((fst m =? CMD_MESSAGE) || (fst m =? CMD_WARNING)) eqn:MW.
  - apply orb_prop in MW. destruct MW as [MW|MW]; apply Z.eqb_eq in MW; auto.
  - exfalso. assert (X : In m tl) by (apply filter_In; rewrite MW; auto). rewrite M in X. contradiction.
Qed.
