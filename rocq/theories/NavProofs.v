(* Moving through the status monitor: specification and proofs. *)
From Verif Require Import Bytes NavModel NavLogProofs.
From Coq Require Import Lia ZifyBool ZifyNat.

(* ---- specification ---- *)
(* What is selected is in the lists; past the first page the backup is one of the client's. *)
Definition selected_ok (l : clients) (s : nav) : Prop :=
  exists c, n_client s = Some c /\ (c < List.length l)%nat /\
  match n_backup s with Some (c', j) => (j < List.length (bus l c'))%nat | None => True end /\
  (n_page s <> PClients -> match n_backup s with Some (c', _) => c' = c | None => bus l c = [] end) /\
  match n_lline s with Some i => (i < n_lines s)%nat | None => True end /\
  (n_logop s = 0 \/ In (n_logop s) log_bits) /\ 0 <= n_offset s.
(* The number, from 1, of what is selected on the page; it is among those shown. *)
Definition number_of (s : nav) : option Z :=
  match n_page s with
  | PClients => match n_client s with Some i => Some (Z.of_nat i + 1) | None => None end
  | PBackups => match n_backup s with Some (_, j) => Some (Z.of_nat j + 1) | None => None end
  | _ => None
  end.
Definition shown (s : nav) : Prop := match number_of s with Some i => n_min s <= i <= n_max s | None => True end.
Definition win_ok (row : Z) (s : nav) : Prop := n_max s - n_min s = row /\ 0 <= n_min s /\ n_min s <= n_last s <= n_max s.
Definition good (l : clients) (row : Z) (s : nav) : Prop := selected_ok l s /\ win_ok row s.

(* ---- proofs ---- *)
Lemma window_ok : forall row x si a b last, 1 <= row -> 0 <= x -> 0 <= si -> b - a = row -> 0 <= a -> a <= last <= b ->
  let '(a', b') := window row x si a b last in b' - a' = row /\ 0 <= a' /\ a' <= si <= b'.
Proof.
  intros row x si a b last R X S E A L. unfold window. cbv zeta.
  destruct (last <? si) eqn:E1; [destruct (b - 2 - 1 - x <? si) eqn:E2|destruct (si <? last) eqn:E2; [destruct (si <? a) eqn:E3|]].
  1: destruct (a + (si - last) =? b + (si - last)) eqn:E4; [lia|]; destruct (a + (si - last) <? 0) eqn:E5; lia.
  1: destruct (a =? b) eqn:E4; [lia|]; destruct (a <? 0) eqn:E5; lia.
  1: destruct (a + (si - last) =? b + (si - last)) eqn:E4; [lia|]; destruct (a + (si - last) <? 0) eqn:E5; lia.
  all: destruct (a =? b) eqn:E4; [lia|]; destruct (a <? 0) eqn:E5; lia.
Qed.
Lemma page_up_eq : forall i row, 1 <= row -> page_up_from i row = if row - 1 <=? Z.of_nat i then Some (i - Z.to_nat (row - 1))%nat else None.
Proof.
  induction i as [|i IH]; intros row R; cbn [page_up_from]; cbv zeta; destruct (row - 1 =? 0) eqn:E.
  - apply Z.eqb_eq in E. rewrite E. reflexivity.
  - destruct (row - 1 <=? Z.of_nat 0) eqn:K; [exfalso; cbn in K; lia|reflexivity].
  - apply Z.eqb_eq in E. rewrite E. pose proof (Nat2Z.is_nonneg (S i)) as P. apply Z.leb_le in P. rewrite P. reflexivity.
  - rewrite IH by lia. replace (row - 1 - 1 <=? Z.of_nat i) with (row - 1 <=? Z.of_nat (S i)) by lia.
    destruct (row - 1 <=? Z.of_nat (S i)) eqn:K; auto. f_equal. lia.
Qed.
Lemma page_down_eq : forall m n i row, 1 <= row -> (i < n)%nat -> (n <= S (i + m))%nat ->
  page_down_from m n i row = Nat.min (i + Z.to_nat (row - 1)) (n - 1).
Proof.
  induction m as [|m IH]; intros n i row R I M; cbn [page_down_from]; cbv zeta; destruct (row - 1 =? 0) eqn:E; try lia;
    destruct (S i <? n)%nat eqn:K; cbn [negb]; [apply Nat.ltb_lt in K|apply Nat.ltb_ge in K|apply Nat.ltb_lt in K|apply Nat.ltb_ge in K]; try lia.
  rewrite IH by lia. lia.
Qed.
Lemma show_eq : forall f o, show_logs f o = if o =? 0 then match f with Some f => hd 0 (entries f) | None => 0 end else o.
Proof.
  intros f o. unfold show_logs, entries. destruct f as [f|].
  - assert (N : forall bs o, o <> 0 -> fold_left (fun o bit => if negb (hit bit f) then o else if o =? 0 then bit else o) bs o = o).
    { induction bs as [|b bs IH]; intros p hp; auto. cbn [fold_left]. replace (p =? 0) with false by lia. destruct (negb (hit b f)); auto. }
    destruct (o =? 0) eqn:E; [|apply N; lia]. apply Z.eqb_eq in E. subst o.
    assert (H : Forall (fun b => b <> 0) log_bits) by (repeat constructor; discriminate).
    revert H. generalize log_bits. induction l as [|b bs IH]; intros H; auto. inversion H; subst. cbn [fold_left filter].
    destruct (hit b f); cbn [negb hd]; auto.
  - assert (N : forall (bs : list Z) (p : Z), fold_left (fun (q : Z) (_ : Z) => q) bs p = p) by (induction bs; cbn; auto).
    rewrite N. destruct (o =? 0) eqn:E; lia.
Qed.
Lemma entries_in : forall f b, In b (entries f) -> In b log_bits.
Proof. intros f b H. apply filter_In in H. tauto. Qed.
Lemma hd_in : forall (l : list Z) d, hd d l = d \/ In (hd d l) l.
Proof. intros [|a l] d; cbn; auto. Qed.
Lemma last_in : forall (l : list Z) d, List.last l d = d \/ In (List.last l d) l.
Proof. induction l as [|a [|b l] IH]; intros d; auto. { right. left. auto. } destruct (IH d) as [H|H]; [left; exact H|right; right; exact H]. Qed.

(* Before the screen is drawn. *)
Definition drawable (l : clients) (s : nav) : Prop :=
  exists c, n_client s = Some c /\ (c < List.length l)%nat /\
  match n_backup s with Some (c', j) => (j < List.length (bus l c'))%nat | None => True end /\
  (n_page s = PLogs \/ n_page s = PView -> match n_backup s with Some (c', _) => c' = c | None => bus l c = [] end) /\
  match n_lline s with Some i => (i < n_lines s)%nat | None => True end /\
  (n_logop s = 0 \/ In (n_logop s) log_bits) /\ 0 <= n_offset s.
Lemma selindex_some : forall n i, (i < n)%nat -> selindex n (Some i) = Z.of_nat i + 1.
Proof. intros n i h. unfold selindex. apply Nat.ltb_lt in h. rewrite h. auto. Qed.
Lemma selindex_pos : forall n o, 0 <= selindex n o.
Proof. intros n [i|]; unfold selindex; [destruct (i <? n)%nat|]; lia. Qed.
Lemma starred_some : forall n i a b, (i < n)%nat -> a <= Z.of_nat i + 1 <= b -> starred n (Some i) a b = Some i.
Proof. intros n i a b h k. unfold starred. apply Nat.ltb_lt in h. rewrite h. replace (a <=? Z.of_nat i + 1) with true by lia. replace (Z.of_nat i + 1 <=? b) with true by lia. auto. Qed.
Lemma header_pos : forall p, 0 <= header p.
Proof. destruct p; cbn; lia. Qed.
Lemma first_bu_ok : forall l c, match first_bu l c with Some (c', j) => c' = c /\ (j < List.length (bus l c'))%nat | None => bus l c = [] end.
Proof. intros l c. unfold first_bu. destruct (bus l c) eqn:E; auto. split; auto. rewrite E. cbn. lia. Qed.
Lemma show_ok : forall f o, o = 0 \/ In o log_bits -> show_logs f o = 0 \/ In (show_logs f o) log_bits.
Proof.
  intros f o h. rewrite show_eq. destruct (o =? 0) eqn:E; [|tauto]. destruct f as [f|]; auto.
  destruct (hd_in (entries f) 0) as [->|H]; auto. right. eapply entries_in; eauto.
Qed.

(* Drawing, with the window it leaves. *)
Definition si_of (l : clients) (c : nat) (s : nav) : Z :=
  match n_page s with
  | PClients => selindex (List.length l) (Some c)
  | PBackups => selindex (List.length (bus l c)) (in_client c (n_backup s))
  | PLogs => 0
  | PView => selindex (n_lines s) (n_lline s)
  end.
Lemma si_pos : forall l c s, 0 <= si_of l c s.
Proof. intros. unfold si_of. destruct (n_page s); try apply selindex_pos. lia. Qed.
Definition win_pre (l : clients) (c : nat) (row : Z) (s : nav) : Prop :=
  let '(a, b) := window row (header (n_page s)) (si_of l c s) (n_min s) (n_max s) (n_last s) in
  b - a = row /\ 0 <= a /\ a <= si_of l c s <= b.
Lemma win_pre_ok : forall l c row s, 1 <= row -> win_ok row s -> win_pre l c row s.
Proof.
  intros l c row s R (A & B & C). unfold win_pre. apply window_ok; auto; try lia; [apply header_pos|apply si_pos].
Qed.
Lemma up_some : forall f m a o, up_logs m (Some f) a o <> None.
Proof.
  intros f. induction m as [|m IH]; intros a o; cbn [up_logs]; [discriminate|]. destruct (32 <? a); cbn [negb]; [|discriminate]. cbv zeta.
  destruct (hit _ f); [discriminate|auto].
Qed.
Lemma down_some : forall f m a o, down_logs m (Some f) a o <> None.
Proof.
  intros f. induction m as [|m IH]; intros a o; cbn [down_logs]; [discriminate|]. destruct (a =? 0); [discriminate|]. cbv zeta.
  destruct (hit _ f); [discriminate|auto].
Qed.
Lemma up_none : forall a o, up_logs 16 None a o = if 32 <? a then None else Some o.
Proof. intros. cbn [up_logs]. destruct (32 <? a); reflexivity. Qed.
Lemma down_none : forall a o, down_logs 16 None a o = if a =? 0 then Some o else None.
Proof. intros. cbn [down_logs]. destruct (a =? 0); reflexivity. Qed.
#[local] Arguments show_logs : simpl never.
#[local] Arguments flags_of : simpl never.
#[local] Arguments up_logs : simpl never.
#[local] Arguments down_logs : simpl never.
Ltac fin c := repeat split; cbn; auto; try congruence; try lia; try (exists c; repeat split; cbn; auto; congruence).
Lemma drawn : forall l row s c, drawable l s -> n_client s = Some c -> win_pre l c row s ->
  good l row (draw l row s) /\ n_page (draw l row s) = n_page s /\
  n_client (draw l row s) = n_client s /\
  (n_page s = PClients -> shown (draw l row s)) /\
  (n_page s <> PBackups -> n_backup (draw l row s) = n_backup s) /\
  (n_page s = PBackups -> forall j, n_backup s = Some (c, j) -> n_backup (draw l row s) = n_backup s /\ shown (draw l row s)) /\
  n_logop (draw l row s) = match n_page s with PLogs => show_logs (flags_of l s) (n_logop s) | _ => n_logop s end.
Proof.
  intros l row s c (c0 & HC & CL & HB & HR & HL & HO & HF) Hc W. rewrite HC in Hc. injection Hc as ->.
  unfold win_pre in W. unfold draw. rewrite HC. fold (si_of l c s). cbv zeta.
  destruct (window row (header (n_page s)) (si_of l c s) (n_min s) (n_max s) (n_last s)) as [a b]. destruct W as (W1 & W2 & W3).
  unfold si_of in *. destruct s as [p cl bu lo off lines ll mi ma la]. cbn [n_page n_client n_backup n_logop n_offset n_lines n_lline n_min n_max n_last set_win] in *. subst cl.
  destruct p.
  - rewrite selindex_some in * by auto. rewrite starred_some by auto. fin c.
  - destruct bu as [[c' j]|].
    + cbn [in_client] in *. destruct (c' =? c)%nat eqn:E.
      * apply Nat.eqb_eq in E. subst c'. rewrite selindex_some in * by auto. rewrite starred_some by auto.
        fin c. all: cbn; injection H0 as <-; lia.
      * apply Nat.eqb_neq in E. cbn [starred selindex] in *. pose proof (first_bu_ok l c) as Q. destruct (first_bu l c) as [[c2 j2]|] eqn:EF.
        -- destruct Q as [-> Q]. fin c.
        -- fin c.
    + cbn [in_client starred selindex] in *. pose proof (first_bu_ok l c) as Q. destruct (first_bu l c) as [[c2 j2]|] eqn:EF.
      * destruct Q as [-> Q]. fin c.
      * fin c.
  - split; [split; [exists c|unfold win_ok; cbn; lia]|fin c].
    cbn. split; [auto|]. split; [auto|]. split; [auto|]. split; [intros _; apply HR; auto|]. split; [auto|]. split; [apply show_ok; auto|auto].
  - assert (K : forall s', n_page s' = PView -> n_client s' = Some c -> n_backup s' = bu -> n_logop s' = lo -> n_offset s' = off -> n_lines s' = lines ->
      match n_lline s' with Some i => (i < n_lines s')%nat | None => True end -> n_min s' = a -> n_max s' = b -> n_last s' = selindex lines ll -> good l row s').
    { intros s' A1 A2 A3 A4 A5 A6 A7 A8 A9 A10. split.
      - exists c. rewrite A2, A3, A4, A5. split; [auto|]. split; [auto|]. split; [auto|]. split; [intros _; apply HR; auto|]. split; [auto|]. split; auto.
      - unfold win_ok. rewrite A8, A9, A10. lia. }
    destruct bu as [bu0|]; [destruct (negb (Z.land lo 32 =? 0))|]; try (destruct (starred lines ll a b));
      (split; [apply K; cbn; auto; destruct lines; auto; lia|]); fin c.
Qed.
(* Once a key was taken, before the main loop selects. *)
Definition taken (l : clients) (s : nav) : Prop :=
  match n_client s with
  | Some c => (c < List.length l)%nat /\ (n_page s = PLogs \/ n_page s = PView -> match n_backup s with Some (c', _) => c' = c | None => bus l c = [] end)
  | None => n_page s = PClients /\ l <> []
  end /\
  match n_backup s with Some (c', j) => (j < List.length (bus l c'))%nat | None => True end /\
  match n_lline s with Some i => (i < n_lines s)%nat | None => True end /\
  (n_logop s = 0 \/ In (n_logop s) log_bits) /\ 0 <= n_offset s.
Lemma select_ok : forall l s, taken l s -> drawable l (select l s).
Proof.
  intros l s (A & B & C & D & E). unfold select. destruct (n_client s) as [c|] eqn:EC.
  - destruct A as [A1 A2]. destruct (n_backup s) as [[c' j]|] eqn:EB.
    + exists c. rewrite EB. auto 10.
    + pose proof (first_bu_ok l c) as Q. exists c. cbn. destruct (first_bu l c) as [[c' j]|].
      * destruct Q as [-> Q]. auto 10.
      * auto 10.
  - destruct A as [A1 A2]. destruct l as [|b l]; [congruence|]. exists 0%nat. cbn [set_client n_client n_backup n_page n_lline n_lines n_logop n_offset first_client].
    split; [auto|]. split; [cbn; lia|]. split; [auto|]. split; [intros [K|K]; congruence|]. auto.
Qed.
Lemma select_win : forall l row s, win_ok row s -> win_ok row (select l s).
Proof. intros l row s W. unfold select. destruct (n_client s); [destruct (n_backup s)|]; exact W. Qed.
(* A key that is pressed, and what the main loop selects. *)
Lemma pressed : forall l row k s s', Forall (Forall (fun f => 0 <= f < 2 ^ 13)) l -> 1 <= row -> good l row s -> press l row k s = Some s' ->
  taken l s' /\ win_ok row s'.
Proof.
  intros l row k s s' F R ((c & HC & CL & HB & HR & HL & HO & HF) & HW) P.
  assert (HOK : forall o, up_logs 16 (flags_of l s) (n_logop s) (n_logop s) = Some o \/ down_logs 16 (flags_of l s) (n_logop s) (n_logop s) = Some o -> o = 0 \/ In o log_bits).
  { intros o h. destruct HO as [HO|HO].
    - rewrite HO in h. destruct h as [h|h]; cbv [up_logs down_logs] in h; cbn in h; injection h as <-; auto.
    - destruct (flags_of l s) as [f|] eqn:EF.
      + assert (FF : 0 <= f < 2 ^ 13).
        { unfold flags_of in EF. destruct (n_backup s) as [[c' j]|]; [|discriminate]. injection EF as <-.
          unfold bus. destruct (nth_in_or_default c' l []) as [I| ->].
          - rewrite Forall_forall in F. specialize (F _ I). destruct (nth_in_or_default j (nth c' l []) 0) as [J| ->]; [|lia].
            rewrite Forall_forall in F. apply F; auto.
          - destruct j; cbn; lia. }
        destruct h as [h|h].
        * rewrite up_spec in h by auto. injection h as <-.
          destruct (last_in (filter (fun b => b <? n_logop s) (entries f)) (n_logop s)) as [->|I]; auto.
          apply filter_In in I. right. apply (entries_in f). tauto.
        * rewrite down_spec in h by auto. injection h as <-.
          destruct (hd_in (filter (fun b => n_logop s <? b) (entries f)) (n_logop s)) as [->|I]; auto.
          apply filter_In in I. right. apply (entries_in f). tauto.
      + unfold log_bits in HO. cbn [In] in HO.
        repeat (destruct HO as [HO|HO]; [rewrite <- HO in h; destruct h as [h|h]; vm_compute in h; try discriminate h; injection h as <-; right; cbn; auto|]). contradiction. }
  destruct s as [p cl bu lo off lines ll mi ma la]. unfold win_ok in *. cbn [n_page n_client n_backup n_logop n_offset n_lines n_lline n_min n_max n_last] in *. subst cl.
  assert (NE : l <> []) by (intros ->; cbn in CL; lia).
  assert (G : forall p' o off' n' ll', (p' = PLogs \/ p' = PView -> p <> PClients) -> (o = 0 \/ In o log_bits) -> 0 <= off' -> match ll' with Some i => (i < n')%nat | None => True end ->
    taken l (mkn p' (Some c) bu o off' n' ll' mi ma la)).
  { intros p' o off' n' ll' K1 K2 K3 K4. split; [|cbn; auto 10]. cbn. split; [auto|]. intros K. apply HR. auto. }
  assert (G0 : taken l (mkn p (Some c) bu lo off lines ll mi ma la)) by (apply G; auto; destruct p; intros [K|K]; congruence).
  assert (NX : forall n i, (i < n)%nat -> (next n i < n)%nat) by (intros n i h; unfold next; destruct (S i <? n)%nat eqn:E; [apply Nat.ltb_lt in E|]; lia).
  assert (GM : forall g, (forall n i, (i < n)%nat -> match g n i with Some i' => (i' < n)%nat | None => p = PClients \/ p = PBackups end) ->
     taken l (moved l g (mkn p (Some c) bu lo off lines ll mi ma la))).
  { intros g hg. unfold moved. cbn [n_page n_client n_backup n_lline n_lines n_offset]. destruct p; auto.
    - specialize (hg _ _ CL). destruct (g (List.length l) c) as [c2|]; (split; [cbn; auto|cbn; auto 10]). split; auto. intros [K|K]; discriminate.
    - destruct bu as [[c' j]|]; auto. specialize (hg _ _ HB). destruct (g (List.length (bus l c')) j) as [j2|]; (split; [cbn; auto|cbn; auto 10]); (split; [auto|intros [K|K]; discriminate]).
    - destruct ll as [i|]; auto. specialize (hg _ _ HL). apply G; auto; try (intros _; discriminate). destruct (g lines i); auto. }
  assert (WM : forall g, win_ok row (moved l g (mkn p (Some c) bu lo off lines ll mi ma la))).
  { intros g. unfold moved. cbn [n_page n_client n_backup n_lline n_lines n_offset]. destruct p; auto; [destruct bu as [[c' j]|]|destruct ll]; auto. }
  destruct k; cbn [press n_page n_logop] in P.
  - (* up *) destruct p; try (injection P as <-; split; [apply GM; intros n i h; unfold prev; lia|apply WM]).
    cbn [n_logop] in *. destruct (up_logs 16 _ lo lo) as [o|] eqn:EO; [|discriminate]. injection P as <-. split; auto. apply G; auto. intros _; discriminate.
  - (* down *) destruct p; try (injection P as <-; split; [apply GM; intros n i h; apply NX; auto|apply WM]).
    cbn [n_logop] in *. destruct (down_logs 16 _ lo lo) as [o|] eqn:EO; [|discriminate]. injection P as <-. split; auto. apply G; auto. intros _; discriminate.
  - (* left *) injection P as <-. unfold left. cbn [n_page n_offset n_lines n_lline]. destruct p; auto; try (split; [apply G; auto; try (intros [K|K]; discriminate); intros _; discriminate|auto]).
    destruct (0 <? off) eqn:E; (split; [apply G; auto; try lia; intros _; discriminate|auto]).
  - (* right *) injection P as <-. unfold right. cbn [n_page n_offset n_lines n_lline]. destruct p; (split; [apply G; auto; try lia; try (intros [K|K]; discriminate); intros _; discriminate|auto]).
  - destruct p; injection P as <-; auto; (split; [apply GM; intros n i h; rewrite page_up_eq by auto; destruct (row - 1 <=? Z.of_nat i); auto; lia|apply WM]).
  - destruct p; injection P as <-; auto; (split; [apply GM; intros n i h; rewrite page_down_eq by lia; lia|apply WM]).
  - injection P as <-. auto.
Qed.
Lemma turn_good : forall l row k s s', Forall (Forall (fun f => 0 <= f < 2 ^ 13)) l -> 1 <= row -> good l row s -> turn l row k s = Some s' -> good l row s'.
Proof.
  intros l row k s s' F R G T. unfold turn in T. destruct (press l row k s) as [s1|] eqn:P; [|discriminate]. injection T as <-.
  destruct (pressed _ _ _ _ _ F R G P) as [A B]. apply select_ok in A. pose proof A as A'. destruct A' as (c & C & _).
  apply (drawn l row _ c A C). apply win_pre_ok; auto. apply select_win; auto.
Qed.
Theorem turns_good : forall l row ks s s', Forall (Forall (fun f => 0 <= f < 2 ^ 13)) l -> 1 <= row -> good l row s -> turns l row ks s = Some s' -> good l row s'.
Proof.
  intros l row ks. induction ks as [|[n k] ks IH]; intros s s' F R G T; cbn [turns] in T; [injection T as <-; auto|].
  match type of T with (match turn l row k ?x with _ => _ end) = _ => assert (G1 : good l row x) end.
  { destruct (n_page s) eqn:EP; auto. destruct (n_lines s) eqn:EL; auto. destruct G as [(c & A & B & C & D & E & H) W]. split; [|exact W].
    exists c. cbn. rewrite EP in *. rewrite EL in E. split; [auto|]. split; [auto|]. split; [auto|]. split; [auto|]. split; [|auto]. destruct (n_lline s); auto. lia. }
  destruct (turn l row k _) as [s1|] eqn:E; [|discriminate]. eapply IH; [auto|auto| |exact T]. eapply turn_good; eauto.
Qed.
Lemma window_start : forall row x si, 1 <= row -> 0 <= x -> 0 <= si <= 1 ->
  let '(a, b) := window row x si 0 0 0 in b - a = row /\ 0 <= a /\ a <= si <= b.
Proof.
  intros row x si R X S. unfold window. cbv zeta.
  destruct (0 <? si) eqn:E1; [destruct (0 - 2 - 1 - x <? si) eqn:E2; [|lia]|destruct (si <? 0) eqn:E2; [lia|]].
  - rewrite Z.eqb_refl. lia.
  - cbn. lia.
Qed.
Theorem start_good : forall l row p, l <> [] -> 1 <= row -> p = PClients \/ p = PBackups -> good l row (start l row p).
Proof.
  intros l row p N R P. unfold start. destruct l as [|b l]; [congruence|].
  set (s := select _ _). assert (S : s = set_backup (mkn p (Some 0%nat) None 0 0 0 None 0 0 0) (first_bu (b :: l) 0)) by reflexivity.
  assert (D : drawable (b :: l) s).
  { unfold s. apply select_ok.
    split; [cbn; split; [lia|intros [K|K]; destruct P; congruence]|cbn; auto 10 with zarith]. }
  apply (drawn (b :: l) row s 0 D); [rewrite S; reflexivity|]. unfold win_pre. rewrite S. apply window_start; [auto|apply header_pos|].
  unfold si_of, first_bu. destruct P; subst p; cbn [set_backup n_page n_backup].
  - rewrite selindex_some by (cbn; lia). cbn. lia.
  - unfold bus. cbn [nth]. destruct b as [|x b]; cbn [in_client Nat.eqb]. { cbn. lia. } rewrite selindex_some by (cbn; lia). cbn. lia.
Qed.
(* The keys on the two lists. *)
Definition moves (row : Z) (k : key) (n i : nat) : nat :=
  match k with
  | KUp => i - 1
  | KDown => Nat.min (i + 1) (n - 1)
  | KPageUp => i - Z.to_nat (row - 1)
  | KPageDown => Nat.min (i + Z.to_nat (row - 1)) (n - 1)
  | _ => i
  end%nat.
Lemma next_min : forall n i, (i < n)%nat -> next n i = Nat.min (i + 1) (n - 1).
Proof. intros n i h. unfold next. destruct (S i <? n)%nat eqn:E; [apply Nat.ltb_lt in E|apply Nat.ltb_ge in E]; lia. Qed.
Definition stays (k : key) : Prop := k = KUp \/ k = KDown \/ k = KPageUp \/ k = KPageDown \/ k = KOther.
Theorem clients_moved : forall l row k s i, Forall (Forall (fun f => 0 <= f < 2 ^ 13)) l -> 1 <= row -> good l row s -> stays k ->
  n_page s = PClients -> n_client s = Some i ->
  exists s', turn l row k s = Some s' /\ n_page s' = PClients /\ n_client s' = Some (moves row k (List.length l) i) /\ shown s'.
Proof.
  intros l row k s i F R G K P C. pose proof G as G'. destruct G' as [(c & A & B & _) W]. rewrite A in C. injection C as ->.
  assert (E : exists s1, press l row k s = Some s1 /\ n_page s1 = PClients /\ n_client (select l s1) = Some (moves row k (List.length l) i)).
  { unfold stays in K. destruct K as [->|[->|[->|[->| ->]]]]; cbn [press]; rewrite ?P; eexists; (split; [reflexivity|]); unfold moved; rewrite ?P, ?A; (split; [auto|]); unfold select; cbn [set_client n_client n_backup moves].
    - destruct (n_backup s); cbn; rewrite ?A; unfold prev; f_equal; lia.
    - rewrite next_min by auto. destruct (n_backup s); reflexivity.
    - rewrite page_up_eq by auto. destruct (row - 1 <=? Z.of_nat i) eqn:E.
      + destruct (n_backup s); reflexivity.
      + destruct l; [cbn in B; lia|]. cbn. f_equal. lia.
    - rewrite page_down_eq by lia. destruct (n_backup s); reflexivity.
    - rewrite A. destruct (n_backup s); cbn; auto. }
  destruct E as (s1 & E1 & E2 & E3). unfold turn. rewrite E1. exists (draw l row (select l s1)). split; auto.
  destruct (pressed _ _ _ _ _ F R G E1) as [T W1]. apply select_ok in T. apply (select_win l) in W1.
  destruct (drawn l row _ _ T E3 (win_pre_ok _ _ _ _ R W1)) as (_ & D1 & D2 & D3 & _).
  assert (SP : n_page (select l s1) = PClients) by (unfold select; destruct (n_client s1); [destruct (n_backup s1)|]; auto).
  rewrite D1, D2, SP, E3. auto.
Qed.
Theorem backups_moved : forall l row k s i j, Forall (Forall (fun f => 0 <= f < 2 ^ 13)) l -> 1 <= row -> good l row s -> stays k ->
  n_page s = PBackups -> n_client s = Some i -> n_backup s = Some (i, j) ->
  exists s', turn l row k s = Some s' /\ n_page s' = PBackups /\ n_client s' = Some i /\ n_backup s' = Some (i, moves row k (List.length (bus l i)) j) /\ shown s'.
Proof.
  intros l row k s i j F R G K P C BU. pose proof G as G'. destruct G' as [(c & A & B & D & _) W]. rewrite BU in D.
  assert (E : exists s1, press l row k s = Some s1 /\ n_page s1 = PBackups /\ n_client s1 = Some i /\ n_backup (select l s1) = Some (i, moves row k (List.length (bus l i)) j)).
  { unfold stays in K. destruct K as [->|[->|[->|[->| ->]]]]; cbn [press]; rewrite ?P; eexists; (split; [reflexivity|]); unfold moved; rewrite ?P, ?BU; (split; [auto|]); (split; [auto|]); unfold select; cbn [set_backup n_client n_backup moves]; rewrite C.
    - unfold prev. cbn. do 2 f_equal. lia.
    - cbn. rewrite next_min by auto. reflexivity.
    - rewrite page_up_eq by auto. destruct (row - 1 <=? Z.of_nat j) eqn:E; cbn; auto.
      unfold first_bu. destruct (bus l i); [cbn in D; lia|]. do 2 f_equal. lia.
    - rewrite page_down_eq by lia. reflexivity.
    - rewrite BU. auto. }
  destruct E as (s1 & E1 & E2 & E3 & E4). unfold turn. rewrite E1. exists (draw l row (select l s1)). split; auto.
  destruct (pressed _ _ _ _ _ F R G E1) as [T W1]. apply select_ok in T. apply (select_win l) in W1.
  assert (SC : n_client (select l s1) = Some i) by (unfold select; rewrite E3; destruct (n_backup s1); auto).
  assert (SP : n_page (select l s1) = PBackups) by (unfold select; rewrite E3; destruct (n_backup s1); auto).
  destruct (drawn l row _ _ T SC (win_pre_ok _ _ _ _ R W1)) as (_ & D1 & D2 & _ & _ & D3 & _).
  destruct (D3 SP _ E4) as [D4 D5]. rewrite D1, D2, D4, SP, SC. auto.
Qed.
(* When the program follows a NULL pointer. *)
Theorem crash_iff : forall l row k s, good l row s -> (turn l row k s = None <->
  n_page s = PLogs /\ n_backup s = None /\ (k = KDown /\ n_logop s <> 0 \/ k = KUp /\ 32 < n_logop s)).
Proof.
  intros l row k s G. unfold turn. pose proof up_some as U. pose proof down_some as V.
  destruct k; cbn [press]; try (split; [discriminate|intros (_ & _ & [[? _]|[? _]]); discriminate]);
    try (destruct (n_page s); split; try discriminate; intros (? & _ & [[? _]|[? _]]); discriminate).
  - destruct (n_page s) eqn:P; try (split; [discriminate|intros (? & _); discriminate]).
    unfold flags_of. destruct (n_backup s) as [[c j]|].
    + destruct (up_logs 16 _ _ _) eqn:E; [split; [discriminate|intros (_ & ? & _); discriminate]|apply U in E; contradiction].
    + rewrite up_none. destruct (32 <? n_logop s) eqn:E; split; auto; try discriminate.
      * intros _. split; auto. split; auto. right. split; auto. lia.
      * intros (_ & _ & [[? _]|[_ ?]]); [discriminate|lia].
  - destruct (n_page s) eqn:P; try (split; [discriminate|intros (? & _); discriminate]).
    unfold flags_of. destruct (n_backup s) as [[c j]|].
    + destruct (down_logs 16 _ _ _) eqn:E; [split; [discriminate|intros (_ & ? & _); discriminate]|apply V in E; contradiction].
    + rewrite down_none. destruct (n_logop s =? 0) eqn:E; split; auto; try discriminate.
      * intros (_ & _ & [[_ ?]|[? _]]); [lia|discriminate].
      * intros _. split; auto. split; auto. left. split; auto. lia.
Qed.
(* With a backup for each client it is never followed. *)
Theorem never_crash : forall l row ks s, Forall (Forall (fun f => 0 <= f < 2 ^ 13)) l -> Forall (fun b => b <> []) l -> 1 <= row -> good l row s -> turns l row ks s <> None.
Proof.
  intros l row ks. induction ks as [|[n k] ks IH]; intros s F B R G; cbn [turns]; [discriminate|].
  match goal with |- (match turn l row k ?x with _ => _ end) <> _ => assert (G1 : good l row x) end.
  { apply (turns_good l row [] s s) in G; auto. destruct (n_page s) eqn:EP; auto. destruct (n_lines s) eqn:EL; auto. destruct G as [(c & A & B' & C & D & E & H) W]. split; [|exact W].
    exists c. cbn. rewrite EP in *. rewrite EL in E. split; [auto|]. split; [auto|]. split; [auto|]. split; [auto|]. split; [|auto]. destruct (n_lline s); auto. lia. }
  destruct (turn l row k _) as [s1|] eqn:E.
  - apply IH; auto. eapply turn_good; eauto.
  - exfalso. apply crash_iff in E; auto. destruct E as (P & N & _). destruct G1 as [(c & A & B' & C & D & _) _].
    rewrite P, N in D. assert (K : bus l c = []) by (apply D; discriminate). rewrite Forall_forall in B. apply (B (bus l c)); auto. apply nth_In. auto.
Qed.
Lemma bits_pos : forall o, In o log_bits -> 0 < o.
Proof. intros o h. unfold log_bits in h. cbn [In] in h. lia. Qed.
Theorem logs_moved : forall l row s c j o, Forall (Forall (fun f => 0 <= f < 2 ^ 13)) l -> 1 <= row -> good l row s ->
  n_page s = PLogs -> n_backup s = Some (c, j) -> n_logop s = o -> o <> 0 ->
  let f := nth j (bus l c) 0 in
  (exists s', turn l row KDown s = Some s' /\ n_page s' = PLogs /\ n_backup s' = Some (c, j) /\ n_logop s' = hd o (filter (fun b => o <? b) (entries f))) /\
  (exists s', turn l row KUp s = Some s' /\ n_page s' = PLogs /\ n_backup s' = Some (c, j) /\ n_logop s' = List.last (filter (fun b => b <? o) (entries f)) o).
Proof.
  intros l row s c j o F R G P B O N f. pose proof G as G'. destruct G' as [(c0 & A & CL & D & REL & _ & LO & _) W]. rewrite O in LO. destruct LO as [LO|LO]; [congruence|].
  rewrite P, B in REL. assert (c = c0) by (apply REL; discriminate). subst c0.
  assert (FL : flags_of l s = Some f) by (unfold flags_of; rewrite B; auto).
  assert (FF : 0 <= f < 2 ^ 13).
  { rewrite B in D. rewrite Forall_forall in F. assert (I : In (bus l c) l) by (apply nth_In; auto). specialize (F _ I). rewrite Forall_forall in F. apply F. apply nth_In. auto. }
  assert (K : forall k o', press l row k s = Some (set_logop s o') -> In o' log_bits ->
     exists s', turn l row k s = Some s' /\ n_page s' = PLogs /\ n_backup s' = Some (c, j) /\ n_logop s' = o').
  { intros k o' E I. unfold turn. rewrite E. eexists. split; [reflexivity|]. destruct (pressed _ _ _ _ _ F R G E) as [T W1]. apply select_ok in T. apply (select_win l) in W1.
    assert (S : select l (set_logop s o') = set_logop s o') by (unfold select; cbn [set_logop n_client n_backup]; rewrite A, B; auto).
    rewrite S in *. assert (SC : n_client (set_logop s o') = Some c) by exact A.
    destruct (drawn l row _ _ T SC (win_pre_ok _ _ _ _ R W1)) as (_ & D1 & _ & _ & D2 & _ & D3).
    cbn [set_logop n_page n_backup n_logop] in D1, D2, D3. rewrite P in *. rewrite D1, D3, D2 by discriminate. split; auto. split; auto.
    rewrite show_eq. pose proof (bits_pos _ I). replace (o' =? 0) with false by lia. auto. }
  split; apply K.
  - cbn [press]. rewrite P, FL, O, down_spec by auto. auto.
  - destruct (hd_in (filter (fun b => o <? b) (entries f)) o) as [->|I]; auto. apply filter_In in I. apply (entries_in f). tauto.
  - cbn [press]. rewrite P, FL, O, up_spec by auto. auto.
  - destruct (last_in (filter (fun b => b <? o) (entries f)) o) as [->|I]; auto. apply filter_In in I. apply (entries_in f). tauto.
Qed.
