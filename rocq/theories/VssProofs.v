(* What is written when the headers of Windows files are taken away. *)
From Verif Require Import Bytes VssModel.

(* A stream of a Windows backup: its kind, its attributes, its name and its data. *)
Record stream := mkstream { st_id : Z; st_attr : Z; st_name : bytes; st_data : bytes }.
(* A number in little endian order. *)
Fixpoint unle (n : nat) (v : Z) : bytes :=
  match n with O => [] | S n => v mod 256 :: unle n (v / 256) end.
Definition len (b : bytes) : Z := Z.of_nat (List.length b).
(* How a stream is stored: 20 bytes, the name and the data. *)
Definition header (s : stream) : bytes :=
  unle 4 (st_id s) ++ unle 4 (st_attr s) ++ unle 8 (len (st_data s)) ++ unle 4 (len (st_name s)).
Definition payload (s : stream) : bytes := st_name s ++ st_data s.
Definition encode (l : list stream) : bytes := flat_map (fun s => header s ++ payload s) l.
Definition stream_ok (s : stream) : Prop :=
  0 <= st_id s < 2 ^ 32 /\ 0 <= st_attr s < 2 ^ 32 /\ len (st_data s) < 2 ^ 62 /\ len (st_name s) < 2 ^ 31.
(* The streams of kind 1 hold the data of the file. *)
Definition is_data (s : stream) : bool := st_id s =? 1.
Definition contents (l : list stream) : bytes := flat_map payload (filter is_data l).

(* write() takes at least one byte of what it is given, perhaps not all of it. *)
Definition writes (w : bytes -> bytes -> Z) : Prop :=
  forall out b, (b = [] -> w out b = 0) /\ (b <> [] -> 0 < w out b <= len b).

Lemma unle_len : forall n v, List.length (unle n v) = n.
Proof. induction n; intros; cbn; [reflexivity|]. now rewrite IHn. Qed.
Lemma le_unle : forall n v, 0 <= v < 256 ^ Z.of_nat n -> le (unle n v) = v.
Proof.
  induction n; intros v H.
  - cbn in *. lia.
  - cbn [unle]. unfold le in *. cbn [fold_right]. rewrite IHn.
    + pose proof (Z.div_mod v 256). lia.
    + rewrite Nat2Z.inj_succ, Z.pow_succ_r in H by lia.
      split; [apply Z.div_pos; lia|]. apply Z.div_lt_upper_bound; lia.
Qed.
Lemma header_len : forall s, List.length (header s) = 20%nat.
Proof. intros. unfold header. rewrite !app_length, !unle_len. reflexivity. Qed.
Lemma firstn_here : forall (a b : bytes) n, List.length a = n -> firstn n (a ++ b) = a.
Proof. intros a b n <-. rewrite firstn_app, Nat.sub_diag, firstn_all. cbn. apply app_nil_r. Qed.
Lemma skipn_here : forall (a b : bytes) n, List.length a = n -> skipn n (a ++ b) = b.
Proof. intros a b n <-. rewrite skipn_app, Nat.sub_diag, skipn_all. reflexivity. Qed.

Lemma header_id : forall s, stream_ok s -> sid_id (header s) = st_id s.
Proof.
  intros s (A & _). unfold sid_id, header. rewrite firstn_here by apply unle_len.
  apply le_unle. exact A.
Qed.
Lemma header_at : forall s, stream_ok s -> le (firstn 4 (skipn 4 (header s))) = st_attr s.
Proof.
  intros s (_ & A & _). unfold header. rewrite skipn_here by apply unle_len.
  rewrite firstn_here by apply unle_len. apply le_unle. exact A.
Qed.
Lemma header_size : forall s, stream_ok s -> le (firstn 8 (skipn 8 (header s))) = len (st_data s).
Proof.
  intros s (_ & _ & A & _). unfold header. rewrite app_assoc, skipn_here by (rewrite app_length, !unle_len; reflexivity).
  rewrite firstn_here by apply unle_len. apply le_unle. unfold len in *. lia.
Qed.
Lemma header_name : forall s, stream_ok s -> le (firstn 4 (skipn 16 (header s))) = len (st_name s).
Proof.
  intros s (_ & _ & _ & A). unfold header. rewrite !app_assoc, skipn_here by (rewrite !app_length, !unle_len; reflexivity).
  rewrite firstn_all2 by (rewrite unle_len; lia). apply le_unle. unfold len in *. lia.
Qed.
Lemma header_need : forall s, stream_ok s -> sid_len (header s) = len (payload s).
Proof.
  intros s H. unfold sid_len. rewrite (header_size s H), (header_name s H). destruct H as (_ & _ & A & B).
  unfold sgn32, payload, len in *. rewrite app_length.
  destruct (Z.ltb_spec (Z.of_nat (List.length (st_name s))) (2 ^ 31)); [|lia].
  rewrite Z.mod_small; lia.
Qed.

(* ---- one byte after another ---- *)
Definition step (s : mysid) (b : Z) : mysid * bytes :=
  if (v_needs s =? 0)%nat then (took 1 s, if sid_id (v_sid s) =? 1 then [b] else [])
  else
    let sid := v_sid s ++ [b] in
    (if (v_needs s =? 1)%nat then
       if sid_len sid =? 0 then mysid0 else mkmysid sid 0 (sid_len sid)
     else mkmysid sid (v_needs s - 1) (v_needd s), []).
Fixpoint run (s : mysid) (l : bytes) : mysid * bytes :=
  match l with
  | [] => (s, [])
  | b :: r => let '(s1, o1) := step s b in let '(s2, o2) := run s1 r in (s2, o1 ++ o2)
  end.
Lemma run_app : forall a b s, run s (a ++ b) =
  let '(s1, o1) := run s a in let '(s2, o2) := run s1 b in (s2, o1 ++ o2).
Proof.
  induction a as [|x a IH]; intros b s.
  - cbn [app run]. destruct (run s b). reflexivity.
  - cbn [app run]. destruct (step s x) as [s1 o1]. rewrite IH.
    destruct (run s1 a) as [s2 o2]. destruct (run s2 b) as [s3 o3]. now rewrite app_assoc.
Qed.

Definition inv (s : mysid) : Prop :=
  (v_needs s <> 0%nat /\ v_needd s = 0) \/ (v_needs s = 0%nat /\ 0 < v_needd s < 2 ^ 64).
(* A header of a data stream has just been completed. *)
Definition fresh (s : mysid) : bool :=
  (v_needs s =? 0)%nat && (sid_id (v_sid s) =? 1) && (v_needd s =? sid_len (v_sid s)).

Lemma sid_len_range : forall h, 0 <= sid_len h < 2 ^ 64.
Proof. intros. unfold sid_len. apply Z.mod_pos_bound. reflexivity. Qed.
Lemma inv0 : inv mysid0. Proof. left. split; [discriminate|reflexivity]. Qed.
Lemma took_inv : forall n s, inv (took n s) \/ v_needs s <> 0%nat.
Proof.
  intros n s. destruct (Nat.eq_dec (v_needs s) 0) as [E|E]; [left|right; exact E].
  unfold took. destruct (Z.eqb_spec ((v_needd s - n) mod 2 ^ 64) 0); [apply inv0|].
  right. cbn [v_needs v_needd]. split; [exact E|].
  pose proof (Z.mod_pos_bound (v_needd s - n) (2 ^ 64) eq_refl). lia.
Qed.
Lemma step_inv : forall s b, inv s -> inv (fst (step s b)).
Proof.
  intros s b H. unfold step. destruct (Nat.eqb_spec (v_needs s) 0) as [E|E].
  - cbn [fst]. destruct (took_inv 1 s); [assumption|contradiction].
  - cbn [fst]. destruct (Nat.eqb_spec (v_needs s) 1).
    + destruct (Z.eqb_spec (sid_len (v_sid s ++ [b])) 0); [apply inv0|].
      right. cbn. pose proof (sid_len_range (v_sid s ++ [b])). split; [reflexivity|lia].
    + left. cbn [v_needs v_needd]. destruct H as [[_ H]|[H _]]; [|contradiction]. split; [lia|exact H].
Qed.
Lemma run_inv : forall l s, inv s -> inv (fst (run s l)).
Proof.
  induction l as [|b l IH]; intros s H; [exact H|]. cbn [run].
  pose proof (step_inv s b H) as H1. destruct (step s b) as [s1 o1]. cbn [fst] in H1. specialize (IH s1 H1).
  destruct (run s1 l). exact IH.
Qed.

(* Collecting a header. *)
Lemma run_header : forall l s, v_needs s <> 0%nat -> (List.length l <= v_needs s)%nat ->
  run s l = (snd (take_header l s), []) \/ l = [].
Proof.
  induction l as [|b l IH]; intros s N L; [now right|]. left.
  cbn [run]. unfold step. destruct (Nat.eqb_spec (v_needs s) 0); [contradiction|].
  unfold take_header. destruct (Nat.eqb_spec (v_needs s) 0); [contradiction|].
  rewrite Nat.min_r by exact L. rewrite firstn_all. cbn [List.length] in *.
  destruct (Nat.eqb_spec (v_needs s) 1) as [E|E].
  - assert (l = []) as -> by (destruct l; [reflexivity|cbn in L; lia]).
    cbn [List.length run snd]. rewrite E. cbn [Nat.sub Nat.eqb].
    destruct (sid_len (v_sid s ++ [b]) =? 0); reflexivity.
  - destruct l as [|c l].
    + cbn [List.length run snd]. destruct (Nat.eqb_spec (v_needs s - 1) 0); [lia|reflexivity].
    + specialize (IH (mkmysid (v_sid s ++ [b]) (v_needs s - 1) (v_needd s))).
      cbn [v_needs] in IH. specialize (IH ltac:(lia) ltac:(cbn [List.length] in *; lia)).
      destruct IH as [IH|IH]; [|discriminate]. rewrite IH. cbn [app snd]. f_equal.
      unfold take_header. cbn [v_needs v_sid v_needd].
      destruct (Nat.eqb_spec (v_needs s - 1) 0); [cbn in *; lia|].
      rewrite Nat.min_r by (cbn [List.length] in *; lia). rewrite firstn_all.
      rewrite <- app_assoc. cbn [app List.length snd].
      replace (v_needs s - 1 - S (List.length l))%nat with (v_needs s - S (S (List.length l)))%nat by lia.
      reflexivity.
Qed.
(* Taking data. *)
Lemma run_data : forall l s, v_needs s = 0%nat -> 0 < v_needd s < 2 ^ 64 -> len l <= v_needd s -> l <> [] ->
  run s l = (took (len l) s, if sid_id (v_sid s) =? 1 then l else []).
Proof.
  induction l as [|b l IH]; intros s N D L X; [contradiction|]. clear X.
  unfold len in *. cbn [run List.length] in *. unfold step. rewrite N. cbn [Nat.eqb].
  destruct l as [|c l].
  - cbn [run List.length]. rewrite app_nil_r. reflexivity.
  - assert (took 1 s = mkmysid (v_sid s) 0 (v_needd s - 1)) as E.
    { unfold took. rewrite Z.mod_small by (cbn [List.length] in *; lia).
      destruct (Z.eqb_spec (v_needd s - 1) 0); [cbn [List.length] in *; lia|]. now rewrite N. }
    rewrite E. rewrite IH; cbn [v_needs v_needd v_sid]; try (cbn [List.length] in *; lia); try reflexivity; try discriminate.
    f_equal.
    + unfold took. cbn [v_needs v_needd v_sid].
      replace (v_needd s - 1 - Z.of_nat (List.length (c :: l))) with (v_needd s - Z.of_nat (S (List.length (c :: l)))) by lia.
      now rewrite N.
    + destruct (sid_id (v_sid s) =? 1); reflexivity.
Qed.
Lemma run_id : forall l s, v_needs s = 0%nat -> 0 < v_needd s -> len l < v_needd s -> v_needd s < 2 ^ 64 ->
  v_sid (fst (run s l)) = v_sid s.
Proof.
  intros l s N D L U. destruct l as [|b l]; [reflexivity|]. rewrite run_data; try lia; [|discriminate]. cbn [fst].
  unfold took. rewrite Z.mod_small by (unfold len in *; lia).
  destruct (Z.eqb_spec (v_needd s - len (b :: l)) 0); [lia|]. reflexivity.
Qed.

(* ---- one call ---- *)
Lemma len_nil : forall l, len l = 0 -> l = [].
Proof. intros [|x l] H; [reflexivity|]. unfold len in H. cbn [List.length] in H. lia. Qed.
Lemma skipn_pos : forall (buf : bytes) pos n, 0 <= pos -> skipn (Z.to_nat (pos + Z.of_nat n)) buf = skipn n (skipn (Z.to_nat pos) buf).
Proof. intros. rewrite skipn_skipn'. f_equal. lia. Qed.
Lemma skipn_len : forall (buf : bytes) pos, 0 <= pos <= len buf -> len (skipn (Z.to_nat pos) buf) = len buf - pos.
Proof. intros. unfold len in *. rewrite skipn_length. lia. Qed.

Lemma take_header_got : forall l s, fst (take_header l s) = if (v_needs s =? 0)%nat then O else Nat.min (v_needs s) (List.length l).
Proof. intros. unfold take_header. destruct (v_needs s =? 0)%nat; reflexivity. Qed.
Lemma take_header_run : forall l s, inv s -> l <> [] ->
  run s (firstn (fst (take_header l s)) l) = (snd (take_header l s), []).
Proof.
  intros l s I X. rewrite take_header_got. destruct (Nat.eqb_spec (v_needs s) 0) as [E|E].
  - cbn [firstn run]. unfold take_header. rewrite E. reflexivity.
  - set (g := Nat.min (v_needs s) (List.length l)).
    assert (List.length (firstn g l) = g) as L by (rewrite firstn_length; subst g; lia).
    destruct (run_header (firstn g l) s E) as [R|R].
    + rewrite L. subst g. lia.
    + rewrite R. f_equal. unfold take_header. destruct (Nat.eqb_spec (v_needs s) 0); [contradiction|].
      rewrite L. rewrite firstn_firstn. replace (Nat.min (v_needs s) g) with g by (subst g; lia).
      rewrite Nat.min_id. fold g. reflexivity.
    + exfalso. rewrite R in L. cbn in L. destruct l; [contradiction|]. subst g. cbn in L. lia.
Qed.

Definition ok_or_fresh (w : bytes -> bytes -> Z) (r : mysid * bytes) (moved : bool) (out : bytes) : vres :=
  if moved && fresh (fst r) then VErr (out ++ snd r) else VOk (fst r) (out ++ snd r).

Lemma took_fresh : forall n s, 0 < n <= v_needd s -> v_needd s < 2 ^ 64 -> v_needd s <= sid_len (v_sid s) -> fresh (took n s) = false.
Proof.
  intros n s A B C. unfold took. rewrite Z.mod_small by lia.
  destruct (Z.eqb_spec (v_needd s - n) 0); [reflexivity|]. unfold fresh. cbn [v_needs v_sid v_needd].
  destruct (Z.eqb_spec (v_needd s - n) (sid_len (v_sid s))); [lia|]. apply andb_false_r.
Qed.
(* Never more is needed than the header said. *)
Definition inv2 (s : mysid) : Prop := inv s /\ (v_needs s = 0%nat -> v_needd s <= sid_len (v_sid s)).
Lemma inv2_0 : inv2 mysid0. Proof. split; [apply inv0|discriminate]. Qed.
Lemma inv2_took : forall n s, inv2 s -> v_needs s = 0%nat -> 0 < n <= v_needd s -> inv2 (took n s).
Proof.
  intros n s [I J] N A. destruct I as [[I _]|[_ I]]; [contradiction|].
  unfold took. rewrite Z.mod_small by lia. destruct (Z.eqb_spec (v_needd s - n) 0); [apply inv2_0|].
  split; [right; cbn; lia|]. cbn [v_needs v_needd v_sid]. intros _. specialize (J N). lia.
Qed.
Lemma inv2_header : forall l s, inv2 s -> inv2 (snd (take_header l s)).
Proof.
  intros l s [I J]. unfold take_header. destruct (Nat.eqb_spec (v_needs s) 0); [split; assumption|].
  cbn [snd]. destruct (Nat.eqb_spec (v_needs s - Nat.min (v_needs s) (List.length l)) 0).
  - set (h := v_sid s ++ firstn (Nat.min (v_needs s) (List.length l)) l).
    destruct (Z.eqb_spec (sid_len h) 0); [apply inv2_0|].
    pose proof (sid_len_range h). split; [right; cbn; lia|]. cbn. intros _. lia.
  - split; [left|intros X; cbn in X; lia]. cbn [v_needs v_needd]. destruct I as [[_ I]|[I _]]; [|contradiction].
    split; assumption.
Qed.

Lemma loop_run : forall w, writes w -> forall fuel buf pos s out, inv2 s -> 0 <= pos <= len buf ->
  (Z.to_nat (len buf - pos) <= fuel)%nat ->
  let rest := skipn (Z.to_nat pos) buf in
  vss_loop fuel w buf pos s out = ok_or_fresh w (run s rest) (negb (pos =? len buf)) out.
Proof.
  intros w W. induction fuel as [|fuel IH]; intros buf pos s out I P F rest.
  - assert (pos = len buf) as E by lia. assert (rest = []) as R.
    { assert (len rest = 0) as R by (subst rest; rewrite skipn_len; lia). unfold len in R. destruct rest; [reflexivity|cbn in R; lia]. }
    rewrite R. cbn [vss_loop]. fold (len buf). rewrite E, Z.eqb_refl. unfold ok_or_fresh. cbn. rewrite app_nil_r. reflexivity.
  - cbn [vss_loop]. fold (len buf). fold rest.
    destruct (Z.eqb_spec pos (len buf)) as [E|E].
    { assert (rest = []) as R.
      { assert (len rest = 0) as R by (subst rest; rewrite skipn_len; lia). unfold len in R. destruct rest; [reflexivity|cbn in R; lia]. }
      rewrite R. unfold ok_or_fresh. cbn. rewrite app_nil_r. reflexivity. }
    destruct (Z.ltb_spec pos 0) as [Y|_]; [lia|].
    assert (len rest = len buf - pos) as LR by (apply skipn_len; lia).
    assert (rest <> []) as RN by (intros R; rewrite R in LR; change (len []) with 0 in LR; lia).
    pose proof (take_header_run rest s (proj1 I) RN) as TR.
    pose proof (take_header_got rest s) as TG.
    pose proof (inv2_header rest s I) as I1.
    destruct (take_header rest s) as [g s1]. cbn [fst snd] in *.
    assert (Z.of_nat g <= len rest) as GL.
    { unfold len. destruct (v_needs s =? 0)%nat; lia. }
    set (rest1 := skipn g rest).
    assert (run s rest = run s1 rest1) as RR.
    { rewrite <- (firstn_skipn g rest) at 1. rewrite run_app, TR. fold rest1. destruct (run s1 rest1); reflexivity. }
    rewrite RR.
    assert (skipn (Z.to_nat (pos + Z.of_nat g)) buf = rest1) as S1 by (unfold rest1, rest; apply skipn_pos; lia).
    assert (len rest1 = len buf - (pos + Z.of_nat g)) as L1.
    { rewrite <- S1. apply skipn_len. lia. }
    destruct (Z.eqb_spec (v_needd s1) 0) as [D|D].
    + (* no data wanted: the header is not complete or the stream is empty *)
      assert (v_needs s1 <> 0%nat) as N1 by (destruct I1 as [[[X _]|[_ X]] _]; [exact X|lia]).
      assert (0 < Z.of_nat g) as G0.
      { destruct (Nat.eqb_spec (v_needs s) 0) as [Z0|Z0].
        - subst g. cbn [firstn run] in TR. injection TR as TR. rewrite TR in Z0. contradiction.
        - rewrite TG. unfold len in *. destruct rest; [contradiction|]. cbn [List.length]. lia. }
      rewrite IH by (try exact I1; lia). rewrite S1.
      destruct (Z.eqb_spec (pos + Z.of_nat g) (len buf)) as [Q|Q]; [|reflexivity].
      assert (rest1 = []) as R1 by (apply len_nil; lia). rewrite R1.
      cbn [run]. unfold ok_or_fresh. cbn [negb andb fst snd].
      replace (fresh s1) with false; [reflexivity|]. unfold fresh. destruct (Nat.eqb_spec (v_needs s1) 0); [contradiction|reflexivity].
    + assert (v_needs s1 = 0%nat /\ 0 < v_needd s1 < 2 ^ 64) as [N1 D1].
      { destruct I1 as [[[_ X]|X] _]; [contradiction|exact X]. }
      set (got := Z.to_nat (Z.min (v_needd s1) (len buf - (pos + Z.of_nat g)))).
      rewrite S1.
      assert (Z.of_nat got = Z.min (v_needd s1) (len rest1)) as GE by (subst got; lia).
      set (b := firstn got rest1).
      assert (len b = Z.of_nat got) as LB by (unfold b, len in *; rewrite firstn_length; lia).
      destruct (Z.eqb_spec (len rest1) 0) as [Z1|Z1].
      * (* the buffer ends with the header *)
        assert (rest1 = []) as R1 by (apply len_nil; lia).
        assert (b = []) as B0 by (unfold b; rewrite R1; apply firstn_nil).
        assert (got = O) as G0 by lia.
        assert (v_needs s <> 0%nat) as NS.
        { intros X. rewrite X in TG. cbn in TG. subst g. lia. }
        assert (v_needd s1 = sid_len (v_sid s1)) as DS.
        { assert (s1 = snd (take_header rest s)) as ->.
          { destruct (run_header (firstn g rest) s NS) as [Q|Q].
            - rewrite firstn_length, TG. destruct (Nat.eqb_spec (v_needs s) 0); lia.
            - rewrite Q in TR. injection TR as TR. rewrite <- TR.
              f_equal. f_equal. apply firstn_all2. unfold len in *. lia.
            - exfalso. assert (List.length (firstn g rest) = 0%nat) as Q1 by (rewrite Q; reflexivity).
              rewrite firstn_length in Q1. unfold len in *. lia. }
          unfold take_header in *. destruct (Nat.eqb_spec (v_needs s) 0); [contradiction|]. cbn [snd] in *.
          match goal with |- context [if ?c then _ else _] => destruct c eqn:C1 end.
          - match goal with |- context [if ?c then _ else _] => destruct c eqn:C2 end; reflexivity.
          - exfalso. cbn [v_needs] in N1. apply Nat.eqb_neq in C1. contradiction. }
        destruct (Z.eqb_spec (sid_id (v_sid s1)) 1) as [ID|ID].
        -- rewrite B0. rewrite (proj1 (W out []) eq_refl). cbn [Z.eqb].
           rewrite R1. cbn [run]. unfold ok_or_fresh. cbn [negb andb fst snd].
           assert (fresh s1 = true) as -> by (unfold fresh; rewrite N1, ID, DS, !Z.eqb_refl; reflexivity).
           rewrite app_nil_r. reflexivity.
        -- rewrite G0. cbn [Z.of_nat].
           assert (took 0 s1 = s1) as T0.
           { unfold took. rewrite Z.sub_0_r, Z.mod_small by lia. destruct (Z.eqb_spec (v_needd s1) 0); [lia|]. destruct s1; reflexivity. }
           rewrite T0. rewrite Z.add_0_r. rewrite IH by (try exact I1; lia). rewrite S1, R1. cbn [run].
           destruct (Z.eqb_spec (pos + Z.of_nat g) (len buf)) as [Q|Q]; [|lia].
           unfold ok_or_fresh. cbn [negb andb fst snd].
           assert (fresh s1 = false) as ->; [|reflexivity].
           unfold fresh. destruct (Z.eqb_spec (sid_id (v_sid s1)) 1); [contradiction|]. now rewrite andb_false_r.
      * assert (b <> []) as BN by (intros X; rewrite X in LB; change (len []) with 0 in LB; lia).
        assert (forall n, 0 < n <= len b ->
          let a := firstn (Z.to_nat n) b in
          len a = n /\ run s1 rest1 = (let '(s2, o2) := run (took n s1) (skipn (Z.to_nat n) rest1) in
                            (s2, (if sid_id (v_sid s1) =? 1 then a else []) ++ o2))) as STEP.
        { intros n A a. assert (a = firstn (Z.to_nat n) rest1) as EA.
          { unfold a, b. rewrite firstn_firstn. f_equal. unfold len in *. lia. }
          assert (len a = n) as LA by (unfold a, len in *; rewrite firstn_length; lia).
          split; [exact LA|].
          transitivity (run s1 (a ++ skipn (Z.to_nat n) rest1)); [rewrite EA, firstn_skipn; reflexivity|].
          rewrite run_app, (run_data a s1 N1 D1).
          - rewrite LA. destruct (sid_id (v_sid s1) =? 1); destruct (run (took n s1) (skipn (Z.to_nat n) rest1)); reflexivity.
          - lia.
          - intros X. rewrite X in LA. change (len []) with 0 in LA. lia. }
        assert (forall n o, 0 < n <= len b ->
          vss_loop fuel w buf (pos + Z.of_nat g + n) (took n s1) o =
          ok_or_fresh w (run (took n s1) (skipn (Z.to_nat n) rest1)) true o) as NEXT.
        { intros n o A. rewrite IH.
          - assert (skipn (Z.to_nat (pos + Z.of_nat g + n)) buf = skipn (Z.to_nat n) rest1) as ->.
            { rewrite <- S1, skipn_skipn'. f_equal. lia. }
            destruct (Z.eqb_spec (pos + Z.of_nat g + n) (len buf)) as [Q|Q]; [|reflexivity].
            assert (skipn (Z.to_nat n) rest1 = []) as ->.
            { apply skipn_all2. unfold len in *. lia. }
            cbn [run]. unfold ok_or_fresh. cbn [negb andb fst snd].
            rewrite took_fresh; [reflexivity|lia|lia|]. apply (proj2 I1). exact N1.
          - apply inv2_took; [exact I1|exact N1|lia].
          - lia.
          - lia. }
        destruct (Z.eqb_spec (sid_id (v_sid s1)) 1) as [ID|ID].
        -- pose proof (proj2 (W out b) BN) as WB.
           destruct (Z.eqb_spec (w out b) 0); [lia|]. destruct (Z.ltb_spec (w out b) 0); [lia|].
           rewrite NEXT by exact WB. destruct (STEP (w out b) WB) as [_ ST]. rewrite ST.
           destruct (run (took (w out b) s1) (skipn (Z.to_nat (w out b)) rest1)) as [s2 o2].
           unfold ok_or_fresh. cbn [negb andb fst snd]. rewrite <- app_assoc. reflexivity.
        -- rewrite NEXT by lia. destruct (STEP (Z.of_nat got) ltac:(lia)) as [_ ST]. rewrite ST.
           destruct (run (took (Z.of_nat got) s1) (skipn (Z.to_nat (Z.of_nat got)) rest1)) as [s2 o2].
           reflexivity.
Qed.
