(* Whole files, and the vss_strip program. *)
From Verif Require Import Bytes VssModel VssProofs.

Lemma write_run : forall w, writes w -> forall fuel b s out, inv2 s -> b <> [] -> (List.length b <= fuel)%nat ->
  vss_write fuel w b s out = if fresh (fst (run s b)) then VErr (out ++ snd (run s b)) else VOk (fst (run s b)) (out ++ snd (run s b)).
Proof.
  intros w W fuel b s out I N F. unfold vss_write. rewrite loop_run; try assumption.
  - cbn [Z.to_nat skipn]. destruct (Z.eqb_spec 0 (len b)) as [E|E]; [exfalso; apply N; apply len_nil; lia|reflexivity].
  - unfold len. lia.
  - unfold len. lia.
Qed.
Lemma step_inv2 : forall s b, inv2 s -> inv2 (fst (step s b)).
Proof.
  intros s b I. split; [apply step_inv; apply I|].
  unfold step. destruct (Nat.eqb_spec (v_needs s) 0) as [E|E]; cbn [fst].
  - apply inv2_took; [exact I|exact E|]. destruct I as [[[X _]|[_ X]] _]; [contradiction|lia].
  - destruct (Nat.eqb_spec (v_needs s) 1).
    + destruct (sid_len (v_sid s ++ [b]) =? 0); [discriminate|]. cbn. lia.
    + cbn [v_needs]. lia.
Qed.
Lemma run_inv2 : forall l s, inv2 s -> inv2 (fst (run s l)).
Proof.
  induction l as [|b l IH]; intros s H; [exact H|]. cbn [run].
  pose proof (step_inv2 s b H) as H1. destruct (step s b) as [s1 o1]. cbn [fst] in H1. specialize (IH s1 H1).
  destruct (run s1 l). exact IH.
Qed.

Definition buffers (fuel : nat) (l : list bytes) : Prop := Forall (fun b => b <> [] /\ (List.length b <= fuel)%nat) l.

Lemma restore_run : forall w, writes w -> forall fuel l s out, buffers fuel l -> inv2 s ->
  (forall a b, l = a ++ b -> a <> [] -> fresh (fst (run s (concat a))) = false) ->
  vss_restore fuel w l s out = VOk (fst (run s (concat l))) (out ++ snd (run s (concat l))).
Proof.
  intros w W fuel. induction l as [|b l IH]; intros s out B I H.
  - cbn. rewrite app_nil_r. reflexivity.
  - inversion B as [|x y [B1 B2] B3]; subst. cbn [vss_restore].
    destruct b as [|x b]; [contradiction|]. rewrite (write_run w W fuel (x :: b) s out I B1 B2).
    pose proof (H [x :: b] l eq_refl ltac:(discriminate)) as H1. cbn [concat] in H1. rewrite app_nil_r in H1. rewrite H1.
    rewrite IH.
    + cbn [concat]. rewrite run_app. destruct (run s (x :: b)) as [s1 o1]. cbn [fst snd].
      destruct (run s1 (concat l)) as [s2 o2]. cbn [fst snd]. rewrite <- app_assoc. reflexivity.
    + exact B3.
    + apply run_inv2. exact I.
    + intros a c E N. specialize (H ((x :: b) :: a) c). rewrite E in H. specialize (H eq_refl ltac:(discriminate)).
      cbn [concat] in H. rewrite run_app in H. destruct (run s (x :: b)) as [s1 o1]. cbn [fst].
      destruct (run s1 (concat a)). exact H.
Qed.
Lemma restore_bad : forall w, writes w -> forall fuel a b s out, buffers fuel (a ++ b) -> inv2 s -> a <> [] ->
  fresh (fst (run s (concat a))) = true -> exists o, vss_restore fuel w (a ++ b) s out = VErr o.
Proof.
  intros w W fuel. induction a as [|c a IH]; intros b s out B I N H; [contradiction|]. clear N.
  cbn [app] in *. inversion B as [|x y [B1 B2] B3]; subst. cbn [vss_restore].
  destruct c as [|x c]; [contradiction|]. rewrite (write_run w W fuel (x :: c) s out I B1 B2).
  destruct (fresh (fst (run s (x :: c)))) eqn:E; [eexists; reflexivity|].
  destruct a as [|d a].
  - cbn [concat] in H. rewrite app_nil_r, E in H. discriminate.
  - apply IH; try assumption; [apply run_inv2; exact I|discriminate|].
    cbn [concat] in H |- *. rewrite run_app in H. destruct (run s (x :: c)) as [s1 o1]. cbn [fst].
    destruct (run s1 (d ++ concat a)). exact H.
Qed.
Lemma restore_ok : forall w, writes w -> forall fuel l s out s' o', buffers fuel l -> inv2 s ->
  vss_restore fuel w l s out = VOk s' o' -> s' = fst (run s (concat l)) /\ o' = out ++ snd (run s (concat l)).
Proof.
  intros w W fuel l s out s' o' B I R.
  assert (forall a b, l = a ++ b -> a <> [] -> fresh (fst (run s (concat a))) = false) as H.
  { intros a b E N. destruct (fresh (fst (run s (concat a)))) eqn:F; [|reflexivity]. exfalso. subst l.
    destruct (restore_bad w W fuel a b s out B I N F) as [o Q]. rewrite Q in R. discriminate. }
  rewrite (restore_run w W fuel l s out B I H) in R. injection R as <- <-. split; reflexivity.
Qed.

(* ---- streams ---- *)
Lemma run_hdr : forall s, stream_ok s -> run mysid0 (header s) =
  (if len (payload s) =? 0 then mysid0 else mkmysid (header s) 0 (len (payload s)), []).
Proof.
  intros s K. destruct (run_header (header s) mysid0) as [R|R].
  - discriminate.
  - rewrite header_len. apply Nat.le_refl.
  - rewrite R. f_equal. unfold take_header. cbn [v_needs mysid0 bsidsize Nat.eqb v_sid v_needd].
    rewrite header_len. change (Nat.min 20 20) with 20%nat. change (20 - 20)%nat with 0%nat. cbn [Nat.eqb snd app].
    rewrite firstn_all2 by (rewrite header_len; apply Nat.le_refl). rewrite (header_need s K). reflexivity.
  - exfalso. pose proof (header_len s). rewrite R in H. discriminate.
Qed.
Lemma payload_range : forall s, stream_ok s -> 0 <= len (payload s) < 2 ^ 63.
Proof. intros s (_ & _ & A & B). unfold payload, len in *. rewrite app_length. lia. Qed.

Lemma run_part : forall s p, stream_ok s -> p <> [] -> len p <= len (payload s) ->
  run mysid0 (header s ++ p) = (took (len p) (mkmysid (header s) 0 (len (payload s))), if is_data s then p else []).
Proof.
  intros s p K N L. rewrite run_app, (run_hdr s K). pose proof (payload_range s K) as PR.
  destruct (Z.eqb_spec (len (payload s)) 0) as [E|E].
  - exfalso. apply N. apply len_nil. unfold len in *. lia.
  - rewrite run_data; [|reflexivity|cbn; lia|exact L|exact N]. cbn [v_sid app].
    rewrite (header_id s K). reflexivity.
Qed.
Lemma run_stream : forall s, stream_ok s -> run mysid0 (header s ++ payload s) = (mysid0, if is_data s then payload s else []).
Proof.
  intros s K. destruct (payload s) as [|x p] eqn:E.
  - rewrite app_nil_r, (run_hdr s K), E. cbn. destruct (is_data s); reflexivity.
  - rewrite <- E. rewrite run_part; [|exact K|rewrite E; discriminate|lia].
    f_equal. unfold took. cbn [v_needd]. rewrite Z.sub_diag. reflexivity.
Qed.
Lemma run_encode : forall l, Forall stream_ok l -> run mysid0 (encode l) = (mysid0, contents l).
Proof.
  induction l as [|s l IH]; intros K; [reflexivity|]. inversion K; subst.
  unfold encode in *. cbn [flat_map]. rewrite run_app, run_stream by assumption. rewrite IH by assumption.
  unfold contents. cbn [filter]. destruct (is_data s); reflexivity.
Qed.

(* A cut right behind the header of a data stream that is not empty. *)
Definition bad_cut (l : list stream) (p : bytes) : Prop :=
  exists l1 s l2, l = l1 ++ s :: l2 /\ st_id s = 1 /\ payload s <> [] /\ p = encode l1 ++ header s.

Lemma bad_cut_fresh : forall l p, Forall stream_ok l -> bad_cut l p -> fresh (fst (run mysid0 p)) = true.
Proof.
  intros l p K (l1 & s & l2 & -> & ID & N & ->). apply Forall_app in K. destruct K as [K1 K2]. inversion K2; subst.
  rewrite run_app, run_encode by assumption. rewrite run_hdr by assumption.
  destruct (Z.eqb_spec (len (payload s)) 0) as [E|E]; [exfalso; apply N; apply len_nil; exact E|].
  unfold fresh. cbn [fst v_needs v_sid v_needd Nat.eqb andb].
  rewrite header_id, header_need, ID, !Z.eqb_refl by assumption. reflexivity.
Qed.

Lemma app_split : forall (a b c d : bytes), a ++ b = c ++ d -> (List.length a <= List.length c)%nat ->
  exists m, c = a ++ m /\ b = m ++ d.
Proof.
  induction a as [|x a IH]; intros b c d E L; [exists c; split; [reflexivity|exact E]|].
  destruct c as [|y c]; [cbn in L; lia|]. cbn in E. injection E as <- E. cbn in L.
  destruct (IH b c d E ltac:(lia)) as (m & -> & ->). exists m. split; reflexivity.
Qed.

Lemma header_part : forall h q, (List.length q < 20)%nat -> q <> [] -> h = fst (run mysid0 q) -> fresh h = false.
Proof.
  intros h q L N ->. destruct (run_header q mysid0) as [R|R]; [discriminate|change (v_needs mysid0) with 20%nat; lia| |contradiction].
  rewrite R. cbn [fst]. unfold take_header. change (v_needs mysid0) with 20%nat. cbn [snd v_sid v_needd].
  destruct (Nat.eqb_spec 20 0) as [E|_]; [discriminate|]. cbn [snd]. rewrite Nat.min_r by lia. destruct (Nat.eqb_spec (20 - List.length q) 0) as [E|E]; [lia|].
  unfold fresh. cbn [v_needs]. destruct (Nat.eqb_spec (20 - List.length q) 0); [lia|reflexivity].
Qed.

Lemma fresh_bad_cut : forall l p q, Forall stream_ok l -> p ++ q = encode l -> fresh (fst (run mysid0 p)) = true -> bad_cut l p.
Proof.
  induction l as [|s l IH]; intros p q K E F.
  - unfold encode in E. cbn in E. apply app_eq_nil in E. destruct E as [-> _]. cbn in F. discriminate.
  - inversion K as [|x y K1 K2]; subst. unfold encode in E. cbn [flat_map] in E. fold (encode l) in E.
    destruct (le_lt_dec (List.length (header s ++ payload s)) (List.length p)) as [G|G].
    + symmetry in E. destruct (app_split _ _ _ _ E G) as (m & -> & E2).
      rewrite run_app, run_stream in F by assumption.
      assert (fresh (fst (run mysid0 m)) = true) as F1 by (destruct (run mysid0 m); exact F).
      destruct (IH m q K2 (eq_sym E2) F1) as (l1 & t & l2 & -> & ID & N & ->).
      exists (s :: l1), t, l2. repeat split; try assumption. unfold encode. cbn [flat_map]. rewrite <- !app_assoc. reflexivity.
    + destruct (le_lt_dec 20 (List.length p)) as [H|H].
      * rewrite <- app_assoc in E. symmetry in E.
        destruct (app_split (header s) _ p q E) as (m & -> & E2); [rewrite header_len; lia|].
        rewrite !app_length in G.
        destruct m as [|x m].
        -- rewrite app_nil_r in F |- *. rewrite run_hdr in F by assumption.
           destruct (Z.eqb_spec (len (payload s)) 0) as [Z0|Z0]; [cbn in F; discriminate|].
           exists [], s, l. repeat split.
           ++ unfold fresh in F. cbn [fst v_sid v_needs v_needd] in F. rewrite header_id in F by assumption.
              apply andb_true_iff in F. destruct F as [F _]. apply andb_true_iff in F. destruct F as [_ F]. now apply Z.eqb_eq.
           ++ intros X. rewrite X in Z0. apply Z0. reflexivity.
        -- exfalso. rewrite run_part in F; [|assumption|discriminate|unfold len; lia]. cbn [fst] in F.
           rewrite took_fresh in F; [discriminate|cbn [v_needd]; unfold len; cbn [List.length] in *; lia| |].
           ++ cbn [v_needd]. pose proof (payload_range s K1). lia.
           ++ cbn [v_needd v_sid]. rewrite header_need by assumption. lia.
      * exfalso. destruct p as [|x p]; [cbn in F; discriminate|].
        rewrite (header_part _ (x :: p) H ltac:(discriminate) eq_refl) in F. discriminate.
Qed.

Theorem stripped : forall w fuel l cs, writes w -> Forall stream_ok l -> buffers fuel cs -> concat cs = encode l ->
  (forall a b, cs = a ++ b -> ~ bad_cut l (concat a)) ->
  vss_restore fuel w cs mysid0 [] = VOk mysid0 (contents l).
Proof.
  intros w fuel l cs W K B E H. rewrite restore_run; try assumption.
  - rewrite E, run_encode by assumption. reflexivity.
  - apply inv2_0.
  - intros a b X N. destruct (fresh (fst (run mysid0 (concat a)))) eqn:F; [|reflexivity]. exfalso. apply (H a b X).
    apply (fresh_bad_cut l (concat a) (concat b)); try assumption. rewrite <- E, X, concat_app. reflexivity.
Qed.
Theorem stripped_bad : forall w fuel l a b, writes w -> Forall stream_ok l -> buffers fuel (a ++ b) ->
  bad_cut l (concat a) -> exists o, vss_restore fuel w (a ++ b) mysid0 [] = VErr o.
Proof.
  intros w fuel l a b W K B H. apply restore_bad; try assumption.
  - apply inv2_0.
  - intros ->. destruct H as (l1 & s & l2 & _ & _ & _ & X).
    apply (f_equal (@List.length Z)) in X. rewrite app_length, header_len in X. change (List.length (concat (@nil bytes))) with 0%nat in X. lia.
  - apply (bad_cut_fresh l); assumption.
Qed.
Theorem any_chunks : forall w fuel c1 c2 s1 s2 o1 o2, writes w -> buffers fuel c1 -> buffers fuel c2 -> concat c1 = concat c2 ->
  vss_restore fuel w c1 mysid0 [] = VOk s1 o1 -> vss_restore fuel w c2 mysid0 [] = VOk s2 o2 -> o1 = o2.
Proof.
  intros w fuel c1 c2 s1 s2 o1 o2 W B1 B2 E R1 R2.
  destruct (restore_ok w W fuel c1 _ _ _ _ B1 inv2_0 R1) as [_ ->].
  destruct (restore_ok w W fuel c2 _ _ _ _ B2 inv2_0 R2) as [_ ->]. now rewrite E.
Qed.

(* ---- writing fails ---- *)
Definition fails (w : bytes -> bytes -> Z) : Prop := forall out b, b <> [] -> w out b = -1.

Lemma back : forall w, fails w -> forall p fuel buf s out, (p < List.length buf)%nat -> (p < fuel)%nat ->
  v_needs s = 0%nat -> sid_id (v_sid s) = 1 -> 0 < v_needd s -> v_needd s + Z.of_nat p + 1 < 2 ^ 64 ->
  vss_loop fuel w buf (Z.of_nat p) s out = VUB.
Proof.
  intros w W. induction p as [|p IH]; intros fuel buf s out L F N ID D U;
    (destruct fuel as [|fuel]; [lia|]); cbn [vss_loop];
    (match goal with |- context [Z.eqb ?a ?b] => destruct (Z.eqb_spec a b) as [E|E] end; [lia|]);
    (match goal with |- context [Z.ltb ?a ?b] => destruct (Z.ltb_spec a b) as [E2|_] end; [lia|]);
    unfold take_header; rewrite N; cbn [Nat.eqb]; rewrite Z.add_0_r;
    (destruct (Z.eqb_spec (v_needd s) 0) as [E3|_]; [lia|]); rewrite ID, Z.eqb_refl.
  - set (b := firstn _ _). assert (b <> []) as BN.
    { intros X. assert (List.length b = 0%nat) as Y by (rewrite X; reflexivity). subst b.
      rewrite firstn_length, skipn_length in Y. lia. }
    rewrite (W out b BN). cbn [Z.eqb Z.ltb Z.compare].
    destruct fuel as [|fuel]; cbn [vss_loop];
      (match goal with |- context [Z.eqb ?a ?b] => destruct (Z.eqb_spec a b) as [E4|_] end; [lia|]);
      (match goal with |- context [Z.ltb ?a ?b] => destruct (Z.ltb_spec a b) as [_|E4] end; [reflexivity|lia]).
  - set (b := firstn _ _). assert (b <> []) as BN.
    { intros X. assert (List.length b = 0%nat) as Y by (rewrite X; reflexivity). subst b.
      rewrite firstn_length, skipn_length in Y. lia. }
    rewrite (W out b BN). cbn [Z.eqb Z.ltb Z.compare].
    replace (Z.of_nat (S p) - 1) with (Z.of_nat p) by lia.
    assert (took (2 ^ 64 - 1) s = mkmysid (v_sid s) 0 (v_needd s + 1)) as ->.
    { unfold took. replace (v_needd s - (2 ^ 64 - 1)) with (v_needd s + 1 + (-1) * 2 ^ 64) by lia.
      rewrite Z.mod_add by discriminate. rewrite Z.mod_small by lia.
      destruct (Z.eqb_spec (v_needd s + 1) 0); [lia|]. now rewrite N. }
    apply IH; cbn [v_needs v_needd v_sid]; try lia; assumption || reflexivity.
Qed.
Theorem error_unnoticed : forall w s x r fuel, fails w -> stream_ok s -> st_id s = 1 -> payload s <> [] ->
  (21 < fuel)%nat -> vss_write fuel w (header s ++ x :: r) mysid0 [] = VUB.
Proof.
  intros w s x r fuel W K ID N F. destruct fuel as [|fuel]; [lia|]. unfold vss_write. cbn [vss_loop].
  pose proof (header_len s) as HL.
  destruct (Z.eqb_spec 0 (Z.of_nat (List.length (header s ++ x :: r)))) as [E|_]; [rewrite app_length in E; lia|].
  destruct (Z.ltb_spec 0 0) as [E|_]; [lia|]. change (skipn (Z.to_nat 0) (header s ++ x :: r)) with (header s ++ x :: r).
  pose proof (payload_range s K) as PR.
  assert (len (payload s) <> 0) as PN by (intros Y; apply N; apply len_nil; exact Y).
  assert (take_header (header s ++ x :: r) mysid0 = (20%nat, mkmysid (header s) 0 (len (payload s)))) as ->.
  { unfold take_header. cbn [v_needs mysid0]. destruct (Nat.eqb_spec bsidsize 0) as [Y|_]; [discriminate|].
    assert (Nat.min bsidsize (List.length (header s ++ x :: r)) = 20%nat) as ->.
    { rewrite app_length, HL. unfold bsidsize. cbn [List.length]. lia. }
    rewrite (firstn_here (header s) (x :: r) 20 HL). change (v_sid mysid0 ++ header s) with (header s). change (bsidsize - 20)%nat with 0%nat. cbn [Nat.eqb].
    rewrite (header_need s K). destruct (Z.eqb_spec (len (payload s)) 0); [contradiction|reflexivity]. }
  cbn [v_needd v_sid]. destruct (Z.eqb_spec (len (payload s)) 0); [contradiction|].
  rewrite (header_id s K), ID. change (1 =? 1) with true. cbv iota.
  change (0 + Z.of_nat 20) with 20. change (Z.to_nat 20) with 20%nat. rewrite (skipn_here (header s) (x :: r) 20 HL).
  rewrite W.
  - cbn [Z.eqb Z.ltb Z.compare]. replace (20 - 1) with (Z.of_nat 19) by reflexivity.
    assert (took (2 ^ 64 - 1) (mkmysid (header s) 0 (len (payload s))) = mkmysid (header s) 0 (len (payload s) + 1)) as ->.
    { unfold took. cbn [v_needd v_sid v_needs]. replace (len (payload s) - (2 ^ 64 - 1)) with (len (payload s) + 1 + (-1) * 2 ^ 64) by lia.
      rewrite Z.mod_add by discriminate. rewrite Z.mod_small by lia.
      destruct (Z.eqb_spec (len (payload s) + 1) 0); [lia|]. reflexivity. }
    apply back; cbn [v_needs v_needd v_sid]; try assumption; try reflexivity; try lia.
    + rewrite app_length. lia.
    + rewrite (header_id s K). exact ID.
  - intros X. apply (f_equal (@List.length Z)) in X. rewrite firstn_length, app_length in X. cbn [List.length] in X. lia.
Qed.

(* ---- vss_strip ---- *)
(* fwrite() takes everything. *)
Definition fwrites (w : bytes -> bytes -> Z) : Prop := forall out b, w out b = len b.

Lemma ensure_write_all : forall w b out, fwrites w -> b <> [] -> ensure_write (S (List.length b)) w b (List.length b) out = (true, out ++ b).
Proof.
  intros w b out W N. cbn [ensure_write]. rewrite firstn_all, W. unfold len.
  destruct (Z.leb_spec (Z.of_nat (List.length b)) 0) as [E|E]; [destruct b; [contradiction|cbn [List.length] in E; lia]|].
  rewrite Nat2Z.id, Nat.sub_diag, firstn_all. reflexivity.
Qed.
Lemma extract_all : forall w, fwrites w -> forall fuel inp s out, (List.length inp < fuel)%nat -> 0 <= s ->
  extract_data fuel w inp s out = (s <=? len inp, out ++ firstn (Z.to_nat s) inp).
Proof.
  intros w W. induction fuel as [|fuel IH]; intros inp s out F S; [lia|]. cbn [extract_data].
  set (n := Z.to_nat (Z.min (Z.of_nat stripbuf) s)).
  assert (0 < stripbuf)%nat as SB by (unfold stripbuf; lia).
  pose proof (firstn_length n inp) as LB. set (b := firstn n inp) in *.
  assert (firstn (Z.to_nat s) inp = b ++ firstn (Z.to_nat s - List.length b) (skipn (List.length b) inp)) as SPLIT.
  { assert (b = firstn (List.length b) inp) as EB.
    { rewrite LB. destruct (le_lt_dec n (List.length inp)) as [Q|Q].
      - rewrite Nat.min_l by exact Q. reflexivity.
      - rewrite Nat.min_r by lia. subst b. rewrite !firstn_all2 by lia. reflexivity. }
    rewrite EB at 1. rewrite <- (firstn_skipn (List.length b) inp) at 1. rewrite firstn_app.
    rewrite firstn_firstn, firstn_length.
    replace (Nat.min (Z.to_nat s) (List.length b)) with (List.length b) by lia.
    replace (Nat.min (List.length b) (List.length inp)) with (List.length b) by lia. reflexivity. }
  destruct b as [|x b'] eqn:EB.
  - cbn [List.length] in LB. destruct inp as [|y inp].
    + rewrite firstn_nil, app_nil_r. f_equal. unfold len. cbn [List.length Z.of_nat].
      destruct (Z.eqb_spec s 0), (Z.leb_spec s 0); lia || reflexivity.
    + cbn [List.length] in LB. assert (s = 0) as -> by lia. cbn [firstn Z.to_nat]. rewrite app_nil_r. reflexivity.
  - rewrite <- EB in *. rewrite ensure_write_all; [|exact W|rewrite EB; discriminate].
    assert (0 < List.length b)%nat as BP by (rewrite EB; cbn [List.length]; lia).
    rewrite SPLIT.
    destruct (Z.leb_spec (s - Z.of_nat (List.length b)) 0) as [Q|Q].
    + replace (Z.to_nat s - List.length b)%nat with 0%nat by lia. cbn [firstn]. rewrite app_nil_r. f_equal.
      unfold len. destruct (Z.leb_spec s (Z.of_nat (List.length inp))); [reflexivity|lia].
    + rewrite IH; [|rewrite skipn_length; lia|lia]. rewrite <- app_assoc. f_equal.
      * unfold len. rewrite skipn_length. destruct (Z.leb_spec (s - Z.of_nat (List.length b)) (Z.of_nat (List.length inp - List.length b))),
          (Z.leb_spec s (Z.of_nat (List.length inp))); lia || reflexivity.
      * f_equal. f_equal. f_equal. lia.
Qed.

Lemma read_header : forall s r, ensure_read (header s ++ r) = Some (header s, r).
Proof.
  intros. unfold ensure_read. pose proof (header_len s) as H.
  destruct (Nat.ltb_spec (List.length (header s ++ r)) bsidsize) as [E|E].
  - rewrite app_length, H in E. unfold bsidsize in E. lia.
  - rewrite (firstn_here (header s) r bsidsize H), (skipn_here (header s) r bsidsize H). reflexivity.
Qed.
Lemma skip_stream : forall s r, stream_ok s -> skip_data (payload s ++ r) (sid_len (header s)) = Some r.
Proof.
  intros s r K. unfold skip_data. rewrite (header_need s K). unfold len.
  destruct (Z.ltb_spec (Z.of_nat (List.length (payload s ++ r))) (Z.of_nat (List.length (payload s)))) as [E|E]; [rewrite app_length in E; lia|].
  rewrite Nat2Z.id, skipn_here; reflexivity.
Qed.
Lemma main_skip : forall w l tail fuel, Forall stream_ok l -> filter is_data l = [] ->
  (List.length (encode l ++ tail) < fuel)%nat ->
  exists f, (List.length tail < f)%nat /\ main_work fuel w (encode l ++ tail) = main_work f w tail.
Proof.
  intros w. induction l as [|s l IH]; intros tail fuel K D F.
  - exists fuel. split; [exact F|reflexivity].
  - inversion K; subst. cbn [filter] in D. destruct (is_data s) eqn:ID; [discriminate|].
    destruct fuel as [|fuel]; [lia|]. unfold encode in *. cbn [flat_map] in *. rewrite <- !app_assoc in *.
    rewrite app_length, header_len in F. rewrite !app_length in F.
    destruct (IH tail fuel) as (f & F1 & E); try assumption; [rewrite app_length; lia|].
    exists f. split; [exact F1|]. rewrite <- E. cbn [main_work]. rewrite read_header, header_id by assumption.
    unfold is_data in ID. rewrite ID, skip_stream by assumption. reflexivity.
Qed.
Theorem strip_first : forall w l1 s tail, fwrites w -> Forall stream_ok l1 -> stream_ok s -> filter is_data l1 = [] -> st_id s = 1 ->
  vss_strip w (encode l1 ++ header s ++ payload s ++ tail) = (true, payload s).
Proof.
  intros w l1 s tail W K1 K D ID. unfold vss_strip.
  destruct (main_skip w l1 (header s ++ payload s ++ tail) (S (List.length (encode l1 ++ header s ++ payload s ++ tail))) K1 D ltac:(lia)) as (f & F & E).
  rewrite E. destruct f as [|f]; [lia|]. cbn [main_work]. rewrite read_header, header_id, ID by assumption. change (1 =? 1) with true. cbv iota.
  rewrite extract_all; [|exact W|lia|rewrite header_need by assumption; unfold len; lia].
  rewrite header_need by assumption. unfold len. rewrite app_length, Nat2Z.id, (firstn_here (payload s) tail _ eq_refl).
  destruct (Z.leb_spec (Z.of_nat (List.length (payload s))) (Z.of_nat (List.length (payload s) + List.length tail))); [reflexivity|lia].
Qed.
Theorem strip_none : forall w l tail, Forall stream_ok l -> filter is_data l = [] -> (List.length tail < 20)%nat ->
  vss_strip w (encode l ++ tail) = (true, []).
Proof.
  intros w l tail K D T. unfold vss_strip. destruct (main_skip w l tail _ K D (Nat.lt_succ_diag_r _)) as (f & F & E). rewrite E.
  destruct f as [|f]; [lia|]. cbn [main_work]. unfold ensure_read.
  destruct (Nat.ltb_spec (List.length tail) bsidsize) as [Q|Q]; [reflexivity|unfold bsidsize in Q; lia].
Qed.
Theorem strip_cut : forall w l1 s p q, fwrites w -> Forall stream_ok l1 -> stream_ok s -> filter is_data l1 = [] ->
  payload s = p ++ q -> q <> [] ->
  vss_strip w (encode l1 ++ header s ++ p) = (false, if st_id s =? 1 then p else []).
Proof.
  intros w l1 s p q W K1 K D P Q. unfold vss_strip.
  destruct (main_skip w l1 (header s ++ p) _ K1 D (Nat.lt_succ_diag_r _)) as (f & F & E). rewrite E.
  destruct f as [|f]; [lia|]. cbn [main_work]. rewrite read_header, header_id by assumption.
  assert (len p < len (payload s)) as L.
  { rewrite P. unfold len. rewrite app_length. destruct q; [contradiction|]. cbn [List.length]. lia. }
  destruct (Z.eqb_spec (st_id s) 1) as [ID|ID].
  - rewrite extract_all; [|exact W|lia|rewrite header_need by assumption; unfold len; lia].
    rewrite header_need by assumption. destruct (Z.leb_spec (len (payload s)) (len p)); [lia|].
    rewrite firstn_all2 by (unfold len in *; lia). reflexivity.
  - unfold skip_data. rewrite header_need by assumption. fold (len p). destruct (Z.ltb_spec (len p) (len (payload s))); [reflexivity|lia].
Qed.
Lemma dump_list : forall l, Forall stream_ok l -> forall tail fuel, (List.length tail < 20)%nat -> (List.length (encode l ++ tail) < fuel)%nat ->
  dump_headers fuel (encode l ++ tail) =
  (true, map (fun s => (sgn32 (st_id s), sgn32 (st_attr s), len (st_data s), len (st_name s))) l).
Proof.
  induction l as [|s l IH]; intros K tail fuel T F.
  - destruct fuel as [|fuel]; [lia|]. unfold encode. cbn [flat_map app map dump_headers]. unfold ensure_read.
    destruct (Nat.ltb_spec (List.length tail) bsidsize) as [Q|Q]; [reflexivity|unfold bsidsize in Q; lia].
  - inversion K as [|x y K1 K2]; subst. destruct fuel as [|fuel]; [lia|]. unfold encode in *. cbn [flat_map] in *. rewrite <- !app_assoc in *.
    rewrite app_length, header_len in F. rewrite !app_length in F.
    cbn [dump_headers]. rewrite read_header, skip_stream by assumption. rewrite IH; [|assumption|assumption|rewrite app_length; lia].
    cbn [map]. f_equal. f_equal. unfold dump_sid.
    rewrite (header_at s K1), (header_size s K1), (header_name s K1). pose proof (header_id s K1) as HI. unfold sid_id in HI. rewrite HI.
    destruct K1 as (_ & _ & A & B).
    destruct (Z.ltb_spec (len (st_data s)) (2 ^ 63)); [|lia]. f_equal. unfold sgn32 at 1.
    destruct (Z.ltb_spec (len (st_name s)) (2 ^ 31)); [reflexivity|lia].
Qed.
Theorem dump_ok : forall l tail, Forall stream_ok l -> (List.length tail < 20)%nat ->
  vss_dump (encode l ++ tail) = (true, map (fun s => (sgn32 (st_id s), sgn32 (st_attr s), len (st_data s), len (st_name s))) l).
Proof. intros. apply dump_list; try assumption. lia. Qed.
Definition row (s : stream) : Z * Z * Z * Z := (sgn32 (st_id s), sgn32 (st_attr s), len (st_data s), len (st_name s)).
Lemma dump_one : forall s, stream_ok s -> dump_sid (header s) = row s.
Proof.
  intros s K1. unfold dump_sid, row.
  rewrite (header_at s K1), (header_size s K1), (header_name s K1). pose proof (header_id s K1) as HI. unfold sid_id in HI. rewrite HI.
  destruct K1 as (_ & _ & A & B).
  destruct (Z.ltb_spec (len (st_data s)) (2 ^ 63)); [|lia]. f_equal. unfold sgn32 at 1.
  destruct (Z.ltb_spec (len (st_name s)) (2 ^ 31)); [reflexivity|lia].
Qed.
Lemma dump_cut_list : forall l s p q, Forall stream_ok l -> stream_ok s -> payload s = p ++ q -> q <> [] ->
  forall fuel, (List.length (encode l ++ header s ++ p) < fuel)%nat ->
  dump_headers fuel (encode l ++ header s ++ p) = (false, map row (l ++ [s])).
Proof.
  intros l s p q K Ks P Q. induction l as [|x l IH]; intros fuel F.
  - destruct fuel as [|fuel]; [lia|]. unfold encode. cbn [flat_map app map dump_headers]. rewrite read_header by assumption.
    unfold skip_data. rewrite header_need by assumption. fold (len p).
    assert (len p < len (payload s)) as L.
    { rewrite P. unfold len. rewrite app_length. destruct q; [contradiction|]. cbn [List.length]. lia. }
    destruct (Z.ltb_spec (len p) (len (payload s))); [|lia]. rewrite dump_one by assumption. reflexivity.
  - inversion K as [|y z K1 K2]; subst. destruct fuel as [|fuel]; [lia|]. unfold encode in *. cbn [flat_map] in *. rewrite <- !app_assoc in *.
    rewrite app_length, header_len in F. rewrite app_length in F.
    cbn [dump_headers]. rewrite read_header, skip_stream by assumption. rewrite IH; [|assumption|lia].
    rewrite dump_one by assumption. reflexivity.
Qed.
Theorem dump_cut : forall l s p q, Forall stream_ok l -> stream_ok s -> payload s = p ++ q -> q <> [] ->
  vss_dump (encode l ++ header s ++ p) = (false, map row (l ++ [s])).
Proof. intros l s p q K Ks P Q. eapply dump_cut_list; eauto. Qed.

(* write() that may also take nothing: that is noticed. *)
Definition writes0 (w : bytes -> bytes -> Z) : Prop := forall out b, 0 <= w out b <= len b.
Definition forced (w : bytes -> bytes -> Z) : bytes -> bytes -> Z := fun out b => if w out b =? 0 then len b else w out b.
Lemma forced_writes : forall w, writes0 w -> writes (forced w).
Proof.
  intros w W out b. unfold forced. specialize (W out b). split; intros H.
  - subst b. change (len []) with 0 in *. destruct (Z.eqb_spec (w out []) 0); lia.
  - assert (len b <> 0) by (intros X; apply H; apply len_nil; exact X).
    assert (0 <= len b) by (unfold len; lia). destruct (Z.eqb_spec (w out b) 0); lia.
Qed.
Lemma loop_forced : forall w, writes0 w -> forall fuel buf pos s out,
  (exists o, vss_loop fuel w buf pos s out = VErr o) \/ vss_loop fuel w buf pos s out = vss_loop fuel (forced w) buf pos s out.
Proof.
  intros w W. induction fuel as [|fuel IH]; intros buf pos s out; cbn [vss_loop].
  - right. reflexivity.
  - destruct (pos =? Z.of_nat (List.length buf)); [right; reflexivity|]. destruct (pos <? 0); [right; reflexivity|].
    destruct (take_header (skipn (Z.to_nat pos) buf) s) as [g s1].
    destruct (v_needd s1 =? 0); [apply IH|]. destruct (sid_id (v_sid s1) =? 1); [|apply IH].
    set (b := firstn _ _). pose proof (W out b) as WB.
    destruct (Z.eqb_spec (w out b) 0) as [E|E]; [left; eexists; reflexivity|].
    assert (forced w out b = w out b) as FE by (unfold forced; destruct (Z.eqb_spec (w out b) 0); [contradiction|reflexivity]).
    rewrite FE. destruct (Z.eqb_spec (w out b) 0) as [E1|_]; [contradiction|].
    destruct (Z.ltb_spec (w out b) 0); [lia|]. apply IH.
Qed.
Theorem noticed : forall w fuel cs s out, writes0 w -> buffers fuel cs -> inv2 s ->
  (exists o, vss_restore fuel w cs s out = VErr o) \/
  vss_restore fuel w cs s out = VOk (fst (run s (concat cs))) (out ++ snd (run s (concat cs))).
Proof.
  intros w fuel cs s out W. revert s out. induction cs as [|b cs IH]; intros s out B I.
  - right. cbn. rewrite app_nil_r. reflexivity.
  - inversion B as [|x y [B1 B2] B3]; subst. cbn [vss_restore]. destruct b as [|x b]; [contradiction|].
    destruct (loop_forced w W fuel (x :: b) 0 s out) as [[o E]|E]; unfold vss_write; rewrite E; [left; eexists; reflexivity|].
    fold (vss_write fuel (forced w) (x :: b) s out). rewrite (write_run _ (forced_writes w W) fuel (x :: b) s out I B1 B2).
    destruct (fresh (fst (run s (x :: b)))); [left; eexists; reflexivity|].
    destruct (IH (fst (run s (x :: b))) (out ++ snd (run s (x :: b))) B3 (run_inv2 _ _ I)) as [Q|Q]; [left; exact Q|right].
    rewrite Q. cbn [concat]. rewrite run_app. destruct (run s (x :: b)) as [s1 o1]. cbn [fst snd].
    destruct (run s1 (concat cs)). cbn [fst snd]. rewrite <- app_assoc. reflexivity.
Qed.
Theorem noticed_streams : forall w fuel l cs, writes0 w -> Forall stream_ok l -> buffers fuel cs -> concat cs = encode l ->
  (exists o, vss_restore fuel w cs mysid0 [] = VErr o) \/ vss_restore fuel w cs mysid0 [] = VOk mysid0 (contents l).
Proof.
  intros w fuel l cs W K B E. destruct (noticed w fuel cs mysid0 [] W B inv2_0) as [Q|Q]; [left; exact Q|right].
  rewrite Q, E, run_encode by assumption. reflexivity.
Qed.
Lemma contents_data : forall l, (forall s, In s l -> st_id s = 1 -> st_name s = []) ->
  contents l = flat_map st_data (filter is_data l).
Proof.
  induction l as [|s l IH]; intros H; [reflexivity|]. unfold contents in *. cbn [filter].
  destruct (is_data s) eqn:E; [|apply IH; intros t T; apply H; right; exact T]. cbn [flat_map]. rewrite IH by (intros t T; apply H; right; exact T).
  f_equal. unfold payload. rewrite (H s (or_introl eq_refl)) by (apply Z.eqb_eq; exact E). reflexivity.
Qed.
Theorem strip_agrees : forall w w2 fuel l cs s, writes w -> fwrites w2 -> Forall stream_ok l -> buffers fuel cs -> concat cs = encode l ->
  filter is_data l = [s] -> (forall a b, cs = a ++ b -> ~ bad_cut l (concat a)) ->
  vss_restore fuel w cs mysid0 [] = VOk mysid0 (payload s) /\ vss_strip w2 (encode l) = (true, payload s).
Proof.
  intros w w2 fuel l cs s W W2 K B E D H. split.
  - rewrite (stripped w fuel l cs) by assumption. f_equal. unfold contents. rewrite D. cbn. apply app_nil_r.
  - assert (exists l1 l2, l = l1 ++ s :: l2 /\ filter is_data l1 = [] /\ st_id s = 1) as (l1 & l2 & -> & D1 & ID).
    { clear -D. induction l as [|t l IH]; [discriminate|]. cbn [filter] in D. destruct (is_data t) eqn:T.
      - injection D as -> D. exists [], l. repeat split. apply Z.eqb_eq. exact T.
      - destruct (IH D) as (l1 & l2 & -> & D1 & ID). exists (t :: l1), l2. repeat split; [|exact ID]. cbn [filter]. rewrite T. exact D1. }
    apply Forall_app in K. destruct K as [K1 K2]. inversion K2; subst.
    unfold encode. rewrite flat_map_app. cbn [flat_map]. rewrite <- !app_assoc. apply strip_first; assumption.
Qed.
