(* Deduplication when every file can be opened and read: proofs for C62. *)
From Verif Require Import Bytes AuthModel RestoreModel RestoreProofs BedupModel BedupProofs BedupRunProofs.
From Coq Require Import Permutation.
Local Opaque full_chunk part_chunk.

Section Fine.
Variable md5 : bytes -> Z.

(* What is remembered of the checksums of a file is right. *)
Definition cks (data : node -> bytes) (f : file) : Prop :=
  (f_part f = 0 \/ f_part f = md5 (firstn part_chunk (data (f_node f))))
  /\ (f_full f = 0 \/ f_full f = md5 (data (f_node f))).
(* A file that can be opened under the name that is remembered. *)
Definition there (d : disk) (f : file) : Prop := exists q, f_path f = Some q /\ look d q = Some (f_node f).
Lemma there_upd : forall d f f', upd f f' -> there d f -> there d f'.
Proof. intros d f f' (A & B & C) (q & Q & L). exists q. split; congruence. Qed.

Lemma opened : forall (fp : option node) f w fp' w', op_ok w -> there (w_disk w) f -> held w (f_path f) fp ->
  match fp with Some _ => (fp, w) | None => fzp_open (f_path f) w end = (fp', w') -> fp' = Some (f_node f).
Proof.
  intros fp f w fp' w' O (q & Q & L) H E. destruct fp as [n|].
  - injection E as <- <-. destruct (H n eq_refl) as (q' & Q' & L'). congruence.
  - unfold fzp_open in E. replace (hd true (w_open w)) with true in E.
    + rewrite Q, L in E. congruence.
    + unfold op_ok in O. destruct (w_open w); [reflexivity|]. inversion O; subst; reflexivity.
Qed.
Lemma part_fine : forall f fp w f' fp' w', rd_ok w -> op_ok w -> there (w_disk w) f -> held w (f_path f) fp ->
  cks (d_data (w_disk w)) f -> need_part md5 f fp w = (f', fp', w') ->
  f_part f' = md5 (firstn part_chunk (d_data (w_disk w) (f_node f))) /\ cks (d_data (w_disk w)) f'.
Proof.
  intros f fp w f' fp' w' R O T H C E. unfold need_part in E. destruct (f_part f =? 0) eqn:Z0.
  2:{ injection E as <- <- <-. apply Z.eqb_neq in Z0. split; [|exact C]. destruct C as [[C|C] _]; [congruence|exact C]. }
  unfold get_part_cksum in E.
  destruct (match fp with Some _ => (fp, w) | None => fzp_open (f_path f) w end) as [fp1 w1] eqn:E1.
  pose proof (opened _ _ _ _ _ O T H E1) as ->. apply open_if in E1; [|exact H].
  destruct E1 as ((D & _ & _ & RR & _) & _ & _).
  destruct (fzp_read part_chunk _ w1) as [[b x] w2] eqn:E2. apply read_ok in E2; [|auto]. destruct E2 as [-> ->].
  injection E as <- <- <-. cbn [f_part]. rewrite D. split; [reflexivity|]. unfold cks. cbn [f_part f_full f_node].
  split; [right; reflexivity|]. destruct (_ <? _)%nat eqn:S; [|apply C].
  right. f_equal. apply Nat.ltb_lt in S. apply firstn_all2. rewrite firstn_length in S. lia.
Qed.
Lemma full_fine : forall f fp w f' fp' w', rd_ok w -> op_ok w -> there (w_disk w) f -> held w (f_path f) fp ->
  cks (d_data (w_disk w)) f -> need_full md5 f fp w = (f', fp', w') ->
  f_full f' = md5 (d_data (w_disk w) (f_node f)) /\ cks (d_data (w_disk w)) f'.
Proof.
  intros f fp w f' fp' w' R O T H C E. unfold need_full in E. destruct (f_full f =? 0) eqn:Z0.
  2:{ injection E as <- <- <-. apply Z.eqb_neq in Z0. split; [|exact C]. destruct C as [_ [C|C]]; [congruence|exact C]. }
  unfold get_full_cksum in E.
  destruct (match fp with Some _ => (fp, w) | None => fzp_open (f_path f) w end) as [fp1 w1] eqn:E1.
  pose proof (opened _ _ _ _ _ O T H E1) as ->. apply open_if in E1; [|exact H].
  destruct E1 as ((D & _ & _ & RR & _) & _ & _).
  destruct (sum_loop _ _ w1) as [b w2] eqn:E2. apply sum_ok in E2; [|auto|lia]. subst b.
  injection E as <- <- <-. cbn [f_full]. rewrite D. split; [reflexivity|]. unfold cks. cbn [f_part f_full f_node].
  split; [apply C|right; reflexivity].
Qed.
Lemma match_fine : forall nw f nfp ofp w r nw' nfp' ofp' w', rd_ok w -> op_ok w ->
  there (w_disk w) nw -> there (w_disk w) f -> held w (f_path nw) nfp -> held w (f_path f) ofp ->
  full_match nw f nfp ofp w = (r, nw', nfp', ofp', w') ->
  nw' = nw /\ (r = false -> d_data (w_disk w) (f_node nw) <> d_data (w_disk w) (f_node f)).
Proof.
  intros nw f nfp ofp w r nw' nfp' ofp' w' R O Tn Tf Hn Hf E. unfold full_match in E.
  destruct (match nfp with Some _ => (nfp, w) | None => fzp_open (f_path nw) w end) as [fp1 w1] eqn:E1.
  pose proof (opened _ _ _ _ _ O Tn Hn E1) as ->. apply open_if in E1; [|exact Hn].
  destruct E1 as (C1 & _ & _). pose proof C1 as (D & _ & _ & RR & OO).
  destruct (match ofp with Some _ => (ofp, w1) | None => fzp_open (f_path f) w1 end) as [fp2 w2] eqn:E2.
  assert (X : fp2 = Some (f_node f)).
  { eapply (opened ofp f w1); [auto| |eapply held_calm; eassumption|exact E2]. rewrite D. exact Tf. }
  subst fp2. apply open_if in E2; [|eapply held_calm; eassumption]. destruct E2 as ((D2 & _ & _ & RR2 & _) & _ & _).
  destruct (match_loop _ _ _ w2) as [m w3] eqn:M. injection E as <- <- <- <- <-. split; [reflexivity|].
  intros -> X. rewrite D2, D in M. rewrite X in M.
  assert (Y : fst (match_loop (S (List.length (d_data (w_disk w) (f_node f)))) (d_data (w_disk w) (f_node f))
                (d_data (w_disk w) (f_node f)) w2) = true) by (apply match_same; [auto|lia]).
  rewrite M in Y. discriminate Y.
Qed.

Variables (mk del : bool) (maxlinks : Z) (ext : bytes).

Lemma check_fine : forall l nw size nfp w count saved l' nw' res w' c s, rd_ok w -> op_ok w ->
  check_loop md5 mk del maxlinks ext l nw size nfp None w count saved = (l', nw', res, w', c, s) ->
  there (w_disk w) nw -> held w (f_path nw) nfp -> cks (d_data (w_disk w)) nw ->
  Forall (fun f => there (w_disk w) f /\ cks (d_data (w_disk w)) f) l ->
  Forall (cks (d_data (w_disk w))) l' /\ cks (d_data (w_disk w)) nw'
  /\ (res = NotFound -> upd nw nw'
        /\ forall f, In f l -> fst (f_node f) = fst (f_node nw) ->
             d_data (w_disk w) (f_node f) <> d_data (w_disk w) (f_node nw)).
Proof.
  induction l as [|f r IH]; intros nw size nfp w count saved l' nw' res w' c s R O H Tn Hh Cn Fl; cbn [check_loop] in H.
  { injection H as <- <- <- <- <- <-. split; [constructor|]. split; [exact Cn|]. intros _. split; [apply upd_refl|]. intros f []. }
  inversion Fl as [|x y [Tf Cf] Fr]; subst.
  assert (Fc : Forall (cks (d_data (w_disk w))) r).
  { eapply Forall_impl; [|exact Fr]. intros g [_ G]. exact G. }
  assert (NX : forall f1 nw1 nfp1 w1, upd f f1 -> upd nw nw1 -> calm w w1 -> held w1 (f_path nw1) nfp1 ->
    cks (d_data (w_disk w)) f1 -> cks (d_data (w_disk w)) nw1 ->
    (fst (f_node f) = fst (f_node nw) -> d_data (w_disk w) (f_node f) <> d_data (w_disk w) (f_node nw)) ->
    (let '(r', nw', res, w', c, s) := check_loop md5 mk del maxlinks ext r nw1 size nfp1 None w1 count saved in
     (f1 :: r', nw', res, w', c, s)) = (l', nw', res, w', c, s) ->
    Forall (cks (d_data (w_disk w))) l' /\ cks (d_data (w_disk w)) nw'
    /\ (res = NotFound -> upd nw nw'
        /\ forall g, In g (f :: r) -> fst (f_node g) = fst (f_node nw) ->
             d_data (w_disk w) (f_node g) <> d_data (w_disk w) (f_node nw))).
  { intros f1 nw1 nfp1 w1 U N (D & _ & _ & RR & OO) Hn C1 C2 DF X.
    destruct (check_loop md5 mk del maxlinks ext r nw1 size nfp1 None w1 count saved)
      as [[[[[r' nx] rx] wx] cx] sx] eqn:E. injection X as <- <- <- <- <- <-.
    apply IH in E; [|auto|auto|rewrite D; eapply there_upd; eassumption|exact Hn|rewrite D; exact C2|rewrite D; exact Fr].
    rewrite D in E. destruct E as (E1 & E2 & E3). split; [constructor; assumption|]. split; [exact E2|].
    intros Z. destruct (E3 Z) as [E4 E5]. split; [eapply upd_trans; eassumption|].
    destruct N as (N1 & N2 & N3). rewrite N2 in E5. intros g [<-|G]; [exact DF|apply E5; exact G]. }
  pose proof Tf as (q & Q & Lq). rewrite Q in H.
  destruct (fst (f_node nw) =? fst (f_node f)) eqn:Dv; cbn [negb] in H.
  2:{ apply Z.eqb_neq in Dv. eapply NX; [apply upd_refl|apply upd_refl|apply calm_refl|exact Hh|exact Cf|exact Cn|congruence|exact H]. }
  apply Z.eqb_eq in Dv.
  assert (Here : cks (d_data (w_disk w)) f -> Forall (cks (d_data (w_disk w))) (f :: r)) by (intros; constructor; assumption).
  destruct (snd (f_node nw) =? snd (f_node f)) eqn:Ino.
  { injection H as <- <- <- <- <- <-. split; [auto|]. split; [exact Cn|discriminate]. }
  destruct (maxlinks <=? f_nlink nw) eqn:Mx.
  { injection H as <- <- <- <- <- <-. split; [auto|]. split; [exact Cn|discriminate]. }
  destruct (need_part md5 nw nfp w) as [[nw1 nfp1] w1] eqn:E1.
  pose proof (part_fine _ _ _ _ _ _ R O Tn Hh Cn E1) as [P1 K1].
  apply need_part_spec in E1; [|exact Hh]. destruct E1 as (C1 & U1 & H1).
  pose proof C1 as (D1 & _ & _ & RR1 & OO1). assert (R1 := RR1 R). assert (O1 := OO1 O).
  destruct (need_part md5 f None w1) as [[f1 ofp1] w2] eqn:E2.
  assert (X : f_part f1 = md5 (firstn part_chunk (d_data (w_disk w) (f_node f))) /\ cks (d_data (w_disk w)) f1).
  { rewrite <- D1. eapply part_fine; [exact R1|exact O1| |apply held_none| |exact E2]; rewrite D1; assumption. }
  destruct X as [P2 K2].
  apply need_part_spec in E2; [|apply held_none]. destruct E2 as (C2 & U2 & H2).
  pose proof C2 as (D2 & _ & _ & RR2 & OO2). assert (R2 := RR2 R1). assert (O2 := OO2 O1). rewrite D1 in D2.
  assert (C12 : calm w w2) by (eapply calm_trans; eassumption).
  assert (H1' : held w2 (f_path nw1) nfp1) by (eapply held_calm; [exact C2|exact H1]).
  destruct (f_part nw1 =? f_part f1) eqn:PE; cbn [negb] in H.
  2:{ apply Z.eqb_neq in PE. eapply NX; [exact U2|exact U1|exact C12|exact H1'|exact K2|exact K1| |exact H].
      intros _ X. apply PE. rewrite P1, P2, X. reflexivity. }
  assert (Tn1 : there (w_disk w2) nw1) by (rewrite D2; eapply there_upd; eassumption).
  destruct (need_full md5 nw1 nfp1 w2) as [[nw2 nfp2] w3] eqn:E3.
  assert (X : f_full nw2 = md5 (d_data (w_disk w) (f_node nw1)) /\ cks (d_data (w_disk w)) nw2).
  { rewrite <- D2. eapply full_fine; [exact R2|exact O2|exact Tn1|exact H1'| |exact E3]. rewrite D2; assumption. }
  destruct X as [P3 K3].
  apply need_full_spec in E3; [|exact H1']. destruct E3 as (C3 & U3 & H3).
  pose proof C3 as (D3 & _ & _ & RR3 & OO3). assert (R3 := RR3 R2). assert (O3 := OO3 O2). rewrite D2 in D3.
  assert (H2' : held w3 (f_path f1) ofp1) by (eapply held_calm; [exact C3|exact H2]).
  assert (Tf1 : there (w_disk w3) f1) by (rewrite D3; eapply there_upd; eassumption).
  destruct (need_full md5 f1 ofp1 w3) as [[f2 ofp2] w4] eqn:E4.
  assert (X : f_full f2 = md5 (d_data (w_disk w) (f_node f1)) /\ cks (d_data (w_disk w)) f2).
  { rewrite <- D3. eapply full_fine; [exact R3|exact O3|exact Tf1|exact H2'| |exact E4]. rewrite D3; assumption. }
  destruct X as [P4 K4].
  apply need_full_spec in E4; [|exact H2']. destruct E4 as (C4 & U4 & H4).
  pose proof C4 as (D4 & _ & _ & RR4 & OO4). assert (R4 := RR4 R3). assert (O4 := OO4 O3). rewrite D3 in D4.
  assert (C04 : calm w w4) by (eapply calm_trans; [exact C12|eapply calm_trans; [exact C3|exact C4]]).
  assert (UN : upd nw nw2) by (eapply upd_trans; [exact U1|exact U3]).
  assert (UF : upd f f2) by (eapply upd_trans; [exact U2|exact U4]).
  assert (H3' : held w4 (f_path nw2) nfp2) by (eapply held_calm; [exact C4|exact H3]).
  pose proof UN as (UN1 & UN2 & UN3). pose proof UF as (UF1 & UF2 & UF3).
  destruct U1 as (_ & U1n & _). destruct U2 as (_ & U2n & _).
  destruct (f_full nw2 =? f_full f2) eqn:FE; cbn [negb] in H.
  2:{ apply Z.eqb_neq in FE. eapply NX; [exact UF|exact UN|exact C04|exact H3'|exact K4|exact K3| |exact H].
      intros _ X. apply FE. rewrite P3, P4, U1n, U2n, X. reflexivity. }
  destruct (full_match nw2 f2 nfp2 ofp2 w4) as [[[[m nw3] nfp3] ofp3] w5] eqn:E5.
  pose proof E5 as E5'. apply match_fine in E5'; [|exact R4|exact O4|rewrite D4; eapply there_upd; eassumption
     |rewrite D4; eapply there_upd; eassumption|exact H3'|exact H4].
  destruct E5' as [-> M5]. rewrite D4, UN2, UF2 in M5.
  apply full_match_spec in E5; [|exact H3'|exact H4]. destruct E5 as (C5 & U5 & H5 & _).
  destruct m.
  2:{ eapply NX; [exact UF|exact UN|eapply calm_trans; [exact C04|exact C5]|exact H5|exact K4|exact K3| |exact H].
      intros _ X. apply (M5 eq_refl). congruence. }
  assert (G : forall w6 c0 s0 rs g, cks (d_data (w_disk w)) g -> cks (d_data (w_disk w)) nw' -> (g :: r, nw', rs, w6, c0, s0) = (l', nw', res, w', c, s) -> rs <> NotFound ->
    Forall (cks (d_data (w_disk w))) l' /\ cks (d_data (w_disk w)) nw'
    /\ (res = NotFound -> upd nw nw'
        /\ forall g, In g (f :: r) -> fst (f_node g) = fst (f_node nw) ->
             d_data (w_disk w) (f_node g) <> d_data (w_disk w) (f_node nw))).
  { intros w6 c0 s0 rs g Cg Cw X N. injection X as <- <- <- <- <-. split; [constructor; assumption|]. split; [exact Cw|congruence]. }
  destruct (maxlinks <=? f_nlink f2).
  { injection H as <- <- <- <- <- <-. eapply G; [| |reflexivity|discriminate]; [exact K3|exact K3]. }
  destruct mk.
  { destruct (do_hardlink ext nw2 f2 w5) as [[|] w6]; injection H as <- <- <- <- <- <-;
      (eapply G; [| |reflexivity|discriminate]); assumption. }
  destruct del.
  { destruct (f_path nw2); [destruct (syscall _ _ w5) as [[|] w6]|]; injection H as <- <- <- <- <- <-;
      (eapply G; [| |reflexivity|discriminate]); assumption. }
  injection H as <- <- <- <- <- <-. eapply G; [| |reflexivity|discriminate]; assumption.
Qed.

(* ---- a run ---- *)
Notation process := (process_file md5 mk del maxlinks ext).
Notation process_all := (process_all md5 mk del maxlinks ext).
Notation checked := (checked mk del maxlinks ext).
Lemma run_inv3 : forall (I : list bytes -> state -> Prop) (J : state -> Prop) l s V ok s',
  (forall V p s ok s', In (Some p) l -> I V s -> process p s = (ok, s') -> J s' /\ (ok = true -> I (p :: V) s')) ->
  (forall V s, I V s -> J s) ->
  I V s -> process_all l s = (ok, s') ->
  J s' /\ (ok = true -> exists V', I V' s' /\ forall p, In (Some p) l \/ In p V -> In p V').
Proof.
  intros I J l. induction l as [|[p|] r IH]; intros s V ok s' St IJ Is H; cbn [BedupModel.process_all] in H.
  - injection H as <- <-. split; [eapply IJ; exact Is|]. intros _. exists V. split; [exact Is|]. intros p [[]|X]. exact X.
  - destruct (process p s) as [[|] s1] eqn:E.
    + destruct (St V p s true s1 (or_introl eq_refl) Is E) as [_ G]. specialize (G eq_refl).
      apply (IH s1 (p :: V)) in H; [|intros; eapply St; [right; eassumption|eassumption|eassumption]|exact IJ|exact G].
      destruct H as [H1 H2]. split; [exact H1|]. intros O. destruct (H2 O) as (V' & I' & C). exists V'. split; [exact I'|].
      intros q [[Q|Q]|Q]; apply C; [right; left; congruence|left; exact Q|right; right; exact Q].
    + injection H as <- <-. destruct (St V p s false s1 (or_introl eq_refl) Is E) as [G _]. split; [exact G|discriminate].
  - injection H as <- <-. split; [eapply IJ; exact Is|discriminate].
Qed.

(* What is remembered under a size, when nothing failed. *)
Definition entry_ok (d : disk) (k : Z) (f : file) : Prop :=
  there d f /\ key d (f_node f) = k /\ f_nlink f = nlinks d (f_node f) /\ cks (d_data d) f.
Definition class (data : node -> bytes) (f : file) : Z * bytes := (fst (f_node f), data (f_node f)).
Definition limited (d0 d : disk) : Prop := forall n, nlinks d n <= Z.max maxlinks (nlinks d0 n).
Definition names_in (d : disk) : nat := List.length (d_names d).
Definition inv_fine (d0 : disk) (V : list bytes) (s : state) : Prop :=
  let w := s_w s in let d := w_disk w in
  rd_ok w /\ op_ok w /\ wf d /\ d_data d = d_data d0 /\ names_in d = names_in d0
  /\ (forall x, option_map (fun n => (fst n, d_data d0 n)) (look d x) = option_map (fun n => (fst n, d_data d0 n)) (look d0 x))
  /\ (forall k l, find_key k (s_table s) = Some l -> Forall (entry_ok d k) l /\ NoDup (map (class (d_data d)) l))
  /\ Forall (limited d0) (disks s)
  /\ (Z.of_nat (names_in d0) < maxlinks -> forall p n, In p V -> look d p = Some n -> d_data d n <> [] ->
         exists l f, find_key (key d n) (s_table s) = Some l /\ In f l /\ f_node f = n).

Lemma nlinks_le : forall d n, nlinks d n <= Z.of_nat (names_in d).
Proof.
  intros d n. unfold nlinks, names_in. apply inj_le. induction (d_names d) as [|x r IH]; [auto|].
  cbn [filter List.length]. destruct (node_eqb (snd x) n); cbn [List.length]; lia.
Qed.
Lemma names_unlink : forall d p a, wf d -> look d p = Some a -> S (names_in (d_unlink p d)) = names_in d.
Proof.
  intros [names data] p a. unfold wf, look, names_in, d_unlink. cbn [d_names].
  induction names as [|[q n] r IH]; intros W H; cbn [find_name] in H; [discriminate H|].
  inversion W as [|x y Nx Ny]; subst. cbn [filter fst]. destruct (beqb q p) eqn:E.
  - apply beqb_eq in E. subst q. cbn [negb]. rewrite filter_gone by exact Nx. reflexivity.
  - cbn [negb List.length]. f_equal. apply IH; assumption.
Qed.
Lemma forall2_map : forall data l l', Forall2 upd l l' -> map (class data) l' = map (class data) l.
Proof. intros data l l' F. induction F as [|a b l l' (A & B & C) F IH]; [reflexivity|]. simpl. unfold class at 1 3. rewrite IH, B. reflexivity. Qed.
Lemma forall2_fwd : forall l l' f, Forall2 upd l l' -> In f l -> exists g, In g l' /\ upd f g.
Proof.
  intros l l' f F. induction F as [|a b l l' U F IH]; intros I; [destruct I|].
  destruct I as [<-|I]; [exists b; split; [left; reflexivity|exact U]|].
  destruct (IH I) as (g & Ig & Ug). exists g. split; [right; exact Ig|exact Ug].
Qed.
Lemma forall2_refl : forall l, Forall2 upd l l.
Proof. induction l; constructor; [apply upd_refl|assumption]. Qed.
(* Nothing but the checksums of what is remembered has changed. *)
Lemma same_entries : forall d k l l', Forall (entry_ok d k) l -> NoDup (map (class (d_data d)) l) ->
  Forall2 upd l l' -> Forall (cks (d_data d)) l' -> Forall (entry_ok d k) l' /\ NoDup (map (class (d_data d)) l').
Proof.
  intros d k l l' E N F C. split; [|rewrite (forall2_map _ _ _ F); exact N].
  apply Forall_forall. intros g Ig. destruct (forall2_in _ _ _ _ _ F Ig) as (f & If & U). pose proof U as (U1 & U2 & U3).
  rewrite Forall_forall in E, C. destruct (E f If) as (T & K & L & _).
  split; [eapply there_upd; eassumption|]. rewrite U2. split; [exact K|]. split; [congruence|apply C; exact Ig].
Qed.
Lemma nodup_class : forall data pre (f : file) post g, NoDup (map (class data) (pre ++ f :: post)) ->
  In g pre \/ In g post -> class data g <> class data f.
Proof.
  intros data pre f post g N I E. rewrite map_app in N. cbn [map] in N. apply NoDup_remove_2 in N. apply N.
  rewrite <- E. apply in_app_iff. destruct I as [I|I]; [left|right]; apply in_map; exact I.
Qed.
Lemma step_fine : mk = true -> forall d0 V p s ok s', inv_fine d0 V s -> process p s = (ok, s') ->
  Forall (limited d0) (disks s') /\ (sys_ok (s_w s) -> sys_ok (s_w s'))
  /\ (sys_ok (s_w s) -> look d0 (p ++ ext) = None -> ok = true) /\ (ok = true -> inv_fine d0 (p :: V) s').
Proof.
  intros Mk d0 V p s ok s' (R & O & W & D0 & NI & NS & TB & LM & CP) H. apply file_spec in H. cbv zeta in H.
  set (d := w_disk (s_w s)) in *.
  destruct H as [(-> & -> & EM)|(n & L & NE & H)].
  { split; [exact LM|]. split; [auto|]. split; [auto|]. intros _. unfold inv_fine. cbv zeta. fold d.
    do 8 (split; [assumption|]). intros NL x m [<-|Ix] Lx Dx; [|apply (CP NL x); assumption].
    exfalso. apply Dx. apply EM. exact Lx. }
  destruct H as [(F & -> & ->)|(l & l' & nw' & res & w' & c & sv & F & E & OK & ->)].
  { unfold inv_fine, disks. cbn [s_w s_table]. fold d.
    split; [exact LM|]. split; [auto|]. split; [auto|]. intros _.
    do 6 (split; [assumption|]). split; [|split; [exact LM|]].
    - intros k l X. cbn [find_key] in X. destruct (key d n =? k) eqn:K; [|apply TB; exact X].
      apply Z.eqb_eq in K. injection X as <-. split; [|repeat constructor; auto].
      constructor; [|constructor]. split; [exists p; split; [reflexivity|exact L]|].
      split; [exact K|]. split; [reflexivity|]. split; left; reflexivity.
    - intros NL x m Ix Lx Dx. cbn [find_key].
      destruct Ix as [<-|Ix].
      + assert (m = n) by congruence. subst m. rewrite Z.eqb_refl.
        exists [newfile d p n], (newfile d p n). repeat split. left. reflexivity.
      + destruct (CP NL x m Ix Lx Dx) as (l & f & Fx & If & Nf).
        destruct (key d n =? key d m) eqn:K; [apply Z.eqb_eq in K; congruence|]. exists l, f. auto. }
  destruct (TB _ _ F) as [EN ND].
  assert (Tn : there d (newfile d p n)) by (exists p; split; [reflexivity|exact L]).
  assert (CF : Forall (cks (d_data d)) l' /\ cks (d_data d) nw'
    /\ (res = NotFound -> upd (newfile d p n) nw'
        /\ forall f, In f l -> fst (f_node f) = fst n -> d_data d (f_node f) <> d_data d n)).
  { eapply (check_fine l (newfile d p n)); [exact R|exact O|exact E|exact Tn|apply held_none|split; left; reflexivity|].
    eapply Forall_impl; [|exact EN]. intros g (G1 & _ & _ & G2). auto. }
  destruct CF as (CL & CN & CX).
  apply check_spec in E; [|apply held_none].
  (* nothing on the disk changes: enough to look at the new list *)
  assert (CALM : forall w1 L1, calm (s_w s) w1 -> 
     Forall (entry_ok d (key d n)) L1 /\ NoDup (map (class (d_data d)) L1) ->
     (Z.of_nat (names_in d0) < maxlinks -> (forall f, In f l -> exists g, In g L1 /\ f_node g = f_node f)
        /\ exists g, In g L1 /\ f_node g = n) ->
     forall c sv, inv_fine d0 (p :: V) (mkstate w1 (put_key (key d n) L1 (s_table s)) c sv)).
  { intros w1 L1 C G1 G2 c1 sv1. destruct C as (D & P & SY & RR & OO). fold d in D.
    unfold inv_fine, disks. cbn [s_w s_table]. rewrite D, P.
    split; [auto|]. split; [auto|]. do 4 (split; [assumption|]). split; [|split; [exact LM|]].
    - intros k l1 X. rewrite find_put in X by congruence. destruct (k =? key d n) eqn:K; [|apply TB; exact X].
      apply Z.eqb_eq in K. injection X as <-. subst k. exact G1.
    - intros NL x m Ix Lx Dx. destruct (G2 NL) as [G3 G4]. rewrite find_put by congruence.
      destruct Ix as [<-|Ix].
      + assert (m = n) by congruence. subst m. rewrite Z.eqb_refl. destruct G4 as (g & Ig & Ng). eauto.
      + destruct (CP NL x m Ix Lx Dx) as (l1 & f & Fx & If & Nf).
        destruct (key d m =? key d n) eqn:K; [|eauto].
        apply Z.eqb_eq in K. rewrite K in Fx. assert (l1 = l) by congruence. subst l1.
        destruct (G3 f If) as (g & Ig & Ng). exists L1, g. split; [reflexivity|]. split; [exact Ig|congruence]. }
  assert (LC : forall w1 t c sv, calm (s_w s) w1 -> Forall (limited d0) (disks (mkstate w1 t c sv))).
  { intros w1 t c1 sv1 (D & P & _). unfold disks in *. cbn [s_w]. rewrite D, P. exact LM. }
  assert (SC : forall w1, calm (s_w s) w1 -> sys_ok (s_w s) -> sys_ok w1).
  { intros w1 (_ & _ & SY & _). unfold sys_ok. rewrite SY. auto. }
  inversion E; subst.
  - (* not found *)
    split; [auto|]. split; [auto|]. split. { intros _ _. destruct ok; [reflexivity|]. exfalso. assert (NotFound = Failed) by (apply OK; reflexivity). discriminate. }
    intros _. cbn [kept]. destruct (CX eq_refl) as [U CX']. apply CALM; [assumption| |].
    + destruct (same_entries _ _ _ _ EN ND ltac:(eassumption) CL) as [X Y]. destruct U as (U1 & U2 & U3).
      cbn [newfile f_path f_node f_nlink] in U1, U2, U3. split.
      * constructor; [|exact X]. split; [exists p; split; [exact U1|congruence]|]. rewrite U2.
        split; [reflexivity|]. split; [exact U3|exact CN].
      * cbn [map]. constructor; [|exact Y]. intros I. rewrite (forall2_map _ _ _ ltac:(eassumption)) in I.
        apply in_map_iff in I. destruct I as (g & EC & Ig). unfold class in EC. rewrite U2 in EC. injection EC as E1 E2.
        apply (CX' g Ig E1 E2).
    + intros _. split.
      * intros f If. destruct (forall2_fwd _ _ _ ltac:(eassumption) If) as (g & Ig & G1 & G2 & G3). exists g.
        split; [right; exact Ig|exact G2].
      * exists nw'. split; [left; reflexivity|]. destruct U as (U1 & U2 & U3). exact U2.
  - (* linked already, or has links enough *)
    split; [auto|]. split; [auto|]. split. { intros _ _. destruct ok; [reflexivity|]. exfalso. assert (Found = Failed) by (apply OK; reflexivity). discriminate. }
    intros _. cbn [kept].
    assert (F2 : Forall2 upd (pre ++ f :: post) (pre' ++ f :: post)).
    { apply Forall2_app; [assumption|apply forall2_refl]. }
    apply CALM; [assumption|apply (same_entries _ _ _ _ EN ND F2 CL)|]. intros NL. split.
    + intros g Ig. destruct (forall2_fwd _ _ _ F2 Ig) as (h & Ih & G1 & G2 & G3). exists h. auto.
    + exists f. split; [apply in_app_iff; right; left; reflexivity|].
      match goal with X : f_node (newfile _ _ _) = _ \/ _ |- _ => destruct X as [X|X] end; [symmetry; assumption|].
      exfalso. cbn [newfile f_nlink] in *. pose proof (nlinks_le d n). unfold d in *. lia.
  - (* has links enough: n is remembered instead *)
    split; [auto|]. split; [auto|]. split. { intros _ _. destruct ok; [reflexivity|]. exfalso. assert (Found = Failed) by (apply OK; reflexivity). discriminate. }
    intros _. cbn [kept].
    match goal with X : f_path (newfile _ _ _) = Some p0 |- _ => injection X as X; subst p0 end.
    cbn [newfile f_node f_nlink] in *. repeat match goal with X : context [w_disk (s_w s)] |- _ => progress fold d in X end.
    match goal with X : upd (newfile _ _ _) _ |- _ => destruct X as (U1 & U2 & U3) end.
    cbn [newfile f_path f_node f_nlink] in U1, U2, U3.
    assert (a = n) by congruence. subst a.
    assert (EF : entry_ok d (key d n) f).
    { rewrite Forall_forall in EN. apply EN. apply in_app_iff. right. left. reflexivity. }
    destruct EF as ((qf & Qf & Lf) & Kf & NLf & _).
    assert (qf = q) by congruence. subst qf. assert (b = f_node f) by congruence. subst b.
    match goal with X : rd_ok _ -> d_data _ n = _ |- _ => specialize (X R); rename X into DE end.
    apply CALM; [assumption| |].
    + assert (N1 : Forall (entry_ok d (key d n)) (pre' ++ f :: post) /\ NoDup (map (class (d_data d)) (pre' ++ f :: post))).
      { eapply same_entries; [exact EN|exact ND|apply Forall2_app; [assumption|apply forall2_refl]|].
        apply Forall_app in CL. destruct CL as [CL1 CL2]. inversion CL2; subst. apply Forall_app. split; [assumption|]. constructor; [|assumption].
        rewrite Forall_forall in EN. apply EN. apply in_app_iff. right. left. reflexivity. }
      destruct N1 as [N1 N2]. apply Forall_app in N1. destruct N1 as [N1 N3]. apply Forall_inv_tail in N3. split.
      * apply Forall_app. split; [exact N1|]. constructor; [|assumption].
        split; [exists p; split; [exact U1|congruence]|]. rewrite U2. split; [reflexivity|]. split; [exact U3|exact CN].
      * rewrite map_app in *. cbn [map] in *. replace (class (d_data d) nw'0) with (class (d_data d) f); [exact N2|].
        unfold class. rewrite U2. congruence.
    + intros NL. exfalso. pose proof (nlinks_le d (f_node f)). lia.
  - (* a match *)
    match goal with X : Forall2 upd pre pre' |- _ => rename X into FP end.
    match goal with X : calm (s_w s) ?z |- _ => rename X into C; rename z into w1 end.
    match goal with X : f_path (newfile _ _ _) = Some p0 |- _ => injection X as X; subst p0 end.
    cbn [newfile f_node f_nlink] in *. repeat match goal with X : context [w_disk (s_w s)] |- _ => progress fold d in X end.
    match goal with X : upd (newfile _ _ _) _ |- _ => destruct X as (U1 & U2 & U3) end.
    cbn [newfile f_path f_node f_nlink] in U1, U2, U3.
    match goal with X : upd f f' |- _ => pose proof X as UF; destruct X as (V1 & V2 & V3) end.
    assert (a = n) by congruence. subst a.
    assert (EF : entry_ok d (key d n) f).
    { rewrite Forall_forall in EN. apply EN. apply in_app_iff. right. left. reflexivity. }
    destruct EF as ((qf & Qf & Lf) & Kf & NLf & _).
    assert (qf = q) by congruence. subst qf. assert (b = f_node f) by congruence. subst b.
    match goal with X : rd_ok _ -> d_data _ n = _ |- _ => specialize (X R); rename X into DE end.
    pose proof C as (D & PP & SY & RR & OO). fold d in D.
    assert (Npq : p <> q) by (intros ->; congruence).
    assert (LD : limited d0 d) by (unfold disks in LM; inversion LM; assumption).
    assert (LP : Forall (limited d0) (w_past (s_w s))) by (unfold disks in LM; inversion LM; assumption).
    assert (LA : limited d0 (d_add (p ++ ext) (f_node f) d)).
    { intros m. rewrite nlinks_add. unfold one. destruct (node_eqb (f_node f) m) eqn:B; [|specialize (LD m); lia].
      apply node_eqb_eq in B. subst m. lia. }
    assert (Lp2 : look (d_unlink p d) p = None) by (rewrite look_unlink, beqb_refl; reflexivity).
    assert (NL2 : forall m, nlinks (linked p (f_node f) d) m = nlinks d m - one (node_eqb n m) + one (node_eqb (f_node f) m)).
    { intros m. unfold linked. rewrite nlinks_add, (nlinks_unlink d p n m W L). reflexivity. }
    assert (LL : limited d0 (linked p (f_node f) d)).
    { intros m. rewrite NL2. unfold one. destruct (node_eqb (f_node f) m) eqn:B.
      - apply node_eqb_eq in B. subst m. destruct (node_eqb n (f_node f)); lia.
      - specialize (LD m). destruct (node_eqb n m); lia. }
    match goal with X : _ \/ _ |- _ =>
      destruct X as [(Z1&Z2&Z3&Z4&Z5&Z6)|[(Z1&Z2&Z3&Z4&Z5&Z6)|[(Z0&_)|[(Z0&_)|(Z0&_)]]]]; try congruence end.
    + (* done *)
      apply (hardlink_spec ext nw'0 f' p q n (f_node f)) in Z2; try congruence.
      cbv zeta in Z2. destruct Z2 as (RR2 & OO2 & SY2 & _ & CS). rewrite D in CS.
      assert (X : w_disk w' = linked p (f_node f) d /\ w_past w' = linked p (f_node f) d :: d_add (p ++ ext) (f_node f) d :: w_past w1).
      { destruct CS as [(X & _)|[(_ & _ & _ & X)|[(_ & _ & X & _)|[(_ & X & _)|(_ & X & _)]]]]; try congruence; exact X. }
      destruct X as [DW PW].
      assert (LS : Forall (limited d0) (w_disk w' :: w_past w')).
      { rewrite DW, PW, PP. repeat (constructor; [assumption|]). exact LP. }
      split; [exact LS|]. split; [auto|]. split. { intros _ _. destruct ok; [reflexivity|]. exfalso. assert (res = Failed) by (apply OK; reflexivity). congruence. }
      intros _. subst res. cbn [kept].
      unfold inv_fine, disks. cbn [s_w s_table]. rewrite DW.
      (* other files that are remembered have other inodes *)
      assert (OT : forall k l1 g, find_key k (s_table s) = Some l1 -> In g l1 -> (k <> key d n \/ In g pre \/ In g post) ->
                f_node g <> n /\ f_node g <> f_node f).
      { intros k l1 g Fk Ig Hk. destruct (TB _ _ Fk) as [EK _]. rewrite Forall_forall in EK.
        destruct (EK g Ig) as (_ & Kg & _). destruct (Z.eq_dec k (key d n)) as [->|Nk].
        - assert (NC : class (d_data d) g <> class (d_data d) f).
          { eapply nodup_class; [exact ND|]. tauto. }
          unfold class in NC. split; intros X; apply NC; rewrite X; congruence.
        - split; intros X; apply Nk; rewrite <- Kg, X; [reflexivity|]. congruence. }
      assert (OL : forall x, x <> p -> look (linked p (f_node f) d) x = look d x).
      { intros x N. unfold linked. rewrite look_add, look_unlink.
        replace (beqb p x) with false by (symmetry; apply beqb_neq; congruence).
        replace (beqb x p) with false by (symmetry; apply beqb_neq; exact N). reflexivity. }
      assert (OE : forall k g, entry_ok d k g -> f_node g <> n -> f_node g <> f_node f ->
                entry_ok (linked p (f_node f) d) k g).
      { intros k g ((x & Qx & Lx) & Kg & NLg & Cg) N1 N2. split.
        - exists x. split; [exact Qx|]. rewrite OL; [exact Lx|]. intros ->. congruence.
        - split; [exact Kg|]. split; [|exact Cg]. rewrite NL2.
          replace (node_eqb n (f_node g)) with false by (symmetry; apply node_eqb_neq; congruence).
          replace (node_eqb (f_node f) (f_node g)) with false by (symmetry; apply node_eqb_neq; congruence).
          unfold one. lia. }
      assert (F2 : Forall2 upd (pre ++ f :: post) (pre' ++ f' :: post)).
      { apply Forall2_app; [assumption|]. constructor; [exact UF|apply forall2_refl]. }
      assert (CL' : Forall (cks (d_data d)) (pre' ++ f' :: post)).
      { apply Forall_app in CL. destruct CL as [CL1 CL2]. apply Forall_app. split; [exact CL1|].
        rewrite Z4 in CL2. inversion CL2; subst. constructor; assumption. }
      destruct (same_entries _ _ _ _ EN ND F2 CL') as [EN' ND'].
      assert (LP2 : look (linked p (f_node f) d) p = Some (f_node f)).
      { unfold linked. rewrite look_add, beqb_refl. reflexivity. }
      split; [auto|]. split; [auto|].
      split; [unfold linked; apply wf_add; [apply wf_unlink; exact W|exact Lp2]|].
      split; [exact D0|].
      split. { rewrite <- NI. rewrite <- (names_unlink d p n W L). reflexivity. }
      split. { intros x. destruct (beqb x p) eqn:B.
               - apply beqb_eq in B. subst x. rewrite LP2. rewrite <- NS, L. cbn [option_map]. f_equal. f_equal; [congruence|].
                 rewrite <- D0. congruence.
               - apply beqb_neq in B. rewrite OL by exact B. apply NS. }
      split.
      * intros k l1 X. rewrite find_put in X by congruence. destruct (k =? key d n) eqn:K.
        -- apply Z.eqb_eq in K. injection X as <-. subst k.
           assert (MC : map (class (d_data d)) (pre' ++ f'' :: post) = map (class (d_data d)) (pre' ++ f' :: post)).
           { rewrite !map_app. cbn [map]. rewrite Z4. reflexivity. }
           split; [|change (d_data (linked p (f_node f) d)) with (d_data d); rewrite MC; exact ND'].
           apply Forall_app in EN'. destruct EN' as [EN1 EN2]. inversion EN2 as [|y z EF' EN3]; subst y z.
           assert (NDf : f_node f' = f_node f) by exact V2.
           assert (OT2 : forall g, In g pre' \/ In g post -> f_node g <> n /\ f_node g <> f_node f).
           { intros g Ig. destruct Ig as [Ig|Ig].
             - destruct (forall2_in _ _ _ _ _ FP Ig) as (h & Ih & _ & H2 & _). rewrite H2.
               eapply OT; [exact F|apply in_app_iff; left; exact Ih|auto].
             - eapply OT; [exact F|apply in_app_iff; right; right; exact Ig|auto]. }
           apply Forall_app. split.
           ++ apply Forall_forall. intros g Ig. rewrite Forall_forall in EN1. destruct (OT2 g (or_introl Ig)). apply OE; auto.
           ++ constructor.
              ** rewrite Z4. destruct EF' as (_ & Kf' & NLf' & Cf'). split; [|cbn [f_node f_nlink]; split; [exact Kf'|split; [|exact Cf']]].
                 --- exists q. cbn [f_path f_node]. split; [congruence|]. rewrite OL by congruence. congruence.
                 --- rewrite NL2, NDf. unfold one. rewrite (proj2 (node_eqb_eq (f_node f) (f_node f)) eq_refl).
                     replace (node_eqb n (f_node f)) with false by (symmetry; apply node_eqb_neq; congruence).
                     rewrite NLf', NDf. lia.
              ** apply Forall_forall. intros g Ig. rewrite Forall_forall in EN3. destruct (OT2 g (or_intror Ig)). apply OE; auto.
        -- apply Z.eqb_neq in K. destruct (TB _ _ X) as [EK NK]. split; [|exact NK].
           apply Forall_forall. intros g Ig. rewrite Forall_forall in EK. destruct (OT k l1 g X Ig (or_introl K)). apply OE; auto.
      * split; [rewrite DW in LS; exact LS|].
        intros NLt x m Ix Lx Dx. change (d_data (linked p (f_node f) d)) with (d_data d) in Dx.
        change (key (linked p (f_node f) d) m) with (key d m). rewrite find_put by congruence.
        destruct (beqb x p) eqn:B.
        -- apply beqb_eq in B. subst x. assert (m = f_node f) by congruence. subst m.
           rewrite Kf, Z.eqb_refl. exists (pre' ++ f'' :: post), f''. split; [reflexivity|].
           split; [apply in_app_iff; right; left; reflexivity|]. rewrite Z4. exact V2.
        -- apply beqb_neq in B. rewrite OL in Lx by exact B. destruct Ix as [Ix|Ix]; [congruence|].
           destruct (CP NLt x m Ix Lx Dx) as (l1 & g & Fx & Ig & Ng).
           destruct (key d m =? key d n) eqn:K; [|eauto].
           apply Z.eqb_eq in K. rewrite K in Fx. assert (l1 = pre ++ f :: post) by congruence. subst l1.
           exists (pre' ++ f'' :: post). apply in_app_iff in Ig. destruct Ig as [Ig|[<-|Ig]].
           ++ destruct (forall2_fwd _ _ _ FP Ig) as (h & Ih & _ & H2 & _). exists h.
              split; [reflexivity|]. split; [apply in_app_iff; left; exact Ih|congruence].
           ++ exists f''. split; [reflexivity|]. split; [apply in_app_iff; right; left; reflexivity|]. rewrite Z4. cbn [f_node]. congruence.
           ++ exists g. split; [reflexivity|]. split; [apply in_app_iff; right; right; exact Ig|exact Ng].
    + (* failed *)
      apply (hardlink_spec ext nw'0 f' p q n (f_node f)) in Z2; try congruence.
      cbv zeta in Z2. destruct Z2 as (RR2 & OO2 & SY2 & SO & CS). rewrite D in CS, SO.
      unfold disks. cbn [s_w].
      assert (X : (w_disk w' = d \/ w_disk w' = d_add (p ++ ext) (f_node f) d) /\ Forall (limited d0) (w_past w')).
      { destruct CS as [(_ & X & Y)|[(_ & X & _)|[(_ & X & _)|[(_ & _ & X & Y)|(_ & _ & X & Y)]]]]; try congruence;
          rewrite Y, PP; (split; [auto|]); repeat (constructor; [assumption|]); exact LP. }
      destruct X as [X Y].
      split. { constructor; [|exact Y]. destruct X as [-> | ->]; assumption. }
      split; [auto|].
      split; [|intros ->; exfalso; assert (true = false) by (apply OK; exact Z3); discriminate].
      intros S0 T0. assert (T1 : look d (p ++ ext) = None).
      { specialize (NS (p ++ ext)). rewrite T0 in NS. destruct (look d (p ++ ext)); [discriminate NS|reflexivity]. }
      assert (false = true) by (apply SO; [apply SC; assumption|exact T1]). discriminate.
Qed.

Lemma fine_start : forall w, rd_ok w -> op_ok w -> wf (w_disk w) -> w_past w = [] -> inv_fine (w_disk w) [] (start w).
Proof.
  intros w R O W P. unfold inv_fine, start, disks. cbn [s_w s_table]. rewrite P.
  do 6 (split; [first [assumption|reflexivity|intros; tauto]|]).
  split; [intros k l X; discriminate X|]. split; [|intros _ p n []].
  constructor; [|constructor]. intros n. lia.
Qed.
Lemma run_fine : mk = true -> forall l w ok s', rd_ok w -> op_ok w -> wf (w_disk w) -> w_past w = [] ->
  process_all l (start w) = (ok, s') ->
  Forall (limited (w_disk w)) (disks s')
  /\ (ok = true -> exists V, inv_fine (w_disk w) V s' /\ forall p, In (Some p) l -> In p V).
Proof.
  intros Mk l w ok s' R O W P H.
  apply (run_inv3 (inv_fine (w_disk w)) (fun s => Forall (limited (w_disk w)) (disks s))) with (V := []) in H.
  - destruct H as [H1 H2]. split; [exact H1|]. intros E. destruct (H2 E) as (V & I & C). exists V. split; [exact I|]. auto.
  - intros V p s k s1 _ I X. destruct (step_fine Mk _ _ _ _ _ _ I X) as (A & _ & _ & B). split; assumption.
  - intros V s I. apply I.
  - apply fine_start; assumption.
Qed.
(* No file is given more names than the limit, unless it had them before. *)
Theorem run_limit : mk = true -> forall l w ok s', rd_ok w -> op_ok w -> wf (w_disk w) -> w_past w = [] ->
  process_all l (start w) = (ok, s') ->
  forall d n, In d (disks s') -> nlinks d n <= Z.max maxlinks (nlinks (w_disk w) n).
Proof.
  intros Mk l w ok s' R O W P H d n I. destruct (run_fine Mk _ _ _ _ R O W P H) as [F _].
  rewrite Forall_forall in F. apply (F d I n).
Qed.
(* All that was looked at and is the same ends up as one file. *)
Theorem run_complete : mk = true -> forall l w s', rd_ok w -> op_ok w -> wf (w_disk w) -> w_past w = [] ->
  Z.of_nat (names_in (w_disk w)) < maxlinks ->
  process_all l (start w) = (true, s') ->
  forall p q a b, In (Some p) l -> In (Some q) l -> look (w_disk w) p = Some a -> look (w_disk w) q = Some b ->
    fst a = fst b -> d_data (w_disk w) a = d_data (w_disk w) b -> d_data (w_disk w) a <> [] ->
    exists n, look (w_disk (s_w s')) p = Some n /\ look (w_disk (s_w s')) q = Some n.
Proof.
  intros Mk l w s' R O W P NL H p q a b Ip Iq La Lb Dv Dt NE.
  destruct (run_fine Mk _ _ _ _ R O W P H) as [_ F]. destruct (F eq_refl) as (V & I & C).
  unfold inv_fine in I. cbv zeta in I. destruct I as (_ & _ & W' & D0 & _ & NS & TB & _ & CP). set (d := w_disk (s_w s')) in *.
  pose proof (NS p) as Sp. pose proof (NS q) as Sq. rewrite La in Sp. rewrite Lb in Sq.
  destruct (look d p) as [a'|] eqn:Lp; [|discriminate Sp]. destruct (look d q) as [b'|] eqn:Lq; [|discriminate Sq].
  cbn [option_map] in Sp, Sq. injection Sp as Sp1 Sp2. injection Sq as Sq1 Sq2.
  destruct (CP NL p a' (C p Ip) Lp) as (l1 & f & F1 & I1 & N1); [rewrite D0, Sp2; exact NE|].
  destruct (CP NL q b' (C q Iq) Lq) as (l2 & g & F2 & I2 & N2); [rewrite D0, Sq2, <- Dt; exact NE|].
  assert (K : key d b' = key d a') by (unfold key, fsize; rewrite D0, Sp2, Sq2, Dt; reflexivity). rewrite K, F1 in F2. injection F2 as <-.
  destruct (TB _ _ F1) as [_ ND].
  assert (f = g).
  { assert (EC : class (d_data d) f = class (d_data d) g) by (unfold class; rewrite N1, N2, D0, Sp2, Sq2, Dt; f_equal; congruence).
    clear - ND I1 I2 EC. induction l1 as [|x r IH]; [destruct I1|]. cbn [map] in ND. inversion ND as [|y z Ny Nz]; subst.
    destruct I1 as [<-|I1], I2 as [<-|I2]; try reflexivity.
    - exfalso. apply Ny. rewrite EC. apply in_map. exact I2.
    - exfalso. apply Ny. rewrite <- EC. apply in_map. exact I1.
    - apply IH; assumption. }
  subst g. exists a'. split; [reflexivity|]. congruence.
Qed.
(* With nothing going wrong the run ends well, and leaves the names that were there. *)
Theorem run_clean : mk = true -> forall l w ok s', rd_ok w -> op_ok w -> sys_ok w -> wf (w_disk w) -> w_past w = [] ->
  ~ In None l -> (forall p, In (Some p) l -> look (w_disk w) (p ++ ext) = None) ->
  process_all l (start w) = (ok, s') ->
  ok = true /\ forall x, look (w_disk (s_w s')) x = None <-> look (w_disk w) x = None.
Proof.
  intros Mk l w ok s' R O S W P NN TM H.
  assert (G : forall l V s, sys_ok (s_w s) -> inv_fine (w_disk w) V s -> ~ In None l ->
     (forall p, In (Some p) l -> look (w_disk w) (p ++ ext) = None) -> process_all l s = (ok, s') ->
     ok = true /\ exists V, inv_fine (w_disk w) V s').
  { clear - Mk. induction l as [|[p|] r IH]; intros V s S I NN TM H; cbn [BedupModel.process_all] in H.
    - injection H as <- <-. eauto.
    - destruct (process p s) as [k s1] eqn:E. destruct (step_fine Mk _ _ _ _ _ _ I E) as (_ & A & B & C).
      specialize (A S). specialize (B S (TM p (or_introl eq_refl))). subst k. specialize (C eq_refl).
      eapply IH; [exact A|exact C| | |exact H].
      + intros X. apply NN. right. exact X.
      + intros x X. apply TM. right. exact X.
    - exfalso. apply NN. left. reflexivity. }
  destruct (G l [] (start w) S (fine_start w R O W P) NN TM H) as (E & V & I). split; [exact E|].
  destruct I as (_ & _ & _ & _ & _ & NS & _). intros x. specialize (NS x).
  destruct (look (w_disk (s_w s')) x), (look (w_disk w) x); try discriminate NS; split; intros Y; congruence.
Qed.
End Fine.
