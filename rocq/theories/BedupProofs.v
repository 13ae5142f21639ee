(* What deduplication does to the stored files: spec and proofs for C60 to C63. *)
From Verif Require Import Bytes AuthModel RestoreModel RestoreProofs BedupModel.
From Coq Require Import Permutation.

(* ---- spec ---- *)
(* What a name holds. *)
Definition content (d : disk) (p : bytes) : option bytes := option_map (d_data d) (look d p).
(* No read fails; no open fails; no link, rename or unlink fails. *)
Definition rd_ok (w : world) : Prop := Forall (fun x => x = None) (w_read w).
Definition op_ok (w : world) : Prop := Forall (fun x => x = true) (w_open w).
Definition sys_ok (w : world) : Prop := Forall (fun x => x = true) (w_sys w).
(* The disk at the start, at the end and after each change of it in between. *)
Definition disks (s : state) : list disk := w_disk (s_w s) :: w_past (s_w s).

(* ---- the disk ---- *)
Lemma beqb_sym : forall a b, beqb a b = beqb b a.
Proof.
  intros a b. destruct (beqb a b) eqn:E.
  - apply beqb_eq in E. subst. symmetry. apply beqb_refl.
  - symmetry. apply beqb_neq. apply beqb_neq in E. congruence.
Qed.
Lemma node_eqb_eq : forall a b, node_eqb a b = true <-> a = b.
Proof.
  intros [a1 a2] [b1 b2]. unfold node_eqb. simpl. rewrite andb_true_iff, !Z.eqb_eq.
  split; [intros [-> ->]; reflexivity|intros H; injection H; auto].
Qed.
Lemma node_eqb_neq : forall a b, node_eqb a b = false <-> a <> b.
Proof.
  intros a b. destruct (node_eqb a b) eqn:E; split; intros H; try congruence.
  - apply node_eqb_eq in E. congruence.
  - intros E'. apply node_eqb_eq in E'. congruence.
Qed.
Lemma look_add : forall d p n q, look (d_add p n d) q = if beqb p q then Some n else look d q.
Proof. reflexivity. Qed.
Lemma look_unlink : forall d p q, look (d_unlink p d) q = if beqb q p then None else look d q.
Proof.
  intros [names data] p q. unfold look, d_unlink. simpl.
  induction names as [|[x n] r IH]; cbn [filter find_name fst].
  - destruct (beqb q p); reflexivity.
  - destruct (beqb x p) eqn:E; cbn [negb find_name].
    + apply beqb_eq in E. subst x. rewrite IH. rewrite (beqb_sym q p).
      destruct (beqb p q); reflexivity.
    + rewrite IH. destruct (beqb x q) eqn:E2; [|reflexivity].
      apply beqb_eq in E2. subst x. rewrite E. reflexivity.
Qed.

(* ---- what does not change the disk ---- *)
Definition calm (w w' : world) : Prop :=
  w_disk w' = w_disk w /\ w_past w' = w_past w /\ w_sys w' = w_sys w
  /\ (rd_ok w -> rd_ok w') /\ (op_ok w -> op_ok w').
Lemma calm_refl : forall w, calm w w.
Proof. unfold calm. tauto. Qed.
Lemma calm_trans : forall a b c, calm a b -> calm b c -> calm a c.
Proof. unfold calm. intros a b c (A&B&C&D&E) (A'&B'&C'&D'&E'). repeat split; try congruence; auto. Qed.
Lemma Forall_tl : forall (A : Type) (P : A -> Prop) l, Forall P l -> Forall P (tl l).
Proof. intros A P [|x l] H; [exact H|inversion H; assumption]. Qed.
Lemma open_calm : forall p w n w', fzp_open p w = (n, w') -> calm w w'.
Proof.
  intros p w n w' H. unfold fzp_open in H.
  assert (H' : w' = mkworld (w_disk w) (w_past w) (tl (w_open w)) (w_read w) (w_sys w)).
  { destruct (hd true (w_open w)); congruence. }
  subst w'. unfold calm, rd_ok, op_ok. simpl. repeat split; auto. apply Forall_tl.
Qed.
Lemma read_calm : forall k rest w b rest' w', fzp_read k rest w = (b, rest', w') -> calm w w'.
Proof.
  intros k rest w b rest' w' H. unfold fzp_read in H.
  assert (H' : w' = mkworld (w_disk w) (w_past w) (w_open w) (tl (w_read w)) (w_sys w)).
  { destruct (hd None (w_read w)); congruence. }
  subst w'. unfold calm, rd_ok, op_ok. simpl. repeat split; auto. apply Forall_tl.
Qed.
Lemma read_ok : forall k rest w b rest' w', rd_ok w -> fzp_read k rest w = (b, rest', w') ->
  b = firstn k rest /\ rest' = skipn k rest.
Proof.
  intros k rest w b rest' w' R H. unfold fzp_read in H.
  assert (E : hd None (w_read w) = None).
  { unfold rd_ok in R. destruct (w_read w); [reflexivity|]. inversion R; subst; reflexivity. }
  rewrite E in H. injection H as <- <- <-. auto.
Qed.
Lemma match_calm : forall fuel o n w r w', match_loop fuel o n w = (r, w') -> calm w w'.
Proof.
  induction fuel as [|fuel IH]; intros o n w r w' H; cbn [match_loop] in H.
  - injection H as <- <-. apply calm_refl.
  - destruct (fzp_read full_chunk o w) as [[ob o'] w1] eqn:E1.
    destruct (fzp_read full_chunk n w1) as [[nb n'] w2] eqn:E2.
    assert (C : calm w w2) by (eapply calm_trans; eapply read_calm; eassumption).
    destruct (negb _); [injection H as <- <-; exact C|].
    destruct (negb _); [injection H as <- <-; exact C|].
    destruct (_ <? _)%nat; [injection H as <- <-; exact C|].
    eapply calm_trans; [exact C|eapply IH; eassumption].
Qed.
Lemma match_true : forall fuel o n w w', rd_ok w -> match_loop fuel o n w = (true, w') -> o = n.
Proof.
  induction fuel as [|fuel IH]; intros o n w w' R H; cbn [match_loop] in H; [discriminate H|].
  destruct (fzp_read full_chunk o w) as [[ob o'] w1] eqn:E1.
  destruct (fzp_read full_chunk n w1) as [[nb n'] w2] eqn:E2.
  pose proof (read_calm _ _ _ _ _ _ E1) as C1. pose proof (read_calm _ _ _ _ _ _ E2) as C2.
  assert (R1 : rd_ok w1) by (apply C1; exact R). assert (R2 : rd_ok w2) by (apply C2; exact R1).
  apply read_ok in E1; [|exact R]. apply read_ok in E2; [|exact R1].
  destruct E1 as [-> ->]. destruct E2 as [-> ->].
  destruct (negb (List.length _ =? _)%nat) eqn:L; [discriminate H|].
  destruct (negb (beqb _ _)) eqn:B; [discriminate H|].
  apply negb_false_iff in B. apply beqb_eq in B.
  destruct (_ <? _)%nat eqn:S.
  - apply Nat.ltb_lt in S. rewrite B in S.
    assert (F : forall x : bytes, (List.length (firstn full_chunk x) < full_chunk)%nat -> firstn full_chunk x = x).
    { intros x Hx. apply firstn_all2. rewrite firstn_length in Hx. lia. }
    rewrite (F n) in B by exact S. rewrite <- B.
    symmetry. apply F. rewrite B. rewrite (F n) in S by exact S. exact S.
  - apply IH in H; [|exact R2]. rewrite <- (firstn_skipn full_chunk o), <- (firstn_skipn full_chunk n).
    rewrite B, H. reflexivity.
Qed.
Lemma full_chunk_pos : (0 < full_chunk)%nat.
Proof. unfold full_chunk. rewrite Z2Nat.inj_pos. lia. Qed.
Local Opaque full_chunk part_chunk.
Lemma match_same : forall fuel o w, rd_ok w -> (List.length o < fuel)%nat -> fst (match_loop fuel o o w) = true.
Proof.
  induction fuel as [|fuel IH]; intros o w R H; [lia|]. cbn [match_loop].
  destruct (fzp_read full_chunk o w) as [[ob o'] w1] eqn:E1.
  destruct (fzp_read full_chunk o w1) as [[nb n'] w2] eqn:E2.
  pose proof (read_calm _ _ _ _ _ _ E1) as C1. pose proof (read_calm _ _ _ _ _ _ E2) as C2.
  assert (R1 : rd_ok w1) by (apply C1; exact R). assert (R2 : rd_ok w2) by (apply C2; exact R1).
  apply read_ok in E1; [|exact R]. apply read_ok in E2; [|exact R1].
  destruct E1 as [-> ->]. destruct E2 as [-> ->].
  rewrite Nat.eqb_refl, beqb_refl. cbn [negb].
  destruct (_ <? _)%nat eqn:S; [reflexivity|].
  apply IH; [exact R2|]. apply Nat.ltb_ge in S. rewrite firstn_length in S. rewrite skipn_length.
  pose proof full_chunk_pos. lia.
Qed.
Lemma sum_calm : forall fuel rest w b w', sum_loop fuel rest w = (b, w') -> calm w w'.
Proof.
  induction fuel as [|fuel IH]; intros rest w b w' H; cbn [sum_loop] in H.
  - injection H as <- <-. apply calm_refl.
  - destruct (fzp_read full_chunk rest w) as [[c rest'] w1] eqn:E1. apply read_calm in E1.
    destruct c as [|x c]; [injection H as <- <-; exact E1|].
    destruct (_ <? _)%nat; [injection H as <- <-; exact E1|].
    destruct (sum_loop fuel rest' w1) as [m w2] eqn:E2. injection H as <- <-.
    eapply calm_trans; [exact E1|eapply IH; exact E2].
Qed.
Lemma sum_ok : forall fuel rest w b w', rd_ok w -> (List.length rest < fuel)%nat ->
  sum_loop fuel rest w = (b, w') -> b = rest.
Proof.
  induction fuel as [|fuel IH]; intros rest w b w' R L H; [lia|]. cbn [sum_loop] in H.
  destruct (fzp_read full_chunk rest w) as [[c rest'] w1] eqn:E1.
  pose proof (read_calm _ _ _ _ _ _ E1) as C1. assert (R1 : rd_ok w1) by (apply C1; exact R).
  apply read_ok in E1; [|exact R]. destruct E1 as [-> ->].
  pose proof full_chunk_pos as P.
  destruct (firstn full_chunk rest) as [|x c] eqn:F.
  - injection H as <- <-. destruct rest as [|y rest]; [reflexivity|].
    destruct full_chunk; [lia|discriminate F].
  - rewrite <- F in H. destruct (_ <? _)%nat eqn:S.
    + injection H as <- <-. apply Nat.ltb_lt in S. apply firstn_all2. rewrite firstn_length in S. lia.
    + destruct (sum_loop fuel _ w1) as [m w2] eqn:E2. injection H as <- <-.
      apply IH in E2; [|exact R1|].
      * subst m. apply firstn_skipn.
      * apply Nat.ltb_ge in S. rewrite firstn_length in S. rewrite skipn_length. lia.
Qed.

(* ---- the search ---- *)
(* The same file, but for what is remembered of its checksums. *)
Definition upd (f f' : file) : Prop := f_path f' = f_path f /\ f_node f' = f_node f /\ f_nlink f' = f_nlink f.
Lemma upd_refl : forall f, upd f f.
Proof. unfold upd. auto. Qed.
Lemma upd_trans : forall a b c, upd a b -> upd b c -> upd a c.
Proof. unfold upd. intros a b c (A&B&C) (A'&B'&C'). repeat split; congruence. Qed.
(* The same, or its name has been forgotten. *)
Definition upd0 (f f' : file) : Prop :=
  (f_path f' = f_path f \/ f_path f' = None) /\ f_node f' = f_node f /\ f_nlink f' = f_nlink f.
Lemma upd_upd0 : forall a b, upd a b -> upd0 a b.
Proof. unfold upd, upd0. tauto. Qed.
Lemma upd0_trans : forall a b c, upd0 a b -> upd0 b c -> upd0 a c.
Proof.
  unfold upd0. intros a b c (A&B&C) (A'&B'&C'). repeat split; try congruence.
  destruct A' as [A'|A']; [|tauto]. rewrite A'. exact A.
Qed.
(* An open file is the one that its name leads to. *)
Definition held (w : world) (p : option bytes) (fp : option node) : Prop :=
  forall n, fp = Some n -> exists q, p = Some q /\ look (w_disk w) q = Some n.
Lemma held_none : forall w p, held w p None.
Proof. intros w p n H. discriminate H. Qed.
Lemma held_calm : forall w w' p fp, calm w w' -> held w p fp -> held w' p fp.
Proof. intros w w' p fp (E&_) H n Hn. rewrite E. apply H. exact Hn. Qed.
Lemma open_held : forall p w fp w', fzp_open p w = (fp, w') -> held w p fp.
Proof.
  intros p w fp w' H n Hn. unfold fzp_open in H. destruct (hd true (w_open w)); [|congruence].
  destruct p as [q|]; [|congruence]. exists q. split; [reflexivity|]. injection H as H _. congruence.
Qed.
(* if(!*fp) *fp=fzp_open(path) *)
Lemma open_if : forall (fp : option node) p w fp' w',
  match fp with Some _ => (fp, w) | None => fzp_open p w end = (fp', w') ->
  held w p fp -> calm w w' /\ held w p fp' /\ held w' p fp'.
Proof.
  intros fp p w fp' w' H Hf.
  assert (G : calm w w' /\ held w p fp').
  { destruct fp as [n|].
    - injection H as <- <-. split; [apply calm_refl|exact Hf].
    - split; [eapply open_calm; exact H|eapply open_held; exact H]. }
  destruct G as [G1 G2]. repeat split; try apply G1; try exact G2. eapply held_calm; eassumption.
Qed.

Section Search.
Variable md5 : bytes -> Z.

Lemma part_spec : forall f fp w f' fp' w', get_part_cksum md5 f fp w = (f', fp', w') -> held w (f_path f) fp ->
  calm w w' /\ upd f f' /\ held w' (f_path f') fp'.
Proof.
  intros f fp w f' fp' w' H Hh. unfold get_part_cksum in H.
  destruct (match fp with Some _ => (fp, w) | None => fzp_open (f_path f) w end) as [fp1 w1] eqn:E.
  apply open_if in E; [|exact Hh]. destruct E as (C & _ & H1).
  destruct fp1 as [a|].
  - destruct (fzp_read part_chunk _ w1) as [[b x] w2] eqn:R. injection H as <- <- <-.
    apply read_calm in R. split; [eapply calm_trans; eassumption|]. split; [repeat split|].
    eapply held_calm; eassumption.
  - injection H as <- <- <-. split; [exact C|]. split; [repeat split|apply held_none].
Qed.
Lemma full_spec : forall f fp w f' fp' w', get_full_cksum md5 f fp w = (f', fp', w') -> held w (f_path f) fp ->
  calm w w' /\ upd f f' /\ held w' (f_path f') fp'.
Proof.
  intros f fp w f' fp' w' H Hh. unfold get_full_cksum in H.
  destruct (match fp with Some _ => (fp, w) | None => fzp_open (f_path f) w end) as [fp1 w1] eqn:E.
  apply open_if in E; [|exact Hh]. destruct E as (C & _ & H1).
  destruct fp1 as [a|].
  - destruct (sum_loop _ _ w1) as [b w2] eqn:R. injection H as <- <- <-.
    apply sum_calm in R. split; [eapply calm_trans; eassumption|]. split; [repeat split|].
    eapply held_calm; eassumption.
  - injection H as <- <- <-. split; [exact C|]. split; [repeat split|apply held_none].
Qed.
Lemma need_part_spec : forall f fp w f' fp' w', need_part md5 f fp w = (f', fp', w') -> held w (f_path f) fp ->
  calm w w' /\ upd f f' /\ held w' (f_path f') fp'.
Proof.
  intros f fp w f' fp' w' H Hh. unfold need_part in H. destruct (_ =? 0).
  - eapply part_spec; eassumption.
  - injection H as <- <- <-. split; [apply calm_refl|]. split; [apply upd_refl|exact Hh].
Qed.
Lemma need_full_spec : forall f fp w f' fp' w', need_full md5 f fp w = (f', fp', w') -> held w (f_path f) fp ->
  calm w w' /\ upd f f' /\ held w' (f_path f') fp'.
Proof.
  intros f fp w f' fp' w' H Hh. unfold need_full in H. destruct (_ =? 0).
  - eapply full_spec; eassumption.
  - injection H as <- <- <-. split; [apply calm_refl|]. split; [apply upd_refl|exact Hh].
Qed.
Lemma full_match_spec : forall nw f nfp ofp w r nw' nfp' ofp' w',
  full_match nw f nfp ofp w = (r, nw', nfp', ofp', w') ->
  held w (f_path nw) nfp -> held w (f_path f) ofp ->
  calm w w' /\ upd0 nw nw' /\ held w' (f_path nw') nfp'
  /\ (r = true -> nw' = nw /\ exists p q a b, f_path nw = Some p /\ f_path f = Some q
        /\ look (w_disk w) p = Some a /\ look (w_disk w) q = Some b
        /\ (rd_ok w -> d_data (w_disk w) a = d_data (w_disk w) b)).
Proof.
  intros nw f nfp ofp w r nw' nfp' ofp' w' H Hn Ho. unfold full_match in H.
  destruct (match nfp with Some _ => (nfp, w) | None => fzp_open (f_path nw) w end) as [nf1 w1] eqn:E.
  apply open_if in E; [|exact Hn]. destruct E as (C1 & N0 & N1).
  destruct nf1 as [a|].
  2:{ injection H as <- <- <- <- <-. split; [exact C1|]. split; [repeat split; auto|]. split; [apply held_none|discriminate]. }
  destruct (match ofp with Some _ => (ofp, w1) | None => fzp_open (f_path f) w1 end) as [of1 w2] eqn:E.
  apply open_if in E; [|eapply held_calm; eassumption]. destruct E as (C2 & O1 & O2).
  assert (C12 : calm w w2) by (eapply calm_trans; eassumption).
  destruct of1 as [b|].
  2:{ injection H as <- <- <- <- <-. split; [exact C12|]. split; [apply upd_upd0, upd_refl|].
      split; [eapply held_calm; eassumption|discriminate]. }
  destruct (match_loop _ _ _ w2) as [r' w3] eqn:M. injection H as <- <- <- <- <-.
  pose proof (match_calm _ _ _ _ _ _ M) as C3.
  split; [eapply calm_trans; eassumption|]. split; [apply upd_upd0, upd_refl|].
  split; [eapply held_calm; [exact C3|eapply held_calm; eassumption]|].
  intros ->. split; [reflexivity|].
  destruct (N0 a eq_refl) as (p & P1 & P2). destruct (O2 b eq_refl) as (q & Q1 & Q2).
  destruct C12 as (D & _ & _ & R & _).
  exists p, q, a, b. rewrite D in *. repeat split; auto.
  intros R0. eapply match_true; [|exact M]. apply R. exact R0.
Qed.

Variables (makelinks deletedups : bool) (maxlinks : Z) (ext : bytes).

(* How the search goes. *)
Inductive checked (w : world) (nw : file) (size count saved : Z) :
  list file -> list file -> file -> found -> world -> Z -> Z -> Prop :=
| ck_none : forall l l' nw' w', Forall2 upd l l' -> upd0 nw nw' -> calm w w' ->
    checked w nw size count saved l l' nw' NotFound w' count saved
| ck_skip : forall pre pre' f post nw' w', Forall2 upd pre pre' -> upd0 nw nw' -> calm w w' ->
    f_path f <> None -> fst (f_node nw) = fst (f_node f) ->
    (f_node nw = f_node f \/ maxlinks <= f_nlink nw) ->
    checked w nw size count saved (pre ++ f :: post) (pre' ++ f :: post) nw' Found w' count saved
| ck_reset : forall pre pre' f post nw' w1 p q a b, Forall2 upd pre pre' -> upd nw nw' -> calm w w1 ->
    f_path nw = Some p -> f_path f = Some q -> look (w_disk w) p = Some a -> look (w_disk w) q = Some b ->
    (rd_ok w -> d_data (w_disk w) a = d_data (w_disk w) b) ->
    fst (f_node nw) = fst (f_node f) -> f_node nw <> f_node f -> f_nlink nw < maxlinks ->
    maxlinks <= f_nlink f ->
    checked w nw size count saved (pre ++ f :: post) (pre' ++ nw' :: post)
            (mkfile None (f_node nw') (f_nlink nw') (f_full nw') (f_part nw')) Found w1 count saved
| ck_match : forall pre pre' f f' f'' post nw' nw'' w1 w2 p q a b res c2 s2,
    Forall2 upd pre pre' -> upd nw nw' -> upd f f' -> calm w w1 ->
    f_path nw = Some p -> f_path f = Some q -> look (w_disk w) p = Some a -> look (w_disk w) q = Some b ->
    (rd_ok w -> d_data (w_disk w) a = d_data (w_disk w) b) ->
    fst (f_node nw) = fst (f_node f) -> f_node nw <> f_node f -> f_nlink nw < maxlinks ->
    f_nlink f < maxlinks ->
    (   (makelinks = true /\ do_hardlink ext nw' f' w1 = (true, w2) /\ res = Found
         /\ f'' = mkfile (f_path f') (f_node f') (f_nlink f' + 1) (f_full f') (f_part f')
         /\ c2 = u64 (count + 1) /\ s2 = (if f_nlink nw =? 1 then u64 (saved + size) else saved))
     \/ (makelinks = true /\ do_hardlink ext nw' f' w1 = (false, w2) /\ res = Failed /\ f'' = f'
         /\ c2 = count /\ s2 = saved)
     \/ (makelinks = false /\ deletedups = true /\ syscall true (d_unlink p) w1 = (true, w2) /\ res = Found /\ f'' = f'
         /\ c2 = u64 (count + 1) /\ s2 = (if f_nlink nw =? 1 then u64 (saved + size) else saved))
     \/ (makelinks = false /\ deletedups = true /\ syscall true (d_unlink p) w1 = (false, w2) /\ res = Found /\ f'' = f'
         /\ c2 = u64 (count + 1) /\ s2 = saved)
     \/ (makelinks = false /\ deletedups = false /\ w2 = w1 /\ res = Found /\ f'' = f'
         /\ c2 = u64 (count + 1) /\ s2 = u64 (saved + size))) ->
    nw'' = nw' ->
    checked w nw size count saved (pre ++ f :: post) (pre' ++ f'' :: post) nw'' res w2 c2 s2.

Lemma checked_cons : forall w nw size count saved f f1 l l' nw1 nw' res w1 w' c s,
  upd f f1 -> upd0 nw nw1 -> calm w w1 ->
  checked w1 nw1 size count saved l l' nw' res w' c s ->
  checked w nw size count saved (f :: l) (f1 :: l') nw' res w' c s.
Proof.
  intros w nw size count saved f f1 l l' nw1 nw' res w1 w' c s U N C H.
  destruct N as (NP & NN & NL). pose proof C as (D & PA & SY & RO & OO).
  inversion H; subst.
  - apply ck_none; [constructor; assumption| |eapply calm_trans; eassumption].
    eapply upd0_trans; [|eassumption]. repeat split; assumption.
  - apply (ck_skip w nw size c s (f :: pre) (f1 :: pre')); try assumption.
    + constructor; assumption.
    + eapply upd0_trans; [|eassumption]. repeat split; assumption.
    + eapply calm_trans; eassumption.
    + congruence.
    + rewrite <- NN, <- NL. assumption.
  - match goal with X : f_path nw1 = Some _ |- _ => rename X into Q end.
    destruct NP as [NP|NP]; [|congruence].
    eapply (ck_reset w nw size c s (f :: pre) (f1 :: pre')) with (p := p) (q := q) (a := a) (b := b).
    all: try assumption; try congruence; try (rewrite <- D; assumption).
    + constructor; assumption.
    + eapply upd_trans; [|eassumption]. repeat split; assumption.
    + eapply calm_trans; eassumption.
    + intros R. rewrite <- D. match goal with X : rd_ok w1 -> _ |- _ => apply X end. auto.
  - match goal with X : f_path nw1 = Some _ |- _ => rename X into Q end.
    destruct NP as [NP|NP]; [|congruence].
    match goal with X : calm w1 ?z, Y : upd nw1 ?ny |- _ =>
      eapply (ck_match w nw size count saved (f :: pre) (f1 :: pre')) with (nw' := ny) (f' := f') (w1 := z) (p := p) (q := q) (a := a) (b := b) end.
    all: try assumption; try congruence; try reflexivity; try (rewrite <- D; assumption).
    + constructor; assumption.
    + eapply upd_trans; [|eassumption]. repeat split; assumption.
    + eapply calm_trans; eassumption.
    + intros R. rewrite <- D. match goal with X : rd_ok w1 -> _ |- _ => apply X end. auto.
    + rewrite <- NL. assumption.
Qed.

Lemma check_spec : forall l nw size nfp w count saved l' nw' res w' c s,
  check_loop md5 makelinks deletedups maxlinks ext l nw size nfp None w count saved = (l', nw', res, w', c, s) ->
  held w (f_path nw) nfp ->
  checked w nw size count saved l l' nw' res w' c s.
Proof.
  induction l as [|f r IH]; intros nw size nfp w count saved l' nw' res w' c s H Hh; cbn [check_loop] in H.
  { injection H as <- <- <- <- <- <-. apply ck_none; [constructor|apply upd_upd0, upd_refl|apply calm_refl]. }
  assert (NX : forall f1 nw1 nfp1 w1, upd f f1 -> upd0 nw nw1 -> calm w w1 -> held w1 (f_path nw1) nfp1 ->
    (let '(r', nw', res, w', c, s) := check_loop md5 makelinks deletedups maxlinks ext r nw1 size nfp1 None w1 count saved in
     (f1 :: r', nw', res, w', c, s)) = (l', nw', res, w', c, s) ->
    checked w nw size count saved (f :: r) l' nw' res w' c s).
  { intros f1 nw1 nfp1 w1 U N C Hn X.
    destruct (check_loop md5 makelinks deletedups maxlinks ext r nw1 size nfp1 None w1 count saved)
      as [[[[[r' nx] rx] wx] cx] sx] eqn:E. injection X as <- <- <- <- <- <-.
    eapply checked_cons; try eassumption. eapply IH; eassumption. }
  destruct (f_path f) as [fp|] eqn:Pf.
  2:{ eapply NX; [apply upd_refl|apply upd_upd0, upd_refl|apply calm_refl|exact Hh|exact H]. }
  destruct (fst (f_node nw) =? fst (f_node f)) eqn:Dv; cbn [negb] in H.
  2:{ eapply NX; [apply upd_refl|apply upd_upd0, upd_refl|apply calm_refl|exact Hh|exact H]. }
  apply Z.eqb_eq in Dv.
  destruct (snd (f_node nw) =? snd (f_node f)) eqn:Ino.
  { apply Z.eqb_eq in Ino. injection H as <- <- <- <- <- <-.
    apply (ck_skip w nw size count saved [] []); try assumption; try (apply upd_upd0, upd_refl); try apply calm_refl.
    - constructor.
    - congruence.
    - left. destruct (f_node nw), (f_node f). simpl in *. congruence. }
  apply Z.eqb_neq in Ino.
  destruct (maxlinks <=? f_nlink nw) eqn:Mx.
  { apply Z.leb_le in Mx. injection H as <- <- <- <- <- <-.
    apply (ck_skip w nw size count saved [] []); try assumption; try (apply upd_upd0, upd_refl); try apply calm_refl.
    - constructor.
    - congruence.
    - right. assumption. }
  apply Z.leb_gt in Mx.
  destruct (need_part md5 nw nfp w) as [[nw1 nfp1] w1] eqn:E1.
  apply need_part_spec in E1; [|exact Hh]. destruct E1 as (C1 & U1 & H1).
  destruct (need_part md5 f None w1) as [[f1 ofp1] w2] eqn:E2.
  apply need_part_spec in E2; [|apply held_none]. destruct E2 as (C2 & U2 & H2).
  assert (C12 : calm w w2) by (eapply calm_trans; eassumption).
  assert (H1' : held w2 (f_path nw1) nfp1) by (eapply held_calm; [exact C2|exact H1]).
  destruct (f_part nw1 =? f_part f1); cbn [negb] in H.
  2:{ eapply NX; [exact U2|apply upd_upd0; exact U1|exact C12|exact H1'|exact H]. }
  destruct (need_full md5 nw1 nfp1 w2) as [[nw2 nfp2] w3] eqn:E3.
  apply need_full_spec in E3; [|exact H1']. destruct E3 as (C3 & U3 & H3).
  destruct (need_full md5 f1 ofp1 w3) as [[f2 ofp2] w4] eqn:E4.
  apply need_full_spec in E4; [|eapply held_calm; [exact C3|exact H2]]. destruct E4 as (C4 & U4 & H4).
  assert (C34 : calm w w4) by (eapply calm_trans; [exact C12|eapply calm_trans; eassumption]).
  assert (UN : upd nw nw2) by (eapply upd_trans; [exact U1|exact U3]).
  assert (UF : upd f f2) by (eapply upd_trans; [exact U2|exact U4]).
  assert (H3' : held w4 (f_path nw2) nfp2) by (eapply held_calm; [exact C4|exact H3]).
  destruct (f_full nw2 =? f_full f2); cbn [negb] in H.
  2:{ eapply NX; [exact UF|apply upd_upd0; exact UN|exact C34|exact H3'|exact H]. }
  destruct (full_match nw2 f2 nfp2 ofp2 w4) as [[[[m nw3] nfp3] ofp3] w5] eqn:E5.
  apply full_match_spec in E5; [|exact H3'|exact H4]. destruct E5 as (C5 & U5 & H5 & M5).
  assert (C05 : calm w w5) by (eapply calm_trans; [exact C34|exact C5]).
  destruct m.
  2:{ eapply NX; [exact UF|eapply upd0_trans; [apply upd_upd0; exact UN|exact U5]|exact C05|exact H5|exact H]. }
  destruct (M5 eq_refl) as (-> & p & q & a & b & Pp & Pq & La & Lb & Eq). clear M5.
  destruct C34 as (D4 & PA4 & SY4 & RO4 & OO4). rewrite D4 in *.
  destruct UN as (UN1 & UN2 & UN3). destruct UF as (UF1 & UF2 & UF3).
  assert (Nd : f_node nw <> f_node f) by congruence.
  rewrite UN1 in Pp. rewrite UF1 in Pq. rewrite UF3 in H.
  destruct (maxlinks <=? f_nlink f) eqn:Mf.
  { apply Z.leb_le in Mf. injection H as <- <- <- <- <- <-.
    apply (ck_reset w nw size count saved [] []) with (p := p) (q := q) (a := a) (b := b); try assumption; try lia.
    - constructor.
    - repeat split; assumption.
    - auto. }
  apply Z.leb_gt in Mf.
  assert (G : forall f'' w6 res0 c0 s0,
   (   (makelinks = true /\ do_hardlink ext nw2 f2 w5 = (true, w6) /\ res0 = Found
         /\ f'' = mkfile (f_path f2) (f_node f2) (f_nlink f2 + 1) (f_full f2) (f_part f2)
         /\ c0 = u64 (count + 1) /\ s0 = (if f_nlink nw =? 1 then u64 (saved + size) else saved))
     \/ (makelinks = true /\ do_hardlink ext nw2 f2 w5 = (false, w6) /\ res0 = Failed /\ f'' = f2
         /\ c0 = count /\ s0 = saved)
     \/ (makelinks = false /\ deletedups = true /\ syscall true (d_unlink p) w5 = (true, w6) /\ res0 = Found /\ f'' = f2
         /\ c0 = u64 (count + 1) /\ s0 = (if f_nlink nw =? 1 then u64 (saved + size) else saved))
     \/ (makelinks = false /\ deletedups = true /\ syscall true (d_unlink p) w5 = (false, w6) /\ res0 = Found /\ f'' = f2
         /\ c0 = u64 (count + 1) /\ s0 = saved)
     \/ (makelinks = false /\ deletedups = false /\ w6 = w5 /\ res0 = Found /\ f'' = f2
         /\ c0 = u64 (count + 1) /\ s0 = u64 (saved + size))) ->
   checked w nw size count saved (f :: r) (f'' :: r) nw2 res0 w6 c0 s0).
  { intros f'' w6 res0 c0 s0 X.
    apply (ck_match w nw size count saved [] [] f f2 f'' r nw2 nw2 w5 w6 p q a b); try assumption; try lia; try reflexivity.
    - constructor.
    - repeat split; assumption.
    - repeat split; assumption.
    - auto. }
  rewrite UN3, UN1, Pp in H. destruct makelinks.
  { destruct (do_hardlink ext nw2 f2 w5) as [[|] w6] eqn:DH; injection H as <- <- <- <- <- <-; apply G; [left|right; left].
    - repeat split. rewrite UF3. reflexivity.
    - repeat split. }
  destruct deletedups.
  { destruct C05 as (D5 & _). rewrite D5, La in H.
    destruct (syscall true (d_unlink p) w5) as [[|] w6] eqn:DH; injection H as <- <- <- <- <- <-; apply G.
    - right. right. left. repeat split.
    - right. right. right. left. repeat split. }
  injection H as <- <- <- <- <- <-. apply G. right. right. right. right. repeat split.
Qed.
End Search.
