(* The entries of the page of logs in the status monitor: specification and proofs. *)
From Verif Require Import Bytes NavModel.
From Coq Require Import Lia ZifyBool ZifyNat.

(* ---- specification ---- *)
(* The entries of the page of logs. *)
Definition entries (f : Z) : list Z := filter (fun b => hit b f) log_bits.

(* ---- proofs ---- *)
Lemma land_high : forall f k, 0 <= f < 2 ^ 13 -> 13 <= k -> hit (2 ^ k) f = false.
Proof.
  intros f k F K. unfold hit. replace (Z.land (2 ^ k) f) with 0; auto. symmetry. apply Z.bits_inj'. intros n hn.
  rewrite Z.land_spec, Z.bits_0, Z.pow2_bits_eqb by lia. destruct (k =? n) eqn:E; auto. cbn.
  apply Z.eqb_eq in E. subst n. destruct (Z.eq_dec f 0) as [->|]; [apply Z.bits_0|]. apply Z.bits_above_log2; [lia|].
  assert (Z.log2 f < 13) by (apply Z.log2_lt_pow2; lia). lia.
Qed.
Lemma filter_swap : forall (p q : Z -> bool) l, filter p (filter q l) = filter q (filter p l).
Proof.
  induction l as [|a l IH]; auto. cbn. destruct (p a) eqn:P, (q a) eqn:Q; cbn; rewrite ?P, ?Q, ?IH; auto.
Qed.
Lemma hd_filter : forall (h : Z -> bool) a l d, hd d (filter h (a :: l)) = if h a then a else hd d (filter h l).
Proof. intros. cbn. destruct (h a); auto. Qed.
Lemma last_hd : forall (l : list Z) d, List.last l d = hd d (rev l).
Proof. intros l d. induction l as [|a l _] using rev_ind; auto. rewrite last_last, rev_app_distr. auto. Qed.
Lemma rev_filter : forall (h : Z -> bool) l, rev (filter h l) = filter h (rev l).
Proof.
  induction l as [|a l IH]; auto. cbn. rewrite filter_app, <- IH. cbn. destruct (h a); cbn; auto. rewrite app_nil_r. auto.
Qed.
Lemma down_step : forall m f sh old, sh <> 0 -> down_logs (S m) (Some f) sh old =
  if hit ((2 * sh) mod 65536) f then Some ((2 * sh) mod 65536) else down_logs m (Some f) ((2 * sh) mod 65536) old.
Proof. intros. cbn [down_logs]. apply Z.eqb_neq in H. rewrite H. reflexivity. Qed.
Lemma down_zero : forall m f old, down_logs m f 0 old = Some old.
Proof. destruct m; reflexivity. Qed.
Lemma up_step : forall m f sh old, 32 < sh -> up_logs (S m) (Some f) sh old =
  if hit (Z.shiftr sh 1) f then Some (Z.shiftr sh 1) else up_logs m (Some f) (Z.shiftr sh 1) old.
Proof. intros. cbn [up_logs]. apply Z.ltb_lt in H. rewrite H. reflexivity. Qed.
Lemma up_stop : forall m f old, up_logs m f 32 old = Some old.
Proof. destruct m; reflexivity. Qed.
Ltac chain1 := match goal with |- context[if hit ?a ?f then _ else _] => destruct (hit a f) eqn:?; [reflexivity|] end.
Ltac dstep := rewrite down_step by discriminate;
  match goal with |- context[(2 * ?x) mod 65536] => let v := eval vm_compute in ((2 * x) mod 65536) in change ((2 * x) mod 65536) with v end.
Ltac ustep := rewrite up_step by lia;
  match goal with |- context[Z.shiftr ?x 1] => let v := eval vm_compute in (Z.shiftr x 1) in change (Z.shiftr x 1) with v end.
Theorem down_spec : forall f o, 0 <= f < 2 ^ 13 -> In o log_bits ->
  down_logs 16 (Some f) o o = Some (hd o (filter (fun b => o <? b) (entries f))).
Proof.
  intros f o F I. pose proof (land_high f 13 F ltac:(lia)) as A. pose proof (land_high f 14 F ltac:(lia)) as B. pose proof (land_high f 15 F ltac:(lia)) as C.
  assert (D : hit 0 f = false) by reflexivity. change (2 ^ 13) with 8192 in A. change (2 ^ 14) with 16384 in B. change (2 ^ 15) with 32768 in C.
  unfold entries. rewrite filter_swap. set (h := fun b => hit b f).
  unfold log_bits in I. cbn [In] in I. repeat destruct I as [<-|I]; try contradiction;
  match goal with |- context[filter (fun b => ?o <? b) log_bits] => let v := eval vm_compute in (filter (fun b => o <? b) log_bits) in change (filter (fun b => o <? b) log_bits) with v end;
  repeat rewrite hd_filter; unfold h;
  repeat (dstep; first [rewrite A|rewrite B|rewrite C|rewrite D|chain1]); rewrite ?down_zero; reflexivity.
Qed.
Theorem up_spec : forall f o, In o log_bits ->
  up_logs 16 (Some f) o o = Some (List.last (filter (fun b => b <? o) (entries f)) o).
Proof.
  intros f o I. unfold entries. rewrite filter_swap, last_hd, rev_filter. set (h := fun b => hit b f).
  unfold log_bits in I. cbn [In] in I. repeat destruct I as [<-|I]; try contradiction;
  match goal with |- context[rev (filter (fun b => b <? ?o) log_bits)] => let v := eval vm_compute in (rev (filter (fun b => b <? o) log_bits)) in change (rev (filter (fun b => b <? o) log_bits)) with v end;
  repeat rewrite hd_filter; unfold h; repeat (ustep; chain1); rewrite ?up_stop; reflexivity.
Qed.
