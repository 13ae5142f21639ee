(* Leftovers of an interrupted backup (C27). *)
From Verif Require Import Bytes RubbleModel.

(* ---------- incexc_matches ---------- *)

Lemma chunk_pos : (0 < chunk)%nat.
Proof. unfold chunk. lia. Qed.
Global Opaque chunk.

Lemma same_start_spec a : forall b, same_start a b = true <-> exists c, b = a ++ c.
Proof.
  induction a as [|x a IH]; intros b; cbn.
  - split; [exists b; reflexivity|reflexivity].
  - destruct b as [|y b]; [split; [discriminate|intros [c H]; discriminate]|].
    rewrite andb_true_iff, Z.eqb_eq, IH. split.
    + intros [-> [c ->]]. exists c; reflexivity.
    + intros [c H]. injection H as -> ->. split; [reflexivity|exists c; reflexivity].
Qed.

(* With the file longer than what is compared, the rest is overlooked just when
   the comparison ends on a chunk. *)
Definition cut_at_chunk (f inc : bytes) : Prop :=
  exists k, List.length inc = (k * chunk)%nat /\ exists r, r <> [] /\ f = inc ++ r.

Lemma inc_left_nil : forall fuel f inc, (List.length f <= fuel)%nat ->
  (inc_left fuel f inc = [] <-> f = inc \/ cut_at_chunk f inc).
Proof.
  pose proof chunk_pos as Hc.
  induction fuel as [|k IH]; intros f inc Hf; cbn [inc_left].
  - destruct f; [|cbn in Hf; lia]. split.
    + intros ->; left; reflexivity.
    + intros [H|(j & _ & r & Hr & E)]; [auto|]. destruct inc; [reflexivity|discriminate].
  - destruct f as [|x f].
    { split; [intros ->; left; reflexivity|]. intros [H|(j & _ & r & Hr & E)]; [auto|].
      destruct inc; [reflexivity|discriminate]. }
    remember (x :: f) as g eqn:Eg.
    assert (Hl : (0 < List.length (firstn chunk g))%nat).
    { rewrite firstn_length. subst g; cbn [List.length]. lia. }
    destruct (Nat.ltb_spec (List.length inc) (List.length (firstn chunk g))) as [L|L].
    { rewrite firstn_length in L. split.
      - intros ->. right. exists 0%nat. split; [reflexivity|]. exists g. subst g. split; [discriminate|reflexivity].
      - intros [->|(j & Hj & r & Hr & E)]; [lia|].
        destruct j; [destruct inc; [reflexivity|discriminate]|]. cbn in Hj. lia. }
    destruct (same_start (firstn chunk g) inc) eqn:Es.
    + apply same_start_spec in Es. destruct Es as [c ->].
      rewrite skipn_app, skipn_all, Nat.sub_diag. cbn [app skipn].
      rewrite IH by (rewrite skipn_length; subst g; cbn [List.length] in *; lia).
      pose proof (firstn_skipn chunk g) as Eg'.
      split.
      * intros [E|(j & Hj & r & Hr & E)].
        -- left. rewrite <- E. symmetry; exact Eg'.
        -- right. exists (S j). split.
           ++ rewrite app_length, Hj, firstn_length.
              destruct (Nat.leb_spec (List.length g) chunk) as [Lg|Lg].
              { rewrite skipn_all2 in E by lia. destruct c; [|discriminate]. destruct r; [contradiction|discriminate]. }
              cbn. lia.
           ++ exists r. split; [exact Hr|]. rewrite <- app_assoc, <- E. symmetry; exact Eg'.
      * intros [E|(j & Hj & r & Hr & E)].
        -- left. apply (app_inv_head (firstn chunk g)). congruence.
        -- assert (Ec : skipn chunk g = c ++ r).
           { apply (app_inv_head (firstn chunk g)). rewrite Eg', app_assoc. exact E. }
           destruct (Nat.leb_spec (List.length g) chunk) as [Lg|Lg].
           { rewrite skipn_all2 in Ec by lia. destruct c; [|discriminate]. destruct r; [contradiction|discriminate]. }
           rewrite app_length, firstn_length in Hj. destruct j; [lia|].
           right. exists j. split; [|exists r; auto]. cbn in Hj. lia.
    + split.
      * intros ->. cbn in L. lia.
      * intros H. exfalso. assert (X : same_start (firstn chunk g) inc = true); [|congruence].
        apply same_start_spec. destruct H as [<-|(j & Hj & r & Hr & E)].
        -- exists (skipn chunk g). symmetry; apply firstn_skipn.
        -- exists (skipn (List.length (firstn chunk g)) inc).
           rewrite <- (firstn_skipn (List.length (firstn chunk g)) inc) at 1. f_equal.
           rewrite firstn_length in *. rewrite E.
           assert ((Nat.min chunk (List.length g) <= List.length inc)%nat) by exact L.
           destruct (Nat.leb_spec (List.length g) chunk).
           { exfalso. rewrite E, app_length in *. destruct r; [contradiction|cbn in *; lia]. }
           rewrite Nat.min_l in * by lia. rewrite Nat.min_l in * by (rewrite <- E; lia).
           rewrite firstn_app. replace (chunk - List.length inc)%nat with 0%nat by lia.
           rewrite firstn_O, app_nil_r. reflexivity.
Qed.

Lemma incexc_spec old inc : incexc_matches old inc = true <->
  old = None \/ old = Some inc \/ exists f, old = Some f /\ cut_at_chunk f inc.
Proof.
  destruct old as [f|]; cbn [incexc_matches].
  - pose proof (inc_left_nil (List.length f) f inc (Nat.le_refl _)) as H.
    destruct (inc_left (List.length f) f inc); split.
    + intros _. right. destruct (proj1 H eq_refl) as [->|X]; [left; reflexivity|right; exists f; auto].
    + reflexivity.
    + discriminate.
    + intros [E|[E|(g & E & X)]]; [discriminate| |]; exfalso; injection E as ->;
        [assert (Y : z :: b = []) by (apply H; left; reflexivity)|assert (Y : z :: b = []) by (apply H; right; exact X)]; discriminate.
  - split; [left; reflexivity|reflexivity].
Qed.

(* ---------- what is done with a working directory ---------- *)

(* The scan is known to be complete. *)
Definition scan_done (w : wdir) : Prop :=
  w_p1tmp w = false /\ (w_p1 w = true \/ w_ch w <> None \/ w_un w <> None).

Lemma scan_unfinished_spec w : scan_unfinished w = false <-> scan_done w.
Proof.
  unfold scan_unfinished, scan_done. destruct (w_p1tmp w), (w_p1 w), (w_ch w), (w_un w); cbn; intuition congruence.
Qed.

(* Attempts are left, counting this one. *)
Definition attempts_left (c : cfg) (w : wdir) : Prop :=
  c_max c <= 0 \/ match w_resumes w with None => 1 | Some n => n + 1 end <= c_max c.

Lemma resume_iff c w : recover_working c w = Resume <->
  w_there w = true /\ scan_done w /\ attempts_left c w /\ c_method c = MResume /\ c_super c = false /\
  incexc_matches (w_inc w) (c_inc c) = true.
Proof.
  unfold recover_working, attempts_left, count_up, working_resume.
  pose proof (scan_unfinished_spec w) as Hs.
  destruct (w_there w); cbn [negb]; [|split; [discriminate|intros (H & _); discriminate]].
  destruct (scan_unfinished w).
  { split; [discriminate|]. intros (_ & H & _). apply Hs in H. discriminate. }
  assert (Hd : scan_done w) by (apply Hs; reflexivity).
  set (n := match w_resumes w with None => 1 | Some n => n + 1 end).
  assert (E : match match w_resumes w with None => Some 1 | Some n => Some (n + 1) end with
              | Some n => if (0 <? c_max c) && (c_max c <? n) then MDelete else c_method c
              | None => c_method c end = if (0 <? c_max c) && (c_max c <? n) then MDelete else c_method c)
    by (unfold n; destruct (w_resumes w); reflexivity).
  rewrite E. destruct (Z.ltb_spec 0 (c_max c)) as [L0|L0], (Z.ltb_spec (c_max c) n) as [L1|L1]; cbn [andb].
  1: { split; [discriminate|]. intros (_ & _ & [H|H] & _); lia. }
  all: destruct (c_method c) eqn:Em; try (split; [discriminate|intros (_ & _ & _ & H & _); discriminate]);
    destruct (c_super c); try (split; [discriminate|intros (_ & _ & _ & _ & H & _); discriminate]);
    destruct (incexc_matches (w_inc w) (c_inc c));
    (split; [try discriminate; intros _; repeat (split; [first [reflexivity|exact Hd|lia]|]); first [reflexivity]
            |intros (_ & _ & _ & _ & _ & H); first [reflexivity|discriminate]]).
Qed.

Lemma delete_iff c w : recover_working c w = Deleted <->
  w_there w = true /\
  (~ scan_done w \/ ~ attempts_left c w \/ c_method c = MDelete \/
   c_method c = MResume /\ c_super c = false /\ incexc_matches (w_inc w) (c_inc c) = false).
Proof.
  unfold recover_working, attempts_left, count_up, working_resume.
  pose proof (scan_unfinished_spec w) as Hs.
  destruct (w_there w); cbn [negb]; [|split; [discriminate|intros (H & _); discriminate]].
  destruct (scan_unfinished w).
  { split; [|reflexivity]. intros _. split; [reflexivity|left]. intros H; apply Hs in H; discriminate. }
  assert (Hd : scan_done w) by (apply Hs; reflexivity).
  set (n := match w_resumes w with None => 1 | Some n => n + 1 end).
  assert (E : match match w_resumes w with None => Some 1 | Some n => Some (n + 1) end with
              | Some n => if (0 <? c_max c) && (c_max c <? n) then MDelete else c_method c
              | None => c_method c end = if (0 <? c_max c) && (c_max c <? n) then MDelete else c_method c)
    by (unfold n; destruct (w_resumes w); reflexivity).
  rewrite E. destruct (Z.ltb_spec 0 (c_max c)) as [L0|L0], (Z.ltb_spec (c_max c) n) as [L1|L1]; cbn [andb].
  1: { split; [|reflexivity]. intros _. split; [reflexivity|right; left]. lia. }
  all: destruct (c_method c) eqn:Em.
  all: try (split; [intros _; split; [reflexivity|right; right; left; reflexivity]|reflexivity]).
  all: try (split; [discriminate|intros (_ & [H|[H|[H|(H & _)]]]); [contradiction|lia|discriminate|discriminate]]).
  all: destruct (c_super c);
    try (split; [discriminate|intros (_ & [H|[H|[H|(_ & H & _)]]]); [contradiction|lia|discriminate|discriminate]]).
  all: destruct (incexc_matches (w_inc w) (c_inc c));
    try (split; [discriminate|intros (_ & [H|[H|[H|(_ & _ & H)]]]); [contradiction|lia|discriminate|discriminate]]);
    (split; [intros _; split; [reflexivity|right; right; right; auto]|reflexivity]).
Qed.

(* ---------- backups stopped and resumed ---------- *)

Section Stopped.
Variables (ch un : list Z) (inc : bytes).

(* The directory of a backup begun with these includes, stopped, resumed by
   requests of the next clients, stopped again and so on. *)
Inductive left_by : wdir -> Prop :=
| left_scanning : forall w, In w (new_scanning inc) -> left_by w
| left_scanned : forall w, In w (new_scanned ch un inc) -> left_by w
| left_again : forall c w w', left_by w -> recover_working c w = Resume ->
    In w' (resumed ch un w) -> left_by w'.

(* The manifest is made, and changed is deleted. *)
Definition past_merge (w : wdir) : Prop := w_man w <> None /\ w_ch w = None.

(* No stop was there. *)
Inductive left_well : wdir -> Prop :=
| well_scanning : forall w, In w (new_scanning inc) -> left_well w
| well_scanned : forall w, In w (new_scanned ch un inc) -> left_well w
| well_again : forall c w w', left_well w -> ~ past_merge w -> recover_working c w = Resume ->
    In w' (resumed ch un w) -> left_well w'.

Definition inc_of : option bytes := match inc with [] => None | _ => Some inc end.

Definition unscanned (w : wdir) : Prop := w_p1 w = false /\ w_ch w = None /\ w_un w = None /\ w_man w = None.

Definition done_scan (w : wdir) : Prop :=
  w_there w = true /\ w_p1tmp w = false /\ w_inc w = inc_of /\
  (w_p1 w = true \/
   w_p1 w = false /\ w_ch w = Some ch /\ w_un w = Some un \/
   past_merge w /\ w_p1 w = false /\ w_man w = Some (ch ++ un)).

Lemma scanning_un w : In w (new_scanning inc) -> unscanned w.
Proof.
  unfold new_scanning, scan_steps. destruct inc; cbn; intros H;
    repeat (destruct H as [<-|H]; [repeat split|]); destruct H.
Qed.

Ltac fin_state :=
  split; [cbn; auto|split; [cbn; auto|split; [cbn; auto|]]]; cbn;
  first [left; first [reflexivity|assumption]
        |right; left; repeat split; first [reflexivity|assumption]
        |right; right; split; [split; cbn; congruence|split; first [reflexivity|assumption]]].

Lemma scanned_done w : In w (new_scanned ch un inc) -> done_scan w.
Proof.
  unfold new_scanned, scan_steps, done_scan, inc_of. destruct inc; cbn; intros H;
    repeat (destruct H as [<-|H]; [fin_state|]); destruct H.
Qed.

Lemma unscanned_no_resume c w : unscanned w -> recover_working c w <> Resume.
Proof.
  intros (A & B & C & D) H. apply resume_iff in H. destruct H as (_ & [_ [H|[H|H]]] & _); congruence.
Qed.

Lemma done_resumed c w w' : done_scan w -> ~ past_merge w -> recover_working c w = Resume ->
  In w' (resumed ch un w) -> done_scan w'.
Proof.
  intros (A & B & C & [D|[(D & E & F)|(D & _)]]) Hn Hr; [| |contradiction].
  - unfold resumed, resume_steps. rewrite D. cbn. unfold done_scan. intros H.
    repeat (destruct H as [<-|H]; [fin_state|]); destruct H.
  - unfold resumed, resume_steps. rewrite D, E, F. cbn. unfold done_scan. intros H.
    repeat (destruct H as [<-|H]; [unfold entries; cbn; rewrite ?E, ?F; fin_state|]); destruct H.
Qed.

Lemma well_inv w : left_well w -> In w (new_scanning inc) \/ done_scan w.
Proof.
  induction 1 as [w H|w H|c w w' Hw IH Hn Hr Hi]; [left; exact H|right; apply scanned_done, H|right].
  destruct IH as [IH|IH]; [exfalso; apply (unscanned_no_resume c w); [apply scanning_un, IH|exact Hr]|].
  eapply done_resumed; eassumption.
Qed.

(* Until changed is deleted, a backup that is resumed goes on to a manifest with
   all entries. *)
Lemma resumed_completes c w : left_well w -> ~ past_merge w -> recover_working c w = Resume ->
  resumed_ok ch un w = true /\ w_man (resumed_end ch un w) = Some (ch ++ un).
Proof.
  intros Hw Hn Hr. destruct (well_inv w Hw) as [H|H].
  { exfalso. apply (unscanned_no_resume c w); [apply scanning_un, H|exact Hr]. }
  destruct H as (A & B & C & [D|[(D & E & F)|(D & _)]]); [| |contradiction].
  - unfold resumed_ok, resumed_end, resume_steps. rewrite D. cbn. auto.
  - unfold resumed_ok, resumed_end, resume_steps. rewrite D, E, F. cbn. unfold entries. cbn. rewrite E, F. auto.
Qed.

(* With a stop at any moment, still the scan is the whole one and the includes are
   those of the scan. *)
Definition done_inc (w : wdir) : Prop := w_there w = true /\ w_p1tmp w = false /\ w_inc w = inc_of.

Lemma left_inv w : left_by w -> In w (new_scanning inc) \/ done_inc w.
Proof.
  induction 1 as [w H|w H|c w w' Hw IH Hr Hi]; [left; exact H| |].
  - right. destruct (scanned_done w H) as (A & B & C & _). repeat split; assumption.
  - right. destruct IH as [IH|(A & B & C)]; [exfalso; apply (unscanned_no_resume c w); [apply scanning_un, IH|exact Hr]|].
    unfold resumed, resume_steps in Hi.
    destruct (negb (w_p1 w) && is (w_ch w) && is (w_un w)); [|destruct (w_p1 w)]; cbn in Hi;
      repeat (destruct Hi as [<-|Hi]; [repeat split; assumption|]); destruct Hi.
Qed.

Lemma never_unscanned c w : In w (new_scanning inc) -> recover_working c w <> Resume.
Proof. intros H. apply unscanned_no_resume, scanning_un, H. Qed.

Lemma same_settings c w : left_by w -> recover_working c w = Resume -> inc <> [] ->
  c_super c = false /\ (c_inc c = inc \/ cut_at_chunk inc (c_inc c)).
Proof.
  intros Hw Hr Hi. destruct (left_inv w Hw) as [H|(A & B & C)].
  { exfalso. apply (never_unscanned c w H Hr). }
  apply resume_iff in Hr. destruct Hr as (_ & _ & _ & _ & Hsup & Hm). split; [exact Hsup|].
  rewrite C in Hm. unfold inc_of in Hm. destruct inc as [|x i]; [contradiction|].
  apply incexc_spec in Hm. destruct Hm as [Hm|[Hm|(f & Hm & Hf)]]; [discriminate| |].
  - injection Hm as <-. left; reflexivity.
  - injection Hm as <-. right; exact Hf.
Qed.
End Stopped.

(* ---------- what goes wrong ---------- *)

Definition cfg0 (i : bytes) : cfg := mkcfg MResume 0 false i.

(* The moment between the deletions of changed and of unchanged. *)
Definition w_between : wdir := nth 6 (new_scanned [1; 2] [3] (str "include = /home")) w_empty.

(* Resumed, the backup fails; resumed again, it gets to the end without the
   changed entries. *)
Lemma merged_without_changed : exists c w w2 : _,
  In w (new_scanned [1; 2] [3] (str "include = /home")) /\
  recover_working c w = Resume /\ resumed_ok [1; 2] [3] w = false /\ w2 = resumed_end [1; 2] [3] w /\
  recover_working c w2 = Resume /\ resumed_ok [1; 2] [3] w2 = true /\
  w_man w = Some [1; 2; 3] /\ w_man (resumed_end [1; 2] [3] w2) = Some [3].
Proof.
  exists (cfg0 (str "include = /home")), w_between, (resumed_end [1; 2] [3] w_between).
  split; [apply nth_In; cbn; lia|]. repeat split.
Qed.

(* A complete backup is deleted. *)
Lemma complete_deleted : exists c w,
  In w (new_scanned [1; 2] [3] (str "include = /home")) /\ c_method c = MResume /\
  c_inc c = str "include = /home" /\ w_man w = Some [1; 2; 3] /\ recover_working c w = Deleted.
Proof.
  exists (cfg0 (str "include = /home")), (nth 7 (new_scanned [1; 2] [3] (str "include = /home")) w_empty).
  split; [apply nth_In; cbn; lia|]. repeat split.
Qed.

(* The includes are cut short at the end of a chunk. *)
Lemma shorter_settings : exists old inc c w,
  In w (new_scanned [1; 2] [3] old) /\ c_inc c = inc /\ inc <> old /\ recover_working c w = Resume.
Proof.
  exists (repeat 97 chunk ++ [98]), (repeat 97 chunk), (cfg0 (repeat 97 chunk)),
    (nth 3 (new_scanned [1; 2] [3] (repeat 97 chunk ++ [98])) w_empty).
  assert (Hin : In (nth 3 (new_scanned [1; 2] [3] (repeat 97 chunk ++ [98])) w_empty) (new_scanned [1; 2] [3] (repeat 97 chunk ++ [98]))).
  { apply nth_In. cbn. lia. }
  split; [exact Hin|]. split; [reflexivity|]. split.
  - intros E. apply (f_equal (@List.length Z)) in E. rewrite app_length in E. cbn in E. lia.
  - apply resume_iff. destruct (scanned_done [1; 2] [3] _ _ Hin) as (A & B & C & D).
    split; [exact A|]. split; [split; [exact B|left; reflexivity]|]. split; [left; cbn; lia|].
    split; [reflexivity|]. split; [reflexivity|]. rewrite C. apply incexc_spec. right; right.
    exists (repeat 97 chunk ++ [98]). split.
    + unfold inc_of. destruct (repeat 97 chunk ++ [98]) eqn:E; [|reflexivity]. destruct (repeat 97 chunk); discriminate.
    + exists 1%nat. split; [unfold cfg0; cbn [c_inc]; rewrite repeat_length; cbn; lia|]. exists [98]. split; [discriminate|reflexivity].
Qed.

(* A deletion because of changed includes is stopped; the next time the rest of the
   directory is resumed. *)
Lemma half_deleted_resumed : exists old c w w',
  In w (new_scanned [1; 2] [3] old) /\ recover_working c w = Deleted /\ half_deleted w w' /\
  recover_working c w' = Resume /\ c_inc c <> old /\ w_ch w' = None /\ resumed_ok [1; 2] [3] w' = true.
Proof.
  exists (str "include = /home"), (cfg0 (str "include = /")),
    (nth 3 (new_scanned [1; 2] [3] (str "include = /home")) w_empty),
    (mkw true false true None None None None None).
  split; [apply nth_In; cbn; lia|]. split; [reflexivity|]. split.
  - repeat split; cbn; auto; try discriminate; try (left; reflexivity); try (right; reflexivity).
  - repeat split. discriminate.
Qed.
