(* Specification and proofs about hard links (C42). *)
From Verif Require Import Bytes LinkModel.

(* ---------- Specification ---------- *)

Definition linked (f : file) : bool := (1 <? f_nlink f) && f_kind f.
Definition same_inode (f g : file) : bool := (f_dev f =? f_dev g) && (f_ino f =? f_ino g).
(* What is to be sent for a file after the ones before it. *)
Definition to_send (before : list file) (f : file) : list sent :=
  if linked f
  then match find (fun g => linked g && same_inode f g) before with
       | None => [SFile (f_name f)]
       | Some first => if beqb (f_name first) (f_name f) then [] else [SLink (f_name f) (f_name first)]
       end
  else [SFile (f_name f)].

(* ---------- Proofs ---------- *)

(* The table holds the first file of every inode. *)
Definition tab_ok (t : table) (before : list file) : Prop :=
  forall dev ino, option_map fl_name (linkhash_search t dev ino) =
    option_map f_name (find (fun g => linked g && ((dev =? f_dev g) && (ino =? f_ino g))) before).
Lemma bucket_found : forall dev ino l lp, bucket_search dev ino l = Some lp -> fl_dev lp = dev /\ fl_ino lp = ino.
Proof.
  induction l as [|x l IH]; intros lp H; cbn in H; [discriminate|]. destruct ((fl_ino x =? ino) && (fl_dev x =? dev)) eqn:E; auto.
  injection H as <-. lia.
Qed.
Lemma search_add : forall t dev ino name d i,
  linkhash_search (linkhash_add t dev ino name) d i =
  if (i =? ino) && (d =? dev) then Some (mklink dev ino name) else linkhash_search t d i.
Proof.
  intros. unfold linkhash_search, linkhash_add. destruct (Z.eqb_spec (get_hash d i) (get_hash dev ino)) as [E|E].
  - cbn [bucket_search fl_ino fl_dev]. rewrite (Z.eqb_sym ino i), (Z.eqb_sym dev d). auto.
  - destruct ((i =? ino) && (d =? dev)) eqn:X; auto. exfalso. apply E. f_equal; lia.
Qed.
Lemma find_app_l : forall A (p : A -> bool) l x, find p (l ++ [x]) = match find p l with Some y => Some y | None => if p x then Some x else None end.
Proof. intros A p. induction l as [|y l IH]; intros x; cbn; auto. destruct (p y); auto. Qed.
Lemma send_one : forall t before f t' s, tab_ok t before -> my_send_file_w t f = (t', s) -> s = to_send before f /\ tab_ok t' (before ++ [f]).
Proof.
  intros t before f t' s T H. unfold my_send_file_w in H. fold (linked f) in H. unfold to_send. destruct (linked f) eqn:L.
  - pose proof (T (f_dev f) (f_ino f)) as Tf. unfold same_inode.
    destruct (find (fun g => linked g && ((f_dev f =? f_dev g) && (f_ino f =? f_ino g))) before) as [first|] eqn:F.
    + destruct (linkhash_search t (f_dev f) (f_ino f)) as [lp|] eqn:S; [|discriminate]. cbn in Tf. injection Tf as Tf.
      assert (K : tab_ok t (before ++ [f])).
      { intros d i. rewrite find_app_l, T. destruct (find (fun g => linked g && ((d =? f_dev g) && (i =? f_ino g))) before) as [g|] eqn:F2; auto.
        destruct (linked f && ((d =? f_dev f) && (i =? f_ino f))) eqn:X; auto. exfalso.
        assert (d = f_dev f /\ i = f_ino f) by lia. destruct H0 as (-> & ->). congruence. }
      rewrite Tf in H. destruct (beqb (f_name first) (f_name f)); injection H as <- <-; auto.
    + destruct (linkhash_search t (f_dev f) (f_ino f)) as [lp|] eqn:S; [discriminate|]. injection H as <- <-. split; auto.
      intros d i. rewrite search_add, find_app_l, L. cbn [andb].
      destruct ((i =? f_ino f) && (d =? f_dev f)) eqn:X.
      * assert (d = f_dev f /\ i = f_ino f) by lia. destruct H as (-> & ->). rewrite F, !Z.eqb_refl. auto.
      * rewrite T. destruct (find (fun g => linked g && ((d =? f_dev g) && (i =? f_ino g))) before); auto. rewrite andb_comm in X. rewrite X. auto.
  - injection H as <- <-. split; auto. intros d i. rewrite T, find_app_l. destruct (find (fun g => linked g && ((d =? f_dev g) && (i =? f_ino g))) before); auto. rewrite L. auto.
Qed.
Theorem send_exact : forall l n f, nth_error l n = Some f ->
  nth_error (send_files linkhash_init l) n = Some (to_send (firstn n l) f).
Proof.
  assert (G : forall l t before, tab_ok t before -> forall n f, nth_error l n = Some f ->
    nth_error (send_files t l) n = Some (to_send (before ++ firstn n l) f)).
  { induction l as [|x l IH]; intros t before T n f N; [destruct n; discriminate|].
    cbn [send_files]. destruct (my_send_file_w t x) as [t' s] eqn:E. destruct (send_one _ _ _ _ _ T E) as (Es & T').
    destruct n as [|n]; cbn [nth_error firstn] in *.
    - injection N as <-. rewrite app_nil_r, Es. auto.
    - rewrite (IH t' _ T' n f N), <- app_assoc. auto. }
  intros l n f N. apply (G l linkhash_init [] (fun d i => eq_refl) n f N).
Qed.
Theorem send_length : forall l t, List.length (send_files t l) = List.length l.
Proof. induction l as [|x l IH]; intros t; cbn; auto. destruct (my_send_file_w t x). cbn. rewrite IH. auto. Qed.
(* The data of an inode is sent for the first of its files and no other. *)
Theorem data_once : forall l n m f g, nth_error l n = Some f -> nth_error l m = Some g -> linked f = true -> linked g = true ->
  same_inode f g = true -> (exists a, nth_error (send_files linkhash_init l) n = Some [SFile a]) ->
  (exists b, nth_error (send_files linkhash_init l) m = Some [SFile b]) -> n = m.
Proof.
  assert (G : forall l n m f g, (n < m)%nat -> nth_error l n = Some f -> nth_error l m = Some g -> linked f = true -> linked g = true ->
    same_inode f g = true -> (exists b, nth_error (send_files linkhash_init l) m = Some [SFile b]) -> False).
  { intros l n m f g L N M Lf Lg Sm (b & B). rewrite (send_exact l m g M) in B. injection B as B. unfold to_send in B. rewrite Lg in B.
    destruct (find (fun g0 => linked g0 && same_inode g g0) (firstn m l)) as [h|] eqn:F.
    - destruct (beqb (f_name h) (f_name g)); discriminate.
    - assert (I : In f (firstn m l)).
      { apply nth_error_In with n. rewrite <- N. rewrite <- (firstn_skipn m l) at 2. rewrite nth_error_app1; auto.
        rewrite firstn_length. assert (n < List.length l)%nat by (apply nth_error_Some; congruence). lia. }
      pose proof (find_none _ _ F f I) as X. cbv beta in X. rewrite Lf in X. unfold same_inode in *. lia. }
  intros l n m f g N M Lf Lg Sm A B. destruct (Nat.lt_trichotomy n m) as [L|[E|L]]; auto; exfalso.
  - exact (G l n m f g L N M Lf Lg Sm B).
  - apply (G l m n g f L M N Lg Lf); auto. unfold same_inode in *. lia.
Qed.

(* The bucket number is inside the table (/repo/src/linkhash.c:42-52). *)
Theorem bucket_in_range : forall dev ino, 0 <= get_hash dev ino < 65536.
Proof.
  intros dev ino. unfold get_hash. change 65535 with (Z.ones 16). rewrite Z.land_ones by lia. apply Z.mod_pos_bound. reflexivity.
Qed.
