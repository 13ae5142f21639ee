(* C139: a hard link whose file is not restored. *)
From Verif Require Import Bytes PathcmpModel PathcmpProofs CmdModel RestoreModel LinkModel HlsModel HlsProofs.
From Coq Require Import Sorting.Sorted.

(* What comes out of a restore, entry by entry, in the order of C31. *)
Theorem C139_sent_partial : forall ms, links_ok (map fst ms) -> paths_ok (map fst ms) -> no_between ms ->
  restore_run ms = (map (answer ms) (order [] (wanted ms)), true).
Proof. exact restored. Qed.
Print Assumptions C139_sent_partial.
Theorem C139_order : forall l, map rent_of (order [] l) = restore_all (map rent_of l) /\ forall x, In x (order [] l) <-> In x l.
Proof. intros l. split; [apply order_all|]. intros x. rewrite order_in. cbn. tauto. Qed.
Print Assumptions C139_order.
Theorem C139_wanted : forall c bad lines es,
  map fst (mark c bad lines es) = es /\ map rent_of (wanted (mark c bad lines es)) = select c bad lines (map rent_of es).
Proof. intros. split; [apply mark_fst|apply mark_select]. Qed.
Print Assumptions C139_wanted.
Theorem C139_content_partial : forall ms e, links_ok (map fst ms) -> paths_ok (map fst ms) -> no_between ms ->
  In (e, true) ms -> is_link e = true ->
  exists f w, In (f, w) ms /\ has_data f = true /\ e_path f = e_link e /\ e_dev f = e_dev e /\ e_ino f = e_ino e /\
  ((w = true /\ In f (fst (restore_run ms)) /\ In e (fst (restore_run ms))) \/
   (w = false /\ In (copy_of f e) (fst (restore_run ms)))).
Proof. exact link_content. Qed.
Print Assumptions C139_content_partial.

(* A manifest: /d, the file /d/a with metadata, its links /d/b and /d/c. *)
Definition dir_d : ent := mkent (str "/d") CMD_DIRECTORY true 1 2 [] [].
Definition file_a : ent := mkent (str "/d/a") CMD_FILE false 1 7 [] (str "data").
Definition meta_a : ent := mkent (str "/d/a") CMD_METADATA false 1 7 [] (str "acl").
Definition link_b : ent := mkent (str "/d/b") CMD_HARD_LINK false 1 7 (str "/d/a") [].
Definition meta_b : ent := mkent (str "/d/b") CMD_METADATA false 1 7 [] (str "acl").
Definition link_c : ent := mkent (str "/d/c") CMD_HARD_LINK false 1 7 (str "/d/a") [].
Definition some_ms : list (ent * bool) := [(dir_d, true); (file_a, false); (meta_a, false); (link_b, false); (meta_b, false); (link_c, true)].
Lemma split6 : forall (es a b : list ent) e, es = a ++ e :: b -> a = firstn (List.length a) es /\ nth_error es (List.length a) = Some e.
Proof. intros es a b e ->. split; [rewrite firstn_app, Nat.sub_diag, firstn_all; cbn; rewrite app_nil_r; auto|]. rewrite nth_error_app2, Nat.sub_diag; auto. Qed.
Example C139_ex_links : links_ok (map fst some_ms).
Proof.
  intros a e b E K. destruct (split6 _ _ _ _ E) as [A N]. cbn [map fst some_ms] in *. remember (List.length a) as n. clear E Heqn.
  do 6 (destruct n as [|n]; [cbn in N, A; injection N as <-; try discriminate K; (subst a; split; [reflexivity|exists file_a; repeat split; vm_compute; reflexivity])|]).
  destruct n; discriminate N.
Qed.
Example C139_ex_paths : paths_ok (map fst some_ms).
Proof.
  assert (Q : forall a b, raw a -> raw b -> pathcmp_s a b <= 0 -> path_le a b) by (intros; apply pathcmp_s_le; auto).
  assert (R : Forall (fun x => raw (e_path x)) (map fst some_ms)).
  { apply Forall_forall. intros x h. apply cstr_raw, cstrb_ok. cbn in h. repeat (destruct h as [<-|h]; [reflexivity|]). destruct h. }
  split; auto.
  assert (G : forall l, Forall (fun x => raw (e_path x)) l ->
    (fix go l := match l with [] => true | x :: r => forallb (fun y => pathcmp_s (e_path x) (e_path y) <=? 0) r && go r end) l = true ->
    StronglySorted (fun x y => path_le (e_path x) (e_path y)) l).
  { induction l as [|x l IH]; intros r h; constructor; inversion r; subst; apply andb_true_iff in h; destruct h as [h1 h2]; auto.
    rewrite forallb_forall in h1. apply Forall_forall. intros y hy. rewrite Forall_forall in H2. apply Q; auto. specialize (h1 y hy). lia. }
  apply G; auto.
Qed.
Example C139_ex_between : no_between some_ms.
Proof. intros a e r f g E K F. assert (e = link_c \/ is_link e = false) as [->|C]; [|vm_compute in F; discriminate|congruence].
  assert (I : In (e, true) some_ms) by (rewrite E; apply in_elt). cbn in I. repeat (destruct I as [I|I]; [first [discriminate I|injection I as <-; auto]|]). destruct I.
Qed.
Example C139_ex_run : restore_run some_ms = ([copy_of file_a link_c; dir_d], true).
Proof. vm_compute. reflexivity. Qed.
(* ... and with the file wanted, a link to it is sent. *)
Example C139_ex_both : restore_run [(dir_d, true); (file_a, true); (meta_a, true); (link_b, true); (meta_b, true); (link_c, false)] =
  ([file_a; meta_a; link_b; meta_b; dir_d], true).
Proof. vm_compute. reflexivity. Qed.

(* The whole claim is false.  The same manifest, with /d/b left out by a regular
   expression: nothing comes out for /d/c but the metadata of /d/b, although /d/a was
   restored. *)
Definition not_b : rconf := mkrconf true false false false [] (Some (fun p => negb (beqb p (str "/d/b")))).
Theorem C139_meta_refuted : exists c es, links_ok es /\ In (link_c, true) (mark c false [] es) /\ In (file_a, true) (mark c false [] es) /\
  snd (restore_run (mark c false [] es)) = true /\
  (forall x, In x (fst (restore_run (mark c false [] es))) -> e_path x = e_path link_c -> x = copy_of meta_b link_c).
Proof.
  exists not_b, (map fst some_ms). split; [exact C139_ex_links|].
  assert (E : mark not_b false [] (map fst some_ms) = [(dir_d, true); (file_a, true); (meta_a, true); (link_b, false); (meta_b, false); (link_c, true)]) by (vm_compute; reflexivity).
  rewrite E. repeat split; [cbn; auto 8|cbn; auto|].
  intros x. assert (R : fst (restore_run [(dir_d, true); (file_a, true); (meta_a, true); (link_b, false); (meta_b, false); (link_c, true)]) = [file_a; meta_a; copy_of meta_b link_c; dir_d]) by (vm_compute; reflexivity).
  rewrite R. cbn [In]. intros [<-|[<-|[<-|[<-|[]]]]] h; auto; vm_compute in h; discriminate h.
Qed.
Print Assumptions C139_meta_refuted.
(* A link to a special file that is not wanted is sent as a link, to a file that is not
   there. *)
Definition pipe_a : ent := mkent (str "/a") CMD_SPECIAL false 1 9 [] [].
Definition link_p : ent := mkent (str "/p") CMD_HARD_LINK false 1 9 (str "/a") [].
Theorem C139_special_refuted : exists ms, ms = [(pipe_a, false); (link_p, true)] /\ restore_run ms = ([link_p], true).
Proof. eexists. split; [reflexivity|]. vm_compute. reflexivity. Qed.
Print Assumptions C139_special_refuted.
(* On Windows, where the security data of a file is an entry of its own before that of
   the file, it is what comes out for the link instead of the data: even if all is
   restored, but without that data. *)
Definition vss_a : ent := mkent (str "C:/a") CMD_VSS false 1 9 [] (str "vss").
Definition win_a : ent := mkent (str "C:/a") CMD_FILE false 1 9 [] (str "data").
Definition link_w : ent := mkent (str "C:/w") CMD_HARD_LINK false 1 9 (str "C:/a") [].
Theorem C139_vss_refuted : exists c es, c = mkrconf true false false false [] None /\ es = [vss_a; win_a; link_w] /\
  restore_run (mark c false [] es) = ([win_a; copy_of vss_a link_w], true).
Proof. eexists _, _. repeat split. Qed.
Print Assumptions C139_vss_refuted.
