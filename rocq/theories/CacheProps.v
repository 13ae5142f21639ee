(* Properties C88-C90: browsing a backup through the cache of the status monitor. *)
From Coq Require Import Sorting.Sorted.
From Verif Require Import Bytes CmdModel PathcmpModel PathcmpProofs CacheModel CacheProofs.

(* ---------- C88: the names in a directory ---------- *)
Theorem C88_names_partial : forall abs es b, manifest_ok abs es -> b <> [] -> (words b = [] \/ under (words b) es) ->
  let l := map i_name (cache_lookup (cache_load es) b) in
  StronglySorted path_lt l /\ (forall n, In n l <-> under (words b ++ [n]) es).
Proof. exact lookup_names. Qed.
Print Assumptions C88_names_partial.

Theorem C88_top : forall es,
  match find (fun e => hd0 (r_path e) =? slash) (shown es) with
  | Some e => cache_lookup (cache_load es) [] = [mkitem [slash] [] (r_mode e) (r_stat e)]
  | None => cache_lookup (cache_load es) [] = cache_lookup (cache_load es) [slash]
  end.
Proof. exact lookup_top. Qed.
Print Assumptions C88_top.

(* The kinds of entry that are shown. *)
Theorem C88_kinds : forall es e, In e (shown es) <->
  In e es /\ In (r_cmd e) [CMD_DIRECTORY; CMD_FILE; CMD_ENC_FILE; CMD_EFS_FILE; CMD_SPECIAL; CMD_SOFT_LINK; CMD_HARD_LINK].
Proof.
  intros es e. unfold shown. rewrite filter_In. unfold browsable, cmd_is_link. rewrite !Bool.orb_true_iff, !Z.eqb_eq. cbn [In].
  intuition.
Qed.
Print Assumptions C88_kinds.

(* /etc is in the backup, /home is not but something in it is. *)
Definition a_manifest : list rec :=
  [mkrec CMD_DIRECTORY (str "/etc") [] 16877 1; mkrec CMD_METADATA (str "/etc") [] 16877 2;
   mkrec CMD_DIRECTORY (str "/etc/cron") [] 16832 3; mkrec CMD_FILE (str "/etc/cron/tab") [] 33188 4;
   mkrec CMD_SOFT_LINK (str "/etc/cron-l") (str "cron") 41471 5; mkrec CMD_FILE (str "/etc/passwd") [] 33188 6;
   mkrec CMD_FILE (str "/home/a/file") [] 33152 7; mkrec CMD_FILE (str "/home/a/more") [] 33152 8].
Lemma a_neat : manifest_ok true a_manifest.
Proof.
  split.
  - repeat constructor; cbn [r_path];
    match goal with |- neat true ?s => exists (words s), []; split; [vm_compute; reflexivity|split; [repeat constructor; discriminate|auto]] end.
  - apply sorted_pathb_ok; vm_compute; reflexivity.
Qed.
Example C88_witness : manifest_ok true a_manifest /\ under (words (str "/etc/")) a_manifest /\
  map i_name (cache_lookup (cache_load a_manifest) (str "/etc/")) = [str "cron"; str "cron-l"; str "passwd"] /\
  map i_name (cache_lookup (cache_load a_manifest) (str "/home/a")) = [str "file"; str "more"] /\
  map i_name (cache_lookup (cache_load a_manifest) (str "/")) = [str "etc"; str "home"].
Proof.
  split; [exact a_neat|split; [|repeat split; vm_compute; reflexivity]].
  eexists. split; [left; reflexivity|]. exists []. reflexivity.
Qed.

(* A directory that is not there: what is listed is in another one. *)
Theorem C88_absent_refuted : exists abs es b n, manifest_ok abs es /\ ~ under (words b) es /\
  In n (map i_name (cache_lookup (cache_load es) b)).
Proof.
  exists true, a_manifest, (str "/nowhere/etc"), (str "passwd"). split; [exact a_neat|]. split.
  - intros (e & I & r & P). unfold a_manifest, shown in I. cbn [filter r_cmd] in I.
    assert (X : forallb (fun e => match words (r_path e) with w :: _ => negb (beqb w (str "nowhere")) | [] => true end) (shown a_manifest) = true) by reflexivity.
    rewrite forallb_forall in X. specialize (X e I). rewrite P in X. vm_compute in X. discriminate.
  - vm_compute. auto.
Qed.
Print Assumptions C88_absent_refuted.

(* ---------- C89: what is said of each ---------- *)
Theorem C89_first : forall abs es b n before e, manifest_ok abs es -> b <> [] -> first_at (words b ++ [n]) es before e ->
  exists i, In i (cache_lookup (cache_load es) b) /\ i_name i = n /\ i_link i = r_link e /\ i_stat i = r_stat e /\
    (own_entry (words b) n before e -> i_mode i = r_mode e) /\
    (~ own_entry (words b) n before e -> i_mode i = Z.land (r_mode e) S_IFDIR).
Proof. exact lookup_attrs. Qed.
Print Assumptions C89_first.

Theorem C89_own_partial : forall abs es b n es1 d es2 e es3, manifest_ok abs es -> b <> [] ->
  shown es = es1 ++ d :: es2 ++ e :: es3 -> words (r_path d) = words b -> words (r_path e) = words b ++ [n] -> trails (r_path e) = false ->
  Forall (fun x => words (r_path x) <> words (r_path e)) (es1 ++ d :: es2) ->
  In (mkitem n (r_link e) (r_mode e) (r_stat e)) (cache_lookup (cache_load es) b).
Proof. exact lookup_own. Qed.
Print Assumptions C89_own_partial.

Example C89_witness :
  cache_lookup (cache_load a_manifest) (str "/etc") =
    [mkitem (str "cron") [] 16832 3; mkitem (str "cron-l") (str "cron") 41471 5; mkitem (str "passwd") [] 33188 6] /\
  (exists es1 d es2 e es3, shown a_manifest = es1 ++ d :: es2 ++ e :: es3 /\ words (r_path d) = words (str "/etc") /\
     words (r_path e) = words (str "/etc") ++ [str "passwd"] /\ trails (r_path e) = false /\
     Forall (fun x => words (r_path x) <> words (r_path e)) (es1 ++ d :: es2)) /\
  (exists before e, first_at (words (str "/home") ++ [str "a"]) a_manifest before e /\ ~ own_entry (words (str "/home")) (str "a") before e).
Proof.
  split; [vm_compute; reflexivity|]. split.
  - exists [], (mkrec CMD_DIRECTORY (str "/etc") [] 16877 1),
      [mkrec CMD_DIRECTORY (str "/etc/cron") [] 16832 3; mkrec CMD_FILE (str "/etc/cron/tab") [] 33188 4;
       mkrec CMD_SOFT_LINK (str "/etc/cron-l") (str "cron") 41471 5], (mkrec CMD_FILE (str "/etc/passwd") [] 33188 6).
    eexists. split; [reflexivity|]. do 3 (split; [reflexivity|]). repeat constructor; vm_compute; discriminate.
  - exists [mkrec CMD_DIRECTORY (str "/etc") [] 16877 1; mkrec CMD_DIRECTORY (str "/etc/cron") [] 16832 3;
      mkrec CMD_FILE (str "/etc/cron/tab") [] 33188 4; mkrec CMD_SOFT_LINK (str "/etc/cron-l") (str "cron") 41471 5;
      mkrec CMD_FILE (str "/etc/passwd") [] 33188 6], (mkrec CMD_FILE (str "/home/a/file") [] 33152 7).
    split.
    + eexists. split; [reflexivity|]. split; [exists [str "file"]; reflexivity|].
      repeat constructor; intros [r P]; vm_compute in P; discriminate.
    + intros (P & _). vm_compute in P. discriminate.
Qed.

(* A directory that is made up is no directory, and the first file in it is no
   regular file any more. *)
Theorem C89_made_up_refuted : exists abs es, manifest_ok abs es /\
  (exists e, In e es /\ r_cmd e = CMD_FILE /\ r_path e = str "/home/a/file" /\ r_mode e = 33152) /\
  cache_lookup (cache_load es) (str "/home") = [mkitem (str "a") [] 0 7] /\
  In (mkitem (str "file") [] 0 7) (cache_lookup (cache_load es) (str "/home/a")).
Proof.
  exists true, a_manifest. split; [exact a_neat|]. split; [|split; vm_compute; auto].
  exists (mkrec CMD_FILE (str "/home/a/file") [] 33152 7). split; [|auto]. unfold a_manifest. cbn [In]. auto 10.
Qed.
Print Assumptions C89_made_up_refuted.

(* ---------- C90: the cache is that of the backup that is asked for ---------- *)
Theorem C90_same_partial : forall rs, steady rs -> browses cache0 rs = map fresh_answer rs.
Proof. exact browses_exact. Qed.
Print Assumptions C90_same_partial.

Definition small : list rec := [mkrec CMD_FILE (str "/x") [] 33188 1].
Example C90_witness :
  let rs := [mkbask (str "a") 1 (str "/etc") (a_manifest, true); mkbask (str "b") 1 (str "/") (small, true);
             mkbask (str "a") 2 (str "/") ([], false); mkbask (str "a") 1 (str "/") (a_manifest, true)] in
  steady rs /\ map (option_map (map i_name)) (browses cache0 rs) =
    [Some [str "cron"; str "cron-l"; str "passwd"]; Some [str "x"]; None; Some [str "etc"; str "home"]].
Proof.
  cbv zeta. split; [|vm_compute; reflexivity]. intros x y X Y.
  repeat match goal with H : In _ _ |- _ => destruct H as [<-|H] | H : In _ [] |- _ => destruct H end;
  cbn [b_client b_bno b_manifest]; intros; first [reflexivity|discriminate].
Qed.

(* When a backup is deleted and its number is given to the next one, the old
   names are shown. *)
Theorem C90_stale_refuted : exists r1 r2, b_client r1 = b_client r2 /\ b_bno r1 = b_bno r2 /\
  exists old, browses cache0 [r1; r2] = [Some old; Some old] /\ fresh_answer r2 = Some [mkitem (str "x") [] 33188 1] /\
  ~ In (str "x") (map i_name old).
Proof.
  exists (mkbask (str "a") 1 (str "/") (a_manifest, true)), (mkbask (str "a") 1 (str "/") (small, true)).
  split; [reflexivity|]. split; [reflexivity|]. eexists. split; [vm_compute; reflexivity|]. split; [vm_compute; reflexivity|].
  vm_compute. intuition discriminate.
Qed.
Print Assumptions C90_stale_refuted.
