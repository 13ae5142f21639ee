(* Properties of removing directories, making paths, moving backups aside and
   comparing files. *)
From Verif Require Import Bytes PathcmpModel CntrModel FsModel FsProofs.

(* ---------- C135 ---------- *)

(* Whatever is refused, what is left was there before, at the same place and with
   the same content; of a path that is not there nothing comes to be. *)
Theorem C135_part : forall w n,
  match snd (recursive_delete w n) with
  | Some n' => match n with Some n => part n' n | None => False end
  | None => True
  end.
Proof. exact delete_part. Qed.
Print Assumptions C135_part.

(* 0 says that it is gone, anything else that it is not. *)
Theorem C135_gone_partial : forall w n, no_look w [] = false ->
  (fst (recursive_delete w n) = 0 <-> snd (recursive_delete w n) = None).
Proof. exact delete_ret. Qed.
Print Assumptions C135_gone_partial.

(* Missing from it: if the path cannot be looked at, 0 is returned as well. *)
Theorem C135_gone_refuted : exists w n, fst (recursive_delete w (Some n)) = 0 /\ snd (recursive_delete w (Some n)) = Some n.
Proof.
  exists (mkrules (fun _ => true) (fun _ => false) (fun _ => false) (fun _ => false) (fun _ => None)), (Dir [(str "a", Leaf [1])]).
  split; reflexivity.
Qed.
Print Assumptions C135_gone_refuted.

(* If nothing is refused, all of it goes. *)
Theorem C135_all : forall w n, willing w -> recursive_delete w n = (0, None).
Proof. exact delete_all. Qed.
Print Assumptions C135_all.

(* If only files of the directory itself cannot be removed, those are left, and
   nothing else. *)
Theorem C135_rest_partial : forall w l,
  (forall p, no_look w p = false /\ no_open w p = false /\ no_rmdir w p = false /\ no_read w p = None) ->
  (forall p, no_unlink w p = true -> exists m, p = [m]) ->
  snd (recursive_delete w (Some (Dir l))) =
  match filter (fun e => match snd e with Leaf _ => no_unlink w [fst e] | Dir _ => false end) l with
  | [] => None | r => Some (Dir r) end.
Proof. exact delete_flat. Qed.
Print Assumptions C135_rest_partial.

(* One file in a directory below that cannot be removed, and what comes after it is
   left although it could be removed. *)
Theorem C135_rest_refuted : exists w l,
  (forall p, no_look w p = false /\ no_open w p = false /\ no_rmdir w p = false /\ no_read w p = None) /\
  (forall p, no_unlink w p = true <-> p = [str "d"; str "x"]) /\
  snd (recursive_delete w (Some (Dir l))) = Some (Dir l) /\ In (str "free", Leaf [1]) l.
Proof.
  exists (mkrules (fun _ => false) (fun _ => false)
           (fun p => match p with [a; b] => beqb a (str "d") && beqb b (str "x") | _ => false end)
           (fun _ => false) (fun _ => None)),
         [(str "d", Dir [(str "x", Leaf [2])]); (str "free", Leaf [1])].
  split; [|split; [|split]].
  - intro p; repeat split.
  - intro p; cbn [no_unlink]. split.
    + destruct p as [|a [|b [|c p]]]; try discriminate. intro h. apply andb_prop in h as [h1 h2].
      apply beqb_eq in h1, h2. now subst.
    + intros ->. reflexivity.
  - reflexivity.
  - right; now left.
Qed.
Print Assumptions C135_rest_refuted.

(* Removing only directories removes no file, whatever is refused. *)
Theorem C135_files : forall w n,
  oleaves [] (snd (dirs_only_quiet w n)) = oleaves [] n /\ oleaves [] (snd (dirs_only w n)) = oleaves [] n.
Proof. exact quiet_leaves. Qed.
Print Assumptions C135_files.

(* And adds nothing. *)
Theorem C135_files_part : forall w n,
  match snd (dirs_only w (Some n)) with Some n' => part n' n | None => True end /\
  match snd (dirs_only_quiet w (Some n)) with Some n' => part n' n | None => True end.
Proof. exact only_part. Qed.
Print Assumptions C135_files_part.

(* If nothing is refused no directory without files is left. *)
Theorem C135_dirs_partial : forall w l n', willing w ->
  fst (dirs_only_quiet w (Some (Dir l))) = 0 /\
  (snd (dirs_only_quiet w (Some (Dir l))) = Some n' -> full n').
Proof. intros w l n' h. split; [exact (quiet_ret w l h)|exact (quiet_full w l n' h)]. Qed.
Print Assumptions C135_dirs_partial.

(* The variant with warnings stops at the first directory that keeps a file. *)
Theorem C135_dirs_refuted : exists w l l', willing w /\ snd (dirs_only w (Some (Dir l))) = Some (Dir l') /\
  In (str "empty", Dir []) l'.
Proof.
  exists (mkrules (fun _ => false) (fun _ => false) (fun _ => false) (fun _ => false) (fun _ => None)),
         [(str "d", Dir [(str "x", Leaf [2])]); (str "empty", Dir [])],
         [(str "d", Dir [(str "x", Leaf [2])]); (str "empty", Dir [])].
  split; [intro p; repeat split|split; [reflexivity|right; now left]].
Qed.
Print Assumptions C135_dirs_refuted.

(* A tree, and one that loses all but one file to a refusal. *)
Definition tree1 : node :=
  Dir [(str "a", Leaf [1]); (str "d", Dir [(str "b", Leaf [2]); (str "e", Dir [])]); (str "c", Leaf [3])].
Example C135_case :
  recursive_delete (mkrules (fun _ => false) (fun _ => false) (fun p => match p with [x] => beqb x (str "a") | _ => false end)
                      (fun _ => false) (fun _ => None)) (Some tree1) = (-1, Some (Dir [(str "a", Leaf [1])]))
  /\ recursive_delete (mkrules (fun _ => false) (fun _ => false) (fun _ => false) (fun _ => false) (fun _ => None)) (Some tree1) = (0, None)
  /\ dirs_only_quiet (mkrules (fun _ => false) (fun _ => false) (fun _ => false) (fun _ => false) (fun _ => None)) (Some tree1)
     = (0, Some (Dir [(str "a", Leaf [1]); (str "d", Dir [(str "b", Leaf [2])]); (str "c", Leaf [3])])).
Proof. repeat split. Qed.
Example C135_willing_case : willing (mkrules (fun _ => false) (fun _ => false) (fun _ => false) (fun _ => false) (fun _ => None)).
Proof. intro p; repeat split. Qed.

(* ---------- C136 ---------- *)

(* If it succeeds, the directories made are those that lead to the path and were
   missing. *)
Theorem C136_whole : forall ex can, consistent ex -> forall lim p made,
  mkpath ex can lim p = (made, true) ->
  forall d, In d made <-> (d <> [] /\ above d p /\ ex d = None).
Proof. exact mkpath_whole. Qed.
Print Assumptions C136_whole.

(* In any case nothing else is made. *)
Theorem C136_any : forall ex can, consistent ex -> forall lim p made ok,
  mkpath ex can lim p = (made, ok) ->
  forall d, In d made -> d <> [] /\ above d p /\ ex d = None.
Proof. exact mkpath_any. Qed.
Print Assumptions C136_any.

(* For a path at or below the limit: nothing above the limit is made; it succeeds
   just if all that is missing is at or below the limit and can be made; and if
   something above the limit is missing, it fails and makes nothing. *)
Theorem C136_limit_partial : forall ex can, consistent ex -> forall lim rest made ok,
  mkpath ex can (Some lim) (lim ++ rest) = (made, ok) ->
  (forall d, In d made -> exists x, d = lim ++ x) /\
  (ok = true <-> forall d, d <> [] -> above d (lim ++ rest) -> ex d = None -> (exists x, d = lim ++ x) /\ can d = true) /\
  ((exists d, d <> [] /\ above d lim /\ above d (lim ++ rest) /\ ex d = None) -> ok = false /\ made = []).
Proof. exact mkpath_limit. Qed.
Print Assumptions C136_limit_partial.

(* For a path elsewhere directories outside the limit can be made. *)
Theorem C136_limit_refuted : exists ex can lim p made d,
  consistent ex /\ mkpath ex can (Some lim) p = (made, true) /\ In d made /\ ~ exists x, d = lim ++ x.
Proof.
  exists (fun _ => None), (fun _ => true), [str "a"; str "b"], [str "c"; str "d"], [[str "c"]], [str "c"].
  split; [intros c p _ _ _; reflexivity|split; [reflexivity|split; [now left|]]].
  intros [x e]. vm_compute in e. discriminate.
Qed.
Print Assumptions C136_limit_refuted.

(* Success does not say that the path leads through directories: there may be a
   file. *)
Theorem C136_dir_refuted : exists ex can lim p,
  consistent ex /\ mkpath ex can lim p = ([], true) /\ ex (removelast p) = Some KOther.
Proof.
  exists (fun p => match p with [a] => if beqb a (str "a") then Some KOther else None | _ => None end), (fun _ => true), None, [str "a"; str "b"].
  split; [|split; reflexivity].
  intros c p (r & hr & ->) hc hx. destruct c as [|y [|z c]]; [congruence| |reflexivity].
  destruct r; [congruence|reflexivity].
Qed.
Print Assumptions C136_dir_refuted.

Definition ex1 (p : list bytes) : option kind :=
  match p with [] => Some KDir | [a] => if beqb a (str "var") then Some KDir else None
  | [a; b] => if beqb a (str "var") && beqb b (str "spool") then Some KLink else None | _ => None end.
Example C136_case :
  mkpath ex1 (fun _ => true) (Some [str "var"; str "spool"; str "burp"]) [str "var"; str "spool"; str "burp"; str "c"; str "f"]
    = ([[str "var"; str "spool"; str "burp"]; [str "var"; str "spool"; str "burp"; str "c"]], true)
  /\ mkpath ex1 (fun _ => true) (Some [str "var"; str "x"; str "burp"]) [str "var"; str "x"; str "burp"; str "c"; str "f"] = ([], false).
Proof. split; reflexivity. Qed.
Example C136_consistent_case : consistent ex1.
Proof.
  intros c p (r & hr & ->) hc hx. destruct c as [|a [|b [|c0 c]]]; [congruence| | |reflexivity].
  - cbn [ex1] in hx. destruct (beqb a (str "var")) eqn:E; [discriminate|].
    destruct r as [|b [|x r]]; [congruence| |reflexivity]. cbn [app ex1]. now rewrite E.
  - destruct r; [congruence|reflexivity].
Qed.

(* ---------- C137 ---------- *)

(* If one of the hundred names is free, the directory is in deleteme under a name
   that was free, without its timestamp, and deleteme is otherwise as it was. *)
Theorem C137_moved_partial : forall name n l, (exists j, 0 <= j < 100 /\ entry (cand name j) l = None) ->
  exists dest, entry dest l = None /\ deleteme_move true true name (Some n) l = (0, None, (dest, unstamp n) :: l).
Proof. exact moved. Qed.
Print Assumptions C137_moved_partial.

(* In any case: it is in deleteme if 0 is returned and else where it was, in both
   cases whole but for its timestamp; and of what was in deleteme only an empty
   directory can be gone. *)
Theorem C137_keeps_partial : forall mk rn name k l, once l ->
  let '(r, s, l') := deleteme_move mk rn name (Some (Dir k)) l in
  ((r = 0 /\ s = None /\ (exists d, In (d, unstamp (Dir k)) l')) \/
   (r = -1 /\ l' = l /\ (s = Some (Dir k) \/ s = Some (unstamp (Dir k))))) /\
  (forall d x, In (d, x) l -> x <> Dir [] -> In (d, x) l').
Proof. exact move_keeps. Qed.
Print Assumptions C137_keeps_partial.

(* What has been moved has no timestamp and all else. *)
Theorem C137_stamp : forall k k' b, unstamp (Dir k) = Dir k' -> ~ In (str "timestamp", Leaf b) k' /\
  (forall d x, In (d, x) k' -> In (d, x) k) /\ (forall d x, In (d, x) k -> d <> str "timestamp" -> In (d, x) k').
Proof. exact no_stamp. Qed.
Print Assumptions C137_stamp.

(* If all the names are taken it fails, and the backup that stays where it was has
   lost its timestamp. *)
Definition taken : list (bytes * node) :=
  map (fun i => (cand (str "0000001") (Z.of_nat i), Dir [(str "x", Leaf [1])])) (seq 0 101).
Theorem C137_keeps_refuted : exists name k l, once l /\
  fst (fst (deleteme_move true true name (Some (Dir k)) l)) = -1 /\
  In (str "timestamp", Leaf [1]) k /\
  exists k', snd (fst (deleteme_move true true name (Some (Dir k)) l)) = Some (Dir k') /\ ~ In (str "timestamp", Leaf [1]) k'.
Proof.
  exists (str "0000001"), [(str "timestamp", Leaf [1]); (str "manifest.gz", Leaf [2])], taken.
  split; [|split; [vm_compute; reflexivity|split; [now left|]]].
  - unfold once. assert (H : forall l : list bytes, (fix nd (l : list bytes) := match l with [] => true | x :: r => negb (existsb (beqb x) r) && nd r end) l = true -> NoDup l).
    { induction l as [|x r IH]; intro h; constructor; apply andb_prop in h as [h1 h2].
      - intro i. apply negb_true_iff in h1. assert (F : existsb (beqb x) r = true) by (apply existsb_exists; exists x; split; [auto|apply beqb_refl]). congruence.
      - auto. }
    apply H. vm_compute. reflexivity.
  - eexists. split; [vm_compute; reflexivity|]. intros [e|[]]. vm_compute in e. discriminate.
Qed.
Print Assumptions C137_keeps_refuted.

Example C137_case :
  deleteme_move true true (str "0000001") (Some (Dir [(str "timestamp", Leaf [1]); (str "data", Dir [])])) [(str "0000001", Leaf [])]
  = (0, None, [(str "0000001.1", Dir [(str "data", Dir [])]); (str "0000001", Leaf [])]).
Proof. vm_compute. reflexivity. Qed.
Example C137_free_case : exists j, 0 <= j < 100 /\ entry (cand (str "0000001") j) [(str "0000001", Leaf [])] = None.
Proof. exists 1. split; [lia|vm_compute; reflexivity]. Qed.
Example C137_once_case : once [(str "0000001", Leaf [])].
Proof. constructor; [intros []|constructor]. Qed.

(* ---------- C138 ---------- *)

(* Two files that can be read count as equal just if they have the same content. *)
Theorem C138_equal_partial : forall o w, f_stop o = None -> f_stop w = None ->
  (files_equal (Some o) (Some w) = true <-> f_text o = f_text w).
Proof. intros o w h1 h2. rewrite files_iff. unfold got. now rewrite h1, h2. Qed.
Print Assumptions C138_equal_partial.

(* One that can be opened and one that cannot are different. *)
Theorem C138_missing : forall o, files_equal (Some o) None = false /\ files_equal None (Some o) = false.
Proof. exact files_missing. Qed.
Print Assumptions C138_missing.

(* If reading fails, files that differ may count as equal. *)
Theorem C138_equal_refuted : exists o w, files_equal (Some o) (Some w) = true /\ f_text o <> f_text w.
Proof.
  exists (mkrfile [1; 2] (Some 1%nat)), (mkrfile [1; 3] (Some 1%nat)). split; [vm_compute; reflexivity|discriminate].
Qed.
Print Assumptions C138_equal_refuted.

Example C138_case : files_equal (Some (mkrfile (repeat 7 5000) None)) (Some (mkrfile (repeat 7 5000) None)) = true
  /\ files_equal (Some (mkrfile (repeat 7 5000) None)) (Some (mkrfile (repeat 7 4999 ++ [8]) None)) = false.
Proof. split; vm_compute; reflexivity. Qed.
