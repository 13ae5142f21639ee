(* Properties C29, C30, C31: what is restored, and in which order. *)
From Coq Require Import Permutation Sorted.
From Verif Require Import Bytes PathcmpModel PathcmpProofs CmdModel RestoreModel RestoreProofs.

(* Full claim: an entry is restored exactly when it equals an include path or
   lies beneath one.  False: "/home/foobar" is restored for "/home/foo". *)
Theorem C29_includes_refuted : exists l p, l <> [] /\ cstr p /\ Forall (fun s => cstr (snd s)) l /\
  srestore_check l p = true /\ forall f s, In (f, s) l -> ~ beneath s p.
Proof. exact srestore_refuted. Qed.
Print Assumptions C29_includes_refuted.

(* What holds: the test is exactly "an include path is a prefix"; *)
Theorem C29_includes_prefix_partial : forall l p, srestore_check l p = true <->
  l = [] \/ exists s x, In (true, s) l /\ p = s ++ x.
Proof. exact srestore_exact_prefix. Qed.
Print Assumptions C29_includes_prefix_partial.

(* nothing beneath an include path is missed; *)
Theorem C29_includes_no_miss_partial : forall l p s, In (true, s) l -> beneath s p -> srestore_check l p = true.
Proof. exact srestore_no_false_negative. Qed.
Print Assumptions C29_includes_no_miss_partial.

(* and the claim is true when every include path ends in '/'. *)
Theorem C29_includes_slash_partial : forall l p, l <> [] ->
  (forall f s, In (f, s) l -> exists s', s = s' ++ [slash]) ->
  (srestore_check l p = true <-> exists s, In (true, s) l /\ beneath s p).
Proof. exact srestore_slash_exact. Qed.
Print Assumptions C29_includes_slash_partial.

(* With a readable sorted list, exactly the entries that pass the other filters
   and whose path is listed, in manifest order. *)
Theorem C30_select_exact : forall c lines es,
  Forall raw lines -> Forall (fun e => raw (r_path e)) es ->
  StronglySorted path_le lines -> StronglySorted path_le (map r_path es) ->
  chosen (wanted c lines) es (select c false lines es).
Proof. exact select_exact. Qed.
Print Assumptions C30_select_exact.

Theorem C30_chosen_functional : forall P es r r', chosen P es r -> chosen P es r' -> r = r'.
Proof. exact chosen_functional. Qed.
Print Assumptions C30_chosen_functional.

(* When reading the list fails part way, everything beyond it is restored too. *)
Theorem C30_read_error : forall c lines es,
  w_list c = true -> Forall raw lines -> Forall (fun e => raw (r_path e)) es ->
  StronglySorted path_le lines -> StronglySorted path_le (map r_path es) ->
  chosen (fun e => allowed c e /\ (In (r_path e) lines \/ Forall (fun l => path_lt l (r_path e)) lines))
    es (select c true lines es).
Proof. exact select_read_error. Qed.
Print Assumptions C30_read_error.

(* Every entry exactly once; a directory after everything beneath it that
   follows it in the manifest; every other pair in manifest order. *)
Theorem C31_restore_order : forall es, Forall (fun e => cstr (r_path e)) es ->
  StronglySorted path_le (map r_path es) ->
  exists out, map snd out = restore_all es /\ Permutation out (numbered es) /\
    forall i x j y, In (i, x) (numbered es) -> In (j, y) (numbered es) -> (i < j)%nat ->
      (deferred x = true /\ beneath (r_path x) (r_path y) -> before (j, y) (i, x) out) /\
      (~ (deferred x = true /\ beneath (r_path x) (r_path y)) -> before (i, x) (j, y) out).
Proof. exact restore_order. Qed.
Print Assumptions C31_restore_order.

Theorem C31_numbers_distinct : forall A (l : list A), NoDup (map fst (numbered l)).
Proof. exact numbered_NoDup. Qed.
Print Assumptions C31_numbers_distinct.

(* Non-vacuity. *)
Definition ex_man : list rent :=
  [mkrent (str "/a") CMD_DIRECTORY true; mkrent (str "/a") CMD_METADATA true;
   mkrent (str "/a/b") CMD_DIRECTORY true; mkrent (str "/a/b/f") CMD_FILE false;
   mkrent (str "/a/c") CMD_FILE false; mkrent (str "/ab") CMD_FILE false; mkrent (str "/z") CMD_VSS false].
Definition ex_list : list bytes := [str "/a"; str "/a/b/f"; str "/nothere"; str "/z"].
Example ex_sorted : Forall (fun e => cstr (r_path e)) ex_man /\ StronglySorted path_le (map r_path ex_man) /\
  Forall raw ex_list /\ StronglySorted path_le ex_list.
Proof.
  split; [|split; [|split]].
  - apply (proj1 (Forall_map r_path cstr ex_man)). apply Forall_cstrb. reflexivity.
  - apply sorted_pathb_ok; reflexivity.
  - eapply Forall_impl; [apply cstr_raw|]. apply Forall_cstrb. reflexivity.
  - apply sorted_pathb_ok; reflexivity.
Qed.
Definition ex_conf := mkrconf true false true false [] None.
Example ex_C30 : select ex_conf false ex_list ex_man = [nth 0 ex_man (mkrent [] 0 false); nth 1 ex_man (mkrent [] 0 false); nth 3 ex_man (mkrent [] 0 false)].
Proof. reflexivity. Qed.
Example ex_C30_error : map r_path (select ex_conf true [str "/a/b/f"] ex_man) = [str "/a/b/f"; str "/a/c"; str "/ab"].
Proof. reflexivity. Qed.
Example ex_C31 : map r_path (restore_all ex_man) =
  [str "/a"; str "/a/b/f"; str "/a/b"; str "/a/c"; str "/a"; str "/ab"; str "/z"] /\
  r_cmd (nth 0 (restore_all ex_man) (mkrent [] 0 false)) = CMD_METADATA.
Proof. split; reflexivity. Qed.
Example ex_C29 : srestore_check [(true, str "/home/foo/")] (str "/home/foo/x") = true /\
  srestore_check [(true, str "/home/foo/")] (str "/home/foobar") = false /\ beneath (str "/home/foo/") (str "/home/foo/x").
Proof. split; [reflexivity|split; [reflexivity|]]. right; right. exists (str "/home/foo"), 120, []. split; reflexivity. Qed.
