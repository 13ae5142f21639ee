(* C24. *)
From Coq Require Import Sorted.
From Verif Require Import Bytes BuModel BuProofs.

(* The list holds exactly the directories that are backups. *)
Theorem C24_list_complete : forall w f c dp b, In b (get_list w f c dp) <->
  exists d t, In d dp /\ is_backup w f c d /\ d_stamp d = Some t /\ b = mkbu (d_name d) t (strtoul10 t) (d_hard d).
Proof. exact list_complete. Qed.

(* Oldest first, for numbers of at most seven digits.  The full statement, for
   all numbers, is refuted below. *)
Theorem C24_list_sorted_partial : forall w f c dp,
  StronglySorted lex_le (map d_name dp) ->
  (forall d, In d dp -> isdigit (hd0 (d_name d)) = true -> exists n, named (d_name d) n) ->
  StronglySorted (fun a b => b_bno a <= b_bno b) (get_list w f c dp) /\
  Forall (fun b => named (b_name b) (b_bno b)) (get_list w f c dp).
Proof. exact list_sorted. Qed.
Theorem C24_list_ascending_partial : forall w f c dp,
  StronglySorted lex_le (map d_name dp) ->
  (forall d, In d dp -> isdigit (hd0 (d_name d)) = true -> exists n, named (d_name d) n) ->
  NoDup (map b_bno (get_list w f c dp)) -> ascending (get_list w f c dp).
Proof. exact list_ascending. Qed.
Theorem C24_list_sorted_refuted : exists dp,
  StronglySorted lex_le (map d_name dp) /\
  (forall d, In d dp -> exists n rest, 0 < n /\ d_name d = fmt_07u n ++ 32 :: rest) /\
  ~ StronglySorted (fun a b => b_bno a <= b_bno b) (get_list [] [] [] dp) /\
  exists b, In b (get_list [] [] [] dp) /\ b_bno b = get_new_bno (get_list [] [] [] dp).
Proof. exact list_sorted_refuted. Qed.

(* Position, deletability and age. *)
Theorem C24_numbering : forall l k b d, ascending l -> nth_error l k = Some b ->
  nth_error (setup_indices l) k = Some (mkebu b (Z.of_nat k + 1)
     (match k with O => true | S j => b_hard (nth j l d) end) (last_bno l - b_bno b + 1)) /\
  1 <= last_bno l - b_bno b + 1 /\ (S k = List.length l -> last_bno l - b_bno b + 1 = 1).
Proof. exact numbering. Qed.

(* The number and name of a new backup. *)
Theorem C24_new_number : forall l, ascending l ->
  (forall b, In b l -> b_bno b < get_new_bno l) /\ get_new_bno l = last_bno l + 1 /\ 0 < get_new_bno l.
Proof. exact new_bno_greater. Qed.
Theorem C24_new_name : forall l date, ascending l -> Forall (fun b => named (b_name b) (b_bno b)) l ->
  get_new_bno l < 10 ^ 7 ->
  forall b, In b l -> lex_lt (b_name b) (timestamp_buf (get_new_bno l) date).
Proof. exact new_name_last. Qed.

(* A directory with two backups, the working directory of a third, a stray
   directory and a file. *)
Definition ex_dir : list dent :=
  [ mkdent (str "0000007 2024-01-01") true (Some (str "0000007 2024-01-01 00:00:00")) true;
    mkdent (str "0000012 2024-01-02") true (Some (str "0000012 2024-01-02 00:00:00")) false;
    mkdent (str "0000013 2024-01-03") true (Some (str "0000013 2024-01-03 00:00:00")) false;
    mkdent (str "0000014 2024-01-04") false None false;
    mkdent (str "deleteme") true None false ].
Definition ex_list : list bu := get_list (str "0000013 2024-01-03") [] (str "0000012 2024-01-02") ex_dir.
Example ex_C24 : map b_bno ex_list = [7; 12] /\
  map (fun e => (e_index e, e_del e, e_trbno e)) (setup_indices ex_list) = [(1, true, 6); (2, true, 1)] /\
  timestamp_buf (get_new_bno ex_list) (str " 2024") = str "0000013  2024".
Proof. vm_compute. auto. Qed.
Example ex_C24_hyps : StronglySorted lex_le (map d_name ex_dir) /\
  (forall d, In d ex_dir -> isdigit (hd0 (d_name d)) = true -> exists n, named (d_name d) n) /\ ascending ex_list.
Proof.
  assert (S : StronglySorted lex_le (map d_name ex_dir)).
  { cbn [map ex_dir d_name]. repeat apply SSorted_cons; try apply SSorted_nil; repeat apply Forall_cons; try apply Forall_nil;
    right; vm_compute; repeat first [apply lex_head; reflexivity|apply lex_tail]. }
  assert (H : forall d, In d ex_dir -> isdigit (hd0 (d_name d)) = true -> exists n, named (d_name d) n).
  { intros d H D. cbn [In ex_dir] in H. repeat destruct H as [<-|H]; try destruct H.
    - exists 7. split; [lia|]. eexists. reflexivity.
    - exists 12. split; [lia|]. eexists. reflexivity.
    - exists 13. split; [lia|]. eexists. reflexivity.
    - exists 14. split; [lia|]. eexists. reflexivity.
    - discriminate. }
  split; [exact S|]. split; [exact H|]. apply C24_list_ascending_partial; auto.
  vm_compute. constructor; [intros [X|[]]; discriminate|constructor; [intros []|constructor]].
Qed.

Print Assumptions C24_list_complete.
Print Assumptions C24_list_sorted_partial.
Print Assumptions C24_list_ascending_partial.
Print Assumptions C24_list_sorted_refuted.
Print Assumptions C24_numbering.
Print Assumptions C24_new_number.
Print Assumptions C24_new_name.
