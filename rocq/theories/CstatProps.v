(* Property C87: the list of clients that the status monitor keeps. *)
From Coq Require Import Sorting.Sorted.
From Verif Require Import Bytes AuthModel CstatModel CstatProofs.

Theorem C87_list : forall ds d, (forall n, cname_valid 0 n = true -> f_mtime d n <> None -> In n (f_names d)) ->
  let l := fst (loads (ds ++ [d])) in
  ordered l /\ (forall n, In n (map s_name l) <-> cname_valid 0 n = true /\ f_mtime d n <> None).
Proof. exact list_exact. Qed.
Print Assumptions C87_list.

Theorem C87_fresh_partial : forall ds d c', In c' (fst (loads (ds ++ [d]))) ->
  exists m, f_mtime d (s_name c') = Some m /\ s_mtime c' = m /\
  ((exists c, In c (fst (loads ds)) /\ s_name c = s_name c' /\ s_mtime c = m /\ f_global d = snd (loads ds) /\ s_permitted c' = s_permitted c) \/
   s_permitted c' = match f_load d (s_name c') with Some p => p | None => false end \/
   (m = 0 /\ s_permitted c' = false)).
Proof. exact permission_fresh. Qed.
Print Assumptions C87_fresh_partial.

Theorem C87_earned : forall ds c, In c (fst (loads ds)) -> s_permitted c = true ->
  exists d, In d ds /\ f_mtime d (s_name c) = Some (s_mtime c) /\ f_load d (s_name c) = Some true.
Proof. exact permission_earned. Qed.
Print Assumptions C87_earned.

(* Three clients, one of which goes away, another comes and one may no longer
   be seen. *)
Definition has (l : list (bytes * Z)) (n : bytes) : option Z :=
  option_map snd (find (fun x => beqb (fst x) n) l).
Definition day1 := mkdisk [str "b"; str "a~"; str "c"; str "a"; str "dir"] (has [(str "b", 10); (str "a~", 10); (str "c", 11); (str "a", 12)])
  (fun _ => Some true) 5.
Definition day2 := mkdisk [str "ab"; str "a~"; str "c"; str "a"; str "dir"] (has [(str "ab", 20); (str "a~", 10); (str "c", 21); (str "a", 12)])
  (fun n => if beqb n (str "c") then None else Some true) 5.
Example C87_witness :
  map (fun c => (s_name c, s_mtime c, s_permitted c)) (fst (loads [day1])) =
    [(str "a", 12, true); (str "b", 10, true); (str "c", 11, true)] /\
  map (fun c => (s_name c, s_mtime c, s_permitted c)) (fst (loads [day1; day2])) =
    [(str "a", 12, true); (str "ab", 20, true); (str "c", 21, false)] /\
  (forall n, cname_valid 0 n = true -> f_mtime day2 n <> None -> In n (f_names day2)).
Proof.
  split; [vm_compute; reflexivity|split; [vm_compute; reflexivity|]].
  intros n _ M. unfold day2 in *. cbn [f_mtime f_names] in *. unfold has in M.
  destruct (find _ _) as [x|] eqn:F; [|exfalso; apply M; reflexivity]. apply find_some in F as [I E]. apply beqb_eq in E. subst n.
  cbn [In] in I. destruct I as [<-|[<-|[<-|[<-|[]]]]]; cbn [fst In]; auto 10.
Qed.

(* A change in the second of the last look, or in an included file, is not seen:
   the monitor is still told about a client that it may no longer see. *)
Theorem C87_stale_refuted : exists d1 d2 c, In c (fst (loads [d1; d2])) /\
  f_load d2 (s_name c) = Some false /\ s_permitted c = true.
Proof.
  exists (mkdisk [str "a"] (fun _ => Some 7) (fun _ => Some true) 5), (mkdisk [str "a"] (fun _ => Some 7) (fun _ => Some false) 5),
    (mkcs (str "a") 7 true).
  vm_compute. auto.
Qed.
Print Assumptions C87_stale_refuted.
