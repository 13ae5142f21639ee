(* Properties C01-C04: file-list ordering and path tests. *)
From Coq Require Import Sorted.
From Verif Require Import Bytes PathcmpModel PathcmpProofs.

Theorem C01_pathcmp_total_order : forall a b c, oraw a -> oraw b -> oraw c ->
  (pathcmp a b = 0 <-> a = b) /\
  (pathcmp a b < 0 <-> opath_lt a b) /\
  pathcmp b a = - pathcmp a b /\
  (pathcmp a b <= 0 -> pathcmp b c <= 0 -> pathcmp a c <= 0) /\
  (pathcmp a b < 0 -> pathcmp b c <= 0 -> pathcmp a c < 0).
Proof. exact pathcmp_total_order. Qed.
Print Assumptions C01_pathcmp_total_order.

Theorem C01_path_order_shape :
  (forall y b p x a, y <> slash -> x = slash -> path_lt (p ++ x :: a) (p ++ y :: b)) /\
  (forall p y b, path_lt p (p ++ y :: b)).
Proof. exact path_order_shape. Qed.
Print Assumptions C01_path_order_shape.

(* Non-vacuity: a path with a byte above 127 and one with a slash. *)
Example C01_witness :
  oraw (Some (str "/a/b")) /\ oraw (Some [47; 97; 200]) /\ oraw None /\
  pathcmp (Some (str "/a/b")) (Some [47; 97; 200]) = -1 /\
  pathcmp (Some [47; 97; 200]) (Some (str "/ab")) = -1.
Proof.
  repeat split; try (apply cstr_raw, cstrb_ok; reflexivity); reflexivity.
Qed.

Theorem C02_dir_contiguous : forall dir l,
  cstr dir -> Forall cstr l -> StronglySorted path_le l ->
  exists l1 l2 l3, l = l1 ++ l2 ++ l3 /\
    Forall (beneath dir) l2 /\
    Forall (fun x => ~ beneath dir x) l1 /\ Forall (fun x => ~ beneath dir x) l3 /\
    Forall (fun x => path_le dir x /\ (x <> dir -> path_lt dir x)) l2.
Proof. exact dir_contiguous. Qed.
Print Assumptions C02_dir_contiguous.

Example C02_witness :
  let l := [str "/a"; str "/a/x"; str "/a/x/y"; str "/a-b"; str "/ab"] in
  cstr (str "/a") /\ Forall cstr l /\ StronglySorted path_le l /\
  beneath (str "/a") (str "/a/x/y") /\ ~ beneath (str "/a") (str "/a-b").
Proof.
  cbv zeta. split; [|split; [|split; [|split]]].
  - apply cstrb_ok; reflexivity.
  - apply Forall_cstrb; reflexivity.
  - apply sorted_pathb_ok; reflexivity.
  - right; left. exists (str "x/y"). reflexivity.
  - intros [H|[[x H]|[d [y [x [H _]]]]]]; try discriminate.
    destruct d as [|? [|? [|? ?]]]; discriminate.
Qed.

Theorem C03_is_subdir_exact : forall dir sub, cstr dir -> cstr sub ->
  (is_subdir_s dir sub > 0 <-> beneath dir sub) /\
  (is_subdir_s dir sub <= 0 <-> is_subdir_s dir sub = 0).
Proof. exact is_subdir_exact. Qed.
Print Assumptions C03_is_subdir_exact.

Theorem C03_is_subdir_deeper : forall d1 d2 sub,
  cstr d1 -> cstr d2 -> cstr sub ->
  is_subdir_s d1 sub > 0 -> is_subdir_s d2 sub > 0 ->
  (List.length d1 < List.length d2)%nat ->
  is_subdir_s d1 sub <= is_subdir_s d2 sub /\
  ((forall p, d1 <> p ++ [slash]) -> is_subdir_s d1 sub < is_subdir_s d2 sub).
Proof. exact is_subdir_deeper. Qed.
Print Assumptions C03_is_subdir_deeper.

Example C03_witness :
  is_subdir_s (str "/home/foo") (str "/home/foobar") = 0 /\
  is_subdir_s (str "/home/foo") (str "/home/foo/bar") = 3 /\
  is_subdir_s (str "/home") (str "/home/foo/bar") = 2 /\
  is_subdir_s (str "/") (str "/home/foo/bar") = 2 /\
  is_subdir_s (str "/home/") (str "/home/foo") = 3.
Proof. repeat split; reflexivity. Qed.

Theorem C04_has_dot_component_exact : forall p, cstr p ->
  (has_dot_component p = true <-> In [dot] (components p) \/ In [dot; dot] (components p)).
Proof. exact has_dot_component_exact. Qed.
Print Assumptions C04_has_dot_component_exact.

Theorem C04_is_absolute_exact : forall p, cstr p ->
  (is_absolute p = true <->
   (~ In [dot] (components p) /\ ~ In [dot; dot] (components p)) /\
   ((exists r, p = slash :: r) \/ (exists c r, isalpha c = true /\ p = c :: 58 :: r))).
Proof. exact is_absolute_exact. Qed.
Print Assumptions C04_is_absolute_exact.

(* The component split used in the statements is the real one. *)
Theorem C04_components_faithful : forall s,
  join_slash (components s) = s /\ (forall w, In w (components s) -> ~ In slash w).
Proof. intros s. split; [apply join_components | intros w; apply components_noslash]. Qed.
Print Assumptions C04_components_faithful.

Example C04_witness :
  has_dot_component (str "/a/../b") = true /\ has_dot_component (str "..") = true /\
  has_dot_component (str "/a/.../b..") = false /\ is_absolute (str "C:/x") = true /\
  is_absolute (str "/a/./b") = false.
Proof. repeat split; reflexivity. Qed.
