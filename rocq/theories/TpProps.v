(* C141: where the server puts a new file. *)
From Verif Require Import Bytes CmdModel AuthModel CntrModel FrameModel DpthModel DpthProofs TpModel TpProofs.

(* Under its own path in the tree, if that is asked for and it is a file and its names
   and its path are short enough; under a number otherwise. *)
Theorem C141_placed : forall tree l tp p cmd d comp dp,
  new_path tree l tp p cmd d comp dp = (prepend_s (str "t") p, true) /\ tree = true /\ d = false /\ is_file cmd /\ path_too_long l tp p = false \/
  new_path tree l tp p cmd d comp dp = (dpth_mk dp comp cmd, false) /\ ~ (tree = true /\ d = false /\ is_file cmd /\ path_too_long l tp p = false).
Proof. exact placed. Qed.
Print Assumptions C141_placed.
Theorem C141_long : forall l tp p, path_too_long l tp p = false <->
  zlen tp + zlen p + 1 <= full_max l /\ (forall c, later_name p c -> zlen c <= l_name l) /\ (no_slash p -> zlen p <= l_name l).
Proof. exact too_long. Qed.
Print Assumptions C141_long.
(* Every name of the place of an absolute path is short enough to be made. *)
Theorem C141_names_partial : forall l tp q c, 1 <= l_name l -> path_too_long l tp (slash :: q) = false -> q <> [] ->
  name_in (prepend_s (str "t") (slash :: q)) c -> zlen c <= l_name l.
Proof. exact stored_names. Qed.
Print Assumptions C141_names_partial.
Theorem C141_apart : forall p q d comp cmd, p <> [] -> q <> [] -> is_u16 (c0 d) ->
  (prepend_s (str "t") (slash :: p) = prepend_s (str "t") (slash :: q) -> p = q) /\
  prepend_s (str "t") (slash :: p) <> dpth_mk d comp cmd.
Proof. exact stored_apart. Qed.
Print Assumptions C141_apart.

Definition linux : limits := init_fs_max 4096 255.
Definition tree_dir : bytes := str "/var/spool/burp/client/0000001 2024-01-01/data/t".
Example C141_ex_tree : new_path true linux tree_dir (str "/home/user/a") CMD_FILE false 0 (mkdpth 0 0 1 30000) = (str "t/home/user/a", true).
Proof. vm_compute. reflexivity. Qed.
Example C141_ex_long : new_path true linux tree_dir (str "/home/" ++ repeat 97 256) CMD_FILE false 5 (mkdpth 0 0 1 30000) = (str "0000/0000/0001.gz", false) /\
  snd (new_path true linux tree_dir (str "/home/" ++ repeat 97 255) CMD_FILE false 5 (mkdpth 0 0 1 30000)) = true.
Proof. vm_compute. auto. Qed.
Example C141_ex_dir : new_path true linux tree_dir (str "/home") CMD_FILE true 0 (mkdpth 0 0 1 30000) = (str "0000/0000/0001", false).
Proof. vm_compute. reflexivity. Qed.
Example C141_ex_name : name_in (prepend_s (str "t") (str "/home/user/a")) (str "user") /\ path_too_long linux tree_dir (str "/home/user/a") = false.
Proof.
  split; [|vm_compute; reflexivity]. split; [intros h; cbn in h; unfold slash in h; lia|].
  exists (str "t/home/"), (str "/a"). split; [reflexivity|]. split; right; [exists (str "t/home")|exists (str "a")]; reflexivity.
Qed.
(* The path as a whole: the limit is the sum of the longest path and the longest name, so
   that paths are put in the tree which are longer than any that can be opened.  A path of
   4090 bytes, which the client can open, in a tree below a directory of 48. *)
Theorem C141_path_refuted : exists tp p, zlen p < l_path linux /\ path_too_long linux tp p = false /\ l_path linux < zlen tp + zlen p.
Proof.
  exists tree_dir, (List.concat (repeat (str "/aaaaaaaaa") 409)). repeat split; vm_compute; reflexivity.
Qed.
Print Assumptions C141_path_refuted.
(* The first name of a path without a slash at the beginning is not looked at. *)
Theorem C141_first_refuted : exists p c, path_too_long linux tree_dir p = false /\ name_in (prepend_s (str "t") p) c /\ l_name linux < zlen c.
Proof.
  exists (repeat 97 300 ++ str "/b"), (repeat 97 300). split; [vm_compute; reflexivity|]. split; [|vm_compute; reflexivity].
  split; [intros h; apply repeat_spec in h; discriminate h|].
  exists (str "t/"), (str "/b"). split; [vm_compute; reflexivity|]. split; right; [exists (str "t")|exists (str "b")]; reflexivity.
Qed.
Print Assumptions C141_first_refuted.
