(* Model of where the server puts a new file: /repo/src/server/backup_phase2.c:34-113. *)
From Verif Require Import Bytes CmdModel AuthModel CntrModel DpthModel.

(* The limits: fs_path_max, fs_name_max.  /repo/src/fsops.c:12-14 *)
Record limits := mklim { l_path : Z; l_name : Z }.
(* fs_full_path_max, of 32 bits: /repo/src/fsops.c:339 *)
Definition full_max (l : limits) : Z := (l_path l + l_name l) mod 2 ^ 32.
(* init_max(): /repo/src/fsops.c:321-326.  conf: what pathconf() returns. *)
Definition init_max (conf default : Z) : Z := let max := conf mod 2 ^ 32 in if max <? default then default else max.
(* init_fs_max(): /repo/src/fsops.c:328-341, for a path that exists *)
Definition init_fs_max (conf_path conf_name : Z) : limits := mklim (init_max conf_path 1024) (init_max conf_name 255).

(* strchr(s, '/'): what comes before the first slash, and what comes after it.
   /repo/src/server/backup_phase2.c:53, 59 *)
Fixpoint cut (s : bytes) : bytes * option bytes :=
  match s with
  | [] => ([], None)
  | c :: r => if c =? slash then ([], Some r) else let '(a, b) := cut r in (c :: a, b)
  end.
(* A length: strlen().  /repo/src/server/backup_phase2.c:40, 55, 60 *)
Definition zlen (s : bytes) : Z := Z.of_nat (List.length s).
(* The loop: /repo/src/server/backup_phase2.c:56-64, from after a slash.  Whether a name
   is too long. *)
Fixpoint names_loop (fuel : nat) (name_max : Z) (s : bytes) : bool :=
  match fuel with
  | O => false
  | S fuel =>
    let '(a, b) := cut s in
    if name_max <? zlen a then true
    else match b with Some r => names_loop fuel name_max r | None => false end
  end.
(* path_too_long(): /repo/src/server/backup_phase2.c:34-66.  treepath: the directory of
   the tree. *)
Definition path_too_long (l : limits) (treepath path : bytes) : bool :=
  if full_max l <? zlen treepath + zlen path + 1 then true                       (* 40-49 *)
  else match cut path with
       | (_, None) => l_name l <? zlen path                                       (* 53-55 *)
       | (_, Some r) => names_loop (S (List.length r)) (l_name l) r               (* 56-64 *)
       end.
(* treedata(): /repo/src/server/backup_phase2.c:68-80 *)
Definition treedata (l : limits) (treepath path : bytes) (cmd : Z) (isdir : bool) : bool :=
  if isdir then false
  else if negb (cmd =? CMD_FILE) && negb (cmd =? CMD_ENC_FILE) && negb (cmd =? CMD_EFS_FILE) then false
  else negb (path_too_long l treepath path).
(* set_new_datapth(): /repo/src/server/backup_phase2.c:82-113.  The path in the data
   directory, and whether it is in the tree; tree: the option directory_tree. *)
Definition new_path (tree : bool) (l : limits) (treepath path : bytes) (cmd : Z) (isdir : bool) (compression : Z) (d : dpth) : bytes * bool :=
  if tree && treedata l treepath path cmd isdir then (prepend_s (str "t") path, true)
  else (dpth_mk d compression cmd, false).
