(* Model of how the status monitor keeps its list of clients:
   /repo/src/cstat.c:68-94 and /repo/src/server/monitor/cstat.c:90-242 *)
From Verif Require Import Bytes AuthModel.

(* strcmp(), as the sign: /repo/src/cstat.c:75 *)
Fixpoint strcmp (a b : bytes) : comparison :=
  match a, b with
  | [], [] => Eq
  | [], _ :: _ => Lt
  | _ :: _, [] => Gt
  | x :: a, y :: b => match x ?= y with Eq => strcmp a b | c => c end
  end.

(* A struct cstat as far as this goes: name, conf_mtime and permitted.
   /repo/src/cstat.h:17-39 *)
Record cs := mkcs { s_name : bytes; s_mtime : Z; s_permitted : bool }.
(* cstat_alloc() and cstat_init(): /repo/src/cstat.c:9-21 *)
Definition new_cs (n : bytes) : cs := mkcs n 0 false.

(* cstat_add_to_list(): /repo/src/cstat.c:68-94.  The list is walked forwards;
   prev is left out. *)
Fixpoint add_to_list (c : cs) (l : list cs) : list cs :=
  match l with
  | [] => [c]
  | x :: r => match strcmp (s_name c) (s_name x) with Lt => c :: l | _ => x :: add_to_list c r end
  end.
(* cstat_get_client_names(): /repo/src/server/monitor/cstat.c:90-133.  dir: the
   names scandir() gives, which are not empty. *)
Fixpoint get_client_names (dir : list bytes) (l : list cs) : list cs :=
  match dir with
  | [] => l
  | n :: r => if negb (cname_valid 0 n) then get_client_names r l             (* 107-108 *)
              else if existsb (fun c => beqb n (s_name c)) l then get_client_names r l
              else get_client_names r (add_to_list (new_cs n) l)
  end.

(* The files at the time of a look at the disk: f_mtime: of the configuration of
   a client, None when it is no regular file; f_load: what cstat_permitted() says
   of it (C84), None when it cannot be loaded; f_global: the time of the main
   configuration.  /repo/src/server/monitor/cstat.c:186-232 *)
Record disk := mkdisk { f_names : list bytes; f_mtime : bytes -> option Z; f_load : bytes -> option bool; f_global : Z }.
(* One client that is still there: /repo/src/server/monitor/cstat.c:211-234 *)
Definition reload (d : disk) (gold : Z) (m : Z) (c : cs) : cs :=
  if (m =? s_mtime c) && (f_global d =? gold) then c
  else mkcs (s_name c) m match f_load d (s_name c) with Some p => p | None => false end.
(* One round of the for loop: /repo/src/server/monitor/cstat.c:199-235.  true:
   one has been taken out, and there is a list to begin again with. *)
Fixpoint round (d : disk) (gold : Z) (l : list cs) : list cs * bool :=
  match l with
  | [] => ([], false)
  | c :: r => match f_mtime d (s_name c) with
              | None => (r, true)
              | Some m => let '(r, b) := round d gold r in (reload d gold m c :: r, b)
              end
  end.
(* The while loop of cstat_reload_from_client_confs(): /repo/src/server/monitor/cstat.c:197-238.
   Each round but the last takes one out, so that fuel is one more than there
   are.  When the only one is taken out the C code stops at once, which is no
   different. *)
Fixpoint rounds (fuel : nat) (d : disk) (gold : Z) (l : list cs) : list cs :=
  match fuel with
  | O => l
  | S n => let '(l, again) := round d gold l in if again then rounds n d gold l else l
  end.
(* cstat_reload_from_client_confs(): /repo/src/server/monitor/cstat.c:173-242 *)
Definition reload_all (d : disk) (gold : Z) (l : list cs) : list cs := rounds (S (List.length l)) d gold l.
(* cstat_load_data_from_disk(): /repo/src/server/monitor/cstat.c:291-301, without
   the lists of backups.  The list and global_mtime. *)
Definition load_from_disk (d : disk) (st : list cs * Z) : list cs * Z :=
  (reload_all d (snd st) (get_client_names (f_names d) (fst st)), f_global d).
(* The list after looking at the disk some times: /repo/src/server/monitor/status_server.c:450,513-520 *)
Definition loads (ds : list disk) : list cs * Z := fold_left (fun st d => load_from_disk d st) ds ([], 0).
