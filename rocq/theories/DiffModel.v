(* Model of comparing two backups: /repo/src/server/diff.c.  Sending to the client
   is taken to succeed; manifests are taken as the entries read from them (C12) and
   whether reading ended with the end of the file or with an error. *)
From Verif Require Import Bytes CmdModel AttribsModel SbufModel MergeModel AuthModel BuModel Phase2Model.

(* What manio_read() gives, one entry after the other, and whether 1 and not -1
   comes after the last: /repo/src/server/diff.c:75-92 *)
Definition manifest := (list ent * bool)%type.

(* "- " and "+ ": /repo/src/server/diff.c:40-48 *)
Inductive sign := Minus | Plus.
(* /repo/src/server/diff.c:42, 47 *)
Definition symbol (s : sign) : bytes := match s with Minus => [45; 32] | Plus => [43; 32] end.

(* The loop of diff_manifests(): /repo/src/server/diff.c:73-131, the lines it
   sends and whether it ends well.  A pass with both heads empty (106-109) is not
   a step here. *)
Fixpoint diff_entries (l1 : list ent) (ok1 : bool) (ok2 : bool) : list ent -> list (sign * ent) * bool :=
  fix inner (l2 : list ent) : list (sign * ent) * bool :=
  match l1, l2 with
  | [], [] => ([], ok1 && ok2)                                             (* 80-81, 90-91 *)
  | a :: l1', [] => if ok2 then let '(o, r) := diff_entries l1' ok1 ok2 [] in ((Minus, a) :: o, r)
                    else ([], false)                                       (* 94-99 *)
  | [], b :: l2' => if ok1 then let '(o, r) := inner l2' in ((Plus, b) :: o, r)
                    else ([], false)                                       (* 100-105 *)
  | a :: l1', b :: l2' =>
      let pcmp := sbuf_pathcmp (e_sb a) (e_sb b) in
      if pcmp =? 0 then                                                    (* 110-120 *)
        let '(o, r) := diff_entries l1' ok1 ok2 l2' in
        (if st_mtime (e_at a) =? st_mtime (e_at b) then o else (Minus, a) :: (Plus, b) :: o, r)
      else if pcmp <? 0 then
        let '(o, r) := diff_entries l1' ok1 ok2 l2 in ((Minus, a) :: o, r) (* 121-126 *)
      else let '(o, r) := inner l2' in ((Plus, b) :: o, r)                 (* 127-132 *)
  end.

(* send_diff(): /repo/src/server/diff.c:23-39, with prepend_s() of the symbol. *)
Definition send_diff (x : sign * ent) : list (Z * bytes) :=
  let '(s, e) := x in
  let sb := e_sb e in
  let p := match ibuf (s_path sb) with Some b => cview b | None => [] end in
  [msg_of (s_attr sb); (icmd (s_path sb), prepend_s (symbol s) p)]
  ++ (if cmd_is_link (icmd (s_path sb)) then [msg_of (s_link sb)] else []).

(* What do_diff_server() knows of a backup: /repo/src/server/diff.c:181-184, 193 *)
Record dbu := mkdbu { b_no : Z; b_ts : bytes; b_man : manifest }.
(* The loops of /repo/src/server/diff.c:181-184 *)
Fixpoint find_bno (n : Z) (l : list dbu) : option dbu :=
  match l with
  | [] => None
  | b :: r => if b_no b =? n then Some b else find_bno n r
  end.
(* send_backup_name_to_client(): /repo/src/server/diff.c:143-148, 63 bytes of it. *)
Definition send_name (b : dbu) : Z * bytes := (CMD_TIMESTAMP, firstn 63 (b_ts b)).
(* "if(backup1 && *backup1) bno1=strtoul(backup1, NULL, 10)":
   /repo/src/server/diff.c:168-171 *)
Definition read_bno (s : option bytes) : Z :=
  match s with Some (c :: r) => strtoul10 (c :: r) | _ => 0 end.
(* do_diff_server(): /repo/src/server/diff.c:150-211.  True is 0. *)
Definition do_diff_server (l : list dbu) (backup1 backup2 : option bytes) : list (Z * bytes) * bool :=
  let bno1 := read_bno backup1 in
  let bno2 := read_bno backup2 in
  if (bno1 =? 0) || (bno2 =? 0) || (bno1 =? bno2)
  then ([(CMD_ERROR, str "you need to specify two backups")], false)      (* 173-178 *)
  else match find_bno bno1 l, find_bno bno2 l with
       | Some b1, Some b2 =>
         let '(o, r) := diff_entries (fst (b_man b1)) (snd (b_man b1)) (snd (b_man b2)) (fst (b_man b2)) in
         (send_name b1 :: send_name b2 :: flat_map send_diff o, r)         (* 193-203 *)
       | _, _ => ([(CMD_ERROR, str "could not find specified backups")], false) (* 185-190 *)
       end.
