(* Model of automatic and manual deletion: /repo/src/server/delete.c, and of the
   validation of keep values in /repo/src/conffile.c. *)
From Verif Require Import Bytes FrameModel DpthModel BuModel.

(* The loop of finalise_keep_args(): /repo/src/conffile.c:763-781.  mult is
   uint64_t, flag a long. *)
Fixpoint keep_loop (l : list bytes) (mult : Z) : option (list Z) :=
  match l with
  | [] => Some []
  | p :: r =>
      let flag := atoi p in
      if flag =? 0 then None
      else
        let mult := u64 (mult * flag) in
        if mult >? 52560000 then None
        else match keep_loop r mult with Some fs => Some (flag :: fs) | None => None end
  end.
Fixpoint bump_last (l : list Z) : list Z :=
  match l with
  | [] => []
  | [x] => [x + 1]
  | x :: r => x :: bump_last r
  end.
(* finalise_keep_args(): /repo/src/conffile.c:759-789; None is -1. *)
Definition finalise_keep_args (l : list bytes) : option (list Z) :=
  match keep_loop l 1 with
  | None => None
  | Some fs => Some (if (1 <? List.length fs)%nat then bump_last fs else fs)
  end.

(* Counting: /repo/src/server/delete.c:119-122 *)
Definition in_range (s r : Z) (e : ebu) : bool := (s <? e_trbno e) && (e_trbno e <=? r).
Definition count_range (s r : Z) (es : list ebu) : Z :=
  Z.of_nat (List.length (filter (in_range s r) es)).

(* The deleting loop: /repo/src/server/delete.c:131-142, over the backups from
   the newest.  The backups given to delete_backup() are returned in order; a
   delete_backup() that fails stops everything, leaving a prefix. *)
Fixpoint del_range (s r count : Z) (newest_first : list ebu) : list ebu :=
  match newest_first with
  | [] => []
  | e :: l =>
      if (s <? e_trbno e) && (e_trbno e <? r) && e_del e
      then e :: (if count - 1 <=? 1 then [] else del_range s r (count - 1) l)
      else del_range s r count l
  end.

(* range_loop(): /repo/src/server/delete.c:103-146.  None: out of fuel. *)
Fixpoint range_loop (fuel : nat) (es : list ebu) (rmin r : Z) : option (list ebu) :=
  if r >? rmin then
    match fuel with
    | O => None
    | S f =>
        let s := u64 (r - rmin) in
        let count := count_range s r es in
        let d := if count <=? 1 then [] else del_range s r count (rev es) in
        match range_loop f es rmin (u64 (r - rmin)) with
        | Some ds => Some (d ++ ds)
        | None => None
        end
    end
  else Some [].

(* The loop over keep values: /repo/src/server/delete.c:163-172.  Result: what
   was deleted, and m. *)
Fixpoint keeps_loop (m : Z) (ks : list Z) (es : list ebu) : option (list ebu * Z) :=
  match ks with
  | [] => Some ([], m)
  | k :: ks' =>
      let rmin := u64 (m * k) in
      let d := match ks' with
               | [] => Some []
               | k2 :: _ => range_loop (Z.to_nat k2) es rmin (u64 (rmin * k2))
               end in
      match d, keeps_loop rmin ks' es with
      | Some d1, Some (d2, m') => Some (d1 ++ d2, m')
      | _, _ => None
      end
  end.

(* "Remove the very oldest backups": /repo/src/server/delete.c:174-182.  prevs:
   the backups passed, most recent first. *)
Fixpoint oldest (m : Z) (prevs es : list ebu) : list ebu :=
  match es with
  | [] => []
  | e :: r => if e_trbno e >? m then e :: prevs else oldest m (e :: prevs) r
  end.

(* do_delete_backups(): /repo/src/server/delete.c:148-187 *)
Definition do_delete_backups (ks : list Z) (es : list ebu) : option (list ebu) :=
  match keeps_loop 1 ks es with
  | Some (d, m) => Some (d ++ oldest m [] es)
  | None => None
  end.

(* What is left in the directory after deleting ds. *)
Definition left_after (es ds : list ebu) : list bu :=
  map e_bu (filter (fun e => negb (existsb (fun d => e_index d =? e_index e) ds)) es).

(* delete_backups(): /repo/src/server/delete.c:189-211.  One unit of fuel per
   pass.  Result: what is left. *)
Fixpoint delete_backups (fuel : nat) (ks : list Z) (l : list bu) : option (list bu) :=
  match fuel with
  | O => None
  | S f =>
      match do_delete_backups ks (setup_indices l) with
      | None => None
      | Some [] => Some l
      | Some ds => delete_backups f ks (left_after (setup_indices l) ds)
      end
  end.

Inductive del_answer := DelNothing | DelDone (e : ebu) | DelNotDeletable | DelNotFound.

(* The loop of do_delete_server(): /repo/src/server/delete.c:231-267.  backup is
   the request. *)
Fixpoint manual_loop (backup : bytes) (bno : Z) (es : list ebu) : del_answer :=
  match es with
  | [] => DelNotFound
  | e :: r =>
      if beqb (b_timestamp (e_bu e)) backup || (b_bno (e_bu e) =? bno)
      then if e_del e then DelDone e else DelNotDeletable
      else manual_loop backup bno r
  end.
(* do_delete_server(): /repo/src/server/delete.c:213-275 *)
Definition do_delete_server (backup : bytes) (l : list bu) : del_answer :=
  match backup with
  | [] => DelNothing
  | _ => manual_loop backup (strtoul10 backup) (setup_indices l)
  end.
