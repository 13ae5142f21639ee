(* Model of the table of hard-linked files: /repo/src/linkhash.c and its use in
   /repo/src/client/find.c. *)
From Verif Require Import Bytes.

(* struct f_link: /repo/src/linkhash.h *)
Record flink := mklink { fl_dev : Z; fl_ino : Z; fl_name : bytes }.
(* The table: a list for each hash; /repo/src/linkhash.c:40. *)
Definition table := Z -> list flink.
(* linkhash_init(): /repo/src/linkhash.c:46-52 *)
Definition linkhash_init : table := fun _ => [].

(* get_hash(): /repo/src/linkhash.c:81-93.  Only the low 16 bits are kept, so the
   widths of the types do not matter. *)
Definition get_hash (dev ino : Z) : Z :=
  let hash := Z.lxor dev ino in
  let i := Z.shiftr ino 16 in
  let hash := Z.lxor hash i in
  let i := Z.shiftr i 16 in
  let hash := Z.lxor hash i in
  let i := Z.shiftr i 16 in
  let hash := Z.lxor hash i in
  Z.land hash 65535.
(* The loop of linkhash_search(): /repo/src/linkhash.c:99-103 *)
Fixpoint bucket_search (dev ino : Z) (l : list flink) : option flink :=
  match l with
  | [] => None
  | lp :: r => if (fl_ino lp =? ino) && (fl_dev lp =? dev) then Some lp else bucket_search dev ino r
  end.
(* linkhash_search(): /repo/src/linkhash.c:95-104 *)
Definition linkhash_search (t : table) (dev ino : Z) : option flink := bucket_search dev ino (t (get_hash dev ino)).
(* linkhash_add(): /repo/src/linkhash.c:106-117, in the bucket linkhash_search() gave. *)
Definition linkhash_add (t : table) (dev ino : Z) (name : bytes) : table :=
  fun h => if h =? get_hash dev ino then mklink dev ino name :: t h else t h.

(* A file that my_send_file_w() (/repo/src/client/find.c:286-330) gets to line 305
   with; f_kind: whether it is one of the kinds in 306-310. *)
Record file := mkfile { f_dev : Z; f_ino : Z; f_nlink : Z; f_kind : bool; f_name : bytes }.
(* What is sent for a file: itself, or a link to a name.
   /repo/src/client/find.c:305-329 *)
Inductive sent := SFile (name : bytes) | SLink (name target : bytes).
(* my_send_file_w(), lines 305-329.  The table and what is sent. *)
Definition my_send_file_w (t : table) (f : file) : table * list sent :=
  if (1 <? f_nlink f) && f_kind f
  then match linkhash_search t (f_dev f) (f_ino f) with
       | Some lp => if beqb (fl_name lp) (f_name f) then (t, []) else (t, [SLink (f_name f) (fl_name lp)])
       | None => (linkhash_add t (f_dev f) (f_ino f) (f_name f), [SFile (f_name f)])
       end
  else (t, [SFile (f_name f)]).
(* The files of a scan (/repo/src/client/find.c), one after the other. *)
Fixpoint send_files (t : table) (l : list file) : list (list sent) :=
  match l with [] => [] | f :: r => let '(t', s) := my_send_file_w t f in s :: send_files t' r end.
