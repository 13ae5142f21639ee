(* Model of combining and trimming manifests:
   /repo/src/server/backup_phase3.c and backup_phase4.c:531-631.  Files are
   taken as the lists of entries read from them (C12). *)
From Verif Require Import Bytes CmdModel SbufModel.

(* sbuf_pathcmp(): /repo/src/sbuf.c:122-125 *)
Definition sbuf_pathcmp (a b : sbuf) : Z := iobuf_pathcmp (s_path a) (s_path b).

(* The loop of backup_phase3_server_all(): /repo/src/server/backup_phase3.c:43-131.
   us: entries left in the unchanged file (usb is the head), cs: entries left in
   the changed file.  A pass that finds both heads empty (93-96) writes nothing
   and is not a step here.  Seeding (seed_src, seed_dst) is not modelled.  When
   the heads compare equal only csb is written and freed (97-108). *)
Fixpoint phase3 (us : list sbuf) : list sbuf -> list sbuf :=
  fix inner (cs : list sbuf) : list sbuf :=
  match us, cs with
  | [], [] => []
  | u :: us', [] => u :: phase3 us' []                 (* 71-81 *)
  | [], c :: cs' => c :: inner cs'                     (* 82-92 *)
  | u :: us', c :: cs' =>
      let pcmp := sbuf_pathcmp u c in
      if pcmp =? 0 then c :: inner cs'                 (* 97-108 *)
      else if pcmp <? 0 then u :: phase3 us' cs        (* 109-119 *)
      else c :: inner cs'                              (* 120-130 *)
  end.

(* The loop of maybe_delete_files_from_manifest():
   /repo/src/server/backup_phase4.c:559-606.  ms: manifest (mb is the head),
   ds: deletions file. *)
Fixpoint delete_entries (ms : list sbuf) : list sbuf -> list sbuf :=
  fix inner (ds : list sbuf) : list sbuf :=
  match ms, ds with
  | [], [] => []
  | m :: ms', [] => m :: delete_entries ms' []         (* 576-580 *)
  | [], d :: ds' => inner ds'                          (* 581-584 *)
  | m :: ms', d :: ds' =>
      let pcmp := sbuf_pathcmp m d in
      if pcmp =? 0 then delete_entries ms' ds'         (* 589-594 *)
      else if pcmp <? 0 then m :: delete_entries ms' ds (* 595-600 *)
      else inner ds'                                   (* 601-605 *)
  end.
