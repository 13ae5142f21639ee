(* Model of the temporary files made on the server while a file is restored or
   verified: process_data_dir_file(), /repo/src/server/restore_sbuf.c:259-348.
   The file system is that of Phase4Model; the files of the repository and the
   two temporary names are all given by their paths. *)
From Verif Require Import Bytes Phase4Model.

(* tmp1 and tmp2 in the directory of the backup:
   /repo/src/server/restore_sbuf.c:275-277 *)
Definition tmp1 : name := NElse (str "tmp1").
Definition tmp2 : name := NElse (str "tmp2"). (* /repo/src/server/restore_sbuf.c:276 *)

Section Restore.
(* zlib and librsync, as in Phase4Model: /repo/src/server/zlibio.c:8-58,
   /repo/src/server/backup_phase4.c:31-65.  many as for do_link(),
   /repo/src/server/link.c:135-142 *)
Variables (gunzip : bytes -> option bytes) (patch : bytes -> bytes -> option bytes) (many : nat -> bool).

(* inflate_or_link_oldfile(): /repo/src/server/restore_sbuf.c:35-70 *)
Definition inflate_to (path tmp : name) (comp : bool) : run := look (fun s =>
  match content s path with
  | None => fail
  | Some c =>
    if comp then
      match c with
      | [] => write tmp []                                       (* 50-57 *)
      | _ => match gunzip c with
             | Some p => write tmp p                             (* 59 *)
             | None => andthen (write tmp []) fail
             end
      end
    else do_link many path tmp true                              (* 65-67 *)
  end).

(* do_patch(): /repo/src/server/backup_phase4.c:31-65.  What a patch that fails
   has written is taken to be nothing. *)
Definition do_patch (best dl tmp : name) : run := look (fun s =>
  match content s best, content s dl with
  | Some b, Some d => match patch b d with
                      | Some c => write tmp c
                      | None => andthen (write tmp []) fail
                      end
  | _, _ => fail
  end).

(* The loop over the reverse deltas that exist, newest first, best and tmp
   changing places: /repo/src/server/restore_sbuf.c:307-321 *)
Fixpoint patch_loop (best tmp : name) (ds : list name) : run :=
  match ds with
  | [] => ok
  | d :: r => andthen (do_patch best d tmp) (andthen (unlink best) (patch_loop tmp best r))
  end.

(* Making the file to send: /repo/src/server/restore_sbuf.c:279-321 *)
Definition make_file (path : name) (ds : list name) (comp : bool) : run :=
  match ds with
  | [] => ok
  | _ => andthen (inflate_to path tmp1 comp) (patch_loop tmp1 tmp2 ds)
  end.

(* process_data_dir_file() as to files: /repo/src/server/restore_sbuf.c:279-348.
   Sending, which changes no file, is left out. *)
Definition process_file (path : name) (ds : list name) (comp : bool) : run :=
  always (make_file path ds comp)
         (andthen (unlink tmp1) (unlink tmp2)).                  (* 343-344 *)
End Restore.

(* What best is in the end: /repo/src/server/restore_sbuf.c:302-318 *)
Fixpoint turns (best tmp : name) (ds : list name) : name :=
  match ds with [] => best | _ :: r => turns tmp best r end.

(* /repo/src/server/restore_sbuf.c:279-321 *)
Definition best_of (path : name) (ds : list name) : name :=
  match ds with [] => path | _ => turns tmp1 tmp2 ds end.
