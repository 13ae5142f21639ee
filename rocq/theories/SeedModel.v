(* Model of moving a first backup to another place: /repo/src/server/manio.c, the copying of
   an entry, and /repo/src/server/backup_phase2.c:1101-1136. *)
From Verif Require Import Bytes RestoreModel AuthModel.

(* An entry: path, kind, where its data is, the target of a link, and all the rest.
   /repo/src/sbuf.h *)
Record ment := mkment { m_path : bytes; m_cmd : Z; m_data : option bytes; m_link : option bytes; m_rest : bytes }.

(* buf+n, for a string that ends with a zero; None: this is past the zero, and what is
   read from there on is not of this string.  /repo/src/server/manio.c:275, 291-293 *)
Definition skip (n : nat) (s : bytes) : option bytes := if (List.length s <? n)%nat then None else Some (skipn n s).
(* A slash at the beginning is passed over: /repo/src/server/manio.c:280-281, 294-295 *)
Definition drop_slash (s : bytes) : bytes := if hd0 s =? slash then tl s else s.

(* The new path: /repo/src/server/manio.c:275-285 *)
Definition seed_path (src dst path : bytes) : option bytes :=
  match skip (List.length src) path with
  | Some tmp => Some (dst ++ [slash] ++ drop_slash tmp)
  | None => None
  end.
(* The new place of the data, if it is in the tree: /repo/src/server/manio.c:287-306 *)
Definition seed_data (src dst data : bytes) : option bytes :=
  if starts_with data (str "t") then
    match skip (1 + List.length src) data with
    | Some tmp => Some (str "t" ++ (if hd0 dst =? slash then [] else [slash]) ++ dst ++ [slash] ++ drop_slash tmp)
    | None => None
    end
  else Some data.
(* manio_copy_entry() with an output: /repo/src/server/manio.c:252-333, what is written;
   None: a read past the end of a string. *)
Definition copy_entry (seed : option (bytes * bytes)) (e : ment) : option ment :=
  match seed with
  | None => Some e
  | Some (src, dst) =>
    match seed_path src dst (m_path e) with
    | None => None
    | Some p =>
      match m_data e with
      | None => Some (mkment p (m_cmd e) None (m_link e) (m_rest e))
      | Some d => match seed_data src dst d with
                  | Some d => Some (mkment p (m_cmd e) (Some d) (m_link e) (m_rest e))
                  | None => None
                  end
      end
    end
  end.
(* maybe_move_seed_dir(): /repo/src/server/backup_phase2.c:1117-1129.  From where, to
   where, in the data directory. *)
Definition move_from (src : bytes) : bytes := str "t" ++ src.
(* /repo/src/server/backup_phase2.c:1118-1125 *)
Definition move_to (dst : bytes) : bytes := str "t" ++ (if hd0 dst =? slash then [] else [slash]) ++ dst.
