(* Model of the browse cache of the status monitor: /repo/src/server/monitor/cache.c
   and /repo/src/server/monitor/browse.c *)
From Verif Require Import Bytes CmdModel.

(* S_IFDIR: /repo/src/server/monitor/cache.c:160 *)
Definition S_IFDIR : Z := 16384.
(* An entry of the manifest as far as this goes: sb->path, sb->link and
   sb->statp, of which st_mode is told apart and r_stat stands for the rest.
   /repo/src/server/monitor/cache.c:113-128,61 *)
Record rec := mkrec { r_cmd : Z; r_path : bytes; r_link : bytes; r_mode : Z; r_stat : Z }.
(* What is shown of an entry, json_from_entry(): /repo/src/server/monitor/json_output.c:472-491 *)
Record item := mkitem { i_name : bytes; i_link : bytes; i_mode : Z; i_stat : Z }.
(* struct ent: /repo/src/server/monitor/cache.c:12-19.  The array ents is a list
   with the last one first. *)
Inductive node := Node (i : item) (ents : list node).
(* The fields of struct ent: /repo/src/server/monitor/cache.c:12-19 *)
Definition n_item (n : node) : item := match n with Node i _ => i end.
Definition n_ents (n : node) : list node := match n with Node _ l => l end.

(* The entries that are browsed: /repo/src/server/monitor/cache.c:123-129 and
   /repo/src/server/monitor/browse.c:36-42 *)
Definition browsable (c : Z) : bool :=
  (c =? CMD_DIRECTORY) || (c =? CMD_FILE) || (c =? CMD_ENC_FILE) || (c =? CMD_EFS_FILE) || (c =? CMD_SPECIAL) || cmd_is_link c.

(* All that strtok(s, "/") gives: /repo/src/server/monitor/cache.c:141,164,219,229.
   cur: the token so far, reversed. *)
Fixpoint stoks (s cur : bytes) : list bytes :=
  match s with
  | [] => match cur with [] => [] | _ => [rev cur] end
  | c :: r => if c =? slash then match cur with [] => stoks r [] | _ => rev cur :: stoks r [] end
              else stoks r (c :: cur)
  end.
(* Does the path go on after its last token: sb->path.buf+sb->path.len is not
   tok+strlen(tok) for the last one.  /repo/src/server/monitor/cache.c:153 *)
Definition trails (s : bytes) : bool := last s 0 =? slash.

(* The do loop of cache_load(): /repo/src/server/monitor/cache.c:141-164, with
   ent_add_to_list(): 50-65.  mode is sb->statp.st_mode, which the loop changes. *)
Fixpoint ins (toks : list bytes) (trail : bool) (link : bytes) (mode stat : Z) (ents : list node) : list node :=
  match toks with
  | [] => ents
  | t :: r =>
      let add :=
        let m := match r with [] => if trail then Z.land mode S_IFDIR else mode | _ => Z.land mode S_IFDIR end in
        Node (mkitem t link m stat) (ins r trail link m stat []) :: ents in
      match ents with
      | Node i l :: rest => if beqb t (i_name i) then Node i (ins r trail link mode stat l) :: rest else add
      | [] => add
      end
  end.
(* One entry: /repo/src/server/monitor/cache.c:131-164 *)
Definition load_one (e : rec) (root : node) : node :=
  match root with
  | Node i l =>
      let i := if beqb (i_name i) [] && (hd0 (r_path e) =? slash) then mkitem [slash] (i_link i) (r_mode e) (r_stat e) else i in
      Node i (ins (stoks (r_path e) []) (trails (r_path e)) (r_link e) (r_mode e) (r_stat e) l)
  end.
(* The while loop of cache_load(): /repo/src/server/monitor/cache.c:113-165 *)
Fixpoint load (es : list rec) (root : node) : node :=
  match es with
  | [] => root
  | e :: r => load r (if browsable (r_cmd e) then load_one e root else root)
  end.
(* The root to begin with: /repo/src/server/monitor/cache.c:111 *)
Definition root0 : node := Node (mkitem [] [] 0 0) [].
(* cache_load() of a manifest that can be read: /repo/src/server/monitor/cache.c:98-174 *)
Definition cache_load (es : list rec) : node := load es root0.

(* The loop over the tokens in cache_lookup(): /repo/src/server/monitor/cache.c:219-229.
   One that is not found is passed over. *)
Fixpoint walk (toks : list bytes) (point : node) : node :=
  match toks with
  | [] => point
  | t :: r => match find (fun n => beqb t (i_name (n_item n))) (rev (n_ents point)) with
              | Some n => walk r n
              | None => walk r point
              end
  end.
(* result_list(): /repo/src/server/monitor/cache.c:191-198 *)
Definition result_list (n : node) : list item := map n_item (rev (n_ents n)).
(* cache_lookup(): /repo/src/server/monitor/cache.c:200-235.  [] stands for NULL
   too. *)
Definition cache_lookup (root : node) (browse : bytes) : list item :=
  match browse with
  | [] => match i_name (n_item root) with [] => result_list root | _ => [n_item root] end
  | _ => result_list (walk (stoks browse []) root)
  end.

(* root, cached_client and cached_bno: /repo/src/server/monitor/cache.c:46-48 *)
Record cache := mkcache { c_root : node; c_key : option (bytes * Z) }.
(* cache_loaded(): /repo/src/server/monitor/cache.c:176-183 *)
Definition cache_loaded (c : cache) (client : bytes) (bno : Z) : bool :=
  match c_key c with Some (n, b) => beqb client n && (b =? bno) | None => false end.
(* browse_manifest() with the cache: /repo/src/server/monitor/browse.c:82-99.
   manifest: what is read from the one on disk; false: it ends in an error.  For
   paths that do not begin with an asterisk. *)
Definition browse_manifest (c : cache) (client : bytes) (bno : Z) (manifest : list rec * bool) (browse : bytes)
  : cache * option (list item) :=
  if cache_loaded c client bno then (c, Some (cache_lookup (c_root c) browse))
  else let root := cache_load (fst manifest) in
       if snd manifest then (mkcache root (Some (client, bno)), Some (cache_lookup root browse))
       else (mkcache root None, None).
(* One request: the client, the number of the backup, the directory and what its
   manifest is then.  /repo/src/server/monitor/json_output.c:283-295 *)
Record bask := mkbask { b_client : bytes; b_bno : Z; b_dir : bytes; b_manifest : list rec * bool }.
(* Requests one after the other, from a cache that has nothing:
   /repo/src/server/monitor/cache.c:46-48 *)
Fixpoint browses (c : cache) (rs : list bask) : list (option (list item)) :=
  match rs with
  | [] => []
  | r :: rs => let '(c, a) := browse_manifest c (b_client r) (b_bno r) (b_manifest r) (b_dir r) in a :: browses c rs
  end.
(* Nothing is loaded: /repo/src/server/monitor/cache.c:46-48.  root is NULL then, and
   is not looked at. *)
Definition cache0 : cache := mkcache root0 None.
