(* Model of /repo/src/cmd.h, /repo/src/cmd.c and the comparison in
   /repo/src/iobuf.c.  A command is the character it is written as. *)
From Verif Require Import Bytes PathcmpModel.

(* enum cmd: /repo/src/cmd.h:6-61 (each value is its character code). *)
Definition CMD_ATTRIBS : Z := 114.      (* 'r' *)
Definition CMD_FILE : Z := 102.         (* 'f' *)
Definition CMD_ENC_FILE : Z := 121.     (* 'y' *)
Definition CMD_DIRECTORY : Z := 100.    (* 'd' *)
Definition CMD_SOFT_LINK : Z := 108.    (* 'l' *)
Definition CMD_HARD_LINK : Z := 76.     (* 'L' *)
Definition CMD_SPECIAL : Z := 115.      (* 's' *)
Definition CMD_METADATA : Z := 109.     (* 'm' *)
Definition CMD_ENC_METADATA : Z := 110. (* 'n' *)
Definition CMD_EFS_FILE : Z := 107.     (* 'k' *)
Definition CMD_DATAPTH : Z := 116.      (* 't' *)
Definition CMD_VSS : Z := 118.          (* 'v' *)
Definition CMD_ENC_VSS : Z := 86.       (* 'V' *)
Definition CMD_VSS_T : Z := 117.        (* 'u' *)
Definition CMD_ENC_VSS_T : Z := 85.     (* 'U' *)
Definition CMD_GEN : Z := 99.           (* 'c' *)
Definition CMD_ERROR : Z := 101.        (* 'e' *)
Definition CMD_APPEND : Z := 97.        (* 'a' *)
Definition CMD_INTERRUPT : Z := 105.    (* 'i' *)
Definition CMD_MESSAGE : Z := 112.      (* 'p' *)
Definition CMD_WARNING : Z := 119.      (* 'w' *)
Definition CMD_END_FILE : Z := 120.     (* 'x' *)
Definition CMD_MANIFEST : Z := 77.      (* 'M' *)
Definition CMD_TIMESTAMP : Z := 98.     (* 'b' *)

(* cmd_is_filedata(): /repo/src/cmd.c:99-106 *)
Definition cmd_is_filedata (c : Z) : bool :=
  (c =? CMD_FILE) || (c =? CMD_ENC_FILE) || (c =? CMD_METADATA)
  || (c =? CMD_ENC_METADATA) || (c =? CMD_EFS_FILE).

(* cmd_is_vssdata(): /repo/src/cmd.c:108-114 *)
Definition cmd_is_vssdata (c : Z) : bool :=
  (c =? CMD_VSS) || (c =? CMD_ENC_VSS) || (c =? CMD_VSS_T) || (c =? CMD_ENC_VSS_T).

(* cmd_is_link(): /repo/src/cmd.c:116-119 *)
Definition cmd_is_link (c : Z) : bool := (c =? CMD_SOFT_LINK) || (c =? CMD_HARD_LINK).

(* cmd_is_encrypted(): /repo/src/cmd.c:126-133 *)
Definition cmd_is_encrypted (c : Z) : bool :=
  (c =? CMD_ENC_FILE) || (c =? CMD_ENC_METADATA) || (c =? CMD_ENC_VSS)
  || (c =? CMD_ENC_VSS_T) || (c =? CMD_EFS_FILE).

(* cmd_is_metadata(): /repo/src/cmd.c:135-140 *)
Definition cmd_is_metadata (c : Z) : bool :=
  cmd_is_vssdata c || (c =? CMD_METADATA) || (c =? CMD_ENC_METADATA).

(* cmd_is_estimatable(): /repo/src/cmd.c:142-147 *)
Definition cmd_is_estimatable (c : Z) : bool :=
  (c =? CMD_FILE) || (c =? CMD_ENC_FILE) || (c =? CMD_EFS_FILE).

(* The entry types parse_cmd() accepts as a path: /repo/src/sbuf.c:149-163 *)
Definition cmd_is_path (c : Z) : bool :=
  (c =? CMD_FILE) || (c =? CMD_DIRECTORY) || (c =? CMD_SOFT_LINK) || (c =? CMD_HARD_LINK)
  || (c =? CMD_SPECIAL) || (c =? CMD_ENC_FILE) || (c =? CMD_METADATA)
  || (c =? CMD_ENC_METADATA) || (c =? CMD_EFS_FILE) || (c =? CMD_VSS)
  || (c =? CMD_ENC_VSS) || (c =? CMD_VSS_T) || (c =? CMD_ENC_VSS_T).

(* struct iobuf: /repo/src/iobuf.h:7-12.  len is the length of the list. *)
Record iobuf := mkiobuf { icmd : Z; ibuf : option bytes }.

(* A char buffer read as a C string: the bytes before the first NUL.  Used
   wherever /repo/src passes iobuf->buf to a str*() function. *)
Fixpoint cview (s : bytes) : bytes :=
  match s with
  | [] => []
  | b :: s' => if b =? 0 then [] else b :: cview s'
  end.

(* iobuf_pathcmp(): /repo/src/iobuf.c:71-97 *)
Definition iobuf_pathcmp (a b : iobuf) : Z :=
  let r := pathcmp (option_map cview (ibuf a)) (option_map cview (ibuf b)) in
  if negb (r =? 0) then r
  else
    let meta c := (c =? CMD_METADATA) || (c =? CMD_ENC_METADATA) in
    let vss c := (c =? CMD_VSS) || (c =? CMD_ENC_VSS) in
    let vsst c := (c =? CMD_VSS_T) || (c =? CMD_ENC_VSS_T) in
    if meta (icmd a) then (if meta (icmd b) then 0 else 1)
    else if vss (icmd a) then (if vss (icmd b) then 0 else -1)
    else if vsst (icmd a) then (if vsst (icmd b) then 0 else 1)
    else if meta (icmd b) then -1
    else if vss (icmd b) then 1
    else if vsst (icmd b) then -1
    else 0.
