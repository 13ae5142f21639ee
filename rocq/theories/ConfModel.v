(* Model of the parsing of configuration lines: /repo/src/conffile.c. *)
From Verif Require Import Bytes FrameModel BuModel AuthModel.

(* The loop of remove_quotes(): /repo/src/conffile.c:43-71.  acc: what has been
   written to the destination, reversed.  None: the loop steps over the
   terminating NUL (lines 55-58 with a backslash as the last character). *)
Fixpoint unquote (quote : Z) (s acc : bytes) : option bytes :=
  match s with
  | [] => Some (rev acc)
  | c :: r =>
      if c =? quote then Some (rev acc)
      else if c =? 92 then match r with [] => None | d :: r' => unquote quote r' (d :: acc) end
      else unquote quote r (c :: acc)
  end.
(* remove_quotes(): /repo/src/conffile.c:27-75.  Some (removed, value). *)
Definition remove_quotes (v : bytes) (quote : Z) : option (bool * bytes) :=
  if hd0 v =? quote then match unquote quote (tl v) [] with Some w => Some (true, w) | None => None end
  else Some (false, v).

(* The loops that step back over blanks: /repo/src/conffile.c:95-100 and 104-105,
   and forward in get_file_size(): 136-137.  p: what is stepped over. *)
Definition skip_back (p : Z -> bool) : bytes -> bytes :=
  fix go (s : bytes) := match s with c :: r => if p c then go r else s | [] => [] end.
(* What strchr() for '=' finds: /repo/src/conffile.c:92.  The texts on either side. *)
Fixpoint split_eq (s : bytes) : option (bytes * bytes) :=
  match s with
  | [] => None
  | c :: r => if c =? 61 then Some ([], r) else match split_eq r with Some (a, b) => Some (c :: a, b) | None => None end
  end.

(* What conf_get_pair() (/repo/src/conffile.c:78-124) leaves in its arguments. *)
Inductive pair_res :=
| PNone                                        (* nothing on the line *)
| PErr                                         (* -1 *)
| PPair (f v : bytes) (r : bool)
| POut.                                        (* memory outside the line is used *)

(* The test of the loop in /repo/src/conffile.c:95-100. *)
Definition space_or_colon (c : Z) : bool := isspace c || (c =? 58).
(* conf_get_pair(): /repo/src/conffile.c:78-124 *)
Definition conf_get_pair (buf : bytes) : pair_res :=
  let cp := skip_ws buf in
  if (hd0 cp =? 0) || (hd0 cp =? 35) then PNone                            (* 84-90 *)
  else match split_eq cp with
       | None => PErr                                                      (* 92 *)
       | Some (name, value) =>
           match skip_back space_or_colon (rev name) with
           | [] => POut                                                    (* 96: the loop passes the start of the line *)
           | back =>
               let f := rev back in
               let r := has_byte 58 (firstn (List.length name - List.length f) (rev name)) in   (* 98 *)
               let v := rev (skip_back isspace (rev (skip_ws value))) in   (* 102-105 *)
               match remove_quotes v 39 with
               | None => POut
               | Some (true, w) => match w with [] => PErr | _ => PPair f w r end
               | Some (false, _) =>
                   match remove_quotes v 34 with
                   | None => POut
                   | Some (_, w) => match w with [] => PErr | _ => PPair f w r end
                   end
               end
           end
       end.

(* get_file_size(): /repo/src/conffile.c:132-150.  unsigned long and uint64_t
   have 64 bits.  None: the error. *)
Definition get_file_size (v : bytes) : option Z :=
  let n := strtoul10 v in
  let cp := skip_back (fun c => isspace c || isdigit c) v in
  let c := tolower (hd0 cp) in
  if c =? 107 then Some (u64 (n * 1024))
  else if c =? 109 then Some (u64 (n * (1024 * 1024)))
  else if c =? 103 then Some (u64 (n * (1024 * 1024 * 1024)))
  else if (hd0 cp =? 0) || (hd0 cp =? 98) then Some n
  else None.

(* get_compression(): /repo/src/conffile.c:249-258 *)
Definition get_compression (v : bytes) : Z :=
  let cp := if beqb (firstn 4 v) (str "gzip") || beqb (firstn 4 v) (str "zlib") then skipn 4 v else v in
  if (List.length cp =? 1)%nat && isdigit (hd0 cp) then atoi cp else -1.
