(* Model of /repo/src/base64.c and of attribs_encode/attribs_decode in
   /repo/src/attribs.c (non-Windows, no chflags build). *)
From Verif Require Import Bytes.

(* base64_digits: /repo/src/base64.c:42-49 *)
Definition base64_digits : bytes :=
  str "ABCDEFGHIJKLMNOPQRSTUVWXYZabcdefghijklmnopqrstuvwxyz0123456789+/".

(* base64_init(): /repo/src/base64.c:54-60.  Later digits overwrite earlier
   ones, everything else is 0; the digits are distinct so the first index is
   the only one. *)
Fixpoint index_of (c : Z) (l : bytes) (i : Z) : Z :=
  match l with
  | [] => 0
  | d :: l' => if d =? c then i else index_of c l' (i + 1)
  end.
Definition base64_map (c : Z) : Z := index_of c base64_digits 0.

(* The two do-while loops of to_base64(): /repo/src/base64.c:82-97.  Both run
   once per 6-bit digit; the first only counts, the second writes backwards
   from the position counted.  None = out of fuel. *)
Fixpoint b64_put (fuel : nat) (val : Z) (acc : bytes) : option bytes :=
  match fuel with
  | O => None
  | S f =>
      let acc' := nth (Z.to_nat (Z.land val 63)) base64_digits 0 :: acc in
      let v := Z.shiftr val 6 in
      if v =? 0 then Some acc' else b64_put f v acc'
  end.

(* INT64_MIN, INT64_MAX, 2^64, for the int64_t of /repo/src/base64.c:68, 78 *)
Definition int64_min : Z := - 2 ^ 63.
(* /repo/src/base64.c:68 *)
Definition int64_max : Z := 2 ^ 63 - 1.
(* /repo/src/base64.c:70 *)
Definition two64 : Z := 2 ^ 64.

(* to_base64(): /repo/src/base64.c:68-99.  Negating INT64_MIN is undefined
   behaviour in C: that outcome is None.  The returned count is the length. *)
Definition to_base64 (value : Z) : option bytes :=
  if value =? int64_min then None
  else if value <? 0
  then match b64_put 11 (- value) [] with Some d => Some (45 :: d) | None => None end
  else b64_put 11 value [].

(* isalnum() in the C locale, /repo/src/base64.c:124 *)
Definition isalnum (c : Z) : bool :=
  ((48 <=? c) && (c <=? 57)) || ((65 <=? c) && (c <=? 90)) || ((97 <=? c) && (c <=? 122)).

(* The for loop of from_base64(): /repo/src/base64.c:122-128, val is uint64_t. *)
Fixpoint from_b64_loop (s : bytes) (val : Z) (i : nat) : Z * nat :=
  match s with
  | [] => (val, i)
  | c :: s' =>
      if c =? 32 then (val, i)
      else if negb (isalnum c) && negb (c =? 43) && negb (c =? 47)
      then from_b64_loop s' val (S i)
      else from_b64_loop s' (((val * 64) mod two64 + base64_map c) mod two64) (S i)
  end.

(* Conversion of a uint64_t to int64_t, /repo/src/base64.c:130 (two's complement). *)
Definition to_int64 (v : Z) : Z := let m := v mod two64 in if m <? 2 ^ 63 then m else m - two64.

(* from_base64(): /repo/src/base64.c:106-132.  Result: value and characters
   consumed; None = undefined negation of INT64_MIN at line 130. *)
Definition from_base64 (where_ : bytes) : option (Z * nat) :=
  let '(s, i) := match where_ with
                 | 32 :: s' => (s', 1%nat)
                 | s => (s, 0%nat) end in
  let '(neg, s, i) := match s with
                      | 45 :: s' => (true, s', S i)
                      | s => (false, s, i) end in
  let '(val, i) := from_b64_loop s 0 i in
  let v := to_int64 val in
  if neg then (if v =? int64_min then None else Some (- v, i)) else Some (v, i).

(* The attribute part of struct sbuf (/repo/src/sbuf.h:41-45,54) with the
   struct stat fields used by attribs_encode(). *)
Record attrs := mkattrs {
  st_dev : Z; st_ino : Z; st_mode : Z; st_nlink : Z; st_uid : Z; st_gid : Z;
  st_rdev : Z; st_size : Z; st_blksize : Z; st_blocks : Z;
  st_atime : Z; st_mtime : Z; st_ctime : Z;
  winattr : Z; compression : Z; encryption : Z; salt : Z; use_winapi : Z }.

(* The values passed to to_base64() in order, converted to int64_t:
   /repo/src/attribs.c:64-115 (flags are the place holder of line 101). *)
Definition attr_fields (a : attrs) : list Z :=
  [ to_int64 (st_dev a); to_int64 (st_ino a); st_mode a; to_int64 (st_nlink a);
    st_uid a; st_gid a; to_int64 (st_rdev a); st_size a; st_blksize a; st_blocks a;
    st_atime a; st_mtime a; st_ctime a; 0; to_int64 (winattr a); compression a;
    encryption a; to_int64 (salt a); if use_winapi a =? 0 then 1 else 0 ].

(* The body of attribs_encode(): one number, then ' ' unless it is the last
   (/repo/src/attribs.c:64-116). *)
Fixpoint enc_fields (l : list Z) : option bytes :=
  match l with
  | [] => Some []
  | [x] => to_base64 x
  | x :: r => match to_base64 x, enc_fields r with
              | Some a, Some b => Some (a ++ 32 :: b)
              | _, _ => None
              end
  end.

(* attribs_encode(): /repo/src/attribs.c:50-121.  The buffer has 256 bytes
   (line 58); its size is checked in the theorem, not here. *)
Definition attribs_encode (a : attrs) : option bytes := enc_fields (attr_fields a).
Definition attr_buf_size : Z := 256.

(* plug() casts: /repo/src/attribs.c:124, to the field's type. *)
Definition to_uint64 (v : Z) : Z := v mod two64.
(* plug(): /repo/src/attribs.c:124 *)
Definition to_uint32 (v : Z) : Z := v mod 2 ^ 32.
(* plug(): /repo/src/attribs.c:124 *)
Definition to_int32 (v : Z) : Z := let m := v mod 2 ^ 32 in if m <? 2 ^ 31 then m else m - 2 ^ 32.

(* Field updates of /repo/src/attribs.c:140-249. *)
Definition set_dev v a := mkattrs (to_uint64 v) (st_ino a) (st_mode a) (st_nlink a) (st_uid a) (st_gid a) (st_rdev a) (st_size a) (st_blksize a) (st_blocks a) (st_atime a) (st_mtime a) (st_ctime a) (winattr a) (compression a) (encryption a) (salt a) (use_winapi a).
(* /repo/src/attribs.c:140-249 *)
Definition set_ino v a := mkattrs (st_dev a) (to_uint64 v) (st_mode a) (st_nlink a) (st_uid a) (st_gid a) (st_rdev a) (st_size a) (st_blksize a) (st_blocks a) (st_atime a) (st_mtime a) (st_ctime a) (winattr a) (compression a) (encryption a) (salt a) (use_winapi a).
(* /repo/src/attribs.c:140-249 *)
Definition set_mode v a := mkattrs (st_dev a) (st_ino a) (to_uint32 v) (st_nlink a) (st_uid a) (st_gid a) (st_rdev a) (st_size a) (st_blksize a) (st_blocks a) (st_atime a) (st_mtime a) (st_ctime a) (winattr a) (compression a) (encryption a) (salt a) (use_winapi a).
(* /repo/src/attribs.c:140-249 *)
Definition set_nlink v a := mkattrs (st_dev a) (st_ino a) (st_mode a) (to_uint64 v) (st_uid a) (st_gid a) (st_rdev a) (st_size a) (st_blksize a) (st_blocks a) (st_atime a) (st_mtime a) (st_ctime a) (winattr a) (compression a) (encryption a) (salt a) (use_winapi a).
(* /repo/src/attribs.c:140-249 *)
Definition set_uid v a := mkattrs (st_dev a) (st_ino a) (st_mode a) (st_nlink a) (to_uint32 v) (st_gid a) (st_rdev a) (st_size a) (st_blksize a) (st_blocks a) (st_atime a) (st_mtime a) (st_ctime a) (winattr a) (compression a) (encryption a) (salt a) (use_winapi a).
(* /repo/src/attribs.c:140-249 *)
Definition set_gid v a := mkattrs (st_dev a) (st_ino a) (st_mode a) (st_nlink a) (st_uid a) (to_uint32 v) (st_rdev a) (st_size a) (st_blksize a) (st_blocks a) (st_atime a) (st_mtime a) (st_ctime a) (winattr a) (compression a) (encryption a) (salt a) (use_winapi a).
(* /repo/src/attribs.c:140-249 *)
Definition set_rdev v a := mkattrs (st_dev a) (st_ino a) (st_mode a) (st_nlink a) (st_uid a) (st_gid a) (to_uint64 v) (st_size a) (st_blksize a) (st_blocks a) (st_atime a) (st_mtime a) (st_ctime a) (winattr a) (compression a) (encryption a) (salt a) (use_winapi a).
(* /repo/src/attribs.c:140-249 *)
Definition set_size v a := mkattrs (st_dev a) (st_ino a) (st_mode a) (st_nlink a) (st_uid a) (st_gid a) (st_rdev a) (to_int64 v) (st_blksize a) (st_blocks a) (st_atime a) (st_mtime a) (st_ctime a) (winattr a) (compression a) (encryption a) (salt a) (use_winapi a).
(* /repo/src/attribs.c:140-249 *)
Definition set_blksize v a := mkattrs (st_dev a) (st_ino a) (st_mode a) (st_nlink a) (st_uid a) (st_gid a) (st_rdev a) (st_size a) (to_int64 v) (st_blocks a) (st_atime a) (st_mtime a) (st_ctime a) (winattr a) (compression a) (encryption a) (salt a) (use_winapi a).
(* /repo/src/attribs.c:140-249 *)
Definition set_blocks v a := mkattrs (st_dev a) (st_ino a) (st_mode a) (st_nlink a) (st_uid a) (st_gid a) (st_rdev a) (st_size a) (st_blksize a) (to_int64 v) (st_atime a) (st_mtime a) (st_ctime a) (winattr a) (compression a) (encryption a) (salt a) (use_winapi a).
(* /repo/src/attribs.c:140-249 *)
Definition set_atime v a := mkattrs (st_dev a) (st_ino a) (st_mode a) (st_nlink a) (st_uid a) (st_gid a) (st_rdev a) (st_size a) (st_blksize a) (st_blocks a) (to_int64 v) (st_mtime a) (st_ctime a) (winattr a) (compression a) (encryption a) (salt a) (use_winapi a).
(* /repo/src/attribs.c:140-249 *)
Definition set_mtime v a := mkattrs (st_dev a) (st_ino a) (st_mode a) (st_nlink a) (st_uid a) (st_gid a) (st_rdev a) (st_size a) (st_blksize a) (st_blocks a) (st_atime a) (to_int64 v) (st_ctime a) (winattr a) (compression a) (encryption a) (salt a) (use_winapi a).
(* /repo/src/attribs.c:140-249 *)
Definition set_ctime v a := mkattrs (st_dev a) (st_ino a) (st_mode a) (st_nlink a) (st_uid a) (st_gid a) (st_rdev a) (st_size a) (st_blksize a) (st_blocks a) (st_atime a) (st_mtime a) (to_int64 v) (winattr a) (compression a) (encryption a) (salt a) (use_winapi a).
(* /repo/src/attribs.c:140-249 *)
Definition set_winattr v a := mkattrs (st_dev a) (st_ino a) (st_mode a) (st_nlink a) (st_uid a) (st_gid a) (st_rdev a) (st_size a) (st_blksize a) (st_blocks a) (st_atime a) (st_mtime a) (st_ctime a) (to_uint64 v) (compression a) (encryption a) (salt a) (use_winapi a).
(* /repo/src/attribs.c:140-249 *)
Definition set_compression v a := mkattrs (st_dev a) (st_ino a) (st_mode a) (st_nlink a) (st_uid a) (st_gid a) (st_rdev a) (st_size a) (st_blksize a) (st_blocks a) (st_atime a) (st_mtime a) (st_ctime a) (winattr a) (to_int32 v) (encryption a) (salt a) (use_winapi a).
(* /repo/src/attribs.c:140-249 *)
Definition set_encryption v a := mkattrs (st_dev a) (st_ino a) (st_mode a) (st_nlink a) (st_uid a) (st_gid a) (st_rdev a) (st_size a) (st_blksize a) (st_blocks a) (st_atime a) (st_mtime a) (st_ctime a) (winattr a) (compression a) (to_int32 v) (salt a) (use_winapi a).
(* /repo/src/attribs.c:140-249 *)
Definition set_salt v a := mkattrs (st_dev a) (st_ino a) (st_mode a) (st_nlink a) (st_uid a) (st_gid a) (st_rdev a) (st_size a) (st_blksize a) (st_blocks a) (st_atime a) (st_mtime a) (st_ctime a) (winattr a) (compression a) (encryption a) (to_uint64 v) (use_winapi a).
(* /repo/src/attribs.c:140-249 *)
Definition set_winapi v a := mkattrs (st_dev a) (st_ino a) (st_mode a) (st_nlink a) (st_uid a) (st_gid a) (st_rdev a) (st_size a) (st_blksize a) (st_blocks a) (st_atime a) (st_mtime a) (st_ctime a) (winattr a) (compression a) (encryption a) (salt a) (if v =? 0 then 1 else 0).

(* The sequence of reads of attribs_decode(): for each one, what is assigned
   before reading and what is assigned from the value read.
   /repo/src/attribs.c:137-249; the 14th value (flags) is dropped (215-218). *)
Definition dec_steps : list ((attrs -> attrs) * (Z -> attrs -> attrs)) :=
  let nop := fun a : attrs => a in
  [ (nop, set_dev); (nop, set_ino); (nop, set_mode); (nop, set_nlink);
    (nop, set_uid); (nop, set_gid); (nop, set_rdev); (nop, set_size);
    (nop, set_blksize); (nop, set_blocks); (nop, set_atime); (nop, set_mtime);
    (nop, set_ctime); (nop, fun _ a => a);
    (set_winattr 0, set_winattr);
    (fun a => set_encryption (-1) (set_compression (-1) a), set_compression);
    (nop, set_encryption); (nop, set_salt); (nop, set_winapi) ].

(* One read after another, returning early when nothing is consumed. *)
Fixpoint dec_loop (steps : list ((attrs -> attrs) * (Z -> attrs -> attrs)))
    (p : bytes) (a : attrs) : option attrs :=
  match steps with
  | [] => Some a
  | (pre, plug) :: r =>
      let a := pre a in
      match from_base64 p with
      | None => None
      | Some (_, O) => Some a
      | Some (v, n) => dec_loop r (skipn n p) (plug v a)
      end
  end.

(* attribs_decode(): /repo/src/attribs.c:127-250. None = undefined behaviour. *)
Definition attribs_decode (p : bytes) (a : attrs) : option attrs := dec_loop dec_steps p a.
