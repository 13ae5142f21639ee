(* Model of the access lists of addresses: /repo/src/ipacl.c and
   /repo/src/server/main.c:229-256. *)
From Verif Require Import Bytes FrameModel BuModel.

(* Four 32-bit words.  Addresses and masks are in network byte order in the
   source; the operations on them are bitwise, so the order does not matter. *)
Definition word4 := (Z * Z * Z * Z)%type.

(* ipacl_netmask_map: /repo/src/ipacl.c:19-150 *)
Definition netmask_map : list word4 :=
  [(0x00000000, 0x00000000, 0x00000000, 0x00000000);
   (0x80000000, 0x00000000, 0x00000000, 0x00000000);
   (0xC0000000, 0x00000000, 0x00000000, 0x00000000);
   (0xE0000000, 0x00000000, 0x00000000, 0x00000000);
   (0xF0000000, 0x00000000, 0x00000000, 0x00000000);
   (0xF8000000, 0x00000000, 0x00000000, 0x00000000);
   (0xFC000000, 0x00000000, 0x00000000, 0x00000000);
   (0xFE000000, 0x00000000, 0x00000000, 0x00000000);
   (0xFF000000, 0x00000000, 0x00000000, 0x00000000);
   (0xFF800000, 0x00000000, 0x00000000, 0x00000000);
   (0xFFC00000, 0x00000000, 0x00000000, 0x00000000);
   (0xFFE00000, 0x00000000, 0x00000000, 0x00000000);
   (0xFFF00000, 0x00000000, 0x00000000, 0x00000000);
   (0xFFF80000, 0x00000000, 0x00000000, 0x00000000);
   (0xFFFC0000, 0x00000000, 0x00000000, 0x00000000);
   (0xFFFE0000, 0x00000000, 0x00000000, 0x00000000);
   (0xFFFF0000, 0x00000000, 0x00000000, 0x00000000);
   (0xFFFF8000, 0x00000000, 0x00000000, 0x00000000);
   (0xFFFFC000, 0x00000000, 0x00000000, 0x00000000);
   (0xFFFFE000, 0x00000000, 0x00000000, 0x00000000);
   (0xFFFFF000, 0x00000000, 0x00000000, 0x00000000);
   (0xFFFFF800, 0x00000000, 0x00000000, 0x00000000);
   (0xFFFFFC00, 0x00000000, 0x00000000, 0x00000000);
   (0xFFFFFE00, 0x00000000, 0x00000000, 0x00000000);
   (0xFFFFFF00, 0x00000000, 0x00000000, 0x00000000);
   (0xFFFFFF80, 0x00000000, 0x00000000, 0x00000000);
   (0xFFFFFFC0, 0x00000000, 0x00000000, 0x00000000);
   (0xFFFFFFE0, 0x00000000, 0x00000000, 0x00000000);
   (0xFFFFFFF0, 0x00000000, 0x00000000, 0x00000000);
   (0xFFFFFFF8, 0x00000000, 0x00000000, 0x00000000);
   (0xFFFFFFFC, 0x00000000, 0x00000000, 0x00000000);
   (0xFFFFFFFE, 0x00000000, 0x00000000, 0x00000000);
   (0xFFFFFFFF, 0x00000000, 0x00000000, 0x00000000);
   (0xFFFFFFFF, 0x80000000, 0x00000000, 0x00000000);
   (0xFFFFFFFF, 0xC0000000, 0x00000000, 0x00000000);
   (0xFFFFFFFF, 0xE0000000, 0x00000000, 0x00000000);
   (0xFFFFFFFF, 0xF0000000, 0x00000000, 0x00000000);
   (0xFFFFFFFF, 0xF8000000, 0x00000000, 0x00000000);
   (0xFFFFFFFF, 0xFC000000, 0x00000000, 0x00000000);
   (0xFFFFFFFF, 0xFE000000, 0x00000000, 0x00000000);
   (0xFFFFFFFF, 0xFF000000, 0x00000000, 0x00000000);
   (0xFFFFFFFF, 0xFF800000, 0x00000000, 0x00000000);
   (0xFFFFFFFF, 0xFFC00000, 0x00000000, 0x00000000);
   (0xFFFFFFFF, 0xFFE00000, 0x00000000, 0x00000000);
   (0xFFFFFFFF, 0xFFF00000, 0x00000000, 0x00000000);
   (0xFFFFFFFF, 0xFFF80000, 0x00000000, 0x00000000);
   (0xFFFFFFFF, 0xFFFC0000, 0x00000000, 0x00000000);
   (0xFFFFFFFF, 0xFFFE0000, 0x00000000, 0x00000000);
   (0xFFFFFFFF, 0xFFFF0000, 0x00000000, 0x00000000);
   (0xFFFFFFFF, 0xFFFF8000, 0x00000000, 0x00000000);
   (0xFFFFFFFF, 0xFFFFC000, 0x00000000, 0x00000000);
   (0xFFFFFFFF, 0xFFFFE000, 0x00000000, 0x00000000);
   (0xFFFFFFFF, 0xFFFFF000, 0x00000000, 0x00000000);
   (0xFFFFFFFF, 0xFFFFF800, 0x00000000, 0x00000000);
   (0xFFFFFFFF, 0xFFFFFC00, 0x00000000, 0x00000000);
   (0xFFFFFFFF, 0xFFFFFE00, 0x00000000, 0x00000000);
   (0xFFFFFFFF, 0xFFFFFF00, 0x00000000, 0x00000000);
   (0xFFFFFFFF, 0xFFFFFF80, 0x00000000, 0x00000000);
   (0xFFFFFFFF, 0xFFFFFFC0, 0x00000000, 0x00000000);
   (0xFFFFFFFF, 0xFFFFFFE0, 0x00000000, 0x00000000);
   (0xFFFFFFFF, 0xFFFFFFF0, 0x00000000, 0x00000000);
   (0xFFFFFFFF, 0xFFFFFFF8, 0x00000000, 0x00000000);
   (0xFFFFFFFF, 0xFFFFFFFC, 0x00000000, 0x00000000);
   (0xFFFFFFFF, 0xFFFFFFFE, 0x00000000, 0x00000000);
   (0xFFFFFFFF, 0xFFFFFFFF, 0x00000000, 0x00000000);
   (0xFFFFFFFF, 0xFFFFFFFF, 0x80000000, 0x00000000);
   (0xFFFFFFFF, 0xFFFFFFFF, 0xC0000000, 0x00000000);
   (0xFFFFFFFF, 0xFFFFFFFF, 0xE0000000, 0x00000000);
   (0xFFFFFFFF, 0xFFFFFFFF, 0xF0000000, 0x00000000);
   (0xFFFFFFFF, 0xFFFFFFFF, 0xF8000000, 0x00000000);
   (0xFFFFFFFF, 0xFFFFFFFF, 0xFC000000, 0x00000000);
   (0xFFFFFFFF, 0xFFFFFFFF, 0xFE000000, 0x00000000);
   (0xFFFFFFFF, 0xFFFFFFFF, 0xFF000000, 0x00000000);
   (0xFFFFFFFF, 0xFFFFFFFF, 0xFF800000, 0x00000000);
   (0xFFFFFFFF, 0xFFFFFFFF, 0xFFC00000, 0x00000000);
   (0xFFFFFFFF, 0xFFFFFFFF, 0xFFE00000, 0x00000000);
   (0xFFFFFFFF, 0xFFFFFFFF, 0xFFF00000, 0x00000000);
   (0xFFFFFFFF, 0xFFFFFFFF, 0xFFF80000, 0x00000000);
   (0xFFFFFFFF, 0xFFFFFFFF, 0xFFFC0000, 0x00000000);
   (0xFFFFFFFF, 0xFFFFFFFF, 0xFFFE0000, 0x00000000);
   (0xFFFFFFFF, 0xFFFFFFFF, 0xFFFF0000, 0x00000000);
   (0xFFFFFFFF, 0xFFFFFFFF, 0xFFFF8000, 0x00000000);
   (0xFFFFFFFF, 0xFFFFFFFF, 0xFFFFC000, 0x00000000);
   (0xFFFFFFFF, 0xFFFFFFFF, 0xFFFFE000, 0x00000000);
   (0xFFFFFFFF, 0xFFFFFFFF, 0xFFFFF000, 0x00000000);
   (0xFFFFFFFF, 0xFFFFFFFF, 0xFFFFF800, 0x00000000);
   (0xFFFFFFFF, 0xFFFFFFFF, 0xFFFFFC00, 0x00000000);
   (0xFFFFFFFF, 0xFFFFFFFF, 0xFFFFFE00, 0x00000000);
   (0xFFFFFFFF, 0xFFFFFFFF, 0xFFFFFF00, 0x00000000);
   (0xFFFFFFFF, 0xFFFFFFFF, 0xFFFFFF80, 0x00000000);
   (0xFFFFFFFF, 0xFFFFFFFF, 0xFFFFFFC0, 0x00000000);
   (0xFFFFFFFF, 0xFFFFFFFF, 0xFFFFFFE0, 0x00000000);
   (0xFFFFFFFF, 0xFFFFFFFF, 0xFFFFFFF0, 0x00000000);
   (0xFFFFFFFF, 0xFFFFFFFF, 0xFFFFFFF8, 0x00000000);
   (0xFFFFFFFF, 0xFFFFFFFF, 0xFFFFFFFC, 0x00000000);
   (0xFFFFFFFF, 0xFFFFFFFF, 0xFFFFFFFE, 0x00000000);
   (0xFFFFFFFF, 0xFFFFFFFF, 0xFFFFFFFF, 0x00000000);
   (0xFFFFFFFF, 0xFFFFFFFF, 0xFFFFFFFF, 0x80000000);
   (0xFFFFFFFF, 0xFFFFFFFF, 0xFFFFFFFF, 0xC0000000);
   (0xFFFFFFFF, 0xFFFFFFFF, 0xFFFFFFFF, 0xE0000000);
   (0xFFFFFFFF, 0xFFFFFFFF, 0xFFFFFFFF, 0xF0000000);
   (0xFFFFFFFF, 0xFFFFFFFF, 0xFFFFFFFF, 0xF8000000);
   (0xFFFFFFFF, 0xFFFFFFFF, 0xFFFFFFFF, 0xFC000000);
   (0xFFFFFFFF, 0xFFFFFFFF, 0xFFFFFFFF, 0xFE000000);
   (0xFFFFFFFF, 0xFFFFFFFF, 0xFFFFFFFF, 0xFF000000);
   (0xFFFFFFFF, 0xFFFFFFFF, 0xFFFFFFFF, 0xFF800000);
   (0xFFFFFFFF, 0xFFFFFFFF, 0xFFFFFFFF, 0xFFC00000);
   (0xFFFFFFFF, 0xFFFFFFFF, 0xFFFFFFFF, 0xFFE00000);
   (0xFFFFFFFF, 0xFFFFFFFF, 0xFFFFFFFF, 0xFFF00000);
   (0xFFFFFFFF, 0xFFFFFFFF, 0xFFFFFFFF, 0xFFF80000);
   (0xFFFFFFFF, 0xFFFFFFFF, 0xFFFFFFFF, 0xFFFC0000);
   (0xFFFFFFFF, 0xFFFFFFFF, 0xFFFFFFFF, 0xFFFE0000);
   (0xFFFFFFFF, 0xFFFFFFFF, 0xFFFFFFFF, 0xFFFF0000);
   (0xFFFFFFFF, 0xFFFFFFFF, 0xFFFFFFFF, 0xFFFF8000);
   (0xFFFFFFFF, 0xFFFFFFFF, 0xFFFFFFFF, 0xFFFFC000);
   (0xFFFFFFFF, 0xFFFFFFFF, 0xFFFFFFFF, 0xFFFFE000);
   (0xFFFFFFFF, 0xFFFFFFFF, 0xFFFFFFFF, 0xFFFFF000);
   (0xFFFFFFFF, 0xFFFFFFFF, 0xFFFFFFFF, 0xFFFFF800);
   (0xFFFFFFFF, 0xFFFFFFFF, 0xFFFFFFFF, 0xFFFFFC00);
   (0xFFFFFFFF, 0xFFFFFFFF, 0xFFFFFFFF, 0xFFFFFE00);
   (0xFFFFFFFF, 0xFFFFFFFF, 0xFFFFFFFF, 0xFFFFFF00);
   (0xFFFFFFFF, 0xFFFFFFFF, 0xFFFFFFFF, 0xFFFFFF80);
   (0xFFFFFFFF, 0xFFFFFFFF, 0xFFFFFFFF, 0xFFFFFFC0);
   (0xFFFFFFFF, 0xFFFFFFFF, 0xFFFFFFFF, 0xFFFFFFE0);
   (0xFFFFFFFF, 0xFFFFFFFF, 0xFFFFFFFF, 0xFFFFFFF0);
   (0xFFFFFFFF, 0xFFFFFFFF, 0xFFFFFFFF, 0xFFFFFFF8);
   (0xFFFFFFFF, 0xFFFFFFFF, 0xFFFFFFFF, 0xFFFFFFFC);
   (0xFFFFFFFF, 0xFFFFFFFF, 0xFFFFFFFF, 0xFFFFFFFE);
   (0xFFFFFFFF, 0xFFFFFFFF, 0xFFFFFFFF, 0xFFFFFFFF)].
(* ipacl_netmask(), ipacl_netmask6(): /repo/src/ipacl.c:153-163 *)
Definition netmask (n : Z) : word4 := nth (Z.to_nat n) netmask_map (0, 0, 0, 0).
Definition w0 (w : word4) : Z := let '(a, _, _, _) := w in a.

(* ip6_netmask(): /repo/src/ipacl.c:165-172 *)
Definition and4 (a m : word4) : word4 :=
  let '(a0, a1, a2, a3) := a in
  let '(m0, m1, m2, m3) := m in
  (Z.land a0 m0, Z.land a1 m1, Z.land a2 m2, Z.land a3 m3).

(* The two __be64 halves: /repo/src/ipacl.c:206-207 *)
Definition half (a b : Z) : Z := a * 2 ^ 32 + b.
(* /repo/src/ipacl.c:206 *)
Definition hi (w : word4) : Z := let '(a, b, _, _) := w in half a b.
(* /repo/src/ipacl.c:207 *)
Definition lo (w : word4) : Z := let '(_, _, a, b) := w in half a b.

(* ipv_prefix_equal(): /repo/src/ipacl.c:188-193 *)
Definition prefix_equal4 (a b n : Z) : bool := Z.land (Z.lxor a b) (w0 (netmask n)) =? 0.
(* __ipv6_prefix_equal64_half(): /repo/src/ipacl.c:195-200, unsigned long of 64 bits. *)
Definition mask64 (len : Z) : Z := u64 (Z.shiftl (2 ^ 64 - 1) (64 - len)).
Definition prefix_equal_half (a b len : Z) : bool :=
  negb (negb (len =? 0) && negb (Z.land (Z.lxor a b) (mask64 len) =? 0)).
(* ipv6_prefix_equal(): /repo/src/ipacl.c:202-217 *)
Definition prefix_equal6 (a b : word4) (n : Z) : bool :=
  if n >=? 64 then
    if negb (Z.lxor (hi a) (hi b) =? 0) then false
    else prefix_equal_half (lo a) (lo b) (n - 64)
  else prefix_equal_half (hi a) (hi b) n.

(* struct sockaddr_storage: the family and the address. *)
Inductive addr := A4 (ip : Z) | A6 (ip : word4) | AOther.
(* struct ipacl_entity: /repo/src/ipacl.h:64-83 *)
Inductive elem := E4 (ip : Z) (cidr : Z) | E6 (ip : word4) (cidr : Z).

(* ipacl_create(): /repo/src/ipacl.c:232-255 *)
Definition create4 (ip : Z) (cidr : Z) : elem := E4 (Z.land ip (w0 (netmask cidr))) cidr.
Definition create6 (ip : word4) (cidr : Z) : elem := E6 (and4 ip (netmask cidr)) cidr.

(* The body of the loop in ipacl_test_saddr_storage(): /repo/src/ipacl.c:420-430 *)
Definition elem_match (e : elem) (a : addr) : bool :=
  match e, a with
  | E4 ip cidr, A4 x => prefix_equal4 x ip cidr
  | E6 ip cidr, A6 x => prefix_equal6 x ip cidr
  | _, _ => false
  end.
(* ipacl_test_saddr_storage(): /repo/src/ipacl.c:413-432 *)
Fixpoint acl_test (l : list elem) (a : addr) : bool :=
  match l with
  | [] => false
  | e :: l' => if elem_match e a then true else acl_test l' a
  end.

(* parse_prefix(): /repo/src/ipacl.c:257-274.  None: false. *)
Definition parse_prefix (s : bytes) : option Z :=
  let s := skip_ws s in
  let '(neg, s) := if hd0 s =? 45 then (true, tl s) else if hd0 s =? 43 then (false, tl s) else (false, s) in
  match dec_run s 0 false with
  | None => None
  | Some v => let v := if (neg : bool) then - v else v in
              if (v <? - 2 ^ 63) || (2 ^ 63 - 1 <? v) then None else Some v
  end.
(* check_prefix(): /repo/src/ipacl.c:276-289.  None: false. *)
Definition check_prefix (full prefix : Z) : option Z :=
  let p := if prefix =? -1 then full else prefix in
  if (p >=? 0) && (p <=? full) then Some p else None.

(* trim(): /repo/src/ipacl.c:304-321 *)
Definition trim (s : bytes) : bytes := rev (skip_ws (rev (skip_ws s))).

(* strrchr(s, '/'): what is before the last slash, and after it.
   /repo/src/ipacl.c:323-363 *)
Fixpoint split_last (s : bytes) : option (bytes * bytes) :=
  match s with
  | [] => None
  | c :: r =>
      match split_last r with
      | Some (a, b) => Some (c :: a, b)
      | None => if c =? 47 then Some ([], r) else None
      end
  end.

(* What adding a line gives: /repo/src/ipacl.c:323-363 *)
Inductive res := Ok | InvalidPrefix | UnparsablePrefix | UnparsableAddr.

Section Parse.
(* inet_pton() for the two families. *)
Variable pton4 : bytes -> option Z.
Variable pton6 : bytes -> option word4.

(* ipacl_emplace(): /repo/src/ipacl.c:323-363.  The entry made, if any. *)
Definition emplace (s : bytes) : res * option elem :=
  match s with
  | [] => (Ok, None)
  | _ =>
      let '(a, p) := match split_last s with Some (a, p) => (a, Some p) | None => (s, None) end in
      let fin full mk :=
        match match p with Some p => parse_prefix p | None => Some (-1) end with
        | None => (UnparsablePrefix, None)
        | Some n => match check_prefix full n with
                    | None => (InvalidPrefix, None)
                    | Some n => (Ok, Some (mk n))
                    end
        end in
      match pton4 a with
      | Some ip => fin 32 (create4 ip)
      | None => match pton6 a with
                | Some ip => fin 128 (create6 ip)
                | None => (UnparsableAddr, None)
                end
      end
  end.

Definition is_sep (c : Z) : bool := (c =? 32) || (c =? 44) || (c =? 59).
(* strtok_r(s, " ,;"): /repo/src/ipacl.c:387-389.  cur: the token so far, reversed. *)
Fixpoint tokens (s : bytes) (cur : bytes) : list bytes :=
  match s with
  | [] => match cur with [] => [] | _ => [rev cur] end
  | c :: r => if is_sep c then match cur with [] => tokens r [] | _ => rev cur :: tokens r [] end
              else tokens r (c :: cur)
  end.

(* The loop of ipacl_append(): /repo/src/ipacl.c:387-393.  New entries go to the
   head of the list. *)
Fixpoint append_tokens (l : list elem) (ts : list bytes) : res * list elem :=
  match ts with
  | [] => (Ok, l)
  | t :: ts' =>
      match emplace (trim t) with
      | (Ok, Some e) => append_tokens (e :: l) ts'
      | (Ok, None) => append_tokens l ts'
      | (r, _) => (r, l)
      end
  end.
Definition acl_append (l : list elem) (s : bytes) : res * list elem := append_tokens l (tokens s []).

(* The loop over the configured lines: /repo/src/server/main.c:236-246 *)
Fixpoint acl_lines (l : list elem) (lines : list bytes) : option (list elem) :=
  match lines with
  | [] => Some l
  | s :: r => match acl_append l s with (Ok, l') => acl_lines l' r | _ => None end
  end.
(* check_ipacl(): /repo/src/server/main.c:229-256; true is 0. *)
Definition check_ipacl (lines : list bytes) (a : addr) : bool :=
  match acl_lines [] lines with
  | None => false
  | Some [] => true
  | Some l => acl_test l a
  end.
End Parse.
