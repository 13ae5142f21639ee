(* Model of the addresses that the server listens on, with their numbers of children:
   /repo/src/conffile.c:1055-1127, /repo/src/server/main.c:98-109. *)
From Verif Require Import Bytes FrameModel DpthModel BuModel.

(* isalnum() in the C locale: /repo/src/conffile.c:1063 *)
Definition isalnum (c : Z) : bool := ((48 <=? c) && (c <=? 57)) || ((65 <=? c) && (c <=? 90)) || ((97 <=? c) && (c <=? 122)).

(* The parts before and after the last colon, strrchr(): /repo/src/conffile.c:1066 and
   /repo/src/server/main.c:100-107 *)
Fixpoint split_last (s : bytes) : option (bytes * bytes) :=
  match s with
  | [] => None
  | c :: r =>
    match split_last r with
    | Some (a, b) => Some (c :: a, b)
    | None => if c =? 58 then Some ([], r) else None
    end
  end.

(* listen_config_ok(): /repo/src/conffile.c:1055-1077 *)
Definition listen_config_ok (l : bytes) : bool :=
  if negb (forallb (fun c => isalnum c || (c =? 58) || (c =? 46)) l) then false
  else match split_last l with
  | None => false
  | Some (a, cp) =>
    match a with
    | [] => false                                                           (* l==cp *)
    | _ =>
      if (List.length cp =? 0)%nat || (5 <? List.length cp)%nat then false
      else let port := atoi cp in negb ((port <=? 0) || (65535 <? port))
    end
  end.

(* atol(): /repo/src/conffile.c:1097, a long of 64 bits *)
Definition atol (s : bytes) : Z :=
  let s := skip_ws s in
  let '(neg, s) := if hd0 s =? 45 then (true, tl s) else if hd0 s =? 43 then (false, tl s) else (false, s) in
  match dec_run s 0 false with
  | None => 0
  | Some v => if (neg : bool) then Z.max (- v) (- 2 ^ 63) else Z.min v (2 ^ 63 - 1)
  end.

(* The loop of finalise_server_max_children(): /repo/src/conffile.c:1083-1118.  n: the
   number so far.  With the addresses, what is left of the other list. *)
Fixpoint children_loop (n : Z) (ls mcs : list bytes) : option (list (bytes * Z) * list bytes) :=
  match ls with
  | [] => Some ([], mcs)
  | l :: r =>
    if negb (listen_config_ok l) then None
    else match mcs with
    | mc :: mcr =>
      let n := atol mc in
      if n <=? 0 then None
      else match children_loop n r mcr with Some (x, m) => Some ((l, n) :: x, m) | None => None end
    | [] => match children_loop n r [] with Some (x, m) => Some ((l, n) :: x, m) | None => None end
    end
  end.
(* finalise_server_max_children(): /repo/src/conffile.c:1079-1127.  None: an error. *)
Definition max_children (ls mcs : list bytes) : option (list (bytes * Z)) :=
  match children_loop 5 ls mcs with
  | Some (x, []) => Some x
  | _ => None
  end.
(* split_addr(): /repo/src/server/main.c:98-109 *)
Definition split_addr (a : bytes) : option (bytes * bytes) := split_last a.
