(* Model of storage path allocation: /repo/src/server/dpth.c and its use at
   /repo/src/server/backup_phase2.c:82-138 and resume.c:39-53,604. *)
From Verif Require Import Bytes CmdModel FrameModel.

(* struct dpth: /repo/src/server/dpth.h:18-39; comp[0..2] are uint16_t and
   max_storage_subdirs is an int. *)
Record dpth := mkdpth { c0 : Z; c1 : Z; c2 : Z; subdirs : Z }.

(* uint16_t: /repo/src/server/dpth.h:22 *)
Definition u16 (x : Z) : Z := x mod 65536.
(* Value of an unsigned int converted to int (two's complement).
   /repo/src/server/dpth.c:117 *)
Definition s32 (x : Z) : Z := let y := x mod 2 ^ 32 in if y <? 2 ^ 31 then y else y - 2 ^ 32.

(* incr(): /repo/src/server/dpth.c:54-59.  The second argument is converted to
   uint16_t by the call. *)
Definition incr (component max : Z) : Z * bool :=
  if component <? u16 max then (u16 (component + 1), true) else (0, false).

(* dpth_incr(): /repo/src/server/dpth.c:65-76 (MAX_FILES_PER_DIR at 52);
   true stands for 0, false for -1. *)
Definition dpth_incr (d : dpth) : dpth * bool :=
  let '(x2, ok2) := incr (c2 d) 65535 in
  if ok2 then (mkdpth (c0 d) (c1 d) x2 (subdirs d), true)
  else
    let '(x1, ok1) := incr (c1 d) (subdirs d) in
    if ok1 then (mkdpth (c0 d) x1 x2 (subdirs d), true)
    else
      let '(x0, ok0) := incr (c0 d) (subdirs d) in
      (mkdpth x0 x1 x2 (subdirs d), ok0).

(* dpth_mk(): /repo/src/server/dpth.c:78-87.  At most 17 characters, so the
   32-byte buffer never truncates. *)
Definition dpth_mk (d : dpth) (compression : Z) (cmd : Z) : bytes :=
  fmt_04X (c0 d) ++ [slash] ++ fmt_04X (c1 d) ++ [slash] ++ fmt_04X (c2 d)
  ++ (if negb (compression =? 0) && negb (cmd =? CMD_EFS_FILE) then str ".gz" else []).

(* dpth_mk_prim(), dpth_mk_seco(): /repo/src/server/dpth.c:89-101 *)
Definition dpth_mk_prim (d : dpth) : bytes := fmt_04X (c0 d).
(* /repo/src/server/dpth.c:96-101 *)
Definition dpth_mk_seco (d : dpth) : bytes := fmt_04X (c0 d) ++ [slash] ++ fmt_04X (c1 d).

(* Digits read by strtol(.., 16) and by "%X"; value and what is left.
   /repo/src/server/dpth.c:117, 179 *)
Fixpoint hex_run (width : nat) (s : bytes) (v : Z) (any : bool) : option (Z * bytes) :=
  match width, s with
  | S w, c :: s' => match hexval c with
                    | Some x => hex_run w s' (v * 16 + x) true
                    | None => if any then Some (v, s) else None
                    end
  | _, _ => if any then Some (v, s) else None
  end.

(* The sign that strtol() and sscanf() accept: /repo/src/server/dpth.c:117, 179 *)
Definition take_sign (w : nat) (s : bytes) : bool * nat * bytes :=
  if hd0 s =? 45 then (true, pred w, tl s) else if hd0 s =? 43 then (false, pred w, tl s) else (false, w, s).
(* The 0x that strtol() and sscanf() accept: /repo/src/server/dpth.c:117, 179 *)
Definition take_0x (w : nat) (s : bytes) : nat * bytes :=
  if (hd0 s =? 48) && ((hd0 (tl s) =? 120) || (hd0 (tl s) =? 88))
     && (match hexval (hd0 (tl (tl s))) with Some _ => true | None => false end)
  then ((w - 2)%nat, tl (tl s)) else (w, s).

(* (int)strtol(name, NULL, 16): /repo/src/server/dpth.c:117.  Names whose value
   does not fit in a long are outside the model (d_name is at most 255 bytes,
   but names of more than 15 digits are never created). *)
Definition strtol16 (s : bytes) : Z :=
  let s := skip_ws (cview s) in
  let '(neg, w, s) := take_sign (List.length s + 1) s in
  let '(w, s) := take_0x w s in
  match hex_run w s 0 false with
  | None => 0
  | Some (v, _) => s32 (if (neg : bool) then - v else v)
  end.

(* get_highest_entry(): /repo/src/server/dpth.c:103-121 over the names in the
   directory ([] when it cannot be opened). *)
Fixpoint highest (names : list bytes) (max : Z) : Z :=
  match names with
  | [] => max
  | n :: r =>
    if beqb n (str ".") || beqb n (str "..") then highest r max
    else let ent := strtol16 n in highest r (if max <? ent then u16 ent else max)
  end.
Definition get_highest_entry (names : list bytes) : Z := highest names 0.

(* dpth_init(): /repo/src/server/dpth.c:141-167.  [ls p] lists directory p
   below basepath; [] is basepath itself.  None is -1. *)
Definition dpth_init (ls : bytes -> list bytes) (max_subdirs : Z) : option dpth :=
  let x0 := get_highest_entry (ls []) in
  let d := mkdpth x0 0 0 max_subdirs in
  let x1 := get_highest_entry (ls (dpth_mk_prim d)) in
  let d := mkdpth x0 x1 0 max_subdirs in
  let x2 := get_highest_entry (ls (dpth_mk_seco d)) in
  match dpth_incr (mkdpth x0 x1 x2 max_subdirs) with
  | (d, true) => Some d
  | (_, false) => None
  end.

(* One "%04X" conversion of sscanf(): /repo/src/server/dpth.c:179. *)
Definition scan_04X (s : bytes) : option (Z * bytes) :=
  let s := skip_ws s in
  let '(neg, w, s) := take_sign 4 s in
  let '(w, s) := take_0x w s in
  match hex_run w s 0 false with
  | Some (v, r) => Some ((if (neg : bool) then - v else v) mod 2 ^ 32, r)
  | None => None
  end.
(* The slash of the format: /repo/src/server/dpth.c:179 *)
Definition scan_slash (s : bytes) : option bytes := if hd0 s =? slash then Some (tl s) else None.
(* The sscanf(): /repo/src/server/dpth.c:179 *)
Definition scan_path (s : bytes) : option (Z * Z * Z) :=
  match scan_04X (cview s) with
  | Some (a, s) => match scan_slash s with Some s =>
    match scan_04X s with
    | Some (b, s) => match scan_slash s with Some s =>
      match scan_04X s with Some (c, _) => Some (a, b, c) | None => None end
      | None => None end
    | None => None end
    | None => None end
  | None => None
  end.

(* dpth_set_from_string(): /repo/src/server/dpth.c:169-195; false is -1. *)
Definition dpth_set_from_string (d : dpth) (datapath : option bytes) : dpth * bool :=
  match datapath with
  | None => (d, true)
  | Some p =>
    if hd0 p =? 116 then (d, true)                                           (* 175-177 *)
    else match scan_path p with
    | None => (d, false)                                                     (* 179-180 *)
    | Some (a, b, c) =>
      if (c0 d =? s32 a) && (c1 d =? s32 b) && (s32 c <? c2 d) then (d, true) (* 181-184 *)
      else if (c0 d =? s32 a) && (s32 b <? c1 d) then (d, true)              (* 185-187 *)
      else if s32 a <? c0 d then (d, true)                                   (* 188-189 *)
      else (mkdpth (u16 a) (u16 b) (u16 c) (subdirs d), true)                (* 191-193 *)
    end
  end.

(* Handing out a storage path to a new file: dpth_mk() at
   /repo/src/server/backup_phase2.c:102 then dpth_incr(), whose result is
   ignored, at 133 and 387.  Tree-style paths are not counters and are left
   out. *)
Definition new_datapth (d : dpth) (compression cmd : Z) : bytes * dpth :=
  (dpth_mk d compression cmd, fst (dpth_incr d)).

(* A run of phase 2: the (compression, cmd) of the files received in turn. *)
Fixpoint hand_out (d : dpth) (fs : list (Z * Z)) : list bytes * dpth :=
  match fs with
  | [] => ([], d)
  | (z, c) :: r => let '(p, d') := new_datapth d z c in
                   let '(ps, d'') := hand_out d' r in (p :: ps, d'')
  end.

(* set_higher_datapth() over the entries read while resuming and the increment
   at the end: /repo/src/server/resume.c:39-53, 273, 604.  None is -1. *)
Fixpoint resume_paths (d : dpth) (ps : list (option bytes)) : option dpth :=
  match ps with
  | [] => match dpth_incr d with (d', true) => Some d' | (_, false) => None end
  | p :: r => match dpth_set_from_string d p with
              | (d', true) => resume_paths d' r
              | (_, false) => None
              end
  end.
