(* JSON written by the server and read by the client: /repo/src/yajl/yajl_encode.c, yajl_gen.c, yajl_lex.c,
   yajl_parser.c.  As burp configures them: strings are not checked for UTF-8 when read
   (/repo/src/client/monitor/json_input.c:546), comments are not allowed, the solidus is not escaped, and of the
   options of the writer only "beautify" is used (/repo/src/server/monitor/json_output.c:59-61). *)
From Coq Require Import ZArith List Bool.
From Verif Require Import Bytes CntrModel.
Import ListNotations.
Open Scope Z_scope.

(* ---------- strings ---------- *)

(* hexchar[]: /repo/src/yajl/yajl_encode.c:26 *)
Definition hexchar (d : Z) : Z := if d <? 10 then 48 + d else 55 + d.
(* One byte of yajl_string_encode() with CharToHex(): /repo/src/yajl/yajl_encode.c:24-29,46-66 *)
Definition enc1 (c : Z) : bytes :=
  if c =? 13 then [92; 114]
  else if c =? 10 then [92; 110]
  else if c =? 92 then [92; 92]
  else if c =? 34 then [92; 34]
  else if c =? 12 then [92; 102]
  else if c =? 8 then [92; 98]
  else if c =? 9 then [92; 116]
  else if c <? 32 then [92; 117; 48; 48; hexchar (c / 16); hexchar (c mod 16)]
  else [c].
(* yajl_string_encode(): /repo/src/yajl/yajl_encode.c:31-76.  What lies between escapes is printed in one go there. *)
Definition encode (s : bytes) : bytes := flat_map enc1 s.

(* One turn of hexToDigit(), None when the assertion fails: /repo/src/yajl/yajl_encode.c:82-85 *)
Definition hexval (c : Z) : option Z :=
  let c1 := if 65 <=? c then (Z.land c 223 - 7) mod 256 else c in
  let c2 := (c1 - 48) mod 256 in
  if c2 <? 16 then Some c2 else None.
(* hexToDigit(): /repo/src/yajl/yajl_encode.c:78-88 *)
Definition hex4 (a b c d : Z) : option Z :=
  match hexval a, hexval b, hexval c, hexval d with
  | Some a, Some b, Some c, Some d => Some (((a * 16 + b) * 16 + c) * 16 + d)
  | _, _, _, _ => None
  end.
(* Utf32toUtf8(): /repo/src/yajl/yajl_encode.c:90-114.  All codepoints made at 137-151 are below 0x200000. *)
Definition utf8 (p : Z) : bytes :=
  if p <? 128 then [p]
  else if p <? 2048 then [192 + p / 64; 128 + p mod 64]
  else if p <? 65536 then [224 + p / 4096; 128 + (p / 64) mod 64; 128 + p mod 64]
  else if p <? 2097152 then [240 + p / 262144; 128 + (p / 4096) mod 64; 128 + (p / 64) mod 64; 128 + p mod 64]
  else [63].
(* The letters after a backslash: /repo/src/yajl/yajl_encode.c:128-135 *)
Definition unesc (e : Z) : option Z :=
  if e =? 114 then Some 13 else if e =? 110 then Some 10 else if e =? 92 then Some 92
  else if e =? 47 then Some 47 else if e =? 34 then Some 34 else if e =? 102 then Some 12
  else if e =? 98 then Some 8 else if e =? 116 then Some 9 else None.
(* /repo/src/yajl/yajl_encode.c:148-151 *)
Definition pair_up (p q : Z) : Z := (p mod 64) * 1024 + ((p / 64) mod 16 + 1) * 65536 + q mod 1024.
(* /repo/src/yajl/yajl_encode.c:142 *)
Definition high (p : Z) : bool := p / 1024 =? 54.
(* Putting bytes before what the rest gives *)
Definition pre (a : bytes) (o : option bytes) : option bytes := match o with Some b => Some (a ++ b) | None => None end.
(* yajl_string_decode(): /repo/src/yajl/yajl_encode.c:116-180.  None: an assertion fails, or bytes past the end of
   the string are read. *)
Fixpoint decode (s : bytes) : option bytes :=
  match s with
  | [] => Some []
  | c :: r =>
    if negb (c =? 92) then pre [c] (decode r)
    else match r with
    | [] => None
    | e :: r =>
      if e =? 117 then
        match r with
        | h1 :: h2 :: h3 :: h4 :: r =>
          match hex4 h1 h2 h3 h4 with
          | None => None
          | Some p =>
            if high p then
              match r with
              | b :: u :: r1 =>
                if (b =? 92) && (u =? 117) then
                  match r1 with
                  | g1 :: g2 :: g3 :: g4 :: r2 =>
                    match hex4 g1 g2 g3 g4 with
                    | None => None
                    | Some q => pre (utf8 (pair_up p q)) (decode r2)
                    end
                  | _ => None
                  end
                else pre [63] (decode r)
              | _ => pre [63] (decode r)
              end
            else pre (utf8 p) (decode r)
          end
        | _ => None
        end
      else match unesc e with Some x => pre [x] (decode r) | None => None end
    end
  end.

(* ---------- the lexer ---------- *)

(* charLookupTable[]: VEC, IJC, VHC (/repo/src/yajl/yajl_lex.c:164-205) *)
Definition vec (c : Z) : bool :=
  (c =? 34) || (c =? 47) || (c =? 92) || (c =? 98) || (c =? 102) || (c =? 110) || (c =? 114) || (c =? 116).
(* /repo/src/yajl/yajl_lex.c:166-179 *)
Definition ijc (c : Z) : bool := (c <? 32) || (c =? 34) || (c =? 92).
(* /repo/src/yajl/yajl_lex.c:173-181 *)
Definition vhc (c : Z) : bool :=
  ((48 <=? c) && (c <=? 57)) || ((65 <=? c) && (c <=? 70)) || ((97 <=? c) && (c <=? 102)).

(* What became of a string: its bytes between the quotes, whether it has escapes, and what follows; or the end of
   the text; or an error. *)
Inductive sres := SDone (body : bytes) (esc : bool) (rest : bytes) | SEof | SErr.
(* Reading on after some bytes of the string: /repo/src/yajl/yajl_lex.c:353,399 *)
Definition spre (a : bytes) (e : bool) (x : sres) : sres :=
  match x with SDone b e' r => SDone (a ++ b) (e || e') r | _ => x end.
(* yajl_lex_string() after the opening quote, yajl_string_scan(): /repo/src/yajl/yajl_lex.c:281-292,308-409.
   What was kept of an earlier chunk and the chunk at hand are one text here (106-111). *)
Fixpoint lex_str (s : bytes) : sres :=
  match s with
  | [] => SEof
  | c :: r =>
    if c =? 34 then SDone [] false r
    else if c =? 92 then
      match r with
      | [] => SEof
      | e :: r =>
        if e =? 117 then
          match r with
          | [] => SEof
          | h1 :: r =>
            if negb (vhc h1) then SErr else
            match r with
            | [] => SEof
            | h2 :: r =>
              if negb (vhc h2) then SErr else
              match r with
              | [] => SEof
              | h3 :: r =>
                if negb (vhc h3) then SErr else
                match r with
                | [] => SEof
                | h4 :: r => if negb (vhc h4) then SErr else spre [c; e; h1; h2; h3; h4] true (lex_str r)
                end
              end
            end
          end
        else if vec e then spre [c; e] true (lex_str r)
        else SErr
      end
    else if ijc c then SErr
    else spre [c] false (lex_str r)
  end.

(* Tokens: /repo/src/yajl/yajl_lex.h:24-53.  Strings come with their bytes, integers with their digits. *)
Inductive token := TMapO | TMapC | TArrO | TArrC | TComma | TColon | TStr (b : bytes) | TEsc (b : bytes)
  | TInt (b : bytes) | TDbl | TBool | TNull.
(* A token and what follows it; the end of the text with what is kept for the next chunk; an error. *)
Inductive lres := LTok (t : token) (rest : bytes) | LEof (keep : bytes) | LErr.

(* /repo/src/yajl/yajl_lex.c:440,444 *)
Definition dig (c : Z) : bool := (48 <=? c) && (c <=? 57).
(* The digits in front: /repo/src/yajl/yajl_lex.c:441-444,458-462,484-487 *)
Fixpoint span (s : bytes) : bytes * bytes :=
  match s with
  | [] => ([], [])
  | c :: r => if dig c then let '(a, b) := span r in (c :: a, b) else ([], s)
  end.
(* What became of a number *)
Inductive nres := NInt (b : bytes) (rest : bytes) | NDbl (rest : bytes) | NEof | NErr.
(* The exponent and the end: /repo/src/yajl/yajl_lex.c:472-499.  [fin]: what it is without exponent. *)
Definition lex_exp (fin : bytes -> nres) (s : bytes) : nres :=
  match s with
  | [] => NEof
  | c :: r =>
    if (c =? 101) || (c =? 69) then
      match r with
      | [] => NEof
      | x :: r1 =>
        let r2 := if (x =? 43) || (x =? 45) then r1 else r in
        match span r2 with
        | (_, []) => NEof
        | ([], _) => NErr
        | (_, r3) => NDbl r3
        end
      end
    else fin s
  end.
(* The fraction: /repo/src/yajl/yajl_lex.c:451-470 *)
Definition lex_frac (num : bytes) (s : bytes) : nres :=
  match s with
  | [] => NEof
  | c :: r =>
    if c =? 46 then
      match span r with
      | (_, []) => NEof
      | ([], _) => NErr
      | (_, r1) => lex_exp NDbl r1
      end
    else lex_exp (NInt num) s
  end.
(* From the first digit on: /repo/src/yajl/yajl_lex.c:436-449 *)
Definition lex_int (sign : bytes) (s : bytes) : nres :=
  match s with
  | [] => NEof
  | c :: r =>
    if c =? 48 then lex_frac (sign ++ [c]) r
    else if dig c then let '(a, b) := span r in lex_frac (sign ++ c :: a) b
    else NErr
  end.
(* yajl_lex_number(): /repo/src/yajl/yajl_lex.c:413-500 *)
Definition lex_num (s : bytes) : nres :=
  match s with
  | [] => NEof
  | c :: r => if c =? 45 then lex_int [c] r else lex_int [] s
  end.

(* "rue", "alse", "ull": /repo/src/yajl/yajl_lex.c:622-675 *)
Inductive wres := WOk (rest : bytes) | WEof | WErr.
(* /repo/src/yajl/yajl_lex.c:624-636 *)
Fixpoint want (w s : bytes) : wres :=
  match w with
  | [] => WOk s
  | x :: w' => match s with [] => WEof | c :: r => if c =? x then want w' r else WErr end
  end.
(* /repo/src/yajl/yajl_lex.c:637-638 *)
Definition want_tok (t : token) (all : bytes) (x : wres) : lres :=
  match x with WOk r => LTok t r | WEof => LEof all | WErr => LErr end.

(* White space: /repo/src/yajl/yajl_lex.c:619 *)
Definition ws (c : Z) : bool := (c =? 32) || ((9 <=? c) && (c <=? 13)).
(* One token that starts at c: /repo/src/yajl/yajl_lex.c:600-722 *)
Definition lex1 (c : Z) (r : bytes) : lres :=
  if c =? 123 then LTok TMapO r
  else if c =? 125 then LTok TMapC r
  else if c =? 91 then LTok TArrO r
  else if c =? 93 then LTok TArrC r
  else if c =? 44 then LTok TComma r
  else if c =? 58 then LTok TColon r
  else if c =? 116 then want_tok TBool (c :: r) (want (str "rue") r)
  else if c =? 102 then want_tok TBool (c :: r) (want (str "alse") r)
  else if c =? 110 then want_tok TNull (c :: r) (want (str "ull") r)
  else if c =? 34 then
    match lex_str r with
    | SDone b e r' => LTok (if e then TEsc b else TStr b) r'
    | SEof => LEof (c :: r)
    | SErr => LErr
    end
  else if (c =? 45) || dig c then
    match lex_num (c :: r) with
    | NInt b r' => LTok (TInt b) r'
    | NDbl r' => LTok TDbl r'
    | NEof => LEof (c :: r)
    | NErr => LErr
    end
  else LErr.
(* yajl_lex_lex(): /repo/src/yajl/yajl_lex.c:551-768.  At the end of a chunk the bytes of the token are kept and
   lexed again, from their first byte, with the next chunk (726-739): the text given here is what was kept and the
   chunk. *)
Fixpoint lex (s : bytes) : lres :=
  match s with
  | [] => LEof []
  | c :: r => if ws c then lex r else lex1 c r
  end.

(* ---------- the parser ---------- *)

(* yajl_state: /repo/src/yajl/yajl_parser.h:26-40.  The error states end the parse, and yajl_state_got_value is
   never set as multiple values are not allowed. *)
Inductive pst := PStart | PComplete | PMapStart | PMapSep | PMapNeedVal | PMapGotVal | PMapNeedKey
  | PArrStart | PArrGotVal | PArrNeedVal.
(* The callbacks that burp has: /repo/src/client/monitor/json_input.c:517-529 *)
Inductive jev := EKey (b : bytes) | EStr (b : bytes) | EInt (z : Z) | EMapO | EMapC | EArrO | EArrC.

(* LLONG_MAX *)
Definition llmax : Z := 9223372036854775807.
(* MAX_VALUE_TO_MULTIPLY: /repo/src/yajl/yajl_parser.c:32 *)
Definition maxmul : Z := llmax / 10 + llmax mod 10.
(* A number, ERANGE, or signed overflow *)
Inductive ires := IOk (z : Z) | IRange | IUndef.
(* The loop of yajl_parse_integer(): /repo/src/yajl/yajl_parser.c:44-59 *)
Fixpoint int_loop (s : bytes) (ret : Z) : ires :=
  match s with
  | [] => IOk ret
  | c :: r =>
    if maxmul <? ret then IRange
    else if llmax <? ret * 10 then IUndef
    else if llmax - ret * 10 <? c - 48 then IRange
    else if (c <? 48) || (57 <? c) then IRange
    else int_loop r (ret * 10 + (c - 48))
  end.
(* yajl_parse_integer() of a number from the lexer: /repo/src/yajl/yajl_parser.c:35-62 *)
Definition parse_integer (s : bytes) : ires :=
  match s with
  | c :: r => if c =? 45 then match int_loop r 0 with IOk z => IOk (- z) | x => x end else int_loop s 0
  | [] => IOk 0
  end.

(* What a token does: an error, undefined behaviour, or a callback (if any) and the new stack of states *)
Inductive pact := ABad | AUndef | AGo (e : option jev) (stk : list pst).
(* A value has been read: /repo/src/yajl/yajl_parser.c:364-374 *)
Definition got (stk : list pst) : list pst :=
  match stk with
  | PStart :: r => PComplete :: r
  | PMapNeedVal :: r => PMapGotVal :: r
  | _ :: r => PArrGotVal :: r
  | [] => []
  end.
(* Where a value is wanted: /repo/src/yajl/yajl_parser.c:241-379 *)
Definition value (stk : list pst) (t : token) : pact :=
  match t with
  | TStr b => AGo (Some (EStr b)) (got stk)
  | TEsc b => match decode b with Some x => AGo (Some (EStr x)) (got stk) | None => AUndef end
  | TBool | TNull | TDbl => AGo None (got stk)
  | TMapO => AGo (Some EMapO) (PMapStart :: got stk)
  | TArrO => AGo (Some EArrO) (PArrStart :: got stk)
  | TInt b => match parse_integer b with
              | IOk z => AGo (Some (EInt z)) (got stk) | IRange => ABad | IUndef => AUndef end
  | TArrC => match stk with PArrStart :: r => AGo (Some EArrC) r | _ => ABad end
  | TColon | TComma | TMapC => ABad
  end.
(* One turn of yajl_do_parse(): /repo/src/yajl/yajl_parser.c:202-499 *)
Definition pstep (stk : list pst) (t : token) : pact :=
  match stk with
  | [] => ABad
  | PComplete :: _ => ABad
  | (PStart | PMapNeedVal | PArrNeedVal | PArrStart) :: _ => value stk t
  | (PMapStart | PMapNeedKey) :: r =>
    match t with
    | TStr b => AGo (Some (EKey b)) (PMapSep :: r)
    | TEsc b => match decode b with Some x => AGo (Some (EKey x)) (PMapSep :: r) | None => AUndef end
    | TMapC => match stk with PMapStart :: _ => AGo (Some EMapC) r | _ => ABad end
    | _ => ABad
    end
  | PMapSep :: r => match t with TColon => AGo None (PMapNeedVal :: r) | _ => ABad end
  | PMapGotVal :: r =>
    match t with TMapC => AGo (Some EMapC) r | TComma => AGo None (PMapNeedKey :: r) | _ => ABad end
  | PArrGotVal :: r =>
    match t with TArrC => AGo (Some EArrC) r | TComma => AGo None (PArrNeedVal :: r) | _ => ABad end
  end.
(* How a parse of a chunk ends: all read, with the stack and the bytes kept; an error; undefined behaviour.
   /repo/src/yajl/yajl_parser.c:202-240 *)
Inductive pend := POk (stk : list pst) (keep : bytes) | PErr | PUndef.
(* An optional callback before others *)
Definition oev (e : option jev) : list jev := match e with Some x => [x] | None => [] end.
(* yajl_do_parse(): /repo/src/yajl/yajl_parser.c:191-504, on what was kept and the chunk, with the callbacks in the
   order in which they are made.  Callbacks do not touch the parser except that one that returns 0 ends the parse
   (147-154): see json_input in JinModel.v. *)
Fixpoint do_parse (n : nat) (stk : list pst) (s : bytes) : list jev * pend :=
  match n with
  | O => ([], PErr)
  | S n' =>
    match lex s with
    | LEof k => ([], POk stk k)
    | LErr => ([], PErr)
    | LTok t r =>
      match pstep stk t with
      | ABad => ([], PErr)
      | AUndef => ([], PUndef)
      | AGo e stk' => let '(es, x) := do_parse n' stk' r in (oev e ++ es, x)
      end
    end
  end.
(* Every token has at least one byte: /repo/src/yajl/yajl_lex.c:598 *)
Definition parse (stk : list pst) (s : bytes) : list jev * pend := do_parse (S (List.length s)) stk s.
(* yajl_parse() of one chunk after another: /repo/src/yajl/yajl.c:158-173 *)
Fixpoint parse_all (stk : list pst) (keep : bytes) (cs : list bytes) : list jev * pend :=
  match cs with
  | [] => ([], POk stk keep)
  | c :: r =>
    match parse stk (keep ++ c) with
    | (es, POk stk' k) => let '(es', x) := parse_all stk' k r in (es ++ es', x)
    | (es, x) => (es, x)
    end
  end.
(* yajl_do_finish(): /repo/src/yajl/yajl_parser.c:157-189 *)
Definition finish (stk : list pst) (keep : bytes) : list jev * bool :=
  match parse stk (keep ++ [32]) with
  | (es, POk (PComplete :: _) _) => (es, true)
  | (es, _) => (es, false)
  end.

(* ---------- the writer ---------- *)

(* yajl_gen_state: /repo/src/yajl/yajl_gen.c:31-40.  yajl_gen_error is never set. *)
Inductive gst := GStart | GMapStart | GMapKey | GMapVal | GArrStart | GInArr | GComplete.
(* The calls that burp makes: /repo/src/yajl_gen_w.c:6-35 *)
Inductive gop := OStr (b : bytes) | OInt (z : Z) | OMapO | OMapC | OArrO | OArrC.
(* yajl_gen_status: /repo/src/yajl/yajl/yajl_gen.h:33-56.  GUndef: g->depth is outside of g->state[]. *)
Inductive gstat := GOk | GKeys | GDone | GDepth | GUndef.
(* struct yajl_gen_t: /repo/src/yajl/yajl_gen.c:42-52.  [g_stk] is g->state[] from g->depth down; [g_off] says that
   g->depth has left the array. *)
Record gen := mkgen { g_stk : list gst; g_off : bool; g_out : bytes }.
(* yajl_gen_alloc(): /repo/src/yajl/yajl_gen.c:135-164 *)
Definition gen0 : gen := mkgen [GStart] false [].
(* YAJL_MAX_DEPTH: /repo/src/yajl/yajl/yajl_common.h:32 *)
Definition max_depth : nat := 128.

Section Gen.
(* yajl_gen_beautify: /repo/src/server/monitor/json_output.c:61 *)
Variable pretty : bool.
(* A byte printed only when beautifying: /repo/src/yajl/yajl_gen.c:210-212 *)
Definition nl (c : Z) : bytes := if pretty then [c] else [].
(* INSERT_SEP: /repo/src/yajl/yajl_gen.c:206-218 *)
Definition sep (s : gst) : bytes :=
  match s with GMapKey | GInArr => 44 :: nl 10 | GMapVal => 58 :: nl 32 | _ => [] end.
(* INSERT_WHITESPACE: /repo/src/yajl/yajl_gen.c:220-230 *)
Definition indent (s : gst) (depth : nat) : bytes :=
  match s with GMapVal => [] | _ => if pretty then repeat 32 (4 * depth) else [] end.
(* APPENDED_ATOM: /repo/src/yajl/yajl_gen.c:258-275 *)
Definition appended (s : gst) : gst :=
  match s with
  | GStart => GComplete | GMapStart | GMapKey => GMapVal | GArrStart => GInArr | GMapVal => GMapKey
  | GInArr => GInArr | GComplete => GComplete
  end.
(* FINAL_NEWLINE: /repo/src/yajl/yajl_gen.c:277-280 *)
Definition final_nl (s : gst) : bytes := match s with GComplete => nl 10 | _ => [] end.
(* ENSURE_NOT_KEY: /repo/src/yajl/yajl_gen.c:232-236 *)
Definition is_key (s : gst) : bool := match s with GMapStart | GMapKey => true | _ => false end.

(* A value that is not a container: /repo/src/yajl/yajl_gen.c:282-297,359-380 *)
Definition atom (core : bytes) (s : gst) (r : list gst) (out : bytes) : gstat * gen :=
  (GOk, mkgen (appended s :: r) false
          (out ++ sep s ++ indent s (List.length r) ++ core ++ final_nl (appended s))).
(* yajl_gen_map_open(), yajl_gen_array_open(): /repo/src/yajl/yajl_gen.c:404-417,435-447 *)
Definition gopen (core : bytes) (new : gst) (s : gst) (r : list gst) (out : bytes) : gstat * gen :=
  if is_key s then (GKeys, mkgen (s :: r) false out)
  else
    let out := out ++ sep s ++ indent s (List.length r) in
    if (max_depth <=? S (List.length r))%nat then (GDepth, mkgen (s :: r) true out)
    else (GOk, mkgen (new :: s :: r) false (out ++ core ++ nl 10)).
(* yajl_gen_map_close(), yajl_gen_array_close(): /repo/src/yajl/yajl_gen.c:419-433,449-462 *)
Definition gclose (core : bytes) (s : gst) (r : list gst) (out : bytes) : gstat * gen :=
  match r with
  | [] => (GDone, mkgen (s :: r) true out)
  | p :: q =>
    (GOk, mkgen (appended p :: q) false
            (out ++ nl 10 ++ indent (appended p) (List.length q) ++ core ++ final_nl (appended p)))
  end.
(* One call, with ENSURE_VALID_STATE: /repo/src/yajl/yajl_gen.c:240-245 *)
Definition gcall (o : gop) (g : gen) : gstat * gen :=
  if g_off g then (GUndef, g) else
  match g_stk g with
  | [] => (GUndef, g)
  | GComplete :: _ => (GDone, g)
  | s :: r =>
    match o with
    | OStr b => atom (34 :: encode b ++ [34]) s r (g_out g)
    | OInt z => if is_key s then (GKeys, g) else atom (fmt_d z) s r (g_out g)
    | OMapO => gopen [123] GMapStart s r (g_out g)
    | OArrO => gopen [91] GArrStart s r (g_out g)
    | OMapC => gclose [125] s r (g_out g)
    | OArrC => gclose [93] s r (g_out g)
    end
  end.
(* Calls one after the other as long as they succeed: the || chains of
   /repo/src/server/monitor/json_output.c, e.g. 228-240 *)
Fixpoint grun (os : list gop) (g : gen) : option gen :=
  match os with
  | [] => Some g
  | o :: r => match gcall o g with (GOk, g') => grun r g' | _ => None end
  end.
End Gen.
