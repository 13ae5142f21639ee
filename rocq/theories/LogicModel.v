(* Model of logic expressions (exclude_logic): /repo/src/client/find_logic.c and
   the splitting functions of /repo/src/handy.c. *)
From Verif Require Import Bytes CmdModel RestoreModel BuModel AuthModel ConfModel.

(* ---- splitting the text into words ---- *)

Definition squote : Z := 39.    (* /repo/src/handy.c:625, 677, 789 *)
Definition dquote : Z := 34.    (* /repo/src/handy.c:625 *)
Definition backslash : Z := 92. (* /repo/src/handy.c:630 *)
Definition space : Z := 32.     (* /repo/src/client/find_logic.c:201 *)

(* One character, for the three loops that skip quoted and escaped text:
   /repo/src/handy.c:623-644, 675-695, 787-823.  q: quote; prev: the character
   before (0 at the start).  Result: the new quote, and whether the character is
   the one looked for, neither quoted nor escaped. *)
Definition scan1 (q prev search c : Z) : Z * bool :=
  if (q =? 0) && ((c =? squote) || (c =? dquote)) then (c, false)
  else if negb (q =? 0) && (c =? q) then (if prev =? backslash then q else 0, false)
  else if (q =? 0) && (c =? search) then (q, negb (prev =? backslash))
  else (q, false).

(* charcount_noescaped(): /repo/src/handy.c:614-646 *)
Fixpoint charcount (s : bytes) (search : Z) (repeat : bool) (q prev : Z) : Z :=
  match s with
  | [] => 0
  | c :: r =>
    let '(q', hit) := scan1 q prev search c in
    (if hit && (repeat || negb (prev =? c)) then 1 else 0) + charcount r search repeat q' c
  end.

(* charreplace_noescaped_w(): /repo/src/handy.c:648-700.  With nothing to
   replace the loop would copy the text, as 666 does.  The number of
   replacements is [charcount s search true 0 0] (664, 698). *)
Fixpoint charreplace (s : bytes) (search : Z) (replace : bytes) (q prev : Z) : bytes :=
  match s with
  | [] => []
  | c :: r =>
    let '(q', hit) := scan1 q prev search c in
    (if hit then replace else [c]) ++ charreplace r search replace q' c
  end.

(* Stepping over leading and trailing spaces: /repo/src/handy.c:752-754 *)
Fixpoint skip_spaces (s : bytes) : bytes :=
  match s with c :: r => if c =? space then skip_spaces r else s | [] => [] end.

(* strip_whitespace_w(): /repo/src/handy.c:741-760.  None: a byte before the
   string is read (747 with an empty string, 754 with spaces only). *)
Definition strip_whitespace (s : bytes) : option bytes :=
  match rev (skip_spaces (rev (skip_spaces s))) with [] => None | t => Some t end.

(* The loop of charsplit_noescaped_w(): /repo/src/handy.c:787-823.  buf: what
   the pointer buf points at; j, k as there; result: the words, buf, j. *)
Fixpoint split_loop (s : bytes) (q prev : Z) (buf : bytes) (j k : nat) : list bytes * bytes * nat :=
  match s with
  | [] => ([], buf, j)
  | c :: r =>
    let '(q', hit) := scan1 q prev space c in
    if hit then
      if prev =? c then split_loop r q' c (tl buf) j k                     (* 800-801 *)
      else
        let buf := match k with O => buf | _ => tl buf end in              (* 806 *)
        let '(ws, b, j') := split_loop r q' c (skipn j buf) 0 (S k) in
        (firstn j buf :: ws, b, j')                                        (* 807-815 *)
    else split_loop r q' c buf (S j) k
  end.
(* charsplit_noescaped_w(): /repo/src/handy.c:764-838, with ' ' as delimiter.
   824: the backslash test looks at the byte before, which is not an escape
   where the loop stopped unless the text ends in one.  None: no space to split
   at (780-781), the caller sees NULL. *)
Definition charsplit (s : bytes) : option (list bytes) :=
  if charcount s space false 0 0 =? 0 then None
  else
    let '(ws, buf, j) := split_loop s 0 0 s 0 0 in
    Some (ws ++ [firstn j (skip_spaces buf)]).

(* create_token_list(): /repo/src/client/find_logic.c:190-211.  What can come of
   it: no tokens (NULL), memory before a buffer read, or the words and the flag valid. *)
Inductive tokres := NoTokens | BadRead | Words (ws : list bytes) (valid : bool).
Definition lparen : Z := 40. (* '(' : /repo/src/client/find_logic.c:199 *)
Definition rparen : Z := 41. (* ')' : /repo/src/client/find_logic.c:200 *)
Definition create_token_list (expr : bytes) : tokres :=
  let n := charreplace expr lparen (str " ( ") 0 0 in
  let n2 := charreplace n rparen (str " ) ") 0 0 in
  match strip_whitespace n2 with
  | None => BadRead
  | Some t => match charsplit t with
              | None => NoTokens
              | Some ws => Words ws (charcount expr lparen true 0 0 =? charcount n rparen true 0 0)
              end
  end.

(* ---- the tests ---- *)

Definition EVAL_FALSE : Z := 0.    (* /repo/src/client/find_logic.c:26-32 *)
Definition EVAL_TRUE : Z := 1.     (* /repo/src/client/find_logic.c:27 *)
Definition LEFT_PARENS : Z := 2.   (* /repo/src/client/find_logic.c:28 *)
Definition RIGHT_PARENS : Z := 3.  (* /repo/src/client/find_logic.c:29 *)
Definition AND_FUNC : Z := 4.      (* /repo/src/client/find_logic.c:30 *)
Definition OR_FUNC : Z := 5.       (* /repo/src/client/find_logic.c:31 *)
Definition NOT : Z := 6.           (* /repo/src/client/find_logic.c:32 *)

Section Tests.
(* regex_check() of a compiled pattern: pattern and text.  An invalid pattern
   matches nothing (/repo/src/regexp.c). *)
Variable re : bytes -> bytes -> bool.

(* strip_quotes(): /repo/src/client/find_logic.c:281-294, and the use of the
   original when it gives NULL.  A lone quote gives a buffer of 0 bytes that is
   written at -1; that is None. *)
Definition strip_quotes (s : bytes) : option bytes :=
  match s with
  | [] => Some s
  | c :: r => if ((c =? squote) || (c =? dquote)) && (c =? last s 0)
              then match r with [] => None | _ => Some (removelast r) end
              else Some s
  end.

(* Skipping '=': /repo/src/client/find_logic.c:303, 325 *)
Fixpoint skip_eq (s : bytes) : bytes :=
  match s with c :: r => if c =? 61 then skip_eq r else s | [] => [] end.

(* strcasecmp()==0: /repo/src/client/find_logic.c:309-310 *)
Definition same_nocase (a b : bytes) : bool := beqb (map tolower a) (map tolower b).

(* The loop over the dots of fname: /repo/src/client/find_logic.c:306-312 *)
Fixpoint some_ext (ext fname : bytes) : bool :=
  match fname with
  | [] => false
  | c :: r => ((c =? dot) && same_nocase ext r) || some_ext ext r
  end.
(* eval_file_ext(): /repo/src/client/find_logic.c:297-316.  The results of the
   tests are 0 and 1; None is memory written outside a buffer. *)
Definition eval_file_ext (tok fname : bytes) : option bool :=
  match skip_eq tok with
  | [] => Some false
  | t => match strip_quotes t with None => None | Some ext => Some (some_ext ext fname) end
  end.

(* eval_path_match(): /repo/src/client/find_logic.c:319-352 *)
Definition eval_path_match (tok fname : bytes) : option bool :=
  match skip_eq tok with
  | [] => Some false
  | t => match strip_quotes t with None => None | Some p => Some (re p fname) end
  end.
(* What follows the last '/': /repo/src/client/find_logic.c:357-359 *)
Fixpoint base_name (fname : bytes) (cur : bytes) : bytes :=
  match fname with [] => cur | c :: r => base_name r (if c =? slash then r else cur) end.
(* eval_file_match(): /repo/src/client/find_logic.c:355-360 *)
Definition eval_file_match (tok fname : bytes) : option bool := eval_path_match tok (base_name fname fname).

(* enum-like values of eval in eval_file_size(): /repo/src/client/find_logic.c:33-38.
   CBad: EVAL_FALSE at 395. *)
Inductive cmpop := CNone | CLt | CLe | CGt | CGe | CEq | CBad.
(* The loop: /repo/src/client/find_logic.c:370-399 *)
Fixpoint size_op (tok : bytes) (e : cmpop) : cmpop * bytes :=
  match tok with
  | c :: r =>
    if c =? 60 then size_op r CLt
    else if c =? 62 then size_op r CGt
    else if c =? 61 then size_op r (match e with CLt => CLe | CGt => CGe | CNone => CEq | CEq => CEq | _ => CBad end)
    else (e, tok)
  | [] => (e, tok)
  end.
(* The size get_file_size() leaves in s, also when it complains:
   /repo/src/conffile.c:132-150, /repo/src/client/find_logic.c:400-403 *)
Definition size_of (v : bytes) : Z := match get_file_size v with Some n => n | None => strtoul10 v end.
(* eval_file_size(): /repo/src/client/find_logic.c:363-427 *)
Definition eval_file_size (tok : bytes) (filesize : Z) : option bool :=
  match tok with
  | [] => Some false
  | _ =>
    let '(e, t) := size_op tok CNone in
    match strip_quotes t with
    | None => None
    | Some v =>
      let s := size_of v in
      Some match e with
           | CLt => filesize <? s
           | CLe => filesize <=? s
           | CGt => s <? filesize
           | CGe => s <=? filesize
           | CEq => filesize =? s
           | _ => false
           end
    end
  end.

(* eval_func(): /repo/src/client/find_logic.c:430-444 *)
Definition eval_func (tok fname : bytes) (filesize : Z) : option bool :=
  if starts_with tok (str "file_ext") then eval_file_ext (skipn 8 tok) fname
  else if starts_with tok (str "file_match") then eval_file_match (skipn 10 tok) fname
  else if starts_with tok (str "path_match") then eval_path_match (skipn 10 tok) fname
  else if starts_with tok (str "file_size") then eval_file_size (skipn 9 tok) filesize
  else Some false.

Definition b2z (b : bool) : Z := if b then 1 else 0. (* /repo/src/client/find_logic.c:26-27 *)
(* str_to_node(): /repo/src/client/find_logic.c:447-463 *)
Definition str_to_node (tok fname : bytes) (filesize : Z) : option Z :=
  if starts_with tok (str "and") then Some AND_FUNC
  else if starts_with tok (str "or") then Some OR_FUNC
  else if starts_with tok (str "(") then Some LEFT_PARENS
  else if starts_with tok (str ")") then Some RIGHT_PARENS
  else if starts_with tok (str "not") then Some NOT
  else option_map b2z (eval_func tok fname filesize).
End Tests.

(* ---- evaluation ---- *)

(* struct _dllist: /repo/src/client/find_logic.c:41-56, as the nodes from head
   along next.  With each node: whether its prev points to memory that has been
   freed.  l_tail: whether tail points to the last node (else to freed memory). *)
Record dl := mkdl { l_nodes : list (Z * bool); l_tail : bool }.
Definition fresh (vs : list Z) : dl := mkdl (map (fun v => (v, false)) vs) true. (* built by list_append() alone:
   /repo/src/client/find_logic.c:116-135 *)
Definition vals (d : dl) : list Z := map fst (l_nodes d). (* /repo/src/client/find_logic.c:43 *)

(* list_reset(): /repo/src/client/find_logic.c:150-167.  Walks from tail along
   prev; true: freed memory is used (and freed again). *)
Definition reset_bad (d : dl) : bool :=
  match l_nodes d with [] => false | _ => negb (l_tail d) || existsb snd (l_nodes d) end.

(* eval_triplet(): /repo/src/client/find_logic.c:466-481.  None: NULL followed. *)
Definition eval_triplet (vs : list Z) (def : Z) : option Z :=
  match vs with
  | l :: f :: r :: _ =>
    Some (if f =? AND_FUNC then b2z (negb (l =? 0) && negb (r =? 0))
          else if f =? OR_FUNC then b2z (negb (l =? 0) || negb (r =? 0))
          else def)
  | _ => None
  end.

(* The loop taking away 'not': /repo/src/client/find_logic.c:516-532 *)
Fixpoint drop_not (negate : bool) (vs : list Z) : list Z :=
  match vs with
  | [] => []
  | v :: r => if v =? NOT then drop_not (negb negate) r
              else (if negate then b2z (v =? 0) else v) :: drop_not false r
  end.

(* bool_eval(): /repo/src/client/find_logic.c:484-566.  Result: the value, what
   *tokens is afterwards, and whether freed memory was used on the way (the
   value is then the one seen if that had no effect).  None: NULL followed.
   fuel: the recursion at 562 takes two tokens away. *)
Fixpoint bool_eval (fuel : nat) (d : dl) (def : Z) : option (Z * dl * bool) :=
  match vals d with
  | [v] => Some (v, d, false)                                             (* 487-488 *)
  | [a; b] => Some (if a =? NOT then b2z (b =? 0) else b, d, negb (l_tail d)) (* 489-498 *)
  | _ =>
    let '(d, bad) :=                                                      (* 500-538 *)
      if (3 <? List.length (vals d))%nat && existsb (Z.eqb NOT) (vals d)
      then (fresh (drop_not false (vals d)), reset_bad d)
      else (d, false) in
    if (3 <? List.length (vals d))%nat then                               (* 541-563 *)
      match eval_triplet (vals d) def with
      | None => None
      | Some v =>
        let d' := fresh (v :: skipn 3 (vals d)) in
        match fuel with
        | O => None
        | S f => match bool_eval f d' def with
                 | None => None
                 | Some (r, d2, bad2) => Some (r, d2, bad || reset_bad d || bad2)
                 end
        end
      end
    else if negb (List.length (vals d) mod 3 =? 0)%nat then Some (def, d, bad) (* 564 *)
    else match eval_triplet (vals d) def with                             (* 565 *)
         | None => None
         | Some v => Some (v, d, bad)
         end
  end.

(* find(): /repo/src/client/find_logic.c:229-238 *)
Fixpoint positions (vs : list Z) (what : Z) (i start : nat) : list nat :=
  match vs with
  | [] => []
  | v :: r => (if (start <=? i)%nat && (v =? what) then [i] else []) ++ positions r what (S i) start
  end.

(* parens(): /repo/src/client/find_logic.c:246-278.  PBad: 273 with nothing
   found, where head points to a freed node. *)
Inductive pres := PNone | PAt (lft rgt : nat) | PBad.
(* parens(): /repo/src/client/find_logic.c:246-278 *)
Definition parens (vs : list Z) : pres :=
  match rev (positions vs LEFT_PARENS 0 0) with
  | [] => PNone
  | lft :: _ =>
    match positions vs RIGHT_PARENS 0 (lft + 4) with
    | rgt :: _ => PAt lft rgt
    | [] => match positions vs RIGHT_PARENS 0 (lft + 1) with
            | rgt :: _ => PAt lft rgt
            | [] => PBad
            end
    end
  end.

(* Putting a node in place of the tokens from left to right:
   /repo/src/client/find_logic.c:599-609.  When there are tokens on both sides
   the prev of the one after is not set; when there are none on either side tail
   is not.  None: begin->prev is freed memory, written at 607. *)
Definition splice (d : dl) (lft rgt : nat) (v : Z) : option dl :=
  let pre := firstn lft (l_nodes d) in
  let post := skipn (S rgt) (l_nodes d) in
  match nth_error (l_nodes d) lft with
  | Some (_, true) => None
  | _ =>
    Some match pre, post with
         | [], [] => mkdl [(v, false)] false
         | [], (w, _) :: r => mkdl ((v, false) :: (w, false) :: r) (l_tail d)
         | _, [] => mkdl (pre ++ [(v, false)]) true
         | _, (w, _) :: r => mkdl (pre ++ (v, false) :: (w, true) :: r) (l_tail d)
         end
  end.

(* eval_parsed_expression(): /repo/src/client/find_logic.c:569-625.  fuel: each
   call of itself has one '(' less. *)
Fixpoint eval_parsed (fuel : nat) (d : dl) (def : Z) : option (Z * dl * bool) :=
  match vals d with
  | [] => Some (def, d, false)
  | [v] => Some (v, d, false)
  | vs =>
    match parens vs with
    | PBad => None
    | PNone => bool_eval (List.length vs) d def
    | PAt lft rgt =>
      let sub := firstn (rgt - lft - 1) (skipn (S lft) vs) in          (* 585-593 *)
      match bool_eval (List.length sub) (fresh sub) def with
      | None => None
      | Some (v, sub', bad) =>
        match splice d lft rgt v, fuel with
        | Some d', S f =>
          match eval_parsed f d' def with
          | None => None
          | Some (r, d2, bad2) => Some (r, d2, bad || reset_bad sub' || bad2)
          end
        | _, _ => None
        end
      end
    end
  end.

(* eval_expression() from the words on: /repo/src/client/find_logic.c:641-649,
   with the list_reset() at 647. *)
Definition eval_words (ts : list Z) (valid : bool) (def : Z) : option (Z * bool) :=
  if negb valid then Some (def, false)
  else match eval_parsed (S (List.length ts)) (fresh ts) def with
       | None => None
       | Some (v, d, bad) => Some (v, bad || reset_bad d)
       end.

(* The loop appending a node for each word: /repo/src/client/find_logic.c:643-644 *)
Fixpoint all_nodes (re : bytes -> bytes -> bool) (ws : list bytes) (fname : bytes) (filesize : Z) : option (list Z) :=
  match ws with
  | [] => Some []
  | w :: r => match str_to_node re w fname filesize, all_nodes re r fname filesize with
              | Some v, Some vs => Some (v :: vs)
              | _, _ => None
              end
  end.

(* eval_expression(): /repo/src/client/find_logic.c:627-650.  The cache holds
   what parse_expression() would give again.  None: memory misused beyond
   freeing twice. *)
Definition eval_expression (re : bytes -> bytes -> bool) (expr fname : bytes) (filesize def : Z) : option (Z * bool) :=
  match create_token_list expr with
  | BadRead => None
  | NoTokens => Some (def, false)
  | Words ws valid =>
    if negb valid then Some (def, false)
    else match all_nodes re ws fname filesize with
         | None => None
         | Some ts => eval_words ts valid def
         end
  end.

(* is_logic(): /repo/src/client/find_logic.c:678-686.  None as above; freeing
   twice is taken as an abort here as well. *)
Fixpoint logic_loop (re : bytes -> bytes -> bool) (l : list bytes) (fname : bytes) (filesize miss def : Z) : option Z :=
  match l with
  | [] => Some def
  | e :: r => match eval_expression re e fname filesize miss with
              | Some (v, false) => if negb (v =? 0) then Some 1 else logic_loop re r fname filesize miss def
              | _ => None
              end
  end.
Definition is_logic (re : bytes -> bytes -> bool) (l : list bytes) (isreg : bool) (fname : bytes) (filesize miss def : Z) : option Z :=
  match l with
  | [] => Some miss
  | _ => if negb isreg then Some def else logic_loop re l fname filesize miss def
  end.
(* is_logic_excluded(): /repo/src/client/find_logic.c:688-691 *)
Definition is_logic_excluded (re : bytes -> bytes -> bool) (l : list bytes) (isreg : bool) (fname : bytes) (filesize : Z) : option Z :=
  is_logic re l isreg fname filesize 0 0.
