(* Model of the command line: /repo/src/prog.c.  Not on Windows, and not called
   as bedup. *)
From Verif Require Import Bytes RestoreModel BuModel LstModel.

(* ---------- getopt() ---------- *)

(* The letters of "a:b:C:c:d:o:Ffghijl:nQq:R:r:s:tVvXxz:?": with an argument,
   without, unknown.  /repo/src/prog.c:303 *)
Inductive kind := WithArg | NoArg | Unknown.
(* Is this one of those: /repo/src/prog.c:303 *)
Definition among (s : bytes) (c : Z) : bool := existsb (Z.eqb c) s.
(* /repo/src/prog.c:303 *)
Definition opt_kind (c : Z) : kind :=
  if among (str "abCcdolqRrsz") c then WithArg
  else if among (str "FfghijnQtVvXx?") c then NoArg
  else Unknown.

(* One word that begins with a dash, without it; next is the word after it.  The
   options found, and whether next was used as an argument.  An option that is
   unknown or has no argument gives '?'.  getopt(3), /repo/src/prog.c:303 *)
Fixpoint cluster (s : bytes) (next : list bytes) : list (Z * bytes) * bool :=
  match s with
  | [] => ([], false)
  | c :: r =>
    match opt_kind c with
    | WithArg =>
      match r with
      | _ :: _ => ([(c, r)], false)
      | [] => match next with
              | a :: _ => ([(c, a)], true)
              | [] => ([(63, [])], false)
              end
      end
    | NoArg => let '(l, u) := cluster r next in ((c, []) :: l, u)
    | Unknown => let '(l, u) := cluster r next in ((63, []) :: l, u)
    end
  end.

(* getopt() of glibc, over and over: the options, and the words that are none, which
   it moves to the end.  /repo/src/prog.c:303, 395 *)
Fixpoint getopt (argv : list bytes) : list (Z * bytes) * list bytes :=
  match argv with
  | [] => ([], [])
  | a :: rest =>
    if beqb a (str "--") then ([], rest)
    else if (hd0 a =? 45) && negb (beqb (tl a) []) then
      let '(l, used) := cluster (tl a) rest in
      match used, rest with
      | true, _ :: rest' => let '(l', w) := getopt rest' in (l ++ l', w)
      | _, _ => let '(l', w) := getopt rest in (l ++ l', w)
      end
    else let '(l, w) := getopt rest in (l, a :: w)
  end.

(* ---------- the options ---------- *)

(* enum action: /repo/src/action.h, those of parse_action() *)
Inductive act := PBackup | PTimed | PTimer | PRestore | PVerify | PList | PLong | PParse | PStatus | PSnap
  | PEstimate | PDelete | PDiff | PDiffLong | PMonitor.

(* enum vss_restore: /repo/src/prog.c:290 *)
Inductive vss := VssOn | VssOff | VssStrip.

(* The local variables of real_main(): /repo/src/prog.c:265-295.  conffile is NULL
   here for the default. *)
Record opts := mkopts {
  o_act : act; o_backup : option bytes; o_backup2 : option bytes; o_client : option bytes;
  o_conf : option bytes; o_dir : option bytes; o_daemon : bool; o_force : bool; o_ca : bool;
  o_log : option bytes; o_fork : bool; o_over : list bytes; o_rand : Z;
  o_regex : option bytes; o_icase : bool; o_strip : Z; o_vss : vss; o_test : bool; o_file : option bytes }.

(* /repo/src/prog.c:265-295 *)
Definition opts0 : opts :=
  mkopts PList None None None None None true false false None true [] 0 None false 0 VssOn false None.

(* strncmp(optarg, "backup", 1): /repo/src/prog.c:146-184 *)
Definition first_is (s : bytes) (c : Z) : bool := hd0 s =? c.

(* parse_action(): /repo/src/prog.c:143-193; the override it adds. *)
Definition parse_action (s : bytes) : option (act * list bytes) :=
  let stdin := [str "restore_list=/dev/stdin"] in
  if first_is s 98 then Some (PBackup, [])
  else if first_is s 116 then Some (PTimed, [])
  else if first_is s 84 then Some (PTimer, [])
  else if first_is s 114 then Some (PRestore, [])
  else if first_is s 82 then Some (PRestore, stdin)
  else if first_is s 118 then Some (PVerify, [])
  else if first_is s 86 then Some (PVerify, stdin)
  else if first_is s 108 then Some (PList, [])
  else if first_is s 76 then Some (PLong, [])
  else if first_is s 112 then Some (PParse, [])
  else if first_is s 115 then Some (PStatus, [])
  else if first_is s 83 then Some (PSnap, [])
  else if first_is s 101 then Some (PEstimate, [])
  else if starts_with s (str "delete") then Some (PDelete, [])
  else if first_is s 100 then Some (PDiff, [])
  else if first_is s 68 then Some (PDiffLong, [])
  else if first_is s 109 then Some (PMonitor, [])
  else None.

(* Why the loop is left early: /repo/src/prog.c:308-309, 338-341, 369-372, 388-392 *)
Inductive stop := SUsage | SIndex | SVersion.

(* One turn of the loop: /repo/src/prog.c:305-392 *)
Definition option_step (o : opts) (e : Z * bytes) : opts + stop :=
  let '(c, t) := e in
  let '(mkopts a b b2 cl cf d dm fo ca lg fk ov rn rx ic st vs ts bf) := o in
  if c =? 97 then
    match parse_action t with
    | Some (a', x) => inl (mkopts a' b b2 cl cf d dm fo ca lg fk (ov ++ x) rn rx ic st vs ts bf)
    | None => inr SUsage
    end
  else if c =? 98 then
    inl (mkopts a (match b with None => Some t | _ => b end)
                  (match b, b2 with Some _, None => Some t | _, _ => b2 end) cl cf d dm fo ca lg fk ov rn rx ic st vs ts bf)
  else if c =? 67 then inl (mkopts a b b2 (Some t) cf d dm fo ca lg fk ov rn rx ic st vs ts bf)
  else if c =? 99 then inl (mkopts a b b2 cl (Some t) d dm fo ca lg fk ov rn rx ic st vs ts bf)
  else if c =? 100 then inl (mkopts a b b2 cl cf (Some t) dm fo ca lg fk ov rn rx ic st vs ts bf)
  else if c =? 70 then inl (mkopts a b b2 cl cf d false fo ca lg fk ov rn rx ic st vs ts bf)
  else if c =? 102 then inl (mkopts a b b2 cl cf d dm true ca lg fk ov rn rx ic st vs ts bf)
  else if c =? 103 then inl (mkopts a b b2 cl cf d dm fo true lg fk ov rn rx ic st vs ts bf)
  else if c =? 105 then inr SIndex
  else if c =? 108 then inl (mkopts a b b2 cl cf d dm fo ca (Some t) fk ov rn rx ic st vs ts bf)
  else if c =? 110 then inl (mkopts a b b2 cl cf d dm fo ca lg false ov rn rx ic st vs ts bf)
  else if c =? 111 then inl (mkopts a b b2 cl cf d dm fo ca lg fk (ov ++ [t]) rn rx ic st vs ts bf)
  else if c =? 81 then inl (mkopts a b b2 cl cf d dm fo ca lg fk (ov ++ [str "progress_counter=0"; str "stdout=0"]) rn rx ic st vs ts bf)
  else if c =? 113 then inl (mkopts a b b2 cl cf d dm fo ca lg fk ov (atoi t) rx ic st vs ts bf)
  else if c =? 82 then inl (mkopts a b b2 cl cf d dm fo ca lg fk ov rn (Some t) true st vs ts bf)
  else if c =? 114 then inl (mkopts a b b2 cl cf d dm fo ca lg fk ov rn (Some t) false st vs ts bf)
  else if c =? 115 then inl (mkopts a b b2 cl cf d dm fo ca lg fk ov rn rx ic (atoi t) vs ts bf)
  else if c =? 86 then inr SVersion
  else if c =? 118 then inl (mkopts a b b2 cl cf d dm fo ca lg fk (ov ++ [str "stdout=1"]) rn rx ic st vs ts bf)
  else if c =? 88 then inl (mkopts a b b2 cl cf d dm fo ca lg fk ov rn rx ic st VssOff ts bf)
  else if c =? 120 then inl (mkopts a b b2 cl cf d dm fo ca lg fk ov rn rx ic st VssStrip ts bf)
  else if c =? 116 then inl (mkopts a b b2 cl cf d dm fo ca lg fk ov rn rx ic st vs true bf)
  else if c =? 122 then inl (mkopts a b b2 cl cf d dm fo ca lg fk ov rn rx ic st vs ts (Some t))
  else inr SUsage.

(* The loop: /repo/src/prog.c:303-394 *)
Fixpoint option_loop (o : opts) (es : list (Z * bytes)) : opts + stop :=
  match es with
  | [] => inl o
  | e :: es => match option_step o e with inl o => option_loop o es | inr s => inr s end
  end.

(* ---------- what is done ---------- *)

(* What of the configuration matters here: the mode (client, server or
   neither), randomise, and values that the command line replaces.
   /repo/src/prog.c:464-515 *)
Inductive mode := MClient | MServer | MOther.
(* /repo/src/prog.c:457-528 *)
Record conf := mkconf { c_mode : mode; c_rand : Z; c_daemon : bool; c_fork : bool; c_force : bool; c_strip : Z;
  c_backup : option bytes; c_backup2 : option bytes; c_prefix : option bytes; c_regex : option bytes;
  c_file : option bytes; c_browse : option bytes; c_log : option bytes; c_orig : option bytes }.

(* The settings that client() or server() gets: /repo/src/prog.c:457-528 *)
Record job := mkjob { j_conf : option bytes; j_over : list bytes;
  j_backup : option bytes; j_backup2 : option bytes; j_prefix : option bytes; j_browse : option bytes;
  j_regex : option bytes; j_icase : bool; j_strip : Z; j_force : bool; j_fork : bool; j_daemon : bool;
  j_file : option bytes; j_log : option bytes; j_orig : option bytes; j_vss : vss }.

(* What happens, in order: /repo/src/prog.c:388-550 *)
Inductive event := EUsage | EIndex | EVersion | ELoad (file : option bytes) (over : list bytes)
  | EDump | EDumpClient (c : bytes) | EDelay (max : Z) | ELock | EUser
  | EServer (ca : bool) (j : job) | EClient (a : act) (j : job).

(* The world: what loading the configuration gives, whether that of a client
   loads, whether the lock is got, the user changed, and what client() and
   server() return.  /repo/src/prog.c:222, 417, 478, 498, 507, 537, 542 *)
Record world := mkworld { w_load : option bytes -> list bytes -> option conf; w_cload : bytes -> bool;
  w_lock : bool; w_user : bool; w_client : Z; w_server : Z }.

(* replace_conf_str(): /repo/src/prog.c:131-135 *)
Definition replace_str (old new : option bytes) : option bytes := match new with Some _ => new | None => old end.

(* The default for the first backup, None: refused.  /repo/src/prog.c:427-440 *)
Definition first_backup (o : opts) : option (option bytes) :=
  match o_backup o, o_act o with
  | Some b, _ => Some (Some b)
  | None, PDelete => None
  | None, (PRestore | PVerify | PDiff | PDiffLong) => Some (Some (str "0"))
  | None, _ => Some None
  end.
(* For the second: /repo/src/prog.c:441-449 *)
Definition second_backup (o : opts) : option bytes :=
  match o_backup2 o, o_act o with
  | None, (PDiff | PDiffLong) => Some (str "n")
  | b, _ => b
  end.

(* Is the lock needed: /repo/src/prog.c:470-504; ACTION_CHAMP_CHOOSER cannot be
   asked for. *)
Definition needs_lock (m : mode) (a : act) : bool :=
  match m, a with
  | MServer, _ => true
  | MClient, (PBackup | PTimed | PTimer) => true
  | _, _ => false
  end.

(* set_int() and replace_conf_str() of it all: /repo/src/prog.c:457-528 *)
Definition settle (c : conf) (o : opts) (over : list bytes) (b : option bytes) : job :=
  let dir := option_map strip_slashes (o_dir o) in
  mkjob (o_conf o) over
    (replace_str (c_backup c) b) (replace_str (c_backup2 c) (second_backup o))
    (replace_str (c_prefix c) dir) (replace_str (c_browse c) dir)
    (replace_str (c_regex c) (o_regex o)) (o_icase o) (o_strip o) (o_force o) (o_fork o) (o_daemon o)
    (replace_str (c_file c) (o_file o)) (replace_str (c_log c) (o_log o))
    (match o_client o with Some (_ :: _) => o_client o | _ => c_orig c end) (o_vss o).

(* run_test_confs(): /repo/src/prog.c:207-229 *)
Definition run_test_confs (w : world) (client : option bytes) : list event * Z :=
  match client with
  | None => ([EDump], 0)
  | Some c => if w_cload w c then ([EDumpClient c], -1) else ([], -1)
  end.

(* From the loaded configuration on: /repo/src/prog.c:420-543.  Allocation is taken
   to succeed. *)
Definition go (w : world) (c : conf) (o : opts) (over : list bytes) : list event * Z :=
  if o_test o then run_test_confs w (o_client o)
  else match first_backup o with
       | None => ([], 1)
       | Some b =>
         let rand := if o_rand o =? 0 then c_rand c else o_rand o in
         let delay := match c_mode c, o_act o with
                      | MClient, (PTimed | PTimer) => if rand =? 0 then [] else [EDelay rand]
                      | _, _ => []
                      end in
         let locks := needs_lock (c_mode c) (o_act o) in
         let e1 := delay ++ (if locks then [ELock] else []) in
         if locks && negb (w_lock w) then (e1, 1)
         else let e2 := e1 ++ [EUser] in
              if negb (w_user w) then (e2, -1)
              else let j := settle c o over b in
                   match c_mode c with
                   | MServer => (e2 ++ [EServer (o_ca o) j], w_server w)
                   | _ => (e2 ++ [EClient (o_act o) j], w_client w)
                   end
       end.

(* real_main(): /repo/src/prog.c:263-551, with the words after the name of the
   program. *)
Definition real_main (w : world) (argv : list bytes) : list event * Z :=
  let '(es, words) := getopt argv in
  match option_loop opts0 es with
  | inr SUsage => ([EUsage], 1)
  | inr SIndex => ([EIndex], 0)
  | inr SVersion => ([EVersion], 0)
  | inl o =>
    match words with
    | _ :: _ => ([EUsage], 1)
    | [] =>
      let over := o_over o ++ match o_act o with PParse => [str "stdout=0"] | _ => [] end in
      match w_load w (o_conf o) over with
      | None => ([ELoad (o_conf o) over], 1)
      | Some c => let '(t, r) := go w c o over in (ELoad (o_conf o) over :: t, r)
      end
    end
  end.
