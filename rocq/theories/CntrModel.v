(* Model of the counters of a backup or restore and of the line of text by which
   a child process reports them: /repo/src/cntr.c, and of the statistics made of
   them in /repo/src/server/monitor/json_output.c. *)
From Verif Require Import Bytes FrameModel DpthModel BuModel CmdModel.

(* The letters of counters that are not letters of entries: /repo/src/cmd.h:42-60 *)
Definition CMD_TOTAL : Z := 89.            (* 'Y' *)
Definition CMD_GRAND_TOTAL : Z := 90.      (* 'Z' *)
Definition CMD_BYTES_ESTIMATED : Z := 71.  (* 'G' *)
Definition CMD_BYTES : Z := 79.            (* 'O' *)
Definition CMD_BYTES_RECV : Z := 80.       (* 'P' *)
Definition CMD_BYTES_SENT : Z := 81.       (* 'Q' *)
Definition CMD_TIMESTAMP_END : Z := 69.    (* 'E' *)
Definition CMD_FILE_CHANGED : Z := 122.    (* 'z' *)

(* CNTR_SINGLE_FIELD, CNTR_TABULATE and neither: /repo/src/cntr.h:4-5 *)
Inductive kind := Single | Tab | Plain.

(* struct cntr_ent: /repo/src/cntr.h:47-60 *)
Record ent := mkent { e_cmd : Z; e_kind : kind; e_field : bytes; e_label : bytes;
  e_count : Z; e_changed : Z; e_same : Z; e_deleted : Z; e_phase1 : Z }.

(* add_cntr_ent(): /repo/src/cntr.c:43-63.  Allocation failures left out. *)
Definition new_ent (k : kind) (c : Z) (f l : String.string) : ent := mkent c k (str f) (str l) 0 0 0 0 0.

(* The list cntr_init() makes, in the order it is walked: /repo/src/cntr.c:105-157 *)
Definition table : list ent :=
  [ new_ent Tab CMD_FILE "files" "Files";
    new_ent Tab CMD_ENC_FILE "files_encrypted" "Files (encrypted)";
    new_ent Tab CMD_METADATA "meta_data" "Meta data";
    new_ent Tab CMD_ENC_METADATA "meta_data_encrypted" "Meta data (enc)";
    new_ent Tab CMD_DIRECTORY "directories" "Directories";
    new_ent Tab CMD_HARD_LINK "soft_links" "Hard links";
    new_ent Tab CMD_SOFT_LINK "hard_links" "Soft links";
    new_ent Tab CMD_SPECIAL "special_files" "Special files";
    new_ent Tab CMD_VSS "vss_headers" "VSS headers";
    new_ent Tab CMD_ENC_VSS "vss_headers_encrypted" "VSS headers (enc)";
    new_ent Tab CMD_VSS_T "vss_footers" "VSS footers";
    new_ent Tab CMD_ENC_VSS_T "vss_footers_encrypted" "VSS footers (enc)";
    new_ent Tab CMD_EFS_FILE "efs_files" "EFS files";
    new_ent Single CMD_ERROR "errors" "Errors";
    new_ent Plain CMD_TOTAL "total" "Total";
    new_ent Tab CMD_GRAND_TOTAL "grand_total" "Grand total";
    new_ent Single CMD_WARNING "warnings" "Warnings";
    new_ent Single CMD_MESSAGE "messages" "Messages";
    new_ent Single CMD_BYTES_ESTIMATED "bytes_estimated" "Bytes estimated";
    new_ent Single CMD_BYTES "bytes" "Bytes";
    new_ent Single CMD_BYTES_RECV "bytes_received" "Bytes received";
    new_ent Single CMD_BYTES_SENT "bytes_sent" "Bytes sent";
    new_ent Single CMD_TIMESTAMP "time_start" "Start time";
    new_ent Single CMD_TIMESTAMP_END "time_end" "End time" ].

(* cntr->ent[(uint8_t)ch], changed in place: the entry of that letter, if there
   is one.  /repo/src/cntr.c:55 and 252-310 *)
Fixpoint at_ent (ch : Z) (f : ent -> ent) (l : list ent) : list ent :=
  match l with
  | [] => []
  | e :: r => if e_cmd e =? ch then f e :: r else e :: at_ent ch f r
  end.
(* set_count_val() and what the others do: /repo/src/cntr.c:252-256 *)
Definition set_count (v : Z) (e : ent) : ent :=
  mkent (e_cmd e) (e_kind e) (e_field e) (e_label e) (u64 v) (e_changed e) (e_same e) (e_deleted e) (e_phase1 e).
(* /repo/src/cntr.c:258-262 *)
Definition set_changed (v : Z) (e : ent) : ent :=
  mkent (e_cmd e) (e_kind e) (e_field e) (e_label e) (e_count e) (u64 v) (e_same e) (e_deleted e) (e_phase1 e).
(* /repo/src/cntr.c:264-268 *)
Definition set_same (v : Z) (e : ent) : ent :=
  mkent (e_cmd e) (e_kind e) (e_field e) (e_label e) (e_count e) (e_changed e) (u64 v) (e_deleted e) (e_phase1 e).
(* /repo/src/cntr.c:270-274 *)
Definition set_deleted (v : Z) (e : ent) : ent :=
  mkent (e_cmd e) (e_kind e) (e_field e) (e_label e) (e_count e) (e_changed e) (e_same e) (u64 v) (e_phase1 e).
(* /repo/src/cntr.c:276-280 *)
Definition set_phase1 (v : Z) (e : ent) : ent :=
  mkent (e_cmd e) (e_kind e) (e_field e) (e_label e) (e_count e) (e_changed e) (e_same e) (e_deleted e) (u64 v).

(* incr_count_val(): /repo/src/cntr.c:282-286 *)
Definition incr_count_val (ch v : Z) := at_ent ch (fun e => set_count (e_count e + v) e).
(* incr_same_val(): /repo/src/cntr.c:288-292 *)
Definition incr_same_val (ch v : Z) := at_ent ch (fun e => set_same (e_same e + v) e).
(* incr_changed_val(): /repo/src/cntr.c:294-298 *)
Definition incr_changed_val (ch v : Z) := at_ent ch (fun e => set_changed (e_changed e + v) e).
(* incr_deleted_val(): /repo/src/cntr.c:300-304 *)
Definition incr_deleted_val (ch v : Z) := at_ent ch (fun e => set_deleted (e_deleted e + v) e).
(* incr_phase1_val(): /repo/src/cntr.c:306-310 *)
Definition incr_phase1_val (ch v : Z) := at_ent ch (fun e => set_phase1 (e_phase1 e + v) e).

(* cntr_add(): /repo/src/cntr.c:342-368.  What is printed on the way is left
   out.  The grand total entry exists after cntr_init(). *)
Definition cntr_add (ch : Z) (l : list ent) : list ent :=
  if ch =? CMD_FILE_CHANGED then
    incr_count_val CMD_GRAND_TOTAL 1
      (incr_changed_val CMD_GRAND_TOTAL 1 (incr_changed_val CMD_TOTAL 1 (incr_changed_val CMD_FILE 1 l)))
  else
    let l := incr_count_val ch 1 l in
    if (ch =? CMD_WARNING) || (ch =? CMD_MESSAGE) then l
    else incr_count_val CMD_GRAND_TOTAL 1 (incr_count_val CMD_TOTAL 1 l).
(* cntr_add_phase1(): /repo/src/cntr.c:370-383 *)
Definition cntr_add_phase1 (ch : Z) (l : list ent) : list ent :=
  incr_phase1_val CMD_GRAND_TOTAL 1 (incr_phase1_val ch 1 l).
(* cntr_add_same(): /repo/src/cntr.c:395-400 *)
Definition cntr_add_same (ch : Z) (l : list ent) : list ent :=
  incr_same_val CMD_GRAND_TOTAL 1 (incr_same_val CMD_TOTAL 1 (incr_same_val ch 1 l)).
(* cntr_add_changed(): /repo/src/cntr.c:409-414 *)
Definition cntr_add_changed (ch : Z) (l : list ent) : list ent :=
  incr_changed_val CMD_GRAND_TOTAL 1 (incr_changed_val CMD_TOTAL 1 (incr_changed_val ch 1 l)).
(* cntr_add_deleted(): /repo/src/cntr.c:423-428 *)
Definition cntr_add_deleted (ch : Z) (l : list ent) : list ent :=
  incr_deleted_val CMD_GRAND_TOTAL 1 (incr_deleted_val CMD_TOTAL 1 (incr_deleted_val ch 1 l)).

(* The calls that change counters.  OVal is cntr_add_val(), cntr_add_bytes():
   /repo/src/cntr.c:385-388, 430-433; OSet is cntr_set_bytes(): 435-451 *)
Inductive op := OAdd (ch : Z) | OSame (ch : Z) | OChanged (ch : Z) | ODeleted (ch : Z) | OPhase1 (ch : Z)
  | OVal (ch v : Z) | OSet (sent rcvd : Z).
(* One call: /repo/src/cntr.c:342-451 *)
Definition step (l : list ent) (o : op) : list ent :=
  match o with
  | OAdd ch => cntr_add ch l
  | OSame ch => cntr_add_same ch l
  | OChanged ch => cntr_add_changed ch l
  | ODeleted ch => cntr_add_deleted ch l
  | OPhase1 ch => cntr_add_phase1 ch l
  | OVal ch v => incr_count_val ch v l
  | OSet s r => at_ent CMD_BYTES_RECV (set_count r) (at_ent CMD_BYTES_SENT (set_count s) l)
  end.
(* The counters after some calls: /repo/src/cntr.c:97-168 and 342-451.  start is
   the time cntr_init() notes at line 159. *)
Definition run (start : Z) (os : list op) : list ent :=
  fold_left step os (at_ent CMD_TIMESTAMP (set_count start) table).

(* ---------- the line of text ---------- *)

(* PRIu64: /repo/src/cntr.c:703-715 *)
Definition fmt_u (n : Z) : bytes := dec_digits 20 (u64 n) [].
(* %d of an int: /repo/src/cntr.c:697-699 *)
Definition fmt_d (n : Z) : bytes := if n <? 0 then 45 :: fmt_u (- n) else fmt_u n.
(* snprintf() into n bytes: at most n-1 characters.  /repo/src/cntr.c:697-720 *)
Definition cap (n : Z) (s : bytes) : bytes := firstn (Z.to_nat (n - 1)) s.

(* CNTR_VERSION, CNTR_PATH_BUF_LEN: /repo/src/cntr.c:21-22 *)
Definition CNTR_VERSION : Z := 3.
Definition CNTR_PATH_BUF_LEN : Z := 256.

(* calc_max_str_len(): /repo/src/cntr.c:65-95.  22 is the length of the string
   with the largest number, made at lines 77-78. *)
Definition ent_len (e : ent) : Z := match e_kind e with Single => 22 + 2 | _ => 22 * 5 + 6 end.
(* /repo/src/cntr.c:65-95 *)
Definition calc_max_str_len (l : list ent) (cname : bytes) : Z :=
  Z.of_nat (List.length cname) + 32 + fold_right (fun e n => ent_len e + n) 0 l + (CNTR_PATH_BUF_LEN + 3) + 1.

(* What a child knows beside its counters: cname, pid, bno, cntr_status.
   /repo/src/cntr.h:79-85 *)
Record head := mkhead { h_cname : bytes; h_pid : Z; h_bno : Z; h_status : Z }.

(* One entry in tmp[]: /repo/src/cntr.c:701-717 *)
Definition ent_text (e : ent) : bytes :=
  cap (CNTR_PATH_BUF_LEN + 3)
   (match e_kind e with
    | Single => e_cmd e :: fmt_u (e_count e) ++ [9]
    | _ => e_cmd e :: fmt_u (e_count e) ++ slash :: fmt_u (e_changed e) ++ slash :: fmt_u (e_same e)
             ++ slash :: fmt_u (e_deleted e) ++ slash :: fmt_u (e_phase1 e) ++ [9]
    end).
(* The beginning of the line: /repo/src/cntr.c:697-699 *)
Definition head_text (h : head) : bytes :=
  str "cntr" ++ 9 :: h_cname h ++ dot :: fmt_d (h_pid h) ++ dot :: fmt_d (h_bno h)
    ++ 9 :: fmt_d CNTR_VERSION ++ 9 :: fmt_d (h_status h) ++ [9].
(* The end of the line: /repo/src/cntr.c:719-721 *)
Definition path_text (path : bytes) : bytes := cap (CNTR_PATH_BUF_LEN + 3) (CMD_DATAPTH :: path ++ [9; 10]).

(* cntr_to_str(): /repo/src/cntr.c:689-724.  now is time(NULL); the result are
   the new counters and the string, which strcat() makes as long as it comes. *)
Definition cntr_to_str (now : Z) (h : head) (l : list ent) (path : bytes) : list ent * bytes :=
  let l := at_ent CMD_TIMESTAMP_END (set_count now) l in                       (* 695 *)
  (l, cap (calc_max_str_len l (h_cname h) - 1) (head_text h) ++ flat_map ent_text l ++ path_text path).

(* strtok() with the separators tab and newline: /repo/src/cntr.c:807, 864-896.
   cur holds the token being read, backwards. *)
Definition is_sep (c : Z) : bool := (c =? 9) || (c =? 10).
(* /repo/src/cntr.c:807, 864-896 *)
Fixpoint toks (s cur : bytes) : list bytes :=
  match s with
  | [] => match cur with [] => [] | _ => [rev cur] end
  | c :: r => if is_sep c then match cur with [] => toks r [] | _ => rev cur :: toks r [] end
              else toks r (c :: cur)
  end.

(* The pieces between slashes, as the calls of strchr() find them:
   /repo/src/cntr.c:739-761 *)
Fixpoint split_on (x : Z) (s cur : bytes) : list bytes :=
  match s with
  | [] => [rev cur]
  | c :: r => if c =? x then rev cur :: split_on x r [] else split_on x r (c :: cur)
  end.
(* extract_ul(): /repo/src/cntr.c:727-768 *)
Definition extract_ul (v : bytes) (e : ent) : ent :=
  match split_on slash v [] with
  | [] => e
  | [a] => set_count (strtoul10 a) e                                           (* 762-766 *)
  | a :: b :: r =>
    let e := set_count (strtoul10 a) e in                                      (* 743 *)
    match r with
    | [] => e
    | c :: r =>
      let e := set_changed (strtoul10 b) e in                                  (* 747 *)
      match r with
      | [] => e
      | d :: r =>
        let e := set_same (strtoul10 c) e in                                   (* 751 *)
        match r with
        | [] => e
        | x :: _ => set_phase1 (strtoul10 x) (set_deleted (strtoul10 d) e)     (* 754-757 *)
        end
      end
    end
  end.

(* extract_cntrs(): /repo/src/cntr.c:804-825.  The second component is the path,
   None when none came. *)
Fixpoint extract_cntrs (ts : list bytes) (l : list ent) (p : option bytes) : list ent * option bytes :=
  match ts with
  | [] => (l, p)
  | t :: r => if hd0 t =? CMD_DATAPTH then extract_cntrs r l (Some (tl t))     (* 811-815 *)
              else extract_cntrs r (at_ent (hd0 t) (extract_ul (tl t)) l) p    (* 816-821 *)
  end.

(* strrchr(s, x): what is before and behind the last one.  /repo/src/cntr.c:841, 846 *)
Fixpoint last_split (x : Z) (s : bytes) : option (bytes * bytes) :=
  match s with
  | [] => None
  | c :: r => match last_split x r with
              | Some (a, b) => Some (c :: a, b)
              | None => if c =? x then Some ([], r) else None
              end
  end.
(* extract_client_pid_bno(): /repo/src/cntr.c:827-853, called with a name that
   holds no tab.  pid and bno keep what they were set to before when there is no dot. *)
Definition extract_client_pid_bno (buf : bytes) (pid bno : Z) : bytes * Z * Z :=
  match last_split dot buf with
  | None => (buf, pid, bno)
  | Some (a, b) =>
    match last_split dot a with
    | None => (a, pid, atoi b)
    | Some (n, p) => (n, atoi p, atoi b)
    end
  end.

(* What str_to_cntr() makes of a line: -1 and 0 as return values, the pid, bno
   and status it found, the counters and the path.  /repo/src/cntr.c:855-911 *)
Record parsed := mkparsed { p_ret : Z; p_name : bytes; p_pid : Z; p_bno : Z; p_status : Z;
  p_ents : list ent; p_path : option bytes }.
(* str_to_cntr(): /repo/src/cntr.c:855-911.  The cntr to be filled holds l and
   the status st0; pid and bno of it are given as pid0 and bno0. *)
Definition str_to_cntr (s : bytes) (pid0 bno0 st0 : Z) (l : list ent) : parsed :=
  match toks s [] with
  | [] => mkparsed 0 [] pid0 bno0 st0 l None                                    (* 864 *)
  | _ :: [] => mkparsed (-1) [] pid0 bno0 st0 l None                            (* 872-877 *)
  | _ :: id :: r =>
    let '(n, pid, bno) := extract_client_pid_bno id (-1) 0 in                   (* 866-882 *)
    match r with
    | [] => mkparsed (-1) n pid bno st0 l None                                  (* 884-889 *)
    | v :: r =>
      if negb (atoi v =? CNTR_VERSION) then mkparsed 0 n pid bno st0 l None     (* 890-894 *)
      else match r with
           | [] => mkparsed (-1) n pid bno st0 l None                           (* 896-901 *)
           | st :: r => let '(l, p) := extract_cntrs r l None in                (* 902-904 *)
                        mkparsed 0 n pid bno (atoi st) l p
           end
    end
  end.

(* ---------- statistics ---------- *)

(* A row of the statistics: name, type and the numbers by name.  The uint64_t is
   given to yajl as a long long: /repo/src/server/monitor/json_output.c:168-216 *)
Definition s64 (x : Z) : Z := let m := u64 x in if m <? 2 ^ 63 then m else m - 2 ^ 64.
(* One entry in do_counters(): /repo/src/server/monitor/json_output.c:178-210 *)
Record row := mkrow { r_name : bytes; r_type : Z; r_vals : list (bytes * Z) }.
(* /repo/src/server/monitor/json_output.c:178-210 *)
Definition row_of (e : ent) : option row :=
  match e_kind e with
  | Single => if e_count e =? 0 then None
              else Some (mkrow (e_field e) (e_cmd e) [(str "count", s64 (e_count e))])
  | Tab => if (e_count e =? 0) && (e_changed e =? 0) && (e_same e =? 0) && (e_deleted e =? 0) && (e_phase1 e =? 0)
           then None
           else Some (mkrow (e_field e) (e_cmd e)
             [(str "count", s64 (e_count e)); (str "changed", s64 (e_changed e)); (str "same", s64 (e_same e));
              (str "deleted", s64 (e_deleted e)); (str "scanned", s64 (e_phase1 e))])
  | Plain => None
  end.
(* do_counters(): /repo/src/server/monitor/json_output.c:168-216 *)
Definition do_counters (now : Z) (l : list ent) : list row :=
  flat_map (fun e => match row_of e with Some r => [r] | None => [] end) (at_ent CMD_TIMESTAMP_END (set_count now) l).

(* quint_print() for a backup: label, the five columns before the bar and the one
   behind it.  /repo/src/cntr.c:453-498; the two lines for the other actions and
   the padding are left out. *)
Definition quint_print (e : ent) : option (bytes * list Z) :=
  match e_kind e with
  | Tab => if (e_phase1 e =? 0) && (e_count e =? 0) && (e_changed e =? 0) && (e_same e =? 0) then None
           else Some (e_label e, [e_count e; e_changed e; e_same e; e_deleted e;
                        u64 (e_count e + e_changed e + e_same e); e_phase1 e])
  | _ => None
  end.
(* The table printed by cntr_print(): /repo/src/cntr.c:586-587 *)
Definition print_table (l : list ent) : list (bytes * list Z) :=
  flat_map (fun e => match quint_print e with Some r => [r] | None => [] end) l.

(* (float)counter: 24 significant bits, to nearest, ties to even.
   /repo/src/cntr.c:209 *)
Definition to_float (n : Z) : Z :=
  if n <? 2 ^ 24 then n
  else let e := Z.log2 n - 23 in
       let q := n / 2 ^ e in
       let r := n mod 2 ^ e in
       let up := (2 ^ (e - 1) <? r) || ((r =? 2 ^ (e - 1)) && Z.odd q) in
       (if up then q + 1 else q) * 2 ^ e.
(* bytes_to_human(): /repo/src/cntr.c:206-231.  The unit, and the number before
   it as a fraction, to be printed with two decimals; dividing a float by 1024
   is exact.  None for the empty string. *)
Definition bytes_to_human (counter : Z) : option (Z * Z * bytes) :=
  let d := to_float counter in
  if d <? 1024 then None
  else if d <? 1024 * 1024 then Some (d, 1024, str "KB")
  else if d <? 1024 * 1024 ^ 2 then Some (d, 1024 ^ 2, str "MB")
  else if d <? 1024 * 1024 ^ 3 then Some (d, 1024 ^ 3, str "GB")
  else if d <? 1024 * 1024 ^ 4 then Some (d, 1024 ^ 4, str "TB")
  else if d <? 1024 * 1024 ^ 5 then Some (d, 1024 ^ 5, str "EB")
  else Some (d, 1024 ^ 6, str "PB").

(* cntr_status_to_str(): /repo/src/cntr.c:1036-1051 *)
Definition status_names : list (Z * bytes) :=
  [(1, str "scanning"); (2, str "backup"); (3, str "merging"); (4, str "shuffling"); (5, str "listing");
   (6, str "restoring"); (7, str "verifying"); (8, str "deleting"); (9, str "diffing")].
(* /repo/src/cntr.c:1036-1051 *)
Definition status_to_str (s : Z) : bytes :=
  match find (fun p => fst p =? s) status_names with Some p => snd p | None => str "unknown" end.
(* cntr_str_to_status(): /repo/src/cntr.c:1053-1074 *)
Definition str_to_status (s : bytes) : Z :=
  match find (fun p => beqb (snd p) s) status_names with Some p => fst p | None => 0 end.
(* check_fail_on_warning(): /repo/src/cntr.c:1100-1107.  0 for going on. *)
Definition check_fail_on_warning (on : bool) (l : list ent) : Z :=
  match find (fun e => e_cmd e =? CMD_WARNING) l with
  | Some e => if negb on || (e_count e =? 0) then 0 else -1
  | None => 0
  end.
