(* Answers of the status server on their way to the monitor: the calls by which the server writes them
   (/repo/src/server/monitor/json_output.c) and what the client makes of them
   (/repo/src/client/monitor/json_input.c). *)
From Coq Require Import ZArith List Bool.
From Verif Require Import Bytes DpthModel BuModel CmdModel CntrModel CstatModel MonModel JsonModel.
Import ListNotations.
Open Scope Z_scope.

(* ---------- the server ---------- *)

(* run_status_to_str(): /repo/src/cstat.c:116-127 *)
Definition run_name (r : runst) : bytes :=
  match r with RIdle => str "idle" | RRunning => str "running" | RUnset => str "unknown" end.
(* run_str_to_status(): /repo/src/cstat.c:129-136 *)
Definition run_of (b : bytes) : runst :=
  if beqb b (str "idle") then RIdle else if beqb b (str "running") then RRunning else RUnset.
(* cntr_status_to_action_str(): /repo/src/cntr.c:1076-1098 *)
Definition action_str (z : Z) : bytes :=
  if (1 <=? z) && (z <=? 4) then str "backup"
  else if z =? 5 then str "list" else if z =? 6 then str "restore" else if z =? 7 then str "verify"
  else if z =? 8 then str "delete" else if z =? 9 then str "diff" else str "unknown".
(* The names of all flags: /repo/src/server/monitor/json_output.c:233-238,257-262 *)
Definition flag_name (f : flag) : bytes :=
  match f with
  | FHardlinked => str "hardlinked" | FDeletable => str "deletable" | FWorking => str "working"
  | FFinishing => str "finishing" | FCurrent => str "current" | FManifest => str "manifest"
  | f => log_name f
  end.

(* yajl_gen_str_pair_w(), yajl_gen_int_pair_w(): /repo/src/yajl_gen_w.c:37-49 *)
Definition spair (k v : bytes) : list gop := [OStr k; OStr v].
(* /repo/src/yajl_gen_w.c:44-49 *)
Definition ipair (k : bytes) (v : Z) : list gop := [OStr k; OInt v].
(* A key and an array: e.g. /repo/src/server/monitor/json_output.c:176-177,213 *)
Definition arr (k : bytes) (l : list gop) : list gop := OStr k :: OArrO :: l ++ [OArrC].
(* A row of do_counters(): /repo/src/server/monitor/json_output.c:183-209 *)
Definition row_calls (r : row) : list gop :=
  OMapO :: spair (str "name") (r_name r) ++ spair (str "type") [r_type r] ++
  flat_map (fun p => ipair (fst p) (snd p)) (r_vals r) ++ [OMapC].
(* do_counters(): /repo/src/server/monitor/json_output.c:168-216 *)
Definition counters_calls (l : list row) : list gop := arr (str "counters") (flat_map row_calls l).
(* flag_wrap_str() for some flags: /repo/src/server/monitor/json_output.c:100-104,233-238,257-262 *)
Definition flag_calls (l : list flag) : list gop := map (fun f => OStr (flag_name f)) l.
(* flag_wrap_str_zp(): /repo/src/server/monitor/json_output.c:139-166.  yajl_gen_str_w() stops at a NUL; lines do not
   have one, see fzp_gets(). *)
Definition log_calls (l : option (flag * list bytes)) : list gop :=
  match l with None => [] | Some (f, ls) => arr (flag_name f) (map OStr ls) end.
(* json_send_backup(): /repo/src/server/monitor/json_output.c:218-301.  Browsing is left out. *)
Definition backup_calls (b : obu) : list gop :=
  OMapO :: ipair (str "number") (s64 (o_bno b)) ++ ipair (str "timestamp") (s64 (o_time b)) ++
  arr (str "flags") (flag_calls (o_flags b)) ++
  match o_counters b with None => [] | Some l => counters_calls l end ++
  match o_logs b with
  | None => []
  | Some l => OStr (str "logs") :: OMapO :: arr (str "list") (flag_calls l) ++ log_calls (o_log b) ++ [OMapC]
  end ++ [OMapC].
(* str_array(): /repo/src/server/monitor/json_output.c:303-316 *)
Definition label_calls (l : list bytes) : list gop :=
  match l with [] => [] | _ => arr (str "labels") (map OStr l) end.
(* One child in do_children(): /repo/src/server/monitor/json_output.c:326-335 *)
Definition child_calls (h : och) : list gop :=
  OMapO :: ipair (str "pid") (och_pid h) ++ ipair (str "backup") (och_bno h) ++
  spair (str "action") (action_str (och_status h)) ++ spair (str "phase") (status_to_str (och_status h)) ++
  counters_calls (och_counters h) ++ [OMapC].
(* do_children(), which is called when there are any: /repo/src/server/monitor/json_output.c:318-340,357-358 *)
Definition children_calls (l : list och) : list gop :=
  match l with [] => [] | _ => arr (str "children") (flat_map child_calls l) end.
(* json_send_client_start(), the backups, json_send_client_end(): /repo/src/server/monitor/json_output.c:342-418 *)
Definition client_calls (c : ocl) : list gop :=
  OMapO :: spair (str "name") (o_name c) ++ label_calls (o_labels c) ++ spair (str "run_status") (run_name (o_run c)) ++
  ipair (str "protocol") 1 ++ children_calls (o_children c) ++
  match o_phase c with None => [] | Some z => spair (str "phase") (status_to_str z) end ++
  arr (str "backups") (flat_map backup_calls (o_backups c)) ++ [OMapC].
(* json_send(): /repo/src/server/monitor/json_output.c:55-93,420-458 *)
Definition clients_calls (l : list ocl) : list gop :=
  OMapO :: arr (str "clients") (flat_map client_calls l) ++ [OMapC].
(* json_send_msg(): /repo/src/server/monitor/json_output.c:493-510 *)
Definition message_calls (field msg : bytes) : list gop := OMapO :: spair field msg ++ [OMapC].

(* ---------- the client ---------- *)

(* The bits of flags: /repo/src/bu.h:4-18 *)
Definition bit (f : flag) : Z :=
  match f with
  | FHardlinked => 1 | FDeletable => 2 | FWorking => 4 | FFinishing => 8 | FCurrent => 16 | FManifest => 64
  | FLogBackup => 128 | FLogRestore => 256 | FLogVerify => 512
  | FStatsBackup => 1024 | FStatsRestore => 2048 | FStatsVerify => 4096
  end.
(* BU_LIVE_COUNTERS: /repo/src/bu.h:9 *)
Definition live_bit : Z := 32.

(* struct cntr of the client: /repo/src/cntr.h:61-88 *)
Record vcn := mkvcn { vn_pid : Z; vn_bno : Z; vn_phase : Z; vn_ents : list ent }.
(* struct bu of the client: /repo/src/bu.h:23-42 *)
Record vbu := mkvbu { vb_no : Z; vb_flags : Z; vb_time : option bytes }.
(* struct cstat of the client: /repo/src/cstat.h:17-39 *)
Record vcl := mkvcl { vc_name : bytes; vc_run : runst; vc_cntrs : list vcn; vc_bu : list vbu }.
(* /repo/src/cstat.h:17-39 *)
Definition set_vrun (r : runst) (c : vcl) : vcl := mkvcl (vc_name c) r (vc_cntrs c) (vc_bu c).
(* /repo/src/cstat.h:17-39 *)
Definition set_vcntrs (l : list vcn) (c : vcl) : vcl := mkvcl (vc_name c) (vc_run c) l (vc_bu c).
(* /repo/src/cstat.h:17-39 *)
Definition set_vbu (l : list vbu) (c : vcl) : vcl := mkvcl (vc_name c) (vc_run c) (vc_cntrs c) l.

(* current: NULL, cnew, or the entry of that name in the list.  /repo/src/client/monitor/json_input.c:28-30,162-176 *)
Inductive cur := UNone | UNew | UOld (n : bytes).
(* cntr_ent: NULL, the entry of a letter in the first counters of current, or an entry of counters that were current
   before an array of counters began, which may have been freed: /repo/src/client/monitor/json_input.c:31,154 *)
Inductive entp := ENull | EAt (c : Z) | EStale.

(* map_depth, lastkey, in_backups, in_flags, in_counters, in_logslist, in_log_content:
   /repo/src/client/monitor/json_input.c:21,32-37 *)
Record ctl := mkctl { t_depth : Z; t_key : bytes; t_b : bool; t_f : bool; t_c : bool; t_l : bool; t_g : bool }.
(* number, timestamp, flags, bu_list: /repo/src/client/monitor/json_input.c:25-27,274 *)
Record acc := mkacc { a_number : Z; a_time : option bytes; a_flags : Z; a_list : list vbu }.
(* current, cnew, the list: /repo/src/client/monitor/json_input.c:28-30 *)
Record who := mkwho { h_cur : cur; h_new : option vcl; h_all : list vcl }.
(* pid, bno, phase, cntr_ent: /repo/src/client/monitor/json_input.c:31,46-48 *)
Record cnt := mkcnt { c_pid : Z; c_bno : Z; c_phase : Z; c_ent : entp }.
(* ll_list, jsll_list, warning_list, sel->llines: /repo/src/client/monitor/json_input.c:40-45 *)
Record outp := mkoutp { x_ll : list bytes; x_log : list bytes; x_warn : list bytes; x_lines : list bytes }.
(* All of it: /repo/src/client/monitor/json_input.c:21-48.  The selected backup of the screen is left out. *)
Record jst := mkj { j_t : ctl; j_a : acc; j_h : who; j_c : cnt; j_x : outp }.
(* As the program starts: /repo/src/client/monitor/json_input.c:21-48 *)
Definition jst0 (l : list vcl) : jst :=
  mkj (mkctl 0 [] false false false false false) (mkacc 0 None 0 []) (mkwho UNone None l) (mkcnt (-1) 0 0 ENull)
      (mkoutp [] [] [] []).

(* What a callback does: 1, 0, or undefined behaviour (a NULL pointer followed, a write beyond lastkey[]) *)
Inductive cbr := COk (s : jst) | CStop | CUndef.

(* /repo/src/client/monitor/json_input.c:21-48 *)
Definition set_t (t : ctl) (s : jst) : jst := mkj t (j_a s) (j_h s) (j_c s) (j_x s).
(* /repo/src/client/monitor/json_input.c:21-48 *)
Definition set_a (a : acc) (s : jst) : jst := mkj (j_t s) a (j_h s) (j_c s) (j_x s).
(* /repo/src/client/monitor/json_input.c:21-48 *)
Definition set_h (h : who) (s : jst) : jst := mkj (j_t s) (j_a s) h (j_c s) (j_x s).
(* /repo/src/client/monitor/json_input.c:21-48 *)
Definition set_c (c : cnt) (s : jst) : jst := mkj (j_t s) (j_a s) (j_h s) c (j_x s).
(* /repo/src/client/monitor/json_input.c:21-48 *)
Definition set_x (x : outp) (s : jst) : jst := mkj (j_t s) (j_a s) (j_h s) (j_c s) x.

(* *current: /repo/src/client/monitor/json_input.c:29; the list is searched as by cstat_get_by_name(),
   /repo/src/cstat.c:138-143 *)
Definition get_cur (h : who) : option vcl :=
  match h_cur h with
  | UNone => None
  | UNew => h_new h
  | UOld n => find (fun c => beqb (vc_name c) n) (h_all h)
  end.
(* The first entry of a name, changed in place: /repo/src/cstat.c:138-143 *)
Fixpoint at_name (n : bytes) (f : vcl -> vcl) (l : list vcl) : list vcl :=
  match l with [] => [] | c :: r => if beqb (vc_name c) n then f c :: r else c :: at_name n f r end.
(* *current, changed in place: /repo/src/client/monitor/json_input.c:29 *)
Definition upd_cur (f : vcl -> vcl) (h : who) : who :=
  match h_cur h with
  | UNone => h
  | UNew => mkwho (h_cur h) (option_map f (h_new h)) (h_all h)
  | UOld n => mkwho (h_cur h) (h_new h) (at_name n f (h_all h))
  end.
(* Up to a NUL: snprintf() at /repo/src/client/monitor/json_input.c:141,268 *)
Fixpoint cut0 (s : bytes) : bytes := match s with [] => [] | c :: r => if c =? 0 then [] else c :: cut0 r end.
(* Between the elements of a backup: /repo/src/client/monitor/json_input.c:105,316,477 *)
Definition in_bu (t : ctl) : bool := t_b t && negb (t_f t) && negb (t_c t) && negb (t_l t).

(* add_to_bu_list(): /repo/src/client/monitor/json_input.c:276-303 *)
Definition add_bu (a : acc) : acc :=
  if a_number a =? 0 then a
  else mkacc 0 None 0 (a_list a ++ [mkvbu (a_number a) (a_flags a) (a_time a)]).

(* Looking for a backup in the new list and taking it out: /repo/src/client/monitor/json_input.c:378-406 *)
Fixpoint take_no (n : Z) (l : list vbu) : option (vbu * list vbu) :=
  match l with
  | [] => None
  | b :: r => if n =? vb_no b then Some (b, r)
              else match take_no n r with Some (x, r') => Some (x, b :: r') | None => None end
  end.
(* The first loop of merge_bu_lists(): /repo/src/client/monitor/json_input.c:374-429.  [first]: lasto is NULL; then
   removing sets o to NULL, which ends the loop (425-428). *)
Fixpoint walk (first : bool) (old new : list vbu) : list vbu * list vbu :=
  match old with
  | [] => ([], new)
  | o :: r =>
    match take_no (vb_no o) new with
    | Some (n, new') =>
      let '(k, rest) := walk false r new' in (mkvbu (vb_no o) (vb_flags n) (vb_time n) :: k, rest)
    | None => if first then (r, new) else walk false r new
    end
  end.
(* Putting one in: /repo/src/client/monitor/json_input.c:436-457 *)
Fixpoint put_in (n : vbu) (l : list vbu) : list vbu :=
  match l with
  | [] => [n]
  | o :: r => if vb_no n <? vb_no o then o :: put_in n r else n :: l
  end.
(* merge_bu_lists(): /repo/src/client/monitor/json_input.c:367-459.  Links backwards are left out. *)
Definition merge_bu (old new : list vbu) : list vbu :=
  let '(k, rest) := walk true old new in fold_left (fun l n => put_in n l) rest k.
(* update_live_counter_flag(): /repo/src/client/monitor/json_input.c:461-473 *)
Definition mark_live (cs : list vcn) (l : list vbu) : list vbu :=
  map (fun b => if existsb (fun c => vb_no b =? u64 (vn_bno c)) cs
                then mkvbu (vb_no b) (Z.lor (vb_flags b) live_bit) (vb_time b) else b) l.
(* cstat_add_to_list(): /repo/src/cstat.c:68-94 *)
Fixpoint add_cl (c : vcl) (l : list vcl) : list vcl :=
  match l with
  | [] => [c]
  | x :: r => match strcmp (vc_name c) (vc_name x) with Lt => c :: l | _ => x :: add_cl c r end
  end.

(* The keys of log contents: /repo/src/client/monitor/json_input.c:236-241,355-360 *)
Definition log_key (k : bytes) : bool := existsb (fun f => beqb k (log_name f)) log_flags.
(* is_wrap() in a row: /repo/src/client/monitor/json_input.c:50-58,203-208,217-222 *)
Definition is_wrap (s : bytes) (l : list flag) (a : acc) : option acc :=
  match find (fun f => beqb s (flag_name f)) l with
  | Some f => Some (mkacc (a_number a) (a_time a) (Z.lor (a_flags a) (bit f)) (a_list a))
  | None => None
  end.

Section Jin.
(* getdatestr(): /repo/src/client/monitor/json_input.c:118 *)
Variable date : Z -> bytes.
(* time() when counters are made, the same each time here: /repo/src/cntr.c:159 *)
Variable now : Z.

(* cntr_alloc(), cntr_init() on the client: /repo/src/cntr.c:97-168 *)
Definition new_vcn (pid : Z) : vcn := mkvcn pid 0 0 (at_ent CMD_TIMESTAMP (set_count now) table).

(* Setting a number of a counter: /repo/src/client/monitor/json_input.c:74-103 *)
Definition set_ent (f : ent -> ent) (s : jst) : cbr :=
  match c_ent (j_c s) with
  | ENull => CStop
  | EStale => CUndef
  | EAt c =>
    COk (set_h (upd_cur (fun x => set_vcntrs
      match vc_cntrs x with
      | [] => []
      | n :: r => mkvcn (vn_pid n) (vn_bno n) (vn_phase n) (at_ent c f (vn_ents n)) :: r
      end x) (j_h s)) s)
  end.

(* input_integer(): /repo/src/client/monitor/json_input.c:60-133 *)
Definition input_integer (z : Z) (s : jst) : cbr :=
  let k := t_key (j_t s) in
  if beqb k (str "pid") then COk (set_c (mkcnt (s32 z) (c_bno (j_c s)) (c_phase (j_c s)) (c_ent (j_c s))) s)
  else if beqb k (str "backup") then COk (set_c (mkcnt (c_pid (j_c s)) (s32 z) (c_phase (j_c s)) (c_ent (j_c s))) s)
  else if t_c (j_t s) then
    if beqb k (str "count") then set_ent (set_count z) s
    else if beqb k (str "changed") then set_ent (set_changed z) s
    else if beqb k (str "same") then set_ent (set_same z) s
    else if beqb k (str "deleted") then set_ent (set_deleted z) s
    else if beqb k (str "scanned") then set_ent (set_phase1 z) s
    else CStop
  else if in_bu (j_t s) then
    match get_cur (j_h s) with
    | None => CStop
    | Some _ =>
      let a := j_a s in
      if beqb k (str "number") then COk (set_a (mkacc (u64 z) (a_time a) (a_flags a) (a_list a)) s)
      else if beqb k (str "timestamp") then COk (set_a (mkacc (a_number a) (Some (date z)) (a_flags a) (a_list a)) s)
      else CStop
    end
  else if beqb k (str "protocol") then COk s
  else CStop.

(* Where current must not be NULL: e.g. /repo/src/client/monitor/json_input.c:180 *)
Definition need_cur (s : jst) (r : cbr) : cbr := match get_cur (j_h s) with Some _ => r | None => CStop end.

(* "type": /repo/src/client/monitor/json_input.c:151-155 *)
Definition input_type (v : bytes) (s : jst) : cbr :=
  match get_cur (j_h s) with
  | None => CStop
  | Some c =>
    match vc_cntrs c with
    | [] => CStop
    | n :: _ =>
      COk (set_c (mkcnt (c_pid (j_c s)) (c_bno (j_c s)) (c_phase (j_c s))
        (if existsb (fun e => e_cmd e =? hd0 v) (vn_ents n) then EAt (hd0 v) else ENull)) s)
    end
  end.
(* "name" outside of counters: /repo/src/client/monitor/json_input.c:162-177 *)
Definition input_name (v : bytes) (s : jst) : cbr :=
  let h := j_h s in
  match h_new h with
  | Some _ => CStop
  | None =>
    COk (set_h
      match find (fun c => beqb (vc_name c) v) (h_all h) with
      | Some _ => mkwho (UOld v) None (at_name v (set_vcntrs []) (h_all h))
      | None => mkwho UNew (Some (mkvcl v RUnset [] [])) (h_all h)
      end s)
  end.
(* /repo/src/client/monitor/json_input.c:203-209,217-223 *)
Definition input_flag (v : bytes) (l : list flag) (s : jst) : cbr :=
  match is_wrap v l (j_a s) with Some a => COk (set_a a s) | None => CStop end.

(* input_string(): /repo/src/client/monitor/json_input.c:135-263.  Memory is to be had. *)
Definition input_string (b : bytes) (s : jst) : cbr :=
  let v := cut0 b in
  let k := t_key (j_t s) in
  let x := j_x s in
  if t_c (j_t s) then
    if beqb k (str "name") then COk s
    else if beqb k (str "type") then input_type v s
    else CStop
  else if beqb k (str "name") then input_name v s
  else if beqb k (str "labels") then need_cur s (COk s)
  else if beqb k (str "run_status") then need_cur s (COk (set_h (upd_cur (set_vrun (run_of v)) (j_h s)) s))
  else if beqb k (str "action") then COk s
  else if beqb k (str "phase") then
    need_cur s (COk (set_c (mkcnt (c_pid (j_c s)) (c_bno (j_c s)) (str_to_status v) (c_ent (j_c s))) s))
  else if beqb k (str "flags") then need_cur s (input_flag v some_flags s)
  else if beqb k (str "counters") then COk s
  else if beqb k (str "list") then input_flag v log_flags s
  else if beqb k (str "logs") then COk s
  else if beqb k (str "logline") then COk (set_x (mkoutp (x_ll x) (x_log x ++ [v]) (x_warn x) (x_lines x)) s)
  else if log_key k then COk (set_x (mkoutp (x_ll x ++ [v]) (x_log x) (x_warn x) (x_lines x)) s)
  else if beqb k (str "warning") then COk (set_x (mkoutp (x_ll x) (x_log x) (x_warn x ++ [v]) (x_lines x)) s)
  else CStop.

(* input_map_key(): /repo/src/client/monitor/json_input.c:265-272.  lastkey[len] is written, and lastkey has 32
   bytes (32). *)
Definition input_map_key (b : bytes) (s : jst) : cbr :=
  let t := j_t s in
  if (32 <=? List.length b)%nat then CUndef
  else COk (set_t (mkctl (t_depth t) (cut0 b) (t_b t) (t_f t) (t_c t) (t_l t) (t_g t)) s).
(* map_depth: /repo/src/client/monitor/json_input.c:307,314 *)
Definition deeper (d : Z) (s : jst) : jst :=
  let t := j_t s in set_t (mkctl (t_depth t + d) (t_key t) (t_b t) (t_f t) (t_c t) (t_l t) (t_g t)) s.
(* input_end_map(): /repo/src/client/monitor/json_input.c:312-321 *)
Definition input_end_map (s : jst) : cbr :=
  let s := deeper (-1) s in
  COk (if in_bu (j_t s) then set_a (add_bu (j_a s)) s else s).

(* The counters of that pid, or new ones at the head: /repo/src/client/monitor/json_input.c:337-348 *)
Fixpoint at_pid (pid bno phase : Z) (l : list vcn) : option (list vcn) :=
  match l with
  | [] => None
  | n :: r => if vn_pid n =? pid then Some (mkvcn (vn_pid n) bno phase (vn_ents n) :: r)
              else option_map (cons n) (at_pid pid bno phase r)
  end.
(* /repo/src/client/monitor/json_input.c:336-348 *)
Definition start_counters (c : cnt) (l : list vcn) : list vcn :=
  match at_pid (c_pid c) (c_bno c) (c_phase c) l with
  | Some l => l
  | None => mkvcn (c_pid c) (c_bno c) (c_phase c) (vn_ents (new_vcn (c_pid c))) :: l
  end.
(* input_start_array(): /repo/src/client/monitor/json_input.c:323-365 *)
Definition input_start_array (s : jst) : cbr :=
  let t := j_t s in
  let k := t_key t in
  if beqb k (str "backups") then COk (set_t (mkctl (t_depth t) k true (t_f t) (t_c t) (t_l t) (t_g t)) s)
  else if beqb k (str "flags") then COk (set_t (mkctl (t_depth t) k (t_b t) true (t_c t) (t_l t) (t_g t)) s)
  else if beqb k (str "counters") then
    match get_cur (j_h s) with
    | None => CUndef
    | Some _ =>
      let c := j_c s in
      COk (set_c (mkcnt (c_pid c) (c_bno c) (c_phase c) match c_ent c with ENull => ENull | _ => EStale end)
          (set_h (upd_cur (fun x => set_vcntrs (start_counters c (vc_cntrs x)) x) (j_h s))
          (set_t (mkctl (t_depth t) k (t_b t) (t_f t) true (t_l t) (t_g t)) s)))
    end
  else if beqb k (str "list") then COk (set_t (mkctl (t_depth t) k (t_b t) (t_f t) (t_c t) true (t_g t)) s)
  else if log_key k then COk (set_t (mkctl (t_depth t) k (t_b t) (t_f t) (t_c t) (t_l t) true) s)
  else COk s.
(* The end of the backups: /repo/src/client/monitor/json_input.c:477-494 *)
Definition end_backups (s : jst) : cbr :=
  let t := j_t s in
  match get_cur (j_h s) with
  | None => CUndef
  | Some _ =>
    let a := add_bu (j_a s) in
    let h := upd_cur (fun x => set_vbu (mark_live (vc_cntrs x) (merge_bu (vc_bu x) (a_list a))) x) (j_h s) in
    COk (set_h (mkwho UNone None match h_new h with Some c => add_cl c (h_all h) | None => h_all h end)
        (set_a (mkacc (a_number a) (a_time a) (a_flags a) [])
        (set_t (mkctl (t_depth t) (t_key t) false (t_f t) (t_c t) (t_l t) (t_g t)) s)))
  end.
(* input_end_array(): /repo/src/client/monitor/json_input.c:475-515 *)
Definition input_end_array (s : jst) : cbr :=
  let t := j_t s in
  let x := j_x s in
  if in_bu t then end_backups s
  else if t_f t then COk (set_t (mkctl (t_depth t) (t_key t) (t_b t) false (t_c t) (t_l t) (t_g t)) s)
  else if t_c t then COk (set_t (mkctl (t_depth t) (t_key t) (t_b t) (t_f t) false (t_l t) (t_g t)) s)
  else if t_l t then COk (set_t (mkctl (t_depth t) (t_key t) (t_b t) (t_f t) (t_c t) false (t_g t)) s)
  else if t_g t then
    COk (set_x (mkoutp [] (x_log x) (x_warn x) (x_ll x))
        (set_t (mkctl (t_depth t) (t_key t) (t_b t) (t_f t) (t_c t) (t_l t) false) s))
  else COk s.

(* callbacks: /repo/src/client/monitor/json_input.c:517-529 *)
Definition cb (e : jev) (s : jst) : cbr :=
  match e with
  | EKey b => input_map_key b s
  | EStr b => input_string b s
  | EInt z => input_integer z s
  | EMapO => COk (deeper 1 s)
  | EMapC => input_end_map s
  | EArrO => input_start_array s
  | EArrC => input_end_array s
  end.
(* The callbacks in turn; one that returns 0 ends the parse: /repo/src/yajl/yajl_parser.c:147-154 *)
Fixpoint cbs (es : list jev) (s : jst) : cbr :=
  match es with
  | [] => COk s
  | e :: r => match cb e s with COk s => cbs r s | x => x end
  end.

(* The handle of the parser between pieces, None when there is none: /repo/src/client/monitor/json_input.c:540 *)
Definition handle : Type := option (list pst * bytes).
(* What json_input() returns, or undefined behaviour: /repo/src/client/monitor/json_input.c:580-581 *)
Inductive jret := JMore (h : handle) (s : jst) | JEnd (warn : bool) (s : jst) | JError | JUndef.
(* json_input() of one piece: /repo/src/client/monitor/json_input.c:582-618 *)
Definition json_input (h : handle) (s : jst) (piece : bytes) : jret :=
  let '(stk, keep) := match h with Some x => x | None => ([PStart], []) end in
  let '(es, x) := parse stk (keep ++ piece) in
  match cbs es s with
  | CStop => JError
  | CUndef => JUndef
  | COk s =>
    match x with
    | PErr => JError
    | PUndef => JUndef
    | POk stk keep =>
      if t_depth (j_t s) =? 0 then
        let '(es, ok) := finish stk keep in
        match cbs es s with
        | CStop => JError
        | CUndef => JUndef
        | COk s => if ok then JEnd match x_warn (j_x s) with [] => false | _ => true end s else JError
        end
      else JMore (Some (stk, keep)) s
    end
  end.
(* Piece after piece until there is an end or an error: /repo/src/client/monitor/status_client_ncurses.c:1303-1325,
   /repo/src/cntr.c:990-1002.  Also what is left of the pieces. *)
Fixpoint input_all (h : handle) (s : jst) (cs : list bytes) : jret * list bytes :=
  match cs with
  | [] => (JMore h s, [])
  | c :: r => match json_input h s c with JMore h s => input_all h s r | x => (x, r) end
  end.
End Jin.
