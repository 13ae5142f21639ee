(* The main process of the server (/repo/src/server/main.c): which connections get a child process, how the
   children are counted and forgotten, what the children report and how the server comes to an end. *)
From Coq Require Import ZArith List Bool.
From Verif Require Import Bytes CntrModel MonModel.
Import ListNotations.
Open Scope Z_scope.

(* /repo/src/asfd.h:26-33 (enum asfd_fdtype): the four kinds of descriptor on the list of the main process. *)
Inductive fdk : Type := LMain | LStatus | PRead | PWrite.

(* /repo/src/asfd.h:43-125 (struct asfd): the fields the main process uses.  [d_client] NULL is None.  The socket
   itself and its buffers are left out. *)
Record fd := mkfd { d_kind : fdk; d_listen : bytes; d_pid : Z; d_client : option bytes; d_status : Z }.

(* /repo/src/conf.h:102-112 (listen, listen_status, max_parallel_backups): each address with its number of children
   (the flag of the strlist, /repo/src/conffile.c:1079-1127). *)
Record sconf := mksconf { sc_main : list (bytes * Z); sc_status : list (bytes * Z); sc_maxpar : Z }.

(* /repo/src/asfd.h:26-33 with /repo/src/server/main.c:493-526: the kinds with a process behind them *)
Definition is_listener (d : fd) : bool := match d_kind d with LMain | LStatus => true | _ => false end.

(* /repo/src/server/main.c:111-217 (init_listen_socket, init_listen_sockets) as run_server calls them at 975-979: one listening
   descriptor per address.  Simplification: every address gives exactly one socket (getaddrinfo can give several,
   all with the same listen string), and binding succeeds. *)
Definition init_fds (cf : sconf) : list fd :=
  map (fun a => mkfd LMain (fst a) 0 None 0) (sc_main cf) ++ map (fun a => mkfd LStatus (fst a) 0 None 0) (sc_status cf).

(* /repo/src/server/main.c:421-431 (find_listen_in_conf): the number of children of the first entry with this
   address *)
Fixpoint find_listen (l : list (bytes * Z)) (x : bytes) : option Z :=
  match l with
  | [] => None
  | (p, n) :: r => if beqb x p then Some n else find_listen r x
  end.

(* /repo/src/server/main.c:460-463: the other descriptors with the same listen string *)
Definition count_listen (x : bytes) (l : list fd) : Z :=
  Z.of_nat (length (filter (fun a => beqb x (d_listen a)) l)).

(* /repo/src/server/main.c:433-477 (chld_check_counts): true is a return of 0.  The descriptor asked about is the
   one at position [i], so that the comparison of pointers at line 461 leaves out exactly this one. *)
Definition chld_check_counts (cf : sconf) (l : list fd) (i : nat) (d : fd) : bool :=
  match match d_kind d with
        | LMain => find_listen (sc_main cf) (d_listen d)
        | LStatus => find_listen (sc_status cf) (d_listen d)
        | _ => None
        end with
  | None => false
  | Some n => count_listen (d_listen d) (firstn i l ++ skipn (S i) l) <? n
  end.

(* what the system calls of one incoming connection answer: accept interrupted, accept with another error (EAGAIN
   and ECONNABORTED among them), the address of the peer cannot be told, the peer is on no allowed network, or the
   connection stands, with the outcome of the two pipe calls and of fork
   (/repo/src/server/main.c:543-551, 554-556, 558-564, 579, 586) *)
Inductive conn : Type := CIntr | CErr | CNoAddr | CDenied | COk (pipes : bool) (fork : option Z).

(* /repo/src/server/main.c:479-526 (setup_parent_child_pipe, setup_parent_child_pipes): the descriptor of the new
   child, at the end of the list (/repo/src/async.c:258-269).  Simplification: no failing allocation, no failing
   fcntl. *)
Definition child_fd (d : fd) (pid : Z) : fd :=
  mkfd (match d_kind d with LMain => PRead | _ => PWrite end) (d_listen d) pid None 0.

(* what process_incoming_client comes to, /repo/src/server/main.c:528-642: an error for the caller, nothing, or a
   child *)
Inductive incoming : Type := IErr | INone | IChild (pid : Z).

(* /repo/src/server/main.c:528-642 (process_incoming_client) with fork=1 *)
Definition process_incoming (cf : sconf) (l : list fd) (i : nat) (d : fd) (c : conn) : incoming :=
  match c with
  | CIntr => INone
  | CErr => IErr
  | CNoAddr => IErr
  | CDenied => INone
  | COk pipes fork =>
    if chld_check_counts cf l i d then
      if pipes then match fork with Some p => IChild p | None => IErr end else IErr
    else INone
  end.

(* /repo/src/server/main.c:55-73 (chld_check_for_exiting, one pid from waitpid) and 1016-1031 (one descriptor with
   a problem): the first descriptor with this pid goes *)
Fixpoint drop_pid (p : Z) (l : list fd) : list fd :=
  match l with
  | [] => []
  | d :: r => if d_pid d =? p then r else d :: drop_pid p r
  end.

(* /repo/src/server/main.c:699-718 (extract_client_name): the text between the first two tabs, kept from the first
   report on *)
Definition extract_client_name (s : bytes) (d : fd) : fd :=
  match d_client d with
  | Some _ => d
  | None =>
    match after_tab s with
    | None => d
    | Some r => match after_tab r with
                | None => d
                | Some _ => mkfd (d_kind d) (d_listen d) (d_pid d) (Some (upto_tab r)) (d_status d)
                end
    end
  end.

(* /repo/src/cntr.h:29-43 *)
Definition ST_SCANNING : Z := 1.
Definition ST_BACKUP : Z := 2.

(* /repo/src/server/main.c:743-755 (extract_client_cntr_status): the counters it parses into are all NULL *)
Definition extract_status (s : bytes) (d : fd) : fd :=
  if beqb (firstn 4 s) (str "cntr") then
    let q := str_to_cntr s 0 0 0 [] in
    mkfd (d_kind d) (d_listen d) (d_pid d) (d_client d) (if p_ret q =? 0 then p_status q else 0)
  else d.

(* /repo/src/server/main.c:720-741 (server_get_working with the list) *)
Definition get_working (l : list fd) : Z :=
  Z.of_nat (length (filter (fun a => (d_status a =? ST_SCANNING) || (d_status a =? ST_BACKUP)) l)).

(* /repo/src/server/run_action.c:559-569: whether a backup is refused, with the number the child inherited from
   the moment of its fork *)
Definition too_many (maxpar working : Z) : bool := negb (maxpar =? 0) && (maxpar <=? working).

(* /repo/src/server/main.c:1038-1053: one report of the child with pid [p] *)
Fixpoint take_report (maxpar p : Z) (s : bytes) (l : list fd) : list fd :=
  match l with
  | [] => []
  | d :: r =>
    if d_pid d =? p then
      (match d_kind d with
       | PRead => let d1 := extract_client_name s d in if maxpar =? 0 then d1 else extract_status s d1
       | _ => d
       end) :: r
    else d :: take_report maxpar p s r
  end.

(* /repo/src/server/main.c:790-815 (update_status_child_client_lists): the text sent to the status children *)
Definition clients_text (l : list fd) : bytes :=
  fold_left (fun b a => match d_kind a, d_client a with
                        | PRead, Some c => b ++ [9] ++ c
                        | _, _ => b
                        end) l (str "clients").

(* /repo/src/server/main.c:1070-1077: is a child left *)
Definition child_left (l : list fd) : bool := existsb (fun d => 0 <? d_pid d) l.

(* the main process between two steps; [s_end] once run_server has returned for good: Some true in good order,
   Some false with an error (/repo/src/server/main.c:938-1107, 1133-1147) *)
Record srv := mksrv { s_conf : sconf; s_fds : list fd; s_gentle : bool; s_end : option bool }.

(* a child as it really is: the process, the address it serves, which kind of listener it came from, and the number
   of working children it took over (the static variable of /repo/src/server/main.c:722 at the fork) *)
Record child := mkchild { k_id : Z; k_listen : bytes; k_from : fdk; k_working : Z }.

(* the main process, the children that serve a client at this moment, and the children whose report could not be
   delivered.  A child reports with a write to its pipe; when the main process has closed the other end this is an
   error that ends the work of the child (/repo/src/server/child.c:24-71, /repo/src/asfd.c:285-299, /repo/src/async.c:83-233) *)
Record world := mkworld { w_srv : srv; w_live : list child; w_broken : list Z }.

(* one step: an incoming connection on the descriptor at this position, the end of a child's work (it closes
   the connection and its pipes), waitpid giving a pid, a descriptor found closed or broken, a report of a child,
   the check at the end of a round, SIGHUP with what the configuration file now says, SIGUSR2
   (/repo/src/server/main.c:40-52, 982-1098) *)
Inductive wev : Type :=
| WConn (i : nat) (c : conn) | WFinish (p : Z) | WReap (p : Z) | WProblem (p : Z) | WReport (p : Z) (s : bytes)
| WCheck | WHup (cf : sconf) | WUsr2.

(* /repo/src/server/main.c:61 and 1016-1031, stated for the world: is the process with this pid serving *)
Definition is_live (p : Z) (l : list child) : bool := existsb (fun k => k_id k =? p) l.
(* /repo/src/server/main.c:379-385, 493-526: the children that report are those of the main listeners *)
Definition is_reporter (p : Z) (l : list child) : bool :=
  existsb (fun k => (k_id k =? p) && match k_from k with LMain => true | _ => false end) l.
(* /repo/src/server/main.c:65-71: is there a descriptor for this process *)
Definition has_pid (p : Z) (l : list fd) : bool := existsb (fun d => d_pid d =? p) l.

(* /repo/src/server/main.c:982-1098: the main process goes on with this list *)
Definition with_fds (s : srv) (l : list fd) : srv := mksrv (s_conf s) l (s_gentle s) (s_end s).
(* /repo/src/server/main.c:1100-1106: run_server returns and the process ends *)
Definition ended (s : srv) (good : bool) : srv := mksrv (s_conf s) [] (s_gentle s) (Some good).

(* /repo/src/server/main.c:995-997: the number a new child inherits.  Without a maximum nothing is counted; the
   static variable then keeps what it was, which nobody asks for. *)
Definition inherited (cf : sconf) (l : list fd) : Z := if sc_maxpar cf =? 0 then 0 else get_working l.

(* One step of server/main.c:982-1098 and of the outside.  None: the step cannot happen in this state.  A fork gives
   a pid that is not in use: neither serving nor still waiting to be reaped by the main process.  waitpid gives
   only processes that are over; a pipe shows a problem only when its child is over.  Any order of steps is
   allowed; the loop of run_server takes some of these orders. *)
Definition wstep (w : world) (e : wev) : option world :=
  let s := w_srv w in
  match e with
  | WFinish p =>
    if is_live p (w_live w) then
      Some (mkworld s (filter (fun k => negb (k_id k =? p)) (w_live w)) (w_broken w))
    else None
  | WReport p t =>
    if is_reporter p (w_live w) then
      if has_pid p (s_fds s) then
        Some (mkworld (with_fds s (take_report (sc_maxpar (s_conf s)) p t (s_fds s))) (w_live w) (w_broken w))
      else Some (mkworld s (filter (fun k => negb (k_id k =? p)) (w_live w)) (p :: w_broken w))
    else None
  | WConn i c =>
    match s_end s, nth_error (s_fds s) i with
    | None, Some d =>
      if is_listener d then
        match process_incoming (s_conf s) (s_fds s) i d c with
        | IErr => Some (mkworld (ended s false) (w_live w) (w_broken w))
        | INone => Some w
        | IChild p =>
          if (0 <? p) && negb (is_live p (w_live w)) && negb (has_pid p (s_fds s)) then
            Some (mkworld (with_fds s (s_fds s ++ [child_fd d p]))
                          (mkchild p (d_listen d) (d_kind d) (inherited (s_conf s) (s_fds s)) :: w_live w) (w_broken w))
          else None
        end
      else None
    | _, _ => None
    end
  | WReap p | WProblem p =>
    match s_end s with
    | None => if (0 <? p) && negb (is_live p (w_live w)) then
                Some (mkworld (with_fds s (drop_pid p (s_fds s))) (w_live w) (w_broken w))
              else None
    | Some _ => None
    end
  | WCheck =>
    match s_end s with
    | None => if s_gentle s && negb (child_left (s_fds s)) then Some (mkworld (ended s true) (w_live w) (w_broken w))
              else Some w
    | Some _ => None
    end
  | WHup cf =>
    match s_end s with
    | None => if s_gentle s then Some (mkworld (ended s true) (w_live w) (w_broken w))
              else Some (mkworld (mksrv cf (init_fds cf) false None) (w_live w) (w_broken w))
    | Some _ => None
    end
  | WUsr2 =>
    match s_end s with
    | None => Some (mkworld (mksrv (s_conf s) (s_fds s) true None) (w_live w) (w_broken w))
    | Some _ => None
    end
  end.

(* /repo/src/server/main.c:1109-1156: a run from the start of the server *)
Fixpoint wrun (w : world) (es : list wev) : option world :=
  match es with
  | [] => Some w
  | e :: r => match wstep w e with Some w' => wrun w' r | None => None end
  end.

(* /repo/src/server/main.c:953-980: a server that has just started *)
Definition wstart (cf : sconf) : world := mkworld (mksrv cf (init_fds cf) false None) [] [].
