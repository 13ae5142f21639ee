(* Model of moving through the status monitor with keys:
   /repo/src/client/monitor/status_client_ncurses.c:431-660, 726-913, 1017-1300 and the part of
   the main loop that selects things. *)
From Verif Require Import Bytes.

(* enum page_e: /repo/src/client/monitor/sel.h:4-10 *)
Inductive page := PClients | PBackups | PLogs | PView.
(* struct sel: /repo/src/client/monitor/sel.h:12-22, with the static variables of
   update_screen(): /repo/src/client/monitor/status_client_ncurses.c:790-793.  A pointer to a
   client is its place in the list of clients; a pointer to a backup is the place of its client
   and its place in that client's list; a pointer to a line is its place; None: NULL.  The list
   of lines is its length. *)
Record nav := mkn {
  n_page : page; n_client : option nat; n_backup : option (nat * nat); n_logop : Z;
  n_offset : Z; n_lines : nat; n_lline : option nat; n_min : Z; n_max : Z; n_last : Z }.
(* /repo/src/client/monitor/sel.h:18, an update of one field *)
Definition set_page (s : nav) (p : page) : nav :=
  mkn p (n_client s) (n_backup s) (n_logop s) (n_offset s) (n_lines s) (n_lline s) (n_min s) (n_max s) (n_last s).
(* /repo/src/client/monitor/sel.h:14, an update of one field *)
Definition set_client (s : nav) (c : option nat) : nav :=
  mkn (n_page s) c (n_backup s) (n_logop s) (n_offset s) (n_lines s) (n_lline s) (n_min s) (n_max s) (n_last s).
(* /repo/src/client/monitor/sel.h:15, an update of one field *)
Definition set_backup (s : nav) (b : option (nat * nat)) : nav :=
  mkn (n_page s) (n_client s) b (n_logop s) (n_offset s) (n_lines s) (n_lline s) (n_min s) (n_max s) (n_last s).
(* /repo/src/client/monitor/sel.h:16, an update of one field *)
Definition set_logop (s : nav) (l : Z) : nav :=
  mkn (n_page s) (n_client s) (n_backup s) l (n_offset s) (n_lines s) (n_lline s) (n_min s) (n_max s) (n_last s).
(* /repo/src/client/monitor/sel.h:17-18, 20: an update of three fields *)
Definition set_lines (s : nav) (o : Z) (n : nat) (l : option nat) : nav :=
  mkn (n_page s) (n_client s) (n_backup s) (n_logop s) o n l (n_min s) (n_max s) (n_last s).
(* /repo/src/client/monitor/status_client_ncurses.c:790-793, an update of the three variables *)
Definition set_win (s : nav) (a b l : Z) : nav :=
  mkn (n_page s) (n_client s) (n_backup s) (n_logop s) (n_offset s) (n_lines s) (n_lline s) a b l.

(* The flags of the backups of each client, in the order of the lists: struct cstat and struct
   bu, /repo/src/cstat.h:28-40, /repo/src/bu.h:23-42 *)
Definition clients := list (list Z).
(* The backups of a client: /repo/src/cstat.h:35 *)
Definition bus (l : clients) (c : nat) : list Z := nth c l [].
(* sel->client->bu: /repo/src/client/monitor/status_client_ncurses.c:648 *)
Definition first_bu (l : clients) (c : nat) : option (nat * nat) := match bus l c with [] => None | _ => Some (c, 0%nat) end.
(* sel->clist: /repo/src/client/monitor/status_client_ncurses.c:570 *)
Definition first_client (l : clients) : option nat := match l with [] => None | _ => Some 0%nat end.
(* sel->backup->flags: /repo/src/client/monitor/status_client_ncurses.c:1095.  None: a NULL
   pointer is followed. *)
Definition flags_of (l : clients) (s : nav) : option Z :=
  match n_backup s with Some (c, j) => Some (nth j (bus l c) 0) | None => None end.

(* up_client() and the like, without the test for NULL:
   /repo/src/client/monitor/status_client_ncurses.c:1064-1068, 1076-1080, 1118-1122 *)
Definition prev (i : nat) : nat := pred i.
(* down_client() and the like: /repo/src/client/monitor/status_client_ncurses.c:1070-1074, 1082-1086, 1124-1128 *)
Definition next (n i : nat) : nat := if (S i <? n)%nat then S i else i.
(* page_up_client(): /repo/src/client/monitor/status_client_ncurses.c:1168-1177, the same as
   page_up_backup() *)
Fixpoint page_up_from (i : nat) (row : Z) : option nat :=
  let row := row - 1 in
  if row =? 0 then Some i else match i with O => None | S i => page_up_from i row end.
(* page_down_client(): /repo/src/client/monitor/status_client_ncurses.c:1179-1189, the same as
   page_down_backup().  m: no smaller than what is left of the list. *)
Fixpoint page_down_from (m n i : nat) (row : Z) : nat :=
  let row := row - 1 in
  if row =? 0 then i
  else if negb (S i <? n)%nat then i
  else match m with O => i | S m => page_down_from m n (S i) row end.

(* sh & sel->backup->flags: /repo/src/client/monitor/status_client_ncurses.c:1095, 1110 *)
Definition hit (bit f : Z) : bool := negb (Z.land bit f =? 0).
(* The loop of up_logs(): /repo/src/client/monitor/status_client_ncurses.c:1088-1101.  m: 16-i.
   f: the flags, None if there is no backup.  None: a NULL pointer is followed. *)
Fixpoint up_logs (m : nat) (f : option Z) (sh old : Z) : option Z :=
  match m with
  | O => Some old
  | S m =>
    if negb (32 <? sh) then Some old
    else let sh := Z.shiftr sh 1 in
      match f with
      | None => None
      | Some f => if hit sh f then Some sh else up_logs m (Some f) sh old
      end
  end.
(* The loop of down_logs(): /repo/src/client/monitor/status_client_ncurses.c:1103-1116, sh of 16
   bits *)
Fixpoint down_logs (m : nat) (f : option Z) (sh old : Z) : option Z :=
  match m with
  | O => Some old
  | S m =>
    if sh =? 0 then Some old
    else let sh := (2 * sh) mod 65536 in
      match f with
      | None => None
      | Some f => if hit sh f then Some sh else down_logs m (Some f) sh old
      end
  end.

(* The keys: /repo/src/client/monitor/status_client_ncurses.c:1260-1290.  q and the error are
   left out, they end the program. *)
Inductive key := KUp | KDown | KLeft | KRight | KPageUp | KPageDown | KOther.

(* left(): /repo/src/client/monitor/status_client_ncurses.c:1017-1041 *)
Definition left (s : nav) : nav :=
  match n_page s with
  | PClients => s
  | PBackups => set_page s PClients
  | PLogs => set_page s PBackups
  | PView => if 0 <? n_offset s then set_lines s (n_offset s - 1) (n_lines s) (n_lline s)
             else set_lines (set_page s PLogs) (n_offset s) 0 None
  end.
(* right(): /repo/src/client/monitor/status_client_ncurses.c:1043-1062.  That the offset is an
   int, which takes 2^31 keys to overflow, is left out. *)
Definition right (s : nav) : nav :=
  match n_page s with
  | PClients => set_page s PBackups
  | PBackups => set_page s PLogs
  | PLogs => set_page s PView
  | PView => set_lines s (n_offset s + 1) (n_lines s) (n_lline s)
  end.
(* A move of what is selected on the page: up(), down():
   /repo/src/client/monitor/status_client_ncurses.c:1130-1166.  g, given the length of the list
   and the place in it, is the new place. *)
Definition moved (l : clients) (g : nat -> nat -> option nat) (s : nav) : nav :=
  match n_page s with
  | PClients => match n_client s with Some i => set_client s (g (List.length l) i) | None => s end
  | PBackups =>
    match n_backup s with
    | Some (c, j) => set_backup s (match g (List.length (bus l c)) j with Some j => Some (c, j) | None => None end)
    | None => s
    end
  | PLogs => s
  | PView => match n_lline s with Some i => set_lines s (n_offset s) (n_lines s) (g (n_lines s) i) | None => s end
  end.
(* parse_stdin_data(): /repo/src/client/monitor/status_client_ncurses.c:1250-1297 with the
   functions above it.  row: the height of the screen.  None: a NULL pointer is followed. *)
Definition press (l : clients) (row : Z) (k : key) (s : nav) : option nav :=
  match k with
  | KOther => Some s
  | KLeft => Some (left s)
  | KRight => Some (right s)
  | KUp =>
    match n_page s with
    | PLogs => match up_logs 16 (flags_of l s) (n_logop s) (n_logop s) with Some o => Some (set_logop s o) | None => None end
    | _ => Some (moved l (fun _ i => Some (prev i)) s)
    end
  | KDown =>
    match n_page s with
    | PLogs => match down_logs 16 (flags_of l s) (n_logop s) (n_logop s) with Some o => Some (set_logop s o) | None => None end
    | _ => Some (moved l (fun n i => Some (next n i)) s)
    end
  | KPageUp =>
    match n_page s with
    | PClients | PBackups => Some (moved l (fun _ i => page_up_from i row) s)
    | _ => Some s
    end
  | KPageDown =>
    match n_page s with
    | PClients | PBackups => Some (moved l (fun n i => Some (page_down_from n n i row)) s)
    | _ => Some s
    end
  end.
(* The main loop selects things: /repo/src/client/monitor/status_client_ncurses.c:1412-1419 *)
Definition select (l : clients) (s : nav) : nav :=
  match n_client s with
  | Some c => match n_backup s with None => set_backup s (first_bu l c) | Some _ => s end
  | None => set_client s (first_client l)
  end.

(* print_logs_list(): /repo/src/client/monitor/status_client_ncurses.c:431-444, 519-529; the
   entries in the order in which they are shown. *)
Definition log_bits : list Z := [32; 64; 128; 256; 512; 1024; 2048; 4096].
(* print_logs_list(): /repo/src/client/monitor/status_client_ncurses.c:519-529; what is left in
   sel->logop *)
Definition show_logs (f : option Z) (logop : Z) : Z :=
  fold_left (fun o bit => match f with
    | Some f => if negb (hit bit f) then o else if o =? 0 then bit else o
    | None => o
    end) log_bits logop.
(* The place of what is selected, from 1, or the length of the list if it is not there:
   selindex_from_cstat() and the like, /repo/src/client/monitor/status_client_ncurses.c:482-516 *)
Definition selindex (n : nat) (sel : option nat) : Z :=
  match sel with Some i => if (i <? n)%nat then Z.of_nat i + 1 else Z.of_nat n | None => Z.of_nat n end.
(* The place of the backup that is selected in the list of a client:
   /repo/src/client/monitor/status_client_ncurses.c:494-504 *)
Definition in_client (c : nat) (b : option (nat * nat)) : option nat :=
  match b with Some (c', j) => if (c' =? c)%nat then Some j else None | None => None end.
(* The lines above the list: /repo/src/client/monitor/status_client_ncurses.c:446-479 *)
Definition header (p : page) : Z := match p with PClients => 0 | PBackups => 2 | PLogs => 3 | PView => 4 end.
(* The sliding window of update_screen(): /repo/src/client/monitor/status_client_ncurses.c:842-866 *)
Definition window (row x si a b last : Z) : Z * Z :=
  let d := si - last in
  let '(a, b) :=
    if last <? si then (if b - 2 - 1 - x <? si then (a + d, b + d) else (a, b))
    else if si <? last then (if si <? a then (a + d, b + d) else (a, b))
    else (a, b) in
  if a =? b then (0, row) else if a <? 0 then (0, row) else (a, b).
(* What is selected if it is among what is shown, else nothing: star_printed in
   /repo/src/client/monitor/status_client_ncurses.c:549-570, 618-648, 757-780 *)
Definition starred (n : nat) (sel : option nat) (a b : Z) : option nat :=
  match sel with
  | Some i => if (i <? n)%nat && (a <=? Z.of_nat i + 1) && (Z.of_nat i + 1 <=? b) then Some i else None
  | None => None
  end.
(* update_screen() as far as it changes what is selected:
   /repo/src/client/monitor/status_client_ncurses.c:783-913.  The page with live counters, which
   changes nothing, is in 749-755. *)
Definition draw (l : clients) (row : Z) (s : nav) : nav :=
  match n_client s with
  | None => s
  | Some c =>
    let nb := List.length (bus l c) in
    let si := match n_page s with
      | PClients => selindex (List.length l) (Some c)
      | PBackups => selindex nb (in_client c (n_backup s))
      | PLogs => 0
      | PView => selindex (n_lines s) (n_lline s)
      end in
    let '(a, b) := window row (header (n_page s)) si (n_min s) (n_max s) (n_last s) in
    let s := set_win s a b si in
    match n_page s with
    | PClients => match starred (List.length l) (Some c) a b with Some _ => s | None => set_client s (first_client l) end
    | PBackups => match starred nb (in_client c (n_backup s)) a b with Some _ => s | None => set_backup s (first_bu l c) end
    | PLogs => set_logop s (show_logs (flags_of l s) (n_logop s))
    | PView =>
      match n_backup s with
      | Some _ => if negb (Z.land (n_logop s) 32 =? 0) then s else
        match starred (n_lines s) (n_lline s) a b with Some _ => s | None => set_lines s (n_offset s) (n_lines s) (match n_lines s with O => None | _ => Some 0%nat end) end
      | None => match starred (n_lines s) (n_lline s) a b with Some _ => s | None => set_lines s (n_offset s) (n_lines s) (match n_lines s with O => None | _ => Some 0%nat end) end
      end
    end
  end.
(* One turn of the main loop with a key: /repo/src/client/monitor/status_client_ncurses.c:1361-1427.
   The lists of clients and backups stay as they are; what changes them is in C115 to C117. *)
Definition turn (l : clients) (row : Z) (k : key) (s : nav) : option nav :=
  match press l row k s with Some s => Some (draw l row (select l s)) | None => None end.
(* The main loop: /repo/src/client/monitor/status_client_ncurses.c:1361-1446.  A number in front
   of a key: the lines of a log that came before it, if none were there (393-401). *)
Fixpoint turns (l : clients) (row : Z) (ks : list (nat * key)) (s : nav) : option nav :=
  match ks with
  | [] => Some s
  | (n, k) :: r =>
    let s := match n_page s, n_lines s with PView, O => set_lines s (n_offset s) n (n_lline s) | _, _ => s end in
    match turn l row k s with Some s => turns l row r s | None => None end
  end.
(* The start of the main loop, up to the first screen: /repo/src/client/monitor/sel.c:7-13,
   /repo/src/client/monitor/status_client_ncurses.c:1351-1427.  p: the list of backups if a client
   was given, which is then the only one, else the list of clients. *)
Definition start (l : clients) (row : Z) (p : page) : nav :=
  draw l row (select l (select l (mkn p None None 0 0 0 None 0 0 0))).
