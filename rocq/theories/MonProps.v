(* Properties C83-C86: the status monitor of the server. *)
From Verif Require Import Bytes FrameModel DpthModel BuModel CmdModel UtilModel AuthModel CntrModel CntrProofs.
From Verif Require Import MonModel MonProofs MonSeeProofs MonRunProofs MonAskProofs.

(* ---------- C83: requests ---------- *)

Theorem C83_request_partial : forall l path, Forall (fun kv => value (snd kv)) l ->
  let q := parse_cmd (written l path) [] None noreq in
  (forall k, get k q = last_of k l) /\ q_browse q = path.
Proof. exact request_read. Qed.
Print Assumptions C83_request_partial.

Example C83_request_witness :
  let l := [(KClient, str "laptop"); (KBackup, str "12"); (KLog, str "backup")] in
  Forall (fun kv => value (snd kv)) l /\
  written l (Some (str "C:/a:b/")) = str "c:laptop:b:12:l:backup:p:C:/a:b/" /\
  q_browse (parse_cmd (str "c:laptop:b:12:p:C:/a:b/") [] None noreq) = Some (str "C:/a:b/").
Proof.
  split; [|split; reflexivity].
  repeat constructor; try discriminate; vm_compute; intuition discriminate.
Qed.

Theorem C83_page_partial : forall client p rest, askable client -> page_ok p -> fits client p ->
  exists line, take_line (request_status client p ++ rest) [] = Some (line, rest) /\
    (forall k, get k (parse_cmd line [] None noreq) = last_of k (wanted client p)) /\
    q_browse (parse_cmd line [] None noreq) = None.
Proof. exact page_read. Qed.
Print Assumptions C83_page_partial.

Example C83_page_witness :
  askable (str "laptop") /\ page_ok (PLog 12 (str "backup_stats")) /\ fits (str "laptop") (PLog 12 (str "backup_stats")) /\
  request_status (str "laptop") (PLog 12 (str "backup_stats")) = str "c:laptop:b:12:l:backup_stats" ++ [10].
Proof.
  assert (V : forall s, cstrb s = true -> existsb (fun c => (c =? colon) || (c =? 10)) s = false -> s <> [] -> isspace_c (List.last s 0) = false -> askable s).
  { intros s _ E N S. assert (X : forall x, x = colon \/ x = 10 -> ~ In x s).
    { intros x Hx I. assert (existsb (fun c => (c =? colon) || (c =? 10)) s = true); [|congruence].
      apply existsb_exists. exists x. split; auto. destruct Hx as [->| ->]; reflexivity. }
    split; [split; [auto|apply X; auto]|split; [apply X; auto|auto]]. }
  split; [apply V; try reflexivity; discriminate|]. split.
  - split; [unfold is_u64; lia|apply V; try reflexivity; discriminate].
  - split; [vm_compute; discriminate|reflexivity].
Qed.

(* A client may have a colon in its name; asking for it asks for another. *)
Theorem C83_colon_refuted : exists client, cname_valid 0 client = true /\ client <> [] /\
  exists line, take_line (request_status client PBackups) [] = Some (line, []) /\
    get KClient (parse_cmd line [] None noreq) <> Some client.
Proof.
  exists (str "a:b"). split; [reflexivity|]. split; [discriminate|]. exists (str "c:a:b"). split; [reflexivity|].
  vm_compute. discriminate.
Qed.
Print Assumptions C83_colon_refuted.

(* A request that is too long has no end of line. *)
Theorem C83_too_long_refuted : forall client p, askable client -> page_ok p -> ~ fits client p ->
  take_line (request_status client p) [] = None.
Proof. exact page_too_long. Qed.
Print Assumptions C83_too_long_refuted.

Example C83_too_long_witness : askable (repeat 97 253) /\ ~ fits (repeat 97 253) PBackups /\ cname_valid 0 (repeat 97 253) = true.
Proof.
  split; [|split; [vm_compute; intros H; apply H; reflexivity|reflexivity]].
  assert (X : forall x, x <> 97 -> ~ In x (repeat 97 253)) by (intros x N I; apply repeat_spec in I; congruence).
  split; [split; [discriminate|apply X; discriminate]|split; [apply X; discriminate|reflexivity]].
Qed.

(* ---------- C84: who is told what ---------- *)

Theorem C84_permitted : forall n m sup restore super,
  permitted n m sup restore super = true <->
  exists w, m = Some w /\ (n = w \/ (sup = false /\ (In w restore \/ In w super))).
Proof. exact permitted_exact. Qed.
Print Assumptions C84_permitted.

Theorem C84_listing_partial : forall evs pv l as_ l' pv', NoDup (map w_name l) -> Forall unnamed evs ->
  serve evs pv l = (as_, Some (l', pv')) -> serve evs pv (seen l) = (as_, Some (seen l', pv')).
Proof. exact listing_depends. Qed.
Print Assumptions C84_listing_partial.

Theorem C84_listing_names : forall now s pv l o, q_client (parse_cmd s [] None noreq) = None ->
  snd (parse_client_data now s pv l) = AClients o -> map o_name o = map w_name (seen l).
Proof. exact listing_names. Qed.
Print Assumptions C84_listing_names.

Theorem C84_backups_partial : forall evs pv l1 l2, all_alike l1 l2 ->
  fst (serve evs pv l1) = fst (serve evs pv l2) /\
  (snd (serve evs pv l1) = None <-> snd (serve evs pv l2) = None).
Proof. exact backups_hidden. Qed.
Print Assumptions C84_backups_partial.

Theorem C84_named_partial : forall now s pv l c o,
  by_name (w_name c) l = Some c -> w_permitted c = false ->
  q_client (parse_cmd s [] None noreq) = Some (w_name c) -> snd (parse_client_data now s pv l) = AClients o ->
  exists x, o = [x] /\ o_name x = w_name c /\ o_run x = w_run c /\ o_backups x = [].
Proof. exact hidden_answer. Qed.
Print Assumptions C84_named_partial.

Theorem C84_status_partial : forall evs pv l as_ l' pv',
  serve evs pv l = (as_, Some (l', pv')) -> Forall2 same_hidden l l'.
Proof. exact status_hidden. Qed.
Print Assumptions C84_status_partial.

(* A client that is being backed up and has an unfinished backup on disk, and
   one that may be seen. *)
Definition a_backup := mkmbu 3 1600000000 (fun f => match f with FWorking | FLogBackup => true | _ => false end)
  (fun _ => Some [str "a line"]) (fun _ => Some [str "a name"]).
Definition other := mkcst (str "other") [str "a label"] false RUnset [] (Some [a_backup]) [a_backup].
Definition own := mkcst (str "own") [] true RUnset [] (Some [a_backup]) [a_backup].
Definition its_report : bytes :=
  snd (cntr_to_str 1600000001 (mkhead (str "other") 77 3 2) (run 1600000000 [OAdd CMD_FILE; OAdd CMD_FILE]) (str "/home/x")).

Example C84_witness :
  let evs := [EParent its_report; EParent (clients_message [(str "other", 77, 3)]); EReq 5 (str "c:")] in
  NoDup (map w_name [other; own]) /\ Forall unnamed evs /\
  snd (serve evs 30200 [other; own]) <> None /\
  map (fun a => match a with AClients o => map o_name o | _ => [] end) (fst (serve evs 30200 [other; own])) = [[str "own"]] /\
  all_alike [other; own] [mkcst (str "other") [str "a label"] false RUnset [] None []; own].
Proof.
  cbv zeta. split; [|split; [|split; [|split]]].
  - repeat constructor; cbn [In map w_name other own]; intuition discriminate.
  - repeat constructor.
  - vm_compute. discriminate.
  - vm_compute. reflexivity.
  - constructor; [right|constructor; [left|constructor]]; auto. vm_compute. auto 10.
Qed.

(* Asked by name, the monitor is told labels, children and what they count. *)
Theorem C84_named_refuted : exists l evs x, Forall (fun c => w_name c = o_name x -> w_permitted c = false) l /\
  In (AClients [x]) (fst (serve evs 30200 l)) /\ o_labels x <> [] /\
  exists k, In k (o_children x) /\ och_counters k <> [].
Proof.
  exists [other; own], [EParent its_report; EReq 5 (str "c:other")].
  destruct (fst (serve [EParent its_report; EReq 5 (str "c:other")] 30200 [other; own])) as [|a r] eqn:E; [vm_compute in E; discriminate|].
  destruct a as [m|o| |]; try (vm_compute in E; discriminate).
  destruct o as [|x [|y o]]; try (vm_compute in E; discriminate).
  exists x. assert (X : x = hd x (match hd AFail (fst (serve [EParent its_report; EReq 5 (str "c:other")] 30200 [other; own])) with AClients o => o | _ => [] end)) by (rewrite E; reflexivity).
  clear E. 
  assert (Y : o_name x = str "other" /\ o_labels x = [str "a label"] /\ map och_pid (o_children x) = [77] /\ forallb (fun k => match och_counters k with [] => false | _ => true end) (o_children x) = true).
  { rewrite X. vm_compute. auto. }
  destruct Y as (Y1 & Y2 & Y3 & Y4). split; [|split; [|split]].
  - constructor; [reflexivity|constructor; [|constructor]]. cbn [w_name own]. rewrite Y1. discriminate.
  - left; reflexivity.
  - rewrite Y2. discriminate.
  - destruct (o_children x) as [|k ks]; [discriminate|]. exists k. split; [left; auto|].
    cbn [forallb] in Y4. apply andb_prop in Y4 as [Y4 _]. destruct (och_counters k); [discriminate|discriminate].
Qed.
Print Assumptions C84_named_refuted.

(* ---------- C85: who is running ---------- *)

Theorem C85_running : forall ids l, tidy l -> Forall id_ok ids ->
  parse_parent_data (clients_message ids) l = Some (map (expected ids) l).
Proof. exact clients_running. Qed.
Print Assumptions C85_running.

Theorem C85_listed : forall n ids,
  (is_listed n ids = true <-> exists p b, In (n, p, b) ids) /\
  (forall p b, listed_bno n p ids = Some b -> In (n, p, b) ids) /\
  (forall p b, In (n, p, b) ids -> listed_bno n p ids <> None).
Proof. intros n ids. split; [apply is_listed_in|split; intros; [apply listed_in; auto|eapply listed_some; eauto]]. Qed.
Print Assumptions C85_listed.

Theorem C85_report : forall now h l path line l1,
  head_ok h -> counters l -> plain path -> zl path <= 255 -> cntr_to_str now h l path = (l1, line) ->
  forall cl, Forall sound cl ->
  exists cl', parse_parent_data line cl = Some cl' /\
    Forall2 (fun c c' => if beqb (w_name c) (h_cname h) then reported h l1 c c' else c' = c) cl cl'.
Proof. intros now h l path line l1 H L P PL E cl S. exact (report_read now h l path line l1 H L P PL E cl S). Qed.
Print Assumptions C85_report.

Definition kid p := mkchl p 0 0 false table.
Definition two := [mkcst (str "a.b") [] true RRunning [kid 5; kid 6] None []; mkcst (str "c") [] true RRunning [kid 7] None []].
Example C85_witness :
  tidy two /\ Forall id_ok [(str "a.b", 6, 2)] /\ Forall sound two /\
  match parse_parent_data (clients_message [(str "a.b", 6, 2)]) two with
  | Some l => map w_run l = [RRunning; RIdle] /\ map (fun c => map k_pid (w_cntrs c)) l = [[6]; []]
  | None => False
  end.
Proof.
  assert (D : forall x y : Z, x <> y -> NoDup [x; y]) by (intros; constructor; [intros [|[]]; auto|constructor; [intros []|constructor]]).
  assert (D1 : forall x : Z, NoDup [x]) by (intros; constructor; [intros []|constructor]).
  split; [|split; [|split]].
  - split; [constructor; [intros [H|[]]; discriminate|constructor; [intros []|constructor]]|].
    constructor; [apply D; discriminate|constructor; [apply D1|constructor]].
  - constructor; [|constructor]. split; [|split; cbn [fst snd]; unfold is_int; lia]. split; vm_compute; intuition discriminate.
  - constructor; [|constructor; [|constructor]]; split; try (apply D; discriminate); try apply D1; repeat constructor.
  - vm_compute. auto.
Qed.

(* ---------- C86: there is an answer ---------- *)

Theorem C86_answered_partial : forall now s pv l, Forall shown l -> (version_2_1_8 < pv \/ Forall counted l) ->
  (forall cmd, q_command (parse_cmd s [] None noreq) = Some cmd -> RestoreModel.starts_with cmd pv_cmd = false) ->
  snd (parse_client_data now s pv l) <> AFail /\ snd (parse_client_data now s pv l) <> ACrash.
Proof. exact answered. Qed.
Print Assumptions C86_answered_partial.

Example C86_witness : Forall shown [own] /\ version_2_1_8 < 30200 /\
  (forall cmd, q_command (parse_cmd (str "c:own:b:3:p:/home") [] None noreq) = Some cmd -> RestoreModel.starts_with cmd pv_cmd = false) /\
  match snd (parse_client_data 5 (str "c:own:b:3:p:/home") 30200 [own]) with
  | AClients [x] => map o_browse (o_backups x) = [Some (str "/home", [str "a name"])]
  | _ => False
  end.
Proof.
  split; [|split; [reflexivity|split; [discriminate|vm_compute; reflexivity]]].
  constructor; [|constructor]. split; repeat constructor; discriminate.
Qed.

(* A monitor that says it is old, and an unfinished backup that nobody works on. *)
Theorem C86_crash_refuted : exists l evs, Forall shown l /\
  fst (serve evs 30200 l) = [AWarn (str "Peer version updated"); ACrash] /\ snd (serve evs 30200 l) = None.
Proof.
  exists [own], [EReq 5 (str "j:peer_version=2.1.8"); EReq 6 (str "c:")].
  split; [|split; reflexivity]. constructor; [|constructor]. split; repeat constructor; discriminate.
Qed.
Print Assumptions C86_crash_refuted.

(* A log that is on disk but cannot be opened, or a version of zero, end the
   status server. *)
Theorem C86_end_refuted :
  (exists l, fst (serve [EReq 5 (str "c:own:b:3:l:backup"); EReq 6 (str "c:")] 30200 l) = [AFail]) /\
  (exists s, forall l, serve [EReq 5 s; EReq 6 (str "c:")] 30200 l = ([AFail], None)).
Proof.
  split.
  - set (b := mkmbu 3 1600000000 (m_flag a_backup) (fun _ => None) (fun _ => None)).
    exists [mkcst (str "own") [] true RUnset [] (Some [b]) [b]]. reflexivity.
  - exists (str "j:peer_version=0.0.0"). reflexivity.
Qed.
Print Assumptions C86_end_refuted.

(* One backup and a directory in it. *)
Theorem C86_browse : forall now pv s l n b c bus u, let q := parse_cmd s [] None noreq in
  q_command q = None -> q_client q = Some n -> by_name n l = Some c -> w_permitted c = true -> w_disk c = Some bus ->
  q_backup q = Some b -> strtoul10 b = m_bno u -> m_bno u <> 0 -> find (fun x => m_bno x =? m_bno u) bus = Some u ->
  version_2_1_8 < pv -> some_log u ->
  forall d d' names, q_browse q = Some d -> trimmed d d' -> m_browse u d' = Some names ->
  exists x o, snd (parse_client_data now s pv l) = AClients [x] /\ o_name x = w_name c /\ o_labels x = w_labels c /\ o_run x = w_run c /\ o_backups x = [o] /\ shown_as u None (Some (d', names)) o.
Proof. exact ask_browse. Qed.
Print Assumptions C86_browse.

(* One backup and one of its files. *)
Theorem C86_file : forall now pv s l n b c bus u, let q := parse_cmd s [] None noreq in
  q_command q = None -> q_client q = Some n -> by_name n l = Some c -> w_permitted c = true -> w_disk c = Some bus ->
  q_backup q = Some b -> strtoul10 b = m_bno u -> m_bno u <> 0 -> find (fun x => m_bno x =? m_bno u) bus = Some u ->
  version_2_1_8 < pv -> some_log u ->
  forall f name ls, q_browse q = None -> q_log q = Some name -> In (f, name) six -> m_flag u f = true -> m_log u name = Some ls ->
  exists x o, snd (parse_client_data now s pv l) = AClients [x] /\ o_name x = w_name c /\ o_labels x = w_labels c /\ o_run x = w_run c /\ o_backups x = [o] /\ shown_as u (Some (f, ls)) None o.
Proof. exact ask_log. Qed.
Print Assumptions C86_file.

Theorem C86_unsupported : forall now pv s l n b c bus u, let q := parse_cmd s [] None noreq in
  q_command q = None -> q_client q = Some n -> by_name n l = Some c -> w_permitted c = true -> w_disk c = Some bus ->
  q_backup q = Some b -> strtoul10 b = m_bno u -> m_bno u <> 0 -> find (fun x => m_bno x =? m_bno u) bus = Some u ->
  forall name, q_browse q = None -> q_log q = Some name -> name <> str "manifest" -> ~ In name (map snd six) ->
  snd (parse_client_data now s pv l) = AWarn (str "File not supported").
Proof. exact ask_unsupported. Qed.
Print Assumptions C86_unsupported.

Theorem C86_unknown : forall now s pv l n, let q := parse_cmd s [] None noreq in
  q_command q = None -> q_client q = Some n -> by_name n l = None -> Z.of_nat (List.length n) <= 232 ->
  parse_client_data now s pv l = (l, pv, AWarn (str "Could not find client: " ++ n)).
Proof. exact ask_unknown. Qed.
Print Assumptions C86_unknown.

Example C86_ask_witness :
  let q := parse_cmd (str "c:own:b:3:p:/home//") [] None noreq in
  q_command q = None /\ q_client q = Some (str "own") /\ by_name (str "own") [own] = Some own /\ w_permitted own = true /\
  w_disk own = Some [a_backup] /\ q_backup q = Some (str "3") /\ strtoul10 (str "3") = m_bno a_backup /\ m_bno a_backup <> 0 /\
  find (fun x => m_bno x =? m_bno a_backup) [a_backup] = Some a_backup /\ some_log a_backup /\
  q_browse q = Some (str "/home//") /\ trimmed (str "/home//") (str "/home") /\ trimmed (str "///") (str "/") /\
  q_log (parse_cmd (str "c:own:b:3:l:backup") [] None noreq) = Some (str "backup") /\ In (FLogBackup, str "backup") six /\
  ~ In (str "log") (map snd six) /\ by_name (str "me") [own] = None.
Proof.
  cbv zeta. repeat (split; [first [reflexivity|discriminate]|]).
  split; [exists FLogBackup; split; [left; reflexivity|reflexivity]|]. split; [reflexivity|].
  split; [split; [exists 2%nat; reflexivity|split; [right; right; vm_compute; discriminate|discriminate]]|].
  split; [split; [exists 2%nat; reflexivity|split; [right; left; reflexivity|discriminate]]|].
  split; [reflexivity|]. split; [left; reflexivity|]. split; [|reflexivity].
  intros I. vm_compute in I. repeat (destruct I as [I|I]; [discriminate|]). exact I.
Qed.
