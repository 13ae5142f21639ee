(* C132: what is in force on the server for one client. *)
From Verif Require Import Bytes PathcmpModel BuModel AuthModel ConfModel IncexcModel OverModel OverProofs.

(* A single value: the last setting of the command line, else of the file of the
   client, else, if the option may be inherited, of the file of the server, else
   the default. *)
Theorem C132_value : forall incl cli checks_s checks_c path sg g c0 cname files c gs os cs,
  served incl cli checks_s checks_c path sg g c0 cname files c gs os cs ->
  forall f o over repl, known f = Some (o, (over, repl)) -> plain f -> is_list (o_val o) = false ->
  get f c = Some (match last_of f cs with
                  | Some x => means f (o_val o) x
                  | None =>
                    match last_of f os with
                    | Some x => means f (o_val o) x
                    | None =>
                      match (if over then last_of f gs else None) with
                      | Some x => means f (o_val o) x
                      | None => o_val o
                      end
                    end
                  end).
Proof. exact scalar_in_force. Qed.

(* A list: the own list of the client, else that of the server.  What the command
   line gives is there once for the server and once for the client. *)
Theorem C132_list_partial : forall incl cli checks_s checks_c path sg g c0 cname files c gs os cs,
  served incl cli checks_s checks_c path sg g c0 cname files c gs os cs ->
  forall f o, known f = Some (o, (true, true)) -> plain f -> is_list (o_val o) = true -> o_sorted o = false ->
  get f c = Some (VList (given f cs (match given f os [] with [] => given f (gs ++ cs) [] | l => l end))).
Proof. exact list_in_force. Qed.

(* The lists of clients that may look at this one: both together. *)
Theorem C132_together_partial : forall incl cli checks_s checks_c path sg g c0 cname files c gs os cs,
  served incl cli checks_s checks_c path sg g c0 cname files c gs os cs ->
  forall f o, known f = Some (o, (true, false)) -> plain f -> is_list (o_val o) = true ->
  exists l, get f c = Some (VList l) /\
            forall x, In x l <-> In x (given f cs (given f (gs ++ cs) [] ++ given f os [])).
Proof. exact list_together. Qed.

(* A list that is not inherited. *)
Theorem C132_own_list : forall incl cli checks_s checks_c path sg g c0 cname files c gs os cs,
  served incl cli checks_s checks_c path sg g c0 cname files c gs os cs ->
  forall f o repl, known f = Some (o, (false, repl)) -> plain f -> is_list (o_val o) = true ->
  exists l, get f c = Some (VList l) /\ (forall x, In x l <-> In x (given f (os ++ cs) [])) /\
            (o_sorted o = false -> l = given f (os ++ cs) []).
Proof. exact list_own. Qed.

(* The scripts that the server runs for the client. *)
Theorem C132_script : forall incl cli checks_s checks_c path sg g c0 cname files c gs os cs,
  served incl cli checks_s checks_c path sg g c0 cname files c gs os cs ->
  forall f, In f (map str ["server_script_pre"; "server_script_post"]%string) ->
  get f c = Some (VStr (opt_str (last_of (str "server_script") (os ++ cs))
                       (opt_str (last_of f (os ++ cs))
                       (opt_str (last_of (str "server_script") (gs ++ cs)) (last_of f gs))))).
Proof. exact script_in_force. Qed.

(* The name expected in the certificate of the client: its own, if it has one, else
   its client name if the server's file names none. *)
Theorem C132_peer_cn_partial : forall incl cli checks_s checks_c path sg g c0 cname files c gs os cs,
  served incl cli checks_s checks_c path sg g c0 cname files c gs os cs ->
  get (str "ssl_peer_cn") c
  = Some (VStr (opt_str (last_of (str "ssl_peer_cn") (os ++ cs))
                 (match last_of (str "ssl_peer_cn") (gs ++ cs) with Some _ => None | None => Some cname end))).
Proof. exact peer_cn_in_force. Qed.

(* The passwords, the certificates and the includes never come from the server. *)
Theorem C132_private : forall incl cli cs1 cc1 cs2 cc2 p1 sg1 g1 p2 sg2 g2 c01 c02 n1 n2 files1 files2 c1 c2 gs1 gs2 os cs,
  served incl cli cs1 cc1 p1 sg1 g1 c01 n1 files1 c1 gs1 os cs ->
  served incl cli cs2 cc2 p2 sg2 g2 c02 n2 files2 c2 gs2 os cs ->
  forall f o repl, known f = Some (o, (false, repl)) -> plain f -> get f c1 = get f c2.
Proof. exact own_only. Qed.
(* The options that may be inherited (inheritable: by name, in OverProofs.v). *)
Theorem C132_inherited : forall f, f <> [] ->
  (exists o repl, known f = Some (o, (true, repl))) <->
  In f inheritable.
Proof. exact inherited. Qed.

(* Nothing stays of what was in force for another client. *)
Theorem C132_fresh : forall inclusion cli checks before files g c0 c0',
  get_str (str "cname") c0 = get_str (str "cname") c0' ->
  get_str (str "peer_version") c0 = get_str (str "peer_version") c0' ->
  load_clientconfdir inclusion cli checks before files g c0 = load_clientconfdir inclusion cli checks before files g c0'.
Proof. exact fresh. Qed.

(* The lines of a file are read as they are, if none is longer than 4094 bytes. *)
Theorem C132_lines_partial : forall ls, Forall (fun l => Forall (fun x => x <> 10) l /\ Z.of_nat (length l) <= 4094) ls ->
  fgets_lines (concat (map (fun l => l ++ [10]) ls)) [] 0 = ls.
Proof. exact file_lines. Qed.

(* ---- A server and a client --------------------------------------------------- *)
Definition nl : bytes := [10].
Definition text (ls : list String.string) : bytes := concat (map (fun l => str l ++ nl) ls).
Definition no_files (x : bytes) : option (list setting) := None.
Definition all_ok (c : conf) : bool := true.
Definition sv_text : bytes := text
  [ "clientconfdir = /c"; "keep = 7"; "keep = 4"; "server_script = /g"; "compression = 5"; "restore_client = admin";
    "password = global"; "hard_quota = 10Kb"; "server_script_notify = 1" ]%string.
Definition cl_text : bytes := text
  [ "# mine"; "password = secret"; "keep = 3"; "server_script_pre = /mine"; "restore_client := bob"; "compression = 1";
    "server_script_notify = 0"; "server_script_pre_notify = 0" ]%string.
Definition cl_files (p : bytes) : option bytes := if beqb p (str "/c/laptop") then Some cl_text else None.
Definition new_client : conf := set_str (str "cname") (Some (str "laptop")) defaults.
Definition a_cli : list bytes := [str "keep = 9"; str "enabled = 0"].
Definition load_both (sv cl : bytes) (cli : list bytes) : option (conf * conf) :=
  match load_global (inclusion no_files) cli all_ok (str "/s") sv with
  | Some g =>
    match load_clientconfdir (inclusion no_files) cli all_ok 0 (fun p => if beqb p (str "/c/laptop") then Some cl else None) g new_client with
    | Some c => Some (g, c)
    | None => None
    end
  | None => None
  end.
(* Two texts that load meet the hypothesis of the theorems *)
Lemma load_served : forall sv cl cli g c gs os cs, load_both sv cl cli = Some (g, c) ->
  file_sets no_files sv = Some gs -> file_sets no_files cl = Some os -> lines_set no_files cli = Some cs ->
  get_str (str "clientconfdir") g = Some (str "/c") ->
  served no_files cli all_ok all_ok (str "/s") sv g new_client (str "laptop")
    (fun p => if beqb p (str "/c/laptop") then Some cl else None) c gs os cs.
Proof.
  intros sv cl cli g c gs os cs H Hg Ho Hc Hd. unfold load_both in H.
  destruct (load_global _ _ _ _ _) as [g'|] eqn:E1; [|discriminate].
  destruct (load_clientconfdir _ _ _ _ _ _ _) as [c'|] eqn:E2; [|discriminate]. injection H as -> ->.
  split; try assumption.
  - reflexivity.
  - exists 0. exact E2.
  - exists (str "/c"), cl. split; [exact Hd|]. split; [reflexivity|exact Ho].
Qed.
Definition loaded (sv cl : bytes) (cli : list bytes) (f : String.string) : option cval :=
  match load_both sv cl cli with Some (_, c) => get (str f) c | None => None end.

Example C132_witness :
  match load_both sv_text cl_text a_cli with Some (g, _) => get_str (str "clientconfdir") g = Some (str "/c") | None => False end /\
  loaded sv_text cl_text a_cli "password" = Some (VStr (Some (str "secret"))) /\
  loaded sv_text cl_text a_cli "compression" = Some (VInt 1) /\
  loaded sv_text cl_text a_cli "hard_quota" = Some (VU64 10240) /\
  loaded sv_text cl_text a_cli "enabled" = Some (VInt 0) /\
  loaded sv_text cl_text a_cli "server_script_pre" = Some (VStr (Some (str "/mine"))) /\
  loaded sv_text cl_text a_cli "server_script_post" = Some (VStr (Some (str "/g"))) /\
  loaded sv_text cl_text a_cli "ssl_peer_cn" = Some (VStr (Some (str "laptop"))) /\
  loaded sv_text (text ["password = x"]%string) [] "keep" = Some (VList [str "7"; str "4"]) /\
  loaded sv_text cl_text [] "keep" = Some (VList [str "3"]) /\
  loaded sv_text (text ["keep = 1"]%string) [] "password" = Some (VStr None) /\
  map (fun f => match known (str f) with Some (o, m) => (is_list (o_val o), m) | None => (false, (false, false)) end)
      ["password"; "compression"; "keep"; "restore_client"; "include"]%string
  = [(false, (false, false)); (false, (true, false)); (true, (true, true)); (true, (true, false)); (true, (false, false))] /\
  forallb (fun f => negb (existsb (beqb (str f)) (starters ++ enders))) ["password"; "compression"; "keep"; "restore_client"; "include"]%string = true.
Proof. vm_compute. repeat split. Qed.

(* The client's own word on notification does not count if the server's file says
   server_script_notify = 1. *)
Theorem C132_notify_refuted : exists sv cl g c gs os,
  served no_files [] all_ok all_ok (str "/s") sv g new_client (str "laptop")
    (fun p => if beqb p (str "/c/laptop") then Some cl else None) c gs os [] /\
  last_of (str "server_script_notify") os = Some (str "0") /\
  last_of (str "server_script_pre_notify") os = Some (str "0") /\
  last_of (str "server_script_post_notify") os = None /\
  last_of (str "server_script_post_notify") gs = None /\
  get (str "server_script_notify") c = Some (VInt 0) /\
  get (str "server_script_post_notify") c = Some (VInt 1).
Proof.
  exists sv_text, cl_text.
  destruct (load_both sv_text cl_text []) as [[g c]|] eqn:E; [|vm_compute in E; discriminate].
  destruct (file_sets no_files sv_text) as [gs|] eqn:Eg; [|vm_compute in Eg; discriminate].
  destruct (file_sets no_files cl_text) as [os|] eqn:Eo; [|vm_compute in Eo; discriminate].
  exists g, c, gs, os.
  assert (Hd : get_str (str "clientconfdir") g = Some (str "/c")) by (vm_compute in E; injection E as <- <-; reflexivity).
  split; [apply load_served; try assumption; reflexivity|].
  vm_compute in E, Eg, Eo. injection E as <- <-. injection Eg as <-. injection Eo as <-. vm_compute. repeat split.
Qed.
(* Nor does it with server_script_pre_notify = 0 alone. *)
Theorem C132_notify_own_refuted : exists sv cl g c gs os,
  served no_files [] all_ok all_ok (str "/s") sv g new_client (str "laptop")
    (fun p => if beqb p (str "/c/laptop") then Some cl else None) c gs os [] /\
  os = [(str "server_script_pre_notify", str "0", false)] /\
  get (str "server_script_pre_notify") c = Some (VInt 1).
Proof.
  pose (cl := text ["server_script_pre_notify = 0"]%string). exists sv_text, cl.
  destruct (load_both sv_text cl []) as [[g c]|] eqn:E; [|vm_compute in E; discriminate].
  destruct (file_sets no_files sv_text) as [gs|] eqn:Eg; [|vm_compute in Eg; discriminate].
  destruct (file_sets no_files cl) as [os|] eqn:Eo; [|vm_compute in Eo; discriminate].
  exists g, c, gs, os.
  assert (Hd : get_str (str "clientconfdir") g = Some (str "/c")) by (vm_compute in E; injection E as <- <-; reflexivity).
  split; [apply load_served; try assumption; reflexivity|].
  vm_compute in E, Eg, Eo. injection E as <- <-. injection Eg as <-. injection Eo as <-. vm_compute. repeat split.
Qed.
(* What is given once on the command line of the server is there twice for a client
   that has no list of its own. *)
Theorem C132_cli_refuted : exists sv cl g c gs os,
  served no_files [str "keep = 9"] all_ok all_ok (str "/s") sv g new_client (str "laptop")
    (fun p => if beqb p (str "/c/laptop") then Some cl else None) c gs os [(str "keep", str "9", false)] /\
  given (str "keep") gs [] = [str "7"; str "4"] /\ os = [] /\
  get (str "keep") g = Some (VList [str "7"; str "4"; str "9"]) /\
  get (str "keep") c = Some (VList [str "7"; str "4"; str "9"; str "9"]).
Proof.
  pose (cl := text ["# nothing"]%string). exists sv_text, cl.
  destruct (load_both sv_text cl [str "keep = 9"]) as [[g c]|] eqn:E; [|vm_compute in E; discriminate].
  destruct (file_sets no_files sv_text) as [gs|] eqn:Eg; [|vm_compute in Eg; discriminate].
  destruct (file_sets no_files cl) as [os|] eqn:Eo; [|vm_compute in Eo; discriminate].
  exists g, c, gs, os.
  assert (Hd : get_str (str "clientconfdir") g = Some (str "/c")) by (vm_compute in E; injection E as <- <-; reflexivity).
  split; [apply load_served; try assumption; reflexivity|].
  vm_compute in E, Eg, Eo. injection E as <- <-. injection Eg as <-. injection Eo as <-. vm_compute. repeat split.
Qed.
(* A client cannot take away, with :=, the clients that the server's file lets look
   at it. *)
Theorem C132_reset_refuted : exists sv cl g c gs os,
  served no_files [] all_ok all_ok (str "/s") sv g new_client (str "laptop")
    (fun p => if beqb p (str "/c/laptop") then Some cl else None) c gs os [] /\
  os = [(str "restore_client", str "bob", true)] /\
  get (str "restore_client") c = Some (VList [str "admin"; str "bob"]).
Proof.
  pose (cl := text ["restore_client := bob"]%string). exists sv_text, cl.
  destruct (load_both sv_text cl []) as [[g c]|] eqn:E; [|vm_compute in E; discriminate].
  destruct (file_sets no_files sv_text) as [gs|] eqn:Eg; [|vm_compute in Eg; discriminate].
  destruct (file_sets no_files cl) as [os|] eqn:Eo; [|vm_compute in Eo; discriminate].
  exists g, c, gs, os.
  assert (Hd : get_str (str "clientconfdir") g = Some (str "/c")) by (vm_compute in E; injection E as <- <-; reflexivity).
  split; [apply load_served; try assumption; reflexivity|].
  vm_compute in E, Eg, Eo. injection E as <- <-. injection Eg as <-. injection Eo as <-. vm_compute. repeat split.
Qed.
(* A server whose own file names an ssl_peer_cn expects no name from its clients:
   neither that one nor the client's. *)
Theorem C132_peer_cn_refuted : exists sv cl g c gs os,
  served no_files [] all_ok all_ok (str "/s") sv g new_client (str "laptop")
    (fun p => if beqb p (str "/c/laptop") then Some cl else None) c gs os [] /\
  last_of (str "ssl_peer_cn") gs = Some (str "host") /\ os = [] /\
  get (str "ssl_peer_cn") c = Some (VStr None).
Proof.
  pose (cl := text ["# nothing"]%string). pose (sv := text ["clientconfdir = /c"; "ssl_peer_cn = host"]%string). exists sv, cl.
  destruct (load_both sv cl []) as [[g c]|] eqn:E; [|vm_compute in E; discriminate].
  destruct (file_sets no_files sv) as [gs|] eqn:Eg; [|vm_compute in Eg; discriminate].
  destruct (file_sets no_files cl) as [os|] eqn:Eo; [|vm_compute in Eo; discriminate].
  exists g, c, gs, os.
  assert (Hd : get_str (str "clientconfdir") g = Some (str "/c")) by (vm_compute in E; injection E as <- <-; reflexivity).
  split; [apply load_served; try assumption; reflexivity|].
  vm_compute in E, Eg, Eo. injection E as <- <-. injection Eg as <-. injection Eo as <-. vm_compute. repeat split.
Qed.
(* The end of a line that is too long is read as a line of its own: one line of a
   file sets two options. *)
Theorem C132_lines_refuted : exists s v,
  Forall (fun x => x <> 10) s /\
  file_sets no_files s = Some [(str "label", v, false); (str "enabled", str "0", false)].
Proof.
  exists (str "label = " ++ repeat 97 (Z.to_nat 4087) ++ str "enabled = 0"), (repeat 97 (Z.to_nat 4087)).
  split.
  - apply Forall_forall. intros x Hx. apply in_app_iff in Hx as [Hx|Hx]; [|apply in_app_iff in Hx as [Hx|Hx]].
    + vm_compute in Hx. intuition lia.
    + apply repeat_spec in Hx. lia.
    + vm_compute in Hx. intuition lia.
  - vm_compute. reflexivity.
Qed.

Print Assumptions C132_value.
Print Assumptions C132_list_partial.
Print Assumptions C132_together_partial.
Print Assumptions C132_own_list.
Print Assumptions C132_script.
Print Assumptions C132_peer_cn_partial.
Print Assumptions C132_private.
Print Assumptions C132_inherited.
Print Assumptions C132_fresh.
Print Assumptions C132_lines_partial.
Print Assumptions C132_notify_refuted.
Print Assumptions C132_notify_own_refuted.
Print Assumptions C132_cli_refuted.
Print Assumptions C132_reset_refuted.
Print Assumptions C132_peer_cn_refuted.
Print Assumptions C132_lines_refuted.
