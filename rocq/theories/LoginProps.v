(* Property C128. *)
From Verif Require Import Bytes CmdModel RestoreModel AuthModel ActionModel UtilModel LoginModel LoginProofs.

(* Client and server, in whatever order the messages arrive: neither goes on
   unless the name and password pass; both come to an end, agree, and know each
   other.  The name and the password must not be empty. *)
Theorem C128_agree_partial : forall cv sv name pw fqdn lower check warns v,
  cstr cv -> (List.length cv <= 249)%nat -> cstr sv -> (List.length sv <= 245)%nat ->
  cstr name -> name <> [] -> cstr pw -> pw <> [] -> client_name fqdn lower name <> [] ->
  version_to_long cv = Some v -> 0 <= v ->
  let C := client cv name pw in
  let S := child sv fqdn lower check warns in
  let cname := client_name fqdn lower name in
  let ok := check cname pw in
  forall rc rs, reached C S (rc, rs) ->
  (st (C rc false) = Done true -> ok = true /\ st (S rs false) = Done true) /\
  (st (S rs false) = Done true -> ok = true) /\
  (st (C rc false) = Done false \/ st (S rs false) = Done false -> ok = false) /\
  st (C rc false) <> Broken /\ st (S rs false) <> Broken /\
  ((exists y, arrives C S (rc, rs) y) \/
   (st (C rc false) = Done ok /\ st (S rs false) = Done ok /\
    kn (S rs false) = Some (cname, Some cv) /\ kn (C rc false) = if 10302 <=? v then Some sv else None)) /\
  (List.length rc + List.length rs <= 7)%nat.
Proof. exact agree. Qed.
Print Assumptions C128_agree_partial.

(* A server of 3.2.0 that lets in "host" with "secret", and a client of 2.4.0. *)
Definition check0 (n p : bytes) : bool := beqb n (str "host") && beqb p (str "secret").
Definition cl0 := client (str "2.4.0") (str "Host.example.org") (str "secret").
Definition sv0 := child (str "3.2.0") false true check0 (fun _ => true).
Example C128_witness :
  cstr (str "2.4.0") /\ cstr (str "3.2.0") /\ cstr (str "Host.example.org") /\ cstr (str "secret") /\
  client_name false true (str "Host.example.org") = str "host" /\ version_to_long (str "2.4.0") = Some 20400 /\
  reached cl0 sv0 ([], []) /\
  let rs := fst (fst (cl0 (firstn 2 (fst (fst (sv0 (fst (fst (cl0 [(CMD_GEN, str "whoareyou")] false))) false)))) false)) in
  rs = [(CMD_GEN, str "hello:2.4.0"); (CMD_GEN, str "Host.example.org"); (CMD_GEN, str "secret")] /\
  sv0 rs false =
    ([(CMD_GEN, str "whoareyou:3.2.0"); (CMD_GEN, str "okpassword");
      (CMD_WARNING, str "Client 'host' version '2.4.0' does not match server version '3.2.0'. An upgrade is recommended.
"); (CMD_GEN, str "ok")], Done true, Some (str "host", Some (str "2.4.0"))) /\
  st (cl0 (fst (fst (sv0 rs false))) false) = Done true.
Proof.
  repeat (split; [first [apply cstrb_ok; reflexivity | apply reached_0 | vm_compute; reflexivity]|]).
  vm_compute. auto.
Qed.

(* Whatever the other side sends: a client gets in only with a name and a password
   that pass, *)
Theorem C128_server : forall sv fqdn lower check warns rcv closed,
  st (child sv fqdn lower check warns rcv closed) = Done true ->
  exists c1 h c2 name c3 pw rest, rcv = (c1, h) :: (c2, name) :: (c3, pw) :: rest /\
    c1 = CMD_GEN /\ starts_with (cview h) (str "hello") = true /\
    client_name fqdn lower (cview name) <> [] /\
    check (client_name fqdn lower (cview name)) (cview pw) = true /\
    kn (child sv fqdn lower check warns rcv closed) =
      Some (client_name fqdn lower (cview name), snd (split_colon (cview h))).
Proof. exact server_safe. Qed.
Print Assumptions C128_server.
Example C128_server_witness : st (sv0 [(CMD_GEN, str "hello"); (CMD_GEN, str "host"); (CMD_GEN, str "secret")] false) = Done true /\
  st (sv0 [(CMD_GEN, str "hello"); (CMD_GEN, str "host"); (CMD_GEN, str "Secret")] false) = Done false.
Proof. vm_compute. auto. Qed.

(* and the client gives its password only when asked, and goes on only when told. *)
Theorem C128_client : forall cv name pw rcv closed,
  let '(sent, s, _) := client cv name pw rcv closed in
  let h := say CMD_GEN (hello cv) in
  let asked := exists b r, rcv = (CMD_GEN, b) :: r /\ starts_with (cview b) (str "whoareyou") = true in
  let asked2 := exists b b2 r, rcv = (CMD_GEN, b) :: (CMD_GEN, b2) :: r /\ starts_with (cview b) (str "whoareyou") = true /\
                  cview b2 = str "okpassword" in
  (sent = h \/ (asked /\ sent = h ++ say CMD_GEN name) \/ (asked2 /\ sent = (h ++ say CMD_GEN name) ++ say CMD_GEN pw)) /\
  (s = Done true -> asked2 /\ exists b, (nth_error rcv 2 = Some (CMD_GEN, b) \/
      (exists t, nth_error rcv 2 = Some (CMD_WARNING, t) /\ nth_error rcv 3 = Some (CMD_GEN, b))) /\ cview b = str "ok").
Proof. exact client_safe. Qed.
Print Assumptions C128_client.
Example C128_client_witness :
  st (cl0 [(CMD_GEN, str "whoareyou"); (CMD_GEN, str "okpassword"); (CMD_WARNING, str "old"); (CMD_GEN, str "ok")] false) = Done true /\
  st (cl0 [(CMD_GEN, str "whoareyou"); (CMD_GEN, str "okpassword"); (CMD_ERROR, str "no")] false) = Done false.
Proof. vm_compute. auto. Qed.

(* There is a warning exactly if the versions differ. *)
Theorem C128_warning : forall sv cname peer, version_warn sv cname peer = [] <-> peer = Some sv.
Proof. exact warning_spec. Qed.
Print Assumptions C128_warning.

(* With an empty password both wait for each other, though it would pass. *)
Theorem C128_empty_refuted : exists check cv sv name,
  check name [] = true /\ version_to_long cv = Some 30200 /\
  let C := client cv name [] in let S := child sv true false check (fun _ => false) in
  exists rc rs, reached C S (rc, rs) /\ st (C rc false) = Waiting /\ st (S rs false) = Waiting /\
    ~ exists y, arrives C S (rc, rs) y.
Proof.
  exists (fun _ _ => true), (str "3.2.0"), (str "3.2.0"), (str "host"). split; [reflexivity|]. split; [reflexivity|].
  cbv zeta. set (C := client _ _ _). set (S := child _ _ _ _ _).
  set (h := (CMD_GEN, str "hello:3.2.0")). set (w := (CMD_GEN, str "whoareyou:3.2.0")).
  set (n := (CMD_GEN, str "host")). set (o := (CMD_GEN, str "okpassword")).
  exists [w; o], [h; n]. split; [|split; [vm_compute; reflexivity|split; [vm_compute; reflexivity|]]].
  - apply (reached_1 _ _ ([w], [h; n])); [|apply (arrives_c _ _ [w] [h; n] o []); vm_compute; reflexivity].
    apply (reached_1 _ _ ([w], [h])); [|apply (arrives_s _ _ [w] [h] n []); vm_compute; reflexivity].
    apply (reached_1 _ _ ([], [h])); [|apply (arrives_c _ _ [] [h] w []); vm_compute; reflexivity].
    apply (reached_1 _ _ ([], [])); [constructor|apply (arrives_s _ _ [] [] h []); vm_compute; reflexivity].
  - intros [y A]. inversion A as [rc rs m rest E|rc rs m rest E]; subst; apply next in E; vm_compute in E; discriminate.
Qed.
Print Assumptions C128_empty_refuted.

(* Before any password, a client can make the server add up numbers that do not
   fit. *)
Theorem C128_version_refuted : exists m, forall sv fqdn lower check warns,
  st (child sv fqdn lower check warns [m] false) = Broken.
Proof. exists (CMD_GEN, str "hello:9223372036854775807.0.0"). reflexivity. Qed.
Print Assumptions C128_version_refuted.
