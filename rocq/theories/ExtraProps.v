(* Properties C93, C94 and C96: what client and server tell each other before the
   work begins, and which files a client is given to upgrade itself. *)
From Verif Require Import Bytes PathcmpModel FrameModel BuModel AuthModel ConfModel CntrModel IncexcModel RestoreModel TimerModel MonModel ExtraModel AutoModel.
From Verif Require Import PathcmpProofs CntrProofs IncexcProofs ExtraProofs AutoProofs.

(* ---------- C93 ---------- *)
(* Missing: a client whose autoupgrade_os is empty, and a server whose own
   configuration for the client has seeds or regex_case_insensitive. *)
Theorem C93_agreement_partial : forall inclusion, (forall f c c', inclusion f c = Some c' -> map o_field c' = map o_field c) ->
  let sr := incexcs_srestore inclusion in let ie := incexcs_buf inclusion in
  forall x v, start v -> x_cntr x = false -> is_int (x_failovers x) -> spaceless (x_conf x) -> x_os x <> Some [] ->
  ends sr ie (begin x v) /\ (exists z, steps sr ie (begin x v) z /\ stuck sr ie z) /\
  forall z, steps sr ie (begin x v) z -> stuck sr ie z -> good (x_action x) z.
Proof. exact agreement. Qed.
Print Assumptions C93_agreement_partial.
Theorem C93_lines : forall w c e, spaceless c -> In 32 e -> ~ In 61 e -> ~ In 0 e -> ~ In e (do_sends w c).
Proof. exact lines_not. Qed.
Print Assumptions C93_lines.
Theorem C93_silence_refuted : forall inclusion, let sr := incexcs_srestore inclusion in let ie := incexcs_buf inclusion in
  exists x v z, start v /\ spaceless (x_conf x) /\ steps sr ie (begin x v) z /\ stuck sr ie z /\
    c_ended (y_c z) = false /\ s_ended (y_s z) = false.
Proof. exact agreement_refuted. Qed.
Print Assumptions C93_silence_refuted.
Theorem C93_own_refuted : forall inclusion, let sr := incexcs_srestore inclusion in let ie := incexcs_buf inclusion in
  exists x v z, x_os x = None /\ spaceless (x_conf x) /\ get_int (str "regex_case_insensitive") (x_conf x) = 0 /\
    steps sr ie (begin x v) z /\ stuck sr ie z /\ y_c z = CDone /\ y_s z = SDone /\ ~ agree (y_x z) (y_v z).
Proof. exact agreement_own_refuted. Qed.
Print Assumptions C93_own_refuted.

(* What is made of a directory to seed from or to, and of only one of them. *)
Theorem C93_seed : forall src s v, seed_value src s = Some v ->
  is_absolute (strip_trailing_slashes s) = true /\
  (v = strip_trailing_slashes s \/ (src = true /\ hd 0 (strip_trailing_slashes s) <> 47 /\ v = 47 :: strip_trailing_slashes s)) /\
  (src = true -> hd 0 v = 47).
Proof.
  intros src s v H. unfold seed_value in H. destruct (is_absolute (strip_trailing_slashes s)); [|discriminate]. cbn [negb] in H.
  split; [reflexivity|]. change (hd 0 (strip_trailing_slashes s)) with (hd0 (strip_trailing_slashes s)).
  destruct src; cbn [andb] in H; [|inversion H; split; [left; reflexivity|discriminate]].
  destruct (Z.eqb_spec (hd0 (strip_trailing_slashes s)) 47); cbn [negb] in H; inversion H; subst v; auto.
Qed.
Print Assumptions C93_seed.
Theorem C93_half : forall v, let '(m, _, _) := s_loop v (str "extra_comms_end") in
  m = SDone <-> (w_src (v_own v) = None <-> w_dst (v_own v) = None).
Proof.
  intros v. change (s_loop v (str "extra_comms_end")) with (s_finish v). unfold s_finish.
  replace (v_own (match v_rshash v with RsUnset => set_rshash v RsMd4 | _ => v end)) with (v_own v) by (destruct (v_rshash v); reflexivity).
  destruct (w_src (v_own v)), (w_dst (v_own v)); cbv iota beta zeta; split; intros H; try reflexivity; try discriminate; try tauto.
  - split; discriminate.
  - destruct H as [_ H]. discriminate (H eq_refl).
  - destruct H as [H _]. discriminate (H eq_refl).
Qed.
Print Assumptions C93_half.
Example C93_seed_witness : seed_value true (str "C:/x/") = Some (str "/C:/x") /\ seed_value false (str "C:/x/") = Some (str "C:/x") /\
  seed_value true (str "x") = None /\ seed_value true (str "/../x") = None.
Proof. repeat split. Qed.

(* A client that backs up, and one that the server has restore. *)
Definition none : bytes -> conf -> option conf := fun _ _ => None.
Definition a_conf : conf := map (fun o =>
  if beqb (o_field o) (str "seed_src") then set_val o (VStr (Some (str "C:\")))
  else if beqb (o_field o) (str "seed_dst") then set_val o (VStr (Some (str "/mnt/")))
  else if beqb (o_field o) (str "restoreprefix") then set_val o (VStr (Some (str "/back"))) else o) table.
Definition a_client : cl := mkcl a_conf (Some (str "deb")) XBackup (Some (str "Linux 6")) 2 VssStrip true None false false RsUnset.
Definition ended_at (y : sys) : sys := go (incexcs_srestore none) (incexcs_buf none) 200 y.
Example C93_witness : start v_ex /\ is_int (x_failovers a_client) /\ x_os a_client <> Some [] /\
  let z := ended_at (begin a_client v_ex) in
  y_c z = CDone /\ y_s z = SDone /\ y_c2s z = [] /\ y_s2c z = [] /\
  v_left (y_v z) = 2 /\ v_vss (y_v z) = VssStrip /\ v_rshash (y_v z) = RsBlake2 /\ w_src (v_own (y_v z)) = Some (str "/C:\") /\
  w_dst (v_own (y_v z)) = Some (str "/mnt") /\ x_action (y_x z) = XBackup /\
  match x_incexc (y_x z) with Some t => t = str "include = /home" ++ [10; 10] | None => False end.
Proof. split; [exact start_ex|]. split; [unfold is_int; cbn; lia|]. split; [discriminate|]. vm_compute. repeat split. Qed.
Definition v_restoring : sv := mksv own_ex true true true false 5 (fun _ => AutoNo)
  (fun w => Some ([str "include = /etc"; str "restoreprefix = /x"], w)) (fun _ _ _ => Some own_ex) false None false false RsUnset false 0 VssOn.
Example C93_restoring : let z := ended_at (begin a_client v_restoring) in
  y_c z = CDone /\ y_s z = SDone /\ v_srestore (y_v z) = true /\ x_action (y_x z) = XRestore /\ v_rshash (y_v z) = RsMd4 /\
  get_str (str "restoreprefix") (x_conf (y_x z)) = Some (str "/back/x").
Proof. vm_compute. repeat split. Qed.

(* ---------- C94 ---------- *)
Theorem C94_protected : forall sr ie x msgs, is_on (str "server_can_restore") (x_conf x) = false ->
  let '(_, x', _) := served sr ie CBegin x msgs in
  x_action x' = x_action x /\ (is_on (str "server_can_override_includes") (x_conf x) = false -> x_conf x' = x_conf x).
Proof. exact protected. Qed.
Print Assumptions C94_protected.
Theorem C94_no_upgrade : forall sr ie x msgs, x_os x = None -> let '(m, _, _) := served sr ie CBegin x msgs in m <> CUpgrade.
Proof. exact no_upgrade. Qed.
Print Assumptions C94_no_upgrade.
Theorem C94_confirmed : forall sr ie x msgs n, get_str (str "orig_client") (x_conf x) = Some n -> is_on (str "server_can_restore") (x_conf x) = false ->
  let '(m, _, out) := served sr ie CBegin x msgs in m = CDone -> In (asked n) out /\ In (str "orig_client ok") msgs.
Proof. exact confirmed. Qed.
Print Assumptions C94_confirmed.
(* A server that sends everything it can to one that lets it restore, and to one
   that does not. *)
Definition pushy : list bytes := [str "extra_comms_begin ok:srestore:sincexc:orig_client:incexc:"; str "restoreprefix = /x"; str "srestore end"; str "incexc ok"].
Definition guarded : conf := map (fun o => if beqb (o_field o) (str "server_can_restore") then set_val o (VInt 0)
  else if beqb (o_field o) (str "orig_client") then set_val o (VStr (Some (str "other"))) else o) a_conf.
Definition set_guard (x : cl) : cl := set_xconf x guarded.
Example C94_witness : is_on (str "server_can_restore") guarded = false /\
  (let '(m, x, _) := served (incexcs_srestore none) (incexcs_buf none) CBegin (mkcl a_conf None XBackup None 0 VssOn true None false false RsUnset) pushy in
   x_action x = XRestore /\ c_ended m = false) /\
  (let '(m, x, _) := served (incexcs_srestore none) (incexcs_buf none) CBegin (mkcl guarded None XBackup None 0 VssOn true None false false RsUnset) pushy in
   x_action x = XBackup /\ m = CFail) /\
  (let '(m, x, out) := served (incexcs_srestore none) (incexcs_buf none) CBegin (mkcl guarded None XRestore None 0 VssOn true None false false RsUnset)
     [str "extra_comms_begin ok:orig_client:"; str "orig_client ok"; str "extra_comms_end ok"] in
   m = CDone /\ out = [str "orig_client=other"; str "extra_comms_end"]).
Proof. vm_compute. repeat split. Qed.

(* ---------- C96 ---------- *)
Theorem C96_sent : forall isreg version ser cli d os script package, d <> [] -> os <> [] -> version <> [] -> ~ In slash version ->
  do_autoupgrade isreg version ser cli (Some d) os = Some (USend script package) <->
  cli < ser /\ exists os', cleaned os os' /\
    package = at_path d [os'; version; str "package"] /\ isreg package = Some true /\ isreg script = Some true /\
    (script = at_path d [os'; version; str "script"] \/
     isreg (at_path d [os'; version; str "script"]) = None /\ script = at_path d [os'; str "script"]).
Proof. exact sent_exactly. Qed.
Print Assumptions C96_sent.
Theorem C96_never : forall isreg version ser cli dir os, dir = None \/ ser <= cli ->
  forall script package, do_autoupgrade isreg version ser cli dir os <> Some (USend script package).
Proof. exact never. Qed.
Print Assumptions C96_never.
(* Missing: a client that gives "." or ".." for its operating system. *)
Theorem C96_confined_partial : forall isreg version ser cli d os script package, d <> [] -> version <> [] -> ~ In slash version ->
  os <> [dot] -> os <> [dot; dot] -> version <> [dot] -> version <> [dot; dot] ->
  do_autoupgrade isreg version ser cli (Some d) os = Some (USend script package) ->
  forall p, p = script \/ p = package -> exists rest, p = d ++ slash :: rest /\ ~ In [dot] (components rest) /\ ~ In [dot; dot] (components rest).
Proof. exact confined. Qed.
Print Assumptions C96_confined_partial.
Theorem C96_confined_refuted : exists isreg version d,
  do_autoupgrade isreg version 30202 20100 (Some d) (str "..") =
    Some (USend (d ++ str "/../script") (d ++ str "/../" ++ version ++ str "/package")).
Proof. exact confined_refuted. Qed.
Print Assumptions C96_confined_refuted.
Example C96_witness : let isreg := fun p => if beqb p (str "/u/..-x/script") || beqb p (str "/u/..-x/3.2.2/package") then Some true else None in
  do_autoupgrade isreg (str "3.2.2") 30202 20100 (Some (str "/u")) (str "../x") = Some (USend (str "/u/..-x/script") (str "/u/..-x/3.2.2/package")) /\
  do_autoupgrade isreg (str "3.2.2") 30202 30202 (Some (str "/u")) (str "../x") = Some UNo.
Proof. vm_compute. auto. Qed.
