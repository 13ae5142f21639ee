(* C93, C94: what the two sides know of each other after the extra
   communications. *)
From Verif Require Import Bytes PathcmpModel FrameModel BuModel AuthModel ConfModel CntrModel IncexcModel RestoreModel TimerModel MonModel ExtraModel.
From Verif Require Import BuProofs ConfProofs CntrProofs IncexcProofs.

(* ---------- what is meant ---------- *)

(* What the server makes of a directory to seed from or to. *)
Definition seeds (x : cl) : option (bytes * bytes) :=
  match get_str (str "seed_src") (x_conf x), get_str (str "seed_dst") (x_conf x) with
  | Some (a :: s), Some (b :: d) => Some (a :: s, b :: d)
  | _, _ => None
  end.
(* Client and server mean the same. *)
Definition agree (x : cl) (v : sv) : Prop :=
  v_rshash v = x_rshash x /\ x_rshash x = (if x_blake2 x && v_blake2 v then RsBlake2 else RsMd4) /\
  v_msg v = true /\ x_msg x = true /\
  v_cntr v = x_cntr x /\
  v_vss v = x_vss x /\
  v_left v = (match x_action x with XBackup | XBackupTimed => x_failovers x | _ => 0 end) /\
  w_icase (v_own v) = negb (get_int (str "regex_case_insensitive") (x_conf x) =? 0) /\
  match seeds x with
  | None => w_src (v_own v) = None /\ w_dst (v_own v) = None
  | Some (s, d) => w_src (v_own v) = seed_value true s /\ w_dst (v_own v) = seed_value false d /\
                   w_src (v_own v) <> None /\ w_dst (v_own v) <> None
  end /\
  (exists t, recv_text (do_sends Incexc (x_conf x)) = Some t /\ v_incexc v = Some (t ++ str "compression = " ++ fmt_d (v_comp v) ++ [10])).
(* The configuration on the server says nothing of these. *)
Definition fresh (w : own) : Prop := w_src w = None /\ w_dst w = None /\ w_icase w = false.
(* And none of its lines is the message that ends them. *)
Definition calm (w : own) : Prop := fresh w /\ ~ In (str "sincexc end") (w_lines w).
(* The server before anything is exchanged. *)
Definition start (v : sv) : Prop :=
  v_rshash v = RsUnset /\ v_msg v = false /\ v_left v = 0 /\ v_vss v = VssOn /\ v_cntr v = false /\ v_srestore v = false /\
  calm (v_own v) /\
  (forall w ls w', v_rfile v w = Some (ls, w') -> calm w -> calm w' /\ ~ In (str "srestore end") ls) /\
  (forall n b w w', v_switch v n b w = Some w' -> calm w -> calm w').

Inductive steps (sr ie : conf -> bytes -> option conf) : sys -> sys -> Prop :=
| steps_0 : forall y, steps sr ie y y
| steps_S : forall a b c, step sr ie a b -> steps sr ie b c -> steps sr ie a c.
Definition stuck sr ie (y : sys) : Prop := forall z, ~ step sr ie y z.
(* No execution goes on for ever. *)
Definition ends sr ie (y : sys) : Prop := Acc (fun b a => step sr ie a b) y.

(* ---------- the order of deliveries does not matter ---------- *)

Section Diamond.
Variable A : Type.
Variable R : A -> A -> Prop.
Hypothesis diamond : forall x y z, R x y -> R x z -> y = z \/ exists w, R y w /\ R z w.
Inductive path : nat -> A -> A -> Prop :=
| path_0 : forall x, path 0 x x
| path_S : forall n x y z, R x y -> path n y z -> path (S n) x z.
Lemma path_step : forall n x z, path n x z -> (forall w, ~ R z w) -> forall y, R x y -> exists m, n = S m /\ path m y z.
Proof.
  induction n as [|n IH]; intros x z P N y H; inversion P; subst.
  - exfalso. exact (N y H).
  - match goal with Hr : R x ?x1, Hp : path n ?x1 z |- _ => rename Hr into H1; rename Hp into P1; rename x1 into x1' || idtac end.
    exists n. split; auto. match goal with H1 : R x ?a |- _ => destruct (diamond x a y H1 H) as [->|(w & W1 & W2)]; auto; destruct (IH a z P1 N w W1) as (m & -> & Pm) end.
    econstructor; eauto.
Qed.
Lemma path_acc : forall n x z, path n x z -> (forall w, ~ R z w) -> Acc (fun b a => R a b) x.
Proof.
  induction n as [n IH] using lt_wf_ind. intros x z P N. constructor. intros y H.
  destruct (path_step n x z P N y H) as (m & -> & Pm). eapply IH; eauto.
Qed.
Lemma path_any : forall n x z, path n x z -> (forall w, ~ R z w) -> forall k y, path k x y -> (forall w, ~ R y w) -> y = z.
Proof.
  intros n x z P N k. revert n x z P N. induction k as [|k IH]; intros n x z P N y Q Ny; inversion Q; subst.
  - inversion P; subst; auto. exfalso. eapply Ny; eauto.
  - match goal with H1 : R x ?a |- _ => destruct (path_step n x z P N a H1) as (m & -> & Pm); eapply IH; eauto end.
Qed.
End Diamond.

Section E.
Variable sr ie : conf -> bytes -> option conf.
Notation step := (step sr ie). Notation steps := (steps sr ie). Notation stuck := (stuck sr ie).

Lemma step_diamond : forall a b c, step a b -> step a c -> b = c \/ exists d, step b d /\ step c d.
Proof.
  intros a b c H1 H2. inversion H1; subst; inversion H2; subst.
  - left. match goal with X : sstep ?s ?v ?m = _, Y : sstep ?s ?v ?m = _ |- _ => rewrite X in Y; injection Y as <- <- <- end. auto.
  - right. eexists. split; [cbn [app]; rewrite <- ?app_comm_cons; eapply step_c; eauto|].
    cbn [app]; rewrite <- ?app_comm_cons; eapply step_s; eauto.
  - right. eexists. split; [rewrite <- ?app_comm_cons; eapply step_s; eauto|]. rewrite <- ?app_comm_cons; eapply step_c; eauto.
  - left. match goal with X : cstep _ _ ?s ?v ?m = _, Y : cstep _ _ ?s ?v ?m = _ |- _ => rewrite X in Y; injection Y as <- <- <- end. auto.
Qed.
Lemma steps_path : forall a b, steps a b <-> exists n, path sys step n a b.
Proof.
  intros a b. split.
  - induction 1 as [y|a b c H _ (n & P)]; [exists 0%nat; constructor|exists (S n); econstructor; eauto].
  - intros (n & P). induction P; [constructor|econstructor; eauto].
Qed.
Lemma steps_trans : forall a b c, steps a b -> steps b c -> steps a c.
Proof. intros a b c H. induction H; auto. intros. econstructor; eauto. Qed.
Theorem one_end : forall a z, steps a z -> stuck z -> ends sr ie a /\ forall b, steps a b -> stuck b -> b = z.
Proof.
  intros a z Hs N. apply steps_path in Hs as (n & P). split.
  - eapply path_acc; eauto. apply step_diamond.
  - intros b Hb Nb. apply steps_path in Hb as (k & Q). eapply path_any; eauto. apply step_diamond.
Qed.

(* ---------- ways to an end ---------- *)

Variable act0 : xaction.
Definition took (x : cl) (v : sv) : Prop := x_action x = if v_srestore v then XRestore else act0.
Definition good (z : sys) : Prop :=
  (y_c z = CDone /\ y_s z = SDone /\ agree (y_x z) (y_v z) /\ took (y_x z) (y_v z)) \/
  y_c z = CFail \/ y_c z = CUpgrade \/ y_s z = SFail \/ y_s z = SExit.
Definition leads (P : sys -> Prop) (y : sys) : Prop := exists z, steps y z /\ stuck z /\ P z.
Lemma leads_steps : forall P a b, steps a b -> leads P b -> leads P a.
Proof. intros P a b H (z & S & R). exists z. split; auto. eapply steps_trans; eauto. Qed.

Lemma s_over : forall s v r q c x, s_ended s = true -> exists c' x' q' r', steps (mksys c x s v q r) (mksys c' x' s v q' r') /\ stuck (mksys c' x' s v q' r').
Proof.
  intros s v r. induction r as [|m r IH]; intros q c x E.
  - exists c, x, q, []. split; [constructor|]. intros z H. inversion H; subst; congruence.
  - destruct (c_ended c) eqn:Ec.
    + exists c, x, q, (m :: r). split; [constructor|]. intros z H. inversion H; subst; congruence.
    + destruct (cstep sr ie c x m) as [[c1 x1] o] eqn:Es. destruct (IH (q ++ o) c1 x1 E) as (c' & x' & q' & r' & S & N).
      exists c', x', q', r'. split; auto. eapply steps_S; [eapply step_c; eauto|exact S].
Qed.
Lemma c_over : forall c x q r s v, c_ended c = true -> exists s' v' q' r', steps (mksys c x s v q r) (mksys c x s' v' q' r') /\ stuck (mksys c x s' v' q' r').
Proof.
  intros c x q. induction q as [|m q IH]; intros r s v E.
  - exists s, v, [], r. split; [constructor|]. intros z H. inversion H; subst; congruence.
  - destruct (s_ended s) eqn:Ec.
    + exists s, v, (m :: q), r. split; [constructor|]. intros z H. inversion H; subst; congruence.
    + destruct (sstep s v m) as [[s1 v1] o] eqn:Es. destruct (IH (r ++ o) s1 v1 E) as (s' & v' & q' & r' & S & N).
      exists s', v', q', r'. split; auto. eapply steps_S; [eapply step_s; eauto|exact S].
Qed.
Lemma leads_sfail : forall c x v q r, leads good (mksys c x SFail v q r).
Proof.
  intros. destruct (s_over SFail v r q c x eq_refl) as (c' & x' & q' & r' & S & N). eexists. split; [exact S|]. split; auto.
  right. right. right. left. auto.
Qed.
Lemma leads_sexit : forall c x v q r, leads good (mksys c x SExit v q r).
Proof.
  intros. destruct (s_over SExit v r q c x eq_refl) as (c' & x' & q' & r' & S & N). eexists. split; [exact S|]. split; auto.
  right. right. right. right. auto.
Qed.
Lemma leads_cfail : forall s x v q r, leads good (mksys CFail x s v q r).
Proof.
  intros. destruct (c_over CFail x q r s v eq_refl) as (c' & x' & q' & r' & S & N). eexists. split; [exact S|]. split; auto.
  right. left. auto.
Qed.
Lemma leads_cup : forall s x v q r, leads good (mksys CUpgrade x s v q r).
Proof.
  intros. destruct (c_over CUpgrade x q r s v eq_refl) as (c' & x' & q' & r' & S & N). eexists. split; [exact S|]. split; auto.
  right. right. left. auto.
Qed.
Lemma leads_s : forall P c x s v m q r s' v' out, s_ended s = false -> sstep s v m = (s', v', out) ->
  leads P (mksys c x s' v' q (r ++ out)) -> leads P (mksys c x s v (m :: q) r).
Proof. intros. eapply leads_steps; [|eauto]. eapply steps_S; [eapply step_s; eauto|constructor]. Qed.
Lemma leads_c : forall P c x s v m q r c' x' out, c_ended c = false -> cstep sr ie c x m = (c', x', out) ->
  leads P (mksys c' x' s v (q ++ out) r) -> leads P (mksys c x s v q (m :: r)).
Proof. intros. eapply leads_steps; [|eauto]. eapply steps_S; [eapply step_c; eauto|constructor]. Qed.

(* ---------- messages the server takes ---------- *)

Lemma s_end : forall v, s_loop v (str "extra_comms_end") = s_finish v. Proof. reflexivity. Qed.
Lemma s_uname : forall v c u, s_loop v (str "uname=" ++ c :: u) = (SLoop, if is_windows (c :: u) then set_windows v else v, []).
Proof.
  intros v c u. transitivity (if 6 <? Z.of_nat (List.length (str "uname=" ++ c :: u))
    then (SLoop, if is_windows (c :: u) then set_windows v else v, []) else (SFail, v, []) : sout); [reflexivity|].
  replace (6 <? Z.of_nat (List.length (str "uname=" ++ c :: u))) with true; auto.
  symmetry. apply Z.ltb_lt. rewrite app_length. change (List.length (str "uname=")) with 6%nat. cbn [List.length]. lia.
Qed.
Lemma s_uname0 : forall v, s_loop v (str "uname=") = (SFail, v, []). Proof. reflexivity. Qed.
Lemma s_msg : forall v, s_loop v (str "msg") = (SLoop, set_msg v, []). Proof. reflexivity. Qed.
Lemma s_rsh : forall v, v_blake2 v = true -> s_loop v (str "rshash=blake2") = (SLoop, set_rshash v RsBlake2, []).
Proof. intros v H. transitivity (if v_blake2 v then (SLoop, set_rshash v RsBlake2, []) else (SFail, v, []) : sout); [reflexivity|]. rewrite H. auto. Qed.
Lemma s_left : forall v n, is_int n -> s_loop v (firstn 63 (str "backup_failovers_left=" ++ fmt_d n)) = (SLoop, set_left v n, []).
Proof.
  intros v n H. rewrite firstn_all2.
  2:{ rewrite app_length. change (List.length (str "backup_failovers_left=")) with 22%nat. pose proof (fmt_d_len n H). lia. }
  transitivity (SLoop, set_left v (atoi (fmt_d n)), [] : list bytes); [reflexivity|]. rewrite atoi_fmt by auto. auto.
Qed.
Lemma s_src : forall v s, s_loop v (str "seed_src=" ++ s) = match seed_value true s with
    | Some s => (SLoop, set_own v (mkown (w_lines (v_own v)) (Some s) (w_dst (v_own v)) (w_icase (v_own v))), [])
    | None => (SFail, v, []) end.
Proof. reflexivity. Qed.
Lemma s_dst : forall v s, s_loop v (str "seed_dst=" ++ s) = match seed_value false s with
    | Some s => (SLoop, set_own v (mkown (w_lines (v_own v)) (w_src (v_own v)) (Some s) (w_icase (v_own v))), [])
    | None => (SFail, v, []) end.
Proof. reflexivity. Qed.
Lemma s_vss1 : forall v, s_loop v (str "vss_restore=off") = (SLoop, set_vss v VssOff, []). Proof. reflexivity. Qed.
Lemma s_vss2 : forall v, s_loop v (str "vss_restore=strip") = (SLoop, set_vss v VssStrip, []). Proof. reflexivity. Qed.
Lemma s_icase : forall v, s_loop v (str "regex_icase=1") = (SLoop, set_own v (mkown (w_lines (v_own v)) (w_src (v_own v)) (w_dst (v_own v)) true), []).
Proof. reflexivity. Qed.
Lemma s_cntr : forall v, s_loop v (str "counters_json ok") = (SLoop, set_cntr v, []). Proof. reflexivity. Qed.
Lemma s_incexc : forall v, s_loop v (str "incexc") = (SInc None, v, [str "incexc ok"]). Proof. reflexivity. Qed.
Lemma s_sincexc : forall v, s_loop v (str "sincexc ok") = (SWait (str "sincexc end ok"), v, w_lines (v_own v) ++ [str "sincexc end"]).
Proof. reflexivity. Qed.
Lemma s_notok : forall v, s_loop v (str "srestore not ok") = (SLoop, set_restore v false (v_srestore v), []). Proof. reflexivity. Qed.
Lemma s_restok : forall v, s_loop v (str "srestore ok") =
  if negb (v_restore v) then (SFail, v, [])
    else match v_rfile v (v_own v) with
         | None => (SFail, set_restore v true true, [])
         | Some (ls, w) => (SWait (str "srestore end ok"), set_own (set_restore v true true) w, ls ++ [str "srestore end"])
         end.
Proof. reflexivity. Qed.
Lemma s_orig : forall v n, s_loop v (firstn 511 (str "orig_client=" ++ n)) =
  match n with [] => (SFail, v, []) | _ => match v_switch v (firstn 499 n) (v_srestore v) (v_own v) with
    | Some w => (SLoop, set_own v w, [str "orig_client ok"])
    | None => (SFail, v, []) end end.
Proof.
  intros v [|c n]; [reflexivity|].
  change (firstn 511 (str "orig_client=" ++ c :: n)) with (str "orig_client=" ++ c :: firstn 498 n).
  change (firstn 499 (c :: n)) with (c :: firstn 498 n).
  transitivity (if 12 <? Z.of_nat (List.length (str "orig_client=" ++ c :: firstn 498 n)) then
    match v_switch v (c :: firstn 498 n) (v_srestore v) (v_own v) with
    | Some w => (SLoop, set_own v w, [str "orig_client ok"]) | None => (SFail, v, []) end else (SFail, v, []) : sout); [reflexivity|].
  replace (12 <? Z.of_nat (List.length (str "orig_client=" ++ c :: firstn 498 n))) with true; auto.
  symmetry. apply Z.ltb_lt. rewrite app_length. change (List.length (str "orig_client=")) with 12%nat. cbn [List.length]. lia.
Qed.
Lemma s_auto : forall v c os, s_loop v (firstn 255 (str "autoupgrade:" ++ c :: os)) =
  match v_auto v (sanitise (firstn 243 (c :: os))) with
  | AutoNo => (SLoop, v, [str "do not autoupgrade"])
  | AutoErr => (SFail, v, [str "do not autoupgrade"])
  | AutoOk => (SExit, v, [str "autoupgrade ok"])
  end.
Proof. reflexivity. Qed.

(* ---------- the feature list ---------- *)

Definition feats (F : bytes) (r o j b : bool) : Prop :=
  supports F (str ":autoupgrade:") = true /\ supports F (str ":incexc:") = true /\ supports F (str ":orig_client:") = true /\
  supports F (str ":uname:") = true /\ supports F (str ":failover:") = true /\ supports F (str ":vss_restore:") = true /\
  supports F (str ":regex_icase:") = true /\ supports F (str ":msg:") = true /\ supports F (str ":seed:") = true /\
  supports F (str ":srestore:") = r /\ supports F (str ":sincexc:") = o /\ supports F (str ":counters_json:") = j /\
  supports F (str ":rshash=blake2:") = b.
Lemma features_feats : forall v, feats (features v) (v_restore v) (v_offers v) (v_json v) (v_blake2 v).
Proof. intros v. unfold features. destruct (v_restore v), (v_offers v), (v_json v), (v_blake2 v); repeat split; vm_compute; reflexivity. Qed.
Lemma features_begin : forall v, starts_with (features v) (str "extra_comms_begin ok") = true. Proof. reflexivity. Qed.

(* ---------- the last part ---------- *)

Inductive quiet : list bytes -> sv -> sv -> Prop :=
| quiet_nil : forall v, quiet [] v v
| quiet_cons : forall m ms v v1 v', s_loop v m = (SLoop, v1, []) -> quiet ms v1 v' -> quiet (m :: ms) v v'.
Lemma leads_quiet : forall P ms v v', quiet ms v v' -> forall c x q r, leads P (mksys c x SLoop v' q r) -> leads P (mksys c x SLoop v (ms ++ q) r).
Proof.
  intros P ms v v' Q. induction Q as [v|m ms v v1 v' E Q IH]; intros c x q r H; auto. cbn [app].
  eapply leads_s; [reflexivity|cbn [sstep]; exact E|]. rewrite app_nil_r. apply IH. auto.
Qed.
Lemma quiet_one : forall m v v', s_loop v m = (SLoop, v', []) -> quiet [m] v v'.
Proof. intros. econstructor; eauto. constructor. Qed.

Definition v_uname (x : cl) (v : sv) : sv := match x_uname x with Some u => if is_windows u then set_windows v else v | None => v end.
Definition v_rsh (b : bool) (v : sv) : sv := if b then set_rshash v RsBlake2 else v.
Definition v_fail (x : cl) (v : sv) : sv := if x_backs (x_action x) then set_left v (x_failovers x) else v.
Definition v_vs (x : cl) (v : sv) : sv := match x_vss x with VssOff => set_vss v VssOff | VssStrip => set_vss v VssStrip | VssOn => v end.
Definition v_ic (b : bool) (v : sv) : sv := if b then set_own v (mkown (w_lines (v_own v)) (w_src (v_own v)) (w_dst (v_own v)) true) else v.

Lemma rest_leads : forall F r o j b x v t, feats F r o j b -> v_blake2 v = b -> v_rshash v = RsUnset -> v_left v = 0 -> v_vss v = VssOn ->
  fresh (v_own v) -> v_cntr v = x_cntr x -> is_int (x_failovers x) -> took x v ->
  recv_text (do_sends Incexc (x_conf x)) = Some t -> v_incexc v = Some (t ++ str "compression = " ++ fmt_d (v_comp v) ++ [10]) ->
  let '(m, x', out) := p_rest F x in leads good (mksys m x' SLoop v out []).
Proof.
  intros F r o j b x v t (_ & _ & _ & Fu & Ff & Fv & Fi & Fm & Fs & _ & _ & _ & Fb) Vb Vr Vl Vv (O1 & O2 & O3) Vc Hi Tk Ht Vi.
  unfold p_rest. rewrite Fm. set (x2 := set_xrshash _ _).
  unfold m_uname, m_msg, m_rshash, blake2, m_failover, m_seed, m_vss, m_icase. rewrite Fu, Fm, Fb, Ff, Fs, Fv, Fi. cbn [andb].
  (* uname *)
  assert (U : (x_uname x = Some []) \/ quiet (match x_uname x with Some u => [str "uname=" ++ u] | None => [] end) v (v_uname x v)).
  { unfold v_uname. destruct (x_uname x) as [[|c u]|]; auto; right; [apply quiet_one, s_uname|constructor]. }
  destruct U as [U|U].
  { rewrite U. cbn [app]. eapply leads_s; [reflexivity|cbn [sstep]; apply s_uname0|]. apply leads_sfail. }
  eapply leads_quiet; [exact U|]. clear U. set (v1 := v_uname x v).
  assert (E1 : v_blake2 v1 = b /\ v_rshash v1 = RsUnset /\ v_left v1 = 0 /\ v_vss v1 = VssOn /\ v_own v1 = v_own v /\ v_cntr v1 = v_cntr v /\
               v_incexc v1 = v_incexc v /\ v_comp v1 = v_comp v /\ v_srestore v1 = v_srestore v).
  { unfold v1, v_uname. destruct (x_uname x) as [u|]; [destruct (is_windows u)|]; cbn; auto 15. }
  clearbody v1. destruct E1 as (B1 & R1 & L1 & V1 & W1 & C1 & I1 & P1 & T1).
  (* msg *)
  eapply leads_quiet; [apply quiet_one, s_msg|].
  (* rshash *)
  eapply (leads_quiet _ _ _ (v_rsh (x_blake2 x && b) (set_msg v1))).
  { destruct (x_blake2 x); cbn [andb]; [|constructor]. destruct b; [|constructor]. apply quiet_one, s_rsh. exact B1. }
  (* failovers *)
  eapply (leads_quiet _ _ _ (v_fail x (v_rsh (x_blake2 x && b) (set_msg v1)))).
  { unfold v_fail. destruct (x_backs (x_action x)); [|constructor]. apply quiet_one, s_left. auto. }
  set (v4 := v_fail x (v_rsh (x_blake2 x && b) (set_msg v1))).
  assert (E4 : v_blake2 v4 = b /\ v_rshash v4 = (if x_blake2 x && b then RsBlake2 else RsUnset) /\
               v_left v4 = (if x_backs (x_action x) then x_failovers x else 0) /\ v_vss v4 = VssOn /\ v_own v4 = v_own v /\
               v_cntr v4 = v_cntr v /\ v_incexc v4 = v_incexc v /\ v_comp v4 = v_comp v /\ v_msg v4 = true /\ v_srestore v4 = v_srestore v).
  { unfold v4, v_fail, v_rsh. destruct (x_blake2 x), b, (x_backs (x_action x)); cbn; auto 15. }
  clearbody v4. destruct E4 as (B4 & R4 & L4 & V4 & W4 & C4 & I4 & P4 & M4 & T4).
  assert (Fin : forall v5, v_blake2 v5 = b -> v_rshash v5 = v_rshash v4 -> v_left v5 = v_left v4 -> v_vss v5 = VssOn ->
      v_cntr v5 = v_cntr v4 -> v_incexc v5 = v_incexc v4 -> v_comp v5 = v_comp v4 -> v_msg v5 = true -> v_srestore v5 = v_srestore v4 -> w_icase (v_own v5) = false ->
      match seeds x with
      | None => w_src (v_own v5) = None /\ w_dst (v_own v5) = None
      | Some (s, d) => w_src (v_own v5) = seed_value true s /\ w_dst (v_own v5) = seed_value false d /\
                   w_src (v_own v5) <> None /\ w_dst (v_own v5) <> None end ->
      leads good (mksys CEnd x2 SLoop v5
        ((match x_vss x with VssOff => [str "vss_restore=off"] | VssStrip => [str "vss_restore=strip"] | VssOn => [] end) ++
         (if is_on (str "regex_case_insensitive") (x_conf x) then [str "regex_icase=1"] else []) ++ [str "extra_comms_end"]) [])).
  { intros v5 B5 R5 L5 V5 C5 I5 P5 M5 T5 W5 S5.
    eapply (leads_quiet _ _ _ (v_vs x v5)).
    { unfold v_vs. destruct (x_vss x); [apply quiet_one, s_vss1|apply quiet_one, s_vss2|constructor]. }
    eapply (leads_quiet _ _ _ (v_ic (is_on (str "regex_case_insensitive") (x_conf x)) (v_vs x v5))).
    { destruct (is_on (str "regex_case_insensitive") (x_conf x)); [apply quiet_one, s_icase|constructor]. }
    set (v7 := v_ic _ _).
    assert (E7 : v_blake2 v7 = b /\ v_rshash v7 = v_rshash v4 /\ v_left v7 = v_left v4 /\ v_vss v7 = x_vss x /\ v_cntr v7 = v_cntr v4 /\
                 v_incexc v7 = v_incexc v4 /\ v_comp v7 = v_comp v4 /\ v_msg v7 = true /\
                 w_icase (v_own v7) = is_on (str "regex_case_insensitive") (x_conf x) /\
                 w_src (v_own v7) = w_src (v_own v5) /\ w_dst (v_own v7) = w_dst (v_own v5) /\ v_srestore v7 = v_srestore v4).
    { unfold v7, v_ic, v_vs. destruct (is_on (str "regex_case_insensitive") (x_conf x)), (x_vss x); cbn; auto 15. }
    clearbody v7. destruct E7 as (B7 & R7 & L7 & V7 & C7 & I7 & P7 & M7 & W7 & Sr7 & Sd7 & T7).
    assert (Ag : agree x2 (match v_rshash v7 with RsUnset => set_rshash v7 RsMd4 | _ => v7 end)).
    { rewrite R7, R4. unfold x2, agree, blake2. rewrite Fb. unfold is_on in W7.
      destruct (x_blake2 x) eqn:Xb, b; cbn [andb set_rshash set_xrshash set_xmsg v_rshash x_rshash x_blake2 v_blake2 v_msg x_msg v_cntr x_cntr v_vss x_vss
        v_left x_action x_failovers v_own x_conf v_comp v_incexc] in *;
      rewrite ?Xb, ?R7, ?R4, ?B7, ?M7, ?C7, ?C4, ?V7, ?L7, ?L4, ?W7, ?I7, ?I4, ?Vi, ?P7, ?P4; cbn [andb];
      (do 8 (split; [first [reflexivity | assumption | destruct (x_action x); reflexivity]|]));
      (split; [rewrite Sr7, Sd7; exact S5|exists t; split; [exact Ht|reflexivity]]). }
    assert (Sf : s_finish v7 = (SDone, match v_rshash v7 with RsUnset => set_rshash v7 RsMd4 | _ => v7 end, [str "extra_comms_end ok"])).
    { unfold s_finish. cbv zeta.
      assert (Ow : v_own (match v_rshash v7 with RsUnset => set_rshash v7 RsMd4 | _ => v7 end) = v_own v7) by (destruct (v_rshash v7); reflexivity).
      rewrite Ow, Sr7, Sd7. destruct (seeds x) as [[s d]|].
      - destruct S5 as (_ & _ & N1 & N2). destruct (w_src (v_own v5)); [|congruence]. destruct (w_dst (v_own v5)); [|congruence]. reflexivity.
      - destruct S5 as (-> & ->). reflexivity. }
    eapply leads_s; [reflexivity|cbn [sstep]; rewrite s_end; exact Sf|]. cbn [app].
    eapply leads_c; [reflexivity|cbn [cstep]; rewrite beqb_refl; reflexivity|].
    eexists. split; [constructor|]. split.
    - intros z H. inversion H.
    - left. split; [reflexivity|]. split; [reflexivity|]. split; [exact Ag|].
      cbn [y_x y_v]. unfold took in *. rewrite T4 in T7.
      replace (v_srestore (match v_rshash v7 with RsUnset => set_rshash v7 RsMd4 | _ => v7 end)) with (v_srestore v7) by (destruct (v_rshash v7); reflexivity).
      rewrite T7. exact Tk. }
  (* seeds *)
  unfold seeds in Fin. destruct (get_str (str "seed_src") (x_conf x)) as [[|sa s0]|]; destruct (get_str (str "seed_dst") (x_conf x)) as [[|b0 d0]|];
    try (cbn [app]; apply Fin; rewrite ?W4; auto; fail).
  cbn [app]. destruct (seed_value true (sa :: s0)) as [s'|] eqn:Q1.
  2:{ eapply leads_s; [reflexivity|cbn [sstep]; rewrite s_src, Q1; reflexivity|]. apply leads_sfail. }
  eapply leads_s; [reflexivity|cbn [sstep]; rewrite s_src, Q1; reflexivity|]. cbn [app].
  destruct (seed_value false (b0 :: d0)) as [d'|] eqn:Q2.
  2:{ eapply leads_s; [reflexivity|cbn [sstep]; rewrite s_dst, Q2; reflexivity|]. apply leads_sfail. }
  eapply leads_s; [reflexivity|cbn [sstep]; rewrite s_dst, Q2; reflexivity|]. cbn [app].
  apply Fin; cbn; rewrite ?W4; auto. do 2 (split; [auto|]). split; discriminate.
Qed.

(* ---------- the parts before it ---------- *)

Variable lines_ok : conf -> Prop.
Hypothesis ok_lines : forall c, lines_ok c -> ~ In (str "incexc end") (do_sends Incexc c).
Hypothesis sr_ok : forall c t c', sr c t = Some c' -> lines_ok c -> lines_ok c'.
Hypothesis ie_ok : forall c t c', ie c t = Some c' -> lines_ok c -> lines_ok c'.

Lemma leads_inc : forall P c x v r ls q t, ~ In (str "incexc end") ls ->
  leads P (mksys c x (SInc (fold_left add_to_incexc ls t)) v q r) -> leads P (mksys c x (SInc t) v (ls ++ q) r).
Proof.
  intros P c x v r ls q. induction ls as [|l ls IH]; intros t N H; auto. cbn [app].
  assert (B : beqb l (str "incexc end") = false) by (apply beqb_neq; intros E; apply N; left; auto).
  eapply leads_s; [reflexivity|cbn [sstep]; rewrite B; reflexivity|]. rewrite app_nil_r. apply IH; auto. intros X. apply N. right; auto.
Qed.
Lemma leads_cinc : forall P F x s v q ls r t, ~ In (str "sincexc end") ls ->
  leads P (mksys (CInc F (fold_left add_to_incexc ls t)) x s v q r) -> leads P (mksys (CInc F t) x s v q (ls ++ r)).
Proof.
  intros P F x s v q ls r. induction ls as [|l ls IH]; intros t N H; auto. cbn [app].
  assert (B : beqb l (str "sincexc end") = false) by (apply beqb_neq; intros E; apply N; left; auto).
  eapply leads_c; [reflexivity|cbn [cstep]; rewrite B; reflexivity|]. rewrite app_nil_r. apply IH; auto. intros X. apply N. right; auto.
Qed.
Lemma leads_crest : forall P F x s v q ls r t, ~ In (str "srestore end") ls ->
  leads P (mksys (CRest F (fold_left add_to_incexc ls t)) x s v q r) -> leads P (mksys (CRest F t) x s v q (ls ++ r)).
Proof.
  intros P F x s v q ls r. induction ls as [|l ls IH]; intros t N H; auto. cbn [app].
  assert (B : beqb l (str "srestore end") = false) by (apply beqb_neq; intros E; apply N; left; auto).
  eapply leads_c; [reflexivity|cbn [cstep]; rewrite B; reflexivity|]. rewrite app_nil_r. apply IH; auto. intros X. apply N. right; auto.
Qed.

(* What is so of the server until the last part. *)
Definition mid (b : bool) (x : cl) (v : sv) : Prop :=
  v_blake2 v = b /\ v_rshash v = RsUnset /\ v_left v = 0 /\ v_vss v = VssOn /\ calm (v_own v) /\ v_cntr v = x_cntr x /\
  is_int (x_failovers x) /\ took x v /\ lines_ok (x_conf x) /\
  (forall w ls w', v_rfile v w = Some (ls, w') -> calm w -> calm w' /\ ~ In (str "srestore end") ls) /\
  (forall n b w w', v_switch v n b w = Some w' -> calm w -> calm w').

Definition out_leads (o : cout) (s : smode) (v : sv) : Prop := let '(m, x, out) := o in leads good (mksys m x s v out []).
Lemma out_first : forall o ms s v v', (forall m x out, o = (m, x, out) -> leads good (mksys m x s v' out []) -> leads good (mksys m x s v (ms ++ out) [])) ->
  out_leads o s v' -> out_leads (first ms o) s v.
Proof. intros [[m x] out] ms s v v' H L. cbn. eapply H; eauto. Qed.

Lemma cntr_leads : forall F r o j b x v, feats F r o j b -> mid b x v -> out_leads (p_cntr F x) SLoop v.
Proof.
  intros F r o j b x v Ft (Vb & Vr & Vl & Vv & (Vf & Vn) & Vc & Hi & Tk & Lo & Hr & Hs).
  pose proof Ft as (_ & Fi & _ & _ & _ & _ & _ & _ & _ & _ & _ & Fj & _). unfold p_cntr. rewrite Fj, Fi.
  assert (K : forall x1 v1, x_conf x1 = x_conf x -> x_failovers x1 = x_failovers x -> x_action x1 = x_action x ->
    v_blake2 v1 = b -> v_rshash v1 = RsUnset -> v_left v1 = 0 -> v_vss v1 = VssOn -> fresh (v_own v1) -> v_cntr v1 = x_cntr x1 -> v_srestore v1 = v_srestore v ->
    leads good (mksys (CIncOk F) x1 SLoop v1 [str "incexc"] [])).
  { intros x1 v1 Ec Ef Ea B1 R1 L1 V1 F1 C1 T1.
    eapply leads_s; [reflexivity|cbn [sstep]; apply s_incexc|]. cbn [app].
    eapply leads_c; [reflexivity|cbn [cstep]; rewrite beqb_refl; reflexivity|]. cbn [app].
    apply leads_inc; [rewrite Ec; apply ok_lines; exact Lo|].
    eapply leads_s; [reflexivity|cbn [sstep]; rewrite beqb_refl; reflexivity|]. cbn [app].
    destruct (recv_text (do_sends Incexc (x_conf x1))) as [t|] eqn:Et; [|discriminate].
    unfold recv_text in Et. rewrite Et.
    destruct (p_rest F x1) as [[m x'] out] eqn:Ep.
    eapply leads_c; [reflexivity|cbn [cstep]; rewrite beqb_refl; exact Ep|]. cbn [app].
    pose proof (rest_leads F r o j b x1 (set_incexc v1 (Some (t ++ str "compression = " ++ fmt_d (v_comp v1) ++ [10]))) t Ft) as L.
    rewrite Ep in L. apply L; auto.
    - rewrite Ef; auto.
    - unfold took in *. cbn. rewrite Ea, T1. exact Tk. }
  destruct j; cbn [first out_leads app].
  - eapply leads_s; [reflexivity|cbn [sstep]; apply s_cntr|]. cbn [app]. apply K; auto.
  - apply K; auto.
Qed.

Lemma sinc_leads : forall F r o j b x v, feats F r o j b -> mid b x v -> out_leads (p_sinc F x) SLoop v.
Proof.
  intros F r o j b x v Ft M. pose proof M as (Vb & Vr & Vl & Vv & (Vf & Vn) & Vc & Hi & Tk & Lo & Hr & Hs). unfold p_sinc.
  destruct (backs_up (x_action x) && match x_incexc x with Some _ => false | None => true end && supports F (str ":sincexc:") &&
    is_on (str "server_can_override_includes") (x_conf x)); [|eapply cntr_leads; eauto].
  cbn [out_leads]. eapply leads_s; [reflexivity|cbn [sstep]; apply s_sincexc|]. cbn [app].
  apply leads_cinc; auto. destruct (ie (x_conf x) (match add_to_incexc (fold_left add_to_incexc (w_lines (v_own v)) None) [10] with Some t => t | None => [] end)) as [c|] eqn:Ei.
  - pose proof (cntr_leads F r o j b (set_xincexc (set_xconf x c) (add_to_incexc (fold_left add_to_incexc (w_lines (v_own v)) None) [10])) v Ft) as L.
    destruct (p_cntr F (set_xincexc (set_xconf x c) (add_to_incexc (fold_left add_to_incexc (w_lines (v_own v)) None) [10]))) as [[m x'] out] eqn:Ep.
    eapply leads_c; [reflexivity|cbn [cstep]; rewrite beqb_refl; unfold add_to_incexc in *; rewrite Ei, Ep; reflexivity|]. cbn [app].
    eapply leads_s; [reflexivity|cbn [sstep]; rewrite beqb_refl; reflexivity|]. cbn [app].
    apply L. unfold mid. cbn. do 4 (split; [auto|]). split; [split; auto|]. do 3 (split; [auto|]). split; [|auto]. eapply ie_ok; eauto.
  - eapply leads_c; [reflexivity|cbn [cstep]; rewrite beqb_refl; unfold add_to_incexc in *; rewrite Ei; reflexivity|]. apply leads_cfail.
Qed.

Lemma orig_leads : forall F r o j b x v, feats F r o j b -> mid b x v -> out_leads (p_orig F x) SLoop v.
Proof.
  intros F r o j b x v Ft M. pose proof M as (Vb & Vr & Vl & Vv & Vf & Vc & Hi & Tk & Lo & Hr & Hs). unfold p_orig.
  destruct (get_str (str "orig_client") (x_conf x)) as [n|]; [|eapply sinc_leads; eauto].
  pose proof Ft as (_ & _ & Fo & _). rewrite Fo. cbn [out_leads].
  destruct n as [|c n].
  { eapply leads_s; [reflexivity|cbn [sstep]; rewrite s_orig; reflexivity|]. apply leads_sfail. }
  destruct (v_switch v (firstn 499 (c :: n)) (v_srestore v) (v_own v)) as [w|] eqn:Sw.
  2:{ eapply leads_s; [reflexivity|cbn [sstep]; rewrite s_orig, Sw; reflexivity|]. apply leads_sfail. }
  eapply leads_s; [reflexivity|cbn [sstep]; rewrite s_orig, Sw; reflexivity|]. cbn [app].
  pose proof (sinc_leads F r o j b x (set_own v w) Ft) as L. destruct (p_sinc F x) as [[m x'] out] eqn:Ep.
  eapply leads_c; [reflexivity|cbn [cstep]; rewrite beqb_refl; exact Ep|]. cbn [app].
  apply L. unfold mid. cbn. do 4 (split; [auto|]). split; [eapply Hs; eauto|]. do 5 (split; [auto|]). auto.
Qed.

Lemma srest_leads : forall F r o j b x v, feats F r o j b -> mid b x v -> v_restore v = r -> v_srestore v = false -> out_leads (p_srest F x) SLoop v.
Proof.
  intros F r o j b x v Ft M Er Es. pose proof M as (Vb & Vr & Vl & Vv & Vf & Vc & Hi & Tk & Lo & Hr & Hs). unfold p_srest.
  pose proof Ft as (_ & _ & _ & _ & _ & _ & _ & _ & _ & Fr & _). rewrite Fr.
  destruct r; [|eapply orig_leads; eauto]. destruct (is_monitor (x_action x)); [eapply orig_leads; eauto|].
  destruct (is_on (str "server_can_restore") (x_conf x)).
  - cbn [out_leads]. destruct (v_rfile v (v_own v)) as [[ls w]|] eqn:Rf.
    2:{ eapply leads_s; [reflexivity|cbn [sstep]; rewrite s_restok, Er, Rf; reflexivity|]. apply leads_sfail. }
    destruct (Hr _ _ _ Rf Vf) as (Cw & Nl).
    eapply leads_s; [reflexivity|cbn [sstep]; rewrite s_restok, Er, Rf; reflexivity|]. cbn [app].
    apply leads_crest; auto. destruct (sr (x_conf x) (match add_to_incexc (fold_left add_to_incexc ls None) [10] with Some t => t | None => [] end)) as [c|] eqn:Ei.
    + pose proof (orig_leads F true o j b (set_xaction (set_xincexc (set_xconf x c) (add_to_incexc (fold_left add_to_incexc ls None) [10])) XRestore) (set_own (set_restore v true true) w) Ft) as L.
      destruct (p_orig F (set_xaction (set_xincexc (set_xconf x c) (add_to_incexc (fold_left add_to_incexc ls None) [10])) XRestore)) as [[m x'] out] eqn:Ep.
      eapply leads_c; [reflexivity|cbn [cstep]; rewrite beqb_refl; unfold add_to_incexc in *; rewrite Ei, Ep; reflexivity|]. cbn [app].
      eapply leads_s; [reflexivity|cbn [sstep]; rewrite beqb_refl; reflexivity|]. cbn [app].
      apply L. unfold mid, took. cbn. do 8 (split; [auto|]). split; [eapply sr_ok; eauto|auto].
    + eapply leads_c; [reflexivity|cbn [cstep]; rewrite beqb_refl; unfold add_to_incexc in *; rewrite Ei; reflexivity|]. apply leads_cfail.
  - eapply (out_first _ _ _ v (set_restore v false (v_srestore v))).
    + intros m x1 out _ H. cbn [app]. eapply leads_s; [reflexivity|cbn [sstep]; apply s_notok|]. cbn [app]. exact H.
    + eapply orig_leads; eauto. 
Qed.

Theorem begin_leads : forall x v, start v -> x_cntr x = false -> is_int (x_failovers x) -> x_action x = act0 -> lines_ok (x_conf x) ->
  x_os x <> Some [] -> leads good (begin x v).
Proof.
  intros x v (Vr & Vm & Vl & Vv & Vc & Vs & Vf & Hr & Hs) Xc Hi Xa Lo Os. unfold begin.
  assert (M : mid (v_blake2 v) x v).
  { unfold mid, took. rewrite Vc, Vs, Xc. do 10 (split; [auto|]). auto. }
  pose proof (features_feats v) as Ft.
  eapply leads_s; [reflexivity|cbn [sstep]; rewrite beqb_refl; reflexivity|]. cbn [app].
  pose proof (srest_leads _ _ _ _ _ _ _ Ft M eq_refl Vs) as L.
  destruct (p_auto (features v) x) as [[m x'] out] eqn:Ep.
  eapply leads_c; [reflexivity|cbn [cstep]; rewrite features_begin; exact Ep|]. cbn [app].
  unfold p_auto in Ep. revert Ep Os; destruct (x_os x) as [[|c os]|]; intros Ep Os; [exfalso; apply Os; reflexivity| |unfold out_leads in L; rewrite Ep in L; exact L].
  pose proof Ft as (Fa & _). unfold supports_auto in Ep. rewrite Fa, orb_true_r in Ep.
  pose proof (f_equal (fun o => fst (fst o)) Ep) as Q1. pose proof (f_equal (fun o => snd (fst o)) Ep) as Q2. pose proof (f_equal snd Ep) as Q3.
  cbn [fst snd] in Q1, Q2, Q3. rewrite <- Q1, <- Q2, <- Q3. clear Ep Q1 Q2 Q3.
  destruct (v_auto v (sanitise (firstn 243 (c :: os)))) eqn:Au.
  - eapply leads_s; [reflexivity|cbn [sstep]; rewrite s_auto, Au; reflexivity|]. cbn [app].
    destruct (p_srest (features v) x) as [[m2 x2] out2] eqn:Eq.
    eapply leads_c; [reflexivity|cbn [cstep]; rewrite beqb_refl; exact Eq|]. exact L.
  - eapply leads_s; [reflexivity|cbn [sstep]; rewrite s_auto, Au; reflexivity|]. apply leads_sfail.
  - eapply leads_s; [reflexivity|cbn [sstep]; rewrite s_auto, Au; reflexivity|]. apply leads_sexit.
Qed.
End E.

(* ---------- with what the client does with the lines ---------- *)

(* No option has a name with a space in it. *)
Definition spaceless (c : conf) : Prop := Forall (fun f => ~ In 32 f) (map o_field c).
Lemma string_not : forall f v e, ~ In 32 f -> In 32 e -> ~ In 61 e -> ~ In 0 e -> incexc_string f v <> e.
Proof.
  intros f v e Hf H1 H2 H3 E. unfold incexc_string, prepend_n in E. destruct (Z.eqb_spec (hd0 v) 0) as [Z0|Z0].
  - destruct v as [|c v]; cbn [app] in E.
    + rewrite app_nil_r in E. subst; auto.
    + cbn in Z0. subst c. apply H3. rewrite <- E. apply in_or_app. right. left. auto.
  - apply H2. rewrite <- E. apply in_or_app. right. apply in_or_app. left. cbn. auto.
Qed.
Theorem lines_not : forall w c e, spaceless c -> In 32 e -> ~ In 61 e -> ~ In 0 e -> ~ In e (do_sends w c).
Proof.
  intros w c e Hc H1 H2 H3 H. unfold do_sends in H. apply in_flat_map in H as (o & Ho & H).
  assert (Hf : ~ In 32 (o_field o)). { unfold spaceless in Hc. rewrite Forall_forall in Hc. apply Hc. apply in_map; auto. }
  destruct (flagged w o); [|destruct H]. unfold opt_lines in H.
  destruct (o_val o) as [[s|]|n|n|l|s]; try (destruct H as [H|[]]; revert H; apply string_not; auto; fail); try (destruct H; fail).
  apply in_map_iff in H as (v & H & _). revert H. apply string_not; auto.
Qed.

Section P.
Variable inclusion : bytes -> conf -> option conf.
Hypothesis keeps : forall f c c', inclusion f c = Some c' -> map o_field c' = map o_field c.
Lemma buf_fields : forall t c c', load_buf inclusion t c = Some c' -> map o_field c' = map o_field c.
Proof. intros t c c' H. unfold load_buf in H. destruct (ltoks t []); [discriminate|]. eapply parse_lines_fields; eauto. Qed.
Lemma incexcs_fields : forall c t c', incexcs_buf inclusion c t = Some c' -> map o_field c' = map o_field c.
Proof.
  intros c t c' H. apply buf_fields in H. rewrite H. unfold free_incexcs. apply (map_if_fields o_inc (fun o => free_content (o_val o))).
Qed.
Lemma srestore_fields : forall c t c', incexcs_srestore inclusion c t = Some c' -> map o_field c' = map o_field c.
Proof.
  intros c t c' H. unfold incexcs_srestore in H. destruct (get_str rp_field c) as [old|]; [|discriminate].
  destruct (load_buf inclusion t (set_str rp_field None (free_incexcs c))) as [c1|] eqn:L; [|discriminate]. apply buf_fields in L.
  assert (K : map o_field c1 = map o_field c).
  { rewrite L. unfold set_str. rewrite (map_if_fields (fun o => beqb (o_field o) rp_field) (fun _ => VStr None)).
    unfold free_incexcs. apply (map_if_fields o_inc (fun o => free_content (o_val o))). }
  destruct (get_str rp_field c1) as [srv|]; [destruct (has_dot_component srv); [discriminate|]|]; injection H as <-;
    unfold set_str; rewrite (map_if_fields (fun o => beqb (o_field o) rp_field) (fun _ => VStr _)); auto.
Qed.
End P.

Theorem agreement : forall inclusion, (forall f c c', inclusion f c = Some c' -> map o_field c' = map o_field c) ->
  let sr := incexcs_srestore inclusion in let ie := incexcs_buf inclusion in
  forall x v, start v -> x_cntr x = false -> is_int (x_failovers x) -> spaceless (x_conf x) -> x_os x <> Some [] ->
  ends sr ie (begin x v) /\ (exists z, steps sr ie (begin x v) z /\ stuck sr ie z) /\
  forall z, steps sr ie (begin x v) z -> stuck sr ie z -> good (x_action x) z.
Proof.
  intros inclusion keeps sr ie x v Hv Hc Hi Hs Ho.
  assert (L : leads sr ie (good (x_action x)) (begin x v)).
  { apply (begin_leads sr ie (x_action x) spaceless); auto.
    - intros c Sc. apply lines_not; auto; cbn; intuition discriminate.
    - intros c t c' H Sc. unfold spaceless. rewrite (srestore_fields inclusion keeps c t c' H). exact Sc.
    - intros c t c' H Sc. unfold spaceless. rewrite (incexcs_fields inclusion keeps c t c' H). exact Sc. }
  destruct L as (z & S1 & N & G). destruct (one_end sr ie _ _ S1 N) as (E & U). split; auto. split; [eauto|].
  intros z' S2 N2. rewrite (U z' S2 N2). exact G.
Qed.

(* One way for the exchange to go, to show examples of it. *)
Definition next (sr ie : conf -> bytes -> option conf) (y : sys) : option sys :=
  match y_c2s y with
  | m :: r => if s_ended (y_s y) then None else let '(s', v', out) := sstep (y_s y) (y_v y) m in Some (mksys (y_c y) (y_x y) s' v' r (y_s2c y ++ out))
  | [] => match y_s2c y with
          | m :: r => if c_ended (y_c y) then None else let '(c', x', out) := cstep sr ie (y_c y) (y_x y) m in Some (mksys c' x' (y_s y) (y_v y) (y_c2s y ++ out) r)
          | [] => None
          end
  end.
Fixpoint go (sr ie : conf -> bytes -> option conf) (n : nat) (y : sys) : sys :=
  match n with O => y | S n => match next sr ie y with Some z => go sr ie n z | None => y end end.
Lemma next_step : forall sr ie y z, next sr ie y = Some z -> step sr ie y z.
Proof.
  intros sr ie [c x s v q r] z H. unfold next in H. cbn [y_c2s y_s2c y_s y_c y_x y_v] in H. destruct q as [|m q].
  - destruct r as [|m r]; [discriminate|]. destruct (c_ended c) eqn:E; [discriminate|].
    destruct (cstep sr ie c x m) as [[c' x'] out] eqn:C. injection H as <-. eapply (step_c sr ie c x s v m r []); eauto.
  - destruct (s_ended s) eqn:E; [discriminate|]. destruct (sstep s v m) as [[s' v'] out] eqn:C. injection H as <-. eapply step_s; eauto.
Qed.
Lemma go_steps : forall sr ie n y, steps sr ie y (go sr ie n y).
Proof.
  intros sr ie. induction n as [|n IH]; intros y; cbn [go]; [constructor|]. destruct (next sr ie y) as [z|] eqn:E; [|constructor].
  econstructor; [apply next_step; eauto|]. apply IH.
Qed.
Lemma stuck_empty : forall sr ie c x s v, stuck sr ie (mksys c x s v [] []).
Proof. intros sr ie c x s v z H. inversion H. Qed.

(* ---------- C93: what is not so ---------- *)

(* A client whose autoupgrade_os is empty and the server wait for each other. *)
Definition x_ex (os : option bytes) (a : xaction) : cl := mkcl table os a None 0 VssOn true None false false RsUnset.
Definition own_ex : own := mkown [str "include = /home"] None None false.
Definition v_ex : sv := mksv own_ex false true true true 5 (fun _ => AutoNo) (fun w => Some ([str "include = /etc"; str "restoreprefix = /x"], w)) (fun _ _ _ => Some own_ex)
  false None false false RsUnset false 0 VssOn.
Lemma start_ex : start v_ex.
Proof.
  unfold start. do 6 (split; [reflexivity|]). assert (C : calm own_ex) by (split; [repeat split|cbn; intuition discriminate]).
  split; [exact C|]. split.
  - intros w ls w' H Cw. cbn in H. injection H as <- <-. split; auto. cbn. intuition discriminate.
  - intros n b w w' H Cw. cbn in H. injection H as <-. exact C.
Qed.
Lemma spaceless_table : spaceless table.
Proof.
  unfold spaceless. apply Forall_forall. intros f Hf H.
  assert (E : forallb (fun f => negb (existsb (fun c => c =? 32) f)) (map o_field table) = true) by (vm_compute; reflexivity).
  rewrite forallb_forall in E. apply E in Hf. apply negb_true_iff in Hf. 
  assert (X : existsb (fun c => c =? 32) f = true) by (apply existsb_exists; exists 32; auto). congruence.
Qed.
Theorem agreement_refuted : forall inclusion, let sr := incexcs_srestore inclusion in let ie := incexcs_buf inclusion in
  exists x v z, start v /\ spaceless (x_conf x) /\ steps sr ie (begin x v) z /\ stuck sr ie z /\
    c_ended (y_c z) = false /\ s_ended (y_s z) = false.
Proof.
  intros inclusion sr ie. clearbody sr ie. exists (x_ex (Some []) XBackup), v_ex. exists (go sr ie 3 (begin (x_ex (Some []) XBackup) v_ex)).
  split; [apply start_ex|].
  split; [apply spaceless_table|].
  split; [apply go_steps|]. split; [vm_compute; apply stuck_empty|]. vm_compute. auto.
Qed.

(* What the server has of its own is not taken back. *)
Definition v_ex2 : sv := mksv (mkown [str "include = /home"] None None true) false true true true 5 (fun _ => AutoNo) (fun _ => None) (fun _ _ _ => None)
  false None false false RsUnset false 0 VssOn.
Theorem agreement_own_refuted : forall inclusion, let sr := incexcs_srestore inclusion in let ie := incexcs_buf inclusion in
  exists x v z, x_os x = None /\ spaceless (x_conf x) /\ get_int (str "regex_case_insensitive") (x_conf x) = 0 /\
    steps sr ie (begin x v) z /\ stuck sr ie z /\ y_c z = CDone /\ y_s z = SDone /\ ~ agree (y_x z) (y_v z).
Proof.
  intros inclusion sr ie. clearbody sr ie. exists (x_ex None XRestore), v_ex2, (go sr ie 60 (begin (x_ex None XRestore) v_ex2)).
  split; [reflexivity|]. split; [apply spaceless_table|]. split; [reflexivity|]. split; [apply go_steps|].
  assert (E : exists x v, go sr ie 60 (begin (x_ex None XRestore) v_ex2) = mksys CDone x SDone v [] [] /\
    w_icase (v_own v) = true /\ get_int (str "regex_case_insensitive") (x_conf x) = 0).
  { eexists; eexists. split; [vm_compute; reflexivity|]. split; vm_compute; reflexivity. }
  destruct E as (x & v & -> & Hw & Hg). split; [apply stuck_empty|]. split; [reflexivity|]. split; [reflexivity|].
  intros (_ & _ & _ & _ & _ & _ & _ & A & _). cbn [y_v y_x] in A. rewrite Hw, Hg in A. discriminate.
Qed.

(* ---------- C94: a client and any server ---------- *)

Section Any.
Variable sr ie : conf -> bytes -> option conf.
(* What the client does when the server sends these, and what it has sent. *)
Fixpoint served (m : cmode) (x : cl) (msgs : list bytes) : cout :=
  match msgs with
  | [] => (m, x, [])
  | g :: r => let '(m1, x1, out) := cstep sr ie m x g in first out (served m1 x1 r)
  end.

Definition after_rest (m : cmode) : Prop := match m with CBegin | CAuto _ | CRest _ _ => False | _ => True end.
Lemma rest_keeps : forall F x, let '(m, x', _) := p_rest F x in m = CEnd /\ x_action x' = x_action x /\ x_conf x' = x_conf x /\ x_os x' = x_os x.
Proof. intros F x. unfold p_rest. destruct (supports F (str ":msg:")); cbn; auto. Qed.
Lemma cntr_keeps : forall F x, let '(m, x', _) := p_cntr F x in (m = CIncOk F \/ m = CEnd) /\ x_action x' = x_action x /\ x_conf x' = x_conf x /\ x_os x' = x_os x.
Proof.
  intros F x. unfold p_cntr.
  assert (K : forall y ms, x_action y = x_action x -> x_conf y = x_conf x -> x_os y = x_os x ->
    let '(m, x', _) := first ms (if supports F (str ":incexc:") then (CIncOk F, y, [str "incexc"]) else p_rest F y) in
    (m = CIncOk F \/ m = CEnd) /\ x_action x' = x_action x /\ x_conf x' = x_conf x /\ x_os x' = x_os x).
  { intros y ms A B C. destruct (supports F (str ":incexc:")); cbn [first]; [rewrite A, B, C; auto|].
    pose proof (rest_keeps F y) as K. destruct (p_rest F y) as [[m x'] out]. cbn [first]. destruct K as (-> & -> & -> & ->). rewrite A, B, C. auto. }
  destruct (supports F (str ":counters_json:")); apply K; reflexivity.
Qed.
Lemma sinc_keeps : forall F x, let '(m, x', _) := p_sinc F x in
  (m = CIncOk F \/ m = CEnd \/ (m = CInc F None /\ is_on (str "server_can_override_includes") (x_conf x) = true)) /\
  x_action x' = x_action x /\ x_conf x' = x_conf x /\ x_os x' = x_os x.
Proof.
  intros F x. unfold p_sinc. destruct (_ && is_on _ _) eqn:E.
  - apply andb_true_iff in E as (_ & E). auto 10.
  - pose proof (cntr_keeps F x) as K. destruct (p_cntr F x) as [[m x'] out]. destruct K as ([K|K] & K2); auto.
Qed.
Lemma orig_keeps : forall F x, let '(m, x', _) := p_orig F x in
  (m = CIncOk F \/ m = CEnd \/ m = COrig F \/ m = CFail \/ (m = CInc F None /\ is_on (str "server_can_override_includes") (x_conf x) = true)) /\
  x_action x' = x_action x /\ x_conf x' = x_conf x /\ x_os x' = x_os x.
Proof.
  intros F x. unfold p_orig. destruct (get_str (str "orig_client") (x_conf x)).
  - destruct (supports F (str ":orig_client:")); auto 10.
  - pose proof (sinc_keeps F x) as K. destruct (p_sinc F x) as [[m x'] out]. destruct K as ([K|[K|K]] & K2); auto 10.
Qed.
Lemma srest_keeps : forall F x, is_on (str "server_can_restore") (x_conf x) = false -> let '(m, x', _) := p_srest F x in
  (m = CIncOk F \/ m = CEnd \/ m = COrig F \/ m = CFail \/ (m = CInc F None /\ is_on (str "server_can_override_includes") (x_conf x) = true)) /\
  x_action x' = x_action x /\ x_conf x' = x_conf x /\ x_os x' = x_os x.
Proof.
  intros F x E. unfold p_srest. rewrite E. pose proof (orig_keeps F x) as K. destruct (p_orig F x) as [[m x'] out].
  destruct (supports F (str ":srestore:")); auto. destruct (is_monitor (x_action x)); auto.
Qed.

(* The invariant: a is what was asked for, o whether the settings may change. *)
Definition held (a : xaction) (c : conf) (m : cmode) (x : cl) : Prop :=
  x_action x = a /\ (is_on (str "server_can_override_includes") c = false -> x_conf x = c) /\
  match m with
  | CBegin | CAuto _ => x_conf x = c
  | CRest _ _ => False
  | COrig _ => x_conf x = c
  | CInc _ _ => is_on (str "server_can_override_includes") c = true
  | _ => True
  end.
Lemma held_step : forall a c m x g, is_on (str "server_can_restore") c = false -> held a c m x ->
  let '(m1, x1, _) := cstep sr ie m x g in held a c m1 x1.
Proof.
  intros a c m x g Hc (Ha & Hk & Hm). destruct m as [|F|F t|F|F t|F|F| | | |]; cbn [cstep]; try contradiction.
  - destruct (starts_with g (str "extra_comms_begin ok")); [|unfold held; auto]. unfold p_auto.
    pose proof (srest_keeps g x) as K. rewrite Hm in K. specialize (K Hc).
    assert (L : let '(m1, x1, _) := p_srest g x in held a c m1 x1).
    { destruct (p_srest g x) as [[m x'] out]. destruct K as (K & K1 & K2 & K3). unfold held. rewrite K1, K2.
      split; auto. split; [auto|]. destruct K as [->|[->|[->|[->|(-> & K)]]]]; auto. }
    destruct (x_os x); [|exact L]. destruct (supports_auto g); [|exact L]. unfold held. auto.
  - destruct (beqb g (str "do not autoupgrade")).
    + pose proof (srest_keeps F x) as K. rewrite Hm in K. specialize (K Hc). destruct (p_srest F x) as [[m x'] out]. destruct K as (K & K1 & K2 & K3).
      unfold held. rewrite K1, K2. split; auto. split; [auto|]. destruct K as [->|[->|[->|[->|(-> & K)]]]]; auto.
    + destruct (beqb g (str "autoupgrade ok")); unfold held; auto.
  - destruct (beqb g (str "orig_client ok")); [|unfold held; auto].
    pose proof (sinc_keeps F x) as K. destruct (p_sinc F x) as [[m x'] out]. destruct K as (K & K1 & K2 & K3). rewrite Hm in *.
    unfold held. rewrite K1, K2. split; auto. split; [auto|]. destruct K as [->|[->|(-> & K)]]; auto.
  - destruct (beqb g (str "sincexc end")); [|unfold held; auto]. cbn [first add_to_incexc].
    destruct (ie (x_conf x) _) as [c'|]; [|cbn [first]; unfold held; auto].
    match goal with |- context [p_cntr F ?y] => pose proof (cntr_keeps F y) as K; destruct (p_cntr F y) as [[m x'] out] end.
    destruct K as (K & K1 & K2 & K3). cbn [first]. unfold held. rewrite K1. cbn [x_action set_xincexc set_xconf]. split; auto.
    split; [intros X; rewrite X in Hm; discriminate|]. destruct K as [->| ->]; auto.
  - destruct (beqb g (str "incexc ok")); unfold held; auto.
  - destruct (beqb g (str "incexc end ok")); [|unfold held; auto]. pose proof (rest_keeps F x) as K. destruct (p_rest F x) as [[m x'] out].
    destruct K as (-> & K1 & K2 & K3). unfold held. rewrite K1, K2. auto.
  - destruct (beqb g (str "extra_comms_end ok")); unfold held; auto.
  - unfold held; auto.
  - unfold held; auto.
  - unfold held; auto.
Qed.
Theorem protected : forall x msgs, is_on (str "server_can_restore") (x_conf x) = false ->
  let '(_, x', _) := served CBegin x msgs in
  x_action x' = x_action x /\ (is_on (str "server_can_override_includes") (x_conf x) = false -> x_conf x' = x_conf x).
Proof.
  intros x msgs Hc.
  assert (K : forall msgs m y, held (x_action x) (x_conf x) m y -> let '(m', y', _) := served m y msgs in held (x_action x) (x_conf x) m' y').
  { clear msgs. induction msgs as [|g r IH]; intros m y H; cbn [served]; auto. pose proof (held_step _ _ m y g Hc H) as S1.
    destruct (cstep sr ie m y g) as [[m1 y1] out]. specialize (IH _ _ S1). destruct (served m1 y1 r) as [[m2 y2] out2]. exact IH. }
  specialize (K msgs CBegin x). destruct (served CBegin x msgs) as [[m' x'] out]. destruct K as (A & B & _); auto. unfold held. auto.
Qed.

(* It upgrades itself only when it is told of an operating system. *)
Definition no_auto (m : cmode) : Prop := match m with CAuto _ | CUpgrade => False | _ => True end.
Lemma srest_auto : forall F x, let '(m, x', _) := p_srest F x in no_auto m /\ x_os x' = x_os x.
Proof.
  intros F x. unfold p_srest. pose proof (orig_keeps F x) as K.
  assert (L : let '(m, x', _) := p_orig F x in no_auto m /\ x_os x' = x_os x).
  { destruct (p_orig F x) as [[m x'] out]. destruct K as (K & _ & _ & K3). split; auto. destruct K as [->|[->|[->|[->|(-> & _)]]]]; exact I. }
  destruct (supports F (str ":srestore:")); auto. destruct (is_monitor (x_action x)); auto.
  destruct (is_on (str "server_can_restore") (x_conf x)); [cbn; auto|]. destruct (p_orig F x) as [[m x'] out]. exact L.
Qed.
Theorem no_upgrade : forall x msgs, x_os x = None -> let '(m, _, _) := served CBegin x msgs in m <> CUpgrade.
Proof.
  intros x msgs H.
  assert (K : forall msgs m y, no_auto m -> x_os y = None -> let '(m', y', _) := served m y msgs in no_auto m').
  { clear x msgs H. induction msgs as [|g r IH]; intros m y Hm Hy; cbn [served]; auto.
    assert (S1 : let '(m1, y1, _) := cstep sr ie m y g in no_auto m1 /\ x_os y1 = None).
    { destruct m as [|F|F t|F|F t|F|F| | | |]; cbn [cstep]; try contradiction.
      - destruct (starts_with g (str "extra_comms_begin ok")); [|cbn; auto]. unfold p_auto. rewrite Hy.
        pose proof (srest_auto g y) as K. destruct (p_srest g y) as [[m1 y1] out]. destruct K as (K1 & ->). auto.
      - destruct (beqb g (str "srestore end")); [|cbn; auto]. cbn [first add_to_incexc].
        destruct (sr (x_conf y) _) as [c'|]; [|cbn; auto].
        match goal with |- context [p_orig F ?z] => pose proof (orig_keeps F z) as K; destruct (p_orig F z) as [[m1 y1] out] end.
        cbn [first]. destruct K as (K & _ & _ & ->). cbn [x_os set_xaction set_xincexc set_xconf]. split; auto.
        destruct K as [->|[->|[->|[->|(-> & _)]]]]; exact I.
      - destruct (beqb g (str "orig_client ok")); [|cbn; auto]. pose proof (sinc_keeps F y) as K. destruct (p_sinc F y) as [[m1 y1] out].
        destruct K as (K & _ & _ & ->). split; auto. destruct K as [->|[->|(-> & _)]]; exact I.
      - destruct (beqb g (str "sincexc end")); [|cbn; auto]. cbn [first add_to_incexc].
        destruct (ie (x_conf y) _) as [c'|]; [|cbn; auto].
        match goal with |- context [p_cntr F ?z] => pose proof (cntr_keeps F z) as K; destruct (p_cntr F z) as [[m1 y1] out] end.
        cbn [first]. destruct K as (K & _ & _ & ->). cbn [x_os set_xaction set_xincexc set_xconf]. split; auto. destruct K as [->| ->]; exact I.
      - destruct (beqb g (str "incexc ok")); cbn; auto.
      - destruct (beqb g (str "incexc end ok")); [|cbn; auto]. pose proof (rest_keeps F y) as K. destruct (p_rest F y) as [[m1 y1] out].
        destruct K as (-> & _ & _ & ->). cbn; auto.
      - destruct (beqb g (str "extra_comms_end ok")); cbn; auto.
      - cbn; auto.
      - cbn; auto. }
    destruct (cstep sr ie m y g) as [[m1 y1] out]. destruct S1 as (A & B). specialize (IH m1 y1 A B).
    destruct (served m1 y1 r) as [[m2 y2] out2]. exact IH. }
  specialize (K msgs CBegin x I H). destruct (served CBegin x msgs) as [[m x'] out]. intros ->. exact K.
Qed.

(* It goes on in the name of another only when the server has said so. *)
Definition asked (n : bytes) : bytes := firstn 511 (str "orig_client=" ++ n).
Lemma orig_asks : forall F x n, get_str (str "orig_client") (x_conf x) = Some n ->
  p_orig F x = (COrig F, x, [asked n]) \/ p_orig F x = (CFail, x, []).
Proof. intros F x n H. unfold p_orig, asked. rewrite H. destruct (supports F (str ":orig_client:")); auto. Qed.
Lemma srest_asks : forall F x n, get_str (str "orig_client") (x_conf x) = Some n -> is_on (str "server_can_restore") (x_conf x) = false ->
  (exists ms, p_srest F x = (COrig F, x, ms ++ [asked n])) \/ exists ms, p_srest F x = (CFail, x, ms).
Proof.
  intros F x n H E. unfold p_srest. rewrite E.
  assert (K : forall ms, (exists ms', first ms (p_orig F x) = (COrig F, x, ms' ++ [asked n])) \/ exists ms', first ms (p_orig F x) = (CFail, x, ms')).
  { intros ms. destruct (orig_asks F x n H) as [-> | ->]; cbn [first]; eauto. }
  pose proof (K []) as K0. destruct (p_orig F x) as [[m y] out] eqn:Q. cbn [first app] in K0.
  destruct (supports F (str ":srestore:")); auto. destruct (is_monitor (x_action x)); auto.
Qed.
Lemma served_fail : forall m x msgs, c_ended m = true -> served m x msgs = (m, x, []).
Proof.
  intros m x msgs E. induction msgs as [|g r IH]; auto. cbn [served]. destruct m; try discriminate; cbn [cstep]; rewrite IH; auto.
Qed.
Theorem confirmed : forall x msgs n, get_str (str "orig_client") (x_conf x) = Some n -> is_on (str "server_can_restore") (x_conf x) = false ->
  let '(m, _, out) := served CBegin x msgs in m = CDone -> In (asked n) out /\ In (str "orig_client ok") msgs.
Proof.
  intros x msgs n H E.
  assert (A : forall msgs F, let '(m, _, out) := served (COrig F) x msgs in m = CDone -> In (str "orig_client ok") msgs).
  { intros [|g r] F; cbn [served cstep]; [discriminate|]. destruct (beqb g (str "orig_client ok")) eqn:B.
    - apply beqb_eq in B. subst. destruct (let '(m1, x1, out) := p_sinc F x in first out (served m1 x1 r)) as [[m y] out]. intros. left. auto.
    - rewrite served_fail by reflexivity. cbn. discriminate. }
  assert (P : forall msgs F, let '(m, _, out) := (let '(m1, x1, out) := p_srest F x in first out (served m1 x1 msgs)) in
    m = CDone -> In (asked n) out /\ In (str "orig_client ok") msgs).
  { clear msgs. intros msgs F. destruct (srest_asks F x n H E) as [(ms & ->)|(ms & ->)].
    - specialize (A msgs F). destruct (served (COrig F) x msgs) as [[m y] out]. cbn [first]. intros D. split; auto.
      apply in_or_app. left. apply in_or_app. right. left. auto.
    - rewrite served_fail by reflexivity. cbn. discriminate. }
  assert (Q : forall g r m1 x1 out, (let '(m, _, out) := (first out (served m1 x1 r)) in m = CDone -> In (asked n) out /\ In (str "orig_client ok") r) ->
     let '(m, _, out) := (first out (served m1 x1 r)) in m = CDone -> In (asked n) out /\ In (str "orig_client ok") (g :: r)).
  { intros g r m1 x1 out K. destruct (first out (served m1 x1 r)) as [[m y] o]. intros D. destruct (K D). split; auto. right. auto. }
  destruct msgs as [|g r]; cbn [served cstep]; [discriminate|].
  destruct (starts_with g (str "extra_comms_begin ok")); [|rewrite served_fail by reflexivity; cbn; discriminate].
  unfold p_auto.
  assert (P1 : let '(m, _, out) := (let '(m1, x1, out) := p_srest g x in first out (served m1 x1 r)) in
    m = CDone -> In (asked n) out /\ In (str "orig_client ok") (g :: r)).
  { specialize (P r g). destruct (p_srest g x) as [[m1 x1] out]. apply Q. exact P. }
  destruct (x_os x) as [os|]; [|exact P1]. destruct (supports_auto g); [|exact P1].
  apply Q. destruct r as [|g2 r2]; cbn [served cstep first]; [discriminate|].
  destruct (beqb g2 (str "do not autoupgrade")).
  - specialize (P r2 g). destruct (p_srest g x) as [[m1 x1] out]. destruct (first out (served m1 x1 r2)) as [[m y] o].
    cbn [first]. intros D. destruct (P D). split; [apply in_or_app; right; auto|right; auto].
  - destruct (beqb g2 (str "autoupgrade ok")); rewrite served_fail by reflexivity; cbn; discriminate.
Qed.
End Any.
