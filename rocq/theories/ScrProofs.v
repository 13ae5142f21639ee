(* What the scripts, the exit status, the failover and the timed reports must look like, and the proofs *)
From Coq Require Import ZArith List Bool Lia.
From Verif Require Import Bytes CmdModel BuModel RestoreModel CntrModel CntrProofs ScrModel.
Import ListNotations.
Open Scope Z_scope.

(* ====================== specification: scripts of the client ====================== *)

(* the command line a script must be run with *)
Definition full_cmd (script : bytes) (reserved : bool) (what said : bytes) (user : list bytes) : list bytes :=
  [script] ++ (if reserved then [what; said; str "reserved3"; str "reserved4"; str "reserved5"] else []) ++ user.
(* a script that ends well *)
Definition ends_well (o : sout) : Prop := exists n, o = SExit n /\ n mod 256 = 0.
(* the part before the work *)
Definition before_spec (s : scripts) (glob : bool) (d : list cdo) : Prop :=
  match sc_pre s with
  | None => d = []
  | Some p => d = DScript (full_cmd p (sc_reserved s) (str "pre") (str "reserved2") (sc_pre_args s)) :: if glob then [DGlob] else []
  end.
Definition before_ok (s : scripts) (glob : bool) (o : outcome) : Prop :=
  sc_pre s = None \/ (ends_well (oc_pre o) /\ (glob = true -> oc_glob o = true)).
(* the part after the work, which went well or not *)
Definition after_spec (s : scripts) (well : Prop) (d : list cdo) : Prop :=
  match sc_post s with
  | None => d = []
  | Some p =>
    (well -> d = [DScript (full_cmd p (sc_reserved s) (str "post") (str "0") (sc_post_args s))]) /\
    (~ well -> sc_onfail s = true -> d = [DScript (full_cmd p (sc_reserved s) (str "post") (str "1") (sc_post_args s))]) /\
    (~ well -> sc_onfail s = false -> d = [])
  end.
Definition after_ok (s : scripts) (o : outcome) : Prop := sc_post s = None \/ ends_well (oc_post o).
(* all of it: what is done in which order; the work only after a good start; success only if everything went well *)
Definition around (s : scripts) (glob : bool) (work : cdo) (o : outcome) (d : list cdo) (success : Prop) : Prop :=
  exists d1 d2 d3, d = d1 ++ d2 ++ d3 /\
    before_spec s glob d1 /\
    (before_ok s glob o -> d2 = [work]) /\ (~ before_ok s glob o -> d2 = []) /\
    after_spec s (before_ok s glob o /\ oc_work o = true) d3 /\
    (success <-> before_ok s glob o /\ oc_work o = true /\ after_ok s o).
(* the arguments fit *)
Definition args_fit (s : scripts) : Prop := (length (sc_pre_args s) <= 57)%nat /\ (length (sc_post_args s) <= 57)%nat.

(* ====================== proofs ====================== *)

Lemma script_cmd_fit : forall args user, args <> [] -> (length args + length user <= 63)%nat ->
  script_cmd args user = Some (args ++ user).
Proof.
  intros args user N L. unfold script_cmd. destruct args as [|a r]; [congruence|].
  assert (E : firstn (MAXCMD - 1) (a :: r) = a :: r) by (apply firstn_all2; unfold MAXCMD; lia).
  rewrite E. f_equal. f_equal. apply firstn_all2. unfold MAXCMD. lia.
Qed.

Lemma reserved_full : forall p b x y u, reserved_args p b x y ++ u = full_cmd p b x y u.
Proof. intros. unfold reserved_args, full_cmd. destruct b; reflexivity. Qed.

Lemma reserved_cmd : forall p b x y u, (length u <= 57)%nat ->
  script_cmd (reserved_args p b x y) u = Some (full_cmd p b x y u).
Proof.
  intros p b x y u L. rewrite <- reserved_full. apply script_cmd_fit.
  - unfold reserved_args. discriminate.
  - unfold reserved_args. destruct b; cbn [length]; lia.
Qed.

Lemma script_ret_ok : forall o, script_ret o = 0 <-> ends_well o.
Proof.
  intros o. unfold ends_well. destruct o; cbn [script_ret]; split; intros H; try discriminate; try (destruct H as (m & E & _); discriminate).
  - exists n. auto.
  - destruct H as (m & E & M). congruence.
Qed.
Lemma script_ret_okb : forall o, (script_ret o =? 0) = true <-> ends_well o.
Proof. intros. rewrite Z.eqb_eq. apply script_ret_ok. Qed.
Lemma script_ret_bad : forall o, (script_ret o =? 0) = false <-> ~ ends_well o.
Proof. intros. rewrite Z.eqb_neq, script_ret_ok. reflexivity. Qed.

Lemma run_pre_spec : forall s o, (length (sc_pre_args s) <= 57)%nat ->
  before_spec s (sc_glob s) (fst (run_pre s o)) /\
  (snd (run_pre s o) = CLIENT_OK \/ snd (run_pre s o) = CLIENT_ERROR) /\
  (snd (run_pre s o) = CLIENT_OK <-> before_ok s (sc_glob s) o).
Proof.
  intros s o L. unfold run_pre, before_spec, before_ok. destruct (sc_pre s) as [p|].
  2:{ cbn. split; auto. split; auto. split; auto. }
  rewrite reserved_cmd by auto.
  destruct (script_ret (oc_pre o) =? 0) eqn:R; [apply script_ret_okb in R | apply script_ret_bad in R];
    destruct (sc_glob s); [destruct (oc_glob o)| | destruct (oc_glob o)|]; cbn [fst snd app];
    (split; [reflexivity|]); (split; [auto|]); split; intros H; try discriminate; auto;
    try (right; split; auto; discriminate).
  - destruct H as [H|[_ H]]; [discriminate|]. specialize (H eq_refl). discriminate.
  - destruct H as [H|[H _]]; [discriminate|]. contradiction.
  - destruct H as [H|[H _]]; [discriminate|]. contradiction.
  - destruct H as [H|[H _]]; [discriminate|]. contradiction.
Qed.

Lemma run_post_spec : forall s o ret well, (length (sc_post_args s) <= 57)%nat ->
  ret = CLIENT_OK \/ ret = CLIENT_ERROR -> (ret = CLIENT_OK <-> well) ->
  after_spec s well (fst (run_post s o ret)) /\
  (snd (run_post s o ret) = CLIENT_OK \/ snd (run_post s o ret) = CLIENT_ERROR) /\
  (snd (run_post s o ret) = CLIENT_OK <-> well /\ after_ok s o).
Proof.
  intros s o ret well L V W. unfold run_post, after_spec, after_ok. destruct (sc_post s) as [p|].
  2:{ cbn. split; auto. split; auto. rewrite W. tauto. }
  rewrite reserved_cmd by auto.
  assert (Q : forall r, (if script_ret (oc_post o) =? 0 then r else CLIENT_ERROR) = CLIENT_OK <-> r = CLIENT_OK /\ ends_well (oc_post o)).
  { intros r. destruct (script_ret (oc_post o) =? 0) eqn:R; [apply script_ret_okb in R | apply script_ret_bad in R]; split; intros H.
    - auto. - tauto. - discriminate. - tauto. }
  destruct V as [V|V]; subst ret.
  - assert (W' : well) by (apply W; reflexivity). change (CLIENT_OK =? CLIENT_OK) with true. change (CLIENT_OK =? 0) with true.
    cbn [orb fst snd]. split; [split; [auto|split; intros; contradiction]|].
    split. { destruct (script_ret (oc_post o) =? 0); auto. }
    rewrite Q. split; [intros [_ H]; auto|]. intros [_ [H|H]]; [discriminate|auto].
  - assert (W' : ~ well). { intros H. apply W in H. discriminate. }
    change (CLIENT_ERROR =? CLIENT_OK) with false. change (CLIENT_ERROR =? 0) with false. cbn [orb].
    destruct (sc_onfail s); cbn [fst snd].
    + split; [split; [intros; contradiction|split; [auto|discriminate]]|].
      split. { destruct (script_ret (oc_post o) =? 0); auto. }
      rewrite Q. split; [intros [H _]; discriminate|]. tauto.
    + split; [split; [intros; contradiction|split; [discriminate|auto]]|]. split; auto.
      split; [discriminate|tauto].
Qed.

(* the answer that lets the client go on *)
Definition says_go (msgs : list (Z * bytes)) (resume : bool) (comp : option Z) : Prop :=
  check_timer msgs = RGo resume comp \/ (check_timer msgs = RMet /\ resume = false /\ comp = None).

Theorem backup_around : forall s msgs o resume comp d r, args_fit s -> says_go msgs resume comp ->
  backup_wrapper s false true msgs o = Some (d, r) ->
  around s (sc_glob s) (DBackup resume comp) o d (r = CLIENT_OK) /\ (r = CLIENT_OK \/ r = CLIENT_ERROR).
Proof.
  intros s msgs o resume comp d r [L1 L2] G E. unfold backup_wrapper in E. cbn [negb] in E.
  assert (E' : (let '(d1, r1) := run_pre s o in
        let '(d2, r2) := if r1 =? CLIENT_OK then ([DBackup resume comp], if oc_work o then CLIENT_OK else CLIENT_ERROR)
                         else ([], r1) in
        let '(d3, r3) := run_post s o r2 in
        Some (d1 ++ d2 ++ d3, r3)) = Some (d, r)).
  { destruct G as [G|[G [-> ->]]]; rewrite G in E; exact E. }
  clear E. pose proof (run_pre_spec s o L1) as (P1 & P2 & P3). destruct (run_pre s o) as [d1 r1]. cbn [fst snd] in P1, P2, P3.
  destruct (Z.eqb_spec r1 CLIENT_OK) as [K|K].
  - assert (B : before_ok s (sc_glob s) o) by tauto.
    pose proof (run_post_spec s o (if oc_work o then CLIENT_OK else CLIENT_ERROR)
      (before_ok s (sc_glob s) o /\ oc_work o = true) L2) as Q.
    destruct (run_post s o (if oc_work o then CLIENT_OK else CLIENT_ERROR)) as [d3 r3]. cbn [fst snd] in Q.
    destruct Q as (Q1 & Q2 & Q3).
    { destruct (oc_work o); auto. } { destruct (oc_work o); split; auto; try discriminate. intros [_ H]; discriminate. }
    injection E' as <- <-. split; auto. exists d1, [DBackup resume comp], d3.
    split; [reflexivity|]. split; [auto|]. split; [auto|]. split; [contradiction|]. split; [auto|]. tauto.
  - assert (B : ~ before_ok s (sc_glob s) o) by tauto.
    pose proof (run_post_spec s o r1 (before_ok s (sc_glob s) o /\ oc_work o = true) L2) as Q.
    destruct (run_post s o r1) as [d3 r3]. cbn [fst snd] in Q. destruct Q as (Q1 & Q2 & Q3); [auto|tauto|].
    injection E' as <- <-. split; auto. exists d1, [], d3.
    split; [reflexivity|]. split; [auto|]. split; [contradiction|]. split; [auto|]. split; [auto|]. tauto.
Qed.

(* without the word of the server nothing is run at all *)
Theorem backup_nothing : forall s tc dirs msgs o d r, (forall x y, ~ says_go msgs x y) \/ tc = true \/ dirs = false ->
  backup_wrapper s tc dirs msgs o = Some (d, r) -> d = [].
Proof.
  intros s tc dirs msgs o d r H E. unfold backup_wrapper in E. destruct dirs; cbn [negb] in E; [|congruence].
  destruct (check_timer msgs) as [| | |re co| |] eqn:C; try congruence.
  - destruct H as [H|[H|H]]; [|subst; congruence|discriminate]. exfalso. apply (H false None). right. auto.
  - destruct H as [H|[H|H]]; [|subst; congruence|discriminate]. exfalso. apply (H re co). left. auto.
Qed.

(* exit codes of a backup that is not begun *)
Theorem backup_codes : forall s tc msgs o d r, backup_wrapper s tc true msgs o = Some (d, r) ->
  (r = CLIENT_SERVER_MAX_PARALLEL_BACKUPS <-> check_timer msgs = RMax) /\
  (r = CLIENT_SERVER_TIMER_NOT_MET <-> check_timer msgs = RNotMet).
Proof.
  intros s tc msgs o d r E. unfold backup_wrapper in E. cbn [negb] in E.
  assert (W : forall (w : cdo) d r, (let '(d1, r1) := run_pre s o in
        let '(d2, r2) := if r1 =? CLIENT_OK then ([w], if oc_work o then CLIENT_OK else CLIENT_ERROR) else ([], r1) in
        let '(d3, r3) := run_post s o r2 in Some (d1 ++ d2 ++ d3, r3)) = Some (d, r) -> r = CLIENT_OK \/ r = CLIENT_ERROR).
  { intros w d' r' W. assert (P : snd (run_pre s o) = CLIENT_OK \/ snd (run_pre s o) = CLIENT_ERROR).
    { unfold run_pre. destruct (sc_pre s); cbn; auto. destruct (script_ret _ =? 0), (sc_glob s), (oc_glob o); cbn; auto. }
    destruct (run_pre s o) as [d1 r1]. cbn [snd] in P.
    assert (Q : forall r, r = CLIENT_OK \/ r = CLIENT_ERROR -> snd (run_post s o r) = CLIENT_OK \/ snd (run_post s o r) = CLIENT_ERROR).
    { intros r2 Hr. unfold run_post. destruct (sc_post s); cbn; auto. destruct ((r2 =? 0) || sc_onfail s) eqn:X; change CLIENT_OK with 0 in *;
      rewrite X; cbn [snd]; auto. destruct (script_ret _ =? 0); auto. }
    destruct (r1 =? CLIENT_OK).
    - specialize (Q (if oc_work o then CLIENT_OK else CLIENT_ERROR)). destruct (run_post s o _) as [d3 r3]. cbn [snd] in Q.
      injection W as <- <-. apply Q. destruct (oc_work o); auto.
    - specialize (Q r1). destruct (run_post s o _) as [d3 r3]. cbn [snd] in Q. injection W as <- <-. auto. }
  destruct (check_timer msgs) as [| | |re co| |] eqn:C; try (injection E as <- <-; split; split; intros X; first [discriminate X|reflexivity|auto]); try congruence.
  - destruct tc.
    + injection E as <- <-; split; split; intros X; discriminate X.
    + apply (W (DBackup false None)) in E. destruct E; subst; split; split; intros X; discriminate X.
  - destruct tc.
    + injection E as <- <-; split; split; intros X; discriminate X.
    + apply (W (DBackup re co)) in E. destruct E; subst; split; split; intros X; discriminate X.
Qed.

Theorem restore_around : forall s o w d r, args_fit s -> restore_wrapper s o w = (d, r) ->
  around s false DRestore o d (r = CLIENT_OK \/ r = CLIENT_RESTORE_WARNINGS) /\
  (r = CLIENT_RESTORE_WARNINGS -> w <> 0) /\ (r = CLIENT_OK -> w = 0).
Proof.
  intros s o w d r [L1 L2] E. unfold restore_wrapper in E.
  set (s' := mkscripts (sc_pre s) (sc_pre_args s) (sc_post s) (sc_post_args s) (sc_reserved s) (sc_onfail s) false) in *.
  pose proof (run_pre_spec s' o L1) as (P1 & P2 & P3). destruct (run_pre s' o) as [d1 r1]. cbn [fst snd] in P1, P2, P3.
  assert (P1' : before_spec s false d1) by exact P1.
  assert (P3' : r1 = CLIENT_OK <-> before_ok s false o) by exact P3.
  assert (F : forall r3 well, r3 = CLIENT_OK \/ r3 = CLIENT_ERROR -> (r3 = CLIENT_OK <-> well) ->
     (if (r3 =? CLIENT_OK) && negb (w =? 0) then CLIENT_RESTORE_WARNINGS else r3) = r ->
     ((r = CLIENT_OK \/ r = CLIENT_RESTORE_WARNINGS) <-> well) /\ (r = CLIENT_RESTORE_WARNINGS -> w <> 0) /\ (r = CLIENT_OK -> w = 0)).
  { intros r3 well V W X. destruct V as [V|V]; subst r3.
    - change (CLIENT_OK =? CLIENT_OK) with true in X. cbn [andb] in X. assert (well) by (apply W; reflexivity).
      destruct (Z.eqb_spec w 0) as [Y|Y]; cbn [negb] in X; subst r.
      + split; [split; auto|]. split; [discriminate|auto].
      + split; [split; auto|]. split; [auto|discriminate].
    - change (CLIENT_ERROR =? CLIENT_OK) with false in X. cbn [andb] in X. subst r.
      split; [split; [intros [H|H]; discriminate|]|split; discriminate]. intros H. apply W in H. discriminate. }
  destruct (Z.eqb_spec r1 CLIENT_OK) as [K|K].
  - assert (B : before_ok s false o) by tauto.
    pose proof (run_post_spec s o (if oc_work o then CLIENT_OK else CLIENT_ERROR)
      (before_ok s false o /\ oc_work o = true) L2) as Q.
    destruct (run_post s o (if oc_work o then CLIENT_OK else CLIENT_ERROR)) as [d3 r3]. cbn [fst snd] in Q.
    destruct Q as (Q1 & Q2 & Q3).
    { destruct (oc_work o); auto. } { destruct (oc_work o); split; auto; try discriminate. intros [_ H]; discriminate. }
    pose proof (f_equal fst E) as E1. pose proof (f_equal snd E) as E2. cbn [fst snd] in E1, E2.
    destruct (F r3 _ Q2 Q3 E2) as (F1 & F2 & F3). split; [|auto]. exists d1, [DRestore], d3.
    split; [auto|]. split; [auto|]. split; [auto|]. split; [contradiction|]. split; [auto|]. rewrite F1. tauto.
  - assert (B : ~ before_ok s false o) by tauto.
    pose proof (run_post_spec s o r1 (before_ok s false o /\ oc_work o = true) L2) as Q.
    destruct (run_post s o r1) as [d3 r3]. cbn [fst snd] in Q. destruct Q as (Q1 & Q2 & Q3); [auto|tauto|].
    pose proof (f_equal fst E) as E1. pose proof (f_equal snd E) as E2. cbn [fst snd] in E1, E2.
    destruct (F r3 _ Q2 Q3 E2) as (F1 & F2 & F3). split; [|auto]. exists d1, [], d3.
    split; [auto|]. split; [auto|]. split; [contradiction|]. split; [auto|]. split; [auto|]. rewrite F1. tauto.
Qed.

(* what is run is never more than 63 words, whatever is configured *)
Theorem script_cmd_max : forall args user c, script_cmd args user = Some c ->
  (length c <= 63)%nat /\ c = firstn 63 (args ++ user).
Proof.
  intros args user c E.
  assert (A : c = firstn 63 args ++ firstn (63 - length (firstn 63 args)) user).
  { unfold script_cmd in E. destruct args as [|a r]; [discriminate|]. injection E as <-. reflexivity. }
  assert (B : c = firstn 63 (args ++ user)).
  { rewrite A, firstn_app. f_equal. rewrite firstn_length.
    destruct (Nat.le_gt_cases 63 (length args)).
    - replace (63 - Nat.min 63 (length args))%nat with 0%nat by lia. replace (63 - length args)%nat with 0%nat by lia. reflexivity.
    - f_equal. lia. }
  split; [|exact B]. rewrite B, firstn_length. lia.
Qed.

(* ---------- the answer of the server ---------- *)

Theorem ok_text_read : forall resume comp, is_int comp -> check_timer_func (ok_text resume comp) = RGo resume (Some comp).
Proof.
  intros resume comp H. pose proof (atoi_fmt comp H) as A. unfold ok_text.
  assert (NE : exists c r, fmt_d comp = c :: r).
  { unfold fmt_d. destruct (Z.ltb_spec comp 0); [eauto|]. destruct (fmt_u_spec comp (int_u64 _ H ltac:(lia))) as (_ & L & _).
    destruct (fmt_u comp) as [|c r]; cbn in L; [lia|eauto]. }
  destruct NE as (c & r & E). rewrite E in *. clear E H.
  destruct resume; unfold check_timer_func.
  - replace (beqb _ (str "max parallel backups")) with false by reflexivity.
    replace (beqb _ (str "timer conditions not met")) with false by reflexivity.
    replace (beqb _ (str "timer conditions met")) with false by reflexivity.
    replace (starts_with _ (str "ok")) with false by reflexivity.
    replace (starts_with _ (str "resume")) with true by reflexivity.
    replace (3 <? _)%nat with true by reflexivity.
    replace (_ <? 7)%nat with false by reflexivity.
    f_equal. f_equal. rewrite <- A. reflexivity.
  - replace (beqb _ (str "max parallel backups")) with false by reflexivity.
    replace (beqb _ (str "timer conditions not met")) with false by reflexivity.
    replace (beqb _ (str "timer conditions met")) with false by reflexivity.
    replace (starts_with _ (str "ok")) with true by reflexivity.
    replace (3 <? _)%nat with true by reflexivity.
    replace (_ <? 3)%nat with false by reflexivity.
    f_equal. f_equal. rewrite <- A. reflexivity.
Qed.

(* the only answers that make the client read behind the message are those that are the word resume alone *)
Theorem reply_ub : forall b, check_timer_func b = RUB <-> b = str "resume".
Proof.
  intros b. split; [|intros ->; reflexivity]. unfold check_timer_func.
  destruct (beqb b (str "max parallel backups")); [discriminate|].
  destruct (beqb b (str "timer conditions not met")); [discriminate|].
  destruct (beqb b (str "timer conditions met")); [discriminate|].
  destruct (starts_with b (str "ok")) eqn:O.
  - destruct (Nat.ltb_spec 3 (length b)); [|discriminate]. destruct (Nat.ltb_spec (length b) 3); [lia|discriminate].
  - destruct (starts_with b (str "resume")) eqn:R; [|discriminate].
    destruct (Nat.ltb_spec 3 (length b)); [|discriminate]. destruct (Nat.ltb_spec (length b) 7) as [L|L]; [|discriminate]. intros _.
    change (str "resume") with [114; 101; 115; 117; 109; 101] in R |- *.
    do 6 (destruct b as [|? b]; [discriminate R|]; cbn [starts_with] in R; apply andb_prop in R; destruct R as [?Q R]).
    repeat match goal with X : (_ =? _) = true |- _ => apply Z.eqb_eq in X end. subst. destruct b; [reflexivity|cbn in L; lia].
Qed.

(* messages meant for the log do not change the answer *)
Theorem check_timer_skips : forall l1 b l2, Forall (fun m => fst m = CMD_WARNING \/ fst m = CMD_MESSAGE \/ fst m = CMD_INTERRUPT) l1 ->
  check_timer (l1 ++ (CMD_GEN, b) :: l2) = check_timer_func b.
Proof.
  induction l1 as [|[c x] l IH]; intros b l2 F; [reflexivity|]. inversion F as [|? ? A B]; subst. cbn [fst] in A.
  cbn [app check_timer]. destruct A as [->|[->| ->]]; cbn -[check_timer]; apply IH; auto.
Qed.

(* ---------- the exit status ---------- *)

(* everything there is went well *)
Definition all_well (a : caction) (n : session) : Prop :=
  match a with
  | AStatus | AEstimate => n_work n = 0
  | _ => n_connect n = true /\ n_comms n = 0 /\ n_work n = 0 /\ n_flush n = true
  end.

Theorem exit_ok : forall a n, n_setup n = true -> n_act n <> AEstimate -> (do_client a n = CLIENT_OK <-> all_well a n).
Proof.
  intros a n S N. unfold do_client, all_well, session_work. rewrite S.
  destruct a; cbn [has_wrapper negb];
  try (destruct (Z.eqb_spec (n_work n) 0) as [X|X]; split; intros H; [exact X|reflexivity|discriminate H|congruence]).
  all: destruct (n_connect n); cbn [negb]; [|split; [intros H; discriminate H|intros [H _]; discriminate H]].
  all: destruct (Z.eqb_spec (n_comms n) 0) as [C|C]; cbn [negb]; [|split; [intros; contradiction|tauto]].
  all: destruct (n_act n); try congruence; cbn [has_wrapper]; destruct (n_flush n);
    try (destruct (Z.eqb_spec (n_work n) 0) as [X|X]); split; intros H;
    try discriminate H; try (destruct H as (_ & _ & H & H'); first [discriminate H'|exact H|congruence]);
    try reflexivity; auto.
Qed.

(* the code of the server's refusal comes out *)
Theorem exit_code_passed : forall a n, a <> AStatus -> a <> AEstimate -> n_connect n = true -> n_setup n = true -> n_comms n = 0 ->
  has_wrapper (n_act n) = true -> n_flush n = true -> do_client a n = n_work n.
Proof.
  intros a n A1 A2 C S M W F. unfold do_client, session_work. rewrite C, S, M, W, F. cbn [negb Z.eqb].
  destruct a; try congruence; destruct (n_act n); try discriminate; reflexivity.
Qed.

(* ---------- failing over ---------- *)

(* one server: its name, how many come after it, and the codes of the sessions with it *)
Definition attempt : Type := (bytes * nat * list Z)%type.
Definition codes_ok (cs : list Z) : Prop :=
  (exists r, cs = [r] /\ r <> CLIENT_RECONNECT) \/ (exists r, cs = [CLIENT_RECONNECT; r]).
Definition last_code (a : attempt) : Z := last (snd a) 0.
(* the code is a reason to try another server *)
Definition reason (a : caction) (on_error : bool) (r : Z) : Prop :=
  r = CLIENT_COULD_NOT_CONNECT \/ (r = CLIENT_ERROR /\ on_error = true /\ (a = ABackup \/ a = ABackupTimed)).
Definition calls (atts : list attempt) : list (bytes * nat) :=
  flat_map (fun '(s, l, cs) => map (fun _ => (s, l)) cs) atts.

Lemma goes_on_reason : forall a b r, goes_on a b r = true <-> reason a b r.
Proof.
  intros a b r. unfold goes_on, reason. destruct (Z.eqb_spec r CLIENT_ERROR) as [E|E].
  - subst. split.
    + intros H. right. destruct a; try discriminate; auto.
    + intros [H|(_ & -> & [-> | ->])]; [discriminate|reflexivity|reflexivity].
  - rewrite Z.eqb_eq. split; [auto|]. intros [H|(H & _)]; [auto|contradiction].
Qed.

Theorem failover_spec : forall a on_error e failover i server t r, client_loop a on_error e i server failover = (t, r) ->
  exists atts, atts <> [] /\ t = calls atts /\
    Forall codes_ok (map snd atts) /\
    concat (map snd atts) = map (fun k => do_client a (e k)) (seq i (length t)) /\
    map (fun x => fst (fst x)) atts = firstn (length atts) (server :: failover) /\
    map (fun x => snd (fst x)) atts = firstn (length atts) (rev (seq 0 (S (length failover)))) /\
    Forall (fun x => reason a on_error (last_code x)) (removelast atts) /\
    r = last_code (last atts (server, 0%nat, [])) /\
    (reason a on_error r -> length atts = S (length failover)).
Proof.
  intros a oe e. induction failover as [|s f IH]; intros i server t r E; cbn [client_loop] in E.
  - set (r1 := do_client a (e i)) in *. destruct (Z.eqb_spec r1 CLIENT_RECONNECT) as [R|R].
    + set (r2 := do_client a (e (S i))) in *. assert (E' : ([(server, 0%nat); (server, 0%nat)], r2) = (t, r)) by (destruct (goes_on a oe r2); exact E).
      injection E' as <- <-. exists [(server, 0%nat, [r1; r2])]. split; [discriminate|]. split; [reflexivity|].
      split. { constructor; [|constructor]. right. exists r2. cbn. congruence. }
      split; [reflexivity|]. split; [reflexivity|]. split; [reflexivity|]. split; [constructor|]. split; reflexivity.
    + assert (E' : ([(server, 0%nat)], r1) = (t, r)) by (destruct (goes_on a oe r1); exact E).
      injection E' as <- <-. exists [(server, 0%nat, [r1])]. split; [discriminate|]. split; [reflexivity|].
      split. { constructor; [|constructor]. left. exists r1. auto. }
      split; [reflexivity|]. split; [reflexivity|]. split; [reflexivity|]. split; [constructor|]. split; reflexivity.
  - set (r1 := do_client a (e i)) in *.
    set (n := length (s :: f)) in *.
    assert (X : exists cs i2 rl, codes_ok cs /\ (map (fun k => do_client a (e k)) (seq i (length cs)) = cs) /\ i2 = (i + length cs)%nat /\ rl = last cs 0 /\ cs <> [] /\
      (if goes_on a oe rl then let '(t2, r2) := client_loop a oe e i2 s f in (map (fun _ => (server, n)) cs ++ t2, r2)
       else (map (fun _ => (server, n)) cs, rl)) = (t, r)).
    { destruct (Z.eqb_spec r1 CLIENT_RECONNECT) as [R|R].
      - exists [r1; do_client a (e (S i))], (S (S i)), (do_client a (e (S i))).
        split. { right. exists (do_client a (e (S i))). congruence. } split; [reflexivity|]. split; [cbn; lia|]. split; [reflexivity|]. split; [discriminate|]. exact E.
      - exists [r1], (S i), r1. split. { left. eauto. } split; [reflexivity|]. split; [cbn; lia|]. split; [reflexivity|]. split; [discriminate|]. exact E. }
    clear E. destruct X as (cs & i2 & rl & CO & MC & EI & EL & NE & E).
    destruct (goes_on a oe rl) eqn:G.
    + destruct (client_loop a oe e i2 s f) as [t2 r2] eqn:C. injection E as <- <-.
      apply IH in C. destruct C as (atts & N & T & K & Q & S1 & S2 & FR & RL & LL).
      exists ((server, n, cs) :: atts). split; [discriminate|]. split. { cbn [calls flat_map]. rewrite T. reflexivity. }
      split. { constructor; auto. }
      split. { cbn [map concat snd]. rewrite Q. rewrite app_length, map_length, seq_app, map_app, MC, <- EI. reflexivity. }
      split. { cbn [map fst length firstn]. rewrite S1. reflexivity. }
      split. { cbn [map fst snd]. rewrite S2. change (length ((server, n, cs) :: atts)) with (S (length atts)). unfold n. cbn [length]. rewrite (seq_S (S (length f)) 0). rewrite rev_app_distr. reflexivity. }
      split. { cbn [removelast]. destruct atts as [|x y]; [congruence|]. constructor; auto. apply goes_on_reason. unfold last_code. cbn [snd]. rewrite <- EL. exact G. }
      split. { rewrite RL. cbn [last]. destruct atts as [|x y]; [congruence|]. generalize x. clear. induction y as [|z y IH]; intros x; [reflexivity|]. cbn [last]. apply (IH z). }
      intros H. cbn [length]. rewrite (LL H). reflexivity.
    + injection E as <- <-. exists [(server, n, cs)]. split; [discriminate|]. split. { cbn. rewrite app_nil_r. reflexivity. }
      split. { constructor; auto. }
      split. { cbn. rewrite app_nil_r, map_length. auto. }
      split; [reflexivity|]. split. { cbn [map fst snd length]. unfold n. rewrite (seq_S (length (s :: f)) 0), rev_app_distr. reflexivity. }
      split; [constructor|]. split; [auto|]. intros H. exfalso. apply goes_on_reason in H. congruence.
Qed.

(* ---------- scripts of the server ---------- *)

Definition server_cmd (c : sscripts) (script when request : bytes) (failed timer : bool) (user : list bytes) : list bytes :=
  [script; when; action_name request; ss_cname c; if failed then str "1" else str "0"; if timer then str "1" else str "0"] ++ user.
Definition sargs_fit (c : sscripts) : Prop :=
  (length (ss_pre_args c) <= 57)%nat /\ (length (ss_post_args c) <= 57)%nat /\ (length (ss_nargs c) <= 56)%nat.
(* a notification with what the script printed is due *)
Definition quiet (c : sscripts) (request : bytes) (notify : bool) : Prop :=
  notify = false \/ ss_nscript c = None \/
  (starts_with (action_name request) (str "backup") = true /\ ss_nleft c = true /\ ss_failovers c = true).
Definition notice (c : sscripts) (n printed : bytes) : sdo :=
  SDNotify ([n; ss_cname c; []; printed; []; []; []] ++ ss_nargs c).
(* a script of the server with what follows it *)
Definition server_script_spec (c : sscripts) (request : bytes) (cmd : list bytes) (notify : bool) (o : sout) (printed : bytes) (d : list sdo) : Prop :=
  (ends_well o -> d = [SDScript cmd]) /\
  (~ ends_well o -> quiet c request notify -> d = [SDScript cmd]) /\
  (~ ends_well o -> ~ quiet c request notify -> forall n, ss_nscript c = Some n -> d = [SDScript cmd; notice c n printed]).

Lemma run_server_script_spec : forall c w q s u nt b t o p, (length u <= 57)%nat -> (length (ss_nargs c) <= 56)%nat ->
  server_script_spec c q (server_cmd c s w q (negb (b =? 0)) (negb (t =? 0)) u) nt o p
    (fst (run_server_script c w (action_name q) s u nt b t o p)) /\
  (snd (run_server_script c w (action_name q) s u nt b t o p) = 0 <-> ends_well o).
Proof.
  intros c w q s u nt b t o p L1 L2. unfold run_server_script.
  rewrite script_cmd_fit by (try discriminate; cbn [length]; lia).
  assert (CE : [s; w; action_name q; ss_cname c; zero_one b; zero_one t] ++ u = server_cmd c s w q (negb (b =? 0)) (negb (t =? 0)) u).
  { unfold server_cmd, zero_one. destruct (b =? 0), (t =? 0); reflexivity. }
  rewrite CE. clear CE. set (cmd := server_cmd _ _ _ _ _ _ _). clearbody cmd.
  unfold server_script_spec, quiet.
  destruct (script_ret o =? 0) eqn:R; [apply script_ret_okb in R | apply script_ret_bad in R].
  { cbn [fst snd]. split; [|tauto]. split; [auto|]. split; intros; contradiction. }
  destruct nt; cbn [negb].
  2:{ cbn [fst snd]. split; [|split; [discriminate|contradiction]]. split; [auto|]. split; [auto|]. intros _ H. exfalso. auto. }
  destruct (starts_with (action_name q) (str "backup") && ss_nleft c && ss_failovers c) eqn:B.
  { apply andb_prop in B. destruct B as [B B3]. apply andb_prop in B. destruct B as [B1 B2].
    cbn [fst snd]. split; [|split; [discriminate|contradiction]]. split; [auto|]. split; [auto|]. intros _ H. exfalso. auto 6. }
  destruct (ss_nscript c) as [n|] eqn:NS.
  2:{ cbn [fst snd]. split; [|split; [discriminate|contradiction]]. split; [auto|]. split; [auto|]. intros _ H. exfalso. auto. }
  rewrite script_cmd_fit by (try discriminate; cbn [length]; lia).
  cbn [fst snd]. split; [|split; [discriminate|contradiction]]. split; [contradiction|]. split.
  - intros _ [H|[H|(H1 & H2 & H3)]]; try discriminate. exfalso. rewrite H1, H2, H3 in B. discriminate.
  - intros _ _ m E. injection E as <-. reflexivity.
Qed.

Definition child_spec (c : sscripts) (request : bytes) (o : soutcome) (d : list sdo) (r : Z) : Prop :=
  exists d1 d2 d3, d = d1 ++ d2 ++ d3 /\
    let pre_ok := ss_pre c = None \/ ends_well (so_pre o) in
    let failed := negb (so_action o =? 0) in
    match ss_pre c with
    | None => d1 = []
    | Some s => server_script_spec c request (server_cmd c s (str "pre") request false false (ss_pre_args c)) (ss_pre_notify c) (so_pre o) (so_pre_out o) d1
    end /\
    (pre_ok -> d2 = [SDAction]) /\ (~ pre_ok -> d2 = []) /\
    match ss_post c with
    | None => d3 = [] /\ (r = 0 <-> pre_ok /\ so_action o = 0)
    | Some s =>
      (pre_ok -> so_action o = 0 \/ ss_onfail c = true ->
        server_script_spec c request (server_cmd c s (str "post") request failed (negb (so_timer o =? 0)) (ss_post_args c)) (ss_post_notify c) (so_post o) (so_post_out o) d3 /\
        (r = 0 <-> ends_well (so_post o))) /\
      (~ pre_ok -> ss_onfail c = true ->
        server_script_spec c request (server_cmd c s (str "post") request true false (ss_post_args c)) (ss_post_notify c) (so_post o) (so_post_out o) d3 /\
        (r = 0 <-> ends_well (so_post o))) /\
      (~ (pre_ok /\ so_action o = 0) -> ss_onfail c = false -> d3 = [] /\ r <> 0)
    end.

Theorem child_scripts_spec : forall c q o d r, sargs_fit c -> child_scripts c q o = (d, r) -> child_spec c q o d r.
Proof.
  intros c q o d r (L1 & L2 & L3) E. unfold child_scripts in E. unfold child_spec.
  assert (P : exists d1 r1, (match ss_pre c with
                   | None => ([], 0)
                   | Some s => run_server_script c (str "pre") (action_name q) s (ss_pre_args c) (ss_pre_notify c) 0 0 (so_pre o) (so_pre_out o)
                   end) = (d1, r1) /\ (r1 = 0 <-> (ss_pre c = None \/ ends_well (so_pre o))) /\
          match ss_pre c with
          | None => d1 = []
          | Some s => server_script_spec c q (server_cmd c s (str "pre") q false false (ss_pre_args c)) (ss_pre_notify c) (so_pre o) (so_pre_out o) d1
          end).
  { destruct (ss_pre c) as [s|].
    - pose proof (run_server_script_spec c (str "pre") q s (ss_pre_args c) (ss_pre_notify c) 0 0 (so_pre o) (so_pre_out o) L1 L3) as [A B].
      destruct (run_server_script _ _ _ _ _ _ _ _ _ _) as [d1 r1]. cbn [fst snd] in A, B. exists d1, r1.
      split; [reflexivity|]. split; [|exact A]. rewrite B. split; [auto|]. intros [H|H]; [discriminate|auto].
    - exists [], 0. split; [reflexivity|]. split; [|reflexivity]. split; auto. }
  destruct P as (d1 & r1 & EP & RP & SP). rewrite EP in E. clear EP.
  destruct (Z.eqb_spec r1 0) as [K|K].
  - assert (PO : ss_pre c = None \/ ends_well (so_pre o)) by tauto.
    destruct (ss_post c) as [s|].
    + destruct (negb (so_action o =? 0) && negb (ss_onfail c)) eqn:F.
      * apply andb_prop in F. destruct F as [F1 F2]. apply negb_true_iff in F1, F2. apply Z.eqb_neq in F1.
        injection E as <- <-. exists d1, [SDAction], []. split; [reflexivity|]. split; [exact SP|]. split; [auto|]. split; [contradiction|].
        split. { intros _ [H|H]; [contradiction|congruence]. } split; [contradiction|]. auto.
      * pose proof (run_server_script_spec c (str "post") q s (ss_post_args c) (ss_post_notify c) (so_action o) (so_timer o) (so_post o) (so_post_out o) L2 L3) as [A B].
        destruct (run_server_script _ _ _ _ _ _ _ _ _ _) as [d3 r3]. cbn [fst snd] in A, B. injection E as <- <-.
        exists d1, [SDAction], d3. split; [reflexivity|]. split; [exact SP|]. split; [auto|]. split; [contradiction|].
        split. { intros _ _. split; [exact A|exact B]. } split; [contradiction|]. intros H Hf. exfalso.
        rewrite Hf in F. cbn [negb] in F. rewrite andb_true_r in F. apply negb_false_iff in F. apply Z.eqb_eq in F. tauto.
    + injection E as <- <-. exists d1, [SDAction], []. split; [reflexivity|]. split; [exact SP|]. split; [auto|]. split; [contradiction|].
      split; [reflexivity|]. tauto.
  - assert (PO : ~ (ss_pre c = None \/ ends_well (so_pre o))) by tauto.
    destruct (ss_post c) as [s|].
    + apply Z.eqb_neq in K. rewrite K in E. cbn [negb andb] in E. apply Z.eqb_neq in K. destruct (ss_onfail c) eqn:F; cbn [negb] in E.
      * pose proof (run_server_script_spec c (str "post") q s (ss_post_args c) (ss_post_notify c) r1 0 (so_post o) (so_post_out o) L2 L3) as [A B].
        destruct (run_server_script _ _ _ _ _ _ _ _ _ _) as [d3 r3]. cbn [fst snd] in A, B. injection E as <- <-.
        apply Z.eqb_neq in K. rewrite K in A. cbn [negb] in A. change (0 =? 0) with true in A.
        exists d1, [], d3. split; [reflexivity|]. split; [exact SP|]. split; [contradiction|]. split; [auto|].
        split; [contradiction|]. split. { intros _ _. split; [exact A|exact B]. } discriminate.
      * injection E as <- <-. exists d1, [], []. split; [reflexivity|]. split; [exact SP|]. split; [contradiction|]. split; [auto|].
        split; [contradiction|]. split; [discriminate|]. auto.
    + injection E as <- <-. exists d1, [], []. split; [reflexivity|]. split; [exact SP|]. split; [contradiction|]. split; [auto|].
      split; [reflexivity|]. tauto.
Qed.

(* ---------- from time to time ---------- *)

(* the clock does not go back *)
Fixpoint forward (t : Z) (cs : list tcall) : Prop :=
  match cs with [] => True | c :: r => t <= tc_now c /\ forward (tc_now c) r end.
(* two that follow each other are at least g apart; the first is at least g after t *)
Fixpoint apart (g t : Z) (l : list Z) : Prop :=
  match l with [] => True | x :: r => t + g <= x /\ apart g x r end.
Definition reports_of (d : list (Z * tdo)) : list (Z * bytes) :=
  flat_map (fun '(t, x) => match x with TReport b => [(t, b)] | TTimer => [] end) d.
Definition timers_of (d : list (Z * tdo)) : list Z :=
  flat_map (fun '(t, x) => match x with TReport _ => [] | TTimer => [t] end) d.

Lemma reports_app : forall a b, reports_of (a ++ b) = reports_of a ++ reports_of b.
Proof. intros. unfold reports_of. apply flat_map_app. Qed.
Lemma timers_app : forall a b, timers_of (a ++ b) = timers_of a ++ timers_of b.
Proof. intros. unfold timers_of. apply flat_map_app. Qed.

Lemma apart_weaken : forall g l t t', t' <= t -> apart g t l -> apart g t' l.
Proof. intros g [|x l] t t' L H; cbn in *; [auto|]. split; [lia|tauto]. Qed.

(* what one call does *)
Lemma write_status_spec : forall s c s1 d r, t_last s <= tc_now c -> write_status s c = (s1, d, r) ->
  t_tlast s1 = t_tlast s /\ t_last s <= t_last s1 /\ t_last s1 <= tc_now c /\
  (d = [] \/ (exists b, d = [TReport b] /\ t_last s + 2 <= tc_now c /\ t_last s1 = tc_now c /\ r = 0 /\
     (t_pend s = Some b \/ (t_pend s = None /\ b = tc_line c)) /\ t_pend s1 = None)) /\
  (forall b, t_pend s1 = Some b -> t_pend s = Some b \/ (t_pend s = None /\ b = tc_line c)).
Proof.
  intros s c s1 d r L E. unfold write_status in E. destruct (Z.ltb_spec (tc_now c - t_last s) 2) as [D|D].
  - destruct (Z.ltb_spec (tc_now c - t_last s) 0); [lia|]. injection E as <- <- <-. cbn. split; [auto|]. split; [lia|]. split; [lia|]. split; [auto|]. auto.
  - destruct (tc_append c); injection E as <- <- <-; cbn; (split; [auto|]); (split; [lia|]); (split; [lia|]).
    + split. { right. exists (match t_pend s with Some l => l | None => tc_line c end). split; [reflexivity|]. split; [lia|]. split; [lia|]. split; [auto|]. split; [|auto].
        destruct (t_pend s); auto. } discriminate.
    + split; [auto|]. intros b H. injection H as <-. destruct (t_pend s); auto.
    + split; [auto|]. intros b H. injection H as <-. destruct (t_pend s); auto.
Qed.

Lemma check_timer_script_spec : forall iv s c s1 d r, t_tlast s <= tc_now c -> check_timer_script iv s c = (s1, d, r) ->
  t_last s1 = t_last s /\ t_pend s1 = t_pend s /\ t_tlast s <= t_tlast s1 /\ t_tlast s1 <= tc_now c /\
  ((d = [] /\ t_tlast s1 = t_tlast s) \/
   (d = [TTimer] /\ t_tlast s + iv * 60 <= tc_now c /\ t_tlast s1 = tc_now c /\ (tc_status c = 1 \/ tc_status c = 2) /\ iv <> 0)).
Proof.
  intros iv s c s1 d r L E. unfold check_timer_script in E.
  destruct (Z.eqb_spec (tc_status c) 1) as [S1|S1]; [|destruct (Z.eqb_spec (tc_status c) 2) as [S2|S2]]; cbn [orb negb] in E.
  3:{ injection E as <- <- <-. do 2 (split; [auto|]). split; [lia|]. split; [lia|]. auto. }
  all: destruct (Z.eqb_spec (iv * 60) 0); [injection E as <- <- <-; do 2 (split; [auto|]); split; [lia|]; split; [lia|]; auto|].
  all: destruct (Z.ltb_spec (tc_now c - t_tlast s) (iv * 60)).
  1, 3: destruct (Z.ltb_spec (tc_now c - t_tlast s) 0); [lia|]; injection E as <- <- <-; cbn; do 2 (split; [auto|]); split; [lia|]; split; [lia|]; auto.
  all: injection E as <- <- <-; cbn; do 2 (split; [auto|]); split; [lia|]; split; [lia|]; right; split; [auto|]; split; [lia|]; split; [auto|]; split; [auto|lia].
Qed.

Theorem timed_run_spec : forall timed iv cs s t0 d ok, t_last s <= t0 -> t_tlast s <= t0 -> forward t0 cs ->
  timed_run timed iv s cs = (d, ok) ->
  apart 2 (t_last s) (map fst (reports_of d)) /\
  apart (iv * 60) (t_tlast s) (timers_of d) /\
  (timed = false \/ iv = 0 -> timers_of d = []) /\
  (forall t, In t (timers_of d) -> exists c, In c cs /\ tc_now c = t /\ (tc_status c = 1 \/ tc_status c = 2)) /\
  (forall t b, In (t, b) (reports_of d) -> t0 <= t /\ (t_pend s = Some b \/ exists c, In c cs /\ tc_now c <= t /\ tc_line c = b)).
Proof.
  intros timed iv. induction cs as [|c cs IH]; intros s t0 d ok L1 L2 F E; cbn [timed_run] in E.
  { injection E as <- <-. cbn. do 3 (split; [auto|]). split; intros; contradiction. }
  destruct F as [F1 F2].
  unfold timed_operation in E.
  destruct (write_status s c) as [[s1 d1] r1] eqn:W. pose proof (write_status_spec s c s1 d1 r1 ltac:(lia) W) as (W1 & W2 & W3 & W4 & W5).
  (* the rest of the run from a state s2 after doing d1 and d2 *)
  assert (X : forall s2 d2 ret, t_last s2 = t_last s1 -> t_pend s2 = t_pend s1 -> t_tlast s <= t_tlast s2 -> t_tlast s2 <= tc_now c ->
    ((d2 = [] /\ t_tlast s2 = t_tlast s) \/
     (d2 = [TTimer] /\ t_tlast s + iv * 60 <= tc_now c /\ t_tlast s2 = tc_now c /\ (tc_status c = 1 \/ tc_status c = 2) /\ iv <> 0 /\ timed = true)) ->
    (if ret =? 0 then let '(d3, ok) := timed_run timed iv s2 cs in (map (fun x => (tc_now c, x)) (d1 ++ d2) ++ d3, ok)
     else (map (fun x => (tc_now c, x)) (d1 ++ d2), false)) = (d, ok) ->
  apart 2 (t_last s) (map fst (reports_of d)) /\
  apart (iv * 60) (t_tlast s) (timers_of d) /\
  (timed = false \/ iv = 0 -> timers_of d = []) /\
  (forall t, In t (timers_of d) -> exists c', In c' (c :: cs) /\ tc_now c' = t /\ (tc_status c' = 1 \/ tc_status c' = 2)) /\
  (forall t b, In (t, b) (reports_of d) -> t0 <= t /\ (t_pend s = Some b \/ exists c', In c' (c :: cs) /\ tc_now c' <= t /\ tc_line c' = b))).
  { intros s2 d2 ret H1 H2 H3 H4 H5 HE.
    assert (Y : exists d3 oo, timed_run timed iv s2 cs = (d3, oo) /\ exists tl, d = map (fun x => (tc_now c, x)) (d1 ++ d2) ++ tl /\ (tl = d3 \/ tl = [])).
    { destruct (timed_run timed iv s2 cs) as [d3 oo]. exists d3, oo. split; [reflexivity|]. destruct (ret =? 0); injection HE as <- <-.
      - exists d3. auto. - exists []. rewrite app_nil_r. auto. }
    destruct Y as (d3 & oo & E3 & tl & ED & TL). apply (IH s2 (tc_now c)) in E3; [|lia|lia|exact F2].
    destruct E3 as (I1 & I2 & I3 & I4 & I5).
    assert (J1 : apart 2 (t_last s2) (map fst (reports_of tl))) by (destruct TL; subst tl; cbn; auto).
    assert (J2 : apart (iv * 60) (t_tlast s2) (timers_of tl)) by (destruct TL; subst tl; cbn; auto).
    assert (J3 : timed = false \/ iv = 0 -> timers_of tl = []) by (destruct TL; subst tl; cbn; auto).
    assert (J4 : forall t, In t (timers_of tl) -> exists c, In c cs /\ tc_now c = t /\ (tc_status c = 1 \/ tc_status c = 2)) by (destruct TL; subst tl; cbn; auto; intros; contradiction).
    assert (J5 : forall t b, In (t, b) (reports_of tl) -> tc_now c <= t /\ (t_pend s2 = Some b \/ exists c, In c cs /\ tc_now c <= t /\ tc_line c = b)) by (destruct TL; subst tl; cbn; auto; intros; contradiction).
    clear I1 I2 I3 I4 I5 TL IH HE E W. subst d. rewrite reports_app, timers_app.
    assert (R2 : reports_of (map (fun x => (tc_now c, x)) (d1 ++ d2)) = reports_of (map (fun x => (tc_now c, x)) d1)).
    { rewrite map_app, reports_app. destruct H5 as [[-> _]|[-> _]]; cbn; rewrite app_nil_r; reflexivity. }
    assert (T2 : timers_of (map (fun x => (tc_now c, x)) (d1 ++ d2)) = timers_of (map (fun x => (tc_now c, x)) d2)).
    { rewrite map_app, timers_app. destruct W4 as [->|(b & -> & _)]; reflexivity. }
    rewrite R2, T2. clear R2 T2.
    assert (PB : forall b, t_pend s2 = Some b -> t_pend s = Some b \/ b = tc_line c).
    { intros b Hb. rewrite H2 in Hb. apply W5 in Hb. tauto. }
    split.
    { destruct W4 as [->|(b & -> & G & TL' & _)]; cbn.
      - apply (apart_weaken 2 _ (t_last s2)); [lia|auto].
      - split; [lia|]. rewrite <- TL', <- H1. exact J1. }
    split.
    { destruct H5 as [[-> EQ]|(-> & G & TL' & _)]; cbn.
      - rewrite <- EQ. exact J2.
      - split; [lia|]. rewrite <- TL'. exact J2. }
    split.
    { intros HH. destruct H5 as [[-> EQ]|(-> & G & TL' & SS & NZ & TT)]; cbn; [auto|]. destruct HH; [congruence|contradiction]. }
    split.
    { intros t Ht. apply in_app_or in Ht. destruct Ht as [Ht|Ht].
      - destruct H5 as [[-> EQ]|(-> & G & TL' & SS & NZ & TT)]; cbn in Ht; [contradiction|]. destruct Ht as [<-|[]]. exists c. cbn. auto.
      - destruct (J4 t Ht) as (c' & A & B & C). exists c'. cbn. auto. }
    intros t b Hb. apply in_app_or in Hb. destruct Hb as [Hb|Hb].
    - destruct W4 as [->|(b' & -> & G & TL' & _ & PP & _)]; cbn in Hb; [contradiction|]. destruct Hb as [Hb|[]]. injection Hb as <- <-.
      split; [lia|]. destruct PP as [PP|[_ PP]]; [auto|]. right. exists c. cbn. split; [auto|]. split; [lia|auto].
    - destruct (J5 t b Hb) as (A & B). split; [lia|]. destruct B as [B|(c' & B1 & B2 & B3)].
      + apply PB in B. destruct B as [B|B]; [auto|]. right. exists c. cbn. auto.
      + right. exists c'. cbn. auto. }
  destruct (Z.eqb_spec r1 0) as [R|R]; cbn [negb] in E.
  - destruct timed; cbn [negb] in E.
    + destruct (check_timer_script iv s1 c) as [[s2 d2] r2] eqn:K.
      pose proof (check_timer_script_spec iv s1 c s2 d2 r2 ltac:(lia) K) as (K1 & K2 & K3 & K4 & K5).
      apply (X s2 d2 r2); auto; try lia. destruct K5 as [[A B]|(A & B & C & D & G)]; [left; split; auto; lia|right; split; auto; split; [lia|]; auto].
    + apply (X s1 [] 0); auto; try lia. rewrite app_nil_r. exact E.
  - change (-1 =? 0) with false in E. cbv iota in E. apply (X s1 [] (-1)); auto; try lia.
    rewrite app_nil_r. exact E.
Qed.

(* a report is not held back: with the buffer free, every call at least 2 seconds after the last attempt reports *)
Theorem timed_prompt : forall timed iv s c, t_last s + 2 <= tc_now c -> tc_append c = AppOk ->
  exists d, snd (fst (timed_operation timed iv s c)) = TReport (match t_pend s with Some b => b | None => tc_line c end) :: d.
Proof.
  intros timed iv s c L A. unfold timed_operation, write_status. destruct (Z.ltb_spec (tc_now c - t_last s) 2); [lia|].
  rewrite A. cbn [Z.eqb negb]. destruct timed; cbn [negb fst snd]; [|eauto].
  destruct (check_timer_script iv _ c) as [[s2 d2] r2]. cbn. eauto.
Qed.

(* the timer script is asked again: in a timed backup, while scanning or backing up, every call at least the
   interval after the last run asks it, and what it says is what the call returns *)
Theorem timer_prompt : forall iv s c, 0 < iv -> t_tlast s + iv * 60 <= tc_now c -> tc_status c = 1 \/ tc_status c = 2 ->
  tc_append c <> AppErr ->
  In TTimer (snd (fst (timed_operation true iv s c))) /\ snd (timed_operation true iv s c) = tc_timer c.
Proof.
  intros iv s c P L S A. unfold timed_operation.
  assert (W : exists s1 d1, write_status s c = (s1, d1, 0) /\ t_tlast s1 = t_tlast s).
  { unfold write_status. destruct (_ <? 2); [eauto|]. destruct (tc_append c); eauto. congruence. }
  destruct W as (s1 & d1 & -> & T). cbn [Z.eqb negb].
  unfold check_timer_script. assert (Q : (tc_status c =? 1) || (tc_status c =? 2) = true).
  { destruct S as [-> | ->]; reflexivity. }
  rewrite Q. cbn [negb]. destruct (Z.eqb_spec (iv * 60) 0); [lia|]. rewrite T. destruct (Z.ltb_spec (tc_now c - t_tlast s) (iv * 60)); [lia|].
  cbn [fst snd]. split; [|reflexivity]. apply in_or_app. right. cbn. auto.
Qed.

(* exit status 0 of a backup *)
Theorem backup_success : forall s msgs o n d r, args_fit s -> backup_wrapper s false true msgs o = Some (d, r) ->
  n_setup n = true -> n_act n = ABackup -> n_work n = r -> do_client ABackup n = CLIENT_OK ->
  n_connect n = true /\ n_comms n = 0 /\ n_flush n = true /\
  (exists resume comp, says_go msgs resume comp /\ In (DBackup resume comp) d) /\ oc_work o = true /\
  (sc_pre s = None \/ ends_well (oc_pre o)) /\ (sc_post s = None \/ ends_well (oc_post o)).
Proof.
  intros s msgs o n d r A E S N W D. apply exit_ok in D; [|auto|congruence]. destruct D as (D1 & D2 & D3 & D4).
  do 3 (split; [auto|]).
  assert (G : exists resume comp, says_go msgs resume comp).
  { unfold backup_wrapper in E. cbn [negb] in E. destruct (check_timer msgs) as [| | |x y| |] eqn:C; try (injection E as <- <-; rewrite W in D3; discriminate D3); try discriminate E.
    - exists false, None. right. auto. - exists x, y. left. auto. }
  destruct G as (resume & comp & G). pose proof (backup_around s msgs o resume comp d r A G E) as [(d1 & d2 & d3 & ED & _ & B & _ & _ & F) _].
  assert (R : r = CLIENT_OK) by (rewrite <- W; exact D3). apply F in R. destruct R as (R1 & R2 & R3).
  split. { exists resume, comp. split; [auto|]. rewrite ED, (B R1). apply in_or_app. right. cbn. auto. }
  split; [auto|]. split; [|exact R3]. destruct R1 as [R1|[R1 _]]; auto.
Qed.
