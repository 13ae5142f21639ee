(* What the monitor shows after an answer: the list of clients, their backups and counters; and that the pieces in which
   the answer arrives do not matter. *)
From Coq Require Import ZArith List Bool Lia Permutation Sorted.
From Verif Require Import Bytes DpthModel BuModel CmdModel CntrModel CntrProofs CstatModel CstatProofs MonModel JsonModel JsonProofs JinModel JinProofs.
Import ListNotations.
Open Scope Z_scope.

(* ---------- pieces ---------- *)

Definition blank (s : bytes) : Prop := forallb ws s = true.
Definition maps (l : list bool) : Z := Z.of_nat (List.length (filter (fun b => b) l)).

Lemma lex_blank : forall s, blank s -> lex s = LEof [].
Proof.
  unfold blank. induction s as [|c s IH]; intros H; [reflexivity|]. cbn [forallb] in H. apply andb_prop in H as [A B]. cbn [lex]. rewrite A. auto.
Qed.
Lemma lex_eof : forall s k, lex s = LEof k -> k = [] -> blank s.
Proof.
  unfold blank. induction s as [|c s IH]; intros k H E; [reflexivity|]. cbn [lex] in H. cbn [forallb]. destruct (ws c) eqn:W; [exact (IH _ H E)|].
  pose proof (lex1_app c s []) as G. rewrite H, E in G. discriminate G.
Qed.
Lemma done_blank : forall s e stk, parse [PComplete] s = (e, POk stk []) -> blank s /\ e = [].
Proof.
  intros s e stk H. pose proof (parse_stop [PComplete] s) as P. destruct (lex s) as [t r|k|] eqn:L.
  - cbn [pstep] in P. rewrite P in H. discriminate H.
  - rewrite P in H. injection H as <- _ X. split; [exact (lex_eof s k L X)|reflexivity].
  - rewrite P in H. discriminate H.
Qed.

(* what is open when a map came first *)
Definition inside (stk : list pst) (l : list bool) : Prop :=
  opened stk l /\ last stk PStart = PComplete /\ (l = [] \/ last l false = true).
Lemma step_last : forall x y q t e stk', pstep (x :: y :: q) t = AGo e stk' -> last stk' PStart = last (y :: q) PStart.
Proof.
  intros x y q t e stk' P.
  destruct x; destruct t; cbn [pstep value] in P; try discriminate P;
    try (destruct (decode b); [|discriminate P]); try (destruct (parse_integer b); try discriminate P); injection P as _ <-; reflexivity.
Qed.
Lemma nest_last : forall e l l', nest (oev e) l = Some l' -> l <> [] -> last l false = true -> l' = [] \/ last l' false = true.
Proof.
  intros e l l' N NE L. destruct l as [|b l]; [contradiction|]. destruct e as [e|]; [|injection N as <-; right; exact L].
  destruct e; cbn [oev nest] in N; try (injection N as <-; right; exact L).
  - destruct b; [|discriminate N]. injection N as <-. right; exact L.
  - destruct b; [|discriminate N]. injection N as <-. destruct l; [left; reflexivity|right; exact L].
  - destruct b; [discriminate N|]. injection N as <-. destruct l; [left; reflexivity|right; exact L].
Qed.
Lemma inside_step : forall stk l t e stk', inside stk l -> pstep stk t = AGo e stk' ->
  exists l', nest (oev e) l = Some l' /\ inside stk' l'.
Proof.
  intros stk l t e stk' (O & L1 & L2) P. destruct (pstep_nest stk l t e stk' O P) as (l' & N & O').
  exists l'. split; [exact N|]. split; [exact O'|].
  inversion O as [x K|x b q m K O2]; subst; [cbn in L1; subst x; discriminate P|].
  destruct q as [|y q]; [inversion O2|]. split.
  - rewrite (step_last _ _ _ _ _ _ P). exact L1.
  - destruct L2 as [L2|L2]; [discriminate L2|]. exact (nest_last _ _ _ N ltac:(discriminate) L2).
Qed.
Lemma inside_parse : forall n stk l s es x, (List.length s <= n)%nat -> inside stk l -> parse stk s = (es, x) ->
  exists l', nest es l = Some l' /\ (forall stk' k, x = POk stk' k -> inside stk' l').
Proof.
  induction n as [|n IH]; intros stk l s es x L O H.
  - destruct s; [|cbn in L; lia]. change (parse stk []) with (@nil jev, POk stk []) in H. injection H as <- <-.
    exists l. split; [reflexivity|]. intros stk' k G. injection G as <- _. exact O.
  - pose proof (parse_stop stk s) as P. pose proof (lex_app s []) as G. destruct (lex s) as [t r|k|] eqn:E.
    + destruct G as [_ G]. destruct (pstep stk t) as [| |e st2] eqn:T.
      * rewrite P in H. injection H as <- <-. exists l. split; [reflexivity|]. discriminate.
      * rewrite P in H. injection H as <- <-. exists l. split; [reflexivity|]. discriminate.
      * rewrite (parse_tok _ _ _ _ _ _ E T) in H. destruct (inside_step _ _ _ _ _ O T) as (l1 & N1 & O1).
        destruct (parse st2 r) as [es2 x2] eqn:Q. destruct (IH st2 l1 r es2 x2 ltac:(lia) O1 Q) as (l2 & N2 & O2).
        unfold ahead in H. cbn [fst snd] in H. injection H as <- <-. exists l2. split; [|exact O2]. rewrite nest_app, N1. exact N2.
    + rewrite P in H. injection H as <- <-. exists l. split; [reflexivity|]. intros stk' k' X. injection X as <- _. exact O.
    + rewrite P in H. injection H as <- <-. exists l. split; [reflexivity|]. discriminate.
Qed.

Section Show.
Variable date : Z -> bytes.
Variable now : Z.
Notation cb := (JinModel.cb date now).
Notation cbs := (JinModel.cbs date now).

Definition step_depth (e : jev) : Z := match e with EMapO => 1 | EMapC => -1 | _ => 0 end.
Lemma cb_depth : forall e s s', cb e s = COk s' -> t_depth (j_t s') = t_depth (j_t s) + step_depth e.
Proof.
  assert (SE : forall f s s', set_ent f s = COk s' -> j_t s' = j_t s).
  { intros f s s' H. unfold set_ent in H. destruct (c_ent (j_c s)); try discriminate H. injection H as <-. reflexivity. }
  intros e s s' H. destruct e; cbn [step_depth JinModel.cb] in *.
  - unfold input_map_key in H. repeat match type of H with context [if ?b then _ else _] => destruct b end; try discriminate H; injection H as <-; cbn; lia.
  - unfold input_string, need_cur, input_type, input_name, input_flag in H.
    repeat match type of H with context [if ?b then _ else _] => destruct b | context [match ?x with _ => _ end] => destruct x end;
      try discriminate H; injection H as <-; cbn; lia.
  - unfold input_integer in H.
    repeat match type of H with context [if ?b then _ else _] => destruct b end; try discriminate H; try (apply SE in H; rewrite H; lia);
    repeat match type of H with context [match ?x with _ => _ end] => destruct x end; try discriminate H; injection H as <-; cbn; lia.
  - injection H as <-. reflexivity.
  - unfold input_end_map in H. repeat match type of H with context [if ?b then _ else _] => destruct b end; try discriminate H; injection H as <-; cbn; lia.
  - unfold input_start_array in H. repeat match type of H with context [if ?b then _ else _] => destruct b | context [match ?x with _ => _ end] => destruct x end;
      try discriminate H; injection H as <-; cbn; lia.
  - unfold input_end_array, end_backups in H. repeat match type of H with context [if ?b then _ else _] => destruct b | context [match ?x with _ => _ end] => destruct x end;
      try discriminate H; injection H as <-; cbn; lia.
Qed.
Lemma cbs_depth : forall es s s' l l', cbs es s = COk s' -> nest es l = Some l' ->
  t_depth (j_t s') - maps l' = t_depth (j_t s) - maps l.
Proof.
  induction es as [|e es IH]; intros s s' l l' H N.
  - injection H as <-. injection N as <-. reflexivity.
  - cbn [JinModel.cbs] in H. destruct (cb e s) as [s1| |] eqn:C; try discriminate H. apply cb_depth in C.
    assert (X : exists m, nest es m = Some l' /\ maps m = maps l + step_depth e).
    { unfold maps. destruct e; cbn [nest step_depth] in *.
      - destruct l as [|[] l]; try discriminate N. eexists; split; [exact N|lia].
      - eexists; split; [exact N|lia].
      - eexists; split; [exact N|lia].
      - eexists; split; [exact N|]. cbn [filter List.length]. lia.
      - destruct l as [|[] l]; try discriminate N. eexists; split; [exact N|]. cbn [filter List.length]. lia.
      - eexists; split; [exact N|]. cbn [filter]. lia.
      - destruct l as [|[] l]; try discriminate N. eexists; split; [exact N|]. cbn [filter]. lia. }
    destruct X as (m & N1 & M). specialize (IH _ _ _ _ H N1). lia.
Qed.

Lemma maps_zero : forall l, maps l = 0 -> l = [] \/ last l false = true -> l = [].
Proof.
  intros l M [L|L]; [exact L|]. exfalso.
  assert (G : forall l, last l false = true -> 0 < maps l).
  { clear. intros l. induction l as [|b l IH]; intros H; [discriminate H|]. unfold maps in *. destruct l as [|c l].
    - cbn in H. subst b. cbn. lia.
    - change (last (b :: c :: l) false) with (last (c :: l) false) in H. specialize (IH H). cbn [filter]. destruct b; cbn [List.length] in *; cbn [filter] in IH; lia. }
  specialize (G l L). lia.
Qed.

Lemma cbs_split : forall a b s s2, cbs (a ++ b) s = COk s2 -> exists s1, cbs a s = COk s1 /\ cbs b s1 = COk s2.
Proof.
  induction a as [|e a IH]; intros b s s2 H; [exists s; split; [reflexivity|exact H]|]. cbn [app JinModel.cbs] in *.
  destruct (cb e s) as [s1| |]; try discriminate H. exact (IH b s1 s2 H).
Qed.

Lemma input_done : forall cs stk keep s l es s1, inside stk l -> l <> [] -> lex keep = LEof keep -> t_depth (j_t s) = maps l ->
  parse stk (keep ++ concat cs) = (es, POk [PComplete] []) -> cbs es s = COk s1 ->
  exists rest, input_all date now (Some (stk, keep)) s cs = (JEnd match x_warn (j_x s1) with [] => false | _ => true end s1, rest) /\ blank (concat rest).
Proof.
  induction cs as [|c cs IH]; intros stk keep s l es s1 I0 NE K D P C.
  - exfalso. cbn [concat] in P. rewrite app_nil_r, (parse_kept stk keep K) in P. injection P as _ E _. subst stk. destruct I0 as (O & _).
    inversion O; subst; [congruence|discriminate].
  - cbn [concat] in P. rewrite app_assoc, (parse_app _ stk (keep ++ c) (concat cs) (le_n _)) in P.
    destruct (parse stk (keep ++ c)) as [e1 x] eqn:P1. destruct x as [stk' k| |]; try discriminate P.
    destruct (parse stk' (k ++ concat cs)) as [e2 x2] eqn:P2. unfold ahead in P. cbn [fst snd] in P. injection P as <- ->.
    destruct (cbs_split _ _ _ _ C) as (s' & C1 & C2).
    destruct (inside_parse _ _ _ _ _ _ (le_n _) I0 P1) as (l' & N & I1). specialize (I1 _ _ eq_refl).
    pose proof (cbs_depth _ _ _ _ _ C1 N) as DD. pose proof (parse_keep _ _ _ _ _ _ (le_n _) P1) as K1.
    cbn [input_all]. unfold json_input. rewrite P1, C1.
    destruct (Z.eqb_spec (t_depth (j_t s')) 0) as [Z0|Z0].
    + assert (M0 : maps l' = 0) by lia. pose proof (maps_zero l' M0 (proj2 (proj2 I1))) as E. subst l'.
      destruct I1 as (O & LL & _). inversion O; subst. cbn in LL. subst x.
      destruct (done_blank _ _ _ P2) as [B ->]. unfold blank in B. rewrite forallb_app in B. apply andb_prop in B as [B1 B2].
      assert (KN : k = []) by (pose proof (lex_blank k B1) as L; rewrite K1 in L; injection L as ->; reflexivity). subst k.
      change (finish [PComplete] []) with (@nil jev, true). cbn [JinModel.cbs]. cbn [JinModel.cbs] in C2. injection C2 as <-.
      exists cs. split; [reflexivity|exact B2].
    + assert (NE' : l' <> []) by (intros ->; apply Z0; unfold maps in DD at 1; cbn [filter List.length] in DD; lia).
      exact (IH stk' k s' l' e2 s1 I1 NE' K1 ltac:(lia) P2 C2).
Qed.

Theorem input_text : forall c cs w s es s1, t_depth (j_t s) = 0 -> (123 :: c) ++ concat cs = w ->
  parse [PStart] w = (es, POk [PComplete] []) -> cbs es s = COk s1 ->
  exists rest, input_all date now None s ((123 :: c) :: cs) = (JEnd match x_warn (j_x s1) with [] => false | _ => true end s1, rest) /\ blank (concat rest).
Proof.
  intros c cs w s es s1 D W P C. subst w.
  assert (Q : forall r, parse [PStart] (123 :: r) = ahead [EMapO] (parse [PMapStart; PComplete] r)) by (intros r; exact (parse_tok [PStart] (123 :: r) TMapO r (Some EMapO) [PMapStart; PComplete] eq_refl eq_refl)).
  change ((123 :: c) ++ concat cs) with (123 :: (c ++ concat cs)) in P. rewrite Q in P.
  destruct (parse [PMapStart; PComplete] (c ++ concat cs)) as [e2 x] eqn:P2. unfold ahead in P. cbn [fst snd app] in P. injection P as <- ->.
  cbn [JinModel.cbs JinModel.cb] in C.
  replace (input_all date now None s ((123 :: c) :: cs)) with (input_all date now (Some ([PMapStart; PComplete], [])) (deeper 1 s) (c :: cs)).
  { apply (input_done (c :: cs) [PMapStart; PComplete] [] (deeper 1 s) [true] e2 s1).
    - split; [apply op_more; [reflexivity|]; apply op_bottom; reflexivity|]. split; [reflexivity|right; reflexivity].
    - discriminate.
    - reflexivity.
    - cbn. rewrite D. reflexivity.
    - exact P2.
    - exact C. }
  cbn [input_all]. unfold json_input. cbn [app]. rewrite Q. destruct (parse [PMapStart; PComplete] c) as [e3 x3]. unfold ahead. cbn [fst snd app JinModel.cbs JinModel.cb]. reflexivity.
Qed.

(* ---------- the whole way ---------- *)

Lemma gcall_out : forall p o g st g', gcall p o g = (st, g') -> exists w, g_out g' = g_out g ++ w.
Proof.
  intros p o g st g' H. unfold gcall, atom, gopen, gclose in H.
  repeat match type of H with context [if ?b then _ else _] => destruct b | context [match ?x with _ => _ end] => destruct x end;
    injection H as _ <-; cbn [g_out]; rewrite <- ?app_assoc; eauto using app_nil_r; exists []; rewrite app_nil_r; reflexivity.
Qed.
Lemma grun_out : forall p os g g', grun p os g = Some g' -> exists w, g_out g' = g_out g ++ w.
Proof.
  induction os as [|o os IH]; intros g g' H.
  - injection H as <-. exists []. rewrite app_nil_r. reflexivity.
  - cbn [grun] in H. destruct (gcall p o g) as [st g1] eqn:C. destruct (gcall_out _ _ _ _ _ C) as (w1 & W1).
    destruct st; try discriminate H. destruct (IH _ _ H) as (w2 & W2). exists (w1 ++ w2). rewrite W2, W1, app_assoc. reflexivity.
Qed.
Lemma map_first : forall p l g, grun p (calls (JMap l)) gen0 = Some g -> exists w, g_out g = 123 :: w.
Proof.
  intros p l g H. cbn [calls grun] in H. destruct (gcall p OMapO gen0) as [st g1] eqn:C.
  assert (X : exists w, st = GOk /\ g_out g1 = 123 :: w) by (destruct p; vm_compute in C; injection C as <- <-; eexists; split; reflexivity).
  destruct X as (w1 & -> & W1). destruct (grun_out _ _ _ _ H) as (w & W). rewrite W1 in W. exists (w1 ++ w). exact W.
Qed.

Lemma deep_map : forall l n, Forall (fun kv => (deep (snd kv) <= n)%nat) l -> (deep (JMap l) <= S n)%nat.
Proof.
  intros l n F. cbn [deep]. apply le_n_S. induction F as [|kv l A F IH]; cbn [fold_right]; lia.
Qed.
Lemma deep_arr : forall l n, Forall (fun v => (deep v <= n)%nat) l -> (deep (JArr l) <= S n)%nat.
Proof.
  intros l n F. cbn [deep]. apply le_n_S. induction F as [|kv l A F IH]; cbn [fold_right]; lia.
Qed.
Lemma all_map : forall (A B : Type) (P : B -> Prop) (f : A -> B) l, (forall x, P (f x)) -> Forall P (map f l).
Proof. intros. apply Forall_forall. intros x I. apply in_map_iff in I as (y & <- & _). auto. Qed.
Lemma deep_answer : forall l, (deep (answer_tree l) <= 8)%nat.
Proof.
  assert (R : forall r, (deep (row_tree r) <= 1)%nat).
  { intros r. unfold row_tree. apply deep_map. constructor; [cbn; lia|]. constructor; [cbn; lia|]. apply all_map. cbn. lia. }
  assert (RS : forall l, (deep (JArr (map row_tree l)) <= 2)%nat) by (intros; apply deep_arr; apply all_map; exact R).
  assert (FS : forall l, (deep (flags_tree l) <= 1)%nat) by (intros; apply deep_arr; apply all_map; cbn; lia).
  assert (SS : forall l, (deep (JArr (map JStr l)) <= 1)%nat) by (intros; apply deep_arr; apply all_map; cbn; lia).
  assert (B : forall b, (deep (backup_tree b) <= 3)%nat).
  { intros b. unfold backup_tree. apply deep_map.  rewrite !Forall_app. split; [|split].
    - repeat apply Forall_cons; try apply Forall_nil; cbn [snd]; [cbn; lia|cbn; lia|]. pose proof (FS (o_flags b)). lia.
    - destruct (o_counters b); constructor; [|constructor]. cbn [snd]. apply RS.
    - destruct (o_logs b); constructor; [|constructor]. cbn [snd]. apply deep_map. constructor; [exact (FS l)|].
      destruct (o_log b) as [[f ls]|]; constructor; [|constructor]. exact (SS ls). }
  assert (C : forall h, (deep (child_tree h) <= 3)%nat).
  { intros h. unfold child_tree. apply deep_map. repeat apply Forall_cons; try apply Forall_nil; cbn [snd]; try exact (RS (och_counters h)); cbn; lia. }
  assert (K : forall c, (deep (client_tree c) <= 5)%nat).
  { intros c. unfold client_tree. apply deep_map. constructor; [cbn; lia|]. rewrite Forall_app. split.
    { destruct (o_labels c) as [|s l]; constructor; [|constructor]. cbn [snd]. pose proof (SS (s :: l)). lia. }
    constructor; [cbn; lia|]. constructor; [cbn; lia|]. rewrite !Forall_app. split; [|split].
    - destruct (o_children c) as [|s l]; constructor; [|constructor]. cbn [snd]. apply deep_arr. apply all_map. exact C.
    - destruct (o_phase c); constructor; [cbn; lia|constructor].
    - constructor; [|constructor]. cbn [snd]. apply deep_arr. apply all_map. exact B. }
  intros l. unfold answer_tree. pose proof (deep_map [(str "clients", JArr (map client_tree l))] 6) as G.
  assert (X : (deep (JMap [(str "clients", JArr (map client_tree l))]) <= 7)%nat); [|lia]. apply G. constructor; [|constructor]. cbn [snd].
  apply deep_arr. apply all_map. exact K.
Qed.

(* nothing is open: an answer can begin *)
Definition ready (s : jst) : Prop := exists k cn lg ln, s = T 0 k (h_all (j_h s)) cn lg [] ln.

Theorem answer_shown : forall p l s, Forall cl_ok l -> fine (answer_tree l) -> ready s ->
  exists w, grun p (clients_calls l) gen0 = Some (mkgen [GComplete] false w) /\
  forall c cs, c <> [] -> concat (c :: cs) = w ->
  exists s' rest, input_all date now None s (c :: cs) = (JEnd false s', rest) /\ blank (concat rest) /\ ready s' /\
    h_all (j_h s') = fold_left (show date now) l (h_all (j_h s)) /\
    x_lines (j_x s') = fold_left (fun ln o => lines o ln) l (x_lines (j_x s)).
Proof.
  intros p l s OK F (k & cn & lg & ln & R).
  pose proof (deep_answer l) as DA.
  destruct (text_read p (answer_tree l) F) as (w & G & _ & P). { unfold max_depth. lia. }
  rewrite <- clients_calls_tree in G. exists w. split; [exact G|]. intros c cs NE E.
  specialize (P eq_refl [w]). cbn [concat] in P. rewrite app_nil_r in P. specialize (P eq_refl). rewrite pieces in P. cbn [concat] in P. rewrite app_nil_r in P.
  rewrite clients_calls_tree in G. destruct (map_first p _ _ G) as (w' & W). cbn [g_out] in W.
  destruct c as [|c0 c]; [contradiction|]. cbn [concat] in E. rewrite W in E. injection E as -> E.
  destruct (answer_run date now l k (h_all (j_h s)) cn lg [] ln OK) as (k' & cn' & C). rewrite <- R in C.
  destruct (input_text c cs w s _ _ ltac:(rewrite R; reflexivity) ltac:(rewrite W, <- E; reflexivity) P C) as (rest & I0 & B).
  eexists. exists rest. split; [exact I0|]. split; [exact B|]. split; [|split].
  - unfold ready. do 4 eexists. reflexivity.
  - reflexivity.
  - replace (x_lines (j_x s)) with ln by (rewrite R; reflexivity). reflexivity.
Qed.

(* a line of the log, or a warning *)
Theorem message_shown : forall p (warn : bool) msg s, cstr msg -> ready s ->
  exists w, grun p (message_calls (if warn then str "warning" else str "logline") msg) gen0 = Some (mkgen [GComplete] false w) /\
  forall c cs, c <> [] -> concat (c :: cs) = w ->
  exists s' rest, input_all date now None s (c :: cs) = (JEnd warn s', rest) /\ blank (concat rest) /\
    j_h s' = j_h s /\ x_lines (j_x s') = x_lines (j_x s) /\
    x_warn (j_x s') = (if warn then [msg] else []) /\ x_log (j_x s') = x_log (j_x s) ++ (if warn then [] else [msg]).
Proof.
  intros p warn msg s M (k & cn & lg & ln & R). set (fl := if warn then str "warning" else str "logline").
  assert (F : fine (JMap [(fl, JStr msg)])).
  { cbn. repeat split. - unfold fl. destruct warn; cbn; repeat (apply Forall_cons; [unfold is_byte; lia|]); apply Forall_nil.
    - eapply Forall_impl; [|exact M]. unfold is_char, is_byte. lia. }
  destruct (text_read p (JMap [(fl, JStr msg)]) F) as (w & G & _ & P). { cbn. unfold max_depth. lia. }
  exists w. split; [exact G|]. intros c cs NE E.
  specialize (P eq_refl [w]). cbn [concat] in P. rewrite app_nil_r in P. specialize (P eq_refl). rewrite pieces in P. cbn [concat] in P. rewrite app_nil_r in P.
  destruct (map_first p _ _ G) as (w' & W). cbn [g_out] in W.
  destruct c as [|c0 c]; [contradiction|]. cbn [concat] in E. rewrite W in E. injection E as -> E.
  set (al := h_all (j_h s)) in *.
  assert (C : cbs (evs (JMap [(fl, JStr msg)])) s = COk (mkj (mkctl 0 fl false false false false false) (mkacc 0 None 0 []) (mkwho UNone None al) cn
    (mkoutp [] (lg ++ if warn then [] else [msg]) (if warn then [msg] else []) ln))).
  { rewrite R. unfold fl. destruct warn; cbn -[cut0]; rewrite (cut0_cstr msg M); cbn; rewrite ?app_nil_r; reflexivity. }
  destruct (input_text c cs w s _ _ ltac:(rewrite R; reflexivity) ltac:(rewrite W, <- E; reflexivity) P C) as (rest & I0 & B).
  destruct warn; (eexists; exists rest; split; [exact I0|]; split; [exact B|]; rewrite R; split; [reflexivity|]; split; [reflexivity|]; split; reflexivity).
Qed.

(* ---------- the list of clients ---------- *)

Lemma beqb_sym : forall a b, beqb a b = beqb b a.
Proof.
  intros a b. destruct (beqb a b) eqn:E.
  - apply beqb_eq in E. subst. symmetry. apply beqb_refl.
  - symmetry. destruct (beqb b a) eqn:F; [|reflexivity]. apply beqb_eq in F. subst. rewrite beqb_refl in E. discriminate E.
Qed.
Lemma the_at_other : forall n m c l, vc_name c = m -> beqb m n = false -> the n (at_name m (fun _ => c) l) = the n l.
Proof.
  intros n m c l N D. unfold the. induction l as [|x l IH]; [reflexivity|]. cbn [at_name]. destruct (beqb (vc_name x) m) eqn:X; cbn [find].
  - rewrite N, D. apply beqb_eq in X. rewrite X, D. reflexivity.
  - rewrite IH. reflexivity.
Qed.
Lemma the_add : forall n c l, the n (add_cl c l) = if beqb (vc_name c) n then match the n l with None => Some c | Some x => the n (add_cl c l) end else the n l.
Proof.
  intros n c l. unfold the. destruct (beqb (vc_name c) n) eqn:X.
  - destruct (find (fun c1 => beqb (vc_name c1) n) l) as [y|] eqn:F; [reflexivity|].
    induction l as [|x l IH]; cbn [add_cl find]; [rewrite X; reflexivity|]. cbn [find] in F. destruct (beqb (vc_name x) n) eqn:Y; [discriminate F|].
    destruct (strcmp (vc_name c) (vc_name x)); cbn [find]; rewrite ?X, ?Y; auto.
  - induction l as [|x l IH]; cbn [add_cl find]; [rewrite X; reflexivity|].
    destruct (strcmp (vc_name c) (vc_name x)); cbn [find]; rewrite ?X, ?IH; reflexivity.
Qed.

Lemma view_name : forall o b, vc_name (client_view date now o b) = o_name o.
Proof. reflexivity. Qed.
Lemma show_other : forall o all n, beqb (o_name o) n = false -> the n (show date now all o) = the n all.
Proof.
  intros o all n D. unfold show. destruct (the (o_name o) all) as [c|].
  - apply the_at_other; [reflexivity|exact D].
  - rewrite the_add, view_name, D. reflexivity.
Qed.
Definition old_bu (n : bytes) (all : list vcl) : list vbu := match the n all with Some c => vc_bu c | None => [] end.
Lemma show_own : forall o all, the (o_name o) (show date now all o) = Some (client_view date now o (old_bu (o_name o) all)).
Proof.
  intros o all. unfold show, old_bu. destruct (the (o_name o) all) as [c|] eqn:F.
  - destruct (find_exists _ _ _ F) as [E _]. apply find_at; [reflexivity|exact E].
  - rewrite the_add, view_name, beqb_refl, F. reflexivity.
Qed.

Theorem shown_own : forall l all o, NoDup (map o_name l) -> In o l ->
  the (o_name o) (fold_left (show date now) l all) = Some (client_view date now o (old_bu (o_name o) all)).
Proof.
  induction l as [|x l IH]; intros all o ND I0; [destruct I0|]. cbn [map] in ND. inversion ND as [|? ? NI ND2]; subst. cbn [fold_left].
  destruct I0 as [->|I0].
  - rewrite <- show_own. clear IH ND ND2. revert all NI. generalize (o_name o) as n. intros n all. generalize (show date now all o). 
    induction l as [|y l IH]; intros st NI; [reflexivity|]. cbn [fold_left]. cbn [map] in NI. rewrite IH by (intros X; apply NI; right; exact X).
    apply show_other. apply beqb_neq. intros E. apply NI. left. exact E.
  - rewrite (IH _ _ ND2 I0). f_equal. f_equal. unfold old_bu. rewrite show_other; [reflexivity|].
    apply beqb_neq. intros E. apply NI. rewrite E. apply in_map. exact I0.
Qed.
Theorem shown_other : forall l all n, ~ In n (map o_name l) -> the n (fold_left (show date now) l all) = the n all.
Proof.
  induction l as [|x l IH]; intros all n NI; [reflexivity|]. cbn [fold_left]. cbn [map] in NI. rewrite IH by (intros X; apply NI; right; exact X).
  apply show_other. apply beqb_neq. intros E. apply NI. left. exact E.
Qed.

(* the first answer: exactly its clients, by name *)
Definition in_order (l : list vcl) : Prop := StronglySorted str_lt (map vc_name l).
Lemma add_cl_perm : forall c l, Permutation (add_cl c l) (c :: l).
Proof.
  intros c l. induction l as [|x l IH]; [reflexivity|]. cbn [add_cl]. destruct (strcmp (vc_name c) (vc_name x)); try reflexivity;
    (rewrite IH; apply perm_swap).
Qed.
Lemma add_cl_sorted : forall c l, the (vc_name c) l = None -> in_order l -> in_order (add_cl c l).
Proof.
  unfold in_order, the. intros c l. induction l as [|x l IH]; intros N H; [repeat constructor|]. cbn [add_cl]. cbn [map] in H. inversion H as [|? ? S1 H1]; subst.
  cbn [find] in N. destruct (beqb (vc_name x) (vc_name c)) eqn:X; [discriminate N|]. pose proof (strcmp_spec (vc_name c) (vc_name x)) as C.
  destruct (strcmp (vc_name c) (vc_name x)).
  - rewrite C, beqb_refl in X. discriminate X.
  - cbn [map]. constructor; [exact H|]. constructor; [exact C|]. eapply Forall_impl; [|exact H1]. intros a A. exact (str_lt_trans _ _ _ C A).
  - cbn [map]. constructor; [exact (IH N S1)|]. rewrite (Permutation_map vc_name (add_cl_perm c l)). cbn [map]. constructor; [exact C|exact H1].
Qed.
Theorem shown_first : forall l, NoDup (map o_name l) ->
  Permutation (fold_left (show date now) l []) (map (fun o => client_view date now o []) l) /\ in_order (fold_left (show date now) l []).
Proof.
  intros l ND.
  assert (G : forall l st, NoDup (map o_name l) -> (forall o, In o l -> the (o_name o) st = None) -> in_order st ->
    Permutation (fold_left (show date now) l st) (map (fun o => client_view date now o []) l ++ st) /\ in_order (fold_left (show date now) l st)).
  { clear l ND. induction l as [|x l IH]; intros st ND N H; [split; [reflexivity|exact H]|]. cbn [map] in ND. inversion ND as [|? ? NI ND2]; subst.
    cbn [fold_left map app]. assert (SX : show date now st x = add_cl (client_view date now x []) st) by (unfold show; rewrite (N x (or_introl eq_refl)); reflexivity).
    destruct (IH (show date now st x) ND2) as [P Q].
    - intros o I0. rewrite show_other; [apply N; right; exact I0|]. apply beqb_neq. intros E. apply NI. rewrite E. apply in_map. exact I0.
    - rewrite SX. apply add_cl_sorted; [apply N; left; reflexivity|exact H].
    - split; [|exact Q]. rewrite P, SX, add_cl_perm. symmetry. apply Permutation_middle. }
  destruct (G l [] ND ltac:(reflexivity) ltac:(constructor)) as [P Q]. rewrite app_nil_r in P. auto.
Qed.

(* ---------- the list of backups ---------- *)

Definition newest_first (a b : vbu) : Prop := vb_no b < vb_no a.
Definition nos (l : list vbu) : list Z := map vb_no l.
Definition merged_right (old new : list vbu) : Prop := Permutation (merge_bu old new) new /\ StronglySorted newest_first (merge_bu old new).

Lemma take_some : forall n l b r, take_no n l = Some (b, r) -> vb_no b = n /\ Permutation l (b :: r).
Proof.
  intros n l. induction l as [|x l IH]; intros b r H; [discriminate H|]. cbn [take_no] in H. destruct (Z.eqb_spec n (vb_no x)) as [E|E].
  - injection H as <- <-. split; [symmetry; exact E|reflexivity].
  - destruct (take_no n l) as [[y q]|]; [|discriminate H]. injection H as <- <-. destruct (IH y q eq_refl) as [A P]. split; [exact A|].
    rewrite P. apply perm_swap.
Qed.
Lemma take_none : forall n l, take_no n l = None <-> ~ In n (nos l).
Proof.
  intros n l. induction l as [|x l IH]; [split; [intros _ []|reflexivity]|]. cbn [take_no nos map]. destruct (Z.eqb_spec n (vb_no x)) as [E|E].
  - split; [discriminate|]. intros H. exfalso. apply H. left. symmetry. exact E.
  - destruct (take_no n l) as [[y q]|]; split; intros H.
    + discriminate H.
    + exfalso. assert (X : ~ In n (nos l)) by (intros X; apply H; right; exact X). apply IH in X. discriminate X.
    + intros [X|X]; [congruence|]. exact (proj1 IH eq_refl X).
    + reflexivity.
Qed.
Lemma same_no : forall a b, vb_no a = vb_no b -> mkvbu (vb_no a) (vb_flags b) (vb_time b) = b.
Proof. intros a [n f t] H. cbn in *. rewrite H. reflexivity. Qed.

(* going through the whole old list *)
Lemma walk_false : forall old new k r, walk false old new = (k, r) ->
  Permutation (k ++ r) new /\ (forall x, In x k -> In (vb_no x) (nos old)) /\
  (StronglySorted newest_first old -> StronglySorted newest_first k).
Proof.
  induction old as [|o old IH]; intros new k r H; cbn [walk] in H.
  - injection H as <- <-. split; [reflexivity|]. split; [intros x []|]. auto.
  - destruct (take_no (vb_no o) new) as [[n new']|] eqn:TK.
    + destruct (walk false old new') as [k' r'] eqn:W. injection H as <- <-. destruct (take_some _ _ _ _ TK) as [NO P].
      destruct (IH _ _ _ W) as (P1 & I1 & S1). rewrite same_no by (symmetry; exact NO). split; [|split].
      * rewrite P. cbn [app]. constructor. exact P1.
      * intros x [<-|I0]; [left; symmetry; exact NO|right; exact (I1 x I0)].
      * intros SS. inversion SS as [|? ? S2 F2]; subst. constructor; [exact (S1 S2)|]. apply Forall_forall. intros x I0.
        unfold newest_first. rewrite NO. apply I1 in I0. apply in_map_iff in I0 as (y & <- & I0). rewrite Forall_forall in F2. exact (F2 y I0).
    + destruct (IH _ _ _ H) as (P1 & I1 & S1). split; [exact P1|]. split; [intros x I0; right; exact (I1 x I0)|].
      intros SS. inversion SS; subst. auto.
Qed.
Lemma put_perm : forall n l, Permutation (put_in n l) (n :: l).
Proof.
  intros n l. induction l as [|o l IH]; [reflexivity|]. cbn [put_in]. destruct (vb_no n <? vb_no o); [|reflexivity]. rewrite IH. apply perm_swap.
Qed.
Lemma put_sorted : forall n l, ~ In (vb_no n) (nos l) -> StronglySorted newest_first l -> StronglySorted newest_first (put_in n l).
Proof.
  intros n l. induction l as [|o l IH]; intros NI SS; [repeat constructor|]. cbn [put_in]. inversion SS as [|? ? S1 F1]; subst.
  cbn [nos map] in NI. destruct (Z.ltb_spec (vb_no n) (vb_no o)) as [L|L].
  - constructor; [apply IH; [intros X; apply NI; right; exact X|exact S1]|]. rewrite put_perm. constructor; [exact L|exact F1].
  - assert (L2 : vb_no o < vb_no n) by (assert (vb_no o <> vb_no n) by (intros X; apply NI; left; exact X); lia).
    constructor; [exact SS|]. constructor; [exact L2|]. eapply Forall_impl; [|exact F1]. unfold newest_first. intros a A. lia.
Qed.
Lemma puts : forall r k, NoDup (nos (k ++ r)) -> StronglySorted newest_first k ->
  Permutation (fold_left (fun l n => put_in n l) r k) (k ++ r) /\ StronglySorted newest_first (fold_left (fun l n => put_in n l) r k).
Proof.
  induction r as [|n r IH]; intros k ND SS; [rewrite app_nil_r; split; [reflexivity|exact SS]|]. cbn [fold_left].
  assert (P : Permutation (put_in n k ++ r) (k ++ n :: r)) by (rewrite put_perm; cbn [app]; apply Permutation_middle).
  assert (NI : ~ In (vb_no n) (nos k)).
  { unfold nos in ND. rewrite map_app in ND. cbn [map] in ND. apply NoDup_remove_2 in ND. intros X. apply ND. apply in_or_app. left. exact X. }
  destruct (IH (put_in n k)) as [A B].
  - eapply Permutation_NoDup; [|exact ND]. apply Permutation_map. symmetry. exact P.
  - apply put_sorted; assumption.
  - split; [rewrite A; exact P|exact B].
Qed.
Lemma puts_len : forall r k, List.length (fold_left (fun l n => put_in n l) r k) = (List.length k + List.length r)%nat.
Proof.
  induction r as [|n r IH]; intros k; cbn [fold_left List.length]; [lia|]. rewrite IH, (Permutation_length (put_perm n k)). cbn [List.length]. lia.
Qed.

(* exactly when the backups shown are those of the answer *)
Theorem merge_exact : forall old new, StronglySorted newest_first old -> NoDup (nos new) ->
  (merged_right old new <-> match old with [] | [_] => True | o :: _ => In (vb_no o) (nos new) end).
Proof.
  intros old new SS ND. unfold merged_right, merge_bu.
  assert (FULL : forall k r, Permutation (k ++ r) new -> StronglySorted newest_first k ->
    Permutation (fold_left (fun l n => put_in n l) r k) new /\ StronglySorted newest_first (fold_left (fun l n => put_in n l) r k)).
  { intros k r P S1. destruct (puts r k) as [A B].
    - eapply Permutation_NoDup; [|exact ND]. apply Permutation_map. symmetry. exact P.
    - exact S1.
    - split; [rewrite A; exact P|exact B]. }
  destruct old as [|o old].
  - cbn [walk]. split; [auto|]. intros _. apply FULL; [reflexivity|constructor].
  - cbn [walk]. destruct (take_no (vb_no o) new) as [[n new']|] eqn:TK.
    + destruct (walk false old new') as [k r] eqn:W. assert (IN : In (vb_no o) (nos new)).
      { destruct (take_some _ _ _ _ TK) as [NO P]. unfold nos. rewrite P. left. exact NO. }
      split; [intros _; destruct old; [exact I|exact IN]|]. intros _. apply FULL.
      * pose proof (walk_false (o :: old) new (mkvbu (vb_no o) (vb_flags n) (vb_time n) :: k) r) as G. cbn [walk] in G. rewrite TK, W in G. destruct (G eq_refl) as (P & _). exact P.
      * pose proof (walk_false (o :: old) new (mkvbu (vb_no o) (vb_flags n) (vb_time n) :: k) r) as G. cbn [walk] in G. rewrite TK, W in G. destruct (G eq_refl) as (_ & _ & S1). exact (S1 SS).
    + apply take_none in TK. destruct old as [|o2 old].
      * split; [auto|]. intros _. apply FULL; [reflexivity|constructor].
      * split; [|intros X; contradiction]. intros [P _]. apply Permutation_length in P. rewrite puts_len in P. cbn [List.length] in P. lia.
Qed.

(* ---------- counters ---------- *)

Definition clear (e : ent) : ent := mkent (e_cmd e) (e_kind e) (e_field e) (e_label e) 0 0 0 0 0.
(* what the monitor has of an entry before any answer *)
Definition unset (e : ent) : ent := if e_cmd e =? CMD_TIMESTAMP then set_count now (clear e) else clear e.
(* and after one *)
Definition told (e : ent) : ent :=
  match e_kind e with
  | Plain => unset e
  | Single => if e_count e =? 0 then unset e else set_count (e_count e) (unset e)
  | Tab => e
  end.
Lemma u64_s64 : forall z, u64 (s64 z) = u64 z.
Proof.
  intros z. unfold s64. change (2 ^ 63) with 9223372036854775808. change (2 ^ 64) with 18446744073709551616. unfold u64. change (2 ^ 64) with 18446744073709551616.
  destruct (z mod 18446744073709551616 <? 9223372036854775808).
  - apply Z.mod_mod. lia.
  - rewrite <- (Z_mod_plus_full (z mod 18446744073709551616 - 18446744073709551616) 1). replace (z mod 18446744073709551616 - 18446744073709551616 + 1 * 18446744073709551616) with (z mod 18446744073709551616) by lia.
    apply Z.mod_mod. lia.
Qed.
Lemma rows_apply : forall L B, NoDup (map e_cmd L) -> map sig L = map sig B -> map unset L = B -> Forall in_range L ->
  (forall e, In e L -> e_kind e = Tab -> e_cmd e <> CMD_TIMESTAMP) ->
  apply_rows (flat_map (fun e => match row_of e with Some r => [r] | None => [] end) L) B = map told L.
Proof.
  assert (SKIP : forall rs b B, ~ In (e_cmd b) (map r_type rs) -> apply_rows rs (b :: B) = b :: apply_rows rs B).
  { induction rs as [|r rs IH]; intros b B NI; [reflexivity|]. unfold apply_rows in *. cbn [fold_left]. unfold apply_row at 2. cbn [at_ent].
    cbn [map] in NI. destruct (Z.eqb_spec (e_cmd b) (r_type r)) as [E|E]; [exfalso; apply NI; left; symmetry; exact E|].
    change (at_ent (r_type r) (apply_vals (r_vals r)) B) with (apply_row B r). rewrite IH; [reflexivity|]. intros X. apply NI. right. exact X. }
  assert (TY : forall e r, row_of e = Some r -> r_type r = e_cmd e).
  { intros e r H. unfold row_of in H. destruct (e_kind e); [| |discriminate H]; match type of H with context [if ?b then _ else _] => destruct b end; try discriminate H; injection H as <-; reflexivity. }
  assert (TYS : forall L c, In c (map r_type (flat_map (fun e => match row_of e with Some r => [r] | None => [] end) L)) -> In c (map e_cmd L)).
  { intros L c I0. apply in_map_iff in I0 as (r & <- & I0). apply in_flat_map in I0 as (e & I1 & I2). destruct (row_of e) as [r'|] eqn:R; [|destruct I2].
    destruct I2 as [<-|[]]. rewrite (TY _ _ R). apply in_map. exact I1. }
  induction L as [|e L IH]; intros B ND SH U C TS.
  - cbn [map] in U. subst B. reflexivity.
  - destruct B as [|b B]; [discriminate U|]. cbn [map] in *. injection U as U0 U. injection SH as X1 X2 X3 X4 SH. inversion ND as [|? ? NI ND2]; subst.
    specialize (IH _ ND2 SH eq_refl (Forall_inv_tail C)). cbn [flat_map].
    assert (UC : e_cmd (unset e) = e_cmd e) by (unfold unset; destruct (_ =? _); reflexivity).
    assert (T0 : told e = match row_of e with Some r => apply_vals (r_vals r) (unset e) | None => unset e end).
    { pose proof (Forall_inv C) as (C1 & C2 & C3 & C4 & C5). unfold told, row_of. destruct (e_kind e) eqn:K.
      - destruct (e_count e =? 0); [reflexivity|]. cbn [r_vals]. unfold apply_vals. cbn [fold_left fst snd]. unfold apply_val. cbn -[s64 unset u64]. unfold set_count. rewrite u64_s64. reflexivity.
      - assert (US : unset e = clear e). { unfold unset. destruct (Z.eqb_spec (e_cmd e) CMD_TIMESTAMP) as [E|E]; [|reflexivity]. exfalso. exact (TS e (or_introl eq_refl) K E). }
        rewrite US. destruct (_ && _) eqn:ZZ.
        + repeat (apply andb_prop in ZZ as [ZZ ?]). rewrite Z.eqb_eq in *. destruct e; cbn in *. subst. reflexivity.
        + cbn [r_vals]. unfold apply_vals. cbn [fold_left fst snd]. unfold apply_val. cbn -[s64 u64]. unfold set_count, set_changed, set_same, set_deleted, set_phase1. cbn [e_cmd e_kind e_field e_label e_count e_changed e_same e_deleted e_phase1]. rewrite !u64_s64, !u64_small by assumption. destruct e; reflexivity.
      - reflexivity. }
    rewrite T0. destruct (row_of e) as [r|] eqn:R.
    + cbn [app]. change (apply_rows (r :: ?x) ?y) with (apply_rows x (apply_row y r)) at 1. 
      unfold apply_rows at 1. cbn [fold_left]. unfold apply_row at 2. cbn [at_ent]. rewrite UC, (TY _ _ R), Z.eqb_refl.
      change (fold_left apply_row ?x ?y) with (apply_rows x y). rewrite SKIP.
      * f_equal. apply IH. intros e' I0. apply TS. right. exact I0.
      * rewrite apply_vals_cmd, UC. intros X. apply NI. exact (TYS _ _ X).
    + cbn [app]. rewrite SKIP.
      * f_equal. apply IH. intros e' I0. apply TS. right. exact I0.
      * rewrite UC. intros X. apply NI. exact (TYS _ _ X).
Qed.

Theorem counters_told : forall t l pid, counters l -> is_u64 t ->
  apply_rows (do_counters t l) (vn_ents (new_vcn now pid)) = map told (at_ent CMD_TIMESTAMP_END (set_count t) l).
Proof.
  intros t l pid (SH & C) TT. unfold do_counters. set (L := at_ent CMD_TIMESTAMP_END (set_count t) l).
  assert (SL : map sig L = map sig table). { rewrite <- SH. unfold L. clear. induction l as [|e l IH]; [reflexivity|]. cbn [at_ent]. destruct (_ =? _); cbn [map]; [reflexivity|]. rewrite IH. reflexivity. }
  assert (CL : Forall in_range L). { unfold L. clear SL L SH. induction l as [|e l IH]; [constructor|]. cbn [at_ent]. destruct (_ =? _).
    - constructor; [|exact (Forall_inv_tail C)]. pose proof (Forall_inv C) as (? & ? & ? & ? & ?). unfold in_range, set_count. cbn [e_count e_changed e_same e_deleted e_phase1]. rewrite u64_small by exact TT. tauto.
    - constructor; [exact (Forall_inv C)|]. apply IH. exact (Forall_inv_tail C). }
  assert (CM : map e_cmd L = map e_cmd table). { assert (X : forall l, map e_cmd l = map (fun q => fst (fst (fst q))) (map sig l)) by (intros; rewrite map_map; reflexivity). rewrite !X, SL. reflexivity. }
  assert (UL : map unset L = vn_ents (new_vcn now pid)).
  { assert (X : forall a b, map sig a = map sig b -> map unset a = map unset b).
    { clear. induction a as [|x a IH]; intros [|y b] H; try discriminate H; [reflexivity|]. cbn [map] in *. injection H as H1 H2 H3 H4 H. rewrite (IH _ H). f_equal.
      unfold unset, clear. rewrite H1, H2, H3, H4. reflexivity. }
    rewrite (X _ _ SL). reflexivity. }
  apply rows_apply.
  - rewrite CM. repeat constructor; cbn; intuition discriminate.
  - rewrite SL. reflexivity.
  - exact UL.
  - exact CL.
  - intros e I0 K E. assert (In (sig e) (map sig table)) by (rewrite <- SL; apply in_map; exact I0). 
    apply in_map_iff in H as (x & H1 & H2). injection H1 as A B _ _. rewrite K in B. rewrite E in A. clear - H2 A B. cbn in H2.
    repeat destruct H2 as [<-|H2]; try discriminate B; try discriminate A. destruct H2.
Qed.
End Show.
