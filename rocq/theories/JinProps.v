(* C115-C119: what the monitor shows of the answers of the server *)
From Coq Require Import ZArith List Bool Lia Permutation Sorted.
From Verif Require Import Bytes DpthModel BuModel CmdModel CntrModel CntrProofs CstatModel CstatProofs MonModel JsonModel JsonProofs JinModel JinProofs JinShowProofs JinUniProofs.
Import ListNotations.
Open Scope Z_scope.

(* ---- C115: an answer, in whatever pieces it comes, is shown as it was written ---- *)
Theorem C115_answer_partial : forall date now p l s, Forall cl_ok l -> fine (answer_tree l) -> ready s ->
  exists w, grun p (clients_calls l) gen0 = Some (mkgen [GComplete] false w) /\
  forall c cs, c <> [] -> concat (c :: cs) = w ->
  exists s' rest, input_all date now None s (c :: cs) = (JEnd false s', rest) /\ blank (concat rest) /\ ready s' /\
    h_all (j_h s') = fold_left (show date now) l (h_all (j_h s)) /\
    x_lines (j_x s') = fold_left (fun ln o => lines o ln) l (x_lines (j_x s)).
Proof. exact answer_shown. Qed.
(* on its own, what may be left is an error *)
Theorem C115_newline_refuted : exists date now l w s' rest, Forall cl_ok l /\ fine (answer_tree l) /\
  grun true (clients_calls l) gen0 = Some (mkgen [GComplete] false (w ++ [10])) /\
  input_all date now None (jst0 []) [w; [10]] = (JEnd false s', rest) /\ rest = [[10]] /\
  json_input date now None s' [10] = JError.
Proof.
  exists (fun _ => []), 0, [], (str "{" ++ [10] ++ str "    " ++ [34] ++ str "clients" ++ [34] ++ str ": [" ++ [10; 10] ++ str "    ]" ++ [10] ++ str "}"),
    (mkj (mkctl 0 (str "clients") false false false false false) (mkacc 0 None 0 []) (mkwho UNone None []) (mkcnt (-1) 0 0 ENull) (mkoutp [] [] [] [])), [[10]].
  split; [constructor|]. split.
  { cbn. repeat split. repeat (apply Forall_cons; [unfold is_byte; lia|]). apply Forall_nil. }
  repeat split; vm_compute; reflexivity.
Qed.

(* ---- C116: what is shown of each client and backup ---- *)
Theorem C116_own : forall date now l all o, NoDup (map o_name l) -> In o l ->
  the (o_name o) (fold_left (show date now) l all) = Some (client_view date now o (old_bu (o_name o) all)).
Proof. exact shown_own. Qed.
Theorem C116_others : forall date now l all n, ~ In n (map o_name l) -> the n (fold_left (show date now) l all) = the n all.
Proof. exact shown_other. Qed.
Theorem C116_first : forall date now l, NoDup (map o_name l) ->
  Permutation (fold_left (show date now) l []) (map (fun o => client_view date now o []) l) /\ in_order (fold_left (show date now) l []).
Proof. exact shown_first. Qed.
(* the backups shown are those of the answer, newest first, exactly if the newest one shown before is still there or
   was the only one *)
Theorem C116_backups_partial : forall old new, StronglySorted newest_first old -> NoDup (nos new) ->
  (merged_right old new <-> match old with [] | [_] => True | o :: _ => In (vb_no o) (nos new) end).
Proof. exact merge_exact. Qed.
(* the newest backup is gone: the next one is shown twice *)
Theorem C116_twice_refuted : exists old new, StronglySorted newest_first old /\ StronglySorted newest_first new /\
  nos old = [7; 6; 5] /\ nos new = [6; 5] /\ nos (merge_bu old new) = [6; 6; 5; 5].
Proof.
  exists [mkvbu 7 0 None; mkvbu 6 0 None; mkvbu 5 0 None], [mkvbu 6 0 None; mkvbu 5 0 None].
  split; [repeat constructor|]. split; [repeat constructor|]. repeat split; vm_compute; reflexivity.
Qed.
(* a client that the server has no more is shown on *)
Theorem C116_gone_refuted : exists date now all l c, the (str "gone") all = Some c /\ ~ In (str "gone") (map o_name l) /\
  the (str "gone") (fold_left (show date now) l all) = Some c.
Proof.
  exists (fun _ => []), 0, [mkvcl (str "gone") RIdle [] []], [mkocl (str "a") [] RIdle [] None []], (mkvcl (str "gone") RIdle [] []).
  split; [reflexivity|]. split; [intros [H|[]]; discriminate H|reflexivity].
Qed.

(* ---- C117: no text takes the reader to undefined behaviour ---- *)
(* a key of 32 bytes is written beyond its array *)
Theorem C117_key_refuted : forall date now s k, List.length k = 32%nat ->
  json_input date now None s (str "{" ++ [34] ++ str "aaaaaaaaaaaaaaaaaaaaaaaaaaaaaaaa" ++ [34]) = JUndef /\ cb date now (EKey k) s = CUndef.
Proof.
  intros date now s k H. split; [reflexivity|]. unfold cb, input_map_key. rewrite H. reflexivity.
Qed.
(* counters or backups before any name *)
Theorem C117_counters_refuted : forall date now all,
  json_input date now None (jst0 all) (str "{" ++ [34] ++ str "counters" ++ [34] ++ str ":[") = JUndef.
Proof. reflexivity. Qed.
Theorem C117_backups_refuted : forall date now all,
  json_input date now None (jst0 all) (str "{" ++ [34] ++ str "backups" ++ [34] ++ str ":[]") = JUndef.
Proof. reflexivity. Qed.
(* A number for a counter without its kind, after the same client was named again: the
   counters that the pointer is into were freed (/repo/src/client/monitor/json_input.c:165-168) *)
Definition twice_named : bytes :=
  map (fun c => if c =? 39 then 34 else c) (str "{'name':'a','counters':[{'type':'f','count':1}],'name':'a','counters':[{'count':1,").
Theorem C117_freed_refuted : forall date now r,
  json_input date now None (jst0 [mkvcl (str "a") r [] []]) twice_named = JUndef.
Proof. reflexivity. Qed.
(* the answers of the server do not: C115_answer_partial; nor does a message *)

Lemma ranges : forall l, forallb (fun e => forallb (fun n => (0 <=? n) && (n <? 2 ^ 64)) [e_count e; e_changed e; e_same e; e_deleted e; e_phase1 e]) l = true -> Forall in_range l.
Proof.
  intros l H. apply Forall_forall. intros e I. rewrite forallb_forall in H. specialize (H e I). cbn [forallb] in H.
  repeat match type of H with _ && _ = true => apply andb_prop in H as [? H] end. unfold in_range, is_u64.
  repeat match goal with X : _ && _ = true |- _ => apply andb_prop in X as [? ?] end. rewrite ?Z.leb_le, ?Z.ltb_lt in *. lia.
Qed.

(* ---- C118: the counters shown are those of the server ---- *)
Theorem C118_counters_partial : forall now t l pid, counters l -> is_u64 t ->
  apply_rows (do_counters t l) (vn_ents (new_vcn now pid)) = map (told now) (at_ent CMD_TIMESTAMP_END (set_count t) l).
Proof. exact (counters_told (fun _ => [])). Qed.
(* the total is not sent *)
Theorem C118_total_refuted : exists l, counters l /\ forall now t pid, is_u64 t ->
  In 9 (map e_count (at_ent CMD_TIMESTAMP_END (set_count t) l)) /\
  map e_count (filter (fun e => e_cmd e =? CMD_TOTAL) l) = [9] /\
  map e_count (filter (fun e => e_cmd e =? CMD_TOTAL) (apply_rows (do_counters t l) (vn_ents (new_vcn now pid)))) = [0].
Proof.
  exists (at_ent CMD_TOTAL (set_count 9) table). assert (C : counters (at_ent CMD_TOTAL (set_count 9) table)).
  { split; [reflexivity|]. apply ranges. vm_compute. reflexivity. }
  split; [exact C|]. intros now t pid T0. split; [cbn; tauto|]. split; [reflexivity|]. rewrite (counters_told (fun _ => [])) by assumption. cbn -[u64]. repeat destruct (_ =? 0); reflexivity.
Qed.

(* ---- C119: messages of the server ---- *)
Theorem C119_message : forall date now p (warn : bool) msg s, cstr msg -> ready s ->
  exists w, grun p (message_calls (if warn then str "warning" else str "logline") msg) gen0 = Some (mkgen [GComplete] false w) /\
  forall c cs, c <> [] -> concat (c :: cs) = w ->
  exists s' rest, input_all date now None s (c :: cs) = (JEnd warn s', rest) /\ blank (concat rest) /\
    j_h s' = j_h s /\ x_lines (j_x s') = x_lines (j_x s) /\
    x_warn (j_x s') = (if warn then [msg] else []) /\ x_log (j_x s') = x_log (j_x s) ++ (if warn then [] else [msg]).
Proof. exact message_shown. Qed.

(* ---------- cases ---------- *)

Lemma raws : forall b, forallb (fun c => (0 <=? c) && (c <? 256)) b = true -> raw b.
Proof.
  intros b H. apply Forall_forall. intros c I. rewrite forallb_forall in H. specialize (H c I). apply andb_prop in H as [A B]. unfold is_byte. lia.
Qed.
Lemma cstrs : forall b, forallb (fun c => (0 <? c) && (c <? 256)) b = true -> cstr b.
Proof.
  intros b H. apply Forall_forall. intros c I. rewrite forallb_forall in H. specialize (H c I). apply andb_prop in H as [A B]. unfold is_char. lia.
Qed.

(* A client with a running backup and two old ones, one of them asked for with its log; and an idle client. *)
Definition w_rows : list row := do_counters 700 (at_ent CMD_FILE (set_changed 5) (at_ent CMD_TIMESTAMP (set_count 600) table)).
Definition w_busy : ocl := mkocl (str "m 1") [str "lab"] RRunning [mkoch 4711 8 2 w_rows] None
  [mkobu 8 600 [FWorking] None None None None; mkobu 7 500 [FCurrent; FManifest] None (Some [FLogBackup]) None None].
Definition w_idle : ocl := mkocl (str "a") [] RIdle [] None
  [mkobu 3 400 [FDeletable] None (Some [FLogBackup]) (Some (FLogBackup, [str "line 1"; str "line 2"])) None].
Example C115_case : Forall cl_ok [w_busy; w_idle] /\ fine (answer_tree [w_busy; w_idle]) /\ ready (jst0 []) /\
  (let d := fun z => [z] in
   fold_left (show d 650) [w_busy; w_idle] [] =
   [mkvcl (str "a") RIdle [] [mkvbu 3 (Z.lor (bit FDeletable) (bit FLogBackup)) (Some [400])];
    mkvcl (str "m 1") RRunning [mkvcn 4711 8 2 (map (told 650) (at_ent CMD_TIMESTAMP_END (set_count 700) (at_ent CMD_FILE (set_changed 5) (at_ent CMD_TIMESTAMP (set_count 600) table))))]
      [mkvbu 8 (Z.lor (bit FWorking) live_bit) (Some [600]); mkvbu 7 (Z.lor (Z.lor (bit FCurrent) (bit FManifest)) (bit FLogBackup)) (Some [500])]] /\
   fold_left (fun ln o => lines o ln) [w_busy; w_idle] [] = [str "line 1"; str "line 2"]) /\
  counters (at_ent CMD_FILE (set_changed 5) (at_ent CMD_TIMESTAMP (set_count 600) table)).
Proof.
  split; [|split; [|split; [|split]]].
  - assert (R : Forall row_ok w_rows).
    { repeat (apply Forall_cons; [split; [vm_compute; tauto|split; [discriminate|repeat (apply Forall_cons; [vm_compute; tauto|]); apply Forall_nil]]|]). apply Forall_nil. }
    apply Forall_cons; [|apply Forall_cons; [|apply Forall_nil]]; unfold cl_ok; cbn [o_name o_labels o_children o_phase o_backups w_busy w_idle].
    + split; [apply cstrs; reflexivity|]. split; [apply Forall_cons; [apply cstrs; reflexivity|apply Forall_nil]|].
      split; [apply Forall_cons; [|apply Forall_nil]; unfold child_ok, is_int; cbn [och_pid och_bno och_status och_counters]; repeat split; try lia; exact R|].
      split; [repeat constructor; intros []|]. split; [reflexivity|].
      split; [apply Forall_cons; [|apply Forall_cons; [|apply Forall_nil]]; unfold bu_ok, is_ll, llmax, incl; cbn; repeat split; try lia; try tauto; intros; intuition (subst; auto 20)|].
      left. repeat constructor.
    + split; [apply cstrs; reflexivity|]. split; [apply Forall_nil|]. split; [apply Forall_nil|]. split; [apply NoDup_nil|]. split; [reflexivity|].
      split; [|right; eauto]. apply Forall_cons; [|apply Forall_nil]. unfold bu_ok, is_ll, llmax, incl; cbn; repeat split; try lia; try (intros x Hx; intuition (subst; auto 20); fail).
      * tauto.
      * repeat (apply Forall_cons; [apply cstrs; reflexivity|]). apply Forall_nil.
  - repeat first [split | apply raws; reflexivity | unfold is_ll, llmax; vm_compute; intuition discriminate | exact I].
  - unfold ready. do 4 eexists. reflexivity.
  - split; vm_compute; reflexivity.
  - split; [reflexivity|]. apply ranges. vm_compute. reflexivity.
Qed.
(* the text of the answer, cut in two inside a word *)
Example C115_pieces : exists s', input_all (fun z => [z]) 650 None (jst0 [])
  [str "{" ++ [34] ++ str "clients" ++ [34] ++ str ":[{" ++ [34] ++ str "na"; str "me" ++ [34] ++ str ":" ++ [34] ++ str "x" ++ [34] ++ str "," ++ [34] ++ str "run_status" ++ [34] ++ str ":" ++ [34]
   ++ str "idle" ++ [34] ++ str "," ++ [34] ++ str "protocol" ++ [34] ++ str ":1," ++ [34] ++ str "backups" ++ [34] ++ str ":[]}]}"] = (JEnd false s', []) /\
  h_all (j_h s') = [mkvcl (str "x") RIdle [] []] /\
  (exists g, grun false (clients_calls [mkocl (str "x") [] RIdle [] None []]) gen0 = Some g /\
    g_out g = str "{" ++ [34] ++ str "clients" ++ [34] ++ str ":[{" ++ [34] ++ str "na" ++ str "me" ++ [34] ++ str ":" ++ [34] ++ str "x" ++ [34] ++ str "," ++ [34] ++ str "run_status" ++ [34] ++ str ":" ++ [34]
   ++ str "idle" ++ [34] ++ str "," ++ [34] ++ str "protocol" ++ [34] ++ str ":1," ++ [34] ++ str "backups" ++ [34] ++ str ":[]}]}").
Proof. eexists. split; [vm_compute; reflexivity|]. split; [reflexivity|]. eexists. split; vm_compute; reflexivity. Qed.
(* backups that came and went *)
Example C116_case : merged_right [mkvbu 7 1 None; mkvbu 6 0 None; mkvbu 4 0 None] [mkvbu 8 2 None; mkvbu 7 0 None; mkvbu 4 5 None] /\
  merge_bu [mkvbu 7 1 None; mkvbu 6 0 None; mkvbu 4 0 None] [mkvbu 8 2 None; mkvbu 7 0 None; mkvbu 4 5 None] =
    [mkvbu 8 2 None; mkvbu 7 0 None; mkvbu 4 5 None].
Proof.
  split; [|reflexivity]. apply C116_backups_partial; [repeat constructor| |cbn; tauto]. unfold nos. cbn. repeat constructor; cbn; intuition lia.
Qed.
Example C119_case : cstr (str "no such client") /\ ready (jst0 [mkvcl (str "x") RIdle [] []]) /\
  exists s', input_all (fun _ => []) 0 None (jst0 []) [str "{" ++ [34] ++ str "warn"; str "ing" ++ [34] ++ str ":" ++ [34] ++ str "a" ++ [34] ++ str "}"; [10]] =
    (JEnd true s', [[10]]) /\ x_warn (j_x s') = [str "a"].
Proof.
  split; [apply cstrs; reflexivity|]. split; [do 4 eexists; reflexivity|]. eexists. split; [vm_compute; reflexivity|reflexivity].
Qed.

Print Assumptions C115_answer_partial.
Print Assumptions C115_newline_refuted.
Print Assumptions C116_own.
Print Assumptions C116_others.
Print Assumptions C116_first.
Print Assumptions C116_backups_partial.
Print Assumptions C116_twice_refuted.
Print Assumptions C116_gone_refuted.
Print Assumptions C117_key_refuted.
Print Assumptions C117_counters_refuted.
Print Assumptions C117_backups_refuted.
Print Assumptions C117_freed_refuted.
Print Assumptions C118_counters_partial.
Print Assumptions C118_total_refuted.
Print Assumptions C119_message.

(* ---- C111: an escape in a text means the character whose number it gives ---- *)
(* in either case of its letters, and for all characters, by one escape or by two *)
Theorem C111_unicode : forall up l, Forall (fun p => 0 <= p < 1114112 /\ ~ surrogate p) l ->
  exists us, decode (flat_map (written up) l) = Some (concat us) /\ map utf8_value us = map Some l.
Proof. exact unicode_all. Qed.
Example C111_unicode_case : Forall (fun p => 0 <= p < 1114112 /\ ~ surrogate p) [8364; 128512; 233] /\
  flat_map (written false) [8364; 128512; 233] = str "\u20ac\ud83d\ude00\u00e9" /\
  decode (str "\u20ac\ud83d\ude00\u00e9") = Some [226; 130; 172; 240; 159; 152; 128; 195; 169].
Proof. split; [repeat constructor; unfold surrogate; lia|]. split; vm_compute; reflexivity. Qed.

(* ---- C115: the flags shown of a backup are those that the server has sent ---- *)
Theorem C115_flags : forall l f, Z.land (bits l 0) (bit f) <> 0 <-> In f l.
Proof. exact flags_told. Qed.
Theorem C115_live : forall l, Z.land (bits l 0) live_bit = 0 /\ forall f, Z.land (Z.lor (bits l 0) live_bit) (bit f) <> 0 <-> In f l.
Proof. exact flags_live. Qed.
Example C115_flags_case : bits [FCurrent; FManifest; FLogBackup] 0 = 208 /\ Z.land 208 (bit FFinishing) = 0.
Proof. split; reflexivity. Qed.

Print Assumptions C111_unicode.
Print Assumptions C115_flags.
Print Assumptions C115_live.
