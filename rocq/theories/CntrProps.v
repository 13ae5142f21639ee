(* C79-C82: counters, the line that reports them, and the statistics. *)
From Coq Require Import Lia.
From Verif Require Import Bytes FrameModel DpthModel BuModel BuProofs CmdModel CntrModel CntrProofs CntrSumProofs CntrStatProofs.
Local Open Scope Z_scope.

(* C79: what is reported arrives, if the path is not too long. *)
Theorem C79_roundtrip_partial : forall now h l path pid0 bno0 st0 l0,
  head_ok h -> counters l -> map sig l0 = map sig table -> plain path -> zl path <= 255 ->
  let '(l1, line) := cntr_to_str now h l path in
  let r := str_to_cntr line pid0 bno0 st0 l0 in
  p_ret r = 0 /\ p_name r = h_cname h /\ p_pid r = h_pid h /\ p_bno r = h_bno h /\ p_status r = h_status h /\
  Forall2 reports (p_ents r) l1 /\ p_path r = Some path.
Proof. exact line_roundtrip. Qed.
Theorem C79_one_line : forall now h l path, head_ok h -> counters l -> plain path ->
  let line := snd (cntr_to_str now h l path) in
  if zl path <=? 255 then exists body, line = body ++ [10] /\ ~ In 10 body else ~ In 10 line.
Proof. exact line_end. Qed.
(* A path of 256 or more characters: the line is not ended. *)
Theorem C79_long_path_refuted : forall now h l path, head_ok h -> counters l -> plain path -> 256 <= zl path ->
  ~ In 10 (snd (cntr_to_str now h l path)).
Proof.
  intros now h l path H L P Z. pose proof (line_end now h l path H L P) as X. cbv zeta in X.
  replace (zl path <=? 255) with false in X; auto. symmetry. apply Z.leb_gt. lia.
Qed.

(* C80: the text never outgrows its buffer. *)
Theorem C80_fits : forall now h l path, map sig l = map sig table ->
  zl (snd (cntr_to_str now h l path)) + 1 <= calc_max_str_len l (h_cname h).
Proof. exact text_fits. Qed.
Theorem C80_any_run : forall start os now h path,
  zl (snd (cntr_to_str now h (run start os) path)) + 1 <= calc_max_str_len (run start os) (h_cname h) /\
  calc_max_str_len (run start os) (h_cname h) = calc_max_str_len table (h_cname h).
Proof.
  intros start os now h path. pose proof (run_counters start os) as [S _]. split; [apply text_fits; exact S|].
  unfold calc_max_str_len. rewrite !fold_ent_len. unfold ent_len.
  rewrite (sumz_sig (fun k => match k with Single => 22 + 2 | _ => 22 * 5 + 6 end) _ table S). reflexivity.
Qed.

(* C81: counting. *)
Theorem C81_each_row : forall start os c, row_letter c ->
  let l := run start os in
  num e_count c l = u64 (sumz (n_new c) os) /\ num e_changed c l = u64 (sumz (n_changed c) os) /\
  num e_same c l = u64 (sumz (n_same c) os) /\ num e_deleted c l = u64 (sumz (n_deleted c) os) /\
  num e_phase1 c l = u64 (sumz (n_scanned c) os).
Proof. exact each_row. Qed.
Theorem C81_sums_up_partial : forall start os, Forall tabled os ->
  let l := run start os in
  Forall (fun f => num f CMD_GRAND_TOTAL l = u64 (sumz (fun c => num f c l) rows)) sels.
Proof. exact sums_up. Qed.
Theorem C81_grand_total : forall start os, Forall ordinary os ->
  let l := run start os in
  num e_count CMD_GRAND_TOTAL l = u64 (sumz g_new os) /\ num e_changed CMD_GRAND_TOTAL l = u64 (sumz g_changed os) /\
  num e_same CMD_GRAND_TOTAL l = u64 (sumz g_same os) /\ num e_deleted CMD_GRAND_TOTAL l = u64 (sumz g_deleted os) /\
  num e_phase1 CMD_GRAND_TOTAL l = u64 (sumz g_scanned os).
Proof. exact grand_total. Qed.
(* A changed file is counted twice by the client. *)
Theorem C81_changed_refuted : forall start n, 0 < n < 2 ^ 63 ->
  let l := run start (repeat (OAdd CMD_FILE_CHANGED) (Z.to_nat n)) in
  num e_changed CMD_FILE l = n /\ num e_changed CMD_GRAND_TOTAL l = n /\ num e_count CMD_GRAND_TOTAL l = n /\
  Forall (fun c => num e_count c l = 0) rows.
Proof. exact changed_twice. Qed.
Theorem C81_printed_partial : forall start os j, Forall tabled os -> (j < 6)%nat -> (j <> 3)%nat ->
  let t := print_table (run start os) in last_line j t = u64 (column j t).
Proof. exact printed_sums. Qed.
Theorem C81_deleted_refuted : exists os, Forall tabled os /\
  let t := print_table (run 0 os) in last_line 3 t = 1 /\ column 3 t = 0.
Proof. exact deleted_hidden. Qed.
Theorem C81_fail_on_warning : forall start os on, 0 <= sumz (n_new CMD_WARNING) os < 2 ^ 64 ->
  check_fail_on_warning on (run start os) = if on && (0 <? sumz (n_new CMD_WARNING) os) then -1 else 0.
Proof. exact fails_on_warning. Qed.

(* C82: the statistics and the units. *)
Theorem C82_by_type : forall now l c k, counters l -> has c table -> c <> CMD_TOTAL ->
  exists e, In e (at_ent CMD_TIMESTAMP_END (set_count now) l) /\ e_cmd e = c /\
    by_type c (key_of k) (do_counters now l) = s64 (shown e k).
Proof. exact stats_by_type. Qed.
Theorem C82_by_name_partial : forall now l n c k, counters l -> In (n, c) meaning -> ~ is_link c ->
  exists e, In e l /\ e_cmd e = c /\ by_name n (key_of k) (do_counters now l) = s64 (shown e k).
Proof.
  intros now l n c k L M N. destruct (stats_by_name now l n c k L M) as (e & I & C & B). cbv zeta in C. exists e.
  split; auto. split; auto. destruct (Z.eqb_spec c CMD_HARD_LINK); [exfalso; apply N; left; auto|].
  destruct (Z.eqb_spec c CMD_SOFT_LINK); [exfalso; apply N; right; auto|]. exact C.
Qed.
(* The two kinds of link bear each other's name. *)
Theorem C82_links_refuted : forall now l k, counters l ->
  (exists e, In e l /\ e_cmd e = CMD_SOFT_LINK /\ by_name (str "hard_links") (key_of k) (do_counters now l) = s64 (shown e k)) /\
  (exists e, In e l /\ e_cmd e = CMD_HARD_LINK /\ by_name (str "soft_links") (key_of k) (do_counters now l) = s64 (shown e k)).
Proof.
  intros now l k L. split.
  - apply (stats_by_name now l (str "hard_links") CMD_HARD_LINK k L). vm_compute. auto 30.
  - apply (stats_by_name now l (str "soft_links") CMD_SOFT_LINK k L). vm_compute. auto 30.
Qed.
Theorem C82_human_partial : forall n, 0 <= n < 2 ^ 50 - 2 ^ 26 -> right n.
Proof. exact human_right. Qed.
Theorem C82_human_refuted : forall n, 2 ^ 50 <= n < 2 ^ 64 -> ~ right n.
Proof. exact human_wrong. Qed.
Theorem C82_phase_names : forall s, str_to_status (status_to_str s) = if (1 <=? s) && (s <=? 9) then s else 0.
Proof.
  intros s. destruct (Z.leb_spec 1 s), (Z.leb_spec s 9); cbn [andb];
  [apply status_roundtrip; lia|apply status_unknown; lia|apply status_unknown; lia|apply status_unknown; lia].
Qed.
Theorem C82_phase_words : forall s, status_to_str s =
  if (1 <=? s) && (s <=? 9)
  then nth (Z.to_nat (s - 1)) (map str ["scanning"; "backup"; "merging"; "shuffling"; "listing"; "restoring"; "verifying"; "deleting"; "diffing"]%string) []
  else str "unknown".
Proof.
  intros s. destruct (Z.leb_spec 1 s) as [A|A], (Z.leb_spec s 9) as [B|B]; cbn [andb].
  - assert (C : s = 1 \/ s = 2 \/ s = 3 \/ s = 4 \/ s = 5 \/ s = 6 \/ s = 7 \/ s = 8 \/ s = 9) by lia.
    repeat destruct C as [->|C]; try subst s; reflexivity.
  - unfold status_to_str, status_names. cbn [find fst]. repeat match goal with |- context [?x =? s] => destruct (Z.eqb_spec x s); [lia|] end. reflexivity.
  - unfold status_to_str, status_names. cbn [find fst]. repeat match goal with |- context [?x =? s] => destruct (Z.eqb_spec x s); [lia|] end. reflexivity.
  - lia.
Qed.

(* ---------- cases ---------- *)

(* A busy client: name with a dot, negative pid of a forked child gone wrong. *)
Definition ops1 : list op :=
  [OPhase1 CMD_FILE; OPhase1 CMD_DIRECTORY; OAdd CMD_FILE; OSame CMD_DIRECTORY; OAdd CMD_WARNING; OVal CMD_BYTES 18446744073709551615;
   OChanged CMD_FILE; ODeleted CMD_SOFT_LINK; OSame CMD_SOFT_LINK; OSet 77 88].
Definition head1 : head := mkhead (str "web.example") 4242 17 2.
Example C79_case :
  head_ok head1 /\ counters (run 1000 ops1) /\ plain (str "/etc/passwd") /\
  snd (cntr_to_str 2000 head1 (run 1000 ops1) (str "/etc/passwd")) =
   str "cntr" ++ [9] ++ str "web.example.4242.17" ++ [9] ++ str "3" ++ [9] ++ str "2" ++ [9] ++
   str "f1/1/0/0/1" ++ [9] ++ str "y0/0/0/0/0" ++ [9] ++ str "m0/0/0/0/0" ++ [9] ++ str "n0/0/0/0/0" ++ [9] ++
   str "d0/0/1/0/1" ++ [9] ++ str "L0/0/0/0/0" ++ [9] ++ str "l0/0/1/1/0" ++ [9] ++ str "s0/0/0/0/0" ++ [9] ++
   str "v0/0/0/0/0" ++ [9] ++ str "V0/0/0/0/0" ++ [9] ++ str "u0/0/0/0/0" ++ [9] ++ str "U0/0/0/0/0" ++ [9] ++
   str "k0/0/0/0/0" ++ [9] ++ str "e0" ++ [9] ++ str "Y1/1/2/1/0" ++ [9] ++ str "Z1/1/2/1/2" ++ [9] ++ str "w1" ++ [9] ++
   str "p0" ++ [9] ++ str "G0" ++ [9] ++ str "O18446744073709551615" ++ [9] ++ str "P88" ++ [9] ++ str "Q77" ++ [9] ++
   str "b1000" ++ [9] ++ str "E2000" ++ [9] ++ str "t/etc/passwd" ++ [9; 10].
Proof.
  split; [|split; [|split]].
  - repeat split; try (vm_compute; intuition discriminate); try (vm_compute; congruence).
  - apply run_counters.
  - split; vm_compute; intuition discriminate.
  - vm_compute. reflexivity.
Qed.
Example C79_read_case :
  let r := str_to_cntr (snd (cntr_to_str 2000 head1 (run 1000 ops1) (str "/etc/passwd"))) 0 0 0 table in
  p_pid r = 4242 /\ p_bno r = 17 /\ p_status r = 2 /\ p_path r = Some (str "/etc/passwd") /\
  p_ents r = at_ent CMD_TIMESTAMP_END (set_count 2000) (run 1000 ops1).
Proof. vm_compute. auto 8. Qed.
(* Other versions, and lines that stop early. *)
Example C79_odd_lines :
  p_ret (str_to_cntr (str "cntr") 5 6 7 table) = -1 /\ p_ret (str_to_cntr [] 5 6 7 table) = 0 /\
  (let r := str_to_cntr (str "cntr" ++ [9] ++ str "a.1.2" ++ [9] ++ str "2" ++ [9] ++ str "4" ++ [9] ++ str "f9/9/9/9/9" ++ [10]) 5 6 7 table in
   p_ret r = 0 /\ p_pid r = 1 /\ p_bno r = 2 /\ p_status r = 7 /\ p_ents r = table) /\
  (let r := str_to_cntr (str "cntr" ++ [9] ++ str "a" ++ [9] ++ str "3" ++ [9] ++ str "4" ++ [9] ++ str "f9/8" ++ [10]) 5 6 7 table in
   p_ret r = 0 /\ p_pid r = -1 /\ p_bno r = 0 /\ p_status r = 4 /\ num e_count CMD_FILE (p_ents r) = 9 /\ num e_changed CMD_FILE (p_ents r) = 0).
Proof. vm_compute. auto 20. Qed.
Example C79_long_case : zl (repeat 97 256) = 256 /\ plain (repeat 97 256) /\
  last (snd (cntr_to_str 2000 head1 table (repeat 97 256))) 0 = 9 /\
  last (snd (cntr_to_str 2000 head1 table (repeat 97 255))) 0 = 10.
Proof. split; [reflexivity|]. split; [split; intros I; apply repeat_spec in I; discriminate|]. split; vm_compute; reflexivity. Qed.
(* The fullest text: 167 bytes of the buffer are left for it. *)
Example C80_case :
  let big := 2 ^ 64 - 1 in
  let full := map (fun e => mkent (e_cmd e) (e_kind e) (e_field e) (e_label e) big big big big big) table in
  let h := mkhead (str "client") (- 2 ^ 31) (- 2 ^ 31) 9 in
  zl (snd (cntr_to_str big h full (repeat 97 3000))) = 2086 /\ calc_max_str_len full (h_cname h) = 2254.
Proof. vm_compute. auto. Qed.
Example C81_case :
  let l := run 1000 ops1 in
  Forall tabled ops1 /\ num e_count CMD_FILE l = 1 /\ num e_changed CMD_FILE l = 1 /\ num e_same CMD_GRAND_TOTAL l = 2 /\
  print_table l = [(str "Files", [1; 1; 0; 0; 2; 1]); (str "Directories", [0; 0; 1; 0; 1; 1]); (str "Soft links", [0; 0; 1; 1; 1; 0]);
                   (str "Grand total", [1; 1; 2; 1; 4; 2])] /\
  check_fail_on_warning true l = -1 /\ check_fail_on_warning false l = 0 /\ check_fail_on_warning true (run 0 []) = 0.
Proof.
  cbv zeta. split; [|vm_compute; auto 10].
  repeat (apply Forall_cons; [cbn; unfold CMD_BYTES, CMD_TOTAL, CMD_GRAND_TOTAL; vm_compute; intuition discriminate|]). apply Forall_nil.
Qed.
(* Counters go round at 2^64. *)
Example C81_wraps : num e_count CMD_BYTES (run 0 [OVal CMD_BYTES (2 ^ 64 - 1); OVal CMD_BYTES 5]) = 4.
Proof. vm_compute. reflexivity. Qed.
Example C82_case :
  let rs := do_counters 2000 (run 1000 ops1) in
  by_name (str "files") (str "changed") rs = 1 /\ by_name (str "hard_links") (str "same") rs = 1 /\
  by_name (str "soft_links") (str "same") rs = 0 /\ by_type CMD_SOFT_LINK (str "same") rs = 1 /\
  by_name (str "bytes") (str "count") rs = -1 /\ by_name (str "time_end") (str "count") rs = 2000 /\
  map r_name rs = [str "files"; str "directories"; str "hard_links"; str "grand_total"; str "warnings"; str "bytes";
                   str "bytes_received"; str "bytes_sent"; str "time_start"; str "time_end"].
Proof. vm_compute. auto 10. Qed.
Example C82_human_case :
  bytes_to_human 1023 = None /\ bytes_to_human 1536 = Some (1536, 1024, str "KB") /\
  bytes_to_human 16777217 = Some (16777216, 1024 ^ 2, str "MB") /\
  bytes_to_human (2 ^ 50) = Some (2 ^ 50, 2 ^ 50, str "EB") /\ bytes_to_human (2 ^ 60) = Some (2 ^ 60, 2 ^ 60, str "PB").
Proof. vm_compute. auto 10. Qed.

Print Assumptions C79_roundtrip_partial.
Print Assumptions C79_one_line.
Print Assumptions C79_long_path_refuted.
Print Assumptions C80_fits.
Print Assumptions C80_any_run.
Print Assumptions C81_each_row.
Print Assumptions C81_sums_up_partial.
Print Assumptions C81_grand_total.
Print Assumptions C81_changed_refuted.
Print Assumptions C81_printed_partial.
Print Assumptions C81_deleted_refuted.
Print Assumptions C81_fail_on_warning.
Print Assumptions C82_by_type.
Print Assumptions C82_by_name_partial.
Print Assumptions C82_links_refuted.
Print Assumptions C82_human_partial.
Print Assumptions C82_human_refuted.
Print Assumptions C82_phase_names.

Print Assumptions C82_phase_words.
