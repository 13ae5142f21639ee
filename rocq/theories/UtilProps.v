(* C37, C41, C43, C44, C48. *)
From Coq Require Import Permutation Sorted.
From Verif Require Import Bytes FrameModel BuModel UtilModel PathcmpProofs BuProofs UtilProofs BlocklenProofs.

Theorem C37_settings_exact : forall file inc, incexc_matches (Some file) inc = true <->
  file = inc \/ exists rest, file = inc ++ rest /\ (4096 | Z.of_nat (List.length inc)).
Proof. exact incexc_exact. Qed.
Theorem C37_settings_partial : forall file inc, ~ (4096 | Z.of_nat (List.length inc)) -> (incexc_matches (Some file) inc = true <-> file = inc).
Proof. exact incexc_partial. Qed.
Theorem C37_settings_refuted : exists file inc, cstr file /\ cstr inc /\ inc <> [] /\ file <> inc /\ incexc_matches (Some file) inc = true.
Proof. exact incexc_refuted. Qed.
Example ex_C37 : ~ (4096 | Z.of_nat (List.length (str "include=/home"))) /\
  incexc_matches (Some (str "include=/home")) (str "include=/home") = true /\
  incexc_matches (Some (str "include=/home2")) (str "include=/home") = false /\
  incexc_matches (Some (str "include=/home")) (str "include=/home2") = false.
Proof. split; [intros (k & K); cbn in K; lia|]. repeat split. Qed.

Theorem C41_add_end : forall p f l, strlist_add p f l = l ++ [(p, f)].
Proof. exact strlist_add_end. Qed.
Theorem C41_sorted : forall p f l, cstr p -> Forall entry_ok l -> StronglySorted entry_le l ->
  StronglySorted entry_le (strlist_add_sorted p f l) /\ Permutation (strlist_add_sorted p f l) ((p, f) :: l).
Proof. exact strlist_sorted_exact. Qed.
Theorem C41_uniq : forall p f l, cstr p -> Forall entry_ok l -> StronglySorted entry_lt l ->
  StronglySorted entry_lt (strlist_add_sorted_uniq p f l) /\
  (In (p, f) l -> strlist_add_sorted_uniq p f l = l) /\
  (~ In (p, f) l -> Permutation (strlist_add_sorted_uniq p f l) ((p, f) :: l)).
Proof. exact strlist_uniq_exact. Qed.
Theorem C41_find : forall l p f, strlist_find l p f = true <-> In (p, f) l.
Proof. exact strlist_find_exact. Qed.
Example ex_C41 :
  let add l p f := strlist_add_sorted_uniq (str p%string) f l in
  add (add (add (add [] "/b"%string 1) "/a"%string 1) "/b"%string 0) "/b"%string 1 = [(str "/a", 1); (str "/b", 0); (str "/b", 1)] /\
  Forall entry_ok [(str "/a", 1); (str "/b", 0)] /\ StronglySorted entry_lt [(str "/a", 1); (str "/b", 0)].
Proof.
  cbv zeta. split; [reflexivity|]. split.
  - apply Forall_cons; [apply cstrb_ok; reflexivity|]. apply Forall_cons; [apply cstrb_ok; reflexivity|apply Forall_nil].
  - constructor; [constructor; [constructor|apply Forall_nil]|]. apply Forall_cons; [|apply Forall_nil].
    left. apply pathcmp_s_neg; [apply cstr_raw, cstrb_ok; reflexivity|apply cstr_raw, cstrb_ok; reflexivity|]. reflexivity.
Qed.

Theorem C43_block_len_exact : forall endfile, block_len_ok (strtoul10 endfile) (get_librsync_block_len endfile).
Proof. exact block_len_exact. Qed.
Theorem C43_block_len_functional : forall n a b, block_len_ok n a -> block_len_ok n b -> a = b.
Proof. exact block_len_functional. Qed.
Example ex_C43 : map (fun s => get_librsync_block_len (str s)) ["0"; "4096"; "4097"; "1000000:d41d"; "17175675136"; "17175675137"; "18446744073709551615"]%string =
  [64; 64; 80; 1008; 131056; 131072; 131072].
Proof. vm_compute. reflexivity. Qed.

Theorem C44_refused : forall byte hard soft, (snd (check_quota byte hard soft) = -1 <-> exceeds byte hard) /\
  (snd (check_quota byte hard soft) = 0 <-> ~ exceeds byte hard) /\
  (warned (check_quota byte hard soft) (str "Hard quota exceeded") <-> exceeds byte hard).
Proof. exact quota_refused. Qed.
Theorem C44_soft_partial : forall byte hard soft, 
  warned (check_quota byte hard soft) (str "Soft quota exceeded") <-> exceeds byte soft /\ ~ exceeds byte hard.
Proof. exact quota_soft. Qed.
Theorem C44_soft_refuted : exists byte hard soft, exceeds byte soft /\ exceeds byte hard /\ soft <> hard /\
  ~ warned (check_quota byte hard soft) (str "Soft quota exceeded") /\ fst (check_quota byte hard soft) = [(str "Hard quota exceeded", byte, soft)].
Proof. exact quota_refuted. Qed.
Example ex_C44 : exceeds 150 100 /\ ~ exceeds 150 200 /\ check_quota 150 200 100 = ([(str "Soft quota exceeded", 150, 100)], 0) /\
  check_quota 100 0 100 = ([], 0).
Proof. unfold exceeds. split; [lia|]. split; [lia|]. split; reflexivity. Qed.

Theorem C48_version_value : forall s a b c, version a b c s -> a < 2 ^ 40 -> b < 2 ^ 40 -> c < 2 ^ 40 ->
  version_to_long s = Some (10000 * a + 100 * b + c) /\ 0 <= a /\ 0 <= b /\ 0 <= c.
Proof. exact version_value. Qed.
Theorem C48_version_compare_partial : forall s a b c s' a' b' c', version a b c s -> version a' b' c' s' ->
  a < 2 ^ 40 -> a' < 2 ^ 40 -> b < 100 -> c < 100 -> b' < 100 -> c' < 100 ->
  exists n n', version_to_long s = Some n /\ version_to_long s' = Some n' /\ (n < n' <-> triple_lt a b c a' b' c').
Proof. exact version_compare. Qed.
Theorem C48_version_refuted :
  version 2 1 100 (str "2.1.100") /\ version 2 2 0 (str "2.2.0") /\ version_to_long (str "2.1.100") = version_to_long (str "2.2.0") /\
  version_to_long (str "2.0.1000") = Some 21000 /\ version_to_long (str "2.1.0") = Some 20100.
Proof. exact version_refuted. Qed.
Theorem C48_version_short : forall x y, is_digits x -> is_digits y ->
  version_to_long [] = Some 0 /\ version_to_long x = Some (-1) /\ version_to_long (x ++ 46 :: y) = Some (-1).
Proof. exact version_short. Qed.
Example ex_C48 : version 2 4 0 (str "2.4.0") /\ version_to_long (str "2.4.0") = Some 20400 /\ is_digits (str "12").
Proof.
  split; [|split; [reflexivity|]].
  - apply (version_intro 2 4 0 (str "2") (str "4") (str "0") []); auto; split; try discriminate; repeat (apply Forall_cons; [unfold str; cbn; lia|]); apply Forall_nil.
  - split; [discriminate|]. repeat (apply Forall_cons; [unfold str; cbn; lia|]); apply Forall_nil.
Qed.

Print Assumptions C37_settings_exact.
Print Assumptions C37_settings_partial.
Print Assumptions C37_settings_refuted.
Print Assumptions C41_add_end.
Print Assumptions C41_sorted.
Print Assumptions C41_uniq.
Print Assumptions C41_find.
Print Assumptions C43_block_len_exact.
Print Assumptions C43_block_len_functional.
Print Assumptions C44_refused.
Print Assumptions C44_soft_partial.
Print Assumptions C44_soft_refuted.
Print Assumptions C48_version_value.
Print Assumptions C48_version_compare_partial.
Print Assumptions C48_version_refuted.
Print Assumptions C48_version_short.
