(* C49: logic expressions. *)
From Verif Require Import Bytes ConfModel LogicModel LogicProofs.

(* A text that lays out an expression of tests, 'and', 'or', 'not' and groups,
   with groups inside groups having three items or more, evaluates from the left
   to the value of the expression.  Freed memory is used exactly when some group
   stands neither first nor last, or is the whole text. *)
Theorem C49_value_partial : forall re fname size def c text f,
  written c text -> wide false c -> (2 <= List.length (words c))%nat ->
  (forall w, In (KTest w) (words c) -> is_test (word_bytes w) /\ eval_func re (word_bytes w) fname size = Some (f w)) ->
  eval_expression re text fname size def = Some (b2z (value f c), inner_group (items is_grp c)).
Proof. exact expression_value. Qed.
Theorem C49_which_groups : forall l, inner_group l = true <->
  l = [true] \/ exists a b, a <> [] /\ b <> [] /\ l = a ++ true :: b.
Proof. exact inner_group_spec. Qed.
Theorem C49_no_groups : forall (c : chn (list piece)), flat c -> wide false c /\ inner_group (items is_grp c) = false.
Proof. exact (fun c F => conj (flat_wide false c F) (no_groups_safe c F)). Qed.

(* A regular file is excluded exactly when one of the rules is true for it. *)
Theorem C49_excluded : forall re fname size rules bs, Forall2 (rule_ok re fname size) rules bs ->
  is_logic_excluded re rules true fname size = Some (b2z (existsb (fun b => b) bs)).
Proof. exact rules_excluded. Qed.
Theorem C49_not_regular : forall re fname size rules, is_logic_excluded re rules false fname size = Some 0.
Proof. exact not_regular_kept. Qed.

(* The tests. *)
Theorem C49_file_ext : forall re a p fname size, argument a p ->
  exists b, eval_func re (str "file_ext=" ++ a) fname size = Some b /\
    (b = true <-> exists d r, fname = d ++ dot :: r /\ map AuthModel.tolower p = map AuthModel.tolower r).
Proof. exact test_file_ext. Qed.
Theorem C49_file_match : forall (re : bytes -> bytes -> bool) a p fname size, argument a p ->
  exists base, eval_func re (str "file_match=" ++ a) fname size = Some (re p base) /\ ~ In slash base /\
    (base = fname \/ exists d, fname = d ++ slash :: base).
Proof. exact test_file_match. Qed.
Theorem C49_path_match : forall (re : bytes -> bytes -> bool) a p fname size, argument a p ->
  eval_func re (str "path_match=" ++ a) fname size = Some (re p fname).
Proof. exact test_path_match. Qed.
Theorem C49_file_size : forall re op cmp a p fname size, In (op, cmp) comparisons -> argument a p ->
  hd0 a <> 60 -> hd0 a <> 62 ->
  eval_func re (str "file_size" ++ str op ++ a) fname size = Some (cmp size (size_of p)).
Proof. exact test_file_size. Qed.

(* What is not so. *)
(* The example of the manual page uses freed memory, whatever the file. *)
Theorem C49_memory_refuted : forall re fname size def, exists v,
  eval_expression re manual_text fname size def = Some (v, true).
Proof.
  intros re fname size def.
  assert (T : forall s p, argument (str s) p -> exists b, eval_func re (str "file_ext=" ++ str s) fname size = Some b)
    by (intros s p H; destruct (test_file_ext re _ _ fname size H) as (b & H1 & _); eauto).
  destruct (T "pst"%string (str "pst")) as (b1 & E1); [left; repeat split; discriminate|].
  destruct (T "mp3"%string (str "mp3")) as (b2 & E2); [left; repeat split; discriminate|].
  destruct (test_file_match re (str "movies") (str "movies") fname size) as (base & E3 & _); [left; repeat split; discriminate|].
  pose proof (test_file_size re ">="%string Z.geb (str "5Mb") (str "5Mb") fname size) as E4.
  pose proof (test_file_size re "<="%string Z.leb (str "10Mb") (str "10Mb") fname size) as E5.
  set (f := fun w : list piece => match eval_func re (word_bytes w) fname size with Some b => b | None => false end).
  exists (b2z (value f manual_expr)).
  rewrite (expression_value re fname size def manual_expr manual_text f manual_written).
  - reflexivity.
  - cbn. repeat split; try discriminate; intros; lia.
  - cbn. lia.
  - intros w HI. unfold f. cbn in HI.
    repeat match goal with H : _ \/ _ |- _ => destruct H as [H|H] end; try discriminate HI; try contradiction;
      injection HI as <-.
    + split; [eapply (is_test_by _ (str "file_size")); [right; right; right; left; reflexivity|reflexivity]|].
      change (word_bytes _) with (str "file_size" ++ str ">=" ++ str "5Mb"). rewrite E4; try reflexivity; try discriminate;
        [right; right; right; left; reflexivity|left; repeat split; discriminate].
    + split; [eapply (is_test_by _ (str "file_size")); [right; right; right; left; reflexivity|reflexivity]|].
      change (word_bytes _) with (str "file_size" ++ str "<=" ++ str "10Mb"). rewrite E5; try reflexivity; try discriminate;
        [right; left; reflexivity|left; repeat split; discriminate].
    + split; [eapply (is_test_by _ (str "file_ext")); [left; reflexivity|reflexivity]|].
      change (word_bytes _) with (str "file_ext=" ++ str "pst"). rewrite E1. reflexivity.
    + split; [eapply (is_test_by _ (str "file_match")); [right; left; reflexivity|reflexivity]|].
      change (word_bytes _) with (str "file_match=" ++ str "movies"). rewrite E3. reflexivity.
    + split; [eapply (is_test_by _ (str "file_ext")); [left; reflexivity|reflexivity]|].
      change (word_bytes _) with (str "file_ext=" ++ str "mp3"). rewrite E2. reflexivity.
Qed.

Definition no_re (p s : bytes) : bool := false.
(* A group of one item inside another group: a '(' is left over, and freed
   memory is taken for its place. *)
Theorem C49_nested_refuted :
  eval_expression no_re (str "((file_ext=mp3) and file_ext=mp3)") (str "/a.mp3") 1 0 = None.
Proof. vm_compute. reflexivity. Qed.
(* Two 'not's. *)
Theorem C49_double_not_refuted :
  eval_expression no_re (str "not not file_ext=mp3") (str "/a.mp3") 1 0 = Some (0, false).
Proof. vm_compute. reflexivity. Qed.
(* An empty group, and an empty text. *)
Theorem C49_empty_group_refuted : eval_expression no_re (str "()") (str "/a.mp3") 1 0 = None.
Proof. vm_compute. reflexivity. Qed.
Theorem C49_empty_refuted : eval_expression no_re [] (str "/a.mp3") 1 0 = None.
Proof. vm_compute. reflexivity. Qed.
(* One test on its own matches nothing. *)
Theorem C49_single_refuted : forall re fname size def w, word_ok w ->
  eval_expression re (word_bytes w) fname size def = Some (def, false).
Proof. exact single_test_def. Qed.
(* An escaped space before a space: a false test joined by 'and' is lost. *)
Theorem C49_escaped_end_refuted :
  create_token_list (str "file_match=a\  and file_ext=mp3") =
    Words [str "ile_match=a\  and"; str "file_ext=mp3"] true /\
  eval_expression no_re (str "file_match=a\  and file_ext=mp3") (str "/a.mp3") 1 0 = Some (1, false).
Proof. split; vm_compute; reflexivity. Qed.

(* Cases. *)
Example ex_C49_value : written manual_expr manual_text /\ wide false manual_expr /\
  eval_expression no_re manual_text (str "/d/a.PST") 6291456 0 = Some (1, true).
Proof. split; [exact manual_written|]. split; [cbn; repeat split; try discriminate; intros; lia|vm_compute; reflexivity]. Qed.
Definition two_rules : list bytes := [str "file_ext=iso and file_size>1Kb"; str "(file_ext=mp3 or file_ext=avi) and not file_size<2Kb"].
Example ex_C49_excluded :
  is_logic_excluded no_re two_rules true (str "/d/a.mp3") 5000 = Some 1 /\
  is_logic_excluded no_re two_rules true (str "/d/a.mp3") 5 = Some 0 /\
  is_logic_excluded no_re two_rules true (str "/d/a.iso") 5000 = Some 1.
Proof. vm_compute. repeat split; reflexivity. Qed.
Definition rule1 : chn (list piece) := More (One false (tw "file_ext=iso")) true false (tw "file_size>1Kb").
Example ex_C49_rule : rule_ok no_re (str "/d/a.iso") 5000 (str "file_ext=iso and file_size>1Kb") true.
Proof.
  exists rule1, (fun _ => true). split; [|split; [|split; [|split; [|split]]]].
  - exists [W 0 "file_ext=iso"; W 1 "and"; W 1 "file_size>1Kb"], 0%nat. split; [split|split]; [| |reflexivity|vm_compute; reflexivity].
    + cbn [map snd W]. repeat (constructor; [apply plain_word_ok; [discriminate|reflexivity]|]). constructor.
    + cbn [apart is_word W]. repeat split; intros; try lia; discriminate.
  - exact (flat_wide false rule1 I).
  - cbn. lia.
  - reflexivity.
  - intros w HI. cbn in HI. destruct HI as [HI|[HI|[HI|[]]]]; try discriminate HI; injection HI as <-.
    + split; [|vm_compute; reflexivity]. eapply (is_test_by _ (str "file_ext")); [left; reflexivity|reflexivity].
    + split; [|vm_compute; reflexivity]. eapply (is_test_by _ (str "file_size")); [right; right; right; left; reflexivity|reflexivity].
  - reflexivity.
Qed.
Example ex_C49_tests : argument (str "'a b'") (str "a b") /\
  eval_func no_re (str "file_ext='a b'") (str "x.A B") 0 = Some true /\
  eval_func no_re (str "file_size>=2Kb") (str "x") 2048 = Some true.
Proof. split; [right; exists squote; split; [left; reflexivity|reflexivity]|]. vm_compute. split; reflexivity. Qed.
Example ex_C49_single : word_ok (plain (str "file_ext=mp3")) /\
  eval_expression no_re (str "file_ext=mp3") (str "/a.mp3") 1 0 = Some (0, false).
Proof. split; [apply plain_word_ok; [discriminate|reflexivity]|vm_compute; reflexivity]. Qed.

Print Assumptions C49_value_partial.
Print Assumptions C49_which_groups.
Print Assumptions C49_no_groups.
Print Assumptions C49_excluded.
Print Assumptions C49_not_regular.
Print Assumptions C49_file_ext.
Print Assumptions C49_file_match.
Print Assumptions C49_path_match.
Print Assumptions C49_file_size.
Print Assumptions C49_memory_refuted.
Print Assumptions C49_nested_refuted.
Print Assumptions C49_double_not_refuted.
Print Assumptions C49_empty_group_refuted.
Print Assumptions C49_empty_refuted.
Print Assumptions C49_single_refuted.
Print Assumptions C49_escaped_end_refuted.
