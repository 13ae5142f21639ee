(* C111-C114: JSON as the server writes and the client reads it *)
From Coq Require Import ZArith List Bool Lia.
From Verif Require Import Bytes CntrModel JsonModel JsonProofs.
Import ListNotations.
Open Scope Z_scope.

(* ---- C111: a string is the same after writing and reading ---- *)
Theorem C111_string : forall b, raw b ->
  decode (encode b) = Some b /\
  (forall more, lex (34 :: encode b ++ 34 :: more) = LTok (if existsb escaped b then TEsc (encode b) else TStr b) more) /\
  Forall (fun c => 32 <= c <= 255) (encode b).
Proof. exact string_read. Qed.

Example C111_case : raw (str "C:\x" ++ [34; 10; 0; 31; 127; 200; 255]) /\
  encode (str "C:\x" ++ [34; 10; 0; 31; 127; 200; 255]) =
    str "C:\\x\" ++ [34] ++ str "\n\u0000\u001F" ++ [127; 200; 255] /\
  decode (encode (str "C:\x" ++ [34; 10; 0; 31; 127; 200; 255])) = Some (str "C:\x" ++ [34; 10; 0; 31; 127; 200; 255]).
Proof. split; [repeat constructor; unfold is_byte; try lia; intros; discriminate|]. split; vm_compute; reflexivity. Qed.

(* ---- C112: a value is the same after writing and reading, in whatever pieces it arrives ---- *)
Theorem C112_value_partial : forall p t, fine t -> (deep t < max_depth)%nat -> exists out,
  grun p (calls t) gen0 = Some (mkgen [GComplete] false out) /\
  parse [PStart] (out ++ [32]) = (evs t, POk [PComplete] []) /\
  (is_num t = false -> forall cs, concat cs = out -> parse_all [PStart] [] cs = (evs t, POk [PComplete] [])).
Proof. exact text_read. Qed.
(* the smallest integer is written but refused by the reader *)
Theorem C112_smallest_refuted : exists t out,
  t = JArr [JInt (- 2 ^ 63)] /\ grun false (calls t) gen0 = Some (mkgen [GComplete] false out) /\
  parse [PStart] out = ([EArrO], PErr).
Proof. exists (JArr [JInt (- 2 ^ 63)]), (str "[-9223372036854775808]"). split; [reflexivity|]. split; vm_compute; reflexivity. Qed.
(* a text with a number a little too large takes the reader to an overflow *)
Theorem C112_overflow_refuted : exists s, parse [PStart] s = ([EArrO], PUndef).
Proof. exists (str "[9223372036854775870]"). vm_compute. reflexivity. Qed.

Definition w_json : json :=
  JMap [(str "clients", JArr [JMap [(str "name", JStr (str "a" ++ [34] ++ str "b")); (str "n", JInt (-12))]; JArr []]); (str "x", JInt (2 ^ 63 - 1))].
Example C112_case : fine w_json /\ (deep w_json < max_depth)%nat /\ is_num w_json = false /\
  grun false (calls w_json) gen0 = Some (mkgen [GComplete] false
    (str "{" ++ [34] ++ str "clients" ++ [34] ++ str ":[{" ++ [34] ++ str "name" ++ [34] ++ str ":" ++ [34] ++ str "a\" ++ [34]
     ++ str "b" ++ [34] ++ str "," ++ [34] ++ str "n" ++ [34] ++ str ":-12},[]]," ++ [34] ++ str "x" ++ [34] ++ str ":9223372036854775807}")) /\
  parse_all [PStart] [] [str "{" ++ [34] ++ str "a"; [34; 58; 49]; str "2}"] =
    ([EMapO; EKey (str "a"); EInt 12; EMapC], POk [PComplete] []).
Proof.
  split. { cbn. unfold raw, is_byte, is_ll, llmax. repeat split; try lia; repeat constructor; try lia; intros; discriminate. }
  split; [vm_compute; lia|]. split; [reflexivity|]. split; vm_compute; reflexivity.
Qed.

(* ---- C113: the pieces do not matter, and what the reader says is nested ---- *)
Theorem C113_pieces : forall cs, parse_all [PStart] [] cs = parse [PStart] (concat cs).
Proof. exact pieces. Qed.
Theorem C113_nested : forall s es x, parse [PStart] s = (es, x) ->
  (exists l, nest es [] = Some l) /\ (forall k, x = POk [PComplete] k -> nest es [] = Some []).
Proof. exact nested_any. Qed.

Example C113_case :
  parse [PStart] (str "{" ++ [34] ++ str "k" ++ [34] ++ str ":[1,{}") =
    ([EMapO; EKey (str "k"); EArrO; EInt 1; EMapO; EMapC], POk [PArrGotVal; PMapGotVal; PComplete] []) /\
  nest [EMapO; EKey (str "k"); EArrO; EInt 1; EMapO; EMapC] [] = Some [false; true] /\
  parse [PStart] (str "[1}") = ([EArrO; EInt 1], PErr) /\
  nest [EArrO; EMapC] [] = None /\
  parse_all [PStart] [] [str "[1"; str "2,tr"; str "ue]"] = ([EArrO; EInt 12; EArrC], POk [PComplete] []).
Proof. repeat split; vm_compute; reflexivity. Qed.

(* ---- C114: if every call succeeds, the text is well formed ---- *)
Theorem C114_well_formed_partial : forall p os es g, good p os gen0 es g ->
  parse [PStart] (g_out g ++ [32]) = (es, POk (pstk (g_stk g)) []).
Proof. exact good_text. Qed.
(* a map closed as an array *)
Theorem C114_wrong_close_refuted : exists os out, grun false os gen0 = Some (mkgen [GComplete] false out) /\
  out = str "{]" /\ snd (parse [PStart] (out ++ [32])) = PErr.
Proof. exists [OMapO; OArrC], (str "{]"). split; [vm_compute; reflexivity|]. split; [reflexivity|]. vm_compute. reflexivity. Qed.
(* a key without a value *)
Theorem C114_lone_key_refuted : exists os out, grun false os gen0 = Some (mkgen [GComplete] false out) /\
  out = [123; 34; 107; 34; 125] /\ snd (parse [PStart] (out ++ [32])) = PErr.
Proof. exists [OMapO; OStr (str "k"); OMapC], [123; 34; 107; 34; 125]. split; [vm_compute; reflexivity|]. split; [reflexivity|]. vm_compute. reflexivity. Qed.
(* beyond the greatest depth the first call fails, and any further one reads outside of the array of states *)
Theorem C114_depth_refuted : exists g, grun false (repeat OArrO 127) gen0 = Some g /\
  exists g', gcall false OArrO g = (GDepth, g') /\ fst (gcall false OArrC g') = GUndef.
Proof.
  exists (mkgen (repeat GArrStart 127 ++ [GStart]) false (repeat 91 127)). split; [vm_compute; reflexivity|].
  exists (mkgen (repeat GArrStart 127 ++ [GStart]) true (repeat 91 127)). split; vm_compute; reflexivity.
Qed.

Example C114_case : exists g, good true [OMapO; OStr (str "k"); OArrO; OInt 5; OInt (-6); OArrC; OMapC] gen0
  [EMapO; EKey (str "k"); EArrO; EInt 5; EInt (-6); EArrC; EMapC] g /\ g_stk g = [GComplete] /\
  g_out g = str "{" ++ [10] ++ str "    " ++ [34] ++ str "k" ++ [34] ++ str ": [" ++ [10] ++ str "        5," ++ [10]
   ++ str "        -6" ++ [10] ++ str "    ]" ++ [10] ++ str "}" ++ [10].
Proof.
  eexists. split.
  - change [EMapO; EKey (str "k"); EArrO; EInt 5; EInt (-6); EArrC; EMapC] with
      [ev OMapO GStart; ev (OStr (str "k")) GMapStart; ev OArrO GMapVal; ev (OInt 5) GArrStart; ev (OInt (-6)) GInArr; ev OArrC GInArr; ev OMapC GMapKey].
    do 7 (eapply good_cons; [vm_compute; reflexivity|vm_compute; reflexivity|cbn; tauto|
      cbn; try exact I; first [unfold is_ll, llmax; lia | repeat constructor; unfold is_byte; lia]|]).
    apply good_nil.
  - split; vm_compute; reflexivity.
Qed.

Print Assumptions C111_string.
Print Assumptions C112_value_partial.
Print Assumptions C112_smallest_refuted.
Print Assumptions C112_overflow_refuted.
Print Assumptions C113_pieces.
Print Assumptions C113_nested.
Print Assumptions C114_well_formed_partial.
Print Assumptions C114_wrong_close_refuted.
Print Assumptions C114_lone_key_refuted.
Print Assumptions C114_depth_refuted.
