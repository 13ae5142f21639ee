(* Property C05: comparison of manifest entries. *)
From Verif Require Import Bytes PathcmpModel PathcmpProofs CmdModel CmdProofs.

(* The full claim (sign flips for every pair of entry types) is false. *)
Theorem C05_entry_order_refuted : exists a b, iraw a /\ iraw b /\ ipath a = ipath b /\
  iobuf_pathcmp a b = 1 /\ iobuf_pathcmp b a = 1.
Proof. exact entry_cmp_refuted. Qed.
Print Assumptions C05_entry_order_refuted.

(* What is missing: nothing else than the pair metadata / trailing VSS. *)
Theorem C05_entry_order_partial : forall a b c, iraw a -> iraw b -> iraw c ->
  unmixed a b -> unmixed b c -> unmixed a c ->
  iobuf_pathcmp b a = - iobuf_pathcmp a b /\
  (iobuf_pathcmp a b < 0 <-> entry_lt a b) /\
  (iobuf_pathcmp a b = 0 <-> entry_eq a b) /\
  (iobuf_pathcmp a b < 0 -> iobuf_pathcmp b c < 0 -> iobuf_pathcmp a c < 0) /\
  (iobuf_pathcmp a b = 0 -> iobuf_pathcmp b c = 0 -> iobuf_pathcmp a c = 0) /\
  (iobuf_pathcmp a b <= 0 -> iobuf_pathcmp b c <= 0 -> iobuf_pathcmp a c <= 0).
Proof. exact entry_cmp_weak_order. Qed.
Print Assumptions C05_entry_order_partial.

Example C05_witness :
  let v := mkiobuf CMD_VSS (Some (str "/a")) in
  let f := mkiobuf CMD_FILE (Some (str "/a")) in
  let t := mkiobuf CMD_VSS_T (Some (str "/a")) in
  iraw v /\ iraw f /\ iraw t /\ unmixed v f /\ unmixed f t /\ unmixed v t /\
  iobuf_pathcmp v f = -1 /\ iobuf_pathcmp f t = -1 /\ iobuf_pathcmp t v = 1.
Proof.
  cbv zeta. repeat split; try (apply cstr_raw, cstrb_ok; reflexivity); try reflexivity;
    intros [H1 H2]; discriminate.
Qed.
