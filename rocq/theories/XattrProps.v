(* C65-C68: ACLs and extended attributes. *)
From Verif Require Import Bytes CmdModel FrameModel XattrModel XattrProofs XattrBsdProofs.

(* C65: what is saved of a file's ACLs and attributes is what is asked for, in
   the same order, when it is restored; the values byte for byte. *)
Theorem C65_roundtrip_partial : forall k isdir ns ps,
  acl_ok k -> lists k ns -> kept k (have k isdir) ns ps -> Forall fits ps -> room ps <= maxlen ->
  exists t, get_extrameta k isdir = GGot t /\ (t = None <-> acls k isdir = [] /\ ps = []) /\
    (forall ans, set_extrameta ans (text t) = asked ans (acls k isdir) (map xask ps)) /\
    (forall ans, (forall g a, ans g a = true) ->
       set_extrameta ans (text t) = PDone 0 (rev (acls k isdir ++ map xask ps))).
Proof.
  intros k isdir ns ps A L K F R. destruct (roundtrip k isdir ns ps A L K F R) as (t & G & N & S).
  exists t. split; [exact G|]. split; [exact N|]. split; [exact S|]. intros ans H. rewrite S. apply asked_all. exact H.
Qed.
(* Attributes that do not fit in 2^31-1 bytes together: none is saved. *)
Theorem C65_too_long : forall k isdir ns ps,
  acl_ok k -> lists k ns -> kept k (have k isdir) ns ps -> Forall fits ps -> maxlen < room ps ->
  exists t, get_extrameta k isdir = GGot t /\ (t = None <-> acls k isdir = []) /\
    forall ans, set_extrameta ans (text t) = asked ans (acls k isdir) [].
Proof. exact too_long. Qed.
(* The claim for attributes of any length the code accepts is false. *)
Theorem C65_wrap_refuted : exists k, (forall z n, k_size k z = Some n -> n <= maxlen) /\ get_extrameta k false = GUB.
Proof. exact wrap_reached. Qed.

(* The hypotheses of C65 are met by a file with an ACL, an attribute with a NUL
   in its value and the attribute that holds the ACL. *)
Example C65_witness :
  let ps := [(str "user.comment", [104; 0; 108; 108; 111])] in
  acl_ok k_both /\ lists k_both [str "user.comment"; str "system.posix_acl_access"] /\
  kept k_both (have k_both false) [str "user.comment"; str "system.posix_acl_access"] ps /\
  Forall fits ps /\ room ps <= maxlen /\ List.length (acls k_both false) = 1%nat.
Proof.
  cbv zeta. split.
  { split; intros a H; [|discriminate H]. change (k_acc k_both) with (Some (Some (str "user::rw-,user:1000:r--,group::r--,mask::r--,other::---"))) in H.
    apply (f_equal (fun o => match o with Some (Some x) => x | _ => [] end)) in H. cbv beta iota in H. subst a.
    split; [apply cstrb_ok; vm_compute; reflexivity|vm_compute; discriminate]. }
  split.
  { split; [eexists; reflexivity|]. split; [reflexivity|]. split.
    - apply Forall_cons; [apply cstrb_ok; reflexivity|]. apply Forall_cons; [apply cstrb_ok; reflexivity|apply Forall_nil].
    - apply Forall_cons; [vm_compute; discriminate|]. apply Forall_cons; [vm_compute; discriminate|apply Forall_nil]. }
  split.
  { apply kept_val; [right; intros [H|H]; discriminate H| |].
    - exists 5. split; [reflexivity|]. right. split; [lia|]. eexists. split; reflexivity.
    - apply kept_acl; [reflexivity|left; reflexivity|constructor]. }
  split; [constructor; [vm_compute; discriminate|constructor]|].
  split; [vm_compute; discriminate|reflexivity].
Qed.
(* Both endings of the two theorems occur. *)
Example C65_refused : asked (fun _ a => match a with AXattr n _ => beqb n (str "a") | _ => false end)
  [AAcl false (str "x"); AAcl true (str "y")] [AXattr (str "a") []; AXattr (str "b") []; AXattr (str "c") []] =
  PDone 3 [AXattr (str "b") []; AXattr (str "a") []; AAcl true (str "y"); AAcl false (str "x")].
Proof. reflexivity. Qed.

(* C66: whatever bytes come as metadata, nothing is read outside them, every
   request is made of pieces of them, and metadata cut short is noticed: the
   whole entries before the cut are restored and failure is returned. *)
Theorem C66_any_bytes : forall ans data,
  no_ub (set_extrameta ans data) /\ Forall (ask_from data) (log_of (set_extrameta ans data)).
Proof. exact set_safe. Qed.
Theorem C66_any_bytes_bsd : forall ans data,
  no_ub (set_extrameta_bsd ans data) /\ Forall (ask_from data) (log_of (set_extrameta_bsd ans data)).
Proof. exact set_safe_bsd. Qed.
Theorem C66_cut : forall ans es e j r l, Forall ent_ok es -> ent_ok e -> (j < List.length (entry e))%nat ->
  set_extrameta ans (meta es) = PDone r l ->
  set_extrameta ans (meta es ++ firstn j (entry e)) = PDone (if Nat.eqb j 0 then r else -1) l.
Proof. exact set_cut. Qed.
Example C66_witness :
  let a := (META_ACCESS_ACL, str "user::rwx") in let x := (META_XATTR, group [(str "user.a", [0; 1])]) in
  ent_ok a /\ ent_ok x /\
  set_extrameta (fun _ _ => true) (meta [a; x]) = PDone 0 [AXattr (str "user.a") [0; 1]; AAcl false (str "user::rwx")] /\
  set_extrameta (fun _ _ => true) (meta [a] ++ firstn 30 (entry x)) = PDone (-1) [AAcl false (str "user::rwx")].
Proof.
  cbv zeta. split; [split; [split; vm_compute; discriminate|vm_compute; discriminate]|].
  split; [split; [split; vm_compute; discriminate|vm_compute; discriminate]|]. split; vm_compute; reflexivity.
Qed.
(* A length with a sign or blanks, a length that is too long, a NUL. *)
Example C66_odd :
  set_extrameta (fun _ _ => true) (str "A      +2xyA") = PDone (-1) [AAcl false (str "xy")] /\
  set_extrameta (fun _ _ => true) (str "A-0000001xy") = PDone (-1) [] /\
  set_extrameta (fun _ _ => true) (str "A00000003xy") = PDone (-1) [] /\
  set_extrameta (fun _ _ => true) (str "X00000010FFFFFFFF00000000") = PDone 1 [] /\
  set_extrameta (fun _ _ => true) (str "Z00000001xA00000001y") = PDone 1 [AAcl false (str "y")].
Proof. repeat split; vm_compute; reflexivity. Qed.

(* C67: the settings for ACLs and attributes decide what is saved.  True when
   both are off, or when there is nothing of the kinds that are on... *)
Theorem C67_off_partial : forall k k2 cmd ea ex, ~ worth k cmd ea ex -> saved k k2 cmd ea ex = GGot None.
Proof. exact settings_none. Qed.
(* ... and what is there when it is asked for is then collected (C65)... *)
Theorem C67_on : forall k k2 cmd ea ex, worth k cmd ea ex ->
  exists isdir, (isdir = true <-> cmd = CMD_DIRECTORY) /\ saved k k2 cmd ea ex = get_extrameta k2 isdir.
Proof. exact settings_on. Qed.
(* ... but a file announced because of one kind is saved with the other too. *)
Theorem C67_settings_refuted : exists k t, has_acl k CMD_FILE = true /\
  saved k k CMD_FILE false true = GGot (Some t) /\ saved k k CMD_FILE true false = GGot (Some t) /\
  exists l, set_extrameta (fun _ _ => true) t = PDone 0 l /\
    In (AAcl false (str "user::rw-,user:1000:r--,group::r--,mask::r--,other::---")) l /\
    In (AXattr (str "user.comment") [104; 0; 108; 108; 111]) l.
Proof. exact settings_ignored. Qed.
Example C67_witness : ~ worth k_none CMD_FILE true true /\ worth k_both CMD_FILE false true /\
  worth (mkkern None (Some (Some (str "u::r"))) None None (fun _ => None) (fun _ => None)) CMD_DIRECTORY true false /\
  ~ worth (mkkern None (Some (Some (str "u::r"))) None None (fun _ => None) (fun _ => None)) CMD_FILE true false.
Proof. rewrite !worth_exact. repeat split; discriminate. Qed.

(* C68: the same on the systems with extattr(), for names of at most 127 bytes
   and values not longer than the list of the names in their namespace. *)
Theorem C68_roundtrip_partial : forall k isdir l gs, acl_ok k -> bkept_all (have k isdir) l gs ->
  exists t, get_extrameta_bsd k l isdir = GGot t /\
    forall ans, set_extrameta_bsd ans (text t) = basked ans (acls k isdir) (map (fun g => map (bask (fst g)) (snd g)) gs).
Proof. exact roundtrip_bsd. Qed.
(* A longer value comes back cut... *)
Theorem C68_value_refuted : forall z v, cstr z -> 0 < zlen z <= 127 -> 1 + zlen z < zlen v ->
  let b := mkbsd (str "user") (Some (1 + zlen z)) (Some (blisting [z])) (fun y => if beqb y z then Some v else None) in
  exists t, get_extrameta_bsd k_none [b] false = GGot t /\
    set_extrameta_bsd (fun _ _ => true) (text t) =
    PDone 0 [AExt (str "user") z (firstn (Z.to_nat (1 + zlen z)) v)].
Proof. exact bsd_cut. Qed.
(* ... and a longer name overwrites memory. *)
Theorem C68_name_refuted : forall k b isdir c r, b_len b = Some (1 + zlen r) -> b_list b = Some (c :: r) -> 128 <= c <= 255 ->
  get_extrameta_bsd k [b] isdir = GUB.
Proof. exact bsd_long_name. Qed.
Example C68_witness :
  let u := mkbsd (str "user") (Some 6) (Some (blisting [str "ab"; str "cd"])) (fun z => if beqb z (str "ab") then Some [0; 9] else Some (str "x")) in
  let s := mkbsd (str "system") (Some 0) (Some []) (fun _ => None) in
  bkept_all false [u; s] [(u, [(str "ab", [0; 9]); (str "cd", str "x")])] /\
  exists t, get_extrameta_bsd k_none [u; s] false = GGot (Some t) /\
    set_extrameta_bsd (fun _ _ => true) t =
    PDone 0 [AExt (str "user") (str "cd") (str "x"); AExt (str "user") (str "ab") [0; 9]].
Proof.
  cbv zeta. split.
  - apply (ball_some _ _ [str "ab"; str "cd"]).
    + split; [eexists; split; [reflexivity|split; [lia|discriminate]]|]. split; [reflexivity|].
      split; [apply cstrb_ok; reflexivity|]. split; [cbn; unfold dot; intros [H|[H|[H|[H|[]]]]]; discriminate H|].
      repeat (apply Forall_cons || apply Forall_nil); (split; [apply cstrb_ok; reflexivity|vm_compute; discriminate]).
    + apply bkept_val; [left; reflexivity|reflexivity|]. apply bkept_val; [left; reflexivity|reflexivity|constructor].
    + discriminate.
    + repeat (apply Forall_cons || apply Forall_nil); vm_compute; discriminate.
    + vm_compute. discriminate.
    + apply (ball_none _ _ []); [|constructor|constructor].
      split; [eexists; split; [reflexivity|split; auto]|]. split; [reflexivity|].
      split; [apply cstrb_ok; reflexivity|]. split; [|constructor].
      cbn; unfold dot; intros [H|[H|[H|[H|[H|[H|[]]]]]]]; discriminate H.
  - eexists. split; [vm_compute; reflexivity|]. vm_compute. reflexivity.
Qed.

Print Assumptions C65_roundtrip_partial.
Print Assumptions C65_too_long.
Print Assumptions C65_wrap_refuted.
Print Assumptions C66_any_bytes.
Print Assumptions C66_any_bytes_bsd.
Print Assumptions C66_cut.
Print Assumptions C67_off_partial.
Print Assumptions C67_settings_refuted.
Print Assumptions C68_roundtrip_partial.
Print Assumptions C68_value_refuted.
Print Assumptions C68_name_refuted.

Print Assumptions C67_on.
