(* C109-C110: what goes through librsync *)
From Coq Require Import ZArith List Bool Lia.
From Verif Require Import Bytes CmdModel RsbModel RsbProofs FrameProofs AsfdProofs.
Import ListNotations.
Open Scope Z_scope.

(* ---- C109: nothing is lost or added between the file, librsync and the network ---- *)
Theorem C109_sent_exact : forall J iter cap Inv F, contract J iter Inv F -> (0 < cap)%nat ->
  forall j0 reads dl ws j s, Inv j0 [] [] -> drive_loop J iter cap j0 (fstart reads dl) ws = (j, s, RsDone) ->
  let data := limited (match dl with Some O => None | x => x end) (content reads) in
  concat (f_sent s) = F data /\ Forall (fun b => (0 < length b <= cap)%nat) (f_sent s) /\
  f_bytes s = length data /\ f_md5 s = data /\ f_osent s = length (F data).
Proof. exact sent_exact. Qed.
Theorem C109_received_exact : forall J iter cap Inv, contract_in J iter Inv ->
  forall ms j c j2 rest, Inv j c -> loadsig J iter cap j (mkr [] false) ms = LDone J j2 rest ->
  exists pre x d, ms = pre ++ (CMD_END_FILE, x) :: rest /\ sig_data pre = Some d /\ Inv j2 (c ++ d).
Proof. exact loadsig_exact. Qed.
Theorem C109_signature_arrives : forall J1 iter1 cap1 Inv1 F J2 iter2 cap2 Inv2 j1 reads ws j1' s1 j2 ms j2' rest,
  contract J1 iter1 Inv1 F -> contract_in J2 iter2 Inv2 -> (0 < cap1)%nat -> Inv1 j1 [] [] -> Inv2 j2 [] ->
  drive_loop J1 iter1 cap1 j1 (fstart reads None) ws = (j1', s1, RsDone) ->
  filter (fun m => negb ((fst m =? CMD_MESSAGE) || (fst m =? CMD_WARNING))) ms =
    map (fun b => (CMD_APPEND, b)) (f_sent s1) ++ [(CMD_END_FILE, str "endfile")] ->
  loadsig J2 iter2 cap2 j2 (mkr [] false) ms = LDone J2 j2' rest ->
  Inv2 j2' (F (content reads)) /\ Forall (fun m => fst m = CMD_MESSAGE \/ fst m = CMD_WARNING) rest.
Proof. exact signature_arrives. Qed.

(* a job that keeps the promises: it doubles every byte, holding back what has no room *)
Definition dbl (b : bytes) : bytes := flat_map (fun x => [x; x]) b.
Definition w_iter (j : bytes) (i : bytes) (e : bool) (o : nat) : bytes * nat * bytes * rres :=
  let all := j ++ dbl i in
  (skipn o all, length i, firstn o all, if e && (length all <=? o)%nat then RsDone else RsBlocked).
Lemma w_contract : contract bytes w_iter (fun j c q => dbl c = q ++ j) dbl.
Proof.
  assert (DA : forall a b, dbl (a ++ b) = dbl a ++ dbl b) by (intros; apply flat_map_app).
  split.
  - intros j i e o j2 n p r E. injection E as <- <- <- <-. rewrite firstn_length. lia.
  - intros j c q i e o j2 n p r I E. injection E as <- <- <- <-. rewrite firstn_all, DA, I, <- !app_assoc, firstn_skipn. reflexivity.
  - intros j c q i e o j2 n p I E. unfold w_iter in E. set (all := j ++ dbl i) in *.
    destruct e; cbn [andb] in E; [|discriminate E]. destruct (Nat.leb_spec (length all) o) as [L|L]; [|discriminate E].
    injection E as _ <- <-. do 2 (split; [reflexivity|]). rewrite DA, I, firstn_all2 by auto. unfold all. rewrite app_assoc. reflexivity.
Qed.
(* a job that takes everything *)
Definition w_load (j : bytes) (i : bytes) (e : bool) (o : nat) : bytes * nat * bytes * rres :=
  (j ++ i, length i, [], if e then RsDone else RsBlocked).
Lemma w_contract_in : contract_in bytes w_load (fun j c => j = c).
Proof.
  split.
  - intros j i e o j2 n p r E. injection E as <- <- <- <-. lia.
  - intros j c i e o j2 n p r -> E. injection E as <- <- <- <-. rewrite firstn_all. reflexivity.
  - intros j i e o j2 n p E. injection E as <- <- <- E. destruct e; [auto|discriminate E].
  - intros j i e o j2 n p r E [-> | ->]; injection E as <- <- <- E; destruct e; try discriminate E; auto.
Qed.
(* seven bytes, of which five are wanted, through a buffer of four, while the network is sometimes full *)
Example C109_case :
  match drive_loop bytes w_iter 4 [] (fstart [RdData (str "abcdefg"); RdEof] (Some 5%nat))
          [WrOk; WrBlocked; WrOk; WrOk; WrBlocked; WrBlocked; WrOk; WrOk; WrOk; WrOk; WrOk] with
  | (_, s, r) => r = RsDone /\ f_sent s = [str "aabb"; str "ccdd"; str "ee"] /\ f_md5 s = str "abcde" /\ f_bytes s = 5%nat
  end /\
  loadsig bytes w_load 4 [] (mkr [] false)
    [(CMD_APPEND, str "aabb"); (CMD_WARNING, str "well"); (CMD_APPEND, str "cc"); (CMD_END_FILE, str "endfile"); (CMD_GEN, str "x")] =
    LDone bytes (str "aabbcc") [(CMD_GEN, str "x")].
Proof. vm_compute. auto. Qed.

(* ---- C110: the buffer of the client ---- *)
Theorem C110_safe_partial : forall J iter cap ms j, Forall (fun m => (length (snd m) <= cap)%nat) ms ->
  forall s, loadsig J iter cap j s ms <> LUB J.
Proof. exact loadsig_safe. Qed.
Theorem C110_overflow : forall J iter cap ms j b rest, (cap < length b)%nat -> Forall (fun m => fst m = CMD_MESSAGE \/ fst m = CMD_WARNING) ms ->
  loadsig J iter cap j (mkr [] false) (ms ++ (CMD_APPEND, b) :: rest) = LUB J.
Proof. exact loadsig_overflow. Qed.
(* messages that are longer than the buffer do get through the network (C10): their limit is twice as high *)
Theorem C110_overflow_refuted : exists b, fits (Z.to_nat (2 * ASYNC_BUF_LEN + 32)) (CMD_APPEND, b) /\
  forall J iter j rest, loadsig J iter (Z.to_nat ASYNC_BUF_LEN) j (mkr [] false) ((CMD_APPEND, b) :: rest) = LUB J.
Proof.
  exists (repeat 65 (Z.to_nat 20000)).
  assert (L : length (repeat 65 (Z.to_nat 20000)) = Z.to_nat 20000) by apply repeat_length.
  split.
  - split; [split|]; cbn [fst snd].
    + unfold is_char, CMD_APPEND. lia.
    + rewrite L. lia.
    + rewrite L. unfold ASYNC_BUF_LEN. lia.
  - intros J iter j rest. apply (loadsig_overflow J iter (Z.to_nat ASYNC_BUF_LEN) [] j _ rest); [|constructor]. rewrite L. unfold ASYNC_BUF_LEN. lia.
Qed.
Example C110_case : Forall (fun m : Z * bytes => (length (snd m) <= 4)%nat) [(CMD_APPEND, str "aabb"); (CMD_END_FILE, str "")] /\
  loadsig bytes w_load 4 [] (mkr [] false) [(CMD_WARNING, str "a long warning"); (CMD_APPEND, str "aabbc")] = LUB bytes.
Proof. split; [repeat constructor; cbn; lia|]. vm_compute. reflexivity. Qed.

Print Assumptions C109_sent_exact.
Print Assumptions C109_received_exact.
Print Assumptions C109_signature_arrives.
Print Assumptions C110_safe_partial.
Print Assumptions C110_overflow.
Print Assumptions C110_overflow_refuted.
