(* Properties C10, C11: network framing.  [max] is the buffer size
   (bufmaxsize, /repo/src/asfd.c:581: 32032). *)
From Verif Require Import Bytes CmdModel FrameModel FrameProofs AsfdModel AsfdProofs.

(* The claim that the receiver never reads outside its buffer is false for
   every buffer size: a stream without NUL bytes that fills the buffer is
   scanned past its end. *)
Theorem C10_overread_refuted : forall max, (20 <= max)%nat /\ Z.of_nat max <= 65535 ->
  exists l, Forall (fits max) l /\ rrun max (rinit max (wire l)) [EvIo max] = UB.
Proof. exact network_overread. Qed.
Print Assumptions C10_overread_refuted.

(* Any schedule that does not run into that delivers a prefix of the messages
   sent, unchanged and in order, without ever reporting an error. *)
Theorem C10_network_framing_partial : forall max l evs, (5 <= max)%nat -> Forall (fits max) l ->
  rrun max (rinit max (wire l)) evs = UB \/
  exists y, rrun max (rinit max (wire l)) evs = Ok y /\
    (exists l2, l = rs_got y ++ opt (rmsg (rs_st y)) ++ l2) /\
    (List.length (rmem (rs_st y)) = max /\ (rlen (rs_st y) <= max)%nat).
Proof. exact network_framing. Qed.
Print Assumptions C10_network_framing_partial.

(* Once the network is empty and nothing is pending, all messages arrived. *)
Theorem C10_network_complete : forall max l evs avail y, (5 <= max)%nat -> Forall (fits max) l ->
  rrun max (rinit max (wire l)) (evs ++ [EvIo avail]) = Ok y ->
  rs_net y = [] -> rmsg (rs_st y) = None -> rs_got y = l.
Proof. exact network_complete. Qed.
Print Assumptions C10_network_complete.

(* No over-read when a read returns at most R bytes and messages are at most M
   bytes on the wire with M + R <= max. *)
Theorem C10_no_overread : forall max M R l evs, (5 <= max)%nat -> (5 <= M)%nat ->
  Forall (fits max) l -> Forall (fun m : Z * bytes => (List.length (snd m) + 5 <= M)%nat) l ->
  (M - 1 + R < max)%nat -> Forall (fun e => match e with EvIo a => (a <= R)%nat | EvTake => True end) evs ->
  rrun max (rinit max (wire l)) evs <> UB.
Proof. exact no_overread. Qed.
Print Assumptions C10_no_overread.

Example C10_witness :
  let l := [(CMD_GEN, str "hello"); (CMD_APPEND, [0; 1; 2]); (CMD_GEN, [])] in
  Forall (fits 40) l /\
  match rrun 40 (rinit 40 (wire l)) [EvIo 3; EvIo 9; EvTake; EvIo 1; EvIo 30; EvTake; EvIo 0; EvTake; EvIo 0] with
  | Ok y => rs_got y = l /\ rs_net y = []
  | _ => False
  end.
Proof.
  cbv zeta. split.
  - repeat constructor; simpl; unfold is_char, CMD_GEN, CMD_APPEND; lia.
  - vm_compute. split; reflexivity.
Qed.

(* C11: whatever is appended and however the transport takes it, the bytes sent
   plus the bytes buffered are the non-empty messages in order, and the buffer
   is never exceeded. *)
Theorem C11_send_stream : forall max l s s', Z.of_nat max <= 65535 -> Forall (fun m => is_char (fst m)) (offered l) ->
  (List.length (wbuf s) < max)%nat -> wrun max s l = Some s' ->
  wsent s' ++ wbuf s' = wsent s ++ wbuf s ++ wire (filter nonempty (offered l)) /\
  (List.length (wbuf s') < max)%nat.
Proof. exact send_stream. Qed.
Print Assumptions C11_send_stream.

Theorem C11_append_in_bounds : forall max s m s', Z.of_nat max <= 65535 -> is_char (fst m) ->
  append_all max s m = (APPEND_OK, s') -> (List.length (wbuf s') + 1 <= max)%nat.
Proof. exact append_in_bounds. Qed.
Print Assumptions C11_append_in_bounds.

Theorem C11_write_progress : forall max s (m : Z * bytes) ws, Z.of_nat max <= 65535 -> is_char (fst m) ->
  (List.length (snd m) + 7 < max)%nat -> (List.length (wbuf s) <= list_sum ws)%nat ->
  Forall (fun w => (1 <= w)%nat) ws ->
  exists s', asfd_write max s m (ws ++ [1%nat]) = Some s'.
Proof. exact write_progress. Qed.
Print Assumptions C11_write_progress.

(* Findings: a message that does not fit is retried for ever; an empty message
   is dropped (visible as the filter in C11_send_stream). *)
Theorem C11_oversize_never_sent : forall max s (m : Z * bytes) ws, is_char (fst m) -> Z.of_nat max <= 65535 ->
  (max <= List.length (snd m) + 7)%nat -> snd m <> [] -> asfd_write max s m ws = None.
Proof. exact oversize_never_sent. Qed.
Print Assumptions C11_oversize_never_sent.

(* Sender and receiver joined. *)
Theorem C11_end_to_end : forall max l s evs y, (8 <= max)%nat /\ Z.of_nat max <= 65535 ->
  Forall (fun m => okmsg m /\ (List.length (snd m) + 7 < max)%nat) (offered l) ->
  wrun max (mkwst [] []) l = Some s -> wbuf s = [] ->
  rrun max (rinit max (wsent s)) evs = Ok y ->
  exists l2, filter nonempty (offered l) = rs_got y ++ opt (rmsg (rs_st y)) ++ l2.
Proof. exact end_to_end. Qed.
Print Assumptions C11_end_to_end.

Example C11_witness :
  let l := [WMsg (CMD_GEN, str "hello") [2%nat]; WMsg (CMD_GEN, []) []; WMsg (CMD_APPEND, str "a longer message") [3%nat; 8%nat; 5%nat]; WIo 100] in
  match wrun 32 (mkwst [] []) l with
  | Some s => wbuf s = [] /\ wsent s = str "c0005helloa0010a longer message"
  | None => False
  end.
Proof. vm_compute. split; reflexivity. Qed.
