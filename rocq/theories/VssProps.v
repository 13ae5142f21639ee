(* Windows files without their headers: C76, C77, C78. *)
From Verif Require Import Bytes VssModel VssProofs VssMoreProofs.

(* ---- C76: restoring with the headers taken away ---- *)
Theorem C76_stripped_partial : forall w fuel l cs, writes w -> Forall stream_ok l -> buffers fuel cs -> concat cs = encode l ->
  (forall a b, cs = a ++ b -> ~ bad_cut l (concat a)) -> (forall s, In s l -> st_id s = 1 -> st_name s = []) ->
  vss_restore fuel w cs mysid0 [] = VOk mysid0 (flat_map st_data (filter (fun s => st_id s =? 1) l)).
Proof. intros w fuel l cs W K B E H N. rewrite (stripped w fuel l cs) by assumption. now rewrite (contents_data l N). Qed.
Theorem C76_chunks : forall w fuel c1 c2 s1 s2 o1 o2, writes w -> buffers fuel c1 -> buffers fuel c2 -> concat c1 = concat c2 ->
  vss_restore fuel w c1 mysid0 [] = VOk s1 o1 -> vss_restore fuel w c2 mysid0 [] = VOk s2 o2 -> o1 = o2.
Proof. exact any_chunks. Qed.
(* A piece that ends with the header of the data makes the restore fail. *)
Theorem C76_cut_refuted : forall w fuel l a b, writes w -> Forall stream_ok l -> buffers fuel (a ++ b) ->
  bad_cut l (concat a) -> exists o, vss_restore fuel w (a ++ b) mysid0 [] = VErr o.
Proof. exact stripped_bad. Qed.

(* A file with a security stream, a named stream and data. *)
Definition security : stream := mkstream 3 2 [] [1; 0; 4; 128; 20].
Definition ads : stream := mkstream 4 0 [58; 0; 97; 0] [7; 7].
Definition data : stream := mkstream 1 0 [] (str "hello").
Definition empty : stream := mkstream 5 0 [] [].
Definition win : list stream := [security; empty; ads; data].
(* write() that takes three bytes at a time. *)
Definition three (out b : bytes) : Z := Z.min 3 (len b).
Lemma three_writes : writes three.
Proof.
  intros out b. unfold three. split; [intros ->; reflexivity|]. intros H.
  assert (len b <> 0) by (intros X; apply H; apply len_nil; exact X). unfold len in *. lia.
Qed.
Lemma win_ok : Forall stream_ok win.
Proof. repeat constructor; vm_compute; reflexivity || discriminate. Qed.
(* The file cut at the given places. *)
Definition parts (ns : list nat) : list bytes :=
  (fix go (ns : list nat) (l : bytes) := match ns with [] => [l] | n :: r => firstn n l :: go r (skipn n l) end) ns (encode win).

Example C76_witness :
  concat (parts [7; 40; 30]%nat) = encode win /\ buffers 100 (parts [7; 40; 30]%nat) /\
  vss_restore 100 three (parts [7; 40; 30]%nat) mysid0 [] = VOk mysid0 (str "hello") /\
  vss_restore 100 three (parts []) mysid0 [] = VOk mysid0 (str "hello") /\
  (forall s, In s win -> st_id s = 1 -> st_name s = []) /\
  (* ... and cut right behind the header of the data *)
  bad_cut win (concat (firstn 1 (parts [91]%nat))) /\ vss_restore 100 three (parts [91]%nat) mysid0 [] = VErr [].
Proof.
  split; [vm_compute; reflexivity|]. split.
  { repeat apply Forall_cons; try apply Forall_nil; (split; [vm_compute; discriminate|vm_compute; lia]). }
  split; [vm_compute; reflexivity|]. split; [vm_compute; reflexivity|]. split.
  { intros s [<-|[<-|[<-|[<-|[]]]]] H; try discriminate H; reflexivity. }
  split; [|vm_compute; reflexivity].
  exists [security; empty; ads], data, []. split; [reflexivity|]. split; [reflexivity|]. split; [discriminate|]. vm_compute. reflexivity.
Qed.
(* The condition on the pieces is met too. *)
Example C76_no_bad_cut : forall a b, parts [7; 40; 30]%nat = a ++ b -> ~ bad_cut win (concat a).
Proof.
  intros a b E C. pose proof (bad_cut_fresh win (concat a) win_ok C) as F.
  destruct a as [|a0 a]; [discriminate F|]. injection E as <- E.
  destruct a as [|a1 a]; [vm_compute in F; discriminate F|]. injection E as <- E.
  destruct a as [|a2 a]; [vm_compute in F; discriminate F|]. injection E as <- E.
  destruct a as [|a3 a]; [vm_compute in F; discriminate F|]. injection E as <- E.
  destruct a as [|a4 a]; [vm_compute in F; discriminate F|discriminate E].
Qed.
(* A file that stops in the middle of its data is restored without complaint. *)
Theorem C76_truncated_refuted : exists p q s o, p ++ q = encode win /\ q <> [] /\
  vss_restore 100 three [p] mysid0 [] = VOk s o /\ o <> str "hello".
Proof.
  exists (firstn 93 (encode win)), (skipn 93 (encode win)). eexists. eexists. split; [apply firstn_skipn|]. split; [vm_compute; discriminate|].
  split; [vm_compute; reflexivity|]. vm_compute. discriminate.
Qed.

(* ---- C77: when writing fails ---- *)
Theorem C77_nothing_taken_partial : forall w fuel l cs, (forall out b, 0 <= w out b <= len b) -> Forall stream_ok l -> buffers fuel cs ->
  concat cs = encode l ->
  (exists o, vss_restore fuel w cs mysid0 [] = VErr o) \/ vss_restore fuel w cs mysid0 [] = VOk mysid0 (contents l).
Proof. exact noticed_streams. Qed.
(* An error is not noticed: the same bytes and those before them are written
   again, until memory before the buffer is read. *)
Theorem C77_error_refuted : forall w s x r fuel, (forall out b, b <> [] -> w out b = -1) -> stream_ok s -> st_id s = 1 -> payload s <> [] ->
  (21 < fuel)%nat -> vss_write fuel w (header s ++ x :: r) mysid0 [] = VUB.
Proof. exact error_unnoticed. Qed.
(* A single error: the file holds a byte that was not in it, and all is well. *)
Theorem C77_once_refuted : exists w, w [] (st_data data) = -1 /\ (forall out b, out <> [] -> w out b = len b) /\
  vss_restore 100 w [header data ++ payload data] mysid0 [] = VOk mysid0 (0 :: st_data data).
Proof.
  exists (fun out b => match out with [] => if (List.length b =? 5)%nat then -1 else len b | _ => len b end).
  split; [reflexivity|]. split; [intros [|o out] b H; [contradiction|reflexivity]|]. vm_compute. reflexivity.
Qed.
Example C77_witness : stream_ok data /\ st_id data = 1 /\ payload data <> [] /\
  vss_restore 100 (fun out b => if len out <? 3 then Z.min 3 (len b) else 0) [encode win] mysid0 [] = VErr (str "hel").
Proof.
  split; [repeat constructor; vm_compute; reflexivity || discriminate|]. split; [reflexivity|]. split; [discriminate|]. vm_compute. reflexivity.
Qed.

(* ---- C78: the vss_strip program ---- *)
Theorem C78_first : forall w l1 s tail, fwrites w -> Forall stream_ok l1 -> stream_ok s -> filter is_data l1 = [] -> st_id s = 1 ->
  vss_strip w (encode l1 ++ header s ++ payload s ++ tail) = (true, payload s).
Proof. exact strip_first. Qed.
Theorem C78_agrees : forall w w2 fuel l cs s, writes w -> fwrites w2 -> Forall stream_ok l -> buffers fuel cs -> concat cs = encode l ->
  filter is_data l = [s] -> (forall a b, cs = a ++ b -> ~ bad_cut l (concat a)) ->
  vss_restore fuel w cs mysid0 [] = VOk mysid0 (payload s) /\ vss_strip w2 (encode l) = (true, payload s).
Proof. exact strip_agrees. Qed.
Theorem C78_cut_partial : forall w l1 s p q, fwrites w -> Forall stream_ok l1 -> stream_ok s -> filter is_data l1 = [] ->
  payload s = p ++ q -> q <> [] ->
  vss_strip w (encode l1 ++ header s ++ p) = (false, if st_id s =? 1 then p else []).
Proof. exact strip_cut. Qed.
(* ... but a file cut inside a header is no error, ... *)
Theorem C78_cut_refuted : forall w l tail, Forall stream_ok l -> filter is_data l = [] -> (List.length tail < 20)%nat ->
  vss_strip w (encode l ++ tail) = (true, []).
Proof. exact strip_none. Qed.
(* ... the program and a restore give different files when there are two data streams, ... *)
Theorem C78_two_refuted : exists l, Forall stream_ok l /\
  vss_restore 100 three [encode l] mysid0 [] = VOk mysid0 (str "ab") /\ vss_strip (fun _ b => len b) (encode l) = (true, str "a").
Proof.
  exists [mkstream 1 0 [] (str "a"); mkstream 1 0 [] (str "b")]. split; [repeat constructor; vm_compute; reflexivity || discriminate|].
  split; vm_compute; reflexivity.
Qed.
(* ... and after a short write the data is written from its beginning again. *)
Theorem C78_short_refuted : exists w, (forall out b, out <> [] -> w out b = len b) /\
  vss_strip w (encode win) = (true, str "hehel").
Proof.
  exists (fun out b => match out with [] => 2 | _ => len b end). split; [intros [|o out] b H; [contradiction|reflexivity]|]. vm_compute. reflexivity.
Qed.
(* The printed headers. *)
Theorem C78_headers : forall l tail, Forall stream_ok l -> (List.length tail < 20)%nat ->
  vss_dump (encode l ++ tail) = (true, map (fun s => (sgn32 (st_id s), sgn32 (st_attr s), len (st_data s), len (st_name s))) l).
Proof. exact dump_ok. Qed.
Theorem C78_headers_cut : forall l s p q, Forall stream_ok l -> stream_ok s -> payload s = p ++ q -> q <> [] ->
  vss_dump (encode l ++ header s ++ p) =
  (false, map (fun s => (sgn32 (st_id s), sgn32 (st_attr s), len (st_data s), len (st_name s))) (l ++ [s])).
Proof. exact dump_cut. Qed.
Example C78_witness : fwrites (fun _ b => len b) /\ filter is_data [security; empty; ads] = [] /\ stream_ok data /\ st_id data = 1 /\
  vss_strip (fun _ b => len b) (encode win ++ [1; 2; 3]) = (true, str "hello") /\ filter is_data win = [data] /\
  vss_strip (fun _ b => len b) (firstn 93 (encode win)) = (false, str "he") /\
  vss_dump (encode win) = (true, [(3, 2, 5, 0); (5, 0, 0, 0); (4, 0, 2, 4); (1, 0, 5, 0)]) /\
  vss_dump (firstn 93 (encode win)) = (false, [(3, 2, 5, 0); (5, 0, 0, 0); (4, 0, 2, 4); (1, 0, 5, 0)]).
Proof.
  split; [intros out b; reflexivity|]. split; [reflexivity|]. split; [repeat constructor; vm_compute; reflexivity || discriminate|].
  split; [reflexivity|]. split; [vm_compute; reflexivity|]. split; [reflexivity|]. repeat split; vm_compute; reflexivity.
Qed.

Print Assumptions C76_stripped_partial.
Print Assumptions C76_chunks.
Print Assumptions C76_cut_refuted.
Print Assumptions C76_truncated_refuted.
Print Assumptions C77_nothing_taken_partial.
Print Assumptions C77_error_refuted.
Print Assumptions C77_once_refuted.
Print Assumptions C78_first.
Print Assumptions C78_agrees.
Print Assumptions C78_cut_partial.
Print Assumptions C78_cut_refuted.
Print Assumptions C78_two_refuted.
Print Assumptions C78_short_refuted.
Print Assumptions C78_headers.

Print Assumptions C78_headers_cut.
