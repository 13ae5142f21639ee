(* Properties C60 to C63: deduplication of stored files. *)
From Verif Require Import Bytes AuthModel RestoreModel BedupModel BedupProofs BedupRunProofs BedupFineProofs BedupWalkProofs.

(* ---- C60: linking duplicates changes the content of no file, at no moment ---- *)
Theorem C60_content_partial : forall md5 del maxlinks ext l w ok s', rd_ok w -> w_past w = [] ->
  process_all md5 true del maxlinks ext l (start w) = (ok, s') ->
  forall d, In d (disks s') -> forall p c, content (w_disk w) p = Some c -> content d p = Some c.
Proof. intros md5 del maxlinks ext. exact (run_content md5 true del maxlinks ext eq_refl). Qed.
Theorem C60_clean : forall md5 del maxlinks ext l w ok s', rd_ok w -> op_ok w -> sys_ok w -> wf (w_disk w) -> w_past w = [] ->
  ~ In None l -> (forall p, In (Some p) l -> look (w_disk w) (p ++ ext) = None) ->
  process_all md5 true del maxlinks ext l (start w) = (ok, s') ->
  ok = true /\ forall x, look (w_disk (s_w s')) x = None <-> look (w_disk w) x = None.
Proof. intros md5 del maxlinks ext. exact (run_clean md5 true del maxlinks ext eq_refl). Qed.
Theorem C60_others : forall md5 mk del maxlinks ext l w ok s', w_past w = [] ->
  process_all md5 mk del maxlinks ext l (start w) = (ok, s') ->
  forall d, In d (disks s') -> same_but ext l (w_disk w) d.
Proof. exact run_others. Qed.
Theorem C60_report : forall md5 maxlinks ext l w ok s',
  process_all md5 false false maxlinks ext l (start w) = (ok, s') ->
  w_disk (s_w s') = w_disk w /\ w_past (s_w s') = w_past w.
Proof. intros md5 maxlinks ext. exact (run_report md5 false false maxlinks ext eq_refl eq_refl). Qed.

(* Three files, the first and the last the same, of one size. *)
Definition data3 (n : node) : bytes := if snd n =? 2 then str "wxyz" else str "abcd".
Definition disk3 : disk := mkdisk [(str "a", (1, 1)); (str "b", (1, 2)); (str "c", (1, 3))] data3.
Definition calm3 : world := mkworld disk3 [] [] [] [].
Definition names3 : list (option bytes) := [Some (str "a"); Some (str "b"); Some (str "c")].
Definition sum3 (b : bytes) : Z := 1 + fold_left (fun x y => 256 * x + y) b 0.
Definition ext3 : bytes := str ".bedup.7".
Definition run3 (mk del : bool) (w : world) := process_all sum3 mk del 10000 ext3 names3 (start w).
Definition shown (d : disk) : list (option node * option bytes) :=
  map (fun p => (look d p, content d p)) [str "a"; str "b"; str "c"; str "c.bedup.7"].

Example C60_witness : 
  (rd_ok calm3 /\ op_ok calm3 /\ sys_ok calm3 /\ wf disk3 /\ w_past calm3 = [] /\ ~ In None names3
   /\ forall p, In (Some p) names3 -> look disk3 (p ++ ext3) = None) /\
  (let '(ok, s) := run3 true false calm3 in
   (ok, shown (w_disk (s_w s)), List.length (w_past (s_w s)), s_count s, s_saved s))
  = (true, [(Some (1, 1), Some (str "abcd")); (Some (1, 2), Some (str "wxyz")); (Some (1, 1), Some (str "abcd")); (None, None)],
     2%nat, 1, 4).
Proof.
  split; [|vm_compute; reflexivity].
  split; [constructor|]. split; [constructor|]. split; [constructor|].
  split. { unfold wf. vm_compute. repeat constructor; cbn; intuition discriminate. }
  split; [reflexivity|]. split; [cbn; intuition discriminate|].
  intros p H. cbn in H. destruct H as [H|[H|[H|[]]]]; injection H as <-; vm_compute; reflexivity.
Qed.

(* A read that fails is taken for the end of the file: two files whose reads fail
   are the same. *)
Definition bad_reads : world := mkworld disk3 [] [] (repeat (Some O) 20) [].
Theorem C60_content_refuted : exists md5 maxlinks ext l w p c,
  w_past w = [] /\ op_ok w /\ sys_ok w /\ wf (w_disk w) /\ content (w_disk w) p = Some c /\
  exists s', process_all md5 true false maxlinks ext l (start w) = (true, s') /\ content (w_disk (s_w s')) p <> Some c.
Proof.
  exists sum3, 10000, ext3, names3, bad_reads, (str "b"), (str "wxyz").
  split; [reflexivity|]. split; [constructor|]. split; [constructor|].
  split. { unfold wf. vm_compute. repeat constructor; cbn; intuition discriminate. }
  split; [reflexivity|].
  exists (snd (run3 true false bad_reads)). split; [vm_compute; reflexivity|]. vm_compute. discriminate.
Qed.

(* ---- C61: deleting duplicates keeps a copy of every file ---- *)
Theorem C61_copy_partial : forall md5 del maxlinks ext l w ok s', rd_ok w -> w_past w = [] ->
  process_all md5 false del maxlinks ext l (start w) = (ok, s') ->
  forall d, In d (disks s') ->
  d_data d = d_data (w_disk w)
  /\ (forall p n, look d p = Some n -> look (w_disk w) p = Some n)
  /\ (forall p a, look (w_disk w) p = Some a ->
      exists q b, look d q = Some b /\ fst b = fst a /\ d_data (w_disk w) b = d_data (w_disk w) a).
Proof. intros md5 del maxlinks ext. exact (run_copy md5 false del maxlinks ext eq_refl). Qed.
Example C61_witness :
  rd_ok calm3 /\ w_past calm3 = [] /\
  (let '(ok, s) := run3 false true calm3 in
   (ok, shown (w_disk (s_w s)), List.length (w_past (s_w s)), s_count s, s_saved s))
  = (true, [(Some (1, 1), Some (str "abcd")); (Some (1, 2), Some (str "wxyz")); (None, None); (None, None)], 1%nat, 1, 4).
Proof. split; [constructor|]. split; [reflexivity|]. vm_compute. reflexivity. Qed.
Theorem C61_copy_refuted : exists md5 maxlinks ext l w p a,
  w_past w = [] /\ op_ok w /\ sys_ok w /\ wf (w_disk w) /\ look (w_disk w) p = Some a /\
  exists s', process_all md5 false true maxlinks ext l (start w) = (true, s') /\
    forall q, content (w_disk (s_w s')) q <> Some (d_data (w_disk w) a).
Proof.
  exists sum3, 10000, ext3, names3, bad_reads, (str "b"), (1, 2).
  split; [reflexivity|]. split; [constructor|]. split; [constructor|].
  split. { unfold wf. vm_compute. repeat constructor; cbn; intuition discriminate. }
  split; [reflexivity|].
  exists (snd (run3 false true bad_reads)). split; [vm_compute; reflexivity|]. intros q.
  assert (E : d_names (w_disk (s_w (snd (run3 false true bad_reads)))) = [(str "a", (1, 1))]) by (vm_compute; reflexivity).
  assert (D : d_data (w_disk (s_w (snd (run3 false true bad_reads)))) = data3) by (vm_compute; reflexivity).
  unfold content, look. rewrite E, D. cbn [find_name]. destruct (beqb (str "a") q); vm_compute; discriminate.
Qed.

(* ---- C62: what is saved, the limit of links, and that nothing is missed ---- *)
Theorem C62_saved : forall md5 mk del maxlinks ext, mk = true \/ del = true ->
  forall l w ok s', wf (w_disk w) -> NoDup l ->
  process_all md5 mk del maxlinks ext l (start w) = (ok, s') ->
  s_saved s' = (total (w_disk w) - total (w_disk (s_w s'))) mod 2 ^ 64.
Proof. exact run_saved. Qed.
Theorem C62_limit : forall md5 del maxlinks ext l w ok s', rd_ok w -> op_ok w -> wf (w_disk w) -> w_past w = [] ->
  process_all md5 true del maxlinks ext l (start w) = (ok, s') ->
  forall d n, In d (disks s') -> nlinks d n <= Z.max maxlinks (nlinks (w_disk w) n).
Proof. intros md5 del maxlinks ext. exact (run_limit md5 true del maxlinks ext eq_refl). Qed.
Theorem C62_complete : forall md5 del maxlinks ext l w s', rd_ok w -> op_ok w -> wf (w_disk w) -> w_past w = [] ->
  Z.of_nat (List.length (d_names (w_disk w))) < maxlinks ->
  process_all md5 true del maxlinks ext l (start w) = (true, s') ->
  forall p q a b, In (Some p) l -> In (Some q) l -> look (w_disk w) p = Some a -> look (w_disk w) q = Some b ->
    fst a = fst b -> d_data (w_disk w) a = d_data (w_disk w) b -> d_data (w_disk w) a <> [] ->
    exists n, look (w_disk (s_w s')) p = Some n /\ look (w_disk (s_w s')) q = Some n.
Proof. intros md5 del maxlinks ext. exact (run_complete md5 true del maxlinks ext eq_refl). Qed.
Example C62_witness :
  NoDup names3 /\ Z.of_nat (List.length (d_names disk3)) < 10000 /\
  (let '(ok, s) := run3 true false calm3 in
   (ok, total disk3, total (w_disk (s_w s)), s_saved s, nlinks (w_disk (s_w s)) (1, 1))) = (true, 12, 8, 4, 2) /\
  (* a limit of one name keeps every file as it is *)
  (let '(ok, s) := process_all sum3 true false 1 ext3 names3 (start calm3) in (ok, shown (w_disk (s_w s)), s_saved s))
  = (true, shown disk3, 0).
Proof.
  split; [repeat constructor; cbn; intuition discriminate|]. split; [cbn; lia|]. split; vm_compute; reflexivity.
Qed.
(* What a run without -l and -d says could be saved can be more than what a run
   with -l then saves: the two names of one file count for two files. *)
Definition disk4 : disk := mkdisk [(str "a", (1, 1)); (str "b", (1, 2)); (str "c", (1, 2))] (fun _ => str "abcd").
Definition calm4 : world := mkworld disk4 [] [] [] [].
Theorem C62_report_refuted : exists md5 maxlinks ext l w,
  rd_ok w /\ op_ok w /\ sys_ok w /\ wf (w_disk w) /\ NoDup l /\
  s_saved (snd (process_all md5 false false maxlinks ext l (start w))) <>
  (total (w_disk w) - total (w_disk (s_w (snd (process_all md5 true false maxlinks ext l (start w)))))) mod 2 ^ 64.
Proof.
  exists sum3, 10000, ext3, names3, calm4. split; [constructor|]. split; [constructor|]. split; [constructor|].
  split. { unfold wf. vm_compute. repeat constructor; cbn; intuition discriminate. }
  split. { repeat constructor; cbn; intuition discriminate. }
  vm_compute. discriminate.
Qed.

(* ---- C63: what a run on the server comes to ---- *)
Theorem C63_change : forall md5 mk del maxlinks ext clients w ok s', Forall fair clients -> w_past w = [] ->
  process_all md5 mk del maxlinks ext (snd (clients_names statics0 clients)) (start w) = (ok, s') ->
  forall d x, In d (disks s') -> look d x <> look (w_disk w) x ->
  exists c p, In c clients /\ c_lock c = true /\ c_ours c = true /\ leaf_at (c_kids c) p
    /\ ~ hands_off (fun a => going_on c a /\ (List.length a <= 254)%nat) p
    /\ (x = c_path c ++ slashed p \/ x = c_path c ++ slashed p ++ ext).
Proof. exact mode_change. Qed.
Theorem C63_going : forall md5 mk del maxlinks ext base clients w ok s', Forall fair clients -> w_past w = [] ->
  own_dirs base clients -> ~ In slash ext ->
  process_all md5 mk del maxlinks ext (snd (clients_names statics0 clients)) (start w) = (ok, s') ->
  forall d c a b r, In d (disks s') -> In c clients -> Forall (fun n => ~ In slash n) (a :: b :: r) ->
  (c_lock c = false \/ c_ours c = false \/ a = str "deleteme" \/ (going_on c a /\ (List.length a <= 254)%nat)) ->
  look d (c_path c ++ slashed (a :: b :: r)) = look (w_disk w) (c_path c ++ slashed (a :: b :: r)).
Proof. exact mode_safe. Qed.
Theorem C63_logs : forall md5 mk del maxlinks ext base clients w ok s' pid, Forall fair clients -> w_past w = [] ->
  own_dirs base clients -> ext = str ".bedup." ++ pid -> ~ In slash pid ->
  process_all md5 mk del maxlinks ext (snd (clients_names statics0 clients)) (start w) = (ok, s') ->
  forall d c, In d (disks s') -> In c clients ->
  (forall a, a = str "lockfile" \/ a = str "lockfile.bedup" ->
     look d (c_path c ++ slashed [a]) = look (w_disk w) (c_path c ++ slashed [a]))
  /\ (forall a b r, Forall (fun n => ~ In slash n) (a :: b :: r) -> log_name b ->
     look d (c_path c ++ slashed (a :: b :: r)) = look (w_disk w) (c_path c ++ slashed (a :: b :: r))).
Proof. exact mode_logs. Qed.
(* Everything else of a client is come to, as long as nothing is left of the links
   of the client before. *)
Theorem C63_all_partial : forall z c p, fair c -> c_ours c = true -> c_opens c = true -> leaf_at (c_kids c) p ->
  (c_working c = None -> st_working z = []) -> (c_finishing c = None -> st_finishing z = []) ->
  short (c_working c) -> short (c_finishing c) ->
  ~ hands_off (going_on c) p -> In (Some (c_path c ++ slashed p)) (snd (client_names z c)).
Proof. exact client_all. Qed.

(* Two clients, each with two backups; the first is backing up. *)
Definition backups : list tree :=
  [Leaf (str "lockfile"); Leaf (str "current");
   Sub (str "0000001 x") true [Leaf (str "log.gz"); Sub (str "data") true [Leaf (str "f")]];
   Sub (str "0000002 y") true [Leaf (str "log"); Sub (str "data") true [Leaf (str "f")]]].
Definition busy : client := mkclient (str "/s/one") true (Some (str "0000002 y/")) None true true backups.
Definition idle : client := mkclient (str "/s/two") true None None true true backups.
Definition locked_out : client := mkclient (str "/s/three") false None None true true backups.
Lemma fair_backups : Forall plain_tree backups.
Proof.
  assert (P : forall n, (negb (beqb n []) && forallb (fun x => negb (x =? slash)) n = true) -> plain n).
  { intros n H. apply andb_prop in H. destruct H as [A B]. split.
    - intros ->. discriminate A.
    - intros I. rewrite forallb_forall in B. specialize (B _ I). rewrite Z.eqb_refl in B. discriminate B. }
  unfold backups. repeat (constructor; [first [constructor; [apply P; reflexivity|repeat (constructor; [first [constructor; apply P; reflexivity|constructor; [apply P; reflexivity|repeat (constructor; [constructor; apply P; reflexivity|]); constructor]]|]); constructor]|constructor; apply P; reflexivity]|]).
  constructor.
Qed.
Example C63_witness :
  Forall fair [busy; idle; locked_out] /\ own_dirs (str "/s") [busy; idle; locked_out] /\ going_on busy (str "0000002 y") /\
  snd (clients_names statics0 [locked_out; busy]) =
    [Some (str "/s/one/current"); Some (str "/s/one/0000001 x/data/f")] /\
  snd (clients_names statics0 [idle]) =
    [Some (str "/s/two/current"); Some (str "/s/two/0000001 x/data/f"); Some (str "/s/two/0000002 y/data/f")].
Proof.
  split. { repeat (constructor; [split; [discriminate|apply fair_backups]|]); constructor. }
  split.
  { split.
    - intros c [<-|[<-|[<-|[]]]]; [exists (str "one")|exists (str "two")|exists (str "three")];
        (split; [vm_compute; intuition discriminate|reflexivity]).
    - intros c c' H H' E. cbn in H, H'. destruct H as [<-|[<-|[<-|[]]]], H' as [<-|[<-|[<-|[]]]]; try reflexivity; discriminate E. }
  split. { left. right. reflexivity. }
  split; vm_compute; reflexivity.
Qed.
(* After the first client the backup with the same name of the second is left out,
   although no backup of the second is going on. *)
Theorem C63_all_refuted : exists l c p, Forall fair l /\ In c l /\ c_lock c = true /\ c_ours c = true /\ c_opens c = true /\
  leaf_at (c_kids c) p /\ (forall a, ~ going_on c a) /\ ~ hands_off (going_on c) p /\
  ~ In (Some (c_path c ++ slashed p)) (snd (clients_names statics0 l)).
Proof.
  exists [busy; idle], idle, [str "0000002 y"; str "data"; str "f"].
  split. { repeat (constructor; [split; [discriminate|apply fair_backups]|]); constructor. }
  split; [right; left; reflexivity|]. do 3 (split; [reflexivity|]).
  split. { apply la_sub with (k := [Leaf (str "log"); Sub (str "data") true [Leaf (str "f")]]); [cbn; tauto|].
           apply la_sub with (k := [Leaf (str "f")]); [cbn; tauto|]. apply la_leaf. left. reflexivity. }
  assert (NG : forall a, ~ going_on idle a) by (intros a [[X|X]|[X|X]]; discriminate X).
  split; [exact NG|]. split.
  { cbn [hands_off]. intros [X|[X|[X|[X|(r & [X|[X|X]])]]]]; try discriminate X. exact (NG _ X). }
  vm_compute. intuition discriminate.
Qed.
(* The byte before the buffer of a link is read whenever the first client has not
   both links, as a client at rest has not. *)
Theorem C63_memory_refuted : forall c r, c_lock c = true -> c_working c = None \/ c_finishing c = None ->
  st_under (fst (clients_names statics0 (c :: r))) = true.
Proof. exact clients_under. Qed.

Print Assumptions C60_content_partial.
Print Assumptions C60_clean.
Print Assumptions C60_others.
Print Assumptions C60_report.
Print Assumptions C60_content_refuted.
Print Assumptions C61_copy_partial.
Print Assumptions C61_copy_refuted.
Print Assumptions C62_saved.
Print Assumptions C62_limit.
Print Assumptions C62_complete.
Print Assumptions C62_report_refuted.
Print Assumptions C63_change.
Print Assumptions C63_going.
Print Assumptions C63_logs.
Print Assumptions C63_all_partial.
Print Assumptions C63_all_refuted.
Print Assumptions C63_memory_refuted.
