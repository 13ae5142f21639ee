(* Proofs about XattrModel on the systems with extattr(). *)
From Verif Require Import Bytes CmdModel CmdProofs FrameModel FrameProofs DpthModel DpthProofs XattrModel XattrProofs.

(* ---------- the specification ---------- *)
(* The names of one namespace as the system lists them: a length byte before each. *)
Definition blisting (ns : list bytes) : bytes := concat (map (fun z => zlen z :: z) ns).
(* The full name of an attribute. *)
Definition full (b : bsd) (z : bytes) : bytes := b_name b ++ dot :: z.
Definition bacl_name (z : bytes) : Prop := z = str "system.posix1e.acl_access".
(* The attributes kept of one namespace, each with its whole value. *)
Inductive bkept (b : bsd) (hv : bool) : list bytes -> list (bytes * bytes) -> Prop :=
| bkept_nil : bkept b hv [] []
| bkept_acl : forall z ns ps, hv = true -> bacl_name (full b z) -> bkept b hv ns ps -> bkept b hv (z :: ns) ps
| bkept_none : forall z ns ps, (hv = false \/ ~ bacl_name (full b z)) -> b_val b z = None ->
    bkept b hv ns ps -> bkept b hv (z :: ns) ps
| bkept_val : forall z v ns ps, (hv = false \/ ~ bacl_name (full b z)) -> b_val b z = Some v ->
    bkept b hv ns ps -> bkept b hv (z :: ns) ((z, v) :: ps).
Definition fullp (b : bsd) (p : bytes * bytes) : bytes * bytes := (full b (fst p), snd p).
(* A namespace with readable names, none of them longer than 127 bytes. *)
Definition bsd_ok (b : bsd) (ns : list bytes) : Prop :=
  (exists n, b_len b = Some n /\ (n = 0 <-> ns = [])) /\ b_list b = Some (blisting ns) /\
  cstr (b_name b) /\ ~ In dot (b_name b) /\ Forall (fun z => cstr z /\ zlen z <= 127) ns.
(* All namespaces: what is kept of each that gives anything. *)
Inductive bkept_all : bool -> list bsd -> list (bsd * list (bytes * bytes)) -> Prop :=
| ball_nil : forall hv, bkept_all hv [] []
| ball_none : forall hv b ns l gs, bsd_ok b ns -> bkept b hv ns [] -> bkept_all hv l gs -> bkept_all hv (b :: l) gs
| ball_some : forall hv b ns ps l gs, bsd_ok b ns -> bkept b hv ns ps -> ps <> [] ->
    Forall (fun p => zlen (snd p) <= zlen (blisting ns)) ps -> room (map (fullp b) ps) <= maxlen ->
    bkept_all true l gs -> bkept_all hv (b :: l) ((b, ps) :: gs).
Definition bask (b : bsd) (p : bytes * bytes) : ask := AExt (b_name b) (fst p) (snd p).
(* Restoring: in each namespace the attributes until one is refused. *)
Fixpoint ask_groups (ans : answers) (log : list ask) (gs : list (list ask)) : list ask * Z :=
  match gs with
  | [] => (log, 0)
  | g :: r => let '(l, ok) := ask_all ans log g in
              let '(l2, n) := ask_groups ans l r in (l2, (if (ok : bool) then 0 else 1) + n)
  end.
Definition basked (ans : answers) (acl : list ask) (gs : list (list ask)) : put :=
  let '(l1, n) := ask_each ans [] acl in
  let '(l2, m) := ask_groups ans l1 gs in PDone (n + m) l2.

(* ---------- saving ---------- *)
Lemma bskip_iff : forall z, in_skiplist_bsd z = true <-> bacl_name z.
Proof. intros. apply beqb_eq. Qed.
Lemma bnot_skipped : forall hv z, hv = false \/ ~ bacl_name z -> hv && in_skiplist_bsd z = false.
Proof.
  intros hv z [->|H]; [reflexivity|]. destruct (in_skiplist_bsd z) eqn:E; [|apply andb_false_r].
  exfalso. apply H. apply bskip_iff. exact E.
Qed.
Lemma first_name : forall (z r : bytes), firstn (Z.to_nat (zlen z)) (z ++ r) = z.
Proof. intros. unfold zlen. rewrite Nat2Z.id, firstn_app, Nat.sub_diag, firstn_all. cbn. apply app_nil_r. Qed.

Lemma bsd_names_spec : forall b hv ns ps, bkept b hv ns ps -> forall len fuel acc,
  Forall (fun z => cstr z /\ zlen z <= 127) ns -> Forall (fun p => zlen (snd p) <= len) ps ->
  zlen (text acc) + room (map (fullp b) ps) <= maxlen -> (List.length ns < fuel)%nat ->
  bsd_names fuel b hv len (blisting ns) acc = BGo (add acc (map (fullp b) ps)).
Proof.
  intros b hv ns ps K. induction K as [|z ns ps Hh Ha K IH|z ns ps Hs Hv K IH|z v ns ps Hs Hv K IH];
    intros len fuel acc Hn Hl Hr Hf; (destruct fuel as [|fuel]; [cbn in Hf; lia|]).
  - reflexivity.
  - apply Forall_cons_iff in Hn. destruct Hn as [[Hc Hz] Hn]. pose proof (zlen_pos z).
    unfold blisting. cbn [map concat]. fold (blisting ns). cbn [app bsd_names].
    unfold schar. replace (zlen z <? 128) with true by lia. replace (zlen z <? 0) with false by lia.
    rewrite first_name, skip_app, (cview_id z) by auto. fold (full b z).
    apply bskip_iff in Ha. rewrite Ha, Hh. cbn [andb]. subst hv. apply IH; auto. cbn in Hf; lia.
  - apply Forall_cons_iff in Hn. destruct Hn as [[Hc Hz] Hn]. pose proof (zlen_pos z).
    unfold blisting. cbn [map concat]. fold (blisting ns). cbn [app bsd_names].
    unfold schar. replace (zlen z <? 128) with true by lia. replace (zlen z <? 0) with false by lia.
    rewrite first_name, skip_app, (cview_id z) by auto. fold (full b z).
    rewrite bnot_skipped, Hv by auto. apply IH; auto. cbn in Hf; lia.
  - apply Forall_cons_iff in Hn. destruct Hn as [[Hc Hz] Hn]. pose proof (zlen_pos z).
    apply Forall_cons_iff in Hl. destruct Hl as [Hl1 Hl]. cbn [snd] in Hl1.
    unfold blisting. cbn [map concat]. fold (blisting ns). cbn [app bsd_names].
    unfold schar. replace (zlen z <? 128) with true by lia. replace (zlen z <? 0) with false by lia.
    rewrite first_name, skip_app, (cview_id z) by auto. fold (full b z).
    rewrite bnot_skipped, Hv by auto.
    rewrite (firstn_all2 v) by (unfold zlen in Hl1; lia).
    cbn [map] in Hr. change (fullp b (z, v)) with (full b z, v) in Hr. cbn [room fold_right fst snd] in Hr. fold (room (map (fullp b) ps)) in Hr.
    pose proof (room_pos (map (fullp b) ps)). pose proof (zlen_pos (text acc)). pose proof (zlen_pos (full b z)). pose proof (zlen_pos v).
    assert (Lz : is_u32 (zlen (full b z))) by (unfold is_u32, maxlen in *; lia).
    assert (Lv : is_u32 (zlen v)) by (unfold is_u32, maxlen in *; lia).
    assert (T : zlen (text acc ++ fmt_08X (zlen (full b z)) ++ full b z ++ fmt_08X (zlen v) ++ v) = zlen (text acc) + 16 + zlen (full b z) + zlen v).
    { rewrite !zlen_app, !zlen_fmt by auto. lia. }
    rewrite T. replace (maxlen <? zlen (text acc) + 16 + zlen (full b z) + zlen v) with false by lia.
    rewrite IH; auto; [|cbn [text]; rewrite T; lia|cbn in Hf; lia].
    rewrite add_step. reflexivity.
Qed.

Definition bent (g : bsd * list (bytes * bytes)) : Z * bytes := (META_XATTR_BSD, group (map (fullp (fst g)) (snd g))).
Lemma blisting_nil : forall ns, blisting ns = [] -> ns = [].
Proof. intros [|z ns] H; [reflexivity|discriminate]. Qed.
Lemma blisting_len : forall ns, (List.length ns <= List.length (blisting ns))%nat.
Proof.
  induction ns as [|z ns IH]; [cbn; lia|]. unfold blisting. cbn [map concat]. fold (blisting ns). rewrite app_length. cbn. lia.
Qed.
Lemma get_bsd_spec : forall hv l gs, bkept_all hv l gs -> forall es,
  hv = match es with [] => false | _ => true end ->
  get_xattr_bsd l (meta_of es) = GGot (meta_of (es ++ map bent gs)).
Proof.
  intros hv l gs K. induction K as [hv|hv b ns l gs B K1 K IH|hv b ns ps l gs B K1 N V R K IH]; intros es Hhv.
  - cbn. rewrite app_nil_r. reflexivity.
  - destruct B as ((n & B1 & B2) & B3 & B4 & B5 & B6). cbn [get_xattr_bsd]. rewrite B1.
    destruct (Z.eqb_spec n 0); [apply IH; exact Hhv|]. rewrite B3.
    destruct (blisting ns) as [|x r] eqn:E; [exfalso; apply n0, B2, blisting_nil, E|]. rewrite <- E.
    replace (match meta_of es with Some _ => true | None => false end) with hv by (rewrite Hhv; destruct es; reflexivity).
    rewrite (bsd_names_spec b hv ns [] K1); auto; [apply IH; exact Hhv|cbn; unfold maxlen; lia|pose proof (blisting_len ns); lia].
  - destruct B as ((n & B1 & B2) & B3 & B4 & B5 & B6). cbn [get_xattr_bsd]. rewrite B1.
    destruct (Z.eqb_spec n 0) as [E|E].
    { apply B2 in E. subst ns. inversion K1. congruence. }
    rewrite B3. destruct (blisting ns) as [|x r] eqn:EB; [exfalso; apply E, B2, blisting_nil, EB|]. rewrite <- EB.
    replace (match meta_of es with Some _ => true | None => false end) with hv by (rewrite Hhv; destruct es; reflexivity).
    rewrite <- EB in V.
    rewrite (bsd_names_spec b hv ns ps K1); auto; [|pose proof (blisting_len ns); lia].
    destruct ps as [|p ps]; [congruence|]. cbn [map add].
    specialize (IH (es ++ [bent (b, p :: ps)])).
    rewrite <- app_assoc in IH. cbn [app map] in IH.
    assert (M : append_to_extrameta (text None ++ group (fullp b p :: map (fullp b) ps)) META_XATTR_BSD (meta_of es) = meta_of (es ++ [bent (b, p :: ps)])).
    { unfold append_to_extrameta. rewrite text_meta. cbn [text app].
      replace (meta_of (es ++ [bent (b, p :: ps)])) with (Some (meta (es ++ [bent (b, p :: ps)]))) by (destruct es; reflexivity).
      rewrite meta_app. do 2 f_equal. unfold meta. cbn [map concat]. unfold entry, field, bent. cbn [fst snd app map]. rewrite app_nil_r. reflexivity. }
    unfold add. rewrite M. cbn [map]. apply IH. destruct es; reflexivity.
Qed.

(* ---------- restoring ---------- *)
Lemma split_full : forall b z, ~ In dot (b_name b) -> split_dot (full b z) = Some (b_name b, z).
Proof.
  intros b z. unfold full. induction (b_name b) as [|x s IH]; intros H.
  - reflexivity.
  - cbn [app split_dot]. destruct (Z.eqb_spec x dot) as [->|_]; [exfalso; apply H; left; reflexivity|].
    rewrite IH; [reflexivity|]. intros I. apply H. right. exact I.
Qed.
Lemma set_bsd_group : forall ans b ps fuel log, cstr (b_name b) -> ~ In dot (b_name b) ->
  Forall (fun p => cstr (fst p) /\ small (full b (fst p)) /\ small (snd p)) ps -> (List.length ps < fuel)%nat ->
  do_set_xattr_bsd fuel ans (group (map (fullp b) ps)) log =
  let '(l, ok) := ask_all ans log (map (bask b) ps) in PDone (if ok then 0 else -1) l.
Proof.
  intros ans b. induction ps as [|[z v] ps IH]; intros fuel log Cb Db H Hf; (destruct fuel as [|fuel]; [cbn in Hf; lia|]).
  - reflexivity.
  - apply Forall_cons_iff in H. destruct H as [(H1 & H2 & H3) H]. cbn [fst snd] in *.
    cbn [do_set_xattr_bsd map]. change (fullp b (z, v)) with (full b z, v). unfold group. cbn [map concat fst snd]. fold (group (map (fullp b) ps)).
    rewrite <- app_assoc.
    assert (L : zlen (field (full b z) ++ field v ++ group (map (fullp b) ps)) <=? 0 = false).
    { rewrite zlen_app, zlen_field by auto. pose proof (zlen_pos (full b z)). pose proof (zlen_pos (field v ++ group (map (fullp b) ps))). lia. }
    rewrite L, !next_field by auto. rewrite (cview_id (full b z)).
    2: { unfold full. apply cstr_app. split; [exact Cb|]. constructor; [unfold is_char, dot; lia|exact H1]. }
    rewrite split_full by auto.
    cbn [ask_all]. change (bask b (z, v)) with (AExt (b_name b) z v). destruct (ans log (AExt (b_name b) z v)); [|reflexivity].
    rewrite IH by (auto; cbn in Hf; lia). reflexivity.
Qed.
Lemma acl_handle_bsd : forall ans, acl_handle ans (set_one_bsd ans).
Proof. intros ans m log. split; reflexivity. Qed.

Definition good_group (g : bsd * list (bytes * bytes)) : Prop :=
  cstr (b_name (fst g)) /\ ~ In dot (b_name (fst g)) /\
  Forall (fun p => cstr (fst p) /\ small (full (fst g) (fst p)) /\ small (snd p)) (snd g) /\
  room (map (fullp (fst g)) (snd g)) <= maxlen.
Lemma bkept_cstr : forall b hv ns ps, bkept b hv ns ps -> Forall (fun z => cstr z /\ zlen z <= 127) ns -> Forall (fun p => cstr (fst p)) ps.
Proof.
  induction 1; intros C; auto; apply Forall_cons_iff in C; destruct C as [[C1 _] C]; auto.
Qed.
Lemma room_in : forall ps p, In p ps -> 16 + zlen (fst p) + zlen (snd p) <= room ps.
Proof.
  induction ps as [|q ps IH]; intros p H; [contradiction|]. cbn [room fold_right]. fold (room ps).
  pose proof (room_pos ps). pose proof (zlen_pos (fst q)). pose proof (zlen_pos (snd q)).
  destruct H as [->|H]; [lia|]. specialize (IH p H). lia.
Qed.
Lemma kept_good : forall hv l gs, bkept_all hv l gs -> Forall good_group gs.
Proof.
  intros hv l gs K. induction K as [hv|hv b ns l gs B K1 K IH|hv b ns ps l gs B K1 N V R K IH]; auto.
  constructor; [|exact IH]. destruct B as (_ & _ & B4 & B5 & B6). unfold good_group. cbn [fst snd].
  split; [exact B4|]. split; [exact B5|]. split; [|exact R].
  pose proof (bkept_cstr _ _ _ _ K1 B6) as C. apply Forall_forall. intros [z v] Hp. rewrite Forall_forall in C.
  pose proof (C _ Hp) as Cz. cbn [fst snd] in *. split; [exact Cz|].
  pose proof (room_in (map (fullp b) ps) (fullp b (z, v)) (in_map _ _ _ Hp)) as Q. cbn [fullp fst snd] in Q.
  pose proof (zlen_pos (full b z)). pose proof (zlen_pos v). unfold small. split; lia.
Qed.
Lemma group_len : forall ps, Forall (fun p => small (fst p) /\ small (snd p)) ps -> (List.length ps <= List.length (group ps))%nat.
Proof.
  induction ps as [|q qs IH]; intros H; [cbn; lia|]. apply Forall_cons_iff in H. destruct H as [[H1 _] H]. specialize (IH H).
  unfold group. cbn [map concat]. fold (group qs). rewrite !app_length. cbn [List.length].
  pose proof (zlen_field (fst q) H1) as E. pose proof (zlen_pos (fst q)). unfold zlen in *. lia.
Qed.
Lemma good_small : forall g, good_group g -> Forall (fun p => small (fst p) /\ small (snd p)) (map (fullp (fst g)) (snd g)).
Proof.
  intros g (_ & _ & G & _). apply Forall_forall. intros q Hq. apply in_map_iff in Hq. destruct Hq as (p & <- & Hp).
  rewrite Forall_forall in G. destruct (G p Hp) as (_ & A & B). split; assumption.
Qed.
Lemma handle_groups : forall ans gs errors log, Forall good_group gs ->
  handle_all (set_one_bsd ans) (map bent gs) errors log =
  let '(l, n) := ask_groups ans log (map (fun g => map (bask (fst g)) (snd g)) gs) in PDone (errors + n) l.
Proof.
  intros ans. induction gs as [|g gs IH]; intros errors log H.
  - cbn. rewrite Z.add_0_r. reflexivity.
  - apply Forall_cons_iff in H. destruct H as [G H]. pose proof (good_small g G) as GS. destruct G as (G1 & G2 & G3 & G4).
    cbn [map handle_all]. unfold bent at 1.
    change (set_one_bsd ans META_XATTR_BSD (group (map (fullp (fst g)) (snd g))) log)
      with (do_set_xattr_bsd (S (List.length (group (map (fullp (fst g)) (snd g))))) ans (group (map (fullp (fst g)) (snd g))) log).
    rewrite set_bsd_group; auto.
    2: { pose proof (group_len _ GS) as P. rewrite map_length in P. lia. }
    cbn [ask_groups]. destruct (ask_all ans log (map (bask (fst g)) (snd g))) as [l1 ok].
    rewrite IH by auto. destruct (ask_groups ans l1 _) as [l2 n].
    destruct ok; [rewrite Z.eqb_refl; f_equal; lia|]. change (-1 =? 0) with false. cbv iota. f_equal; lia.
Qed.
Theorem roundtrip_bsd : forall k isdir l gs, acl_ok k -> bkept_all (have k isdir) l gs ->
  exists t, get_extrameta_bsd k l isdir = GGot t /\
    forall ans, set_extrameta_bsd ans (text t) = basked ans (acls k isdir) (map (fun g => map (bask (fst g)) (snd g)) gs).
Proof.
  intros k isdir l gs A K. eexists. split.
  - unfold get_extrameta_bsd. rewrite get_acl_spec by auto. apply (get_bsd_spec (have k isdir)); [exact K|].
    unfold have. destruct (acls k isdir); reflexivity.
  - intros ans. rewrite text_meta. unfold set_extrameta_bsd. pose proof (kept_good _ _ _ K) as G.
    rewrite set_whole.
    2: { apply Forall_app. split; [apply ents_ok_acls; auto|]. apply Forall_forall. intros e He. apply in_map_iff in He.
         destruct He as (g & <- & Hg). rewrite Forall_forall in G. specialize (G g Hg). pose proof (good_small g G) as GS.
         split; [unfold is_char, bent, META_XATTR_BSD; cbn [fst]; lia|]. unfold bent. cbn [snd]. unfold small.
         rewrite room_group by auto. apply G. }
    rewrite handle_app, (handle_acls ans); [|apply acl_handle_bsd|intros a Ha; apply (acls_in k isdir); auto].
    unfold basked. destruct (ask_each ans [] (acls k isdir)) as [l1 n]. rewrite Z.add_0_l.
    rewrite handle_groups by auto. reflexivity.
Qed.

(* ---------- what is lost ---------- *)
Definition k_none : kern := mkkern None None (Some 0) (Some []) (fun _ => None) (fun _ => None).
(* One attribute: only as much of its value is saved as the names are long. *)
Theorem bsd_cut : forall z v, cstr z -> 0 < zlen z <= 127 -> 1 + zlen z < zlen v ->
  let b := mkbsd (str "user") (Some (1 + zlen z)) (Some (blisting [z])) (fun y => if beqb y z then Some v else None) in
  exists t, get_extrameta_bsd k_none [b] false = GGot t /\
    set_extrameta_bsd (fun _ _ => true) (text t) =
    PDone 0 [AExt (str "user") z (firstn (Z.to_nat (1 + zlen z)) v)].
Proof.
  intros z v C [Z0 Z1] V b.
  set (b' := mkbsd (str "user") (Some (1 + zlen z)) (Some (blisting [z]))
               (fun y => if beqb y z then Some (firstn (Z.to_nat (1 + zlen z)) v) else None)).
  assert (BL : zlen (blisting [z]) = 1 + zlen z).
  { unfold blisting. cbn [map concat]. rewrite app_nil_r, zlen_cons. reflexivity. }
  assert (W : zlen (firstn (Z.to_nat (1 + zlen z)) v) = 1 + zlen z).
  { unfold zlen in *. rewrite firstn_length. lia. }
  assert (E : get_extrameta_bsd k_none [b] false = get_extrameta_bsd k_none [b'] false).
  { unfold get_extrameta_bsd. unfold b, b'. cbn [get_xattr_bsd b_len b_list].
    destruct (1 + zlen z =? 0); [reflexivity|]. rewrite BL. unfold blisting. cbn [map concat]. rewrite app_nil_r.
    change (get_acl k_none false) with (@None bytes). cbv iota beta. cbn [List.length bsd_names b_name b_val].
    destruct (schar (zlen z) <? 0); [reflexivity|].
    pose proof (first_name z []) as FN. rewrite app_nil_r in FN. rewrite FN, (cview_id z), beqb_refl by auto. cbn [andb].
    pose proof (skip_app z []) as SN. rewrite app_nil_r in SN. rewrite SN.
    rewrite (firstn_all2 (firstn _ v)) by (unfold zlen in W |- *; lia). reflexivity. }
  assert (KK : bkept_all false [b'] [(b', [(z, firstn (Z.to_nat (1 + zlen z)) v)])]).
  { apply (ball_some false b' [z]).
    - split; [exists (1 + zlen z); split; [reflexivity|split; [lia|discriminate]]|].
      split; [reflexivity|]. split; [apply cstrb_ok; reflexivity|]. split; [cbn; unfold dot; intros [H|[H|[H|[H|[]]]]]; discriminate H|].
      constructor; [|constructor]. split; [exact C|lia].
    - apply bkept_val; [left; reflexivity| |constructor]. unfold b'; cbn [b_val]. rewrite beqb_refl. reflexivity.
    - discriminate.
    - constructor; [|constructor]. cbn [snd]. rewrite W, BL. lia.
    - cbn [map room fold_right]. unfold fullp. cbn [fst snd]. rewrite W. unfold full. rewrite zlen_app, zlen_cons.
      change (zlen (b_name b')) with 4. unfold maxlen. lia.
    - constructor. }
  destruct (roundtrip_bsd k_none false [b'] _ ltac:(split; intros a H; discriminate H) KK) as (t & G & S).
  exists t. rewrite E. split; [exact G|]. rewrite S. cbn [map fst snd]. unfold basked. cbn [ask_each acls k_none k_acc app].
  reflexivity.
Qed.
(* A name of 128 bytes or more: memory is overwritten. *)
Theorem bsd_long_name : forall k b isdir c r, b_len b = Some (1 + zlen r) -> b_list b = Some (c :: r) -> 128 <= c <= 255 ->
  get_extrameta_bsd k [b] isdir = GUB.
Proof.
  intros k b isdir c r H1 H2 H3. unfold get_extrameta_bsd. cbn [get_xattr_bsd]. rewrite H1, H2. pose proof (zlen_pos r).
  destruct (Z.eqb_spec (1 + zlen r) 0); [lia|]. cbn [List.length bsd_names]. unfold schar.
  replace (c <? 128) with false by lia. replace (c - 256 <? 0) with true by lia. reflexivity.
Qed.
