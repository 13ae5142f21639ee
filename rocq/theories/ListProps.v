(* Properties C51, C59. *)
From Coq Require Import Sorting.Sorted.
From Verif Require Import Bytes PathcmpModel PathcmpProofs CmdModel CmdProofs AttribsModel AttribsProofs FrameModel
  SbufModel SbufProofs MergeModel MergeProofs DpthModel BuModel RestoreModel Phase2Model ListModel ListProofs.

(* A manifest to look at.  The directory b has no entry of its own. *)
Definition at_ (mode : Z) : attrs := mkattrs 64769 1 mode 1 1000 1000 0 10 4096 8 1600000000 1600000000 1600000000 0 (-1) 0 0 1.
Definition mk (c : Z) (p : string) (mode : Z) : ent :=
  mkent (mksbuf (buf c (str p)) (mkiobuf CMD_ATTRIBS (attribs_encode (at_ mode)))
           (if cmd_is_link c then buf c (str "/x") else nobuf) nobuf (mkiobuf 116 None) false false) (at_ mode).
Definition man : list ent :=
  [mk 100 "/" 16877; mk 100 "/home" 16877; mk 109 "/home" 16877; mk 102 "/home/a" 33188;
   mk 102 "/home/b/c" 33188; mk 102 "/home/b/d/e" 33188; mk 108 "/home/b-x" 41471; mk 100 "/homes" 16877].

Definition okb (e : ent) : bool :=
  match ibuf (e_path e) with
  | Some s => cstrb s && negb (has_dot_component s) && negb (beqb s [])
  | None => false
  end.
Fixpoint sortedb (l : list ent) : bool :=
  match l with
  | a :: ((b :: _) as l') => (sbuf_pathcmp (e_sb a) (e_sb b) <? 0) && sortedb l'
  | _ => true
  end.
Lemma man_ok : manifest_ok man.
Proof.
  split.
  - apply Forall_forall. intros e I.
    assert (K : forallb okb man = true) by (vm_compute; reflexivity).
    rewrite forallb_forall in K. specialize (K e I). unfold okb in K.
    destruct (ibuf (e_path e)) as [s|]; [|discriminate]. exists s. split; [reflexivity|].
    apply andb_true_iff in K. destruct K as [K _]. apply andb_true_iff in K. destruct K as [K1 K2].
    apply cstrb_ok in K1. split; [apply cstr_raw; exact K1|]. apply negb_true_iff in K2.
    pose proof (has_dot_component_exact s K1) as X. unfold no_dots. rewrite cview_cstr_id by exact K1.
    apply not_true_iff_false in K2. tauto.
  - assert (R : Forall (fun x => iraw (s_path x)) (map e_sb man)).
    { apply Forall_forall. intros x I. apply in_map_iff in I. destruct I as (e & <- & I).
      assert (K : forallb okb man = true) by (vm_compute; reflexivity).
      rewrite forallb_forall in K. specialize (K e I). unfold okb in K. unfold iraw. unfold e_path in K.
      destruct (ibuf (s_path (e_sb e))) as [s|]; [|exact Logic.I].
      apply andb_true_iff in K. destruct K as [K _]. apply andb_true_iff in K. destruct K as [K1 _].
      apply cstr_raw. apply cstrb_ok. exact K1. }
    assert (M : nomix (map e_sb man)).
    { left. intros x I. apply in_map_iff in I. destruct I as (e & <- & I).
      repeat (destruct I as [<-|I]; [vm_compute; discriminate|]); destruct I. }
    assert (P : forall a b, In a man -> In b man -> sbuf_pathcmp (e_sb a) (e_sb b) <? 0 = true -> ent_lt (e_sb a) (e_sb b)).
    { intros a b Ia Ib L. apply Z.ltb_lt in L.
      apply (proj1 (ents_ok_pair (map e_sb man) _ _ (conj R M) (in_map _ _ _ Ia) (in_map _ _ _ Ib))). exact L. }
    unfold man in *.
    repeat (constructor; [|repeat (constructor; [apply P; [cbn; tauto|cbn; tauto|vm_compute; reflexivity]|]); constructor]).
    constructor.
Qed.
Lemma man_faithful : Forall faithful man.
Proof.
  unfold man.
  assert (K : forall c p m, 0 <= m < 2 ^ 32 -> faithful (mk c p m)).
  { intros c p m H. assert (OK : attrs_ok (at_ m)) by (unfold attrs_ok, AttribsProofs.u64, i64, u32, i32, at_; cbn; lia).
    split; [exact OK|]. split; [reflexivity|].
    destruct (attribs_roundtrip (at_ m) (at_ m) OK) as (s & E & C & _).
    exists s. split; [exact E|]. intros old. rewrite cview_cstr_id by exact C.
    destruct (attribs_roundtrip (at_ m) old OK) as (s2 & E2 & _ & _ & D). rewrite E in E2. injection E2 as E2. rewrite E2. exact D. }
  repeat (constructor; [apply K; lia|]). constructor.
Qed.
Lemma man_paths : Forall (fun e => epath e <> []) man.
Proof. unfold man. repeat (constructor; [vm_compute; discriminate|]). constructor. Qed.

(* ---------- C51 ---------- *)

Theorem C51_name : forall bd p n, name_of bd p = Some n <-> child bd p n.
Proof. exact name_of_child. Qed.
Print Assumptions C51_name.

Theorem C51_browse_partial : forall bd rx es stop,
  manifest_ok es -> Forall (fun e => epath e <> []) es -> Forall faithful es ->
  exists items outs, dir_items bd es items /\
    Forall2 (item_msgs bd) (filter (fun it => accepts rx (snd it)) items) outs /\
    list_manifest (Some bd) rx None es stop =
      (List.concat outs ++ match stop with MErr => [] | MEnd => not_found bd items end,
       match stop with MEnd => true | MErr => false end).
Proof. exact browse_listing. Qed.
Print Assumptions C51_browse_partial.

Example C51_witness :
  manifest_ok man /\ Forall (fun e => epath e <> []) man /\ Forall faithful man /\
  map snd (picks (str "/home") None man) = [str "."; str "a"; str "b"; str "b-x"] /\
  map (fun it => marksb (str "/home") (fst it)) (picks (str "/home") None man) = [true; false; true; false] /\
  map snd (picks (str "/") None man) = [str "."; str "home"; str "homes"] /\
  map snd (picks [] None man) = [str "/"] /\
  map snd (picks (str "/home/b") None man) = [str "c"; str "d"] /\
  list_manifest (Some (str "/hom")) None None man MEnd = ([LMsg (CMD_ERROR, str "directory not found")], true).
Proof.
  split; [exact man_ok|]. split; [exact man_paths|]. split; [exact man_faithful|].
  repeat split; vm_compute; reflexivity.
Qed.

Theorem C51_full_listing : forall rx es stop,
  list_manifest None rx None es stop =
  (flat_map (fun e => send_iobuf (s_attr (e_sb e)) :: send_iobuf (e_path e)
                      :: if cmd_is_link (e_cmd e) then [send_iobuf (s_link (e_sb e))] else [])
     (filter (fun e => negb (cmd_is_metadata (e_cmd e)) && accepts rx (epath e)) es),
   match stop with MEnd => true | MErr => false end).
Proof. exact full_listing. Qed.
Print Assumptions C51_full_listing.

Example C51_full_witness : List.length (fst (list_manifest None None None man MEnd)) = 15%nat.
Proof. vm_compute. reflexivity. Qed.

(* What is sent besides the names: memory of the server. *)
Theorem C51_overreads : forall bd es stop e,
  (3 <= List.length bd)%nat -> In e es -> shown e -> (exists n, child bd (epath e) n) ->
  exists c n k, In (LOver c n k) (fst (list_manifest (Some bd) None None es stop)) /\ (S (List.length n) < k)%nat.
Proof. exact browse_overreads. Qed.
Print Assumptions C51_overreads.

Theorem C51_bytes_refuted : exists bd es, manifest_ok es /\ Forall faithful es /\
  exists c n k, In (LOver c n k) (fst (list_manifest (Some bd) None None es MEnd)) /\ (S (List.length n) < k)%nat.
Proof.
  exists (str "/home"), man. split; [exact man_ok|]. split; [exact man_faithful|].
  apply (browse_overreads (str "/home") man MEnd (mk 102 "/home/a" 33188)).
  - vm_compute. lia.
  - unfold man. do 3 right. left. reflexivity.
  - vm_compute. reflexivity.
  - exists (str "a"). apply name_of_child. vm_compute. reflexivity.
Qed.
Print Assumptions C51_bytes_refuted.

(* A directory that is only known from a link in it is sent as a link. *)
Theorem C51_link_refuted : exists bd e n, manifest_ok [e] /\ faithful e /\ shown e /\ marks bd e /\
  child bd (epath e) n /\
  exists a b t, fst (list_manifest (Some bd) None None [e] MEnd) = [LMsg (CMD_ATTRIBS, a); LOver CMD_SOFT_LINK n b; LMsg (CMD_SOFT_LINK, t)].
Proof.
  exists (str "/home"), (mk 108 "/home/b/l" 41471), (str "b").
  assert (F : faithful (mk 108 "/home/b/l" 41471)).
  { assert (OK : attrs_ok (at_ 41471)) by (unfold attrs_ok, AttribsProofs.u64, i64, u32, i32, at_; cbn; lia).
    split; [exact OK|]. split; [reflexivity|].
    destruct (attribs_roundtrip (at_ 41471) (at_ 41471) OK) as (s & E & C & _).
    exists s. split; [exact E|]. intros old. rewrite cview_cstr_id by exact C.
    destruct (attribs_roundtrip (at_ 41471) old OK) as (s2 & E2 & _ & _ & D). rewrite E in E2. injection E2 as E2. rewrite E2. exact D. }
  assert (C : child (str "/home") (epath (mk 108 "/home/b/l" 41471)) (str "b")) by (apply name_of_child; vm_compute; reflexivity).
  split.
  { split; [|constructor; constructor]. constructor; [|constructor].
    exists (str "/home/b/l"). split; [reflexivity|]. assert (CS : cstr (str "/home/b/l")) by (apply cstrb_ok; vm_compute; reflexivity).
    split; [apply cstr_raw; exact CS|]. unfold no_dots. rewrite cview_cstr_id by exact CS.
    pose proof (has_dot_component_exact _ CS) as X. change (has_dot_component (str "/home/b/l")) with false in X.
    assert (~ (false = true)) by discriminate. tauto. }
  split; [exact F|]. split; [vm_compute; reflexivity|]. split.
  { apply (marksb_spec _ _ _ C). vm_compute. reflexivity. }
  split; [exact C|]. eexists. eexists. eexists. vm_compute. reflexivity.
Qed.
Print Assumptions C51_link_refuted.

(* ---------- C59 ---------- *)

Theorem C59_number : forall cb backup rx bd l, backups_ok l -> 0 < strtoul10 backup ->
  (forall b, In b l -> v_bno b = strtoul10 backup ->
     listing cb backup rx bd l = (heading b :: fst (cb b), snd (cb b))) /\
  ((forall b, In b l -> v_bno b <> strtoul10 backup) ->
     listing cb backup rx bd l = ([said (str "backup not found")], false)).
Proof. exact listing_number. Qed.
Print Assumptions C59_number.

Theorem C59_current : forall cb r rx bd l, backups_ok l ->
  (forall b, In b l -> v_current b = true -> (forall x, In x l -> v_current x = true -> x = b) ->
     listing cb (99 :: r) rx bd l = (heading b :: fst (cb b), snd (cb b))) /\
  ((forall b, In b l -> v_current b = false) ->
     listing cb (99 :: r) rx bd l = ([said (str "backup not found")], false)).
Proof. exact listing_current. Qed.
Print Assumptions C59_current.

Theorem C59_all : forall cb backup rx bd l,
  (exists r, backup = 97 :: r) \/ (backup = [] /\ rx || bd = true) ->
  listing cb backup rx bd l =
    match l with [] => ([said (str "backup not found")], false) | _ => each cb l end.
Proof. exact listing_all. Qed.
Print Assumptions C59_all.

Theorem C59_backups : forall cb l,
  listing cb [] false false l =
    (match l with [] => [said (str "no backups")] | _ => map heading l end, true).
Proof. exact listing_backups. Qed.
Print Assumptions C59_backups.

Theorem C59_other : forall cb c r rx bd l, backups_ok l ->
  strtoul10 (c :: r) = 0 -> c <> 99 -> c <> 97 ->
  listing cb (c :: r) rx bd l = ([said (str "backup not found")], false).
Proof. exact listing_other. Qed.
Print Assumptions C59_other.

Definition b1 := mklbu (str "0000001 2020-01-01 10:00:00 +0000") 1 false false true false.
Definition b2 := mklbu (str "0000002 2020-01-02 10:00:00 +0000") 2 false false false true.
Definition b3 := mklbu (str "0000003 2020-01-03 10:00:00 +0000") 3 true false false false.
Example C59_witness :
  backups_ok [b1; b2; b3] /\
  (let cb := fun b => ([said (v_stamp b)], true) in
   listing cb (str "3") false true [b1; b2; b3] =
     ([LMsg (CMD_TIMESTAMP, str "0000003 2020-01-03 10:00:00 +0000 (working)"); said (v_stamp b3)], true) /\
   listing cb (str "current") false true [b1; b2; b3] = ([heading b2; said (v_stamp b2)], true) /\
   listing cb (str "0000001 2020-01-01 10:00:00 +0000") false false [b1; b2; b3] =
     ([LMsg (CMD_TIMESTAMP, str "0000001 2020-01-01 10:00:00 +0000 (deletable)"); said (v_stamp b1)], true) /\
   listing cb (str "all") false false [b1; b2] = ([heading b1; said (v_stamp b1); heading b2; said (v_stamp b2)], true) /\
   listing cb (str "4") false false [b1; b2] = ([said (str "backup not found")], false) /\
   listing cb (str "x4") false false [b1; b2] = ([said (str "backup not found")], false)).
Proof.
  split; [|repeat split; vm_compute; reflexivity]. split.
  - repeat (constructor; [split; [vm_compute; reflexivity|cbn; lia]|]). constructor.
  - cbn [map]. repeat constructor; cbn; intuition discriminate.
Qed.
