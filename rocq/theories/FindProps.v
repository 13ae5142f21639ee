(* C39, C40, C56, C57: what the client's scan lists. *)
From Coq Require Import Sorting.Sorted.
From Verif Require Import Bytes PathcmpModel PathcmpProofs CmdModel CmdProofs LinkModel FindModel FindProofs.

(* C39: the longest configured directory over a path decides, if the filters let
   the path through. *)
Theorem C39_longest_decides_partial : forall c p e, dirs_ok c -> cstr p -> longest_containing (c_dirs c) p e ->
  file_is_included_no_incext c p = negb (filtered c p) && snd e.
Proof. exact included_longest. Qed.
(* There is only one such directory. *)
Theorem C39_longest_unique : forall dirs p e e', StronglySorted path_lt (map fst dirs) ->
  longest_containing dirs p e -> longest_containing dirs p e' -> e = e'.
Proof. exact longest_unique. Qed.
(* Everything a scan lists is below a configured directory, the longest one
   includes it, and no filter leaves it out. *)
Theorem C39_listed_is_included_partial : forall incs excs starts c f fuel, configured incs excs (c_dirs c) starts ->
  Forall one_slash incs -> names_ok f ->
  forall cmd p link, In (Entry cmd p link) (fst (backup_phase1_client c f fuel starts)) ->
  exists e, longest_containing (c_dirs c) p e /\ snd e = true /\ filtered c p = false.
Proof. exact scanned_included. Qed.
(* What a list of extensions matches: names that end in '.' and one of its
   items, which has no '.' in it. *)
Theorem C39_extensions : forall items p, ext_match (set_max_ext items) p = true <-> has_ext items p.
Proof. exact ext_match_spec. Qed.
(* What the filters leave out. *)
Theorem C39_filters : forall c p items, c_excext c = set_max_ext items ->
  filtered c p = true <->
  has_ext items p \/ (exists r, In r (c_excreg c) /\ c_re c r p = true) \/
  (c_increg c <> [] /\ forall r, In r (c_increg c) -> c_re c r p = false).
Proof. exact filtered_iff. Qed.
(* What a list of extensions to include lets through. *)
Theorem C39_include_extensions : forall items p, in_include_ext (set_max_ext items) p = true <-> items = [] \/ has_ext items p.
Proof. exact include_ext_iff. Qed.

(* C40: the list of a scan is strictly increasing. *)
Theorem C40_in_order_partial : forall incs excs starts c f fuel, configured incs excs (c_dirs c) starts ->
  Forall one_slash incs -> names_ok f -> no_fs_limits c f -> not_nested c ->
  StronglySorted entry_lt (listed (fst (backup_phase1_client c f fuel starts))).
Proof. exact scan_sorted. Qed.
(* Without filters, not_nested is about the configured directories alone. *)
Theorem C40_not_nested : forall incs excs starts c, configured incs excs (c_dirs c) starts ->
  Forall one_slash incs -> Forall one_slash excs -> nested_free (c_dirs c) = true -> (forall p, filtered c p = false) -> not_nested c.
Proof. exact nested_free_ok. Qed.

(* C56: whatever is listed was reached from a starting directory and the filters
   let it through, and it is listed as what it is; only for something whose
   details could not be read may it be a hard link. *)
Theorem C56_only_wanted_partial : forall incs excs starts c f fuel, configured incs excs (c_dirs c) starts -> names_ok f ->
  forall cmd p link, In (Entry cmd p link) (fst (backup_phase1_client c f fuel starts)) ->
  exists d, In (d, true) starts /\ said c f true d cmd p link.
Proof. exact scan_sound. Qed.
(* When a scan succeeds, everything that can be reached and that is wanted is in
   the list. *)
Theorem C56_all_wanted_partial : forall incs excs starts c f fuel l, configured incs excs (c_dirs c) starts ->
  Forall one_slash incs -> names_ok f -> no_fs_limits c f -> not_nested c -> crossable c f ->
  backup_phase1_client c f fuel starts = (l, Ok) ->
  forall d p x, In (d, true) starts -> visits c f d p -> lstat f p = Some x -> wanted c f p x ->
  (p = d /\ file_is_included c p true = true) \/ file_is_included c p false = true ->
  exists cmd link, In (Entry cmd p link) l /\ cmd <> metasymbol c.
Proof. exact scan_complete. Qed.

(* C57: every hard link in the list is to the same file, which is in the list
   before it and not as a hard link. *)
Theorem C57_links_lead_back_partial : forall incs excs starts c f fuel, configured incs excs (c_dirs c) starts -> names_ok f ->
  (forall d p, In (d, true) starts -> visits c f d p -> lstat f p <> None) ->
  backed c f (fst (backup_phase1_client c f fuel starts)).
Proof. exact scan_backed. Qed.

(* ---------- a file system to look at ---------- *)
Fixpoint get {A : Type} (l : list (bytes * A)) (p : bytes) : option A :=
  match l with [] => None | (q, x) :: r => if beqb q p then Some x else get r p end.
Definition fs_of (stats : list (bytes * stat)) (dirs : list (bytes * list bytes)) : fsys :=
  mkfs (get stats) (fun d => match get dirs d with Some l => Names l | None => NoOpen end)
       (fun p => Some (str "target")) (fun _ => false) (fun _ => false).
Definition no_ext : exts := mkexts 0 [].
Definition conf_of (dirs : list ent) : conf :=
  mkconf dirs no_ext no_ext [] [] (fun _ _ => false) (fun _ _ => false) 0 0 [] true [] false [] false [] false false
    (fun _ _ => false) false (fun _ => false).
Definition dir (i : Z) : stat := mkstat 1 i 2 MDir 4096.
Definition reg (i n : Z) : stat := mkstat 1 i n MReg 10.
Definition lnk (i : Z) : stat := mkstat 1 i 1 MLnk 6.

Definition ex_stats : list (bytes * stat) :=
  [(str "/a", dir 2); (str "/a/b", dir 3); (str "/a/b/c", dir 4); (str "/a/b/c/k", reg 10 1); (str "/a/b/x", reg 11 1);
   (str "/a/d", dir 5); (str "/a/d/h", reg 12 1); (str "/a/f", reg 13 2); (str "/a/g", reg 13 2); (str "/a/l", lnk 14)].
Definition ex_list : list (bytes * list bytes) :=
  [(str "/a", [str "l"; str "."; str "g"; str ".."; str "b"; str "f"; str "d"]); (str "/a/b", [str "x"; str "c"]);
   (str "/a/b/c", [str "k"]); (str "/a/d", [str "h"])].
Definition ex_fs : fsys := fs_of ex_stats ex_list.
Definition ex_incs : list bytes := [str "/a/b/c"; str "/a"].
Definition ex_excs : list bytes := [str "/a/b"].
Definition ex_dirs : list ent := [(str "/a", true); (str "/a/b", false); (str "/a/b/c", true)].
Definition ex_starts : list ent := [(str "/a", true)].
Definition ex_conf : conf := conf_of ex_dirs.

Example ex_configured : configured ex_incs ex_excs (c_dirs ex_conf) ex_starts /\ Forall one_slash ex_incs /\ Forall one_slash ex_excs.
Proof.
  split; [split; [|split; [|split]]; try (apply Forall_cstrb; vm_compute; reflexivity); vm_compute; reflexivity|].
  assert (O : forall p, (last p 0 =? slash) = false -> one_slash p).
  { intros p H s ->. revert H. change [slash; slash] with ([slash] ++ [slash]). rewrite app_assoc, last_last. discriminate. }
  split; repeat constructor; apply O; vm_compute; reflexivity.
Qed.

Lemma get_in : forall (A : Type) (l : list (bytes * A)) p x, get l p = Some x -> In (p, x) l.
Proof.
  intros A l p x H. induction l as [|[q y] l IH]; cbn in H; [discriminate|].
  destruct (beqb q p) eqn:E; [apply beqb_eq in E; subst; injection H as ->; left; reflexivity|right; apply IH; exact H].
Qed.
Lemma fs_of_names : forall stats dirs, Forall (fun e => NoDup (snd e) /\ Forall (fun n => cstr n /\ n <> [] /\ ~ In slash n) (snd e)) dirs ->
  names_ok (fs_of stats dirs).
Proof.
  intros stats dirs F d l H. cbn in H. induction dirs as [|[q x] r IH]; cbn in H; [discriminate|].
  inversion F as [|? ? A F']; subst. destruct (beqb q d); [injection H as <-; exact A|apply IH; auto].
Qed.
Definition nodupb (l : list bytes) : bool := forallb (fun i => forallb (fun j => (i =? j)%nat || negb (beqb (nth i l []) (nth j l []))) (seq 0 (List.length l))) (seq 0 (List.length l)).
Lemma nodupb_ok : forall l, nodupb l = true -> NoDup l.
Proof.
  intros l H. apply (proj2 (NoDup_nth l [])). intros i j Hi Hj E. unfold nodupb in H. rewrite forallb_forall in H.
  assert (Ii : In i (seq 0 (List.length l))) by (apply in_seq; lia). specialize (H i Ii). rewrite forallb_forall in H.
  assert (Ij : In j (seq 0 (List.length l))) by (apply in_seq; lia). specialize (H j Ij).
  apply orb_true_iff in H. destruct H as [H|H]; [apply Nat.eqb_eq; exact H|]. apply negb_true_iff, beqb_neq in H. contradiction.
Qed.
Definition nameb (n : bytes) : bool := cstrb n && negb (beqb n []) && forallb (fun c => negb (c =? slash)) n.
Lemma nameb_ok : forall n, nameb n = true -> cstr n /\ n <> [] /\ ~ In slash n.
Proof.
  intros n H. unfold nameb in H. apply andb_true_iff in H. destruct H as [H H3]. apply andb_true_iff in H. destruct H as [H1 H2].
  split; [apply cstrb_ok; exact H1|]. split; [apply negb_true_iff, beqb_neq in H2; exact H2|].
  intros I. rewrite forallb_forall in H3. specialize (H3 _ I). rewrite Z.eqb_refl in H3. discriminate.
Qed.
Lemma fs_names : forall stats dirs, forallb (fun e => nodupb (snd e) && forallb nameb (snd e)) dirs = true -> names_ok (fs_of stats dirs).
Proof.
  intros stats dirs H. apply fs_of_names. apply Forall_forall. intros e He. rewrite forallb_forall in H. specialize (H e He).
  apply andb_true_iff in H. destruct H as [H1 H2]. split; [apply nodupb_ok; exact H1|]. apply Forall_forall. intros n Hn. rewrite forallb_forall in H2.
  apply nameb_ok; auto.
Qed.
Example ex_names : names_ok ex_fs.
Proof. apply fs_names. vm_compute. reflexivity. Qed.
Example ex_limits : no_fs_limits ex_conf ex_fs.
Proof. intros p. split; [reflexivity|discriminate]. Qed.
Example ex_not_nested : not_nested ex_conf.
Proof.
  destruct ex_configured as [A [B C]]. apply (C40_not_nested _ _ _ _ A B C); [vm_compute; reflexivity|]. intros p. reflexivity.
Qed.
(* The whole list. *)
Example ex_C40_list : backup_phase1_client ex_conf ex_fs 10 ex_starts =
  ([Entry CMD_DIRECTORY (str "/a") None; Entry CMD_DIRECTORY (str "/a/b/c") None; Entry CMD_FILE (str "/a/b/c/k") None;
    Entry CMD_DIRECTORY (str "/a/d") None; Entry CMD_FILE (str "/a/d/h") None; Entry CMD_FILE (str "/a/f") None;
    Entry CMD_HARD_LINK (str "/a/g") (Some (str "/a/f")); Entry CMD_SOFT_LINK (str "/a/l") (Some (str "target"))], Ok).
Proof. vm_compute. reflexivity. Qed.
Example ex_C40 : StronglySorted entry_lt (listed (fst (backup_phase1_client ex_conf ex_fs 10 ex_starts))) /\
  List.length (listed (fst (backup_phase1_client ex_conf ex_fs 10 ex_starts))) = 8%nat.
Proof.
  split; [|vm_compute; reflexivity]. destruct ex_configured as [A [B _]].
  eapply C40_in_order_partial; [exact A|exact B|exact ex_names|exact ex_limits|exact ex_not_nested].
Qed.
Example ex_C39 : longest_containing ex_dirs (str "/a/b/x") (str "/a/b", false) /\ dirs_ok ex_conf /\ cstr (str "/a/b/x") /\
  file_is_included_no_incext ex_conf (str "/a/b/x") = false.
Proof.
  assert (D : dirs_ok ex_conf) by (destruct ex_configured as [A _]; destruct (configured_spec _ _ _ _ A) as [S [C _]]; split; assumption).
  split; [|split; [exact D|split; [apply cstrb_ok|]; vm_compute; reflexivity]].
  destruct (best_is_longest ex_dirs (str "/a/b/x") (proj1 D) (proj2 D)) as [e [E L]].
  - apply cstrb_ok. reflexivity.
  - exists (str "/a/b", false). split; [right; left; reflexivity|]. right; left. exists (str "x"). reflexivity.
  - vm_compute in E. injection E as <-. exact L.
Qed.
(* /a/b/c/k is reached although /a/b is left out. *)
Example ex_C56 : visits ex_conf ex_fs (str "/a") (str "/a/b/c/k") /\ lstat ex_fs (str "/a/b/c/k") = Some (reg 10 1) /\
  wanted ex_conf ex_fs (str "/a/b/c/k") (reg 10 1) /\ file_is_included ex_conf (str "/a/b/c/k") false = true.
Proof.
  split; [|split; [vm_compute; reflexivity|split; [|vm_compute; reflexivity]]].
  - eapply v_step with (b := str "/a/b/c").
    + exists [str "l"; str "."; str "g"; str ".."; str "b"; str "f"; str "d"], (str "b").
      split; [split; [exists (dir 2); split; reflexivity|split; [intros n []|vm_compute; reflexivity]]|].
      split; [do 4 right; left; reflexivity|]. split; [discriminate|]. split; [discriminate|]. right.
      split; [vm_compute; reflexivity|]. split; [do 2 right; left; reflexivity|]. right; left. exists (str "c"). reflexivity.
    + eapply v_step; [|constructor]. exists [str "k"], (str "k").
      split; [split; [exists (dir 4); split; reflexivity|split; [intros n []|vm_compute; reflexivity]]|].
      split; [left; reflexivity|]. split; [discriminate|]. split; [discriminate|]. left. split; vm_compute; reflexivity.
  - split; [reflexivity|]. split; [intros _; split; left; reflexivity|discriminate].
Qed.
Example ex_crossable : crossable ex_conf ex_fs.
Proof. intros a b x y _ _ _ _. right; left. reflexivity. Qed.
Example ex_C56_wanted : exists cmd link, In (Entry cmd (str "/a/b/c/k") link) (fst (backup_phase1_client ex_conf ex_fs 10 ex_starts)) /\ cmd <> metasymbol ex_conf.
Proof.
  destruct ex_configured as [A [B _]]. destruct ex_C56 as [V [L [W I]]].
  eapply (C56_all_wanted_partial _ _ _ ex_conf ex_fs 10 _ A B ex_names ex_limits ex_not_nested ex_crossable); [rewrite ex_C40_list; reflexivity|left; reflexivity|exact V|exact L|exact W|right; exact I].
Qed.
(* In ex_fs everything that is reached can be looked at. *)
Example ex_C57 : backed ex_conf ex_fs (fst (backup_phase1_client ex_conf ex_fs 10 ex_starts)).
Proof.
  destruct ex_configured as [A _]. eapply C57_links_lead_back_partial; [exact A|exact ex_names|].
  assert (D : dirs_ok ex_conf) by (destruct (configured_spec _ _ _ _ A) as [S [C _]]; split; assumption).
  intros d p [Hd|[]] V. injection Hd as <-. assert (E : lstat ex_fs (str "/a") <> None) by discriminate. revert E. clear D A.
  induction V as [a|a b p S V IH]; intros E; [exact E|]. apply IH.
  destruct S as [l [n [[_ [_ R]] [Hn [D1 [D2 S]]]]]].
  assert (Ra : In (a, l) ex_list).
  { cbn [readdir ex_fs fs_of] in R. destruct (get ex_list a) as [l'|] eqn:G; [|discriminate]. injection R as ->. apply get_in; exact G. }
  destruct S as [[_ ->]|[_ [Hb _]]].
  - destruct Ra as [Ra|[Ra|[Ra|[Ra|[]]]]]; injection Ra as <- <-; cbn [In] in Hn;
      repeat (destruct Hn as [<-|Hn]; [first [discriminate | contradiction]|]); contradiction.
  - destruct Hb as [Hb|[Hb|[Hb|[]]]]; injection Hb as <-; discriminate.
Qed.

Example ex_C39_filters :
  let c := mkconf ex_dirs no_ext (set_max_ext [str "bak"; str "o"]) [str "x"] [str "y"] (fun r p => beqb r p) (fun _ _ => false) 0 0 [] true [] false [] false [] false false
    (fun _ _ => false) false (fun _ => false) in
  filtered c (str "x") = false /\ filtered c (str "x.BAK") = true /\ filtered c (str "y") = true /\ filtered c (str "z") = true /\
  in_include_ext (set_max_ext [str "bak"; str "o"]) (str "a.O") = true /\ in_include_ext (set_max_ext [str "bak"; str "o"]) (str "a.c") = false.
Proof. cbv zeta. repeat (split; [vm_compute; reflexivity|]). vm_compute; reflexivity. Qed.

(* ---------- where the claims fail ---------- *)
(* C39: a path in no configured directory gets the last one's word. *)
Theorem C39_outside_refuted : exists c p, dirs_ok c /\ cstr p /\ (forall e, In e (c_dirs c) -> ~ beneath (fst e) p) /\
  file_is_included_no_incext c p = true.
Proof.
  exists (conf_of [(str "/a", true)]), (str "/z"). split; [split; [cbn; constructor; constructor|constructor; [apply cstrb_ok; reflexivity|constructor]]|].
  split; [apply cstrb_ok; reflexivity|]. split; [|vm_compute; reflexivity].
  intros e [<-|[]] B. destruct (is_subdir_s_spec (str "/a") (str "/z")) as [[_ E]|[N _]]; try (apply cstrb_ok; reflexivity); [|exact (N B)].
  vm_compute in E. discriminate.
Qed.
(* C39: an extension with a '.' in it never matches. *)
Theorem C39_dotted_refuted : forall items p, (forall i, In i items -> In dot i) -> ext_match (set_max_ext items) p = false.
Proof.
  intros items p H. destruct (ext_match (set_max_ext items) p) eqn:E; [|reflexivity]. exfalso.
  apply ext_match_spec in E. destruct E as [base [e [i [E1 [E2 [I1 I2]]]]]]. specialize (H i I1).
  apply E2. unfold AuthModel.strlwr in I2. clear -H I2. revert e I2. induction i as [|x i IH]; intros e I2; [contradiction|].
  destruct e as [|y e]; [discriminate|]. cbn in I2. injection I2 as I3 I4. destruct H as [->|H]; [|right; apply IH; auto].
  left. revert I3. unfold AuthModel.tolower, dot. change ((65 <=? 46) && (46 <=? 90)) with false. cbv iota.
  destruct ((65 <=? y) && (y <=? 90)) eqn:Q; [|intros; congruence]. apply andb_true_iff in Q. destruct Q as [Q _]. apply Z.leb_le in Q. intros Q2. exfalso. clear -Q Q2. lia.
Qed.

Definition twice (l : list report) (p : bytes) : Prop :=
  exists l1 l2 l3 cmd link cmd' link', l = l1 ++ Entry cmd p link :: l2 ++ Entry cmd' p link' :: l3 /\ cmd <> CMD_METADATA /\ cmd' <> CMD_METADATA.
(* C40: a directory to include below another one, below one to exclude, is
   listed twice. *)
Theorem C40_nested_refuted : exists incs excs starts c f l, configured incs excs (c_dirs c) starts /\ names_ok f /\ no_fs_limits c f /\
  backup_phase1_client c f 10 starts = (l, Ok) /\ twice l (str "/a/b/c/d").
Proof.
  exists [str "/a"; str "/a/b/c"; str "/a/b/c/d"], [str "/a/b"], [(str "/a", true)],
    (conf_of [(str "/a", true); (str "/a/b", false); (str "/a/b/c", true); (str "/a/b/c/d", true)]),
    (fs_of [(str "/a", dir 2); (str "/a/b", dir 3); (str "/a/b/c", dir 4); (str "/a/b/c/d", dir 5)]
           [(str "/a", [str "b"]); (str "/a/b", [str "c"]); (str "/a/b/c", [str "d"]); (str "/a/b/c/d", [])]).
  eexists. split; [split; [|split; [|split]]; try (apply Forall_cstrb; vm_compute; reflexivity); vm_compute; reflexivity|].
  split; [apply fs_names; vm_compute; reflexivity|]. split; [split; [reflexivity|discriminate]|]. split; [vm_compute; reflexivity|].
  exists [Entry CMD_DIRECTORY (str "/a") None; Entry CMD_DIRECTORY (str "/a/b/c") None], [], [], CMD_DIRECTORY, None, CMD_DIRECTORY, None.
  split; [reflexivity|]. split; discriminate.
Qed.
(* C40: a starting directory on a kind of file system that is to be excluded. *)
Theorem C40_filesystem_refuted : exists incs excs starts c f l, configured incs excs (c_dirs c) starts /\ Forall one_slash incs /\ names_ok f /\ not_nested c /\
  backup_phase1_client c f 10 starts = (l, Ok) /\ twice l (str "/a").
Proof.
  exists [str "/a"], [], [(str "/a", true)], (conf_of [(str "/a", true)]),
    (mkfs (get [(str "/a", dir 2)]) (fun _ => NoOpen) (fun _ => None) (fun _ => true) (fun _ => false)).
  assert (A : configured [str "/a"] [] (c_dirs (conf_of [(str "/a", true)])) [(str "/a", true)]).
  { split; [|split; [|split]]; try (apply Forall_cstrb; vm_compute; reflexivity); vm_compute; reflexivity. }
  assert (B : Forall one_slash [str "/a"]).
  { constructor; [|constructor]. intros s E. destruct ex_configured as [_ [O _]]. inversion O as [|? ? _ O2]; subst. inversion O2 as [|? ? O3 _]; subst. apply (O3 s E). }
  eexists. split; [exact A|]. split; [exact B|]. split; [intros d l H; discriminate|].
  split; [apply (C40_not_nested _ _ _ _ A B); [constructor|reflexivity|reflexivity]|]. split; [vm_compute; reflexivity|].
  exists [], [], [], CMD_DIRECTORY, None, CMD_DIRECTORY, None. split; [reflexivity|]. split; discriminate.
Qed.
(* C40: a directory to include that ends in two slashes. *)
Theorem C40_slashes_refuted : exists incs excs starts c f l, configured incs excs (c_dirs c) starts /\ names_ok f /\ no_fs_limits c f /\ not_nested c /\
  backup_phase1_client c f 10 starts = (l, Ok) /\ twice l (str "/a/b").
Proof.
  exists [str "/a//"; str "/a/b"], [], [(str "/a//", true); (str "/a/b", true)], (conf_of [(str "/a//", true); (str "/a/b", true)]),
    (fs_of [(str "/a//", dir 2); (str "/a/b", reg 3 1)] [(str "/a//", [str "b"])]).
  eexists. split; [split; [|split; [|split]]; try (apply Forall_cstrb; vm_compute; reflexivity); vm_compute; reflexivity|].
  split; [apply fs_names; vm_compute; reflexivity|]. split; [split; [reflexivity|discriminate]|].
  split; [|split; [vm_compute; reflexivity|]].
  - intros p x y _ H Ix _ Wx. exfalso.
    assert (C1 : cstr (str "/a//")) by (apply cstrb_ok; reflexivity). assert (C2 : cstr (str "/a/b")) by (apply cstrb_ok; reflexivity).
    assert (Cx : cstr x) by (destruct Ix as [Ix|[Ix|[]]]; injection Ix as <-; assumption).
    pose proof (within_cstr p x Cx Wx) as Cp.
    assert (H' : match best_dir [(str "/a//", true); (str "/a/b", true)] p 0 None with Some e => snd e | None => false end = false) by exact H.
    cbn [best_dir fst] in H'. pose proof (subdir_nonneg _ p C1 Cp) as N. apply Z.geb_le in N. rewrite N in H'.
    destruct (_ >=? _) in H'; discriminate.
  - exists [Entry CMD_DIRECTORY (str "/a//") None], [], [], CMD_FILE, None, CMD_FILE, None. split; [reflexivity|]. split; discriminate.
Qed.
(* C56: a configured directory that is not there is sent to the server as a hard
   link to whatever was looked at before it. *)
Theorem C56_absent_refuted : exists incs excs starts c f l, configured incs excs (c_dirs c) starts /\ Forall one_slash incs /\ names_ok f /\
  no_fs_limits c f /\ not_nested c /\ backup_phase1_client c f 10 starts = (l, Ok) /\
  exists p q, lstat f p = None /\ In (Entry CMD_HARD_LINK p (Some q)) l.
Proof.
  exists ex_incs, ex_excs, ex_starts, ex_conf,
    (fs_of [(str "/a", dir 2); (str "/a/a", reg 9 2); (str "/a/b", dir 3)] [(str "/a", [str "a"; str "b"])]).
  destruct ex_configured as [A [B _]]. eexists. split; [exact A|]. split; [exact B|].
  split; [apply fs_names; vm_compute; reflexivity|]. split; [split; [reflexivity|discriminate]|]. split; [exact ex_not_nested|].
  split; [vm_compute; reflexivity|]. exists (str "/a/b/c"), (str "/a/a"). split; [reflexivity|]. right; right; left. reflexivity.
Qed.
(* C57: a name that is gone when it is looked at takes the place of a file, and
   the file itself is then only listed as a hard link to that name. *)
Theorem C57_vanished_refuted : exists incs excs starts c f l, configured incs excs (c_dirs c) starts /\ Forall one_slash incs /\ names_ok f /\
  no_fs_limits c f /\ not_nested c /\ backup_phase1_client c f 10 starts = (l, Ok) /\
  exists p q x, lstat f p = Some x /\ st_mode x = MReg /\ In (Entry CMD_HARD_LINK p (Some q)) l /\ lstat f q = None /\
    forall cmd link, ~ In (Entry cmd q link) l.
Proof.
  set (c := mkconf [(str "/a", true)] (set_max_ext [str "txt"]) no_ext [] [] (fun _ _ => false) (fun _ _ => false) 0 0 [] true [] false [] false [] false false
    (fun _ _ => false) false (fun _ => false)).
  exists [str "/a"], [], [(str "/a", true)], c,
    (fs_of [(str "/a", dir 2); (str "/a/m.dat", reg 9 2); (str "/a/z.txt", reg 9 2)] [(str "/a", [str "m.dat"; str "n.txt"; str "z.txt"])]).
  assert (A : configured [str "/a"] [] (c_dirs c) [(str "/a", true)]).
  { split; [|split; [|split]]; try (apply Forall_cstrb; vm_compute; reflexivity); vm_compute; reflexivity. }
  assert (B : Forall one_slash [str "/a"]).
  { constructor; [|constructor]. intros s E. destruct ex_configured as [_ [O _]]. inversion O as [|? ? _ O2]; subst. inversion O2 as [|? ? O3 _]; subst. apply (O3 s E). }
  eexists. split; [exact A|]. split; [exact B|]. split; [apply fs_names; vm_compute; reflexivity|]. split; [split; [reflexivity|discriminate]|].
  split; [apply (C40_not_nested _ _ _ _ A B); [constructor|reflexivity|reflexivity]|]. split; [vm_compute; reflexivity|].
  exists (str "/a/z.txt"), (str "/a/n.txt"), (reg 9 2). split; [reflexivity|]. split; [reflexivity|]. split; [right; right; left; reflexivity|]. split; [reflexivity|].
  intros cmd link H. repeat (destruct H as [H|H]; [discriminate|]). contradiction.
Qed.

Print Assumptions C39_longest_decides_partial.
Print Assumptions C39_longest_unique.
Print Assumptions C39_listed_is_included_partial.
Print Assumptions C39_extensions.
Print Assumptions C40_in_order_partial.
Print Assumptions C40_not_nested.
Print Assumptions C56_only_wanted_partial.
Print Assumptions C56_all_wanted_partial.
Print Assumptions C57_links_lead_back_partial.
Print Assumptions C39_outside_refuted.
Print Assumptions C39_dotted_refuted.
Print Assumptions C40_nested_refuted.
Print Assumptions C40_filesystem_refuted.
Print Assumptions C40_slashes_refuted.
Print Assumptions C56_absent_refuted.
Print Assumptions C57_vanished_refuted.

Print Assumptions C39_filters.
Print Assumptions C39_include_extensions.
