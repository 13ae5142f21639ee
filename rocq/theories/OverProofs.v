(* What is in force for a client: proofs about OverModel.v. *)
From Verif Require Import Bytes PathcmpModel BuModel AuthModel ConfModel IncexcModel OverModel.

(* ---- Specification ------------------------------------------------------- *)
(* A setting: the name, the value, whether it was given with := *)
Definition setting : Type := bytes * bytes * bool.

(* The value that was given last *)
Definition last_of (f : bytes) (ss : list setting) : option bytes :=
  fold_left (fun (a : option bytes) (s : setting) => if beqb (fst (fst s)) f then Some (snd (fst s)) else a) ss None.
(* The values that were given, since the last that was given with := *)
Definition given (f : bytes) (ss : list setting) (l : list bytes) : list bytes :=
  fold_left (fun (l : list bytes) (s : setting) => if beqb (fst (fst s)) f then (if snd s then [] else l) ++ [snd (fst s)] else l) ss l.
(* What the text says, for an option that has the default d *)
Definition means (f : bytes) (d : cval) (x : bytes) : cval :=
  if beqb f (str "compression") || beqb f (str "ssl_compression") then VInt (get_compression x)
  else match d with
       | VStr _ => VStr (Some x)
       | VInt _ => VInt (atoi x)
       | VU64 _ => VU64 (match get_file_size x with Some n => n | None => 0 end)
       | VList _ => VList [x]
       | VOther _ => VOther x
       end.
(* What the option is in a configuration *)
Definition look (f : bytes) (c : conf) : option opt := find (fun o => beqb (o_field o) f) c.
Definition get (f : bytes) (c : conf) : option cval := option_map o_val (look f c).
(* The option in the table of the program *)
Definition known (f : bytes) : option (opt * (bool * bool)) := find (fun r => beqb (o_field (fst r)) f) full.
Definition is_list (v : cval) : bool := match v with VList _ => true | _ => false end.

(* The options with rules of their own *)
Definition enders : list bytes :=
  map str [ "backup_script_pre"; "backup_script_post"; "backup_script_pre_arg"; "backup_script_post_arg";
            "restore_script_pre"; "restore_script_post"; "restore_script_pre_arg"; "restore_script_post_arg";
            "server_script_pre"; "server_script_post"; "server_script_pre_arg"; "server_script_post_arg";
            "server_script"; "server_script_arg"; "server_script_pre_notify"; "server_script_post_notify" ]%string.
Definition starters : list bytes := map str [ "cname"; "peer_version"; "ssl_peer_cn"; "conffile" ]%string.
Definition plain (f : bytes) : Prop := existsb (beqb f) (starters ++ enders) = false.

Section Sets.
(* What the files named on a line that includes them set *)
Variable incl : bytes -> option (list setting).
Fixpoint apply_all (ss : list setting) (c : conf) : option conf :=
  match ss with
  | [] => Some c
  | (f, v, r) :: ss' => match load_conf f v r c with Some c' => apply_all ss' c' | None => None end
  end.
Definition inclusion (x : bytes) (c : conf) : option conf :=
  match incl x with Some ss => apply_all ss c | None => None end.
Definition line_sets (l : bytes) : option (list setting) :=
  if beqb (firstn 2 l) (str ". ")
  then (match skipn 2 l with [] => None | extra => incl extra end)
  else match conf_get_pair l with PNone => Some [] | PPair f v r => Some [(f, v, r)] | PErr | POut => None end.
(* What lines set, in order *)
Fixpoint lines_set (ls : list bytes) : option (list setting) :=
  match ls with
  | [] => Some []
  | l :: r => match line_sets l, lines_set r with Some a, Some b => Some (a ++ b) | _, _ => None end
  end.
Definition file_sets (s : bytes) : option (list setting) := lines_set (fgets_lines s [] 0).

Lemma apply_all_app : forall a b c, apply_all (a ++ b) c = match apply_all a c with Some c' => apply_all b c' | None => None end.
Proof.
  induction a as [|[[f v] r] a IH]; intros b c; cbn [app apply_all]; [reflexivity|].
  destruct (load_conf f v r c); [apply IH|reflexivity].
Qed.
Lemma parse_line_sets : forall c l, parse_line inclusion c l = match line_sets l with Some ss => apply_all ss c | None => None end.
Proof.
  intros c l. unfold parse_line, line_sets. destruct (beqb (firstn 2 l) (str ". ")).
  - destruct (skipn 2 l); reflexivity.
  - destruct (conf_get_pair l) as [| |f v r|]; cbn [apply_all]; try reflexivity.
    destruct (load_conf f v r c); reflexivity.
Qed.
Lemma parse_lines_sets : forall ls c c', parse_lines inclusion ls c = Some c' ->
  exists ss, lines_set ls = Some ss /\ apply_all ss c = Some c'.
Proof.
  induction ls as [|l ls IH]; intros c c' H; cbn [parse_lines lines_set] in *.
  - exists []. split; [reflexivity|exact H].
  - rewrite parse_line_sets in H. destruct (line_sets l) as [a|]; [|discriminate].
    destruct (apply_all a c) as [c1|] eqn:E1; [|discriminate].
    destruct (IH _ _ H) as [b [Hb Hb']]. rewrite Hb. exists (a ++ b). split; [reflexivity|].
    rewrite apply_all_app, E1. exact Hb'.
Qed.
End Sets.

(* ---- One setting --------------------------------------------------------- *)
Definition comp (f : bytes) : bool := beqb f (str "compression") || beqb f (str "ssl_compression").
Definition put (f : bytes) (srt : bool) (v : cval) (s : setting) : cval :=
  if beqb (fst (fst s)) f then
    (if comp f then VInt (get_compression (snd (fst s)))
     else match v with
          | VStr _ => VStr (Some (snd (fst s)))
          | VInt _ => VInt (atoi (snd (fst s)))
          | VU64 _ => VU64 (match get_file_size (snd (fst s)) with Some n => n | None => 0 end)
          | VList l => VList (add_to_strlist srt (snd (fst s)) (if snd s then [] else l))
          | VOther _ => VOther (snd (fst s))
          end)
  else v.

Lemma set_val_id : forall o, set_val o (o_val o) = o.
Proof. intros []. reflexivity. Qed.
Lemma set_val_twice : forall o a b, set_val (set_val o a) b = set_val o b.
Proof. reflexivity. Qed.

Lemma look_map : forall f g (v : opt -> cval) c o,
  look f c = Some o ->
  look f (map (fun o => if beqb (o_field o) g then set_val o (v o) else o) c) = Some (if beqb f g then set_val o (v o) else o).
Proof.
  unfold look. induction c as [|x c IH]; intros o H; cbn [find map] in *; [discriminate|].
  destruct (beqb (o_field x) f) eqn:E.
  - injection H as <-. apply beqb_eq in E. subst f.
    destruct (beqb (o_field x) g) eqn:Eg.
    + cbn [set_val o_field]. rewrite beqb_refl. reflexivity.
    + rewrite beqb_refl. reflexivity.
  - destruct (beqb (o_field x) g).
    + cbn [set_val o_field]. rewrite E. apply IH, H.
    + rewrite E. apply IH, H.
Qed.
Lemma look_field : forall f c o, look f c = Some o -> o_field o = f.
Proof. intros f c o H. apply find_some in H. apply beqb_eq, H. Qed.

Lemma look_load : forall f f' x r c c' o,
  look f c = Some o -> load_conf f' x r c = Some c' ->
  look f c' = Some (set_val o (put f (o_sorted o) (o_val o) (f', x, r))).
Proof.
  intros f f' x r c c' o Hl H. unfold load_conf in H. unfold put; cbn [fst snd].
  destruct (beqb f' (str "compression") || beqb f' (str "ssl_compression")) eqn:Ec.
  - destruct (get_compression x <? 0); [discriminate|]. injection H as <-.
    unfold set_named. rewrite (look_map f f' (fun _ => VInt (get_compression x)) c o Hl).
    destruct (beqb f' f) eqn:E.
    + apply beqb_eq in E. subst f'. rewrite beqb_refl. unfold comp. rewrite Ec. reflexivity.
    + assert (E' : beqb f f' = false).
      { apply beqb_neq. intros ->. rewrite beqb_refl in E. discriminate. }
      rewrite E', set_val_id. reflexivity.
  - revert c' H. unfold look in *. induction c as [|a c IH]; intros c' H; [discriminate|].
    cbn [find] in Hl. cbn [load_field] in H.
    destruct (beqb (o_field a) f') eqn:Ea.
    + destruct (load_val a x r) as [a'|] eqn:Ev; [|discriminate]. injection H as <-.
      assert (Hf : o_field a' = o_field a).
      { unfold load_val in Ev. destruct (o_val a); try (injection Ev as <-; reflexivity).
        destruct (get_file_size x); [injection Ev as <-; reflexivity|discriminate]. }
      cbn [find]. rewrite Hf. apply beqb_eq in Ea. subst f'.
      destruct (beqb (o_field a) f) eqn:E.
      * injection Hl as <-. apply beqb_eq in E. unfold comp. rewrite <- E, Ec.
        unfold load_val in Ev. destruct (o_val a); try (injection Ev as <-; reflexivity).
        destruct (get_file_size x); [injection Ev as <-; reflexivity|discriminate].
      * rewrite set_val_id. exact Hl.
    + destruct (load_field f' x r c) as [r'|]; [|discriminate]. injection H as <-.
      cbn [find]. destruct (beqb (o_field a) f) eqn:E.
      * injection Hl as <-. apply beqb_eq in E. subst f.
        assert (E' : beqb f' (o_field a) = false).
        { apply beqb_neq. intros ->. rewrite beqb_refl in Ea. discriminate. }
        rewrite E', set_val_id. reflexivity.
      * apply IH; [exact Hl|reflexivity].
Qed.

Lemma look_apply : forall f ss c c' o,
  look f c = Some o -> apply_all ss c = Some c' ->
  look f c' = Some (set_val o (fold_left (put f (o_sorted o)) ss (o_val o))).
Proof.
  induction ss as [|[[f' x] r] ss IH]; intros c c' o Hl H; cbn [apply_all fold_left] in *.
  - injection H as <-. rewrite set_val_id. exact Hl.
  - destruct (load_conf f' x r c) as [c1|] eqn:E1; [|discriminate].
    pose proof (look_load _ _ _ _ _ _ _ Hl E1) as Hl1.
    pose proof (IH _ _ _ Hl1 H) as R. exact R.
Qed.

(* ---- Several settings: the last one, or the list --------------------------- *)
Definition kind (v : cval) : Z := match v with VStr _ => 0 | VInt _ => 1 | VU64 _ => 2 | VList _ => 3 | VOther _ => 4 end.
(* The options called compression and ssl_compression are numbers *)
Definition comp_int (f : bytes) (v : cval) : Prop := comp f = true -> kind v = 1.

Lemma kind_put : forall f srt v s, comp_int f v -> kind (put f srt v s) = kind v.
Proof.
  intros f srt v [[f' x] r] Hc. unfold put; cbn [fst snd]. destruct (beqb f' f); [|reflexivity].
  destruct (comp f) eqn:E; [symmetry; apply Hc, E|]. destruct v; reflexivity.
Qed.
Lemma kind_fold : forall f srt ss v, comp_int f v -> kind (fold_left (put f srt) ss v) = kind v.
Proof.
  induction ss as [|s ss IH]; intros v Hc; cbn [fold_left]; [reflexivity|].
  rewrite IH; [apply kind_put, Hc|]. intros E. rewrite kind_put by exact Hc. apply Hc, E.
Qed.
Lemma means_kind : forall f d e x, kind d = kind e -> means f d x = means f e x.
Proof. intros f d e x H. unfold means. destruct (_ || _); [reflexivity|]. destruct d, e; try discriminate; reflexivity. Qed.

Lemma last_of_acc : forall f ss a,
  fold_left (fun (a : option bytes) (s : setting) => if beqb (fst (fst s)) f then Some (snd (fst s)) else a) ss a
  = match last_of f ss with Some x => Some x | None => a end.
Proof.
  unfold last_of. induction ss as [|s ss IH]; intros a; cbn [fold_left]; [reflexivity|].
  rewrite IH, (IH (if beqb (fst (fst s)) f then Some (snd (fst s)) else None)).
  destruct (fold_left _ ss None); [reflexivity|]. destruct (beqb _ f); reflexivity.
Qed.
Lemma last_of_app : forall f a b, last_of f (a ++ b) = match last_of f b with Some x => Some x | None => last_of f a end.
Proof. intros. unfold last_of at 1. rewrite fold_left_app, last_of_acc. reflexivity. Qed.
Lemma last_of_cons : forall f s b,
  last_of f (s :: b) = match last_of f b with Some x => Some x | None => if beqb (fst (fst s)) f then Some (snd (fst s)) else None end.
Proof. intros. exact (last_of_app f [s] b). Qed.

Lemma fold_scalar : forall f srt ss v, is_list v = false -> comp_int f v ->
  fold_left (put f srt) ss v = match last_of f ss with Some x => means f v x | None => v end.
Proof.
  induction ss as [|s ss IH]; intros v Hv Hc; cbn [fold_left]; [reflexivity|].
  assert (K : kind (put f srt v s) = kind v) by (apply kind_put, Hc).
  rewrite IH, last_of_cons.
  - destruct (last_of f ss) as [x|]; [apply means_kind, K|].
    destruct s as [[f' x] r]. unfold put, means, comp; cbn [fst snd]. destruct (beqb f' f); [|reflexivity].
    destruct (_ || _); [reflexivity|]. destruct v; try discriminate; reflexivity.
  - destruct (put f srt v s), v; try discriminate; reflexivity.
  - intros E. rewrite K. apply Hc, E.
Qed.

Lemma fold_list : forall f ss l, comp f = false ->
  fold_left (put f false) ss (VList l) = VList (given f ss l).
Proof.
  unfold given. induction ss as [|[[f' x] r] ss IH]; intros l Hc; cbn [fold_left]; [reflexivity|].
  unfold put at 2; cbn [fst snd]. destruct (beqb f' f); [|apply IH, Hc]. rewrite Hc.
  rewrite IH by exact Hc. reflexivity.
Qed.
Lemma insert_in : forall p l x, In x (insert_sorted p l) <-> x = p \/ In x l.
Proof.
  induction l as [|s l IH]; intros x; cbn [insert_sorted In]; [intuition|].
  destruct (pathcmp_s p s <? 0); cbn [In]; [intuition|]. rewrite IH. intuition.
Qed.
Lemma add_in : forall srt p l x, In x (add_to_strlist srt p l) <-> In x l \/ x = p.
Proof.
  intros [] p l x; unfold add_to_strlist; [rewrite insert_in; intuition|].
  rewrite in_app_iff. cbn [In]. intuition.
Qed.
Lemma fold_list_in : forall f srt ss l m, comp f = false -> (forall x, In x l <-> In x m) ->
  exists l', fold_left (put f srt) ss (VList l) = VList l' /\ (forall x, In x l' <-> In x (given f ss m)).
Proof.
  unfold given. induction ss as [|[[f' x] r] ss IH]; intros l m Hc H; cbn [fold_left].
  - exists l. split; [reflexivity|exact H].
  - unfold put at 2; cbn [fst snd]. destruct (beqb f' f).
    + rewrite Hc. apply IH; [exact Hc|]. intros y. rewrite add_in, in_app_iff. cbn [In].
      destruct r; cbn [In]; [intuition|]. rewrite H. intuition.
    + apply IH; assumption.
Qed.

(* ---- The two passes over the table ----------------------------------------- *)
(* c has the options of the table *)
Definition shaped (tbl : list (opt * (bool * bool))) (c : conf) : Prop :=
  Forall2 (fun r o => o_field o = o_field (fst r) /\ o_sorted o = o_sorted (fst r) /\ kind (o_val o) = kind (o_val (fst r))) tbl c.

Lemma look_shaped : forall tbl f r c, shaped tbl c ->
  find (fun r => beqb (o_field (fst r)) f) tbl = Some r ->
  exists o, look f c = Some o /\ o_sorted o = o_sorted (fst r) /\ kind (o_val o) = kind (o_val (fst r)).
Proof.
  unfold look. induction tbl as [|a tbl IH]; intros f r c Hs H; cbn [find] in H; [discriminate|].
  inversion Hs as [|? o ? c' [H1 [H2 H3]] Hs']; subst. cbn [find]. rewrite H1.
  destruct (beqb (o_field (fst a)) f); [|apply IH; assumption].
  injection H as ->. exists o. auto.
Qed.

Lemma from_global_look : forall tbl f r g c og oc, shaped tbl g -> shaped tbl c ->
  find (fun r => beqb (o_field (fst r)) f) tbl = Some r -> look f g = Some og -> look f c = Some oc ->
  look f (from_global (map snd tbl) g c) = Some (if fst (snd r) && negb (is_list (o_val oc)) then set_val oc (o_val og) else oc).
Proof.
  unfold look. induction tbl as [|a tbl IH]; intros f r g c og oc Hg Hc H Lg Lc; cbn [find] in H; [discriminate|].
  inversion Hg as [|? xg ? g' [H1 [H2 H3]] Hg']; subst.
  inversion Hc as [|? xc ? c' [H4 [H5 H6]] Hc']; subst.
  cbn [find] in Lg, Lc. rewrite H1 in Lg. rewrite H4 in Lc. cbn [map from_global].
  destruct a as [ao [ov rp]]. cbn [snd fst] in *.
  destruct (beqb (o_field ao) f) eqn:E.
  - injection H as <-. injection Lg as ->. injection Lc as ->. cbn [snd fst find].
    destruct ov; cbn [andb]; [|rewrite H4, E; reflexivity].
    destruct (o_val oc); cbn [is_list negb andb set_val o_field]; rewrite H4, E; reflexivity.
  - cbn [find]. replace (o_field (if ov then match o_val xc with VList _ => xc | _ => set_val xc (o_val xg) end else xc)) with (o_field ao).
    + rewrite E. apply (IH f r g' c' og oc); assumption.
    + rewrite <- H4. destruct ov; [|reflexivity]. destruct (o_val xc); reflexivity.
Qed.
Lemma from_global_shaped : forall tbl g c, shaped tbl g -> shaped tbl c -> shaped tbl (from_global (map snd tbl) g c).
Proof.
  induction tbl as [|[ao [ov rp]] tbl IH]; intros g c Hg Hc.
  - inversion Hc. constructor.
  - inversion Hg as [|? xg ? g' [H1 [H2 H3]] Hg']; subst.
    inversion Hc as [|? xc ? c' [H4 [H5 H6]] Hc']; subst. cbn [map from_global snd].
    constructor; [|apply IH; assumption]. cbn [fst] in *. destruct ov; [|auto].
    destruct (o_val xc) eqn:E; cbn [set_val o_field o_sorted o_val]; rewrite ?H4, ?H5, ?E; auto; split; auto; split; auto; congruence.
Qed.

Definition both (srt repl : bool) (vg vc : cval) : cval :=
  match vg, vc with
  | VList lg, VList lc =>
    if repl then (match lc with [] => VList (append_strlist srt lg []) | _ => VList lc end)
    else VList (append_strlist srt lc (append_strlist srt lg []))
  | _, _ => vc
  end.
Lemma arg_lists_look : forall tbl f r g c og oc, shaped tbl g -> shaped tbl c ->
  find (fun r => beqb (o_field (fst r)) f) tbl = Some r -> look f g = Some og -> look f c = Some oc ->
  look f (arg_lists (map snd tbl) g c)
  = Some (if fst (snd r) then set_val oc (both (o_sorted oc) (snd (snd r)) (o_val og) (o_val oc)) else oc).
Proof.
  unfold look. induction tbl as [|a tbl IH]; intros f r g c og oc Hg Hc H Lg Lc; cbn [find] in H; [discriminate|].
  inversion Hg as [|? xg ? g' [H1 [H2 H3]] Hg']; subst.
  inversion Hc as [|? xc ? c' [H4 [H5 H6]] Hc']; subst.
  cbn [find] in Lg, Lc. rewrite H1 in Lg. rewrite H4 in Lc. cbn [map arg_lists].
  destruct a as [ao [ov rp]]. cbn [snd fst] in *.
  destruct (beqb (o_field ao) f) eqn:E.
  - injection H as <-. injection Lg as ->. injection Lc as ->. cbn [snd fst find].
    destruct oc as [fc i1 i2 sc vc]. cbn [o_field o_val o_sorted set_val] in *. subst fc.
    destruct ov; [|cbn [o_field]; rewrite E; reflexivity].
    unfold both, set_val. cbn [o_field o_inc o_res o_sorted o_val].
    destruct (o_val og), vc; cbn [o_field]; try (rewrite E; reflexivity).
    destruct rp; [destruct l0|]; cbn [o_field]; rewrite E; reflexivity.
  - cbn [find].
    match goal with |- (if beqb (o_field ?X) f then _ else _) = _ => replace (o_field X) with (o_field ao) end.
    + rewrite E. apply (IH f r g' c' og oc); assumption.
    + rewrite <- H4. destruct ov; [|reflexivity]. destruct (o_val xg), (o_val xc); try reflexivity.
      destruct rp; [destruct l0|]; reflexivity.
Qed.

(* ---- The options stay what they are ---------------------------------------- *)
Definition kind_at (g : bytes) (k : Z) : bool :=
  forallb (fun r => if beqb (o_field (fst r)) g then kind (o_val (fst r)) =? k else true) full.

Lemma shaped_map : forall g v, kind_at g (kind v) = true -> forall c, shaped full c ->
  shaped full (map (fun o => if beqb (o_field o) g then set_val o v else o) c).
Proof.
  intros g v. unfold kind_at, shaped. generalize full. induction l as [|a tbl IH]; intros Hk c Hs; inversion Hs as [|? o ? c' [H1 [H2 H3]] Hs']; subst; cbn [map]; constructor.
  - cbn [forallb] in Hk. apply andb_prop in Hk as [Hk _]. rewrite H1.
    destruct (beqb (o_field (fst a)) g); cbn [set_val o_field o_sorted o_val]; auto.
    apply Z.eqb_eq in Hk. auto.
  - cbn [forallb] in Hk. apply andb_prop in Hk as [_ Hk]. apply IH; assumption.
Qed.
Lemma shaped_defaults : shaped full defaults.
Proof. unfold shaped, defaults. generalize full. induction l; cbn [map]; constructor; auto. Qed.

Lemma shaped_load_field : forall f x r tbl c c', shaped tbl c -> load_field f x r c = Some c' -> shaped tbl c'.
Proof.
  induction tbl as [|a tbl IH]; intros c c' Hs H; inversion Hs as [|? o ? c1 [H1 [H2 H3]] Hs']; subst; cbn [load_field] in H.
  - injection H as <-. constructor.
  - destruct (beqb (o_field o) f).
    + destruct (load_val o x r) as [o'|] eqn:E; [|discriminate]. injection H as <-.
      constructor; [|exact Hs']. unfold load_val in E.
      destruct (o_val o); try (destruct (get_file_size x); [|discriminate]); injection E as <-; cbn [set_val o_field o_sorted o_val]; auto.
    + destruct (load_field f x r c1) as [c2|] eqn:E; [|discriminate]. injection H as <-.
      constructor; [auto|]. apply (IH c1); assumption.
Qed.
Lemma kind_at_comp : forall f, comp f = true -> kind_at f 1 = true.
Proof.
  intros f H. apply orb_prop in H as [H|H]; apply beqb_eq in H; subst f; vm_compute; reflexivity.
Qed.
Lemma shaped_load : forall f x r c c', shaped full c -> load_conf f x r c = Some c' -> shaped full c'.
Proof.
  intros f x r c c' Hs H. unfold load_conf in H. fold (comp f) in H. destruct (comp f) eqn:Ec.
  - destruct (get_compression x <? 0); [discriminate|]. injection H as <-.
    apply (shaped_map f (VInt (get_compression x))); [|exact Hs]. apply kind_at_comp, Ec.
  - apply (shaped_load_field f x r full c); assumption.
Qed.
Lemma shaped_apply : forall ss c c', shaped full c -> apply_all ss c = Some c' -> shaped full c'.
Proof.
  induction ss as [|[[f x] r] ss IH]; intros c c' Hs H; cbn [apply_all] in H; [injection H as <-; exact Hs|].
  destruct (load_conf f x r c) as [c1|] eqn:E; [|discriminate]. apply (IH c1); [|exact H].
  apply (shaped_load f x r c); assumption.
Qed.
Lemma kind_at_known : forall f r k, known f = Some r -> kind_at f k = true -> kind (o_val (fst r)) = k.
Proof.
  intros f r k H Hk. unfold known in H. apply find_some in H as [Hi E]. unfold kind_at in Hk.
  rewrite forallb_forall in Hk. specialize (Hk r Hi). cbv beta in Hk, E. rewrite E in Hk. apply Z.eqb_eq, Hk.
Qed.
Lemma comp_int_known : forall f r, known f = Some r -> comp_int f (o_val (fst r)).
Proof. intros f r H E. apply (kind_at_known f r 1 H). apply kind_at_comp, E. Qed.

Lemma shaped_str : forall f s c, kind_at f 0 = true -> shaped full c -> shaped full (set_str f s c).
Proof. intros f s c H Hs. apply (shaped_map f (VStr s)); assumption. Qed.
Lemma shaped_list : forall f l c, kind_at f 3 = true -> shaped full c -> shaped full (set_list f l c).
Proof. intros f l c H Hs. apply (shaped_map f (VList l)); assumption. Qed.
Lemma shaped_int : forall f n c, kind_at f 1 = true -> shaped full c -> shaped full (set_named f n c).
Proof. intros f n c H Hs. apply (shaped_map f (VInt n)); assumption. Qed.
Ltac kat := vm_compute; reflexivity.
Lemma shaped_ppo : forall f a b c, kind_at a 0 = true -> kind_at b 0 = true -> shaped full c -> shaped full (pre_post_override f a b c).
Proof. intros f a b c Ha Hb Hs. unfold pre_post_override. destruct (get_str f c); [|exact Hs]. repeat apply shaped_str; assumption. Qed.
Lemma shaped_args : forall f a b c, kind_at a 3 = true -> kind_at b 3 = true -> shaped full c -> shaped full (arg_overrides f a b c).
Proof. intros f a b c Ha Hb Hs. unfold arg_overrides, arg_override. destruct (get_list f c); [exact Hs|]. repeat apply shaped_list; assumption. Qed.
Lemma shaped_scripts : forall c, shaped full c -> shaped full (scripts c).
Proof.
  intros c H. unfold scripts. cbv zeta.
  apply shaped_list; [kat|]. apply shaped_str; [kat|].
  do 3 (apply shaped_args; [kat|kat|]). do 3 (apply shaped_ppo; [kat|kat|]). exact H.
Qed.
Lemma shaped_notify : forall c, shaped full c -> shaped full (notify_override c).
Proof.
  intros c H. unfold notify_override. cbv zeta. destruct (_ =? 0); [exact H|].
  do 2 (apply shaped_int; [kat|]). exact H.
Qed.

(* An option without rules of its own is not touched at the end *)
Lemma look_other_str : forall f g s c, beqb f g = false -> look f (set_str g s c) = look f c.
Proof.
  intros f g s c E. unfold set_str. destruct (look f c) as [o|] eqn:H.
  - rewrite (look_map f g (fun _ => VStr s) c o H), E. reflexivity.
  - unfold look in *. induction c as [|x c IH]; cbn [find map] in *; [reflexivity|].
    destruct (beqb (o_field x) f) eqn:Ex; [discriminate|]. destruct (beqb (o_field x) g); cbn [set_val o_field]; rewrite Ex; apply IH, H.
Qed.
Lemma look_other_list : forall f g l c, beqb f g = false -> look f (set_list g l c) = look f c.
Proof.
  intros f g l c E. unfold set_list. destruct (look f c) as [o|] eqn:H.
  - rewrite (look_map f g (fun _ => VList l) c o H), E. reflexivity.
  - unfold look in *. induction c as [|x c IH]; cbn [find map] in *; [reflexivity|].
    destruct (beqb (o_field x) f) eqn:Ex; [discriminate|]. destruct (beqb (o_field x) g); cbn [set_val o_field]; rewrite Ex; apply IH, H.
Qed.
Lemma look_other_int : forall f g n c, beqb f g = false -> look f (set_named g n c) = look f c.
Proof.
  intros f g n c E. unfold set_named. destruct (look f c) as [o|] eqn:H.
  - rewrite (look_map f g (fun _ => VInt n) c o H), E. reflexivity.
  - unfold look in *. induction c as [|x c IH]; cbn [find map] in *; [reflexivity|].
    destruct (beqb (o_field x) f) eqn:Ex; [discriminate|]. destruct (beqb (o_field x) g); cbn [set_val o_field]; rewrite Ex; apply IH, H.
Qed.
Lemma look_other_ppo : forall f h a b c, beqb f a = false -> beqb f b = false -> look f (pre_post_override h a b c) = look f c.
Proof. intros. unfold pre_post_override. destruct (get_str h c); [|reflexivity]. rewrite !look_other_str by assumption. reflexivity. Qed.
Lemma look_other_args : forall f h a b c, beqb f a = false -> beqb f b = false -> look f (arg_overrides h a b c) = look f c.
Proof. intros. unfold arg_overrides, arg_override. destruct (get_list h c); [reflexivity|]. rewrite !look_other_list by assumption. reflexivity. Qed.
Lemma plain_not : forall l f g, existsb (beqb f) l = false -> In g l -> beqb f g = false.
Proof.
  intros l f g H Hi. destruct (beqb f g) eqn:E; [|reflexivity]. exfalso.
  assert (X : existsb (beqb f) l = true) by (apply existsb_exists; exists g; auto). congruence.
Qed.
Ltac inspec := unfold enders, starters; cbn [map In app]; repeat (first [left; reflexivity | right]).
Definition not_end (f : bytes) : Prop := existsb (beqb f) enders = false.
Lemma plain_end : forall f, plain f -> not_end f.
Proof. intros f H. unfold plain in H. rewrite existsb_app in H. apply orb_false_iff in H. apply H. Qed.
Lemma look_end : forall f c, not_end f -> look f (scripts (notify_override c)) = look f c.
Proof.
  intros f c H. unfold scripts. cbv zeta.
  rewrite look_other_list by (apply (plain_not _ f _ H); inspec).
  rewrite look_other_str by (apply (plain_not _ f _ H); inspec).
  rewrite !look_other_args by (apply (plain_not _ f _ H); inspec).
  rewrite !look_other_ppo by (apply (plain_not _ f _ H); inspec).
  unfold notify_override. cbv zeta. destruct (_ =? 0); [reflexivity|].
  rewrite !look_other_int by (apply (plain_not _ f _ H); inspec). reflexivity.
Qed.

Lemma known_look : forall f r, known f = Some r -> look f defaults = Some (fst r).
Proof.
  unfold known, look, defaults. generalize full. induction l as [|a l IH]; intros f r H; cbn [find map] in *; [discriminate|].
  destruct (beqb (o_field (fst a)) f); [injection H as ->; reflexivity|apply IH, H].
Qed.

Lemma arg_lists_shaped : forall tbl g c, shaped tbl g -> shaped tbl c -> shaped tbl (arg_lists (map snd tbl) g c).
Proof.
  induction tbl as [|[ao [ov rp]] tbl IH]; intros g c Hg Hc.
  - inversion Hc. constructor.
  - inversion Hg as [|? xg ? g' [H1 [H2 H3]] Hg']; subst.
    inversion Hc as [|? xc ? c' [H4 [H5 H6]] Hc']; subst. cbn [map arg_lists snd].
    constructor; [|apply IH; assumption]. cbn [fst] in *. destruct ov; [|auto].
    destruct (o_val xg), (o_val xc) eqn:E; auto; try (rewrite E; auto).
    destruct rp; [destruct l0|]; cbn [set_val o_field o_sorted o_val]; auto. rewrite E. auto.
Qed.

(* ---- The whole -------------------------------------------------------------- *)
Section Whole.
Variable incl : bytes -> option (list setting).
Variable cli : list bytes.
Variables checks_s checks_c : conf -> bool.
Let inc := inclusion incl.

(* What is there when the server has read its file *)
Lemma global_plain : forall path s g f r gs cs, load_global inc cli checks_s path s = Some g ->
  file_sets incl s = Some gs -> lines_set incl cli = Some cs -> known f = Some r -> not_end f -> beqb f (str "conffile") = false ->
  look f g = Some (set_val (fst r) (fold_left (put f (o_sorted (fst r))) (gs ++ cs) (o_val (fst r)))).
Proof.
  intros path s g f r gs cs H Hgs Hcs Hr Hp Hcf. unfold load_global, load_file, conf_finalise in H.
  destruct (parse_lines inc (fgets_lines s [] 0) _) as [c1|] eqn:E1; [|discriminate].
  destruct (parse_lines inc cli c1) as [c2|] eqn:E2; [|discriminate].
  destruct (checks_s c2); [|discriminate]. injection H as <-.
  apply parse_lines_sets in E1 as [gs' [Hg' E1]]. apply parse_lines_sets in E2 as [cs' [Hc' E2]].
  unfold file_sets in Hgs. rewrite Hgs in Hg'. injection Hg' as <-. rewrite Hcs in Hc'. injection Hc' as <-.
  rewrite look_end by exact Hp.
  apply (look_apply f (gs ++ cs) (set_str (str "conffile") (Some path) defaults)).
  - rewrite look_other_str by exact Hcf. apply known_look, Hr.
  - rewrite apply_all_app, E1. exact E2.
Qed.
Lemma global_shaped : forall path s g, load_global inc cli checks_s path s = Some g -> shaped full g.
Proof.
  intros path s g H. unfold load_global, load_file, conf_finalise in H.
  destruct (parse_lines inc (fgets_lines s [] 0) _) as [c1|] eqn:E1; [|discriminate].
  destruct (parse_lines inc cli c1) as [c2|] eqn:E2; [|discriminate].
  destruct (checks_s c2); [|discriminate]. injection H as <-.
  apply parse_lines_sets in E1 as [gs' [Hg' E1]]. apply parse_lines_sets in E2 as [cs' [Hc' E2]].
  apply shaped_scripts, shaped_notify. apply (shaped_apply cs' c1); [|exact E2].
  apply (shaped_apply gs' (set_str (str "conffile") (Some path) defaults)); [|exact E1].
  apply shaped_str; [kat|apply shaped_defaults].
Qed.
Lemma global_sets : forall path s g, load_global inc cli checks_s path s = Some g ->
  exists gs cs, file_sets incl s = Some gs /\ lines_set incl cli = Some cs.
Proof.
  intros path s g H. unfold load_global, load_file, conf_finalise in H.
  destruct (parse_lines inc (fgets_lines s [] 0) _) as [c1|] eqn:E1; [|discriminate].
  destruct (parse_lines inc cli c1) as [c2|] eqn:E2; [|discriminate].
  apply parse_lines_sets in E1 as [gs' [Hg' _]]. apply parse_lines_sets in E2 as [cs' [Hc' _]]. eauto.
Qed.

(* The parts of the load of a client's file *)
Lemma client_parts : forall before files g c0 c, load_clientconfdir inc cli checks_c before files g c0 = Some c ->
  exists cname s os cs c1 c2,
    get_str (str "cname") (init_save c0) = Some cname /\ cname_valid before cname = true /\
    files (prepend_s (match get_str (str "clientconfdir") g with Some d => d | None => [] end) cname) = Some s /\
    file_sets incl s = Some os /\ lines_set incl cli = Some cs /\
    apply_all os (conf_set_from_global g (init_save c0)) = Some c1 /\
    apply_all cs (arg_lists marks g c1) = Some c2 /\ c = scripts (notify_override c2).
Proof.
  intros before files g c0 c H. unfold load_clientconfdir in H.
  destruct (get_str (str "cname") (init_save c0)) as [cname|] eqn:E0; [|discriminate].
  destruct (cname_valid before cname) eqn:Ev; [|discriminate].
  destruct (files _) as [s|] eqn:Ef; [|discriminate].
  unfold conf_load_overrides, load_file, conf_finalise in H.
  destruct (parse_lines inc (fgets_lines s [] 0) _) as [c1|] eqn:E1; [|discriminate].
  destruct (parse_lines inc cli _) as [c2|] eqn:E2; [|discriminate].
  destruct (checks_c c2); [|discriminate]. injection H as <-.
  apply parse_lines_sets in E1 as [os [Ho E1]]. apply parse_lines_sets in E2 as [cs [Hc E2]].
  exists cname, s, os, cs, c1, c2. auto 10.
Qed.

Lemma shaped_init : forall c0, shaped full (init_save c0).
Proof. intros c0. unfold init_save. do 2 (apply shaped_str; [kat|]). apply shaped_defaults. Qed.
Lemma shaped_set_global : forall g c, shaped full g -> shaped full c -> shaped full (conf_set_from_global g c).
Proof.
  intros g c Hg Hc. unfold conf_set_from_global. cbv zeta.
  assert (X : shaped full (from_global marks g c)) by (apply from_global_shaped; assumption).
  destruct (get_str (str "ssl_peer_cn") g); [exact X|]. apply shaped_str; [kat|exact X].
Qed.

(* What the name of the client was stays *)
Lemma init_str : forall f c0, kind_at f 0 = true -> known f <> None -> In f (map str ["cname"; "peer_version"]%string) ->
  get_str f (init_save c0) = get_str f c0.
Proof.
  intros f c0 _ _ Hi. cbn [map In] in Hi. unfold init_save.
  assert (G : forall h s c o, look h c = Some o -> get_str h (set_str h s c) = s).
  { intros h s c o L. unfold get_str. fold (look h (set_str h s c)). unfold set_str.
    rewrite (look_map h h (fun _ => VStr s) c o L), beqb_refl. reflexivity. }
  destruct Hi as [<-|[<-|[]]].
  - unfold get_str at 1. fold (look (str "cname") (set_str (str "peer_version") (get_str (str "peer_version") c0) (set_str (str "cname") (get_str (str "cname") c0) defaults))).
    rewrite look_other_str by reflexivity.
    assert (L : exists o, look (str "cname") defaults = Some o) by (vm_compute; eexists; reflexivity).
    destruct L as [o L]. unfold set_str. rewrite (look_map _ _ (fun _ => VStr (get_str (str "cname") c0)) _ _ L), beqb_refl. reflexivity.
  - assert (L : exists o, look (str "peer_version") (set_str (str "cname") (get_str (str "cname") c0) defaults) = Some o).
    { rewrite look_other_str by reflexivity. vm_compute. eexists. reflexivity. }
    destruct L as [o L]. apply (G _ _ _ _ L).
Qed.

Section One.
Variables (g c0 c : conf) (before : Z) (files : bytes -> option bytes) (dir cname s : bytes) (os cs : list setting).
Hypothesis Hg : shaped full g.
Hypothesis Hdir : get_str (str "clientconfdir") g = Some dir.
Hypothesis Hcn : get_str (str "cname") c0 = Some cname.
Hypothesis Hf : files (prepend_s dir cname) = Some s.
Hypothesis Ho : file_sets incl s = Some os.
Hypothesis Hc : lines_set incl cli = Some cs.
Hypothesis H : load_clientconfdir inc cli checks_c before files g c0 = Some c.

Lemma parts : exists c1 c2,
    apply_all os (conf_set_from_global g (init_save c0)) = Some c1 /\ shaped full c1 /\
    apply_all cs (arg_lists marks g c1) = Some c2 /\ c = scripts (notify_override c2).
Proof.
  pose proof (client_parts _ _ _ _ _ H) as (cname' & s' & os' & cs' & c1 & c2 & E0 & Ev & Ef & Eo & Ec & A1 & A2 & E).
  rewrite init_str, Hcn in E0; [|kat|vm_compute; discriminate|cbn [map In]; auto]. injection E0 as <-.
  rewrite Hdir, Hf in Ef. injection Ef as <-. rewrite Ho in Eo. injection Eo as <-. rewrite Hc in Ec. injection Ec as <-.
  exists c1, c2. split; [exact A1|]. split; [|auto].
  apply (shaped_apply os (conf_set_from_global g (init_save c0))); [|exact A1].
  apply shaped_set_global; [exact Hg|apply shaped_init].
Qed.

Lemma start_look : forall f r og, known f = Some r -> existsb (beqb f) starters = false -> look f g = Some og ->
  look f (conf_set_from_global g (init_save c0))
  = Some (if fst (snd r) && negb (is_list (o_val (fst r))) then set_val (fst r) (o_val og) else fst r).
Proof.
  intros f r og Hr Hp Hog.
  assert (L0 : look f (init_save c0) = Some (fst r)).
  { unfold init_save. rewrite !look_other_str by (apply (plain_not _ f _ Hp); inspec). apply known_look, Hr. }
  unfold conf_set_from_global. cbv zeta.
  assert (X : look f (from_global marks g (init_save c0))
              = Some (if fst (snd r) && negb (is_list (o_val (fst r))) then set_val (fst r) (o_val og) else fst r)).
  { apply (from_global_look full f r); try assumption. apply shaped_init. }
  destruct (get_str (str "ssl_peer_cn") g); [exact X|].
  rewrite look_other_str by (apply (plain_not _ f _ Hp); inspec). exact X.
Qed.
Definition in_c2 (f : bytes) (r : opt * (bool * bool)) (og : opt) : cval :=
  let d := o_val (fst r) in
  let srt := o_sorted (fst r) in
  let over := fst (snd r) in
  let start := if over && negb (is_list d) then o_val og else d in
  let own := fold_left (put f srt) os start in
  fold_left (put f srt) cs (if over then both srt (snd (snd r)) (o_val og) own else own).
Lemma middle : exists c2, c = scripts (notify_override c2) /\ shaped full c2 /\
  forall f r og, known f = Some r -> existsb (beqb f) starters = false -> look f g = Some og ->
  get f c2 = Some (in_c2 f r og).
Proof.
  destruct parts as (c1 & c2 & A1 & S1 & A2 & E). exists c2. split; [exact E|].
  split.
  { apply (shaped_apply cs (arg_lists marks g c1)); [|exact A2]. apply arg_lists_shaped; assumption. }
  intros f r og Hr Hp Hog. pose proof (start_look f r og Hr Hp Hog) as L1.
  pose proof (look_apply _ _ _ _ _ L1 A1) as L2.
  pose proof (arg_lists_look full f r g c1 og _ Hg S1 Hr Hog L2) as L3.
  pose proof (look_apply _ _ _ _ _ L3 A2) as L4. unfold get. rewrite L4. cbn [option_map]. unfold in_c2. cbv zeta.
  destruct (fst (snd r)) eqn:Eov; cbn [andb].
  - destruct (is_list (o_val (fst r))); reflexivity.
  - reflexivity.
Qed.
End One.
End Whole.

(* ---- The statements ---------------------------------------------------------- *)
(* The server has read its file sg, in which gs is set, and then the file of the
   client, in which os is set; cs is set on the command line. *)
Record served (incl : bytes -> option (list setting)) (cli : list bytes) (checks_s checks_c : conf -> bool)
              (path sg : bytes) (g c0 : conf) (cname : bytes) (files : bytes -> option bytes) (c : conf)
              (gs os cs : list setting) : Prop := {
  sv_global : load_global (inclusion incl) cli checks_s path sg = Some g;
  sv_gs : file_sets incl sg = Some gs;
  sv_cs : lines_set incl cli = Some cs;
  sv_cname : get_str (str "cname") c0 = Some cname;
  sv_client : exists before, load_clientconfdir (inclusion incl) cli checks_c before files g c0 = Some c;
  sv_file : exists dir s, get_str (str "clientconfdir") g = Some dir /\ files (prepend_s dir cname) = Some s /\ file_sets incl s = Some os
}.

Section Statements.
Variables (incl : bytes -> option (list setting)) (cli : list bytes) (checks_s checks_c : conf -> bool)
          (path sg : bytes) (g c0 : conf) (cname : bytes) (files : bytes -> option bytes) (c : conf)
          (gs os cs : list setting).
Hypothesis S : served incl cli checks_s checks_c path sg g c0 cname files c gs os cs.

Lemma S_shaped : shaped full g.
Proof. exact (global_shaped _ _ _ _ _ _ (sv_global _ _ _ _ _ _ _ _ _ _ _ _ _ _ S)). Qed.
Lemma S_middle : exists c2, c = scripts (notify_override c2) /\ shaped full c2 /\
  forall f r og, known f = Some r -> existsb (beqb f) starters = false -> look f g = Some og ->
  get f c2 = Some (in_c2 os cs f r og).
Proof.
  destruct S as [Hg Hgs Hcs Hcn [before Hcl] [dir [s [Hd [Hf Ho]]]]].
  apply (middle incl cli checks_c g c0 c before files dir cname s os cs S_shaped Hd Hcn Hf Ho Hcs Hcl).
Qed.
Lemma S_global : forall f r, known f = Some r -> not_end f -> beqb f (str "conffile") = false ->
  look f g = Some (set_val (fst r) (fold_left (put f (o_sorted (fst r))) (gs ++ cs) (o_val (fst r)))).
Proof.
  intros f r Hr Hn Hcf. destruct S as [Hg Hgs Hcs _ _ _].
  apply (global_plain incl cli checks_s path sg g f r gs cs); assumption.
Qed.

Lemma not_starter : forall f, plain f -> existsb (beqb f) starters = false.
Proof. intros f H. unfold plain in H. rewrite existsb_app in H. apply orb_false_iff in H. apply H. Qed.
Lemma not_conffile : forall f, plain f -> beqb f (str "conffile") = false.
Proof. intros f H. apply (plain_not _ f _ (not_starter f H)). inspec. Qed.

Lemma in_force_raw : forall f r, known f = Some r -> plain f ->
  get f c = Some (in_c2 os cs f r (set_val (fst r) (fold_left (put f (o_sorted (fst r))) (gs ++ cs) (o_val (fst r))))).
Proof.
  intros f r Hr Hp. destruct S_middle as [c2 [Ec2 [_ M]]]. rewrite Ec2. unfold get. rewrite look_end by (apply plain_end, Hp).
  apply (M f r); [exact Hr|apply not_starter, Hp|].
  apply S_global; [exact Hr|apply plain_end, Hp|apply not_conffile, Hp].
Qed.

(* A single value: the last setting of the command line, else of the file of the
   client, else, if the option may be inherited, of the file of the server, else
   the default *)
Lemma scalar_in_force : forall f o over repl, known f = Some (o, (over, repl)) -> plain f -> is_list (o_val o) = false ->
  get f c = Some (match last_of f cs with
                  | Some x => means f (o_val o) x
                  | None =>
                    match last_of f os with
                    | Some x => means f (o_val o) x
                    | None =>
                      match (if over then last_of f gs else None) with
                      | Some x => means f (o_val o) x
                      | None => o_val o
                      end
                    end
                  end).
Proof.
  intros f o over repl Hr Hp Hl. rewrite (in_force_raw f _ Hr Hp). f_equal. unfold in_c2. cbn [fst snd]. cbv zeta.
  rewrite Hl. cbn [negb]. rewrite andb_true_r.
  pose proof (comp_int_known f _ Hr) as Hci. cbn [fst] in Hci.
  cbn [set_val o_val].
  rewrite (fold_scalar f (o_sorted o) (gs ++ cs) (o_val o) Hl Hci), last_of_app.
  set (st := if over then _ else o_val o).
  assert (Kst : kind st = kind (o_val o)).
  { unfold st. destruct over; [|reflexivity]. destruct (last_of f cs), (last_of f gs); try reflexivity;
    unfold means; fold (comp f); destruct (comp f) eqn:Ec; try (symmetry; apply Hci, Ec); destruct (o_val o); reflexivity. }
  assert (Hst : is_list st = false) by (destruct st, (o_val o); try discriminate; reflexivity).
  assert (Cst : comp_int f st) by (intros E; rewrite Kst; apply Hci, E).
  rewrite (fold_scalar f (o_sorted o) os st Hst Cst).
  set (ow := match last_of f os with Some x => means f st x | None => st end).
  assert (Kow : kind ow = kind (o_val o)).
  { unfold ow. destruct (last_of f os); [|exact Kst].
    unfold means; fold (comp f); destruct (comp f) eqn:Ec; [symmetry; apply Hci, Ec|]. rewrite <- Kst. destruct st; reflexivity. }
  assert (B : forall v, (if over then both (o_sorted o) repl v ow else ow) = ow).
  { intros v. destruct over; [|reflexivity]. unfold both. destruct v; try reflexivity.
    destruct ow, (o_val o); try discriminate; reflexivity. }
  rewrite B.
  assert (How : is_list ow = false) by (destruct ow, (o_val o); try discriminate; reflexivity).
  assert (Cow : comp_int f ow) by (intros E; rewrite Kow; apply Hci, E).
  rewrite (fold_scalar f (o_sorted o) cs ow How Cow).
  destruct (last_of f cs) as [x|] eqn:Ecs; [apply means_kind, Kow|].
  unfold ow. destruct (last_of f os) as [x|]; [apply means_kind, Kst|].
  unfold st. destruct over; [|reflexivity]. destruct (last_of f gs); reflexivity.
Qed.

Lemma append_false : forall l d, append_strlist false l d = d ++ l.
Proof.
  unfold append_strlist. induction l as [|x l IH]; intros d; cbn [fold_left]; [symmetry; apply app_nil_r|].
  rewrite IH. unfold add_to_strlist. rewrite <- app_assoc. reflexivity.
Qed.
Lemma append_in : forall srt l d x, In x (append_strlist srt l d) <-> In x d \/ In x l.
Proof.
  unfold append_strlist. induction l as [|y l IH]; intros d x; cbn [fold_left In]; [intuition|].
  rewrite IH, add_in. intuition.
Qed.
Lemma comp_not_list : forall f r, known f = Some r -> is_list (o_val (fst r)) = true -> comp f = false.
Proof.
  intros f r Hr Hl. destruct (comp f) eqn:E; [|reflexivity]. pose proof (comp_int_known f r Hr E) as K.
  destruct (o_val (fst r)); discriminate.
Qed.

(* The table has no list that starts with something *)
Lemma list_empty : forall f r, known f = Some r -> is_list (o_val (fst r)) = true -> o_val (fst r) = VList [].
Proof.
  intros f r Hr Hl. unfold known in Hr. apply find_some in Hr as [Hi _].
  assert (X : forallb (fun r => match o_val (fst r) with VList (_ :: _) => false | _ => true end) full = true) by kat.
  rewrite forallb_forall in X. specialize (X r Hi). cbv beta in X. destruct (o_val (fst r)) as [| | |l|]; try discriminate.
  destruct l; [reflexivity|discriminate].
Qed.

(* A list that replaces: the own list, if there is one, else that of the server;
   the command line adds to it *)
Lemma list_in_force : forall f o, known f = Some (o, (true, true)) -> plain f -> is_list (o_val o) = true -> o_sorted o = false ->
  get f c = Some (VList (given f cs (match given f os [] with [] => given f (gs ++ cs) [] | l => l end))).
Proof.
  intros f o Hr Hp Hl Hs. rewrite (in_force_raw f _ Hr Hp). unfold in_c2. cbn [fst snd set_val o_val]. cbv zeta.
  pose proof (comp_not_list f _ Hr Hl) as Hc. pose proof (list_empty f _ Hr Hl) as E. cbn [fst] in E, Hc. rewrite E, Hs.
  cbn [is_list negb andb]. rewrite !fold_list by exact Hc. cbn [both].
  rewrite append_false. cbn [app].
  destruct (given f os []) eqn:G; rewrite fold_list by exact Hc; reflexivity.
Qed.

(* A list that adds: both together *)
Lemma list_together : forall f o, known f = Some (o, (true, false)) -> plain f -> is_list (o_val o) = true ->
  exists l, get f c = Some (VList l) /\
            forall x, In x l <-> In x (given f cs (given f (gs ++ cs) [] ++ given f os [])).
Proof.
  intros f o Hr Hp Hl. rewrite (in_force_raw f _ Hr Hp). unfold in_c2. cbn [fst snd set_val o_val]. cbv zeta.
  pose proof (comp_not_list f _ Hr Hl) as Hc. pose proof (list_empty f _ Hr Hl) as E. cbn [fst] in E, Hc. rewrite E.
  cbn [is_list negb andb].
  destruct (fold_list_in f (o_sorted o) (gs ++ cs) [] [] Hc ltac:(tauto)) as [lg [-> Ig]].
  destruct (fold_list_in f (o_sorted o) os [] [] Hc ltac:(tauto)) as [lo [-> Io]].
  cbn [both].
  destruct (fold_list_in f (o_sorted o) cs (append_strlist (o_sorted o) lo (append_strlist (o_sorted o) lg []))
              (given f (gs ++ cs) [] ++ given f os []) Hc) as [l [El Il]].
  { intros x. rewrite !append_in, in_app_iff, Ig, Io. cbn [In]. intuition. }
  exists l. split; [rewrite El; reflexivity|exact Il].
Qed.

(* A list that is not inherited *)
Lemma list_own : forall f o repl, known f = Some (o, (false, repl)) -> plain f -> is_list (o_val o) = true ->
  exists l, get f c = Some (VList l) /\ (forall x, In x l <-> In x (given f (os ++ cs) [])) /\
            (o_sorted o = false -> l = given f (os ++ cs) []).
Proof.
  intros f o repl Hr Hp Hl. rewrite (in_force_raw f _ Hr Hp). unfold in_c2. cbn [fst snd set_val o_val]. cbv zeta.
  pose proof (comp_not_list f _ Hr Hl) as Hc. pose proof (list_empty f _ Hr Hl) as E. cbn [fst] in E, Hc. rewrite E.
  cbn [andb]. rewrite <- fold_left_app.
  destruct (fold_list_in f (o_sorted o) (os ++ cs) [] [] Hc ltac:(tauto)) as [l [El Il]]. rewrite El.
  exists l. split; [reflexivity|]. split; [exact Il|].
  intros Hs. rewrite Hs, fold_list in El by exact Hc. injection El as <-. reflexivity.
Qed.

(* ---- The options with rules of their own ----------------------------------------- *)
Lemma get_str_look : forall f x o, look f x = Some o -> get_str f x = match o_val o with VStr s => s | _ => None end.
Proof. intros f x o H. unfold get_str. unfold look in H. rewrite H. reflexivity. Qed.
Lemma get_str_other : forall f x y, look f x = look f y -> get_str f x = get_str f y.
Proof. intros f x y H. unfold get_str. unfold look in H. rewrite H. reflexivity. Qed.
Lemma get_str_get : forall f x v, get f x = Some (VStr v) -> get_str f x = v.
Proof.
  intros f x v H. unfold get in H. destruct (look f x) as [o|] eqn:E; [|discriminate].
  rewrite (get_str_look _ _ _ E). cbn [option_map] in H. injection H as ->. reflexivity.
Qed.

Definition opt_str (a b : option bytes) : option bytes := match a with Some x => Some x | None => b end.

(* the end of conf_finalise() for the scripts of the server *)
Lemma scripts_server : forall x f, shaped full x -> In f (map str ["server_script_pre"; "server_script_post"]%string) ->
  get f (scripts (notify_override x))
  = match get_str (str "server_script") x with Some s => Some (VStr (Some s)) | None => get f x end.
Proof.
  intros x f Hs Hi.
  assert (Hn : forall h y, In h (map str ["server_script_pre"; "server_script_post"; "server_script"]%string) -> look h (notify_override y) = look h y).
  { intros h y Hh. unfold notify_override. cbv zeta. destruct (_ =? 0); [reflexivity|].
    rewrite !look_other_int; [reflexivity|cbn [map In] in Hh; destruct Hh as [<-|[<-|[<-|[]]]]; reflexivity..]. }
  unfold scripts. cbv zeta. unfold get.
  cbn [map In] in Hi.
  assert (Hd : f = str "server_script_pre" \/ f = str "server_script_post") by (destruct Hi as [<-|[<-|[]]]; auto). clear Hi.
  rewrite look_other_list by (destruct Hd; subst f; reflexivity).
  rewrite look_other_str by (destruct Hd; subst f; reflexivity).
  rewrite !look_other_args by (destruct Hd; subst f; reflexivity).
  set (y := pre_post_override (str "restore_script") _ _ _).
  assert (Ly : forall h, In h (map str ["server_script_pre"; "server_script_post"; "server_script"]%string) -> look h y = look h x).
  { intros h Hh. unfold y. rewrite !look_other_ppo; [apply Hn, Hh|cbn [map In] in Hh; destruct Hh as [<-|[<-|[<-|[]]]]; reflexivity..]. }
  unfold pre_post_override.
  rewrite (get_str_other (str "server_script") y x) by (apply Ly; cbn [map In]; auto).
  assert (Lf : look f y = look f x) by (apply Ly; cbn [map In]; destruct Hd; subst f; auto).
  destruct (get_str (str "server_script") x) as [v|]; [|rewrite Lf; reflexivity].
  assert (K : exists r, known f = Some r) by (destruct Hd; subst f; vm_compute; eexists; reflexivity).
  destruct K as [r Hr]. destruct (look_shaped full f r x Hs Hr) as [o [Lo _]].
  rewrite Lo in Lf.
  destruct Hd; subst f.
  - rewrite look_other_str by reflexivity.
    unfold set_str. rewrite (look_map _ _ (fun _ => VStr (Some v)) _ _ Lf), beqb_refl. reflexivity.
  - assert (L2 : look (str "server_script_post") (set_str (str "server_script_pre") (Some v) y) = Some o).
    { rewrite look_other_str by reflexivity. exact Lf. }
    unfold set_str at 1. rewrite (look_map _ _ (fun _ => VStr (Some v)) _ _ L2), beqb_refl. reflexivity.
Qed.

Lemma scalar_str : forall f ss v, comp f = false ->
  fold_left (put f false) ss (VStr v) = VStr (opt_str (last_of f ss) v).
Proof.
  intros f ss v Hc. rewrite fold_scalar; [|reflexivity|intros E; congruence].
  unfold means. fold (comp f). rewrite Hc. destruct (last_of f ss); reflexivity.
Qed.

Lemma end_global : exists x, g = scripts (notify_override x) /\ shaped full x /\
  forall f r, known f = Some r -> beqb f (str "conffile") = false ->
  get f x = Some (fold_left (put f (o_sorted (fst r))) (gs ++ cs) (o_val (fst r))).
Proof.
  destruct S as [Hg Hgs Hcs _ _ _]. unfold load_global, load_file, conf_finalise in Hg.
  destruct (parse_lines (inclusion incl) (fgets_lines sg [] 0) _) as [c1|] eqn:E1; [|discriminate].
  destruct (parse_lines (inclusion incl) cli c1) as [c2|] eqn:E2; [|discriminate].
  destruct (checks_s c2); [|discriminate]. injection Hg as <-. exists c2. split; [reflexivity|].
  apply parse_lines_sets in E1 as [gs' [Hg' E1]]. apply parse_lines_sets in E2 as [cs' [Hc' E2]].
  unfold file_sets in Hgs. rewrite Hgs in Hg'. injection Hg' as <-. rewrite Hcs in Hc'. injection Hc' as <-.
  assert (A : apply_all (gs ++ cs) (set_str (str "conffile") (Some path) defaults) = Some c2) by (rewrite apply_all_app, E1; exact E2).
  split.
  - apply (shaped_apply (gs ++ cs) (set_str (str "conffile") (Some path) defaults)); [|exact A].
    apply shaped_str; [kat|apply shaped_defaults].
  - intros f r Hr Hcf. unfold get. erewrite look_apply; [| |exact A].
    + cbn [option_map]. reflexivity.
    + rewrite look_other_str by exact Hcf. apply known_look, Hr.
Qed.

(* The script around what the server does: the general one of the command line or of
   the client's file, else the particular one from there, else the general one of
   the server's file, else the particular one from there *)
Lemma script_in_force : forall f, In f (map str ["server_script_pre"; "server_script_post"]%string) ->
  get f c = Some (VStr (opt_str (last_of (str "server_script") (os ++ cs))
                       (opt_str (last_of f (os ++ cs))
                       (opt_str (last_of (str "server_script") (gs ++ cs)) (last_of f gs))))).
Proof.
  intros f Hi.
  assert (Hd : f = str "server_script_pre" \/ f = str "server_script_post") by (cbn [map In] in Hi; destruct Hi as [<-|[<-|[]]]; auto).
  destruct end_global as [x [Ex [Sx Gx]]]. destruct S_middle as [c2 [Ec [S2 M]]].
  assert (Ks : known (str "server_script") = Some (mkopt (str "server_script") false false false (VStr None), (true, false))) by kat.
  assert (Kf : known f = Some (mkopt f false false false (VStr None), (true, false))) by (destruct Hd; subst f; kat).
  assert (Cs : comp (str "server_script") = false) by kat.
  assert (Cf : comp f = false) by (destruct Hd; subst f; kat).
  (* the server *)
  pose proof (Gx _ _ Ks eq_refl) as Gs. cbn [fst o_sorted o_val] in Gs. rewrite scalar_str in Gs by exact Cs.
  pose proof (Gx _ _ Kf ltac:(destruct Hd; subst f; reflexivity)) as Gf. cbn [fst o_sorted o_val] in Gf. rewrite scalar_str in Gf by exact Cf.
  assert (Gg : get f g = Some (VStr (opt_str (last_of (str "server_script") (gs ++ cs)) (last_of f (gs ++ cs))))).
  { rewrite Ex, scripts_server by assumption. rewrite (get_str_get _ _ _ Gs).
    destruct (last_of (str "server_script") (gs ++ cs)); cbn [opt_str]; [reflexivity|]. rewrite Gf. destruct (last_of f (gs ++ cs)); reflexivity. }
  assert (Gn : exists og, look (str "server_script") g = Some og /\ o_val og = VStr None).
  { rewrite Ex. unfold scripts. cbv zeta. rewrite look_other_list by reflexivity.
    match goal with |- exists og, look _ (set_str _ _ ?y) = _ /\ _ => assert (L : exists o, look (str "server_script") y = Some o) end.
    { rewrite !look_other_args by reflexivity. rewrite !look_other_ppo by reflexivity.
      destruct (look_shaped full _ _ (notify_override x) (shaped_notify _ Sx) Ks) as [o [L _]]. exists o. exact L. }
    destruct L as [o L]. unfold set_str. rewrite (look_map _ _ (fun _ => VStr None) _ _ L), beqb_refl. eexists. split; [reflexivity|reflexivity]. }
  destruct Gn as [og [Lg Vg]].
  unfold get in Gg. destruct (look f g) as [of|] eqn:Lf; [|discriminate]. cbn [option_map] in Gg. injection Gg as Vf.
  (* the client *)
  pose proof (M _ _ _ Ks eq_refl Lg) as Ms. unfold in_c2 in Ms. cbn [fst snd o_val o_sorted is_list negb andb] in Ms.
  rewrite Vg in Ms. rewrite scalar_str in Ms by exact Cs. cbn [both] in Ms. rewrite scalar_str in Ms by exact Cs.
  pose proof (M _ _ _ Kf ltac:(destruct Hd; subst f; reflexivity) Lf) as Mf. unfold in_c2 in Mf. cbn [fst snd o_val o_sorted is_list negb andb] in Mf.
  rewrite Vf in Mf. rewrite scalar_str in Mf by exact Cf. cbn [both] in Mf. rewrite scalar_str in Mf by exact Cf.
  rewrite Ec, scripts_server by assumption. rewrite (get_str_get _ _ _ Ms), Mf.
  rewrite !last_of_app.
  destruct (last_of (str "server_script") cs), (last_of (str "server_script") os), (last_of f cs), (last_of f os); cbn [opt_str];
    destruct (last_of (str "server_script") gs), (last_of f gs); reflexivity.
Qed.

(* The name expected in the certificate of the client *)
Lemma peer_cn_in_force :
  get (str "ssl_peer_cn") c
  = Some (VStr (opt_str (last_of (str "ssl_peer_cn") (os ++ cs))
                 (match last_of (str "ssl_peer_cn") (gs ++ cs) with Some _ => None | None => Some cname end))).
Proof.
  set (f := str "ssl_peer_cn").
  assert (Kf : known f = Some (mkopt f false false false (VStr None), (false, false))) by kat.
  assert (Cf : comp f = false) by kat.
  pose proof S_shaped as Hg. pose proof (S_global f _ Kf eq_refl eq_refl) as Lg. cbn [fst o_sorted o_val] in Lg.
  rewrite scalar_str in Lg by exact Cf.
  destruct S as [_ _ Hcs Hcn [before Hcl] [dir [s [Hd [Hf Ho]]]]].
  destruct (parts incl cli checks_c g c0 c before files dir cname s os cs Hg Hd Hcn Hf Ho Hcs Hcl) as (c1 & c2 & A1 & S1 & A2 & ->).
  unfold get. rewrite look_end by reflexivity.
  assert (L0 : look f (from_global marks g (init_save c0)) = Some (mkopt f false false false (VStr None))).
  { erewrite (from_global_look full f (mkopt f false false false (VStr None), (false, false)) g); [reflexivity|exact Hg|apply shaped_init|exact Kf|exact Lg|].
    unfold init_save. rewrite !look_other_str by reflexivity. apply (known_look f _ Kf). }
  assert (Gn : get_str (str "cname") (from_global marks g (init_save c0)) = Some cname).
  { assert (Kc : known (str "cname") = Some (mkopt (str "cname") false false false (VStr None), (false, false))) by kat.
    destruct (look_shaped full _ _ (init_save c0) (shaped_init c0) Kc) as [oc [Lc _]].
    destruct (look_shaped full _ _ g Hg Kc) as [ogc [Lgc _]].
    rewrite (get_str_look _ _ oc).
    - rewrite <- (get_str_look _ _ _ Lc). rewrite init_str; [exact Hcn|kat|vm_compute; discriminate|cbn [map In]; auto].
    - erewrite (from_global_look full (str "cname") _ g); [|exact Hg|apply shaped_init|exact Kc|exact Lgc|exact Lc]. reflexivity. }
  assert (L1 : look f (conf_set_from_global g (init_save c0))
               = Some (mkopt f false false false (VStr (match last_of f (gs ++ cs) with Some _ => None | None => Some cname end)))).
  { unfold conf_set_from_global. cbv zeta. fold f. rewrite (get_str_look _ _ _ Lg). cbn [set_val o_val].
    destruct (last_of f (gs ++ cs)); cbn [opt_str]; [exact L0|].
    unfold set_str. rewrite (look_map _ _ (fun _ => VStr (get_str (str "cname") (from_global marks g (init_save c0)))) _ _ L0), beqb_refl, Gn. reflexivity. }
  pose proof (look_apply _ _ _ _ _ L1 A1) as L2. cbn [o_sorted o_val] in L2. rewrite scalar_str in L2 by exact Cf.
  pose proof (arg_lists_look full f _ g c1 _ _ Hg S1 Kf Lg L2) as L3. cbn [fst snd] in L3.
  pose proof (look_apply _ _ _ _ _ L3 A2) as L4. cbn [o_sorted o_val set_val] in L4. rewrite scalar_str in L4 by exact Cf.
  rewrite L4. cbn [option_map set_val o_val]. rewrite (last_of_app f os cs). destruct (last_of f cs), (last_of f os); reflexivity.
Qed.
End Statements.

(* What a client may not have from the server depends on its own file alone *)
Lemma own_only : forall incl cli cs1 cc1 cs2 cc2 p1 sg1 g1 p2 sg2 g2 c01 c02 n1 n2 files1 files2 c1 c2 gs1 gs2 os cs,
  served incl cli cs1 cc1 p1 sg1 g1 c01 n1 files1 c1 gs1 os cs ->
  served incl cli cs2 cc2 p2 sg2 g2 c02 n2 files2 c2 gs2 os cs ->
  forall f o repl, known f = Some (o, (false, repl)) -> plain f -> get f c1 = get f c2.
Proof.
  intros until cs. intros S1 S2 f o repl Hr Hp.
  rewrite (in_force_raw _ _ _ _ _ _ _ _ _ _ _ _ _ _ S1 f _ Hr Hp), (in_force_raw _ _ _ _ _ _ _ _ _ _ _ _ _ _ S2 f _ Hr Hp).
  reflexivity.
Qed.
(* Nothing stays of what was in force for another client before *)
Lemma fresh : forall inclusion cli checks before files g c0 c0',
  get_str (str "cname") c0 = get_str (str "cname") c0' ->
  get_str (str "peer_version") c0 = get_str (str "peer_version") c0' ->
  load_clientconfdir inclusion cli checks before files g c0 = load_clientconfdir inclusion cli checks before files g c0'.
Proof. intros. unfold load_clientconfdir, init_save. rewrite H, H0. reflexivity. Qed.

(* ---- The lines of a file ---------------------------------------------------------- *)
Lemma fgets_line : forall l r cur k, Forall (fun x => x <> 10) l -> 0 <= k -> k + Z.of_nat (length l) <= 4094 ->
  fgets_lines (l ++ 10 :: r) cur k = (rev cur ++ l) :: fgets_lines r [] 0.
Proof.
  induction l as [|x l IH]; intros r cur k Hl Hk Hn; cbn [app fgets_lines].
  - rewrite app_nil_r. reflexivity.
  - inversion Hl as [|? ? Hx Hl']; subst. cbn [length] in Hn.
    destruct (Z.eqb_spec x 10); [contradiction|]. destruct (Z.eqb_spec k 4094); [lia|].
    rewrite IH; [|exact Hl'|lia|lia]. cbn [rev]. rewrite <- app_assoc. reflexivity.
Qed.
Lemma file_lines : forall ls, Forall (fun l => Forall (fun x => x <> 10) l /\ Z.of_nat (length l) <= 4094) ls ->
  fgets_lines (concat (map (fun l => l ++ [10]) ls)) [] 0 = ls.
Proof.
  induction ls as [|l ls IH]; intros H; cbn [map concat]; [reflexivity|].
  inversion H as [|? ? [H1 H2] H3]; subst. rewrite <- app_assoc. cbn [app].
  rewrite fgets_line; [|exact H1|lia|lia]. cbn [rev app]. rewrite IH by exact H3. reflexivity.
Qed.

(* The options that a client has from the server if its own file is silent *)
Definition inheritable : list bytes :=
  map str [ "network_allow"; "network_allow_status"; "max_parallel_backups"; "client_lockdir";
    "rblk_memory_max"; "sparse_size_max"; "enabled"; "readall"; "breakpoint"; "conffile"; "syslog"; "stdout";
    "progress_counter"; "user"; "group"; "directory"; "timestamp_format"; "clientconfdir"; "directory_tree";
    "password_check"; "manual_delete"; "monitor_browse_cache"; "server_script_pre"; "server_script_pre_arg";
    "server_script_pre_notify"; "server_script_post"; "server_script_post_arg"; "server_script_post_run_on_fail";
    "server_script_post_notify"; "server_script"; "server_script_arg"; "server_script_notify"; "hardlinked_archive";
    "keep"; "librsync"; "librsync_max_size"; "compression"; "version_warn"; "path_length_warn"; "hard_quota";
    "soft_quota"; "timer_script"; "timer_arg"; "timer_repeat_interval"; "label"; "notify_success_script";
    "notify_success_arg"; "notify_success_warnings_only"; "notify_success_changes_only"; "notify_failure_script";
    "notify_failure_arg"; "notify_failure_on_backup_with_failovers_left"; "notify_failure_on_backup_working_dir_deletion";
    "restore_client"; "super_client"; "dedup_group"; "client_can_delete"; "client_can_diff"; "client_can_force_backup";
    "client_can_list"; "client_can_monitor"; "client_can_restore"; "client_can_verify"; "server_can_restore";
    "working_dir_recovery_method"; "max_resume_attempts"; "fail_on_warning" ]%string.
Definition inherits (f : bytes) : bool := match known f with Some (_, (over, _)) => over | None => false end.
Lemma inherited : forall f, f <> [] -> (exists o repl, known f = Some (o, (true, repl))) <-> In f inheritable.
Proof.
  intros f Hf. split.
  - intros [o [repl H]]. unfold known in H. apply find_some in H as [Hi E]. cbn [fst] in E. apply beqb_eq in E. subst f.
    assert (X : forallb (fun r : opt * (bool * bool) => if fst (snd r) then existsb (beqb (o_field (fst r))) ([] :: inheritable) else true) full = true) by kat.
    rewrite forallb_forall in X. specialize (X _ Hi). cbn [fst snd] in X. apply existsb_exists in X as [y [Hy E]].
    apply beqb_eq in E. destruct Hy as [<-|Hy]; [contradiction|]. rewrite E. exact Hy.
  - intros Hi.
    assert (X : forallb inherits inheritable = true) by kat.
    rewrite forallb_forall in X. specialize (X f Hi). unfold inherits in X. destruct (known f) as [[o [over repl]]|]; [|discriminate].
    subst over. eauto.
Qed.
