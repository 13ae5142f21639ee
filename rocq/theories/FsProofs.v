(* Specification and proofs for FsModel. *)
From Verif Require Import Bytes PathcmpModel PathcmpProofs CntrModel CntrProofs FsModel.

(* ---------- Specification ---------- *)

(* What is left is part of what was there: no entry is new, none has another
   content, none has moved. *)
Inductive part : node -> node -> Prop :=
| part_leaf : forall b, part (Leaf b) (Leaf b)
| part_dir : forall l' l, parts l' l -> part (Dir l') (Dir l)
with parts : list (bytes * node) -> list (bytes * node) -> Prop :=
| parts_nil : parts [] []
| parts_drop : forall e l' l, parts l' l -> parts l' (e :: l)
| parts_keep : forall name x' x l' l, part x' x -> parts l' l -> parts ((name, x') :: l') ((name, x) :: l).

(* All that is no directory, with its path and content, in order. *)
Fixpoint leaves (p : list bytes) (n : node) : list (list bytes * bytes) :=
  match n with
  | Leaf b => [(p, b)]
  | Dir l => flat_map (fun e => leaves (p ++ [fst e]) (snd e)) l
  end.

(* The same of what may not be there. *)
Definition oleaves (p : list bytes) (n : option node) : list (list bytes * bytes) :=
  match n with Some n => leaves p n | None => [] end.

(* No directory in it is without a file below it. *)
Inductive full : node -> Prop :=
| full_leaf : forall b, full (Leaf b)
| full_dir : forall l, l <> [] -> (forall e, In e l -> full (snd e)) -> full (Dir l).

(* Nothing is refused. *)
Definition willing (w : rules) : Prop :=
  forall p, no_look w p = false /\ no_open w p = false /\ no_unlink w p = false
            /\ no_rmdir w p = false /\ no_read w p = None.

(* ---------- Induction ---------- *)

Fixpoint node_ind' (P : node -> Prop) (hl : forall b, P (Leaf b))
    (hd : forall l, (forall e, In e l -> P (snd e)) -> P (Dir l)) (n : node) {struct n} : P n :=
  match n with
  | Leaf b => hl b
  | Dir l => hd l ((fix go (l : list (bytes * node)) : forall e, In e l -> P (snd e) :=
       match l return forall e, In e l -> P (snd e) with
       | [] => fun e h => match h with end
       | x :: r => fun e h =>
           match h with
           | or_introl q => match q in _ = y return P (snd y) with eq_refl => node_ind' P hl hd (snd x) end
           | or_intror h => go r e h
           end
       end) l)
  end.

Lemma part_refl : forall n, part n n.
Proof.
  induction n as [b|l IH] using node_ind'. - constructor.
  - constructor. induction l as [|[m x] r IHr]; [constructor|].
    apply parts_keep. + apply (IH (m, x)); now left. + apply IHr; intros; apply IH; now right.
Qed.
Lemma parts_refl : forall l, parts l l.
Proof. intro l. assert (h := part_refl (Dir l)). now inversion h. Qed.
Lemma parts_app : forall a' a l' l, parts a' a -> parts l' l -> parts (a' ++ l') (a ++ l).
Proof. intros a' a l' l h; revert l' l; induction h; intros; cbn; [auto|now apply parts_drop; auto|apply parts_keep; auto]. Qed.

Section Del.
Variable w : rules.
Variable df ig : bool.

(* One step of the loop, unfolded. *)
Lemma loop_eq : forall rec p k ret kids,
  del_loop w df rec p k ret kids =
  if match no_read w p with Some j => Nat.eqb j k | None => false end then (ret, false, kids)
  else match kids with
       | [] => (RECDEL_OK, true, [])
       | (name, x) :: r =>
         match x with
         | Dir _ =>
           let '(c, y) := rec (p ++ [name]) x in
           if c =? RECDEL_ERROR then (ret, false, keep name y ++ r)
           else let '(ret, fin, l) := del_loop w df rec p (S k) (if c =? RECDEL_REMAINING then c else ret) r in
                (ret, fin, keep name y ++ l)
         | Leaf _ =>
           if df && negb (no_unlink w (p ++ [name])) then del_loop w df rec p (S k) ret r
           else let '(ret, fin, l) := del_loop w df rec p (S k) RECDEL_REMAINING r in (ret, fin, (name, x) :: l)
         end
       end.
Proof. intros; destruct kids as [|[name [b|l]] r]; reflexivity. Qed.

Lemma keep_part : forall m y x, match y with Some y => part y x | None => True end -> parts (keep m y) [(m, x)].
Proof. intros m [y|] x h; cbn. - apply parts_keep; [auto|constructor]. - apply parts_drop; constructor. Qed.

(* ---------- what is left ---------- *)
Lemma del_part : forall n p, match snd (del w df ig p n) with Some n' => part n' n | None => True end.
Proof.
  induction n as [b|l IH] using node_ind'; intro p; cbn [del].
  - destruct (no_look w p); cbn; apply part_refl.
  - destruct (no_look w p); [cbn; apply part_refl|]. destruct (no_open w p); [cbn; apply part_refl|].
    assert (H : forall k ret, parts (snd (del_loop w df (del w df ig) p k ret l)) l).
    { induction l as [|[m x] r IHr]; intros k ret; rewrite loop_eq.
      - destruct (match no_read w p with Some j => _ | None => _ end); cbn; constructor.
      - destruct (match no_read w p with Some j => _ | None => _ end); [cbn; apply parts_refl|].
        assert (IHr' := IHr (fun e h => IH e (or_intror h))). clear IHr.
        assert (IHx := IH (m, x) (or_introl eq_refl) (p ++ [m])). cbn [snd] in IHx.
        destruct x as [b|ll].
        + destruct (df && _).
          * apply parts_drop, IHr'.
          * specialize (IHr' (S k) RECDEL_REMAINING). destruct (del_loop _ _ _ _ _ _ _) as [[a b'] c]. cbn in *.
            apply parts_keep; [constructor|auto].
        + destruct (del w df ig (p ++ [m]) (Dir ll)) as [c y] eqn:E. cbn [snd] in IHx.
          destruct (c =? RECDEL_ERROR).
          * cbn [snd]. apply (parts_app _ [_]); [now apply keep_part|apply parts_refl].
          * specialize (IHr' (S k) (if c =? RECDEL_REMAINING then c else ret)).
            destruct (del_loop _ _ _ _ _ _ _) as [[a b'] d]. cbn [snd] in *.
            apply (parts_app _ [_]); [now apply keep_part|auto]. }
    specialize (H O RECDEL_ERROR). destruct (del_loop _ _ _ _ _ _ _) as [[ret fin] l']. cbn [snd] in H.
    destruct fin; [|cbn; now constructor]. destruct (no_rmdir w p); [cbn; now constructor|].
    destruct l'; cbn; [auto|now constructor].
Qed.

End Del.

(* Without delfiles no file goes. *)
Lemma del_leaves : forall w ig n p, oleaves p (snd (del w false ig p n)) = leaves p n.
Proof.
  intros w ig. induction n as [b|l IH] using node_ind'; intro p; cbn [del].
  - destruct (no_look w p); reflexivity.
  - destruct (no_look w p); [reflexivity|]. destruct (no_open w p); [reflexivity|].
    assert (H : forall k ret, flat_map (fun e => leaves (p ++ [fst e]) (snd e)) (snd (del_loop w false (del w false ig) p k ret l))
                              = flat_map (fun e => leaves (p ++ [fst e]) (snd e)) l).
    { induction l as [|[m x] r IHr]; intros k ret; rewrite loop_eq.
      - destruct (match no_read w p with Some j => _ | None => _ end); reflexivity.
      - destruct (match no_read w p with Some j => _ | None => _ end); [reflexivity|].
        assert (IHr' := IHr (fun e h => IH e (or_intror h))). clear IHr.
        assert (IHx := IH (m, x) (or_introl eq_refl) (p ++ [m])). cbn [snd] in IHx.
        destruct x as [b|ll].
        + cbn [andb]. specialize (IHr' (S k) RECDEL_REMAINING). destruct (del_loop _ _ _ _ _ _ _) as [[a b'] c].
          cbn [snd] in *. cbn [flat_map]. now rewrite IHr'.
        + destruct (del w false ig (p ++ [m]) (Dir ll)) as [c y] eqn:E. cbn [snd] in IHx.
          assert (K : flat_map (fun e => leaves (p ++ [fst e]) (snd e)) (keep m y) = leaves (p ++ [m]) (Dir ll)).
          { rewrite <- IHx. destruct y; cbn [keep flat_map oleaves fst snd]; [now rewrite app_nil_r|reflexivity]. }
          destruct (c =? RECDEL_ERROR).
          * cbn [snd]. rewrite flat_map_app, K. reflexivity.
          * specialize (IHr' (S k) (if c =? RECDEL_REMAINING then c else ret)).
            destruct (del_loop _ _ _ _ _ _ _) as [[a b'] d]. cbn [snd] in *.
            rewrite flat_map_app, K, IHr'. reflexivity. }
    specialize (H O RECDEL_ERROR). destruct (del_loop _ _ _ _ _ _ _) as [[ret fin] l']. cbn [snd] in H.
    destruct fin; [|exact H]. destruct (no_rmdir w p); [exact H|].
    destruct l'; [|exact H]. exact H.
Qed.

(* ---------- what is returned ---------- *)

(* ret is never RECDEL_OK before the end of the directory. *)
Lemma loop_ret : forall w df rec p kids k ret, ret <> RECDEL_OK ->
  let '(c, fin, _) := del_loop w df rec p k ret kids in fin = false -> c <> RECDEL_OK.
Proof.
  intros w df rec p kids; induction kids as [|[m x] r IH]; intros k ret h; rewrite loop_eq.
  - destruct (match no_read w p with Some j => _ | None => _ end); [auto|discriminate].
  - destruct (match no_read w p with Some j => _ | None => _ end); [auto|]. destruct x as [b|ll].
    + destruct (df && _). * now apply IH.
      * specialize (IH (S k) RECDEL_REMAINING ltac:(discriminate)).
        destruct (del_loop _ _ _ _ _ _ _) as [[a b'] c]. auto.
    + destruct (rec (p ++ [m]) (Dir ll)) as [c y]. destruct (c =? RECDEL_ERROR) eqn:E1; [auto|].
      assert (H : (if c =? RECDEL_REMAINING then c else ret) <> RECDEL_OK).
      { destruct (c =? RECDEL_REMAINING) eqn:E2; [|auto]. apply Z.eqb_eq in E2; subst; discriminate. }
      specialize (IH (S k) _ H). destruct (del_loop _ _ _ _ _ _ _) as [[a b'] d]. auto.
Qed.

(* With not-empty errors minded, 0 means gone. *)
Lemma del_ret : forall w df n p, no_look w p = false ->
  (fst (del w df false p n) = RECDEL_OK <-> snd (del w df false p n) = None).
Proof.
  intros w df [b|l] p h; cbn [del]; rewrite h; [split; discriminate|].
  destruct (no_open w p); [split; discriminate|].
  assert (H := loop_ret w df (del w df false) p l O RECDEL_ERROR ltac:(discriminate)).
  destruct (del_loop _ _ _ _ _ _ _) as [[ret fin] l']. destruct fin.
  - destruct (no_rmdir w p); [split; discriminate|]. destruct l'; split; auto; discriminate.
  - split; [intro e; exfalso; now apply H|discriminate].
Qed.

Lemma delete_part : forall w n, match snd (recursive_delete w n) with
  | Some n' => match n with Some n => part n' n | None => False end | None => True end.
Proof.
  intros w [[b|l]|]; unfold recursive_delete; [| |exact Logic.I].
  - destruct (no_look w []); [apply part_refl|]. destruct (no_unlink w []); [apply part_refl|exact Logic.I].
  - apply del_part.
Qed.
Lemma delete_ret : forall w n, no_look w [] = false ->
  (fst (recursive_delete w n) = 0 <-> snd (recursive_delete w n) = None).
Proof.
  intros w [[b|l]|] h; unfold recursive_delete.
  - rewrite h. destruct (no_unlink w []); split; auto; discriminate.
  - now apply del_ret.
  - split; auto.
Qed.

Lemma willing_del : forall w ig, (forall p, no_look w p = false /\ no_open w p = false /\ no_rmdir w p = false /\ no_read w p = None) ->
  forall n p, (forall q m, no_unlink w (p ++ q ++ [m]) = false) -> (exists l, n = Dir l) -> del w true ig p n = (RECDEL_OK, None).
Proof.
  intros w ig hw. induction n as [b|l IH] using node_ind'; intros p hu [l0 e]; [discriminate|]. clear e l0.
  destruct (hw p) as (a1 & a2 & a4 & a5). cbn [del]. rewrite a1, a2.
  assert (H : forall k ret, del_loop w true (del w true ig) p k ret l = (RECDEL_OK, true, [])).
  { induction l as [|[m x] r IHr]; intros k ret; rewrite loop_eq, a5; [reflexivity|].
    assert (IHr' := IHr (fun e h => IH e (or_intror h))). clear IHr.
    destruct x as [b|ll].
    - rewrite (hu [] m : no_unlink w (p ++ [m]) = false). cbn. apply IHr'.
    - assert (IHx := IH (m, Dir ll) (or_introl eq_refl) (p ++ [m])). cbn [snd] in IHx.
      rewrite IHx; [|intros q m'; rewrite <- app_assoc; apply (hu (m :: q))|now exists ll].
      cbn. now rewrite IHr'. }
  rewrite H, a4. reflexivity.
Qed.
Lemma delete_all : forall w n, willing w -> recursive_delete w n = (0, None).
Proof.
  intros w [[b|l]|] hw; unfold recursive_delete; [|apply willing_del; [intro p; destruct (hw p) as (? & ? & ? & ? & ?); auto|intros; apply hw|now exists l]|reflexivity].
  destruct (hw []) as (-> & _ & -> & _). reflexivity.
Qed.

(* Only files of the directory itself are refused. *)
Lemma flat_loop : forall w p rec (hw : forall p, no_look w p = false /\ no_open w p = false /\ no_rmdir w p = false /\ no_read w p = None)
    l k ret, (forall m ll, In (m, Dir ll) l -> rec (p ++ [m]) (Dir ll) = (RECDEL_OK, None)) ->
  exists ret', del_loop w true rec p k ret l = (ret', true,
    filter (fun e => match snd e with Leaf _ => no_unlink w (p ++ [fst e]) | Dir _ => false end) l).
Proof.
  intros w p rec hw. destruct (hw p) as (a1 & a2 & a3 & a4).
  induction l as [|[m x] r IH]; intros k ret h; rewrite loop_eq, a4; [now eexists|].
  destruct x as [b|ll]; cbn [filter fst snd andb].
  - destruct (no_unlink w (p ++ [m])); cbn [negb].
    + destruct (IH (S k) RECDEL_REMAINING) as [r' ->]; [intros; apply h; now right|]. now eexists.
    + apply IH. intros; apply h; now right.
  - rewrite h by now left. cbn [keep app]. change (RECDEL_OK =? RECDEL_ERROR) with false. cbv iota.
    destruct (IH (S k) (if RECDEL_OK =? RECDEL_REMAINING then RECDEL_OK else ret)) as [r' ->]; [intros; apply h; now right|]. now eexists.
Qed.
Lemma delete_flat : forall w l,
  (forall p, no_look w p = false /\ no_open w p = false /\ no_rmdir w p = false /\ no_read w p = None) ->
  (forall p, no_unlink w p = true -> exists m, p = [m]) ->
  snd (recursive_delete w (Some (Dir l))) =
  match filter (fun e => match snd e with Leaf _ => no_unlink w [fst e] | Dir _ => false end) l with
  | [] => None | r => Some (Dir r) end.
Proof.
  intros w l hw hu. unfold recursive_delete. cbn [del]. destruct (hw []) as (a1 & a2 & a3 & a4). rewrite a1, a2.
  destruct (flat_loop w [] (del w true false) hw l O RECDEL_ERROR) as [r' ->].
  - intros m ll _. apply willing_del; [auto| |now exists ll]. intros q m'.
    destruct (no_unlink w _) eqn:E; [|auto]. destruct (hu _ E) as [x hx]. cbn in hx. destruct q; discriminate.
  - rewrite a3. cbn [app]. destruct (filter _ l); reflexivity.
Qed.

(* ---------- directories only ---------- *)
Lemma quiet_loop : forall w rec p l k ret, no_read w p = None ->
  (forall m ll, In (m, Dir ll) l -> exists y, rec (p ++ [m]) (Dir ll) = (RECDEL_OK, y) /\ match y with Some y => full y | None => True end) ->
  exists r l', del_loop w false rec p k ret l = (r, true, l') /\ forall e, In e l' -> full (snd e).
Proof.
  intros w rec p l k ret a; revert k ret; induction l as [|[m x] r IH]; intros k ret h; rewrite loop_eq, a.
  - exists RECDEL_OK, []. split; [auto|intros e []].
  - destruct x as [b|ll].
    + cbn [andb]. destruct (IH (S k) RECDEL_REMAINING) as (c & l' & -> & hl); [intros; apply h; now right|].
      do 2 eexists; split; [reflexivity|]. intros e [<-|i]; [constructor|auto].
    + destruct (h m ll (or_introl eq_refl)) as (y & -> & hy). change (RECDEL_OK =? RECDEL_ERROR) with false. cbv iota.
      destruct (IH (S k) (if RECDEL_OK =? RECDEL_REMAINING then RECDEL_OK else ret)) as (c & l' & -> & hl); [intros; apply h; now right|].
      do 2 eexists; split; [reflexivity|]. intros e i. apply in_app_or in i as [i|i]; [|auto].
      destruct y; [|destruct i]. destruct i as [<-|[]]. exact hy.
Qed.
Lemma quiet_del : forall w, willing w -> forall n p, (exists l, n = Dir l) ->
  exists y, del w false true p n = (RECDEL_OK, y) /\ match y with Some y => full y | None => True end.
Proof.
  intros w hw. induction n as [b|l IH] using node_ind'; intros p [l0 e]; [discriminate|]. clear e l0.
  destruct (hw p) as (a1 & a2 & a3 & a4 & a5). cbn [del]. rewrite a1, a2.
  destruct (quiet_loop w (del w false true) p l O RECDEL_ERROR a5) as (c & l' & -> & hl).
  - intros m ll i. apply (IH (m, Dir ll) i). now exists ll.
  - rewrite a4. destruct l' as [|e l']; [exists None; auto|]. eexists; split; [reflexivity|]. constructor; [discriminate|auto].
Qed.
Lemma quiet_ret : forall w l, willing w -> fst (dirs_only_quiet w (Some (Dir l))) = 0.
Proof. intros w l hw. cbn [dirs_only_quiet]. destruct (quiet_del w hw (Dir l) []) as (y & -> & _); [now exists l|auto]. Qed.
Lemma quiet_full : forall w l n', willing w -> snd (dirs_only_quiet w (Some (Dir l))) = Some n' -> full n'.
Proof. intros w l n' hw. cbn [dirs_only_quiet]. destruct (quiet_del w hw (Dir l) []) as (y & -> & hy); [now exists l|]. cbn. intros ->. exact hy. Qed.
Lemma quiet_leaves : forall w n, oleaves [] (snd (dirs_only_quiet w n)) = oleaves [] n /\ oleaves [] (snd (dirs_only w n)) = oleaves [] n.
Proof. intros w [n|]; [|auto]. split; apply del_leaves. Qed.
Lemma only_part : forall w n, match snd (dirs_only w (Some n)) with Some n' => part n' n | None => True end
  /\ match snd (dirs_only_quiet w (Some n)) with Some n' => part n' n | None => True end.
Proof. intros; split; apply del_part. Qed.

(* ---------- making a path ---------- *)

(* c is above p: a beginning of it, and not all of it. *)
Definition above (c p : list bytes) : Prop := exists r, r <> [] /\ p = c ++ r.

Lemma path_text_app : forall a b, path_text (a ++ b) = path_text a ++ path_text b.
Proof. induction a; intros; cbn; [auto|]. now rewrite IHa, app_assoc. Qed.
Lemma path_text_ne : forall a, a <> [] -> path_text a <> [].
Proof. destruct a; [congruence|discriminate]. Qed.
Lemma path_lt_pre : forall a b, b <> [] -> path_lt a (a ++ b).
Proof. induction a; intros; cbn. - destruct b; [congruence|constructor]. - apply plt_tail; auto. Qed.
Lemma text_inj : forall a b, path_lt a b -> pathcmp_s a b < 0.
Proof. intros a b h. rewrite (pathcmp_s_lt _ _ h). lia. Qed.

Section Mk.
Variable ex : list bytes -> option kind.
Variable can : list bytes -> bool.

(* What is below something that is not there is not there either. *)
Definition consistent : Prop := forall c p, above c p -> c <> [] -> ex c = None -> ex p = None.

(* The directories that are missing on the way to p, the highest first. *)
Fixpoint missing (r : list bytes) : list (list bytes) :=
  match r with
  | [] => []
  | _ :: up => match up with [] => [] | _ => match ex (rev up) with None => missing up ++ [rev up] | Some _ => [] end end
  end.

Lemma mk_made : forall lim r made ok, mkpath_rev ex can lim r = (made, ok) ->
  exists rest, missing r = made ++ rest /\ (ok = true -> rest = []) /\
    (ok = false -> exists d rest', rest = d :: rest' /\ (too_high lim d = true \/ can d = false)) /\
    (forall d, In d made -> too_high lim d = false /\ can d = true).
Proof.
  induction r as [|c up IH]; intros made ok h.
  - injection h as e1 e2; subst made ok. exists []. cbn. repeat split; auto; try discriminate; contradiction.
  - cbn [mkpath_rev missing] in *. destruct up as [|d up'].
    + injection h as e1 e2; subst made ok. exists []. cbn. repeat split; auto; try discriminate; contradiction.
    + set (up := d :: up') in *. destruct (ex (rev up)) eqn:E.
      * injection h as e1 e2; subst made ok. exists []. cbn. repeat split; auto; try discriminate; contradiction.
      * destruct (mkpath_rev ex can lim up) as [m o]. destruct (IH m o eq_refl) as (rest & hm & h1 & h2 & h3).
        destruct o; cbn [negb] in h.
        -- rewrite (h1 eq_refl), app_nil_r in hm.
           destruct (too_high lim (rev up)) eqn:Et.
           { injection h as e1 e2; subst made ok. exists [rev up]. repeat split; try discriminate; auto. - now rewrite hm.
             - intros _. now exists (rev up), []; auto. - now apply h3. - now apply h3. }
           destruct (can (rev up)) eqn:Ec; injection h as e1 e2; subst made ok.
           { exists []. rewrite app_nil_r. repeat split; auto; try discriminate. - now rewrite hm.
             - apply in_app_or in H as [i|[<-|[]]]; [now apply h3|auto].
             - apply in_app_or in H as [i|[<-|[]]]; [now apply h3|auto]. }
           { exists [rev up]. repeat split; try discriminate; auto. - now rewrite hm.
             - intros _. now exists (rev up), []; auto. - now apply h3. - now apply h3. }
        -- injection h as e1 e2; subst made ok. destruct (h2 eq_refl) as (dd & rest' & -> & hd).
           exists (dd :: rest' ++ [rev up]). repeat split; try discriminate.
           ++ rewrite hm, <- app_assoc. reflexivity.
           ++ intros _. now exists dd, (rest' ++ [rev up]).
           ++ now apply h3.
           ++ now apply h3.
Qed.

(* missing is what it should be. *)
Lemma missing_iff : consistent -> forall r d, In d (missing r) <-> (d <> [] /\ above d (rev r) /\ ex d = None).
Proof.
  intros hc. induction r as [|c up IH]; intro d.
  - cbn. split; [tauto|]. intros (h & (x & hx & e) & _). symmetry in e. apply app_eq_nil in e as [-> ->]. congruence.
  - cbn [missing rev]. destruct up as [|b up'].
    + cbn. split; [tauto|]. intros (h & (x & hx & e) & _). destruct d as [|y d]; [congruence|].
      destruct d; [|discriminate]. destruct x; [congruence|discriminate].
    + set (up := b :: up') in *.
      assert (Hab : forall d, above d (rev up ++ [c]) <-> d = rev up \/ above d (rev up)).
      { clear. intro d. split.
        - intros (x & hx & e). destruct (exists_last hx) as (x' & l & ->). rewrite app_assoc in e.
          apply app_inj_tail in e as [e _]. destruct x'; [left; now rewrite app_nil_r in e|right].
          exists (b0 :: x'). split; [discriminate|auto].
        - intros [->|(x & hx & e)]; [exists [c]; split; [discriminate|auto]|].
          exists (x ++ [c]). split; [destruct x; discriminate|]. now rewrite e, app_assoc. }
      destruct (ex (rev up)) eqn:E.
      * split; [intros []|]. intros (h & ha & hx). exfalso. apply Hab in ha as [->|ha]; [congruence|].
        assert (F := hc _ _ ha h hx). congruence.
      * rewrite in_app_iff, IH. rewrite Hab. split.
        -- intros [(h1 & h2 & h3)|[<-|[]]]; [auto|]. split; [|auto]. subst up. cbn. intro F. symmetry in F. now apply app_cons_not_nil in F.
        -- intros (h1 & [->|h2] & h3); [right; now left|left; auto].
Qed.

Theorem mkpath_whole : consistent -> forall lim p made,
  mkpath ex can lim p = (made, true) ->
  forall d, In d made <-> (d <> [] /\ above d p /\ ex d = None).
Proof.
  intros hc lim p made h d. unfold mkpath in h. destruct (mk_made _ _ _ _ h) as (rest & hm & h1 & _).
  rewrite (h1 eq_refl), app_nil_r in hm. rewrite <- hm, (missing_iff hc), rev_involutive. tauto.
Qed.
Theorem mkpath_any : consistent -> forall lim p made ok,
  mkpath ex can lim p = (made, ok) ->
  forall d, In d made -> d <> [] /\ above d p /\ ex d = None.
Proof.
  intros hc lim p made ok h d i. unfold mkpath in h. destruct (mk_made _ _ _ _ h) as (rest & hm & _).
  rewrite <- (rev_involutive p). apply (missing_iff hc). rewrite hm. apply in_or_app; now left.
Qed.

Lemma high_iff : forall lim rest d r, lim ++ rest = d ++ r -> (too_high (Some lim) d = true <-> above d lim).
Proof.
  intros lim rest d r e. cbn [too_high]. rewrite Z.ltb_lt. split.
  - intro h. destruct (app_eq_app _ _ _ _ e) as (x & [[-> ->]|[-> ->]]).
    + destruct x as [|y x].
      * rewrite app_nil_r, pathcmp_s_refl in h. lia.
      * exists (y :: x). split; [discriminate|auto].
    + exfalso. destruct x as [|y x]; [rewrite app_nil_r, pathcmp_s_refl in h; lia|].
      rewrite path_text_app in h. rewrite pathcmp_s_gt in h; [lia|]. apply path_lt_pre. discriminate.
  - intros (x & hx & ->). rewrite path_text_app. apply text_inj, path_lt_pre, path_text_ne, hx.
Qed.

(* Below a limit: nothing above the limit is made, and it fails just if
   something above is missing or a directory cannot be made. *)
Theorem mkpath_limit : consistent -> forall lim rest made ok,
  mkpath ex can (Some lim) (lim ++ rest) = (made, ok) ->
  (forall d, In d made -> exists x, d = lim ++ x) /\
  (ok = true <-> forall d, d <> [] -> above d (lim ++ rest) -> ex d = None -> (exists x, d = lim ++ x) /\ can d = true) /\
  ((exists d, d <> [] /\ above d lim /\ above d (lim ++ rest) /\ ex d = None) -> ok = false /\ made = []).
Proof.
  intros hc lim rest made ok h. assert (hA := mkpath_any hc _ _ _ _ h). assert (hW := mkpath_whole hc (Some lim) (lim ++ rest)).
  assert (Hlow : forall d r, lim ++ rest = d ++ r -> too_high (Some lim) d = false -> exists x, d = lim ++ x).
  { intros d r e ht. destruct (app_eq_app _ _ _ _ e) as (x & [[-> ->]|[-> ->]]); [|now exists x].
    destruct x as [|y x]; [exists []; now rewrite !app_nil_r|]. exfalso.
    assert (F : too_high (Some (d ++ y :: x)) d = true) by (eapply high_iff; [exact e|exists (y :: x); split; [discriminate|auto]]). congruence. }
  assert (h' := h). unfold mkpath in h'. destruct (mk_made _ _ _ _ h') as (rs & hm & h1 & h2 & h3).
  assert (hM : forall d, In d (missing (rev (lim ++ rest))) <-> (d <> [] /\ above d (lim ++ rest) /\ ex d = None))
    by (intro d; rewrite (missing_iff hc), rev_involutive; tauto).
  assert (P1 : forall d, In d made -> exists x, d = lim ++ x).
  { intros d i. destruct (hA d i) as (_ & (r & _ & e) & _). apply (Hlow d r e), h3, i. }
  split; [exact P1|split].
  - split.
    + intros -> d d1 d2 d3. assert (i : In d made) by (apply (hW made h); auto). split; [auto|apply h3, i].
    + intro H. destruct ok; [auto|]. exfalso. destruct (h2 eq_refl) as (d & r' & -> & hd).
      assert (i : In d (missing (rev (lim ++ rest)))) by (rewrite hm; apply in_or_app; right; now left).
      apply hM in i as (i1 & i2 & i3). destruct (H d i1 i2 i3) as ((x & ex') & hcan). destruct hd as [hd|hd]; [|congruence].
      destruct i2 as (r & _ & e). apply (high_iff lim rest d r e) in hd. destruct hd as (z & hz & e2).
      subst d. apply (f_equal (@List.length bytes)) in e2. rewrite !app_length in e2. destruct z; [congruence|cbn in e2; lia].
  - intros (d & d1 & d2 & d3 & d4).
    assert (i : In d (missing (rev (lim ++ rest)))) by (apply hM; auto).
    (* the first that is missing is above the limit as well *)
    assert (Hm : made = []).
    { destruct made as [|m made]; [auto|]. exfalso. destruct (P1 m (or_introl eq_refl)) as (x & ->).
      destruct (hA _ (or_introl eq_refl)) as (_ & _ & _).
      assert (S0 : forall r a b, missing r = a :: b -> forall d, In d (missing r) -> exists z, d = a ++ z).
      { clear. induction r as [|c up IH]; intros a b e d i; [discriminate|]. cbn [missing] in *. destruct up as [|b0 up']; [discriminate|].
        set (up := b0 :: up') in *. destruct (ex (rev up)); [discriminate|].
        destruct (missing up) as [|a0 b1] eqn:Em.
        - cbn in e. inversion e; subst. destruct i as [<-|[]]. exists []; now rewrite app_nil_r.
        - cbn in e. inversion e; subst. apply in_app_or in i as [i|[<-|[]]]; [eapply IH; eauto|].
          clear - Em. assert (F : forall r a b, missing r = a :: b -> exists z, rev r = a ++ z).
          { clear. induction r as [|c up IH]; intros a b e; [discriminate|]. cbn [missing] in e. destruct up as [|b0 up']; [discriminate|].
            set (up := b0 :: up') in *. destruct (ex (rev up)); [discriminate|]. cbn [rev].
            change (rev up' ++ [b0]) with (rev up). destruct (missing up) as [|a0 b1] eqn:Em.
            - cbn in e. inversion e; subst. now exists [c].
            - cbn in e. inversion e; subst. destruct (IH _ _ eq_refl) as (z & ->). exists (z ++ [c]). now rewrite app_assoc. }
          eapply F; exact Em. }
      destruct (S0 _ _ _ hm d i) as (z & ->). destruct d2 as (y & hy & e2).
      apply (f_equal (@List.length bytes)) in e2. rewrite !app_length in e2. destruct y; [congruence|cbn in e2; lia]. }
    split; [|auto]. destruct ok; [|auto]. exfalso. subst made. rewrite (h1 eq_refl) in hm. rewrite hm in i. destruct i.
Qed.
End Mk.

(* ---------- moving aside ---------- *)

(* The names tried: the name, then the name with .1, .2 and so on. *)
Definition cand (name : bytes) (i : Z) : bytes := if i =? 0 then name else name ++ 46 :: fmt_d i.

Lemma pick_free : forall f name i l, 0 <= i -> Z.of_nat f = 100 - i ->
  (exists j, i <= j < 100 /\ entry (cand name j) l = None) ->
  exists j, i <= j < 100 /\ pick f name (cand name i) i l = cand name j /\ entry (cand name j) l = None.
Proof.
  induction f as [|f IH]; intros name i l hi hf (j & hj & he); [lia|]. cbn [pick].
  destruct (entry (cand name i) l) eqn:E; [|exists i; split; [lia|auto]].
  assert (j <> i) by congruence.
  assert (C : name ++ 46 :: fmt_d (i + 1) = cand name (i + 1)) by (unfold cand; destruct (Z.eqb_spec (i + 1) 0); [lia|auto]).
  rewrite C. destruct (Z.leb_spec 100 (i + 1)); [lia|].
  destruct (IH name (i + 1) l) as (q & hq & h1 & h2); [lia|lia|exists j; split; [lia|auto]|].
  exists q; split; [lia|auto].
Qed.

Lemma moved : forall name n l, (exists j, 0 <= j < 100 /\ entry (cand name j) l = None) ->
  exists dest, entry dest l = None /\ deleteme_move true true name (Some n) l = (0, None, (dest, unstamp n) :: l).
Proof.
  intros name n l h. destruct (pick_free 100 name 0 l) as (j & hj & h1 & h2); [lia|reflexivity|auto|].
  exists (cand name j). split; [auto|]. unfold deleteme_move. cbn [negb]. cbv zeta. change (cand name 0) with name in h1. rewrite h1.
  unfold rename_onto. rewrite h2. reflexivity.
Qed.

Lemma entry_in : forall d l x, entry d l = Some x -> In (d, x) l.
Proof.
  induction l as [|[m y] r IH]; intros x h; [discriminate|]. cbn in h. destruct (beqb m d) eqn:E.
  - apply beqb_eq in E. inversion h; subst. now left. - right; auto.
Qed.

(* Each name once. *)
Definition once (l : list (bytes * node)) : Prop := NoDup (map fst l).

Lemma once_entry : forall l d x, once l -> In (d, x) l -> entry d l = Some x.
Proof.
  induction l as [|[m y] r IH]; intros d x h i; [destruct i|]. inversion h; subst. cbn. destruct i as [e|i].
  - inversion e; subst. now rewrite beqb_refl.
  - destruct (beqb m d) eqn:E; [|now apply IH]. apply beqb_eq in E. subst. exfalso. apply H1. change d with (fst (d, x)). now apply in_map.
Qed.

(* A directory moved aside: it is where it was or in deleteme, apart from its
   timestamp, and what was in deleteme is still there, but for an empty
   directory. *)
Lemma move_keeps : forall mk rn name k l, once l ->
  let '(r, s, l') := deleteme_move mk rn name (Some (Dir k)) l in
  ((r = 0 /\ s = None /\ (exists d, In (d, unstamp (Dir k)) l')) \/
   (r = -1 /\ l' = l /\ (s = Some (Dir k) \/ s = Some (unstamp (Dir k))))) /\
  (forall d x, In (d, x) l -> x <> Dir [] -> In (d, x) l').
Proof.
  intros mk rn name k l ho. unfold deleteme_move. destruct mk; cbn [negb]; [|split; [right; auto|auto]].
  cbv zeta. destruct rn; cbn [negb]; [|split; [right; auto|auto]].
  set (dest := pick 100 name name 0 l). clearbody dest. unfold rename_onto. set (u := unstamp (Dir k)).
  assert (U : exists q, u = Dir q) by (eexists; reflexivity). clearbody u.
  destruct (entry dest l) as [[b|[|e q]]|] eqn:E.
  - destruct U as [q ->]. split; [right; auto|auto].
  - destruct U as [q ->]. split. + left. split; [auto|split; [auto|]]. exists dest. now left.
    + intros d x i hx. right. apply filter_In. split; [auto|]. cbn. destruct (beqb d dest) eqn:E2; [|auto].
      apply beqb_eq in E2; subst. rewrite (once_entry _ _ _ ho i) in E. congruence.
  - split; [right; auto|auto].
  - split. + left. split; [auto|split; [auto|]]. exists dest. now left. + intros; now right.
Qed.

Lemma no_stamp : forall k k' b, unstamp (Dir k) = Dir k' -> ~ In (str "timestamp", Leaf b) k' /\
  (forall d x, In (d, x) k' -> In (d, x) k) /\ (forall d x, In (d, x) k -> d <> str "timestamp" -> In (d, x) k').
Proof.
  intros k k' b h. cbn [unstamp] in h. inversion h; subst; clear h. split; [|split].
  - intro i. apply filter_In in i as [_ i]. cbn [fst snd] in i. now rewrite beqb_refl in i.
  - intros d x i. now apply filter_In in i.
  - intros d x i ne. apply filter_In. split; [auto|]. cbn [fst]. destruct (beqb d _) eqn:E; [|auto]. apply beqb_eq in E. congruence.
Qed.

(* ---------- comparing files ---------- *)
Lemma same_eq : forall a b, List.length a = List.length b -> (same_bytes a b = true <-> a = b).
Proof.
  induction a as [|x a IH]; intros [|y b] h; try discriminate; cbn; [tauto|]. rewrite andb_true_iff, Z.eqb_eq, IH by (cbn in h; lia).
  split; [intros [-> ->]; auto|intro e; inversion e; auto].
Qed.
Lemma equal_loop_iff : forall n, (0 < n)%nat -> forall f o w, (List.length o < f)%nat -> (equal_loop f n o w = true <-> o = w).
Proof.
  intros n hn. induction f as [|f IH]; intros o w hf; [lia|]. cbn [equal_loop]. cbv zeta.
  destruct (Nat.eqb_spec (List.length (firstn n o)) (List.length (firstn n w))) as [e|e]; cbn [negb]; [|split; [discriminate|intros ->; congruence]].
  destruct (same_bytes (firstn n o) (firstn n w)) eqn:E; cbn [negb].
  - apply same_eq in E; [|auto]. rewrite !firstn_length in *. destruct (Nat.ltb_spec (Nat.min n (List.length o)) n) as [hl|hl].
    + rewrite !firstn_all2 in E by lia. subst. tauto.
    + rewrite IH by (rewrite skipn_length; lia).
      rewrite <- (firstn_skipn n o) at 2. rewrite <- (firstn_skipn n w) at 2. rewrite E. split; [intros ->; auto|apply app_inv_head].
  - split; [discriminate|]. intros ->. rewrite (proj2 (same_eq _ _ eq_refl) eq_refl) in E. discriminate.
Qed.
Lemma files_iff : forall o w, files_equal (Some o) (Some w) = true <-> got o = got w.
Proof. intros. unfold files_equal. apply equal_loop_iff; [vm_compute; lia|lia]. Qed.
Lemma files_missing : forall o, files_equal (Some o) None = false /\ files_equal None (Some o) = false.
Proof. auto. Qed.
