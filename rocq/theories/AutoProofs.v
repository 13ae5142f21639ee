(* C96: which files are sent to a client that asks for an upgrade. *)
From Verif Require Import Bytes AuthModel PathcmpModel PathcmpProofs ExtraModel AutoModel.

(* ---------- what is meant ---------- *)

(* Below the directory for upgrades. *)
Definition at_path (d : bytes) (l : list bytes) : bytes := d ++ flat_map (fun c => slash :: c) l.
(* What a client may call its operating system and what comes of it. *)
Definition cleaned (os os' : bytes) : Prop :=
  Forall2 (fun c c' => if in_dec Z.eq_dec c [47; 92; 58] then c' = 45 else c' = c) os os'.

(* ---------- proofs ---------- *)

Lemma sanitise_cleaned : forall os, cleaned os (sanitise os).
Proof.
  induction os as [|c os IH]; constructor; auto. destruct (in_dec Z.eq_dec c [47; 92; 58]) as [H|H].
  - cbn in H. destruct H as [<-|[<-|[<-|[]]]]; reflexivity.
  - cbn in H. destruct (Z.eqb_spec c 47); [intuition congruence|]. destruct (Z.eqb_spec c 92); [intuition congruence|].
    destruct (Z.eqb_spec c 58); [intuition congruence|]. reflexivity.
Qed.
Lemma cleaned_one : forall os a, cleaned os a -> a = sanitise os.
Proof.
  intros os a H. induction H as [|c c' l l' Hc H IH]; auto. subst l'. cbn [sanitise map]. fold (sanitise l). f_equal.
  destruct (in_dec Z.eq_dec c [47; 92; 58]) as [I|I]; subst.
  - cbn in I. destruct I as [<-|[<-|[<-|[]]]]; reflexivity.
  - cbn in I. destruct (Z.eqb_spec c 47); [intuition congruence|]. destruct (Z.eqb_spec c 92); [intuition congruence|].
    destruct (Z.eqb_spec c 58); [intuition congruence|]. reflexivity.
Qed.
Lemma sanitise_slash : forall os, ~ In 47 (sanitise os).
Proof.
  induction os as [|c os IH]; auto. intros [H|H]; auto. revert H.
  destruct (Z.eqb_spec c 47); [cbn; lia|]. cbn. destruct (Z.eqb_spec c 92); cbn; [lia|]. destruct (Z.eqb_spec c 58); lia.
Qed.
Lemma prepend_at : forall d f, d <> [] -> f <> [] -> hd0 f <> 47 -> prepend_s d f = d ++ slash :: f.
Proof.
  intros d f Hd Hf H. unfold prepend_s. destruct d; [congruence|]. destruct (Z.eqb_spec (hd0 f) 47); [contradiction|]. destruct f; [congruence|]. reflexivity.
Qed.
Lemma no_slash_hd : forall f, ~ In 47 f -> hd0 f <> 47.
Proof. intros [|c f] H; cbn; [lia|]. intros ->. apply H. left; auto. Qed.

Theorem sent_exactly : forall isreg version ser cli d os script package, d <> [] -> os <> [] -> version <> [] -> ~ In slash version ->
  do_autoupgrade isreg version ser cli (Some d) os = Some (USend script package) <->
  cli < ser /\ exists os', cleaned os os' /\
    package = at_path d [os'; version; str "package"] /\ isreg package = Some true /\ isreg script = Some true /\
    (script = at_path d [os'; version; str "script"] \/
     isreg (at_path d [os'; version; str "script"]) = None /\ script = at_path d [os'; str "script"]).
Proof.
  intros isreg version ser cli d os script package Hd Ho Hv Sv. unfold do_autoupgrade.
  destruct os as [|c os]; [congruence|]. clear Ho.
  assert (So : sanitise (c :: os) <> []) by discriminate.
  pose proof (sanitise_slash (c :: os)) as Hs. pose proof (sanitise_cleaned (c :: os)) as Hc. pose proof (cleaned_one (c :: os)) as Hu.
  revert So Hs Hc Hu. generalize (sanitise (c :: os)) as o. generalize (c :: os) as os0. clear c os. intros os o So Hs Hc Hu.
  unfold autoupgrade_server. assert (Hv47 : hd0 version <> 47) by (apply no_slash_hd; exact Sv).
  assert (E1 : prepend_s d o = at_path d [o]). { rewrite prepend_at; auto using no_slash_hd. unfold at_path. cbn. rewrite app_nil_r. auto. }
  assert (N : forall l, at_path d l <> []). { intros l E. apply app_eq_nil in E as [E _]. auto. }
  assert (E2 : forall l f, f <> [] -> hd0 f <> 47 -> prepend_s (at_path d l) f = at_path d (l ++ [f])).
  { intros l f A B. rewrite prepend_at; auto. unfold at_path. rewrite flat_map_app, app_assoc. cbn. rewrite app_nil_r. auto. }
  assert (F1 : str "script" <> [] /\ hd0 (str "script") <> 47) by (split; vm_compute; discriminate).
  assert (F2 : str "package" <> [] /\ hd0 (str "package") <> 47) by (split; vm_compute; discriminate).
  assert (P1 : prepend_s (prepend_s (prepend_s d o) version) (str "script") = at_path d [o; version; str "script"]).
  { rewrite E1, (E2 [o] version), (E2 ([o] ++ [version])) by tauto. reflexivity. }
  assert (P2 : prepend_s (prepend_s d o) (str "script") = at_path d [o; str "script"]).
  { rewrite E1, (E2 [o]) by tauto. reflexivity. }
  assert (P3 : prepend_s (prepend_s (prepend_s d o) version) (str "package") = at_path d [o; version; str "package"]).
  { rewrite E1, (E2 [o] version), (E2 ([o] ++ [version])) by tauto. reflexivity. }
  cbv zeta. rewrite P1, P2, P3. clear P1 P2 P3 E1 E2.
  rewrite Z.geb_leb. destruct (Z.leb_spec ser cli) as [L|L].
  { split; [discriminate|intros (? & _); lia]. }
  split.
  - intros H. split; auto. exists o. split; auto. revert H.
    generalize (at_path d [o; version; str "script"]) as p1. generalize (at_path d [o; str "script"]) as p2.
    generalize (at_path d [o; version; str "package"]) as p3. intros p3 p2 p1.
    destruct (isreg p1) as [r|] eqn:R1.
    + destruct (isreg p3) as [q|] eqn:R2; [|discriminate].
      destruct r; [|discriminate]. destruct q; [|discriminate]. intros H. injection H as <- <-. auto.
    + destruct (isreg p2) as [r|] eqn:R3; [|discriminate].
      destruct (isreg p3) as [q|] eqn:R2; [|discriminate].
      destruct r; [|discriminate]. destruct q; [|discriminate]. intros H. injection H as <- <-. auto 10.
  - intros (_ & o' & Ho & -> & Rp & Rs & K). apply Hu in Ho. subst o'. revert Rp Rs K.
    generalize (at_path d [o; version; str "script"]) as p1. generalize (at_path d [o; str "script"]) as p2.
    generalize (at_path d [o; version; str "package"]) as p3. intros p3 p2 p1 Rp Rs K. rewrite Rp.
    destruct K as [-> | (Rn & ->)]; [rewrite Rs; auto|rewrite Rn, Rs; auto].
Qed.
Theorem never : forall isreg version ser cli dir os, dir = None \/ ser <= cli ->
  forall script package, do_autoupgrade isreg version ser cli dir os <> Some (USend script package).
Proof.
  intros isreg version ser cli dir os H script package. unfold do_autoupgrade, autoupgrade_server. destruct os; [discriminate|].
  destruct dir; [|discriminate]. rewrite Z.geb_leb. destruct (Z.leb_spec ser cli); [discriminate|]. destruct H; [discriminate|lia].
Qed.

(* Below the directory: what follows it names no other one. *)
Lemma components_noslash : forall a, ~ In slash a -> components a = [a].
Proof.
  induction a as [|c a IH]; intros H; auto. cbn [components]. destruct (Z.eqb_spec c slash); [exfalso; apply H; left; auto|].
  rewrite IH; auto. intros X. apply H. right; auto.
Qed.
Lemma components_app : forall a r, ~ In slash a -> components (a ++ slash :: r) = a :: components r.
Proof.
  induction a as [|c a IH]; intros r H; cbn [app components]; [rewrite Z.eqb_refl; auto|].
  destruct (Z.eqb_spec c slash); [exfalso; apply H; left; auto|]. rewrite IH; auto. intros X. apply H. right; auto.
Qed.
Theorem confined : forall isreg version ser cli d os script package, d <> [] -> version <> [] -> ~ In slash version ->
  os <> [dot] -> os <> [dot; dot] -> version <> [dot] -> version <> [dot; dot] ->
  do_autoupgrade isreg version ser cli (Some d) os = Some (USend script package) ->
  forall p, p = script \/ p = package -> exists rest, p = d ++ slash :: rest /\ ~ In [dot] (components rest) /\ ~ In [dot; dot] (components rest).
Proof.
  intros isreg version ser cli d os script package Hd Hv Sv O1 O2 V1 V2 H p Hp.
  assert (Ho : os <> []) by (intros ->; discriminate). apply sent_exactly in H; auto. destruct H as (_ & o & Hc & -> & _ & _ & K).
  apply cleaned_one in Hc. subst o.
  assert (D : sanitise os <> [dot] /\ sanitise os <> [dot; dot]).
  { assert (X : forall c, (if (c =? 47) || (c =? 92) || (c =? 58) then 45 else c) = dot -> c = dot).
    { intros c. destruct ((c =? 47) || (c =? 92) || (c =? 58)); auto. unfold dot. lia. }
    split; intros E; destruct os as [|a [|b [|c os]]]; try discriminate; cbn in E.
    - injection E as E. apply X in E. congruence.
    - injection E as E E'. apply X in E, E'. congruence. }
  destruct D as (D1 & D2). pose proof (sanitise_slash os) as Ss.
  assert (A : forall n, n = str "script" \/ n = str "package" -> ~ In slash n /\ n <> [dot] /\ n <> [dot; dot]).
  { intros n [-> | ->]; (split; [cbn; unfold slash; lia|split; discriminate]). }
  assert (B : forall n, n = str "script" \/ n = str "package" -> exists rest, at_path d [sanitise os; version; n] = d ++ slash :: rest /\
    ~ In [dot] (components rest) /\ ~ In [dot; dot] (components rest)).
  { intros n Hn. destruct (A n Hn) as (N1 & N2 & N3). exists (sanitise os ++ slash :: version ++ slash :: n). split; [unfold at_path; cbn; rewrite app_nil_r; auto|].
    rewrite components_app, components_app, components_noslash by auto. split; intros I; cbn in I; intuition. }
  destruct Hp as [-> | ->]; [|apply B; auto]. destruct K as [-> | (_ & ->)]; [apply B; auto|].
  destruct (A (str "script")) as (N1 & N2 & N3); auto. exists (sanitise os ++ slash :: str "script"). split; [unfold at_path; cbn; rewrite ?app_nil_r; auto|].
  rewrite components_app, components_noslash by auto. split; intros I; cbn [In] in I; intuition.
Qed.
(* A client that calls itself ".." is given files from beside the directory. *)
Theorem confined_refuted : exists isreg version d,
  do_autoupgrade isreg version 30202 20100 (Some d) (str "..") =
    Some (USend (d ++ str "/../script") (d ++ str "/../" ++ version ++ str "/package")).
Proof.
  exists (fun p => if beqb p (str "/u/../script") || beqb p (str "/u/../3.2.2/package") then Some true else None), (str "3.2.2"), (str "/u").
  reflexivity.
Qed.
