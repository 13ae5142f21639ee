(* Proofs about the login. *)
From Verif Require Import Bytes CmdModel RestoreModel RestoreProofs AuthModel ActionModel UtilModel SbufModel Phase2Model ListModel ListProofs LoginModel.

(* The statuses and what is known. *)
Definition st {A} (x : list (Z * bytes) * status * A) : status := snd (fst x).
Definition kn {A} (x : list (Z * bytes) * status * A) : A := snd x.

Lemma next : forall (A : Type) (l m : list A) x rest, l = m ++ x :: rest -> nth_error l (List.length m) = Some x.
Proof. intros A l m x rest ->. rewrite nth_error_app2, Nat.sub_diag by lia. reflexivity. Qed.

Section Login.
Variable cv sv name pw : bytes.
Variable fqdn lower : bool.
Variable check : bytes -> bytes -> bool.
Variable warns : bytes -> bool.
Variable v : Z.
Hypothesis Hcv : cstr cv.
Hypothesis Lcv : (List.length cv <= 249)%nat.
Hypothesis Hsv : cstr sv.
Hypothesis Lsv : (List.length sv <= 245)%nat.
Hypothesis Hn : cstr name.
Hypothesis Nn : name <> [].
Hypothesis Hp : cstr pw.
Hypothesis Np : pw <> [].
Hypothesis Nc : client_name fqdn lower name <> [].
Hypothesis Hv : version_to_long cv = Some v.
Hypothesis Pv : 0 <= v.

Let C := client cv name pw.
Let S := child sv fqdn lower check warns.
Let cname := client_name fqdn lower name.
Let ok := check cname pw.
Let tell := 10302 <=? v.
Let h : Z * bytes := (CMD_GEN, str "hello:" ++ cv).
Let w : Z * bytes := (CMD_GEN, if tell then str "whoareyou:" ++ sv else str "whoareyou").
Let n : Z * bytes := (CMD_GEN, name).
Let o : Z * bytes := (CMD_GEN, str "okpassword").
Let p : Z * bytes := (CMD_GEN, pw).
Let yes : Z * bytes := (CMD_GEN, str "ok").
Let no : Z * bytes := (CMD_ERROR, str "unable to authorise on server").
Let told := if tell then Some sv else None.
Let knows := Some (cname, Some cv).

Lemma say_ne : forall c s, s <> [] -> say c s = [(c, s)].
Proof. intros c [|a s] H; [contradiction|reflexivity]. Qed.

Lemma starts_app : forall a b, starts_with (a ++ b) a = true.
Proof. induction a as [|x a IH]; intros b; [reflexivity|]. cbn. rewrite Z.eqb_refl. apply IH. Qed.

Lemma h_msg : say CMD_GEN (hello cv) = [h].
Proof.
  unfold hello. rewrite firstn_all2; [apply say_ne; discriminate|].
  rewrite app_length. change (List.length (str "hello:")) with 6%nat. lia.
Qed.
Lemma cstr_lit : forall a b, cstrb a = true -> cstr b -> cstr (a ++ b).
Proof. intros a b A B. apply cstrb_ok in A. apply Forall_app. auto. Qed.

Lemma C0 : C [] false = ([h], Waiting, None).
Proof. unfold C, client. rewrite h_msg. reflexivity. Qed.

Lemma w_view : cview (snd w) = snd w.
Proof.
  apply cview_cstr_id. unfold w. cbn [snd]. destruct tell.
  - apply cstr_lit; [reflexivity|exact Hsv].
  - apply cstrb_ok. reflexivity.
Qed.
Lemma w_told : snd (split_colon (snd w)) = told.
Proof. unfold w, told. destruct tell; reflexivity. Qed.
Lemma w_starts : starts_with (snd w) (str "whoareyou") = true.
Proof.
  unfold w. cbn [snd]. destruct tell; [|reflexivity].
  change (str "whoareyou:") with (str "whoareyou" ++ [58]). rewrite <- app_assoc. apply starts_app.
Qed.

Lemma Cw : forall r closed, C (w :: r) closed =
  match r with
  | [] => ([h; n], if closed then Done false else Waiting, told)
  | (c, b) :: r =>
    if negb (c =? CMD_GEN) || negb (beqb (cview b) (str "okpassword")) then ([h; n], Done false, told)
    else match r with
         | [] => ([h; n; p], if closed then Done false else Waiting, told)
         | m :: r => if fst m =? CMD_WARNING
                     then match r with [] => ([h; n; p], if closed then Done false else Waiting, told)
                                     | m :: _ => ([h; n; p], client_verdict m, told) end
                     else ([h; n; p], client_verdict m, told)
         end
  end.
Proof.
  intros r closed. unfold C, client. change w with (CMD_GEN, snd w). cbv beta iota zeta.
  rewrite w_view, w_starts, Z.eqb_refl, h_msg, w_told, !say_ne by assumption.
  destruct r as [|[c b] r]; reflexivity.
Qed.

Lemma S0 : S [] false = ([], Waiting, None).
Proof. reflexivity. Qed.

Lemma who : whoareyou sv (Some cv) = Some (Some (snd w)).
Proof.
  unfold whoareyou. rewrite Hv. change (version_to_long (str "1.3.2")) with (Some 10302).
  assert (E : (10302 <? 0) || (v <? 0) = false).
  { apply orb_false_iff. split; [reflexivity|]. apply Z.ltb_ge. exact Pv. }
  cbv beta iota. rewrite E. unfold w, tell. cbn [snd]. destruct (10302 <=? v); [|reflexivity].
  rewrite firstn_all2; [reflexivity|]. rewrite app_length. change (List.length (str "whoareyou:")) with 10%nat. lia.
Qed.

Lemma w_ne : snd w <> [].
Proof. unfold w. cbn [snd]. destruct tell; discriminate. Qed.

Let reply := (if warns cname then version_warn sv cname (Some cv) else []) ++ [yes].

Lemma Sh : forall r closed, S (h :: r) closed =
  match r with
  | [] => if closed then ([w; no], Done false, None) else ([w], Waiting, None)
  | (_, b) :: r =>
    let k := client_name fqdn lower (cview b) in
    match r with
    | [] => if closed then ([w; o; no], Done false, Some (k, Some cv)) else ([w; o], Waiting, Some (k, Some cv))
    | (_, b) :: _ =>
      if check k (cview b) then
        match k with
        | [] => ([w; o] ++ ((if warns k then version_warn sv k (Some cv) else []) ++ [yes]) ++ [no], Done false, Some (k, Some cv))
        | _ => ([w; o] ++ (if warns k then version_warn sv k (Some cv) else []) ++ [yes], Done true, Some (k, Some cv))
        end
      else ([w; o; no], Done false, Some (k, Some cv))
    end
  end.
Proof.
  intros r closed. unfold S, child, server. unfold h at 1. cbv beta iota zeta.
  rewrite cview_cstr_id by (apply cstr_lit; [reflexivity|exact Hcv]).
  replace (starts_with (str "hello:" ++ cv) (str "hello")) with true
    by (symmetry; change (str "hello:") with (str "hello" ++ [58]); rewrite <- app_assoc; apply starts_app).
  change (snd (split_colon (str "hello:" ++ cv))) with (Some cv).
  rewrite who, Z.eqb_refl. cbn [negb orb]. rewrite (say_ne CMD_GEN (snd w)) by exact w_ne.
  replace (CMD_GEN, snd w) with w by (unfold w; reflexivity).
  destruct r as [|[c b] r]; [destruct closed; reflexivity|].
  destruct r as [|[c2 b2] r]; [destruct closed; reflexivity|].
  destruct (check (client_name fqdn lower (cview b)) (cview b2)); [|reflexivity]. cbn [negb].
  destruct (client_name fqdn lower (cview b)) eqn:E; [|reflexivity].
  cbn [app]. rewrite <- !app_assoc. reflexivity.
Qed.

Lemma warn_msg : (if warns cname then version_warn sv cname (Some cv) else []) = [] \/
  exists t, (if warns cname then version_warn sv cname (Some cv) else []) = [(CMD_WARNING, t)].
Proof.
  destruct (warns cname); [|left; reflexivity]. unfold version_warn. destruct cv as [|x r] eqn:E.
  - destruct (beqb sv [] && true); [left; reflexivity|]. right. eexists. apply say_ne.
    intros X. apply app_eq_nil in X. destruct X. discriminate.
  - destruct (beqb (x :: r) sv); [left; reflexivity|]. right. eexists. apply say_ne.
    intros X. apply app_eq_nil in X. destruct X. discriminate.
Qed.

Let R := if ok then reply else [no].
Lemma Shnp : S [h; n; p] false = (w :: o :: R, Done ok, knows).
Proof.
  rewrite Sh. unfold n at 1, p at 1. cbv beta iota zeta. rewrite (cview_cstr_id name), (cview_cstr_id pw) by assumption.
  unfold R, ok, reply, knows. fold cname. destruct (check cname pw); [|reflexivity].
  destruct cname eqn:E; [exfalso; apply Nc; exact E|]. reflexivity.
Qed.
Lemma Shn : S [h; n] false = ([w; o], Waiting, knows).
Proof. rewrite Sh. unfold n at 1. cbv beta iota zeta. rewrite (cview_cstr_id name) by assumption. reflexivity. Qed.
Lemma Sh1 : S [h] false = ([w], Waiting, None).
Proof. rewrite Sh. reflexivity. Qed.
Lemma Cwo : forall r closed, C (w :: o :: r) closed =
  match r with
  | [] => ([h; n; p], if closed then Done false else Waiting, told)
  | m :: r => if fst m =? CMD_WARNING
              then match r with [] => ([h; n; p], if closed then Done false else Waiting, told)
                              | m :: _ => ([h; n; p], client_verdict m, told) end
              else ([h; n; p], client_verdict m, told)
  end.
Proof. intros r closed. rewrite Cw. reflexivity. Qed.

(* The states there are. *)
Inductive stage : list (Z * bytes) -> list (Z * bytes) -> Prop :=
| g0 : stage [] [] | g1 : stage [] [h] | g2 : stage [w] [h] | g3 : stage [w] [h; n]
| g4 : stage [w; o] [h; n]
| g5 : forall r r', R = r ++ r' -> stage (w :: o :: r) [h; n; p].

Lemma stages : forall x, reached C S x -> stage (fst x) (snd x).
Proof.
  intros x H. induction H as [|x y _ IH A]; [constructor|].
  destruct A as [rc rs m rest E|rc rs m rest E]; cbn [fst snd] in *.
  - apply next in E. unfold sent_s in E. destruct IH as [| | | | |r r' Er].
    + rewrite S0 in E. discriminate.
    + rewrite Sh1 in E. injection E as <-. apply g2.
    + rewrite Sh1 in E. discriminate.
    + rewrite Shn in E. injection E as <-. apply g4.
    + rewrite Shn in E. discriminate.
    + rewrite Shnp in E. cbn [fst List.length nth_error] in E. rewrite Er in E.
      rewrite nth_error_app2, Nat.sub_diag in E by lia. destruct r' as [|z r']; [discriminate|]. injection E as <-.
      cbn [app]. apply (g5 _ r'). rewrite <- app_assoc. exact Er.
  - apply next in E. unfold sent_c in E. destruct IH as [| | | | |r r' Er].
    + rewrite C0 in E. injection E as <-. apply g1.
    + rewrite C0 in E. discriminate.
    + rewrite Cw in E. injection E as <-. apply g3.
    + rewrite Cw in E. discriminate.
    + rewrite Cwo in E. injection E as <-. apply (g5 [] R). reflexivity.
    + exfalso. rewrite Cwo in E. destruct r as [|a [|b r]]; [discriminate| |]; destruct (fst a =? CMD_WARNING); discriminate.
Qed.

Theorem agree : forall rc rs, reached C S (rc, rs) ->
  (st (C rc false) = Done true -> ok = true /\ st (S rs false) = Done true) /\
  (st (S rs false) = Done true -> ok = true) /\
  (st (C rc false) = Done false \/ st (S rs false) = Done false -> ok = false) /\
  st (C rc false) <> Broken /\ st (S rs false) <> Broken /\
  ((exists y, arrives C S (rc, rs) y) \/
   (st (C rc false) = Done ok /\ st (S rs false) = Done ok /\
    kn (S rs false) = Some (cname, Some cv) /\ kn (C rc false) = if 10302 <=? v then Some sv else None)) /\
  (List.length rc + List.length rs <= 7)%nat.
Proof.
  intros rc rs H. apply stages in H. cbn [fst snd] in H.
  destruct H as [| | | | |r r' Er].
  - rewrite C0, S0. cbn. repeat split; try discriminate; try (intros [X|X]; discriminate); try lia.
    left. eexists. eapply arrives_s. unfold sent_c. rewrite C0. reflexivity.
  - rewrite C0, Sh1. cbn. repeat split; try discriminate; try (intros [X|X]; discriminate); try lia.
    left. eexists. eapply arrives_c. unfold sent_s. rewrite Sh1. reflexivity.
  - rewrite Cw, Sh1. cbn. repeat split; try discriminate; try (intros [X|X]; discriminate); try lia.
    left. eexists. apply (arrives_s _ _ [w] [h] n []). unfold sent_c. rewrite Cw. reflexivity.
  - rewrite Cw, Shn. cbn. repeat split; try discriminate; try (intros [X|X]; discriminate); try lia.
    left. eexists. apply (arrives_c _ _ [w] [h; n] o []). unfold sent_s. rewrite Shn. reflexivity.
  - rewrite Cwo, Shn. cbn. repeat split; try discriminate; try (intros [X|X]; discriminate); try lia.
    left. eexists. apply (arrives_s _ _ [w; o] [h; n] p []). unfold sent_c. rewrite Cwo. reflexivity.
  - assert (M : forall z r'', r' = z :: r'' -> exists y, arrives C S (w :: o :: r, [h; n; p]) y).
    { intros z r'' ->. eexists. apply (arrives_c _ _ (w :: o :: r) [h; n; p] z r''). unfold sent_s. rewrite Shnp.
      cbn [fst app]. rewrite Er. reflexivity. }
    rewrite Shnp, Cwo. cbn [st kn fst snd]. unfold R in Er.
    destruct ok eqn:K.
    + unfold reply in Er. destruct warn_msg as [N|[t N]]; rewrite N in Er.
      * destruct r as [|a r]; cbn [app] in Er.
        { repeat split; try discriminate; try (intros [X|X]; discriminate); try (cbn; lia). left. eapply M. symmetry. exact Er. }
        injection Er as <- Er. symmetry in Er. apply app_eq_nil in Er. destruct Er as [-> ->].
        repeat split; try discriminate; try (intros [X|X]; discriminate); try (cbn; lia). right. repeat split.
      * destruct r as [|a r]; cbn [app] in Er.
        { repeat split; try discriminate; try (intros [X|X]; discriminate); try (cbn; lia). left. eapply M. symmetry. exact Er. }
        injection Er as <- Er. cbn [fst]. rewrite Z.eqb_refl.
        destruct r as [|a r]; cbn [app] in Er.
        { repeat split; try discriminate; try (intros [X|X]; discriminate); try (cbn; lia). left. eapply M. symmetry. exact Er. }
        injection Er as <- Er. symmetry in Er. apply app_eq_nil in Er. destruct Er as [-> ->].
        repeat split; try discriminate; try (intros [X|X]; discriminate); try (cbn; lia). right. repeat split.
    + destruct r as [|a r]; cbn [app] in Er.
      { repeat split; try discriminate; try (intros [X|X]; discriminate); try (cbn; lia). left. eapply M. symmetry. exact Er. }
      injection Er as <- Er. symmetry in Er. apply app_eq_nil in Er. destruct Er as [-> ->].
      repeat split; try discriminate; try (cbn; lia). right. repeat split.
Qed.
End Login.

(* Whatever a client sends, it gets in only with a name and a password that pass,
   and is known by that name. *)
Lemma server_safe : forall sv fqdn lower check warns rcv closed,
  st (child sv fqdn lower check warns rcv closed) = Done true ->
  exists c1 h c2 name c3 pw rest, rcv = (c1, h) :: (c2, name) :: (c3, pw) :: rest /\
    c1 = CMD_GEN /\ starts_with (cview h) (str "hello") = true /\
    client_name fqdn lower (cview name) <> [] /\
    check (client_name fqdn lower (cview name)) (cview pw) = true /\
    kn (child sv fqdn lower check warns rcv closed) =
      Some (client_name fqdn lower (cview name), snd (split_colon (cview h))).
Proof.
  intros sv fqdn lower check warns rcv closed H. unfold child, server, st, kn in *.
  destruct rcv as [|[c1 h] rcv]; [destruct closed; discriminate|].
  destruct (negb (c1 =? CMD_GEN) || negb (starts_with (cview h) (str "hello"))) eqn:E; [discriminate|].
  apply orb_false_iff in E. destruct E as [E1 E2]. apply negb_false_iff in E1, E2. apply Z.eqb_eq in E1.
  destruct (whoareyou _ _) as [[w|]|]; [|discriminate|discriminate].
  destruct rcv as [|[c2 name] rcv]; [destruct closed; discriminate|].
  destruct rcv as [|[c3 pw] rcv]; [destruct closed; discriminate|].
  destruct (check (client_name fqdn lower (cview name)) (cview pw)) eqn:K; [|discriminate].
  cbn [negb] in *. destruct (client_name fqdn lower (cview name)) eqn:N; [discriminate|].
  exists c1, h, c2, name, c3, pw, rcv. rewrite N, K. repeat split; auto. discriminate.
Qed.

(* Whatever a server sends, the client gives its name and its password only when
   asked, and takes itself to be let in only when told so. *)
Lemma client_safe : forall cv name pw rcv closed,
  let '(sent, s, _) := client cv name pw rcv closed in
  let h := say CMD_GEN (hello cv) in
  let asked := exists b r, rcv = (CMD_GEN, b) :: r /\ starts_with (cview b) (str "whoareyou") = true in
  let asked2 := exists b b2 r, rcv = (CMD_GEN, b) :: (CMD_GEN, b2) :: r /\ starts_with (cview b) (str "whoareyou") = true /\
                  cview b2 = str "okpassword" in
  (sent = h \/ (asked /\ sent = h ++ say CMD_GEN name) \/ (asked2 /\ sent = (h ++ say CMD_GEN name) ++ say CMD_GEN pw)) /\
  (s = Done true -> asked2 /\ exists b, (nth_error rcv 2 = Some (CMD_GEN, b) \/
      (exists t, nth_error rcv 2 = Some (CMD_WARNING, t) /\ nth_error rcv 3 = Some (CMD_GEN, b))) /\ cview b = str "ok").
Proof.
  intros cv name pw rcv closed. unfold client.
  assert (Wt : forall P : Prop, (if closed then Done false else Waiting) = Done true -> P) by (intros P X; destruct closed; discriminate).
  destruct rcv as [|[c b] rcv]; [split; [auto|apply Wt]|].
  destruct (negb (c =? CMD_GEN) || negb (starts_with (cview b) (str "whoareyou"))) eqn:E; [split; [auto|discriminate]|].
  apply orb_false_iff in E. destruct E as [E1 E2]. apply negb_false_iff in E1, E2. apply Z.eqb_eq in E1. subst c.
  destruct rcv as [|[c b2] rcv].
  { split; [right; left; split; [exists b, []; auto|reflexivity]|apply Wt]. }
  destruct (negb (c =? CMD_GEN) || negb (beqb (cview b2) (str "okpassword"))) eqn:E.
  { split; [right; left; split; [eexists b, _; eauto|reflexivity]|discriminate]. }
  apply orb_false_iff in E. destruct E as [E1 E3]. apply negb_false_iff in E1, E3. apply Z.eqb_eq in E1. subst c.
  apply beqb_eq in E3.
  assert (V : forall m, client_verdict m = Done true -> exists t, m = (CMD_GEN, t) /\ cview t = str "ok").
  { intros [c t] X. unfold client_verdict in X. cbn [fst snd] in X. injection X as X.
    apply andb_true_iff in X. destruct X as [X1 X2]. apply Z.eqb_eq in X1. apply beqb_eq in X2. subst c. eauto. }
  destruct rcv as [|m rcv].
  { split; [right; right; split; [exists b, b2, []; auto|reflexivity]|apply Wt]. }
  destruct (fst m =? CMD_WARNING) eqn:Em.
  - destruct rcv as [|m2 rcv].
    { split; [right; right; split; [eexists b, b2, _; eauto|reflexivity]|apply Wt]. }
    split; [right; right; split; [eexists b, b2, _; eauto|reflexivity]|].
    intros X. apply V in X. destruct X as (t & -> & X). split; [eexists b, b2, _; eauto|].
    exists t. split; [|exact X]. right. apply Z.eqb_eq in Em. destruct m as [c u]. cbn [fst] in Em. subst c. exists u. split; reflexivity.
  - split; [right; right; split; [eexists b, b2, _; eauto|reflexivity]|].
    intros X. apply V in X. destruct X as (t & -> & X). split; [eexists b, b2, _; eauto|].
    exists t. split; [left; reflexivity|exact X].
Qed.

(* The warning comes exactly if asked for and the versions differ, and tells both. *)
Lemma warning_spec : forall sv cname peer,
  version_warn sv cname peer = [] <-> peer = Some sv.
Proof.
  intros sv cname peer.
  assert (Z : forall c t, say c (t ++ [10]) <> []).
  { intros c t X. unfold say in X. destruct (t ++ [10]) eqn:E; [|discriminate]. apply app_eq_nil in E. destruct E. discriminate. }
  unfold version_warn. destruct peer as [[|x p]|].
  - destruct sv as [|y sv].
    + split; reflexivity.
    + change (beqb (y :: sv) []) with false. cbn [andb]. split; [intros X; exfalso; apply (Z _ _ X)|discriminate].
  - destruct (beqb (x :: p) sv) eqn:E.
    + apply beqb_eq in E. rewrite <- E. split; reflexivity.
    + split; [intros X; exfalso; apply (Z _ _ X)|]. intros X. injection X as X. rewrite X, beqb_refl in E. discriminate.
  - rewrite andb_false_r. split; [intros X; exfalso; apply (Z _ _ X)|discriminate].
Qed.
