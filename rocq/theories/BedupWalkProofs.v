(* Which files a deduplication run comes to: proofs for C63. *)
From Verif Require Import Bytes AuthModel RestoreModel RestoreProofs BedupModel BedupProofs BedupRunProofs.

(* ---- the specification ---- *)
(* The text of names one below the other. *)
Definition slashed (l : list bytes) : bytes := flat_map (fun c => slash :: c) l.
(* A name of a directory: not empty, without slash. *)
Definition plain (n : bytes) : Prop := n <> [] /\ ~ In slash n.
Inductive plain_tree : tree -> Prop :=
| pt_leaf : forall n, plain n -> plain_tree (Leaf n)
| pt_sub : forall n o k, plain n -> Forall plain_tree k -> plain_tree (Sub n o k).
(* The names that lead to something that is no directory, through directories
   that can be opened. *)
Inductive leaf_at : list tree -> list bytes -> Prop :=
| la_leaf : forall kids n, In (Leaf n) kids -> leaf_at kids [n]
| la_sub : forall kids n k l, In (Sub n true k) kids -> leaf_at k l -> leaf_at kids (n :: l).
(* The same for a directory that cannot be opened. *)
Inductive shut_at : list tree -> list bytes -> Prop :=
| sa_sub : forall kids n k, In (Sub n false k) kids -> shut_at kids [n]
| sa_in : forall kids n k l, In (Sub n true k) kids -> shut_at k l -> shut_at kids (n :: l).
(* What is to be left alone in the directory of a client: the lock files, what is
   being deleted, the backups that are going on, and the logs of a backup. *)
Definition log_name (b : bytes) : Prop :=
  exists r, b = str "log" ++ r \/ b = str "verifylog" ++ r \/ b = str "restorelog" ++ r.
Definition hands_off (going : bytes -> Prop) (l : list bytes) : Prop :=
  match l with
  | [] => False
  | a :: r => a = str "lockfile" \/ a = str "lockfile.bedup" \/ a = str "deleteme" \/ going a
              \/ match r with b :: _ => log_name b | [] => False end
  end.
(* The backups the links of a client lead to. *)
Definition leads (t : option bytes) (a : bytes) : Prop := t = Some a \/ t = Some (a ++ [slash]).
Definition going_on (c : client) (a : bytes) : Prop := leads (c_working c) a \/ leads (c_finishing c) a.

(* ---- proofs ---- *)
Fixpoint tree_all (P : tree -> Prop) (HL : forall n, P (Leaf n))
  (HS : forall n o k, Forall P k -> P (Sub n o k)) (t : tree) : P t :=
  match t with
  | Leaf n => HL n
  | Sub n o k => HS n o k ((fix go (l : list tree) : Forall P l :=
      match l with [] => Forall_nil P | x :: r => Forall_cons x (tree_all P HL HS x) (go r) end) k)
  end.
Definition skips (burp : bool) (wk fin : bytes) (level : nat) (l : list bytes) : Prop :=
  burp = true /\ exists i c, nth_error l i = Some c /\ level_exclusion (level + i) c wk fin = true.
Lemma skips_cons : forall burp wk fin level a l,
  skips burp wk fin level (a :: l) <-> (burp && level_exclusion level a wk fin = true) \/ skips burp wk fin (S level) l.
Proof.
  intros. unfold skips. split.
  - intros (-> & i & c & N & E). destruct i; cbn [nth_error] in N.
    + injection N as ->. rewrite Nat.add_0_r in E. left. exact E.
    + right. split; [reflexivity|]. exists i, c. split; [exact N|]. replace (S level + i)%nat with (level + S i)%nat by lia. exact E.
  - intros [H|(-> & i & c & N & E)].
    + apply andb_prop in H. destruct H as [-> H]. split; [reflexivity|]. exists O, a. rewrite Nat.add_0_r. auto.
    + split; [reflexivity|]. exists (S i), c. split; [exact N|]. replace (level + S i)%nat with (S level + i)%nat by lia. exact E.
Qed.
Lemma prepend_plain : forall p n, p <> [] -> plain n -> prepend_s p n = p ++ slash :: n.
Proof.
  intros p n P [N S]. unfold prepend_s. destruct p; [congruence|]. destruct n as [|c n]; [congruence|]. cbn [hd0].
  destruct (c =? 47) eqn:E; [|reflexivity]. apply Z.eqb_eq in E. exfalso. apply S. left. exact E.
Qed.
Lemma leaf_at_in : forall kids l, leaf_at kids l <-> exists t, In t kids /\ leaf_at [t] l.
Proof.
  intros kids l. split.
  - intros H. destruct H as [kids n I|kids n k l I H].
    + exists (Leaf n). split; [exact I|]. apply la_leaf. left. reflexivity.
    + exists (Sub n true k). split; [exact I|]. eapply la_sub; [left; reflexivity|exact H].
  - intros (t & I & H). inversion H as [a n I1|a n k l0 I1 H1]; subst; destruct I1 as [->|[]].
    + apply la_leaf. exact I.
    + eapply la_sub; eassumption.
Qed.
Lemma shut_at_in : forall kids l, shut_at kids l <-> exists t, In t kids /\ shut_at [t] l.
Proof.
  intros kids l. split.
  - intros H. destruct H as [kids n k I|kids n k l I H].
    + exists (Sub n false k). split; [exact I|]. eapply sa_sub. left. reflexivity.
    + exists (Sub n true k). split; [exact I|]. eapply sa_in; [left; reflexivity|exact H].
  - intros (t & I & H). inversion H as [a n k I1|a n k l0 I1 H1]; subst; destruct I1 as [->|[]].
    + eapply sa_sub. exact I.
    + eapply sa_in; eassumption.
Qed.
Lemma app_slash : forall p n l, (p ++ slash :: n) ++ slashed l = p ++ slashed (n :: l).
Proof. intros. unfold slashed. cbn [flat_map]. rewrite <- app_assoc. reflexivity. Qed.

Lemma walk_one : forall burp wk fin t level path, path <> [] -> plain_tree t ->
  (forall q, In (Some q) (walk burp wk fin level path t) <->
     exists l, leaf_at [t] l /\ q = path ++ slashed l /\ ~ skips burp wk fin level l)
  /\ (In None (walk burp wk fin level path t) <-> exists l, shut_at [t] l /\ ~ skips burp wk fin level l).
Proof.
  intros burp wk fin t. induction t as [n|n o k IH] using tree_all; intros level path P W; cbn [walk tname].
  - inversion W as [m PN|]; subst m. destruct (burp && level_exclusion level n wk fin) eqn:E; split.
    + intros q. split; [intros []|]. intros (l & L & -> & NS). exfalso. inversion L as [a m I|a m k l0 I H]; subst; destruct I as [I|[]].
      * injection I as ->. apply NS. apply skips_cons. left. exact E.
      * discriminate I.
    + split; [intros []|]. intros (l & L & _). inversion L as [a m k I|a m k l0 I H]; subst; destruct I as [I|[]]; discriminate I.
    + intros q. rewrite prepend_plain by assumption. split.
      * intros [H|[]]. injection H as <-. exists [n]. split; [apply la_leaf; left; reflexivity|].
        split; [unfold slashed; cbn [flat_map]; rewrite app_nil_r; reflexivity|].
        rewrite skips_cons. intros [X|(_ & i & c & X & _)]; [congruence|destruct i; discriminate X].
      * intros (l & L & -> & NS). left. inversion L as [a m I|a m k l0 I H]; subst; destruct I as [I|[]].
        -- injection I as ->. unfold slashed. cbn [flat_map]. rewrite app_nil_r. reflexivity.
        -- discriminate I.
    + split; [intros [H|[]]; discriminate H|]. intros (l & L & _). inversion L as [a m k I|a m k l0 I H]; subst; destruct I as [I|[]]; discriminate I.
  - inversion W as [|m o' k' PN PK]; subst m o' k'. destruct (burp && level_exclusion level n wk fin) eqn:E; [|destruct o]; split.
    + intros q. split; [intros []|]. intros (l & L & -> & NS). exfalso. inversion L as [a m I|a m k' l0 I H]; subst; destruct I as [I|[]].
      * discriminate I.
      * injection I as -> -> ->. apply NS. apply skips_cons. left. exact E.
    + split; [intros []|]. intros (l & L & NS). inversion L as [a m k' I|a m k' l0 I H]; subst; destruct I as [I|[]].
      * injection I as -> -> ->. apply NS. apply skips_cons. left. exact E.
      * injection I as -> -> ->. apply NS. apply skips_cons. left. exact E.
    + intros q. rewrite in_flat_map, prepend_plain by assumption.
      rewrite Forall_forall in IH, PK. split.
      * intros (t & I & H). apply (IH t I) in H; [|destruct path; discriminate|apply PK; exact I].
        destruct H as (l & L & -> & NS). exists (n :: l). rewrite app_slash. split.
        -- eapply la_sub; [left; reflexivity|]. apply leaf_at_in. eauto.
        -- split; [reflexivity|]. rewrite skips_cons. intros [X|X]; [congruence|exact (NS X)].
      * intros (l & L & -> & NS). inversion L as [a m I|a m k' l0 I H]; subst; destruct I as [I|[]]; [discriminate I|].
        injection I as -> ->. apply leaf_at_in in H. destruct H as (t & I & H). exists t. split; [exact I|].
        apply (IH t I); [destruct path; discriminate|apply PK; exact I|]. exists l0. split; [exact H|]. rewrite app_slash.
        split; [reflexivity|]. intros X. apply NS. apply skips_cons. right. exact X.
    + rewrite in_flat_map, prepend_plain by assumption. rewrite Forall_forall in IH, PK. split.
      * intros (t & I & H). apply (IH t I) in H; [|destruct path; discriminate|apply PK; exact I].
        destruct H as (l & L & NS). exists (n :: l). split.
        -- eapply sa_in; [left; reflexivity|]. apply shut_at_in. eauto.
        -- rewrite skips_cons. intros [X|X]; [congruence|exact (NS X)].
      * intros (l & L & NS). inversion L as [a m k' I|a m k' l0 I H]; subst; destruct I as [I|[]]; [discriminate I|].
        injection I as -> ->. apply shut_at_in in H. destruct H as (t & I & H). exists t. split; [exact I|].
        apply (IH t I); [destruct path; discriminate|apply PK; exact I|]. exists l0. split; [exact H|].
        intros X. apply NS. apply skips_cons. right. exact X.
    + intros q. split; [intros [H|[]]; discriminate H|]. intros (l & L & _). exfalso.
      inversion L as [a m I|a m k' l0 I H]; subst; destruct I as [I|[]]; discriminate I.
    + split; [|left; reflexivity]. intros _. exists [n]. split; [eapply sa_sub; left; reflexivity|].
      rewrite skips_cons. intros [X|(_ & i & c & X & _)]; [congruence|destruct i; discriminate X].
Qed.
Lemma walk_all : forall burp wk fin kids level path, path <> [] -> Forall plain_tree kids ->
  (forall q, In (Some q) (flat_map (walk burp wk fin level path) kids) <->
     exists l, leaf_at kids l /\ q = path ++ slashed l /\ ~ skips burp wk fin level l)
  /\ (In None (flat_map (walk burp wk fin level path) kids) <-> exists l, shut_at kids l /\ ~ skips burp wk fin level l).
Proof.
  intros burp wk fin kids level path P W. rewrite Forall_forall in W. split.
  - intros q. rewrite in_flat_map. split.
    + intros (t & I & H). apply (walk_one burp wk fin t level path P (W t I)) in H. destruct H as (l & L & X).
      exists l. split; [apply leaf_at_in; eauto|exact X].
    + intros (l & L & X). apply leaf_at_in in L. destruct L as (t & I & L). exists t. split; [exact I|].
      apply (walk_one burp wk fin t level path P (W t I)). eauto.
  - rewrite in_flat_map. split.
    + intros (t & I & H). apply (walk_one burp wk fin t level path P (W t I)) in H. destruct H as (l & L & X).
      exists l. split; [apply shut_at_in; eauto|exact X].
    + intros (l & L & X). apply shut_at_in in L. destruct L as (t & I & L). exists t. split; [exact I|].
      apply (walk_one burp wk fin t level path P (W t I)). eauto.
Qed.
Lemma skips_off : forall wk fin l,
  skips true wk fin 0 l <-> hands_off (fun a => a = wk \/ a = fin) l.
Proof.
  intros wk fin l. destruct l as [|a r].
  { split; [intros (_ & i & c & X & _); destruct i; discriminate X|intros []]. }
  rewrite skips_cons. cbn [andb level_exclusion hands_off].
  rewrite !orb_true_iff, !beqb_eq.
  assert (R : skips true wk fin 1 r <-> match r with b :: _ => log_name b | [] => False end).
  { destruct r as [|b r]; [split; [intros (_ & i & c & X & _); destruct i; discriminate X|intros []]|].
    rewrite skips_cons. cbn [andb level_exclusion]. rewrite !orb_true_iff, !starts_with_spec. unfold log_name.
    assert (N : ~ skips true wk fin 2 r).
    { intros (_ & i & c & _ & X). destruct i; discriminate X. }
    split.
    - intros [[[(x & X)|(x & X)]|(x & X)]|X]; [exists x; auto|exists x; auto|exists x; auto|destruct (N X)].
    - intros (x & [X|[X|X]]); left; eauto. }
  rewrite R. tauto.
Qed.

(* ---- the links of a client ---- *)
Lemma link_leads : forall real t a, plain a -> leads t a -> (List.length a <= 254)%nat -> fst (get_link real t) = a.
Proof.
  intros real t a [NE NS] L Len.
  assert (LA : forall b : bytes, (List.length b <= 255)%nat -> firstn 255 b = b) by (intros; apply firstn_all2; assumption).
  assert (LS : forall c r, rev a = c :: r -> c <> slash).
  { intros c r E ->. apply NS. apply in_rev. rewrite E. left. reflexivity. }
  unfold get_link. destruct L as [-> | ->].
  - rewrite LA by lia. destruct (rev a) as [|c r] eqn:E.
    + exfalso. apply NE. rewrite <- (rev_involutive a), E. reflexivity.
    + cbn [fst]. replace (c =? slash) with false; [reflexivity|]. symmetry. apply Z.eqb_neq. eapply LS. reflexivity.
  - rewrite LA by (rewrite app_length; cbn [List.length]; lia). rewrite rev_unit. cbn [fst]. rewrite Z.eqb_refl. apply rev_involutive.
Qed.
(* Without a link what was there before stays, and the byte before the buffer is read. *)
Lemma link_none : get_link [] None = ([], true).
Proof. reflexivity. Qed.

(* A client whose names are as readdir() gives them, and whose links lead to
   names that are not too long for the buffer. *)
Definition short (t : option bytes) : Prop := forall a, t = Some a -> (List.length a <= 255)%nat.
Definition fair (c : client) : Prop := c_path c <> [] /\ Forall plain_tree (c_kids c).
Lemma client_some : forall z c q, fair c ->
  (In (Some q) (snd (client_names z c)) <->
   c_ours c = true /\ c_opens c = true /\ exists l, leaf_at (c_kids c) l /\ q = c_path c ++ slashed l
     /\ ~ hands_off (fun a => a = fst (get_link (st_working z) (c_working c)) \/ a = fst (get_link (st_finishing z) (c_finishing c))) l).
Proof.
  intros z c q [P W]. unfold client_names.
  destruct (get_link (st_working z) (c_working c)) as [wk u1]. destruct (get_link (st_finishing z) (c_finishing c)) as [fin u2].
  cbn [fst snd]. destruct (c_ours c), (c_opens c); cbn [andb];
    try (split; [intros []|intros (A & B & _); discriminate]).
  rewrite (proj1 (walk_all true wk fin (c_kids c) 0 (c_path c) P W)). split.
  - intros (l & L & E & N). split; [reflexivity|]. split; [reflexivity|]. exists l. rewrite <- skips_off. auto.
  - intros (_ & _ & l & L & E & N). exists l. rewrite skips_off. auto.
Qed.
Lemma client_none : forall z c, fair c -> In None (snd (client_names z c)) ->
  exists l, shut_at (c_kids c) l.
Proof.
  intros z c [P W]. unfold client_names.
  destruct (get_link (st_working z) (c_working c)) as [wk u1]. destruct (get_link (st_finishing z) (c_finishing c)) as [fin u2].
  cbn [snd]. destruct (c_ours c && c_opens c); [|intros []].
  intros H. apply (walk_all true wk fin (c_kids c) 0 (c_path c) P W) in H. destruct H as (l & L & _). eauto.
Qed.
Lemma hands_impl : forall (P Q : bytes -> Prop) l, (forall a, In a l -> P a -> Q a) -> hands_off P l -> hands_off Q l.
Proof. intros P Q [|a r] H; cbn [hands_off]; [auto|]. intros [X|[X|[X|[X|X]]]]; auto. right. right. right. left. apply H; [left; reflexivity|exact X]. Qed.
Lemma plain_at : forall kids l, Forall plain_tree kids -> leaf_at kids l -> Forall plain l.
Proof.
  intros kids l W H. induction H as [kids n I|kids n k l I H IH]; rewrite Forall_forall in W; pose proof (W _ I) as X; inversion X; subst.
  - constructor; [assumption|constructor].
  - constructor; [assumption|]. apply IH. assumption.
Qed.
Lemma leads_short : forall t a, short t -> leads t a -> (List.length a <= 255)%nat.
Proof. intros t a S [L|L]; apply S in L; [exact L|]. rewrite app_length in L. cbn [List.length] in L. lia. Qed.
(* What a run with the configuration comes to. *)
Theorem clients_some : forall l z q, Forall fair l -> 
  In (Some q) (snd (clients_names z l)) ->
  exists c, In c l /\ c_lock c = true /\ c_ours c = true /\ c_opens c = true
    /\ exists p, leaf_at (c_kids c) p /\ q = c_path c ++ slashed p
    /\ ~ hands_off (fun a => going_on c a /\ (List.length a <= 254)%nat) p.
Proof.
  induction l as [|c r IH]; intros z q F H; cbn [clients_names] in H; [destruct H|].
  inversion F as [|x y Fc Fr]; subst. destruct (c_lock c) eqn:K.
  - destruct (client_names z c) as [z' a] eqn:C. destruct (clients_names z' r) as [z'' b] eqn:R. cbn [snd] in H.
    apply in_app_iff in H. destruct H as [H|H].
    + exists c. split; [left; reflexivity|]. split; [exact K|].
      replace a with (snd (client_names z c)) in H by (rewrite C; reflexivity). apply client_some in H; [|exact Fc].
      destruct H as (A & B & p & L & E & N). do 2 (split; [assumption|]). exists p. do 2 (split; [assumption|]).
      intros X. apply N. pose proof (plain_at _ _ (proj2 Fc) L) as PL. rewrite Forall_forall in PL.
      eapply hands_impl; [|exact X]. intros d Id [[G|G] Len].
      * left. symmetry. apply link_leads; auto.
      * right. symmetry. apply link_leads; auto.
    + replace b with (snd (clients_names z' r)) in H by (rewrite R; reflexivity).
      destruct (IH z' q Fr H) as (d & I & X). exists d. split; [right; exact I|exact X].
  - destruct (IH z q Fr H) as (d & I & X). exists d. split; [right; exact I|exact X].
Qed.
(* A client with both links loses nothing else. *)
Theorem client_all : forall z c p, fair c -> c_ours c = true -> c_opens c = true -> leaf_at (c_kids c) p ->
  (c_working c = None -> st_working z = []) -> (c_finishing c = None -> st_finishing z = []) -> short (c_working c) -> short (c_finishing c) ->
  ~ hands_off (going_on c) p -> In (Some (c_path c ++ slashed p)) (snd (client_names z c)).
Proof.
  intros z c p F O P L ZW ZF SW SF N. apply client_some; [exact F|]. do 2 (split; [assumption|]). exists p. do 2 (split; [auto|]).
  intros X. apply N. pose proof (plain_at _ _ (proj2 F) L) as PL. rewrite Forall_forall in PL.
  assert (G : forall real t a, short t -> (t = None -> real = []) -> plain a -> a = fst (get_link real t) -> leads t a).
  { clear. intros real t a S Z [NE NS] ->. unfold get_link in *. destruct t as [t|].
    - rewrite firstn_all2 in * by (apply S; reflexivity). destruct (rev t) as [|c r] eqn:E; cbn [fst] in *.
      + left. reflexivity.
      + destruct (c =? slash) eqn:Y; cbn [fst] in *.
        * right. apply Z.eqb_eq in Y. subst c. f_equal. rewrite <- (rev_involutive t), E. reflexivity.
        * left. reflexivity.
    - rewrite Z in * by reflexivity. cbn in NE. congruence. }
  eapply hands_impl; [|exact X]. intros a Ia [Y|Y]; [left|right]; eapply G; try exact Y; auto.
Qed.
(* What cannot be opened stops the run. *)
Theorem clients_none : forall l z, Forall fair l -> In None (snd (clients_names z l)) ->
  exists c p, In c l /\ c_lock c = true /\ shut_at (c_kids c) p.
Proof.
  induction l as [|c r IH]; intros z F H; cbn [clients_names] in H; [destruct H|].
  inversion F as [|x y Fc Fr]; subst. destruct (c_lock c) eqn:K.
  - destruct (client_names z c) as [z' a] eqn:C. destruct (clients_names z' r) as [z'' b] eqn:R. cbn [snd] in H.
    apply in_app_iff in H. destruct H as [H|H].
    + replace a with (snd (client_names z c)) in H by (rewrite C; reflexivity). apply client_none in H; [|exact Fc].
      destruct H as (p & S). exists c, p. split; [left; reflexivity|auto].
    + replace b with (snd (clients_names z' r)) in H by (rewrite R; reflexivity).
      destruct (IH z' Fr H) as (d & p & I & X). exists d, p. split; [right; exact I|exact X].
  - destruct (IH z Fr H) as (d & p & I & X). exists d, p. split; [right; exact I|exact X].
Qed.
(* The byte before the buffer is read when the first client has no such link. *)
Theorem clients_under : forall c r, c_lock c = true -> c_working c = None \/ c_finishing c = None ->
  st_under (fst (clients_names statics0 (c :: r))) = true.
Proof.
  intros c r K H.
  assert (M : forall l z, st_under z = true -> st_under (fst (clients_names z l)) = true).
  { induction l as [|x l IH]; intros z Z; cbn [clients_names]; [exact Z|]. destruct (c_lock x); [|apply IH; exact Z].
    unfold client_names. destruct (get_link _ _) as [wk u1]. destruct (get_link _ (c_finishing x)) as [fin u2].
    specialize (IH (mkstatics wk fin (st_under z || u1 || u2))). cbn [st_under] in IH. rewrite Z in *. cbn [orb] in *.
    specialize (IH eq_refl). destruct (clients_names _ l) as [z2 b]. exact IH. }
  cbn [clients_names]. rewrite K. unfold client_names. cbn [statics0 st_working st_finishing st_under orb].
  destruct (get_link [] (c_working c)) as [wk u1] eqn:G1. destruct (get_link [] (c_finishing c)) as [fin u2] eqn:G2.
  assert (u1 || u2 = true).
  { destruct H as [H|H]; rewrite H, link_none in *; [injection G1 as <- <-; reflexivity|injection G2 as <- <-; apply orb_true_r]. }
  specialize (M r (mkstatics wk fin (u1 || u2)) H0). destruct (clients_names _ r) as [z2 b]. exact M.
Qed.

(* ---- what a run with the configuration changes ---- *)
Section Mode.
Variable md5 : bytes -> Z.
Variables mk del : bool.
Variable maxlinks : Z.
Variable ext : bytes.
Theorem mode_change : forall clients w ok s', Forall fair clients -> w_past w = [] ->
  process_all md5 mk del maxlinks ext (snd (clients_names statics0 clients)) (start w) = (ok, s') ->
  forall d x, In d (disks s') -> look d x <> look (w_disk w) x ->
  exists c p, In c clients /\ c_lock c = true /\ c_ours c = true /\ leaf_at (c_kids c) p
    /\ ~ hands_off (fun a => going_on c a /\ (List.length a <= 254)%nat) p
    /\ (x = c_path c ++ slashed p \/ x = c_path c ++ slashed p ++ ext).
Proof.
  intros clients w ok s' F P H d x I N.
  destruct (run_others md5 mk del maxlinks ext _ _ _ _ P H d I) as [_ O]. specialize (O x).
  assert (X : exists v, In (Some v) (snd (clients_names statics0 clients)) /\ (x = v \/ x = v ++ ext)).
  { clear H. induction (snd (clients_names statics0 clients)) as [|[v|] r IH].
    - exfalso. apply N. apply O; [auto|intros v []].
    - destruct (list_eq_dec Z.eq_dec x v) as [->|Nv]; [exists v; split; [left; reflexivity|auto]|].
      destruct (list_eq_dec Z.eq_dec x (v ++ ext)) as [->|Nw]; [exists v; split; [left; reflexivity|auto]|].
      destruct IH as (u & Iu & Eu).
      + intros A B. apply O.
        * intros [Y|Y]; [congruence|exact (A Y)].
        * intros y [Y|Y]; [injection Y as <-; exact Nw|exact (B y Y)].
      + exists u. split; [right; exact Iu|exact Eu].
    - destruct IH as (u & Iu & Eu).
      + intros A B. apply O.
        * intros [Y|Y]; [discriminate Y|exact (A Y)].
        * intros y [Y|Y]; [discriminate Y|exact (B y Y)].
      + exists u. split; [right; exact Iu|exact Eu]. }
  destruct X as (v & Iv & E). apply clients_some in Iv; [|exact F].
  destruct Iv as (c & Ic & K & Ou & _ & p & L & -> & NH). exists c, p. do 5 (split; [assumption|]).
  rewrite <- app_assoc in E. exact E.
Qed.

(* Texts of names come apart again. *)
Lemma slashed_inj : forall l l', Forall (fun a => ~ In slash a) l -> Forall (fun a => ~ In slash a) l' -> slashed l = slashed l' -> l = l'.
Proof.
  assert (A : forall a b r r', ~ In slash a -> ~ In slash b -> (r = [] \/ exists t, r = slash :: t) -> (r' = [] \/ exists t, r' = slash :: t) ->
     a ++ r = b ++ r' -> a = b /\ r = r').
  { induction a as [|c a IH]; intros b r r' Na Nb R R' E; destruct b as [|e b]; cbn [app] in E.
    - auto.
    - exfalso. destruct R as [-> |(t & ->)]; [discriminate E|]. injection E as E _. apply Nb. left. congruence.
    - exfalso. destruct R' as [-> |(t & ->)]; [discriminate E|]. injection E as E _. apply Na. left. congruence.
    - injection E as -> E. destruct (IH b r r') as [-> ->]; auto; intros X; [apply Na|apply Nb]; right; exact X. }
  assert (B : forall l, slashed l = [] \/ exists t, slashed l = slash :: t).
  { intros [|a l]; [left; reflexivity|right]. unfold slashed. cbn [flat_map app]. eauto. }
  induction l as [|a l IH]; intros [|b l'] F F' E; [reflexivity| | |].
  - discriminate E.
  - discriminate E.
  - inversion F; inversion F'; subst. unfold slashed in E. cbn [flat_map app] in E. injection E as E.
    apply A in E; [|assumption|assumption|apply B|apply B]. destruct E as [-> E]. f_equal. apply IH; assumption.
Qed.
Lemma slashed_last : forall l a, slashed (l ++ [a]) ++ ext = slashed (l ++ [a ++ ext]).
Proof.
  intros. unfold slashed. rewrite !flat_map_app. cbn [flat_map]. rewrite !app_nil_r, <- app_assoc. reflexivity.
Qed.
(* The same for one client, when every client has a directory of its own name. *)
Definition own_dirs (base : bytes) (clients : list client) : Prop :=
  (forall c, In c clients -> exists n, ~ In slash n /\ c_path c = base ++ slash :: n)
  /\ (forall c c', In c clients -> In c' clients -> c_path c = c_path c' -> c = c').
Lemma mode_core : forall base clients w ok s', Forall fair clients -> w_past w = [] -> own_dirs base clients -> ~ In slash ext ->
  process_all md5 mk del maxlinks ext (snd (clients_names statics0 clients)) (start w) = (ok, s') ->
  forall d c q, In d (disks s') -> In c clients -> Forall (fun n => ~ In slash n) q ->
  look d (c_path c ++ slashed q) = look (w_disk w) (c_path c ++ slashed q)
  \/ (c_lock c = true /\ c_ours c = true /\ exists p, leaf_at (c_kids c) p
      /\ ~ hands_off (fun a => going_on c a /\ (List.length a <= 254)%nat) p
      /\ (q = p \/ exists l e, p = l ++ [e] /\ q = l ++ [e ++ ext])).
Proof.
  intros base clients w ok s' F P [B U] Ne H d c q Id Ic NS.
  set (x := c_path c ++ slashed q).
  assert (DEC : {look d x = look (w_disk w) x} + {look d x <> look (w_disk w) x}).
  { repeat decide equality. }
  destruct DEC as [E|E]; [left; exact E|right].
  destruct (mode_change _ _ _ _ F P H d x Id E) as (c' & p & Ic' & K & O & L & NH & X).
  destruct (B c Ic) as (n & Nn & Pn). destruct (B c' Ic') as (n' & Nn' & Pn').
  assert (PP : Forall (fun a => ~ In slash a) p).
  { rewrite Forall_forall in F. pose proof (plain_at _ _ (proj2 (F c' Ic')) L) as Y.
    eapply Forall_impl; [|exact Y]. intros y [_ Q]. exact Q. }
  assert (Y : exists p', (p' = p \/ exists l e, p = l ++ [e] /\ p' = l ++ [e ++ ext]) /\ x = c_path c' ++ slashed p').
  { destruct X as [X|X]; [exists p; auto|].
    destruct p as [|e l _] using rev_ind; [inversion L|]. rewrite slashed_last in X.
    exists (l ++ [e ++ ext]). split; [right; eauto|exact X]. }
  destruct Y as (p' & Q & X'). clear X.
  assert (PP' : Forall (fun a => ~ In slash a) p').
  { destruct Q as [-> |(l & e & -> & ->)]; [exact PP|]. apply Forall_app in PP. destruct PP as [P1 P2]. inversion P2; subst.
    apply Forall_app. split; [exact P1|]. constructor; [|constructor]. rewrite in_app_iff. tauto. }
  unfold x in X'. rewrite Pn, Pn', !app_slash in X'. apply app_inv_head in X'.
  apply slashed_inj in X'; [|constructor; assumption|constructor; assumption].
  injection X' as En Ep. assert (c' = c) by (apply U; congruence). subst c' p'.
  split; [exact K|]. split; [exact O|]. exists p. auto.
Qed.
(* Nothing inside a backup that is going on, or inside what is being deleted, is
   touched, and no client that is not ours or not locked. *)
Theorem mode_safe : forall base clients w ok s', Forall fair clients -> w_past w = [] -> own_dirs base clients -> ~ In slash ext ->
  process_all md5 mk del maxlinks ext (snd (clients_names statics0 clients)) (start w) = (ok, s') ->
  forall d c a b r, In d (disks s') -> In c clients -> Forall (fun n => ~ In slash n) (a :: b :: r) ->
  (c_lock c = false \/ c_ours c = false \/ a = str "deleteme" \/ (going_on c a /\ (List.length a <= 254)%nat)) ->
  look d (c_path c ++ slashed (a :: b :: r)) = look (w_disk w) (c_path c ++ slashed (a :: b :: r)).
Proof.
  intros base clients w ok s' F P B Ne H d c a b r Id Ic NS R.
  destruct (mode_core base clients w ok s' F P B Ne H d c (a :: b :: r) Id Ic NS) as [E|(K & O & p & L & NH & Q)]; [exact E|exfalso].
  assert (HA : exists p2, p = a :: p2).
  { destruct Q as [<- |(l & e & -> & Ep)]; [eauto|].
    destruct l as [|y l]; [discriminate Ep|]. cbn [app] in Ep. injection Ep as <- _. cbn [app]. eauto. }
  destruct HA as (p2 & ->). cbn [hands_off] in NH.
  destruct R as [R|[R|[R|R]]]; [congruence|congruence|apply NH; auto|apply NH; auto].
Qed.
(* Neither the lock files nor the logs of a backup are. *)
Theorem mode_logs : forall base clients w ok s' pid, Forall fair clients -> w_past w = [] -> own_dirs base clients ->
  ext = str ".bedup." ++ pid -> ~ In slash pid ->
  process_all md5 mk del maxlinks ext (snd (clients_names statics0 clients)) (start w) = (ok, s') ->
  forall d c, In d (disks s') -> In c clients ->
  (forall a, a = str "lockfile" \/ a = str "lockfile.bedup" ->
     look d (c_path c ++ slashed [a]) = look (w_disk w) (c_path c ++ slashed [a]))
  /\ (forall a b r, Forall (fun n => ~ In slash n) (a :: b :: r) -> log_name b ->
     look d (c_path c ++ slashed (a :: b :: r)) = look (w_disk w) (c_path c ++ slashed (a :: b :: r))).
Proof.
  intros base clients w ok s' pid F P B EX NP H d c Id Ic.
  assert (Ne : ~ In slash ext).
  { rewrite EX. rewrite in_app_iff. intros [X|X]; [|exact (NP X)]. vm_compute in X. intuition discriminate. }
  split.
  - intros a Ha.
    assert (NS : Forall (fun n => ~ In slash n) [a]).
    { constructor; [|constructor]. destruct Ha as [-> | ->]; vm_compute; intuition discriminate. }
    destruct (mode_core base clients w ok s' F P B Ne H d c [a] Id Ic NS) as [E|(K & O & p & L & NH & Q)]; [exact E|exfalso].
    destruct Q as [<- |(l & e & -> & Ep)].
    + cbn [hands_off] in NH. tauto.
    + destruct l as [|y [|y' l]]; [|discriminate Ep|discriminate Ep]. cbn [app] in Ep. injection Ep as Ep.
      assert (Z : a = e ++ str ".bedup." ++ pid) by congruence. clear - Z Ha.
      destruct Ha as [-> | ->]; vm_compute in Z;
        repeat (destruct e as [|? e]; [discriminate Z|cbn [app] in Z; injection Z as _ Z]); destruct e; discriminate Z.
  - intros a b r NS LB.
    destruct (mode_core base clients w ok s' F P B Ne H d c (a :: b :: r) Id Ic NS) as [E|(K & O & p & L & NH & Q)]; [exact E|exfalso].
    destruct Q as [<- |(l & e & -> & Ep)].
    + cbn [hands_off] in NH. tauto.
    + destruct l as [|y [|y' l]]; [discriminate Ep| |]; cbn [app] in Ep.
      * injection Ep as <- -> _. cbn [app hands_off] in NH. apply NH. right. right. right. right.
        rewrite EX in LB. clear - LB. destruct LB as (r & LB). unfold log_name.
        destruct LB as [LB|[LB|LB]]; vm_compute in LB;
          repeat (destruct e as [|? e]; [discriminate LB|cbn [app] in LB; injection LB as -> LB];
                  try (exists e; solve [left; reflexivity|right; left; reflexivity|right; right; reflexivity])).
      * injection Ep as <- <- _. cbn [app hands_off] in NH. apply NH. auto.
Qed.
End Mode.
