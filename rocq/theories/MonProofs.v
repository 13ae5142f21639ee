(* Proofs about the status monitor: requests, permission, messages. *)
From Verif Require Import Bytes FrameModel DpthModel BuModel CmdModel UtilModel AuthModel CntrModel CntrProofs MonModel.

(* ---------- requests ---------- *)

(* Specification: a request is written as letters and values with colons between
   them, and a path as the last thing. *)
Definition letter_of (k : key) : Z :=
  match k with KCommand => 106 | KClient => 99 | KBackup => 98 | KLog => 108 end.
Definition pair_text (kv : key * bytes) : bytes := letter_of (fst kv) :: colon :: snd kv.
Fixpoint joined (l : list bytes) : bytes :=
  match l with
  | [] => []
  | [x] => x
  | x :: r => x ++ colon :: joined r
  end.
Definition written (l : list (key * bytes)) (path : option bytes) : bytes :=
  joined (map pair_text l ++ match path with Some p => [112 :: colon :: p] | None => [] end).
(* What was said last for a letter. *)
Fixpoint last_of (k : key) (l : list (key * bytes)) : option bytes :=
  match l with
  | [] => None
  | (k', v) :: r => match last_of k r with
                    | Some x => Some x
                    | None => if letter_of k' =? letter_of k then Some v else None
                    end
  end.
Definition get (k : key) (q : req) : option bytes :=
  match k with KCommand => q_command q | KClient => q_client q | KBackup => q_backup q | KLog => q_log q end.
Definition value (v : bytes) : Prop := v <> [] /\ ~ In colon v.

Lemma parse_run : forall t rest cur k r, ~ In colon t ->
  parse_cmd (t ++ rest) cur k r = parse_cmd rest (rev t ++ cur) k r.
Proof.
  induction t; intros rest cur k r H; [reflexivity|].
  cbn [app parse_cmd rev]. destruct (Z.eqb_spec a colon); [exfalso; apply H; left; auto|].
  rewrite IHt by (intro; apply H; right; auto). rewrite <- app_assoc. reflexivity.
Qed.
Lemma key_of_letter : forall k, key_of [letter_of k] = Some k.
Proof. destruct k; reflexivity. Qed.
Lemma letter_not_p : forall k, beqb [letter_of k] [112] = false.
Proof. destruct k; reflexivity. Qed.
Lemma letter_not_colon : forall k, letter_of k =? colon = false.
Proof. destruct k; reflexivity. Qed.
Lemma rev_ne : forall (A : Type) (l : list A), l <> [] -> rev l <> [].
Proof. intros A l H E. apply H. rewrite <- (rev_involutive l), E. reflexivity. Qed.

Lemma parse_pair : forall k v rest r, value v ->
  parse_cmd (pair_text (k, v) ++ rest) [] None r = parse_cmd rest (rev v) (Some k) r.
Proof.
  intros k v rest r [N C]. unfold pair_text. cbn [fst snd app parse_cmd].
  rewrite letter_not_colon. cbn [rev app]. rewrite Z.eqb_refl, letter_not_p, key_of_letter.
  rewrite parse_run by auto. rewrite app_nil_r. reflexivity.
Qed.
Definition with_path (path : option bytes) (r : req) : req :=
  match path with Some p => set_browse p r | None => r end.
Definition fill_all (l : list (key * bytes)) (r : req) : req :=
  fold_left (fun r kv => set_key (fst kv) (snd kv) r) l r.

Lemma parse_end : forall v k r, value v -> parse_cmd [] (rev v) (Some k) r = set_key k v r.
Proof.
  intros v k r [N _]. cbn [parse_cmd]. pose proof (rev_ne _ v N).
  destruct (rev v) eqn:E; [congruence|]. rewrite <- E, rev_involutive. reflexivity.
Qed.
Lemma parse_next : forall v k r rest, value v ->
  parse_cmd (colon :: rest) (rev v) (Some k) r = parse_cmd rest [] None (set_key k v r).
Proof.
  intros v k r rest [N _]. cbn [parse_cmd]. rewrite Z.eqb_refl. pose proof (rev_ne _ v N).
  destruct (rev v) eqn:E; [congruence|]. rewrite <- E, rev_involutive. reflexivity.
Qed.
Lemma parse_written : forall l path r, Forall (fun kv => value (snd kv)) l ->
  parse_cmd (written l path) [] None r = with_path path (fill_all l r).
Proof.
  induction l as [|[k v] l IH]; intros path r F.
  - destruct path; reflexivity.
  - inversion F; subst. cbn [snd] in *. unfold written. cbn [map app].
    destruct (map pair_text l ++ match path with Some p => [112 :: colon :: p] | None => [] end) eqn:E.
    + cbn [joined]. rewrite <- (app_nil_r (pair_text (k, v))). rewrite parse_pair, parse_end by auto.
      destruct l; [|discriminate]. destruct path; [discriminate|]. reflexivity.
    + change (joined (pair_text (k, v) :: b :: l0)) with (pair_text (k, v) ++ colon :: joined (b :: l0)).
      rewrite parse_pair, parse_next by auto. rewrite <- E. fold (written l path). rewrite IH by auto. reflexivity.
Qed.
Lemma get_set : forall k k' v q, get k (set_key k' v q) = if letter_of k' =? letter_of k then Some v else get k q.
Proof. destruct k, k'; reflexivity. Qed.
Lemma get_browse : forall k p q, get k (set_browse p q) = get k q.
Proof. destruct k; reflexivity. Qed.
Lemma browse_set : forall k v q, q_browse (set_key k v q) = q_browse q.
Proof. destruct k; reflexivity. Qed.
Lemma get_fill : forall l k r, get k (fill_all l r) = match last_of k l with Some v => Some v | None => get k r end.
Proof.
  induction l as [|[k' v] l IH]; intros k r; [reflexivity|]. unfold fill_all. cbn [fold_left fst snd].
  fold (fill_all l (set_key k' v r)). rewrite IH, get_set. cbn [last_of].
  destruct (last_of k l); auto. destruct (letter_of k' =? letter_of k); auto.
Qed.
Lemma browse_fill : forall l r, q_browse (fill_all l r) = q_browse r.
Proof.
  induction l as [|[k' v] l IH]; intros r; [reflexivity|]. unfold fill_all. cbn [fold_left fst snd].
  fold (fill_all l (set_key k' v r)). rewrite IH, browse_set. reflexivity.
Qed.

Theorem request_read : forall l path, Forall (fun kv => value (snd kv)) l ->
  let q := parse_cmd (written l path) [] None noreq in
  (forall k, get k q = last_of k l) /\ q_browse q = path.
Proof.
  intros l path F q. subst q. rewrite parse_written by auto. split.
  - intros k. destruct path; cbn [with_path]; rewrite ?get_browse, get_fill; destruct (last_of k l), k; reflexivity.
  - destruct path; cbn [with_path]; [reflexivity|]. rewrite browse_fill. reflexivity.
Qed.

(* Specification: what a page of the client asks for. *)
Definition wanted (client : bytes) (p : page) : list (key * bytes) :=
  match p with
  | PClients => []
  | PBackups => [(KClient, client)]
  | PBackup b => [(KClient, client); (KBackup, fmt_u b)]
  | PLog b l => [(KClient, client); (KBackup, fmt_u b); (KLog, l)]
  end.
(* Values that may be asked for: no colon or end of line, no white space at the end. *)
Definition askable (v : bytes) : Prop := value v /\ ~ In 10 v /\ isspace_c (List.last v 0) = false.
Definition page_ok (p : page) : Prop :=
  match p with
  | PClients | PBackups => True
  | PBackup b => is_u64 b
  | PLog b l => is_u64 b /\ askable l
  end.
(* The request and the end of the line fit into the 255 characters there are. *)
Definition fits (client : bytes) (p : page) : Prop := zl (written (wanted client p) None) <= 254.

Lemma strip_last : forall s, s <> [] -> isspace_c (List.last s 0) = false -> strip_end (s ++ [10]) = s.
Proof.
  intros s N H. unfold strip_end. rewrite rev_app_distr. cbn [rev app strip_front].
  change (isspace_c 10) with true. cbv iota.
  destruct (@exists_last _ s N) as (a & x & E). subst s. rewrite last_last in H.
  rewrite rev_app_distr. cbn [rev app strip_front]. rewrite H. cbn [rev]. rewrite rev_involutive. reflexivity.
Qed.
Lemma take_line_one : forall s rest cur, ~ In 10 s ->
  take_line (s ++ 10 :: rest) cur = Some (strip_end (rev cur ++ s ++ [10]), rest).
Proof.
  induction s; intros rest cur H.
  - cbn [app take_line]. change (10 =? 10) with true. cbv iota. reflexivity.
  - cbn [app take_line]. destruct (Z.eqb_spec a 10); [exfalso; apply H; left; auto|].
    rewrite IHs by (intro; apply H; right; auto). cbn [rev]. rewrite <- app_assoc. reflexivity.
Qed.
Lemma last_app_ne : forall (a b : bytes) d, b <> [] -> List.last (a ++ b) d = List.last b d.
Proof.
  intros a b d N. destruct (@exists_last _ b N) as (b' & x & E). subst b. rewrite app_assoc, !last_last. reflexivity.
Qed.
Lemma fmt_u_digits : forall n x, is_u64 n -> In x (fmt_u n) -> 48 <= x <= 57.
Proof.
  intros n x H I. destruct (Z_lt_dec x 48); [exfalso; eapply fmt_u_not_in; [exact H| |exact I]; lia|].
  destruct (Z_lt_dec 57 x); [exfalso; eapply fmt_u_not_in; [exact H| |exact I]; lia|]. lia.
Qed.
Lemma fmt_u_ne : forall n, is_u64 n -> fmt_u n <> [].
Proof.
  intros n H E. destruct (fmt_u_spec n H) as (_ & X & _). rewrite E in X. change (List.length (@nil Z)) with 0%nat in X. lia.
Qed.
Lemma last_in : forall (l : bytes) d, l <> [] -> In (List.last l d) l.
Proof. intros l d N. destruct (@exists_last _ l N) as (a & x & E). subst l. rewrite last_last. apply in_or_app; right; left; auto. Qed.
Lemma number_askable : forall b, is_u64 b -> askable (fmt_u b).
Proof.
  intros b H. split; [split|split].
  - apply fmt_u_ne; auto.
  - intro I. pose proof (fmt_u_digits b _ H I). unfold colon in *. lia.
  - intro I. pose proof (fmt_u_digits b _ H I). lia.
  - pose proof (fmt_u_digits b _ H (last_in _ 0 (fmt_u_ne b H))) as R. unfold isspace_c.
    destruct (Z.eqb_spec (List.last (fmt_u b) 0) 32); [lia|]. destruct (Z.leb_spec (List.last (fmt_u b) 0) 13); [lia|].
    rewrite andb_false_r. reflexivity.
Qed.
Lemma wanted_askable : forall client p, askable client -> page_ok p -> Forall (fun kv => askable (snd kv)) (wanted client p).
Proof.
  intros client p C P. destruct p; cbn [wanted page_ok] in *; repeat apply Forall_cons; try apply Forall_nil; cbn [snd]; auto;
    try (apply number_askable; tauto). tauto.
Qed.
Definition text_of (client : bytes) (p : page) : bytes :=
  match p with PClients => [99; colon] | _ => written (wanted client p) None end.
Lemma request_text : forall client p, request_status client p = cap 256 (text_of client p ++ [10]).
Proof.
  intros client p. unfold request_status. f_equal. destruct p; cbn [text_of wanted]; try reflexivity;
  unfold written, pair_text; cbn [map app joined fst snd letter_of];
  change (str "c:") with [99; 58]; change (str ":b:") with [58; 98; 58]; change (str ":l:") with [58; 108; 58];
  unfold colon; repeat (rewrite <- app_assoc || rewrite <- app_comm_cons || rewrite app_nil_l); reflexivity.
Qed.
Lemma written_lines : forall l, Forall (fun kv => askable (snd kv)) l -> ~ In 10 (written l None).
Proof.
  induction l as [|[k v] l IH]; intros F; [intros []|]. inversion F; subst. cbn [snd] in *. destruct H1 as (V & N & _).
  unfold written. cbn [map]. rewrite app_nil_r. 
  assert (A : ~ In 10 (pair_text (k, v))).
  { unfold pair_text. cbn [fst snd]. intros [I|[I|I]]; auto; [destruct k; discriminate|discriminate]. }
  specialize (IH H2). unfold written in IH. rewrite app_nil_r in IH.
  destruct (map pair_text l) eqn:E; [exact A|].
  change (joined (pair_text (k, v) :: b :: l0)) with (pair_text (k, v) ++ colon :: joined (b :: l0)).
  intros I. apply in_app_or in I as [I|[I|I]]; auto. discriminate.
Qed.
Lemma written_last : forall l, l <> [] -> Forall (fun kv => askable (snd kv)) l ->
  written l None <> [] /\ isspace_c (List.last (written l None) 0) = false.
Proof.
  induction l as [|[k v] l IH]; intros NE F; [congruence|]. inversion F; subst. cbn [snd] in *. destruct H1 as ([Vn _] & _ & S).
  unfold written. cbn [map]. rewrite app_nil_r.
  destruct l as [|kv l].
  - cbn [map joined]. split; [discriminate|].
    unfold pair_text. cbn [fst snd]. change (letter_of k :: colon :: v) with ([letter_of k; colon] ++ v). rewrite last_app_ne; auto.
  - destruct (IH ltac:(discriminate) H2) as [A B]. unfold written in A, B. rewrite app_nil_r in A, B.
    cbn [map] in *. set (y := pair_text kv) in *. clearbody y. set (ys := map pair_text l) in *. clearbody ys.
    change (joined (pair_text (k, v) :: y :: ys)) with (pair_text (k, v) ++ colon :: joined (y :: ys)).
    split; [destruct (pair_text (k, v)); discriminate|].
    change (pair_text (k, v) ++ colon :: joined (y :: ys)) with (pair_text (k, v) ++ [colon] ++ joined (y :: ys)).
    rewrite !last_app_ne; auto. intros E. apply app_eq_nil in E as [E _]. discriminate.
Qed.
Lemma text_ok : forall client p, askable client -> page_ok p ->
  ~ In 10 (text_of client p) /\ text_of client p <> [] /\ isspace_c (List.last (text_of client p) 0) = false.
Proof.
  intros client p C P. pose proof (wanted_askable client p C P) as W.
  destruct p; cbn [text_of]; try (split; [|split]; [intros [I|[I|[]]]; discriminate|discriminate|reflexivity]);
  (split; [apply written_lines; auto|apply written_last; auto; discriminate]).
Qed.

(* A request for a page, put on the line by the client, is what the server reads. *)
Theorem page_read : forall client p rest, askable client -> page_ok p -> fits client p ->
  exists line, take_line (request_status client p ++ rest) [] = Some (line, rest) /\
    (forall k, get k (parse_cmd line [] None noreq) = last_of k (wanted client p)) /\
    q_browse (parse_cmd line [] None noreq) = None.
Proof.
  intros client p rest C P F. destruct (text_ok client p C P) as (N & NE & S).
  exists (text_of client p). split.
  - rewrite request_text, cap_all.
    + rewrite <- app_assoc. cbn [app]. rewrite take_line_one by auto. cbn [rev app]. rewrite strip_last by auto. reflexivity.
    + rewrite zl_app. unfold fits in F. destruct p; cbn [text_of] in *; rewrite ?zl_cons, zl_nil in *; lia.
  - destruct p.
    + split; [intros []; reflexivity|reflexivity].
    + apply (request_read (wanted client PBackups) None). eapply Forall_impl; [|apply wanted_askable; auto]. intros ? [? _]; auto.
    + apply (request_read (wanted client (PBackup bno)) None). eapply Forall_impl; [|apply wanted_askable; auto]. intros ? [? _]; auto.
    + apply (request_read (wanted client (PLog bno lname)) None). eapply Forall_impl; [|apply wanted_askable; auto]. intros ? [? _]; auto.
Qed.
Lemma take_line_none : forall s cur, ~ In 10 s -> take_line s cur = None.
Proof.
  induction s; intros cur H; [reflexivity|]. cbn [take_line].
  destruct (Z.eqb_spec a 10); [exfalso; apply H; left; auto|]. apply IHs. intro; apply H; right; auto.
Qed.
(* One that does not fit is sent without its end, and the server goes on waiting. *)
Theorem page_too_long : forall client p, askable client -> page_ok p -> ~ fits client p ->
  take_line (request_status client p) [] = None.
Proof.
  intros client p C P F. destruct (text_ok client p C P) as (N & NE & _).
  apply take_line_none. rewrite request_text. unfold cap. change (Z.to_nat (256 - 1)) with 255%nat.
  assert (L : (255 <= List.length (text_of client p))%nat).
  { unfold fits, zl in F. destruct p; cbn [text_of]; try lia. exfalso. apply F. vm_compute. discriminate. }
  rewrite firstn_app. replace (255 - List.length (text_of client p))%nat with 0%nat by lia.
  rewrite firstn_O, app_nil_r. intro I. apply N. eapply firstn_in; eauto.
Qed.
