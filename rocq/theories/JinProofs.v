(* What the monitor shows after an answer of the server. *)
From Coq Require Import ZArith List Bool Lia Permutation.
From Verif Require Import Bytes DpthModel BuModel CmdModel CntrModel CntrProofs CstatModel MonModel JsonModel JsonProofs JinModel.
Import ListNotations.
Open Scope Z_scope.

(* ---------- the values that the server writes ---------- *)

Definition row_tree (r : row) : json :=
  JMap ((str "name", JStr (r_name r)) :: (str "type", JStr [r_type r]) :: map (fun p => (fst p, JInt (snd p))) (r_vals r)).
Definition flags_tree (l : list flag) : json := JArr (map (fun f => JStr (flag_name f)) l).
Definition backup_tree (b : obu) : json :=
  JMap ([(str "number", JInt (s64 (o_bno b))); (str "timestamp", JInt (s64 (o_time b))); (str "flags", flags_tree (o_flags b))] ++
    match o_counters b with None => [] | Some l => [(str "counters", JArr (map row_tree l))] end ++
    match o_logs b with
    | None => []
    | Some l => [(str "logs", JMap ((str "list", flags_tree l) ::
        match o_log b with None => [] | Some (f, ls) => [(flag_name f, JArr (map JStr ls))] end))]
    end).
Definition child_tree (h : och) : json :=
  JMap [(str "pid", JInt (och_pid h)); (str "backup", JInt (och_bno h)); (str "action", JStr (action_str (och_status h)));
        (str "phase", JStr (status_to_str (och_status h))); (str "counters", JArr (map row_tree (och_counters h)))].
Definition client_tree (c : ocl) : json :=
  JMap ((str "name", JStr (o_name c)) ::
    match o_labels c with [] => [] | l => [(str "labels", JArr (map JStr l))] end ++
    (str "run_status", JStr (run_name (o_run c))) :: (str "protocol", JInt 1) ::
    match o_children c with [] => [] | l => [(str "children", JArr (map child_tree l))] end ++
    match o_phase c with None => [] | Some z => [(str "phase", JStr (status_to_str z))] end ++
    [(str "backups", JArr (map backup_tree (o_backups c)))]).
Definition answer_tree (l : list ocl) : json := JMap [(str "clients", JArr (map client_tree l))].

Lemma flat_map_map : forall (A B C : Type) (f : B -> list C) (g : A -> B) l, flat_map f (map g l) = flat_map (fun x => f (g x)) l.
Proof. induction l as [|x l IH]; [reflexivity|]. cbn [map flat_map]. rewrite IH. reflexivity. Qed.
Lemma flat_map_one : forall (A B : Type) (g : A -> B) l, flat_map (fun x => [g x]) l = map g l.
Proof. induction l as [|x l IH]; [reflexivity|]. cbn [map flat_map app]. rewrite IH. reflexivity. Qed.

Definition kcalls (kv : bytes * json) : list gop := OStr (fst kv) :: calls (snd kv).
Lemma calls_map : forall l, calls (JMap l) = OMapO :: flat_map kcalls l ++ [OMapC].
Proof. reflexivity. Qed.
Lemma calls_arr : forall l, calls (JArr l) = OArrO :: flat_map calls l ++ [OArrC].
Proof. reflexivity. Qed.
Lemma kcalls_arr : forall k l, kcalls (k, JArr l) = arr k (flat_map calls l).
Proof. reflexivity. Qed.

Lemma row_calls_tree : forall r, row_calls r = calls (row_tree r).
Proof.
  intros r. unfold row_tree. rewrite calls_map. cbn [flat_map]. rewrite flat_map_map. reflexivity.
Qed.
Lemma flags_calls_tree : forall l, calls (flags_tree l) = OArrO :: flag_calls l ++ [OArrC].
Proof. intros l. unfold flags_tree, flag_calls. rewrite calls_arr, flat_map_map. cbn [calls]. rewrite flat_map_one. reflexivity. Qed.
Lemma strs_calls : forall k l, kcalls (k, JArr (map JStr l)) = arr k (map OStr l).
Proof. intros. rewrite kcalls_arr, flat_map_map. cbn [calls]. rewrite flat_map_one. reflexivity. Qed.
Lemma counters_calls_tree : forall l, counters_calls l = kcalls (str "counters", JArr (map row_tree l)).
Proof.
  intros l. unfold counters_calls. rewrite kcalls_arr, flat_map_map. f_equal. apply flat_map_ext. exact row_calls_tree.
Qed.
Lemma kcalls_flags : forall k l, kcalls (k, flags_tree l) = arr k (flag_calls l).
Proof. intros. unfold kcalls, arr. cbn [fst snd]. rewrite flags_calls_tree. reflexivity. Qed.
Lemma backup_calls_tree : forall b, backup_calls b = calls (backup_tree b).
Proof.
  intros b. unfold backup_calls, backup_tree. rewrite calls_map, !flat_map_app. cbn [flat_map].
  rewrite kcalls_flags, app_nil_r, <- !app_assoc. f_equal. f_equal. f_equal. f_equal. f_equal.
  { destruct (o_counters b); [|reflexivity]. cbn [flat_map]. rewrite app_nil_r. apply counters_calls_tree. }
  f_equal. destruct (o_logs b) as [l|]; [|reflexivity]. cbn [flat_map]. rewrite app_nil_r. unfold kcalls. cbn [fst snd].
  rewrite calls_map. cbn [flat_map]. rewrite kcalls_flags, <- !app_assoc. do 4 f_equal.
  unfold log_calls. destruct (o_log b) as [[f ls]|]; [|reflexivity]. cbn [flat_map]. rewrite app_nil_r. symmetry. apply strs_calls.
Qed.
Lemma child_calls_tree : forall h, child_calls h = calls (child_tree h).
Proof.
  intros h. unfold child_calls, child_tree. rewrite calls_map, counters_calls_tree. cbn [flat_map]. rewrite app_nil_r. 
  rewrite !app_assoc. reflexivity.
Qed.
Lemma client_calls_tree : forall c, client_calls c = calls (client_tree c).
Proof.
  intros c. unfold client_calls, client_tree. rewrite calls_map. cbn [flat_map]. rewrite !flat_map_app. cbn [flat_map].
  rewrite !flat_map_app. cbn [flat_map]. rewrite !app_nil_r.
  unfold kcalls at 1 3 4. cbn [fst snd calls]. unfold spair, ipair. cbn [app]. rewrite <- !app_assoc. cbn [app]. rewrite <- !app_assoc.
  do 3 f_equal.
  f_equal. { unfold label_calls. destruct (o_labels c) as [|x l]; [reflexivity|]. cbn [flat_map]. rewrite app_nil_r. symmetry. apply strs_calls. }
  do 4 f_equal. f_equal.
  { unfold children_calls. destruct (o_children c) as [|x l]; [reflexivity|]. unfold flat_map at 2. rewrite app_nil_r, kcalls_arr, flat_map_map.
    f_equal. apply flat_map_ext. exact child_calls_tree. }
  f_equal. { destruct (o_phase c); reflexivity. }
  f_equal. rewrite kcalls_arr, flat_map_map. f_equal. apply flat_map_ext. exact backup_calls_tree.
Qed.
Lemma clients_calls_tree : forall l, clients_calls l = calls (answer_tree l).
Proof.
  intros l. unfold clients_calls, answer_tree. rewrite calls_map. cbn [flat_map]. rewrite app_nil_r, kcalls_arr, flat_map_map.
  do 3 f_equal. apply flat_map_ext. exact client_calls_tree.
Qed.

(* ---------- what the callbacks do ---------- *)

Definition kevs (kv : bytes * json) : list jev := EKey (fst kv) :: evs (snd kv).
Lemma evs_map : forall l, evs (JMap l) = EMapO :: flat_map kevs l ++ [EMapC].
Proof. reflexivity. Qed.
Lemma evs_arr : forall l, evs (JArr l) = EArrO :: flat_map evs l ++ [EArrC].
Proof. reflexivity. Qed.

Lemma cut0_cstr : forall s, cstr s -> cut0 s = s.
Proof.
  induction s as [|c s IH]; intros H; [reflexivity|]. cbn [cut0]. pose proof (Forall_inv H) as B. unfold is_char in B.
  destruct (Z.eqb_spec c 0); [lia|]. rewrite IH; [reflexivity|]. exact (Forall_inv_tail H).
Qed.

(* the current client, set to something else *)
Definition seth (h : who) (c : vcl) : who := upd_cur (fun _ => c) h.
Lemma find_at : forall n c l, vc_name c = n -> existsb (fun x => beqb (vc_name x) n) l = true ->
  find (fun x => beqb (vc_name x) n) (at_name n (fun _ => c) l) = Some c.
Proof.
  intros n c l N. induction l as [|x l IH]; intros E; [discriminate E|]. cbn [existsb] in E. cbn [at_name].
  destruct (beqb (vc_name x) n) eqn:X; cbn [find].
  - rewrite N, beqb_refl. reflexivity.
  - rewrite X. apply IH. exact E.
Qed.
Lemma find_exists : forall n (l : list vcl) c, find (fun x => beqb (vc_name x) n) l = Some c ->
  existsb (fun x => beqb (vc_name x) n) l = true /\ vc_name c = n.
Proof.
  intros n l c H. apply find_some in H as [I N]. split; [|apply beqb_eq; exact N].
  apply existsb_exists. exists c. auto.
Qed.
Lemma get_seth : forall h c0 c, get_cur h = Some c0 -> vc_name c = vc_name c0 -> get_cur (seth h c) = Some c.
Proof.
  intros [u nw al] c0 c G N. unfold get_cur, seth, upd_cur in *. destruct u as [| |n]; cbn in *; [discriminate G| |].
  - rewrite G. reflexivity.
  - destruct (find_exists _ _ _ G) as [E X]. apply find_at; congruence.
Qed.
Lemma at_at : forall n f c l, vc_name c = n -> at_name n f (at_name n (fun _ => c) l) = at_name n (fun _ => f c) l.
Proof.
  intros n f c l N. induction l as [|x l IH]; [reflexivity|]. cbn [at_name]. destruct (beqb (vc_name x) n) eqn:X; cbn [at_name].
  - rewrite N, beqb_refl. reflexivity.
  - rewrite X, IH. reflexivity.
Qed.
Lemma upd_seth : forall h c0 c f, get_cur h = Some c0 -> vc_name c = vc_name c0 -> upd_cur f (seth h c) = seth h (f c).
Proof.
  intros [u nw al] c0 c f G N. unfold get_cur, seth, upd_cur in *. destruct u as [| |n]; cbn in *; [discriminate G| |].
  - rewrite G. reflexivity.
  - destruct (find_exists _ _ _ G) as [E X]. rewrite at_at; congruence.
Qed.

(* one number of a row, a row, rows *)
Definition apply_val (k : bytes) (v : Z) (e : ent) : ent :=
  if beqb k (str "count") then set_count v e
  else if beqb k (str "changed") then set_changed v e
  else if beqb k (str "same") then set_same v e
  else if beqb k (str "deleted") then set_deleted v e
  else set_phase1 v e.
Definition apply_vals (l : list (bytes * Z)) (e : ent) : ent := fold_left (fun e p => apply_val (fst p) (snd p) e) l e.
Definition apply_row (l : list ent) (r : row) : list ent := at_ent (r_type r) (apply_vals (r_vals r)) l.
Definition apply_rows (rs : list row) (l : list ent) : list ent := fold_left apply_row rs l.
Definition val_keys : list bytes := [str "count"; str "changed"; str "same"; str "deleted"; str "scanned"].

Lemma apply_val_cmd : forall k v e, e_cmd (apply_val k v e) = e_cmd e.
Proof. intros. unfold apply_val. repeat destruct (beqb _ _); reflexivity. Qed.
Lemma apply_vals_cmd : forall l e, e_cmd (apply_vals l e) = e_cmd e.
Proof. induction l as [|p l IH]; intros e; [reflexivity|]. unfold apply_vals in *. cbn [fold_left]. rewrite IH. apply apply_val_cmd. Qed.
Lemma at_ent_cmds : forall c f l, (forall e, e_cmd (f e) = e_cmd e) -> map e_cmd (at_ent c f l) = map e_cmd l.
Proof.
  intros c f l H. induction l as [|e l IH]; [reflexivity|]. cbn [at_ent]. destruct (e_cmd e =? c); cbn [map]; [rewrite H|rewrite IH]; reflexivity.
Qed.
Lemma at_ent_twice : forall c f g l, (forall e, e_cmd (f e) = e_cmd e) -> at_ent c g (at_ent c f l) = at_ent c (fun e => g (f e)) l.
Proof.
  intros c f g l H. induction l as [|e l IH]; [reflexivity|]. cbn [at_ent]. destruct (e_cmd e =? c) eqn:E; cbn [at_ent].
  - rewrite H, E. reflexivity.
  - rewrite E, IH. reflexivity.
Qed.
Lemma at_ent_ext : forall c f g l, (forall e, f e = g e) -> at_ent c f l = at_ent c g l.
Proof. intros c f g l H. induction l as [|e l IH]; [reflexivity|]. cbn [at_ent]. rewrite H, IH. reflexivity. Qed.
Lemma at_ent_id : forall c l, at_ent c (fun e => e) l = l.
Proof. intros c l. induction l as [|e l IH]; [reflexivity|]. cbn [at_ent]. rewrite IH. destruct (_ =? _); reflexivity. Qed.
Lemma apply_row_cmds : forall r l, map e_cmd (apply_row l r) = map e_cmd l.
Proof. intros. apply at_ent_cmds. apply apply_vals_cmd. Qed.
Lemma apply_rows_cmds : forall rs l, map e_cmd (apply_rows rs l) = map e_cmd l.
Proof. induction rs as [|r rs IH]; intros l; [reflexivity|]. unfold apply_rows in *. cbn [fold_left]. rewrite IH. apply apply_row_cmds. Qed.

(* the first counters of a client, changed *)
Definition headset (g : list ent -> list ent) (c : vcl) : vcl :=
  set_vcntrs match vc_cntrs c with
             | [] => []
             | n :: r => mkvcn (vn_pid n) (vn_bno n) (vn_phase n) (g (vn_ents n)) :: r
             end c.
Lemma headset_name : forall g c, vc_name (headset g c) = vc_name c.
Proof. reflexivity. Qed.
Lemma headset_twice : forall f g c, headset g (headset f c) = headset (fun l => g (f l)) c.
Proof. intros f g [n r [|m ms] b]; reflexivity. Qed.
Lemma headset_ext : forall f g c, (forall l, f l = g l) -> headset f c = headset g c.
Proof. intros f g [n r [|m ms] b] H; unfold headset; cbn; [reflexivity|]. rewrite H. reflexivity. Qed.
Lemma headset_id : forall c, headset (fun l => l) c = c.
Proof. intros [n r [|[p b f e] ms] bu]; reflexivity. Qed.

Definition row_ok (r : row) : Prop :=
  In (r_type r) (map e_cmd table) /\ r_vals r <> [] /\ Forall (fun p => In (fst p) val_keys) (r_vals r).

Section Run.
Variable date : Z -> bytes.
Variable now : Z.
Notation cb := (cb date now).
Notation cbs := (cbs date now).

Lemma cbs_app : forall a b s, cbs (a ++ b) s = match cbs a s with COk s' => cbs b s' | x => x end.
Proof. induction a as [|e a IH]; intros b s; [reflexivity|]. cbn [app JinModel.cbs]. destruct (cb e s); auto. Qed.
Lemma cbs_cons : forall e es s s', cb e s = COk s' -> cbs (e :: es) s = cbs es s'.
Proof. intros e es s s' H. cbn [JinModel.cbs]. rewrite H. reflexivity. Qed.
Lemma cbs_then : forall a b s s', cbs a s = COk s' -> cbs (a ++ b) s = cbs b s'.
Proof. intros. rewrite cbs_app, H. reflexivity. Qed.

Section Client.
Variable h : who.
Variable c0 : vcl.
Hypothesis G : get_cur h = Some c0.

(* in an array of counters of the client, whose state is c *)
Definition J (d : Z) (k : bytes) (b f c l : bool) (a : acc) (v : vcl) (cn : cnt) (x : outp) : jst :=
  mkj (mkctl d k b f c l false) a (seth h v) cn x.
Definition cntrs_of (v : vcl) : list ent := match vc_cntrs v with n :: _ => vn_ents n | [] => [] end.

Lemma val_step : forall d k0 b a v p n ph ty x key z, vc_name v = vc_name c0 -> In key val_keys ->
  cbs [EKey key; EInt z] (J d k0 b false true false a v (mkcnt p n ph (EAt ty)) x) =
  COk (J d key b false true false a (headset (at_ent ty (apply_val key z)) v) (mkcnt p n ph (EAt ty)) x).
Proof.
  intros d k0 b a v p n ph ty x key z N I. unfold J.
  assert (U : forall f, upd_cur (headset f) (seth h v) = seth h (headset f v)) by (intros; apply (upd_seth _ c0); auto).
  destruct I as [<-|[<-|[<-|[<-|[<-|[]]]]]];
    (erewrite cbs_cons by reflexivity; erewrite cbs_cons; [reflexivity|];
     unfold JinModel.cb, input_integer; cbn -[upd_cur seth set_count set_changed set_same set_deleted set_phase1];
     unfold set_ent; cbn -[upd_cur seth set_count set_changed set_same set_deleted set_phase1]; unfold set_h; cbn -[upd_cur seth set_count set_changed set_same set_deleted set_phase1];
     match goal with |- COk (mkj _ _ (upd_cur ?F _) _ _) = COk (mkj _ _ (seth _ ?V) _ _) =>
       replace (upd_cur F (seth h v)) with (seth h V) by (symmetry; apply (upd_seth _ c0); auto) end; reflexivity).
Qed.

Lemma vals_run : forall l d k0 b a v p n ph ty x, vc_name v = vc_name c0 -> Forall (fun q => In (fst q) val_keys) l ->
  exists k, cbs (flat_map kevs (map (fun q => (fst q, JInt (snd q))) l)) (J d k0 b false true false a v (mkcnt p n ph (EAt ty)) x) =
    COk (J d k b false true false a (headset (at_ent ty (apply_vals l)) v) (mkcnt p n ph (EAt ty)) x).
Proof.
  induction l as [|[key z] l IH]; intros d k0 b a v p n ph ty x N F.
  - exists k0. cbn [map flat_map JinModel.cbs]. rewrite (headset_ext _ (fun l => l)); [rewrite headset_id; reflexivity|].
    intros l. apply at_ent_id.
  - cbn [map flat_map]. pose proof (Forall_inv F) as I. cbn [fst] in I.
    destruct (IH d key b a (headset (at_ent ty (apply_val key z)) v) p n ph ty x N (Forall_inv_tail F)) as (k & E).
    exists k. change (kevs (fst (key, z), JInt (snd (key, z)))) with [EKey key; EInt z].
    rewrite (cbs_then _ _ _ _ (val_step d k0 b a v p n ph ty x key z N I)), E, headset_twice.
    do 2 f_equal. apply headset_ext. intros e. rewrite at_ent_twice by (apply apply_val_cmd). reflexivity.
Qed.

#[local] Arguments set_t _ _ /.
#[local] Arguments set_a _ _ /.
#[local] Arguments set_h _ _ /.
#[local] Arguments set_c _ _ /.
#[local] Arguments set_x _ _ /.
#[local] Arguments deeper _ _ /.
#[local] Arguments input_end_map _ /.
#[local] Arguments in_bu _ /.
Ltac go := erewrite cbs_cons by (cbn -[get_cur seth upd_cur start_counters str_to_status status_to_str action_str run_of run_name s32 u64 s64 Z.add Z.lor
  at_ent table headset end_backups input_name input_type input_flag need_cur new_vcn set_vcntrs set_vrun]; reflexivity).

Lemma row_run : forall r d k0 b a v p n ph en x, vc_name v = vc_name c0 -> vc_cntrs v <> [] ->
  map e_cmd (cntrs_of v) = map e_cmd table -> row_ok r ->
  exists k, cbs (evs (row_tree r)) (J d k0 b false true false a v (mkcnt p n ph en) x) =
    COk (J d k b false true false a (headset (fun l => apply_row l r) v) (mkcnt p n ph (EAt (r_type r))) x).
Proof.
  intros r d k0 b a v p n ph en x N NE M (I & _ & F). unfold row_tree. rewrite evs_map. cbn [flat_map].
  change (kevs (str "name", JStr (r_name r))) with [EKey (str "name"); EStr (r_name r)].
  change (kevs (str "type", JStr [r_type r])) with [EKey (str "type"); EStr [r_type r]]. cbn [app].
  destruct (vals_run (r_vals r) (d + 1) (str "type") b a v p n ph (r_type r) x N F) as (k & E).
  exists k. unfold J at 1. go. go.
  go. go.
  rewrite (cbs_cons _ _ _ (J (d + 1) (str "type") b false true false a v (mkcnt p n ph (EAt (r_type r))) x)).
  - rewrite (cbs_then _ _ _ _ E). unfold J. erewrite cbs_cons; [reflexivity|].
    unfold JinModel.cb, input_end_map, deeper, set_t, in_bu. cbn [j_t t_depth t_b t_f t_c t_l negb]. 
    rewrite andb_false_r. cbn [andb]. replace (d + 1 + -1) with d by lia. reflexivity.
  - assert (Z0 : r_type r <> 0). { intros Z0. rewrite Z0 in I. cbn in I. repeat destruct I as [I|I]; try discriminate I. exact I. }
    unfold JinModel.cb, input_string. cbn [cut0]. destruct (Z.eqb_spec (r_type r) 0) as [|_]; [contradiction|].
    cbn -[get_cur seth]. unfold input_type. cbn [j_h]. rewrite (get_seth h c0 v G N).
    unfold cntrs_of in M. destruct (vc_cntrs v) as [|m ms] eqn:C; [congruence|].
    cbn [hd0]. replace (existsb (fun e => e_cmd e =? r_type r) (vn_ents m)) with true; [reflexivity|].
    symmetry. apply existsb_exists. rewrite <- M in I. apply in_map_iff in I as (e & Q & I). exists e. split; [exact I|]. lia.
Qed.

Lemma rows_run : forall rs d k0 b a v p n ph en x, vc_name v = vc_name c0 -> vc_cntrs v <> [] ->
  map e_cmd (cntrs_of v) = map e_cmd table -> Forall row_ok rs ->
  exists k en', cbs (flat_map evs (map row_tree rs)) (J d k0 b false true false a v (mkcnt p n ph en) x) =
    COk (J d k b false true false a (headset (apply_rows rs) v) (mkcnt p n ph en') x).
Proof.
  induction rs as [|r rs IH]; intros d k0 b a v p n ph en x N NE M F.
  - exists k0, en. cbn [map flat_map JinModel.cbs]. rewrite (headset_ext _ (fun l => l)) by reflexivity. rewrite headset_id. reflexivity.
  - cbn [map flat_map]. destruct (row_run r d k0 b a v p n ph en x N NE M (Forall_inv F)) as (k & E).
    destruct (IH d k b a (headset (fun l => apply_row l r) v) p n ph (EAt (r_type r)) x N) as (k' & en' & E').
    + unfold headset. cbn. destruct (vc_cntrs v); [congruence|discriminate].
    + rewrite <- M. unfold cntrs_of, headset. cbn. destruct (vc_cntrs v) as [|m ms]; [reflexivity|]. cbn. apply apply_row_cmds.
    + exact (Forall_inv_tail F).
    + exists k', en'. rewrite (cbs_then _ _ _ _ E), E', headset_twice. reflexivity.
Qed.

(* ---------- children ---------- *)

Definition child_ok (o : och) : Prop :=
  is_int (och_pid o) /\ is_int (och_bno o) /\ 0 <= och_status o <= 9 /\ Forall row_ok (och_counters o).
Definition child_view (o : och) : vcn :=
  mkvcn (och_pid o) (och_bno o) (och_status o) (apply_rows (och_counters o) (vn_ents (new_vcn now (och_pid o)))).

Lemma s32_small : forall z, is_int z -> s32 z = z.
Proof.
  intros z H. unfold is_int, s32 in *. change (2 ^ 31) with 2147483648 in *. change (2 ^ 32) with 4294967296 in *.
  destruct (Z.ltb_spec (z mod 4294967296) 2147483648) as [L|L]; pose proof (Z.div_mod z 4294967296 ltac:(lia)); pose proof (Z.mod_pos_bound z 4294967296 ltac:(lia)).
  - assert (z / 4294967296 = 0) by nia. lia.
  - assert (z / 4294967296 = -1) by nia. lia.
Qed.
Lemma status_back : forall z, 0 <= z <= 9 -> str_to_status (cut0 (status_to_str z)) = z.
Proof.
  intros z H. assert (C : z = 0 \/ z = 1 \/ z = 2 \/ z = 3 \/ z = 4 \/ z = 5 \/ z = 6 \/ z = 7 \/ z = 8 \/ z = 9) by lia.
  repeat destruct C as [->|C]; try subst z; reflexivity.
Qed.
Lemma at_pid_none : forall p b f l, ~ In p (map vn_pid l) -> at_pid p b f l = None.
Proof.
  intros p b f l H. induction l as [|n l IH]; [reflexivity|]. cbn [map] in H. cbn [at_pid].
  destruct (Z.eqb_spec (vn_pid n) p) as [E|E]; [exfalso; apply H; left; exact E|]. rewrite IH; [reflexivity|]. intros X. apply H. right. exact X.
Qed.

Lemma child_run : forall o d k0 a v cn x, vc_name v = vc_name c0 -> child_ok o -> ~ In (och_pid o) (map vn_pid (vc_cntrs v)) ->
  exists k cn', cbs (evs (child_tree o)) (J d k0 false false false false a v cn x) =
    COk (J d k false false false false a (set_vcntrs (child_view o :: vc_cntrs v) v) cn' x).
Proof.
  intros o d k0 a v [p n ph en] x N (I1 & I2 & I3 & F) NI. unfold child_tree. rewrite evs_map. cbn [flat_map]. rewrite app_nil_r.
  unfold kevs. cbn [fst snd]. rewrite evs_arr. cbn [evs app]. unfold J at 1.
  do 4 (go). go. go.
  go. go.
  erewrite cbs_cons. 2:{ unfold JinModel.cb, input_string. cbn -[get_cur seth need_cur str_to_status cut0]. unfold need_cur. cbn [j_h].
    rewrite (get_seth h c0 v G N), status_back by exact I3. reflexivity. }
  go.
  set (v1 := set_vcntrs (mkvcn (och_pid o) (och_bno o) (och_status o) (vn_ents (new_vcn now (och_pid o))) :: vc_cntrs v) v).
  erewrite (cbs_cons EArrO). 2:{ unfold JinModel.cb, input_start_array. cbn -[get_cur seth upd_cur start_counters].
    rewrite (get_seth h c0 v G N). cbn -[get_cur seth upd_cur start_counters]. unfold set_c, set_h, set_t. cbn [j_t j_a j_h j_c j_x].
    rewrite (upd_seth h c0 v _ G N). unfold start_counters. cbn [c_pid c_bno c_phase].
    rewrite !s32_small, at_pid_none by assumption. fold v1. reflexivity. }
  assert (M1 : map e_cmd (cntrs_of v1) = map e_cmd table) by (apply at_ent_cmds; reflexivity).
  assert (NE1 : vc_cntrs v1 <> []) by discriminate.
  destruct (rows_run (och_counters o) (d + 1) (str "counters") false a v1 (och_pid o) (och_bno o) (och_status o)
    match en with ENull => ENull | _ => EStale end x N NE1 M1 F) as (k & en' & E).
  rewrite <- app_assoc. unfold J in E. rewrite (cbs_then _ _ _ _ E). cbn [app].
  go. go. cbn [JinModel.cbs].
  exists k. eexists. unfold J. cbn [t_depth j_t]. replace (d + 1 + -1) with d by lia. reflexivity.
Qed.

Lemma children_run : forall l d k0 a v cn x, vc_name v = vc_name c0 -> Forall child_ok l ->
  NoDup (map och_pid l) -> (forall o, In o l -> ~ In (och_pid o) (map vn_pid (vc_cntrs v))) ->
  exists k cn', cbs (flat_map evs (map child_tree l)) (J d k0 false false false false a v cn x) =
    COk (J d k false false false false a (set_vcntrs (rev (map child_view l) ++ vc_cntrs v) v) cn' x).
Proof.
  induction l as [|o l IH]; intros d k0 a v cn x N F ND NI.
  - exists k0, cn. cbn. destruct v; reflexivity.
  - cbn [map flat_map rev]. cbn [map] in ND. inversion ND as [|? ? ND1 ND2]; subst.
    destruct (child_run o d k0 a v cn x N (Forall_inv F) (NI o (or_introl eq_refl))) as (k & cn' & E).
    destruct (IH d k a (set_vcntrs (child_view o :: vc_cntrs v) v) cn' x N (Forall_inv_tail F) ND2) as (k2 & cn2 & E2).
    { intros q Q. cbn [vc_cntrs set_vcntrs map vn_pid child_view]. intros [X|X].
      - apply ND1. rewrite X. apply in_map. exact Q.
      - apply (NI q); [right; exact Q|exact X]. }
    exists k2, cn2. rewrite (cbs_then _ _ _ _ E), E2. cbn [vc_cntrs set_vcntrs]. rewrite <- app_assoc. reflexivity.
Qed.

(* ---------- backups ---------- *)

Definition bits (l : list flag) (z : Z) : Z := fold_left (fun z f => Z.lor z (bit f)) l z.
Definition bu_ok (b : obu) : Prop :=
  0 < o_bno b <= llmax /\ is_ll (o_time b) /\ incl (o_flags b) some_flags /\ o_counters b = None /\ o_browse b = None /\
  match o_logs b with Some l => incl l log_flags | None => o_log b = None end /\
  match o_log b with Some (f, ls) => In f log_flags /\ Forall cstr ls | None => True end.
Definition bu_view (b : obu) : vbu :=
  mkvbu (o_bno b) (bits (o_flags b ++ match o_logs b with Some l => l | None => [] end) 0) (Some (date (o_time b))).

Lemma s64_small : forall z, is_ll z -> s64 z = z.
Proof.
  intros z H. unfold is_ll, llmax, s64, u64 in *. change (2 ^ 63) with 9223372036854775808. change (2 ^ 64) with 18446744073709551616.
  pose proof (Z.div_mod z 18446744073709551616 ltac:(lia)). pose proof (Z.mod_pos_bound z 18446744073709551616 ltac:(lia)).
  destruct (Z.ltb_spec (z mod 18446744073709551616) 9223372036854775808) as [L|L].
  - assert (z / 18446744073709551616 = 0) by nia. lia.
  - assert (z / 18446744073709551616 = -1) by nia. lia.
Qed.
Lemma flag_found : forall f, In f some_flags -> find (fun g => beqb (cut0 (flag_name f)) (flag_name g)) some_flags = Some f.
Proof. intros f I. repeat destruct I as [<-|I]; try reflexivity. destruct I. Qed.
Lemma log_flag_found : forall f, In f log_flags -> find (fun g => beqb (cut0 (flag_name f)) (flag_name g)) log_flags = Some f.
Proof. intros f I. repeat destruct I as [<-|I]; try reflexivity. destruct I. Qed.
Lemma evs_flags : forall l, evs (flags_tree l) = EArrO :: map (fun f => EStr (flag_name f)) l ++ [EArrC].
Proof. intros l. unfold flags_tree. rewrite evs_arr, flat_map_map. cbn [evs]. rewrite flat_map_one. reflexivity. Qed.

Lemma flags_run : forall l d n t z L v cn x, vc_name v = vc_name c0 -> incl l some_flags ->
  cbs (map (fun f => EStr (flag_name f)) l) (J d (str "flags") true true false false (mkacc n t z L) v cn x) =
  COk (J d (str "flags") true true false false (mkacc n t (bits l z) L) v cn x).
Proof.
  induction l as [|f l IH]; intros d n t z L v cn x N I; [reflexivity|]. cbn [map].
  rewrite (cbs_cons _ _ _ (J d (str "flags") true true false false (mkacc n t (Z.lor z (bit f)) L) v cn x)).
  - apply IH; [exact N|]. intros q Q. apply I. right. exact Q.
  - unfold J, JinModel.cb, input_string. cbn -[get_cur seth cut0 input_flag need_cur flag_name]. unfold need_cur. cbn [j_h]. rewrite (get_seth h c0 v G N).
    unfold input_flag, is_wrap. rewrite flag_found by (apply I; left; reflexivity). reflexivity.
Qed.
Lemma list_run : forall l d n t z L v cn x, incl l log_flags ->
  cbs (map (fun f => EStr (flag_name f)) l) (J d (str "list") true false false true (mkacc n t z L) v cn x) =
  COk (J d (str "list") true false false true (mkacc n t (bits l z) L) v cn x).
Proof.
  induction l as [|f l IH]; intros d n t z L v cn x I; [reflexivity|]. cbn [map].
  rewrite (cbs_cons _ _ _ (J d (str "list") true false false true (mkacc n t (Z.lor z (bit f)) L) v cn x)).
  - apply IH. intros q Q. apply I. right. exact Q.
  - unfold J, JinModel.cb, input_string. cbn -[get_cur seth cut0 input_flag need_cur flag_name].
    unfold input_flag, is_wrap. rewrite log_flag_found by (apply I; left; reflexivity). reflexivity.
Qed.

(* the part of a backup up to the list of logs *)
Definition bu_start (b : obu) : list jev :=
  [EMapO; EKey (str "number"); EInt (s64 (o_bno b)); EKey (str "timestamp"); EInt (s64 (o_time b)); EKey (str "flags"); EArrO] ++
  map (fun f => EStr (flag_name f)) (o_flags b) ++ [EArrC].
Lemma start_run : forall b d k0 L v cn x, vc_name v = vc_name c0 -> bu_ok b ->
  cbs (bu_start b) (J d k0 true false false false (mkacc 0 None 0 L) v cn x) =
  COk (J (d + 1) (str "flags") true false false false (mkacc (o_bno b) (Some (date (o_time b))) (bits (o_flags b) 0) L) v cn x).
Proof.
  intros b d k0 L v cn x N (B1 & B2 & B3 & _). unfold bu_start. cbn [app]. unfold J at 1.
  rewrite !s64_small by (unfold is_ll, llmax in *; lia). go. go.
  erewrite cbs_cons. 2:{ cbn -[get_cur seth u64]. rewrite (get_seth h c0 v G N). cbn -[get_cur seth u64].
    rewrite u64_small by (unfold is_u64, llmax in *; lia). reflexivity. }
  go. erewrite cbs_cons. 2:{ cbn -[get_cur seth]. rewrite (get_seth h c0 v G N). cbn -[get_cur seth]. reflexivity. }
  go. go. pose proof (flags_run (o_flags b) (d + 1) (o_bno b) (Some (date (o_time b))) 0 L v cn x N B3) as E. unfold J in E.
  rewrite (cbs_then _ _ _ _ E). go. reflexivity.
Qed.
Lemma logs_run : forall l d k0 n t z L v cn x, incl l log_flags ->
  cbs (EKey (str "logs") :: EMapO :: EKey (str "list") :: EArrO :: map (fun f => EStr (flag_name f)) l ++ [EArrC])
    (J d k0 true false false false (mkacc n t z L) v cn x) =
  COk (J (d + 1) (str "list") true false false false (mkacc n t (bits l z) L) v cn x).
Proof.
  intros l d k0 n t z L v cn x I. unfold J at 1. go. go. go. go.
  pose proof (list_run l (d + 1) n t z L v cn x I) as E. unfold J in E. rewrite (cbs_then _ _ _ _ E). go. reflexivity.
Qed.

Lemma bits_app : forall a b z, bits (a ++ b) z = bits b (bits a z).
Proof. intros. unfold bits. apply fold_left_app. Qed.

Lemma backup_run : forall b d k0 L v cn x, vc_name v = vc_name c0 -> bu_ok b -> o_log b = None ->
  exists k, cbs (evs (backup_tree b)) (J d k0 true false false false (mkacc 0 None 0 L) v cn x) =
    COk (J d k true false false false (mkacc 0 None 0 (L ++ [bu_view b])) v cn x).
Proof.
  intros b d k0 L v cn x N B LG. pose proof (start_run b d k0 L v cn x N B) as S1.
  destruct B as (B1 & B2 & B3 & B4 & B5 & B6 & B7). unfold backup_tree. rewrite B4, LG, evs_map, !flat_map_app. cbn [flat_map app].
  unfold kevs at 1 2 3. cbn [fst snd]. rewrite evs_flags. cbn [evs app]. rewrite app_nil_r.
  match goal with |- context [JinModel.cbs date now ?es _] =>
    replace es with (bu_start b ++ (flat_map kevs match o_logs b with Some l => [(str "logs", JMap [(str "list", flags_tree l)])] | None => [] end ++ [EMapC]))
      by (unfold bu_start; cbn [app]; rewrite <- !app_assoc; reflexivity) end.
  rewrite (cbs_then _ _ _ _ S1). unfold bu_view.
  assert (NZ : o_bno b =? 0 = false) by (apply Z.eqb_neq; lia).
  destruct (o_logs b) as [l|]; cbn [flat_map].
  - rewrite app_nil_r. unfold kevs. cbn [fst snd]. rewrite evs_map. cbn [flat_map]. rewrite app_nil_r. unfold kevs. cbn [fst snd]. rewrite evs_flags.
    match goal with |- context [JinModel.cbs date now ?es _] =>
      replace es with ((EKey (str "logs") :: EMapO :: EKey (str "list") :: EArrO :: map (fun f => EStr (flag_name f)) l ++ [EArrC]) ++ [EMapC; EMapC])
        by (cbn [app]; rewrite <- !app_assoc; reflexivity) end.
    rewrite (cbs_then _ _ _ _ (logs_run l (d + 1) (str "flags") (o_bno b) (Some (date (o_time b))) (bits (o_flags b) 0) L v cn x B6)).
    exists (str "list"). unfold J. go. go. cbn [JinModel.cbs]. unfold add_bu. cbn [a_number]. rewrite NZ. cbn [a_number a_time a_flags a_list].
    rewrite bits_app. do 3 f_equal. lia.
  - exists (str "flags"). unfold J. cbn [app]. go. cbn [JinModel.cbs]. unfold add_bu. cbn [a_number]. rewrite NZ. cbn [a_number a_time a_flags a_list].
    rewrite app_nil_r. do 3 f_equal. lia.
Qed.
Lemma backups_run : forall l d k0 L v cn x, vc_name v = vc_name c0 -> Forall bu_ok l -> Forall (fun b => o_log b = None) l ->
  exists k, cbs (flat_map evs (map backup_tree l)) (J d k0 true false false false (mkacc 0 None 0 L) v cn x) =
    COk (J d k true false false false (mkacc 0 None 0 (L ++ map bu_view l)) v cn x).
Proof.
  induction l as [|b l IH]; intros d k0 L v cn x N F F2.
  - exists k0. cbn. rewrite app_nil_r. reflexivity.
  - cbn [map flat_map]. destruct (backup_run b d k0 L v cn x N (Forall_inv F) (Forall_inv F2)) as (k & E).
    destruct (IH d k (L ++ [bu_view b]) v cn x N (Forall_inv_tail F) (Forall_inv_tail F2)) as (k2 & E2).
    exists k2. rewrite (cbs_then _ _ _ _ E), E2, <- app_assoc. reflexivity.
Qed.

(* the list when the backups of the client have ended *)
Definition bus_set (L : list vbu) (v : vcl) : vcl := set_vbu (mark_live (vc_cntrs v) (merge_bu (vc_bu v) L)) v.
Definition closed (v : vcl) : list vcl :=
  match h_new (seth h v) with Some c => add_cl c (h_all (seth h v)) | None => h_all (seth h v) end.

Lemma end_run : forall d k a0 L v cn x g, vc_name v = vc_name c0 -> a_list (add_bu a0) = L -> 
  a_number (add_bu a0) = 0 -> a_time (add_bu a0) = None -> a_flags (add_bu a0) = 0 ->
  cb EArrC (mkj (mkctl d k true false false false g) a0 (seth h v) cn x) =
  COk (mkj (mkctl d k false false false false g) (mkacc 0 None 0 []) (mkwho UNone None (closed (bus_set L v))) cn x).
Proof.
  intros d k a0 L v cn x g N E E1 E2 E3. unfold JinModel.cb, input_end_array. cbn [j_t in_bu t_b t_f t_c t_l andb negb].
  unfold end_backups. cbn [j_h]. rewrite (get_seth h c0 v G N). cbn [j_a set_h set_a set_t j_t j_c j_x t_depth t_key t_f t_c t_l t_g].
  rewrite (upd_seth h c0 v _ G N), E, E1, E2, E3. reflexivity.
Qed.

Lemma lines_run : forall ls d k t_ a w cn lg wn ln acc, log_key k = true -> t_c t_ = false -> t_key t_ = k -> Forall cstr ls ->
  beqb k (str "name") || beqb k (str "labels") || beqb k (str "run_status") || beqb k (str "action") || beqb k (str "phase") ||
  beqb k (str "flags") || beqb k (str "counters") || beqb k (str "list") || beqb k (str "logs") || beqb k (str "logline") = false ->
  t_depth t_ = d ->
  cbs (map EStr ls) (mkj t_ a w cn (mkoutp acc lg wn ln)) = COk (mkj t_ a w cn (mkoutp (acc ++ ls) lg wn ln)).
Proof.
  induction ls as [|s ls IH]; intros d k t_ a w cn lg wn ln acc K C KE F X D.
  - cbn. rewrite app_nil_r. reflexivity.
  - cbn [map]. rewrite (cbs_cons _ _ _ (mkj t_ a w cn (mkoutp (acc ++ [s]) lg wn ln))).
    + rewrite (IH d k); auto; [|exact (Forall_inv_tail F)]. rewrite <- app_assoc. reflexivity.
    + unfold JinModel.cb, input_string. cbn [j_t j_x]. rewrite C, KE, K, cut0_cstr by (exact (Forall_inv F)).
      repeat match goal with H : _ || _ = false |- _ => apply orb_false_iff in H as [? ?] end.
      repeat match goal with H : beqb k _ = false |- _ => rewrite H; clear H end. reflexivity.
Qed.

Lemma log_run : forall b d k0 v cn lg wn ln f ls, vc_name v = vc_name c0 -> bu_ok b -> o_log b = Some (f, ls) ->
  exists k, cbs (flat_map evs (map backup_tree [b]) ++ [EArrC])
      (J d k0 true false false false (mkacc 0 None 0 []) v cn (mkoutp [] lg wn ln)) =
    COk (mkj (mkctl d k false false false false false) (mkacc 0 None 0 []) (mkwho UNone None (closed (bus_set [bu_view b] v))) cn
      (mkoutp [] lg wn ls)).
Proof.
  intros b d k0 v cn lg wn ln f ls N B LG. pose proof (start_run b d k0 [] v cn (mkoutp [] lg wn ln) N B) as S1.
  destruct B as (B1 & B2 & B3 & B4 & B5 & B6 & B7). cbn [map flat_map]. rewrite app_nil_r. unfold backup_tree. rewrite B4, LG in *.
  destruct (o_logs b) as [l|] eqn:OL; [|discriminate B6].
  destruct B7 as [B7 B8]. rewrite evs_map, !flat_map_app. cbn [flat_map app].
  unfold kevs at 1 2 3. cbn [fst snd]. rewrite evs_flags. cbn [evs app]. rewrite !app_nil_r.
  unfold kevs. cbn [fst snd]. rewrite evs_map. cbn [flat_map]. unfold kevs. cbn [fst snd]. rewrite evs_flags, evs_arr, flat_map_map. cbn [evs].
  rewrite flat_map_one. rewrite app_nil_r.
  match goal with |- context [JinModel.cbs date now ?es _] =>
    replace es with (bu_start b ++ ((EKey (str "logs") :: EMapO :: EKey (str "list") :: EArrO :: map (fun f => EStr (flag_name f)) l ++ [EArrC]) ++
      [EKey (flag_name f); EArrO] ++ map EStr ls ++ [EArrC; EMapC; EMapC; EArrC]))
      by (unfold bu_start; cbn [app]; repeat (rewrite <- !app_assoc; cbn [app]); reflexivity) end.
  rewrite (cbs_then _ _ _ _ S1).
  rewrite (cbs_then _ _ _ _ (logs_run l (d + 1) (str "flags") (o_bno b) (Some (date (o_time b))) (bits (o_flags b) 0) [] v cn _ B6)).
  assert (NZ : o_bno b =? 0 = false) by (apply Z.eqb_neq; lia).
  set (a0 := mkacc (o_bno b) (Some (date (o_time b))) (bits l (bits (o_flags b) 0)) []).
  assert (AB : add_bu a0 = mkacc 0 None 0 [bu_view b]).
  { unfold add_bu, a0. cbn [a_number]. rewrite NZ. cbn [a_list a_flags a_time app]. unfold bu_view. rewrite OL, bits_app. reflexivity. }
  assert (S3 : cbs [EKey (flag_name f); EArrO] (J (d + 1 + 1) (str "list") true false false false a0 v cn (mkoutp [] lg wn ln)) =
    COk (mkj (mkctl (d + 1 + 1) (flag_name f) true false false false true) a0 (seth h v) cn (mkoutp [] lg wn ln))).
  { clearbody a0. clear -B7. repeat destruct B7 as [<-|B7]; try reflexivity. destruct B7. }
  rewrite (cbs_then _ _ _ _ S3).
  erewrite cbs_then. 2:{ apply (lines_run ls (d + 1 + 1) (flag_name f)); try reflexivity; [|exact B8|];
    clear -B7; repeat destruct B7 as [<-|B7]; try reflexivity; destruct B7. }
  rewrite (cbs_cons _ _ _ _ (end_run (d + 1 + 1) (flag_name f) a0 [bu_view b] v cn _ true N ltac:(rewrite AB; reflexivity)
    ltac:(rewrite AB; reflexivity) ltac:(rewrite AB; reflexivity) ltac:(rewrite AB; reflexivity))).
  exists (flag_name f). go. go. go. cbn [JinModel.cbs]. do 3 f_equal. lia.
Qed.

(* ---------- a client ---------- *)

Definition cl_ok (o : ocl) : Prop :=
  cstr (o_name o) /\ Forall cstr (o_labels o) /\ Forall child_ok (o_children o) /\ NoDup (map och_pid (o_children o)) /\ o_phase o = None /\
  Forall bu_ok (o_backups o) /\ (Forall (fun b => o_log b = None) (o_backups o) \/ exists b, o_backups o = [b]).
(* the log that is shown, if the answer has one *)
Definition lines (o : ocl) (ln : list bytes) : list bytes :=
  match o_backups o with [b] => match o_log b with Some (_, ls) => ls | None => ln end | _ => ln end.
Definition T (d : Z) (k : bytes) (all : list vcl) (cn : cnt) (lg wn ln : list bytes) : jst :=
  mkj (mkctl d k false false false false false) (mkacc 0 None 0 []) (mkwho UNone None all) cn (mkoutp [] lg wn ln).

Lemma run_back : forall r, run_of (cut0 (run_name r)) = r.
Proof. intros []; reflexivity. Qed.

Lemma labels_run : forall l d a v cn x, vc_name v = vc_name c0 ->
  cbs (map EStr l) (J d (str "labels") false false false false a v cn x) = COk (J d (str "labels") false false false false a v cn x).
Proof.
  induction l as [|s l IH]; intros d a v cn x N; [reflexivity|]. cbn [map].
  rewrite (cbs_cons _ _ _ (J d (str "labels") false false false false a v cn x)); [apply IH; exact N|].
  unfold J, JinModel.cb, input_string. cbn -[get_cur seth need_cur cut0]. unfold need_cur. cbn [j_h]. rewrite (get_seth h c0 v G N). reflexivity.
Qed.

Lemma rest_run : forall o d v cn lg wn ln, vc_name v = vc_name c0 -> vc_cntrs v = [] -> cl_ok o ->
  exists k cn', cbs (flat_map kevs (match o_labels o with [] => [] | l => [(str "labels", JArr (map JStr l))] end ++
    (str "run_status", JStr (run_name (o_run o))) :: (str "protocol", JInt 1) ::
    match o_children o with [] => [] | l => [(str "children", JArr (map child_tree l))] end ++
    match o_phase o with None => [] | Some z => [(str "phase", JStr (status_to_str z))] end ++
    [(str "backups", JArr (map backup_tree (o_backups o)))]) ++ [EMapC])
    (J (d + 1) (str "name") false false false false (mkacc 0 None 0 []) v cn (mkoutp [] lg wn ln)) =
  COk (T d k (closed (bus_set (map bu_view (o_backups o)) (mkvcl (vc_name v) (o_run o) (rev (map child_view (o_children o))) (vc_bu v)))) cn' lg wn (lines o ln)).
Proof.
  intros o d v cn lg wn ln N C (O1 & O2 & O3 & O4 & O5 & O6 & O7). rewrite O5, !flat_map_app. cbn [flat_map].
  rewrite !flat_map_app. cbn [flat_map app]. rewrite app_nil_r, <- !app_assoc.
  (* labels *)
  assert (S1 : exists k, cbs (flat_map kevs match o_labels o with [] => [] | l => [(str "labels", JArr (map JStr l))] end)
    (J (d + 1) (str "name") false false false false (mkacc 0 None 0 []) v cn (mkoutp [] lg wn ln)) =
    COk (J (d + 1) k false false false false (mkacc 0 None 0 []) v cn (mkoutp [] lg wn ln))).
  { destruct (o_labels o) as [|s l]; [eexists; reflexivity|]. exists (str "labels"). 
    replace (flat_map kevs [(str "labels", JArr (map JStr (s :: l)))]) with (EKey (str "labels") :: EArrO :: map EStr (s :: l) ++ [EArrC]).
    2:{ cbn [flat_map]. rewrite app_nil_r. unfold kevs. cbn [fst snd]. rewrite evs_arr, flat_map_map. cbn [evs]. rewrite flat_map_one. reflexivity. }
    unfold J at 1. go. go. pose proof (labels_run (s :: l) (d + 1) (mkacc 0 None 0 []) v cn (mkoutp [] lg wn ln) N) as E. unfold J in E.
    change (JinModel.cbs date now (map EStr (s :: l) ++ [EArrC])) with (cbs (map EStr (s :: l) ++ [EArrC])).
    rewrite (cbs_then _ _ _ _ E). go. reflexivity. }
  destruct S1 as (k1 & S1). rewrite (cbs_then _ _ _ _ S1). clear S1.
  (* run status and protocol *)
  change (kevs (str "run_status", JStr (run_name (o_run o)))) with [EKey (str "run_status"); EStr (run_name (o_run o))].
  change (kevs (str "protocol", JInt 1)) with [EKey (str "protocol"); EInt 1]. cbn [app]. unfold J at 1. go.
  erewrite cbs_cons. 2:{ unfold JinModel.cb, input_string. cbn -[get_cur seth upd_cur need_cur cut0 run_of set_vrun]. unfold need_cur. cbn [j_h]. rewrite (get_seth h c0 v G N).
    rewrite (upd_seth h c0 v _ G N), run_back. reflexivity. }
  go. go.
  (* children *)
  set (v1 := set_vrun (o_run o) v). set (v2 := set_vcntrs (rev (map child_view (o_children o))) v1).
  assert (S2 : exists k cn', cbs (flat_map kevs match o_children o with [] => [] | l => [(str "children", JArr (map child_tree l))] end)
    (J (d + 1) (str "protocol") false false false false (mkacc 0 None 0 []) v1 cn (mkoutp [] lg wn ln)) =
    COk (J (d + 1) k false false false false (mkacc 0 None 0 []) v2 cn' (mkoutp [] lg wn ln))).
  { destruct (o_children o) as [|s l] eqn:CH.
    - exists (str "protocol"), cn. unfold v2, v1. cbn. destruct v as [vn vr vc vb]. cbn in C. subst vc. reflexivity.
    - assert (X : flat_map kevs [(str "children", JArr (map child_tree (s :: l)))] =
        EKey (str "children") :: EArrO :: flat_map evs (map child_tree (s :: l)) ++ [EArrC]) by (unfold flat_map at 1; rewrite app_nil_r; reflexivity).
      destruct (children_run (s :: l) (d + 1) (str "children") (mkacc 0 None 0 []) v1 cn (mkoutp [] lg wn ln) N O3 O4) as (k & cn' & E).
      { intros q _. unfold v1. cbn [vc_cntrs set_vrun]. rewrite C. intros []. }
      exists k, cn'. rewrite X. unfold J at 1. go. go. unfold J in E.
      rewrite (cbs_then _ _ _ _ E). go. unfold v2, v1. cbn [vc_cntrs set_vrun]. rewrite C, app_nil_r. reflexivity. }
  destruct S2 as (k2 & cn2 & S2). unfold J at 1 in S2. rewrite (cbs_then _ _ _ _ S2). clear S2.
  (* backups *)
  assert (V2 : v2 = mkvcl (vc_name v) (o_run o) (rev (map child_view (o_children o))) (vc_bu v)) by reflexivity.
  unfold kevs. cbn [fst snd]. rewrite evs_arr. cbn [app]. unfold J at 1. go. go. rewrite <- V2.
  assert (NL : Forall (fun b => o_log b = None) (o_backups o) \/ exists b f ls, o_backups o = [b] /\ o_log b = Some (f, ls)).
  { destruct O7 as [O7|(b & O7)]; [left; exact O7|]. destruct (o_log b) as [[f ls]|] eqn:OL; [right; eauto 6|]. left. rewrite O7. auto. }
  destruct NL as [NL|(b & f & ls & OB & OL)].
  - destruct (backups_run (o_backups o) (d + 1) (str "backups") [] v2 cn2 (mkoutp [] lg wn ln) N O6 NL) as (k3 & E).
    exists k3, cn2. unfold J in E. rewrite <- app_assoc. rewrite (cbs_then _ _ _ _ E). cbn [app].
    rewrite (cbs_cons _ _ _ _ (end_run (d + 1) k3 (mkacc 0 None 0 (map bu_view (o_backups o))) _ v2 cn2 _ false N eq_refl eq_refl eq_refl eq_refl)).
    go. cbn [JinModel.cbs]. unfold T. replace (d + 1 + -1) with d by lia. do 3 f_equal. unfold lines.
    destruct (o_backups o) as [|b [|]]; try reflexivity. rewrite (Forall_inv NL). reflexivity.
  - rewrite OB in *. destruct (log_run b (d + 1) (str "backups") v2 cn2 lg wn ln f ls N (Forall_inv O6) OL) as (k3 & E).
    exists k3, cn2. unfold J in E. rewrite (cbs_then _ _ _ _ E). go. cbn [JinModel.cbs]. unfold T. replace (d + 1 + -1) with d by lia.
    unfold lines. rewrite OB, OL. reflexivity.
Qed.
End Client.
#[local] Arguments set_t _ _ /.
#[local] Arguments set_a _ _ /.
#[local] Arguments set_h _ _ /.
#[local] Arguments set_c _ _ /.
#[local] Arguments set_x _ _ /.
Ltac go := erewrite cbs_cons by (cbn -[get_cur seth upd_cur start_counters str_to_status status_to_str action_str run_of run_name s32 u64 s64 Z.add Z.lor
  at_ent table headset end_backups input_name input_type input_flag need_cur new_vcn set_vcntrs set_vrun]; reflexivity).

(* ---------- all clients ---------- *)

Definition client_view (o : ocl) (old : list vbu) : vcl :=
  let cs := rev (map child_view (o_children o)) in
  mkvcl (o_name o) (o_run o) cs (mark_live cs (merge_bu old (map bu_view (o_backups o)))).
Definition the (n : bytes) (l : list vcl) : option vcl := find (fun c => beqb (vc_name c) n) l.
Definition show (all : list vcl) (o : ocl) : list vcl :=
  match the (o_name o) all with
  | Some c => at_name (o_name o) (fun _ => client_view o (vc_bu c)) all
  | None => add_cl (client_view o []) all
  end.

Lemma at_name_const : forall n f l c, the n l = Some c -> at_name n f l = at_name n (fun _ => f c) l.
Proof.
  unfold the. induction l as [|x l IH]; intros c H; [reflexivity|]. cbn [find] in H. cbn [at_name]. destruct (beqb (vc_name x) n).
  - injection H as ->. reflexivity.
  - rewrite (IH c H). reflexivity.
Qed.

Lemma client_run : forall o d k0 all cn lg wn ln, cl_ok o ->
  exists k cn', cbs (evs (client_tree o)) (T d k0 all cn lg wn ln) = COk (T d k (show all o) cn' lg wn (lines o ln)).
Proof.
  intros o d k0 all cn lg wn ln O. pose proof O as (O1 & _). unfold client_tree. rewrite evs_map.
  match goal with |- context [flat_map kevs (?x :: ?l)] => change (flat_map kevs (x :: l)) with ([EKey (str "name"); EStr (o_name o)] ++ flat_map kevs l) end.
  rewrite <- app_assoc. cbn [app]. unfold T at 1. go. go. unfold show.
  destruct (the (o_name o) all) as [c|] eqn:TH.
  - set (h := mkwho (UOld (o_name o)) None all). assert (G : get_cur h = Some c) by exact TH.
    destruct (find_exists _ _ _ TH) as [EX NM].
    erewrite cbs_cons. 2:{ unfold JinModel.cb, input_string. cbn -[cut0 input_name]. rewrite cut0_cstr by exact O1. unfold input_name. cbn [j_h h_new h_all].
      unfold the in TH. rewrite TH, (at_name_const _ _ _ _ TH). cbn [set_h]. reflexivity. }
    destruct (rest_run h c G o d (set_vcntrs [] c) cn lg wn ln eq_refl eq_refl O) as (k & cn' & E). exists k, cn'. etransitivity; [exact E|]. do 2 f_equal.
    unfold closed, h, seth, upd_cur. cbn [h_cur h_new h_all]. unfold client_view, bus_set, set_vbu. cbn [vc_name vc_run vc_cntrs vc_bu set_vcntrs]. rewrite NM. reflexivity.
  - set (c := mkvcl (o_name o) RUnset [] []). set (h := mkwho UNew (Some c) all). assert (G : get_cur h = Some c) by reflexivity.
    erewrite cbs_cons. 2:{ unfold JinModel.cb, input_string. cbn -[cut0 input_name]. rewrite cut0_cstr by exact O1. unfold input_name. cbn [j_h h_new h_all].
      unfold the in TH. rewrite TH. cbn [set_h]. reflexivity. }
    destruct (rest_run h c G o d c cn lg wn ln eq_refl eq_refl O) as (k & cn' & E). exists k, cn'. etransitivity; [exact E|]. reflexivity.
Qed.

Lemma clients_run : forall l d k0 all cn lg wn ln, Forall cl_ok l ->
  exists k cn', cbs (flat_map evs (map client_tree l)) (T d k0 all cn lg wn ln) =
    COk (T d k (fold_left show l all) cn' lg wn (fold_left (fun ln o => lines o ln) l ln)).
Proof.
  induction l as [|o l IH]; intros d k0 all cn lg wn ln F.
  - exists k0, cn. reflexivity.
  - cbn [map flat_map fold_left]. destruct (client_run o d k0 all cn lg wn ln (Forall_inv F)) as (k & cn' & E).
    destruct (IH d k (show all o) cn' lg wn (lines o ln) (Forall_inv_tail F)) as (k2 & cn2 & E2).
    exists k2, cn2. rewrite (cbs_then _ _ _ _ E), E2. reflexivity.
Qed.

Theorem answer_run : forall l k0 all cn lg wn ln, Forall cl_ok l ->
  exists k cn', cbs (evs (answer_tree l)) (T 0 k0 all cn lg wn ln) =
    COk (T 0 k (fold_left show l all) cn' lg wn (fold_left (fun ln o => lines o ln) l ln)).
Proof.
  intros l k0 all cn lg wn ln F. unfold answer_tree. rewrite evs_map. cbn [flat_map]. rewrite app_nil_r. unfold kevs. cbn [fst snd]. rewrite evs_arr. cbn [app].
  unfold T at 1. go. go. go. destruct (clients_run l 1 (str "clients") all cn lg wn ln F) as (k & cn' & E). unfold T at 1 in E.
  exists k, cn'. rewrite <- app_assoc. change (0 + 1) with 1. rewrite (cbs_then _ _ _ _ E). unfold T at 1. cbn [app]. go. go. reflexivity.
Qed.
End Run.
