(* Properties C129, C130. *)
From Verif Require Import Bytes RestoreModel BuModel LstModel ProgModel ProgProofs.

(* ---------- C129 ---------- *)

(* Options are read back as written, whether together or apart. *)
Theorem C129_words : forall es argv, written es argv -> getopt argv = (es, []).
Proof. exact getopt_all. Qed.
Print Assumptions C129_words.
(* After -- no word is an option. *)
Theorem C129_end : forall es argv rest, written es argv -> getopt (argv ++ str "--" :: rest) = (es, rest).
Proof. intros es argv rest H. rewrite (getopt_written es argv H). cbn. rewrite app_nil_r. reflexivity. Qed.
Print Assumptions C129_end.
Example C129_end_ex : getopt [str "-a"; str "l"; str "--"; str "-a"] = ([(97, str "l")], [str "-a"]).
Proof. vm_compute. reflexivity. Qed.

(* Whenever something is run, whatever the words were: every option was good, and
   what is run is what they say, after the delay and the lock, in this order. *)
Theorem C129_run : forall w argv e, In e (fst (real_main w argv)) -> is_run e = true ->
  exists es c a j d l,
    getopt argv = (es, []) /\ Forall goes es /\ given 116 es = false /\
    match last_of 97 es with Some t => exists b, word t a b | None => a = PList end /\
    w_load w (last_of 99 es) (over_all es a) = Some c /\
    (a = PDelete -> nth_error (args 98 es) 0 <> None) /\
    handed es a c j /\
    fst (real_main w argv) = ELoad (last_of 99 es) (over_all es a) :: d ++ l ++ [EUser; e] /\
    (d = [] \/ exists r, d = [EDelay r] /\ c_mode c = MClient /\ (a = PTimed \/ a = PTimer) /\ r <> 0 /\
       r = (if num (last_of 113 es) =? 0 then c_rand c else num (last_of 113 es))) /\
    ((l = [] /\ c_mode c <> MServer /\ (c_mode c = MClient -> ~ locking a)) \/
     (l = [ELock] /\ w_lock w = true /\ (c_mode c = MServer \/ (c_mode c = MClient /\ locking a)))) /\
    w_user w = true /\
    (c_mode c = MServer -> e = EServer (given 103 es) j /\ snd (real_main w argv) = w_server w) /\
    (c_mode c <> MServer -> e = EClient a j /\ snd (real_main w argv) = w_client w).
Proof. exact run_shape. Qed.
Print Assumptions C129_run.

(* And it is run if nothing is in the way. *)
Theorem C129_happens : forall w argv es, written es argv -> Forall goes es -> given 116 es = false ->
  exists a, match last_of 97 es with Some t => exists b, word t a b | None => a = PList end /\
  forall c, w_load w (last_of 99 es) (over_all es a) = Some c -> w_user w = true -> w_lock w = true ->
    (a = PDelete -> nth_error (args 98 es) 0 <> None) ->
    exists e, In e (fst (real_main w argv)) /\ is_run e = true.
Proof. exact run_happens. Qed.
Print Assumptions C129_happens.

Definition conf1 (m : mode) : conf := mkconf m 300 false false false 0 None None None None None None None None.
Definition world1 (m : mode) : world := mkworld (fun _ _ => Some (conf1 m)) (fun _ => true) true true 0 0.
(* burp -fr ^/home -b 3 -a restore -d /tmp/x/ -s2 *)
Definition argv1 : list bytes :=
  [str "-fr"; str "^/home"; str "-b"; str "3"; str "-a"; str "restore"; str "-d"; str "/tmp/x/"; str "-s2"].
Definition es1 : list (Z * bytes) :=
  [(102, []); (114, str "^/home"); (98, str "3"); (97, str "restore"); (100, str "/tmp/x/"); (115, str "2")].
Lemma fls : forall l, forallb (fun c => among (str "FfghijnQtVvXx?") c) l = true -> Forall flag l.
Proof.
  intros l H. apply Forall_forall. intros c I. rewrite forallb_forall in H. specialize (H c I).
  unfold among in H. apply existsb_exists in H. destruct H as (x & Ix & E). apply Z.eqb_eq in E. subst x. exact Ix.
Qed.
Ltac val := vm_compute; tauto.
Example C129_witness : written es1 argv1 /\ Forall goes es1 /\
  real_main (world1 MClient) argv1 =
    ([ELoad None []; EUser;
      EClient PRestore (mkjob None [] (Some (str "3")) None (Some (str "/tmp/x")) (Some (str "/tmp/x")) (Some (str "^/home")) false 2 true
                          true true None None None VssOn)], 0) /\
  real_main (world1 MClient) [str "-at"] =
    ([ELoad None []; EDelay 300; ELock; EUser;
      EClient PTimed (mkjob None [] None None None None None false 0 false true true None None None VssOn)], 0).
Proof.
  split.
  { apply (wr_next [102] 114 (str "^/home")); [apply fls; reflexivity|val|].
    apply (wr_next [] 98 (str "3")); [constructor|val|]. apply (wr_next [] 97 (str "restore")); [constructor|val|].
    apply (wr_next [] 100 (str "/tmp/x/")); [constructor|val|].
    apply (wr_same [] 115 (str "2")); [constructor|val|discriminate|constructor]. }
  split.
  { repeat apply Forall_cons; try apply Forall_nil; (split; [val|]); cbn [fst snd]; intros X; try discriminate X.
    exists PRestore, false. apply (wd_r (str "estore")). }
  split; vm_compute; reflexivity.
Qed.

(* Wrong usage does nothing but say so: an option that does not exist, one without its
   argument, a word too many, an action that does not exist. *)
Theorem C129_unknown : forall w es argv fl c r more, written es argv -> Forall goes es -> Forall flag fl ->
  Forall goes (map bare fl) -> opt_kind c = Unknown -> c <> 45 \/ fl <> [] ->
  real_main w (argv ++ (45 :: fl ++ c :: r) :: more) = ([EUsage], 1).
Proof. exact usage_unknown. Qed.
Print Assumptions C129_unknown.
Theorem C129_missing : forall w es argv fl c, written es argv -> Forall goes es -> Forall flag fl ->
  Forall goes (map bare fl) -> valued c -> real_main w (argv ++ [45 :: fl ++ [c]]) = ([EUsage], 1).
Proof. exact usage_missing. Qed.
Print Assumptions C129_missing.
Theorem C129_stray : forall w es argv a es2 argv2, written es argv -> Forall goes es -> stray a ->
  written es2 argv2 -> Forall goes es2 -> real_main w (argv ++ a :: argv2) = ([EUsage], 1).
Proof. exact usage_stray. Qed.
Print Assumptions C129_stray.
Theorem C129_stop : forall w es1 e es2 argv s, written (es1 ++ e :: es2) argv -> Forall goes es1 -> stops e s ->
  real_main w argv = match s with SUsage => ([EUsage], 1) | SIndex => ([EIndex], 0) | SVersion => ([EVersion], 0) end.
Proof. exact stop_first. Qed.
Print Assumptions C129_stop.
Example C129_usage_witness :
  opt_kind 119 = Unknown /\ valued 98 /\ stray (str "restore") /\ (forall a b, ~ word (str "x") a b) /\
  real_main (world1 MClient) (argv1 ++ [str "-w"]) = ([EUsage], 1) /\
  real_main (world1 MClient) (argv1 ++ [str "-b"]) = ([EUsage], 1) /\
  real_main (world1 MClient) (argv1 ++ [str "restore"]) = ([EUsage], 1) /\
  real_main (world1 MClient) (argv1 ++ [str "-ax"]) = ([EUsage], 1) /\
  real_main (world1 MClient) (argv1 ++ [str "-V"]) = ([EVersion], 0).
Proof.
  split; [reflexivity|]. split; [val|]. split; [right; discriminate|]. split; [intros a b W; inversion W|].
  vm_compute. auto.
Qed.

(* Nothing is deleted unless the word was written out and a backup named. *)
Theorem C129_delete : forall w argv j, In (EClient PDelete j) (fst (real_main w argv)) ->
  exists es r b, getopt argv = (es, []) /\ last_of 97 es = Some (str "delete" ++ r) /\
    nth_error (args 98 es) 0 = Some b /\ j_backup j = Some b.
Proof.
  intros w argv j I. destruct (run_shape w argv _ I eq_refl) as
    (es & c & a & j' & d & l & G & _ & _ & A & _ & D & H & _ & _ & _ & _ & S & C).
  assert (N : c_mode c <> MServer) by (intros M; destruct (S M); discriminate).
  destruct (C N) as [E _]. injection E as <- <-.
  destruct (last_of 97 es) as [t|] eqn:L; [|discriminate]. destruct A as [b A]. inversion A as [| | | | | | | | | | | | |r| | |]; subst.
  destruct (nth_error (args 98 es) 0) as [b0|] eqn:B; [|exfalso; apply D; reflexivity].
  exists es, r, b0. split; [exact G|]. split; [exact L|]. split; [exact B|].
  destruct H as (_ & _ & H & _). rewrite H. unfold or_conf, wants. rewrite B. reflexivity.
Qed.
Print Assumptions C129_delete.
Example C129_delete_witness :
  map (fun a => match fst (real_main (world1 MClient) a) with [_; _; EClient x j] => Some (x, j_backup j) | _ => None end)
    [[str "-adelete"; str "-b2"]; [str "-adelet"; str "-b2"]; [str "-adelete"]; [str "-ar"]] =
  [Some (PDelete, Some (str "2")); Some (PDiff, Some (str "2")); None; Some (PRestore, Some (str "0"))].
Proof. vm_compute. reflexivity. Qed.

(* A parseable list is not mixed with log messages: the last word on stdout is 0. *)
Theorem C129_quiet : forall w argv j, In (EClient PParse j) (fst (real_main w argv)) ->
  exists l, j_over j = l ++ [str "stdout=0"].
Proof.
  intros w argv j I. destruct (run_shape w argv _ I eq_refl) as
    (es & c & a & j' & d & l & G & _ & _ & A & _ & D & H & _ & _ & _ & _ & S & C).
  assert (N : c_mode c <> MServer) by (intros M; destruct (S M); discriminate).
  destruct (C N) as [E _]. injection E as <- <-. destruct H as (_ & H & _). rewrite H. eexists. reflexivity.
Qed.
Print Assumptions C129_quiet.
Example C129_quiet_witness : exists j, In (EClient PParse j) (fst (real_main (world1 MClient) [str "-vap"])) /\
  j_over j = [str "stdout=1"; str "stdout=0"].
Proof. eexists. split; [right; right; left; reflexivity|reflexivity]. Qed.

(* The last -a does not decide alone: what an earlier one added stays. *)
Theorem C129_last_refuted : exists argv j,
  last_of 97 (fst (getopt argv)) = Some (str "r") /\
  In (EClient PRestore j) (fst (real_main (world1 MClient) argv)) /\ In (str "restore_list=/dev/stdin") (j_over j).
Proof.
  exists [str "-a"; str "R"; str "-a"; str "r"]. eexists. split; [reflexivity|].
  split; [right; right; left; reflexivity|left; reflexivity].
Qed.
Print Assumptions C129_last_refuted.

(* No delay cannot be asked for. *)
Theorem C129_delay_refuted : exists argv, last_of 113 (fst (getopt argv)) = Some (str "0") /\
  In (EDelay 300) (fst (real_main (world1 MClient) argv)).
Proof. exists [str "-a"; str "t"; str "-q"; str "0"]. split; [reflexivity|]. right. left. reflexivity. Qed.
Print Assumptions C129_delay_refuted.

(* daemon=0 and fork=0 in the configuration are lost. *)
Theorem C129_daemon_refuted : exists c, c_daemon c = false /\ c_fork c = false /\
  forall w argv ca j, (forall f o, w_load w f o = Some c) -> given 70 (fst (getopt argv)) = false -> given 110 (fst (getopt argv)) = false ->
    In (EServer ca j) (fst (real_main w argv)) -> j_daemon j = true /\ j_fork j = true.
Proof.
  exists (conf1 MServer). split; [reflexivity|]. split; [reflexivity|]. intros w argv ca j _ F N I.
  destruct (run_shape w argv _ I eq_refl) as (es & c & a & j' & d & l & G & _ & _ & A & _ & D & H & _ & _ & _ & _ & S & C).
  rewrite G in F, N. cbn [fst] in F, N.
  assert (E : EServer ca j = EServer (given 103 es) j').
  { destruct (c_mode c); [destruct (C ltac:(discriminate)); discriminate|apply (S eq_refl)|destruct (C ltac:(discriminate)); discriminate]. }
  injection E as _ ->. unfold handed in H. destruct H as (_ & _ & _ & _ & _ & _ & _ & _ & _ & _ & Hf & Hd & _).
  rewrite Hf, Hd, F, N. split; reflexivity.
Qed.
Print Assumptions C129_daemon_refuted.
Example C129_daemon_witness : exists j, In (EServer false j) (fst (real_main (world1 MServer) [])) /\ j_daemon j = true.
Proof. eexists. split; [right; right; right; left; reflexivity|reflexivity]. Qed.

(* ---------- C130 ---------- *)

(* Testing the configuration does nothing else, *)
Theorem C130_only : forall w argv es words, getopt argv = (es, words) -> given 116 es = true ->
  forall e, In e (fst (real_main w argv)) ->
    match e with EUsage | EIndex | EVersion | ELoad _ _ | EDump | EDumpClient _ => True | _ => False end.
Proof. exact test_only. Qed.
Print Assumptions C130_only.

(* and its exit status says whether the configuration is good, *)
Theorem C130_status_partial : forall w argv es, written es argv -> Forall goes es -> given 116 es = true -> given 67 es = false ->
  exists a, match last_of 97 es with Some t => exists b, word t a b | None => a = PList end /\
    (snd (real_main w argv) = 0 <-> w_load w (last_of 99 es) (over_all es a) <> None).
Proof. exact test_status. Qed.
Print Assumptions C130_status_partial.
Example C130_witness : written [(99, str "/x"); (116, [])] [str "-c/x"; str "-t"] /\
  Forall goes [(99, str "/x"); (116, [])] /\
  real_main (world1 MServer) [str "-c/x"; str "-t"] = ([ELoad (Some (str "/x")) []; EDump], 0).
Proof.
  split.
  { apply (wr_same [] 99 (str "/x")); [constructor|val|discriminate|].
    apply (wr_flags [116] []); [discriminate|apply fls; reflexivity|constructor]. }
  split; [|vm_compute; reflexivity].
  repeat apply Forall_cons; try apply Forall_nil; (split; [val|]); cbn [fst snd]; intros X; discriminate X.
Qed.

(* but that of a test for a client never does. *)
Theorem C130_client_refuted : forall w argv es, written es argv -> Forall goes es -> given 116 es = true -> given 67 es = true ->
  snd (real_main w argv) <> 0.
Proof.
  intros w argv es W F T G. destruct (loop_goes es opts0 F) as [o L]. pose proof (loop_meaning es o L) as M. destruct M.
  unfold real_main. rewrite (getopt_all _ _ W), L. destruct (w_load w _ _) as [c|]; [|discriminate].
  unfold go. rewrite m_test, T. unfold run_test_confs. rewrite m_client. apply given_last in G. destruct G as [t G]. rewrite G.
  destruct (w_cload w t); discriminate.
Qed.
Print Assumptions C130_client_refuted.
Example C130_client_witness : real_main (world1 MServer) [str "-tC"; str "host"] = ([ELoad None []; EDumpClient (str "host")], -1).
Proof. vm_compute. reflexivity. Qed.
