(* C145: a program starts only with complete settings. *)
From Verif Require Import Bytes PathcmpModel RestoreModel AuthModel BuModel TimerModel GcModel GcProofs.
From Coq Require Import Lia.

Theorem C145_accepted : forall x host c, fst (finalise_global x host c) = 0 <-> conf_ok x host c.
Proof. exact accepted_iff. Qed.
Print Assumptions C145_accepted.
(* The name of the server that is asked for in its certificate is that of the server
   without what comes after a colon. *)
Theorem C145_client_partial : forall x host c, fst (finalise_global x host c) = 0 -> g_mode c = MClient ->
  let c' := snd (finalise_global x host c) in
  (exists n, named x host c n /\ g_cname c' = Some n) /\
  g_password c' = Some (match g_password c with Some p => p | None => str "password" end) /\
  g_server c' = g_server c /\
  (exists s, g_server c = Some s /\ (g_peer c' = g_peer c \/ g_peer c = None) /\ (g_peer c = None -> plain_host s -> g_peer c' = Some s) /\
    (g_peer c = None -> forall h p, s = h ++ 58 :: p -> plain_host h -> g_peer c' = Some h)) /\
  given (g_key_pw c').
Proof. exact client_complete. Qed.
Print Assumptions C145_client_partial.
Theorem C145_server : forall x host c, fst (finalise_global x host c) = 0 -> g_mode c = MServer ->
  let c' := snd (finalise_global x host c) in server_ok c' /\ common_ok c' /\
  g_stamp c' = Some (match g_stamp c with Some s => s | None => default_stamp end) /\ given (g_key_pw c').
Proof. exact server_complete. Qed.
Print Assumptions C145_server.
(* Each action has a port: its own, or the last one given for all. *)
Theorem C145_ports : forall l x p, let q := client_ports (l ++ [x]) p in atoi x <> 0 ->
  (p_backup q = if p_backup p =? 0 then atoi x else p_backup p) /\ (p_restore q = if p_restore p =? 0 then atoi x else p_restore p) /\
  (p_verify q = if p_verify p =? 0 then p_restore q else p_verify p) /\
  (p_list q = if p_list p =? 0 then atoi x else p_list p) /\ (p_delete q = if p_delete p =? 0 then atoi x else p_delete p).
Proof. exact ports_set. Qed.
Print Assumptions C145_ports.

Definition ex_server : gconf :=
  mkg MServer None (Some (str "/run/burp.pid")) (Some (str "/c")) (Some (str "/ca")) (Some (str "/k")) None
    (Some (str "/var/spool/burp")) (Some (str "global")) (Some (str "/ccd")) true (Some (str "/dh")) None true 10000 30000 None
    (Some (str "/ca.cnf")) (Some (str "burpCA")) (Some (str "burpserver")) (Some (str "/bin/burp_ca")) (Some (str "/del"))
    None true false None None None None None.
Definition ex_client (server : bytes) (peer : option bytes) : gconf :=
  mkg MClient (Some (str "/run/lock")) None (Some (str "/c")) (Some (str "/ca")) (Some (str "/k")) None
    None None None false None (Some (str "pw")) false 0 0 None
    None None None (Some (str "/bin/burp_ca")) None
    None false true None (Some server) peer (Some (str "win64")) (Some (str "/csr")).
Example C145_ex_server : fst (finalise_global NoCert None ex_server) = 0 /\ g_stamp (snd (finalise_global NoCert None ex_server)) = Some default_stamp.
Proof. vm_compute. auto. Qed.
Example C145_ex_client : let '(r, c) := finalise_global (CertName (str "Web.Example.COM")) None (ex_client (str "backup:4971") None) in
  r = 0 /\ g_cname c = Some (str "web") /\ g_password c = Some (str "password") /\ g_peer c = Some (str "backup").
Proof. vm_compute. auto. Qed.
(* Four things missing; the same name for the authority and the server. *)
Example C145_ex_missing :
  fst (finalise_global NoCert None (mkg MServer None None None (Some []) None None None (Some []) (Some []) true (Some []) None false 10000 30000 None
    None None None None None None true false None None None None None)) = -4 /\
  fst (finalise_global NoCert None (mkg MServer (Some []) None (Some []) (Some []) (Some []) None (Some []) (Some []) (Some []) true (Some []) None true 2 1001 None
    (Some []) (Some (str "a")) (Some (str "a")) (Some []) None None true false None None None None None)) = -1.
Proof. vm_compute. auto. Qed.
Example C145_ex_ports : client_ports [str "4971"; str "4972"] (mkports 0 5000 0 0 6000) = mkports 4972 5000 5000 4972 6000.
Proof. vm_compute. reflexivity. Qed.

(* For a server given by an address with colons, the name asked for is only its first
   part, whatever the server's certificate says. *)
Theorem C145_peer_refuted : exists c s, g_server c = Some s /\ s = str "2001:db8::1" /\ fst (finalise_global NoCert (Some (str "me")) c) = 0 /\
  g_peer (snd (finalise_global NoCert (Some (str "me")) c)) = Some (str "2001").
Proof. exists (ex_client (str "2001:db8::1") None), (str "2001:db8::1"). vm_compute. auto. Qed.
Print Assumptions C145_peer_refuted.
(* A client may be left with an empty name. *)
Theorem C145_name_refuted : exists x c, fst (finalise_global x None c) = 0 /\ g_mode c = MClient /\ g_cname (snd (finalise_global x None c)) = Some [].
Proof. exists (CertName (str ".example.com")), (ex_client (str "s") None). vm_compute. auto. Qed.
Print Assumptions C145_name_refuted.
