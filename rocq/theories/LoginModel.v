(* Model of how client and server get to know each other:
   /repo/src/client/auth.c, /repo/src/server/auth.c. *)
From Verif Require Import Bytes CmdModel RestoreModel AuthModel ActionModel UtilModel.

(* Where one side stands after what came so far: waiting for a message, done (0
   or -1), or undefined.  /repo/src/client/auth.c:11-81, /repo/src/server/auth.c:162-260 *)
Inductive status := Waiting | Done (ok : bool) | Broken.

(* asfd->write_str(): a text without characters is not sent at all,
   /repo/src/asfd.c:479-506.  Sending is taken to succeed otherwise. *)
Definition say (c : Z) (s : bytes) : list (Z * bytes) := match s with [] => [] | _ => [(c, s)] end.

(* A side as a function of what it has received and of whether the connection
   is closed after that: what it has sent, where it stands, what it knows. *)
Section Client.
Variable version name password : bytes.

(* The text of hello[256]: /repo/src/client/auth.c:16, 19 *)
Definition hello : bytes := firstn 255 (str "hello:" ++ version).

(* The end of it, /repo/src/client/auth.c:62-79 *)
Definition client_verdict (m : Z * bytes) : status :=
  Done ((fst m =? CMD_GEN) && beqb (cview (snd m)) (str "ok")).

(* authorise_client(): /repo/src/client/auth.c:11-81.  What is sent, where it
   stands, the version of the server if that was told (34-42). *)
Definition client (rcv : list (Z * bytes)) (closed : bool) : list (Z * bytes) * status * option bytes :=
  let wait := if closed then Done false else Waiting in
  let s1 := say CMD_GEN hello in
  match rcv with
  | [] => (s1, wait, None)
  | (c, b) :: rcv =>
    if negb (c =? CMD_GEN) || negb (starts_with (cview b) (str "whoareyou")) then (s1, Done false, None)  (* 26-32 *)
    else
      let v := snd (split_colon (cview b)) in
      let s2 := s1 ++ say CMD_GEN name in
      match rcv with
      | [] => (s2, wait, v)
      | (c, b) :: rcv =>
        if negb (c =? CMD_GEN) || negb (beqb (cview b) (str "okpassword")) then (s2, Done false, v)       (* 46 *)
        else
          let s3 := s2 ++ say CMD_GEN password in
          match rcv with
          | [] => (s3, wait, v)
          | m :: rcv =>
            if fst m =? CMD_WARNING then                                                                  (* 52-62 *)
              match rcv with
              | [] => (s3, wait, v)
              | m :: _ => (s3, client_verdict m, v)
              end
            else (s3, client_verdict m, v)
          end
      end
  end.
End Client.

Section Server.
Variable version : bytes.
(* OPT_CNAME_FQDN, OPT_CNAME_LOWERCASE: /repo/src/server/auth.c:219-222 *)
Variable fqdn lower : bool.
(* check_client_and_password() for a name and a password, the loading of the
   configuration of the client included: /repo/src/server/auth.c:88-143 *)
Variable check : bytes -> bytes -> bool.
(* OPT_VERSION_WARN of the client of a name: /repo/src/server/auth.c:241 *)
Variable warns : bytes -> bool.

(* version_warn(): /repo/src/server/auth.c:145-160, and logw(), which adds the
   newline: /repo/src/log.c:238-258.  The name is never NULL here. *)
Definition version_warn (cname : bytes) (peer : option bytes) : list (Z * bytes) :=
  let unknown := str "Client '" ++ cname ++ str "' has an unknown version. Please upgrade." in
  match peer with
  | None | Some [] => if beqb version [] && match peer with None => false | _ => true end then []
                      else say CMD_WARNING (firstn 255 unknown ++ [10])
  | Some p =>
    if beqb p version then []
    else say CMD_WARNING (firstn 255 (str "Client '" ++ cname ++ str "' version '" ++ p ++
           str "' does not match server version '" ++ version ++ str "'. An upgrade is recommended.") ++ [10])
  end.

(* The text of whoareyou: /repo/src/server/auth.c:191-207; None: -1 is returned,
   Some None: undefined. *)
Definition whoareyou (peer : option bytes) : option (option bytes) :=
  match peer with
  | None => Some (Some (str "whoareyou"))
  | Some p =>
    match version_to_long (str "1.3.2"), version_to_long p with
    | Some m, Some v =>
      if (m <? 0) || (v <? 0) then None
      else Some (Some (if m <=? v then firstn 255 (str "whoareyou:" ++ version) else str "whoareyou"))
    | _, _ => Some None
    end
  end.

(* authorise_server(): /repo/src/server/auth.c:162-260.  What is sent, where it
   stands, the name of the client and its version as noted. *)
Definition server (rcv : list (Z * bytes)) (closed : bool)
  : list (Z * bytes) * status * option (bytes * option bytes) :=
  let wait := if closed then Done false else Waiting in
  match rcv with
  | [] => ([], wait, None)
  | (c, b) :: rcv =>
    if negb (c =? CMD_GEN) || negb (starts_with (cview b) (str "hello")) then ([], Done false, None)      (* 177-181 *)
    else
      let peer := snd (split_colon (cview b)) in
      match whoareyou peer with
      | None => ([], Done false, None)
      | Some None => ([], Broken, None)
      | Some (Some w) =>
        let s1 := say CMD_GEN w in
        match rcv with
        | [] => (s1, wait, None)
        | (_, b) :: rcv =>                                                                                (* 210-228 *)
          let cname := client_name fqdn lower (cview b) in
          let s2 := s1 ++ say CMD_GEN (str "okpassword") in
          match rcv with
          | [] => (s2, wait, Some (cname, peer))
          | (_, b) :: _ =>                                                                                (* 230-258 *)
            if negb (check cname (cview b)) then (s2, Done false, Some (cname, peer))
            else
              (s2 ++ (if warns cname then version_warn cname peer else [])
                  ++ say CMD_GEN (str "ok"), Done true, Some (cname, peer))
          end
        end
      end
  end.

(* run_child(): /repo/src/server/main.c:316-324: a client that is not let in, or
   has an empty name, is told so. *)
Definition child (rcv : list (Z * bytes)) (closed : bool)
  : list (Z * bytes) * status * option (bytes * option bytes) :=
  let '(s, st, k) := server rcv closed in
  let refuse := (s ++ say CMD_ERROR (str "unable to authorise on server"), Done false, k) in
  match st with
  | Done false => refuse
  | Done true => match k with Some ([], _) | None => refuse | _ => (s, st, k) end
  | _ => (s, st, k)
  end.
End Server.

(* The two together, whatever the order of events: what each has received so far
   is some beginning of what the other has sent by then.
   /repo/src/client/auth.c:11-81, /repo/src/server/auth.c:162-260 *)
Section Both.
(* authorise_client(): /repo/src/client/auth.c:11-81; authorise_server() and what
   comes of it: /repo/src/server/auth.c:162-260, /repo/src/server/main.c:316-324 *)
Variable cl : list (Z * bytes) -> bool -> list (Z * bytes) * status * option bytes.
(* /repo/src/server/auth.c:162-260 *)
Variable sv : list (Z * bytes) -> bool -> list (Z * bytes) * status * option (bytes * option bytes).
(* What each has sent when it has received this: /repo/src/client/auth.c:20, 45-48 *)
Definition sent_c (rc : list (Z * bytes)) : list (Z * bytes) := fst (fst (cl rc false)).
(* /repo/src/server/auth.c:210, 228, 241-248 *)
Definition sent_s (rs : list (Z * bytes)) : list (Z * bytes) := fst (fst (sv rs false)).
(* One message arrives: /repo/src/client/auth.c:26, 46-49, 60, /repo/src/server/auth.c:172, 211, 229 *)
Inductive arrives : list (Z * bytes) * list (Z * bytes) -> list (Z * bytes) * list (Z * bytes) -> Prop :=
| arrives_c : forall rc rs m rest, sent_s rs = rc ++ m :: rest -> arrives (rc, rs) (rc ++ [m], rs)
| arrives_s : forall rc rs m rest, sent_c rc = rs ++ m :: rest -> arrives (rc, rs) (rc, rs ++ [m]).
(* From the beginning on: /repo/src/client/auth.c:11-81, /repo/src/server/auth.c:162-260 *)
Inductive reached : list (Z * bytes) * list (Z * bytes) -> Prop :=
| reached_0 : reached ([], [])
| reached_1 : forall x y, reached x -> arrives x y -> reached y.
End Both.
