(* Model of the server's side of an upgrade of the client:
   /repo/src/server/autoupgrade.c:11-113, called with the name of an operating
   system by /repo/src/server/extra_comms.c:153-179. *)
From Verif Require Import Bytes AuthModel ExtraModel.

(* What is done: nothing more ("do not autoupgrade" and 0), the connection ends
   ("do not autoupgrade" and -1), or these two files are sent. *)
Inductive upgrade := UNo | UErr | USend (script package : bytes).
(* The name of the operating system as it is used: /repo/src/server/extra_comms.c:165-170.
   autoupgrade_server(): /repo/src/server/autoupgrade.c:11-85, up to the files.
   [isreg]: stat() and S_ISREG(); None: stat() fails.  Memory does not run out. *)
Definition autoupgrade_server (isreg : bytes -> option bool) (version : bytes) (ser cli : Z) (dir : option bytes) (os : bytes) : upgrade :=
  match dir with
  | None => UNo                                                            (* 25-31 *)
  | Some dir =>
    if cli >=? ser then UNo else                                           (* 33-40 *)
    let base := prepend_s dir os in                                        (* 42-46 *)
    let path := prepend_s base version in
    let top := prepend_s base (str "script") in
    let specific := prepend_s path (str "script") in
    let package := prepend_s path (str "package") in
    match (match isreg specific with Some r => Some (specific, r) | None => match isreg top with Some r => Some (top, r) | None => None end end) with
    | None => UNo                                                          (* 52-65 *)
    | Some (script, sreg) =>
      match isreg package with
      | None => UNo                                                        (* 66-73 *)
      | Some preg => if negb sreg then UErr else if negb preg then UErr else USend script package   (* 75-90 *)
      end
    end
  end.
(* do_autoupgrade(): /repo/src/server/extra_comms.c:153-179.  None: nothing is
   said. *)
Definition do_autoupgrade (isreg : bytes -> option bool) (version : bytes) (ser cli : Z) (dir : option bytes) (os : bytes) : option upgrade :=
  match os with [] => None | _ => Some (autoupgrade_server isreg version ser cli dir (sanitise os)) end.
