(* Model of the manifest file framing: send_msg_fzp() of /repo/src/msg.c,
   fzp_read_ensure() of /repo/src/fzp.c and do_iobuf_fill_from_fzp() of
   /repo/src/iobuf.c. *)
From Verif Require Import Bytes CmdModel.

(* One character of printf("%X"), used at /repo/src/msg.c:13. *)
Definition hexdig (d : Z) : Z := if d <? 10 then 48 + d else 55 + d.

(* The digits of printf("%X") of a 32-bit value, most significant first. *)
Fixpoint hex_digits (fuel : nat) (n : Z) (acc : bytes) : bytes :=
  match fuel with
  | O => acc
  | S f => let acc' := hexdig (n mod 16) :: acc in
           if n / 16 =? 0 then acc' else hex_digits f (n / 16) acc'
  end.

(* printf("%04X", (unsigned int)s): /repo/src/msg.c:13.  At most 8 digits. *)
Definition fmt_04X (s : Z) : bytes :=
  let d := hex_digits 8 (s mod 2 ^ 32) [] in
  repeat 48 (4 - List.length d) ++ d.

(* send_msg_fzp(): /repo/src/msg.c:11-21.  Result: bytes added to the file and
   whether 0 was returned.  Short writes by the file system are not modelled. *)
Definition send_msg (cmd : Z) (buf : bytes) : bytes * bool :=
  let head := cmd :: fmt_04X (Z.of_nat (List.length buf)) in
  if negb (Z.of_nat (List.length head) =? 5) then (head, false)
  else (head ++ buf ++ [10], true).

(* What one fzp_read() call does: /repo/src/fzp.c:499.  RdShort k: at most
   k+1 bytes are returned; RdErr: a negative result. *)
Inductive rd := RdErr | RdShort (k : nat).

(* An open file: the bytes not read yet, and the behaviour of the coming
   fzp_read() calls (when the list runs out every read is complete).
   /repo/src/fzp.h, struct fzp *)
Record fstate := mkf { fbytes : bytes; foracle : list rd }.

(* The three results of fzp_read_ensure(): /repo/src/fzp.c:491-532 *)
Inductive rres := ROk (got : bytes) (f : fstate) | REof | RFail.

(* fzp_read_ensure(): /repo/src/fzp.c:491-532.  [n] is nmemb-got.  A read that
   returns 0 without end of file is retried for ever by the C code and is left
   out; every other iteration reads at least one byte, so n is enough fuel. *)
Fixpoint read_ensure (fuel : nat) (n : nat) (got : bytes) (f : fstate) : rres :=
  match n with
  | O => ROk got f
  | S _ =>
    match fuel with
    | O => RFail
    | S fuel' =>
      let '(o, rest) := match foracle f with [] => (RdShort n, []) | o :: r => (o, r) end in
      match o with
      | RdErr => RFail                                           (* 505-511 *)
      | RdShort k =>
        match fbytes f with
        | [] => match got with [] => REof | _ => RFail end       (* 512-521 *)
        | _ =>
          let r := Nat.min (Nat.min n (S k)) (List.length (fbytes f)) in
          read_ensure fuel' (n - r) (got ++ firstn r (fbytes f))
                      (mkf (skipn r (fbytes f)) rest)            (* 499-504 *)
        end
      end
    end
  end.
(* fzp_read_ensure(): /repo/src/fzp.c:491-532 *)
Definition fzp_read_ensure (n : nat) (f : fstate) : rres := read_ensure n n [] f.

(* isspace() in the C locale (the "%04X" conversion skips blanks).
   /repo/src/iobuf.c:149, /repo/src/conffile.c:84-105 *)
Definition isspace (c : Z) : bool := ((9 <=? c) && (c <=? 13)) || (c =? 32).
(* The digits of %X: /repo/src/iobuf.c:149 *)
Definition hexval (c : Z) : option Z :=
  if (48 <=? c) && (c <=? 57) then Some (c - 48)
  else if (65 <=? c) && (c <=? 70) then Some (c - 55)
  else if (97 <=? c) && (c <=? 102) then Some (c - 87)
  else None.

(* Longest run of hex digits within the remaining width.
   /repo/src/iobuf.c:149 *)
Fixpoint scan_digits (width : nat) (s : bytes) (val : Z) (any : bool) : option Z :=
  match width, s with
  | S w, c :: s' => match hexval c with
                    | Some d => scan_digits w s' (val * 16 + d) true
                    | None => if any then Some val else None
                    end
  | _, _ => if any then Some val else None
  end.

(* Skipping blanks: /repo/src/iobuf.c:149, /repo/src/conffile.c:84, 102 *)
Fixpoint skip_ws (s : bytes) : bytes :=
  match s with c :: s' => if isspace c then skip_ws s' else s | [] => [] end.

(* sscanf(lead, "%c%04X"): /repo/src/iobuf.c:149.  Blanks skipped, optional
   sign, optional 0x, at most four characters.  "0x" without digits after it
   is taken as a failure. *)
Definition scan_lead (lead : bytes) : option (Z * Z) :=
  match cview lead with
  | [] => None
  | c :: s =>
    let s := skip_ws s in
    let '(neg, w, s) := if hd0 s =? 45 then (true, 3%nat, tl s)
                        else if hd0 s =? 43 then (false, 3%nat, tl s)
                        else (false, 4%nat, s) in
    let '(w, s) := if (hd0 s =? 48) && ((hd0 (tl s) =? 120) || (hd0 (tl s) =? 88))
                   then ((w - 2)%nat, tl (tl s)) else (w, s) in
    match scan_digits w s 0 false with
    | Some v => Some (c, (if (neg : bool) then - v else v) mod 2 ^ 32)
    | None => None
    end
  end.

(* Result of reading one message: 0, 1 or -1 of do_iobuf_fill_from_fzp(). *)
Inductive fill := FMsg (m : Z * bytes) (f : fstate) | FEnd | FError.

(* do_iobuf_fill_from_fzp(): /repo/src/iobuf.c:129-170.  extra = 1 for
   manifests (172-175), 0 for data (177-180). *)
Definition fill_from_fzp (extra : nat) (f : fstate) : fill :=
  match fzp_read_ensure 5 f with
  | REof => FEnd                               (* 142 *)
  | RFail => FError                            (* 143-147 *)
  | ROk lead f =>
    match scan_lead lead with
    | None => FError                           (* 149-153 *)
    | Some (c, s) =>
      let len := Z.to_nat s in
      match fzp_read_ensure (len + extra) f with
      | REof => FEnd                           (* 163 *)
      | RFail => FError
      | ROk b f => FMsg (c, firstn len b) f    (* 168-169 *)
      end
    end
  end.

Inductive stop := Clean | Broken | OutOfFuel.

(* Reading until the end, as the callers of iobuf_fill_from_fzp() do
   (/repo/src/sbuf.c:278-308 calls it repeatedly). *)
Fixpoint read_all (fuel : nat) (extra : nat) (f : fstate) : list (Z * bytes) * stop :=
  match fuel with
  | O => ([], OutOfFuel)
  | S fuel' =>
    match fill_from_fzp extra f with
    | FEnd => ([], Clean)
    | FError => ([], Broken)
    | FMsg m f' => let '(l, e) := read_all fuel' extra f' in (m :: l, e)
    end
  end.

(* Writing a sequence of messages, stopping at the first failure, as
   sbuf_to_manifest() does (/repo/src/sbuf.c:90-110). *)
Fixpoint write_all (l : list (Z * bytes)) : bytes * bool :=
  match l with
  | [] => ([], true)
  | (c, b) :: r => match send_msg c b with
                   | (w, true) => let '(w2, ok) := write_all r in (w ++ w2, ok)
                   | (w, false) => (w, false)
                   end
  end.
