(* Restoring Windows files without their headers ("-x"), and the vss_strip
   program: /repo/src/bfile.c:19-91, 486-505, /repo/src/server/vss_strip.c *)
From Verif Require Import Bytes.

(* bsidsize: /repo/src/burp.h:177 *)
Definition bsidsize : nat := 20.

(* A number in the byte order of the machines burp runs Windows files through:
   the fields of /repo/src/burp.h:170-176 *)
Definition le (b : bytes) : Z := fold_right (fun x a => x + 256 * a) 0 b.
(* int32_t of a 32 bit number: /repo/src/burp.h:172-175 *)
Definition sgn32 (v : Z) : Z := if v <? 2 ^ 31 then v else v - 2 ^ 32.
(* sid->dwStreamId: /repo/src/burp.h:172 *)
Definition sid_id (h : bytes) : Z := le (firstn 4 h).
(* sid->Size+sid->dwStreamNameSize as a size_t: /repo/src/bfile.c:57,
   /repo/src/server/vss_strip.c:117.  (An overflow of the signed sum is taken to
   wrap round.) *)
Definition sid_len (h : bytes) : Z :=
  (le (firstn 8 (skipn 8 h)) + sgn32 (le (firstn 4 (skipn 16 h)))) mod 2 ^ 64.

(* struct mysid: /repo/src/bfile.h:16-21.  [v_sid] are the bytes of sid that have
   been filled in since needed_s was set. *)
Record mysid := mkmysid { v_sid : bytes; v_needs : nat; v_needd : Z }.
(* setup_vss_strip(): /repo/src/bfile.c:26-30 *)
Definition mysid0 : mysid := mkmysid [] bsidsize 0.

(* The first part of the loop: /repo/src/bfile.c:44-63.  The number of bytes
   taken. *)
Definition take_header (rest : bytes) (s : mysid) : nat * mysid :=
  if (v_needs s =? 0)%nat then (O, s)
  else
    let got := Nat.min (v_needs s) (List.length rest) in
    let sid := v_sid s ++ firstn got rest in
    let needs := (v_needs s - got)%nat in
    (got, if (needs =? 0)%nat then
            if sid_len sid =? 0 then mkmysid [] bsidsize 0 else mkmysid sid 0 (sid_len sid)
          else mkmysid sid needs (v_needd s)).

(* What came of one call: undefined behaviour, -1 with what was written so far,
   still running when the fuel ran out, or everything taken. *)
Inductive vres := VUB | VErr (out : bytes) | VMore (out : bytes) | VOk (s : mysid) (out : bytes).

(* The rest of the loop once [wrote] (a size_t) is known:
   /repo/src/bfile.c:81-85 *)
Definition took (wrote : Z) (s : mysid) : mysid :=
  let d := (v_needd s - wrote) mod 2 ^ 64 in
  if d =? 0 then mkmysid [] bsidsize 0 else mkmysid (v_sid s) (v_needs s) d.

(* The loop of bfile_write_vss_strip(): /repo/src/bfile.c:42-87 (not Windows).
   [pos] is cp-buf; [w] is what write() returns, given what was written before
   and what is to be written.  The -1 of a failed write() is compared as the
   size_t 2^64-1 (71, 76), so that cp goes back by one. *)
Fixpoint vss_loop (fuel : nat) (w : bytes -> bytes -> Z) (buf : bytes) (pos : Z)
         (s : mysid) (out : bytes) : vres :=
  if pos =? Z.of_nat (List.length buf) then VOk s out                      (* 42 *)
  else if pos <? 0 then VUB
  else match fuel with
  | O => VMore out
  | S fuel =>
    let '(g, s) := take_header (skipn (Z.to_nat pos) buf) s in
    let pos := pos + Z.of_nat g in
    if v_needd s =? 0 then vss_loop fuel w buf pos s out                   (* 64 *)
    else
      let got := Z.to_nat (Z.min (v_needd s) (Z.of_nat (List.length buf) - pos)) in
      let b := firstn got (skipn (Z.to_nat pos) buf) in
      if sid_id (v_sid s) =? 1 then                                        (* 69 *)
        let r := w out b in
        if r =? 0 then VErr out                                            (* 75-77 *)
        else if r <? 0 then vss_loop fuel w buf (pos - 1) (took (2 ^ 64 - 1) s) out
        else vss_loop fuel w buf (pos + r) (took r s) (out ++ firstn (Z.to_nat r) b)
      else vss_loop fuel w buf (pos + Z.of_nat got) (took (Z.of_nat got) s) out
  end.
(* bfile_write_vss_strip(): /repo/src/bfile.c:32-91 *)
Definition vss_write (fuel : nat) (w : bytes -> bytes -> Z) (buf : bytes) (s : mysid) (out : bytes) : vres :=
  vss_loop fuel w buf 0 s out.

(* Writing one buffer after another, as do_write() does while a file is
   received: /repo/src/transfer.c:26-41; a result that is not positive ends it.
   Closing the file does not look at what was left over: /repo/src/bfile.c:454-484 *)
Fixpoint vss_restore (fuel : nat) (w : bytes -> bytes -> Z) (l : list bytes) (s : mysid) (out : bytes) : vres :=
  match l with
  | [] => VOk s out
  | b :: r =>
    match b with
    | [] => VErr out
    | _ => match vss_write fuel w b s out with
           | VOk s out => vss_restore fuel w r s out
           | t => t
           end
    end
  end.

(* ---- vss_strip ---- *)

(* ensure_read(): /repo/src/server/vss_strip.c:52-63.  fread() gives what there
   is; when that is less than asked for, the input is at its end and the next
   fread() gives nothing. *)
Definition ensure_read (inp : bytes) : option (bytes * bytes) :=
  if (List.length inp <? bsidsize)%nat then None else Some (firstn bsidsize inp, skipn bsidsize inp).

(* skip_data(): /repo/src/server/vss_strip.c:19-36 *)
Definition skip_data (inp : bytes) (s : Z) : option bytes :=
  if Z.of_nat (List.length inp) <? s then None else Some (skipn (Z.to_nat s) inp).

(* ensure_write(): /repo/src/server/vss_strip.c:79-89.  After a short fwrite()
   the same buffer is written again from its beginning. *)
Fixpoint ensure_write (fuel : nat) (w : bytes -> bytes -> Z) (buf : bytes) (got : nat) (out : bytes) : bool * bytes :=
  match fuel with
  | O => (false, out)
  | S fuel =>
    let r := w out (firstn got buf) in
    if r <=? 0 then (false, out)
    else
      let out := out ++ firstn (Z.to_nat r) (firstn got buf) in
      let got := (got - Z.to_nat r)%nat in
      if (got =? 0)%nat then (true, out) else ensure_write fuel w buf got out
  end.

(* sizeof(buf): /repo/src/server/vss_strip.c:94 *)
Definition stripbuf : nat := Z.to_nat 4096.
(* extract_data(): /repo/src/server/vss_strip.c:91-109 *)
Fixpoint extract_data (fuel : nat) (w : bytes -> bytes -> Z) (inp : bytes) (s : Z) (out : bytes) : bool * bytes :=
  match fuel with
  | O => (false, out)
  | S fuel =>
    let b := firstn (Z.to_nat (Z.min (Z.of_nat stripbuf) s)) inp in
    match b with
    | [] => (s =? 0, out)
    | _ =>
      match ensure_write (S (List.length b)) w b (List.length b) out with
      | (false, out) => (false, out)
      | (true, out) =>
        let s := s - Z.of_nat (List.length b) in
        if s <=? 0 then (true, out)
        else extract_data fuel w (skipn (List.length b) inp) s out
      end
    end
  end.

(* main_work(): /repo/src/server/vss_strip.c:111-130.  True is success. *)
Fixpoint main_work (fuel : nat) (w : bytes -> bytes -> Z) (inp : bytes) : bool * bytes :=
  match fuel with
  | O => (true, [])
  | S fuel =>
    match ensure_read inp with
    | None => (true, [])
    | Some (h, r) =>
      if sid_id h =? 1 then extract_data (S (List.length r)) w r (sid_len h) []
      else match skip_data r (sid_len h) with
           | None => (false, [])
           | Some r => main_work fuel w r
           end
    end
  end.
(* vss_strip: /repo/src/server/vss_strip.c:190-205 *)
Definition vss_strip (w : bytes -> bytes -> Z) (inp : bytes) : bool * bytes := main_work (S (List.length inp)) w inp.

(* dump_sid(): /repo/src/server/vss_strip.c:10-17, the four numbers printed. *)
Definition dump_sid (h : bytes) : Z * Z * Z * Z :=
  (sgn32 (le (firstn 4 h)), sgn32 (le (firstn 4 (skipn 4 h))),
   (let v := le (firstn 8 (skipn 8 h)) in if v <? 2 ^ 63 then v else v - 2 ^ 64),
   sgn32 (le (firstn 4 (skipn 16 h)))).
(* dump_headers(): /repo/src/server/vss_strip.c:65-77 *)
Fixpoint dump_headers (fuel : nat) (inp : bytes) : bool * list (Z * Z * Z * Z) :=
  match fuel with
  | O => (true, [])
  | S fuel =>
    match ensure_read inp with
    | None => (true, [])
    | Some (h, r) =>
      match skip_data r (sid_len h) with
      | None => (false, [dump_sid h])
      | Some r => let '(ok, l) := dump_headers fuel r in (ok, dump_sid h :: l)
      end
    end
  end.
(* vss_strip -p: /repo/src/server/vss_strip.c:185-188 *)
Definition vss_dump (inp : bytes) : bool * list (Z * Z * Z * Z) := dump_headers (S (List.length inp)) inp.
