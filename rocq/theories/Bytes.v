(* Common representation of C strings and small list facts used everywhere. *)
From Coq Require Export Strings.String Strings.Ascii.
From Coq Require Export List ZArith Lia Bool Arith.
Export ListNotations.
Open Scope list_scope.
Open Scope Z_scope.
#[global] Arguments Z.add : simpl never.
#[global] Arguments Z.sub : simpl never.
#[global] Arguments Z.mul : simpl never.

(* A byte is a Z; a C string is the list of its bytes before the NUL. *)
Definition bytes := list Z.

(* Models the contents of a NUL-terminated `char *` (any file in /repo/src):
   bytes between 1 and 255. *)
Definition is_char (b : Z) : Prop := 1 <= b <= 255.
Definition cstr (s : bytes) : Prop := Forall is_char s.

(* Raw buffer contents, NUL allowed (e.g. /repo/src/iobuf.h:8-13). *)
Definition is_byte (b : Z) : Prop := 0 <= b <= 255.
Definition raw (s : bytes) : Prop := Forall is_byte s.

(* `*p` for a cursor into a C string: 0 at the end. *)
Definition hd0 (s : bytes) : Z := match s with [] => 0 | b :: _ => b end.

(* (int8_t)b : /repo/src/pathcmp.c:52-55. *)
Definition schar (b : Z) : Z := if b <? 128 then b else b - 256.

(* A literal as a byte string (only used to write constants and examples). *)
Definition str (s : String.string) : bytes :=
  map (fun a => Z.of_N (N_of_ascii a)) (list_ascii_of_string s).

Definition slash : Z := 47.
Definition dot : Z := 46.

Lemma schar_inj : forall a b, is_byte a -> is_byte b -> schar a = schar b -> a = b.
Proof.
  unfold schar, is_byte. intros a b Ha Hb H.
  destruct (a <? 128) eqn:E1, (b <? 128) eqn:E2;
    rewrite ?Z.ltb_lt, ?Z.ltb_ge in *; lia.
Qed.

Lemma cstr_raw : forall s, cstr s -> raw s.
Proof.
  intros s H. eapply Forall_impl; [|exact H]. unfold is_char, is_byte. intros; lia.
Qed.

Lemma cstr_app : forall a b, cstr (a ++ b) <-> cstr a /\ cstr b.
Proof. intros. apply Forall_app. Qed.
Lemma raw_app : forall a b, raw (a ++ b) <-> raw a /\ raw b.
Proof. intros. apply Forall_app. Qed.

Definition cstrb (s : bytes) : bool := forallb (fun b => (1 <=? b) && (b <=? 255)) s.
Lemma cstrb_ok : forall s, cstrb s = true -> cstr s.
Proof.
  intros s H. apply Forall_forall. intros b Hb.
  unfold cstrb in H. rewrite forallb_forall in H. specialize (H b Hb).
  apply andb_true_iff in H. unfold is_char. lia.
Qed.

(* Decidable equality on byte strings, used for strcmp()==0. *)
Fixpoint beqb (a b : bytes) : bool :=
  match a, b with
  | [], [] => true
  | x :: a', y :: b' => (x =? y) && beqb a' b'
  | _, _ => false
  end.
Lemma beqb_eq : forall a b, beqb a b = true <-> a = b.
Proof.
  induction a as [|x a IH]; destruct b as [|y b]; simpl; split; intros H;
    try congruence; auto.
  - apply andb_true_iff in H. destruct H as [H1 H2].
    apply Z.eqb_eq in H1. apply IH in H2. congruence.
  - inversion H; subst. rewrite Z.eqb_refl. simpl. apply IH. reflexivity.
Qed.
Lemma beqb_refl : forall a, beqb a a = true.
Proof. intros. apply beqb_eq. reflexivity. Qed.
Lemma beqb_neq : forall a b, beqb a b = false <-> a <> b.
Proof.
  intros. destruct (beqb a b) eqn:E; split; intros H; try congruence.
  - apply beqb_eq in E. contradiction.
  - intros ->. rewrite beqb_refl in E. discriminate.
Qed.

Lemma skipn_skipn' : forall (A : Type) (l : list A) m n, skipn m (skipn n l) = skipn (n + m) l.
Proof.
  intros A l m n. revert l. induction n; intros l; simpl; auto.
  destruct l; auto. destruct m; reflexivity.
Qed.
