(** Bytes, strings, outcomes and small list helpers shared by the model. *)
From Coq Require Import ZArith List String Ascii Bool.
Import ListNotations.
Open Scope Z_scope.

(** Outcome of a C++ operation.
    [Ok]    normal return;
    [Throw] an exception derived from std::exception left the operation;
    [UB]    the C++ code has undefined behaviour here (out of bounds access, use of
            an indeterminate value, ...);
    [Hang]  the fuel of the model ran out; a run that is [Hang] for every fuel does not terminate. *)
Inductive outcome (A : Type) : Type :=
| Ok (a : A)
| Throw
| UB
| Hang.
Arguments Ok {A} a.
Arguments Throw {A}.
Arguments UB {A}.
Arguments Hang {A}.

Definition bind {A B} (m : outcome A) (f : A -> outcome B) : outcome B :=
  match m with
  | Ok a => f a
  | Throw => Throw
  | UB => UB
  | Hang => Hang
  end.

Notation "'do' x <- m ; k" := (bind m (fun x => k))
  (at level 200, x pattern, m at level 100, k at level 200, right associativity).

(** A byte is a [Z] in 0..255, a std::string a [list Z]. *)
Definition bytes := list Z.

Definition byte_ok (b : Z) : Prop := 0 <= b < 256.
Definition bytes_ok (s : bytes) : Prop := Forall byte_ok s.

(** String literals of the C++ source as byte lists. *)
Fixpoint bs (s : string) : bytes :=
  match s with
  | EmptyString => []
  | String c r => Z.of_nat (nat_of_ascii c) :: bs r
  end.

(** Conversion of a byte to a (signed) char promoted to int: what reading a [char] gives on
    the platforms where char is signed. *)
Definition schar (b : Z) : Z := if b <? 128 then b else b - 256.

Fixpoint beq (a b : bytes) : bool :=
  match a, b with
  | [], [] => true
  | x :: a', y :: b' => (x =? y) && beq a' b'
  | _, _ => false
  end.

Definition EOFc : Z := -1.

Definition is_digit (c : Z) : bool := (48 <=? c) && (c <=? 57).

(** White space skipped by [operator>>(char&)] in the "C" locale and by StringInput::readValue(char&)
    (StringInput.h:136). *)
Definition is_space (c : Z) : bool :=
  (c =? 32) || (c =? 9) || (c =? 10) || (c =? 13) || (c =? 11) || (c =? 12).

Fixpoint skip_space (s : bytes) : nat * bytes :=
  match s with
  | c :: r => if is_space c then let '(n, r') := skip_space r in (S n, r') else (O, s)
  | [] => (O, [])
  end.

Lemma beq_eq : forall a b, beq a b = true <-> a = b.
Proof.
  induction a as [|x a IH]; destruct b as [|y b]; cbn; split; intro H;
    try discriminate; try reflexivity.
  - apply andb_prop in H as [H1 H2]. apply Z.eqb_eq in H1. apply IH in H2. now subst.
  - injection H as -> ->. rewrite Z.eqb_refl. cbn. now apply IH.
Qed.

Lemma beq_refl : forall a, beq a a = true.
Proof. intro a. now apply beq_eq. Qed.

Lemma beq_neq : forall a b, beq a b = false <-> a <> b.
Proof.
  intros a b. split; intro H.
  - intros ->. now rewrite beq_refl in H.
  - destruct (beq a b) eqn:E; [|reflexivity]. apply beq_eq in E. contradiction.
Qed.
