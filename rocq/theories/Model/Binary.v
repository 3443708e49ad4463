(** Integers as bytes (BsonPrinter.h:119-133, BsonParser.h:103-119).  The machine is little endian (BsonParser.h:35-38). *)
From Coq Require Import ZArith List Bool.
From Verif Require Import Model.Base Model.Types.
Import ListNotations.
Open Scope Z_scope.

(** The object representation of an integer of [n] bytes. *)
Fixpoint le_bytes (n : nat) (z : Z) : bytes :=
  match n with
  | O => []
  | S n => z mod 256 :: le_bytes n (z / 256)
  end.
Fixpoint le_value (b : bytes) : Z :=
  match b with
  | [] => 0
  | c :: r => c + 256 * le_value r
  end.
(** The value of a signed integer with this representation. *)
Definition signed_value (b : bytes) : Z :=
  let n := Z.of_nat (length b) in
  let u := le_value b in
  if 2 ^ (8 * n - 1) <=? u then u - 2 ^ (8 * n) else u.

(** writeLE<size>: the first [size] bytes of the representation. *)
Definition writeLE (size n : nat) (z : Z) : bytes := firstn size (le_bytes n z).

(** std::swap(data[i], data[j]). *)
Definition swap_at (i j : nat) (l : bytes) : bytes :=
  match nth_error l i, nth_error l j with
  | Some a, Some b => set_nth j a (set_nth i b l)
  | _, _ => l
  end.
(** The loop that reverses the bytes: for loop in 0 .. sizeof/2 - 1. *)
Fixpoint reverse_loop (n loop : nat) (l : bytes) : bytes :=
  match n with
  | O => l
  | S n => reverse_loop n (S loop) (swap_at loop (length l - loop - 1) l)
  end.
Definition reverse_bytes (l : bytes) : bytes := reverse_loop (Nat.div2 (length l)) 0 l.

(** writeBE<size> of an integer of [n] bytes. *)
Definition writeBE (size n : nat) (z : Z) : bytes := skipn (n - size) (reverse_bytes (le_bytes n z)).
(** readBE<size> into an integer of [n] bytes that is zero before; [b] are the [size] bytes read. *)
Definition readBE (size n : nat) (b : bytes) : bytes := reverse_bytes (repeat 0 (n - size) ++ b).
