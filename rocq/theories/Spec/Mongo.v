(** ObjectIDs as numbers, hexadecimal text. *)
From Coq Require Import ZArith List Bool.
Import ListNotations.
Open Scope Z_scope.

Definition hex_digit (c : Z) : option Z :=
  if Z.leb 48 c && Z.leb c 57 then Some (c - 48)
  else if Z.leb 97 c && Z.leb c 102 then Some (c - 87)
  else if Z.leb 65 c && Z.leb c 70 then Some (c - 55)
  else None.
(** [hex_number 0 ds]: the number with these hexadecimal digits. *)
Fixpoint hex_number (acc : Z) (ds : list Z) : option Z :=
  match ds with
  | [] => Some acc
  | c :: r => match hex_digit c with Some v => hex_number (16 * acc + v) r | None => None end
  end.
Definition lower_case (c : Z) : Prop := 48 <= c <= 57 \/ 97 <= c <= 102.

(** An ObjectID has 96 bits: 32 bits of time, 40 random bits and a counter of 24 bits. *)
Definition oid_number (time random counter : Z) : Z := time mod 2 ^ 32 * 2 ^ 64 + random * 2 ^ 24 + counter.
Definition oid_fits (time random counter : Z) : Prop :=
  - 2 ^ 31 <= time < 2 ^ 31 /\ 0 <= random < 2 ^ 40 /\ 0 <= counter < 2 ^ 24.
