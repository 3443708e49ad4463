(** BSON documents, written from bsonspec.org (version 1.1).  A document is described by the tree of its values; the names
    of array elements are abstracted away. *)
From Coq Require Import ZArith List.
From Verif Require Import Spec.Json.
Import ListNotations.
Open Scope Z_scope.

(** The first [n] bytes of the two's complement representation of [z], lowest first. *)
Fixpoint little (n : nat) (z : Z) : list Z :=
  match n with O => [] | S n => z mod 256 :: little n (z / 256) end.

(** Scalars; [BOther type data]: a scalar that the library only skips. *)
Inductive bscal :=
| BInt32 (z : Z) | BInt64 (z : Z) | BBool (b : bool) | BStr (s : list Z) | BNull | BOther (type : Z) (data : list Z).

Definition len (b : list Z) : Z := Z.of_nat (length b).

(** [bson_scalar a type b]: the scalar [a] has this type byte and is written [b]. *)
Inductive bson_scalar : bscal -> Z -> list Z -> Prop :=
| bc_int32 : forall z, - 2 ^ 31 <= z < 2 ^ 31 -> bson_scalar (BInt32 z) 16 (little 4 z)
| bc_int64 : forall z, - 2 ^ 63 <= z < 2 ^ 63 -> bson_scalar (BInt64 z) 18 (little 8 z)
| bc_bool : forall b : bool, bson_scalar (BBool b) 8 [if b then 1 else 0]
| bc_str : forall s, bson_scalar (BStr s) 2 (little 4 (len s + 1) ++ s ++ [0])
| bc_null : bson_scalar BNull 10 []
| bc_double : forall d, length d = 8%nat -> bson_scalar (BOther 1 d) 1 d
| bc_objectid : forall d, length d = 12%nat -> bson_scalar (BOther 7 d) 7 d
| bc_datetime : forall d, length d = 8%nat -> bson_scalar (BOther 9 d) 9 d
| bc_timestamp : forall d, length d = 8%nat -> bson_scalar (BOther 17 d) 17 d
| bc_decimal : forall d, length d = 16%nat -> bson_scalar (BOther 19 d) 19 d
| bc_binary : forall sub d, bson_scalar (BOther 5 (little 4 (len d) ++ sub :: d)) 5 (little 4 (len d) ++ sub :: d).

(** A list of elements with its length in front and a zero behind. *)
Inductive framed (e : list Z) : list Z -> Prop :=
| framed_intro : len e + 5 < 2 ^ 31 -> framed e (little 4 (len e + 5) ++ e ++ [0]).

(** [Name i n]: the i-th element of an array may be called [n]. *)
Inductive bson_value (Name : Z -> list Z -> Prop) : tree bscal -> Z -> list Z -> Prop :=
| bv_scalar : forall a type b, bson_scalar a type b -> bson_value Name (Scal a) type b
| bv_arr : forall l e b, bson_elems Name 0 l e -> framed e b -> bson_value Name (Arr l) 4 b
| bv_obj : forall l e b, bson_members Name l e -> framed e b -> bson_value Name (Obj l) 3 b
with bson_elems (Name : Z -> list Z -> Prop) : Z -> list (tree bscal) -> list Z -> Prop :=
| be_nil : forall i, bson_elems Name i [] []
| be_cons : forall i j l type n b r, Name i n -> ~ In 0 n -> bson_value Name j type b -> bson_elems Name (i + 1) l r ->
    bson_elems Name i (j :: l) (type :: n ++ 0 :: b ++ r)
with bson_members (Name : Z -> list Z -> Prop) : list (list Z * tree bscal) -> list Z -> Prop :=
| bm_nil : bson_members Name [] []
| bm_cons : forall n j l type b r, ~ In 0 n -> bson_value Name j type b -> bson_members Name l r ->
    bson_members Name ((n, j) :: l) (type :: n ++ 0 :: b ++ r).

Scheme bson_value_mind := Minimality for bson_value Sort Prop
  with bson_elems_mind := Minimality for bson_elems Sort Prop
  with bson_members_mind := Minimality for bson_members Sort Prop.
Combined Scheme bson_mutind from bson_value_mind, bson_elems_mind, bson_members_mind.

(** The root of a BSON document is an object.  Arrays are written as objects whose names are indexes; a single value is
    written as the only element of an array. *)
Inductive bson_document (Name : Z -> list Z -> Prop) : tree bscal -> list Z -> Prop :=
| bd_obj : forall l b, bson_value Name (Obj l) 3 b -> bson_document Name (Obj l) b
| bd_arr : forall l b, bson_value Name (Arr l) 4 b -> bson_document Name (Arr l) b
| bd_scalar : forall a b, bson_value Name (Arr [Scal a]) 4 b -> bson_document Name (Scal a) b.

(** Any names. *)
Definition any_name (i : Z) (n : list Z) : Prop := True.
(** Decimal numbers without leading zeros. *)
Fixpoint decimal_value (acc : Z) (ds : list Z) : Z :=
  match ds with [] => acc | d :: r => decimal_value (10 * acc + (d - 48)) r end.
Definition decimal_name (i : Z) (n : list Z) : Prop := int_part n /\ decimal_value 0 n = i.
