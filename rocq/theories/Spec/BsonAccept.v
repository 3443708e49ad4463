(** The bytes that a BSON import accepts, from bsonspec.org with what the library does not check.

    A value has a type byte and a text; an element is a type byte, a name that is closed by a zero, and a value. *)
From Coq Require Import ZArith List.
From Verif Require Import Spec.Json Spec.Bson.
Import ListNotations.
Open Scope Z_scope.

(** The scalars that can be read into a value.  The last byte of a string should be zero; any byte is taken. *)
Inductive bson_taken : Z -> list Z -> Prop :=
| bt_double : forall d, length d = 8%nat -> bson_taken 1 d
| bt_string : forall d, d <> [] -> len d < 2 ^ 31 -> bson_taken 2 (little 4 (len d) ++ d)
| bt_bool : forall c, c = 0 \/ c = 1 -> bson_taken 8 [c]
| bt_null : bson_taken 10 []
| bt_int32 : forall d, length d = 4%nat -> bson_taken 16 d
| bt_int64 : forall d, length d = 8%nat -> bson_taken 18 d.

(** The scalars that can be skipped.  A string should have at least its closing zero, and a bool should be 0 or 1. *)
Inductive bson_skipped : Z -> list Z -> Prop :=
| bk_string : forall d, len d < 2 ^ 31 -> bson_skipped 2 (little 4 (len d) ++ d)
| bk_binary : forall sub d, len d < 2 ^ 31 -> bson_skipped 5 (little 4 (len d) ++ sub :: d)
| bk_objectid : forall d, length d = 12%nat -> bson_skipped 7 d
| bk_bool : forall c, bson_skipped 8 [c]
| bk_datetime : forall d, length d = 8%nat -> bson_skipped 9 d
| bk_timestamp : forall d, length d = 8%nat -> bson_skipped 17 d
| bk_decimal : forall d, length d = 16%nat -> bson_skipped 19 d.

(** [weak]: values can be skipped.  The names of the elements of an array should be 0, 1, ...; any names are taken. *)
Inductive bson_accepted (weak : bool) : Z -> list Z -> Prop :=
| ba_taken : forall type b, bson_taken type b -> bson_accepted weak type b
| ba_skipped : forall type b, weak = true -> bson_skipped type b -> bson_accepted weak type b
| ba_frame : forall type e b, type = 3 \/ type = 4 -> bson_elements weak e -> framed e b -> bson_accepted weak type b
with bson_elements (weak : bool) : list Z -> Prop :=
| bl_nil : bson_elements weak []
| bl_cons : forall type name b r, ~ In 0 name -> bson_accepted weak type b -> bson_elements weak r ->
    bson_elements weak (type :: name ++ 0 :: b ++ r).

(** [single]: a document with one element. *)
Inductive bson_accepted_document (weak : bool) (single : bool) : list Z -> Prop :=
| bad_intro : forall e b, bson_elements weak e -> framed e b ->
    (single = true -> exists type name v, e = type :: name ++ 0 :: v /\ ~ In 0 name /\ bson_accepted weak type v) ->
    bson_accepted_document weak single b.

(** Somewhere in the text something looks like a string or binary element with a negative length. *)
Definition negative_length (text : list Z) : Prop := exists before type name z after,
  text = before ++ type :: name ++ 0 :: little 4 z ++ after /\ (type = 2 \/ type = 5) /\ ~ In 0 name /\ - 2 ^ 31 <= z < 0.
