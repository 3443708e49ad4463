(** When the announced size of a value can be right. *)
From Coq Require Import ZArith List Bool.
From Verif Require Import Model.Base Model.Number Model.Types Spec.Typed Spec.Denotes.
Import ListNotations.
Open Scope Z_scope.

(** Where a value stands: where its type field is written only if its class declares one; where it always is (behind a
    pointer to a base class, in a variant); as a parent of a class.  [poly]: the caller's request to count the type field of
    a class with virtual functions. *)
Inductive place := AsValue (poly : bool) | AsTagged (poly : bool) | AsParent.
Definition counted (poly : bool) (i : sinfo) : bool := if si_virt i then poly else si_mark i.
(** The type field is counted exactly where it is written. *)
Fixpoint marker_counted (w : place) (t : ty) : bool :=
  match t with
  | TSeq _ t' | TArr _ t' | TMap _ t' => marker_counted (AsValue false) t'
  | TTup ts => forallb (marker_counted (AsValue false)) ts
  | TPtr t' => marker_counted (AsValue true) t'
  | TOpt t' => marker_counted w t'
  | TStruct i ms ps =>
      match w with
      | AsValue p => Bool.eqb (counted p i) (si_mark i)
      | AsTagged p => counted p i
      | AsParent => true
      end && forallb (marker_counted (AsValue false)) ms && forallb (marker_counted AsParent) ps
  | TPoly cs _ => forallb (marker_counted (AsTagged true)) cs
  | TVariant cs => forallb (marker_counted (AsTagged (match w with AsValue p | AsTagged p => p | AsParent => false end))) cs
  | _ => true
  end.
(** Strings need no escapes, no entries in maps with string keys, no integer is the smallest of its type (unless it has 16
    bits). *)
Definition sized_value (t : ty) (v : val) : Prop :=
  each (fun t v => match t, v with
                   | TInt i, VInt z => z <> i_min i \/ i_bits i = 16 \/ i_signed i = false
                   | TStr, VStr s => plain s
                   | TMap _ _, VMap l => l = []
                   | _, _ => True
                   end) t v.
(** The names of classes and enumerators need no escapes; no pairs. *)
Definition sized_type (t : ty) : Prop :=
  types (fun t => match t with
                  | TStruct i _ _ => plain (si_poly i) /\ si_pair i = false
                  | TEnum l => Forall (fun e => plain (snd e)) l
                  | _ => True
                  end) t.
