(** Conditions on what a variable holds. *)
From Coq Require Import ZArith List Bool.
From Verif Require Import Model.Target.
Import ListNotations.

Fixpoint everywhere (f : target -> bool) (x : target) : bool :=
  f x && match x with
         | XList l => forallb (everywhere f) l
         | XMap l => forallb (fun kv => everywhere f (snd kv)) l
         | XLive y | XOpt (Some y) | XVar _ y => everywhere f y
         | XStruct own par => forallb (everywhere f) own && forallb (everywhere f) par
         | _ => true
         end.
(** Every pointer is null or points to an object that lives. *)
Definition no_dangling : target -> bool := everywhere (fun x => match x with XDangling => false | _ => true end).
(** Every pointer is null. *)
Definition all_null : target -> bool := everywhere (fun x => match x with XDangling | XLive _ => false | _ => true end).
