(** Two lists of pointers share in the same way. *)
From Coq Require Import ZArith List.
From Verif Require Import Model.Types.
Import ListNotations.
Open Scope Z_scope.

(** [ps]: addresses, 0 is null, [heap] gives the object at an address.  [qs]: null or the number of an object in [objects]. *)
Definition same_sharing (heap : Z -> val) (ps : list Z) (objects : list val) (qs : list (option nat)) : Prop :=
  length qs = length ps /\
  (* null pointers are null, the others refer to equal objects *)
  (forall i p, nth_error ps i = Some p ->
     (p = 0 -> nth_error qs i = Some None) /\
     (p <> 0 -> exists n, nth_error qs i = Some (Some n) /\ nth_error objects n = Some (heap p))) /\
  (* two pointers refer to the same object exactly when they did *)
  (forall i j p p' q q', nth_error ps i = Some p -> nth_error ps j = Some p' -> nth_error qs i = Some q -> nth_error qs j = Some q' ->
     (p = p' <-> q = q')).

(** The type is a pointer to a class or to a value. *)
Definition pointer_type (t : ty) : bool := match t with TPtr _ | TPoly _ _ => true | _ => false end.
