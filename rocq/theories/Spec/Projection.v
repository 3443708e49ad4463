(** The projection of a document: the same names, and the number 1 for every value that is no object or array. *)
From Coq Require Import ZArith List.
From Verif Require Import Spec.Json Spec.Bson.
Import ListNotations.
Open Scope Z_scope.

Fixpoint ones (j : tree bscal) : tree bscal :=
  match j with
  | Scal _ => Scal (BInt32 1)
  | Arr l => Arr (map ones l)
  | Obj l => Obj (map (fun m => (fst m, ones (snd m))) l)
  end.
