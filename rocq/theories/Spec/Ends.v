(** Which types cannot make an import of a malformed text run forever, and how many steps are enough. *)
From Coq Require Import ZArith List Bool.
From Verif Require Import Model.Types.
Import ListNotations.

(** A value of this type can be written as null. *)
Fixpoint nullable (t : ty) : bool :=
  match t with
  | TPtr _ | TPoly _ _ => true
  | TOpt t' => nullable t'
  | _ => false
  end.
(** No container that grows has elements that can be null. *)
Fixpoint no_null_elements (t : ty) : bool :=
  match t with
  | TInt _ | TBool | TStr | TEnum _ => true
  | TSeq _ t' => negb (nullable t') && no_null_elements t'
  | TArr _ t' | TMap _ t' | TPtr t' | TOpt t' => no_null_elements t'
  | TTup ts | TPoly ts _ | TVariant ts => forallb no_null_elements ts
  | TStruct _ ms ps => forallb no_null_elements ms && forallb no_null_elements ps
  end.
(** The largest std::array or std::tuple in a type. *)
Fixpoint width (t : ty) : nat :=
  match t with
  | TInt _ | TBool | TStr | TEnum _ => 0
  | TSeq _ t' | TMap _ t' | TPtr t' | TOpt t' => width t'
  | TArr n t' => max n (width t')
  | TTup ts => max (length ts) (list_max (map width ts))
  | TPoly ts _ | TVariant ts => list_max (map width ts)
  | TStruct _ ms ps => max (list_max (map width ms)) (list_max (map width ps))
  end.
