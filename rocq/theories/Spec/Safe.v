(** Types that can be read from any text without undefined behaviour. *)
From Coq Require Import ZArith List Bool.
From Verif Require Import Model.Base Model.Source Model.Number Model.Types Spec.Json Spec.Typed Spec.Import.
Import ListNotations.
Open Scope Z_scope.

(** No array or tuple of a fixed length, no pointer to a base class beside which there are classes that are not derived from it;
    the integers of the type are of the types in [ints]. *)
Fixpoint roomy (ints : ity -> Prop) (t : ty) : Prop :=
  match t with
  | TInt i => ints i
  | TBool | TStr | TEnum _ => True
  | TSeq _ t' | TMap _ t' | TPtr t' | TOpt t' => roomy ints t'
  | TArr _ _ | TTup _ => False
  | TStruct _ ms ps => fold_right (fun t P => roomy ints t /\ P) True ms /\ fold_right (fun t P => roomy ints t /\ P) True ps
  | TPoly cs others => others = [] /\ fold_right (fun t P => roomy ints t /\ P) True cs
  | TVariant cs => fold_right (fun t P => roomy ints t /\ P) True cs
  end.
(** The number that any run of digits in the text stands for is one of the type. *)
Definition small_numbers (text : list Z) (i : ity) : Prop :=
  forall a ds b, text = a ++ ds ++ b -> Forall digit ds -> fits i (digits_value 0 ds).
(** The integer types that can be read from this text: all of them from a stream. *)
Definition no_overflow (k : skind) (text : list Z) (i : ity) : Prop := k = StrIn -> small_numbers text i.
