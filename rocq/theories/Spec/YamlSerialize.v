(** Classes with a serializer (Model/YamlSerialize.v) in YAML documents. *)
From Coq Require Import ZArith List Bool.
From Verif Require Import Model.Base Model.Number Model.Types Model.YamlSerialize Spec.Json Spec.Denotes Spec.YamlOut.
Import ListNotations.
Open Scope Z_scope.

(** [yser_stands custom marker t v j]: [j] is the document of [v]; the scalar of an object of such a class is what its serializer writes. *)
Definition wrote_scalar (custom : ity -> option yaml_serializer) (i : ity) (z : Z) (a : list Z) : Prop :=
  match custom i with Some o => y_put o z = Some a | None => a = int_dec z end.
Definition yser_stands (custom : ity -> option yaml_serializer) (marker : list Z) (t : ty) (v : val) (j : tree (list Z)) : Prop :=
  d_val (yaml_sense_with (wrote_scalar custom) marker t) v j.
(** Something is wrong with an object if the serializer throws or its text cannot be written. *)
Definition wrote_fault (bad : list Z -> bool) (custom : ity -> option yaml_serializer) (i : ity) (z : Z) : option spot :=
  match custom i with Some o => match y_put o z with Some s => if bad s then Some Whole else None | None => Some Whole end | None => None end.
(** [yser_reads_as custom marker t v j]: reading [j] gives [v]: the serializer makes the object of the scalar, which is none that stands for null; integers in any
    spelling. *)
Definition takes_scalar (custom : ity -> option yaml_serializer) (i : ity) (z : Z) (a : list Z) : Prop :=
  match custom i with Some o => yaml_null_text a = false /\ y_get o a = Ok z | None => yaml_integer a z end.
Definition yser_reads_as (custom : ity -> option yaml_serializer) (marker : list Z) (t : ty) (v : val) (j : tree (list Z)) : Prop :=
  d_val (yaml_sense_with (takes_scalar custom) marker t) v j.
(** Every object in the value satisfies [P]. *)
Definition all_objects (P : ity -> Z -> Prop) (t : ty) (v : val) : Prop :=
  each (fun t v => match t, v with TInt i, VInt z => P i z | _, _ => True end) t v.
(** The serializer reads what it writes for the object, and this text does not stand for null. *)
Definition yser_reread (custom : ity -> option yaml_serializer) (i : ity) (z : Z) : Prop :=
  match custom i with Some o => forall s, y_put o z = Some s -> yaml_null_text s = false /\ y_get o s = Ok z | None => True end.
(** The serializer writes the object. *)
Definition supported (custom : ity -> option yaml_serializer) (i : ity) (z : Z) : Prop :=
  match custom i with Some o => exists s, y_put o z = Some s | None => True end.
