(** Classes with stream operators (Model/Custom.v) in YAML documents. *)
From Coq Require Import ZArith List Bool.
From Verif Require Import Model.Number Model.Types Model.Custom Spec.Json Spec.Denotes Spec.YamlOut.
Import ListNotations.
Open Scope Z_scope.

(** [custom_yaml_stands custom marker t v j]: [j] is the document of [v]; the scalar of an object of such a class is what operator<< writes. *)
Definition written_scalar (custom : ity -> option operators) (i : ity) (z : Z) (a : list Z) : Prop :=
  a = match custom i with Some o => o_put o z | None => int_dec z end.
Definition custom_yaml_stands (custom : ity -> option operators) (marker : list Z) (t : ty) (v : val) (j : tree (list Z)) : Prop :=
  d_val (yaml_sense_with (written_scalar custom) marker t) v j.
(** Something is wrong with an object if its text cannot be written. *)
Definition object_fault (bad : list Z -> bool) (custom : ity -> option operators) (i : ity) (z : Z) : option spot :=
  match custom i with Some o => if bad (o_put o z) then Some Whole else None | None => None end.

(** [custom_yaml_reads_as custom marker t v j]: reading [j] gives [v]: operator>> makes the object of the scalar, which is none that stands for null; integers
    in any spelling. *)
Definition read_scalar (custom : ity -> option operators) (i : ity) (z : Z) (a : list Z) : Prop :=
  match custom i with
  | Some o => yaml_null_text a = false /\ exists good, o_get o a = Some (z, good)
  | None => yaml_integer a z
  end.
Definition custom_yaml_reads_as (custom : ity -> option operators) (marker : list Z) (t : ty) (v : val) (j : tree (list Z)) : Prop :=
  d_val (yaml_sense_with (read_scalar custom) marker t) v j.
(** operator>> makes every object in the value of what operator<< writes for it, and this text does not stand for null. *)
Definition yaml_reread (custom : ity -> option operators) (t : ty) (v : val) : Prop :=
  each (fun t v => match t, v with
                   | TInt i, VInt z => match custom i with
                                       | Some o => yaml_null_text (o_put o z) = false /\ exists good, o_get o (o_put o z) = Some (z, good)
                                       | None => True
                                       end
                   | _, _ => True end) t v.
