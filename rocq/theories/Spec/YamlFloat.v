(** float and double in YAML documents; values of patterns, [denotes_float], [near_general], [alike]: Spec/Float.v. *)
From Coq Require Import ZArith QArith String List Bool.
From Verif Require Import Model.Base Model.Number Model.Types Model.Float Spec.JsonString Spec.Json Spec.Import Spec.Denotes Spec.Yaml Spec.YamlOut Spec.Float.
Import ListNotations.
Open Scope Z_scope.

(** Patterns without a value: the infinities have no fraction, NaNs have one. *)
Definition infinite (f : fty) (b : Z) : Prop := pattern f b /\ float_value f b = None /\ b mod 2 ^ frac_bits f = 0.
Definition not_a_number (f : fty) (b : Z) : Prop := pattern f b /\ float_value f b = None /\ b mod 2 ^ frac_bits f <> 0.

Definition quiet (f : fty) (b : Z) : Prop := pattern f b /\ float_value f b = None /\ b mod 2 ^ frac_bits f = 2 ^ (frac_bits f - 1).

(** Hexadecimal numbers (C17, 6.4.4.2): 0x, digits with an optional point, an optional exponent of two. *)
Inductive hex_digits : Z -> list Z -> Z -> Prop :=
| hx_nil : forall a, hex_digits a [] a
| hx_cons : forall a c d l m, hex_digit c d -> hex_digits (16 * a + d) l m -> hex_digits a (c :: l) m.
Inductive hex_exponent : list Z -> Z -> Prop :=
| hx_none : hex_exponent [] 0
| hx_plain : forall p l, p = 112 \/ p = 80 -> digits l -> hex_exponent (p :: l) (digits_value 0 l)
| hx_plus : forall p l, p = 112 \/ p = 80 -> digits l -> hex_exponent (p :: 43 :: l) (digits_value 0 l)
| hx_minus : forall p l, p = 112 \/ p = 80 -> digits l -> hex_exponent (p :: 45 :: l) (- digits_value 0 l).
Inductive hexadecimal : list Z -> Q -> Prop :=
| hexadecimal_intro : forall x i fr fd e y m, x = 120 \/ x = 88 -> fr = [] /\ fd = [] \/ fr = 46 :: fd -> i ++ fd <> [] -> hex_digits 0 (i ++ fd) m -> hex_exponent e y ->
    hexadecimal (48 :: x :: i ++ fr ++ e) (inject_Z m * Qpower 2 (y - 4 * Z.of_nat (length fd))).

(** The scalars that are read as a float: a JSON number in the range of the type with the nearest value, possibly behind white space and a plus sign; a
    hexadecimal number with the same; the words for the infinities and for the quiet NaNs. *)
Inductive yaml_float (f : fty) : list Z -> Z -> Prop :=
| yf_number : forall b t z, blank b -> denotes_float f t z -> yaml_float f (b ++ t) z
| yf_plus : forall b t z, blank b -> denotes_float f t z -> hd 0 t <> 45 -> yaml_float f (b ++ 43 :: t) z
| yf_hexadecimal : forall b sg t q z, blank b -> sg = [] \/ sg = [43] -> hexadecimal t q -> in_range f q -> nearest f q z -> negative f z = false -> yaml_float f (b ++ sg ++ t) z
| yf_minus : forall b t q z, blank b -> hexadecimal t q -> in_range f (- q) -> nearest f (- q) z -> negative f z = true -> yaml_float f (b ++ 45 :: t) z
| yf_infinity : forall z, infinite f z -> yaml_float f (if negative f z then bs "-inf" else bs "inf") z
| yf_nan : forall z, quiet f z -> yaml_float f (if negative f z then bs "-nan" else bs "nan") z.
(** [float_yaml_stands marker t v j]: reading [j] gives [v]; integers in any spelling. *)
Definition float_scalar (i : ity) (z : Z) (a : list Z) : Prop := match flt_of i with Some f => yaml_float f a z | None => yaml_integer a z end.
Definition float_yaml_stands (marker : list Z) (t : ty) (v : val) (j : tree (list Z)) : Prop := d_val (yaml_sense_with float_scalar marker t) v j.

(** All floats and doubles in a value are patterns. *)
Definition is_pattern (i : ity) (z : Z) : Prop := match flt_of i with Some f => pattern f z | None => True end.
Definition patterns (t : ty) (v : val) : Prop := each (fun t v => match t, v with TInt i, VInt z => is_pattern i z | _, _ => True end) t v.
(** A number and what is read back for it: six significant digits; infinities are kept; a NaN remains a NaN with its sign. *)
Definition near_scalar (i : ity) (z z' : Z) : Prop :=
  match flt_of i with
  | Some f => near_general f z z' \/ infinite f z /\ z' = z \/ not_a_number f z /\ not_a_number f z' /\ negative f z' = negative f z
  | None => z' = z
  end.
