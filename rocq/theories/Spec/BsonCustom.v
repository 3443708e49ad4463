(** Classes with stream operators (Model/Custom.v) in BSON. *)
From Coq Require Import ZArith List Bool.
From Verif Require Import Model.Number Model.Types Model.Custom Spec.Json Spec.Denotes Spec.Bson Spec.BsonDenotes.
Import ListNotations.
Open Scope Z_scope.

(** Binary data of the user-defined subtype 0x80. *)
Definition user_binary (d : list Z) : bscal := BOther 5 (little 4 (len d) ++ 128 :: d).
(** The decimal number without leading zeros, with a minus sign if it is negative. *)
Definition decimal_int (z : Z) (t : list Z) : Prop :=
  if z <? 0 then exists n, t = 45 :: n /\ decimal_name (- z) n else decimal_name z t.
(** [element_text dbl_text a t]: the text of a scalar that is no null.  Numbers are written in decimal, strings stand between quotes, binary
    data of any subtype stands for itself.  [dbl_text]: the text of the double with a bit pattern. *)
Inductive element_text (dbl_text : Z -> list Z) : bscal -> list Z -> Prop :=
| et_int32 : forall z t, decimal_int z t -> element_text dbl_text (BInt32 z) t
| et_int64 : forall z t, decimal_int z t -> element_text dbl_text (BInt64 z) t
| et_true : element_text dbl_text (BBool true) [116; 114; 117; 101]
| et_false : element_text dbl_text (BBool false) [102; 97; 108; 115; 101]
| et_str : forall s, element_text dbl_text (BStr s) (34 :: s ++ [34])
| et_double : forall b, 0 <= b < 2 ^ 64 -> element_text dbl_text (BOther 1 (little 8 b)) (dbl_text b)
| et_binary : forall sub d, element_text dbl_text (BOther 5 (little 4 (len d) ++ sub :: d)) d.

(** The elements that stand for an object: operator>> makes the object of their text. *)
Definition custom_element (custom : ity -> option operators) (dbl_text : Z -> list Z) (i : ity) (z : Z) (a : bscal) : Prop :=
  match custom i with
  | Some o => exists t good, element_text dbl_text a t /\ o_get o t = Some (z, good)
  | None => bson_int i z a
  end.
Definition custom_reads_as (custom : ity -> option operators) (dbl_text : Z -> list Z) (marker : list Z) (t : ty) (v : val) (j : tree bscal) : Prop :=
  d_val (sense_of (custom_element custom dbl_text) bson_bool bson_str bson_str bson_null bson_key marker t) v j.

(** The elements that are written: what operator<< writes, as binary data. *)
Definition custom_binary (custom : ity -> option operators) (i : ity) (z : Z) (a : bscal) : Prop :=
  match custom i with Some o => a = user_binary (o_put o z) | None => bson_int i z a end.
Definition custom_stands (custom : ity -> option operators) (marker : list Z) (t : ty) (v : val) (j : tree bscal) : Prop :=
  d_val (sense_of (custom_binary custom) bson_bool bson_str bson_str bson_null bson_key marker t) v j.
(** The sizes that the classes tell are those of the texts that operator<< writes. *)
Definition told_right (custom : ity -> option operators) (size : ity -> option (Z -> Z)) (t : ty) (v : val) : Prop :=
  each (fun t v => match t, v with
                   | TInt i, VInt z => match custom i with Some o => exists f, size i = Some f /\ f z = len (o_put o z) | None => True end
                   | _, _ => True end) t v.
