(** float and double in BSON.  BSON has one floating point type: element type 1, a double of 64 bits.  Values, patterns and [nearest]:
    Spec/Float.v. *)
From Coq Require Import ZArith QArith Qabs List Bool.
From Verif Require Import Model.Number Model.Types Model.Float Spec.Json Spec.Import Spec.Denotes Spec.Float Spec.Bson Spec.BsonDenotes.
Import ListNotations.
Open Scope Z_scope.

(** The patterns without a value: infinities have no fraction, NaNs have one. *)
Definition infinite (f : fty) (b : Z) : bool := (b / 2 ^ frac_bits f mod 2 ^ exp_bits f =? 2 ^ exp_bits f - 1) && (b mod 2 ^ frac_bits f =? 0).
(** The first bit of the fraction of a NaN says whether it is quiet. *)
Definition quiet_nan (f : fty) (b : Z) : Prop := float_value f b = None /\ 2 ^ (frac_bits f - 1) <= b mod 2 ^ frac_bits f.
Definition signalling (f : fty) (b : Z) : Prop := float_value f b = None /\ 0 < b mod 2 ^ frac_bits f < 2 ^ (frac_bits f - 1).
(** The fraction of a NaN behind that bit, filled up with zeros or cut to [n] bits. *)
Definition payload (f : fty) (n b : Z) : Z := (b mod 2 ^ (frac_bits f - 1)) * 2 ^ n / 2 ^ (frac_bits f - 1).

(** [widened b d]: the double [d] has the value and the sign of the float [b]; for a NaN, the payload and the sign. *)
Definition widened (b d : Z) : Prop :=
  pattern Dbl d /\ negative Dbl d = negative Flt b /\
  match float_value Flt b with
  | Some v => exists w, float_value Dbl d = Some w /\ (w == v)%Q
  | None =>
      if infinite Flt b then infinite Dbl d = true
      else quiet_nan Dbl d /\ payload Dbl 51 d = payload Flt 51 b
  end.
(** [narrowed d b]: the float [b] is the double [d] rounded (IEEE 754-2019, 4.3.1 and 6.2.3): the nearest value, an infinity from
    2 ^ 127 * (2 - 2 ^ -24) on. *)
Definition narrowed (d b : Z) : Prop :=
  pattern Flt b /\ negative Flt b = negative Dbl d /\
  match float_value Dbl d with
  | Some x => if Qle_bool (inject_Z (2 ^ 128 - 2 ^ 103)) (Qabs x) then infinite Flt b = true else nearest Flt x b
  | None =>
      if infinite Dbl d then infinite Flt b = true
      else quiet_nan Flt b /\ payload Flt 22 b = payload Dbl 22 d
  end.

(** The element that is written for a number. *)
Definition bson_num (i : ity) (z : Z) (a : bscal) : Prop :=
  match flt_of i with
  | Some f => pattern f z /\ exists d, a = BOther 1 (little 8 d) /\ match f with Dbl => d = z | Flt => widened z d end
  | None => bson_int i z a
  end.
Definition bson_float_stands (marker : list Z) (t : ty) (v : val) (j : tree bscal) : Prop :=
  d_val (sense_of bson_num bson_bool bson_str bson_str bson_null bson_key marker t) v j.
(** The elements that are read as a float or double: integers and doubles. *)
Definition float_element (f : fty) (a : bscal) (b : Z) : Prop :=
  match a with
  | BInt32 w => - 2 ^ 31 <= w < 2 ^ 31 /\ nearest f (inject_Z w) b /\ (negative f b = true <-> w < 0)
  | BInt64 w => - 2 ^ 63 <= w < 2 ^ 63 /\ nearest f (inject_Z w) b /\ (negative f b = true <-> w < 0)
  | BOther 1 data => exists d, data = little 8 d /\ pattern Dbl d /\ match f with Dbl => b = d | Flt => narrowed d b end
  | _ => False
  end.
Definition bson_element (i : ity) (z : Z) (a : bscal) : Prop :=
  match flt_of i with Some f => float_element f a z | None => bson_int i z a end.
Definition bson_reads_as (marker : list Z) (t : ty) (v : val) (j : tree bscal) : Prop :=
  d_val (sense_of bson_element bson_bool bson_str bson_str bson_null bson_key marker t) v j.

(** All floats and doubles in a value are patterns of their types. *)
Definition patterns (t : ty) (v : val) : Prop :=
  each (fun t v => match t, v with TInt i, VInt z => match flt_of i with Some f => pattern f z | None => True end | _, _ => True end) t v.
(** No float in a value is a signalling NaN. *)
Definition no_signal (t : ty) (v : val) : Prop :=
  each (fun t v => match t, v with TInt i, VInt z => flt_of i = Some Flt -> ~ signalling Flt z | _, _ => True end) t v.
