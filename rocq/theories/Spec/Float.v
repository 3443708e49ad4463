(** What float and double values are (IEEE 754-2019, 3.4) and what number a JSON text is (RFC 8259, 6).  Values are rational numbers. *)
From Coq Require Import ZArith QArith Qabs List Bool.
From Verif Require Import Model.Number Model.Types Model.Exporter Model.Float Spec.Json Spec.Import Spec.Denotes.
Import ListNotations.
Open Scope Z_scope.

(** Bits of the fraction and of the exponent. *)
Definition frac_bits (f : fty) : Z := match f with Flt => 23 | Dbl => 52 end.
Definition exp_bits (f : fty) : Z := match f with Flt => 8 | Dbl => 11 end.
Definition pattern (f : fty) (b : Z) : Prop := 0 <= b < 2 ^ (1 + exp_bits f + frac_bits f).

(** The value of a pattern; none for infinities and NaNs. *)
Definition negative (f : fty) (b : Z) : bool := b / 2 ^ (exp_bits f + frac_bits f) =? 1.
Definition float_value (f : fty) (b : Z) : option Q :=
  let fraction := b mod 2 ^ frac_bits f in
  let exponent := b / 2 ^ frac_bits f mod 2 ^ exp_bits f in
  let bias := 2 ^ (exp_bits f - 1) - 1 in
  if exponent =? 2 ^ exp_bits f - 1 then None
  else
    let significand := if exponent =? 0 then fraction else 2 ^ frac_bits f + fraction in
    let scale := Qpower 2 (Z.max exponent 1 - bias - frac_bits f) in
    Some ((if negative f b then -1 else 1) * inject_Z significand * scale)%Q.

(** The number that a JSON text denotes. *)
Inductive exponent_of : list Z -> Z -> Prop :=
| xo_none : exponent_of [] 0
| xo_plain : forall e l, e = 101 \/ e = 69 -> digits l -> exponent_of (e :: l) (digits_value 0 l)
| xo_plus : forall e l, e = 101 \/ e = 69 -> digits l -> exponent_of (e :: 43 :: l) (digits_value 0 l)
| xo_minus : forall e l, e = 101 \/ e = 69 -> digits l -> exponent_of (e :: 45 :: l) (- digits_value 0 l).
Inductive fraction_of : list Z -> list Z -> Prop :=
| fo_none : fraction_of [] []
| fo_some : forall l, digits l -> fraction_of (46 :: l) l.
Inductive decimal : list Z -> Q -> Prop :=
| decimal_plain : forall i f fd e x, int_part i -> fraction_of f fd -> exponent_of e x ->
    decimal (i ++ f ++ e) (inject_Z (digits_value 0 (i ++ fd)) * Qpower 10 (x - Z.of_nat (length fd)))
| decimal_minus : forall t q, decimal t q -> hd 0 t <> 45 -> decimal (45 :: t) (- q).

(** [b] is the value nearest to [x], the one with an even pattern if two are equally near. *)
Definition nearest (f : fty) (x : Q) (b : Z) : Prop :=
  pattern f b /\ exists v, float_value f b = Some v /\
  forall b' v', pattern f b' -> float_value f b' = Some v' ->
    (Qabs (x - v) <= Qabs (x - v'))%Q /\ ((Qabs (x - v') <= Qabs (x - v))%Q -> (v' == v)%Q \/ Z.even b = true).
(** Zero, or between two positive finite values. *)
Definition in_range (f : fty) (x : Q) : Prop :=
  (x == 0)%Q \/
  (exists b v, pattern f b /\ float_value f b = Some v /\ (0 < v)%Q /\ (v <= Qabs x)%Q) /\
  (exists b v, pattern f b /\ float_value f b = Some v /\ (Qabs x <= v)%Q).
(** The texts that denote a float: the value is in the range of the type and [b] is the nearest one, with the sign of the text. *)
Definition denotes_float (f : fty) (t : list Z) (b : Z) : Prop :=
  exists x, decimal t x /\ in_range f x /\ nearest f x b /\ (negative f b = true <-> hd 0 t = 45).

(** How far the text of a value may be off.  Strings: six digits behind the point; values that need no more are kept. *)
Definition near_fixed (f : fty) (b b' : Z) : Prop :=
  pattern f b' /\ negative f b' = negative f b /\ exists v v', float_value f b = Some v /\ float_value f b' = Some v' /\
  (Qabs (v' - v) <= 1 # 1000000)%Q /\ ((exists n, (v * 1000000 == inject_Z n)%Q) -> b' = b).
(** Streams: six significant digits; values that need no more are kept. *)
Definition near_general (f : fty) (b b' : Z) : Prop :=
  pattern f b' /\ negative f b' = negative f b /\ exists v v', float_value f b = Some v /\ float_value f b' = Some v' /\
  (Qabs (v' - v) * 100000 <= Qabs v)%Q /\ ((exists m e, Z.abs m < 1000000 /\ (v == inject_Z m * Qpower 10 e)%Q) -> b' = b).

(** The values that can be exported.  Streams: all finite ones.  Strings: those below 10 ^ 17, and not the negative zero. *)
Definition exportable (k : okind) (f : fty) (b : Z) : Prop :=
  pattern f b /\ exists v, float_value f b = Some v /\
  match k with ToStream => True | ToString => (Qabs v < 100000000000000000)%Q /\ ((v == 0)%Q -> negative f b = false) end.
(** A number and what is read back for it. *)
Definition near_number (k : okind) (i : ity) (z z' : Z) : Prop :=
  match flt_of i with
  | Some f => match k with ToStream => near_general f z z' | ToString => near_fixed f z z' end
  | None => z' = z
  end.
Definition good_number (k : okind) (i : ity) (z : Z) : Prop :=
  match flt_of i with Some f => exportable k f z | None => fits i z end.

(** Two values of a type that differ in their numbers only, each of them related by [R]. *)
Fixpoint alike (R : ity -> Z -> Z -> Prop) (t : ty) (v w : val) : Prop :=
  match t, v, w with
  | TInt i, VInt a, VInt b => R i a b
  | TSeq _ t', VList l, VList m | TArr _ t', VList l, VList m => Forall2 (alike R t') l m
  | TTup ts, VList l, VList m => rel3 (map (alike R) ts) l m
  | TMap _ t', VMap l, VMap m => Forall2 (fun a b => fst a = fst b /\ alike R t' (snd a) (snd b)) l m
  | TPtr t', VPtr (Some x), VPtr (Some y) | TOpt t', VOpt (Some x), VOpt (Some y) => alike R t' x y
  | TStruct _ ms ps, VStruct own par, VStruct own' par' => rel3 (map (alike R) ms) own own' /\ rel3 (map (alike R) ps) par par'
  | TPoly cs _, VPtr (Some (VVar k x)), VPtr (Some (VVar k' y)) | TVariant cs, VVar k x, VVar k' y =>
      k = k' /\ match nth_error (map (alike R) cs) k with Some f => f x y | None => False end
  | TInt _, _, _ => False
  | _, _, _ => v = w
  end.

(** All numbers in a value can be exported. *)
Definition good_numbers (k : okind) (t : ty) (v : val) : Prop :=
  each (fun t v => match t, v with TInt i, VInt z => good_number k i z | _, _ => True end) t v.

(** [stands_for] of Spec/Denotes.v with floats and doubles: the JSON number of a float is one that denotes it. *)
Definition json_num (i : ity) (z : Z) (a : jscal) : Prop :=
  match flt_of i with Some f => exists t, a = SNum t /\ denotes_float f t z | None => json_int i z a end.
Definition float_stands_for (marker : list Z) (t : ty) (v : val) (j : jv) : Prop :=
  d_val (sense_of json_num json_bool json_str json_tag json_null json_key marker t) v j.
