(** Reading and printing of integers. *)
From Coq Require Import ZArith List Bool.
From Verif Require Import Model.Base Model.Source.
Import ListNotations.
Open Scope Z_scope.

(** The integer types of ParserInterface::getValue (ParserInterface.h:159-167), LP64. *)
Inductive ity := IShort | IInt | ILong | ILLong | IUShort | IUInt | IULong | IULLong.

Definition i_bits (t : ity) : Z :=
  match t with
  | IShort | IUShort => 16
  | IInt | IUInt => 32
  | _ => 64
  end.
Definition i_signed (t : ity) : bool :=
  match t with IShort | IInt | ILong | ILLong => true | _ => false end.
Definition i_min (t : ity) : Z := if i_signed t then - 2 ^ (i_bits t - 1) else 0.
Definition i_max (t : ity) : Z := if i_signed t then 2 ^ (i_bits t - 1) - 1 else 2 ^ i_bits t - 1.
Definition i_in (t : ity) (z : Z) : bool := (i_min t <=? z) && (z <=? i_max t).

(** Conversion of an integer to the type (modulo 2^bits; C++20 semantics). *)
Definition i_wrap (t : ity) (z : Z) : Z :=
  let m := z mod 2 ^ i_bits t in
  if i_signed t && (2 ^ (i_bits t - 1) <=? m) then m - 2 ^ i_bits t else m.

(** The longest run of decimal digits and what follows. *)
Fixpoint span_digits (s : bytes) : bytes * bytes :=
  match s with
  | c :: r => if is_digit c then let '(d, r') := span_digits r in (c :: d, r') else ([], s)
  | [] => ([], [])
  end.

Definition dec_value (ds : bytes) : Z := fold_left (fun a d => 10 * a + (d - 48)) ds 0.

(** std::from_chars for an integer type, base 10, as used by StringInput::readValue
    (StringInput.h:105-123).  Standard library behaviour: an optional minus sign for signed types, then digits;
    on overflow all digits are consumed and the value is not written. *)
Inductive fc_result := FcInvalid | FcRange (n : nat) | FcOk (v : Z) (n : nat).

Definition from_chars (t : ity) (s : bytes) : fc_result :=
  let '(neg, n0, s1) :=
    match s with
    | c :: r => if (c =? 45) && i_signed t then (true, 1%nat, r) else (false, O, s)
    | [] => (false, O, s)
    end in
  let '(ds, _) := span_digits s1 in
  match ds with
  | [] => FcInvalid
  | _ =>
      let v := if neg : bool then - dec_value ds else dec_value ds in
      let n := (n0 + length ds)%nat in
      if i_in t v then FcOk v n else FcRange n
  end.

(** The unsigned type of the same width: std::make_unsigned_t. *)
Definition u_max (t : ity) : Z := 2 ^ i_bits t - 1.

(** std::num_get<char>::get for an unsigned type in the "C" locale with dec flags, as used by
    ReadValue::readNumber (ParserInterface.h:56-65): optional sign, digits; no digits gives 0; overflow gives the
    maximum; a minus sign negates modulo 2^bits.  Result: value and number of characters consumed. *)
Definition num_get_unsigned (t : ity) (s : bytes) : Z * nat :=
  let '(neg, n0, s1) :=
    match s with
    | c :: r => if c =? 45 then (true, 1%nat, r)
                else if c =? 43 then (false, 1%nat, r) else (false, O, s)
    | [] => (false, O, s)
    end in
  let '(ds, _) := span_digits s1 in
  match ds with
  | [] => (0, n0)
  | _ =>
      let v := dec_value ds in
      let n := (n0 + length ds)%nat in
      if u_max t <? v then (u_max t, n)
      else ((if neg : bool then (- v) mod 2 ^ i_bits t else v), n)
  end.

(** ReadValue::checkZero (ParserInterface.h:27-42). *)
Definition checkZero (s : src) : outcome src :=
  let '(p, s1) := src_peek s in
  if p =? 48 then
    let '(_, s2) := src_get s1 in
    let '(p2, s3) := src_peek s2 in
    if (49 <=? p2) && (p2 <=? 57) then Throw else src_unget s3
  else Ok s1.

(** ReadValue::readNumber (ParserInterface.h:56-78) on a stream.  tellg() gives -1 both times when the stream
    is not good, so the result is then "nothing read" ([None]). *)
Definition readNumber_stream (t : ity) (s : src) : option Z * src :=
  if i_signed t then
    let '(p, s1) := src_peek s in
    let neg := p =? 45 in
    let s2 := if neg then snd (src_get s1) else s1 in
    if strm_good s2 then
      let '(v, n) := num_get_unsigned t (s_rest s2) in
      if Nat.eqb n 0 then (None, s2)
      else (Some (i_wrap t (if neg then - v else v)), set_pos s2 (s_pos s2 + n))
    else (None, set_good s2 false)
  else
    if strm_good s then
      let '(v, n) := num_get_unsigned t (s_rest s) in
      if Nat.eqb n 0 then (None, s)
      else (Some v, set_pos s (s_pos s + n))
    else (None, set_good s false).

(** ReadValue::validateResult (ParserInterface.h:43-49). *)
Definition validateResult (okr : bool) (s : src) : bool * src :=
  let '(c, s1) := src_peek s in
  (okr && negb (c =? 46) && negb (c =? 101) && negb (c =? 69), s1).

(** ParserInterface::readValue for integers (ParserInterface.h:79-92, 297-303) followed by
    JsonManualLexer::scan (JsonManualLexer.h:48-61).  On from_chars overflow the result variable was never written:
    returning it is [UB]. *)
Definition src_scanInt (t : ity) (s : src) : outcome (Z * src) :=
  do s0 <- checkZero s;
  match s_kind s0 with
  | StrIn =>
      if Nat.ltb (s_size s0) (s_pos s0) then UB
      else
        let '(okr, v, s1) :=
          match from_chars t (s_rest s0) with
          | FcInvalid => (false, None, s0)
          | FcRange n => (true, None, mkSrc StrIn (s_data s0) (s_pos s0 + n)
                                        (Nat.leb (s_pos s0 + n) (s_size s0)) false)
          | FcOk v n => (true, Some v, mkSrc StrIn (s_data s0) (s_pos s0 + n)
                                        (Nat.leb (s_pos s0 + n) (s_size s0)) false)
          end in
        let '(okv, s2) := validateResult okr s1 in
        if okv then match v with Some z => Ok (z, s2) | None => UB end
        else Throw
  | Strm =>
      let '(r, s1) := readNumber_stream t s0 in
      let '(okv, s2) := validateResult (match r with Some _ => true | None => false end) s1 in
      if okv then match r with Some z => Ok (z, s2) | None => Throw end
      else Throw
  end.

(** Decimal text of an integer: std::ostream << int and std::to_chars (both PrinterInterface outputs). *)
Fixpoint dec_digits (fuel : nat) (n : Z) : bytes :=
  match fuel with
  | O => []
  | S f => if n <? 10 then [48 + n] else dec_digits f (n / 10) ++ [48 + n mod 10]
  end.
Definition nat_dec (n : Z) : bytes := dec_digits (S (Z.to_nat (Z.log2 n))) n.
Definition int_dec (z : Z) : bytes := if z <? 0 then 45 :: nat_dec (- z) else nat_dec z.
