(** float and double: how JSON exports write them and how JSON imports read them.

    A value is the bit pattern of IEEE 754 binary32 or binary64.  The types of Model/Types.v have no constructor for them.  On the
    modelled platforms (LP64) long long is long under another name, so [TInt IULLong] stands for double here and [TInt ILLong] for
    float, with [VInt b] for the pattern [b]; a class with doubles is written that way, and its long long members as long.
    Not modelled: long double, and standard libraries without std::to_chars or std::from_chars for floating point
    (NO_STD_SUPPORT_TO_CHAR_DOUBLE, NO_STD_SUPPORT_FROM_CHAR_DOUBLE). *)
From Coq Require Import ZArith String List Bool.
From Verif Require Import Model.Base Model.Source Model.Number Model.JsonLexer Model.ParserInterface Model.JsonParser Model.Printer Model.JsonPrinter
  Model.Types Model.Deserializer Model.Serializer Model.Importer Model.Exporter Model.Shared.
Import ListNotations.
Open Scope Z_scope.

(** ** Formats (IEEE 754-2019, 3.4) *)
Inductive fty := Flt | Dbl.
Definition fl_bits (f : fty) : Z := match f with Flt => 32 | Dbl => 64 end.
(** Stored bits of the significand. *)
Definition fl_man (f : fty) : Z := match f with Flt => 23 | Dbl => 52 end.
(** The exponent field of infinities and NaNs. *)
Definition fl_emax (f : fty) : Z := match f with Flt => 255 | Dbl => 2047 end.
(** The smallest positive value is 2 ^ - fl_unit. *)
Definition fl_unit (f : fty) : Z := match f with Flt => 149 | Dbl => 1074 end.

Definition fl_neg (f : fty) (b : Z) : bool := 2 ^ (fl_bits f - 1) <=? b.
Definition fl_abs (f : fty) (b : Z) : Z := b mod 2 ^ (fl_bits f - 1).
Definition fl_exp (f : fty) (b : Z) : Z := fl_abs f b / 2 ^ fl_man f.
Definition fl_frac (f : fty) (b : Z) : Z := b mod 2 ^ fl_man f.
Definition fl_finite (f : fty) (b : Z) : bool := fl_exp f b <? fl_emax f.
(** The magnitude in units of 2 ^ - fl_unit: zero and subnormal numbers have exponent field 0. *)
Definition fl_mag (f : fty) (b : Z) : Z :=
  if fl_exp f b =? 0 then fl_frac f b else (2 ^ fl_man f + fl_frac f b) * 2 ^ (fl_exp f b - 1).
Definition fl_zero (f : fty) (b : Z) : bool := fl_abs f b =? 0.
Definition fl_make (f : fty) (neg : bool) (a : Z) : Z := if neg then a + 2 ^ (fl_bits f - 1) else a.
Definition fl_inf (f : fty) : Z := fl_emax f * 2 ^ fl_man f.
Definition fl_nan (f : fty) : Z := fl_inf f + 2 ^ (fl_man f - 1).

(** num / den rounded to an integer, ties to even. *)
Definition round_even (num den : Z) : Z :=
  let q := num / den in
  let r := num mod den in
  if 2 * r <? den then q else if den <? 2 * r then q + 1 else if Z.even q then q else q + 1.
(** The pattern (without sign) nearest to num / den units, ties to even; [fl_inf] or more when it is out of range. *)
Definition fl_round (f : fty) (num den : Z) : Z :=
  let k := Z.max 0 (Z.log2 (num / den) - fl_man f) in
  round_even num (den * 2 ^ k) + k * 2 ^ fl_man f.
(** The pattern nearest to m * 10 ^ e. *)
Definition fl_decimal (f : fty) (m e : Z) : Z :=
  fl_round f (m * 10 ^ Z.max 0 e * 2 ^ fl_unit f) (10 ^ Z.max 0 (- e)).

(** ** Text to value *)
(** Digits with an optional point: the digits before and after it, the characters read, what follows. *)
Definition scan_mantissa (s : bytes) : bytes * bytes * nat * bytes :=
  let '(d1, s1) := span_digits s in
  match s1 with
  | c :: s2 =>
      if c =? 46 then let '(d2, s3) := span_digits s2 in (d1, d2, (length d1 + S (length d2))%nat, s3)
      else (d1, [], length d1, s1)
  | [] => (d1, [], length d1, s1)
  end.
(** An exponent: its sign, its digits (possibly none) and the characters read; nothing when there is no e. *)
Definition scan_exponent (s : bytes) : option (bool * bytes * nat) :=
  match s with
  | c :: s1 =>
      if (c =? 101) || (c =? 69) then
        let '(neg, n, s2) :=
          match s1 with
          | d :: r => if d =? 45 then (true, 2%nat, r) else if d =? 43 then (false, 2%nat, r) else (false, 1%nat, s1)
          | [] => (false, 1%nat, s1)
          end in
        let '(ds, _) := span_digits s2 in Some (neg, ds, (n + length ds)%nat)
      else None
  | [] => None
  end.
Definition exp_value (neg : bool) (ds : bytes) : Z := if neg then - dec_value ds else dec_value ds.

Definition lower (c : Z) : Z := if (65 <=? c) && (c <=? 90) then c + 32 else c.
(** The text starts with the word, without regard to case. *)
Definition starts_with (w s : bytes) : bool := beq (map lower (firstn (length w) s)) w.
Fixpoint span_nan (s : bytes) : nat * bytes :=
  match s with
  | c :: r => if is_digit c || ((97 <=? lower c) && (lower c <=? 122)) || (c =? 95) then let '(n, q) := span_nan r in (S n, q) else (O, s)
  | [] => (O, [])
  end.

(** std::from_chars for a floating point type (chars_format::general), as used by StringInput::readValue (StringInput.h:105-123):
    the pattern of strtod without plus sign and white space.  A result that is out of range, or zero for a number that is not
    zero, is errc::result_out_of_range and leaves the variable as it is. *)
Inductive ff_result := FfInvalid | FfRange (n : nat) | FfOk (b : Z) (n : nat).
Definition from_chars_flt (f : fty) (s : bytes) : ff_result :=
  let '(neg, n0, s1) :=
    match s with
    | c :: r => if c =? 45 then (true, 1%nat, r) else (false, O, s)
    | [] => (false, O, s)
    end in
  let '(d1, d2, n1, s2) := scan_mantissa s1 in
  if Nat.eqb (length (d1 ++ d2)) 0 then
    if starts_with (bs "infinity") s1 then FfOk (fl_make f neg (fl_inf f)) (n0 + 8)
    else if starts_with (bs "inf") s1 then FfOk (fl_make f neg (fl_inf f)) (n0 + 3)
    else if starts_with (bs "nan") s1 then
      match skipn 3 s1 with
      | 40 :: r => let '(n, q) := span_nan r in match q with 41 :: _ => FfOk (fl_make f neg (fl_nan f)) (n0 + 5 + n) | _ => FfOk (fl_make f neg (fl_nan f)) (n0 + 3) end
      | _ => FfOk (fl_make f neg (fl_nan f)) (n0 + 3)
      end
    else FfInvalid
  else
    let m := dec_value (d1 ++ d2) in
    let '(e, n2) :=
      match scan_exponent s2 with
      | Some (eneg, ds, n) => if Nat.eqb (length ds) 0 then (0, O) else (exp_value eneg ds, n)
      | None => (0, O)
      end in
    let a := fl_decimal f m (e - Z.of_nat (length d2)) in
    let n := (n0 + n1 + n2)%nat in
    if (fl_inf f <=? a) || ((a =? 0) && negb (m =? 0)) then FfRange n else FfOk (fl_make f neg a) n.

(** std::num_get<char>::get for a floating point type in the "C" locale (libstdc++), as used by ReadValue::readNumber
    (ParserInterface.h:56-65): a sign, digits with a point, then, if there was a digit, an exponent.  Text that strtod does not
    take as a whole gives 0; a value out of range gives the largest finite value.  Result: value and characters consumed. *)
Definition num_get_flt (f : fty) (s : bytes) : Z * nat :=
  let '(neg, n0, s1) :=
    match s with
    | c :: r => if c =? 45 then (true, 1%nat, r) else if c =? 43 then (false, 1%nat, r) else (false, O, s)
    | [] => (false, O, s)
    end in
  let '(d1, d2, n1, s2) := scan_mantissa s1 in
  if Nat.eqb (length (d1 ++ d2)) 0 then (0, (n0 + n1)%nat)
  else
    let m := dec_value (d1 ++ d2) in
    let value e := let a := fl_decimal f m (e - Z.of_nat (length d2)) in fl_make f neg (if fl_inf f <=? a then fl_inf f - 1 else a) in
    match scan_exponent s2 with
    | Some (eneg, ds, n) => ((if Nat.eqb (length ds) 0 then 0 else value (exp_value eneg ds)), (n0 + n1 + n)%nat)
    | None => (value 0, (n0 + n1)%nat)
    end.

(** ReadValue::readNumber (ParserInterface.h:56-65) on a stream for a floating point type: see [readNumber_stream]. *)
Definition readNumber_flt (f : fty) (s : src) : option Z * src :=
  if strm_good s then
    let '(v, n) := num_get_flt f (s_rest s) in
    if Nat.eqb n 0 then (None, s) else (Some v, set_pos s (s_pos s + n))
  else (None, set_good s false).

(** ParserInterface::readValue for floating point types (ParserInterface.h:79-92, 297-303; validateResult 50-55 accepts what
    was read) followed by JsonManualLexer::scan (JsonManualLexer.h:48-61). *)
Definition src_scanFlt (f : fty) (s : src) : outcome (Z * src) :=
  do s0 <- checkZero s;
  match s_kind s0 with
  | StrIn =>
      if Nat.ltb (s_size s0) (s_pos s0) then UB
      else
        match from_chars_flt f (s_rest s0) with
        | FfInvalid => Throw
        | FfRange _ => UB
        | FfOk v n => Ok (v, mkSrc StrIn (s_data s0) (s_pos s0 + n) (Nat.leb (s_pos s0 + n) (s_size s0)) false)
        end
  | Strm =>
      let '(r, s1) := readNumber_flt f s0 in
      match r with Some v => Ok (v, s1) | None => Throw end
  end.
Definition lex_scanFlt (f : fty) (l : jlex) : outcome (Z * jlex) :=
  do (b, s) <- src_scanFlt f (l_src l); Ok (b, lset_src l s).

(** The types that stand for float and double. *)
Definition flt_of (i : ity) : option fty := match i with IULLong => Some Dbl | ILLong => Some Flt | _ => None end.
Definition TDouble : ty := TInt IULLong.
Definition TFloat : ty := TInt ILLong.

(** JsonParser::getValue(float&), getValue(double&) (JsonParser.cpp:151-152) beside the other virtual methods. *)
Definition flt_ops (fuel : nat) (conv : bool) : parser_ops jparser :=
  let o := json_ops fuel conv in
  mkOps jparser (op_next o) (op_key o)
    (fun i => match flt_of i with Some f => jp_lift (lex_scanFlt f) | None => op_int o i end)
    (op_bool o) (op_str o) (op_null o) (op_ignore o) (op_ignoreMap o) (op_ignoreArr o).

(** An import as in Model/Importer.v into a type with floats and doubles. *)
Definition flt_try (fuel : nat) (cfg : pconfig) (t : ty) (v : val) (s : src) : outcome (val * src) :=
  json_run fuel cfg (d_parse (deser (flt_ops fuel (pc_conv cfg)) fuel (pc_strict cfg) (pc_marker cfg) t) v) s.
(** The import succeeds with [v']. *)
Definition flt_imports (cfg : pconfig) (k : skind) (t : ty) (v : val) (text : bytes) (v' : val) : Prop :=
  exists N, forall fuel, (N <= fuel)%nat -> exists s, flt_try fuel cfg t v (src_init k text) = Ok (v', s) /\ src_ok s = true.
Definition flt_rejects (cfg : pconfig) (k : skind) (t : ty) (v : val) (text : bytes) : Prop :=
  exists N, forall fuel, (N <= fuel)%nat -> flt_try fuel cfg t v (src_init k text) = Throw.
Definition flt_undefined (cfg : pconfig) (k : skind) (t : ty) (v : val) (text : bytes) : Prop :=
  exists N, forall fuel, (N <= fuel)%nat -> flt_try fuel cfg t v (src_init k text) = UB.

(** ** Value to text *)
(** The last [p] decimal digits. *)
Fixpoint padded (p : nat) (n : Z) : bytes :=
  match p with
  | O => []
  | S p => padded p (n / 10) ++ [48 + n mod 10]
  end.
(** Without trailing zeros. *)
Fixpoint strip0 (ds : bytes) : bytes :=
  match ds with
  | [] => []
  | d :: r => match strip0 r with [] => if d =? 48 then [] else [d] | r' => d :: r' end
  end.
Definition dash (neg : bool) : bytes := if neg then [45] else [].
Definition dot (ds : bytes) : bytes := match ds with [] => [] | _ => 46 :: ds end.
Definition special_text (f : fty) (b : Z) : bytes :=
  dash (fl_neg f b) ++ (if fl_abs f b =? fl_inf f then bs "inf" else bs "nan").

(** std::to_chars(first, last, value, chars_format::fixed, 6) of a value other than zero: the text of printf("%.6f"). *)
Definition fixed_text (f : fty) (b : Z) : bytes :=
  if fl_finite f b then
    let n := round_even (fl_mag f b * 10 ^ 6) (2 ^ fl_unit f) in
    dash (fl_neg f b) ++ nat_dec (n / 10 ^ 6) ++ 46 :: padded 6 (n mod 10 ^ 6)
  else special_text f b.

(** The largest x below the start with 10 ^ x <= magnitude. *)
Definition at_least (f : fty) (mag x : Z) : bool := 10 ^ Z.max 0 x * 2 ^ fl_unit f <=? mag * 10 ^ Z.max 0 (- x).
Fixpoint dec_exponent (n : nat) (f : fty) (mag x : Z) : Z :=
  match n with
  | O => x
  | S n => if at_least f mag x then x else dec_exponent n f mag (x - 1)
  end.
(** A start that is not too small for a magnitude below 2 ^ (k + 1). *)
Definition first_exponent (k : Z) : Z := if k <? 0 then - (3 * ((- k - 1) / 10)) else k / 3.
(** The six significant digits of a positive magnitude and the exponent of the first one. *)
Definition six_digits (f : fty) (mag : Z) : Z * Z :=
  let x := dec_exponent (Z.to_nat 1000) f mag (first_exponent (Z.log2 mag - fl_unit f)) in
  let d := round_even (mag * 10 ^ Z.max 0 (5 - x)) (2 ^ fl_unit f * 10 ^ Z.max 0 (x - 5)) in
  if d =? 10 ^ 6 then (10 ^ 5, x + 1) else (d, x).
Definition exp_digits (x : Z) : bytes := if x <? 10 then 48 :: nat_dec x else nat_dec x.
(** operator<<(std::ostream&, value) of a value other than zero with the default flags and precision: the text of printf("%g"). *)
Definition general_text (f : fty) (b : Z) : bytes :=
  if fl_finite f b then
    let '(d, x) := six_digits f (fl_mag f b) in
    dash (fl_neg f b) ++
    (if (-4 <=? x) && (x <? 6) then
       let p := 5 - x in nat_dec (d / 10 ^ p) ++ dot (strip0 (padded (Z.to_nat p) (d mod 10 ^ p)))
     else
       nat_dec (d / 10 ^ 5) ++ dot (strip0 (padded 5 (d mod 10 ^ 5))) ++ 101 :: (if x <? 0 then 45 else 43) :: exp_digits (Z.abs x))
  else special_text f b.

(** FormatDouble: operator<< (JsonPrinter.cpp:250-260) for a stream. *)
Definition stream_text (f : fty) (b : Z) : bytes :=
  if fl_zero f b then dash (fl_neg f b) ++ bs "0.0" else general_text f b.
(** FormatDouble: to_chars (JsonPrinter.cpp:275-293) for a string.  For a negative zero four characters are copied but the
    result points behind the third. *)
Definition string_text (f : fty) (b : Z) : bytes :=
  if fl_zero f b then (if fl_neg f b then bs "-0." else bs "0.0") else fixed_text f b.

(** JsonPrinter::addValue(float), addValue(double) (JsonPrinter.cpp:311-312) beside the other virtual methods.  The sizes are not
    used by JSON exports. *)
Definition num_text (k : okind) (i : ity) (z : Z) : bytes :=
  match flt_of i with
  | Some f => match k with ToStream => stream_text f z | ToString => string_text f z end
  | None => int_dec z
  end.
Definition with_num (num : ity -> Z -> chunk) (c : fconfig) : printer_ops jstate :=
  let o := json_printer c in
  mkPr jstate (pr_openMap o) (pr_closeMap o) (pr_openArray o) (pr_closeArray o) (pr_key o) (fun i z => js_value c (num i z))
    (pr_bool o) (pr_str o) (pr_null o) (pr_usesSize o) (pr_push o) (pr_szMap o) (pr_szArray o) (pr_szMember o) (pr_szNull o) (pr_szInt o) (pr_szBool o) (pr_szStr o).

(** ** StringOutput with values that may not fit (StringOutput.h:56-77) *)
(** Preflight: every value counts 25 when the size is estimated, otherwise it is written to a buffer of 100 characters. *)
Fixpoint preflight_flt (estimate : bool) (l : list chunk) : Z :=
  match l with
  | [] => 0
  | Wr b :: r => Z.of_nat (length b) + preflight_flt estimate r
  | WrVal b :: r => (if estimate then 25 else Z.min 100 (Z.of_nat (length b))) + preflight_flt estimate r
  end.
(** The second pass.  write copies without a check, and so does to_chars of a bool and of a zero; the four characters of a negative
    zero need room.  std::to_chars of another number that does not fit fills the rest with unspecified characters ([None]); the error is
    ignored. *)
Definition unchecked (b : bytes) : bool := beq b (bs "true") || beq b (bs "false") || beq b (bs "0.0") || beq b (bs "-0.").
Definition val_room (b : bytes) : Z := if beq b (bs "-0.") then 4 else Z.of_nat (length b).
Fixpoint copy_flt (room : Z) (l : list chunk) : outcome (list (option Z)) :=
  match l with
  | [] => Ok []
  | Wr b :: r =>
      if Z.of_nat (length b) <=? room then do out <- copy_flt (room - Z.of_nat (length b)) r; Ok (map Some b ++ out) else UB
  | WrVal b :: r =>
      if val_room b <=? room then do out <- copy_flt (room - Z.of_nat (length b)) r; Ok (map Some b ++ out)
      else if unchecked b then UB
      else do out <- copy_flt 0 r; Ok (repeat None (Z.to_nat room) ++ out)
  end.

(** ** Exports, as in Model/Exporter.v *)
Inductive flt_result :=
| FltExported (out : list (option Z))
| FltFailed (raised : bool)
| FltUB.
Definition flt_pass (c : fconfig) (k : okind) (t : ty) (v : val) : outcome (list chunk) :=
  do (out, _) <- sf_print (ser (with_num (fun i z => WrVal (num_text k i z)) c) (pf_marker c) t) v js_init; Ok out.
Definition flt_export (c : fconfig) (k : okind) (t : ty) (v : val) : flt_result :=
  let r :=
    match k with
    | ToStream => do out <- flt_pass c k t v; Ok (map Some (chunks_text out))
    | ToString => do out1 <- flt_pass c k t v; do out2 <- flt_pass c k t v; copy_flt (preflight_flt (negb (pf_exact c)) out1) out2
    end in
  match r with
  | Ok b => FltExported b
  | Throw => FltFailed (negb (pf_catch c))
  | _ => FltUB
  end.
(** The whole output is specified. *)
Definition flt_exported (c : fconfig) (k : okind) (t : ty) (v : val) (out : bytes) : Prop := flt_export c k t v = FltExported (map Some out).
