(** float and double in YAML.  Patterns and the types that stand for float and double: Model/Float.v. *)
From Coq Require Import ZArith String List Bool.
From Verif Require Import Model.Base Model.Source Model.Number Model.Printer Model.JsonPrinter Model.Types Model.Importer Model.Exporter Model.Float Model.Yaml Model.YamlPrinter.
Import ListNotations.
Open Scope Z_scope.

(** ** Reading *)
Definition hex_value (c : Z) : option Z :=
  if is_digit c then Some (c - 48) else if (97 <=? lower c) && (lower c <=? 102) then Some (lower c - 87) else None.
Fixpoint span_hex (s : bytes) : list Z * bytes :=
  match s with
  | c :: r => match hex_value c with Some d => let '(ds, q) := span_hex r in (d :: ds, q) | None => ([], s) end
  | [] => ([], [])
  end.
Definition hex_number (ds : list Z) : Z := fold_left (fun a d => 16 * a + d) ds 0.
(** A hexadecimal number: 0x, digits with an optional point, an optional binary exponent.  The pattern nearest to it and the characters
    taken; nothing when there is no digit behind 0x. *)
Definition scan_hex (f : fty) (s : bytes) : option (Z * nat) :=
  match s with
  | 48 :: x :: s1 =>
      if lower x =? 120 then
        let '(d1, s2) := span_hex s1 in
        let '(d2, n, s3) := match s2 with 46 :: r => let '(d, q) := span_hex r in (d, S (length d), q) | _ => ([], O, s2) end in
        if Nat.eqb (length (d1 ++ d2)) 0 then None
        else
          let '(e, n') :=
            match s3 with
            | p :: r =>
                if lower p =? 112 then
                  let '(neg, k, r) := match r with 45 :: r => (true, 2%nat, r) | 43 :: r => (false, 2%nat, r) | _ => (false, 1%nat, r) end in
                  let '(ds, _) := span_digits r in
                  if Nat.eqb (length ds) 0 then (0, O) else (exp_value neg ds, (k + length ds)%nat)
                else (0, O)
            | [] => (0, O)
            end in
          let x := e - 4 * Z.of_nat (length d2) in
          Some (Z.min (fl_inf f) (fl_round f (hex_number (d1 ++ d2) * 2 ^ Z.max 0 x * 2 ^ fl_unit f) (2 ^ Z.max 0 (- x))), (2 + length d1 + n + n')%nat)
      else None
  | _ => None
  end.
(** inf, infinity, nan and nan(...), without regard to case. *)
Definition scan_word (f : fty) (s : bytes) : option (Z * nat) :=
  if starts_with (bs "infinity") s then Some (fl_inf f, 8%nat)
  else if starts_with (bs "inf") s then Some (fl_inf f, 3%nat)
  else if starts_with (bs "nan") s then
    match skipn 3 s with
    | 40 :: r => let '(n, q) := span_nan r in match q with 41 :: _ => Some (fl_nan f, (5 + n)%nat) | _ => Some (fl_nan f, 3%nat) end
    | _ => Some (fl_nan f, 3%nat)
    end
  else None.
(** strtof, strtod (C library) in the "C" locale: white space, a sign, a number; without a number nothing is taken.  A value out of range gives
    infinity, one that is too small the nearest pattern.  Simplified: the characters in nan(...) have no influence on the pattern.  Result: the pattern
    and the number of characters taken. *)
Definition strtod (f : fty) (s : bytes) : Z * nat :=
  let '(n0, s1) := skip_space s in
  let '(neg, n1, s2) :=
    match s1 with
    | c :: r => if c =? 45 then (true, 1%nat, r) else if c =? 43 then (false, 1%nat, r) else (false, O, s1)
    | [] => (false, O, s1)
    end in
  let found :=
    match scan_hex f s2 with
    | Some r => Some r
    | None =>
        let '(d1, d2, n2, s3) := scan_mantissa s2 in
        if Nat.eqb (length (d1 ++ d2)) 0 then scan_word f s2
        else
          let '(e, n3) :=
            match scan_exponent s3 with
            | Some (eneg, ds, n) => if Nat.eqb (length ds) 0 then (0, O) else (exp_value eneg ds, n)
            | None => (0, O)
            end in
          Some (Z.min (fl_inf f) (fl_decimal f (dec_value (d1 ++ d2)) (e - Z.of_nat (length d2))), (n2 + n3)%nat)
    end in
  match found with
  | Some (a, n) => (fl_make f neg a, (n0 + n1 + n)%nat)
  | None => (0, O)
  end.
(** scanValue<float>, scanValue<double> (Serialize.h:68-69) and scan (YamlParser.cpp:198-214): everything must have been taken.  getValue(float&),
    getValue(double&) (YamlParser.cpp:227-228). *)
Definition yflt_int (i : ity) (s : bytes) : outcome Z :=
  match flt_of i with
  | Some f => let '(v, n) := strtod f s in if Nat.eqb n (length s) then Ok v else Throw
  | None => yaml_int i s
  end.
Definition yflt_extract : nat -> pconfig -> ty -> val -> list ycall -> src -> import_result := yaml_extract_with yflt_int.

(** ** Writing *)
(** YamlPrinter::addValue(float), addValue(double) (YamlPrinter.h:67-68), emit (YamlPrinter.cpp:197-219): operator<< to a std::stringstream with the default
    flags and precision. *)
Definition yflt_text (i : ity) (z : Z) : bytes :=
  match flt_of i with
  | Some f => if fl_zero f z then dash (fl_neg f z) ++ bs "0" else general_text f z
  | None => int_dec z
  end.
Definition yflt_events : fconfig -> outside -> okind -> ty -> val -> ywritten := yaml_events_with yflt_text.
