(** float and double in BSON (BsonPrinter.h:77-78, 108-109, 168-200; BsonParser.h:87-88, 199-233).

    As in Model/Float.v, [TInt IULLong] stands for double and [TInt ILLong] for float, with [VInt b] for the bit pattern [b].
    Not modelled: long double, which is written as double and read through a double. *)
From Coq Require Import ZArith List Bool.
From Verif Require Import Model.Base Model.Source Model.Number Model.ParserInterface Model.Types Model.Printer Model.JsonPrinter Model.Serializer Model.Exporter
  Model.Importer Model.Float Model.Binary Model.BsonPrinter Model.BsonParser Model.BsonDoc.
Import ListNotations.
Open Scope Z_scope.

(** ** Conversions between the formats (IEEE 754-2019, 5.4.2 and 6.2.3), rounding to nearest, ties to even *)
Definition fl_isnan (f : fty) (b : Z) : bool := fl_inf f <? fl_abs f b.
(** A NaN with the bit set that marks it as quiet. *)
Definition quiet (f : fty) (a : Z) : Z := if Z.testbit a (fl_man f - 1) then a else a + 2 ^ (fl_man f - 1).
(** The difference of the widths of the fractions. *)
Definition fl_more : Z := fl_man Dbl - fl_man Flt.

(** float to double.  The payload of a NaN is kept in the first bits of the fraction. *)
Definition widen (b : Z) : Z :=
  let neg := fl_neg Flt b in
  if fl_isnan Flt b then fl_make Dbl neg (quiet Dbl (fl_inf Dbl + fl_frac Flt b * 2 ^ fl_more))
  else if fl_finite Flt b then fl_make Dbl neg (fl_round Dbl (fl_mag Flt b * 2 ^ (fl_unit Dbl - fl_unit Flt)) 1)
  else fl_make Dbl neg (fl_inf Dbl).
(** double to float.  A value that is out of range becomes an infinity. *)
Definition narrow (b : Z) : Z :=
  let neg := fl_neg Dbl b in
  if fl_isnan Dbl b then fl_make Flt neg (quiet Flt (fl_inf Flt + fl_frac Dbl b / 2 ^ fl_more))
  else if fl_finite Dbl b then fl_make Flt neg (Z.min (fl_inf Flt) (fl_round Flt (fl_mag Dbl b) (2 ^ (fl_unit Dbl - fl_unit Flt))))
  else fl_make Flt neg (fl_inf Flt).
(** An integer to float or double. *)
Definition of_int (f : fty) (z : Z) : Z := fl_make f (z <? 0) (fl_round f (Z.abs z * 2 ^ fl_unit f) 1).

(** ** Writing *)
(** addValue(float), addValue(double) (BsonPrinter.h:77-78), writeFloat<double> (194-200): the value is converted to double, and its
    bytes are written.  Eight bytes count for the size (BsonPrinter.h:108-109), as for [TInt IULLong] and [TInt ILLong]. *)
Definition flt_bits (f : fty) (z : Z) : Z := match f with Flt => widen z | Dbl => z end.
Definition writeFloat (b : Z) : writer bprinter := w_then (writeKey 1 (Some 8)) (w_put (writeLE 8 8 b)).
Definition bs_num (proj : bool) (i : ity) (z : Z) : writer bprinter :=
  match flt_of i with
  | Some f => unless_projection proj (writeFloat (flt_bits f z))
  | None => bs_int proj i z
  end.
Definition bflt_printer (proj : bool) (ids : option (nat -> bytes)) : printer_ops bprinter := bson_with (bs_num proj) (bs_szInt proj) (bson_printer proj ids).
Definition bflt_export (c : fconfig) (k : okind) (proj : bool) (ids : option (nat -> bytes)) (t : ty) (v : val) : bson_result :=
  export_with (bflt_printer proj ids) c k proj t v.
Definition bfltGetPrintSize (c : fconfig) (ids : option (nat -> bytes)) : ty -> val -> outcome Z := getPrintSize_with (bflt_printer false ids) c.

(** ** Reading *)
(** readFloat<double> (BsonParser.h:199-212): the variable is not initialised, so that a short read is undefined. *)
Definition readFloat (b : bparser) : outcome (Z * bparser) :=
  do (got, b) <- b_read 8 b;
  if src_ok (b_src b) then
    do b <- b_use 8 b;
    if Nat.eqb (length got) 8 then Ok (le_value got, b) else UB
  else Throw.
(** getFloatValue (BsonParser.h:222-233). *)
Definition getFloatValue (f : fty) (b : bparser) : outcome (Z * bparser) :=
  if b_type b =? 16 then do b <- b_use 4 b; do (z, b) <- b_readLE 4 b; Ok (of_int f z, b)
  else if b_type b =? 18 then do b <- b_use 8 b; do (z, b) <- b_readLE 8 b; Ok (of_int f z, b)
  else if b_type b =? 1 then do (z, b) <- readFloat b; Ok (match f with Flt => narrow z | Dbl => z end, b)
  else Throw.
Definition bflt_ops : parser_ops bparser :=
  let o := bson_ops in
  mkOps bparser (op_next o) (op_key o) (fun i => match flt_of i with Some f => getFloatValue f | None => bson_int i end)
    (op_bool o) (op_str o) (op_null o) (op_ignore o) (op_ignoreMap o) (op_ignoreArr o).

Definition bflt_imports := imports_with bflt_ops.
Definition bflt_rejects := rejects_with bflt_ops.
