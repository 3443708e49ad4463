(** JsonPrinter (JsonPrinter.h, JsonPrinter.cpp). *)
From Coq Require Import ZArith String List Bool.
From Verif Require Import Model.Base Model.Number Model.Unicode Model.Printer.
Import ListNotations.
Open Scope Z_scope.

(** OutputType and PrinterConfig (PrinterConfig.h:11-70).  [pf_marker] is the marker after
    Private::getPolymorphicMarker (PolymorphicMarker.h:42-54) has replaced an empty one.  Simplified:
    catchUnknownExceptions has no effect in the modelled code. *)
Inductive otype := ODefault | OStream | OConfig.
Record fconfig := mkPf {
  pf_type : otype;         (* characteristics *)
  pf_marker : bytes;       (* polymorphicMarker *)
  pf_catch : bool;         (* catchExceptions *)
  pf_tab : Z;              (* tabSize (long) *)
  pf_block : Z;            (* blockSize (long) *)
  pf_exact : bool          (* exactPreFlight *)
}.
Definition pf_default : fconfig := mkPf ODefault (bs "__type") true 0 0 false.

(** PrintState (JsonPrinter.h:17-30): f0 counts the values written at this level, f1 is the kind of level, f2 says that a
    scalar was written.  Simplified: f0 is an int, its overflow is not modelled. *)
Inductive level := LvValue | LvMap | LvArray.
Record pstate := mkPstate { f0 : Z; f1 : level; f2 : bool }.
(** The stack; the last element of the C++ vector is the head.  It always has one element at least. *)
Definition jstate := list pstate.
Definition js_init : jstate := [mkPstate 0 LvValue false].

Section Json.
  Context (c : fconfig).

  (** characteristics != OutputType::Stream *)
  Definition spaced : bool := match pf_type c with OStream => false | _ => true end.

  (** Prefix::printSeporator (JsonPrinter.cpp:32-38) with the tables 127-129. *)
  Definition separator (top : pstate) (key sep : bool) : bytes :=
    let sp := if sep then [32] else [] in
    match f1 top, key with
    | LvMap, false => 58 :: sp
    | _, _ => if f0 top =? 0 then sp else 44 :: sp
    end.

  (** size * tabSize + 1 + blockSize in std::size_t (JsonPrinter.cpp:20-31, 44, 52); [n] is state.size(). *)
  Definition indent_at (n : nat) : Z :=
    ((Z.of_nat n - 1) * ((if pf_tab c =? 0 then 4 else pf_tab c) mod 2 ^ 64) + 1 + pf_block c mod 2 ^ 64) mod 2 ^ 64.
  (** The first [z] characters of buildIndent() (JsonPrinter.cpp:61-66): 4004 characters and the terminating NUL. *)
  Definition indent_text (z : Z) : outcome bytes :=
    if z =? 0 then Ok []
    else if z <=? 4004 then Ok (10 :: repeat 32 (Z.to_nat (z - 1)))
    else if z =? 4005 then Ok (10 :: repeat 32 4003 ++ [0])
    else UB.
  (** printIndent(printer, hasIndent) (JsonPrinter.cpp:39-46). *)
  Definition printIndent (n : nat) (has : bool) : outcome bytes :=
    if has then indent_text (indent_at n) else Ok [].
  (** printIndent(printer, hasIndent, suffix) (JsonPrinter.cpp:47-60): the suffix is stored into the static string first,
      an index beyond its 4004 characters is undefined behaviour.  Simplified: with index 0, which needs a negative
      blockSize or tabSize, the restored character is a space instead of the line feed; this later change of white space
      is not modelled. *)
  Definition printIndentSuffix (n : nat) (has : bool) (suffix : Z) : outcome bytes :=
    if has then
      if indent_at n <? 4004 then do t <- indent_text (indent_at n); Ok (t ++ [suffix]) else UB
    else Ok [suffix].

  Definition put (b : bytes) (s : jstate) : outcome (list chunk * jstate) := Ok ([Wr b], s).

  (** openMap, openArray (JsonPrinter.cpp:164-169, 191-196). *)
  Definition js_open (l : level) (ch : Z) (s : jstate) : outcome (list chunk * jstate) :=
    match s with
    | [] => UB
    | top :: _ =>
        do t <- printIndentSuffix (length s) spaced ch;
        put (separator top false false ++ t) (mkPstate 0 l false :: s)
    end.
  (** closeMap (JsonPrinter.cpp:172-188). *)
  Definition js_closeMap (s : jstate) : outcome (list chunk * jstate) :=
    match s with
    | mkPstate _ LvMap _ :: mkPstate n l b :: r =>
        do t <- printIndentSuffix (S (length r)) spaced 125;
        put t (mkPstate (n + 1) l b :: r)
    | mkPstate _ LvMap _ :: [] => UB
    | _ :: _ => Throw
    | [] => UB
    end.
  (** closeArray (JsonPrinter.cpp:199-212). *)
  Definition js_closeArray (s : jstate) : outcome (list chunk * jstate) :=
    match s with
    | mkPstate _ LvArray prefixValue :: mkPstate n l b :: r =>
        do t <- printIndentSuffix (S (length r)) (spaced && negb prefixValue) 93;
        put t (mkPstate (n + 1) l b :: r)
    | mkPstate _ LvArray _ :: [] => UB
    | _ :: _ => Throw
    | [] => UB
    end.
  (** addKey (JsonPrinter.cpp:215-229): the key is written as it is. *)
  Definition js_key (k : bytes) (s : jstate) : outcome (list chunk * jstate) :=
    match s with
    | [] => UB
    | top :: _ =>
        match f1 top with
        | LvMap =>
            do t <- printIndent (length s) spaced;
            put (separator top true false ++ t ++ 34 :: k ++ [34]) s
        | _ => Throw
        end
    end.
  (** addIndent (JsonPrinter.cpp:238-243, PrefixValue 78-93), followed by the text of the value. *)
  Definition js_value (v : chunk) (s : jstate) : outcome (list chunk * jstate) :=
    match s with
    | [] => UB
    | mkPstate n l b :: r =>
        let sep := spaced && match l with LvArray => negb (n =? 0) | LvMap => true | LvValue => false end in
        Ok ([Wr (separator (mkPstate n l b) false sep); v], mkPstate (n + 1) l true :: r)
    end.
  (** addValue, addNull (JsonPrinter.cpp:301-320). *)
  Definition js_int (_ : ity) (z : Z) : writer jstate := js_value (WrVal (int_dec z)).
  Definition js_bool (b : bool) : writer jstate := js_value (WrVal (if b then bs "true" else bs "false")).
  Definition js_str (t : bytes) : writer jstate := js_value (Wr (34 :: escapeString t ++ [34])).
  Definition js_null : writer jstate := js_value (Wr (bs "null")).

  (** ** Sizes (JsonPrinter.h:79-96) *)
  (** getOutputSizeInt (JsonPrinter.h:100-104): the number of decimal digits.  Simplified: log10 is computed in double;
      rounding for values above 2^53 is not modelled. *)
  Definition size_int (n : Z) : Z := if n =? 0 then 1 else Z.of_nat (length (nat_dec n)).
  (** std::abs of the smallest value is undefined; a short is converted to int first. *)
  Definition js_szInt (i : ity) (z : Z) : outcome Z :=
    if z <? 0 then
      if (z =? i_min i) && negb (i_bits i =? 16) then UB else Ok (size_int (- z) + 1)
    else Ok (size_int z).
  Definition js_szMap (n : Z) : Z := 2 + n * 2 - (if n =? 0 then 0 else 1).
  Definition js_szArray (n : Z) : Z := 2 + n * 1 - (if n =? 0 then 0 else 1).

  Definition json_printer : printer_ops jstate := {|
    pr_openMap := fun _ => js_open LvMap 123;
    pr_closeMap := js_closeMap;
    pr_openArray := fun _ => js_open LvArray 91;
    pr_closeArray := js_closeArray;
    pr_key := js_key;
    pr_int := js_int;
    pr_bool := js_bool;
    pr_str := js_str;
    pr_null := js_null;
    pr_usesSize := false;
    pr_push := fun _ s => s;
    pr_szMap := fun n _ => js_szMap n;
    pr_szArray := fun n _ => js_szArray n;
    pr_szMember := fun m _ => Z.of_nat (length m) + 2;
    pr_szNull := fun _ => 4;
    pr_szInt := fun i z _ => js_szInt i z;
    pr_szBool := fun b _ => if b then 4 else 5;
    pr_szStr := fun s _ => Z.of_nat (length s) + 2
  |}.
End Json.
