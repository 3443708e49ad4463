(** Classes declared with ThorsAnvil_MakeTraitCustom in BSON: the text of operator<< is written as binary data.

    As in Model/Custom.v, [custom i] holds the operators of the class that stands behind [TInt i]. *)
From Coq Require Import ZArith String List Bool.
From Verif Require Import Model.Base Model.Source Model.Number Model.ParserInterface Model.Types Model.Printer Model.JsonPrinter Model.Serializer Model.Exporter
  Model.Importer Model.Float Model.AnyBlock Model.Custom Model.Binary Model.BsonPrinter Model.BsonParser Model.BsonDoc Model.BsonFloat.
Import ListNotations.
Open Scope Z_scope.

Section Custom.
  (** [size i]: the function size() of the member type ThorsSerializerCustomObjectSize, if the class has one.  [dbl_text b]:
      std::to_string of the double with the pattern [b]. *)
  Context (custom : ity -> option operators) (size : ity -> option (Z -> Z)) (dbl_text : Z -> bytes).

  (** ** Writing *)
  (** BsonPrinter::addRawValue (BsonPrinter.h:88), writeBinary (BsonPrinter.cpp:264-270). *)
  Definition writeBinary (t : bytes) : writer bprinter :=
    let n := Z.of_nat (length t) in
    w_then (writeKey 5 (Some (4 + 1 + n))) (w_put (put_size n ++ [128] ++ t)).
  (** getPrintSize (Traits.h:733-736), tryGetSizeFromSerializeType (ThorsSerializerUtil.h:262-283), getSizeRaw (BsonPrinter.h:113): without
      a size() it throws. *)
  Definition bs_szCustom (proj : bool) (i : ity) (z : Z) (s : bprinter) : outcome Z :=
    match custom i with
    | Some _ => match size i with Some f => Ok (bs_size proj (4 + 1 + f z)) | None => Throw end
    | None => bs_szInt proj i z s
    end.
  (** SerializerForBlock<Custom_Depricated>::printMembers (Serialize.tpp:982-992).  Simplified: the size is asked for at every place; in C++
      only when the Serializer is the root, and otherwise the container was asked for its size before. *)
  Definition bs_custom (proj : bool) (i : ity) (z : Z) : writer bprinter := fun s =>
    match custom i with
    | Some o => do _ <- bs_szCustom proj i z s; unless_projection proj (writeBinary (o_put o z)) s
    | None => bs_int proj i z s
    end.
  Definition bcust_printer (proj : bool) (ids : option (nat -> bytes)) : printer_ops bprinter :=
    bson_with (bs_custom proj) (bs_szCustom proj) (bson_printer proj ids).
  Definition bcust_export (c : fconfig) (k : okind) (proj : bool) (ids : option (nat -> bytes)) (t : ty) (v : val) : bson_result :=
    export_with (bcust_printer proj ids) c k proj t v.
  Definition bcustGetPrintSize (c : fconfig) (ids : option (nat -> bytes)) : ty -> val -> outcome Z := getPrintSize_with (bcust_printer false ids) c.

  (** ** Reading *)
  (** readString (BsonParser.cpp:366-383) behind the character that is there already (BsonParser.cpp:438-443): a length of zero
      takes this character away, and with -1 the data would be read to a place behind the end of the string. *)
  Definition raw_string (b : bparser) : outcome (bytes * bparser) :=
    do (z, b) <- b_readLE 4 b;
    do b <- b_use 4 b;
    if z =? -1 then UB
    else if z <? 0 then Throw
    else
      do (got, b) <- b_read (Z.to_nat z) b;
      if src_ok (b_src b) then
        do b <- b_use z b;
        Ok (firstn (Z.to_nat z) (34 :: got ++ repeat 0 (Z.to_nat z - length got)) ++ [34], b)
      else Throw.
  (** readBinary (BsonParser.cpp:391-412).  Simplified: when there are fewer bytes than the length says, a string input does not report it, and
      what an earlier value left in the static buffer stands in their place; this is undefined here. *)
  Definition raw_binary (b : bparser) : outcome (bytes * bparser) :=
    do (z, b) <- b_readLE 4 b;
    do b <- b_use 4 b;
    do (_, b) <- b_read 1 b;
    if src_ok (b_src b) then
      do b <- b_use 1 b;
      if z <? 0 then Throw
      else
        do (got, b) <- b_read (Z.to_nat z) b;
        if src_ok (b_src b) then
          do b <- b_use z b;
          if Nat.eqb (length got) (Z.to_nat z) then Ok (got, b) else UB
        else Throw
    else Throw.
  (** getRawValue (BsonParser.cpp:426-455). *)
  Definition bson_raw (b : bparser) : outcome (bytes * bparser) :=
    match b_type b with
    | 1 => do (d, b) <- readFloat b; Ok (dbl_text d, b)
    | 16 => do b <- b_use 4 b; do (z, b) <- b_readLE 4 b; Ok (int_dec z, b)
    | 18 => do b <- b_use 8 b; do (z, b) <- b_readLE 8 b; Ok (int_dec z, b)
    | 8 => do (x, b) <- bson_bool b; Ok (if x then bs "true" else bs "false", b)
    | 10 => Ok (bs "null", b)
    | 2 => raw_string b
    | 5 => raw_binary b
    | _ => Throw
    end.
  (** DeSerializationForBlock<Custom_Depricated>::scanObject (Serialize.tpp:306-319) after the token, as in Model/Custom.v. *)
  Definition bcust_get (o : operators) (b : bparser) : outcome (Z * bparser) :=
    do (t, b) <- bson_raw b;
    match o_get o t with Some (z, _) => Ok (z, b) | None => Throw end.
  Definition bcust_ops : parser_ops bparser :=
    let o := bson_ops in
    mkOps bparser (op_next o) (op_key o) (fun i => match custom i with Some c => bcust_get c | None => bson_int i end)
      (op_bool o) (op_str o) (op_null o) (op_ignore o) (op_ignoreMap o) (op_ignoreArr o).
  Definition bcust_imports := imports_with bcust_ops.
  Definition bcust_rejects := rejects_with bcust_ops.
End Custom.
