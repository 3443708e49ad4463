(** Classes declared with ThorsAnvil_MakeTraitCustomSerialize (Traits.h:741-756) in BSON.

    The types of Model/Types.v have no constructor for them.  [custom i]: the serializer of the class that stands behind [TInt i], if there is one; [VInt z]: the
    object with the number [z]. *)
From Coq Require Import ZArith String List Bool.
From Verif Require Import Model.Base Model.Source Model.Number Model.ParserInterface Model.Types Model.Printer Model.JsonPrinter Model.Serializer Model.Exporter
  Model.Importer Model.Binary Model.BsonPrinter Model.BsonParser Model.BsonDoc Model.BsonFloat Model.Mongo.
Import ListNotations.
Open Scope Z_scope.

(** What a class derived from DefaultCustomSerializer overrides (CustomSerialization.h:79-97): getBsonByteMark; getPrintSizeBson, which throws if it is not
    overridden or as it likes; what writeBson writes, if it does not throw; readBson.  Simplified: readBson does not look at the object it fills. *)
Record serializer := mkSerializer {
  z_mark : Z;
  z_size : Z -> option Z;
  z_put : Z -> option bytes;
  z_get : bparser -> outcome (Z * bparser)
}.
(** DefaultCustomSerializer<T> with nothing overridden (CustomSerialization.h:92, CustomSerialization.tpp:106-145). *)
Definition unimplemented : serializer := mkSerializer 0 (fun _ => None) (fun _ => None) (fun _ => Throw).

Section Serialize.
  Context (custom : ity -> option serializer).
  (** ** Writing *)
  (** CustomSerializerBreakerFix::getPrintSize (CustomSerialization.h:60-75) for a BsonPrinter; projections are not looked at. *)
  Definition bs_szSerial (proj : bool) (i : ity) (z : Z) (s : bprinter) : outcome Z :=
    match custom i with
    | Some o => match z_size o z with Some n => Ok n | None => Throw end
    | None => bs_szInt proj i z s
    end.
  (** SerializerForBlock<Custom_Serialize>::printMembers (Serialize.tpp:1010-1015), writeCustomOld (CustomSerialization.tpp:24-29). *)
  Definition bs_serial (proj : bool) (i : ity) (z : Z) : writer bprinter := fun s =>
    match custom i with
    | Some o =>
        match z_size o z with
        | Some n =>
            match z_put o z with
            | Some d => write_custom (z_mark o) n d s
            | None => Throw
            end
        | None => Throw
        end
    | None => bs_int proj i z s
    end.
  Definition bser_printer (proj : bool) (ids : option (nat -> bytes)) : printer_ops bprinter :=
    bson_with (bs_serial proj) (bs_szSerial proj) (bson_printer proj ids).
  Definition bser_export (c : fconfig) (k : okind) (proj : bool) (ids : option (nat -> bytes)) (t : ty) (v : val) : bson_result :=
    export_with (bser_printer proj ids) c k proj t v.
  Definition bserGetPrintSize (c : fconfig) (ids : option (nat -> bytes)) : ty -> val -> outcome Z := getPrintSize_with (bser_printer false ids) c.

  (** ** Reading *)
  (** DeSerializationForBlock<Custom_Serialize>::scanObject (Serialize.tpp:331-336), readCustom (CustomSerialization.h:39-50), which takes the token as for every value,
      and readCustomOld (CustomSerialization.tpp:47-54). *)
  Definition bser_ops : parser_ops bparser :=
    let o := bson_ops in
    mkOps bparser (op_next o) (op_key o) (fun i => match custom i with Some c => read_custom (z_get c) | None => bson_int i end)
      (op_bool o) (op_str o) (op_null o) (op_ignore o) (op_ignoreMap o) (op_ignoreArr o).
  Definition bser_imports := imports_with bser_ops.
  Definition bser_rejects := rejects_with bser_ops.
End Serialize.
