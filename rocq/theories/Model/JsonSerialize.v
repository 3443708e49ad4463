(** Classes declared with ThorsAnvil_MakeTraitCustomSerialize (Traits.h:741-756) in JSON, whose serializer writes an object as one string and reads it from one;
    ObjectID and BsonTimeStamp are such classes.  (A serializer that writes and reads one integer, as that of UTCDateTime, makes the class an integer.)

    As in Model/BsonSerialize.v: [custom i] is the serializer of the class that stands behind [TInt i], if there is one; [VInt z] is the object with the number [z]. *)
From Coq Require Import ZArith String List Bool.
From Verif Require Import Model.Base Model.Source Model.Unicode Model.Number Model.ParserInterface Model.JsonParser Model.Printer Model.JsonPrinter
  Model.Types Model.Deserializer Model.Serializer Model.Importer Model.Exporter Model.Shared Model.Float.
Import ListNotations.
Open Scope Z_scope.

(** [w_put z]: the text that writeJson gives to JsonPrinter::addValue(std::string_view).  [w_get text]: the object that readJson makes of the text that it has from
    JsonParser::getValue(std::string&), or that it throws.  Simplified: writeJson does not throw, and the object afterwards does not depend on the object before. *)
Record text_serializer := mkText { w_put : Z -> bytes; w_get : bytes -> outcome Z }.

Section Serialize.
  Context (custom : ity -> option text_serializer).

  (** DeSerializationForBlock<Custom_Serialize>::scanObject (Serialize.tpp:331-336), readCustom (CustomSerialization.h:39-50), which takes the token as for every value,
      readCustomOld (CustomSerialization.tpp:43-45). *)
  Definition jser_get (get : bytes -> outcome Z) (str : jparser -> outcome (bytes * jparser)) (p : jparser) : outcome (Z * jparser) :=
    do (s, p) <- str p;
    do z <- get s;
    Ok (z, p).
  Definition jser_ops (fuel : nat) (conv : bool) : parser_ops jparser :=
    let o := json_ops fuel conv in
    mkOps jparser (op_next o) (op_key o)
      (fun i => match custom i with Some c => jser_get (w_get c) (op_str o) | None => op_int o i end)
      (op_bool o) (op_str o) (op_null o) (op_ignore o) (op_ignoreMap o) (op_ignoreArr o).
  (** An import as in Model/Importer.v into a type with such classes. *)
  Definition jser_try (fuel : nat) (cfg : pconfig) (t : ty) (v : val) (s : src) : outcome (val * src) :=
    json_run fuel cfg (d_parse (deser (jser_ops fuel (pc_conv cfg)) fuel (pc_strict cfg) (pc_marker cfg) t) v) s.
  (** The import succeeds with [v']; it throws. *)
  Definition jser_imports (cfg : pconfig) (k : skind) (t : ty) (v : val) (text : bytes) (v' : val) : Prop :=
    exists N, forall fuel, (N <= fuel)%nat -> exists s, jser_try fuel cfg t v (src_init k text) = Ok (v', s) /\ src_ok s = true.
  Definition jser_rejects (cfg : pconfig) (k : skind) (t : ty) (v : val) (text : bytes) : Prop :=
    exists N, forall fuel, (N <= fuel)%nat -> jser_try fuel cfg t v (src_init k text) = Throw.

  (** SerializerForBlock<Custom_Serialize>::printMembers (Serialize.tpp:1010-1015), writeCustomOld (CustomSerialization.tpp:18-22), addValue of a string
      ([js_str] of Model/JsonPrinter.v).  JSON does not use sizes. *)
  Definition jser_chunk (i : ity) (z : Z) : chunk :=
    match custom i with Some o => Wr (34 :: escapeString (w_put o z) ++ [34]) | None => WrVal (int_dec z) end.
  (** Exports, as in Model/Exporter.v. *)
  Definition jser_pass (c : fconfig) (t : ty) (v : val) : outcome (list chunk) :=
    do (out, _) <- sf_print (ser (with_num jser_chunk c) (pf_marker c) t) v js_init; Ok out.
  Definition jser_export (c : fconfig) (k : okind) (t : ty) (v : val) : export_result :=
    export_end c
      match k with
      | ToStream => do out <- jser_pass c t v; Ok (chunks_text out)
      | ToString => do out1 <- jser_pass c t v; do out2 <- jser_pass c t v; copy_chunks (preflight (negb (pf_exact c)) out1) out2
      end.
End Serialize.
