(** Classes declared with ThorsAnvil_MakeTraitCustom (Traits.h:726-738, TraitType::Custom_Depricated) in JSON: they are written with
    their operator<< and read with their operator>>.

    The types of Model/Types.v have no constructor for them.  [custom i]: the operators of the class that stands behind [TInt i], if
    [TInt i] stands for such a class and not for an integer; [VInt z] is then the [z]-th object of the class. *)
From Coq Require Import ZArith String List Bool.
From Verif Require Import Model.Base Model.Source Model.Unicode Model.Number Model.ParserInterface Model.JsonParser Model.Printer Model.JsonPrinter
  Model.Types Model.Deserializer Model.Serializer Model.Importer Model.Exporter Model.Shared Model.Float Model.AnyBlock.
Import ListNotations.
Open Scope Z_scope.

(** [o_put z]: the text that operator<< writes to an empty std::stringstream.  [o_get text]: what operator>> does with a std::stringstream
    of this text: [None]: it throws; otherwise the object afterwards, and whether the stream is not in a failed state.  Simplified: operator<<
    does not throw, and the object afterwards does not depend on the object before. *)
Record operators := mkOperators { o_put : Z -> bytes; o_get : bytes -> option (Z * bool) }.

Section Custom.
  Context (custom : ity -> option operators).

  (** DeSerializationForBlock<Custom_Depricated>::scanObject (Serialize.tpp:306-319) after the token: getRawValue (JsonParser.cpp:134-137, 184-187),
      and operator>> of a stream with this text.  The state of the stream is not looked at. *)
  Definition custom_get (fuel : nat) (o : operators) (p : jparser) : outcome (Z * jparser) :=
    do (t, p) <- json_raw fuel p;
    match o_get o t with Some (z, _) => Ok (z, p) | None => Throw end.
  Definition custom_ops (fuel : nat) (conv : bool) : parser_ops jparser :=
    let o := json_ops fuel conv in
    mkOps jparser (op_next o) (op_key o)
      (fun i => match custom i with Some c => custom_get fuel c | None => op_int o i end)
      (op_bool o) (op_str o) (op_null o) (op_ignore o) (op_ignoreMap o) (op_ignoreArr o).

  (** An import as in Model/Importer.v into a type with such classes. *)
  Definition custom_try (fuel : nat) (cfg : pconfig) (t : ty) (v : val) (s : src) : outcome (val * src) :=
    json_run fuel cfg (d_parse (deser (custom_ops fuel (pc_conv cfg)) fuel (pc_strict cfg) (pc_marker cfg) t) v) s.
  (** The import succeeds with [v']; it fails, with an exception or with the input in a failed state. *)
  Definition custom_imports (cfg : pconfig) (k : skind) (t : ty) (v : val) (text : bytes) (v' : val) : Prop :=
    exists N, forall fuel, (N <= fuel)%nat -> exists s, custom_try fuel cfg t v (src_init k text) = Ok (v', s) /\ src_ok s = true.
  Definition custom_rejects (cfg : pconfig) (k : skind) (t : ty) (v : val) (text : bytes) : Prop :=
    exists N, forall fuel, (N <= fuel)%nat -> custom_try fuel cfg t v (src_init k text) = Throw \/
      exists v' s, custom_try fuel cfg t v (src_init k text) = Ok (v', s) /\ src_ok s = false.

  (** SerializerForBlock<Custom_Depricated>::printMembers (Serialize.tpp:978-992) with JsonPrinter::addRawValue (JsonPrinter.cpp:318):
      the text is escaped like that of a string, and has no quotes around it.  JSON does not use sizes. *)
  Definition custom_chunk (i : ity) (z : Z) : chunk :=
    match custom i with Some o => Wr (escapeString (o_put o z)) | None => WrVal (int_dec z) end.
  (** Exports, as in Model/Exporter.v. *)
  Definition custom_pass (c : fconfig) (t : ty) (v : val) : outcome (list chunk) :=
    do (out, _) <- sf_print (ser (with_num custom_chunk c) (pf_marker c) t) v js_init; Ok out.
  Definition custom_export (c : fconfig) (k : okind) (t : ty) (v : val) : export_result :=
    export_end c
      match k with
      | ToStream => do out <- custom_pass c t v; Ok (chunks_text out)
      | ToString => do out1 <- custom_pass c t v; do out2 <- custom_pass c t v; copy_chunks (preflight (negb (pf_exact c)) out1) out2
      end.
End Custom.
