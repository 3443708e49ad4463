(** Whole exports to and imports from BSON (BsonThor.h). *)
From Coq Require Import ZArith List Bool.
From Verif Require Import Model.Base Model.Source Model.Number Model.ParserInterface Model.Types Model.Deserializer
  Model.Importer Model.Printer Model.JsonPrinter Model.Serializer Model.Exporter Model.BsonPrinter Model.BsonParser.
Import ListNotations.
Open Scope Z_scope.

(** BsonBaseTypeGetter<T>::value (BsonThor.h:32-77). *)
Fixpoint bson_root (t : ty) : bcont :=
  match t with
  | TStruct _ _ _ | TMap _ _ | TPoly _ _ => BMap
  | TSeq _ _ | TArr _ _ | TTup _ | TOpt _ => BArray
  | TPtr t => bson_root t
  | _ => BValue
  end.
(** BsonBaseTypeGetter<T>::validate (BsonThor.h:67-76). *)
Definition null_root (t : ty) (v : val) : bool :=
  match t, v with
  | TPtr _, VPtr None | TPoly _ _, VPtr None => true
  | _, _ => false
  end.

(** closeDoc (BsonPrinter.cpp:163-172). *)
Definition bson_close (root : bcont) : list chunk := match root with BValue => [Wr [0]] | _ => [] end.

(** One pass over the root value, and closeDoc.  [proj]: the value is handed over in a Projection (BsonThor.h:149-182),
    which is a Reference, so that the root counts as an array.  Simplified: a Projection is only modelled around the root
    value.  [P]: the printer; see Model/BsonFloat.v for another one than [bson_printer]. *)
Definition pass_with (P : printer_ops bprinter) (proj : bool) (marker : bytes) (t : ty) (v : val) (s : bprinter)
  : outcome (list chunk * bprinter) :=
  do (out, s) <- sf_print (ser P marker t) v s;
  Ok (out ++ bson_close (if proj then BArray else bson_root t), s).

(** Serializer::print (Serialize.tpp:1306-1323) to a stream and to a string.  BsonPrinter does not override reset(), so
    the second pass goes on with the printer that the first has left.  The result: what is written, and how many ids were
    added to the IdStore. *)
Definition to_stream_with (P : printer_ops bprinter) (proj : bool) (marker : bytes) (t : ty) (v : val) : outcome (bytes * nat) :=
  do (out, s) <- pass_with P proj marker t v bp_init;
  Ok (chunks_text out, bp_ids s).
Definition to_string_with (P : printer_ops bprinter) (estimate proj : bool) (marker : bytes) (t : ty) (v : val) : outcome (bytes * nat) :=
  do (out1, s) <- pass_with P proj marker t v bp_init;
  do (out2, s) <- pass_with P proj marker t v s;
  do b <- copy_chunks (preflight estimate out1) out2;
  Ok (b, bp_ids s).

(** What the caller of [out << bsonExporter(value, config, ids)] observes (BsonThor.h:91-98, Exporter.h:38-79).  The
    result is that of a JSON export, and the number of ids added to the IdStore.  A null pointer is refused by bsonExporter
    itself, so that this exception always reaches the caller. *)
Inductive bson_result :=
| BExported (out : bytes) (ids : nat)
| BExportFailed (raised : bool)
| BExportUB.
Definition export_with (P : printer_ops bprinter) (c : fconfig) (k : okind) (proj : bool) (t : ty) (v : val) : bson_result :=
  if negb proj && null_root t v then BExportFailed true
  else
    match (match k with
           | ToStream => to_stream_with P proj (pf_marker c) t v
           | ToString => to_string_with P (negb (pf_exact c)) proj (pf_marker c) t v
           end) with
    | Ok (b, n) => BExported b n
    | Throw => BExportFailed (negb (pf_catch c))
    | _ => BExportUB
    end.
Definition bson_export (c : fconfig) (k : okind) (proj : bool) (ids : option (nat -> bytes)) (t : ty) (v : val) : bson_result :=
  export_with (bson_printer proj ids) c k proj t v.

(** bsonGetPrintSize (BsonThor.h:134-142). *)
Definition getPrintSize_with (P : printer_ops bprinter) (c : fconfig) (t : ty) (v : val) : outcome Z :=
  if null_root t v then Throw
  else sf_size (ser P (pf_marker c) t) false v bp_init.
Definition bsonGetPrintSize (c : fconfig) (ids : option (nat -> bytes)) : ty -> val -> outcome Z :=
  getPrintSize_with (bson_printer false ids) c.

(** Importer::extract (Importer.h:32-99) with a BsonParser, see Model/Importer.v.  [P]: the parser; see Model/BsonFloat.v for
    another one than [bson_ops]. *)
Definition try_with (P : parser_ops bparser) (fuel : nat) (cfg : pconfig) (t : ty) (v : val) (s : src) : outcome (val * src) :=
  do (tk, p) <- getToken P (pst_init (b_init (bson_root t) s));
  match tk with
  | TokDocStart =>
      do (v', p) <- d_parse (deser P fuel (pc_strict cfg) (pc_marker cfg) t) v p;
      do s1 <- check_trailing (pc_noTrailing cfg) (b_src (ps_impl p));
      do (tk, p) <- getToken P (mkPst (bset_src (ps_impl p) s1) (ps_pb1 p) (ps_pb2 p));
      match tk with
      | TokDocEnd => Ok (v', b_src (ps_impl p))
      | _ => Throw
      end
  | _ => Throw
  end.
Definition bson_try : nat -> pconfig -> ty -> val -> src -> outcome (val * src) := try_with bson_ops.
Definition extract_with (P : parser_ops bparser) (fuel : nat) (cfg : pconfig) (t : ty) (v : val) (s : src) : import_result :=
  match try_with P fuel cfg t v s with
  | Ok (v', s') => Returned v' s'
  | Throw => Failed (negb (pc_catch cfg))
  | UB => ImpUB
  | Hang => ImpHang
  end.
Definition bson_extract : nat -> pconfig -> ty -> val -> src -> import_result := extract_with bson_ops.

(** ** Observations, as for JSON (Model/Importer.v) *)
Definition imports_with (P : parser_ops bparser) (cfg : pconfig) (k : skind) (t : ty) (v : val) (text : bytes) (v' : val) (rest : bytes) : Prop :=
  exists N, forall fuel, (N <= fuel)%nat ->
    exists s, extract_with P fuel cfg t v (src_init k text) = Returned v' s /\ src_ok s = true /\ s_rest s = rest.
Definition rejects_with (P : parser_ops bparser) (cfg : pconfig) (k : skind) (t : ty) (v : val) (text : bytes) : Prop :=
  exists N, forall fuel, (N <= fuel)%nat -> failure (extract_with P fuel cfg t v (src_init k text)).
Definition undefined_with (P : parser_ops bparser) (cfg : pconfig) (k : skind) (t : ty) (v : val) (text : bytes) : Prop :=
  exists N, forall fuel, (N <= fuel)%nat -> extract_with P fuel cfg t v (src_init k text) = ImpUB.
Definition bson_imports := imports_with bson_ops.
Definition bson_rejects := rejects_with bson_ops.
Definition bson_undefined := undefined_with bson_ops.
Definition bson_never_ends (cfg : pconfig) (k : skind) (t : ty) (v : val) (text : bytes) : Prop :=
  forall fuel, bson_extract fuel cfg t v (src_init k text) = ImpHang.
