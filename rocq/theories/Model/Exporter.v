(** Exporter: a whole export to JSON. *)
From Coq Require Import ZArith List Bool.
From Verif Require Import Model.Base Model.Number Model.Printer Model.JsonPrinter Model.Types Model.Serializer.
Import ListNotations.
Open Scope Z_scope.

(** What the caller of [out << jsonExporter(value, config)] observes (ExporterBase::inserter, Exporter.h:38-79).
    [Exported b]: no exception.  For a stream [b] is what was appended; for a string it is its new value.
    [ExportFailed raised]: an exception was thrown inside and the output was put into the failed state; it reached the
    caller iff [raised], otherwise the result is false.
    Simplified: a stream is good before the export and stays good, and has the default formatting flags and locale;
    the exceptions of the modelled code all derive from std::exception and none is a DepricatedIssue. *)
Inductive export_result :=
| Exported (out : bytes)
| ExportFailed (raised : bool)
| ExportUB.

Definition export_end (c : fconfig) (r : outcome bytes) : export_result :=
  match r with
  | Ok b => Exported b
  | Throw => ExportFailed (negb (pf_catch c))
  | _ => ExportUB
  end.

(** SerializerForBlock for the root value, from a fresh state of the printer. *)
Definition json_pass (c : fconfig) (t : ty) (v : val) : outcome (list chunk) :=
  do (out, _) <- sf_print (ser (json_printer c) (pf_marker c) t) v js_init; Ok out.

(** Serializer::print for a stream: no preflight (Serialize.tpp:1318-1323, PrinterInterface.cpp:6-15). *)
Definition json_to_stream (c : fconfig) (t : ty) (v : val) : outcome bytes :=
  do out <- json_pass c t v; Ok (chunks_text out).
(** Serializer::print for a string (Serialize.tpp:1306-1317): a preflight pass, reserveSize, reset, a second pass, and
    finalizePrint in the destructor (Serialize.h:297-303, StringOutput.h:84-96). *)
Definition json_to_string (c : fconfig) (t : ty) (v : val) : outcome bytes :=
  do out1 <- json_pass c t v;
  let room := preflight (negb (pf_exact c)) out1 in
  do out2 <- json_pass c t v;
  copy_chunks room out2.

Inductive okind := ToStream | ToString.
Definition json_export (c : fconfig) (k : okind) (t : ty) (v : val) : export_result :=
  export_end c (match k with ToStream => json_to_stream c t v | ToString => json_to_string c t v end).

(** jsonStreanSize (JsonThor.h:56-62); the configuration is fixed and poly is true. *)
Definition pf_stream : fconfig := mkPf OStream (pf_marker pf_default) true 0 0 false.
Definition jsonStreanSize (t : ty) (v : val) : outcome Z :=
  sf_size (ser (json_printer pf_stream) (pf_marker pf_stream) t) true v js_init.
