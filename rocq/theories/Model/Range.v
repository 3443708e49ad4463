(** Exporting a range that is no container (Exporter.h:107-163).  Simplified: a range is the list of its elements.  jsonExporter
    and bsonExporter take the range by value and the exporter keeps a reference to that parameter (JsonThor.h:46-52, BsonThor.h:99-104);
    the model assumes that the parameter lives until the end of the statement, as in the Itanium ABI. *)
From Coq Require Import ZArith List Bool.
From Verif Require Import Model.Base Model.Number Model.Printer Model.JsonPrinter Model.Types Model.Serializer Model.Exporter Model.BsonPrinter Model.BsonDoc.
Import ListNotations.
Open Scope Z_scope.

(** StringOutput::write before the preflight pass (StringOutput.h:24-45): [preFlight] is false and [current] is null, so that it is
    undefined to write anything. *)
Definition unreserved (out : list chunk) : outcome unit := match chunks_text out with [] => Ok tt | _ => UB end.

(** ExporterRange::doInserter (Exporter.h:116-127) with a JsonPrinter.  The openDoc and closeDoc of the Serializer are empty.
    On a string the bracket is written before the first element starts the preflight pass (Serialize.tpp:1306-1317).  Simplified:
    what would follow if the bracket were empty is not modelled. *)
Definition range_json (c : fconfig) (k : okind) (t : ty) (l : list val) : export_result :=
  let P := json_printer c in
  export_end c
    (match k with
     | ToStream =>
         do (out, _) <- w_then (pr_openArray P 0) (w_then (w_all (map (sf_print (ser P (pf_marker c) t)) l)) (pr_closeArray P)) js_init;
         Ok (chunks_text out)
     | ToString =>
         do (out, _) <- pr_openArray P 0 js_init;
         do _ <- unreserved out; Ok []
     end).

(** ExporterRangeBson::doInserter (Exporter.h:140-162): the size is that of the elements, at the level of an array.  closeDoc and
    finalizePrint are called twice, which changes nothing for a stream and an array. *)
Definition range_size (P : printer_ops bprinter) (marker : bytes) (t : ty) (l : list val) (s : bprinter) : outcome Z :=
  do z <- sum_sizes (map (fun v => sf_size (ser P marker t) false v (pr_push P false s)) l);
  Ok (pr_szArray P (zlen l) s + z).
Definition range_bson (c : fconfig) (k : okind) (ids : option (nat -> bytes)) (t : ty) (l : list val) : bson_result :=
  let P := bson_printer false ids in
  match (do z <- range_size P (pf_marker c) t l bp_init;
         match k with
         | ToStream =>
             do (out, s) <- w_then (pr_openArray P z) (w_then (w_all (map (sf_print (ser P (pf_marker c) t)) l)) (pr_closeArray P)) bp_init;
             Ok (chunks_text (out ++ bson_close BArray), bp_ids s)
         | ToString =>
             do (out, s) <- pr_openArray P z bp_init;
             do _ <- unreserved out; Ok ([], bp_ids s)
         end) with
  | Ok (b, n) => BExported b n
  | Throw => BExportFailed (negb (pf_catch c))
  | _ => BExportUB
  end.
