(** A Projection as a member of a class (BsonThor.h:149-182).  A Projection around the root: Model/BsonDoc.v. *)
From Coq Require Import ZArith List Bool.
From Verif Require Import Model.Base Model.Types Model.Printer Model.Serializer Model.BsonPrinter.
Import ListNotations.
Open Scope Z_scope.

(** Traits<Projection<T>> (BsonThor.h:155-182), printed by SerializerForBlock<Reference> (Serialize.tpp:1109-1129): the
    ValueGetter switches the printer to projection mode while the value is printed; getPrintSize does not. *)
Definition ser_projection (ids : option (nat -> bytes)) (marker : bytes) (t : ty) : sfun bprinter :=
  mkSv (sf_print (ser (bson_printer true ids) marker t)) (sf_size (ser (bson_printer false ids) marker t)).
(** The class [i] with the one member of type Projection<T> (the case [TStruct] of [ser] in Model/Serializer.v). *)
Definition ser_holder (ids : option (nat -> bytes)) (marker : bytes) (i : sinfo) (t : ty) : sfun bprinter :=
  let P := bson_printer false ids in
  let sm := [ser_projection ids marker t] in
  let members := put_struct P i [false] sm [] in
  let total := total_struct P i [false] sm [] in
  let size := size_struct P marker i total in
  mkS (fun v => map_block P (size false v) (w_then (if si_mark i then put_marker P marker i else w_nothing) (members v)))
      (fun v => map_block P (size true v) (w_then (put_marker P marker i) (members v)))
      members size total.
(** [stream << bsonExporter(holder)]. *)
Definition holder_export (marker : bytes) (i : sinfo) (t : ty) (v : val) : outcome bytes :=
  do (out, s) <- sf_print (ser_holder None marker i t) v bp_init; Ok (chunks_text out).
