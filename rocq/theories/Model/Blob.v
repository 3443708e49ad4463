(** Binary, Javascript and regular expression values (MongoUtility.h:168-235).  Simplified: a DataInterface holds a
    std::string, a RegExInterface two; resize and the buffer are those of std::string. *)
From Coq Require Import ZArith List Bool.
From Verif Require Import Model.Base Model.Source Model.Number Model.ParserInterface Model.Printer Model.Binary Model.BsonPrinter Model.BsonParser Model.Mongo.
Import ListNotations.
Open Scope Z_scope.

(** std::string::resize(std::size_t) of a std::int32_t: negative numbers become huge ones, and std::length_error is thrown. *)
Definition blob_resize (old : bytes) (z : Z) : outcome bytes :=
  if z <? 0 then Throw else Ok (firstn (Z.to_nat z) old ++ repeat 0 (Z.to_nat z - length old)).
(** BsonParser::read into the start of a buffer: what a short read does not fill stays.  The result of read is not looked
    at. *)
Definition blob_read (buffer : bytes) (n : nat) (b : bparser) : outcome (bytes * bparser) :=
  do (got, b) <- b_read n b;
  Ok (got ++ skipn (length got) buffer, b).

(** BinarySerializer<T, type> (MongoUtility.h:168-191).  getPrintSizeBson, writeBson (the size is converted to
    std::int32_t), readBson into [old]; the subtype is not looked at. *)
Definition binary_size (d : bytes) : Z := 4 + 1 + Z.of_nat (length d).
Definition binary_bson (type : Z) (d : bytes) : bytes := writeLE 4 4 (i_wrap IInt (Z.of_nat (length d))) ++ [type] ++ d.
Definition binary_from (old : bytes) (b : bparser) : outcome (bytes * bparser) :=
  do (z, b) <- b_readLE 4 b;
  do buffer <- blob_resize old z;
  do (_, b) <- b_read 1 b;
  blob_read buffer (Z.to_nat z) b.

(** JavascriptSerializer (MongoUtility.h:193-215).  The sum size + 1 is of type int; a negative size makes the printer read
    a huge number of characters. *)
Definition script_size (d : bytes) : Z := 4 + Z.of_nat (length d) + 1.
Definition script_bson (d : bytes) : outcome bytes :=
  let size := i_wrap IInt (Z.of_nat (length d)) in
  if (size <? 0) || (2 ^ 31 <=? size + 1) then UB else Ok (writeLE 4 4 (size + 1) ++ firstn (Z.to_nat size) d ++ [0]).
Definition script_from (old : bytes) (b : bparser) : outcome (bytes * bparser) :=
  do (z, b) <- b_readLE 4 b;
  do buffer <- blob_resize old z;
  do (buffer, b) <- blob_read buffer (Z.to_nat z) b;
  do d <- blob_resize buffer (z - 1);
  Ok (d, b).

(** RegExSerializer (MongoUtility.h:217-235). *)
Record regex := mkRegex { r_pattern : bytes; r_options : bytes }.
Definition regex_size (r : regex) : Z := Z.of_nat (length (r_pattern r)) + 1 + Z.of_nat (length (r_options r)) + 1.
Definition regex_bson (r : regex) : bytes := r_pattern r ++ [0] ++ r_options r ++ [0].
Definition regex_from (old : regex) (b : bparser) : outcome (regex * bparser) :=
  do (p, s) <- src_readTo (b_src b) (r_pattern old) 0;
  do (o, s) <- src_readTo s (r_options old) 0;
  Ok (mkRegex p o, bset_src b s).

(** As members of a document (CustomSerialization.tpp:24-29) with the type bytes of MongoUtility.h:173, 198, 222. *)
Definition write_binary (type : Z) (d : bytes) : writer bprinter := write_custom 5 (binary_size d) (binary_bson type d).
Definition write_script (d : bytes) : writer bprinter :=
  fun p => do text <- script_bson d; write_custom 13 (script_size d) text p.
Definition write_regex (r : regex) : writer bprinter := write_custom 11 (regex_size r) (regex_bson r).
