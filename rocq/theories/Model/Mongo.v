(** The types of MongoUtility.h and MongoUtilityObjectId.h: ObjectID, UTCDateTime and BsonTimeStamp. *)
From Coq Require Import ZArith String List Bool.
From Verif Require Import Model.Base Model.Source Model.Number Model.Types Model.Printer Model.Binary Model.BsonPrinter Model.BsonParser.
Import ListNotations.
Open Scope Z_scope.

(** ** Hexadecimal text *)
(** The digits that num_put writes for an unsigned value with std::hex; [n] bounds their number. *)
Definition hex_char (d : Z) : Z := if d <? 10 then 48 + d else 87 + d.
Fixpoint hex_loop (n : nat) (z : Z) (acc : bytes) : bytes :=
  match n with
  | O => acc
  | S n =>
      let acc := hex_char (z mod 16) :: acc in
      if z / 16 =? 0 then acc else hex_loop n (z / 16) acc
  end.
(** std::hex, setfill('0'), setw([w]) and an integer of [bits] bits: a negative value is converted to unsigned first. *)
Definition put_hex (w : nat) (bits z : Z) : bytes :=
  let d := hex_loop 16 (z mod 2 ^ bits) [] in
  repeat 48 (w - length d) ++ d.

(** ** ObjectID (MongoUtilityObjectId.h:25-62) *)
Record oid := mkOid {
  o_time : Z;        (* std::int32_t timestamp *)
  o_random : Z;      (* std::int64_t random *)
  o_counter : Z;     (* std::int32_t counter *)
  o_str : bytes      (* mutable std::string str *)
}.
(** ObjectID(timestamp, random, counter) (MongoUtility.cpp:13-17). *)
Definition oid_make (t r c : Z) : oid := mkOid t r c [].

(** operator<<(std::ostream&) (MongoUtility.h:304-313) on a std::stringstream with the default flags. *)
Definition oid_put (o : oid) : bytes := put_hex 8 32 (o_time o) ++ put_hex 10 64 (o_random o) ++ put_hex 6 32 (o_counter o).
(** to_string (MongoUtilityObjectId.h:43-51): the text and the object with its str. *)
Definition oid_to_string (o : oid) : bytes * oid :=
  match o_str o with
  | [] => (oid_put o, mkOid (o_time o) (o_random o) (o_counter o) (oid_put o))
  | s => (s, o)
  end.

(** stream >> c on a std::stringstream with this text left: [None] for a variable that was never set; it keeps its value
    when there is nothing to read. *)
Definition get_char (c : option Z) (s : bytes) : option Z * bytes :=
  match snd (skip_space s) with
  | [] => (c, [])
  | x :: r => (Some x, r)
  end.
(** The digit's value (MongoUtility.h:344): anything but 0-9 and a-f counts from 'A'. *)
Definition hex_of (x : Z) : Z :=
  let c := schar x in
  if (48 <=? c) && (c <=? 57) then c - 48 else if (97 <=? c) && (c <=? 102) then c - 97 + 10 else c - 65 + 10.
(** The loop of readNumberMaxLenFromStream (MongoUtility.h:335-347) in std::size_t; [first]: loop == 0. *)
Fixpoint read_hex (n : nat) (first dash : bool) (c : option Z) (result : Z) (s : bytes) : outcome (Z * bytes) :=
  match n with
  | O => Ok (result, s)
  | S n =>
      let '(c, s) := get_char c s in
      match c with
      | None => UB
      | Some x =>
          let '(c, s) := if (x =? 45) && first && dash then get_char (Some x) s else (Some x, s) in
          match c with
          | None => UB
          | Some x => read_hex n false dash (Some x) ((result * 16 + hex_of x) mod 2 ^ 64) s
          end
      end
  end.
(** operator>>(std::istream&) (MongoUtility.h:349-356) on the text [s]; str stays. *)
Definition oid_get (o : oid) (s : bytes) : outcome (oid * bytes) :=
  do (t, s) <- read_hex 8 true false None 0 s;
  do (r, s) <- read_hex 10 true true None 0 s;
  do (c, s) <- read_hex 6 true true None 0 s;
  Ok (mkOid (i_wrap IInt t) (i_wrap ILong r) (i_wrap IInt c) (o_str o), s).
(** ObjectID(std::string const&) (MongoUtility.cpp:20-24): the members are set before they are read. *)
Definition oid_parse (s : bytes) : outcome oid := do (o, _) <- oid_get (oid_make 0 0 0) s; Ok o.

(** operator== and operator< (MongoUtilityObjectId.h:54-55). *)
Definition oid_eqb (a b : oid) : bool := (o_time a =? o_time b) && (o_random a =? o_random b) && (o_counter a =? o_counter b).
Definition oid_ltb (a b : oid) : bool :=
  (o_time a <? o_time b) || ((o_time a =? o_time b) &&
  ((o_random a <? o_random b) || ((o_random a =? o_random b) && (o_counter a <? o_counter b)))).

(** operator<<(BsonPrinter&) (MongoUtility.h:285-292). *)
Definition oid_bson (o : oid) : bytes := writeBE 4 4 (o_time o) ++ writeBE 5 8 (o_random o) ++ writeBE 3 4 (o_counter o).
(** operator>>(BsonParser&) (MongoUtility.h:315-322). *)
Definition oid_from (o : oid) (b : bparser) : outcome (oid * bparser) :=
  do (t, b) <- b_readBE 4 4 true b;
  do (r, b) <- b_readBE 5 8 true b;
  do (c, b) <- b_readBE 3 4 true b;
  Ok (mkOid t r c (o_str o), b).

(** getNextCounter (MongoUtilityObjectId.h:39-42): the value and the next classCounter, an int. *)
Definition next_counter (cc : Z) : outcome (Z * Z) := if cc + 1 <? 2 ^ 31 then Ok (Z.rem cc 4095, cc + 1) else UB.
(** classCounter at the start (MongoUtility.cpp:6-10); [rand]: what std::rand() gives. *)
Definition class_counter (rand : Z) : outcome Z := if 32769 + rand <? 2 ^ 31 then Ok (32769 + rand) else UB.
(** ObjectID() (MongoUtilityObjectId.h:52): the time in seconds [now] and what std::rand() gives. *)
Definition oid_new (now rand cc : Z) : outcome (oid * Z) :=
  do (c, cc) <- next_counter cc;
  Ok (oid_make (i_wrap IInt now) rand c, cc).
(** A run of constructions. *)
Fixpoint oid_run (l : list (Z * Z)) (cc : Z) : outcome (list oid * Z) :=
  match l with
  | [] => Ok ([], cc)
  | (now, rand) :: l =>
      do (o, cc) <- oid_new now rand cc;
      do (os, cc) <- oid_run l cc;
      Ok (o :: os, cc)
  end.

(** ** UTCDateTime (MongoUtility.h:239-258) is its std::int64_t. *)
(** operator<<(BsonPrinter&) and operator>>(BsonParser&) (MongoUtility.h:358-363, 381-386). *)
Definition date_bson (d : Z) : bytes := writeLE 8 8 d.
Definition date_from (b : bparser) : outcome (Z * bparser) := b_readLE 8 b.

(** ** BsonTimeStamp (MongoUtility.h:260-283) *)
Record stamp := mkStamp { t_inc : Z; t_time : Z (* std::uint32_t *) }.
(** BsonTimeStamp(std::time_t, int) (MongoUtility.cpp:32-35). *)
Definition stamp_make (time inc : Z) : stamp := mkStamp (i_wrap IUInt inc) (i_wrap IUInt time).
(** operator< (MongoUtility.h:272). *)
Definition stamp_ltb (a b : stamp) : bool := (t_inc a <? t_inc b) || ((t_inc a =? t_inc b) && (t_time a <? t_time b)).
(** asDateTime (MongoUtility.cpp:38-41): the product is an unsigned int. *)
Definition stamp_date (s : stamp) : Z := i_wrap IUInt (t_time s * 1000).
(** operator<<(BsonPrinter&) and operator>>(BsonParser&) (MongoUtility.h:401-407, 430-436). *)
Definition stamp_bson (s : stamp) : bytes := writeBE 4 4 (i_wrap IInt (t_inc s)) ++ writeBE 4 4 (i_wrap IInt (t_time s)).
Definition stamp_from (b : bparser) : outcome (stamp * bparser) :=
  do (i, b) <- b_readBE 4 4 true b;
  do (t, b) <- b_readBE 4 4 true b;
  Ok (mkStamp (i_wrap IUInt i) (i_wrap IUInt t), b).
(** operator<<(std::ostream&) (MongoUtility.h:418-428): the width counts for the time only. *)
Definition stamp_put (s : stamp) : bytes := [34] ++ put_hex 8 32 (t_time s) ++ [45] ++ put_hex 0 32 (t_inc s) ++ [34].

(** num_get for an unsigned int with std::hex.  The stream is its text, or [None] when it has failed: optional sign,
    optional 0x, digits; without digits the result is 0, too large numbers give the maximum, and the stream fails. *)
Definition is_hex (c : Z) : bool := is_digit c || ((97 <=? c) && (c <=? 102)) || ((65 <=? c) && (c <=? 70)).
Fixpoint span_hex (s : bytes) : bytes * bytes :=
  match s with
  | c :: r => if is_hex c then let '(d, r') := span_hex r in (c :: d, r') else ([], s)
  | [] => ([], [])
  end.
Definition hex_value (ds : bytes) : Z := fold_left (fun a d => 16 * a + hex_of d) ds 0.
Definition get_hex32 (old : Z) (s : option bytes) : Z * option bytes :=
  match s with
  | None => (old, None)
  | Some s =>
      match snd (skip_space s) with
      | [] => (old, None)
      | c :: r =>
          let '(neg, s) := if c =? 45 then (true, r) else if c =? 43 then (false, r) else (false, c :: r) in
          let s := match s with x :: y :: r => if (x =? 48) && ((y =? 120) || (y =? 88)) then r else s | _ => s end in
          let '(ds, r) := span_hex s in
          match ds with
          | [] => (0, None)
          | _ => let v := hex_value ds in
                 if 2 ^ 32 <=? v then (2 ^ 32 - 1, None)
                 else ((if neg : bool then (- v) mod 2 ^ 32 else v), Some r)
          end
      end
  end.
(** stream >> c for a character that is not looked at. *)
Definition skip_char (s : option bytes) : option bytes :=
  match s with
  | None => None
  | Some s => match snd (skip_space s) with [] => None | _ :: r => Some r end
  end.
(** operator>>(std::istream&) (MongoUtility.h:449-454) into [d]. *)
Definition stamp_get (d : stamp) (s : option bytes) : stamp * option bytes :=
  let s := skip_char s in
  let '(t, s) := get_hex32 (t_time d) s in
  let s := skip_char s in
  let '(i, s) := get_hex32 (t_inc d) s in
  (mkStamp i t, skip_char s).

(** ** As members of a document *)
(** DefaultCustomSerializer::writeCustomOld for BSON (CustomSerialization.tpp:24-29) with the type bytes and sizes of
    FixedSizeStreamableObjectSerializer (MongoUtility.h:148-166). *)
Definition write_custom (type : Z) (size : Z) (b : bytes) : writer bprinter := w_then (writeKey type (Some size)) (w_put b).
Definition write_oid (o : oid) : writer bprinter := write_custom 7 12 (oid_bson o).
Definition write_date (d : Z) : writer bprinter := write_custom 9 8 (date_bson d).
Definition write_stamp (s : stamp) : writer bprinter := write_custom 17 8 (stamp_bson s).
(** ParserInterface::tellg (ParserInterface.h:214-223), StringInput::tellg (StringInput.h:66-69): -1 for a stream that is not
    good, which then fails. *)
Definition src_tellg (s : src) : Z * src :=
  match s_kind s with
  | StrIn => (Z.of_nat (s_pos s), s)
  | Strm => if strm_good s then (Z.of_nat (s_pos s), s) else (-1, set_good s false)
  end.
(** DefaultCustomSerializer::readCustomOld for BSON (CustomSerialization.tpp:47-54).  The type byte is not looked at. *)
Definition read_custom {A} (f : bparser -> outcome (A * bparser)) (b : bparser) : outcome (A * bparser) :=
  let '(pos, s) := src_tellg (b_src b) in
  do (a, b) <- f (bset_src b s);
  let '(pos', s) := src_tellg (b_src b) in
  do b <- b_use (pos' - pos) (bset_src b s);
  Ok (a, b).
