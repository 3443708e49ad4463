(** BsonParser (BsonParser.h, BsonParser.cpp). *)
From Coq Require Import ZArith List Bool.
From Verif Require Import Model.Base Model.Source Model.Number Model.ParserInterface Model.Binary Model.BsonPrinter.
Import ListNotations.
Open Scope Z_scope.

(** The members of BsonParser (BsonParser.h:56-63) and the input.  The last element of a C++ vector is the head of the
    list.  dataLeft and dataSize hold std::size_t. *)
Record bparser := mkB {
  b_src : src;
  b_stack : list bcont;       (* currentContainer *)
  b_left : list Z;            (* dataLeft *)
  b_size : list Z;            (* dataSize *)
  b_next : token;             (* nextToken *)
  b_key : bytes;              (* nextKey *)
  b_type : Z;                 (* nextType *)
  b_skip : bool               (* skipOverValue *)
}.
(** The constructors (BsonParser.cpp:13-32). *)
Definition b_init (root : bcont) (s : src) : bparser := mkB s [root] [] [] TokDocStart [] 0 false.

Definition u64 (z : Z) : Z := z mod 2 ^ 64.
Definition bset_src (b : bparser) (s : src) : bparser :=
  mkB s (b_stack b) (b_left b) (b_size b) (b_next b) (b_key b) (b_type b) (b_skip b).
Definition bset_stack (b : bparser) (l : list bcont) : bparser :=
  mkB (b_src b) l (b_left b) (b_size b) (b_next b) (b_key b) (b_type b) (b_skip b).
Definition bset_sizes (b : bparser) (left size : list Z) : bparser :=
  mkB (b_src b) (b_stack b) left size (b_next b) (b_key b) (b_type b) (b_skip b).
Definition bset_next (b : bparser) (t : token) : bparser :=
  mkB (b_src b) (b_stack b) (b_left b) (b_size b) t (b_key b) (b_type b) (b_skip b).
Definition bset_elem (b : bparser) (k : bytes) (t : Z) : bparser :=
  mkB (b_src b) (b_stack b) (b_left b) (b_size b) (b_next b) k t (b_skip b).
Definition bset_skip (b : bparser) (x : bool) : bparser :=
  mkB (b_src b) (b_stack b) (b_left b) (b_size b) (b_next b) (b_key b) (b_type b) x.

(** dataLeft.back() -= n; back() of an empty vector is undefined. *)
Definition b_use (n : Z) (b : bparser) : outcome bparser :=
  match b_left b with
  | [] => UB
  | l :: r => Ok (bset_sizes b (u64 (l - n) :: r) (b_size b))
  end.

Definition b_read (n : nat) (b : bparser) : outcome (bytes * bparser) :=
  do (got, s) <- src_read (b_src b) n; Ok (got, bset_src b s).
(** readLE<n> into a signed integer (BsonParser.h:103-108): the variable is not initialised, so that a short read is
    undefined. *)
Definition b_readLE (n : nat) (b : bparser) : outcome (Z * bparser) :=
  do (got, b) <- b_read n b;
  if Nat.eqb (length got) n then Ok (signed_value got, b) else UB.

(** readBE<size> into an integer of [n] bytes (BsonParser.h:110-119): the variable is zero before, so that what a short read
    does not fill stays zero. *)
Definition b_readBE (size n : nat) (signed : bool) (b : bparser) : outcome (Z * bparser) :=
  do (got, b) <- b_read size b;
  let d := readBE size n (got ++ repeat 0 (size - length got)) in
  Ok (if signed then signed_value d else le_value d, b).

(** ParserInterface::ignore(std::size_t) of an int (ParserInterface.h:251-260, StringInput.h:82-86).  A negative number
    becomes a huge one: std::istream::ignore then takes a negative number and extracts nothing; StringInput goes back.
    Simplified: StringInput going back beyond its start is undefined here; in C++ the next read is. *)
Definition b_ignore (z : Z) (b : bparser) : outcome bparser :=
  let s := b_src b in
  if 0 <=? z then Ok (bset_src b (src_ignore s (Z.to_nat z)))
  else
    match s_kind s with
    | StrIn =>
        let p := Z.of_nat (s_pos s) + z in
        if p <? 0 then UB
        else Ok (bset_src b (mkSrc StrIn (s_data s) (Z.to_nat p) (Nat.leb (Z.to_nat p) (s_size s)) false))
    | Strm => Ok (bset_src b (if strm_good s then s else set_good s false))
    end.

(** isEndOfContainer(0) (BsonParser.cpp:275-290). *)
Definition isEndOfContainer (b : bparser) : outcome (bool * bparser) :=
  match b_left b with
  | [] => UB
  | l :: _ =>
      if l =? 1 then
        match b_stack b with
        | [] => UB
        | BMap :: _ => Ok (true, bset_next b TokMapEnd)
        | BArray :: _ => Ok (true, bset_next b TokArrayEnd)
        | BValue :: _ => Ok (true, bset_next b TokDocEnd)
        end
      else Ok (false, b)
  end.

(** readEndOfContainer (BsonParser.cpp:293-314); the mark is 0xFF when nothing is read. *)
Definition readEndOfContainer (b : bparser) : outcome bparser :=
  do (got, b) <- b_read 1 b;
  if src_ok (b_src b) then
    do b <- b_use 1 b;
    match got with
    | [c] => if c =? 0 then Ok b else Throw
    | _ => Throw
    end
  else Throw.

(** readKey (BsonParser.cpp:317-329); the old type stays when nothing is read. *)
Definition readKey (b : bparser) : outcome bparser :=
  do (got, b) <- b_read 1 b;
  if src_ok (b_src b) then
    let type := match got with [c] => c | _ => b_type b end in
    do (k, s) <- src_readTo (b_src b) (b_key b) 0;
    let b := bset_elem (bset_src b s) k type in
    if src_ok s then b_use (1 + Z.of_nat (length k) + 1) b else Throw
  else Throw.

(** The start of a container (BsonParser.cpp:55-61, 76-81). *)
Definition startContainer (b : bparser) : outcome bparser :=
  do (z, b) <- b_readLE 4 b;
  b_use 4 (bset_sizes b (u64 z :: b_left b) (u64 z :: b_size b)).

(** getNextToken (BsonParser.cpp:35-153); [again] is the recursive call. *)
Definition next_with (again : bparser -> outcome (token * bparser)) (b : bparser) : outcome (token * bparser) :=
  do b <- (if b_skip b then
             do (e, b) <- isEndOfContainer (bset_skip b false);
             Ok (if e then b else bset_next (bset_elem b (b_key b) 0) TokKey)
           else Ok b);
  let result := b_next b in
  match result with
  | TokDocStart =>
      match b_stack b with
      | [] => UB
      | BMap :: _ => Ok (result, bset_next b TokMapStart)
      | BArray :: _ => Ok (result, bset_next b TokArrayStart)
      | BValue :: _ =>
          do b <- startContainer (bset_stack (bset_next b TokKey) (BValue :: b_stack b));
          Ok (result, b)
      end
  | TokDocEnd =>
      do b <- match b_stack b with BValue :: _ => readEndOfContainer b | _ => Ok b end;
      Ok (result, bset_next b TokError)
  | TokMapStart | TokArrayStart =>
      do b <- startContainer b;
      match b_left b with
      | [] => UB
      | l :: _ =>
          if l =? 1 then
            match b_stack b with
            | [] => UB
            | BMap :: _ => Ok (result, bset_next b TokMapEnd)
            | _ => Ok (result, bset_next b TokArrayEnd)
            end
          else Ok (result, bset_next b TokKey)
      end
  | TokMapEnd | TokArrayEnd =>
      do b <- readEndOfContainer b;
      match b_stack b, b_left b, b_size b with
      | _ :: st, _ :: lf, z :: sz =>
          let b := bset_stack b st in
          match st with
          | [] => Ok (result, bset_next (bset_sizes b lf sz) TokDocEnd)
          | _ =>
              do b <- b_use z (bset_sizes b lf sz);
              do (e, b) <- isEndOfContainer b;
              Ok (result, if e then b else bset_next b TokKey)
          end
      | _, _, _ => UB
      end
  | TokKey =>
      do b <- readKey b;
      match b_stack b with
      | [] => UB
      | c :: _ =>
          let b :=
            if b_type b =? 3 then bset_next (bset_stack b (BMap :: b_stack b)) TokMapStart
            else if b_type b =? 4 then bset_next (bset_stack b (BArray :: b_stack b)) TokArrayStart
            else bset_next b TokValue in
          match c with
          | BMap => Ok (result, b)
          | _ => again b
          end
      end
  | TokValue => Ok (result, bset_skip b true)
  | TokError => Throw
  end.
(** After a key the next token is never a key, so one recursive call is enough. *)
Definition bson_next : bparser -> outcome (token * bparser) := next_with (next_with (fun _ => Hang)).

(** getIntValue (BsonParser.h:214-220), readInt (192-197): the value is converted to the type. *)
Definition bson_int (i : ity) (b : bparser) : outcome (Z * bparser) :=
  if b_type b =? 16 then do b <- b_use 4 b; do (z, b) <- b_readLE 4 b; Ok (i_wrap i z, b)
  else if b_type b =? 18 then do b <- b_use 8 b; do (z, b) <- b_readLE 8 b; Ok (i_wrap i z, b)
  else Throw.

(** getValue(bool&) (BsonParser.h:89), readBool (BsonParser.cpp:332-344): the variable is not initialised, and a bool
    must be 0 or 1. *)
Definition bson_bool (b : bparser) : outcome (bool * bparser) :=
  if b_type b =? 8 then
    do (got, b) <- b_read 1 b;
    if src_ok (b_src b) then
      do b <- b_use 1 b;
      match got with
      | [c] => if c =? 0 then Ok (false, b) else if c =? 1 then Ok (true, b) else UB
      | _ => UB
      end
    else Throw
  else Throw.

(** getValue(std::string&) (BsonParser.h:91), readString (BsonParser.cpp:366-383) with an empty destination: what a
    short read does not fill stays zero.  resize() throws for negative sizes; the last character is dropped, which
    throws for size 0. *)
Definition bson_str (b : bparser) : outcome (bytes * bparser) :=
  if b_type b =? 2 then
    do (z, b) <- b_readLE 4 b;
    do b <- b_use 4 b;
    if z <=? 0 then Throw
    else
      do (got, b) <- b_read (Z.to_nat z) b;
      if src_ok (b_src b) then
        do b <- b_use z b;
        Ok (firstn (Z.to_nat z - 1) (got ++ repeat 0 (Z.to_nat z - length got)), b)
      else Throw
  else Throw.

(** ignoreDataValue (BsonParser.cpp:207-272). *)
Definition ignore_fixed (n : Z) (b : bparser) : outcome bparser := do b <- b_ignore n b; b_use n b.
(** A value with a length; [more] bytes besides those that the length counts.  The sums are of type int. *)
Definition ignore_sized (more : Z) (b : bparser) : outcome bparser :=
  do (z, b) <- b_readLE 4 b;
  if z + more + 4 <? 2 ^ 31 then
    do b <- b_ignore (z + more) b;
    b_use (z + more + 4) b
  else UB.
Definition bson_ignore (b : bparser) : outcome bparser :=
  if negb (b_skip b) then Ok b
  else
    match b_type b with
    | 1 => ignore_fixed 8 b
    | 19 => ignore_fixed 16 b
    | 16 => ignore_fixed 4 b
    | 18 => ignore_fixed 8 b
    | 7 => ignore_fixed 12 b
    | 8 => ignore_fixed 1 b
    | 9 => ignore_fixed 8 b
    | 17 => ignore_fixed 8 b
    | 10 => Ok b
    | 2 => ignore_sized 0 b
    | 5 => ignore_sized 1 b
    | _ => Throw
    end.

(** ignoreDataMap and ignoreDataArray (BsonParser.cpp:175-204) only call the callbacks of the configuration.
    Floating point values: Model/BsonFloat.v.  Raw values: Model/BsonCustom.v. *)
Definition bson_ops : parser_ops bparser := {|
  op_next := bson_next;
  op_key := fun b => Ok (b_key b, b);
  op_int := bson_int;
  op_bool := bson_bool;
  op_str := bson_str;
  op_null := fun b => b_type b =? 10;
  op_ignore := bson_ignore;
  op_ignoreMap := fun _ b => Ok b;
  op_ignoreArr := fun _ b => Ok b
|}.
