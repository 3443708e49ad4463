(** BsonPrinter (BsonPrinter.h, BsonPrinter.cpp). *)
From Coq Require Import ZArith String List Bool.
From Verif Require Import Model.Base Model.Number Model.Unicode Model.Printer Model.Types Model.Binary.
Import ListNotations.
Open Scope Z_scope.

(** BsonContainer (BsonUtil.h). *)
Inductive bcont := BMap | BArray | BValue.

(** The members of BsonPrinter (BsonPrinter.h:45-50).  The last element of a C++ vector is the head of the list.
    [bp_ids] is the number of object ids made so far (the size of the vector behind idStore, if it was empty). *)
Record bprinter := mkBp {
  bp_key : bytes;             (* currentKey *)
  bp_stack : list bcont;      (* currentContainer *)
  bp_index : list Z;          (* arrayIndex *)
  bp_ids : nat
}.
Definition bp_init : bprinter := mkBp [] [] [] 0.
Definition bp_at (k : bytes) (s : bprinter) : bprinter := mkBp k (bp_stack s) (bp_index s) (bp_ids s).

(** std::int32_t totalSize, size as 4 bytes (writeSize<4, std::int32_t>, BsonPrinter.h:151-155). *)
Definition put_size (z : Z) : bytes := writeLE 4 4 z.

Section Bson.
  (** [proj]: the printer is in projection mode (BsonPrinter.h:116) for the whole document.  [ids]: the binary form of the
      n-th object id that the default constructor of ObjectID makes, when an IdStore was given. *)
  Context (proj : bool) (ids : option (nat -> bytes)).

  (** needToInsertId (BsonPrinter.cpp:38-49). *)
  Definition needToInsertId (s : bprinter) : bool :=
    match ids, bp_stack s with
    | Some _, [BArray; BMap] => true
    | _, _ => false
    end.

  (** getSizeMap (BsonPrinter.cpp:53-72). *)
  Definition bs_szMap (count : Z) (s : bprinter) : Z :=
    4 + count * (1 + 1) + (if needToInsertId s then 17 else 0) + 1.
  (** getSizeArray (BsonPrinter.cpp:76-107).  [n] bounds the loop; std::size_t does not wrap around for the sizes of
      containers in memory. *)
  Fixpoint size_loop (n : nat) (count total accounted next digits : Z) : option Z :=
    match n with
    | O => None
    | S n =>
        if next <=? count
        then size_loop n count (total + (next - accounted) * digits) next (next * 10) (digits + 1)
        else Some (total + (count - accounted) * digits)
    end.
  Definition index_lengths (count : Z) : Z :=
    match size_loop (S (Z.to_nat (Z.log2 count))) count 0 0 10 1 with Some z => z | None => -1 end.
  Definition bs_szArray (count : Z) : Z := 4 + count * (1 + 1) + index_lengths count + 1.

  (** writeKey (BsonPrinter.cpp:124-156); [size] is None for -1. *)
  Definition writeKey (type : Z) (size : option Z) (s : bprinter) : outcome (list chunk * bprinter) :=
    match bp_stack s with
    | [] =>
        match size with
        | None => Ok ([], s)
        | Some z => Ok ([Wr (put_size (4 + 1 + 2 + z + 1)); Wr [type]; Wr [48; 0]], s)
        end
    | BArray :: _ =>
        match bp_index s with
        | [] => UB
        | i :: r => Ok ([Wr [type]; Wr (int_dec i); Wr [0]], mkBp (bp_key s) (bp_stack s) (i + 1 :: r) (bp_ids s))
        end
    | _ => Ok ([Wr [type]; Wr (bp_key s ++ [0])], s)
    end.
  Definition w_put (b : bytes) : writer bprinter := fun s => Ok ([Wr b], s).

  (** addKey (BsonPrinter.cpp:111-121); back() of an empty vector is undefined. *)
  Definition bs_key (k : bytes) : writer bprinter := fun s =>
    match bp_stack s with
    | [] => UB
    | BMap :: _ => Ok ([], bp_at k s)
    | _ => Throw
    end.
  Definition w_push (c : bcont) (idx : bool) : writer bprinter := fun s =>
    Ok ([], mkBp (bp_key s) (c :: bp_stack s) (if idx then 0 :: bp_index s else bp_index s) (bp_ids s)).
  (** idStore->get().emplace_back() and the output of the new id (BsonPrinter.cpp:186-187). *)
  Definition w_id : writer bprinter := fun s =>
    match ids with
    | Some f => Ok ([Wr (f (bp_ids s))], mkBp (bp_key s) (bp_stack s) (bp_index s) (S (bp_ids s)))
    | None => UB
    end.
  (** openMap (BsonPrinter.cpp:174-189). *)
  Definition bs_openMap (size : Z) : writer bprinter := fun s =>
    w_then (writeKey 3 None)
      (w_then (w_put (put_size size))
        (fun s =>
           w_then (w_push BMap false)
             (if needToInsertId s
              then w_then (bs_key (bs "_id")) (w_then (writeKey 7 (Some 12)) w_id)
              else w_nothing) s)) s.
  (** closeMap (BsonPrinter.cpp:192-203). *)
  Definition bs_closeMap : writer bprinter := fun s =>
    match bp_stack s with
    | [] => UB
    | BMap :: r => Ok ([Wr [0]], mkBp (bp_key s) r (bp_index s) (bp_ids s))
    | _ => Throw
    end.
  (** openArray (BsonPrinter.cpp:206-212). *)
  Definition bs_openArray (size : Z) : writer bprinter :=
    w_then (writeKey 4 None) (w_then (w_put (put_size size)) (w_push BArray true)).
  (** closeArray (BsonPrinter.cpp:215-227). *)
  Definition bs_closeArray : writer bprinter := fun s =>
    match bp_stack s with
    | [] => UB
    | BArray :: r =>
        match bp_index s with
        | [] => UB
        | _ :: ri => Ok ([Wr [0]], mkBp (bp_key s) r ri (bp_ids s))
        end
    | _ => Throw
    end.

  (** writeInt<Size> (BsonPrinter.h:157-166): the conversion to the signed type keeps the low bytes. *)
  Definition writeInt (size : nat) (z : Z) : writer bprinter :=
    w_then (writeKey (if Nat.eqb size 4 then 16 else 18) (Some (Z.of_nat size))) (w_put (writeLE size size z)).
  (** writeProjection (BsonPrinter.h:53). *)
  Definition unless_projection (w : writer bprinter) : writer bprinter := if proj then writeInt 4 1 else w.
  (** The number of bytes of an integer: at least 4 (BsonPrinter.h:68-75, 100-107). *)
  Definition int_size (i : ity) : nat := if i_bits i =? 64 then 8%nat else 4%nat.
  Definition bs_int (i : ity) (z : Z) : writer bprinter := unless_projection (writeInt (int_size i) z).
  (** writeBool (BsonPrinter.cpp:230-235). *)
  Definition bs_bool (b : bool) : writer bprinter :=
    unless_projection (w_then (writeKey 8 (Some 1)) (w_put [if b then 1 else 0])).
  (** writeString (BsonPrinter.cpp:246-255): the text is escaped.  PrinterSize (237-243) counts in std::int32_t.
      Simplified: its overflow, undefined in C++, is not modelled. *)
  Definition bs_str (t : bytes) : writer bprinter :=
    let n := Z.of_nat (length (escapeString t)) in
    unless_projection
      (w_then (writeKey 2 (Some (4 + n + 1))) (w_put (put_size (n + 1) ++ escapeString t ++ [0]))).
  (** writeNull (BsonPrinter.cpp:258-261). *)
  Definition bs_null : writer bprinter := unless_projection (writeKey 10 (Some 0)).

  (** getSize (BsonPrinter.h:52). *)
  Definition bs_size (z : Z) : Z := if proj then 4 else z.
  (** getSizeValue of integers (BsonPrinter.h:100-107). *)
  Definition bs_szInt (i : ity) (_ : Z) (_ : bprinter) : outcome Z := Ok (bs_size (Z.of_nat (int_size i))).
  (** pushLevel (BsonPrinter.cpp:27-30). *)
  Definition bs_push (isMap : bool) (s : bprinter) : bprinter :=
    mkBp (bp_key s) ((if isMap then BMap else BArray) :: bp_stack s) (bp_index s) (bp_ids s).

  (** Floating point values: Model/BsonFloat.v.  Raw values: Model/BsonCustom.v. *)
  Definition bson_printer : printer_ops bprinter := {|
    pr_openMap := bs_openMap;
    pr_closeMap := bs_closeMap;
    pr_openArray := bs_openArray;
    pr_closeArray := bs_closeArray;
    pr_key := bs_key;
    pr_int := bs_int;
    pr_bool := bs_bool;
    pr_str := bs_str;
    pr_null := bs_null;
    pr_usesSize := true;
    pr_push := bs_push;
    pr_szMap := bs_szMap;
    pr_szArray := fun n _ => bs_szArray n;
    pr_szMember := fun m _ => Z.of_nat (length m);
    pr_szNull := fun _ => bs_size 0;
    pr_szInt := bs_szInt;
    pr_szBool := fun _ _ => bs_size 1;
    pr_szStr := fun t _ => bs_size (4 + Z.of_nat (length t) + 1)
  |}.
End Bson.
(** The printer with another way to write numbers, and with other sizes of them (see Model/BsonFloat.v and Model/BsonCustom.v). *)
Definition bson_with (num : ity -> Z -> writer bprinter) (sz : ity -> Z -> bprinter -> outcome Z) (o : printer_ops bprinter) : printer_ops bprinter :=
  mkPr bprinter (pr_openMap o) (pr_closeMap o) (pr_openArray o) (pr_closeArray o) (pr_key o) num (pr_bool o) (pr_str o) (pr_null o)
    (pr_usesSize o) (pr_push o) (pr_szMap o) (pr_szArray o) (pr_szMember o) (pr_szNull o) sz (pr_szBool o) (pr_szStr o).
