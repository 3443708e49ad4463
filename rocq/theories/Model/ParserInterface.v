(** ParserInterface: the format independent part of a parser. *)
From Coq Require Import ZArith List Bool.
From Verif Require Import Model.Base Model.Number.
Import ListNotations.
Open Scope Z_scope.

(** ParserToken (ThorsSerializerUtilTypes.h:17). *)
Inductive token :=
| TokError | TokDocStart | TokDocEnd | TokMapStart | TokMapEnd | TokArrayStart | TokArrayEnd | TokKey | TokValue.

Definition token_eqb (a b : token) : bool :=
  match a, b with
  | TokError, TokError | TokDocStart, TokDocStart | TokDocEnd, TokDocEnd | TokMapStart, TokMapStart
  | TokMapEnd, TokMapEnd | TokArrayStart, TokArrayStart | TokArrayEnd, TokArrayEnd | TokKey, TokKey
  | TokValue, TokValue => true
  | _, _ => false
  end.

(** ParseType (ThorsSerializerUtilTypes.h:16). *)
Inductive strictness := Weak | Strict | Exact.

(** The virtual methods of ParserInterface (ParserInterface.h:149-179) over an implementation state. *)
Record parser_ops (St : Type) := mkOps {
  op_next      : St -> outcome (token * St);        (* getNextToken *)
  op_key       : St -> outcome (bytes * St);        (* getKey *)
  op_int       : ity -> St -> outcome (Z * St);     (* getValue(integer&) *)
  op_bool      : St -> outcome (bool * St);         (* getValue(bool&) *)
  op_str       : St -> outcome (bytes * St);        (* getValue(std::string&) *)
  op_null      : St -> bool;                        (* isValueNull *)
  op_ignore    : St -> outcome St;                  (* ignoreDataValue *)
  op_ignoreMap : bool -> St -> outcome St;          (* ignoreDataMap *)
  op_ignoreArr : bool -> St -> outcome St           (* ignoreDataArray *)
}.
Arguments op_next {St}. Arguments op_key {St}. Arguments op_int {St}. Arguments op_bool {St}.
Arguments op_str {St}. Arguments op_null {St}. Arguments op_ignore {St}.
Arguments op_ignoreMap {St}. Arguments op_ignoreArr {St}.

(** Implementation state plus the two push back slots (ParserInterface.h:348-349); [TokError] marks an
    empty slot. *)
Record pst (St : Type) := mkPst { ps_impl : St; ps_pb1 : token; ps_pb2 : token }.
Arguments mkPst {St}. Arguments ps_impl {St}. Arguments ps_pb1 {St}. Arguments ps_pb2 {St}.

Definition pst_init {St} (s : St) : pst St := mkPst s TokError TokError.

(** Run an operation of the implementation. *)
Definition lift {St A} (f : St -> outcome (A * St)) (p : pst St) : outcome (A * pst St) :=
  do (a, s) <- f (ps_impl p); Ok (a, mkPst s (ps_pb1 p) (ps_pb2 p)).
Definition lift_ {St} (f : St -> outcome St) (p : pst St) : outcome (pst St) :=
  do s <- f (ps_impl p); Ok (mkPst s (ps_pb1 p) (ps_pb2 p)).

Section Generic.
  Context {St : Type} (ops : parser_ops St).

  (** getToken (ParserInterface.cpp:9-18). *)
  Definition getToken (p : pst St) : outcome (token * pst St) :=
    if negb (token_eqb (ps_pb2 p) TokError) then
      Ok (ps_pb2 p, mkPst (ps_impl p) (ps_pb1 p) TokError)
    else if negb (token_eqb (ps_pb1 p) TokError) then
      Ok (ps_pb1 p, mkPst (ps_impl p) TokError (ps_pb2 p))
    else lift (op_next ops) p.

  (** pushBackToken (ParserInterface.cpp:21-37; VALIDATE_EXTRA_PUSH_BACK_TOKEN is not defined). *)
  Definition pushBackToken (t : token) (p : pst St) : pst St :=
    if token_eqb (ps_pb1 p) TokError then mkPst (ps_impl p) t (ps_pb2 p)
    else if token_eqb (ps_pb2 p) TokError then mkPst (ps_impl p) (ps_pb1 p) t
    else p.

  (** ignoreTheValue / ignoreTheMap / ignoreTheArray (ParserInterface.cpp:54-163).  They call getNextToken
      directly: the push back slots are not consulted. *)
  Fixpoint ign_value (f : nat) (s : St) : outcome St :=
    match f with
    | O => Hang
    | S f =>
        do (t, s) <- op_next ops s;
        match t with
        | TokValue => op_ignore ops s
        | TokMapStart => do s <- op_ignoreMap ops true s; ign_map f s
        | TokArrayStart => do s <- op_ignoreArr ops true s; ign_arr f s
        | _ => Throw
        end
    end
  with ign_map (f : nat) (s : St) : outcome St :=
    match f with
    | O => Hang
    | S f =>
        do (t, s) <- op_next ops s;
        match t with
        | TokMapEnd => op_ignoreMap ops false s
        | _ =>
            do s <- op_ignore ops s;
            match t with
            | TokKey => do s <- ign_value f s; ign_map f s
            | _ => Throw
            end
        end
    end
  with ign_arr (f : nat) (s : St) : outcome St :=
    match f with
    | O => Hang
    | S f =>
        do (t, s) <- op_next ops s;
        match t with
        | TokArrayEnd => op_ignoreArr ops false s
        | TokValue => do s <- op_ignore ops s; ign_arr f s
        | TokMapStart => do s <- op_ignoreMap ops true s; do s <- ign_map f s; ign_arr f s
        | TokArrayStart => do s <- op_ignoreArr ops true s; do s <- ign_arr f s; ign_arr f s
        | _ => Throw
        end
    end.

  (** ignoreValue (ParserInterface.cpp:40-51). *)
  Definition ignoreValue (m : strictness) (fuel : nat) (p : pst St) : outcome (pst St) :=
    match m with
    | Weak => lift_ (ign_value fuel) p
    | _ => Throw
    end.
End Generic.
