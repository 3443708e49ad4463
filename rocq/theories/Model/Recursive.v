(** Classes that refer to themselves. *)
From Coq Require Import ZArith List Bool.
From Verif Require Import Model.Base Model.Number Model.Types.
Import ListNotations.

(** The types of Model/Types.v with one more, [RSelf]: the class that is being declared.  Not represented: several classes that refer to one another, other
    than by declaring one inside the other ([RClass]). *)
Inductive rty :=
| RSelf
| RHere (t : ty)                                    (* a type without the class *)
| RSeq (co : cont) (r : rty)
| RArr (n : nat) (r : rty)
| RTup (rs : list rty)
| RMap (mk : map_kind) (r : rty)
| RPtr (r : rty)
| ROpt (r : rty)
| RClass (i : sinfo) (ms ps : list rty)
| RPoly (cs : list rty) (others : list bytes)
| RVariant (cs : list rty).

(** [RSelf] replaced by [s]. *)
Fixpoint fill (s : ty) (r : rty) : ty :=
  match r with
  | RSelf => s
  | RHere t => t
  | RSeq co r => TSeq co (fill s r)
  | RArr n r => TArr n (fill s r)
  | RTup rs => TTup (map (fill s) rs)
  | RMap fw r => TMap fw (fill s r)
  | RPtr r => TPtr (fill s r)
  | ROpt r => TOpt (fill s r)
  | RClass i ms ps => TStruct i (map (fill s) ms) (map (fill s) ps)
  | RPoly cs others => TPoly (map (fill s) cs) others
  | RVariant cs => TVariant (map (fill s) cs)
  end.

(** A class with members [ms] and parents [ps], its declaration read [n] times; [stop] stands for the class in the innermost one.  The code instantiated
    for the class calls itself (Serialize.tpp: DeSerializer::parse, Serializer::print); a run with fewer than [n] nested calls is the run
    for [unroll i ms ps stop n]. *)
Fixpoint unroll (i : sinfo) (ms ps : list rty) (stop : ty) (n : nat) : ty :=
  match n with
  | O => stop
  | S n => fill (unroll i ms ps stop n) (RClass i ms ps)
  end.
