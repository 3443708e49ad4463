(** Proper use of the printer interface. *)
From Coq Require Import ZArith List Bool.
From Verif Require Import Model.Base Model.Number Model.Calls Spec.JsonString Spec.Json Spec.Import Spec.Denotes.
Import ListNotations.
Open Scope Z_scope.

(** The containers that are open after some calls, the innermost first. *)
Inductive container := InMap | InArray.
Definition open_step (st : list container) (p : pcall) : list container :=
  match p with
  | COpenMap => InMap :: st
  | COpenArray => InArray :: st
  | CCloseMap | CCloseArray => tl st
  | _ => st
  end.
Definition open_after (l : list pcall) : list container := fold_left open_step l [].

(** A value written by calls: a scalar, a list of values, or a list of keys with values. *)
Inductive piece :=
| PInt (i : ity) (z : Z) | PBool (b : bool) | PStr (s : bytes) | PNull
| PArr (l : list piece)
| PMap (l : list (bytes * piece)).
(** The calls that write it. *)
Fixpoint calls_of (p : piece) : list pcall :=
  match p with
  | PInt i z => [CInt i z]
  | PBool b => [CBool b]
  | PStr s => [CStr s]
  | PNull => [CNull]
  | PArr l => COpenArray :: flat_map calls_of l ++ [CCloseArray]
  | PMap l => COpenMap :: flat_map (fun e => CKey (fst e) :: calls_of (snd e)) l ++ [CCloseMap]
  end.
(** The document it is. *)
Inductive piece_doc : piece -> jv -> Prop :=
| pd_int : forall i z txt, int_literal txt z -> piece_doc (PInt i z) (Scal (SNum txt))
| pd_bool : forall b, piece_doc (PBool b) (Scal (if b then STrue else SFalse))
| pd_str : forall s raw, json_string raw s -> piece_doc (PStr s) (Scal (SStr raw))
| pd_null : piece_doc PNull (Scal SNull)
| pd_arr : forall l js, Forall2 piece_doc l js -> piece_doc (PArr l) (Arr js)
| pd_map : forall l es, Forall2 (fun e f => fst f = fst e /\ piece_doc (snd e) (snd f)) l es -> piece_doc (PMap l) (Obj es).
(** Integers in range, strings of bytes, keys that can stand between quotes. *)
Fixpoint piece_ok (p : piece) : Prop :=
  match p with
  | PInt i z => fits i z
  | PStr s => bytes_in s
  | PArr l => all_of (map piece_ok l)
  | PMap l => all_of (map (fun e => legal_string (fst e) /\ piece_ok (snd e)) l)
  | _ => True
  end.
Fixpoint piece_depth (p : piece) : nat :=
  match p with
  | PArr l => S (list_max (map piece_depth l))
  | PMap l => S (list_max (map (fun e => piece_depth (snd e)) l))
  | _ => 0
  end.
