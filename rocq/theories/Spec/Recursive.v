(** Which classes can refer to themselves. *)
From Coq Require Import List Bool.
From Verif Require Import Model.Types Model.Recursive.
Import ListNotations.

(** The class is a part of itself only behind a pointer or inside a container: otherwise it would have no finite size. *)
Fixpoint guarded (r : rty) : bool :=
  match r with
  | RSelf => false
  | RArr _ r => guarded r
  | RTup rs | RVariant rs => forallb guarded rs
  | RClass _ ms ps => forallb guarded ms && forallb guarded ps
  | _ => true
  end.
(** No class inside has the class itself as its parent. *)
Fixpoint parents_ok (r : rty) : bool :=
  match r with
  | RSeq _ r | RArr _ r | RMap _ r | RPtr r | ROpt r => parents_ok r
  | RTup rs | RVariant rs | RPoly rs _ => forallb parents_ok rs
  | RClass _ ms ps => forallb parents_ok ms && forallb parents_ok ps && forallb (fun p => match p with RSelf => false | _ => true end) ps
  | _ => true
  end.

(** How many objects of classes are one inside the other. *)
Fixpoint levels (v : val) : nat :=
  match v with
  | VList l => list_max (map levels l)
  | VMap l => list_max (map (fun kv => levels (snd kv)) l)
  | VPtr (Some x) | VOpt (Some x) | VVar _ x => levels x
  | VStruct own par => S (Nat.max (list_max (map levels own)) (list_max (map levels par)))
  | _ => 0
  end.
