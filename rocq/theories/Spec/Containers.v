(** What a set, multiset, map or multimap holds after elements have been added. *)
From Coq Require Import List.
From Verif Require Import Model.Types Spec.Denotes.
Import ListNotations.

(** The key of an element: the element itself, or the first member of a pair in a map. *)
Definition has_key (co : cont) (k x : val) : Prop :=
  match co with
  | CMap | CMultimap => match x with VStruct (a :: _) _ => a = k | _ => x = k end
  | _ => x = k
  end.
(** [with_key co k l r]: [r] are the elements of [l] with the key [k], in order. *)
Inductive with_key (co : cont) (k : val) : list val -> list val -> Prop :=
| wk_nil : with_key co k [] []
| wk_yes : forall x l r, has_key co k x -> with_key co k l r -> with_key co k (x :: l) (x :: r)
| wk_no : forall x l r, ~ has_key co k x -> with_key co k l r -> with_key co k (x :: l) r.
(** [collects co old l new]: [new] is what the container with the elements [old] holds when those of [l] have been added, one after
    the other.  A vector holds all.  The others are ordered by the keys; of the elements with one key a set and a map hold the
    one that came first, a multiset and a multimap hold all, in the order in which they came. *)
Definition collects (co : cont) (old l new : list val) : Prop :=
  match co with
  | CBack | CBits => new = old ++ l
  | CSet | CMap => in_order co new /\ forall k r, with_key co k (old ++ l) r -> with_key co k new (firstn 1 r)
  | CMultiset | CMultimap => in_order co new /\ forall k r, with_key co k (old ++ l) r -> with_key co k new r
  end.
