(** What a filter lets through. *)
From Coq Require Import ZArith List.
From Verif Require Import Model.Types.
Import ListNotations.

(** [lets l n]: the map [l] does not forbid the name [n]; the first entry for a name counts. *)
Inductive lets : list (list Z * bool) -> list Z -> Prop :=
| lets_any : forall n, lets [] n
| lets_here : forall n l, lets ((n, true) :: l) n
| lets_later : forall m b l n, m <> n -> lets l n -> lets ((m, b) :: l) n.
(** [let_through l names types values names' types' values']: the members whose names [l] does not forbid. *)
Inductive let_through (l : list (list Z * bool)) : list (list Z) -> list ty -> list val -> list (list Z) -> list ty -> list val -> Prop :=
| lt_nil : let_through l [] [] [] [] [] []
| lt_yes : forall n t v ns ts vs ns' ts' vs', lets l n -> let_through l ns ts vs ns' ts' vs' ->
    let_through l (n :: ns) (t :: ts) (v :: vs) (n :: ns') (t :: ts') (v :: vs')
| lt_no : forall n t v ns ts vs ns' ts' vs', ~ lets l n -> let_through l ns ts vs ns' ts' vs' ->
    let_through l (n :: ns) (t :: ts) (v :: vs) ns' ts' vs'.
(** The class [i] with other members. *)
Definition with_names (i : sinfo) (names : list (list Z)) : sinfo :=
  mkSinfo names (si_over i) (si_poly i) (si_mark i) (si_virt i) (si_pair i).
