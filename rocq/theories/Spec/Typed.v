(** What a C++ programmer means by "a value of the type", "the member called n" and "the part of a document that is
    read into that member".  Nothing here runs the reader. *)
From Coq Require Import ZArith List Bool.
From Verif Require Import Model.Base Model.Number Model.Types Spec.Json.
Import ListNotations.

(** [all2b fs l]: as many values as tests, each value passes its test. *)
Fixpoint all2b {A} (fs : list (A -> bool)) (l : list A) : bool :=
  match fs, l with
  | [], [] => true
  | f :: fs', x :: l' => f x && all2b fs' l'
  | _, _ => false
  end.

(** The value has the shape of the type; this is what the C++ type checker guarantees. *)
Fixpoint shaped (t : ty) (v : val) : bool :=
  match t, v with
  | TInt _, VInt _ => true
  | TBool, VBool _ => true
  | TStr, VStr _ => true
  | TEnum _, VInt _ => true
  | TSeq _ t', VList l => forallb (shaped t') l
  | TArr n t', VList l => Nat.eqb (length l) n && forallb (shaped t') l
  | TTup ts, VList l => all2b (map shaped ts) l
  | TMap _ t', VMap l => forallb (fun kv => shaped t' (snd kv)) l
  | TPtr t', VPtr o => match o with Some x => shaped t' x | None => true end
  | TOpt t', VOpt o => match o with Some x => shaped t' x | None => true end
  | TStruct _ ms ps, VStruct own par => all2b (map shaped ms) own && all2b (map shaped ps) par
  | TPoly cs _, VPtr None => true
  | TPoly cs _, VPtr (Some (VVar k x)) => match nth_error (map shaped cs) k with Some f => f x | None => false end
  | TVariant cs, VVar k x => match nth_error (map shaped cs) k with Some f => f x | None => false end
  | _, _ => false
  end.

(** std::pair: two members with the names first and second. *)
Definition is_pair (t : ty) : bool :=
  match t with
  | TStruct i [_; _] [] =>
      si_pair i && match si_names i with [a; b] => beq a [102; 105; 114; 115; 116] && beq b [115; 101; 99; 111; 110; 100] | _ => false end &&
      match si_over i with [] => true | _ => false end && negb (si_mark i) && negb (si_virt i)
  | _ => false
  end.
(** Types whose order (operator<) is that of [val_cmp].  Without long long and unsigned long long, which stand for float and double in
    Model/Float.v. *)
Fixpoint is_key (t : ty) : bool :=
  match t with
  | TInt ILLong | TInt IULLong => false
  | TInt _ | TBool | TStr | TEnum _ => true
  | TSeq _ t' | TArr _ t' | TOpt t' => is_key t'
  | TTup ts => forallb is_key ts
  | TStruct _ ms _ => is_pair t && forallb is_key ms
  | _ => false
  end.
(** The elements of a set have an order, those of a map are pairs whose first members have one. *)
Definition seq_elem (co : cont) (t : ty) : bool :=
  match co with
  | CBack => true
  | CBits => match t with TBool => true | _ => false end
  | CSet | CMultiset => is_key t
  | CMap | CMultimap => is_pair t && match t with TStruct _ (k :: _) _ => is_key k | _ => false end
  end.

(** Types that can be written in C++: a class has as many member names as members, parents and polymorphic classes are
    classes, a variant has an alternative, what is in a set or is a key has an order. *)
Definition is_class (t : ty) : bool := match t with TStruct _ _ _ => true | _ => false end.
Fixpoint wf (t : ty) : bool :=
  match t with
  | TInt _ | TBool | TStr | TEnum _ => true
  | TSeq co t' => wf t' && seq_elem co t'
  | TArr _ t' | TMap _ t' | TPtr t' | TOpt t' => wf t'
  | TTup ts => forallb wf ts
  | TStruct i ms ps =>
      Nat.eqb (length (si_names i)) (length ms) && forallb wf ms && forallb (fun p => is_class p && wf p) ps &&
      (negb (si_pair i) || is_pair (TStruct i ms ps))
  | TPoly cs _ => forallb (fun c => is_class c && wf c) cs
  | TVariant cs => forallb (fun c => is_class c && wf c) cs && negb (Nat.eqb (length cs) 0)
  end.

(** ** Members of a class.  A member is addressed by a path: the parents to go through, then the index. *)
Definition path := (list nat * nat)%type.

Fixpoint index_of (k : bytes) (ns : list bytes) : option nat :=
  match ns with
  | [] => None
  | n :: r => if beq k n then Some O else match index_of k r with Some i => Some (S i) | None => None end
  end.
Fixpoint search (fs : list (bytes -> option path)) (k : bytes) (n : nat) : option path :=
  match fs with
  | [] => None
  | f :: r => match f k with Some (q, i) => Some (n :: q, i) | None => search r k (S n) end
  end.
(** The member with a JSON name: a parent's member before an own one, an earlier one before a later one. *)
Fixpoint find_path (t : ty) (k : bytes) : option path :=
  match t with
  | TStruct i _ ps =>
      match search (map find_path ps) k 0 with
      | Some p => Some p
      | None => match index_of k (map (nameOverride i) (si_names i)) with Some n => Some ([], n) | None => None end
      end
  | _ => None
  end.

(** Type, JSON name and declared name of the member with a path. *)
Fixpoint type_at (t : ty) (q : list nat) (i : nat) : option ty :=
  match t, q with
  | TStruct _ ms _, [] => nth_error ms i
  | TStruct _ _ ps, n :: q' => match nth_error ps n with Some p => type_at p q' i | None => None end
  | _, _ => None
  end.
Fixpoint name_at (t : ty) (q : list nat) (i : nat) : option bytes :=
  match t, q with
  | TStruct si _ _, [] => nth_error (map (nameOverride si) (si_names si)) i
  | TStruct _ _ ps, n :: q' => match nth_error ps n with Some p => name_at p q' i | None => None end
  | _, _ => None
  end.
Definition member_type (t : ty) (k : bytes) : option ty :=
  match find_path t k with Some (q, i) => type_at t q i | None => None end.

(** The class and its parents rename no member. *)
Fixpoint no_override (t : ty) : bool :=
  match t with
  | TStruct i _ ps => match si_over i with [] => true | _ => false end && forallb no_override ps
  | _ => true
  end.

(** Value of the member with a path. *)
Fixpoint field (v : val) (q : list nat) (i : nat) : option val :=
  match v, q with
  | VStruct own _, [] => nth_error own i
  | VStruct _ par, n :: q' => match nth_error par n with Some w => field w q' i | None => None end
  | _, _ => None
  end.
Fixpoint set_field (v : val) (q : list nat) (i : nat) (x : val) : val :=
  match v, q with
  | VStruct own par, [] => VStruct (set_nth i x own) par
  | VStruct own par, n :: q' =>
      match nth_error par n with Some w => VStruct own (set_nth n (set_field w q' i x) par) | None => v end
  | _, _ => v
  end.

(** ** Parts of a document.  [kd raw n]: the key written [raw] is the name [n]; [sd a c]: the scalar [a] is the string
    [c]; [nl a]: the scalar [a] is null; [mk] is the polymorphic marker. *)
Section Positions.
  Context {A : Type} (kd : bytes -> bytes -> Prop) (sd : A -> bytes -> Prop) (nl : A -> bool) (mk : bytes).

  Definition is_null (j : tree A) : bool := match j with Scal a => nl a | _ => false end.

  (** [part t j t' j']: when [j] is read as a [t], its part [j'] is read as a [t']. *)
  Inductive part : ty -> tree A -> ty -> tree A -> Prop :=
  | pt_here : forall t j, part t j t j
  | pt_vec : forall co t l j t' j', In j l -> part t j t' j' -> part (TSeq co t) (Arr l) t' j'
  | pt_arr : forall n t l i j t' j', nth_error l i = Some j -> (i < n)%nat -> part t j t' j' -> part (TArr n t) (Arr l) t' j'
  | pt_tup : forall ts l i t j t' j', nth_error l i = Some j -> nth_error ts i = Some t -> part t j t' j' ->
      part (TTup ts) (Arr l) t' j'
  | pt_map : forall fw t l k j t' j', In (k, j) l -> part t j t' j' -> part (TMap fw t) (Obj l) t' j'
  | pt_ptr : forall t j t' j', is_null j = false -> part t j t' j' -> part (TPtr t) j t' j'
  | pt_opt : forall t j t' j', part t j t' j' -> part (TOpt t) j t' j'
  | pt_member : forall i ms ps l k n j t t' j', In (k, j) l -> kd k n -> member_type (TStruct i ms ps) n = Some t ->
      part t j t' j' -> part (TStruct i ms ps) (Obj l) t' j'
  | pt_poly : forall cs o k a c l i t t' j', kd k mk -> sd a c -> find_class cs c = Some i -> nth_error cs i = Some t ->
      part t (Obj l) t' j' -> part (TPoly cs o) (Obj ((k, Scal a) :: l)) t' j'
  | pt_variant : forall cs k a c l i t t' j', kd k mk -> sd a c -> find_class cs c = Some i -> nth_error cs i = Some t ->
      part t (Obj l) t' j' -> part (TVariant cs) (Obj ((k, Scal a) :: l)) t' j'.

  (** [inside R t j j']: the trees are the same, except that one part of [j], read as a [t'], is replaced by another one
      related to it by [R t']. *)
  Inductive inside (R : ty -> tree A -> tree A -> Prop) : ty -> tree A -> tree A -> Prop :=
  | is_here : forall t j j', R t j j' -> inside R t j j'
  | is_vec : forall co t a j j' b, inside R t j j' -> inside R (TSeq co t) (Arr (a ++ j :: b)) (Arr (a ++ j' :: b))
  | is_arr : forall n t a j j' b, inside R t j j' -> inside R (TArr n t) (Arr (a ++ j :: b)) (Arr (a ++ j' :: b))
  | is_tup : forall ts t a j j' b, nth_error ts (length a) = Some t -> inside R t j j' ->
      inside R (TTup ts) (Arr (a ++ j :: b)) (Arr (a ++ j' :: b))
  | is_map : forall fw t a k j j' b, inside R t j j' -> inside R (TMap fw t) (Obj (a ++ (k, j) :: b)) (Obj (a ++ (k, j') :: b))
  | is_ptr : forall t j j', is_null j = false -> is_null j' = false -> inside R t j j' -> inside R (TPtr t) j j'
  | is_opt : forall t j j', inside R t j j' -> inside R (TOpt t) j j'
  | is_member : forall i ms ps a k n j j' b t, kd k n -> member_type (TStruct i ms ps) n = Some t -> inside R t j j' ->
      inside R (TStruct i ms ps) (Obj (a ++ (k, j) :: b)) (Obj (a ++ (k, j') :: b))
  | is_poly : forall cs o k a c l l' i t, kd k mk -> sd a c -> find_class cs c = Some i -> nth_error cs i = Some t ->
      inside R t (Obj l) (Obj l') -> inside R (TPoly cs o) (Obj ((k, Scal a) :: l)) (Obj ((k, Scal a) :: l'))
  | is_variant : forall cs k a c l l' i t, kd k mk -> sd a c -> find_class cs c = Some i -> nth_error cs i = Some t ->
      inside R t (Obj l) (Obj l') -> inside R (TVariant cs) (Obj ((k, Scal a) :: l)) (Obj ((k, Scal a) :: l')).

  (** [unread t j jk]: when [j] is read as a [t], its part [jk] is the value of a member that the class there does not
      have. *)
  Definition unread (t : ty) (j jk : tree A) : Prop :=
    exists t' l k n, part t j t' (Obj l) /\ In (k, jk) l /\ kd k n /\ is_class t' = true /\ member_type t' n = None.
End Positions.

(** A property of all keys and scalars of a tree. *)
Inductive tree_all {A} (PK : bytes -> Prop) (PA : A -> Prop) : tree A -> Prop :=
| ta_scal : forall a, PA a -> tree_all PK PA (Scal a)
| ta_arr : forall l, (forall j, In j l -> tree_all PK PA j) -> tree_all PK PA (Arr l)
| ta_obj : forall l, (forall k j, In (k, j) l -> PK k /\ tree_all PK PA j) -> tree_all PK PA (Obj l).

(** ** Maps *)
(** The entries of a map: in the order of the keys; one for each key unless it is a multimap. *)
Definition precedes (mk : map_kind) (a b : list Z) : Prop := match mk with MAll => bltb b a = false | _ => bltb a b = true end.
Inductive ordered (mk : map_kind) : list (bytes * val) -> Prop :=
| or_nil : ordered mk []
| or_cons : forall k v l, (forall k' v', In (k', v') l -> precedes mk k k') -> ordered mk l -> ordered mk ((k, v) :: l).
(** Types whose objects are overwritten by an import: nothing of the old value is kept. *)
Definition overwritten (t : ty) : bool :=
  match t with TInt _ | TBool | TStr | TEnum _ | TPtr _ | TPoly _ _ => true | _ => false end.
