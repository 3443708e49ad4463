(** What a failed export leaves of a value (C98). *)
From Coq Require Import ZArith List.
From Verif Require Import Model.Number Model.Types.
Import ListNotations.
Open Scope Z_scope.

(** Values that cannot be written, where nothing is written before that is found: an empty optional, an enum without a name, also behind pointers and
    optionals. *)
Inductive unwritable : ty -> val -> Prop :=
| un_opt : forall t, unwritable (TOpt t) (VOpt None)
| un_enum : forall l z, (forall n, ~ In (z, n) l) -> unwritable (TEnum l) (VInt z)
| un_in_opt : forall t x, unwritable t x -> unwritable (TOpt t) (VOpt (Some x))
| un_in_ptr : forall t x, unwritable t x -> unwritable (TPtr t) (VPtr (Some x)).

(** The class with other members. *)
Definition with_names (i : sinfo) (ns : list (list Z)) : sinfo := mkSinfo ns (si_over i) (si_poly i) (si_mark i) (si_virt i) (si_pair i).

Definition is_class (t : ty) : bool := match t with TStruct _ _ _ => true | _ => false end.
(** A map as a class. *)
Definition as_class (ks : list (list Z)) : sinfo := mkSinfo ks [] [] false false false.
Definition null_type : ty := TPtr TBool.
Definition null_value : val := VPtr None.

(** [cut key t v t' v']: [v'] is [v] up to the first value that cannot be written.  If [key] is false that value stands in a sequence, array or tuple; if [key] is
    true, in a map or class, and null is in its place in [v'].  This may be inside other sequences, arrays, tuples, maps and classes (also their parents), behind pointers, variants and optionals; what
    would follow in these is missing as well.  [t'] is the type of what remains: a class with the members so far, a class instead of a map, a tuple instead of a sequence. *)
Inductive cut : bool -> ty -> val -> ty -> val -> Prop :=
| cut_here : forall k t l x r, unwritable t x -> cut false (TSeq k t) (VList (l ++ x :: r)) (TSeq k t) (VList l)
| cut_array_here : forall n t l x r, n = length (l ++ x :: r) -> unwritable t x -> cut false (TArr n t) (VList (l ++ x :: r)) (TArr (length l) t) (VList l)
| cut_tuple_here : forall ts t us l x r, length ts = length l -> unwritable t x -> cut false (TTup (ts ++ t :: us)) (VList (l ++ x :: r)) (TTup ts) (VList l)
| cut_entry_here : forall k t l n x r, Forall (fun kv => snd kv <> VOpt None) l -> unwritable t x ->
    cut true (TMap k t) (VMap (l ++ (n, x) :: r)) (TStruct (as_class (map fst l ++ [n])) (repeat t (length l) ++ [null_type]) []) (VStruct (map snd l ++ [null_value]) [])
| cut_member_here : forall i ns n ns2 ts t us ps l x r par, si_names i = ns ++ n :: ns2 -> length ns = length l -> length ts = length l -> x <> VOpt None -> unwritable t x ->
    cut true (TStruct i (ts ++ t :: us) ps) (VStruct (l ++ x :: r) par) (TStruct (with_names i (ns ++ [n])) (ts ++ [null_type]) []) (VStruct (l ++ [null_value]) [])
| cut_elem : forall g k t l x t' x' r, cut g t x t' x' -> cut g (TSeq k t) (VList (l ++ x :: r)) (TTup (repeat t (length l) ++ [t'])) (VList (l ++ [x']))
| cut_array : forall g n t l x t' x' r, n = length (l ++ x :: r) -> cut g t x t' x' -> cut g (TArr n t) (VList (l ++ x :: r)) (TTup (repeat t (length l) ++ [t'])) (VList (l ++ [x']))
| cut_tuple : forall g ts t us l x t' x' r, length ts = length l -> cut g t x t' x' -> cut g (TTup (ts ++ t :: us)) (VList (l ++ x :: r)) (TTup (ts ++ [t'])) (VList (l ++ [x']))
| cut_entry : forall g k t l n x t' x' r, Forall (fun kv => snd kv <> VOpt None) l -> cut g t x t' x' ->
    cut g (TMap k t) (VMap (l ++ (n, x) :: r)) (TStruct (as_class (map fst l ++ [n])) (repeat t (length l) ++ [t']) []) (VStruct (map snd l ++ [x']) [])
| cut_member : forall g i ns n ns2 ts t us ps l x t' x' r par, si_names i = ns ++ n :: ns2 -> length ns = length l -> length ts = length l -> cut g t x t' x' ->
    cut g (TStruct i (ts ++ t :: us) ps) (VStruct (l ++ x :: r) par) (TStruct (with_names i (ns ++ [n])) (ts ++ [t']) []) (VStruct (l ++ [x']) [])
| cut_parent : forall g i ts ps p qs own par y p' y' rest, length ps = length par -> is_class p = true -> cut g p y p' y' ->
    cut g (TStruct i ts (ps ++ p :: qs)) (VStruct own (par ++ y :: rest)) (TStruct i ts (ps ++ [p'])) (VStruct own (par ++ [y']))
| cut_variant : forall g cs t ds x t' x', is_class t = true -> cut g t x t' x' -> cut g (TVariant (cs ++ t :: ds)) (VVar (length cs) x) (TVariant (cs ++ [t'])) (VVar (length cs) x')
| cut_poly : forall g cs t ds o x t' x', is_class t = true -> cut g t x t' x' ->
    cut g (TPoly (cs ++ t :: ds) o) (VPtr (Some (VVar (length cs) x))) (TPoly (cs ++ [t']) o) (VPtr (Some (VVar (length cs) x')))
| cut_ptr : forall g t x t' x', cut g t x t' x' -> cut g (TPtr t) (VPtr (Some x)) (TPtr t') (VPtr (Some x'))
| cut_opt : forall g t x t' x', cut g t x t' x' -> cut g (TOpt t) (VOpt (Some x)) (TOpt t') (VOpt (Some x')).

(** [out] with [gap] taken out of it at one place. *)
Definition without (gap out out' : list Z) : Prop := exists a b, out = a ++ gap ++ b /\ out' = a ++ b.
