(** The C++ types that can be serialized, and their values.

    Simplifications: recursive classes are not expressible (a type is a finite tree); floating point members are
    modelled apart, in Model/Float.v; user supplied Filter/Custom serializers are not modelled; the polymorphic marker is one
    string for the whole document (Private::getPolymorphicMarker, PolymorphicMarker.h:42-54, resolves it from
    the config or the class); a class is value initialised by its default constructor. *)
From Coq Require Import ZArith List Bool.
From Verif Require Import Model.Base Model.Number.
Import ListNotations.
Open Scope Z_scope.

(** Static information of a class (ThorsAnvil_MakeTrait, ThorsAnvil_ExpandTrait, ThorsAnvil_MakeOverride:
    Traits.h:584-724; ThorsAnvil_PolyMorphicSerializer, ThorsAnvil_TypeFieldName: Traits.h:885-945). *)
Record sinfo := mkSinfo {
  si_names : list bytes;            (* member names, in the order of the trait *)
  si_over  : list (bytes * bytes);  (* Override: member name -> JSON name *)
  si_poly  : bytes;                 (* polyMorphicSerializerName() *)
  si_mark  : bool;                  (* the class declares its own type field (polyname()) *)
  si_virt  : bool;                  (* the class has the virtual functions of ThorsAnvil_PolyMorphicSerializer *)
  si_pair  : bool                   (* std::pair (SerUtil.h:260-288) *)
}.

(** Sequence containers: vector, list and deque (SerUtil.h:346-399, 428-455); vector<bool> (SerUtil.h:401-426); set and unordered_set, multiset and unordered_multiset
    (SerUtil.h:457-567); map, unordered_map, multimap and unordered_multimap with keys that are no strings, whose elements are pairs
    (SerUtil.h:569-596, 634-661, 700-726, 763-789).  Simplified: the unordered containers are treated as if they were ordered, so
    that the order in which their elements are written is not modelled. *)
Inductive cont := CBack | CBits | CSet | CMultiset | CMap | CMultimap.

(** Maps with string keys: what is done with an entry whose key is there already.  std::unordered_map keeps the old one (insert, SerUtil.h:684-689), std::map reads
    into it (operator[], SerUtil.h:619-623), std::multimap keeps both (insert, SerUtil.h:809-814). *)
Inductive map_kind := MFirst | MPlace | MAll.

(** Types.  Comments give the trait class. *)
Inductive ty :=
| TInt (i : ity)                                   (* ThorsSerializerUtil.h:132-140 *)
| TBool                                            (* ThorsSerializerUtil.h:146 *)
| TStr                                             (* ThorsSerializerUtil.h:148 *)
| TEnum (vals : list (Z * bytes))                  (* Traits.h:758-811; ordered by value *)
| TSeq (co : cont) (t : ty)                        (* sequence containers of [t] *)
| TArr (n : nat) (t : ty)                          (* std::array: SerUtil.h:318-343 *)
| TTup (ts : list ty)                              (* std::tuple: SerUtil.h:829-907 *)
| TMap (mk : map_kind) (t : ty)                     (* map, unordered_map, multimap<string,T>: SerUtil.h:601-698, 790-824 *)
| TPtr (t : ty)                                    (* T* / unique_ptr<T>, not polymorphic: SerUtil.h:916-931 *)
| TOpt (t : ty)                                    (* optional: SerUtil.h:976-995 *)
| TStruct (i : sinfo) (ms : list ty) (ps : list ty) (* class with members and parent classes *)
| TPoly (cs : list ty) (others : list bytes)       (* pointer to a polymorphic base: [cs] the registered classes
                                                      derived from it, [others] the names of the other registered
                                                      classes *)
| TVariant (cs : list ty).                         (* std::variant of classes: SerUtil.h:1011-1020 *)

(** vector, list, deque. *)
Notation TVec := (TSeq CBack).

Inductive val :=
| VInt (z : Z)                       (* integers and enum values *)
| VBool (b : bool)
| VStr (s : bytes)
| VList (l : list val)               (* sequences, arrays, tuples *)
| VMap (l : list (bytes * val))      (* ordered by key *)
| VPtr (o : option val)
| VOpt (o : option val)
| VStruct (own parents : list val)
| VVar (i : nat) (v : val).          (* object of the i-th class of a TPoly / TVariant *)

(** Override<T>::nameOverride (Traits.h:584-617 and 935-940). *)
Fixpoint lookup_name (l : list (bytes * bytes)) (n : bytes) : option bytes :=
  match l with
  | [] => None
  | (a, b) :: r => if beq a n then Some b else lookup_name r n
  end.
Definition nameOverride (i : sinfo) (n : bytes) : bytes :=
  match lookup_name (si_over i) n with Some m => m | None => n end.

(** Value initialisation [V data{}]. *)
Fixpoint default (t : ty) : val :=
  match t with
  | TInt _ => VInt 0
  | TBool => VBool false
  | TStr => VStr []
  | TEnum _ => VInt 0
  | TSeq _ _ => VList []
  | TArr n t => VList (repeat (default t) n)
  | TTup ts => VList (map default ts)
  | TMap _ _ => VMap []
  | TPtr _ => VPtr None
  | TOpt _ => VOpt None
  | TStruct _ ms ps => VStruct (map default ms) (map default ps)
  | TPoly _ _ => VPtr None
  | TVariant cs => match cs with c :: _ => VVar 0 (default c) | [] => VVar 0 (VStruct [] []) end
  end.

(** Names every class wants in Exact mode: HeedAllValues (Serialize.tpp:118-169).  The member names are used as
    declared, not as overridden. *)
Fixpoint required (t : ty) : list bytes :=
  match t with
  | TStruct i _ ps => si_names i ++ flat_map required ps
  | _ => []
  end.

(** polyMorphicSerializerName() of a class. *)
Definition class_name (t : ty) : bytes :=
  match t with TStruct i _ _ => si_poly i | _ => [] end.

(** Position of the class with a given name. *)
Fixpoint find_class (cs : list ty) (n : bytes) : option nat :=
  match cs with
  | [] => None
  | c :: r => if beq (class_name c) n then Some O
              else match find_class r n with Some k => Some (S k) | None => None end
  end.

(** Order of std::string. *)
Fixpoint bltb (a b : bytes) : bool :=
  match a, b with
  | [], [] => false
  | [], _ :: _ => true
  | _ :: _, [] => false
  | x :: a', y :: b' => (x <? y) || ((x =? y) && bltb a' b')
  end.

(** std::map: find and insert-or-assign on the ordered association list. *)
Fixpoint map_find (k : bytes) (l : list (bytes * val)) : option val :=
  match l with
  | [] => None
  | (a, v) :: r => if beq a k then Some v else map_find k r
  end.
Fixpoint map_set (k : bytes) (v : val) (l : list (bytes * val)) : list (bytes * val) :=
  match l with
  | [] => [(k, v)]
  | (a, w) :: r =>
      if beq a k then (a, v) :: r
      else if bltb k a then (k, v) :: l
      else (a, w) :: map_set k v r
  end.
(** std::multimap::insert: behind the entries with that key. *)
Fixpoint map_add (k : bytes) (v : val) (l : list (bytes * val)) : list (bytes * val) :=
  match l with
  | [] => [(k, v)]
  | (a, w) :: r => if bltb k a then (k, v) :: l else (a, w) :: map_add k v r
  end.

(** Sequence containers.  std::less of the keys: integers by value, false before true, strings as above, optionals, sequences,
    tuples and pairs element by element, the empty optional first.  Simplified: a class is compared member by member (its operator<
    can be anything), a pointer by what it points to, and float and double (Model/Float.v) are not keys. *)
Section Lex.
  Context {A : Type} (cmp : A -> A -> comparison).
  Fixpoint lex_cmp (l m : list A) : comparison :=
    match l, m with
    | [], [] => Eq
    | [], _ :: _ => Lt
    | _ :: _, [] => Gt
    | x :: l', y :: m' => match cmp x y with Eq => lex_cmp l' m' | c => c end
    end.
End Lex.
Definition opt_cmp {A} (cmp : A -> A -> comparison) (a b : option A) : comparison :=
  match a, b with None, None => Eq | None, Some _ => Lt | Some _, None => Gt | Some x, Some y => cmp x y end.
Definition then_cmp (a b : comparison) : comparison := match a with Eq => b | _ => a end.
(** Values of different kinds are never in one container. *)
Definition val_kind (v : val) : Z :=
  match v with
  | VInt _ => 0 | VBool _ => 1 | VStr _ => 2 | VList _ => 3 | VMap _ => 4 | VPtr _ => 5 | VOpt _ => 6 | VStruct _ _ => 7 | VVar _ _ => 8
  end.
Fixpoint val_cmp (a b : val) {struct a} : comparison :=
  match a, b with
  | VInt x, VInt y => x ?= y
  | VBool x, VBool y => Z.b2z x ?= Z.b2z y
  | VStr x, VStr y => lex_cmp Z.compare x y
  | VList l, VList m => lex_cmp val_cmp l m
  | VMap l, VMap m => lex_cmp (fun x y => then_cmp (lex_cmp Z.compare (fst x) (fst y)) (val_cmp (snd x) (snd y))) l m
  | VPtr x, VPtr y => opt_cmp val_cmp x y
  | VOpt x, VOpt y => opt_cmp val_cmp x y
  | VStruct l p, VStruct m q => then_cmp (lex_cmp val_cmp l m) (lex_cmp val_cmp p q)
  | VVar i x, VVar j y => then_cmp (Nat.compare i j) (val_cmp x y)
  | _, _ => val_kind a ?= val_kind b
  end.
(** What the elements are ordered by. *)
Definition key_of (co : cont) (v : val) : val :=
  match co, v with (CMap | CMultimap), VStruct (k :: _) _ => k | _, _ => v end.
Definition elem_ltb (co : cont) (a b : val) : bool :=
  match val_cmp (key_of co a) (key_of co b) with Lt => true | _ => false end.
(** insert: behind the elements that are not greater.  set and map do not insert an element whose key they have. *)
Definition one_of_each (co : cont) : bool := match co with CSet | CMap => true | _ => false end.
Section Insert.
  Context {A : Type} (ltb : A -> A -> bool) (uniq : bool) (x : A).
  Fixpoint insert_at (l : list A) : list A :=
    match l with
    | [] => [x]
    | y :: r => if ltb x y then x :: l else if uniq && negb (ltb y x) then l else y :: insert_at r
    end.
End Insert.
Definition seq_add (co : cont) (l : list val) (x : val) : list val :=
  match co with CBack | CBits => l ++ [x] | _ => insert_at (elem_ltb co) (one_of_each co) x l end.

(** Enum names (Traits.h:775-790, 797-808). *)
Fixpoint enum_value (l : list (Z * bytes)) (n : bytes) : option Z :=
  match l with
  | [] => None
  | (z, m) :: r => if beq m n then Some z else enum_value r n
  end.
Fixpoint enum_name (l : list (Z * bytes)) (z : Z) : option bytes :=
  match l with
  | [] => None
  | (y, m) :: r => if y =? z then Some m else enum_name r z
  end.

Fixpoint set_nth {A} (i : nat) (x : A) (l : list A) : list A :=
  match l, i with
  | [], _ => []
  | _ :: r, O => x :: r
  | a :: r, S j => a :: set_nth j x r
  end.
