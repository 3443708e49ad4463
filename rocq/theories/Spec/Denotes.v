(** The document that stands for a C++ value, and the conditions on types and values under which documents and values
    correspond.  Nothing here runs the printer or the reader. *)
From Coq Require Import ZArith List Bool.
From Verif Require Import Model.Base Model.Source Model.Number Model.ParserInterface Model.Printer Model.JsonPrinter Model.Types Spec.JsonString Spec.Json Spec.Typed
  Spec.Import.
Import ListNotations.
Open Scope Z_scope.

Fixpoint rel2 {X} (rs : list (X -> Prop)) (l : list X) : Prop :=
  match rs, l with
  | [], [] => True
  | r :: rs', x :: l' => r x /\ rel2 rs' l'
  | _, _ => False
  end.
Fixpoint rel3 {X Y} (rs : list (X -> Y -> Prop)) (l : list X) (m : list Y) : Prop :=
  match rs, l, m with
  | [], [], [] => True
  | r :: rs', x :: l', y :: m' => r x y /\ rel3 rs' l' m'
  | _, _, _ => False
  end.

(** An empty optional that is a member of a class is left out of the document. *)
Definition left_out (t : ty) (v : val) : Prop := (exists t', t = TOpt t') /\ v = VOpt None.

(** ** The document of a value.  The parameters say which scalars stand for an integer, a bool, a string, a class name and
    null, and which keys stand for a name. *)
Section Document.
  Context {A : Type} (Int : ity -> Z -> A -> Prop) (Bool : bool -> A -> Prop) (Str Tag : bytes -> A -> Prop)
    (Null : A -> Prop) (Key : bytes -> bytes -> Prop) (marker : bytes).

  Record sense := mkSense {
    d_val : val -> tree A -> Prop;                          (* the document of the value *)
    d_members : val -> list (bytes * tree A) -> Prop        (* the members of the object of a class *)
  }.
  Definition d_simple (d : val -> tree A -> Prop) : sense := mkSense d (fun _ _ => False).

  Definition entry (n : bytes) (P : tree A -> Prop) (e : bytes * tree A) : Prop := Key n (fst e) /\ P (snd e).
  (** The type field of an object: the marker and the name of the class. *)
  Definition tagged (c : bytes) (e : bytes * tree A) : Prop := entry marker (fun j => exists a, j = Scal a /\ Tag c a) e.

  (** The members of a class in the order of their declaration. *)
  Fixpoint own_members (ns : list bytes) (ts : list ty) (ds : list sense) (vs : list val) (l : list (bytes * tree A)) : Prop :=
    match ns, ts, ds, vs with
    | [], [], [], [] => l = []
    | n :: ns', t :: ts', d :: ds', v :: vs' =>
        (left_out t v /\ own_members ns' ts' ds' vs' l) \/
        (~ left_out t v /\ exists e r, l = e :: r /\ entry n (d_val d v) e /\ own_members ns' ts' ds' vs' r)
    | _, _, _, _ => False
    end.
  (** Then the members of the parents. *)
  Fixpoint parent_members (ds : list sense) (vs : list val) (l : list (bytes * tree A)) : Prop :=
    match ds, vs with
    | [], [] => l = []
    | d :: ds', v :: vs' => exists a b, l = a ++ b /\ d_members d v a /\ parent_members ds' vs' b
    | _, _ => False
    end.

  Definition tagged_object (c : bytes) (d : sense) (v : val) (j : tree A) : Prop :=
    exists e l, j = Obj (e :: l) /\ tagged c e /\ d_members d v l.

  Fixpoint sense_of (t : ty) : sense :=
    match t with
    | TInt i => d_simple (fun v j => exists z a, v = VInt z /\ j = Scal a /\ Int i z a)
    | TBool => d_simple (fun v j => exists b a, v = VBool b /\ j = Scal a /\ Bool b a)
    | TStr => d_simple (fun v j => exists s a, v = VStr s /\ j = Scal a /\ Str s a)
    | TEnum l => d_simple (fun v j => exists z n a, v = VInt z /\ enum_name l z = Some n /\ j = Scal a /\ Str n a)
    | TSeq _ t' => let d := sense_of t' in
        d_simple (fun v j => exists l js, v = VList l /\ j = Arr js /\ Forall2 (d_val d) l js)
    | TArr n t' => let d := sense_of t' in
        d_simple (fun v j => exists l js, v = VList l /\ length l = n /\ j = Arr js /\ Forall2 (d_val d) l js)
    | TTup ts => let ds := map sense_of ts in
        d_simple (fun v j => exists l js, v = VList l /\ j = Arr js /\ rel3 (map d_val ds) l js)
    | TMap _ t' => let d := sense_of t' in
        d_simple (fun v j => exists l es, v = VMap l /\ j = Obj es /\
                    Forall2 (fun kv e => entry (fst kv) (d_val d (snd kv)) e) l es)
    | TPtr t' => let d := sense_of t' in
        d_simple (fun v j => (v = VPtr None /\ exists a, j = Scal a /\ Null a) \/ exists x, v = VPtr (Some x) /\ d_val d x j)
    | TOpt t' => let d := sense_of t' in
        d_simple (fun v j => exists x, v = VOpt (Some x) /\ d_val d x j)
    | TStruct i ms ps =>
        let dm := map sense_of ms in
        let dp := map sense_of ps in
        let members := fun v l => exists own par a b, v = VStruct own par /\ l = a ++ b /\
                         own_members (map (nameOverride i) (si_names i)) ms dm own a /\ parent_members dp par b in
        mkSense (fun v j => if si_mark i then exists e l, j = Obj (e :: l) /\ tagged (si_poly i) e /\ members v l
                            else exists l, j = Obj l /\ members v l)
                members
    | TPoly cs _ => let ds := map sense_of cs in
        d_simple (fun v j => (v = VPtr None /\ exists a, j = Scal a /\ Null a) \/
                    exists k c d x, v = VPtr (Some (VVar k x)) /\ nth_error cs k = Some c /\ nth_error ds k = Some d /\
                      tagged_object (class_name c) d x j)
    | TVariant cs => let ds := map sense_of cs in
        d_simple (fun v j => exists k c d x, v = VVar k x /\ nth_error cs k = Some c /\ nth_error ds k = Some d /\
                    tagged_object (class_name c) d x j)
    end.
End Document.
Arguments sense : clear implicits.
Arguments mkSense {A}. Arguments d_val {A}. Arguments d_members {A}.

(** ** JSON *)
(** An unsigned zero has no sign. *)
Definition json_int (i : ity) (z : Z) (a : jscal) : Prop :=
  exists txt, a = SNum txt /\ int_literal txt z /\ (i_signed i = false -> forall r, txt <> 45 :: r).
Definition json_bool (b : bool) (a : jscal) : Prop := a = if b then STrue else SFalse.
Definition json_str (s : bytes) (a : jscal) : Prop := exists raw, a = SStr raw /\ names true raw s.
(** A class name is spelled such that it can be skipped exactly by a reader that does not want it. *)
Definition json_tag (s : bytes) (a : jscal) : Prop :=
  exists raw, a = SStr raw /\ names true raw s /\ skip_safe StrIn raw.
Definition json_null (a : jscal) : Prop := a = SNull.
Definition json_key (n raw : bytes) : Prop := names true raw n.
Definition json_sense (marker : bytes) : ty -> sense jscal :=
  sense_of json_int json_bool json_str json_tag json_null json_key marker.
(** [stands_for marker t v j]: [j] is a JSON document of the value [v] of type [t]. *)
Definition stands_for (marker : bytes) (t : ty) (v : val) (j : jv) : Prop := d_val (json_sense marker t) v j.

(** ** Conditions on the values inside a value *)
Fixpoint each (P : ty -> val -> Prop) (t : ty) (v : val) : Prop :=
  P t v /\
  match t, v with
  | TSeq _ t', VList l | TArr _ t', VList l => Forall (each P t') l
  | TTup ts, VList l => rel2 (map (each P) ts) l
  | TMap _ t', VMap l => Forall (fun kv => each P t' (snd kv)) l
  | TPtr t', VPtr (Some x) | TOpt t', VOpt (Some x) => each P t' x
  | TStruct _ ms ps, VStruct own par => rel2 (map (each P) ms) own /\ rel2 (map (each P) ps) par
  | TPoly cs _, VPtr (Some (VVar k x)) | TVariant cs, VVar k x =>
      match nth_error (map (each P) cs) k with Some f => f x | None => False end
  | _, _ => True
  end.
Definition bytes_in (s : bytes) : Prop := Forall (fun c => 0 <= c < 256) s.
(** The elements of a sequence container: those of a set and of a map are in the order of the keys and have different keys, those
    of a multiset and of a multimap are in the order of the keys. *)
Inductive each_before (R : val -> val -> Prop) : list val -> Prop :=
| eb_nil : each_before R []
| eb_cons : forall x l, Forall (R x) l -> each_before R l -> each_before R (x :: l).
Definition in_order (co : cont) (l : list val) : Prop :=
  match co with
  | CBack | CBits => True
  | CSet => each_before (fun x y => val_cmp x y = Lt) l
  | CMultiset => each_before (fun x y => val_cmp x y <> Gt) l
  | CMap => each_before (fun x y => val_cmp (key_of co x) (key_of co y) = Lt) l
  | CMultimap => each_before (fun x y => val_cmp (key_of co x) (key_of co y) <> Gt) l
  end.
(** What every C++ value satisfies: integers are in the range of their type, characters are bytes, the entries of a map are
    ordered and have different keys, the elements of a set are ordered and different, and so on. *)
Definition valid_here (t : ty) (v : val) : Prop :=
  match t, v with
  | TInt i, VInt z => fits i z
  | TStr, VStr s => bytes_in s
  | TMap mk _, VMap l => ordered mk l /\ Forall (fun kv => bytes_in (fst kv)) l
  | TSeq co _, VList l => in_order co l
  | _, _ => True
  end.
Definition valid (t : ty) (v : val) : Prop := shaped t v = true /\ each valid_here t v.

(** Text that JSON spells as itself. *)
Definition plain (s : bytes) : Prop := Forall (fun c => 32 <= c < 256 /\ c <> 34 /\ c <> 92) s.
(** The keys of the maps with string keys are plain text. *)
Definition plain_keys (t : ty) (v : val) : Prop :=
  each (fun t v => match t, v with TMap _ _, VMap l => Forall (fun kv => plain (fst kv)) l | _, _ => True end) t v.

(** A value that is written as null. *)
Fixpoint null_written (t : ty) (v : val) : bool :=
  match t, v with
  | TPtr _, VPtr None | TPoly _ _, VPtr None => true
  | TPtr t', VPtr (Some x) | TOpt t', VOpt (Some x) => null_written t' x
  | _, _ => false
  end.
(** No pointer points to something that is itself written as null. *)
Definition no_null_target (t : ty) (v : val) : Prop :=
  each (fun t v => match t, v with TPtr t', VPtr (Some x) => null_written t' x = false | _, _ => True end) t v.
(** The same for formats in which some text reads as null: neither null nor such text is what the value is written as. *)
Fixpoint null_like (blank : bytes -> bool) (t : ty) (v : val) : bool :=
  match t, v with
  | TPtr _, VPtr None | TPoly _ _, VPtr None => true
  | TPtr t', VPtr (Some x) | TOpt t', VOpt (Some x) => null_like blank t' x
  | TStr, VStr s => blank s
  | TEnum l, VInt z => match enum_name l z with Some n => blank n | None => false end
  | _, _ => false
  end.
Definition no_null_like (blank : bytes -> bool) (t : ty) (v : val) : Prop :=
  each (fun t v => match t, v with TPtr t', VPtr (Some x) => null_like blank t' x = false | _, _ => True end) t v.
(** No member is left out. *)
Definition complete (t : ty) (v : val) : Prop :=
  each (fun t v => match t, v with
                   | TStruct _ ms _, VStruct own _ => rel2 (map (fun t v => ~ left_out t v) ms) own
                   | _, _ => True
                   end) t v.

(** The number of brackets around the innermost value; the members of a parent class are in the object of the class. *)
Fixpoint nesting (v : val) : nat :=
  match v with
  | VInt _ | VBool _ | VStr _ => 0
  | VList l => S (list_max (map nesting l))
  | VMap l => S (list_max (map (fun kv => nesting (snd kv)) l))
  | VPtr (Some x) | VOpt (Some x) => nesting x
  | VPtr None | VOpt None => 0
  | VStruct own par => S (Nat.max (list_max (map nesting own)) (list_max (map (fun p => pred (nesting p)) par)))
  | VVar _ x => nesting x
  end.

(** ** Conditions on the types inside a type *)
Fixpoint all_of (l : list Prop) : Prop := match l with [] => True | p :: r => p /\ all_of r end.
Fixpoint types (P : ty -> Prop) (t : ty) : Prop :=
  P t /\
  match t with
  | TSeq _ t' | TArr _ t' | TMap _ t' | TPtr t' | TOpt t' => types P t'
  | TTup ts => all_of (map (types P) ts)
  | TStruct _ ms ps => all_of (map (types P) ms) /\ all_of (map (types P) ps)
  | TPoly cs _ | TVariant cs => all_of (map (types P) cs)
  | _ => True
  end.
(** The JSON names of all members of a class, those of its parents included. *)
Fixpoint member_names (t : ty) : list bytes :=
  match t with
  | TStruct i _ ps => map (nameOverride i) (si_names i) ++ flat_map member_names ps
  | _ => []
  end.
(** Names and keys that can stand between quotes as they are. *)
Definition legal_names (t : ty) : Prop :=
  types (fun t => match t with
                  | TStruct i _ _ => Forall legal_string (map (nameOverride i) (si_names i)) /\ bytes_in (si_poly i)
                  | TEnum l => Forall (fun e => bytes_in (snd e)) l
                  | _ => True
                  end) t.
Definition legal_keys (t : ty) (v : val) : Prop :=
  each (fun t v => match t, v with TMap _ _, VMap l => Forall (fun kv => legal_string (fst kv)) l | _, _ => True end) t v.
(** Names are plain text.  (C++ identifiers are; ThorsAnvil_MakeOverride takes any string.) *)
Definition plain_name (s : bytes) : Prop := plain s /\ ~ In 255 s.
Definition plain_names (t : ty) : Prop :=
  types (fun t => match t with
                  | TStruct i _ _ => Forall plain_name (map (nameOverride i) (si_names i)) /\ plain_name (si_poly i)
                  | TEnum l => Forall (fun e => bytes_in (snd e)) l
                  | _ => True
                  end) t.
(** Names tell members, enumerators and classes apart; no member is called like the type field of its class. *)
Definition distinct_names (marker : bytes) (t : ty) : Prop :=
  types (fun t => match t with
                  | TStruct i _ _ => NoDup (member_names t) /\ (si_mark i = true -> ~ In marker (member_names t))
                  | TEnum l => NoDup (map snd l)
                  | TPoly cs _ | TVariant cs => NoDup (map class_name cs)
                  | _ => True
                  end) t.
(** No class that is held by value (not through a pointer to a base, not in a variant) declares its own type field. *)
Fixpoint untagged (by_value : bool) (t : ty) : bool :=
  match t with
  | TSeq _ t' | TArr _ t' | TMap _ t' | TPtr t' | TOpt t' => untagged true t'
  | TTup ts => forallb (untagged true) ts
  | TStruct i ms ps =>
      negb (by_value && si_mark i) && forallb (untagged true) ms && forallb (untagged false) ps
  | TPoly cs _ | TVariant cs => forallb (untagged false) cs
  | _ => true
  end.
(** No class renames members. *)
Definition no_overrides (t : ty) : Prop := types (fun t => no_override t = true) t.

(** The indentation of [n] nested brackets is at most 4003 characters. *)
Definition indent_room (c : fconfig) (n : nat) : Prop :=
  0 <= pf_tab c /\ 0 <= pf_block c /\
  Z.of_nat n * (if pf_tab c =? 0 then 4 else pf_tab c) + pf_block c <= 4003.
Definition indent_ok (c : fconfig) (v : val) : Prop := pf_type c <> OStream -> nesting v = O \/ indent_room c (nesting v).

(** The values that are read back from their documents with strictness [m]. *)
Definition reads_back (m : strictness) (marker : bytes) (t : ty) (v : val) : Prop :=
  wf t = true /\ valid t v /\ distinct_names marker t /\ no_null_target t v /\
  (m <> Weak -> untagged true t = true) /\ (m = Exact -> complete t v /\ no_overrides t).
