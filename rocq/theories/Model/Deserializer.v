(** DeSerializer: the type directed reader (Serialize.tpp:39-902, SerUtil.h), over any parser.

    [deser F m marker t] is the code instantiated for the type [t]: [d_parse] is DeSerializer::parse /
    DeSerializationForBlock<...>::scanObject / GetValueType, [d_scan] is DeSerializer::scanObjectMembers.  [F] bounds
    every loop, [m] is config.parseStrictness, [marker] the polymorphic marker.  A value that does not have the
    shape of the type gives [UB]; it cannot be written in C++. *)
From Coq Require Import ZArith List Bool.
From Verif Require Import Model.Base Model.Number Model.ParserInterface Model.Types.
Import ListNotations.
Open Scope Z_scope.

Record dfun (St : Type) := mkD {
  d_parse : val -> pst St -> outcome (val * pst St);
  d_scan  : bytes -> val -> pst St -> option (outcome (val * pst St))   (* None: no such member *)
}.
Arguments mkD {St}. Arguments d_parse {St}. Arguments d_scan {St}.

Section Deser.
  Context {St : Type} (ops : parser_ops St) (F : nat) (m : strictness) (marker : bytes).

  (** DeSerializationForBlock<Value> (Serialize.tpp:272-294), GetValueType<Value> (SerUtil.h:139-154). *)
  Definition read_value {A} (rd : St -> outcome (A * St)) (mk : A -> val) (p : pst St) : outcome (val * pst St) :=
    do (t, p) <- getToken ops p;
    match t with
    | TokValue => do (a, p) <- lift rd p; Ok (mk a, p)
    | _ => Throw
    end.

  (** DeSerializationForBlock<Map>: hasMoreValue and the loop of scanObject (Serialize.tpp:222-264). *)
  Fixpoint obj_loop (n : nat) (scan : bytes -> val -> pst St -> option (outcome (val * pst St)))
           (v : val) (found : list bytes) (p : pst St) : outcome (val * list bytes * pst St) :=
    match n with
    | O => Hang
    | S n =>
        do (t, p) <- getToken ops p;
        match t with
        | TokMapEnd => Ok (v, found, p)
        | _ =>
            do (k, p) <- lift (op_key ops) p;
            match scan k v p with
            | Some r => do (v', p) <- r; obj_loop n scan v' (k :: found) p
            | None => do p <- ignoreValue ops m F p; obj_loop n scan v found p
            end
        end
    end.

  (** The whole Map block: constructor (Serialize.tpp:207-220) and scanObject with the Exact check. *)
  Definition read_map (req : list bytes) (scan : bytes -> val -> pst St -> option (outcome (val * pst St)))
             (v : val) (p : pst St) : outcome (val * pst St) :=
    do (t, p) <- getToken ops p;
    match t with
    | TokMapStart =>
        do (v', found, p) <- obj_loop F scan v [] p;
        match m with
        | Exact => if forallb (fun r => existsb (beq r) found) req then Ok (v', p) else Throw
        | _ => Ok (v', p)
        end
    | _ => Throw
    end.

  (** DeSerializationForBlock<Array> (Serialize.tpp:621-662). *)
  Fixpoint arr_loop (n : nat) (elem : nat -> val -> pst St -> outcome (val * pst St)) (i : nat)
           (v : val) (p : pst St) : outcome (val * pst St) :=
    match n with
    | O => Hang
    | S n =>
        do (t, p) <- getToken ops p;
        match t with
        | TokArrayEnd => Ok (v, p)
        | _ => do (v', p) <- elem i v (pushBackToken t p); arr_loop n elem (S i) v' p
        end
    end.
  Definition read_array (elem : nat -> val -> pst St -> outcome (val * pst St)) (v : val) (p : pst St)
    : outcome (val * pst St) :=
    do (t, p) <- getToken ops p;
    match t with
    | TokArrayStart => arr_loop F elem O v p
    | _ => Throw
    end.

  (** MemberEmplacer for vector/list/deque: emplace_back, then read (SerUtil.h:346-399, 428-455).  ContainerMemberExtractorInserter
      (SerUtil.h:217-239) for the others: read, then insert. *)
  Definition elem_vec (co : cont) (d : dfun St) (dflt : val) (_ : nat) (v : val) (p : pst St) : outcome (val * pst St) :=
    match v with
    | VList l => do (x, p) <- d_parse d dflt p; Ok (VList (seq_add co l x), p)
    | _ => UB
    end.
  (** MemberEmplacer for array (container[index], SerUtil.h:318-330) and ContainerTuppleExtractor::parseTupleValues
      (SerUtil.h:846-861): an index that is too large is undefined behaviour. *)
  Definition elem_fixed (ds : list (dfun St)) (i : nat) (v : val) (p : pst St) : outcome (val * pst St) :=
    match v with
    | VList l =>
        match nth_error ds i, nth_error l i with
        | Some d, Some x => do (x', p) <- d_parse d x p; Ok (VList (set_nth i x' l), p)
        | _, _ => UB
        end
    | _ => UB
    end.

  (** map<string,T>: object[key] is read in place (SerUtil.h:619-623); unordered_map<string,T>: read, then insert
      (SerUtil.h:684-689); multimap<string,T>: the same (SerUtil.h:809-814). *)
  Definition scan_map (mk : map_kind) (d : dfun St) (dflt : val) (k : bytes) (v : val) (p : pst St)
    : option (outcome (val * pst St)) :=
    match v with
    | VMap l =>
        match mk with
        | MFirst =>
            Some (do (x, p) <- d_parse d dflt p;
                  Ok (VMap (match map_find k l with Some _ => l | None => map_set k x l end), p))
        | MPlace =>
            Some (do (x, p) <- d_parse d (match map_find k l with Some x => x | None => dflt end) p;
                  Ok (VMap (map_set k x l), p))
        | MAll => Some (do (x, p) <- d_parse d dflt p; Ok (VMap (map_add k x l), p))
        end
    | _ => Some UB
    end.

  (** scanEachMember / make_DeSerializeMember (Serialize.tpp:829-855): the first member whose (overridden) name is
      the key. *)
  Fixpoint scan_members (ns : list bytes) (ds : list (dfun St)) (vs : list val) (k : bytes) (p : pst St)
    : option (outcome (list val * pst St)) :=
    match ns, ds, vs with
    | [], [], [] => None
    | n :: ns', d :: ds', v :: vs' =>
        if beq k n then Some (do (v', p) <- d_parse d v p; Ok (v' :: vs', p))
        else match scan_members ns' ds' vs' k p with
             | Some r => Some (do (l, p) <- r; Ok (v :: l, p))
             | None => None
             end
    | _, _, _ => Some UB
    end.
  (** ApplyActionToAllParent::scanParentMember (Serialize.tpp:60-68): the first parent that knows the key. *)
  Fixpoint scan_parents (ds : list (dfun St)) (vs : list val) (k : bytes) (p : pst St)
    : option (outcome (list val * pst St)) :=
    match ds, vs with
    | [], [] => None
    | d :: ds', v :: vs' =>
        match d_scan d k v p with
        | Some r => Some (do (v', p) <- r; Ok (v' :: vs', p))
        | None => match scan_parents ds' vs' k p with
                  | Some r => Some (do (l, p) <- r; Ok (v :: l, p))
                  | None => None
                  end
        end
    | _, _ => Some UB
    end.
  (** scanObjectMembers (Serialize.tpp:870-878): parents first, then the own members. *)
  Definition scan_struct (i : sinfo) (dm dp : list (dfun St)) (k : bytes) (v : val) (p : pst St)
    : option (outcome (val * pst St)) :=
    match v with
    | VStruct own par =>
        match scan_parents dp par k p with
        | Some r => Some (do (par', p) <- r; Ok (VStruct own par', p))
        | None =>
            match scan_members (map (nameOverride i) (si_names i)) dm own k p with
            | Some r => Some (do (own', p) <- r; Ok (VStruct own' par, p))
            | None => None
            end
        end
    | _ => Some UB
    end.

  (** getPolymorphicClassName (Serialize.tpp:367-421).  When the first key is not the marker the default
      config.identifyDynamicType gives "" and the function throws (the seek back is then irrelevant). *)
  Definition read_class_name (p : pst St) : outcome (bytes * pst St) :=
    do (t, p) <- getToken ops p;
    match t with
    | TokMapStart =>
        do (t, p) <- getToken ops p;
        match t with
        | TokKey =>
            do (k, p) <- lift (op_key ops) p;
            if beq k marker then
              do (t, p) <- getToken ops p;
              match t with
              | TokValue => do (c, p) <- lift (op_str ops) p; Ok (c, pushBackToken TokMapStart p)
              | _ => Throw
              end
            else Throw
        | _ => Throw
        end
    | _ => Throw
    end.

  (** DeSerializationForBlock<Pointer> (Serialize.tpp:491-517); [rest] is tryParsePolyMorphicObject. *)
  Definition read_pointer (rest : pst St -> outcome (val * pst St)) (p : pst St) : outcome (val * pst St) :=
    do (t, p) <- getToken ops p;
    if op_null ops (ps_impl p) then do p <- lift_ (op_ignore ops) p; Ok (VPtr None, p)
    else rest (pushBackToken t p).

  Fixpoint deser (t : ty) : dfun St :=
    match t with
    | TInt i => mkD (fun _ p => read_value (op_int ops i) VInt p) (fun _ _ _ => Some UB)
    | TBool => mkD (fun _ p => read_value (op_bool ops) VBool p) (fun _ _ _ => Some UB)
    | TStr => mkD (fun _ p => read_value (op_str ops) VStr p) (fun _ _ _ => Some UB)
    | TEnum l =>
        (* DeSerializationForBlock<Enum> (Serialize.tpp:588-613) *)
        mkD (fun _ p =>
               do (v, p) <- read_value (op_str ops) VStr p;
               match v with
               | VStr s => match enum_value l s with Some z => Ok (VInt z, p) | None => Throw end
               | _ => UB
               end) (fun _ _ _ => Some UB)
    | TSeq co t' => let d := deser t' in
        mkD (read_array (elem_vec co d (default t'))) (fun _ _ _ => Some UB)
    | TArr n t' => let d := deser t' in
        mkD (read_array (elem_fixed (repeat d n))) (fun _ _ _ => Some UB)
    | TTup ts => let ds := map deser ts in
        mkD (read_array (elem_fixed ds)) (fun _ _ _ => Some UB)
    | TMap fw t' => let d := deser t' in
        let scan := scan_map fw d (default t') in
        mkD (read_map [] scan) scan
    | TPtr t' => let d := deser t' in
        mkD (fun _ p => read_pointer (fun p => do (x, p) <- d_parse d (default t') p; Ok (VPtr (Some x), p)) p)
            (fun _ _ _ => Some UB)
    | TOpt t' => let d := deser t' in
        (* DeSerializationForBlock<Reference> (Serialize.tpp:548-567), optional::ValueGetter (SerUtil.h:980-986) *)
        mkD (fun v p =>
               match v with
               | VOpt o => do (x, p) <- d_parse d (match o with Some x => x | None => default t' end) p;
                           Ok (VOpt (Some x), p)
               | _ => UB
               end) (fun _ _ _ => Some UB)
    | TStruct i ms ps =>
        let scan := scan_struct i (map deser ms) (map deser ps) in
        mkD (read_map (required (TStruct i ms ps)) scan) scan
    | TPoly cs others =>
        let ds := map deser cs in
        (* tryParsePolyMorphicObject (Serialize.tpp:423-441), PolyMorphicRegistry (Traits.h:1161-1194): the object of
           a registered class that is not derived from the base is used through a reinterpret_cast pointer *)
        mkD (fun _ p => read_pointer (fun p =>
               do (c, p) <- read_class_name p;
               match find_class cs c with
               | Some k =>
                   match nth_error cs k, nth_error ds k with
                   | Some tk, Some d => do (x, p) <- d_parse d (default tk) p; Ok (VPtr (Some (VVar k x)), p)
                   | _, _ => UB
                   end
               | None => if existsb (beq c) others then UB else Throw
               end) p) (fun _ _ _ => Some UB)
    | TVariant cs =>
        let ds := map deser cs in
        (* readVariant, readVariantValue (Serialize.tpp:459-488) *)
        mkD (fun v p =>
               do (c, p) <- read_class_name p;
               match find_class cs c with
               | Some k =>
                   match nth_error cs k, nth_error ds k with
                   | Some tk, Some d => do (x, p) <- d_parse d (default tk) p; Ok (VVar k x, p)
                   | _, _ => UB
                   end
               | None => do p <- ignoreValue ops m F p; Ok (v, p)
               end) (fun _ _ _ => Some UB)
    end.
End Deser.
