(** Serializer: the type directed printer (Serialize.tpp:904-1355, SerUtil.h, Traits.h:1009-1072), over any printer.

    [ser marker t] is the code instantiated for the type [t].  A value that does not have the shape of the type gives
    [UB]; it cannot be written in C++.  Simplified: when an exception is thrown the destructors of the open blocks
    still write their closing brackets; what a failed export has written is not modelled here (JSON: Model/JsonLeft.v). *)
From Coq Require Import ZArith List Bool.
From Verif Require Import Model.Base Model.Number Model.Printer Model.Types.
Import ListNotations.
Open Scope Z_scope.

Record sfun (St : Type) := mkS {
  sf_print : val -> writer St;      (* SerializerForBlock: constructor, printMembers, destructor *)
  sf_poly : val -> writer St;       (* printPolyMorphicObject (Serialize.tpp:1043-1052) *)
  sf_members : val -> writer St;    (* Serializer::printObjectMembers (Serialize.tpp:1346-1355) *)
  sf_size : bool -> val -> St -> outcome Z;             (* Traits<T>::getPrintSize(printer, object, poly) *)
  sf_total : val -> Z * Z -> St -> outcome (Z * (Z * Z)) (* getPrintSizeTotal; count and memberSize are references *)
}.
Arguments mkS {St}. Arguments sf_print {St}. Arguments sf_poly {St}. Arguments sf_members {St}.
Arguments sf_size {St}. Arguments sf_total {St}.

(** Filter<T>::filter (Traits.h:966-978): an empty optional member is left out.  A class with
    ThorsAnvil_MakeFilter is in Model/Filter.v. *)
Definition opt_type (t : ty) : bool := match t with TOpt _ => true | _ => false end.
Definition keeps (opt : bool) (v : val) : bool :=
  if opt then match v with VOpt None => false | _ => true end else true.

Section Ser.
  Context {St : Type} (ops : printer_ops St) (marker : bytes).

  Definition zlen {A} (l : list A) : Z := Z.of_nat (length l).

  (** A block that opens with a size (Serialize.tpp:917-931, 1194-1208): constructor, body, destructor. *)
  Definition sized (open : Z -> writer St) (close : writer St) (size : St -> outcome Z) (body : writer St) : writer St :=
    fun s => do z <- (if pr_usesSize ops then size s else Ok 0); w_then (open z) (w_then body close) s.
  Definition map_block := sized (pr_openMap ops) (pr_closeMap ops).
  Definition array_block := sized (pr_openArray ops) (pr_closeArray ops).

  (** SerializeMemberContainer, SerializeMemberValue::init (Serialize.tpp:1217-1262) for all members of a class
      (Serialize.tpp:1282-1300). *)
  Fixpoint put_members (ns : list bytes) (opts : list bool) (ss : list (sfun St)) (vs : list val) : writer St :=
    match ns, opts, ss, vs with
    | [], [], [], [] => w_nothing
    | n :: ns', o :: os', f :: ss', v :: vs' =>
        w_then (if keeps o v then w_then (pr_key ops n) (sf_print f v) else w_nothing) (put_members ns' os' ss' vs')
    | _, _, _, _ => w_fail UB
    end.
  (** ApplyActionToAllParent::printParentMember (Serialize.tpp:70-79): all parents in order. *)
  Fixpoint put_parents (ss : list (sfun St)) (vs : list val) : writer St :=
    match ss, vs with
    | [], [] => w_nothing
    | f :: ss', v :: vs' => w_then (sf_members f v) (put_parents ss' vs')
    | _, _ => w_fail UB
    end.
  Definition put_struct (i : sinfo) (opts : list bool) (sm sp : list (sfun St)) (v : val) : writer St :=
    match v with
    | VStruct own par => w_then (put_members (map (nameOverride i) (si_names i)) opts sm own) (put_parents sp par)
    | _ => w_fail UB
    end.
  (** printPolyMorphicMembers (Serialize.tpp:942-947). *)
  Definition put_marker (i : sinfo) : writer St := w_then (pr_key ops marker) (pr_str ops (si_poly i)).

  (** Sequences: PutValueType for every element (SerUtil.h:163-191, 223-230). *)
  Definition put_elems (f : sfun St) (l : list val) : writer St := w_all (map (sf_print f) l).
  (** Tuples (SerUtil.h:834-845). *)
  Fixpoint put_tuple (ss : list (sfun St)) (vs : list val) : writer St :=
    match ss, vs with
    | [], [] => w_nothing
    | f :: ss', v :: vs' => w_then (sf_print f v) (put_tuple ss' vs')
    | _, _ => w_fail UB
    end.
  (** Maps with string keys (SerUtil.h:610-618, 676-684). *)
  Definition put_entries (f : sfun St) (l : list (bytes * val)) : writer St :=
    w_all (map (fun kv => w_then (pr_key ops (fst kv)) (sf_print f (snd kv))) l).

  (** ** Sizes *)
  Fixpoint sum_sizes (l : list (outcome Z)) : outcome Z :=
    match l with [] => Ok 0 | o :: r => do a <- o; do b <- sum_sizes r; Ok (a + b) end.
  (** ArrayLike (SerUtil.h:104-119). *)
  Definition size_elems (f : sfun St) (l : list val) (s : St) : outcome Z :=
    do z <- sum_sizes (map (fun v => sf_size f false v (pr_push ops false s)) l);
    Ok (pr_szArray ops (zlen l) s + z).
  (** Tuples (SerUtil.h:881-905). *)
  Fixpoint size_tuple (ss : list (sfun St)) (vs : list val) (s : St) : outcome Z :=
    match ss, vs with
    | [], [] => Ok 0
    | f :: ss', v :: vs' => do a <- sf_size f false v s; do b <- size_tuple ss' vs' s; Ok (a + b)
    | _, _ => UB
    end.
  (** MapLike (SerUtil.h:88-102): the bare length of the keys. *)
  Definition size_entries (f : sfun St) (l : list (bytes * val)) (s : St) : outcome Z :=
    do z <- sum_sizes (map (fun kv => do a <- sf_size f false (snd kv) (pr_push ops true s); Ok (zlen (fst kv) + a)) l);
    Ok (pr_szMap ops (zlen l) s + z).
  (** addSizeEachMember (Traits.h:1027-1059): total size and number of the members that are not filtered out. *)
  Fixpoint size_members (ns : list bytes) (opts : list bool) (ss : list (sfun St)) (vs : list val) (s : St)
    : outcome (Z * Z) :=
    match ns, opts, ss, vs with
    | [], [], [], [] => Ok (0, 0)
    | n :: ns', o :: os', f :: ss', v :: vs' =>
        do (sz, cnt) <- (if keeps o v then do a <- sf_size f false v s; Ok (a + pr_szMember ops n s, 1)
                         else Ok (0, 0));
        do (sz', cnt') <- size_members ns' os' ss' vs' s;
        Ok (sz + sz', cnt + cnt')
    | _, _, _, _ => UB
    end.
  (** Traits<Parents<...>>::getPrintSizeTotal (ThorsSerializerUtil.h:193-218): the last result counts; [last] is the
      result so far. *)
  Fixpoint total_parents (ss : list (sfun St)) (vs : list val) (last : Z) (acc : Z * Z) (s : St)
    : outcome (Z * (Z * Z)) :=
    match ss, vs with
    | [], [] => Ok (last, acc)
    | f :: ss', v :: vs' => do (r, acc) <- sf_total f v acc s; total_parents ss' vs' r acc s
    | _, _ => UB
    end.
  (** getPrintSizeTotal (Traits.h:1060-1070), CalcSizeHelper (ThorsSerializerUtil.h:65-83). *)
  Definition total_struct (i : sinfo) (opts : list bool) (sm sp : list (sfun St)) (v : val) (acc : Z * Z) (s : St)
    : outcome (Z * (Z * Z)) :=
    match v with
    | VStruct own par =>
        do (sz, cnt) <- size_members (map (nameOverride i) (si_names i)) opts sm own (pr_push ops true s);
        let acc := (fst acc + cnt, snd acc + sz) in
        match sp with
        | [] => match par with [] => Ok (snd acc + pr_szMap ops (fst acc) s, acc) | _ => UB end
        | _ => total_parents sp par 0 acc s
        end
    | _ => UB
    end.
  (** tryGetPolyMorphicPrintSize (ThorsSerializerUtil.h:221-260), getPolyMorphicPrintSize (Traits.h:899-906). *)
  Definition size_struct (i : sinfo) (total : val -> Z * Z -> St -> outcome (Z * (Z * Z))) (poly : bool) (v : val) (s : St)
    : outcome Z :=
    let counted := if si_virt i then poly else si_mark i in
    do (z, _) <- total v (if counted then (1, pr_szMember ops marker s + pr_szStr ops (si_poly i) s) else (0, 0)) s;
    Ok z.

  (** Traits<std::pair>::getPrintSize (SerUtil.h:276-287): both members, also one that is left out, and the bare length of their
      names. *)
  Fixpoint size_pair_members (ns : list bytes) (ss : list (sfun St)) (vs : list val) (s : St) : outcome Z :=
    match ns, ss, vs with
    | [], [], [] => Ok 0
    | n :: ns', f :: ss', v :: vs' => do a <- sf_size f false v s; do b <- size_pair_members ns' ss' vs' s; Ok (zlen n + a + b)
    | _, _, _ => UB
    end.
  Definition size_pair (i : sinfo) (sm : list (sfun St)) (v : val) (s : St) : outcome Z :=
    match v with
    | VStruct own _ => do z <- size_pair_members (si_names i) sm own (pr_push ops true s); Ok (pr_szMap ops 2 s + z)
    | _ => UB
    end.

  Definition no_members : val -> writer St := fun _ => w_fail UB.
  Definition no_total : val -> Z * Z -> St -> outcome (Z * (Z * Z)) := fun _ _ _ => UB.
  (** A type that is not a class. *)
  Definition mkSv (p : val -> writer St) (sz : bool -> val -> St -> outcome Z) : sfun St :=
    mkS p (fun _ => w_fail UB) no_members sz no_total.

  Fixpoint ser (t : ty) : sfun St :=
    match t with
    | TInt i =>
        mkSv (fun v => match v with VInt z => pr_int ops i z | _ => w_fail UB end)
             (fun _ v s => match v with VInt z => pr_szInt ops i z s | _ => UB end)
    | TBool =>
        mkSv (fun v => match v with VBool b => pr_bool ops b | _ => w_fail UB end)
             (fun _ v s => match v with VBool b => Ok (pr_szBool ops b s) | _ => UB end)
    | TStr =>
        mkSv (fun v => match v with VStr b => pr_str ops b | _ => w_fail UB end)
             (fun _ v s => match v with VStr b => Ok (pr_szStr ops b s) | _ => UB end)
    | TEnum l =>
        (* ThorsAnvil_MakeEnum: serializeForBlock, getPrintSize (Traits.h:787-804); the size dereferences end() for a
           value without a name *)
        mkSv (fun v => match v with
                       | VInt z => match enum_name l z with Some n => pr_str ops n | None => w_fail Throw end
                       | _ => w_fail UB
                       end)
             (fun _ v s => match v with
                           | VInt z => match enum_name l z with Some n => Ok (pr_szStr ops n s) | None => UB end
                           | _ => UB
                           end)
    | TSeq _ t' =>
        let f := ser t' in
        let sz := fun (_ : bool) v s => match v with VList l => size_elems f l s | _ => UB end in
        mkSv (fun v => match v with
                       | VList l => array_block (sz false v) (put_elems f l)
                       | _ => w_fail UB
                       end) sz
    | TArr n t' =>
        let f := ser t' in
        let sz := fun (_ : bool) v s => match v with VList l => size_elems f l s | _ => UB end in
        mkSv (fun v => match v with
                       | VList l => if Nat.eqb (length l) n then array_block (sz false v) (put_elems f l) else w_fail UB
                       | _ => w_fail UB
                       end) sz
    | TTup ts =>
        let fs := map ser ts in
        let sz := fun (_ : bool) v s =>
                    match v with
                    | VList l => do z <- size_tuple fs l (pr_push ops false s); Ok (pr_szArray ops (zlen ts) s + z)
                    | _ => UB
                    end in
        mkSv (fun v => match v with
                       | VList l => array_block (sz false v) (put_tuple fs l)
                       | _ => w_fail UB
                       end) sz
    | TMap _ t' =>
        let f := ser t' in
        let sz := fun (_ : bool) v s => match v with VMap l => size_entries f l s | _ => UB end in
        mkSv (fun v => match v with
                       | VMap l => map_block (sz false v) (put_entries f l)
                       | _ => w_fail UB
                       end) sz
    | TPtr t' =>
        (* SerializerForBlock<Pointer> (Serialize.tpp:1054-1079), the pointee has no virtual functions
           (Serialize.tpp:1031-1041); sizes ThorsSerializerUtil.h:181-189, SerUtil.h:923-930 *)
        let f := ser t' in
        mkSv (fun v => match v with
                       | VPtr None => pr_null ops
                       | VPtr (Some x) => sf_print f x
                       | _ => w_fail UB
                       end)
             (fun _ v s => match v with
                           | VPtr None => Ok (pr_szNull ops s)
                           | VPtr (Some x) => sf_size f true x s
                           | _ => UB
                           end)
    | TOpt t' =>
        (* SerializerForBlock<Reference> (Serialize.tpp:1109-1129), optional::value() throws (SerUtil.h:980-995) *)
        let f := ser t' in
        mkSv (fun v => match v with
                       | VOpt None => w_fail Throw
                       | VOpt (Some x) => sf_print f x
                       | _ => w_fail UB
                       end)
             (fun p v s => match v with
                           | VOpt None => Ok 0
                           | VOpt (Some x) => sf_size f p x s
                           | _ => UB
                           end)
    | TStruct i ms ps =>
        let opts := map opt_type ms in
        let sm := map ser ms in
        let sp := map ser ps in
        let members := put_struct i opts sm sp in
        let total := total_struct i opts sm sp in
        let size := fun poly v s => if si_pair i then size_pair i sm v s else size_struct i total poly v s in
        (* printMembers (Serialize.tpp:934-941): the marker is written when the class declares its own type field *)
        mkS (fun v => map_block (size false v) (w_then (if si_mark i then put_marker i else w_nothing) (members v)))
            (fun v => map_block (size true v) (w_then (put_marker i) (members v)))
            members size total
    | TPoly cs _ =>
        let fs := map ser cs in
        mkSv (fun v => match v with
                       | VPtr None => pr_null ops
                       | VPtr (Some (VVar k x)) =>
                           match nth_error fs k with Some f => sf_poly f x | None => w_fail UB end
                       | _ => w_fail UB
                       end)
             (fun _ v s => match v with
                           | VPtr None => Ok (pr_szNull ops s)
                           | VPtr (Some (VVar k x)) =>
                               match nth_error fs k with Some f => sf_size f true x s | None => UB end
                           | _ => UB
                           end)
    | TVariant cs =>
        (* SerializerForBlock<Variant> (Serialize.tpp:1132-1165), sizes SerUtil.h:997-1020 *)
        let fs := map ser cs in
        mkSv (fun v => match v with
                       | VVar k x => match nth_error fs k with Some f => sf_poly f x | None => w_fail UB end
                       | _ => w_fail UB
                       end)
             (fun p v s => match v with
                           | VVar k x => match nth_error fs k with Some f => sf_size f p x s | None => UB end
                           | _ => UB
                           end)
    end.
End Ser.
