(** What an import leaves in the variable that it reads into, also when it fails.

    The functions follow those of Model/Deserializer.v, with the same names of the C++ code; instead of a value they return
    what the variable holds when the call returns or is left by an exception.  [again]: some object of the document had a key
    twice, as far as it was read.  Proofs/TargetP.v shows that they succeed, fail and deliver as those functions do.
    [raw]: the pointers are raw owning pointers (ThorsSerializerUtil.h:173-190), otherwise std::unique_ptr
    (SerUtil.h:916-931).  Simplified: all pointers of a type are of the same kind; std::vector<bool>, which appends an
    element after it was read, is treated as the other sequences. *)
From Coq Require Import ZArith List Bool.
From Verif Require Import Model.Base Model.Source Model.Number Model.JsonLexer Model.ParserInterface Model.JsonParser Model.Types Model.Deserializer Model.Importer.
Import ListNotations.
Open Scope Z_scope.

Inductive target :=
| XInt (z : Z) | XBool (b : bool) | XStr (s : bytes)
| XSome                                   (* a number, bool or string whose reading failed; which value it has is not modelled *)
| XList (l : list target)
| XMap (l : list (bytes * target))
| XNull | XLive (x : target) | XDangling  (* pointers; the object of the last has been deleted *)
| XOpt (o : option target)
| XStruct (own parents : list target)
| XVar (i : nat) (x : target).

Fixpoint up (v : val) : target :=
  match v with
  | VInt z => XInt z
  | VBool b => XBool b
  | VStr s => XStr s
  | VList l => XList (map up l)
  | VMap l => XMap (map (fun kv => (fst kv, up (snd kv))) l)
  | VPtr None => XNull
  | VPtr (Some x) => XLive (up x)
  | VOpt None => XOpt None
  | VOpt (Some x) => XOpt (Some (up x))
  | VStruct own par => XStruct (map up own) (map up par)
  | VVar i x => XVar i (up x)
  end.

(** The value, as far as keys are compared. *)
Fixpoint seen (x : target) : val :=
  match x with
  | XInt z => VInt z
  | XBool b => VBool b
  | XStr s => VStr s
  | XSome => VInt 0
  | XList l => VList (map seen l)
  | XMap l => VMap (map (fun kv => (fst kv, seen (snd kv))) l)
  | XNull | XDangling => VPtr None
  | XLive x => VPtr (Some (seen x))
  | XOpt None => VOpt None
  | XOpt (Some x) => VOpt (Some (seen x))
  | XStruct own par => VStruct (map seen own) (map seen par)
  | XVar i x => VVar i (seen x)
  end.

(** Left in the variable, a key given twice, how the call ended. *)
Definition left_of (L A : Type) : Type := L * bool * outcome A.
(** [m] is called and has no access to the variable, which holds [x]. *)
Definition x_on {L A B} (x : L) (m : outcome A) (k : A -> left_of L B) : left_of L B :=
  match m with Ok a => k a | Throw => (x, false, Throw) | UB => (x, false, UB) | Hang => (x, false, Hang) end.
Definition x_then {L A B} (r : left_of L A) (k : L -> A -> left_of L B) : left_of L B :=
  let '(x, again, o) := r in
  match o with
  | Ok a => let '(x', again', o') := k x a in (x', again || again', o')
  | Throw => (x, again, Throw) | UB => (x, again, UB) | Hang => (x, again, Hang)
  end.
(** The call works on a part of the variable. *)
Definition x_in {L M A} (f : L -> M) (r : left_of L A) : left_of M A := let '(x, again, o) := r in (f x, again, o).

Record kfun (St : Type) := mkK {
  k_parse : target -> pst St -> left_of target (pst St);
  k_scan  : bytes -> target -> pst St -> option (left_of target (pst St))
}.
Arguments mkK {St}. Arguments k_parse {St}. Arguments k_scan {St}.

Fixpoint x_find (k : bytes) (l : list (bytes * target)) : option target :=
  match l with [] => None | (a, v) :: r => if beq a k then Some v else x_find k r end.
Fixpoint x_set (k : bytes) (v : target) (l : list (bytes * target)) : list (bytes * target) :=
  match l with
  | [] => [(k, v)]
  | (a, w) :: r => if beq a k then (a, v) :: r else if bltb k a then (k, v) :: l else (a, w) :: x_set k v r
  end.
Fixpoint x_more (k : bytes) (v : target) (l : list (bytes * target)) : list (bytes * target) :=
  match l with
  | [] => [(k, v)]
  | (a, w) :: r => if bltb k a then (k, v) :: l else (a, w) :: x_more k v r
  end.

Section Left.
  Context {St : Type} (ops : parser_ops St) (F : nat) (m : strictness) (marker : bytes) (raw : bool).

  (** DeSerializationForBlock<Value> (Serialize.tpp:272-294): getValue reads into the variable. *)
  Definition x_value {A} (rd : St -> outcome (A * St)) (mk : A -> target) (x : target) (p : pst St) : left_of target (pst St) :=
    x_on x (getToken ops p) (fun '(t, p) =>
      match t with
      | TokValue => x_on XSome (lift rd p) (fun '(a, p) => (mk a, false, Ok p))
      | _ => (x, false, Throw)
      end).

  (** Serialize.tpp:222-264. *)
  Fixpoint x_obj (n : nat) (scan : bytes -> target -> pst St -> option (left_of target (pst St))) (x : target) (found : list bytes) (p : pst St)
    : left_of target (list bytes * pst St) :=
    match n with
    | O => (x, false, Hang)
    | S n =>
        x_on x (getToken ops p) (fun '(t, p) =>
          match t with
          | TokMapEnd => (x, false, Ok (found, p))
          | _ =>
              x_on x (lift (op_key ops) p) (fun '(k, p) =>
                match scan k x p with
                | Some (x', again, o) => x_then (x', again || existsb (beq k) found, o) (fun x' p => x_obj n scan x' (k :: found) p)
                | None => x_on x (ignoreValue ops m F p) (fun p => x_obj n scan x found p)
                end)
          end)
    end.
  Definition x_map_block (req : list bytes) (scan : bytes -> target -> pst St -> option (left_of target (pst St))) (x : target) (p : pst St)
    : left_of target (pst St) :=
    x_on x (getToken ops p) (fun '(t, p) =>
      match t with
      | TokMapStart =>
          x_then (x_obj F scan x [] p) (fun x '(found, p) =>
            match m with
            | Exact => if forallb (fun r => existsb (beq r) found) req then (x, false, Ok p) else (x, false, Throw)
            | _ => (x, false, Ok p)
            end)
      | _ => (x, false, Throw)
      end).

  (** Serialize.tpp:621-662. *)
  Fixpoint x_arr (n : nat) (elem : nat -> target -> pst St -> left_of target (pst St)) (i : nat) (x : target) (p : pst St) : left_of target (pst St) :=
    match n with
    | O => (x, false, Hang)
    | S n =>
        x_on x (getToken ops p) (fun '(t, p) =>
          match t with
          | TokArrayEnd => (x, false, Ok p)
          | _ => x_then (elem i x (pushBackToken t p)) (fun x p => x_arr n elem (S i) x p)
          end)
    end.
  Definition x_array (elem : nat -> target -> pst St -> left_of target (pst St)) (x : target) (p : pst St) : left_of target (pst St) :=
    x_on x (getToken ops p) (fun '(t, p) => match t with TokArrayStart => x_arr F elem O x p | _ => (x, false, Throw) end).

  Definition x_add (co : cont) (l : list target) (y : target) : list target :=
    match co with CBack | CBits => l ++ [y] | _ => insert_at (fun a b => elem_ltb co (seen a) (seen b)) (one_of_each co) y l end.
  (** emplace_back, then the last element is read (SerUtil.h:346-399, 428-455); or a local variable is read and inserted afterwards
      (SerUtil.h:231-238). *)
  Definition x_vec (co : cont) (d : kfun St) (dflt : target) (_ : nat) (x : target) (p : pst St) : left_of target (pst St) :=
    match x with
    | XList l =>
        match co with
        | CBack => x_in (fun y => XList (l ++ [y])) (k_parse d dflt p)
        | _ => let '(y, again, o) := k_parse d dflt p in
               (match o with Ok _ => XList (x_add co l y) | _ => x end, again, o)
        end
    | _ => (x, false, UB)
    end.
  (** SerUtil.h:318-330, 846-861. *)
  Definition x_fixed (ds : list (kfun St)) (i : nat) (x : target) (p : pst St) : left_of target (pst St) :=
    match x with
    | XList l =>
        match nth_error ds i, nth_error l i with
        | Some d, Some y => x_in (fun y => XList (set_nth i y l)) (k_parse d y p)
        | _, _ => (x, false, UB)
        end
    | _ => (x, false, UB)
    end.
  (** std::map reads into object[key] (SerUtil.h:619-623); std::unordered_map into a local variable that is inserted afterwards
      (SerUtil.h:684-689), as std::multimap (SerUtil.h:809-814). *)
  Definition x_entry (mk : map_kind) (d : kfun St) (dflt : target) (k : bytes) (x : target) (p : pst St) : option (left_of target (pst St)) :=
    match x with
    | XMap l =>
        match mk with
        | MFirst =>
            Some (let '(y, again, o) := k_parse d dflt p in
                  (match o with Ok _ => match x_find k l with Some _ => x | None => XMap (x_set k y l) end | _ => x end, again, o))
        | MPlace => Some (x_in (fun y => XMap (x_set k y l)) (k_parse d (match x_find k l with Some y => y | None => dflt end) p))
        | MAll => Some (let '(y, again, o) := k_parse d dflt p in (match o with Ok _ => XMap (x_more k y l) | _ => x end, again, o))
        end
    | _ => Some (x, false, UB)
    end.
  (** Serialize.tpp:829-855. *)
  Fixpoint x_members (ns : list bytes) (ds : list (kfun St)) (xs : list target) (k : bytes) (p : pst St) : option (left_of (list target) (pst St)) :=
    match ns, ds, xs with
    | [], [], [] => None
    | n :: ns', d :: ds', x :: xs' =>
        if beq k n then Some (x_in (fun y => y :: xs') (k_parse d x p))
        else match x_members ns' ds' xs' k p with Some r => Some (x_in (cons x) r) | None => None end
    | _, _, _ => Some (xs, false, UB)
    end.
  (** Serialize.tpp:60-68. *)
  Fixpoint x_parents (ds : list (kfun St)) (xs : list target) (k : bytes) (p : pst St) : option (left_of (list target) (pst St)) :=
    match ds, xs with
    | [], [] => None
    | d :: ds', x :: xs' =>
        match k_scan d k x p with
        | Some r => Some (x_in (fun y => y :: xs') r)
        | None => match x_parents ds' xs' k p with Some r => Some (x_in (cons x) r) | None => None end
        end
    | _, _ => Some (xs, false, UB)
    end.
  (** Serialize.tpp:870-878. *)
  Definition x_struct (i : sinfo) (dm dp : list (kfun St)) (k : bytes) (x : target) (p : pst St) : option (left_of target (pst St)) :=
    match x with
    | XStruct own par =>
        match x_parents dp par k p with
        | Some r => Some (x_in (XStruct own) r)
        | None =>
            match x_members (map (nameOverride i) (si_names i)) dm own k p with
            | Some r => Some (x_in (fun own => XStruct own par) r)
            | None => None
            end
        end
    | _ => Some (x, false, UB)
    end.

  (** DeSerializationForBlock<Pointer>::scanObject (Serialize.tpp:501-516): release deletes the object; a std::unique_ptr is
      then null, a raw pointer keeps its value until it is assigned: null behind a null value, the new object before it is
      read (Serialize.tpp:423-449).  Deleting a second time is undefined. *)
  Definition released (x : target) : target := match x with XLive _ => if raw then XDangling else XNull | _ => x end.
  Definition x_pointer (rest : target -> pst St -> left_of target (pst St)) (x : target) (p : pst St) : left_of target (pst St) :=
    match x with
    | XDangling => (x, false, UB)
    | _ =>
        x_on (released x) (getToken ops p) (fun '(t, p) =>
          if op_null ops (ps_impl p) then x_on (released x) (lift_ (op_ignore ops) p) (fun p => (XNull, false, Ok p))
          else rest (released x) (pushBackToken t p))
    end.

  Fixpoint kdeser (t : ty) : kfun St :=
    match t with
    | TInt i => mkK (x_value (op_int ops i) XInt) (fun _ x _ => Some (x, false, UB))
    | TBool => mkK (x_value (op_bool ops) XBool) (fun _ x _ => Some (x, false, UB))
    | TStr => mkK (x_value (op_str ops) XStr) (fun _ x _ => Some (x, false, UB))
    | TEnum l =>
        (* the text is read into a local variable (Serialize.tpp:588-613) *)
        mkK (fun x p => x_on x (read_value ops (op_str ops) VStr p) (fun '(v, p) =>
               match v with
               | VStr s => match enum_value l s with Some z => (XInt z, false, Ok p) | None => (x, false, Throw) end
               | _ => (x, false, UB)
               end)) (fun _ x _ => Some (x, false, UB))
    | TSeq co t' => let d := kdeser t' in mkK (x_array (x_vec co d (up (default t')))) (fun _ x _ => Some (x, false, UB))
    | TArr n t' => let d := kdeser t' in mkK (x_array (x_fixed (repeat d n))) (fun _ x _ => Some (x, false, UB))
    | TTup ts => let ds := map kdeser ts in mkK (x_array (x_fixed ds)) (fun _ x _ => Some (x, false, UB))
    | TMap fw t' => let d := kdeser t' in
        let scan := x_entry fw d (up (default t')) in
        mkK (x_map_block [] scan) scan
    | TPtr t' => let d := kdeser t' in
        mkK (x_pointer (fun _ p => x_in XLive (k_parse d (up (default t')) p))) (fun _ x _ => Some (x, false, UB))
    | TOpt t' => let d := kdeser t' in
        mkK (fun x p =>
               match x with
               | XOpt o => x_in (fun y => XOpt (Some y)) (k_parse d (match o with Some y => y | None => up (default t') end) p)
               | _ => (x, false, UB)
               end) (fun _ x _ => Some (x, false, UB))
    | TStruct i ms ps =>
        let scan := x_struct i (map kdeser ms) (map kdeser ps) in
        mkK (x_map_block (required (TStruct i ms ps)) scan) scan
    | TPoly cs others =>
        let ds := map kdeser cs in
        mkK (x_pointer (fun gone p =>
               x_on gone (read_class_name ops marker p) (fun '(c, p) =>
                 match find_class cs c with
                 | Some k =>
                     match nth_error cs k, nth_error ds k with
                     | Some tk, Some d => x_in (fun y => XLive (XVar k y)) (k_parse d (up (default tk)) p)
                     | _, _ => (gone, false, UB)
                     end
                 | None => if existsb (beq c) others then (gone, false, UB) else (gone, false, Throw)
                 end))) (fun _ x _ => Some (x, false, UB))
    | TVariant cs =>
        let ds := map kdeser cs in
        mkK (fun x p =>
               x_on x (read_class_name ops marker p) (fun '(c, p) =>
                 match find_class cs c with
                 | Some k =>
                     match nth_error cs k, nth_error ds k with
                     | Some tk, Some d => x_in (XVar k) (k_parse d (up (default tk)) p)
                     | _, _ => (x, false, UB)
                     end
                 | None => x_on x (ignoreValue ops m F p) (fun p => (x, false, Ok p))
                 end)) (fun _ x _ => Some (x, false, UB))
    end.
End Left.

(** The try block of extract (Importer.h:37-64) for JSON. *)
Definition json_leaves (raw : bool) (fuel : nat) (cfg : pconfig) (t : ty) (x : target) (s : src) : left_of target src :=
  let ops := json_ops fuel (pc_conv cfg) in
  x_on x (getToken ops (pst_init (mkJp (lex_init s) ctl_init))) (fun '(tk, p) =>
    match tk with
    | TokDocStart =>
        x_then (k_parse (kdeser ops fuel (pc_strict cfg) (pc_marker cfg) raw t) x p) (fun x p =>
          x_on x (check_trailing (pc_noTrailing cfg) (l_src (jp_lex (ps_impl p)))) (fun s1 =>
            let p := mkPst (mkJp (lset_src (jp_lex (ps_impl p)) s1) (jp_ctl (ps_impl p))) (ps_pb1 p) (ps_pb2 p) in
            x_on x (getToken ops p) (fun '(tk, p) =>
              match tk with
              | TokDocEnd => (x, false, Ok (l_src (jp_lex (ps_impl p))))
              | _ => (x, false, Throw)
              end)))
    | _ => (x, false, Throw)
    end).
