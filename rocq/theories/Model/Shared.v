(** std::vector<std::shared_ptr<T>>: what is written for shared objects and how sharing is restored.

    [P] is the type T* as the library serializes it: [TPtr t], or [TPoly cs others] for a polymorphic class.  Simplified: T
    itself holds no shared_ptr (a type is a finite tree without them), and the vector is the root of the document and is empty before
    the import.  Leaks are not modelled. *)
From Coq Require Import ZArith String List Bool.
From Verif Require Import Model.Base Model.Source Model.Number Model.JsonLexer Model.ParserInterface Model.JsonParser Model.Printer Model.JsonPrinter
  Model.Types Model.Deserializer Model.Serializer Model.Importer Model.Exporter.
Import ListNotations.
Open Scope Z_scope.

(** SharedInfo<T> (ThorsSerializerUtilTypes.h:19-24, Serialize.h:49); intmax_t is long. *)
Definition shared_info (P : ty) : ty :=
  TStruct (mkSinfo [bs "sharedPtrName"; bs "data"] [] [] false false false) [TInt ILong; TOpt P] [].

(** ** Writing *)
(** savedSharedPtr of the printer (PrinterInterface.h:169): the address of an object, and which shared_ptr object was the
    first to refer to it.  A shared_ptr object is identified by its position in the vector. *)
Fixpoint saved_at {X} (saved : list (Z * X)) (a : Z) : option X :=
  match saved with
  | [] => None
  | (b, x) :: r => if a =? b then Some x else saved_at r a
  end.

(** PrinterInterface::addShared (PrinterInterface.h:148-163) for the shared_ptr at position [me] that refers to the object
    [x] at the address [a]. *)
Definition add_shared (saved : list (Z * nat)) (me : nat) (a : Z) (x : val) : list (Z * nat) * val :=
  let saved := match saved_at saved a with Some _ => saved | None => (a, me) :: saved end in
  let data := match saved_at saved a with Some first => Nat.eqb first me | None => false end in
  (saved, VStruct [VInt a; VOpt (if data then Some (VPtr (Some x)) else None)] []).

(** SerializerForBlock<Pointer, shared_ptr<T>> (Serialize.tpp:1082-1107) for every element of the vector from position [i]:
    null, or the SharedInfo that is written.  [heap] gives the object at an address; address 0 is null.
    Simplified: the elements are determined before they are written; addShared does not depend on what was written. *)
Fixpoint infos (saved : list (Z * nat)) (i : nat) (heap : Z -> val) (ps : list Z) : list (Z * nat) * list val :=
  match ps with
  | [] => (saved, [])
  | a :: r =>
      if a =? 0 then let '(saved, vs) := infos saved (S i) heap r in (saved, VPtr None :: vs)
      else let '(saved, v) := add_shared saved i a (heap a) in
           let '(saved, vs) := infos saved (S i) heap r in (saved, VPtr (Some v) :: vs)
  end.

(** The pass of the serializer over the vector (Serialize.tpp:1306-1323): the array of the elements.  savedSharedPtr is kept
    from the preflight pass to the second pass (PrinterInterface::reset does not clear it). *)
Definition shared_pass (c : fconfig) (P : ty) (heap : Z -> val) (saved : list (Z * nat)) (ps : list Z) : list (Z * nat) * outcome (list chunk) :=
  let '(saved, vs) := infos saved 0 heap ps in (saved, json_pass c (TVec (TPtr (shared_info P))) (VList vs)).
Definition shared_export (c : fconfig) (k : okind) (P : ty) (heap : Z -> val) (ps : list Z) : export_result :=
  export_end c (let '(saved, r) := shared_pass c P heap [] ps in
    match k with
    | ToStream => do out <- r; Ok (chunks_text out)
    | ToString => do out1 <- r; let '(_, r) := shared_pass c P heap saved ps in do out2 <- r; copy_chunks (preflight (negb (pf_exact c)) out1) out2
    end).

(** ** Reading *)
(** The shared_ptrs read so far (null, or the number of an object), savedSharedPtr of the parser, and the objects. *)
Record shared := mkShared { sh_ptrs : list (option nat); sh_saved : list (Z * option nat); sh_objects : list val }.

(** ParserInterface::getShared (ParserInterface.h:326-338).  [info] is a SharedInfo; its sharedPtrName has no value if it was
    not read.  reset() gives the object to a new owner; any_cast throws when nothing is saved under the name. *)
Definition get_shared (info : val) (s : shared) : outcome shared :=
  match info with
  | VStruct [VInt a; VOpt (Some (VPtr (Some x)))] [] =>
      let q := Some (length (sh_objects s)) in Ok (mkShared (sh_ptrs s ++ [q]) ((a, q) :: sh_saved s) (sh_objects s ++ [x]))
  | VStruct [VInt a; VOpt (Some (VPtr None))] [] => Ok (mkShared (sh_ptrs s ++ [None]) ((a, None) :: sh_saved s) (sh_objects s))
  | VStruct [VInt a; VOpt None] [] =>
      match saved_at (sh_saved s) a with
      | Some q => Ok (mkShared (sh_ptrs s ++ [q]) (sh_saved s) (sh_objects s))
      | None => Throw
      end
  | _ => UB
  end.

(** [SharedInfo<T> info;]: sharedPtrName is not initialised (Serialize.tpp:541). *)
Definition unset : val := VList [].
Definition fresh_info : val := VStruct [unset; VOpt None] [].

Section Read.
  Context {St : Type} (ops : parser_ops St) (F : nat) (m : strictness) (marker : bytes) (P : ty).

  (** DeSerializationForBlock<Pointer, shared_ptr<T>>::scanObject (Serialize.tpp:528-546). *)
  Definition read_shared (s : shared) (p : pst St) : outcome (shared * pst St) :=
    do (t, p) <- getToken ops p;
    if token_eqb t TokValue && op_null ops (ps_impl p) then
      do p <- lift_ (op_ignore ops) p; Ok (mkShared (sh_ptrs s ++ [None]) (sh_saved s) (sh_objects s), p)
    else
      do (info, p) <- d_parse (deser ops F m marker (shared_info P)) fresh_info (pushBackToken t p);
      do s <- get_shared info s; Ok (s, p).

  (** DeSerializationForBlock<Array> (Serialize.tpp:621-662) with the emplacer of vector (SerUtil.h:346-455). *)
  Fixpoint shared_loop (n : nat) (s : shared) (p : pst St) : outcome (shared * pst St) :=
    match n with
    | O => Hang
    | S n =>
        do (t, p) <- getToken ops p;
        match t with
        | TokArrayEnd => Ok (s, p)
        | _ => do (s, p) <- read_shared s (pushBackToken t p); shared_loop n s p
        end
    end.
  Definition read_shareds (s : shared) (p : pst St) : outcome (shared * pst St) :=
    do (t, p) <- getToken ops p;
    match t with
    | TokArrayStart => shared_loop F s p
    | _ => Throw
    end.
End Read.

(** The body of the try block of extract (Importer.h:37-64) around [parse]: see [json_try]. *)
Definition json_run {V} (fuel : nat) (cfg : pconfig) (parse : pst jparser -> outcome (V * pst jparser)) (s : src) : outcome (V * src) :=
  let ops := json_ops fuel (pc_conv cfg) in
  do (tk, p) <- getToken ops (pst_init (mkJp (lex_init s) ctl_init));
  match tk with
  | TokDocStart =>
      do (v', p) <- parse p;
      do s1 <- check_trailing (pc_noTrailing cfg) (l_src (jp_lex (ps_impl p)));
      let p := mkPst (mkJp (lset_src (jp_lex (ps_impl p)) s1) (jp_ctl (ps_impl p))) (ps_pb1 p) (ps_pb2 p) in
      do (tk, p) <- getToken ops p;
      match tk with
      | TokDocEnd => Ok (v', l_src (jp_lex (ps_impl p)))
      | _ => Throw
      end
  | _ => Throw
  end.
Definition shared_try (fuel : nat) (cfg : pconfig) (P : ty) (s : src) : outcome (shared * src) :=
  json_run fuel cfg (read_shareds (json_ops fuel (pc_conv cfg)) fuel (pc_strict cfg) (pc_marker cfg) P (mkShared [] [] [])) s.

(** ** Observations, as in Model/Importer.v. *)
Definition shared_imports (cfg : pconfig) (k : skind) (P : ty) (text : bytes) (qs : list (option nat)) (objects : list val) : Prop :=
  exists N, forall fuel, (N <= fuel)%nat -> exists saved s, shared_try fuel cfg P (src_init k text) = Ok (mkShared qs saved objects, s) /\ src_ok s = true.
Definition shared_rejects (cfg : pconfig) (k : skind) (P : ty) (text : bytes) : Prop :=
  exists N, forall fuel, (N <= fuel)%nat -> shared_try fuel cfg P (src_init k text) = Throw.
Definition shared_undefined (cfg : pconfig) (k : skind) (P : ty) (text : bytes) : Prop :=
  exists N, forall fuel, (N <= fuel)%nat -> shared_try fuel cfg P (src_init k text) = UB.
