(** What a failed export to JSON leaves on a stream: the destructors of the open blocks run while the exception travels, and write their closing brackets.

    [ser] (Model/Serializer.v) tells only that an export throws.  Here the serializer is a plan of what it does, as in Model/YamlPrinter.v; that both agree is
    plan_agrees (Proofs/JsonLeftP.v). *)
From Coq Require Import ZArith String List Bool.
From Verif Require Import Model.Base Model.Number Model.Unicode Model.Printer Model.JsonPrinter Model.Types Model.Serializer Model.Exporter.
Import ListNotations.
Open Scope Z_scope.

(** What the serializer does for a value: a scalar (addValue, addNull), an exception, an array block, a map block with a key before every value.  [JUndef]: the value
    does not have the shape of the type; it cannot be written in C++. *)
Inductive jplan := JScal (t : chunk) | JThrow | JUndef | JSeq (l : list jplan) | JMap (l : list (bytes * jplan)).
Definition j_unkeyed : list (bytes * jplan) := [([], JUndef)].
Record jfun := mkJplan {
  jf_val : val -> jplan;                         (* SerializerForBlock: see sf_print of Model/Serializer.v *)
  jf_poly : val -> jplan;                        (* printPolyMorphicObject (Serialize.tpp:1043-1052) *)
  jf_mem : val -> list (bytes * jplan)           (* Serializer::printObjectMembers (Serialize.tpp:1346-1355) *)
}.
Definition jl_simple (f : val -> jplan) : jfun := mkJplan f (fun _ => JUndef) (fun _ => j_unkeyed).
(** The members of a class, then those of the parents; see put_members and put_parents. *)
Fixpoint jl_members (ns : list bytes) (opts : list bool) (fs : list jfun) (vs : list val) : list (bytes * jplan) :=
  match ns, opts, fs, vs with
  | [], [], [], [] => []
  | n :: ns', o :: os', f :: fs', v :: vs' => (if keeps o v then [(n, jf_val f v)] else []) ++ jl_members ns' os' fs' vs'
  | _, _, _, _ => j_unkeyed
  end.
Fixpoint jl_parents (fs : list jfun) (vs : list val) : list (bytes * jplan) :=
  match fs, vs with
  | [], [] => []
  | f :: fs', v :: vs' => jf_mem f v ++ jl_parents fs' vs'
  | _, _ => j_unkeyed
  end.
Fixpoint jl_tuple (fs : list jfun) (vs : list val) : list jplan :=
  match fs, vs with
  | [], [] => []
  | f :: fs', v :: vs' => jf_val f v :: jl_tuple fs' vs'
  | _, _ => [JUndef]
  end.
(** The text of a string (JsonPrinter.cpp:316-318). *)
Definition quoted (s : bytes) : chunk := Wr (34 :: escapeString s ++ [34]).

(** The serializer (Serialize.tpp:904-1355, SerUtil.h) for a type. *)
Fixpoint jplan_of (marker : bytes) (t : ty) : jfun :=
  match t with
  | TInt i => jl_simple (fun v => match v with VInt z => JScal (WrVal (int_dec z)) | _ => JUndef end)
  | TBool => jl_simple (fun v => match v with VBool b => JScal (WrVal (if b then bs "true" else bs "false")) | _ => JUndef end)
  | TStr => jl_simple (fun v => match v with VStr s => JScal (quoted s) | _ => JUndef end)
  | TEnum l => jl_simple (fun v => match v with VInt z => match enum_name l z with Some n => JScal (quoted n) | None => JThrow end | _ => JUndef end)
  | TSeq _ t' => let f := jplan_of marker t' in
      jl_simple (fun v => match v with VList l => JSeq (map (jf_val f) l) | _ => JUndef end)
  | TArr n t' => let f := jplan_of marker t' in
      jl_simple (fun v => match v with VList l => if Nat.eqb (List.length l) n then JSeq (map (jf_val f) l) else JUndef | _ => JUndef end)
  | TTup ts => let fs := map (jplan_of marker) ts in
      jl_simple (fun v => match v with VList l => JSeq (jl_tuple fs l) | _ => JUndef end)
  | TMap _ t' => let f := jplan_of marker t' in
      jl_simple (fun v => match v with VMap l => JMap (map (fun kv => (fst kv, jf_val f (snd kv))) l) | _ => JUndef end)
  | TPtr t' => let f := jplan_of marker t' in
      jl_simple (fun v => match v with VPtr None => JScal (Wr (bs "null")) | VPtr (Some x) => jf_val f x | _ => JUndef end)
  | TOpt t' => let f := jplan_of marker t' in
      jl_simple (fun v => match v with VOpt None => JThrow | VOpt (Some x) => jf_val f x | _ => JUndef end)
  | TStruct i ms ps =>
      let opts := map opt_type ms in
      let fm := map (jplan_of marker) ms in
      let fp := map (jplan_of marker) ps in
      let members := fun v =>
        match v with
        | VStruct own par => jl_members (map (nameOverride i) (si_names i)) opts fm own ++ jl_parents fp par
        | _ => j_unkeyed
        end in
      let tag := [(marker, JScal (quoted (si_poly i)))] in
      mkJplan (fun v => JMap ((if si_mark i then tag else []) ++ members v)) (fun v => JMap (tag ++ members v)) members
  | TPoly cs _ => let fs := map (jplan_of marker) cs in
      jl_simple (fun v => match v with
                          | VPtr None => JScal (Wr (bs "null"))
                          | VPtr (Some (VVar k x)) => match nth_error fs k with Some f => jf_poly f x | None => JUndef end
                          | _ => JUndef
                          end)
  | TVariant cs => let fs := map (jplan_of marker) cs in
      jl_simple (fun v => match v with VVar k x => match nth_error fs k with Some f => jf_poly f x | None => JUndef end | _ => JUndef end)
  end.

(** What a call gives: it returns, it raises an exception, the program was terminated, or it is undefined; with what was written and the state of the printer. *)
Inductive jleft := LDone (out : list chunk) (s : jstate) | LRaised (out : list chunk) (s : jstate) | LTerm | LUndef.
(** A call of the printer; none writes something and throws then (JsonPrinter.cpp:164-320). *)
Definition l_call (r : outcome (list chunk * jstate)) (s : jstate) : jleft :=
  match r with Ok (o, s') => LDone o s' | Throw => LRaised [] s | _ => LUndef end.
Definition l_then (r : jleft) (f : jstate -> jleft) : jleft :=
  match r with
  | LDone o s => match f s with LDone o' s' => LDone (o ++ o') s' | LRaised o' s' => LRaised (o ++ o') s' | r' => r' end
  | _ => r
  end.
(** A destructor that runs [f] at the end of a scope that gave [r]; destructors are noexcept, an exception that leaves one ends the program. *)
Definition l_close (r : jleft) (f : writer jstate) : jleft :=
  match r with
  | LDone o s => match f s with Ok (o', s') => LDone (o ++ o') s' | Throw => LTerm | _ => LUndef end
  | LRaised o s => match f s with Ok (o', s') => LRaised (o ++ o') s' | Throw => LTerm | _ => LUndef end
  | _ => r
  end.

(** One after the other. *)
Definition l_each {A : Type} (f : A -> jstate -> jleft) : list A -> jstate -> jleft :=
  fix go (l : list A) (s : jstate) : jleft := match l with [] => LDone [] s | a :: r => l_then (f a s) (go r) end.

Section Run.
  Context (c : fconfig).
  (** The blocks (Serialize.tpp:904-948, 1186-1213): the constructor opens, the destructor closes. *)
  Fixpoint leave (a : jplan) (s : jstate) : jleft :=
    match a with
    | JScal t => l_call (js_value c t s) s
    | JThrow => LRaised [] s
    | JUndef => LUndef
    | JSeq l =>
        l_then (l_call (js_open c LvArray 91 s) s) (fun s =>
          l_close (l_each leave l s) (js_closeArray c))
    | JMap l =>
        l_then (l_call (js_open c LvMap 123 s) s) (fun s =>
          l_close (l_each (fun ka s => match snd ka with JUndef => LUndef | _ => l_then (l_call (js_key c (fst ka) s) s) (leave (snd ka)) end) l s) (js_closeMap c))
    end.
End Run.

(** ExporterBase::inserter (Exporter.h:37-79) for a stream: what the stream holds afterwards, and whether the export failed; openDoc, closeDoc
    (JsonPrinter.cpp:159-165) and finalizePrint (PrinterInterface.cpp:29-40) write nothing to a stream. *)
Inductive stream_after := Holds (out : bytes) (failed : bool) | Ended | HoldsUB.
Definition stream_leaves (c : fconfig) (t : ty) (v : val) : stream_after :=
  match leave c (jf_val (jplan_of (pf_marker c) t) v) js_init with
  | LDone o _ => Holds (chunks_text o) false
  | LRaised o _ => Holds (chunks_text o) true
  | LTerm => Ended
  | LUndef => HoldsUB
  end.

(** The same for a string that holds [old] before: the preflight pass only counts (StringOutput.h:35-40, 58-72), then the string is resized, and the second pass
    overwrites it (Serialize.tpp:1306-1317).  Then, or after an exception, the destructor of the Serializer calls finalizePrint (Serialize.h:297-303), which cuts the
    string after what was written, unless the preflight pass has not ended (StringOutput.h:89-96). *)
Definition string_leaves (c : fconfig) (t : ty) (v : val) (old : bytes) : stream_after :=
  let pass := leave c (jf_val (jplan_of (pf_marker c) t) v) js_init in
  match pass with
  | LDone o1 _ =>
      let copied := fun o => copy_chunks (preflight (negb (pf_exact c)) o1) o in
      match pass with
      | LDone o _ => match copied o with Ok b => Holds b false | _ => HoldsUB end
      | LRaised o _ => match copied o with Ok b => Holds b true | _ => HoldsUB end
      | LTerm => Ended
      | LUndef => HoldsUB
      end
  | LRaised _ _ => Holds old true
  | LTerm => Ended
  | LUndef => HoldsUB
  end.
