(** YamlPrinter: the YAML writer on top of libyaml, and a whole export to YAML.

    libyaml itself is not modelled: only which events and texts it takes, and that it hands its text to the write handler in
    some pieces.  An export that fails is modelled with the destructors that run while the exception travels: the destructors
    of the blocks emit events, and an exception that leaves a destructor calls std::terminate. *)
From Coq Require Import ZArith String List Bool.
From Verif Require Import Model.Base Model.Number Model.Printer Model.JsonPrinter Model.Types Model.Serializer Model.Exporter Model.Yaml.
Import ListNotations.
Open Scope Z_scope.

(** ** The write handler *)
(** The loop of thorsanvilYamlStreamWritter (YamlPrinter.cpp:23-34): the calls of write.  [line]: the characters since the
    last new line. *)
Fixpoint write_lines (indent line buffer : bytes) : list bytes :=
  match buffer with
  | [] => [line]
  | c :: r => if c =? 10 then (line ++ [c]) :: indent :: write_lines indent [] r else write_lines indent (line ++ [c]) r
  end.
(** thorsanvilYamlStreamWritter (YamlPrinter.cpp:15-38).  [first]: firstLine, which is set by outputFirstLine
    (YamlPrinter.h:43) and by nothing else; also the result is the new value. *)
Definition y_write (block : Z) (first : bool) (buffer : bytes) : list bytes * bool :=
  let indent := repeat 32 (Z.to_nat block) in
  ((if first then [] else [indent]) ++ write_lines indent [] buffer, true).
Fixpoint y_writes (block : Z) (first : bool) (buffers : list bytes) : list bytes * bool :=
  match buffers with
  | [] => ([], first)
  | b :: r => let '(w, first) := y_write block first b in let '(w', first) := y_writes block first r in (w ++ w', first)
  end.

(** ** libyaml's emitter *)
(** yaml_check_utf8 (libyaml, api.c): the test of yaml_scalar_event_initialize. *)
Definition is_cont (c : Z) : bool := (128 <=? c) && (c <? 192).
Fixpoint check_utf8 (s : bytes) : bool :=
  match s with
  | [] => true
  | a :: r =>
      if a <? 128 then check_utf8 r
      else match r with
      | b :: r =>
          if (192 <=? a) && (a <? 224) then is_cont b && (194 <=? a) && check_utf8 r
          else match r with
          | c :: r =>
              if (224 <=? a) && (a <? 240) then is_cont b && is_cont c && ((225 <=? a) || (160 <=? b)) && check_utf8 r
              else match r with
              | d :: r =>
                  if (240 <=? a) && (a <? 248) then
                    is_cont b && is_cont c && is_cont d && ((241 <=? a) || (144 <=? b)) && check_utf8 r
                  else false
              | [] => false
              end
          | [] => false
          end
      | [] => false
      end
  end.
(** What yaml_emitter_emit expects next, innermost first: the root of a document, nothing more in a document, an element, a
    key, the value of a key. *)
Inductive expects := XRoot | XDone | XElem | XKey | XValue.
(** The events that yaml_emitter_emit takes (libyaml, emitter.c: the states of yaml_emitter_state_machine).  Simplified:
    libyaml holds back up to three events after the start of a mapping or sequence before it looks at them.  The events that
    it refuses below are the end of a mapping after a key and the end of a document without a root; both are looked at
    when they are emitted because they close what is held back. *)
Definition after_node (st : list expects) : option (list expects) :=
  match st with
  | XRoot :: r => Some (XDone :: r)
  | XElem :: r => Some (XElem :: r)
  | XKey :: r => Some (XValue :: r)
  | XValue :: r => Some (XKey :: r)
  | _ => None
  end.
Definition takes (e : yev) (st : list expects) : option (list expects) :=
  match e, st with
  | YStreamStart, [] => Some []
  | YStreamEnd, [] => Some []
  | YDocStart, [] => Some [XRoot]
  | YDocEnd, [XDone] => Some []
  | YScalar _, _ => after_node st
  | YSeqStart, _ => option_map (cons XElem) (after_node st)
  | YMapStart, _ => option_map (cons XKey) (after_node st)
  | YSeqEnd, XElem :: r => Some r
  | YMapEnd, XKey :: r => Some r
  | _, _ => None
  end.
(** The emitter: what is expected, the events taken so far, whether text waits in the buffer, the number of calls. *)
Record emitter := mkEm { em_open : list expects; em_events : list yev; em_text : bool; em_calls : nat }.
Definition em_new : emitter := mkEm [] [] false 0.

(** The output: whether it takes text, and when libyaml's buffer is full: [full n] says that the [n]th event makes libyaml
    write out its buffer. *)
Record outside := mkOut { o_good : bool; o_full : nat -> bool }.

(** The start of the stream writes nothing, its end flushes the buffer. *)
Definition em_stuck (o : outside) (e : yev) (m : emitter) : bool :=
  negb (o_good o) && match e with YStreamStart => false | YStreamEnd => em_text m | _ => o_full o (em_calls m) end.
Definition em_emit (o : outside) (e : yev) (m : emitter) : bool * emitter :=
  match takes e (em_open m) with
  | Some st =>
      if em_stuck o e m then (false, mkEm (em_open m) (em_events m) (em_text m) (S (em_calls m)))
      else (true, mkEm st (em_events m ++ [e]) (match e with YStreamStart => em_text m | YStreamEnd => false | _ => true end) (S (em_calls m)))
  | None => (false, mkEm (em_open m) (em_events m) (em_text m) (S (em_calls m)))
  end.
(** yaml_emitter_flush (libyaml, writer.c): an empty buffer is not written. *)
Definition em_flush (o : outside) (m : emitter) : bool * emitter :=
  if em_text m && negb (o_good o) then (false, m) else (true, mkEm (em_open m) (em_events m) false (em_calls m)).

(** ** YamlPrinter *)
(** The members of YamlPrinter (YamlPrinter.h:24-27) other than firstLine.  Of the pairs in [state] the first counts what
    was emitted. *)
Record yprinter := mkYp { yp_error : bool; yp_state : list (Z * level); yp_em : emitter }.
(** What a call gives: it returns, it raises an exception, the program was terminated, or it is undefined. *)
Inductive yres := YDone (p : yprinter) | YRaised (p : yprinter) | YTerm | YUndef.
Definition y_then (r : yres) (f : yprinter -> yres) : yres := match r with YDone p => f p | _ => r end.
(** A destructor that runs [f] at the end of a scope that gave [r]; destructors are noexcept, an exception that leaves one
    ends the program. *)
Definition y_destroy (r : yres) (f : yprinter -> yres) : yres :=
  match r with
  | YDone p => match f p with YRaised _ => YTerm | r' => r' end
  | YRaised p => match f p with YDone p => YRaised p | YRaised _ => YTerm | r' => r' end
  | _ => r
  end.

(** checkYamlResultCode (YamlPrinter.cpp:40-53). *)
Definition y_check (r : bool * emitter) (p : yprinter) : yres :=
  let '(ok, m) := r in if ok : bool then YDone (mkYp (yp_error p) (yp_state p) m) else YRaised (mkYp true (yp_state p) m).
(** checkYamlResultCode (YamlPrinter.cpp:55-63) when the event can be made. *)
Definition y_event_out (o : outside) (e : yev) (p : yprinter) : yres := y_check (em_emit o e (yp_em p)) p.

Definition y_push (l : level) (p : yprinter) : yres := YDone (mkYp (yp_error p) ((0, l) :: yp_state p) (yp_em p)).
Definition y_pop (p : yprinter) : yres :=
  match yp_state p with _ :: st => YDone (mkYp (yp_error p) st (yp_em p)) | [] => YUndef end.
Definition y_count (p : yprinter) : yres :=
  match yp_state p with (n, l) :: st => YDone (mkYp (yp_error p) ((n + 1, l) :: st) (yp_em p)) | [] => YUndef end.

(** init (YamlPrinter.cpp:89-100). *)
Definition y_start (o : outside) (p : yprinter) : yres :=
  y_then (y_event_out o YStreamStart (mkYp (yp_error p) (yp_state p) em_new)) (y_push LvValue).
(** The constructors (YamlPrinter.cpp:65-81). *)
Definition y_new (o : outside) : yres := y_start o (mkYp false [] em_new).
(** complete (YamlPrinter.cpp:102-114). *)
Definition y_complete (o : outside) (p : yprinter) : yres :=
  y_then (if yp_error p then YDone p else y_event_out o YStreamEnd p) (fun p => y_check (em_flush o (yp_em p)) p).
(** reset (YamlPrinter.cpp:116-122). *)
Definition y_reset (o : outside) (p : yprinter) : yres :=
  y_then (y_complete o p) (fun p => y_start o (mkYp (yp_error p) [] (yp_em p))).
(** openDoc, closeDoc (YamlPrinter.cpp:124-141). *)
Definition y_openDoc (o : outside) : yprinter -> yres := y_event_out o YDocStart.
Definition y_closeDoc (o : outside) (p : yprinter) : yres :=
  y_then (y_event_out o YDocEnd p) (fun p => y_check (em_flush o (yp_em p)) p).
(** openMap, closeMap, openArray, closeArray (YamlPrinter.cpp:143-195). *)
Definition y_openBlock (o : outside) (map : bool) (p : yprinter) : yres :=
  y_then (y_event_out o (if map then YMapStart else YSeqStart) p) (y_push (if map then LvMap else LvArray)).
Definition y_closeBlock (o : outside) (map : bool) (p : yprinter) : yres :=
  y_then (y_event_out o (if map then YMapEnd else YSeqEnd) p) y_pop.
(** emit, emitNull (YamlPrinter.cpp:197-240). *)
Definition y_emit (o : outside) (s : bytes) (p : yprinter) : yres :=
  if check_utf8 s then y_then (y_event_out o (YScalar s) p) y_count else YRaised (mkYp true (yp_state p) (yp_em p)).
(** addKey (YamlPrinter.cpp:242-254). *)
Definition y_addKey (o : outside) (k : bytes) (p : yprinter) : yres :=
  match yp_state p with
  | (n, l) :: _ =>
      if negb (match l with LvMap => true | _ => false end) && negb (Z.rem n 2 =? 1)
      then YRaised (mkYp true (yp_state p) (yp_em p)) else y_emit o k p
  | [] => YUndef
  end.

(** ** The serializer (Serialize.tpp:904-1355, SerUtil.h) for this printer *)
(** What the serializer does for a value: a scalar (addValue, addNull), an exception, an array block, a map block with a key
    before every value.  [PUndef]: the value does not have the shape of the type; it cannot be written in C++. *)
Inductive plan := PScal (s : bytes) | PThrow | PUndef | PSeq (l : list plan) | PMap (l : list (bytes * plan)).
Definition unkeyed : list (bytes * plan) := [([], PUndef)].

Section Plan.
  (** [num i z]: the text of a [TInt]; for integers the decimal one that operator<< writes; [None]: writing it throws (Model/YamlSerialize.v). *)
  Variables (num : ity -> Z -> option bytes) (marker : bytes).
  Record pfun := mkPlan {
    pf_val : val -> plan;                          (* SerializerForBlock: see sf_print of Model/Serializer.v *)
    pf_poly : val -> plan;                         (* printPolyMorphicObject (Serialize.tpp:1043-1052) *)
    pf_mem : val -> list (bytes * plan)            (* Serializer::printObjectMembers (Serialize.tpp:1346-1355) *)
  }.
  Definition pl_simple (f : val -> plan) : pfun := mkPlan f (fun _ => PUndef) (fun _ => unkeyed).
  (** The members of a class, then those of the parents; see put_members and put_parents. *)
  Fixpoint pl_members (ns : list bytes) (opts : list bool) (fs : list pfun) (vs : list val) : list (bytes * plan) :=
    match ns, opts, fs, vs with
    | [], [], [], [] => []
    | n :: ns', o :: os', f :: fs', v :: vs' => (if keeps o v then [(n, pf_val f v)] else []) ++ pl_members ns' os' fs' vs'
    | _, _, _, _ => unkeyed
    end.
  Fixpoint pl_parents (fs : list pfun) (vs : list val) : list (bytes * plan) :=
    match fs, vs with
    | [], [] => []
    | f :: fs', v :: vs' => pf_mem f v ++ pl_parents fs' vs'
    | _, _ => unkeyed
    end.
  Fixpoint pl_tuple (fs : list pfun) (vs : list val) : list plan :=
    match fs, vs with
    | [], [] => []
    | f :: fs', v :: vs' => pf_val f v :: pl_tuple fs' vs'
    | _, _ => [PUndef]
    end.

  Fixpoint plan_of (t : ty) : pfun :=
    match t with
    | TInt i => pl_simple (fun v => match v with VInt z => match num i z with Some s => PScal s | None => PThrow end | _ => PUndef end)
    | TBool => pl_simple (fun v => match v with VBool b => PScal (if b then bs "true" else bs "false") | _ => PUndef end)
    | TStr => pl_simple (fun v => match v with VStr s => PScal s | _ => PUndef end)
    | TEnum l =>
        pl_simple (fun v => match v with
                            | VInt z => match enum_name l z with Some n => PScal n | None => PThrow end
                            | _ => PUndef
                            end)
    | TSeq _ t' => let f := plan_of t' in
        pl_simple (fun v => match v with VList l => PSeq (map (pf_val f) l) | _ => PUndef end)
    | TArr n t' => let f := plan_of t' in
        pl_simple (fun v => match v with VList l => if Nat.eqb (List.length l) n then PSeq (map (pf_val f) l) else PUndef | _ => PUndef end)
    | TTup ts => let fs := map plan_of ts in
        pl_simple (fun v => match v with VList l => PSeq (pl_tuple fs l) | _ => PUndef end)
    | TMap _ t' => let f := plan_of t' in
        pl_simple (fun v => match v with VMap l => PMap (map (fun kv => (fst kv, pf_val f (snd kv))) l) | _ => PUndef end)
    | TPtr t' => let f := plan_of t' in
        pl_simple (fun v => match v with VPtr None => PScal (bs "null") | VPtr (Some x) => pf_val f x | _ => PUndef end)
    | TOpt t' => let f := plan_of t' in
        pl_simple (fun v => match v with VOpt None => PThrow | VOpt (Some x) => pf_val f x | _ => PUndef end)
    | TStruct i ms ps =>
        let opts := map opt_type ms in
        let fm := map plan_of ms in
        let fp := map plan_of ps in
        let members := fun v =>
          match v with
          | VStruct own par => pl_members (map (nameOverride i) (si_names i)) opts fm own ++ pl_parents fp par
          | _ => unkeyed
          end in
        let tag := [(marker, PScal (si_poly i))] in
        mkPlan (fun v => PMap ((if si_mark i then tag else []) ++ members v)) (fun v => PMap (tag ++ members v)) members
    | TPoly cs _ => let fs := map plan_of cs in
        pl_simple (fun v => match v with
                            | VPtr None => PScal (bs "null")
                            | VPtr (Some (VVar k x)) => match nth_error fs k with Some f => pf_poly f x | None => PUndef end
                            | _ => PUndef
                            end)
    | TVariant cs => let fs := map plan_of cs in
        pl_simple (fun v => match v with
                            | VVar k x => match nth_error fs k with Some f => pf_poly f x | None => PUndef end
                            | _ => PUndef
                            end)
    end.
End Plan.

Section Run.
  Variable o : outside.
  (** The blocks (Serialize.tpp:904-948, 1186-1213): the constructor opens, the destructor closes. *)
  Fixpoint run (a : plan) (p : yprinter) : yres :=
    match a with
    | PScal s => y_emit o s p
    | PThrow => YRaised p
    | PUndef => YUndef
    | PSeq l =>
        y_then (y_openBlock o false p) (fun p =>
          y_destroy ((fix elems (l : list plan) (p : yprinter) : yres :=
                        match l with [] => YDone p | a :: r => y_then (run a p) (elems r) end) l p)
                    (y_closeBlock o false))
    | PMap l =>
        y_then (y_openBlock o true p) (fun p =>
          y_destroy ((fix entries (l : list (bytes * plan)) (p : yprinter) : yres :=
                        match l with [] => YDone p | (k, a) :: r => y_then (y_then (y_addKey o k p) (run a)) (entries r) end) l p)
                    (y_closeBlock o true))
    end.

  (** Serializer::print for the root (Serialize.tpp:1303-1324). *)
  Definition y_print (k : okind) (a : plan) (p : yprinter) : yres :=
    match k with
    | ToStream => run a p
    | ToString => y_then (y_then (y_then (y_then (run a p) (y_closeDoc o)) (y_reset o)) (y_openDoc o)) (run a)
    end.
  (** Exporter::doInserter (Exporter.h:100-104) with the constructor and destructor of Serializer (Serialize.h:287-303). *)
  Definition y_insert (k : okind) (a : plan) (p : yprinter) : yres :=
    y_then (y_openDoc o p) (fun p => y_destroy (y_print k a p) (y_closeDoc o)).
End Run.

(** ExporterBase::inserter (Exporter.h:37-79) with YamlPrinter: the printer is destroyed after the handlers.  The events of
    the document that was written, or whether an exception reaches the caller. *)
Inductive ywritten := WDone (es : list yev) | WFailed (raised : bool) | WTerminated | WUndef.
Definition yaml_events_opt (num : ity -> Z -> option bytes) (c : fconfig) (o : outside) (k : okind) (t : ty) (v : val) : ywritten :=
  match y_then (y_new o) (y_insert o k (pf_val (plan_of num (pf_marker c) t) v)) with
  | YDone p =>
      match y_destroy (YDone p) (y_complete o) with
      | YDone _ => WDone (em_events (yp_em p))
      | YTerm => WTerminated
      | _ => WUndef
      end
  | YRaised p =>
      (* printer.setFail() (Exporter.h:58) *)
      match y_destroy (YRaised p) (y_complete (mkOut false (o_full o))) with
      | YRaised _ => WFailed (negb (pf_catch c))
      | YTerm => WTerminated
      | _ => WUndef
      end
  | YTerm => WTerminated
  | YUndef => WUndef
  end.
Definition yaml_events_with (num : ity -> Z -> bytes) : fconfig -> outside -> okind -> ty -> val -> ywritten := yaml_events_opt (fun i z => Some (num i z)).
Definition yaml_events : fconfig -> outside -> okind -> ty -> val -> ywritten := yaml_events_with (fun _ => int_dec).

(** What the caller observes.  [pieces es]: the pieces of text that libyaml gives to the write handler for these events (with
    the style and the indentation of the configuration).  For a string the first pass counts, the second copies
    (StringOutput.h:34-46, 82-96), both with the same printer. *)
Inductive yexported := YExported (out : bytes) | YFailed (raised : bool) | YTerminated | YUB.
Definition yaml_text (c : fconfig) (k : okind) (pieces : list bytes) : outcome bytes :=
  let '(w1, first) := y_writes (pf_block c) false pieces in
  match k with
  | ToStream => Ok (List.concat w1)
  | ToString => copy_chunks (Z.of_nat (List.length (List.concat w1))) (map Wr (fst (y_writes (pf_block c) first pieces)))
  end.
Definition yaml_export (pieces : list yev -> list bytes) (c : fconfig) (o : outside) (k : okind) (t : ty) (v : val) : yexported :=
  match yaml_events c o k t v with
  | WDone es => match yaml_text c k (pieces es) with Ok out => YExported out | _ => YUB end
  | WFailed b => YFailed b
  | WTerminated => YTerminated
  | WUndef => YUB
  end.
