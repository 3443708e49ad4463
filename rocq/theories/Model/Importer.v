(** Importer: a whole import from a JSON source. *)
From Coq Require Import ZArith String List Bool.
From Verif Require Import Model.Base Model.Source Model.Number Model.JsonLexer Model.ParserInterface Model.JsonParser
  Model.Types Model.Deserializer.
Import ListNotations.
Open Scope Z_scope.

(** ParserConfig (ParserConfig.h:64-70).  [pc_marker] is the marker after Private::getPolymorphicMarker
    (PolymorphicMarker.h:42-54) has replaced an empty one by the default. *)
Record pconfig := mkPc {
  pc_strict : strictness;        (* parseStrictness *)
  pc_marker : bytes;             (* polymorphicMarker *)
  pc_catch : bool;               (* catchExceptions *)
  pc_noTrailing : bool;          (* validateNoTrailingData *)
  pc_conv : bool                 (* convertBackSlash *)
}.
(** The default configuration (ParserConfig.h:64-70, PolymorphicMarker.h:11-17). *)
Definition pc_default : pconfig := mkPc Weak (bs "__type") true false true.

(** What the caller of an import observes.
    [Returned v s]: extract returned without an exception inside; its result is [src_ok s].
    [Failed raised]: an exception was thrown inside, the source was put into the failed state (Importer.h:80); it
    reached the caller iff [raised], otherwise extract returned false.
    Simplified: the exceptions of the modelled code all derive from std::exception and none is a DepricatedIssue, so
    the handlers Importer.h:67-75 and 87-97 are not modelled; what is left in the target after a failure is in
    Model/Target.v. *)
Inductive import_result :=
| Returned (v : val) (s : src)
| Failed (raised : bool)
| ImpUB
| ImpHang.

(** How extract ends (Importer.h:36-97).  The try block ends with the source in state [s], normally or with an
    exception of one of three kinds; extract then returns parser.ok() or lets the exception through. *)
Inductive exn := ExnDepricated | ExnStd | ExnUnknown.
Inductive try_end := TryDone (s : src) | TryThrew (e : exn) (s : src).
Inductive extract_end := EndReturned (result : bool) (s : src) | EndRaised (e : exn) (s : src).
Definition extract_handlers (catchExceptions catchUnknownExceptions : bool) (r : try_end) : extract_end :=
  match r with
  | TryDone s => EndReturned (src_ok s) s
  | TryThrew ExnDepricated s => EndRaised ExnDepricated s
  | TryThrew ExnStd s =>
      let s := src_setFail s in
      if catchExceptions then EndReturned (src_ok s) s else EndRaised ExnStd s
  | TryThrew ExnUnknown s =>
      let s := src_setFail s in
      if catchUnknownExceptions then EndReturned (src_ok s) s else EndRaised ExnUnknown s
  end.

(** The trailing data check (Importer.h:43-63). *)
Definition check_trailing (on : bool) (s : src) : outcome src :=
  if on && src_ok s then
    let '(_, s1) := src_readChar s in
    if src_ok s1 then Throw else Ok (src_clear s1)
  else Ok s.

(** The body of the try block of extract (Importer.h:37-64): DeSerializer constructor, parse, trailing data check,
    destructor (Serialize.h:250-283).
    Assumption: during stack unwinding the destructor's own error does not escape (ThorsLogAndThrowError of the
    ThorsLogging library); its only other effect is on a source that is put into the failed state anyway. *)
Definition json_try (fuel : nat) (cfg : pconfig) (t : ty) (v : val) (s : src) : outcome (val * src) :=
  let ops := json_ops fuel (pc_conv cfg) in
  do (tk, p) <- getToken ops (pst_init (mkJp (lex_init s) ctl_init));
  match tk with
  | TokDocStart =>
      do (v', p) <- d_parse (deser ops fuel (pc_strict cfg) (pc_marker cfg) t) v p;
      do s1 <- check_trailing (pc_noTrailing cfg) (l_src (jp_lex (ps_impl p)));
      let p := mkPst (mkJp (lset_src (jp_lex (ps_impl p)) s1) (jp_ctl (ps_impl p))) (ps_pb1 p) (ps_pb2 p) in
      do (tk, p) <- getToken ops p;
      match tk with
      | TokDocEnd => Ok (v', l_src (jp_lex (ps_impl p)))
      | _ => Throw
      end
  | _ => Throw
  end.

(** Importer::extract (Importer.h:32-99) from a source in state [s] into a variable of type [t] holding [v].  [fuel]
    bounds every loop. *)
Definition json_extract (fuel : nat) (cfg : pconfig) (t : ty) (v : val) (s : src) : import_result :=
  match json_try fuel cfg t v s with
  | Ok (v', s') => Returned v' s'
  | Throw => Failed (negb (pc_catch cfg))
  | UB => ImpUB
  | Hang => ImpHang
  end.

(** ** Observations.  [N] only says that the loops ran to their end: the result is the same for every larger fuel. *)
(** The import succeeds, leaves [v'] in the variable, and [rest] is what is left to read. *)
Definition imports (cfg : pconfig) (k : skind) (t : ty) (v : val) (text : bytes) (v' : val) (rest : bytes) : Prop :=
  exists N, forall fuel, (N <= fuel)%nat ->
    exists s, json_extract fuel cfg t v (src_init k text) = Returned v' s /\ src_ok s = true /\ s_rest s = rest.
(** The import reports a failure: an exception, or the result false. *)
Definition failure (r : import_result) : Prop :=
  match r with
  | Returned _ s => src_ok s = false
  | Failed _ => True
  | _ => False
  end.
Definition rejects (cfg : pconfig) (k : skind) (t : ty) (v : val) (text : bytes) : Prop :=
  exists N, forall fuel, (N <= fuel)%nat -> failure (json_extract fuel cfg t v (src_init k text)).
(** The import has undefined behaviour. *)
Definition undefined (cfg : pconfig) (k : skind) (t : ty) (v : val) (text : bytes) : Prop :=
  exists N, forall fuel, (N <= fuel)%nat -> json_extract fuel cfg t v (src_init k text) = ImpUB.
(** The import never ends. *)
Definition never_ends (cfg : pconfig) (k : skind) (t : ty) (v : val) (text : bytes) : Prop :=
  forall fuel, json_extract fuel cfg t v (src_init k text) = ImpHang.
