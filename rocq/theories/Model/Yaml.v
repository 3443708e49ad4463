(** YamlParser: the YAML reader on top of libyaml.

    libyaml itself is not modelled.  What it does with one text is a list of calls of yaml_parser_parse: each call asks the
    read handler for input some times and then delivers an event or fails.  After the end of the stream libyaml delivers
    YAML_NO_EVENT. *)
From Coq Require Import ZArith String List Bool.
From Verif Require Import Model.Base Model.Source Model.Number Model.ParserInterface Model.Types Model.Deserializer Model.Importer.
Import ListNotations.
Open Scope Z_scope.

(** yaml_event_t: the type of the event, for YAML_SCALAR_EVENT also its text (data.scalar.value and length).  Anchors,
    tags, styles and marks are not used by YamlParser. *)
Inductive yev :=
| YStreamStart | YStreamEnd | YDocStart | YDocEnd | YAlias | YNone
| YMapStart | YMapEnd | YSeqStart | YSeqEnd | YScalar (text : bytes).

(** One call of yaml_parser_parse: the sizes of the pieces it asks the read handler for, then the event; [None]: the call
    fails. *)
Definition ycall := (list nat * option yev)%type.

(** YamlParser::State (YamlParser.h:38) with its counter.  Simplified: the counter of the code is an int, overflow is not
    modelled. *)
Inductive ykind := YOpen | YMap | YArr.

(** The members of YamlParser (YamlParser.h:38-43), the calls that libyaml has still to answer, and the source.
    [y_event]: the event that was delivered last; libyaml clears it when a call fails (YNone). *)
Record yst := mkY {
  y_first : bool;
  y_error : bool;
  y_stack : list (ykind * Z);
  y_event : yev;
  y_calls : list ycall;
  y_src : src
}.
(** The constructors (YamlParser.cpp:31-52). *)
Definition y_init (calls : list ycall) (s : src) : yst := mkY true false [] YNone calls s.

(** thorsanvilYamlStreamReader (YamlParser.cpp:14-28): one piece of input is read; a source that failed but delivered
    something is made good again.  The size is never -1. *)
Definition y_read (n : nat) (s : src) : outcome src :=
  do (got, s) <- src_read s n;
  Ok (if negb (src_ok s) && Nat.ltb 0 (length got) then src_clear s else s).
Fixpoint y_reads (ns : list nat) (s : src) : outcome src :=
  match ns with [] => Ok s | n :: ns => do s <- y_read n s; y_reads ns s end.

(** yaml_parser_parse (libyaml) as called in YamlParser.cpp:70 and 84. *)
Definition y_parse (y : yst) : outcome (bool * yst) :=
  match y_calls y with
  | [] => Ok (true, mkY (y_first y) (y_error y) (y_stack y) YNone [] (y_src y))
  | (ns, e) :: calls =>
      do s <- y_reads ns (y_src y);
      match e with
      | Some e => Ok (true, mkY (y_first y) (y_error y) (y_stack y) e calls s)
      | None => Ok (false, mkY (y_first y) (y_error y) (y_stack y) YNone calls s)
      end
  end.

Definition yset_stack (y : yst) (st : list (ykind * Z)) : yst := mkY (y_first y) (y_error y) st (y_event y) (y_calls y) (y_src y).
Definition yset_first (y : yst) : yst := mkY false (y_error y) (y_stack y) (y_event y) (y_calls y) (y_src y).
(** parsingError (YamlParser.cpp:154-158). *)
Definition y_parsingError (y : yst) : outcome (token * yst) :=
  Ok (TokError, mkY (y_first y) true (y_stack y) (y_event y) (y_calls y) (y_src y)).

(** The next one counts as a key. *)
Definition at_key (k : ykind) (c : Z) : bool := match k with YMap => c mod 2 =? 1 | _ => false end.

(** The switch of getNextToken (YamlParser.cpp:89-150).  generateParsingException (160-172) throws: [Throw]; it also
    sets [error], the parser is not used after that.  back() and pop_back() of an empty vector are [UB]. *)
Definition y_event_token (y : yst) : outcome (token * yst) :=
  match y_event y with
  | YStreamStart | YAlias | YNone => Throw
  | YStreamEnd => y_parsingError y
  | YDocStart =>
      match y_stack y with
      | [(YOpen, 0)] => Ok (TokDocStart, yset_stack y [(YOpen, 1)])
      | [] => Throw
      | _ => Throw
      end
  | YDocEnd =>
      match y_stack y with
      | [(YOpen, _)] => Ok (TokDocEnd, y)
      | _ => Throw
      end
  | YMapStart =>
      match y_stack y with
      | (k, c) :: st => if at_key k (c + 1) then Throw else Ok (TokMapStart, yset_stack y ((YMap, 0) :: (k, c + 1) :: st))
      | [] => UB
      end
  | YMapEnd =>
      match y_stack y with
      | (_, c) :: st => if c mod 2 =? 0 then Ok (TokMapEnd, yset_stack y st) else Throw
      | [] => UB
      end
  | YSeqStart =>
      match y_stack y with
      | (k, c) :: st => if at_key k (c + 1) then Throw else Ok (TokArrayStart, yset_stack y ((YArr, 0) :: (k, c + 1) :: st))
      | [] => UB
      end
  | YSeqEnd =>
      match y_stack y with
      | _ :: st => Ok (TokArrayEnd, yset_stack y st)
      | [] => UB
      end
  | YScalar _ =>
      match y_stack y with
      | (k, c) :: st => Ok (if at_key k (c + 1) then TokKey else TokValue, yset_stack y ((k, c + 1) :: st))
      | [] => UB
      end
  end.

(** getNextToken (YamlParser.cpp:63-152). *)
Definition y_next (y : yst) : outcome (token * yst) :=
  do (go, y) <-
    (if y_first y then
       do (ok, y) <- y_parse (yset_first y);
       Ok (ok && match y_event y with YStreamStart => true | _ => false end,
           match y_event y with YStreamStart => yset_stack y [(YOpen, 0)] | _ => y end)
     else Ok (true, y));
  if negb go then y_parsingError y
  else if y_error y then Ok (TokError, y)
  else
    do (ok, y) <- y_parse y;
    if ok then y_event_token y else y_parsingError y.

(** getString (YamlParser.cpp:174-196): the text of the current event.  Used by getKey, getRawValue and getValue(string)
    (YamlParser.h:65, YamlParser.cpp:253-257, 270-274).  Reading the text of another event is [UB]. *)
Definition y_text (y : yst) : outcome (bytes * yst) :=
  match y_event y with YScalar s => Ok (s, y) | _ => UB end.

(** strtol, strtoul, strtoll, strtoull, base 10 (C library): white space, a sign, digits; without digits nothing is taken.
    A value out of range gives the nearest end of the range, for the unsigned functions always the largest value; a minus
    sign negates modulo 2^64.  Result: the value and the number of characters taken. *)
Definition strto (signed : bool) (s : bytes) : Z * nat :=
  let '(n0, s1) := skip_space s in
  let '(neg, n1, s2) :=
    match s1 with
    | c :: r => if c =? 45 then (true, 1%nat, r) else if c =? 43 then (false, 1%nat, r) else (false, O, s1)
    | [] => (false, O, s1)
    end in
  let '(ds, _) := span_digits s2 in
  match ds with
  | [] => (0, O)
  | _ =>
      let v := dec_value ds in
      let n := (n0 + n1 + length ds)%nat in
      (if signed then Z.max (- 2 ^ 63) (Z.min (2 ^ 63 - 1) (if neg : bool then - v else v))
       else if 2 ^ 64 - 1 <? v then 2 ^ 64 - 1 else if neg : bool then (- v) mod 2 ^ 64 else v, n)
  end.
(** scanValue (Serialize.h:56-66): the result converted to the type.  scan (YamlParser.cpp:198-214): everything must have
    been taken. *)
Definition yaml_int (i : ity) (s : bytes) : outcome Z :=
  let '(v, n) := strto (i_signed i) s in
  if Nat.eqb n (length s) then Ok (i_wrap i v) else Throw.
(** getValue(bool&) (YamlParser.cpp:231-251). *)
Definition yaml_bool (s : bytes) : outcome bool :=
  if beq s (bs "true") then Ok true else if beq s (bs "false") then Ok false else Throw.
(** isValueNull (YamlParser.cpp:259-268).  For an event that is no scalar the code reads the length of a scalar from the
    same memory; for the events that can be current there it is 0 (the layout of yaml_event_t, see DESIGN.md). *)
Definition text_null (s : bytes) : bool := beq s (bs "null") || beq s (bs "~").
Definition y_null (y : yst) : bool := match y_event y with YScalar s => text_null s | _ => false end.

(** YamlParser as a parser (YamlParser.h:61-86).  ignoreDataValue, ignoreDataMap and ignoreDataArray are those of
    ParserInterface.h:155-157 and do nothing.  [ints]: how the text of a [TInt] is read, see Model/YamlCustom.v. *)
Definition y_value {B} (f : bytes -> outcome B) (y : yst) : outcome (B * yst) :=
  do (s, y) <- y_text y; do b <- f s; Ok (b, y).
Definition yaml_ops_with (ints : ity -> bytes -> outcome Z) : parser_ops yst :=
  mkOps yst y_next y_text (fun i => y_value (ints i)) (y_value yaml_bool) y_text y_null
    (fun y => Ok y) (fun _ y => Ok y) (fun _ y => Ok y).
Definition yaml_ops : parser_ops yst := yaml_ops_with yaml_int.

(** Importer::extract with YamlParser (Importer.h:32-99); see [json_try] for the parts that are not specific to a format. *)
Definition yset_src (y : yst) (s : src) : yst := mkY (y_first y) (y_error y) (y_stack y) (y_event y) (y_calls y) s.
Definition yaml_try_with (ints : ity -> bytes -> outcome Z) (fuel : nat) (cfg : pconfig) (t : ty) (v : val) (calls : list ycall) (s : src) : outcome (val * src) :=
  let ops := yaml_ops_with ints in
  do (tk, p) <- getToken ops (pst_init (y_init calls s));
  match tk with
  | TokDocStart =>
      do (v', p) <- d_parse (deser ops fuel (pc_strict cfg) (pc_marker cfg) t) v p;
      do s1 <- check_trailing (pc_noTrailing cfg) (y_src (ps_impl p));
      do (tk, p) <- getToken ops (mkPst (yset_src (ps_impl p) s1) (ps_pb1 p) (ps_pb2 p));
      match tk with
      | TokDocEnd => Ok (v', y_src (ps_impl p))
      | _ => Throw
      end
  | _ => Throw
  end.
Definition yaml_extract_with (ints : ity -> bytes -> outcome Z) (fuel : nat) (cfg : pconfig) (t : ty) (v : val) (calls : list ycall) (s : src) : import_result :=
  match yaml_try_with ints fuel cfg t v calls s with
  | Ok (v', s') => Returned v' s'
  | Throw => Failed (negb (pc_catch cfg))
  | UB => ImpUB
  | Hang => ImpHang
  end.
Definition yaml_extract : nat -> pconfig -> ty -> val -> list ycall -> src -> import_result := yaml_extract_with yaml_int.
