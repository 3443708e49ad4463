(** AnyBlock: a variable that takes any document as text (Traits.h:930-943, SerUtil.h:78-84).  Its std::stringstream is the list of
    the characters written to it; nothing empties it. *)
From Coq Require Import ZArith String List Bool.
From Verif Require Import Model.Base Model.Source Model.JsonLexer Model.ParserInterface Model.JsonParser Model.Importer.
Import ListNotations.
Open Scope Z_scope.

Section Any.
  (** [raw]: ParserInterface::getRawValue. *)
  Context {St : Type} (ops : parser_ops St) (raw : St -> outcome (bytes * St)).
  (** DeSerializationForBlock<TraitType::AnyBlock, AnyBlock> (Serialize.tpp:664-787).  [any_item]: the switch over the token of a
      value (scanObject, and the same inside readMap and readArray); [any_map], [any_arr]: the loops of readMap and readArray,
      with the token that was read last.  Simplified: a failure does not show what was written before it; after a token that
      is no key the comma has been written, which makes no difference. *)
  Fixpoint any_item (f : nat) (tk : token) (p : pst St) (out : bytes) : outcome (bytes * pst St) :=
    match f with
    | O => Hang
    | S f =>
        match tk with
        | TokMapStart => do (tk, p) <- getToken ops p; any_map f true tk p (out ++ bs "{")
        | TokArrayStart => do (tk, p) <- getToken ops p; any_arr f true tk p (out ++ bs "[")
        | TokValue => do (t, p) <- lift raw p; Ok (out ++ t, p)
        | _ => Throw
        end
    end
  with any_map (f : nat) (first : bool) (tk : token) (p : pst St) (out : bytes) : outcome (bytes * pst St) :=
    match f with
    | O => Hang
    | S f =>
        match tk with
        | TokMapEnd => Ok (out ++ bs "}", p)
        | TokKey =>
            let out := if first then out else out ++ bs "," in
            do (key, p) <- lift (op_key ops) p;
            do (tk, p) <- getToken ops p;
            do (out, p) <- any_item f tk p (out ++ bs """" ++ key ++ bs """:");
            do (tk, p) <- getToken ops p;
            any_map f false tk p out
        | _ => Throw
        end
    end
  with any_arr (f : nat) (first : bool) (tk : token) (p : pst St) (out : bytes) : outcome (bytes * pst St) :=
    match f with
    | O => Hang
    | S f =>
        match tk with
        | TokArrayEnd => Ok (out ++ bs "]", p)
        | _ =>
            let out := if first then out else out ++ bs "," in
            do (out, p) <- any_item f tk p out;
            do (tk, p) <- getToken ops p;
            any_arr f false tk p out
        end
    end.
End Any.

(** JsonParser::getRawValue (JsonParser.cpp:184-187). *)
Definition json_raw (fuel : nat) : jparser -> outcome (bytes * jparser) := jp_lift (getRawString fuel).

(** Importer::extract into an AnyBlock that holds the text [out]; as [json_try] and [json_extract] of Model/Importer.v. *)
Definition any_try (fuel : nat) (cfg : pconfig) (out : bytes) (s : src) : outcome (bytes * src) :=
  let ops := json_ops fuel (pc_conv cfg) in
  do (tk, p) <- getToken ops (pst_init (mkJp (lex_init s) ctl_init));
  match tk with
  | TokDocStart =>
      do (tk, p) <- getToken ops p;
      do (out', p) <- any_item ops (json_raw fuel) fuel tk p out;
      do s1 <- check_trailing (pc_noTrailing cfg) (l_src (jp_lex (ps_impl p)));
      let p := mkPst (mkJp (lset_src (jp_lex (ps_impl p)) s1) (jp_ctl (ps_impl p))) (ps_pb1 p) (ps_pb2 p) in
      do (tk, p) <- getToken ops p;
      match tk with
      | TokDocEnd => Ok (out', l_src (jp_lex (ps_impl p)))
      | _ => Throw
      end
  | _ => Throw
  end.
Inductive any_result := AnyReturned (out : bytes) (s : src) | AnyFailed (raised : bool) | AnyUB | AnyHang.
Definition any_extract (fuel : nat) (cfg : pconfig) (out : bytes) (s : src) : any_result :=
  match any_try fuel cfg out s with
  | Ok (out', s') => AnyReturned out' s'
  | Throw => AnyFailed (negb (pc_catch cfg))
  | UB => AnyUB
  | Hang => AnyHang
  end.

(** Observations, as in Model/Importer.v: [getString] gives [out'] after a successful import. *)
Definition any_imports (cfg : pconfig) (k : skind) (out text out' rest : bytes) : Prop :=
  exists N, forall fuel, (N <= fuel)%nat ->
    exists s, any_extract fuel cfg out (src_init k text) = AnyReturned out' s /\ src_ok s = true /\ s_rest s = rest.
Definition any_failure (r : any_result) : Prop :=
  match r with
  | AnyReturned _ s => src_ok s = false
  | AnyFailed _ => True
  | _ => False
  end.
Definition any_rejects (cfg : pconfig) (k : skind) (out text : bytes) : Prop :=
  exists N, forall fuel, (N <= fuel)%nat -> any_failure (any_extract fuel cfg out (src_init k text)).
