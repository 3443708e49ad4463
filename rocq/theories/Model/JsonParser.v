(** JsonParser. *)
From Coq Require Import ZArith List Bool.
From Verif Require Import Model.Base Model.Source Model.Unicode Model.Number Model.JsonLexer
  Model.ParserInterface.
Import ListNotations.
Open Scope Z_scope.

(** State (JsonParser.h:34). *)
Inductive jstate :=
| JError | JInit | JOpenM | JKey | JColon | JValueM | JCommaM | JCloseM | JOpenA | JValueA | JCommaA
| JCloseA | JValueD | JDone.

(** stateTable (JsonParser.cpp:44-61); columns are the lexeme numbers of yylex. *)
Definition stateTable (s : jstate) (lexeme : nat) : jstate :=
  match s, lexeme with
  | JInit, 1%nat => JOpenM
  | JInit, 3%nat => JOpenA
  | JInit, (7 | 8 | 9 | 10 | 11 | 12 | 13)%nat => JValueD
  | JOpenM, 2%nat => JCloseM
  | JOpenM, 10%nat => JKey
  | JKey, 6%nat => JColon
  | JColon, 1%nat => JOpenM
  | JColon, 3%nat => JOpenA
  | JColon, (7 | 8 | 9 | 10 | 11 | 12 | 13)%nat => JValueM
  | JValueM, 2%nat => JCloseM
  | JValueM, 5%nat => JCommaM
  | JCommaM, 10%nat => JKey
  | JOpenA, 1%nat => JOpenM
  | JOpenA, 3%nat => JOpenA
  | JOpenA, 4%nat => JCloseA
  | JOpenA, (7 | 8 | 9 | 10 | 11 | 12 | 13)%nat => JValueA
  | JValueA, 4%nat => JCloseA
  | JValueA, 5%nat => JCommaA
  | JCommaA, 1%nat => JOpenM
  | JCommaA, 3%nat => JOpenA
  | JCommaA, (7 | 8 | 9 | 10 | 11 | 12 | 13)%nat => JValueA
  | _, _ => JError
  end.

(** Control part of the parser (JsonParser.h:37-40). *)
Record jctl := mkCtl {
  c_parents : list jstate;     (* parrentState, innermost first *)
  c_end     : jstate;          (* currentEnd *)
  c_state   : jstate;          (* currentState *)
  c_started : bool
}.

Definition ctl_init : jctl := mkCtl [] JDone JInit false.

(** What getNextToken does before it needs a lexeme (JsonParser.cpp:27-41). *)
Definition ctl_early (c : jctl) : option (token * jctl) :=
  if negb (c_started c) then
    Some (TokDocStart, mkCtl (c_parents c) (c_end c) (c_state c) true)
  else match c_state c with
       | JDone => Some (TokDocEnd, mkCtl (c_parents c) (c_end c) JError true)
       | JError => Some (TokError, c)
       | _ => None
       end.

(** The effect of one lexeme (JsonParser.cpp:65-124): a token, or "read another lexeme".
    back()/pop_back() of an empty vector is [UB]. *)
Inductive step_res := StepTok (t : token) (c : jctl) | StepAgain (c : jctl).

Definition ctl_step (c : jctl) (lexeme : nat) : outcome step_res :=
  let st := stateTable (c_state c) lexeme in
  let c1 := mkCtl (c_parents c) (c_end c) st (c_started c) in
  match st with
  | JError => Ok (StepTok TokError c1)
  | JKey => Ok (StepTok TokKey c1)
  | JValueM => Ok (StepTok TokValue c1)
  | JValueA => Ok (StepTok TokValue c1)
  | JValueD => Ok (StepTok TokValue (mkCtl (c_parents c) (c_end c) JDone (c_started c)))
  | JColon | JCommaM | JCommaA => Ok (StepAgain c1)
  | JOpenM => Ok (StepTok TokMapStart (mkCtl (c_end c :: c_parents c) JValueM st (c_started c)))
  | JOpenA => Ok (StepTok TokArrayStart (mkCtl (c_end c :: c_parents c) JValueA st (c_started c)))
  | JCloseM =>
      match c_parents c with
      | p :: ps => Ok (StepTok TokMapEnd (mkCtl ps p p (c_started c)))
      | [] => UB
      end
  | JCloseA =>
      match c_parents c with
      | p :: ps => Ok (StepTok TokArrayEnd (mkCtl ps p p (c_started c)))
      | [] => UB
      end
  | JInit | JDone => Throw
  end.

(** Whole parser state. *)
Record jparser := mkJp { jp_lex : jlex; jp_ctl : jctl }.

Definition jp_init (k : skind) (d : bytes) : jparser := mkJp (lex_init (src_init k d)) ctl_init.

(** getNextToken (JsonParser.cpp:25-125).  Colon and comma recurse; after one of them the state needs another
    lexeme and no two of them follow each other, so fuel 3 is always enough (proved). *)
Fixpoint jp_next_loop (fuel : nat) (p : jparser) : outcome (token * jparser) :=
  match fuel with
  | O => Hang
  | S f =>
      match ctl_early (jp_ctl p) with
      | Some (t, c) => Ok (t, mkJp (jp_lex p) c)
      | None =>
          do (ix, l) <- yylex (jp_lex p);
          do r <- ctl_step (jp_ctl p) ix;
          match r with
          | StepTok t c => Ok (t, mkJp l c)
          | StepAgain c => jp_next_loop f (mkJp l c)
          end
      end
  end.
Definition jp_next (p : jparser) : outcome (token * jparser) := jp_next_loop 3 p.

Definition jp_lift {A} (f : jlex -> outcome (A * jlex)) (p : jparser) : outcome (A * jparser) :=
  do (a, l) <- f (jp_lex p); Ok (a, mkJp l (jp_ctl p)).
Definition jp_lift_ (f : jlex -> outcome jlex) (p : jparser) : outcome jparser :=
  do l <- f (jp_lex p); Ok (mkJp l (jp_ctl p)).

(** The virtual methods (JsonParser.cpp:128-187).  [fuel] bounds the character loops, [conv] is
    config.convertBackSlash. *)
Definition json_ops (fuel : nat) (conv : bool) : parser_ops jparser :=
  mkOps jparser
    jp_next
    (jp_lift (getString fuel conv))
    (fun t => jp_lift (lex_scanInt t))
    (jp_lift getLastBool)
    (jp_lift (getStringInto fuel conv))
    (fun p => isLastNull (jp_lex p))
    (jp_lift_ (ignoreRawValue fuel))
    (fun _ p => Ok p)
    (fun _ p => Ok p).
