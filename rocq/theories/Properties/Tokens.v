(** C07-C09: the token stream of the JSON parser.

    [session (jp_init k text) ts ls p]: a client asked a fresh parser over [text] for tokens, and between the requests
    used the lexer in any way (reading, skipping or ignoring the values); it got the tokens [ts], the parser read the
    lexemes [ls] for them, and is now in state [p].  [reads_token] is one request (see C07_request). *)
From Coq Require Import ZArith String List Bool Lia ZifyBool.
From Verif Require Import Model.Base Model.Source Model.JsonLexer Model.ParserInterface Model.JsonParser
  Spec.Lexemes Spec.Json Proofs.LexP Proofs.JsonSim Proofs.CtlP.
Import ListNotations.
Open Scope Z_scope.

Theorem C07_request : forall p t p', jp_next p = Ok (t, p') <-> exists ls, reads_token p ls t p'.
Proof. exact next_reads. Qed.
Print Assumptions C07_request.

(** If the end-of-document token was delivered, the lexemes read form exactly one value. *)
Theorem C07_accepted_is_grammatical : forall k text ts ls p,
  session (jp_init k text) ts ls p -> In TokDocEnd ts -> g_value ls.
Proof.
  intros k text ts ls p S H. assert (P := session_phase (jp_init k text) _ _ _ eq_refl S).
  inversion P as [Q1 Q2 Q3|ts' ls' c fs N1 N2 N3|ts' ls' c n N1 G|ts' ls' c n N1 N2]; subst.
  - destruct H.
  - contradiction.
  - exact G.
  - exfalso. apply in_app_iff in H as [H|[H|H]]; [auto|discriminate H|]. apply repeat_spec in H. discriminate H.
Qed.
Print Assumptions C07_accepted_is_grammatical.

(** As long as the lexemes read can be completed to a value there is no error, and when they form one, the next token
    is the end of the document. *)
Theorem C07_grammatical_is_accepted : forall k text ts ls p more,
  session (jp_init k text) ts ls p -> ts <> [] -> ~ In TokDocEnd ts -> g_value (ls ++ more) ->
  ~ In TokError ts /\ (more = [] -> exists p', jp_next p = Ok (TokDocEnd, p')).
Proof.
  intros k text ts ls p more S Hne Hd G. assert (P := session_phase (jp_init k text) _ _ _ eq_refl S).
  apply machine_is_grammar in G.
  inversion P as [Q1 Q2 Q3|ts' ls' c fs N1 N2 N3 Hr Hn Hf|ts' ls' c n N1 G2|ts' ls' c n N1 N2 D]; subst.
  - contradiction.
  - split; [exact N2|]. intros ->. rewrite app_nil_r in G. destruct G as (c2 & E & Hs). rewrite Hr in E. injection E as <-.
    unfold jp_next. cbn [jp_next_loop]. unfold ctl_early. rewrite Hs.
    assert (T : c_started (jp_ctl p) = true) by (destruct Hf; reflexivity). rewrite T. cbn [negb]. eauto.
  - exfalso. apply Hd. apply in_app_iff. right. now left.
  - exfalso. exact (D more G).
Qed.
Print Assumptions C07_grammatical_is_accepted.

(** The lexemes are the ones of the text: in front of white space and a character that starts a lexeme, yylex delivers
    its number and stands behind a punctuation character, before any other one. *)
Theorem C07_lexemes_of_text : forall k l w c t n,
  at_src k (l_src l) (w ++ c :: t) -> ws w -> starts_lexeme c n ->
  exists l', yylex l = Ok (n, l') /\ at_src k (l_src l') (if (n <=? 6)%nat then t else c :: t).
Proof.
  intros k l w c t n H Hw Hc.
  assert (Hr : is_space c = false /\ 0 <= c < 128) by (destruct Hc; unfold is_space; lia). destruct Hr as [Hr1 Hr2].
  destruct (yylex_at k l w c t H Hw Hr1 Hr2) as (s' & E & A). eexists.
  destruct Hc; cbn in A; try (split; [exact E|exact A]).
  assert (Hl : lexix c = 13%nat) by (unfold lexix; repeat match goal with |- context [c =? ?x] => destruct (Z.eqb_spec c x); [lia|] end; reflexivity).
  rewrite Hl in E. split; [exact E|]. cbn.
  assert (Hp : is_punct c = false) by (unfold is_punct; lia). rewrite Hp in A. exact A.
Qed.
Print Assumptions C07_lexemes_of_text.

(** The tokens of "[1,{}]"; values are skipped in between. *)
Example C07_example : exists p, session (jp_init StrIn (bs "[1,{}]"))
  [TokDocStart; TokArrayStart; TokValue; TokMapStart; TokMapEnd; TokArrayEnd; TokDocEnd] [3; 13; 5; 1; 2; 4]%nat p.
Proof. assert (H := client_session 7 (jp_init StrIn (bs "[1,{}]"))). vm_compute in H. eexists. exact H. Qed.

(** ** C08.  In every session: as long as no error was reported, the tokens delivered are a prefix of a properly nested
    document, and the next request is defined and delivers a token (in particular the stack of open containers is
    never popped when it is empty, which the model reports as UB). *)
Theorem C08_tokens_well_nested : forall k text ts ls p, session (jp_init k text) ts ls p ->
  (~ In TokError ts -> well_nested ts) /\ exists t p', jp_next p = Ok (t, p').
Proof.
  intros k text ts ls p S. assert (P := session_phase (jp_init k text) _ _ _ eq_refl S). split; [|exact (phase_next_total _ _ _ P)].
  intro H. unfold well_nested.
  inversion P as [Q1 Q2 Q3|ts' ls' c fs N1 N2 N3 Hr Hn Hf|ts' ls' c n N1 G2 Hn|ts' ls' c n N1 N2 D Hn]; subst.
  - discriminate.
  - congruence.
  - destruct n as [|n]; [exact Hn|]. exfalso. apply H. apply in_app_iff. right. right. now left.
  - exfalso. apply H. apply in_app_iff. right. now left.
Qed.
Print Assumptions C08_tokens_well_nested.
(** The predicate is not trivial: a mismatched end, a key in an array, two keys in a row are not well nested. *)
Example C08_example :
  well_nested [TokDocStart; TokArrayStart; TokMapStart; TokKey; TokValue; TokMapEnd; TokArrayEnd; TokDocEnd] /\
  ~ well_nested [TokDocStart; TokArrayStart; TokMapEnd] /\
  ~ well_nested [TokDocStart; TokArrayStart; TokKey] /\
  ~ well_nested [TokDocStart; TokMapStart; TokKey; TokKey] /\
  ~ well_nested [TokDocStart; TokMapStart; TokValue] /\
  ~ well_nested [TokDocStart; TokArrayEnd] /\ ~ well_nested [TokDocStart; TokValue; TokValue].
Proof. unfold well_nested. cbn. repeat split; congruence. Qed.

(** ** C09.  Once the Error token was delivered every further request delivers Error and leaves the parser, its source
    included, as it is; also when the Error token was pushed back. *)
Theorem C09_error_is_final : forall k text ts ls p, session (jp_init k text) ts ls p -> In TokError ts ->
  jp_next p = Ok (TokError, p) /\
  (forall fuel conv, getToken (json_ops fuel conv) (pushBackToken TokError (pst_init p)) = Ok (TokError, pst_init p)).
Proof.
  intros k text ts ls p S H. assert (P := session_phase (jp_init k text) _ _ _ eq_refl S).
  assert (E : c_state (jp_ctl p) = JError -> c_started (jp_ctl p) = true -> jp_next p = Ok (TokError, p)).
  { intros Hs Ht. unfold jp_next. cbn [jp_next_loop]. unfold ctl_early. rewrite Hs, Ht. cbn. now destruct p. }
  assert (N : jp_next p = Ok (TokError, p)).
  { inversion P as [Q1 Q2 Q3|ts' ls' c fs N1 N2 N3 Hr Hn Hf|ts' ls' c n N1 G2 Hn|ts' ls' c n N1 N2 D Hn]; subst; auto.
    - destruct H.
    - contradiction. }
  split; [exact N|]. intros fuel conv. unfold getToken, lift. cbn [pushBackToken pst_init ps_impl ps_pb1 ps_pb2 token_eqb negb op_next json_ops].
  rewrite N. reflexivity.
Qed.
Print Assumptions C09_error_is_final.
Example C09_example : exists p, session (jp_init Strm (bs "[}")) [TokDocStart; TokArrayStart; TokError] [3; 2]%nat p.
Proof. assert (H := client_session 3 (jp_init Strm (bs "[}"))). vm_compute in H. eexists. exact H. Qed.
