(** C76, C77: which texts the JSON import accepts, for every type.

    [lexes L ls txt]: the text [txt] is a sequence of lexemes with the numbers [ls], each with white space in front of it and each
    recognised by [L]; [lexeme cfg k] are the lexemes that the reader takes from a source of kind [k] under the configuration [cfg];
    [g_value ls]: the lexemes are in the order that RFC 8259 demands of a single value (Spec/Lexemes.v). *)
From Coq Require Import ZArith String List Bool Lia ZifyBool.
From Verif Require Import Model.Base Model.Source Model.Number Model.ParserInterface Model.Types Model.Deserializer Model.Importer
  Spec.JsonString Spec.Json Spec.Lexemes Spec.Typed Spec.Import Spec.Accepted
  Proofs.UnicodeP Proofs.AcceptDocP Proofs.TruncateP Proofs.JsonCheck Properties.Imports.
Import ListNotations.
Open Scope Z_scope.

(** ** C76 *)
(** When extract returns, the text begins with the lexemes of one complete value; behind them there is only white space, or they are
    all that was read.  The only texts of which this is not claimed are those whose root is a scalar (for these see C05, C14, C15, C17, C71). *)
Theorem C76_accepted_is_json : forall fuel cfg k t v text v' s', bytes_ok text ->
  json_extract fuel cfg t v (src_init k text) = Returned v' s' ->
  (exists ls txt rest, g_value ls /\ lexes (lexeme cfg k) ls txt /\ text = txt ++ rest /\ (if pc_noTrailing cfg then blank rest else s_rest s' = rest)) \/
  scalar_root text.
Proof. exact accepted_text. Qed.
Print Assumptions C76_accepted_is_json.

(** A class: the root cannot be a scalar. *)
Example C76_example : forall k, exists ls txt rest, g_value ls /\ lexes (lexeme pc_default k) ls txt /\ bs "{ ""x"": 5, ""z"": nope, ""y"": ""a""} ]" = txt ++ rest /\ rest = bs " ]".
Proof.
  intro k. set (text := bs "{ ""x"": 5, ""z"": nope, ""y"": ""a""} ]").
  assert (R : exists s', json_extract 100 pc_default ty_point (point 0 []) (src_init k text) = Returned (point 5 (bs "a")) s' /\ s_rest s' = bs " ]") by (destruct k; eexists; (split; [vm_compute; reflexivity|vm_compute; reflexivity])).
  destruct R as (s' & R & Rest). assert (B : bytes_ok text) by (vm_compute; repeat constructor; discriminate).
  destruct (C76_accepted_is_json _ _ _ _ _ _ _ _ B R) as [(ls & txt & rest & G & X & E & H)|(w & c & r & E & W & Nb & Np)].
  - exists ls, txt, rest. split; [exact G|]. split; [exact X|]. split; [exact E|]. cbn in H. congruence.
  - exfalso. destruct w as [|x w]; cbn [app] in E; injection E as E1 E2; [apply Np; rewrite <- E1; left; reflexivity|]. inversion W as [|? ? Hx _]; subst. lia.
Qed.
(** What is accepted need not be JSON: only the first letter of a skipped literal is looked at. *)
Theorem C76_only_json_refuted : exists cfg t v text v', (forall k, exists s', json_extract 100 cfg t v (src_init k text) = Returned v' s' /\ src_ok s' = true) /\ (forall j, ~ document j text).
Proof.
  exists pc_default, ty_point, (point 0 []), (bs "{""z"":nope}"), (point 0 []). split; [intro k; destruct k; eexists; (split; vm_compute; reflexivity)|].
  intros j D. apply document_rfc in D as (ds & R). apply rfc_after in R as (ds1 & R); [|reflexivity].
  apply (rfc_string _ _ [122]) in R as (ds2 & R); [|constructor; [discriminate|discriminate|constructor]]. apply rfc_after in R as (ds3 & R); [|reflexivity].
  apply rfc_null in R as (rest & E). discriminate E.
Qed.
Print Assumptions C76_only_json_refuted.

(** ** C77 *)
(** A document whose root is an object or an array is never accepted when it is cut off, whatever type is read: what is missing in
    the end is more than white space.  Where values are skipped, no string may end in a backslash (C13 tells what happens to these). *)
Theorem C77_truncated_partial : forall fuel cfg k t v j text pre suf v' s', document j text -> container j ->
  (pc_strict cfg = Weak -> strings (fun raw => forall r, raw <> r ++ [92]) j) ->
  text = pre ++ suf -> ~ blank suf -> json_extract fuel cfg t v (src_init k pre) <> Returned v' s'.
Proof. exact truncated. Qed.
Print Assumptions C77_truncated_partial.
Example C77_example : exists j text, document j text /\ container j /\ strings (fun raw => forall r, raw <> r ++ [92]) j /\ text = bs "{ ""x"": 5, ""y"": ""a""}" /\
  forall k t v v' s', json_extract 100 pc_default t v (src_init k (bs "{ ""x"": 5, ""y"": ""a""")) <> Returned v' s' /\ json_extract 100 pc_default t v (src_init k (bs "{ ""x"": 5, ""y"": ")) <> Returned v' s'.
Proof.
  assert (D : exists j, document j (bs "{ ""x"": 5, ""y"": ""a""}") /\ j = Obj [(bs "x", Scal (SNum (bs "5"))); (bs "y", Scal (SStr (bs "a")))]) by (eexists; split; [doc|reflexivity]).
  destruct D as (j & D & Ej). exists j, (bs "{ ""x"": 5, ""y"": ""a""}"). split; [exact D|]. split; [now subst|].
  assert (S : strings (fun raw => forall r, raw <> r ++ [92]) j).
  { assert (N : forall c, c <> 92 -> forall r, [c] <> r ++ [92]) by (intros c Nc r E; destruct r as [|x [|y r]]; cbn [app] in E; [injection E as E; contradiction|discriminate E|discriminate E]).
    subst j. constructor. intros k j [E|[E|[]]]; injection E as <- <-; (split; [apply N; discriminate|constructor; try exact Logic.I; apply N; discriminate]). }
  split; [exact S|]. split; [reflexivity|]. intros k t v v' s'. split.
  - apply (C77_truncated_partial 100 pc_default k t v j _ (bs "{ ""x"": 5, ""y"": ""a""") (bs "}") v' s' D); [now subst|intros _; exact S|reflexivity|]. intro B. inversion B as [|? ? Hc _]; subst. lia.
  - apply (C77_truncated_partial 100 pc_default k t v j _ (bs "{ ""x"": 5, ""y"": ") (bs """a""}") v' s' D); [now subst|intros _; exact S|reflexivity|]. intro B. inversion B as [|? ? Hc _]; subst. lia.
Qed.
(** The condition on the strings is needed: a string that ends in a backslash hides its quote from the skipping reader. *)
Theorem C77_backslash_refuted : exists cfg t v j text pre suf v', document j text /\ container j /\ text = pre ++ suf /\ ~ blank suf /\
  forall k, exists s', json_extract 100 cfg t v (src_init k pre) = Returned v' s' /\ src_ok s' = true.
Proof.
  assert (D : exists j, document j (bs "{""k"":""a\\"",""}"":1}") /\ container j) by (eexists; split; [doc|exact Logic.I]). destruct D as (j & D & Cj).
  exists pc_default, ty_point, (point 0 []), j, (bs "{""k"":""a\\"",""}"":1}"), (bs "{""k"":""a\\"",""}"), (bs """:1}"), (point 0 []). split; [exact D|]. split; [exact Cj|]. split; [reflexivity|].
  split; [intro B; inversion B as [|? ? Hc _]; subst; lia|]. intro k. destruct k; eexists; (split; vm_compute; reflexivity).
Qed.
Print Assumptions C77_backslash_refuted.
