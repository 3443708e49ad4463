(** C38, C39: what an import reports and where it leaves its source. *)
From Coq Require Import ZArith String List Bool Lia ZifyBool.
From Verif Require Import Model.Base Model.Source Model.Unicode Model.Number Model.JsonLexer Model.ParserInterface
  Model.JsonParser Model.Types Model.Deserializer Model.Importer
  Spec.JsonString Spec.Json Spec.Lexemes Spec.Typed Spec.Import Proofs.Tac Proofs.UnicodeP Proofs.LexP Proofs.NumberP Proofs.Sim Proofs.TreeM Proofs.JsonSim
  Proofs.ImportP Proofs.CtlP Proofs.ReportP Proofs.InterpP Proofs.PartP Proofs.JsonPartP Proofs.SourcesP Proofs.RootP Proofs.JsonCheck Properties.Imports.
Import ListNotations.
Open Scope Z_scope.

(** ** C38.  Full claim: an exception leaves the source failed, reaches the caller as configured, and success means a complete
    document.  Proved for every exception but DepricatedIssue. *)
(** [extract_handlers catch catchUnknown r]: how extract ends when its try block ended with [r]. *)
Theorem C38_exception_partial : forall ce cu e s r, e <> ExnDepricated -> extract_handlers ce cu (TryThrew e s) = r ->
  match r with
  | EndReturned result s' => result = false /\ src_ok s' = false /\ (if match e with ExnStd => true | _ => false end then ce else cu) = true
  | EndRaised e' s' => e' = e /\ src_ok s' = false /\ (if match e with ExnStd => true | _ => false end then ce else cu) = false
  end.
Proof.
  intros ce cu e s r He <-. assert (F : src_ok (src_setFail s) = false) by (destruct s as [[] d p [] []]; reflexivity).
  destruct e; [congruence| |]; cbn [extract_handlers]; [destruct ce|destruct cu]; auto.
Qed.
Print Assumptions C38_exception_partial.
Theorem C38_exception_refuted : exists s, src_ok s = true /\
  extract_handlers true true (TryThrew ExnDepricated s) = EndRaised ExnDepricated s.
Proof. exists (src_init Strm []). split; reflexivity. Qed.
Print Assumptions C38_exception_refuted.
(** Whatever is imported: an exception reaches the caller exactly if catchExceptions is off, and the option changes nothing
    else. *)
Definition set_catch (b : bool) (cfg : pconfig) : pconfig := mkPc (pc_strict cfg) (pc_marker cfg) b (pc_noTrailing cfg) (pc_conv cfg).
Theorem C38_configured : forall fuel cfg t v s,
  let on := json_extract fuel (set_catch true cfg) t v s in
  let off := json_extract fuel (set_catch false cfg) t v s in
  (on = Failed false /\ off = Failed true) \/ (on = off /\ forall b, on <> Failed b).
Proof.
  intros fuel cfg t v s. unfold json_extract. change (json_try fuel (set_catch true cfg) t v s) with (json_try fuel cfg t v s).
  change (json_try fuel (set_catch false cfg) t v s) with (json_try fuel cfg t v s).
  destruct (json_try fuel cfg t v s) as [[v' s']| | |]; [right|left|right|right]; repeat split; discriminate.
Qed.
Print Assumptions C38_configured.
Example C38_configured_example : json_extract 40 (set_catch true pc_default) ty_point (point 0 []) (src_init Strm (bs "{""x"":}")) = Failed false /\
  json_extract 40 (set_catch false pc_default) ty_point (point 0 []) (src_init Strm (bs "{""x"":}")) = Failed true.
Proof. split; vm_compute; reflexivity. Qed.
(** Whatever the text, the state of the source, the type and the configuration: an import that ends without an exception has
    taken the lexemes of exactly one complete JSON value from its source ([g_value], the grammar of RFC 8259), each
    scalar read or skipped by the lexer, and reached the end of the document. *)
Theorem C38_success_complete : forall fuel cfg t v s v' s', json_extract fuel cfg t v s = Returned v' s' ->
  exists ts ls p, reader_session fuel (pc_conv cfg) (mkJp (lex_init s) ctl_init) ts ls p /\ In TokDocEnd ts /\
    g_value ls /\ l_src (jp_lex p) = s'.
Proof.
  intros fuel cfg t v s v' s' E. unfold json_extract in E.
  destruct (json_try fuel cfg t v s) as [[v1 s1]| | |] eqn:T; try discriminate E. injection E as <- <-.
  exact (success_session _ _ _ _ _ _ _ T).
Qed.
Print Assumptions C38_success_complete.
Example C38_example : exists s s', json_extract 40 pc_default ty_point (point 0 []) s = Returned (point 7 []) s' /\ s_kind s = Strm.
Proof. eexists (src_init Strm (bs "{""x"":7} rest")), _. split; [vm_compute; reflexivity|reflexivity]. Qed.
(** The document cannot be cut short: a text of brackets and commas that is not a complete value is rejected. *)
Example C38_incomplete : forall k, rejects pc_default k (TVec (TInt IInt)) (VList []) (bs "[1,2") /\
  rejects pc_default k (TVec (TInt IInt)) (VList []) (bs "[1 2]") /\ rejects pc_default k ty_point (point 0 []) (bs "{""x"" 7}").
Proof. intros []; repeat split; (fuels 40%nat; vm_compute; exact I). Qed.

(** ** C39.  The source holds white space, the text [t] of the document [j], and [tl] ([ends_before]: behind a number comes a
    delimiter; [blank]: white space for C++). *)
(** With validateNoTrailingData: accepted exactly when white space follows and the document itself can be read. *)
Theorem C39_no_trailing_data : forall cfg k ty v j w t tl, pc_noTrailing cfg = true -> wf ty = true -> shaped ty v = true ->
  exact_skips cfg k ty j -> spells j t -> ws w -> ends_before j tl ->
  (forall v', (exists rest, imports cfg k ty v (w ++ t ++ tl) v' rest) <-> blank tl /\ accepts cfg k ty v t v') /\
  (forall v', accepts cfg k ty v t v' -> ~ blank tl -> rejects cfg k ty v (w ++ t ++ tl)).
Proof.
  intros cfg k ty v j w t tl N W S X Sp Hw He.
  assert (D : document j t). { replace t with ([] ++ t ++ []) by now rewrite app_nil_r. constructor; [constructor|exact Sp|constructor]. }
  assert (H := meaning_not_hang cfg k ty v j W S X). destruct (accepts_iff cfg k ty v j t D H) as (A & _ & _).
  assert (P := fun fuel L => json_try_spec k fuel cfg j w t tl ty v _ Sp Hw He (at_init k _) L). rewrite N in P.
  split.
  - intro v'. split.
    + intros (rest & M & I). specialize (I (M + Datatypes.S (List.length (w ++ t ++ tl)))%nat ltac:(lia)) as (s & E & _). unfold json_extract in E.
      specialize (P (M + Datatypes.S (List.length (w ++ t ++ tl)))%nat ltac:(lia)).
      destruct (meaning cfg k ty v j) as [v0| | |] eqn:Em; [|rewrite P in E; discriminate E|rewrite P in E; discriminate E|congruence].
      destruct P as [P1 P2]. destruct (blank_or_not tl) as [B|(w0 & c & r & Et & B & Nb)].
      * split; [exact B|]. destruct (P1 B) as (s' & Q & _). rewrite Q in E. injection E as <- _. now apply A.
      * rewrite (P2 w0 c r Et B Nb) in E. discriminate E.
    + intros [B Ac]. apply A in Ac. rewrite Ac in P. exists []. exists (Datatypes.S (List.length (w ++ t ++ tl))). intros fuel Hf.
      destruct (proj1 (P fuel ltac:(lia)) B) as (s' & Q & O & R). unfold json_extract. rewrite Q. eauto.
  - intros v' Ac Nb. apply A in Ac. rewrite Ac in P. destruct (blank_or_not tl) as [B|(w0 & c & r & Et & B & Nc)]; [contradiction|].
    exists (Datatypes.S (List.length (w ++ t ++ tl))). intros fuel Hf. unfold json_extract. rewrite (proj2 (P fuel ltac:(lia)) w0 c r Et B Nc). exact I.
Qed.
Print Assumptions C39_no_trailing_data.
(** Without it: whatever follows, the document is read as on its own, the source is left just behind it ([rest = tl]), and a
    second import from the same stream does what it would do on a stream that holds only [tl]. *)
Theorem C39_next_document : forall cfg k ty v j w t tl v', pc_noTrailing cfg = false -> wf ty = true -> shaped ty v = true ->
  exact_skips cfg k ty j -> spells j t -> ws w -> ends_before j tl ->
  (accepts cfg k ty v t v' <-> imports cfg k ty v (w ++ t ++ tl) v' tl).
Proof.
  intros cfg k ty v j w t tl v' N W S X Sp Hw He.
  assert (D : document j t). { replace t with ([] ++ t ++ []) by now rewrite app_nil_r. constructor; [constructor|exact Sp|constructor]. }
  assert (H := meaning_not_hang cfg k ty v j W S X). destruct (accepts_iff cfg k ty v j t D H) as (A & _ & _).
  assert (P := fun fuel L => json_try_spec k fuel cfg j w t tl ty v _ Sp Hw He (at_init k _) L). rewrite N in P. rewrite A. split.
  - intro Em. rewrite Em in P. exists (Datatypes.S (List.length (w ++ t ++ tl))). intros fuel Hf. destruct (P fuel ltac:(lia)) as (s' & Q & At).
    unfold json_extract. rewrite Q. exists s'. split; [reflexivity|]. exact (at_ok_rest _ _ _ At).
  - intros (M & I). specialize (I (M + Datatypes.S (List.length (w ++ t ++ tl)))%nat ltac:(lia)) as (s & E & _). unfold json_extract in E.
    specialize (P (M + Datatypes.S (List.length (w ++ t ++ tl)))%nat ltac:(lia)).
    destruct (meaning cfg k ty v j) as [v0| | |] eqn:Em; [|rewrite P in E; discriminate E|rewrite P in E; discriminate E|congruence].
    destruct P as (s' & Q & _). rewrite Q in E. injection E as <- _. reflexivity.
Qed.
Print Assumptions C39_next_document.
(** Two imports in a row from one stream. *)
Theorem C39_two_documents : forall cfg1 cfg2 ty1 ty2 v1 v2 j1 j2 w1 t1 w2 t2 tl v1' v2',
  pc_noTrailing cfg1 = false -> pc_noTrailing cfg2 = false ->
  wf ty1 = true -> shaped ty1 v1 = true -> exact_skips cfg1 Strm ty1 j1 -> wf ty2 = true -> shaped ty2 v2 = true -> exact_skips cfg2 Strm ty2 j2 ->
  spells j1 t1 -> spells j2 t2 -> ws w1 -> ws w2 -> ends_before j1 (w2 ++ t2 ++ tl) -> ends_before j2 tl ->
  accepts cfg1 Strm ty1 v1 t1 v1' -> accepts cfg2 Strm ty2 v2 t2 v2' ->
  exists N, forall fuel, (N <= fuel)%nat -> exists s1 s2,
    json_extract fuel cfg1 ty1 v1 (src_init Strm (w1 ++ t1 ++ w2 ++ t2 ++ tl)) = Returned v1' s1 /\
    json_extract fuel cfg2 ty2 v2 s1 = Returned v2' s2 /\ src_ok s2 = true /\ s_rest s2 = tl.
Proof.
  intros cfg1 cfg2 ty1 ty2 v1 v2 j1 j2 w1 t1 w2 t2 tl v1' v2' N1 N2 W1 S1 X1 W2 S2 X2 Sp1 Sp2 Hw1 Hw2 He1 He2 A1 A2.
  assert (D : forall j t, spells j t -> document j t).
  { intros j t Sp. replace t with ([] ++ t ++ []) by now rewrite app_nil_r. constructor; [constructor|exact Sp|constructor]. }
  apply (accepts_iff cfg1 Strm ty1 v1 j1 t1 (D _ _ Sp1) (meaning_not_hang cfg1 Strm ty1 v1 j1 W1 S1 X1)) in A1.
  apply (accepts_iff cfg2 Strm ty2 v2 j2 t2 (D _ _ Sp2) (meaning_not_hang cfg2 Strm ty2 v2 j2 W2 S2 X2)) in A2.
  exists (Datatypes.S (List.length (w1 ++ t1 ++ w2 ++ t2 ++ tl))). intros fuel Hf.
  assert (P1 := json_try_spec Strm fuel cfg1 j1 w1 t1 (w2 ++ t2 ++ tl) ty1 v1 _ Sp1 Hw1 He1 (at_init Strm _) ltac:(lia)).
  rewrite A1, N1 in P1. destruct P1 as (s1 & Q1 & At1).
  assert (P2 := json_try_spec Strm fuel cfg2 j2 w2 t2 tl ty2 v2 s1 Sp2 Hw2 He2 At1). rewrite A2, N2 in P2.
  destruct P2 as (s2 & Q2 & At2); [rewrite !app_length in Hf; rewrite !app_length; lia|].
  exists s1, s2. unfold json_extract. rewrite Q1, Q2. destruct (at_ok_rest _ _ _ At2). auto.
Qed.
Print Assumptions C39_two_documents.
Example C39_example :
  imports pc_default Strm (TVec (TInt IInt)) (VList []) (bs " [1]{}") (VList [VInt 1]) (bs "{}") /\
  rejects (mkPc Weak (bs "__type") true true true) StrIn (TVec (TInt IInt)) (VList []) (bs " [1]{}") /\
  imports (mkPc Weak (bs "__type") true true true) StrIn (TVec (TInt IInt)) (VList []) (bs " [1]  ") (VList [VInt 1]) [].
Proof. repeat split; fuels 30%nat; vm_compute; try exact I; eexists; repeat split. Qed.
