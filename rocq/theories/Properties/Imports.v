(** C11, C12, C13, C19, C28: what the result of an import does not depend on.

    [document j text] is the RFC grammar; [accepts cfg k t v text v']: importing [text] from a source of kind [k] into a
    variable of type [t] that holds [v] succeeds, leaves [v'] in it and nothing but white space in the source;
    [same_result]: the same for acceptance with a value, rejection and undefined behaviour.  [wf t] and [shaped t v] say
    that the type and the value can be written in C++. *)
From Coq Require Import ZArith String List Bool Lia ZifyBool Permutation.
From Verif Require Import Model.Base Model.Source Model.Unicode Model.Number Model.JsonLexer Model.ParserInterface
  Model.JsonParser Model.Types Model.Deserializer Model.Importer
  Spec.JsonString Spec.Json Spec.Typed Spec.Import Proofs.Tac Proofs.UnicodeP Proofs.NumberP Proofs.Sim Proofs.TreeM Proofs.JsonSim Proofs.ImportP
  Proofs.TypedP Proofs.InterpP Proofs.PartP Proofs.DefinedP Proofs.MembersP Proofs.ModesP Proofs.JsonPartP Proofs.SourcesP Proofs.JsonCheck.
Import ListNotations.
Open Scope Z_scope.

(** Types for the examples: struct Point { int x; string y; } and struct Odd { int ":1,"; }. *)
Definition ty_point : ty := TStruct (mkSinfo [bs "x"; bs "y"] [] [] false false false) [TInt IInt; TStr] [].
Definition point (x : Z) (y : bytes) : val := VStruct [VInt x; VStr y] [].
Definition ty_odd : ty := TStruct (mkSinfo [bs ":1,"] [] [] false false false) [TInt IInt] [].
Definition pc_mode (m : strictness) : pconfig := mkPc m (bs "__type") true false true.

(** ** C11.  Texts of the same tree, that is texts that differ only in white space between lexemes, are imported with the
    same result.  Full claim: without [exact_skips].  Proved: for Strict and Exact without a condition; for Weak, if the
    values of unknown members contain only strings that are skipped exactly.  Otherwise the claim is false (below). *)
Theorem C11_whitespace_partial : forall cfg k t v j text1 text2, wf t = true -> shaped t v = true ->
  document j text1 -> document j text2 -> exact_skips cfg k t j -> same_result cfg k t v text1 text2.
Proof.
  intros cfg k t v j text1 text2 W S D1 D2 X. eapply same_meaning; [exact D1|exact D2|reflexivity|]. now apply meaning_not_hang.
Qed.
Print Assumptions C11_whitespace_partial.
Theorem C11_whitespace_strict : forall cfg k t v j text1 text2, wf t = true -> shaped t v = true ->
  document j text1 -> document j text2 -> pc_strict cfg <> Weak -> same_result cfg k t v text1 text2.
Proof. intros. eapply C11_whitespace_partial; eauto. intro. contradiction. Qed.
Print Assumptions C11_whitespace_strict.
Example C11_example : same_result pc_default StrIn ty_point (point 0 []) (bs "{""x"":1,""z"":[true,{}],""y"":""a""}")
    (bs " { ""x"" : 1 , ""z"":[ true ,{ } ], ""y"": ""a"" } ") /\
  accepts pc_default StrIn ty_point (point 0 []) (bs "{""x"":1,""z"":[true,{}],""y"":""a""}") (point 1 (bs "a")).
Proof.
  assert (D1 : document (Obj [(bs "x", Scal (SNum (bs "1"))); (bs "z", Arr [Scal STrue; Obj []]); (bs "y", Scal (SStr (bs "a")))])
    (bs "{""x"":1,""z"":[true,{}],""y"":""a""}")) by doc.
  split.
  - eapply C11_whitespace_partial; [reflexivity|reflexivity|exact D1|doc|safe].
  - apply (doc_imports _ _ _ _ _ _ D1). vm_compute. reflexivity.
Qed.
(** The same tree, one space more, another result.  (The string "\\" of the unknown member x is skipped past its end.) *)
Theorem C11_whitespace_refuted : exists j text1 text2, document j text1 /\ document j text2 /\
  imports pc_default StrIn ty_odd (VStruct [VInt 0] []) text1 (VStruct [VInt 7] []) (bs """}") /\
  imports pc_default StrIn ty_odd (VStruct [VInt 0] []) text2 (VStruct [VInt 0] []) (bs """}").
Proof.
  exists (Obj [(bs "x", Scal (SStr (bs "\\"))); (bs ",", Scal (SNum (bs "1"))); (bs ":7,", Scal (SStr (bs ":2}")))]),
    (bs "{""x"":""\\"","","":1,"":7,"":"":2}""}"), (bs "{""x"":""\\"","","": 1,"":7,"":"":2}""}").
  split; [doc|]. split; [doc|]. split; fuels 40%nat; vm_compute; eexists; repeat split.
Qed.
Print Assumptions C11_whitespace_refuted.

(** ** C12.  Full claim: every import of a finite text ends.  Proved here: every import of a grammatical text ends (Weak:
    if unknown members are skipped exactly).  Missing: texts that are not grammatical, where the claim is false (below). *)
Theorem C12_documents_end_partial : forall cfg k t v j text, wf t = true -> shaped t v = true ->
  document j text -> exact_skips cfg k t j -> ends cfg k t v text.
Proof. intros cfg k t v j text W S D X. eapply doc_ends; [exact D|]. now apply meaning_not_hang. Qed.
Print Assumptions C12_documents_end_partial.
Example C12_example : ends pc_default Strm ty_point (point 0 []) (bs "{""x"":1,""z"":[true,{}],""x"":""a""}").
Proof. eapply C12_documents_end_partial; [reflexivity|reflexivity|doc|safe]. Qed.

(** ** C13.  Weak: at every place of the document where a class is read, a member that the class does not have can be left
    out: the result is the same.  Full claim: for every value of the unknown member.  Proved: for those whose strings and
    keys do not end in a backslash and, on a string source, do not contain the byte 255.  Otherwise false (below). *)
Theorem C13_unknown_members_skipped_partial : forall cfg k t v j1 j2 text1 text2, wf t = true -> shaped t v = true ->
  pc_strict cfg = Weak -> document j1 text1 -> document j2 text2 -> exact_skips cfg k t j1 ->
  jinside cfg (leaves_out cfg k) t j1 j2 -> same_result cfg k t v text1 text2.
Proof.
  intros cfg k t v j1 j2 text1 text2 W S Hm D1 D2 X H. eapply same_meaning; [exact D1|exact D2| |now apply meaning_not_hang].
  apply (inside_ext cfg k) in H. unfold meaning.
  refine (inside_alike (json_sc k (pc_conv cfg)) (pc_strict cfg) (pc_marker cfg) (names (pc_conv cfg)) (str_is (pc_conv cfg))
    (names_key k _) (str_is_str k _) (fun _ => eq) _ _ _ _ t j1 j2 H W _ v S).
  - reflexivity.
  - intros; now subst.
  - intros Y Z o f g Hfg. destruct o; cbn; auto.
  - intros t' i1 i2 W' R w Sw. destruct R as [t' a key n jk b C Hk Hn Hs]. rewrite !parse_class by exact C. cbn [in_map].
    rewrite (members_drop _ _ _ t' W' C key n jk); auto.
    + now apply names_key.
    + now apply member_none.
    + now apply safe_skippable.
Qed.
Print Assumptions C13_unknown_members_skipped_partial.
(** In an array of points. *)
Example C13_example : same_result pc_default StrIn (TVec ty_point) (VList []) (bs "[{""x"":1,""z"":[true,{""a"":""}""}],""y"":""b""}]")
    (bs "[{""x"":1,""y"":""b""}]").
Proof.
  eapply (C13_unknown_members_skipped_partial pc_default StrIn (TVec ty_point) (VList [])
    (Arr ([] ++ Obj ([(bs "x", Scal (SNum (bs "1")))] ++ (bs "z", Arr [Scal STrue; Obj [(bs "a", Scal (SStr (bs "}")))]]) :: [(bs "y", Scal (SStr (bs "b")))]) :: []))
    (Arr ([] ++ Obj ([(bs "x", Scal (SNum (bs "1")))] ++ [(bs "y", Scal (SStr (bs "b")))]) :: [])));
    [reflexivity|reflexivity|reflexivity|doc|doc|safe|].
  apply is_vec. apply is_here. apply (lo_intro _ _ _ _ _ (bs "z")); [reflexivity|name|reflexivity|].
  refine (all_strings_ok safe_string _ (fun raw E => proj2 (safe_string_ok StrIn raw E)) _ _). vm_compute. reflexivity.
Qed.
(** Without the unknown member x the document is accepted, with it rejected. *)
Theorem C13_unknown_members_skipped_refuted : exists j1 j2 text1 text2,
  document j1 text1 /\ document j2 text2 /\ j1 = Obj ([(bs "x", Scal (SStr (bs "\\")))] ++ match j2 with Obj l => l | _ => [] end) /\
  (forall k, rejects pc_default k ty_odd (VStruct [VInt 0] []) text1) /\
  (forall k, accepts pc_default k ty_odd (VStruct [VInt 0] []) text2 (VStruct [VInt 5] [])).
Proof.
  exists (Obj [(bs "x", Scal (SStr (bs "\\"))); (bs ":1,", Scal (SNum (bs "5")))]), (Obj [(bs ":1,", Scal (SNum (bs "5")))]),
    (bs "{""x"":""\\"","":1,"":5}"), (bs "{"":1,"":5}").
  assert (D : document (Obj [(bs ":1,", Scal (SNum (bs "5")))]) (bs "{"":1,"":5}")) by doc.
  split; [doc|]. split; [exact D|]. split; [reflexivity|]. split.
  - intros []; fuels 40%nat; vm_compute; exact I.
  - intro k. apply (doc_imports _ _ _ _ _ _ D). destruct k; vm_compute; reflexivity.
Qed.
Print Assumptions C13_unknown_members_skipped_refuted.

(** C12 is false of texts that are not grammatical: an array of pointers in which two nulls are not separated keeps
    growing, and so does a string from a stream that ends in a backslash after an escaped quote.  (In the real program the
    loops end when the memory is exhausted, which is not modelled.) *)
Definition stuck (p : pst jparser) : Prop :=
  c_state (jp_ctl (ps_impl p)) = JError /\ c_started (jp_ctl (ps_impl p)) = true /\ l_null (jp_lex (ps_impl p)) = true /\
  l_tok (jp_lex (ps_impl p)) = LNull /\ ps_pb1 p = TokError /\ ps_pb2 p = TokError.
Lemma stuck_loops : forall F conv m mk d n i l p, stuck p ->
  arr_loop (json_ops F conv) n (elem_vec CBack (deser (json_ops F conv) F m mk (TPtr (TInt IInt))) d) i (VList l) p = Hang.
Proof.
  intros F conv m mk d. induction n as [|n IH]; intros i l [[lx c] b1 b2] (H1 & H2 & H3 & H4 & H5 & H6); cbn [ps_impl ps_pb1 ps_pb2 jp_lex jp_ctl] in *; subst; [reflexivity|].
  assert (E : forall b1 b2, op_next (json_ops F conv) (mkJp lx c) = Ok (TokError, mkJp lx c) /\
    getToken (json_ops F conv) (mkPst (mkJp lx c) b1 b2) = (if negb (token_eqb b2 TokError) then Ok (b2, mkPst (mkJp lx c) b1 TokError)
     else if negb (token_eqb b1 TokError) then Ok (b1, mkPst (mkJp lx c) TokError b2) else Ok (TokError, mkPst (mkJp lx c) b1 b2))).
  { intros b1 b2. assert (N : jp_next (mkJp lx c) = Ok (TokError, mkJp lx c)).
    { unfold jp_next. cbn [jp_next_loop jp_ctl]. unfold ctl_early. rewrite H1, H2. reflexivity. }
    split; [exact N|]. unfold getToken, lift. cbn [ps_pb1 ps_pb2 ps_impl op_next json_ops]. rewrite N. reflexivity. }
  cbn [arr_loop]. rewrite (proj2 (E _ _)). cbn [token_eqb negb bind].
  change (pushBackToken TokError (mkPst (mkJp lx c) TokError TokError)) with (mkPst (mkJp lx c) TokError TokError).
  unfold elem_vec at 1. cbn [deser d_parse]. unfold read_pointer at 1. rewrite (proj2 (E _ _)). cbn [token_eqb negb bind ps_impl ps_pb1 ps_pb2].
  cbn [op_null json_ops jp_lex]. unfold isLastNull. rewrite H3. unfold lift_. cbn [ps_impl op_ignore json_ops jp_lift_ jp_lex].
  unfold jp_lift_. cbn [jp_lex]. unfold ignoreRawValue. rewrite H4. cbn [bind ps_impl ps_pb1 ps_pb2 jp_ctl]. apply IH. repeat split; auto.
Qed.
Lemma string_loops : forall n v g, string_loop n v [121; 92] (mkSrc Strm (bs """x\""y\") 6 g true) = Hang.
Proof. induction n as [|n IH]; intros v g; [reflexivity|]. destruct g; cbn; apply IH. Qed.
Lemma arr_step : forall (ops : parser_ops jparser) elem n i v p t p' v' p'', getToken ops p = Ok (t, p') -> t <> TokArrayEnd ->
  elem i v (pushBackToken t p') = Ok (v', p'') -> arr_loop ops (S n) elem i v p = arr_loop ops n elem (S i) v' p''.
Proof. intros ops elem n i v p t p' v' p'' H1 H2 H3. cbn [arr_loop]. rewrite H1. cbn [bind]. destruct t; try congruence; rewrite H3; reflexivity. Qed.
Definition nulls_at (k : skind) (pos : nat) (tk : ltok) (null : bool) (st : jstate) : pst jparser :=
  mkPst (mkJp (mkLex (mkSrc k (bs "[null null]") pos true false) [] tk false null) (mkCtl [JDone] JValueA st true)) TokError TokError.
Theorem C12_documents_end_refuted :
  (forall k, never_ends pc_default k (TVec (TPtr (TInt IInt))) (VList []) (bs "[null null]")) /\
  never_ends pc_default Strm TStr (VStr []) (bs """x\""y\").
Proof.
  split.
  - intros k fuel. unfold json_extract.
    assert (X : json_try fuel pc_default (TVec (TPtr (TInt IInt))) (VList []) (src_init k (bs "[null null]")) = Hang); [|now rewrite X].
    unfold json_try. cbn [pc_conv pc_strict pc_marker pc_default].
    change (getToken (json_ops fuel true) (pst_init (mkJp (lex_init (src_init k (bs "[null null]"))) ctl_init)))
      with (Ok (TokDocStart, pst_init (mkJp (lex_init (src_init k (bs "[null null]"))) (mkCtl [] JDone JInit true)))).
    cbn [bind]. assert (R : forall p, getToken (json_ops fuel true) p = Ok (TokArrayStart, nulls_at k 1 (LPunct 91) false JOpenA) ->
      d_parse (deser (json_ops fuel true) fuel Weak (bs "__type") (TVec (TPtr (TInt IInt)))) (VList []) p = Hang).
    { intros p Hp. unfold deser; fold (deser (json_ops fuel true) fuel Weak (bs "__type") (TPtr (TInt IInt))). cbn [d_parse]. unfold read_array. rewrite Hp. cbn [bind].
      assert (H : forall n, arr_loop (json_ops fuel true) n (elem_vec CBack (deser (json_ops fuel true) fuel Weak (bs "__type") (TPtr (TInt IInt))) (default (TPtr (TInt IInt)))) 0
        (VList []) (nulls_at k 1 (LPunct 91) false JOpenA) = Hang); [|apply H].
      intros [|[|n]]; [reflexivity| |].
      - rewrite (arr_step _ _ 0 0 _ _ TokValue (nulls_at k 1 LNull true JValueA) (VList [VPtr None]) (nulls_at k 5 LNull true JValueA));
          [reflexivity|now destruct k|discriminate|now destruct k].
      - rewrite (arr_step _ _ _ 0 _ _ TokValue (nulls_at k 1 LNull true JValueA) (VList [VPtr None]) (nulls_at k 5 LNull true JValueA));
          [|now destruct k|discriminate|now destruct k].
        rewrite (arr_step _ _ _ 1 _ _ TokError (nulls_at k 6 LNull true JError) (VList [VPtr None; VPtr None]) (nulls_at k 10 LNull true JError));
          [|now destruct k|discriminate|now destruct k].
        apply stuck_loops. repeat split. }
    rewrite R; [reflexivity|now destruct k].
  - intro fuel. unfold json_extract. destruct fuel as [|fuel]; [reflexivity|].
    assert (X : json_try (S fuel) pc_default TStr (VStr []) (src_init Strm (bs """x\""y\")) = Hang); [|now rewrite X].
    unfold json_try. cbn [pc_conv pc_strict pc_marker pc_default].
    match goal with |- bind ?x _ = _ => let y := eval vm_compute in x in change x with y end. cbn [bind].
    cbn [deser d_parse]. unfold read_value.
    match goal with |- bind (bind ?x _) _ = _ => let y := eval vm_compute in x in change x with y end. cbn [bind].
    unfold lift. cbn [ps_impl op_str json_ops]. unfold jp_lift. cbn [jp_lex]. unfold getStringInto.
    match goal with |- context [src_get ?x] => let y := eval vm_compute in (src_get x) in change (src_get x) with y end. cbn [l_src].
    change (34 =? 34) with true. cbn [negb].
    match goal with |- context [src_readTo ?x [] 34] => let y := eval vm_compute in (src_readTo x [] 34) in change (src_readTo x [] 34) with y end. cbn [bind].
    change (checkEscape [120; 92]) with true. cbv iota. cbn [string_loop].
    match goal with |- context [src_readTo ?x [] 34] => let y := eval vm_compute in (src_readTo x [] 34) in change (src_readTo x [] 34) with y end. cbn [bind].
    change (checkEscape [121; 92]) with true. cbv iota zeta.
    rewrite (string_loops fuel _ true). reflexivity.
Qed.
Print Assumptions C12_documents_end_refuted.

(** ** C19.  Full claim: the same text gives the same value from a string and from a stream.  Proved: what is accepted from
    a string is accepted with the same value from a stream, and if all integers of the document fit and no minus sign is
    read into an unsigned integer the two agree in every respect.  Otherwise false (below, and see C17). *)
Theorem C19_string_then_stream_partial : forall cfg t v j text v', wf t = true -> shaped t v = true ->
  document j text -> exact_skips cfg StrIn t j -> accepts cfg StrIn t v text v' -> accepts cfg Strm t v text v'.
Proof.
  intros cfg t v j text v' W S D X A. assert (H1 := meaning_not_hang cfg StrIn t v j W S X).
  assert (H2 := meaning_not_hang cfg Strm t v j W S (skips_strm _ _ _ X)).
  apply (proj1 (accepts_iff cfg Strm t v j text D H2)). apply (proj1 (accepts_iff cfg StrIn t v j text D H1)) in A.
  eapply string_then_stream; eassumption.
Qed.
Print Assumptions C19_string_then_stream_partial.
Theorem C19_sources_agree_partial : forall cfg t v j text, wf t = true -> shaped t v = true ->
  document j text -> exact_skips cfg StrIn t j -> readable (pc_conv cfg) j -> plain_ints cfg t j ->
  (forall v', accepts cfg StrIn t v text v' <-> accepts cfg Strm t v text v') /\
  (rejects cfg StrIn t v text <-> rejects cfg Strm t v text) /\
  (undefined cfg StrIn t v text <-> undefined cfg Strm t v text).
Proof.
  intros cfg t v j text W S D X R P. assert (H1 := meaning_not_hang cfg StrIn t v j W S X).
  assert (H2 := meaning_not_hang cfg Strm t v j W S (skips_strm _ _ _ X)).
  destruct (accepts_iff cfg Strm t v j text D H2) as (A1 & A2 & A3). destruct (accepts_iff cfg StrIn t v j text D H1) as (B1 & B2 & B3).
  rewrite (sources_equal cfg t v j text W S D R P H1) in *. repeat split; intros; try (now apply B1, A1); try (now apply A1, B1); tauto.
Qed.
Print Assumptions C19_sources_agree_partial.
Example C19_example : exists j, document j (bs "{""x"":-1,""y"":""b""}") /\ readable true j /\ plain_ints pc_default ty_point j /\
  accepts pc_default StrIn ty_point (point 0 []) (bs "{""x"":-1,""y"":""b""}") (point (-1) (bs "b")) /\
  accepts pc_default Strm ty_point (point 0 []) (bs "{""x"":-1,""y"":""b""}") (point (-1) (bs "b")).
Proof.
  exists (Obj [(bs "x", Scal (SNum (bs "-1"))); (bs "y", Scal (SStr (bs "b")))]).
  assert (D : document (Obj [(bs "x", Scal (SNum (bs "-1"))); (bs "y", Scal (SStr (bs "b")))]) (bs "{""x"":-1,""y"":""b""}")) by doc.
  assert (A : accepts pc_default StrIn ty_point (point 0 []) (bs "{""x"":-1,""y"":""b""}") (point (-1) (bs "b"))).
  { apply (doc_imports _ _ _ _ _ _ D). vm_compute. reflexivity. }
  split; [exact D|]. split; [|split; [|split; [exact A|]]].
  - refine (all_strings_ok safe_string _ (fun raw E => proj1 (safe_string_ok StrIn raw E)) _ _). vm_compute. reflexivity.
  - intros i txt z P L. assert (K := fun raw n => names_key StrIn true raw n).
    inversion P as [| | | | | | |i0 ms ps l k n j0 t t' j' Hin Hn Hm Hp| |]; subst. apply K in Hn. destruct Hin as [Q|[Q|[]]]; injection Q as <- <-.
    + vm_compute in Hn. injection Hn as <-. vm_compute in Hm. injection Hm as <-. inversion Hp; subst.
      assert (z = -1) by (eapply int_literal_unique; [exact L|]; apply (il_minus [49]); apply ip_nonzero; [lia|constructor]). subst.
      split; [unfold fits; cbn; lia|discriminate].
    + vm_compute in Hn. injection Hn as <-. vm_compute in Hm. injection Hm as <-. inversion Hp.
  - eapply C19_string_then_stream_partial; [reflexivity|reflexivity|exact D|safe|exact A].
Qed.
(** -0 is valid JSON; read into an unsigned integer it is accepted from a stream and rejected from a string. *)
Theorem C19_sources_agree_refuted : exists j text, document j text /\
  accepts pc_default Strm (TInt IUInt) (VInt 9) text (VInt 0) /\ rejects pc_default StrIn (TInt IUInt) (VInt 9) text.
Proof.
  exists (Scal (SNum (bs "-0"))), (bs "-0"). assert (D : document (Scal (SNum (bs "-0"))) (bs "-0")) by doc.
  split; [exact D|]. split; [apply (doc_imports _ _ _ _ _ _ D)|apply (doc_throw _ _ _ _ _ _ D)]; vm_compute; reflexivity.
Qed.
Print Assumptions C19_sources_agree_refuted.

(** ** C28.  The members of an object that is read into a class, at any place of the document, come in any order: the value
    is the same.  Full claim: without [exact_skips].  Proved: for Strict and Exact without that condition, for Weak if
    unknown members are skipped exactly.  Otherwise false (below). *)
Theorem C28_member_order_partial : forall cfg k t v j1 j2 text1 text2 v', wf t = true -> shaped t v = true ->
  document j1 text1 -> document j2 text2 -> exact_skips cfg k t j1 -> exact_skips cfg k t j2 ->
  jinside cfg (reorders cfg) t j1 j2 -> accepts cfg k t v text1 v' <-> accepts cfg k t v text2 v'.
Proof.
  intros cfg k t v j1 j2 text1 text2 v' W S D1 D2 X1 X2 H.
  assert (H1 := meaning_not_hang cfg k t v j1 W S X1). assert (H2 := meaning_not_hang cfg k t v j2 W S X2).
  rewrite (proj1 (accepts_iff cfg k t v j1 text1 D1 H1)), (proj1 (accepts_iff cfg k t v j2 text2 D2 H2)).
  split; apply order_meaning; auto. apply inside_sym; [intros; now apply reorders_sym|exact H].
Qed.
Print Assumptions C28_member_order_partial.
Theorem C28_member_order_strict : forall cfg k t v j1 j2 text1 text2 v', wf t = true -> shaped t v = true ->
  document j1 text1 -> document j2 text2 -> pc_strict cfg <> Weak ->
  jinside cfg (reorders cfg) t j1 j2 -> accepts cfg k t v text1 v' <-> accepts cfg k t v text2 v'.
Proof. intros. eapply C28_member_order_partial; eauto; intro; contradiction. Qed.
Print Assumptions C28_member_order_strict.
Example C28_example : reorders pc_default ty_point (Obj [(bs "x", Scal (SNum (bs "1"))); (bs "y", Scal (SStr (bs "b")))])
    (Obj [(bs "y", Scal (SStr (bs "b"))); (bs "x", Scal (SNum (bs "1")))]) /\
  accepts pc_default StrIn ty_point (point 0 []) (bs "{""y"":""b"",""x"":1}") (point 1 (bs "b")).
Proof.
  assert (R : reorders pc_default ty_point (Obj [(bs "x", Scal (SNum (bs "1"))); (bs "y", Scal (SStr (bs "b")))])
    (Obj [(bs "y", Scal (SStr (bs "b"))); (bs "x", Scal (SNum (bs "1")))])).
  { constructor; [reflexivity|constructor| |].
    - intros a key1 j1 b key2 j2 c n1 n2 E H1 H2. apply (names_key StrIn) in H1, H2.
      assert (L := f_equal (@List.length _) E). rewrite app_length in L. cbn [List.length] in L. rewrite app_length in L. cbn [List.length] in L.
      destruct a; [|cbn [List.length] in L; lia]. destruct b; [|cbn [List.length] in L; lia]. cbn [app] in E. inversion E; subst.
      vm_compute in H1, H2. congruence.
    - intros key j [Q|[Q|[]]]; injection Q as <- <-; eexists; name. }
  split; [exact R|].
  eapply (C28_member_order_partial pc_default StrIn ty_point (point 0 []) _ _ (bs "{""x"":1,""y"":""b""}")); [reflexivity|reflexivity|doc|doc|safe|safe|apply is_here; exact R|].
  eapply doc_imports; [doc|]. vm_compute. reflexivity.
Qed.
(** Swapping the unknown members x and "," changes the outcome (Weak). *)
Theorem C28_member_order_refuted : exists a b l text1 text2, document (Obj (a :: b :: l)) text1 /\ document (Obj (b :: a :: l)) text2 /\
  imports pc_default StrIn ty_odd (VStruct [VInt 0] []) text1 (VStruct [VInt 7] []) (bs """}") /\
  rejects pc_default StrIn ty_odd (VStruct [VInt 0] []) text2.
Proof.
  exists (bs "x", Scal (SStr (bs "\\"))), (bs ",", Scal (SNum (bs "1"))), [(bs ":7,", Scal (SStr (bs ":2}")))],
    (bs "{""x"":""\\"","","":1,"":7,"":"":2}""}"), (bs "{"","":1,""x"":""\\"","":7,"":"":2}""}").
  split; [doc|]. split; [doc|]. split; fuels 40%nat; vm_compute; [eexists; repeat split|exact I].
Qed.
Print Assumptions C28_member_order_refuted.
