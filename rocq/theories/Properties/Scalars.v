(** C14, C15, C17, C18: malformed scalars. *)
From Coq Require Import ZArith String List Bool Lia ZifyBool.
From Verif Require Import Model.Base Model.Source Model.Unicode Model.Number Model.JsonLexer Model.ParserInterface
  Model.JsonParser Model.Types Model.Deserializer Model.Importer
  Spec.JsonString Spec.Json Spec.Typed Spec.Import Proofs.Tac Proofs.UnicodeP Proofs.LexP Proofs.NumberP Proofs.Sim Proofs.TreeM Proofs.JsonSim
  Proofs.ImportP Proofs.InterpP Proofs.PartP Proofs.JsonPartP Proofs.SourcesP Proofs.RootP Proofs.JsonCheck Properties.Imports.
Import ListNotations.
Open Scope Z_scope.

(** ** C14.  Full claim: a text that ends inside a string value is rejected.  Proved: for a document that is a string, read
    from a string source, for every unfinished contents.  Missing: strings inside arrays and objects.  Streams: refuted. *)
Theorem C14_unterminated_partial : forall cfg v w body, ws w -> unclosed body ->
  rejects cfg StrIn TStr v (w ++ 34 :: body).
Proof.
  intros cfg v w body Hw U. exists (S (S (S (List.length body)))). intros fuel Hf. unfold json_extract.
  destruct (root_value fuel cfg StrIn TStr v _ w 34 body eq_refl Hw eq_refl eq_refl ltac:(lia)) as (l & A & _ & _ & _ & ->).
  destruct (getStringInto_unclosed fuel (pc_conv cfg) l body U A ltac:(lia)) as [->|(b & l' & -> & O)]; [exact I|]. cbn [bind].
  rewrite (trailing_bad _ _ O). exact O.
Qed.
Print Assumptions C14_unterminated_partial.
Example C14_example : unclosed (bs "ab\""c\") /\ rejects pc_default StrIn TStr (VStr []) (bs " ""ab\""c\").
Proof.
  assert (U : unclosed (bs "ab\""c\")).
  { lits. apply uc_char; [lia|lia|]. apply uc_char; [lia|lia|]. apply uc_escape. apply uc_char; [lia|lia|]. apply uc_slash. }
  split; [exact U|]. apply (C14_unterminated_partial pc_default (VStr []) [32]); [|exact U]. repeat constructor.
Qed.
(** From a stream an unfinished string is accepted.  From both sources a text whose last string, a key, has no closing quote
    is accepted in Weak mode: the text is an object, a member with the value a-backslash, a comma, and the string. *)
Theorem C14_unterminated_refuted :
  (exists body, unclosed body /\ imports pc_default Strm TStr (VStr []) (34 :: body) (VStr body) []) /\
  (exists raw body v, json_string raw v /\ unclosed body /\ forall k,
     imports pc_default k ty_point (point 0 []) (bs "{""z"":""" ++ raw ++ bs """,""" ++ body) (point 0 []) []).
Proof.
  split.
  - exists (bs "abc"). split; [lits; repeat (apply uc_char; [lia|lia|]); apply uc_end|]. fuels 10%nat. vm_compute. eexists. repeat split.
  - exists (bs "a\\"), (bs "}"), (bs "a\"). split; [|split].
    + lits. apply js_char; try lia. apply js_short; [constructor|]. apply js_nil.
    + lits. apply uc_char; [lia|lia|]. apply uc_end.
    + intros []; (fuels 40%nat; vm_compute; eexists; repeat split).
Qed.
Print Assumptions C14_unterminated_refuted.

(** ** C15.  Full claim: a value starting with t, f or n is accepted only if it spells true, false or null.  Proved: for a
    document that is a scalar.  Refuted for pointers and for skipped members. *)
Theorem C15_literals_partial : forall cfg k t v w c r v' rest, ws w -> c = 116 \/ c = 102 \/ c = 110 ->
  match t with TInt _ | TBool | TStr => True | _ => False end ->
  imports cfg k t v (w ++ c :: r) v' rest ->
  exists b tl, t = TBool /\ v' = VBool b /\ c :: r = bs (if b then "true" else "false") ++ tl /\
    (if pc_noTrailing cfg then Forall (fun x => is_space x = true) tl else rest = tl).
Proof.
  intros cfg k t v w c r v' rest Hw Hc Ht (N & I).
  specialize (I N (le_n _)) as (s & E & _ & Er).
  assert (Hs : is_space c = false /\ is_punct c = false /\ 0 <= c < 128 /\ c <> 34).
  { destruct Hc as [->|[->| ->]]; repeat split; try reflexivity; lia. }
  destruct Hs as (Hs & Hp & Hr & Hq). unfold json_extract in E.
  destruct t as [i| | | | | | | | | | | | ]; try contradiction.
  - exfalso. destruct (root_value N cfg k (TInt i) v _ w c r eq_refl Hw Hs Hp Hr) as (l & A & _ & _ & _ & F). rewrite F in E. clear F.
    assert (T : lex_scanInt i l = Throw).
    { unfold lex_scanInt, src_scanInt, checkZero. rewrite (peek_cons k _ c _ A), gchar_id by lia.
      replace (c =? 48) with false by lia. cbn [bind]. rewrite (at_kind _ _ _ A). destruct k.
      - apply at_cons_inv in A as (pre & ->). unfold s_size, s_rest. cbn [s_data s_pos]. rewrite skipn_app_len.
        rewrite (proj2 (Nat.ltb_ge _ _)) by (rewrite app_length; lia).
        assert (Fc : from_chars i (c :: r) = FcInvalid).
        { unfold from_chars. destruct Hc as [->|[->| ->]]; destruct (i_signed i); reflexivity. }
        rewrite Fc. unfold validateResult. now destruct (src_peek _) as [c1 s1].
      - assert (Nu : num_get_unsigned i (c :: r) = (0, 0%nat)).
        { unfold num_get_unsigned. destruct Hc as [->|[->| ->]]; reflexivity. }
        unfold readNumber_stream. assert (P := peek_cons Strm _ c _ A). rewrite gchar_id in P by lia. rewrite P. replace (c =? 45) with false by lia.
        apply at_cons_inv in A as (pre & Es). rewrite Es. unfold strm_good. cbn [s_good s_eof andb negb]. unfold s_rest. cbn [s_data s_pos]. rewrite skipn_app_len, Nu.
        cbn [Nat.eqb]. unfold validateResult. destruct (i_signed i); cbn iota zeta. all: rewrite Es in P; rewrite P; reflexivity. }
    cbn beta in E. rewrite T in E. discriminate E.
  - destruct (root_value N cfg k TBool v _ w c r eq_refl Hw Hs Hp Hr) as (l & A & Lt & Lb & Bf & F). rewrite F in E. clear F.
    cbn beta in E. destruct (getLastBool l) as [[b l']| | |] eqn:G; try discriminate E. cbn [bind] in E.
    destruct (getLastBool_exact k l b l' (c :: r) A Bf G) as (Eb & tl & A' & X). rewrite Lb in Eb.
    destruct (check_trailing _ _) as [s'| | |] eqn:Ct; try discriminate E. injection E as <- <-.
    exists b, tl. split; [reflexivity|]. split; [reflexivity|]. split.
    + destruct X as [[X1 X2]|[X1 X2]]; rewrite X2; rewrite X2 in A; injection X2 as -> _; rewrite Eb; reflexivity.
    + destruct (trailing_at k _ _ _ tl A' Ct) as [[-> ->]|[-> W]]; [|exact W]. rewrite <- Er. now apply (rest_at k).
  - exfalso. destruct (root_value N cfg k TStr v _ w c r eq_refl Hw Hs Hp Hr) as (l & A & _ & _ & _ & F). rewrite F in E. clear F.
    cbn beta in E. unfold getStringInto in E. destruct (get_cons k _ c _ A) as (s1 & Gs & _). rewrite Gs, gchar_id in E by lia.
    replace (c =? 34) with false in E by lia. discriminate E.
Qed.
Print Assumptions C15_literals_partial.
Example C15_example : imports pc_default Strm TBool (VBool true) (bs " false ,") (VBool false) (bs " ,") /\
  (forall k, rejects pc_default k TBool (VBool true) (bs "falsy")).
Proof.
  split; [fuels 10%nat; vm_compute; eexists; repeat split|]. intros []; fuels 10%nat; vm_compute; exact I.
Qed.
(** [nope] is read as null, and skipped as a value. *)
Theorem C15_literals_refuted : forall k,
  imports pc_default k (TPtr (TInt IInt)) (VPtr None) (bs "nope") (VPtr None) [] /\
  imports pc_default k ty_point (point 0 []) (bs "{""z"":nope,""x"":1}") (point 1 []) [].
Proof. intros []; (split; [fuels 10%nat|fuels 40%nat]; vm_compute; eexists; repeat split). Qed.
Print Assumptions C15_literals_refuted.

(** ** C17.  Full claim: an integer literal that does not fit its target is rejected.  Proved: from a string source such a
    document, whatever its depth, is never accepted, and a number accepted from a string source is the literal's value. *)
Theorem C17_out_of_range_partial : forall cfg t v j text i txt z, wf t = true -> shaped t v = true -> document j text ->
  exact_skips cfg StrIn t j -> jpart cfg t j (TInt i) (Scal (SNum txt)) -> int_literal txt z -> ~ fits i z ->
  refuses cfg StrIn t v text.
Proof.
  intros cfg t v j text i txt z W S D X P L F. apply (part_refuses cfg StrIn t v j text _ _ W S D X P). intros _ x Sx x' E.
  unfold in_value in E. cbn in E. destruct (int_of StrIn i txt) as [y| | |] eqn:Ei; try discriminate E.
  rewrite (int_literal_of StrIn i txt z L) in Ei. destruct (_ && _); [discriminate Ei|]. destruct (i_in i z) eqn:In; [|discriminate Ei].
  apply F. now apply fits_in.
Qed.
Print Assumptions C17_out_of_range_partial.
Theorem C17_exact_value : forall cfg i v txt text v', document (Scal (SNum txt)) text ->
  accepts cfg StrIn (TInt i) v text v' -> exists z, int_literal txt z /\ fits i z /\ v' = VInt z.
Proof.
  intros cfg i v txt text v' D A.
  assert (Nm : number txt). { inversion D as [? ? ? ? ? Sp]; subst. inversion Sp as [? ? St| | | |]; subst. now inversion St. }
  assert (H : meaning cfg StrIn (TInt i) v (Scal (SNum txt)) <> Hang).
  { unfold meaning. cbn. assert (K := int_of_hang StrIn i txt). destruct (int_of StrIn i txt); try discriminate. congruence. }
  apply (accepts_iff cfg StrIn (TInt i) v _ text D H) in A. unfold meaning in A. cbn in A.
  destruct (int_of StrIn i txt) as [z| | |] eqn:E; try discriminate A. injection A as <-.
  destruct (string_int_inv i txt z Nm E) as [L F]. eauto.
Qed.
Print Assumptions C17_exact_value.
Theorem C17_in_range : forall cfg k i v txt text z, document (Scal (SNum txt)) text -> int_literal txt z -> fits i z ->
  (i_signed i = false -> forall r, txt <> 45 :: r) -> accepts cfg k (TInt i) v text (VInt z).
Proof.
  intros cfg k i v txt text z D L F M. apply (doc_imports cfg k _ text _ _ D). unfold meaning. cbn.
  assert (E : int_of k i txt = Ok z) by (destruct k; [now apply string_int_literal|now apply stream_int_literal]). now rewrite E.
Qed.
Print Assumptions C17_in_range.
Example C17_example : int_literal (bs "-32768") (-32768) /\ fits IShort (-32768) /\ ~ fits IShort (-32769) /\
  jpart pc_default (TVec (TInt IShort)) (Arr [Scal (SNum (bs "1")); Scal (SNum (bs "-32769"))]) (TInt IShort) (Scal (SNum (bs "-32769"))).
Proof.
  repeat split; try (vm_compute; congruence).
  - apply (il_minus (bs "32768")). lits. apply ip_nonzero; [lia|]. repeat constructor; unfold digit; lia.
  - intros [H _]. vm_compute in H. congruence.
  - eapply pt_vec; [right; left; reflexivity|]. apply pt_here.
Qed.
(** A string source reads an uninitialised variable, a stream delivers a different number. *)
Theorem C17_out_of_range_refuted :
  undefined pc_default StrIn (TInt IInt) (VInt 0) (bs "3000000000") /\
  imports pc_default Strm (TInt IInt) (VInt 0) (bs "3000000000") (VInt (-1294967296)) [] /\
  imports pc_default Strm (TInt IInt) (VInt 0) (bs "4294967296") (VInt (-1)) [] /\
  imports pc_default Strm (TInt IUInt) (VInt 0) (bs "-5") (VInt 4294967291) [].
Proof.
  split; [fuels 20%nat; vm_compute; reflexivity|]. repeat split; (fuels 20%nat; vm_compute; eexists; repeat split).
Qed.
Print Assumptions C17_out_of_range_refuted.

(** ** C18.  Full claim: leading zeros and plus signs are rejected, and fractions and exponents are not truncated.  Proved: a
    number with a fraction or an exponent is never accepted for an integer, at any depth and from both sources; a zero
    followed by a digit 1-9 is rejected; a plus sign is rejected by a string source. *)
Theorem C18_fraction_rejected : forall cfg k t v j text i txt, wf t = true -> shaped t v = true -> document j text ->
  exact_skips cfg k t j -> jpart cfg t j (TInt i) (Scal (SNum txt)) -> number txt -> (forall z, ~ int_literal txt z) ->
  refuses cfg k t v text /\ (sound cfg k t j -> rejects cfg k t v text).
Proof.
  intros cfg k t v j text i txt W S D X P Nm F. apply (part_refuses cfg k t v j text _ _ W S D X P). intros _ x Sx x' E.
  unfold in_value in E. cbn in E. destruct (number_cases txt Nm) as [[z Hz]|T]; [exact (F z Hz)|]. rewrite T in E. discriminate E.
Qed.
Print Assumptions C18_fraction_rejected.
Theorem C18_leading_zero_partial : forall cfg k i v w d r, ws w -> 49 <= d <= 57 -> rejects cfg k (TInt i) v (w ++ 48 :: d :: r).
Proof.
  intros cfg k i v w d r Hw Hd. exists O. intros fuel _. unfold json_extract.
  destruct (root_value fuel cfg k (TInt i) v _ w 48 (d :: r) eq_refl Hw eq_refl eq_refl ltac:(lia)) as (l & A & _ & _ & _ & ->).
  rewrite (scan_zero k i l d r A Hd). exact I.
Qed.
Print Assumptions C18_leading_zero_partial.
Theorem C18_plus_partial : forall cfg i v w r, ws w -> rejects cfg StrIn (TInt i) v (w ++ 43 :: r).
Proof.
  intros cfg i v w r Hw. exists O. intros fuel _. unfold json_extract.
  destruct (root_value fuel cfg StrIn (TInt i) v _ w 43 r eq_refl Hw eq_refl eq_refl ltac:(lia)) as (l & A & _ & _ & _ & ->).
  rewrite (scan_plus i l r A). exact I.
Qed.
Print Assumptions C18_plus_partial.
Example C18_example : number (bs "1.5e3") /\ (forall z, ~ int_literal (bs "1.5e3") z) /\
  (forall k, rejects pc_default k (TVec (TInt IInt)) (VList []) (bs "[1.5e3]")).
Proof.
  split; [|split].
  - apply (number_intro [] (bs "1") (bs ".5") (bs "e3")); lits; repeat first [progress (unfold digits, digit)|lia|discriminate|constructor].
  - intros z H. assert (K : forall ds, int_part ds -> ~ In 46 ds).
    { intros ds Hd. apply int_part_digits in Hd as [_ Hd]. rewrite Forall_forall in Hd. intro I. apply Hd in I. unfold digit in I. lia. }
    inversion H as [ds Hd E|ds Hd E]. apply (K _ Hd). subst. right. now left.
  - intros []; (eapply doc_throw; [doc|vm_compute; reflexivity]).
Qed.
Theorem C18_syntax_refuted :
  (forall k, imports pc_default k (TInt IInt) (VInt 9) (bs "00") (VInt 0) []) /\
  (forall k, imports pc_default k (TInt IInt) (VInt 9) (bs "-01") (VInt (-1)) []) /\
  imports pc_default Strm (TInt IInt) (VInt 9) (bs "+5") (VInt 5) [] /\
  imports pc_default Strm (TInt IInt) (VInt 9) (bs "+") (VInt 0) [] /\
  imports pc_default Strm (TInt IInt) (VInt 9) (bs "--5") (VInt 5) [].
Proof. repeat split; try intros []; (fuels 20%nat; vm_compute; eexists; repeat split). Qed.
Print Assumptions C18_syntax_refuted.
