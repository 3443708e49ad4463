(** C93: float and double in YAML.

    [TDouble], [TFloat], [VInt b]: as in Properties/Floats.v.  [yflt_events c o k t v]: the events that libyaml's emitter was given for [v] and took;
    [yflt_extract fuel cfg t v calls s]: an import, [calls]: what libyaml does with the text (see Properties/Yaml.v).
    [patterns], [near_scalar], [float_yaml_stands], [yaml_float]: Spec/YamlFloat.v. *)
From Coq Require Import ZArith QArith Qabs String List Bool Lia ZifyBool.
From Verif Require Import Model.Base Model.Source Model.Number Model.ParserInterface Model.Types Model.Importer Model.Printer Model.JsonPrinter Model.Serializer Model.Exporter
  Model.Float Model.Yaml Model.YamlPrinter Model.YamlFloat
  Spec.JsonString Spec.Json Spec.Typed Spec.Import Spec.Denotes Spec.Yaml Spec.YamlOut Spec.Float Spec.YamlFloat
  Proofs.Tac Proofs.TreeM Proofs.DenotesP Proofs.AlikeP Proofs.FloatReadP Proofs.FloatValP Proofs.YamlP Proofs.YamlSim Proofs.YamlOutP Proofs.YamlDocP Proofs.YamlReadP Proofs.YamlFloatP
  Properties.Imports Properties.Exports Properties.Floats Properties.Yaml.
Import ListNotations.
Open Scope Z_scope.

(** ** Exports.  What is written is the document of a value with nearly the same numbers. *)
Theorem C93_document : forall c o k t v es, o_good o = true -> wf t = true -> shaped t v = true -> patterns t v -> yflt_events c o k t v = WDone es ->
  exists j w, alike near_scalar t v w /\ float_yaml_stands (pf_marker c) t w j /\ es = YStreamStart :: doc_events (node_of j).
Proof.
  intros c o k t v es G W Sh P E. assert (X := export_runs_with _ _ floats_written c o k t v G W Sh). unfold yflt_events in E.
  destruct (first_fault_with _ _ _ _ _) as [[]|]; rewrite E in X; try discriminate X. destruct X as (j & Hj & X). destruct (yflt_doc_alike (pf_marker c) t v P j Hj) as (w & A & S).
  exists j, w. split; [exact A|]. split; [exact S|congruence].
Qed.
Print Assumptions C93_document.
(** Numbers can always be written; for the rest it is as in C62.  Full claim: what cannot be written is always reported. *)
Theorem C93_failures_partial : forall c o k t v, o_good o = true -> wf t = true -> shaped t v = true ->
  match first_fault bad_text (pf_marker c) t v with
  | None => exists es, yflt_events c o k t v = WDone es
  | Some Element | Some Key => yflt_events c o k t v = WFailed (negb (pf_catch c))
  | Some Whole | Some Value => yflt_events c o k t v = WTerminated
  end.
Proof.
  intros c o k t v G W Sh. assert (X := export_runs_with _ _ floats_written c o k t v G W Sh). unfold yflt_events.
  change (first_fault bad_text (pf_marker c) t v) with (first_fault_with bad_text (fun _ _ => None) (pf_marker c) t v). destruct (first_fault_with _ _ _ _ _) as [[]|]; try exact X. destruct X as (j & _ & X). eauto.
Qed.
Print Assumptions C93_failures_partial.

(** ** Imports.  Full claim: every document whose scalars are numbers is imported, and the import reports so.  Proved: documents of values that are read back (C61) with
    JSON numbers and hexadecimal numbers in the range of the type and the words inf and nan; on streams if libyaml never asks for more after it has got all of the text (C64). *)
Theorem C93_import_partial : forall fuel cfg t v j calls n2 rest k text, pc_noTrailing cfg = false -> yaml_reads_back (pc_strict cfg) (pc_marker cfg) t v ->
  float_yaml_stands (pc_marker cfg) t v j -> doc_calls j (calls ++ [(n2, Some YDocEnd)]) -> (List.length (node_events (node_of j)) <= fuel)%nat ->
  exists s', yflt_extract fuel cfg t (default t) (calls ++ (n2, Some YDocEnd) :: rest) (src_init k text) = Returned v s' /\
    (src_ok s' = false <-> k = Strm /\ asks_again (pieces calls ++ n2) (List.length text)).
Proof.
  intros fuel cfg t v j calls n2 rest k text Nt B H C F. rewrite <- size_events in F.
  apply (yaml_imports_with yflt_int fuel cfg t (default t) j calls n2 rest k text v (proj1 B) C F Nt).
  exact (yaml_reads_with yflt_int float_scalar float_read _ _ t v B j H).
Qed.
Print Assumptions C93_import_partial.
(** Full claim: what is no number is rejected.  Proved: what is no scalar, and scalars whose first character, not counting white space, is none that a number starts with. *)
Definition starts_number (c : Z) : Prop := digit c \/ c = 43 \/ c = 45 \/ c = 46 \/ lower c = 105 \/ lower c = 110.
Theorem C93_rejected_partial : forall fuel cfg i f j old calls n2 rest k text, flt_of i = Some f ->
  (forall s, j = Scal s -> exists b c r, s = b ++ c :: r /\ blank b /\ ~ starts_number c /\ ~ blank [c]) ->
  doc_calls j (calls ++ [(n2, Some YDocEnd)]) -> (List.length (node_events (node_of j)) <= fuel)%nat ->
  yflt_extract fuel cfg (TInt i) old (calls ++ (n2, Some YDocEnd) :: rest) (src_init k text) = Failed (negb (pc_catch cfg)).
Proof.
  intros fuel cfg i f j old calls n2 rest k text Ef N C F. rewrite <- size_events in F.
  apply (yaml_refuses_with yflt_int fuel cfg (TInt i) old j calls n2 rest k text eq_refl C F). unfold yaml_meaning_with. cbn [interp i_parse in_value].
  destruct j as [s| |]; try reflexivity. cbn [sc_int yaml_sc_with]. destruct (N s eq_refl) as (b & c & r & -> & B & D & Sp).
  assert (E : strtod f (b ++ c :: r) = (0, O)).
  { assert (Hs : is_space c = false). { destruct (is_space c) eqn:E; [|reflexivity]. contradiction Sp. constructor; [unfold is_space in E; lia|constructor]. }
    unfold strtod. rewrite blank_skip by (assumption || exact Hs). unfold starts_number in D.
    destruct (c =? 45) eqn:E1; [exfalso; apply D; lia|]. destruct (c =? 43) eqn:E2; [exfalso; apply D; lia|]. cbv zeta.
    assert (Dg : is_digit c = false). { destruct (is_digit c) eqn:E; [|reflexivity]. exfalso. apply D. left. unfold is_digit, digit in *. lia. }
    rewrite no_hex.
    2:{ destruct (Z.eq_dec c 48) as [->|Nz]; [discriminate Dg|]. destruct c as [|p|p]; try exact Logic.I. repeat (destruct p as [p|p|]; try exact Logic.I). now contradiction Nz. }
    unfold scan_mantissa. cbn [span_digits]. rewrite Dg. destruct (c =? 46) eqn:E3; [exfalso; apply D; lia|]. cbn [app List.length Nat.eqb].
    unfold scan_word. assert (L1 : lower c <> 105) by (intro; apply D; auto 10). assert (L2 : lower c <> 110) by (intro; apply D; auto 10).
    assert (W : forall w q, lower c <> w -> starts_with (w :: q) (c :: r) = false).
    { intros w q Hw. unfold starts_with. cbn [List.length firstn map beq]. destruct (lower c =? w) eqn:X; [lia|reflexivity]. }
    change (bs "infinity") with (105 :: bs "nfinity"). change (bs "inf") with (105 :: bs "nf"). change (bs "nan") with (110 :: bs "an"). rewrite !W by assumption. reflexivity. }
  assert (E' : yflt_int i (b ++ c :: r) = Throw) by (unfold yflt_int; rewrite Ef, E, app_length; cbn [List.length]; rewrite Nat.add_comm; reflexivity).
  cbn [in_value]. unfold bytes in *. rewrite E'. reflexivity.
Qed.
Print Assumptions C93_rejected_partial.

(** ** Round trips.  Full claim: floats and doubles come back as they were.  Proved: within 10 ^ -5 of their size, and as they were if six digits are enough; infinities as
    they were, NaNs as NaNs; everything else in the value as it was. *)
Theorem C93_round_trip_partial : forall c o k t v cfg es, o_good o = true -> pf_marker c = pc_marker cfg -> pc_noTrailing cfg = false ->
  yaml_reads_back (pc_strict cfg) (pc_marker cfg) t v -> patterns t v -> yflt_events c o k t v = WDone es ->
  forall fuel calls rest src text, map snd calls = map Some es -> (List.length es <= fuel)%nat ->
  exists w s', alike near_scalar t v w /\ yflt_extract fuel cfg t (default t) (calls ++ rest) (src_init src text) = Returned w s'.
Proof.
  intros c o k t v cfg es G Mk Nt B P E fuel calls rest src text C F. assert (B' := B). destruct B' as (W & (Sh & _) & _).
  destruct (C93_document c o k t v es G W Sh P E) as (j & w & A & S & ->). rewrite Mk in S. exists w.
  assert (Sz : (size j <= fuel)%nat) by (rewrite size_events; unfold doc_events in F; cbn [List.length] in F; rewrite app_length in F; lia).
  unfold doc_events in C. rewrite app_comm_cons, app_comm_cons in C. apply calls_app in C as (c1 & c2 & -> & C1 & C2). apply calls_cons in C2 as (n2 & c3 & -> & C3). destruct c3; [|discriminate C3].
  rewrite <- app_assoc. cbn [app].
  destruct (C93_import_partial fuel cfg t w j c1 n2 rest src text Nt (yaml_alike_reads_back _ _ t v w B A) S) as (s' & X & _); eauto.
  - unfold doc_calls, doc_events. rewrite map_app, C1. cbn [map snd app]. rewrite map_app. reflexivity.
  - now rewrite <- size_events.
Qed.
Print Assumptions C93_round_trip_partial.
(** 0.1, -1/3, infinity, the negative zero and a NaN; -1/3 comes back as -0.333333. *)
Definition val_ynums : val := VStruct [VList [VInt d_tenth; VInt d_third; VInt d_inf; VInt d_minus0; VInt (d_inf + 1)]; VInt f_1_5; VInt 3] [].
Definition events_ynums : list yev := [YStreamStart; YDocStart; YMapStart; YScalar (bs "a"); YSeqStart; YScalar (bs "0.1"); YScalar (bs "-0.333333"); YScalar (bs "inf"); YScalar (bs "-0"); YScalar (bs "nan");
  YSeqEnd; YScalar (bs "b"); YScalar (bs "1.5"); YScalar (bs "n"); YScalar (bs "3"); YMapEnd; YDocEnd].
Definition yaml_reader : pconfig := mkPc Exact (bs "__type") true false true.
Lemma ynums_patterns : patterns ty_nums val_ynums.
Proof.
  unfold patterns, val_ynums, ty_nums, d_tenth, d_third, d_inf, d_minus0, f_1_5. cbn -[is_pattern].
  repeat match goal with |- _ /\ _ => split | |- Forall _ _ => constructor | |- True => exact Logic.I | |- is_pattern _ _ => first [exact Logic.I|split; [discriminate|reflexivity]] end.
Qed.
Example C93_example : yaml_reads_back Exact (bs "__type") ty_nums val_ynums /\ patterns ty_nums val_ynums /\ (forall k, yflt_events pf_default out_good k ty_nums val_ynums = WDone events_ynums) /\
  (exists s, yflt_extract 40 yaml_reader ty_nums (default ty_nums) (calls_for events_ynums) (src_init StrIn []) =
    Returned (VStruct [VList [VInt d_tenth; VInt 13823048450271042886; VInt d_inf; VInt d_minus0; VInt 9221120237041090560]; VInt f_1_5; VInt 3] []) s).
Proof.
  split; [|split; [exact ynums_patterns|split; [intros []; vm_compute; reflexivity|eexists; vm_compute; reflexivity]]].
  split; [reflexivity|]. split; [split; [reflexivity|unfold val_ynums, d_tenth, d_third, f_1_5, d_inf, d_minus0; cbn -[fits bytes_in]; conds]|]. split; [unfold distinct_names; cbn; conds|].
  split; [unfold no_null_like, val_ynums; cbn; conds|]. split; [reflexivity|]. intros _. split; [unfold complete; cbn; conds; intros [(? & Q) _]; discriminate Q|unfold no_overrides; cbn; conds].
Qed.
(** Other spellings of -1.25 and 12, and what is no number. *)
Example C93_other_example : float_yaml_stands (bs "__type") (TTup [TDouble; TDouble; TInt IInt]) (VList [VInt 13831680355561635840; VInt d_inf; VInt 12]) (Arr [Scal (bs " -12.5e-1"); Scal (bs "inf"); Scal (bs "+12")]) /\
  (forall s, Scal (bs " twelve") = Scal s -> exists b c r, s = b ++ c :: r /\ blank b /\ ~ starts_number c /\ ~ blank [c]) /\ (forall s, Arr [Scal (bs "1.5")] = Scal s -> exists b c r, s = b ++ c :: r /\ blank b /\ ~ starts_number c /\ ~ blank [c]).
Proof.
  split; [|split; intros s H; [injection H as <-; exists [32], 116, (bs "welve")|discriminate H]].
  - cbn. do 2 eexists. split; [reflexivity|]. split; [reflexivity|]. cbn.
    repeat match goal with |- _ /\ _ => split | |- True => exact Logic.I end; (do 2 eexists; split; [reflexivity|]; split; [reflexivity|]).
    + apply (yf_number Dbl [32] (bs "-12.5e-1")); [repeat constructor|].
      destruct (proj1 C71_example) as (x & D & R & _ & Q). destruct (reads_nearest StrIn Dbl _ x D R) as (b & Eb & Db). vm_compute in Eb. injection Eb as <-. exact Db.
    + change (yaml_float Dbl (if negative Dbl d_inf then bs "-inf" else bs "inf") d_inf). apply yf_infinity. split; [split; [discriminate|reflexivity]|]. split; vm_compute; reflexivity.
    + apply (yi_plus [] [49; 50]); [constructor|]. split; [discriminate|]. repeat constructor; discriminate.
  - split; [reflexivity|]. split; [repeat constructor|]. split; [unfold starts_number, digit, lower; cbn; lia|]. intro B. inversion B; subst. lia.
Qed.
(** Every hexadecimal number in the range of the type is read, with its sign, as the nearest pattern. *)
Theorem C93_hexadecimal : forall fuel cfg i f b (neg : bool) sg t q old calls n2 rest k text, pc_noTrailing cfg = false -> flt_of i = Some f ->
  blank b -> (if neg then sg = [45] else sg = [] \/ sg = [43]) -> hexadecimal t q -> in_range f (if neg then - q else q) ->
  doc_calls (Scal (b ++ sg ++ t)) (calls ++ [(n2, Some YDocEnd)]) -> (1 <= fuel)%nat ->
  exists z s', nearest f (if neg then - q else q) z /\ negative f z = neg /\
    yflt_extract fuel cfg (TInt i) old (calls ++ (n2, Some YDocEnd) :: rest) (src_init k text) = Returned (VInt z) s'.
Proof.
  intros fuel cfg i f b neg sg t q old calls n2 rest k text Nt Ef B Sg H R C F. destruct (hexadecimal_nearest f t q neg H R) as (z & N & Ng).
  assert (St : signed_text sg neg) by (destruct neg; [left; exact Sg|destruct Sg as [->| ->]; [now left|right; auto]]).
  assert (G := strtod_hexadecimal f b sg neg t q z B St H R N Ng).
  destruct (yaml_imports_with yflt_int fuel cfg (TInt i) old (Scal (b ++ sg ++ t)) calls n2 rest k text (VInt z) eq_refl C F Nt) as (s' & X & _).
  - unfold yaml_meaning_with. cbn [interp i_parse in_value]. cbn [sc_int yaml_sc_with]. unfold yflt_int. rewrite Ef, G, Nat.eqb_refl. reflexivity.
  - exists z, s'. auto.
Qed.
Print Assumptions C93_hexadecimal.
Definition read_alone (a : list Z) : import_result := yflt_extract 10 yaml_reader TDouble (VInt 7) (calls_for (YStreamStart :: doc_events (node_of (Scal a)))) (src_init StrIn []).
(** -0x1.4p3 is -10, 0X.8 a half. *)
Example C93_hexadecimal_example : hexadecimal (bs "0x1.4p3") (inject_Z 20 * Qpower 2 (3 - 4)) /\ in_range Dbl (- (inject_Z 20 * Qpower 2 (3 - 4))) /\ (inject_Z 20 * Qpower 2 (3 - 4) == 10)%Q /\
  hexadecimal (bs "0X.8") (inject_Z 8 * Qpower 2 (0 - 4)) /\
  (exists s, read_alone (bs "-0x1.4p3") = Returned (VInt 13845191154443747328) s) /\ (exists s, read_alone (bs " +0X.8") = Returned (VInt 4602678819172646912) s).
Proof.
  split; [|split; [|split; [reflexivity|split; [|split; eexists; vm_compute; reflexivity]]]].
  - apply (hexadecimal_intro 120 [49] [46; 52] [52] (bs "p3") 3 20); [auto|auto|discriminate| |].
    + apply (hx_cons 0 49 1); [exact (hd_dec 1 ltac:(lia))|]. apply (hx_cons (16 * 0 + 1) 52 4); [exact (hd_dec 4 ltac:(lia))|]. apply (hx_nil 20).
    + apply (hx_plain 112 [51]); [auto|]. split; [discriminate|]. repeat constructor; discriminate.
  - right; split; [exists 1|exists (d_inf - 1)]; eexists; (split; [split; [discriminate|reflexivity]|]); (split; [vm_compute; reflexivity|]); vm_compute; repeat split; discriminate.
  - apply (hexadecimal_intro 88 [] [46; 56] [56] [] 0 8); [auto|auto|discriminate| |constructor].
    apply (hx_cons 0 56 8); [exact (hd_dec 8 ltac:(lia))|]. apply (hx_nil 8).
Qed.
(** More than six digits are lost: 123456789 comes back as 123457000. *)
Definition d_digits : Z := 4728057454355442688.
Theorem C93_round_trip_refuted : exists v es v' s, valid TDouble v /\ yflt_events pf_default out_good ToStream TDouble v = WDone es /\
  yflt_extract 10 pc_default TDouble (default TDouble) (calls_for es) (src_init StrIn []) = Returned v' s /\ v' <> v.
Proof.
  exists (VInt d_digits). eexists. eexists. eexists. split; [split; [reflexivity|unfold d_digits; cbn -[fits]; conds]|]. split; [vm_compute; reflexivity|]. split; [vm_compute; reflexivity|discriminate].
Qed.
Print Assumptions C93_round_trip_refuted.
(** The empty scalar is read as 0, a number that is too large as infinity; the words of YAML for infinity and NaN are rejected. *)
Theorem C93_empty_refuted : exists s, read_alone [] = Returned (VInt 0) s.
Proof. eexists. vm_compute. reflexivity. Qed.
Print Assumptions C93_empty_refuted.
Theorem C93_too_large_refuted : exists s, read_alone (bs "1e999") = Returned (VInt d_inf) s /\ src_ok s = true.
Proof. eexists. split; vm_compute; reflexivity. Qed.
Print Assumptions C93_too_large_refuted.
Theorem C93_words_refuted : read_alone (bs ".inf") = Failed false /\ read_alone (bs ".nan") = Failed false /\ read_alone (bs "-.inf") = Failed false.
Proof. repeat split; vm_compute; reflexivity. Qed.
Print Assumptions C93_words_refuted.
