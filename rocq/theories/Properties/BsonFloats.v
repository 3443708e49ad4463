(** C73 to C75: float and double in BSON.

    [TDouble], [TFloat] and the numbers in values: see Model/Float.v.  [VInt b] is the value with the pattern [b].
    [bflt_export], [bfltGetPrintSize]: exporting a value and asking for its size; [bflt_imports], [bflt_rejects]: importing;
    [bson_float_stands marker t v j]: [j] is the document of [v], with doubles for its floats and doubles;
    [bson_reads_as marker t v j]: every element of [j] has the value that [v] has there, or the nearest one (Spec/BsonFloat.v). *)
From Coq Require Import ZArith QArith Qabs String List Bool Lia ZifyBool.
From Verif Require Import Model.Base Model.Source Model.Number Model.ParserInterface Model.Types Model.Importer Model.Printer Model.JsonPrinter Model.Serializer Model.Exporter
  Model.Float Model.BsonPrinter Model.BsonDoc Model.BsonFloat
  Spec.JsonString Spec.Json Spec.Typed Spec.Import Spec.Denotes Spec.Sizes Spec.Float Spec.Bson Spec.BsonDenotes Spec.BsonFloat
  Proofs.Tac Proofs.TreeM Proofs.TypedP Proofs.DenotesP Proofs.BinaryP Proofs.BsonSim Proofs.BsonImportP Proofs.BsonExportP Proofs.BsonRoundP Proofs.BsonCheck Proofs.AlikeP Proofs.FloatValP Proofs.FloatExportP
  Proofs.BsonFloatP Proofs.BsonFloatDocP Proofs.JsonCheck
  Properties.Imports Properties.Exports Properties.Bson Properties.Floats.
Import ListNotations.
Open Scope Z_scope.

(** ** C73.  Full claim: every value with floats and doubles is exported as the BSON document of that value.  Proved: under the
    conditions of C40.  Every float and every double is there, infinities, NaNs and negative zeros included, as a double with its value. *)
Theorem C73_float_document_partial : forall c k ids t v out n, wf t = true -> bson_type t -> bson_text t v -> marker_framed (AsValue false) t = true ->
  bson_rootable t = true -> null_written t v = false -> nul_free (pf_marker c) -> twelve ids -> patterns t v ->
  bflt_export c k false ids t v = BExported out n -> len out < 2 ^ 31 ->
  exists j j', bson_float_stands (pf_marker c) t v j /\ written ids j j' /\ bson_document decimal_name j' out /\
    bfltGetPrintSize c ids t v = Ok (match j with Scal _ => len out - 8 | _ => len out end).
Proof.
  intros c k ids t v out n W T V M R N Mk I Pt E L. destruct (exported_with _ exact_num exact_some _ _ _ _ _ _ _ E) as (j & Hj).
  destruct (export_document ids (pf_marker c) (bs_num false) (bs_szInt false) exact_num (exact_out ids) I Mk t v j W T V M R N Hj c k eq_refl) as (o & m & j' & E' & A & _ & D & S & _).
  unfold bflt_export, bflt_printer in E. rewrite E in E'. injection E' as <- <-. exists j, j'. split; [|split; [exact A|split; [exact (D L)|]]].
  - exact (proj1 (sense_refine _ exact_num bson_num exact_bson _ _ _ _ _ _ t) v j Pt Hj).
  - unfold bfltGetPrintSize, bflt_printer. rewrite S. now destruct j.
Qed.
Print Assumptions C73_float_document_partial.
Theorem C73_exports : forall c k ids t v j, wf t = true -> bson_type t -> bson_text t v -> marker_framed (AsValue false) t = true ->
  bson_rootable t = true -> null_written t v = false -> nul_free (pf_marker c) -> twelve ids -> patterns t v ->
  bson_float_stands (pf_marker c) t v j -> exists out n, bflt_export c k false ids t v = BExported out n.
Proof.
  intros c k ids t v j W T V M R N Mk I Pt Hj. apply (proj1 (sense_refine _ bson_num exact_num bson_exact _ _ _ _ _ _ t) v j Pt) in Hj.
  destruct (export_document ids (pf_marker c) (bs_num false) (bs_szInt false) exact_num (exact_out ids) I Mk t v j W T V M R N Hj c k eq_refl) as (o & m & j' & E' & _). eauto.
Qed.
Print Assumptions C73_exports.
(** For every float there is exactly one such double. *)
Theorem C73_one_double : forall b, pattern Flt b -> exists d, widened b d /\ forall d', widened b d' -> d' = d.
Proof. intros b H. exists (widen b). split; [now apply widen_widened|]. intros d' H'. now apply widened_unique. Qed.
Print Assumptions C73_one_double.
(** Minus infinity, a NaN, and the smallest float (2 ^ -149). *)
Definition f_minus_inf : Z := 4286578688.
Definition f_nan : Z := 2143289345.
Definition ty_floats : ty := TStruct (mkSinfo [bs "d"; bs "f"] [] [] false false false) [TVec TDouble; TVec TFloat] [].
Definition val_floats : val := VStruct [VList [VInt d_tenth; VInt d_minus0; VInt d_inf]; VList [VInt f_1_5; VInt 1; VInt f_minus_inf; VInt f_nan]] [].
Definition out_floats : bytes := little 4 98 ++ [4; 100; 0] ++ little 4 38 ++ [1; 48; 0] ++ little 8 d_tenth ++ [1; 49; 0] ++ little 8 d_minus0 ++ [1; 50; 0] ++ little 8 d_inf ++ [0] ++
  [4; 102; 0] ++ little 4 49 ++ [1; 48; 0] ++ little 8 4609434218613702656 ++ [1; 49; 0] ++ little 8 3936146074321813504 ++ [1; 50; 0] ++ little 8 18442240474082181120 ++
  [1; 51; 0] ++ little 8 9221120237577961472 ++ [0] ++ [0].
Ltac nums := repeat match goal with |- True => exact Logic.I | |- _ /\ _ => split | |- Forall _ [] => constructor | |- Forall _ (_ :: _) => constructor end.
Lemma floats_conditions : wf ty_floats = true /\ bson_type ty_floats /\ bson_text ty_floats val_floats /\ marker_framed (AsValue false) ty_floats = true /\ bson_rootable ty_floats = true /\
  null_written ty_floats val_floats = false /\ nul_free (pf_marker pf_default) /\ patterns ty_floats val_floats /\ no_signal ty_floats val_floats.
Proof.
  split; [reflexivity|]. split; [unfold bson_type, ty_floats, nul_free, plain; cbn -[plain]; conds|]. split; [unfold bson_text, val_floats; cbn -[plain]; conds|].
  split; [reflexivity|]. split; [reflexivity|]. split; [reflexivity|]. split; [unfold nul_free; cbn; conds|].
  split; [unfold patterns, val_floats, d_tenth, f_1_5, f_minus_inf, f_nan; unfold_consts; cbn -[pattern]; nums; split; (discriminate || reflexivity)|].
  unfold no_signal, val_floats, d_tenth, f_1_5, f_minus_inf, f_nan. unfold_consts. cbn -[signalling]. nums; intros Q; try discriminate Q; intros [Q1 [Q2 Q3]]; (discriminate Q1 || discriminate Q2 || discriminate Q3).
Qed.
Example C73_example : (forall k, bflt_export pf_default k false None ty_floats val_floats = BExported out_floats 0) /\ bfltGetPrintSize pf_default None ty_floats val_floats = Ok 98.
Proof. split; [intros []|]; vm_compute; reflexivity. Qed.

(** ** C74.  Full claim: every value with floats and doubles survives a BSON round trip bit by bit.  Proved: under the conditions of C41,
    unless a float is a signalling NaN. *)
Theorem C74_float_round_trip_partial : forall c k cfg src t v out n, pc_marker cfg = pf_marker c -> reads_back (pc_strict cfg) (pf_marker c) t v ->
  bson_type t -> bson_text t v -> marker_framed (AsValue false) t = true -> bson_rootable t = true -> null_written t v = false -> nul_free (pf_marker c) ->
  patterns t v -> no_signal t v -> bflt_export c k false None t v = BExported out n -> len out < 2 ^ 31 ->
  (pc_noTrailing cfg = false -> forall tl, bflt_imports cfg src t (default t) (out ++ tl) v tl) /\
  (bson_root t <> BValue -> bflt_imports cfg src t (default t) out v []).
Proof.
  intros c k cfg src t v out n Hm B T V M R N Mk Pt Sg E L. destruct (exported_with _ exact_num exact_some _ _ _ _ _ _ _ E) as (j & Hj).
  destruct (export_document None (pf_marker c) (bs_num false) (bs_szInt false) exact_num (exact_out None) ltac:(discriminate) Mk t v j (proj1 B) T V M R N Hj c k eq_refl) as (o & m & j' & E' & A & Sh & D & _).
  unfold bflt_export, bflt_printer in E. rewrite E in E'. injection E' as <- <-. cbn [written] in A. subst j'. specialize (D L). rewrite <- Hm in *.
  assert (Hr : bson_reads_as (pc_marker cfg) t v j).
  { refine (proj1 (sense_refine _ exact_num bson_element exact_element _ _ _ _ _ _ t) v j _ Hj). apply each_mono with (2 := each_and _ _ t v Pt Sg). clear. intros t v [A B]. destruct t, v; auto. }
  rewrite Sh. exact (bflt_accepted cfg src t v j decimal_name out B Hr Sh D).
Qed.
Print Assumptions C74_float_round_trip_partial.
Example C74_example : forall src, bflt_imports pc_default src ty_floats (default ty_floats) out_floats val_floats [].
Proof.
  intro src. destruct floats_conditions as (W & T & V & M & R & N & Mk & Pt & Sg).
  assert (B : reads_back Weak (bs "__type") ty_floats val_floats).
  { split; [exact W|]. split; [split; [reflexivity|unfold val_floats, d_tenth, f_1_5, f_minus_inf, f_nan; unfold_consts; cbn -[fits bytes_in]; conds]|]. split; [unfold distinct_names; cbn; conds|].
    split; [unfold no_null_target; cbn; conds|]. split; [intro Q; now destruct Q|discriminate]. }
  refine (proj2 (C74_float_round_trip_partial pf_default ToStream pc_default src ty_floats val_floats out_floats 0 eq_refl B T V M R N Mk Pt Sg (proj1 C73_example ToStream) _) _); [vm_compute; reflexivity|discriminate].
Qed.
(** A signalling NaN comes back quiet. *)
Theorem C74_signalling_refuted : exists v out v', valid TFloat (VInt v) /\ pattern Flt v /\ signalling Flt v /\ bflt_export pf_default ToStream false None TFloat (VInt v) = BExported out 0 /\ v' <> v /\ quiet_nan Flt v' /\
  forall src, bflt_imports pc_default src TFloat (default TFloat) out (VInt v') [].
Proof.
  exists 2139095041. eexists. exists 2143289345. split; [split; [reflexivity|cbn -[fits]; conds]|]. split; [split; [discriminate|reflexivity]|]. split; [split; [reflexivity|split; reflexivity]|]. split; [vm_compute; reflexivity|].
  split; [discriminate|]. split; [split; [reflexivity|discriminate]|]. intros []; fuels 30%nat; (eexists; split; [vm_compute; reflexivity|split; reflexivity]).
Qed.
Print Assumptions C74_signalling_refuted.

(** ** C75.  Full claim: integers and doubles in a document are read as the nearest float or double, and nothing else is.  Proved: of
    documents in which the elements are those of a value that is read back, and of single elements. *)
Theorem C75_float_document_partial : forall cfg src t v j Name out, reads_back (pc_strict cfg) (pc_marker cfg) t v -> bson_reads_as (pc_marker cfg) t v j ->
  bson_root t = shape j -> bson_document Name j out ->
  (pc_noTrailing cfg = false -> forall tl, bflt_imports cfg src t (default t) (out ++ tl) v tl) /\ (shape j <> BValue -> bflt_imports cfg src t (default t) out v []).
Proof. exact bflt_accepted. Qed.
Print Assumptions C75_float_document_partial.
Theorem C75_float_element : forall cfg src i f a b old out tl, pc_noTrailing cfg = false -> flt_of i = Some f -> float_element f a b ->
  bson_document any_name (Scal a) out -> bflt_imports cfg src (TInt i) old (out ++ tl) (VInt b) tl.
Proof.
  intros cfg src i f a b old out tl Nt Ef H D. apply (bflt_observe_imports cfg src (Scal a) out tl (TInt i) old D eq_refl); [|exact Nt]. unfold meaning_with. cbn [interp i_parse in_value].
  assert (F : fits i b).
  { assert (P : pattern f b).
    { destruct a as [w|w|b0|s| |type data]; try contradiction H; [apply H|apply H|]. destruct type as [|[]|]; try contradiction H. destruct H as (d & -> & P & H). destruct f; [apply H|now subst]. }
    unfold pattern in P. destruct i; try discriminate Ef; injection Ef as <-; unfold fits, i_in; cbn in *; lia. }
  assert (E : bson_element i b a) by (unfold bson_element; now rewrite Ef). destruct (element_read i b a F E) as [R _]. rewrite R. reflexivity.
Qed.
Print Assumptions C75_float_element.
(** Every integer and every double has exactly one nearest value. *)
Definition byte_list (b : bytes) : Prop := Forall (fun c => 0 <= c < 256) b.
Theorem C75_total : forall f a type data, bson_scalar a type data -> byte_list data -> type = 1 \/ type = 16 \/ type = 18 ->
  exists b, float_element f a b /\ forall b', float_element f a b' -> b' = b.
Proof.
  intros f a type data H Hb Ty. destruct H; try lia.
  - exists (of_int f z). split; [split; [lia|apply of_int_nearest; lia]|]. intros b' (_ & N & S). apply of_int_unique; auto. lia.
  - exists (of_int f z). split; [split; [lia|apply of_int_nearest; lia]|]. intros b' (_ & N & S). apply of_int_unique; auto.
  - assert (E : d = little 8 (Binary.le_value d)) by (rewrite <- H; symmetry; now apply little_le_value).
    assert (P : pattern Dbl (Binary.le_value d)) by (assert (R := le_value_range d Hb); rewrite H in R; exact R). exists (as_float f (Binary.le_value d)). split.
    + exists (Binary.le_value d). split; [exact E|]. split; [exact P|]. destruct f; [now apply narrow_narrowed|reflexivity].
    + intros b' (d' & E' & P' & H'). assert (d' = Binary.le_value d) as -> by (rewrite E'; symmetry; now apply le_pattern). destruct f; [now apply narrowed_unique|exact H'].
Qed.
Print Assumptions C75_total.
Theorem C75_other_element : forall cfg src i f a type data old out tl, flt_of i = Some f -> bson_scalar a type data -> type <> 1 -> type <> 16 -> type <> 18 ->
  bson_document any_name (Scal a) out -> bflt_rejects cfg src (TInt i) old (out ++ tl).
Proof.
  intros cfg src i f a type data old out tl Ef H T1 T16 T18 D. apply (bflt_observe_throw cfg src (Scal a) out tl (TInt i) old D eq_refl). unfold meaning_with. cbn [interp i_parse in_value].
  assert (E : sc_int bflt_sc i a = Throw); [|now rewrite E]. cbn [sc_int bflt_sc]. rewrite Ef. destruct H; try lia; reflexivity.
Qed.
Print Assumptions C75_other_element.
(** 2 ^ 24 + 1 as a float is 2 ^ 24; 0.1 as a float; 10 ^ 300 as a float is infinite; a string is not a number. *)
Example C75_example : float_element Flt (BInt32 16777217) 1266679808 /\ float_element Flt (BOther 1 (little 8 d_tenth)) 1036831949 /\ float_element Flt (BOther 1 (little 8 9094988921128908188)) 2139095040 /\
  forall src old, bflt_imports pc_default src TFloat old (bson_doc (Scal (BInt32 16777217))) (VInt 1266679808) [] /\
  bflt_imports pc_default src TFloat old (bson_doc (Scal (BOther 1 (little 8 d_tenth)))) (VInt 1036831949) [] /\
  bflt_imports pc_default src TFloat old (bson_doc (Scal (BOther 1 (little 8 9094988921128908188)))) (VInt 2139095040) [] /\
  bflt_rejects pc_default src TDouble old (bson_doc (Scal (BStr (bs "1.5")))).
Proof.
  assert (E1 : float_element Flt (BInt32 16777217) 1266679808) by (assert (X : of_int Flt 16777217 = 1266679808) by (vm_compute; reflexivity); rewrite <- X; split; [lia|apply of_int_nearest; lia]).
  assert (E2 : forall d b, pattern Dbl d -> narrow d = b -> float_element Flt (BOther 1 (little 8 d)) b) by (intros d b P <-; exists d; split; [reflexivity|]; split; [exact P|now apply narrow_narrowed]).
  assert (Pt : pattern Dbl d_tenth /\ pattern Dbl 9094988921128908188) by (split; split; (discriminate || reflexivity)).
  assert (E3 := E2 d_tenth 1036831949 (proj1 Pt) ltac:(vm_compute; reflexivity)). assert (E4 := E2 9094988921128908188 2139095040 (proj2 Pt) ltac:(vm_compute; reflexivity)). clear E2.
  split; [exact E1|]. split; [exact E3|]. split; [exact E4|]. intros src old.
  assert (Dc : forall a, bson_fine (Arr [Scal a]) = true -> bson_document any_name (Scal a) (bson_doc (Scal a))) by (intros a H; apply (document_any decimal_name); now apply doc_document).
  assert (I : forall a b, bson_fine (Arr [Scal a]) = true -> float_element Flt a b -> bflt_imports pc_default src TFloat old (bson_doc (Scal a)) (VInt b) []).
  { intros a b Fa E. assert (Q := C75_float_element pc_default src ILLong Flt a b old _ [] eq_refl eq_refl E (Dc a Fa)). now rewrite app_nil_r in Q. }
  split; [apply I; [reflexivity|exact E1]|]. split; [apply I; [reflexivity|exact E3]|]. split; [apply I; [reflexivity|exact E4]|].
  assert (Q := C75_other_element pc_default src IULLong Dbl (BStr (bs "1.5")) 2 _ old _ [] eq_refl (bc_str _) ltac:(discriminate) ltac:(discriminate) ltac:(discriminate) (Dc (BStr (bs "1.5")) eq_refl)).
  now rewrite app_nil_r in Q.
Qed.
(** Not every integer is kept: 2 ^ 53 + 1 as a double is 2 ^ 53. *)
Theorem C75_exact_refuted : exists a z b x, bson_integer a z /\ fits ILong z /\ float_element Dbl a b /\ float_value Dbl b = Some x /\ ~ (x == inject_Z z)%Q.
Proof.
  exists (BInt64 9007199254740993), 9007199254740993, 4845873199050653696. eexists. split; [right; split; [reflexivity|lia]|]. split; [vm_compute; repeat split; discriminate|].
  split; [assert (X : of_int Dbl 9007199254740993 = 4845873199050653696) by (vm_compute; reflexivity); rewrite <- X; split; [lia|apply of_int_nearest; lia]|]. split; [vm_compute; reflexivity|]. vm_compute. discriminate.
Qed.
Print Assumptions C75_exact_refuted.
