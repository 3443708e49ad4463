(** C91: classes with stream operators (ThorsAnvil_MakeTraitCustom) in BSON.

    [custom i], [VInt z]: as in Properties/Custom.v; [size i]: the function that tells the size of the text of an object, if the class has one.
    [bcust_export custom size c k false ids t v], [bcustGetPrintSize]: exporting [v], and asking for its size; [bcust_imports], [bcust_rejects]: importing.
    [dbl_text]: std::to_string of a double.  [custom_stands], [custom_reads_as], [told_right]: Spec/BsonCustom.v. *)
From Coq Require Import ZArith String List Bool Lia ZifyBool.
From Verif Require Import Model.Base Model.Source Model.Number Model.ParserInterface Model.Types Model.Deserializer Model.Importer Model.Printer Model.JsonPrinter Model.Serializer Model.Exporter
  Model.Custom Model.BsonPrinter Model.BsonParser Model.BsonDoc Model.BsonCustom
  Spec.JsonString Spec.Json Spec.Typed Spec.Import Spec.Denotes Spec.Sizes Spec.Bson Spec.BsonDenotes Spec.Custom Spec.BsonCustom Spec.Projection
  Proofs.Tac Proofs.NumberP Proofs.LexP Proofs.TreeM Proofs.TypedP Proofs.DenotesP Proofs.BinaryP Proofs.BsonSim Proofs.BsonImportP Proofs.BsonExportP Proofs.BsonRoundP Proofs.BsonCheck Proofs.AlikeP
  Proofs.JsonCheck Proofs.BsonCustomP Properties.Imports Properties.Exports Properties.Bson Properties.Projections Properties.Custom.
Import ListNotations.
Open Scope Z_scope.

(** ** Exports.  Full claim: every value is exported as the BSON document of that value, with what operator<< writes, whatever it is, as binary data.  Proved
    under the conditions of C40, if the classes tell the right sizes. *)
Theorem C91_document_partial : forall custom size c k ids t v out n, wf t = true -> bson_type t -> bson_text t v -> marker_framed (AsValue false) t = true ->
  bson_rootable t = true -> null_written t v = false -> nul_free (pf_marker c) -> twelve ids -> told_right custom size t v ->
  bcust_export custom size c k false ids t v = BExported out n -> len out < 2 ^ 31 ->
  exists j j', custom_stands custom (pf_marker c) t v j /\ written ids j j' /\ bson_document decimal_name j' out /\
    bcustGetPrintSize custom size c ids t v = Ok (match j with Scal _ => len out - 8 | _ => len out end).
Proof.
  intros custom size c k ids t v out n W T V M R N Mk I Tr E L. destruct (exported_with _ (custom_binary custom) (binary_some custom) _ _ _ _ _ _ _ E) as (j & Hj).
  assert (Hj' := told_stands custom size (pf_marker c) t v j Tr Hj).
  destruct (export_document ids (pf_marker c) _ _ (told_binary custom size) (told_out custom size ids) I Mk t v j W T V M R N Hj' c k eq_refl) as (o & m & j' & E' & A & _ & D & S & _).
  unfold bcust_export, bcust_printer in E. rewrite E in E'. injection E' as <- <-. exists j, j'. split; [exact Hj|]. split; [exact A|]. split; [exact (D L)|].
  unfold bcustGetPrintSize, bcust_printer. rewrite S. now destruct j.
Qed.
Print Assumptions C91_document_partial.
Theorem C91_exports : forall custom size c k ids t v j, wf t = true -> bson_type t -> bson_text t v -> marker_framed (AsValue false) t = true ->
  bson_rootable t = true -> null_written t v = false -> nul_free (pf_marker c) -> twelve ids -> told_right custom size t v ->
  custom_stands custom (pf_marker c) t v j -> exists out n, bcust_export custom size c k false ids t v = BExported out n.
Proof.
  intros custom size c k ids t v j W T V M R N Mk I Tr Hj. apply (told_stands custom size) in Hj; [|exact Tr].
  destruct (export_document ids (pf_marker c) _ _ (told_binary custom size) (told_out custom size ids) I Mk t v j W T V M R N Hj c k eq_refl) as (o & m & j' & E' & _). eauto.
Qed.
Print Assumptions C91_exports.

(** ** Imports.  Full claim: a document whose elements operator>> reads is imported.  Proved: of documents in which the elements are those of a value that is read
    back; every number, string, truth value and binary element is taken, and reaches operator>> as its text. *)
Theorem C91_import_partial : forall custom dbl_text cfg src t v j Name out, reads_back (pc_strict cfg) (pc_marker cfg) t v ->
  custom_reads_as custom dbl_text (pc_marker cfg) t v j -> bson_root t = shape j -> bson_document Name j out ->
  (pc_noTrailing cfg = false -> forall tl, bcust_imports custom dbl_text cfg src t (default t) (out ++ tl) v tl) /\
  (shape j <> BValue -> bcust_imports custom dbl_text cfg src t (default t) out v []).
Proof. exact bcust_accepted. Qed.
Print Assumptions C91_import_partial.
(** An element of another type, or one that operator>> throws at, is rejected. *)
Theorem C91_other_element : forall custom dbl_text cfg src i o a type data old out tl, custom i = Some o -> bson_scalar a type data ->
  (forall t, element_text dbl_text a t -> o_get o t = None) -> (a = BNull -> o_get o (bs "null") = None) -> (type = 1 -> exists b, data = little 8 b /\ 0 <= b < 2 ^ 64) ->
  bson_document any_name (Scal a) out -> bcust_rejects custom dbl_text cfg src (TInt i) old (out ++ tl).
Proof.
  intros custom dbl_text cfg src i o a type data old out tl Ec H G Gn Gd D. apply (bcust_observe_throw custom dbl_text cfg src (Scal a) out tl (TInt i) old D eq_refl). unfold meaning_with. cbn [interp i_parse in_value].
  assert (E : sc_int (bcust_sc custom dbl_text) i a = Throw); [|now rewrite E]. cbn [sc_int bcust_sc]. unfold bcust_int. rewrite Ec.
  destruct H; cbn [raw_of]; try reflexivity.
  - now rewrite (G _ (et_int32 _ _ _ (decimal_some z))).
  - now rewrite (G _ (et_int64 _ _ _ (decimal_some z))).
  - destruct b; [assert (Q := G _ (et_true _)); change [116; 114; 117; 101] with (bs "true") in Q; now rewrite Q|].
    assert (Q := G _ (et_false _)); change [102; 97; 108; 115; 101] with (bs "false") in Q; now rewrite Q.
  - now rewrite (G _ (et_str _ s)).
  - now rewrite (Gn eq_refl).
  - destruct (Gd eq_refl) as (b & -> & P). rewrite BsonFloatDocP.le_pattern by exact P. now rewrite (G _ (et_double _ b P)).
  - change (skipn 5 (little 4 (len d) ++ sub :: d)) with d. now rewrite (G _ (et_binary _ sub d)).
Qed.
Print Assumptions C91_other_element.

(** Data of a negative length is refused, whatever else there is; for strings -1 is undefined. *)
Theorem C91_negative_length : forall custom dbl_text cfg src i o old total type name z sub rest, custom i = Some o -> - 2 ^ 31 <= total < 2 ^ 31 -> nul_free name -> - 2 ^ 31 <= z ->
  type = 5 /\ z < 0 \/ type = 2 /\ z < -1 ->
  bcust_rejects custom dbl_text cfg src (TInt i) old (little 4 total ++ type :: name ++ 0 :: little 4 z ++ sub :: rest).
Proof.
  intros custom dbl_text cfg src i o old total type name z sub rest Ec Ht Nn Hz Hty. exists 0%nat. intros fuel _. unfold extract_with.
  assert (E : try_with (bcust_ops custom dbl_text) fuel cfg (TInt i) old (src_init src (little 4 total ++ type :: name ++ 0 :: little 4 z ++ sub :: rest)) = Throw); [|rewrite E; destruct (pc_catch cfg); exact Logic.I].
  unfold try_with. match goal with |- bind ?m _ = _ => assert (G : exists b s1, m = Ok (TokDocStart, mkPst b TokError TokError) /\ at_src src s1 (type :: name ++ 0 :: little 4 z ++ sub :: rest) /\
    exists l sz st, b = mkB s1 (BValue :: st) (l :: []) sz TokKey [] 0 false) end.
  { unfold getToken, pst_init, lift. cbn [ps_pb1 ps_pb2 token_eqb negb ps_impl bcust_ops bson_ops op_next bson_root]. unfold bson_next. set (again := next_with (fun _ => Hang)). unfold next_with, b_init.
    cbn [b_skip bind b_next b_stack bset_next bset_stack b_src b_left b_size b_key b_type]. unfold startContainer.
    match goal with |- context [b_readLE 4 ?b] => destruct (readLE_at src b 4 total _ (at_init src _)) as (s1 & -> & A1); [discriminate|cbn; lia|] end.
    eexists. exists s1. split; [reflexivity|]. split; [exact A1|]. do 3 eexists. reflexivity. }
  destruct G as (b & s1 & -> & A1 & l & sz & st & ->). cbn [bind deser d_parse].
  match goal with |- bind ?m _ = _ => assert (G : m = Throw); [|now rewrite G] end.
  destruct (b_read1 src (mkB s1 (BValue :: st) [l] sz TokKey [] 0 false) type _ A1) as (s2 & E2 & A2). destruct (readTo_zero src s2 name _ [] A2 Nn) as (s3 & E3 & A3).
  assert (Q : bson_next (mkB s1 (BValue :: st) [l] sz TokKey [] 0 false) = Ok (TokValue, mkB s3 (BValue :: st) [u64 (l - (1 + Z.of_nat (List.length name) + 1))] sz TokValue name type true)).
  { assert (R : readKey (mkB s1 (BValue :: st) [l] sz TokKey [] 0 false) = Ok (mkB s3 (BValue :: st) [u64 (l - (1 + Z.of_nat (List.length name) + 1))] sz TokKey name type false)).
    { unfold readKey. rewrite E2. cbn [bind bset_src b_src b_key b_type]. rewrite (at_ok _ _ _ A2), E3. cbn [bind]. rewrite (at_ok _ _ _ A3). reflexivity. }
    unfold bson_next, next_with at 1. cbn [b_skip bind b_next]. rewrite R. cbn [bind b_stack b_type].
    assert (T3 : type =? 3 = false) by lia. assert (T4 : type =? 4 = false) by lia. rewrite T3, T4. reflexivity. }
  unfold read_value, getToken, lift. cbn [ps_pb1 ps_pb2 token_eqb negb ps_impl bcust_ops bson_ops op_next op_int]. rewrite Q. cbn [bind ps_impl]. rewrite Ec. unfold bcust_get, bson_raw. cbn [b_type].
  destruct Hty as [[-> Hn]|[-> Hn]]; cbv iota; unfold raw_binary, raw_string; (match goal with |- context [b_readLE 4 ?b] => destruct (readLE_at src b 4 z _ A3) as (s4 & -> & A4); [discriminate|cbn; lia|] end); cbn [bind bset_src b_use b_left bset_sizes b_size b_stack b_type b_src b_next b_key b_skip].
  - match goal with |- context [b_read 1 ?b] => destruct (b_read1 src b sub _ A4) as (s5 & -> & A5) end. cbn [bind bset_src b_src b_use b_left]. rewrite (at_ok _ _ _ A5). cbn [bind].
    destruct (Z.ltb_spec z 0); [reflexivity|lia].
  - destruct (Z.eqb_spec z (-1)); [lia|]. destruct (Z.ltb_spec z 0); [reflexivity|lia].
Qed.
Print Assumptions C91_negative_length.
Example C91_negative_example : forall src, bcust_rejects (fun _ => Some (mkOperators (fun _ => []) (fun _ => Some (1, true)))) (fun _ => []) pc_default src (TInt IInt) (VInt 7) ([20; 0; 0; 0; 5; 97; 0; 255; 255; 255; 255; 128] ++ bs "abc").
Proof. intro src. refine (C91_negative_length _ _ _ src IInt _ _ 20 5 (bs "a") (-1) 128 (bs "abc") eq_refl _ _ _ _); [lia| |lia|lia]. intros [Q|[]]. discriminate Q. Qed.

(** ** Round trips.  Full claim: what was exported is imported as it was if operator>> reads what operator<< writes.  In BSON this needs nothing else of the texts. *)
Theorem C91_round_trip_partial : forall custom size dbl_text c k cfg src t v out n, pc_marker cfg = pf_marker c -> reads_back (pc_strict cfg) (pf_marker c) t v ->
  bson_type t -> bson_text t v -> marker_framed (AsValue false) t = true -> bson_rootable t = true -> null_written t v = false -> nul_free (pf_marker c) ->
  told_right custom size t v -> reread custom t v -> bcust_export custom size c k false None t v = BExported out n -> len out < 2 ^ 31 ->
  (pc_noTrailing cfg = false -> forall tl, bcust_imports custom dbl_text cfg src t (default t) (out ++ tl) v tl) /\
  (bson_root t <> BValue -> bcust_imports custom dbl_text cfg src t (default t) out v []).
Proof.
  intros custom size dbl_text c k cfg src t v out n Hm B T V M R N Mk Tr Re E L. destruct (exported_with _ (custom_binary custom) (binary_some custom) _ _ _ _ _ _ _ E) as (j & Hj).
  assert (Hj' := told_stands custom size (pf_marker c) t v j Tr Hj).
  destruct (export_document None (pf_marker c) _ _ (told_binary custom size) (told_out custom size None) ltac:(discriminate) Mk t v j (proj1 B) T V M R N Hj' c k eq_refl) as (o & m & j' & E' & A & Sh & D & _).
  unfold bcust_export, bcust_printer in E. rewrite E in E'. injection E' as <- <-. cbn [written] in A. subst j'. specialize (D L). rewrite <- Hm in *.
  rewrite Sh. exact (bcust_accepted custom dbl_text cfg src t v j decimal_name out B (binary_reads custom dbl_text _ t v j Re Hj) Sh D).
Qed.
Print Assumptions C91_round_trip_partial.

(** The panel of C90 with a name, which BSON writes as well. *)
Definition panel_classes (i : ity) : option operators := match i with IShort => Some op_switch | ILLong => Some op_level | ILong => Some op_name | _ => None end.
Definition panel_sizes (i : ity) : option (Z -> Z) :=
  match i with IShort => Some (fun z => if z =? 0 then 5 else 4) | ILLong => Some (fun z => Z.of_nat (List.length (int_dec z)) + 2) | ILong => Some (fun _ => 3) | _ => None end.
Definition ty_named : ty := TStruct (mkSinfo [bs "on"; bs "levels"; bs "name"] [] (bs "Panel") false false false) [TInt IShort; TVec (TInt ILLong); TPtr (TInt ILong)] [].
Definition val_named : val := VStruct [VInt 1; VList [VInt 12; VInt 0]; VPtr (Some (VInt 7))] [].
Definition doc_named : tree bscal :=
  Obj [(bs "on", Scal (user_binary (bs "true"))); (bs "levels", Arr [Scal (user_binary (bs "12.5")); Scal (user_binary (bs "0.5"))]); (bs "name", Scal (user_binary (bs """a""")))].
Ltac texts := repeat match goal with |- _ /\ _ => split | |- Forall _ _ => constructor | |- True => exact Logic.I end.
Lemma named_conditions : wf ty_named = true /\ bson_type ty_named /\ bson_text ty_named val_named /\ marker_framed (AsValue false) ty_named = true /\ bson_rootable ty_named = true /\
  null_written ty_named val_named = false /\ nul_free (pf_marker pf_default) /\ told_right panel_classes panel_sizes ty_named val_named /\ reread panel_classes ty_named val_named /\
  reads_back Weak (bs "__type") ty_named val_named.
Proof.
  assert (V : valid ty_named val_named) by (split; [reflexivity|unfold val_named; cbn -[fits bytes_in]; conds]).
  split; [reflexivity|]. split; [unfold bson_type, ty_named, nul_free, plain; cbn -[plain]; conds|]. split; [unfold bson_text, val_named; cbn -[plain]; conds|].
  split; [reflexivity|]. split; [reflexivity|]. split; [reflexivity|]. split; [unfold nul_free; cbn; conds|].
  split; [unfold told_right, val_named; cbn -[len]; texts; (eexists; split; [reflexivity|]; reflexivity)|].
  split; [unfold reread, val_named; cbn; texts; eexists; reflexivity|].
  split; [reflexivity|]. split; [exact V|]. split; [unfold distinct_names; cbn; conds|]. split; [unfold no_null_target; cbn; conds|]. split; [intro Q; now destruct Q|discriminate].
Qed.
Example C91_example : (forall k, bcust_export panel_classes panel_sizes pf_default k false None ty_named val_named = BExported (bson_doc doc_named) 0) /\
  bcustGetPrintSize panel_classes panel_sizes pf_default None ty_named val_named = Ok (len (bson_doc doc_named)) /\
  forall src dbl_text, bcust_imports panel_classes dbl_text pc_default src ty_named (default ty_named) (bson_doc doc_named) val_named [].
Proof.
  assert (E : forall k, bcust_export panel_classes panel_sizes pf_default k false None ty_named val_named = BExported (bson_doc doc_named) 0) by (intros []; vm_compute; reflexivity).
  split; [exact E|]. split; [vm_compute; reflexivity|]. intros src dbl_text. destruct named_conditions as (W & T & V & M & R & N & Mk & Tr & Re & B).
  refine (proj2 (C91_round_trip_partial panel_classes panel_sizes dbl_text pf_default ToStream pc_default src ty_named val_named _ 0 eq_refl B T V M R N Mk Tr Re (E ToStream) _) _); [vm_compute; reflexivity|discriminate].
Qed.
(** Documents from elsewhere: the level as a double, the switch as a truth value, the name as a string; an object id is no text. *)
Example C91_import_example : forall src,
  custom_reads_as panel_classes (fun b => if b =? 4623226492472524800 then bs "12.5" else []) (bs "__type") (TTup [TInt ILLong; TInt IShort; TInt ILong]) (VList [VInt 12; VInt 1; VInt 7])
    (Arr [Scal (BOther 1 (little 8 4623226492472524800)); Scal (BBool true); Scal (BStr (bs "a"))]) /\
  bcust_rejects panel_classes (fun _ => []) pc_default src (TInt ILong) (VInt 7) (bson_doc (Scal (BOther 7 (repeat 1 12)))).
Proof.
  intro src. split.
  - cbn [custom_reads_as sense_of d_val]. do 2 eexists. split; [reflexivity|]. split; [reflexivity|]. cbn [map rel3]. texts; (do 2 eexists; split; [reflexivity|]; split; [reflexivity|]).
    + exists (bs "12.5"), true. split; [|reflexivity]. exact (et_double (fun b => if b =? 4623226492472524800 then bs "12.5" else []) 4623226492472524800 ltac:(lia)).
    + exists (bs "true"), true. split; [constructor|reflexivity].
    + exists (bs """a"""), true. split; [exact (et_str _ (bs "a"))|reflexivity].
  - rewrite <- (app_nil_r (bson_doc _)). apply (C91_other_element panel_classes (fun _ => []) pc_default src ILong op_name (BOther 7 (repeat 1 12)) 7 (repeat 1 12)); try reflexivity; try discriminate.
    + now constructor.
    + intros t H. inversion H.
    + apply (document_any decimal_name). apply doc_document. reflexivity.
Qed.

(** ** Projections.  Full claim: as in C78, with 1 for every object of such a class.  Proved under the conditions of C78, if every class tells a size; it need not be right. *)
Lemma one_custom : forall custom size, (forall i o, custom i = Some o -> exists f, size i = Some f) -> forall ids, num_out true ids (bs_custom custom size true) (bs_szCustom custom size true) one_num.
Proof.
  intros custom size T ids i z a ->. cbn [bson_with bson_printer pr_szInt pr_int bs_size]. unfold bs_custom, bs_szCustom. destruct (custom i) as [o|] eqn:E; [|exact (one_out ids)].
  destruct (T i o E) as (f & ->). exact (one_out ids).
Qed.
Theorem C91_projection_partial : forall custom size c k ids t v, wf t = true -> bson_type t -> bson_text t v -> marker_framed (AsValue false) t = true ->
  bson_rootable t = true -> null_written t v = false -> bson_root t <> BValue -> nul_free (pf_marker c) -> twelve ids -> (forall i o, custom i = Some o -> exists f, size i = Some f) ->
  (forall out n, bcust_export custom size c k true ids t v = BExported out n -> len out < 2 ^ 31 ->
    exists j j', custom_stands custom (pf_marker c) t v j /\ written ids (ones j) j' /\ bson_document decimal_name j' out) /\
  (forall j, custom_stands custom (pf_marker c) t v j -> exists out n, bcust_export custom size c k true ids t v = BExported out n).
Proof.
  intros custom size c k ids t v W T V M R N Rt Mk I Ts.
  exact (project_any (bs_custom custom size true) (bs_szCustom custom size true) (custom_binary custom) (one_custom custom size Ts) (binary_some custom) c k ids t v W T V M R N Rt Mk I).
Qed.
Print Assumptions C91_projection_partial.
Example C91_projection_example : forall k, bcust_export panel_classes panel_sizes pf_default k true None ty_named val_named = BExported (bson_doc (ones doc_named)) 0.
Proof. intros []; vm_compute; reflexivity. Qed.

(** ** A class that tells no size cannot be exported, as a whole value or in a list. *)
Theorem C91_no_size : forall custom size i o, custom i = Some o -> size i = None -> forall c k proj ids z l,
  bcust_export custom size c k proj ids (TInt i) (VInt z) = BExportFailed (negb (pf_catch c)) /\
  bcust_export custom size c k proj ids (TVec (TInt i)) (VList (VInt z :: l)) = BExportFailed (negb (pf_catch c)).
Proof.
  intros custom size i o Ec Es c k proj ids z l.
  assert (P : forall s, pass_with (bcust_printer custom size proj ids) proj (pf_marker c) (TInt i) (VInt z) s = Throw).
  { intro s. unfold pass_with. cbn [ser sf_print mkSv bcust_printer bson_with pr_int]. unfold bs_custom, bs_szCustom. rewrite Ec, Es. reflexivity. }
  assert (Q : forall s, pass_with (bcust_printer custom size proj ids) proj (pf_marker c) (TVec (TInt i)) (VList (VInt z :: l)) s = Throw).
  { intro s. unfold pass_with. cbn [ser sf_print mkSv]. unfold array_block, sized. cbn [bcust_printer bson_with bson_printer pr_usesSize sf_size mkSv]. unfold size_elems.
    cbn [sum_sizes map sf_size ser mkSv pr_szInt bson_with bcust_printer]. unfold bs_szCustom. rewrite Ec, Es. reflexivity. }
  unfold bcust_export, export_with. cbn [null_root]. rewrite !andb_false_r. destruct k; unfold to_stream_with, to_string_with; rewrite P, Q; split; reflexivity.
Qed.
Print Assumptions C91_no_size.
(** ** With a wrong size the output is no document. *)
Theorem C91_wrong_size_refuted : forall k, exists custom size t v out, wf t = true /\ valid t v /\ reread custom t v /\ bson_type t /\ bson_text t v /\
  bcust_export custom size pf_default k false None t v = BExported out 0 /\ forall Name j, ~ bson_document Name j out.
Proof.
  intro k. exists panel_classes, (fun _ => Some (fun _ => 1)), (TVec (TInt ILong)), (VList [VInt 7]). eexists. split; [reflexivity|]. split; [split; [reflexivity|cbn -[fits]; conds]|].
  split; [unfold reread; cbn; texts; eexists; reflexivity|]. split; [cbn; conds|]. split; [unfold bson_text; cbn; conds|]. split; [destruct k; vm_compute; reflexivity|wrong_length].
Qed.
Print Assumptions C91_wrong_size_refuted.
