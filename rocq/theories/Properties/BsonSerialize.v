(** C94: classes with a serializer (ThorsAnvil_MakeTraitCustomSerialize) in BSON, among them ObjectID, UTCDateTime and BsonTimeStamp.

    [custom i]: the serializer of the class that stands behind the type [TInt i], if there is one; [VInt z]: the object with the number [z].
    [bser_export custom c k false None t v], [bserGetPrintSize]: exporting [v], and asking for its size; [bser_imports], [bser_rejects]: importing.
    [serial_stands], [serial_reads_as], [written_right], [describes], [rereads]: Spec/BsonSerialize.v. *)
From Coq Require Import ZArith String List Bool Lia ZifyBool.
From Verif Require Import Model.Base Model.Source Model.Number Model.ParserInterface Model.Types Model.Importer Model.Printer Model.JsonPrinter Model.Serializer Model.Exporter
  Model.Binary Model.BsonPrinter Model.BsonParser Model.BsonDoc Model.Mongo Model.BsonSerialize
  Spec.JsonString Spec.Json Spec.Typed Spec.Import Spec.Denotes Spec.Sizes Spec.Bson Spec.BsonDenotes Spec.Mongo Spec.BsonSerialize
  Proofs.Tac Proofs.NumberP Proofs.LexP Proofs.TreeM Proofs.TypedP Proofs.DenotesP Proofs.BsonLengthP Proofs.BinaryP Proofs.BsonSim Proofs.BsonImportP Proofs.BsonExportP Proofs.BsonRoundP Proofs.BsonCheck Proofs.AlikeP
  Proofs.BsonSerializeP Properties.Imports Properties.Exports Properties.Bson Properties.Mongo.
Import ListNotations.
Open Scope Z_scope.

(** ** Exports.  Full claim: every value is exported as the BSON document of that value, with the elements that the serializers write.  Proved under the conditions of
    C40, without object ids that the printer makes, if the serializers write one element and tell its size. *)
Theorem C94_document_partial : forall custom element c k t v out n, wf t = true -> bson_type t -> bson_text t v -> marker_framed (AsValue false) t = true ->
  bson_rootable t = true -> null_written t v = false -> nul_free (pf_marker c) -> written_right custom element t v ->
  bser_export custom c k false None t v = BExported out n -> len out < 2 ^ 31 ->
  exists j, serial_stands custom element (pf_marker c) t v j /\ bson_document decimal_name j out /\
    bserGetPrintSize custom c None t v = Ok (match j with Scal _ => len out - 8 | _ => len out end).
Proof.
  intros custom element c k t v out n W T V M R N Mk Tr E L. destruct (exported_with _ _ (element_some custom element) _ _ _ _ _ _ _ E) as (j & Hj).
  assert (Hj' := right_stands custom element (pf_marker c) t v j Tr Hj).
  destruct (export_document None (pf_marker c) _ _ (right_element custom element) (right_out custom element) ltac:(discriminate) Mk t v j W T V M R N Hj' c k eq_refl) as (o & m & j' & E' & A & _ & D & S & _).
  unfold bser_export, bser_printer in E. rewrite E in E'. injection E' as <- <-. cbn [written] in A. subst j'. exists j. split; [exact Hj|]. split; [exact (D L)|]. unfold bserGetPrintSize, bser_printer. rewrite S. now destruct j.
Qed.
Print Assumptions C94_document_partial.
Theorem C94_exports : forall custom element c k t v j, wf t = true -> bson_type t -> bson_text t v -> marker_framed (AsValue false) t = true ->
  bson_rootable t = true -> null_written t v = false -> nul_free (pf_marker c) -> written_right custom element t v ->
  serial_stands custom element (pf_marker c) t v j -> exists out n, bser_export custom c k false None t v = BExported out n.
Proof.
  intros custom element c k t v j W T V M R N Mk Tr Hj. apply (right_stands custom element) in Hj; [|exact Tr].
  destruct (export_document None (pf_marker c) _ _ (right_element custom element) (right_out custom element) ltac:(discriminate) Mk t v j W T V M R N Hj c k eq_refl) as (o & m & j' & E' & _). eauto.
Qed.
Print Assumptions C94_exports.

(** ** Imports.  Full claim: a document whose elements the serializers read is imported, one with an element that is refused is rejected.  Proved: for values that are
    read back (C41), and rejection for a single object. *)
Theorem C94_import_partial : forall custom means cfg src t v j Name out, describes custom means -> reads_back (pc_strict cfg) (pc_marker cfg) t v ->
  serial_reads_as custom means (pc_marker cfg) t v j -> bson_root t = shape j -> bson_document Name j out ->
  (pc_noTrailing cfg = false -> forall tl, bser_imports custom cfg src t (default t) (out ++ tl) v tl) /\
  (shape j <> BValue -> bser_imports custom cfg src t (default t) out v []).
Proof. intros custom means cfg src t v j Name out D. exact (bser_accepted custom means D cfg src t v j Name out). Qed.
Print Assumptions C94_import_partial.
Theorem C94_rejected_partial : forall custom cfg src i o a old out tl, custom i = Some o -> refuses_element (z_get o) a ->
  bson_document any_name (Scal a) out -> bser_rejects custom cfg src (TInt i) old (out ++ tl).
Proof.
  intros custom cfg src i o a old out tl Ec Rf Dc. set (means := fun (i' : ity) (a' : bscal) => if ity_eq_dec i i' then if scalar_dec a a' then Some (@None Z) else None else None).
  assert (D : describes custom means).
  { intros i' o' a' Ec'. unfold means. destruct (ity_eq_dec i i') as [<-|]; [|exact Logic.I]. destruct (scalar_dec a a') as [<-|]; [|exact Logic.I]. rewrite Ec in Ec'. injection Ec' as <-. exact Rf. }
  apply (bser_observe_throw custom means D cfg src (Scal a) out tl (TInt i) old Dc eq_refl). unfold meaning_with. cbn [interp i_parse in_value].
  assert (E : sc_int (bser_sc custom means) i a = Throw); [|now rewrite E]. cbn [sc_int bser_sc]. unfold bser_int, means. rewrite Ec.
  destruct (ity_eq_dec i i); [|congruence]. destruct (scalar_dec a a); [reflexivity|congruence].
Qed.
Print Assumptions C94_rejected_partial.

(** ** Round trips.  Full claim: what was exported is imported as it was if the serializers read what they write. *)
Theorem C94_round_trip_partial : forall custom element c k cfg src t v out n, pc_marker cfg = pf_marker c -> reads_back (pc_strict cfg) (pf_marker c) t v ->
  bson_type t -> bson_text t v -> marker_framed (AsValue false) t = true -> bson_rootable t = true -> null_written t v = false -> nul_free (pf_marker c) ->
  written_right custom element t v -> rereads custom element -> bser_export custom c k false None t v = BExported out n -> len out < 2 ^ 31 ->
  (pc_noTrailing cfg = false -> forall tl, bser_imports custom cfg src t (default t) (out ++ tl) v tl) /\
  (bson_root t <> BValue -> bser_imports custom cfg src t (default t) out v []).
Proof.
  intros custom element c k cfg src t v out n Hm B T V M R N Mk Tr Re E L. destruct (exported_with _ _ (element_some custom element) _ _ _ _ _ _ _ E) as (j & Hj).
  assert (Hj' := right_stands custom element (pf_marker c) t v j Tr Hj).
  destruct (export_document None (pf_marker c) _ _ (right_element custom element) (right_out custom element) ltac:(discriminate) Mk t v j (proj1 B) T V M R N Hj' c k eq_refl) as (o & m & j' & E' & A & Sh & D & _).
  unfold bser_export, bser_printer in E. rewrite E in E'. injection E' as <- <-. cbn [written] in A. subst j'. specialize (D L). rewrite <- Hm in *.
  rewrite Sh. refine (bser_accepted custom (known custom element) (known_describes custom element Re) cfg src t v j decimal_name out B _ Sh D).
  apply (stands_read custom element); [|exact Hj]. apply (known_understood custom element Re); [exact (proj1 (proj2 B))|exact Tr].
Qed.
Print Assumptions C94_round_trip_partial.

(** ** ObjectID, UTCDateTime and BsonTimeStamp.  The objects of the types are numbered: dates by their milliseconds, time stamps by increment and time, object ids in any
    way ([ids], [num]); [long] stands for UTCDateTime, [unsigned long] for BsonTimeStamp, [unsigned long long] for ObjectID.  (A value has less than 2 ^ 64 object ids.) *)
Definition stamp_of (z : Z) : stamp := mkStamp (z / 2 ^ 32) (z mod 2 ^ 32).
Definition stamp_number (s : stamp) : Z := t_inc s * 2 ^ 32 + t_time s.
(** FixedSizeStreamableObjectSerializer (MongoUtility.h:148-166) for the three classes. *)
Definition mongo (ids : Z -> oid) (num : oid -> Z) (i : ity) : option serializer :=
  match i with
  | ILong => Some (mkSerializer 9 (fun _ => Some 8) (fun z => Some (date_bson z)) date_from)
  | IULong => Some (mkSerializer 17 (fun _ => Some 8) (fun z => Some (stamp_bson (stamp_of z))) (fun b => do (s, b) <- stamp_from b; Ok (stamp_number s, b)))
  | IULLong => Some (mkSerializer 7 (fun _ => Some 12) (fun z => Some (oid_bson (ids z))) (fun b => do (o, b) <- oid_from (oid_make 0 0 0) b; Ok (num o, b)))
  | _ => None
  end.
(** The data of a date is its number, that of an object id its number with the most significant byte first, that of a time stamp likewise. *)
Definition mongo_element (ids : Z -> oid) (i : ity) (z : Z) : bscal :=
  match i with
  | ILong => BOther 9 (little 8 z)
  | IULong => BOther 17 (rev (little 8 z))
  | IULLong => BOther 7 (rev (little 12 (id_number (ids z))))
  | _ => BNull
  end.
Lemma live_reads : forall (f : bparser -> outcome (Z * bparser)) a type data z, bson_scalar a type data ->
  (forall k text b rest, live k text (b_src b) -> skipn (s_pos (b_src b)) text = data ++ rest ->
     exists s', f b = Ok (z, bset_src b s') /\ live k text s' /\ s_pos s' = (s_pos (b_src b) + List.length data)%nat) -> reads_element f a z.
Proof.
  intros f a type data z Sc H b k before data' after (Sc' & Es & Hn). assert (Ed := scalar_data_is _ _ _ Sc). rewrite (scalar_data_is _ _ _ Sc') in Ed. injection Ed as _ ->.
  destruct (H k (before ++ data ++ after) b after) as (s' & E & (K & D & G & Ef & P) & Hp).
  - rewrite Es. unfold live. cbn. repeat split; auto. rewrite app_length. lia.
  - rewrite Es. cbn [s_pos]. now rewrite skipn_app, skipn_all, Nat.sub_diag.
  - rewrite E. do 2 f_equal. f_equal. destruct s' as [k0 d p g e]. cbn in *. subst. rewrite Es. cbn [s_pos]. now rewrite app_length.
Qed.
Lemma date_element : forall z, - 2 ^ 63 <= z < 2 ^ 63 -> reads_element date_from (BOther 9 (little 8 z)) z.
Proof.
  intros z H. apply (live_reads _ _ 9 (little 8 z)); [constructor; apply little_length|]. intros k text b rest Lv Sk. unfold date_from.
  destruct (le_live k text b 8 z rest ltac:(discriminate) H Lv Sk) as (s' & E & L' & P & _). exists s'. rewrite little_length. auto.
Qed.
Lemma stamp_data : forall z, 0 <= z < 2 ^ 64 -> stamp_fits (stamp_of z) /\ stamp_bson (stamp_of z) = rev (little 8 z) /\ stamp_number (stamp_of z) = z.
Proof.
  intros z H. assert (F : stamp_fits (stamp_of z)) by (unfold stamp_fits, stamp_of; cbn [t_inc t_time]; Z.div_mod_to_equations; lia).
  split; [exact F|]. split; [|unfold stamp_number, stamp_of; cbn [t_inc t_time]; Z.div_mod_to_equations; lia].
  rewrite (proj1 (C55_stamp _ F)). change 8%nat with (4 + 4)%nat. rewrite little_app, rev_app_distr. change (2 ^ (8 * Z.of_nat 4)) with (2 ^ 32). cbn [stamp_of t_inc t_time]. f_equal. f_equal.
  apply little_mod. change (2 ^ (8 * Z.of_nat 4)) with (2 ^ 32). rewrite Zminus_mod_idemp_l, Z.sub_diag. reflexivity.
Qed.
Lemma stamp_element : forall z, 0 <= z < 2 ^ 64 -> reads_element (fun b => do (s, b) <- stamp_from b; Ok (stamp_number s, b)) (BOther 17 (rev (little 8 z))) z.
Proof.
  intros z H. destruct (stamp_data z H) as ((Hi & Ht) & E & N). apply (live_reads _ _ 17 (rev (little 8 z))); [constructor; rewrite rev_length; apply little_length|]. rewrite <- E.
  intros k text b0 rest Lv Sk. set (s := stamp_of z) in *. destruct (wrap_int _ Hi) as [Wi Mi], (wrap_int _ Ht) as [Wt Mt].
  assert (E' : stamp_bson s = rev (little 4 (i_wrap IInt (t_inc s))) ++ rev (little 4 (i_wrap IInt (t_time s)))) by reflexivity.
  rewrite E', <- app_assoc in Sk. unfold stamp_from.
  destruct (be_live k text b0 4 4 _ _ ltac:(auto) Wi Lv Sk) as (s1 & -> & Lv1 & Hp1 & Sk1). cbn [bind].
  destruct (be_live k text (bset_src b0 s1) 4 4 _ rest ltac:(auto) Wt Lv1 Sk1) as (s2 & -> & Lv2 & Hp2 & Sk2). cbn [bind].
  exists s2. split.
  - unfold i_wrap at 1 3. cbn [i_bits i_signed andb]. rewrite Mi, Mt. rewrite <- N. now destruct s.
  - split; [exact Lv2|]. rewrite E', app_length, !rev_length, !little_length. cbn [bset_src b_src] in *. lia.
Qed.
Lemma oid_element : forall (num : oid -> Z) o z, id_fits o -> (forall o', oid_eqb o' o = true -> num o' = z) ->
  reads_element (fun b => do (o, b) <- oid_from (oid_make 0 0 0) b; Ok (num o, b)) (BOther 7 (rev (little 12 (id_number o)))) z.
Proof.
  intros num o z H Hn. apply (live_reads _ _ 7 (rev (little 12 (id_number o)))); [constructor; rewrite rev_length; apply little_length|]. rewrite <- (proj1 (C46_binary o H)).
  assert (E : oid_bson o = rev (little 4 (o_time o)) ++ rev (little 5 (o_random o)) ++ rev (little 3 (o_counter o))).
  { unfold oid_bson. rewrite (proj1 (be_cases 4 4 (o_time o) ltac:(auto))), (proj1 (be_cases 5 8 (o_random o) ltac:(auto))), (proj1 (be_cases 3 4 (o_counter o) ltac:(auto))). reflexivity. }
  destruct H as (Ht & Hr & Hc). intros k text b0 rest Lv Sk. rewrite E, <- !app_assoc in Sk. unfold oid_from.
  destruct (be_live k text b0 4 4 (o_time o) _ ltac:(auto) Ht Lv Sk) as (s1 & -> & Lv1 & Hp1 & Sk1). cbn [bind].
  destruct (be_live k text (bset_src b0 s1) 5 8 (o_random o) _ ltac:(auto) Hr Lv1 Sk1) as (s2 & -> & Lv2 & Hp2 & Sk2). cbn [bind].
  destruct (be_live k text (bset_src (bset_src b0 s1) s2) 3 4 (o_counter o) rest ltac:(auto) Hc Lv2 Sk2) as (s3 & -> & Lv3 & Hp3 & Sk3). cbn [bind].
  exists s3. split; [|split; [exact Lv3|]].
  - rewrite Hn; [reflexivity|]. unfold oid_eqb. cbn [o_time o_random o_counter]. lia.
  - rewrite E, !app_length, !rev_length, !little_length. cbn [bset_src b_src] in *. lia.
Qed.
(** The numbers of the object ids in use. *)
Definition numbered (ids : Z -> oid) (num : oid -> Z) : Prop := forall z, fits IULLong z -> id_fits (ids z) /\ forall o, oid_eqb o (ids z) = true -> num o = z.
Lemma mongo_rereads : forall ids num, numbered ids num -> rereads (mongo ids num) (mongo_element ids).
Proof.
  intros ids num H i o z Ec F. destruct i; try discriminate Ec; injection Ec as <-; cbn [mongo_element z_get]; (split; [discriminate|]).
  - apply date_element. exact F.
  - apply stamp_element. exact F.
  - destruct (H z F) as [I N]. now apply oid_element.
Qed.
Lemma mongo_written : forall ids num t v, numbered ids num -> valid t v -> written_right (mongo ids num) (mongo_element ids) t v.
Proof.
  intros ids num t v H [_ V]. refine (each_mono _ _ _ _ _ V). intros t0 v0 F. destruct t0; auto. destruct v0; auto. cbn [valid_here] in F. destruct i; try exact Logic.I; cbn [mongo mongo_element]; unfold writes_element; cbn [z_put z_size z_mark].
  - exists (date_bson z). assert (E : date_bson z = little 8 z) by apply writeLE_little. rewrite E. split; [reflexivity|]. split; [now rewrite len_little|]. constructor. apply little_length.
  - exists (stamp_bson (stamp_of z)). rewrite (proj1 (proj2 (stamp_data z F))). split; [reflexivity|]. assert (L : List.length (rev (little 8 z)) = 8%nat) by (rewrite rev_length; apply little_length).
    split; [unfold len; now rewrite L|]. now constructor.
  - destruct (H z F) as [I _]. exists (oid_bson (ids z)). rewrite (proj1 (C46_binary _ I)). split; [reflexivity|]. assert (L : List.length (rev (little 12 (id_number (ids z)))) = 12%nat) by (rewrite rev_length; apply little_length).
    split; [unfold len; now rewrite L|]. now constructor.
Qed.
(** Wherever they are in a value, they are written as the elements that BSON has for them and come back as they were; time stamps are written with the wrong byte order (C55). *)
Theorem C94_mongo_partial : forall ids num c k cfg src t v out n, numbered ids num -> pc_marker cfg = pf_marker c -> reads_back (pc_strict cfg) (pf_marker c) t v ->
  bson_type t -> bson_text t v -> marker_framed (AsValue false) t = true -> bson_rootable t = true -> null_written t v = false -> nul_free (pf_marker c) ->
  bser_export (mongo ids num) c k false None t v = BExported out n -> len out < 2 ^ 31 ->
  (exists j, serial_stands (mongo ids num) (mongo_element ids) (pf_marker c) t v j /\ bson_document decimal_name j out) /\
  (pc_noTrailing cfg = false -> forall tl, bser_imports (mongo ids num) cfg src t (default t) (out ++ tl) v tl) /\
  (bson_root t <> BValue -> bser_imports (mongo ids num) cfg src t (default t) out v []).
Proof.
  intros ids num c k cfg src t v out n H Hm B T V M R N Mk E L. assert (W := mongo_written ids num t v H (proj1 (proj2 B))). split.
  - destruct (C94_document_partial (mongo ids num) (mongo_element ids) c k t v out n (proj1 B) T V M R N Mk W E L) as (j & Hj & D & _). eauto.
  - exact (C94_round_trip_partial (mongo ids num) (mongo_element ids) c k cfg src t v out n Hm B T V M R N Mk W (mongo_rereads ids num H) E L).
Qed.
Print Assumptions C94_mongo_partial.
(** An event with an id, two dates and a time stamp behind a pointer. *)
Definition some_ids (z : Z) : oid := oid_make 1700000000 (z / 2 ^ 24) (z mod 2 ^ 24).
Definition some_num (o : oid) : Z := o_random o * 2 ^ 24 + o_counter o.
Lemma some_numbered : numbered some_ids some_num.
Proof.
  intros z F. cbn in F. split.
  - unfold id_fits, oid_fits, some_ids, oid_make. cbn [o_time o_random o_counter]. Z.div_mod_to_equations. lia.
  - intros o H. unfold oid_eqb, some_ids, oid_make in H. cbn [o_time o_random o_counter] in H. unfold some_num. Z.div_mod_to_equations. lia.
Qed.
Definition ty_event : ty := TStruct (mkSinfo [bs "id"; bs "seen"; bs "stamp"; bs "n"] [] (bs "Event") false false false) [TInt IULLong; TVec (TInt ILong); TPtr (TInt IULong); TInt IInt] [].
Definition val_event : val := VStruct [VInt 12345678901234567890; VList [VInt 1700000000000; VInt (-1)]; VPtr (Some (VInt 7301444403200000003)); VInt 5] [].
Definition doc_event : tree bscal :=
  Obj [(bs "id", Scal (BOther 7 [101; 83; 241; 0; 171; 84; 169; 140; 235; 31; 10; 210]));
       (bs "seen", Arr [Scal (BOther 9 (little 8 1700000000000)); Scal (BOther 9 (repeat 255 8))]);
       (bs "stamp", Scal (BOther 17 (rev (little 8 7301444403200000003)))); (bs "n", Scal (BInt32 5))].
Lemma event_conditions : wf ty_event = true /\ bson_type ty_event /\ bson_text ty_event val_event /\ marker_framed (AsValue false) ty_event = true /\ bson_rootable ty_event = true /\
  null_written ty_event val_event = false /\ nul_free (pf_marker pf_default) /\ reads_back Weak (bs "__type") ty_event val_event.
Proof.
  assert (V : valid ty_event val_event) by (split; [reflexivity|unfold val_event; cbn -[fits bytes_in]; conds]).
  split; [reflexivity|]. split; [unfold bson_type, ty_event, nul_free, plain; cbn -[plain]; conds|]. split; [unfold bson_text, val_event; cbn -[plain]; conds|].
  split; [reflexivity|]. split; [reflexivity|]. split; [reflexivity|]. split; [unfold nul_free; cbn; conds|].
  split; [reflexivity|]. split; [exact V|]. split; [unfold distinct_names; cbn; conds|]. split; [unfold no_null_target; cbn; conds|]. split; [intro Q; now destruct Q|discriminate].
Qed.
Example C94_example : (forall k, bser_export (mongo some_ids some_num) pf_default k false None ty_event val_event = BExported (bson_doc doc_event) 0) /\
  forall src, bser_imports (mongo some_ids some_num) pc_default src ty_event (default ty_event) (bson_doc doc_event) val_event [].
Proof.
  assert (E : forall k, bser_export (mongo some_ids some_num) pf_default k false None ty_event val_event = BExported (bson_doc doc_event) 0) by (intros []; vm_compute; reflexivity).
  split; [exact E|]. intros src. destruct event_conditions as (W & T & V & M & R & N & Mk & B).
  refine (proj2 (proj2 (C94_mongo_partial some_ids some_num pf_default ToStream pc_default src ty_event val_event _ 0 some_numbered eq_refl B T V M R N Mk (E ToStream) _)) _); [vm_compute; reflexivity|discriminate].
Qed.

(** ** A class whose serializer overrides nothing cannot be exported or imported: the error is reported. *)
Theorem C94_unimplemented : forall custom i, custom i = Some unimplemented -> forall c k proj ids z l cfg src old a out tl,
  bser_export custom c k proj ids (TInt i) (VInt z) = BExportFailed (negb (pf_catch c)) /\
  bser_export custom c k proj ids (TVec (TInt i)) (VList (VInt z :: l)) = BExportFailed (negb (pf_catch c)) /\
  (bson_document any_name (Scal a) out -> bser_rejects custom cfg src (TInt i) old (out ++ tl)).
Proof.
  intros custom i Ec c k proj ids z l cfg src old a out tl.
  assert (P : forall s, pass_with (bser_printer custom proj ids) proj (pf_marker c) (TInt i) (VInt z) s = Throw).
  { intro s. unfold pass_with. cbn [ser sf_print mkSv bser_printer bson_with pr_int]. unfold bs_serial. rewrite Ec. reflexivity. }
  assert (Q : forall s, pass_with (bser_printer custom proj ids) proj (pf_marker c) (TVec (TInt i)) (VList (VInt z :: l)) s = Throw).
  { intro s. unfold pass_with. cbn [ser sf_print mkSv]. unfold array_block, sized. cbn [bser_printer bson_with bson_printer pr_usesSize sf_size mkSv]. unfold size_elems.
    cbn [sum_sizes map sf_size ser mkSv pr_szInt bson_with bser_printer]. unfold bs_szSerial. rewrite Ec. reflexivity. }
  split; [|split].
  - unfold bser_export, export_with. cbn [null_root]. rewrite !andb_false_r. destruct k; unfold to_stream_with, to_string_with; rewrite P; reflexivity.
  - unfold bser_export, export_with. cbn [null_root]. rewrite !andb_false_r. destruct k; unfold to_stream_with, to_string_with; rewrite Q; reflexivity.
  - apply (C94_rejected_partial custom cfg src i unimplemented a old out tl Ec). intros b k0 before data after _. reflexivity.
Qed.
Print Assumptions C94_unimplemented.

(** ** Findings *)
(** The readers do not look at the type of the element: an int64 is read as a date, and so is the string abc (its length, its
    characters and the null byte make eight bytes). *)
Theorem C94_type_refuted : forall src, bser_imports (mongo some_ids some_num) pc_default src (TVec (TInt ILong)) (VList []) (bson_doc (Arr [Scal (BInt64 77)])) (VList [VInt 77]) [] /\
  bser_imports (mongo some_ids some_num) pc_default src (TVec (TInt ILong)) (VList []) (bson_doc (Arr [Scal (BStr (bs "abc"))])) (VList [VInt 27974191445704708]) [].
Proof. intros []; split; exists 20%nat; intros fuel H; do 20 (destruct fuel as [|fuel]; [exfalso; lia|]); vm_compute; eexists; split; try split; reflexivity. Qed.
Print Assumptions C94_type_refuted.
(** A projection has the whole object, not the number 1. *)
Theorem C94_projection_refuted : forall k, bser_export (mongo some_ids some_num) pf_default k true None ty_event val_event =
  BExported (bson_doc (Obj [(bs "id", Scal (BOther 7 [101; 83; 241; 0; 171; 84; 169; 140; 235; 31; 10; 210]));
       (bs "seen", Arr [Scal (BOther 9 (little 8 1700000000000)); Scal (BOther 9 (repeat 255 8))]);
       (bs "stamp", Scal (BOther 17 (rev (little 8 7301444403200000003)))); (bs "n", Scal (BInt32 1))])) 0.
Proof. intros []; vm_compute; reflexivity. Qed.
Print Assumptions C94_projection_refuted.
