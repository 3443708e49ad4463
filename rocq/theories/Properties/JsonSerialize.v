(** C95: classes with a serializer (ThorsAnvil_MakeTraitCustomSerialize) that writes and reads a string in JSON, among them ObjectID and BsonTimeStamp.

    [custom i]: the serializer of the class that [TInt i] stands for, if it is one; [VInt z] is the object with the number [z] (Model/JsonSerialize.v).
    [jser_export custom c k t v]: the export of [v]; [jser_imports custom cfg k t v text v'], [jser_rejects]: importing [text] into [v] gives [v'], throws.
    [serial_written_for], [serial_stands_for], [texts_bytes], [texts_reread]: Spec/JsonSerialize.v. *)
From Coq Require Import ZArith String List Bool Lia ZifyBool.
From Verif Require Import Model.Base Model.Source Model.Number Model.ParserInterface Model.JsonParser Model.Printer Model.JsonPrinter
  Model.Types Model.Serializer Model.Importer Model.Exporter Model.Mongo Model.JsonSerialize
  Spec.JsonString Spec.Json Spec.Typed Spec.Import Spec.Denotes Spec.Mongo Spec.JsonSerialize
  Proofs.NumberP Proofs.LexP Proofs.TreeM Proofs.TypedP Proofs.DenotesP Proofs.JsonCheck Proofs.DocP Proofs.ExportP Proofs.JsonSim Proofs.JsonPartP Proofs.FloatExportP Proofs.JsonSerializeP
  Properties.Imports Properties.Exports Properties.Mongo Properties.BsonSerialize.
Import ListNotations.
Open Scope Z_scope.

(** ** Exports: one JSON value, with a string for every object, that has the text of the serializer; or a reported failure. *)
Theorem C95_grammar : forall custom c k t v, wf t = true -> valid t v -> texts_bytes custom t v -> legal_keys t v -> legal_names t -> legal_string (pf_marker c) -> indent_ok c v ->
  (exists j out, jser_export custom c k t v = Exported out /\ document j out) \/ jser_export custom c k t v = ExportFailed (negb (pf_catch c)).
Proof.
  intros custom c k t v W V P K N M R. destruct (jser_export_text custom c k t v W V P K N M R) as [(j & out & _ & E & D)|[_ E]]; [left; eauto|right; exact E].
Qed.
Print Assumptions C95_grammar.
Theorem C95_document : forall custom c k t v, wf t = true -> valid t v -> texts_bytes custom t v -> plain_keys t v -> plain_names t -> plain_name (pf_marker c) -> indent_ok c v ->
  forall out, jser_export custom c k t v = Exported out -> exists j, document j out /\ serial_written_for custom (pf_marker c) t v j.
Proof.
  intros custom c k t v W V P K N M R out E.
  destruct (jser_export_text custom c k t v W V P (plain_keys_legal _ _ K) (plain_names_legal _ N) (plain_legal _ (proj1 M)) R) as [(j & out' & Dj & E' & D)|[_ E']]; [|congruence].
  rewrite E in E'. injection E' as <-. exists j. split; [exact D|]. now apply jser_doc_written.
Qed.
Print Assumptions C95_document.

(** ** Imports: every spelling of a document whose strings the serializers read; for values that are read back (C01). *)
Theorem C95_import : forall custom cfg k t v j text, pc_conv cfg = true -> reads_back (pc_strict cfg) (pc_marker cfg) t v ->
  serial_stands_for custom (pc_marker cfg) t v j -> document j text -> jser_imports custom cfg k t (default t) text v.
Proof. exact jser_accepted. Qed.
Print Assumptions C95_import.
(** Full claim: a document with a scalar that is no string, or a text that the serializer refuses, where an object belongs is rejected.  Proved: where the object is the whole
    document or the first element of a list. *)
Theorem C95_rejected_partial : forall custom cfg k i o a old olds l text, pc_conv cfg = true -> custom i = Some o ->
  (forall s, json_str s a -> w_get o s = Throw) -> (forall raw, a = SStr raw -> exists s, json_str s a) ->
  (document (Scal a) text -> jser_rejects custom cfg k (TInt i) old text) /\
  (document (Arr (Scal a :: l)) text -> jser_rejects custom cfg k (TVec (TInt i)) (VList olds) text).
Proof.
  intros custom cfg k i o a old olds l text C Ec Rf St.
  assert (E : sc_int (jser_sc custom k true) i a = Throw).
  { cbn [sc_int jser_sc]. unfold jser_int. rewrite Ec. destruct a as [x|raw| | |]; try reflexivity. destruct (St raw eq_refl) as (s & H). destruct H as (raw' & Q & H). injection Q as <-.
    assert (Z := names_key k true raw s H). cbn [json_sc sc_key] in Z. cbn [json_sc sc_str]. rewrite Z. cbn [bind]. apply Rf. exists raw. auto. }
  split; intro D; apply (jser_doc_rejects custom cfg k _ _ _ text D); unfold jser_meaning; rewrite C.
  - cbn [interp i_parse in_value]. now rewrite E.
  - cbn [interp i_parse in_array in_elems in_elem_vec in_value]. rewrite E. reflexivity.
Qed.
Print Assumptions C95_rejected_partial.

(** ** Round trips: what was exported is imported as it was if the serializer reads what it writes. *)
Theorem C95_round_trip : forall custom c k cfg src t v w, pc_marker cfg = pf_marker c -> pc_conv cfg = true -> plain_keys t v -> plain_names t -> plain_name (pf_marker c) -> indent_ok c v ->
  reads_back (pc_strict cfg) (pf_marker c) t v -> texts_bytes custom t v -> texts_reread custom t v -> ws w ->
  (exists out, jser_export custom c k t v = Exported out /\ jser_imports custom cfg src t (default t) (out ++ w) v) \/
  jser_export custom c k t v = ExportFailed (negb (pf_catch c)).
Proof.
  intros custom c k cfg src t v w Em Ec K N M R Rb P Re Hw. assert (Rb' := Rb). destruct Rb' as (W & V & _).
  destruct (jser_export_text custom c k t v W V P (plain_keys_legal _ _ K) (plain_names_legal _ N) (plain_legal _ (proj1 M)) R) as [(j & out & Dj & E & D)|[_ E]]; [left|right; exact E].
  exists out. split; [exact E|]. apply (jser_accepted custom cfg src t v j); [exact Ec|rewrite Em; exact Rb| |].
  - rewrite Em. apply written_stands; [exact Re|]. now apply jser_doc_written.
  - destruct D as [j w1 t1 w2 H1 H2 H3]. rewrite <- !app_assoc. constructor; [exact H1|exact H2|]. now apply Forall_app.
Qed.
Print Assumptions C95_round_trip.

(** ** ObjectID and BsonTimeStamp; UTCDateTime is an integer in JSON (MongoUtility.h:365-370, 388-393).  Numbers of the objects: Properties/BsonSerialize.v. *)
(** operator<< and operator>> of the two classes with a JsonPrinter, JsonParser (MongoUtility.h:294-302, 324-333, 409-416, 438-447): the text is the one of a std::stringstream, whose
    state is not looked at. *)
Definition mongo_json (ids : Z -> oid) (num : oid -> Z) (i : ity) : option text_serializer :=
  match i with
  | IULong => Some (mkText (fun z => stamp_put (stamp_of z)) (fun s => Ok (stamp_number (fst (stamp_get (mkStamp 0 0) (Some s))))))
  | IULLong => Some (mkText (fun z => oid_put (ids z)) (fun s => do (o, _) <- oid_get (oid_make 0 0 0) s; Ok (num o)))
  | _ => None
  end.
Lemma hex_bytes : forall ds acc z, hex_number acc ds = Some z -> bytes_in ds.
Proof.
  induction ds as [|c ds IH]; intros acc z H; [constructor|]. cbn [hex_number] in H. destruct (hex_digit c) as [x|] eqn:E; [|discriminate H]. constructor; [|exact (IH _ _ H)].
  unfold hex_digit in E. destruct (_ && _) eqn:A; [lia|]. destruct (_ && _) eqn:B in E; [lia|]. destruct (_ && _) eqn:D in E; [lia|discriminate E].
Qed.
Lemma mongo_texts : forall ids num t v, numbered ids num -> valid t v -> texts_bytes (mongo_json ids num) t v /\ texts_reread (mongo_json ids num) t v.
Proof.
  intros ids num t v H [_ V].
  assert (G : forall i z o, mongo_json ids num i = Some o -> fits i z -> bytes_in (w_put o z) /\ w_get o (w_put o z) = Ok z).
  { intros i z o E F. destruct i; try discriminate E; injection E as <-; cbn [w_put w_get].
    - destruct (stamp_data z F) as (Sf & _ & Sn). destruct (C55_text _ Sf) as ((t' & i' & Et & _ & Ht & Hi) & Rd). split.
      + rewrite Et. unfold bytes_in. rewrite !Forall_app. repeat match goal with |- _ /\ _ => split end; try (repeat constructor; lia); eapply hex_bytes; eassumption.
      + specialize (Rd (mkStamp 0 0) []). rewrite app_nil_r in Rd. unfold bytes in *. exact (eq_trans (f_equal (fun x => Ok (stamp_number (fst x))) Rd) (f_equal Ok Sn)).
    - destruct (H z F) as [Hf Hn]. destruct (C46_text _ Hf) as (_ & _ & Hx & Rd). split; [exact (hex_bytes _ _ _ Hx)|].
      destruct (Rd (oid_make 0 0 0) []) as (o' & E & Q). rewrite app_nil_r in E. rewrite E. cbn [bind]. now rewrite (Hn o' Q). }
  split; refine (each_mono _ _ _ t v V); clear t v V; intros t v V; destruct t, v; auto; cbn [valid_here] in V; destruct (mongo_json ids num i) as [o|] eqn:E; auto; apply (G i z o E V).
Qed.
(** Wherever they are in a value, they come back as they were. *)
Theorem C95_mongo : forall ids num c k cfg src t v w, numbered ids num -> pc_marker cfg = pf_marker c -> pc_conv cfg = true -> plain_keys t v -> plain_names t -> plain_name (pf_marker c) ->
  indent_ok c v -> reads_back (pc_strict cfg) (pf_marker c) t v -> ws w ->
  (exists out, jser_export (mongo_json ids num) c k t v = Exported out /\ jser_imports (mongo_json ids num) cfg src t (default t) (out ++ w) v) \/
  jser_export (mongo_json ids num) c k t v = ExportFailed (negb (pf_catch c)).
Proof.
  intros ids num c k cfg src t v w H Em Ec K N M R B Hw. destruct (mongo_texts ids num t v H (proj1 (proj2 B))) as [T1 T2]. now apply C95_round_trip.
Qed.
Print Assumptions C95_mongo.
(** Any spelling of 24 hexadecimal digits is read as the id with that number; what follows them is ignored. *)
Theorem C95_id : forall ids num cfg src ds z rest raw text old, pc_conv cfg = true ->
  List.length ds = 24%nat -> hex_number 0 ds = Some z -> names true raw (ds ++ rest) -> document (Scal (SStr raw)) text ->
  exists o, id_fits o /\ id_number o = z /\ jser_imports (mongo_json ids num) cfg src (TInt IULLong) old text (VInt (num o)).
Proof.
  intros ids num cfg src ds z rest raw text old C L Hz Na D. destruct (C46_any_text ds z (oid_make 0 0 0) rest L Hz) as (o & G & F & E). exists o. split; [exact F|]. split; [exact E|].
  apply (jser_doc_imports (mongo_json ids num) cfg src (TInt IULLong) old (Scal (SStr raw)) text _ D). unfold jser_meaning. rewrite C. cbn [interp i_parse in_value].
  assert (Q : sc_int (jser_sc (mongo_json ids num) src true) IULLong (SStr raw) = Ok (num o)); [|rewrite Q; reflexivity].
  cbn [sc_int jser_sc]. unfold jser_int. cbn [mongo_json]. assert (Z := names_key src true raw _ Na). cbn [json_sc sc_key] in Z. cbn [json_sc sc_str]. rewrite Z. cbn [bind w_get]. rewrite G. reflexivity.
Qed.
Print Assumptions C95_id.

(** The event of C94, with a list of ids; the quotes that operator<< of a time stamp writes are escaped. *)
Definition ty_log : ty := TStruct (mkSinfo [bs "ids"; bs "seen"; bs "stamp"] [] (bs "Log") false false false) [TVec (TInt IULLong); TInt ILong; TPtr (TInt IULong)] [].
Definition val_log : val := VStruct [VList [VInt 12345678901234567890; VInt 1]; VInt 1700000000000; VPtr (Some (VInt 7301444403200000003))] [].
Definition text_log : bytes := bs "{""ids"":[""6553f100ab54a98ceb1f0ad2"",""6553f1000000000000000001""],""seen"":1700000000000,""stamp"":""\""00000003-6553f100\""""}".
Lemma log_conditions : plain_keys ty_log val_log /\ plain_names ty_log /\ plain_name (bs "__type") /\ indent_ok pf_stream val_log /\ reads_back Exact (bs "__type") ty_log val_log.
Proof.
  assert (V : valid ty_log val_log) by (split; [reflexivity|unfold val_log; cbn -[fits bytes_in]; conds]).
  split; [unfold plain_keys; cbn; conds|]. split; [unfold plain_names; cbn -[plain]; conds|]. split; [conds|]. split; [intro Q; now destruct Q|].
  split; [reflexivity|]. split; [exact V|]. split; [unfold distinct_names; cbn; conds|]. split; [unfold no_null_target; cbn; conds|]. split; [reflexivity|].
  intros _. split; [unfold complete; cbn; conds; intros [(? & Q) _]; discriminate Q|unfold no_overrides; cbn; conds].
Qed.
Example C95_example : (forall k, jser_export (mongo_json some_ids some_num) pf_stream k ty_log val_log = Exported text_log) /\
  forall src, jser_imports (mongo_json some_ids some_num) (mkPc Exact (bs "__type") true true true) src ty_log (default ty_log) (text_log ++ []) val_log.
Proof.
  assert (E : forall k, jser_export (mongo_json some_ids some_num) pf_stream k ty_log val_log = Exported text_log) by (intros []; vm_compute; reflexivity).
  split; [exact E|]. intro src. destruct log_conditions as (K & N & M & I & B).
  destruct (C95_mongo some_ids some_num pf_stream ToStream (mkPc Exact (bs "__type") true true true) src ty_log val_log [] some_numbered eq_refl eq_refl K N M I B ltac:(constructor)) as [(out & Eo & H)|Eo];
    rewrite (E ToStream) in Eo; [|discriminate Eo]. injection Eo as <-. exact H.
Qed.
Example C95_rejected_example : forall src old, jser_rejects (mongo_json some_ids some_num) pc_default src (TInt IULLong) old (bs "17").
Proof. intros src old. refine (proj1 (C95_rejected_partial (mongo_json some_ids some_num) pc_default src IULLong _ (SNum (bs "17")) old [] [] _ eq_refl eq_refl _ _) _); [intros s (raw & Q & _); discriminate Q|discriminate|doc]. Qed.

(** ** Findings *)
(** Texts that are no object ids are accepted: of too few digits the last one is repeated (22 digits that end with 0a are read as if they ended with 0aaa), and every
    character is a digit. *)
Theorem C95_short_id_refuted : forall src,
  jser_imports (mongo_json some_ids some_num) pc_default src (TInt IULLong) (VInt 0) (bs """6553f100ab54a98ceb1f0a""") (VInt 12345678901234567850) /\
  jser_imports (mongo_json some_ids some_num) pc_default src (TInt IULLong) (VInt 0) (bs """zzzzzzzzzzzzzzzzzzzzzzzz""") (VInt 82395456862569330547).
Proof. intros []; split; fuels 60%nat; vm_compute; eexists; repeat split. Qed.
Print Assumptions C95_short_id_refuted.
(** A text of at most 18 characters leads to undefined behaviour: a char that was never set is used. *)
Lemma skip_space_length : forall s, (List.length (snd (skip_space s)) <= List.length s)%nat.
Proof. induction s as [|c s IH]; [auto|]. cbn [skip_space]. destruct (is_space c); [|auto]. destruct (skip_space s). cbn [snd List.length] in *. lia. Qed.
Lemma get_char_length : forall c s, (List.length (snd (get_char c s)) <= List.length s - 1)%nat.
Proof. intros c s. assert (H := skip_space_length s). unfold get_char. destruct (snd (skip_space s)) as [|x r]; cbn [snd List.length] in *; lia. Qed.
Lemma read_hex_length : forall n first dash c z s, match read_hex n first dash c z s with Ok (_, s') => (List.length s' <= List.length s - n)%nat | UB => True | _ => False end.
Proof.
  induction n as [|n IH]; intros first dash c z s; [cbn [read_hex]; lia|]. cbn [read_hex]. assert (H := get_char_length c s). destruct (get_char c s) as [[x|] s1]; [|exact Logic.I]. cbn [snd] in H.
  assert (H2 := get_char_length (Some x) s1). destruct (_ && dash).
  - destruct (get_char (Some x) s1) as [[y|] s2]; [|exact Logic.I]. cbn [snd] in H2. specialize (IH false dash (Some y) ((z * 16 + hex_of y) mod 2 ^ 64) s2). destruct (read_hex n _ _ _ _ _) as [[? ?]| | |]; auto. lia.
  - specialize (IH false dash (Some x) ((z * 16 + hex_of x) mod 2 ^ 64) s1). destruct (read_hex n _ _ _ _ _) as [[? ?]| | |]; auto. lia.
Qed.
Lemma short_undefined : forall d s, (List.length s <= 18)%nat -> oid_get d s = UB.
Proof.
  intros d s L. unfold oid_get. assert (H1 := read_hex_length 8 true false None 0 s). destruct (read_hex 8 _ _ _ _ s) as [[x s1]| | |]; try contradiction; [|reflexivity]. cbn [bind].
  assert (H2 := read_hex_length 10 true true None 0 s1). destruct (read_hex 10 _ _ _ _ s1) as [[y s2]| | |]; try contradiction; [|reflexivity]. cbn [bind].
  destruct s2 as [|c s2]; [reflexivity|]. cbn [List.length] in H2. lia.
Qed.
Theorem C95_short_id_undefined_refuted : forall ids num cfg src raw s text old, pc_conv cfg = true -> names true raw s -> (List.length s <= 18)%nat -> document (Scal (SStr raw)) text ->
  exists N, forall fuel, (N <= fuel)%nat -> jser_try (mongo_json ids num) fuel cfg (TInt IULLong) old (src_init src text) = UB.
Proof.
  intros ids num cfg src raw s text old C Na L D. exists (Datatypes.S (List.length text)). intros fuel Hf.
  assert (Q := jser_try_spec (mongo_json ids num) src fuel cfg (TInt IULLong) old (Scal (SStr raw)) text D ltac:(lia)).
  assert (E : jser_meaning (mongo_json ids num) cfg src (TInt IULLong) old (Scal (SStr raw)) = UB); [|now rewrite E in Q].
  unfold jser_meaning. rewrite C. cbn [interp i_parse in_value]. assert (Z := names_key src true raw s Na). cbn [json_sc sc_key] in Z.
  assert (E : sc_int (jser_sc (mongo_json ids num) src true) IULLong (SStr raw) = UB); [|now rewrite E].
  cbn [sc_int jser_sc]. unfold jser_int. cbn [mongo_json json_sc sc_str]. rewrite Z. cbn [bind w_get]. now rewrite short_undefined.
Qed.
Print Assumptions C95_short_id_undefined_refuted.
Example C95_short_id_example : forall src old, exists N, forall fuel, (N <= fuel)%nat -> jser_try (mongo_json some_ids some_num) fuel pc_default (TInt IULLong) old (src_init src (bs """12""")) = UB.
Proof. intros src old. apply (C95_short_id_undefined_refuted some_ids some_num pc_default src (bs "12") (bs "12") _ old eq_refl); [|cbn; lia|doc].
  destruct (str_stands (bs "12") ltac:(unfold bytes_in; cbn; conds)) as (raw & Q & H). injection Q as <-. exact H. Qed.
(** A text that is no time stamp is read as one, without an error. *)
Theorem C95_stamp_refuted : forall src, jser_imports (mongo_json some_ids some_num) pc_default src (TInt IULong) (VInt 5) (bs """yesterday""") (VInt 14).
Proof. intros []; fuels 40%nat; vm_compute; eexists; repeat split. Qed.
Print Assumptions C95_stamp_refuted.
