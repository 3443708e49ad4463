(** C90: classes with stream operators (ThorsAnvil_MakeTraitCustom) in JSON.

    [custom i]: the operators of the class that [TInt i] stands for, if it is one; [VInt z] is an object of it (Model/Custom.v).
    [custom_export custom c k t v]: the export of [v]; [custom_imports custom cfg k t v text v'], [custom_rejects]: importing [text] into [v]
    gives [v'], fails.  [plain_texts custom t v]: the texts that operator<< writes in [v] are numbers, true or false; [reread custom t v]: operator>>
    makes the objects of them; [custom_written_for], [custom_stands_for], [not_at_end]: Spec/Custom.v. *)
From Coq Require Import ZArith String List Bool Lia ZifyBool.
From Verif Require Import Model.Base Model.Source Model.Number Model.ParserInterface Model.JsonParser Model.Printer Model.JsonPrinter
  Model.Types Model.Serializer Model.Importer Model.Exporter Model.Custom
  Spec.JsonString Spec.Json Spec.Typed Spec.Import Spec.Denotes Spec.AnyBlock Spec.Custom
  Proofs.NumberP Proofs.LexP Proofs.TreeM Proofs.TypedP Proofs.DenotesP Proofs.JsonCheck Proofs.DocP Proofs.ExportP Proofs.JsonSim Proofs.CallsP Proofs.FloatExportP Proofs.CustomP
  Properties.Imports Properties.Exports Properties.Floats.
Import ListNotations.
Open Scope Z_scope.

(** ** Exports.  Full claim: the export of a value is one JSON value, with what operator<< writes in it as it is.  Proved: if it writes numbers, true or
    false.  Missing: strings; for them it is false ([C90_string_refuted]). *)
Theorem C90_grammar_partial : forall custom c k t v, wf t = true -> valid t v -> plain_texts custom t v -> legal_keys t v -> legal_names t -> legal_string (pf_marker c) -> indent_ok c v ->
  (exists j out, custom_export custom c k t v = Exported out /\ document j out) \/ custom_export custom c k t v = ExportFailed (negb (pf_catch c)).
Proof.
  intros custom c k t v W V P K N M R. destruct (custom_export_text custom c k t v W V P K N M R) as [(j & out & _ & E & D)|[_ E]]; [left; eauto|right; exact E].
Qed.
Print Assumptions C90_grammar_partial.
Theorem C90_document_partial : forall custom c k t v, wf t = true -> valid t v -> plain_texts custom t v -> plain_keys t v -> plain_names t -> plain_name (pf_marker c) -> indent_ok c v ->
  forall out, custom_export custom c k t v = Exported out -> exists j, document j out /\ custom_written_for custom (pf_marker c) t v j.
Proof.
  intros custom c k t v W V P K N M R out E.
  destruct (custom_export_text custom c k t v W V P (plain_keys_legal _ _ K) (plain_names_legal _ N) (plain_legal _ (proj1 M)) R) as [(j & out' & Dj & E' & D)|[_ E']]; [|congruence].
  rewrite E in E'. injection E' as <-. exists j. split; [exact D|]. now apply custom_doc_written.
Qed.
Print Assumptions C90_document_partial.

(** ** Imports.  Full claim: a document whose scalars operator>> reads is imported.  Proved: for scalars other than null, strings that C86 copies, and, from
    streams, unless a number is the whole document and ends with the stream ([C90_stream_number_refuted]). *)
Theorem C90_import_partial : forall custom cfg k t v j text, pc_conv cfg = true -> reads_back (pc_strict cfg) (pc_marker cfg) t v ->
  custom_stands_for custom k (pc_marker cfg) t v j -> document j text -> (forall t, j = Scal (SNum t) -> not_at_end k text) ->
  custom_imports custom cfg k t (default t) text v.
Proof. exact custom_accepted. Qed.
Print Assumptions C90_import_partial.

(** ** Round trips.  Full claim: what was exported is imported as it was if operator>> reads what operator<< writes. *)
Theorem C90_round_trip_partial : forall custom c k cfg src t v w, pc_marker cfg = pf_marker c -> pc_conv cfg = true -> plain_keys t v -> plain_names t -> plain_name (pf_marker c) -> indent_ok c v ->
  reads_back (pc_strict cfg) (pf_marker c) t v -> plain_texts custom t v -> reread custom t v -> ws w ->
  (exists out, custom_export custom c k t v = Exported out /\ (not_at_end src (out ++ w) -> custom_imports custom cfg src t (default t) (out ++ w) v)) \/
  custom_export custom c k t v = ExportFailed (negb (pf_catch c)).
Proof.
  intros custom c k cfg src t v w Em Ec K N M R Rb P Re Hw. assert (Rb' := Rb). destruct Rb' as (W & V & _).
  destruct (custom_export_text custom c k t v W V P (plain_keys_legal _ _ K) (plain_names_legal _ N) (plain_legal _ (proj1 M)) R) as [(j & out & Dj & E & D)|[_ E]]; [left|right; exact E].
  exists out. split; [exact E|]. intro Ne. apply (custom_accepted custom cfg src t v j); [exact Ec|rewrite Em; exact Rb|rewrite Em; now apply custom_doc_stands| |intros; exact Ne].
  destruct D as [j w1 t1 w2 H1 H2 H3]. rewrite <- !app_assoc. constructor; [exact H1|exact H2|]. now apply Forall_app.
Qed.
Print Assumptions C90_round_trip_partial.

(** A switch that is written as true or false, and a level that is written as 0.5, 1.5, 2.5, ... *)
Definition op_switch : operators :=
  mkOperators (fun z => if z =? 0 then bs "false" else bs "true")
    (fun t => if beq t (bs "true") then Some (1, true) else if beq t (bs "false") then Some (0, true) else Some (0, false)).
Definition op_level : operators :=
  mkOperators (fun z => int_dec z ++ bs ".5")
    (fun t => let '(d, r) := span_digits t in if beq r (bs ".5") then Some (dec_value d, true) else Some (0, false)).
Definition switch_level (i : ity) : option operators := match i with IShort => Some op_switch | ILLong => Some op_level | _ => None end.
Definition ty_panel : ty := TStruct (mkSinfo [bs "on"; bs "levels"; bs "n"] [] (bs "Panel") false false false) [TInt IShort; TVec (TInt ILLong); TInt IInt] [].
Definition val_panel : val := VStruct [VInt 1; VList [VInt 12; VInt 0]; VInt (-3)] [].
Example C90_example : wf ty_panel = true /\ valid ty_panel val_panel /\ plain_texts switch_level ty_panel val_panel /\ reread switch_level ty_panel val_panel /\
  plain_keys ty_panel val_panel /\ plain_names ty_panel /\ plain_name (bs "__type") /\ indent_ok pf_stream val_panel /\
  reads_back Exact (bs "__type") ty_panel val_panel /\
  (forall k, custom_export switch_level pf_stream k ty_panel val_panel = Exported (bs "{""on"":true,""levels"":[12.5,0.5],""n"":-3}")) /\
  forall k, custom_imports switch_level (mkPc Exact (bs "__type") true true true) k ty_panel (default ty_panel) (bs "{""on"":true,""levels"":[12.5,0.5],""n"":-3}") val_panel.
Proof.
  assert (V : valid ty_panel val_panel) by (split; [reflexivity|unfold val_panel; cbn -[fits bytes_in]; conds]).
  split; [reflexivity|]. split; [exact V|]. split.
  { unfold plain_texts, val_panel. cbn -[plain_text]. repeat match goal with |- _ /\ _ => split | |- Forall _ _ => constructor | |- True => exact Logic.I end.
    - right. left. reflexivity.
    - left. change (number ([] ++ bs "12" ++ bs ".5" ++ [])). repeat constructor; unfold digits, digit; try discriminate; repeat constructor; lia.
    - left. change (number ([] ++ bs "0" ++ bs ".5" ++ [])). repeat constructor; unfold digits, digit; try discriminate; repeat constructor; lia. }
  split; [unfold reread, val_panel; cbn; repeat match goal with |- _ /\ _ => split | |- Forall _ _ => constructor | |- True => exact Logic.I end; eexists; reflexivity|].
  split; [unfold plain_keys; cbn; conds|]. split; [unfold plain_names; cbn -[plain]; conds|]. split; [conds|]. split; [intro Q; now destruct Q|].
  split. { split; [reflexivity|]. split; [exact V|]. split; [unfold distinct_names; cbn; conds|]. split; [unfold no_null_target; cbn; conds|]. split; [reflexivity|].
    intros _. split; [unfold complete; cbn; conds; intros [(? & Q) _]; discriminate Q|unfold no_overrides; cbn; conds]. }
  split; [intro k; destruct k; vm_compute; reflexivity|]. intro k. destruct k; fuels 60%nat; vm_compute; eexists; repeat split.
Qed.

(** ** Strings: the quotes that operator<< writes are escaped.  The output is no JSON and is not imported. *)
Definition op_name : operators := mkOperators (fun _ => bs """a""") (fun t => if beq t (bs """a""") then Some (7, true) else Some (0, false)).
Definition name_only (i : ity) : option operators := match i with ILLong => Some op_name | _ => None end.
Theorem C90_string_refuted : forall k src, exists custom t v out, wf t = true /\ valid t v /\ reread custom t v /\
  custom_export custom pf_default k t v = Exported out /\ (forall j, ~ document j out) /\ custom_rejects custom pc_default src t (default t) out.
Proof.
  intros k src. exists name_only, (TInt ILLong), (VInt 7), (bs "\""a\"""). split; [reflexivity|]. split; [split; [reflexivity|cbn -[fits]; conds]|].
  split; [split; [exists true; reflexivity|exact Logic.I]|]. split; [destruct k; vm_compute; reflexivity|]. split.
  - intros j D. apply doc_head in D as (w2 & t & S & _); [|unfold ws_char; cbn; lia].
    inversion S as [a x H| | | |]; subst. inversion H; subst. match goal with H : number _ |- _ => destruct (number_head _ H) as (? & ? & Q & L) end. injection Q as <- _. lia.
  - destruct src; fuels 20%nat; left; vm_compute; reflexivity.
Qed.
Print Assumptions C90_string_refuted.

(** ** A text that operator>> does not take (it sets failbit) is imported without an error. *)
Theorem C90_failbit_refuted : forall src, exists custom o text z, custom ILLong = Some o /\ document (Scal (SStr (bs "b"))) text /\ o_get o text = Some (z, false) /\
  custom_imports custom pc_default src (TInt ILLong) (VInt 7) text (VInt z).
Proof.
  intro src. exists name_only, op_name, (bs """b"""), 0. split; [reflexivity|]. split; [doc|]. split; [reflexivity|].
  destruct src; fuels 20%nat; vm_compute; eexists; repeat split.
Qed.
Print Assumptions C90_failbit_refuted.

(** ** A number at the end of a stream is read, but the import fails. *)
Theorem C90_stream_number_refuted : exists custom t v out, wf t = true /\ valid t v /\ plain_texts custom t v /\ reread custom t v /\
  custom_export custom pf_stream ToStream t v = Exported out /\ custom_imports custom pc_default StrIn t (default t) out v /\ custom_rejects custom pc_default Strm t (default t) out.
Proof.
  exists switch_level, (TInt ILLong), (VInt 12), (bs "12.5"). split; [reflexivity|]. split; [split; [reflexivity|cbn -[fits]; conds]|].
  split. { split; [|exact Logic.I]. left. change (number ([] ++ bs "12" ++ bs ".5" ++ [])). repeat constructor; unfold digits, digit; try discriminate; repeat constructor; lia. }
  split; [split; [exists true; reflexivity|exact Logic.I]|]. split; [vm_compute; reflexivity|]. split; [fuels 20%nat; vm_compute; eexists; repeat split|].
  fuels 20%nat. vm_compute. right. do 2 eexists. split; reflexivity.
Qed.
Print Assumptions C90_stream_number_refuted.

(** ** A pointer to an object that operator<< writes as null comes back as a null pointer. *)
Definition op_null_text : operators := mkOperators (fun _ => bs "null") (fun t => if beq t (bs "null") then Some (7, true) else Some (0, false)).
Definition null_only (i : ity) : option operators := match i with ILLong => Some op_null_text | _ => None end.
Theorem C90_null_refuted : forall k src, exists custom t v out, wf t = true /\ valid t v /\ reread custom t v /\
  custom_export custom pf_stream k t v = Exported out /\ document (Scal SNull) out /\ custom_imports custom pc_default src t (default t) out (VPtr None) /\ v <> VPtr None.
Proof.
  intros k src. exists null_only, (TPtr (TInt ILLong)), (VPtr (Some (VInt 7))), (bs "null"). split; [reflexivity|]. split; [split; [reflexivity|cbn -[fits]; conds]|].
  split; [split; [exact Logic.I|split; [exists true; reflexivity|exact Logic.I]]|]. split; [destruct k; vm_compute; reflexivity|]. split; [doc|].
  split; [destruct src; fuels 20%nat; vm_compute; eexists; repeat split|discriminate].
Qed.
Print Assumptions C90_null_refuted.
