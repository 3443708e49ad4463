(** C38 (BSON), C58, C59, C60: what exports and BSON imports report. *)
From Coq Require Import ZArith String List Bool Lia ZifyBool.
From Verif Require Import Model.Base Model.Source Model.Number Model.ParserInterface Model.Types Model.Importer Model.Printer Model.JsonPrinter Model.Exporter Model.BsonParser Model.BsonDoc
  Spec.JsonString Spec.Json Spec.Typed Spec.Import Spec.Denotes Spec.Sizes Spec.Bson Spec.BsonDenotes
  Proofs.Tac Proofs.BsonImportP Proofs.BsonExportP Proofs.BsonNamesP Proofs.BsonRoundP Proofs.BsonCheck
  Properties.Imports Properties.Members Properties.Exports Properties.Reports Properties.Bson.
Import ListNotations.
Open Scope Z_scope.

(** ** C38 for BSON.  An exception of an import reaches the caller exactly if catchExceptions is off, and the option changes
    nothing else. *)
Theorem C38_bson_configured : forall fuel cfg t v s,
  let on := bson_extract fuel (set_catch true cfg) t v s in
  let off := bson_extract fuel (set_catch false cfg) t v s in
  (on = Failed false /\ off = Failed true) \/ (on = off /\ forall b, on <> Failed b).
Proof.
  intros fuel cfg t v s. unfold bson_extract, extract_with. change (try_with bson_ops fuel (set_catch true cfg) t v s) with (try_with bson_ops fuel cfg t v s).
  change (try_with bson_ops fuel (set_catch false cfg) t v s) with (try_with bson_ops fuel cfg t v s).
  destruct (try_with bson_ops fuel cfg t v s) as [[v' s']| | |]; [right|left|right|right]; repeat split; discriminate.
Qed.
Print Assumptions C38_bson_configured.
Example C38_bson_example : let text := [12; 0; 0; 0; 2; 120; 0; 7; 0; 0; 0; 0] in
  bson_extract 40 (set_catch true pc_default) ty_point (point 0 []) (src_init StrIn text) = Failed false /\
  bson_extract 40 (set_catch false pc_default) ty_point (point 0 []) (src_init StrIn text) = Failed true.
Proof. split; vm_compute; reflexivity. Qed.

(** ** C58.  Exports: the same, for JSON, and for BSON unless the root is a null pointer.  Full claim: for every value. *)
Definition set_catch_out (b : bool) (c : fconfig) : fconfig := mkPf (pf_type c) (pf_marker c) b (pf_tab c) (pf_block c) (pf_exact c).
Theorem C58_json_configured : forall c k t v,
  let on := json_export (set_catch_out true c) k t v in
  let off := json_export (set_catch_out false c) k t v in
  (on = ExportFailed false /\ off = ExportFailed true) \/ (on = off /\ forall b, on <> ExportFailed b).
Proof.
  intros c k t v. unfold json_export.
  assert (E : match k with ToStream => json_to_stream (set_catch_out true c) t v | ToString => json_to_string (set_catch_out true c) t v end =
              match k with ToStream => json_to_stream (set_catch_out false c) t v | ToString => json_to_string (set_catch_out false c) t v end).
  { assert (P : json_pass (set_catch_out true c) t v = json_pass (set_catch_out false c) t v) by reflexivity.
    destruct k; unfold json_to_stream, json_to_string; rewrite P; reflexivity. }
  cbv zeta. rewrite E. generalize (match k with ToStream => json_to_stream (set_catch_out false c) t v | ToString => json_to_string (set_catch_out false c) t v end).
  intros [b| | |]; [right|left|right|right]; repeat split; discriminate.
Qed.
Theorem C58_bson_configured_partial : forall c k proj ids t v, proj = true \/ null_root t v = false ->
  let on := bson_export (set_catch_out true c) k proj ids t v in
  let off := bson_export (set_catch_out false c) k proj ids t v in
  (on = BExportFailed false /\ off = BExportFailed true) \/ (on = off /\ forall b, on <> BExportFailed b).
Proof.
  intros c k proj ids t v H. unfold bson_export, export_with. assert (negb proj && null_root t v = false) as -> by (destruct H as [->| ->]; [reflexivity|apply andb_false_r]).
  change (pf_marker (set_catch_out true c)) with (pf_marker c). change (pf_marker (set_catch_out false c)) with (pf_marker c).
  change (pf_exact (set_catch_out true c)) with (pf_exact c). change (pf_exact (set_catch_out false c)) with (pf_exact c). cbv zeta.
  destruct (match k with ToStream => _ | ToString => _ end) as [[b n]| | |]; [right|left|right|right]; repeat split; discriminate.
Qed.
(** A null pointer at the root raises an exception whatever the configuration: bsonExporter refuses it before the exporter,
    which looks at catchExceptions, exists. *)
Theorem C58_null_refuted : forall c k ids t, (exists t', t = TPtr t') \/ (exists a b, t = TPoly a b) -> bson_export c k false ids t (VPtr None) = BExportFailed true.
Proof. intros c k ids t [(t' & ->)|(a & b & ->)]; reflexivity. Qed.
Print Assumptions C58_json_configured.
Print Assumptions C58_bson_configured_partial.
Print Assumptions C58_null_refuted.
Example C58_example : forall k, let t := TVec (TOpt TBool) in let v := VList [VOpt None] in
  json_export (set_catch_out true pf_default) k t v = ExportFailed false /\ json_export (set_catch_out false pf_default) k t v = ExportFailed true /\
  bson_export (set_catch_out true pf_default) k false None t v = BExportFailed false /\ bson_export (set_catch_out false pf_default) k false None t v = BExportFailed true /\
  bson_export pf_default k false None (TPtr ty_point) (VPtr None) = BExportFailed true /\
  bson_export pf_default k false None (TPoly [ty_va; ty_vb] []) (VPtr None) = BExportFailed true.
Proof. intros []; repeat split; vm_compute; reflexivity. Qed.

(** ** C59.  bsonGetPrintSize gives the number of bytes that the export writes.  Full claim: for every value.  Proved for
    values like those of C40_lengths_partial whose document is an object or an array. *)
Theorem C59_size_partial : forall c k ids t v j out n, wf t = true -> bson_type t -> bson_text t v -> marker_framed (AsValue false) t = true ->
  bson_rootable t = true -> null_written t v = false -> nul_free (pf_marker c) -> twelve ids -> bson_stands (pf_marker c) t v j ->
  bson_export c k false ids t v = BExported out n ->
  bsonGetPrintSize c ids t v = Ok (match j with Scal _ => len out - 8 | _ => len out end).
Proof.
  intros c k ids t v j out n W T V M R N Mk I Hj E.
  destruct (bson_export_document ids (pf_marker c) I Mk t v j W T V M R N Hj c k eq_refl) as (o & m & j' & E' & _ & _ & _ & Sz & _).
  rewrite E in E'. injection E' as <- <-. rewrite Sz. destruct j; reflexivity.
Qed.
(** For a single value it is eight less. *)
Theorem C59_size_refuted : exists t v out, wf t = true /\ valid t v /\ bson_export pf_default ToStream false None t v = BExported out 0 /\
  bsonGetPrintSize pf_default None t v = Ok (len out - 8).
Proof. exists (TInt IInt), (VInt 5). eexists. split; [reflexivity|]. split; [split; [reflexivity|cbn -[fits bytes_in]; conds]|]. split; vm_compute; reflexivity. Qed.
Print Assumptions C59_size_partial.
Print Assumptions C59_size_refuted.
Example C59_example : forall k, exists out n, bson_export pf_default k false (Some (fun n => repeat (Z.of_nat n) 12)) ty_bson (val_bson None) = BExported out n /\
  bsonGetPrintSize pf_default (Some (fun n => repeat (Z.of_nat n) 12)) ty_bson (val_bson None) = Ok 306 /\ len out = 306.
Proof. intros []; eexists _, _; (split; [vm_compute; reflexivity|split; vm_compute; reflexivity]). Qed.

(** ** C60.  The ids that the exporter reports in the IdStore are those in the document, in its order.  [Some f]: the ids
    generated are [f 0], [f 1], ...; [n]: how many are in the IdStore afterwards.  Full claim: for every export.  Proved for
    exports to streams of values like those of C40_lengths_partial; an export to a string writes the document twice
    (the first time to find its size), so that the IdStore holds twice as many ids, of which the second half is in the
    document. *)
Theorem C60_stream_partial : forall c f t v out n, wf t = true -> bson_type t -> bson_text t v -> marker_framed (AsValue false) t = true ->
  bson_rootable t = true -> null_written t v = false -> nul_free (pf_marker c) -> twelve (Some f) ->
  bson_export c ToStream false (Some f) t v = BExported out n -> len out < 2 ^ 31 ->
  exists j j', bson_stands (pf_marker c) t v j /\ gets_ids j j' /\ bson_document decimal_name j' out /\ object_ids j' = map f (seq 0 n).
Proof.
  intros c f t v out n W T V M R N Mk I E L. destruct (exported_doc _ _ _ _ _ _ _ _ E) as (j & Hj).
  destruct (bson_export_document (Some f) (pf_marker c) I Mk t v j W T V M R N Hj c ToStream eq_refl) as (o & m & j' & E' & A & _ & D & _ & Ids).
  rewrite E in E'. injection E' as <- <-. exists j, j'. destruct (Ids f eq_refl) as [Q1 Q2]. split; [exact Hj|]. split; [exact A|]. split; [auto|]. rewrite Q2, Q1. reflexivity.
Qed.
Theorem C60_string_refuted : forall c f t v out n, wf t = true -> bson_type t -> bson_text t v -> marker_framed (AsValue false) t = true ->
  bson_rootable t = true -> null_written t v = false -> nul_free (pf_marker c) -> twelve (Some f) ->
  bson_export c ToString false (Some f) t v = BExported out n -> len out < 2 ^ 31 ->
  exists j j' m, bson_stands (pf_marker c) t v j /\ gets_ids j j' /\ bson_document decimal_name j' out /\ n = (m + m)%nat /\ object_ids j' = map f (seq m m).
Proof.
  intros c f t v out n W T V M R N Mk I E L. destruct (exported_doc _ _ _ _ _ _ _ _ E) as (j & Hj).
  destruct (bson_export_document (Some f) (pf_marker c) I Mk t v j W T V M R N Hj c ToString eq_refl) as (o & m & j' & E' & A & _ & D & _ & Ids).
  rewrite E in E'. injection E' as <- <-. exists j, j', (List.length (object_ids j')). destruct (Ids f eq_refl) as [Q1 Q2]. auto 7.
Qed.
Print Assumptions C60_stream_partial.
Print Assumptions C60_string_refuted.
Example C60_example : exists out1 out2, bson_export pf_default ToStream false (Some (fun n => repeat (Z.of_nat n) 12)) ty_bson (val_bson None) = BExported out1 2 /\
  bson_export pf_default ToString false (Some (fun n => repeat (Z.of_nat n) 12)) ty_bson (val_bson None) = BExported out2 4 /\ out1 <> out2.
Proof. eexists _, _. split; [vm_compute; reflexivity|]. split; [vm_compute; reflexivity|]. discriminate. Qed.
