(** C82 and C83: classes with a filter, and ranges.

    [let_through l names types values names' types' values']: the members that the filter [l] does not forbid (Spec/Filter.v);
    [filtered_json c k l i ms ps v], [filtered_bson c ids l i ms ps v]: exporting the object [v] of the class with members [ms] and
    parents [ps] whose filter holds [l] (Model/Filter.v);
    [range_json c k t l], [range_bson c k ids t l]: exporting a range of the elements [l] of type [t] (Model/Range.v). *)
From Coq Require Import ZArith String List Bool Lia ZifyBool.
From Verif Require Import Model.Base Model.Source Model.Number Model.ParserInterface
  Model.Types Model.Importer Model.Printer Model.JsonPrinter Model.Serializer Model.Exporter Model.BsonPrinter Model.BsonDoc Model.Filter Model.Range
  Spec.JsonString Spec.Json Spec.Typed Spec.Import Spec.Denotes Spec.Sizes Spec.Bson Spec.BsonDenotes Spec.Filter
  Proofs.Tac Proofs.TypedP Proofs.ExportP Proofs.BinaryP Proofs.BsonSim Proofs.BsonImportP Proofs.BsonExportP Proofs.BsonCheck Proofs.JsonCheck Proofs.FilterP Proofs.RangeP
  Properties.Imports Properties.Exports Properties.Bson.
Import ListNotations.
Open Scope Z_scope.

(** ** C82.  Full claim: an object is written as the document of the members that its filter does not forbid.  Proved under the
    conditions of C20 and C40 when no member that is let through is an empty optional. *)
Theorem C82_json_partial : forall c k l i ms ps own par names ms' own', let_through l (si_names i) ms own names ms' own' -> si_pair i = false ->
  Forall (fun v => v <> VOpt None) own' ->
  let t := TStruct (with_names i names) ms' ps in let v := VStruct own' par in
  wf t = true -> valid t v -> plain_keys t v -> plain_names t -> plain_name (pf_marker c) -> indent_ok c v ->
  forall out, filtered_json c k l i ms ps (VStruct own par) = Exported out -> exists j, document j out /\ stands_for (pf_marker c) t v j.
Proof.
  intros c k l i ms ps own par names ms' own' H Hp F t v W V K N M R out E. rewrite (filtered_json_export c k l i ms ps own par names ms' own' H F Hp) in E.
  exact (C20_document_partial c k t v W V K N M R out E).
Qed.
Print Assumptions C82_json_partial.
Theorem C82_bson_partial : forall c ids l i ms ps own par names ms' own', let_through l (si_names i) ms own names ms' own' -> si_pair i = false ->
  Forall (fun v => v <> VOpt None) own' ->
  let t := TStruct (with_names i names) ms' ps in let v := VStruct own' par in
  wf t = true -> bson_type t -> bson_text t v -> marker_framed (AsValue false) t = true -> nul_free (pf_marker c) -> twelve ids ->
  forall out n, filtered_bson c ids l i ms ps (VStruct own par) = BExported out n -> len out < 2 ^ 31 ->
  exists j j', bson_stands (pf_marker c) t v j /\ written ids j j' /\ bson_document decimal_name j' out.
Proof.
  intros c ids l i ms ps own par names ms' own' H Hp F t v W T V M Mk I out n E L. rewrite (filtered_bson_export c ids l i ms ps own par names ms' own' H F Hp) in E.
  exact (C40_lengths_partial c ToStream ids t v out n W T V M eq_refl eq_refl Mk I E L).
Qed.
Print Assumptions C82_bson_partial.
(** A filtered export fails only if the export of the class without those members does. *)
Theorem C82_same_result : forall c k l i ms ps own par names ms' own', let_through l (si_names i) ms own names ms' own' -> si_pair i = false ->
  Forall (fun v => v <> VOpt None) own' ->
  filtered_json c k l i ms ps (VStruct own par) = json_export c k (TStruct (with_names i names) ms' ps) (VStruct own' par) /\
  forall ids, filtered_bson c ids l i ms ps (VStruct own par) = bson_export c ToStream false ids (TStruct (with_names i names) ms' ps) (VStruct own' par).
Proof. intros c k l i ms ps own par names ms' own' H Hp F. split; [now apply filtered_json_export|intro; now apply filtered_bson_export]. Qed.
Print Assumptions C82_same_result.
Definition si_user : sinfo := mkSinfo [bs "id"; bs "password"; bs "name"] [(bs "id", bs "_id")] (bs "User") false false false.
Definition ty_user : list ty := [TInt IInt; TStr; TStr].
Definition val_user : list val := [VInt 7; VStr (bs "secret"); VStr (bs "Eve")].
Definition filter_user : list (list Z * bool) := [(bs "name", true); (bs "password", false)].
Lemma user_through : let_through filter_user (si_names si_user) ty_user val_user [bs "id"; bs "name"] [TInt IInt; TStr] [VInt 7; VStr (bs "Eve")].
Proof. apply lt_yes; [now apply lets_says|]. apply lt_no; [intro H; apply lets_says in H; discriminate H|]. apply lt_yes; [now apply lets_says|]. constructor. Qed.
Example C82_example : filtered_json pf_stream ToStream filter_user si_user ty_user [] (VStruct val_user []) = Exported (bs "{""_id"":7,""name"":""Eve""}") /\
  (exists out, filtered_bson pf_default None filter_user si_user ty_user [] (VStruct val_user []) = BExported out 0 /\ len out = 28) /\
  let t := TStruct (with_names si_user [bs "id"; bs "name"]) [TInt IInt; TStr] [] in let v := VStruct [VInt 7; VStr (bs "Eve")] [] in
  wf t = true /\ valid t v /\ plain_keys t v /\ plain_names t /\ bson_type t /\ bson_text t v /\ marker_framed (AsValue false) t = true.
Proof.
  split; [vm_compute; reflexivity|]. split; [eexists; split; vm_compute; reflexivity|]. cbn zeta. split; [reflexivity|]. split; [split; [reflexivity|]; cbn -[fits bytes_in]; conds|].
  split; [unfold plain_keys; cbn -[plain]; conds|]. split; [unfold plain_names; cbn -[plain_name bytes_in]; conds|].
  split; [unfold bson_type; cbn -[plain nul_free]; unfold nul_free; conds|]. split; [unfold bson_text; cbn -[plain nul_free]; unfold nul_free; conds|]. reflexivity.
Qed.
(** A class with a filter does not leave out its empty optionals: the export fails, although the class without the filter is exported. *)
Theorem C82_optional_refuted : exists i ms v l, wf (TStruct i ms []) = true /\ valid (TStruct i ms []) v /\
  json_export pf_default ToStream (TStruct i ms []) v <> ExportFailed false /\ filtered_json pf_default ToStream l i ms [] v = ExportFailed false /\
  filtered_bson pf_default None l i ms [] v = BExportFailed false.
Proof.
  exists (mkSinfo [bs "name"; bs "nick"] [] (bs "User") false false false), [TStr; TOpt TStr], (VStruct [VStr (bs "Eve"); VOpt None] []), [(bs "name", true)].
  split; [reflexivity|]. split; [split; [reflexivity|]; cbn -[fits bytes_in]; conds|]. split; [intro E; vm_compute in E; discriminate E|]. split; vm_compute; reflexivity.
Qed.
Print Assumptions C82_optional_refuted.

(** ** C83.  Full claim: exporting a range gives the document of its elements, to streams and to strings.  Proved for streams. *)
Theorem C83_json_partial : forall c t l, wf t = true -> valid (TVec t) (VList l) -> plain_keys (TVec t) (VList l) -> plain_names t -> plain_name (pf_marker c) -> indent_ok c (VList l) ->
  forall out, range_json c ToStream t l = Exported out -> exists j, document (Arr j) out /\ Forall2 (stands_for (pf_marker c) t) l j.
Proof.
  intros c t l W V K N M R out E. rewrite range_json_vector in E.
  destruct (C20_document_partial c ToStream (TVec t) (VList l)) with (out := out) as (j & D & Hj); auto.
  - cbn [wf]. now rewrite W.
  - split; [exact Logic.I|exact N].
  - destruct Hj as (l' & js & E1 & -> & F). injection E1 as <-. exists js. split; [exact D|exact F].
Qed.
Print Assumptions C83_json_partial.
Theorem C83_bson_partial : forall c ids t l, wf t = true -> bson_type (TVec t) -> bson_text (TVec t) (VList l) -> marker_framed (AsValue false) (TVec t) = true -> nul_free (pf_marker c) -> twelve ids ->
  forall out n, range_bson c ToStream ids t l = BExported out n -> len out < 2 ^ 31 ->
  exists j j', bson_stands (pf_marker c) (TVec t) (VList l) j /\ written ids j j' /\ bson_document decimal_name j' out.
Proof.
  intros c ids t l W T V M Mk I out n E L. rewrite range_bson_vector in E. apply (C40_lengths_partial c ToStream ids (TVec t) (VList l) out n); auto. cbn [wf]. now rewrite W.
Qed.
Print Assumptions C83_bson_partial.
Theorem C83_same_result : forall c t l, range_json c ToStream t l = json_export c ToStream (TVec t) (VList l) /\
  forall ids, range_bson c ToStream ids t l = bson_export c ToStream false ids (TVec t) (VList l).
Proof. intros c t l. split; [apply range_json_vector|intro; apply range_bson_vector]. Qed.
Print Assumptions C83_same_result.
Example C83_example : range_json pf_stream ToStream ty_point [point 1 (bs "a"); point 2 (bs "b")] = Exported (bs "[{""x"":1,""y"":""a""},{""x"":2,""y"":""b""}]").
Proof. vm_compute. reflexivity. Qed.
(** To a string: the bracket is written through a null pointer. *)
Theorem C83_string_refuted : forall c t l, range_json c ToString t l = ExportUB /\ forall ids out n, range_bson c ToString ids t l <> BExported out n.
Proof. intros c t l. split; [apply range_json_string|intros; apply range_bson_string]. Qed.
Print Assumptions C83_string_refuted.
