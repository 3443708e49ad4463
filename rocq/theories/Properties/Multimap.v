(** C96: std::multimap<std::string, T>.  [TMap MAll t] is the type, [TMap MPlace t] std::map and [TMap MFirst t] std::unordered_map; [VMap o]: the entries in
    their order, equal keys allowed in a multimap ([valid]).  Imports into multimaps that are not empty: C33_multimap. *)
From Coq Require Import ZArith String List Bool Lia ZifyBool.
From Verif Require Import Model.Base Model.Source Model.Unicode Model.Number Model.ParserInterface
  Model.Types Model.Importer Model.Printer Model.JsonPrinter Model.Serializer Model.Exporter Model.Binary Model.BsonPrinter Model.BsonParser Model.BsonDoc Model.Yaml Model.YamlPrinter
  Spec.JsonString Spec.Json Spec.Typed Spec.Import Spec.Denotes Spec.Sizes Spec.Bson Spec.BsonDenotes Spec.Yaml Spec.YamlOut
  Proofs.Tac Proofs.TypedP Proofs.DenotesP Proofs.ExportP Proofs.LexP Proofs.BinaryP Proofs.BsonSim Proofs.BsonImportP Proofs.BsonExportP Proofs.BsonNamesP Proofs.BsonCheck Proofs.BsonRoundP
  Proofs.YamlP Proofs.YamlSim Proofs.YamlOutP Proofs.YamlDocP Proofs.YamlReadP Proofs.JsonCheck Proofs.ImportP Proofs.MultimapP
  Properties.Imports Properties.Members Properties.Exports Properties.Bson Properties.Yaml.
Import ListNotations.
Open Scope Z_scope.

(** ** JSON.  The text is an object with one member for every entry, in the order of the entries, equal names repeated.
    Partial: the conditions of C20 on names (keys must need no escape). *)
Theorem C96_members_partial : forall c k t o out, wf t = true -> valid (TMap MAll t) (VMap o) -> plain_keys (TMap MAll t) (VMap o) -> plain_names (TMap MAll t) ->
  plain_name (pf_marker c) -> indent_ok c (VMap o) -> json_export c k (TMap MAll t) (VMap o) = Exported out ->
  exists es, document (Obj es) out /\ Forall2 (fun kv e => entry json_key (fst kv) (stands_for (pf_marker c) t (snd kv)) e) o es.
Proof.
  intros c k t o out W V K N M R E. destruct (C20_document_partial c k (TMap MAll t) (VMap o) W V K N M R out E) as (j & D & (l & es & Q & -> & F)). injection Q as <-. eauto.
Qed.
Print Assumptions C96_members_partial.
(** That text, read as a multimap, gives the same entries; read as an unordered_map it gives for every key the first of its
    values; read as a map, the last one (if values are overwritten, C33).  Partial: the conditions of C26. *)
Theorem C96_json_partial : forall c k cfg src t o out, pc_conv cfg = true -> pc_marker cfg = pf_marker c -> reads_back (pc_strict cfg) (pf_marker c) (TMap MAll t) (VMap o) ->
  plain_keys (TMap MAll t) (VMap o) -> plain_names (TMap MAll t) -> plain_name (pf_marker c) -> indent_ok c (VMap o) -> json_export c k (TMap MAll t) (VMap o) = Exported out ->
  accepts cfg src (TMap MAll t) (VMap []) out (VMap o) /\
  (exists o1, accepts cfg src (TMap MFirst t) (VMap []) out (VMap o1) /\ ordered MFirst o1 /\ forall n, map_find n o1 = map_find n o) /\
  (overwritten t = true -> exists o2, accepts cfg src (TMap MPlace t) (VMap []) out (VMap o2) /\ ordered MPlace o2 /\ forall n, map_find n o2 = map_find n (rev o)).
Proof.
  intros c k cfg src t o out C Hm B K N M R E. destruct (C20_document_partial c k (TMap MAll t) (VMap o) (proj1 B) (proj1 (proj2 B)) K N M R out E) as (j & D & Hj). rewrite <- Hm in *.
  split; [exact (stands_accepted cfg src (TMap MAll t) (VMap o) j out C B Hj D)|]. split; [|intro Ov].
  - exists (fold_left (put MFirst) o []). split; [apply (written_read cfg src t o j out MFirst C B Hj D); discriminate|]. split; [apply put_ordered; constructor|].
    intro n. exact (put_first n o []).
  - exists (fold_left (put MPlace) o []). split; [apply (written_read cfg src t o j out MPlace C B Hj D); auto|]. split; [apply put_ordered; constructor|].
    intro n. rewrite (put_last n o []). destruct (map_find n (rev o)); reflexivity.
Qed.
Print Assumptions C96_json_partial.

Ltac in_order := let Q := fresh in intros ? ? Q; cbn [In] in Q; repeat match goal with H : _ \/ _ |- _ => destruct H as [H|H] | H : False |- _ => destruct H end; injection Q as <- <-; reflexivity.
Definition ty_multi : ty := TMap MAll (TInt IInt).
Definition val_multi : val := VMap [(bs "a", VInt 2); (bs "a", VInt 1); (bs "a", VInt 2); (bs "b", VInt 7)].
Lemma multi_valid : valid ty_multi val_multi.
Proof. split; [reflexivity|cbn -[fits bytes_in]; conds; in_order]. Qed.
Example C96_json_example : forall src k, exists out, json_export pf_default k ty_multi val_multi = Exported out /\ accepts (pc_mode Exact) src ty_multi (VMap []) out val_multi.
Proof.
  intros src k. assert (E : exists out, json_export pf_default k ty_multi val_multi = Exported out) by (destruct k; eexists; vm_compute; reflexivity).
  destruct E as (out & E). exists out. split; [exact E|]. apply (C96_json_partial pf_default k); auto.
  - unfold reads_back. split; [reflexivity|]. split; [exact multi_valid|]. split; [unfold distinct_names; cbn; conds|]. split; [unfold no_null_target; cbn; conds|].
    split; [reflexivity|]. intros _. split; [cbn; conds|unfold no_overrides; cbn; conds].
  - unfold plain_keys. cbn. conds.
  - unfold plain_names. cbn. conds.
  - conds.
  - intros _. right. unfold indent_room. cbn. lia.
Qed.
(** Entries are lost when the text of a multimap is read as a map: [{"a": 2, "a": 1, "a": 2, "b": 7}]. *)
Theorem C96_lost_refuted : exists t o out, valid (TMap MAll t) (VMap o) /\ json_export pf_stream ToStream (TMap MAll t) (VMap o) = Exported out /\
  forall src, exists o1 o2, accepts pc_default src (TMap MFirst t) (VMap []) out (VMap o1) /\ accepts pc_default src (TMap MPlace t) (VMap []) out (VMap o2) /\ o1 <> o2 /\
    (List.length o1 < List.length o)%nat /\ (List.length o2 < List.length o)%nat.
Proof.
  exists (TInt IInt), [(bs "a", VInt 2); (bs "a", VInt 1); (bs "b", VInt 7)], (bs "{""a"":2,""a"":1,""b"":7}"). split; [split; [reflexivity|cbn -[fits bytes_in]; conds; in_order]|].
  split; [vm_compute; reflexivity|]. intro src. exists [(bs "a", VInt 2); (bs "b", VInt 7)], [(bs "a", VInt 1); (bs "b", VInt 7)].
  split; [eapply doc_imports; [doc|destruct src; vm_compute; reflexivity]|]. split; [eapply doc_imports; [doc|destruct src; vm_compute; reflexivity]|]. split; [discriminate|]. cbn. lia.
Qed.
Print Assumptions C96_lost_refuted.

(** ** BSON and YAML: read back as a multimap.  Partial: the conditions of C41 and C61. *)
Theorem C96_bson_partial : forall c k cfg src t o out n, pc_marker cfg = pf_marker c -> reads_back (pc_strict cfg) (pf_marker c) (TMap MAll t) (VMap o) ->
  bson_type (TMap MAll t) -> bson_text (TMap MAll t) (VMap o) -> marker_framed (AsValue false) (TMap MAll t) = true -> nul_free (pf_marker c) ->
  bson_export c k false None (TMap MAll t) (VMap o) = BExported out n -> len out < 2 ^ 31 -> bson_imports cfg src (TMap MAll t) (VMap []) out (VMap o) [].
Proof.
  intros c k cfg src t o out n Hm B T V M Mk E L.
  refine (proj2 (C41_round_trip_partial c k cfg src (TMap MAll t) (VMap o) out n Hm B T V M _ _ Mk E L) _); [reflexivity|reflexivity|discriminate].
Qed.
Print Assumptions C96_bson_partial.
Theorem C96_yaml_partial : forall c w k t o cfg es, o_good w = true -> pf_marker c = pc_marker cfg -> pc_noTrailing cfg = false ->
  yaml_reads_back (pc_strict cfg) (pc_marker cfg) (TMap MAll t) (VMap o) -> yaml_events c w k (TMap MAll t) (VMap o) = WDone es ->
  forall fuel calls rest src text, map snd calls = map Some es -> (List.length es <= fuel)%nat ->
  exists s', yaml_extract fuel cfg (TMap MAll t) (VMap []) (calls ++ rest) (src_init src text) = Returned (VMap o) s'.
Proof. intros c w k t o cfg es. exact (C61_yaml_round_trip_partial c w k (TMap MAll t) (VMap o) cfg es). Qed.
Print Assumptions C96_yaml_partial.
Example C96_bson_example : forall src k, exists out, bson_export pf_default k false None ty_multi val_multi = BExported out 0 /\ bson_imports pc_default src ty_multi (VMap []) out val_multi [].
Proof.
  intros src k. assert (E : exists out, bson_export pf_default k false None ty_multi val_multi = BExported out 0 /\ len out < 2 ^ 31).
  { destruct k; eexists; (split; [vm_compute; reflexivity|vm_compute; reflexivity]). }
  destruct E as (out & E & L). exists out. split; [exact E|]. apply (C96_bson_partial pf_default k pc_default src (TInt IInt) _ out 0); auto.
  - unfold reads_back. split; [reflexivity|]. split; [exact multi_valid|]. split; [unfold distinct_names; cbn; conds|]. split; [unfold no_null_target; cbn; conds|].
    split; [intro Q; now destruct Q|discriminate].
  - unfold bson_type. cbn. conds.
  - unfold bson_text. cbn -[plain nul_free]. unfold nul_free. cbn -[bytes_in]. conds.
  - unfold nul_free. conds.
Qed.
Example C96_yaml_example : yaml_reads_back Exact (bs "__type") ty_multi val_multi /\
  yaml_events pf_default out_good ToString ty_multi val_multi = WDone [YStreamStart; YDocStart; YMapStart; YScalar (bs "a"); YScalar (bs "2"); YScalar (bs "a"); YScalar (bs "1");
    YScalar (bs "a"); YScalar (bs "2"); YScalar (bs "b"); YScalar (bs "7"); YMapEnd; YDocEnd].
Proof.
  split; [|vm_compute; reflexivity]. split; [reflexivity|]. split; [exact multi_valid|]. split; [cbn -[fits bytes_in]; conds|].
  split; [cbn; conds|]. split; [reflexivity|]. intros _. split; [cbn; conds|cbn; conds].
Qed.
