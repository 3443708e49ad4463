(** C97: classes with a serializer (ThorsAnvil_MakeTraitCustomSerialize) in YAML.

    [custom i], [VInt z]: as in Properties/JsonSerialize.v.  [yser_events custom c o k t v]: the events that libyaml's emitter was given for [v] and took;
    [yser_extract custom fuel cfg t v calls s]: an import, [calls]: what libyaml does with the text (see Properties/Yaml.v).  [no_yaml]: the serializers that do not
    override writeYaml and readYaml.  [yser_stands], [yser_reads_as], [all_objects], [supported]: Spec/YamlSerialize.v. *)
From Coq Require Import ZArith String List Bool Lia ZifyBool.
From Verif Require Import Model.Base Model.Source Model.Number Model.ParserInterface Model.Types Model.Importer Model.Printer Model.JsonPrinter Model.Serializer Model.Exporter
  Model.Yaml Model.YamlPrinter Model.YamlSerialize
  Spec.JsonString Spec.Json Spec.Typed Spec.Import Spec.Denotes Spec.Yaml Spec.YamlOut Spec.YamlSerialize
  Proofs.Tac Proofs.TreeM Proofs.DenotesP Proofs.AlikeP Proofs.YamlP Proofs.YamlSim Proofs.YamlOutP Proofs.YamlDocP Proofs.YamlReadP Proofs.YamlSerializeP
  Properties.Imports Properties.Exports Properties.Yaml Properties.YamlCustom.
Import ListNotations.
Open Scope Z_scope.

Lemma wrote_text : forall custom i z a, wrote_scalar custom i z a <-> yser_text custom i z = Some a.
Proof. intros custom i z a. unfold wrote_scalar, yser_text. destruct (custom i); [reflexivity|]. split; intro H; [now rewrite H|now injection H]. Qed.
Lemma wrote_faults : forall custom i z, of_written bad_text (yser_text custom i z) = wrote_fault bad_text custom i z.
Proof. intros custom i z. unfold yser_text, wrote_fault. destruct (custom i); [reflexivity|]. exact (numbers_written i z). Qed.
Lemma taken : forall custom i z a, fits i z -> takes_scalar custom i z a -> yser_int custom i a = Ok z /\ text_null a = false.
Proof.
  intros custom i z a F H. unfold takes_scalar, yser_int in *. destruct (custom i) as [o|].
  - destruct H as (N & ->). split; [reflexivity|exact N].
  - split; [now apply yaml_int_fits|exact (integer_no_null a z H)].
Qed.

(** ** Exports.  What is written is the document of the value with the texts of the serializers, and there is a text for every object. *)
Theorem C97_document : forall custom c o k t v es, o_good o = true -> wf t = true -> shaped t v = true -> yser_events custom c o k t v = WDone es ->
  all_objects (supported custom) t v /\ exists j, yser_stands custom (pf_marker c) t v j /\ es = YStreamStart :: doc_events (node_of j).
Proof.
  intros custom c o k t v es G W Sh E. assert (X := export_runs_opt _ _ (wrote_text custom) _ (wrote_faults custom) c o k t v G W Sh). unfold yser_events in E.
  destruct (first_fault_with _ _ _ _ _) as [[]|]; rewrite E in X; try discriminate X. destruct X as (j & Hj & X). split; [|exists j; split; [exact Hj|congruence]].
  refine (proj1 (sense_told (supported custom) (wrote_scalar custom) _ _ _ _ _ _ _ t) v j Hj). intros i z a H. unfold supported, wrote_scalar in *. destruct (custom i); eauto.
Qed.
Print Assumptions C97_document.
(** It is written if no serializer throws and all texts are UTF-8. *)
Theorem C97_written : forall custom c o k t v j, o_good o = true -> wf t = true -> shaped t v = true -> yser_stands custom (pf_marker c) t v j -> all_text utf8_text j ->
  yser_events custom c o k t v = WDone (YStreamStart :: doc_events (node_of j)).
Proof.
  intros custom c o k t v j G W Sh Hj U. assert (X := export_runs_opt _ _ (wrote_text custom) _ (wrote_faults custom) c o k t v G W Sh).
  rewrite (stands_faultless_opt _ _ (wrote_text custom) _ (wrote_faults custom) (pf_marker c) t v j W Sh Hj U) in X. destruct X as (j' & Hj' & X).
  assert (E : tree_plan j = tree_plan j').
  { rewrite <- (proj1 (doc_plan _ _ (wrote_text custom) (pf_marker c) t v) j Hj). exact (proj1 (doc_plan _ _ (wrote_text custom) (pf_marker c) t v) j' Hj'). }
  unfold yser_events. rewrite X. unfold doc_events. do 2 f_equal. f_equal. rewrite <- !tree_events. now rewrite E.
Qed.
Print Assumptions C97_written.
(** Otherwise it depends on where the first thing is that cannot be written, as in C62.  Full claim: it is always reported. *)
Theorem C97_failures_partial : forall custom c o k t v, o_good o = true -> wf t = true -> shaped t v = true ->
  match first_fault_with bad_text (wrote_fault bad_text custom) (pf_marker c) t v with
  | None => exists es, yser_events custom c o k t v = WDone es
  | Some Element | Some Key => yser_events custom c o k t v = WFailed (negb (pf_catch c))
  | Some Whole | Some Value => yser_events custom c o k t v = WTerminated
  end.
Proof.
  intros custom c o k t v G W Sh. assert (X := export_runs_opt _ _ (wrote_text custom) _ (wrote_faults custom) c o k t v G W Sh). unfold yser_events.
  destruct (first_fault_with _ _ _ _ _) as [[]|]; try exact X. destruct X as (j & _ & X). eauto.
Qed.
Print Assumptions C97_failures_partial.
(** Without support for YAML: an object alone or as the first value of a map ends the program, one that is the first element of an array is reported. *)
Theorem C97_unsupported : forall custom c o k i z, o_good o = true -> custom i = Some no_yaml ->
  yser_events custom c o k (TInt i) (VInt z) = WTerminated /\
  (forall l, yser_events custom c o k (TVec (TInt i)) (VList (VInt z :: map VInt l)) = WFailed (negb (pf_catch c))) /\
  (forall mk n l, bad_text n = false -> yser_events custom c o k (TMap mk (TInt i)) (VMap ((n, VInt z) :: map (fun e => (fst e, VInt (snd e))) l)) = WTerminated).
Proof.
  intros custom c o k i z G Hi. assert (Wf : wrote_fault bad_text custom i z = Some Whole) by (unfold wrote_fault; now rewrite Hi). split; [|split].
  - assert (X := C97_failures_partial custom c o k (TInt i) (VInt z) G eq_refl eq_refl). unfold first_fault_with in X. cbn [faults_of in_val no_mem] in X. rewrite Wf in X. exact X.
  - intro l. assert (Sh : shaped (TVec (TInt i)) (VList (VInt z :: map VInt l)) = true) by (clear; cbn; induction l; [reflexivity|exact IHl]).
    assert (X := C97_failures_partial custom c o k (TVec (TInt i)) _ G eq_refl Sh). unfold first_fault_with in X. cbn [faults_of in_val no_mem map first_of] in X. rewrite Wf in X. exact X.
  - intros mk n l Hn. assert (Sh : shaped (TMap mk (TInt i)) (VMap ((n, VInt z) :: map (fun e => (fst e, VInt (snd e))) l)) = true) by (clear; cbn; induction l; [reflexivity|exact IHl]).
    assert (X := C97_failures_partial custom c o k (TMap mk (TInt i)) _ G eq_refl Sh). unfold first_fault_with in X. cbn [faults_of in_val no_mem map first_of fst snd] in X. assert (He : of_entry bad_text n (wrote_fault bad_text custom i z) = Some Value) by (unfold of_entry; now rewrite Hn, Wf). rewrite He in X. exact X.
Qed.
Print Assumptions C97_unsupported.

(** ** Imports.  Full claim: every document whose scalars the serializers take is imported, and the import reports so.  Proved: documents of values that are read back
    (C61), in which no object is written as null or ~; on streams if libyaml never asks for more after it has got all of the text (C64). *)
Theorem C97_import_partial : forall custom fuel cfg t v j calls n2 rest k text, pc_noTrailing cfg = false -> yaml_reads_back (pc_strict cfg) (pc_marker cfg) t v ->
  yser_reads_as custom (pc_marker cfg) t v j -> doc_calls j (calls ++ [(n2, Some YDocEnd)]) -> (List.length (node_events (node_of j)) <= fuel)%nat ->
  exists s', yser_extract custom fuel cfg t (default t) (calls ++ (n2, Some YDocEnd) :: rest) (src_init k text) = Returned v s' /\
    (src_ok s' = false <-> k = Strm /\ asks_again (pieces calls ++ n2) (List.length text)).
Proof.
  intros custom fuel cfg t v j calls n2 rest k text Nt B H C F. rewrite <- size_events in F.
  apply (yaml_imports_with (yser_int custom) fuel cfg t (default t) j calls n2 rest k text v (proj1 B) C F Nt).
  exact (yaml_reads_with (yser_int custom) (takes_scalar custom) (taken custom) _ _ t v B j H).
Qed.
Print Assumptions C97_import_partial.
(** What stands for an object and is no scalar, or is a scalar that the serializer throws at, is rejected; a serializer that does not support YAML throws at all. *)
Theorem C97_rejected : forall custom fuel cfg i o j old calls n2 rest k text, custom i = Some o -> (forall s, j = Scal s -> y_get o s = Throw) ->
  doc_calls j (calls ++ [(n2, Some YDocEnd)]) -> (List.length (node_events (node_of j)) <= fuel)%nat ->
  yser_extract custom fuel cfg (TInt i) old (calls ++ (n2, Some YDocEnd) :: rest) (src_init k text) = Failed (negb (pc_catch cfg)).
Proof.
  intros custom fuel cfg i o j old calls n2 rest k text Ec N C F. rewrite <- size_events in F.
  apply (yaml_refuses_with (yser_int custom) fuel cfg (TInt i) old j calls n2 rest k text eq_refl C F). unfold yaml_meaning_with. cbn [interp i_parse in_value].
  destruct j as [s| |]; try reflexivity. cbn [sc_int yaml_sc_with]. unfold yser_int. rewrite Ec. cbn [in_value]. rewrite (N s eq_refl). reflexivity.
Qed.
Print Assumptions C97_rejected.
(** Every document is rejected if the serializer does not support YAML. *)
Theorem C97_unsupported_import : forall custom fuel cfg i j old calls n2 rest k text, custom i = Some no_yaml ->
  doc_calls j (calls ++ [(n2, Some YDocEnd)]) -> (List.length (node_events (node_of j)) <= fuel)%nat ->
  yser_extract custom fuel cfg (TInt i) old (calls ++ (n2, Some YDocEnd) :: rest) (src_init k text) = Failed (negb (pc_catch cfg)).
Proof. intros custom fuel cfg i j old calls n2 rest k text Ec. apply (C97_rejected custom fuel cfg i no_yaml j old calls n2 rest k text Ec). intros s _. reflexivity. Qed.
Print Assumptions C97_unsupported_import.

(** ** Round trips.  Full claim: every value is read back if the serializers read what they write. *)
Theorem C97_round_trip_partial : forall custom c o k t v cfg es, o_good o = true -> pf_marker c = pc_marker cfg -> pc_noTrailing cfg = false ->
  yaml_reads_back (pc_strict cfg) (pc_marker cfg) t v -> all_objects (yser_reread custom) t v -> yser_events custom c o k t v = WDone es ->
  forall fuel calls rest src text, map snd calls = map Some es -> (List.length es <= fuel)%nat ->
  exists s', yser_extract custom fuel cfg t (default t) (calls ++ rest) (src_init src text) = Returned v s'.
Proof.
  intros custom c o k t v cfg es G Mk Nt B R E fuel calls rest src text C F. assert (B' := B). destruct B' as (W & (Sh & _) & _).
  assert (HN : forall j, yser_stands custom (pc_marker cfg) t v j -> yser_reads_as custom (pc_marker cfg) t v j).
  { intros j H. refine (proj1 (sense_refine (yser_reread custom) (wrote_scalar custom) (takes_scalar custom) _ _ _ _ _ _ _ t) v j R H).
    intros i z a Q Hw. unfold takes_scalar, yser_reread, wrote_scalar in *. destruct (custom i); [exact (Q a Hw)|]. rewrite Hw. apply yaml_dec. }
  destruct (yaml_round_opt (yser_int custom) _ _ (wrote_text custom) (takes_scalar custom) (taken custom) c o k t v cfg es G W Sh Mk B HN E fuel calls rest src text C F Nt) as (s' & X & _).
  eauto.
Qed.
Print Assumptions C97_round_trip_partial.

(** A class with a colour (on, off; other numbers cannot be written) in an array, and an id that does not support YAML. *)
Definition ys_colour : yaml_serializer :=
  mkYser (fun z => if z =? 1 then Some (bs "on") else if z =? 0 then Some (bs "off") else None)
         (fun s => if beq s (bs "on") then Ok 1 else if beq s (bs "off") then Ok 0 else Throw).
Definition yaml_classes (i : ity) : option yaml_serializer := match i with IShort => Some ys_colour | ILong => Some no_yaml | _ => None end.
Definition ty_lamp : ty := TStruct (mkSinfo [bs "lamps"; bs "n"] [] (bs "Lamp") false false false) [TVec (TInt IShort); TInt IInt] [].
Definition val_lamp : val := VStruct [VList [VInt 1; VInt 0]; VInt (-3)] [].
Example C97_example : yaml_reads_back Strict (bs "__type") ty_lamp val_lamp /\ all_objects (yser_reread yaml_classes) ty_lamp val_lamp /\
  (forall k, yser_events yaml_classes pf_default out_good k ty_lamp val_lamp = WDone [YStreamStart; YDocStart; YMapStart; YScalar (bs "lamps"); YSeqStart; YScalar (bs "on"); YScalar (bs "off"); YSeqEnd;
    YScalar (bs "n"); YScalar (bs "-3"); YMapEnd; YDocEnd]).
Proof.
  split; [|split; [|intros []; vm_compute; reflexivity]].
  - split; [reflexivity|]. split; [split; [reflexivity|unfold val_lamp; cbn -[fits bytes_in]; conds]|]. split; [unfold distinct_names; cbn; conds|].
    split; [unfold no_null_like, val_lamp; cbn; conds|]. split; [reflexivity|discriminate].
  - unfold all_objects, val_lamp. cbn. ytexts; (intros s Q; vm_compute in Q; injection Q as <-; split; reflexivity).
Qed.
Example C97_other_example : yser_reads_as yaml_classes (bs "__type") (TTup [TInt IShort; TInt IInt]) (VList [VInt 1; VInt 5]) (Arr [Scal (bs "on"); Scal (bs " +5")]) /\
  (forall s, Scal (bs "y") = Scal s -> y_get ys_colour s = Throw) /\ (forall j : tree (list Z), forall s, j = Scal s -> y_get no_yaml s = Throw) /\
  first_fault_with bad_text (wrote_fault bad_text yaml_classes) (bs "__type") (TVec (TInt IShort)) (VList [VInt 0; VInt 2]) = Some Element.
Proof.
  split; [|split; [intros s H; injection H as <-; reflexivity|split; reflexivity]].
  cbn. do 2 eexists. split; [reflexivity|]. split; [reflexivity|]. cbn. ytexts; (do 2 eexists; split; [reflexivity|]; split; [reflexivity|]).
  - split; reflexivity.
  - exact (yi_plus [32] [53] ltac:(repeat constructor) ltac:(split; [discriminate|repeat constructor; lia])).
Qed.
(** A class with an ObjectID is not written to YAML with an error: the program ends, after what was written before. *)
Theorem C97_reported_refuted : exists custom t v, wf t = true /\ valid t v /\ (exists i, custom i = Some no_yaml) /\
  forall c o k, o_good o = true -> yser_events custom c o k t v = WTerminated.
Proof.
  exists yaml_classes, (TStruct (mkSinfo [bs "n"; bs "_id"] [] (bs "Row") false false false) [TInt IInt; TInt ILong] []), (VStruct [VInt 3; VInt 77] []).
  split; [reflexivity|]. split; [split; [reflexivity|cbn -[fits bytes_in]; conds]|]. split; [exists ILong; reflexivity|]. intros c o k G.
  match goal with |- yser_events _ _ _ _ ?t ?v = _ => assert (X := C97_failures_partial yaml_classes c o k t v G eq_refl eq_refl) end.
  match type of X with match ?f with _ => _ end => assert (E : f = Some Value) by (vm_compute; reflexivity); rewrite E in X end. exact X.
Qed.
Print Assumptions C97_reported_refuted.
