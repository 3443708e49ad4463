(** C51, C66: std::format of TA::Ser. *)
From Coq Require Import ZArith String List Bool Lia ZifyBool.
From Verif Require Import Model.Base Model.Number Model.Printer Model.JsonPrinter Model.Types Model.Serializer Model.Exporter Model.BsonDoc Model.Yaml Model.YamlPrinter Model.Format
  Spec.Json Spec.Import Spec.Typed Spec.Denotes Spec.Yaml Spec.YamlOut Spec.Format Proofs.Tac Proofs.FormatP Proofs.ExportP Proofs.BsonRoundP Proofs.YamlOutP Properties.Members Properties.Imports Properties.Exports Properties.Yaml.
Import ListNotations.
Open Scope Z_scope.

(** ** C51.  [s]: the format string behind the colon, which has a closing brace somewhere.  The specification is taken iff
    what stands before a closing brace is a documented one; the type, the mode and the sizes are then those that it says, if
    the sizes fit the std::size_t that they are collected in; otherwise std::format_error.  Full claim: the sizes are exact
    or the specification is rejected. *)
Theorem C51_specification_partial : forall s, In 125 s ->
  (forall spec f o n b rest, documented spec f o n b -> n < 2 ^ 64 -> b < 2 ^ 64 -> s = spec ++ 125 :: rest -> fs_spec s = Ok (mkFs f o n b, rest)) /\
  (forall f rest, fs_spec s = Ok (f, rest) -> exists spec n b, documented spec (fs_form f) (fs_type f) n b /\ s = spec ++ 125 :: rest /\
     fs_indent f = n mod 2 ^ 64 /\ fs_block f = b mod 2 ^ 64) /\
  ((forall spec f o n b rest, documented spec f o n b -> s <> spec ++ 125 :: rest) -> fs_spec s = Throw).
Proof.
  assert (Nn : forall ds a, Forall digit ds -> 0 <= a -> 0 <= digits_value a ds).
  { intros ds a F. revert a. induction F as [|d ds Hd F IH]; intros a A; cbn [digits_value]; [exact A|]. apply IH. unfold digit in Hd. lia. }
  assert (D0 : forall spec f o n b, documented spec f o n b -> 0 <= n /\ 0 <= b).
  { intros spec f o n b D. destruct D; split; try apply Nn; auto; lia. }
  assert (Back : forall s f rest, fs_spec s = Ok (f, rest) -> exists spec n b, documented spec (fs_form f) (fs_type f) n b /\ s = spec ++ 125 :: rest /\
     fs_indent f = n mod 2 ^ 64 /\ fs_block f = b mod 2 ^ 64).
  { intros s f rest E. destruct (spec_only s f rest E) as (spec & n & b & D & ->). exists spec, n, b. rewrite (spec_accepts _ _ _ _ _ rest D) in E.
    injection E as <-. cbn [fs_indent fs_block fs_form fs_type] in *. auto. }
  intros s H. split; [|split].
  - intros spec f o n b rest D Hn Hb ->. rewrite (spec_accepts _ _ _ _ _ rest D). destruct (D0 _ _ _ _ _ D). now rewrite !Z.mod_small.
  - intros f rest. apply Back.
  - intro N. destruct (spec_defined s H) as (U & G). destruct (fs_spec s) as [[f rest]| | |] eqn:E; try congruence.
    destruct (Back s f rest E) as (spec & n & b & D & Es & _). now elim (N _ _ _ _ _ rest D).
Qed.
Print Assumptions C51_specification_partial.
Ltac all_digits := unfold bs; cbn; repeat constructor; unfold digit; lia.
Example C51_example :
  documented (bs "Y*8.12") FYaml OConfig 8 12 /\ fs_spec (bs "Y*8.12} and more") = Ok (mkFs FYaml OConfig 8 12, bs " and more") /\
  documented [] FJson OStream 0 0 /\ fs_spec (bs "}") = Ok (mkFs FJson OStream 0 0, []) /\ fs_spec (bs "*J}") = Throw /\ fs_spec (bs "J 4}") = Throw.
Proof.
  split; [apply (dc_block (bs "Y") FYaml (bs "*") OConfig (bs "8") (bs "12")); [constructor|constructor|all_digits|all_digits]|].
  split; [reflexivity|]. split; [exact (dc_plain [] FJson [] OStream [] tl_none sl_none (Forall_nil _))|]. split; [reflexivity|]. split; reflexivity.
Qed.
(** A size that does not fit is neither kept nor rejected. *)
Theorem C51_sizes_refuted : exists spec f o n b, documented spec f o n b /\ exists f', fs_spec (spec ++ [125]) = Ok (f', []) /\ fs_indent f' <> n.
Proof.
  exists (bs "18446744073709551617"), FJson, OStream. do 2 eexists. split.
  - apply (dc_plain [] FJson [] OStream (bs "18446744073709551617")); [constructor|constructor|all_digits].
  - eexists. split; [vm_compute; reflexivity|]. vm_compute. discriminate.
Qed.
Print Assumptions C51_sizes_refuted.

(** The value is written with the sizes of the specification, if they fit an int.  In the Stream mode neither JSON nor, in
    any mode, BSON depends on them. *)
Definition as_text (r : export_result) : formatted := match r with Exported out => FText out | ExportFailed true => FRaised | ExportFailed false => FCut | ExportUB => FUB end.
Theorem C51_sizes_used : forall pieces o ty n b t v, 0 <= n < 2 ^ 31 -> 0 <= b < 2 ^ 31 ->
  fs_format pieces o (mkFs FJson ty n b) t v = as_text (json_export (mkPf ty (pf_marker pf_default) true n b false) ToStream t v).
Proof.
  intros pieces o ty n b t v Hn Hb. unfold fs_format, fs_config. cbn [fs_form fs_type fs_indent fs_block].
  assert (W : forall x, 0 <= x < 2 ^ 31 -> i_wrap IInt x = x).
  { intros x Hx. apply wrap_fits; [unfold fits, i_in, i_min, i_max; cbn; lia|]. now rewrite Z.sub_diag. }
  rewrite !W by assumption. unfold as_text. destruct (json_export _ _ _ _) as [out|[|]|]; reflexivity.
Qed.
Print Assumptions C51_sizes_used.
Theorem C51_sizes_ignored : forall pieces o n b n' b' t v,
  fs_format pieces o (mkFs FJson OStream n b) t v = fs_format pieces o (mkFs FJson OStream n' b') t v /\
  forall ty ty', fs_format pieces o (mkFs FBson ty n b) t v = fs_format pieces o (mkFs FBson ty' n' b') t v.
Proof. intros. split; reflexivity. Qed.
Print Assumptions C51_sizes_ignored.
Definition out_fine : outside := mkOut true (fun _ => false).
Example C51_sizes_example :
  fs_format (fun _ => []) out_fine (mkFs FJson OConfig 2 1) ty_point (point 2 (bs "a")) =
    FText (10 :: bs " {" ++ 10 :: bs "   ""x"": 2," ++ 10 :: bs "   ""y"": ""a""" ++ 10 :: bs " }").
Proof. vm_compute. reflexivity. Qed.
(** Full claim: nor does YAML.  But every text of YAML is moved by the block indent, in the Stream mode too. *)
Lemma int_fits : forall x, 0 <= x < 2 ^ 31 -> i_wrap IInt x = x.
Proof. intros x Hx. apply wrap_fits; [unfold fits; cbn; lia|]. now rewrite Z.sub_diag. Qed.
Theorem C51_yaml_stream_refuted : forall p pieces o n b t v, 0 <= b < 2 ^ 31 ->
  (exists es, yaml_events (fs_config (mkFs FYaml OStream n b)) o ToStream t v = WDone es) ->
  fs_format (fun _ => p :: pieces) o (mkFs FYaml OStream n b) t v = FText (indented b (List.concat (p :: pieces))).
Proof.
  intros p pieces o n b t v Hb (es & E). unfold fs_format. cbn [fs_form]. unfold yaml_export. rewrite E.
  rewrite C50_stream_indent. cbn [pf_block fs_config fs_block]. now rewrite int_fits.
Qed.
Print Assumptions C51_yaml_stream_refuted.
Example C51_yaml_stream_example :
  fs_format (fun _ => [bs "5"; [10]]) out_fine (mkFs FYaml OStream 0 0) (TInt IInt) (VInt 5) = FText (bs "5" ++ [10]) /\
  fs_format (fun _ => [bs "5"; [10]]) out_fine (mkFs FYaml OStream 0 2) (TInt IInt) (VInt 5) = FText (bs "  5" ++ 10 :: bs "  ").
Proof. split; vm_compute; reflexivity. Qed.
(** Full claim: the sizes are those of the specification, or it is rejected.  Some fit std::size_t but not the int of the
    configuration; some fit that but not the buffer of indentation. *)
Theorem C51_int_refuted : exists spec n b f, documented spec FJson OConfig n b /\ fs_spec (spec ++ [125]) = Ok (f, []) /\ fs_indent f = n /\ n <> 0 /\
  forall pieces o t v, fs_format pieces o f t v = fs_format pieces o (mkFs FJson OConfig 0 0) t v.
Proof.
  exists (bs "*4294967296"), 4294967296, 0. eexists. split; [apply (dc_plain [] FJson [42] OConfig (bs "4294967296")); [constructor|constructor|all_digits]|].
  split; [vm_compute; reflexivity|]. split; [reflexivity|]. split; [discriminate|]. reflexivity.
Qed.
Print Assumptions C51_int_refuted.
Theorem C51_large_indent_refuted : exists spec n b f, documented spec FJson OConfig n b /\ fs_spec (spec ++ [125]) = Ok (f, []) /\ b = 5000 /\
  forall pieces o, fs_format pieces o f ty_point (point 2 (bs "a")) = FUB.
Proof.
  exists (bs "*.5000"), 0, 5000. eexists. split; [apply (dc_block [] FJson [42] OConfig [] (bs "5000")); [constructor|constructor|constructor|all_digits]|].
  split; [vm_compute; reflexivity|]. split; [reflexivity|]. intros. vm_compute. reflexivity.
Qed.
Print Assumptions C51_large_indent_refuted.

Lemma plain_type_marker : plain_name (pf_marker pf_default).
Proof. split; [vm_compute; conds|]; cbn; intuition discriminate. Qed.
(** ** C66.  Full claim: std::format returns the text of a document of the value, or throws.  Proved: a text that is returned
    complete is such a document. *)
Theorem C66_document_partial : forall pieces o f t v, fs_form f = FJson -> wf t = true -> valid t v -> plain_keys t v -> plain_names t -> indent_ok (fs_config f) v ->
  forall out, fs_format pieces o f t v = FText out -> exists j, document j out /\ stands_for (pf_marker pf_default) t v j.
Proof.
  intros pieces o f t v F W V K N R out E. unfold fs_format in E. rewrite F in E.
  destruct (json_export (fs_config f) ToStream t v) as [out'|r|] eqn:J; [|destruct r; discriminate E|discriminate E]. injection E as ->.
  apply (C20_document_partial (fs_config f) ToStream t v W V K N) in J; auto. apply plain_type_marker.
Qed.
Print Assumptions C66_document_partial.
(** A value that has no document at all: the call returns the text up to where the export failed. *)
Theorem C66_reported_refuted : forall pieces o f t v, fs_form f = FJson -> wf t = true -> valid t v -> plain_keys t v -> plain_names t -> indent_ok (fs_config f) v ->
  ~ (exists j, stands_for (pf_marker pf_default) t v j) -> fs_format pieces o f t v = FCut.
Proof.
  intros pieces o f t v F W V K N R H. unfold fs_format. rewrite F.
  assert (M : plain_name (pf_marker (fs_config f))) by exact plain_type_marker.
  destruct (C20_grammatical_partial (fs_config f) ToStream t v W V (plain_keys_legal _ _ K) (plain_names_legal _ N) (plain_legal _ (proj1 M)) R) as [(j & out & E & D)|(E & _)]; [|now rewrite E].
  destruct (C20_document_partial (fs_config f) ToStream t v W V K N M R out E) as (j' & _ & Hj). elim H. now exists j'.
Qed.
Print Assumptions C66_reported_refuted.
Example C66_example :
  let t := TVec ty_color in let v := VList [VInt 1; VInt 2] in
  (wf t = true /\ valid t v /\ plain_keys t v /\ plain_names t) /\ (~ exists j, stands_for (pf_marker pf_default) t v j) /\
  fs_format (fun _ => []) out_fine fs_default t v = FCut /\
  fs_format (fun _ => []) out_fine fs_default t (VList [VInt 1]) = FText (bs "[""Green""]").
Proof.
  split; [split; [reflexivity|split; [split; [reflexivity|cbn -[fits bytes_in]; conds]|split; [unfold plain_keys; cbn; conds|unfold plain_names; cbn -[plain_name bytes_in]; conds]]]|].
  split; [|split; vm_compute; reflexivity].
  intros (j & l & js & E & _ & F). injection E as <-. inversion F as [|? ? ? ? _ F2]. inversion F2 as [|? ? ? ? Hx _].
  destruct Hx as (z & n & a & Ez & En & _). injection Ez as <-. discriminate En.
Qed.
