(** C92: classes with stream operators (ThorsAnvil_MakeTraitCustom) in YAML.

    [custom i], [VInt z]: as in Properties/Custom.v.  [ycust_events custom c o k t v]: the events that libyaml's emitter was given for [v] and took;
    [ycust_extract custom fuel cfg t v calls s]: an import, [calls]: what libyaml does with the text (see Properties/Yaml.v).
    [custom_yaml_stands], [custom_yaml_reads_as], [yaml_reread], [object_fault]: Spec/YamlCustom.v. *)
From Coq Require Import ZArith String List Bool Lia ZifyBool.
From Verif Require Import Model.Base Model.Source Model.Number Model.ParserInterface Model.Types Model.Importer Model.Printer Model.JsonPrinter Model.Serializer Model.Exporter
  Model.Custom Model.Yaml Model.YamlPrinter Model.YamlCustom
  Spec.JsonString Spec.Json Spec.Typed Spec.Import Spec.Denotes Spec.Yaml Spec.YamlOut Spec.Custom Spec.YamlCustom
  Proofs.Tac Proofs.TreeM Proofs.DenotesP Proofs.AlikeP Proofs.YamlP Proofs.YamlSim Proofs.YamlOutP Proofs.YamlDocP Proofs.YamlReadP
  Properties.Imports Properties.Exports Properties.Custom Properties.Yaml.
Import ListNotations.
Open Scope Z_scope.

Lemma object_text : forall custom i z, of_text bad_text (ycust_text custom i z) = object_fault bad_text custom i z.
Proof. intros custom i z. unfold ycust_text, object_fault. destruct (custom i); [reflexivity|apply (numbers_written i)]. Qed.
Lemma integer_no_null : forall s z, yaml_integer s z -> text_null s = false.
Proof.
  intros s z H. destruct (text_null s) eqn:N; [|reflexivity]. assert (E := yaml_int_spec IInt s z H). unfold text_null in N. apply orb_true_iff in N as [N|N]; apply beq_eq in N; subst s; discriminate E.
Qed.
Lemma scalar_read : forall custom i z a, fits i z -> read_scalar custom i z a -> ycust_int custom i a = Ok z /\ text_null a = false.
Proof.
  intros custom i z a F H. unfold read_scalar, ycust_int in *. destruct (custom i) as [o|].
  - destruct H as (N & good & ->). split; [reflexivity|exact N].
  - split; [now apply yaml_int_fits|exact (integer_no_null a z H)].
Qed.

(** ** Exports.  What is written is the document of the value with the texts of operator<<. *)
Theorem C92_document : forall custom c o k t v es, o_good o = true -> wf t = true -> shaped t v = true -> ycust_events custom c o k t v = WDone es ->
  exists j, custom_yaml_stands custom (pf_marker c) t v j /\ es = YStreamStart :: doc_events (node_of j).
Proof.
  intros custom c o k t v es G W Sh E. assert (X := export_runs_with _ _ (object_text custom) c o k t v G W Sh). unfold ycust_events in E.
  destruct (first_fault_with _ _ _ _ _) as [[]|]; rewrite E in X; try discriminate X. destruct X as (j & Hj & X). exists j. split; [exact Hj|]. congruence.
Qed.
Print Assumptions C92_document.
(** It is written if all texts are UTF-8, those of operator<< as well. *)
Theorem C92_written : forall custom c o k t v j, o_good o = true -> wf t = true -> shaped t v = true -> custom_yaml_stands custom (pf_marker c) t v j -> all_text utf8_text j ->
  exists es, ycust_events custom c o k t v = WDone es.
Proof.
  intros custom c o k t v j G W Sh Hj U. assert (X := export_runs_with _ _ (object_text custom) c o k t v G W Sh).
  rewrite (stands_faultless_with _ _ (object_text custom) (pf_marker c) t v j W Sh Hj U) in X. destruct X as (j' & _ & X). exists (YStreamStart :: doc_events (node_of j')). exact X.
Qed.
Print Assumptions C92_written.
(** Otherwise it depends on where the first thing is that cannot be written, as in C62.  Full claim: it is always reported. *)
Theorem C92_failures_partial : forall custom c o k t v, o_good o = true -> wf t = true -> shaped t v = true ->
  match first_fault_with bad_text (object_fault bad_text custom) (pf_marker c) t v with
  | None => exists es, ycust_events custom c o k t v = WDone es
  | Some Element | Some Key => ycust_events custom c o k t v = WFailed (negb (pf_catch c))
  | Some Whole | Some Value => ycust_events custom c o k t v = WTerminated
  end.
Proof.
  intros custom c o k t v G W Sh. assert (X := export_runs_with _ _ (object_text custom) c o k t v G W Sh). unfold ycust_events.
  destruct (first_fault_with _ _ _ _ _) as [[]|]; try exact X. destruct X as (j & _ & X). eauto.
Qed.
Print Assumptions C92_failures_partial.

(** ** Imports.  Full claim: every document whose scalars operator>> takes is imported, and the import reports so.  Proved: documents of values that are read back
    (C61), in which no object is written as null or ~; on streams if libyaml never asks for more after it has got all of the text (C64). *)
Theorem C92_import_partial : forall custom fuel cfg t v j calls n2 rest k text, pc_noTrailing cfg = false -> yaml_reads_back (pc_strict cfg) (pc_marker cfg) t v ->
  custom_yaml_reads_as custom (pc_marker cfg) t v j -> doc_calls j (calls ++ [(n2, Some YDocEnd)]) -> (List.length (node_events (node_of j)) <= fuel)%nat ->
  exists s', ycust_extract custom fuel cfg t (default t) (calls ++ (n2, Some YDocEnd) :: rest) (src_init k text) = Returned v s' /\
    (src_ok s' = false <-> k = Strm /\ asks_again (pieces calls ++ n2) (List.length text)).
Proof.
  intros custom fuel cfg t v j calls n2 rest k text Nt B H C F. rewrite <- size_events in F.
  apply (yaml_imports_with (ycust_int custom) fuel cfg t (default t) j calls n2 rest k text v (proj1 B) C F Nt).
  exact (yaml_reads_with (ycust_int custom) (read_scalar custom) (scalar_read custom) _ _ t v B j H).
Qed.
Print Assumptions C92_import_partial.
(** What stands for an object and is no scalar, or is a scalar that operator>> throws at, is rejected. *)
Theorem C92_rejected : forall custom fuel cfg i o j old calls n2 rest k text, custom i = Some o -> (forall s, j = Scal s -> o_get o s = None) ->
  doc_calls j (calls ++ [(n2, Some YDocEnd)]) -> (List.length (node_events (node_of j)) <= fuel)%nat ->
  ycust_extract custom fuel cfg (TInt i) old (calls ++ (n2, Some YDocEnd) :: rest) (src_init k text) = Failed (negb (pc_catch cfg)).
Proof.
  intros custom fuel cfg i o j old calls n2 rest k text Ec N C F. rewrite <- size_events in F.
  apply (yaml_refuses_with (ycust_int custom) fuel cfg (TInt i) old j calls n2 rest k text eq_refl C F). unfold yaml_meaning_with. cbn [interp i_parse in_value].
  destruct j as [s| |]; try reflexivity. cbn [sc_int yaml_sc_with]. unfold ycust_int. rewrite Ec. cbn [in_value]. rewrite (N s eq_refl). reflexivity.
Qed.
Print Assumptions C92_rejected.

(** ** Round trips.  Full claim: every value is read back if operator>> reads what operator<< writes. *)
Theorem C92_round_trip_partial : forall custom c o k t v cfg es, o_good o = true -> pf_marker c = pc_marker cfg -> pc_noTrailing cfg = false ->
  yaml_reads_back (pc_strict cfg) (pc_marker cfg) t v -> yaml_reread custom t v -> ycust_events custom c o k t v = WDone es ->
  forall fuel calls rest src text, map snd calls = map Some es -> (List.length es <= fuel)%nat ->
  exists s', ycust_extract custom fuel cfg t (default t) (calls ++ rest) (src_init src text) = Returned v s'.
Proof.
  intros custom c o k t v cfg es G Mk Nt B R E fuel calls rest src text C F. assert (B' := B). destruct B' as (W & (Sh & _) & _).
  assert (HN : forall j, custom_yaml_stands custom (pc_marker cfg) t v j -> custom_yaml_reads_as custom (pc_marker cfg) t v j).
  { intros j H. refine (proj1 (sense_refine (fun i z => match custom i with Some o => yaml_null_text (o_put o z) = false /\ exists good, o_get o (o_put o z) = Some (z, good) | None => True end)
      (written_scalar custom) (read_scalar custom) _ _ _ _ _ _ _ t) v j R H). intros i z a Q ->. unfold read_scalar. destruct (custom i); [exact Q|apply yaml_dec]. }
  destruct (yaml_round_with (ycust_int custom) _ _ (object_text custom) (read_scalar custom) (scalar_read custom) c o k t v cfg es G W Sh Mk B HN E fuel calls rest src text C F Nt) as (s' & X & _).
  eauto.
Qed.
Print Assumptions C92_round_trip_partial.

(** The panel of C90 with a name; unlike in JSON the quotes are part of the text. *)
Definition yaml_panel (i : ity) : option operators := match i with IShort => Some op_switch | ILLong => Some op_level | ILong => Some op_name | _ => None end.
Definition ty_ypanel : ty := TStruct (mkSinfo [bs "on"; bs "levels"; bs "name"; bs "n"] [] (bs "Panel") false false false) [TInt IShort; TVec (TInt ILLong); TPtr (TInt ILong); TInt IInt] [].
Definition val_ypanel : val := VStruct [VInt 1; VList [VInt 12; VInt 0]; VPtr (Some (VInt 7)); VInt (-3)] [].
Ltac ytexts := repeat match goal with |- _ /\ _ => split | |- Forall _ _ => constructor | |- True => exact Logic.I end.
Example C92_example : yaml_reads_back Strict (bs "__type") ty_ypanel val_ypanel /\ yaml_reread yaml_panel ty_ypanel val_ypanel /\
  (forall k, ycust_events yaml_panel pf_default out_good k ty_ypanel val_ypanel = WDone [YStreamStart; YDocStart; YMapStart; YScalar (bs "on"); YScalar (bs "true");
    YScalar (bs "levels"); YSeqStart; YScalar (bs "12.5"); YScalar (bs "0.5"); YSeqEnd; YScalar (bs "name"); YScalar (bs """a"""); YScalar (bs "n"); YScalar (bs "-3"); YMapEnd; YDocEnd]).
Proof.
  split; [|split; [|intros []; vm_compute; reflexivity]].
  - split; [reflexivity|]. split; [split; [reflexivity|unfold val_ypanel; cbn -[fits bytes_in]; conds]|]. split; [unfold distinct_names; cbn; conds|].
    split; [unfold no_null_like, val_ypanel; cbn; conds|]. split; [reflexivity|discriminate].
  - unfold yaml_reread, val_ypanel. cbn. ytexts; try reflexivity; eexists; reflexivity.
Qed.
(** From a document with an integer in another spelling; a list in place of an object; a name that is not UTF-8. *)
Definition op_strict : operators := mkOperators (fun z => [200 + z]) (fun t => if beq t (bs "x") then Some (1, true) else None).
Example C92_other_example : custom_yaml_reads_as yaml_panel (bs "__type") (TTup [TInt IShort; TInt IInt]) (VList [VInt 1; VInt 5]) (Arr [Scal (bs "true"); Scal (bs " +5")]) /\
  (forall s, Arr [Scal (bs "x")] = Scal s -> o_get op_strict s = None) /\ (forall s, Scal (bs "y") = Scal s -> o_get op_strict s = None) /\
  first_fault_with bad_text (object_fault bad_text (fun _ => Some op_strict)) (bs "__type") (TVec (TInt IInt)) (VList [VInt 0]) = Some Element /\
  first_fault_with bad_text (object_fault bad_text (fun _ => Some op_strict)) (bs "__type") (TInt IInt) (VInt 0) = Some Whole.
Proof.
  split; [|repeat split; try (intros s H; first [discriminate H|injection H as <-; reflexivity])].
  cbn. do 2 eexists. split; [reflexivity|]. split; [reflexivity|]. cbn. ytexts; (do 2 eexists; split; [reflexivity|]; split; [reflexivity|]).
  - split; [reflexivity|]. exists true. reflexivity.
  - exact (yi_plus [32] [53] ltac:(repeat constructor) ltac:(split; [discriminate|repeat constructor; lia])).
Qed.
(** A pointer to an object whose text is null or ~ comes back as a null pointer. *)
Definition op_tilde : operators := mkOperators (fun _ => bs "~") (fun t => if beq t (bs "~") then Some (1, true) else None).
Theorem C92_round_trip_refuted : exists custom t v es v' s, wf t = true /\ valid t v /\ reread custom t v /\ ycust_events custom pf_default out_good ToStream t v = WDone es /\
  ycust_extract custom 10 pc_default t (default t) (calls_for es) (src_init StrIn []) = Returned v' s /\ v' <> v.
Proof.
  exists (fun _ => Some op_tilde), (TPtr (TInt IInt)), (VPtr (Some (VInt 1))). eexists. eexists. eexists. split; [reflexivity|]. split; [split; [reflexivity|cbn -[fits]; conds]|].
  split; [unfold reread; cbn; ytexts; eexists; reflexivity|]. split; [vm_compute; reflexivity|]. split; [vm_compute; reflexivity|discriminate].
Qed.
Print Assumptions C92_round_trip_refuted.
