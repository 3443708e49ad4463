(** C80 and C81: sets, multisets, maps and multimaps whose keys are no strings, vector<bool>.

    [TSeq co t]: the container [co] of [t] (Model/Types.v);
    [collects co old l new]: [new] is what a container that holds [old] holds when the elements [l] have been added
    (Spec/Containers.v);
    [json_extract], [bson_extract], [yaml_extract]: whole imports;
    [accepts cfg k t v text v']: importing [text] into a [t] that holds [v] gives [v']. *)
From Coq Require Import ZArith String List Bool Lia ZifyBool.
From Verif Require Import Model.Base Model.Source Model.Unicode Model.Number Model.ParserInterface
  Model.Types Model.Importer Model.Printer Model.JsonPrinter Model.Serializer Model.Exporter Model.BsonPrinter Model.BsonParser Model.BsonDoc Model.Yaml
  Spec.JsonString Spec.Json Spec.Typed Spec.Import Spec.Denotes Spec.Sizes Spec.Bson Spec.BsonDenotes Spec.Containers
  Proofs.Tac Proofs.TypedP Proofs.InterpP Proofs.ImportP Proofs.DenotesP Proofs.ExportP Proofs.OrderP Proofs.CollectP Proofs.MemberDocP Proofs.BinaryP Proofs.BsonSim Proofs.BsonImportP Proofs.BsonExportP Proofs.BsonCheck Proofs.JsonCheck
  Properties.Imports Properties.Members Properties.Exports Properties.Printing Properties.Bson Properties.Projections.
Import ListNotations.
Open Scope Z_scope.

(** ** C80.  From every source, a container accepts what a vector accepts, fails where a vector fails, and then holds its elements
    and those that the vector has. *)
Definition as_vector (co : cont) (old : list val) (vector container : import_result) : Prop :=
  match vector with
  | Returned (VList l) s => exists new, container = Returned (VList new) s /\ collects co old l new
  | Returned _ _ => False
  | r => container = r
  end.
Theorem C80_json : forall fuel cfg co t old s, in_order co old ->
  as_vector co old (json_extract fuel cfg (TVec t) (VList []) s) (json_extract fuel cfg (TSeq co t) (VList old) s).
Proof.
  intros fuel cfg co t old s H. rewrite (json_gather fuel cfg co t old s). destruct (json_extract fuel cfg (TVec t) (VList []) s) as [v s'| | |] eqn:E; try reflexivity.
  apply json_vector in E as (l & ->). cbn [as_vector result_gather gathered]. eexists. split; [reflexivity|now apply added_collects].
Qed.
Print Assumptions C80_json.
Theorem C80_bson : forall fuel cfg co t old s, in_order co old ->
  as_vector co old (bson_extract fuel cfg (TVec t) (VList []) s) (bson_extract fuel cfg (TSeq co t) (VList old) s).
Proof.
  intros fuel cfg co t old s H. rewrite (bson_gather fuel cfg co t old s). destruct (bson_extract fuel cfg (TVec t) (VList []) s) as [v s'| | |] eqn:E; try reflexivity.
  apply bson_vector in E as (l & ->). cbn [as_vector result_gather gathered]. eexists. split; [reflexivity|now apply added_collects].
Qed.
Print Assumptions C80_bson.
Theorem C80_yaml : forall fuel cfg co t old calls s, in_order co old ->
  as_vector co old (yaml_extract fuel cfg (TVec t) (VList []) calls s) (yaml_extract fuel cfg (TSeq co t) (VList old) calls s).
Proof.
  intros fuel cfg co t old calls s H. rewrite (yaml_gather fuel cfg co t old calls s). destruct (yaml_extract fuel cfg (TVec t) (VList []) calls s) as [v s'| | |] eqn:E; try reflexivity.
  apply yaml_vector in E as (l & ->). cbn [as_vector result_gather gathered]. eexists. split; [reflexivity|now apply added_collects].
Qed.
Print Assumptions C80_yaml.
(** The elements are those of the document. *)
Theorem C80_document : forall cfg k co t old l text v', wf (TSeq co t) = true -> shaped (TSeq co t) (VList old) = true -> in_order co old ->
  document (Arr l) text -> exact_skips cfg k (TSeq co t) (Arr l) -> accepts cfg k (TSeq co t) (VList old) text v' ->
  exists elems new, v' = VList new /\ Forall2 (reads_as cfg k t (default t)) l elems /\ collects co old elems new.
Proof.
  intros cfg k co t old l text v' W S H D X A. destruct (seq_run cfg k co t old l v') as (elems & E & F); [eapply doc_meaning; eassumption|].
  exists elems, (fold_left (seq_add co) elems old). split; [exact E|]. split; [|now apply added_collects].
  apply wf_seq in W. clear D X A E. induction F; constructor; auto using meaning_reads.
Qed.
Print Assumptions C80_document.
(** There is only one such content. *)
Theorem C80_one_content : forall co old l a b, collects co old l a -> collects co old l b -> a = b.
Proof. exact collects_one. Qed.
Print Assumptions C80_one_content.

Definition ty_pair (a b : ty) : ty := TStruct (mkSinfo [bs "first"; bs "second"] [] [] false false true) [a; b] [].
Definition pair_of (a b : val) : val := VStruct [a; b] [].
Definition ty_numbered (co : cont) : ty := TSeq co (ty_pair (TInt IInt) TStr).
Definition numbered (l : list (Z * string)) : list val := map (fun kv => pair_of (VInt (fst kv)) (VStr (bs (snd kv)))) l.
Example C80_example : forall k,
  accepts pc_default k (TSeq CSet (TInt IInt)) (VList [VInt 5]) (bs "[7,-1,5,7]") (VList [VInt (-1); VInt 5; VInt 7]) /\
  accepts pc_default k (TSeq CMultiset TStr) (VList []) (bs "[""b"",""a"",""b""]") (VList [VStr (bs "a"); VStr (bs "b"); VStr (bs "b")]) /\
  accepts pc_default k (TSeq CBits TBool) (VList []) (bs "[true,false]") (VList [VBool true; VBool false]) /\
  accepts pc_default k (ty_numbered CMap) (VList (numbered [(3, "old"%string)])) (bs "[{""first"":3,""second"":""new""},{""first"":1,""second"":""x""},{""first"":1,""second"":""y""}]")
    (VList (numbered [(1, "x"%string); (3, "old"%string)])) /\
  accepts pc_default k (ty_numbered CMultimap) (VList (numbered [(3, "old"%string)])) (bs "[{""first"":3,""second"":""new""},{""first"":1,""second"":""x""},{""first"":1,""second"":""y""}]")
    (VList (numbered [(1, "x"%string); (1, "y"%string); (3, "old"%string); (3, "new"%string)])).
Proof. intros []; (split; [|split; [|split; [|split]]]); (eapply doc_imports; [doc|vm_compute; reflexivity]). Qed.

(** ** C81.  Full claim: after an import a map has, for every key in the document, the value that the document gives for it.  Proved
    for keys that the map did not have before and that occur once in the document. *)
Theorem C81_entries_partial : forall old a k v b new, collects CMap old (a ++ VStruct [k; v] [] :: b) new ->
  Forall (fun x => ~ has_key CMap k x) (old ++ a ++ b) -> with_key CMap k new [VStruct [k; v] []].
Proof.
  intros old a k v b new [_ H] F. rewrite !Forall_app in F. destruct F as (F1 & F2 & F3). apply (H k [VStruct [k; v] []]).
  assert (N : forall l1 l2 r, Forall (fun x => ~ has_key CMap k x) l1 -> with_key CMap k l2 r -> with_key CMap k (l1 ++ l2) r).
  { intros l1 l2 r F W. induction F; [exact W|]. cbn [app]. now apply wk_no. }
  apply N; [exact F1|]. apply N; [exact F2|]. apply wk_yes; [reflexivity|]. rewrite <- (app_nil_r b). apply N; [exact F3|constructor].
Qed.
Print Assumptions C81_entries_partial.
(** A key that the map already has keeps its value. *)
Theorem C81_old_entries : forall old l new k r, collects CMap old l new -> in_order CMap old -> with_key CMap k old r -> r <> [] -> with_key CMap k new r.
Proof.
  intros old l new k r [_ H] O W N. assert (E : exists s, with_key CMap k (old ++ l) (r ++ s)).
  { exists (filter (keyb CMap k) l). apply with_key_filter. apply with_key_filter in W. now rewrite filter_app, W. }
  destruct E as (s & E). specialize (H k _ E). apply with_key_filter in W. assert (Q := strict_one CMap k old O). rewrite <- W in Q. rewrite <- Q.
  destruct r as [|x [|y r]]; [congruence|exact H|discriminate Q].
Qed.
Print Assumptions C81_old_entries.
Theorem C81_refuted : exists text, forall k, accepts pc_default k (ty_numbered CMap) (VList (numbered [(3, "old"%string)])) text (VList (numbered [(3, "old"%string)])) /\
  accepts pc_default k (ty_numbered CMap) (VList []) text (VList (numbered [(3, "new"%string)])).
Proof. exists (bs "[{""first"":3,""second"":""new""}]"). intros []; split; (eapply doc_imports; [doc|vm_compute; reflexivity]). Qed.
Print Assumptions C81_refuted.

(** ** C26 and C41 for these containers: what is exported is imported again. *)
Definition ty_containers : ty := TStruct (mkSinfo [bs "s"; bs "m"; bs "mm"; bs "b"] [] [] false false false)
  [TSeq CSet TStr; ty_numbered CMap; TSeq CMultimap (ty_pair TBool (TVec (TInt IShort))); TSeq CBits TBool] [].
Definition val_containers : val := VStruct [VList [VStr (bs "a"); VStr (bs "ab"); VStr (bs "b")]; VList (numbered [(-7, "x"%string); (12, ""%string)]);
  VList [pair_of (VBool false) (VList [VInt 1]); pair_of (VBool false) (VList []); pair_of (VBool true) (VList [VInt 2])]; VList [VBool true; VBool true; VBool false]] [].
Ltac before :=
  match goal with |- each_before ?R ?l => let r := eval vm_compute in l in change (each_before R r) end;
  repeat match goal with
  | |- each_before _ _ => constructor
  | |- Forall _ _ => constructor
  | |- val_cmp _ _ = Lt => reflexivity
  | |- val_cmp _ _ <> Gt => discriminate
  end.
Lemma containers_back : reads_back Strict (bs "__type") ty_containers val_containers.
Proof.
  unfold reads_back. split; [reflexivity|]. split; [split; [reflexivity|]; cbn -[fits bytes_in val_cmp key_of]; conds; before|].
  split; [unfold distinct_names; cbn -[fits]; conds|]. split; [unfold no_null_target; cbn; conds|]. split; [reflexivity|discriminate].
Qed.
Example C26_containers_example : forall src, exists out, json_export pf_default ToStream ty_containers val_containers = Exported out /\
  accepts (pc_mode Strict) src ty_containers (default ty_containers) out val_containers.
Proof.
  intros src. assert (E : exists out, json_export pf_default ToStream ty_containers val_containers = Exported out) by (eexists; vm_compute; reflexivity).
  destruct E as (out & E). exists out. split; [exact E|]. apply (C26_round_trip_partial pf_default ToStream); [reflexivity|reflexivity| | | | | |exact E].
  - exact containers_back.
  - unfold plain_keys. cbn -[plain]. conds.
  - unfold plain_names. cbn -[plain_name bytes_in]. conds.
  - cbn [pf_default pf_marker]. conds.
  - intros _. right. unfold indent_room. cbn. lia.
Qed.
Example C41_containers_example : forall src, exists out, bson_export pf_default ToStream false None ty_containers val_containers = BExported out 0 /\
  bson_imports (pc_mode Strict) src ty_containers (default ty_containers) out val_containers [].
Proof.
  intros src. assert (E : exists out, bson_export pf_default ToStream false None ty_containers val_containers = BExported out 0 /\ len out < 2 ^ 31).
  { eexists. split; [vm_compute; reflexivity|vm_compute; reflexivity]. }
  destruct E as (out & E & L). exists out. split; [exact E|].
  apply (C41_round_trip_partial pf_default ToStream (pc_mode Strict) src ty_containers val_containers out 0); [reflexivity| | | |reflexivity|reflexivity|reflexivity| |exact E|exact L|discriminate].
  - exact containers_back.
  - unfold bson_type. cbn -[plain nul_free]. unfold nul_free. conds.
  - unfold bson_text. cbn -[plain nul_free]. unfold nul_free. conds.
  - unfold nul_free. cbn. conds.
Qed.

(** ** Pairs announce a wrong size: in JSON always (C25), in BSON when one of the two is an empty optional (C40). *)
Theorem C25_pair_refuted : exists t v out n, wf t = true /\ valid t v /\ plain_keys t v /\ plain_names t /\ sized_value t v /\
  json_export pf_stream ToStream t v = Exported out /\ jsonStreanSize t v = Ok n /\ n < zlen out.
Proof.
  exists (ty_pair TBool TBool), (pair_of (VBool true) (VBool false)). eexists. eexists. split; [reflexivity|]. split; [split; [reflexivity|cbn; conds]|].
  split; [unfold plain_keys; cbn; conds|]. split; [unfold plain_names; cbn -[plain_name bytes_in]; conds|]. split; [unfold sized_value; cbn; conds|].
  split; [vm_compute; reflexivity|]. split; [vm_compute; reflexivity|]. vm_compute. reflexivity.
Qed.
Print Assumptions C25_pair_refuted.
Theorem C40_pair_refuted : exists t v out, wf t = true /\ valid t v /\ bson_type t /\ marker_framed (AsValue false) t = true /\ bson_rootable t = true /\
  bson_export pf_default ToStream false None t v = BExported out 0 /\ forall Name j, ~ bson_document Name j out.
Proof.
  exists (ty_pair TBool (TOpt TBool)), (pair_of (VBool true) (VOpt None)). eexists. split; [reflexivity|]. split; [split; [reflexivity|cbn; conds]|].
  split; [unfold bson_type; cbn -[plain nul_free]; unfold nul_free; conds|]. split; [reflexivity|]. split; [reflexivity|]. split; [vm_compute; reflexivity|].
  intros Name j D. assert (Q := wrong_length _ _ _ D _ _ _ _ _ eq_refl ltac:(reflexivity)). discriminate Q.
Qed.
Print Assumptions C40_pair_refuted.
