(** C78 and C79: projections in BSON (BsonThor.h:149-182).

    [bson_export c k true ids t v], [bflt_export c k true ids t v]: exporting Projection<T>{v}, without and with floats and
    doubles in [T];
    [ones j]: the document [j] with the number 1 for every value that is no object or array (Spec/Projection.v);
    [holder_export marker i t v]: exporting a class with one member of type Projection<T>. *)
From Coq Require Import ZArith String List Bool Lia ZifyBool.
From Verif Require Import Model.Base Model.Source Model.Number Model.ParserInterface
  Model.Types Model.Importer Model.Printer Model.JsonPrinter Model.Serializer Model.Exporter Model.Float Model.BsonPrinter Model.BsonDoc Model.BsonFloat Model.Projection
  Spec.JsonString Spec.Json Spec.Typed Spec.Import Spec.Denotes Spec.Sizes Spec.Float Spec.Bson Spec.BsonDenotes Spec.BsonFloat Spec.Projection
  Proofs.Tac Proofs.TypedP Proofs.BsonSim Proofs.BsonImportP Proofs.BinaryP Proofs.TreeM Proofs.BsonExportP Proofs.BsonRoundP Proofs.BsonCheck Proofs.AlikeP Proofs.BsonFloatDocP Proofs.ProjectP
  Properties.Imports Properties.Exports Properties.Bson Properties.Floats Properties.BsonFloats.
Import ListNotations.
Open Scope Z_scope.

(** ** C78.  Full claim: a projection is written as the document of its value with 1 for every value.  Proved under the
    conditions of C40, when the value is an object or an array. *)
Notation one_num := (fun (_ : ity) (_ : Z) (a : bscal) => a = BInt32 1).
Lemma project_any : forall num szn Int, (forall ids, num_out true ids num szn one_num) -> (forall i z, exists a, Int i z a) ->
  forall c k ids t v, wf t = true -> bson_type t -> bson_text t v -> marker_framed (AsValue false) t = true ->
  bson_rootable t = true -> null_written t v = false -> bson_root t <> BValue -> nul_free (pf_marker c) -> twelve ids ->
  let P := bson_with num szn (bson_printer true ids) in
  (forall out n, export_with P c k true t v = BExported out n -> len out < 2 ^ 31 ->
    exists j j', d_val (Sn Int (pf_marker c) t) v j /\ written ids (ones j) j' /\ bson_document decimal_name j' out) /\
  (forall j, d_val (Sn Int (pf_marker c) t) v j -> exists out n, export_with P c k true t v = BExported out n).
Proof.
  intros num szn Int HO HI c k ids t v W T V M R N Rt Mk I P.
  assert (G : forall j, d_val (Sn Int (pf_marker c) t) v j -> exists out n j', export_with P c k true t v = BExported out n /\ written ids (ones j) j' /\ (len out < 2 ^ 31 -> bson_document decimal_name j' out)).
  { intros j Hj. assert (H1 : d_val (Snp true one_num (pf_marker c) t) v (ones j)).
    { refine (proj1 (ones_stand _ _ _ _ _ _ _ _ _ _ _ _ _ _ t) v j Hj); reflexivity. }
    assert (H2 : true = true -> is_one (ones j) = false).
    { intros _. assert (Sh := root_shape _ _ _ _ _ _ H1 R N). destruct (ones j); [destruct (Rt Sh)|reflexivity|reflexivity]. }
    destruct (export_document_in true ids (pf_marker c) num szn one_num (HO ids) I Mk t v (ones j) W T V M R N H1 H2 c k eq_refl) as (out & n & j' & E & A & _ & D & _).
    exists out, n, j'. auto. }
  split.
  - intros out n E L. destruct (exported_with P Int HI c k true t v out n E) as (j & Hj). destruct (G j Hj) as (o & m & j' & E' & A & D).
    rewrite E in E'. injection E' as <- <-. exists j, j'. auto.
  - intros j Hj. destruct (G j Hj) as (o & m & j' & E' & _). eauto.
Qed.
Lemma one_int : forall ids, num_out true ids (bs_int true) (bs_szInt true) one_num.
Proof. intros ids i z a ->. exact (one_out ids). Qed.
Lemma one_float : forall ids, num_out true ids (bs_num true) (bs_szInt true) one_num.
Proof. intros ids i z a ->. cbn [bson_with bson_printer pr_szInt bs_size]. unfold bs_num. destruct (flt_of i); exact (one_out ids). Qed.

Theorem C78_projection_partial : forall c k ids t v out n, wf t = true -> bson_type t -> bson_text t v -> marker_framed (AsValue false) t = true ->
  bson_rootable t = true -> null_written t v = false -> bson_root t <> BValue -> nul_free (pf_marker c) -> twelve ids ->
  bson_export c k true ids t v = BExported out n -> len out < 2 ^ 31 ->
  exists j j', bson_stands (pf_marker c) t v j /\ written ids (ones j) j' /\ bson_document decimal_name j' out.
Proof. intros c k ids t v out n W T V M R N Rt Mk I. exact (proj1 (project_any (bs_int true) (bs_szInt true) BsonDenotes.bson_int one_int bson_int_some c k ids t v W T V M R N Rt Mk I) out n). Qed.
Print Assumptions C78_projection_partial.
Theorem C78_exports : forall c k ids t v j, wf t = true -> bson_type t -> bson_text t v -> marker_framed (AsValue false) t = true ->
  bson_rootable t = true -> null_written t v = false -> bson_root t <> BValue -> nul_free (pf_marker c) -> twelve ids ->
  bson_stands (pf_marker c) t v j -> exists out n, bson_export c k true ids t v = BExported out n.
Proof. intros c k ids t v j W T V M R N Rt Mk I. exact (proj2 (project_any (bs_int true) (bs_szInt true) BsonDenotes.bson_int one_int bson_int_some c k ids t v W T V M R N Rt Mk I) j). Qed.
Print Assumptions C78_exports.
Theorem C78_floats_partial : forall c k ids t v out n, wf t = true -> bson_type t -> bson_text t v -> marker_framed (AsValue false) t = true ->
  bson_rootable t = true -> null_written t v = false -> bson_root t <> BValue -> nul_free (pf_marker c) -> twelve ids -> patterns t v ->
  bflt_export c k true ids t v = BExported out n -> len out < 2 ^ 31 ->
  exists j j', bson_float_stands (pf_marker c) t v j /\ written ids (ones j) j' /\ bson_document decimal_name j' out.
Proof.
  intros c k ids t v out n W T V M R N Rt Mk I Pt E L.
  destruct (proj1 (project_any (bs_num true) (bs_szInt true) exact_num one_float exact_some c k ids t v W T V M R N Rt Mk I) out n E L) as (j & j' & Hj & A & D).
  exists j, j'. split; [|auto]. exact (proj1 (sense_refine _ exact_num bson_num exact_bson _ _ _ _ _ _ t) v j Pt Hj).
Qed.
Print Assumptions C78_floats_partial.
(** The class of C40's example: numbers, strings, a null pointer's place, an array of objects, and an empty optional that is left out. *)
Example C78_example : exists out n, bson_export pf_default ToStream true None ty_bson (val_bson None) = BExported out n /\ len out < 2 ^ 31 /\
  firstn 13 (skipn 4 out) = [16; 107; 101; 121; 0; 1; 0; 0; 0; 4; 116; 97; 103].
Proof.
  assert (E : exists out n, bson_export pf_default ToStream true None ty_bson (val_bson None) = BExported out n /\ (len out <? 2 ^ 31) = true /\
    firstn 13 (skipn 4 out) = [16; 107; 101; 121; 0; 1; 0; 0; 0; 4; 116; 97; 103]).
  { eexists. eexists. split; [vm_compute; reflexivity|]. split; vm_compute; reflexivity. }
  destruct E as (out & n & E & L & F). exists out, n. split; [exact E|]. split; [lia|exact F].
Qed.
Example C78_conditions : bson_root ty_bson <> BValue /\ bson_root ty_floats <> BValue.
Proof. split; discriminate. Qed.

(** What starts with a wrong length is no document. *)
Lemma wrong_length : forall Name j b, bson_document Name j b -> forall a b0 c d r, b = a :: b0 :: c :: d :: r -> len b < 256 -> a = len b.
Proof.
  intros Name j b D a b0 c d r E L.
  assert (G : forall e, b = little 4 (len e + 5) ++ e ++ [0] -> a = len b).
  { intros e Hb. assert (Le : len b = len e + 5). { rewrite Hb, !len_app, len_little. change (len [0]) with 1. change (Z.of_nat 4) with 4. lia. }
    assert (0 <= len e) by (unfold len; lia). rewrite Le in L |- *. rewrite E in Hb. cbn [little app] in Hb. injection Hb as -> _ _ _ _. apply Z.mod_small. lia. }
  destruct D as [l b D|l b D|x b D]; inversion D; subst; match goal with H : Spec.Bson.framed ?e _ |- _ => apply (G e); now inversion H end.
Qed.
(** A projection of a number has no end mark. *)
Theorem C78_value_refuted : exists t v out n, bson_export pf_default ToStream true None t v = BExported out n /\ forall Name j, ~ bson_document Name j out.
Proof.
  exists (TInt IInt), (VInt 5). eexists. eexists. split; [vm_compute; reflexivity|]. intros Name j D.
  assert (Q := wrong_length _ _ _ D _ _ _ _ _ eq_refl ltac:(reflexivity)). discriminate Q.
Qed.
Print Assumptions C78_value_refuted.

(** ** C79.  Full claim: a class with a projection as a member is written as the document of the class, with 1 in the place of
    every value of that member.  It is not a BSON document: the length of the outer object counts the values that are not written. *)
Theorem C79_member_refuted : exists i t v out, wf (TStruct i [t] []) = true /\ bson_type (TStruct i [t] []) /\ bson_text (TStruct i [t] []) v /\
  marker_framed (AsValue false) (TStruct i [t] []) = true /\ holder_export (bs "__type") i t v = Ok out /\ forall Name j, ~ bson_document Name j out.
Proof.
  exists (mkSinfo [bs "projection"] [] (bs "Find") false false false), ty_point, (VStruct [point 1 (bs "name")] []). eexists.
  split; [reflexivity|]. split; [unfold bson_type; cbn -[plain nul_free]; unfold nul_free; conds|]. split; [unfold bson_text; cbn -[plain nul_free]; unfold nul_free; conds|].
  split; [reflexivity|]. split; [vm_compute; reflexivity|]. intros Name j D.
  assert (Q := wrong_length _ _ _ D _ _ _ _ _ eq_refl ltac:(reflexivity)). discriminate Q.
Qed.
Print Assumptions C79_member_refuted.
