(** C40-C44: BSON.

    [bson_export c k proj ids t v]: what exporting [v] as BSON to a stream or a string gives: the bytes, and how many ids were
    added to the IdStore;
    [bson_document Name j b]: [b] is the BSON document of the tree [j], where the i-th element of an array is called [n] with
    [Name i n]; every length field is right (Spec/Bson.v, written from bsonspec.org);
    [bson_stands marker t v j]: [j] is the document of the value [v] (Spec/BsonDenotes.v);
    [bson_imports cfg k t v b v' rest]: importing [b] into a [t] that holds [v] gives [v'] and leaves [rest] unread. *)
From Coq Require Import ZArith String List Bool Lia ZifyBool.
From Verif Require Import Model.Base Model.Source Model.Unicode Model.Number Model.ParserInterface
  Model.Types Model.Importer Model.Printer Model.JsonPrinter Model.Serializer Model.Exporter Model.Binary Model.BsonPrinter Model.BsonParser Model.BsonDoc
  Spec.JsonString Spec.Json Spec.Typed Spec.Import Spec.Denotes Spec.Sizes Spec.Bson Spec.BsonDenotes
  Proofs.Tac Proofs.TypedP Proofs.DenotesP Proofs.ExportP Proofs.LexP Proofs.BinaryP Proofs.BsonSim Proofs.BsonImportP Proofs.BsonExportP Proofs.BsonNamesP Proofs.BsonCheck Proofs.BsonRoundP Proofs.JsonCheck
  Properties.Imports Properties.Members Properties.Exports.
Import ListNotations.
Open Scope Z_scope.

(** ** C40.  Full claim: every length field is right, for every value.  Proved for values without characters that JSON
    escapes, where the type field is counted where it is written, that are not optionals or variants at the root, and below
    2^31 bytes.  The document is that of the value; with an IdStore the objects of its arrays have ids. *)
Definition twelve (ids : option (nat -> bytes)) : Prop := forall f n, ids = Some f -> List.length (f n) = 12%nat.
Theorem C40_lengths_partial : forall c k ids t v out n, wf t = true -> bson_type t -> bson_text t v -> marker_framed (AsValue false) t = true ->
  bson_rootable t = true -> null_written t v = false -> nul_free (pf_marker c) -> twelve ids ->
  bson_export c k false ids t v = BExported out n -> len out < 2 ^ 31 ->
  exists j j', bson_stands (pf_marker c) t v j /\ written ids j j' /\ bson_document decimal_name j' out.
Proof.
  intros c k ids t v out n W T V M R N Mk I E L. destruct (exported_doc _ _ _ _ _ _ _ _ E) as (j & Hj).
  destruct (bson_export_document ids (pf_marker c) I Mk t v j W T V M R N Hj c k eq_refl) as (o & m & j' & E' & A & _ & D & _).
  rewrite E in E'. injection E' as <- <-. exists j, j'. auto.
Qed.
Print Assumptions C40_lengths_partial.
(** Every value that has a document is exported. *)
Theorem C40_exports : forall c k ids t v j, wf t = true -> bson_type t -> bson_text t v -> marker_framed (AsValue false) t = true ->
  bson_rootable t = true -> null_written t v = false -> nul_free (pf_marker c) -> twelve ids ->
  bson_stands (pf_marker c) t v j -> exists out n, bson_export c k false ids t v = BExported out n.
Proof.
  intros c k ids t v j W T V M R N Mk I Hj.
  destruct (bson_export_document ids (pf_marker c) I Mk t v j W T V M R N Hj c k eq_refl) as (o & m & j' & E' & _). eauto.
Qed.
Print Assumptions C40_exports.
Definition ty_va : ty := TStruct (mkSinfo [bs "x"] [] (bs "A") false true false) [TInt IUInt] [].
Definition ty_vb : ty := TStruct (mkSinfo [bs "y"] [] (bs "B") false true false) [TStr] [].
Definition ty_ma : ty := TStruct (mkSinfo [bs "x"] [] (bs "MA") true false false) [TInt IUShort] [].
Definition ty_mb : ty := TStruct (mkSinfo [bs "y"] [] (bs "MB") true false false) [TStr] [].
Definition ty_bson : ty :=
  TStruct (mkSinfo [bs "id"; bs "tags"; bs "next"; bs "opt"; bs "any"; bs "tab"; bs "var"; bs "pts"] [(bs "id", bs "key")] (bs "All") false false false)
    [TInt ILong; TVec TStr; TPtr ty_derived; TOpt TBool; TPoly [ty_va; ty_vb] [bs "C"]; TMap MPlace (TTup [ty_color; TArr 2 (TInt IShort)]);
     TVariant [ty_ma; ty_mb]; TVec ty_point] [ty_point].
Definition val_bson (o : option val) : val :=
  VStruct [VInt (-5); VList [VStr (bs "one"); VStr [200; 7 * 5]]; VPtr (Some (derived 1 (bs "q") true)); VOpt o; VPtr (Some (VVar 0 (VStruct [VInt 4294967295] [])));
           VMap [(bs "a", VList [VInt 1; VList [VInt 7; VInt (-8)]])]; VVar 1 (VStruct [VStr (bs "s")] []); VList [point 1 []; point 2 (bs "p")]] [point 3 (bs "y")].
Lemma bson_conditions : forall o, o = None \/ o = Some (VBool true) ->
  wf ty_bson = true /\ bson_type ty_bson /\ bson_text ty_bson (val_bson o) /\ marker_framed (AsValue false) ty_bson = true /\
  bson_rootable ty_bson = true /\ null_written ty_bson (val_bson o) = false /\ nul_free (bs "__type").
Proof.
  intros o Ho. split; [reflexivity|]. split; [|split; [|repeat split; try reflexivity; unfold nul_free; conds]].
  - unfold bson_type. cbn -[plain nul_free]. unfold nul_free. conds.
  - unfold bson_text. destruct Ho as [->| ->]; cbn -[plain nul_free]; unfold nul_free; conds.
Qed.
Example C40_example : forall k, exists out n j j', bson_export pf_default k false (Some (fun n => repeat (Z.of_nat n) 12)) ty_bson (val_bson None) = BExported out n /\
  bson_stands (pf_marker pf_default) ty_bson (val_bson None) j /\ gets_ids j j' /\ bson_document decimal_name j' out /\ len out = 306.
Proof.
  intro k.
  assert (E : exists out n, bson_export pf_default k false (Some (fun n => repeat (Z.of_nat n) 12)) ty_bson (val_bson None) = BExported out n /\ len out = 306).
  { destruct k; eexists _, _; (split; [vm_compute; reflexivity|vm_compute; reflexivity]). }
  destruct E as (out & n & E & L). destruct (bson_conditions None (or_introl eq_refl)) as (W & T & V & M & R & N & Mk).
  assert (I : twelve (Some (fun n => repeat (Z.of_nat n) 12))) by (intros f m Hf; injection Hf as <-; reflexivity).
  destruct (C40_lengths_partial pf_default k _ _ _ out n W T V M R N Mk I E ltac:(lia)) as (j & j' & Hj & A & D).
  exists out, n, j, j'. auto.
Qed.
(** Otherwise the claim is false. *)
Lemma document_length : forall Name j b, bson_document Name j b -> firstn 4 b = little 4 (len b) /\ last b 1 = 0.
Proof.
  assert (G : forall e b, framed e b -> firstn 4 b = little 4 (len b) /\ last b 1 = 0).
  { intros e b [L]. split; [|rewrite app_assoc; apply last_last]. rewrite firstn_app, little_length, Nat.sub_diag, firstn_O, app_nil_r, firstn_all2 by (rewrite little_length; lia).
    f_equal. rewrite !len_app, len_little. change (len [0]) with 1. lia. }
  intros Name j b H. destruct H as [l b H|l b H|a b H]; inversion H; subst; eapply G; eassumption.
Qed.
Ltac wrong_length := let D := fresh in intros ? ? D; apply document_length in D as [D ?]; vm_compute in D; discriminate D.
(** A string with a character that is escaped: the size of what contains it is that of the string without escapes. *)
Theorem C40_escapes_refuted : exists t v out, wf t = true /\ valid t v /\ bson_export pf_default ToStream false None t v = BExported out 0 /\
  forall Name j, ~ bson_document Name j out.
Proof.
  exists (TVec TStr), (VList [VStr [10]]). eexists. split; [reflexivity|]. split; [split; [reflexivity|]; cbn -[bytes_in]; conds|]. split; [vm_compute; reflexivity|wrong_length].
Qed.
Print Assumptions C40_escapes_refuted.
(** The type field of a class in a variant is written but not counted, unless the class declares the name of its type field. *)
Theorem C40_variant_refuted : exists t v out, wf t = true /\ valid t v /\ bson_text t v /\ bson_export pf_default ToStream false None t v = BExported out 0 /\
  forall Name j, ~ bson_document Name j out.
Proof.
  exists (TVec (TVariant [ty_a; ty_b])), (VList [VVar 1 (VStruct [VStr (bs "q")] [])]). eexists. split; [reflexivity|].
  split; [split; [reflexivity|]; cbn -[bytes_in]; conds|]. split; [unfold bson_text; cbn -[plain]; conds|]. split; [vm_compute; reflexivity|wrong_length].
Qed.
Print Assumptions C40_variant_refuted.
(** The type field of a class with virtual functions that is held by value and declares the name of its type field. *)
Theorem C40_by_value_refuted : exists t v out, wf t = true /\ valid t v /\ bson_text t v /\ bson_export pf_default ToStream false None t v = BExported out 0 /\
  forall Name j, ~ bson_document Name j out.
Proof.
  exists (TStruct (mkSinfo [bs "x"] [] (bs "A") true true false) [TInt IInt] []), (VStruct [VInt 1] []). eexists. split; [reflexivity|].
  split; [split; [reflexivity|]; cbn -[fits]; conds|]. split; [unfold bson_text; cbn -[plain]; conds|]. split; [vm_compute; reflexivity|wrong_length].
Qed.
Print Assumptions C40_by_value_refuted.
(** A scalar in an optional at the root lacks the zero at the end; a variant has one too many. *)
Theorem C40_optional_refuted : exists t v out, wf t = true /\ valid t v /\ bson_text t v /\ bson_export pf_default ToStream false None t v = BExported out 0 /\
  forall Name j, ~ bson_document Name j out.
Proof.
  exists (TOpt (TInt IInt)), (VOpt (Some (VInt 1))). eexists. split; [reflexivity|].
  split; [split; [reflexivity|]; cbn -[fits]; conds|]. split; [unfold bson_text; cbn -[plain]; conds|]. split; [vm_compute; reflexivity|wrong_length].
Qed.
Print Assumptions C40_optional_refuted.
Theorem C40_root_variant_refuted : exists t v out, wf t = true /\ valid t v /\ bson_text t v /\ marker_framed (AsValue false) t = true /\
  bson_export pf_default ToStream false None t v = BExported out 0 /\ forall Name j, ~ bson_document Name j out.
Proof.
  exists (TVariant [ty_ma; ty_mb]), (VVar 0 (VStruct [VInt 1] [])). eexists. split; [reflexivity|].
  split; [split; [reflexivity|]; cbn -[fits]; conds|]. split; [unfold bson_text; cbn -[plain]; conds|]. split; [reflexivity|]. split; [vm_compute; reflexivity|wrong_length].
Qed.
Print Assumptions C40_root_variant_refuted.
(** A value of an enumeration that has no name: the size of what contains it is computed from a dereferenced end iterator. *)
Theorem C40_enum_refuted : exists t v, wf t = true /\ valid t v /\ forall k, bson_export pf_default k false None t v = BExportUB.
Proof.
  exists (TVec ty_color), (VList [VInt 2]). split; [reflexivity|]. split; [split; [reflexivity|]; cbn; conds|]. intros []; vm_compute; reflexivity.
Qed.
Print Assumptions C40_enum_refuted.

(** ** C41.  Full claim: for every value.  Proved: with the conditions of C40, without IdStore, for the values that are also
    read back from JSON (C26).  With validateNoTrailingData scalars at the root are excluded. *)
Theorem C41_round_trip_partial : forall c k cfg src t v out n, pc_marker cfg = pf_marker c -> reads_back (pc_strict cfg) (pf_marker c) t v ->
  bson_type t -> bson_text t v -> marker_framed (AsValue false) t = true -> bson_rootable t = true -> null_written t v = false -> nul_free (pf_marker c) ->
  bson_export c k false None t v = BExported out n -> len out < 2 ^ 31 ->
  (pc_noTrailing cfg = false -> forall tl, bson_imports cfg src t (default t) (out ++ tl) v tl) /\
  (bson_root t <> BValue -> bson_imports cfg src t (default t) out v []).
Proof.
  intros c k cfg src t v out n Hm B T V M R N Mk E L. destruct (exported_doc _ _ _ _ _ _ _ _ E) as (j & Hj).
  destruct (bson_export_document None (pf_marker c) ltac:(discriminate) Mk t v j (proj1 B) T V M R N Hj c k eq_refl) as (o & m & j' & E' & A & Sh & D & _).
  rewrite E in E'. injection E' as <- <-. cbn [written] in A. subst j'. specialize (D L). rewrite <- Hm in *. split.
  - intros Tr tl. now apply (bson_round_trip cfg src t v j).
  - intro Rt. apply (bson_round_trip_whole cfg src t v j); auto. congruence.
Qed.
Print Assumptions C41_round_trip_partial.
Example C41_example : forall src k, exists out, bson_export pf_default k false None ty_bson (val_bson (Some (VBool true))) = BExported out 0 /\
  bson_imports pc_default src ty_bson (default ty_bson) out (val_bson (Some (VBool true))) [].
Proof.
  intros src k.
  assert (E : exists out, bson_export pf_default k false None ty_bson (val_bson (Some (VBool true))) = BExported out 0 /\ len out < 2 ^ 31).
  { destruct k; eexists; (split; [vm_compute; reflexivity|vm_compute; reflexivity]). }
  destruct E as (out & E & L). exists out. split; [exact E|]. destruct (bson_conditions _ (or_intror eq_refl)) as (W & T & V & M & R & N & Mk).
  apply (C41_round_trip_partial pf_default k pc_default src ty_bson (val_bson (Some (VBool true))) out 0); auto; [|discriminate].
  unfold reads_back. split; [exact W|]. split; [split; [reflexivity|]; cbn -[fits bytes_in]; conds|]. split; [unfold distinct_names; cbn -[fits]; conds|].
  split; [unfold no_null_target; cbn; conds|]. split; [intro Q; now destruct Q|discriminate].
Qed.

(** A string whose text JSON would escape comes back with the escapes. *)
Theorem C41_escapes_refuted : exists v out v', valid TStr v /\ bson_export pf_default ToStream false None TStr v = BExported out 0 /\ v' <> v /\
  forall src, bson_imports pc_default src TStr (default TStr) out v' [].
Proof.
  exists (VStr [10]). eexists. exists (VStr [92; 110]). split; [split; [reflexivity|]; cbn -[bytes_in]; conds|]. split; [vm_compute; reflexivity|]. split; [discriminate|].
  intros []; fuels 20%nat; (eexists; split; [vm_compute; reflexivity|split; reflexivity]).
Qed.
Print Assumptions C41_escapes_refuted.
(** An optional class and a variant at the root are exported but cannot be imported. *)
Theorem C41_root_refuted : forall src,
  (exists t v out, wf t = true /\ valid (TOpt t) v /\ bson_export pf_default ToStream false None (TOpt t) v = BExported out 0 /\ bson_rejects pc_default src (TOpt t) (default (TOpt t)) out) /\
  (exists cs v out, wf (TVariant cs) = true /\ valid (TVariant cs) v /\ bson_export pf_default ToStream false None (TVariant cs) v = BExported out 0 /\
     bson_rejects pc_default src (TVariant cs) (default (TVariant cs)) out).
Proof.
  intro src. split.
  - exists ty_point, (VOpt (Some (point 1 (bs "a")))). eexists. split; [reflexivity|]. split; [split; [reflexivity|]; cbn -[fits bytes_in]; conds|]. split; [vm_compute; reflexivity|].
    destruct src; fuels 60%nat; vm_compute; exact I.
  - exists [ty_ma; ty_mb], (VVar 0 (VStruct [VInt 1] [])). eexists. split; [reflexivity|]. split; [split; [reflexivity|]; cbn -[fits]; conds|]. split; [vm_compute; reflexivity|].
    destruct src; fuels 60%nat; vm_compute; exact I.
Qed.
Print Assumptions C41_root_refuted.
(** With validateNoTrailingData no scalar at the root can be imported: the end mark of the document counts as trailing data. *)
Theorem C41_no_trailing_refuted : forall c k cfg src t v out n, pc_marker cfg = pf_marker c -> reads_back (pc_strict cfg) (pf_marker c) t v ->
  bson_type t -> bson_text t v -> bson_rootable t = true -> null_written t v = false -> nul_free (pf_marker c) -> marker_framed (AsValue false) t = true ->
  bson_export c k false None t v = BExported out n -> len out < 2 ^ 31 ->
  bson_root t = BValue -> pc_noTrailing cfg = true -> bson_rejects cfg src t (default t) out.
Proof.
  intros c k cfg src t v out n Hm B T V R N Mk M E L Rt Nt. destruct (exported_doc _ _ _ _ _ _ _ _ E) as (j & Hj).
  destruct (bson_export_document None (pf_marker c) ltac:(discriminate) Mk t v j (proj1 B) T V M R N Hj c k eq_refl) as (o & m & j' & E' & A & Sh & D & _).
  rewrite E in E'. injection E' as <- <-. cbn [written] in A. subst j'. specialize (D L). rewrite <- (app_nil_r out).
  destruct B as (W & [S1 S2] & Dn & Nn & Un & Ex).
  apply (bson_observe_one cfg src j out [] t (default t) (document_any _ _ _ D) Sh v); [|exact Nt|congruence].
  unfold bson_meaning, meaning_with. rewrite Hm. apply bson_reads; [|exact Hj]. unfold fine. auto 10.
Qed.
Print Assumptions C41_no_trailing_refuted.
Definition pc_whole : pconfig := mkPc Weak (bs "__type") true true true.
Example C41_no_trailing_example : exists out, bson_export pf_default ToStream false None (TInt IInt) (VInt 5) = BExported out 0 /\
  forall src, bson_rejects pc_whole src (TInt IInt) (VInt 0) out.
Proof.
  eexists. split; [vm_compute; reflexivity|]. intro src. apply (C41_no_trailing_refuted pf_default ToStream pc_whole src (TInt IInt) (VInt 5) _ 0); try reflexivity.
  - unfold reads_back. split; [reflexivity|]. split; [split; [reflexivity|]; cbn -[fits]; conds|]. split; [unfold distinct_names; cbn -[fits]; conds|].
    split; [unfold no_null_target; cbn; conds|]. split; [intro Q; now destruct Q|discriminate].
  - unfold bson_type. cbn. conds.
  - unfold bson_text. cbn. conds.
  - unfold nul_free. conds.
Qed.

(** ** C42.  [bs_szArray n]: what getSizeArray(n) gives: 4 bytes of length, the elements' types and names with their end
    marks, the end mark of the array. *)
Theorem C42_array_size : forall names, (forall k n, nth_error names k = Some n -> decimal_name (Z.of_nat k) n) ->
  bs_szArray (Z.of_nat (List.length names)) = 4 + fold_right (fun n z => 1 + len n + 1 + z) 0 names + 1.
Proof.
  intros names H. unfold bs_szArray. rewrite index_lengths_names, (names_total names 0) by exact H. clear H.
  induction names as [|n l IH]; [reflexivity|]. cbn [List.length fold_right]. lia.
Qed.
Print Assumptions C42_array_size.
Example C42_size_example : bs_szArray 12 = 4 + (10 * 3 + 2 * 4) + 1 /\ bs_szArray 100000 = 4 + (10 * 3 + 90 * 4 + 900 * 5 + 9000 * 6 + 90000 * 7) + 1.
Proof. split; vm_compute; reflexivity. Qed.
(** The elements of a value that is written as an array. *)
Definition array_parts (t : ty) (v : val) : option (list (ty * val)) :=
  match t, v with
  | TSeq _ t', VList l | TArr _ t', VList l => Some (map (pair t') l)
  | TTup ts, VList l => Some (combine ts l)
  | _, _ => None
  end.
(** [named proj ids marker i l e]: [e] are the elements [l], each as it is printed in some state of the printer, and they are
    called i, i+1, ... *)
Inductive named (proj : bool) (ids : option (nat -> bytes)) (marker : bytes) : Z -> list (ty * val) -> bytes -> Prop :=
| named_nil : forall i, named proj ids marker i [] []
| named_cons : forall i t v l s out s' type n data r, sf_print (ser (bson_printer proj ids) marker t) v s = Ok (out, s') ->
    chunks_text out = type :: n ++ 0 :: data -> decimal_name i n -> named proj ids marker (i + 1) l r ->
    named proj ids marker i ((t, v) :: l) (chunks_text out ++ r).
(** Wherever an array of any type is printed, whatever its elements are, with or without a projection or an IdStore: behind
    the length come its elements in order, named 0, 1, 2, ... and the end mark. *)
Theorem C42_names : forall proj ids marker t v l s out s', array_parts t v = Some l ->
  sf_print (ser (bson_printer proj ids) marker t) v s = Ok (out, s') ->
  exists front size e, sf_size (ser (bson_printer proj ids) marker t) false v s = Ok size /\
    chunks_text out = front ++ little 4 size ++ e ++ [0] /\ named proj ids marker 0 l e.
Proof.
  intros proj ids marker t v l s out s' P E.
  assert (G : forall l i e, 0 <= i -> elements i (map (fun tv => sf_print (ser (bson_printer proj ids) marker (fst tv)) (snd tv)) l) e -> named proj ids marker i l e).
  { clear. induction l as [|[t v] l IH]; intros i e Hi H; inversion H as [|i0 w ws s out s' r Hw (ty & d & Hb) Hr]; subst; [constructor|].
    econstructor; [exact Hw|exact Hb|now apply int_dec_decimal|apply IH; [lia|exact Hr]]. }
  assert (F : forall sz W, W = w_all (map (fun tv => sf_print (ser (bson_printer proj ids) marker (fst tv)) (snd tv)) l) ->
    array_block (bson_printer proj ids) sz W s = Ok (out, s') -> exists front size e, sz s = Ok size /\ chunks_text out = front ++ little 4 size ++ e ++ [0] /\ named proj ids marker 0 l e).
  { intros sz W -> EW. apply array_out_names in EW as (_ & _ & z & fr & e & Sz & T & He).
    - exists fr, z, e. split; [exact Sz|]. split; [|apply G; [lia|exact He]]. rewrite T. unfold put_size. now rewrite writeLE_little.
    - apply Forall_map, Forall_forall. intros [t' v'] _. apply (proj1 (every_like proj ids marker t' v')). }
  destruct t; try discriminate P; destruct v; try discriminate P; injection P as <-; cbn [ser sf_print mkSv] in E.
  - eapply F; [|exact E]. unfold put_elems. f_equal. rewrite map_map. reflexivity.
  - destruct (Nat.eqb _ _); [|discriminate E]. eapply F; [|exact E]. unfold put_elems. f_equal. rewrite map_map. reflexivity.
  - eapply F; [|exact E]. destruct (tuple_block _ _ _ _ _ _ _ _ E) as [_ ->]. f_equal. clear. revert l0. induction ts as [|t ts IH]; intros [|v l0]; cbn; try reflexivity. now rewrite IH.
Qed.
Print Assumptions C42_names.
Example C42_example : exists out s' front e, sf_print (ser (bson_printer false None) (bs "t") (TVec TStr)) (VList (repeat (VStr [65]) 11)) bp_init = Ok (out, s') /\
  chunks_text out = front ++ little 4 (5 + 10 * 9 + 10) ++ e ++ [0] /\ named false None (bs "t") 0 (repeat (TStr, VStr [65]) 11) e.
Proof.
  assert (H : exists out s', sf_print (ser (bson_printer false None) (bs "t") (TVec TStr)) (VList (repeat (VStr [65]) 11)) bp_init = Ok (out, s')).
  { eexists _, _. vm_compute; reflexivity. }
  destruct H as (out & s' & E). destruct (C42_names false None (bs "t") (TVec TStr) (VList (repeat (VStr [65]) 11)) (repeat (TStr, VStr [65]) 11) _ _ _ eq_refl E) as (fr & z & e & Sz & H1 & H2).
  vm_compute in Sz. injection Sz as <-. exists out, s', fr, e. auto.
Qed.

(** ** C43.  Full claim: an integer that does not fit fails.  Proved: an integer that fits is imported; false: every other
    integer is silently cut to the low bits. *)
Definition bson_integer (a : bscal) (z : Z) : Prop := (a = BInt32 z /\ - 2 ^ 31 <= z < 2 ^ 31) \/ (a = BInt64 z /\ - 2 ^ 63 <= z < 2 ^ 63).
Theorem C43_fits_partial : forall cfg src i a z v out tl, pc_noTrailing cfg = false -> bson_integer a z -> fits i z ->
  bson_document any_name (Scal a) out -> bson_imports cfg src (TInt i) v (out ++ tl) (VInt z) tl.
Proof.
  intros cfg src i a z v out tl N B F D. apply (bson_observe_imports cfg src (Scal a) out tl (TInt i) v D eq_refl); [|exact N].
  assert (W : i_wrap i z = z) by (apply wrap_fits; [exact F|rewrite Z.sub_diag; reflexivity]).
  unfold bson_meaning. destruct B as [[-> _]|[-> _]]; cbn; now rewrite W.
Qed.
Print Assumptions C43_fits_partial.
Example C43_example : bson_imports pc_default Strm (TInt IUShort) (VInt 7) (bson_doc (Scal (BInt64 65535)) ++ [1; 2]) (VInt 65535) [1; 2].
Proof.
  apply (C43_fits_partial pc_default Strm IUShort (BInt64 65535)); [reflexivity|right; split; [reflexivity|lia]|vm_compute; repeat split; discriminate|].
  apply (document_any decimal_name). apply doc_document. vm_compute. reflexivity.
Qed.
(** What is stored is congruent modulo the number of values of the type, and it is another value. *)
Theorem C43_truncation_refuted : forall cfg src i a z v out tl, pc_noTrailing cfg = false -> bson_integer a z -> ~ fits i z ->
  bson_document any_name (Scal a) out -> exists z', bson_imports cfg src (TInt i) v (out ++ tl) (VInt z') tl /\
  fits i z' /\ z' <> z /\ (z' - z) mod 2 ^ i_bits i = 0.
Proof.
  intros cfg src i a z v out tl N B F D. exists (i_wrap i z).
  assert (W : fits i (i_wrap i z) /\ (i_wrap i z - z) mod 2 ^ i_bits i = 0).
  { assert (P : 0 < 2 ^ i_bits i) by (destruct i; reflexivity). assert (Q := Z.mod_pos_bound z (2 ^ i_bits i) P).
    assert (C : forall k, (z mod 2 ^ i_bits i - k * 2 ^ i_bits i - z) mod 2 ^ i_bits i = 0).
    { intro k. replace (z mod 2 ^ i_bits i - k * 2 ^ i_bits i - z) with ((- k - z / 2 ^ i_bits i) * 2 ^ i_bits i); [apply Z.mod_mul; lia|].
      assert (E := Z.div_mod z (2 ^ i_bits i) ltac:(lia)). nia. }
    assert (C0 := C 0). assert (C1 := C 1). rewrite Z.mul_0_l, Z.sub_0_r in C0. rewrite Z.mul_1_l in C1.
    unfold i_wrap. cbv zeta. match goal with |- context [if ?c then _ else _] => destruct c eqn:Ec end; (split; [|assumption]); unfold fits, i_in, i_min, i_max in *; destruct i; cbn in *; lia. }
  split; [|split; [apply W|split; [intro E; apply F; rewrite <- E; apply W|apply W]]].
  apply (bson_observe_imports cfg src (Scal a) out tl (TInt i) v D eq_refl); [|exact N]. unfold bson_meaning. destruct B as [[-> _]|[-> _]]; reflexivity.
Qed.
Print Assumptions C43_truncation_refuted.
Example C43_truncation_example : bson_imports pc_default StrIn (TInt IShort) (VInt 7) (bson_doc (Scal (BInt32 65537))) (VInt 1) [].
Proof. fuels 20%nat. eexists. split; [vm_compute; reflexivity|split; reflexivity]. Qed.

(** ** C44.  [at_src k s text]: the source [s], a string or a stream, stands before [text]. *)
Theorem C44_little : forall k b n z rest, n = 4%nat \/ n = 8%nat -> - 2 ^ (8 * Z.of_nat n - 1) <= z < 2 ^ (8 * Z.of_nat n - 1) ->
  at_src k (b_src b) (writeLE n n z ++ rest) -> exists s', b_readLE n b = Ok (z, bset_src b s') /\ at_src k s' rest.
Proof. intros k b n z rest Hn Hz At. rewrite writeLE_little in At. apply (readLE_at k b n z rest At); [lia|exact Hz]. Qed.
Print Assumptions C44_little.
(** The bytes are the digits to base 256, lowest first. *)
Theorem C44_little_bytes : forall n z, writeLE n n z = little n z.
Proof. exact writeLE_little. Qed.
Print Assumptions C44_little_bytes.
(** [writeBE size n]: writeBE<size> of an integer type of [n] bytes; highest byte first. *)
Lemma be_cases : forall size n z, (size, n) = (4, 4)%nat \/ (size, n) = (3, 4)%nat \/ (size, n) = (5, 8)%nat ->
  writeBE size n z = rev (little size z) /\ readBE size n (rev (little size z)) = little size z ++ repeat 0 (n - size).
Proof. intros size n z [E|[E|E]]; injection E as -> ->; split; reflexivity. Qed.
Theorem C44_big : forall k b size n signed z rest, (size, n) = (4, 4)%nat \/ (size, n) = (3, 4)%nat \/ (size, n) = (5, 8)%nat ->
  (if signed && Nat.eqb size n then - 2 ^ (8 * Z.of_nat n - 1) <= z < 2 ^ (8 * Z.of_nat n - 1) else 0 <= z < 2 ^ (8 * Z.of_nat size)) ->
  at_src k (b_src b) (writeBE size n z ++ rest) ->
  writeBE size n z = rev (little size z) /\ exists s', b_readBE size n signed b = Ok (z, bset_src b s') /\ at_src k s' rest.
Proof.
  intros k b size n signed z rest Hc Hz At. destruct (be_cases size n z Hc) as [E1 E2]. split; [exact E1|]. rewrite E1 in At.
  assert (L : List.length (rev (little size z)) = size) by (rewrite rev_length; apply little_length).
  destruct (b_read_at k b (rev (little size z)) rest At) as (s' & R & At').
  { intro Q. rewrite Q in L. cbn in L. destruct Hc as [C|[C|C]]; injection C as -> ->; discriminate L. }
  rewrite L in R. exists s'. split; [|exact At']. unfold b_readBE. rewrite R. cbn [bind]. rewrite L, Nat.sub_diag. cbn [repeat]. rewrite app_nil_r, E2.
  assert (V : le_value (little size z ++ repeat 0 (n - size)) = z mod 2 ^ (8 * Z.of_nat size)).
  { rewrite <- le_value_little. generalize (little size z). intro l. induction l as [|x l IH].
    - cbn [app]. clear. induction (n - size)%nat as [|m IHm]; [reflexivity|]. cbn [repeat le_value] in *. lia.
    - cbn [app le_value] in *. lia. }
  assert (Ln : List.length (little size z ++ repeat 0 (n - size)) = n).
  { rewrite app_length, little_length, repeat_length. destruct Hc as [C|[C|C]]; injection C as -> ->; reflexivity. }
  do 2 f_equal. destruct signed; cbn [andb] in Hz.
  - destruct (Nat.eqb_spec size n) as [->|Ne].
    + rewrite Nat.sub_diag. cbn [repeat]. rewrite app_nil_r. apply signed_little; [destruct Hc as [C|[C|C]]; injection C as -> ; discriminate|exact Hz].
    + unfold signed_value. rewrite V, Ln, Z.mod_small by exact Hz.
      destruct Hc as [C|[C|C]]; injection C as -> ->; [congruence| |];
        (match goal with |- (if ?c then _ else _) = _ => destruct c eqn:Ec end; [exfalso; cbn in Hz, Ec; lia|reflexivity]).
  - rewrite V. apply Z.mod_small. exact Hz.
Qed.
Print Assumptions C44_big.
Example C44_example : writeBE 5 8 0x123456789a = [0x12; 0x34; 0x56; 0x78; 0x9a] /\ writeBE 4 4 (-2) = [255; 255; 255; 254] /\
  forall b, b_src b = src_init Strm [0x12; 0x34; 0x56; 0x78; 0x9a; 7] -> exists s', b_readBE 5 8 true b = Ok (0x123456789a, bset_src b s') /\ at_src Strm s' [7].
Proof.
  split; [reflexivity|]. split; [reflexivity|]. intros b Hb.
  refine (proj2 (C44_big Strm b 5 8 true 0x123456789a [7] _ _ _)); [auto|cbn; lia|]. rewrite Hb. apply at_init.
Qed.
