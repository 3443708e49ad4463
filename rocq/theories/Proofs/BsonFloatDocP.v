(** BSON documents of values with floats and doubles. *)
From Coq Require Import ZArith QArith String List Bool Lia ZifyBool.
From Verif Require Import Model.Base Model.Source Model.Number Model.ParserInterface Model.Types Model.Deserializer Model.Importer Model.Printer Model.JsonPrinter Model.Serializer Model.Exporter
  Model.Float Model.Binary Model.BsonPrinter Model.BsonParser Model.BsonDoc Model.BsonFloat
  Spec.JsonString Spec.Json Spec.Typed Spec.Import Spec.Denotes Spec.Sizes Spec.Float Spec.Bson Spec.BsonDenotes Spec.BsonFloat
  Proofs.Induct Proofs.LexP Proofs.SourcesP Proofs.Sim Proofs.TreeM Proofs.InterpP Proofs.TypedP Proofs.DenotesP Proofs.BinaryP Proofs.BsonSim Proofs.BsonImportP Proofs.BsonExportP Proofs.BsonRoundP
  Proofs.FloatP Proofs.FloatValP Proofs.AlikeP Proofs.BsonFloatP.
Import ListNotations.
Open Scope Z_scope.

(** ** Reading *)
Definition as_float (f : fty) (d : Z) : Z := match f with Flt => narrow d | Dbl => d end.
Definition bflt_sc : scal_ops bscal :=
  mkScal bscal
    (fun i a => match flt_of i with
                | Some f => match a with BInt32 z | BInt64 z => Ok (of_int f z) | BOther 1 d => Ok (as_float f (le_value d)) | _ => Throw end
                | None => sc_int bson_sc i a
                end)
    (sc_bool bson_sc) (sc_str bson_sc) (sc_null bson_sc) (sc_skip bson_sc) (sc_key bson_sc) (sc_kskip bson_sc) true (fun _ => false) true.
Lemma bflt_str_not_null : forall a c, sc_str bflt_sc a = Ok c -> sc_null bflt_sc a = false.
Proof. exact bson_str_not_null. Qed.

Lemma float_elem : forall k tl one f b a data left evs rest, bson_scalar a (b_type b) data -> b_left b = bump (len data) left ->
  b_stack b <> [] -> len data < 2 ^ 31 -> remains tl one (b_stack b) left (b_size b) evs rest -> at_src k (b_src b) (data ++ rest) ->
  match (match a with BInt32 z | BInt64 z => Ok (of_int f z) | BOther 1 d => Ok (as_float f (le_value d)) | _ => Throw end) with
  | Ok z => exists s, getFloatValue f b = Ok (z, taken b left s) /\ at_src k s rest
  | o => o = Throw /\ getFloatValue f b = Throw
  end.
Proof.
  intros k tl one f b a data left evs rest Hsc Hl Hst Hd Hr At. unfold getFloatValue. destruct Hsc; cbn [Z.eqb Pos.eqb]; try (split; reflexivity).
  - rewrite len_little in *. change (Z.of_nat 4) with 4 in *. rewrite (use_left tl one b _ left evs rest Hl ltac:(lia) Hst Hr). cbn [bind].
    destruct (readLE_at k (bset_sizes b left (b_size b)) 4 z rest At) as (s' & -> & At'); [discriminate|cbn; lia|]. exists s'. split; [reflexivity|exact At'].
  - rewrite len_little in *. change (Z.of_nat 8) with 8 in *. rewrite (use_left tl one b _ left evs rest Hl ltac:(lia) Hst Hr). cbn [bind].
    destruct (readLE_at k (bset_sizes b left (b_size b)) 8 z rest At) as (s' & -> & At'); [discriminate|cbn; lia|]. exists s'. split; [reflexivity|exact At'].
  - unfold readFloat. destruct (b_read_at k b d rest At) as (s' & E & At'); [intros ->; discriminate|]. rewrite H in E. rewrite E. cbn [bind b_src bset_src]. rewrite (at_ok _ _ _ At').
    assert (L : len d = 8) by (unfold len; now rewrite H). rewrite L in *. rewrite (use_left tl one (bset_src b s') 8 left evs rest Hl ltac:(lia) Hst Hr). cbn [bind]. rewrite H. cbn [Nat.eqb bind].
    exists s'. split; [now destruct f|exact At'].
Qed.
Theorem bflt_sim : forall k tl one, sim (tree_ops bflt_sc) bflt_ops (RB k tl one).
Proof.
  intros k tl one. assert (J := bson_sim k tl one). constructor.
  - exact (sim_next _ _ _ J).
  - exact (sim_key _ _ _ J).
  - intros i a b H. destruct (flt_of i) as [f|] eqn:Ef.
    2:{ assert (G := sim_int _ _ _ J i a b H). cbn [bflt_ops op_int]. rewrite Ef. cbn [op_int tree_ops bson_ops] in *. unfold tm_val in *. destruct (tm_pend a); try exact G.
        cbn [sc_int bflt_sc]. rewrite Ef. exact G. }
    destruct a as [on pd evs], H as [Hon (txt & At & H)]. cbn in Hon. subst on. cbn [op_int tree_ops bflt_ops]. rewrite Ef. unfold tm_val.
    cbn [tm_on tm_pend tm_evs] in *. destruct pd as [nb|n|a|nb]; try exact Logic.I.
    destruct H as (Sk & data & left & rest & -> & Hsc & Hl & Hst & Hd & Hr).
    assert (V := float_elem k tl one f b a data left evs rest Hsc Hl Hst Hd Hr At). cbn [sc_int bflt_sc]. rewrite Ef.
    destruct (match a with BInt32 _ => _ | _ => _ end) as [z| | |]; try (destruct V as [V1 V2]; first [discriminate V1|exact V2]).
    destruct V as (s & -> & At'). cbn [bind follows]. eexists. split; [reflexivity|]. eapply taken_rb; eassumption.
  - exact (sim_bool _ _ _ J).
  - exact (sim_str _ _ _ J).
  - exact (sim_null _ _ _ J).
  - exact (sim_ignore _ _ _ J).
  - exact (sim_ignoreMap _ _ _ J).
  - exact (sim_ignoreArr _ _ _ J).
Qed.
Definition bflt_observe_imports := observe_imports bflt_ops bflt_sc bflt_sim eq_refl bflt_str_not_null.
Definition bflt_observe_whole := observe_whole bflt_ops bflt_sc bflt_sim eq_refl bflt_str_not_null.
Definition bflt_observe_throw := observe_throw bflt_ops bflt_sc bflt_sim eq_refl bflt_str_not_null.

Lemma le_pattern : forall d, pattern Dbl d -> le_value (little 8 d) = d.
Proof. intros d H. rewrite le_value_little. apply Z.mod_small. exact H. Qed.
(** Every element is read as what it stands for. *)
Lemma element_read : forall i z a, fits i z -> bson_element i z a -> sc_int bflt_sc i a = Ok z /\ sc_null bflt_sc a = false.
Proof.
  intros i z a Fz H. unfold bson_element in H. cbn [sc_int sc_null bflt_sc]. destruct (flt_of i) as [f|].
  - unfold float_element in H. destruct a as [w|w|b|s| |type data]; try contradiction.
    + destruct H as (R & N & S). split; [|reflexivity]. f_equal. symmetry. apply of_int_unique; auto. lia.
    + destruct H as (R & N & S). split; [|reflexivity]. f_equal. symmetry. apply of_int_unique; auto.
    + destruct type as [|[]|]; try contradiction. destruct H as (d & -> & P & H). split; [|reflexivity]. rewrite le_pattern by exact P. f_equal.
      destruct f; [|now symmetry]. symmetry. now apply narrowed_unique.
  - unfold BsonDenotes.bson_int in H. destruct (i_bits i =? 64) eqn:E; destruct H as (w & -> & H).
    + split; [|reflexivity]. cbn [bson_sc sc_int]. f_equal. apply (wrap_same i z 64 w Fz H). lia.
    + split; [|reflexivity]. cbn [bson_sc sc_int]. f_equal. apply (wrap_same i z 32 w Fz H). destruct i; cbn in *; lia.
Qed.
Lemma bflt_reads : forall m marker t v, fine m marker true t v -> forall j, bson_reads_as marker t v j -> i_parse (interp bflt_sc m marker t) (default t) j = Ok v.
Proof.
  intros m marker t v F j Hj.
  refine (document_read bflt_sc m marker bson_element BsonDenotes.bson_bool BsonDenotes.bson_str BsonDenotes.bson_str BsonDenotes.bson_null bson_key element_read _ _ _ _ _ t v F j Hj).
  - intros b a ->. destruct b; split; reflexivity.
  - intros s a ->. split; reflexivity.
  - intros s a ->. split; reflexivity.
  - intros a ->. split; reflexivity.
  - intros n k ->. reflexivity.
Qed.
Theorem bflt_accepted : forall cfg src t v j Name out, reads_back (pc_strict cfg) (pc_marker cfg) t v -> bson_reads_as (pc_marker cfg) t v j ->
  bson_root t = shape j -> bson_document Name j out ->
  (pc_noTrailing cfg = false -> forall tl, bflt_imports cfg src t (default t) (out ++ tl) v tl) /\ (shape j <> BValue -> bflt_imports cfg src t (default t) out v []).
Proof.
  intros cfg src t v j Name out (W & [Sh Va] & Dn & Nn & Un & Ex) Hj Hr D. assert (M : meaning_with bflt_sc cfg t (default t) j = Ok v).
  { unfold meaning_with. apply bflt_reads; [|exact Hj]. unfold fine. auto 10. }
  apply document_any in D. split.
  - intros T tl. now apply (bflt_observe_imports cfg src j out tl t (default t)).
  - intro Hs. assert (Q := bflt_observe_whole cfg src j out [] t (default t) D Hr v M ltac:(constructor) Hs). rewrite app_nil_r in Q. destruct (pc_noTrailing cfg); exact Q.
Qed.

(** ** Writing *)
(** Exactly what is written. *)
Definition exact_num (i : ity) (z : Z) (a : bscal) : Prop :=
  match flt_of i with Some f => a = BOther 1 (little 8 (flt_bits f z)) | None => BsonDenotes.bson_int i z a end.
Lemma exact_some : forall i z, exists a, exact_num i z a.
Proof. intros i z. unfold exact_num. destruct (flt_of i); [eauto|apply bson_int_some]. Qed.
Lemma exact_out : forall ids, num_out false ids (bs_num false) (bs_szInt false) exact_num.
Proof.
  intros ids i z a H. assert (B := bson_int_out ids i z a). unfold exact_num in H. cbn [bson_with bson_printer pr_int pr_szInt] in *. unfold bs_num, unless_projection.
  destruct (flt_of i) as [f|] eqn:Ef; [|exact (B H)]. subst a. unfold writeFloat. rewrite writeLE_little.
  assert (Q := scalar_out ids (BOther 1 (little 8 (flt_bits f z))) 1 _ (bc_double _ (little_length 8 _)) eq_refl eq_refl). rewrite len_little in Q. change (Z.of_nat 8) with 8 in Q.
  destruct i; try discriminate Ef; exact Q.
Qed.
Notation is_pattern := (fun i z => match flt_of i with Some f => pattern f z | None => True end).
Lemma exact_bson : forall i z a, is_pattern i z -> exact_num i z a -> bson_num i z a.
Proof.
  intros i z a P H. unfold exact_num, bson_num in *. destruct (flt_of i) as [f|]; [|exact H]. split; [exact P|]. exists (flt_bits f z). split; [exact H|]. destruct f; [now apply widen_widened|reflexivity].
Qed.
Lemma bson_exact : forall i z a, is_pattern i z -> bson_num i z a -> exact_num i z a.
Proof.
  intros i z a P H. unfold exact_num, bson_num in *. destruct (flt_of i) as [f|]; [|exact H]. destruct H as (_ & d & -> & H). do 2 f_equal. destruct f; [now apply widened_unique|exact H].
Qed.
(** What is written is read back, unless it is a signalling NaN. *)
Lemma exact_element : forall i z a, (is_pattern i z /\ (flt_of i = Some Flt -> ~ signalling Flt z)) -> exact_num i z a -> bson_element i z a.
Proof.
  intros i z a [P S] H. unfold exact_num, bson_element in *. destruct (flt_of i) as [f|]; [|exact H]. subst a. cbn [float_element]. exists (flt_bits f z). split; [reflexivity|].
  destruct f; cbn [flt_bits]; [|auto]. destruct (widen_cases z P) as (Pw & _). split; [exact Pw|].
  assert (N := narrow_narrowed (widen z) Pw). rewrite (narrow_widen z P (S eq_refl)) in N. exact N.
Qed.
