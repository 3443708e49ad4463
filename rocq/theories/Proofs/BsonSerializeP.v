(** BSON documents of values with classes that have a serializer. *)
From Coq Require Import ZArith String List Bool Lia ZifyBool.
From Verif Require Import Model.Base Model.Source Model.Number Model.ParserInterface Model.Types Model.Deserializer Model.Importer Model.Printer Model.JsonPrinter Model.Serializer Model.Exporter
  Model.Binary Model.BsonPrinter Model.BsonParser Model.BsonDoc Model.BsonFloat Model.Mongo Model.BsonSerialize
  Spec.JsonString Spec.Json Spec.Typed Spec.Import Spec.Denotes Spec.Sizes Spec.Bson Spec.BsonDenotes Spec.BsonSerialize
  Proofs.Induct Proofs.UnicodeP Proofs.LexP Proofs.SourcesP Proofs.Sim Proofs.TreeM Proofs.InterpP Proofs.TypedP Proofs.DenotesP Proofs.BinaryP Proofs.BsonSim Proofs.BsonImportP Proofs.BsonExportP Proofs.BsonRoundP
  Proofs.BsonNamesP Proofs.AlikeP Proofs.FloatExportP Proofs.BsonFloatDocP Proofs.BsonCustomP.
Import ListNotations.
Open Scope Z_scope.

(** ** Reading *)
Section Read.
  Context (custom : ity -> option serializer) (means : ity -> bscal -> option (option Z)) (D : describes custom means).
  Definition bser_int (i : ity) (a : bscal) : outcome Z :=
    match custom i with
    | Some _ => match means i a with Some (Some z) => Ok z | Some None => Throw | None => Hang end
    | None => sc_int bson_sc i a
    end.
  Definition bser_sc : scal_ops bscal :=
    mkScal bscal bser_int (sc_bool bson_sc) (sc_str bson_sc) (sc_null bson_sc) (sc_skip bson_sc) (sc_key bson_sc) (sc_kskip bson_sc) true (fun _ => false) true.
  Lemma bser_str_not_null : forall a c, sc_str bser_sc a = Ok c -> sc_null bser_sc a = false.
  Proof. exact bson_str_not_null. Qed.
  Lemma at_inside : forall k s data rest, at_src k s (data ++ rest) -> rest <> [] -> exists pre, s = mkSrc k (pre ++ data ++ rest) (List.length pre) true false.
  Proof.
    intros k s data rest (pre & e & -> & He) N. exists pre. destruct e; [|reflexivity]. destruct (He eq_refl) as [_ X]. destruct data; [contradiction|discriminate].
  Qed.
  Lemma serial_value : forall k tl one b i o a data left evs rest, custom i = Some o -> bson_scalar a (b_type b) data -> b_left b = bump (len data) left ->
    b_stack b <> [] -> len data < 2 ^ 31 -> remains tl one (b_stack b) left (b_size b) evs rest -> at_src k (b_src b) (data ++ rest) ->
    match bser_int i a with
    | Ok z => exists s, read_custom (z_get o) b = Ok (z, taken b left s) /\ at_src k s rest
    | Throw => read_custom (z_get o) b = Throw
    | _ => bser_int i a = Hang
    end.
  Proof.
    intros k tl one b i o a data left evs rest Ec Hsc Hl Hst Hd Hr At. unfold bser_int. rewrite Ec. assert (Hne := remains_more _ _ _ _ _ _ _ Hr Hst).
    destruct (at_inside _ _ _ _ At Hne) as (pre & Es). assert (X := D i o a Ec).
    assert (Tg : forall p, src_tellg (mkSrc k (pre ++ data ++ rest) p true false) = (Z.of_nat p, mkSrc k (pre ++ data ++ rest) p true false)) by (intro p; destruct k; reflexivity).
    assert (Eb : bset_src b (mkSrc k (pre ++ data ++ rest) (List.length pre) true false) = b) by (rewrite <- Es; now destruct b).
    unfold read_custom. rewrite Es, Tg, Eb. destruct (means i a) as [[z|]|]; [| |reflexivity].
    - destruct X as [_ X]. rewrite (X b k pre data rest) by (split; [exact Hsc|split; [exact Es|exact Hne]]). cbn [bind bset_src b_src]. rewrite Tg.
      match goal with |- context [b_use ?n ?x] => replace n with (len data) by (unfold len; rewrite app_length; lia);
        rewrite (use_left tl one x (len data) left evs rest Hl (conj (len_pos data) Hd) Hst Hr) end. cbn [bind].
      exists (mkSrc k (pre ++ data ++ rest) (List.length (pre ++ data)) true false). split; [reflexivity|].
      exists (pre ++ data), false. rewrite <- app_assoc. split; [reflexivity|discriminate].
    - rewrite (X b k pre data rest) by (split; [exact Hsc|split; [exact Es|exact Hne]]). reflexivity.
  Qed.
  Theorem bser_sim : forall k tl one, sim (tree_ops bser_sc) (bser_ops custom) (RB k tl one).
  Proof.
    intros k tl one. assert (J := bson_sim k tl one). constructor.
    - exact (sim_next _ _ _ J).
    - exact (sim_key _ _ _ J).
    - intros i a b H. destruct (custom i) as [o|] eqn:Ef.
      2:{ assert (G := sim_int _ _ _ J i a b H). cbn [bser_ops op_int]. rewrite Ef. cbn [op_int tree_ops bson_ops] in *. unfold tm_val in *. destruct (tm_pend a); try exact G.
          cbn [sc_int bser_sc]. unfold bser_int. rewrite Ef. exact G. }
      destruct a as [on pd evs], H as [Hon (txt & At & H)]. cbn in Hon. subst on. cbn [op_int tree_ops bser_ops]. rewrite Ef. unfold tm_val.
      cbn [tm_on tm_pend tm_evs] in *. destruct pd as [nb|n|a|nb]; try exact Logic.I.
      destruct H as (Sk & data & left & rest & -> & Hsc & Hl & Hst & Hd & Hr).
      assert (V := serial_value k tl one b i o a data left evs rest Ef Hsc Hl Hst Hd Hr At). cbn [sc_int bser_sc].
      destruct (bser_int i a) as [z| | |]; try discriminate V; [|exact V|exact Logic.I]. destruct V as (s & -> & At').
      cbn [bind follows]. eexists. split; [reflexivity|]. eapply taken_rb; eassumption.
    - exact (sim_bool _ _ _ J).
    - exact (sim_str _ _ _ J).
    - exact (sim_null _ _ _ J).
    - exact (sim_ignore _ _ _ J).
    - exact (sim_ignoreMap _ _ _ J).
    - exact (sim_ignoreArr _ _ _ J).
  Qed.
  Definition bser_observe_imports := observe_imports (bser_ops custom) bser_sc bser_sim eq_refl bser_str_not_null.
  Definition bser_observe_whole := observe_whole (bser_ops custom) bser_sc bser_sim eq_refl bser_str_not_null.
  Definition bser_observe_throw := observe_throw (bser_ops custom) bser_sc bser_sim eq_refl bser_str_not_null.

  Lemma serial_element_read : forall i z a, fits i z -> match custom i with Some _ => means i a = Some (Some z) | None => BsonDenotes.bson_int i z a end ->
    sc_int bser_sc i a = Ok z /\ sc_null bser_sc a = false.
  Proof.
    intros i z a Fz H. cbn [sc_int sc_null bser_sc]. unfold bser_int. destruct (custom i) as [o|] eqn:Ec.
    - assert (X := D i o a Ec). rewrite H in *. split; [reflexivity|]. destruct X as [X _]. destruct a; try reflexivity. congruence.
    - unfold BsonDenotes.bson_int in H. destruct (i_bits i =? 64) eqn:E; destruct H as (w & -> & H).
      + split; [|reflexivity]. cbn [bson_sc sc_int]. f_equal. apply (wrap_same i z 64 w Fz H). lia.
      + split; [|reflexivity]. cbn [bson_sc sc_int]. f_equal. apply (wrap_same i z 32 w Fz H). destruct i; cbn in *; lia.
  Qed.
  Lemma bser_reads : forall m marker t v, fine m marker true t v -> forall j, serial_reads_as custom means marker t v j -> i_parse (interp bser_sc m marker t) (default t) j = Ok v.
  Proof.
    intros m marker t v F j Hj.
    refine (document_read bser_sc m marker _ BsonDenotes.bson_bool BsonDenotes.bson_str BsonDenotes.bson_str BsonDenotes.bson_null bson_key serial_element_read _ _ _ _ _ t v F j Hj).
    - intros b a ->. destruct b; split; reflexivity.
    - intros s a ->. split; reflexivity.
    - intros s a ->. split; reflexivity.
    - intros a ->. split; reflexivity.
    - intros n k ->. reflexivity.
  Qed.
  Theorem bser_accepted : forall cfg src t v j Name out, reads_back (pc_strict cfg) (pc_marker cfg) t v -> serial_reads_as custom means (pc_marker cfg) t v j ->
    bson_root t = shape j -> bson_document Name j out ->
    (pc_noTrailing cfg = false -> forall tl, bser_imports custom cfg src t (default t) (out ++ tl) v tl) /\
    (shape j <> BValue -> bser_imports custom cfg src t (default t) out v []).
  Proof.
    intros cfg src t v j Name out (W & [Sh Va] & Dn & Nn & Un & Ex) Hj Hr Dc. assert (M : meaning_with bser_sc cfg t (default t) j = Ok v).
    { unfold meaning_with. apply bser_reads; [|exact Hj]. unfold fine. auto 10. }
    apply document_any in Dc. split.
    - intros T tl. now apply (bser_observe_imports cfg src j out tl t (default t)).
    - intro Hs. assert (Q := bser_observe_whole cfg src j out [] t (default t) Dc Hr v M ltac:(constructor) Hs). rewrite app_nil_r in Q. destruct (pc_noTrailing cfg); exact Q.
  Qed.
End Read.

(** What is known of readers that read back what is written: run on the data of an element, they tell which object it may be. *)
Section Known.
  Context (custom : ity -> option serializer) (element : ity -> Z -> bscal) (R : rereads custom element).
  Definition scalar_data (a : bscal) : Z * bytes :=
    match a with
    | BInt32 z => (16, little 4 z) | BInt64 z => (18, little 8 z) | BBool b => (8, [if b then 1 else 0]) | BStr s => (2, little 4 (len s + 1) ++ s ++ [0]) | BNull => (10, []) | BOther t d => (t, d)
    end.
  Lemma scalar_data_is : forall a type data, bson_scalar a type data -> scalar_data a = (type, data).
  Proof. intros a type data H. destruct H; reflexivity. Qed.
  Definition scalar_dec : forall a b : bscal, {a = b} + {a <> b}.
  Proof. decide equality; try apply Z.eq_dec; try apply Bool.bool_dec; apply (list_eq_dec Z.eq_dec). Defined.
  Definition ity_eq_dec : forall i j : ity, {i = j} + {i <> j}.
  Proof. decide equality. Defined.
  Definition fits_dec : forall i z, {fits i z} + {~ fits i z}.
  Proof. intros i z. unfold fits. destruct (i_signed i); (match goal with |- {?a <= z < ?b} + {_} => destruct (Z_le_dec a z), (Z_lt_dec z b); [left; lia|right; lia..] end). Defined.
  Definition known (i : ity) (a : bscal) : option (option Z) :=
    match custom i with
    | Some o =>
        let '(type, data) := scalar_data a in
        match z_get o (mkB (mkSrc StrIn (data ++ [0]) 0 true false) [] [] [] TokValue [] type false) with
        | Ok (z, _) => if scalar_dec a (element i z) then if fits_dec i z then Some (Some z) else None else None
        | _ => None
        end
    | None => None
    end.
  Lemma known_describes : describes custom known.
  Proof.
    intros i o a Ec. unfold known. rewrite Ec. destruct (scalar_data a) as [type data]. destruct (z_get o _) as [[z b']| | |]; try exact Logic.I.
    destruct (scalar_dec a (element i z)) as [->|]; [|exact Logic.I]. destruct (fits_dec i z) as [F|]; [|exact Logic.I]. exact (R i o z Ec F).
  Qed.
  Lemma known_element : forall i o z type data, custom i = Some o -> fits i z -> bson_scalar (element i z) type data -> known i (element i z) = Some (Some z).
  Proof.
    intros i o z type data Ec F Sc. unfold known. rewrite Ec, (scalar_data_is _ _ _ Sc). destruct (R i o z Ec F) as [_ X].
    rewrite (X (mkB (mkSrc StrIn (data ++ [0]) 0 true false) [] [] [] TokValue [] type false) StrIn [] data [0]) by (split; [exact Sc|split; [reflexivity|discriminate]]).
    destruct (scalar_dec (element i z) (element i z)); [|congruence]. destruct (fits_dec i z); [reflexivity|contradiction].
  Qed.
  Lemma known_understood : forall t v, valid t v -> written_right custom element t v -> understood custom element known t v.
  Proof.
    intros t v [_ V] W. apply (each_mono (fun t v => valid_here t v /\ match t, v with TInt i, VInt z => match custom i with Some o => writes_element o z (element i z) | None => True end | _, _ => True end)).
    - intros t0 v0 [H1 H2]. destruct t0; auto. destruct v0; auto. destruct (custom i) as [o|] eqn:Ec; [|exact Logic.I]. destruct H2 as (d & _ & _ & Sc). exact (known_element i o z _ d Ec H1 Sc).
    - now apply each_and.
  Qed.
End Known.

(** ** Writing *)
Section Write.
  Context (custom : ity -> option serializer) (element : ity -> Z -> bscal).
  Notation stands := (fun i z a => match custom i with Some _ => a = element i z | None => BsonDenotes.bson_int i z a end).
  Lemma element_some : forall i z, exists a, stands i z a.
  Proof. intros i z. cbv beta. destruct (custom i) as [o|]; [eauto|apply bson_int_some]. Qed.
  Notation right := (fun i z => match custom i with Some o => writes_element o z (element i z) | None => True end).
  Definition right_element (i : ity) (z : Z) (a : bscal) : Prop := right i z /\ stands i z a.
  Lemma element_right : forall i z a, right i z -> stands i z a -> right_element i z a.
  Proof. intros i z a H1 H2. split; assumption. Qed.
  Lemma right_out : num_out false None (bs_serial custom false) (bs_szSerial custom false) right_element.
  Proof.
    intros i z a [T H]. assert (B := bson_int_out None i z a). cbn [bson_with bson_printer pr_int pr_szInt] in *. unfold bs_serial, bs_szSerial.
    destruct (custom i) as [o|]; [|exact (B H)]. destruct T as (d & -> & -> & Sc). rewrite <- H in Sc.
    change (fun s : bprinter => write_custom (z_mark o) (len d) d s) with (write_custom (z_mark o) (len d) d). unfold write_custom.
    apply (scalar_out_any None a (z_mark o) d Sc); [|congruence]. destruct (scalar_type _ _ _ Sc) as (N3 & N4 & _). unfold container. lia.
  Qed.
  Lemma right_stands : forall marker t v j, written_right custom element t v -> serial_stands custom element marker t v j ->
    d_val (sense_of right_element BsonDenotes.bson_bool BsonDenotes.bson_str BsonDenotes.bson_str BsonDenotes.bson_null bson_key marker t) v j.
  Proof. intros marker t v j T H. exact (proj1 (sense_refine _ stands right_element element_right _ _ _ _ _ _ t) v j T H). Qed.
  Lemma stands_read : forall means marker t v j, understood custom element means t v -> serial_stands custom element marker t v j -> serial_reads_as custom means marker t v j.
  Proof.
    intros means marker t v j U H. refine (proj1 (sense_refine (fun i z => match custom i with Some _ => means i (element i z) = Some (Some z) | None => True end) stands _ _ _ _ _ _ _ _ t) v j U H).
    intros i z a R S. destruct (custom i); [now subst a|exact S].
  Qed.
End Write.
