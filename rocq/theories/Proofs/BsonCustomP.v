(** BSON documents of values with classes that have stream operators. *)
From Coq Require Import ZArith String List Bool Lia ZifyBool.
From Verif Require Import Model.Base Model.Source Model.Number Model.ParserInterface Model.Types Model.Deserializer Model.Importer Model.Printer Model.JsonPrinter Model.Serializer Model.Exporter
  Model.Float Model.Custom Model.Binary Model.BsonPrinter Model.BsonParser Model.BsonDoc Model.BsonFloat Model.BsonCustom
  Spec.JsonString Spec.Json Spec.Typed Spec.Import Spec.Denotes Spec.Sizes Spec.Float Spec.Bson Spec.BsonDenotes Spec.Custom Spec.BsonCustom
  Proofs.Induct Proofs.UnicodeP Proofs.LexP Proofs.SourcesP Proofs.Sim Proofs.TreeM Proofs.InterpP Proofs.TypedP Proofs.DenotesP Proofs.BinaryP Proofs.BsonSim Proofs.BsonImportP Proofs.BsonExportP Proofs.BsonRoundP
  Proofs.BsonNamesP Proofs.AlikeP Proofs.BsonFloatDocP.
Import ListNotations.
Open Scope Z_scope.

(** ** Decimal texts *)
Lemma digits_same : forall l l' a a', List.length l = List.length l' -> Forall digit l -> Forall digit l' -> decimal_value a l = decimal_value a' l' -> a = a' /\ l = l'.
Proof.
  induction l as [|x l IH]; intros [|y l'] a a' L H H' E; try discriminate L; cbn [decimal_value] in E; [auto|]. inversion H; inversion H'; subst. unfold digit in *.
  destruct (IH l' (10 * a + (x - 48)) (10 * a' + (y - 48))) as [Q ->]; auto. split; [lia|]. f_equal. lia.
Qed.
Lemma int_part_digits : forall n, int_part n -> Forall digit n.
Proof. intros n H. destruct H; constructor; auto; unfold digit; lia. Qed.
Lemma name_unique : forall i n, decimal_name i n -> n = int_dec i.
Proof.
  intros i n H. destruct (name_len i n H) as [P L]. assert (D := int_dec_decimal i P). destruct H as [H1 H2], D as [D1 D2].
  apply (digits_same n (int_dec i) 0 0); [unfold len in L; lia|now apply int_part_digits|now apply int_part_digits|congruence].
Qed.
Lemma decimal_unique : forall z t, decimal_int z t -> t = int_dec z.
Proof.
  intros z t H. unfold decimal_int in H. destruct (z <? 0) eqn:E; [|now apply name_unique]. destruct H as (n & -> & H). apply name_unique in H.
  rewrite H. unfold int_dec. rewrite E. assert (F : - z <? 0 = false) by lia. now rewrite F.
Qed.
Lemma decimal_some : forall z, decimal_int z (int_dec z).
Proof.
  intro z. unfold decimal_int. destruct (z <? 0) eqn:E; [|apply int_dec_decimal; lia]. exists (int_dec (- z)). split; [|apply int_dec_decimal; lia].
  unfold int_dec. rewrite E. assert (F : - z <? 0 = false) by lia. now rewrite F.
Qed.

(** ** Reading *)
Section Read.
  Context (custom : ity -> option operators) (dbl_text : Z -> bytes).
  Definition raw_of (a : bscal) : option bytes :=
    match a with
    | BInt32 z | BInt64 z => Some (int_dec z)
    | BBool b => Some (if b then bs "true" else bs "false")
    | BStr s => Some (34 :: s ++ [34])
    | BNull => Some (bs "null")
    | BOther 1 d => Some (dbl_text (le_value d))
    | BOther 5 d => Some (skipn 5 d)
    | BOther _ _ => None
    end.
  Definition bcust_int (i : ity) (a : bscal) : outcome Z :=
    match custom i with
    | Some o => match raw_of a with Some t => match o_get o t with Some (z, _) => Ok z | None => Throw end | None => Throw end
    | None => sc_int bson_sc i a
    end.
  Definition bcust_sc : scal_ops bscal :=
    mkScal bscal bcust_int (sc_bool bson_sc) (sc_str bson_sc) (sc_null bson_sc) (sc_skip bson_sc) (sc_key bson_sc) (sc_kskip bson_sc) true (fun _ => false) true.
  Lemma bcust_str_not_null : forall a c, sc_str bcust_sc a = Ok c -> sc_null bcust_sc a = false.
  Proof. exact bson_str_not_null. Qed.

  Lemma remains_more : forall tl one st left size evs txt, remains tl one st left size evs txt -> st <> [] -> txt <> [].
  Proof. intros tl one st left size evs txt H N. destruct H; [congruence| | |]; destruct e; discriminate. Qed.
  (** Nothing to read, and more to come. *)
  Lemma b_read_any : forall k b d rest, at_src k (b_src b) (d ++ rest) -> rest <> [] -> exists s, b_read (List.length d) b = Ok (d, bset_src b s) /\ at_src k s rest.
  Proof.
    intros k b d rest At N. destruct d as [|x d]; [|apply (b_read_at k b (x :: d) rest At); discriminate].
    destruct rest as [|c r]; [congruence|]. cbn [app] in At. destruct (at_cons_inv _ _ _ _ At) as (pre & E). unfold b_read, src_read. rewrite E. unfold s_size, s_rest, strm_good.
    cbn [s_kind s_data s_pos s_good s_eof negb andb List.length firstn bind]. rewrite Nat.add_0_r. change (Nat.ltb 0 0) with false. cbv iota.
    assert (L : Nat.ltb (List.length (pre ++ c :: r)) (List.length pre) = false) by (apply Nat.ltb_ge; rewrite app_length; lia). rewrite L.
    destruct k; (eexists; split; [reflexivity|]; exists pre, false; split; [reflexivity|discriminate]).
  Qed.

  Lemma raw_value : forall k tl one b a data left evs rest, bson_scalar a (b_type b) data -> b_left b = bump (len data) left ->
    b_stack b <> [] -> len data < 2 ^ 31 -> remains tl one (b_stack b) left (b_size b) evs rest -> at_src k (b_src b) (data ++ rest) ->
    match raw_of a with
    | Some t => exists s, bson_raw dbl_text b = Ok (t, taken b left s) /\ at_src k s rest
    | None => bson_raw dbl_text b = Throw
    end.
  Proof.
    intros k tl one b a data left evs rest Hsc Hl Hst Hd Hr At. unfold bson_raw. assert (Hne := remains_more _ _ _ _ _ _ _ Hr Hst). assert (Hs2 := Hsc). remember (b_type b) as ty eqn:Ety. destruct Hsc; cbn [raw_of]; try reflexivity.
    - rewrite len_little in *. change (Z.of_nat 4) with 4 in *. rewrite (use_left tl one b _ left evs rest Hl ltac:(lia) Hst Hr). cbn [bind].
      destruct (readLE_at k (bset_sizes b left (b_size b)) 4 z rest At) as (s' & -> & At'); [discriminate|cbn; lia|]. exists s'. split; [reflexivity|exact At'].
    - rewrite len_little in *. change (Z.of_nat 8) with 8 in *. rewrite (use_left tl one b _ left evs rest Hl ltac:(lia) Hst Hr). cbn [bind].
      destruct (readLE_at k (bset_sizes b left (b_size b)) 8 z rest At) as (s' & -> & At'); [discriminate|cbn; lia|]. exists s'. split; [reflexivity|exact At'].
    - rewrite Ety in Hs2. assert (V := bool_value k tl one b (BBool b0) _ left evs rest Hs2 Hl Hst Hd Hr At). cbn [sc_bool bson_sc] in V.
      destruct V as (s & -> & At'). cbn [bind]. eauto.
    - unfold raw_string. rewrite !len_app, len_little in *. change (len [0]) with 1 in *. change (Z.of_nat 4) with 4 in *.
      assert (P := len_pos s). rewrite <- !app_assoc in At.
      destruct (readLE_at k b 4 (len s + 1) (s ++ [0] ++ rest) At) as (s1 & -> & At1); [discriminate|cbn; lia|]. cbn [bind].
      rewrite (use_some tl one (bset_src b s1) 4 (len s + 1) left evs rest Hl ltac:(lia) ltac:(lia) ltac:(lia) Hst Hr). cbn [bind].
      destruct (Z.eqb_spec (len s + 1) (-1)); [lia|]. destruct (Z.ltb_spec (len s + 1) 0); [lia|].
      assert (Ln : Z.to_nat (len s + 1) = List.length (s ++ [0])) by (rewrite app_length; unfold len; cbn; lia). rewrite Ln. rewrite app_assoc in At1.
      destruct (b_read_at k (bset_sizes (bset_src b s1) (bump (len s + 1) left) (b_size b)) (s ++ [0]) rest At1) as (s2 & E & At2); [destruct s; discriminate|].
      change (b_size (bset_src b s1)) with (b_size b). rewrite E. cbn [bind b_src bset_src bset_sizes]. rewrite (at_ok _ _ _ At2).
      erewrite (use_left tl one _ (len s + 1) left evs rest); [|reflexivity|lia|exact Hst|exact Hr]. cbn [bind].
      exists s2. split; [|exact At2]. f_equal. f_equal. rewrite Nat.sub_diag. cbn [repeat]. rewrite app_nil_r, app_length. cbn [List.length].
      replace (List.length s + 1)%nat with (Datatypes.S (List.length s)) by lia. cbn [firstn app]. rewrite firstn_app, firstn_all, Nat.sub_diag. cbn [firstn]. now rewrite app_nil_r.
    - cbn [len List.length Z.of_nat] in Hl. exists (b_src b). split; [|exact At]. do 2 f_equal. assert (L := remains_left _ _ _ _ _ _ _ Hr). destruct left as [|l left]; [contradiction|].
      cbn [bump] in Hl. destruct b as [src st lf sz nx key tp sk]. cbn in *. unfold taken, bset_src, bset_sizes. cbn. rewrite Hl. replace (l + 0) with l by lia. reflexivity.
    - unfold readFloat. destruct (b_read_at k b d rest At) as (s' & E & At'); [intros ->; discriminate|]. rewrite H in E. rewrite E. cbn [bind b_src bset_src]. rewrite (at_ok _ _ _ At').
      assert (L : len d = 8) by (unfold len; now rewrite H). rewrite L in *. rewrite (use_left tl one (bset_src b s') 8 left evs rest Hl ltac:(lia) Hst Hr). cbn [bind]. rewrite H. cbn [Nat.eqb bind].
      exists s'. split; [reflexivity|exact At'].
    - unfold raw_binary. rewrite len_app, len_cons, len_little in *. change (Z.of_nat 4) with 4 in *. assert (P := len_pos d). rewrite <- app_assoc in At. cbn [app] in At.
      destruct (readLE_at k b 4 (len d) (sub :: d ++ rest) At) as (s1 & -> & At1); [discriminate|cbn; lia|]. cbn [bind].
      rewrite (use_some tl one (bset_src b s1) 4 (1 + len d) left evs rest) by (auto; try lia; cbn [b_left bset_src]; rewrite Hl; f_equal; lia). cbn [bind].
      destruct (b_read1 k (bset_sizes (bset_src b s1) (bump (1 + len d) left) (b_size b)) sub (d ++ rest) At1) as (s2 & E & At2). change (b_size (bset_src b s1)) with (b_size b). rewrite E. cbn [bind b_src bset_src].
      rewrite (at_ok _ _ _ At2). erewrite (use_some tl one _ 1 (len d) left evs rest) by (first [reflexivity|lia|exact Hst|exact Hr]). cbn [bind].
      destruct (Z.ltb_spec (len d) 0); [lia|].
      assert (Ln : Z.to_nat (len d) = List.length d) by (unfold len; lia). rewrite Ln.
      match goal with |- context [b_read _ ?x] => destruct (b_read_any k x d rest At2 Hne) as (s3 & E3 & At3) end. rewrite E3. cbn [bind b_src bset_src]. rewrite (at_ok _ _ _ At3).
      erewrite (use_left tl one _ (len d) left evs rest); [|reflexivity|lia|exact Hst|exact Hr]. cbn [bind]. rewrite Nat.eqb_refl.
      exists s3. split; [reflexivity|exact At3].
  Qed.
  Theorem bcust_sim : forall k tl one, sim (tree_ops bcust_sc) (bcust_ops custom dbl_text) (RB k tl one).
  Proof.
    intros k tl one. assert (J := bson_sim k tl one). constructor.
    - exact (sim_next _ _ _ J).
    - exact (sim_key _ _ _ J).
    - intros i a b H. destruct (custom i) as [o|] eqn:Ef.
      2:{ assert (G := sim_int _ _ _ J i a b H). cbn [bcust_ops op_int]. rewrite Ef. cbn [op_int tree_ops bson_ops] in *. unfold tm_val in *. destruct (tm_pend a); try exact G.
          cbn [sc_int bcust_sc]. unfold bcust_int. rewrite Ef. exact G. }
      destruct a as [on pd evs], H as [Hon (txt & At & H)]. cbn in Hon. subst on. cbn [op_int tree_ops bcust_ops]. rewrite Ef. unfold tm_val.
      cbn [tm_on tm_pend tm_evs] in *. destruct pd as [nb|n|a|nb]; try exact Logic.I.
      destruct H as (Sk & data & left & rest & -> & Hsc & Hl & Hst & Hd & Hr).
      assert (V := raw_value k tl one b a data left evs rest Hsc Hl Hst Hd Hr At). cbn [sc_int bcust_sc]. unfold bcust_int, bcust_get. rewrite Ef.
      destruct (raw_of a) as [t|]; [|rewrite V; reflexivity]. destruct V as (s & -> & At'). cbn [bind]. destruct (o_get o t) as [[z g]|]; [|reflexivity].
      cbn [bind follows]. eexists. split; [reflexivity|]. eapply taken_rb; eassumption.
    - exact (sim_bool _ _ _ J).
    - exact (sim_str _ _ _ J).
    - exact (sim_null _ _ _ J).
    - exact (sim_ignore _ _ _ J).
    - exact (sim_ignoreMap _ _ _ J).
    - exact (sim_ignoreArr _ _ _ J).
  Qed.
  Definition bcust_observe_imports := observe_imports (bcust_ops custom dbl_text) bcust_sc bcust_sim eq_refl bcust_str_not_null.
  Definition bcust_observe_whole := observe_whole (bcust_ops custom dbl_text) bcust_sc bcust_sim eq_refl bcust_str_not_null.
  Definition bcust_observe_throw := observe_throw (bcust_ops custom dbl_text) bcust_sc bcust_sim eq_refl bcust_str_not_null.

  Lemma text_raw : forall a t, element_text dbl_text a t -> raw_of a = Some t /\ sc_null bson_sc a = false.
  Proof.
    intros a t H. destruct H; cbn [raw_of]; split; try reflexivity.
    - f_equal. symmetry. now apply decimal_unique.
    - f_equal. symmetry. now apply decimal_unique.
    - now rewrite le_pattern.
  Qed.
  Lemma custom_element_read : forall i z a, fits i z -> custom_element custom dbl_text i z a -> sc_int bcust_sc i a = Ok z /\ sc_null bcust_sc a = false.
  Proof.
    intros i z a Fz H. unfold custom_element in H. cbn [sc_int sc_null bcust_sc]. unfold bcust_int. destruct (custom i) as [o|].
    - destruct H as (t & good & H & G). destruct (text_raw a t H) as [-> N]. rewrite G. auto.
    - unfold BsonDenotes.bson_int in H. destruct (i_bits i =? 64) eqn:E; destruct H as (w & -> & H).
      + split; [|reflexivity]. cbn [bson_sc sc_int]. f_equal. apply (wrap_same i z 64 w Fz H). lia.
      + split; [|reflexivity]. cbn [bson_sc sc_int]. f_equal. apply (wrap_same i z 32 w Fz H). destruct i; cbn in *; lia.
  Qed.
  Lemma bcust_reads : forall m marker t v, fine m marker true t v -> forall j, custom_reads_as custom dbl_text marker t v j -> i_parse (interp bcust_sc m marker t) (default t) j = Ok v.
  Proof.
    intros m marker t v F j Hj.
    refine (document_read bcust_sc m marker (custom_element custom dbl_text) BsonDenotes.bson_bool BsonDenotes.bson_str BsonDenotes.bson_str BsonDenotes.bson_null bson_key custom_element_read _ _ _ _ _ t v F j Hj).
    - intros b a ->. destruct b; split; reflexivity.
    - intros s a ->. split; reflexivity.
    - intros s a ->. split; reflexivity.
    - intros a ->. split; reflexivity.
    - intros n k ->. reflexivity.
  Qed.
  Theorem bcust_accepted : forall cfg src t v j Name out, reads_back (pc_strict cfg) (pc_marker cfg) t v -> custom_reads_as custom dbl_text (pc_marker cfg) t v j ->
    bson_root t = shape j -> bson_document Name j out ->
    (pc_noTrailing cfg = false -> forall tl, bcust_imports custom dbl_text cfg src t (default t) (out ++ tl) v tl) /\
    (shape j <> BValue -> bcust_imports custom dbl_text cfg src t (default t) out v []).
  Proof.
    intros cfg src t v j Name out (W & [Sh Va] & Dn & Nn & Un & Ex) Hj Hr D. assert (M : meaning_with bcust_sc cfg t (default t) j = Ok v).
    { unfold meaning_with. apply bcust_reads; [|exact Hj]. unfold fine. auto 10. }
    apply document_any in D. split.
    - intros T tl. now apply (bcust_observe_imports cfg src j out tl t (default t)).
    - intro Hs. assert (Q := bcust_observe_whole cfg src j out [] t (default t) D Hr v M ltac:(constructor) Hs). rewrite app_nil_r in Q. destruct (pc_noTrailing cfg); exact Q.
  Qed.
End Read.

(** ** Writing *)
Section Write.
  Context (custom : ity -> option operators) (size : ity -> option (Z -> Z)).
  Lemma binary_some : forall i z, exists a, custom_binary custom i z a.
  Proof. intros i z. unfold custom_binary. destruct (custom i); [eauto|apply bson_int_some]. Qed.
  Notation told := (fun i z => match custom i with Some o => exists f, size i = Some f /\ f z = len (o_put o z) | None => True end).
  Definition told_binary (i : ity) (z : Z) (a : bscal) : Prop := told i z /\ custom_binary custom i z a.
  Lemma binary_told : forall i z a, told i z -> custom_binary custom i z a -> told_binary i z a.
  Proof. intros i z a H1 H2. split; assumption. Qed.
  Lemma told_out : forall ids, num_out false ids (bs_custom custom size false) (bs_szCustom custom size false) told_binary.
  Proof.
    intros ids i z a [T H]. assert (B := bson_int_out ids i z a). unfold custom_binary in H. cbn [bson_with bson_printer pr_int pr_szInt] in *. unfold bs_custom, bs_szCustom.
    destruct (custom i) as [o|]; [|exact (B H)]. destruct T as (f & -> & E). subst a. rewrite E. cbn [bind bs_size unless_projection]. change (fun s : bprinter => writeBinary (o_put o z) s) with (writeBinary (o_put o z)). unfold writeBinary. cbv zeta. rewrite put_size_little. unfold user_binary.
    assert (Q := scalar_out ids (BOther 5 (little 4 (len (o_put o z)) ++ 128 :: o_put o z)) 5 _ (bc_binary 128 (o_put o z)) eq_refl eq_refl).
    rewrite len_app, len_little, len_cons in Q. change (Z.of_nat 4) with 4 in Q. unfold len in *. rewrite !Z.add_assoc in Q. exact Q.
  Qed.
  Lemma told_stands : forall marker t v j, told_right custom size t v -> custom_stands custom marker t v j ->
    d_val (sense_of told_binary BsonDenotes.bson_bool BsonDenotes.bson_str BsonDenotes.bson_str BsonDenotes.bson_null bson_key marker t) v j.
  Proof. intros marker t v j T H. exact (proj1 (sense_refine _ (custom_binary custom) told_binary binary_told _ _ _ _ _ _ t) v j T H). Qed.
  (** What is written is read back. *)
  Lemma binary_element : forall dbl_text i z a, match custom i with Some o => exists good, o_get o (o_put o z) = Some (z, good) | None => True end ->
    custom_binary custom i z a -> custom_element custom dbl_text i z a.
  Proof.
    intros dbl_text i z a R H. unfold custom_binary, custom_element in *. destruct (custom i) as [o|]; [|exact H]. subst a. destruct R as (good & R). exists (o_put o z), good. split; [|exact R]. apply et_binary.
  Qed.
  Lemma binary_reads : forall dbl_text marker t v j, reread custom t v -> custom_stands custom marker t v j -> custom_reads_as custom dbl_text marker t v j.
  Proof. intros dbl_text marker t v j R H. exact (proj1 (sense_refine _ (custom_binary custom) (custom_element custom dbl_text) (binary_element dbl_text) _ _ _ _ _ _ t) v j R H). Qed.
End Write.
