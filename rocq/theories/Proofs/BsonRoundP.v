(** What is exported to BSON is read back. *)
From Coq Require Import ZArith String List Bool Lia ZifyBool.
From Verif Require Import Model.Base Model.Source Model.Number Model.Unicode Model.ParserInterface Model.Printer Model.JsonPrinter Model.Types Model.Importer Model.Serializer
  Model.Exporter Model.Binary Model.BsonPrinter Model.BsonParser Model.BsonDoc
  Spec.JsonString Spec.Json Spec.Typed Spec.Import Spec.Denotes Spec.Sizes Spec.Bson Spec.BsonDenotes
  Proofs.Induct Proofs.TreeM Proofs.TypedP Proofs.InterpP Proofs.DenotesP Proofs.DocP Proofs.ExportP Proofs.BinaryP Proofs.BsonSim Proofs.BsonImportP Proofs.BsonExportP.
Import ListNotations.
Open Scope Z_scope.

(** ** Whatever is written without a fault has a document *)
Section Printed.
  Context {St : Type} (ops : printer_ops St) (marker : bytes).
  Notation S := (ser ops marker).
  Context (Int : ity -> Z -> bscal -> Prop).
  Notation D := (sense_of Int BsonDenotes.bson_bool BsonDenotes.bson_str BsonDenotes.bson_str BsonDenotes.bson_null bson_key marker).
  Hypothesis int_some : forall i z, exists a, Int i z a.

  Lemma then_ok : forall (a b : writer St) s r, w_then a b s = Ok r -> exists o s', a s = Ok (o, s') /\ exists r', b s' = Ok r'.
  Proof.
    intros a b s r H. unfold w_then in H. destruct (a s) as [[o s']| | |]; cbn [bind] in H; try discriminate H. exists o, s'. split; [reflexivity|].
    destruct (b s') as [r'| | |]; cbn [bind] in H; try discriminate H. eauto.
  Qed.
  Lemma block_ok : forall op cl sz (W : writer St) s r, sized ops op cl sz W s = Ok r -> exists s1 r1, W s1 = Ok r1.
  Proof.
    intros op cl sz W s r H. unfold sized in H. destruct (if pr_usesSize ops then sz s else Ok 0) as [z| | |]; cbn [bind] in H; try discriminate H.
    apply then_ok in H as (o & s' & _ & r' & H). apply then_ok in H as (o2 & s2 & H & _). eauto.
  Qed.
  Definition has_doc (t : ty) (v : val) : Prop :=
    (forall s r, sf_print (S t) v s = Ok r -> exists j, d_val (D t) v j) /\
    (forall s r, sf_poly (S t) v s = Ok r -> exists j, tagged_object BsonDenotes.bson_str bson_key marker (class_name t) (D t) v j) /\
    (forall s r, sf_members (S t) v s = Ok r -> exists l, d_members (D t) v l).

  Lemma elems_doc : forall t l s r, (forall v, has_doc t v) -> put_elems (S t) l s = Ok r -> exists js, Forall2 (d_val (D t)) l js.
  Proof.
    intros t l. induction l as [|v l IH]; intros s r H E; [exists []; constructor|].
    change (put_elems (S t) (v :: l)) with (w_then (sf_print (S t) v) (put_elems (S t) l)) in E. apply then_ok in E as (o & s' & E1 & r' & E2).
    destruct (proj1 (H v) _ _ E1) as (j & Hj). destruct (IH _ _ H E2) as (js & Hjs). exists (j :: js). now constructor.
  Qed.
  Lemma tuple_doc : forall ts, Forall (fun t => forall v, has_doc t v) ts -> forall l s r, put_tuple (map S ts) l s = Ok r ->
    exists js, rel3 (map d_val (map D ts)) l js.
  Proof.
    intros ts F. induction F as [|t ts H F IH]; intros [|v l] s r E; try discriminate E; [now exists []|]. cbn [map put_tuple] in E.
    apply then_ok in E as (o & s' & E1 & r' & E2). destruct (proj1 (H v) _ _ E1) as (j & Hj). destruct (IH _ _ _ E2) as (js & Hjs). exists (j :: js). now split.
  Qed.
  Lemma entries_doc : forall t l s r, (forall v, has_doc t v) -> put_entries ops (S t) l s = Ok r ->
    exists es, Forall2 (fun kv e => entry bson_key (fst kv) (d_val (D t) (snd kv)) e) l es.
  Proof.
    intros t l. induction l as [|[k v] l IH]; intros s r H E; [exists []; constructor|].
    change (put_entries ops (S t) ((k, v) :: l)) with (w_then (w_then (pr_key ops k) (sf_print (S t) v)) (put_entries ops (S t) l)) in E.
    apply then_ok in E as (o & s' & E1 & r' & E2). apply then_ok in E1 as (o1 & s1 & _ & r1 & E1).
    destruct (proj1 (H v) _ _ E1) as (j & Hj). destruct (IH _ _ H E2) as (js & Hjs). exists ((k, j) :: js). constructor; [|exact Hjs]. split; [reflexivity|exact Hj].
  Qed.
  Lemma own_doc : forall ts, Forall (fun t => forall v, has_doc t v) ts -> forall ns l s r, put_members ops ns (map opt_type ts) (map S ts) l s = Ok r ->
    exists m, own_members bson_key ns ts (map D ts) l m.
  Proof.
    intros ts F. induction F as [|t ts H F IH]; intros [|n ns] [|v l] s r E; try discriminate E; [now exists []|]. cbn [map put_members] in E.
    apply then_ok in E as (o & s' & E1 & r' & E2). destruct (IH _ _ _ _ E2) as (m & Hm). cbn [own_members map]. destruct (Serializer.keeps (opt_type t) v) eqn:K.
    - apply then_ok in E1 as (o1 & s1 & _ & r1 & E1). destruct (proj1 (H v) _ _ E1) as (j & Hj). exists ((n, j) :: m). right.
      split; [intro L; apply left_out_keeps in L; congruence|]. exists (n, j), m. repeat split; [exact Hj|exact Hm].
    - exists m. left. split; [now apply left_out_keeps|exact Hm].
  Qed.
  Lemma parents_doc : forall ts, Forall (fun t => forall v, has_doc t v) ts -> forall l s r, put_parents (map S ts) l s = Ok r ->
    exists m, parent_members (map D ts) l m.
  Proof.
    intros ts F. induction F as [|t ts H F IH]; intros [|v l] s r E; try discriminate E; [now exists []|]. cbn [map put_parents] in E.
    apply then_ok in E as (o & s' & E1 & r' & E2). destruct (IH _ _ _ E2) as (m & Hm). destruct (proj2 (proj2 (H v)) _ _ E1) as (a & Ha).
    exists (a ++ m), a, m. auto.
  Qed.

  Theorem printed_doc : forall t v, has_doc t v.
  Proof.
    apply (ty_ind' (fun t => forall v, has_doc t v)).
    - intros i v. split; [|split; intros s r E; discriminate E]. intros s r E. cbn [ser sf_print mkSv] in E. destruct v; try discriminate E.
      destruct (int_some i z) as (a & Ha). exists (Scal a), z, a. auto.
    - intros v. split; [|split; intros s r E; discriminate E]. intros s r E. cbn [ser sf_print mkSv] in E. destruct v; try discriminate E. exists (Scal (BBool b)), b, (BBool b). repeat split.
    - intros v. split; [|split; intros s r E; discriminate E]. intros s0 r E. cbn [ser sf_print mkSv] in E. destruct v; try discriminate E. exists (Scal (BStr s)), s, (BStr s). repeat split.
    - intros l v. split; [|split; intros s r E; discriminate E]. intros s0 r E. cbn [ser sf_print mkSv] in E. destruct v; try discriminate E.
      destruct (enum_name l z) as [n|] eqn:En; [|discriminate E]. exists (Scal (BStr n)), z, n, (BStr n). repeat split. exact En.
    - intros co t IH v. split; [|split; intros s r E; discriminate E]. intros s r E. cbn [ser sf_print mkSv] in E. destruct v; try discriminate E.
      apply block_ok in E as (s1 & r1 & E). apply elems_doc in E as (js & Hj); [|exact IH]. exists (Arr js), l, js. auto.
    - intros n t IH v. split; [|split; intros s r E; discriminate E]. intros s r E. cbn [ser sf_print mkSv] in E. destruct v; try discriminate E.
      destruct (Nat.eqb_spec (List.length l) n) as [Ln|]; [|discriminate E].
      apply block_ok in E as (s1 & r1 & E). apply elems_doc in E as (js & Hj); [|exact IH]. exists (Arr js), l, js. auto.
    - intros ts IH v. split; [|split; intros s r E; discriminate E]. intros s r E. cbn [ser sf_print mkSv] in E. destruct v; try discriminate E.
      apply block_ok in E as (s1 & r1 & E). apply (tuple_doc ts IH) in E as (js & Hj). exists (Arr js), l, js. auto.
    - intros fw t IH v. split; [|split; intros s r E; discriminate E]. intros s r E. cbn [ser sf_print mkSv] in E. destruct v; try discriminate E.
      apply block_ok in E as (s1 & r1 & E). apply entries_doc in E as (js & Hj); [|exact IH]. exists (Obj js), l, js. auto.
    - intros t IH v. split; [|split; intros s r E; discriminate E]. intros s r E. cbn [ser sf_print mkSv] in E. destruct v as [| | | | |[x|]| | |]; try discriminate E.
      + destruct (proj1 (IH x) _ _ E) as (j & Hj). exists j. right. eauto.
      + exists (Scal BNull). left. split; [reflexivity|]. exists BNull. repeat split.
    - intros t IH v. split; [|split; intros s r E; discriminate E]. intros s r E. cbn [ser sf_print mkSv] in E. destruct v as [| | | | | |[x|]| |]; try discriminate E.
      destruct (proj1 (IH x) _ _ E) as (j & Hj). exists j, x. auto.
    - intros i ms ps IHm IHp v.
      assert (G : forall s r, sf_members (S (TStruct i ms ps)) v s = Ok r -> exists l, d_members (D (TStruct i ms ps)) v l).
      { intros s r E. cbn [ser sf_members] in E. unfold put_struct in E. destruct v; try discriminate E. apply then_ok in E as (o & s' & E1 & r' & E2).
        destruct (own_doc ms IHm _ _ _ _ E1) as (a & Ha). destruct (parents_doc ps IHp _ _ _ E2) as (b & Hb). eexists (a ++ b), _, _, a, b. eauto. }
      assert (T : tagged BsonDenotes.bson_str bson_key marker (si_poly i) (marker, Scal (BStr (si_poly i)))).
      { split; [reflexivity|]. exists (BStr (si_poly i)). split; reflexivity. }
      split; [|split; [|exact G]]; intros s r E; apply block_ok in E as (s1 & r1 & E); apply then_ok in E as (o & s2 & _ & r2 & E); destruct (G _ _ E) as (l & Hl).
      + cbn [bson_sense sense_of d_val]. destruct (si_mark i); [exists (Obj ((marker, Scal (BStr (si_poly i))) :: l)), (marker, Scal (BStr (si_poly i))), l|exists (Obj l), l]; auto.
      + exists (Obj ((marker, Scal (BStr (si_poly i))) :: l)), (marker, Scal (BStr (si_poly i))), l. auto.
    - intros cs o IH v. split; [|split; intros s r E; discriminate E]. intros s r E. cbn [ser sf_print mkSv] in E. destruct v as [| | | | |[[]|]| | |]; try discriminate E.
      + rewrite nth_error_map in E. destruct (nth_error cs i) as [c|] eqn:Ec; [|discriminate E]. cbn [option_map] in E. rewrite Forall_forall in IH.
        destruct (proj1 (proj2 (IH c (nth_error_In _ _ Ec) v)) _ _ E) as (j & Hj). exists j. right. exists i, c, (D c), v. rewrite nth_error_map, Ec. auto.
      + exists (Scal BNull). left. split; [reflexivity|]. exists BNull. repeat split.
    - intros cs IH v. split; [|split; intros s r E; discriminate E]. intros s r E. cbn [ser sf_print mkSv] in E. destruct v; try discriminate E.
      rewrite nth_error_map in E. destruct (nth_error cs i) as [c|] eqn:Ec; [|discriminate E]. cbn [option_map] in E. rewrite Forall_forall in IH.
      destruct (proj1 (proj2 (IH c (nth_error_In _ _ Ec) v)) _ _ E) as (j & Hj). exists j, i, c, (D c), v. rewrite nth_error_map, Ec. auto.
  Qed.
End Printed.

Lemma bson_int_some : forall i z, exists a, BsonDenotes.bson_int i z a.
Proof.
  assert (G : forall n, 0 < n -> forall z, exists w, same_bits n w z).
  { intros n Hn z. exists ((z + 2 ^ (n - 1)) mod 2 ^ n - 2 ^ (n - 1)). assert (E : 2 ^ n = 2 * 2 ^ (n - 1)) by (rewrite <- Z.pow_succ_r by lia; f_equal; lia).
    assert (P : 0 < 2 ^ (n - 1)) by (apply Z.pow_pos_nonneg; lia). split.
    - assert (Q := Z.mod_pos_bound (z + 2 ^ (n - 1)) (2 ^ n) ltac:(lia)). lia.
    - replace ((z + 2 ^ (n - 1)) mod 2 ^ n - 2 ^ (n - 1) - z) with ((z + 2 ^ (n - 1)) mod 2 ^ n - (z + 2 ^ (n - 1))) by lia.
      rewrite Zminus_mod_idemp_l, Z.sub_diag. apply Z.mod_0_l. lia. }
  intros i z. unfold BsonDenotes.bson_int. destruct (i_bits i =? 64).
  - destruct (G 64 ltac:(lia) z) as (w & Hw). eauto.
  - destruct (G 32 ltac:(lia) z) as (w & Hw). eauto.
Qed.

Lemma exported_with : forall P Int, (forall i z, exists a, Int i z a) -> forall c k proj t v out n, export_with P c k proj t v = BExported out n ->
  exists j, d_val (Sn Int (pf_marker c) t) v j.
Proof.
  intros P Int HI c k proj t v out n E. unfold export_with in E. destruct (negb proj && null_root t v); [discriminate E|].
  assert (G : forall s r, pass_with P proj (pf_marker c) t v s = Ok r -> exists j, d_val (Sn Int (pf_marker c) t) v j).
  { intros s r H. unfold pass_with in H. destruct (sf_print _ v s) as [[o s']| | |] eqn:Q; try discriminate H. exact (proj1 (printed_doc _ _ Int HI t v) _ _ Q). }
  destruct k.
  - unfold to_stream_with in E. destruct (pass_with _ _ _ _ _ _) as [[o s]| | |] eqn:Q; try discriminate E. exact (G _ _ Q).
  - unfold to_string_with in E. destruct (pass_with _ _ _ _ _ bp_init) as [[o s]| | |] eqn:Q; try discriminate E. exact (G _ _ Q).
Qed.
Lemma exported_doc : forall c k proj ids t v out n, bson_export c k proj ids t v = BExported out n -> exists j, bson_stands (pf_marker c) t v j.
Proof. intros c k proj ids. exact (exported_with (bson_printer proj ids) BsonDenotes.bson_int bson_int_some c k proj). Qed.

(** ** Names *)
Lemma names_any : forall Name,
  (forall j type b, bson_value Name j type b -> bson_value any_name j type b) /\
  (forall i l e, bson_elems Name i l e -> bson_elems any_name i l e) /\
  (forall l e, bson_members Name l e -> bson_members any_name l e).
Proof.
  intro Name. apply bson_mutind; intros; try (constructor; assumption); econstructor; eauto. exact I.
Qed.
Lemma document_any : forall Name j b, bson_document Name j b -> bson_document any_name j b.
Proof. intros Name j b H. destruct H; constructor; now apply (proj1 (names_any Name)). Qed.

(** ** Reading back *)
Lemma wrap_fits : forall i z w, fits i z -> (w - z) mod 2 ^ i_bits i = 0 -> i_wrap i w = z.
Proof.
  intros i z w F M. assert (B : 0 < 2 ^ i_bits i) by (destruct i; reflexivity).
  assert (E : w mod 2 ^ i_bits i = z mod 2 ^ i_bits i).
  { apply Z.mod_divide in M as (k & M); [|lia]. replace w with (z + k * 2 ^ i_bits i) by lia. apply Z.mod_add. lia. }
  unfold i_wrap. rewrite E. clear E M w. unfold fits, i_in, i_min, i_max in F.
  assert (Q : z mod 2 ^ i_bits i = z \/ z mod 2 ^ i_bits i = z + 2 ^ i_bits i /\ z < 0).
  { destruct (Z.ltb_spec z 0).
    - right. split; [|lia]. symmetry. apply Z.mod_unique with (-1); [|lia]. left. destruct i; cbn in *; lia.
    - left. apply Z.mod_small. destruct i; cbn in *; lia. }
  assert (R := Z.mod_pos_bound z _ B). destruct i; cbn [i_bits i_signed andb] in *; destruct Q as [Q|[Q N]]; rewrite Q in *; try lia;
    match goal with |- context [if ?c then _ else _] => destruct c eqn:? end; lia.
Qed.
Lemma wrap_same : forall i z n w, fits i z -> same_bits n w z -> n = i_bits i \/ (n = 32 /\ i_bits i = 16) -> i_wrap i w = z.
Proof.
  intros i z n w F [_ M] [->|[-> E]]; apply wrap_fits; auto. rewrite E. apply Z.mod_divide in M as (k & M); [|discriminate]. rewrite M.
  replace (k * 2 ^ 32) with (k * 2 ^ 16 * 2 ^ 16) by lia. apply Z.mod_mul. discriminate.
Qed.
Lemma bson_reads : forall m marker t v, fine m marker true t v -> forall j, bson_stands marker t v j ->
  i_parse (interp bson_sc m marker t) (default t) j = Ok v.
Proof.
  intros m marker t v F j Hj.
  refine (document_read bson_sc m marker BsonDenotes.bson_int BsonDenotes.bson_bool BsonDenotes.bson_str BsonDenotes.bson_str BsonDenotes.bson_null bson_key _ _ _ _ _ _ t v F j Hj).
  - intros i z a Fz H. unfold BsonDenotes.bson_int in H. destruct (i_bits i =? 64) eqn:E; destruct H as (w & -> & H).
    + split; [|reflexivity]. cbn [bson_sc sc_int]. f_equal. apply (wrap_same i z 64 w Fz H). lia.
    + split; [|reflexivity]. cbn [bson_sc sc_int]. f_equal. apply (wrap_same i z 32 w Fz H). destruct i; cbn in *; lia.
  - intros b a ->. destruct b; split; reflexivity.
  - intros s a ->. split; reflexivity.
  - intros s a ->. split; reflexivity.
  - intros a ->. split; reflexivity.
  - intros n k ->. reflexivity.
Qed.

Theorem bson_round_trip : forall cfg src t v j out tl, reads_back (pc_strict cfg) (pc_marker cfg) t v -> bson_stands (pc_marker cfg) t v j ->
  bson_root t = shape j -> bson_document decimal_name j out -> pc_noTrailing cfg = false ->
  bson_imports cfg src t (default t) (out ++ tl) v tl.
Proof.
  intros cfg src t v j out tl (W & [Sh Va] & Dn & Nn & Un & Ex) Hj Hr D T. apply (bson_observe_imports cfg src j out tl t (default t)); auto.
  - now apply document_any in D.
  - unfold bson_meaning. apply bson_reads; [|exact Hj]. unfold fine. auto 10.
Qed.
Theorem bson_round_trip_whole : forall cfg src t v j out, reads_back (pc_strict cfg) (pc_marker cfg) t v -> bson_stands (pc_marker cfg) t v j ->
  bson_root t = shape j -> bson_document decimal_name j out -> shape j <> BValue ->
  bson_imports cfg src t (default t) out v [].
Proof.
  intros cfg src t v j out (W & [Sh Va] & Dn & Nn & Un & Ex) Hj Hr D T. assert (Q := bson_observe_whole cfg src j out [] t (default t) (document_any _ _ _ D) Hr v).
  rewrite app_nil_r in Q. destruct (pc_noTrailing cfg); apply Q; auto; try constructor; unfold bson_meaning; (apply bson_reads; [|exact Hj]; unfold fine; auto 10).
Qed.
