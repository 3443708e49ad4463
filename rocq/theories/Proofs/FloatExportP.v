(** Exports of values with floats and doubles, and what is read back from them. *)
From Coq Require Import ZArith QArith Qabs Qpower String List Bool Lia ZifyBool.
From Verif Require Import Model.Base Model.Source Model.Number Model.ParserInterface Model.Printer Model.JsonPrinter
  Model.Types Model.Serializer Model.Importer Model.Exporter Model.Float
  Spec.JsonString Spec.Json Spec.Typed Spec.Import Spec.Denotes Spec.Float
  Proofs.Induct Proofs.NumberP Proofs.TypedP Proofs.DenotesP Proofs.PrintP Proofs.DocP Proofs.ExportP Proofs.FloatP Proofs.FloatReadP Proofs.FloatValP Proofs.FloatDocP
  Proofs.FloatTextP Proofs.AlikeP.
Import ListNotations.
Open Scope Z_scope.

(** ** The text of a number *)
Lemma zero_mag : forall f b, fl_zero f b = true <-> decode f (fl_abs f b) = 0.
Proof.
  intros f b. unfold fl_zero. rewrite Z.eqb_eq. split; [intros ->; apply decode_0|]. intro E. apply (decode_inj f); [apply abs_range|lia|]. now rewrite E, decode_0.
Qed.
Lemma value_zero : forall f b v, pattern f b -> float_value f b = Some v -> (fl_zero f b = true <-> (v == 0)%Q).
Proof.
  intros f b v P E. rewrite zero_mag. destruct (value_finite f b v P E) as [_ Q]. split; intro H.
  - rewrite Q, H. replace (signed (fl_neg f b) 0) with 0 by (destruct (fl_neg f b); reflexivity). change (inject_Z 0) with 0%Q. ring.
  - assert (W := value_units f b v 1 0 P E ltac:(lia)). rewrite Z.mul_1_r in W. apply W. change (inject_Z 1) with 1%Q. change (inject_Z 0) with 0%Q. rewrite H. ring.
Qed.
Lemma zero_spelled : forall neg, spelled neg (dash neg ++ bs "0.0") 0 (-1).
Proof. intro neg. exact (spelled_pad neg 0 1 ltac:(lia) ltac:(lia)). Qed.
Lemma zero_reread : forall f b, pattern f b -> fl_zero f b = true -> denotes_float f (dash (fl_neg f b) ++ bs "0.0") b.
Proof.
  intros f b P Z. assert (Zm := proj1 (zero_mag f b) Z). assert (Up := unit_pos f).
  assert (F : fl_finite f b = true). { unfold fl_zero in Z. apply Z.eqb_eq in Z. apply finite_abs. rewrite Z. destruct f; reflexivity. }
  destruct (reread f b (dash (fl_neg f b) ++ bs "0.0") 0 (-1) P F ltac:(lia) (zero_spelled _)) as (b' & v & v' & D & _ & _ & Ev & _ & _ & _ & Ex).
  - rewrite Zm. change (10 ^ Z.max 0 (-1)) with 1. lia.
  - now left.
  - rewrite Zm in Ex. rewrite (Ex ltac:(lia)) in D. exact D.
Qed.
Lemma near_same : forall k f b v, pattern f b -> float_value f b = Some v -> match k with ToStream => near_general f b b | ToString => near_fixed f b b end.
Proof.
  intros k f b v P E. assert (Z : (Qabs (v - v) == 0)%Q) by (setoid_replace (v - v)%Q with 0%Q by ring; reflexivity).
  destruct k; (split; [exact P|]; split; [reflexivity|]; exists v, v; split; [exact E|]; split; [exact E|]; split; [|reflexivity]); rewrite Z.
  - rewrite Qmult_0_l. apply Qabs_nonneg.
  - discriminate.
Qed.
Lemma spelled_number : forall neg t m e, spelled neg t m e -> number t.
Proof. intros neg t m e [_ (x & D & _)]. exact (decimal_number _ _ D). Qed.
Definition float_text (k : okind) (f : fty) (b : Z) : bytes := match k with ToStream => stream_text f b | ToString => string_text f b end.
Theorem float_text_good : forall k f b, exportable k f b ->
  number (float_text k f b) /\ (List.length (float_text k f b) <= 25)%nat /\
  exists b', denotes_float f (float_text k f b) b' /\ match k with ToStream => near_general f b b' | ToString => near_fixed f b b' end.
Proof.
  intros k f b (P & v & Ev & H). destruct (value_finite f b v P Ev) as [F Q]. destruct (fl_zero f b) eqn:Zb.
  - assert (T : float_text k f b = dash (fl_neg f b) ++ bs "0.0").
    { destruct k; unfold float_text, stream_text, string_text; rewrite Zb; [reflexivity|]. destruct H as [_ H]. rewrite <- (negative_neg f b P), H by (apply (value_zero f b v P Ev), Zb). reflexivity. }
    rewrite T. assert (D := zero_reread f b P Zb). split; [exact (spelled_number _ _ _ _ (zero_spelled (fl_neg f b)))|]. split; [destruct (fl_neg f b); cbn; lia|].
    exists b. split; [exact D|]. exact (near_same k f b v P Ev).
  - destruct k; unfold float_text, stream_text, string_text; rewrite Zb.
    + destruct (general_spelled f b P F Zb) as [S L]. split; [exact (spelled_number _ _ _ _ S)|]. split; [exact L|]. destruct (general_reread f b P F Zb) as (b' & D & _ & N). eauto.
    + destruct H as [H _].
      assert (Sm : decode f (fl_abs f b) < 10 ^ 17 * 2 ^ fl_unit f).
      { assert (Nn := decode_nonneg f (fl_abs f b) ltac:(apply abs_range)). destruct (Z.lt_ge_cases (decode f (fl_abs f b)) (10 ^ 17 * 2 ^ fl_unit f)) as [L|L]; [exact L|]. exfalso.
        assert (A : (Qabs v * inject_Z 1 == inject_Z (decode f (fl_abs f b)) * ulp0 f)%Q).
        { change (inject_Z 1) with 1%Q. rewrite Qmult_1_r, Q, Qabs_Qmult, (Qabs_pos (ulp0 f)) by apply Qlt_le_weak, ulp0_pos. apply Qmult_comp; [|reflexivity].
          unfold signed. destruct (fl_neg f b); [rewrite inject_Z_opp, Qabs_opp|]; apply Qabs_pos, inject_nonneg, Nn. }
        assert (B : (100000000000000000 * inject_Z 1 == inject_Z (10 ^ 17 * 2 ^ fl_unit f) * ulp0 f)%Q).
        { rewrite inject_Z_mult, (Zpower_Qpower 2) by (destruct f; cbn; lia). unfold ulp0. change (inject_Z 2) with 2%Q. rewrite <- Qmult_assoc, <- Qpower_plus by discriminate.
          rewrite Z.add_opp_diag_r. reflexivity. }
        apply (Qlt_not_le _ _ H). apply (compare f _ _ _ _ _ B A); lia. }
      split; [exact (spelled_number _ _ _ _ (fixed_spelled f b F))|]. split; [exact (fixed_short f b F Sm)|]. destruct (fixed_reread f b P F Sm) as (b' & D & _ & N). eauto.
Qed.
Lemma num_text_good : forall k i z, good_number k i z -> number (num_text k i z) /\ (List.length (num_text k i z) <= 25)%nat.
Proof.
  intros k i z H. unfold good_number, num_text in *. destruct (flt_of i) as [f|].
  - destruct (float_text_good k f z H) as (N & L & _). auto.
  - exact (int_num_good i z H).
Qed.
(** What the text is read as. *)
Lemma num_text_reread : forall k i z, good_number k i z -> exists z', near_number k i z z' /\ json_num i z' (SNum (num_text k i z)).
Proof.
  intros k i z H. unfold good_number, num_text, near_number, json_num in *. destruct (flt_of i) as [f|].
  - destruct (float_text_good k f z H) as (_ & _ & b' & D & N). exists b'. split; [exact N|]. eauto.
  - exists z. split; [reflexivity|]. now apply int_num_stands.
Qed.

(** ** The buffer of a string *)
Lemma preflight_flt_room : forall e l, Forall small l -> Z.of_nat (List.length (chunks_text l)) <= preflight_flt e l.
Proof.
  intros e l H. induction H as [|ch l Hc H IH]; [reflexivity|]. cbn [chunks_text flat_map]. fold (chunks_text l). rewrite app_length, Nat2Z.inj_add.
  destruct ch as [b|b]; cbn [preflight_flt chunk_bytes small] in *; [lia|]. destruct e; lia.
Qed.
Lemma copy_flt_all : forall l room, Forall small l -> Z.of_nat (List.length (chunks_text l)) <= room -> copy_flt room l = Ok (map Some (chunks_text l)).
Proof.
  intros l room H. revert room. induction H as [|ch l Hc H IH]; intros room L; [reflexivity|]. cbn [copy_flt chunks_text flat_map] in *. fold (chunks_text l) in *.
  rewrite app_length, Nat2Z.inj_add in L. destruct ch as [b|b]; cbn [chunk_bytes small] in *.
  - destruct (_ <=? room) eqn:E; [|lia]. rewrite IH by lia. cbn [bind]. now rewrite map_app.
  - destruct Hc as [_ N]. unfold val_room. destruct (beq b (bs "-0.")) eqn:E; [exfalso; apply N; now apply beq_eq in E|]. destruct (_ <=? room) eqn:E2; [|lia]. rewrite IH by lia. cbn [bind]. now rewrite map_app.
Qed.

(** ** The text of an export *)
Section Export.
  Context (c : fconfig) (k : okind) (t : ty) (v : val).
  Hypotheses (W : wf t = true) (Sh : shaped t v = true) (G : each (here (good_number k)) t v) (K : legal_keys t v) (N : legal_names t) (M : legal_string (pf_marker c)) (R : indent_ok c v).
  Lemma flt_export_text :
    (exists j out, dc_val (doc_of (fun i z => SNum (num_text k i z)) (pf_marker c) t) v = Ok j /\ flt_exported c k t v out /\ document j out) \/
    (dc_val (doc_of (fun i z => SNum (num_text k i z)) (pf_marker c) t) v = Throw /\ flt_export c k t v = FltFailed (negb (pf_catch c))).
  Proof.
    assert (P := proj1 (num_writes (fun i z => SNum (num_text k i z)) (pf_marker c) (fun i z => WrVal (num_text k i z)) c M (good_number k) (fun i z H => number_chunk _ (num_text_good k i z H)) t v W Sh G K N)).
    specialize (P (mkPstate 0 LvValue false) [] ltac:(reflexivity)). cbn [List.length Nat.add] in P. specialize (P (room_fits c _ (fun Sp => R (spaced_type c Sp)))).
    unfold flt_exported, flt_export, flt_pass. change js_init with [mkPstate 0 LvValue false].
    destruct (dc_val _ v) as [j| | |] eqn:D; [|right|contradiction|contradiction].
    - left. destruct P as (out & b & w & txt & -> & Sm & Tx & Hw & Hs & _). exists j, (chunks_text out). split; [reflexivity|]. cbn [bind]. split.
      + destruct k; [reflexivity|]. rewrite copy_flt_all; [reflexivity|exact Sm|]. now apply preflight_flt_room.
      + rewrite Tx. replace (w ++ txt) with (w ++ txt ++ []) by now rewrite app_nil_r.
        change (document j (w ++ txt ++ [])). constructor; [exact Hw|exact Hs|constructor].
    - rewrite P. destruct k; split; reflexivity.
  Qed.
End Export.

(** ** What is read back *)
Lemma denotes_fits : forall f i z, flt_of i = Some f -> pattern f z -> fits i z.
Proof. intros f i z E [P1 P2]. destruct i; try discriminate E; injection E as <-; unfold fits, pattern in *; cbn in *; lia. Qed.
Lemma near_fits : forall k i z z', good_number k i z -> near_number k i z z' -> fits i z'.
Proof.
  intros k i z z' G N. unfold good_number, near_number in *. destruct (flt_of i) as [f|] eqn:E; [|now subst].
  apply (denotes_fits f i z' E). destruct k; apply N.
Qed.
Lemma ordered_keys : forall mk l m, ordered mk l -> map fst l = map fst m -> ordered mk m.
Proof.
  unfold bytes. intros mk l m H. revert m. induction H as [|k v l H O IH]; intros [|[k' v'] m] E; try discriminate E; [constructor|]. injection E as <- E. constructor; [|now apply IH].
  intros q w Hq. assert (I : In q (map fst l)) by (rewrite E; exact (List.in_map fst m (q, w) Hq)). apply in_map_iff in I as ([q' w'] & <- & I). now apply (H q' w').
Qed.
Lemma each_and : forall (P Q : ty -> val -> Prop) t v, each P t v -> each Q t v -> each (fun t v => P t v /\ Q t v) t v.
Proof.
  intros P Q.
  assert (G : forall ts, Forall (fun t => forall v, each P t v -> each Q t v -> each (fun t v => P t v /\ Q t v) t v) ts -> forall l, rel2 (map (each P) ts) l -> rel2 (map (each Q) ts) l ->
    rel2 (map (each (fun t v => P t v /\ Q t v)) ts) l).
  { intros ts F. induction F as [|t ts Ht F IH]; intros [|x l] A B; cbn [map rel2] in *; try contradiction; [exact I|]. destruct A, B. auto. }
  assert (FL : forall (A B C : val -> Prop), (forall v, A v -> B v -> C v) -> forall l, Forall A l -> Forall B l -> Forall C l).
  { intros A B C H l F. induction F; intro E; [constructor|]. inversion E; subst. constructor; auto. }
  apply (ty_ind' (fun t => forall v, each P t v -> each Q t v -> each (fun t v => P t v /\ Q t v) t v)).
  - intros i v [A _] [B _]. repeat split; assumption.
  - intros v [A _] [B _]. repeat split; assumption.
  - intros v [A _] [B _]. repeat split; assumption.
  - intros l v [A _] [B _]. repeat split; assumption.
  - intros co t IH v [A1 A2] [B1 B2]. split; [auto|]. destruct v; auto. eauto.
  - intros n t IH v [A1 A2] [B1 B2]. split; [auto|]. destruct v; auto. eauto.
  - intros ts IH v [A1 A2] [B1 B2]. split; [auto|]. destruct v; auto.
  - intros b t IH v [A1 A2] [B1 B2]. split; [auto|]. destruct v; auto. clear A1 B1. induction A2; [constructor|]. inversion B2; subst. constructor; auto.
  - intros t IH v [A1 A2] [B1 B2]. split; [auto|]. destruct v as [| | | | |[]| | |]; auto.
  - intros t IH v [A1 A2] [B1 B2]. split; [auto|]. destruct v as [| | | | | |[]| |]; auto.
  - intros i ms ps Hm Hp v [A1 A2] [B1 B2]. split; [auto|]. destruct v; auto. destruct A2, B2. split; auto.
  - intros cs o IH v [A1 A2] [B1 B2]. split; [auto|]. destruct v as [| | | | |[[]|]| | |]; auto. rewrite nth_error_map in *. destruct (nth_error cs i) as [c|] eqn:E; [|contradiction]. cbn in *.
    rewrite Forall_forall in IH. exact (IH c (nth_error_In _ _ E) _ A2 B2).
  - intros cs IH v [A1 A2] [B1 B2]. split; [auto|]. destruct v; auto. rewrite nth_error_map in *. destruct (nth_error cs i) as [c|] eqn:E; [|contradiction]. cbn in *.
    rewrite Forall_forall in IH. exact (IH c (nth_error_In _ _ E) _ A2 B2).
Qed.
Lemma good_here : forall k t v, each valid_here t v -> good_numbers k t v -> each (here (good_number k)) t v.
Proof.
  intros k t v A B. apply each_mono with (2 := each_and _ _ t v A B). clear. intros t v [A B]. destruct t, v; auto.
Qed.
(** A value that is read back, but with the numbers that their texts denote. *)
Theorem alike_reads_back : forall k m marker t v w, reads_back m marker t v -> good_numbers k t v -> alike (near_number k) t v w -> reads_back m marker t w.
Proof.
  intros k m marker t v w (W & [Sh Va] & Dn & Nn & Un & Ex) G A. split; [exact W|]. split; [split|].
  - now rewrite <- (alike_shaped _ t v w A).
  - assert (H := good_here k t v Va G). revert H. apply each_alike with (R := near_number k); [|exact W|exact A]. clear. intros t v w W A H. destruct t; try exact I.
    + destruct v, w; cbn [alike] in A; try contradiction. exact (near_fits k i _ _ H A).
    + cbn [alike] in A. subst. exact H.
    + destruct v, w; cbn [alike] in A; try exact I; try discriminate A. cbn [here valid_here] in *. cbn [wf] in W. apply andb_prop in W as [_ W]. revert A H. apply alike_order; [|exact W].
      intros i a b N1 N2. unfold near_number. destruct i; cbn [flt_of]; congruence.
    + destruct v, w; cbn [alike] in A; try exact I; try discriminate A. cbn [here valid_here] in *.
      assert (E : map fst l = map fst l0) by (apply alike_keys; clear H; induction A as [|? ? ? ? [E _]]; constructor; auto).
      destruct H as [H1 H2]. split; [now apply (ordered_keys _ l)|]. rewrite <- (Forall_map fst) in *. now rewrite <- E.
  - split; [exact Dn|]. split; [now apply (alike_no_null _ t v w W A)|]. split; [exact Un|]. intro E. destruct (Ex E) as [C O]. split; [now apply (alike_complete _ t v w W A)|exact O].
Qed.
(** The document of a value stands for a value like it. *)
Theorem flt_doc_alike : forall k marker t v, plain_name marker -> valid t v -> good_numbers k t v -> plain_keys t v -> plain_names t ->
  forall j, dc_val (doc_of (fun i z => SNum (num_text k i z)) marker t) v = Ok j -> exists w, alike (near_number k) t v w /\ d_val (num_sense json_num marker t) w j.
Proof.
  intros k marker t v Hm [Sh Va] G K N j E.
  assert (S := proj1 (num_stands (fun i z => SNum (num_text k i z)) (fun i z a => a = SNum (num_text k i z) /\ good_number k i z) (good_number k) (fun i z H => conj eq_refl H) marker Hm t v (good_here k t v Va G) K N) j E).
  refine (proj1 (sense_alike (near_number k) _ json_num _ json_bool json_str json_tag json_null json_key marker t) v j S).
  intros i z a [-> H]. exact (num_text_reread k i z H).
Qed.

(** ** Texts that are not JSON *)
Lemma last_app : forall (x y : list Z) d, y <> [] -> last (x ++ y) d = last y d.
Proof. induction x as [|a x IH]; intros y d H; [reflexivity|]. cbn [app]. rewrite <- (IH y d H). destruct (x ++ y) as [|z q] eqn:E; [destruct x; [subst; contradiction|discriminate E]|reflexivity]. Qed.
Lemma last_digit : forall l, l <> [] -> Forall digit l -> digit (last l 0).
Proof. induction l as [|d l IH]; intros N F; [contradiction|]. inversion F; subst. destruct l as [|e l]; [assumption|]. cbn [last]. apply IH; [discriminate|assumption]. Qed.
Lemma number_last : forall t, number t -> digit (last t 0).
Proof.
  intros t [s i f e Hs Hi Hf He]. destruct (int_part_digits i Hi) as [Ni Fi].
  destruct He as [|x l Hx [Nl Fl]|x y l Hx Hy [Nl Fl]].
  - rewrite app_nil_r. destruct Hf as [|l [Nl Fl]].
    + rewrite app_nil_r, last_app by exact Ni. now apply last_digit.
    + rewrite !last_app by (try discriminate; intro Q; apply app_eq_nil in Q as [_ Q]; discriminate Q). change (46 :: l) with ([46] ++ l). rewrite last_app by exact Nl. now apply last_digit.
  - change (x :: l) with ([x] ++ l). rewrite !app_assoc, last_app by exact Nl. now apply last_digit.
  - change (x :: y :: l) with ([x; y] ++ l). rewrite !app_assoc, last_app by exact Nl. now apply last_digit.
Qed.
(** A text of one word is a number, true, false or null. *)
Lemma word_document : forall j t, document j t -> Forall (fun c => c <> 32 /\ c <> 9 /\ c <> 10 /\ c <> 13 /\ c <> 34 /\ c <> 91 /\ c <> 123) t ->
  number t \/ t = bs "true" \/ t = bs "false" \/ t = bs "null".
Proof.
  intros j t [j' w1 s w2 H1 Hs H2] F. clear j t. apply Forall_app in F as [F1 F]. apply Forall_app in F as [F F2].
  assert (E1 : w1 = []) by (destruct H1 as [|c w1 Hc H1]; [reflexivity|]; inversion F1; subst; unfold ws_char in Hc; lia).
  assert (E2 : w2 = []) by (destruct H2 as [|c w2 Hc H2]; [reflexivity|]; inversion F2; subst; unfold ws_char in Hc; lia). subst. cbn [app]. rewrite app_nil_r.
  destruct Hs as [a s St| | | |]; try (inversion F; subst; lia). destruct St; try (inversion F; subst; lia); auto.
Qed.
Lemma not_a_number : forall t, Forall (fun c => c <> 32 /\ c <> 9 /\ c <> 10 /\ c <> 13 /\ c <> 34 /\ c <> 91 /\ c <> 123) t ->
  ~ digit (last t 0) -> ~ In (hd 0 t) [116; 102; 110] -> forall j, ~ document j t.
Proof.
  intros t F L H j D. destruct (word_document j t D F) as [N|[->|[->| ->]]]; [exact (L (number_last t N))| | |]; apply H; cbn; auto.
Qed.
