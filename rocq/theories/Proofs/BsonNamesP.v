(** The names of the elements of BSON arrays, whatever the elements are. *)
From Coq Require Import ZArith String List Bool Lia ZifyBool.
From Verif Require Import Model.Base Model.Number Model.Unicode Model.Printer Model.JsonPrinter Model.Types Model.Serializer Model.Binary Model.BsonPrinter
  Spec.JsonString Spec.Json Spec.Bson Proofs.Induct Proofs.BinaryP Proofs.BsonSim Proofs.BsonExportP.
Import ListNotations.
Open Scope Z_scope.

Section Names.
  Context (proj : bool) (ids : option (nat -> bytes)) (marker : bytes).
  Notation ops := (bson_printer proj ids).
  Notation S := (ser ops marker).

  Lemma then_inv : forall (a b : writer bprinter) s out s', w_then a b s = Ok (out, s') ->
    exists o1 s1 o2, a s = Ok (o1, s1) /\ b s1 = Ok (o2, s') /\ out = o1 ++ o2.
  Proof.
    intros a b s out s' H. unfold w_then in H. destruct (a s) as [[o1 s1]| | |]; cbn [bind] in H; try discriminate H.
    destruct (b s1) as [[o2 s2]| | |] eqn:E; cbn [bind] in H; try discriminate H. injection H as <- <-. eauto 10.
  Qed.

  (** What a value does to the state and how it begins. *)
  Definition begins (i : Z) (out : list chunk) : Prop := exists type data, chunks_text out = type :: int_dec i ++ 0 :: data.
  Definition value_like (w : writer bprinter) : Prop := forall s out s', w s = Ok (out, s') ->
    bp_stack s' = bp_stack s /\
    match bp_stack s with
    | BArray :: _ => exists i r, bp_index s = i :: r /\ bp_index s' = i + 1 :: r /\ begins i out
    | _ => bp_index s' = bp_index s
    end.
  (** What the members of an object do to the state. *)
  Definition members_like (w : writer bprinter) : Prop := forall s out s' st, bp_stack s = BMap :: st -> w s = Ok (out, s') ->
    bp_stack s' = bp_stack s /\ bp_index s' = bp_index s.

  Lemma begins_app : forall i a b, begins i a -> begins i (a ++ b).
  Proof. intros i a b (ty & d & E). exists ty, (d ++ chunks_text b). rewrite text_app, E. cbn [app]. now rewrite <- app_assoc. Qed.
  Lemma fail_value : forall o, (forall r, o <> Ok r) -> value_like (w_fail o).
  Proof. intros o H s out s' E. now destruct (H (out, s')). Qed.
  Lemma key_value : forall type size, value_like (writeKey type size).
  Proof.
    intros type size s out s' E. unfold writeKey in E. destruct (bp_stack s) as [|[] st] eqn:Es.
    - destruct size; injection E as <- <-; auto.
    - injection E as <- <-. auto.
    - destruct (bp_index s) as [|i r] eqn:Ei; [discriminate E|]. injection E as <- <-. cbn [bp_stack bp_index]. split; [reflexivity|]. exists i, r. split; [reflexivity|]. split; [reflexivity|].
      exists type, []. reflexivity.
    - injection E as <- <-. auto.
  Qed.
  Lemma key_put_value : forall type size b, value_like (w_then (writeKey type size) (w_put b)).
  Proof.
    intros type size b s out s' E. apply then_inv in E as (o1 & s1 & o2 & E1 & E2 & ->). injection E2 as <- <-. destruct (key_value _ _ _ _ _ E1) as [Hs Hi].
    split; [exact Hs|]. destruct (bp_stack s) as [|[] st]; auto. destruct Hi as (i & r & H1 & H2 & H3). exists i, r. auto using begins_app.
  Qed.
  Lemma unless_value : forall w, value_like w -> value_like (unless_projection proj w).
  Proof. intros w H. unfold unless_projection. destruct proj; [apply key_put_value|exact H]. Qed.

  Lemma key_members : forall k w, value_like w -> members_like (w_then (pr_key ops k) w).
  Proof.
    intros k w H s out s' st Es E. apply then_inv in E as (o1 & s1 & o2 & E1 & E2 & ->). cbn [pr_key bson_printer] in E1. unfold bs_key in E1. rewrite Es in E1. injection E1 as <- <-.
    destruct (H _ _ _ E2) as [H1 H2]. cbn [bp_at bp_stack bp_index] in *. rewrite Es in *. auto.
  Qed.
  Lemma nothing_members : members_like w_nothing.
  Proof. intros s out s' st _ E. injection E as <- <-. auto. Qed.
  Lemma then_members : forall a b, members_like a -> members_like b -> members_like (w_then a b).
  Proof.
    intros a b Ha Hb s out s' st Es E. apply then_inv in E as (o1 & s1 & o2 & E1 & E2 & ->). destruct (Ha _ _ _ _ Es E1) as [H1 H2].
    assert (Es1 : bp_stack s1 = BMap :: st) by congruence. destruct (Hb _ _ _ _ Es1 E2) as [H3 H4]. split; congruence.
  Qed.

  Lemma map_value : forall sz body, members_like body -> value_like (map_block ops sz body).
  Proof.
    intros sz body H s out s' E. unfold map_block, sized in E. cbn [pr_usesSize bson_printer] in E. destruct (sz s) as [z| | |]; cbn [bind] in E; try discriminate E.
    apply then_inv in E as (o1 & s1 & o2 & E1 & E2 & ->). apply then_inv in E2 as (o3 & s3 & o4 & E3 & E4 & ->).
    cbn [pr_openMap bson_printer] in E1. unfold bs_openMap in E1. apply then_inv in E1 as (o5 & s5 & o6 & E5 & E6 & ->). apply then_inv in E6 as (o7 & s7 & o8 & E7 & E8 & ->).
    injection E7 as <- <-. apply then_inv in E8 as (o9 & s9 & o10 & E9 & E10 & ->). injection E9 as <- <-.
    destruct (key_value _ _ _ _ _ E5) as [K1 K2].
    assert (Q : bp_stack s1 = BMap :: bp_stack s5 /\ bp_index s1 = bp_index s5).
    { destruct (needToInsertId ids s5).
      - apply then_inv in E10 as (oa & sa & ob & Ea & Eb & ->). injection Ea as <- <-. apply then_inv in Eb as (oc & sc & od & Ec & Ed & ->). injection Ec as <- <-.
        unfold w_id in Ed. destruct ids; [|discriminate Ed]. injection Ed as <- <-. auto.
      - injection E10 as <- <-. auto. }
    destruct Q as [Q1 Q2]. destruct (H _ _ _ _ Q1 E3) as [M1 M2]. cbn [pr_closeMap bson_printer] in E4. unfold bs_closeMap in E4. rewrite M1, Q1 in E4. injection E4 as <- <-.
    cbn [bp_stack bp_index]. split; [exact K1|]. rewrite M2, Q2. destruct (bp_stack s) as [|[] st]; auto.
    destruct K2 as (i & r & I1 & I2 & I3). exists i, r. split; [exact I1|]. split; [exact I2|]. rewrite <- !app_assoc. now apply begins_app.
  Qed.

  (** The elements of an array: each is printed in turn and begins with its index. *)
  Inductive elements : Z -> list (writer bprinter) -> bytes -> Prop :=
  | el_nil : forall i, elements i [] []
  | el_cons : forall i w ws s out s' r, w s = Ok (out, s') -> begins i out -> elements (i + 1) ws r -> elements i (w :: ws) (chunks_text out ++ r).
  Lemma all_elements : forall ws, Forall value_like ws -> forall s out s' st i r, bp_stack s = BArray :: st -> bp_index s = i :: r -> w_all ws s = Ok (out, s') ->
    bp_stack s' = BArray :: st /\ bp_index s' = i + Z.of_nat (List.length ws) :: r /\ elements i ws (chunks_text out).
  Proof.
    intros ws F. induction F as [|w ws Hw F IH]; intros s out s' st i r Es Ei E.
    - injection E as <- <-. rewrite Es, Ei. change (Z.of_nat (List.length (@nil (writer bprinter)))) with 0. rewrite Z.add_0_r. repeat split. constructor.
    - change (w_all (w :: ws)) with (w_then w (w_all ws)) in E. apply then_inv in E as (o1 & s1 & o2 & E1 & E2 & ->).
      destruct (Hw _ _ _ E1) as [H1 H2]. rewrite Es in *. destruct H2 as (i' & r' & I1 & I2 & I3). rewrite Ei in I1. injection I1 as <- <-.
      destruct (IH _ _ _ st (i + 1) r H1 I2 E2) as (A & B & C). split; [exact A|]. split.
      + rewrite B. f_equal. cbn [List.length]. lia.
      + rewrite text_app. econstructor; eauto.
  Qed.
  Lemma array_out_names : forall sz ws s out s', Forall value_like ws -> array_block ops sz (w_all ws) s = Ok (out, s') ->
    bp_stack s' = bp_stack s /\
    match bp_stack s with
    | BArray :: _ => exists i r, bp_index s = i :: r /\ bp_index s' = i + 1 :: r /\ begins i out
    | _ => bp_index s' = bp_index s
    end /\
    exists z front e, sz s = Ok z /\ chunks_text out = front ++ put_size z ++ e ++ [0] /\ elements 0 ws e.
  Proof.
    intros sz ws s out s' F E. unfold array_block, sized in E. cbn [pr_usesSize bson_printer] in E. destruct (sz s) as [z| | |] eqn:Ez; cbn [bind] in E; try discriminate E.
    apply then_inv in E as (o1 & s1 & o2 & E1 & E2 & ->). apply then_inv in E2 as (o3 & s3 & o4 & E3 & E4 & ->).
    cbn [pr_openArray bson_printer] in E1. unfold bs_openArray in E1. apply then_inv in E1 as (o5 & s5 & o6 & E5 & E6 & ->). apply then_inv in E6 as (o7 & s7 & o8 & E7 & E8 & ->).
    injection E7 as <- <-. injection E8 as <- <-. destruct (key_value _ _ _ _ _ E5) as [K1 K2].
    destruct (all_elements ws F (mkBp (bp_key s5) (BArray :: bp_stack s5) (0 :: bp_index s5) (bp_ids s5)) _ _ _ _ _ eq_refl eq_refl E3) as (A & B & C).
    cbn [pr_closeArray bson_printer] in E4. unfold bs_closeArray in E4. rewrite A, B in E4. injection E4 as <- <-. cbn [bp_stack bp_index].
    split; [exact K1|]. split.
    - destruct (bp_stack s) as [|[] st]; auto. destruct K2 as (i & r & I1 & I2 & I3). exists i, r. split; [exact I1|]. split; [exact I2|]. rewrite <- !app_assoc. now apply begins_app.
    - exists z, (chunks_text o5), (chunks_text o3). split; [reflexivity|]. split; [|exact C]. rewrite !text_app. cbn [chunks_text flat_map chunk_bytes app]. rewrite !app_nil_r, <- !app_assoc. reflexivity.
  Qed.
  Lemma array_value : forall sz ws, Forall value_like ws -> value_like (array_block ops sz (w_all ws)).
  Proof. intros sz ws F s out s' E. destruct (array_out_names sz ws s out s' F E) as (A & B & _). auto. Qed.

  Lemma tuple_all : forall (fs : list (sfun bprinter)) vs s out s', put_tuple fs vs s = Ok (out, s') -> List.length fs = List.length vs /\
    put_tuple fs vs = w_all (map (fun fv => sf_print (fst fv) (snd fv)) (combine fs vs)).
  Proof.
    induction fs as [|f fs IH]; intros [|v vs] s out s' E; try discriminate E; [auto|]. cbn [put_tuple] in E. apply then_inv in E as (o1 & s1 & o2 & _ & E2 & _).
    destruct (IH _ _ _ _ E2) as [L Q]. split; [cbn; congruence|]. cbn [put_tuple combine map]. rewrite Q. reflexivity.
  Qed.
  Lemma tuple_block : forall sz (fs : list (sfun bprinter)) vs s out s', array_block ops sz (put_tuple fs vs) s = Ok (out, s') -> List.length fs = List.length vs /\
    put_tuple fs vs = w_all (map (fun fv => sf_print (fst fv) (snd fv)) (combine fs vs)).
  Proof.
    intros sz fs vs s out s' E. unfold array_block, sized in E. cbn [pr_usesSize bson_printer] in E. destruct (sz s) as [z| | |]; cbn [bind] in E; try discriminate E.
    apply then_inv in E as (o1 & s1 & o2 & _ & E & _). apply then_inv in E as (o3 & s3 & o4 & E & _). eapply tuple_all. exact E.
  Qed.

  Definition all_like (t : ty) : Prop := forall v,
    value_like (sf_print (S t) v) /\ value_like (sf_poly (S t) v) /\ members_like (sf_members (S t) v).
  Ltac scalar := split; [|split; [apply fail_value; discriminate|intros s0 o0 s0' st0 _ E0; discriminate E0]].

  Lemma elems_like : forall t l, all_like t -> Forall value_like (map (sf_print (S t)) l).
  Proof. intros t l H. apply Forall_map. apply Forall_forall. intros v _. apply H. Qed.
  Lemma tuple_like : forall ts, Forall all_like ts -> forall vs, Forall value_like (map (fun fv => sf_print (fst fv) (snd fv)) (combine (map S ts) vs)).
  Proof. intros ts F. induction F as [|t ts H F IH]; intros [|v vs]; cbn [map combine]; try constructor; [apply H|apply IH]. Qed.
  Lemma entries_like : forall t l, all_like t -> members_like (put_entries ops (S t) l).
  Proof.
    intros t l H. induction l as [|[k v] l IH]; [apply nothing_members|].
    change (put_entries ops (S t) ((k, v) :: l)) with (w_then (w_then (pr_key ops k) (sf_print (S t) v)) (put_entries ops (S t) l)).
    apply then_members; [apply key_members; apply H|exact IH].
  Qed.
  Lemma own_like : forall ts, Forall all_like ts -> forall ns l, members_like (put_members ops ns (map opt_type ts) (map S ts) l).
  Proof.
    intros ts F. induction F as [|t ts H F IH]; intros [|n ns] [|v l]; try (intros s0 o0 s0' st0 _ E0; discriminate E0); [apply nothing_members|]. cbn [map put_members].
    apply then_members; [|apply IH]. destruct (Serializer.keeps (opt_type t) v); [apply key_members; apply H|apply nothing_members].
  Qed.
  Lemma parents_like : forall ts, Forall all_like ts -> forall l, members_like (put_parents (map S ts) l).
  Proof.
    intros ts F. induction F as [|t ts H F IH]; intros [|v l]; try (intros s0 o0 s0' st0 _ E0; discriminate E0); [apply nothing_members|]. cbn [map put_parents].
    apply then_members; [apply H|apply IH].
  Qed.

  Theorem every_like : forall t, all_like t.
  Proof.
    apply ty_ind'.
    - intros i v. scalar. cbn [ser sf_print mkSv]. destruct v; try (apply fail_value; discriminate). apply unless_value, key_put_value.
    - intros v. scalar. cbn [ser sf_print mkSv]. destruct v; try (apply fail_value; discriminate). apply unless_value, key_put_value.
    - intros v. scalar. cbn [ser sf_print mkSv]. destruct v; try (apply fail_value; discriminate). apply unless_value, key_put_value.
    - intros l v. scalar. cbn [ser sf_print mkSv]. destruct v; try (apply fail_value; discriminate). destruct (enum_name l z); [apply unless_value, key_put_value|apply fail_value; discriminate].
    - intros co t IH v. scalar. cbn [ser sf_print mkSv]. destruct v; try (apply fail_value; discriminate). apply array_value. now apply elems_like.
    - intros n t IH v. scalar. cbn [ser sf_print mkSv]. destruct v; try (apply fail_value; discriminate). destruct (Nat.eqb _ _); [|apply fail_value; discriminate]. apply array_value. now apply elems_like.
    - intros ts IH v. scalar. cbn [ser sf_print mkSv]. destruct v; try (apply fail_value; discriminate). intros s out s' E.
      destruct (tuple_block _ _ _ _ _ _ E) as [_ Q]. rewrite Q in E. exact (array_value _ _ (tuple_like ts IH l) _ _ _ E).
    - intros fw t IH v. scalar. cbn [ser sf_print mkSv]. destruct v; try (apply fail_value; discriminate). apply map_value. now apply entries_like.
    - intros t IH v. scalar. cbn [ser sf_print mkSv]. destruct v as [| | | | |[x|]| | |]; try (apply fail_value; discriminate); [apply IH|apply unless_value, key_value].
    - intros t IH v. scalar. cbn [ser sf_print mkSv]. destruct v as [| | | | | |[x|]| |]; try (apply fail_value; discriminate). apply IH.
    - intros i ms ps IHm IHp v.
      assert (G : members_like (sf_members (S (TStruct i ms ps)) v)).
      { cbn [ser sf_members]. unfold put_struct. destruct v; try (intros s0 o0 s0' st0 _ E0; discriminate E0). apply then_members; [now apply own_like|now apply parents_like]. }
      assert (T : members_like (put_marker ops marker i)) by (apply key_members, unless_value, key_put_value).
      split; [|split; [|exact G]]; cbn [ser sf_print sf_poly]; apply map_value; (apply then_members; [|exact G]); [destruct (si_mark i); [exact T|apply nothing_members]|exact T].
    - intros cs o IH v. scalar. cbn [ser sf_print mkSv]. destruct v as [| | | | |[[]|]| | |]; try (apply fail_value; discriminate); [|apply unless_value, key_value].
      rewrite nth_error_map. destruct (nth_error cs i) as [c|] eqn:Ec; [|apply fail_value; discriminate]. cbn [option_map]. rewrite Forall_forall in IH. apply (IH c (nth_error_In _ _ Ec)).
    - intros cs IH v. scalar. cbn [ser sf_print mkSv]. destruct v; try (apply fail_value; discriminate).
      rewrite nth_error_map. destruct (nth_error cs i) as [c|] eqn:Ec; [|apply fail_value; discriminate]. cbn [option_map]. rewrite Forall_forall in IH. apply (IH c (nth_error_In _ _ Ec)).
  Qed.
End Names.

(** ** The size of an array *)
Lemma digits_low : forall l a, Forall digit l -> 0 <= a -> a * 10 ^ Z.of_nat (List.length l) <= decimal_value a l.
Proof.
  induction l as [|x l IH]; intros a H Ha; cbn [decimal_value List.length].
  - change (10 ^ Z.of_nat 0) with 1. lia.
  - inversion H as [|? ? Hx Hl]; subst. unfold digit in Hx. rewrite Nat2Z.inj_succ, Z.pow_succ_r by lia.
    assert (Q := IH (10 * a + (x - 48)) Hl ltac:(lia)). assert (P : 0 < 10 ^ Z.of_nat (List.length l)) by (apply Z.pow_pos_nonneg; lia). nia.
Qed.
Lemma name_len : forall i n, decimal_name i n -> 0 <= i /\ len n = len (int_dec i).
Proof.
  intros i n [Hp <-]. inversion Hp as [E|c r Hc Hr E]; subst.
  - split; [cbn; lia|reflexivity].
  - assert (P : 0 < 10 ^ Z.of_nat (List.length r)) by (apply Z.pow_pos_nonneg; lia).
    assert (L := digits_low r (c - 48) Hr ltac:(lia)). assert (U := digits_bound r (c - 48) Hr ltac:(lia)). rewrite <- decimal_digits in U.
    cbn [decimal_value]. replace (10 * 0 + (c - 48)) with (c - 48) by lia.
    assert (D : 0 <= decimal_value (c - 48) r) by nia. split; [exact D|]. symmetry. unfold len at 2. cbn [List.length]. apply int_dec_len; [lia| |].
    + split; [exact D|]. rewrite Nat2Z.inj_succ, Z.pow_succ_r by lia. nia.
    + right. replace (Z.of_nat (Datatypes.S (List.length r)) - 1) with (Z.of_nat (List.length r)) by lia. nia.
Qed.
Lemma names_total : forall ns i, (forall k n, nth_error ns k = Some n -> decimal_name (i + Z.of_nat k) n) ->
  names_len i (List.length ns) = fold_right (fun n z => len n + z) 0 ns.
Proof.
  induction ns as [|n ns IH]; intros i H; [reflexivity|]. cbn [List.length names_len fold_right]. rewrite (IH (i + 1)).
  - assert (Q := H 0%nat n eq_refl). rewrite Z.add_0_r in Q. now rewrite (proj2 (name_len _ _ Q)).
  - intros k m E. assert (Q := H (Datatypes.S k) m E). replace (i + 1 + Z.of_nat k) with (i + Z.of_nat (Datatypes.S k)) by lia. exact Q.
Qed.
