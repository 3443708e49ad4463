(** Adding elements to the ordered containers, and reading them. *)
From Coq Require Import ZArith List Bool Lia.
From Verif Require Import Model.Base Model.Source Model.Number Model.JsonLexer Model.ParserInterface Model.JsonParser Model.Types Model.Deserializer Model.Importer
  Model.BsonPrinter Model.BsonParser Model.BsonDoc Model.Yaml
  Spec.Denotes Spec.Containers Proofs.OrderP.
Import ListNotations.
Open Scope Z_scope.

(** ** The elements with a key *)
Definition keyb (co : cont) (k x : val) : bool := match val_cmp (key_of co x) k with Eq => true | _ => false end.
Lemma keyb_key : forall co k x, keyb co k x = true <-> key_of co x = k.
Proof. intros co k x. unfold keyb. rewrite <- val_cmp_eq. destruct (val_cmp _ _); split; congruence. Qed.
Lemma has_key_of : forall co k x, has_key co k x <-> key_of co x = k.
Proof. intros co k x. destruct co; cbn [has_key key_of]; try reflexivity; destruct x as [| | | | | | |[]|]; reflexivity. Qed.
Lemma with_key_filter : forall co k l r, with_key co k l r <-> r = filter (keyb co k) l.
Proof.
  intros co k l r. split.
  - induction 1 as [|x l r Hx H IH|x l r Hx H IH]; [reflexivity| |]; cbn [filter]; rewrite has_key_of in Hx.
    + apply keyb_key in Hx. rewrite Hx. now f_equal.
    + destruct (keyb co k x) eqn:E; [apply keyb_key in E; contradiction|exact IH].
  - intros ->. induction l as [|x l IH]; cbn [filter]; [constructor|]. destruct (keyb co k x) eqn:E.
    + apply wk_yes; [apply has_key_of; now apply keyb_key|exact IH].
    + apply wk_no; [|exact IH]. rewrite has_key_of. intro Q. apply keyb_key in Q. congruence.
Qed.

(** ** insert *)
Section Ins.
  Context (co : cont).
  Notation K := (key_of co).
  Definition weak (x y : val) : Prop := val_cmp (K x) (K y) <> Gt.
  Definition strict (x y : val) : Prop := val_cmp (K x) (K y) = Lt.
  Lemma before_impl : forall (R R' : val -> val -> Prop) l, (forall x y, R x y -> R' x y) -> each_before R l -> each_before R' l.
  Proof. intros R R' l H E. induction E as [|x l F E IH]; constructor; [|exact IH]. eapply Forall_impl; [|exact F]. auto. Qed.
  Lemma lt_weak : forall a b c, val_cmp a b = Lt -> val_cmp b c <> Gt -> val_cmp a c = Lt.
  Proof. intros a b c H1 H2. destruct (val_cmp b c) eqn:E; [apply val_cmp_eq in E; now subst|eapply val_cmp_lt; eauto|contradiction]. Qed.
  Lemma ltb_strict : forall x y, elem_ltb co x y = true <-> strict x y.
  Proof. intros. apply elem_ltb_key. Qed.
  Lemma ltb_weak : forall x y, elem_ltb co x y = false <-> weak y x.
  Proof. intros x y. unfold elem_ltb, weak. rewrite (val_cmp_opp (K x)). destruct (val_cmp (K x) (K y)); cbn; split; congruence. Qed.

  Lemma insert_weak : forall x l, each_before weak l -> each_before weak (insert_at (elem_ltb co) false x l).
  Proof.
    intros x l E. induction E as [|y l F E IH]; cbn [insert_at]; [constructor; constructor|]. destruct (elem_ltb co x y) eqn:L.
    - constructor; [|constructor; auto]. apply ltb_strict in L. constructor; [unfold weak; rewrite L; discriminate|].
      eapply Forall_impl; [|exact F]. intros z Hz. unfold weak. rewrite (lt_weak _ _ _ L Hz). discriminate.
    - cbn [andb]. constructor; [|exact IH]. apply Forall_forall. intros z Hz. apply insert_in in Hz as [->|Hz]; [now apply ltb_weak|]. rewrite Forall_forall in F. auto.
  Qed.
  Lemma insert_strict : forall x l, each_before strict l -> each_before strict (insert_at (elem_ltb co) true x l).
  Proof.
    intros x l E. induction E as [|y l F E IH]; cbn [insert_at]; [constructor; constructor|]. destruct (elem_ltb co x y) eqn:L.
    - constructor; [|constructor; auto]. apply ltb_strict in L. constructor; [exact L|]. eapply Forall_impl; [|exact F]. intros z Hz. exact (val_cmp_lt _ _ _ L Hz).
    - cbn [andb]. destruct (elem_ltb co y x) eqn:L2; cbn [negb]; [|now constructor]. constructor; [|exact IH]. apply Forall_forall. intros z Hz.
      apply insert_in in Hz as [->|Hz]; [now apply ltb_strict|]. rewrite Forall_forall in F. auto.
  Qed.

  Lemma none_after : forall k l, Forall (fun y => val_cmp k (K y) = Lt) l -> filter (keyb co k) l = [].
  Proof.
    intros k l F. induction F as [|y l H F IH]; [reflexivity|]. cbn [filter]. unfold keyb at 1. rewrite (val_cmp_opp k), H. exact IH.
  Qed.
  Lemma insert_filter : forall uniq x l k, each_before weak l ->
    filter (keyb co k) (insert_at (elem_ltb co) uniq x l) =
    if keyb co k x then (if uniq then match filter (keyb co k) l with [] => [x] | r => r end else filter (keyb co k) l ++ [x]) else filter (keyb co k) l.
  Proof.
    intros uniq x l k E. induction E as [|y l F E IH]; cbn [insert_at filter].
    - destruct (keyb co k x), uniq; reflexivity.
    - destruct (elem_ltb co x y) eqn:L; [|destruct (uniq && negb (elem_ltb co y x)) eqn:U].
      + cbn [filter]. destruct (keyb co k x) eqn:Kx; [|reflexivity]. apply keyb_key in Kx. apply ltb_strict in L. unfold strict in L. rewrite Kx in L.
        assert (N : filter (keyb co k) (y :: l) = []).
        { apply none_after. constructor; [exact L|]. eapply Forall_impl; [|exact F]. intros z Hz. exact (lt_weak _ _ _ L Hz). }
        cbn [filter] in N. rewrite N. now destruct uniq.
      + apply andb_prop in U as [-> U]. apply negb_true_iff in U. assert (Q := elem_ltb_eq co x y L U). cbn [filter].
        assert (Kxy : keyb co k x = keyb co k y) by (unfold keyb; now rewrite Q). rewrite Kxy. destruct (keyb co k y); reflexivity.
      + cbn [filter]. rewrite IH. destruct (keyb co k x) eqn:Kx; [|reflexivity]. destruct (keyb co k y) eqn:Ky; [|reflexivity].
        destruct uniq; [|reflexivity]. exfalso. apply keyb_key in Kx, Ky. cbn [andb] in U. apply negb_false_iff, ltb_strict in U. unfold strict in U. rewrite Kx, Ky, val_cmp_refl in U. discriminate U.
  Qed.
  Lemma fold_weak : forall l old, each_before weak old -> let new := fold_left (fun a x => insert_at (elem_ltb co) false x a) l old in
    each_before weak new /\ forall k, filter (keyb co k) new = filter (keyb co k) (old ++ l).
  Proof.
    induction l as [|x l IH]; intros old E; cbn [fold_left]; [split; [exact E|intro; now rewrite app_nil_r]|].
    destruct (IH _ (insert_weak x old E)) as [I1 I2]. split; [exact I1|]. intro k. rewrite I2, !filter_app, insert_filter by exact E. cbn [filter]. destruct (keyb co k x); [now rewrite <- app_assoc|reflexivity].
  Qed.
  Lemma strict_weak : forall l, each_before strict l -> each_before weak l.
  Proof. intros l. apply before_impl. unfold strict, weak. intros x y ->. discriminate. Qed.
  Lemma strict_one : forall k l, each_before strict l -> firstn 1 (filter (keyb co k) l) = filter (keyb co k) l.
  Proof.
    intros k l E. induction E as [|y l F E IH]; [reflexivity|]. cbn [filter]. destruct (keyb co k y) eqn:Ky; [|exact IH]. apply keyb_key in Ky. rewrite none_after; [reflexivity|].
    eapply Forall_impl; [|exact F]. intros z Hz. now rewrite <- Ky.
  Qed.
  Lemma fold_strict : forall l old, each_before strict old -> let new := fold_left (fun a x => insert_at (elem_ltb co) true x a) l old in
    each_before strict new /\ forall k, filter (keyb co k) new = firstn 1 (filter (keyb co k) (old ++ l)).
  Proof.
    induction l as [|x l IH]; intros old E; cbn [fold_left]; [split; [exact E|intro; rewrite app_nil_r; symmetry; now apply strict_one]|].
    destruct (IH _ (insert_strict x old E)) as [I1 I2]. split; [exact I1|]. intro k. rewrite I2, !filter_app, insert_filter by now apply strict_weak. cbn [filter].
    destruct (keyb co k x); [|reflexivity]. assert (Q := strict_one k old E). destruct (filter (keyb co k) old) as [|a r]; reflexivity.
  Qed.
End Ins.
Theorem added_collects : forall co l old, in_order co old -> collects co old l (fold_left (seq_add co) l old).
Proof.
  intros co l old E.
  assert (B : forall c, c = CBack \/ c = CBits -> fold_left (seq_add c) l old = old ++ l).
  { intros c Hc. clear E. revert old. induction l as [|x l' IH]; intro old; cbn [fold_left]; [now rewrite app_nil_r|]. rewrite IH. destruct Hc as [->| ->]; cbn [seq_add]; now rewrite <- app_assoc. }
  destruct co; cbn [collects in_order] in *; try (apply B; auto).
  - destruct (fold_strict CSet l old E) as [I1 I2]. split; [exact I1|]. intros k r H. apply with_key_filter in H. subst r. apply with_key_filter. symmetry. apply I2.
  - destruct (fold_weak CMultiset l old E) as [I1 I2]. split; [exact I1|]. intros k r H. apply with_key_filter in H. subst r. apply with_key_filter. symmetry. apply I2.
  - destruct (fold_strict CMap l old E) as [I1 I2]. split; [exact I1|]. intros k r H. apply with_key_filter in H. subst r. apply with_key_filter. symmetry. apply I2.
  - destruct (fold_weak CMultimap l old E) as [I1 I2]. split; [exact I1|]. intros k r H. apply with_key_filter in H. subst r. apply with_key_filter. symmetry. apply I2.
Qed.

(** ** Reading: the elements are those that a vector reads *)
Definition gathered (co : cont) (old : list val) (v : val) : val := match v with VList l => VList (fold_left (seq_add co) l old) | _ => v end.
Section Read.
  Context {St : Type} (ops : parser_ops St) (F : nat) (m : strictness) (marker : bytes).
  Lemma loop_gather : forall co d dflt old n i l p,
    arr_loop ops n (elem_vec co d dflt) i (VList (fold_left (seq_add co) l old)) p =
    do (v, p') <- arr_loop ops n (elem_vec CBack d dflt) i (VList l) p; Ok (gathered co old v, p').
  Proof.
    intros co d dflt old. induction n as [|n IH]; intros i l p; [reflexivity|]. cbn [arr_loop]. destruct (getToken ops p) as [[tk p1]| | |]; try reflexivity. cbn [bind].
    destruct tk; try reflexivity; cbn [elem_vec]; (destruct (d_parse d dflt _) as [[x p2]| | |]; try reflexivity; cbn [bind seq_add];
      specialize (IH (S i) (l ++ [x]) p2); rewrite fold_left_app in IH; exact IH).
  Qed.
  Lemma parse_gather : forall co t old p, d_parse (deser ops F m marker (TSeq co t)) (VList old) p =
    do (v, p') <- d_parse (deser ops F m marker (TVec t)) (VList []) p; Ok (gathered co old v, p').
  Proof.
    intros co t old p. cbn [deser d_parse]. unfold read_array. destruct (getToken ops p) as [[tk p1]| | |]; try reflexivity. cbn [bind]. destruct tk; try reflexivity.
    exact (loop_gather co _ _ old F O [] p1).
  Qed.
  Lemma vector_list : forall t l p v p', d_parse (deser ops F m marker (TVec t)) (VList l) p = Ok (v, p') -> exists l', v = VList l'.
  Proof.
    intros t l p v p'. cbn [deser d_parse]. unfold read_array. destruct (getToken ops p) as [[tk p1]| | |]; try discriminate. cbn [bind]. destruct tk; try discriminate.
    assert (G : forall n i l p, arr_loop ops n (elem_vec CBack (deser ops F m marker t) (default t)) i (VList l) p = Ok (v, p') -> exists l', v = VList l').
    { clear. induction n as [|n IH]; intros i l p; [discriminate|]. cbn [arr_loop]. destruct (getToken ops p) as [[tk p1]| | |]; try discriminate. cbn [bind].
      destruct tk; try (intro E; injection E as <- <-; eauto; fail); cbn [elem_vec]; (destruct (d_parse _ _ _) as [[x p2]| | |]; try discriminate; apply IH). }
    apply G.
  Qed.
End Read.
(** Whole imports. *)
Definition result_gather (co : cont) (old : list val) (r : import_result) : import_result :=
  match r with Returned v s => Returned (gathered co old v) s | _ => r end.
Lemma json_gather : forall fuel cfg co t old s, json_extract fuel cfg (TSeq co t) (VList old) s = result_gather co old (json_extract fuel cfg (TVec t) (VList []) s).
Proof.
  intros fuel cfg co t old s. unfold json_extract, json_try. destruct (getToken _ _) as [[tk p]| | |]; try reflexivity. cbn [bind]. destruct tk; try reflexivity. rewrite parse_gather.
  destruct (d_parse _ _ _) as [[v p1]| | |]; try reflexivity. cbn [bind]. destruct (check_trailing _ _) as [s1| | |]; try reflexivity. cbn [bind].
  destruct (getToken _ _) as [[tk p2]| | |]; try reflexivity. cbn [bind]. now destruct tk.
Qed.
Lemma json_vector : forall fuel cfg t l s v s', json_extract fuel cfg (TVec t) (VList l) s = Returned v s' -> exists l', v = VList l'.
Proof.
  intros fuel cfg t l s v s'. unfold json_extract, json_try. destruct (getToken _ _) as [[tk p]| | |]; try discriminate. cbn [bind]. destruct tk; try discriminate.
  destruct (d_parse _ _ _) as [[w p1]| | |] eqn:E; try discriminate. cbn [bind]. apply vector_list in E as (l' & ->). destruct (check_trailing _ _) as [s1| | |]; try discriminate. cbn [bind].
  destruct (getToken _ _) as [[tk p2]| | |]; try discriminate. cbn [bind]. destruct tk; try discriminate. intro E. injection E as <- <-. eauto.
Qed.
Lemma bson_gather : forall fuel cfg co t old s, bson_extract fuel cfg (TSeq co t) (VList old) s = result_gather co old (bson_extract fuel cfg (TVec t) (VList []) s).
Proof.
  intros fuel cfg co t old s. unfold bson_extract, extract_with, try_with. cbn [bson_root]. destruct (getToken _ _) as [[tk p]| | |]; try reflexivity. cbn [bind]. destruct tk; try reflexivity. rewrite parse_gather.
  destruct (d_parse _ _ _) as [[v p1]| | |]; try reflexivity. cbn [bind]. destruct (check_trailing _ _) as [s1| | |]; try reflexivity. cbn [bind].
  destruct (getToken _ _) as [[tk p2]| | |]; try reflexivity. cbn [bind]. now destruct tk.
Qed.
Lemma yaml_gather : forall fuel cfg co t old calls s, yaml_extract fuel cfg (TSeq co t) (VList old) calls s = result_gather co old (yaml_extract fuel cfg (TVec t) (VList []) calls s).
Proof.
  intros fuel cfg co t old calls s. unfold yaml_extract, yaml_extract_with, yaml_try_with. destruct (getToken _ _) as [[tk p]| | |]; try reflexivity. cbn [bind]. destruct tk; try reflexivity. rewrite parse_gather.
  destruct (d_parse _ _ _) as [[v p1]| | |]; try reflexivity. cbn [bind]. destruct (check_trailing _ _) as [s1| | |]; try reflexivity. cbn [bind].
  destruct (getToken _ _) as [[tk p2]| | |]; try reflexivity. cbn [bind]. now destruct tk.
Qed.
Lemma bson_vector : forall fuel cfg t l s v s', bson_extract fuel cfg (TVec t) (VList l) s = Returned v s' -> exists l', v = VList l'.
Proof.
  intros fuel cfg t l s v s'. unfold bson_extract, extract_with, try_with. destruct (getToken _ _) as [[tk p]| | |]; try discriminate. cbn [bind]. destruct tk; try discriminate.
  destruct (d_parse _ _ _) as [[w p1]| | |] eqn:E; try discriminate. cbn [bind]. apply vector_list in E as (l' & ->). destruct (check_trailing _ _) as [s1| | |]; try discriminate. cbn [bind].
  destruct (getToken _ _) as [[tk p2]| | |]; try discriminate. cbn [bind]. destruct tk; try discriminate. intro E. injection E as <- <-. eauto.
Qed.
Lemma yaml_vector : forall fuel cfg t l calls s v s', yaml_extract fuel cfg (TVec t) (VList l) calls s = Returned v s' -> exists l', v = VList l'.
Proof.
  intros fuel cfg t l calls s v s'. unfold yaml_extract, yaml_extract_with, yaml_try_with. destruct (getToken _ _) as [[tk p]| | |]; try discriminate. cbn [bind]. destruct tk; try discriminate.
  destruct (d_parse _ _ _) as [[w p1]| | |] eqn:E; try discriminate. cbn [bind]. apply vector_list in E as (l' & ->). destruct (check_trailing _ _) as [s1| | |]; try discriminate. cbn [bind].
  destruct (getToken _ _) as [[tk p2]| | |]; try discriminate. cbn [bind]. destruct tk; try discriminate. intro E. injection E as <- <-. eauto.
Qed.

(** ** The content is determined *)
Lemma same_filters : forall co a b, each_before (weak co) a -> each_before (weak co) b -> (forall k, filter (keyb co k) a = filter (keyb co k) b) -> a = b.
Proof.
  intros co a. assert (Self : forall x, keyb co (key_of co x) x = true) by (intro; now apply keyb_key).
  assert (Later : forall x y l, each_before (weak co) (y :: l) -> val_cmp (key_of co x) (key_of co y) = Lt -> filter (keyb co (key_of co x)) (y :: l) = []).
  { intros x y l E L. inversion E as [|? ? F _]; subst. apply none_after. constructor; [exact L|]. eapply Forall_impl; [|exact F]. intros z Hz. exact (lt_weak _ _ _ L Hz). }
  induction a as [|x a IH]; intros [|y b] Ea Eb H; [reflexivity| | |].
  - specialize (H (key_of co y)). cbn [filter] in H. rewrite Self in H. discriminate H.
  - specialize (H (key_of co x)). cbn [filter] in H. rewrite Self in H. discriminate H.
  - assert (Kxy : key_of co x = key_of co y).
    { destruct (val_cmp (key_of co x) (key_of co y)) eqn:C; [now apply val_cmp_eq| |].
      - exfalso. specialize (H (key_of co x)). rewrite (Later x y b Eb C) in H. cbn [filter] in H. rewrite Self in H. discriminate H.
      - exfalso. assert (C' : val_cmp (key_of co y) (key_of co x) = Lt) by (rewrite (val_cmp_opp (key_of co x)), C; reflexivity).
        specialize (H (key_of co y)). rewrite (Later y x a Ea C') in H. cbn [filter] in H. rewrite Self in H. discriminate H. }
    assert (E : x = y). { assert (Q := H (key_of co x)). cbn [filter] in Q. rewrite Self in Q. rewrite Kxy, Self in Q. exact (f_equal (hd x) Q). }
    subst y. f_equal. inversion Ea; inversion Eb; subst. apply IH; auto. intro k. specialize (H k). cbn [filter] in H. destruct (keyb co k x); [exact (f_equal (@tl val) H)|exact H].
Qed.
Lemma in_order_weak : forall co l, co <> CBack -> co <> CBits -> in_order co l -> each_before (weak co) l.
Proof.
  intros co l N1 N2 H. destruct co; try congruence; cbn [in_order] in H; try exact H; (eapply before_impl; [|exact H]); unfold weak; intros x y E; cbn [key_of] in *; rewrite E; discriminate.
Qed.
Theorem collects_one : forall co old l a b, collects co old l a -> collects co old l b -> a = b.
Proof.
  intros co old l a b Ha Hb. assert (T : forall k, with_key co k (old ++ l) (filter (keyb co k) (old ++ l))) by (intro; now apply with_key_filter).
  assert (W : forall c, c <> CBack -> c <> CBits -> in_order c a -> in_order c b -> (forall k, filter (keyb c k) a = filter (keyb c k) b) -> a = b).
  { intros c N1 N2 Oa Ob. apply same_filters; now apply in_order_weak. }
  destruct co; cbn [collects] in *; try congruence; destruct Ha as [Oa Ha], Hb as [Ob Hb].
  all: match type of T with forall k, with_key ?c _ _ _ => apply (W c); [discriminate|discriminate|exact Oa|exact Ob|] end.
  all: intro k; specialize (Ha k _ (T k)); specialize (Hb k _ (T k)); apply with_key_filter in Ha, Hb; congruence.
Qed.
