(** When the meaning of a tree is defined behaviour. *)
From Coq Require Import ZArith List Bool Lia ZifyBool.
From Verif Require Import Model.Base Model.Number Model.ParserInterface Model.Types Spec.Json Spec.Typed
  Proofs.Induct Proofs.Sim Proofs.TreeM Proofs.TypedP Proofs.InterpP Proofs.PartP.
Import ListNotations.
Open Scope nat_scope.

Lemma part_mono : forall A (kd1 kd2 : bytes -> bytes -> Prop) (sd1 sd2 : A -> bytes -> Prop) nl mk t j t' j',
  part kd1 sd1 nl mk t j t' j' ->
  tree_all (fun k => forall n, kd1 k n -> kd2 k n) (fun a => forall c, sd1 a c -> sd2 a c) j -> part kd2 sd2 nl mk t j t' j'.
Proof.
  induction 1 as [t j|co t l j t' j' Hj H IH|n t l i j t' j' Hj Hi H IH|ts l i t j t' j' Hj Ht H IH|fw t l k j t' j' Hj H IH
      |t j t' j' Hn H IH|t j t' j' H IH|si ms ps l k n j t t' j' Hj Hk Hm H IH
      |cs o k a c l i t t' j' Hk Ha Hc Ht H IH|cs k a c l i t t' j' Hk Ha Hc Ht H IH]; intros T.
  - apply pt_here.
  - inversion T as [|? G|]; subst. eapply pt_vec; eauto.
  - inversion T as [|? G|]; subst. eapply pt_arr; eauto using nth_error_In.
  - inversion T as [|? G|]; subst. eapply pt_tup; eauto using nth_error_In.
  - inversion T as [| |? G]; subst. eapply pt_map; [eassumption|]. apply IH. now apply (G k j).
  - apply pt_ptr; auto.
  - apply pt_opt; auto.
  - inversion T as [| |? G]; subst. destruct (G k j Hj) as [K1 K2]. eapply pt_member; eauto.
  - inversion T as [| |? G]; subst. destruct (G k (Scal a) (or_introl eq_refl)) as [K1 K2]. inversion K2; subst.
    eapply pt_poly; eauto. apply IH. constructor. intros k0 j0 H0'. apply G. now right.
  - inversion T as [| |? G]; subst. destruct (G k (Scal a) (or_introl eq_refl)) as [K1 K2]. inversion K2; subst.
    eapply pt_variant; eauto. apply IH. constructor. intros k0 j0 H0'. apply G. now right.
Qed.

Section Defined.
  Context {A : Type} (sc : scal_ops A) (m : strictness) (marker : bytes).
  Notation I := (interp sc m marker).
  Notation kd := (fun k n => sc_key sc k = Ok n).
  Notation sd := (fun a c => sc_str sc a = Ok c).
  Hypotheses (u_bool : forall a, sc_bool sc a <> UB) (u_str : forall a, sc_str sc a <> UB) (u_key : forall k, sc_key sc k <> UB).

  (** What has to hold where a value is read. *)
  Definition sound_at (t : ty) (j : tree A) : Prop :=
    match t, j with
    | TArr n _, Arr l => length l <= n
    | TTup ts, Arr l => length l <= length ts
    | TInt i, Scal a => sc_int sc i a <> UB
    | TPoly cs o, Obj ((k, Scal a) :: _) =>
        forall c, sc_key sc k = Ok marker -> sc_str sc a = Ok c -> find_class cs c = None -> ~ In c o
    | _, _ => True
    end.

  Lemma bind_no_ub : forall {X Y} (o : outcome X) (f : X -> outcome Y), o <> UB -> (forall x, o = Ok x -> f x <> UB) -> bind o f <> UB.
  Proof. intros X Y [x| | |] f H K; cbn; try discriminate; auto. Qed.

  Lemma members_no_ub : forall (P : val -> Prop) scan l,
    (forall k v j v', P v -> scan k v j = Some (Ok v') -> P v') ->
    (forall k n j v, In (k, j) l -> sc_key sc k = Ok n -> P v -> scan n v j <> Some UB) ->
    forall v found, P v -> in_members sc m scan v found l <> UB.
  Proof.
    intros P scan l Hp. induction l as [|[k j] l IH]; intros H v found Pv; cbn [in_members]; [discriminate|].
    assert (IH' := IH ltac:(intros; eapply H; eauto; now right)).
    apply bind_no_ub; [apply u_key|]. intros n En. destruct (scan n v j) as [o|] eqn:E.
    - apply bind_no_ub; [|intros v1 ->; apply IH'; eapply Hp; eassumption]. intros ->. exact (H k n j v (or_introl eq_refl) En Pv E).
    - destruct m; try discriminate. destruct (skippable sc j); [now apply IH'|discriminate].
  Qed.
  Lemma map_no_ub : forall (P : val -> Prop) req scan j,
    (forall k v j v', P v -> scan k v j = Some (Ok v') -> P v') ->
    (forall l k n j' v, j = Obj l -> In (k, j') l -> sc_key sc k = Ok n -> P v -> scan n v j' <> Some UB) ->
    forall v, P v -> in_map sc m req scan v j <> UB.
  Proof.
    intros P req scan [a|l|l] Hp H v Pv; try discriminate. cbn [in_map]. apply bind_no_ub.
    - eapply members_no_ub; eauto.
    - intros [w f] _. destruct m; try discriminate. destruct (forallb _ req); discriminate.
  Qed.
  Lemma elems_no_ub : forall (P : val -> Prop) elem,
    (forall i v j v', P v -> elem i v j = Ok v' -> P v') ->
    forall l o, (forall i j v, nth_error l i = Some j -> P v -> elem (o + i) v j <> UB) ->
    forall v, P v -> @in_elems A elem o v l <> UB.
  Proof.
    intros P elem Hp. induction l as [|j l IH]; intros o H v Pv; cbn [in_elems]; [discriminate|].
    apply bind_no_ub; [specialize (H 0 j v eq_refl Pv); now rewrite Nat.add_0_r in H|].
    intros v1 E1. apply IH; [|eapply Hp; eassumption]. intros i j' w Hj Pw. rewrite Nat.add_succ_comm. now apply H.
  Qed.
  Lemma class_no_ub : forall j, class_of sc marker j <> UB.
  Proof.
    intros [a|l|[|[k jc] l]]; try discriminate. cbn [class_of]. apply bind_no_ub; [apply u_key|]. intros k' _.
    destruct (beq k' marker); [|discriminate]. destruct jc; try discriminate. apply bind_no_ub; [apply u_str|discriminate].
  Qed.
  Lemma class_inv : forall j c j', class_of sc marker j = Ok (c, j') ->
    exists k a l, j = Obj ((k, Scal a) :: l) /\ sc_key sc k = Ok marker /\ sc_str sc a = Ok c /\ j' = Obj l.
  Proof.
    intros [a|l|[|[k jc] l]] c j' E; try discriminate E. cbn [class_of] in E. apply bind_ok in E as (k' & Ek & E).
    destruct (beq k' marker) eqn:B; [|discriminate E]. apply beq_eq in B. subst k'. destruct jc; try discriminate E.
    apply bind_ok in E as (c' & Ec & E). injection E as -> <-. exists k, a, l. auto.
  Qed.

  Theorem meaning_defined : forall t, wf t = true -> forall v j, shaped t v = true ->
    (forall t' j', part kd sd (sc_null sc) marker t j t' j' -> sound_at t' j') -> i_parse (I t) v j <> UB.
  Proof.
    apply (ty_strong (fun t => wf t = true -> forall v j, shaped t v = true ->
      (forall t' j', part kd sd (sc_null sc) marker t j t' j' -> sound_at t' j') -> i_parse (I t) v j <> UB)).
    intros t IH W v j S H. assert (Here := H _ _ (pt_here _ _ _ _ t j)).
    assert (Vl : forall B (rd : A -> outcome B) mk j, (forall a, j = Scal a -> rd a <> UB) -> in_value rd mk j <> UB).
    { intros B rd mk [a|l|l] Hr; try discriminate. cbn. apply bind_no_ub; [now apply Hr|discriminate]. }
    destruct t as [i| | |l|co t|n t|ts|fw t|t|t|si ms ps|cs o|cs].
    - cbn [interp i_parse]. apply Vl. intros a ->. exact Here.
    - cbn [interp i_parse]. apply Vl. auto.
    - cbn [interp i_parse]. apply Vl. auto.
    - cbn [interp i_parse]. destruct j; try discriminate. cbn. destruct (sc_str sc a) eqn:Es; try discriminate; [|now apply u_str in Es].
      cbn. destruct (enum_value l a0); discriminate.
    - cbn [interp i_parse]. destruct j as [a|l|l]; try discriminate. cbn [in_array].
      apply wf_seq in W. apply (elems_no_ub (fun v => shaped (TSeq co t) v = true)); auto; [intros; eapply vec_keeps; eassumption|].
      intros i j w Hj Sw. destruct w; try discriminate Sw. cbn [in_elem_vec]. apply bind_no_ub; [|discriminate].
      apply IH; [cbn; lia|exact W|now apply default_shaped|]. intros t' j' Hp. apply H. eapply pt_vec; [eapply nth_error_In; eassumption|exact Hp].
    - rewrite parse_arr. rewrite arr_as_tuple in S. cbn [interp i_parse]. destruct j as [a|l|l]; try discriminate. cbn [in_array].
      apply (elems_no_ub (fun v => shaped (TTup (repeat t n)) v = true)); auto;
        [intros; eapply fixed_keeps; [apply forallb_repeat; exact W|eassumption|eassumption]|].
      intros i j w Hj Sw. destruct w; try discriminate Sw. cbn [in_elem_fixed Nat.add]. rewrite nth_error_map.
      assert (Hi : i < n). { cbn in Here. assert (i < length l) by (apply nth_error_Some; congruence). lia. }
      rewrite (nth_repeat _ _ _ Hi). cbn [option_map]. cbn [shaped] in Sw.
      assert (Hf : nth_error (map shaped (repeat t n)) i = Some (shaped t)) by now rewrite nth_error_map, nth_repeat.
      destruct (all2b_nth _ _ _ _ Sw Hf) as (y & Ey & Sy). rewrite Ey. apply bind_no_ub; [|discriminate].
      apply IH; [cbn; lia|exact W|exact Sy|]. intros t' j' Hp. apply H. eapply pt_arr; eassumption.
    - cbn [interp i_parse]. destruct j as [a|l|l]; try discriminate. cbn [in_array]. cbn [wf] in W.
      apply (elems_no_ub (fun v => shaped (TTup ts) v = true)); auto; [intros; eapply fixed_keeps; eassumption|].
      intros i j w Hj Sw. destruct w; try discriminate Sw. cbn [in_elem_fixed Nat.add]. rewrite nth_error_map.
      assert (Hi : i < length ts). { cbn in Here. assert (i < length l) by (apply nth_error_Some; congruence). lia. }
      apply nth_error_Some in Hi. destruct (nth_error ts i) as [t|] eqn:Et; [|congruence]. cbn [option_map]. cbn [shaped] in Sw.
      assert (Hf : nth_error (map shaped ts) i = Some (shaped t)) by now rewrite nth_error_map, Et.
      destruct (all2b_nth _ _ _ _ Sw Hf) as (y & Ey & Sy). rewrite Ey. apply bind_no_ub; [|discriminate].
      apply IH; [apply list_sum_nth in Et; cbn [tsize]; lia|exact (forallb_nth _ _ _ _ W Et)|exact Sy|]. intros t' j' Hp. apply H. eapply pt_tup; eassumption.
    - cbn [interp i_parse]. apply (map_no_ub (fun v => shaped (TMap fw t) v = true)); auto.
      + intros; eapply scan_map_keeps; eassumption.
      + intros l k n j' w -> Hj Hk Sw. destruct w; try discriminate Sw. cbn [in_scan_map].
        destruct fw; intro E; injection E as E; revert E; (apply bind_no_ub; [|discriminate]);
          (apply IH; [cbn; lia|exact W| |intros t1 j1 Hp; apply H; eapply pt_map; eassumption]).
        * now apply default_shaped.
        * cbn [shaped] in Sw. destruct (map_find n l0) eqn:Ef; [eapply map_find_shaped; eassumption|now apply default_shaped].
        * now apply default_shaped.
    - cbn [interp i_parse]. unfold in_pointer. destruct (null_tree sc j) eqn:Nj; [destruct (skippable sc j); discriminate|].
      apply bind_no_ub; [|discriminate]. apply IH; [cbn; lia|exact W|now apply default_shaped|].
      intros t' j' Hp. apply H. apply pt_ptr; [|exact Hp]. now rewrite <- null_is_null.
    - cbn [interp i_parse]. destruct v; try discriminate S. apply bind_no_ub; [|discriminate]. apply IH; [cbn; lia|exact W| |].
      + destruct o; [exact S|now apply default_shaped].
      + intros t' j' Hp. apply H. now apply pt_opt.
    - rewrite parse_class by reflexivity. apply (map_no_ub (fun v => shaped (TStruct si ms ps) v = true)); auto.
      + intros. apply (scan_keeps sc m marker (TStruct si ms ps) k v0 j0 v' W eq_refl); assumption.
      + intros l k n j' w -> Hj Hk Sw. destruct (find_path (TStruct si ms ps) n) as [[q i]|] eqn:F.
        * destruct (find_path_good _ _ _ _ W F) as (tm & T & Wt & G).
          destruct (scan_known sc m marker _ w n j' q i tm W eq_refl Sw F T) as (x & Ex & Sx & ->).
          intro E. injection E as E. revert E. apply bind_no_ub; [|discriminate].
          apply IH; [eapply type_at_size; exact T|exact Wt|exact Sx|]. intros t1 j1 Hp. apply H. eapply pt_member; [exact Hj|exact Hk| |exact Hp].
          unfold member_type. rewrite F. exact T.
        * rewrite (scan_unknown sc m marker _ w n j' W eq_refl Sw F). discriminate.
    - cbn [interp i_parse]. unfold in_pointer. destruct (null_tree sc j) eqn:Nj; [destruct (skippable sc j); discriminate|].
      apply bind_no_ub; [apply class_no_ub|]. intros [c j'] Ec. apply class_inv in Ec as (k & a & l & -> & Ek & Ea & ->).
      destruct (find_class cs c) as [i|] eqn:Fc.
      + rewrite nth_error_map. destruct (nth_error cs i) as [tk|] eqn:Et.
        * cbn [option_map]. apply bind_no_ub; [|discriminate]. destruct (wf_classes _ _ _ W Et) as [_ Wt].
          apply IH; [apply list_sum_nth in Et; cbn [tsize]; lia|exact Wt|now apply default_shaped|].
          intros t1 j1 Hp. apply H. eapply pt_poly; eassumption.
        * exfalso. clear -Fc Et. revert i Fc Et. induction cs as [|c0 cs IHc]; intros i Fc Et; cbn in Fc; [discriminate|].
          destruct (beq (class_name c0) c); [injection Fc as <-; discriminate Et|]. destruct (find_class cs c) as [i'|]; [|discriminate].
          injection Fc as <-. exact (IHc i' eq_refl Et).
      + cbn in Here. specialize (Here c Ek Ea Fc). destruct (existsb (beq c) o) eqn:Ex; [|discriminate].
        exfalso. apply Here. apply existsb_exists in Ex as (x & Hx & Bx). apply beq_eq in Bx. now subst.
    - cbn [interp i_parse]. cbn [wf] in W. apply andb_prop in W as [W _].
      apply bind_no_ub; [apply class_no_ub|]. intros [c j'] Ec. apply class_inv in Ec as (k & a & l & -> & Ek & Ea & ->).
      destruct (find_class cs c) as [i|] eqn:Fc; [|discriminate].
      rewrite nth_error_map. destruct (nth_error cs i) as [tk|] eqn:Et.
      + cbn [option_map]. apply bind_no_ub; [|discriminate]. destruct (wf_classes _ _ _ W Et) as [_ Wt].
        apply IH; [apply list_sum_nth in Et; cbn [tsize]; lia|exact Wt|now apply default_shaped|].
        intros t1 j1 Hp. apply H. eapply pt_variant; eassumption.
      + exfalso. clear -Fc Et. revert i Fc Et. induction cs as [|c0 cs IHc]; intros i Fc Et; cbn in Fc; [discriminate|].
        destruct (beq (class_name c0) c); [injection Fc as <-; discriminate Et|]. destruct (find_class cs c) as [i'|]; [|discriminate].
        injection Fc as <-. exact (IHc i' eq_refl Et).
  Qed.
End Defined.

(** ** The meaning is known unless something skipped cannot be skipped exactly. *)
Section Known.
  Context {A : Type} (sc : scal_ops A) (m : strictness) (marker : bytes).
  Notation I := (interp sc m marker).
  Notation kd := (fun k n => sc_key sc k = Ok n).
  Notation sd := (fun a c => sc_str sc a = Ok c).
  Hypotheses (h_int : forall i a, sc_int sc i a <> Hang) (h_bool : forall a, sc_bool sc a <> Hang)
      (h_str : forall a, sc_str sc a <> Hang) (h_key : forall k, sc_key sc k <> Hang)
      (h_null : forall a, sc_null sc a = true -> sc_skip sc a = true).

  Lemma members_known : forall (P : val -> Prop) scan l,
    (forall k v j v', P v -> scan k v j = Some (Ok v') -> P v') ->
    (forall k n j v, In (k, j) l -> sc_key sc k = Ok n -> P v -> scan n v j <> Some Hang /\ (m = Weak -> scan n v j = None -> skippable sc j = true)) ->
    forall v found, P v -> in_members sc m scan v found l <> Hang.
  Proof.
    intros P scan l Hp. induction l as [|[k j] l IH]; intros H v found Pv; cbn [in_members]; [discriminate|].
    assert (IH' := IH ltac:(intros; eapply H; eauto; now right)).
    apply bind_no_hang; [apply h_key|]. intros n En. destruct (H k n j v (or_introl eq_refl) En Pv) as [H1 H2]. destruct (scan n v j) as [o|] eqn:E.
    - apply bind_no_hang; [congruence|intros v1 ->; apply IH'; eapply Hp; eassumption].
    - assert (Q : forall X : outcome (val * list bytes), (m = Weak -> X <> Hang) -> match m with Weak => X | _ => Throw end <> Hang)
        by (intros X G; destruct m; [now apply G|discriminate|discriminate]).
      apply Q. intro Hm. rewrite (H2 Hm eq_refl). now apply IH'.
  Qed.
  Lemma map_known : forall (P : val -> Prop) req scan j,
    (forall k v j v', P v -> scan k v j = Some (Ok v') -> P v') ->
    (forall l k n j' v, j = Obj l -> In (k, j') l -> sc_key sc k = Ok n -> P v ->
       scan n v j' <> Some Hang /\ (m = Weak -> scan n v j' = None -> skippable sc j' = true)) ->
    forall v, P v -> in_map sc m req scan v j <> Hang.
  Proof.
    intros P req scan [a|l|l] Hp H v Pv; try discriminate. cbn [in_map]. apply bind_no_hang.
    - eapply members_known; eauto.
    - intros [w f] _. destruct m; try discriminate. destruct (forallb _ req); discriminate.
  Qed.
  Lemma elems_known : forall (P : val -> Prop) elem,
    (forall i v j v', P v -> elem i v j = Ok v' -> P v') ->
    forall l o, (forall i j v, nth_error l i = Some j -> P v -> elem (o + i) v j <> Hang) ->
    forall v, P v -> @in_elems A elem o v l <> Hang.
  Proof.
    intros P elem Hp. induction l as [|j l IH]; intros o H v Pv; cbn [in_elems]; [discriminate|].
    apply bind_no_hang; [specialize (H 0 j v eq_refl Pv); now rewrite Nat.add_0_r in H|].
    intros v1 E1. apply IH; [|eapply Hp; eassumption]. intros i j' w Hj Pw. rewrite Nat.add_succ_comm. now apply H.
  Qed.

  Theorem meaning_known : forall t, wf t = true -> forall v j, shaped t v = true ->
    (m = Weak -> forall jk, unread kd sd (sc_null sc) marker t j jk -> skippable sc jk = true) -> i_parse (I t) v j <> Hang.
  Proof.
    apply (ty_strong (fun t => wf t = true -> forall v j, shaped t v = true ->
      (m = Weak -> forall jk, unread kd sd (sc_null sc) marker t j jk -> skippable sc jk = true) -> i_parse (I t) v j <> Hang)).
    intros t IH W v j S H.
    assert (Up : forall t1 j1, (forall t' j', part kd sd (sc_null sc) marker t1 j1 t' j' -> part kd sd (sc_null sc) marker t j t' j') ->
      m = Weak -> forall jk, unread kd sd (sc_null sc) marker t1 j1 jk -> skippable sc jk = true).
    { intros t1 j1 Hp Hm jk (t' & l & k & n & U1 & U2). apply (H Hm). exists t', l, k, n. auto. }
    assert (Vl : forall B (rd : A -> outcome B) mk j, (forall a, j = Scal a -> rd a <> Hang) -> in_value rd mk j <> Hang).
    { intros B rd mk [a|l|l] Hr; try discriminate. cbn. apply bind_no_hang; [now apply Hr|discriminate]. }
    assert (Nl : null_tree sc j = true -> skippable sc j = true).
    { intro E. destruct j; try discriminate E. cbn in *. now apply h_null. }
    destruct t as [i| | |l|co t|n t|ts|fw t|t|t|si ms ps|cs o|cs].
    - cbn [interp i_parse]. apply Vl. auto.
    - cbn [interp i_parse]. apply Vl. auto.
    - cbn [interp i_parse]. apply Vl. auto.
    - cbn [interp i_parse]. destruct j; try discriminate. cbn. destruct (sc_str sc a) eqn:Es; try discriminate; [|now apply h_str in Es].
      cbn. destruct (enum_value l a0); discriminate.
    - cbn [interp i_parse]. destruct j as [a|l|l]; try discriminate. cbn [in_array].
      apply wf_seq in W. apply (elems_known (fun v => shaped (TSeq co t) v = true)); auto; [intros; eapply vec_keeps; eassumption|].
      intros i j w Hj Sw. destruct w; try discriminate Sw. cbn [in_elem_vec]. apply bind_no_hang; [|discriminate].
      apply IH; [cbn; lia|exact W|now apply default_shaped|]. apply Up. intros t' j' Hp. eapply pt_vec; [eapply nth_error_In; eassumption|exact Hp].
    - rewrite parse_arr. rewrite arr_as_tuple in S. cbn [interp i_parse]. destruct j as [a|l|l]; try discriminate. cbn [in_array].
      apply (elems_known (fun v => shaped (TTup (repeat t n)) v = true)); auto;
        [intros; eapply fixed_keeps; [apply forallb_repeat; exact W|eassumption|eassumption]|].
      intros i j w Hj Sw. destruct w; try discriminate Sw. cbn [in_elem_fixed Nat.add]. rewrite nth_error_map.
      destruct (lt_dec i n) as [Hi|Hi].
      2:{ assert (E : nth_error (repeat t n) i = None) by (apply nth_error_None; rewrite repeat_length; lia). rewrite E. discriminate. }
      rewrite (nth_repeat _ _ _ Hi). cbn [option_map]. cbn [shaped] in Sw.
      assert (Hf : nth_error (map shaped (repeat t n)) i = Some (shaped t)) by now rewrite nth_error_map, nth_repeat.
      destruct (all2b_nth _ _ _ _ Sw Hf) as (y & Ey & Sy). rewrite Ey. apply bind_no_hang; [|discriminate].
      apply IH; [cbn; lia|exact W|exact Sy|]. apply Up. intros t' j' Hp. eapply pt_arr; eassumption.
    - cbn [interp i_parse]. destruct j as [a|l|l]; try discriminate. cbn [in_array]. cbn [wf] in W.
      apply (elems_known (fun v => shaped (TTup ts) v = true)); auto; [intros; eapply fixed_keeps; eassumption|].
      intros i j w Hj Sw. destruct w; try discriminate Sw. cbn [in_elem_fixed Nat.add]. rewrite nth_error_map.
      destruct (nth_error ts i) as [t|] eqn:Et; [|discriminate]. cbn [option_map]. cbn [shaped] in Sw.
      assert (Hf : nth_error (map shaped ts) i = Some (shaped t)) by now rewrite nth_error_map, Et.
      destruct (all2b_nth _ _ _ _ Sw Hf) as (y & Ey & Sy). rewrite Ey. apply bind_no_hang; [|discriminate].
      apply IH; [apply list_sum_nth in Et; cbn [tsize]; lia|exact (forallb_nth _ _ _ _ W Et)|exact Sy|]. apply Up. intros t' j' Hp. eapply pt_tup; eassumption.
    - cbn [interp i_parse]. apply (map_known (fun v => shaped (TMap fw t) v = true)); auto.
      + intros; eapply scan_map_keeps; eassumption.
      + intros l k n j' w -> Hj Hk Sw. destruct w; try discriminate Sw. cbn [in_scan_map].
        split; [|destruct fw; discriminate].
        destruct fw; intro E; injection E as E; revert E; (apply bind_no_hang; [|discriminate]);
          (apply IH; [cbn; lia|exact W| |apply Up; intros t1 j1 Hp; eapply pt_map; eassumption]).
        * now apply default_shaped.
        * cbn [shaped] in Sw. destruct (map_find n l0) eqn:Ef; [eapply map_find_shaped; eassumption|now apply default_shaped].
        * now apply default_shaped.
    - cbn [interp i_parse]. unfold in_pointer. destruct (null_tree sc j) eqn:Nj; [rewrite (Nl eq_refl); discriminate|].
      apply bind_no_hang; [|discriminate]. apply IH; [cbn; lia|exact W|now apply default_shaped|].
      apply Up. intros t' j' Hp. apply pt_ptr; [|exact Hp]. now rewrite <- null_is_null.
    - cbn [interp i_parse]. destruct v; try discriminate S. apply bind_no_hang; [|discriminate]. apply IH; [cbn; lia|exact W| |].
      + destruct o; [exact S|now apply default_shaped].
      + apply Up. intros t' j' Hp. now apply pt_opt.
    - rewrite parse_class by reflexivity. apply (map_known (fun v => shaped (TStruct si ms ps) v = true)); auto.
      + intros. apply (scan_keeps sc m marker (TStruct si ms ps) k v0 j0 v' W eq_refl); assumption.
      + intros l k n j' w -> Hj Hk Sw. destruct (find_path (TStruct si ms ps) n) as [[q i]|] eqn:F.
        * destruct (find_path_good _ _ _ _ W F) as (tm & T & Wt & G).
          destruct (scan_known sc m marker _ w n j' q i tm W eq_refl Sw F T) as (x & Ex & Sx & ->). split; [|discriminate].
          intro E. injection E as E. revert E. apply bind_no_hang; [|discriminate].
          apply IH; [eapply type_at_size; exact T|exact Wt|exact Sx|]. apply Up. intros t1 j1 Hp. eapply pt_member; [exact Hj|exact Hk| |exact Hp].
          unfold member_type. rewrite F. exact T.
        * rewrite (scan_unknown sc m marker _ w n j' W eq_refl Sw F). split; [discriminate|]. intros Hm _. apply (H Hm).
          exists (TStruct si ms ps), l, k, n. split; [apply pt_here|]. split; [exact Hj|]. split; [exact Hk|]. split; [reflexivity|].
          unfold member_type. now rewrite F.
    - cbn [interp i_parse]. unfold in_pointer. destruct (null_tree sc j) eqn:Nj; [rewrite (Nl eq_refl); discriminate|].
      apply bind_no_hang; [now apply class_no_hang|]. intros [c j'] Ec. apply class_inv in Ec as (k & a & l & -> & Ek & Ea & ->).
      destruct (find_class cs c) as [i|] eqn:Fc; [|destruct (existsb _ o); discriminate].
      rewrite nth_error_map. destruct (nth_error cs i) as [tk|] eqn:Et; [|discriminate].
      cbn [option_map]. apply bind_no_hang; [|discriminate]. destruct (wf_classes _ _ _ W Et) as [_ Wt].
      apply IH; [apply list_sum_nth in Et; cbn [tsize]; lia|exact Wt|now apply default_shaped|].
      apply Up. intros t1 j1 Hp. eapply pt_poly; eassumption.
    - cbn [interp i_parse]. cbn [wf] in W. apply andb_prop in W as [W _].
      apply bind_no_hang; [now apply class_no_hang|]. intros [c j'] Ec. apply class_inv in Ec as (k & a & l & -> & Ek & Ea & ->).
      destruct (find_class cs c) as [i|] eqn:Fc; [|discriminate].
      rewrite nth_error_map. destruct (nth_error cs i) as [tk|] eqn:Et; [|discriminate].
      cbn [option_map]. apply bind_no_hang; [|discriminate]. destruct (wf_classes _ _ _ W Et) as [_ Wt].
      apply IH; [apply list_sum_nth in Et; cbn [tsize]; lia|exact Wt|now apply default_shaped|].
      apply Up. intros t1 j1 Hp. eapply pt_variant; eassumption.
  Qed.
End Known.
