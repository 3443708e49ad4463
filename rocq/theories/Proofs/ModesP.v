(** The meaning of a tree under two ways to read scalars, and under two modes. *)
From Coq Require Import ZArith List Bool Lia ZifyBool.
From Verif Require Import Model.Base Model.Number Model.ParserInterface Model.Types Spec.Json Spec.Typed
  Proofs.Induct Proofs.Sim Proofs.TreeM Proofs.TypedP Proofs.InterpP Proofs.PartP Proofs.DefinedP Proofs.MembersP.
Import ListNotations.
Open Scope nat_scope.

Section Two.
  Context {A : Type} (sc1 sc2 : scal_ops A) (m1 m2 : strictness) (marker : bytes).
  Notation I1 := (interp sc1 m1 marker).
  Notation I2 := (interp sc2 m2 marker).
  Notation kd := (fun k n => sc_key sc1 k = Ok n).
  Notation sd := (fun a c => sc_str sc1 a = Ok c).
  Notation prt := (part kd sd (sc_null sc1) marker).
  Notation unr := (unread kd sd (sc_null sc1) marker).
  Hypotheses (same_bool : forall a, sc_bool sc1 a = sc_bool sc2 a) (same_str : forall a, sc_str sc1 a = sc_str sc2 a)
    (same_null : forall a, sc_null sc1 a = sc_null sc2 a) (same_key : forall k, sc_key sc1 k = sc_key sc2 k)
    (same_mode : m1 = Weak <-> m2 = Weak) (null_skip : forall a, sc_null sc1 a = true -> sc_skip sc1 a = true /\ sc_skip sc2 a = true).

  Variable E : forall X, outcome X -> outcome X -> Prop.
  Hypotheses (E_refl : forall X o, E X o o)
    (E_bind : forall X Y o1 o2 (f g : X -> outcome Y), E X o1 o2 -> (forall x, o1 = Ok x -> E Y (f x) (g x)) -> E Y (bind o1 f) (bind o2 g)).
  Hypothesis E_hang : forall X (o : outcome X), E X Hang o.

  (** What has to be known at the parts of the tree. *)
  Definition agree_at (t : ty) (j : tree A) : Prop :=
    match t, j with
    | TInt i, Scal a => E _ (sc_int sc1 i a) (sc_int sc2 i a)
    | TMap _ _, Obj l => forall w : val, True
    | TStruct si ms ps, Obj l => forall v w f, shaped t v = true -> in_members sc1 m1 (i_scan (I1 t)) v [] l = Ok (w, f) ->
        (m1 = Exact -> forallb (fun r => existsb (beq r) f) (required t) = true) <->
        (m2 = Exact -> forallb (fun r => existsb (beq r) f) (required t) = true)
    | _, _ => True
    end.
  Definition skips_agree (j : tree A) : Prop := skippable sc1 j = true -> skippable sc2 j = true.

  Lemma members_two : forall (P : val -> Prop) scan1 scan2 l,
    (forall k v j v', P v -> scan1 k v j = Some (Ok v') -> P v') ->
    (forall k n j v, In (k, j) l -> sc_key sc1 k = Ok n -> P v ->
       match scan1 n v j, scan2 n v j with
       | Some o1, Some o2 => E _ o1 o2
       | None, None => m1 = Weak -> skips_agree j
       | _, _ => False
       end) ->
    forall v found, P v -> E _ (in_members sc1 m1 scan1 v found l) (in_members sc2 m2 scan2 v found l).
  Proof.
    intros P scan1 scan2 l Hp. induction l as [|[k j] l IH]; intros H v found Pv; cbn [in_members]; [apply E_refl|].
    assert (IH' := IH ltac:(intros; eapply H; eauto; now right)).
    rewrite <- same_key. apply E_bind; [apply E_refl|]. intros n En. specialize (H k n j v (or_introl eq_refl) En Pv).
    destruct (scan1 n v j) as [o1|] eqn:E1, (scan2 n v j) as [o2|]; try contradiction.
    - apply E_bind; [exact H|]. intros v1 ->. apply IH'. eapply Hp; eassumption.
    - destruct m1, m2; try (exfalso; now destruct same_mode as [X1 X2]; (discriminate (X1 eq_refl) || discriminate (X2 eq_refl)));
        try apply E_refl.
      specialize (H eq_refl). unfold skips_agree in H. destruct (skippable sc1 j); [rewrite (H eq_refl); now apply IH'|apply E_hang].
  Qed.
  Lemma elems_two : forall (P : val -> Prop) elem1 elem2,
    (forall i v j v', P v -> elem1 i v j = Ok v' -> P v') ->
    forall l o, (forall i j v, nth_error l i = Some j -> P v -> E _ (elem1 (o + i) v j) (elem2 (o + i) v j)) ->
    forall v, P v -> E _ (@in_elems A elem1 o v l) (in_elems elem2 o v l).
  Proof.
    intros P elem1 elem2 Hp. induction l as [|j l IH]; intros o H v Pv; cbn [in_elems]; [apply E_refl|].
    apply E_bind; [specialize (H 0 j v eq_refl Pv); now rewrite Nat.add_0_r in H|].
    intros v1 E1. apply IH; [|eapply Hp; eassumption]. intros i j' w Hj Pw. rewrite Nat.add_succ_comm. now apply H.
  Qed.
  Lemma class_two : forall j, class_of sc1 marker j = class_of sc2 marker j.
  Proof.
    intros [a|l|[|[k jc] l]]; try reflexivity. cbn [class_of]. rewrite same_key. destruct (sc_key sc2 k); try reflexivity. cbn [bind].
    destruct (beq a marker); [|reflexivity]. destruct jc; try reflexivity. now rewrite same_str.
  Qed.

  Theorem meaning_two : forall t, wf t = true -> forall v j, shaped t v = true ->
    (forall t' j', prt t j t' j' -> agree_at t' j') -> (m1 = Weak -> forall jk, unr t j jk -> skips_agree jk) ->
    E _ (i_parse (I1 t) v j) (i_parse (I2 t) v j).
  Proof.
    apply (ty_strong (fun t => wf t = true -> forall v j, shaped t v = true ->
      (forall t' j', prt t j t' j' -> agree_at t' j') -> (m1 = Weak -> forall jk, unr t j jk -> skips_agree jk) ->
      E _ (i_parse (I1 t) v j) (i_parse (I2 t) v j))).
    intros t IH W v j S H U. assert (Here := H _ _ (pt_here _ _ _ _ t j)).
    assert (Up : forall t1 j1, (forall t' j', prt t1 j1 t' j' -> prt t j t' j') ->
      (forall t' j', prt t1 j1 t' j' -> agree_at t' j') /\ (m1 = Weak -> forall jk, unr t1 j1 jk -> skips_agree jk)).
    { intros t1 j1 Hp. split; [intros; apply H; auto|]. intros Hm jk (t' & l & k & n & U1 & U2). apply (U Hm). exists t', l, k, n. auto. }
    assert (Vl : forall B (rd1 rd2 : A -> outcome B) mk j, (forall a, j = Scal a -> E _ (rd1 a) (rd2 a)) -> E _ (in_value rd1 mk j) (in_value rd2 mk j)).
    { intros B rd1 rd2 mk [a|l|l] Hr; try apply E_refl. cbn. apply E_bind; [now apply Hr|intros; apply E_refl]. }
    assert (Nj : null_tree sc2 j = null_tree sc1 j) by (destruct j; cbn; auto).
    assert (Ns : null_tree sc1 j = true -> skippable sc1 j = true /\ skippable sc2 j = true).
    { intro X. destruct j; try discriminate X. cbn in *. now apply null_skip. }
    destruct t as [i| | |l|co t|n t|ts|fw t|t|t|si ms ps|cs o|cs].
    - cbn [interp i_parse]. apply Vl. intros a ->. exact Here.
    - cbn [interp i_parse]. apply Vl. intros. rewrite same_bool. apply E_refl.
    - cbn [interp i_parse]. apply Vl. intros. rewrite same_str. apply E_refl.
    - cbn [interp i_parse]. apply E_bind; [apply Vl; intros; rewrite same_str; apply E_refl|]. intros; apply E_refl.
    - cbn [interp i_parse]. destruct j as [a|l|l]; try apply E_refl. cbn [in_array].
      apply wf_seq in W. apply (elems_two (fun v => shaped (TSeq co t) v = true)); auto; [intros; eapply vec_keeps; eassumption|].
      intros i j w Hj Sw. destruct w; try discriminate Sw. cbn [in_elem_vec]. apply E_bind; [|intros; apply E_refl].
      apply IH; [cbn; lia|exact W|now apply default_shaped| |]; apply Up; intros t' j' Hp; (eapply pt_vec; [eapply nth_error_In; eassumption|exact Hp]).
    - rewrite !parse_arr. rewrite arr_as_tuple in S. cbn [interp i_parse]. destruct j as [a|l|l]; try apply E_refl. cbn [in_array].
      apply (elems_two (fun v => shaped (TTup (repeat t n)) v = true)); auto;
        [intros; eapply fixed_keeps; [apply forallb_repeat; exact W|eassumption|eassumption]|].
      intros i j w Hj Sw. destruct w; try discriminate Sw. cbn [in_elem_fixed Nat.add]. rewrite !nth_error_map.
      destruct (lt_dec i n) as [Hi|Hi].
      2:{ assert (X : nth_error (repeat t n) i = None) by (apply nth_error_None; rewrite repeat_length; lia). rewrite X. apply E_refl. }
      rewrite (nth_repeat _ _ _ Hi). cbn [option_map]. cbn [shaped] in Sw.
      assert (Hf : nth_error (map shaped (repeat t n)) i = Some (shaped t)) by now rewrite nth_error_map, nth_repeat.
      destruct (all2b_nth _ _ _ _ Sw Hf) as (y & Ey & Sy). rewrite Ey. apply E_bind; [|intros; apply E_refl].
      apply IH; [cbn; lia|exact W|exact Sy| |]; apply Up; intros t' j' Hp; eapply pt_arr; eassumption.
    - cbn [interp i_parse]. destruct j as [a|l|l]; try apply E_refl. cbn [in_array]. cbn [wf] in W.
      apply (elems_two (fun v => shaped (TTup ts) v = true)); auto; [intros; eapply fixed_keeps; eassumption|].
      intros i j w Hj Sw. destruct w; try discriminate Sw. cbn [in_elem_fixed Nat.add]. rewrite !nth_error_map.
      destruct (nth_error ts i) as [t|] eqn:Et; [|apply E_refl]. cbn [option_map]. cbn [shaped] in Sw.
      assert (Hf : nth_error (map shaped ts) i = Some (shaped t)) by now rewrite nth_error_map, Et.
      destruct (all2b_nth _ _ _ _ Sw Hf) as (y & Ey & Sy). rewrite Ey. apply E_bind; [|intros; apply E_refl].
      apply IH; [apply list_sum_nth in Et; cbn [tsize]; lia|exact (forallb_nth _ _ _ _ W Et)|exact Sy| |]; apply Up; intros t' j' Hp; eapply pt_tup; eassumption.
    - cbn [interp i_parse]. destruct j as [a|l|l]; try apply E_refl. cbn [in_map]. apply E_bind.
      + apply (members_two (fun v => shaped (TMap fw t) v = true)); auto.
        * intros; eapply scan_map_keeps; eassumption.
        * intros k n j' w Hj Hk Sw. destruct w; try discriminate Sw. cbn [in_scan_map].
          destruct fw; (apply E_bind; [|intros; apply E_refl]);
          (apply IH; [cbn; lia|exact W| | |]; [|apply Up; intros t1 j1 Hp; eapply pt_map; eassumption..]).
          -- now apply default_shaped.
          -- cbn [shaped] in Sw. destruct (map_find n l0) eqn:Ef; [eapply map_find_shaped; eassumption|now apply default_shaped].
          -- now apply default_shaped.
      + intros [w f] _. destruct m1, m2; apply E_refl.
    - cbn [interp i_parse]. unfold in_pointer. rewrite Nj. destruct (null_tree sc1 j) eqn:Nx; [destruct (Ns eq_refl) as [-> ->]; apply E_refl|].
      apply E_bind; [|intros; apply E_refl]. apply IH; [cbn; lia|exact W|now apply default_shaped| |]; apply Up; intros t' j' Hp;
        (apply pt_ptr; [|exact Hp]; now rewrite <- null_is_null).
    - cbn [interp i_parse]. destruct v; try discriminate S. apply E_bind; [|intros; apply E_refl]. apply IH; [cbn; lia|exact W| | |].
      + destruct o; [exact S|now apply default_shaped].
      + apply Up. intros t' j' Hp. now apply pt_opt.
      + apply Up. intros t' j' Hp. now apply pt_opt.
    - rewrite !parse_class by reflexivity. destruct j as [a|l|l]; try apply E_refl. cbn [in_map]. apply E_bind.
      + apply (members_two (fun v => shaped (TStruct si ms ps) v = true)); auto.
        * intros. apply (scan_keeps sc1 m1 marker (TStruct si ms ps) k v0 j v' W eq_refl); assumption.
        * intros k n j' w Hj Hk Sw. destruct (find_path (TStruct si ms ps) n) as [[q i]|] eqn:F.
          -- destruct (find_path_good _ _ _ _ W F) as (tm & T & Wt & G).
             destruct (scan_known sc1 m1 marker _ w n j' q i tm W eq_refl Sw F T) as (x & Ex & Sx & ->).
             destruct (scan_known sc2 m2 marker _ w n j' q i tm W eq_refl Sw F T) as (x2 & Ex2 & _ & ->).
             rewrite Ex in Ex2. injection Ex2 as <-. apply E_bind; [|intros; apply E_refl].
             assert (Pm : forall t' j1, prt tm j' t' j1 -> prt (TStruct si ms ps) (Obj l) t' j1).
             { intros t1 j1 Hp. eapply pt_member; [exact Hj|exact Hk| |exact Hp]. unfold member_type. rewrite F. exact T. }
             apply IH; [eapply type_at_size; exact T|exact Wt|exact Sx| |]; apply Up; exact Pm.
          -- rewrite (scan_unknown sc1 m1 marker _ w n j' W eq_refl Sw F), (scan_unknown sc2 m2 marker _ w n j' W eq_refl Sw F).
             intro Hm. apply (U Hm). exists (TStruct si ms ps), l, k, n. split; [apply pt_here|]. split; [exact Hj|]. split; [exact Hk|].
             split; [reflexivity|]. unfold member_type. now rewrite F.
      + intros [w f] Ew. cbn [agree_at] in Here. specialize (Here v w f S Ew). destruct m1, m2; try apply E_refl.
        * destruct Here as [Q _]. now rewrite Q.
        * destruct Here as [Q _]. now rewrite Q.
        * destruct Here as [_ Q]. now rewrite Q.
        * destruct Here as [_ Q]. now rewrite Q.
    - cbn [interp i_parse]. unfold in_pointer. rewrite Nj. destruct (null_tree sc1 j) eqn:Nx; [destruct (Ns eq_refl) as [-> ->]; apply E_refl|].
      rewrite <- class_two. apply E_bind; [apply E_refl|]. intros [c j'] Ec. apply class_inv in Ec as (k & a & l & -> & Ek & Ea & ->).
      destruct (find_class cs c) as [i|] eqn:Fc; [|apply E_refl].
      rewrite !nth_error_map. destruct (nth_error cs i) as [tk|] eqn:Et; [|apply E_refl].
      cbn [option_map]. apply E_bind; [|intros; apply E_refl]. destruct (wf_classes _ _ _ W Et) as [_ Wt].
      apply IH; [apply list_sum_nth in Et; cbn [tsize]; lia|exact Wt|now apply default_shaped| |]; apply Up; intros t1 j1 Hp; eapply pt_poly; eassumption.
    - cbn [interp i_parse]. cbn [wf] in W. apply andb_prop in W as [W _].
      rewrite <- class_two. apply E_bind; [apply E_refl|]. intros [c j'] Ec. apply class_inv in Ec as (k & a & l & -> & Ek & Ea & ->).
      destruct (find_class cs c) as [i|] eqn:Fc; [|apply E_refl].
      rewrite !nth_error_map. destruct (nth_error cs i) as [tk|] eqn:Et; [|apply E_refl].
      cbn [option_map]. apply E_bind; [|intros; apply E_refl]. destruct (wf_classes _ _ _ W Et) as [_ Wt].
      apply IH; [apply list_sum_nth in Et; cbn [tsize]; lia|exact Wt|now apply default_shaped| |]; apply Up; intros t1 j1 Hp; eapply pt_variant; eassumption.
  Qed.
End Two.

(** The instances of the relation on outcomes. *)
Definition le_ok (X : Type) (o1 o2 : outcome X) : Prop := forall x, o1 = Ok x -> o2 = Ok x.
Lemma le_ok_refl : forall X o, le_ok X o o. Proof. intros X o x H. exact H. Qed.
Lemma le_ok_bind : forall X Y o1 o2 (f g : X -> outcome Y), le_ok X o1 o2 -> (forall x, o1 = Ok x -> le_ok Y (f x) (g x)) -> le_ok Y (bind o1 f) (bind o2 g).
Proof. intros X Y o1 o2 f g H K y E. apply bind_ok in E as (x & E1 & E2). rewrite (H x E1). cbn. now apply (K x E1). Qed.
Definition known_eq (X : Type) (o1 o2 : outcome X) : Prop := o1 <> Hang -> o1 = o2.
Lemma known_eq_refl : forall X o, known_eq X o o. Proof. intros X o _. reflexivity. Qed.
Lemma known_eq_bind : forall X Y o1 o2 (f g : X -> outcome Y), known_eq X o1 o2 -> (forall x, o1 = Ok x -> known_eq Y (f x) (g x)) -> known_eq Y (bind o1 f) (bind o2 g).
Proof.
  intros X Y o1 o2 f g H K N. destruct o1 as [x| | |]; try (rewrite <- H by discriminate; reflexivity); [|now elim N].
  rewrite <- H by discriminate. cbn in *. now apply K.
Qed.
