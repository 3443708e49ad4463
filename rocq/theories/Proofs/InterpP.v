(** Properties of the meaning of trees. *)
From Coq Require Import ZArith List Bool Lia ZifyBool.
From Verif Require Import Model.Base Model.Number Model.ParserInterface Model.Types Spec.Json Spec.Typed
  Proofs.Induct Proofs.Sim Proofs.TreeM Proofs.OrderP Proofs.TypedP.
Import ListNotations.
Open Scope nat_scope.

Lemma bind_ok : forall {X Y} (o : outcome X) (f : X -> outcome Y) y, bind o f = Ok y -> exists x, o = Ok x /\ f x = Ok y.
Proof. intros X Y [x| | |] f y H; try discriminate H. eauto. Qed.

Section InterpP.
  Context {A : Type} (sc : scal_ops A) (m : strictness) (marker : bytes).
  Notation I := (interp sc m marker).

  (** ** The scan of a class by paths *)
  Lemma scan_members_spec : forall ns (ds : list (ifun A)) vs k j, length ds = length ns -> length vs = length ns ->
    in_scan_members ns ds vs k j =
    match index_of k ns with
    | None => None
    | Some i => match nth_error ds i, nth_error vs i with
                | Some d, Some x => Some (do x' <- i_parse d x j; Ok (set_nth i x' vs))
                | _, _ => Some UB
                end
    end.
  Proof.
    induction ns as [|n ns IH]; intros [|d ds] [|x vs] k j L1 L2; try discriminate; [reflexivity|].
    cbn [in_scan_members index_of]. destruct (beq k n); [reflexivity|].
    rewrite IH by (cbn in *; lia). destruct (index_of k ns) as [i|]; [|reflexivity]. cbn [nth_error].
    destruct (nth_error ds i), (nth_error vs i); try reflexivity. now rewrite bind_assoc.
  Qed.

  Definition scan_ok (t : ty) : Prop := forall v k j, shaped t v = true ->
    i_scan (I t) k v j =
    match find_path t k with
    | None => None
    | Some (q, i) => match type_at t q i, field v q i with
                     | Some tm, Some x => Some (do x' <- i_parse (I tm) x j; Ok (set_field v q i x'))
                     | _, _ => Some UB
                     end
    end.
  Lemma search_S : forall fs k n, search fs k (S n) =
    match search fs k n with Some (a :: q, i) => Some (S a :: q, i) | Some p => Some p | None => None end.
  Proof.
    induction fs as [|f fs IH]; intros k n; cbn; [reflexivity|]. destruct (f k) as [[q i]|]; [reflexivity|]. apply IH.
  Qed.
  Lemma scan_parents_spec : forall ps vs k j, (forall p, In p ps -> scan_ok p) -> all2b (map shaped ps) vs = true ->
    in_scan_parents (map I ps) vs k j =
    match search (map find_path ps) k 0 with
    | Some (n :: q, i) =>
        match nth_error ps n, nth_error vs n with
        | Some p, Some w =>
            match type_at p q i, field w q i with
            | Some tm, Some x => Some (do x' <- i_parse (I tm) x j; Ok (set_nth n (set_field w q i x') vs))
            | _, _ => Some UB
            end
        | _, _ => Some UB
        end
    | _ => None
    end.
  Proof.
    induction ps as [|p ps IH]; intros [|w vs] k j H S; try discriminate S; [reflexivity|].
    cbn [map all2b] in S. apply andb_prop in S as [S1 S2].
    cbn [map in_scan_parents search]. rewrite (H p (or_introl eq_refl) w k j S1).
    destruct (find_path p k) as [[q i]|] eqn:F.
    - cbn [nth_error]. destruct (type_at p q i) as [tm|]; [|reflexivity]. destruct (field w q i); [|reflexivity].
      now rewrite bind_assoc.
    - rewrite IH by (auto using in_cons). rewrite search_S. destruct (search (map find_path ps) k 0) as [[[|n q] i]|]; try reflexivity.
      cbn [nth_error]. destruct (nth_error ps n) as [p'|]; [|reflexivity]. destruct (nth_error vs n) as [w'|]; [|reflexivity].
      destruct (type_at p' q i) as [tm|]; [|reflexivity]. destruct (field w' q i); [|reflexivity]. now rewrite bind_assoc.
  Qed.
  Theorem scan_spec : forall t, wf t = true -> is_class t = true -> scan_ok t.
  Proof.
    apply (ty_ind' (fun t => wf t = true -> is_class t = true -> scan_ok t)); intros; try discriminate.
    intros v k j S. destruct (wf_struct _ _ _ H1) as (L & Wm & Wp). apply shaped_struct in S as (own & par & -> & So & Sp).
    cbn [interp i_scan in_scan_struct find_path]. rewrite scan_parents_spec; [|rewrite Forall_forall in H0; intros p Ip; destruct (Wp p Ip); auto|exact Sp].
    destruct (search (map find_path ps) k 0) as [p|] eqn:E.
    - apply search_spec in E as (a & q & n & f & -> & N & F). cbn [Nat.add type_at field].
      rewrite nth_error_map in N. destruct (nth_error ps a) as [p|] eqn:Ep; [|discriminate]. cbn [option_map] in N. injection N as <-.
      destruct (nth_error par a) as [w|] eqn:Ew.
      + destruct (type_at p q n) as [tm|]; [|reflexivity]. destruct (field w q n) eqn:Ef; [|reflexivity].
        rewrite bind_assoc. cbn [set_field bind]. now rewrite Ew.
      + destruct (type_at p q n); reflexivity.
    - assert (Lo := all2b_len _ _ So). rewrite map_length in Lo.
      rewrite scan_members_spec by (rewrite !map_length; lia).
      destruct (index_of k (map (nameOverride i) (si_names i))) as [n|]; [|reflexivity].
      cbn [type_at field]. rewrite nth_error_map. destruct (nth_error ms n) as [tm|]; [|reflexivity]. cbn [option_map].
      destruct (nth_error own n); [|reflexivity]. now rewrite bind_assoc.
  Qed.
  (** The two cases of a member. *)
  Lemma scan_known : forall t v k j q i tm, wf t = true -> is_class t = true -> shaped t v = true ->
    find_path t k = Some (q, i) -> type_at t q i = Some tm ->
    exists x, field v q i = Some x /\ shaped tm x = true /\
      i_scan (I t) k v j = Some (do x' <- i_parse (I tm) x j; Ok (set_field v q i x')).
  Proof.
    intros t v k j q i tm W C S F T. rewrite (scan_spec t W C v k j S), F, T.
    destruct (type_at_good q t i tm W T) as (_ & _ & G). destruct (G v S) as (x & E & Sx & _). rewrite E. eauto.
  Qed.
  Lemma scan_unknown : forall t v k j, wf t = true -> is_class t = true -> shaped t v = true -> find_path t k = None ->
    i_scan (I t) k v j = None.
  Proof. intros t v k j W C S F. now rewrite (scan_spec t W C v k j S), F. Qed.

  (** ** Reading keeps the shape *)
  Definition keeps (t : ty) : Prop := forall v j v', shaped t v = true -> i_parse (I t) v j = Ok v' -> shaped t v' = true.

  Lemma members_keep : forall (P : val -> Prop) scan, (forall k v j v', P v -> scan k v j = Some (Ok v') -> P v') ->
    forall l v found v' f', P v -> in_members sc m scan v found l = Ok (v', f') -> P v'.
  Proof.
    intros P scan H. induction l as [|[k j] l IH]; intros v found v' f' Pv E; cbn [in_members] in E.
    - injection E as <- <-. exact Pv.
    - apply bind_ok in E as (k' & _ & E). destruct (scan k' v j) as [o|] eqn:Es.
      + apply bind_ok in E as (v1 & -> & E). eapply IH; [|exact E]. eapply H; eassumption.
      + destruct m; try discriminate E. destruct (skippable sc j); [|discriminate E]. eauto.
  Qed.
  Lemma map_keep : forall (P : val -> Prop) req scan, (forall k v j v', P v -> scan k v j = Some (Ok v') -> P v') ->
    forall v j v', P v -> in_map sc m req scan v j = Ok v' -> P v'.
  Proof.
    intros P req scan H v [a|l|l] v' Pv E; try discriminate E. cbn [in_map] in E. apply bind_ok in E as ([w f] & E1 & E2).
    assert (Pw : P w) by (eapply members_keep; eassumption).
    destruct m; try (injection E2 as <-; exact Pw). destruct (forallb _ req); [|discriminate E2]. injection E2 as <-. exact Pw.
  Qed.
  Lemma elems_keep : forall (P : val -> Prop) elem, (forall i v j v', P v -> elem i v j = Ok v' -> P v') ->
    forall l i v v', P v -> @in_elems A elem i v l = Ok v' -> P v'.
  Proof.
    intros P elem H. induction l as [|j l IH]; intros i v v' Pv E; cbn [in_elems] in E; [injection E as <-; exact Pv|].
    apply bind_ok in E as (v1 & E1 & E2). eauto.
  Qed.
  Lemma map_find_shaped : forall t k l x, forallb (fun kv => shaped t (snd kv)) l = true -> map_find k l = Some x -> shaped t x = true.
  Proof.
    induction l as [|[a w] l IH]; intros x H E; cbn in *; [discriminate|]. apply andb_prop in H as [H1 H2].
    destruct (beq a k); [now injection E as <-|auto].
  Qed.
  Lemma map_add_shaped : forall t k x l, forallb (fun kv => shaped t (snd kv)) l = true -> shaped t x = true ->
    forallb (fun kv => shaped t (snd kv)) (map_add k x l) = true.
  Proof.
    induction l as [|[a w] l IH]; cbn [map_add forallb snd]; intros H Hx; [now rewrite Hx|]. destruct (bltb k a); cbn [forallb snd]; [now rewrite Hx|].
    apply andb_prop in H as [-> H]. cbn [andb]. auto.
  Qed.
  Lemma map_set_shaped : forall t k x l, forallb (fun kv => shaped t (snd kv)) l = true -> shaped t x = true ->
    forallb (fun kv => shaped t (snd kv)) (map_set k x l) = true.
  Proof.
    induction l as [|[a w] l IH]; intros H S; cbn in *; [now rewrite S|]. apply andb_prop in H as [H1 H2].
    destruct (beq a k); cbn; [now rewrite S|]. destruct (bltb k a); cbn; [now rewrite S, H1|]. now rewrite H1, IH.
  Qed.

  Theorem reading_keeps_shape : forall t, wf t = true -> keeps t.
  Proof.
    apply (ty_strong (fun t => wf t = true -> keeps t)). intros t IH W v j v' S E.
    destruct t as [i| | |l|co t|n t|ts|fw t|t|t|si ms ps|cs o|cs]; cbn [interp i_parse] in E.
    - destruct j; try discriminate E. cbn in E. apply bind_ok in E as (b & _ & E). injection E as <-. reflexivity.
    - destruct j; try discriminate E. cbn in E. apply bind_ok in E as (b & _ & E). injection E as <-. reflexivity.
    - destruct j; try discriminate E. cbn in E. apply bind_ok in E as (b & _ & E). injection E as <-. reflexivity.
    - apply bind_ok in E as (w & E1 & E). destruct w; try discriminate E. destruct (enum_value l s); [|discriminate E].
      injection E as <-. reflexivity.
    - apply wf_seq in W. assert (K := IH t ltac:(cbn; lia) W). destruct j as [a|lj|lj]; try discriminate E. cbn [in_array] in E.
      apply (elems_keep (fun v => shaped (TSeq co t) v = true)) in E; auto.
      intros i w j w' Sw Ew. destruct w; try discriminate Sw. cbn [in_elem_vec] in Ew. apply bind_ok in Ew as (x & E1 & Ew).
      injection Ew as <-. cbn [shaped] in *. apply seq_add_forallb; [exact Sw|exact (K _ _ _ (default_shaped t W) E1)].
    - assert (K := IH t ltac:(cbn; lia) W). destruct j as [a|lj|lj]; try discriminate E. cbn [in_array] in E.
      apply (elems_keep (fun v => shaped (TArr n t) v = true)) in E; auto.
      intros i w j w' Sw Ew. destruct w; try discriminate Sw. cbn [in_elem_fixed] in Ew.
      destruct (nth_error (repeat (I t) n) i) as [d|] eqn:Ed; [|discriminate Ew].
      assert (d = I t) by (apply nth_error_In in Ed; now apply repeat_spec in Ed). subst d.
      destruct (nth_error l i) as [x|] eqn:Ex; [|discriminate Ew]. apply bind_ok in Ew as (x' & E1 & Ew). injection Ew as <-.
      cbn [shaped] in *. apply andb_prop in Sw as [S1 S2]. rewrite set_nth_len, S1. cbn [andb].
      apply forallb_set; [exact S2|]. apply (K _ _ _ (forallb_nth _ _ _ _ S2 Ex) E1).
    - destruct j as [a|lj|lj]; try discriminate E. cbn [in_array] in E.
      apply (elems_keep (fun v => shaped (TTup ts) v = true)) in E; auto.
      intros i w j w' Sw Ew. destruct w; try discriminate Sw. cbn [in_elem_fixed] in Ew.
      rewrite nth_error_map in Ew. destruct (nth_error ts i) as [t|] eqn:Et; [|discriminate Ew]. cbn [option_map] in Ew.
      destruct (nth_error l i) as [x|] eqn:Ex; [|discriminate Ew]. apply bind_ok in Ew as (x' & E1 & Ew). injection Ew as <-.
      cbn [shaped] in *. assert (Hf : nth_error (map shaped ts) i = Some (shaped t)) by now rewrite nth_error_map, Et.
      apply (all2b_set _ _ _ _ _ Sw Hf). destruct (all2b_nth _ _ _ _ Sw Hf) as (y & Ey & Sy). rewrite Ex in Ey. injection Ey as <-.
      cbn [wf] in W. eapply IH; [apply list_sum_nth in Et; cbn [tsize]; lia|exact (forallb_nth _ _ _ _ W Et)|exact Sy|exact E1].
    - assert (K := IH t ltac:(cbn; lia) W). apply (map_keep (fun v => shaped (TMap fw t) v = true)) in E; auto.
      intros k w j' w' Sw Ew. destruct w; try discriminate Sw. cbn [in_scan_map] in Ew. cbn [shaped] in *. destruct fw; injection Ew as Ew;
        apply bind_ok in Ew as (x & E1 & Ew); injection Ew as <-.
      + assert (Sx := K _ _ _ (default_shaped t W) E1). destruct (map_find k l); [exact Sw|]. now apply map_set_shaped.
      + apply map_set_shaped; [exact Sw|]. eapply K; [|exact E1]. destruct (map_find k l) eqn:Ef; [eapply map_find_shaped; eassumption|now apply default_shaped].
      + apply map_add_shaped; [exact Sw|]. exact (K _ _ _ (default_shaped t W) E1).
    - unfold in_pointer in E. destruct (null_tree sc j); [destruct (skippable sc j); [injection E as <-; reflexivity|discriminate E]|].
      apply bind_ok in E as (x & E1 & E). injection E as <-. cbn [shaped]. eapply IH; [cbn; lia|exact W|exact (default_shaped t W)|exact E1].
    - destruct v; try discriminate S. apply bind_ok in E as (x & E1 & E). injection E as <-. cbn [shaped] in *.
      eapply IH; [cbn; lia|exact W| |exact E1]. destruct o; [exact S|now apply default_shaped].
    - change (in_scan_struct si (map I ms) (map I ps)) with (i_scan (I (TStruct si ms ps))) in E.
      apply (map_keep (fun v => shaped (TStruct si ms ps) v = true)) in E; auto.
      intros k w j' w' Sw Ew. rewrite (scan_spec _ W eq_refl w k j' Sw) in Ew.
      destruct (find_path (TStruct si ms ps) k) as [[q i]|] eqn:F; [|discriminate Ew].
      destruct (find_path_good _ _ _ _ W F) as (tm & T & Wt & G). rewrite T in Ew. destruct (G w Sw) as (x & Ex & Sx & K). rewrite Ex in Ew.
      injection Ew as Ew. apply bind_ok in Ew as (x' & E1 & Ew). injection Ew as <-. apply K.
      eapply IH; [eapply type_at_size; exact T|exact Wt|exact Sx|exact E1].
    - unfold in_pointer in E. destruct (null_tree sc j); [destruct (skippable sc j); [injection E as <-; reflexivity|discriminate E]|].
      apply bind_ok in E as ([c j'] & _ & E). destruct (find_class cs c) as [k|]; [|destruct (existsb _ o); discriminate E].
      rewrite nth_error_map in E. destruct (nth_error cs k) as [tk|] eqn:Ek; [|discriminate E]. cbn [option_map] in E.
      apply bind_ok in E as (x & E1 & E). injection E as <-. cbn [shaped wf] in *. rewrite nth_error_map, Ek. cbn [option_map].
      destruct (wf_classes _ _ _ W Ek) as [_ Wk]. eapply IH; [apply list_sum_nth in Ek; cbn [tsize]; lia|exact Wk|exact (default_shaped _ Wk)|exact E1].
    - apply bind_ok in E as ([c j'] & _ & E). destruct (find_class cs c) as [k|]; [|discriminate E].
      rewrite nth_error_map in E. destruct (nth_error cs k) as [tk|] eqn:Ek; [|discriminate E]. cbn [option_map] in E.
      apply bind_ok in E as (x & E1 & E). injection E as <-. cbn [shaped wf] in *. rewrite nth_error_map, Ek. cbn [option_map].
      apply andb_prop in W as [W _].
      destruct (wf_classes _ _ _ W Ek) as [_ Wk]. eapply IH; [apply list_sum_nth in Ek; cbn [tsize]; lia|exact Wk|exact (default_shaped _ Wk)|exact E1].
  Qed.

  (** ** The outcome is known unless something that is skipped cannot be *)
  Section NoHang.
    Hypotheses (h_int : forall i a, sc_int sc i a <> Hang) (h_bool : forall a, sc_bool sc a <> Hang)
      (h_str : forall a, sc_str sc a <> Hang) (h_key : forall k, sc_key sc k <> Hang)
      (h_null : forall a, sc_null sc a = true -> sc_skip sc a = true).

    Lemma bind_no_hang : forall {X Y} (o : outcome X) (f : X -> outcome Y), o <> Hang -> (forall x, o = Ok x -> f x <> Hang) -> bind o f <> Hang.
    Proof. intros X Y [x| | |] f H K; cbn; try discriminate; auto. Qed.

    Definition skips_ok (j : tree A) : Prop := m = Weak -> skippable sc j = true.
    Lemma skips_arr : forall l j, skips_ok (Arr l) -> In j l -> skips_ok j.
    Proof. intros l j H Hj Hm. specialize (H Hm). cbn in H. rewrite forallb_forall in H. auto. Qed.
    Lemma skips_obj : forall l k j, skips_ok (Obj l) -> In (k, j) l -> skips_ok j.
    Proof. intros l k j H Hj Hm. specialize (H Hm). cbn in H. rewrite forallb_forall in H. apply H in Hj. now apply andb_prop in Hj as [_ Hj]. Qed.

    Lemma members_no_hang : forall scan l, (forall k j v, In (k, j) l -> forall k', scan k' v j <> Some Hang) ->
      skips_ok (Obj l) -> forall v found, in_members sc m scan v found l <> Hang.
    Proof.
      intros scan. induction l as [|[k j] l IH]; intros H Hs v found; cbn [in_members]; [discriminate|].
      apply bind_no_hang; [apply h_key|]. intros k' _.
      assert (Hl : skips_ok (Obj l)). { intro Hm. specialize (Hs Hm). cbn in Hs. now apply andb_prop in Hs as [_ Hs]. }
      assert (Hj : skips_ok j) by (eapply skips_obj; [exact Hs|now left]).
      destruct (scan k' v j) as [o|] eqn:E.
      - apply bind_no_hang; [|intros; apply IH; auto; intros; apply (H k0 j0 v0); now right].
        intros ->. eapply (H k j v); [now left|exact E].
      - assert (Q : forall X : outcome (val * list bytes), (m = Weak -> X <> Hang) -> match m with Weak => X | _ => Throw end <> Hang)
          by (intros X G; destruct m; [now apply G|discriminate|discriminate]).
        apply Q. intro Hm. rewrite (Hj Hm). apply IH; auto. intros. apply (H k0 j0 v0). now right.
    Qed.
    Lemma map_no_hang : forall req scan j, (forall l k j' v, j = Obj l -> In (k, j') l -> forall k', scan k' v j' <> Some Hang) ->
      skips_ok j -> forall v, in_map sc m req scan v j <> Hang.
    Proof.
      intros req scan [a|l|l] H Hs v; try discriminate. cbn [in_map]. apply bind_no_hang.
      - apply members_no_hang; auto. intros. eapply H; eauto.
      - intros [w f] _. destruct m; try discriminate. destruct (forallb _ req); discriminate.
    Qed.
    Lemma elems_no_hang : forall elem l, (forall i v j, In j l -> elem i v j <> Hang) -> forall i v, @in_elems A elem i v l <> Hang.
    Proof.
      intros elem. induction l as [|j l IH]; intros H i v; cbn [in_elems]; [discriminate|].
      apply bind_no_hang; [apply H; now left|]. intros. apply IH. intros. apply H. now right.
    Qed.

    Lemma class_no_hang : forall j, class_of sc marker j <> Hang.
    Proof.
      intros [a|l|[|[k jc] l]]; try discriminate. cbn [class_of]. apply bind_no_hang; [apply h_key|]. intros k' _.
      destruct (beq k' marker); [|discriminate]. destruct jc; try discriminate. apply bind_no_hang; [apply h_str|discriminate].
    Qed.
    Lemma class_rest : forall j c j', class_of sc marker j = Ok (c, j') -> skips_ok j -> skips_ok j'.
    Proof.
      intros [a|l|[|[k jc] l]] c j' E Hs; try discriminate E. cbn [class_of] in E. apply bind_ok in E as (k' & _ & E).
      destruct (beq k' marker); [|discriminate E]. destruct jc; try discriminate E. apply bind_ok in E as (c' & _ & E).
      injection E as _ <-. intro Hm. specialize (Hs Hm). cbn in Hs. now apply andb_prop in Hs as [_ Hs].
    Qed.
    Lemma pointer_no_hang : forall rest j, rest j <> Hang -> in_pointer sc rest j <> Hang.
    Proof.
      intros rest j H. unfold in_pointer. destruct (null_tree sc j) eqn:E; [|exact H]. destruct j; try discriminate E.
      cbn in *. rewrite (h_null a E). discriminate.
    Qed.

    Theorem no_hang : forall t, (forall v j, skips_ok j -> i_parse (I t) v j <> Hang) /\
      (forall k v j, skips_ok j -> i_scan (I t) k v j <> Some Hang).
    Proof.
      assert (Vl : forall B (rd : A -> outcome B) mk j, (forall a, rd a <> Hang) -> in_value rd mk j <> Hang).
      { intros B rd mk [a|l|l] H; try discriminate. cbn. apply bind_no_hang; [apply H|discriminate]. }
      apply ty_ind'; intros; cbn [interp i_parse i_scan]; (split; [|try discriminate]).
      - intros. apply Vl. apply h_int.
      - intros. apply Vl, h_bool.
      - intros. apply Vl, h_str.
      - intros v j Hs. apply bind_no_hang; [apply Vl, h_str|]. intros w _. destruct w; try discriminate. destruct (enum_value l s); discriminate.
      - intros v [a|l|l] Hs; try discriminate. cbn [in_array]. apply elems_no_hang. intros i w j Hj. destruct w; try discriminate.
        cbn [in_elem_vec]. apply bind_no_hang; [|discriminate]. apply H. eapply skips_arr; eassumption.
      - intros v [a|l|l] Hs; try discriminate. cbn [in_array]. apply elems_no_hang. intros i w j Hj. destruct w; try discriminate.
        cbn [in_elem_fixed]. destruct (nth_error (repeat (I t) n) i) as [d|] eqn:Ed; [|discriminate].
        assert (d = I t) by (apply nth_error_In in Ed; now apply repeat_spec in Ed). subst d.
        destruct (nth_error l0 i); [|discriminate]. apply bind_no_hang; [|discriminate]. apply H. eapply skips_arr; eassumption.
      - intros v [a|l|l] Hs; try discriminate. cbn [in_array]. apply elems_no_hang. intros i w j Hj. destruct w; try discriminate.
        cbn [in_elem_fixed]. rewrite nth_error_map. destruct (nth_error ts i) as [t|] eqn:Et; [|discriminate]. cbn [option_map].
        destruct (nth_error l0 i); [|discriminate]. apply bind_no_hang; [|discriminate]. rewrite Forall_forall in H.
        apply (H t); [eapply nth_error_In; eassumption|]. eapply skips_arr; eassumption.
      - intros v j Hs. apply map_no_hang; [|exact Hs]. intros l k j' w -> Hj k' E. destruct w; try discriminate E. cbn [in_scan_map] in E.
        destruct b; injection E as E; revert E; (apply bind_no_hang; [|discriminate]); apply H; eapply skips_obj; eassumption.
      - intros k v j Hs E. destruct v; try discriminate E. cbn [in_scan_map] in E.
        destruct b; injection E as E; revert E; (apply bind_no_hang; [|discriminate]); apply H; exact Hs.
      - intros v j Hs. apply pointer_no_hang. apply bind_no_hang; [|discriminate]. now apply H.
      - intros v j Hs. destruct v; try discriminate. apply bind_no_hang; [|discriminate]. now apply H.
      - assert (Sc : forall k v j, skips_ok j -> in_scan_struct i (map I ms) (map I ps) k v j <> Some Hang).
        { intros k v j Hs E. destruct v; try discriminate E. cbn [in_scan_struct] in E.
          assert (Hp : forall vs, in_scan_parents (map I ps) vs k j <> Some Hang).
          { clear E. induction H0 as [|p ps Hp H0 IH]; intros [|w vs]; cbn [map in_scan_parents]; try discriminate.
            destruct (i_scan (I p) k w j) as [o|] eqn:E.
            - intro G. injection G as G. revert G. apply bind_no_hang; [|discriminate]. intros ->. exact (proj2 Hp k w j Hs E).
            - specialize (IH vs). destruct (in_scan_parents (map I ps) vs k j) as [o|]; [|discriminate].
              intro G. injection G as G. revert G. apply bind_no_hang; [|discriminate]. intros ->. now apply IH. }
          assert (Hm : forall ns vs, in_scan_members ns (map I ms) vs k j <> Some Hang).
          { clear E. induction H as [|p ms Hp1 H IH]; intros [|n ns] [|w vs]; cbn [map in_scan_members]; try discriminate.
            destruct (beq k n).
            - intro G. injection G as G. revert G. apply bind_no_hang; [|discriminate]. now apply Hp1.
            - specialize (IH ns vs). destruct (in_scan_members ns (map I ms) vs k j) as [o|]; [|discriminate].
              intro G. injection G as G. revert G. apply bind_no_hang; [|discriminate]. intros ->. now apply IH. }
          destruct (in_scan_parents (map I ps) parents k j) as [o|] eqn:Ep.
          - injection E as E. revert E. apply bind_no_hang; [|discriminate]. intros ->. exact (Hp _ Ep).
          - destruct (in_scan_members _ (map I ms) own k j) as [o|] eqn:Em; [|discriminate E].
            injection E as E. revert E. apply bind_no_hang; [|discriminate]. intros ->. exact (Hm _ _ Em). }
        intros v j Hs. apply map_no_hang; [|exact Hs]. intros l k j' w -> Hj k'. apply Sc. eapply skips_obj; eassumption.
      - intros k v j Hs E. destruct v; try discriminate E. cbn [in_scan_struct] in E.
        assert (Hp : forall vs, in_scan_parents (map I ps) vs k j <> Some Hang).
        { clear E. induction H0 as [|p ps Hp H0 IH]; intros [|w vs]; cbn [map in_scan_parents]; try discriminate.
          destruct (i_scan (I p) k w j) as [o|] eqn:E.
          - intro G. injection G as G. revert G. apply bind_no_hang; [|discriminate]. intros ->. exact (proj2 Hp k w j Hs E).
          - specialize (IH vs). destruct (in_scan_parents (map I ps) vs k j) as [o|]; [|discriminate].
            intro G. injection G as G. revert G. apply bind_no_hang; [|discriminate]. intros ->. now apply IH. }
        assert (Hm : forall ns vs, in_scan_members ns (map I ms) vs k j <> Some Hang).
        { clear E. induction H as [|p ms Hp1 H IH]; intros [|n ns] [|w vs]; cbn [map in_scan_members]; try discriminate.
          destruct (beq k n).
          - intro G. injection G as G. revert G. apply bind_no_hang; [|discriminate]. now apply Hp1.
          - specialize (IH ns vs). destruct (in_scan_members ns (map I ms) vs k j) as [o|]; [|discriminate].
            intro G. injection G as G. revert G. apply bind_no_hang; [|discriminate]. intros ->. now apply IH. }
        destruct (in_scan_parents (map I ps) parents k j) as [o|] eqn:Ep.
        + injection E as E. revert E. apply bind_no_hang; [|discriminate]. intros ->. exact (Hp _ Ep).
        + destruct (in_scan_members _ (map I ms) own k j) as [o|] eqn:Em; [|discriminate E].
          injection E as E. revert E. apply bind_no_hang; [|discriminate]. intros ->. exact (Hm _ _ Em).
      - intros v j Hs. apply pointer_no_hang. apply bind_no_hang; [apply class_no_hang|]. intros [c j'] Ec.
        destruct (find_class cs c) as [k|]; [|destruct (existsb _ o); discriminate]. rewrite nth_error_map.
        destruct (nth_error cs k) as [tk|] eqn:Ek; [|discriminate]. cbn [option_map]. apply bind_no_hang; [|discriminate].
        rewrite Forall_forall in H. apply (H tk); [eapply nth_error_In; eassumption|]. eapply class_rest; eassumption.
      - intros v j Hs. apply bind_no_hang; [apply class_no_hang|]. intros [c j'] Ec.
        destruct (find_class cs c) as [k|]; [|discriminate]. rewrite nth_error_map.
        destruct (nth_error cs k) as [tk|] eqn:Ek; [|discriminate]. cbn [option_map]. apply bind_no_hang; [|discriminate].
        rewrite Forall_forall in H. apply (H tk); [eapply nth_error_In; eassumption|]. eapply class_rest; eassumption.
    Qed.
  End NoHang.
End InterpP.
