(** Changes and faults in a part of a tree. *)
From Coq Require Import ZArith List Bool Lia ZifyBool.
From Verif Require Import Model.Base Model.Number Model.ParserInterface Model.Types Spec.Json Spec.Typed
  Proofs.Induct Proofs.Sim Proofs.TreeM Proofs.OrderP Proofs.TypedP Proofs.InterpP.
Import ListNotations.
Open Scope nat_scope.

Section PartP.
  Context {A : Type} (sc : scal_ops A) (m : strictness) (marker : bytes).
  Notation I := (interp sc m marker).
  Variables (kd : bytes -> bytes -> Prop) (sd : A -> bytes -> Prop).
  Hypotheses (kd_ok : forall k n, kd k n -> sc_key sc k = Ok n) (sd_ok : forall a c, sd a c -> sc_str sc a = Ok c).

  (** Parsing a class is in_map over its own scan. *)
  Lemma parse_class : forall t v j, is_class t = true -> i_parse (I t) v j = in_map sc m (required t) (i_scan (I t)) v j.
  Proof. intros t v j H. destruct t; try discriminate H. reflexivity. Qed.
  Lemma scan_keeps : forall t k v j v', wf t = true -> is_class t = true -> shaped t v = true ->
    i_scan (I t) k v j = Some (Ok v') -> shaped t v' = true.
  Proof.
    intros t k v j v' W C S E. rewrite (scan_spec sc m marker t W C v k j S) in E.
    destruct (find_path t k) as [[q i]|] eqn:F; [|discriminate E].
    destruct (find_path_good t k q i W F) as (tm & T & Wt & G). rewrite T in E. destruct (G v S) as (x & Ex & Sx & K). rewrite Ex in E.
    injection E as E. apply bind_ok in E as (x' & E1 & E). injection E as <-. apply K. eapply reading_keeps_shape; eassumption.
  Qed.
  Lemma scan_map_keeps : forall fw t k v j v', wf t = true -> shaped (TMap fw t) v = true ->
    in_scan_map fw (I t) (default t) k v j = Some (Ok v') -> shaped (TMap fw t) v' = true.
  Proof.
    intros fw t k w j' w' W Sw Ew. assert (K := reading_keeps_shape sc m marker t W).
    destruct w; try discriminate Sw. cbn [in_scan_map] in Ew. cbn [shaped] in *. destruct fw; injection Ew as Ew;
      apply bind_ok in Ew as (x & E1 & Ew); injection Ew as <-.
    - assert (Sx := K _ _ _ (default_shaped t W) E1). destruct (map_find k l); [exact Sw|]. now apply map_set_shaped.
    - apply map_set_shaped; [exact Sw|]. eapply K; [|exact E1]. destruct (map_find k l) eqn:Ef; [eapply map_find_shaped; eassumption|now apply default_shaped].
    - apply map_add_shaped; [exact Sw|]. exact (K _ _ _ (default_shaped t W) E1).
  Qed.
  Lemma vec_keeps : forall co t i v j v', wf t = true -> shaped (TSeq co t) v = true ->
    in_elem_vec co (I t) (default t) i v j = Ok v' -> shaped (TSeq co t) v' = true.
  Proof.
    intros co t i w j w' W Sw Ew. destruct w; try discriminate Sw. cbn [in_elem_vec] in Ew. apply bind_ok in Ew as (x & E1 & Ew).
    injection Ew as <-. cbn [shaped] in *. apply seq_add_forallb; [exact Sw|].
    exact (reading_keeps_shape sc m marker t W _ _ _ (default_shaped t W) E1).
  Qed.
  (** Arrays and tuples at once. *)
  Lemma fixed_keeps : forall ts i v j v', forallb wf ts = true -> shaped (TTup ts) v = true ->
    in_elem_fixed (map I ts) i v j = Ok v' -> shaped (TTup ts) v' = true.
  Proof.
    intros ts i w j w' W Sw Ew. destruct w; try discriminate Sw. cbn [in_elem_fixed] in Ew.
    rewrite nth_error_map in Ew. destruct (nth_error ts i) as [t|] eqn:Et; [|discriminate Ew]. cbn [option_map] in Ew.
    destruct (nth_error l i) as [x|] eqn:Ex; [|discriminate Ew]. apply bind_ok in Ew as (x' & E1 & Ew). injection Ew as <-.
    cbn [shaped] in *. assert (Hf : nth_error (map shaped ts) i = Some (shaped t)) by now rewrite nth_error_map, Et.
    apply (all2b_set _ _ _ _ _ Sw Hf). destruct (all2b_nth _ _ _ _ Sw Hf) as (y & Ey & Sy). rewrite Ex in Ey. injection Ey as <-.
    eapply reading_keeps_shape; [exact (forallb_nth _ _ _ _ W Et)|exact Sy|exact E1].
  Qed.
  Lemma arr_as_tuple : forall n t v, shaped (TArr n t) v = shaped (TTup (repeat t n)) v.
  Proof.
    intros n t v. destruct v; try reflexivity. cbn [shaped]. revert l. induction n as [|n IH]; intros [|x l]; try reflexivity.
    cbn [repeat map all2b forallb length]. rewrite <- IH. cbn [Nat.eqb]. destruct (length l =? n), (shaped t x), (forallb (shaped t) l); reflexivity.
  Qed.
  Lemma map_repeat : forall {X Y} (f : X -> Y) x n, map f (repeat x n) = repeat (f x) n.
  Proof. induction n; cbn; [reflexivity|]. now f_equal. Qed.
  Lemma forallb_repeat : forall {X} (f : X -> bool) x n, f x = true -> forallb f (repeat x n) = true.
  Proof. induction n; cbn; intros; auto. now rewrite H, IHn. Qed.
  Lemma nth_repeat : forall {X} (x : X) n i, i < n -> nth_error (repeat x n) i = Some x.
  Proof. induction n; intros [|i] H; cbn; try lia; auto. apply IHn. lia. Qed.
  Lemma parse_arr : forall n t v j, i_parse (I (TArr n t)) v j = i_parse (I (TTup (repeat t n))) v j.
  Proof. intros. cbn [interp i_parse]. now rewrite map_repeat. Qed.

  (** ** A fault in a part *)
  Definition bad (t : ty) (j : tree A) : Prop := forall v, shaped t v = true -> forall v', i_parse (I t) v j <> Ok v'.

  Lemma members_bad : forall (P : val -> Prop) scan k n j, sc_key sc k = Ok n ->
    (forall k v j v', P v -> scan k v j = Some (Ok v') -> P v') ->
    (forall v, P v -> exists o, scan n v j = Some o /\ forall v', o <> Ok v') ->
    forall l, In (k, j) l -> forall v found r, P v -> in_members sc m scan v found l <> Ok r.
  Proof.
    intros P scan k n j Hk Hp Hb. induction l as [|[k' j'] l IH]; intros Hin v found r Pv E; [destruct Hin|].
    cbn [in_members] in E. apply bind_ok in E as (n' & En & E). destruct Hin as [Heq|Hin].
    - injection Heq as -> ->. rewrite Hk in En. injection En as <-. destruct (Hb v Pv) as (o & Eo & No). rewrite Eo in E.
      apply bind_ok in E as (v1 & E1 & _). exact (No _ E1).
    - destruct (scan n' v j') as [o|] eqn:Es.
      + apply bind_ok in E as (v1 & -> & E). eapply (IH Hin v1); [eapply Hp; eassumption|exact E].
      + destruct m; try discriminate E. destruct (skippable sc j'); [|discriminate E]. eapply (IH Hin v); eassumption.
  Qed.
  Lemma map_bad : forall (P : val -> Prop) req scan k n j l, sc_key sc k = Ok n ->
    (forall k v j v', P v -> scan k v j = Some (Ok v') -> P v') ->
    (forall v, P v -> exists o, scan n v j = Some o /\ forall v', o <> Ok v') ->
    In (k, j) l -> forall v v', P v -> in_map sc m req scan v (Obj l) <> Ok v'.
  Proof.
    intros P req scan k n j l Hk Hp Hb Hin v v' Pv E. cbn [in_map] in E. apply bind_ok in E as (r & E & _).
    eapply members_bad; eassumption.
  Qed.
  Lemma elems_bad : forall (P : val -> Prop) elem l i j, nth_error l i = Some j ->
    (forall i v j v', P v -> elem i v j = Ok v' -> P v') ->
    forall o, (forall v, P v -> forall v', elem (o + i) v j <> Ok v') ->
    forall v, P v -> forall v', @in_elems A elem o v l <> Ok v'.
  Proof.
    intros P elem. induction l as [|j0 l IH]; intros [|i] j En Hp o Hb v Pv v' E; try discriminate En; cbn [in_elems] in E;
      apply bind_ok in E as (v1 & E1 & E).
    - injection En as ->. rewrite Nat.add_0_r in Hb. exact (Hb v Pv v1 E1).
    - eapply (IH i j En Hp (S o)); [|eapply Hp; eassumption|exact E]. intros w Pw w'. rewrite Nat.add_succ_comm. now apply Hb.
  Qed.
  Lemma sc_class : forall k a c l, kd k marker -> sd a c -> class_of sc marker (Obj ((k, Scal a) :: l)) = Ok (c, Obj l).
  Proof. intros k a c l Hk Ha. cbn. rewrite (kd_ok _ _ Hk). cbn. rewrite beq_refl, (sd_ok _ _ Ha). reflexivity. Qed.
  Lemma null_is_null : forall j, null_tree sc j = is_null (sc_null sc) j.
  Proof. intros []; reflexivity. Qed.

  Theorem part_bad : forall t j t' j', part kd sd (sc_null sc) marker t j t' j' -> wf t = true ->
    (wf t' = true -> bad t' j') -> bad t j.
  Proof.
    induction 1 as [t j|co t l j t' j' Hj H IH|n t l i j t' j' Hj Hi H IH|ts l i t j t' j' Hj Ht H IH|fw t l k j t' j' Hj H IH
      |t j t' j' Hn H IH|t j t' j' H IH|si ms ps l k n j t t' j' Hj Hk Hm H IH
      |cs o k a c l i t t' j' Hk Ha Hc Ht H IH|cs k a c l i t t' j' Hk Ha Hc Ht H IH]; intros W B; auto.
    - apply wf_seq in W. specialize (IH W B). intros v S v' E. cbn [interp i_parse in_array] in E. revert E. apply In_nth_error in Hj as [i Hj].
      apply (elems_bad (fun v => shaped (TSeq co t) v = true) _ l i j Hj); [intros; eapply vec_keeps; eassumption| |exact S].
      intros w Sw w' Ew. destruct w; try discriminate Sw. cbn [in_elem_vec] in Ew. apply bind_ok in Ew as (x & E1 & _).
      exact (IH _ (default_shaped t W) _ E1).
    - specialize (IH W B). intros v S v' E. rewrite parse_arr in E. rewrite arr_as_tuple in S. cbn [interp i_parse in_array] in E. revert E.
      apply (elems_bad (fun v => shaped (TTup (repeat t n)) v = true) _ l i j Hj); [intros; eapply fixed_keeps; [apply forallb_repeat; exact W|eassumption|eassumption]| |exact S].
      intros w Sw w' Ew. destruct w; try discriminate Sw. cbn [in_elem_fixed Nat.add] in Ew. rewrite nth_error_map, (nth_repeat _ _ _ Hi) in Ew.
      cbn [option_map] in Ew. destruct (nth_error l0 i) as [x|] eqn:Ex; [|discriminate Ew]. apply bind_ok in Ew as (x' & E1 & _).
      refine (IH x _ _ E1). cbn [shaped] in Sw. assert (Hf : nth_error (map shaped (repeat t n)) i = Some (shaped t)) by now rewrite nth_error_map, nth_repeat.
      destruct (all2b_nth _ _ _ _ Sw Hf) as (y & Ey & Sy). congruence.
    - cbn [wf] in W. specialize (IH (forallb_nth _ _ _ _ W Ht) B). intros v S v' E. cbn [interp i_parse in_array] in E. revert E.
      apply (elems_bad (fun v => shaped (TTup ts) v = true) _ l i j Hj); [intros; eapply fixed_keeps; eassumption| |exact S].
      intros w Sw w' Ew. destruct w; try discriminate Sw. cbn [in_elem_fixed Nat.add] in Ew. rewrite nth_error_map, Ht in Ew.
      cbn [option_map] in Ew. destruct (nth_error l0 i) as [x|] eqn:Ex; [|discriminate Ew]. apply bind_ok in Ew as (x' & E1 & _).
      refine (IH x _ _ E1). cbn [shaped] in Sw. assert (Hf : nth_error (map shaped ts) i = Some (shaped t)) by now rewrite nth_error_map, Ht.
      destruct (all2b_nth _ _ _ _ Sw Hf) as (y & Ey & Sy). congruence.
    - specialize (IH W B). intros v S v' E. cbn [interp i_parse] in E.
      destruct (sc_key sc k) as [n| | |] eqn:Ek.
      1: { revert E. apply (map_bad (fun v => shaped (TMap fw t) v = true) _ _ k n j l Ek); auto.
        - intros; eapply scan_map_keeps; eassumption.
        - intros w Sw. destruct w; try discriminate Sw. cbn [in_scan_map shaped] in *. destruct fw; eexists; (split; [reflexivity|]); intros w' Ew;
            apply bind_ok in Ew as (x & E1 & _); [exact (IH _ (default_shaped t W) _ E1)| |exact (IH _ (default_shaped t W) _ E1)].
          refine (IH _ _ _ E1). destruct (map_find n l0) eqn:Ef; [eapply map_find_shaped; eassumption|now apply default_shaped]. }
      all: cbn [in_map] in E; apply bind_ok in E as (r & E & _); clear -Ek Hj E; revert E; generalize (@nil bytes) as found; revert v r;
        induction l as [|[k' jj] l IHl]; intros v r found E; [destruct Hj|]; cbn [in_members] in E; apply bind_ok in E as (n' & En & E);
        destruct Hj as [Hq|Hj]; [injection Hq as -> ->; congruence|];
        (destruct (in_scan_map fw (I t) (default t) n' v jj) as [o|];
         [apply bind_ok in E as (v1 & _ & E); eapply IHl; eassumption
         |destruct m; try discriminate E; destruct (skippable sc jj); [eapply IHl; eassumption|discriminate E]]).
    - specialize (IH W B). intros v S v' E. cbn [interp i_parse] in E. unfold in_pointer in E. rewrite null_is_null, Hn in E.
      apply bind_ok in E as (x & E1 & _). exact (IH _ (default_shaped t W) _ E1).
    - specialize (IH W B). intros v S v' E. cbn [interp i_parse] in E. destruct v; try discriminate S.
      apply bind_ok in E as (x & E1 & _). refine (IH _ _ _ E1). destruct o; [exact S|now apply default_shaped].
    - destruct (member_type_good _ _ _ W Hm) as (q & i & F & T & Wt & G). specialize (IH Wt B). intros v S v' E.
      rewrite parse_class in E by reflexivity. revert E.
      apply (map_bad (fun v => shaped (TStruct si ms ps) v = true) _ _ k n j l (kd_ok _ _ Hk)); auto.
      + intros. apply (scan_keeps (TStruct si ms ps) k0 v0 j0 v'0 W eq_refl); assumption.
      + intros w Sw. destruct (scan_known sc m marker _ w n j q i t W eq_refl Sw F T) as (x & Ex & Sx & ->).
        eexists. split; [reflexivity|]. intros w' Ew. apply bind_ok in Ew as (x' & E1 & _). exact (IH _ Sx _ E1).
    - destruct (wf_classes _ _ _ W Ht) as [_ Wt]. specialize (IH Wt B). intros v S v' E. cbn [interp i_parse] in E.
      unfold in_pointer in E. cbn [null_tree] in E. rewrite (sc_class k a c l Hk Ha) in E. cbn [bind] in E.
      rewrite Hc, nth_error_map, Ht in E. cbn [option_map] in E. apply bind_ok in E as (x & E1 & _). exact (IH _ (default_shaped t Wt) _ E1).
    - cbn [wf] in W. apply andb_prop in W as [W _]. destruct (wf_classes _ _ _ W Ht) as [_ Wt]. specialize (IH Wt B). intros v S v' E. cbn [interp i_parse] in E.
      rewrite (sc_class k a c l Hk Ha) in E. cbn [bind] in E.
      rewrite Hc, nth_error_map, Ht in E. cbn [option_map] in E. apply bind_ok in E as (x & E1 & _). exact (IH _ (default_shaped t Wt) _ E1).
  Qed.

  (** ** A change in a part *)
  Section Cong.
    Variable E : forall X, outcome X -> outcome X -> Prop.
    Hypotheses (E_refl : forall X o, E X o o)
      (E_bind : forall X Y o1 o2 (f : X -> outcome Y), E X o1 o2 -> E Y (bind o1 f) (bind o2 f))
      (E_bind_r : forall X Y o (f g : X -> outcome Y), (forall x, o = Ok x -> E Y (f x) (g x)) -> E Y (bind o f) (bind o g)).

    Lemma members_cong : forall (P : val -> Prop) scan k n j j', sc_key sc k = Ok n ->
      (forall k v j v', P v -> scan k v j = Some (Ok v') -> P v') ->
      (forall v, P v -> exists o o', scan n v j = Some o /\ scan n v j' = Some o' /\ E _ o o') ->
      forall a b v found, P v -> E _ (in_members sc m scan v found (a ++ (k, j) :: b)) (in_members sc m scan v found (a ++ (k, j') :: b)).
    Proof.
      intros P scan k n j j' Hk Hp Hb. induction a as [|[k0 j0] a IH]; intros b v found Pv; cbn [app in_members].
      - rewrite Hk. cbn [bind]. destruct (Hb v Pv) as (o & o' & -> & -> & H). now apply E_bind.
      - apply E_bind_r. intros n0 _. destruct (scan n0 v j0) as [o|] eqn:Es.
        + apply E_bind_r. intros v1 ->. apply IH. eapply Hp; eassumption.
        + destruct m; try apply E_refl. destruct (skippable sc j0); [now apply IH|apply E_refl].
    Qed.
    Lemma map_cong : forall (P : val -> Prop) req scan k n j j', sc_key sc k = Ok n ->
      (forall k v j v', P v -> scan k v j = Some (Ok v') -> P v') ->
      (forall v, P v -> exists o o', scan n v j = Some o /\ scan n v j' = Some o' /\ E _ o o') ->
      forall a b v, P v -> E _ (in_map sc m req scan v (Obj (a ++ (k, j) :: b))) (in_map sc m req scan v (Obj (a ++ (k, j') :: b))).
    Proof. intros. cbn [in_map]. apply E_bind. eapply members_cong; eassumption. Qed.
    Lemma elems_cong : forall (P : val -> Prop) elem j j' b,
      (forall i v j v', P v -> elem i v j = Ok v' -> P v') ->
      forall a i, (forall v, P v -> E _ (elem (i + length a) v j) (elem (i + length a) v j')) ->
      forall v, P v -> E _ (@in_elems A elem i v (a ++ j :: b)) (in_elems elem i v (a ++ j' :: b)).
    Proof.
      intros P elem j j' b Hp. induction a as [|j0 a IH]; intros i Hb v Pv; cbn [app in_elems length] in *.
      - rewrite Nat.add_0_r in Hb. apply E_bind. now apply Hb.
      - apply E_bind_r. intros v1 E1. apply IH; [|eapply Hp; eassumption]. intros w Pw. rewrite Nat.add_succ_comm. now apply Hb.
    Qed.

    Definition alike (t : ty) (j j' : tree A) : Prop :=
      forall v, shaped t v = true -> E _ (i_parse (I t) v j) (i_parse (I t) v j').

    Theorem inside_alike : forall (R : ty -> tree A -> tree A -> Prop) t j j', inside kd sd (sc_null sc) marker R t j j' -> wf t = true ->
      (forall t' j1 j2, wf t' = true -> R t' j1 j2 -> alike t' j1 j2) -> alike t j j'.
    Proof.
      induction 1 as [t j j' H|co t a j j' b H IH|n t a j j' b H IH|ts t a j j' b Ht H IH|fw t a k j j' b H IH
        |t j j' Hn Hn' H IH|t j j' H IH|si ms ps a k n j j' b t Hk Hm H IH
        |cs o k a c l l' i t Hk Ha Hc Ht H IH|cs k a c l l' i t Hk Ha Hc Ht H IH]; intros W B; auto.
      - apply wf_seq in W. specialize (IH W B). intros v S. cbn [interp i_parse in_array].
        apply (elems_cong (fun v => shaped (TSeq co t) v = true)); auto; [intros; eapply vec_keeps; eassumption|].
        intros w Sw. destruct w; try discriminate Sw. cbn [in_elem_vec]. apply E_bind. apply IH. now apply default_shaped.
      - specialize (IH W B). intros v S. rewrite !parse_arr. rewrite arr_as_tuple in S. cbn [interp i_parse in_array].
        apply (elems_cong (fun v => shaped (TTup (repeat t n)) v = true)); auto;
          [intros; eapply fixed_keeps; [apply forallb_repeat; exact W|eassumption|eassumption]|].
        intros w Sw. destruct w; try discriminate Sw. cbn [in_elem_fixed Nat.add]. rewrite nth_error_map.
        destruct (nth_error (repeat t n) (length a)) as [t0|] eqn:Et; [|apply E_refl]. cbn [option_map].
        assert (t0 = t) by (apply nth_error_In in Et; now apply repeat_spec in Et). subst t0.
        destruct (nth_error l (length a)) as [x|] eqn:Ex; [|apply E_refl]. apply E_bind. apply IH.
        cbn [shaped] in Sw. assert (Hf : nth_error (map shaped (repeat t n)) (length a) = Some (shaped t)) by now rewrite nth_error_map, Et.
        destruct (all2b_nth _ _ _ _ Sw Hf) as (y & Ey & Sy). congruence.
      - cbn [wf] in W. specialize (IH (forallb_nth _ _ _ _ W Ht) B). intros v S. cbn [interp i_parse in_array].
        apply (elems_cong (fun v => shaped (TTup ts) v = true)); auto; [intros; eapply fixed_keeps; eassumption|].
        intros w Sw. destruct w; try discriminate Sw. cbn [in_elem_fixed Nat.add]. rewrite nth_error_map, Ht. cbn [option_map].
        destruct (nth_error l (length a)) as [x|] eqn:Ex; [|apply E_refl]. apply E_bind. apply IH.
        cbn [shaped] in Sw. assert (Hf : nth_error (map shaped ts) (length a) = Some (shaped t)) by now rewrite nth_error_map, Ht.
        destruct (all2b_nth _ _ _ _ Sw Hf) as (y & Ey & Sy). congruence.
      - specialize (IH W B). intros v S. cbn [interp i_parse in_map]. apply E_bind.
        generalize (@nil bytes) as found. revert v S. induction a as [|[k0 j0] a IHa]; intros v S found; cbn [app in_members].
        + apply E_bind_r. intros n _. destruct v; try discriminate S. cbn [in_scan_map]. destruct fw; apply E_bind; apply E_bind; apply IH.
          * now apply default_shaped.
          * cbn [shaped] in S. destruct (map_find n l) eqn:Ef; [eapply map_find_shaped; eassumption|now apply default_shaped].
          * now apply default_shaped.
        + apply E_bind_r. intros n0 _. destruct (in_scan_map fw (I t) (default t) n0 v j0) as [o|] eqn:Es.
          * apply E_bind_r. intros v1 ->. apply IHa. eapply scan_map_keeps; eassumption.
          * destruct m; try apply E_refl. destruct (skippable sc j0); [now apply IHa|apply E_refl].
      - specialize (IH W B). intros v S. cbn [interp i_parse]. unfold in_pointer. rewrite !null_is_null, Hn, Hn'.
        apply E_bind. apply IH. now apply default_shaped.
      - specialize (IH W B). intros v S. cbn [interp i_parse]. destruct v; try discriminate S. apply E_bind. apply IH.
        destruct o; [exact S|now apply default_shaped].
      - destruct (member_type_good _ _ _ W Hm) as (q & i & F & T & Wt & G). specialize (IH Wt B). intros v S.
        rewrite !parse_class by reflexivity.
        apply (map_cong (fun v => shaped (TStruct si ms ps) v = true) _ _ k n j j' (kd_ok _ _ Hk)); auto.
        + intros. apply (scan_keeps (TStruct si ms ps) k0 v0 j0 v' W eq_refl); assumption.
        + intros w Sw. destruct (scan_known sc m marker _ w n j q i t W eq_refl Sw F T) as (x & Ex & Sx & ->).
          destruct (scan_known sc m marker _ w n j' q i t W eq_refl Sw F T) as (x' & Ex' & Sx' & ->). rewrite Ex in Ex'. injection Ex' as <-.
          do 2 eexists. split; [reflexivity|]. split; [reflexivity|]. apply E_bind. now apply IH.
      - destruct (wf_classes _ _ _ W Ht) as [_ Wt]. specialize (IH Wt B). intros v S. cbn [interp i_parse].
        unfold in_pointer. cbn [null_tree]. rewrite (sc_class k a c l Hk Ha), (sc_class k a c l' Hk Ha). cbn [bind].
        rewrite Hc, nth_error_map, Ht. cbn [option_map]. apply E_bind. apply IH. now apply default_shaped.
      - cbn [wf] in W. apply andb_prop in W as [W _]. destruct (wf_classes _ _ _ W Ht) as [_ Wt]. specialize (IH Wt B). intros v S. cbn [interp i_parse].
        rewrite (sc_class k a c l Hk Ha), (sc_class k a c l' Hk Ha). cbn [bind].
        rewrite Hc, nth_error_map, Ht. cbn [option_map]. apply E_bind. apply IH. now apply default_shaped.
    Qed.
  End Cong.
End PartP.
