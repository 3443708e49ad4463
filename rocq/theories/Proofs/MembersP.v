(** Reading the members of an object and the elements of an array. *)
From Coq Require Import ZArith List Bool Lia ZifyBool Permutation.
From Verif Require Import Model.Base Model.Number Model.ParserInterface Model.Types Spec.Json Spec.Typed
  Proofs.Induct Proofs.Sim Proofs.TreeM Proofs.TypedP Proofs.InterpP Proofs.PartP Proofs.DefinedP.
Import ListNotations.
Open Scope nat_scope.

Lemma list_ext : forall {X} (a b : list X), (forall n, nth_error a n = nth_error b n) -> a = b.
Proof.
  induction a as [|x a IH]; intros [|y b] H; try reflexivity; try (specialize (H 0); discriminate H).
  assert (H0 := H 0). cbn in H0. injection H0 as ->. f_equal. apply IH. intro n. exact (H (S n)).
Qed.

Section Members.
  Context {A : Type} (sc : scal_ops A) (m : strictness) (marker : bytes).
  Notation I := (interp sc m marker).

  Section Class.
    Variables (t : ty) (W : wf t = true) (C : is_class t = true).
    Notation scan := (i_scan (I t)).
    Notation rd := (in_members sc m scan).

    Lemma scan_P : forall k v j v', shaped t v = true -> scan k v j = Some (Ok v') -> shaped t v' = true.
    Proof. intros. eapply (scan_keeps sc m marker t); eassumption. Qed.

    (** A member that is skipped might as well not be there. *)
    Lemma members_drop : forall k n j, sc_key sc k = Ok n -> find_path t n = None -> m = Weak -> skippable sc j = true ->
      forall a b v found, shaped t v = true -> rd v found (a ++ (k, j) :: b) = rd v found (a ++ b).
    Proof.
      intros k n j Hk Hn Hm Hj. induction a as [|[k0 j0] a IH]; intros b v found S; cbn [app in_members].
      - rewrite Hk. cbn [bind]. rewrite (scan_unknown sc m marker t v n j W C S Hn), Hj. now rewrite Hm.
      - destruct (sc_key sc k0) as [n0| | |]; try reflexivity. cbn [bind]. destruct (scan n0 v j0) as [o|] eqn:Es.
        + destruct o as [v1| | |]; try reflexivity. cbn [bind]. apply IH. eapply scan_P; eassumption.
        + destruct m; try reflexivity. destruct (skippable sc j0); [|reflexivity]. now apply IH.
    Qed.

    (** An unknown member is refused when the mode is not Weak. *)
    Lemma members_unknown : forall k n j, sc_key sc k = Ok n -> find_path t n = None -> m <> Weak ->
      forall l, In (k, j) l -> forall v found r, shaped t v = true -> rd v found l <> Ok r.
    Proof.
      intros k n j Hk Hn Hm. induction l as [|[k0 j0] l IH]; intros Hin v found r S E; [destruct Hin|].
      cbn [in_members] in E. apply bind_ok in E as (n0 & En & E). destruct Hin as [Hq|Hin].
      - injection Hq as -> ->. rewrite Hk in En. injection En as <-. rewrite (scan_unknown sc m marker t v n j W C S Hn) in E.
        destruct m; congruence.
      - destruct (scan n0 v j0) as [o|] eqn:Es.
        + apply bind_ok in E as (v1 & -> & E). eapply (IH Hin v1); [|exact E]. eapply scan_P; eassumption.
        + destruct m; congruence.
    Qed.

    (** The names found. *)
    Lemma members_found : forall l v found v' found', shaped t v = true -> rd v found l = Ok (v', found') ->
      (forall n, In n found' <-> In n found \/ exists k j, In (k, j) l /\ sc_key sc k = Ok n /\ find_path t n <> None).
    Proof.
      induction l as [|[k j] l IH]; intros v found v' found' S E n; cbn [in_members] in E.
      - injection E as <- <-. split; [auto|]. intros [H|(k & j & [] & _)]. exact H.
      - apply bind_ok in E as (n0 & En & E). destruct (find_path t n0) as [[q i]|] eqn:F.
        + destruct (find_path_good t n0 q i W F) as (tm & T & _).
          destruct (scan_known sc m marker t v n0 j q i tm W C S F T) as (x & Ex & Sx & Es). rewrite Es in E.
          apply bind_ok in E as (v1 & E1 & E). rewrite E1 in Es. assert (S1 := scan_P _ _ _ _ S Es).
          rewrite (IH _ _ _ _ S1 E n). cbn [In]. split.
          * intros [[<-|H]|(k1 & j1 & H1 & H2)]; [|now left|].
            -- right. exists k, j. split; [now left|]. split; [exact En|congruence].
            -- right. exists k1, j1. split; [now right|exact H2].
          * intros [H|(k1 & j1 & [H1|H1] & H2 & H3)]; [now left; right| |right; eauto].
            injection H1 as <- <-. rewrite En in H2. injection H2 as <-. now left; left.
        + rewrite (scan_unknown sc m marker t v n0 j W C S F) in E. destruct m; try discriminate E.
          destruct (skippable sc j); [|discriminate E]. rewrite (IH _ _ _ _ S E n). split.
          * intros [H|(k1 & j1 & H1 & H2)]; [now left|]. right. exists k1, j1. split; [now right|exact H2].
          * intros [H|(k1 & j1 & [H1|H1] & H2 & H3)]; [now left| |right; eauto].
            injection H1 as <- <-. rewrite En in H2. injection H2 as <-. congruence.
    Qed.

    (** Members that no key leads to are left alone. *)
    Lemma members_untouched : forall p l v found v' found', shaped t v = true ->
      (forall k j n, In (k, j) l -> sc_key sc k = Ok n -> find_path t n <> Some p) ->
      rd v found l = Ok (v', found') -> field v' (fst p) (snd p) = field v (fst p) (snd p).
    Proof.
      intros p. induction l as [|[k j] l IH]; intros v found v' found' S H E; cbn [in_members] in E.
      - now injection E as <- <-.
      - apply bind_ok in E as (n0 & En & E). assert (H' := fun k j n Hi => H k j n (or_intror Hi)).
        destruct (find_path t n0) as [[q i]|] eqn:F.
        + destruct (find_path_good t n0 q i W F) as (tm & T & _).
          destruct (scan_known sc m marker t v n0 j q i tm W C S F T) as (x & Ex & Sx & Es). rewrite Es in E.
          apply bind_ok in E as (v1 & E1 & E). rewrite E1 in Es. assert (S1 := scan_P _ _ _ _ S Es).
          rewrite (IH _ _ _ _ S1 H' E). apply bind_ok in E1 as (x' & _ & E1). injection E1 as <-.
          apply field_set_other. intro Q. apply (H k j n0 (or_introl eq_refl) En). rewrite F. destruct p. now rewrite Q.
        + rewrite (scan_unknown sc m marker t v n0 j W C S F) in E. destruct m; try discriminate E.
          destruct (skippable sc j); [|discriminate E]. exact (IH _ _ _ _ S H' E).
    Qed.
    (** A member that one key leads to is read from the value it had. *)
    Lemma members_present : forall q i tm k j n a b v found v' found' x, shaped t v = true ->
      sc_key sc k = Ok n -> find_path t n = Some (q, i) -> type_at t q i = Some tm -> field v q i = Some x ->
      (forall k' j' n', In (k', j') (a ++ b) -> sc_key sc k' = Ok n' -> find_path t n' <> Some (q, i)) ->
      rd v found (a ++ (k, j) :: b) = Ok (v', found') ->
      exists x', i_parse (I tm) x j = Ok x' /\ field v' q i = Some x'.
    Proof.
      intros q i tm k j n. induction a as [|[k0 j0] a IH]; intros b v found v' found' x S Hk F T Ex H E; cbn [app in_members] in E.
      - rewrite Hk in E. cbn [bind] in E. destruct (scan_known sc m marker t v n j q i tm W C S F T) as (x0 & Ex0 & Sx & Es).
        rewrite Ex in Ex0. injection Ex0 as <-. rewrite Es in E. apply bind_ok in E as (v1 & E1 & E). rewrite E1 in Es.
        assert (S1 := scan_P _ _ _ _ S Es). apply bind_ok in E1 as (x' & E1 & E2). injection E2 as <-. exists x'. split; [exact E1|].
        assert (U := members_untouched (q, i) _ _ _ _ _ S1 H E). cbn [fst snd] in U. rewrite U. eapply field_set_same; eassumption.
      - apply bind_ok in E as (n0 & En & E).
        assert (H' : forall k' j' n', In (k', j') (a ++ b) -> sc_key sc k' = Ok n' -> find_path t n' <> Some (q, i))
          by (intros k' j' n' Hi; apply (H k' j' n'); now right).
        destruct (find_path t n0) as [[q0 i0]|] eqn:F0.
        + destruct (find_path_good t n0 q0 i0 W F0) as (tm0 & T0 & _).
          destruct (scan_known sc m marker t v n0 j0 q0 i0 tm0 W C S F0 T0) as (x0 & Ex0 & Sx & Es). rewrite Es in E.
          apply bind_ok in E as (v1 & E1 & E). rewrite E1 in Es. assert (S1 := scan_P _ _ _ _ S Es).
          apply bind_ok in E1 as (x1 & _ & E1). injection E1 as <-.
          eapply IH; [exact S1|exact Hk|exact F|exact T| |exact H'|exact E]. rewrite field_set_other; [exact Ex|].
          intro Q. apply (H k0 j0 n0 (or_introl eq_refl) En). now rewrite F0, Q.
        + rewrite (scan_unknown sc m marker t v n0 j0 W C S F0) in E. destruct m; try discriminate E.
          destruct (skippable sc j0); [|discriminate E]. eapply IH; eassumption.
    Qed.

    (** The order of members with different names does not matter. *)
    Lemma members_swap : forall k1 j1 k2 j2 l v found r, shaped t v = true -> sc_key sc k1 <> sc_key sc k2 ->
      rd v found ((k1, j1) :: (k2, j2) :: l) = Ok r ->
      exists v' found', shaped t v' = true /\ rd v' found' l = Ok r /\
        exists found'', Permutation found' found'' /\ rd v found ((k2, j2) :: (k1, j1) :: l) = rd v' found'' l.
    Proof.
      intros k1 j1 k2 j2 l v found r S Hne E. cbn [in_members] in *.
      apply bind_ok in E as (n1 & En1 & E). rewrite En1 in *. cbn [bind] in *.
      destruct (find_path t n1) as [[q1 i1]|] eqn:F1.
      - destruct (find_path_good t n1 q1 i1 W F1) as (tm1 & T1 & Wt1 & G1).
        destruct (scan_known sc m marker t v n1 j1 q1 i1 tm1 W C S F1 T1) as (x1 & Ex1 & Sx1 & Es1). rewrite Es1 in E.
        apply bind_ok in E as (v1 & E1 & E). rewrite E1 in Es1. assert (S1 := scan_P _ _ _ _ S Es1).
        apply bind_ok in E1 as (x1' & P1 & E1). injection E1 as <-.
        apply bind_ok in E as (n2 & En2 & E). rewrite En2 in *. cbn [bind] in *.
        destruct (find_path t n2) as [[q2 i2]|] eqn:F2.
        + destruct (find_path_good t n2 q2 i2 W F2) as (tm2 & T2 & Wt2 & G2).
          assert (Dif : (q1, i1) <> (q2, i2)).
          { intro Q. injection Q as -> ->. apply find_path_name in F1, F2. congruence. }
          destruct (scan_known sc m marker t _ n2 j2 q2 i2 tm2 W C S1 F2 T2) as (x2 & Ex2 & Sx2 & Es2). rewrite Es2 in E.
          apply bind_ok in E as (v2 & E2 & E). rewrite E2 in Es2. assert (S2 := scan_P _ _ _ _ S1 Es2).
          apply bind_ok in E2 as (x2' & P2 & E2). injection E2 as <-.
          rewrite field_set_other in Ex2 by exact Dif.
          exists (set_field (set_field v q1 i1 x1') q2 i2 x2'), (n2 :: n1 :: found). split; [exact S2|]. split; [exact E|].
          exists (n1 :: n2 :: found). split; [constructor|].
          destruct (scan_known sc m marker t v n2 j2 q2 i2 tm2 W C S F2 T2) as (y2 & Ey2 & Sy2 & ->).
          rewrite Ex2 in Ey2. injection Ey2 as <-. rewrite P2. cbn [bind].
          assert (S3 : shaped t (set_field v q2 i2 x2') = true).
          { destruct (G2 v S) as (z & Ez & _ & K). apply K. eapply reading_keeps_shape; eassumption. }
          destruct (scan_known sc m marker t _ n1 j1 q1 i1 tm1 W C S3 F1 T1) as (y1 & Ey1 & Sy1 & ->).
          rewrite field_set_other in Ey1 by congruence. rewrite Ex1 in Ey1. injection Ey1 as <-. rewrite P1. cbn [bind].
          now rewrite set_field_comm by congruence.
        + rewrite (scan_unknown sc m marker t _ n2 j2 W C S1 F2) in E. rewrite (scan_unknown sc m marker t _ n2 j2 W C S F2).
          destruct m; try discriminate E. destruct (skippable sc j2); [|discriminate E].
          exists (set_field v q1 i1 x1'), (n1 :: found). split; [exact S1|]. split; [exact E|]. exists (n1 :: found). split; [reflexivity|].
          now rewrite Es1.
      - rewrite (scan_unknown sc m marker t _ n1 j1 W C S F1) in E.
        destruct m eqn:Em; try discriminate E. destruct (skippable sc j1) eqn:K1; [|discriminate E].
        apply bind_ok in E as (n2 & En2 & E). rewrite En2 in *. cbn [bind] in *.
        destruct (find_path t n2) as [[q2 i2]|] eqn:F2.
        + destruct (find_path_good t n2 q2 i2 W F2) as (tm2 & T2 & Wt2 & G2).
          destruct (scan_known sc Weak marker t _ n2 j2 q2 i2 tm2 W C S F2 T2) as (x2 & Ex2 & Sx2 & Es2). rewrite Es2 in *.
          apply bind_ok in E as (v2 & E2 & E). rewrite E2 in Es2. assert (S2 := scan_keeps sc Weak marker t _ _ _ _ W C S Es2).
          exists v2, (n2 :: found). split; [exact S2|]. split; [exact E|]. exists (n2 :: found). split; [reflexivity|].
          rewrite E2. cbn [bind]. now rewrite (scan_unknown sc Weak marker t _ n1 j1 W C S2 F1).
        + rewrite (scan_unknown sc Weak marker t _ n2 j2 W C S F2) in *. destruct (skippable sc j2) eqn:K2; [|discriminate E].
          exists v, found. split; [exact S|]. split; [exact E|]. exists found. split; [reflexivity|].
          now rewrite (scan_unknown sc Weak marker t _ n1 j1 W C S F1).
    Qed.
    Lemma members_found_perm : forall l v f1 f2 v' f1', rd v f1 l = Ok (v', f1') -> Permutation f1 f2 ->
      exists f2', rd v f2 l = Ok (v', f2') /\ Permutation f1' f2'.
    Proof.
      induction l as [|[k j] l IH]; intros v f1 f2 v' f1' E P; cbn [in_members] in *.
      - injection E as <- <-. eauto.
      - apply bind_ok in E as (n & -> & E). cbn [bind]. destruct (scan n v j) as [o|].
        + apply bind_ok in E as (v1 & -> & E). cbn [bind]. eapply IH; [exact E|now constructor].
        + destruct m; try discriminate E. destruct (skippable sc j); [|discriminate E]. eapply IH; eassumption.
    Qed.
    Theorem members_perm : forall l l', Permutation l l' -> NoDup (map (fun kv => sc_key sc (fst kv)) l) ->
      forall v f v' f1, shaped t v = true -> rd v f l = Ok (v', f1) ->
      exists f2, rd v f l' = Ok (v', f2) /\ Permutation f1 f2.
    Proof.
      induction 1 as [|[k j] l l' P IH|[k1 j1] [k2 j2] l|l l1 l2 P1 IH1 P2 IH2]; intros N v f v' f1 S E.
      - eauto.
      - cbn [map fst] in N. inversion N as [|? ? _ N']; subst. cbn [in_members] in *.
        apply bind_ok in E as (n & -> & E). cbn [bind]. destruct (scan n v j) as [o|] eqn:Es.
        + apply bind_ok in E as (v1 & -> & E). cbn [bind]. eapply IH; [exact N'| |exact E]. eapply scan_P; eassumption.
        + destruct m; try discriminate E. destruct (skippable sc j); [|discriminate E]. eapply IH; eassumption.
      - cbn [map fst] in N. inversion N as [|? ? N1 N']; subst.
        destruct (members_swap k2 j2 k1 j1 l v f (v', f1) S) as (w & g & Sw & E1 & g' & Pg & E2); [|exact E|].
        + intro Q. apply N1. left. now symmetry.
        + rewrite E2. eapply members_found_perm; eassumption.
      - destruct (IH1 N v f v' f1 S E) as (f2 & E2 & Q2).
        assert (N' : NoDup (map (fun kv => sc_key sc (fst kv)) l1)) by (eapply Permutation_NoDup; [|exact N]; now apply Permutation_map).
        destruct (IH2 N' v f v' f2 S E2) as (f3 & E3 & Q3). exists f3. split; [exact E3|]. now rewrite Q2.
    Qed.
    Theorem class_perm : forall l l' v v', Permutation l l' -> NoDup (map (fun kv => sc_key sc (fst kv)) l) -> shaped t v = true ->
      i_parse (I t) v (Obj l) = Ok v' -> i_parse (I t) v (Obj l') = Ok v'.
    Proof.
      intros l l' v v' P N S E. rewrite parse_class in * by exact C. cbn [in_map] in *. apply bind_ok in E as ([w f] & E1 & E2).
      destruct (members_perm l l' P N v [] w f S E1) as (f2 & -> & Q). cbn [bind].
      destruct m; auto. assert (X : forallb (fun r => existsb (beq r) f2) (required t) = forallb (fun r => existsb (beq r) f) (required t)).
      { clear -Q. induction (required t) as [|r l IH]; [reflexivity|]. cbn [forallb]. rewrite IH. f_equal.
        apply eq_true_iff_eq. rewrite !existsb_exists. split; intros (x & Hx & Bx); exists x; (split; [|exact Bx]);
          [symmetry in Q|]; eapply Permutation_in; eassumption. }
      now rewrite X.
    Qed.
  End Class.

  (** ** Elements *)
  Lemma elems_seq : forall co t l i old v', @in_elems A (in_elem_vec co (I t) (default t)) i (VList old) l = Ok v' <->
    exists new, v' = VList (fold_left (seq_add co) new old) /\ Forall2 (fun j x => i_parse (I t) (default t) j = Ok x) l new.
  Proof.
    intros co t. induction l as [|j l IH]; intros i old v'; cbn [in_elems].
    - split.
      + intro E. injection E as <-. exists []. auto.
      + intros (new & -> & F). inversion F; subst. reflexivity.
    - cbn [in_elem_vec]. split.
      + intro E. apply bind_ok in E as (w & E1 & E). apply bind_ok in E1 as (x & E1 & E2). injection E2 as <-.
        apply IH in E as (new & -> & F). exists (x :: new). auto.
      + intros (new & -> & F). inversion F as [|? x ? new' E1 F']; subst. rewrite E1. cbn [bind]. apply IH.
        exists new'. auto.
  Qed.
  Lemma fold_back : forall new old, fold_left (seq_add CBack) new old = old ++ new.
  Proof. induction new as [|x new IH]; intros old; cbn [fold_left]; [now rewrite app_nil_r|]. rewrite IH. cbn [seq_add]. now rewrite <- app_assoc. Qed.
  Lemma elems_vec : forall t l i old v', @in_elems A (in_elem_vec CBack (I t) (default t)) i (VList old) l = Ok v' <->
    exists new, v' = VList (old ++ new) /\ Forall2 (fun j x => i_parse (I t) (default t) j = Ok x) l new.
  Proof. intros t l i old v'. rewrite elems_seq. split; intros (new & -> & F); exists new; (split; [|exact F]); now rewrite fold_back. Qed.
  (** Element [i + n] is read into position [i + n]; the others stay. *)
  Lemma elems_fixed : forall ts l i old v', i + length l <= length ts -> length old = length ts ->
    @in_elems A (in_elem_fixed (map I ts)) i (VList old) l = Ok v' <->
    exists new, v' = VList new /\ length new = length old /\
      (forall n, n < i \/ i + length l <= n -> nth_error new n = nth_error old n) /\
      (forall n j t x, nth_error l n = Some j -> nth_error ts (i + n) = Some t -> nth_error old (i + n) = Some x ->
         exists x', i_parse (I t) x j = Ok x' /\ nth_error new (i + n) = Some x').
  Proof.
    intros ts. induction l as [|j l IH]; intros i old v' H L; cbn [in_elems].
    - split.
      + intro E. injection E as <-. exists old. repeat split; auto. intros [|n] j; discriminate.
      + intros (new & -> & L' & F & _). f_equal. f_equal. apply list_ext. intro n. symmetry. apply F.
        cbn. lia.
    - cbn [length] in H. assert (Hi : i < length ts) by lia. destruct (nth_error ts i) as [t|] eqn:Et; [|apply nth_error_None in Et; lia].
      destruct (nth_error old i) as [x|] eqn:Ex; [|apply nth_error_None in Ex; lia].
      cbn [in_elem_fixed]. rewrite nth_error_map, Et, Ex. cbn [option_map]. split.
      + intro E. apply bind_ok in E as (w & E1 & E). apply bind_ok in E1 as (x' & E1 & E2). injection E2 as <-.
        apply IH in E; [|lia|now rewrite set_nth_len]. destruct E as (new & -> & L' & F & G). exists new. rewrite set_nth_len in L'.
        split; [reflexivity|]. split; [exact L'|]. split.
        * intros n Hn. cbn [length] in Hn. rewrite F by lia. apply set_nth_other. lia.
        * intros [|n] j0 t0 x0 Hj Ht0 Hx0; cbn [nth_error] in Hj.
          -- rewrite Nat.add_0_r in *. injection Hj as <-. rewrite Et in Ht0. rewrite Ex in Hx0. injection Ht0 as <-. injection Hx0 as <-.
             exists x'. split; [exact E1|]. rewrite F by lia. apply set_nth_same. lia.
          -- rewrite <- Nat.add_succ_comm in *. apply (G n j0 t0 x0 Hj Ht0). rewrite set_nth_other by lia. exact Hx0.
      + intros (new & -> & L' & F & G). destruct (G 0 j t x eq_refl) as (x' & E1 & Nx); [now rewrite Nat.add_0_r|now rewrite Nat.add_0_r|].
        rewrite E1. cbn [bind]. apply IH; [lia|now rewrite set_nth_len|]. exists new. split; [reflexivity|]. rewrite set_nth_len. split; [exact L'|].
        rewrite Nat.add_0_r in Nx. split.
        * intros n Hn. destruct (Nat.eq_dec n i) as [->|Hne].
          -- rewrite Nx. symmetry. apply set_nth_same. lia.
          -- rewrite set_nth_other by lia. apply F. cbn [length]. lia.
        * intros n j0 t0 x0 Hj Ht0 Hx0. cbn [Nat.add] in *. rewrite set_nth_other in Hx0 by lia. 
          destruct (G (S n) j0 t0 x0 Hj) as (y & Ey & Ny); [now rewrite Nat.add_succ_r|now rewrite Nat.add_succ_r|]. exists y. split; [exact Ey|].
          now rewrite Nat.add_succ_r in Ny.
  Qed.
End Members.
