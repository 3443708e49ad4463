(** Names a class requires, and the entries of maps. *)
From Coq Require Import ZArith List Bool Permutation Lia ZifyBool.
From Verif Require Import Model.Base Model.Number Model.ParserInterface Model.Types Spec.Json Spec.Typed
  Proofs.Induct Proofs.Sim Proofs.TreeM Proofs.TypedP Proofs.InterpP Proofs.PartP Proofs.DefinedP Proofs.MembersP Proofs.ModesP.
Import ListNotations.
Open Scope nat_scope.

Lemma no_over_names : forall i, match si_over i with [] => true | _ => false end = true ->
  map (nameOverride i) (si_names i) = si_names i.
Proof.
  intros i H. destruct (si_over i) as [|x r] eqn:E; [|discriminate H]. unfold nameOverride. rewrite E. cbn [lookup_name]. apply map_id.
Qed.
Lemma find_path_complete : forall t, forall q i n, name_at t q i = Some n -> find_path t n <> None.
Proof.
  refine (ty_strong _ _). intros t IH q i n H. destruct t as [| | | | | | | | | |si ms ps| |]; try (destruct q; discriminate H).
  cbn [find_path]. destruct (search (map find_path ps) n 0) as [p|] eqn:E; [discriminate|].
  destruct q as [|a q]; cbn [name_at] in H.
  - destruct (index_of n _) as [m|] eqn:E2; [discriminate|]. apply nth_error_In in H. now apply index_of_none in E2.
  - destruct (nth_error ps a) as [p|] eqn:Ep; [|discriminate H]. exfalso.
    refine (IH p _ q i n H _).
    + cbn [tsize]. assert (X := list_sum_nth ps a p Ep). lia.
    + apply (search_none _ _ _ E). apply List.in_map, (nth_error_In _ _ Ep).
Qed.
Lemma required_name : forall t n, no_override t = true -> (In n (required t) <-> exists q i, name_at t q i = Some n).
Proof.
  refine (ty_strong _ _). intros t IH n H.
  destruct t as [| | | | | | | | | |si ms ps| |]; try (split; [intros []|intros (q & i0 & E); destruct q; discriminate E]).
  cbn [no_override] in H. apply andb_prop in H as [H1 H2]. cbn [required]. rewrite in_app_iff, in_flat_map. split.
  - intros [Hn|(p & Hp & Hn)].
    + apply In_nth_error in Hn as [i Hn]. exists [], i. cbn [name_at]. now rewrite no_over_names.
    + rewrite forallb_forall in H2. apply (IH p) in Hn; [|cbn [tsize]; assert (X := list_sum_in ps p Hp); lia|auto].
      destruct Hn as (q & i & Hn). apply In_nth_error in Hp as [a Hp]. exists (a :: q), i. cbn [name_at]. now rewrite Hp.
  - intros (q & i & Hn). destruct q as [|a q]; cbn [name_at] in Hn.
    + left. rewrite no_over_names in Hn by exact H1. now apply nth_error_In in Hn.
    + right. destruct (nth_error ps a) as [p|] eqn:Ep; [|discriminate Hn]. exists p. split; [now apply nth_error_In in Ep|].
      apply IH; [cbn [tsize]; assert (X := list_sum_nth ps a p Ep); lia| |eauto].
      rewrite forallb_forall in H2. apply H2. now apply nth_error_In in Ep.
Qed.
Lemma existsb_In : forall n l, existsb (beq n) l = true <-> In n l.
Proof.
  intros n l. rewrite existsb_exists. split.
  - intros (x & Hx & E). apply beq_eq in E. now subst.
  - intros H. exists n. split; [exact H|apply beq_refl].
Qed.

(** ** Order of keys *)
Open Scope Z_scope.
Lemma bltb_trans : forall a b c, bltb a b = true -> bltb b c = true -> bltb a c = true.
Proof.
  induction a as [|x a IH]; intros [|y b] [|z c] H1 H2; try discriminate; try reflexivity. cbn [bltb] in *.
  apply orb_prop in H1 as [H1|H1]; apply orb_prop in H2 as [H2|H2]; apply orb_true_intro.
  - left; lia.
  - apply andb_prop in H2 as [H2 _]. left; lia.
  - apply andb_prop in H1 as [H1 _]. left; lia.
  - apply andb_prop in H1 as [H1 H1']. apply andb_prop in H2 as [H2 H2']. right. apply andb_true_intro. split; [lia|eauto].
Qed.
Lemma bltb_irr : forall a, bltb a a = false.
Proof. induction a as [|x a IH]; [reflexivity|]. cbn [bltb]. rewrite IH. lia. Qed.
Lemma bltb_total : forall a b, bltb a b = false -> beq b a = false -> bltb b a = true.
Proof.
  induction a as [|x a IH]; intros [|y b] H1 H2; try discriminate; try reflexivity. cbn [bltb beq] in *.
  destruct (Z.eq_dec x y) as [->|N].
  - rewrite !Z.eqb_refl in *. rewrite Z.ltb_irrefl in *. cbn [orb andb] in *. now apply IH.
  - apply orb_true_intro. left. lia.
Qed.
Lemma map_set_find : forall k v l, map_find k (map_set k v l) = Some v.
Proof.
  induction l as [|[a w] l IH]; cbn [map_set map_find]; [now rewrite beq_refl|]. destruct (beq a k) eqn:E; cbn [map_find]; [now rewrite E|].
  destruct (bltb k a); cbn [map_find]; [now rewrite beq_refl|now rewrite E].
Qed.
Lemma beq_sym : forall a b, beq a b = beq b a.
Proof.
  intros a b. destruct (beq a b) eqn:E.
  - apply beq_eq in E. subst. symmetry. apply beq_refl.
  - destruct (beq b a) eqn:F; [|reflexivity]. apply beq_eq in F. subst. now rewrite beq_refl in E.
Qed.
Lemma map_set_other : forall k n v l, n <> k -> map_find n (map_set k v l) = map_find n l.
Proof.
  intros k n v l N. assert (B : beq k n = false) by (destruct (beq k n) eqn:E; [apply beq_eq in E; congruence|reflexivity]).
  induction l as [|[a w] l IH]; cbn [map_set map_find]; [now rewrite B|]. destruct (beq a k) eqn:E; cbn [map_find].
  - apply beq_eq in E. subst a. now rewrite B.
  - destruct (bltb k a); cbn [map_find]; [now rewrite B|now rewrite IH].
Qed.
Lemma map_set_ordered : forall mk k v l, mk <> MAll -> ordered mk l -> ordered mk (map_set k v l).
Proof.
  intros mk k v l Nm H. assert (Pr : forall a b, precedes mk a b <-> bltb a b = true) by (intros; destruct mk; [reflexivity|reflexivity|congruence]). induction H as [|a w l Hl O IH]; cbn [map_set].
  - constructor; [intros ? ? []|constructor].
  - destruct (beq a k) eqn:E; [constructor; auto|]. destruct (bltb k a) eqn:L.
    + constructor; [|constructor; auto]. intros k' v' [Q|Q]; apply Pr; [injection Q as <- <-; exact L|]. eapply bltb_trans; [exact L|]. apply Pr. eauto.
    + constructor; [|exact IH]. intros k' v' Q. apply bltb_total in L; [|exact E].
      assert (G : k' = k \/ exists v0, In (k', v0) l).
      { clear -Q. induction l as [|[b y] l IH]; cbn [map_set] in Q.
        - destruct Q as [Q|[]]. injection Q as <- <-. auto.
        - destruct (beq b k) eqn:E; [|destruct (bltb k b)].
          + destruct Q as [Q|Q]; [injection Q as <- <-; right; exists y; now left|right; exists v'; now right].
          + destruct Q as [Q|Q]; [injection Q as <- <-; auto|right; eauto].
          + destruct Q as [Q|Q]; [injection Q as <- <-; right; exists y; now left|]. destruct (IH Q) as [G|[v0 G]]; [auto|right; exists v0; now right]. }
      destruct G as [->|[v0 G]]; [apply Pr; exact L|eauto].
Qed.
Lemma In_map_add : forall k v a w l, In (a, w) (map_add k v l) -> a = k /\ w = v \/ In (a, w) l.
Proof.
  intros k v a w. induction l as [|[b u] l IH]; cbn [map_add In]; [intros [E|[]]; injection E as <- <-; auto|]. destruct (bltb k b); cbn [In].
  - intros [E|H]; [injection E as <- <-; auto|auto].
  - intros [E|H]; [auto|]. destruct (IH H); auto.
Qed.
Lemma map_add_ordered : forall k v l, ordered MAll l -> ordered MAll (map_add k v l).
Proof.
  intros k v l H. induction H as [|a w l Hl O IH]; cbn [map_add].
  - constructor; [intros ? ? []|constructor].
  - destruct (bltb k a) eqn:L.
    + constructor; [|now constructor]. intros k' v' [Q|Q]; [injection Q as <- <-|]; cbn [precedes].
      * destruct (bltb a k) eqn:La; [|reflexivity]. assert (X := bltb_trans _ _ _ L La). now rewrite bltb_irr in X.
      * destruct (bltb k' k) eqn:Lk; [|reflexivity]. assert (X := Hl k' v' Q). cbn [precedes] in X. now rewrite (bltb_trans _ _ _ Lk L) in X.
    + constructor; [|exact IH]. intros k' v' Q. apply In_map_add in Q as [[-> ->]|Q]; [exact L|eauto].
Qed.
Lemma map_add_perm : forall k v l, Permutation (map_add k v l) (l ++ [(k, v)]).
Proof.
  intros k v. induction l as [|[a w] l IH]; cbn [map_add app]; [apply Permutation_refl|]. destruct (bltb k a); [apply (Permutation_cons_append ((a, w) :: l))|]. now apply perm_skip.
Qed.
Lemma map_add_same : forall n k v l, ordered MAll l -> filter (fun kv => beq (fst kv) n) (map_add k v l) = filter (fun kv => beq (fst kv) n) (l ++ [(k, v)]).
Proof.
  intros n k v l O. induction O as [|a w l Hl O IH]; [reflexivity|]. cbn [map_add app]. destruct (bltb k a) eqn:L.
  - destruct (beq k n) eqn:E.
    + assert (N : forall l', (forall k' v', In (k', v') l' -> bltb k' k = false /\ k' <> k) -> filter (fun kv : bytes * val => beq (fst kv) n) l' = []).
      { apply beq_eq in E. subst n. induction l' as [|[b y] l' IHl]; intro H; [reflexivity|]. cbn [filter fst]. destruct (beq b k) eqn:B; [apply beq_eq in B; destruct (H b y (or_introl eq_refl)); congruence|].
        apply IHl. intros. eapply H. right. eassumption. }
      assert (Na : forall k' v', In (k', v') ((a, w) :: l) -> bltb k' k = false /\ k' <> k).
      { intros k' v' [Q|Q]; [injection Q as <- <-|assert (X := Hl k' v' Q); cbn [precedes] in X].
        - split; [destruct (bltb a k) eqn:La; [|reflexivity]; assert (X := bltb_trans _ _ _ L La); now rewrite bltb_irr in X|]. intros ->. now rewrite bltb_irr in L.
        - split; [destruct (bltb k' k) eqn:Lk; [|reflexivity]; now rewrite (bltb_trans _ _ _ Lk L) in X|]. intros ->. congruence. }
      change ((a, w) :: l ++ [(k, v)]) with (((a, w) :: l) ++ [(k, v)]). rewrite filter_app. cbn [filter fst]. rewrite E. specialize (N _ Na). cbn [filter fst] in N. unfold bytes in *. rewrite N. reflexivity.
    + change ((a, w) :: l ++ [(k, v)]) with (((a, w) :: l) ++ [(k, v)]). rewrite filter_app. cbn [filter fst]. rewrite E, app_nil_r. reflexivity.
  - cbn [filter]. now rewrite IH.
Qed.
Lemma add_all : forall es o, let o' := fold_left (fun o kv => map_add (fst kv) (snd kv) o) es o in Permutation o' (o ++ es) /\
  (ordered MAll o -> ordered MAll o' /\ forall n, filter (fun kv => beq (fst kv) n) o' = filter (fun kv => beq (fst kv) n) (o ++ es)).
Proof.
  cbv zeta. induction es as [|[k v] es IH]; intro o; cbn [fold_left fst snd]; [rewrite app_nil_r; auto|]. destruct (IH (map_add k v o)) as [P Q]. split.
  - etransitivity; [exact P|]. etransitivity; [apply Permutation_app_tail, map_add_perm|]. rewrite <- app_assoc. reflexivity.
  - intro O. destruct (Q (map_add_ordered k v o O)) as [Q1 Q2]. split; [exact Q1|]. intro n. rewrite Q2, !filter_app, map_add_same by exact O. rewrite filter_app, <- app_assoc, <- filter_app. reflexivity.
Qed.
Lemma map_add_other : forall k n v l, n <> k -> map_find n (map_add k v l) = map_find n l.
Proof.
  intros k n v l N. assert (B : beq k n = false) by (destruct (beq k n) eqn:E; [apply beq_eq in E; congruence|reflexivity]).
  induction l as [|[a w] l IH]; cbn [map_add map_find]; [now rewrite B|]. destruct (bltb k a); cbn [map_find]; [now rewrite B|now rewrite IH].
Qed.
Open Scope nat_scope.

Section Maps.
  Context {A : Type} (sc : scal_ops A) (m : strictness) (marker : bytes) (t : ty) (W : wf t = true).
  Notation I := (interp sc m marker).
  Notation rd fw := (in_members sc m (in_scan_map fw (I t) (default t))).
  Notation all l := (forallb (fun kv => shaped t (snd kv)) l = true).
  Notation absent n l := (forall key j, In (key, j) l -> sc_key sc key <> Ok n).

  Lemma scan_map_step : forall fw n o j v', in_scan_map fw (I t) (default t) n (VMap o) j = Some (Ok v') -> all o ->
    exists o', v' = VMap o' /\ all o' /\ (ordered fw o -> ordered fw o') /\ (forall n', n' <> n -> map_find n' o' = map_find n' o) /\
      (fw = MPlace -> exists x x', shaped t x = true /\ i_parse (I t) x j = Ok x' /\ map_find n o' = Some x') /\
      (fw = MFirst -> (forall y, map_find n o = Some y -> map_find n o' = Some y) /\
         (map_find n o = None -> exists x', i_parse (I t) (default t) j = Ok x' /\ map_find n o' = Some x')) /\
      (fw = MAll -> exists x', i_parse (I t) (default t) j = Ok x' /\ o' = map_add n x' o).
  Proof.
    intros fw n o j v' H S. cbn [in_scan_map] in H. destruct fw; injection H as H; apply bind_ok in H as (x & Hx & H); injection H as <-.
    - assert (Sx : shaped t x = true) by (eapply (reading_keeps_shape sc m marker t W); [apply default_shaped; exact W|exact Hx]).
      destruct (map_find n o) as [y|] eqn:F.
      + exists o. split; [reflexivity|]. split; [exact S|]. split; [auto|]. split; [auto|]. split; [discriminate|]. split; [|discriminate]. intros _. split; [congruence|discriminate].
      + exists (map_set n x o). split; [reflexivity|]. split; [now apply map_set_shaped|]. split; [apply map_set_ordered; discriminate|].
        split; [intros; now apply map_set_other|]. split; [discriminate|]. split; [|discriminate]. intros _. split; [congruence|]. intros _. exists x. split; [exact Hx|apply map_set_find].
    - assert (S0 : shaped t (match map_find n o with Some x => x | None => default t end) = true).
      { destruct (map_find n o) as [y|] eqn:F; [eapply map_find_shaped; eassumption|now apply default_shaped]. }
      assert (Sx : shaped t x = true) by (eapply (reading_keeps_shape sc m marker t W); eassumption).
      exists (map_set n x o). split; [reflexivity|]. split; [now apply map_set_shaped|]. split; [apply map_set_ordered; discriminate|].
      split; [intros; now apply map_set_other|]. split; [|split; discriminate]. intros _. eexists _, x. split; [exact S0|]. split; [exact Hx|apply map_set_find].
    - assert (Sx : shaped t x = true) by (eapply (reading_keeps_shape sc m marker t W); [apply default_shaped; exact W|exact Hx]).
      exists (map_add n x o). split; [reflexivity|]. split; [now apply map_add_shaped|]. split; [apply map_add_ordered|].
      split; [intros; now apply map_add_other|]. split; [discriminate|]. split; [discriminate|]. intros _. exists x. auto.
  Qed.
  Lemma map_run : forall fw l o found v' f', all o -> rd fw (VMap o) found l = Ok (v', f') ->
    exists o', v' = VMap o' /\ all o' /\ (ordered fw o -> ordered fw o') /\
      (forall n, absent n l -> map_find n o' = map_find n o) /\
      (fw = MFirst -> forall n y, map_find n o = Some y -> map_find n o' = Some y).
  Proof.
    induction l as [|[key j] l IH]; intros o found v' f' S E; cbn [in_members] in E.
    - injection E as <- <-. exists o. auto.
    - apply bind_ok in E as (n0 & En & E). destruct (in_scan_map fw (I t) (default t) n0 (VMap o) j) as [r|] eqn:Es.
      2:{ cbn [in_scan_map] in Es. destruct fw; discriminate Es. }
      apply bind_ok in E as (v1 & -> & E). destruct (scan_map_step fw n0 o j v1 Es S) as (o1 & -> & S1 & O1 & Fo & _ & Ft & _).
      destruct (IH _ _ _ _ S1 E) as (o' & -> & S' & O' & Fa & Fk). exists o'. split; [reflexivity|]. split; [exact S'|]. split; [auto|]. split.
      + intros n Ha. rewrite Fa; [|intros; eapply Ha; right; eassumption]. apply Fo. intros ->. apply (Ha key j (or_introl eq_refl) En).
      + intros -> n y Hy. apply Fk; [reflexivity|]. destruct (list_eq_dec Z.eq_dec n n0) as [->|N]; [now apply (proj1 (Ft eq_refl))|now rewrite Fo].
  Qed.
  Lemma map_run_app : forall fw a l o found v' f', all o -> rd fw (VMap o) found (a ++ l) = Ok (v', f') ->
    exists o1 f1, rd fw (VMap o) found a = Ok (VMap o1, f1) /\ rd fw (VMap o1) f1 l = Ok (v', f').
  Proof.
    induction a as [|[key j] a IH]; intros l o found v' f' S E; cbn [app in_members] in E |- *; [eauto|].
    apply bind_ok in E as (n0 & En & E). rewrite En. cbn [bind]. destruct (in_scan_map fw (I t) (default t) n0 (VMap o) j) as [r|] eqn:Es.
    2:{ cbn [in_scan_map] in Es. destruct fw; discriminate Es. }
    apply bind_ok in E as (v1 & -> & E). destruct (scan_map_step fw n0 o j v1 Es S) as (o1 & -> & S1 & _). cbn [bind].
    exact (IH _ _ _ _ _ S1 E).
  Qed.
  Lemma map_last : forall a key n j b o v' f', all o -> sc_key sc key = Ok n -> absent n b ->
    rd MPlace (VMap o) [] (a ++ (key, j) :: b) = Ok (v', f') ->
    exists o' x x', v' = VMap o' /\ shaped t x = true /\ i_parse (I t) x j = Ok x' /\ map_find n o' = Some x'.
  Proof.
    intros a key n j b o v' f' S Hk Hb E. destruct (map_run_app _ _ _ _ _ _ _ S E) as (o1 & f1 & E1 & E2).
    destruct (map_run _ _ _ _ _ _ S E1) as (o1' & Q & S1 & _). injection Q as <-.
    cbn [in_members] in E2. rewrite Hk in E2. cbn [bind] in E2. destruct (in_scan_map MPlace (I t) (default t) n (VMap o1) j) as [r|] eqn:Es; [|discriminate Es].
    apply bind_ok in E2 as (v1 & -> & E2). destruct (scan_map_step MPlace n o1 j v1 Es S1) as (o2 & -> & S2 & _ & _ & Ff & _).
    destruct (Ff eq_refl) as (x & x' & Sx & Hx & F2). destruct (map_run _ _ _ _ _ _ S2 E2) as (o' & -> & _ & _ & Fa & _).
    exists o', x, x'. rewrite (Fa n Hb). auto.
  Qed.
  Lemma map_first : forall a key n j b o v' f', all o -> sc_key sc key = Ok n -> absent n a -> map_find n o = None ->
    rd MFirst (VMap o) [] (a ++ (key, j) :: b) = Ok (v', f') ->
    exists o' x', v' = VMap o' /\ i_parse (I t) (default t) j = Ok x' /\ map_find n o' = Some x'.
  Proof.
    intros a key n j b o v' f' S Hk Ha Hn E. destruct (map_run_app _ _ _ _ _ _ _ S E) as (o1 & f1 & E1 & E2).
    destruct (map_run _ _ _ _ _ _ S E1) as (o1' & Q & S1 & _ & Fa & _). injection Q as <-. rewrite <- (Fa n Ha) in Hn.
    cbn [in_members] in E2. rewrite Hk in E2. cbn [bind] in E2. destruct (in_scan_map MFirst (I t) (default t) n (VMap o1) j) as [r|] eqn:Es; [|discriminate Es].
    apply bind_ok in E2 as (v1 & -> & E2). destruct (scan_map_step MFirst n o1 j v1 Es S1) as (o2 & -> & S2 & _ & _ & _ & Ft & _).
    destruct (Ft eq_refl) as [_ Ff]. destruct (Ff Hn) as (x' & Hx & F2). destruct (map_run _ _ _ _ _ _ S2 E2) as (o' & -> & _ & _ & _ & Fk).
    exists o', x'. rewrite (Fk eq_refl n x' F2). auto.
  Qed.
  (** A multimap: all entries are added. *)
  Lemma multi_run : forall l o found v' f', all o -> rd MAll (VMap o) found l = Ok (v', f') ->
    exists es, Forall2 (fun e kv => sc_key sc (fst e) = Ok (fst kv) /\ i_parse (I t) (default t) (snd e) = Ok (snd kv)) l es /\
      v' = VMap (fold_left (fun o kv => map_add (fst kv) (snd kv) o) es o).
  Proof.
    induction l as [|[key j] l IH]; intros o found v' f' S E; cbn [in_members] in E.
    - injection E as <- <-. exists []. split; [constructor|reflexivity].
    - apply bind_ok in E as (n0 & En & E). destruct (in_scan_map MAll (I t) (default t) n0 (VMap o) j) as [r|] eqn:Es; [|discriminate Es].
      apply bind_ok in E as (v1 & -> & E). destruct (scan_map_step MAll n0 o j v1 Es S) as (o1 & -> & S1 & _ & _ & _ & _ & Fa).
      destruct (Fa eq_refl) as (x & Hx & ->). destruct (IH _ _ _ _ S1 E) as (es & F & Ev). exists ((n0, x) :: es). split; [constructor; auto|exact Ev].
  Qed.
  Lemma overwritten_same : forall x y j, overwritten t = true -> i_parse (I t) x j = i_parse (I t) y j.
  Proof. intros x y j H. destruct t; try discriminate H; reflexivity. Qed.
End Maps.
