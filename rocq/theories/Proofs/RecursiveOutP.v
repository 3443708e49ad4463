(** Proofs about classes that refer to themselves: writing. *)
From Coq Require Import ZArith List Bool Lia.
From Verif Require Import Model.Base Model.Number Model.Printer Model.JsonPrinter Model.Types Model.Serializer Model.Exporter Model.BsonPrinter Model.BsonDoc Model.Recursive
  Spec.Recursive Proofs.Induct Proofs.RecursiveP.
Import ListNotations.
Open Scope Z_scope.

Section Out.
  Context {St : Type} (ops : printer_ops St) (marker : bytes).
  Notation ser := (ser ops marker).
  (** Two printers that do the same with a value. *)
  Record same (f g : sfun St) (v : val) : Prop := {
    sm_print : forall s, sf_print f v s = sf_print g v s;
    sm_poly : forall s, sf_poly f v s = sf_poly g v s;
    sm_members : forall s, sf_members f v s = sf_members g v s;
    sm_size : forall b s, sf_size f b v s = sf_size g b v s;
    sm_total : forall a s, sf_total f v a s = sf_total g v a s }.
  Definition sames n (f g : sfun St) : Prop := forall v, (levels v < n)%nat -> same f g v.
  Lemma same_refl : forall f v, same f f v. Proof. intros. split; reflexivity. Qed.
  Lemma then_ext : forall (a a' b b' : writer St), (forall s, a s = a' s) -> (forall s, b s = b' s) -> forall s, w_then a b s = w_then a' b' s.
  Proof. intros a a' b b' Ha Hb s. unfold w_then. rewrite Ha. destruct (a' s) as [[c s1]| | |]; try reflexivity. cbn [bind]. rewrite Hb. reflexivity. Qed.
  Lemma sized_ext : forall o cl z z' (b b' : writer St), (forall s, z s = z' s) -> (forall s, b s = b' s) -> forall s, sized ops o cl z b s = sized ops o cl z' b' s.
  Proof.
    intros o cl z z' b b' Hz Hb s. unfold sized. rewrite Hz. destruct (if pr_usesSize ops then z' s else Ok 0) as [x| | |]; try reflexivity. cbn [bind]. apply then_ext; [reflexivity|]. apply then_ext; [exact Hb|reflexivity].
  Qed.
  Lemma in_max : forall {A} (f : A -> nat) n l, (list_max (map f l) < n)%nat -> Forall (fun x => (f x < n)%nat) l.
  Proof. intros A f n l. induction l as [|x l IH]; intro H; [constructor|]. cbn [map list_max fold_right] in H. constructor; [lia|apply IH; unfold list_max; lia]. Qed.

  Lemma elems_ext : forall n f g l, sames n f g -> Forall (fun x => (levels x < n)%nat) l -> (forall s, put_elems f l s = put_elems g l s) /\ (forall s, size_elems ops f l s = size_elems ops g l s).
  Proof.
    intros n f g l H L. split.
    - unfold put_elems, w_all. induction L as [|x l Lx _ IH]; [reflexivity|]. cbn [map fold_right]. apply then_ext; [apply (H x Lx)|exact IH].
    - intro s. unfold size_elems. assert (E : map (fun v => sf_size f false v (pr_push ops false s)) l = map (fun v => sf_size g false v (pr_push ops false s)) l); [|rewrite E; reflexivity].
      induction L as [|x l Lx _ IH]; [reflexivity|]. cbn [map]. rewrite IH, (sm_size _ _ _ (H x Lx)). reflexivity.
  Qed.
  Lemma entries_ext : forall n f g l, sames n f g -> Forall (fun kv => (levels (snd kv) < n)%nat) l -> (forall s, put_entries ops f l s = put_entries ops g l s) /\ (forall s, size_entries ops f l s = size_entries ops g l s).
  Proof.
    intros n f g l H L. split.
    - unfold put_entries, w_all. induction L as [|x l Lx _ IH]; [reflexivity|]. cbn [map fold_right]. apply then_ext; [|exact IH]. apply then_ext; [reflexivity|apply (H (snd x) Lx)].
    - intro s. unfold size_entries. set (F := fun h => fun kv : bytes * val => do a <- sf_size h false (snd kv) (pr_push ops true s); Ok (zlen (fst kv) + a)).
      assert (E : map (F f) l = map (F g) l); [|exact (f_equal (fun x => do z <- sum_sizes x; Ok (pr_szMap ops (zlen l) s + z)) E)].
      induction L as [|x l Lx _ IH]; [reflexivity|]. cbn [map]. rewrite IH. unfold F at 1 3. rewrite (sm_size _ _ _ (H (snd x) Lx)). reflexivity.
  Qed.
  Lemma tuple_ext : forall n fs gs, Forall2 (sames n) fs gs -> forall l, Forall (fun x => (levels x < n)%nat) l -> (forall s, put_tuple fs l s = put_tuple gs l s) /\ (forall s, size_tuple fs l s = size_tuple gs l s).
  Proof.
    intros n fs gs H. induction H as [|f g fs gs Hf _ IH]; intros l L; [split; reflexivity|]. destruct L as [|x l Lx L]; [split; reflexivity|]. destruct (IH l L) as [I1 I2]. cbn [put_tuple size_tuple]. split.
    - apply then_ext; [apply (Hf x Lx)|exact I1].
    - intro s. rewrite (sm_size _ _ _ (Hf x Lx)), I2. reflexivity.
  Qed.
  Lemma members_ext : forall n fs gs, Forall2 (sames n) fs gs -> forall ns os l, Forall (fun x => (levels x < n)%nat) l ->
    (forall s, put_members ops ns os fs l s = put_members ops ns os gs l s) /\ (forall s, size_members ops ns os fs l s = size_members ops ns os gs l s) /\ (forall s, size_pair_members ns fs l s = size_pair_members ns gs l s).
  Proof.
    intros n fs gs H. induction H as [|f g fs gs Hf _ IH]; intros ns os l L; [split; [reflexivity|split; reflexivity]|]. destruct ns as [|k ns]; [split; [reflexivity|split; reflexivity]|].
    assert (Q : forall s, size_pair_members (k :: ns) (f :: fs) l s = size_pair_members (k :: ns) (g :: gs) l s).
    { intro s. destruct L as [|x l Lx L]; [reflexivity|]. cbn [size_pair_members]. rewrite (sm_size _ _ _ (Hf x Lx)). destruct (IH ns os l L) as (_ & _ & I3). rewrite I3. reflexivity. }
    destruct os as [|o os]; [split; [reflexivity|split; [reflexivity|exact Q]]|]. destruct L as [|x l Lx L]; [split; [reflexivity|split; [reflexivity|exact Q]]|]. destruct (IH ns os l L) as (I1 & I2 & _). cbn [put_members size_members]. split; [|split; [|exact Q]].
    - apply then_ext; [|exact I1]. destruct (Serializer.keeps o x); [|reflexivity]. apply then_ext; [reflexivity|apply (Hf x Lx)].
    - intro s. rewrite (sm_size _ _ _ (Hf x Lx)), I2. reflexivity.
  Qed.
  Lemma parents_ext : forall n fs gs, Forall2 (sames n) fs gs -> forall l, Forall (fun x => (levels x < n)%nat) l -> (forall s, put_parents fs l s = put_parents gs l s) /\ (forall z a s, total_parents fs l z a s = total_parents gs l z a s).
  Proof.
    intros n fs gs H. induction H as [|f g fs gs Hf _ IH]; intros l L; [split; reflexivity|]. destruct L as [|x l Lx L]; [split; reflexivity|]. destruct (IH l L) as [I1 I2]. cbn [put_parents total_parents]. split.
    - apply then_ext; [apply (Hf x Lx)|exact I1].
    - intros z a s. rewrite (sm_total _ _ _ (Hf x Lx)). destruct (sf_total g x a s) as [[r b]| | |]; try reflexivity. cbn [bind]. apply I2.
  Qed.
  Lemma class_ext : forall n i ms ms' ps ps', map opt_type ms = map opt_type ms' -> Forall2 (sames n) (map ser ms) (map ser ms') -> Forall2 (sames n) (map ser ps) (map ser ps') -> sames (S n) (ser (TStruct i ms ps)) (ser (TStruct i ms' ps')).
  Proof.
    intros n i ms ms' ps ps' Eo Hm Hp v L.
    assert (Pt : forall s, put_struct ops i (map opt_type ms) (map ser ms) (map ser ps) v s = put_struct ops i (map opt_type ms') (map ser ms') (map ser ps') v s).
    { rewrite <- Eo. destruct v as [z|b|b|b|b|b|b|own par|b b']; try reflexivity. cbn [levels] in L. assert (Lo := in_max levels n own ltac:(lia)). assert (Lp := in_max levels n par ltac:(lia)). unfold put_struct. apply then_ext; [apply (members_ext n _ _ Hm); exact Lo|apply (parents_ext n _ _ Hp); exact Lp]. }
    assert (Tt : forall a s, total_struct ops i (map opt_type ms) (map ser ms) (map ser ps) v a s = total_struct ops i (map opt_type ms') (map ser ms') (map ser ps') v a s).
    { intros a s. rewrite <- Eo. destruct v as [z|b|b|b|b|b|b|own par|b b']; try reflexivity. cbn [levels] in L. assert (Lo := in_max levels n own ltac:(lia)). assert (Lp := in_max levels n par ltac:(lia)). unfold total_struct. rewrite (proj1 (proj2 (members_ext n _ _ Hm _ _ _ Lo))).
      destruct (size_members ops _ _ (map ser ms') own (pr_push ops true s)) as [[sz cnt]| | |]; try reflexivity. cbn [bind]. destruct Hp as [|f g fs gs Hf Hp]; [reflexivity|]. apply (parents_ext n (f :: fs) (g :: gs)); [constructor; assumption|exact Lp]. }
    assert (Sz : forall poly s, (if si_pair i then size_pair ops i (map ser ms) v s else size_struct ops marker i (total_struct ops i (map opt_type ms) (map ser ms) (map ser ps)) poly v s) =
                                (if si_pair i then size_pair ops i (map ser ms') v s else size_struct ops marker i (total_struct ops i (map opt_type ms') (map ser ms') (map ser ps')) poly v s)).
    { intros poly s. destruct (si_pair i).
      - destruct v as [z|b|b|b|b|b|b|own par|b b']; try reflexivity. cbn [levels] in L. assert (Lo := in_max levels n own ltac:(lia)). unfold size_pair. rewrite (proj2 (proj2 (members_ext n _ _ Hm _ [] _ Lo))). reflexivity.
      - unfold size_struct. cbv zeta. rewrite Tt. reflexivity. }
    split; cbn [Serializer.ser sf_print sf_poly sf_members sf_size sf_total].
    - apply sized_ext; [apply Sz|]. apply then_ext; [reflexivity|exact Pt].
    - apply sized_ext; [apply Sz|]. apply then_ext; [reflexivity|exact Pt].
    - exact Pt.
    - exact Sz.
    - exact Tt.
  Qed.
  Lemma sames_S : forall n f g, sames (S n) f g -> sames n f g.
  Proof. intros n f g H v L. apply H. lia. Qed.
  Lemma opts_fill : forall s s' l, opt_type s = opt_type s' -> map opt_type (map (fill s) l) = map opt_type (map (fill s') l).
  Proof. intros s s' l E. rewrite !map_map. apply map_ext. intro r. destruct r; try reflexivity. exact E. Qed.
  Lemma mkSv_same : forall p p' z z' v, (forall s, p v s = p' v s) -> (forall b s, z b v s = z' b v s) -> same (mkSv p z) (mkSv p' z') v.
  Proof. intros p p' z z' v Hp Hz. split; cbn [mkSv sf_print sf_poly sf_members sf_size sf_total]; first [exact Hp|exact Hz|reflexivity]. Qed.

  Lemma fill_same : forall n s s', opt_type s = opt_type s' -> sames n (ser s) (ser s') -> forall r, sames n (ser (fill s r)) (ser (fill s' r)).
  Proof.
    intros n s s' Eo Hs. induction r as [|t|co r IH|k r IH|rs IH|b r IH|r IH|r IH|i ms0 ps IHm IHp|cs o IH|cs IH] using rty_ind'; cbn [fill].
    - exact Hs.
    - intros v _. apply same_refl.
    - intros v L. cbn [Serializer.ser]. destruct v as [z|x|x|l|x|x|x|own par|x x']; try (apply mkSv_same; reflexivity). cbn [levels] in L. apply in_max in L. destruct (elems_ext n _ _ l IH L) as [E1 E2].
      apply mkSv_same; [|intros _; exact E2]. apply sized_ext; [exact E2|exact E1].
    - intros v L. cbn [Serializer.ser]. destruct v as [z|x|x|l|x|x|x|own par|x x']; try (apply mkSv_same; reflexivity). cbn [levels] in L. apply in_max in L. destruct (elems_ext n _ _ l IH L) as [E1 E2].
      apply mkSv_same; [|intros _; exact E2]. destruct (Nat.eqb (length l) k); [|reflexivity]. apply sized_ext; [exact E2|exact E1].
    - intros v L. cbn [Serializer.ser]. destruct v as [z|x|x|l|x|x|x|own par|x x']; try (apply mkSv_same; reflexivity). cbn [levels] in L. apply in_max in L.
      assert (H2 : Forall2 (sames n) (map ser (map (fill s) rs)) (map ser (map (fill s') rs))) by (rewrite !map_map; apply Forall2_map2; exact IH).
      destruct (tuple_ext n _ _ H2 l L) as [E1 E2]. assert (E3 : forall z : bool, forall s0, (do z <- size_tuple (map ser (map (fill s) rs)) l (pr_push ops false s0); Ok (pr_szArray ops (zlen (map (fill s) rs)) s0 + z)) = (do z <- size_tuple (map ser (map (fill s') rs)) l (pr_push ops false s0); Ok (pr_szArray ops (zlen (map (fill s') rs)) s0 + z))).
      { intros _ s0. rewrite E2. unfold zlen. rewrite !map_length. reflexivity. }
      apply mkSv_same; [|exact E3]. apply sized_ext; [exact (E3 true)|exact E1].
    - intros v L. cbn [Serializer.ser]. destruct v as [z|x|x|x|l|x|x|own par|x x']; try (apply mkSv_same; reflexivity). cbn [levels] in L. apply in_max in L. destruct (entries_ext n _ _ l IH L) as [E1 E2].
      apply mkSv_same; [|intros _; exact E2]. apply sized_ext; [exact E2|exact E1].
    - intros v L. cbn [Serializer.ser]. destruct v as [z|x|x|x|x|[x|]|x|own par|x x']; try (apply mkSv_same; reflexivity). cbn [levels] in L. apply mkSv_same; [apply (IH x L)|intros _; apply (IH x L)].
    - intros v L. cbn [Serializer.ser]. destruct v as [z|x|x|x|x|x|[x|]|own par|x x']; try (apply mkSv_same; reflexivity). cbn [levels] in L. apply mkSv_same; apply (IH x L).
    - apply sames_S. apply class_ext; [apply opts_fill; exact Eo| |]; rewrite !map_map; apply Forall2_map2; assumption.
    - intros v L. cbn [Serializer.ser]. destruct v as [z|x|x|x|x|[y|]|x|own par|x x']; try (apply mkSv_same; reflexivity). destruct y as [z|x|x|x|x|x|x|own par|k x]; try (apply mkSv_same; reflexivity). cbn [levels] in L. rewrite !map_map.
      apply mkSv_same; [intro s0|intros _ s0]; rewrite !nth_map; (destruct (nth_error cs k) as [rk|] eqn:Nk; [|reflexivity]); cbn [option_map]; rewrite Forall_forall in IH; apply (IH rk (nth_error_In _ _ Nk) x L).
    - intros v L. cbn [Serializer.ser]. destruct v as [z|x|x|x|x|x|x|own par|k x]; try (apply mkSv_same; reflexivity). cbn [levels] in L. rewrite !map_map.
      apply mkSv_same; [intro s0|intros bb s0]; rewrite !nth_map; (destruct (nth_error cs k) as [rk|] eqn:Nk; [|reflexivity]); cbn [option_map]; rewrite Forall_forall in IH; apply (IH rk (nth_error_In _ _ Nk) x L).
  Qed.
  Lemma guarded_not_self : forall i ms ps, guarded (RClass i ms ps) = true -> forall s s', map opt_type (map (fill s) ms) = map opt_type (map (fill s') ms).
  Proof.
    intros i ms ps G s s'. cbn [guarded] in G. apply andb_prop in G. destruct G as [G _]. rewrite forallb_forall in G. rewrite !map_map. apply map_ext_in. intros r Hr. specialize (G r Hr). destruct r; try reflexivity. discriminate G.
  Qed.
  Lemma unroll_same : forall i ms ps, guarded (RClass i ms ps) = true -> forall stop stop' n k, (n <= k)%nat -> sames n (ser (unroll i ms ps stop n)) (ser (unroll i ms ps stop' k)).
  Proof.
    intros i ms ps G stop stop'. induction n as [|n IH]; intros k L; [intros v Lv; lia|]. destruct k as [|k]; [lia|]. cbn [unroll fill]. specialize (IH k ltac:(lia)).
    apply class_ext; [eapply guarded_not_self; exact G| |]; rewrite !map_map; apply Forall2_map2; apply Forall_forall; intros r _; (destruct n as [|n]; [intros v Lv; lia|]); (destruct k as [|k]; [lia|]); apply fill_same; auto; reflexivity.
  Qed.
End Out.

Lemma json_export_unroll : forall c k i ms ps stop stop' n m v, guarded (RClass i ms ps) = true -> (levels v < n)%nat -> (levels v < m)%nat ->
  json_export c k (unroll i ms ps stop n) v = json_export c k (unroll i ms ps stop' m) v.
Proof.
  intros c k i ms ps stop stop' n m v G Ln Lm.
  assert (E : json_pass c (unroll i ms ps stop n) v = json_pass c (unroll i ms ps stop' m) v).
  { unfold json_pass. destruct (Nat.le_gt_cases n m) as [L|L].
    - rewrite (sm_print _ _ _ (unroll_same (json_printer c) (pf_marker c) i ms ps G stop stop' n m L v Ln)). reflexivity.
    - rewrite (sm_print _ _ _ (unroll_same (json_printer c) (pf_marker c) i ms ps G stop' stop m n ltac:(lia) v Lm)). reflexivity. }
  unfold json_export. f_equal. destruct k; unfold json_to_stream, json_to_string; rewrite E; reflexivity.
Qed.
Lemma bson_export_unroll : forall c k proj ids i ms ps stop stop' n m v, guarded (RClass i ms ps) = true -> (levels v < n)%nat -> (levels v < m)%nat ->
  bson_export c k proj ids (unroll i ms ps stop n) v = bson_export c k proj ids (unroll i ms ps stop' m) v.
Proof.
  intros c k proj ids i ms ps stop stop' n m v G Ln Lm.
  assert (E : forall s, pass_with (bson_printer proj ids) proj (pf_marker c) (unroll i ms ps stop n) v s = pass_with (bson_printer proj ids) proj (pf_marker c) (unroll i ms ps stop' m) v s).
  { intro s. unfold pass_with. assert (R : bson_root (unroll i ms ps stop n) = bson_root (unroll i ms ps stop' m)) by (destruct n; [lia|]; destruct m; [lia|]; reflexivity). rewrite R. destruct (Nat.le_gt_cases n m) as [L|L].
    - rewrite (sm_print _ _ _ (unroll_same (bson_printer proj ids) (pf_marker c) i ms ps G stop stop' n m L v Ln)). reflexivity.
    - rewrite (sm_print _ _ _ (unroll_same (bson_printer proj ids) (pf_marker c) i ms ps G stop' stop m n ltac:(lia) v Lm)). reflexivity. }
  assert (Nr : null_root (unroll i ms ps stop n) v = null_root (unroll i ms ps stop' m) v) by (destruct n; [lia|]; destruct m; [lia|]; reflexivity).
  unfold bson_export, export_with. rewrite Nr. destruct k; unfold to_stream_with, to_string_with; rewrite E; [reflexivity|].
  destruct (pass_with (bson_printer proj ids) proj (pf_marker c) (unroll i ms ps stop' m) v bp_init) as [[o1 s1]| | |]; try reflexivity. cbn [bind]. rewrite E. reflexivity.
Qed.
