(** Values that differ in their numbers only have the same documents, up to the numbers. *)
From Coq Require Import ZArith List Bool Lia ZifyBool.
From Verif Require Import Model.Base Model.Number Model.Types Model.Float Spec.Json Spec.Typed Spec.Denotes Spec.Float Proofs.Induct Proofs.OrderP Proofs.TypedP.
Import ListNotations.
Open Scope Z_scope.

Section Alike.
  Context (R : ity -> Z -> Z -> Prop).
  Notation K := (alike R).
  Lemma alike_left_out : forall t v w, K t v w -> (left_out t v <-> left_out t w).
  Proof.
    intros t v w H. unfold left_out. split; intros [(t' & ->) E]; subst; (split; [eauto|]); cbn [alike] in H.
    - destruct w as [| | | | | |[]| |]; congruence.
    - destruct v as [| | | | | |[]| |]; congruence.
  Qed.
  Lemma alike_null : forall t v w, K t v w -> null_written t v = null_written t w.
  Proof.
    apply (ty_ind' (fun t => forall v w, K t v w -> null_written t v = null_written t w)); try reflexivity.
    - intros t IH v w H. destruct v as [| | | | |[]| | |], w as [| | | | |[]| | |]; cbn [alike null_written] in *; try congruence. auto.
    - intros t IH v w H. destruct v as [| | | | | |[]| |], w as [| | | | | |[]| |]; cbn [alike null_written] in *; try congruence. auto.
    - intros cs o _ v w H. destruct v as [| | | | |[[]|]| | |], w as [| | | | |[[]|]| | |]; cbn [alike null_written] in *; try congruence; try reflexivity.
  Qed.
  Lemma rel3_all2b : forall ts, Forall (fun t => forall v w, K t v w -> shaped t v = shaped t w) ts ->
    forall l m, rel3 (map K ts) l m -> all2b (map shaped ts) l = all2b (map shaped ts) m.
  Proof.
    intros ts F. induction F as [|t ts Ht F IH]; intros [|x l] [|y m] H; cbn [map rel3 all2b] in *; try contradiction; [reflexivity|]. destruct H as [H1 H2].
    now rewrite (Ht x y H1), (IH l m H2).
  Qed.
  Lemma alike_shaped : forall t v w, K t v w -> shaped t v = shaped t w.
  Proof.
    assert (FL : forall t, (forall v w, K t v w -> shaped t v = shaped t w) -> forall l m, Forall2 (K t) l m -> forallb (shaped t) l = forallb (shaped t) m /\ length l = length m).
    { intros t IH l m F. induction F as [|x y l m Hx F [I1 I2]]; [auto|]. cbn. now rewrite (IH x y Hx), I1, I2. }
    apply (ty_ind' (fun t => forall v w, K t v w -> shaped t v = shaped t w)).
    - intros i v w H. destruct v, w; cbn [alike] in H; try contradiction. reflexivity.
    - intros v w H. cbn [alike] in H. congruence.
    - intros v w H. cbn [alike] in H. congruence.
    - intros l v w H. cbn [alike] in H. congruence.
    - intros co t IH v w H. destruct v, w; cbn [alike] in H; try reflexivity; try discriminate H; try (rewrite H; reflexivity). exact (proj1 (FL t IH _ _ H)).
    - intros n t IH v w H. destruct v, w; cbn [alike] in H; try reflexivity; try discriminate H; try (rewrite H; reflexivity). destruct (FL t IH _ _ H) as [E1 E2]. cbn [shaped]. now rewrite E1, E2.
    - intros ts IH v w H. destruct v, w; cbn [alike] in H; try reflexivity; try discriminate H; try (rewrite H; reflexivity). cbn [shaped]. now apply rel3_all2b.
    - intros b t IH v w H. destruct v, w; cbn [alike] in H; try reflexivity; try discriminate H; try (rewrite H; reflexivity). cbn [shaped]. induction H as [|x y l m [_ Hx] F I]; [reflexivity|]. cbn. now rewrite (IH _ _ Hx), I.
    - intros t IH v w H. destruct v as [| | | | |[]| | |], w as [| | | | |[]| | |]; cbn [alike] in H; try reflexivity; try discriminate H; try (rewrite H; reflexivity). cbn [shaped]. auto.
    - intros t IH v w H. destruct v as [| | | | | |[]| |], w as [| | | | | |[]| |]; cbn [alike] in H; try reflexivity; try discriminate H; try (rewrite H; reflexivity). cbn [shaped]. auto.
    - intros i ms ps Hm Hp v w H. destruct v, w; cbn [alike] in H; try reflexivity; try discriminate H; try (rewrite H; reflexivity). destruct H as [H1 H2]. cbn [shaped]. now rewrite (rel3_all2b _ Hm _ _ H1), (rel3_all2b _ Hp _ _ H2).
    - intros cs o IH v w H. destruct v as [| | | | |[[]|]| | |], w as [| | | | |[[]|]| | |]; cbn [alike] in H; try reflexivity; try discriminate H; try (rewrite H; reflexivity). destruct H as [<- H]. cbn [shaped].
      rewrite nth_error_map in *. destruct (nth_error cs i) as [c|] eqn:E; [|contradiction]. cbn in *. rewrite Forall_forall in IH. exact (IH c (nth_error_In _ _ E) _ _ H).
    - intros cs IH v w H. destruct v, w; cbn [alike] in H; try reflexivity; try discriminate H; try (rewrite H; reflexivity). destruct H as [<- H]. cbn [shaped].
      rewrite nth_error_map in *. destruct (nth_error cs i) as [c|] eqn:E; [|contradiction]. cbn in *. rewrite Forall_forall in IH. exact (IH c (nth_error_In _ _ E) _ _ H).
  Qed.
  Theorem each_alike : forall (P Q : ty -> val -> Prop), (forall t v w, wf t = true -> K t v w -> P t v -> Q t w) -> forall t v w, wf t = true -> K t v w -> each P t v -> each Q t w.
  Proof.
    intros P Q H.
    assert (G : forall ts, Forall (fun t => forall v w, wf t = true -> K t v w -> each P t v -> each Q t w) ts -> forallb wf ts = true -> forall l m, rel3 (map K ts) l m -> rel2 (map (each P) ts) l -> rel2 (map (each Q) ts) m).
    { intros ts F. induction F as [|t ts Ht F IH]; intros W [|x l] [|y m] A E; cbn [map rel3 rel2] in *; try contradiction; [exact I|]. cbn [forallb] in W. apply andb_prop in W as [W1 W2]. destruct A, E. eauto. }
    assert (FL : forall t, wf t = true -> (forall v w, wf t = true -> K t v w -> each P t v -> each Q t w) -> forall l m, Forall2 (K t) l m -> Forall (each P t) l -> Forall (each Q t) m).
    { intros t W IH l m F. induction F as [|x y l m Hx F I1]; intro E; [constructor|]. inversion E; subst. constructor; eauto. }
    apply (ty_ind' (fun t => forall v w, wf t = true -> K t v w -> each P t v -> each Q t w)).
    - intros i v w W A [E1 E2]. split; [exact (H _ _ _ W A E1)|exact I].
    - intros v w W A [E1 E2]. split; [exact (H _ _ _ W A E1)|exact I].
    - intros v w W A [E1 E2]. split; [exact (H _ _ _ W A E1)|exact I].
    - intros l v w W A [E1 E2]. split; [exact (H _ _ _ W A E1)|exact I].
    - intros co t IH v w W A [E1 E2]. split; [exact (H _ _ _ W A E1)|]. apply wf_seq in W. destruct v, w; cbn [alike] in A; try discriminate A; try exact I. eauto.
    - intros n t IH v w W A [E1 E2]. split; [exact (H _ _ _ W A E1)|]. destruct v, w; cbn [alike] in A; try discriminate A; try exact I. eauto.
    - intros ts IH v w W A [E1 E2]. split; [exact (H _ _ _ W A E1)|]. destruct v, w; cbn [alike] in A; try discriminate A; try exact I. eauto.
    - intros b t IH v w W A [E1 E2]. split; [exact (H _ _ _ W A E1)|]. destruct v, w; cbn [alike] in A; try discriminate A; try exact I. clear E1.
      induction A as [|x y l m [_ Hx] F I1]; [constructor|]. inversion E2; subst. constructor; eauto.
    - intros t IH v w W A [E1 E2]. split; [exact (H _ _ _ W A E1)|]. destruct v as [| | | | |[]| | |], w as [| | | | |[]| | |]; cbn [alike] in A; try discriminate A; try exact I. eauto.
    - intros t IH v w W A [E1 E2]. split; [exact (H _ _ _ W A E1)|]. destruct v as [| | | | | |[]| |], w as [| | | | | |[]| |]; cbn [alike] in A; try discriminate A; try exact I. eauto.
    - intros i ms ps Hm Hp v w W A [E1 E2]. split; [exact (H _ _ _ W A E1)|]. destruct v, w; cbn [alike] in A; try discriminate A; try exact I. destruct A, E2.
      destruct (wf_struct _ _ _ W) as (_ & Wm & Wp). split; [refine (G ms Hm _ _ _ _ _)|refine (G ps Hp _ _ _ _ _)]; eauto; apply forallb_forall; [exact Wm|]. intros x Hx. now apply Wp.
    - intros cs o IH v w W A [E1 E2]. split; [exact (H _ _ _ W A E1)|]. destruct v as [| | | | |[[]|]| | |], w as [| | | | |[[]|]| | |]; cbn [alike] in A; try discriminate A; try exact I. destruct A as [<- A]. cbn [wf] in W.
      rewrite nth_error_map in *. destruct (nth_error cs i) as [c|] eqn:E; [|contradiction]. cbn [option_map] in *. rewrite Forall_forall in IH. refine (IH c (nth_error_In _ _ E) _ _ _ A E2).
      try apply andb_prop in W as [W _]. rewrite forallb_forall in W. specialize (W c (nth_error_In _ _ E)). now apply andb_prop in W.
    - intros cs IH v w W A [E1 E2]. split; [exact (H _ _ _ W A E1)|]. destruct v, w; cbn [alike] in A; try discriminate A; try exact I. destruct A as [<- A]. cbn [wf] in W.
      rewrite nth_error_map in *. destruct (nth_error cs i) as [c|] eqn:E; [|contradiction]. cbn [option_map] in *. rewrite Forall_forall in IH. refine (IH c (nth_error_In _ _ E) _ _ _ A E2).
      try apply andb_prop in W as [W _]. rewrite forallb_forall in W. specialize (W c (nth_error_In _ _ E)). now apply andb_prop in W.
  Qed.
  Lemma alike_complete : forall t v w, wf t = true -> K t v w -> complete t v -> complete t w.
  Proof.
    apply each_alike. intros t v w _ A. destruct t; auto. destruct v, w; cbn [alike] in A; try congruence; auto. destruct A as [A _]. revert ms own own0 A.
    induction ms as [|t ms IH]; intros [|x l] [|y m] A B; cbn [map rel3 rel2] in *; try contradiction; [exact I|]. destruct A as [A1 A2], B as [B1 B2]. split; [|eauto].
    intro L. apply B1. now apply (alike_left_out t x y A1).
  Qed.
  Lemma alike_no_null : forall t v w, wf t = true -> K t v w -> no_null_target t v -> no_null_target t w.
  Proof.
    apply each_alike. intros t v w _ A. destruct t; auto. destruct v as [| | | | |[]| | |], w as [| | | | |[]| | |]; cbn [alike] in A; try congruence; auto. now rewrite (alike_null _ _ _ A).
  Qed.
  (** Keys are equal. *)
  Lemma alike_key : (forall i a b, i <> ILLong -> i <> IULLong -> R i a b -> a = b) -> forall t, is_key t = true -> forall v w, K t v w -> v = w.
  Proof.
    intro HR.
    assert (FL : forall t, (forall v w, K t v w -> v = w) -> forall l m, Forall2 (K t) l m -> l = m).
    { intros t IH l m F. induction F; f_equal; auto. }
    assert (GL : forall ts, Forall (fun t => is_key t = true -> forall v w, K t v w -> v = w) ts -> forallb is_key ts = true -> forall l m, rel3 (map K ts) l m -> l = m).
    { intros ts F. induction F as [|t ts Ht F IH]; intros W [|x l] [|y m] A; cbn [map rel3] in *; try contradiction; [reflexivity|]. cbn [forallb] in W. apply andb_prop in W as [W1 W2]. destruct A. f_equal; auto. }
    apply (ty_ind' (fun t => is_key t = true -> forall v w, K t v w -> v = w)); try discriminate; cbn [is_key].
    - intros i W v w A. destruct v, w; cbn [alike] in A; try contradiction. f_equal. apply (HR i); [destruct i; discriminate..|exact A].
    - intros W v w A. exact A.
    - intros W v w A. exact A.
    - intros l W v w A. exact A.
    - intros co t IH W v w A. destruct v, w; cbn [alike] in A; try exact A. f_equal. eauto.
    - intros n t IH W v w A. destruct v, w; cbn [alike] in A; try exact A. f_equal. eauto.
    - intros ts IH W v w A. destruct v, w; cbn [alike] in A; try exact A. f_equal. eauto.
    - intros t IH W v w A. destruct v as [| | | | | |[]| |], w as [| | | | | |[]| |]; cbn [alike] in A; try exact A. do 2 f_equal. eauto.
    - intros i ms ps Hm Hp W v w A. destruct v, w; cbn [alike] in A; try exact A. destruct A as [A1 A2]. apply andb_prop in W as [W1 W2]. destruct ps as [|]; [|destruct ms as [|? [|? []]]; discriminate W1].
      cbn [map] in A2. f_equal; [exact (GL ms Hm W2 _ _ A1)|]. revert A2. destruct parents, parents0; cbn [rel3]; intro A2; try contradiction; reflexivity.
  Qed.
  Lemma each_before_keys : forall (f : val -> val) (Q : val -> val -> Prop) l m, Forall2 (fun a b => f a = f b) l m -> each_before (fun x y => Q (f x) (f y)) l -> each_before (fun x y => Q (f x) (f y)) m.
  Proof.
    intros f Q l m F. induction F as [|x y l m E F IH]; intro H; [constructor|]. inversion H as [|? ? H1 H2]; subst. constructor; [|auto]. clear -E F H1. rewrite <- E. induction F as [|a b l m Ea F IH]; [constructor|].
    inversion H1; subst. constructor; [now rewrite <- Ea|auto].
  Qed.
  Lemma alike_order : (forall i a b, i <> ILLong -> i <> IULLong -> R i a b -> a = b) -> forall co t l m, seq_elem co t = true -> Forall2 (K t) l m -> in_order co l -> in_order co m.
  Proof.
    intros HR co t l m E F. assert (E1 : is_key t = true -> l = m) by (intro Kt; clear -HR F Kt; induction F; f_equal; auto; eapply alike_key; eauto).
    assert (E2 : is_pair t && match t with TStruct _ (k :: _) _ => is_key k | _ => false end = true -> forall co', co' = CMap \/ co' = CMultimap -> Forall2 (fun a b => key_of co' a = key_of co' b) l m).
    { intros G co' Hco. apply andb_prop in G as [_ G]. clear -HR F G Hco. destruct t as [| | | | | | | | | |i ms ps| |]; try discriminate G. destruct ms as [|k ms]; [discriminate G|].
      induction F as [|x y l m A F IH]; constructor; [|exact IH]. destruct x, y; cbn [alike] in A; try (rewrite A; reflexivity). destruct A as [A1 A2]. destruct own as [|x own], own0 as [|y own0]; cbn [map rel3] in A1; try contradiction.
      destruct A1 as [A0 A1]. apply (alike_key HR k G) in A0. subst y. destruct Hco as [->| ->]; reflexivity. }
    destruct co; cbn [seq_elem in_order] in *; auto.
    - rewrite (E1 E). auto.
    - rewrite (E1 E). auto.
    - apply (each_before_keys (key_of CMap) (fun a b => val_cmp a b = Lt)). apply E2; auto.
    - apply (each_before_keys (key_of CMultimap) (fun a b => val_cmp a b <> Gt)). apply E2; auto.
  Qed.
  Lemma alike_keys : forall l m : list (bytes * val), Forall2 (fun a b => fst a = fst b) l m -> map fst l = map fst m.
  Proof. intros l m F. induction F as [|x y l m H F IH]; [reflexivity|]. cbn. congruence. Qed.

  (** The documents of [v] are documents of a value like [v]. *)
  Context {A : Type} (Int Int' : ity -> Z -> A -> Prop) (HI : forall i z a, Int i z a -> exists z', R i z z' /\ Int' i z' a).
  Context (Bool : bool -> A -> Prop) (Str Tag : bytes -> A -> Prop) (Null : A -> Prop) (Key : bytes -> bytes -> Prop) (marker : bytes).
  Notation D := (sense_of Int Bool Str Tag Null Key marker).
  Notation D' := (sense_of Int' Bool Str Tag Null Key marker).
  Definition similar (t : ty) : Prop :=
    (forall v j, d_val (D t) v j -> exists w, K t v w /\ d_val (D' t) w j) /\ (forall v l, d_members (D t) v l -> exists w, K t v w /\ d_members (D' t) w l).
  Theorem sense_alike : forall t, similar t.
  Proof.
    assert (FL : forall t, similar t -> forall l js, Forall2 (d_val (D t)) l js -> exists m, Forall2 (K t) l m /\ Forall2 (d_val (D' t)) m js).
    { intros t [IH _] l js F. induction F as [|x j l js Hx F (m & I1 & I2)]; [exists []; split; constructor|]. destruct (IH _ _ Hx) as (w & W1 & W2). exists (w :: m). split; constructor; auto. }
    assert (GL : forall ts, Forall similar ts -> forall l js, rel3 (map d_val (map D ts)) l js -> exists m, rel3 (map K ts) l m /\ rel3 (map d_val (map D' ts)) m js).
    { intros ts F. induction F as [|t ts [Ht _] F IH]; intros [|x l] [|j js] H; cbn [map rel3] in *; try contradiction; [exists []; auto|]. destruct H as [H1 H2].
      destruct (Ht _ _ H1) as (w & W1 & W2). destruct (IH _ _ H2) as (m & M1 & M2). exists (w :: m). auto. }
    assert (OL : forall ts, Forall similar ts -> forall ns l es, own_members Key ns ts (map D ts) l es -> exists m, rel3 (map K ts) l m /\ own_members Key ns ts (map D' ts) m es).
    { intros ts F. induction F as [|t ts [Ht _] F IH]; intros [|n ns] [|x l] es H; cbn [map rel3 own_members] in *; try contradiction; [exists []; auto|].
      destruct H as [[L H]|(L & e & r & -> & [Ke He] & H)].
      - destruct (IH _ _ _ H) as (m & M1 & M2). exists (x :: m). cbn. split; [split; [|exact M1]|left; auto]. destruct L as [(t' & ->) ->]. reflexivity.
      - destruct (IH _ _ _ H) as (m & M1 & M2). destruct (Ht _ _ He) as (w & W1 & W2). exists (w :: m). cbn. split; [auto|]. right. split; [|exists e, r; repeat split; auto].
        intro Q. apply L. now apply (alike_left_out _ _ _ W1). }
    assert (PL : forall ts, Forall similar ts -> forall l es, parent_members (map D ts) l es -> exists m, rel3 (map K ts) l m /\ parent_members (map D' ts) m es).
    { intros ts F. induction F as [|t ts [_ Ht] F IH]; intros [|x l] es H; cbn [map rel3 parent_members] in *; try contradiction; [exists []; auto|]. destruct H as (a & b & -> & H1 & H2).
      destruct (Ht _ _ H1) as (w & W1 & W2). destruct (IH _ _ H2) as (m & M1 & M2). exists (w :: m). cbn. split; [auto|]. exists a, b. auto. }
    apply (ty_ind' similar).
    - intro i. split; [|intros v l []]. intros v j (z & a & -> & -> & Ha). destruct (HI i z a Ha) as (z' & Rz & Ia). exists (VInt z'). split; [exact Rz|]. cbn. eauto.
    - split; [|intros v l []]. intros v j H. exists v. split; [reflexivity|exact H].
    - split; [|intros v l []]. intros v j H. exists v. split; [reflexivity|exact H].
    - intro l. split; [|intros v l' []]. intros v j H. exists v. split; [reflexivity|exact H].
    - intros co t IH. split; [|intros v l []]. intros v j (l & js & -> & -> & F). destruct (FL t IH _ _ F) as (m & M1 & M2). exists (VList m). split; [exact M1|]. cbn. eauto.
    - intros n t IH. split; [|intros v l []]. intros v j (l & js & -> & L & -> & F). destruct (FL t IH _ _ F) as (m & M1 & M2). exists (VList m). split; [exact M1|].
      cbn. exists m, js. repeat split; auto. rewrite <- L. symmetry. clear - M1. induction M1; cbn; congruence.
    - intros ts IH. split; [|intros v l []]. intros v j (l & js & -> & -> & F). destruct (GL ts IH _ _ F) as (m & M1 & M2). exists (VList m). split; [exact M1|]. cbn. eauto.
    - intros b t [IH _]. split; [|intros v l []]. intros v j (l & es & -> & -> & F).
      assert (M : exists m, Forall2 (fun a b => fst a = fst b /\ K t (snd a) (snd b)) l m /\ Forall2 (fun kv e => entry Key (fst kv) (d_val (D' t) (snd kv)) e) m es).
      { induction F as [|[k x] e l es [Ke He] F (m & M1 & M2)]; [exists []; split; constructor|]. destruct (IH _ _ He) as (w & W1 & W2). exists ((k, w) :: m). split; constructor; auto. split; auto. }
      destruct M as (m & M1 & M2). exists (VMap m). split; [exact M1|]. cbn. eauto.
    - intros t [IH _]. split; [|intros v l []]. intros v j [[-> N]|(x & -> & H)].
      + exists (VPtr None). split; [reflexivity|]. left. auto.
      + destruct (IH _ _ H) as (w & W1 & W2). exists (VPtr (Some w)). split; [exact W1|]. right. eauto.
    - intros t [IH _]. split; [|intros v l []]. intros v j (x & -> & H). destruct (IH _ _ H) as (w & W1 & W2). exists (VOpt (Some w)). split; [exact W1|]. cbn. eauto.
    - intros i ms ps Hm Hp.
      assert (M : forall v l, d_members (D (TStruct i ms ps)) v l -> exists w, K (TStruct i ms ps) v w /\ d_members (D' (TStruct i ms ps)) w l).
      { intros v l (own & par & a & b & -> & -> & H1 & H2). destruct (OL ms Hm _ _ _ H1) as (m & M1 & M2). destruct (PL ps Hp _ _ H2) as (q & Q1 & Q2).
        exists (VStruct m q). split; [split; auto|]. exists m, q, a, b. auto. }
      split; [|exact M]. intros v j H. cbn [sense_of d_val] in *. destruct (si_mark i).
      + destruct H as (e & l & -> & T & H). destruct (M v l H) as (w & W1 & W2). exists w. split; [exact W1|]. exists e, l. auto.
      + destruct H as (l & -> & H). destruct (M v l H) as (w & W1 & W2). exists w. split; [exact W1|]. exists l. auto.
    - intros cs o IH. split; [|intros v l []]. intros v j [[-> N]|(k & c & d & x & -> & Ec & Ed & e & l & -> & T & H)].
      + exists (VPtr None). split; [reflexivity|]. left. auto.
      + rewrite nth_error_map, Ec in Ed. injection Ed as <-. rewrite Forall_forall in IH. destruct (proj2 (IH c (nth_error_In _ _ Ec)) _ _ H) as (w & W1 & W2).
        exists (VPtr (Some (VVar k w))). split; [cbn [alike]; rewrite nth_error_map, Ec; auto|]. right. exists k, c, (D' c), w. split; [reflexivity|]. split; [exact Ec|].
        split; [now rewrite nth_error_map, Ec|]. exists e, l. auto.
    - intros cs IH. split; [|intros v l []]. intros v j (k & c & d & x & -> & Ec & Ed & e & l & -> & T & H).
      rewrite nth_error_map, Ec in Ed. injection Ed as <-. rewrite Forall_forall in IH. destruct (proj2 (IH c (nth_error_In _ _ Ec)) _ _ H) as (w & W1 & W2).
      exists (VVar k w). split; [cbn [alike]; rewrite nth_error_map, Ec; auto|]. exists k, c, (D' c), w. split; [reflexivity|]. split; [exact Ec|].
      split; [now rewrite nth_error_map, Ec|]. exists e, l. auto.
  Qed.
End Alike.

(** A document of a value, when all numbers in the value satisfy [Q]. *)
Section Refine.
  Context (Q : ity -> Z -> Prop).
  Notation ok := (each (fun t v => match t, v with TInt i, VInt z => Q i z | _, _ => True end)).
  Context {A : Type} (Int Int' : ity -> Z -> A -> Prop) (HI : forall i z a, Q i z -> Int i z a -> Int' i z a).
  Context (Bool : bool -> A -> Prop) (Str Tag : bytes -> A -> Prop) (Null : A -> Prop) (Key : bytes -> bytes -> Prop) (marker : bytes).
  Notation D := (sense_of Int Bool Str Tag Null Key marker).
  Notation D' := (sense_of Int' Bool Str Tag Null Key marker).
  Definition refined (t : ty) : Prop :=
    (forall v j, ok t v -> d_val (D t) v j -> d_val (D' t) v j) /\ (forall v l, ok t v -> d_members (D t) v l -> d_members (D' t) v l).
  Theorem sense_refine : forall t, refined t.
  Proof.
    assert (FL : forall t, refined t -> forall l js, Forall (ok t) l -> Forall2 (d_val (D t)) l js -> Forall2 (d_val (D' t)) l js).
    { intros t [IH _] l js O F. induction F as [|x j l js Hx F I]; [constructor|]. inversion O; subst. constructor; auto. }
    assert (GL : forall ts, Forall refined ts -> forall l js, rel2 (map ok ts) l -> rel3 (map d_val (map D ts)) l js -> rel3 (map d_val (map D' ts)) l js).
    { intros ts F. induction F as [|t ts [Ht _] F IH]; intros [|x l] [|j js] O H; cbn [map rel2 rel3] in *; try contradiction; auto. destruct O, H. split; auto. }
    assert (OL : forall ts, Forall refined ts -> forall ns l es, rel2 (map ok ts) l -> own_members Key ns ts (map D ts) l es -> own_members Key ns ts (map D' ts) l es).
    { intros ts F. induction F as [|t ts [Ht _] F IH]; intros [|n ns] [|x l] es O H; cbn [map rel2 own_members] in *; try contradiction; auto. destruct O as [O1 O2].
      destruct H as [[L H]|(L & e & r & -> & [Ke He] & H)]; [left; auto|]. right. split; [exact L|]. exists e, r. split; [reflexivity|]. split; [split; auto|auto]. }
    assert (PL : forall ts, Forall refined ts -> forall l es, rel2 (map ok ts) l -> parent_members (map D ts) l es -> parent_members (map D' ts) l es).
    { intros ts F. induction F as [|t ts [_ Ht] F IH]; intros [|x l] es O H; cbn [map rel2 parent_members] in *; try contradiction; auto. destruct O as [O1 O2], H as (a & b & -> & H1 & H2).
      exists a, b. auto. }
    apply (ty_ind' refined).
    - intro i. split; [|intros v l _ []]. intros v j O (z & a & -> & -> & Ha). destruct O as [O _]. cbn. exists z, a. auto.
    - split; [|intros v l _ []]. intros v j _ H. exact H.
    - split; [|intros v l _ []]. intros v j _ H. exact H.
    - intro l. split; [|intros v l' _ []]. intros v j _ H. exact H.
    - intros co t IH. split; [|intros v l _ []]. intros v j O (l & js & -> & -> & F). destruct O as [_ O]. cbn. exists l, js. auto.
    - intros n t IH. split; [|intros v l _ []]. intros v j O (l & js & -> & L & -> & F). destruct O as [_ O]. cbn. exists l, js. auto.
    - intros ts IH. split; [|intros v l _ []]. intros v j O (l & js & -> & -> & F). destruct O as [_ O]. cbn. exists l, js. auto.
    - intros b t [IH _]. split; [|intros v l _ []]. intros v j O (l & es & -> & -> & F). destruct O as [_ O]. cbn. exists l, es. split; [reflexivity|]. split; [reflexivity|].
      induction F as [|[k x] e l es [Ke He] F I]; [constructor|]. inversion O; subst. constructor; auto. split; auto.
    - intros t [IH _]. split; [|intros v l _ []]. intros v j O [[-> N]|(x & -> & H)]; [left; auto|]. destruct O as [_ O]. right. eauto.
    - intros t [IH _]. split; [|intros v l _ []]. intros v j O (x & -> & H). destruct O as [_ O]. cbn. eauto.
    - intros i ms ps Hm Hp.
      assert (M : forall v l, ok (TStruct i ms ps) v -> d_members (D (TStruct i ms ps)) v l -> d_members (D' (TStruct i ms ps)) v l).
      { intros v l O (own & par & a & b & -> & -> & H1 & H2). destruct O as [_ [O1 O2]]. exists own, par, a, b. auto. }
      split; [|exact M]. intros v j O H. cbn [sense_of d_val] in *. destruct (si_mark i); [destruct H as (e & l & -> & T & H); exists e, l|destruct H as (l & -> & H); exists l]; repeat split; try assumption; apply T || exact (M v l O H).
    - intros cs o IH. split; [|intros v l _ []]. intros v j O [[-> N]|(k & c & d & x & -> & Ec & Ed & e & l & -> & T & H)]; [left; auto|].
      rewrite nth_error_map, Ec in Ed. injection Ed as <-. rewrite Forall_forall in IH. destruct O as [_ O]. rewrite nth_error_map, Ec in O. right. exists k, c, (D' c), x. split; [reflexivity|]. split; [exact Ec|].
      split; [now rewrite nth_error_map, Ec|]. exists e, l. split; [reflexivity|]. split; [exact T|]. exact (proj2 (IH c (nth_error_In _ _ Ec)) _ _ O H).
    - intros cs IH. split; [|intros v l _ []]. intros v j O (k & c & d & x & -> & Ec & Ed & e & l & -> & T & H).
      rewrite nth_error_map, Ec in Ed. injection Ed as <-. rewrite Forall_forall in IH. destruct O as [_ O]. rewrite nth_error_map, Ec in O. exists k, c, (D' c), x. split; [reflexivity|]. split; [exact Ec|].
      split; [now rewrite nth_error_map, Ec|]. exists e, l. split; [reflexivity|]. split; [exact T|]. exact (proj2 (IH c (nth_error_In _ _ Ec)) _ _ O H).
  Qed.
End Refine.
