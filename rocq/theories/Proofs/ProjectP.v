(** Projections. *)
From Coq Require Import ZArith List Bool Lia.
From Verif Require Import Model.Base Model.Number Model.Types Model.Serializer Spec.Json Spec.Typed Spec.Denotes Spec.Bson Spec.Projection Proofs.Induct.
Import ListNotations.
Open Scope Z_scope.

Lemma Forall2_map_r : forall X Y Z (R : X -> Z -> Prop) (f : Y -> Z) l m, Forall2 (fun x y => R x (f y)) l m -> Forall2 R l (map f m).
Proof. intros X Y Z R f l m F. induction F; constructor; auto. Qed.

(** When every leaf may be 1, the document full of ones is one. *)
Section Ones.
  Context (Int Int' : ity -> Z -> bscal -> Prop) (Bool Bool' : bool -> bscal -> Prop) (Str Str' : bytes -> bscal -> Prop) (Null Null' : bscal -> Prop)
    (Key : bytes -> bytes -> Prop) (marker : bytes).
  Context (HI : forall i z, Int' i z (BInt32 1)) (HB : forall b, Bool' b (BInt32 1)) (HS : forall s, Str' s (BInt32 1)) (HN : Null' (BInt32 1)).
  Notation D := (sense_of Int Bool Str Str Null Key marker).
  Notation D' := (sense_of Int' Bool' Str' Str' Null' Key marker).
  Notation one := (fun m : bytes * tree bscal => (fst m, ones (snd m))).
  Definition goes (t : ty) : Prop := (forall v j, d_val (D t) v j -> d_val (D' t) v (ones j)) /\ (forall v l, d_members (D t) v l -> d_members (D' t) v (map one l)).
  Lemma tag_goes : forall c e, tagged Str Key marker c e -> tagged Str' Key marker c (one e).
  Proof. intros c [k j] [K (a & -> & _)]. split; [exact K|]. exists (BInt32 1). split; [reflexivity|apply HS]. Qed.
  Theorem ones_stand : forall t, goes t.
  Proof.
    assert (FL : forall t, goes t -> forall l js, Forall2 (d_val (D t)) l js -> Forall2 (d_val (D' t)) l (map ones js)).
    { intros t [IH _] l js F. apply Forall2_map_r. induction F; constructor; auto. }
    assert (GL : forall ts, Forall goes ts -> forall l js, rel3 (map d_val (map D ts)) l js -> rel3 (map d_val (map D' ts)) l (map ones js)).
    { intros ts F. induction F as [|t ts [Ht _] F IH]; intros [|x l] [|j js] H; cbn [map rel3] in *; try contradiction; auto. destruct H. split; auto. }
    assert (OL : forall ts, Forall goes ts -> forall ns l es, own_members Key ns ts (map D ts) l es -> own_members Key ns ts (map D' ts) l (map one es)).
    { intros ts F. induction F as [|t ts [Ht _] F IH]; intros [|n ns] [|x l] es H; cbn [map own_members] in *; try contradiction; [now subst|].
      destruct H as [[L H]|(L & e & r & -> & [Ke He] & H)]; [left; auto|]. right. split; [exact L|]. exists (one e), (map one r). split; [reflexivity|]. split; [split; [exact Ke|]; cbn [snd]; auto|auto]. }
    assert (PL : forall ts, Forall goes ts -> forall l es, parent_members (map D ts) l es -> parent_members (map D' ts) l (map one es)).
    { intros ts F. induction F as [|t ts [_ Ht] F IH]; intros [|x l] es H; cbn [map parent_members] in *; try contradiction; [now subst|]. destruct H as (a & b & -> & H1 & H2).
      exists (map one a), (map one b). split; [apply map_app|]. auto. }
    apply (ty_ind' goes).
    - intro i. split; [|intros v l []]. intros v j (z & a & -> & -> & Ha). exists z, (BInt32 1). auto.
    - split; [|intros v l []]. intros v j (z & a & -> & -> & Ha). exists z, (BInt32 1). auto.
    - split; [|intros v l []]. intros v j (z & a & -> & -> & Ha). exists z, (BInt32 1). auto.
    - intro l. split; [|intros v l' []]. intros v j (z & n & a & -> & En & -> & Ha). exists z, n, (BInt32 1). auto.
    - intros co t IH. split; [|intros v l []]. intros v j (l & js & -> & -> & F). exists l, (map ones js). auto.
    - intros n t IH. split; [|intros v l []]. intros v j (l & js & -> & L & -> & F). exists l, (map ones js). auto.
    - intros ts IH. split; [|intros v l []]. intros v j (l & js & -> & -> & F). exists l, (map ones js). split; [reflexivity|]. split; [reflexivity|]. exact (GL ts IH _ _ F).
    - intros b t [IH _]. split; [|intros v l []]. intros v j (l & es & -> & -> & F). exists l, (map one es). split; [reflexivity|]. split; [reflexivity|].
      apply Forall2_map_r. induction F as [|[k x] e l es [Ke He] F I]; constructor; auto. split; [exact Ke|]. cbn [snd]. auto.
    - intros t [IH _]. split; [|intros v l []]. intros v j [[-> (a & -> & N)]|(x & -> & H)]; [left; split; [reflexivity|]; exists (BInt32 1); auto|]. right. eauto.
    - intros t [IH _]. split; [|intros v l []]. intros v j (x & -> & H). exists x. auto.
    - intros i ms ps Hm Hp.
      assert (M : forall v l, d_members (D (TStruct i ms ps)) v l -> d_members (D' (TStruct i ms ps)) v (map one l)).
      { intros v l (own & par & a & b & -> & -> & H1 & H2). exists own, par, (map one a), (map one b). split; [reflexivity|]. split; [apply map_app|]. auto. }
      split; [|exact M]. intros v j H. cbn [sense_of d_val] in *. destruct (si_mark i).
      + destruct H as (e & l & -> & T & H). exists (one e), (map one l). split; [reflexivity|]. split; [now apply tag_goes|exact (M v l H)].
      + destruct H as (l & -> & H). exists (map one l). split; [reflexivity|exact (M v l H)].
    - intros cs o IH. split; [|intros v l []]. intros v j [[-> (a & -> & N)]|(k & c & d & x & -> & Ec & Ed & e & l & -> & T & H)]; [left; split; [reflexivity|]; exists (BInt32 1); auto|].
      rewrite nth_error_map, Ec in Ed. injection Ed as <-. rewrite Forall_forall in IH. right. exists k, c, (D' c), x. split; [reflexivity|]. split; [exact Ec|].
      split; [now rewrite nth_error_map, Ec|]. exists (one e), (map one l). split; [reflexivity|]. split; [now apply tag_goes|]. exact (proj2 (IH c (nth_error_In _ _ Ec)) _ _ H).
    - intros cs IH. split; [|intros v l []]. intros v j (k & c & d & x & -> & Ec & Ed & e & l & -> & T & H).
      rewrite nth_error_map, Ec in Ed. injection Ed as <-. rewrite Forall_forall in IH. exists k, c, (D' c), x. split; [reflexivity|]. split; [exact Ec|].
      split; [now rewrite nth_error_map, Ec|]. exists (one e), (map one l). split; [reflexivity|]. split; [now apply tag_goes|]. exact (proj2 (IH c (nth_error_In _ _ Ec)) _ _ H).
  Qed.
End Ones.
