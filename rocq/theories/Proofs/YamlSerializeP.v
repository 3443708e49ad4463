(** What has a document has a text for every number in it. *)
From Coq Require Import ZArith String List Bool Lia ZifyBool.
From Verif Require Import Model.Base Model.Number Model.Types Spec.Json Spec.Typed Spec.Denotes Proofs.Induct Proofs.TypedP.
Import ListNotations.
Open Scope Z_scope.

Section Told.
  Context (Q : ity -> Z -> Prop).
  Notation ok := (each (fun t v => match t, v with TInt i, VInt z => Q i z | _, _ => True end)).
  Context {A : Type} (Int : ity -> Z -> A -> Prop) (HI : forall i z a, Int i z a -> Q i z).
  Context (Bool : bool -> A -> Prop) (Str Tag : bytes -> A -> Prop) (Null : A -> Prop) (Key : bytes -> bytes -> Prop) (marker : bytes).
  Notation D := (sense_of Int Bool Str Tag Null Key marker).
  Definition told_all (t : ty) : Prop := (forall v j, d_val (D t) v j -> ok t v) /\ (forall v l, d_members (D t) v l -> ok t v).
  Theorem sense_told : forall t, told_all t.
  Proof.
    assert (FL : forall t, told_all t -> forall l js, Forall2 (d_val (D t)) l js -> Forall (ok t) l).
    { intros t [IH _] l js F. induction F as [|x j l js Hx F I]; constructor; eauto. }
    assert (GL : forall ts, Forall told_all ts -> forall l js, rel3 (map d_val (map D ts)) l js -> rel2 (map ok ts) l).
    { intros ts F. induction F as [|t ts [Ht _] F IH]; intros [|x l] [|j js] H; cbn [map rel2 rel3] in *; try contradiction; auto. destruct H. split; eauto. }
    assert (OL : forall ts, Forall told_all ts -> forall ns l es, own_members Key ns ts (map D ts) l es -> rel2 (map ok ts) l).
    { intros ts F. induction F as [|t ts [Ht _] F IH]; intros [|n ns] [|x l] es H; cbn [map rel2 own_members] in *; try contradiction; auto.
      destruct H as [[L H]|(L & e & r & -> & [Ke He] & H)]; split; eauto. destruct L as [(t' & ->) ->]. cbn. auto. }
    assert (PL : forall ts, Forall told_all ts -> forall l es, parent_members (map D ts) l es -> rel2 (map ok ts) l).
    { intros ts F. induction F as [|t ts [_ Ht] F IH]; intros [|x l] es H; cbn [map rel2 parent_members] in *; try contradiction; auto. destruct H as (a & b & -> & H1 & H2). split; eauto. }
    apply (ty_ind' told_all).
    - intro i. split; [|intros v l []]. intros v j (z & a & -> & -> & Ha). split; [exact (HI i z a Ha)|exact Logic.I].
    - split; [|intros v l []]. intros v j (b & a & -> & _). cbn. auto.
    - split; [|intros v l []]. intros v j (b & a & -> & _). cbn. auto.
    - intro l. split; [|intros v l' []]. intros v j (z & n & a & -> & _). cbn. auto.
    - intros co t IH. split; [|intros v l []]. intros v j (l & js & -> & -> & F). split; [exact Logic.I|eauto].
    - intros n t IH. split; [|intros v l []]. intros v j (l & js & -> & L & -> & F). split; [exact Logic.I|eauto].
    - intros ts IH. split; [|intros v l []]. intros v j (l & js & -> & -> & F). split; [exact Logic.I|]. exact (GL ts IH _ _ F).
    - intros b t [IH _]. split; [|intros v l []]. intros v j (l & es & -> & -> & F). split; [exact Logic.I|].
      induction F as [|[k x] e l es [Ke He] F I]; constructor; eauto.
    - intros t [IH _]. split; [|intros v l []]. intros v j [[-> N]|(x & -> & H)]; (split; [exact Logic.I|eauto]).
    - intros t [IH _]. split; [|intros v l []]. intros v j (x & -> & H). split; [exact Logic.I|eauto].
    - intros i ms ps Hm Hp.
      assert (M : forall v l, d_members (D (TStruct i ms ps)) v l -> ok (TStruct i ms ps) v).
      { intros v l (own & par & a & b & -> & -> & H1 & H2). split; [exact Logic.I|]. split; [exact (OL ms Hm _ _ _ H1)|exact (PL ps Hp _ _ H2)]. }
      split; [|exact M]. intros v j H. cbn [sense_of d_val] in H. destruct (si_mark i); [destruct H as (e & l & -> & T & H)|destruct H as (l & -> & H)]; exact (M v l H).
    - intros cs o IH. split; [|intros v l []]. intros v j [[-> N]|(k & c & d & x & -> & Ec & Ed & e & l & -> & T & H)]; [cbn; auto|].
      rewrite nth_error_map, Ec in Ed. injection Ed as <-. rewrite Forall_forall in IH. split; [exact Logic.I|]. rewrite nth_error_map, Ec. exact (proj2 (IH c (nth_error_In _ _ Ec)) _ _ H).
    - intros cs IH. split; [|intros v l []]. intros v j (k & c & d & x & -> & Ec & Ed & e & l & -> & T & H).
      rewrite nth_error_map, Ec in Ed. injection Ed as <-. rewrite Forall_forall in IH. split; [exact Logic.I|]. rewrite nth_error_map, Ec. exact (proj2 (IH c (nth_error_In _ _ Ec)) _ _ H).
  Qed.
End Told.
