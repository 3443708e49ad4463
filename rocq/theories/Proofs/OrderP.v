(** The order of values and the insertion into sequence containers. *)
From Coq Require Import ZArith List Bool Lia ZifyBool.
From Verif Require Import Model.Base Model.Number Model.Types Spec.Json Spec.Typed Spec.Denotes Proofs.Induct.
Import ListNotations.
Open Scope Z_scope.

(** ** [val_cmp] is a total order *)
Lemma lex_opp : forall {A} (cmp : A -> A -> comparison) l, Forall (fun x => forall y, cmp y x = CompOpp (cmp x y)) l ->
  forall m, lex_cmp cmp m l = CompOpp (lex_cmp cmp l m).
Proof.
  intros A cmp l F. induction F as [|x l Hx F IH]; intros [|y m]; cbn [lex_cmp]; try reflexivity. rewrite (Hx y). destruct (cmp x y); cbn; auto.
Qed.
Lemma zlex_opp : forall l m : bytes, lex_cmp Z.compare m l = CompOpp (lex_cmp Z.compare l m).
Proof. intros l. apply lex_opp. apply Forall_forall. intros x _ y. apply Z.compare_antisym. Qed.
Theorem val_cmp_opp : forall a b, val_cmp b a = CompOpp (val_cmp a b).
Proof.
  apply (val_ind' (fun a => forall b, val_cmp b a = CompOpp (val_cmp a b))).
  - intros z b. destruct b; try reflexivity. apply Z.compare_antisym.
  - intros x b. destruct b as [|y| | | | | | |]; try reflexivity. now destruct x, y.
  - intros s b. destruct b; try reflexivity. apply zlex_opp.
  - intros l IH b. destruct b; try reflexivity. cbn [val_cmp]. now apply lex_opp.
  - intros l IH b. destruct b as [| | | |m| | | |]; try reflexivity. cbn [val_cmp]. apply lex_opp. rewrite Forall_forall in *. intros [k x] Hx [k' y]. cbn [fst snd].
    rewrite zlex_opp. specialize (IH _ Hx y). cbn [snd] in IH. rewrite IH. now destruct (lex_cmp Z.compare k k').
  - intro b. destruct b as [| | | | |[]| | |]; reflexivity.
  - intros x IH b. destruct b as [| | | | |[y|]| | |]; try reflexivity. apply IH.
  - intro b. destruct b as [| | | | | |[]| |]; reflexivity.
  - intros x IH b. destruct b as [| | | | | |[y|]| |]; try reflexivity. apply IH.
  - intros own par Ho Hp b. destruct b as [| | | | | | |l p|]; try reflexivity. cbn [val_cmp]. rewrite (lex_opp val_cmp own Ho), (lex_opp val_cmp par Hp). now destruct (lex_cmp val_cmp own l).
  - intros i x IH b. destruct b as [| | | | | | | |j y]; try reflexivity. cbn [val_cmp]. rewrite IH, Nat.compare_antisym. now destruct (Nat.compare i j).
Qed.

Lemma lex_eq : forall {A} (cmp : A -> A -> comparison) l, Forall (fun x => forall y, cmp x y = Eq <-> x = y) l -> forall m, lex_cmp cmp l m = Eq <-> l = m.
Proof.
  intros A cmp l F. induction F as [|x l Hx F IH]; intros [|y m]; cbn [lex_cmp]; try (split; congruence). destruct (cmp x y) eqn:E.
  - apply Hx in E as ->. rewrite IH. split; congruence.
  - split; [discriminate|]. intro Q. injection Q as -> ->. now rewrite (proj2 (Hx y) eq_refl) in E.
  - split; [discriminate|]. intro Q. injection Q as -> ->. now rewrite (proj2 (Hx y) eq_refl) in E.
Qed.
Lemma zlex_eq : forall l m : bytes, lex_cmp Z.compare l m = Eq <-> l = m.
Proof. intros l. apply lex_eq. apply Forall_forall. intros x _ y. apply Z.compare_eq_iff. Qed.
Lemma then_eq : forall a b, then_cmp a b = Eq <-> a = Eq /\ b = Eq.
Proof. intros [] b; cbn; intuition congruence. Qed.
Theorem val_cmp_eq : forall a b, val_cmp a b = Eq <-> a = b.
Proof.
  apply (val_ind' (fun a => forall b, val_cmp a b = Eq <-> a = b)).
  - intros z b. destruct b; try (split; discriminate). cbn [val_cmp]. rewrite Z.compare_eq_iff. split; congruence.
  - intros x b. destruct b as [|y| | | | | | |]; try (split; discriminate). destruct x, y; cbn; split; congruence.
  - intros s b. destruct b; try (split; discriminate). cbn [val_cmp]. rewrite zlex_eq. split; congruence.
  - intros l IH b. destruct b; try (split; discriminate). cbn [val_cmp]. rewrite (lex_eq val_cmp l IH). split; congruence.
  - intros l IH b. destruct b as [| | | |m| | | |]; try (split; discriminate). cbn [val_cmp]. rewrite lex_eq; [split; congruence|]. rewrite Forall_forall in *. intros [k x] Hx [k' y]. cbn [fst snd].
    specialize (IH _ Hx y). cbn [snd] in IH. rewrite then_eq, zlex_eq, IH. split; [intros [-> ->]; reflexivity|intro Q; injection Q; auto].
  - intro b. destruct b as [| | | | |[]| | |]; cbn; split; congruence.
  - intros x IH b. destruct b as [| | | | |[y|]| | |]; try (cbn; split; discriminate). cbn [val_cmp opt_cmp]. rewrite IH. split; congruence.
  - intro b. destruct b as [| | | | | |[]| |]; cbn; split; congruence.
  - intros x IH b. destruct b as [| | | | | |[y|]| |]; try (cbn; split; discriminate). cbn [val_cmp opt_cmp]. rewrite IH. split; congruence.
  - intros own par Ho Hp b. destruct b as [| | | | | | |l p|]; try (split; discriminate). cbn [val_cmp]. rewrite then_eq, (lex_eq val_cmp own Ho), (lex_eq val_cmp par Hp).
    split; [intros [-> ->]; reflexivity|intro Q; injection Q; auto].
  - intros i x IH b. destruct b as [| | | | | | | |j y]; try (split; discriminate). cbn [val_cmp]. rewrite then_eq, IH, Nat.compare_eq_iff.
    split; [intros [-> ->]; reflexivity|intro Q; injection Q; auto].
Qed.
Lemma val_cmp_refl : forall a, val_cmp a a = Eq.
Proof. intro a. now apply val_cmp_eq. Qed.

(** Transitivity, of [<]. *)
Lemma lex_lt : forall {A} (cmp : A -> A -> comparison) l,
  Forall (fun x => (forall y, cmp x y = Eq -> x = y) /\ forall y z, cmp x y = Lt -> cmp y z = Lt -> cmp x z = Lt) l ->
  (forall x y, cmp x y = Eq -> x = y) ->
  forall m n, lex_cmp cmp l m = Lt -> lex_cmp cmp m n = Lt -> lex_cmp cmp l n = Lt.
Proof.
  intros A cmp l F HE. induction F as [|x l [Hx Tx] F IH]; intros [|y m] [|z n] H1 H2; cbn [lex_cmp] in *; try discriminate; try reflexivity.
  destruct (cmp x y) eqn:E1; try discriminate H1.
  - apply Hx in E1. subst y. destruct (cmp x z); eauto.
  - destruct (cmp y z) eqn:E2; try discriminate H2.
    + apply HE in E2. subst z. now rewrite E1.
    + now rewrite (Tx _ _ E1 E2).
Qed.
Lemma zlex_lt : forall l m n : bytes, lex_cmp Z.compare l m = Lt -> lex_cmp Z.compare m n = Lt -> lex_cmp Z.compare l n = Lt.
Proof.
  intros l. apply lex_lt; [|intros x y; now apply Z.compare_eq_iff]. apply Forall_forall. intros x _. split; [intro y; now apply Z.compare_eq_iff|].
  intros y z. rewrite !Z.compare_lt_iff. lia.
Qed.
Theorem val_cmp_lt : forall a b c, val_cmp a b = Lt -> val_cmp b c = Lt -> val_cmp a c = Lt.
Proof.
  assert (HE : forall x y, val_cmp x y = Eq -> x = y) by (intros; now apply val_cmp_eq).
  assert (LT : forall l, Forall (fun a => forall b c, val_cmp a b = Lt -> val_cmp b c = Lt -> val_cmp a c = Lt) l -> forall m n, lex_cmp val_cmp l m = Lt -> lex_cmp val_cmp m n = Lt -> lex_cmp val_cmp l n = Lt).
  { intros l F. apply lex_lt; [|exact HE]. eapply Forall_impl; [|exact F]. cbn beta. intros x Hx. split; [apply HE|exact Hx]. }
  apply (val_ind' (fun a => forall b c, val_cmp a b = Lt -> val_cmp b c = Lt -> val_cmp a c = Lt)).
  - intros z b c H1 H2. destruct b; try discriminate H1; destruct c; try discriminate H2; try reflexivity. cbn [val_cmp] in *. rewrite Z.compare_lt_iff in *. lia.
  - intros x b c H1 H2. destruct b; try discriminate H1; destruct c; try discriminate H2; try reflexivity. cbn [val_cmp] in *. rewrite Z.compare_lt_iff in *. lia.
  - intros s b c H1 H2. destruct b; try discriminate H1; destruct c; try discriminate H2; try reflexivity. cbn [val_cmp] in *. eapply zlex_lt; eassumption.
  - intros l IH b c H1 H2. destruct b; try discriminate H1; destruct c; try discriminate H2; try reflexivity. cbn [val_cmp] in *. eapply LT; eassumption.
  - intros l IH b c H1 H2. destruct b; try discriminate H1; destruct c; try discriminate H2; try reflexivity. cbn [val_cmp] in *. revert H1 H2. apply lex_lt.
    + rewrite Forall_forall in *. intros [k x] Hx. specialize (IH _ Hx). cbn [fst snd] in *. split.
      * intros [k' y]. cbn [fst snd]. rewrite then_eq, zlex_eq, val_cmp_eq. intros [-> ->]. reflexivity.
      * intros [k' y] [k'' z]. cbn [fst snd]. unfold then_cmp. destruct (lex_cmp Z.compare k k') eqn:E1; intro H1; try discriminate H1.
        -- apply zlex_eq in E1. subst k'. destruct (lex_cmp Z.compare k k'') eqn:E2; intro H2; try discriminate H2; eauto.
        -- destruct (lex_cmp Z.compare k' k'') eqn:E2; intro H2; try discriminate H2; [apply zlex_eq in E2; subst k''; now rewrite E1|now rewrite (zlex_lt _ _ _ E1 E2)].
    + intros [k x] [k' y]. cbn [fst snd]. rewrite then_eq, zlex_eq, val_cmp_eq. intros [-> ->]. reflexivity.
  - intros b c H1 H2. destruct b as [| | | | |[]| | |]; try discriminate H1; destruct c as [| | | | |[]| | |]; try discriminate H2; try reflexivity.
  - intros x IH b c H1 H2. destruct b as [| | | | |[]| | |]; try discriminate H1; destruct c as [| | | | |[]| | |]; try discriminate H2; try reflexivity. cbn [val_cmp opt_cmp] in *. eauto.
  - intros b c H1 H2. destruct b as [| | | | | |[]| |]; try discriminate H1; destruct c as [| | | | | |[]| |]; try discriminate H2; try reflexivity.
  - intros x IH b c H1 H2. destruct b as [| | | | | |[]| |]; try discriminate H1; destruct c as [| | | | | |[]| |]; try discriminate H2; try reflexivity. cbn [val_cmp opt_cmp] in *. eauto.
  - intros own par Ho Hp b c H1 H2. destruct b as [| | | | | | |l p|]; try discriminate H1; destruct c as [| | | | | | |m q|]; try discriminate H2; try reflexivity.
    cbn [val_cmp] in *. unfold then_cmp in *. assert (LE : forall x y, lex_cmp val_cmp x y = Eq -> x = y) by (intros x y; apply lex_eq; apply Forall_forall; intros; apply val_cmp_eq).
    destruct (lex_cmp val_cmp own l) eqn:E1; try discriminate H1.
    + apply LE in E1. subst l. destruct (lex_cmp val_cmp own m); try discriminate H2; try reflexivity. exact (LT _ Hp _ _ H1 H2).
    + destruct (lex_cmp val_cmp l m) eqn:E2; try discriminate H2; [apply LE in E2; subst m; now rewrite E1|now rewrite (LT _ Ho _ _ E1 E2)].
  - intros i x IH b c H1 H2. destruct b as [| | | | | | | |j y]; try discriminate H1; destruct c as [| | | | | | | |k z]; try discriminate H2. cbn [val_cmp] in *. unfold then_cmp in *.
    destruct (Nat.compare i j) eqn:E1; try discriminate H1.
    + apply Nat.compare_eq_iff in E1. subst j. destruct (Nat.compare i k); try discriminate H2; eauto.
    + destruct (Nat.compare j k) eqn:E2; try discriminate H2; [apply Nat.compare_eq_iff in E2; subst k; now rewrite E1|].
      rewrite Nat.compare_lt_iff in *. now rewrite (proj2 (Nat.compare_lt_iff i k)) by lia.
Qed.

(** ** Insertion *)
Lemma elem_ltb_key : forall co a b, elem_ltb co a b = true <-> val_cmp (key_of co a) (key_of co b) = Lt.
Proof. intros co a b. unfold elem_ltb. destruct (val_cmp _ _); split; congruence. Qed.
Lemma elem_ltb_asym : forall co a b, elem_ltb co a b = true -> elem_ltb co b a = false.
Proof. intros co a b. unfold elem_ltb. rewrite (val_cmp_opp (key_of co a)). destruct (val_cmp (key_of co a) _); try discriminate; reflexivity. Qed.
Lemma elem_ltb_trans : forall co a b c, elem_ltb co a b = true -> elem_ltb co b c = true -> elem_ltb co a c = true.
Proof. intros co a b c. rewrite !elem_ltb_key. apply val_cmp_lt. Qed.
(** Neither before the other: the keys are equal. *)
Lemma elem_ltb_eq : forall co a b, elem_ltb co a b = false -> elem_ltb co b a = false -> key_of co a = key_of co b.
Proof. intros co a b. unfold elem_ltb. rewrite (val_cmp_opp (key_of co a)). destruct (val_cmp (key_of co a) _) eqn:E; try discriminate. intros. now apply val_cmp_eq. Qed.

Section Insert.
  Context {A : Type} (ltb : A -> A -> bool) (uniq : bool).
  Lemma insert_in : forall x l y, In y (insert_at ltb uniq x l) -> y = x \/ In y l.
  Proof.
    intros x. induction l as [|z l IH]; intros y H; cbn [insert_at] in H; [destruct H as [<-|[]]; auto|]. destruct (ltb x z); [destruct H as [<-|H]; auto|].
    destruct (uniq && negb (ltb z x)); [auto|]. destruct H as [<-|H]; [right; now left|]. destruct (IH y H); [auto|right; now right].
  Qed.
  Lemma insert_end : forall x l, (forall y, In y l -> ltb x y = false /\ (uniq = true -> ltb y x = true)) -> insert_at ltb uniq x l = l ++ [x].
  Proof.
    intros x. induction l as [|z l IH]; intro H; [reflexivity|]. cbn [insert_at app]. destruct (H z (or_introl eq_refl)) as [-> U].
    assert (E : uniq && negb (ltb z x) = false) by (destruct uniq; [now rewrite U|reflexivity]). rewrite E, IH; [reflexivity|]. intros y Hy. apply H. now right.
  Qed.
  Lemma insert_map : forall {B} (g : B -> A) (f : A -> B) x l, (forall y, g (f y) = y) -> map f (insert_at ltb uniq x l) = insert_at (fun a b => ltb (g a) (g b)) uniq (f x) (map f l).
  Proof.
    intros B g f x l G. induction l as [|z l IH]; [reflexivity|]. cbn [insert_at map]. rewrite !G. destruct (ltb x z); [reflexivity|]. destruct (uniq && negb (ltb z x)); [reflexivity|].
    cbn [map]. now rewrite IH.
  Qed.
End Insert.

Lemma seq_add_forallb : forall co (f : val -> bool) l x, forallb f l = true -> f x = true -> forallb f (seq_add co l x) = true.
Proof.
  intros co f l x H Hx. assert (G : forallb f (l ++ [x]) = true) by (rewrite forallb_app, H; cbn; now rewrite Hx).
  assert (Gi : forall u, forallb f (insert_at (elem_ltb co) u x l) = true).
  { intro u. rewrite forallb_forall in *. intros y Hy. apply insert_in in Hy as [->|Hy]; auto. }
  unfold seq_add. destruct co; auto.
Qed.

(** Elements that arrive in their order are appended. *)
Definition arrives (co : cont) (l : list val) (x : val) : Prop :=
  match co with
  | CBack | CBits => True
  | CSet | CMap => Forall (fun y => val_cmp (key_of co y) (key_of co x) = Lt) l
  | CMultiset | CMultimap => Forall (fun y => val_cmp (key_of co y) (key_of co x) <> Gt) l
  end.
Lemma seq_add_end : forall co l x, arrives co l x -> seq_add co l x = l ++ [x].
Proof.
  intros co l x H. unfold arrives in H. rewrite ?Forall_forall in H.
  assert (L : one_of_each co = true -> (forall y, In y l -> val_cmp (key_of co y) (key_of co x) = Lt) -> insert_at (elem_ltb co) (one_of_each co) x l = l ++ [x]).
  { intros _ G. apply insert_end. intros y Hy. apply G in Hy. apply elem_ltb_key in Hy. split; [now apply elem_ltb_asym|auto]. }
  assert (M : one_of_each co = false -> (forall y, In y l -> val_cmp (key_of co y) (key_of co x) <> Gt) -> insert_at (elem_ltb co) (one_of_each co) x l = l ++ [x]).
  { intros E G. apply insert_end. intros y Hy. apply G in Hy. split; [|congruence]. unfold elem_ltb. rewrite (val_cmp_opp (key_of co y)). destruct (val_cmp (key_of co y) _); try reflexivity. now destruct Hy. }
  destruct co; try reflexivity; rewrite Forall_forall in H; (apply L; [reflexivity|exact H]) || (apply M; [reflexivity|exact H]).
Qed.
Lemma each_before_app : forall R l x r, each_before R (l ++ x :: r) -> Forall (fun y => R y x) l.
Proof.
  intros R. induction l as [|a l IH]; intros x r H; [constructor|]. cbn in H. inversion H as [|? ? F E]; subst. constructor; [|eauto]. rewrite Forall_forall in F. apply F. apply in_or_app. right. now left.
Qed.
Lemma each_before_tail : forall R l r, each_before R (l ++ r) -> each_before R r.
Proof. intros R. induction l as [|a l IH]; intros r H; [exact H|]. inversion H; subst. auto. Qed.
Lemma in_order_arrives : forall co l x r, in_order co (l ++ x :: r) -> arrives co l x.
Proof. intros co l x r H. destruct co; cbn [in_order] in H; cbn [arrives]; try exact I; exact (each_before_app _ _ _ _ H). Qed.
Lemma fold_add : forall co l old, in_order co (old ++ l) -> fold_left (seq_add co) l old = old ++ l.
Proof.
  intros co. induction l as [|x l IH]; intros old H; cbn [fold_left]; [now rewrite app_nil_r|]. rewrite (seq_add_end co old x (in_order_arrives _ _ _ _ H)).
  rewrite IH by (now rewrite <- app_assoc). now rewrite <- app_assoc.
Qed.
