(** Facts about types, shapes and paths. *)
From Coq Require Import ZArith List Bool Lia ZifyBool.
From Verif Require Import Model.Base Model.Number Model.Types Spec.Json Spec.Typed Proofs.Induct.
Import ListNotations.
Open Scope nat_scope.

(** ** Induction on the size of a type *)
Fixpoint tsize (t : ty) : nat :=
  match t with
  | TInt _ | TBool | TStr | TEnum _ => 1
  | TSeq _ t' | TArr _ t' | TMap _ t' | TPtr t' | TOpt t' => S (tsize t')
  | TTup ts => S (list_sum (map tsize ts))
  | TStruct _ ms ps => S (list_sum (map tsize ms) + list_sum (map tsize ps))
  | TPoly cs _ | TVariant cs => S (list_sum (map tsize cs))
  end.
Lemma list_sum_nth : forall (l : list ty) i t, nth_error l i = Some t -> tsize t <= list_sum (map tsize l).
Proof.
  induction l as [|a l IH]; intros [|i] t H; cbn in *; try discriminate.
  - injection H as ->. lia.
  - specialize (IH i t H). unfold list_sum in IH. lia.
Qed.
Lemma list_sum_in : forall (l : list ty) t, In t l -> tsize t <= list_sum (map tsize l).
Proof. intros l t H. apply In_nth_error in H as [i H]. eapply list_sum_nth; eassumption. Qed.
Theorem ty_strong : forall P : ty -> Prop, (forall t, (forall t', tsize t' < tsize t -> P t') -> P t) -> forall t, P t.
Proof.
  intros P H t. assert (G : forall n t, tsize t < n -> P t).
  { induction n as [|n IH]; intros u Hu; [lia|]. apply H. intros u' Hu'. apply IH. lia. }
  apply (G (S (tsize t))). lia.
Qed.
Lemma type_at_size : forall q t i tm, type_at t q i = Some tm -> tsize tm < tsize t.
Proof.
  induction q as [|n q IH]; intros t i tm H; destruct t; try discriminate H; cbn [type_at] in H.
  - apply list_sum_nth in H. cbn [tsize]. lia.
  - destruct (nth_error ps n) as [p|] eqn:E; [|discriminate]. apply list_sum_nth in E. apply IH in H. cbn [tsize]. lia.
Qed.

(** ** Lists *)
Lemma all2b_len : forall {A} (fs : list (A -> bool)) l, all2b fs l = true -> length l = length fs.
Proof.
  induction fs as [|f fs IH]; intros [|x l] H; cbn in *; try discriminate; auto. apply andb_prop in H as [_ H]. f_equal; auto.
Qed.
Lemma all2b_nth : forall {A} (fs : list (A -> bool)) l i f, all2b fs l = true -> nth_error fs i = Some f ->
  exists x, nth_error l i = Some x /\ f x = true.
Proof.
  induction fs as [|f fs IH]; intros [|x l] [|i] g H E; cbn in *; try discriminate.
  - injection E as ->. apply andb_prop in H as [H _]. eauto.
  - apply andb_prop in H as [_ H]. eauto.
Qed.
Lemma all2b_set : forall {A} (fs : list (A -> bool)) l i f x, all2b fs l = true -> nth_error fs i = Some f -> f x = true ->
  all2b fs (set_nth i x l) = true.
Proof.
  induction fs as [|f fs IH]; intros [|y l] [|i] g x H E G; cbn in *; try discriminate.
  - injection E as ->. rewrite G. now apply andb_prop in H as [_ ->].
  - apply andb_prop in H as [-> H]. cbn. eauto.
Qed.
Lemma set_nth_len : forall {A} i (x : A) l, length (set_nth i x l) = length l.
Proof. intros A i x l. revert i. induction l as [|a l IH]; intros [|i]; cbn; auto. Qed.
Lemma set_nth_same : forall {A} i (x : A) l, i < length l -> nth_error (set_nth i x l) i = Some x.
Proof. intros A i x l. revert i. induction l as [|a l IH]; intros [|i] H; cbn in *; try lia; auto. apply IH. lia. Qed.
Lemma set_nth_other : forall {A} i j (x : A) l, i <> j -> nth_error (set_nth i x l) j = nth_error l j.
Proof. intros A i j x l. revert i j. induction l as [|a l IH]; intros [|i] [|j] H; cbn; auto; try congruence. Qed.
Lemma set_nth_comm : forall {A} i j (x y : A) l, i <> j -> set_nth i x (set_nth j y l) = set_nth j y (set_nth i x l).
Proof. intros A i j x y l. revert i j. induction l as [|a l IH]; intros [|i] [|j] H; cbn; auto; try congruence. f_equal. apply IH. congruence. Qed.
Lemma set_nth_twice : forall {A} i (x y : A) l, set_nth i x (set_nth i y l) = set_nth i x l.
Proof. intros A i x y l. revert i. induction l as [|a l IH]; intros [|i]; cbn; auto. now rewrite IH. Qed.
Lemma set_nth_self : forall {A} i (x : A) l, nth_error l i = Some x -> set_nth i x l = l.
Proof. intros A i x l. revert i. induction l as [|a l IH]; intros [|i] H; cbn in *; try discriminate; auto; [congruence|]. now rewrite IH. Qed.
Lemma set_nth_app : forall {A} (a : list A) x y b, set_nth (length a) x (a ++ y :: b) = a ++ x :: b.
Proof. induction a as [|z a IH]; intros; cbn; [reflexivity|]. now rewrite IH. Qed.
Lemma forallb_set : forall {A} (f : A -> bool) i x l, forallb f l = true -> f x = true -> forallb f (set_nth i x l) = true.
Proof. intros A f i x l. revert i. induction l as [|a l IH]; intros [|i] H G; cbn in *; auto; apply andb_prop in H as [H1 H2]; [now rewrite G|now rewrite H1, IH]. Qed.
Lemma forallb_nth : forall {A} (f : A -> bool) l i x, forallb f l = true -> nth_error l i = Some x -> f x = true.
Proof. intros A f l i x H E. rewrite forallb_forall in H. apply H. eapply nth_error_In; eassumption. Qed.

(** ** Classes *)
Lemma wf_seq : forall co t, wf (TSeq co t) = true -> wf t = true.
Proof. intros co t W. cbn [wf] in W. now apply andb_prop in W. Qed.
Lemma wf_struct : forall i ms ps, wf (TStruct i ms ps) = true ->
  length (si_names i) = length ms /\ (forall t, In t ms -> wf t = true) /\
  (forall t, In t ps -> is_class t = true /\ wf t = true).
Proof.
  intros i ms ps H. cbn [wf] in H. apply andb_prop in H as [H _]. apply andb_prop in H as [H H3]. apply andb_prop in H as [H1 H2].
  split; [lia|]. rewrite forallb_forall in H2, H3. split; [exact H2|]. intros t Ht. apply H3 in Ht. now apply andb_prop in Ht.
Qed.
Lemma shaped_struct : forall i ms ps v, shaped (TStruct i ms ps) v = true ->
  exists own par, v = VStruct own par /\ all2b (map shaped ms) own = true /\ all2b (map shaped ps) par = true.
Proof. intros i ms ps v H. destruct v; try discriminate H. apply andb_prop in H as [H1 H2]. eauto. Qed.

Lemma index_of_name : forall k ns i, index_of k ns = Some i -> nth_error ns i = Some k.
Proof.
  induction ns as [|n ns IH]; intros i H; cbn in H; [discriminate|]. destruct (beq k n) eqn:E.
  - injection H as <-. cbn. f_equal. symmetry. now apply beq_eq.
  - destruct (index_of k ns) as [j|]; [|discriminate]. injection H as <-. cbn. auto.
Qed.
Lemma index_of_none : forall k ns, index_of k ns = None -> ~ In k ns.
Proof.
  induction ns as [|n ns IH]; intros H E; [destruct E|]. cbn in H. destruct E as [E|E].
  - subst. now rewrite beq_refl in H.
  - destruct (beq k n); [discriminate|]. destruct (index_of k ns); [discriminate|]. now apply IH.
Qed.

Lemma search_spec : forall fs k n p, search fs k n = Some p -> exists a q i f, p = ((n + a)%nat :: q, i) /\
  nth_error fs a = Some f /\ f k = Some (q, i).
Proof.
  induction fs as [|f fs IH]; intros k n p H; cbn in H; [discriminate|]. destruct (f k) as [[q i]|] eqn:E.
  - injection H as <-. exists O, q, i, f. rewrite Nat.add_0_r. auto.
  - apply IH in H as (a & q & i & g & -> & H1 & H2). exists (S a), q, i, g. rewrite Nat.add_succ_r. auto.
Qed.
Lemma search_none : forall fs k n, search fs k n = None -> forall f, In f fs -> f k = None.
Proof.
  induction fs as [|g fs IH]; intros k n H f Hf; [destruct Hf|]. cbn in H. destruct (g k) as [[q i]|] eqn:E; [discriminate|].
  destruct Hf as [<-|Hf]; eauto.
Qed.

(** The path found for a name leads to a member with that name. *)
Theorem find_path_name : forall t k q i, find_path t k = Some (q, i) -> name_at t q i = Some k.
Proof.
  apply (ty_ind' (fun t => forall k q i, find_path t k = Some (q, i) -> name_at t q i = Some k)); intros; try discriminate.
  cbn [find_path] in H1. destruct (search (map find_path ps) k 0) as [[q' i']|] eqn:E.
  - injection H1 as -> ->. apply search_spec in E as (a & q1 & i1 & f & E & N & F). cbn in E. injection E as -> ->.
    rewrite nth_error_map in N. destruct (nth_error ps a) as [p|] eqn:Ep; [|discriminate]. cbn in N. injection N as <-.
    cbn [name_at]. rewrite Ep. rewrite Forall_forall in H0. apply H0; [|exact F]. eapply nth_error_In; eassumption.
  - destruct (index_of k (map (nameOverride i) (si_names i))) as [n|] eqn:E2; [|discriminate]. injection H1 as <- <-.
    cbn [name_at]. now apply index_of_name.
Qed.

(** A path leads to a member, in every value of the type. *)
Definition good_path (t : ty) (q : list nat) (i : nat) (tm : ty) : Prop :=
  type_at t q i = Some tm /\ wf tm = true /\
  forall v, shaped t v = true -> exists x, field v q i = Some x /\ shaped tm x = true /\
    forall y, shaped tm y = true -> shaped t (set_field v q i y) = true.

Theorem type_at_good : forall q t i tm, wf t = true -> type_at t q i = Some tm -> good_path t q i tm.
Proof.
  induction q as [|n q IH]; intros t i tm W H; destruct t as [| | | | | | | | | |si ms ps| |]; try discriminate H; assert (H' := H); cbn [type_at] in H.
  - destruct (wf_struct _ _ _ W) as (_ & Wm & _). split; [exact H'|]. split; [apply Wm; eapply nth_error_In; eassumption|].
    intros v Hv. apply shaped_struct in Hv as (own & par & -> & Ho & Hp). cbn [field set_field].
    assert (Hf : nth_error (map shaped ms) i = Some (shaped tm)) by now rewrite nth_error_map, H.
    destruct (all2b_nth _ _ _ _ Ho Hf) as (x & Ex & Sx). exists x. split; [exact Ex|]. split; [exact Sx|].
    intros y Hy. cbn [shaped]. rewrite (all2b_set _ _ _ _ _ Ho Hf Hy). exact Hp.
  - destruct (nth_error ps n) as [p|] eqn:E; [|discriminate]. destruct (wf_struct _ _ _ W) as (_ & _ & Wp).
    destruct (Wp p) as [Cp Wp']; [eapply nth_error_In; eassumption|].
    destruct (IH p i tm Wp' H) as (_ & Wt & G). split; [exact H'|]. split; [exact Wt|].
    intros v Hv. apply shaped_struct in Hv as (own & par & -> & Ho & Hp). cbn [field set_field].
    assert (Hf : nth_error (map shaped ps) n = Some (shaped p)) by now rewrite nth_error_map, E.
    destruct (all2b_nth _ _ _ _ Hp Hf) as (w & Ew & Sw). rewrite Ew. destruct (G w Sw) as (x & Ex & Sx & K).
    exists x. split; [exact Ex|]. split; [exact Sx|]. intros y Hy. cbn [shaped]. rewrite Ho. cbn [andb].
    apply (all2b_set _ _ _ _ _ Hp Hf). now apply K.
Qed.
Theorem find_path_good : forall t k q i, wf t = true -> find_path t k = Some (q, i) -> exists tm, good_path t q i tm.
Proof.
  assert (G : forall t k q i, wf t = true -> find_path t k = Some (q, i) -> exists tm, type_at t q i = Some tm).
  { apply (ty_ind' (fun t => forall k q i, wf t = true -> find_path t k = Some (q, i) -> exists tm, type_at t q i = Some tm)); intros; try discriminate.
    destruct (wf_struct _ _ _ H1) as (L & Wm & Wp).
    cbn [find_path] in H2. destruct (search (map find_path ps) k 0) as [[q' i']|] eqn:E.
    - injection H2 as -> ->. apply search_spec in E as (a & q1 & i1 & f & E & N & F). cbn in E. injection E as -> ->.
      rewrite nth_error_map in N. destruct (nth_error ps a) as [p|] eqn:Ep; [|discriminate]. cbn in N. injection N as <-.
      cbn [type_at]. rewrite Ep. rewrite Forall_forall in H0. assert (Ip := nth_error_In _ _ Ep). eapply H0; eauto. now apply Wp.
    - destruct (index_of k (map (nameOverride i) (si_names i))) as [n|] eqn:E2; [|discriminate]. injection H2 as <- <-.
      cbn [type_at]. apply index_of_name in E2. assert (n < length ms).
      { rewrite <- L, <- (map_length (nameOverride i)). apply nth_error_Some. congruence. }
      apply nth_error_Some in H2. destruct (nth_error ms n); [eauto|congruence]. }
  intros t k q i W F. destruct (G t k q i W F) as [tm H]. exists tm. now apply type_at_good.
Qed.
Theorem member_type_good : forall t k tm, wf t = true -> member_type t k = Some tm ->
  exists q i, find_path t k = Some (q, i) /\ good_path t q i tm.
Proof.
  intros t k tm W H. unfold member_type in H. destruct (find_path t k) as [[q i]|]; [|discriminate].
  exists q, i. split; [reflexivity|]. now apply type_at_good.
Qed.
Lemma member_none : forall t k, wf t = true -> member_type t k = None -> find_path t k = None.
Proof.
  intros t k W H. unfold member_type in H. destruct (find_path t k) as [[q i]|] eqn:E; [|reflexivity].
  destruct (find_path_good t k q i W E) as (tm & Ht & _). congruence.
Qed.

(** Fields with different paths do not disturb each other. *)
Lemma field_set_same : forall q v i x y, field v q i = Some y -> field (set_field v q i x) q i = Some x.
Proof.
  induction q as [|n q IH]; intros v i x y H; destruct v; try discriminate H; cbn [field set_field] in *.
  - apply set_nth_same. apply nth_error_Some. congruence.
  - destruct (nth_error parents n) as [w|] eqn:E; [|discriminate]. cbn [field].
    rewrite set_nth_same by (apply nth_error_Some; congruence). eauto.
Qed.
Lemma field_set_other : forall q1 q2 v i1 i2 x, (q1, i1) <> (q2, i2) -> field (set_field v q1 i1 x) q2 i2 = field v q2 i2.
Proof.
  induction q1 as [|n1 q1 IH]; intros [|n2 q2] v i1 i2 x H; destruct v; try reflexivity; cbn [field set_field].
  - apply set_nth_other. congruence.
  - destruct (nth_error parents n1) as [w|] eqn:E; reflexivity.
  - destruct (nth_error parents n1) as [w|] eqn:E; [|reflexivity]. cbn [field].
    destruct (Nat.eq_dec n1 n2) as [<-|N].
    + rewrite set_nth_same by (apply nth_error_Some; congruence). rewrite E. apply IH. congruence.
    + now rewrite set_nth_other.
Qed.
Lemma set_field_comm : forall q1 q2 v i1 i2 x y, (q1, i1) <> (q2, i2) ->
  set_field (set_field v q1 i1 x) q2 i2 y = set_field (set_field v q2 i2 y) q1 i1 x.
Proof.
  induction q1 as [|n1 q1 IH]; intros [|n2 q2] v i1 i2 x y H; destruct v; try reflexivity; cbn [set_field].
  - f_equal. apply set_nth_comm. congruence.
  - destruct (nth_error parents n2) as [w|] eqn:E; reflexivity.
  - destruct (nth_error parents n1) as [w|] eqn:E; reflexivity.
  - destruct (nth_error parents n1) as [w1|] eqn:E1; destruct (nth_error parents n2) as [w2|] eqn:E2; cbn [set_field]; rewrite ?E1, ?E2; try reflexivity.
    destruct (Nat.eq_dec n1 n2) as [<-|N].
    + rewrite !set_nth_same by (apply nth_error_Some; congruence). rewrite E1 in E2. injection E2 as <-.
      rewrite !set_nth_twice. f_equal. f_equal. apply IH. congruence.
    + rewrite !set_nth_other by congruence. rewrite E1, E2. f_equal. apply set_nth_comm. congruence.
    + destruct (Nat.eq_dec n1 n2) as [<-|N]; [congruence|]. now rewrite set_nth_other, E2 by congruence.
    + destruct (Nat.eq_dec n1 n2) as [<-|N]; [congruence|]. now rewrite set_nth_other, E1 by congruence.
Qed.

(** ** Value initialised objects have the shape of their type. *)
Theorem default_shaped : forall t, wf t = true -> shaped t (default t) = true.
Proof.
  apply (ty_ind' (fun t => wf t = true -> shaped t (default t) = true)); intros; try reflexivity.
  - cbn [default shaped]. rewrite repeat_length, Nat.eqb_refl. cbn [andb]. cbn [wf] in H0. specialize (H H0).
    induction n; cbn; [reflexivity|]. now rewrite H.
  - cbn [default shaped wf] in *. induction H as [|t ts Ht H IH]; cbn in *; [reflexivity|]. apply andb_prop in H0 as [H1 H2].
    rewrite Ht by assumption. auto.
  - destruct (wf_struct _ _ _ H1) as (_ & Wm & Wp). cbn [default shaped]. apply andb_true_intro. split.
    + clear - H Wm. induction H as [|t ts Ht H IH]; cbn in *; [reflexivity|]. rewrite Ht by auto. apply IH. auto.
    + clear - H0 Wp. induction H0 as [|t ts Ht H IH]; cbn in *; [reflexivity|]. rewrite Ht by (apply Wp; auto). apply IH. auto.
  - cbn [wf] in H0. destruct H as [|c cs Hc H]; cbn in H0; [discriminate|]. cbn [default shaped map nth_error]. apply Hc.
    apply andb_prop in H0 as [H0 _]. apply andb_prop in H0 as [H0 _]. now apply andb_prop in H0 as [_ H0].
Qed.
Lemma wf_classes : forall cs i t, forallb (fun c => is_class c && wf c) cs = true -> nth_error cs i = Some t ->
  is_class t = true /\ wf t = true.
Proof. intros cs i t H E. apply (forallb_nth _ _ _ _ H) in E. now apply andb_prop in E. Qed.
