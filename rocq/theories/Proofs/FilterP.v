(** A class with a filter is printed like the class without the members that the filter forbids. *)
From Coq Require Import ZArith List Bool Lia.
From Verif Require Import Model.Base Model.Number Model.Printer Model.JsonPrinter Model.Types Model.Serializer Model.Exporter Model.BsonPrinter Model.BsonDoc Model.Filter
  Spec.Filter Proofs.Tac.
Import ListNotations.
Open Scope Z_scope.

Lemma lets_says : forall l n, lets l n <-> filter_says l n = true.
Proof.
  intros l n. split.
  - induction 1 as [|n l|m b l n N H IH]; cbn [filter_says]; [reflexivity|now rewrite beq_refl|]. destruct (beq m n) eqn:E; [apply beq_eq in E; contradiction|exact IH].
  - induction l as [|[m b] l IH]; cbn [filter_says]; [constructor|]. destruct (beq m n) eqn:E.
    + apply beq_eq in E. subst. intros ->. constructor.
    + intro H. apply lets_later; [|auto]. intros ->. rewrite beq_refl in E. discriminate E.
Qed.
Definition held (v : val) : Prop := v <> VOpt None.
Lemma held_keeps : forall o v, held v -> Serializer.keeps o v = true.
Proof. intros o v H. unfold Serializer.keeps. destruct o; [|reflexivity]. destruct v as [| | | | | |[]| |]; try reflexivity. now destruct H. Qed.

Section F.
  Context {St : Type} (ops : printer_ops St) (marker : bytes) (l : list (bytes * bool)).
  Notation sr := (ser ops marker).
  Lemma then_nothing : forall (w : writer St) s, w_then w_nothing w s = w s.
  Proof. intros w s. unfold w_then, w_nothing. cbn [bind]. destruct (w s) as [[out s']| | |]; reflexivity. Qed.
  Lemma then_eq : forall (a b b' : writer St) s, (forall s, b s = b' s) -> w_then a b s = w_then a b' s.
  Proof. intros a b b' s H. unfold w_then. destruct (a s) as [[out s1]| | |]; try reflexivity. cbn [bind]. now rewrite H. Qed.
  Lemma then_eq_l : forall (a a' b : writer St) s, (forall s, a s = a' s) -> w_then a b s = w_then a' b s.
  Proof. intros a a' b s H. unfold w_then. now rewrite H. Qed.
  Lemma filtered_members : forall i ns ts vs ns' ts' vs', let_through l ns ts vs ns' ts' vs' -> Forall held vs' ->
    forall s, put_filtered ops l i ns (map sr ts) vs s = put_members ops (map (nameOverride i) ns') (map opt_type ts') (map sr ts') vs' s.
  Proof.
    intros i ns ts vs ns' ts' vs' H. induction H as [|n t v ns ts vs ns' ts' vs' L H IH|n t v ns ts vs ns' ts' vs' L H IH]; intros F s; cbn [put_filtered put_members map].
    - reflexivity.
    - inversion F; subst. apply lets_says in L. rewrite L, held_keeps by assumption. apply then_eq. auto.
    - destruct (filter_says l n) eqn:E; [apply lets_says in E; contradiction|]. rewrite then_nothing. now apply IH.
  Qed.
  Lemma filtered_sizes : forall i ns ts vs ns' ts' vs', let_through l ns ts vs ns' ts' vs' -> Forall held vs' ->
    forall s, size_filtered ops l i ns (map sr ts) vs s = size_members ops (map (nameOverride i) ns') (map opt_type ts') (map sr ts') vs' s.
  Proof.
    intros i ns ts vs ns' ts' vs' H. induction H as [|n t v ns ts vs ns' ts' vs' L H IH|n t v ns ts vs ns' ts' vs' L H IH]; intros F s; cbn [size_filtered size_members map].
    - reflexivity.
    - inversion F; subst. apply lets_says in L. rewrite L, held_keeps by assumption. rewrite IH by assumption. reflexivity.
    - destruct (filter_says l n) eqn:E; [apply lets_says in E; contradiction|]. cbn [bind]. rewrite IH by assumption.
      destruct (size_members _ _ _ _ _ _) as [[a b]| | |]; reflexivity.
  Qed.
  Context (i : sinfo) (ms ps : list ty) (own par : list val) (ns' : list bytes) (ms' : list ty) (own' : list val)
    (H : let_through l (si_names i) ms own ns' ms' own') (F : Forall held own') (Hp : si_pair i = false).
  Notation new := (TStruct (with_names i ns') ms' ps).
  Lemma filtered_total : forall acc s, sf_total (ser_filtered ops marker l i ms ps) (VStruct own par) acc s = sf_total (sr new) (VStruct own' par) acc s.
  Proof.
    intros acc s. cbn [ser_filtered ser sf_total]. unfold total_filtered, total_struct. cbn [si_names with_names]. rewrite (filtered_sizes i _ _ _ _ _ _ H F).
    change (nameOverride (with_names i ns')) with (nameOverride i). reflexivity.
  Qed.
  Lemma filtered_size : forall poly s, sf_size (ser_filtered ops marker l i ms ps) poly (VStruct own par) s = sf_size (sr new) poly (VStruct own' par) s.
  Proof.
    intros poly s. cbn [ser sf_size]. change (si_pair (with_names i ns')) with (si_pair i). rewrite Hp. cbn [ser_filtered sf_size]. unfold size_struct. cbn [with_names si_virt si_mark si_poly].
    assert (T := fun acc s => filtered_total acc s). cbn [ser_filtered ser sf_total] in T. now rewrite T.
  Qed.
  Theorem filtered_print : forall s, sf_print (ser_filtered ops marker l i ms ps) (VStruct own par) s = sf_print (sr new) (VStruct own' par) s.
  Proof.
    intro s. assert (Z := filtered_size false). cbn [ser_filtered ser sf_size] in Z. cbn [ser_filtered ser sf_print]. unfold map_block, sized. rewrite Z.
    destruct (if pr_usesSize ops then _ else _) as [z| | |]; try reflexivity. cbn [bind]. apply then_eq. intro s1. apply then_eq_l. intro s2.
    change (si_mark (with_names i ns')) with (si_mark i). change (put_marker ops marker (with_names i ns')) with (put_marker ops marker i). apply then_eq. intro s3.
    unfold put_struct. cbn [si_names with_names]. apply then_eq_l. intro s4. change (nameOverride (with_names i ns')) with (nameOverride i). now apply filtered_members.
  Qed.
End F.

Theorem filtered_json_export : forall c k l i ms ps own par ns' ms' own', let_through l (si_names i) ms own ns' ms' own' -> Forall held own' -> si_pair i = false ->
  filtered_json c k l i ms ps (VStruct own par) = json_export c k (TStruct (with_names i ns') ms' ps) (VStruct own' par).
Proof.
  intros c k l i ms ps own par ns' ms' own' H F Hp. assert (E : filtered_pass c l i ms ps (VStruct own par) = json_pass c (TStruct (with_names i ns') ms' ps) (VStruct own' par)).
  { unfold filtered_pass, json_pass. now rewrite (filtered_print _ _ l i ms ps own par ns' ms' own' H F Hp). }
  unfold filtered_json, json_export, json_to_stream, json_to_string. rewrite E. destruct k; reflexivity.
Qed.
Theorem filtered_bson_export : forall c ids l i ms ps own par ns' ms' own', let_through l (si_names i) ms own ns' ms' own' -> Forall held own' -> si_pair i = false ->
  filtered_bson c ids l i ms ps (VStruct own par) = bson_export c ToStream false ids (TStruct (with_names i ns') ms' ps) (VStruct own' par).
Proof.
  intros c ids l i ms ps own par ns' ms' own' H F Hp. unfold filtered_bson, bson_export, export_with, to_stream_with, pass_with. cbn [null_root negb andb bson_root bson_close].
  rewrite (filtered_print _ _ l i ms ps own par ns' ms' own' H F Hp). destruct (sf_print _ _ _) as [[out s]| | |]; cbn [bind]; try reflexivity. now rewrite app_nil_r.
Qed.
