(** Reading the entries of a map one after the other. *)
From Coq Require Import ZArith String List Bool Lia ZifyBool.
From Verif Require Import Model.Base Model.Source Model.Number Model.ParserInterface Model.Types Model.Importer Spec.Json Spec.Typed Spec.Import Spec.Denotes
  Proofs.TreeM Proofs.JsonSim Proofs.InterpP Proofs.JsonPartP Proofs.ClassP Proofs.DenotesP Proofs.ExportP Proofs.ImportP.
Import ListNotations.
Open Scope Z_scope.

Definition put (mk : map_kind) (d : list (bytes * val)) (kv : bytes * val) : list (bytes * val) :=
  match mk with
  | MFirst => match map_find (fst kv) d with Some _ => d | None => map_set (fst kv) (snd kv) d end
  | MPlace => map_set (fst kv) (snd kv) d
  | MAll => map_add (fst kv) (snd kv) d
  end.
Lemma find_app : forall n a b, map_find n (a ++ b) = match map_find n a with Some y => Some y | None => map_find n b end.
Proof. intros n a b. induction a as [|[k v] a IH]; [reflexivity|]. cbn [app map_find]. destruct (beq k n); [reflexivity|exact IH]. Qed.
Lemma beq_not : forall a b, a <> b -> beq a b = false.
Proof. intros a b N. destruct (beq a b) eqn:E; [apply beq_eq in E; contradiction|reflexivity]. Qed.
Lemma put_first : forall n l d, map_find n (fold_left (put MFirst) l d) = match map_find n d with Some y => Some y | None => map_find n l end.
Proof.
  intros n. induction l as [|[k x] l IH]; intro d; cbn [fold_left put fst snd map_find]; [destruct (map_find n d); reflexivity|]. rewrite IH.
  destruct (list_eq_dec Z.eq_dec k n) as [->|N].
  - rewrite beq_refl. destruct (map_find n d) eqn:E; [now rewrite E|]. now rewrite map_set_find.
  - rewrite (beq_not k n N). destruct (map_find k d); [reflexivity|]. rewrite map_set_other by congruence. reflexivity.
Qed.
Lemma put_last : forall n l d, map_find n (fold_left (put MPlace) l d) = match map_find n (rev l) with Some y => Some y | None => map_find n d end.
Proof.
  intros n. induction l as [|[k x] l IH]; intro d; cbn [fold_left put fst snd rev]; [reflexivity|]. rewrite IH, find_app. destruct (map_find n (rev l)); [reflexivity|]. cbn [map_find].
  destruct (list_eq_dec Z.eq_dec k n) as [->|N].
  - now rewrite beq_refl, map_set_find.
  - rewrite (beq_not k n N). now rewrite map_set_other by congruence.
Qed.
Lemma put_ordered : forall mk l d, ordered mk d -> ordered mk (fold_left (put mk) l d).
Proof.
  intros mk. induction l as [|[k x] l IH]; intros d O; [exact O|]. cbn [fold_left]. apply IH. destruct mk; cbn [put fst snd].
  - destruct (map_find k d); [exact O|]. apply map_set_ordered; [discriminate|exact O].
  - apply map_set_ordered; [discriminate|exact O].
  - now apply map_add_ordered.
Qed.

Lemma same_read : forall k m marker t x y j, overwritten t = true -> i_parse (interp (json_sc k true) m marker t) x j = i_parse (interp (json_sc k true) m marker t) y j.
Proof. intros k m marker t x y j H. destruct t; try discriminate H; reflexivity. Qed.
Lemma entries_run : forall k m marker t mk l es d found, (mk = MPlace -> overwritten t = true) ->
  Forall (fun kv => forall j, stands_for marker t (snd kv) j -> i_parse (interp (json_sc k true) m marker t) (default t) j = Ok (snd kv)) l ->
  Forall2 (fun kv e => entry json_key (fst kv) (stands_for marker t (snd kv)) e) l es ->
  exists f, in_members (json_sc k true) m (in_scan_map mk (interp (json_sc k true) m marker t) (default t)) (VMap d) found es = Ok (VMap (fold_left (put mk) l d), f).
Proof.
  intros k m marker t mk l es d found Ov R F. revert d found R. induction F as [|[n x] [kr j] l es [Ek Ev] F IH]; intros d found R; cbn [in_members fold_left]; [eauto|].
  cbn [fst snd] in Ek, Ev. inversion R as [|? ? Rx R']; subst. cbn [snd] in Rx. cbn [json_sc sc_key]. assert (Kn := names_key k true kr n Ek). cbn [json_sc sc_key] in Kn. rewrite Kn.
  cbn [bind in_scan_map fst snd put]. destruct mk.
  - rewrite (Rx j Ev). cbn [bind]. destruct (IH (put MFirst d (n, x)) (n :: found) R') as (f & E); eauto.
  - rewrite (same_read k m marker t _ (default t) j (Ov eq_refl)), (Rx j Ev). cbn [bind]. destruct (IH (put MPlace d (n, x)) (n :: found) R') as (f & E); eauto.
  - rewrite (Rx j Ev). cbn [bind]. destruct (IH (put MAll d (n, x)) (n :: found) R') as (f & E); eauto.
Qed.
(** What is written for a multimap, read as a map of another kind. *)
Lemma written_entries : forall cfg k t o j, reads_back (pc_strict cfg) (pc_marker cfg) (TMap MAll t) (VMap o) -> stands_for (pc_marker cfg) (TMap MAll t) (VMap o) j ->
  exists es, j = Obj es /\ Forall2 (fun kv e => entry json_key (fst kv) (stands_for (pc_marker cfg) t (snd kv)) e) o es /\
  Forall (fun kv => forall j, stands_for (pc_marker cfg) t (snd kv) j -> i_parse (interp (json_sc k true) (pc_strict cfg) (pc_marker cfg) t) (default t) j = Ok (snd kv)) o.
Proof.
  intros cfg k t o j (W & (Sh & Va) & Dn & Nn & Un & Ex) (l & es & Q & -> & F). injection Q as <-. exists es. split; [reflexivity|]. split; [exact F|].
  apply Forall_forall. intros [n x] Hx j Hj. apply json_reads; [|exact Hj]. cbn [snd]. cbn [shaped] in Sh. rewrite forallb_forall in Sh. destruct Va as [_ Va]. destruct Nn as [_ Nn].
  rewrite Forall_forall in Va, Nn. split; [exact W|]. split; [exact (proj2 Dn)|]. split; [exact (Sh _ Hx)|]. split; [exact (Va _ Hx)|]. split; [exact (Nn _ Hx)|]. split; [exact Un|].
  intros Hm. destruct (Ex Hm) as [[_ C] No]. rewrite Forall_forall in C. split; [exact (C _ Hx)|exact (proj2 No)].
Qed.
Lemma written_read : forall cfg k t o j text mk, pc_conv cfg = true -> reads_back (pc_strict cfg) (pc_marker cfg) (TMap MAll t) (VMap o) ->
  stands_for (pc_marker cfg) (TMap MAll t) (VMap o) j -> document j text -> (mk = MPlace -> overwritten t = true) ->
  accepts cfg k (TMap mk t) (VMap []) text (VMap (fold_left (put mk) o [])).
Proof.
  intros cfg k t o j text mk C B Hj D Ov. destruct (written_entries cfg k t o j B Hj) as (es & -> & F & R). apply (doc_imports cfg k (Obj es) text (TMap mk t) (VMap []) D). unfold meaning. rewrite C.
  cbn [interp i_parse in_map]. destruct (entries_run k _ _ t mk o es [] [] Ov R F) as (f & E). rewrite E. cbn [bind]. destruct (pc_strict cfg); reflexivity.
Qed.
