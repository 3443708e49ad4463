(** Shared pointers: reading any document. *)
From Coq Require Import ZArith String List Bool Lia ZifyBool.
From Verif Require Import Model.Base Model.Source Model.Number Model.ParserInterface Model.JsonParser
  Model.Types Model.Deserializer Model.Importer Model.Shared
  Spec.JsonString Spec.Json Spec.Typed Spec.Import Spec.Denotes Spec.Shared
  Proofs.Sim Proofs.TreeM Proofs.InterpP Proofs.TypedP Proofs.JsonSim Proofs.ImportP Proofs.DefinedP Proofs.JsonPartP Proofs.MemberDocP Proofs.SharedP.
Import ListNotations.
Open Scope Z_scope.

Lemma elems_spelled : forall l t, spells_elems l t -> forall j, In j l -> exists t', spells j t'.
Proof. induction 1; intros j' [<-|H']; eauto. destruct H'. Qed.
Lemma elem_document : forall l text j, document (Arr l) text -> In j l -> exists text', document j text'.
Proof.
  intros l text j D H. inversion D as [? w1 t w2 _ S _]; subst. assert (exists t', spells j t') as [t' S'].
  { inversion S; subst; [destruct H|]. eauto using elems_spelled. }
  exists ([] ++ t' ++ []). constructor; [constructor|exact S'|constructor].
Qed.

Section Tree.
  Context {A : Type} (sc : scal_ops A) (m : strictness) (marker : bytes) (P : ty).
  Notation I := (interp sc m marker).
  Notation scan := (i_scan (I (shared_info P))).

  (** The value that is not initialised does not matter when the document has the name. *)
  Lemma members_start : forall l x x' d found, (exists key j, In (key, j) l /\ sc_key sc key = Ok (bs "sharedPtrName")) ->
    in_members sc m scan (VStruct [x; d] []) found l = in_members sc m scan (VStruct [x'; d] []) found l.
  Proof.
    induction l as [|[k j] l IH]; intros x x' d found (key & jk & H & E); [destruct H|]. cbn [in_members].
    destruct (sc_key sc k) as [k'| | |] eqn:Ek; cbn [bind]; try reflexivity.
    cbn [interp i_scan shared_info map in_scan_struct in_scan_parents si_names nameOverride si_over lookup_name in_scan_members].
    destruct (beq k' (bs "sharedPtrName")) eqn:B; [reflexivity|].
    assert (H' : exists key j, In (key, j) l /\ sc_key sc key = Ok (bs "sharedPtrName")).
    { destruct H as [H|H]; [|eauto]. injection H as <- <-. rewrite Ek in E. injection E as ->. now rewrite beq_refl in B. }
    destruct (beq k' (bs "data")).
    - cbn [bind]. destruct d as [| | | | | |o| |]; try reflexivity. cbn [i_parse].
      destruct (i_parse (I P) (match o with Some x0 => x0 | None => default P end) j) as [y| | |]; cbn [bind]; try reflexivity. now apply IH.
    - destruct m; try reflexivity. destruct (skippable sc j); [|reflexivity]. now apply IH.
  Qed.
  Lemma members_no_data : forall l x d found v' f', (forall key j, In (key, j) l -> sc_key sc key <> Ok (bs "data")) ->
    in_members sc m scan (VStruct [x; d] []) found l = Ok (v', f') -> exists y, v' = VStruct [y; d] [].
  Proof.
    induction l as [|[k j] l IH]; intros x d found v' f' N E; cbn [in_members] in E; [exists x; congruence|].
    assert (N' : forall key j, In (key, j) l -> sc_key sc key <> Ok (bs "data")) by (intros; eapply N; right; eassumption).
    destruct (sc_key sc k) as [k'| | |] eqn:Ek; cbn [bind] in E; try discriminate E.
    cbn [interp i_scan shared_info map in_scan_struct in_scan_parents si_names nameOverride si_over lookup_name in_scan_members] in E.
    destruct (beq k' (bs "sharedPtrName")).
    - cbn [bind] in *. destruct (i_parse (I (TInt ILong)) x j) as [y| | |] eqn:Ey; cbn [interp i_parse] in *; rewrite ?Ey in *; cbn [bind] in *; try discriminate E. eauto.
    - destruct (beq k' (bs "data")) eqn:B.
      + apply beq_eq in B. subst k'. destruct (N k j (or_introl eq_refl) Ek).
      + destruct m; try discriminate E. destruct (skippable sc j); [|discriminate E]. eauto.
  Qed.

  Definition named (l : list (bytes * tree A)) : Prop := exists key j, In (key, j) l /\ sc_key sc key = Ok (bs "sharedPtrName").
  Lemma info_start : forall l, named l -> i_parse (I (shared_info P)) fresh_info (Obj l) = i_parse (I (shared_info P)) (default (shared_info P)) (Obj l).
  Proof.
    intros l H. change (default (shared_info P)) with (VStruct [VInt 0; VOpt None] []). unfold fresh_info.
    change (i_parse (I (shared_info P))) with (in_map sc m (required (shared_info P)) scan). cbn [in_map].
    now rewrite (members_start l unset (VInt 0) (VOpt None) [] H).
  Qed.
  Lemma info_no_data : forall l info, (forall key j, In (key, j) l -> sc_key sc key <> Ok (bs "data")) ->
    i_parse (I (shared_info P)) (default (shared_info P)) (Obj l) = Ok info -> exists y, info = VStruct [y; VOpt None] [].
  Proof.
    intros l info H E. change (default (shared_info P)) with (VStruct [VInt 0; VOpt None] []) in E.
    change (i_parse (I (shared_info P))) with (in_map sc m (required (shared_info P)) scan) in E. cbn [in_map] in E.
    apply bind_ok in E as ([v' f'] & E1 & E2). destruct (members_no_data _ _ _ _ _ _ H E1) as (y & ->). exists y.
    destruct m; try congruence. destruct (forallb _ _); congruence.
  Qed.
End Tree.

Lemma get_shared_defined : forall P info s, pointer_type P = true -> shaped (shared_info P) info = true -> get_shared info s <> UB /\ get_shared info s <> Hang.
Proof.
  intros P info s HP H. destruct info as [| | | | | | |own par|]; try discriminate H. cbn [shaped shared_info] in H. apply andb_prop in H as [H1 H2].
  destruct own as [|x [|d [|e own]]]; try discriminate H1; cbn in H1; rewrite ?andb_false_r in H1; try discriminate H1.
  destruct par; [|discriminate H2].
  destruct x as [n| | | | | | | |]; try discriminate H1. cbn in H1. rewrite andb_true_r in H1. destruct d as [| | | | | |[o|]| |]; try discriminate H1; cbn [get_shared].
  - destruct P; try discriminate HP; destruct o as [| | | | |[o|]| | |]; try discriminate H1; split; discriminate.
  - destruct (saved_at (sh_saved s) n); split; discriminate.
Qed.

Section Docs.
  Context (cfg : pconfig) (k : skind) (P : ty).
  Notation sc := (json_sc k (pc_conv cfg)).
  Notation m := (pc_strict cfg).
  Notation root := (TVec (TPtr (shared_info P))).
  Hypothesis (W : wf P = true) (HP : pointer_type P = true).

  Lemma info_wf : wf (shared_info P) = true.
  Proof. cbn. now rewrite W. Qed.
  Lemma info_part : forall js j t' j', In j js -> is_null null_is j = false -> jpart cfg (shared_info P) j t' j' -> jpart cfg root (Arr js) t' j'.
  Proof. intros js j t' j' H N Q. eapply pt_vec; [exact H|]. apply pt_ptr; assumption. Qed.

  Lemma element_defined : forall js text s j, document (Arr js) text -> In j js -> sound cfg k root (Arr js) ->
    (m = Weak -> strings (skip_safe k) (Arr js)) ->
    (forall l, j = Obj l -> exists key jk, In (key, jk) l /\ names (pc_conv cfg) key (bs "sharedPtrName")) ->
    in_shared sc m (pc_marker cfg) P s j <> UB /\ in_shared sc m (pc_marker cfg) P s j <> Hang.
  Proof.
    intros js text s j D H [R Sd] Sk Nm. unfold in_shared. destruct (json_no_hang k (pc_conv cfg)) as (h1 & h2 & h3 & h4 & h5).
    destruct (null_tree sc j) eqn:N.
    - destruct j as [a|l|l]; try discriminate N. cbn [null_tree skippable] in *. rewrite (h5 a N). split; discriminate.
    - destruct j as [a|l|l]; try (split; discriminate). destruct (Nm l eq_refl) as (key & jk & Hk & Hn).
      rewrite info_start by (exists key, jk; split; [exact Hk|now apply names_key]).
      destruct (elem_document _ _ _ D H) as [text' D'].
      assert (Sh : shaped (shared_info P) (default (shared_info P)) = true) by reflexivity.
      assert (Ub : meaning cfg k (shared_info P) (default (shared_info P)) (Obj l) <> UB).
      { apply (meaning_not_ub cfg k _ _ _ text' info_wf Sh D'). split.
        - inversion R as [|? G|]; subst. now apply G.
        - intros t' j' Q. apply Sd. eapply info_part; [exact H|reflexivity|exact Q]. }
      assert (Hg : meaning cfg k (shared_info P) (default (shared_info P)) (Obj l) <> Hang).
      { apply (proj1 (no_hang sc m (pc_marker cfg) h1 h2 h3 h4 h5 (shared_info P))). intro Hm. apply safe_skippable. specialize (Sk Hm). inversion Sk as [|? G|]; subst. now apply G. }
      unfold meaning in *. destruct (i_parse _ (default (shared_info P)) (Obj l)) as [info| | |] eqn:E; cbn [bind]; try (split; congruence).
      apply (get_shared_defined P info s HP). eapply reading_keeps_shape; [exact info_wf|exact Sh|exact E].
  Qed.
  Lemma elements_defined : forall js text, document (Arr js) text -> sound cfg k root (Arr js) -> (m = Weak -> strings (skip_safe k) (Arr js)) ->
    (forall l, In (Obj l) js -> exists key jk, In (key, jk) l /\ names (pc_conv cfg) key (bs "sharedPtrName")) ->
    forall l s, incl l js -> in_shareds sc m (pc_marker cfg) P l s <> UB /\ in_shareds sc m (pc_marker cfg) P l s <> Hang.
  Proof.
    intros js text D Sd Sk Nm. induction l as [|j l IH]; intros s Hi; [split; discriminate|]. cbn [in_shareds].
    assert (Hj : In j js) by (apply Hi; now left).
    destruct (element_defined js text s j D Hj Sd Sk) as [E1 E2]; [intros l' ->; now apply Nm|].
    destruct (in_shared sc m (pc_marker cfg) P s j) as [s'| | |]; cbn [bind]; try (split; congruence). apply IH. intros x Hx. apply Hi. now right.
  Qed.

  (** A reference when nothing is saved. *)
  Lemma element_unknown : forall s j s', readable (pc_conv cfg) j -> sh_saved s = [] -> (forall l, j = Obj l -> lacks cfg l (bs "data")) ->
    (forall l, j = Obj l -> exists key jk, In (key, jk) l /\ names (pc_conv cfg) key (bs "sharedPtrName")) ->
    in_shared sc m (pc_marker cfg) P s j = Ok s' -> sh_saved s' = [] /\ forall l, j <> Obj l.
  Proof.
    intros s j s' R Es L Nm E. unfold in_shared in E. destruct (null_tree sc j) eqn:N.
    - destruct (skippable sc j); [|discriminate E]. assert (mkShared (sh_ptrs s ++ [None]) (sh_saved s) (sh_objects s) = s') as <- by congruence.
      split; [exact Es|]. intros l ->. discriminate N.
    - destruct j as [a|l|l]; try discriminate E. destruct (Nm l eq_refl) as (key & jk & Hk & Hn).
      rewrite info_start in E by (exists key, jk; split; [exact Hk|now apply names_key]). apply bind_ok in E as (info & E1 & E2).
      destruct (info_no_data sc m (pc_marker cfg) P l info) with (2 := E1) as (y & ->); [now apply lacks_key; [|apply L]|].
      exfalso. destruct y; try discriminate E2. cbn [get_shared] in E2. rewrite Es in E2. discriminate E2.
  Qed.
End Docs.
