(** C36, C68: shared pointers.  [shared_export], [shared_imports]: Model/Shared.v; [same_sharing]: Spec/Shared.v.  The vector holds the
    addresses [ps] of objects of [heap]; 0 is null.  [P] is the type T*. *)
From Coq Require Import ZArith String List Bool Lia ZifyBool.
From Verif Require Import Model.Base Model.Source Model.Number Model.ParserInterface Model.JsonParser Model.JsonPrinter Model.Types Model.Deserializer Model.Importer Model.Exporter
  Model.Shared Spec.JsonString Spec.Json Spec.Typed Spec.Import Spec.Denotes Spec.Shared Proofs.Tac Proofs.JsonCheck Proofs.TreeM Proofs.JsonSim Proofs.DenotesP
  Proofs.InterpP Proofs.ImportP Proofs.JsonPartP Proofs.ExportP Proofs.SharedP Proofs.SharedDocP Properties.Members Properties.Imports Properties.Exports.
Import ListNotations.
Open Scope Z_scope.

(** ** C36.  Full claim: after a round trip two shared pointers refer to the same object exactly when they did before, and to
    equal values.  Proved for vectors of shared pointers, every aliasing pattern, every configuration of the printer, both kinds of output and of source, and
    Weak and Strict reading, under the conditions of C26 on the objects.  Missing: shared pointers inside shared objects and other
    containers. *)
Theorem C36_round_trip_partial : forall c k cfg src P heap ps out,
  pc_conv cfg = true -> pc_marker cfg = pf_marker c -> pc_strict cfg <> Exact ->
  wf P = true -> distinct_names (pf_marker c) P -> plain_names P -> plain_name (pf_marker c) -> (pc_strict cfg <> Weak -> untagged true P = true) ->
  (forall a, In a ps -> a <> 0 ->
     fits ILong a /\ valid P (VPtr (Some (heap a))) /\ no_null_target P (VPtr (Some (heap a))) /\ plain_keys P (VPtr (Some (heap a)))) ->
  (pf_type c <> OStream -> exists n, indent_room c (2 + n) /\ forall a, In a ps -> a <> 0 -> (nesting (heap a) <= n)%nat) ->
  shared_export c k P heap ps = Exported out ->
  exists qs objects, shared_imports cfg src P out qs objects /\ same_sharing heap ps objects qs.
Proof.
  intros c k cfg src P heap ps out Hc Hm Hx W Dn N M U Ho Hi E. rewrite shared_export_is in E.
  set (t := TVec (TPtr (shared_info P))) in *. set (v := VList (elements heap ps)) in *.
  assert (Wt : wf t = true) by (cbn; now rewrite W).
  assert (Va : each valid_here t v).
  { apply each_elements; try (intros; exact I); intros a Ia Na; destruct (Ho a Ia Na) as (F & V & _); [apply V|exact F]. }
  assert (Sh : shaped t v = true).
  { subst t v. cbn [shaped]. apply forallb_forall. intros x Ix. unfold elements in Ix. destruct (infos_kinds _ _ _ _ _ Ix) as [->|(info & ->)]; [reflexivity|].
    destruct (infos_elements _ _ _ _ _ Ix) as (a & d & -> & Ia & Na & D). destruct (Ho a Ia Na) as (_ & (V & _) & _).
    cbn. destruct D as [->| ->]; [reflexivity|]. now rewrite V. }
  assert (Pk : plain_keys t v).
  { apply each_elements; try (intros; exact I). intros a Ia Na. now apply Ho. }
  assert (Nn : no_null_target t v).
  { apply each_elements; try (intros; exact I); try (intros; reflexivity). intros a Ia Na. now apply Ho. }
  assert (Pn : plain_names t).
  { subst t. cbn [types plain_names shared_info]. unfold plain_names, shared_info. cbn [types map all_of]. repeat (split; [exact I|]).
    split; [split; [cbn -[plain_name]; conds|split; [constructor|intros []]]|]. split; [split; [split; exact I|split; [split; [exact I|exact N]|exact I]]|exact I]. }
  assert (Dt : distinct_names (pf_marker c) t).
  { subst t. unfold distinct_names, shared_info. cbn [types map all_of]. repeat (split; [exact I|]).
    split; [split; [cbn; conds|discriminate]|]. split; [split; [split; exact I|split; [split; [exact I|exact Dn]|exact I]]|exact I]. }
  assert (Io : indent_ok c v).
  { intro Q. right. destruct (Hi Q) as (n & (R1 & R2 & R3) & Hn). split; [exact R1|]. split; [exact R2|]. assert (L := elements_nesting heap ps n Hn). fold v in L.
    refine (Z.le_trans _ _ _ _ R3). apply Z.add_le_mono_r. apply Z.mul_le_mono_nonneg_r; [destruct (pf_tab c =? 0); lia|lia]. }
  destruct (C20_document_partial c k t v Wt (conj Sh Va) Pk Pn M Io out E) as (j & Dj & Sj).
  destruct (take_elements heap ps) as (s & Es & Hs). exists (sh_ptrs s), (sh_objects s). split; [|exact Hs].
  exists (S (length out)). intros fuel Hf. assert (Q := shared_try_spec src fuel cfg P j out Dj ltac:(lia)).
  assert (R : in_root (json_sc src (pc_conv cfg)) (pc_strict cfg) (pc_marker cfg) P (mkShared [] [] []) j = Ok s).
  { rewrite Hc, Hm. unfold stands_for, json_sense in Sj. subst t v. destruct Sj as (l & js & Ql & -> & F). assert (l = elements heap ps) as -> by congruence.
    cbn [in_root]. refine (elements_read (json_sc src true) (pc_strict cfg) (pf_marker c) P json_int json_bool json_str json_tag json_null json_key _ _ js _ _ _ _ F Es).
    - intros a ->. split; reflexivity.
    - intros info j Ii Hj. apply json_reads; [|exact Hj]. unfold fine.
      destruct (infos_elements _ _ _ _ _ Ii) as (a & d & -> & Ia & Na & Dd).
      assert (Sub : forall Q, each Q (TVec (TPtr (shared_info P))) (VList (elements heap ps)) -> each Q (shared_info P) (VStruct [VInt a; VOpt d] [])).
      { intros Q0 [_ Fe]. rewrite Forall_forall in Fe. exact (proj2 (Fe _ Ii)). }
      split; [cbn; now rewrite W|]. split; [exact (proj2 (proj2 Dt))|].
      split; [|split; [now apply Sub|split; [now apply Sub|split; [intro H; cbn; now rewrite (U H)|intro H; contradiction]]]].
      cbn [shaped] in Sh. rewrite forallb_forall in Sh. exact (Sh _ Ii).
    - intros info Ii. destruct (infos_elements _ _ _ _ _ Ii) as (a & d & -> & _ & Na & _). eauto. }
  rewrite R in Q. destruct Q as (s' & E1 & E2). exists (sh_saved s), s'. split; [|exact E2]. rewrite E1. destruct s; reflexivity.
Qed.
Print Assumptions C36_round_trip_partial.

(** Three pointers to two objects, and a null pointer. *)
Definition int_ptr : ty := TPtr (TInt IInt).
Definition two (a : Z) : val := if a =? 16 then VInt 7 else VInt 9.
Definition shared_text : bytes := bs "[{""sharedPtrName"":16,""data"":7},null,{""sharedPtrName"":16},{""sharedPtrName"":32,""data"":9}]".
Example C36_example : shared_export pf_stream ToString int_ptr two [16; 0; 16; 32] = Exported shared_text /\
  (forall src, shared_imports pc_default src int_ptr shared_text [Some 0%nat; None; Some 0%nat; Some 1%nat] [VInt 7; VInt 9]) /\
  (exists qs objects, shared_imports pc_default StrIn int_ptr shared_text qs objects /\ same_sharing two [16; 0; 16; 32] objects qs).
Proof.
  assert (E : shared_export pf_stream ToString int_ptr two [16; 0; 16; 32] = Exported shared_text) by (vm_compute; reflexivity).
  split; [exact E|]. split.
  - intros []; fuels 100%nat; (eexists; eexists; split; [vm_compute; reflexivity|reflexivity]).
  - apply (C36_round_trip_partial pf_stream ToString pc_default StrIn int_ptr two [16; 0; 16; 32] shared_text); try reflexivity; try discriminate; try exact E.
    + cbn. conds.
    + cbn -[plain_name]. conds.
    + cbn -[plain_name]. conds.
    + intros a [<-|[<-|[<-|[<-|[]]]]] N; (split; [vm_compute; repeat split; discriminate|]); (split; [split; [reflexivity|cbn -[fits bytes_in]; conds]|]); split; cbn; conds.
    + intro N. exfalso. now apply N.
Qed.
(** Exact reading asks for [data] in every object, so it refuses every text in which an object is shared. *)
Theorem C36_exact_refuted : exists heap ps out, shared_export pf_stream ToString int_ptr heap ps = Exported out /\
  forall src, shared_rejects (with_mode pc_default Exact) src int_ptr out.
Proof.
  exists two, [16; 16], (bs "[{""sharedPtrName"":16,""data"":7},{""sharedPtrName"":16}]"). split; [vm_compute; reflexivity|].
  intros []; fuels 60%nat; vm_compute; reflexivity.
Qed.
Print Assumptions C36_exact_refuted.

(** ** C68.  Full claim: reading shared pointers from any JSON document either gives pointers or fails; a reference to an object
    that was not read before fails.  Both are proved for documents in which every object of the array has a member
    sharedPtrName; without it the reader uses a variable that was never set ([C68_no_name_refuted]).  [sound]: the conditions of
    C12 on the rest of the document. *)
Definition has_name (cfg : pconfig) (l : list (bytes * jv)) : Prop :=
  exists key j, In (key, j) l /\ names (pc_conv cfg) key (bs "sharedPtrName").
Theorem C68_defined_partial : forall cfg k P js text,
  wf P = true -> pointer_type P = true -> document (Arr js) text ->
  sound cfg k (TVec (TPtr (shared_info P))) (Arr js) -> (pc_strict cfg = Weak -> strings (skip_safe k) (Arr js)) ->
  (forall l, In (Obj l) js -> has_name cfg l) ->
  (exists qs objects, shared_imports cfg k P text qs objects) \/ shared_rejects cfg k P text.
Proof.
  intros cfg k P js text W HP D Sd Sk Nm.
  destruct (elements_defined cfg k P W HP js text D Sd Sk Nm js (mkShared [] [] []) (incl_refl js)) as [E1 E2].
  destruct (in_shareds (json_sc k (pc_conv cfg)) (pc_strict cfg) (pc_marker cfg) P js (mkShared [] [] [])) as [s| | |] eqn:E; try congruence.
  - left. exists (sh_ptrs s), (sh_objects s). exists (Datatypes.S (List.length text)). intros fuel Hf.
    assert (Q := shared_try_spec k fuel cfg P (Arr js) text D ltac:(lia)). cbn [in_root] in Q. rewrite E in Q. destruct Q as (s' & Q1 & Q2).
    exists (sh_saved s), s'. split; [|exact Q2]. rewrite Q1. destruct s; reflexivity.
  - right. exists (Datatypes.S (List.length text)). intros fuel Hf.
    assert (Q := shared_try_spec k fuel cfg P (Arr js) text D ltac:(lia)). cbn [in_root] in Q. rewrite E in Q. exact Q.
Qed.
Print Assumptions C68_defined_partial.

(** The first object of the array refers to an object and does not hold it. *)
Theorem C68_unknown_partial : forall cfg k P js1 l js2 text,
  wf P = true -> pointer_type P = true -> document (Arr (js1 ++ Obj l :: js2)) text ->
  sound cfg k (TVec (TPtr (shared_info P))) (Arr (js1 ++ Obj l :: js2)) -> (pc_strict cfg = Weak -> strings (skip_safe k) (Arr (js1 ++ Obj l :: js2))) ->
  (forall l', In (Obj l') (js1 ++ Obj l :: js2) -> has_name cfg l') ->
  (forall l', In (Obj l') js1 -> lacks cfg l' (bs "data")) -> lacks cfg l (bs "data") ->
  shared_rejects cfg k P text.
Proof.
  intros cfg k P js1 l js2 text W HP D Sd Sk Nm L1 L2. set (js := js1 ++ Obj l :: js2) in *.
  destruct (elements_defined cfg k P W HP js text D Sd Sk Nm js (mkShared [] [] []) (incl_refl js)) as [E1 E2].
  exists (Datatypes.S (List.length text)). intros fuel Hf.
  assert (Q := shared_try_spec k fuel cfg P (Arr js) text D ltac:(lia)). cbn [in_root] in Q.
  destruct (in_shareds (json_sc k (pc_conv cfg)) (pc_strict cfg) (pc_marker cfg) P js (mkShared [] [] [])) as [s| | |] eqn:E; try congruence; try exact Q.
  exfalso. destruct Sd as [R _]. inversion R as [|? R'|]; subst. clear -R' Nm L1 L2 E. subst js.
  assert (G : forall js1 s0, (forall j, In j js1 -> readable (pc_conv cfg) j) -> (forall l', In (Obj l') js1 -> has_name cfg l') ->
    (forall l', In (Obj l') js1 -> lacks cfg l' (bs "data")) -> sh_saved s0 = [] -> readable (pc_conv cfg) (Obj l) -> has_name cfg l ->
    in_shareds (json_sc k (pc_conv cfg)) (pc_strict cfg) (pc_marker cfg) P (js1 ++ Obj l :: js2) s0 <> Ok s).
  { clear -L2. induction js1 as [|j js1 IH]; intros s0 Rd Nm L1 E0 Rl Nl E; cbn [app in_shareds] in E; apply bind_ok in E as (s1 & E1 & E2).
    - destruct (element_unknown cfg k P s0 (Obj l) s1 Rl E0) with (3 := E1) as [_ N]; [intros l' Q; now assert (l' = l) as -> by congruence|intros l' Q; now assert (l' = l) as -> by congruence|]. now apply (N l).
    - destruct (element_unknown cfg k P s0 j s1) with (5 := E1) as [S1 _]; [apply Rd; now left|exact E0|intros l' ->; apply L1; now left|intros l' ->; apply Nm; now left|].
      revert E2. apply IH; auto; intros; [apply Rd|apply Nm|apply L1]; now right. }
  revert E. apply G; auto.
  - intros j Hj. apply R'. apply in_or_app. now left.
  - intros l' Hj. apply Nm. apply in_or_app. now left.
  - apply R'. apply in_or_app. right. now left.
  - apply Nm. apply in_or_app. right. now left.
Qed.
Print Assumptions C68_unknown_partial.
(** A vector whose first object was cut off. *)
Definition cut_text : bytes := bs "[null, {""sharedPtrName"": 16}, {""sharedPtrName"": 16, ""data"": 7}]".
Example C68_example : shared_rejects pc_default Strm int_ptr cut_text /\ shared_rejects pc_default StrIn int_ptr cut_text.
Proof.
  split; [|fuels 70%nat; vm_compute; reflexivity].
  set (l := [(bs "sharedPtrName", Scal (SNum (bs "16")))] : list (bytes * jv)).
  set (l2 := [(bs "sharedPtrName", Scal (SNum (bs "16"))); (bs "data", Scal (SNum (bs "7")))] : list (bytes * jv)).
  apply (C68_unknown_partial pc_default Strm int_ptr [Scal SNull] l [Obj l2]); try reflexivity.
  - doc.
  - split.
    + refine (all_strings_ok safe_string _ _ _ _); [|vm_compute; reflexivity]. intros raw E. exact (proj1 (safe_string_ok Strm raw E)).
    + assert (T : forall t j t' j', jpart pc_default t j t' j' -> In t [TVec (TPtr (shared_info int_ptr)); TPtr (shared_info int_ptr); shared_info int_ptr; TInt ILong; TOpt int_ptr; int_ptr; TInt IInt] ->
        sound_here pc_default Strm t' j').
      { induction 1; intros Ht; try (apply IHpart); repeat (destruct Ht as [Ht|Ht]; [try discriminate Ht; try (injection Ht as <-); subst; cbn; auto 12|]); try destruct Ht.
        - destruct j as [[]| |]; try exact Logic.I. discriminate.
        - destruct j as [[]| |]; try exact Logic.I. discriminate.
        - unfold member_type, find_path in H1. cbn -[beq] in H1. repeat match type of H1 with context [beq ?a ?b] => destruct (beq a b) end; cbn in H1; try discriminate H1; injection H1 as <-; auto 8. }
      intros t' j' Q. eapply T; [exact Q|now left].
  - intros _. refine (all_strings_ok safe_string _ _ _ _); [|vm_compute; reflexivity]. intros raw E. exact (proj2 (safe_string_ok Strm raw E)).
  - intros l' [Q|[Q|[Q|[]]]]; try discriminate Q; injection Q as <-; exists (bs "sharedPtrName"), (Scal (SNum (bs "16"))); (split; [now left|name]).
  - intros l' [Q|[]]. discriminate Q.
  - intros key j [Q|[]] N. injection Q as <- <-. apply (names_key Strm) in N. vm_compute in N. discriminate N.
Qed.

(** Without the name the pointer is entered under a value that was never set. *)
Theorem C68_no_name_refuted : forall src, shared_undefined pc_default src int_ptr (bs "[{""data"":5}]") /\ shared_undefined pc_default src int_ptr (bs "[{}]").
Proof. intros []; split; fuels 20%nat; vm_compute; reflexivity. Qed.
Print Assumptions C68_no_name_refuted.
