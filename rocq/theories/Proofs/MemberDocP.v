(** From imports of documents to what happens to members, elements and entries. *)
From Coq Require Import ZArith String List Bool Lia ZifyBool.
From Verif Require Import Model.Base Model.Source Model.Unicode Model.Number Model.JsonLexer Model.ParserInterface
  Model.JsonParser Model.Types Model.Deserializer Model.Importer
  Spec.JsonString Spec.Json Spec.Typed Spec.Import Proofs.UnicodeP Proofs.NumberP Proofs.Sim Proofs.TreeM
  Proofs.JsonSim Proofs.ImportP Proofs.Induct Proofs.TypedP Proofs.InterpP Proofs.PartP Proofs.DefinedP Proofs.MembersP
  Proofs.ModesP Proofs.JsonPartP Proofs.ClassP Proofs.SourcesP.
Import ListNotations.

Lemma doc_meaning : forall cfg k t v j text v', wf t = true -> shaped t v = true -> document j text -> exact_skips cfg k t j ->
  accepts cfg k t v text v' -> meaning cfg k t v j = Ok v'.
Proof.
  intros cfg k t v j text v' W S D X A. exact (proj1 (proj1 (accepts_iff cfg k t v j text D (meaning_not_hang cfg k t v j W S X)) v') A).
Qed.
Lemma meaning_reads : forall cfg k t v j v', meaning cfg k t v j = Ok v' -> reads_as cfg k t v j v'.
Proof. intros cfg k t v j v' H text D. exact (doc_imports cfg k j text t v D v' H). Qed.
Lemma lacks_key : forall cfg k l n, readable (pc_conv cfg) (Obj l) -> lacks cfg l n ->
  forall key j, In (key, j) l -> sc_key (json_sc k (pc_conv cfg)) key <> Ok n.
Proof.
  intros cfg k l n R L key j Hj E. inversion R as [| |? G]; subst. destruct (G key j Hj) as [[n' Hn] _].
  assert (Hn' := names_key k _ _ _ Hn). rewrite Hn' in E. injection E as ->. exact (L key j Hj Hn).
Qed.
Lemma lacks_path : forall cfg k t l q i n, readable (pc_conv cfg) (Obj l) -> lacks cfg l n -> name_at t q i = Some n ->
  forall key j n', In (key, j) l -> sc_key (json_sc k (pc_conv cfg)) key = Ok n' -> find_path t n' <> Some (q, i).
Proof.
  intros cfg k t l q i n R L N key j n' Hj Hk F. apply find_path_name in F. rewrite F in N. injection N as ->.
  exact (lacks_key cfg k l n R L key j Hj Hk).
Qed.

(** The class reader run on the members. *)
Lemma class_run : forall cfg k t v l v', is_class t = true -> meaning cfg k t v (Obj l) = Ok v' ->
  exists f, in_members (json_sc k (pc_conv cfg)) (pc_strict cfg)
    (i_scan (interp (json_sc k (pc_conv cfg)) (pc_strict cfg) (pc_marker cfg) t)) v [] l = Ok (v', f) /\
    (pc_strict cfg = Exact -> forall r, In r (required t) -> In r f).
Proof.
  intros cfg k t v l v' C H. unfold meaning in H. rewrite (parse_class _ _ _ t v (Obj l) C) in H. cbn [in_map] in H.
  apply bind_ok in H as ([w f] & E & H). exists f. destruct (pc_strict cfg).
  - injection H as <-. split; [exact E|discriminate].
  - injection H as <-. split; [exact E|discriminate].
  - destruct (forallb _ _) eqn:B; [|discriminate H]. injection H as <-. split; [exact E|]. intros _ r Hr. rewrite forallb_forall in B.
    apply existsb_In. now apply B.
Qed.

Lemma unknown_bad : forall cfg k t l key n jk, wf t = true -> is_class t = true -> pc_strict cfg <> Weak -> In (key, jk) l ->
  names (pc_conv cfg) key n -> member_type t n = None -> bad (json_sc k (pc_conv cfg)) (pc_strict cfg) (pc_marker cfg) t (Obj l).
Proof.
  intros cfg k t l key n jk W C M Hj Hn Hm v S v' E. destruct (class_run cfg k t v l v' C E) as (f & R & _).
  eapply (members_unknown (json_sc k (pc_conv cfg)) (pc_strict cfg) (pc_marker cfg) t W C key n jk); try eassumption.
  - now apply names_key.
  - now apply member_none.
Qed.
Lemma missing_bad : forall cfg k t l q i n, wf t = true -> is_class t = true -> pc_strict cfg = Exact -> no_override t = true ->
  readable (pc_conv cfg) (Obj l) -> name_at t q i = Some n -> lacks cfg l n ->
  bad (json_sc k (pc_conv cfg)) (pc_strict cfg) (pc_marker cfg) t (Obj l).
Proof.
  intros cfg k t l q i n W C M NO R N L v S v' E. destruct (class_run cfg k t v l v' C E) as (f & Rn & X).
  assert (Hr : In n f) by (apply (X M); apply required_name; [exact NO|eauto]).
  apply (members_found _ _ _ t W C l v [] v' f S Rn) in Hr. destruct Hr as [[]|(key & j & Hj & Hk & _)].
  exact (lacks_key cfg k l n R L key j Hj Hk).
Qed.

Lemma part_wf : forall A kd sd nl mk t (j : tree A) t' j', part kd sd nl mk t j t' j' -> wf t = true -> wf t' = true.
Proof.
  induction 1 as [t j|co t l j t' j' Hj H IH|n t l i j t' j' Hj Hi H IH|ts l i t j t' j' Hj Ht H IH|fw t l key j t' j' Hj H IH
      |t j t' j' Hn H IH|t j t' j' H IH|si ms ps l key n j t t' j' Hj Hk Hm H IH
      |cs o key a c l i t t' j' Hk Ha Hc Ht H IH|cs key a c l i t t' j' Hk Ha Hc Ht H IH]; intros W; auto.
  - apply wf_seq in W. auto.
  - cbn [wf] in W. rewrite forallb_forall in W. apply IH, W. now apply nth_error_In in Ht.
  - destruct (member_type_good _ _ _ W Hm) as (q & i & _ & _ & Wt & _). auto.
  - cbn [wf] in W. apply IH. now apply (wf_classes cs i t).
  - cbn [wf] in W. apply andb_prop in W as [W _]. apply IH. now apply (wf_classes cs i t).
Qed.
(** A complete object is read alike in Exact and Strict mode. *)
Definition complete (cfg : pconfig) (t : ty) (j : jv) : Prop :=
  forall t' l, jpart cfg t j t' (Obj l) -> is_class t' = true ->
    no_override t' = true /\ forall q i n, name_at t' q i = Some n -> exists key jm, In (key, jm) l /\ names (pc_conv cfg) key n.
Lemma exact_strict : forall cfg k t v j, wf t = true -> shaped t v = true -> readable (pc_conv cfg) j -> complete cfg t j ->
  meaning (with_mode cfg Exact) k t v j = meaning (with_mode cfg Strict) k t v j.
Proof.
  intros cfg k t v j W S R Cm. unfold meaning. cbn [with_mode pc_conv pc_strict pc_marker].
  assert (H : known_eq _ (i_parse (interp (json_sc k (pc_conv cfg)) Exact (pc_marker cfg) t) v j)
    (i_parse (interp (json_sc k (pc_conv cfg)) Strict (pc_marker cfg) t) v j)).
  2:{ apply H. apply (meaning_not_hang (with_mode cfg Exact) k t v j W S). discriminate. }
  refine (meaning_two _ _ Exact Strict (pc_marker cfg) _ _ _ _ _ _ known_eq known_eq_refl known_eq_bind _ t W v j S _ _).
  1-4: reflexivity.
  - split; discriminate.
  - intros a H. destruct a; try discriminate H. split; reflexivity.
  - intros X o E. congruence.
  - intros t' j' Hp. unfold agree_at. destruct t'; auto; destruct j' as [a|l|l]; auto; [apply known_eq_refl|].
    assert (Hp' := model_part cfg k t j _ _ R Hp). destruct (Cm _ _ Hp' eq_refl) as [NO Al].
    assert (R' := part_readable cfg _ _ _ _ _ Hp' R).
    intros v0 w f Sv E. split; [discriminate|]. intros _ _. apply forallb_forall. intros r Hr. apply existsb_In.
    assert (W' : wf (TStruct i ms ps) = true) by (eapply part_wf; [exact Hp|exact W]).
    apply (members_found _ _ _ (TStruct i ms ps) W' eq_refl l v0 [] w f Sv E). right.
    apply (proj1 (required_name _ _ NO)) in Hr as (q & i0 & Hn). destruct (Al q i0 r Hn) as (key & jm & Hj & Hk).
    exists key, jm. split; [exact Hj|]. split; [now apply names_key|]. eapply find_path_complete; exact Hn.
  - discriminate.
Qed.

(** Members. *)
Lemma class_untouched : forall cfg k t v l v' q i n, wf t = true -> is_class t = true -> shaped t v = true ->
  readable (pc_conv cfg) (Obj l) -> meaning cfg k t v (Obj l) = Ok v' -> name_at t q i = Some n -> lacks cfg l n ->
  field v' q i = field v q i.
Proof.
  intros cfg k t v l v' q i n W C S R E N L. destruct (class_run cfg k t v l v' C E) as (f & Rn & _).
  refine (members_untouched _ _ _ t W C (q, i) l v [] v' f S _ Rn). intros key j n' Hj Hk. eapply lacks_path; eassumption.
Qed.
Lemma class_present : forall cfg k t v a key n jm b v' q i tm x, wf t = true -> is_class t = true -> shaped t v = true ->
  readable (pc_conv cfg) (Obj (a ++ (key, jm) :: b)) -> meaning cfg k t v (Obj (a ++ (key, jm) :: b)) = Ok v' ->
  names (pc_conv cfg) key n -> find_path t n = Some (q, i) -> type_at t q i = Some tm -> field v q i = Some x -> lacks cfg (a ++ b) n ->
  exists x', field v' q i = Some x' /\ meaning cfg k tm x jm = Ok x'.
Proof.
  intros cfg k t v a key n jm b v' q i tm x W C S R E Hk F T X L. destruct (class_run cfg k t v _ v' C E) as (f & Rn & _).
  assert (R' : readable (pc_conv cfg) (Obj (a ++ b))).
  { inversion R as [| |? G]; subst. constructor. intros key0 j0 H0. apply G. apply in_app_iff in H0. apply in_app_iff. cbn [In]. tauto. }
  destruct (members_present (json_sc k (pc_conv cfg)) (pc_strict cfg) (pc_marker cfg) t W C q i tm key jm n a b v [] v' f x S (names_key k _ _ _ Hk) F T X) as (x' & E1 & E2); eauto.
  intros key' j' n' Hj Hk'. eapply lacks_path; try eassumption. eapply find_path_name; exact F.
Qed.

(** Sequences. *)
Open Scope nat_scope.
Lemma vec_run : forall cfg k t old l v', meaning cfg k (TVec t) (VList old) (Arr l) = Ok v' ->
  exists new, v' = VList (old ++ new) /\ Forall2 (fun j x => meaning cfg k t (default t) j = Ok x) l new.
Proof. intros cfg k t old l v' H. apply elems_vec in H. exact H. Qed.
Lemma seq_run : forall cfg k co t old l v', meaning cfg k (TSeq co t) (VList old) (Arr l) = Ok v' ->
  exists new, v' = VList (fold_left (seq_add co) new old) /\ Forall2 (fun j x => meaning cfg k t (default t) j = Ok x) l new.
Proof. intros cfg k co t old l v' H. apply elems_seq in H. exact H. Qed.
Lemma tup_run : forall cfg k ts old l v', length old = length ts -> length l <= length ts ->
  meaning cfg k (TTup ts) (VList old) (Arr l) = Ok v' ->
  exists new, v' = VList new /\ length new = length old /\
    (forall n, length l <= n -> nth_error new n = nth_error old n) /\
    (forall n j t x, nth_error l n = Some j -> nth_error ts n = Some t -> nth_error old n = Some x ->
       exists x', meaning cfg k t x j = Ok x' /\ nth_error new n = Some x').
Proof.
  intros cfg k ts old l v' L1 L2 H. apply (elems_fixed (json_sc k (pc_conv cfg)) (pc_strict cfg) (pc_marker cfg) ts l 0 old v') in H; [|exact L2|exact L1].
  destruct H as (new & E & L & U & F). exists new. split; [exact E|]. split; [exact L|]. split; [intros n Hn; apply U; now right|exact F].
Qed.
Lemma elems_too_long : forall A (ds : list (ifun A)) l i v, length ds < i + length l -> i <= length ds ->
  forall v', in_elems (in_elem_fixed ds) i v l <> Ok v'.
Proof.
  intros A ds. induction l as [|j l IH]; intros i v H Hi v' E; cbn [length in_elems] in *; [lia|].
  apply bind_ok in E as (v1 & E1 & E). destruct (Nat.eq_dec i (length ds)) as [->|N].
  - unfold in_elem_fixed in E1. destruct v; try discriminate E1.
    assert (X : nth_error ds (length ds) = None) by now apply nth_error_None. now rewrite X in E1.
  - apply (IH (S i) v1) in E; auto; lia.
Qed.
Lemma long_arr_bad : forall cfg k n t l, n < length l -> bad (json_sc k (pc_conv cfg)) (pc_strict cfg) (pc_marker cfg) (TArr n t) (Arr l).
Proof. intros cfg k n t l H v _ v' E. apply elems_too_long in E; auto; rewrite repeat_length; lia. Qed.
Lemma long_tup_bad : forall cfg k ts l, length ts < length l -> bad (json_sc k (pc_conv cfg)) (pc_strict cfg) (pc_marker cfg) (TTup ts) (Arr l).
Proof. intros cfg k ts l H v _ v' E. apply elems_too_long in E; auto; rewrite map_length; lia. Qed.

(** Maps. *)
Lemma map_doc : forall cfg k fw t o l v', meaning cfg k (TMap fw t) (VMap o) (Obj l) = Ok v' ->
  exists f, in_members (json_sc k (pc_conv cfg)) (pc_strict cfg)
    (in_scan_map fw (interp (json_sc k (pc_conv cfg)) (pc_strict cfg) (pc_marker cfg) t) (default t)) (VMap o) [] l = Ok (v', f).
Proof.
  intros cfg k fw t o l v' H. unfold meaning in H. cbn [interp i_parse in_map] in H. apply bind_ok in H as ([w f] & E & H). exists f.
  cbn [forallb] in H. destruct (pc_strict cfg); injection H as <-; exact E.
Qed.

(** Classes named in the document. *)
Lemma class_name_bad : forall cfg k j, (forall key jc l, j <> Obj ((key, jc) :: l)) \/
  (exists key n jc l, j = Obj ((key, jc) :: l) /\ names (pc_conv cfg) key n /\ n <> pc_marker cfg) ->
  forall r, class_of (json_sc k (pc_conv cfg)) (pc_marker cfg) j <> Ok r.
Proof.
  intros cfg k j H [c j'] E. apply class_inv in E as (key & a & l & -> & Ek & _). destruct H as [H|(key0 & n & jc & l0 & Q & Hn & Nn)].
  - now apply (H key (Scal a) l).
  - injection Q as <- <- <-. apply (names_key k) in Hn. congruence.
Qed.
Lemma class_unknown : forall cfg k key a l c r, names (pc_conv cfg) key (pc_marker cfg) -> str_is (pc_conv cfg) a c ->
  class_of (json_sc k (pc_conv cfg)) (pc_marker cfg) (Obj ((key, Scal a) :: l)) = Ok r -> r = (c, Obj l).
Proof.
  intros cfg k key a l c r Hk Ha E. cbn [class_of] in E. rewrite (names_key k _ _ _ Hk) in E. cbn [bind] in E. rewrite beq_refl in E.
  rewrite (str_is_str k _ _ _ Ha) in E. cbn [bind] in E. now injection E as <-.
Qed.
