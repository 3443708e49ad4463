(** C29, C31, C32, C33, C34, C35, C37: what an import does with members, elements, entries, null, enums and class names.

    [jpart cfg t j t' j']: when the document [j] is read as a [t], its part [j'] is read as a [t'];
    [reads_as cfg k t x j x']: every text of [j], imported on its own into a [t] that holds [x], gives [x'];
    [field v q i]: the member with the path (q, i), [name_at t q i]: its JSON name, [find_path t n]: the member called
    [n]; [lacks cfg l n]: the object has no member called [n]. *)
From Coq Require Import ZArith String List Bool Permutation Lia ZifyBool.
From Verif Require Import Model.Base Model.Source Model.Unicode Model.Number Model.JsonLexer Model.ParserInterface
  Model.JsonParser Model.Types Model.Deserializer Model.Importer
  Spec.JsonString Spec.Json Spec.Typed Spec.Import Proofs.Tac Proofs.UnicodeP Proofs.NumberP Proofs.Sim Proofs.TreeM Proofs.JsonSim Proofs.ImportP
  Proofs.TypedP Proofs.InterpP Proofs.PartP Proofs.DefinedP Proofs.MembersP Proofs.ModesP Proofs.JsonPartP Proofs.ClassP Proofs.SourcesP
  Proofs.MemberDocP Proofs.JsonCheck Properties.Imports.
Import ListNotations.
Open Scope Z_scope.

(** ** C29 *)
(** Strict and Exact: a member that the class does not have, at any depth, is never accepted; the import is rejected
    unless another part of the document has undefined behaviour. *)
Theorem C29_unknown_member_rejected : forall cfg k t v j text t' l key n jk, wf t = true -> shaped t v = true -> document j text ->
  pc_strict cfg <> Weak -> jpart cfg t j t' (Obj l) -> is_class t' = true ->
  In (key, jk) l -> names (pc_conv cfg) key n -> member_type t' n = None ->
  refuses cfg k t v text /\ (sound cfg k t j -> rejects cfg k t v text).
Proof.
  intros cfg k t v j text t' l key n jk W S D M P C Hj Hn Hm. apply (part_refuses cfg k t v j text t' (Obj l)); auto.
  - intro; contradiction.
  - intro W'. eapply unknown_bad; eassumption.
Qed.
Print Assumptions C29_unknown_member_rejected.
(** Exact: an object that lacks a member of its class is never accepted. *)
Theorem C29_missing_member_rejected : forall cfg k t v j text t' l q i n, wf t = true -> shaped t v = true -> document j text ->
  pc_strict cfg = Exact -> readable (pc_conv cfg) j -> jpart cfg t j t' (Obj l) -> is_class t' = true -> no_override t' = true ->
  name_at t' q i = Some n -> lacks cfg l n ->
  refuses cfg k t v text /\ (sound cfg k t j -> rejects cfg k t v text).
Proof.
  intros cfg k t v j text t' l q i n W S D M R P C NO Hn L. apply (part_refuses cfg k t v j text t' (Obj l)); auto.
  - intro. congruence.
  - intro W'. eapply missing_bad; try eassumption. eapply part_readable; eassumption.
Qed.
Print Assumptions C29_missing_member_rejected.
(** Exact: a document whose objects have all members of their classes is treated as in Strict mode. *)
Theorem C29_complete_accepted : forall cfg k t v j text, wf t = true -> shaped t v = true -> document j text ->
  readable (pc_conv cfg) j ->
  (forall t' l, jpart cfg t j t' (Obj l) -> is_class t' = true -> no_override t' = true /\
     forall q i n, name_at t' q i = Some n -> exists key jm, In (key, jm) l /\ names (pc_conv cfg) key n) ->
  (forall v', accepts (with_mode cfg Exact) k t v text v' <-> accepts (with_mode cfg Strict) k t v text v') /\
  (rejects (with_mode cfg Exact) k t v text <-> rejects (with_mode cfg Strict) k t v text) /\
  (undefined (with_mode cfg Exact) k t v text <-> undefined (with_mode cfg Strict) k t v text).
Proof.
  intros cfg k t v j text W S D R Cm. assert (E := exact_strict cfg k t v j W S R Cm).
  destruct (accepts_iff (with_mode cfg Exact) k t v j text D) as (A1 & A2 & A3); [apply meaning_not_hang; auto; discriminate|].
  destruct (accepts_iff (with_mode cfg Strict) k t v j text D) as (B1 & B2 & B3); [apply meaning_not_hang; auto; discriminate|].
  rewrite E in *. split; [intro v'; rewrite A1, B1; tauto|tauto].
Qed.
Print Assumptions C29_complete_accepted.
(** A member that the object lacks keeps its value; a member that it has once gets what its text says. *)
Theorem C29_absent_untouched : forall cfg k t v l text v' q i n, wf t = true -> is_class t = true -> shaped t v = true ->
  document (Obj l) text -> exact_skips cfg k t (Obj l) -> readable (pc_conv cfg) (Obj l) -> accepts cfg k t v text v' ->
  name_at t q i = Some n -> lacks cfg l n -> field v' q i = field v q i.
Proof.
  intros cfg k t v l text v' q i n W C S D X R A N L. eapply class_untouched; try eassumption. eapply doc_meaning; eassumption.
Qed.
Print Assumptions C29_absent_untouched.
Theorem C29_present_read : forall cfg k t v a key n jm b text v' q i tm x, wf t = true -> is_class t = true -> shaped t v = true ->
  document (Obj (a ++ (key, jm) :: b)) text -> exact_skips cfg k t (Obj (a ++ (key, jm) :: b)) ->
  readable (pc_conv cfg) (Obj (a ++ (key, jm) :: b)) -> accepts cfg k t v text v' ->
  names (pc_conv cfg) key n -> find_path t n = Some (q, i) -> type_at t q i = Some tm -> field v q i = Some x -> lacks cfg (a ++ b) n ->
  exists x', field v' q i = Some x' /\ reads_as cfg k tm x jm x'.
Proof.
  intros cfg k t v a key n jm b text v' q i tm x W C S D X R A Hk F T Hx L.
  destruct (class_present cfg k t v a key n jm b v' q i tm x) as (x' & E1 & E2); try assumption; [eapply doc_meaning; eassumption|].
  exists x'. split; [exact E1|now apply meaning_reads].
Qed.
Print Assumptions C29_present_read.

(** struct Base { int x; string y; }; struct Derived : Base { bool z; }. *)
Definition ty_derived : ty := TStruct (mkSinfo [bs "z"] [] [] false false false) [TBool] [ty_point].
Definition derived (x : Z) (y : bytes) (z : bool) : val := VStruct [VBool z] [point x y].
Example C29_example :
  rejects (pc_mode Strict) StrIn (TVec ty_derived) (VList []) (bs "[{""x"":1,""w"":2}]") /\
  rejects (pc_mode Exact) Strm ty_derived (derived 0 [] false) (bs "{""x"":1,""y"":""q""}") /\
  accepts (pc_mode Exact) Strm ty_derived (derived 0 [] false) (bs "{""z"":true,""x"":1,""y"":""q""}") (derived 1 (bs "q") true) /\
  accepts pc_default Strm ty_derived (derived 5 (bs "old") false) (bs "{""z"":true,""w"":3}") (derived 5 (bs "old") true) /\
  find_path ty_derived (bs "x") = Some ([0%nat], 0%nat).
Proof.
  split; [|split; [|split; [|split]]]; [eapply doc_throw; [doc|vm_compute; reflexivity]..| | |reflexivity];
    (eapply doc_imports; [doc|vm_compute; reflexivity]).
Qed.
(** The hypotheses of [C29_missing_member_rejected] are met by the second line of the example. *)
Example C29_example_missing : no_override ty_derived = true /\ name_at ty_derived [] 0 = Some (bs "z") /\
  lacks (pc_mode Exact) [(bs "x", Scal (SNum (bs "1"))); (bs "y", Scal (SStr (bs "q")))] (bs "z").
Proof.
  split; [reflexivity|]. split; [reflexivity|]. intros key j H N. apply (names_key StrIn) in N.
  destruct H as [Q|[Q|[]]]; injection Q as <- <-; vm_compute in N; discriminate N.
Qed.

(** ** C31.  Full claim: a JSON array that is too long for a std::array or std::tuple is rejected; one that is not is stored
    element by element.  Proved: a too long array, anywhere in the document, never gives a value; one that is not too long
    is stored at the indices, the remaining elements are kept.  False: a too long array is not rejected, it is written
    outside the object (undefined behaviour). *)
Theorem C31_too_long_partial : forall cfg k t v j text t' l, wf t = true -> shaped t v = true -> document j text -> exact_skips cfg k t j ->
  jpart cfg t j t' (Arr l) ->
  match t' with TArr n _ => (n < List.length l)%nat | TTup ts => (List.length ts < List.length l)%nat | _ => False end ->
  refuses cfg k t v text.
Proof.
  intros cfg k t v j text t' l W S D X P L. apply (part_refuses cfg k t v j text t' (Arr l)); auto. intro W'.
  destruct t'; try contradiction; [now apply long_arr_bad|now apply long_tup_bad].
Qed.
Print Assumptions C31_too_long_partial.
Theorem C31_tuple_elements : forall cfg k ts old l text v', wf (TTup ts) = true -> shaped (TTup ts) (VList old) = true ->
  document (Arr l) text -> exact_skips cfg k (TTup ts) (Arr l) -> (List.length l <= List.length ts)%nat ->
  accepts cfg k (TTup ts) (VList old) text v' ->
  exists new, v' = VList new /\ List.length new = List.length old /\
    (forall n, (List.length l <= n)%nat -> nth_error new n = nth_error old n) /\
    (forall n j t x, nth_error l n = Some j -> nth_error ts n = Some t -> nth_error old n = Some x ->
       exists x', nth_error new n = Some x' /\ reads_as cfg k t x j x').
Proof.
  intros cfg k ts old l text v' W S D X L A. assert (Lo : List.length old = List.length ts).
  { cbn [shaped] in S. apply all2b_len in S. now rewrite map_length in S. }
  destruct (tup_run cfg k ts old l v' Lo L) as (new & E & Ln & U & F); [eapply doc_meaning; eassumption|].
  exists new. split; [exact E|]. split; [exact Ln|]. split; [exact U|]. intros n j t x Hj Ht Hx.
  destruct (F n j t x Hj Ht Hx) as (x' & E1 & E2). exists x'. split; [exact E2|now apply meaning_reads].
Qed.
Print Assumptions C31_tuple_elements.
Theorem C31_array_elements : forall cfg k m t old l text v', wf t = true -> shaped (TArr m t) (VList old) = true ->
  document (Arr l) text -> exact_skips cfg k (TArr m t) (Arr l) -> (List.length l <= m)%nat ->
  accepts cfg k (TArr m t) (VList old) text v' ->
  exists new, v' = VList new /\ List.length new = List.length old /\
    (forall n, (List.length l <= n)%nat -> nth_error new n = nth_error old n) /\
    (forall n j x, nth_error l n = Some j -> nth_error old n = Some x ->
       exists x', nth_error new n = Some x' /\ reads_as cfg k t x j x').
Proof.
  intros cfg k m t old l text v' W S D X L A. assert (W' : wf (TArr m t) = true) by exact W.
  assert (M := doc_meaning cfg k _ _ _ _ _ W' S D X A). unfold meaning in M. rewrite parse_arr in M.
  assert (Lo : List.length old = m). { rewrite arr_as_tuple in S. cbn [shaped] in S. apply all2b_len in S. now rewrite map_length, repeat_length in S. }
  destruct (tup_run cfg k (repeat t m) old l v') as (new & E & Ln & U & F); [now rewrite repeat_length|now rewrite repeat_length|exact M|].
  exists new. split; [exact E|]. split; [exact Ln|]. split; [exact U|]. intros n j x Hj Hx.
  destruct (F n j t x Hj) as (x' & E1 & E2); [|exact Hx|].
  - apply nth_repeat. apply (Nat.lt_le_trans _ (List.length l)); [|exact L]. apply nth_error_Some. congruence.
  - exists x'. split; [exact E2|now apply meaning_reads].
Qed.
Print Assumptions C31_array_elements.
Example C31_example : accepts pc_default StrIn (TTup [TInt IInt; TStr; TBool]) (VList [VInt 0; VStr []; VBool true]) (bs "[7,""a""]")
  (VList [VInt 7; VStr (bs "a"); VBool true]) /\
  accepts pc_default Strm (TArr 2 (TInt IInt)) (VList [VInt 0; VInt 0]) (bs "[4,5]") (VList [VInt 4; VInt 5]).
Proof. split; (eapply doc_imports; [doc|vm_compute; reflexivity]). Qed.
Theorem C31_too_long_refuted : exists j1 j2 text1 text2, document j1 text1 /\ document j2 text2 /\
  (forall k, undefined pc_default k (TArr 2 (TInt IInt)) (VList [VInt 0; VInt 0]) text1) /\
  (forall k, undefined pc_default k (TTup [TInt IInt; TStr]) (VList [VInt 0; VStr []]) text2).
Proof.
  assert (D1 : document (Arr [Scal (SNum (bs "1")); Scal (SNum (bs "2")); Scal (SNum (bs "3"))]) (bs "[1,2,3]")) by doc.
  assert (D2 : document (Arr [Scal (SNum (bs "1")); Scal (SStr (bs "2")); Scal SNull]) (bs "[1,""2"",null]")) by doc.
  exists (Arr [Scal (SNum (bs "1")); Scal (SNum (bs "2")); Scal (SNum (bs "3"))]),
    (Arr [Scal (SNum (bs "1")); Scal (SStr (bs "2")); Scal SNull]), (bs "[1,2,3]"), (bs "[1,""2"",null]").
  split; [exact D1|]. split; [exact D2|].
  split; intros []; first [apply (doc_ub _ _ _ _ _ _ D1)|apply (doc_ub _ _ _ _ _ _ D2)]; vm_compute; reflexivity.
Qed.
Print Assumptions C31_too_long_refuted.

(** ** C32.  Full claim: after an import a vector, list or deque holds exactly the elements of the document.  Proved: it holds
    what it held before followed by the elements of the document; so the claim is true for a container that was empty,
    and false otherwise. *)
Theorem C32_sequence_partial : forall cfg k t old l text v', wf t = true -> shaped (TVec t) (VList old) = true ->
  document (Arr l) text -> exact_skips cfg k (TVec t) (Arr l) -> accepts cfg k (TVec t) (VList old) text v' ->
  exists new, v' = VList (old ++ new) /\ Forall2 (reads_as cfg k t (default t)) l new.
Proof.
  intros cfg k t old l text v' W S D X A. assert (W' : wf (TVec t) = true) by (cbn [wf seq_elem]; now rewrite W). destruct (vec_run cfg k t old l v') as (new & E & F); [eapply doc_meaning; eassumption|].
  exists new. split; [exact E|]. clear D X A E. induction F; constructor; auto using meaning_reads.
Qed.
Print Assumptions C32_sequence_partial.
Example C32_example : accepts pc_default StrIn (TVec TStr) (VList []) (bs "[""a"",""b""]") (VList [VStr (bs "a"); VStr (bs "b")]).
Proof. eapply doc_imports; [doc|vm_compute; reflexivity]. Qed.
Theorem C32_sequence_refuted : exists l text, document (Arr l) text /\
  forall k, accepts pc_default k (TVec (TInt IInt)) (VList [VInt 1]) text (VList [VInt 1; VInt 2]).
Proof.
  assert (D : document (Arr [Scal (SNum (bs "2"))]) (bs "[2]")) by doc. exists [Scal (SNum (bs "2"))], (bs "[2]").
  split; [exact D|]. intros []; apply (doc_imports _ _ _ _ _ _ D); vm_compute; reflexivity.
Qed.
Print Assumptions C32_sequence_refuted.

(** ** C33 *)
Theorem C33_map_entries : forall cfg k fw t o l text v', wf t = true -> shaped (TMap fw t) (VMap o) = true ->
  document (Obj l) text -> exact_skips cfg k (TMap fw t) (Obj l) -> readable (pc_conv cfg) (Obj l) ->
  accepts cfg k (TMap fw t) (VMap o) text v' ->
  exists o', v' = VMap o' /\ (ordered fw o -> ordered fw o') /\ (forall n, lacks cfg l n -> map_find n o' = map_find n o) /\
    (forall a key n j b, l = a ++ (key, j) :: b -> names (pc_conv cfg) key n ->
       match fw with
       | MFirst => (forall y, map_find n o = Some y -> map_find n o' = Some y) /\
           (lacks cfg a n -> map_find n o = None -> exists x', map_find n o' = Some x' /\ reads_as cfg k t (default t) j x')
       | MPlace => lacks cfg b n -> exists x x', map_find n o' = Some x' /\ reads_as cfg k t x j x' /\ (overwritten t = true -> x = default t)
       | MAll => exists x', In (n, x') o' /\ reads_as cfg k t (default t) j x'
       end).
Proof.
  intros cfg k fw t o l text v' W S D X R A. assert (W' : wf (TMap fw t) = true) by exact W.
  destruct (map_doc cfg k fw t o l v') as (f & E); [eapply doc_meaning; eassumption|]. cbn [shaped] in S.
  destruct (map_run _ _ _ t W fw l o [] v' f S E) as (o' & -> & S' & O & Fa & Fk). exists o'. split; [reflexivity|]. split; [exact O|]. split.
  - intros n L. apply Fa. intros key j Hj. eapply lacks_key; eassumption.
  - assert (Ra : forall a key j b, l = a ++ (key, j) :: b -> readable (pc_conv cfg) (Obj a) /\ readable (pc_conv cfg) (Obj b)).
    { intros a key j b ->. inversion R as [| |? G]; subst. split; constructor; intros key0 j0 H0; apply (G key0 j0); apply in_app_iff; cbn [In]; tauto. }
    intros a key n j b El Hn. destruct (Ra a key j b El) as [Rl Rr]. subst l. destruct fw.
    + split; [now apply Fk|]. intros L Ho.
      destruct (map_first _ _ _ t W a key n j b o _ f S (names_key k _ _ _ Hn) (lacks_key cfg k a n Rl L) Ho E) as (o1 & x' & Q & Hx & F).
      injection Q as <-. exists x'. split; [exact F|]. apply meaning_reads. exact Hx.
    + intros L. destruct (map_last _ _ _ t W a key n j b o _ f S (names_key k _ _ _ Hn) (lacks_key cfg k b n Rr L) E) as (o1 & x & x' & Q & Sx & Hx & F).
      injection Q as <-. destruct (overwritten t) eqn:Ov.
      * exists (default t), x'. split; [exact F|]. split; [|auto]. apply meaning_reads. unfold meaning. now rewrite (overwritten_same _ _ _ t W _ x).
      * exists x, x'. split; [exact F|]. split; [now apply meaning_reads|discriminate].
    + destruct (multi_run _ _ _ t W _ _ _ _ _ S E) as (es & F & Ev). injection Ev as ->. apply Forall2_app_inv_l in F as (e1 & e2 & _ & F & ->). inversion F as [|? [n' x'] ? e2' [Hk Hx] _]; subst. cbn [fst snd] in *.
      rewrite (names_key k _ _ _ Hn) in Hk. injection Hk as <-. exists x'. split; [|apply meaning_reads; exact Hx].
      eapply Permutation_in; [apply Permutation_sym, add_all|]. apply in_or_app. right. apply in_or_app. right. now left.
Qed.
Print Assumptions C33_map_entries.
Example C33_example :
  accepts pc_default StrIn (TMap MPlace (TInt IInt)) (VMap [(bs "c", VInt 9)]) (bs "{""b"":1,""a"":2,""b"":3}")
    (VMap [(bs "a", VInt 2); (bs "b", VInt 3); (bs "c", VInt 9)]) /\
  accepts pc_default StrIn (TMap MFirst (TInt IInt)) (VMap [(bs "c", VInt 9)]) (bs "{""b"":1,""c"":2,""b"":3}")
    (VMap [(bs "b", VInt 1); (bs "c", VInt 9)]).
Proof. split; (eapply doc_imports; [doc|vm_compute; reflexivity]). Qed.

(** Entries with keys that others have: a multimap holds the old entries and all entries of the document, in the order of the keys, equal keys in the order of their
    arrival. *)
Theorem C33_multimap : forall cfg k t o l text v', wf t = true -> shaped (TMap MAll t) (VMap o) = true ->
  document (Obj l) text -> exact_skips cfg k (TMap MAll t) (Obj l) -> readable (pc_conv cfg) (Obj l) -> accepts cfg k (TMap MAll t) (VMap o) text v' ->
  exists o' new, v' = VMap o' /\ Permutation o' (o ++ new) /\
    Forall2 (fun entry kv => names (pc_conv cfg) (fst entry) (fst kv) /\ reads_as cfg k t (default t) (snd entry) (snd kv)) l new /\
    (ordered MAll o -> ordered MAll o' /\ forall n, filter (fun kv => beq (fst kv) n) o' = filter (fun kv => beq (fst kv) n) (o ++ new)).
Proof.
  intros cfg k t o l text v' W S D X R A. assert (W' : wf (TMap MAll t) = true) by exact W.
  destruct (map_doc cfg k MAll t o l v') as (f & E); [eapply doc_meaning; eassumption|]. cbn [shaped] in S.
  destruct (multi_run _ _ _ t W _ _ _ _ _ S E) as (es & F & ->). destruct (add_all es o) as [P Q]. eexists. exists es. split; [reflexivity|]. split; [exact P|]. split; [|exact Q].
  inversion R as [| |? G]; subst. clear - F G. induction F as [|[key j] [n x] l es [Hk Hx] F IH]; constructor.
  - cbn [fst snd] in *. destruct (G key j (or_introl eq_refl)) as [[n' Hn] _]. rewrite (names_key k _ _ _ Hn) in Hk. injection Hk as <-. split; [exact Hn|]. apply meaning_reads. exact Hx.
  - apply IH. intros key' j' H. apply (G key' j'). now right.
Qed.
Print Assumptions C33_multimap.
Example C33_multimap_example : document (Obj [(bs "b", Scal (SNum (bs "1"))); (bs "a", Scal (SNum (bs "2"))); (bs "b", Scal (SNum (bs "3")))]) (bs "{""b"":1,""a"":2,""b"":3}") /\
  ordered MAll [(bs "b", VInt 9)] /\
  accepts pc_default StrIn (TMap MAll (TInt IInt)) (VMap [(bs "b", VInt 9)]) (bs "{""b"":1,""a"":2,""b"":3}") (VMap [(bs "a", VInt 2); (bs "b", VInt 9); (bs "b", VInt 1); (bs "b", VInt 3)]).
Proof. split; [doc|]. split; [constructor; [intros ? ? []|constructor]|]. eapply doc_imports; [doc|vm_compute; reflexivity]. Qed.

(** ** C34, import.  null into a pointer gives a null pointer, anything else a pointer to what the text says, whatever the
    pointer was before; an optional that is read is not empty afterwards. *)
Theorem C34_pointer_import : forall cfg k t v j text v', wf t = true -> shaped (TPtr t) v = true -> document j text ->
  exact_skips cfg k (TPtr t) j -> accepts cfg k (TPtr t) v text v' ->
  (j = Scal SNull -> v' = VPtr None) /\ (j <> Scal SNull -> exists x', v' = VPtr (Some x') /\ reads_as cfg k t (default t) j x').
Proof.
  intros cfg k t v j text v' W S D X A. assert (W' : wf (TPtr t) = true) by exact W.
  assert (M := doc_meaning cfg k _ _ _ _ _ W' S D X A). unfold meaning in M. cbn [interp i_parse] in M. unfold in_pointer in M. split.
  - intros ->. cbn in M. now injection M as <-.
  - intros Hj. destruct (null_tree _ j) eqn:N.
    + destruct j as [a|l|l]; try discriminate N. destruct a; try discriminate N. contradiction.
    + apply bind_ok in M as (x & Hx & M). injection M as <-. exists x. split; [reflexivity|now apply meaning_reads].
Qed.
Print Assumptions C34_pointer_import.
Theorem C34_optional_import : forall cfg k t o j text v', wf t = true -> shaped (TOpt t) (VOpt o) = true -> document j text ->
  exact_skips cfg k (TOpt t) j -> accepts cfg k (TOpt t) (VOpt o) text v' ->
  exists x', v' = VOpt (Some x') /\ reads_as cfg k t (match o with Some x => x | None => default t end) j x'.
Proof.
  intros cfg k t o j text v' W S D X A. assert (W' : wf (TOpt t) = true) by exact W.
  assert (M := doc_meaning cfg k _ _ _ _ _ W' S D X A). unfold meaning in M. cbn [interp i_parse] in M.
  apply bind_ok in M as (x & Hx & M). injection M as <-. exists x. split; [reflexivity|now apply meaning_reads].
Qed.
Print Assumptions C34_optional_import.
Example C34_import_example :
  accepts pc_default StrIn (TPtr TStr) (VPtr (Some (VStr (bs "a")))) (bs " null ") (VPtr None) /\
  accepts pc_default Strm (TPtr TStr) (VPtr None) (bs """b""") (VPtr (Some (VStr (bs "b")))) /\
  accepts pc_default Strm (TOpt TStr) (VOpt None) (bs """b""") (VOpt (Some (VStr (bs "b")))) /\
  (forall k, rejects pc_default k (TOpt (TInt IInt)) (VOpt None) (bs "null")).
Proof.
  split; [|split; [|split]]; try (eapply doc_imports; [doc|vm_compute; reflexivity]).
  intros []; (eapply doc_throw; [doc|vm_compute; reflexivity]).
Qed.

(** ** C35, import.  A string that is no name of the enum, and everything that is not a string, is never accepted at any
    place that is read as the enum; a name gives the value that has it (the first one if there are several). *)
Theorem C35_unknown_name_rejected : forall cfg k t v j text vals j', wf t = true -> shaped t v = true -> document j text -> exact_skips cfg k t j ->
  jpart cfg t j (TEnum vals) j' ->
  match j' with Scal (SStr raw) => exists n, names (pc_conv cfg) raw n /\ ~ In n (map snd vals) | _ => True end ->
  refuses cfg k t v text /\ (sound cfg k t j -> rejects cfg k t v text).
Proof.
  intros cfg k t v j text vals j' W S D X P H. apply (part_refuses cfg k t v j text (TEnum vals) j'); auto. intros _ w Sw w' E.
  cbn [interp i_parse] in E. apply bind_ok in E as (s & Es & E). destruct j' as [a|l|l]; try discriminate Es.
  cbn [in_value] in Es. apply bind_ok in Es as (b & Eb & Es). injection Es as <-. destruct a as [txt|raw| | |]; try discriminate Eb.
  destruct H as (n & Hn & Hi). assert (Eb' := names_key k _ _ _ Hn). change (sc_key (json_sc k (pc_conv cfg)) raw = Ok b) in Eb. rewrite Eb' in Eb. injection Eb as <-.
  assert (F : enum_value vals n = None).
  { clear -Hi. induction vals as [|[z m] r IH]; [reflexivity|]. cbn [enum_value map snd In] in *.
    destruct (beq m n) eqn:B; [apply beq_eq in B; tauto|tauto]. }
  rewrite F in E. discriminate E.
Qed.
Print Assumptions C35_unknown_name_rejected.
Theorem C35_name_read : forall cfg k vals a z n b raw text w, vals = a ++ (z, n) :: b -> ~ In n (map snd a) ->
  names (pc_conv cfg) raw n -> document (Scal (SStr raw)) text -> accepts cfg k (TEnum vals) (VInt w) text (VInt z).
Proof.
  intros cfg k vals a z n b raw text w -> Hi Hn D. apply (doc_imports cfg k _ _ _ _ D). unfold meaning. cbn [interp i_parse in_value].
  assert (E := names_key k _ _ _ Hn). change (sc_str (json_sc k (pc_conv cfg)) (SStr raw)) with (sc_key (json_sc k (pc_conv cfg)) raw).
  rewrite E. cbn [bind].
  assert (F : enum_value (a ++ (z, n) :: b) n = Some z).
  { clear -Hi. induction a as [|[y m] r IH]; cbn [app enum_value map snd In] in *; [now rewrite beq_refl|].
    destruct (beq m n) eqn:B; [apply beq_eq in B; tauto|tauto]. }
  now rewrite F.
Qed.
Print Assumptions C35_name_read.
Definition ty_color : ty := TEnum [(0, bs "Red"); (1, bs "Green")].
Example C35_import_example : accepts pc_default Strm (TVec ty_color) (VList []) (bs "[""Green"",""Red""]") (VList [VInt 1; VInt 0]) /\
  rejects pc_default Strm (TVec ty_color) (VList []) (bs "[""Green"",""Blue""]") /\
  rejects pc_default StrIn (TVec ty_color) (VList []) (bs "[1]").
Proof. split; [eapply doc_imports; [doc|vm_compute; reflexivity]|split; (eapply doc_throw; [doc|vm_compute; reflexivity])]. Qed.

(** ** C37, import.  [TPoly cs others]: a pointer to a polymorphic base class; [cs] are the registered classes derived from
    it, [others] the names of all other registered classes. *)
(** An object that does not start with the marker and a class name, or names a class that is not registered for the base,
    is never accepted. *)
Theorem C37_no_class_rejected : forall cfg k t v j text cs others j', wf t = true -> shaped t v = true -> document j text -> exact_skips cfg k t j ->
  (jpart cfg t j (TPoly cs others) j' \/ jpart cfg t j (TVariant cs) j') -> j' <> Scal SNull ->
  ((forall key jc l, j' <> Obj ((key, jc) :: l)) \/
   (exists key n jc l, j' = Obj ((key, jc) :: l) /\ names (pc_conv cfg) key n /\ n <> pc_marker cfg) \/
   (exists key a c l, j' = Obj ((key, Scal a) :: l) /\ names (pc_conv cfg) key (pc_marker cfg) /\ str_is (pc_conv cfg) a c /\
      ~ In c (map class_name cs))) ->
  refuses cfg k t v text /\ (sound cfg k t j -> rejects cfg k t v text).
Proof.
  intros cfg k t v j text cs others j' W S D X P N H.
  assert (G : forall c jr, class_of (json_sc k (pc_conv cfg)) (pc_marker cfg) j' = Ok (c, jr) -> find_class cs c = None).
  { intros c jr E. destruct H as [H|[H|(key & a & c0 & l & -> & Hk & Ha & Hc)]].
    - now apply class_name_bad in E; [|left].
    - now apply class_name_bad in E; [|right].
    - apply (class_unknown cfg k key a l c0) in E; auto. injection E as -> ->. clear -Hc. induction cs as [|c1 r IH]; [reflexivity|].
      cbn [find_class map In] in *. destruct (beq (class_name c1) c0) eqn:B; [apply beq_eq in B; tauto|]. rewrite IH; tauto. }
  assert (G' : null_tree (json_sc k (pc_conv cfg)) j' = false).
  { destruct j' as [a|l|l]; try reflexivity. destruct a; try reflexivity. contradiction. }
  destruct P as [P|P]; eapply (part_refuses cfg k t v j text _ j'); eauto; intros _ w Sw w' E; cbn [interp i_parse] in E.
  - unfold in_pointer in E. rewrite G' in E. apply bind_ok in E as ([c jr] & E1 & E). rewrite (G c jr E1) in E. destruct (existsb _ _); discriminate E.
  - apply bind_ok in E as ([c jr] & E1 & E). rewrite (G c jr E1) in E. discriminate E.
Qed.
Print Assumptions C37_no_class_rejected.
(** The class that is named first decides what is built; the rest of the object fills a default constructed object. *)
Theorem C37_class_read : forall cfg k cs others v key a c l text v' i t, wf (TPoly cs others) = true -> shaped (TPoly cs others) v = true ->
  document (Obj ((key, Scal a) :: l)) text -> exact_skips cfg k (TPoly cs others) (Obj ((key, Scal a) :: l)) ->
  accepts cfg k (TPoly cs others) v text v' ->
  names (pc_conv cfg) key (pc_marker cfg) -> str_is (pc_conv cfg) a c -> find_class cs c = Some i -> nth_error cs i = Some t ->
  exists x', v' = VPtr (Some (VVar i x')) /\ reads_as cfg k t (default t) (Obj l) x'.
Proof.
  intros cfg k cs others v key a c l text v' i t W S D X A Hk Ha Hc Ht.
  assert (M := doc_meaning cfg k _ _ _ _ _ W S D X A). unfold meaning in M. cbn [interp i_parse] in M. unfold in_pointer in M. cbn [null_tree] in M.
  apply bind_ok in M as ([c' jr] & E1 & M). apply (class_unknown cfg k key a l c) in E1; auto. injection E1 as -> ->.
  rewrite Hc, Ht in M. rewrite (map_nth_error _ _ _ Ht) in M. apply bind_ok in M as (x & Hx & M). injection M as <-.
  exists x. split; [reflexivity|now apply meaning_reads].
Qed.
Print Assumptions C37_class_read.
Definition ty_a : ty := TStruct (mkSinfo [bs "x"] [] (bs "A") false false false) [TInt IInt] [].
Definition ty_b : ty := TStruct (mkSinfo [bs "y"] [] (bs "B") false false false) [TStr] [].
Example C37_import_example :
  accepts pc_default StrIn (TPoly [ty_a; ty_b] [bs "C"]) (VPtr None) (bs "{""__type"":""B"",""y"":""q""}")
    (VPtr (Some (VVar 1 (VStruct [VStr (bs "q")] [])))) /\
  rejects pc_default StrIn (TPoly [ty_a; ty_b] [bs "C"]) (VPtr None) (bs "{""y"":""q"",""__type"":""B""}") /\
  rejects pc_default StrIn (TPoly [ty_a; ty_b] [bs "C"]) (VPtr None) (bs "{""__type"":""D""}").
Proof. split; [eapply doc_imports; [doc|vm_compute; reflexivity]|split; (eapply doc_throw; [doc|vm_compute; reflexivity])]. Qed.
(** Naming a registered class that is not derived from the base is not rejected: it is undefined behaviour. *)
Theorem C37_no_class_refuted : exists j text, document j text /\
  forall k, undefined pc_default k (TPoly [ty_a] [bs "C"]) (VPtr None) text.
Proof.
  assert (D : document (Obj [(bs "__type", Scal (SStr (bs "C")))]) (bs "{""__type"":""C""}")) by doc.
  eexists _, _. split; [exact D|]. intros []; apply (doc_ub _ _ _ _ _ _ D); vm_compute; reflexivity.
Qed.
Print Assumptions C37_no_class_refuted.
