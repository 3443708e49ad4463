(** C88: what a BSON import accepts, for any bytes.  C54: the length of what is read from a stream. *)
From Coq Require Import ZArith String List Bool Lia ZifyBool.
From Verif Require Import Model.Base Model.Source Model.Number Model.ParserInterface Model.Types Model.Importer Model.Binary Model.BsonPrinter Model.BsonParser Model.BsonDoc
  Model.Float Model.BsonFloat Spec.JsonString Spec.Json Spec.Typed Spec.Import Spec.Denotes Spec.Bson Spec.BsonAccept Proofs.Tac Proofs.BinaryP Proofs.BsonCheck Proofs.BsonAcceptP
  Properties.Imports Properties.Members Properties.Exports Properties.BsonLength.
Import ListNotations.
Open Scope Z_scope.

(** Are unknown members skipped? *)
Definition skips (cfg : pconfig) : bool := match pc_strict cfg with Weak => true | _ => false end.
(** Is a [t] the only element of a document, rather than a document of its own? *)
Definition alone (t : ty) : bool := match bson_root t with BValue => true | _ => false end.

(** ** C88.  When a BSON import gives a value, what it has read from the source is a BSON document in the sense of
    Spec/BsonAccept.v: the length in front of every object and array is that of its text, each ends with a zero byte, and
    between them are elements with a type, a name and a value of exactly the size that the type demands; without
    skipping, only types that can be read into a value.  A string or binary element with a negative length must not be in the text if
    unknown members are skipped; see below. *)
Theorem C88_bson_grammar : forall k fuel cfg t v text v' s, bytewise text -> len text < 2 ^ 63 -> (pc_strict cfg = Weak -> ~ negative_length text) ->
  bson_extract fuel cfg t v (src_init k text) = Returned v' s ->
  exists doc rest, text = doc ++ rest /\ bson_accepted_document (skips cfg) (alone t) doc /\
    if pc_noTrailing cfg then blank rest else s_rest s = rest.
Proof.
  intros k fuel cfg t v text v' s Ht L Hn E. unfold bson_extract, extract_with in E. destruct (try_with bson_ops fuel cfg t v (src_init k text)) as [[v1 s1]| | |] eqn:T; try discriminate E. injection E as -> ->.
  exact (accepts_document bson_ops k fuel cfg t v text v' s (or_introl eq_refl) Ht L Hn T).
Qed.
Print Assumptions C88_bson_grammar.
(** The same with floating point members. *)
Theorem C88_bson_floats : forall k fuel cfg t v text v' s, bytewise text -> len text < 2 ^ 63 -> (pc_strict cfg = Weak -> ~ negative_length text) ->
  extract_with bflt_ops fuel cfg t v (src_init k text) = Returned v' s ->
  exists doc rest, text = doc ++ rest /\ bson_accepted_document (skips cfg) (alone t) doc /\
    if pc_noTrailing cfg then blank rest else s_rest s = rest.
Proof.
  intros k fuel cfg t v text v' s Ht L Hn E. unfold extract_with in E. destruct (try_with bflt_ops fuel cfg t v (src_init k text)) as [[v1 s1]| | |] eqn:T; try discriminate E. injection E as -> ->.
  exact (accepts_document bflt_ops k fuel cfg t v text v' s (or_intror eq_refl) Ht L Hn T).
Qed.
Print Assumptions C88_bson_floats.

(** With a negative length the claim is false: the text below is imported from a stream, but no part in front of it is a
    document. *)
Lemma too_short_no_document : forall weak single doc rest, too_short = doc ++ rest -> ~ bson_accepted_document weak single doc.
Proof.
  intros weak single doc rest E H. destruct H as [e b _ [L] _].
  assert (N : len e + 5 = 11).
  { assert (F : firstn 4 too_short = little 4 (len e + 5)) by (rewrite E; reflexivity). change (firstn 4 too_short) with (little 4 11) in F.
    assert (Q := f_equal signed_value F). rewrite (signed_little4 11) in Q by lia. rewrite signed_little4 in Q by (unfold len in *; lia). congruence. }
  assert (P : nth 10 too_short 0 = 0).
  { rewrite E. rewrite app_nth1 by (rewrite !app_length, little_length; unfold len in N; cbn [List.length]; lia). rewrite app_assoc, app_nth2 by (rewrite app_length, little_length; unfold len in N; lia).
    replace (10 - List.length (little 4 (len e + 5) ++ e))%nat with 0%nat by (rewrite app_length, little_length; unfold len in N; lia). reflexivity. }
  vm_compute in P. discriminate P.
Qed.
Theorem C88_negative_refuted : exists text, bytewise text /\ bson_imports pc_default Strm ty_none (VStruct [] []) text (VStruct [] []) [] /\
  forall weak single doc rest, text = doc ++ rest -> ~ bson_accepted_document weak single doc.
Proof.
  exists too_short. split; [|split; [|exact too_short_no_document]].
  - vm_compute. repeat constructor; discriminate.
  - exists 20%nat. intros fuel F. do 20 (destruct fuel as [|fuel]; [lia|]). eexists. split; [vm_compute; reflexivity|split; reflexivity].
Qed.
Print Assumptions C88_negative_refuted.

(** What is taken though bsonspec.org forbids it: a string whose last byte is no zero, and an array whose elements have other
    names than 0, 1, ... *)
Definition odd_string : bytes := little 4 14 ++ [2; 121; 0] ++ little 4 2 ++ bs "xy" ++ [0].
Definition odd_array : bytes := little 4 13 ++ [16] ++ bs "no" ++ [0] ++ little 4 7 ++ [0].
Example C88_example : forall k,
  (bytewise odd_string /\ pc_strict (pc_mode Strict) = Strict /\ bson_imports (pc_mode Strict) k ty_point (point 1 []) odd_string (point 1 (bs "x")) []) /\
  (bytewise odd_array /\ pc_strict (pc_mode Exact) = Exact /\ exists s, bson_extract 20 (pc_mode Exact) (TVec (TInt IInt)) (VList []) (src_init k odd_array) = Returned (VList [VInt 7]) s).
Proof.
  intro k. split; (split; [vm_compute; repeat constructor; discriminate|]); (split; [reflexivity|]).
  - exists 20%nat. intros fuel F. do 20 (destruct fuel as [|fuel]; [lia|]). eexists. destruct k; (split; [vm_compute; reflexivity|split; reflexivity]).
  - eexists. destruct k; vm_compute; reflexivity.
Qed.
(** A text with skipped members that meets the hypotheses. *)
Example C88_weak_example : forall k, let text := bson_doc (Obj [(bs "a", Scal (BStr (bs "xyz"))); (bs "b", Arr [])]) in
  bytewise text /\ ~ negative_length text /\ bson_imports pc_default k ty_none (VStruct [] []) text (VStruct [] []) [].
Proof.
  intros k text. split; [vm_compute; repeat constructor; discriminate|]. split.
  - intros (a & ty & name & z & r & E & _ & _ & Z).
    assert (P : forall l, Forall (fun c => 0 <= c < 128) l -> forall p q, l = p ++ little 4 z ++ q -> False).
    { intros l F p q ->. apply Forall_app in F as [_ F]. apply Forall_app in F as [F _]. assert (S1 := signed_little4 z ltac:(lia)).
      apply Forall_inv_tail, Forall_inv_tail, Forall_inv_tail, Forall_inv in F. cbn [little] in F.
      assert (z / 256 / 256 / 256 = z / 2 ^ 24) by (rewrite !Z.div_div by lia; reflexivity). assert (R : (z / 256 / 256 / 256) mod 256 = z / 2 ^ 24 + 256).
      { rewrite H. symmetry. apply Z.mod_unique with (-1); [left|]; lia. } lia. }
    apply (P text ltac:(vm_compute; repeat constructor; discriminate) (a ++ ty :: name ++ [0]) r). etransitivity; [exact E|]. rewrite <- !app_assoc. cbn [app]. now rewrite <- !app_assoc.
  - exists 20%nat. intros fuel F. do 20 (destruct fuel as [|fuel]; [lia|]). eexists. destruct k; (split; [vm_compute; reflexivity|split; reflexivity]).
Qed.

(** ** C54, from a stream: as many bytes as announced, unless a negative length was skipped. *)
Theorem C54_stream_exact : forall fuel cfg t v text v' s, bytewise text -> len text < 2 ^ 63 -> (pc_strict cfg = Weak -> ~ negative_length text) ->
  bson_extract fuel cfg t v (src_init Strm text) = Returned v' s ->
  exists doc rest, text = doc ++ rest /\ firstn 4 text = little 4 (len doc) /\ len doc < 2 ^ 31 /\
    if pc_noTrailing cfg then blank rest else s_rest s = rest.
Proof.
  intros fuel cfg t v text v' s Ht L Hn E. destruct (C88_bson_grammar _ _ _ _ _ _ _ _ Ht L Hn E) as (doc & rest & Et & Ac & R). destruct Ac as [e b _ [Le] _]. exists (little 4 (len e + 5) ++ e ++ [0]), rest. split; [exact Et|].
  assert (Ld : len (little 4 (len e + 5) ++ e ++ [0]) = len e + 5) by (unfold len; rewrite !app_length, little_length; cbn [List.length]; lia). rewrite Ld. split; [rewrite Et; reflexivity|]. split; [exact Le|exact R].
Qed.
Print Assumptions C54_stream_exact.
