(** C45, C54: what a BSON import reads, for any bytes.

    [bson_extract fuel cfg t v (src_init k text)]: what importing [text] from a string ([StrIn]) or a stream ([Strm]) into a
    [t] that holds [v] gives; [Returned v' s]: the value [v'], and the source [s] from which [s_rest s] can still be read. *)
From Coq Require Import ZArith String List Bool Lia ZifyBool.
From Verif Require Import Model.Base Model.Source Model.Number Model.ParserInterface Model.Types Model.Importer Model.Binary Model.BsonParser Model.BsonDoc
  Spec.JsonString Spec.Json Spec.Typed Spec.Import Spec.Denotes Spec.Bson Proofs.Tac Proofs.BinaryP Proofs.BsonCheck Proofs.BsonRoundP Proofs.BsonLengthP
  Properties.Imports Properties.Members Properties.Exports.
Import ListNotations.
Open Scope Z_scope.

Definition bytewise (text : bytes) : Prop := Forall (fun c => 0 <= c < 256) text.

Lemma announced_little : forall text, bytewise text -> (4 <= List.length text)%nat ->
  firstn 4 text = little 4 (announced text) /\ - 2 ^ 31 <= announced text < 2 ^ 31.
Proof.
  intros text H L. assert (L4 : List.length (firstn 4 text) = 4%nat) by (rewrite firstn_length; lia).
  assert (F : Forall (fun c => 0 <= c < 256) (firstn 4 text)) by (apply Forall_firstn; exact H).
  unfold announced. revert F L4. generalize (firstn 4 text). clear. intros l F L4.
  assert (R := le_value_range l F). assert (Q := little_signed l ltac:(intros ->; discriminate L4) F). rewrite L4 in *. split; [now symmetry|].
  unfold signed_value. rewrite L4. change (8 * Z.of_nat 4 - 1) with 31. change (8 * Z.of_nat 4) with 32 in *. change (2 ^ 32) with 4294967296 in *. change (2 ^ 31) with 2147483648.
  match goal with |- context [if ?c then _ else _] => destruct c eqn:Ec end; lia.
Qed.

(** ** C54.  An import from a string that gives a value has read exactly the number of bytes that the first four bytes
    announce, whatever the bytes, the type and the configuration. *)
Theorem C54_length : forall fuel cfg t v text v' s, bytewise text -> len text < 2 ^ 63 ->
  bson_extract fuel cfg t v (src_init StrIn text) = Returned v' s ->
  exists doc rest, text = doc ++ rest /\ firstn 4 text = little 4 (len doc) /\ len doc < 2 ^ 31 /\
    if pc_noTrailing cfg then blank rest else s_rest s = rest.
Proof.
  intros fuel cfg t v text v' s Ht L E. unfold bson_extract, extract_with in E. destruct (try_with bson_ops fuel cfg t v (src_init StrIn text)) as [[v1 s1]| | |] eqn:T; try discriminate E. injection E as -> ->.
  destruct (success_length _ _ _ _ _ _ _ _ Ht T) as (n & ((L4 & Ln) & e & q & He & E0 & En) & R). specialize (E0 eq_refl). subst e.
  destruct (announced_little text Ht L4) as [A B]. unfold len in *.
  assert (q = 0) by lia. subst q. exists (firstn n text), (skipn n text). split; [now rewrite firstn_skipn|]. rewrite firstn_length_le by exact Ln.
  split; [rewrite A; f_equal; lia|]. split; [lia|]. destruct (pc_noTrailing cfg); [exact R|]. destruct R as ((_ & D & _) & <-). unfold s_rest. now rewrite D.
Qed.
Print Assumptions C54_length.
(** From a stream at least as many. *)
Theorem C54_stream_partial : forall fuel cfg t v text v' s, bytewise text -> len text < 2 ^ 32 ->
  bson_extract fuel cfg t v (src_init Strm text) = Returned v' s ->
  exists z doc rest, text = doc ++ rest /\ firstn 4 text = little 4 z /\ - 2 ^ 31 <= z <= len doc /\
    if pc_noTrailing cfg then blank rest else s_rest s = rest.
Proof.
  intros fuel cfg t v text v' s Ht L E. unfold bson_extract, extract_with in E. destruct (try_with bson_ops fuel cfg t v (src_init Strm text)) as [[v1 s1]| | |] eqn:T; try discriminate E. injection E as -> ->.
  destruct (success_length _ _ _ _ _ _ _ _ Ht T) as (n & ((L4 & Ln) & e & q & He & _ & En) & R).
  destruct (announced_little text Ht L4) as [A B]. unfold len in *.
  assert (q = 0) by lia. subst q. exists (announced text), (firstn n text), (skipn n text). split; [now rewrite firstn_skipn|]. rewrite firstn_length_le by exact Ln.
  split; [exact A|]. split; [lia|]. destruct (pc_noTrailing cfg); [exact R|]. destruct R as ((_ & D & _) & <-). unfold s_rest. now rewrite D.
Qed.
Print Assumptions C54_stream_partial.
(** More bytes are read from a stream when an unknown member is a string whose length is negative. *)
Definition ty_none : ty := TStruct (mkSinfo [] [] [] false false false) [] [].
Definition too_short : bytes := little 4 11 ++ [2; 97; 0] ++ little 4 (-1) ++ [0].
Theorem C54_stream_refuted : exists text, bytewise text /\ firstn 4 text = little 4 11 /\ len text = 12 /\
  bson_imports pc_default Strm ty_none (VStruct [] []) text (VStruct [] []) [].
Proof.
  exists too_short. split; [|split; [reflexivity|split; [reflexivity|]]].
  - vm_compute. repeat constructor; discriminate.
  - exists 20%nat. intros fuel F. do 20 (destruct fuel as [|fuel]; [lia|]). eexists. split; [vm_compute; reflexivity|split; reflexivity].
Qed.
Print Assumptions C54_stream_refuted.
Example C54_example : forall k, bytewise (bson_doc (Obj [(bs "a", Scal (BStr (bs "xyz"))); (bs "b", Arr [])]) ++ [32]) /\
  bson_imports pc_default k ty_none (VStruct [] []) (bson_doc (Obj [(bs "a", Scal (BStr (bs "xyz"))); (bs "b", Arr [])]) ++ [32]) (VStruct [] []) [32].
Proof.
  intro k. split.
  - vm_compute. repeat constructor; discriminate.
  - exists 20%nat. intros fuel F. do 20 (destruct fuel as [|fuel]; [lia|]). eexists. destruct k; (split; [vm_compute; reflexivity|split; reflexivity]).
Qed.

(** ** C45.  Full claim: importing a proper prefix of a document fails.  Proved: it never gives a value, from either kind of
    source, for every type and configuration.  It need not fail in a defined way, see below. *)
Lemma document_length : forall Name j doc, bson_document Name j doc -> exists e, doc = little 4 (len doc) ++ e /\ 4 <= len doc < 2 ^ 31.
Proof.
  assert (F : forall e b, framed e b -> exists x, b = little 4 (len b) ++ x /\ 4 <= len b < 2 ^ 31).
  { intros e b [L]. exists (e ++ [0]). unfold len in *. rewrite !app_length, little_length. cbn [List.length]. split; [|lia]. do 2 f_equal. lia. }
  intros Name j doc D. destruct D as [l b H|l b H|a b H]; inversion H; subst; eauto.
Qed.
Theorem C45_prefix_partial : forall Name j pre rest, bson_document Name j (pre ++ rest) -> rest <> [] -> bytewise pre ->
  forall fuel cfg k t v v' s, bson_extract fuel cfg t v (src_init k pre) <> Returned v' s.
Proof.
  intros Name j pre rest D Hr Hb fuel cfg k t v v' s E. unfold bson_extract, extract_with in E. destruct (try_with bson_ops fuel cfg t v (src_init k pre)) as [[v1 s1]| | |] eqn:T; try discriminate E. clear E.
  destruct (success_length _ _ _ _ _ _ _ _ Hb T) as (n & ((L4 & Ln) & e & q & He & _ & En) & _).
  destruct (document_length _ _ _ D) as (x & Ex & R).
  assert (A : firstn 4 pre = little 4 (len (pre ++ rest))).
  { transitivity (firstn 4 (pre ++ rest)); [rewrite firstn_app; replace (4 - List.length pre)%nat with 0%nat by lia; now rewrite firstn_O, app_nil_r|].
    rewrite Ex at 1. reflexivity. }
  assert (An : announced pre = len (pre ++ rest)) by (unfold announced; rewrite A; apply signed_little4; lia).
  rewrite An in En. assert (P : (0 < List.length rest)%nat) by (destruct rest; [congruence|cbn; lia]).
  unfold len in *. rewrite app_length in *. nia.
Qed.
Print Assumptions C45_prefix_partial.
(** When the document ends within an integer or a length, a variable that was never set is used. *)
Definition cut (n : nat) : bytes := firstn n (bson_doc (Obj [(bs "x", Scal (BInt32 7)); (bs "y", Scal (BStr (bs "abc")))])).
Definition ty_xy : ty := TStruct (mkSinfo [bs "x"; bs "y"] [] [] false false false) [TInt IInt; TStr] [].
Lemma cut_document : forall n, exists rest, bson_document any_name (Obj [(bs "x", Scal (BInt32 7)); (bs "y", Scal (BStr (bs "abc")))]) (cut n ++ rest).
Proof. intro n. exists (skipn n (bson_doc (Obj [(bs "x", Scal (BInt32 7)); (bs "y", Scal (BStr (bs "abc")))]))). unfold cut. rewrite firstn_skipn. apply (document_any decimal_name). apply doc_document. vm_compute. reflexivity. Qed.
Theorem C45_truncation_refuted : forall k, exists j pre rest t v, bson_document any_name j (pre ++ rest) /\ rest <> [] /\ bytewise pre /\ valid t v /\
  bson_undefined pc_default k t v pre.
Proof.
  intro k. destruct (cut_document 10) as (rest & D). exists (Obj [(bs "x", Scal (BInt32 7)); (bs "y", Scal (BStr (bs "abc")))]), (cut 10), rest, ty_xy, (VStruct [VInt 0; VStr []] []).
  split; [exact D|]. split; [intros ->; rewrite app_nil_r in D; destruct (document_length _ _ _ D) as (x & Ex & _); vm_compute in Ex; discriminate Ex|].
  split; [vm_compute; repeat constructor; discriminate|]. split; [split; [reflexivity|cbn -[fits bytes_in]; conds]|].
  exists 20%nat. intros fuel F. do 20 (destruct fuel as [|fuel]; [lia|]). destruct k; vm_compute; reflexivity.
Qed.
Print Assumptions C45_truncation_refuted.
(** Where it ends elsewhere, the import fails. *)
Example C45_example : forall k n, In n [4; 5; 11; 12; 18; 19; 20; 21; 22]%nat -> bson_rejects pc_default k ty_xy (VStruct [VInt 0; VStr []] []) (cut n).
Proof.
  intros k n Hn. exists 20%nat. intros fuel F. do 20 (destruct fuel as [|fuel]; [lia|]).
  cbn in Hn. repeat destruct Hn as [<-|Hn]; try contradiction; destruct k; vm_compute; exact I.
Qed.
