(** C89: what an import of arbitrary text cannot do.

    [json_extract fuel cfg t v (src_init k text)]: what importing [text] from a string ([StrIn]) or a stream ([Strm]) into a
    [t] that holds [v] gives; [ImpUB]: undefined behaviour.  [roomy], [no_overflow]: Spec/Safe.v. *)
From Coq Require Import ZArith String List Bool Lia ZifyBool.
From Verif Require Import Model.Base Model.Source Model.Number Model.JsonLexer Model.ParserInterface Model.JsonParser Model.Types Model.Deserializer Model.Importer Model.Shared Model.Float
  Model.Binary Model.BsonParser Model.BsonDoc Spec.JsonString Spec.Json Spec.Typed Spec.Import Spec.Bson Spec.Safe Proofs.JsonCheck Proofs.SafeP Proofs.SafeJsonP
  Properties.Imports Properties.Exports Properties.BsonLength.
Import ListNotations.
Open Scope Z_scope.

(** ** C89.  Importing any text, JSON or not, has defined behaviour, if the type has no array or tuple of a fixed length, no
    pointer to a class beside which others are registered that are not derived from it, and, when read from a string, no
    integer type for which the text has too many digits.  Missing: the excluded types, for which the claim is false (below),
    and floating point numbers read from strings, for which it is false as well ([C71_too_large_refuted]). *)
Theorem C89_json_partial : forall cfg k t v text fuel, wf t = true -> shaped t v = true -> roomy (no_overflow k text) t ->
  json_extract fuel cfg t v (src_init k text) <> ImpUB.
Proof. intros cfg k t v text fuel W S R. exact (json_defined k text fuel cfg t v W S R). Qed.
Print Assumptions C89_json_partial.
(** From a stream every text, also with floating point numbers ([flt_try]: Model/Float.v). *)
Theorem C89_stream_partial : forall cfg t v text fuel, wf t = true -> shaped t v = true -> roomy (fun _ => True) t ->
  json_extract fuel cfg t v (src_init Strm text) <> ImpUB /\ flt_try fuel cfg t v (src_init Strm text) <> UB.
Proof.
  intros cfg t v text fuel W S R. split.
  - apply C89_json_partial; [exact W|exact S|]. apply (roomy_weak (fun _ => True)); [|exact R]. intros i _ E. discriminate E.
  - exact (flt_defined text fuel cfg t v W S R).
Qed.
Print Assumptions C89_stream_partial.

(** A class with every kind of member; the text is not JSON. *)
Definition ty_roomy : ty :=
  TStruct (mkSinfo [bs "n"; bs "s"; bs "b"; bs "v"; bs "m"; bs "p"] [] [] false false false)
    [TInt IInt; TStr; TBool; TVec (TInt IShort); TMap MPlace (TOpt ty_point); TPtr (TVariant [ty_point])] [].
Definition old_roomy : val := VStruct [VInt 1; VStr []; VBool true; VList []; VMap []; VPtr None] [].
Definition garbage : bytes := bs "{""n"":12 ,""v"":[tru,]3""\".
Lemma short_numbers : forall text i, fits i 9999 -> fits i 0 -> (forall a ds b, text = a ++ ds ++ b -> Forall digit ds -> (List.length ds <= 4)%nat) -> small_numbers text i.
Proof.
  intros text i F F0 H a ds b E D. specialize (H a ds b E D).
  assert (B : 0 <= digits_value 0 ds <= 9999); [|unfold fits in *; destruct (i_signed i); lia].
  destruct ds as [|d1 [|d2 [|d3 [|d4 [|d5 ds]]]]]; cbn [List.length] in H; try lia; repeat match goal with X : Forall _ (_ :: _) |- _ => apply Forall_cons_iff in X; destruct X as [? X] end;
    unfold digit in *; cbn [digits_value]; lia.
Qed.
Example C89_example : forall k cfg fuel, json_extract fuel cfg ty_roomy old_roomy (src_init k garbage) <> ImpUB.
Proof.
  intros k cfg fuel. apply C89_json_partial; [reflexivity|reflexivity|].
  assert (L : forall a ds b, garbage = a ++ ds ++ b -> Forall digit ds -> (List.length ds <= 4)%nat).
  { intros a ds b E D. destruct (Nat.le_gt_cases (List.length ds) 4) as [|C]; [assumption|exfalso].
    assert (P : forall n, (n <= 25)%nat -> existsb (fun c => negb ((48 <=? c) && (c <=? 57))) (firstn 4 (skipn n garbage)) = true \/ (List.length (skipn n garbage) < 4)%nat).
    { intros n Hn. do 26 (destruct n as [|n]; [vm_compute; auto; right; lia|]). lia. }
    assert (La : (List.length a + List.length ds <= 25)%nat) by (assert (Q := f_equal (@List.length Z) E); rewrite !app_length in Q; cbn in Q; lia).
    destruct (P (List.length a) ltac:(lia)) as [Q|Q]; rewrite E in Q; rewrite skipn_app, skipn_all, Nat.sub_diag in Q; cbn [skipn app] in Q.
    - destruct ds as [|d1 [|d2 [|d3 [|d4 ds]]]]; cbn [List.length] in C; try lia. cbn [app firstn existsb] in Q.
      repeat match goal with X : Forall _ (_ :: _) |- _ => apply Forall_cons_iff in X; destruct X as [? X] end. unfold digit in *. lia.
    - rewrite app_length in Q. lia. }
  unfold ty_roomy, ty_point. cbn [roomy fold_right]. repeat match goal with |- _ /\ _ => split end; try exact Logic.I; intros _; (apply short_numbers; [vm_compute; split; congruence|vm_compute; split; congruence|exact L]).
Qed.

(** ** What is undefined *)
(** Each of the excluded types: a number with too many digits from a string, too many elements for an array, and the name of a
    class that is not derived from the base. *)
Theorem C89_json_refuted :
  undefined pc_default StrIn (TVec (TInt IShort)) (VList []) (bs "[1,99999") /\
  (forall k, undefined pc_default k (TArr 1 TBool) (VList [VBool true]) (bs "[true,false")) /\
  (forall k, undefined pc_default k (TPoly [ty_point] [bs "C"]) (VPtr None) (bs "{""__type"":""C"",,")).
Proof. split; [|split]; try intros []; fuels 40%nat; vm_compute; reflexivity. Qed.
Print Assumptions C89_json_refuted.

(** BSON: the byte of a bool is neither 0 nor 1; the length of a skipped string leads back to before the first byte of the
    string that is read.  (Truncated integers: [C45_truncation_refuted].) *)
Definition bad_bool : bytes := little 4 9 ++ [8; 98; 0; 2; 0].
Definition backwards : bytes := little 4 12 ++ [2; 97; 0] ++ little 4 (-12) ++ [0].
Theorem C89_bson_refuted :
  (forall k, bytewise bad_bool /\ bson_undefined pc_default k (TStruct (mkSinfo [bs "b"] [] [] false false false) [TBool] []) (VStruct [VBool true] []) bad_bool) /\
  bytewise backwards /\ bson_undefined pc_default StrIn ty_none (VStruct [] []) backwards.
Proof.
  assert (E : forall l, forallb (fun c => (0 <=? c) && (c <? 256)) l = true -> bytewise l).
  { intros l H. apply Forall_forall. intros c Hc. rewrite forallb_forall in H. specialize (H c Hc). lia. }
  split; [intros k; split; [now apply E|]|split; [now apply E|]]; exists 20%nat; intros fuel F; do 20 (destruct fuel as [|fuel]; [lia|]); try destruct k; vm_compute; reflexivity.
Qed.
Print Assumptions C89_bson_refuted.
