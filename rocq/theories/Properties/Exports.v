(** C01, C02, C16, C20, C21, C22, C23, C26, C27, C30, C34, C35, C37: what an export writes and that it can be read back.

    [json_export c k t v]: what exporting [v] with the configuration [c] to a stream or a string gives;
    [accepts cfg k t v text v']: importing [text] into a [t] that holds [v] gives [v'];
    [document j text]: [text] spells the tree [j] in the grammar of RFC 8259; the leaves and keys of [j] are spellings;
    [stands_for marker t v j]: [j] is a document of the value [v] (Spec/Denotes.v);
    [indent_ok c v]: Stream format, or the indentation of the innermost value of [v] is at most 4003 characters. *)
From Coq Require Import ZArith String List Bool Lia ZifyBool.
From Verif Require Import Model.Base Model.Source Model.Unicode Model.Number Model.ParserInterface
  Model.Types Model.Importer Model.Printer Model.JsonPrinter Model.Serializer Model.Exporter
  Spec.JsonString Spec.Json Spec.Typed Spec.Import Spec.Denotes Proofs.Tac Proofs.UnicodeP Proofs.LexP Proofs.NumberP Proofs.TreeM Proofs.JsonSim Proofs.ImportP
  Proofs.TypedP Proofs.InterpP Proofs.JsonPartP Proofs.SourcesP Proofs.DenotesP Proofs.PrintP Proofs.DocP Proofs.ExportP Proofs.JsonCheck
  Properties.Imports Properties.Members.
Import ListNotations.
Open Scope Z_scope.

(** ** C01, C02: strings *)
Lemma string_export : forall c k s, bytes_in s -> json_export c k TStr (VStr s) = Exported (34 :: escapeString s ++ [34]).
Proof.
  intros c k s H.
  assert (V : each valid_here TStr (VStr s)) by (split; [exact H|exact I]).
  assert (E : json_export c k TStr (VStr s) = json_export c ToStream TStr (VStr s)) by (destruct k; [reflexivity|]; unfold json_export; now rewrite string_is_stream).
  rewrite E. unfold json_export, json_to_stream, json_pass. cbn [ser sf_print mkSv json_printer pr_str]. unfold js_str, js_value, js_init.
  rewrite andb_false_r. cbn [separator f0 f1 bind export_end chunks_text flat_map chunk_bytes Z.eqb app]. now rewrite app_nil_r.
Qed.
Theorem C02_string_token : forall c k s, bytes_in s -> exists raw,
  json_export c k TStr (VStr s) = Exported (34 :: raw ++ [34]) /\ json_string raw s.
Proof. intros c k s H. exists (escapeString s). split; [now apply string_export|now apply escape_legal]. Qed.
Print Assumptions C02_string_token.
Theorem C01_string_round_trip : forall c k cfg src s old, bytes_in s -> pc_conv cfg = true -> exists out,
  json_export c k TStr (VStr s) = Exported out /\ accepts cfg src TStr (VStr old) out (VStr s).
Proof.
  intros c k cfg src s old H Hc. eexists. split; [now apply string_export|]. set (raw := escapeString s). assert (J : forall P, json_string_when P raw s) by (intro; now apply escape_legal).
  apply (doc_imports cfg src (Scal (SStr raw))).
  - replace (34 :: raw ++ [34]) with ([] ++ (34 :: raw ++ [34]) ++ []) by (cbn [app]; now rewrite app_nil_r). constructor; [constructor| |constructor].
    constructor. constructor. exists s. apply J.
  - unfold meaning. cbn [interp i_parse in_value]. assert (Q := names_key src true raw s (J _)). rewrite Hc. change (sc_str (json_sc src true) (SStr raw)) with (sc_key (json_sc src true) raw).
    now rewrite Q.
Qed.
Print Assumptions C01_string_round_trip.
Example C01_example : json_export pf_default ToString TStr (VStr [34; 92; 0; 10; 255; 97]) =
    Exported (34 :: [92; 34] ++ [92; 92] ++ 92 :: bs "u0000" ++ 92 :: bs "n" ++ [255; 97; 34]) /\
  bytes_in [34; 92; 0; 10; 255; 97].
Proof. split; [vm_compute; reflexivity|]. repeat constructor; lia. Qed.

(** ** C16: integers *)
Theorem C16_integer_round_trip : forall c k cfg src i z old, fits i z -> exists out,
  json_export c k (TInt i) (VInt z) = Exported out /\ int_literal out z /\ accepts cfg src (TInt i) (VInt old) out (VInt z).
Proof.
  intros c k cfg src i z old H. exists (int_dec z).
  assert (V : each valid_here (TInt i) (VInt z)) by (split; [exact H|exact I]).
  assert (E : json_export c k (TInt i) (VInt z) = json_export c ToStream (TInt i) (VInt z)) by (destruct k; [reflexivity|]; unfold json_export; now rewrite string_is_stream).
  split; [|split; [apply int_dec_literal|]].
  - rewrite E. unfold json_export, json_to_stream, json_pass. cbn [ser sf_print mkSv json_printer pr_int]. unfold js_int, js_value, js_init.
    rewrite andb_false_r. cbn [separator f0 f1 bind export_end chunks_text flat_map chunk_bytes Z.eqb app]. now rewrite app_nil_r.
  - apply (doc_imports cfg src (Scal (SNum (int_dec z)))).
    + replace (int_dec z) with ([] ++ int_dec z ++ []) at 2 by (cbn [app]; now rewrite app_nil_r). constructor; [constructor| |constructor].
      constructor. constructor. exact (int_literal_number _ _ (int_dec_literal z)).
    + unfold meaning. cbn [interp i_parse in_value json_sc sc_int]. replace (int_of src i (int_dec z)) with (Ok z); [reflexivity|]. symmetry.
      destruct src; [apply string_int_literal|apply stream_int_literal]; auto using int_dec_literal. intro U. now apply (unsigned_dec i).
Qed.
Print Assumptions C16_integer_round_trip.
Example C16_example : json_export pf_default ToString (TInt IInt) (VInt (-2147483648)) = Exported (bs "-2147483648") /\ fits IInt (-2147483648) /\
  json_export pf_default ToStream (TInt IULLong) (VInt 18446744073709551615) = Exported (bs "18446744073709551615") /\ fits IULLong 18446744073709551615.
Proof. repeat split; try (vm_compute; reflexivity); cbv; discriminate. Qed.

(** ** C20.  Full claim: every export is one JSON value.  Proved: an export of a valid value either fails with an exception, and
    then the value has no document at all (an enum value without a name, an empty optional that is not a member), or
    writes one JSON value; if the names and keys can stand between quotes as they are and the indentation fits its buffer. *)
Theorem C20_grammatical_partial : forall c k t v, wf t = true -> valid t v -> legal_keys t v -> legal_names t -> legal_string (pf_marker c) -> indent_ok c v ->
  (exists j out, json_export c k t v = Exported out /\ document j out) \/
  (json_export c k t v = ExportFailed (negb (pf_catch c)) /\ ~ exists j, stands_for (pf_marker c) t v j).
Proof.
  intros c k t v W V K N M R. destruct (export_text c t v W V K N M R k) as [(j & out & _ & E & D & _)|(T & E)]; [left; eauto|right].
  split; [exact E|]. intros (j & Hj). destruct (sense_printable (pf_marker c) t v j Hj) as (j' & E'). congruence.
Qed.
Print Assumptions C20_grammatical_partial.
(** With plain names and keys the JSON value is a document of the value: every member, element and entry is there once, in
    order, under its name. *)
Theorem C20_document_partial : forall c k t v, wf t = true -> valid t v -> plain_keys t v -> plain_names t -> plain_name (pf_marker c) -> indent_ok c v ->
  forall out, json_export c k t v = Exported out -> exists j, document j out /\ stands_for (pf_marker c) t v j.
Proof.
  intros c k t v W V K N M R out E.
  destruct (export_text c t v W V (plain_keys_legal _ _ K) (plain_names_legal _ N) (plain_legal _ (proj1 M)) R k) as [(j & out' & Dj & E' & D & _)|(T & E')]; [|congruence].
  assert (out' = out) by congruence. subst out'. exists j. split; [exact D|]. exact (doc_stands (pf_marker c) M t v (proj2 V) K N j Dj).
Qed.
Print Assumptions C20_document_partial.
Definition ty_all : ty :=
  TStruct (mkSinfo [bs "id"; bs "tags"; bs "next"; bs "opt"; bs "any"; bs "tab"] [(bs "id", bs "_id")] (bs "All") false false false)
    [TInt ILong; TVec TStr; TPtr ty_derived; TOpt TBool; TPoly [ty_a; ty_b] [bs "C"]; TMap MPlace (TTup [ty_color; TArr 2 (TInt IShort)])] [ty_point].
Definition val_all (o : option val) : val :=
  VStruct [VInt (-5); VList [VStr [10; 34]; VStr []]; VPtr (Some (derived 1 (bs "q") true)); VOpt o; VPtr (Some (VVar 1 (VStruct [VStr (bs "r")] [])));
           VMap [(bs "a", VList [VInt 1; VList [VInt 7; VInt 8]])]] [point 3 (bs "y")].
(** Proves the conditions on concrete types and values. *)
Ltac conds := repeat match goal with
  | |- _ /\ _ => split
  | |- True => exact I
  | |- Forall _ [] => constructor
  | |- Forall _ (_ :: _) => constructor
  | |- NoDup [] => constructor
  | |- NoDup (_ :: _) => constructor
  | |- ~ _ => let Q := fresh in intro Q; vm_compute in Q; intuition discriminate
  | |- false = true -> _ => discriminate
  | |- _ = true -> _ => intros _
  | |- @eq bool _ _ => reflexivity
  | |- false = true -> _ => discriminate
  | |- plain_name _ => split
  | |- plain ?s => let r := eval vm_compute in s in change (plain r); unfold plain
  | |- bytes_in ?s => let r := eval vm_compute in s in change (bytes_in r); unfold bytes_in
  | |- fits _ _ => unfold fits; cbn
  | |- ordered _ _ => constructor
  | |- bltb _ _ = true => reflexivity
  | |- forall _ _, In _ _ -> _ => let Q := fresh in intros ? ? Q; vm_compute in Q; intuition (subst; reflexivity)
  | |- _ <= _ => lia
  | |- _ < _ => lia
  | |- match _ with _ => _ end => progress cbn -[fits bytes_in plain plain_name]
  | |- _ <> _ => let Q := fresh in intro Q; vm_compute in Q; discriminate Q
  end.
Lemma all_conditions : forall c, pf_marker c = bs "__type" -> indent_ok c (val_all None) ->
  wf ty_all = true /\ valid ty_all (val_all None) /\ plain_keys ty_all (val_all None) /\ plain_names ty_all /\ plain_name (pf_marker c).
Proof.
  intros c -> _. split; [reflexivity|]. split; [split; [reflexivity|]|split; [|split]].
  - cbn -[fits bytes_in]. conds.
  - unfold plain_keys. cbn -[plain]. conds.
  - unfold plain_names. cbn -[plain_name bytes_in]. conds.
  - conds.
Qed.
Example C20_example : json_export pf_stream ToString ty_all (val_all None) =
  Exported (bs "{""_id"":-5,""tags"":["""
            ++ [92; 110; 92; 34] ++ bs ""","""""
            ++ bs "],""next"":{""z"":true,""x"":1,""y"":""q""},""any"":{""__type"":""B"",""y"":""r""},""tab"":{""a"":[""Green"",[7,8]]},""x"":3,""y"":""y""}").
Proof. vm_compute. reflexivity. Qed.
(** Otherwise the claim is false: keys are written as they are, and at 4005 characters of indentation a NUL is written. *)
Definition ty_maps : ty := TMap MPlace (TMap MPlace (TInt IInt)).
Definition val_maps (k : bytes) : val := VMap [(k, VMap [(bs "b", VInt 1)])].
Theorem C20_grammatical_refuted : exists c t v out, wf t = true /\ valid t v /\ legal_names t /\ legal_string (pf_marker c) /\
  json_export c ToStream t v = Exported out /\ forall j, ~ document j out.
Proof.
  exists pf_default, ty_maps, (val_maps [1]). eexists. split; [reflexivity|]. split; [|split; [|split; [|split; [vm_compute; reflexivity|]]]].
  - split; [reflexivity|]. cbn -[fits bytes_in]. conds.
  - cbn. conds.
  - apply plain_legal. cbn [pf_default pf_marker]. conds.
  - apply not_visible. reflexivity.
Qed.
Print Assumptions C20_grammatical_refuted.
Theorem C20_indentation_refuted : exists c t v out, wf t = true /\ valid t v /\ plain_keys t v /\ plain_names t /\ plain_name (pf_marker c) /\
  0 <= pf_tab c /\ 0 <= pf_block c /\ json_export c ToStream t v = Exported out /\ forall j, ~ document j out.
Proof.
  exists (mkPf OConfig (bs "__type") true 4 3996 false), ty_maps, (val_maps (bs "a")). eexists. split; [reflexivity|].
  split; [|split; [|split; [|split; [|split; [cbn; lia|split; [cbn; lia|split; [vm_compute; reflexivity|]]]]]]].
  - split; [reflexivity|]. cbn -[fits bytes_in]. conds.
  - unfold plain_keys. cbn -[plain]. conds.
  - cbn. conds.
  - cbn [pf_marker]. conds.
  - apply not_visible. vm_compute. reflexivity.
Qed.
Print Assumptions C20_indentation_refuted.

(** ** C21.  Exports with two configurations are texts of the same tree (the same lexemes), or both fail; in Stream format it is
    the text without white space. *)
Theorem C21_same_lexemes_partial : forall c1 c2 k1 k2 t v, pf_marker c1 = pf_marker c2 ->
  wf t = true -> valid t v -> legal_keys t v -> legal_names t -> legal_string (pf_marker c1) -> indent_ok c1 v -> indent_ok c2 v ->
  (exists j out1 out2, json_export c1 k1 t v = Exported out1 /\ json_export c2 k2 t v = Exported out2 /\ document j out1 /\ document j out2 /\
    (pf_type c1 = OStream -> out1 = compact j)) \/
  (json_export c1 k1 t v = ExportFailed (negb (pf_catch c1)) /\ json_export c2 k2 t v = ExportFailed (negb (pf_catch c2))).
Proof.
  intros c1 c2 k1 k2 t v Em W V K N M R1 R2.
  destruct (export_text c1 t v W V K N M R1 k1) as [(j1 & o1 & J1 & E1 & D1 & C1)|(T1 & E1)];
  destruct (export_text c2 t v W V K N ltac:(congruence) R2 k2) as [(j2 & o2 & J2 & E2 & D2 & C2)|(T2 & E2)]; try congruence.
  - left. rewrite Em in J1. assert (j1 = j2) by congruence. subst. exists j2, o1, o2. auto.
  - right. auto.
Qed.
Print Assumptions C21_same_lexemes_partial.
Example C21_example :
  json_export (mkPf OConfig (bs "__type") true 2 0 false) ToStream (TMap MPlace (TVec (TInt IInt))) (VMap [(bs "a", VList [VInt 1; VInt 2])]) =
    Exported (10 :: bs "{" ++ 10 :: bs "  ""a"":" ++ 10 :: bs "  [1, 2]" ++ 10 :: bs "}") /\
  json_export pf_stream ToString (TMap MPlace (TVec (TInt IInt))) (VMap [(bs "a", VList [VInt 1; VInt 2])]) = Exported (bs "{""a"":[1,2]}").
Proof. split; vm_compute; reflexivity. Qed.

(** ** C22.  Exporting to a string is exporting to a stream: the same text, the same failure; it writes outside its
    memory only where the export to a stream does too (C23). *)
Theorem C22_string_is_stream : forall c t v, valid t v -> json_export c ToString t v = json_export c ToStream t v.
Proof. intros c t v [_ V]. unfold json_export. now rewrite string_is_stream. Qed.
Print Assumptions C22_string_is_stream.
Example C22_example : exists out, json_export (mkPf ODefault (bs "__type") true 0 0 true) ToString ty_all (val_all (Some (VBool true))) = Exported out /\
  json_export pf_default ToStream ty_all (val_all (Some (VBool true))) = Exported out /\ (200 < List.length out)%nat.
Proof. eexists. split; [vm_compute; reflexivity|]. split; [vm_compute; reflexivity|]. apply Nat.ltb_lt. vm_compute. reflexivity. Qed.

(** ** C23.  Full claim: never outside the buffer.  Proved: when the indentation of the innermost value is at most 4003
    characters, with Stream format always. *)
Theorem C23_indentation_partial : forall c k t v, wf t = true -> valid t v -> indent_ok c v -> json_export c k t v <> ExportUB.
Proof.
  intros c k t v W V R E. assert (E' : json_export c ToStream t v = ExportUB) by (destruct k; [exact E|]; rewrite <- E; symmetry; now apply C22_string_is_stream).
  assert (P := proj1 (ser_safe c (pf_marker c) t v W (proj1 V)) (mkPstate 0 LvValue false) []). cbn [List.length Nat.add] in P.
  specialize (P (room_fits c _ (fun Sp => R (spaced_type c Sp)))). unfold json_export, json_to_stream, json_pass in E'. change js_init with [mkPstate 0 LvValue false] in E'.
  destruct (sf_print _ v _) as [[o s]| | |]; try discriminate E'; exact P.
Qed.
Print Assumptions C23_indentation_partial.
Example C23_example : indent_ok pf_default (val_all None) /\ indent_ok (mkPf OConfig (bs "") true 100 3000 false) (val_all None).
Proof. split; intros _; right; unfold indent_room; cbn; lia. Qed.
(** Nothing protects the buffer: 1002 nested vectors are enough for the default configuration. *)
Fixpoint deep_ty (n : nat) : ty := match n with O => TInt IInt | S m => TVec (deep_ty m) end.
Fixpoint deep_val (n : nat) : val := match n with O => VInt 0 | S m => VList [deep_val m] end.
Theorem C23_indentation_refuted : exists t v, wf t = true /\ valid t v /\ forall k, json_export pf_default k t v = ExportUB.
Proof.
  exists (deep_ty 1002), (deep_val 1002).
  assert (V : forall n, valid (deep_ty n) (deep_val n)).
  { intro n. split; induction n as [|n IH]; [reflexivity|cbn [deep_ty deep_val shaped forallb]; now rewrite IH|split; [unfold valid_here, fits; cbn; lia|exact I]|].
    split; [exact I|]. constructor; [exact IH|constructor]. }
  split; [vm_compute; reflexivity|]. split; [apply V|].
  assert (E : json_export pf_default ToStream (deep_ty 1002) (deep_val 1002) = ExportUB) by (vm_compute; reflexivity).
  intros []; [exact E|]. rewrite C22_string_is_stream by apply V. exact E.
Qed.
Print Assumptions C23_indentation_refuted.

(** ** C26.  Round trip.  Full claim: every value comes back.  Proved, for every configuration of the printer, both kinds
    of output and of source, and every strictness: an export that succeeds is imported as the same value, if
    - names and map keys are plain text, and names are distinct;
    - no pointer points to something that is written as null;
    - with Strict or Exact, no class held by value declares its own type field;
    - with Exact, no member is left out and no member is renamed;
    - the indentation fits its buffer.  [reads_back] says the second to fourth. *)
Theorem C26_round_trip_partial : forall c k cfg src t v out, pc_conv cfg = true -> pc_marker cfg = pf_marker c ->
  reads_back (pc_strict cfg) (pf_marker c) t v -> plain_keys t v -> plain_names t -> plain_name (pf_marker c) -> indent_ok c v ->
  json_export c k t v = Exported out -> accepts cfg src t (default t) out v.
Proof.
  intros c k cfg src t v out Hc Hm B K N M R E. destruct (C20_document_partial c k t v (proj1 B) (proj1 (proj2 B)) K N M R out E) as (j & D & Hj).
  rewrite <- Hm in *. now apply (stands_accepted cfg src t v j out).
Qed.
Print Assumptions C26_round_trip_partial.
Example C26_example : forall src k, exists out, json_export pf_default k ty_all (val_all (Some (VBool true))) = Exported out /\
  accepts (pc_mode Strict) src ty_all (default ty_all) out (val_all (Some (VBool true))).
Proof.
  intros src k.
  assert (V : valid ty_all (val_all (Some (VBool true)))) by (split; [reflexivity|]; cbn -[fits bytes_in]; conds).
  assert (E : exists out, json_export pf_default k ty_all (val_all (Some (VBool true))) = Exported out).
  { assert (E : exists out, json_export pf_default ToStream ty_all (val_all (Some (VBool true))) = Exported out) by (eexists; vm_compute; reflexivity).
    destruct k; [exact E|]. rewrite C22_string_is_stream by exact V. exact E. }
  destruct E as (out & E). exists out. split; [exact E|]. apply (C26_round_trip_partial pf_default k); auto.
  - unfold reads_back. split; [reflexivity|]. split; [exact V|]. split; [|split; [|split; [reflexivity|discriminate]]].
    + unfold distinct_names. cbn. conds.
    + unfold no_null_target. cbn. conds.
  - unfold plain_keys. cbn -[plain]. conds.
  - unfold plain_names. cbn -[plain_name bytes_in]. conds.
  - cbn [pf_default pf_marker]. conds.
  - intros _. right. unfold indent_room. cbn. lia.
Qed.
(** Otherwise the claim is false.  A pointer to a null pointer comes back as a null pointer, for instance. *)
Theorem C26_null_refuted : exists t v out v', wf t = true /\ valid t v /\ v' <> v /\ json_export pf_default ToStream t v = Exported out /\
  forall src, accepts pc_default src t (default t) out v'.
Proof.
  exists (TPtr (TPtr (TInt IInt))), (VPtr (Some (VPtr None))), (bs "null"), (VPtr None).
  split; [reflexivity|]. split; [split; [reflexivity|]; cbn; conds|]. split; [discriminate|]. split; [vm_compute; reflexivity|].
  intro src. eapply doc_imports; [doc|]. destruct src; vm_compute; reflexivity.
Qed.
Print Assumptions C26_null_refuted.
(** A class that declares its own type field is written with it and rejected with Strict strictness. *)
Theorem C26_type_field_refuted : exists t v out, wf t = true /\ valid t v /\ json_export pf_default ToStream t v = Exported out /\
  forall src, rejects (pc_mode Strict) src t (default t) out.
Proof.
  exists (TStruct (mkSinfo [bs "x"] [] (bs "A") true false false) [TInt IInt] []), (VStruct [VInt 1] []). eexists.
  split; [reflexivity|]. split; [split; [reflexivity|]; cbn -[fits]; conds|]. split; [vm_compute; reflexivity|].
  intro src. eapply (doc_throw _ _ (Obj [(bs "__type", Scal (SStr (bs "A"))); (bs "x", Scal (SNum (bs "1")))])); [doc|]. destruct src; vm_compute; reflexivity.
Qed.
Print Assumptions C26_type_field_refuted.

(** ** C27.  Full claim: whatever bytes the keys contain.  Proved for plain keys. *)
Theorem C27_keys_partial : forall c k cfg src fw t v out, pc_conv cfg = true -> pc_marker cfg = pf_marker c ->
  reads_back (pc_strict cfg) (pf_marker c) (TMap fw t) v -> plain_keys (TMap fw t) v -> plain_names t -> plain_name (pf_marker c) -> indent_ok c v ->
  json_export c k (TMap fw t) v = Exported out -> accepts cfg src (TMap fw t) (VMap []) out v.
Proof.
  intros c k cfg src fw t v out Hc Hm B K N M R E. apply (C26_round_trip_partial c k cfg src (TMap fw t) v out); auto. split; [exact I|exact N].
Qed.
Print Assumptions C27_keys_partial.
(** A key that contains a backslash comes back changed, one that contains a quote is rejected. *)
Theorem C27_keys_refuted : exists v out v', valid (TMap MPlace (TInt IInt)) v /\ v' <> v /\
  json_export pf_default ToStream (TMap MPlace (TInt IInt)) v = Exported out /\ forall src, accepts pc_default src (TMap MPlace (TInt IInt)) (VMap []) out v'.
Proof.
  exists (VMap [([92; 110], VInt 1)]). eexists. exists (VMap [([10], VInt 1)]).
  split; [split; [reflexivity|]; cbn -[fits bytes_in]; conds|]. split; [discriminate|]. split; [vm_compute; reflexivity|].
  intro src. eapply (doc_imports _ _ (Obj [([92; 110], Scal (SNum (bs "1")))])); [doc|]. destruct src; vm_compute; reflexivity.
Qed.
Print Assumptions C27_keys_refuted.
Example C27_quote : forall src, exists out, json_export pf_stream ToStream (TMap MPlace (TInt IInt)) (VMap [([34], VInt 1)]) = Exported out /\
  rejects pc_default src (TMap MPlace (TInt IInt)) (VMap []) out.
Proof. intros []; eexists; (split; [vm_compute; reflexivity|fuels 40%nat; vm_compute; exact I]). Qed.

(** ** C30.  Full claim: Exact strictness accepts what was written for the same type.  Proved without renamed members. *)
Theorem C30_exact_partial : forall c k cfg src t v out, pc_conv cfg = true -> pc_marker cfg = pf_marker c -> pc_strict cfg = Exact ->
  wf t = true -> valid t v -> distinct_names (pf_marker c) t -> no_null_target t v -> untagged true t = true -> complete t v -> no_overrides t ->
  plain_keys t v -> plain_names t -> plain_name (pf_marker c) -> indent_ok c v ->
  json_export c k t v = Exported out -> accepts cfg src t (default t) out v.
Proof.
  intros c k cfg src t v out Hc Hm Hs W V Dn Nn U Co No K N M R E. apply (C26_round_trip_partial c k); auto. unfold reads_back. auto 10.
Qed.
Print Assumptions C30_exact_partial.
Definition ty_renamed : ty := TStruct (mkSinfo [bs "id"] [(bs "id", bs "_id")] [] false false false) [TInt IInt] [].
Theorem C30_exact_refuted : exists v out, wf ty_renamed = true /\ valid ty_renamed v /\ complete ty_renamed v /\
  json_export pf_default ToStream ty_renamed v = Exported out /\ forall src, rejects (pc_mode Exact) src ty_renamed (default ty_renamed) out.
Proof.
  exists (VStruct [VInt 7] []). eexists. split; [reflexivity|]. split; [split; [reflexivity|]; cbn -[fits]; conds|].
  split; [cbn; repeat split; intros [(t & Q) _]; discriminate Q|]. split; [vm_compute; reflexivity|].
  intro src. eapply (doc_throw _ _ (Obj [(bs "_id", Scal (SNum (bs "7")))])); [doc|]. destruct src; vm_compute; reflexivity.
Qed.
Print Assumptions C30_exact_refuted.

(** ** C34.  A class with a pointer member [p] and an optional member [o]; any types, any values.  Full claim: without the
    condition that what the pointer refers to is not itself written as null. *)
Definition ty_holder (tp to : ty) : ty := TStruct (mkSinfo [bs "p"; bs "o"] [] [] false false false) [TPtr tp; TOpt to] [].
Theorem C34_holder_partial : forall c k cfg src tp to p o out, pc_conv cfg = true -> pc_marker cfg = pf_marker c ->
  let v := VStruct [VPtr p; VOpt o] [] in
  reads_back (pc_strict cfg) (pf_marker c) (ty_holder tp to) v -> plain_keys (ty_holder tp to) v -> plain_names (ty_holder tp to) ->
  plain_name (pf_marker c) -> indent_ok c v -> json_export c k (ty_holder tp to) v = Exported out ->
  accepts cfg src (ty_holder tp to) (VStruct [VPtr None; VOpt None] []) out v /\
  exists kp jp l, document (Obj ((kp, jp) :: l)) out /\ names true kp (bs "p") /\
    match p with None => jp = Scal SNull | Some x => stands_for (pf_marker c) tp x jp end /\
    match o with None => l = [] | Some x => exists ko jo, l = [(ko, jo)] /\ names true ko (bs "o") /\ stands_for (pf_marker c) to x jo end.
Proof.
  intros c k cfg src tp to p o out Hc Hm v B K N M R E. split; [refine (C26_round_trip_partial c k cfg src _ v out _ _ _ _ _ _ _ E); assumption|].
  destruct (C20_document_partial c k _ v (proj1 B) (proj1 (proj2 B)) K N M R out E) as (j & D & l & -> & own & par & a & b & Ev & -> & Ho & Hp).
  injection Ev as <- <-. cbn in Hp. subst b. rewrite app_nil_r in D. cbn [own_members map] in Ho.
  destruct Ho as [[[(t & Q) _] _]|(_ & [kp jp] & l & -> & [Kp Vp] & Ho)]; [discriminate Q|]. exists kp, jp, l. split; [exact D|]. split; [exact Kp|]. split.
  - destruct Vp as [[Q (s & Ej & Es)]|(x & Q & Hx)]; injection Q as ->; [now rewrite <- Es|exact Hx].
  - destruct Ho as [[[_ Q] Hl]|(L & [ko jo] & r & -> & [Ko (x & Q & Hx)] & Hl)]; injection Q as ->; cbn in Hl; subst; [reflexivity|]. exists ko, jo. auto.
Qed.
Print Assumptions C34_holder_partial.
Example C34_example :
  json_export pf_stream ToString (ty_holder TStr TBool) (VStruct [VPtr None; VOpt None] []) = Exported (bs "{""p"":null}") /\
  json_export pf_stream ToString (ty_holder TStr TBool) (VStruct [VPtr (Some (VStr (bs "a"))); VOpt (Some (VBool true))] []) = Exported (bs "{""p"":""a"",""o"":true}").
Proof. split; vm_compute; reflexivity. Qed.
(** An empty optional anywhere but as a member cannot be written. *)
Theorem C34_optional_refuted : exists t v, wf t = true /\ valid t v /\ forall k, json_export pf_default k t v = ExportFailed false.
Proof.
  exists (TVec (TOpt TBool)), (VList [VOpt None]). split; [reflexivity|]. split; [split; [reflexivity|]; cbn; conds|]. intros []; vm_compute; reflexivity.
Qed.
Print Assumptions C34_optional_refuted.

(** ** C35.  Every named value of an enum is written as its name and read back; names are any bytes. *)
Theorem C35_round_trip : forall c k cfg src vals z n, pc_conv cfg = true -> NoDup (map snd vals) -> Forall (fun e => bytes_in (snd e)) vals ->
  In (z, n) vals -> (forall n', In (z, n') vals -> n' = n) -> exists raw,
  json_export c k (TEnum vals) (VInt z) = Exported (34 :: raw ++ [34]) /\ json_string raw n /\
  forall old, accepts cfg src (TEnum vals) (VInt old) (34 :: raw ++ [34]) (VInt z).
Proof.
  intros c k cfg src vals z n Hc Nd Hb Hin Hun.
  assert (En : enum_name vals z = Some n).
  { clear - Hin Hun. induction vals as [|[y m] r IH]; [destruct Hin|]. cbn [enum_name]. destruct (Z.eqb_spec y z) as [->|Ne].
    - f_equal. apply Hun. now left.
    - apply IH; [destruct Hin as [Q|Hin]; [congruence|exact Hin]|]. intros n' Hn'. apply Hun. now right. }
  assert (Hn : bytes_in n) by (rewrite Forall_forall in Hb; exact (Hb _ Hin)).
  assert (J : forall P, json_string_when P (escapeString n) n) by (intro; now apply escape_legal).
  exists (escapeString n). split; [|split; [apply J|]].
  - rewrite <- (string_export c k n Hn). unfold json_export, json_to_stream, json_to_string, json_pass. cbn [ser sf_print mkSv]. now rewrite En.
  - intro old. apply in_split in Hin as (a & b & ->). rewrite map_app in Nd. apply NoDup_remove_2 in Nd.
    apply (C35_name_read cfg src _ a z n b (escapeString n)); [reflexivity| |rewrite Hc; apply J|].
    + intro Q. apply Nd. apply in_or_app. now left.
    + replace (34 :: escapeString n ++ [34]) with ([] ++ (34 :: escapeString n ++ [34]) ++ []) by (cbn [app]; now rewrite app_nil_r).
      constructor; [constructor| |constructor]. constructor. constructor. exists n. apply J.
Qed.
Print Assumptions C35_round_trip.
Example C35_example : json_export pf_default ToString ty_color (VInt 1) = Exported (bs """Green""") /\
  json_export pf_default ToString ty_color (VInt 2) = ExportFailed false.
Proof. split; vm_compute; reflexivity. Qed.

(** ** C37.  Objects behind a pointer to a base class and in a variant: written with the class name first, read back as the
    same class with equal members, under the conditions of C26. *)
Theorem C37_round_trip_partial : forall c k cfg src cs others i t x out, pc_conv cfg = true -> pc_marker cfg = pf_marker c -> nth_error cs i = Some t ->
  let v := VPtr (Some (VVar i x)) in
  reads_back (pc_strict cfg) (pf_marker c) (TPoly cs others) v -> plain_keys (TPoly cs others) v -> plain_names (TPoly cs others) ->
  plain_name (pf_marker c) -> indent_ok c v -> json_export c k (TPoly cs others) v = Exported out ->
  accepts cfg src (TPoly cs others) (VPtr None) out v /\
  exists key tag l, document (Obj ((key, Scal (SStr tag)) :: l)) out /\ names true key (pf_marker c) /\ names true tag (class_name t).
Proof.
  intros c k cfg src cs others i t x out Hc Hm Ht v B K N M R E. split; [refine (C26_round_trip_partial c k cfg src _ v out _ _ _ _ _ _ _ E); assumption|].
  destruct (C20_document_partial c k _ v (proj1 B) (proj1 (proj2 B)) K N M R out E) as (j & D & Hj).
  destruct Hj as [[Q _]|(i' & t' & d & x' & Q & Ht' & Hd & [key jt] & l & -> & [Hk (a & Ea & tag & -> & Ha & _)] & _)]; [discriminate Q|].
  injection Q as <- <-. cbn in Ea. subst jt. assert (t' = t) by congruence. subst t'. exists key, tag, l. auto.
Qed.
Print Assumptions C37_round_trip_partial.
Theorem C37_variant_partial : forall c k cfg src cs i t x out, pc_conv cfg = true -> pc_marker cfg = pf_marker c -> nth_error cs i = Some t ->
  let v := VVar i x in
  reads_back (pc_strict cfg) (pf_marker c) (TVariant cs) v -> plain_keys (TVariant cs) v -> plain_names (TVariant cs) ->
  plain_name (pf_marker c) -> indent_ok c v -> json_export c k (TVariant cs) v = Exported out ->
  accepts cfg src (TVariant cs) (default (TVariant cs)) out v /\
  exists key tag l, document (Obj ((key, Scal (SStr tag)) :: l)) out /\ names true key (pf_marker c) /\ names true tag (class_name t).
Proof.
  intros c k cfg src cs i t x out Hc Hm Ht v B K N M R E. split; [refine (C26_round_trip_partial c k cfg src _ v out _ _ _ _ _ _ _ E); assumption|].
  destruct (C20_document_partial c k _ v (proj1 B) (proj1 (proj2 B)) K N M R out E) as (j & D & Hj).
  destruct Hj as (i' & t' & d & x' & Q & Ht' & Hd & [key jt] & l & -> & [Hk (a & Ea & tag & -> & Ha & _)] & _).
  injection Q as <- <-. cbn in Ea. subst jt. assert (t' = t) by congruence. subst t'. exists key, tag, l. auto.
Qed.
Print Assumptions C37_variant_partial.
Example C37_example : json_export pf_stream ToString (TPoly [ty_a; ty_b] []) (VPtr (Some (VVar 0 (VStruct [VInt 4] [])))) = Exported (bs "{""__type"":""A"",""x"":4}") /\
  reads_back Exact (bs "__type") (TPoly [ty_a; ty_b] []) (VPtr (Some (VVar 0 (VStruct [VInt 4] [])))).
Proof.
  split; [vm_compute; reflexivity|]. split; [reflexivity|]. split; [split; [reflexivity|]; cbn -[fits]; conds|].
  split; [unfold distinct_names; cbn; conds|]. split; [cbn; conds|]. split; [reflexivity|]. intros _.
  split; [|cbn; conds; reflexivity]. cbn. repeat split; intros [(t & Q) _]; discriminate Q.
Qed.
