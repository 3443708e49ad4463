(** C24, C25: use of the printer and sizes.

    [json_calls c l]: the text that the calls [l] on a new JSON printer write, [Throw] if one raises an exception;
    [open_after l]: the containers that are open after the calls [l]. *)
From Coq Require Import ZArith String List Bool Lia ZifyBool.
From Verif Require Import Model.Base Model.Source Model.Unicode Model.Number
  Model.Types Model.Printer Model.JsonPrinter Model.Serializer Model.Exporter Model.Calls
  Spec.JsonString Spec.Json Spec.Typed Spec.Import Spec.Denotes Spec.Calls Spec.Sizes Proofs.Tac Proofs.UnicodeP Proofs.InterpP Proofs.PrintP Proofs.DocP
  Proofs.DenotesP Proofs.ExportP Proofs.CallsP Proofs.SizeP Properties.Imports Properties.Members Properties.Exports.
Import ListNotations.
Open Scope Z_scope.

(** ** C24.  Full claim: every misuse raises an exception.  Proved: closing a container that is not the innermost open one,
    and a key outside a map. *)
Theorem C24_misuse_partial : forall c l p text, json_calls c l = Ok text ->
  match p with
  | CCloseMap | CKey _ => hd_error (open_after l) <> Some InMap
  | CCloseArray => hd_error (open_after l) <> Some InArray
  | _ => False
  end -> forall l', json_calls c (l ++ p :: l') = Throw.
Proof.
  intros c l p text E H l'. unfold json_calls in *. apply bind_ok in E as ([out s] & E & _).
  assert (L := calls_levels c l js_init out s [] eq_refl E). unfold open_after in H. fold (fold_left open_step l []) in L.
  rewrite calls_app. unfold w_then at 1. rewrite E. cbn [bind].
  assert (T : call (json_printer c) p s = Throw); [|unfold calls; cbn [map w_all fold_right]; unfold w_then; now rewrite T].
  unfold levels in L. destruct s as [|[n lv b] r]; [destruct (fold_left open_step l []); discriminate L|]. cbn [map f1] in L.
  destruct p; try contradiction; cbn [call json_printer pr_closeMap pr_closeArray pr_key js_closeMap js_closeArray js_key f1];
    (destruct (fold_left open_step l []) as [|x st]; cbn [map app hd_error] in *; [injection L as -> _; reflexivity|]; injection L as -> _; destruct x; cbn [level_of]; reflexivity || now destruct H).
Qed.
Print Assumptions C24_misuse_partial.
Example C24_example : open_after [COpenMap; CKey (bs "a"); COpenArray] = [InArray; InMap] /\
  (exists text, json_calls pf_default [COpenMap; CKey (bs "a"); COpenArray] = Ok text) /\
  json_calls pf_default [COpenMap; CKey (bs "a"); COpenArray; CCloseMap; CNull] = Throw.
Proof. split; [reflexivity|]. split; [eexists; vm_compute; reflexivity|vm_compute; reflexivity]. Qed.
(** Proper use writes the document of what was written. *)
Theorem C24_proper_use_partial : forall c p, piece_ok p -> (pf_type c <> OStream -> piece_depth p = O \/ indent_room c (piece_depth p)) ->
  exists j text, json_calls c (calls_of p) = Ok text /\ document j text /\ piece_doc p j.
Proof.
  intros c p H R. destruct (piece_prints c p H) as (j & D & P). exists j.
  destruct (P (mkPstate 0 LvValue false) [] ltac:(reflexivity) (room_fits c _ (fun Sp => R (spaced_type c Sp)))) as (out & b & w & t & E & _ & Ct & Hw & Hs & _).
  exists (chunks_text out). split; [|split; [|exact D]].
  - unfold json_calls. change js_init with [mkPstate 0 LvValue false]. now rewrite E.
  - rewrite Ct. change (lead _ ++ w ++ t) with (w ++ t). replace (w ++ t) with (w ++ t ++ []) by now rewrite app_nil_r. constructor; [exact Hw|exact Hs|constructor].
Qed.
Print Assumptions C24_proper_use_partial.
Example C24_proper_example : json_calls pf_stream (calls_of (PMap [(bs "a", PArr [PInt IInt 1; PNull]); (bs "b", PStr (bs "x"))])) = Ok (bs "{""a"":[1,null],""b"":""x""}").
Proof. vm_compute. reflexivity. Qed.
(** Not rejected: a value in a map without a key, a second value at the top, and (examples) a key without a value, a second
    key. *)
Theorem C24_value_refuted : exists text, json_calls pf_stream [COpenMap; CInt IInt 1; CCloseMap] = Ok text /\ forall j, ~ document j text.
Proof.
  exists (bs "{:1}"). split; [vm_compute; reflexivity|]. intros j D. change (document j [123; 58; 49; 125]) in D. apply doc_head in D as (w2 & t & Hs & Et & _); [|unfold ws_char; lia].
  destruct t as [|x t]; [exact (spells_lone j Hs)|].
  injection Et as <- _. apply spells_open in Hs. unfold ws_char in Hs. lia.
Qed.
Print Assumptions C24_value_refuted.
Theorem C24_second_value_refuted : exists text, json_calls pf_stream [CInt IInt 1; CInt IInt 2] = Ok text /\ forall j, ~ document j text.
Proof.
  exists (bs "1,2"). split; [vm_compute; reflexivity|]. intros j D. change (document j [49; 44; 50]) in D. apply doc_head in D as (w2 & t & Hs & Et & Hw); [|unfold ws_char; lia].
  apply spells_digit in Hs; [|unfold digit; lia]. destruct t as [|x t]; cbn [app] in Et.
  - subst w2. inversion Hw; subst. unfold ws_char in *. lia.
  - injection Et as <- _. apply Hs. right. now left.
Qed.
Print Assumptions C24_second_value_refuted.
Example C24_key_without_value : json_calls pf_stream [COpenMap; CKey (bs "a"); CCloseMap] = Ok (bs "{""a""}") /\
  json_calls pf_stream [COpenMap; CKey (bs "a"); CKey (bs "b"); CInt IInt 1; CCloseMap] = Ok (bs "{""a""""b"":1}").
Proof. split; vm_compute; reflexivity. Qed.

(** ** C25.  Full claim: the announced size is the number of bytes that an export in Stream format writes, for all values.
    Proved: for values whose strings need no escapes, without entries in maps with string keys, without the smallest integer of
    a type, and types whose type field is counted where it is written ([marker_counted], Spec/Sizes.v). *)
Theorem C25_size_partial : forall t v k out, wf t = true -> valid t v -> legal_names t -> sized_value t v -> sized_type t ->
  marker_counted (AsValue true) t = true -> json_export pf_stream k t v = Exported out -> jsonStreanSize t v = Ok (zlen out).
Proof.
  intros t v k out W V N Sv St M E.
  assert (K : legal_keys t v).
  { unfold legal_keys. unfold sized_value in Sv. revert Sv. apply each_mono. intros [] []; auto. intros ->. constructor. }
  destruct (export_text pf_stream t v W V K N (plain_legal (bs "__type") ltac:(conds)) ltac:(intro Q; now destruct Q) k) as [(j & out' & D & E' & _ & C)|(_ & E')]; [|congruence].
  assert (out = compact j) by (rewrite <- (C eq_refl); congruence). subst out.
  exact (proj1 (sizes_right pf_stream (pf_marker pf_stream) t v (AsValue true) W (proj1 V) (proj2 V) Sv St M) j js_init D).
Qed.
Print Assumptions C25_size_partial.
Definition ty_sized : ty :=
  TStruct (mkSinfo [bs "id"; bs "tags"; bs "next"; bs "opt"; bs "any"; bs "tup"] [(bs "id", bs "_id")] (bs "Sized") true false false)
    [TInt ILong; TVec TStr; TPtr ty_derived; TOpt TBool; TPoly [TStruct (mkSinfo [bs "y"] [] (bs "V") false true false) [TStr] []] []; TTup [ty_color; TArr 2 (TInt IShort)]] [ty_point].
Definition val_sized : val :=
  VStruct [VInt (-5); VList [VStr (bs "a"); VStr []]; VPtr (Some (derived 1 (bs "q") true)); VOpt None; VPtr (Some (VVar 0 (VStruct [VStr (bs "r")] [])));
           VList [VInt 1; VList [VInt (-32768); VInt 100]]] [point 3 (bs "y")].
Example C25_example : wf ty_sized = true /\ valid ty_sized val_sized /\ legal_names ty_sized /\ sized_value ty_sized val_sized /\ sized_type ty_sized /\
  marker_counted (AsValue true) ty_sized = true /\
  exists out, json_export pf_stream ToStream ty_sized val_sized = Exported out /\ jsonStreanSize ty_sized val_sized = Ok (zlen out) /\ zlen out = 147.
Proof.
  split; [reflexivity|]. split; [split; [reflexivity|cbn -[fits bytes_in]; conds]|]. split; [apply plain_names_legal; unfold plain_names; cbn -[plain_name bytes_in]; conds|].
  split; [unfold sized_value; cbn -[plain i_min i_bits i_signed]; repeat split; conds; first [left; vm_compute; discriminate | right; left; reflexivity | idtac]|].
  split; [unfold sized_type; cbn -[plain]; conds|]. split; [reflexivity|]. eexists. split; [vm_compute; reflexivity|]. split; vm_compute; reflexivity.
Qed.
(** Each condition is needed. *)
Theorem C25_size_refuted : exists t v out n, wf t = true /\ valid t v /\ plain_names t /\
  json_export pf_stream ToStream t v = Exported out /\ jsonStreanSize t v = Ok n /\ n < zlen out.
Proof.
  exists TStr, (VStr [10]), [34; 92; 110; 34], 3. repeat split; try reflexivity. constructor; [lia|constructor].
Qed.
Print Assumptions C25_size_refuted.
Theorem C25_key_refuted : exists t v out n, wf t = true /\ valid t v /\ plain_keys t v /\ plain_names t /\
  json_export pf_stream ToStream t v = Exported out /\ jsonStreanSize t v = Ok n /\ n < zlen out.
Proof.
  exists (TMap MPlace TBool), (VMap [(bs "a", VBool true)]), (bs "{""a"":true}"), 8. split; [reflexivity|].
  split; [split; [reflexivity|cbn -[fits bytes_in]; conds]|]. split; [unfold plain_keys; cbn -[plain]; conds|]. repeat split; vm_compute; reflexivity.
Qed.
Print Assumptions C25_key_refuted.
(** A class with virtual functions at the root: its type field is counted but not written. *)
Theorem C25_virtual_refuted : exists t v out n, wf t = true /\ valid t v /\ plain_names t /\ sized_value t v /\ sized_type t /\
  json_export pf_stream ToStream t v = Exported out /\ jsonStreanSize t v = Ok n /\ zlen out < n.
Proof.
  exists (TStruct (mkSinfo [] [] (bs "V") false true false) [] []), (VStruct [] []), (bs "{}"), 14. split; [reflexivity|]. split; [split; [reflexivity|cbn; conds]|].
  split; [unfold plain_names; cbn -[plain_name bytes_in]; conds|]. split; [cbn; conds|]. split; [unfold sized_type; cbn -[plain]; conds|]. repeat split; vm_compute; reflexivity.
Qed.
Print Assumptions C25_virtual_refuted.
(** A variant of classes without virtual functions: its type field is written but not counted. *)
Theorem C25_variant_refuted : exists t v out n, wf t = true /\ valid t v /\ plain_names t /\ sized_value t v /\ sized_type t /\
  json_export pf_stream ToStream t v = Exported out /\ jsonStreanSize t v = Ok n /\ n < zlen out.
Proof.
  exists (TVariant [TStruct (mkSinfo [] [] (bs "V") false false false) [] []]), (VVar 0 (VStruct [] [])), (bs "{""__type"":""V""}"), 2. split; [reflexivity|]. split; [split; [reflexivity|cbn; conds]|].
  split; [unfold plain_names; cbn -[plain_name bytes_in]; conds|]. split; [cbn; conds|]. split; [unfold sized_type; cbn -[plain]; conds|]. repeat split; vm_compute; reflexivity.
Qed.
Print Assumptions C25_variant_refuted.
(** The size of the smallest int is undefined (std::abs). *)
Theorem C25_smallest_refuted : exists t v out, wf t = true /\ valid t v /\ json_export pf_stream ToStream t v = Exported out /\ jsonStreanSize t v = UB.
Proof. exists (TInt IInt), (VInt (- 2 ^ 31)), (bs "-2147483648"). repeat split; try (vm_compute; reflexivity); unfold fits; cbn; lia. Qed.
Print Assumptions C25_smallest_refuted.
