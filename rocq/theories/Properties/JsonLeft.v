(** C98: what an export to JSON that fails leaves on the stream. *)
From Coq Require Import ZArith String List Bool Lia ZifyBool.
From Verif Require Import Model.Base Model.Source Model.Unicode Model.Number Model.ParserInterface Model.Types Model.Importer Model.Printer Model.JsonPrinter Model.Serializer Model.Exporter Model.JsonLeft
  Spec.JsonString Spec.Json Spec.Typed Spec.Import Spec.Denotes Spec.Sizes Spec.JsonLeft
  Proofs.Tac Proofs.TypedP Proofs.ExportP Proofs.LexP Proofs.JsonCheck Proofs.ImportP Proofs.JsonLeftP
  Properties.Imports Properties.Members Properties.Exports.
Import ListNotations.
Open Scope Z_scope.

(** The program goes on: no destructor that runs while the exception travels throws.  The export is reported as failed exactly when [stream_leaves] says so,
    and the text of one that succeeds is that of all other theorems. *)
Theorem C98_survives : forall c t v,
  match stream_leaves c t v with
  | Holds out false => json_export c ToStream t v = Exported out
  | Holds out true => json_export c ToStream t v = ExportFailed (negb (pf_catch c))
  | Ended => False
  | HoldsUB => forall out, json_export c ToStream t v <> Exported out
  end.
Proof.
  intros c t v. assert (A := proj1 (plan_agrees c (pf_marker c) t) v js_init). assert (N : js_init <> []) by discriminate.
  assert (T := leave_tidy c (jf_val (jplan_of (pf_marker c) t) v) js_init N). unfold stream_leaves, json_export, json_to_stream, json_pass.
  destruct (leave c (jf_val (jplan_of (pf_marker c) t) v) js_init) as [o s|o s| |]; cbn [agrees] in A.
  - rewrite A. reflexivity.
  - rewrite A. reflexivity.
  - exact T.
  - intros out E. destruct (sf_print (ser (json_printer c) (pf_marker c) t) v js_init) as [[o s]| | |]; try discriminate. exact (A _ eq_refl).
Qed.
Print Assumptions C98_survives.

(** A string is different from a stream: it has its old contents after an export that fails. *)
Theorem C98_string : forall c t v old,
  match string_leaves c t v old with
  | Holds out false => json_export c ToString t v = Exported out
  | Holds out true => json_export c ToString t v = ExportFailed (negb (pf_catch c)) /\ out = old
  | Ended => False
  | HoldsUB => forall out, json_export c ToString t v <> Exported out
  end.
Proof.
  intros c t v old. assert (A := proj1 (plan_agrees c (pf_marker c) t) v js_init). assert (N : js_init <> []) by discriminate.
  assert (T := leave_tidy c (jf_val (jplan_of (pf_marker c) t) v) js_init N). unfold string_leaves, json_export, json_to_string, json_pass. cbv zeta.
  destruct (leave c (jf_val (jplan_of (pf_marker c) t) v) js_init) as [o s|o s| |]; cbn [agrees] in A.
  - rewrite A. cbn [bind]. destruct (copy_chunks (preflight (negb (pf_exact c)) o) o); cbn [export_end]; try reflexivity; intros out; discriminate.
  - rewrite A. split; reflexivity.
  - exact T.
  - intros out E. destruct (sf_print (ser (json_printer c) (pf_marker c) t) v js_init) as [[o s]| | |]; try discriminate. exact (A _ eq_refl).
Qed.
Print Assumptions C98_string.

Lemma exported_done : forall c t v out, json_export c ToStream t v = Exported out ->
  exists o s, leave c (jf_val (jplan_of (pf_marker c) t) v) js_init = LDone o s /\ out = chunks_text o.
Proof.
  intros c t v out E. assert (X := C98_survives c t v). unfold stream_leaves in X. destruct (leave c (jf_val (jplan_of (pf_marker c) t) v) js_init) as [o s|o s| |].
  - rewrite X in E. injection E as <-. eauto.
  - rewrite X in E. discriminate.
  - destruct X.
  - destruct (X _ E).
Qed.

(** In a sequence, array or tuple an element that cannot be written ends it: the stream holds exactly the text of the value that stops before that element, with all
    brackets around it.  Full claim: for every value what is left is known.  Missing: that every value that fails is one of these, of C98_key_partial or C98_nothing. *)
Theorem C98_cut_partial : forall c t v t' v' out, cut false t v t' v' -> json_export c ToStream t' v' = Exported out -> stream_leaves c t v = Holds out true.
Proof.
  intros c t v t' v' out H E. destruct (exported_done _ _ _ _ E) as (o & s & D & ->). unfold stream_leaves.
  destruct (cut_raised c (pf_marker c) false t v t' v' H _ _ _ D) as (o' & L & R). cbn in L. subst o'. rewrite R. reflexivity.
Qed.
Print Assumptions C98_cut_partial.
(** A value that cannot be written itself leaves nothing. *)
Theorem C98_nothing : forall c t v, unwritable t v -> stream_leaves c t v = Holds [] true.
Proof. intros c t v H. unfold stream_leaves. rewrite (unwritable_throws (pf_marker c) t v H). reflexivity. Qed.
Print Assumptions C98_nothing.
(** In a map or class the key of that value is left, without a value: the text is that of the value with null in the place, without the colon and the null. *)
Theorem C98_key_partial : forall c t v t' v' out, cut true t v t' v' -> json_export c ToStream t' v' = Exported out ->
  exists left, stream_leaves c t v = Holds left true /\ without (match pf_type c with OStream => bs ":null" | _ => bs ": null" end) out left.
Proof.
  intros c t v t' v' out H E. destruct (exported_done _ _ _ _ E) as (o & s & D & ->). unfold stream_leaves.
  destruct (cut_raised c (pf_marker c) true t v t' v' H _ _ _ D) as (o' & L & R). rewrite R. eexists. split; [reflexivity|]. assert (Q := lacks_text c _ _ L). unfold spaced in Q.
  destruct (pf_type c); exact Q.
Qed.
Print Assumptions C98_key_partial.

Definition ty_rgb : ty := TEnum [(0, bs "red"); (1, bs "green")].
Definition screen : sinfo := mkSinfo [bs "on"; bs "dots"; bs "name"] [(bs "dots", bs "pixels")] (bs "Screen") false false false.
Definition ty_screen : ty := TStruct screen [TBool; TArr 3 (TTup [TBool; ty_rgb]); TStr] [].
Definition val_screen : val := VStruct [VBool true; VList [VList [VBool true; VInt 1]; VList [VBool false; VInt 7]; VList [VBool false; VInt 0]]; VStr (bs "x")] [].
Example C98_example : (exists t' v', cut false (TVec ty_screen) (VList [val_screen; val_screen]) t' v' /\
    json_export pf_stream ToStream t' v' = Exported (bs "[{""on"":true,""pixels"":[[true,""green""],[false]]}]")) /\
  (exists t' v', cut true (TVec (TMap MPlace ty_rgb)) (VList [VMap []; VMap [(bs "a", VInt 0); (bs "b", VInt 7); (bs "c", VInt 1)]]) t' v' /\
    json_export pf_stream ToStream t' v' = Exported (bs "[{},{""a"":""red"",""b"":null}]")) /\
  stream_leaves pf_stream (TVec (TMap MPlace ty_rgb)) (VList [VMap []; VMap [(bs "a", VInt 0); (bs "b", VInt 7); (bs "c", VInt 1)]]) = Holds (bs "[{},{""a"":""red"",""b""}]") true /\
  unwritable (TPtr (TOpt TBool)) (VPtr (Some (VOpt None))).
Proof.
  assert (U : unwritable ty_rgb (VInt 7)) by (constructor; intros n [H|[H|[]]]; discriminate H).
  split; [|split; [|split; [vm_compute; reflexivity|repeat constructor]]].
  - do 2 eexists. split.
    + refine (cut_elem _ CBack ty_screen [] _ _ _ _ _). refine (cut_member _ screen [bs "on"] (bs "dots") [bs "name"] [TBool] _ [TStr] [] [VBool true] _ _ _ _ [] eq_refl eq_refl eq_refl _).
      refine (cut_array _ 3 _ [VList [VBool true; VInt 1]] _ _ _ [VList [VBool false; VInt 0]] eq_refl _). exact (cut_tuple_here [TBool] ty_rgb [] [VBool false] _ [] eq_refl U).
    + vm_compute. reflexivity.
  - do 2 eexists. split; [refine (cut_elem _ CBack _ [VMap []] _ _ _ _ _); refine (cut_entry_here MPlace _ [(bs "a", VInt 0)] (bs "b") _ _ _ U); constructor; [discriminate|constructor]|vm_compute; reflexivity].
Qed.
Example C98_string_example : string_leaves pf_default (TVec ty_rgb) (VList [VInt 0; VInt 7]) (bs "before") = Holds (bs "before") true /\
  string_leaves pf_stream (TVec ty_rgb) (VList [VInt 0; VInt 1]) (bs "before") = Holds (bs "[""red"",""green""]") false.
Proof. split; vm_compute; reflexivity. Qed.
(** The text alone does not show that the export failed: it can be the document of another value, and is imported as such. *)
Theorem C98_incomplete_refuted : exists t v v' out, wf t = true /\ valid t v' /\ v <> v' /\
  json_export pf_default ToStream t v = ExportFailed false /\ stream_leaves pf_default t v = Holds out true /\ forall src, accepts (pc_mode Exact) src t (VList []) out v'.
Proof.
  exists (TVec ty_rgb), (VList [VInt 0; VInt 7; VInt 1]), (VList [VInt 0]). eexists. split; [reflexivity|]. split; [split; [reflexivity|cbn -[fits bytes_in]; conds]|]. split; [discriminate|].
  split; [vm_compute; reflexivity|]. split; [vm_compute; reflexivity|]. intro src. eapply doc_imports; [doc|destruct src; vm_compute; reflexivity].
Qed.
Print Assumptions C98_incomplete_refuted.
