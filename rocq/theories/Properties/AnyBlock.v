(** C86: AnyBlock takes any document as text.

    [any_imports cfg k old text out rest]: importing [text] into an AnyBlock that holds the text [old] succeeds, it holds [out] afterwards, and [rest] is left
    in the source (Model/AnyBlock.v).  [compact j]: the text of [j] without white space (Spec/Json.v).  [copied], [number_followed]: Spec/AnyBlock.v. *)
From Coq Require Import ZArith String List Bool Lia ZifyBool.
From Verif Require Import Model.Base Model.Source Model.Importer Model.AnyBlock
  Spec.JsonString Spec.Json Spec.AnyBlock
  Proofs.LexP Proofs.ImportP Proofs.CallsP Proofs.AnyBlockP Proofs.JsonCheck.
Import ListNotations.
Open Scope Z_scope.

(** ** C86.  Full claim: an AnyBlock accepts every document and holds its text, without white space between tokens.
    Proved for documents without escapes in keys and without strings that end in a backslash (from a std::string also without bytes from 128 on), for
    numbers in a stream with something behind them, and with the old contents in front.  The text is again a document with the same tree. *)
Theorem C86_copy_partial : forall cfg k old j w t tl, pc_noTrailing cfg = false -> ws w -> spells j t -> ends_before j tl -> copied cfg k j -> number_followed k j tl ->
  any_imports cfg k old (w ++ t ++ tl) (old ++ compact j) tl /\ document j (compact j).
Proof.
  intros cfg k old j w t tl Hn Hw Hs Hd Hc Hf. split.
  - exists (S (List.length (w ++ t ++ tl))). intros fuel Hl. unfold any_extract.
    assert (P := any_try_spec k fuel cfg j w t tl old _ Hs Hw Hd Hc Hf (at_init k _) ltac:(lia)). rewrite Hn in P.
    destruct P as (s & -> & At). exists s. split; [reflexivity|]. exact (at_ok_rest _ _ _ At).
  - assert (X := doc_intro j [] (compact j) [] (Forall_nil _) (spells_compact j t Hs) (Forall_nil _)). cbn [app] in X. rewrite app_nil_r in X. exact X.
Qed.
Print Assumptions C86_copy_partial.
(** When nothing may follow the document: white space is taken, anything else is refused. *)
Theorem C86_whole_partial : forall cfg k old j w t tl, pc_noTrailing cfg = true -> ws w -> spells j t -> ends_before j tl -> copied cfg k j -> number_followed k j tl ->
  (ws tl -> any_imports cfg k old (w ++ t ++ tl) (old ++ compact j) []) /\ (~ blank tl -> any_rejects cfg k old (w ++ t ++ tl)).
Proof.
  intros cfg k old j w t tl Hn Hw Hs Hd Hc Hf.
  split; intro B; exists (S (List.length (w ++ t ++ tl))); intros fuel Hl; unfold any_extract;
    assert (P := any_try_spec k fuel cfg j w t tl old _ Hs Hw Hd Hc Hf (at_init k _) ltac:(lia)); rewrite Hn in P; destruct P as [P1 P2].
  - destruct (P1 (ws_blank tl B)) as (s & -> & O & R). exists s. auto.
  - destruct (blank_or_not tl) as [X|(w' & c & r & E & Bw & Sp)]; [contradiction|]. rewrite (P2 w' c r E Bw Sp). exact Logic.I.
Qed.
Print Assumptions C86_whole_partial.

Example C86_example : forall k, any_imports pc_default k (bs "1 ") (bs " { ""a"" : [ 1.50 , true , null , ""b\"" c"" ] , ""d"" : { } } x") (bs "1 {""a"":[1.50,true,null,""b\"" c""],""d"":{}}") (bs " x").
Proof. intro k. destruct k; fuels 80%nat; eexists; (split; [vm_compute; reflexivity|split; reflexivity]). Qed.
Example C86_meets : forall k, exists j, document j (bs "{ ""a"" : [ 1.50 , true ] }") /\ copied pc_default k j /\ number_followed k j [].
Proof.
  intro k. eexists. split; [doc|]. split; [|exact Logic.I]. cbn [copied fold_right fst snd]. repeat split. intros _ H. cbn in H. lia.
Qed.

(** The old contents stay: after two imports of 1 the text is 11. *)
Theorem C86_old_refuted : forall k, exists text out out2, document (Scal (SNum (bs "1"))) text /\ any_imports pc_default k [] text out (bs " ") /\
  any_imports pc_default k out text out2 (bs " ") /\ document (Scal (SNum (bs "11"))) out2.
Proof.
  intro k. exists (bs "1 "), (bs "1"), (bs "11"). split; [doc|].
  split; [destruct k; fuels 20%nat; eexists; (split; [vm_compute; reflexivity|split; reflexivity])|].
  split; [destruct k; fuels 20%nat; eexists; (split; [vm_compute; reflexivity|split; reflexivity])|doc].
Qed.
Print Assumptions C86_old_refuted.
(** A key with escaped quotes: one member becomes two. *)
Theorem C86_key_refuted : forall k, exists text out key x a b, document (Obj [(key, x)]) text /\ any_imports pc_default k [] text out [] /\ document (Obj [a; b]) out.
Proof.
  intro k. exists (bs "{""a\"":1,\""b"":2}"), (bs "{""a"":1,""b"":2}"). do 4 eexists. split; [doc|].
  split; [destruct k; fuels 40%nat; eexists; (split; [vm_compute; reflexivity|split; reflexivity])|doc].
Qed.
Print Assumptions C86_key_refuted.
(** A string that ends in a backslash. *)
Theorem C86_backslash_refuted : forall k, exists j text, document j text /\ any_rejects pc_default k [] text.
Proof. intro k. exists (Arr [Scal (SStr (bs "a\\"))]), (bs "[""a\\""]"). split; [doc|]. destruct k; fuels 30%nat; vm_compute; exact Logic.I. Qed.
Print Assumptions C86_backslash_refuted.
(** A byte from 128 on is taken from a stream and refused in a std::string. *)
Theorem C86_bytes_refuted : exists j text, document j text /\ any_imports pc_default Strm [] text text [] /\ any_rejects pc_default StrIn [] text.
Proof.
  exists (Scal (SStr [195; 169])), [34; 195; 169; 34]. split; [doc|]. split; [fuels 20%nat; eexists; (split; [vm_compute; reflexivity|split; reflexivity])|].
  fuels 20%nat; vm_compute; exact Logic.I.
Qed.
Print Assumptions C86_bytes_refuted.
(** A number at the end of a stream: the text is taken and the import is reported as a failure. *)
Theorem C86_number_refuted : exists j text, document j text /\ any_rejects pc_default Strm [] text /\ any_imports pc_default StrIn [] text text [].
Proof.
  exists (Scal (SNum (bs "12"))), (bs "12"). split; [doc|]. split; [fuels 20%nat; vm_compute; reflexivity|].
  fuels 20%nat; eexists; (split; [vm_compute; reflexivity|split; reflexivity]).
Qed.
Print Assumptions C86_number_refuted.
(** Words are told apart by their first letter. *)
Theorem C86_words_refuted : forall k, exists text out, any_imports pc_default k [] text out [] /\ (exists j, document j out) /\ forall j, ~ document j text.
Proof.
  intro k. exists (bs "nope"), (bs "null"). split; [destruct k; fuels 20%nat; eexists; (split; [vm_compute; reflexivity|split; reflexivity])|].
  split; [eexists; doc|]. intros j D. change (document j [110; 111; 112; 101]) in D. apply doc_head in D as (w2 & t & Sp & Et & _); [|unfold ws_char; lia].
  inversion Sp as [sc t0 St| | | |]; subst. inversion St as [n Nm| | | |]; subst; [|discriminate Et].
  inversion Nm as [sg i f e Hs Hi _ _ Q]. destruct Hs; [|discriminate Q]. destruct Hi as [|c r Hc _]; [discriminate Q|]. cbn [app] in Q. injection Q as -> _. lia.
Qed.
Print Assumptions C86_words_refuted.
