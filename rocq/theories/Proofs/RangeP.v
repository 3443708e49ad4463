(** A range is printed to a stream like a vector. *)
From Coq Require Import ZArith List Bool Lia.
From Verif Require Import Model.Base Model.Number Model.Printer Model.JsonPrinter Model.Types Model.Serializer Model.Exporter Model.BsonPrinter Model.BsonDoc Model.Range.
Import ListNotations.
Open Scope Z_scope.

Theorem range_json_vector : forall c t l, range_json c ToStream t l = json_export c ToStream (TVec t) (VList l).
Proof.
  intros c t l. unfold range_json, json_export, json_to_stream, json_pass. cbn [ser sf_print]. unfold mkSv, array_block, sized. cbn [sf_print pr_usesSize json_printer bind].
  unfold put_elems. destruct (w_then _ _ js_init) as [[out s]| | |]; reflexivity.
Qed.
Theorem range_bson_vector : forall c ids t l, range_bson c ToStream ids t l = bson_export c ToStream false ids (TVec t) (VList l).
Proof.
  intros c ids t l. unfold range_bson, bson_export, export_with, to_stream_with, pass_with. cbn [null_root negb andb bson_root ser sf_print]. unfold mkSv, array_block, sized.
  cbn [sf_print pr_usesSize bson_printer]. unfold range_size, size_elems, put_elems. destruct (do z <- sum_sizes _; _) as [z| | |]; try reflexivity. cbn [bind].
  destruct (w_then _ _ bp_init) as [[out s]| | |]; reflexivity.
Qed.
Lemma some_written : forall a x b, unreserved [Wr (a ++ x :: b)] = UB.
Proof. intros a x b. unfold unreserved. cbn [chunks_text flat_map chunk_bytes]. rewrite app_nil_r. now destruct a. Qed.
Theorem range_json_string : forall c t l, range_json c ToString t l = ExportUB.
Proof.
  intros c t l. unfold range_json. cbn [pr_openArray json_printer]. unfold js_open, js_init.
  assert (G : forall n has suffix, printIndentSuffix c n has suffix = UB \/ exists b, printIndentSuffix c n has suffix = Ok (b ++ [suffix])).
  { intros n has suffix. unfold printIndentSuffix, indent_text. destruct has; [|right; now exists []]. destruct (_ <? 4004); [|now left].
    destruct (_ =? 0); [right; now exists []|]. destruct (_ <=? 4004); [right; eexists; reflexivity|]. destruct (_ =? 4005); [right; eexists; reflexivity|now left]. }
  destruct (G 1%nat (spaced c) 91) as [E|(b & E)]; cbn [length]; rewrite E; [reflexivity|]. cbn [bind put]. rewrite app_assoc. now rewrite some_written.
Qed.
Theorem range_bson_string : forall c ids t l out n, range_bson c ToString ids t l <> BExported out n.
Proof.
  intros c ids t l out n. unfold range_bson. destruct (range_size _ _ _ _ _) as [z| | |]; cbn [bind]; try discriminate.
Qed.
