(** C49, C50, C61-C65: YAML.

    libyaml is not modelled.  Where a theorem reads a text, [calls] is what libyaml does with it: for every call of
    yaml_parser_parse the sizes of the pieces of input it asks for, and the event it delivers.  Where a theorem writes,
    [yaml_events] is the list of events that libyaml's emitter was given and took. *)
From Coq Require Import ZArith String List Bool Lia ZifyBool.
From Verif Require Import Model.Base Model.Source Model.Number Model.ParserInterface Model.Types Model.Importer Model.Printer Model.JsonPrinter Model.Exporter Model.Yaml Model.YamlPrinter
  Spec.JsonString Spec.Json Spec.Typed Spec.Import Spec.Denotes Spec.Yaml Spec.YamlOut
  Proofs.Tac Proofs.ExportP Proofs.YamlP Proofs.YamlSim Proofs.YamlOutP Proofs.YamlDocP Proofs.YamlReadP
  Properties.Imports Properties.Exports Properties.Reports Properties.Failures.
Import ListNotations.
Open Scope Z_scope.

(** ** C49.  For every event stream of libyaml the parser delivers the tokens of exactly one document: those of the first
    document, properly nested and with keys and values alternating ([doc_items]), then it reports an error, or an exception
    if there is another document.  If the first document has an alias or a key that is not a scalar, an exception comes
    before its end. *)
Theorem C49_one_document : forall docs calls k text, map snd calls = map Some (stream_events docs) ->
  match docs with
  | [] => delivered (y_init calls (src_init k text)) [] EndError
  | d :: more =>
      (exists j, d = node_of j /\ delivered (y_init calls (src_init k text)) (doc_items j) (match more with [] => EndError | _ => EndException end)) \/
      ((forall j, d <> node_of j) /\ exists j l r, r <> [] /\ doc_items j = l ++ r /\ delivered (y_init calls (src_init k text)) l EndException)
  end.
Proof. intros docs calls k text E. exact (stream_runs docs calls _ E (sane_init k text)). Qed.
Print Assumptions C49_one_document.
(** When libyaml fails somewhere, the tokens are a prefix of those. *)
Theorem C49_broken_text : forall l e calls calls' k text, delivered (y_init calls (src_init k text)) l e -> broken calls calls' ->
  exists l1 l2 e', l = l1 ++ l2 /\ delivered (y_init calls' (src_init k text)) l1 e'.
Proof. intros l e calls calls' k text D B. exact (broken_delivered _ l e D _ (like_init calls calls' _ B (sane_init k text))). Qed.
Print Assumptions C49_broken_text.
(** [[a, {k: b}]], and the same with a second document; a document that is an alias as a key. *)
Definition doc49 : tree (list Z) := Arr [Scal (bs "a"); Obj [(bs "k", Scal (bs "b"))]].
Definition calls_for (es : list yev) : list ycall := map (fun e => ([], Some e)) es.
Lemma calls_for_snd : forall es, map snd (calls_for es) = map Some es.
Proof. intro es. unfold calls_for. now rewrite map_map. Qed.
Example C49_example :
  delivered (y_init (calls_for (stream_events [node_of doc49])) (src_init StrIn [])) (doc_items doc49) EndError /\
  delivered (y_init (calls_for (stream_events [node_of doc49; NAlias])) (src_init StrIn [])) (doc_items doc49) EndException /\
  (exists l r, r <> [] /\ doc_items (Obj [([], Scal [])]) = l ++ r /\
     delivered (y_init (calls_for (stream_events [NMap [(NAlias, NScal [])]])) (src_init StrIn [])) l EndException).
Proof.
  split; [|split].
  - destruct (C49_one_document [node_of doc49] _ StrIn [] (calls_for_snd _)) as [(j & E & D)|(N & _)]; [|now elim (N doc49)].
    apply node_of_inj in E. now subst.
  - destruct (C49_one_document [node_of doc49; NAlias] _ StrIn [] (calls_for_snd _)) as [(j & E & D)|(N & _)]; [|now elim (N doc49)].
    apply node_of_inj in E. now subst.
  - exists [IDocS; IMapS], [IKey []; IVal []; IMapE; IDocE]. split; [discriminate|]. split; [reflexivity|].
    eapply dl_step; [vm_compute; reflexivity|reflexivity|]. eapply dl_step; [vm_compute; reflexivity|reflexivity|]. apply dl_throw. vm_compute. reflexivity.
Qed.

(** ** C50.  However libyaml splits its text, the text in the stream is that of libyaml with every line moved by the initial
    indent; [lines]: also the empty line after the last new line. *)
Theorem C50_stream_indent : forall c p pieces, yaml_text c ToStream (p :: pieces) = Ok (indented (pf_block c) (List.concat (p :: pieces))).
Proof.
  intros c p pieces. unfold yaml_text. assert (H := y_writes_text (pf_block c) (p :: pieces) false). destruct (y_writes (pf_block c) false (p :: pieces)) as [w f]. cbn [fst] in H.
  now rewrite H, indented_shift.
Qed.
Print Assumptions C50_stream_indent.
(** Without an initial indent the same for strings.  Full claim: for every initial indent. *)
Theorem C50_string_indent_partial : forall c p pieces, pf_block c = 0 -> yaml_text c ToString (p :: pieces) = Ok (indented (pf_block c) (List.concat (p :: pieces))).
Proof.
  intros c p pieces Z0. unfold yaml_text. assert (H := y_writes_text (pf_block c) (p :: pieces) false). assert (F := y_writes_first (pf_block c) (p :: pieces) false).
  destruct (y_writes (pf_block c) false (p :: pieces)) as [w f]. cbn [fst snd] in *. subst f. assert (H2 := y_writes_text (pf_block c) (p :: pieces) true).
  assert (Ct : forall l, chunks_text (map Wr l) = List.concat l) by (induction l as [|x l IH]; [reflexivity|cbn; now f_equal]).
  rewrite copy_all; rewrite Ct.
  - rewrite H2, indented_shift, Z0. reflexivity.
  - cbv beta iota in H, H2. rewrite H2, H. cbn [app]. rewrite ?app_length. lia.
Qed.
Print Assumptions C50_string_indent_partial.
(** With one, the first line in a string is not moved: the text lacks its first blanks. *)
Theorem C50_string_first_line : forall c p pieces, exists out, yaml_text c ToString (p :: pieces) = Ok out /\
  indented (pf_block c) (List.concat (p :: pieces)) = repeat 32 (Z.to_nat (pf_block c)) ++ out.
Proof.
  intros c p pieces. unfold yaml_text. assert (H := y_writes_text (pf_block c) (p :: pieces) false). assert (F := y_writes_first (pf_block c) (p :: pieces) false).
  destruct (y_writes (pf_block c) false (p :: pieces)) as [w f]. cbn [fst snd] in *. subst f. assert (H2 := y_writes_text (pf_block c) (p :: pieces) true).
  assert (Ct : forall l, chunks_text (map Wr l) = List.concat l) by (induction l as [|x l IH]; [reflexivity|cbn; now f_equal]).
  rewrite copy_all; rewrite Ct.
  - exists (shift (pf_block c) (List.concat (p :: pieces))). split; [now rewrite H2|apply indented_shift].
  - cbv beta iota in H, H2. rewrite H2, H. cbn [app]. rewrite ?app_length. lia.
Qed.
Print Assumptions C50_string_first_line.
Definition pf_block2 : fconfig := mkPf OStream (bs "__type") true 0 2 false.
Theorem C50_string_indent_refuted : exists c p pieces out, yaml_text c ToString (p :: pieces) = Ok out /\ out <> indented (pf_block c) (List.concat (p :: pieces)).
Proof. exists pf_block2, (bs "a"), [], (bs "a"). split; [vm_compute; reflexivity|vm_compute; discriminate]. Qed.
Print Assumptions C50_string_indent_refuted.
Example C50_example : yaml_text pf_block2 ToStream [bs "a: "; bs "1" ++ [10] ++ bs "b:"; bs " 2" ++ [10]] = Ok (bs "  a: 1" ++ [10] ++ bs "  b: 2" ++ [10] ++ bs "  ") /\
  yaml_text pf_block2 ToString [bs "a: 1" ++ [10]; bs "b: 2" ++ [10]] = Ok (bs "a: 1" ++ [10] ++ bs "  b: 2" ++ [10] ++ bs "  ").
Proof. split; vm_compute; reflexivity. Qed.

(** ** C61.  A value that was written as YAML is read back equal.  Premise about libyaml: for the text of the events [es] its
    parser delivers the events [es] again.  Partial: a pointer must not point to a text that stands for null (or to something
    written as such a text); the other conditions are those of [reads_back] (C26).  Full claim: every valid value. *)
Theorem C61_yaml_round_trip_partial : forall c o k t v cfg es, o_good o = true -> pf_marker c = pc_marker cfg -> pc_noTrailing cfg = false ->
  yaml_reads_back (pc_strict cfg) (pc_marker cfg) t v -> yaml_events c o k t v = WDone es ->
  forall fuel calls rest src text, map snd calls = map Some es -> (List.length es <= fuel)%nat ->
  exists s', yaml_extract fuel cfg t (default t) (calls ++ rest) (src_init src text) = Returned v s'.
Proof.
  intros c o k t v cfg es G Mk Nt B E fuel calls rest src text C F. assert (B' := B). destruct B' as (W & (Sh & _) & _).
  destruct (yaml_round c o k t v cfg es G W Sh Mk B E fuel calls rest src text C F Nt) as (s' & R & _). eauto.
Qed.
Print Assumptions C61_yaml_round_trip_partial.
(** The events are those of the document of the value. *)
Theorem C61_document : forall c o k t v es, o_good o = true -> wf t = true -> shaped t v = true -> yaml_events c o k t v = WDone es ->
  exists j, yaml_stands (pf_marker c) t v j /\ es = YStreamStart :: doc_events (node_of j).
Proof.
  intros c o k t v es G W Sh E. assert (X := export_runs c o k t v G W Sh). destruct (first_fault _ _ _ _) as [[]|]; rewrite E in X; try discriminate X.
  destruct X as (j & Hj & X). exists j. split; [exact Hj|]. congruence.
Qed.
Print Assumptions C61_document.
Definition out_good : outside := mkOut true (fun _ => false).
Definition out_bad : outside := mkOut false (fun _ => false).
Definition ty_shape : ty := TStruct (mkSinfo [bs "p"; bs "q"; bs "o"] [] [] false false false) [TVec ty_point; TPtr (TInt IInt); TOpt TBool] [].
Definition shape1 : val := VStruct [VList [point 1 (bs "a: b"); point (-2) (bs "null")]; VPtr None; VOpt None] [].
Example C61_example : yaml_reads_back Strict (bs "__type") ty_shape shape1 /\
  yaml_events pf_default out_good ToString ty_shape shape1 = WDone [YStreamStart; YDocStart; YMapStart; YScalar (bs "p"); YSeqStart;
    YMapStart; YScalar (bs "x"); YScalar (bs "1"); YScalar (bs "y"); YScalar (bs "a: b"); YMapEnd;
    YMapStart; YScalar (bs "x"); YScalar (bs "-2"); YScalar (bs "y"); YScalar (bs "null"); YMapEnd; YSeqEnd;
    YScalar (bs "q"); YScalar (bs "null"); YMapEnd; YDocEnd].
Proof.
  split; [|vm_compute; reflexivity]. split; [reflexivity|]. split; [split; [reflexivity|cbn -[fits bytes_in]; conds]|]. split; [cbn -[fits bytes_in]; conds|].
  split; [cbn; conds|]. split; [reflexivity|discriminate].
Qed.
(** A pointer to the text null is written as null, and read back as a null pointer. *)
Theorem C61_yaml_round_trip_refuted : exists t v es v' s, wf t = true /\ valid t v /\ yaml_events pf_default out_good ToStream t v = WDone es /\
  yaml_extract 10 pc_default t (default t) (calls_for es) (src_init StrIn []) = Returned v' s /\ v' <> v.
Proof.
  exists (TPtr TStr), (VPtr (Some (VStr (bs "~")))). eexists. eexists. eexists. split; [reflexivity|]. split; [split; [reflexivity|cbn -[fits bytes_in]; conds]|].
  split; [vm_compute; reflexivity|]. split; [vm_compute; reflexivity|discriminate].
Qed.
Print Assumptions C61_yaml_round_trip_refuted.

(** ** C62.  Failing exports to YAML are reported as configured.  What happens depends on where the first thing is that
    cannot be written ([first_fault]): a text that libyaml does not take, an enum value without a name, an empty optional
    outside of a class.  Partial: as an element of an array, or a key, it is reported.  Otherwise the program ends, whatever
    is configured.  Full claim: it is always reported. *)
Theorem C62_yaml_failures_partial : forall c o k t v, o_good o = true -> wf t = true -> shaped t v = true ->
  match first_fault bad_text (pf_marker c) t v with
  | None => exists j, yaml_stands (pf_marker c) t v j /\ yaml_events c o k t v = WDone (YStreamStart :: doc_events (node_of j))
  | Some Element | Some Key => yaml_events c o k t v = WFailed (negb (pf_catch c))
  | Some Whole | Some Value => yaml_events c o k t v = WTerminated
  end.
Proof. intros c o k t v. exact (export_runs c o k t v). Qed.
Print Assumptions C62_yaml_failures_partial.
(** The texts that libyaml takes are the UTF-8 texts. *)
Theorem C62_text : forall s, bytes_in s -> (bad_text s = false <-> utf8_text s).
Proof. intros s B. rewrite <- (check_utf8_text s B). unfold bad_text. now rewrite negb_false_iff. Qed.
Print Assumptions C62_text.
(** A document of UTF-8 texts is written. *)
Theorem C62_written : forall c o k t v j, o_good o = true -> wf t = true -> shaped t v = true -> yaml_stands (pf_marker c) t v j -> all_text utf8_text j ->
  exists es, yaml_events c o k t v = WDone es.
Proof.
  intros c o k t v j G W Sh Hj U. assert (X := export_runs c o k t v G W Sh). unfold first_fault in X. rewrite (stands_faultless _ t v j W Sh Hj U) in X. destruct X as (j' & _ & X). eauto.
Qed.
Print Assumptions C62_written.
(** An output that takes nothing: the program ends.  Premise about libyaml: the start of the first document does not fill
    its buffer. *)
Theorem C62_bad_stream : forall c o t v, o_good o = false -> o_full o 1%nat = false -> wf t = true -> shaped t v = true -> yaml_events c o ToStream t v = WTerminated.
Proof. intros c o t v B. exact (bad_output (fun _ z => Some (int_dec z)) c o B t v). Qed.
Print Assumptions C62_bad_stream.
Theorem C62_yaml_failures_refuted : exists t v, wf t = true /\ valid t v /\
  yaml_events (set_catch_out true pf_default) out_good ToStream t v = WTerminated /\
  (exists t2 v2, wf t2 = true /\ valid t2 v2 /\ yaml_events (set_catch_out true pf_default) out_bad ToStream t2 v2 = WTerminated).
Proof.
  exists ty_point, (point 1 [255]). split; [reflexivity|]. split; [split; [reflexivity|cbn -[fits bytes_in]; conds]|]. split; [vm_compute; reflexivity|].
  exists ty_point, (point 1 []). split; [reflexivity|]. split; [split; [reflexivity|cbn -[fits bytes_in]; conds]|vm_compute; reflexivity].
Qed.
Print Assumptions C62_yaml_failures_refuted.
Example C62_example : (first_fault bad_text (bs "__type") (TVec TStr) (VList [VStr (bs "a"); VStr [195]]) = Some Element /\
    yaml_events (set_catch_out false pf_default) out_good ToString (TVec TStr) (VList [VStr (bs "a"); VStr [195]]) = WFailed true) /\
  (first_fault bad_text (bs "__type") (TMap MPlace TStr) (VMap [([128], VStr (bs "a"))]) = Some Key /\
    yaml_events (set_catch_out true pf_default) out_good ToStream (TMap MPlace TStr) (VMap [([128], VStr (bs "a"))]) = WFailed false) /\
  first_fault bad_text (bs "__type") ty_point (point 1 [255]) = Some Value /\
  first_fault bad_text (bs "__type") (TEnum [(0, bs "A")]) (VInt 1) = Some Whole.
Proof. repeat split; vm_compute; reflexivity. Qed.

(** ** C63.  Integers in YAML texts: an integer that fits the type is read as it is, anything but an integer is rejected.
    Full claim: integers that do not fit are rejected, and so is the empty text. *)
Theorem C63_yaml_integers_partial : forall i s,
  (forall z, yaml_integer s z -> fits i z -> yaml_int i s = Ok z) /\
  (s <> [] -> (forall z, ~ yaml_integer s z) -> yaml_int i s = Throw).
Proof.
  intros i s. split; [intros z; apply yaml_int_fits|]. intros N H. assert (O := yaml_int_only i s). unfold yaml_int in *. destruct (strto (i_signed i) s) as [v n].
  destruct (Nat.eqb n (List.length s)); [|reflexivity]. destruct (O _ eq_refl) as [[-> _]|(w & Hw)]; [congruence|now elim (H w)].
Qed.
Print Assumptions C63_yaml_integers_partial.
(** What happens to the others: they are cut to 64 bits, then to the type. *)
Theorem C63_yaml_integers_cut : forall i s w, yaml_integer s w -> yaml_int i s = Ok (i_wrap i (nearest64 (i_signed i) w)).
Proof. exact yaml_int_spec. Qed.
Print Assumptions C63_yaml_integers_cut.
Theorem C63_yaml_integers_refuted :
  (exists i s z z', yaml_integer s z /\ ~ fits i z /\ yaml_int i s = Ok z' /\ z' <> z) /\ (exists i, yaml_int i [] = Ok 0).
Proof.
  split; [|exists IInt; reflexivity]. exists IInt, (bs "4294967297"), 4294967297, 1. split; [|split; [vm_compute; intros [_ H]; discriminate H|split; [vm_compute; reflexivity|discriminate]]].
  apply (yi_plain [] (bs "4294967297")); [constructor|]. split; [discriminate|]. repeat constructor; vm_compute; discriminate.
Qed.
Print Assumptions C63_yaml_integers_refuted.
Example C63_example : yaml_int IInt (bs " +12") = Ok 12 /\ yaml_int IInt (bs "-2147483648") = Ok (-2147483648) /\ yaml_int IInt (bs "1x") = Throw /\ yaml_int IInt (bs "-") = Throw.
Proof. repeat split; vm_compute; reflexivity. Qed.

(** ** C64.  An import reports success exactly if it delivered the value of the document.  Partial: for strings, and for
    streams if libyaml never asks for more after it has got all of the text.  Full claim: always. *)
Theorem C64_yaml_reports_partial : forall fuel cfg t v j calls n2 rest k text, wf t = true -> doc_calls j (calls ++ [(n2, Some YDocEnd)]) -> (List.length (node_events (node_of j)) <= fuel)%nat ->
  pc_noTrailing cfg = false ->
  match yaml_meaning cfg t v j with
  | Ok v' => exists s', yaml_extract fuel cfg t v (calls ++ (n2, Some YDocEnd) :: rest) (src_init k text) = Returned v' s' /\
      (src_ok s' = false <-> k = Strm /\ asks_again (pieces calls ++ n2) (List.length text))
  | Throw => yaml_extract fuel cfg t v (calls ++ (n2, Some YDocEnd) :: rest) (src_init k text) = Failed (negb (pc_catch cfg))
  | _ => True
  end.
Proof.
  intros fuel cfg t v j calls n2 rest k text W C F Nt. rewrite <- size_events in F. destruct (yaml_meaning cfg t v j) as [v'| | |] eqn:M; auto.
  - now apply (yaml_imports fuel cfg t v j calls n2 rest k text v').
  - now apply (yaml_refuses fuel cfg t v j calls n2 rest k text).
Qed.
Print Assumptions C64_yaml_reports_partial.
(** Otherwise the value is delivered and the stream has failed: the text 12 in a stream.  libyaml asks for 16384 bytes, gets
    two, asks again to see where the number ends, and gets none. *)
Theorem C64_yaml_reports_refuted : exists text calls s', yaml_extract 5 pc_default (TInt IInt) (VInt 0) calls (src_init Strm text) = Returned (VInt 12) s' /\ src_ok s' = false /\
  exists s'', yaml_extract 5 pc_default (TInt IInt) (VInt 0) calls (src_init StrIn text) = Returned (VInt 12) s'' /\ src_ok s'' = true.
Proof.
  exists (bs "12"), [([3], Some YStreamStart); ([2], Some YDocStart); ([], Some (YScalar (bs "12"))); ([], Some YDocEnd)]%nat. eexists. split; [vm_compute; reflexivity|]. split; [reflexivity|].
  eexists. split; [vm_compute; reflexivity|reflexivity].
Qed.
Print Assumptions C64_yaml_reports_refuted.
(** The option to catch exceptions. *)
Theorem C64_yaml_configured : forall fuel cfg t v calls s,
  let on := yaml_extract fuel (set_catch true cfg) t v calls s in
  let off := yaml_extract fuel (set_catch false cfg) t v calls s in
  (on = Failed false /\ off = Failed true) \/ (on = off /\ forall b, on <> Failed b).
Proof.
  intros fuel cfg t v calls s. unfold yaml_extract, yaml_extract_with. change (yaml_try_with yaml_int fuel (set_catch true cfg) t v calls s) with (yaml_try_with yaml_int fuel cfg t v calls s).
  change (yaml_try_with yaml_int fuel (set_catch false cfg) t v calls s) with (yaml_try_with yaml_int fuel cfg t v calls s).
  destruct (yaml_try_with yaml_int fuel cfg t v calls s) as [[v' s']| | |]; [right|left|right|right]; repeat split; discriminate.
Qed.
Print Assumptions C64_yaml_configured.
Example C64_example : doc_calls (Arr [Scal (bs "1")]) ([([9]%nat, Some YStreamStart); ([], Some YDocStart); ([], Some YSeqStart); ([], Some (YScalar (bs "1"))); ([], Some YSeqEnd)] ++ [([], Some YDocEnd)]) /\
  yaml_meaning pc_default (TVec (TInt IInt)) (VList []) (Arr [Scal (bs "1")]) = Ok (VList [VInt 1]) /\
  yaml_meaning pc_default (TVec TBool) (VList []) (Arr [Scal (bs "1")]) = Throw /\
  ~ asks_again ([9]%nat ++ []) 9 /\ asks_again [9; 1]%nat 9.
Proof.
  split; [reflexivity|]. split; [vm_compute; reflexivity|]. split; [vm_compute; reflexivity|].
  split; [rewrite <- starved_spec; discriminate|rewrite <- starved_spec; reflexivity].
Qed.

(** ** C65.  validateNoTrailingData rejects exactly the texts with something behind the document.  Refuted: if libyaml got all
    of the text before the end of the document (it asks for 16384 bytes at a time) nothing is ever found, whatever follows
    the document; and if it asks for more to see the end, the import of a string reads behind the string. *)
Theorem C65_trailing_lost : forall fuel cfg t v j calls n2 rest k text v', wf t = true -> doc_calls j (calls ++ [(n2, Some YDocEnd)]) -> (List.length (node_events (node_of j)) <= fuel)%nat ->
  pc_noTrailing cfg = true -> yaml_meaning cfg t v j = Ok v' -> (List.length text <= total (pieces calls))%nat ->
  (n2 = [] -> exists s', yaml_extract fuel cfg t v (calls ++ (n2, Some YDocEnd) :: rest) (src_init k text) = Returned v' s') /\
  (n2 <> [] -> k = StrIn -> yaml_extract fuel cfg t v (calls ++ (n2, Some YDocEnd) :: rest) (src_init k text) = ImpUB).
Proof. intros fuel cfg t v j calls n2 rest k text v' W C F. rewrite <- size_events in F. exact (yaml_trailing fuel cfg t v j calls n2 rest k text v' W C F). Qed.
Print Assumptions C65_trailing_lost.
Definition pc_trailing : pconfig := mkPc Weak (bs "__type") true true true.
Definition calls65 (last : list nat) : list ycall :=
  [([Z.to_nat 16384], Some YStreamStart); ([], Some YDocStart); ([], Some YSeqStart); ([], Some (YScalar (bs "1"))); ([], Some (YScalar (bs "2"))); ([], Some YSeqEnd); (last, Some YDocEnd)].
(** The texts [[1,2]\n... junk] and [[1,\n2]\n\n\n\n] *)
Theorem C65_trailing_refuted :
  (exists s', yaml_extract 9 pc_trailing (TVec (TInt IInt)) (VList []) (calls65 []) (src_init StrIn (bs "[1,2]" ++ [10] ++ bs "..." ++ [10] ++ bs "junk")) = Returned (VList [VInt 1; VInt 2]) s' /\ src_ok s' = true) /\
  yaml_extract 9 pc_trailing (TVec (TInt IInt)) (VList []) (calls65 [Z.to_nat 16384]) (src_init StrIn (bs "[1," ++ [10] ++ bs "2]" ++ [10; 10; 10; 10])) = ImpUB.
Proof. split; [eexists; split; [vm_compute; reflexivity|reflexivity]|vm_compute; reflexivity]. Qed.
Print Assumptions C65_trailing_refuted.
