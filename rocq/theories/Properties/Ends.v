(** Imports of malformed texts end. *)
From Coq Require Import ZArith String List Bool Lia.
From Verif Require Import Model.Base Model.Source Model.Unicode Model.Number Model.JsonLexer Model.ParserInterface Model.JsonParser Model.Types Model.Deserializer Model.Importer Model.BsonPrinter Model.BsonParser Model.BsonFloat Model.BsonDoc Model.Yaml
  Spec.Ends Proofs.Induct Proofs.EndsJsonP Proofs.EndsBsonP Properties.Imports.
Import ListNotations.
Open Scope Z_scope.

(** ** C12.  Every import ends, whatever the text is, if no container that grows has elements that can be null and the text
    of a stream does not end in a backslash: after as many rounds of each loop as the text has bytes and the largest
    std::array or std::tuple has elements.  (It may end in undefined behaviour.)  Missing: containers of pointers, where
    the claim is false (below), and streams that end in a backslash, where it is false as well
    ([C12_documents_end_refuted]). *)
Theorem C12_malformed_end_partial : forall cfg k t v text fuel, no_null_elements t = true -> (k = Strm -> last text 0 <> 92) ->
  (List.length text + 2 <= fuel)%nat -> (width t < fuel)%nat -> json_extract fuel cfg t v (src_init k text) <> ImpHang.
Proof.
  intros cfg k t v text fuel N T L W. assert (H := json_ends k text fuel L T cfg t v N W). unfold json_extract.
  destruct (json_try fuel cfg t v (src_init k text)) as [[v' s]| | |]; try discriminate. congruence.
Qed.
Print Assumptions C12_malformed_end_partial.
(** An unfinished map of arrays of points, in text that is not JSON. *)
Example C12_malformed_example : forall k fuel, (40 <= fuel)%nat -> json_extract fuel pc_default (TMap MPlace (TArr 3 (TPtr ty_point))) (VMap []) (src_init k (bs "{""a"":[null null,{""x"" 1 ]],,")) <> ImpHang.
Proof. intros k fuel L. apply C12_malformed_end_partial; [reflexivity|intros _; discriminate|cbn; lia|cbn; lia]. Qed.

(** A vector, list, set, ... whose elements can be null is read forever from [null null]. *)
Lemma null_read : forall {St} (ops : parser_ops St) F m mk t, nullable t = true -> forall p tk p1 p2, getToken ops p = Ok (tk, p1) -> op_null ops (ps_impl p1) = true -> lift_ (op_ignore ops) p1 = Ok p2 ->
  exists x, d_parse (deser ops F m mk t) (default t) p = Ok (x, p2).
Proof.
  intros St ops F m mk t. induction t using ty_ind'; cbn [nullable]; intro N; try discriminate N; intros p tk p1 p2 G Nl I; cbn [deser d_parse default].
  - unfold read_pointer. rewrite G. cbn [bind]. rewrite Nl, I. cbn [bind]. eauto.
  - destruct (IHt N p tk p1 p2 G Nl I) as [x E]. rewrite E. cbn [bind]. eauto.
  - unfold read_pointer. rewrite G. cbn [bind]. rewrite Nl, I. cbn [bind]. eauto.
Qed.
Lemma null_loops : forall F conv m mk co t, nullable t = true -> forall n i l p, stuck p ->
  arr_loop (json_ops F conv) n (elem_vec co (deser (json_ops F conv) F m mk t) (default t)) i (VList l) p = Hang.
Proof.
  intros F conv m mk co t N. induction n as [|n IH]; intros i l p Sp; [reflexivity|]. assert (Sp0 := Sp). destruct p as [[lx c] b1 b2]. destruct Sp as (H1 & H2 & H3 & H4 & H5 & H6). cbn [ps_impl ps_pb1 ps_pb2 jp_lex jp_ctl] in *. subst b1 b2.
  assert (E : getToken (json_ops F conv) (mkPst (mkJp lx c) TokError TokError) = Ok (TokError, mkPst (mkJp lx c) TokError TokError)).
  { unfold getToken, lift. cbn [ps_pb1 ps_pb2 ps_impl op_next json_ops token_eqb negb]. unfold jp_next. cbn [jp_next_loop jp_ctl]. unfold ctl_early. rewrite H1, H2. reflexivity. }
  assert (I : exists p2, lift_ (op_ignore (json_ops F conv)) (mkPst (mkJp lx c) TokError TokError) = Ok p2 /\ stuck p2).
  { unfold lift_. cbn [ps_impl op_ignore json_ops]. unfold jp_lift_. cbn [jp_lex]. unfold ignoreRawValue. rewrite H4. cbn [bind ps_pb1 ps_pb2 jp_ctl]. eexists. split; [reflexivity|]. repeat split; assumption. }
  destruct I as (p2 & I & S2). cbn [arr_loop]. rewrite E. cbn [bind]. change (pushBackToken TokError (mkPst (mkJp lx c) TokError TokError)) with (mkPst (mkJp lx c) TokError TokError).
  destruct (null_read (json_ops F conv) F m mk t N _ _ _ _ E H3 I) as [x X]. unfold elem_vec at 1. rewrite X. cbn [bind]. apply IH. exact S2.
Qed.
Theorem C12_null_elements_refuted : forall k co t, nullable t = true -> never_ends pc_default k (TSeq co t) (VList []) (bs "[null null]").
Proof.
  intros k co t Nt fuel. unfold json_extract.
  assert (X : json_try fuel pc_default (TSeq co t) (VList []) (src_init k (bs "[null null]")) = Hang); [|now rewrite X].
  unfold json_try. cbn [pc_conv pc_strict pc_marker pc_default].
  change (getToken (json_ops fuel true) (pst_init (mkJp (lex_init (src_init k (bs "[null null]"))) ctl_init)))
    with (Ok (TokDocStart, pst_init (mkJp (lex_init (src_init k (bs "[null null]"))) (mkCtl [] JDone JInit true)))).
  cbn [bind]. set (D := deser (json_ops fuel true) fuel Weak (bs "__type") t).
  assert (R : forall p, getToken (json_ops fuel true) p = Ok (TokArrayStart, nulls_at k 1 (LPunct 91) false JOpenA) ->
    d_parse (deser (json_ops fuel true) fuel Weak (bs "__type") (TSeq co t)) (VList []) p = Hang).
  { intros p Hp. cbn [deser d_parse]. unfold read_array. rewrite Hp. cbn [bind]. fold D.
    assert (N1 : forall l i st pos pos' tk, getToken (json_ops fuel true) (pushBackToken tk (nulls_at k pos LNull true st)) = Ok (tk, nulls_at k pos LNull true st) ->
       lift_ (op_ignore (json_ops fuel true)) (nulls_at k pos LNull true st) = Ok (nulls_at k pos' LNull true st) ->
       exists l', elem_vec co D (default t) i (VList l) (pushBackToken tk (nulls_at k pos LNull true st)) = Ok (VList l', nulls_at k pos' LNull true st)).
    { intros l i st pos pos' tk G I. destruct (null_read (json_ops fuel true) fuel Weak (bs "__type") t Nt _ _ _ _ G eq_refl I) as [x X]. unfold elem_vec. unfold D. rewrite X. cbn [bind]. eauto. }
    assert (H : forall n, arr_loop (json_ops fuel true) n (elem_vec co D (default t)) 0 (VList []) (nulls_at k 1 (LPunct 91) false JOpenA) = Hang); [|apply H].
    destruct (N1 [] 0%nat JValueA 1%nat 5%nat TokValue) as [l1 E1]; [now destruct k|now destruct k|].
    destruct (N1 l1 1%nat JError 6%nat 10%nat TokError) as [l2 E2]; [now destruct k|now destruct k|].
    intros [|[|n]]; [reflexivity| |].
    - rewrite (arr_step _ _ 0 0 _ _ TokValue (nulls_at k 1 LNull true JValueA) (VList l1) (nulls_at k 5 LNull true JValueA)); [reflexivity|now destruct k|discriminate|exact E1].
    - rewrite (arr_step _ _ _ 0 _ _ TokValue (nulls_at k 1 LNull true JValueA) (VList l1) (nulls_at k 5 LNull true JValueA)); [|now destruct k|discriminate|exact E1].
      rewrite (arr_step _ _ _ 1 _ _ TokError (nulls_at k 6 LNull true JError) (VList l2) (nulls_at k 10 LNull true JError)); [|now destruct k|discriminate|exact E2].
      unfold D. apply null_loops; [exact Nt|]. repeat split. }
  rewrite R; [reflexivity|now destruct k].
Qed.
Print Assumptions C12_null_elements_refuted.
Example C12_null_elements_example : nullable (TOpt (TPtr ty_point)) = true.
Proof. reflexivity. Qed.

(** ** BSON.  An import from a stream ends, whatever the bytes are and whatever is read. *)
Theorem C12_bson_stream_ends : forall cfg t v text fuel, (2 * List.length text + 1 <= fuel)%nat ->
  bson_extract fuel cfg t v (src_init Strm text) <> ImpHang /\ extract_with bflt_ops fuel cfg t v (src_init Strm text) <> ImpHang.
Proof.
  intros cfg t v text fuel L. split; apply bson_extract_ends; try reflexivity; try exact L; intros F mk t'; [apply bson_reader|apply bflt_reader]; discriminate.
Qed.
Print Assumptions C12_bson_stream_ends.
(** A vector of pointers from an array that announces more than there is. *)
Example C12_bson_stream_example : bson_extract 30 pc_default (TSeq CBack (TPtr ty_point)) (VList []) (src_init Strm [200; 0; 0; 0; 10; 48; 0; 10; 48; 0; 10; 48; 0]) = Failed false.
Proof. vm_compute. reflexivity. Qed.

(** From a string an import ends if unknown members are not skipped.  Missing: ParseType::Weak, where it is false (below). *)
Theorem C12_bson_string_ends_partial : forall cfg t v text fuel, pc_strict cfg <> Weak -> (2 * List.length text + 1 <= fuel)%nat ->
  bson_extract fuel cfg t v (src_init StrIn text) <> ImpHang /\ extract_with bflt_ops fuel cfg t v (src_init StrIn text) <> ImpHang.
Proof.
  intros cfg t v text fuel W L. split; apply bson_extract_ends; try reflexivity; try exact L; intros F mk t'; [apply bson_reader|apply bflt_reader]; intros _; exact W.
Qed.
Print Assumptions C12_bson_string_ends_partial.
Example C12_bson_string_example : pc_strict (mkPc Strict (bs "__type") true false true) <> Weak /\
  bson_extract 30 (mkPc Strict (bs "__type") true false true) ty_point (default ty_point) (src_init StrIn [11; 0; 0; 0; 2; 97; 0; 249; 255; 255; 255]) = Failed false.
Proof. split; [discriminate|vm_compute; reflexivity]. Qed.

(** A class without a member "a" is read forever from a string of 11 bytes: the length of the string "a" is -7, and skipping it
    goes back to the start of its element. *)
Definition back_text : bytes := [11; 0; 0; 0; 2; 97; 0; 249; 255; 255; 255].
Theorem C12_bson_string_refuted : bson_never_ends pc_default StrIn ty_point (default ty_point) back_text.
Proof.
  intros fuel. unfold bson_extract, extract_with.
  assert (X : try_with bson_ops fuel pc_default ty_point (default ty_point) (src_init StrIn back_text) = Hang); [|now rewrite X].
  unfold try_with. change (getToken bson_ops (pst_init (b_init (bson_root ty_point) (src_init StrIn back_text)))) with (Ok (TokDocStart, pst_init (bset_next (b_init BMap (src_init StrIn back_text)) TokMapStart))). cbn [bind].
  set (p0 := pst_init (bset_next (b_init BMap (src_init StrIn back_text)) TokMapStart)).
  set (at_ := fun next key type skip => mkPst (mkB (mkSrc StrIn back_text 4 true false) [BMap] [7] [11] next key type skip) TokError TokError : pst bparser).
  assert (R : d_parse (deser bson_ops fuel (pc_strict pc_default) (pc_marker pc_default) ty_point) (default ty_point) p0 = Hang); [|now rewrite R].
  cbn [deser d_parse]. unfold ty_point at 1. cbn [deser d_parse]. unfold read_map. change (getToken bson_ops p0) with (Ok (TokMapStart, at_ TokKey [] 0 false)). cbn [bind].
  match goal with |- context [obj_loop bson_ops fuel ?m fuel ?scan ?v [] _] => set (sc := scan); assert (H : forall n found next key type skip, (next, skip) = (TokKey, false) \/ (next, skip) = (TokValue, true) ->
      obj_loop bson_ops fuel m n sc (default ty_point) found (at_ next key type skip) = Hang) end.
  { induction n as [|n IH]; intros found next key type skip C; [reflexivity|]. cbn [obj_loop].
    set (p1 := mkPst (mkB (mkSrc StrIn back_text 7 true false) [BMap] [4] [11] TokValue (bs "a") 2 false) TokError TokError : pst bparser).
    assert (E1 : getToken bson_ops (at_ next key type skip) = Ok (TokKey, p1)) by (destruct C as [C|C]; injection C as -> ->; vm_compute; reflexivity). rewrite E1. cbn [bind].
    change (lift (op_key bson_ops) p1) with (Ok (bs "a", p1)). cbn [bind]. change (sc (bs "a") (default ty_point) p1) with (@None (outcome (val * pst bparser))). cbv iota.
    destruct fuel as [|f]; [reflexivity|]. assert (E2 : ignoreValue bson_ops Weak (Datatypes.S f) p1 = Ok (at_ TokValue (bs "a") 2 true)) by (vm_compute; reflexivity). cbn [pc_strict pc_default]. rewrite E2. cbn [bind]. apply IH. now right. }
  rewrite H; [reflexivity|now left].
Qed.
Print Assumptions C12_bson_string_refuted.

(** ** YAML.  An import ends after as many rounds as libyaml delivers events. *)
Theorem C12_yaml_ends : forall cfg t v calls s fuel, (List.length calls <= fuel)%nat -> yaml_extract fuel cfg t v calls s <> ImpHang.
Proof. exact yaml_extract_ends. Qed.
Print Assumptions C12_yaml_ends.
(** A vector of pointers; libyaml fails in the middle of the list. *)
Example C12_yaml_example : yaml_extract 6 pc_default (TSeq CBack (TPtr ty_point)) (VList [])
  [([], Some YStreamStart); ([9%nat], Some YDocStart); ([], Some YSeqStart); ([], Some (YScalar (bs "null"))); ([], None)] (src_init Strm (bs "[null, }")) = Failed false.
Proof. vm_compute. reflexivity. Qed.
