(** C69 to C72: float and double in JSON.

    [TDouble], [TFloat] and the numbers in values: see Model/Float.v.  [VInt b] is the value with the pattern [b].
    [flt_exported c k t v out]: exporting [v] gives [out]; [flt_export ... = FltExported l] with [None] in [l]: an unspecified character;
    [flt_imports cfg k t v text v'], [flt_rejects], [flt_undefined]: importing [text] into [v] gives [v'], fails, is undefined;
    [good_numbers k t v], [near_number k], [alike], [float_stands_for], [nearest], [in_range]: Spec/Float.v. *)
From Coq Require Import ZArith QArith Qabs Qpower String List Bool Lia ZifyBool.
From Verif Require Import Model.Base Model.Source Model.Number Model.ParserInterface Model.JsonParser Model.Printer Model.JsonPrinter
  Model.Types Model.Serializer Model.Importer Model.Exporter Model.Float
  Spec.JsonString Spec.Json Spec.Typed Spec.Import Spec.Denotes Spec.Float
  Proofs.NumberP Proofs.LexP Proofs.TreeM   Proofs.TypedP Proofs.DenotesP Proofs.JsonCheck Proofs.DocP Proofs.ExportP Proofs.FloatDocP Proofs.FloatReadP Proofs.FloatValP Proofs.FloatExportP Proofs.FloatTextP
  Properties.Imports Properties.Exports.
Import ListNotations.
Open Scope Z_scope.

(** ** C69.  Full claim: every export of a value with floats and doubles is one JSON value.  Proved: if the numbers can be
    exported ([good_numbers]), an export of a valid value is one JSON value with every number within the error of its text, or fails. *)
Theorem C69_float_grammar_partial : forall c k t v, wf t = true -> valid t v -> good_numbers k t v -> legal_keys t v -> legal_names t -> legal_string (pf_marker c) -> indent_ok c v ->
  (exists j out, flt_exported c k t v out /\ document j out) \/ flt_export c k t v = FltFailed (negb (pf_catch c)).
Proof.
  intros c k t v W [Sh Va] G K N M R. destruct (flt_export_text c k t v W Sh (good_here k t v Va G) K N M R) as [(j & out & _ & E & D)|[_ E]]; [left; eauto|right; exact E].
Qed.
Print Assumptions C69_float_grammar_partial.
Theorem C69_float_document_partial : forall c k t v, wf t = true -> valid t v -> good_numbers k t v -> plain_keys t v -> plain_names t -> plain_name (pf_marker c) -> indent_ok c v ->
  forall out, flt_exported c k t v out -> exists j w, document j out /\ alike (near_number k) t v w /\ float_stands_for (pf_marker c) t w j.
Proof.
  intros c k t v W [Sh Va] G K N M R out E.
  destruct (flt_export_text c k t v W Sh (good_here k t v Va G) (plain_keys_legal _ _ K) (plain_names_legal _ N) (plain_legal _ (proj1 M)) R) as [(j & out' & Dj & E' & D)|[_ E']];
    [|unfold flt_exported in E; congruence].
  assert (Q : map Some out' = map Some out) by (unfold flt_exported in *; congruence).
  assert (out' = out).
  { clear - Q. revert out Q. induction out' as [|x r IH]; intros [|y s] Q; try discriminate Q; [reflexivity|]. injection Q as <- Q. now rewrite (IH s Q). }
  subst out'. destruct (flt_doc_alike k (pf_marker c) t v M (conj Sh Va) G K N j Dj) as (w & A & S). exists j, w. auto.
Qed.
Print Assumptions C69_float_document_partial.
(** 0.1, -1/3 and 2 ^ 100 as double; 1.5 as float. *)
Definition d_tenth : Z := 4591870180066957722.
Definition d_third : Z := 13823048456275842389.
Definition d_2_100 : Z := 5057542381537067008.
Definition d_minus0 : Z := 9223372036854775808.
Definition d_inf : Z := 9218868437227405312.
Definition f_1_5 : Z := 1069547520.
Definition ty_nums : ty := TStruct (mkSinfo [bs "a"; bs "b"; bs "n"] [] (bs "Nums") false false false) [TVec TDouble; TFloat; TInt IInt] [].
Definition val_nums : val := VStruct [VList [VInt d_tenth; VInt d_third]; VInt f_1_5; VInt 3] [].
Ltac unfold_consts := unfold d_minus0, d_inf, d_2_100 in *.
Ltac finite_number := let k := fresh "k" in intro k; unfold good_number; cbn [flt_of]; split; [split; [discriminate|reflexivity]|]; eexists; split; [vm_compute; reflexivity|];
  destruct k; [exact Logic.I|split; [vm_compute; reflexivity|vm_compute; discriminate]].
Lemma tenth_good : forall k, good_number k IULLong d_tenth. Proof. finite_number. Qed.
Lemma third_good : forall k, good_number k IULLong d_third. Proof. finite_number. Qed.
Lemma f_1_5_good : forall k, good_number k ILLong f_1_5. Proof. finite_number. Qed.
Lemma good_one : forall k b, good_number k IULLong b <-> good_numbers k TDouble (VInt b).
Proof. intros k b. unfold good_numbers, TDouble. cbn [each]. tauto. Qed.
Lemma nums_good : forall k, good_numbers k ty_nums val_nums.
Proof.
  intro k. unfold good_numbers. cbn -[good_number].
  repeat match goal with |- _ /\ _ => split | |- Forall _ _ => constructor | |- True => exact Logic.I end;
    [exact (tenth_good k)|exact (third_good k)|exact (f_1_5_good k)|vm_compute; repeat split; discriminate].
Qed.
Example C69_example : wf ty_nums = true /\ valid ty_nums val_nums /\ (forall k, good_numbers k ty_nums val_nums) /\ plain_keys ty_nums val_nums /\ plain_names ty_nums /\
  flt_exported pf_stream ToStream ty_nums val_nums (bs "{""a"":[0.1,-0.333333],""b"":1.5,""n"":3}") /\
  flt_exported pf_stream ToString ty_nums val_nums (bs "{""a"":[0.100000,-0.333333],""b"":1.500000,""n"":3}") /\
  flt_exported pf_stream ToStream TDouble (VInt d_2_100) (bs "1.26765e+30").
Proof.
  split; [reflexivity|]. split; [split; [reflexivity|unfold val_nums, d_tenth, d_third, f_1_5; cbn -[fits bytes_in]; conds]|]. split; [exact nums_good|].
  split; [unfold plain_keys; cbn -[plain]; conds|]. split; [unfold plain_names; cbn -[plain_name bytes_in]; conds|]. split; [|split]; vm_compute; reflexivity.
Qed.
(** Without the condition it is false.  The negative zero is written to a string as -0., infinity as inf. *)
Ltac not_json := apply not_a_number; [repeat constructor; discriminate|unfold digit; cbn; lia|cbn; lia].
Theorem C69_negative_zero_refuted : exists v out, valid TDouble v /\ flt_exported pf_stream ToString TDouble v out /\ forall j, ~ document j out.
Proof.
  exists (VInt d_minus0), (bs "-0."). split; [split; [reflexivity|unfold_consts; cbn -[fits]; conds]|]. split; [vm_compute; reflexivity|not_json].
Qed.
Print Assumptions C69_negative_zero_refuted.
Theorem C69_infinity_refuted : forall k, exists v out, valid TDouble v /\ flt_exported pf_stream k TDouble v out /\ forall j, ~ document j out.
Proof.
  intro k. exists (VInt d_inf), (bs "inf"). split; [split; [reflexivity|unfold_consts; cbn -[fits]; conds]|]. split; [destruct k; vm_compute; reflexivity|not_json].
Qed.
Print Assumptions C69_infinity_refuted.
(** 2 ^ 100 needs 38 characters and a string has room for 25: they are left unspecified, and what follows is written behind the buffer. *)
Theorem C69_large_refuted : exists v, valid TDouble v /\ flt_export pf_stream ToString TDouble v = FltExported (repeat None 25) /\
  valid (TVec TDouble) (VList [v]) /\ flt_export pf_stream ToString (TVec TDouble) (VList [v]) = FltUB.
Proof.
  exists (VInt d_2_100). split; [split; [reflexivity|unfold_consts; cbn -[fits]; conds]|]. split; [vm_compute; reflexivity|]. split; [split; [reflexivity|unfold_consts; cbn -[fits]; conds]|]. vm_compute. reflexivity.
Qed.
Print Assumptions C69_large_refuted.

(** ** C70.  Full claim: floats and doubles survive a round trip.  Proved: numbers that can be exported come back with the sign they
    had and within 10 ^ -6 (strings), or within 10 ^ -5 of their size (streams); those that need no more digits come back as they were;
    everything else in the value comes back as it was. *)
Theorem C70_float_round_trip_partial : forall c k cfg src t v, pc_marker cfg = pf_marker c -> pc_conv cfg = true -> plain_keys t v -> plain_names t -> plain_name (pf_marker c) -> indent_ok c v ->
  reads_back (pc_strict cfg) (pf_marker c) t v -> good_numbers k t v ->
  (exists out w, flt_exported c k t v out /\ flt_imports cfg src t (default t) out w /\ alike (near_number k) t v w) \/ flt_export c k t v = FltFailed (negb (pf_catch c)).
Proof.
  intros c k cfg src t v Em Ec K N M R Rb G. assert (Rb' := Rb). destruct Rb' as (W & [Sh Va] & _).
  destruct (flt_export_text c k t v W Sh (good_here k t v Va G) (plain_keys_legal _ _ K) (plain_names_legal _ N) (plain_legal _ (proj1 M)) R) as [(j & out & Dj & E & D)|[_ E]]; [left|right; exact E].
  destruct (flt_doc_alike k (pf_marker c) t v M (conj Sh Va) G K N j Dj) as (w & A & S). exists out, w. split; [exact E|]. split; [|exact A].
  apply (num_accepted cfg src t w j out Ec); [|rewrite Em; exact S|exact D]. rewrite Em. exact (alike_reads_back k _ _ t v w Rb G A).
Qed.
Print Assumptions C70_float_round_trip_partial.
(** 0.1 comes back as it was, -1/3 as -0.333333. *)
Example C70_example : reads_back Exact (bs "__type") ty_nums val_nums /\ (forall k, good_numbers k ty_nums val_nums) /\
  flt_imports (mkPc Exact (bs "__type") true true true) StrIn ty_nums (default ty_nums) (bs "{""a"":[0.1,-0.333333],""b"":1.5,""n"":3}")
    (VStruct [VList [VInt d_tenth; VInt 13823048450271042886]; VInt f_1_5; VInt 3] []).
Proof.
  split.
  { split; [reflexivity|]. split; [split; [reflexivity|unfold val_nums, d_tenth, d_third, f_1_5; cbn -[fits bytes_in]; conds]|]. split; [unfold distinct_names; cbn; conds|]. split; [unfold no_null_target; cbn; conds|]. split; [reflexivity|].
    intros _. split; [unfold complete; cbn; conds; intros [(? & Q) _]; discriminate Q|unfold no_overrides; cbn; conds]. }
  split; [exact nums_good|]. fuels 60%nat; vm_compute; eexists; repeat split.
Qed.
(** Without more digits it is not exact: -1/3 comes back as -0.333333, and 10 ^ -7 from a string as 0. *)
Definition exact_reader : pconfig := mkPc Exact (bs "__type") true true true.
Theorem C70_exact_refuted : forall k, exists v out w, good_numbers k TDouble v /\ flt_exported pf_stream k TDouble v out /\
  (forall src, flt_imports exact_reader src TDouble (default TDouble) out w) /\ w <> v.
Proof.
  intro k. exists (VInt d_third), (bs "-0.333333"), (VInt 13823048450271042886). split; [exact (proj1 (good_one k d_third) (third_good k))|]. split; [destruct k; vm_compute; reflexivity|].
  split; [|discriminate]. intros []; fuels 20%nat; vm_compute; eexists; repeat split.
Qed.
Print Assumptions C70_exact_refuted.
Definition d_small : Z := 4502148214488346440.
Lemma small_good : forall k, good_number k IULLong d_small. Proof. finite_number. Qed.
Theorem C70_small_refuted : exists b x out, good_numbers ToString TDouble (VInt b) /\ float_value Dbl b = Some x /\ (0 < x)%Q /\ flt_exported pf_stream ToString TDouble (VInt b) out /\
  forall src, flt_imports exact_reader src TDouble (default TDouble) out (VInt 0).
Proof.
  exists d_small. eexists. exists (bs "0.000000"). split; [exact (proj1 (good_one _ d_small) (small_good _))|]. split; [vm_compute; reflexivity|]. split; [reflexivity|].
  split; [vm_compute; reflexivity|]. intros []; fuels 20%nat; vm_compute; eexists; repeat split.
Qed.
Print Assumptions C70_small_refuted.

(** ** C71.  Full claim: every JSON number is read as the nearest float or double.  Proved: of the numbers in the range of the type,
    from strings and streams, alone and inside documents. *)
Theorem C71_float_number_partial : forall cfg k i f old t x, flt_of i = Some f -> decimal t x -> in_range f x ->
  exists b, flt_imports cfg k (TInt i) (VInt old) t (VInt b) /\ nearest f x b /\ (negative f b = true <-> hd 0 t = 45).
Proof.
  intros cfg k i f old t x E H R. destruct (reads_nearest k f t x H R) as (b & Eb & (x' & H' & _ & N & S)). rewrite (decimal_unique t x' x H' H) in N.
  exists b. split; [|auto]. apply (flt_doc_imports cfg k (TInt i) (VInt old) (Scal (SNum t)) t).
  - rewrite <- (app_nil_r t) at 2. apply (doc_intro _ [] t []); [constructor| |constructor]. constructor. constructor. exact (decimal_number t x H).
  - unfold flt_meaning. cbn. unfold num_of. rewrite E, Eb. reflexivity.
Qed.
Print Assumptions C71_float_number_partial.
(** Every JSON number denotes a number. *)
Theorem C71_numbers_denote : forall t, number t <-> exists x, decimal t x.
Proof.
  intro t. split; [|intros (x & H); exact (decimal_number t x H)]. intro H. destruct (number_decimal t H) as (i & f & fd & e & x & Hi & Hf & He & E).
  assert (D := decimal_plain i f fd e x Hi Hf He). rewrite E. destruct (sign_of t); [|eexists; exact D]. eexists. apply decimal_minus; [exact D|].
  destruct (int_part_cons i Hi) as (d & r & -> & Hd). cbn. unfold digit in Hd. lia.
Qed.
Print Assumptions C71_numbers_denote.
Theorem C71_float_document_partial : forall cfg k t v j text, pc_conv cfg = true -> reads_back (pc_strict cfg) (pc_marker cfg) t v ->
  float_stands_for (pc_marker cfg) t v j -> document j text -> flt_imports cfg k t (default t) text v.
Proof. exact num_accepted. Qed.
Print Assumptions C71_float_document_partial.
Example C71_example : (exists x, decimal (bs "-12.5e-1") x /\ in_range Dbl x /\ in_range Flt x /\ (x == - 5 # 4)%Q) /\
  forall k, flt_imports exact_reader k TDouble (VInt 7) (bs "-12.5e-1") (VInt 13831680355561635840) /\ flt_imports exact_reader k TFloat (VInt 7) (bs "-12.5e-1") (VInt 3214934016).
Proof.
  split.
  - exists (- (inject_Z 125 * Qpower 10 (-2)))%Q. split.
    + apply (decimal_minus (bs "12.5e-1")); [|discriminate]. apply (decimal_plain [49; 50] [46; 53] [53] (bs "e-1") (-1)); [apply pint_ok with (t := [49; 50]) (q := []); reflexivity| |].
      * constructor. split; [discriminate|]. repeat constructor; discriminate.
      * apply (xo_minus 101 [49]); [auto|]. split; [discriminate|]. repeat constructor; discriminate.
    + split; [right; split; [exists 1|exists 4611686018427387904]; eexists; (split; [split; [discriminate|reflexivity]|]); (split; [vm_compute; reflexivity|]); vm_compute; repeat split; discriminate|].
      split; [right; split; [exists 1|exists 1073741824]; eexists; (split; [split; [discriminate|reflexivity]|]); (split; [vm_compute; reflexivity|]); vm_compute; repeat split; discriminate|]. reflexivity.
  - intros []; split; fuels 20%nat; vm_compute; eexists; repeat split.
Qed.
(** Numbers out of range: from a string the member is left with an indeterminate value, from a stream 10 ^ 999 is the largest double. *)
Theorem C71_too_large_refuted : document (Scal (SNum (bs "1e999"))) (bs "1e999") /\ flt_undefined exact_reader StrIn TDouble (VInt 0) (bs "1e999") /\
  flt_imports exact_reader Strm TDouble (VInt 0) (bs "1e999") (VInt (d_inf - 1)).
Proof. split; [doc|]. split; fuels 20%nat; vm_compute; [reflexivity|eexists; repeat split]. Qed.
Print Assumptions C71_too_large_refuted.
Theorem C71_too_small_refuted : document (Scal (SNum (bs "1e-999"))) (bs "1e-999") /\ flt_undefined exact_reader StrIn TDouble (VInt 0) (bs "1e-999") /\
  flt_imports exact_reader Strm TDouble (VInt 0) (bs "1e-999") (VInt 0).
Proof.
  split; [apply (doc_intro _ [] (bs "1e-999") []); [constructor| |constructor]; constructor; constructor; apply (number_intro [] [49] [] (bs "e-999")); [constructor|apply (pint_ok [49] _ []); reflexivity|constructor|apply (xp_sign 101 45 (bs "999")); auto; split; [discriminate|repeat constructor; discriminate]]|].
  split; fuels 20%nat; vm_compute; [reflexivity|eexists; repeat split].
Qed.
Print Assumptions C71_too_small_refuted.

(** ** C72.  Full claim: what is not a JSON number is not read as a float or double.  Proved: of JSON values of another kind. *)
Theorem C72_other_kind_partial : forall cfg k i f old j text, flt_of i = Some f -> document j text -> (forall t, j <> Scal (SNum t)) ->
  flt_rejects cfg k (TInt i) (VInt old) text.
Proof.
  intros cfg k i f old j text E D H. apply (flt_doc_rejects cfg k (TInt i) (VInt old) j text D). unfold flt_meaning. cbn [interp i_parse].
  destruct j as [a|l|l]; [|reflexivity|reflexivity]. destruct a; try reflexivity. now contradiction (H txt).
Qed.
Print Assumptions C72_other_kind_partial.
Example C72_example : document (Scal (SStr (bs "1.5"))) (bs """1.5""") /\ forall k, flt_rejects pc_default k TDouble (VInt 7) (bs """1.5""").
Proof. split; [doc|]. intro k. apply (C72_other_kind_partial pc_default k IULLong Dbl 7 (Scal (SStr (bs "1.5")))); [reflexivity|doc|discriminate]. Qed.
(** The parser takes whatever the number reader of the library takes: 1. and 1e from both sources, Infinity from a string, - from a stream. *)
Theorem C72_malformed_refuted : forall k, exists text v, flt_imports exact_reader k TDouble (VInt 7) text v /\ forall j, ~ document j text.
Proof. intro k. exists (bs "1."), (VInt 4607182418800017408). split; [destruct k; fuels 20%nat; vm_compute; eexists; repeat split|not_json]. Qed.
Print Assumptions C72_malformed_refuted.
(** From a stream the value of 1e is 0. *)
Theorem C72_exponent_refuted : exists text, flt_imports exact_reader Strm TDouble (VInt 7) text (VInt 0) /\ (exists w, text = 49 :: w) /\ forall j, ~ document j text.
Proof. exists (bs "1e"). split; [fuels 20%nat; vm_compute; eexists; repeat split|]. split; [now exists [101]|not_json]. Qed.
Print Assumptions C72_exponent_refuted.
Theorem C72_infinity_refuted : exists text, flt_imports exact_reader StrIn TDouble (VInt 7) text (VInt d_inf) /\ flt_rejects exact_reader Strm TDouble (VInt 7) text /\ forall j, ~ document j text.
Proof. exists (bs "Infinity"). split; [fuels 20%nat; vm_compute; eexists; repeat split|]. split; [fuels 20%nat; vm_compute; reflexivity|not_json]. Qed.
Print Assumptions C72_infinity_refuted.
Theorem C72_lone_sign_refuted : exists text, flt_imports exact_reader Strm TDouble (VInt 7) text (VInt 0) /\ flt_rejects exact_reader StrIn TDouble (VInt 7) text /\ forall j, ~ document j text.
Proof. exists (bs "-"). split; [fuels 20%nat; vm_compute; eexists; repeat split|]. split; [fuels 20%nat; vm_compute; reflexivity|not_json]. Qed.
Print Assumptions C72_lone_sign_refuted.
