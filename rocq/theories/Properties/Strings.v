(** C03-C06, C10, C53: decoding of JSON strings, push back of tokens. *)
From Coq Require Import ZArith String List Bool Lia ZifyBool.
From Verif Require Import Model.Base Model.Source Model.Unicode Model.Number Model.JsonLexer Model.ParserInterface
  Model.JsonParser Model.Types Model.Deserializer Model.Importer
  Spec.JsonString Spec.Json Proofs.Tac Proofs.UnicodeP Proofs.LexP Proofs.ImportP Proofs.StringDocP Proofs.CopyP Proofs.PushBackP.
Import ListNotations.
Open Scope Z_scope.

(** ** C03.  A \uXXXX escape of a code point that is not a surrogate, between any other legal contents (whose
    surrogate pairs, if any, are of an odd plane, see C04), becomes its UTF-8 encoding.  For every configuration that
    converts escapes, from a string and from a stream, whatever the variable held and whatever follows. *)
Theorem C03_unicode_escape_decodes : forall cfg k old w pre vpre h n post vpost rest,
  pc_conv cfg = true -> pc_noTrailing cfg = false -> ws w ->
  json_string_when odd_plane pre vpre -> json_string_when odd_plane post vpost ->
  hex4 h n -> ~ high_surrogate n -> ~ low_surrogate n ->
  imports cfg k TStr old (w ++ 34 :: (pre ++ [92; 117] ++ h ++ post) ++ 34 :: rest) (VStr (vpre ++ utf8 n ++ vpost)) rest.
Proof.
  intros cfg k old w pre vpre h n post vpost rest Hcv Hn Hw Hpre Hpost Hh N1 N2.
  assert (J : json_string_when odd_plane (pre ++ [92; 117] ++ h ++ post) (vpre ++ utf8 n ++ vpost)).
  { apply json_string_when_app; [exact Hpre|]. cbn [app]. now apply js_unicode. }
  apply string_imports with (raw := pre ++ [92; 117] ++ h ++ post); auto.
  - eapply legal_closed. exact J.
  - rewrite Hcv. now apply dec_complete.
Qed.
Print Assumptions C03_unicode_escape_decodes.

(** "a" then U+20AC written \u20aC then newline escape, spaces around. *)
Example C03_example : imports pc_default Strm TStr (VStr (bs "old")) (bs "  ""a\u20aC\n"" ,")
  (VStr [97; 226; 130; 172; 10]) (bs " ,").
Proof.
  exact (C03_unicode_escape_decodes pc_default Strm (VStr (bs "old")) [32; 32] [97] [97] (bs "20aC") 0x20AC
    [92; 110] [10] (bs " ,") eq_refl eq_refl
    ltac:(repeat (apply Forall_cons; [now left|]); apply Forall_nil)
    ltac:(apply js_char; [lia|lia|lia|apply js_nil])
    ltac:(apply js_short; [constructor|apply js_nil])
    ltac:(apply (hex4_intro 50 48 97 67 2 0 10 12); [apply (hd_dec 2)|apply (hd_dec 0)|apply (hd_lower 10)|apply (hd_upper 12)]; lia)
    ltac:(unfold high_surrogate; lia) ltac:(unfold low_surrogate; lia)).
Qed.

(** ** C04.  Surrogate pairs.  Full claim: every pair becomes the UTF-8 encoding of its code point.
    Proved: for the code points of odd planes.  Missing: even planes, where the claim is false (next theorem). *)
Theorem C04_surrogate_pair_decodes_partial : forall cfg k old w pre vpre h1 n1 h2 n2 post vpost rest,
  pc_conv cfg = true -> pc_noTrailing cfg = false -> ws w ->
  json_string_when odd_plane pre vpre -> json_string_when odd_plane post vpost ->
  hex4 h1 n1 -> high_surrogate n1 -> hex4 h2 n2 -> low_surrogate n2 -> odd_plane (pair_code n1 n2) ->
  imports cfg k TStr old (w ++ 34 :: (pre ++ [92; 117] ++ h1 ++ [92; 117] ++ h2 ++ post) ++ 34 :: rest)
    (VStr (vpre ++ utf8 (pair_code n1 n2) ++ vpost)) rest.
Proof.
  intros cfg k old w pre vpre h1 n1 h2 n2 post vpost rest Hcv Hn Hw Hpre Hpost Hh1 N1 Hh2 N2 Ho.
  assert (J : json_string_when odd_plane (pre ++ [92; 117] ++ h1 ++ [92; 117] ++ h2 ++ post)
               (vpre ++ utf8 (pair_code n1 n2) ++ vpost)).
  { apply json_string_when_app; [exact Hpre|]. cbn [app]. now apply js_pair. }
  apply string_imports with (raw := pre ++ [92; 117] ++ h1 ++ [92; 117] ++ h2 ++ post); auto.
  - eapply legal_closed. exact J.
  - rewrite Hcv. now apply dec_complete.
Qed.
Print Assumptions C04_surrogate_pair_decodes_partial.

(** U+1F600 in "x\uD83D\ude00". *)
Example C04_example : imports pc_default StrIn TStr (VStr []) (bs """x\uD83D\ude00""") (VStr [120; 240; 159; 152; 128]) [].
Proof.
  exact (C04_surrogate_pair_decodes_partial pc_default StrIn (VStr []) [] [120] [120] (bs "D83D") 0xD83D (bs "de00") 0xDE00
    [] [] [] eq_refl eq_refl
    ltac:(constructor)
    ltac:(apply js_char; [lia|lia|lia|apply js_nil])
    ltac:(apply js_nil)
    ltac:(apply (hex4_intro 68 56 51 68 13 8 3 13); [apply (hd_upper 13)|apply (hd_dec 8)|apply (hd_dec 3)|apply (hd_upper 13)]; lia)
    ltac:(unfold high_surrogate; lia)
    ltac:(apply (hex4_intro 100 101 48 48 13 14 0 0); [apply (hd_lower 13)|apply (hd_lower 14)|apply (hd_dec 0)|apply (hd_dec 0)]; lia)
    ltac:(unfold low_surrogate; lia) ltac:(reflexivity)).
Qed.

(** U+20000 (plane 2), written \uD840\uDC00, becomes the bytes of U+10000. *)
Theorem C04_surrogate_pair_decodes_refuted : exists text raw v,
  json_string raw v /\ text = 34 :: raw ++ [34] /\ v = utf8 0x20000 /\
  (forall k, imports pc_default k TStr (VStr []) text (VStr (utf8 0x10000)) []) /\
  (forall k, ~ imports pc_default k TStr (VStr []) text (VStr v) []).
Proof.
  exists (bs """\uD840\uDC00"""), (bs "\uD840\uDC00"), (utf8 0x20000).
  assert (I1 : forall k, imports pc_default k TStr (VStr []) (bs """\uD840\uDC00""") (VStr (utf8 0x10000)) []).
  { intro k. apply (string_imports pc_default k [] (bs "\uD840\uDC00") [] (bs "\uD840\uDC00""") (VStr [])); try reflexivity.
    - tclosed.
    - constructor. }
  split; [|split; [reflexivity|split; [reflexivity|split; [exact I1|]]]].
  - apply (js_pair _ (bs "D840") 0xD840 (bs "DC00") 0xDC00 [] []).
    + apply (hex4_intro 68 56 52 48 13 8 4 0); [apply (hd_upper 13)|apply (hd_dec 8)|apply (hd_dec 4)|apply (hd_dec 0)]; lia.
    + unfold high_surrogate; lia.
    + apply (hex4_intro 68 67 48 48 13 12 0 0); [apply (hd_upper 13)|apply (hd_upper 12)|apply (hd_dec 0)|apply (hd_dec 0)]; lia.
    + unfold low_surrogate; lia.
    + exact I.
    + apply js_nil.
  - intros k I2. destruct (imports_unique _ _ _ _ _ _ _ _ _ (I1 k) I2) as [E _]. discriminate E.
Qed.
Print Assumptions C04_surrogate_pair_decodes_refuted.

(** ** C05.  Full claim: contents that are not legal are rejected.
    Proved: a string value whose contents are not legal is rejected unless the only offence is an escaped low surrogate
    that stands alone; such contents are accepted.  Accepted legal contents (odd planes) have their RFC meaning. *)
Lemma closed_no_bare : forall raw rest text, closed_by raw rest text -> no_bare_quote raw.
Proof. intros raw rest text H. induction H; [apply nq_nil|now apply nq_char|now apply nq_esc]. Qed.

Theorem C05_string_contents_partial : forall cfg k old w raw rest text,
  pc_conv cfg = true -> pc_noTrailing cfg = false -> ws w -> bytes_ok raw -> closed_by raw rest text ->
  (~ json_string_lone_low raw -> rejects cfg k TStr old (w ++ 34 :: text)) /\
  (json_string_lone_low raw -> exists v, imports cfg k TStr old (w ++ 34 :: text) (VStr v) rest /\
     forall v', json_string_when odd_plane raw v' -> v = v').
Proof.
  intros cfg k old w raw rest text Hcv Hn Hw Hb Hc. split; intro H.
  - eapply string_rejects; eauto. rewrite Hcv.
    destruct (dec_cases (List.length raw) raw (le_n _)) as [[v E]|E]; [|exact E]. exfalso. apply H.
    eapply dec_sound with (n := List.length raw); eauto. eapply closed_no_bare; eauto.
  - destruct (dec_accepts raw H) as [v E]. exists v. split.
    + eapply string_imports; eauto. now rewrite Hcv.
    + intros v' J. apply dec_complete in J. rewrite E in J. now apply Ok_inj.
Qed.
Print Assumptions C05_string_contents_partial.

(** The hypotheses are met and both sides occur: \x is rejected, a legal text is accepted. *)
Example C05_example :
  rejects pc_default StrIn TStr (VStr []) (bs """ab\x""") /\
  (exists v, imports pc_default StrIn TStr (VStr []) (bs """ab\n""") (VStr v) []).
Proof.
  split.
  - apply (C05_string_contents_partial pc_default StrIn (VStr []) [] (bs "ab\x") [] (bs "ab\x""")); try reflexivity.
    + constructor.
    + tbytes.
    + tclosed.
    + intro H. inversion H as [|c r H1 H2 H3 H4| | |]; subst. inversion H4 as [|c r A1 A2 A3 A4| | |]; subst.
      inversion A4 as [|c r B1 B2 B3 B4|e x r B1 B2| |]; subst; [now apply B3|inversion B1].
  - destruct (C05_string_contents_partial pc_default StrIn (VStr []) [] (bs "ab\n") [] (bs "ab\n""")) as [_ H]; try reflexivity.
    + constructor.
    + tbytes.
    + tclosed.
    + destruct H as (v & Hv & _); [|eauto]. lits. apply jl_char; [lia|lia|lia|]. apply jl_char; [lia|lia|lia|].
      eapply jl_short; [constructor|apply jl_nil].
Qed.

(** In every parser state in which the source stands before a string value, getValue(std::string&) throws for such
    contents, so the claim holds at every position of a document. *)
Theorem C05_every_position_partial : forall k p raw rest text,
  bytes_ok raw -> closed_by raw rest text -> at_src k (l_src (jp_lex p)) (34 :: text) ->
  ~ json_string_lone_low raw ->
  forall fuel, (List.length raw <= fuel)%nat -> op_str (json_ops fuel true) p = Throw.
Proof.
  intros k p raw rest text Hb Hc Ha Hl fuel Hf.
  destruct (op_str_closed k fuel true p raw rest text Hc Ha Hf) as (s' & _ & ->).
  destruct (dec_cases (List.length raw) raw (le_n _)) as [[v E]|E]; [|now rewrite E]. exfalso. apply Hl.
  eapply dec_sound with (n := List.length raw); eauto. eapply closed_no_bare; eauto.
Qed.
Print Assumptions C05_every_position_partial.

(** A low surrogate that stands alone is accepted; the result is not UTF-8. *)
Theorem C05_string_contents_refuted : exists raw, bytes_ok raw /\ (forall v, ~ json_string raw v) /\
  forall k, imports pc_default k TStr (VStr []) (34 :: raw ++ [34]) (VStr [237; 176; 128]) [].
Proof.
  exists (bs "\uDC00"). split; [|split].
  - tbytes.
  - intro v. lits. intro H. inversion H as [|c r v' A1 A2 A3|e x r v' A1|h n r v' A1 A2 A3 A4 Q|h1 n1 h2 n2 r v' A1 A2 A3 A4 A5 A6 Q]; subst.
    + now apply A3.
    + inversion A1.
    + apply hex4_inv in A1 as (a & b & c & d & -> & E). cbn [app] in Q. injection Q as -> -> -> -> ->.
      vm_compute in E. injection E as <-. apply A3. unfold low_surrogate. lia.
    + apply hex4_inv in A1 as (a & b & c & d & -> & E). discriminate Q.
  - intro k. apply (string_imports pc_default k [] (bs "\uDC00") [] (bs "\uDC00""") (VStr [])); try reflexivity.
    + tclosed.
    + constructor.
Qed.
Print Assumptions C05_string_contents_refuted.

(** ** C06.  In every state (buffer, write position, iterator) the copy goes through: the buffer keeps its size, the
    write position is strictly behind the read position, which is at most one past the terminator, and the next step
    reads and writes inside the buffer (it is never undefined, it throws, ends or goes on). *)
Theorem C06_inplace_copy_safe : forall raw buf wr w, copy_state raw (buf, wr, w) ->
  List.length buf = List.length raw /\ (wr < w_iter w)%nat /\ (w_iter w <= S (List.length raw))%nat /\
  (copy_step (buf, wr, w) = Ok None \/ copy_step (buf, wr, w) = Throw \/
   exists st', copy_step (buf, wr, w) = Ok (Some st')).
Proof.
  intros raw buf wr w H. assert (I := copy_state_safe raw _ H). assert (S := copy_step_inv raw _ I).
  unfold copy_inv in I. destruct I as (I1 & I2 & I3 & _). repeat split; try lia.
  destruct S as [S|[S|(st' & S & _)]]; eauto.
Qed.
Print Assumptions C06_inplace_copy_safe.

Example C06_example : exists st, copy_state (bs "a\u0041b") st /\ snd (fst st) = 2%nat /\ w_iter (snd st) = 8%nat.
Proof.
  eexists. split.
  - eapply cs_step; [eapply cs_step; [eapply cs_start; reflexivity|reflexivity]|reflexivity].
  - split; reflexivity.
Qed.

(** The whole conversion is defined, ends, and the result is not longer than the raw text. *)
Lemma dec_length : forall n raw v, (List.length raw <= n)%nat -> dec raw = Ok v -> (List.length v <= List.length raw)%nat.
Proof.
  induction n as [|n IH]; intros raw v Hl H.
  { destruct raw; [|cbn in Hl; lia]. apply Ok_inj in H. now subst. }
  destruct raw as [|c r]; [apply Ok_inj in H; now subst|]. cbn [List.length] in Hl.
  destruct (c =? 92) eqn:E.
  - assert (c = 92) by lia. subst c. destruct r as [|e r]; [discriminate H|].
    destruct (simple_escape e) as [x|] eqn:Es.
    + apply simple_escape_short in Es. rewrite (dec_short _ _ _ Es) in H.
      destruct (dec r) as [v'| | |] eqn:Er; cbn [bind] in H; try discriminate H. apply Ok_inj in H. subst v.
      apply IH in Er; cbn [List.length] in *; lia.
    + destruct (Z.eqb_spec e 117) as [->|Ne].
      * rewrite dec_u_eq in H. destruct (dec_u r) as [[cs k]| | |] eqn:Eu; cbn [bind] in H; try discriminate H.
        destruct (dec_u_ok _ _ _ Eu) as (L1 & L2 & _).
        destruct (dec (skipn k r)) as [v'| | |] eqn:Er; cbn [bind] in H; try discriminate H. apply Ok_inj in H. subst v.
        assert (L3 := skipn_length k r). unfold bytes in *. cbn [List.length] in *.
        apply IH in Er; [|lia]. rewrite app_length. lia.
      * exfalso. cbn [dec] in H. change (92 <? 32) with false in H. change (92 =? 92) with true in H. cbn [negb] in H.
        rewrite Es in H. rewrite (proj2 (Z.eqb_neq _ _) Ne) in H. discriminate H.
  - cbn [dec] in H. destruct (c <? 32) eqn:E32; [discriminate|]. rewrite E in H. cbn [negb] in H.
    destruct (dec r) as [v'| | |] eqn:Er; cbn [bind] in H; try discriminate H. apply Ok_inj in H. subst v.
    apply IH in Er; cbn [List.length]; lia.
Qed.
Theorem C06_inplace_result : forall raw,
  unescape_inplace raw = Throw \/
  exists v, unescape_inplace raw = Ok v /\ (List.length v <= List.length raw)%nat.
Proof.
  intro raw. rewrite unescape_inplace_dec. destruct (dec_cases (List.length raw) raw (le_n _)) as [[v E]|E]; [right|now left].
  exists v. split; [exact E|]. eapply dec_length; eauto.
Qed.
Print Assumptions C06_inplace_result.
Example C06_result_example : unescape_inplace (bs "a\u0041\n") = Ok [97; 65; 10] /\ unescape_inplace (bs "a\u00") = Throw.
Proof. split; reflexivity. Qed.

(** ** C10.  For every parser (JSON, BSON, YAML: any [ops]) and every state with at most one outstanding token: the
    token handed back comes next and the state is then as before; two of them come back most recent first. *)
Theorem C10_pushback_lifo : forall St (ops : parser_ops St) (p : pst St) (a : token),
  ps_pb2 p = TokError -> a <> TokError ->
  getToken ops (pushBackToken a p) = Ok (a, p) /\
  (forall b, ps_pb1 p = TokError -> b <> TokError ->
     getToken ops (pushBackToken b (pushBackToken a p)) = Ok (b, pushBackToken a p)).
Proof.
  intros St ops [i p1 p2] a H2 Ha. cbn [ps_pb2] in H2. subst p2. split.
  - destruct p1, a; try (exfalso; now apply Ha); reflexivity.
  - intros b H1 Hb. cbn [ps_pb1] in H1. subst p1. destruct a, b; try (exfalso; now apply Ha); try (exfalso; now apply Hb); reflexivity.
Qed.
Print Assumptions C10_pushback_lifo.
Example C10_example : forall s,
  let p := pst_init s in
  let q := pushBackToken TokMapStart (pushBackToken TokKey p) in
  getToken (json_ops 5 true) q = Ok (TokMapStart, pushBackToken TokKey p) /\
  getToken (json_ops 5 true) (pushBackToken TokKey p) = Ok (TokKey, p).
Proof. intro s. split; reflexivity. Qed.

(** ** C53.  UnicodePushBackIterator.  Full claim: the characters of a JSON string, assigned one by one, append what the
    string denotes, and assigning anything else throws.  Proved: the former, for code points of odd planes, whatever was
    appended before and whatever the (uninitialised) unicodeValue is; the iterator is then ready for the next string. *)
Theorem C53_push_back_partial : forall raw v old unicodeValue, json_string_when odd_plane raw v ->
  exists p, pbi_run (mkPbi old false 0 unicodeValue) raw = Ok p /\ p_out p = old ++ v /\ p_slash p = false /\ p_count p = 0.
Proof. intros raw v old u J. destruct (pbi_decodes raw v J (mkPbi old false 0 u) (conj eq_refl eq_refl)) as (p & E & [I1 I2] & O). exists p. auto. Qed.
Print Assumptions C53_push_back_partial.
(** "u" U+20AC, U+1F600, newline. *)
Example C53_example : json_string_when odd_plane (bs "u\u20aC\uD83D\ude00\n") [117; 226; 130; 172; 240; 159; 152; 128; 10] /\
  exists p, pbi_run (mkPbi [1] false 0 7) (bs "u\u20aC\uD83D\ude00\n") = Ok p /\ p_out p = [1; 117; 226; 130; 172; 240; 159; 152; 128; 10].
Proof.
  split; [|eexists; split; [vm_compute; reflexivity|reflexivity]]. lits. apply js_char; [lia|lia|lia|].
  apply (js_unicode _ (bs "20aC") 0x20AC); [apply (hex4_intro 50 48 97 67 2 0 10 12); [apply (hd_dec 2)|apply (hd_dec 0)|apply (hd_lower 10)|apply (hd_upper 12)]; lia
    |unfold high_surrogate; lia|unfold low_surrogate; lia|].
  apply (js_pair _ (bs "D83D") 0xD83D (bs "de00") 0xDE00);
    [apply (hex4_intro 68 56 51 68 13 8 3 13); [apply (hd_upper 13)|apply (hd_dec 8)|apply (hd_dec 3)|apply (hd_upper 13)]; lia|unfold high_surrogate; lia
    |apply (hex4_intro 100 101 48 48 13 14 0 0); [apply (hd_lower 13)|apply (hd_lower 14)|apply (hd_dec 0)|apply (hd_dec 0)]; lia|unfold low_surrogate; lia|reflexivity|].
  apply js_short; [constructor|apply js_nil].
Qed.
(** The escapes of U+20000 append U+10000, and an escape that does not exist is swallowed with its character. *)
Theorem C53_push_back_refuted :
  (exists raw p, json_string raw (utf8 0x20000) /\ pbi_run pbi_init raw = Ok p /\ p_out p = utf8 0x10000) /\
  (exists raw p, (forall v, ~ json_string raw v) /\ pbi_run pbi_init raw = Ok p /\ p_out p = [97; 98]).
Proof.
  split.
  - exists (bs "\uD840\uDC00"). eexists. split; [|split; [vm_compute; reflexivity|reflexivity]].
    apply (js_pair _ (bs "D840") 0xD840 (bs "DC00") 0xDC00 [] []);
      [apply (hex4_intro 68 56 52 48 13 8 4 0); [apply (hd_upper 13)|apply (hd_dec 8)|apply (hd_dec 4)|apply (hd_dec 0)]; lia|unfold high_surrogate; lia
      |apply (hex4_intro 68 67 48 48 13 12 0 0); [apply (hd_upper 13)|apply (hd_upper 12)|apply (hd_dec 0)|apply (hd_dec 0)]; lia|unfold low_surrogate; lia|exact I|apply js_nil].
  - exists (bs "a\xb"). eexists. split; [|split; [vm_compute; reflexivity|reflexivity]].
    intro v. lits. intro H. inversion H as [|c r v' A1 A2 A3 A4| | |]; subst. inversion A4 as [|c r w B1 B2 B3 B4|e x r w B1 B2| |]; subst; [now apply B3|inversion B1].
Qed.
Print Assumptions C53_push_back_refuted.
