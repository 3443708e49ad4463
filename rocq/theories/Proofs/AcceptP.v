(** Whatever is accepted consists of the lexemes of a complete JSON document. *)
From Coq Require Import ZArith String List Bool Lia ZifyBool.
From Verif Require Import Model.Base Model.Source Model.Unicode Model.Number Model.JsonLexer Model.ParserInterface Model.JsonParser Model.Types
  Model.Deserializer Model.Importer
  Spec.JsonString Spec.Json Spec.Lexemes Spec.Import Spec.Accepted Proofs.UnicodeP Proofs.LexP Proofs.NumberP Proofs.CtlP Proofs.JsonSim Proofs.Induct Proofs.RootP.
Import ListNotations.
Open Scope Z_scope.

(** ** Sources at their end *)
Definition exhausted (k : skind) (s : src) : Prop := s_kind s = k /\ (s_rest s = [] \/ (k = Strm /\ strm_good s = false)).

Lemma at_nil : forall k s, at_src k s [] -> exhausted k s.
Proof. intros k s A. split; [exact (at_kind _ _ _ A)|left; exact (rest_at _ _ _ A)]. Qed.
Lemma skipn_all_le : forall {A} (l : list A) n, (List.length l <= n)%nat -> skipn n l = [].
Proof. intros A l n H. now apply skipn_all2. Qed.
Lemma over_peek : forall k s, exhausted k s -> exists s', src_peekNextNonSpace s = Ok (EOFc, s') /\ exhausted k s'.
Proof.
  intros k s [K [R|[-> G]]].
  - unfold src_peekNextNonSpace, src_readChar. rewrite K, R. cbn [skip_space]. destruct k.
    + cbn [src_unget s_kind s_pos is_punct orb Z.eqb]. change (is_punct EOFc) with false. cbn [bind].
      eexists. split; [reflexivity|]. split; [reflexivity|]. left. unfold s_rest. cbn [s_pos s_data]. apply skipn_all_le. unfold s_size. lia.
    + destruct (strm_good s) eqn:G; eexists; (split; [reflexivity|]); (split; [first [reflexivity|exact K]|]); right; (split; [reflexivity|]); reflexivity.
  - unfold src_peekNextNonSpace, src_readChar. rewrite K, G. eexists. split; [reflexivity|]. split; [exact K|]. right. split; reflexivity.
Qed.
Lemma over_yylex : forall k l, exhausted k (l_src l) ->
  exists s', yylex l = Ok (13%nat, mkLex s' (l_buf l) LNumber (l_bool l) false) /\ exhausted k s'.
Proof. intros k l H. destruct (over_peek _ _ H) as (s' & E & X). exists s'. unfold yylex. rewrite E. split; [reflexivity|exact X]. Qed.
Lemma over_get : forall k s, exhausted k s -> fst (src_get s) = EOFc /\ exhausted k (snd (src_get s)).
Proof.
  intros k s [K [R|[-> G]]]; unfold src_get; rewrite K.
  - rewrite R. destruct k.
    + destruct (s_good s); (split; [reflexivity|]); (split; [exact K|now left]).
    + destruct (strm_good s); (split; [reflexivity|]); (split; [exact K|]); right; (split; reflexivity).
  - rewrite G. split; [reflexivity|]. split; [exact K|]. right. split; reflexivity.
Qed.
Lemma over_peek1 : forall k s, exhausted k s -> fst (src_peek s) = EOFc /\ exhausted k (snd (src_peek s)).
Proof.
  intros k s [K [R|[-> G]]]; unfold src_peek; rewrite K.
  - rewrite R. destruct k.
    + split; [reflexivity|]. split; [exact K|now left].
    + destruct (strm_good s); (split; [reflexivity|]); (split; [exact K|]); left; exact R.
  - rewrite G. split; [reflexivity|]. split; [exact K|]. right. split; reflexivity.
Qed.

(** ** One lexeme of any text *)
Lemma split_blank : forall t : bytes, blank t \/ exists w c r, t = w ++ c :: r /\ blank w /\ is_space c = false.
Proof.
  induction t as [|c t IH]; [left; constructor|]. destruct (is_space c) eqn:Q.
  - assert (B : c = 32 \/ 9 <= c <= 13) by (unfold is_space in Q; lia).
    destruct IH as [F|(w & x & r & -> & F & G)]; [left; now constructor|]. right. exists (c :: w), x, r. split; [reflexivity|]. split; [now constructor|exact G].
  - right. exists [], c, t. split; [reflexivity|]. split; [constructor|exact Q].
Qed.
Lemma blank_space : forall w, blank w -> Forall (fun x => is_space x = true) w.
Proof. intros w H. eapply Forall_impl; [|exact H]. intros c Hc. cbn beta in Hc. unfold is_space. lia. Qed.
Lemma skip_space_all : forall w, blank w -> snd (skip_space w) = [].
Proof.
  intros w H. apply blank_space in H. induction H as [|x w Hx H IH]; [reflexivity|]. cbn [skip_space]. rewrite Hx.
  destruct (skip_space w) as [n r]. exact IH.
Qed.
Lemma blank_peek : forall k s w, at_src k s w -> blank w -> exists s', src_peekNextNonSpace s = Ok (EOFc, s') /\ exhausted k s'.
Proof.
  intros k s w A B. destruct w as [|x w]; [now apply over_peek, at_nil|]. assert (E := rest_at _ _ _ A). assert (K := at_kind _ _ _ A).
  apply at_cons_inv in A as (pre & ->). unfold src_peekNextNonSpace, src_readChar. cbn [s_kind]. rewrite E. unfold strm_good. cbn [s_good s_eof negb andb].
  assert (N := skip_space_all _ B). destruct (skip_space (x :: w)) as [n r]. cbn [snd] in N. subst r.
  destruct k; cbn [src_unget s_kind s_pos s_data bind].
  - change (is_punct EOFc) with false. cbn [src_unget s_kind s_pos s_data bind]. eexists. split; [reflexivity|]. split; [reflexivity|]. left.
    unfold s_rest. cbn [s_pos s_data]. apply skipn_all_le. apply Nat.le_refl.
  - eexists. split; [reflexivity|]. split; [reflexivity|]. right. split; reflexivity.
Qed.
Lemma schar_eqb : forall c x, byte_ok c -> 0 <= x < 128 -> (schar c =? x) = (c =? x).
Proof. intros c x H Hx. exact (gchar_small StrIn c x H Hx). Qed.
Lemma schar_punct : forall c, byte_ok c -> is_punct (schar c) = is_punct c.
Proof. intros c H. unfold is_punct. rewrite !schar_eqb by (exact H || lia). reflexivity. Qed.
Lemma peek_some : forall k s w c t, at_src k s (w ++ c :: t) -> blank w -> is_space c = false -> byte_ok c ->
  exists s', src_peekNextNonSpace s = Ok (schar c, s') /\ (if is_punct c then at_src k s' t else at_src k s' (c :: t)).
Proof.
  intros k s w c t H Hw Hc Hb. unfold src_peekNextNonSpace.
  destruct (readChar_at k s w c t H (blank_space w Hw) Hc) as (s1 & -> & Hp). rewrite (schar_punct c Hb).
  destruct (is_punct c).
  - exists s1. split; [reflexivity|]. eapply past_at; eassumption.
  - destruct (unget_past k s1 c t Hp) as (s2 & -> & H2). exists s2. split; [reflexivity|exact H2].
Qed.
Lemma yylex_some : forall k l w c t, at_src k (l_src l) (w ++ c :: t) -> blank w -> is_space c = false -> byte_ok c ->
  exists s', yylex l = Ok (lexix c, mkLex s' (l_buf l) (match lextok c with LPunct x => LPunct (schar c) | y => y end) (lexbool c (l_bool l)) (c =? 110)) /\
             (if is_punct c then at_src k s' t else at_src k s' (c :: t)).
Proof.
  intros k l w c t H Hw Hc Hb. unfold yylex.
  destruct (peek_some k (l_src l) w c t H Hw Hc Hb) as (s' & -> & H'). cbn [bind].
  exists s'. split; [|exact H']. unfold lexix, lextok, lexbool, is_punct. rewrite !schar_eqb by (exact Hb || lia).
  repeat match goal with |- context [if c =? ?x then _ else _] =>
    let E := fresh "E" in destruct (c =? x) eqn:E;
      [assert (c = x) by lia; subst c; reflexivity|] end.
  cbn [orb]. reflexivity.
Qed.
Lemma yylex_any : forall k l rest, at_src k (l_src l) rest -> bytes_ok rest ->
  (exists w c r l', rest = w ++ c :: r /\ blank w /\ is_space c = false /\ yylex l = Ok (lexix c, l') /\
     (is_punct c = false -> l_tok l' = lextok c) /\ l_null l' = (c =? 110) /\ (if is_punct c then at_src k (l_src l') r else at_src k (l_src l') (c :: r))) \/
  (blank rest /\ exists l', yylex l = Ok (13%nat, l') /\ exhausted k (l_src l') /\ l_tok l' = LNumber /\ l_null l' = false).
Proof.
  intros k l rest A B. destruct (split_blank rest) as [W|(w & c & r & -> & W & S)].
  - right. split; [exact W|]. destruct (blank_peek _ _ _ A W) as (s' & E & X). unfold yylex. rewrite E. eexists. split; [reflexivity|]. auto.
  - left. assert (Bc : byte_ok c) by (apply Forall_app in B as [_ B]; now inversion B).
    destruct (yylex_some k l w c r A W S Bc) as (s' & E & X). exists w, c, r. eexists. split; [reflexivity|]. split; [exact W|]. split; [exact S|].
    split; [exact E|]. cbn [l_src l_tok l_null]. split; [|auto]. intro P. unfold lextok. rewrite P.
    repeat match goal with |- context [if c =? ?x then _ else _] => destruct (c =? x); [reflexivity|] end. reflexivity.
Qed.

(** ** Reading integers *)
Lemma span_digits_split : forall s ds r, span_digits s = (ds, r) -> s = ds ++ r /\ Forall digit ds.
Proof.
  induction s as [|c s IH]; intros ds r H; cbn [span_digits] in H; [injection H as <- <-; split; [reflexivity|constructor]|].
  destruct (is_digit c) eqn:D; [|injection H as <- <-; split; [reflexivity|constructor]].
  destruct (span_digits s) as [a b] eqn:E. injection H as <- <-. destruct (IH _ _ eq_refl) as [-> F]. split; [reflexivity|]. constructor; [|exact F].
  unfold is_digit, digit in *. lia.
Qed.
Lemma from_chars_text : forall i s v n, from_chars i s = FcOk v n -> exists x r, s = x ++ r /\ List.length x = n /\ int_text StrIn x.
Proof.
  intros i s v n H. unfold from_chars in H.
  assert (K : forall neg n0 s1, (let '(ds, _) := span_digits s1 in
      match ds with [] => FcInvalid | _ => let v := if neg : bool then - dec_value ds else dec_value ds in let n := (n0 + List.length ds)%nat in
        if i_in i v then FcOk v n else FcRange n end) = FcOk v n -> exists ds r, s1 = ds ++ r /\ digits ds /\ n = (n0 + List.length ds)%nat).
  { intros neg n0 s1 E. destruct (span_digits s1) as [ds r] eqn:S. apply span_digits_split in S as [-> F]. destruct ds as [|d ds]; [discriminate E|].
    cbv zeta in E. destruct (i_in i _); [|discriminate E]. exists (d :: ds), r. split; [reflexivity|]. split; [split; [discriminate|exact F]|]. congruence. }
  destruct s as [|c s].
  - discriminate H.
  - destruct ((c =? 45) && i_signed i) eqn:Q.
    + apply (K true 1%nat) in H as (ds & r & -> & D & ->). exists (c :: ds), r. split; [reflexivity|]. split; [reflexivity|].
      assert (c = 45) by lia. subst c. exact (it_string [45] ds (or_intror eq_refl) D).
    + apply (K false O) in H as (ds & r & -> & D & ->). exists ds, r. split; [reflexivity|]. split; [reflexivity|]. exact (it_string [] ds (or_introl eq_refl) D).
Qed.
Lemma num_get_text : forall i s v n, num_get_unsigned i s = (v, n) -> n <> O ->
  exists sg ds r, s = (sg ++ ds) ++ r /\ List.length (sg ++ ds) = n /\ (sg = [] \/ sg = [45] \/ sg = [43]) /\ Forall digit ds.
Proof.
  intros i s v n H N. unfold num_get_unsigned in H.
  assert (K : forall neg n0 s1, (let '(ds, _) := span_digits s1 in
      match ds with [] => (0, n0) | _ => let v := dec_value ds in let n := (n0 + List.length ds)%nat in
        if u_max i <? v then (u_max i, n) else ((if neg : bool then (- v) mod 2 ^ i_bits i else v), n) end) = (v, n) ->
      exists ds r, s1 = ds ++ r /\ Forall digit ds /\ n = (n0 + List.length ds)%nat).
  { intros neg n0 s1 E. destruct (span_digits s1) as [ds r] eqn:S. apply span_digits_split in S as [-> F]. exists ds, r. split; [reflexivity|]. split; [exact F|].
    destruct ds as [|d ds]; [cbn; assert (n = n0) by congruence; lia|]. cbv zeta in E. destruct (u_max i <? _); congruence. }
  destruct s as [|c s].
  - exfalso. apply N. cbn in H. congruence.
  - destruct (c =? 45) eqn:Q1; [|destruct (c =? 43) eqn:Q2].
    + apply (K true 1%nat) in H as (ds & r & -> & D & ->). exists [45], ds, r. assert (c = 45) by lia. subst c. split; [reflexivity|]. split; [reflexivity|]. auto.
    + apply (K false 1%nat) in H as (ds & r & -> & D & ->). exists [43], ds, r. assert (c = 43) by lia. subst c. split; [reflexivity|]. split; [reflexivity|]. auto.
    + apply (K false O) in H as (ds & r & -> & D & ->). exists [], ds, r. split; [reflexivity|]. split; [reflexivity|]. auto.
Qed.
Lemma checkZero_at : forall k s c r s0, at_src k s (c :: r) -> bytes_ok (c :: r) -> checkZero s = Ok s0 ->
  at_src k s0 (c :: r) /\ forall d r', c = 48 -> r = d :: r' -> ~ 49 <= d <= 57.
Proof.
  intros k s c r s0 A B E. unfold checkZero in E. rewrite (peek_cons k s c r A) in E.
  rewrite gchar_small in E by (inversion B; assumption || lia). destruct (Z.eqb_spec c 48) as [->|N]; [|injection E as <-; split; [exact A|intros; contradiction]].
  destruct (get_cons k s 48 r A) as (s1 & G & P). assert (V := get_cons_eof _ _ _ _ A). rewrite G in E, V. cbn [snd] in V.
  destruct r as [|d r].
  - destruct (peek_past_nil k s1 48 P V) as (s2 & Q & P2). rewrite Q in E. change ((49 <=? EOFc) && (EOFc <=? 57)) with false in E.
    destruct (unget_past k s2 48 [] P2) as (s3 & U & A3). rewrite U in E. injection E as <-. split; [exact A3|intros; discriminate].
  - rewrite (peek_cons k s1 d r (past_at _ _ _ _ P)) in E.
    assert (Bd : byte_ok d) by (inversion B as [|? ? _ B']; now inversion B').
    destruct ((49 <=? gchar k d) && (gchar k d <=? 57)) eqn:Z; [discriminate E|].
    destruct (unget_past k s1 48 (d :: r) P) as (s3 & U & A3). rewrite U in E. injection E as <-. split; [exact A3|].
    intros d' r' _ Q H. injection Q as -> ->. rewrite gchar_id in Z by lia. lia.
Qed.
Lemma at_advance : forall k s x r, at_src k s (x ++ r) -> x <> [] -> k = Strm -> at_src k (set_pos s (s_pos s + List.length x)) r.
Proof.
  intros k s x r A N ->. destruct x as [|c x]; [congruence|]. cbn [app] in A. apply at_cons_inv in A as (pre & ->). unfold set_pos. cbn [s_kind s_data s_pos s_good s_eof].
  exists (pre ++ c :: x), false. split; [|discriminate]. rewrite <- app_assoc, app_length. reflexivity.
Qed.
Lemma peek_keeps : forall k s r, at_src k s r -> (k = Strm -> strm_good s = true) -> at_src k (snd (src_peek s)) r.
Proof.
  intros k s [|c r] A G; [|now rewrite (peek_cons _ _ _ _ A)].
  destruct A as (pre & e & -> & He). unfold src_peek, s_rest, strm_good in *. cbn [s_kind s_good s_eof s_pos s_data] in *. rewrite skipn_app_len. destruct k.
  - exists pre, e. split; [reflexivity|exact He].
  - destruct e; [discriminate (G eq_refl)|]. exists pre, true. split; [reflexivity|auto].
Qed.
Lemma int_took : forall k i l z l' c r, at_src k (l_src l) (c :: r) -> bytes_ok (c :: r) -> lex_scanInt i l = Ok (z, l') ->
  exists x rest, c :: r = x ++ rest /\ int_text k x /\ ~ zero_led x /\ at_src k (l_src l') rest /\ l_null l' = l_null l.
Proof.
  intros k i l z l' c r A B E. unfold lex_scanInt in E. destruct (src_scanInt i (l_src l)) as [[z0 s1]| | |] eqn:Q; try discriminate E.
  injection E as -> <-. cbn [l_src lset_src l_null]. unfold src_scanInt in Q.
  destruct (checkZero (l_src l)) as [s0| | |] eqn:CZ; try discriminate Q. cbn [bind] in Q.
  destruct (checkZero_at k _ c r s0 A B CZ) as [A0 Z0]. rewrite (at_kind _ _ _ A0) in Q.
  assert (NZ : forall x rest, c :: r = x ++ rest -> ~ zero_led x).
  { intros x rest X (d & r' & -> & Hd). cbn [app] in X. injection X as -> ->. exact (Z0 d _ eq_refl eq_refl Hd). }
  enough (exists x rest, c :: r = x ++ rest /\ int_text k x /\ at_src k s1 rest) as (x & rest & X & T & A1) by (exists x, rest; split; [exact X|]; split; [exact T|]; split; [exact (NZ _ _ X)|]; split; [exact A1|reflexivity]).
  destruct k.
  - destruct (Nat.ltb _ _); [discriminate Q|]. rewrite (rest_at _ _ _ A0) in Q.
    destruct (from_chars i (c :: r)) as [|n|v n] eqn:F.
    1,2: unfold validateResult in Q; destruct (src_peek _) as [pc ps]; destruct (_ && _); discriminate Q.
    apply from_chars_text in F as (x & rest & X & <- & T). exists x, rest. split; [exact X|]. split; [exact T|].
    assert (Nx : x <> []) by (intros ->; remember (@nil Z) as y eqn:Ey in T; destruct T as [sg ds _ [Nd _]|sg sg' ds _ _ _ Nd]; [apply app_eq_nil in Ey as [_ Ey]; now apply Nd|apply app_eq_nil in Ey as [_ Ey]; now apply Nd]).
    rewrite X in A0. destruct x as [|x0 x]; [congruence|]. cbn [app] in A0. apply at_cons_inv in A0 as (pre & ->).
    assert (P : at_src StrIn (mkSrc StrIn (pre ++ x0 :: x ++ rest) (List.length pre + List.length (x0 :: x)) (Nat.leb (List.length pre + List.length (x0 :: x)) (List.length (pre ++ x0 :: x ++ rest))) false) rest).
    { exists (pre ++ x0 :: x), false. split; [|discriminate]. rewrite <- app_assoc. cbn [app]. f_equal; [now rewrite app_length|]. apply Nat.leb_le.
      rewrite !app_length. cbn [List.length]. rewrite app_length. lia. }
    unfold s_size, validateResult in Q. cbn [s_data s_pos] in Q.
    match type of Q with context [src_peek ?s] => assert (P' := peek_keeps _ _ _ P ltac:(discriminate)); change s with (mkSrc StrIn (pre ++ x0 :: x ++ rest) (List.length pre + List.length (x0 :: x)) (Nat.leb (List.length pre + List.length (x0 :: x)) (List.length (pre ++ x0 :: x ++ rest))) false) in Q end.
    destruct (src_peek _) as [pc ps]. destruct (_ && _); [|discriminate Q]. cbn [snd] in P'. congruence.
  - assert (V : forall (o : option Z) s2 rest, at_src Strm s2 rest -> strm_good s2 = true ->
      (let '(okv, s3) := validateResult (match o with Some _ => true | None => false end) s2 in
       if okv then match o with Some z => Ok (z, s3) | None => Throw end else Throw) = Ok (z, s1) -> at_src Strm s1 rest).
    { intros o s2 rest A2 G E. unfold validateResult in E. assert (P := peek_keeps _ _ _ A2 (fun _ => G)). destruct (src_peek s2) as [pc ps].
      destruct (_ && _); [|discriminate E]. destruct o; [|discriminate E]. cbn [snd] in P. congruence. }
    assert (VN : forall s2, (let '(okv, s3) := validateResult false s2 in if okv then match (None : option Z) with Some z => Ok (z, s3) | None => Throw end else Throw) <> Ok (z, s1)).
    { intros s2 E. unfold validateResult in E. destruct (src_peek s2). discriminate E. }
    assert (G0 : forall s2 x rest, at_src Strm s2 (x ++ rest) -> x <> [] -> strm_good (set_pos s2 (s_pos s2 + List.length x)) = true).
    { intros s2 x rest A2 N. destruct x as [|y x]; [congruence|]. cbn [app] in A2. apply at_cons_inv in A2 as (pre & ->). reflexivity. }
    assert (Go : forall s2 txt (f : Z -> Z) (o : option Z) s3, at_src Strm s2 txt -> num_get_unsigned i (s_rest s2) = (fst (num_get_unsigned i txt), snd (num_get_unsigned i txt)) ->
       snd (num_get_unsigned i txt) <> O -> (o, s3) = (Some (f (fst (num_get_unsigned i txt))), set_pos s2 (s_pos s2 + snd (num_get_unsigned i txt))) ->
       (let '(okv, s3) := validateResult (match o with Some _ => true | None => false end) s3 in
         if okv then match o with Some z => Ok (z, s3) | None => Throw end else Throw) = Ok (z, s1) ->
       exists sg ds rest, txt = (sg ++ ds) ++ rest /\ (sg = [] \/ sg = [45] \/ sg = [43]) /\ Forall digit ds /\ sg ++ ds <> [] /\ at_src Strm s1 rest).
    { intros s2 txt f o s3 A2 N1 N2 Eo E. destruct (num_get_text i txt _ _ (surjective_pairing _) N2) as (sg & ds & rest & X & Ln & Hs & Hd).
      exists sg, ds, rest. split; [exact X|]. split; [exact Hs|]. split; [exact Hd|].
      assert (Ne : sg ++ ds <> []) by (intro Z; rewrite Z in Ln; cbn in Ln; congruence). split; [exact Ne|].
      rewrite <- Ln in Eo. injection Eo as -> ->. rewrite X in A2. refine (V (Some _) _ rest _ _ E); [now apply at_advance|]. now apply (G0 _ _ rest). }
    unfold readNumber_stream in Q. destruct (i_signed i).
    + rewrite (peek_cons _ _ _ _ A0) in Q. rewrite gchar_small in Q by (inversion B; assumption || lia). destruct (Z.eqb_spec c 45) as [->|N45].
      * destruct (get_cons _ _ _ _ A0) as (s2 & G & P). rewrite G in Q. cbn [snd] in Q. apply past_at in P.
        destruct (strm_good s2); [|destruct (VN _ Q)]. rewrite (rest_at _ _ _ P) in Q.
        destruct (num_get_unsigned i r) as [v n] eqn:NG. destruct (Nat.eqb_spec n 0); [destruct (VN _ Q)|].
        destruct (Go s2 r (fun v => i_wrap i (- v)) (Some (i_wrap i (- v))) (set_pos s2 (s_pos s2 + n)) P) as (sg & ds & rest & -> & Hs & Hd & Ne & A1).
        -- rewrite (rest_at _ _ _ P). apply surjective_pairing.
        -- rewrite NG. exact n0.
        -- rewrite NG. reflexivity.
        -- exact Q.
        -- exists ([45] ++ sg ++ ds), rest. split; [now rewrite <- !app_assoc|]. split; [apply it_stream; auto|exact A1].
      * destruct (strm_good s0); [|destruct (VN _ Q)]. rewrite (rest_at _ _ _ A0) in Q.
        destruct (num_get_unsigned i (c :: r)) as [v n] eqn:NG. destruct (Nat.eqb_spec n 0); [destruct (VN _ Q)|].
        destruct (Go s0 (c :: r) (fun v => i_wrap i v) (Some (i_wrap i v)) (set_pos s0 (s_pos s0 + n)) A0) as (sg & ds & rest & E & Hs & Hd & Ne & A1).
        -- rewrite (rest_at _ _ _ A0). apply surjective_pairing.
        -- rewrite NG. exact n0.
        -- rewrite NG. reflexivity.
        -- exact Q.
        -- exists ([] ++ sg ++ ds), rest. split; [exact E|]. split; [apply it_stream; auto|exact A1].
    + destruct (strm_good s0); [|destruct (VN _ Q)]. rewrite (rest_at _ _ _ A0) in Q.
      destruct (num_get_unsigned i (c :: r)) as [v n] eqn:NG. destruct (Nat.eqb_spec n 0); [destruct (VN _ Q)|].
      destruct (Go s0 (c :: r) (fun v => v) (Some v) (set_pos s0 (s_pos s0 + n)) A0) as (sg & ds & rest & E & Hs & Hd & Ne & A1).
      * rewrite (rest_at _ _ _ A0). apply surjective_pairing.
      * rewrite NG. exact n0.
      * rewrite NG. reflexivity.
      * exact Q.
      * exists ([] ++ sg ++ ds), rest. split; [exact E|]. split; [apply it_stream; auto|exact A1].
Qed.

(** ** Reading strings *)
Lemma split_at_any : forall s a f, split_at 34 s = (a, f) -> Forall (fun c => c <> 34) a /\ (f = true -> exists t, s = a ++ 34 :: t).
Proof.
  induction s as [|c s IH]; intros a f H; cbn [split_at] in H; [injection H as <- <-; split; [constructor|discriminate]|].
  destruct (Z.eqb_spec c 34) as [->|N]; [injection H as <- <-; split; [constructor|intros _; now exists s]|].
  destruct (split_at 34 s) as [a0 f0] eqn:E. injection H as <- <-. destruct (IH _ _ eq_refl) as [F T]. split; [now constructor|].
  intro Q. destruct (T Q) as [t ->]. now exists t.
Qed.
Lemma split_at_none : forall s a, split_at 34 s = (a, false) -> a = s.
Proof.
  induction s as [|c s IH]; intros a H; cbn [split_at] in H; [now injection H as <-|]. destruct (c =? 34); [discriminate H|].
  destruct (split_at 34 s) as [a0 f0] eqn:E. injection H as <- ->. now rewrite (IH _ eq_refl).
Qed.
Lemma readTo_over : forall k s dst a s', exhausted k s -> src_readTo s dst 34 = Ok (a, s') -> exhausted k s'.
Proof.
  intros k s dst a s' [K R] E. unfold src_readTo in E. rewrite K in E. destruct k.
  - destruct R as [R|[X _]]; [|discriminate X]. destruct (Nat.ltb _ _); [discriminate E|]. rewrite R in E. cbn [split_at List.length] in E. injection E as <- <-.
    split; [reflexivity|]. left. unfold s_rest in *. cbn [s_pos s_data]. assert (Z := f_equal (@List.length Z) R). rewrite skipn_length in Z. cbn in Z. apply skipn_all_le. lia.
  - destruct (strm_good s) eqn:G.
    + destruct R as [R|[_ X]]; [|discriminate X]. rewrite R in E. cbn [split_at] in E. injection E as <- <-. split; [reflexivity|]. right. split; reflexivity.
    + injection E as <- <-. split; [exact K|]. right. split; reflexivity.
Qed.
Lemma readTo_any : forall k s dst a s' rest, at_src k s rest -> src_readTo s dst 34 = Ok (a, s') ->
  (exists t, rest = a ++ 34 :: t /\ Forall (fun c => c <> 34) a /\ at_src k s' t) \/ exhausted k s'.
Proof.
  intros k s dst a s' rest A E. destruct (split_at 34 rest) as [b f] eqn:S. destruct (split_at_any _ _ _ S) as [F T]. destruct f.
  - destruct (T eq_refl) as [t ->]. destruct (readTo_at_src k s b t dst A F) as (s1 & Q & A1). rewrite Q in E. injection E as <- <-. left. exists t. auto.
  - right. destruct rest as [|x rest]; [exact (readTo_over k s dst a s' (at_nil _ _ A) E)|].
    assert (R := rest_at _ _ _ A). apply at_cons_inv in A as (pre & ->). unfold src_readTo in E. cbn [s_kind] in E. rewrite R, S in E. destruct k.
    + destruct (Nat.ltb _ _); [discriminate E|]. injection E as <- <-. split; [reflexivity|]. left. unfold s_rest. cbn [s_pos s_data]. apply skipn_all_le.
      rewrite (split_at_none _ _ S), app_length. lia.
    + cbn [strm_good s_good s_eof negb andb] in E. injection E as <- <-. split; [reflexivity|]. right. split; [reflexivity|]. unfold strm_good. cbn [s_good s_eof]. now destruct b.
Qed.
Lemma loop_over : forall k fuel v tmp s v' s', exhausted k s -> string_loop fuel v tmp s = Ok (v', s') -> exhausted k s'.
Proof.
  induction fuel as [|fuel IH]; intros v tmp s v' s' X E; cbn [string_loop] in E; [discriminate E|].
  destruct (src_readTo s tmp 34) as [[t s1]| | |] eqn:R; try discriminate E. cbn [bind] in E. apply (readTo_over k) in R; [|exact X].
  destruct (checkEscape t); [exact (IH _ _ _ _ _ R E)|]. now injection E as <- <-.
Qed.
Lemma loop_any : forall k fuel v tmp s v' s' rest, at_src k s rest -> string_loop fuel v tmp s = Ok (v', s') ->
  (exists raw l t, rest = raw ++ 34 :: t /\ v' = v ++ 34 :: raw /\ chunks raw l /\ at_src k s' t) \/ exhausted k s'.
Proof.
  induction fuel as [|fuel IH]; intros v tmp s v' s' rest A E; cbn [string_loop] in E; [discriminate E|].
  destruct (src_readTo s tmp 34) as [[a s1]| | |] eqn:R; try discriminate E. cbn [bind] in E. apply (readTo_any k _ _ _ _ rest A) in R as [(t & -> & F & A1)|X].
  - rewrite checkEscape_in_escape in E. destruct (in_escape false a) eqn:Q.
    + apply (IH _ _ _ _ _ t A1) in E as [(raw & l & t' & -> & -> & Ch & A2)|X]; [|now right]. left. exists (a ++ 34 :: raw), (a :: l), t'.
      split; [now rewrite <- app_assoc|]. split; [now rewrite <- !app_assoc|]. split; [now constructor|exact A2].
    + injection E as <- <-. left. exists a, [a], t. split; [reflexivity|]. split; [reflexivity|]. split; [now constructor|exact A1].
  - right. destruct (checkEscape a); [exact (loop_over k _ _ _ _ _ _ X E)|now injection E as <- <-].
Qed.
Lemma escape_closed : forall n a, (List.length a <= n)%nat -> Forall (fun c => c <> 34) a ->
  (in_escape false a = false -> forall rest, closed_by a rest (a ++ 34 :: rest)) /\
  (in_escape false a = true -> forall raw rest, closed_by raw rest (raw ++ 34 :: rest) -> closed_by (a ++ 34 :: raw) rest ((a ++ 34 :: raw) ++ 34 :: rest)).
Proof.
  induction n as [|n IH]; intros a Hl F; (destruct a as [|c a]; [split; [intros; constructor|discriminate]|]); [cbn in Hl; lia|]. cbn [List.length] in Hl.
  inversion F as [|? ? Nc F']; subst. destruct (Z.eqb_spec c 92) as [->|N].
  - destruct a as [|d a].
    + split; [discriminate|]. intros _ raw rest Cl. cbn [app]. now constructor.
    + inversion F' as [|? ? Nd F'']; subst. cbn [List.length] in Hl. destruct (IH a ltac:(lia) F'') as [I1 I2].
      split; cbn [in_escape]; change (92 =? 92) with true; cbv iota; intros Q; [intros rest|intros raw rest Cl]; cbn [app]; constructor; [now apply I1|now apply I2].
  - destruct (IH a ltac:(lia) F') as [I1 I2]. assert (Q : (c =? 92) = false) by lia.
    split; cbn [in_escape]; rewrite Q; intros Z; [intros rest|intros raw rest Cl]; cbn [app]; constructor; auto.
Qed.
Lemma chunks_closed : forall raw l, chunks raw l -> forall rest, closed_by raw rest (raw ++ 34 :: rest).
Proof.
  intros raw l H. induction H as [a F Q|a raw l F Q H IH]; intro rest.
  - now apply (proj1 (escape_closed _ a (le_n _) F)).
  - now apply (proj2 (escape_closed _ a (le_n _) F)).
Qed.
Lemma closed_quote : forall raw rest t, closed_by raw rest t -> no_bare_quote raw.
Proof. intros raw rest t H. induction H; [apply nq_nil|apply nq_char; assumption|apply nq_esc; assumption]. Qed.

Definition string_taken (conv : bool) (raw : bytes) : Prop := closed_by raw [] (raw ++ [34]) /\ (conv = true -> json_string_lone_low raw).
Lemma str_took : forall k fuel conv l v l' c r, at_src k (l_src l) (c :: r) -> bytes_ok (c :: r) -> getStringInto fuel conv l = Ok (v, l') ->
  c = 34 /\ l_null l' = l_null l /\
  ((exists raw t, r = raw ++ 34 :: t /\ string_taken conv raw /\ at_src k (l_src l') t) \/ exhausted k (l_src l')).
Proof.
  intros k fuel conv l v l' c r A B E. unfold getStringInto in E. destruct (get_cons _ _ _ _ A) as (s1 & G & P). rewrite G in E. apply past_at in P.
  rewrite gchar_small in E by (inversion B; assumption || lia). destruct (Z.eqb_spec c 34) as [->|N]; [|discriminate E]. cbn [negb] in E. split; [reflexivity|].
  assert (Br : bytes_ok r) by (now inversion B).
  destruct (src_readTo s1 [] 34) as [[a s2]| | |] eqn:R; try discriminate E. cbn [bind] in E.
  set (m := if checkEscape a then string_loop fuel a [] s2 else Ok (a, s2)) in E.
  assert (M : forall w s3, m = Ok (w, s3) -> (exists raw t ch, r = raw ++ 34 :: t /\ w = raw /\ chunks raw ch /\ at_src k s3 t) \/ exhausted k s3).
  { intros w s3 Em. unfold m in Em. apply (readTo_any k _ _ _ _ r P) in R as [(t & -> & F & A2)|X].
    - rewrite checkEscape_in_escape in Em. destruct (in_escape false a) eqn:Q.
      + apply (loop_any k _ _ _ _ _ _ t A2) in Em as [(raw & l0 & t' & -> & -> & Ch & A3)|X]; [|now right]. left. exists (a ++ 34 :: raw), t', (a :: l0).
        split; [now rewrite <- app_assoc|]. split; [reflexivity|]. split; [now constructor|exact A3].
      + injection Em as <- <-. left. exists a, t, [a]. split; [reflexivity|]. split; [reflexivity|]. split; [now constructor|exact A2].
    - right. destruct (checkEscape a); [exact (loop_over k _ _ _ _ _ _ X Em)|now injection Em as <- <-]. }
  destruct m as [[w s3]| | |]; try discriminate E. cbn [bind] in E. specialize (M w s3 eq_refl).
  destruct (if conv then unescape_inplace w else Ok w) as [u| | |] eqn:U; try discriminate E. cbn [bind] in E. injection E as <- <-. cbn [l_src lset_src l_null].
  split; [reflexivity|]. destruct M as [(raw & t & ch & -> & -> & Ch & A3)|X]; [left|now right]. exists raw, t. split; [reflexivity|]. split; [|exact A3].
  split; [exact (chunks_closed _ _ Ch [])|]. intros ->. rewrite unescape_inplace_dec in U.
  refine (dec_sound _ raw u (le_n _) _ (closed_quote _ _ _ (chunks_closed _ _ Ch [])) U). now apply Forall_app in Br as [Br _].
Qed.
Lemma str_over : forall k fuel conv l v l', exhausted k (l_src l) -> getStringInto fuel conv l <> Ok (v, l').
Proof.
  intros k fuel conv l v l' X E. unfold getStringInto in E. destruct (over_get _ _ X) as [G _]. destruct (src_get (l_src l)) as [n s]. cbn [fst] in G. subst n. discriminate E.
Qed.
Lemma int_over : forall k i l z l', exhausted k (l_src l) -> lex_scanInt i l <> Ok (z, l').
Proof.
  intros k i l z l' X E. unfold lex_scanInt in E. destruct (src_scanInt i (l_src l)) as [[z0 s1]| | |] eqn:Q; try discriminate E. clear E.
  unfold src_scanInt in Q. destruct (over_peek1 _ _ X) as [G X1]. unfold checkZero in Q. destruct (src_peek (l_src l)) as [n s]. cbn [fst snd] in G, X1. subst n.
  change (EOFc =? 48) with false in Q. cbn [bind] in Q. destruct X1 as [K R]. rewrite K in Q. destruct k.
  - destruct R as [R|[Y _]]; [|discriminate Y]. destruct (Nat.ltb _ _); [discriminate Q|]. rewrite R in Q. cbn [from_chars span_digits] in Q.
    unfold validateResult in Q. destruct (src_peek s). discriminate Q.
  - assert (N : forall s2, (let '(okv, s3) := validateResult false s2 in if okv then match (None : option Z) with Some z => Ok (z, s3) | None => Throw end else Throw) <> Ok (z0, s1)).
    { intros s2 E. unfold validateResult in E. destruct (src_peek s2). discriminate E. }
    unfold readNumber_stream in Q. destruct (i_signed i).
    + destruct (over_peek1 Strm s (conj K R)) as [G2 [K2 R2]]. destruct (src_peek s) as [n2 s2]. cbn [fst snd] in G2, K2, R2. subst n2. change (EOFc =? 45) with false in Q. cbv iota in Q.
      destruct (strm_good s2) eqn:Gd; [|exact (N _ Q)]. destruct R2 as [R2|[_ Y]]; [|discriminate Y]. rewrite R2 in Q. exact (N _ Q).
    + destruct (strm_good s) eqn:Gd; [|exact (N _ Q)]. destruct R as [R|[_ Y]]; [|discriminate Y]. rewrite R in Q. exact (N _ Q).
Qed.

(** ** Literals *)
Lemma read_any : forall k s n txt got s', at_src k s txt -> (0 < n)%nat -> src_read s n = Ok (got, s') ->
  (got = firstn n txt /\ List.length got = n /\ at_src k s' (skipn n txt)) \/ exhausted k s'.
Proof.
  intros k s n txt got s' A N E. destruct (read_at_gen k s txt n A) as (s1 & R & A1). rewrite R in E. injection E as <- <-.
  destruct (le_lt_dec n (List.length txt)) as [L|L].
  - left. split; [reflexivity|]. split; [now apply firstn_length_le|]. now apply A1.
  - right. destruct A as (pre & e & -> & He). unfold src_read, s_size, s_rest, strm_good in R. cbn [s_kind s_data s_pos s_good s_eof] in R. rewrite skipn_app_len in R.
    rewrite (firstn_all2 (n := n)) in R by lia. destruct k.
    + destruct (Nat.ltb _ _); [discriminate R|]. injection R as <-. split; [reflexivity|]. left. unfold s_rest. cbn [s_pos s_data]. apply skipn_all_le. rewrite app_length. lia.
    + destruct (true && negb e).
      * rewrite (proj2 (Nat.ltb_lt _ _) L) in R. injection R as <-. split; [reflexivity|]. right. split; reflexivity.
      * assert (s1 = set_good (mkSrc Strm (pre ++ txt) (List.length pre) true e) false) by congruence. subst s1. split; [reflexivity|]. right. split; reflexivity.
Qed.
Lemma fixed_took : forall k l check l' txt, at_src k (l_src l) txt -> check <> [] -> checkFixed l check = Ok l' ->
  l_null l' = l_null l /\ ((exists rest, txt = check ++ rest /\ at_src k (l_src l') rest) \/ exhausted k (l_src l')).
Proof.
  intros k l check l' txt A N E. unfold checkFixed in E. destruct (src_read (l_src l) (List.length check)) as [[got s]| | |] eqn:R; try discriminate E. cbn [bind] in E.
  assert (L : (0 < List.length check)%nat) by (destruct check; [congruence|cbn; lia]). apply (read_any k _ _ txt) in R; [|exact A|exact L].
  destruct (beq _ check) eqn:Q; [|discriminate E]. injection E as <-. cbn [l_src lset_buf lset_src l_null]. split; [reflexivity|].
  destruct R as [(G & Lg & A1)|X]; [left|now right]. apply beq_eq in Q. rewrite Lg in Q.
  assert (Z : skipn (List.length check) (resize (l_buf l) (List.length check)) = []).
  { apply skipn_all_le. unfold resize. rewrite app_length, repeat_length, firstn_length. lia. }
  rewrite Z, app_nil_r in Q. exists (skipn (List.length check) txt). split; [|exact A1]. rewrite <- Q at 1. rewrite G. symmetry. apply firstn_skipn.
Qed.
Lemma ignore_any : forall k s txt n, at_src k s txt -> (0 < n)%nat ->
  ((n <= List.length txt)%nat /\ at_src k (src_ignore s n) (skipn n txt)) \/ exhausted k (src_ignore s n).
Proof.
  intros k s txt n A N. destruct (le_lt_dec n (List.length txt)) as [L|L].
  - left. split; [exact L|]. rewrite <- (firstn_skipn n txt) in A. apply (ignore_at_src k s _ _ n A); [|symmetry; now apply firstn_length_le].
    intro Y. apply (f_equal (@List.length Z)) in Y. rewrite firstn_length_le in Y by exact L. cbn in Y. lia.
  - right. destruct A as (pre & e & -> & He). unfold src_ignore, strm_good, s_size, s_rest. cbn [s_kind s_data s_pos s_good s_eof]. rewrite skipn_app_len. destruct k.
    + split; [reflexivity|]. left. unfold s_rest. cbn [s_pos s_data]. apply skipn_all_le. rewrite app_length. lia.
    + destruct (true && negb e).
      * rewrite (proj2 (Nat.leb_gt _ _) L). split; [reflexivity|]. right. split; reflexivity.
      * split; [reflexivity|]. right. split; reflexivity.
Qed.

(** ** Skipping strings *)
Inductive skipraw : Z -> list Z -> Prop :=
| sr_end : forall last, last <> 92 -> skipraw last []
| sr_step : forall last c raw, c <> 34 \/ last = 92 -> skipraw c raw -> skipraw last (c :: raw).
Lemma skipraw_quotes : forall last raw, skipraw last raw -> forall a b, raw = a ++ 34 :: b -> (a = [] /\ last = 92) \/ exists a', a = a' ++ [92].
Proof.
  intros last raw H. induction H as [last N|last c raw Hc H IH]; intros a b E; [destruct a; discriminate E|].
  destruct a as [|x a]; cbn [app] in E.
  - injection E as -> ->. left. split; [reflexivity|]. destruct Hc as [Hc|Hc]; [congruence|exact Hc].
  - injection E as -> E. right. destruct (IH _ _ E) as [[-> ->]|[a' ->]]; [now exists []|now exists (x :: a')].
Qed.
Lemma skipraw_end : forall last raw, skipraw last raw -> forall r, last :: raw <> r ++ [92].
Proof.
  intros last raw H. induction H as [last N|last c raw Hc H IH]; intros r E.
  - destruct r as [|x [|y r]]; [injection E as ->; congruence|discriminate E|discriminate E].
  - destruct r as [|x r]; [discriminate E|]. injection E as -> E. exact (IH _ E).
Qed.
Lemma skip_took : forall k fuel s last n s1 s' rest, at_src k s rest -> bytes_ok rest -> byte_ok last -> src_get s = (n, s1) ->
  skip_string_loop fuel (gchar k last) n s1 = Ok s' ->
  exists raw t, rest = raw ++ 34 :: t /\ at_src k s' t /\ skipraw last raw /\ (k = StrIn -> ~ In 255 raw).
Proof.
  induction fuel as [|fuel IH]; intros s last n s1 s' rest A B Bl G E; cbn [skip_string_loop] in E; [discriminate E|].
  destruct rest as [|c rest].
  { destruct (get_nil _ _ A) as (s2 & G2). rewrite G2 in G. injection G as <- <-. discriminate E. }
  destruct (get_cons _ _ _ _ A) as (s2 & G2 & P). rewrite G2 in G. injection G as <- <-. apply past_at in P.
  assert (Bc : byte_ok c) by now inversion B. assert (Br : bytes_ok rest) by now inversion B.
  destruct (gchar k c =? EOFc) eqn:QE; [discriminate E|].
  rewrite !gchar_small in E by (assumption || lia).
  destruct ((c =? 34) && negb (last =? 92)) eqn:Q.
  - injection E as <-. assert (c = 34) by lia. subst c. exists [], rest. split; [reflexivity|]. split; [exact P|]. split; [constructor; lia|]. intros _ [].
  - destruct (src_get s2) as [n2 s3] eqn:G3. destruct (IH s2 c n2 s3 s' rest P Br Bc G3 E) as (raw & t & -> & A' & Sk & N).
    exists (c :: raw), t. split; [reflexivity|]. split; [exact A'|]. split; [constructor; [lia|exact Sk]|].
    intros -> [Z|Z]; [subst c; discriminate QE|exact (N eq_refl Z)].
Qed.

(** ** Skipping numbers *)
(** [next] was read from [txt] and the source is behind it. *)
Definition cursor (k : skind) (txt : bytes) (next : Z) (s : src) : Prop :=
  (txt = [] /\ next = EOFc /\ exhausted k s) \/ exists c r, txt = c :: r /\ (next = gchar k c \/ next = schar c) /\ past k s c r.
Lemma cursor_get : forall k s txt n s1, at_src k s txt -> src_get s = (n, s1) -> cursor k txt n s1.
Proof.
  intros k s [|c r] n s1 A G.
  - left. destruct (over_get _ _ (at_nil _ _ A)) as [G1 X]. rewrite G in G1, X. auto.
  - right. destruct (get_cons _ _ _ _ A) as (s2 & G2 & P). rewrite G2 in G. injection G as <- <-. exists c, r. auto.
Qed.
Lemma cursor_is : forall k txt next s, cursor k txt next s -> bytes_ok txt -> 0 <= next < 128 -> exists r, txt = next :: r /\ at_src k s r.
Proof.
  intros k txt next s [(-> & -> & _)|(c & r & -> & H & P)] B N; [unfold EOFc in N; lia|]. exists r. split; [|exact (past_at _ _ _ _ P)]. f_equal.
  assert (Bc : byte_ok c) by now inversion B. unfold byte_ok, gchar, schar in *. destruct k, H as [H|H]; destruct (c <? 128) eqn:Q; lia.
Qed.
Lemma cursor_char : forall k txt next s, cursor k txt next s -> bytes_ok txt -> cursor k txt (to_char next) s.
Proof.
  intros k txt next s [(-> & -> & X)|(c & r & -> & H & P)] B; [left; auto|]. right. exists c, r. split; [reflexivity|]. split; [|exact P]. right.
  assert (Bc : byte_ok c) by now inversion B. unfold byte_ok, gchar, schar, to_char in *. destruct k, H as [H|H]; destruct (c <? 128) eqn:Q; destruct (next <? 128) eqn:Q2; lia.
Qed.
Lemma cursor_end : forall k txt next s, cursor k txt next s -> bytes_ok txt -> forall s', (if next =? EOFc then Ok s else src_unget s) = Ok s' ->
  (exists x r, txt = x ++ r /\ (x = [] \/ x = [255]) /\ at_src k s' r) \/ exhausted k s'.
Proof.
  intros k txt next s [(-> & -> & X)|(c & r & -> & H & P)] B s' E; [right; now injection E as <-|]. left.
  assert (Bc : byte_ok c) by now inversion B. destruct (Z.eqb_spec next EOFc) as [Q|Q].
  - injection E as <-. exists [255], r. split; [|split; [now right|exact (past_at _ _ _ _ P)]]. cbn [app]. f_equal.
    unfold byte_ok, gchar, schar, EOFc in *. destruct k, H as [H|H]; destruct (c <? 128) eqn:Q2; lia.
  - destruct (unget_past _ _ _ _ P) as (s2 & U & A). rewrite U in E. injection E as <-. exists [], (c :: r). split; [reflexivity|]. split; [now left|exact A].
Qed.
Lemma digits_loop : forall k fuel next buf s next' buf' s' txt, cursor k txt next s -> bytes_ok txt ->
  read_digits_loop fuel next buf s = Ok (next', buf', s') -> exists ds rest, txt = ds ++ rest /\ Forall digit ds /\ cursor k rest next' s' /\ (is_digit next = true -> ds <> []) /\ bytes_ok rest.
Proof.
  induction fuel as [|fuel IH]; intros next buf s next' buf' s' txt Cu B E; cbn [read_digits_loop] in E; [discriminate E|].
  destruct (is_digit next) eqn:D.
  - destruct (cursor_is _ _ _ _ Cu B) as (r & -> & A); [unfold is_digit in D; lia|]. destruct (src_get s) as [n s1] eqn:G.
    assert (Br : bytes_ok r) by now inversion B.
    destruct (IH _ _ _ _ _ _ r (cursor_char _ _ _ _ (cursor_get _ _ _ _ _ A G) Br) Br E) as (ds & rest & -> & F & Cu' & _ & B').
    exists (next :: ds), rest. split; [reflexivity|]. split; [constructor; [unfold is_digit, digit in *; lia|exact F]|]. split; [exact Cu'|]. split; [discriminate|exact B'].
  - assert (next' = next /\ s' = s) as [-> ->] by (split; congruence). exists [], txt. split; [reflexivity|]. split; [constructor|]. split; [exact Cu|]. split; [discriminate|exact B].
Qed.
Lemma digits_took : forall k fuel next buf s next' buf' s' txt, cursor k txt next s -> bytes_ok txt ->
  readDigits fuel next buf s = Ok (next', buf', s') -> exists ds rest, txt = ds ++ rest /\ digits ds /\ cursor k rest next' s' /\ bytes_ok rest.
Proof.
  intros k fuel next buf s next' buf' s' txt Cu B E. unfold readDigits in E. destruct (is_digit (to_char next)) eqn:D; [|discriminate E].
  destruct (digits_loop k _ _ _ _ _ _ _ txt (cursor_char _ _ _ _ Cu B) B E) as (ds & rest & -> & F & Cu' & N & B'). exists ds, rest. split; [reflexivity|]. split; [split; [exact (N D)|exact F]|]. auto.
Qed.
Lemma number_took : forall k fuel l l' txt, at_src k (l_src l) txt -> bytes_ok txt -> lex_readNumber fuel l = Ok l' ->
  l_null l' = l_null l /\ ((exists x rest, txt = x ++ rest /\ skipped k 13 x /\ at_src k (l_src l') rest) \/ exhausted k (l_src l')).
Proof.
  intros k fuel l l' txt A B E. unfold lex_readNumber in E. destruct (src_get (l_src l)) as [n0 s0] eqn:G0. assert (C0 := cursor_get _ _ _ _ _ A G0).
  match type of E with bind ?m _ = _ => set (m1 := m) in E end.
  assert (M1 : forall n b s, m1 = Ok (n, b, s) -> exists sg rest, txt = sg ++ rest /\ (sg = [] \/ sg = [43] \/ sg = [45]) /\ cursor k rest n s /\ bytes_ok rest).
  { intros n b s Em. unfold m1 in Em. destruct ((n0 =? 45) || (n0 =? 43)) eqn:Q.
    - destruct (cursor_is _ _ _ _ C0 B ltac:(lia)) as (r & -> & A1). destruct (src_get s0) as [n1 s1] eqn:G1. destruct (n1 =? EOFc); [discriminate Em|].
      assert (n1 = n /\ s1 = s) as [-> ->] by (split; congruence). exists [n0], r. split; [reflexivity|]. split; [assert (n0 = 45 \/ n0 = 43) as [-> | ->] by lia; auto|].
      split; [exact (cursor_get _ _ _ _ _ A1 G1)|now inversion B].
    - assert (n0 = n /\ s0 = s) as [-> ->] by (split; congruence). exists [], txt. auto. }
  destruct m1 as [[[n1 b1] s1]| | |]; try discriminate E. cbn [bind] in E. destruct (M1 _ _ _ eq_refl) as (sg & r1 & -> & Hsg & C1 & B1). clear M1 C0 G0 A.
  match type of E with bind ?m _ = _ => set (m2 := m) in E end.
  assert (M2 : forall n b s, m2 = Ok (n, b, s) -> exists i rest, r1 = i ++ rest /\ int_part i /\ cursor k rest n s /\ bytes_ok rest).
  { intros n b s Em. unfold m2 in Em. destruct (Z.eqb_spec n1 48) as [->|N].
    - destruct (cursor_is _ _ _ _ C1 B1 ltac:(lia)) as (r & -> & A1). destruct (src_get s1) as [n2 s2] eqn:G1.
      assert (n2 = n /\ s2 = s) as [-> ->] by (split; congruence). exists [48], r. split; [reflexivity|]. split; [constructor|].
      split; [exact (cursor_get _ _ _ _ _ A1 G1)|now inversion B1].
    - destruct (digits_took k _ _ _ _ _ _ _ _ C1 B1 Em) as (ds & rest & -> & [Nd Hd] & C2 & B2). exists ds, rest. split; [reflexivity|]. split; [|auto].
      destruct ds as [|d ds]; [congruence|]. inversion Hd as [|? ? D0 D1]; subst. constructor; [|exact D1]. unfold digit in D0.
      enough (d <> 48) by lia. intros ->. apply N.
      destruct C1 as [(X & _ & _)|(c & r & X & [H|H] & _)]; [discriminate X| |]; cbn [app] in X; injection X as <- <-; rewrite H; [apply gchar_id|apply schar_id]; lia. }
  destruct m2 as [[[n2 b2] s2]| | |]; try discriminate E. cbn [bind] in E. destruct (M2 _ _ _ eq_refl) as (i & r2 & -> & Hi & C2 & B2). clear M2 C1.
  match type of E with bind ?m _ = _ => set (m3 := m) in E end.
  assert (M3 : forall n b s, m3 = Ok (n, b, s) -> exists f rest, r2 = f ++ rest /\ frac_part f /\ cursor k rest n s /\ bytes_ok rest).
  { intros n b s Em. unfold m3 in Em. destruct (Z.eqb_spec n2 46) as [->|N].
    - destruct (cursor_is _ _ _ _ C2 B2 ltac:(lia)) as (r & -> & A1). destruct (src_get s2) as [n3 s3] eqn:G1. destruct (n3 =? EOFc); [discriminate Em|].
      assert (Br : bytes_ok r) by now inversion B2.
      destruct (digits_took k _ _ _ _ _ _ _ _ (cursor_get _ _ _ _ _ A1 G1) Br Em) as (ds & rest & -> & Hd & C3 & B3). exists (46 :: ds), rest. split; [reflexivity|]. split; [now constructor|auto].
    - assert (n2 = n /\ s2 = s) as [-> ->] by (split; congruence). exists [], r2. split; [reflexivity|]. split; [constructor|auto]. }
  destruct m3 as [[[n3 b3] s3]| | |]; try discriminate E. cbn [bind] in E. destruct (M3 _ _ _ eq_refl) as (f & r3 & -> & Hf & C3 & B3). clear M3 C2.
  match type of E with bind ?m _ = _ => set (m4 := m) in E end.
  assert (M4 : forall n b s, m4 = Ok (n, b, s) -> exists e rest, r3 = e ++ rest /\ exp_part e /\ cursor k rest n s /\ bytes_ok rest).
  { intros n b s Em. unfold m4 in Em. destruct ((n3 =? 101) || (n3 =? 69)) eqn:Q.
    - destruct (cursor_is _ _ _ _ C3 B3 ltac:(lia)) as (r & -> & A1). destruct (src_get s3) as [n4 s4] eqn:G1. destruct (n4 =? EOFc); [discriminate Em|].
      assert (Br : bytes_ok r) by now inversion B3. assert (C4 := cursor_get _ _ _ _ _ A1 G1). assert (He : n3 = 101 \/ n3 = 69) by lia.
      destruct ((n4 =? 45) || (n4 =? 43)) eqn:Q2.
      + destruct (cursor_is _ _ _ _ C4 Br ltac:(lia)) as (r' & -> & A2). destruct (src_get s4) as [n5 s5] eqn:G2. destruct (n5 =? EOFc); [discriminate Em|]. cbn [bind] in Em.
        assert (Br' : bytes_ok r') by now inversion Br.
        destruct (digits_took k _ _ _ _ _ _ _ _ (cursor_get _ _ _ _ _ A2 G2) Br' Em) as (ds & rest & -> & Hd & C5 & B5). exists (n3 :: n4 :: ds), rest. split; [reflexivity|].
        split; [apply xp_sign; [exact He|lia|exact Hd]|auto].
      + cbn [bind] in Em. destruct (digits_took k _ _ _ _ _ _ _ _ C4 Br Em) as (ds & rest & -> & Hd & C5 & B5). exists (n3 :: ds), rest. split; [reflexivity|]. split; [now apply xp_plain|auto].
    - assert (n3 = n /\ s3 = s) as [-> ->] by (split; congruence). exists [], r3. split; [reflexivity|]. split; [constructor|auto]. }
  destruct m4 as [[[n4 b4] s4]| | |]; try discriminate E. cbn [bind] in E. destruct (M4 _ _ _ eq_refl) as (e & r4 & -> & He & C4 & B4). clear M4 C3.
  destruct (if n4 =? EOFc then Ok s4 else src_unget s4) as [s5| | |] eqn:Q; try discriminate E. cbn [bind] in E. injection E as <-. cbn [l_src lset_buf lset_src l_null].
  split; [reflexivity|]. destruct (cursor_end _ _ _ _ C4 B4 _ Q) as [(x & r & -> & Hx & A5)|X]; [left|now right].
  exists (sg ++ i ++ f ++ e ++ x), r. split; [now rewrite <- !app_assoc|]. split; [now constructor|exact A5].
Qed.
