(** Imports of arbitrary JSON texts without undefined behaviour. *)
From Coq Require Import ZArith List Bool Lia ZifyBool.
From Verif Require Import Model.Base Model.Source Model.Number Model.Unicode Model.JsonLexer Model.ParserInterface Model.Types Model.JsonParser Model.Deserializer Model.Importer Model.Shared Model.Float
  Spec.JsonString Spec.Json Spec.Typed Spec.Import Spec.Safe Proofs.Tac Proofs.Induct Proofs.UnicodeP Proofs.CtlP Proofs.NumberP Proofs.AcceptP Proofs.JsonPartP Proofs.SafeP.
Import ListNotations.
Open Scope nat_scope.

Definition of_text_ (k : skind) (text : bytes) (s : src) : Prop := s_kind s = k /\ s_data s = text.
(** A source on which a value can be read. *)
Definition in_text_ (k : skind) (text : bytes) (s : src) : Prop := of_text_ k text s /\ (k = StrIn -> s_pos s <= length text /\ s_good s = true).
Section Json.
  Variables (k : skind) (text : bytes).
  Notation of_text := (of_text_ k text).
  Notation in_text := (in_text_ k text).
  Definition got (r : Z * src) : Prop := of_text (snd r) /\ (fst r <> EOFc -> 0 < s_pos (snd r)).

  Lemma get_got : forall s, of_text s -> got (src_get s).
  Proof.
    intros s [K D]. unfold src_get, got, of_text_. rewrite K. destruct k.
    - destruct (s_good s); [|cbn; split; [auto|intro H; now destruct H]]. destruct (s_rest s); cbn; (split; [auto|]); intro H; [now destruct H|lia].
    - destruct (strm_good s); [|cbn; split; [auto|intro H; now destruct H]]. destruct (s_rest s); cbn; (split; [auto|]); intro H; [now destruct H|lia].
  Qed.
  Lemma get_of : forall s n s', of_text s -> src_get s = (n, s') -> of_text s' /\ (n <> EOFc -> 0 < s_pos s').
  Proof. intros s n s' H E. assert (G := get_got s H). rewrite E in G. exact G. Qed.
  Lemma peek_of : forall s n s', of_text s -> src_peek s = (n, s') -> of_text s' /\ s_pos s' = s_pos s /\ (k = StrIn -> s' = s).
  Proof.
    intros s n s' [K D] E. unfold src_peek, of_text_ in *. rewrite K in E. destruct k.
    - destruct (s_rest s); injection E as <- <-; auto.
    - destruct (strm_good s); [|injection E as <- <-; cbn; repeat split; auto; discriminate]. destruct (s_rest s); injection E as <- <-; cbn; repeat split; auto; discriminate.
  Qed.
  Lemma unget_of : forall s, of_text s -> (k = StrIn -> 0 < s_pos s) -> safe of_text (src_unget s).
  Proof.
    intros s [K D] P. unfold src_unget. rewrite K. destruct k.
    - destruct (s_pos s); [specialize (P eq_refl); lia|]. cbn. split; auto.
    - destruct (s_good s); [|cbn; split; auto]. destruct (s_pos s); cbn; split; auto.
  Qed.
  Lemma ignore_of : forall s n, of_text s -> of_text (src_ignore s n).
  Proof. intros s n [K D]. unfold src_ignore. rewrite K. destruct k; [split; auto|]. destruct (strm_good s); [|split; auto]. destruct (Nat.leb _ _); split; auto. Qed.
  Lemma readTo_of : forall s dst d, of_text s -> safe (fun r => of_text (snd r)) (src_readTo s dst d).
  Proof.
    intros s dst d [K D]. unfold src_readTo. rewrite K. destruct k.
    - destruct (Nat.ltb _ _); [exact Logic.I|]. destruct (split_at d (s_rest s)). split; auto.
    - destruct (strm_good s); [|split; auto]. destruct (split_at d (s_rest s)) as [a [|]]; split; auto.
  Qed.
  Lemma readChar_of : forall s, of_text s -> of_text (snd (src_readChar s)).
  Proof.
    intros s [K D]. unfold src_readChar. rewrite K. destruct k.
    - destruct (skip_space (s_rest s)) as [m [|c r]]; split; auto.
    - destruct (strm_good s); [|split; auto]. destruct (skip_space (s_rest s)) as [m [|c r]]; split; auto.
  Qed.
  Lemma skip_space_fits : forall x n r, skip_space x = (n, r) -> length x = n + length r.
  Proof.
    induction x as [|c x IH]; intros n r E; cbn in E; [injection E as <- <-; reflexivity|]. destruct (is_space c); [|injection E as <- <-; reflexivity].
    destruct (skip_space x) as [m q]. injection E as <- <-. cbn. now rewrite (IH m q eq_refl).
  Qed.
  Lemma peekNext_of : forall s, of_text s -> safe (fun r => in_text (snd r)) (src_peekNextNonSpace s).
  Proof.
    intros s [K D]. unfold src_peekNextNonSpace, src_readChar. rewrite K. destruct k eqn:Ek.
    - destruct (skip_space (s_rest s)) as [m [|c r]] eqn:E.
      + cbn. split; [split; cbn; auto|]. cbn. intros _. unfold s_size. rewrite D. split; [lia|]. apply Nat.leb_refl.
      + assert (L := skip_space_fits _ _ _ E). unfold s_rest in L. rewrite skipn_length, D in L. cbn [length] in L.
        destruct (is_punct (schar c)); cbn [bind safe snd src_unget s_kind s_pos]; (split; [split; cbn; auto|]); cbn; intros _; unfold s_size; cbn; rewrite D; (split; [lia|]).
        * apply (proj2 (Nat.leb_le (S (s_pos s + m)) (length text))). lia.
        * apply Nat.leb_le. lia.
    - destruct (strm_good s); [|split; [split; auto|]; discriminate]. destruct (skip_space (s_rest s)) as [m [|c r]]; [split; [split; auto|discriminate]|].
      destruct (is_punct (schar c)); cbn; (split; [split; auto|]); discriminate.
  Qed.

  Lemma skip_string_of : forall fuel a b s, of_text s -> safe of_text (skip_string_loop fuel a b s).
  Proof.
    induction fuel as [|f IH]; intros a b s H; [exact Logic.I|]. cbn [skip_string_loop]. destruct (b =? EOFc)%Z; [exact Logic.I|]. destruct (_ && _); [exact H|].
    destruct (src_get s) as [n s'] eqn:E. apply IH. exact (proj1 (get_of _ _ _ H E)).
  Qed.
  Definition got3 (r : Z * bytes * src) : Prop := of_text (snd r) /\ (fst (fst r) <> EOFc -> 0 < s_pos (snd r)).
  Lemma to_char_eof : forall n, to_char n <> EOFc -> n <> EOFc.
  Proof. intros n H E. apply H. subst n. reflexivity. Qed.
  Lemma digits_of : forall fuel next buf s, of_text s -> (next <> EOFc -> 0 < s_pos s) -> safe got3 (read_digits_loop fuel next buf s).
  Proof.
    induction fuel as [|f IH]; intros next buf s H P; [exact Logic.I|]. cbn [read_digits_loop]. destruct (is_digit next); [|split; auto].
    destruct (src_get s) as [n s'] eqn:E. destruct (get_of _ _ _ H E) as [A B]. apply IH; [exact A|]. intro X. apply B. now apply to_char_eof.
  Qed.
  Lemma readDigits_of : forall fuel next buf s, of_text s -> (next <> EOFc -> 0 < s_pos s) -> safe got3 (readDigits fuel next buf s).
  Proof. intros fuel next buf s H P. unfold readDigits. destruct (is_digit (to_char next)); [|exact Logic.I]. apply digits_of; [exact H|]. intro X. apply P. now apply to_char_eof. Qed.

  Notation lfit := (fun l => of_text (l_src l)).
  Lemma readNumber_of : forall fuel l, lfit l -> safe lfit (lex_readNumber fuel l).
  Proof.
    intros fuel l H. unfold lex_readNumber. destruct (src_get (l_src l)) as [n0 s0] eqn:E0. assert (G0 := get_of _ _ _ H E0).
    apply (safe_bind got3).
    { destruct (_ || _); [|exact G0]. destruct (src_get s0) as [n s'] eqn:E. destruct (n =? EOFc)%Z; [exact Logic.I|]. exact (get_of _ _ _ (proj1 G0) E). }
    intros [[n1 b1] s1] G1. apply (safe_bind got3).
    { destruct (n1 =? 48)%Z; [|apply readDigits_of; apply G1]. destruct (src_get s1) as [n s'] eqn:E. exact (get_of _ _ _ (proj1 G1) E). }
    intros [[n2 b2] s2] G2. apply (safe_bind got3).
    { destruct (n2 =? 46)%Z; [|exact G2]. destruct (src_get s2) as [n s'] eqn:E. destruct (n =? EOFc)%Z; [exact Logic.I|]. apply readDigits_of; apply (get_of _ _ _ (proj1 G2) E). }
    intros [[n3 b3] s3] G3. apply (safe_bind got3).
    { destruct (_ || _); [|exact G3]. destruct (src_get s3) as [n s'] eqn:E. assert (G := get_of _ _ _ (proj1 G3) E). destruct (n =? EOFc)%Z; [exact Logic.I|]. apply (safe_bind got3).
      - destruct (_ || _); [|exact G]. destruct (src_get s') as [n' s''] eqn:E'. destruct (n' =? EOFc)%Z; [exact Logic.I|]. exact (get_of _ _ _ (proj1 G) E').
      - intros [[n4 b4] s4] G4. apply readDigits_of; apply G4. }
    intros [[n4 b4] s4] [G4 P4]. cbn [fst snd] in *. apply (safe_bind of_text).
    { destruct (Z.eqb_spec n4 EOFc); [exact G4|]. apply unget_of; auto. }
    intros s5 G5. exact G5.
  Qed.
  Lemma ignoreRaw_of : forall fuel l, lfit l -> safe lfit (ignoreRawValue fuel l).
  Proof.
    intros fuel l H. unfold ignoreRawValue. destruct (l_tok l); try exact H; try (apply ignore_of; exact H); [now apply readNumber_of|].
    destruct (src_get (l_src l)) as [a s1] eqn:E1. destruct (src_get s1) as [b s2] eqn:E2. assert (G1 := get_of _ _ _ H E1). assert (G2 := get_of _ _ _ (proj1 G1) E2).
    eapply safe_bind; [apply skip_string_of; apply G2|]. intros s3 H3. exact H3.
  Qed.
  Lemma string_loop_of : forall fuel v tmp s, of_text s -> safe (fun r => of_text (snd r)) (string_loop fuel v tmp s).
  Proof.
    induction fuel as [|f IH]; intros v tmp s H; [exact Logic.I|]. cbn [string_loop]. eapply safe_bind; [exact (readTo_of s tmp 34 H)|]. intros [tmp' s'] H'. cbn [snd] in H'.
    destruct (checkEscape tmp'); [now apply IH|exact H'].
  Qed.
  Lemma unescape_safe : forall raw, safe (fun _ => True) (unescape_inplace raw).
  Proof. intro raw. rewrite unescape_inplace_dec. destruct (dec_cases (length raw) raw (Nat.le_refl _)) as [[v E]|E]; rewrite E; exact Logic.I. Qed.
  Lemma stringInto_of : forall fuel conv l, lfit l -> safe (fun r => lfit (snd r)) (getStringInto fuel conv l).
  Proof.
    intros fuel conv l H. unfold getStringInto. destruct (src_get (l_src l)) as [n s] eqn:E. assert (G := get_of _ _ _ H E). destruct (negb _); [exact Logic.I|].
    eapply safe_bind; [apply readTo_of; apply G|]. intros [v s1] H1. cbn [snd] in H1. apply (safe_bind (fun r => of_text (snd r))).
    { destruct (checkEscape v); [now apply string_loop_of|exact H1]. }
    intros [v2 s2] H2. cbn [snd] in H2. apply (safe_bind (fun _ => True)); [destruct conv; [apply unescape_safe|exact Logic.I]|]. intros v3 _. exact H2.
  Qed.
  Lemma string_of : forall fuel conv l, lfit l -> safe (fun r => lfit (snd r)) (getString fuel conv l).
  Proof. intros fuel conv l H. unfold getString. eapply safe_bind; [exact (stringInto_of fuel conv l H)|]. intros [v l'] H'. exact H'. Qed.
  Lemma read_of : forall s n, in_text s -> safe (fun r => of_text (snd r)) (src_read s n).
  Proof.
    intros s n [[K D] P]. unfold src_read. rewrite K. destruct k eqn:Ek.
    - destruct (P eq_refl) as [L _]. unfold s_size. rewrite D. assert (N : Nat.ltb (length text) (s_pos s) = false) by (apply Nat.ltb_ge; exact L). rewrite N. split; auto.
    - destruct (strm_good s); [|split; auto]. destruct (Nat.ltb _ _); split; auto.
  Qed.
  Lemma bool_of : forall l, in_text (l_src l) -> safe (fun r => lfit (snd r)) (getLastBool l).
  Proof.
    assert (C : forall l c, in_text (l_src l) -> safe lfit (checkFixed l c)).
    { intros l c H. unfold checkFixed. eapply safe_bind; [exact (read_of _ _ H)|]. intros [g s] Hs. cbn [snd] in Hs. destruct (beq _ _); [exact Hs|exact Logic.I]. }
    intros l H. unfold getLastBool. destruct (l_tok l); try exact Logic.I; (eapply safe_bind; [exact (C l _ H)|]); intros l' Hl; exact Hl.
  Qed.
  Lemma checkZero_in : forall s, in_text s -> safe (fun s0 => of_text s0 /\ (k = StrIn -> s_pos s0 <= length text)) (checkZero s).
  Proof.
    intros s [O P]. unfold checkZero. destruct (src_peek s) as [p s1] eqn:E1. destruct (peek_of _ _ _ O E1) as (O1 & P1 & Q1). destruct (Z.eqb_spec p 48) as [Ep|]; [|split; [exact O1|rewrite P1; intro X; now apply P]].
    destruct (src_get s1) as [c s2] eqn:E2. destruct (src_peek s2) as [p2 s3] eqn:E3. assert (O2 := proj1 (get_of _ _ _ O1 E2)). destruct (peek_of _ _ _ O2 E3) as (O3 & P3 & Q3). destruct (_ && _); [exact Logic.I|].
    destruct k eqn:Ek.
    - specialize (P eq_refl). specialize (Q1 eq_refl). subst s1. destruct P as [L G]. destruct O as [K D].
      assert (N : s_rest s <> []). { intro N. unfold src_peek in E1. rewrite K, N in E1. injection E1 as <-. discriminate Ep. }
      unfold src_get in E2. rewrite K, G in E2. destruct (s_rest s) as [|c0 r]; [congruence|]. injection E2 as _ <-. rewrite (Q3 eq_refl). cbn [src_unget set_pos s_kind s_pos]. unfold src_unget. cbn [s_kind s_pos set_pos]. rewrite K.
      cbn. split; [split; cbn; auto|intros _; exact L].
    - eapply safe_weak; [apply unget_of; [rewrite Ek; exact O3|rewrite Ek; discriminate]|]. intros a Ha. rewrite Ek in Ha. split; [exact Ha|discriminate].
  Qed.
  Lemma small_chars : forall i x n, small_numbers x i -> from_chars i x <> FcRange n.
  Proof.
    intros i x n H.
    assert (G : forall (neg : bool) n0 s1 pre, x = pre ++ s1 -> (neg = true -> i_signed i = true) ->
      (let '(ds, _) := span_digits s1 in match ds with [] => FcInvalid | _ => let v := if neg then (- dec_value ds)%Z else dec_value ds in let n := n0 + length ds in if i_in i v then FcOk v n else FcRange n end) <> FcRange n).
    { intros neg n0 s1 pre Ex Hs. destruct (span_digits s1) as [ds q] eqn:E. destruct (span_digits_split _ _ _ E) as [Es Hd]. destruct ds as [|d ds]; [discriminate|].
      assert (Fi := H pre (d :: ds) q ltac:(rewrite Ex, Es; reflexivity) Hd). rewrite dec_value_digits.
      assert (I : i_in i (if neg then - digits_value 0 (d :: ds) else digits_value 0 (d :: ds)) = true).
      { assert (N : (0 <= digits_value 0 (d :: ds))%Z).
        { rewrite <- dec_value_digits. assert (G : forall l a, Forall digit l -> (0 <= a)%Z -> (0 <= fold_left (fun a d => 10 * a + (d - 48)) l a)%Z).
          { induction l as [|c l IH]; intros a Fl Ha; [exact Ha|]. inversion Fl; subst. cbn [fold_left]. apply IH; [assumption|]. unfold digit in *. lia. }
          unfold dec_value. apply G; [exact Hd|lia]. }
        unfold fits, i_in, i_min, i_max in *. destruct neg; [rewrite (Hs eq_refl) in *|]; destruct (i_signed i); try lia. }
      cbv zeta. rewrite I. discriminate. }
    unfold from_chars. destruct x as [|c x']; [discriminate|]. destruct ((c =? 45)%Z && i_signed i) eqn:B.
    - apply (G true 1 x' [c]); [reflexivity|]. intros _. now apply andb_prop in B as [_ B].
    - apply (G false 0 (c :: x') []); [reflexivity|discriminate].
  Qed.
  Lemma rest_small : forall s i, of_text s -> small_numbers text i -> small_numbers (s_rest s) i.
  Proof. intros s i [_ D] H a ds b E. apply (H (firstn (s_pos s) text ++ a) ds b). rewrite <- app_assoc, <- E. unfold s_rest. rewrite D. symmetry. apply firstn_skipn. Qed.
  Lemma validate_of : forall o s b s', of_text s -> validateResult o s = (b, s') -> of_text s' /\ (b = true -> o = true).
  Proof. intros o s b s' H E. unfold validateResult in E. destruct (src_peek s) as [c s1] eqn:Ep. injection E as <- <-. split; [exact (proj1 (peek_of _ _ _ H Ep))|]. destruct o; [reflexivity|]. intro X. cbn in X. exact X. Qed.
  Lemma number_stream_of : forall i s r s', k = Strm -> of_text s -> readNumber_stream i s = (r, s') -> of_text s'.
  Proof.
    intros i s r s' Ek O E. unfold readNumber_stream in E. destruct (i_signed i).
    - destruct (src_peek s) as [p s1] eqn:E1. destruct (peek_of _ _ _ O E1) as (O1 & _).
      assert (O2 : of_text (if (p =? 45)%Z then snd (src_get s1) else s1)) by (destruct (p =? 45)%Z; [apply get_got; exact O1|exact O1]).
      destruct (strm_good _); [|injection E as <- <-; exact O2]. destruct (num_get_unsigned _ _) as [v n]. destruct (Nat.eqb n 0); injection E as <- <-; exact O2.
    - destruct (strm_good s); [|injection E as <- <-; exact O]. destruct (num_get_unsigned _ _) as [v n]. destruct (Nat.eqb n 0); injection E as <- <-; exact O.
  Qed.
  Lemma int_of : forall i l, no_overflow k text i -> in_text (l_src l) -> safe (fun r => lfit (snd r)) (lex_scanInt i l).
  Proof.
    intros i l H P. unfold lex_scanInt. apply (safe_bind (fun r => of_text (snd r))); [|intros [z s] Hs; exact Hs]. unfold src_scanInt. eapply safe_bind; [exact (checkZero_in _ P)|]. intros s0 [O0 P0].
    assert (O0' := O0). destruct O0 as [K0 D0]. destruct (s_kind s0) eqn:K1; symmetry in K0; rename K0 into Ek.
    - unfold s_size at 1. rewrite D0. assert (N : Nat.ltb (length text) (s_pos s0) = false) by (apply Nat.ltb_ge; now apply P0). rewrite N.
      assert (Sm := rest_small s0 i O0' (H Ek)). destruct (from_chars i (s_rest s0)) as [|n|v n] eqn:Fc.
      + destruct (validateResult false s0) as [b s2] eqn:V. destruct (validate_of _ _ _ _ O0' V) as [_ X]. destruct b; [discriminate (X eq_refl)|exact Logic.I].
      + exfalso. exact (small_chars i _ n Sm Fc).
      + set (s1 := mkSrc StrIn _ _ _ _). assert (O1 : of_text s1) by (unfold s1, of_text_; cbn; auto). destruct (validateResult true s1) as [b s2] eqn:V. destruct (validate_of _ _ _ _ O1 V) as [O2 _]. destruct b; [exact O2|exact Logic.I].
    - destruct (readNumber_stream i s0) as [r s1] eqn:R. assert (O1 := number_stream_of _ _ _ _ Ek O0' R). destruct (validateResult _ s1) as [b s2] eqn:V. destruct (validate_of _ _ _ _ O1 V) as [O2 _].
      destruct b; [|exact Logic.I]. destruct r; [exact O2|exact Logic.I].
  Qed.
  Lemma flt_of_safe : forall f l, k = Strm -> in_text (l_src l) -> safe (fun r => lfit (snd r)) (lex_scanFlt f l).
  Proof.
    intros f l Ek P. unfold lex_scanFlt. apply (safe_bind (fun r => of_text (snd r))); [|intros [z s] Hs; exact Hs]. unfold src_scanFlt. eapply safe_bind; [exact (checkZero_in _ P)|]. intros s0 [O0 P0].
    assert (K : s_kind s0 = Strm) by (rewrite <- Ek; apply O0). rewrite K. unfold readNumber_flt. destruct (strm_good s0); [|exact Logic.I]. destruct (num_get_flt f (s_rest s0)) as [v n]. destruct (Nat.eqb n 0); [exact Logic.I|exact O0].
  Qed.

  (** The nesting: the innermost end state first; outside of everything it is JDone. *)
  Fixpoint nested (e : jstate) (ps : list jstate) : Prop := match ps with [] => e = JDone | p :: ps => e <> JDone /\ nested p ps end.
  Definition within (st : jstate) : bool := match st with JInit | JDone | JError | JValueD => false | _ => true end.
  Definition placed (c : jctl) : Prop := nested (c_end c) (c_parents c) /\ (within (c_state c) = true -> c_end c <> JDone).
  Lemma step_placed : forall c n, placed c -> ctl_early c = None ->
    safe (fun r => match r with StepTok _ c' | StepAgain c' => placed c' end) (ctl_step c n).
  Proof.
    intros [ps e st b] n [N W] Ee. cbn [c_parents c_end c_state] in *. unfold ctl_early in Ee. cbn [c_started c_state] in Ee. destruct b; [|discriminate Ee]. cbn [negb] in Ee.
    assert (C : within st = true -> exists p q, ps = p :: q /\ nested p q).
    { intro H. specialize (W H). destruct ps as [|p q]; [cbn in N; congruence|]. exists p, q. split; [reflexivity|]. apply N. }
    assert (Inside : within (stateTable st n) = true -> st <> JInit -> within st = true).
    { intros H Hi. destruct st; try reflexivity; try (cbn in H; discriminate H); congruence. }
    assert (Init : st = JInit -> stateTable st n = JOpenM \/ stateTable st n = JOpenA \/ stateTable st n = JValueD \/ stateTable st n = JError).
    { intros ->. do 14 (destruct n as [|n]; [cbn; auto|]). cbn; auto. }
    unfold ctl_step. cbn [c_parents c_end c_state c_started]. destruct (stateTable st n) eqn:T; try exact Logic.I; unfold placed; cbn [safe c_parents c_end c_state];
      try (split; [exact N|]; intros H; apply W; apply Inside; [reflexivity|intro X; destruct (Init X) as [Y|[Y|[Y|Y]]]; discriminate Y]; fail);
      try (split; [exact N|discriminate]; fail); try (cbn [nested]; split; [split; [discriminate|exact N]|discriminate]; fail).
    - destruct C as (p & q & -> & Np); [apply Inside; [reflexivity|intro X; destruct (Init X) as [Y|[Y|[Y|Y]]]; discriminate Y]|]. cbn. split; [exact Np|]. intros H X. subst p. discriminate H.
    - destruct C as (p & q & -> & Np); [apply Inside; [reflexivity|intro X; destruct (Init X) as [Y|[Y|[Y|Y]]]; discriminate Y]|]. cbn. split; [exact Np|]. intros H X. subst p. discriminate H.
  Qed.

  Definition jfit (p : jparser) : Prop := of_text (l_src (jp_lex p)) /\ placed (jp_ctl p).
  Definition jready (p : jparser) : Prop := in_text (l_src (jp_lex p)) /\ placed (jp_ctl p).
  Lemma yylex_of : forall l, lfit l -> safe (fun r => in_text (l_src (snd r))) (yylex l).
  Proof.
    intros l H. unfold yylex. eapply safe_bind; [exact (peekNext_of _ H)|]. intros [c s] Hs. cbn [snd] in Hs. repeat match goal with |- context [if ?b then _ else _] => destruct b end; exact Hs.
  Qed.
  Lemma next_safe : forall p, jfit p -> safe (fun r => jfit (snd r) /\ (fst r = TokValue -> jready (snd r))) (jp_next p).
  Proof.
    unfold jp_next. generalize 3. induction n as [|n IH]; intros p [O P]; [exact Logic.I|]. cbn [jp_next_loop]. destruct (ctl_early (jp_ctl p)) as [[t c]|] eqn:E.
    - assert (X : placed c /\ t <> TokValue).
      { unfold ctl_early in E. destruct (c_started (jp_ctl p)); cbn [negb] in E; [|injection E as <- <-; split; [exact P|discriminate]].
        destruct (c_state (jp_ctl p)) eqn:S1; try discriminate E; injection E as <- <-; (split; [|discriminate]); [exact P|]. destruct P as [P1 _]. split; [exact P1|discriminate]. }
      cbn. split; [split; [exact O|apply X]|]. intro Y. now destruct X.
    - eapply safe_bind; [exact (yylex_of _ O)|]. intros [ix l] H. cbn [snd] in H. eapply safe_bind; [exact (step_placed _ ix P E)|]. intros [t c|c] Hc; [|apply IH; split; [apply H|exact Hc]].
      cbn. split; [split; [apply H|exact Hc]|]. intros _. split; [exact H|exact Hc].
  Qed.
  Lemma lift_fit : forall {A} (f : jlex -> outcome (A * jlex)) p, jfit p -> safe (fun r => lfit (snd r)) (f (jp_lex p)) -> safe (fun r => jfit (snd r)) (jp_lift f p).
  Proof. intros A f p [_ P] H. unfold jp_lift. eapply safe_bind; [exact H|]. intros [a l] Hl. split; [exact Hl|exact P]. Qed.
  Lemma lift_fit_ : forall f p, jfit p -> safe lfit (f (jp_lex p)) -> safe jfit (jp_lift_ f p).
  Proof. intros f p [_ P] H. unfold jp_lift_. eapply safe_bind; [exact H|]. intros l Hl. split; [exact Hl|exact P]. Qed.
  Lemma ready_fit : forall p, jready p -> jfit p.
  Proof. intros p [[H _] P]. split; assumption. Qed.

  (** A run: the whole import. *)
  Lemma run_safe : forall {V} fuel cfg (parse : pst jparser -> outcome (V * pst jparser)),
    (forall p, at_ease jfit jready p -> safe (fun r => at_ease jfit jready (snd r)) (parse p)) -> json_run fuel cfg parse (src_init k text) <> UB.
  Proof.
    intros V fuel cfg parse H. assert (Tk : forall p, jfit (ps_impl p) -> safe (fun r => True) (getToken (json_ops fuel (pc_conv cfg)) p)).
    { intros p Hp. unfold getToken. destruct (negb _); [exact Logic.I|]. destruct (negb _); [exact Logic.I|]. unfold lift. eapply safe_bind; [exact (next_safe _ Hp)|]. intros [t s] _. exact Logic.I. }
    assert (X : safe (fun _ => True) (json_run fuel cfg parse (src_init k text))); [|destruct (json_run fuel cfg parse (src_init k text)); try discriminate; destruct X].
    unfold json_run. assert (I : at_ease jfit jready (pst_init (mkJp (lex_init (src_init k text)) ctl_init))).
    { unfold at_ease. cbn. repeat split; try discriminate. }
    eapply safe_bind; [apply (token_safe (json_ops fuel (pc_conv cfg)) jfit jready next_safe _ I)|]. intros [tk p] [C _]. cbn [fst snd] in *. destruct tk; try exact Logic.I.
    eapply safe_bind; [apply H; now apply clean_ease|]. intros [v' p1] [[O1 P1] _]. cbn [snd] in *.
    apply (safe_bind of_text).
    { unfold check_trailing. destruct (_ && _); [|exact O1]. assert (R := readChar_of _ O1). destruct (src_readChar _) as [x s1]. cbn [snd] in R. destruct (src_ok s1); [exact Logic.I|]. exact R. }
    intros s1 O2. eapply safe_bind; [apply Tk; split; [exact O2|exact P1]|]. intros [tk p2] _. destruct tk; exact Logic.I.
  Qed.
End Json.

Theorem json_defined : forall k text fuel cfg t v, wf t = true -> shaped t v = true -> roomy (no_overflow k text) t ->
  json_extract fuel cfg t v (src_init k text) <> ImpUB.
Proof.
  intros k text fuel cfg t v W S R E. unfold json_extract in E.
  assert (X : json_try fuel cfg t v (src_init k text) <> UB).
  { apply (run_safe k text fuel cfg (d_parse (deser (json_ops fuel (pc_conv cfg)) fuel (pc_strict cfg) (pc_marker cfg) t) v)). intros p P.
    eapply safe_weak; [apply (proj1 (deser_safe (json_ops fuel (pc_conv cfg)) fuel (pc_strict cfg) (pc_marker cfg) (no_overflow k text) (jfit k text) (jready k text)
      (ready_fit k text) (next_safe k text)
      (fun s H => lift_fit k text _ s H (string_of k text fuel (pc_conv cfg) _ (proj1 H)))
      (fun s H => lift_fit k text _ s H (stringInto_of k text fuel (pc_conv cfg) _ (proj1 H)))
      (fun i s Hi H => lift_fit k text _ s (ready_fit k text s H) (int_of k text i _ Hi (proj1 H)))
      (fun s H => lift_fit k text _ s (ready_fit k text s H) (bool_of k text _ (proj1 H)))
      (fun s H => lift_fit_ k text _ s H (ignoreRaw_of k text fuel _ (proj1 H))) (fun b s H => H) (fun b s H => H) t W R) v p S P)|].
    intros a [_ Y]. exact Y. }
  destruct (json_try fuel cfg t v (src_init k text)) as [[v' s']| | |]; try discriminate E. now destruct X.
Qed.

Lemma roomy_weak : forall (P Q : ity -> Prop) t, (forall i, P i -> Q i) -> roomy P t -> roomy Q t.
Proof.
  intros P Q t H. assert (F : forall l, Forall (fun t => roomy P t -> roomy Q t) l -> fold_right (fun t R => roomy P t /\ R) True l -> fold_right (fun t R => roomy Q t /\ R) True l).
  { induction 1 as [|x l Hx Hl IH]; [auto|]. intros [A B]. split; auto. }
  induction t using ty_ind'; cbn [roomy]; auto; intros [A B]; split; auto.
Qed.
(** With floating point numbers, from streams. *)
Theorem flt_defined : forall text fuel cfg t v, wf t = true -> shaped t v = true -> roomy (fun _ => True) t ->
  flt_try fuel cfg t v (src_init Strm text) <> UB.
Proof.
  intros text fuel cfg t v W S R. set (k := Strm).
  apply (run_safe k text fuel cfg (d_parse (deser (flt_ops fuel (pc_conv cfg)) fuel (pc_strict cfg) (pc_marker cfg) t) v)). intros p P.
  assert (HI : forall i s, True -> jready k text s -> safe (fun r => jfit k text (snd r)) (op_int (flt_ops fuel (pc_conv cfg)) i s)).
  { intros i s _ H. cbn [op_int flt_ops]. destruct (flt_of i) as [f|].
    - exact (lift_fit k text _ s (ready_fit k text s H) (flt_of_safe k text f _ eq_refl (proj1 H))).
    - apply (lift_fit k text _ s (ready_fit k text s H)). apply (int_of k text i); [intro E; discriminate E|exact (proj1 H)]. }
  eapply safe_weak; [apply (proj1 (deser_safe (flt_ops fuel (pc_conv cfg)) fuel (pc_strict cfg) (pc_marker cfg) (fun _ => True) (jfit k text) (jready k text)
      (ready_fit k text) (next_safe k text)
      (fun s H => lift_fit k text _ s H (string_of k text fuel (pc_conv cfg) _ (proj1 H)))
      (fun s H => lift_fit k text _ s H (stringInto_of k text fuel (pc_conv cfg) _ (proj1 H)))
      HI
      (fun s H => lift_fit k text _ s (ready_fit k text s H) (bool_of k text _ (proj1 H)))
      (fun s H => lift_fit_ k text _ s H (ignoreRaw_of k text fuel _ (proj1 H))) (fun b s H => H) (fun b s H => H) t W R) v p S P)|].
  intros a [_ Y]. exact Y.
Qed.
