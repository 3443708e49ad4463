(** A JSON parser never goes back, and every opening brace it reports is one byte further. *)
From Coq Require Import ZArith List Bool Lia ZifyBool.
From Verif Require Import Model.Base Model.Source Model.Unicode Model.Number Model.JsonLexer Model.ParserInterface Model.JsonParser Model.Types Model.Deserializer
  Proofs.UnicodeP Proofs.Induct.
Import ListNotations.
Open Scope Z_scope.

(** ** Sources *)
Definition rem (s : src) : nat := (length (s_data s) - s_pos s)%nat.
(** A StringInput that is not good is beyond its end. *)
Definition sound (s : src) : Prop := s_kind s = StrIn -> s_good s = true \/ (length (s_data s) < s_pos s)%nat.
Definition fwd (s s' : src) : Prop := sound s -> sound s' /\ (rem s' <= rem s)%nat.
Lemma fwd_refl : forall s, fwd s s. Proof. intros s H. auto. Qed.
Lemma fwd_trans : forall a b c, fwd a b -> fwd b c -> fwd a c.
Proof. intros a b c H1 H2 Sd. destruct (H1 Sd) as [S1 R1]. destruct (H2 S1) as [S2 R2]. split; [exact S2|lia]. Qed.
Lemma rest_rem : forall s, length (s_rest s) = rem s.
Proof. intro s. unfold s_rest, rem. apply skipn_length. Qed.

Ltac src_solve := unfold sound, rem, set_pos, set_good, set_flags in *; cbn [s_kind s_data s_pos s_good s_eof] in *; try (intros; split; [|lia]); try (intro; try discriminate; first [left; (reflexivity || assumption) | right; lia | lia]).

Lemma get_fwd : forall s, sound s -> sound (snd (src_get s)) /\ (rem (snd (src_get s)) <= rem s)%nat /\ (fst (src_get s) <> EOFc -> (S (rem (snd (src_get s))) <= rem s)%nat).
Proof.
  intros s Sd. unfold src_get. assert (R := rest_rem s). destruct (s_kind s) eqn:K.
  - destruct (s_good s) eqn:G; [|cbn [fst snd]; split; [exact Sd|split; [lia|congruence]]]. destruct (s_rest s) as [|c r]; cbn [fst snd length] in *; [split; [exact Sd|split; [lia|congruence]]|].
    split; [unfold sound, set_pos; cbn; intros _; left; exact G|]. unfold rem in *. cbn [set_pos s_data s_pos]. lia.
  - destruct (strm_good s); [|cbn; split; [unfold sound; cbn; congruence|]; split; [unfold rem; cbn; lia|congruence]].
    destruct (s_rest s) as [|c r]; cbn [fst snd length] in *; (split; [unfold sound; cbn; congruence|]); unfold rem in *; cbn [set_pos set_flags s_data s_pos]; split; try lia; congruence.
Qed.
Lemma peek_fwd : forall s, sound s -> sound (snd (src_peek s)) /\ rem (snd (src_peek s)) = rem s.
Proof.
  intros s Sd. unfold src_peek. destruct (s_kind s) eqn:K.
  - destruct (s_rest s); cbn; auto.
  - destruct (strm_good s); [|cbn; split; [unfold sound; cbn; congruence|reflexivity]]. destruct (s_rest s); cbn [snd]; [|auto]. split; [unfold sound; cbn; congruence|reflexivity].
Qed.
Lemma unget_fwd : forall s s', src_unget s = Ok s' -> sound s' /\ (rem s' <= S (rem s))%nat.
Proof.
  intros s s' E. unfold src_unget in E. destruct (s_kind s) eqn:K.
  - destruct (s_pos s) as [|p] eqn:P; [discriminate E|]. apply Ok_inj in E. subst s'. unfold sound, rem, s_size. cbn [s_kind s_good s_data s_pos].
    split; [|rewrite P; lia]. intros _. destruct (Nat.leb_spec p (length (s_data s))); [now left|right; lia].
  - destruct (s_good s); [destruct (s_pos s) as [|p] eqn:P|]; apply Ok_inj in E; subst s'; (split; [unfold sound; cbn; congruence|]); unfold rem; cbn [set_flags s_data s_pos]; try rewrite P; lia.
Qed.
Lemma leb_sound : forall d p, sound (mkSrc StrIn d p (Nat.leb p (length d)) false).
Proof. intros d p _. cbn [s_good s_data s_pos]. destruct (Nat.leb_spec p (length d)); [now left|right; lia]. Qed.
Lemma strm_sound : forall d p g e, sound (mkSrc Strm d p g e).
Proof. intros d p g e H. discriminate H. Qed.
Lemma ignore_fwd : forall s n, fwd s (src_ignore s n).
Proof.
  intros s n Sd. unfold src_ignore. destruct (s_kind s) eqn:K.
  - unfold s_size. split; [apply leb_sound|]. unfold rem. cbn [s_data s_pos]. lia.
  - destruct (strm_good s); [destruct (Nat.leb n (length (s_rest s)))|]; (split; [unfold sound; cbn; congruence|]); unfold rem, set_pos, set_good, s_size; cbn [s_data s_pos]; lia.
Qed.
Lemma read_fwd : forall s n a s', src_read s n = Ok (a, s') -> fwd s s'.
Proof.
  intros s n a s' E Sd. unfold src_read in E. destruct (s_kind s) eqn:K.
  - destruct (Nat.ltb (s_size s) (s_pos s)); [discriminate E|]. apply Ok_inj in E. apply (f_equal snd) in E. cbn [snd] in E. subst s'. split; [intro; now left|]. unfold rem. cbn [s_data s_pos]. lia.
  - destruct (strm_good s); [destruct (Nat.ltb _ n)|]; apply Ok_inj in E; apply (f_equal snd) in E; cbn [snd] in E; subst s'; (split; [unfold sound; cbn; congruence|]); unfold rem, set_good; cbn [s_data s_pos]; lia.
Qed.
Lemma readTo_fwd : forall s dst d a s', src_readTo s dst d = Ok (a, s') -> fwd s s'.
Proof.
  intros s dst d a s' E Sd. unfold src_readTo in E. destruct (s_kind s) eqn:K.
  - destruct (Nat.ltb (s_size s) (s_pos s)); [discriminate E|]. destruct (split_at d (s_rest s)) as [b f]. apply Ok_inj in E. apply (f_equal snd) in E. cbn [snd] in E. subst s'.
    unfold s_size. split; [apply leb_sound|]. unfold rem. cbn [s_data s_pos]. lia.
  - destruct (strm_good s); [destruct (split_at d (s_rest s)) as [b [|]]|]; apply Ok_inj in E; apply (f_equal snd) in E; cbn [snd] in E; subst s'; (split; [unfold sound; cbn; congruence|]); unfold rem, set_good, s_size; cbn [s_data s_pos]; lia.
Qed.
(** A punctuation character is taken. *)
Lemma skip_space_len : forall t n r, skip_space t = (n, r) -> length t = (n + length r)%nat.
Proof.
  induction t as [|c t IH]; intros n r E; cbn [skip_space] in E.
  - injection E as <- <-. reflexivity.
  - destruct (is_space c); [|injection E as <- <-; reflexivity]. destruct (skip_space t) as [a b]. injection E as <- <-. cbn [length]. rewrite (IH a b eq_refl). lia.
Qed.
Lemma peekNext_fwd : forall s c s', src_peekNextNonSpace s = Ok (c, s') -> sound s -> sound s' /\ (rem s' <= rem s)%nat /\ (is_punct c = true -> (S (rem s') <= rem s)%nat).
Proof.
  intros s c s' E Sd. unfold src_peekNextNonSpace, src_readChar in E. assert (R := rest_rem s). destruct (s_kind s) eqn:K.
  - destruct (skip_space (s_rest s)) as [n r] eqn:Sk. apply skip_space_len in Sk. destruct r as [|x r].
    + change (is_punct EOFc) with false in E. cbn [bind] in E. unfold src_unget in E. cbn [s_kind s_pos bind] in E. apply Ok_inj in E.
      assert (E1 := f_equal fst E). apply (f_equal snd) in E. cbn [fst snd] in *. subst c s'. split; [intros _; cbn [s_good s_data]; left; unfold s_size; cbn [s_data]; apply Nat.leb_refl|].
      unfold rem, s_size. cbn [s_data s_pos]. split; [lia|discriminate].
    + cbn [length] in Sk. destruct (is_punct (schar x)) eqn:Pu.
      * apply Ok_inj in E. assert (E1 := f_equal fst E). apply (f_equal snd) in E. cbn [fst snd] in *. subst c s'. unfold s_size. split; [apply leb_sound|].
        unfold rem in *. cbn [s_data s_pos]. lia.
      * unfold src_unget in E. cbn [s_kind s_pos bind] in E. apply Ok_inj in E. assert (E1 := f_equal fst E). apply (f_equal snd) in E. cbn [fst snd] in *. subst c s'. unfold s_size. cbn [s_data].
        split; [apply leb_sound|]. unfold rem in *. cbn [s_data s_pos]. split; [lia|congruence].
  - destruct (strm_good s).
    + destruct (skip_space (s_rest s)) as [n r] eqn:Sk. apply skip_space_len in Sk. destruct r as [|x r].
      * apply Ok_inj in E. assert (E1 := f_equal fst E). apply (f_equal snd) in E. cbn [fst snd] in *. subst c s'. split; [apply strm_sound|]. unfold rem, s_size. cbn [s_data s_pos]. split; [lia|discriminate].
      * cbn [length] in Sk. destruct (is_punct (schar x)) eqn:Pu.
        -- apply Ok_inj in E. assert (E1 := f_equal fst E). apply (f_equal snd) in E. cbn [fst snd] in *. subst c s'. split; [apply strm_sound|]. unfold rem in *. cbn [s_data s_pos]. lia.
        -- unfold src_unget in E. cbn [s_kind s_good s_pos bind] in E. apply Ok_inj in E. assert (E1 := f_equal fst E). apply (f_equal snd) in E. cbn [fst snd] in *. subst c s'.
           split; [apply strm_sound|]. unfold rem in *. cbn [s_data s_pos]. split; [lia|congruence].
    + apply Ok_inj in E. assert (E1 := f_equal fst E). apply (f_equal snd) in E. cbn [fst snd] in *. subst c s'. split; [unfold sound; cbn; congruence|]. unfold rem, set_good. cbn [s_data s_pos]. split; [lia|discriminate].
Qed.

(** ** Lexer *)
Lemma yylex_fwd : forall l ix l', yylex l = Ok (ix, l') -> sound (l_src l) -> sound (l_src l') /\ (rem (l_src l') <= rem (l_src l))%nat /\ (ix = 1%nat \/ ix = 3%nat -> (S (rem (l_src l')) <= rem (l_src l))%nat).
Proof.
  intros l ix l' E Sd. unfold yylex in E. destruct (src_peekNextNonSpace (l_src l)) as [[c s]| | |] eqn:P; try discriminate E. cbn [bind] in E.
  destruct (peekNext_fwd _ _ _ P Sd) as (S1 & R1 & R2).
  repeat match type of E with (if ?a =? ?b then _ else _) = _ => destruct (Z.eqb_spec a b); [apply Ok_inj in E; assert (E1 := f_equal fst E); apply (f_equal snd) in E; cbn [fst snd] in *; subst l' ix; cbn [l_src]; (split; [exact S1|]); (split; [exact R1|]); first [intros _; apply R2; subst c; reflexivity|intros [H|H]; discriminate H]|] end.
  apply Ok_inj in E; assert (E1 := f_equal fst E); apply (f_equal snd) in E; cbn [fst snd] in *; subst l' ix; cbn [l_src]. split; [exact S1|]. split; [exact R1|intros [H|H]; discriminate H].
Qed.
Lemma checkZero_fwd : forall s s', checkZero s = Ok s' -> fwd s s'.
Proof.
  intros s s' E Sd. unfold checkZero in E. assert (P := peek_fwd s Sd). assert (P0 : fst (src_peek s) = 48 -> s_kind s = StrIn -> s_rest s <> []).
  { unfold src_peek. intros Q K. rewrite K in Q. destruct (s_rest s); [discriminate Q|discriminate]. }
  assert (P1 : fst (src_peek s) = 48 -> snd (src_peek s) = s /\ (s_kind s = Strm -> strm_good s = true) /\ s_rest s <> []).
  { unfold src_peek. destruct (s_kind s); [destruct (s_rest s); cbn [fst snd]; [discriminate|intros _; split; [reflexivity|]; split; [discriminate|discriminate]]|].
    destruct (strm_good s); [|discriminate]. destruct (s_rest s); cbn [fst snd]; [discriminate|]. intros _. auto. split; [reflexivity|]. split; [reflexivity|discriminate]. }
  destruct (src_peek s) as [p s1]. cbn [fst snd] in *. destruct (Z.eqb_spec p 48) as [->|N]; [|apply Ok_inj in E; subst s'; split; [tauto|lia]].
  destruct (P1 eq_refl) as (-> & G & Ne). assert (Gt := get_fwd s Sd).
  assert (Adv : (S (rem (snd (src_get s))) <= rem s)%nat).
  { assert (R := rest_rem s). unfold src_get. destruct (s_kind s) eqn:K.
    - destruct (Sd K) as [Go|B]; [|exfalso; apply Ne; unfold s_rest; apply skipn_all2; lia]. rewrite Go. destruct (s_rest s) as [|c r]; [congruence|]. cbn [snd length] in *. unfold rem in *. cbn [set_pos s_data s_pos]. lia.
    - rewrite (G eq_refl). destruct (s_rest s) as [|c r]; [congruence|]. cbn [snd length] in *. unfold rem in *. cbn [set_pos s_data s_pos]. lia. }
  destruct (src_get s) as [x s2]. cbn [fst snd] in *. assert (P2 := peek_fwd s2 (proj1 Gt)). destruct (src_peek s2) as [p2 s3]. cbn [fst snd] in *.
  destruct ((49 <=? p2) && (p2 <=? 57)); [discriminate E|]. destruct (unget_fwd _ _ E) as [S4 R4]. split; [exact S4|lia].
Qed.
Lemma scanInt_fwd : forall t s z s', src_scanInt t s = Ok (z, s') -> fwd s s'.
Proof.
  intros t s z s' E Sd. unfold src_scanInt in E. destruct (checkZero s) as [s0| | |] eqn:C; try discriminate E. cbn [bind] in E. destruct (checkZero_fwd _ _ C Sd) as [S0 R0].
  assert (V : forall b s1 s2 x, validateResult b s1 = (x, s2) -> sound s1 -> sound s2 /\ rem s2 = rem s1).
  { intros b s1 s2 x V S1. unfold validateResult in V. assert (P := peek_fwd s1 S1). destruct (src_peek s1) as [c s3]. injection V as _ <-. exact P. }
  destruct (s_kind s0) eqn:K.
  - destruct (Nat.ltb (s_size s0) (s_pos s0)); [discriminate E|].
    set (q := match from_chars t (s_rest s0) with FcInvalid => _ | FcRange n => _ | FcOk v n => _ end) in E.
    assert (Q : sound (snd q) /\ (rem (snd q) <= rem s0)%nat).
    { unfold q. destruct (from_chars t (s_rest s0)); cbn [snd]; [auto| |]; unfold s_size; (split; [apply leb_sound|]); unfold rem; cbn [s_data s_pos]; lia. }
    clearbody q. destruct q as [[okr v] s1]. cbn [snd] in Q. destruct (validateResult okr s1) as [okv s2] eqn:Vr. destruct (V _ _ _ _ Vr (proj1 Q)) as [S2 R2].
    destruct okv; [|discriminate E]. destruct v; [|discriminate E]. apply Ok_inj in E. apply (f_equal snd) in E. cbn [snd] in E. subst s'. split; [exact S2|lia].
  - assert (Q : s_kind (snd (readNumber_stream t s0)) = Strm /\ (rem (snd (readNumber_stream t s0)) <= rem s0)%nat).
    { assert (Kp : s_kind (snd (src_peek s0)) = Strm) by (unfold src_peek; rewrite K; destruct (strm_good s0); [destruct (s_rest s0)|]; cbn; exact K).
      assert (Rp := proj2 (peek_fwd s0 S0)). unfold readNumber_stream. destruct (i_signed t).
      - destruct (src_peek s0) as [p s1]. cbn [snd] in *. set (s2 := if p =? 45 then snd (src_get s1) else s1).
        assert (H2 : s_kind s2 = Strm /\ (rem s2 <= rem s1)%nat).
        { unfold s2. destruct (p =? 45); [|auto]. split.
          - unfold src_get. rewrite Kp. destruct (strm_good s1); [destruct (s_rest s1)|]; cbn; exact Kp.
          - apply get_fwd. unfold sound. congruence. }
        clearbody s2. destruct (strm_good s2); [destruct (num_get_unsigned t (s_rest s2)) as [v n]; destruct (Nat.eqb n 0)|]; cbn [snd]; unfold rem, set_pos, set_good in *; cbn [s_kind s_data s_pos] in *; (split; [tauto|lia]).
      - destruct (strm_good s0); [destruct (num_get_unsigned t (s_rest s0)) as [v n]; destruct (Nat.eqb n 0)|]; cbn [snd]; unfold rem, set_pos, set_good in *; cbn [s_kind s_data s_pos] in *; (split; [assumption|lia]). }
    destruct (readNumber_stream t s0) as [r s1]. cbn [snd] in Q. match type of E with (let '(_, _) := validateResult ?b _ in _) = _ => destruct (validateResult b s1) as [okv s2] eqn:Vr end.
    destruct (V _ _ _ _ Vr) as [S2 R2]; [unfold sound; destruct Q; congruence|].
    destruct okv; [|discriminate E]. destruct r; [|discriminate E]. apply Ok_inj in E. apply (f_equal snd) in E. cbn [snd] in E. subst s'. split; [exact S2|lia].
Qed.
Lemma string_loop_fwd : forall f v tmp s v' s', string_loop f v tmp s = Ok (v', s') -> fwd s s'.
Proof.
  induction f as [|f IH]; intros v tmp s v' s' E; [discriminate E|]. cbn [string_loop] in E. destruct (src_readTo s tmp 34) as [[a s1]| | |] eqn:R; try discriminate E. cbn [bind] in E.
  apply readTo_fwd in R. destruct (checkEscape a).
  - eapply fwd_trans; [exact R|]. eapply IH; exact E.
  - apply Ok_inj in E. apply (f_equal snd) in E. cbn [snd] in E. subst s'. exact R.
Qed.
Lemma getStringInto_fwd : forall f conv l v l', getStringInto f conv l = Ok (v, l') -> fwd (l_src l) (l_src l').
Proof.
  intros f conv l v l' E Sd. unfold getStringInto in E. assert (G := get_fwd (l_src l) Sd). destruct (src_get (l_src l)) as [n s]. cbn [fst snd] in G.
  destruct (negb (n =? 34)); [discriminate E|]. destruct (src_readTo s [] 34) as [[a s1]| | |] eqn:R; try discriminate E. cbn [bind] in E. apply readTo_fwd in R.
  destruct (if checkEscape a then string_loop f a [] s1 else Ok (a, s1)) as [[b s2]| | |] eqn:L; try discriminate E. cbn [bind] in E.
  assert (F : fwd s s2). { destruct (checkEscape a); [apply string_loop_fwd in L; eapply fwd_trans; eassumption|]. apply Ok_inj in L. apply (f_equal snd) in L. cbn [snd] in L. subst s2. exact R. }
  destruct (if conv then unescape_inplace b else Ok b) as [c| | |]; try discriminate E. cbn [bind] in E. apply Ok_inj in E. apply (f_equal snd) in E. cbn [snd] in E. subst l'. cbn [lset_src l_src].
  destruct (F (proj1 G)) as [S2 R2]. split; [exact S2|lia].
Qed.
Lemma skip_string_fwd : forall f last next s s', skip_string_loop f last next s = Ok s' -> fwd s s'.
Proof.
  induction f as [|f IH]; intros last next s s' E; [discriminate E|]. cbn [skip_string_loop] in E. destruct (next =? EOFc); [discriminate E|].
  destruct ((next =? 34) && negb (last =? 92)); [apply Ok_inj in E; subst s'; apply fwd_refl|]. intro Sd. assert (G := get_fwd s Sd). destruct (src_get s) as [n s1]. cbn [fst snd] in G.
  destruct (IH _ _ _ _ E (proj1 G)) as [S2 R2]. split; [exact S2|lia].
Qed.
Lemma digits_fwd : forall f n b s n' b' s', read_digits_loop f n b s = Ok (n', b', s') -> fwd s s'.
Proof.
  induction f as [|f IH]; intros n b s n' b' s' E; [discriminate E|]. cbn [read_digits_loop] in E. destruct (is_digit n).
  - intro Sd. assert (G := get_fwd s Sd). destruct (src_get s) as [x s1]. cbn [fst snd] in G. destruct (IH _ _ _ _ _ _ E (proj1 G)) as [S2 R2]. split; [exact S2|lia].
  - apply Ok_inj in E. apply (f_equal snd) in E. cbn [snd] in E. subst s'. apply fwd_refl.
Qed.
Lemma readDigits_fwd : forall f n b s n' b' s', readDigits f n b s = Ok (n', b', s') -> fwd s s'.
Proof. intros f n b s n' b' s' E. unfold readDigits in E. destruct (is_digit (to_char n)); [|discriminate E]. eapply digits_fwd; exact E. Qed.
Lemma readNumber_fwd : forall f l l', lex_readNumber f l = Ok l' -> fwd (l_src l) (l_src l').
Proof.
  intros f l l' E Sd. unfold lex_readNumber in E. assert (G := get_fwd (l_src l) Sd). destruct (src_get (l_src l)) as [n0 s0]. cbn [fst snd] in G.
  set (m := rem (l_src l)) in *.
  pose (J := fun x : Z * bytes * src => sound (snd x) /\ (rem (snd x) <= m)%nat /\ (fst (fst x) <> EOFc -> (S (rem (snd x)) <= m)%nat)).
  assert (J0 : J (n0, [], s0)) by exact G.
  assert (B : forall (A : outcome (Z * bytes * src)) (K : Z * bytes * src -> outcome jlex), (forall x, A = Ok x -> J x) -> (forall x, J x -> K x = Ok l' -> sound (l_src l') /\ (rem (l_src l') <= m)%nat) ->
    bind A K = Ok l' -> sound (l_src l') /\ (rem (l_src l') <= m)%nat).
  { intros A K HA HK E0. destruct A as [x| | |]; try discriminate E0. exact (HK x (HA x eq_refl) E0). }
  assert (Gt : forall s, sound s -> (S (rem s) <= m)%nat -> forall b, J (fst (src_get s), b, snd (src_get s))).
  { intros s Ss Rs b. destruct (get_fwd s Ss) as (A1 & A2 & A3). unfold J. cbn [fst snd]. split; [exact A1|]. split; lia. }
  assert (Rd : forall n b s x, sound s -> (S (rem s) <= m)%nat -> readDigits f n b s = Ok x -> J x).
  { intros n b s [[n' b'] s'] Ss Rs Ed. destruct (readDigits_fwd _ _ _ _ _ _ _ Ed Ss) as [A1 A2]. unfold J. cbn [fst snd]. split; [exact A1|]. split; lia. }
  revert E. apply B.
  { intros x E. destruct ((n0 =? 45) || (n0 =? 43)) eqn:Q; [|apply Ok_inj in E; subst x; exact J0].
    assert (H := Gt s0 (proj1 G) ltac:(apply G; unfold EOFc; lia) ([] ++ [n0])). destruct (src_get s0) as [n s]. cbn [fst snd] in H. destruct (n =? EOFc); [discriminate E|]. apply Ok_inj in E. subst x. exact H. }
  intros [[n b] s] (S1 & R1 & A1). cbn [fst snd] in *. apply B.
  { intros x E. destruct (n =? 48) eqn:Q.
    - assert (H := Gt s S1 ltac:(apply A1; unfold EOFc; lia) (b ++ [n])). destruct (src_get s) as [n2 s2]. cbn [fst snd] in H. apply Ok_inj in E. subst x. exact H.
    - destruct (Z.eq_dec n EOFc) as [->|Ne]; [discriminate E|]. eapply Rd; [exact S1|apply A1; exact Ne|exact E]. }
  clear n b s S1 R1 A1. intros [[n b] s] (S1 & R1 & A1). cbn [fst snd] in *. apply B.
  { intros x E. destruct (n =? 46) eqn:Q; [|apply Ok_inj in E; subst x; unfold J; auto].
    assert (A2 := A1 ltac:(unfold EOFc; lia)). assert (H := get_fwd s S1). destruct (src_get s) as [n2 s2]. cbn [fst snd] in H. destruct (n2 =? EOFc); [discriminate E|]. eapply Rd; [apply H|lia|exact E]. }
  clear n b s S1 R1 A1. intros [[n b] s] (S1 & R1 & A1). cbn [fst snd] in *. apply B.
  { intros x E. destruct ((n =? 101) || (n =? 69)) eqn:Q; [|apply Ok_inj in E; subst x; unfold J; auto].
    assert (A2 := A1 ltac:(unfold EOFc; lia)). assert (H := get_fwd s S1). destruct (src_get s) as [n2 s2]. cbn [fst snd] in H. cbv zeta in E. destruct (n2 =? EOFc); [discriminate E|].
    destruct ((n2 =? 45) || (n2 =? 43)).
    - assert (H2 := get_fwd s2 (proj1 H)). destruct (src_get s2) as [n3 s3]. cbn [fst snd] in H2. destruct (n3 =? EOFc); [discriminate E|]. cbn [bind] in E. eapply Rd; [apply H2|lia|exact E].
    - cbn [bind] in E. eapply Rd; [apply H|lia|exact E]. }
  clear n b s S1 R1 A1. intros [[n b] s] (S1 & R1 & A1) E. cbn [fst snd] in *. destruct (n =? EOFc) eqn:Q.
  - cbn [bind] in E. apply Ok_inj in E. subst l'. cbn. auto.
  - assert (A2 := A1 ltac:(lia)). destruct (src_unget s) as [s'| | |] eqn:U; try discriminate E. cbn [bind] in E. apply Ok_inj in E. subst l'. cbn [lset_buf lset_src l_src]. destruct (unget_fwd _ _ U). split; [assumption|lia].
Qed.
Lemma ignoreRaw_fwd : forall f l l', ignoreRawValue f l = Ok l' -> fwd (l_src l) (l_src l').
Proof.
  intros f l l' E. unfold ignoreRawValue in E. destruct (l_tok l); try (apply Ok_inj in E; subst l'; cbn [lset_src l_src]; first [apply fwd_refl|apply ignore_fwd]).
  - eapply readNumber_fwd; exact E.
  - intro Sd. assert (G := get_fwd (l_src l) Sd). destruct (src_get (l_src l)) as [a s1]. cbn [fst snd] in G. assert (G2 := get_fwd s1 (proj1 G)). destruct (src_get s1) as [b s2]. cbn [fst snd] in G2.
    destruct (skip_string_loop f a b s2) as [s3| | |] eqn:L; try discriminate E. cbn [bind] in E. apply Ok_inj in E. subst l'. cbn [lset_src l_src].
    destruct (skip_string_fwd _ _ _ _ _ L (proj1 G2)) as [S3 R3]. split; [exact S3|lia].
Qed.
Lemma lastBool_fwd : forall l b l', getLastBool l = Ok (b, l') -> fwd (l_src l) (l_src l').
Proof.
  assert (C : forall l c l', checkFixed l c = Ok l' -> fwd (l_src l) (l_src l')).
  { intros l c l' E. unfold checkFixed in E. destruct (src_read (l_src l) (length c)) as [[a s]| | |] eqn:R; try discriminate E. cbn [bind] in E. destruct (beq _ c); [|discriminate E]. apply Ok_inj in E. subst l'. cbn. eapply read_fwd; exact R. }
  intros l b l' E. unfold getLastBool in E. destruct (l_tok l); try discriminate E.
  - destruct (checkFixed l _) as [x| | |] eqn:F; try discriminate E. cbn [bind] in E. apply Ok_inj in E. apply (f_equal snd) in E. cbn [snd] in E. subst l'. eapply C; exact F.
  - destruct (checkFixed l _) as [x| | |] eqn:F; try discriminate E. cbn [bind] in E. apply Ok_inj in E. apply (f_equal snd) in E. cbn [snd] in E. subst l'. eapply C; exact F.
Qed.
