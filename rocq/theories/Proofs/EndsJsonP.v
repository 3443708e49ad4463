(** The JSON parser moves forward. *)
From Coq Require Import ZArith List Bool Lia ZifyBool.
From Verif Require Import Model.Base Model.Source Model.Unicode Model.Number Model.JsonLexer Model.ParserInterface Model.JsonParser Model.Types Model.Deserializer Model.Importer Spec.Ends
  Proofs.UnicodeP Proofs.CtlP Proofs.ForwardP Proofs.EndsP.
Import ListNotations.
Open Scope Z_scope.

Lemma runs_ok : forall {A} (Q : A -> Prop) (r : outcome A), r <> Hang -> (forall a, r = Ok a -> Q a) -> runs Q r.
Proof. intros A Q [a| | |] N H; cbn; auto. Qed.
Lemma runs_out : forall {A} (Q : A -> Prop) (r : outcome A), runs Q r -> r <> Hang /\ (forall a, r = Ok a -> Q a).
Proof. intros A Q [a| | |] H; cbn in H; split; try congruence; try contradiction. Qed.

(** ** Kind and text of a source stay *)
Definition kept (s s' : src) : Prop := s_kind s' = s_kind s /\ s_data s' = s_data s.
Lemma kept_refl : forall s, kept s s. Proof. split; reflexivity. Qed.
Lemma kept_trans : forall a b c, kept a b -> kept b c -> kept a c.
Proof. intros a b c [A1 A2] [B1 B2]. split; congruence. Qed.
Ltac keep := unfold kept; repeat (match goal with |- context [match ?x with _ => _ end] => destruct x eqn:? end); cbn; auto.
Lemma get_kept : forall s, kept s (snd (src_get s)).
Proof. intro s. unfold src_get, set_pos, set_flags, set_good. keep. Qed.
Lemma peek_kept : forall s, kept s (snd (src_peek s)).
Proof. intro s. unfold src_peek, set_pos, set_flags, set_good. keep. Qed.
Lemma unget_runs : forall s, runs (kept s) (src_unget s).
Proof. intro s. unfold src_unget, set_flags. keep. Qed.
Lemma ignore_kept : forall s n, kept s (src_ignore s n).
Proof. intros s n. unfold src_ignore, set_pos, set_good. keep. Qed.
Lemma read_runs : forall s n, runs (fun r => kept s (snd r)) (src_read s n).
Proof. intros s n. unfold src_read, set_good. keep. Qed.
Lemma readTo_runs : forall s d x, runs (fun r => kept s (snd r)) (src_readTo s d x).
Proof. intros s d x. unfold src_readTo, set_good. keep. Qed.
Lemma readChar_kept : forall s, kept s (snd (src_readChar s)).
Proof. intro s. unfold src_readChar, set_good. keep. Qed.
Lemma peekNext_runs : forall s, runs (fun r => kept s (snd r)) (src_peekNextNonSpace s).
Proof.
  intro s. unfold src_peekNextNonSpace. assert (K := readChar_kept s). destruct (src_readChar s) as [[okr c] s1]. cbn [snd] in K. destruct okr; [|exact K]. destruct (is_punct c); [exact K|].
  eapply runs_bind; [exact (unget_runs s1)|]. intros s2 K2. cbn [runs snd]. eapply kept_trans; eassumption.
Qed.

(** ** At a character *)
Definition at_char (s : src) : Prop := s_rest s <> [] /\ (s_kind s = Strm -> strm_good s = true).
Lemma at_char_rem : forall s, at_char s -> (0 < rem s)%nat.
Proof. intros s [H _]. rewrite <- rest_rem. destruct (s_rest s); [congruence|cbn; lia]. Qed.
Lemma at_char_good : forall s, sound s -> at_char s -> s_kind s = StrIn -> s_good s = true.
Proof. intros s Sd A K. destruct (Sd K) as [G|B]; [exact G|]. apply at_char_rem in A. unfold rem in A. lia. Qed.
Lemma get_adv : forall s, sound s -> at_char s -> (S (rem (snd (src_get s))) <= rem s)%nat.
Proof.
  intros s Sd A. assert (G := at_char_good s Sd A). destruct A as [Ne Gs]. assert (R := rest_rem s). unfold src_get. destruct (s_kind s).
  - rewrite (G eq_refl). destruct (s_rest s) as [|c r]; [congruence|]. cbn [snd length] in *. unfold rem in *. cbn [set_pos s_data s_pos]. lia.
  - rewrite (Gs eq_refl). destruct (s_rest s) as [|c r]; [congruence|]. cbn [snd length] in *. unfold rem in *. cbn [set_pos s_data s_pos]. lia.
Qed.
Lemma ignore_adv : forall s n, at_char s -> (S (rem (src_ignore s (S n))) <= rem s)%nat.
Proof.
  intros s n A. assert (P := at_char_rem s A). destruct A as [Ne Gs]. unfold src_ignore. destruct (s_kind s).
  - unfold rem in *. cbn [s_data s_pos]. lia.
  - rewrite (Gs eq_refl). destruct (Nat.leb (S n) (length (s_rest s))); unfold rem, set_pos, s_size in *; cbn [s_data s_pos]; lia.
Qed.
Lemma read_adv : forall s n r, at_char s -> src_read s (S n) = Ok r -> (S (rem (snd r)) <= rem s)%nat.
Proof.
  intros s n r A E. assert (P := at_char_rem s A). destruct A as [Ne Gs]. unfold src_read in E. assert (L : (0 < length (firstn (S n) (s_rest s)))%nat) by (destruct (s_rest s); [congruence|cbn; lia]).
  destruct (s_kind s).
  - destruct (Nat.ltb (s_size s) (s_pos s)); [discriminate E|]. apply Ok_inj in E. subst r. cbn [snd]. unfold rem in *. cbn [s_data s_pos]. lia.
  - rewrite (Gs eq_refl) in E. destruct (Nat.ltb _ _); apply Ok_inj in E; subst r; cbn [snd]; unfold rem in *; cbn [s_data s_pos]; lia.
Qed.
Lemma skip_space_rest : forall t n r, skip_space t = (n, r) -> skipn n t = r.
Proof.
  induction t as [|c t IH]; intros n r E; cbn [skip_space] in E.
  - injection E as <- <-. reflexivity.
  - destruct (is_space c); [|injection E as <- <-; reflexivity]. destruct (skip_space t) as [a b]. injection E as <- <-. cbn [skipn]. exact (IH a b eq_refl).
Qed.
Lemma skipn_plus : forall (A : Type) n m (l : list A), skipn n (skipn m l) = skipn (n + m) l.
Proof. intros A n m. induction m as [|m IH]; intro l; [now rewrite Nat.add_0_r|]. rewrite Nat.add_succ_r. destruct l; [now rewrite !skipn_nil|]. cbn [skipn]. apply IH. Qed.
Lemma peekNext_at : forall s c s', src_peekNextNonSpace s = Ok (c, s') -> c <> EOFc -> is_punct c = false -> at_char s'.
Proof.
  intros s c s' E Ne Np. unfold src_peekNextNonSpace, src_readChar in E.
  destruct (s_kind s) eqn:K.
  - destruct (skip_space (s_rest s)) as [n r] eqn:Sk. apply skip_space_rest in Sk. destruct r as [|x r].
    + change (is_punct EOFc) with false in E. cbn [src_unget s_kind s_pos bind] in E. apply Ok_inj in E. apply (f_equal fst) in E. cbn [fst] in E. congruence.
    + destruct (is_punct (schar x)) eqn:Pu; [apply Ok_inj in E; apply (f_equal fst) in E; cbn [fst] in E; congruence|].
      cbn [src_unget s_kind s_pos bind] in E. apply Ok_inj in E. apply (f_equal snd) in E. cbn [snd] in E. subst s'. split; [|cbn [s_kind]; discriminate].
      unfold s_rest in *. cbn [s_data s_pos]. rewrite skipn_plus in Sk. replace (s_pos s + n)%nat with (n + s_pos s)%nat by lia. rewrite Sk. discriminate.
  - destruct (strm_good s); [|apply Ok_inj in E; apply (f_equal fst) in E; cbn [fst] in E; congruence].
    destruct (skip_space (s_rest s)) as [n r] eqn:Sk. apply skip_space_rest in Sk. destruct r as [|x r]; [apply Ok_inj in E; apply (f_equal fst) in E; cbn [fst] in E; congruence|].
    destruct (is_punct (schar x)) eqn:Pu; [apply Ok_inj in E; apply (f_equal fst) in E; cbn [fst] in E; congruence|].
    cbn [src_unget s_kind s_good s_pos bind] in E. apply Ok_inj in E. apply (f_equal snd) in E. cbn [snd] in E. subst s'. split; [|reflexivity].
    unfold s_rest in *. cbn [s_data s_pos]. rewrite skipn_plus in Sk. replace (s_pos s + n)%nat with (n + s_pos s)%nat by lia. rewrite Sk. discriminate.
Qed.

Section Json.
  Variables (k : skind) (text : bytes) (F : nat).
  Hypothesis room : (length text + 2 <= F)%nat.
  Hypothesis tail : k = Strm -> last text 0 <> 92.

  Definition ok (s : src) : Prop := sound s /\ s_kind s = k /\ s_data s = text.
  Lemma ok_kept : forall s s', ok s -> sound s' -> kept s s' -> ok s'.
  Proof. intros s s' (A & B & C) Sd [K1 K2]. split; [exact Sd|]. split; congruence. Qed.
  Lemma ok_rem : forall s, ok s -> (rem s + 2 <= F)%nat.
  Proof. intros s (_ & _ & D). unfold rem. rewrite D. lia. Qed.
  Lemma get_ok : forall s, ok s -> ok (snd (src_get s)) /\ (rem (snd (src_get s)) <= rem s)%nat /\ (fst (src_get s) <> EOFc -> (S (rem (snd (src_get s))) <= rem s)%nat).
  Proof. intros s O. destruct (get_fwd s (proj1 O)) as (A & B & C). split; [|auto]. eapply ok_kept; [exact O|exact A|apply get_kept]. Qed.
  Lemma peek_ok : forall s, ok s -> ok (snd (src_peek s)) /\ rem (snd (src_peek s)) = rem s.
  Proof. intros s O. destruct (peek_fwd s (proj1 O)) as (A & B). split; [|auto]. eapply ok_kept; [exact O|exact A|apply peek_kept]. Qed.
  Lemma unget_ok : forall s, ok s -> runs (fun s' => ok s' /\ (rem s' <= S (rem s))%nat) (src_unget s).
  Proof. intros s O. destruct (runs_out _ _ (unget_runs s)) as [N K]. apply runs_ok; [exact N|]. intros s' E. destruct (unget_fwd _ _ E) as [A B]. split; [|exact B]. eapply ok_kept; [exact O|exact A|now apply K]. Qed.
  Lemma ignore_ok : forall s n, ok s -> ok (src_ignore s n) /\ (rem (src_ignore s n) <= rem s)%nat.
  Proof. intros s n O. destruct (ignore_fwd s n (proj1 O)) as [A B]. split; [|exact B]. eapply ok_kept; [exact O|exact A|apply ignore_kept]. Qed.
  Lemma readTo_ok : forall s d x, ok s -> runs (fun r => ok (snd r) /\ (rem (snd r) <= rem s)%nat) (src_readTo s d x).
  Proof. intros s d x O. destruct (runs_out _ _ (readTo_runs s d x)) as [N K]. apply runs_ok; [exact N|]. intros [a s'] E. destruct (readTo_fwd _ _ _ _ _ E (proj1 O)) as [A B]. cbn [snd]. split; [|exact B]. eapply ok_kept; [exact O|exact A|exact (K _ E)]. Qed.

  (** ** Strings *)
  Lemma split_false : forall d s a, split_at d s = (a, false) -> a = s.
  Proof. induction s as [|c s IH]; intros a E; cbn [split_at] in E; [congruence|]. destruct (c =? d); [discriminate E|]. destruct (split_at d s) as [b f]. injection E as <- ->. f_equal. now apply IH. Qed.
  Lemma split_len : forall d s a f, split_at d s = (a, f) -> (length a <= length s)%nat.
  Proof. induction s as [|c s IH]; intros a f E; cbn [split_at] in E; [injection E as <- <-; reflexivity|]. destruct (c =? d); [injection E as <- <-; cbn; lia|]. destruct (split_at d s) as [b g]. injection E as <- <-. cbn. specialize (IH b g eq_refl). lia. Qed.
  Lemma escape_last : forall s, last s 0 <> 92 -> checkEscape s = false.
  Proof.
    intros s H. unfold checkEscape. destruct (rev s) as [|c r] eqn:R; [reflexivity|]. cbn [check_escape_rev]. destruct (Z.eqb_spec c 92) as [->|]; [|reflexivity]. exfalso. apply H.
    rewrite <- (rev_involutive s), R. cbn [rev]. apply last_last.
  Qed.
  Lemma last_skipn : forall n (s : bytes) d, skipn n s <> [] -> last (skipn n s) d = last s d.
  Proof. induction n as [|n IH]; intros [|c s] d H; try reflexivity. cbn [skipn] in *. rewrite IH by exact H. destruct s; [destruct n; cbn in H; congruence|reflexivity]. Qed.
  Lemma string_loop_runs : forall f v tmp s, ok s -> (rem s < f)%nat -> (s_kind s = Strm -> strm_good s = true \/ checkEscape tmp = false) ->
    runs (fun r => ok (snd r) /\ (rem (snd r) <= rem s)%nat) (string_loop f v tmp s).
  Proof.
    induction f as [|f IH]; intros v tmp s O L G; [lia|]. cbn [string_loop].
    assert (B := readTo_ok s tmp 34 O). assert (P : forall a s1, src_readTo s tmp 34 = Ok (a, s1) -> checkEscape a = true -> (S (rem s1) <= rem s)%nat /\ (s_kind s1 = Strm -> strm_good s1 = true)).
    { intros a s1 E Ce. unfold src_readTo in E. assert (R := rest_rem s). destruct (s_kind s) eqn:K.
      - destruct (Nat.ltb (s_size s) (s_pos s)); [discriminate E|]. destruct (split_at 34 (s_rest s)) as [b g] eqn:Sp. apply Ok_inj in E. assert (E1 := f_equal fst E). apply (f_equal snd) in E. cbn [fst snd] in *. subst a s1. split; [|cbn [s_kind]; discriminate].
        apply split_len in Sp. assert (0 < length b)%nat by (destruct b; [discriminate Ce|cbn; lia]). unfold rem in *. cbn [s_data s_pos]. lia.
      - destruct (strm_good s).
        + destruct (split_at 34 (s_rest s)) as [b [|]] eqn:Sp; apply Ok_inj in E; assert (E1 := f_equal fst E); apply (f_equal snd) in E; cbn [fst snd] in *; subst a s1.
          * assert (Sl := split_len _ _ _ _ Sp). assert (0 < length b)%nat by (destruct b; [discriminate Ce|cbn; lia]). split; [unfold rem in *; cbn [s_data s_pos]; lia|reflexivity].
          * apply split_false in Sp. subst b. rewrite escape_last in Ce; [discriminate Ce|]. destruct O as (_ & Ok1 & Od). unfold s_rest in *. rewrite Od in *.
            destruct (skipn (s_pos s) text) eqn:X; [cbn; discriminate|]. rewrite <- X, last_skipn; [apply tail; congruence|congruence].
        + apply Ok_inj in E. apply (f_equal fst) in E. cbn [fst] in E. subst a. destruct (G eq_refl); congruence. }
    destruct (src_readTo s tmp 34) as [[a s1]| | |]; cbn [bind]; cbn [runs] in *; try assumption. cbn [snd] in B. destruct (checkEscape a) eqn:Ce.
    - destruct (P a s1 eq_refl Ce) as [P1 P2]. eapply runs_weak; [apply (IH _ a s1 (proj1 B)); [lia|tauto]|]. intros r [A C]. split; [exact A|lia].
    - cbn [runs snd]. exact B.
  Qed.
  Lemma unescape_runs : forall (conv : bool) v, (if conv then unescape_inplace v else Ok v) <> Hang.
  Proof. intros conv v. destruct conv; [|discriminate]. rewrite unescape_inplace_dec. destruct (dec_cases (length v) v (le_n _)) as [[x ->]| ->]; discriminate. Qed.
  Definition fwds (l : jlex) (l' : jlex) : Prop := ok (l_src l') /\ (S (rem (l_src l')) <= rem (l_src l))%nat.
  Lemma stringInto_runs : forall conv l, ok (l_src l) -> runs (fun r => fwds l (snd r)) (getStringInto F conv l).
  Proof.
    intros conv l O. unfold getStringInto. destruct (get_ok _ O) as (O1 & R1 & A1). destruct (src_get (l_src l)) as [n s]. cbn [fst snd] in *. destruct (Z.eqb_spec n 34) as [->|]; [|exact Logic.I]. cbn [negb]. specialize (A1 ltac:(discriminate)).
    eapply runs_bind; [exact (readTo_ok s [] 34 O1)|]. intros [v s1] [O2 R2]. cbn [snd] in *.
    eapply runs_bind with (Q' := fun r => ok (snd r) /\ (rem (snd r) <= rem s1)%nat).
    - destruct (checkEscape v); [|cbn [runs snd]; auto]. apply string_loop_runs; [exact O2|assert (Z := ok_rem _ O2); lia|]. intros _. right. reflexivity.
    - intros [v2 s2] [O3 R3]. cbn [snd] in *. apply runs_ok; [|].
      + assert (U := unescape_runs conv v2). destruct (if conv then unescape_inplace v2 else Ok v2); cbn [bind]; congruence.
      + intros [v3 l3] E. destruct (if conv then unescape_inplace v2 else Ok v2); try discriminate E. cbn [bind] in E. apply Ok_inj in E. apply (f_equal snd) in E. cbn [snd] in *. subst l3. split; [exact O3|]. cbn [l_src lset_src]. lia.
  Qed.
  Lemma string_runs : forall conv l, ok (l_src l) -> runs (fun r => fwds l (snd r)) (getString F conv l).
  Proof. intros conv l O. unfold getString. eapply runs_bind; [exact (stringInto_runs conv l O)|]. intros [v l1] H. cbn [runs snd] in *. exact H. Qed.
  Lemma skip_runs_s : forall f lst next s, ok s -> (rem s + 2 <= f)%nat -> runs (fun s' => ok s' /\ (rem s' <= rem s)%nat) (skip_string_loop f lst next s).
  Proof.
    assert (G : forall f lst next s, ok s -> (rem s + 2 <= f)%nat \/ next = EOFc /\ (0 < f)%nat -> runs (fun s' => ok s' /\ (rem s' <= rem s)%nat) (skip_string_loop f lst next s)).
    { induction f as [|f IH]; intros lst next s O L; [lia|]. cbn [skip_string_loop]. destruct (Z.eqb_spec next EOFc); [exact Logic.I|]. destruct ((next =? 34) && negb (lst =? 92)); [cbn [runs]; auto|].
      destruct (get_ok _ O) as (O1 & R1 & A1). destruct (src_get s) as [c s1]. cbn [fst snd] in *. eapply runs_weak; [apply (IH next c s1 O1)|intros s2 [A B]; split; [exact A|lia]].
      destruct (Z.eq_dec c EOFc); [right|left]; [split; [assumption|lia]|]. specialize (A1 n0). lia. }
    intros f lst next s O L. apply G; auto.
  Qed.

  (** ** Numbers *)
  Lemma digits_runs : forall f n b s, ok s -> (rem s + 2 <= f)%nat -> is_digit n = true ->
    runs (fun r => ok (snd r) /\ (rem (snd r) <= rem s)%nat /\ (fst (fst r) <> EOFc -> (S (rem (snd r)) <= rem s)%nat)) (read_digits_loop f n b s).
  Proof.
    induction f as [|f IH]; intros n b s O L D; [lia|]. cbn [read_digits_loop]. rewrite D. destruct (get_ok _ O) as (O1 & R1 & A1). destruct (src_get s) as [c s1]. cbn [fst snd] in *.
    destruct (is_digit (to_char c)) eqn:Dc.
    - assert (Nc : c <> EOFc) by (intros ->; discriminate Dc). specialize (A1 Nc). eapply runs_weak; [apply (IH (to_char c) (b ++ [n]) s1 O1); [lia|exact Dc]|]. intros [[n' b'] s'] (P1 & P2 & P3). cbn [fst snd] in *. split; [exact P1|]. split; [lia|]. intro N. specialize (P3 N). lia.
    - destruct f as [|f]; [lia|]. cbn [read_digits_loop]. rewrite Dc. cbn [runs fst snd]. split; [exact O1|]. split; [exact R1|]. intro N. apply A1. intros ->. apply N. reflexivity.
  Qed.
  Lemma readDigits_runs : forall n b s, ok s ->
    runs (fun r => n <> EOFc /\ ok (snd r) /\ (rem (snd r) <= rem s)%nat /\ (fst (fst r) <> EOFc -> (S (rem (snd r)) <= rem s)%nat)) (readDigits F n b s).
  Proof.
    intros n b s O. unfold readDigits. destruct (is_digit (to_char n)) eqn:D; [|exact Logic.I]. eapply runs_weak; [apply (digits_runs F _ b s O (ok_rem _ O) D)|]. intros r H. split; [|exact H]. intros ->. discriminate D.
  Qed.
  Definition J (m : nat) (x : Z * bytes * src) : Prop := ok (snd x) /\ (rem (snd x) <= m)%nat /\ (fst (fst x) <> EOFc -> (S (rem (snd x)) <= m)%nat).
  Lemma get_J : forall m s b, ok s -> (S (rem s) <= m)%nat -> J m (fst (src_get s), b, snd (src_get s)).
  Proof. intros m s b O L. destruct (get_ok _ O) as (A & B & C). unfold J. cbn [fst snd]. split; [exact A|]. split; lia. Qed.
  Lemma readNumber_runs : forall l, ok (l_src l) -> runs (fwds l) (lex_readNumber F l).
  Proof.
    intros l O. unfold lex_readNumber. set (m := rem (l_src l)). destruct (get_ok _ O) as (O0 & R0 & A0). destruct (src_get (l_src l)) as [n0 s0]. cbn [fst snd] in *. fold m in R0, A0.
    eapply runs_bind with (Q' := J m).
    { destruct ((n0 =? 45) || (n0 =? 43)) eqn:Q; [|cbn [runs]; split; [exact O0|auto]]. assert (A1 : (S (rem s0) <= m)%nat) by (apply A0; unfold EOFc; lia).
      assert (H := get_J m s0 ([] ++ [n0]) O0 A1). destruct (src_get s0) as [n s]. cbn [fst snd] in H. destruct (n =? EOFc); [exact Logic.I|exact H]. }
    intros [[n b] s] (O1 & R1 & A1). cbn [fst snd] in *.
    eapply runs_bind with (Q' := fun x => (0 < m)%nat /\ J (pred m) x).
    { destruct (Z.eqb_spec n 48) as [->|N48].
      - specialize (A1 ltac:(discriminate)). destruct (get_ok _ O1) as (P1 & P2 & P3). destruct (src_get s) as [n2 s2]. cbn [fst snd] in *. cbn [runs]. split; [lia|]. unfold J. cbn [fst snd]. split; [exact P1|]. split; [lia|]. intro N. specialize (P3 N). lia.
      - eapply runs_weak; [exact (readDigits_runs n b s O1)|]. intros [[n' b'] s'] (Nn & P1 & P2 & P3). cbn [fst snd] in *. specialize (A1 Nn). split; [lia|]. unfold J. cbn [fst snd]. split; [exact P1|]. split; [lia|]. intro N. specialize (P3 N). lia. }
    clear n b s O1 R1 A1. intros [[n b] s] (Pm & O1 & R1 & A1). cbn [fst snd] in *.
    assert (Rd : forall n b s, ok s -> (S (rem s) <= pred m)%nat -> runs (J (pred m)) (readDigits F n b s)).
    { intros n1 b1 s1 Oa Ra. eapply runs_weak; [exact (readDigits_runs n1 b1 s1 Oa)|]. intros x (_ & P1 & P2 & P3). split; [exact P1|]. split; [lia|]. intro N. specialize (P3 N). lia. }
    eapply runs_bind with (Q' := J (pred m)).
    { destruct (Z.eqb_spec n 46) as [->|N46]; [|cbn [runs]; split; [exact O1|auto]]. specialize (A1 ltac:(discriminate)). destruct (get_ok _ O1) as (P1 & P2 & P3). destruct (src_get s) as [n2 s2]. cbn [fst snd] in *.
      destruct (n2 =? EOFc); [exact Logic.I|]. apply Rd; [exact P1|lia]. }
    clear n b s O1 R1 A1. intros [[n b] s] (O1 & R1 & A1). cbn [fst snd] in *.
    eapply runs_bind with (Q' := J (pred m)).
    { destruct ((n =? 101) || (n =? 69)) eqn:Q; [|cbn [runs]; split; [exact O1|auto]]. specialize (A1 ltac:(unfold EOFc; lia)). destruct (get_ok _ O1) as (P1 & P2 & P3). destruct (src_get s) as [n2 s2]. cbn [fst snd] in *.
      cbv zeta. destruct (n2 =? EOFc); [exact Logic.I|]. destruct ((n2 =? 45) || (n2 =? 43)).
      - destruct (get_ok _ P1) as (T1 & T2 & T3). destruct (src_get s2) as [n3 s3]. cbn [fst snd] in *. destruct (n3 =? EOFc); [exact Logic.I|]. cbn [bind]. apply Rd; [exact T1|lia].
      - cbn [bind]. apply Rd; [exact P1|lia]. }
    clear n b s O1 R1 A1. intros [[n b] s] (O1 & R1 & A1). cbn [fst snd] in *.
    eapply runs_bind with (Q' := fun s' => ok s' /\ (rem s' <= pred m)%nat).
    { destruct (Z.eqb_spec n EOFc); [cbn [runs]; auto|]. specialize (A1 n1). eapply runs_weak; [exact (unget_ok s O1)|]. intros s' [P1 P2]. split; [exact P1|lia]. }
    intros s' [P1 P2]. cbn [runs]. split; cbn [lset_buf lset_src l_src]; [exact P1|]. fold m. lia.
  Qed.
  Lemma checkZero_runs : forall s, ok s -> runs (fun s' => ok s' /\ (rem s' <= rem s)%nat) (checkZero s).
  Proof.
    intros s O. apply runs_ok.
    - unfold checkZero. destruct (src_peek s) as [p s1]. destruct (p =? 48); [|discriminate]. destruct (src_get s1) as [x s2]. destruct (src_peek s2) as [p2 s3]. destruct ((49 <=? p2) && (p2 <=? 57)); [discriminate|]. apply (runs_out _ _ (unget_runs s3)).
    - intros s' E. destruct (checkZero_fwd _ _ E (proj1 O)) as [A B]. split; [|exact B]. eapply ok_kept; [exact O|exact A|]. unfold checkZero in E. assert (P := peek_kept s). destruct (src_peek s) as [p s1]. cbn [snd] in P.
      destruct (p =? 48); [|apply Ok_inj in E; subst s'; exact P]. assert (G := get_kept s1). destruct (src_get s1) as [x s2]. assert (P2 := peek_kept s2). destruct (src_peek s2) as [p2 s3]. cbn [snd] in *.
      destruct ((49 <=? p2) && (p2 <=? 57)); [discriminate E|]. assert (U := proj2 (runs_out _ _ (unget_runs s3)) _ E). eapply kept_trans; [exact P|]. eapply kept_trans; [exact G|]. eapply kept_trans; eassumption.
  Qed.
  Lemma from_chars_len : forall t s v n, from_chars t s = FcOk v n -> (0 < n)%nat /\ s <> [].
  Proof.
    intros t s v n E. unfold from_chars in E. destruct s as [|c r]; [discriminate E|]. split; [|discriminate]. destruct ((c =? 45) && i_signed t).
    - destruct (span_digits r) as [ds x]. destruct ds; [discriminate E|]. destruct (i_in t _); [|discriminate E]. injection E as _ <-. lia.
    - destruct (span_digits (c :: r)) as [ds x]. destruct ds as [|d ds]; [discriminate E|]. destruct (i_in t _); [|discriminate E]. injection E as _ <-. cbn [length]. lia.
  Qed.
  Lemma num_get_len : forall t s v n, num_get_unsigned t s = (v, n) -> n <> 0%nat -> s <> [].
  Proof. intros t s v n E N ->. cbn in E. congruence. Qed.
  Lemma validate_ok : forall b s, ok s -> ok (snd (validateResult b s)) /\ rem (snd (validateResult b s)) = rem s.
  Proof. intros b s O. unfold validateResult. destruct (peek_ok s O) as [A B]. destruct (src_peek s) as [c s1]. cbn [snd] in *. auto. Qed.
  Lemma scanInt_runs : forall t s, ok s -> runs (fun r => ok (snd r) /\ (S (rem (snd r)) <= rem s)%nat) (src_scanInt t s).
  Proof.
    intros t s O. unfold src_scanInt. eapply runs_bind; [exact (checkZero_runs s O)|]. intros s0 [O0 R0]. assert (R := rest_rem s0). destruct (s_kind s0) eqn:K.
    - destruct (Nat.ltb (s_size s0) (s_pos s0)); [exact Logic.I|]. destruct (from_chars t (s_rest s0)) as [|n|v n] eqn:Fc.
      + destruct (validate_ok false s0 O0) as [_ _]. unfold validateResult. destruct (src_peek s0). exact Logic.I.
      + match goal with |- context [validateResult true ?x] => destruct (validateResult true x) as [[] ?] end; exact Logic.I.
      + apply from_chars_len in Fc. destruct Fc as [Pn Ne]. set (s1 := mkSrc StrIn _ _ _ _).
        assert (O1 : ok s1). { destruct O0 as (S0 & Kk & Dd). split; [unfold s1, s_size; apply leb_sound|]. unfold s1. cbn [s_kind s_data]. split; congruence. }
        assert (R1 : (S (rem s1) <= rem s0)%nat). { assert (0 < length (s_rest s0))%nat by (destruct (s_rest s0); [congruence|cbn; lia]). unfold s1, rem in *. cbn [s_data s_pos]. lia. }
        clearbody s1. destruct (validate_ok true s1 O1) as [O2 R2]. destruct (validateResult true s1) as [okv s2]. cbn [snd] in *. destruct okv; [|exact Logic.I]. cbn [runs snd]. split; [exact O2|lia].
    - assert (H : ok (snd (readNumber_stream t s0)) /\ (fst (readNumber_stream t s0) <> None -> (S (rem (snd (readNumber_stream t s0))) <= rem s0)%nat)).
      { assert (St : forall s a e, kept s0 s -> ok (mkSrc (s_kind s) (s_data s) (s_pos s) a e)).
        { intros x a e [K1 K2]. destruct O0 as (_ & Kk & Dd). split; [|cbn; split; congruence]. intro Q. cbn [s_kind] in Q. congruence. }
        assert (Ad : forall s n, kept s0 s -> ok (set_pos s n)).
        { intros x n [K1 K2]. destruct O0 as (_ & Kk & Dd). split; [|cbn; split; congruence]. intro Q. cbn [s_kind set_pos] in Q. congruence. }
        assert (Sp : forall x n v m, num_get_unsigned t (s_rest x) = (v, m) -> m <> 0%nat -> n = (s_pos x + m)%nat -> (S (rem (set_pos x n)) <= rem x)%nat).
        { intros x n v m0 Ng Nz ->. assert (Ne := num_get_len _ _ _ _ Ng Nz). assert (Rx := rest_rem x). assert (0 < length (s_rest x))%nat by (destruct (s_rest x); [congruence|cbn; lia]). unfold rem in *. cbn [set_pos s_data s_pos]. lia. }
        unfold readNumber_stream. destruct (i_signed t).
        - destruct (peek_ok s0 O0) as [O1 R1]. assert (K1 := peek_kept s0). destruct (src_peek s0) as [p s1]. cbn [snd] in *. set (s2 := if p =? 45 then snd (src_get s1) else s1).
          assert (H2 : kept s0 s2 /\ ok s2 /\ (rem s2 <= rem s0)%nat).
          { unfold s2. destruct (p =? 45); [|split; [exact K1|split; [exact O1|lia]]]. destruct (get_ok _ O1) as (A & B & _). split; [eapply kept_trans; [exact K1|apply get_kept]|]. split; [exact A|lia]. }
          clearbody s2. destruct H2 as (K2 & O2 & R2). destruct (strm_good s2); [|cbn [fst snd]; split; [exact (St s2 false _ K2)|congruence]]. destruct (num_get_unsigned t (s_rest s2)) as [v n] eqn:Ng. destruct (Nat.eqb_spec n 0); cbn [fst snd]; [split; [exact O2|congruence]|].
          split; [now apply Ad|]. intros _. assert (Z := Sp s2 _ v n Ng n0 eq_refl). lia.
        - destruct (strm_good s0); [|cbn [fst snd]; split; [exact (St s0 false _ (kept_refl s0))|congruence]]. destruct (num_get_unsigned t (s_rest s0)) as [v n] eqn:Ng. destruct (Nat.eqb_spec n 0); cbn [fst snd]; [split; [exact O0|congruence]|].
          split; [apply Ad; apply kept_refl|]. intros _. exact (Sp s0 _ v n Ng n0 eq_refl). }
      destruct (readNumber_stream t s0) as [r s1]. cbn [fst snd] in H. destruct H as [O1 R1]. match goal with |- context [validateResult ?b s1] => destruct (validate_ok b s1 O1) as [O2 R2]; destruct (validateResult b s1) as [okv s2] end.
      cbn [snd] in *. destruct okv; [|exact Logic.I]. destruct r; [|exact Logic.I]. cbn [runs snd]. specialize (R1 ltac:(discriminate)). split; [exact O2|lia].
  Qed.

  (** ** Other values *)
  Definition lready (l : jlex) : Prop := at_char (l_src l) \/ l_tok l = LNumber.
  Lemma fixed_bool : forall l c, ok (l_src l) -> at_char (l_src l) -> c <> [] -> runs (fwds l) (checkFixed l c).
  Proof.
    intros l c O A N. unfold checkFixed. destruct (runs_out _ _ (read_runs (l_src l) (length c))) as [Nh Kk]. destruct (src_read (l_src l) (length c)) as [[a s]| | |] eqn:R; try exact Logic.I; [|congruence]. cbn [bind].
    destruct (beq _ c); [|exact Logic.I]. cbn [runs]. unfold fwds. cbn [lset_buf lset_src l_src]. destruct c as [|c0 c]; [congruence|]. cbn [length] in R. split.
    - eapply ok_kept; [exact O|exact (proj1 (read_fwd _ _ _ _ R (proj1 O)))|exact (Kk _ eq_refl)].
    - exact (read_adv _ _ _ A R).
  Qed.
  Lemma bool_runs : forall l, ok (l_src l) -> lready l -> runs (fun r => fwds l (snd r)) (getLastBool l).
  Proof.
    intros l O Rd. unfold getLastBool. destruct Rd as [A|E]; [|rewrite E; exact Logic.I]. destruct (l_tok l); try exact Logic.I; (eapply runs_bind; [apply (fixed_bool l _ O A); discriminate|]); intros l1 H; exact H.
  Qed.
  Lemma ignoreRaw_runs : forall l, ok (l_src l) -> runs (fun l' => ok (l_src l') /\ (rem (l_src l') <= rem (l_src l))%nat /\ (lready l -> l_tok l <> LNone -> (forall c, l_tok l <> LPunct c) -> (S (rem (l_src l')) <= rem (l_src l))%nat)) (ignoreRawValue F l).
  Proof.
    intros l O. unfold ignoreRawValue. destruct (l_tok l) eqn:T.
    - cbn [runs]. split; [exact O|]. split; [lia|congruence].
    - cbn [runs]. split; [exact O|]. split; [lia|]. intros _ _ H. congruence.
    - cbn [runs lset_src l_src]. destruct (ignore_ok (l_src l) 4 O) as [A B]. split; [exact A|]. split; [exact B|]. intros [C|C] _ _; [now apply ignore_adv|congruence].
    - cbn [runs lset_src l_src]. destruct (ignore_ok (l_src l) 5 O) as [A B]. split; [exact A|]. split; [exact B|]. intros [C|C] _ _; [now apply ignore_adv|congruence].
    - cbn [runs lset_src l_src]. destruct (ignore_ok (l_src l) 4 O) as [A B]. split; [exact A|]. split; [exact B|]. intros [C|C] _ _; [now apply ignore_adv|congruence].
    - eapply runs_weak; [exact (readNumber_runs l O)|]. intros l' [A B]. split; [exact A|]. split; [lia|]. intros _ _ _. lia.
    - assert (G := get_adv (l_src l) (proj1 O)). destruct (get_ok _ O) as (O1 & R1 & _). destruct (src_get (l_src l)) as [a s1]. cbn [fst snd] in *. destruct (get_ok _ O1) as (O2 & R2 & _). destruct (src_get s1) as [b s2]. cbn [fst snd] in *.
      eapply runs_bind; [exact (skip_runs_s F a b s2 O2 (ok_rem _ O2))|]. intros s3 [O3 R3]. cbn [runs lset_src l_src]. split; [exact O3|]. split; [lia|]. intros [C|C] _ _; [specialize (G C); lia|congruence].
  Qed.

  (** ** Tokens *)
  Definition p_ok (p : jparser) : Prop := ok (l_src (jp_lex p)).
  Definition p_mu (p : jparser) : nat := rem (l_src (jp_lex p)).
  Definition p_ready (p : jparser) : Prop := lready (jp_lex p) /\ l_tok (jp_lex p) <> LNone /\ (forall c, l_tok (jp_lex p) <> LPunct c).
  Lemma yylex_runs : forall l, ok (l_src l) -> runs (fun r => ok (l_src (snd r)) /\ (rem (l_src (snd r)) <= rem (l_src l))%nat /\ (fst r = 1%nat \/ fst r = 3%nat -> (S (rem (l_src (snd r))) <= rem (l_src l))%nat) /\
    ((7 <= fst r)%nat -> lready (snd r) /\ l_tok (snd r) <> LNone /\ (forall c, l_tok (snd r) <> LPunct c))) (yylex l).
  Proof.
    intros l O. apply runs_ok.
    - unfold yylex. destruct (runs_out _ _ (peekNext_runs (l_src l))) as [N _]. destruct (src_peekNextNonSpace (l_src l)) as [[c s]| | |]; try discriminate; [|congruence]. cbn [bind]. repeat match goal with |- (if ?b then _ else _) <> _ => destruct b; [discriminate|] end. discriminate.
    - intros [ix l'] E. cbn [fst snd]. destruct (yylex_fwd _ _ _ E (proj1 O)) as (S1 & R1 & R2). unfold yylex in E. destruct (runs_out _ _ (peekNext_runs (l_src l))) as [_ Kk]. destruct (src_peekNextNonSpace (l_src l)) as [[c s]| | |] eqn:P; try discriminate E. cbn [bind] in E.
      specialize (Kk _ eq_refl). cbn [snd] in Kk.
      assert (At := peekNext_at _ _ _ P).
      repeat match type of E with (if ?a =? ?b then _ else _) = _ => destruct (Z.eqb_spec a b); [apply Ok_inj in E; assert (E1 := f_equal fst E); apply (f_equal snd) in E; cbn [fst snd] in *; subst l' ix; cbn [l_src l_tok] in *; (split; [eapply ok_kept; eassumption|]); (split; [exact R1|]); (split; [exact R2|]);
        first [intro; lia|intros _; split; [left; cbn [l_src]; apply At; subst c; [discriminate|reflexivity]|split; [discriminate|discriminate]]]|] end.
      apply Ok_inj in E; assert (E1 := f_equal fst E); apply (f_equal snd) in E; cbn [fst snd] in *; subst l' ix; cbn [l_src l_tok] in *. split; [eapply ok_kept; eassumption|]. split; [exact R1|]. split; [exact R2|]. intros _. split; [right; reflexivity|]. split; discriminate.
  Qed.
  Lemma table_value : forall s ix, (stateTable s ix = JKey \/ stateTable s ix = JValueM \/ stateTable s ix = JValueA \/ stateTable s ix = JValueD) -> (7 <= ix)%nat.
  Proof. intros s ix E. destruct s, ix as [|[|[|[|[|[|[|[|[|[|[|[|[|[|ix]]]]]]]]]]]]]]; cbn in E; try lia; destruct E as [E|[E|[E|E]]]; discriminate E. Qed.
  Lemma step_tms : forall c ix t c', ctl_step c ix = Ok (StepTok t c') -> (tms t = 0%nat \/ tms t = 1%nat /\ (ix = 1%nat \/ ix = 3%nat)) /\ (t = TokValue \/ t = TokKey -> (7 <= ix)%nat).
  Proof.
    intros c ix t c' E. assert (B := table_value (c_state c) ix). assert (T : stateTable (c_state c) ix = JOpenM \/ stateTable (c_state c) ix = JOpenA -> ix = 1%nat \/ ix = 3%nat).
    { intro H. destruct (c_state c), ix as [|[|[|[|[|[|[|[|[|[|[|[|[|[|ix]]]]]]]]]]]]]]; cbn in H; first [now left|now right|destruct H as [H|H]; discriminate H]. }
    unfold ctl_step in E. destruct (stateTable (c_state c) ix); try discriminate E; try (destruct (c_parents c); try discriminate E); injection E as <- _; (split; [first [left; reflexivity|right; split; [reflexivity|apply T; auto]]|intros [H|H]; first [discriminate H|apply B; auto]]).
  Qed.
  Definition next_post (p : jparser) (r : token * jparser) : Prop := p_ok (snd r) /\ (p_mu (snd r) + tms (fst r) <= p_mu p)%nat /\ (fst r = TokValue \/ fst r = TokKey -> p_ready (snd r)).
  Lemma early_post : forall p t c, p_ok p -> ctl_early (jp_ctl p) = Some (t, c) -> next_post p (t, mkJp (jp_lex p) c).
  Proof.
    intros p t c O E. unfold ctl_early in E. assert (H : tms t = 0%nat /\ t <> TokValue /\ t <> TokKey).
    { destruct (c_started (jp_ctl p)); cbn [negb] in E; [destruct (c_state (jp_ctl p)); try discriminate E|]; injection E as <- _; cbn; repeat split; discriminate. }
    destruct H as (H1 & H2 & H3). unfold next_post, p_ok, p_mu. cbn [fst snd jp_lex]. split; [exact O|]. split; [lia|]. intros [H|H]; contradiction.
  Qed.
  Lemma next_runs : forall p, p_ok p -> runs (next_post p) (jp_next p).
  Proof.
    assert (Step : forall p l ix, p_ok p -> ok (l_src l) -> (rem (l_src l) <= p_mu p)%nat -> (ix = 1%nat \/ ix = 3%nat -> (S (rem (l_src l)) <= p_mu p)%nat) ->
      ((7 <= ix)%nat -> lready l /\ l_tok l <> LNone /\ (forall c, l_tok l <> LPunct c)) -> forall c t c', ctl_step c ix = Ok (StepTok t c') -> next_post p (t, mkJp l c')).
    { intros p l ix O O1 R1 R2 R3 c t c' E. destruct (step_tms _ _ _ _ E) as [A B]. unfold next_post, p_ok, p_mu, p_ready in *. cbn [fst snd jp_lex]. split; [exact O1|]. split; [destruct A as [A|[A Ix]]; [lia|specialize (R2 Ix); lia]|]. intro H. apply R3. now apply B. }
    intros p O. unfold jp_next. cbn [jp_next_loop]. destruct (ctl_early (jp_ctl p)) as [[t c]|] eqn:Ea; [exact (early_post p t c O Ea)|].
    eapply runs_bind; [exact (yylex_runs (jp_lex p) O)|]. intros [ix l] (O1 & R1 & R2 & R3). cbn [fst snd] in *.
    destruct (ctl_step (jp_ctl p) ix) as [[t c|c]| | |] eqn:Sp; try exact Logic.I; [| |].
    - cbn [bind runs]. eapply Step; eassumption.
    - cbn [bind]. destruct (again_state _ _ _ Sp) as [As _]. set (p1 := mkJp l c). assert (Op : p_ok p1) by exact O1. assert (Mp : (p_mu p1 <= p_mu p)%nat) by exact R1.
      eapply runs_weak with (Q' := next_post p1).
      + cbn [jp_next_loop]. destruct (ctl_early (jp_ctl p1)) as [[t2 c2]|] eqn:E2; [exact (early_post p1 t2 c2 Op E2)|].
        eapply runs_bind; [exact (yylex_runs (jp_lex p1) Op)|]. intros [ix2 l2] (O2 & P1 & P2 & P3). cbn [fst snd] in *. destruct (ctl_step (jp_ctl p1) ix2) as [[t2 c2|c2]| | |] eqn:Sq; try exact Logic.I.
        * cbn [bind runs]. eapply Step; eassumption.
        * exfalso. exact (no_again _ _ _ As Sq).
        * exfalso. unfold ctl_step in Sq. destruct (stateTable _ ix2); try discriminate Sq; destruct (c_parents _); discriminate Sq.
      + intros r (A & B & C). split; [exact A|]. split; [lia|exact C].
    - exfalso. unfold ctl_step in Sp. destruct (stateTable _ ix); try discriminate Sp; destruct (c_parents _); discriminate Sp.
  Qed.

  (** ** Imports *)
  Lemma jlift_runs : forall {A} (f : jlex -> outcome (A * jlex)) p, runs (fun r => fwds (jp_lex p) (snd r)) (f (jp_lex p)) -> runs (fun r => p_ok (snd r) /\ (p_mu (snd r) < p_mu p)%nat) (jp_lift f p).
  Proof. intros A f p H. unfold jp_lift. eapply runs_bind; [exact H|]. intros [a l] [B C]. cbn [snd] in *. cbn [runs snd]. unfold p_ok, p_mu. cbn [jp_lex]. split; [exact B|lia]. Qed.
  Lemma json_ends : forall cfg t v, no_null_elements t = true -> (width t < F)%nat -> json_try F cfg t v (src_init k text) <> Hang.
  Proof.
    intros cfg t v N W. set (o := json_ops F (pc_conv cfg)).
    assert (HI : p_ok (mkJp (lex_init (src_init k text)) ctl_init)). { unfold p_ok, ok. cbn. split; [intros _; left; reflexivity|auto]. }
    assert (Hn : forall s, p_ok s -> runs (fun r => p_ok (snd r) /\ (p_mu (snd r) + tms (fst r) <= p_mu s)%nat /\ (fst r = TokValue \/ fst r = TokKey -> p_ready (snd r))) (op_next o s)) by exact next_runs.
    assert (Gt := fun p => getToken_runs o p_mu p_ok p_ready Hn p).
    assert (D : reads F p_mu p_ok p_ready (negb (nullable t)) (deser o F (pc_strict cfg) (pc_marker cfg) t)).
    { refine (proj1 (deser_runs o F (pc_strict cfg) (pc_marker cfg) p_mu p_ok p_ready Hn _ _ _ _ _ _ _ t N W)).
      - intros s I. apply jlift_runs. now apply string_runs.
      - intros i s I _. apply jlift_runs. unfold lex_scanInt. eapply runs_bind; [exact (scanInt_runs i _ I)|]. intros [z s1] H. exact H.
      - intros s I R. apply jlift_runs. apply bool_runs; [exact I|apply R].
      - intros s I _. apply jlift_runs. now apply stringInto_runs.
      - intros s I. cbn [op_ignore o json_ops]. unfold jp_lift_. eapply runs_bind; [exact (ignoreRaw_runs _ I)|]. intros l (A & B & C). cbn [runs]. unfold p_ok, p_mu, p_ready. cbn [jp_lex]. split; [exact A|]. split; [exact B|]. intros (R1 & R2 & R3). specialize (C R1 R2 R3). lia.
      - intros b s I. cbn [runs op_ignoreMap o json_ops]. split; [exact I|lia].
      - intros b s I. cbn [runs op_ignoreArr o json_ops]. split; [exact I|lia]. }
    unfold json_try. fold o. set (p0 := pst_init (mkJp (lex_init (src_init k text)) ctl_init)).
    assert (Q0 : fair p_ok p_ready p0) by (split; [exact HI|split; discriminate]).
    assert (M0 : Mu p_mu p0 = length text) by (unfold Mu, p0, p_mu, rem; cbn; lia).
    apply (runs_out (fun _ => True)). eapply runs_bind; [exact (Gt p0 Q0)|]. intros [tk p1] (T1 & L1 & _). cbn [fst snd] in *. destruct tk; try exact Logic.I.
    eapply runs_bind; [apply (D v p1 (quiet_fair _ _ _ (taken_quiet _ _ T1))); lia|]. intros [v' p2] (Q2 & L2 & _). cbn [snd] in *.
    eapply runs_bind with (Q' := ok).
    - unfold check_trailing. destruct (_ && _); [|exact (proj1 Q2)]. assert (Kc := readChar_kept (l_src (jp_lex (ps_impl p2)))). destruct (src_readChar (l_src (jp_lex (ps_impl p2)))) as [x s1]. cbn [snd] in Kc.
      destruct (src_ok s1); [exact Logic.I|]. cbn [runs]. eapply ok_kept; [exact (proj1 Q2)| |exact Kc]. intros _. left. reflexivity.
    - intros s1 O1. cbv zeta. eapply runs_bind; [apply Gt|].
      + split; [exact O1|]. cbn [ps_pb1 ps_pb2]. destruct Q2 as (_ & B1 & B2). split; congruence.
      + intros [tk p3] _. destruct tk; exact Logic.I.
  Qed.
End Json.
