(** Rounding to the nearest float or double. *)
From Coq Require Import ZArith String List Bool Lia ZifyBool.
From Verif Require Import Model.Base Model.Source Model.Number Model.Float.
Import ListNotations.
Open Scope Z_scope.

Lemma pow_pos : forall n, 0 <= n -> 0 < 2 ^ n.
Proof. intros. now apply Z.pow_pos_nonneg. Qed.
Lemma ten_pos : forall n, 0 < 10 ^ Z.max 0 n.
Proof. intros. apply Z.pow_pos_nonneg; lia. Qed.

(** ** round_even *)
Lemma round_even_near : forall num den n, 0 < den -> Z.abs (num - round_even num den * den) <= Z.abs (num - n * den).
Proof.
  intros num den n H. unfold round_even. assert (D := Z.div_mod num den ltac:(lia)). assert (M := Z.mod_pos_bound num den H).
  set (q := num / den) in *. set (r := num mod den) in *. clearbody q r.
  assert (C : n <= q \/ q + 1 <= n) by lia.
  assert (A : num - q * den = r) by lia. assert (B : num - (q + 1) * den = r - den) by lia.
  assert (N : (n <= q -> r <= num - n * den) /\ (q + 1 <= n -> num - n * den <= r - den)) by nia.
  destruct (2 * r <? den) eqn:E1, (den <? 2 * r) eqn:E2, (Z.even q); rewrite ?A, ?B; lia.
Qed.
Lemma round_even_half : forall num den, 0 < den -> 2 * Z.abs (num - round_even num den * den) <= den.
Proof.
  intros num den H. unfold round_even. assert (D := Z.div_mod num den ltac:(lia)). assert (M := Z.mod_pos_bound num den H).
  set (q := num / den) in *. set (r := num mod den) in *. clearbody q r.
  assert (A : num - q * den = r) by lia. assert (B : num - (q + 1) * den = r - den) by lia.
  destruct (2 * r <? den) eqn:E1, (den <? 2 * r) eqn:E2, (Z.even q); rewrite ?A, ?B; lia.
Qed.
(** Of two equally near integers the even one. *)
Lemma round_even_tie : forall num den n, 0 < den -> Z.abs (num - n * den) <= Z.abs (num - round_even num den * den) ->
  n = round_even num den \/ Z.even (round_even num den) = true.
Proof.
  intros num den n H. unfold round_even. assert (D := Z.div_mod num den ltac:(lia)). assert (M := Z.mod_pos_bound num den H).
  set (q := num / den) in *. set (r := num mod den) in *. clearbody q r.
  assert (C : n < q \/ n = q \/ n = q + 1 \/ q + 1 < n) by lia.
  assert (A : num - q * den = r) by lia. assert (B : num - (q + 1) * den = r - den) by lia.
  assert (N : (n < q -> r + den <= num - n * den) /\ (q + 1 < n -> num - n * den <= r - 2 * den)) by nia.
  destruct (2 * r <? den) eqn:E1, (den <? 2 * r) eqn:E2, (Z.even q) eqn:Ev; rewrite ?A, ?B; intro L;
    try (left; destruct C as [C|[C|[C|C]]]; subst; rewrite ?A, ?B in *; lia); right; try exact Ev.
  rewrite Z.add_1_r, Z.even_succ, <- Z.negb_even, Ev. reflexivity.
Qed.
Lemma round_even_bounds : forall num den lo hi, 0 < den -> lo * den <= num <= hi * den -> lo <= round_even num den <= hi.
Proof.
  intros num den lo hi H [L R]. unfold round_even. assert (D := Z.div_mod num den ltac:(lia)). assert (M := Z.mod_pos_bound num den H).
  set (q := num / den) in *. set (r := num mod den) in *. clearbody q r.
  assert (lo <= q) by nia. assert (q < hi \/ q = hi /\ r = 0) by nia.
  destruct (2 * r <? den) eqn:E1, (den <? 2 * r) eqn:E2, (Z.even q); lia.
Qed.
Lemma round_even_exact : forall n den, 0 < den -> round_even (n * den) den = n.
Proof. intros n den H. assert (X := round_even_bounds (n * den) den n n H ltac:(lia)). lia. Qed.

(** ** Patterns without a sign.  [decode f a] continues the magnitude behind the largest finite value. *)
Section Decode.
  Context (f : fty).
  Let P := 2 ^ fl_man f.
  Definition kappa (a : Z) : Z := Z.max 0 (a / 2 ^ fl_man f - 1).
  Definition decode (a : Z) : Z := (a - kappa a * 2 ^ fl_man f) * 2 ^ kappa a.

  Lemma man_range : 1 <= fl_man f.
  Proof. destruct f; cbn; lia. Qed.
  Lemma P_even : exists h, 2 ^ fl_man f = 2 * h /\ 0 < h.
  Proof.
    exists (2 ^ (fl_man f - 1)). split; [|apply pow_pos; pose man_range; lia].
    rewrite <- Z.pow_succ_r by (pose man_range; lia). f_equal. lia.
  Qed.
  Lemma P_pos : 2 <= P.
  Proof. destruct P_even as (h & E & H). unfold P. lia. Qed.

  Lemma decode_step : forall a, 0 <= a -> decode (a + 1) = decode a + 2 ^ kappa a.
  Proof.
    intros a Ha. assert (HP := P_pos). unfold decode, kappa. fold P.
    assert (D := Z.div_mod a P ltac:(lia)). assert (M := Z.mod_pos_bound a P ltac:(lia)).
    set (E := a / P) in *. set (F := a mod P) in *. assert (0 <= E) by (apply Z.div_pos; lia). clearbody E F.
    destruct (Z.eq_dec F (P - 1)) as [Last|More].
    - replace ((a + 1) / P) with (E + 1) by (apply (Z.div_unique _ _ _ 0); lia).
      destruct (Z.eq_dec E 0) as [->|Ne].
      + replace (Z.max 0 (0 + 1 - 1)) with 0 by lia. replace (Z.max 0 (0 - 1)) with 0 by lia. change (2 ^ 0) with 1. lia.
      + replace (Z.max 0 (E + 1 - 1)) with (Z.succ (E - 1)) by lia. replace (Z.max 0 (E - 1)) with (E - 1) by lia.
        rewrite Z.pow_succ_r by lia. set (X := 2 ^ (E - 1)). clearbody X. nia.
    - replace ((a + 1) / P) with E by (apply (Z.div_unique _ _ _ (F + 1)); lia). ring.
  Qed.
  Lemma decode_0 : decode 0 = 0.
  Proof. assert (HP := P_pos). unfold decode, kappa. fold P. rewrite Z.div_0_l by lia. reflexivity. Qed.
  Lemma kappa_nonneg : forall a, 0 <= kappa a.
  Proof. intro a. unfold kappa. lia. Qed.
  Lemma decode_mono : forall a b, 0 <= a -> a <= b -> decode a <= decode b.
  Proof.
    intros a b Ha H. replace b with (a + Z.of_nat (Z.to_nat (b - a))) by lia. induction (Z.to_nat (b - a)) as [|n IH].
    - replace (a + Z.of_nat 0) with a by lia. lia.
    - replace (a + Z.of_nat (S n)) with (a + Z.of_nat n + 1) by lia. rewrite decode_step by lia.
      assert (0 < 2 ^ kappa (a + Z.of_nat n)) by apply pow_pos, kappa_nonneg. lia.
  Qed.
  Lemma decode_lt : forall a b, 0 <= a -> a < b -> decode a < decode b.
  Proof.
    intros a b Ha H. assert (S := decode_step a Ha). assert (0 < 2 ^ kappa a) by apply pow_pos, kappa_nonneg.
    assert (M := decode_mono (a + 1) b ltac:(lia) ltac:(lia)). lia.
  Qed.
  Lemma decode_inj : forall a b, 0 <= a -> 0 <= b -> decode a = decode b -> a = b.
  Proof.
    intros a b Ha Hb E. destruct (Z.lt_trichotomy a b) as [L|[L|L]]; [|exact L|].
    - assert (X := decode_lt a b Ha L). lia.
    - assert (X := decode_lt b a Hb L). lia.
  Qed.
  Lemma decode_nonneg : forall a, 0 <= a -> 0 <= decode a.
  Proof. intros a H. rewrite <- decode_0. apply decode_mono; lia. Qed.

  (** The two cases of fl_round. *)
  Lemma decode_scaled : forall n k, (k = 0 /\ 0 <= n <= 2 * P) \/ (1 <= k /\ P <= n <= 2 * P) -> decode (n + k * P) = n * 2 ^ k.
  Proof.
    intros n k H. assert (HP := P_pos). unfold decode, kappa. fold P.
    destruct (Z.eq_dec n (2 * P)) as [->|Ne].
    - replace (2 * P + k * P) with ((k + 2) * P) by ring. rewrite Z.div_mul by lia.
      replace (Z.max 0 (k + 2 - 1)) with (Z.succ k) by lia. rewrite Z.pow_succ_r by lia. ring.
    - destruct (Z_lt_dec n P) as [L|L].
      + assert (k = 0) by lia. subst k. rewrite Z.div_small by lia. change (Z.max 0 (0 - 1)) with 0. change (2 ^ 0) with 1. ring.
      + replace ((n + k * P) / P) with (k + 1) by (apply (Z.div_unique _ _ _ (n - P)); lia).
        replace (Z.max 0 (k + 1 - 1)) with k by lia. ring.
  Qed.
  Definition scale (num den : Z) : Z := Z.max 0 (Z.log2 (num / den) - fl_man f).
  Lemma scale_spec : forall num den, 0 <= num -> 0 < den ->
    (scale num den = 0 /\ 0 <= num <= 2 * P * den) \/
    (1 <= scale num den /\ P * (den * 2 ^ scale num den) <= num <= 2 * P * (den * 2 ^ scale num den)).
  Proof.
    intros num den Hn Hd. assert (HP := P_pos). unfold scale. assert (D := Z.div_mod num den ltac:(lia)). assert (M := Z.mod_pos_bound num den Hd).
    assert (Q0 : 0 <= num / den) by (apply Z.div_pos; lia). set (q := num / den) in *. clearbody q.
    assert (E2 : 2 * P = 2 ^ (fl_man f + 1)) by (unfold P; rewrite Z.add_1_r, Z.pow_succ_r; [reflexivity|pose man_range; lia]).
    destruct (Z_lt_dec q (2 * P)) as [L|L].
    - left. assert (Z.log2 q <= fl_man f).
      { destruct (Z.eq_dec q 0) as [->|]; [cbn; pose man_range; lia|]. assert (Z.log2 q < fl_man f + 1) by (apply Z.log2_lt_pow2; [lia|rewrite <- E2; lia]). lia. }
      split; [lia|]. nia.
    - right. assert (fl_man f + 1 <= Z.log2 q) by (apply Z.log2_le_pow2; [lia|rewrite <- E2; lia]).
      assert (S := Z.log2_spec q ltac:(lia)). replace (Z.max 0 (Z.log2 q - fl_man f)) with (Z.log2 q - fl_man f) by lia.
      assert (MR := man_range).
      set (k := Z.log2 q - fl_man f). assert (X1 : 2 ^ Z.log2 q = P * 2 ^ k).
      { unfold P. rewrite <- Z.pow_add_r by (pose man_range; lia). f_equal. unfold k. lia. }
      rewrite Z.pow_succ_r in S by apply Z.log2_nonneg. rewrite X1 in S. split; [lia|]. set (T := 2 ^ k) in *. clearbody T k.
      split; nia.
  Qed.
  Lemma fl_round_eq : forall num den, fl_round f num den = round_even num (den * 2 ^ scale num den) + scale num den * P.
  Proof. reflexivity. Qed.
  Lemma round_parts : forall num den, 0 <= num -> 0 < den ->
    let k := scale num den in let n := round_even num (den * 2 ^ k) in
    ((k = 0 /\ 0 <= n <= 2 * P) \/ (1 <= k /\ P <= n <= 2 * P)) /\ decode (fl_round f num den) = n * 2 ^ k.
  Proof.
    intros num den Hn Hd k n. assert (HT : 0 < 2 ^ k) by (apply pow_pos; unfold k, scale; lia).
    assert (C : (k = 0 /\ 0 <= n <= 2 * P) \/ (1 <= k /\ P <= n <= 2 * P)).
    { destruct (scale_spec num den Hn Hd) as [[K B]|[K B]]; fold k in K, B.
      - left. split; [exact K|]. apply round_even_bounds; [nia|]. rewrite K. change (2 ^ 0) with 1. lia.
      - right. split; [exact K|]. apply round_even_bounds; [nia|]. exact B. }
    split; [exact C|]. rewrite fl_round_eq. fold k n. now apply decode_scaled.
  Qed.
  Lemma fl_round_nonneg : forall num den, 0 <= num -> 0 < den -> 0 <= fl_round f num den.
  Proof.
    intros num den Hn Hd. destruct (round_parts num den Hn Hd) as [C _]. rewrite fl_round_eq. assert (HP := P_pos).
    set (k := scale num den) in *. set (n := round_even num (den * 2 ^ k)) in *. clearbody k n. nia.
  Qed.
  (** What a larger pattern decodes to is a multiple of the step. *)
  Lemma decode_multiple : forall k a, 0 <= k -> (k + 1) * P <= a -> exists n, decode a = n * 2 ^ k.
  Proof.
    intros k a Hk H. assert (HP := P_pos). assert (k <= kappa a).
    { unfold kappa. fold P. assert (k + 1 <= a / P) by (apply Z.div_le_lower_bound; lia). lia. }
    exists ((a - kappa a * P) * 2 ^ (kappa a - k)). unfold decode. fold P. rewrite <- Z.mul_assoc, <- Z.pow_add_r by lia. f_equal. f_equal. lia.
  Qed.
  Lemma decode_start : forall k, 0 <= k -> decode ((k + 1) * P) = P * 2 ^ k.
  Proof.
    intros k Hk. assert (HP := P_pos). replace ((k + 1) * P) with (P + k * P) by ring. apply decode_scaled. lia.
  Qed.

  Theorem fl_round_near : forall num den a, 0 <= num -> 0 < den -> 0 <= a ->
    Z.abs (num - decode (fl_round f num den) * den) <= Z.abs (num - decode a * den).
  Proof.
    intros num den a Hn Hd Ha. destruct (round_parts num den Hn Hd) as [C E]. cbv zeta in *. rewrite E.
    assert (S := scale_spec num den Hn Hd).
    set (k := scale num den) in *. assert (HT : 0 < 2 ^ k) by (apply pow_pos; unfold k, scale; lia).
    assert (Near := fun n => round_even_near num (den * 2 ^ k) n ltac:(nia)).
    set (n := round_even num (den * 2 ^ k)) in *.
    replace (n * 2 ^ k * den) with (n * (den * 2 ^ k)) by ring.
    destruct (Z_lt_dec a ((k + 1) * P)) as [L|L].
    - destruct C as [[K _]|[K _]].
      + rewrite K in *. change (2 ^ 0) with 1 in *. assert (X := Near (decode a)). replace (decode a * (den * 1)) with (decode a * den) in X by ring. exact X.
      + destruct S as [[S _]|[_ S]]; [lia|]. assert (X := Near P).
        assert (M := decode_mono a ((k + 1) * P) Ha ltac:(lia)). rewrite decode_start in M by lia.
        set (da := decode a) in *. clearbody da. set (T := 2 ^ k) in *. clearbody T.
        assert (da * den <= P * (den * T)) by nia. lia.
    - destruct (decode_multiple k a) as (m & ->); [lia|lia|]. assert (X := Near m). replace (m * 2 ^ k * den) with (m * (den * 2 ^ k)) by ring. exact X.
  Qed.
  Theorem fl_round_tie : forall num den a, 0 <= num -> 0 < den -> 0 <= a ->
    Z.abs (num - decode a * den) <= Z.abs (num - decode (fl_round f num den) * den) ->
    a = fl_round f num den \/ Z.even (fl_round f num den) = true.
  Proof.
    intros num den a Hn Hd Ha. assert (R0 := fl_round_nonneg num den Hn Hd). destruct (round_parts num den Hn Hd) as [C E]. cbv zeta in *. rewrite E.
    assert (S := scale_spec num den Hn Hd).
    assert (Rq := fl_round_eq num den).
    set (k := scale num den) in *. assert (HT : 0 < 2 ^ k) by (apply pow_pos; unfold k, scale; lia).
    assert (Near := fun n => round_even_near num (den * 2 ^ k) n ltac:(nia)).
    assert (Tie := fun n => round_even_tie num (den * 2 ^ k) n ltac:(nia)).
    set (n := round_even num (den * 2 ^ k)) in *.
    replace (n * 2 ^ k * den) with (n * (den * 2 ^ k)) by ring.
    assert (G : forall m, decode a = m * 2 ^ k -> Z.abs (num - decode a * den) <= Z.abs (num - n * (den * 2 ^ k)) -> a = fl_round f num den \/ Z.even (fl_round f num den) = true).
    { intros m Em L. rewrite Em in L. replace (m * 2 ^ k * den) with (m * (den * 2 ^ k)) in L by ring.
      destruct (Tie m L) as [->|Ev].
      - left. apply decode_inj; [exact Ha|exact R0|]. now rewrite Em, E.
      - right. rewrite Rq. rewrite Z.even_add, Ev, Z.even_mul. destruct P_even as (h & Eh & _). unfold P. rewrite Eh, Z.even_mul. cbn [Z.even].
        now rewrite Bool.orb_true_r. }
    destruct (Z_lt_dec a ((k + 1) * P)) as [L|L].
    - destruct C as [[K _]|[K _]].
      + apply (G (decode a)). rewrite K. change (2 ^ 0) with 1. ring.
      + destruct S as [[S _]|[_ S]]; [lia|]. assert (X := Near P).
        assert (M := decode_lt a ((k + 1) * P) Ha ltac:(lia)). rewrite decode_start in M by lia.
        set (da := decode a) in *. clearbody da. set (T := 2 ^ k) in *. clearbody T.
        assert (da * den < P * (den * T)) by nia. lia.
    - destruct (decode_multiple k a) as (m & Em); [lia|lia|]. now apply (G m).
  Qed.
  Theorem fl_round_exact : forall a den, 0 <= a -> 0 < den -> fl_round f (decode a * den) den = a.
  Proof.
    intros a den Ha Hd. assert (N0 : 0 <= decode a * den) by (assert (X := decode_nonneg a Ha); nia).
    assert (X := fl_round_near _ den a N0 Hd Ha). apply decode_inj; [now apply fl_round_nonneg|exact Ha|]. nia.
  Qed.
  (** No overflow up to the largest finite value, no underflow from half the smallest one. *)
  Lemma fl_round_below : forall num den t, 0 <= num -> 0 < den -> 0 <= t -> num <= decode t * den -> fl_round f num den <= t.
  Proof.
    intros num den t Hn Hd Ht H. destruct (Z_le_dec (fl_round f num den) t) as [L|L]; [exact L|exfalso].
    assert (X := fl_round_near num den t Hn Hd Ht). assert (M := decode_lt t (fl_round f num den) Ht ltac:(lia)). nia.
  Qed.
  Lemma decode_1 : decode 1 = 1.
  Proof. assert (X := decode_step 0 ltac:(lia)). rewrite decode_0 in X. unfold kappa in X. assert (HP := P_pos). fold P in X. rewrite Z.div_0_l in X by lia. exact X. Qed.
  Lemma fl_round_above : forall num den, 0 <= num -> 0 < den -> den < 2 * num -> 1 <= fl_round f num den.
  Proof.
    intros num den Hn Hd H. assert (R0 := fl_round_nonneg num den Hn Hd). destruct (Z.eq_dec (fl_round f num den) 0) as [E|]; [|lia].
    assert (X := fl_round_near num den 1 Hn Hd ltac:(lia)). rewrite E, decode_0, decode_1 in X. lia.
  Qed.
  Lemma fl_round_0 : forall den, 0 < den -> fl_round f 0 den = 0.
  Proof. intros den H. assert (X := fl_round_exact 0 den ltac:(lia) H). rewrite decode_0 in X. exact X. Qed.

  (** ** Bit patterns *)
  Lemma bits_split : 2 ^ (fl_bits f - 1) = (fl_emax f + 1) * P.
  Proof. unfold P. destruct f; reflexivity. Qed.
  Lemma abs_range : forall b, 0 <= fl_abs f b < 2 ^ (fl_bits f - 1).
  Proof. intro b. apply Z.mod_pos_bound. destruct f; reflexivity. Qed.
  Lemma mag_decode : forall b, fl_mag f b = decode (fl_abs f b).
  Proof.
    intro b. assert (HP := P_pos). unfold fl_mag, fl_exp, fl_frac, decode, kappa. fold P. assert (A := abs_range b).
    assert (F : b mod P = fl_abs f b mod P).
    { unfold fl_abs. rewrite bits_split. rewrite (Z.mul_comm _ P). rewrite Z.rem_mul_r by (try lia; destruct f; cbn; lia).
      rewrite Z.mul_comm, Z.mod_add by lia. symmetry. apply Z.mod_mod. lia. }
    rewrite F. set (a := fl_abs f b) in *. clearbody a.
    assert (D := Z.div_mod a P ltac:(lia)). assert (0 <= a / P) by (apply Z.div_pos; lia).
    destruct (a / P =? 0) eqn:E.
    - replace (a / P) with 0 in * by lia. change (Z.max 0 (0 - 1)) with 0. change (2 ^ 0) with 1. lia.
    - replace (Z.max 0 (a / P - 1)) with (a / P - 1) by lia. f_equal. lia.
  Qed.
  Lemma finite_abs : forall b, fl_finite f b = true <-> fl_abs f b < fl_inf f.
  Proof.
    intro b. assert (HP := P_pos). unfold fl_finite, fl_exp, fl_inf. fold P. rewrite Z.ltb_lt. split; intro H.
    - assert (D := Z.div_mod (fl_abs f b) P ltac:(lia)). assert (M := Z.mod_pos_bound (fl_abs f b) P ltac:(lia)). nia.
    - apply Z.div_lt_upper_bound; lia.
  Qed.
  Lemma inf_lt : fl_inf f < 2 ^ (fl_bits f - 1).
  Proof. destruct f; reflexivity. Qed.
  Lemma make_abs : forall neg a, 0 <= a < 2 ^ (fl_bits f - 1) -> fl_abs f (fl_make f neg a) = a.
  Proof.
    intros neg a H. unfold fl_abs, fl_make. destruct neg; [|now apply Z.mod_small].
    rewrite <- (Z.mul_1_l (2 ^ (fl_bits f - 1))) at 1. rewrite Z.mod_add by lia. now apply Z.mod_small.
  Qed.
  Lemma make_neg : forall neg a, 0 <= a < 2 ^ (fl_bits f - 1) -> fl_neg f (fl_make f neg a) = neg.
  Proof. intros neg a H. unfold fl_neg, fl_make. destruct neg; lia. Qed.
  Lemma bits_half : 2 ^ fl_bits f = 2 * 2 ^ (fl_bits f - 1).
  Proof. destruct f; reflexivity. Qed.
  Lemma make_split : forall b, 0 <= b < 2 ^ fl_bits f -> b = fl_make f (fl_neg f b) (fl_abs f b).
  Proof.
    intros b H. rewrite bits_half in H. unfold fl_make, fl_neg, fl_abs. set (T := 2 ^ (fl_bits f - 1)) in *.
    destruct (T <=? b) eqn:E.
    - assert (b mod T = b - T) by (symmetry; apply (Z.mod_unique _ _ 1); lia). lia.
    - symmetry. apply Z.mod_small. lia.
  Qed.
  Lemma make_range : forall neg a, 0 <= a < 2 ^ (fl_bits f - 1) -> 0 <= fl_make f neg a < 2 ^ fl_bits f.
  Proof. intros neg a H. rewrite bits_half. unfold fl_make. destruct neg; lia. Qed.
End Decode.
