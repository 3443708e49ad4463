(** Patterns as rational numbers: a JSON number is read as the nearest value. *)
From Coq Require Import ZArith QArith Qabs Qpower List Bool Lia ZifyBool.
From Verif Require Import Model.Base Model.Source Model.Number Model.Types Model.Float Spec.Json Spec.Import Spec.Float
  Proofs.NumberP Proofs.FloatP Proofs.JsonPartP Proofs.FloatReadP.
Import ListNotations.
Open Scope Z_scope.

Lemma Qpos_pow : forall p n, (0 < inject_Z (Zpos p) ^ n)%Q.
Proof. intros p n. apply Qpower_0_lt. reflexivity. Qed.
Lemma inject_pos : forall z, 0 < z -> (0 < inject_Z z)%Q.
Proof. intros z H. change (inject_Z 0 < inject_Z z)%Q. now rewrite <- Zlt_Qlt. Qed.
Lemma inject_nonneg : forall z, 0 <= z -> (0 <= inject_Z z)%Q.
Proof. intros z H. change (inject_Z 0 <= inject_Z z)%Q. now rewrite <- Zle_Qle. Qed.

Lemma Qpos_nonzero : forall q, (0 < q)%Q -> ~ (q == 0)%Q.
Proof. intros q H E. rewrite E in H. discriminate H. Qed.

Section Value.
  Context (f : fty).
  (** The smallest positive value. *)
  Definition ulp0 : Q := Qpower 2 (- fl_unit f).
  Definition signed (neg : bool) (d : Z) : Z := if neg then - d else d.
  Lemma ulp0_pos : (0 < ulp0)%Q.
  Proof. apply (Qpos_pow 2). Qed.

  Lemma pattern_bits : forall b, pattern f b <-> 0 <= b < 2 ^ fl_bits f.
  Proof. intro b. unfold pattern. destruct f; reflexivity. Qed.
  Lemma negative_neg : forall b, pattern f b -> negative f b = fl_neg f b.
  Proof.
    intros b H. apply pattern_bits in H. rewrite (bits_half f) in H. unfold negative, fl_neg.
    replace (exp_bits f + frac_bits f) with (fl_bits f - 1) by (destruct f; reflexivity). set (h := 2 ^ (fl_bits f - 1)) in *.
    assert (0 < h) by (subst h; destruct f; reflexivity). destruct (Z.leb_spec h b) as [L|L].
    - assert (b / h = 1) as ->; [|reflexivity]. symmetry. apply (Z.div_unique b h 1 (b - h)); lia.
    - rewrite Z.div_small by lia. reflexivity.
  Qed.
  Lemma exponent_exp : forall b, b / 2 ^ frac_bits f mod 2 ^ exp_bits f = fl_exp f b.
  Proof.
    intro b. unfold fl_exp, fl_abs. replace (frac_bits f) with (fl_man f) by (destruct f; reflexivity).
    replace (2 ^ (fl_bits f - 1)) with (2 ^ fl_man f * 2 ^ exp_bits f) by (destruct f; reflexivity).
    assert (0 < 2 ^ fl_man f) by (destruct f; reflexivity). assert (0 < 2 ^ exp_bits f) by (destruct f; reflexivity).
    rewrite Z.rem_mul_r by lia. rewrite (Z.mul_comm (2 ^ fl_man f)), Z.div_add by lia. rewrite (Z.div_small (b mod _)) by (apply Z.mod_pos_bound; lia). lia.
  Qed.
  Theorem float_value_spec : forall b, pattern f b ->
    if fl_finite f b then exists v, float_value f b = Some v /\ (v == inject_Z (signed (fl_neg f b) (decode f (fl_abs f b))) * ulp0)%Q
    else float_value f b = None.
  Proof.
    intros b H. unfold float_value. rewrite exponent_exp, (negative_neg b H).
    assert (R : 0 <= fl_exp f b <= fl_emax f).
    { assert (A := abs_range f b). rewrite bits_split in A. unfold fl_exp. assert (0 < 2 ^ fl_man f) by (destruct f; reflexivity). split; [apply Z.div_pos; lia|].
      apply Z.lt_succ_r. apply Z.div_lt_upper_bound; lia. }
    replace (2 ^ exp_bits f - 1) with (fl_emax f) by (destruct f; reflexivity). unfold fl_finite.
    destruct (Z.ltb_spec (fl_exp f b) (fl_emax f)) as [L|L]; destruct (Z.eqb_spec (fl_exp f b) (fl_emax f)) as [E|E]; try lia; [|reflexivity].
    eexists. split; [reflexivity|]. rewrite <- mag_decode. unfold fl_mag. fold (fl_frac f b).
    replace (b mod 2 ^ frac_bits f) with (fl_frac f b) by (unfold fl_frac; destruct f; reflexivity).
    replace (2 ^ frac_bits f) with (2 ^ fl_man f) by (destruct f; reflexivity).
    replace (Z.max (fl_exp f b) 1 - (2 ^ (exp_bits f - 1) - 1) - frac_bits f) with (Z.max 0 (fl_exp f b - 1) + - fl_unit f)
      by (destruct f; cbn [exp_bits frac_bits fl_unit]; change (2 ^ (8 - 1) - 1) with 127; change (2 ^ (11 - 1) - 1) with 1023; lia).
    rewrite Qpower_plus by discriminate. fold ulp0.
    assert (S : forall d, (((if fl_neg f b then -1 else 1) * inject_Z d) == inject_Z (signed (fl_neg f b) d))%Q).
    { intro d. unfold signed. destruct (fl_neg f b); [rewrite inject_Z_opp|]; ring. }
    rewrite S. destruct (Z.eqb_spec (fl_exp f b) 0) as [E0|E0].
    - rewrite E0. change (Z.max 0 (0 - 1)) with 0. change (2 ^ 0)%Q with 1%Q. ring.
    - rewrite Z.max_r by lia. change 2%Q with (inject_Z 2). rewrite <- Zpower_Qpower by lia. unfold signed. destruct (fl_neg f b); rewrite ?inject_Z_opp, inject_Z_mult; ring.
  Qed.
  Corollary finite_value : forall b, pattern f b -> fl_finite f b = true ->
    exists v, float_value f b = Some v /\ (v == inject_Z (signed (fl_neg f b) (decode f (fl_abs f b))) * ulp0)%Q.
  Proof. intros b H F. assert (X := float_value_spec b H). now rewrite F in X. Qed.
  Corollary value_finite : forall b v, pattern f b -> float_value f b = Some v ->
    fl_finite f b = true /\ (v == inject_Z (signed (fl_neg f b) (decode f (fl_abs f b))) * ulp0)%Q.
  Proof.
    intros b v H E. assert (X := float_value_spec b H). destruct (fl_finite f b); [|congruence]. destruct X as (v' & E' & Q). split; [reflexivity|].
    rewrite E in E'. injection E' as <-. exact Q.
  Qed.

  (** ** Distances, in units *)
  Lemma distance : forall x v s num den d, (x * inject_Z den == inject_Z (signed s num) * ulp0)%Q -> 0 < den -> (v == inject_Z d * ulp0)%Q ->
    (Qabs (x - v) * inject_Z den == inject_Z (Z.abs (signed s num - d * den)) * ulp0)%Q.
  Proof.
    intros x v s num den d Hx Hd Hv. assert (Pd := inject_pos _ Hd). assert (Pu := ulp0_pos).
    rewrite <- (Qabs_pos (inject_Z den)) at 1 by now apply Qlt_le_weak. rewrite <- Qabs_Qmult.
    assert (E : ((x - v) * inject_Z den == inject_Z (signed s num - d * den) * ulp0)%Q).
    { rewrite Hv. unfold Z.sub. rewrite inject_Z_plus, inject_Z_opp, inject_Z_mult.
      transitivity (x * inject_Z den - inject_Z d * ulp0 * inject_Z den)%Q; [ring|]. rewrite Hx. ring. }
    rewrite E, Qabs_Qmult. rewrite (Qabs_pos ulp0) by now apply Qlt_le_weak. reflexivity.
  Qed.
  Lemma compare : forall x y den m n, (x * inject_Z den == inject_Z m * ulp0)%Q -> (y * inject_Z den == inject_Z n * ulp0)%Q -> 0 < den ->
    ((x <= y)%Q <-> m <= n).
  Proof.
    intros x y den m n Hx Hy Hd. assert (Pd := inject_pos _ Hd). assert (Pu := ulp0_pos).
    rewrite <- (Qmult_le_r x y (inject_Z den) Pd), Hx, Hy, (Qmult_le_r _ _ ulp0 Pu), <- Zle_Qle. reflexivity.
  Qed.
  Lemma same_value : forall s d s' d', signed s d = signed s' d' -> (inject_Z (signed s d) * ulp0 == inject_Z (signed s' d') * ulp0)%Q.
  Proof. intros s d s' d' ->. reflexivity. Qed.

  Lemma signed_far : forall s s' num d, 0 <= num -> 0 <= d -> Z.abs (num - d) <= Z.abs (signed s num - signed s' d).
  Proof. intros [] [] num d H1 H2; cbn; lia. Qed.
  Lemma signed_same : forall s num d, Z.abs (signed s num - signed s d) = Z.abs (num - d).
  Proof. intros [] num d; cbn; lia. Qed.
  Lemma signed_mul : forall s d den, signed s d * den = signed s (d * den).
  Proof. intros [] d den; cbn; lia. Qed.

  (** The number num / den, with a sign. *)
  Context (x : Q) (s : bool) (num den : Z).
  Hypotheses (Hn : 0 <= num) (Hd : 0 < den) (Hx : (x * inject_Z den == inject_Z (signed s num) * ulp0)%Q).
  Notation a := (fl_round f num den).
  Lemma round_nearest : a < fl_inf f -> nearest f x (fl_make f s a).
  Proof.
    intro La. assert (Na := fl_round_nonneg f num den Hn Hd). assert (Ra : 0 <= a < 2 ^ (fl_bits f - 1)) by (assert (X := inf_lt f); lia).
    assert (Pb : pattern f (fl_make f s a)) by (apply pattern_bits; now apply make_range).
    split; [exact Pb|]. destruct (finite_value _ Pb) as (v & Ev & Qv); [apply finite_abs; now rewrite make_abs|]. exists v. split; [exact Ev|].
    rewrite make_neg, make_abs in Qv by exact Ra. intros b' v' Pb' Ev'. destruct (value_finite b' v' Pb' Ev') as [Fb' Qv'].
    assert (Rb := abs_range f b'). set (a' := fl_abs f b') in *. set (s' := fl_neg f b') in *.
    assert (D := distance x v s num den _ Hx Hd Qv). assert (D' := distance x v' s num den _ Hx Hd Qv'). rewrite !signed_mul in D, D'. rewrite signed_same in D.
    assert (C := compare _ _ den _ _ D D' Hd). assert (C' := compare _ _ den _ _ D' D Hd).
    assert (Near := fl_round_near f num den a' Hn Hd (proj1 Rb)). assert (N' := decode_nonneg f a' (proj1 Rb)).
    assert (Far := signed_far s s' num (decode f a' * den) Hn ltac:(nia)). split; [apply C; lia|].
    intro Le. apply C' in Le. assert (Tie := fl_round_tie f num den a' Hn Hd (proj1 Rb) ltac:(lia)).
    assert (Ev2 : Z.even (fl_make f s a) = Z.even a).
    { unfold fl_make. destruct s; [|reflexivity]. rewrite Z.even_add. replace (Z.even (2 ^ (fl_bits f - 1))) with true by (destruct f; reflexivity). now destruct (Z.even a). }
    rewrite Ev2. destruct Tie as [Tie|Tie]; [|now right]. left. rewrite Qv, Qv', <- Tie. apply same_value.
    assert (s' = s \/ decode f a' = 0) as [->|Z0]; [|reflexivity|rewrite Z0; now destruct s, s'].
    assert (Near0 := fl_round_near f num den 0 Hn Hd ltac:(lia)). rewrite decode_0 in Near0.
    clear -Le N' Hd Hn Near0. destruct s', s; cbn [signed] in Le; try (now left); right; nia.
  Qed.
  Lemma round_in_range : in_range f x -> a < fl_inf f /\ (a = 0 -> num = 0).
  Proof.
    assert (Ab : (Qabs x * inject_Z den == inject_Z num * ulp0)%Q).
    { assert (D := distance x 0 s num den 0 Hx Hd ltac:(ring)). rewrite Z.mul_0_l, Z.sub_0_r in D. replace (Z.abs (signed s num)) with num in D by (destruct s; cbn; lia).
      rewrite <- D. unfold Qminus. now rewrite Qplus_0_r. }
    intros [Z0|((b1 & v1 & P1 & E1 & V1 & L1) & (b2 & v2 & P2 & E2 & L2))].
    - assert (num = 0) as ->.
      { rewrite Z0 in Ab. change (Qabs 0) with 0%Q in Ab. rewrite Qmult_0_l in Ab. symmetry in Ab. apply Qmult_integral in Ab as [Ab|Ab].
        - unfold Qeq in Ab. cbn in Ab. lia.
        - assert (U := ulp0_pos). rewrite Ab in U. discriminate U. }
      rewrite fl_round_0 by exact Hd. split; [destruct f; reflexivity|reflexivity].
    - destruct (value_finite _ _ P1 E1) as [_ Q1]. destruct (value_finite _ _ P2 E2) as [F2 Q2]. apply finite_abs in F2.
      assert (R1 := abs_range f b1). assert (R2 := abs_range f b2). assert (N1 := decode_nonneg f _ (proj1 R1)). assert (N2 := decode_nonneg f _ (proj1 R2)).
      assert (D1 : (v1 * inject_Z den == inject_Z (signed (fl_neg f b1) (decode f (fl_abs f b1)) * den) * ulp0)%Q) by (rewrite Q1, inject_Z_mult; ring).
      assert (D2 : (v2 * inject_Z den == inject_Z (signed (fl_neg f b2) (decode f (fl_abs f b2)) * den) * ulp0)%Q) by (rewrite Q2, inject_Z_mult; ring).
      apply (compare _ _ _ _ _ D1 Ab Hd) in L1. apply (compare _ _ _ _ _ Ab D2 Hd) in L2.
      assert (W1 : 0 < signed (fl_neg f b1) (decode f (fl_abs f b1))).
      { rewrite Q1 in V1. destruct (Z.lt_ge_cases 0 (signed (fl_neg f b1) (decode f (fl_abs f b1)))) as [L|L]; [exact L|exfalso].
        assert (V2 : (inject_Z (signed (fl_neg f b1) (decode f (fl_abs f b1))) * ulp0 <= inject_Z 0 * ulp0)%Q) by (apply Qmult_le_compat_r; [rewrite <- Zle_Qle; exact L|apply Qlt_le_weak, ulp0_pos]).
        rewrite Qmult_0_l in V2. exact (Qlt_not_le _ _ V1 V2). }
      assert (num <= decode f (fl_abs f b2) * den) by (destruct (fl_neg f b2); cbn [signed] in L2; nia).
      split.
      + assert (B := fl_round_below f num den (fl_abs f b2) Hn Hd (proj1 R2) H). lia.
      + intro A0. assert (U := fl_round_above f num den Hn Hd ltac:(nia)). lia.
  Qed.
End Value.

(** The number of a text. *)
Lemma decimal_scaled : forall f m e, 0 <= m -> let num := m * 10 ^ Z.max 0 e * 2 ^ fl_unit f in let den := 10 ^ Z.max 0 (- e) in
  0 <= num /\ 0 < den /\ forall s, ((if s : bool then - (inject_Z m * Qpower 10 e) else inject_Z m * Qpower 10 e) * inject_Z den == inject_Z (signed s num) * ulp0 f)%Q.
Proof.
  intros f m e Hm. cbv zeta. assert (P1 : 0 < 10 ^ Z.max 0 e) by apply ten_pos. assert (P2 : 0 < 10 ^ Z.max 0 (- e)) by apply ten_pos.
  assert (P3 : 0 < 2 ^ fl_unit f) by (destruct f; reflexivity). split; [nia|]. split; [exact P2|].
  assert (E : (inject_Z m * Qpower 10 e * inject_Z (10 ^ Z.max 0 (- e)) == inject_Z (m * 10 ^ Z.max 0 e * 2 ^ fl_unit f) * ulp0 f)%Q).
  { rewrite !inject_Z_mult, !Zpower_Qpower by (destruct f; cbn; lia). unfold ulp0. change (inject_Z 10) with 10%Q. change (inject_Z 2) with 2%Q.
    assert (T : (10 ^ Z.max 0 e == 10 ^ e * 10 ^ Z.max 0 (- e))%Q) by (rewrite <- Qpower_plus by discriminate; replace (e + Z.max 0 (- e)) with (Z.max 0 e) by lia; reflexivity).
    assert (U : (2 ^ fl_unit f * 2 ^ (- fl_unit f) == 1)%Q) by (rewrite <- Qpower_plus by discriminate; rewrite Z.add_opp_diag_r; reflexivity).
    rewrite T. transitivity (inject_Z m * 10 ^ e * 10 ^ Z.max 0 (- e) * (2 ^ fl_unit f * 2 ^ (- fl_unit f)))%Q; [rewrite U; ring|ring]. }
  intros []; cbn [signed]; [|exact E]. rewrite inject_Z_opp. transitivity (- (inject_Z m * Qpower 10 e * inject_Z (10 ^ Z.max 0 (- e))))%Q; [ring|]. rewrite E. ring.
Qed.
Lemma digits_value_nonneg : forall l, Forall digit l -> 0 <= digits_value 0 l.
Proof. intros l H. rewrite <- dec_value_digits. now apply dec_value_nonneg. Qed.
Lemma fraction_digits : forall fr fd, fraction_of fr fd -> Forall digit fd.
Proof. intros fr fd []; [constructor|]. match goal with D : digits _ |- _ => exact (proj2 D) end. Qed.

Lemma decimal_number : forall t x, decimal t x -> number t.
Proof.
  assert (P : forall i f fd e x, int_part i -> fraction_of f fd -> exponent_of e x -> forall s, sign_part s -> number (s ++ i ++ f ++ e)).
  { intros i f fd e x Hi Hf He s Hs. apply number_intro; try assumption.
    - destruct Hf; constructor; assumption.
    - destruct He; [constructor|now constructor| |]; [apply (xp_sign e 43 l)|apply (xp_sign e 45 l)]; auto. }
  intros t x H. induction H as [i f fd e x Hi Hf He|t q H IH Hh].
  - apply (P i f fd e x Hi Hf He []). constructor.
  - inversion H as [i f fd e x Hi Hf He|]; subst; [|cbn in Hh; congruence]. apply (P i f fd e x Hi Hf He [45]). constructor.
Qed.

Lemma decimal_parts : forall t x, decimal t x -> exists i fr fd e y, int_part i /\ fraction_of fr fd /\ exponent_of e y /\ t = dash (sign_of t) ++ i ++ fr ++ e /\
  x = (if sign_of t then - (inject_Z (digits_value 0 (i ++ fd)) * Qpower 10 (y - Z.of_nat (List.length fd))) else inject_Z (digits_value 0 (i ++ fd)) * Qpower 10 (y - Z.of_nat (List.length fd)))%Q.
Proof.
  assert (Sg : forall i r, int_part i -> sign_of (i ++ r) = false).
  { intros i r H. destruct (int_part_cons i H) as (d & q & -> & Hd). unfold sign_of. cbn. lia. }
  intros t x H. destruct H as [i f fd e x Hi Hf He|t q H Hh].
  - exists i, f, fd, e, x. rewrite (Sg i _ Hi). repeat (split; [assumption|]). split; reflexivity.
  - inversion H as [i f fd e x Hi Hf He|]; subst; [|cbn in Hh; congruence]. exists i, f, fd, e, x. repeat (split; [assumption|]). split; reflexivity.
Qed.
(** A number is split in one way. *)
Lemma parts_unique : forall i fr fd e y i' fr' fd' e' y', int_part i -> fraction_of fr fd -> exponent_of e y -> int_part i' -> fraction_of fr' fd' -> exponent_of e' y' ->
  i ++ fr ++ e = i' ++ fr' ++ e' -> i = i' /\ fd = fd' /\ y = y'.
Proof.
  intros i fr fd e y i' fr' fd' e' y' Hi Hf He Hi' Hf' He' E. assert (D0 : delim []) by now left.
  assert (M : scan_mantissa (i ++ fr ++ e) = (i, fd, List.length (i ++ fr), e)) by (apply scan_mantissa_number; [now apply int_part_digits|exact Hf|rewrite <- (app_nil_r e); now apply (exp_nonpoint e y)]).
  assert (M' : scan_mantissa (i' ++ fr' ++ e') = (i', fd', List.length (i' ++ fr'), e')) by (apply scan_mantissa_number; [now apply int_part_digits|exact Hf'|rewrite <- (app_nil_r e'); now apply (exp_nonpoint e' y')]).
  rewrite E, M' in M. injection M as -> -> _ ->. split; [reflexivity|]. split; [reflexivity|].
  destruct (list_eq_dec Z.eq_dec e []) as [->|Ne]; [inversion He; inversion He'; congruence|].
  destruct (scan_exponent_some e y [] He D0 Ne) as (n & ds & S1 & _ & <-). destruct (scan_exponent_some e y' [] He' D0 Ne) as (n' & ds' & S2 & _ & <-).
  rewrite S1 in S2. now injection S2 as -> ->.
Qed.
Theorem decimal_unique : forall t x y, decimal t x -> decimal t y -> x = y.
Proof.
  intros t x y Hx Hy. destruct (decimal_parts t x Hx) as (i & fr & fd & e & n & Hi & Hf & He & Et & ->). destruct (decimal_parts t y Hy) as (i' & fr' & fd' & e' & n' & Hi' & Hf' & He' & Et' & ->).
  rewrite Et in Et' at 1. apply app_inv_head in Et'. destruct (parts_unique _ _ _ _ _ _ _ _ _ _ Hi Hf He Hi' Hf' He' Et') as (-> & -> & ->). reflexivity.
Qed.

(** What a number is read as: [fl_decimal] of its digits and exponent. *)
Lemma flt_text_decimal : forall k f t x, decimal t x -> exists m e, 0 <= m /\ x = (if sign_of t then - (inject_Z m * Qpower 10 e) else inject_Z m * Qpower 10 e)%Q /\
  flt_text k f t = (match k with StrIn => read_string | Strm => read_stream end) f (sign_of t) m e.
Proof.
  intros k f t x H. destruct (decimal_parts t x H) as (i & fr & fd & e & n & Hi & Hf & He & Et & ->).
  destruct (flt_text_parts k f t (decimal_number t _ H)) as (i' & fr' & fd' & e' & n' & Hi' & Hf' & He' & Et' & R & _).
  rewrite Et in Et' at 1. apply app_inv_head in Et'. destruct (parts_unique _ _ _ _ _ _ _ _ _ _ Hi Hf He Hi' Hf' He' Et') as (-> & -> & ->).
  eexists _, _. split; [|split; [reflexivity|exact R]]. apply digits_value_nonneg. apply Forall_app. split; [now apply int_part_digits|now apply (fraction_digits fr)].
Qed.
Theorem reads_nearest : forall k f t x, decimal t x -> in_range f x -> exists b, flt_text k f t = Ok b /\ denotes_float f t b.
Proof.
  intros k f t x H R. destruct (flt_text_decimal k f t x H) as (m & e & Hm & Ex & ->). destruct (decimal_scaled f m e Hm) as (Hn & Hd & Hx). specialize (Hx (sign_of t)). rewrite <- Ex in Hx.
  destruct (round_in_range f x (sign_of t) _ _ Hn Hd Hx R) as [La L0]. fold (fl_decimal f m e) in La, L0.
  assert (N := round_nearest f x (sign_of t) _ _ Hn Hd Hx La). fold (fl_decimal f m e) in N.
  assert (Na : 0 <= fl_decimal f m e) by now apply fl_round_nonneg. assert (Il := inf_lt f).
  exists (fl_make f (sign_of t) (fl_decimal f m e)). split.
  - assert (G : fl_inf f <=? fl_decimal f m e = false) by lia. destruct k; unfold read_string, read_stream; cbv zeta; rewrite G; [|reflexivity].
    cbn [orb]. destruct (Z.eqb_spec (fl_decimal f m e) 0) as [E0|E0]; [|reflexivity]. specialize (L0 E0).
    assert (m = 0) as ->; [|reflexivity]. assert (0 < 10 ^ Z.max 0 e) by apply ten_pos. assert (0 < 2 ^ fl_unit f) by (destruct f; reflexivity). nia.
  - exists x. split; [exact H|]. split; [exact R|]. split; [exact N|]. rewrite negative_neg by apply N. rewrite make_neg by lia. unfold sign_of. lia.
Qed.
(** It is the only pattern that the text denotes. *)
Lemma nearest_round : forall f x s num den b, 0 <= num -> 0 < den -> (x * inject_Z den == inject_Z (signed s num) * ulp0 f)%Q ->
  fl_round f num den < fl_inf f -> nearest f x b -> fl_neg f b = s -> b = fl_make f s (fl_round f num den).
Proof.
  intros f x s num den b Hn Hd Hx La N Sg. assert (Na := fl_round_nonneg f num den Hn Hd). set (a := fl_round f num den) in *. assert (Il := inf_lt f).
  destruct N as (Pb & v & Ev & N). destruct (value_finite f b v Pb Ev) as [Fb Qv]. apply finite_abs in Fb. assert (Rb := abs_range f b). set (c := fl_abs f b) in *. rewrite Sg in Qv.
  assert (Eb : b = fl_make f s c) by (rewrite <- Sg; apply make_split; now apply pattern_bits).
  assert (V : forall c', 0 <= c' < fl_inf f -> exists v', float_value f (fl_make f s c') = Some v' /\ (v' == inject_Z (signed s (decode f c')) * ulp0 f)%Q /\ pattern f (fl_make f s c')).
  { intros c' H. assert (P' : pattern f (fl_make f s c')) by (apply pattern_bits, make_range; lia). destruct (finite_value f _ P') as (v' & E' & Q'); [apply finite_abs; rewrite make_abs; lia|].
    exists v'. rewrite make_neg, make_abs in Q' by lia. auto. }
  assert (D := distance f x v s num den _ Hx Hd Qv). rewrite signed_mul, signed_same in D.
  assert (C : forall c', 0 <= c' < fl_inf f -> Z.abs (num - decode f c * den) <= Z.abs (num - decode f c' * den)).
  { intros c' H. destruct (V c' H) as (v' & E' & Q' & P'). assert (D' := distance f x v' s num den _ Hx Hd Q'). rewrite signed_mul, signed_same in D'.
    apply (compare f _ _ den _ _ D D' Hd). exact (proj1 (N _ v' P' E')). }
  assert (Tie := fl_round_tie f num den c Hn Hd (proj1 Rb) (C a ltac:(lia))). fold a in Tie. rewrite Eb. f_equal. destruct Tie as [Tie|Ta]; [exact Tie|].
  assert (Near : forall c', 0 <= c' -> Z.abs (num - decode f a * den) <= Z.abs (num - decode f c' * den)) by (intros c' Hc'; now apply fl_round_near).
  destruct (V a ltac:(lia)) as (v' & E' & Q' & P'). assert (D' := distance f x v' s num den _ Hx Hd Q'). rewrite signed_mul, signed_same in D'.
  destruct (proj2 (N _ v' P' E')) as [W|W].
  - apply (compare f _ _ den _ _ D' D Hd). apply Near; lia.
  - rewrite Qv, Q' in W. assert (W' := proj1 (Qmult_inj_r _ _ (ulp0 f) (Qpos_nonzero _ (ulp0_pos f))) W).
    apply (proj1 (inject_Z_injective _ _)) in W'. apply (decode_inj f); [lia|lia|]. clear -W'. destruct s; cbn [signed] in W'; lia.
  - assert (Ec : Z.even c = true).
    { rewrite Eb in W. unfold fl_make in W. destruct s; [|exact W]. rewrite Z.even_add in W. replace (Z.even (2 ^ (fl_bits f - 1))) with true in W by (destruct f; reflexivity). now destruct (Z.even c). }
    apply Z.even_spec in Ta as [p Hp]. apply Z.even_spec in Ec as [q Hq]. assert (N1 := Near c (proj1 Rb)). assert (N2 := C a ltac:(lia)).
    assert (Hp' : a = 2 * p) by exact Hp. assert (Hq' : c = 2 * q) by exact Hq. clear Hp Hq. clearbody a c.
    destruct (Z.lt_trichotomy c a) as [L|[L|L]]; [exfalso|exact L|exfalso].
    + assert (L1 := decode_lt f c (c + 1) ltac:(lia) ltac:(lia)). assert (L2 := decode_lt f (c + 1) a ltac:(lia) ltac:(lia)). assert (N3 := C (c + 1) ltac:(lia)). nia.
    + assert (L1 := decode_lt f a (a + 1) ltac:(lia) ltac:(lia)). assert (L2 := decode_lt f (a + 1) c ltac:(lia) ltac:(lia)). assert (N3 := C (a + 1) ltac:(lia)). nia.
Qed.
Theorem denotes_read : forall k f t b, denotes_float f t b -> flt_text k f t = Ok b.
Proof.
  intros k f t b (x & H & R & N & Sg). destruct (reads_nearest k f t x H R) as (b' & E & _). rewrite E. f_equal.
  destruct (flt_text_decimal k f t x H) as (m & e & Hm & Ex & Rd). destruct (decimal_scaled f m e Hm) as (Hn & Hd & Hx). specialize (Hx (sign_of t)). rewrite <- Ex in Hx.
  destruct (round_in_range f x (sign_of t) _ _ Hn Hd Hx R) as [La _]. rewrite negative_neg in Sg by apply N.
  assert (Q := nearest_round f x (sign_of t) _ _ b Hn Hd Hx La N ltac:(unfold sign_of; destruct (fl_neg f b); destruct (Z.eqb_spec (hd 0 t) 45); intuition congruence)).
  fold (fl_decimal f m e) in Q, La. rewrite E in Rd. rewrite Q. destruct k; cbn in Rd; unfold read_string, read_stream in Rd.
  - destruct (_ || _); congruence.
  - assert (G : fl_inf f <=? fl_decimal f m e = false) by lia. rewrite G in Rd. congruence.
Qed.
Corollary denotes_unique : forall f t b b', denotes_float f t b -> denotes_float f t b' -> b = b'.
Proof. intros f t b b' H H'. apply (denotes_read StrIn) in H. apply (denotes_read StrIn) in H'. congruence. Qed.
