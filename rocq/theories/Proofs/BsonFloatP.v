(** Conversions between float, double and integers. *)
From Coq Require Import ZArith QArith Qabs Qpower List Bool Lia ZifyBool.
From Verif Require Import Model.Base Model.Number Model.Types Model.Float Model.BsonFloat Spec.Json Spec.Float Spec.Bson Spec.BsonFloat
  Proofs.FloatP Proofs.FloatValP.
Import ListNotations.
Open Scope Z_scope.

Section Shape.
  Context (f : fty).
  Lemma man_split : 2 ^ (fl_bits f - 1) = 2 ^ fl_man f * 2 ^ exp_bits f.
  Proof. destruct f; reflexivity. Qed.
  Lemma half_man : 2 ^ fl_man f = 2 * 2 ^ (fl_man f - 1) /\ 0 < 2 ^ (fl_man f - 1).
  Proof. destruct f; split; reflexivity. Qed.
  Lemma inf_top : 2 ^ (fl_bits f - 1) = fl_inf f + 2 ^ fl_man f.
  Proof. destruct f; reflexivity. Qed.
  Lemma frac_abs : forall b, b mod 2 ^ frac_bits f = fl_abs f b mod 2 ^ fl_man f.
  Proof.
    intro b. replace (frac_bits f) with (fl_man f) by (destruct f; reflexivity). unfold fl_abs. rewrite man_split.
    assert (0 < 2 ^ fl_man f) by (destruct f; reflexivity). assert (0 < 2 ^ exp_bits f) by (destruct f; reflexivity).
    rewrite Z.rem_mul_r by lia. rewrite (Z.mul_comm (2 ^ fl_man f)), Z.mod_add, Z.mod_mod by lia. reflexivity.
  Qed.
  Lemma exp_inf : forall b, fl_exp f b = fl_emax f <-> fl_inf f <= fl_abs f b.
  Proof.
    intro b. assert (R := abs_range f b). rewrite inf_top in R. unfold fl_exp, fl_inf in *. assert (P : 0 < 2 ^ fl_man f) by (destruct f; reflexivity).
    assert (D := Z.div_mod (fl_abs f b) (2 ^ fl_man f) ltac:(lia)). assert (M := Z.mod_pos_bound (fl_abs f b) (2 ^ fl_man f) P).
    set (q := fl_abs f b / 2 ^ fl_man f) in *. set (p := 2 ^ fl_man f) in *. clearbody p q. set (e := fl_emax f) in *. clearbody e. split; intro H; nia.
  Qed.
  Lemma no_value : forall b, pattern f b -> (float_value f b = None <-> fl_inf f <= fl_abs f b).
  Proof.
    intros b H. assert (V := float_value_spec f b H). assert (F := finite_abs f b). destruct (fl_finite f b).
    - destruct V as (v & -> & _). split; [discriminate|]. intro L. assert (fl_abs f b < fl_inf f) by now apply F. lia.
    - split; [|intros _; exact V]. intros _. destruct (Z.lt_ge_cases (fl_abs f b) (fl_inf f)) as [L|L]; [|exact L]. apply F in L. discriminate L.
  Qed.
  Lemma infinite_abs : forall b, infinite f b = (fl_abs f b =? fl_inf f).
  Proof.
    intro b. unfold infinite. rewrite exponent_exp, frac_abs. replace (2 ^ exp_bits f - 1) with (fl_emax f) by (destruct f; reflexivity).
    assert (E := exp_inf b). assert (R := abs_range f b). rewrite inf_top in R. assert (P : 0 < 2 ^ fl_man f) by (destruct f; reflexivity).
    destruct (Z.eqb_spec (fl_exp f b) (fl_emax f)) as [H|H]; cbn [andb].
    - apply E in H. replace (fl_abs f b) with (fl_abs f b - fl_inf f + fl_emax f * 2 ^ fl_man f) at 1 by (unfold fl_inf; lia). rewrite Z.mod_add, Z.mod_small by lia. lia.
    - destruct (Z.eqb_spec (fl_abs f b) (fl_inf f)) as [Q|Q]; [|reflexivity]. exfalso. apply H, E. lia.
  Qed.
  Lemma nan_frac : forall b, fl_inf f <= fl_abs f b -> fl_abs f b = fl_inf f + b mod 2 ^ frac_bits f.
  Proof.
    intros b H. assert (R := abs_range f b). rewrite inf_top in R. rewrite frac_abs.
    replace (fl_abs f b) with (fl_abs f b - fl_inf f + fl_emax f * 2 ^ fl_man f) at 2 by (unfold fl_inf; lia). rewrite Z.mod_add, Z.mod_small by lia. lia.
  Qed.
  Lemma quiet_spec : forall x, 0 <= x < 2 ^ fl_man f -> quiet f (fl_inf f + x) = fl_inf f + 2 ^ (fl_man f - 1) + x mod 2 ^ (fl_man f - 1).
  Proof.
    intros x H. destruct half_man as [Hm Hp]. rewrite Hm in H. unfold quiet. rewrite Z.testbit_odd, Z.shiftr_div_pow2 by (destruct f; discriminate).
    unfold fl_inf. rewrite Hm. set (h := 2 ^ (fl_man f - 1)) in *. replace (fl_emax f * (2 * h) + x) with (x + (2 * fl_emax f) * h) by ring. rewrite Z.div_add by lia.
    assert (D := Z.div_mod x h ltac:(lia)). assert (M := Z.mod_pos_bound x h Hp).
    assert (0 <= x / h < 2) by (split; [apply Z.div_pos; lia|apply Z.div_lt_upper_bound; lia]).
    rewrite Z.odd_add, Z.odd_mul. cbn [Z.odd andb]. assert (x / h = 0 \/ x / h = 1) as [E|E] by lia; rewrite E in *; cbn [Z.odd xorb]; lia.
  Qed.
  Lemma split_pattern : forall b c, pattern f b -> pattern f c -> negative f b = negative f c -> fl_abs f b = fl_abs f c -> b = c.
  Proof.
    intros b c Hb Hc N A. rewrite !negative_neg in N by assumption. rewrite (make_split f b) by now apply pattern_bits. rewrite (make_split f c) by now apply pattern_bits. now rewrite N, A.
  Qed.
  (** What was made is a pattern with this sign and this magnitude. *)
  Lemma made : forall s a, 0 <= a < 2 ^ (fl_bits f - 1) -> pattern f (fl_make f s a) /\ negative f (fl_make f s a) = s /\ fl_abs f (fl_make f s a) = a.
  Proof.
    intros s a H. assert (P : pattern f (fl_make f s a)) by now apply pattern_bits, make_range. split; [exact P|]. rewrite negative_neg by exact P. split; [now apply make_neg|now apply make_abs].
  Qed.
  Lemma payload_mod : forall n b x, b mod 2 ^ frac_bits f = x -> payload f n b = x mod 2 ^ (fl_man f - 1) * 2 ^ n / 2 ^ (fl_man f - 1).
  Proof.
    intros n b x <-. unfold payload. replace (frac_bits f) with (fl_man f) by (destruct f; reflexivity). destruct half_man as [-> Hp].
    set (h := 2 ^ (fl_man f - 1)) in *. rewrite (Z.mul_comm 2 h), Z.rem_mul_r by lia. rewrite (Z.mul_comm h), Z.mod_add, Z.mod_mod by lia. reflexivity.
  Qed.
End Shape.

(** ** float to double *)
Notation shift := (2 ^ (fl_unit Dbl - fl_unit Flt)).
Lemma double_scaled : forall m s, 0 <= m < 2 ^ 24 -> 0 <= s -> exists c, 0 <= c /\ decode Dbl c = m * 2 ^ s * shift.
Proof.
  intros m s Hm Hs. destruct (Z.eq_dec m 0) as [->|N]; [exists 0; split; [lia|reflexivity]|].
  assert (L := Z.log2_spec m ltac:(lia)). assert (L0 := Z.log2_nonneg m). assert (L1 : Z.log2 m < 24) by (apply Z.log2_lt_pow2; lia). set (e := Z.log2 m) in *.
  exists (m * 2 ^ (52 - e) + (s + 925 - (52 - e)) * 2 ^ 52). assert (E1 : 2 ^ e * 2 ^ (52 - e) = 2 ^ 52) by (rewrite <- Z.pow_add_r by lia; f_equal; lia).
  assert (E2 : 2 ^ Z.succ e = 2 * 2 ^ e) by (rewrite Z.pow_succ_r; lia). assert (P1 : 0 < 2 ^ (52 - e)) by (apply Z.pow_pos_nonneg; lia).
  assert (0 <= m * 2 ^ (52 - e)) by nia. split; [lia|].
  assert (D := decode_scaled Dbl (m * 2 ^ (52 - e)) (s + 925 - (52 - e))). change (fl_man Dbl) with 52 in D. rewrite D by (right; split; [lia|]; clearbody e; clear - E1 E2 L P1; nia).
  change shift with (2 ^ 925). replace (m * 2 ^ (52 - e) * 2 ^ (s + 925 - (52 - e))) with (m * (2 ^ (52 - e) * 2 ^ (s + 925 - (52 - e)))) by ring.
  rewrite <- Z.mul_assoc. f_equal. rewrite <- !Z.pow_add_r by lia. f_equal. lia.
Qed.
Lemma decode_parts : forall a, 0 <= a < fl_inf Flt -> exists m s, 0 <= m < 2 ^ 24 /\ 0 <= s <= 253 /\ decode Flt a = m * 2 ^ s.
Proof.
  intros a H. change (fl_inf Flt) with (255 * 2 ^ 23) in H. assert (D := Z.div_mod a (2 ^ 23) ltac:(lia)). assert (M := Z.mod_pos_bound a (2 ^ 23) ltac:(lia)).
  assert (Q : 0 <= a / 2 ^ 23 <= 254) by (split; [apply Z.div_pos; lia|]; apply Z.lt_succ_r, Z.div_lt_upper_bound; lia). set (q := a / 2 ^ 23) in *. set (r := a mod 2 ^ 23) in *.
  destruct (Z.eq_dec q 0) as [Z0|N].
  - exists r, 0. split; [lia|]. split; [lia|]. assert (E := decode_scaled Flt r 0). change (fl_man Flt) with 23 in E. rewrite Z.mul_0_l, Z.add_0_r in E. replace a with r by lia. apply E. lia.
  - exists (2 ^ 23 + r), (q - 1). split; [lia|]. split; [lia|]. assert (E := decode_scaled Flt (2 ^ 23 + r) (q - 1)). change (fl_man Flt) with 23 in E. replace a with (2 ^ 23 + r + (q - 1) * 2 ^ 23) by lia.
    apply E. destruct (Z.eq_dec q 1); [left|right]; lia.
Qed.
Lemma widen_finite : forall a, 0 <= a < fl_inf Flt -> exists c, 0 <= c < fl_inf Dbl /\ decode Dbl c = decode Flt a * shift.
Proof.
  intros a H. destruct (decode_parts a H) as (m & s & Hm & Hs & E). destruct (double_scaled m s Hm (proj1 Hs)) as (c & Hc & Ec). exists c. rewrite E. split; [|exact Ec]. split; [exact Hc|].
  destruct (Z.lt_ge_cases c (fl_inf Dbl)) as [L|L]; [exact L|exfalso]. assert (D := decode_mono Dbl (fl_inf Dbl) c ltac:(vm_compute; discriminate) L).
  assert (E1 : decode Dbl (fl_inf Dbl) = 2 ^ 2098) by (vm_compute; reflexivity). rewrite E1, Ec in D. change shift with (2 ^ 925) in D.
  assert (S : 2 ^ s <= 2 ^ 253) by (apply Z.pow_le_mono_r; lia). assert (S0 : 0 < 2 ^ s) by (apply Z.pow_pos_nonneg; lia).
  assert (B : m * 2 ^ s <= 2 ^ 24 * 2 ^ 253) by (apply Z.mul_le_mono_nonneg; lia). assert (B' := Z.mul_le_mono_nonneg_r _ _ (2 ^ 925) ltac:(apply Z.pow_nonneg; lia) B).
  assert (X : 2 ^ 24 * 2 ^ 253 * 2 ^ 925 < 2 ^ 2098) by (vm_compute; reflexivity). clear - D B' X. lia.
Qed.
Lemma ulp_shift : (inject_Z shift * ulp0 Dbl == ulp0 Flt)%Q.
Proof. vm_compute. reflexivity. Qed.

Lemma widen_cases : forall b, pattern Flt b -> pattern Dbl (widen b) /\ negative Dbl (widen b) = negative Flt b /\
  ((exists c, fl_abs Flt b < fl_inf Flt /\ fl_abs Dbl (widen b) = c /\ 0 <= c < fl_inf Dbl /\ decode Dbl c = decode Flt (fl_abs Flt b) * shift) \/
   (fl_abs Flt b = fl_inf Flt /\ fl_abs Dbl (widen b) = fl_inf Dbl) \/
   (fl_inf Flt < fl_abs Flt b /\ fl_abs Dbl (widen b) = fl_inf Dbl + 2 ^ 51 + (b mod 2 ^ 22) * 2 ^ 29)).
Proof.
  intros b Hb. assert (R := abs_range Flt b). unfold widen, fl_isnan. rewrite (negative_neg Flt b Hb). destruct (Z.ltb_spec (fl_inf Flt) (fl_abs Flt b)) as [L|L].
  - rewrite (quiet_spec Dbl (fl_frac Flt b * 2 ^ fl_more)).
    2:{ unfold fl_frac. assert (M := Z.mod_pos_bound b (2 ^ fl_man Flt) ltac:(reflexivity)). change (fl_man Flt) with 23 in *. change (2 ^ fl_man Dbl) with (2 ^ 23 * 2 ^ 29). change fl_more with 29. nia. }
    assert (E : (fl_frac Flt b * 2 ^ fl_more) mod 2 ^ (fl_man Dbl - 1) = b mod 2 ^ 22 * 2 ^ 29).
    { change (2 ^ (fl_man Dbl - 1)) with (2 ^ 22 * 2 ^ 29). change fl_more with 29. rewrite Z.mul_mod_distr_r by lia. f_equal. unfold fl_frac. change (2 ^ fl_man Flt) with (2 ^ 22 * 2).
      rewrite Z.rem_mul_r by lia. rewrite (Z.mul_comm (2 ^ 22)), Z.mod_add, Z.mod_mod by lia. reflexivity. }
    rewrite E. assert (M := Z.mod_pos_bound b (2 ^ 22) ltac:(lia)).
    destruct (made Dbl (fl_neg Flt b) (fl_inf Dbl + 2 ^ (fl_man Dbl - 1) + b mod 2 ^ 22 * 2 ^ 29)) as (P & N & A).
    { change (fl_inf Dbl) with (2047 * 2 ^ 52). change (fl_man Dbl - 1) with 51. change (fl_bits Dbl - 1) with 63. lia. }
    split; [exact P|]. split; [exact N|]. right. right. split; [exact L|exact A].
  - assert (F := finite_abs Flt b). destruct (fl_finite Flt b).
    + assert (L' : fl_abs Flt b < fl_inf Flt) by now apply F. destruct (widen_finite (fl_abs Flt b) ltac:(lia)) as (c & Hc & Ec).
      assert (X : fl_round Dbl (fl_mag Flt b * shift) 1 = c) by (rewrite mag_decode, <- Ec, <- (Z.mul_1_r (decode Dbl c)); apply fl_round_exact; lia). rewrite X. assert (I := inf_lt Dbl).
      destruct (made Dbl (fl_neg Flt b) c ltac:(lia)) as (P & N & A). split; [exact P|]. split; [exact N|]. left. exists c. auto.
    + assert (E : fl_abs Flt b = fl_inf Flt) by (destruct (Z.lt_ge_cases (fl_abs Flt b) (fl_inf Flt)) as [Q|Q]; [apply F in Q; discriminate Q|lia]). assert (I := inf_lt Dbl).
      destruct (made Dbl (fl_neg Flt b) (fl_inf Dbl)) as (P & N & A); [split; [vm_compute; discriminate|exact I]|]. split; [exact P|]. split; [exact N|]. right. left. auto.
Qed.
Lemma dbl_nan_payload : forall d, fl_inf Dbl <= fl_abs Dbl d -> forall p, 0 <= p < 2 ^ 51 ->
  (2 ^ (frac_bits Dbl - 1) <= d mod 2 ^ frac_bits Dbl /\ payload Dbl 51 d = p <-> fl_abs Dbl d = fl_inf Dbl + 2 ^ 51 + p).
Proof.
  intros d H p Hp. assert (E := nan_frac Dbl d H). rewrite (payload_mod Dbl 51 d _ eq_refl). change (fl_man Dbl - 1) with 51. change (frac_bits Dbl) with 52 in *. change (52 - 1) with 51.
  rewrite Z.div_mul by lia. assert (M := Z.mod_pos_bound d (2 ^ 52) ltac:(lia)). set (x := d mod 2 ^ 52) in *. clearbody x. rewrite E.
  assert (D := Z.div_mod x (2 ^ 51) ltac:(lia)). assert (M' := Z.mod_pos_bound x (2 ^ 51) ltac:(lia)). set (q := x / 2 ^ 51) in *. set (r := x mod 2 ^ 51) in *. clearbody q r. split; intro; lia.
Qed.
Lemma flt_nan_payload : forall d, fl_inf Flt <= fl_abs Flt d -> forall p, 0 <= p < 2 ^ 22 ->
  (2 ^ (frac_bits Flt - 1) <= d mod 2 ^ frac_bits Flt /\ payload Flt 22 d = p <-> fl_abs Flt d = fl_inf Flt + 2 ^ 22 + p).
Proof.
  intros d H p Hp. assert (E := nan_frac Flt d H). rewrite (payload_mod Flt 22 d _ eq_refl). change (fl_man Flt - 1) with 22. change (frac_bits Flt) with 23 in *. change (23 - 1) with 22.
  rewrite Z.div_mul by lia. assert (M := Z.mod_pos_bound d (2 ^ 23) ltac:(lia)). set (x := d mod 2 ^ 23) in *. clearbody x. rewrite E.
  assert (D := Z.div_mod x (2 ^ 22) ltac:(lia)). assert (M' := Z.mod_pos_bound x (2 ^ 22) ltac:(lia)). set (q := x / 2 ^ 22) in *. set (r := x mod 2 ^ 22) in *. clearbody q r. split; intro; lia.
Qed.
Lemma flt_payload : forall b, payload Flt 51 b = b mod 2 ^ 22 * 2 ^ 29.
Proof.
  intro b. unfold payload. change (frac_bits Flt - 1) with 22. replace (2 ^ 51) with (2 ^ 29 * 2 ^ 22) by reflexivity. rewrite Z.mul_assoc, Z.div_mul by lia. reflexivity.
Qed.
Lemma mod22 : forall b, 0 <= b mod 2 ^ 22 * 2 ^ 29 < 2 ^ 51.
Proof. intro b. assert (M := Z.mod_pos_bound b (2 ^ 22) ltac:(lia)). change (2 ^ 51) with (2 ^ 22 * 2 ^ 29). nia. Qed.

Theorem widen_widened : forall b, pattern Flt b -> widened b (widen b).
Proof.
  intros b Hb. destruct (widen_cases b Hb) as (P & N & C). split; [exact P|]. split; [exact N|]. assert (NV := no_value Flt b Hb). rewrite infinite_abs.
  destruct C as [(c & L & A & Hc & Ec)|[[L A]|[L A]]].
  - destruct (finite_value Flt b Hb) as (v & -> & Qv); [now apply finite_abs|]. destruct (finite_value Dbl (widen b) P) as (w & Ew & Qw); [apply finite_abs; lia|]. exists w. split; [exact Ew|].
    rewrite Qv, Qw, A, Ec, <- ulp_shift. rewrite !negative_neg in N by assumption. rewrite N, <- signed_mul, inject_Z_mult. ring.
  - rewrite (proj2 NV) by lia. rewrite infinite_abs, A, L, !Z.eqb_refl. reflexivity.
  - rewrite (proj2 NV) by lia. destruct (Z.eqb_spec (fl_abs Flt b) (fl_inf Flt)) as [E|_]; [lia|]. assert (M := mod22 b).
    assert (I : fl_inf Dbl <= fl_abs Dbl (widen b)) by lia. rewrite flt_payload. destruct (proj2 (dbl_nan_payload _ I _ M) A) as [Q1 Q2]. split; [|exact Q2]. split; [now apply no_value|exact Q1].
Qed.
Lemma same_decode : forall f b c v w, pattern f b -> pattern f c -> float_value f b = Some v -> float_value f c = Some w -> negative f b = negative f c -> (v == w)%Q -> b = c.
Proof.
  intros f b c v w Hb Hc Ev Ew N E. apply (split_pattern f b c Hb Hc N). destruct (value_finite f b v Hb Ev) as [_ Qv]. destruct (value_finite f c w Hc Ew) as [_ Qw].
  rewrite !negative_neg in N by assumption. rewrite Qv, Qw, N in E. assert (E' := proj1 (Qmult_inj_r _ _ (ulp0 f) (Qpos_nonzero _ (ulp0_pos f))) E). apply (proj1 (inject_Z_injective _ _)) in E'.
  assert (R := abs_range f b). assert (R' := abs_range f c). apply (decode_inj f); [lia|lia|]. unfold signed in E'. destruct (fl_neg f c); lia.
Qed.
Theorem widened_unique : forall b d, pattern Flt b -> widened b d -> d = widen b.
Proof.
  intros b d Hb (Pd & Nd & H). destruct (widen_widened b Hb) as (P & N & C). assert (NV := no_value Flt b Hb). assert (Ns : negative Dbl d = negative Dbl (widen b)) by congruence.
  destruct (float_value Flt b) as [v|].
  - destruct H as (w & Ew & Qw). destruct C as (w' & Ew' & Qw'). apply (same_decode Dbl d (widen b) w w'); auto. now rewrite Qw, Qw'.
  - apply (split_pattern Dbl d (widen b) Pd P Ns). destruct (infinite Flt b).
    + rewrite infinite_abs in H, C. lia.
    + destruct H as [[H1 H2] H3], C as [[C1 C2] C3]. rewrite flt_payload in *. assert (M := mod22 b). apply (no_value Dbl _ Pd) in H1. apply (no_value Dbl _ P) in C1.
      rewrite (proj1 (dbl_nan_payload _ H1 _ M) (conj H2 H3)), (proj1 (dbl_nan_payload _ C1 _ M) (conj C2 C3)). reflexivity.
Qed.

(** ** double to float *)
Lemma narrow_cases : forall d, pattern Dbl d -> pattern Flt (narrow d) /\ negative Flt (narrow d) = negative Dbl d /\
  ((fl_abs Dbl d < fl_inf Dbl /\ fl_abs Flt (narrow d) = Z.min (fl_inf Flt) (fl_round Flt (decode Dbl (fl_abs Dbl d)) shift)) \/
   (fl_abs Dbl d = fl_inf Dbl /\ fl_abs Flt (narrow d) = fl_inf Flt) \/
   (fl_inf Dbl < fl_abs Dbl d /\ fl_abs Flt (narrow d) = fl_inf Flt + 2 ^ 22 + (d mod 2 ^ 51) / 2 ^ 29)).
Proof.
  intros d Hd. assert (R := abs_range Dbl d). unfold narrow, fl_isnan. rewrite (negative_neg Dbl d Hd). assert (IF := inf_lt Flt). destruct (Z.ltb_spec (fl_inf Dbl) (fl_abs Dbl d)) as [L|L].
  - assert (M := Z.mod_pos_bound d (2 ^ 52) ltac:(lia)). rewrite (quiet_spec Flt (fl_frac Dbl d / 2 ^ fl_more)).
    2:{ unfold fl_frac. change (fl_man Dbl) with 52. change fl_more with 29. change (fl_man Flt) with 23. split; [apply Z.div_pos; lia|apply Z.div_lt_upper_bound; lia]. }
    assert (E : (fl_frac Dbl d / 2 ^ fl_more) mod 2 ^ (fl_man Flt - 1) = d mod 2 ^ 51 / 2 ^ 29).
    { unfold fl_frac. change (fl_man Dbl) with 52. change fl_more with 29. change (fl_man Flt - 1) with 22. change (2 ^ 52) with (2 ^ 51 * 2). rewrite (Z.rem_mul_r d (2 ^ 51) 2) by lia.
      assert (M1 := Z.mod_pos_bound d (2 ^ 51) ltac:(lia)). replace (2 ^ 51 * ((d / 2 ^ 51) mod 2)) with ((d / 2 ^ 51) mod 2 * 2 ^ 22 * 2 ^ 29) by (change (2 ^ 51) with (2 ^ 22 * 2 ^ 29); ring).
      rewrite Z.div_add, Z.mod_add by lia. apply Z.mod_small. split; [apply Z.div_pos; lia|apply Z.div_lt_upper_bound; lia]. }
    rewrite E. assert (M1 := Z.mod_pos_bound d (2 ^ 51) ltac:(lia)). assert (B : 0 <= d mod 2 ^ 51 / 2 ^ 29 < 2 ^ 22) by (split; [apply Z.div_pos; lia|apply Z.div_lt_upper_bound; lia]).
    destruct (made Flt (fl_neg Dbl d) (fl_inf Flt + 2 ^ (fl_man Flt - 1) + d mod 2 ^ 51 / 2 ^ 29)) as (P & N & A).
    { change (fl_inf Flt) with (255 * 2 ^ 23). change (fl_man Flt - 1) with 22. change (fl_bits Flt - 1) with 31. lia. }
    split; [exact P|]. split; [exact N|]. right. right. split; [exact L|exact A].
  - assert (F := finite_abs Dbl d). destruct (fl_finite Dbl d).
    + assert (L' : fl_abs Dbl d < fl_inf Dbl) by now apply F. rewrite mag_decode. assert (D0 := decode_nonneg Dbl _ (proj1 R)).
      assert (R0 := fl_round_nonneg Flt (decode Dbl (fl_abs Dbl d)) shift D0 ltac:(reflexivity)). assert (I0 : 0 <= fl_inf Flt) by (vm_compute; discriminate).
      destruct (made Flt (fl_neg Dbl d) (Z.min (fl_inf Flt) (fl_round Flt (decode Dbl (fl_abs Dbl d)) shift)) ltac:(lia)) as (P & N & A). split; [exact P|]. split; [exact N|]. left. auto.
    + assert (E : fl_abs Dbl d = fl_inf Dbl) by (destruct (Z.lt_ge_cases (fl_abs Dbl d) (fl_inf Dbl)) as [Q|Q]; [apply F in Q; discriminate Q|lia]).
      destruct (made Flt (fl_neg Dbl d) (fl_inf Flt)) as (P & N & A); [split; [vm_compute; discriminate|exact IF]|]. split; [exact P|]. split; [exact N|]. right. left. auto.
Qed.
(** What rounds to an infinity. *)
Lemma round_overflow : forall num den, 0 <= num -> 0 < den -> (fl_inf Flt <= fl_round Flt num den <-> (2 ^ 277 - 2 ^ 252) * den <= num).
Proof.
  intros num den Hn Hd. assert (R0 := fl_round_nonneg Flt num den Hn Hd). set (a := fl_round Flt num den) in *.
  assert (I : fl_inf Flt = 2139095040) by reflexivity. assert (E1 : decode Flt (fl_inf Flt) = 2 ^ 277) by (vm_compute; reflexivity). assert (E2 : decode Flt (fl_inf Flt - 1) = 2 ^ 277 - 2 ^ 253) by (vm_compute; reflexivity).
  assert (E3 : 2 ^ 253 = 2 * 2 ^ 252) by reflexivity. assert (N1 := fl_round_near Flt num den (fl_inf Flt) Hn Hd ltac:(lia)). assert (N2 := fl_round_near Flt num den (fl_inf Flt - 1) Hn Hd ltac:(lia)).
  assert (T := fl_round_tie Flt num den (fl_inf Flt) Hn Hd ltac:(lia)). fold a in N1, N2, T. rewrite E1 in N1, T. rewrite E2 in N2. rewrite E3 in *.
  assert (P0 : 0 < 2 ^ 252) by reflexivity. set (p := 2 ^ 277) in *. set (q := 2 ^ 252) in *. clearbody p q.
  destruct (Z.lt_ge_cases a (fl_inf Flt)) as [L|L].
  - assert (M := decode_mono Flt a (fl_inf Flt - 1) R0 ltac:(lia)). rewrite E2 in M. split; [lia|]. intro G. exfalso.
    assert (Da : Z.abs (num - decode Flt a * den) = num - decode Flt a * den) by (clear - M G Hd P0; nia).
    assert (B : Z.abs (num - p * den) <= Z.abs (num - decode Flt a * den)) by (clear - M G Hd P0 Da; nia).
    destruct (T B) as [T1|T1]; [lia|]. assert (a = fl_inf Flt - 1); [|subst a; rewrite H in T1; discriminate T1].
    apply (decode_inj Flt); [lia|lia|]. rewrite E2. clear - M G Hd P0 Da N1. nia.
  - assert (M := decode_mono Flt (fl_inf Flt) a ltac:(lia) L). rewrite E1 in M. split; [|lia]. intros _. clear - M N2 Hd P0. nia.
Qed.
Lemma dbl_number : forall d x, pattern Dbl d -> float_value Dbl d = Some x -> (x * inject_Z shift == inject_Z (signed (negative Dbl d) (decode Dbl (fl_abs Dbl d))) * ulp0 Flt)%Q.
Proof.
  intros d x Hd Ex. destruct (value_finite Dbl d x Hd Ex) as [_ Q]. rewrite negative_neg by exact Hd. rewrite Q, <- ulp_shift. ring.
Qed.
Lemma overflow_spec : forall d x, pattern Dbl d -> float_value Dbl d = Some x ->
  Qle_bool (inject_Z (2 ^ 128 - 2 ^ 103)) (Qabs x) = (fl_inf Flt <=? fl_round Flt (decode Dbl (fl_abs Dbl d)) shift).
Proof.
  intros d x Hd Ex. assert (D0 := decode_nonneg Dbl _ (proj1 (abs_range Dbl d))). assert (P : 0 < shift) by reflexivity.
  assert (E := dbl_number d x Hd Ex). assert (O := round_overflow (decode Dbl (fl_abs Dbl d)) shift D0 P).
  assert (Ab := distance Flt x 0 (negative Dbl d) _ shift 0 E P ltac:(ring)). rewrite Z.mul_0_l, Z.sub_0_r in Ab. replace (Z.abs (signed (negative Dbl d) (decode Dbl (fl_abs Dbl d)))) with (decode Dbl (fl_abs Dbl d)) in Ab by (unfold signed; destruct (negative Dbl d); lia).
  assert (Th : (inject_Z (2 ^ 128 - 2 ^ 103) * inject_Z shift == inject_Z ((2 ^ 277 - 2 ^ 252) * shift) * ulp0 Flt)%Q) by (vm_compute; reflexivity).
  assert (C := compare Flt _ _ shift _ _ Th Ab P). assert (Qx : (Qabs (x - 0) == Qabs x)%Q) by (apply Qabs_wd; ring). rewrite Qx in C.
  destruct (Qle_bool _ _) eqn:B; destruct (Z.leb_spec (fl_inf Flt) (fl_round Flt (decode Dbl (fl_abs Dbl d)) shift)) as [L|L]; try reflexivity.
  - apply Qle_bool_iff in B. apply C in B. apply O in B. lia.
  - apply O in L. apply C in L. apply Qle_bool_iff in L. congruence.
Qed.
Lemma dbl_payload : forall d, payload Dbl 22 d = d mod 2 ^ 51 / 2 ^ 29.
Proof.
  intro d. unfold payload. change (frac_bits Dbl - 1) with 51. change (2 ^ 51) with (2 ^ 29 * 2 ^ 22) at 2. now rewrite Z.div_mul_cancel_r by lia.
Qed.
Lemma mod51 : forall d, 0 <= d mod 2 ^ 51 / 2 ^ 29 < 2 ^ 22.
Proof. intro d. assert (M := Z.mod_pos_bound d (2 ^ 51) ltac:(lia)). split; [apply Z.div_pos; lia|apply Z.div_lt_upper_bound; lia]. Qed.
Theorem narrow_narrowed : forall d, pattern Dbl d -> narrowed d (narrow d).
Proof.
  intros d Hd. destruct (narrow_cases d Hd) as (P & N & C). split; [exact P|]. split; [exact N|]. assert (NV := no_value Dbl d Hd). rewrite !infinite_abs.
  destruct C as [(L & A)|[[L A]|[L A]]].
  - destruct (finite_value Dbl d Hd) as (x & Ex & _); [now apply finite_abs|]. rewrite Ex, (overflow_spec d x Hd Ex), A. set (r := fl_round Flt _ _) in *.
    destruct (Z.leb_spec (fl_inf Flt) r) as [G|G]; [lia|]. assert (D0 := decode_nonneg Dbl _ (proj1 (abs_range Dbl d))). assert (Z0 : 0 < shift) by reflexivity.
    assert (E : narrow d = fl_make Flt (negative Dbl d) r).
    { assert (R0 : 0 <= r) by now apply fl_round_nonneg. assert (I := inf_lt Flt). destruct (made Flt (negative Dbl d) r ltac:(lia)) as (P' & N' & A'). apply (split_pattern Flt); auto; [congruence|lia]. }
    rewrite E. exact (round_nearest Flt x (negative Dbl d) _ shift D0 Z0 (dbl_number d x Hd Ex) G).
  - rewrite (proj2 NV) by lia. rewrite A, L, !Z.eqb_refl. reflexivity.
  - rewrite (proj2 NV) by lia. destruct (Z.eqb_spec (fl_abs Dbl d) (fl_inf Dbl)) as [E|_]; [lia|]. assert (M := mod51 d).
    assert (I : fl_inf Flt <= fl_abs Flt (narrow d)) by lia. rewrite dbl_payload. destruct (proj2 (flt_nan_payload _ I _ M) A) as [Q1 Q2]. split; [|exact Q2]. split; [now apply no_value|exact Q1].
Qed.
Theorem narrowed_unique : forall d b, pattern Dbl d -> narrowed d b -> b = narrow d.
Proof.
  intros d b Hd (Pb & Nb & H). destruct (narrow_narrowed d Hd) as (P & N & C). assert (Ns : negative Flt b = negative Flt (narrow d)) by congruence.
  destruct (float_value Dbl d) as [x|] eqn:Ex.
  - destruct (Qle_bool _ _) eqn:B.
    + apply (split_pattern Flt); auto. rewrite infinite_abs in H, C. lia.
    + rewrite (overflow_spec d x Hd Ex) in B. apply Z.leb_gt in B. assert (D0 := decode_nonneg Dbl _ (proj1 (abs_range Dbl d))). assert (Z0 : 0 < shift) by reflexivity.
      assert (U := fun b => nearest_round Flt x (negative Dbl d) _ shift b D0 Z0 (dbl_number d x Hd Ex) B). rewrite (U b H), (U (narrow d) C); [reflexivity| |]; rewrite <- negative_neg; assumption.
  - apply (split_pattern Flt); auto. destruct (infinite Dbl d).
    + rewrite infinite_abs in H, C. lia.
    + destruct H as [[H1 H2] H3], C as [[C1 C2] C3]. rewrite dbl_payload in *. assert (M := mod51 d). apply (no_value Flt _ Pb) in H1. apply (no_value Flt _ P) in C1.
      rewrite (proj1 (flt_nan_payload _ H1 _ M) (conj H2 H3)), (proj1 (flt_nan_payload _ C1 _ M) (conj C2 C3)). reflexivity.
Qed.
(** Only signalling NaNs do not survive. *)
Theorem narrow_widen : forall b, pattern Flt b -> ~ signalling Flt b -> narrow (widen b) = b.
Proof.
  intros b Hb Sg. destruct (widen_cases b Hb) as (P & N & C). destruct (narrow_cases (widen b) P) as (P' & N' & C'). apply (split_pattern Flt); auto; [congruence|].
  destruct C as [(c & L & A & Hc & Ec)|[[L A]|[L A]]].
  - destruct C' as [(L' & A')|[[L' A']|[L' A']]]; [|lia|lia]. rewrite A', A, Ec, fl_round_exact; [lia|apply abs_range|reflexivity].
  - destruct C' as [(L' & A')|[[L' A']|[L' A']]]; lia.
  - assert (M := mod22 b). destruct C' as [(L' & A')|[[L' A']|[L' A']]]; [lia|lia|].
    assert (Q : 2 ^ 22 <= b mod 2 ^ 23).
    { destruct (Z.lt_ge_cases (b mod 2 ^ 23) (2 ^ 22)) as [Q|Q]; [|exact Q]. contradiction Sg. split; [apply no_value; [exact Hb|lia]|]. change (frac_bits Flt) with 23. split; [|exact Q].
      assert (E := nan_frac Flt b ltac:(lia)). change (frac_bits Flt) with 23 in E. lia. }
    assert (E := nan_frac Flt b ltac:(lia)). change (frac_bits Flt) with 23 in E. rewrite A', E.
    assert (W := nan_frac Dbl (widen b) ltac:(lia)). change (frac_bits Dbl) with 52 in W. rewrite A in W.
    assert (X : widen b mod 2 ^ 51 = b mod 2 ^ 22 * 2 ^ 29).
    { assert (Y : (widen b mod 2 ^ 52) mod 2 ^ 51 = widen b mod 2 ^ 51) by (change (2 ^ 52) with (2 ^ 51 * 2); rewrite Z.rem_mul_r by lia; rewrite (Z.mul_comm (2 ^ 51)), Z.mod_add, Z.mod_mod by lia; reflexivity).
      rewrite <- Y. replace (widen b mod 2 ^ 52) with (b mod 2 ^ 22 * 2 ^ 29 + 1 * 2 ^ 51) by lia. rewrite Z.mod_add by lia. now apply Z.mod_small. }
    rewrite X, Z.div_mul by lia. assert (Y : b mod 2 ^ 23 = b mod 2 ^ 22 + 2 ^ 22 * ((b / 2 ^ 22) mod 2)) by (change (2 ^ 23) with (2 ^ 22 * 2); apply Z.rem_mul_r; lia).
    assert (M1 := Z.mod_pos_bound b (2 ^ 22) ltac:(lia)). assert (M2 := Z.mod_pos_bound (b / 2 ^ 22) 2 ltac:(lia)). lia.
Qed.

(** ** Integers *)
Lemma int_scaled : forall f z, (inject_Z z * inject_Z 1 == inject_Z (signed (z <? 0) (Z.abs z * 2 ^ fl_unit f)) * ulp0 f)%Q.
Proof.
  intros f z. replace (signed (z <? 0) (Z.abs z * 2 ^ fl_unit f)) with (z * 2 ^ fl_unit f) by (unfold signed; destruct (Z.ltb_spec z 0); lia).
  rewrite inject_Z_mult. assert (E : (inject_Z (2 ^ fl_unit f) * ulp0 f == 1)%Q) by (destruct f; vm_compute; reflexivity). rewrite <- Qmult_assoc, E. ring.
Qed.
Lemma int_bound : forall f z, - 2 ^ 63 <= z < 2 ^ 63 -> fl_round f (Z.abs z * 2 ^ fl_unit f) 1 < fl_inf f.
Proof.
  intros f z H. set (t := match f with Flt => 190 * 2 ^ 23 | Dbl => 1086 * 2 ^ 52 end). assert (E : decode f t = 2 ^ 63 * 2 ^ fl_unit f) by (destruct f; vm_compute; reflexivity).
  assert (P : 0 < 2 ^ fl_unit f) by (destruct f; reflexivity). assert (I : t < fl_inf f) by (destruct f; reflexivity). assert (T : 0 <= t) by (destruct f; discriminate).
  assert (B := fl_round_below f (Z.abs z * 2 ^ fl_unit f) 1 t ltac:(nia) ltac:(lia) T). rewrite E in B. assert (Z.abs z * 2 ^ fl_unit f <= 2 ^ 63 * 2 ^ fl_unit f * 1) by (rewrite Z.mul_1_r; apply Z.mul_le_mono_nonneg_r; lia). lia.
Qed.
Theorem of_int_nearest : forall f z, - 2 ^ 63 <= z < 2 ^ 63 -> nearest f (inject_Z z) (of_int f z) /\ (negative f (of_int f z) = true <-> z < 0).
Proof.
  intros f z H. assert (P : 0 < 2 ^ fl_unit f) by (destruct f; reflexivity). assert (B := int_bound f z H). assert (N0 : 0 <= Z.abs z * 2 ^ fl_unit f) by nia. split.
  - exact (round_nearest f (inject_Z z) (z <? 0) _ 1 N0 ltac:(lia) (int_scaled f z) B).
  - assert (R := fl_round_nonneg f _ 1 N0 ltac:(lia)). assert (I := inf_lt f). destruct (made f (z <? 0) (fl_round f (Z.abs z * 2 ^ fl_unit f) 1) ltac:(lia)) as (_ & N & _). unfold of_int. rewrite N. lia.
Qed.
Theorem of_int_unique : forall f z b, - 2 ^ 63 <= z < 2 ^ 63 -> nearest f (inject_Z z) b -> (negative f b = true <-> z < 0) -> b = of_int f z.
Proof.
  intros f z b H N S. assert (P : 0 < 2 ^ fl_unit f) by (destruct f; reflexivity). assert (N0 : 0 <= Z.abs z * 2 ^ fl_unit f) by nia.
  apply (nearest_round f (inject_Z z) (z <? 0) _ 1 b N0 ltac:(lia) (int_scaled f z) (int_bound f z H) N). rewrite <- negative_neg by apply N. destruct (negative f b), (Z.ltb_spec z 0) as [L|L]; try reflexivity; exfalso; [|apply S in L; discriminate L].
  assert (z < 0) by now apply S. lia.
Qed.
