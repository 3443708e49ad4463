(** The texts of floats and doubles: what they denote, how long they are, and what is read back from them. *)
From Coq Require Import ZArith QArith Qabs Qpower String List Bool Lia ZifyBool.
From Verif Require Import Model.Base Model.Source Model.Number Model.Types Model.Exporter Model.Float Spec.Json Spec.Import Spec.Float
  Proofs.NumberP Proofs.PrintP Proofs.FloatP Proofs.FloatReadP Proofs.FloatValP.
Import ListNotations.
Open Scope Z_scope.

(** ** Digits *)
Lemma digits_value_app : forall x y a, digits_value a (x ++ y) = digits_value (digits_value a x) y.
Proof. induction x as [|d x IH]; intros y a; cbn [app digits_value]; [reflexivity|apply IH]. Qed.
Lemma digits_value_acc : forall x a, digits_value a x = a * 10 ^ Z.of_nat (List.length x) + digits_value 0 x.
Proof.
  induction x as [|d x IH]; intros a; cbn [digits_value List.length]; [change (10 ^ Z.of_nat 0) with 1; lia|].
  rewrite IH, (IH (10 * 0 + (d - 48))), Nat2Z.inj_succ, Z.pow_succ_r by lia. lia.
Qed.
Lemma padded_spec : forall p n, 0 <= n -> Forall digit (padded p n) /\ List.length (padded p n) = p /\ digits_value 0 (padded p n) = n mod 10 ^ Z.of_nat p.
Proof.
  induction p as [|p IH]; intros n H; cbn [padded].
  - split; [constructor|]. split; [reflexivity|]. change (10 ^ Z.of_nat 0) with 1. now rewrite Z.mod_1_r.
  - assert (D := Z.mod_pos_bound n 10 ltac:(lia)). assert (Q := Z.div_pos n 10 H ltac:(lia)). destruct (IH (n / 10) Q) as (F & L & V).
    split; [apply Forall_app; split; [exact F|constructor; [unfold digit; lia|constructor]]|]. split; [rewrite app_length, L; cbn; lia|].
    rewrite digits_value_app. cbn [digits_value]. rewrite V, Nat2Z.inj_succ, Z.pow_succ_r by lia.
    assert (0 < 10 ^ Z.of_nat p) by (apply Z.pow_pos_nonneg; lia). rewrite Z.rem_mul_r by lia. lia.
Qed.
Lemma strip0_spec : forall l, exists k, l = strip0 l ++ repeat 48 k.
Proof.
  induction l as [|d l (k & IH)]; [now exists O|]. cbn [strip0]. destruct (strip0 l) as [|x r] eqn:E.
  - cbn [app] in IH. destruct (Z.eqb_spec d 48) as [->|N]; [exists (S k); cbn; now rewrite <- IH|exists k; cbn; now rewrite <- IH].
  - exists k. cbn [app] in *. now rewrite IH at 1.
Qed.
Lemma zeros_value : forall k a, digits_value a (repeat 48 k) = a * 10 ^ Z.of_nat k.
Proof.
  induction k as [|k IH]; intro a; cbn [repeat digits_value]; [change (10 ^ Z.of_nat 0) with 1; lia|]. rewrite IH, Nat2Z.inj_succ, Z.pow_succ_r by lia. lia.
Qed.
Lemma dot_fraction : forall l, Forall digit l -> fraction_of (dot l) l.
Proof. intros [|d l] H; cbn [dot]; [constructor|]. constructor. split; [discriminate|exact H]. Qed.

(** ** What a text denotes *)
(** The text of m * 10 ^ e, with a sign. *)
Definition spelled (neg : bool) (t : bytes) (m e : Z) : Prop :=
  sign_of t = neg /\ exists x, decimal t x /\ (x == (if neg then - (inject_Z m * Qpower 10 e) else inject_Z m * Qpower 10 e))%Q.
Lemma spelled_sum : forall neg i fd ex y, int_part i -> Forall digit fd -> exponent_of ex y ->
  spelled neg (dash neg ++ i ++ dot fd ++ ex) (digits_value 0 (i ++ fd)) (y - Z.of_nat (List.length fd)).
Proof.
  intros neg i fd ex y Hi Hf He. assert (D := decimal_plain i (dot fd) fd ex y Hi (dot_fraction fd Hf) He).
  destruct (int_part_cons i Hi) as (d & r & E & Hd). destruct neg; cbn [dash app].
  - split; [reflexivity|]. eexists. split; [apply decimal_minus; [exact D|rewrite E; cbn; lia]|reflexivity].
  - split; [unfold sign_of; rewrite E; cbn; lia|]. eexists. split; [exact D|reflexivity].
Qed.
Lemma pow10_split : forall a b, (Qpower 10 (a + b) == Qpower 10 a * Qpower 10 b)%Q.
Proof. intros a b. apply Qpower_plus. discriminate. Qed.
Lemma pow10_Z : forall n, 0 <= n -> (inject_Z (10 ^ n) == Qpower 10 n)%Q.
Proof. intros n H. change (Qpower 10 n) with (Qpower (inject_Z 10) n). now apply Zpower_Qpower. Qed.
Lemma spelled_eq : forall neg t m e m' e', spelled neg t m e -> (inject_Z m * Qpower 10 e == inject_Z m' * Qpower 10 e')%Q -> spelled neg t m' e'.
Proof.
  intros neg t m e m' e' [S (x & D & Q)] E. split; [exact S|]. exists x. split; [exact D|]. rewrite Q. destruct neg; now rewrite E.
Qed.
(** Zeros at the end of the fraction can be left out. *)
Lemma spelled_strip : forall neg n p ex y, 0 <= n -> exponent_of ex y ->
  spelled neg (dash neg ++ nat_dec (n / 10 ^ Z.of_nat p) ++ dot (strip0 (padded p (n mod 10 ^ Z.of_nat p))) ++ ex) n (y - Z.of_nat p).
Proof.
  intros neg n p ex y Hn He. assert (P : 0 < 10 ^ Z.of_nat p) by (apply Z.pow_pos_nonneg; lia).
  destruct (nat_dec_spec (n / 10 ^ Z.of_nat p)) as (Hi & Vi & _); [apply Z.div_pos; lia|].
  destruct (padded_spec p (n mod 10 ^ Z.of_nat p)) as (Fp & Lp & Vp); [apply Z.mod_pos_bound; lia|]. destruct (strip0_spec (padded p (n mod 10 ^ Z.of_nat p))) as (k & Es).
  set (s := strip0 _) in *. set (l := padded _ _) in *. assert (Fs : Forall digit s) by (rewrite Es in Fp; apply Forall_app in Fp; tauto).
  apply (spelled_eq _ _ _ _ _ _ (spelled_sum neg _ s ex y Hi Fs He)).
  assert (N : n = digits_value 0 (nat_dec (n / 10 ^ Z.of_nat p) ++ s) * 10 ^ Z.of_nat k).
  { rewrite <- zeros_value, <- digits_value_app, <- app_assoc, <- Es. rewrite digits_value_app, Vi, digits_value_acc, Lp, Vp, Z.mod_mod by lia. rewrite (Z.div_mod n (10 ^ Z.of_nat p)) at 1 by lia. lia. }
  assert (L : Z.of_nat p = Z.of_nat (List.length s) + Z.of_nat k) by (rewrite <- Lp, Es, app_length, repeat_length; lia).
  rewrite N at 2. rewrite inject_Z_mult, pow10_Z by lia. replace (y - Z.of_nat (List.length s)) with (Z.of_nat k + (y - Z.of_nat p)) by lia. rewrite pow10_split. ring.
Qed.
Lemma spelled_pad : forall neg n p, 0 <= n -> (0 < p)%nat ->
  spelled neg (dash neg ++ nat_dec (n / 10 ^ Z.of_nat p) ++ 46 :: padded p (n mod 10 ^ Z.of_nat p)) n (- Z.of_nat p).
Proof.
  intros neg n p Hn Hp. assert (P : 0 < 10 ^ Z.of_nat p) by (apply Z.pow_pos_nonneg; lia).
  destruct (nat_dec_spec (n / 10 ^ Z.of_nat p)) as (Hi & Vi & _); [apply Z.div_pos; lia|].
  destruct (padded_spec p (n mod 10 ^ Z.of_nat p)) as (Fp & Lp & Vp); [apply Z.mod_pos_bound; lia|].
  assert (S := spelled_sum neg _ _ [] 0 Hi Fp xo_none). rewrite app_nil_r, Lp in S. destruct (padded p (n mod 10 ^ Z.of_nat p)) as [|d r] eqn:E; [cbn in Lp; lia|]. cbn [dot] in S.
  rewrite digits_value_app, Vi, digits_value_acc, Lp, Vp, Z.mod_mod in S by lia.
  replace (n / 10 ^ Z.of_nat p * 10 ^ Z.of_nat p + n mod 10 ^ Z.of_nat p) with n in S by (rewrite (Z.div_mod n (10 ^ Z.of_nat p)) at 1 by lia; lia). exact S.
Qed.

(** ** What is read back *)
Definition largest (f : fty) : Z := decode f (fl_inf f - 1).
Section Reread.
  Context (f : fty) (b : Z) (t : bytes) (m e : Z).
  Notation neg := (fl_neg f b).
  Notation mag := (decode f (fl_abs f b)).
  Notation A := (10 ^ Z.max 0 (- e)).
  Notation B := (10 ^ Z.max 0 e * 2 ^ fl_unit f).
  Hypotheses (Pb : pattern f b) (Fb : fl_finite f b = true) (Hm : 0 <= m) (Ht : spelled neg t m e).
  (** The text is not more than half a unit of its last digit away from the value. *)
  Hypothesis (Near : 2 * Z.abs (mag * A - m * B) <= B).
  Hypothesis (Range : m = 0 \/ (A <= m * B /\ m * B <= largest f * A)).

  Lemma A_pos : 0 < A. Proof. apply ten_pos. Qed.
  Lemma B_pos : 0 < B. Proof. assert (0 < 10 ^ Z.max 0 e) by apply ten_pos. assert (0 < 2 ^ fl_unit f) by (destruct f; reflexivity). nia. Qed.
  Lemma text_scaled : exists x, decimal t x /\ (x * inject_Z A == inject_Z (signed neg (m * B)) * ulp0 f)%Q.
  Proof.
    destruct Ht as [_ (x & D & Q)]. exists x. split; [exact D|]. rewrite Q. destruct (decimal_scaled f m e Hm) as (_ & _ & S). rewrite (S neg). now rewrite Z.mul_assoc.
  Qed.
  Lemma finite_pattern : forall neg a, 0 <= a < fl_inf f -> pattern f (fl_make f neg a) /\ exists v, float_value f (fl_make f neg a) = Some v /\ (v == inject_Z (signed neg (decode f a)) * ulp0 f)%Q.
  Proof.
    intros s a H. assert (Il := inf_lt f). assert (P : pattern f (fl_make f s a)) by (apply pattern_bits, make_range; lia). split; [exact P|].
    destruct (finite_value f _ P) as (v & E & Q); [apply finite_abs; rewrite make_abs; lia|]. rewrite make_neg, make_abs in Q by lia. eauto.
  Qed.
  Lemma text_in_range : exists x, decimal t x /\ (x * inject_Z A == inject_Z (signed neg (m * B)) * ulp0 f)%Q /\ in_range f x.
  Proof.
    destruct text_scaled as (x & D & Q). exists x. split; [exact D|]. split; [exact Q|]. assert (Ap := A_pos). assert (Bp := B_pos).
    assert (Ab : (Qabs x * inject_Z A == inject_Z (m * B) * ulp0 f)%Q).
    { assert (E := distance f x 0 neg (m * B) A 0 Q Ap ltac:(ring)). rewrite Z.mul_0_l, Z.sub_0_r in E.
      assert (0 <= m * B) by nia. replace (Z.abs (signed neg (m * B))) with (m * B) in E by (destruct neg; cbn [signed]; lia). rewrite <- E. unfold Qminus. now rewrite Qplus_0_r. }
    destruct Range as [->|[R1 R2]].
    - left. rewrite Z.mul_0_l in Q. assert (Q0 : (x * inject_Z A == 0)%Q) by (rewrite Q; replace (signed neg 0) with 0 by (destruct neg; reflexivity); change (inject_Z 0) with 0%Q; ring). apply Qmult_integral in Q0 as [Q0|Q0]; [exact Q0|].
      exfalso. exact (Qpos_nonzero _ (inject_pos _ Ap) Q0).
    - right. assert (I1 : 0 <= 1 < fl_inf f) by (destruct f; split; reflexivity || discriminate). assert (I2 : 0 <= fl_inf f - 1 < fl_inf f) by lia.
      destruct (finite_pattern false 1 I1) as (P1 & v1 & E1 & Q1). destruct (finite_pattern false _ I2) as (P2 & v2 & E2 & Q2). cbn [signed] in Q1, Q2. rewrite decode_1 in Q1.
      assert (D1 : (v1 * inject_Z A == inject_Z A * ulp0 f)%Q) by (rewrite Q1; ring).
      assert (D2 : (v2 * inject_Z A == inject_Z (largest f * A) * ulp0 f)%Q) by (rewrite Q2, inject_Z_mult; unfold largest; ring).
      split; [exists (fl_make f false 1), v1|exists (fl_make f false (fl_inf f - 1)), v2]; (split; [assumption|]); (split; [assumption|]).
      + split; [rewrite Q1, Qmult_1_l; apply ulp0_pos|]. now apply (compare f _ _ _ _ _ D1 Ab Ap).
      + now apply (compare f _ _ _ _ _ Ab D2 Ap).
  Qed.

  Theorem reread : exists b' v v', denotes_float f t b' /\ (forall k, flt_text k f t = Ok b') /\ pattern f b' /\
    float_value f b = Some v /\ float_value f b' = Some v' /\ (Qabs (v' - v) <= Qpower 10 e)%Q /\ negative f b' = negative f b /\ (mag * A = m * B -> b' = b).
  Proof.
    destruct text_in_range as (x & D & Q & R). assert (Ap := A_pos). assert (Bp := B_pos).
    destruct (reads_nearest StrIn f t x D R) as (b' & _ & Dn). destruct (finite_value f b Pb Fb) as (v & Ev & Qv).
    assert (Dn' := Dn). destruct Dn' as (x' & D' & _ & N & Sg). rewrite <- (decimal_unique t x x' D D') in N. clear x' D'.
    assert (N' := N). destruct N' as (Pb' & v' & Ev' & N'). exists b', v, v'.
    split; [exact Dn|]. split; [intro k; now apply denotes_read|]. split; [exact Pb'|]. split; [exact Ev|]. split; [exact Ev'|].
    assert (Di := distance f x v neg (m * B) A _ Q Ap Qv). rewrite signed_mul, signed_same in Di.
    assert (Ng : negative f b' = negative f b).
    { rewrite (negative_neg f b Pb). destruct Ht as [S _]. unfold sign_of in S. destruct (negative f b'), (fl_neg f b), (Z.eqb_spec (hd 0 t) 45); try reflexivity; intuition congruence. }
    assert (E10 : (Qpower 10 e * inject_Z A == inject_Z B * ulp0 f)%Q).
    { destruct (decimal_scaled f 1 e ltac:(lia)) as (_ & _ & S). specialize (S false). cbn [signed] in S. rewrite Z.mul_1_l in S. rewrite <- S. change (inject_Z 1) with 1%Q. ring. }
    split; [|split; [exact Ng|]].
    - destruct (N' b v Pb Ev) as [Le _].
      assert (Half : (2 * Qabs (x - v) <= Qpower 10 e)%Q).
      { assert (H2 : (2 * Qabs (x - v) * inject_Z A == inject_Z (2 * Z.abs (m * B - mag * A)) * ulp0 f)%Q) by (rewrite inject_Z_mult; change (inject_Z 2) with 2%Q; rewrite <- !Qmult_assoc, Di; ring).
        apply (compare f _ _ _ _ _ H2 E10 Ap). lia. }
      assert (Tr : (Qabs (v' - v) <= Qabs (x - v') + Qabs (x - v))%Q).
      { setoid_replace (v' - v)%Q with (- (x - v') + (x - v))%Q by ring. eapply Qle_trans; [apply Qabs_triangle|]. rewrite Qabs_opp. apply Qle_refl. }
      eapply Qle_trans; [exact Tr|]. eapply Qle_trans; [|exact Half]. setoid_replace (2 * Qabs (x - v))%Q with (Qabs (x - v) + Qabs (x - v))%Q by ring.
      apply Qplus_le_compat; [exact Le|apply Qle_refl].
    - intro Ex. apply (denotes_unique f t _ _ Dn). exists x. split; [exact D|]. split; [exact R|].
      assert (Xv : (x == v)%Q).
      { apply (Qmult_inj_r _ _ (inject_Z A) (Qpos_nonzero _ (inject_pos _ Ap))). rewrite Q, Qv, <- Ex. rewrite <- signed_mul, inject_Z_mult. ring. }
      split.
      + split; [exact Pb|]. exists v. split; [exact Ev|]. intros c w Pc Ew. assert (Z0 : (Qabs (x - v) == 0)%Q) by (rewrite Xv; setoid_replace (v - v)%Q with 0%Q by ring; reflexivity).
        split; [rewrite Z0; apply Qabs_nonneg|]. intro L. left. rewrite Z0 in L.
        assert (W0 : (Qabs (x - w) == 0)%Q) by (apply Qle_antisym; [exact L|apply Qabs_nonneg]).
        assert (W1 : (x - w == 0)%Q). { destruct (Qlt_le_dec (x - w) 0) as [C|C]; [rewrite Qabs_neg in W0 by now apply Qlt_le_weak|rewrite Qabs_pos in W0 by exact C; exact W0]. setoid_replace (x - w)%Q with (- - (x - w))%Q by ring. rewrite W0. reflexivity. }
        setoid_replace w with (x - (x - w))%Q by ring. rewrite W1, Xv. ring.
      + rewrite (negative_neg f b Pb). destruct Ht as [S _]. unfold sign_of in S. destruct (fl_neg f b), (Z.eqb_spec (hd 0 t) 45); try discriminate S; split; congruence.
  Qed.
End Reread.

(** ** Texts with six digits behind the point *)
Lemma unit_pos : forall f, 0 < 2 ^ fl_unit f.
Proof. destruct f; reflexivity. Qed.
(** The first pattern from 10 ^ 17 on. *)
Definition bound17 (f : fty) : Z := let a := fl_round f (10 ^ 17 * 2 ^ fl_unit f) 1 in if decode f a <? 10 ^ 17 * 2 ^ fl_unit f then a + 1 else a.
Lemma below17 : forall f a, 0 <= a -> decode f a < 10 ^ 17 * 2 ^ fl_unit f -> decode f a * 10 ^ 6 <= (10 ^ 23 - 1) * 2 ^ fl_unit f.
Proof.
  intros f a Ha L. assert (B : decode f (bound17 f - 1) * 10 ^ 6 <= (10 ^ 23 - 1) * 2 ^ fl_unit f) by (destruct f; vm_compute; discriminate).
  assert (C : 10 ^ 17 * 2 ^ fl_unit f <= decode f (bound17 f)) by (destruct f; vm_compute; discriminate). assert (P : 1 <= bound17 f) by (destruct f; vm_compute; discriminate).
  assert (a <= bound17 f - 1).
  { destruct (Z.le_gt_cases (bound17 f) a) as [G|G]; [|lia]. assert (M := decode_mono f (bound17 f) a ltac:(lia) G). lia. }
  assert (M := decode_mono f a (bound17 f - 1) Ha H). lia.
Qed.
Lemma value_units : forall f b v den n, pattern f b -> float_value f b = Some v -> 0 < den -> (v * inject_Z den == inject_Z n * ulp0 f)%Q ->
  decode f (fl_abs f b) * den = Z.abs n.
Proof.
  intros f b v den n P E D Q. destruct (value_finite f b v P E) as [_ Qv]. rewrite Qv in Q.
  assert (W : (inject_Z (signed (fl_neg f b) (decode f (fl_abs f b)) * den) * ulp0 f == inject_Z n * ulp0 f)%Q) by (rewrite <- Q, inject_Z_mult; ring).
  apply (proj1 (Qmult_inj_r _ _ (ulp0 f) (Qpos_nonzero _ (ulp0_pos f)))) in W. apply (proj1 (inject_Z_injective _ _)) in W.
  assert (N := decode_nonneg f (fl_abs f b) ltac:(apply abs_range)). rewrite signed_mul in W. destruct (fl_neg f b); cbn [signed] in W; nia.
Qed.

Section Fixed.
  Context (f : fty) (b : Z).
  Notation neg := (fl_neg f b).
  Notation mag := (decode f (fl_abs f b)).
  Notation U := (2 ^ fl_unit f).
  Hypotheses (Pb : pattern f b) (Fb : fl_finite f b = true).
  Let n := round_even (mag * 10 ^ 6) U.
  Lemma fixed_form : fixed_text f b = dash neg ++ nat_dec (n / 10 ^ 6) ++ 46 :: padded 6 (n mod 10 ^ 6).
  Proof. unfold fixed_text. rewrite Fb, mag_decode. reflexivity. Qed.
  Lemma fixed_nonneg : 0 <= n.
  Proof.
    assert (N := decode_nonneg f (fl_abs f b) ltac:(apply abs_range)). assert (Up := unit_pos f).
    unfold round_even in n. assert (0 <= mag * 10 ^ 6 / U) by (apply Z.div_pos; lia). subst n. destruct (_ <? _); [lia|]. destruct (_ <? _); [lia|]. destruct (Z.even _); lia.
  Qed.
  Lemma fixed_spelled : spelled neg (fixed_text f b) n (-6).
  Proof. rewrite fixed_form. apply (spelled_pad neg n 6); [apply fixed_nonneg|lia]. Qed.

  Hypothesis (Small : mag < 10 ^ 17 * U).
  Lemma fixed_below : n < 10 ^ 23.
  Proof.
    assert (N := decode_nonneg f (fl_abs f b) ltac:(apply abs_range)). assert (Up := unit_pos f). assert (L := below17 f _ (proj1 (abs_range f b)) Small).
    destruct (round_even_bounds (mag * 10 ^ 6) U 0 (10 ^ 23 - 1) Up ltac:(lia)). fold n in H0. lia.
  Qed.
  Lemma fixed_short : (List.length (fixed_text f b) <= 25)%nat.
  Proof.
    rewrite fixed_form. assert (L := fixed_below). assert (N := fixed_nonneg). destruct (nat_dec_spec (n / 10 ^ 6)) as (_ & _ & Ln); [apply Z.div_pos; lia|].
    specialize (Ln 17 ltac:(lia)). assert (n / 10 ^ 6 < 10 ^ 17) by (apply Z.div_lt_upper_bound; lia). specialize (Ln H).
    destruct (padded_spec 6 (n mod 10 ^ 6)) as (_ & Lp & _); [apply Z.mod_pos_bound; lia|]. rewrite !app_length. cbn [List.length]. rewrite Lp. destruct neg; cbn [dash List.length]; lia.
  Qed.
  Theorem fixed_reread : exists b', denotes_float f (fixed_text f b) b' /\ (forall k, flt_text k f (fixed_text f b) = Ok b') /\ near_fixed f b b'.
  Proof.
    assert (Up := unit_pos f). assert (N := fixed_nonneg). assert (L := fixed_below). assert (H2 := round_even_half (mag * 10 ^ 6) U Up). fold n in H2.
    destruct (reread f b (fixed_text f b) n (-6) Pb Fb N fixed_spelled) as (b' & v & v' & Dn & Rd & Pb' & Ev & Ev' & Er & Ng & Ex).
    - change (10 ^ Z.max 0 (- (-6))) with (10 ^ 6). change (10 ^ Z.max 0 (-6)) with 1. lia.
    - change (10 ^ Z.max 0 (- (-6))) with (10 ^ 6). change (10 ^ Z.max 0 (-6)) with 1. rewrite Z.mul_1_l. destruct (Z.eq_dec n 0) as [->|Nz]; [now left|right].
      assert (10 ^ 6 <= U) by (destruct f; vm_compute; discriminate). assert (10 ^ 23 * U <= largest f * 10 ^ 6) by (destruct f; vm_compute; discriminate). nia.
    - exists b'. split; [exact Dn|]. split; [exact Rd|]. split; [exact Pb'|]. split; [exact Ng|]. exists v, v'. split; [exact Ev|]. split; [exact Ev'|]. split; [exact Er|].
      intros (z & Ez). apply Ex. change (10 ^ Z.max 0 (- (-6))) with (10 ^ 6). change (10 ^ Z.max 0 (-6)) with 1.
      assert (Q : (v * inject_Z (10 ^ 6) == inject_Z (z * U) * ulp0 f)%Q).
      { change (inject_Z (10 ^ 6)) with 1000000%Q. rewrite Ez, inject_Z_mult, Zpower_Qpower by (destruct f; cbn; lia). unfold ulp0. change (inject_Z 2) with 2%Q.
        rewrite <- Qmult_assoc, <- Qpower_plus by discriminate. rewrite Z.add_opp_diag_r. change (Qpower 2 0) with 1%Q. ring. }
      assert (W := value_units f b v (10 ^ 6) _ Pb Ev ltac:(lia) Q). rewrite Z.abs_mul, (Z.abs_eq U) in W by lia.
      rewrite Z.mul_1_l. unfold n. rewrite W, round_even_exact by exact Up. reflexivity.
  Qed.
End Fixed.

(** ** Texts with six significant digits *)
Section Exponent.
  Context (f : fty) (mag : Z).
  Notation U := (2 ^ fl_unit f).
  Lemma at_least_scaled : forall x p, 0 <= p -> 0 <= x + p -> (at_least f mag x = true <-> 10 ^ (x + p) * U <= mag * 10 ^ p).
  Proof.
    intros x p Hp Hx. unfold at_least. rewrite Z.leb_le. assert (G : 0 <= p - Z.max 0 (- x)) by lia. set (q := p - Z.max 0 (- x)) in *.
    replace (x + p) with (Z.max 0 x + q) by lia. replace p with (Z.max 0 (- x) + q) by lia. clearbody q. rewrite !Z.pow_add_r by lia.
    assert (0 < 10 ^ q) by (apply Z.pow_pos_nonneg; lia). split; intro L; nia.
  Qed.
  Lemma at_least_mono : forall x y, y <= x -> at_least f mag x = true -> at_least f mag y = true.
  Proof.
    intros x y H E. apply (at_least_scaled x (Z.max 0 (- y))) in E; [|lia..]. apply (at_least_scaled y (Z.max 0 (- y))); [lia..|].
    assert (10 ^ (y + Z.max 0 (- y)) <= 10 ^ (x + Z.max 0 (- y))) by (apply Z.pow_le_mono_r; lia). assert (Up := unit_pos f). nia.
  Qed.
  Lemma dec_exponent_spec : forall n x, at_least f mag (x - Z.of_nat n) = true ->
    let r := dec_exponent n f mag x in at_least f mag r = true /\ x - Z.of_nat n <= r <= x /\ (r < x -> at_least f mag (r + 1) = false).
  Proof.
    induction n as [|n IH]; intros x H; cbn [dec_exponent].
    - replace (x - Z.of_nat 0) with x in H by lia. repeat split; [exact H|lia..].
    - destruct (at_least f mag x) eqn:E.
      + repeat split; [exact E|lia..].
      + specialize (IH (x - 1)). replace (x - 1 - Z.of_nat n) with (x - Z.of_nat (S n)) in IH by lia. destruct (IH H) as (I1 & I2 & I3).
        split; [exact I1|]. split; [lia|]. intros _. destruct (Z.eq_dec (dec_exponent n f mag (x - 1)) (x - 1)) as [->|N]; [now replace (x - 1 + 1) with x by lia|apply I3; lia].
  Qed.
End Exponent.
(** The exponent of the smallest value. *)
Definition bottom (f : fty) : Z := match f with Flt => -45 | Dbl => -324 end.
(** The exponent of the largest value and its first six digits. *)
Definition top (f : fty) : Z := match f with Flt => 38 | Dbl => 308 end.
Definition top_digits (f : fty) : Z := match f with Flt => 340282 | Dbl => 179769 end.
Lemma exp_digits_spec : forall x, 0 <= x -> Forall digit (exp_digits x) /\ exp_digits x <> [] /\ digits_value 0 (exp_digits x) = x /\ (x < 1000 -> (List.length (exp_digits x) <= 3)%nat).
Proof.
  intros x H. destruct (nat_dec_spec x H) as (I & V & L). destruct (int_part_digits _ I) as [_ F]. destruct (int_part_cons _ I) as (d & r & E & _). unfold exp_digits. destruct (Z.ltb_spec x 10) as [C|C].
  - split; [constructor; [unfold digit; lia|exact F]|]. split; [discriminate|]. split; [cbn [digits_value]; exact V|]. intros _. specialize (L 1 ltac:(lia) ltac:(lia)). cbn [List.length]. lia.
  - split; [exact F|]. split; [rewrite E; discriminate|]. split; [exact V|]. intro G. specialize (L 3 ltac:(lia) ltac:(lia)). lia.
Qed.
Lemma strip0_short : forall l, (List.length (strip0 l) <= List.length l)%nat.
Proof. intro l. destruct (strip0_spec l) as (k & E). rewrite E at 2. rewrite app_length. lia. Qed.
Lemma dot_short : forall l, (List.length (dot l) <= S (List.length l))%nat.
Proof. intros [|d l]; cbn; lia. Qed.

(** A number with six digits at most is an integer in units of its sixth digit. *)
Lemma sig_digits : forall mag U m e x, 0 < U -> 0 <= m < 1000000 -> mag * 10 ^ Z.max 0 (- e) = m * 10 ^ Z.max 0 e * U ->
  10 ^ 5 * (U * 10 ^ Z.max 0 (x - 5)) <= mag * 10 ^ Z.max 0 (5 - x) -> exists n, mag * 10 ^ Z.max 0 (5 - x) = n * (U * 10 ^ Z.max 0 (x - 5)).
Proof.
  intros mag U m e x Up Hm Vm Lo. assert (Pe := ten_pos e). assert (Pe' := ten_pos (- e)). assert (Pa := ten_pos (5 - x)). assert (Pb := ten_pos (x - 5)).
  destruct (Z.le_gt_cases 0 (e + 5 - x)) as [L|L].
  - exists (m * 10 ^ (e + 5 - x)). apply (Z.mul_cancel_r _ _ (10 ^ Z.max 0 (- e)) ltac:(lia)).
    transitivity (mag * 10 ^ Z.max 0 (- e) * 10 ^ Z.max 0 (5 - x)); [ring|]. rewrite Vm. transitivity (m * U * (10 ^ Z.max 0 e * 10 ^ Z.max 0 (5 - x))); [ring|].
    rewrite <- Z.pow_add_r by lia. replace (Z.max 0 e + Z.max 0 (5 - x)) with (e + 5 - x + (Z.max 0 (x - 5) + Z.max 0 (- e))) by lia. rewrite !Z.pow_add_r by lia. ring.
  - exfalso. assert (W : mag * 10 ^ Z.max 0 (5 - x) * 10 ^ (x - e - 5) = m * (U * 10 ^ Z.max 0 (x - 5))).
    { apply (Z.mul_cancel_r _ _ (10 ^ Z.max 0 (- e)) ltac:(lia)). transitivity (mag * 10 ^ Z.max 0 (- e) * 10 ^ Z.max 0 (5 - x) * 10 ^ (x - e - 5)); [ring|]. rewrite Vm.
      transitivity (m * U * (10 ^ Z.max 0 e * 10 ^ Z.max 0 (5 - x) * 10 ^ (x - e - 5))); [ring|].
      rewrite <- !Z.pow_add_r by lia. replace (Z.max 0 e + Z.max 0 (5 - x) + (x - e - 5)) with (Z.max 0 (x - 5) + Z.max 0 (- e)) by lia. rewrite !Z.pow_add_r by lia. ring. }
    assert (T : 10 ^ 1 <= 10 ^ (x - e - 5)) by (apply Z.pow_le_mono_r; lia). set (B := U * _) in *. set (M := mag * 10 ^ Z.max 0 (5 - x)) in *. set (T' := 10 ^ (x - e - 5)) in *.
    assert (Bp : 0 < B) by (subst B; nia). clearbody B M T'. assert (M * 10 <= M * T') by nia. nia.
Qed.
Lemma signed_abs : forall s n, 0 <= n -> Z.abs (signed s n) = n.
Proof. intros [] n H; cbn [signed]; lia. Qed.

Lemma pow_10_3 : forall q, 0 <= q -> 10 ^ (3 * q) <= 2 ^ (10 * q).
Proof. intros q H. rewrite !Z.pow_mul_r by lia. apply Z.pow_le_mono_l. split; [discriminate|vm_compute; discriminate]. Qed.
Lemma pow_2_3 : forall q, 0 <= q -> 2 ^ (3 * q) <= 10 ^ q.
Proof. intros q H. rewrite Z.pow_mul_r by lia. apply Z.pow_le_mono_l. split; discriminate. Qed.
Lemma first_small : forall k, k <= 2000 -> first_exponent k <= 670.
Proof. intros k H. unfold first_exponent. destruct (Z.ltb_spec k 0); [|assert (k / 3 <= 2000 / 3) by (apply Z.div_le_mono; lia); change (2000 / 3) with 666 in *; lia]. assert (0 <= (- k - 1) / 10) by (apply Z.div_pos; lia). lia. Qed.
Lemma first_above : forall f mag, 1 <= mag -> at_least f mag (first_exponent (Z.log2 mag - fl_unit f) + 1) = false.
Proof.
  intros f mag H. unfold at_least, first_exponent. apply Z.leb_gt. set (L := Z.log2 mag). assert (Hl := proj2 (Z.log2_spec mag ltac:(lia))). fold L in Hl. unfold Z.succ in Hl.
  assert (L0 : 0 <= L) by apply Z.log2_nonneg. assert (Hu : 0 <= fl_unit f) by (destruct f; discriminate). set (u := fl_unit f) in *. clearbody u L.
  destruct (Z.ltb_spec (L - u) 0) as [K|K].
  - set (j := - (L - u) - 1) in *. assert (D := Z.div_mod j 10 ltac:(lia)). assert (D2 := Z.mod_pos_bound j 10 ltac:(lia)). set (q := j / 10) in *. assert (Q : 0 <= q) by (apply Z.div_pos; lia).
    destruct (Z.eq_dec q 0) as [Q0|Q0].
    + rewrite Q0. change (Z.max 0 (- (3 * 0) + 1)) with 1. change (Z.max 0 (- (- (3 * 0) + 1))) with 0. assert (2 ^ (L + 1) <= 2 ^ u) by (apply Z.pow_le_mono_r; lia). lia.
    + replace (Z.max 0 (- (3 * q) + 1)) with 0 by lia. replace (Z.max 0 (- (- (3 * q) + 1))) with (3 * q - 1) by lia. rewrite Z.pow_0_r, Z.mul_1_l.
      assert (P1 : 10 ^ (3 * q - 1) <= 10 ^ (3 * q)) by (apply Z.pow_le_mono_r; lia). assert (P2 := pow_10_3 q Q). assert (P3 : 2 ^ (10 * q) <= 2 ^ j) by (apply Z.pow_le_mono_r; lia).
      assert (P4 : 2 ^ (L + 1) * 2 ^ j = 2 ^ u) by (rewrite <- Z.pow_add_r by lia; f_equal; lia). assert (0 < 2 ^ j) by (apply Z.pow_pos_nonneg; lia). rewrite <- P4. clear - Hl P1 P2 P3 H H0. nia.
  - set (k := L - u) in *. assert (D := Z.div_mod k 3 ltac:(lia)). assert (D2 := Z.mod_pos_bound k 3 ltac:(lia)). set (q := k / 3) in *. assert (Q : 0 <= q) by (apply Z.div_pos; lia).
    replace (Z.max 0 (q + 1)) with (q + 1) by lia. replace (Z.max 0 (- (q + 1))) with 0 by lia. rewrite Z.pow_0_r, Z.mul_1_r.
    assert (P1 := pow_2_3 (q + 1) ltac:(lia)). assert (P2 : 2 ^ (k + 1) <= 2 ^ (3 * (q + 1))) by (apply Z.pow_le_mono_r; lia).
    assert (P4 : 2 ^ (k + 1) * 2 ^ u = 2 ^ (L + 1)) by (rewrite <- Z.pow_add_r by lia; f_equal; lia). assert (0 < 2 ^ u) by (apply Z.pow_pos_nonneg; lia). clear - Hl P1 P2 P4 H0. nia.
Qed.

Section General.
  Context (f : fty) (b : Z).
  Notation neg := (fl_neg f b).
  Notation mag := (decode f (fl_abs f b)).
  Notation U := (2 ^ fl_unit f).
  Hypotheses (Pb : pattern f b) (Fb : fl_finite f b = true) (Nz : fl_zero f b = false).
  Let x := dec_exponent (Z.to_nat 1000) f mag (first_exponent (Z.log2 mag - fl_unit f)).
  Notation A := (10 ^ Z.max 0 (5 - x)).
  Notation B := (U * 10 ^ Z.max 0 (x - 5)).
  Let d := round_even (mag * A) B.
  Lemma mag_pos : 1 <= mag.
  Proof.
    assert (H := abs_range f b). unfold fl_zero in Nz. assert (L := decode_mono f 1 (fl_abs f b) ltac:(lia) ltac:(lia)). rewrite decode_1 in L. exact L.
  Qed.
  Lemma mag_top : mag <= largest f.
  Proof. apply finite_abs in Fb. assert (H := abs_range f b). apply decode_mono; lia. Qed.
  Lemma exponent_found : at_least f mag x = true /\ -330 <= x <= top f /\ at_least f mag (x + 1) = false.
  Proof.
    assert (Mp := mag_pos). assert (Mt := mag_top). unfold x.
    set (x0 := first_exponent (Z.log2 mag - fl_unit f)). assert (Fi : at_least f mag (x0 + 1) = false) by (apply first_above; lia).
    assert (Lo3 : at_least f mag (-330) = true).
    { apply (at_least_scaled f mag (-330) 330); [lia..|]. change (10 ^ (-330 + 330)) with 1.
      assert (U <= 10 ^ 330) by (destruct f; vm_compute; discriminate). nia. }
    assert (Hx : -330 <= x0 <= 670).
    { split.
      - destruct (Z.le_gt_cases (-330) x0) as [L|L]; [exact L|]. rewrite (at_least_mono f mag (-330) (x0 + 1)) in Fi by (assumption || lia). discriminate Fi.
      - unfold x0. apply first_small. assert (Z.log2 mag <= Z.log2 (largest f)) by (apply Z.log2_le_mono; exact Mt). assert (Z.log2 (largest f) - fl_unit f <= 2000) by (destruct f; vm_compute; discriminate). lia. }
    assert (Lo : at_least f mag (x0 - Z.of_nat (Z.to_nat 1000)) = true).
    { rewrite Z2Nat.id by lia. apply (at_least_mono f mag (-330)); [lia|exact Lo3]. }
    assert (Hi : forall y, top f < y -> at_least f mag y = false).
    { intros y Hy. destruct (at_least f mag y) eqn:E; [|reflexivity]. exfalso. assert (T : 0 <= top f) by (destruct f; cbn; lia). apply (at_least_scaled f mag y 0) in E; [|lia..].
      rewrite Z.add_0_r, Z.mul_1_r in E. assert (G : largest f < 10 ^ (top f + 1) * U) by (destruct f; vm_compute; reflexivity).
      assert (10 ^ (top f + 1) <= 10 ^ y) by (apply Z.pow_le_mono_r; lia). assert (Up := unit_pos f). nia. }
    destruct (dec_exponent_spec f mag _ _ Lo) as (E1 & E2 & E3). split; [exact E1|].
    assert (E4 : dec_exponent (Z.to_nat 1000) f mag x0 <= top f).
    { destruct (Z.le_gt_cases (dec_exponent (Z.to_nat 1000) f mag x0) (top f)) as [L|L]; [exact L|]. rewrite Hi in E1 by lia. discriminate E1. }
    assert (E5 : at_least f mag (dec_exponent (Z.to_nat 1000) f mag x0 + 1) = false).
    { destruct (Z.eq_dec (dec_exponent (Z.to_nat 1000) f mag x0) x0) as [E|N]; [rewrite E; exact Fi|apply E3; lia]. }
    split; [|exact E5]. split; [|exact E4].
    destruct (Z.le_gt_cases (-330) (dec_exponent (Z.to_nat 1000) f mag x0)) as [L|L]; [exact L|]. rewrite (at_least_mono f mag (-330)) in E5 by (assumption || lia). discriminate E5.
  Qed.
  Lemma A_p : 0 < A. Proof. apply ten_pos. Qed.
  Lemma B_p : 0 < B. Proof. assert (0 < 10 ^ Z.max 0 (x - 5)) by apply ten_pos. assert (Up := unit_pos f). nia. Qed.
  Lemma scaled_bounds : 10 ^ 5 * B <= mag * A < 10 ^ 6 * B.
  Proof.
    destruct exponent_found as (E1 & _ & E2). apply (at_least_scaled f mag x (Z.max 0 (5 - x))) in E1; [|lia..].
    assert (E3 : ~ 10 ^ (x + 1 + Z.max 0 (5 - x)) * U <= mag * A). { intro L. apply (at_least_scaled f mag (x + 1) (Z.max 0 (5 - x))) in L; [congruence|lia..]. }
    replace (x + Z.max 0 (5 - x)) with (5 + Z.max 0 (x - 5)) in E1 by lia. replace (x + 1 + Z.max 0 (5 - x)) with (6 + Z.max 0 (x - 5)) in E3 by lia.
    rewrite Z.pow_add_r in E1, E3 by lia. nia.
  Qed.
  Lemma digits_bounds : 10 ^ 5 <= d <= 10 ^ 6.
  Proof. assert (S := scaled_bounds). apply round_even_bounds; [apply B_p|lia]. Qed.
  Lemma digits_half : 2 * Z.abs (mag * A - d * B) <= B.
  Proof. apply round_even_half, B_p. Qed.
  Lemma six_form : six_digits f (fl_mag f b) = if d =? 10 ^ 6 then (10 ^ 5, x + 1) else (d, x).
  Proof. rewrite mag_decode. reflexivity. Qed.
  Lemma general_range : A <= d * B /\ d * B <= largest f * A.
  Proof.
    assert (Mp := mag_pos). assert (Mt := mag_top). assert (Ap := A_p). assert (Bp := B_p). assert (Sb := scaled_bounds). assert (Db := digits_bounds). assert (Dh := digits_half).
    split.
    - destruct (Z.eq_dec mag 1) as [E|N].
      + destruct exponent_found as (X1 & _ & X2). rewrite E in X1, X2.
        assert (L1 : at_least f 1 (bottom f) = true) by (destruct f; vm_compute; reflexivity). assert (L2 : at_least f 1 (bottom f + 1) = false) by (destruct f; vm_compute; reflexivity).
        assert (x = bottom f).
        { destruct (Z.lt_trichotomy x (bottom f)) as [L|[L|L]]; [|exact L|]; exfalso.
          - rewrite (at_least_mono f 1 (bottom f) (x + 1)) in X2 by (assumption || lia). discriminate X2.
          - rewrite (at_least_mono f 1 x (bottom f + 1)) in L2 by (assumption || lia). discriminate L2. }
        unfold d. rewrite E. clearbody x. subst x. clear. destruct f; vm_compute; discriminate.
      + assert (2 * A <= mag * A) by nia. assert (2 * (mag * A) - B <= 2 * (d * B)) by lia. lia.
    - destruct exponent_found as (_ & X & _). assert (Up := unit_pos f). destruct (Z.eq_dec x (top f)) as [E|N].
      + assert (A1 : A = 1) by (rewrite E; destruct f; reflexivity). rewrite A1, !Z.mul_1_r in *.
        assert (Bt : B = U * 10 ^ (top f - 5)) by (rewrite E; destruct f; reflexivity). rewrite Bt in *.
        assert (T1 : top_digits f * (U * 10 ^ (top f - 5)) <= largest f) by (destruct f; vm_compute; discriminate).
        assert (T2 : 2 * largest f + U * 10 ^ (top f - 5) < 2 * ((top_digits f + 1) * (U * 10 ^ (top f - 5)))) by (destruct f; vm_compute; reflexivity).
        set (W := U * 10 ^ (top f - 5)) in *. clearbody W. assert (d <= top_digits f) by nia. nia.
      + assert (G : 10 ^ top f * U <= largest f) by (destruct f; vm_compute; discriminate).
        assert (P1 : 10 ^ 6 * 10 ^ Z.max 0 (x - 5) <= 10 ^ top f * A).
        { rewrite <- !Z.pow_add_r by (destruct f; cbn [top]; lia). apply Z.pow_le_mono_r; lia. }
        assert (P2 : 10 ^ 6 * B <= largest f * A) by nia. nia.
  Qed.
  Lemma general_spelled : spelled neg (general_text f b) d (x - 5) /\ (List.length (general_text f b) <= 25)%nat.
  Proof.
    unfold general_text. rewrite Fb, six_form. assert (Db := digits_bounds). destruct exponent_found as (_ & X & _). assert (T : top f <= 308) by (destruct f; cbn; lia).
    assert (G : forall D Y, 10 ^ 5 <= D < 10 ^ 6 -> -330 <= Y <= 309 ->
      let t := dash neg ++ (if (-4 <=? Y) && (Y <? 6) then let p := 5 - Y in nat_dec (D / 10 ^ p) ++ dot (strip0 (padded (Z.to_nat p) (D mod 10 ^ p)))
        else nat_dec (D / 10 ^ 5) ++ dot (strip0 (padded 5 (D mod 10 ^ 5))) ++ 101 :: (if Y <? 0 then 45 else 43) :: exp_digits (Z.abs Y)) in
      spelled neg t D (Y - 5) /\ (List.length t <= 25)%nat).
    { intros D Y HD HY. cbv zeta. assert (Dl : (List.length (dash neg) <= 1)%nat) by (destruct neg; cbn; lia). destruct ((-4 <=? Y) && (Y <? 6)) eqn:C.
      - apply andb_true_iff in C as [C1 C2]. split.
        + assert (S := spelled_strip neg D (Z.to_nat (5 - Y)) [] 0 ltac:(lia) xo_none). rewrite Z2Nat.id, app_nil_r in S by lia. replace (0 - (5 - Y)) with (Y - 5) in S by lia. exact S.
        + rewrite !app_length. assert (P : 0 < 10 ^ (5 - Y)) by (apply Z.pow_pos_nonneg; lia). destruct (nat_dec_spec (D / 10 ^ (5 - Y))) as (_ & _ & Ln); [apply Z.div_pos; lia|].
          specialize (Ln 6 ltac:(lia)). assert (D / 10 ^ (5 - Y) < 10 ^ 6) by (apply Z.div_lt_upper_bound; nia). specialize (Ln H).
          set (l := padded (Z.to_nat (5 - Y)) (D mod 10 ^ (5 - Y))) in *. assert (List.length l = Z.to_nat (5 - Y)) by (apply padded_spec, Z.mod_pos_bound; exact P).
          assert (S1 := strip0_short l). assert (S2 := dot_short (strip0 l)). lia.
      - destruct (exp_digits_spec (Z.abs Y) ltac:(lia)) as (Fe & Ne & Ve & Le). specialize (Le ltac:(lia)). split.
        + apply (spelled_strip neg D 5 _ Y); [lia|]. destruct (Z.ltb_spec Y 0) as [L|L].
          * assert (E := xo_minus 101 (exp_digits (Z.abs Y)) (or_introl eq_refl) (conj Ne Fe)). rewrite Ve in E. now replace (- Z.abs Y) with Y in E by lia.
          * assert (E := xo_plus 101 (exp_digits (Z.abs Y)) (or_introl eq_refl) (conj Ne Fe)). rewrite Ve in E. now replace (Z.abs Y) with Y in E at 2 by lia.
        + rewrite !app_length. cbn [List.length]. destruct (nat_dec_spec (D / 10 ^ 5)) as (_ & _ & Ln); [apply Z.div_pos; lia|]. specialize (Ln 6 ltac:(lia)).
          assert (D / 10 ^ 5 < 10 ^ 6) by (apply Z.div_lt_upper_bound; lia). specialize (Ln H).
          set (l := padded 5 (D mod 10 ^ 5)) in *. assert (List.length l = 5%nat) by (apply padded_spec, Z.mod_pos_bound; lia).
          assert (S1 := strip0_short l). assert (S2 := dot_short (strip0 l)). lia. }
    destruct (Z.eqb_spec d (10 ^ 6)) as [E|N].
    - destruct (G (10 ^ 5) (x + 1) ltac:(lia) ltac:(lia)) as [S L]. split; [|exact L]. apply (spelled_eq _ _ _ _ _ _ S). rewrite E. replace (x + 1 - 5) with (1 + (x - 5)) by lia. rewrite pow10_split.
      change (Qpower 10 1) with 10%Q. change (inject_Z (10 ^ 6)) with (1000000 # 1)%Q. change (inject_Z (10 ^ 5)) with (100000 # 1)%Q. ring.
    - apply G; lia.
  Qed.
  Theorem general_reread : exists b', denotes_float f (general_text f b) b' /\ (forall k, flt_text k f (general_text f b) = Ok b') /\ near_general f b b'.
  Proof.
    assert (Up := unit_pos f). assert (Db := digits_bounds). assert (Dh := digits_half). assert (Rg := general_range). assert (Sb := scaled_bounds). assert (Ap := A_p). assert (Bp := B_p).
    assert (E1 : 10 ^ Z.max 0 (- (x - 5)) = A) by (f_equal; lia). assert (E2 : 10 ^ Z.max 0 (x - 5) * U = B) by lia.
    destruct (reread f b (general_text f b) d (x - 5) Pb Fb ltac:(lia) (proj1 general_spelled)) as (b' & v & v' & Dn & Rd & Pb' & Ev & Ev' & Er & Ng & Ex).
    - rewrite E1, E2. exact Dh.
    - right. rewrite E1, E2. exact Rg.
    - exists b'. split; [exact Dn|]. split; [exact Rd|]. split; [exact Pb'|]. split; [exact Ng|]. exists v, v'. split; [exact Ev|]. split; [exact Ev'|].
      destruct (value_finite f b v Pb Ev) as [_ Qv]. split.
      + assert (Va : (Qabs v * inject_Z A == inject_Z (mag * A) * ulp0 f)%Q).
        { assert (N := decode_nonneg f (fl_abs f b) ltac:(apply abs_range)). rewrite Qv, Qabs_Qmult, (Qabs_pos (ulp0 f)) by apply Qlt_le_weak, ulp0_pos.
          assert (Sa : (Qabs (inject_Z (signed neg mag)) == inject_Z mag)%Q).
          { unfold signed. destruct neg; [rewrite inject_Z_opp, Qabs_opp|]; apply Qabs_pos, inject_nonneg, N. }
          rewrite Sa, inject_Z_mult. ring. }
        assert (Vb : (Qpower 10 (x - 5) * 100000 * inject_Z A == inject_Z (10 ^ 5 * B) * ulp0 f)%Q).
        { destruct (decimal_scaled f 1 (x - 5) ltac:(lia)) as (_ & _ & S). specialize (S false). cbn [signed] in S. rewrite Z.mul_1_l, E1, E2 in S. transitivity (100000 * (inject_Z 1 * Qpower 10 (x - 5) * inject_Z A))%Q; [change (inject_Z 1) with 1%Q; ring|].
          etransitivity; [apply Qmult_comp; [reflexivity|exact S]|]. rewrite (inject_Z_mult (10 ^ 5)). change (inject_Z (10 ^ 5)) with 100000%Q. ring. }
        assert (C : (Qpower 10 (x - 5) * 100000 <= Qabs v)%Q) by (apply (compare f _ _ _ _ _ Vb Va Ap); lia).
        eapply Qle_trans; [|exact C]. apply Qmult_le_compat_r; [exact Er|discriminate].
      + intros (m & e & Hm & Qm). apply Ex. rewrite E1, E2.
        assert (Vm : mag * 10 ^ Z.max 0 (- e) = Z.abs m * 10 ^ Z.max 0 e * U).
        { assert (Pe := ten_pos e). assert (Q : (v * inject_Z (10 ^ Z.max 0 (- e)) == inject_Z (signed (m <? 0) (Z.abs m * 10 ^ Z.max 0 e * U)) * ulp0 f)%Q).
          { destruct (decimal_scaled f (Z.abs m) e ltac:(lia)) as (_ & _ & S). rewrite <- (S (m <? 0)), Qm. destruct (Z.ltb_spec m 0) as [L|L].
            - rewrite Z.abs_neq, inject_Z_opp by lia. ring.
            - rewrite Z.abs_eq by lia. ring. }
          assert (W := value_units f b v _ _ Pb Ev (ten_pos _) Q). rewrite W. apply signed_abs. clear - Pe Up. apply Z.mul_nonneg_nonneg; [apply Z.mul_nonneg_nonneg|]; lia. }
        destruct (sig_digits mag U (Z.abs m) e x Up ltac:(clear - Hm; lia) Vm (proj1 Sb)) as (n & W). unfold d. rewrite W, round_even_exact by exact Bp. reflexivity.
  Qed.
End General.
