(** Bit operations as arithmetic. *)
From Coq Require Import ZArith Lia List Bool.
Import ListNotations.
Open Scope Z_scope.
Ltac Zify.zify_post_hook ::= Z.div_mod_to_equations.

Lemma testbit_low : forall k a b n, 0 <= b < 2 ^ k -> 0 <= n < k ->
  Z.testbit (a * 2 ^ k + b) n = Z.testbit b n.
Proof.
  intros k a b n Hb Hn.
  rewrite <- (Z.mod_pow2_bits_low (a * 2 ^ k + b) k n) by lia.
  rewrite Z.add_comm, Z.mod_add by (apply Z.pow_nonzero; lia).
  now rewrite Z.mod_small.
Qed.

Lemma testbit_high : forall k a b n, 0 <= b < 2 ^ k -> 0 <= k <= n ->
  Z.testbit (a * 2 ^ k + b) n = Z.testbit a (n - k).
Proof.
  intros k a b n Hb Hn.
  replace n with (n - k + k) at 1 by lia.
  rewrite <- Z.div_pow2_bits by lia.
  rewrite Z.div_add_l by (apply Z.pow_nonzero; lia).
  rewrite Z.div_small by lia. now rewrite Z.add_0_r.
Qed.

Lemma land_split : forall k a b c d, 0 <= k -> 0 <= b < 2 ^ k -> 0 <= d < 2 ^ k ->
  Z.land (a * 2 ^ k + b) (c * 2 ^ k + d) = Z.land a c * 2 ^ k + Z.land b d.
Proof.
  intros k a b c d Hk Hb Hd.
  assert (Hl : 0 <= Z.land b d < 2 ^ k).
  { split. apply Z.land_nonneg; lia.
    destruct (Z.eq_dec (Z.land b d) 0) as [->|E]; [lia|].
    destruct (Z.eq_dec d 0) as [->|Ed]; [now rewrite Z.land_0_r in E|].
    apply Z.log2_lt_cancel. rewrite Z.log2_pow2 by lia.
    eapply Z.le_lt_trans; [apply Z.log2_land; lia|].
    apply Z.min_lt_iff. right. apply Z.log2_lt_pow2; lia. }
  apply Z.bits_inj'. intros n Hn.
  rewrite Z.land_spec.
  destruct (Z.lt_ge_cases n k).
  - rewrite !testbit_low by lia. now rewrite Z.land_spec.
  - rewrite !testbit_high by lia. now rewrite Z.land_spec.
Qed.

Lemma lor_lt : forall k b d, 0 <= k -> 0 <= b < 2 ^ k -> 0 <= d < 2 ^ k -> 0 <= Z.lor b d < 2 ^ k.
Proof.
  intros k b d Hk Hb Hd. split. apply Z.lor_nonneg; lia.
  destruct (Z.eq_dec (Z.lor b d) 0) as [->|E]; [lia|].
  assert (0 <= Z.lor b d) by (apply Z.lor_nonneg; lia).
  apply Z.log2_lt_cancel. rewrite Z.log2_pow2 by lia. rewrite Z.log2_lor by lia.
  apply Z.max_lub_lt; destruct (Z.eq_dec b 0), (Z.eq_dec d 0); subst; try (apply Z.log2_lt_pow2; lia);
    cbn; try lia; (destruct (Z.eq_dec k 0); [subst; cbn in *; lia| lia]).
Qed.

Lemma lor_split : forall k a b c d, 0 <= k -> 0 <= b < 2 ^ k -> 0 <= d < 2 ^ k ->
  Z.lor (a * 2 ^ k + b) (c * 2 ^ k + d) = Z.lor a c * 2 ^ k + Z.lor b d.
Proof.
  intros k a b c d Hk Hb Hd.
  assert (Hl := lor_lt k b d Hk Hb Hd).
  apply Z.bits_inj'. intros n Hn.
  rewrite Z.lor_spec.
  destruct (Z.lt_ge_cases n k).
  - rewrite !testbit_low by lia. now rewrite Z.lor_spec.
  - rewrite !testbit_high by lia. now rewrite Z.lor_spec.
Qed.

(** A small range for exhaustive checks. *)
Fixpoint zrange (n : nat) (s : Z) : list Z :=
  match n with O => [] | S m => s :: zrange m (s + 1) end.
Lemma zrange_in : forall n s z, s <= z < s + Z.of_nat n -> In z (zrange n s).
Proof.
  induction n as [|n IH]; intros s z H; cbn. lia.
  destruct (Z.eq_dec s z); [now left|right]. apply IH. lia.
Qed.
Lemma zrange_all : forall (P : Z -> bool) n s, forallb P (zrange n s) = true ->
  forall z, s <= z < s + Z.of_nat n -> P z = true.
Proof.
  intros P n s H z Hz. rewrite forallb_forall in H. apply H. now apply zrange_in.
Qed.

Lemma lor_128 : forall x, 0 <= x < 64 -> Z.lor 128 x = 128 + x.
Proof.
  intros x H. apply Z.eqb_eq.
  apply (zrange_all (fun x => Z.lor 128 x =? 128 + x) 64 0); [vm_compute; reflexivity | cbn; lia].
Qed.
Lemma lor_192 : forall x, 0 <= x < 32 -> Z.lor 192 x = 192 + x.
Proof.
  intros x H. apply Z.eqb_eq.
  apply (zrange_all (fun x => Z.lor 192 x =? 192 + x) 32 0); [vm_compute; reflexivity | cbn; lia].
Qed.
Lemma lor_224 : forall x, 0 <= x < 16 -> Z.lor 224 x = 224 + x.
Proof.
  intros x H. apply Z.eqb_eq.
  apply (zrange_all (fun x => Z.lor 224 x =? 224 + x) 16 0); [vm_compute; reflexivity | cbn; lia].
Qed.
Lemma lor_240 : forall x, 0 <= x < 8 -> Z.lor 240 x = 240 + x.
Proof.
  intros x H. apply Z.eqb_eq.
  apply (zrange_all (fun x => Z.lor 240 x =? 240 + x) 8 0); [vm_compute; reflexivity | cbn; lia].
Qed.

Lemma land_31 : forall x, Z.land x 31 = x mod 32. Proof. intro x. apply (Z.land_ones x 5). lia. Qed.
Lemma land_63 : forall x, Z.land x 63 = x mod 64. Proof. intro x. apply (Z.land_ones x 6). lia. Qed.
Lemma land_15 : forall x, Z.land x 15 = x mod 16. Proof. intro x. apply (Z.land_ones x 4). lia. Qed.
Lemma land_127 : forall x, Z.land x 127 = x mod 128. Proof. intro x. apply (Z.land_ones x 7). lia. Qed.
Lemma land_3FF : forall x, Z.land x 0x3FF = x mod 1024. Proof. intro x. apply (Z.land_ones x 10). lia. Qed.
Lemma shr_6 : forall x, Z.shiftr x 6 = x / 64. Proof. intro x. now rewrite Z.shiftr_div_pow2 by lia. Qed.
Lemma shr_12 : forall x, Z.shiftr x 12 = x / 4096. Proof. intro x. now rewrite Z.shiftr_div_pow2 by lia. Qed.
Lemma shr_18 : forall x, Z.shiftr x 18 = x / 262144. Proof. intro x. now rewrite Z.shiftr_div_pow2 by lia. Qed.
Lemma shr_0 : forall x, Z.shiftr x 0 = x. Proof. intro x. apply Z.shiftr_0_r. Qed.
Lemma shl_4 : forall x, Z.shiftl x 4 = x * 16. Proof. intro x. now rewrite Z.shiftl_mul_pow2 by lia. Qed.
Lemma shl_16 : forall x, Z.shiftl x 16 = x * 65536. Proof. intro x. now rewrite Z.shiftl_mul_pow2 by lia. Qed.

(** Masking a 16 bit value with 0xFC00. *)
Lemma land_FC00 : forall v, 0 <= v < 65536 -> Z.land v 0xFC00 = v / 1024 * 1024.
Proof.
  intros v H.
  replace v with (v / 1024 * 2 ^ 10 + v mod 1024) at 1 by (change (2^10) with 1024; lia).
  change 0xFC00 with (63 * 2 ^ 10 + 0).
  rewrite land_split by (change (2^10) with 1024; lia).
  rewrite Z.land_0_r, land_63. change (2^10) with 1024. lia.
Qed.

Lemma land_pair_mask : forall v lo, 0 <= v < 65536 -> 0 <= lo < 65536 ->
  Z.land (v * 65536 + lo) 0xFC00FC00 = v / 1024 * 1024 * 65536 + lo / 1024 * 1024.
Proof.
  intros v lo Hv Hlo.
  change 0xFC00FC00 with (0xFC00 * 2 ^ 16 + 0xFC00). change 65536 with (2 ^ 16) at 1.
  rewrite land_split by (change (2 ^ 16) with 65536; lia).
  rewrite !land_FC00 by lia. reflexivity.
Qed.

(** The value computed for a surrogate pair. *)
Definition pair_value (hi lo : Z) : Z :=
  let p := (hi - 0xD800) * 1024 + (lo - 0xDC00) in
  if Z.even (p / 65536) then 65536 + p else p.

Lemma pair_bits : forall hi lo, 0xD800 <= hi <= 0xDBFF -> 0xDC00 <= lo <= 0xDFFF ->
  Z.lor (Z.lor 0x10000 (Z.shiftr (Z.land (hi * 65536 + lo) 0x03FF0000) 6)) (Z.land (hi * 65536 + lo) 0x3FF)
  = pair_value hi lo.
Proof.
  intros hi lo Hh Hl.
  assert (E1 : Z.land (hi * 65536 + lo) 0x03FF0000 = (hi - 0xD800) * 65536).
  { change 0x03FF0000 with (0x3FF * 2 ^ 16 + 0). change 65536 with (2 ^ 16) at 1.
    rewrite land_split by (change (2^16) with 65536; lia).
    rewrite land_3FF, Z.land_0_r. change (2 ^ 16) with 65536. lia. }
  assert (E2 : Z.land (hi * 65536 + lo) 0x3FF = lo - 0xDC00) by (rewrite land_3FF; lia).
  rewrite E1, E2, shr_6. unfold pair_value.
  set (a := hi - 0xD800). set (b := lo - 0xDC00).
  assert (Ha : 0 <= a < 1024) by (subst a; lia). assert (Hb : 0 <= b < 1024) by (subst b; lia).
  replace (a * 65536 / 64) with (a * 1024) by lia.
  change 0x10000 with (64 * 2 ^ 10 + 0) at 1.
  replace (a * 1024) with (a * 2 ^ 10 + 0) at 1 by (change (2 ^ 10) with 1024; lia).
  rewrite lor_split by (change (2 ^ 10) with 1024; lia). rewrite Z.lor_0_r.
  replace b with (0 * 2 ^ 10 + b) at 1 by lia.
  rewrite lor_split by (change (2 ^ 10) with 1024; lia). rewrite Z.lor_0_l, Z.lor_0_r.
  replace ((a * 1024 + b) / 65536) with (a / 64) by lia.
  assert (E3 : Z.lor 64 a = if Z.even (a / 64) then 64 + a else a).
  { apply Z.eqb_eq.
    apply (zrange_all (fun a => Z.lor 64 a =? (if Z.even (a / 64) then 64 + a else a)) 1024 0);
      [vm_compute; reflexivity | cbn; lia]. }
  rewrite E3. change (2 ^ 10) with 1024. destruct (Z.even (a / 64)); lia.
Qed.
