(** Integers as bytes. *)
From Coq Require Import ZArith List Bool Lia ZifyBool.
From Verif Require Import Model.Base Model.Types Model.Binary Spec.Json Spec.Bson.
Import ListNotations.
Open Scope Z_scope.

Lemma le_little : forall n z, le_bytes n z = little n z.
Proof. induction n as [|n IH]; intro z; cbn [le_bytes little]; [reflexivity|]. now rewrite IH. Qed.
Lemma little_length : forall n z, length (little n z) = n.
Proof. induction n as [|n IH]; intro z; cbn [little length]; [reflexivity|]. now rewrite IH. Qed.
Lemma little_bytes : forall n z, Forall (fun c => 0 <= c < 256) (little n z).
Proof. induction n as [|n IH]; intro z; cbn [little]; constructor; [apply Z.mod_pos_bound; lia|apply IH]. Qed.

Lemma pow256 : forall n, 2 ^ (8 * Z.of_nat (S n)) = 256 * 2 ^ (8 * Z.of_nat n).
Proof. intro n. replace (8 * Z.of_nat (S n)) with (8 + 8 * Z.of_nat n) by lia. rewrite Z.pow_add_r by lia. reflexivity. Qed.
Lemma pow256_pos : forall n, 0 < 2 ^ (8 * Z.of_nat n).
Proof. intro n. apply Z.pow_pos_nonneg; lia. Qed.

Lemma le_value_little : forall n z, le_value (little n z) = z mod 2 ^ (8 * Z.of_nat n).
Proof.
  induction n as [|n IH]; intro z.
  - cbn. now rewrite Z.mod_1_r.
  - cbn [little le_value]. rewrite IH, pow256. assert (P := pow256_pos n).
    rewrite (Z.rem_mul_r z 256 _) by lia. reflexivity.
Qed.
Lemma le_value_range : forall b, Forall (fun c => 0 <= c < 256) b -> 0 <= le_value b < 2 ^ (8 * Z.of_nat (length b)).
Proof.
  induction 1 as [|c b Hc _ IH]; [cbn; lia|]. cbn [le_value length]. rewrite pow256. lia.
Qed.
Lemma little_le_value : forall b, Forall (fun c => 0 <= c < 256) b -> little (length b) (le_value b) = b.
Proof.
  induction 1 as [|c b Hc _ IH]; [reflexivity|]. cbn [le_value length little].
  replace ((c + 256 * le_value b) mod 256) with c by (apply (Z.mod_unique _ 256 (le_value b)); lia).
  replace ((c + 256 * le_value b) / 256) with (le_value b) by (apply (Z.div_unique _ 256 _ c); lia).
  now rewrite IH.
Qed.

Lemma signed_little : forall n z, (n <> 0)%nat -> - 2 ^ (8 * Z.of_nat n - 1) <= z < 2 ^ (8 * Z.of_nat n - 1) ->
  signed_value (little n z) = z.
Proof.
  intros n z Hn Hz. unfold signed_value. rewrite little_length, le_value_little.
  assert (E : 2 ^ (8 * Z.of_nat n) = 2 * 2 ^ (8 * Z.of_nat n - 1)).
  { replace (8 * Z.of_nat n) with (1 + (8 * Z.of_nat n - 1)) at 1 by lia. rewrite Z.pow_add_r by lia. reflexivity. }
  set (h := 2 ^ (8 * Z.of_nat n - 1)) in *. rewrite E.
  destruct (Z.ltb_spec z 0) as [L|L].
  - assert (M : z mod (2 * h) = z + 2 * h).
    { symmetry. apply (Z.mod_unique z (2 * h) (-1)); lia. }
    rewrite M. destruct (Z.leb_spec h (z + 2 * h)); lia.
  - rewrite Z.mod_small by lia. destruct (Z.leb_spec h z); lia.
Qed.
Lemma signed_little4 : forall z, - 2 ^ 31 <= z < 2 ^ 31 -> signed_value (little 4 z) = z.
Proof. intros z H. apply (signed_little 4); [discriminate|exact H]. Qed.
Lemma signed_little8 : forall z, - 2 ^ 63 <= z < 2 ^ 63 -> signed_value (little 8 z) = z.
Proof. intros z H. apply (signed_little 8); [discriminate|exact H]. Qed.
Lemma little_signed : forall b, b <> [] -> Forall (fun c => 0 <= c < 256) b -> little (length b) (signed_value b) = b.
Proof.
  intros b Hb F. assert (R := le_value_range b F). unfold signed_value.
  destruct (2 ^ (8 * Z.of_nat (length b) - 1) <=? le_value b); [|now apply little_le_value].
  assert (G : forall n z, little n (z - 2 ^ (8 * Z.of_nat n)) = little n z).
  { clear. induction n as [|n IH]; intro z; [reflexivity|]. cbn [little]. rewrite pow256.
    replace (z - 256 * 2 ^ (8 * Z.of_nat n)) with (z + (- 2 ^ (8 * Z.of_nat n)) * 256) by ring.
    rewrite Z.mod_add, Z.div_add by lia. f_equal. rewrite <- (IH (z / 256)). reflexivity. }
  rewrite G. now apply little_le_value.
Qed.

Lemma writeLE_little : forall n z, writeLE n n z = little n z.
Proof. intros n z. unfold writeLE. rewrite le_little, <- (little_length n z) at 1. apply firstn_all. Qed.
