(** Hexadecimal text and the bytes of the MongoUtility types. *)
From Coq Require Import ZArith String List Bool Lia ZifyBool.
From Verif Require Import Model.Base Model.Source Model.Number Model.Types Model.Binary Model.BsonPrinter Model.BsonParser Model.Mongo
  Spec.Bson Spec.Mongo Proofs.LexP Proofs.BinaryP Proofs.BsonLengthP.
Import ListNotations.
Open Scope Z_scope.

(** ** Writing *)
Fixpoint hexw (w : nat) (z : Z) : bytes := match w with O => [] | S w => hexw w (z / 16) ++ [hex_char (z mod 16)] end.
Lemma hexw_length : forall w z, List.length (hexw w z) = w.
Proof. induction w as [|w IH]; intro z; [reflexivity|]. cbn [hexw]. rewrite app_length, IH. cbn. lia. Qed.
Lemma hexw_zero : forall w, hexw w 0 = repeat 48 w.
Proof. induction w as [|w IH]; [reflexivity|]. cbn [hexw]. change (0 / 16) with 0. rewrite IH. change (hex_char (0 mod 16)) with 48. symmetry. apply repeat_cons. Qed.
Lemma pow16 : forall w, 16 ^ Z.of_nat (S w) = 16 * 16 ^ Z.of_nat w.
Proof. intro w. rewrite Nat2Z.inj_succ, Z.pow_succ_r by lia. reflexivity. Qed.
Lemma hex_loop_spec : forall n w z acc, (w <= n)%nat -> w <> O -> 0 <= z < 16 ^ Z.of_nat w ->
  exists d, hex_loop n z acc = d ++ acc /\ repeat 48 (w - List.length d) ++ d = hexw w z /\ d <> [].
Proof.
  induction n as [|n IH]; intros w z acc Hn Hw Hz; [lia|]. destruct w as [|w]; [congruence|]. rewrite pow16 in Hz. cbn [hex_loop hexw].
  destruct (Z.eqb_spec (z / 16) 0) as [E|E].
  - exists [hex_char (z mod 16)]. split; [reflexivity|]. split; [|discriminate]. rewrite E, hexw_zero. cbn [List.length]. now rewrite Nat.sub_succ, Nat.sub_0_r.
  - assert (Hd : 0 < z / 16 < 16 ^ Z.of_nat w) by (split; [assert (0 <= z / 16) by (apply Z.div_pos; lia); lia|apply Z.div_lt_upper_bound; lia]).
    destruct w as [|w]; [cbn in Hd; lia|].
    destruct (IH (S w) (z / 16) (hex_char (z mod 16) :: acc) ltac:(lia) ltac:(discriminate) ltac:(lia)) as (d & E1 & E2 & E3).
    exists (d ++ [hex_char (z mod 16)]). split; [rewrite E1, <- app_assoc; reflexivity|]. split; [|intro Q; now apply app_eq_nil in Q].
    rewrite app_length. cbn [List.length]. rewrite Nat.add_1_r, Nat.sub_succ, app_assoc, E2. reflexivity.
Qed.
Lemma put_hex_spec : forall w bits z, (0 < w <= 16)%nat -> 0 <= z mod 2 ^ bits < 16 ^ Z.of_nat w -> put_hex w bits z = hexw w (z mod 2 ^ bits).
Proof.
  intros w bits z Hw Hz. unfold put_hex. destruct (hex_loop_spec 16 w (z mod 2 ^ bits) [] ltac:(lia) ltac:(lia) Hz) as (d & -> & E & _). now rewrite app_nil_r.
Qed.
Lemma hex_char_digit : forall d, 0 <= d < 16 -> hex_digit (hex_char d) = Some d /\ lower_case (hex_char d).
Proof. intros d H. unfold hex_char, hex_digit, lower_case. destruct (Z.ltb_spec d 10); repeat match goal with |- context [?a <=? ?b] => destruct (Z.leb_spec a b) end; cbn [andb]; split; try (f_equal; lia); lia. Qed.
Lemma hex_number_app : forall a b acc, hex_number acc (a ++ b) = match hex_number acc a with Some z => hex_number z b | None => None end.
Proof. induction a as [|c a IH]; intros b acc; [reflexivity|]. cbn [app hex_number]. destruct (hex_digit c); [apply IH|reflexivity]. Qed.
Lemma hex_number_acc : forall l acc z, hex_number 0 l = Some z -> hex_number acc l = Some (acc * 16 ^ Z.of_nat (List.length l) + z).
Proof.
  intro l. assert (G : forall acc0 z, hex_number acc0 l = Some z -> forall acc, hex_number (acc + acc0) l = Some (acc * 16 ^ Z.of_nat (List.length l) + z)).
  { induction l as [|c l IH]; intros acc0 z E acc; [cbn in *; injection E as <-; f_equal; lia|]. cbn [hex_number] in *. destruct (hex_digit c) as [v|]; [|discriminate E].
    replace (16 * (acc + acc0) + v) with (16 * acc + (16 * acc0 + v)) by lia. rewrite (IH _ _ E). cbn [List.length]. rewrite pow16. f_equal. ring. }
  intros acc z E. rewrite <- (Z.add_0_r acc) at 1. now apply G.
Qed.
Lemma hexw_number : forall w z, 0 <= z < 16 ^ Z.of_nat w -> hex_number 0 (hexw w z) = Some z /\ Forall lower_case (hexw w z).
Proof.
  induction w as [|w IH]; intros z Hz; [cbn in *; split; [f_equal; lia|constructor]|]. rewrite pow16 in Hz. cbn [hexw].
  assert (Hd : 0 <= z / 16 < 16 ^ Z.of_nat w) by (split; [apply Z.div_pos; lia|apply Z.div_lt_upper_bound; lia]).
  destruct (IH _ Hd) as [E F]. destruct (hex_char_digit (z mod 16) (Z.mod_pos_bound z 16 ltac:(lia))) as [Ed Fd].
  split; [|apply Forall_app; split; [exact F|now constructor]]. rewrite hex_number_app, E. cbn [hex_number]. rewrite Ed. f_equal. rewrite <- Z.div_mod; lia.
Qed.

(** ** Reading *)
Lemma hex_digit_char : forall c v, hex_digit c = Some v -> is_space c = false /\ hex_of c = v /\ 0 <= v < 16 /\ c <> 45 /\ is_hex c = true.
Proof.
  intros c v E. unfold hex_digit in E. unfold is_space, hex_of, schar, is_hex, is_digit.
  destruct (Z.leb_spec 48 c), (Z.leb_spec c 57), (Z.leb_spec 97 c), (Z.leb_spec c 102), (Z.leb_spec 65 c), (Z.leb_spec c 70); cbn [andb] in E; try discriminate E; injection E as <-;
    destruct (Z.ltb_spec c 128); try lia; repeat match goal with |- context [?a <=? ?b] => destruct (Z.leb_spec a b); try lia end; cbn [andb orb]; repeat split; lia.
Qed.
Lemma skip_none : forall c s, is_space c = false -> skip_space (c :: s) = (O, c :: s).
Proof. intros c s H. cbn [skip_space]. now rewrite H. Qed.
Lemma hex_number_range : forall l z, hex_number 0 l = Some z -> 0 <= z < 16 ^ Z.of_nat (List.length l).
Proof.
  intro l. induction l as [|c l IH] using rev_ind; intros z E; [cbn in E; injection E as <-; cbn; lia|].
  rewrite hex_number_app in E. destruct (hex_number 0 l) as [y|] eqn:Ey; [|discriminate E]. cbn [hex_number] in E. destruct (hex_digit c) as [v|] eqn:Ec; [|discriminate E].
  assert (z = 16 * y + v) as -> by congruence. destruct (hex_digit_char c v Ec) as (_ & _ & Hv & _). specialize (IH y eq_refl). rewrite app_length. cbn [List.length]. rewrite Nat.add_1_r, pow16. unfold bytes in *. generalize dependent (16 ^ Z.of_nat (List.length l)). clear - Hv. intros. lia.
Qed.
Lemma read_hex_spec : forall ds rest first dash c acc z, hex_number acc ds = Some z ->
  exists y, read_hex (List.length ds) first dash c (acc mod 2 ^ 64) (ds ++ rest) = Ok (y, rest) /\ y = z mod 2 ^ 64.
Proof.
  induction ds as [|d ds IH]; intros rest first dash c acc z E; [cbn in *; injection E as <-; eauto|].
  cbn [hex_number] in E. destruct (hex_digit d) as [v|] eqn:Ed; [|discriminate E]. destruct (hex_digit_char d v Ed) as (Hs & Hv & _ & H45 & _).
  cbn [List.length read_hex app]. unfold get_char. rewrite skip_none by exact Hs. cbn [snd]. destruct (Z.eqb_spec d 45); [lia|]. cbn [andb]. rewrite Hv.
  replace ((acc mod 2 ^ 64 * 16 + v) mod 2 ^ 64) with ((16 * acc + v) mod 2 ^ 64).
  - exact (IH rest false dash (Some d) _ _ E).
  - rewrite <- Z.add_mod_idemp_l, (Z.mul_comm 16), <- Z.mul_mod_idemp_l, Z.add_mod_idemp_l by lia. reflexivity.
Qed.
Lemma read_hex0 : forall n ds rest first dash c z, n = List.length ds -> (n <= 16)%nat -> hex_number 0 ds = Some z ->
  read_hex n first dash c 0 (ds ++ rest) = Ok (z, rest).
Proof.
  intros n ds rest first dash c z -> Hn E. destruct (read_hex_spec ds rest first dash c 0 z E) as (y & Ey & ->). change (0 mod 2 ^ 64) with 0 in Ey. rewrite Ey.
  assert (R := hex_number_range ds z E). assert (16 ^ Z.of_nat (List.length ds) <= 16 ^ 16) by (apply Z.pow_le_mono_r; lia). change (16 ^ 16) with (2 ^ 64) in *. rewrite Z.mod_small by lia. reflexivity.
Qed.
Lemma span_hex_spec : forall ds z rest, hex_number 0 ds = Some z -> match rest with [] => True | c :: _ => is_hex c = false end -> span_hex (ds ++ rest) = (ds, rest).
Proof.
  intros ds z rest E R. revert E. generalize 0. induction ds as [|d ds IH]; intros acc E.
  - cbn [app]. destruct rest; [reflexivity|]. cbn [span_hex]. now rewrite R.
  - cbn [hex_number] in E. destruct (hex_digit d) as [v|] eqn:Ed; [|discriminate E]. destruct (hex_digit_char d v Ed) as (_ & _ & _ & _ & H).
    cbn [app span_hex]. rewrite H, (IH _ E). reflexivity.
Qed.
Lemma hex_value_number : forall ds z, hex_number 0 ds = Some z -> hex_value ds = z.
Proof.
  unfold hex_value. generalize 0. intros acc ds. revert acc. induction ds as [|d ds IH]; intros acc z E; [cbn in *; congruence|].
  cbn [hex_number fold_left] in *. destruct (hex_digit d) as [v|] eqn:Ed; [|discriminate E]. destruct (hex_digit_char d v Ed) as (_ & -> & _). now apply IH.
Qed.
Lemma get_hex32_spec : forall old ds z rest, hex_number 0 ds = Some z -> 0 <= z < 2 ^ 32 -> Forall lower_case ds -> ds <> [] ->
  match rest with [] => True | c :: _ => is_hex c = false /\ c <> 120 /\ c <> 88 end -> get_hex32 old (Some (ds ++ rest)) = (z, Some rest).
Proof.
  intros old ds z rest E R F Hn Hr. unfold get_hex32. destruct ds as [|d ds]; [congruence|]. cbn [app].
  assert (Ed : exists v, hex_digit d = Some v) by (cbn [hex_number] in E; destruct (hex_digit d); [eauto|discriminate E]). destruct Ed as (v & Ed).
  destruct (hex_digit_char d v Ed) as (Hs & _ & _ & H45 & _). rewrite skip_none by exact Hs. cbn [snd]. destruct (Z.eqb_spec d 45); [lia|].
  assert (Fd := Forall_inv F). destruct (Z.eqb_spec d 43) as [->|]; [destruct Fd; lia|].
  assert (P : match d :: ds ++ rest with x :: y :: r => if (x =? 48) && ((y =? 120) || (y =? 88)) then r else d :: ds ++ rest | _ => d :: ds ++ rest end = (d :: ds) ++ rest).
  { cbn [app]. destruct (ds ++ rest) as [|y r] eqn:Eq; [reflexivity|]. assert ((y =? 120) || (y =? 88) = false) as ->; [|now rewrite andb_false_r].
    destruct ds as [|y' ds]; cbn [app] in Eq; [subst rest; lia|]. injection Eq as -> _. assert (Fy := Forall_inv (Forall_inv_tail F)). destruct Fy; lia. }
  rewrite P, (span_hex_spec (d :: ds) z rest E); [|destruct rest; [exact I|apply Hr]]. rewrite (hex_value_number (d :: ds) z E).
  destruct (Z.leb_spec (2 ^ 32) z); [lia|]. reflexivity.
Qed.
(** Without a width at least one digit is written. *)
Lemma put_hex_free : forall z, 0 <= z < 2 ^ 32 -> put_hex 0 32 z <> [] /\ hex_number 0 (put_hex 0 32 z) = Some z /\ Forall lower_case (put_hex 0 32 z).
Proof.
  intros z Hz. unfold put_hex. rewrite Z.mod_small by lia. cbn [Nat.sub repeat app].
  destruct (hex_loop_spec 16 8 z [] ltac:(lia) ltac:(lia) ltac:(cbn; lia)) as (d & E & Q & N). rewrite app_nil_r in E. rewrite E. cbn [repeat app]. split; [exact N|].
  destruct (hexw_number 8 z ltac:(cbn; lia)) as [A B]. rewrite <- Q in A, B. apply Forall_app in B as [_ B]. split; [|exact B].
  revert A. generalize (8 - List.length d)%nat. intro n. induction n as [|n IH]; [auto|]. cbn [repeat app hex_number]. change (hex_digit 48) with (Some 0). cbn [Z.add Z.mul]. exact IH.
Qed.
