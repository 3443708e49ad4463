(** UnicodePushBackIterator decodes JSON strings. *)
From Coq Require Import ZArith List Bool Lia ZifyBool.
From Verif Require Import Model.Base Model.Unicode Spec.JsonString Proofs.Bits Proofs.UnicodeP.
Import ListNotations.
Open Scope Z_scope.
Ltac Zify.zify_post_hook ::= Z.div_mod_to_equations.

Lemma pbi_run_app : forall a b p, pbi_run p (a ++ b) = do p' <- pbi_run p a; pbi_run p' b.
Proof. induction a as [|x a IH]; intros b p; cbn [app pbi_run bind]; [reflexivity|]. destruct (pbi_assign p x); cbn [bind]; auto. Qed.

(** What happens with the value of four digits. *)
Definition pbi_value (out : bytes) (v : Z) : outcome pbi :=
  if v <=? 0x7F then Ok (mkPbi (out ++ map u8 [v]) false 0 v)
  else if v <=? 0x7FF then Ok (mkPbi (out ++ map u8 [Z.lor 192 (Z.shiftr v 6); Z.lor 128 (Z.land v 63)]) false 0 v)
  else if v <=? 0xFFFF then
    if negb (Z.land v 0xFC00 =? 0xD800) then
      Ok (mkPbi (out ++ map u8 [Z.lor 224 (Z.shiftr v 12); Z.lor 128 (Z.land (Z.shiftr v 6) 63); Z.lor 128 (Z.land v 63)]) false 0 v)
    else Ok (mkPbi out false 6 v)
  else if negb (Z.land v 0xFC00FC00 =? 0xD800DC00) then Throw
  else
    let v := Z.lor (Z.lor 0x10000 (Z.shiftr (Z.land v 0x03FF0000) 6)) (Z.land v 0x3FF) in
    Ok (mkPbi (out ++ map u8 [Z.lor 240 (Z.shiftr v 18); Z.lor 128 (Z.land (Z.shiftr v 12) 63);
                              Z.lor 128 (Z.land (Z.shiftr v 6) 63); Z.lor 128 (Z.land v 63)]) false 0 v).
Lemma pbi_hex : forall a b c d n v out, hex4v a b c d = Ok n -> 0 <= v < 65536 ->
  pbi_run (mkPbi out false 4 v) [a; b; c; d] = pbi_value out (v * 65536 + n).
Proof.
  intros a b c d n v out H Hv. unfold hex4v in H.
  destruct (hexval a) as [x| | |] eqn:Ea; try discriminate H. destruct (hexval b) as [y| | |] eqn:Eb; try discriminate H.
  destruct (hexval c) as [z| | |] eqn:Ec; try discriminate H. destruct (hexval d) as [w| | |] eqn:Ed; try discriminate H.
  cbn [bind] in H. apply Ok_inj in H.
  assert (Ha := hexval_range _ _ Ea). assert (Hb := hexval_range _ _ Eb). assert (Hc := hexval_range _ _ Ec). assert (Hd := hexval_range _ _ Ed).
  assert (S1 : u32 (u32 (Z.shiftl v 4) + x) = v * 16 + x) by (rewrite shl_4; unfold u32; lia).
  assert (S2 : u32 (u32 (Z.shiftl (v * 16 + x) 4) + y) = v * 256 + 16 * x + y) by (rewrite shl_4; unfold u32; lia).
  assert (S3 : u32 (u32 (Z.shiftl (v * 256 + 16 * x + y) 4) + z) = v * 4096 + 256 * x + 16 * y + z) by (rewrite shl_4; unfold u32; lia).
  assert (S4 : u32 (u32 (Z.shiftl (v * 4096 + 256 * x + 16 * y + z) 4) + w) = v * 65536 + n) by (rewrite shl_4; unfold u32; lia).
  cbn [pbi_run]. unfold pbi_assign at 1. cbn [p_count p_val p_out p_slash]. change (negb (4 =? 0)) with true. change (4 =? 6) with false. change (4 =? 5) with false.
  cbv iota. rewrite Ea. cbn [bind]. rewrite S1. change (negb (4 - 1 =? 0)) with true. cbn [bind].
  unfold pbi_assign at 1. cbn [p_count p_val p_out p_slash]. change (4 - 1) with 3. change (negb (3 =? 0)) with true. change (3 =? 6) with false. change (3 =? 5) with false.
  cbv iota. rewrite Eb. cbn [bind]. rewrite S2. change (negb (3 - 1 =? 0)) with true. cbn [bind].
  unfold pbi_assign at 1. cbn [p_count p_val p_out p_slash]. change (3 - 1) with 2. change (negb (2 =? 0)) with true. change (2 =? 6) with false. change (2 =? 5) with false.
  cbv iota. rewrite Ec. cbn [bind]. rewrite S3. change (negb (2 - 1 =? 0)) with true. cbn [bind].
  unfold pbi_assign at 1. cbn [p_count p_val p_out p_slash]. change (2 - 1) with 1. change (negb (1 =? 0)) with true. change (1 =? 6) with false. change (1 =? 5) with false.
  cbv iota. rewrite Ed. cbn [bind]. rewrite S4. change (negb (1 - 1 =? 0)) with false. cbv iota. unfold pbi_push, pbi_value. cbn [p_out p_slash p_val]. change (1 - 1) with 0.
  set (u := v * 65536 + n). cbv zeta.
  destruct (u <=? 127); [reflexivity|]. destruct (u <=? 2047); [reflexivity|]. destruct (u <=? 65535).
  - destruct (negb (Z.land u 64512 =? 55296)); reflexivity.
  - match goal with |- context [if ?b then Throw else _] => destruct b end; reflexivity.
Qed.
Lemma pbi_single : forall out n, 0 <= n < 65536 -> ~ high_surrogate n -> pbi_value out n = Ok (mkPbi (out ++ utf8 n) false 0 n).
Proof.
  intros out n Hn Hh. unfold high_surrogate in Hh. unfold pbi_value, utf8.
  destruct (n <=? 0x7F) eqn:E1.
  { rewrite (proj2 (Z.ltb_lt _ _)) by lia. cbn [map]. do 3 f_equal. unfold u8. f_equal. lia. }
  rewrite (proj2 (Z.ltb_ge n 0x80)) by lia. destruct (n <=? 0x7FF) eqn:E2.
  { rewrite (proj2 (Z.ltb_lt _ _)) by lia. cbn [map]. rewrite shr_6, land_63, lor_192, lor_128 by lia. unfold u8. do 3 f_equal. f_equal; [lia|]. f_equal. lia. }
  rewrite (proj2 (Z.ltb_ge n 0x800)) by lia. rewrite (proj2 (Z.leb_le _ _)) by lia. rewrite land_FC00 by lia. rewrite (proj2 (Z.eqb_neq _ _)) by lia. cbn [negb].
  rewrite (proj2 (Z.ltb_lt _ _)) by lia. cbn [map]. rewrite shr_12, shr_6, !land_63, lor_224, !lor_128 by lia. unfold u8. do 3 f_equal. f_equal; [lia|]. f_equal; [lia|]. f_equal. lia.
Qed.
Lemma pbi_high : forall out n, high_surrogate n -> pbi_value out n = Ok (mkPbi out false 6 n).
Proof.
  intros out n H. unfold high_surrogate in H. unfold pbi_value. rewrite (proj2 (Z.leb_gt _ _)) by lia. rewrite (proj2 (Z.leb_gt _ _)) by lia. rewrite (proj2 (Z.leb_le _ _)) by lia.
  rewrite land_FC00 by lia. rewrite (proj2 (Z.eqb_eq _ _)) by lia. reflexivity.
Qed.
Lemma pbi_pair : forall out n m, high_surrogate n -> low_surrogate m -> pbi_value out (n * 65536 + m) = Ok (mkPbi (out ++ utf8 (pair_value n m)) false 0 (pair_value n m)).
Proof.
  intros out n m Hn Hm. unfold high_surrogate, low_surrogate in *. unfold pbi_value.
  rewrite (proj2 (Z.leb_gt _ _)) by lia. rewrite (proj2 (Z.leb_gt _ _)) by lia. rewrite (proj2 (Z.leb_gt _ _)) by lia.
  rewrite land_pair_mask by lia. rewrite (proj2 (Z.eqb_eq _ _)) by lia. cbn [negb]. rewrite pair_bits by lia.
  assert (Hp := pair_value_range n m ltac:(lia) ltac:(lia)). set (p := pair_value n m) in *. clearbody p. cbv zeta.
  unfold utf8. rewrite (proj2 (Z.ltb_ge _ _)) by lia. rewrite (proj2 (Z.ltb_ge _ _)) by lia. rewrite (proj2 (Z.ltb_ge _ _)) by lia.
  cbn [map]. rewrite shr_18, shr_12, shr_6, !land_63, lor_240, !lor_128 by lia. unfold u8. do 3 f_equal. repeat (f_equal; [lia|]). f_equal. lia.
Qed.

(** Between the characters of a string. *)
Definition pbi_idle (p : pbi) : Prop := p_slash p = false /\ p_count p = 0.
Lemma pbi_plain : forall p c, pbi_idle p -> c <> 92 -> pbi_assign p c = Ok (mkPbi (p_out p ++ [c]) false 0 (p_val p)).
Proof. intros [out s n v] c [H1 H2] Hc. cbn in *. subst. unfold pbi_assign. cbn [p_count p_slash p_out p_val]. rewrite (proj2 (Z.eqb_neq c 92)) by lia. reflexivity. Qed.
Lemma pbi_escape : forall p r, pbi_idle p -> pbi_run p (92 :: r) = pbi_run (mkPbi (p_out p) true 0 (p_val p)) r.
Proof. intros [out s n v] r [H1 H2]. cbn in *. subst. reflexivity. Qed.
Lemma pbi_u : forall out v r, pbi_run (mkPbi out true 0 v) (117 :: r) = pbi_run (mkPbi out false 4 0) r.
Proof. reflexivity. Qed.

Lemma pbi_decodes : forall raw v, json_string_when odd_plane raw v -> forall p, pbi_idle p ->
  exists p', pbi_run p raw = Ok p' /\ pbi_idle p' /\ p_out p' = p_out p ++ v.
Proof.
  intros raw v J. induction J as [|c r v Hr H1 H2 J IH|e x r v He J IH|h n r v Hh N1 N2 J IH|h1 n1 h2 n2 r v Hh1 N1 Hh2 N2 Ho J IH]; intros p Hp.
  - exists p. rewrite app_nil_r. auto.
  - cbn [pbi_run]. rewrite (pbi_plain p c Hp H2). cbn [bind]. destruct (IH (mkPbi (p_out p ++ [c]) false 0 (p_val p)) (conj eq_refl eq_refl)) as (p' & E & I & O).
    exists p'. split; [exact E|]. split; [exact I|]. rewrite O. cbn [p_out]. now rewrite <- app_assoc.
  - rewrite (pbi_escape p _ Hp). apply simple_escape_short in He. cbn [pbi_run]. unfold pbi_assign. cbn [p_count p_slash p_out p_val]. change (negb (0 =? 0)) with false. cbv iota.
    destruct (Z.eqb_spec e 117) as [->|]; [discriminate He|]. rewrite He. cbn [bind].
    destruct (IH (mkPbi (p_out p ++ [x]) false 0 (p_val p)) (conj eq_refl eq_refl)) as (p' & E & I & O).
    exists p'. split; [exact E|]. split; [exact I|]. rewrite O. cbn [p_out]. now rewrite <- app_assoc.
  - apply hex4_inv in Hh as (a & b & c & d & -> & H). assert (R := hex4v_range _ _ _ _ _ H).
    rewrite (pbi_escape p _ Hp), pbi_u, pbi_run_app, (pbi_hex _ _ _ _ n 0 _ H) by lia. rewrite pbi_single by (try assumption; lia). cbn [bind].
    destruct (IH (mkPbi (p_out p ++ utf8 (0 * 65536 + n)) false 0 (0 * 65536 + n)) (conj eq_refl eq_refl)) as (p' & E & I & O).
    exists p'. split; [exact E|]. split; [exact I|]. rewrite O. cbn [p_out]. rewrite <- app_assoc. reflexivity.
  - apply hex4_inv in Hh1 as (a & b & c & d & -> & H1). apply hex4_inv in Hh2 as (a' & b' & c' & d' & -> & H2). assert (R1 := hex4v_range _ _ _ _ _ H1).
    rewrite (pbi_escape p _ Hp), pbi_u, pbi_run_app, (pbi_hex _ _ _ _ n1 0 _ H1) by lia. change (0 * 65536 + n1) with n1. rewrite (pbi_high _ _ N1). cbn [bind].
    change (pbi_run (mkPbi (p_out p) false 6 n1) (92 :: 117 :: [a'; b'; c'; d'] ++ r)) with (pbi_run (mkPbi (p_out p) false 4 n1) ([a'; b'; c'; d'] ++ r)).
    rewrite pbi_run_app, (pbi_hex _ _ _ _ n2 n1 _ H2) by lia. rewrite (pbi_pair _ _ _ N1 N2). cbn [bind].
    destruct (IH (mkPbi (p_out p ++ utf8 (pair_value n1 n2)) false 0 (pair_value n1 n2)) (conj eq_refl eq_refl)) as (p' & E & I & O).
    exists p'. split; [exact E|]. split; [exact I|]. rewrite O. cbn [p_out]. rewrite <- app_assoc, (pair_value_code _ _ N1 N2). unfold odd_plane in Ho. now rewrite Ho.
Qed.
