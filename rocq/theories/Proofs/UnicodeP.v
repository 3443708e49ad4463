(** The in-place decoder equals a structural decoder on the raw text; relation to the JSON string grammar. *)
From Coq Require Import ZArith Lia ZifyBool List Bool.
From Verif Require Import Model.Base Model.Unicode Spec.JsonString Proofs.Bits.
Import ListNotations.
Open Scope Z_scope.
Ltac Zify.zify_post_hook ::= Z.div_mod_to_equations.

Definition hex4v (a b c d : Z) : outcome Z :=
  do x <- hexval a; do y <- hexval b; do z <- hexval c; do w <- hexval d;
  Ok (4096 * x + 256 * y + 16 * z + w).

(** Structural decoder. *)
Fixpoint dec (raw : bytes) : outcome bytes :=
  match raw with
  | [] => Ok []
  | c :: r =>
      if c <? 32 then Throw
      else if negb (c =? 92) then do v <- dec r; Ok (c :: v)
      else match r with
           | [] => Throw
           | e :: r1 =>
               match simple_escape e with
               | Some x => do v <- dec r1; Ok (x :: v)
               | None =>
                   if e =? 117 then
                     match r1 with
                     | h1 :: h2 :: h3 :: h4 :: r2 =>
                         do n <- hex4v h1 h2 h3 h4;
                         if negb (n / 1024 =? 54) then do v <- dec r2; Ok (utf8 n ++ v)
                         else match r2 with
                              | b :: u :: g1 :: g2 :: g3 :: g4 :: r3 =>
                                  if negb (b =? 92) then Throw
                                  else if negb (u =? 117) then Throw
                                  else do m <- hex4v g1 g2 g3 g4;
                                       if negb (m / 1024 =? 55) then Throw
                                       else do v <- dec r3; Ok (utf8 (pair_value n m) ++ v)
                              | _ => Throw
                              end
                     | _ => Throw
                     end
                   else Throw
               end
           end
  end.

Ltac app_norm := rewrite <- ?app_assoc; cbn [app]; rewrite <- ?app_assoc; cbn [app]; rewrite <- ?app_assoc; cbn [app].

Lemma Ok_inj : forall A (a b : A), Ok a = Ok b -> a = b.
Proof. congruence. Qed.

Lemma hexval_range : forall x h, hexval x = Ok h -> 0 <= h < 16.
Proof.
  intros x h. unfold hexval.
  destruct ((48 <=? x) && (x <=? 57)) eqn:E1; [intro H; apply Ok_inj in H; lia|].
  destruct ((65 <=? x) && (x <=? 70)) eqn:E2; [intro H; apply Ok_inj in H; lia|].
  destruct ((97 <=? x) && (x <=? 102)) eqn:E3; [intro H; apply Ok_inj in H; lia|discriminate].
Qed.

Lemma hexval_cases : forall x, (exists h, hexval x = Ok h) \/ hexval x = Throw.
Proof.
  intro x. unfold hexval.
  destruct ((48 <=? x) && (x <=? 57)); [left; eexists; reflexivity|].
  destruct ((65 <=? x) && (x <=? 70)); [left; eexists; reflexivity|].
  destruct ((97 <=? x) && (x <=? 102)); [left; eexists; reflexivity|now right].
Qed.

Lemma hex4v_range : forall a b c d n, hex4v a b c d = Ok n -> 0 <= n < 65536.
Proof.
  intros a b c d n. unfold hex4v.
  destruct (hexval a) eqn:Ea; cbn [bind]; try discriminate.
  destruct (hexval b) eqn:Eb; cbn [bind]; try discriminate.
  destruct (hexval c) eqn:Ec; cbn [bind]; try discriminate.
  destruct (hexval d) eqn:Ed; cbn [bind]; try discriminate.
  apply hexval_range in Ea, Eb, Ec, Ed. intro H. apply Ok_inj in H. lia.
Qed.

Lemma hex4v_cases : forall a b c d, (exists n, hex4v a b c d = Ok n) \/ hex4v a b c d = Throw.
Proof.
  intros a b c d. unfold hex4v.
  destruct (hexval_cases a) as [[x ->]| ->]; cbn [bind]; [|now right].
  destruct (hexval_cases b) as [[y ->]| ->]; cbn [bind]; [|now right].
  destruct (hexval_cases c) as [[z ->]| ->]; cbn [bind]; [|now right].
  destruct (hexval_cases d) as [[w ->]| ->]; cbn [bind]; [|now right].
  left. eexists. reflexivity.
Qed.

(** The buffer seen with its terminator. *)
Lemma read_at_app : forall pre rest buf i,
  buf ++ [0] = pre ++ rest -> i = length pre ->
  read_at buf i = match rest with c :: _ => Ok c | [] => UB end.
Proof.
  intros pre rest buf i H ->. unfold read_at.
  destruct (nth_error buf (length pre)) as [c|] eqn:E.
  - assert (E' : nth_error (buf ++ [0]) (length pre) = Some c).
    { rewrite nth_error_app1; [assumption|]. apply nth_error_Some. congruence. }
    rewrite H, nth_error_app2, Nat.sub_diag in E' by lia.
    destruct rest; cbn in E'; congruence.
  - apply nth_error_None in E.
    assert (L : length (buf ++ [0]) = length (pre ++ rest)) by now rewrite H.
    rewrite !app_length in L. cbn in L.
    destruct rest as [|c rest]; cbn in L.
    + destruct (Nat.eqb_spec (length pre) (length buf)); [lia|reflexivity].
    + destruct rest; cbn in L; [|lia].
      assert (length pre = length buf) by lia. apply app_inj_tail in H as [_ <-].
      rewrite (proj2 (Nat.eqb_eq _ _)) by assumption. reflexivity.
Qed.

Lemma read_at_off : forall k pre rest buf i,
  buf ++ [0] = pre ++ rest -> i = (length pre + k)%nat ->
  read_at buf i = match skipn k rest with c :: _ => Ok c | [] => if Nat.leb k (length rest) then UB else read_at buf i end.
Proof.
  intros k pre rest buf i H ->.
  destruct (Nat.leb_spec k (length rest)) as [Hk|Hk].
  - erewrite (read_at_app (pre ++ firstn k rest) (skipn k rest)).
    + reflexivity.
    + rewrite <- app_assoc, firstn_skipn. assumption.
    + rewrite app_length, firstn_length_le by assumption. lia.
  - rewrite skipn_all2 by lia. reflexivity.
Qed.

Lemma hexval_0 : hexval 0 = Throw. Proof. reflexivity. Qed.

Lemma getUnicodeHex_spec : forall pre r buf i,
  buf = pre ++ r -> i = length pre ->
  getUnicodeHex buf i = match r with
                        | a :: b :: c :: d :: _ => hex4v a b c d
                        | _ => Throw
                        end.
Proof.
  intros pre r buf i -> ->. unfold getUnicodeHex.
  assert (H : (pre ++ r) ++ [0] = pre ++ (r ++ [0])) by now rewrite app_assoc.
  rewrite (read_at_app pre (r ++ [0]) _ _ H eq_refl).
  rewrite (read_at_off 1 _ _ _ (length pre + 1) H eq_refl).
  rewrite (read_at_off 2 _ _ _ (length pre + 2) H eq_refl).
  rewrite (read_at_off 3 _ _ _ (length pre + 3) H eq_refl).
  assert (HC := hexval_cases).
  destruct r as [|a r]; cbn [app skipn bind]; [rewrite hexval_0; reflexivity|].
  destruct (HC a) as [[x Ex]|Ex].
  2:{ rewrite Ex; cbn [bind]. destruct r as [|b [|c [|d r]]]; try reflexivity.
      unfold hex4v. rewrite Ex. reflexivity. }
  destruct r as [|b r]; cbn [app skipn bind]; rewrite Ex; cbn [bind]; [reflexivity|].
  destruct (HC b) as [[y Ey]|Ey].
  2:{ rewrite Ey; cbn [bind]. destruct r as [|c [|d r]]; try reflexivity.
      unfold hex4v. rewrite Ex, Ey. reflexivity. }
  rewrite Ey; cbn [bind].
  destruct r as [|c r]; cbn [app skipn bind]; [reflexivity|].
  destruct (HC c) as [[z Ez]|Ez].
  2:{ rewrite Ez; cbn [bind]. destruct r as [|d r]; try reflexivity.
      unfold hex4v. rewrite Ex, Ey, Ez. reflexivity. }
  rewrite Ez; cbn [bind].
  destruct r as [|d r]; cbn [app skipn bind]; [reflexivity|].
  unfold hex4v. rewrite Ex, Ey, Ez. cbn [bind].
  destruct (HC d) as [[w Ew]|Ew]; rewrite Ew; cbn [bind]; [|reflexivity].
  rewrite !shl_4. f_equal. lia.
Qed.

(** What decodeUnicode does with the text [r] behind "\u": decoded bytes and number of characters. *)
Definition dec_u (r : bytes) : outcome (bytes * nat) :=
  match r with
  | h1 :: h2 :: h3 :: h4 :: r2 =>
      do n <- hex4v h1 h2 h3 h4;
      if negb (n / 1024 =? 54) then Ok (utf8 n, 4%nat)
      else match r2 with
           | b :: u :: g1 :: g2 :: g3 :: g4 :: r3 =>
               if negb (b =? 92) then Throw
               else if negb (u =? 117) then Throw
               else do m <- hex4v g1 g2 g3 g4;
                    if negb (m / 1024 =? 55) then Throw
                    else Ok (utf8 (pair_value n m), 10%nat)
           | _ => Throw
           end
  | _ => Throw
  end.

Lemma pair_value_range : forall hi lo, 0xD800 <= hi <= 0xDBFF -> 0xDC00 <= lo <= 0xDFFF ->
  65536 <= pair_value hi lo < 1114112.
Proof.
  intros hi lo Hh Hl. unfold pair_value.
  set (p := (hi - 0xD800) * 1024 + (lo - 0xDC00)).
  destruct (Z.even (p / 65536)) eqn:E; [subst p; lia|].
  assert (p / 65536 <> 0) by (intro Z0; rewrite Z0 in E; discriminate).
  subst p. lia.
Qed.

Lemma decodeSurrogatePairs_spec : forall pre r buf i v,
  buf = pre ++ r -> i = length pre -> v / 1024 = 54 -> 0 <= v < 65536 ->
  decodeSurrogatePairs buf i v =
    match r with
    | b :: u :: g1 :: g2 :: g3 :: g4 :: r3 =>
        if negb (b =? 92) then Throw
        else if negb (u =? 117) then Throw
        else do m <- hex4v g1 g2 g3 g4;
             if negb (m / 1024 =? 55) then Throw
             else Ok (utf8 (pair_value v m), (i + 6)%nat)
    | _ => Throw
    end.
Proof.
  intros pre r buf i v -> -> Hv Hr. unfold decodeSurrogatePairs.
  assert (H : (pre ++ r) ++ [0] = pre ++ (r ++ [0])) by now rewrite app_assoc.
  rewrite (read_at_app pre (r ++ [0]) _ _ H eq_refl).
  rewrite (read_at_off 1 _ _ _ (length pre + 1) H eq_refl).
  destruct r as [|b r]; cbn [app skipn bind]; [reflexivity|].
  destruct (b =? 92) eqn:Eb; cbn [negb]; [|destruct r as [|? [|? [|? [|? [|? ?]]]]]; reflexivity].
  destruct r as [|u r]; cbn [app skipn bind]; [reflexivity|].
  destruct (u =? 117) eqn:Eu; cbn [negb]; [|destruct r as [|? [|? [|? [|? ?]]]]; reflexivity].
  rewrite (getUnicodeHex_spec (pre ++ [b; u]) r).
  2:{ now rewrite <- app_assoc. }
  2:{ rewrite app_length. reflexivity. }
  destruct r as [|g1 [|g2 [|g3 [|g4 r]]]]; cbn [bind]; try reflexivity.
  destruct (hex4v_cases g1 g2 g3 g4) as [[m Em]|Em]; rewrite Em; cbn [bind]; [|reflexivity].
  apply hex4v_range in Em.
  rewrite shl_16, land_pair_mask by lia.
  destruct (m / 1024 =? 55) eqn:E55; cbn [negb].
  - rewrite (proj2 (Z.eqb_eq _ _)) by lia. cbn [negb].
    rewrite pair_bits by lia.
    assert (Hp := pair_value_range v m ltac:(lia) ltac:(lia)).
    set (p := pair_value v m) in *. clearbody p.
    rewrite shr_0, shr_6, shr_12, shr_18, land_15, !land_63.
    rewrite lor_240, !lor_128 by lia.
    unfold utf8.
    rewrite (proj2 (Z.ltb_ge _ _)) by lia. rewrite (proj2 (Z.ltb_ge _ _)) by lia.
    rewrite (proj2 (Z.ltb_ge _ _)) by lia.
    do 3 f_equal. lia.
  - rewrite (proj2 (Z.eqb_neq _ _)); [reflexivity|]. lia.
Qed.

Lemma decodeUnicode_spec : forall pre r buf i,
  buf = pre ++ r -> i = length pre ->
  decodeUnicode buf i = do (cs, k) <- dec_u r; Ok (cs, (i + k)%nat).
Proof.
  intros pre r buf i Hb Hi. unfold decodeUnicode.
  rewrite (getUnicodeHex_spec pre r buf i Hb Hi).
  destruct r as [|h1 [|h2 [|h3 [|h4 r]]]]; try reflexivity.
  unfold dec_u.
  destruct (hex4v_cases h1 h2 h3 h4) as [[n En]|En]; rewrite En; cbn [bind]; [|reflexivity].
  apply hex4v_range in En.
  destruct (n <=? 0x7F) eqn:E1.
  { rewrite (proj2 (Z.eqb_neq _ _)) by lia. cbn [negb bind]. rewrite land_127.
    unfold utf8. rewrite (proj2 (Z.ltb_lt _ _)) by lia. do 3 f_equal. lia. }
  destruct (n <=? 0x7FF) eqn:E2.
  { rewrite (proj2 (Z.eqb_neq _ _)) by lia. cbn [negb bind].
    rewrite shr_0, shr_6, land_31, land_63, lor_192, lor_128 by lia.
    unfold utf8. rewrite (proj2 (Z.ltb_ge _ _)) by lia. rewrite (proj2 (Z.ltb_lt _ _)) by lia.
    do 3 f_equal. lia. }
  rewrite (proj2 (Z.leb_le _ _)) by lia.
  rewrite land_FC00 by lia.
  destruct (n / 1024 =? 54) eqn:E3; cbn [negb bind].
  - rewrite (proj2 (Z.eqb_eq _ _)) by lia. cbn [negb].
    rewrite (decodeSurrogatePairs_spec (pre ++ [h1; h2; h3; h4]) r); try lia.
    + destruct r as [|b [|u [|g1 [|g2 [|g3 [|g4 r]]]]]]; try reflexivity.
      destruct (b =? 92); cbn [negb]; [|reflexivity].
      destruct (u =? 117); cbn [negb]; [|reflexivity].
      destruct (hex4v g1 g2 g3 g4); cbn [bind]; try reflexivity.
      destruct (a / 1024 =? 55); cbn [negb bind]; [|reflexivity].
      do 2 f_equal. lia.
    + now rewrite <- app_assoc.
    + rewrite app_length. cbn [length]. lia.
  - rewrite (proj2 (Z.eqb_neq _ _)) by lia. cbn [negb bind].
    rewrite shr_0, shr_6, shr_12, land_15, !land_63, lor_224, !lor_128 by lia.
    unfold utf8. rewrite (proj2 (Z.ltb_ge _ _)) by lia. rewrite (proj2 (Z.ltb_ge _ _)) by lia.
    rewrite (proj2 (Z.ltb_lt _ _)) by lia. do 3 f_equal. lia.
Qed.

Lemma utf8_length : forall n, (1 <= length (utf8 n) <= 4)%nat.
Proof.
  intro n. unfold utf8.
  destruct (n <? 0x80); [cbn; lia|]. destruct (n <? 0x800); [cbn; lia|].
  destruct (n <? 0x10000); cbn; lia.
Qed.

Lemma dec_u_ok : forall r cs k, dec_u r = Ok (cs, k) ->
  (1 <= length cs <= k)%nat /\ (k <= length r)%nat /\
  forall v, dec (92 :: 117 :: r) = Ok v <-> exists v', dec (skipn k r) = Ok v' /\ v = cs ++ v'.
Proof.
  intros r cs k H. unfold dec_u in H.
  destruct r as [|h1 [|h2 [|h3 [|h4 r]]]]; try discriminate.
  destruct (hex4v h1 h2 h3 h4) as [n| | |] eqn:En; try discriminate. cbn [bind] in H.
  assert (U := utf8_length).
  destruct (n / 1024 =? 54) eqn:E54; cbn [negb] in H.
  - destruct r as [|b [|u [|g1 [|g2 [|g3 [|g4 r]]]]]]; try discriminate.
    destruct (b =? 92) eqn:Eb; cbn [negb] in H; [|discriminate].
    destruct (u =? 117) eqn:Eu; cbn [negb] in H; [|discriminate].
    destruct (hex4v g1 g2 g3 g4) as [m| | |] eqn:Em; try discriminate. cbn [bind] in H.
    destruct (m / 1024 =? 55) eqn:E55; cbn [negb] in H; [|discriminate].
    injection H as <- <-. specialize (U (pair_value n m)).
    split; [lia|split; [cbn [length]; lia|]].
    intro v. cbn [skipn dec]. change (92 <? 32) with false. change (92 =? 92) with true.
    change (simple_escape 117) with (@None Z). change (117 =? 117) with true. cbn [negb].
    rewrite En. cbn [bind]. rewrite E54, Eb, Eu. cbn [negb]. rewrite Em. cbn [bind]. rewrite E55. cbn [negb].
    destruct (dec r) as [v'| | |]; cbn [bind]; split; intro X;
      try (destruct X as (? & X & _); discriminate); try discriminate.
    + injection X as <-. now exists v'.
    + destruct X as (w & X & ->). now injection X as ->.
  - injection H as <- <-. specialize (U n).
    split; [lia|split; [cbn [length]; lia|]].
    intro v. cbn [skipn dec]. change (92 <? 32) with false. change (92 =? 92) with true.
    change (simple_escape 117) with (@None Z). change (117 =? 117) with true. cbn [negb].
    rewrite En. cbn [bind]. rewrite E54. cbn [negb].
    destruct (dec r) as [v'| | |]; cbn [bind]; split; intro X;
      try (destruct X as (? & X & _); discriminate); try discriminate.
    + injection X as <-. now exists v'.
    + destruct X as (w & X & ->). now injection X as ->.
Qed.

Lemma dec_u_eq : forall r,
  dec (92 :: 117 :: r) = do (cs, k) <- dec_u r; do v <- dec (skipn k r); Ok (cs ++ v).
Proof.
  intro r. cbn [dec]. change (92 <? 32) with false. change (92 =? 92) with true.
  change (simple_escape 117) with (@None Z). change (117 =? 117) with true. cbn [negb].
  unfold dec_u.
  destruct r as [|h1 [|h2 [|h3 [|h4 r]]]]; try reflexivity.
  destruct (hex4v h1 h2 h3 h4); cbn [bind]; try reflexivity.
  destruct (a / 1024 =? 54); cbn [negb].
  - destruct r as [|b [|u [|g1 [|g2 [|g3 [|g4 r]]]]]]; try reflexivity.
    destruct (b =? 92); cbn [negb]; [|reflexivity].
    destruct (u =? 117); cbn [negb]; [|reflexivity].
    destruct (hex4v g1 g2 g3 g4); cbn [bind]; try reflexivity.
    destruct (a0 / 1024 =? 55); cbn [negb]; reflexivity.
  - reflexivity.
Qed.

Lemma dec_cases : forall n raw, (length raw <= n)%nat -> (exists v, dec raw = Ok v) \/ dec raw = Throw.
Proof.
  induction n as [|n IH]; intros raw Hl.
  { destruct raw; [|cbn in Hl; lia]. left. eexists. reflexivity. }
  destruct raw as [|c r]; [left; eexists; reflexivity|].
  assert (R : forall (q : bytes) (f : bytes -> bytes), (length q <= n)%nat ->
     (exists v, (do v <- dec q; Ok (f v)) = Ok v) \/ (do v <- dec q; Ok (f v)) = Throw).
  { intros q f Hq. destruct (IH q Hq) as [[v ->]| ->]; cbn [bind]; [left; eexists; reflexivity|now right]. }
  cbn [length] in Hl.
  destruct (c =? 92) eqn:E92.
  - apply Z.eqb_eq in E92. subst c.
    destruct r as [|e r]; [now right|]. cbn [length] in Hl.
    destruct (simple_escape e) as [x|] eqn:Es.
    + cbn [dec]. change (92 <? 32) with false. change (92 =? 92) with true. cbn [negb]. rewrite Es.
      apply R. lia.
    + destruct (e =? 117) eqn:Eu.
      * apply Z.eqb_eq in Eu. subst e. rewrite dec_u_eq.
        assert (D : (exists p, dec_u r = Ok p) \/ dec_u r = Throw).
        { unfold dec_u. destruct r as [|h1 [|h2 [|h3 [|h4 r]]]]; try (now right).
          destruct (hex4v_cases h1 h2 h3 h4) as [[m ->]| ->]; cbn [bind]; [|now right].
          destruct (m / 1024 =? 54); cbn [negb]; [|left; eexists; reflexivity].
          destruct r as [|b [|u [|g1 [|g2 [|g3 [|g4 r]]]]]]; try (now right).
          destruct (b =? 92); cbn [negb]; [|now right].
          destruct (u =? 117); cbn [negb]; [|now right].
          destruct (hex4v_cases g1 g2 g3 g4) as [[k ->]| ->]; cbn [bind]; [|now right].
          destruct (k / 1024 =? 55); cbn [negb]; [left; eexists; reflexivity|now right]. }
        destruct D as [[[cs k] D]|D]; rewrite D; cbn [bind]; [|now right].
        apply R. rewrite skipn_length. lia.
      * right. cbn [dec]. change (92 <? 32) with false. change (92 =? 92) with true. cbn [negb].
        now rewrite Es, Eu.
  - cbn [dec]. rewrite E92. cbn [negb]. destruct (c <? 32); [now right|]. apply R. lia.
Qed.

Lemma write_at_app : forall out x r b, write_at (out ++ x :: r) (length out) b = Ok (out ++ b :: r).
Proof.
  induction out as [|a out IH]; intros x r b; cbn [app length write_at]; [reflexivity|].
  rewrite IH. reflexivity.
Qed.

(** Virtual buffer: [buf ++ [0] = out ++ junk ++ unread]. *)
Lemma write_at_virtual : forall buf out j junk unread b,
  buf ++ [0] = out ++ (j :: junk) ++ unread -> unread <> [] ->
  exists buf', write_at buf (length out) b = Ok buf' /\ buf' ++ [0] = out ++ (b :: junk) ++ unread /\
               length buf' = length buf.
Proof.
  intros buf out j junk unread b H Hne.
  destruct (exists_last Hne) as (u & z & ->).
  rewrite !app_assoc in H. apply app_inj_tail in H as [H Hz].
  exists (out ++ (b :: junk) ++ u).
  rewrite H. app_norm. rewrite write_at_app.
  split; [reflexivity|]. split.
  - rewrite <- Hz. app_norm. reflexivity.
  - rewrite !app_length. cbn [length]. rewrite !app_length. reflexivity.
Qed.

Lemma incr_fetch : forall pre c rest buf,
  buf ++ [0] = pre ++ c :: rest ->
  read_at buf (length pre) = Ok c.
Proof. intros pre c rest buf H. now rewrite (read_at_app pre (c :: rest) buf _ H eq_refl). Qed.

(** Emitting the remaining bytes of an expansion. *)
Lemma copy_cont : forall m cs idx f out junk c unread buf next i,
  (length cs - idx = m)%nat -> (idx < length cs)%nat ->
  buf ++ [0] = out ++ junk ++ c :: unread ->
  i = (length out + length junk)%nat ->
  (m <= length junk)%nat ->
  exists buf' out' junk',
    copy_loop (m + f) (buf, length out, mkWit i cs idx next) =
    copy_loop f (buf', length out', mkWit (S i) [] 0 c) /\
    buf' ++ [0] = out' ++ junk' ++ unread /\ out' = out ++ skipn idx cs /\
    S i = (length out' + length junk')%nat /\ length buf' = length buf /\ (1 <= length junk')%nat.
Proof.
  induction m as [|m IH]; intros cs idx f out junk c unread buf next i Hm Hidx Hb Hi Hj; [lia|].
  destruct junk as [|j junk]; [cbn in Hj; lia|].
  destruct (nth_error cs idx) as [b|] eqn:En.
  2:{ apply nth_error_None in En. lia. }
  destruct (write_at_virtual buf out j junk (c :: unread) b Hb ltac:(discriminate)) as (buf1 & W & V & L).
  assert (Hlen : length (buf ++ [0]) = length (out ++ (j :: junk) ++ c :: unread)) by now rewrite Hb.
  rewrite !app_length in Hlen. cbn [length] in Hlen, Hi, Hj.
  assert (Hsk : skipn idx cs = b :: skipn (S idx) cs).
  { clear - En. revert idx En. induction cs as [|a cs IHc]; intros [|idx] En; cbn in *; try discriminate.
    - congruence.
    - now apply IHc. }
  cbn [Nat.add copy_loop copy_step w_iter].
  rewrite (proj2 (Nat.eqb_neq _ _)) by lia.
  unfold wit_deref. cbn [w_cont w_index].
  destruct cs as [|c0 cs]; [cbn in Hidx; lia|].
  rewrite En. cbn [bind]. rewrite W. cbn [bind]. unfold wit_incr. cbn [w_cont w_index w_iter w_next].
  destruct (Nat.eqb_spec (S idx) (length (c0 :: cs))) as [El|El].
  - rewrite (read_at_app (out ++ b :: junk) (c :: unread)).
    2:{ now rewrite <- app_assoc. }
    2:{ rewrite app_length. cbn [length]. lia. }
    cbn [bind]. assert (m = 0)%nat by lia. subst m. cbn [Nat.add].
    exists buf1, (out ++ [b]), (junk ++ [c]).
    split; [rewrite app_length; cbn [length]; do 3 f_equal; lia|].
    split; [rewrite V, <- !app_assoc; reflexivity|].
    split; [rewrite Hsk; rewrite (skipn_all2 (c0 :: cs)) by lia; reflexivity|].
    rewrite !app_length. cbn [length]. lia.
  - cbn [bind].
    destruct (IH (c0 :: cs) (S idx) f (out ++ [b]) junk c unread buf1 next i) as
      (buf' & out' & junk' & E & B & O & I & L2 & J).
    + lia.
    + cbn [length] in *. lia.
    + rewrite V, <- app_assoc. reflexivity.
    + rewrite app_length. cbn [length]. lia.
    + lia.
    + exists buf', out', junk'. split; [rewrite <- E; rewrite app_length; cbn [length]; do 2 f_equal; f_equal; f_equal; lia|].
      split; [exact B|]. split; [rewrite O, Hsk, <- app_assoc; reflexivity|].
      split; [exact I|]. split; [congruence|exact J].
Qed.

Lemma read_tail : forall unread2, exists c t, unread2 ++ [0] = c :: t.
Proof. intros [|x u]; cbn; eauto. Qed.

Lemma simple_escape_0 : simple_escape 0 = None. Proof. reflexivity. Qed.

Theorem copy_loop_dec : forall n f raw out junk buf c,
  (length raw <= n)%nat -> (length raw < f)%nat ->
  buf ++ [0] = out ++ junk ++ match raw with [] => [] | _ :: r => r ++ [0] end ->
  c = match raw with [] => c | x :: _ => x end ->
  (1 <= length junk)%nat ->
  match dec raw with
  | Ok v => exists buf', copy_loop f (buf, length out, mkWit (length out + length junk) [] 0 c) =
                         Ok (buf', length (out ++ v)) /\ firstn (length (out ++ v)) buf' = out ++ v
                         /\ length buf' = length buf
  | _ => copy_loop f (buf, length out, mkWit (length out + length junk) [] 0 c) = Throw
  end.
Proof.
  induction n as [|n IH]; intros f raw out junk buf c Hn Hf Hb Hc Hj;
    (destruct f as [|f]; [lia|]);
    assert (Hlen : length (buf ++ [0]) = length (out ++ junk ++ match raw with [] => [] | _ :: r => r ++ [0] end))
      by (now rewrite Hb); rewrite !app_length in Hlen; cbn [length] in Hlen.
  - destruct raw; [|cbn in Hn; lia]. cbn [dec].
    cbn [copy_loop copy_step w_iter]. rewrite (proj2 (Nat.eqb_eq _ _)) by (cbn [length] in Hlen; lia).
    cbn [bind]. exists buf. rewrite !app_nil_r.
    split; [reflexivity|]. split; [|reflexivity].
    rewrite app_nil_r in Hb.
    assert (E := f_equal (firstn (length out)) Hb).
    rewrite !firstn_app, firstn_all, Nat.sub_diag, firstn_O, app_nil_r in E.
    replace (length out - length buf)%nat with O in E by (cbn [length] in Hlen; lia).
    now rewrite firstn_O, app_nil_r in E.
  - destruct raw as [|c' r].
    { apply (IH (S f) [] out junk buf c); cbn [length]; try lia; assumption. }
    subst c'. cbn [length] in Hn, Hf.
    destruct junk as [|j junk]; [cbn in Hj; lia|].
    set (i := (length out + length (j :: junk))%nat).
    assert (Hneq : Nat.eqb i (S (length buf)) = false).
    { apply Nat.eqb_neq. subst i. rewrite app_length in Hlen. cbn [length] in *. lia. }
    assert (Hread : forall pre rest, buf ++ [0] = pre ++ rest -> length pre = i ->
                       rest = r ++ [0]).
    { intros pre rest E Li. rewrite app_assoc in Hb. rewrite Hb in E.
      apply app_eq_app in E as [l [[E1 E2]|[E1 E2]]].
      - assert (length l = 0)%nat.
        { apply (f_equal (@length Z)) in E1. rewrite !app_length in E1. subst i. cbn [length] in *. lia. }
        destruct l; [|discriminate]. now rewrite E2.
      - assert (length l = 0)%nat.
        { apply (f_equal (@length Z)) in E1. rewrite !app_length in E1. subst i. cbn [length] in *. lia. }
        destruct l; [|discriminate]. now rewrite E2. }
    clear Hread.
    (* one emitted byte [x], after which the fetch position is behind the text [used] *)
    assert (Single : forall x used rest,
      r = used ++ rest ->
      (forall q, dec (c :: r) = Ok q <-> exists v, dec rest = Ok v /\ q = x :: v) ->
      (dec rest = Throw -> dec (c :: r) = Throw) ->
      wit_deref buf (mkWit i [] 0 c) = Ok (x, mkWit (i + length used) [] 0 c) ->
      match dec (c :: r) with
      | Ok v => exists buf', copy_loop (S f) (buf, length out, mkWit i [] 0 c) =
                         Ok (buf', length (out ++ v)) /\ firstn (length (out ++ v)) buf' = out ++ v
                         /\ length buf' = length buf
      | _ => copy_loop (S f) (buf, length out, mkWit i [] 0 c) = Throw
      end).
    { intros x used rest Er Dok Dthrow Hderef.
      cbn [copy_loop copy_step w_iter]. rewrite Hneq, Hderef. cbn [bind].
      destruct (write_at_virtual buf out j junk (r ++ [0]) x) as (buf1 & W & V & L).
      { exact Hb. } { destruct r; discriminate. }
      rewrite W. cbn [bind]. unfold wit_incr. cbn [w_cont w_index w_iter].
      destruct (read_tail rest) as (c2 & t2 & Et).
      assert (V2 : buf1 ++ [0] = (out ++ (x :: junk) ++ used) ++ c2 :: t2).
      { rewrite V, Er, <- Et, <- !app_assoc. reflexivity. }
      rewrite (read_at_app _ _ _ (i + length used) V2).
      2:{ subst i. rewrite !app_length. cbn [length]. lia. }
      cbn [bind].
      assert (Hrl : (length rest <= n)%nat /\ (length rest < f)%nat).
      { apply (f_equal (@length Z)) in Er. rewrite app_length in Er. lia. }
      specialize (IH f rest (out ++ [x]) (junk ++ used ++ [c2]) buf1 c2 (proj1 Hrl) (proj2 Hrl)).
      assert (A1 : buf1 ++ [0] = (out ++ [x]) ++ (junk ++ used ++ [c2]) ++
                      match rest with [] => [] | _ :: r0 => r0 ++ [0] end).
      { rewrite V2. destruct rest; cbn [app] in Et; injection Et as <- <-; rewrite <- !app_assoc; cbn [app];
          rewrite <- ?app_assoc; reflexivity. }
      assert (A2 : c2 = match rest with [] => c2 | x :: _ => x end).
      { destruct rest; [reflexivity|]. cbn [app] in Et. congruence. }
      assert (A3 : (1 <= length (junk ++ used ++ [c2]))%nat).
      { rewrite !app_length. cbn [length]. lia. }
      specialize (IH A1 A2 A3).
      assert (St : (buf1, S (length out), mkWit (S (i + length used)) [] 0 c2) =
                   (buf1, length (out ++ [x]), mkWit (length (out ++ [x]) + length (junk ++ used ++ [c2])) [] 0 c2)).
      { f_equal; [f_equal|f_equal]; subst i; rewrite ?app_length; cbn [length]; rewrite ?app_length; cbn [length]; lia. }
      rewrite St. clear St.
      destruct (dec_cases _ rest (le_n _)) as [[v Ev]|Ev].
      - rewrite Ev in IH.
        rewrite (proj2 (Dok (x :: v))) by (exists v; auto).
        destruct IH as (buf' & E & Fn & L2). rewrite <- app_assoc in E, Fn. cbn [app] in E, Fn.
        exists buf'. split; [exact E|]. split; [exact Fn|congruence].
      - rewrite (Dthrow Ev). rewrite Ev in IH. exact IH. }
    destruct (c <? 32) eqn:E32.
    { cbn [dec]. rewrite E32. cbn [copy_loop copy_step w_iter]. fold i. rewrite Hneq.
      unfold wit_deref, checkBuffer. cbn [w_cont w_next]. rewrite E32. reflexivity. }
    destruct (c =? 92) eqn:E92.
    2:{ apply (Single c [] r); [reflexivity| | |].
        - intro q. cbn [dec]. rewrite E32, E92. cbn [negb].
          destruct (dec r) as [v| | |]; cbn [bind]; split; intro X;
            try (destruct X as (? & X & _); discriminate); try discriminate.
          + injection X as <-. eauto.
          + destruct X as (w & X & ->). now injection X as ->.
        - intro X. cbn [dec]. rewrite E32, E92, X. reflexivity.
        - unfold wit_deref, checkBuffer. cbn [w_cont w_next length]. rewrite E32, E92, Nat.add_0_r. reflexivity. }
    apply Z.eqb_eq in E92. subst c.
    assert (He : forall e, nth_error (r ++ [0]) 0 = Some e -> read_at buf i = Ok e).
    { intros e E. rewrite app_assoc in Hb. rewrite (read_at_app _ _ _ i Hb).
      2:{ rewrite app_length. reflexivity. }
      destruct r; cbn in *; congruence. }
    destruct r as [|e r].
    { cbn [dec]. change (92 <? 32) with false. change (92 =? 92) with true. cbn [negb].
      cbn [copy_loop copy_step w_iter]. fold i. rewrite Hneq.
      unfold wit_deref, checkBuffer. cbn [w_cont w_next w_iter]. change (92 <? 32) with false.
      change (92 =? 92) with true. cbn [negb]. rewrite (He 0 eq_refl). cbn [bind]. rewrite simple_escape_0.
      change (0 =? 117) with false. reflexivity. }
    specialize (He e eq_refl).
    destruct (simple_escape e) as [x|] eqn:Es.
    { apply (Single x [e] r); [reflexivity| | |].
      - intro q. cbn [dec]. change (92 <? 32) with false. change (92 =? 92) with true. cbn [negb]. rewrite Es.
        destruct (dec r) as [v| | |]; cbn [bind]; split; intro X;
          try (destruct X as (? & X & _); discriminate); try discriminate.
        + injection X as <-. eauto.
        + destruct X as (w & X & ->). now injection X as ->.
      - intro X. cbn [dec]. change (92 <? 32) with false. change (92 =? 92) with true. cbn [negb]. rewrite Es, X.
        reflexivity.
      - unfold wit_deref, checkBuffer. cbn [w_cont w_next w_iter w_index length]. change (92 <? 32) with false.
        change (92 =? 92) with true. cbn [negb]. rewrite He. cbn [bind]. rewrite Es, Nat.add_1_r. reflexivity. }
    destruct (e =? 117) eqn:Eu.
    2:{ cbn [dec]. change (92 <? 32) with false. change (92 =? 92) with true. cbn [negb]. rewrite Es, Eu.
        cbn [copy_loop copy_step w_iter]. fold i. rewrite Hneq.
        unfold wit_deref, checkBuffer. cbn [w_cont w_next w_iter]. change (92 <? 32) with false.
        change (92 =? 92) with true. cbn [negb]. rewrite He. cbn [bind]. rewrite Es, Eu. reflexivity. }
    apply Z.eqb_eq in Eu. subst e. clear Single.
    assert (Hb2 : buf = (out ++ (j :: junk) ++ [117]) ++ r).
    { cbn [app] in Hb. replace (out ++ j :: junk ++ 117 :: r ++ [0]) with ((out ++ j :: junk ++ 117 :: r) ++ [0]) in Hb.
      2:{ rewrite <- app_assoc. cbn [app]. rewrite <- app_assoc. reflexivity. }
      apply app_inj_tail in Hb as [Hb _]. rewrite Hb, <- app_assoc. cbn [app]. rewrite <- app_assoc. reflexivity. }
    assert (Hdu : decodeUnicode buf (S i) = do (cs, k) <- dec_u r; Ok (cs, (S i + k)%nat)).
    { apply decodeUnicode_spec with (pre := out ++ (j :: junk) ++ [117]); [exact Hb2|].
      subst i. rewrite !app_length. cbn [length]. lia. }
    rewrite dec_u_eq.
    cbn [copy_loop copy_step w_iter]. fold i. rewrite Hneq.
    unfold wit_deref at 1 2, checkBuffer. cbn [w_cont w_next w_iter w_index]. change (92 <? 32) with false.
    change (92 =? 92) with true. cbn [negb]. rewrite He. cbn [bind]. rewrite Es.
    change (117 =? 117) with true. cbn iota. rewrite Hdu.
    destruct (dec_u r) as [[cs k]| | |] eqn:Du; cbn [bind]; try reflexivity.
    2:{ exfalso. revert Du. unfold dec_u. clear.
        destruct r as [|h1 [|h2 [|h3 [|h4 r]]]]; try discriminate.
        destruct (hex4v_cases h1 h2 h3 h4) as [[m ->]| ->]; cbn [bind]; [|discriminate].
        destruct (m / 1024 =? 54); cbn [negb]; [|discriminate].
        destruct r as [|b [|u [|g1 [|g2 [|g3 [|g4 r]]]]]]; try discriminate.
        destruct (b =? 92); cbn [negb]; [|discriminate].
        destruct (u =? 117); cbn [negb]; [|discriminate].
        destruct (hex4v_cases g1 g2 g3 g4) as [[q ->]| ->]; cbn [bind]; [|discriminate].
        destruct (q / 1024 =? 55); discriminate. }
    2:{ exfalso. revert Du. unfold dec_u. clear.
        destruct r as [|h1 [|h2 [|h3 [|h4 r]]]]; try discriminate.
        destruct (hex4v_cases h1 h2 h3 h4) as [[m ->]| ->]; cbn [bind]; [|discriminate].
        destruct (m / 1024 =? 54); cbn [negb]; [|discriminate].
        destruct r as [|b [|u [|g1 [|g2 [|g3 [|g4 r]]]]]]; try discriminate.
        destruct (b =? 92); cbn [negb]; [|discriminate].
        destruct (u =? 117); cbn [negb]; [|discriminate].
        destruct (hex4v_cases g1 g2 g3 g4) as [[q ->]| ->]; cbn [bind]; [|discriminate].
        destruct (q / 1024 =? 55); discriminate. }
    destruct (dec_u_ok _ _ _ Du) as (Lcs & Lk & _).
    destruct cs as [|c0 cs]; [cbn in Lcs; lia|].
    cbn [bind].
    assert (Hlen2 : length buf = (length out + S (length junk) + 1 + length r)%nat).
    { rewrite Hb2, !app_length. cbn [length]. try rewrite app_length; cbn [length]; lia. }
    (* the same step seen from the state with pending bytes *)
    set (w2 := mkWit (S i + k) (c0 :: cs) 0 92).
    assert (Hsame : forall g,
      (do r0 <- (do buf1 <- write_at buf (length out) c0; do w0 <- wit_incr buf1 w2; Ok (Some (buf1, S (length out), w0)));
       match r0 with Some st' => copy_loop g st' | None => Ok (buf, length out) end)
      = copy_loop (S g) (buf, length out, w2)).
    { intro g. cbn [copy_loop copy_step w_iter w2].
      replace (Nat.eqb (S i + k) (S (length buf))) with false.
      2:{ symmetry. apply Nat.eqb_neq. subst i. cbn [length] in *. lia. }
      reflexivity. }
    rewrite Hsame. clear Hsame.
    destruct (read_tail (skipn k r)) as (c2 & t2 & Et).
    set (m := length (c0 :: cs)) in *.
    destruct (copy_cont m (c0 :: cs) 0 (S f - m) out ((j :: junk) ++ [117] ++ firstn k r) c2 t2 buf 92 (S i + k))
      as (buf1 & out1 & junk1 & E1 & B1 & O1 & I1 & L1 & J1).
    { subst m. lia. } { subst m. cbn [length]. lia. }
    { rewrite <- Et. rewrite Hb2. rewrite <- !app_assoc. rewrite (app_assoc (firstn k r)), firstn_skipn. reflexivity. }
    { subst i. rewrite !app_length. rewrite firstn_length_le by lia. cbn [length]. lia. }
    { rewrite !app_length. rewrite firstn_length_le by lia. lia. }
    cbn [length] in Hf, Hn.
    replace (m + (S f - m))%nat with (S f) in E1 by lia.
    fold w2 in E1. rewrite E1. clear E1.
    cbn [skipn] in O1.
    specialize (IH (S f - m)%nat (skipn k r) out1 junk1 buf1 c2).
    assert (Ls : length (skipn k r) = (length r - k)%nat) by apply skipn_length.
    specialize (IH ltac:(lia) ltac:(lia)).
    assert (A1 : buf1 ++ [0] = out1 ++ junk1 ++ match skipn k r with [] => [] | _ :: r0 => r0 ++ [0] end).
    { rewrite B1. destruct (skipn k r); cbn [app] in Et; injection Et as <- <-; reflexivity. }
    assert (A2 : c2 = match skipn k r with [] => c2 | x :: _ => x end).
    { destruct (skipn k r); [reflexivity|]. cbn [app] in Et. congruence. }
    specialize (IH A1 A2 J1). rewrite <- I1 in IH.
    destruct (dec_cases _ (skipn k r) (le_n _)) as [[v Ev]|Ev]; rewrite Ev in IH |- *; cbn [bind].
    + destruct IH as (buf' & E & Fn & L2). exists buf'. subst out1. rewrite <- app_assoc in E, Fn.
      split; [exact E|]. split; [exact Fn|congruence].
    + exact IH.
Qed.

Theorem unescape_inplace_dec : forall raw, unescape_inplace raw = dec raw.
Proof.
  intro raw. unfold unescape_inplace, wit_begin.
  destruct (read_tail raw) as (c & t & Et).
  rewrite (read_at_app [] (c :: t) raw 0) by (cbn; congruence || reflexivity).
  cbn [bind].
  assert (H := copy_loop_dec (length raw) (S (S (length raw))) raw [] [c] raw c (le_n _) ltac:(lia)).
  assert (A1 : raw ++ [0] = [] ++ [c] ++ match raw with [] => [] | _ :: r => r ++ [0] end).
  { rewrite Et. destruct raw; cbn in Et |- *; congruence. }
  assert (A2 : c = match raw with [] => c | x :: _ => x end).
  { destruct raw; [reflexivity|]. cbn in Et. congruence. }
  specialize (H A1 A2 ltac:(cbn; lia)). cbn [length app Nat.add] in H.
  destruct (dec_cases _ raw (le_n _)) as [[v Ev]|Ev]; rewrite Ev in H |- *.
  - destruct H as (buf' & E & Fn & _). unfold bytes in *. rewrite E. cbn [bind]. now rewrite Fn.
  - unfold bytes in *. now rewrite H.
Qed.

(** ---------------------------------------------------------------------- *)
(** Relation to the grammar. *)
Lemma hexval_digit : forall x h, hexval x = Ok h <-> hex_digit x h.
Proof.
  intros x h. split.
  - unfold hexval.
    destruct ((48 <=? x) && (x <=? 57)) eqn:E1.
    { intro H. apply Ok_inj in H. replace x with (48 + h) by lia. constructor. lia. }
    destruct ((65 <=? x) && (x <=? 70)) eqn:E2.
    { intro H. apply Ok_inj in H. replace x with (65 + (h - 10)) by lia. constructor. lia. }
    destruct ((97 <=? x) && (x <=? 102)) eqn:E3; [|discriminate].
    intro H. apply Ok_inj in H. replace x with (97 + (h - 10)) by lia. constructor. lia.
  - unfold hexval. intro H. destruct H as [d Hd|d Hd|d Hd].
    + replace ((48 <=? 48 + d) && (48 + d <=? 57)) with true by lia. f_equal. lia.
    + replace ((48 <=? 65 + (d - 10)) && (65 + (d - 10) <=? 57)) with false by lia.
      replace ((65 <=? 65 + (d - 10)) && (65 + (d - 10) <=? 70)) with true by lia. f_equal. lia.
    + replace ((48 <=? 97 + (d - 10)) && (97 + (d - 10) <=? 57)) with false by lia.
      replace ((65 <=? 97 + (d - 10)) && (97 + (d - 10) <=? 70)) with false by lia.
      replace ((97 <=? 97 + (d - 10)) && (97 + (d - 10) <=? 102)) with true by lia. f_equal. lia.
Qed.

Lemma hex4v_hex4 : forall a b c d n, hex4v a b c d = Ok n <-> hex4 [a; b; c; d] n.
Proof.
  intros a b c d n. split; intro H.
  - unfold hex4v in H.
    destruct (hexval a) eqn:Ea; cbn [bind] in H; try discriminate.
    destruct (hexval b) eqn:Eb; cbn [bind] in H; try discriminate.
    destruct (hexval c) eqn:Ec; cbn [bind] in H; try discriminate.
    destruct (hexval d) eqn:Ed; cbn [bind] in H; try discriminate.
    apply hexval_digit in Ea, Eb, Ec, Ed. apply Ok_inj in H. subst n. now constructor.
  - inversion H; subst. unfold hex4v.
    repeat match goal with X : hex_digit _ _ |- _ => apply hexval_digit in X; rewrite X; clear X end.
    reflexivity.
Qed.

Lemma hex4_inv : forall h n, hex4 h n -> exists a b c d, h = [a; b; c; d] /\ hex4v a b c d = Ok n.
Proof.
  intros h n H. assert (H' := H). destruct H. do 4 eexists. split; [reflexivity|]. now apply hex4v_hex4.
Qed.

Lemma simple_escape_short : forall e x, simple_escape e = Some x <-> short_escape e x.
Proof.
  intros e x. split.
  - unfold simple_escape.
    repeat match goal with
           | |- context [?a =? ?b] => destruct (Z.eqb_spec a b)
           end; subst; intro H; try discriminate; injection H as <-; constructor.
  - intros []; reflexivity.
Qed.

Lemma dec_plain : forall c r, 32 <= c -> c <> 92 -> dec (c :: r) = do v <- dec r; Ok (c :: v).
Proof.
  intros c r H H2. cbn [dec].
  rewrite (proj2 (Z.ltb_ge _ _)) by lia. rewrite (proj2 (Z.eqb_neq _ _)) by lia. reflexivity.
Qed.
Lemma dec_short : forall e x r, short_escape e x -> dec (92 :: e :: r) = do v <- dec r; Ok (x :: v).
Proof.
  intros e x r H. apply simple_escape_short in H. cbn [dec]. change (92 <? 32) with false.
  change (92 =? 92) with true. cbn [negb]. now rewrite H.
Qed.
Lemma dec_unicode : forall h n r, hex4 h n -> ~ high_surrogate n ->
  dec (92 :: 117 :: h ++ r) = do v <- dec r; Ok (utf8 n ++ v).
Proof.
  intros h n r H Hn. apply hex4_inv in H as (a & b & c & d & -> & H).
  rewrite dec_u_eq. cbn [app dec_u]. rewrite H. cbn [bind]. unfold high_surrogate in Hn.
  rewrite (proj2 (Z.eqb_neq _ _)) by lia. reflexivity.
Qed.
Lemma dec_pair : forall h1 n1 h2 n2 r, hex4 h1 n1 -> high_surrogate n1 -> hex4 h2 n2 -> low_surrogate n2 ->
  dec (92 :: 117 :: h1 ++ 92 :: 117 :: h2 ++ r) = do v <- dec r; Ok (utf8 (pair_value n1 n2) ++ v).
Proof.
  intros h1 n1 h2 n2 r H1 Hn1 H2 Hn2.
  apply hex4_inv in H1 as (a & b & c & d & -> & H1). apply hex4_inv in H2 as (e & f & g & h & -> & H2).
  unfold high_surrogate, low_surrogate in *.
  rewrite dec_u_eq. cbn [app dec_u]. rewrite H1. cbn [bind].
  rewrite (proj2 (Z.eqb_eq (n1 / 1024) 54)) by lia. cbn [negb].
  change (92 =? 92) with true. change (117 =? 117) with true. cbn [negb]. rewrite H2. cbn [bind].
  rewrite (proj2 (Z.eqb_eq (n2 / 1024) 55)) by lia. reflexivity.
Qed.


Lemma pair_value_code : forall hi lo, high_surrogate hi -> low_surrogate lo ->
  pair_value hi lo = if Z.odd (pair_code hi lo / 65536) then pair_code hi lo else pair_code hi lo - 65536.
Proof.
  intros hi lo Hh Hl. unfold high_surrogate, low_surrogate, pair_value, pair_code in *.
  replace ((0x10000 + (hi - 0xD800) * 0x400 + (lo - 0xDC00)) / 65536)
    with (1 + ((hi - 0xD800) * 1024 + (lo - 0xDC00)) / 65536) by lia.
  rewrite Z.odd_add. change (Z.odd 1) with true. rewrite <- Z.negb_even.
  destruct (Z.even (((hi - 0xD800) * 1024 + (lo - 0xDC00)) / 65536)); cbn [negb xorb]; lia.
Qed.

Lemma dec_complete : forall raw v, json_string_when odd_plane raw v -> dec raw = Ok v.
Proof.
  intros raw v H. induction H.
  - reflexivity.
  - rewrite dec_plain by lia. now rewrite IHjson_string_when.
  - rewrite (dec_short _ _ _ H). now rewrite IHjson_string_when.
  - rewrite (dec_unicode _ _ _ H H0). now rewrite IHjson_string_when.
  - rewrite (dec_pair _ _ _ _ _ H H0 H1 H2). rewrite IHjson_string_when. cbn [bind].
    rewrite pair_value_code by assumption. unfold odd_plane in H3. now rewrite H3.
Qed.

Lemma json_string_when_mono : forall (P Q : Z -> Prop) raw v, (forall c, P c -> Q c) ->
  json_string_when P raw v -> json_string_when Q raw v.
Proof.
  intros P Q raw v HPQ H. induction H;
    [apply js_nil|apply js_char|eapply js_short|apply js_unicode|apply js_pair]; eauto.
Qed.

(** Everything accepted is legal up to lone low surrogates. *)
Inductive no_bare_quote : bytes -> Prop :=
| nq_nil : no_bare_quote []
| nq_char : forall c r, c <> 34 -> c <> 92 -> no_bare_quote r -> no_bare_quote (c :: r)
| nq_esc : forall c r, no_bare_quote r -> no_bare_quote (92 :: c :: r).

Lemma nq_app_plain : forall h r, Forall (fun c => c <> 34 /\ c <> 92) h -> no_bare_quote (h ++ r) -> no_bare_quote r.
Proof.
  induction h as [|c h IH]; intros r Hh H; [exact H|].
  inversion Hh as [|? ? [H1 H2] Hh']; subst. cbn [app] in H. inversion H; subst; [apply IH; assumption|congruence].
Qed.
Lemma hex4_plain : forall h n, hex4 h n -> Forall (fun c => c <> 34 /\ c <> 92) h.
Proof.
  intros h n H. destruct H as [? ? ? ? ? ? ? ? H1 H2 H3 H4].
  repeat constructor; destruct H1, H2, H3, H4; lia.
Qed.

Lemma dec_sound : forall n raw v, (length raw <= n)%nat -> bytes_ok raw -> no_bare_quote raw -> dec raw = Ok v ->
  json_string_lone_low raw.
Proof.
  induction n as [|n IH]; intros raw v Hl Hb Hq H.
  { destruct raw; [constructor|cbn in Hl; lia]. }
  destruct raw as [|c r]; [constructor|]. cbn [length] in Hl.
  inversion Hb as [|? ? Hc Hr]; subst.
  inversion Hq as [|? ? N1 N2 Hq'|e r1 Hq']; subst.
  - cbn [dec] in H. destruct (c <? 32) eqn:E32; [discriminate|].
    rewrite (proj2 (Z.eqb_neq _ _) N2) in H. cbn [negb] in H.
    destruct (dec r) as [w| | |] eqn:Er; cbn [bind] in H; try discriminate.
    unfold byte_ok in Hc. constructor; try lia. eapply IH; eauto. lia.
  - destruct (simple_escape e) as [x|] eqn:Es.
    + apply simple_escape_short in Es. rewrite (dec_short _ _ _ Es) in H.
      destruct (dec r1) as [w| | |] eqn:Er; cbn [bind] in H; try discriminate.
      inversion Hr; subst. cbn [length] in Hl.
      eapply jl_short; [exact Es|]. eapply IH; eauto. lia.
    + destruct (Z.eqb_spec e 117) as [->|Ne].
      2:{ cbn [dec] in H. change (92 <? 32) with false in H. change (92 =? 92) with true in H. cbn [negb] in H.
          rewrite Es, (proj2 (Z.eqb_neq _ _) Ne) in H. discriminate. }
      inversion Hr as [|? ? _ Hr1]; subst. cbn [length] in Hl.
      rewrite dec_u_eq in H. unfold dec_u in H.
      destruct r1 as [|h1 [|h2 [|h3 [|h4 r2]]]]; try discriminate.
      destruct (hex4v h1 h2 h3 h4) as [m| | |] eqn:Eh; cbn [bind] in H; try discriminate.
      assert (Hr0 := hex4v_range _ _ _ _ _ Eh). apply hex4v_hex4 in Eh.
      change (h1 :: h2 :: h3 :: h4 :: r2) with ([h1; h2; h3; h4] ++ r2) in *.
      assert (Hq2 := nq_app_plain _ _ (hex4_plain _ _ Eh) Hq').
      assert (Hb2 : bytes_ok r2) by (apply Forall_app in Hr1; tauto).
      rewrite app_length in Hl. cbn [length] in Hl.
      destruct (m / 1024 =? 54) eqn:E54; cbn [negb] in H.
      * destruct r2 as [|b [|u [|g1 [|g2 [|g3 [|g4 r3]]]]]]; try discriminate.
        destruct (Z.eqb_spec b 92) as [->|]; cbn [negb] in H; [|discriminate].
        destruct (Z.eqb_spec u 117) as [->|]; cbn [negb] in H; [|discriminate].
        destruct (hex4v g1 g2 g3 g4) as [k| | |] eqn:Eg; cbn [bind] in H; try discriminate.
        assert (Hk0 := hex4v_range _ _ _ _ _ Eg). apply hex4v_hex4 in Eg.
        destruct (k / 1024 =? 55) eqn:E55; cbn [negb bind] in H; [|discriminate].
        change (g1 :: g2 :: g3 :: g4 :: r3) with ([g1; g2; g3; g4] ++ r3) in *.
        inversion Hq2 as [|? ? ? X|? ? Hq3]; subst; [congruence|].
        assert (Hq4 := nq_app_plain _ _ (hex4_plain _ _ Eg) Hq3).
        assert (Hb3 : bytes_ok r3).
        { inversion Hb2 as [|? ? _ Y]; subst. inversion Y as [|? ? _ Y']; subst. apply (Forall_app byte_ok [g1; g2; g3; g4] r3) in Y'. tauto. }
        cbn [skipn app] in H.
        destruct (dec r3) as [w| | |] eqn:Er; cbn [bind] in H; try discriminate.
        eapply jl_pair; eauto; unfold high_surrogate, low_surrogate; try lia.
        eapply IH; eauto. cbn [length] in Hl. rewrite ?app_length in Hl. cbn [length] in Hl. lia.
      * cbn [bind skipn app] in H.
        destruct (dec r2) as [w| | |] eqn:Er; cbn [bind] in H; try discriminate.
        eapply jl_unicode; eauto; unfold high_surrogate; try lia. eapply IH; eauto. lia.
Qed.

Lemma dec_accepts : forall raw, json_string_lone_low raw -> exists v, dec raw = Ok v.
Proof.
  intros raw H. induction H as [|c r ? ? ? _ [v E]|e x r Hs _ [v E]|h n r Hh Hn _ [v E]|h1 n1 h2 n2 r H1 N1 H2 N2 _ [v E]].
  - now exists [].
  - rewrite dec_plain by lia. rewrite E. eexists. reflexivity.
  - rewrite (dec_short _ _ _ Hs), E. eexists. reflexivity.
  - rewrite (dec_unicode _ _ _ Hh Hn), E. eexists. reflexivity.
  - rewrite (dec_pair _ _ _ _ _ H1 N1 H2 N2), E. eexists. reflexivity.
Qed.

(** ---------------------------------------------------------------------- *)
(** Escaping. *)
Lemma hex_lower_digit : forall d, 0 <= d < 16 -> hex_digit (hex_lower d) d.
Proof.
  intros d H. unfold hex_lower. destruct (d <? 10) eqn:E.
  - constructor. lia.
  - replace (87 + d) with (97 + (d - 10)) by lia. constructor. lia.
Qed.

Lemma escape_legal : forall P s, bytes_ok s -> json_string_when P (escapeString s) s.
Proof.
  intros P s H. induction H as [|c s Hc Hs IH]; [constructor|].
  unfold byte_ok in Hc. unfold escapeString. cbn [flat_map]. fold (escapeString s).
  unfold escape_char.
  destruct (Z.eqb_spec c 34) as [->|N1]; [apply (js_short P 34 34); [constructor|exact IH]|].
  destruct (Z.eqb_spec c 92) as [->|N2]; [apply (js_short P 92 92); [constructor|exact IH]|].
  destruct (Z.eqb_spec c 8) as [->|N3]; [apply (js_short P 98 8); [constructor|exact IH]|].
  destruct (Z.eqb_spec c 12) as [->|N4]; [apply (js_short P 102 12); [constructor|exact IH]|].
  destruct (Z.eqb_spec c 10) as [->|N5]; [apply (js_short P 110 10); [constructor|exact IH]|].
  destruct (Z.eqb_spec c 13) as [->|N6]; [apply (js_short P 114 13); [constructor|exact IH]|].
  destruct (Z.eqb_spec c 9) as [->|N7]; [apply (js_short P 116 9); [constructor|exact IH]|].
  destruct (c <? 32) eqn:E32.
  - assert (U : utf8 c = [c]) by (unfold utf8; rewrite (proj2 (Z.ltb_lt _ _)) by lia; reflexivity).
    change (c :: s) with ([c] ++ s). rewrite <- U.
    apply (js_unicode P [48; 48; hex_lower (c / 16); hex_lower (c mod 16)] c).
    + replace c with (4096 * 0 + 256 * 0 + 16 * (c / 16) + c mod 16) at 3 by lia.
      constructor; [apply (hd_dec 0); lia|apply (hd_dec 0); lia|apply hex_lower_digit; lia|apply hex_lower_digit; lia].
    + unfold high_surrogate. lia.
    + unfold low_surrogate. lia.
    + exact IH.
  - cbn [app]. constructor; try lia. exact IH.
Qed.

Lemma hex_digit_byte : forall x d, hex_digit x d -> byte_ok x.
Proof. intros x d []; unfold byte_ok; lia. Qed.

Lemma escape_bytes_ok : forall s, bytes_ok s -> bytes_ok (escapeString s).
Proof.
  intros s H. induction H as [|c s Hc Hs IH]; [constructor|].
  unfold escapeString. cbn [flat_map]. apply Forall_app. split; [|exact IH].
  unfold byte_ok in Hc. unfold escape_char.
  repeat match goal with |- context [?a =? ?b] => destruct (Z.eqb_spec a b) end;
    try (repeat (apply Forall_cons || apply Forall_nil); unfold byte_ok; lia).
  destruct (c <? 32) eqn:E; [|repeat (apply Forall_cons || apply Forall_nil); unfold byte_ok; lia].
  assert (A := hex_lower_digit (c / 16) ltac:(lia)). assert (B := hex_lower_digit (c mod 16) ltac:(lia)).
  repeat (apply Forall_cons || apply Forall_nil); try (eapply hex_digit_byte; eassumption); unfold byte_ok; lia.
Qed.

Lemma unescape_escape : forall s, bytes_ok s -> unescape_inplace (escapeString s) = Ok s.
Proof. intros s H. rewrite unescape_inplace_dec. apply dec_complete. now apply escape_legal. Qed.
