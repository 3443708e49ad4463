(** What the JSON printer writes. *)
From Coq Require Import ZArith String List Bool Lia ZifyBool.
From Verif Require Import Model.Base Model.Number Model.Unicode Model.Printer Model.JsonPrinter Model.Types Model.Serializer Model.Exporter
  Spec.JsonString Spec.Json Spec.Typed Spec.Import Spec.Denotes Proofs.Induct Proofs.UnicodeP Proofs.TypedP Proofs.DenotesP.
Import ListNotations.
Open Scope Z_scope.

(** ** Decimal text *)
Lemma dec_digits_spec : forall f n, 0 <= n < 10 ^ Z.of_nat f ->
  Forall digit (dec_digits f n) /\ (forall a, digits_value a (dec_digits f n) = a * 10 ^ Z.of_nat (List.length (dec_digits f n)) + n) /\
  (f <> O -> int_part (dec_digits f n)) /\ (forall k, 0 < k -> n < 10 ^ k -> Z.of_nat (List.length (dec_digits f n)) <= k).
Proof.
  assert (App : forall x a d, digits_value a (x ++ [d]) = 10 * digits_value a x + (d - 48)).
  { induction x as [|y x IH]; intros a d; cbn [app digits_value]; [lia|]. apply IH. }
  induction f as [|f IH]; intros n H.
  - cbn in H. cbn [dec_digits List.length digits_value]. assert (n = 0) by lia. subst. split; [constructor|]. split; [|split; [congruence|lia]].
    intros a. change (Z.of_nat 0) with 0. rewrite Z.pow_0_r. lia.
  - cbn [dec_digits]. destruct (n <? 10) eqn:E.
    + split; [constructor; [unfold digit; lia|constructor]|]. split; [intros a; cbn [digits_value List.length]; change (Z.of_nat 1) with 1; lia|].
      split; [|cbn [List.length]; lia]. intros _. destruct (Z.eq_dec n 0) as [->|N]; [constructor|]. constructor; [lia|constructor].
    + rewrite Nat2Z.inj_succ, Z.pow_succ_r in H by lia. assert (Hd : 0 <= n / 10 < 10 ^ Z.of_nat f).
      { split; [apply Z.div_pos; lia|]. apply Z.div_lt_upper_bound; lia. }
      assert (Hm := Z.mod_pos_bound n 10 eq_refl). assert (Hdm := Z.div_mod n 10 ltac:(lia)).
      destruct (IH (n / 10) Hd) as (H1 & H2 & H3 & H4). split; [|split; [|split]].
      * apply Forall_app. split; [exact H1|constructor; [unfold digit; lia|constructor]].
      * intros a. rewrite App, H2, app_length, Nat2Z.inj_add. cbn [List.length]. change (Z.of_nat 1) with 1. rewrite Z.pow_add_r by lia. lia.
      * intros _. assert (f <> O). { intros ->. cbn in Hd. assert (0 < n / 10) by (apply Z.div_str_pos; lia). lia. }
        assert (Hz : 0 < n / 10) by (apply Z.div_str_pos; lia).
        specialize (H3 H0). inversion H3 as [Q|c r Hc Hr Q].
        -- specialize (H2 0). rewrite <- Q in H2. cbn in H2. lia.
        -- cbn [app]. constructor; [exact Hc|]. apply Forall_app. split; [exact Hr|constructor; [unfold digit; lia|constructor]].
      * intros k Hk Hn. rewrite app_length, Nat2Z.inj_add. cbn [List.length].
        destruct (Z.eq_dec k 1) as [->|Nk]; [lia|]. replace k with (Z.succ (k - 1)) in Hn by lia. rewrite Z.pow_succ_r in Hn by lia.
        assert (n / 10 < 10 ^ (k - 1)) by (apply Z.div_lt_upper_bound; lia). specialize (H4 (k - 1)). lia.
Qed.
Lemma nat_dec_spec : forall n, 0 <= n -> int_part (nat_dec n) /\ digits_value 0 (nat_dec n) = n /\
  (forall k, 0 < k -> n < 10 ^ k -> Z.of_nat (List.length (nat_dec n)) <= k).
Proof.
  intros n H. unfold nat_dec. destruct (dec_digits_spec (S (Z.to_nat (Z.log2 n))) n) as (_ & H2 & H3 & H4).
  - split; [exact H|]. rewrite Nat2Z.inj_succ, Z2Nat.id by apply Z.log2_nonneg. destruct (Z.eq_dec n 0) as [->|N]; [reflexivity|].
    apply Z.lt_le_trans with (2 ^ Z.succ (Z.log2 n)); [apply Z.log2_spec; lia|]. apply Z.pow_le_mono_l. lia.
  - split; [apply H3; discriminate|]. split; [rewrite H2; lia|exact H4].
Qed.
Lemma int_dec_literal : forall z, int_literal (int_dec z) z.
Proof.
  intros z. unfold int_dec. destruct (z <? 0) eqn:E.
  - destruct (nat_dec_spec (- z)) as (H1 & H2 & _); [lia|]. replace z with (- digits_value 0 (nat_dec (- z))) at 2 by lia. now constructor.
  - destruct (nat_dec_spec z) as (H1 & H2 & _); [lia|]. rewrite <- H2 at 2. now constructor.
Qed.
Lemma int_literal_number : forall t z, int_literal t z -> number t.
Proof.
  intros t z H. destruct H as [ds H|ds H].
  - assert (Q := number_intro [] ds [] [] sg_none H fp_none xp_none). now rewrite !app_nil_r in Q.
  - assert (Q := number_intro [45] ds [] [] sg_minus H fp_none xp_none). now rewrite !app_nil_r in Q.
Qed.
Lemma int_dec_short : forall i z, fits i z -> (List.length (int_dec z) <= 25)%nat.
Proof.
  intros i z H. assert (B : - 10 ^ 20 < z < 10 ^ 20).
  { unfold fits in H. destruct i; cbn [i_signed i_bits] in H; lia. }
  unfold int_dec. destruct (z <? 0) eqn:E.
  - destruct (nat_dec_spec (- z)) as (_ & _ & H3); [lia|]. specialize (H3 20). cbn [List.length]. lia.
  - destruct (nat_dec_spec z) as (_ & _ & H3); [lia|]. specialize (H3 20). lia.
Qed.

(** ** Texts of lists of values and of members *)
Definition comma (first : bool) : bytes := if first then [] else [44].
Inductive elems_text : bool -> list jv -> bytes -> Prop :=
| et_nil : forall b, elems_text b [] []
| et_cons : forall b j js w t r, ws w -> spells j t -> elems_text false js r -> elems_text b (j :: js) (comma b ++ w ++ t ++ r).
Inductive mems_text : bool -> list (bytes * jv) -> bytes -> Prop :=
| mt_nil : forall b, mems_text b [] []
| mt_cons : forall b k j l w1 w2 t r, ws w1 -> ws w2 -> legal_string k -> spells j t -> mems_text false l r ->
    mems_text b ((k, j) :: l) (comma b ++ w1 ++ (34 :: k ++ [34]) ++ 58 :: w2 ++ t ++ r).

Lemma mems_text_app : forall b l1 t1, mems_text b l1 t1 -> forall l2 t2, mems_text (b && match l1 with [] => true | _ => false end) l2 t2 ->
  mems_text b (l1 ++ l2) (t1 ++ t2).
Proof.
  induction 1 as [b|b k j l w1 w2 t r H1 H2 H3 H4 H5 IH]; intros l2 t2 H.
  - rewrite andb_true_r in H. exact H.
  - rewrite andb_false_r in H. specialize (IH l2 t2 H).
    assert (Q := mt_cons b k j (l ++ l2) w1 w2 t (r ++ t2) H1 H2 H3 H4 IH). repeat (rewrite <- ?app_assoc in *; cbn [app] in *). exact Q.
Qed.
Lemma ws_nil : ws []. Proof. constructor. Qed.
Lemma elems_spell : forall js j b t w, elems_text b (j :: js) t -> ws w -> exists t', t = comma b ++ t' /\ spells_elems (j :: js) (t' ++ w).
Proof.
  induction js as [|j1 js IH]; intros j b t w H Hw; inversion H as [|? ? ? w0 t0 r H1 H2 H3]; subst.
  - inversion H3; subst. exists (w0 ++ t0). rewrite app_nil_r. split; [reflexivity|]. rewrite <- app_assoc. now constructor.
  - destruct (IH j1 false r w H3 Hw) as (t' & -> & H'). exists (w0 ++ t0 ++ comma false ++ t'). split; [reflexivity|].
    assert (Q := se_cons j (j1 :: js) t0 w0 [] (t' ++ w) H1 ws_nil H2 H'). cbn [comma app] in *. rewrite <- ?app_assoc. cbn [app]. exact Q.
Qed.
Lemma mems_spell : forall l k j b t w, mems_text b ((k, j) :: l) t -> ws w -> exists t', t = comma b ++ t' /\ spells_members ((k, j) :: l) (t' ++ w).
Proof.
  induction l as [|[k1 j1] l IH]; intros k j b t w H Hw; inversion H as [|? ? ? ? w1 w2 t0 r H1 H2 H3 H4 H5]; subst.
  - inversion H5; subst. eexists. split; [reflexivity|]. assert (Q := sm_last k j t0 w1 [] w2 w H1 ws_nil H2 Hw H3 H4).
    rewrite app_nil_r. repeat (rewrite <- ?app_assoc in *; cbn [app] in *). exact Q.
  - destruct (IH k1 j1 false r w H5 Hw) as (t' & -> & H'). eexists. split; [reflexivity|].
    assert (Q := sm_cons k j ((k1, j1) :: l) t0 w1 [] w2 [] (t' ++ w) H1 ws_nil H2 ws_nil H3 H4 H').
    cbn [comma] in *. repeat (rewrite <- ?app_assoc in *; cbn [app] in *). exact Q.
Qed.
Lemma array_spell : forall js t w, elems_text true js t -> ws w -> spells (Arr js) (91 :: t ++ w ++ [93]).
Proof.
  intros [|j js] t w H Hw.
  - inversion H; subst. now constructor.
  - destruct (elems_spell js j true t w H Hw) as (t' & -> & H'). cbn [comma app]. rewrite app_assoc. now constructor.
Qed.
Lemma object_spell : forall l t w, mems_text true l t -> ws w -> spells (Obj l) (123 :: t ++ w ++ [125]).
Proof.
  intros [|[k j] l] t w H Hw.
  - inversion H; subst. now constructor.
  - destruct (mems_spell l k j true t w H Hw) as (t' & -> & H'). cbn [comma app]. rewrite app_assoc. now constructor.
Qed.

(** ** What an action of the printer writes *)
(** Short, and not what is written for a negative zero. *)
Definition small (c : chunk) : Prop := match c with Wr _ => True | WrVal b => (List.length b <= 25)%nat /\ b <> [45; 48; 46] end.
Lemma number_small : forall t, number t -> (List.length t <= 25)%nat -> small (WrVal t).
Proof.
  intros t N L. split; [exact L|]. intros ->. inversion N as [s i f e Hs Hi Hf He E]. clear N L.
  destruct Hs, Hi as [|d r Hd Hr], Hf as [|l [Nl _]], He as [|x l' Hx [Nl' _]|x y l' Hx Hy [Nl' _]]; cbn in E; try discriminate E; injection E as E; subst; try lia;
    repeat match goal with H : Forall _ (_ :: _) |- _ => inversion H; subst; clear H end; try (destruct l; [contradiction|discriminate]); try (destruct l; discriminate); unfold digit in *; try lia.
Qed.
Lemma chunks_app : forall a b, chunks_text (a ++ b) = chunks_text a ++ chunks_text b.
Proof. intros a b. unfold chunks_text. apply flat_map_app. Qed.
Lemma repeat_ws : forall n, ws (repeat 32 n).
Proof. induction n; constructor; auto. now left. Qed.

Lemma scalar_bytes_text : forall s t, scalar_text s t -> t = scalar_bytes s.
Proof. intros s t H. destruct H; reflexivity. Qed.
(** The parts of a list, the first one after a comma if something stands before. *)
Definition parts (first : bool) (l : list bytes) : bytes := if first then commas l else flat_map (fun b => 44 :: b) l.
Lemma parts_cons : forall f a l, parts f (a :: l) = comma f ++ a ++ parts false l.
Proof. intros [] a l; reflexivity. Qed.
Lemma parts_app : forall f a b, parts f (a ++ b) = parts f a ++ parts (f && match a with [] => true | _ => false end) b.
Proof.
  intros f [|x a] b; [now rewrite andb_true_r; destruct f|]. rewrite andb_false_r. cbn [app]. rewrite !parts_cons. unfold parts. rewrite flat_map_app.
  now rewrite <- !app_assoc.
Qed.
Definition member_text (kv : bytes * jv) : bytes := (34 :: fst kv ++ [34]) ++ 58 :: compact (snd kv).

Section Writes.
  Context (c : fconfig).

  Definition lead (top : pstate) : bytes := match f1 top with LvMap => [58] | _ => if f0 top =? 0 then [] else [44] end.
  (** Nothing up to this depth leaves the indentation string. *)
  Definition fits_upto (N : nat) : Prop := spaced c = true -> forall n, (1 <= n <= N)%nat -> indent_at c n < 4004 /\ indent_at c (S n) <= 4004.
  Lemma fits_le : forall N M, (M <= N)%nat -> fits_upto N -> fits_upto M.
  Proof. intros N M L H S n Hn. apply H; auto. lia. Qed.

  Lemma indent_ws : forall z, 0 <= z <= 4004 -> exists w, indent_text z = Ok w /\ ws w.
  Proof.
    intros z H. unfold indent_text. destruct (z =? 0) eqn:E0; [exists []; split; [reflexivity|constructor]|]. destruct (z <=? 4004) eqn:E; [|lia].
    eexists. split; [reflexivity|]. constructor; [right; right; now left|apply repeat_ws].
  Qed.
  Lemma indent_nonneg : forall n, 0 <= indent_at c n.
  Proof. intros n. unfold indent_at. apply Z.mod_pos_bound. reflexivity. Qed.
  Lemma suffix_ws : forall n has ch, (has = true -> indent_at c n < 4004) -> exists w, printIndentSuffix c n has ch = Ok (w ++ [ch]) /\ ws w /\ (has = false -> w = []).
  Proof.
    intros n has ch H. unfold printIndentSuffix. destruct has; [|exists []; repeat split; constructor].
    specialize (H eq_refl). destruct (indent_at c n <? 4004) eqn:E; [|lia]. assert (P := indent_nonneg n).
    destruct (indent_ws (indent_at c n)) as (w & -> & Hw); [lia|]. exists w. split; [reflexivity|]. split; [exact Hw|discriminate].
  Qed.
  Lemma key_ws : forall n has, (has = true -> indent_at c n <= 4004) -> exists w, printIndent c n has = Ok w /\ ws w /\ (has = false -> w = []).
  Proof.
    intros n has H. unfold printIndent. destruct has; [|exists []; repeat split; constructor].
    destruct (indent_ws (indent_at c n)) as (w & E & Hw); [split; [apply indent_nonneg|auto]|]. exists w. split; [exact E|]. split; [exact Hw|discriminate].
  Qed.
  Lemma sep_lead : forall top b, exists w, separator top false b = lead top ++ w /\ ws w /\ (b = false -> w = []).
  Proof.
    intros [n l b0] b. unfold separator, lead. cbn [f0 f1]. exists (if b then [32] else []).
    assert (W : ws (if b then [32] else [])) by (destruct b; repeat constructor). destruct l, (n =? 0); (split; [now destruct b|split; [exact W|now intros ->]]).
  Qed.

  Definition prints (wr : writer jstate) (o : outcome jv) (d : nat) : Prop :=
    forall top r, 0 <= f0 top -> fits_upto (List.length r + d) ->
    match o with
    | Ok j => exists out b w t, wr (top :: r) = Ok (out, mkPstate (f0 top + 1) (f1 top) b :: r) /\ Forall small out /\
                chunks_text out = lead top ++ w ++ t /\ ws w /\ spells j t /\
                (spaced c = false -> w = [] /\ t = compact j)
    | Throw => wr (top :: r) = Throw
    | _ => False
    end.
  Definition prints_elems (wr : writer jstate) (o : outcome (list jv)) (d : nat) : Prop :=
    forall n b r, 0 <= n -> fits_upto (List.length r + d) ->
    match o with
    | Ok js => exists out b' t, wr (mkPstate n LvArray b :: r) = Ok (out, mkPstate (n + Z.of_nat (List.length js)) LvArray b' :: r) /\ Forall small out /\
                 chunks_text out = t /\ elems_text (n =? 0) js t /\ (spaced c = false -> t = parts (n =? 0) (map compact js))
    | Throw => wr (mkPstate n LvArray b :: r) = Throw
    | _ => False
    end.
  Definition prints_mems (wr : writer jstate) (o : outcome (list (bytes * jv))) (d : nat) : Prop :=
    forall n b r, 0 <= n -> (1 <= List.length r)%nat -> fits_upto (List.length r + d) ->
    match o with
    | Ok l => exists out b' t, wr (mkPstate n LvMap b :: r) = Ok (out, mkPstate (n + Z.of_nat (List.length l)) LvMap b' :: r) /\ Forall small out /\
                 chunks_text out = t /\ mems_text (n =? 0) l t /\ (spaced c = false -> t = parts (n =? 0) (map member_text l))
    | Throw => wr (mkPstate n LvMap b :: r) = Throw
    | _ => False
    end.

  Lemma prints_mono : forall wr o d d', (d <= d')%nat -> prints wr o d -> prints wr o d'.
  Proof. intros wr o d d' L H top r Ht F. apply H; [exact Ht|]. eapply fits_le; [|exact F]. lia. Qed.

  Lemma value_prints : forall ch s d, small ch -> scalar_text s (chunk_bytes ch) -> prints (js_value c ch) (Ok (Scal s)) d.
  Proof.
    intros ch s d Hs Ht [n l b] r Hn _. cbn [js_value].
    set (sep := spaced c && match l with LvArray => negb (n =? 0) | LvMap => true | LvValue => false end).
    destruct (sep_lead (mkPstate n l b) sep) as (w & E & Hw & Dw). do 4 eexists. split; [reflexivity|]. split; [repeat constructor; exact Hs|].
    split; [|split; [exact Hw|split; [constructor; exact Ht|]]].
    2:{ intros Sp. split; [apply Dw; unfold sep; now rewrite Sp|]. now apply scalar_bytes_text. }
    unfold chunks_text. cbn [flat_map chunk_bytes]. rewrite E, app_nil_r, <- app_assoc. reflexivity.
  Qed.
  Lemma fail_prints : forall d, prints (w_fail Throw) Throw d.
  Proof. intros d top r _ _. reflexivity. Qed.

  Lemma elems_nil : forall d, prints_elems w_nothing (Ok []) d.
  Proof. intros d n b r _ _. exists [], b, []. cbn [List.length]. rewrite Z.add_0_r. repeat split; try constructor. intros _. now destruct (n =? 0). Qed.
  Lemma elems_cons : forall a oa wr os d, prints a oa d -> prints_elems wr os d ->
    prints_elems (w_then a wr) (do j <- oa; do js <- os; Ok (j :: js)) d.
  Proof.
    intros a oa wr os d Ha Hs n b r Hn F. specialize (Ha (mkPstate n LvArray b) r Hn F). unfold w_then.
    destruct oa as [j| | |]; try contradiction; cbn [bind].
    2:{ now rewrite Ha. }
    destruct Ha as (out & b1 & w & t & E & Sm & Ct & Hw & Sp & Cm). cbn [f0 f1] in E. specialize (Hs (n + 1) b1 r ltac:(lia) F).
    rewrite E. cbn [bind]. destruct os as [js| | |]; try contradiction; cbn [bind].
    2:{ now rewrite Hs. }
    destruct Hs as (out2 & b2 & t2 & E2 & Sm2 & Ct2 & El & Cs). rewrite E2. cbn [bind]. do 3 eexists. split; [|split; [|split; [reflexivity|split]]].
    - replace (n + Z.of_nat (List.length (j :: js))) with (n + 1 + Z.of_nat (List.length js)) by (cbn [List.length]; lia). reflexivity.
    - apply Forall_app. auto.
    - rewrite chunks_app, Ct, Ct2. unfold lead. cbn [f0 f1]. rewrite <- !app_assoc. replace (n + 1 =? 0) with false in El by lia.
      assert (Q := et_cons (n =? 0) j js w t t2 Hw Sp El). unfold comma in Q. destruct (n =? 0); exact Q.
    - intros Sd. destruct (Cm Sd) as [-> ->]. rewrite chunks_app, Ct, Ct2, (Cs Sd). cbn [map]. rewrite parts_cons. replace (n + 1 =? 0) with false by lia.
      unfold lead, comma. cbn [f0 f1]. rewrite <- !app_assoc. now destruct (n =? 0).
  Qed.
  Lemma array_prints : forall size wr o d, prints_elems wr o d ->
    prints (array_block (json_printer c) size wr) (do js <- o; Ok (Arr js)) (S d).
  Proof.
    intros size wr o d H top r Ht F. unfold array_block, sized. cbn [json_printer pr_usesSize pr_openArray pr_closeArray bind].
    unfold w_then, js_open. cbn [bind]. destruct (suffix_ws (List.length (top :: r)) (spaced c) 91) as (w & -> & Hw & Dw).
    { intros S. apply (F S). cbn [List.length]. lia. }
    cbn [bind put]. specialize (H 0 false (top :: r) ltac:(lia)). assert (F' : fits_upto (List.length (top :: r) + d)).
    { eapply fits_le; [|exact F]. cbn [List.length]. lia. }
    specialize (H F'). destruct o as [js| | |]; try contradiction; cbn [bind].
    2:{ now rewrite H. }
    destruct H as (out & b' & t & E & Sm & Ct & El & Cm). rewrite E. cbn [bind]. destruct top as [n l b]. cbn [js_closeArray].
    destruct (suffix_ws (S (List.length r)) (spaced c && negb b') 93) as (w2 & -> & Hw2 & Dw2).
    { intros S. apply andb_prop in S as [S _]. apply (F S). lia. }
    cbn [bind put]. destruct (sep_lead (mkPstate n l b) false) as (w0 & E0 & Hw0 & Dw0).
    do 2 eexists. exists (w0 ++ w), (91 :: t ++ w2 ++ [93]). split; [reflexivity|]. split; [|split; [|split; [|split]]].
    - constructor; [exact I|]. apply Forall_app. split; [exact Sm|repeat constructor].
    - cbn [app]. unfold chunks_text at 1. cbn [flat_map chunk_bytes]. fold (chunks_text (out ++ [Wr (w2 ++ [93])])). rewrite chunks_app, Ct, E0.
      cbn [chunks_text flat_map chunk_bytes]. repeat (rewrite <- ?app_assoc; cbn [app]). reflexivity.
    - apply Forall_app. auto.
    - apply array_spell; assumption.
    - intros Sd. rewrite (Dw Sd), (Dw0 eq_refl), (Cm Sd), Dw2; [split; reflexivity|now rewrite Sd].
  Qed.

  Lemma mems_nil : forall d, prints_mems w_nothing (Ok []) d.
  Proof. intros d n b r _ _ _. exists [], b, []. cbn [List.length]. rewrite Z.add_0_r. repeat split; try constructor. intros _. now destruct (n =? 0). Qed.
  Lemma mems_one : forall k a oa d, legal_string k -> prints a oa d ->
    prints_mems (w_then (pr_key (json_printer c) k) a) (do j <- oa; Ok [(k, j)]) d.
  Proof.
    intros k a oa d Hk Ha n b r Hn Hr F. unfold w_then. cbn [json_printer pr_key js_key f1].
    destruct (key_ws (List.length (mkPstate n LvMap b :: r)) (spaced c)) as (w & -> & Hw & Dw).
    { intros S. cbn [List.length]. apply (F S). lia. }
    cbn [bind put]. specialize (Ha (mkPstate n LvMap b) r Hn F). destruct oa as [j| | |]; try contradiction; cbn [bind].
    2:{ now rewrite Ha. }
    destruct Ha as (out & b1 & w2 & t & E & Sm & Ct & Hw2 & Sp & Cm). cbn [f0 f1] in E. rewrite E. cbn [bind]. do 3 eexists.
    split; [reflexivity|]. split; [constructor; [exact I|exact Sm]|]. split; [reflexivity|]. split.
    2:{ intros Sd. destruct (Cm Sd) as [-> ->]. rewrite (Dw Sd). cbn [app chunks_text flat_map chunk_bytes]. fold (chunks_text out). rewrite Ct. cbn [map]. rewrite parts_cons.
        unfold separator, lead, comma, member_text. cbn [f0 f1 fst snd parts flat_map]. destruct (n =? 0); repeat (rewrite <- ?app_assoc; cbn [app]); rewrite ?app_nil_r; reflexivity. }
    cbn [app chunks_text flat_map chunk_bytes]. fold (chunks_text out). rewrite Ct. unfold separator, lead. cbn [f0 f1].
    assert (Q := mt_cons (n =? 0) k j [] w w2 t [] Hw Hw2 Hk Sp (mt_nil false)). unfold comma in Q. rewrite app_nil_r in Q.
    destruct (n =? 0); repeat (rewrite <- ?app_assoc in *; cbn [app] in *); exact Q.
  Qed.
  Lemma mems_app : forall a oa wr os d, prints_mems a oa d -> prints_mems wr os d ->
    prints_mems (w_then a wr) (do l1 <- oa; do l2 <- os; Ok (l1 ++ l2)) d.
  Proof.
    intros a oa wr os d Ha Hs n b r Hn Hr F. specialize (Ha n b r Hn Hr F). unfold w_then.
    destruct oa as [l1| | |]; try contradiction; cbn [bind].
    2:{ now rewrite Ha. }
    destruct Ha as (out & b1 & t & E & Sm & Ct & El & Cm). specialize (Hs (n + Z.of_nat (List.length l1)) b1 r ltac:(lia) Hr F).
    rewrite E. cbn [bind]. destruct os as [l2| | |]; try contradiction; cbn [bind].
    2:{ now rewrite Hs. }
    destruct Hs as (out2 & b2 & t2 & E2 & Sm2 & Ct2 & El2 & Cm2). rewrite E2. cbn [bind]. do 3 eexists. split; [|split; [|split; [reflexivity|split]]].
    - replace (n + Z.of_nat (List.length (l1 ++ l2))) with (n + Z.of_nat (List.length l1) + Z.of_nat (List.length l2)) by (rewrite app_length; lia). reflexivity.
    - apply Forall_app. auto.
    - rewrite chunks_app, Ct, Ct2. apply mems_text_app; [exact El|].
      replace ((n =? 0) && match l1 with [] => true | _ => false end) with (n + Z.of_nat (List.length l1) =? 0); [exact El2|].
      destruct l1; cbn [List.length]; lia.
    - intros Sd. rewrite chunks_app, Ct, Ct2, (Cm Sd), (Cm2 Sd), map_app, parts_app. do 2 f_equal. destruct l1; cbn [List.length map]; lia.
  Qed.
  Lemma mems_mono : forall wr o d d', (d <= d')%nat -> prints_mems wr o d -> prints_mems wr o d'.
  Proof. intros wr o d d' L H n b r Hn Hr F. apply H; auto. eapply fits_le; [|exact F]. lia. Qed.
  Lemma map_prints : forall size wr o d, prints_mems wr o d ->
    prints (map_block (json_printer c) size wr) (do l <- o; Ok (Obj l)) (S d).
  Proof.
    intros size wr o d H top r Ht F. unfold map_block, sized. cbn [json_printer pr_usesSize pr_openMap pr_closeMap bind].
    unfold w_then, js_open. cbn [bind]. destruct (suffix_ws (List.length (top :: r)) (spaced c) 123) as (w & -> & Hw & Dw).
    { intros S. apply (F S). cbn [List.length]. lia. }
    cbn [bind put]. specialize (H 0 false (top :: r) ltac:(lia) ltac:(cbn [List.length]; lia)). assert (F' : fits_upto (List.length (top :: r) + d)).
    { eapply fits_le; [|exact F]. cbn [List.length]. lia. }
    specialize (H F'). destruct o as [js| | |]; try contradiction; cbn [bind].
    2:{ now rewrite H. }
    destruct H as (out & b' & t & E & Sm & Ct & El & Cm). rewrite E. cbn [bind]. destruct top as [n l b]. cbn [js_closeMap].
    destruct (suffix_ws (S (List.length r)) (spaced c) 125) as (w2 & -> & Hw2 & Dw2).
    { intros S. apply (F S). lia. }
    cbn [bind put]. destruct (sep_lead (mkPstate n l b) false) as (w0 & E0 & Hw0 & Dw0).
    do 2 eexists. exists (w0 ++ w), (123 :: t ++ w2 ++ [125]). split; [reflexivity|]. split; [|split; [|split; [|split]]].
    - constructor; [exact I|]. apply Forall_app. split; [exact Sm|repeat constructor].
    - cbn [app]. unfold chunks_text at 1. cbn [flat_map chunk_bytes]. fold (chunks_text (out ++ [Wr (w2 ++ [125])])). rewrite chunks_app, Ct, E0.
      cbn [chunks_text flat_map chunk_bytes]. repeat (rewrite <- ?app_assoc; cbn [app]). reflexivity.
    - apply Forall_app. auto.
    - apply object_spell; assumption.
    - intros Sd. rewrite (Dw Sd), (Dw0 eq_refl), (Cm Sd), Dw2; [split; reflexivity|exact Sd].
  Qed.
End Writes.
