(** float and double in YAML. *)
From Coq Require Import ZArith QArith Qabs Qpower String List Bool Lia ZifyBool.
From Verif Require Import Model.Base Model.Source Model.Number Model.Types Model.Printer Model.JsonPrinter Model.Serializer Model.Exporter Model.Importer Model.Float Model.Yaml Model.YamlPrinter Model.YamlFloat
  Spec.JsonString Spec.Json Spec.Typed Spec.Import Spec.Denotes Spec.Yaml Spec.YamlOut Spec.Float Spec.YamlFloat
  Proofs.Induct Proofs.LexP Proofs.NumberP Proofs.JsonPartP Proofs.PrintP Proofs.TreeM Proofs.DenotesP Proofs.AlikeP Proofs.FloatP Proofs.FloatReadP Proofs.FloatValP Proofs.FloatTextP Proofs.FloatExportP
  Proofs.YamlP Proofs.YamlSim Proofs.YamlOutP Proofs.YamlDocP Proofs.YamlReadP.
Import ListNotations.
Open Scope Z_scope.

(** ** Reading *)
Lemma no_hex : forall f s, match s with 48 :: x :: _ => lower x <> 120 | _ => True end -> scan_hex f s = None.
Proof.
  intros f s H. unfold scan_hex. destruct s as [|c s]; [reflexivity|]. destruct (Z.eq_dec c 48) as [->|N].
  - destruct s as [|x s]; [reflexivity|]. assert (E : (lower x =? 120) = false) by lia. now rewrite E.
  - destruct c as [|p|p]; try reflexivity. repeat (destruct p as [p|p|]; try reflexivity). now contradiction N.
Qed.
Definition signed_text (sg : bytes) (neg : bool) : Prop := sg = dash neg \/ sg = [43] /\ neg = false.
Lemma strtod_parts : forall f b sg neg i fr fd e x, blank b -> signed_text sg neg -> int_part i -> fraction_of fr fd -> exponent_of e x ->
  strtod f (b ++ sg ++ i ++ fr ++ e) = (fl_make f neg (Z.min (fl_inf f) (fl_decimal f (digits_value 0 (i ++ fd)) (x - Z.of_nat (List.length fd)))), List.length (b ++ sg ++ i ++ fr ++ e)).
Proof.
  intros f b sg neg i fr fd e x B Sg Hi Hf He.
  assert (M := mantissa i fr fd e x [] Hi Hf He (or_introl eq_refl)). rewrite app_nil_r in M.
  destruct (head_digit i fr fd e x neg Hi (fr ++ e)) as (d & r & Ed & E45 & E43).
  assert (Hd : digit d) by (destruct (int_part_cons i Hi) as (d' & r' & -> & Hd); cbn in Ed; injection Ed as <- _; exact Hd).
  unfold strtod. rewrite blank_skip; [|exact B|destruct Sg as [->|[-> _]]; [destruct neg|]; cbn [dash app]; try reflexivity; rewrite Ed; unfold is_space, digit in *; lia].
  assert (P : match sg ++ i ++ fr ++ e with c :: r => if c =? 45 then (true, 1%nat, r) else if c =? 43 then (false, 1%nat, r) else (false, O, sg ++ i ++ fr ++ e) | [] => (false, O, sg ++ i ++ fr ++ e) end
    = (neg, List.length sg, i ++ fr ++ e)).
  { destruct Sg as [->|[-> ->]]; [destruct neg; cbn [dash app]|]; try reflexivity. rewrite Ed, E45, E43. reflexivity. }
  unfold bytes in *. rewrite P. cbv zeta. rewrite no_hex.
  2:{ destruct Hi as [|d' l Hd' Hl].
      - cbn [app]. destruct Hf as [|l Hl]; [|cbn; unfold lower; lia]. cbn [app]. destruct He; cbn; unfold lower; try lia. all: destruct H; subst; cbn; lia.
      - cbn [app]. destruct (Z.eq_dec d' 48) as [E|N]; [unfold digit in *; lia|]. destruct d' as [|p|p]; try exact Logic.I. repeat (destruct p as [p|p|]; try exact Logic.I). now contradiction N. }
  rewrite M, (some_digit i fr fd e neg Hi), (dec_m i fd).
  assert (X : match scan_exponent e with Some (eneg, ds, n) => if Nat.eqb (List.length ds) 0 then (0, O) else (exp_value eneg ds, n) | None => (0, O) end = (x, List.length e)).
  { destruct (list_eq_dec Z.eq_dec e []) as [E|Ne].
    - subst e. cbn. inversion He. reflexivity.
    - destruct (scan_exponent_some e x [] He (or_introl eq_refl) Ne) as (eneg & ds & S & Nd & V). rewrite app_nil_r in S. rewrite S. destruct ds; [congruence|]. cbn [List.length Nat.eqb]. now rewrite V. }
  unfold bytes in *. rewrite X. f_equal. rewrite !app_length. lia.
Qed.
Lemma strtod_number : forall f b sg t z, blank b -> denotes_float f t z -> sg = [] \/ sg = [43] /\ hd 0 t <> 45 -> strtod f (b ++ sg ++ t) = (z, List.length (b ++ sg ++ t)).
Proof.
  intros f b sg t z B D Sg. assert (R := denotes_read StrIn f t z D). destruct D as (q & D & _). assert (N := decimal_number t q D).
  destruct (flt_text_parts StrIn f t N) as (i & fr & fd & e & x & Hi & Hf & He & Et & Er & _). rewrite R in Er. unfold read_string in Er.
  destruct (_ || _) eqn:Rg in Er; [discriminate Er|]. injection Er as Er. apply orb_false_iff in Rg as [Rg _].
  assert (G := strtod_parts f b (sg ++ dash (sign_of t)) (sign_of t) i fr fd e x B). rewrite <- app_assoc, <- Et in G. rewrite G; [|  |exact Hi|exact Hf|exact He].
  - f_equal. rewrite Er. f_equal. lia.
  - destruct Sg as [->|[-> H]]; [left; reflexivity|]. right. unfold sign_of. destruct (hd 0 t =? 45) eqn:E; [lia|]. split; reflexivity.
Qed.
(** ** Hexadecimal numbers *)
Lemma hex_value_of : forall c d, hex_digit c d -> hex_value c = Some d.
Proof.
  intros c d H. unfold hex_value, is_digit, lower. destruct H as [d H|d H|d H].
  - assert (E : (48 <=? 48 + d) && (48 + d <=? 57) = true) by lia. rewrite E. f_equal. lia.
  - assert (E : (48 <=? 65 + (d - 10)) && (65 + (d - 10) <=? 57) = false) by lia. assert (E1 : (65 <=? 65 + (d - 10)) && (65 + (d - 10) <=? 90) = true) by lia. rewrite E, E1.
    assert (E2 : (97 <=? 65 + (d - 10) + 32) && (65 + (d - 10) + 32 <=? 102) = true) by lia. rewrite E2. f_equal. lia.
  - assert (E : (48 <=? 97 + (d - 10)) && (97 + (d - 10) <=? 57) = false) by lia. assert (E1 : (65 <=? 97 + (d - 10)) && (97 + (d - 10) <=? 90) = false) by lia. rewrite E, E1.
    assert (E2 : (97 <=? 97 + (d - 10)) && (97 + (d - 10) <=? 102) = true) by lia. rewrite E2. f_equal. lia.
Qed.
Lemma hex_values : forall l a m, hex_digits a l m -> exists ds, Forall2 hex_digit l ds /\ fold_left (fun a d => 16 * a + d) ds a = m.
Proof. intros l a m H. induction H as [a|a c d l m Hd H (ds & F & E)]; [exists []; split; [constructor|reflexivity]|]. exists (d :: ds). split; [now constructor|exact E]. Qed.
Lemma span_hex_app : forall l ds r, Forall2 hex_digit l ds -> match r with c :: _ => hex_value c = None | [] => True end -> span_hex (l ++ r) = (ds, r).
Proof.
  intros l ds r H N. induction H as [|c d l ds Hd H IH]; cbn [app].
  - destruct r as [|c r]; [reflexivity|]. cbn [span_hex]. now rewrite N.
  - cbn [span_hex]. now rewrite (hex_value_of c d Hd), IH.
Qed.
Lemma hex_nonneg : forall l a m, hex_digits a l m -> 0 <= a -> 0 <= m.
Proof. intros l a m H. induction H as [a|a c d l m Hd H IH]; intro N; [exact N|]. apply IH. destruct Hd; lia. Qed.
Lemma hex_exp_scan : forall e y, hex_exponent e y ->
  match e with
  | p :: r => if lower p =? 112 then
      let '(neg, k, r) := match r with 45 :: r => (true, 2%nat, r) | 43 :: r => (false, 2%nat, r) | _ => (false, 1%nat, r) end in
      let '(ds, _) := span_digits r in if Nat.eqb (List.length ds) 0 then (0, O) else (exp_value neg ds, (k + List.length ds)%nat)
    else (0, O)
  | [] => (0, O)
  end = (y, List.length e) /\ match e with c :: _ => hex_value c = None /\ c <> 46 | [] => True end.
Proof.
  intros e y H. destruct H as [|p l Hp [Hn Hl]|p l Hp [Hn Hl]|p l Hp [Hn Hl]]; [split; reflexivity| | |].
  all: assert (Lp : lower p =? 112 = true) by (destruct Hp as [-> | ->]; reflexivity); assert (Hv : hex_value p = None /\ p <> 46) by (destruct Hp as [-> | ->]; split; try reflexivity; lia).
  all: assert (Nz : Nat.eqb (List.length l) 0 = false) by (destruct l; [congruence|reflexivity]).
  all: split; [|exact Hv]; rewrite Lp.
  - assert (E : match l with 45 :: r => (true, 2%nat, r) | 43 :: r => (false, 2%nat, r) | _ => (false, 1%nat, l) end = (false, 1%nat, l)).
    { destruct l as [|d l]; [reflexivity|]. inversion Hl as [|? ? Hd _]; subst. destruct d as [|d|d]; try reflexivity. unfold digit in Hd. repeat (destruct d as [d|d|]; try reflexivity; try lia). }
    unfold bytes in *. rewrite E, (span_all l Hl), Nz. unfold exp_value. now rewrite dec_value_digits.
  - rewrite (span_all l Hl), Nz. unfold exp_value. now rewrite dec_value_digits.
  - rewrite (span_all l Hl), Nz. unfold exp_value. now rewrite dec_value_digits.
Qed.
Lemma both_long : forall A B (R : A -> B -> Prop) l m, Forall2 R l m -> List.length l = List.length m.
Proof. intros A B R l m H. induction H; cbn; congruence. Qed.
Lemma scan_hexadecimal : forall f t q, hexadecimal t q -> exists m e, 0 <= m /\ q = (inject_Z m * Qpower 2 e)%Q /\
  scan_hex f t = Some (Z.min (fl_inf f) (fl_round f (m * 2 ^ Z.max 0 e * 2 ^ fl_unit f) (2 ^ Z.max 0 (- e))), List.length t).
Proof.
  intros f t q H. destruct H as [x i fr fd e y m Hx Hf Hn Hd He]. exists m, (y - 4 * Z.of_nat (List.length fd)). split; [now apply (hex_nonneg _ _ _ Hd)|]. split; [reflexivity|].
  destruct (hex_values _ _ _ Hd) as (ds & F & Em). apply Forall2_app_inv_l in F as (d1 & d2 & F1 & F2 & ->). destruct (hex_exp_scan e y He) as [Es Eh].
  assert (L1 := both_long _ _ _ _ _ F1). assert (L2 := both_long _ _ _ _ _ F2).
  unfold scan_hex. assert (Lx : lower x =? 120 = true) by (destruct Hx as [-> | ->]; reflexivity). rewrite Lx.
  assert (S1 : span_hex (i ++ fr ++ e) = (d1, fr ++ e)).
  { apply span_hex_app; [exact F1|]. destruct Hf as [[-> _]| ->]; [|reflexivity]. cbn [app]. destruct e; [exact Logic.I|exact (proj1 Eh)]. }
  unfold bytes in *. rewrite S1.
  assert (S2 : match fr ++ e with 46 :: r => let '(d, q) := span_hex r in (d, Datatypes.S (List.length d), q) | _ => ([], O, fr ++ e) end = (d2, List.length fr, e)).
  { destruct Hf as [[-> ->]| ->].
    - inversion F2; subst. cbn [app List.length]. destruct e as [|c e]; [reflexivity|]. destruct Eh as [_ Nc]. destruct c as [|c|c]; try reflexivity. repeat (destruct c as [c|c|]; try reflexivity). now contradiction Nc.
    - cbn [app]. rewrite (span_hex_app fd d2 e F2); [cbn [List.length]; now rewrite L2|]. destruct e; [exact Logic.I|exact (proj1 Eh)]. }
  unfold bytes in *. rewrite S2.
  assert (Nz : Nat.eqb (List.length (d1 ++ d2)) 0 = false) by (rewrite app_length, <- L1, <- L2, <- app_length; destruct (i ++ fd); [congruence|reflexivity]).
  rewrite Nz, Es. cbv zeta. unfold hex_number. rewrite Em, <- L1, <- L2. f_equal. f_equal. cbn [List.length]. rewrite !app_length. lia.
Qed.
Lemma binary_scaled : forall f m e, 0 <= m -> let num := m * 2 ^ Z.max 0 e * 2 ^ fl_unit f in let den := 2 ^ Z.max 0 (- e) in
  0 <= num /\ 0 < den /\ forall s, ((if s : bool then - (inject_Z m * Qpower 2 e) else inject_Z m * Qpower 2 e) * inject_Z den == inject_Z (signed s num) * ulp0 f)%Q.
Proof.
  intros f m e Hm. cbv zeta. assert (P1 : 0 < 2 ^ Z.max 0 e) by (apply pow_pos; lia). assert (P2 : 0 < 2 ^ Z.max 0 (- e)) by (apply pow_pos; lia).
  assert (P3 : 0 < 2 ^ fl_unit f) by (destruct f; reflexivity). split; [nia|]. split; [exact P2|].
  assert (E : (inject_Z m * Qpower 2 e * inject_Z (2 ^ Z.max 0 (- e)) == inject_Z (m * 2 ^ Z.max 0 e * 2 ^ fl_unit f) * ulp0 f)%Q).
  { rewrite !inject_Z_mult, !Zpower_Qpower by (destruct f; cbn; lia). unfold ulp0. change (inject_Z 2) with 2%Q.
    assert (T : (2 ^ Z.max 0 e == 2 ^ e * 2 ^ Z.max 0 (- e))%Q) by (rewrite <- Qpower_plus by discriminate; replace (e + Z.max 0 (- e)) with (Z.max 0 e) by lia; reflexivity).
    assert (U : (2 ^ fl_unit f * 2 ^ (- fl_unit f) == 1)%Q) by (rewrite <- Qpower_plus by discriminate; rewrite Z.add_opp_diag_r; reflexivity).
    rewrite T. transitivity (inject_Z m * 2 ^ e * 2 ^ Z.max 0 (- e) * (2 ^ fl_unit f * 2 ^ (- fl_unit f)))%Q; [rewrite U; ring|ring]. }
  intros []; cbn [signed]; [|exact E]. rewrite inject_Z_opp. transitivity (- (inject_Z m * Qpower 2 e * inject_Z (2 ^ Z.max 0 (- e))))%Q; [ring|]. rewrite E. ring.
Qed.
Lemma strtod_hexadecimal : forall f b sg neg t q z, blank b -> signed_text sg neg -> hexadecimal t q ->
  let x := if neg then (- q)%Q else q in in_range f x -> nearest f x z -> negative f z = neg -> strtod f (b ++ sg ++ t) = (z, List.length (b ++ sg ++ t)).
Proof.
  intros f b sg neg t q z B Sg H x R N Ng. destruct (scan_hexadecimal f t q H) as (m & e & Hm & Eq & S).
  assert (Ht : exists r, t = 48 :: r) by (destruct H; eexists; reflexivity). destruct Ht as (r & Et).
  destruct (binary_scaled f m e Hm) as (Hn & Hd & Hx). specialize (Hx neg).
  assert (Ex : x = (if neg then - (inject_Z m * Qpower 2 e) else inject_Z m * Qpower 2 e)%Q) by (unfold x; rewrite Eq; reflexivity). rewrite <- Ex in Hx. clearbody x.
  destruct (round_in_range f x neg _ _ Hn Hd Hx R) as [La _]. rewrite negative_neg in Ng by apply N. assert (Q := nearest_round f x neg _ _ z Hn Hd Hx La N Ng).
  unfold strtod. rewrite blank_skip; [|exact B|destruct Sg as [->|[-> _]]; [destruct neg|]; subst t; reflexivity].
  assert (P : match sg ++ t with c :: r => if c =? 45 then (true, 1%nat, r) else if c =? 43 then (false, 1%nat, r) else (false, O, sg ++ t) | [] => (false, O, sg ++ t) end = (neg, List.length sg, t)).
  { destruct Sg as [->|[-> ->]]; [destruct neg; cbn [dash app]|]; subst t; reflexivity. }
  unfold bytes in *. rewrite P. cbv zeta. rewrite S. rewrite Q. f_equal; [f_equal; lia|]. rewrite !app_length. lia.
Qed.
Lemma hexadecimal_nearest : forall f t q neg, hexadecimal t q -> let x := if neg : bool then (- q)%Q else q in in_range f x -> exists z, nearest f x z /\ negative f z = neg.
Proof.
  intros f t q neg H x R. destruct (scan_hexadecimal f t q H) as (m & e & Hm & Eq & _). destruct (binary_scaled f m e Hm) as (Hn & Hd & Hx). specialize (Hx neg).
  assert (Ex : x = (if neg then - (inject_Z m * Qpower 2 e) else inject_Z m * Qpower 2 e)%Q) by (unfold x; rewrite Eq; reflexivity). rewrite <- Ex in Hx. clearbody x.
  destruct (round_in_range f x neg _ _ Hn Hd Hx R) as [La _]. assert (N := round_nearest f x neg _ _ Hn Hd Hx La). eexists. split; [exact N|]. rewrite negative_neg by apply N.
  assert (Na := fl_round_nonneg f _ _ Hn Hd). assert (Il := inf_lt f). rewrite make_neg by lia. reflexivity.
Qed.
(** ** Infinities and NaNs *)
Ltac bits := unfold pattern, fl_nan, fl_finite, fl_exp, fl_frac, fl_abs, fl_inf, fl_make, fl_neg in *; cbn [frac_bits exp_bits fl_bits fl_man fl_emax] in *;
  change (2 ^ 23) with 8388608 in *; change (2 ^ 8) with 256 in *; change (2 ^ (32 - 1)) with 2147483648 in *; change (2 ^ (1 + 8 + 23)) with 4294967296 in *; change (2 ^ (23 - 1)) with 4194304 in *;
  change (2 ^ 52) with 4503599627370496 in *; change (2 ^ 11) with 2048 in *; change (2 ^ (64 - 1)) with 9223372036854775808 in *; change (2 ^ (1 + 11 + 52)) with 18446744073709551616 in *;
  change (2 ^ (52 - 1)) with 2251799813685248 in *.
Lemma no_value : forall f b, pattern f b -> float_value f b = None -> fl_finite f b = false /\ fl_abs f b = fl_inf f + b mod 2 ^ frac_bits f.
Proof.
  intros f b P H. unfold float_value in H. destruct f; bits; destruct (_ =? _) eqn:E in H; try discriminate H; clear H; apply Z.eqb_eq in E; (split; [apply Z.ltb_ge|]); Z.div_mod_to_equations; lia.
Qed.
Lemma no_value_of : forall f b, pattern f b -> fl_finite f b = false -> float_value f b = None.
Proof.
  intros f b P H. unfold float_value. destruct f; bits; destruct (_ =? _) eqn:E; try reflexivity; exfalso; apply Z.eqb_neq in E; apply Z.ltb_ge in H; Z.div_mod_to_equations; lia.
Qed.
Lemma sign_abs : forall f b, pattern f b -> b = fl_make f (fl_neg f b) (fl_abs f b).
Proof. intros f b P. destruct f; bits; destruct (_ <=? b) eqn:E; Z.div_mod_to_equations; lia. Qed.
Lemma make_pattern : forall f neg a, 0 <= a < 2 ^ (fl_bits f - 1) -> pattern f (fl_make f neg a) /\ negative f (fl_make f neg a) = neg /\ fl_abs f (fl_make f neg a) = a /\
  fl_make f neg a mod 2 ^ frac_bits f = a mod 2 ^ frac_bits f.
Proof.
  intros f neg a H. assert (P : pattern f (fl_make f neg a)) by (destruct f, neg; bits; lia). split; [exact P|]. rewrite (negative_neg f _ P).
  destruct f, neg; bits; repeat split; try lia; Z.div_mod_to_equations; lia.
Qed.
Lemma infinite_pattern : forall f z, infinite f z -> z = fl_make f (negative f z) (fl_inf f).
Proof. intros f z (P & V & M). destruct (no_value f z P V) as [_ A]. rewrite M, Z.add_0_r in A. rewrite <- A, (negative_neg f z P). now apply sign_abs. Qed.
Lemma quiet_pattern : forall f z, quiet f z -> z = fl_make f (negative f z) (fl_nan f).
Proof.
  intros f z (P & V & M). destruct (no_value f z P V) as [_ A]. rewrite M in A. unfold fl_nan. replace (fl_man f) with (frac_bits f) by (destruct f; reflexivity). rewrite <- A, (negative_neg f z P). now apply sign_abs.
Qed.

(** ** What is read *)
Theorem float_read : forall i z a, fits i z -> float_scalar i z a -> yflt_int i a = Ok z /\ text_null a = false.
Proof.
  intros i z a F H. unfold float_scalar in H. destruct (flt_of i) as [f|] eqn:Ef.
  - assert (G : strtod f a = (z, List.length a)).
    { destruct H as [b t z B D|b t z B D N|b sg t q z B Sg D R N Ng|b t q z B D R N Ng|z I|z Q].
      - exact (strtod_number f b [] t z B D (or_introl eq_refl)).
      - exact (strtod_number f b [43] t z B D (or_intror (conj eq_refl N))).
      - apply (strtod_hexadecimal f b sg false t q z B); try assumption. destruct Sg as [->| ->]; [now left|now right].
      - apply (strtod_hexadecimal f b [45] true t q z B); try assumption. now left.
      - rewrite (infinite_pattern f z I) at 2. destruct (negative f z), f; reflexivity.
      - rewrite (quiet_pattern f z Q) at 2. destruct (negative f z), f; reflexivity. }
    assert (E : yflt_int i a = Ok z) by (unfold yflt_int; now rewrite Ef, G, Nat.eqb_refl). split; [exact E|].
    destruct (text_null a) eqn:N; [|reflexivity]. exfalso. unfold text_null in N. apply orb_true_iff in N as [N|N]; apply beq_eq in N; subst a; destruct f; discriminate G.
  - split; [unfold yflt_int; rewrite Ef; now apply yaml_int_fits|]. destruct (text_null a) eqn:N; [|reflexivity]. assert (E := yaml_int_spec IInt a z H). unfold text_null in N.
    apply orb_true_iff in N as [N|N]; apply beq_eq in N; subst a; discriminate E.
Qed.

(** ** What is written *)
Lemma zero_written : forall f b, pattern f b -> fl_zero f b = true -> denotes_float f (dash (fl_neg f b) ++ bs "0") b.
Proof.
  intros f b P Z. assert (Zm := proj1 (zero_mag f b) Z). assert (Up := unit_pos f).
  assert (F : fl_finite f b = true). { unfold fl_zero in Z. apply Z.eqb_eq in Z. apply finite_abs. rewrite Z. destruct f; reflexivity. }
  destruct (reread f b (dash (fl_neg f b) ++ bs "0") 0 0 P F ltac:(lia) (spelled_sum (fl_neg f b) [48] [] [] 0 ip_zero ltac:(constructor) xo_none)) as (b' & v & v' & D & _ & _ & Ev & _ & _ & _ & Ex).
  - rewrite Zm. change (10 ^ Z.max 0 0) with 1. lia.
  - now left.
  - rewrite Zm in Ex. rewrite (Ex ltac:(lia)) in D. exact D.
Qed.
Theorem float_written : forall i z, is_pattern i z -> exists z', near_scalar i z z' /\ float_scalar i z' (yflt_text i z).
Proof.
  intros i z P. unfold is_pattern, near_scalar, float_scalar, yflt_text in *. destruct (flt_of i) as [f|]; [|exists z; split; [reflexivity|apply yaml_dec]].
  destruct (float_value f z) as [v|] eqn:V.
  - destruct (value_finite f z v P V) as [F _]. destruct (fl_zero f z) eqn:Zz.
    + exists z. split; [left; exact (near_same ToStream f z v P V)|]. apply (yf_number f []); [constructor|]. now apply zero_written.
    + destruct (general_reread f z P F Zz) as (b' & D & _ & N). exists b'. split; [now left|]. apply (yf_number f []); [constructor|exact D].
  - destruct (no_value f z P V) as [F A]. assert (Zz : fl_zero f z = false) by (unfold fl_zero; rewrite A; assert (M := Z.mod_pos_bound z (2 ^ frac_bits f) ltac:(destruct f; reflexivity)); destruct f; bits; lia).
    rewrite Zz. unfold general_text. rewrite F. unfold special_text. rewrite <- (negative_neg f z P).
    destruct (Z.eq_dec (z mod 2 ^ frac_bits f) 0) as [M|M].
    + exists z. assert (I : infinite f z) by (split; [exact P|auto]). split; [right; left; auto|]. rewrite A, M, Z.add_0_r, Z.eqb_refl. assert (Y := yf_infinity f z I). destruct (negative f z); exact Y.
    + assert (N : (fl_abs f z =? fl_inf f) = false) by lia. rewrite N. exists (fl_make f (negative f z) (fl_nan f)).
      destruct (make_pattern f (negative f z) (fl_nan f)) as (P' & S' & A' & M'); [destruct f; bits; lia|].
      assert (V' : float_value f (fl_make f (negative f z) (fl_nan f)) = None).
      { apply no_value_of; [exact P'|]. destruct (fl_finite f (fl_make f (negative f z) (fl_nan f))) eqn:E; [|reflexivity]. apply finite_abs in E. rewrite A' in E. destruct f; bits; lia. }
      assert (Mq : fl_nan f mod 2 ^ frac_bits f = 2 ^ (frac_bits f - 1)) by (destruct f; reflexivity). rewrite Mq in M'.
      split; [right; right; split; [split; auto|split; [split; [exact P'|]; split; [exact V'|rewrite M'; destruct f; discriminate]|exact S']]|].
      assert (Y := yf_nan f _ (conj P' (conj V' M'))). rewrite S' in Y. destruct (negative f z); exact Y.
Qed.
(** Numbers are ASCII text. *)
Lemma dec_ascii : forall n, 0 <= n -> Forall (fun c => c < 128) (nat_dec n).
Proof. intros n H. destruct (nat_dec_spec n H) as (I & _). apply int_part_digits in I as [_ I]. eapply Forall_impl; [|exact I]. unfold digit. intros; lia. Qed.
Lemma strip0_sub : forall (P : Z -> Prop) l, Forall P l -> Forall P (strip0 l).
Proof. intros P l F. induction F as [|c l H F IH]; [constructor|]. cbn [strip0]. destruct (strip0 l); [destruct (c =? 48); repeat constructor; exact H|constructor; assumption]. Qed.
Lemma dot_ascii : forall l, Forall (fun c => c < 128) l -> Forall (fun c => c < 128) (dot (strip0 l)).
Proof. intros l F. apply strip0_sub in F. unfold dot. destruct (strip0 l); [constructor|]. constructor; [lia|exact F]. Qed.
Lemma padded_ascii : forall p n, Forall (fun c => c < 128) (padded p n).
Proof. induction p as [|p IH]; intro n; cbn [padded]; [constructor|]. apply Forall_app. split; [apply IH|]. constructor; [|constructor]. assert (M := Z.mod_pos_bound n 10 ltac:(lia)). lia. Qed.
Lemma mag_nonneg : forall f b, 0 <= fl_mag f b.
Proof. intros f b. rewrite mag_decode. apply decode_nonneg. apply abs_range. Qed.
Lemma round_nonneg : forall num den, 0 <= num -> 0 < den -> 0 <= round_even num den.
Proof. intros num den N D. apply (round_even_bounds num den 0 num D). nia. Qed.
Lemma six_nonneg : forall f mag, 0 <= mag -> 0 <= fst (six_digits f mag).
Proof.
  intros f mag H. unfold six_digits. set (x := dec_exponent _ _ _ _). assert (T := ten_pos (5 - x)). assert (T' := ten_pos (x - 5)). assert (U := unit_pos f). cbv zeta.
  destruct (_ =? 10 ^ 6); cbn [fst]; [discriminate|]. apply round_nonneg; [apply Z.mul_nonneg_nonneg; [exact H|apply Z.lt_le_incl, T]|apply Z.mul_pos_pos; assumption].
Qed.
Lemma yflt_ascii : forall i z, Forall (fun c => c < 128) (yflt_text i z).
Proof.
  intros i z. assert (D : forall neg, Forall (fun c => c < 128) (dash neg)) by (intros []; repeat constructor). unfold yflt_text. destruct (flt_of i) as [f|].
  - destruct (fl_zero f z); [apply Forall_app; split; [apply D|repeat constructor]|]. unfold general_text. destruct (fl_finite f z).
    + assert (S := six_nonneg f (fl_mag f z) (mag_nonneg f z)). destruct (six_digits f (fl_mag f z)) as [d x]. cbn [fst] in S. apply Forall_app. split; [apply D|].
      destruct (_ && _) eqn:E.
      * apply Forall_app. split; [apply dec_ascii; apply Z.div_pos; [exact S|apply Z.pow_pos_nonneg; lia]|apply dot_ascii, padded_ascii].
      * apply Forall_app. split; [apply dec_ascii; apply Z.div_pos; [exact S|reflexivity]|]. apply Forall_app. split; [apply dot_ascii, padded_ascii|].
        constructor; [lia|]. constructor; [destruct (x <? 0); lia|]. unfold exp_digits. assert (A := dec_ascii (Z.abs x) (Z.abs_nonneg x)). destruct (_ <? 10); [constructor; [lia|exact A]|exact A].
    + unfold special_text. apply Forall_app. split; [apply D|]. destruct (_ =? _); repeat constructor.
  - unfold int_dec. destruct (Z.ltb_spec z 0); [constructor; [lia|]|]; apply dec_ascii; lia.
Qed.
Lemma floats_written : forall i z, of_text bad_text (yflt_text i z) = None.
Proof. intros i z. unfold of_text. now rewrite (ascii_text _ (yflt_ascii i z)). Qed.

(** ** What is read back *)
Lemma near_scalar_fits : forall i z z', fits i z -> near_scalar i z z' -> fits i z'.
Proof.
  intros i z z' F N. unfold near_scalar in N. destruct (flt_of i) as [f|] eqn:E; [|now subst].
  destruct N as [N|[[_ ->]|(_ & N & _)]]; [|exact F|]; apply (denotes_fits f i z' E); apply N.
Qed.
Lemma alike_null_like : forall R blank t v w, alike R t v w -> null_like blank t v = null_like blank t w.
Proof.
  intros R blank. apply (ty_ind' (fun t => forall v w, alike R t v w -> null_like blank t v = null_like blank t w)); try reflexivity.
  - intros v w H. cbn [alike] in H. now subst.
  - intros l v w H. cbn [alike] in H. now subst.
  - intros t IH v w H. destruct v as [| | | | |[]| | |], w as [| | | | |[]| | |]; cbn [alike null_like] in *; try congruence. auto.
  - intros t IH v w H. destruct v as [| | | | | |[]| |], w as [| | | | | |[]| |]; cbn [alike null_like] in *; try congruence. auto.
  - intros cs o _ v w H. destruct v as [| | | | |[[]|]| | |], w as [| | | | |[[]|]| | |]; cbn [alike null_like] in *; try congruence; try reflexivity.
Qed.
Theorem yaml_alike_reads_back : forall m marker t v w, yaml_reads_back m marker t v -> alike near_scalar t v w -> yaml_reads_back m marker t w.
Proof.
  intros m marker t v w (W & [Sh Va] & Dn & Nn & Un & Ex) A. split; [exact W|]. split; [split|].
  - now rewrite <- (alike_shaped _ t v w A).
  - revert Va. apply each_alike with (R := near_scalar); [|exact W|exact A]. clear. intros t v w W A H. destruct t; try exact I.
    + destruct v, w; cbn [alike] in A; try contradiction. exact (near_scalar_fits i _ _ H A).
    + cbn [alike] in A. subst. exact H.
    + destruct v, w; cbn [alike] in A; try exact I; try discriminate A. cbn [valid_here] in *. cbn [wf] in W. apply andb_prop in W as [_ W]. revert A H. apply alike_order; [|exact W].
      intros i a b N1 N2. unfold near_scalar. destruct i; cbn [flt_of]; congruence.
    + destruct v, w; cbn [alike] in A; try exact I; try discriminate A. cbn [valid_here] in *.
      assert (E : map fst l = map fst l0) by (apply alike_keys; clear H; induction A as [|? ? ? ? [E _]]; constructor; auto).
      destruct H as [H1 H2]. split; [now apply (ordered_keys _ l)|]. rewrite <- (Forall_map fst) in *. now rewrite <- E.
  - split; [exact Dn|]. split.
    + revert Nn. apply each_alike with (R := near_scalar); [|exact W|exact A]. clear. intros t v w _ A. destruct t; auto. destruct v as [| | | | |[]| | |], w as [| | | | |[]| | |]; cbn [alike] in A; try congruence; auto.
      now rewrite (alike_null_like _ _ _ _ _ A).
    + split; [exact Un|]. intro E. destruct (Ex E) as [C O]. split; [now apply (alike_complete _ t v w W A)|exact O].
Qed.
(** The document of a value stands for a value like it. *)
Theorem yflt_doc_alike : forall marker t v, patterns t v -> forall j, d_val (yaml_sense_with (fun i z a => a = yflt_text i z) marker t) v j ->
  exists w, alike near_scalar t v w /\ float_yaml_stands marker t w j.
Proof.
  intros marker t v P j S.
  assert (S' := proj1 (sense_refine is_pattern (fun i z a => a = yflt_text i z) (fun i z a => a = yflt_text i z /\ is_pattern i z) (fun i z a Q H => conj H Q) yaml_truth yaml_same yaml_same yaml_nothing yaml_same marker t) v j P S).
  refine (proj1 (sense_alike near_scalar _ float_scalar _ yaml_truth yaml_same yaml_same yaml_nothing yaml_same marker t) v j S').
  intros i z a [-> H]. exact (float_written i z H).
Qed.
