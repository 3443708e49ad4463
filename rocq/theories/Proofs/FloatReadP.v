(** Reading of floating point numbers. *)
From Coq Require Import ZArith QArith Qabs String List Bool Lia ZifyBool.
From Verif Require Import Model.Base Model.Source Model.Number Model.Types Model.JsonLexer Model.ParserInterface Model.JsonParser Model.Float Spec.JsonString Spec.Json Spec.Import Spec.Float
  Proofs.UnicodeP Proofs.LexP Proofs.NumberP Proofs.FloatP Proofs.JsonPartP.
Import ListNotations.
Open Scope Z_scope.

(** ** The parts of a number *)
Definition nonpoint (s : bytes) : Prop := hd_is (fun c => ~ digit c /\ c <> 46) s.
Lemma delim_nonpoint : forall x, delim x -> nonpoint x.
Proof. intros x [->|(c & r & -> & H)]; cbn; [exact I|]. unfold digit, ws_char in *. lia. Qed.
Lemma nonpoint_nondigit : forall x, nonpoint x -> hd_is nondigit x.
Proof. intros [|c x] H; [exact I|exact (proj1 H)]. Qed.
Lemma scan_mantissa_number : forall i f fd rest, Forall digit i -> fraction_of f fd -> nonpoint rest ->
  scan_mantissa (i ++ f ++ rest) = (i, fd, List.length (i ++ f), rest).
Proof.
  intros i f fd rest Hi Hf Hr. unfold scan_mantissa. destruct Hf as [|l [_ Hl]].
  - cbn [app]. rewrite (span_digits_app i rest Hi (nonpoint_nondigit _ Hr)), app_nil_r. destruct rest as [|c r]; [reflexivity|].
    destruct (c =? 46) eqn:E; [|reflexivity]. cbn in Hr. lia.
  - cbn [app]. rewrite (span_digits_app i _ Hi) by (cbn; unfold nondigit, digit; lia). change (46 =? 46) with true. cbv iota.
    rewrite (span_digits_app l rest Hl (nonpoint_nondigit _ Hr)). now rewrite app_length.
Qed.
Definition exp_sign (e : bytes) : bool := match e with _ :: 45 :: _ => true | _ => false end.
Definition exp_ds (e : bytes) : bytes := match e with [] => [] | _ :: 45 :: l => l | _ :: 43 :: l => l | _ :: l => l end.
Lemma scan_exponent_some : forall e x rest, exponent_of e x -> delim rest -> e <> [] ->
  exists neg ds, scan_exponent (e ++ rest) = Some (neg, ds, List.length e) /\ ds <> [] /\ exp_value neg ds = x.
Proof.
  intros e x rest He Hd Ne. assert (Hr := delim_nondigit _ Hd). destruct He as [|c l Hc [Nl Hl]|c l Hc [Nl Hl]|c l Hc [Nl Hl]]; [congruence| | |].
  - exists false, l. assert (E : (c =? 101) || (c =? 69) = true) by lia. cbn [app scan_exponent]. rewrite E.
    destruct l as [|d r]; [congruence|]. assert (Hl' := Hl). inversion Hl as [|? ? Hd0 _]; subst. unfold digit in Hd0. cbn [app].
    destruct (d =? 45) eqn:E1; [lia|]. destruct (d =? 43) eqn:E2; [lia|]. change (d :: r ++ rest) with ((d :: r) ++ rest).
    rewrite (span_digits_app _ rest Hl' Hr). split; [reflexivity|]. split; [discriminate|]. unfold exp_value. apply dec_value_digits.
  - exists false, l. assert (E : (c =? 101) || (c =? 69) = true) by lia. cbn [app scan_exponent]. rewrite E. change (43 =? 45) with false. change (43 =? 43) with true. cbv iota.
    rewrite (span_digits_app _ rest Hl Hr). split; [reflexivity|]. split; [exact Nl|]. apply dec_value_digits.
  - exists true, l. assert (E : (c =? 101) || (c =? 69) = true) by lia. cbn [app scan_exponent]. rewrite E. change (45 =? 45) with true. cbv iota.
    rewrite (span_digits_app _ rest Hl Hr). split; [reflexivity|]. split; [exact Nl|]. unfold exp_value. f_equal. apply dec_value_digits.
Qed.
Lemma scan_exponent_none : forall rest, delim rest -> scan_exponent rest = None.
Proof.
  intros rest [->|(c & r & -> & H)]; [reflexivity|]. cbn [scan_exponent]. assert (E : (c =? 101) || (c =? 69) = false) by (unfold ws_char in H; lia). now rewrite E.
Qed.
Lemma exp_nonpoint : forall e x rest, exponent_of e x -> delim rest -> nonpoint (e ++ rest).
Proof.
  intros e x rest He Hd. destruct He; [now apply delim_nonpoint| | |]; cbn; unfold digit; lia.
Qed.

(** A number is a sign, a mantissa and an exponent. *)
Definition sign_of (t : bytes) : bool := hd 0 t =? 45.
Lemma number_decimal : forall t, number t -> exists i f fd e x, int_part i /\ fraction_of f fd /\ exponent_of e x /\ t = dash (sign_of t) ++ i ++ f ++ e.
Proof.
  intros t H. destruct H as [s i f e Hs Hi Hf He].
  assert (F : exists fd, fraction_of f fd) by (destruct Hf; eexists; [constructor|constructor; assumption]). destruct F as (fd & F).
  assert (X : exists x, exponent_of e x).
  { destruct He as [|c l Hc Hl|c y l Hc [->| ->] Hl]; eexists; [apply xo_none|apply xo_plain|apply xo_plus|apply xo_minus]; assumption. }
  destruct X as (x & X). exists i, f, fd, e, x. repeat (split; [assumption|]).
  destruct (int_part_cons i Hi) as (d & r & -> & Hd). unfold sign_of. destruct Hs; cbn [app hd]; [|reflexivity].
  destruct (d =? 45) eqn:E; [lia|reflexivity].
Qed.

(** What the two readers make of sign, mantissa and exponent. *)
Definition read_string (f : fty) (neg : bool) (m e : Z) : outcome Z :=
  let a := fl_decimal f m e in if (fl_inf f <=? a) || ((a =? 0) && negb (m =? 0)) then UB else Ok (fl_make f neg a).
Definition read_stream (f : fty) (neg : bool) (m e : Z) : outcome Z :=
  let a := fl_decimal f m e in Ok (fl_make f neg (if fl_inf f <=? a then fl_inf f - 1 else a)).
(** The value that a source of kind [k] reads from the number [t]. *)
Definition flt_text (k : skind) (f : fty) (t : bytes) : outcome Z :=
  match k with
  | StrIn => match from_chars_flt f t with FfOk b _ => Ok b | FfRange _ => UB | FfInvalid => Throw end
  | Strm => Ok (fst (num_get_flt f t))
  end.

Section Parts.
  Context (f : fty) (i fr fd e : bytes) (x : Z) (neg : bool) (rest : bytes).
  Hypotheses (Hi : int_part i) (Hf : fraction_of fr fd) (He : exponent_of e x) (Hd : delim rest).
  Let t := dash neg ++ i ++ fr ++ e.
  Let m := digits_value 0 (i ++ fd).
  Let ex := x - Z.of_nat (List.length fd).

  Lemma dec_m : dec_value (i ++ fd) = m.
  Proof. apply dec_value_digits. Qed.
  Lemma mantissa : scan_mantissa (i ++ fr ++ e ++ rest) = (i, fd, List.length (i ++ fr), e ++ rest).
  Proof. apply scan_mantissa_number; [apply int_part_digits, Hi|exact Hf|]. now apply (exp_nonpoint e x). Qed.
  Lemma some_digit : Nat.eqb (List.length (i ++ fd)) 0 = false.
  Proof. destruct (int_part_cons i Hi) as (d & r & -> & _). reflexivity. Qed.
  Lemma head_digit : forall s, exists d r, i ++ s = d :: r /\ (d =? 45) = false /\ (d =? 43) = false.
  Proof. intro s. destruct (int_part_cons i Hi) as (d & r & -> & H). exists d, (r ++ s). split; [reflexivity|]. split; lia. Qed.
  Lemma text_app : t ++ rest = dash neg ++ i ++ fr ++ e ++ rest.
  Proof. unfold t. now rewrite <- !app_assoc. Qed.
  Lemma text_length : List.length t = (List.length (dash neg) + List.length (i ++ fr) + List.length e)%nat.
  Proof. unfold t. rewrite !app_length. lia. Qed.

  Lemma from_chars_parts : from_chars_flt f (t ++ rest) = match read_string f neg m ex with Ok b => FfOk b (List.length t) | _ => FfRange (List.length t) end.
  Proof.
    rewrite text_app, text_length. unfold from_chars_flt.
    destruct (head_digit (fr ++ e ++ rest)) as (d & r & Ed & E45 & E43).
    assert (P : forall A (F : bool -> nat -> bytes -> A), (let '(g, n0, s1) := (match dash neg ++ i ++ fr ++ e ++ rest with c :: r0 => if c =? 45 then (true, 1%nat, r0) else (false, O, dash neg ++ i ++ fr ++ e ++ rest) | [] => (false, O, dash neg ++ i ++ fr ++ e ++ rest) end) in F g n0 s1)
      = F neg (List.length (dash neg)) (i ++ fr ++ e ++ rest)).
    { intros A F. destruct neg; cbn [dash app]; [reflexivity|]. unfold bytes in *. rewrite Ed, E45. reflexivity. }
    etransitivity; [exact (P ff_result (fun neg n0 s1 => let '(d1, d2, n1, s2) := scan_mantissa s1 in _))|]. cbv beta.
    rewrite mantissa, some_digit, dec_m. cbv zeta.
    assert (X : exists n2, (match scan_exponent (e ++ rest) with
      | Some (eneg, ds, n) => if Nat.eqb (List.length ds) 0 then (0, O) else (exp_value eneg ds, n) | None => (0, O) end) = (x, n2) /\ n2 = List.length e).
    { destruct (list_eq_dec Z.eq_dec e []) as [E|Ne].
      - rewrite E. cbn [app]. rewrite (scan_exponent_none rest Hd). exists O. split; [|reflexivity]. rewrite E in He. inversion He. reflexivity.
      - destruct (scan_exponent_some e x rest He Hd Ne) as (eneg & ds & -> & Nd & V). exists (List.length e). destruct ds; [congruence|]. cbn [List.length Nat.eqb]. now rewrite V. }
    destruct X as (n2 & -> & ->). unfold read_string. fold ex. destruct (_ || _); reflexivity.
  Qed.
  Lemma num_get_parts : exists b, read_stream f neg m ex = Ok b /\ num_get_flt f (t ++ rest) = (b, List.length t).
  Proof.
    rewrite text_app, text_length. unfold num_get_flt, read_stream. eexists. split; [reflexivity|].
    destruct (head_digit (fr ++ e ++ rest)) as (d & r & Ed & E45 & E43).
    assert (P : forall A (F : bool -> nat -> bytes -> A), (let '(g, n0, s1) := (match dash neg ++ i ++ fr ++ e ++ rest with c :: r0 => if c =? 45 then (true, 1%nat, r0) else if c =? 43 then (false, 1%nat, r0) else (false, O, dash neg ++ i ++ fr ++ e ++ rest) | [] => (false, O, dash neg ++ i ++ fr ++ e ++ rest) end) in F g n0 s1)
      = F neg (List.length (dash neg)) (i ++ fr ++ e ++ rest)).
    { intros A F. destruct neg; cbn [dash app]; [reflexivity|]. unfold bytes in *. rewrite Ed, E45, E43. reflexivity. }
    etransitivity; [exact (P (Z * nat)%type (fun neg n0 s1 => let '(d1, d2, n1, s2) := scan_mantissa s1 in _))|]. cbv beta.
    rewrite mantissa, some_digit, dec_m. cbv zeta.
    destruct (list_eq_dec Z.eq_dec e []) as [E|Ne].
    - rewrite E. cbn [app]. rewrite (scan_exponent_none rest Hd). assert (x = 0) as -> by (rewrite E in He; inversion He; reflexivity). fold ex. now rewrite Nat.add_0_r.
    - destruct (scan_exponent_some e x rest He Hd Ne) as (eneg & ds & -> & Nd & V). destruct ds; [congruence|]. cbn [List.length Nat.eqb]. now rewrite V.
  Qed.
End Parts.

Lemma flt_text_parts : forall k f t, number t -> exists i fr fd e x, int_part i /\ fraction_of fr fd /\ exponent_of e x /\ t = dash (sign_of t) ++ i ++ fr ++ e /\
  flt_text k f t = (match k with StrIn => read_string | Strm => read_stream end) f (sign_of t) (digits_value 0 (i ++ fd)) (x - Z.of_nat (List.length fd)) /\
  forall rest, delim rest ->
    match k with
    | StrIn => from_chars_flt f (t ++ rest) = match flt_text k f t with Ok b => FfOk b (List.length t) | _ => FfRange (List.length t) end
    | Strm => exists b, flt_text k f t = Ok b /\ num_get_flt f (t ++ rest) = (b, List.length t)
    end.
Proof.
  intros k f t H. destruct (number_decimal t H) as (i & fr & fd & e & x & Hi & Hf & He & Et). exists i, fr, fd, e, x. repeat (split; [assumption|]).
  assert (D0 : delim []) by now left. set (neg := sign_of t) in *. clearbody neg. subst t.
  assert (A := fun rest D => from_chars_parts f i fr fd e x neg rest Hi Hf He D).
  assert (B := fun rest D => num_get_parts f i fr fd e x neg rest Hi Hf He D). cbv zeta in A, B.
  destruct k; cbn [flt_text].
  - specialize (A [] D0) as A0. rewrite app_nil_r in A0. rewrite A0. unfold read_string in *.
    destruct (_ || _); (split; [reflexivity|]); exact A.
  - destruct (B [] D0) as (b0 & E0 & A0). rewrite app_nil_r in A0. rewrite A0. cbn [fst]. split; [now rewrite E0|].
    intros rest D. destruct (B rest D) as (b & E & N). rewrite E in E0. exists b. split; [now rewrite E0|exact N].
Qed.

(** ** Scanning *)
Theorem scanFlt_number : forall k f s t rest, number t -> delim rest -> at_src k s (t ++ rest) ->
  match flt_text k f t with
  | Ok z => exists s', src_scanFlt f s = Ok (z, s') /\ at_src k s' rest
  | Throw => src_scanFlt f s = Throw
  | UB => src_scanFlt f s = UB
  | Hang => True
  end.
Proof.
  intros k f s t rest Hn Hd H. destruct (number_split t Hn) as (sg & ip & tl & Et & Hs & Hi & _ & Ht).
  assert (H1 : at_src k s (sg ++ ip ++ tl ++ rest)) by (rewrite Et, <- !app_assoc in H; exact H).
  unfold src_scanFlt. destruct (checkZero_number k s sg ip tl rest H1 Hs Hi Ht Hd) as (s0 & -> & H0). cbn [bind].
  replace (sg ++ ip ++ tl ++ rest) with (t ++ rest) in H0 by now rewrite Et, <- !app_assoc. clear H1.
  rewrite (at_kind _ _ _ H0).
  assert (Ne : exists c r, t = c :: r).
  { destruct (int_part_cons ip Hi) as (d0 & ipr & -> & _). rewrite Et. destruct Hs; cbn; eauto. }
  destruct Ne as (c0 & r0 & Ec).
  assert (He0 : s_eof s0 = false) by (rewrite Ec in H0; cbn [app] in H0; eapply at_eof_cons; eassumption).
  destruct (flt_text_parts k f t Hn) as (_ & _ & _ & _ & _ & _ & _ & _ & _ & _ & R). specialize (R rest Hd). destruct k.
  - assert (E2 : Nat.ltb (s_size s0) (s_pos s0) = false).
    { destruct H0 as (pre & e & -> & _). unfold s_size. cbn. apply Nat.ltb_ge. rewrite app_length. lia. }
    rewrite E2, (rest_at _ _ _ H0), R. cbn [flt_text]. destruct (from_chars_flt f t) as [|n|b n] eqn:Ef; try reflexivity.
    + exfalso. cbn [flt_text] in R. clear -Ef Hn. destruct (flt_text_parts StrIn f t Hn) as (i & fr & fd & e & x & _ & _ & _ & _ & _ & R).
      specialize (R [] ltac:(now left)). rewrite app_nil_r, Ef in R. destruct (flt_text StrIn f t); discriminate R.
    + eexists. split; [reflexivity|]. destruct H0 as (pre & e & -> & _). unfold s_size. cbn [s_data s_pos]. exists (pre ++ t), false.
      split; [|discriminate]. f_equal.
      * rewrite <- !app_assoc. reflexivity.
      * rewrite app_length. reflexivity.
      * apply Nat.leb_le. rewrite !app_length. lia.
  - destruct R as (b & -> & R). unfold readNumber_flt. assert (H0' := H0). rewrite Ec in H0'. cbn [app] in H0'. rewrite (at_strm_good _ _ _ H0').
    rewrite (rest_at _ _ _ H0), R. assert (L : Nat.eqb (List.length t) 0 = false) by (rewrite Ec; reflexivity). rewrite L.
    destruct (set_pos_at _ _ t rest false H0 He0 eq_refl) as [Hmv Hme]. eauto.
Qed.
(** A value that is not a number. *)
Lemma scanFlt_other : forall k f s c txt, at_src k s (c :: txt) -> 0 <= c < 128 -> ~ digit c -> c <> 45 -> c <> 43 -> c <> 46 ->
  lower c <> 105 -> (lower c = 110 -> lower (hd 0 txt) <> 97) -> src_scanFlt f s = Throw.
Proof.
  intros k f s c txt H Hr Hd H1 H2 H3 Hin Hnan. unfold src_scanFlt.
  assert (Ez : checkZero s = Ok s).
  { unfold checkZero. rewrite (peek_cons k s c txt H), gchar_id by lia. unfold digit in Hd.
    destruct (c =? 48) eqn:E; [lia|reflexivity]. }
  rewrite Ez. cbn [bind]. rewrite (at_kind _ _ _ H).
  assert (Esp : scan_mantissa (c :: txt) = ([], [], O, c :: txt)).
  { unfold scan_mantissa. cbn [span_digits]. assert (E : is_digit c = false) by (unfold is_digit, digit in *; lia). rewrite E. destruct (c =? 46) eqn:E2; [lia|reflexivity]. }
  destruct k.
  - assert (E2 : Nat.ltb (s_size s) (s_pos s) = false).
    { destruct H as (pre & e & -> & _). unfold s_size. cbn. apply Nat.ltb_ge. rewrite app_length. lia. }
    rewrite E2, (rest_at _ _ _ H). unfold from_chars_flt. destruct (c =? 45) eqn:E; [lia|]. rewrite Esp. cbn [app List.length Nat.eqb].
    assert (S1 : forall w, starts_with (105 :: w) (c :: txt) = false).
    { intro w. unfold starts_with. cbn [List.length firstn map]. apply beq_neq. intro Q. injection Q as Q _. contradiction. }
    assert (S2 : forall w, starts_with (110 :: 97 :: w) (c :: txt) = false).
    { intro w. unfold starts_with. cbn [List.length firstn map]. apply beq_neq. destruct txt as [|d r]; cbn [firstn map]; [discriminate|]. intro Q. injection Q as Q1 Q2 _. exact (Hnan Q1 Q2). }
    change (bs "infinity") with (105 :: bs "nfinity"). change (bs "inf") with (105 :: bs "nf"). change (bs "nan") with (110 :: 97 :: bs "n").
    now rewrite !S1, S2.
  - unfold readNumber_flt. rewrite (at_strm_good _ _ _ H), (rest_at _ _ _ H). unfold num_get_flt.
    destruct (c =? 45) eqn:E; [lia|]. destruct (c =? 43) eqn:E2; [lia|]. rewrite Esp. reflexivity.
Qed.
