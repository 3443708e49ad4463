(** Reading and skipping of JSON numbers. *)
From Coq Require Import ZArith List Bool Lia ZifyBool.
From Verif Require Import Model.Base Model.Source Model.Unicode Model.Number Model.JsonLexer
  Spec.JsonString Spec.Json Proofs.UnicodeP Proofs.LexP.
Import ListNotations.
Open Scope Z_scope.

(** The integer a source of kind [k] reads from the number [t]. *)
Definition stream_int (i : ity) (neg : bool) (d : Z) : Z :=
  if i_signed i then
    let u := if u_max i <? d then u_max i else d in i_wrap i (if neg then - u else u)
  else if u_max i <? d then u_max i else if neg then (- d) mod 2 ^ i_bits i else d.
Definition int_of (k : skind) (i : ity) (t : bytes) : outcome Z :=
  let '(neg, body) := match t with c :: r => if c =? 45 then (true, r) else (false, t) | [] => (false, t) end in
  let '(ds, tl) := span_digits body in
  match tl with
  | _ :: _ => Throw
  | [] =>
      match k with
      | StrIn => if neg && negb (i_signed i) then Throw
                 else let v := if neg then - dec_value ds else dec_value ds in
                      if i_in i v then Ok v else UB
      | Strm => Ok (stream_int i neg (dec_value ds))
      end
  end.

(** Head of a text. *)
Definition hd_is (P : Z -> Prop) (t : bytes) : Prop := match t with [] => True | c :: _ => P c end.
Definition nondigit (c : Z) : Prop := ~ digit c.

Lemma span_digits_app : forall d x, Forall digit d -> hd_is nondigit x -> span_digits (d ++ x) = (d, x).
Proof.
  intros d x H Hx. induction H as [|c d Hc H IH]; cbn.
  - destruct x as [|c x]; [reflexivity|]. cbn in *. unfold is_digit, nondigit, digit in *.
    destruct ((48 <=? c) && (c <=? 57)) eqn:E; [lia|reflexivity].
  - rewrite IH. unfold is_digit, digit in *. destruct ((48 <=? c) && (c <=? 57)) eqn:E; [reflexivity|lia].
Qed.

(** Sign, integer digits and what follows. *)
Lemma number_split : forall t, number t -> exists sg ip tl, t = sg ++ ip ++ tl /\
  sign_part sg /\ int_part ip /\ (exists f e, tl = f ++ e /\ frac_part f /\ exp_part e) /\
  (tl = [] \/ exists c r, tl = c :: r /\ (c = 46 \/ c = 101 \/ c = 69)).
Proof.
  intros t H. destruct H as [s i f e Hs Hi Hf He]. exists s, i, (f ++ e). repeat (split; [assumption || reflexivity|]).
  split; [eauto|]. destruct Hf as [|l Hl]; cbn; [|right; eauto].
  destruct He as [|x l Hx Hl|x y l Hx Hy Hl]; [now left| |]; right; eexists; eexists; (split; [reflexivity|]); tauto.
Qed.
Lemma int_part_digits : forall ip, int_part ip -> ip <> [] /\ Forall digit ip.
Proof.
  intros ip H. destruct H as [|c r Hc Hr]; split; try discriminate; constructor; auto; unfold digit; lia.
Qed.

Lemma delim_nondigit : forall x, delim x -> hd_is nondigit x.
Proof.
  intros x [->|(c & r & -> & H)]; cbn; [exact I|]. unfold nondigit, digit, ws_char in *. lia.
Qed.

Lemma int_of_split : forall k i sg ip tl, sign_part sg -> int_part ip ->
  (tl = [] \/ exists c r, tl = c :: r /\ (c = 46 \/ c = 101 \/ c = 69)) ->
  int_of k i (sg ++ ip ++ tl) =
  match tl with
  | _ :: _ => Throw
  | [] => let neg := match sg with [] => false | _ => true end in
          match k with
          | StrIn => if neg && negb (i_signed i) then Throw
                     else let v := if neg then - dec_value ip else dec_value ip in
                          if i_in i v then Ok v else UB
          | Strm => Ok (stream_int i neg (dec_value ip))
          end
  end.
Proof.
  intros k i sg ip tl Hs Hi Ht. destruct (int_part_digits ip Hi) as [Hne Hd].
  assert (Hn : hd_is nondigit tl).
  { destruct Ht as [->|(c & r & -> & Hc)]; cbn; [exact I|]. unfold nondigit, digit. lia. }
  unfold int_of.
  destruct ip as [|d0 ip]; [congruence|]. inversion Hd as [|? ? Hd0 Hdr]; subst. unfold digit in Hd0.
  destruct Hs; cbn [app].
  - destruct (d0 =? 45) eqn:E; [lia|].
    change (d0 :: ip ++ tl) with ((d0 :: ip) ++ tl). rewrite (span_digits_app _ _ Hd Hn). destruct tl; reflexivity.
  - change (45 =? 45) with true. cbv iota. change (d0 :: ip ++ tl) with ((d0 :: ip) ++ tl).
    rewrite (span_digits_app _ _ Hd Hn). destruct tl; reflexivity.
Qed.

Lemma peek_at : forall k s txt, at_src k s txt -> s_eof s = false ->
  exists c s', src_peek s = (c, s') /\ at_src k s' txt /\
    match txt with [] => c = EOFc | x :: _ => c = gchar k x end.
Proof.
  intros k s [|x txt] H He.
  - destruct H as (pre & e & -> & _). cbn in He. subst e. unfold src_peek, s_rest, strm_good.
    cbn [s_kind s_good s_eof s_pos s_data negb andb]. rewrite skipn_app_len.
    destruct k; do 2 eexists; (split; [reflexivity|]); (split; [|reflexivity]).
    + exists pre, false. split; [reflexivity|discriminate].
    + exists pre, true. split; [reflexivity|auto].
  - rewrite (peek_cons k s x txt H). do 2 eexists. split; [reflexivity|]. split; [exact H|reflexivity].
Qed.

(** checkZero leaves a legal number alone. *)
Lemma checkZero_ok : forall k s c txt, at_src k s (c :: txt) -> byte_ok c ->
  (c = 48 -> hd_is (fun x => byte_ok x /\ ~ (49 <= x <= 57)) txt) ->
  exists s', checkZero s = Ok s' /\ at_src k s' (c :: txt).
Proof.
  intros k s c txt H Hb Hz. unfold checkZero. rewrite (peek_cons k s c txt H), gchar_small by (assumption || lia).
  destruct (c =? 48) eqn:E; [|exists s; split; [reflexivity|exact H]].
  assert (c = 48) by lia. subst c. specialize (Hz eq_refl).
  assert (He := get_cons_eof k s 48 txt H).
  destruct (get_cons k s 48 txt H) as (s2 & E2 & H2). rewrite E2 in *. cbn [snd] in He.
  assert (P : exists p2 s3, src_peek s2 = (p2, s3) /\ past k s3 48 txt /\
            match txt with [] => p2 = EOFc | x :: _ => p2 = gchar k x end).
  { destruct txt as [|x txt].
    - destruct (peek_past_nil k s2 48 H2 He) as (s3 & -> & H3). do 2 eexists. split; [reflexivity|].
      split; [exact H3|reflexivity].
    - rewrite (peek_cons k s2 x txt (past_at _ _ _ _ H2)). do 2 eexists. split; [reflexivity|].
      split; [exact H2|reflexivity]. }
  destruct P as (p2 & s3 & -> & H3 & Hp).
  assert (Hp2 : (49 <=? p2) && (p2 <=? 57) = false).
  { destruct txt as [|x txt]; [subst p2; reflexivity|]. subst p2. cbn in Hz. destruct Hz as [[B1 B2] Hz].
    destruct k; cbn; [|lia]. unfold schar. destruct (x <? 128) eqn:Ex; lia. }
  rewrite Hp2. destruct (unget_past k s3 48 txt H3) as (s4 & -> & H4). exists s4. split; [reflexivity|exact H4].
Qed.

Lemma validate_ok : forall k s txt, at_src k s txt -> s_eof s = false -> delim txt ->
  forall b, exists s', validateResult b s = (b, s') /\ at_src k s' txt.
Proof.
  intros k s txt H He Hd b. unfold validateResult. destruct (peek_at k s txt H He) as (c & s' & -> & H' & Hc).
  exists s'. split; [|exact H']. f_equal.
  assert (c <> 46 /\ c <> 101 /\ c <> 69).
  { destruct Hd as [->|(x & r & -> & Hx)]; [subst c; unfold EOFc; lia|]. subst c.
    rewrite gchar_id; unfold ws_char in Hx; lia. }
  destruct b; cbn; lia.
Qed.
Lemma validate_bad : forall k s c txt, at_src k s (c :: txt) -> c = 46 \/ c = 101 \/ c = 69 ->
  forall b, fst (validateResult b s) = false.
Proof.
  intros k s c txt H Hc b. unfold validateResult. rewrite (peek_cons k s c txt H), gchar_id by lia. cbn [fst].
  destruct b; cbn; lia.
Qed.

Lemma dec_value_nonneg : forall ds, Forall digit ds -> 0 <= dec_value ds.
Proof.
  intros ds H. unfold dec_value. assert (G : forall a, 0 <= a -> 0 <= fold_left (fun a d => 10 * a + (d - 48)) ds a).
  { induction H as [|d ds Hd H IH]; intros a Ha; cbn [fold_left]; [exact Ha|]. apply IH. unfold digit in Hd. lia. }
  now apply G.
Qed.

Lemma from_chars_number : forall i sg ip x, sign_part sg -> int_part ip -> hd_is nondigit x ->
  from_chars i (sg ++ ip ++ x) =
  let neg := match sg with [] => false | _ => true end in
  if neg && negb (i_signed i) then FcInvalid
  else let v := if neg then - dec_value ip else dec_value ip in
       if i_in i v then FcOk v (length (sg ++ ip)) else FcRange (length (sg ++ ip)).
Proof.
  intros i sg ip x Hs Hi Hx. destruct (int_part_digits ip Hi) as [Hne Hd].
  destruct ip as [|d0 ip]; [congruence|]. assert (Hd0 := Hd). inversion Hd0 as [|? ? H0 Hdr]; subst. unfold digit in H0.
  unfold from_chars. destruct Hs; cbn [app].
  - destruct (d0 =? 45) eqn:E; [lia|]. cbn [andb].
    change (d0 :: ip ++ x) with ((d0 :: ip) ++ x). rewrite (span_digits_app _ _ Hd Hx). reflexivity.
  - change (45 =? 45) with true. cbn [andb]. destruct (i_signed i) eqn:Es; cbn [negb].
    + change (d0 :: ip ++ x) with ((d0 :: ip) ++ x). rewrite (span_digits_app _ _ Hd Hx). reflexivity.
    + cbn [span_digits]. reflexivity.
Qed.

Lemma num_get_number : forall i ip x, int_part ip -> hd_is nondigit x ->
  num_get_unsigned i (ip ++ x) = ((if u_max i <? dec_value ip then u_max i else dec_value ip), length ip).
Proof.
  intros i ip x Hi Hx. destruct (int_part_digits ip Hi) as [Hne Hd].
  destruct ip as [|d0 ip]; [congruence|]. assert (Hd0 := Hd). inversion Hd0 as [|? ? H0 Hdr]; subst. unfold digit in H0.
  unfold num_get_unsigned. cbn [app]. destruct (d0 =? 45) eqn:E; [lia|]. destruct (d0 =? 43) eqn:E2; [lia|].
  change (d0 :: ip ++ x) with ((d0 :: ip) ++ x). rewrite (span_digits_app _ _ Hd Hx).
  destruct (u_max i <? dec_value (d0 :: ip)); reflexivity.
Qed.
Lemma num_get_neg : forall i ip x, int_part ip -> hd_is nondigit x ->
  num_get_unsigned i (45 :: ip ++ x) =
  ((if u_max i <? dec_value ip then u_max i else (- dec_value ip) mod 2 ^ i_bits i), S (length ip)).
Proof.
  intros i ip x Hi Hx. destruct (int_part_digits ip Hi) as [Hne Hd].
  destruct ip as [|d0 ip]; [congruence|].
  unfold num_get_unsigned. change (45 =? 45) with true. cbv iota.
  rewrite (span_digits_app _ _ Hd Hx).
  destruct (u_max i <? dec_value (d0 :: ip)); reflexivity.
Qed.

Lemma set_pos_at : forall k s a b e, at_src k s (a ++ b) -> s_eof s = e -> e = false ->
  at_src k (set_pos s (s_pos s + length a)) b /\ s_eof (set_pos s (s_pos s + length a)) = false.
Proof.
  intros k s a b e (pre & e' & -> & He') <- He. cbn in He. subst e'. split; [|reflexivity].
  exists (pre ++ a), false. split; [|discriminate]. unfold set_pos. cbn. rewrite <- app_assoc, app_length. reflexivity.
Qed.

Lemma at_eof_cons : forall k s c txt, at_src k s (c :: txt) -> s_eof s = false.
Proof. intros k s c txt H. apply at_cons_inv in H as (pre & ->). reflexivity. Qed.
Lemma at_strm_good : forall s c txt, at_src Strm s (c :: txt) -> strm_good s = true.
Proof. intros s c txt H. apply at_cons_inv in H as (pre & ->). reflexivity. Qed.

Definition tail_ok (tl : bytes) : Prop := tl = [] \/ exists c r, tl = c :: r /\ (c = 46 \/ c = 101 \/ c = 69).
Lemma tail_nondigit : forall tl rest, tail_ok tl -> delim rest -> hd_is nondigit (tl ++ rest).
Proof.
  intros tl rest [->|(c & r & -> & Hc)] Hd; [now apply delim_nondigit|]. cbn. unfold nondigit, digit. lia.
Qed.

(** The validation that ends every integer read. *)
Lemma finish_ok : forall k s tl rest (o : option Z),
  at_src k s (tl ++ rest) -> s_eof s = false -> tail_ok tl -> delim rest ->
  forall b (X Y : src -> outcome (Z * src)),
  (let '(okv, s2) := validateResult b s in if okv then X s2 else Y s2) =
  match tl with
  | [] => let s2 := snd (validateResult b s) in if b then X s2 else Y s2
  | _ :: _ => Y (snd (validateResult b s))
  end.
Proof.
  intros k s tl rest o H He Ht Hd b X Y. destruct Ht as [->|(c & r & -> & Hc)].
  - cbn [app] in H. destruct (validate_ok k s rest H He Hd b) as (s' & -> & _). reflexivity.
  - assert (B := validate_bad k s c (r ++ rest) H Hc b). destruct (validateResult b s) as [okv s2].
    cbn in B. subst okv. reflexivity.
Qed.

Lemma checkZero_number : forall k s sg ip tl rest, at_src k s (sg ++ ip ++ tl ++ rest) ->
  sign_part sg -> int_part ip -> tail_ok tl -> delim rest ->
  exists s', checkZero s = Ok s' /\ at_src k s' (sg ++ ip ++ tl ++ rest).
Proof.
  intros k s sg ip tl rest H Hs Hi Ht Hd. destruct Hs; cbn [app] in *.
  - destruct Hi as [|c r Hc Hr]; cbn [app] in *.
    + apply checkZero_ok; [exact H|unfold byte_ok; lia|]. intros _.
      destruct Ht as [->|(c & r & -> & Hc)]; cbn [app]; [|cbn; unfold byte_ok; lia].
      destruct Hd as [->|(c & r & -> & Hc)]; cbn; [exact I|]. unfold ws_char, byte_ok in *. lia.
    + apply checkZero_ok; [exact H|unfold byte_ok; lia|]. lia.
  - apply checkZero_ok; [exact H|unfold byte_ok; lia|]. lia.
Qed.

Lemma int_part_cons : forall ip, int_part ip -> exists d r, ip = d :: r /\ 48 <= d <= 57.
Proof. intros ip H. destruct H; eauto; do 2 eexists; (split; [reflexivity|lia]). Qed.

Theorem scanInt_number : forall k i s t rest, number t -> delim rest -> at_src k s (t ++ rest) ->
  match int_of k i t with
  | Ok z => exists s', src_scanInt i s = Ok (z, s') /\ at_src k s' rest
  | Throw => src_scanInt i s = Throw
  | UB => src_scanInt i s = UB
  | Hang => True
  end.
Proof.
  intros k i s t rest Hn Hd H. destruct (number_split t Hn) as (sg & ip & tl & -> & Hs & Hi & _ & Ht).
  rewrite (int_of_split k i sg ip tl Hs Hi Ht). rewrite <- !app_assoc in H.
  assert (Hnd := tail_nondigit tl rest Ht Hd). destruct (int_part_cons ip Hi) as (d0 & ipr & Eip & Hd0).
  unfold src_scanInt. destruct (checkZero_number k s sg ip tl rest H Hs Hi Ht Hd) as (s0 & -> & H0). cbn [bind].
  rewrite (at_kind _ _ _ H0).
  assert (He0 : s_eof s0 = false).
  { subst ip. destruct Hs; cbn [app] in H0; eapply at_eof_cons; eassumption. }
  destruct k.
  - (* string source *)
    assert (E2 : Nat.ltb (s_size s0) (s_pos s0) = false).
    { destruct H0 as (pre & e & -> & _). unfold s_size. cbn. apply Nat.ltb_ge. rewrite app_length. lia. }
    rewrite E2. rewrite (rest_at _ _ _ H0), (from_chars_number i sg ip _ Hs Hi Hnd).
    cbv zeta. set (neg := match sg with [] => false | _ :: _ => true end). destruct (neg && negb (i_signed i)).
    + destruct (validateResult false s0) as [okv s2] eqn:Ev.
      assert (okv = false). { unfold validateResult in Ev. destruct (src_peek s0). cbn in Ev. congruence. }
      subst okv. destruct tl; reflexivity.
    + set (v := if neg then - dec_value ip else dec_value ip).
      assert (Hmv : at_src StrIn (mkSrc StrIn (s_data s0) (s_pos s0 + length (sg ++ ip))
              (Nat.leb (s_pos s0 + length (sg ++ ip)) (s_size s0)) false) (tl ++ rest)).
      { destruct H0 as (pre & e & -> & _). unfold s_size. cbn [s_data s_pos]. exists (pre ++ sg ++ ip), false.
        split; [|discriminate]. f_equal.
        - rewrite <- !app_assoc. reflexivity.
        - rewrite !app_length. lia.
        - apply Nat.leb_le. rewrite !app_length. lia. }
      destruct (i_in i v).
      * rewrite (finish_ok _ _ tl rest None Hmv eq_refl Ht Hd true). destruct tl as [|c tl]; [|reflexivity].
        cbn [app] in Hmv. destruct (validate_ok _ _ rest Hmv eq_refl Hd true) as (s' & E & H').
        cbv zeta. rewrite E. cbn [snd]. eauto.
      * rewrite (finish_ok _ _ tl rest None Hmv eq_refl Ht Hd true). destruct tl as [|c tl]; reflexivity.
  - (* stream *)
    unfold readNumber_stream, stream_int.
    destruct (i_signed i) eqn:Esg.
    + destruct Hs; cbn [app] in H0.
      * rewrite Eip in H0. cbn [app] in H0.
        rewrite (peek_cons _ _ _ _ H0). rewrite gchar_id by lia. destruct (d0 =? 45) eqn:E; [lia|]. cbv iota zeta.
        rewrite (at_strm_good _ _ _ H0). change (d0 :: ipr ++ tl ++ rest) with ((d0 :: ipr) ++ tl ++ rest) in H0.
        rewrite <- Eip in H0. rewrite (rest_at _ _ _ H0), (num_get_number i ip _ Hi Hnd).
        assert (L : Nat.eqb (length ip) 0 = false) by (rewrite Eip; reflexivity). rewrite L.
        destruct (set_pos_at _ _ ip (tl ++ rest) false H0 He0 eq_refl) as [Hmv Hme].
        set (v := if u_max i <? dec_value ip then u_max i else dec_value ip).
        rewrite (finish_ok _ _ tl rest None Hmv Hme Ht Hd true). destruct tl as [|c tl]; [|reflexivity].
        cbn [app] in Hmv. destruct (validate_ok _ _ rest Hmv Hme Hd true) as (s' & E2 & H').
        cbv zeta. cbn [app] in *. rewrite E2. cbn [snd]. eauto.
      * rewrite (peek_cons _ _ _ _ H0). rewrite gchar_id by lia. change (45 =? 45) with true. cbv iota zeta.
        assert (Heg := get_cons_eof _ _ _ _ H0).
        destruct (get_cons _ _ _ _ H0) as (s1 & Eg & H1). rewrite Eg in *. cbn [snd] in *. apply past_at in H1.
        assert (H1' := H1). rewrite Eip in H1'. cbn [app] in H1'. rewrite (at_strm_good _ _ _ H1').
        rewrite (rest_at _ _ _ H1), (num_get_number i ip _ Hi Hnd).
        assert (L : Nat.eqb (length ip) 0 = false) by (rewrite Eip; reflexivity). rewrite L.
        destruct (set_pos_at _ _ ip (tl ++ rest) false H1 Heg eq_refl) as [Hmv Hme].
        set (v := if u_max i <? dec_value ip then u_max i else dec_value ip).
        rewrite (finish_ok _ _ tl rest None Hmv Hme Ht Hd true). destruct tl as [|c tl]; [|reflexivity].
        cbn [app] in Hmv. destruct (validate_ok _ _ rest Hmv Hme Hd true) as (s' & E2 & H').
        cbv zeta. cbn [app] in *. rewrite E2. cbn [snd]. eauto.
    + destruct Hs; cbn [app] in H0.
      * assert (H0' := H0). rewrite Eip in H0'. cbn [app] in H0'. rewrite (at_strm_good _ _ _ H0').
        rewrite (rest_at _ _ _ H0), (num_get_number i ip _ Hi Hnd).
        assert (L : Nat.eqb (length ip) 0 = false) by (rewrite Eip; reflexivity). rewrite L.
        destruct (set_pos_at _ _ ip (tl ++ rest) false H0 He0 eq_refl) as [Hmv Hme].
        rewrite (finish_ok _ _ tl rest None Hmv Hme Ht Hd true). destruct tl as [|c tl]; [|reflexivity].
        cbn [app] in Hmv. destruct (validate_ok _ _ rest Hmv Hme Hd true) as (s' & E2 & H').
        cbv zeta. cbn [app] in *. rewrite E2. cbn [snd].
        destruct (u_max i <? dec_value ip); eauto.
      * rewrite (at_strm_good _ _ _ H0). rewrite (rest_at _ _ _ H0), (num_get_neg i ip _ Hi Hnd).
        cbn [Nat.eqb].
        destruct (set_pos_at _ _ (45 :: ip) (tl ++ rest) false H0 He0 eq_refl) as [Hmv Hme]. cbn [length] in *.
        rewrite (finish_ok _ _ tl rest None Hmv Hme Ht Hd true). destruct tl as [|c tl]; [|reflexivity].
        cbn [app] in Hmv. destruct (validate_ok _ _ rest Hmv Hme Hd true) as (s' & E2 & H').
        cbv zeta. cbn [app] in *. rewrite E2. cbn [snd].
        destruct (u_max i <? dec_value ip); eauto.
Qed.

(** A value that is not a number. *)
Lemma scanInt_other : forall k i s c txt, at_src k s (c :: txt) -> 0 <= c < 128 -> ~ digit c -> c <> 45 -> c <> 43 ->
  src_scanInt i s = Throw.
Proof.
  intros k i s c txt H Hr Hd H1 H2. unfold src_scanInt.
  assert (Ez : checkZero s = Ok s).
  { unfold checkZero. rewrite (peek_cons k s c txt H), gchar_id by lia. unfold digit in Hd.
    destruct (c =? 48) eqn:E; [lia|reflexivity]. }
  rewrite Ez. cbn [bind]. rewrite (at_kind _ _ _ H).
  assert (Esp : span_digits (c :: txt) = ([], c :: txt)).
  { cbn. unfold is_digit, digit in *. destruct ((48 <=? c) && (c <=? 57)) eqn:E; [lia|reflexivity]. }
  assert (Ev : forall s', exists s2, validateResult false s' = (false, s2)).
  { intro s'. unfold validateResult. destruct (src_peek s'). cbn. eauto. }
  destruct k.
  - assert (E2 : Nat.ltb (s_size s) (s_pos s) = false).
    { destruct H as (pre & e & -> & _). unfold s_size. cbn. apply Nat.ltb_ge. rewrite app_length. lia. }
    rewrite E2, (rest_at _ _ _ H). unfold from_chars. destruct (c =? 45) eqn:E; [lia|]. cbn [andb].
    rewrite Esp. destruct (Ev s) as (s2 & ->). reflexivity.
  - assert (En : num_get_unsigned i (c :: txt) = (0, O)).
    { unfold num_get_unsigned. destruct (c =? 45) eqn:E; [lia|]. destruct (c =? 43) eqn:E2; [lia|].
      rewrite Esp. reflexivity. }
    unfold readNumber_stream. destruct (i_signed i).
    + rewrite (peek_cons _ _ _ _ H), gchar_id by lia. destruct (c =? 45) eqn:E; [lia|].
      rewrite (at_strm_good _ _ _ H), (rest_at _ _ _ H), En. cbn [Nat.eqb]. destruct (Ev s) as (s2 & ->). reflexivity.
    + rewrite (at_strm_good _ _ _ H), (rest_at _ _ _ H), En. cbn [Nat.eqb]. destruct (Ev s) as (s2 & ->). reflexivity.
Qed.

(** ** Skipping a number *)
Lemma to_char_id : forall c, c < 128 -> to_char c = c.
Proof. intros c H. unfold to_char. destruct (c <? 128) eqn:E; lia. Qed.

(** After a digit run the next character [c] has been read. *)
Lemma read_digits_ok : forall k ds fuel d buf s c r, Forall digit ds -> digit d -> ~ digit c -> 0 <= c < 128 ->
  (length ds < fuel)%nat -> at_src k s (ds ++ c :: r) ->
  exists s', read_digits_loop (S fuel) d buf s = Ok (c, buf ++ d :: ds, s') /\ past k s' c r.
Proof.
  intros k. induction ds as [|x ds IH]; intros fuel d buf s c r Hds Hd Hc Hcr Hf H; cbn [read_digits_loop].
  - assert (Ed : is_digit d = true) by (unfold is_digit, digit in *; lia). rewrite Ed.
    cbn [app] in H. destruct (get_cons _ _ _ _ H) as (s1 & -> & H1). rewrite gchar_id, to_char_id by lia.
    destruct fuel as [|fuel]; [cbn in Hf; lia|]. cbn [read_digits_loop].
    assert (Ec : is_digit c = false) by (unfold is_digit, digit in *; lia). rewrite Ec. eauto.
  - assert (Ed : is_digit d = true) by (unfold is_digit, digit in *; lia). rewrite Ed.
    inversion Hds as [|? ? Hx Hds']; subst. cbn [app] in H.
    assert (Hx' := Hx). unfold digit in Hx'.
    destruct (get_cons _ _ _ _ H) as (s1 & -> & H1). rewrite gchar_id, to_char_id by lia.
    destruct fuel as [|fuel]; [cbn in Hf; lia|].
    destruct (IH fuel x (buf ++ [d]) s1 c r Hds' Hx Hc Hcr ltac:(cbn in Hf; lia) (past_at _ _ _ _ H1)) as (s2 & E & H2).
    rewrite E. exists s2. split; [|exact H2]. rewrite <- app_assoc. reflexivity.
Qed.
Lemma readDigits_ok : forall k d ds fuel buf s c r, Forall digit (d :: ds) -> ~ digit c -> 0 <= c < 128 ->
  (S (length ds) < fuel)%nat -> at_src k s (ds ++ c :: r) ->
  exists s', readDigits fuel d buf s = Ok (c, buf ++ d :: ds, s') /\ past k s' c r.
Proof.
  intros k d ds fuel buf s c r Hds Hc Hcr Hf H. inversion Hds as [|? ? Hd Hds']; subst. unfold readDigits.
  assert (Hd' := Hd). unfold digit in Hd'. rewrite to_char_id by lia.
  assert (Ed : is_digit d = true) by (unfold is_digit, digit in *; lia). rewrite Ed.
  destruct fuel as [|fuel]; [lia|]. apply read_digits_ok; try assumption. lia.
Qed.

Lemma readNumber_ok : forall k fuel l t c r, number t -> delim (c :: r) ->
  at_src k (l_src l) (t ++ c :: r) -> (length t < fuel)%nat ->
  exists l', lex_readNumber fuel l = Ok l' /\ at_src k (l_src l') (c :: r) /\
             l_buf l' = t /\ l_tok l' = l_tok l /\ l_bool l' = l_bool l /\ l_null l' = l_null l.
Proof.
  intros k fuel l t c r Hn Hd H Hf.
  assert (Hc : (ws_char c \/ c = 44 \/ c = 93 \/ c = 125)).
  { destruct Hd as [Hd|(c' & r' & E & Hc)]; [discriminate|]. injection E as <- <-. exact Hc. }
  assert (Hcr : 0 <= c < 128 /\ ~ digit c /\ c <> 46 /\ c <> 101 /\ c <> 69).
  { unfold ws_char, digit in *. lia. }
  clear Hd Hc. destruct Hcr as (Hcr & Hcd & Hc46 & Hce & HcE).
  destruct Hn as [sg ip f e Hs Hi Hfp He]. rewrite <- !app_assoc in H.
  rewrite !app_length in Hf. unfold lex_readNumber.
  (* last step *)
  assert (Fin : forall s buf, past k s c r -> 
    exists l', (do s0 <- (if c =? EOFc then Ok s else src_unget s); Ok (lset_buf (lset_src l s0) buf)) = Ok l' /\
      at_src k (l_src l') (c :: r) /\ l_buf l' = buf /\ l_tok l' = l_tok l /\ l_bool l' = l_bool l /\ l_null l' = l_null l).
  { intros s buf Hp. unfold EOFc. destruct (c =? -1) eqn:E; [lia|].
    destruct (unget_past _ _ _ _ Hp) as (s' & -> & H'). cbn [bind]. eexists. split; [reflexivity|]. cbn. auto. }
  (* exponent *)
  assert (Exp : forall e1 er s buf, e ++ c :: r = e1 :: er -> past k s e1 er ->
    exists s', (if (e1 =? 101) || (e1 =? 69) then
       let '(n, s') := src_get s in
       let buf := buf ++ [e1] in
       if n =? EOFc then Throw else
       do (n, buf, s') <-
         (if (n =? 45) || (n =? 43) then
            let '(n2, s2) := src_get s' in
            if n2 =? EOFc then Throw else Ok (n2, buf ++ [n], s2)
          else Ok (n, buf, s'));
       readDigits fuel n buf s'
     else Ok (e1, buf, s)) = Ok (c, buf ++ e, s') /\ past k s' c r).
  { intros e1 er s buf Ee Hp. destruct He as [|x l0 Hx Hl|x y l0 Hx Hy Hl].
    - cbn [app] in Ee. injection Ee as <- <-.
      destruct ((c =? 101) || (c =? 69)) eqn:E; [lia|]. exists s. rewrite app_nil_r. auto.
    - cbn [app] in Ee. injection Ee as <- <-.
      destruct ((x =? 101) || (x =? 69)) eqn:E; [|lia]. destruct Hl as [Hne Hl].
      destruct l0 as [|d ds]; [congruence|]. apply past_at in Hp. cbn [app] in Hp.
      assert (Hd0 := Hl). inversion Hd0 as [|? ? Hd1 Hds]; subst. unfold digit in Hd1.
      destruct (get_cons _ _ _ _ Hp) as (s1 & -> & H1). rewrite gchar_id by lia.
      unfold EOFc. destruct (d =? -1) eqn:E1; [lia|]. destruct ((d =? 45) || (d =? 43)) eqn:E2; [lia|]. cbn [bind].
      destruct (readDigits_ok k d ds fuel (buf ++ [x]) s1 c r Hl Hcd Hcr ltac:(cbn [length] in Hf; lia) (past_at _ _ _ _ H1))
        as (s2 & -> & H2).
      exists s2. split; [|exact H2]. rewrite <- app_assoc. reflexivity.
    - cbn [app] in Ee. injection Ee as <- <-.
      destruct ((x =? 101) || (x =? 69)) eqn:E; [|lia]. destruct Hl as [Hne Hl].
      destruct l0 as [|d ds]; [congruence|]. apply past_at in Hp. cbn [app] in Hp.
      assert (Hd0 := Hl). inversion Hd0 as [|? ? Hd1 Hds]; subst. unfold digit in Hd1.
      destruct (get_cons _ _ _ _ Hp) as (s1 & -> & H1). rewrite gchar_id by lia.
      unfold EOFc. destruct (y =? -1) eqn:E1; [lia|]. destruct ((y =? 45) || (y =? 43)) eqn:E2; [|lia].
      apply past_at in H1. destruct (get_cons _ _ _ _ H1) as (s2 & -> & H2). rewrite gchar_id by lia.
      destruct (d =? -1) eqn:E3; [lia|]. cbn [bind].
      destruct (readDigits_ok k d ds fuel ((buf ++ [x]) ++ [y]) s2 c r Hl Hcd Hcr ltac:(cbn [length] in Hf; lia) (past_at _ _ _ _ H2))
        as (s3 & -> & H3).
      exists s3. split; [|exact H3]. rewrite <- !app_assoc. reflexivity. }
  assert (He1 : exists e1 er, e ++ c :: r = e1 :: er /\ 0 <= e1 < 128 /\ ~ digit e1 /\ e1 <> 46).
  { destruct He as [|x l0 Hx Hl|x y l0 Hx Hy Hl]; cbn [app]; do 2 eexists; (split; [reflexivity|]); unfold digit in *; lia. }
  destruct He1 as (e1 & er & Ee & He1r & He1d & He146).
  (* fraction *)
  assert (Frac : forall f1 fr s buf, f ++ e ++ c :: r = f1 :: fr -> past k s f1 fr ->
    exists s', (if f1 =? 46 then
       let '(n, s') := src_get s in
       if n =? EOFc then Throw else readDigits fuel n (buf ++ [f1]) s'
     else Ok (f1, buf, s)) = Ok (e1, buf ++ f, s') /\ past k s' e1 er).
  { intros f1 fr s buf Ef Hp. destruct Hfp as [|l0 Hl].
    - cbn [app] in Ef. rewrite Ee in Ef. injection Ef as <- <-. destruct (e1 =? 46) eqn:E; [lia|].
      exists s. rewrite app_nil_r. auto.
    - cbn [app] in Ef. injection Ef as <- <-. change (46 =? 46) with true. cbv iota. destruct Hl as [Hne Hl].
      destruct l0 as [|d ds]; [congruence|]. apply past_at in Hp. cbn [app] in Hp.
      assert (Hd0 := Hl). inversion Hd0 as [|? ? Hd1 Hds]; subst. unfold digit in Hd1.
      destruct (get_cons _ _ _ _ Hp) as (s1 & -> & H1). rewrite gchar_id by lia.
      unfold EOFc. destruct (d =? -1) eqn:E1; [lia|]. apply past_at in H1. rewrite Ee in H1.
      destruct (readDigits_ok k d ds fuel (buf ++ [46]) s1 e1 er Hl He1d He1r ltac:(cbn [length] in Hf; lia) H1)
        as (s2 & -> & H2).
      exists s2. split; [|exact H2]. rewrite <- app_assoc. reflexivity. }
  assert (Hf1 : exists f1 fr, f ++ e ++ c :: r = f1 :: fr /\ 0 <= f1 < 128 /\ ~ digit f1).
  { destruct Hfp as [|l0 Hl]; cbn [app]; [rewrite Ee|]; do 2 eexists; (split; [reflexivity|]); unfold digit in *; lia. }
  destruct Hf1 as (f1 & fr & Ef & Hf1r & Hf1d).
  (* integer part *)
  assert (Int : forall i1 ir s buf, ip ++ f1 :: fr = i1 :: ir -> past k s i1 ir ->
    exists s', (if i1 =? 48 then let '(n, s') := src_get s in Ok (n, buf ++ [i1], s')
     else readDigits fuel i1 buf s) = Ok (f1, buf ++ ip, s') /\ past k s' f1 fr).
  { intros i1 ir s buf Ei Hp. destruct Hi as [|d ds Hd Hds]; cbn [app] in Ei; injection Ei as <- <-; apply past_at in Hp.
    - change (48 =? 48) with true. cbv iota. destruct (get_cons _ _ _ _ Hp) as (s1 & -> & H1). rewrite gchar_id by lia. eauto.
    - destruct (d =? 48) eqn:E; [lia|].
      apply readDigits_ok; try assumption; [constructor; [unfold digit; lia|exact Hds]|cbn [length] in Hf; lia]. }
  destruct (int_part_cons ip Hi) as (i1 & ir & Ei & Hi1).
  rewrite Ef in H.
  assert (Go : forall s buf, past k s i1 (ir ++ f1 :: fr) ->
    exists l', (do (next, buf0, s0) <-
       (if i1 =? 48 then let '(n, s') := src_get s in Ok (n, buf ++ [i1], s') else readDigits fuel i1 buf s);
     do (next0, buf1, s1) <-
       (if next =? 46 then
          let '(n, s') := src_get s0 in
          if n =? EOFc then Throw else readDigits fuel n (buf0 ++ [next]) s'
        else Ok (next, buf0, s0));
     do (next1, buf2, s2) <-
       (if (next0 =? 101) || (next0 =? 69) then
          let '(n, s') := src_get s1 in
          let buf2 := buf1 ++ [next0] in
          if n =? EOFc then Throw else
          do (n0, buf3, s'0) <-
            (if (n =? 45) || (n =? 43) then
               let '(n2, s3) := src_get s' in
               if n2 =? EOFc then Throw else Ok (n2, buf2 ++ [n], s3)
             else Ok (n, buf2, s'));
          readDigits fuel n0 buf3 s'0
        else Ok (next0, buf1, s1));
     do s3 <- (if next1 =? EOFc then Ok s2 else src_unget s2);
     Ok (lset_buf (lset_src l s3) buf2)) = Ok l' /\
     at_src k (l_src l') (c :: r) /\ l_buf l' = buf ++ ip ++ f ++ e /\ l_tok l' = l_tok l /\ l_bool l' = l_bool l /\ l_null l' = l_null l).
  { intros s buf Hp. subst ip. destruct (Int i1 (ir ++ f1 :: fr) s buf eq_refl Hp) as (s1 & -> & H1). cbn [bind].
    destruct (Frac f1 fr s1 (buf ++ i1 :: ir) Ef H1) as (s2 & -> & H2). cbn [bind].
    destruct (Exp e1 er s2 ((buf ++ i1 :: ir) ++ f) Ee H2) as (s3 & E3 & H3). 
    match type of E3 with ?L = _ => match goal with |- context [bind ?X _] => change X with L end end.
    rewrite E3. cbn [bind].
    destruct (Fin s3 (((buf ++ i1 :: ir) ++ f) ++ e) H3) as (l' & -> & A1 & A2 & A3).
    exists l'. split; [reflexivity|]. split; [exact A1|]. split; [|exact A3]. rewrite A2, <- !app_assoc. reflexivity. }
  destruct Hs; cbn [app] in H.
  - rewrite Ei in H. cbn [app] in H. destruct (get_cons _ _ _ _ H) as (s1 & -> & H1). rewrite gchar_id by lia.
    destruct ((i1 =? 45) || (i1 =? 43)) eqn:E; [lia|]. cbn [bind]. exact (Go s1 [] H1).
  - rewrite Ei in H. cbn [app] in H. destruct (get_cons _ _ _ _ H) as (s1 & -> & H1). rewrite gchar_id by lia.
    change ((45 =? 45) || (45 =? 43)) with true. cbv iota. apply past_at in H1.
    destruct (get_cons _ _ _ _ H1) as (s2 & -> & H2). rewrite gchar_id by lia.
    unfold EOFc at 1. destruct (i1 =? -1) eqn:E; [lia|]. cbn [bind]. exact (Go s2 ([] ++ [45]) H2).
Qed.
