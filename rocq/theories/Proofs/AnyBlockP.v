(** Documents that an AnyBlock copies. *)
From Coq Require Import ZArith String List Bool Lia ZifyBool.
From Verif Require Import Model.Base Model.Source Model.Unicode Model.Number Model.JsonLexer Model.ParserInterface Model.JsonParser Model.Importer Model.AnyBlock
  Spec.JsonString Spec.Json Spec.AnyBlock
  Proofs.Induct Proofs.UnicodeP Proofs.LexP Proofs.NumberP Proofs.TreeM Proofs.JsonSim Proofs.ImportP.
Import ListNotations.
Open Scope Z_scope.

Lemma raw_loop_closed : forall k raw rest text, closed_by raw rest text -> forall fuel last0 c0 txt buf s,
  (length raw < fuel)%nat -> text = c0 :: txt -> Forall (fun c => 32 <= c < 256) raw -> (raw = [] -> last0 <> 92) -> copied_string k raw -> past k s c0 txt ->
  exists s', raw_string_loop fuel last0 (gchar k c0) buf s = Ok (buf ++ raw ++ [34], s') /\ at_src k s' rest.
Proof.
  assert (Tl : forall k c raw, raw <> [] -> copied_string k (c :: raw) -> copied_string k raw).
  { intros k c raw Hne [L A]. split; [destruct raw; [congruence|exact L]|]. intro E. specialize (A E). now inversion A. }
  assert (Gc : forall k c raw, copied_string k (c :: raw) -> gchar k c = c).
  { intros k c raw [_ A]. destruct k; [|reflexivity]. specialize (A eq_refl). inversion A; subst. now apply gchar_id. }
  intros k raw rest text H.
  induction H as [rest|c raw rest text H1 H2 H IH|c raw rest text H IH]; intros fuel last0 c0 txt buf s Hf Et Hb Hl Hs Hp;
    (destruct fuel as [|fuel]; [cbn in Hf; lia|]); cbn [raw_string_loop].
  - injection Et as <- <-. rewrite gchar_id by lia. change (34 =? EOFc) with false. change (34 =? 34) with true.
    cbn [andb]. destruct (last0 =? 92) eqn:E; [exfalso; apply (Hl eq_refl); lia|]. cbn [negb]. exists s. split; [reflexivity|]. eapply past_at; eassumption.
  - injection Et as <- <-. inversion Hb as [|? ? Hbc Hbr]; subst. rewrite (Gc k c raw Hs).
    unfold EOFc. destruct (c =? -1) eqn:E0; [lia|]. destruct (c =? 34) eqn:E; [lia|]. cbn [andb]. destruct (c <? 32) eqn:E1; [lia|]. apply past_at in Hp.
    assert (Hne : exists c1 t1, text = c1 :: t1) by (inversion H; eauto). destruct Hne as (c1 & t1 & ->).
    destruct (get_cons k s c1 t1 Hp) as (s2 & -> & H3). cbn [length] in Hf.
    destruct (IH fuel c c1 t1 (buf ++ [c]) s2) as (s' & E2 & H4); try assumption; try reflexivity; try lia.
    + destruct raw as [|r0 raw]; [split; [cbn; lia|constructor]|]. now apply (Tl k c).
    + exists s'. split; [|exact H4]. rewrite E2. f_equal. f_equal. now rewrite <- !app_assoc.
  - injection Et as <- <-. inversion Hb as [|? ? Hb1 Hb2]; subst. inversion Hb2 as [|? ? Hbc Hbr]; subst.
    rewrite gchar_id by lia. change (92 =? EOFc) with false. change (92 =? 34) with false. change (92 <? 32) with false. cbn [andb].
    apply past_at in Hp. destruct (get_cons k s c text Hp) as (s2 & -> & H3).
    cbn [length] in Hf. destruct fuel as [|fuel]; [lia|]. cbn [raw_string_loop].
    assert (Hs1 : copied_string k (c :: raw)) by (apply (Tl k 92); [discriminate|exact Hs]). rewrite (Gc k c raw Hs1).
    unfold EOFc. destruct (c =? -1) eqn:E0; [lia|]. change (92 =? 92) with true. cbn [negb]. rewrite andb_false_r. destruct (c <? 32) eqn:E1; [lia|].
    apply past_at in H3. assert (Hne : exists c1 t1, text = c1 :: t1) by (inversion H; eauto). destruct Hne as (c1 & t1 & ->).
    destruct (get_cons k s2 c1 t1 H3) as (s3 & -> & H4).
    destruct (IH fuel c c1 t1 ((buf ++ [92]) ++ [c]) s3) as (s' & E2 & H5); try assumption; try reflexivity; try lia.
    + intros ->. exact (proj1 Hs1).
    + destruct raw as [|r0 raw]; [split; [cbn; lia|constructor]|]. now apply (Tl k c).
    + exists s'. split; [|exact H5]. rewrite E2. f_equal. f_equal. now rewrite <- !app_assoc.
Qed.

Lemma legal_above : forall raw, legal_string raw -> Forall (fun c => 32 <= c < 256) raw.
Proof.
  intros raw [v H]. assert (X : forall h n, hex4 h n -> Forall (fun c => 32 <= c < 256) h).
  { intros h n Hh. destruct Hh as [? ? ? ? ? ? ? ? H1 H2 H3 H4]. repeat constructor; destruct H1, H2, H3, H4; lia. }
  induction H as [|c r v Hc _ _ _ IH|e x r v He _ IH|h n r v Hh _ _ _ IH|h1 n1 h2 n2 r v Hh1 _ Hh2 _ _ _ IH].
  - constructor.
  - constructor; assumption.
  - constructor; [lia|]. constructor; [destruct He; lia|exact IH].
  - constructor; [lia|]. constructor; [lia|]. apply Forall_app. split; [now apply (X h n)|exact IH].
  - constructor; [lia|]. constructor; [lia|]. apply Forall_app. split; [now apply (X h1 n1)|]. constructor; [lia|]. constructor; [lia|].
    apply Forall_app. split; [now apply (X h2 n2)|exact IH].
Qed.
Lemma dec_same : forall raw, legal_string raw -> ~ In 92 raw -> dec raw = Ok raw.
Proof.
  intros raw H N. apply legal_above in H. induction H as [|c r Hc H IH]; [reflexivity|]. rewrite dec_plain; [|lia|intro E; apply N; now left].
  rewrite IH; [reflexivity|]. intro I. apply N. now right.
Qed.

(** A number at the end of a std::string is read as the same number with a space behind it. *)
Section AtEnd.
  Variable d : bytes.
  Notation sa p := (mkSrc StrIn d p true false).
  Notation sb p := (mkSrc StrIn (d ++ [32]) p true false).
  (** Character read last, and source: the same in both runs, or the end here and the space there. *)
  Definition pair_rel (x y : Z * src) : Prop :=
    (exists n p, (p <= length d)%nat /\ x = (n, sa p) /\ y = (n, sb p)) \/ (x = (-1, sa (length d)) /\ y = (32, sb (S (length d)))).
  Definition twin_rel (x y : Z * bytes * src) : Prop := snd (fst x) = snd (fst y) /\ pair_rel (fst (fst x), snd x) (fst (fst y), snd y).
  Lemma twin_get : forall p, (p <= length d)%nat -> pair_rel (src_get (sa p)) (src_get (sb p)).
  Proof.
    intros p H. unfold src_get, s_rest. cbn [s_kind s_good s_pos s_data]. destruct (Nat.eq_dec p (length d)) as [->|N].
    - right. rewrite skipn_all, skipn_app, skipn_all, Nat.sub_diag. split; reflexivity.
    - left. rewrite skipn_app. assert (L : (length (skipn p d) > 0)%nat) by (rewrite skipn_length; lia). destruct (skipn p d) as [|c r]; [cbn in L; lia|].
      cbn [app]. exists (schar c), (S p). split; [lia|]. split; reflexivity.
  Qed.
  Lemma twin_digits : forall f n buf p r, (p <= length d)%nat -> read_digits_loop f n buf (sb p) = Ok r -> exists r', read_digits_loop f n buf (sa p) = Ok r' /\ twin_rel r' r.
  Proof.
    induction f as [|f IH]; intros n buf p r Hp E; [discriminate E|]. cbn [read_digits_loop] in *. destruct (is_digit n).
    - destruct (twin_get p Hp) as [(m & q & Hq & Ea & Eb)|[Ea Eb]]; rewrite Ea; rewrite Eb in E.
      + exact (IH _ _ q r Hq E).
      + destruct f as [|f]; [discriminate E|]. cbn [read_digits_loop] in *. change (is_digit (to_char 32)) with false in E. change (is_digit (to_char (-1))) with false.
        apply Ok_inj in E. subst r. eexists. split; [reflexivity|]. split; [reflexivity|right; split; reflexivity].
    - apply Ok_inj in E. subst r. eexists. split; [reflexivity|]. split; [reflexivity|left; exists n, p; auto].
  Qed.
  Lemma twin_readDigits : forall f x y buf r, pair_rel x y -> readDigits f (fst y) buf (snd y) = Ok r -> exists r', readDigits f (fst x) buf (snd x) = Ok r' /\ twin_rel r' r.
  Proof.
    intros f x y buf r [(n & p & Hp & -> & ->)|[-> ->]] E; cbn [fst snd] in *.
    - unfold readDigits in *. destruct (is_digit (to_char n)); [|discriminate E]. now apply twin_digits.
    - discriminate E.
  Qed.
  Lemma twin_number : forall fuel l l' r p, (p <= length d)%nat -> l_src l = sa p -> l_src l' = sb p -> lex_readNumber fuel l' = Ok r ->
    exists r', lex_readNumber fuel l = Ok r' /\ l_buf r' = l_buf r /\ exists q, (q <= length d)%nat /\ l_src r' = sa q /\ l_src r = sb q.
  Proof.
    intros fuel l l' r p Hp El El' E. unfold lex_readNumber in *. rewrite El. rewrite El' in E.
    assert (B : forall (A A' : outcome (Z * bytes * src)) (K K' : Z * bytes * src -> outcome jlex) (Q : jlex -> jlex -> Prop),
      (forall r, A' = Ok r -> (exists r', A = Ok r' /\ twin_rel r' r) \/ (forall r2, K' r <> Ok r2)) -> (forall x y r, twin_rel x y -> K' y = Ok r -> exists r', K x = Ok r' /\ Q r' r) ->
      forall r, bind A' K' = Ok r -> exists r', bind A K = Ok r' /\ Q r' r).
    { intros A A' K K' Q HA HK r0 E0. destruct A' as [y| | |]; try discriminate E0. cbn [bind] in E0. destruct (HA y eq_refl) as [(x & -> & T)|N]; [exact (HK x y r0 T E0)|].
      exfalso. exact (N r0 E0). }
    pose (Q := fun r' r => l_buf r' = l_buf r /\ exists q, (q <= length d)%nat /\ l_src r' = sa q /\ l_src r = sb q).
    assert (T1 := twin_get p Hp). destruct (src_get (sa p)) as [n s]. destruct (src_get (sb p)) as [n' s']. revert r E.
    apply (B _ _ _ _ Q).
    { intros r E. destruct T1 as [(m & q & Hq & Ea & Eb)|[Ea Eb]]; injection Ea as -> ->; injection Eb as -> ->.
      - destruct ((m =? 45) || (m =? 43)).
        + assert (T2 := twin_get q Hq). destruct (src_get (sa q)) as [a s1]. destruct (src_get (sb q)) as [b s2].
          destruct T2 as [(m2 & q2 & Hq2 & Ea & Eb)|[Ea Eb]]; injection Ea as -> ->; injection Eb as -> ->.
          * left. destruct (m2 =? EOFc); [discriminate E|]. apply Ok_inj in E. subst r. eexists. split; [reflexivity|]. split; [reflexivity|left; exists m2, q2; auto].
          * right. apply Ok_inj in E. subst r. intros r2 E2. discriminate E2.
        + left. apply Ok_inj in E. subst r. eexists. split; [reflexivity|]. split; [reflexivity|left; exists m, q; auto].
      - left. apply Ok_inj in E. subst r. eexists. split; [reflexivity|]. split; [reflexivity|right; split; reflexivity]. }
    intros [[x b] s1] [[y b'] s2] r [Eb' P]. cbn [fst snd] in Eb', P. subst b'. revert r. apply (B _ _ _ _ Q).
    { intros r E. left. destruct P as [(m & q & Hq & Ea & Eb)|[Ea Eb]]; injection Ea as -> ->; injection Eb as -> ->.
      - destruct (m =? 48).
        + assert (T2 := twin_get q Hq). destruct (src_get (sa q)) as [a s1']. destruct (src_get (sb q)) as [b' s2']. apply Ok_inj in E. subst r. eexists. split; [reflexivity|]. split; [reflexivity|exact T2].
        + apply (twin_readDigits fuel (m, sa q) (m, sb q)); [left; exists m, q; auto|exact E].
      - apply (twin_readDigits fuel (-1, sa (length d)) (32, sb (S (length d)))); [right; auto|exact E]. }
    clear x y b s1 s2 P. intros [[x b] s1] [[y b'] s2] r [Eb' P]. cbn [fst snd] in Eb', P. subst b'. revert r. apply (B _ _ _ _ Q).
    { intros r E. left. destruct P as [(m & q & Hq & Ea & Eb)|[Ea Eb]]; injection Ea as -> ->; injection Eb as -> ->.
      - destruct (m =? 46).
        + assert (T2 := twin_get q Hq). destruct (src_get (sa q)) as [a s1']. destruct (src_get (sb q)) as [b' s2'].
          destruct T2 as [(m2 & q2 & Hq2 & Ea & Eb)|[Ea Eb]]; injection Ea as -> ->; injection Eb as -> ->; [|discriminate E].
          destruct (m2 =? EOFc); [discriminate E|]. apply (twin_readDigits fuel (m2, sa q2) (m2, sb q2)); [left; exists m2, q2; auto|exact E].
        + apply Ok_inj in E. subst r. eexists. split; [reflexivity|]. split; [reflexivity|left; exists m, q; auto].
      - apply Ok_inj in E. subst r. eexists. split; [reflexivity|]. split; [reflexivity|right; split; reflexivity]. }
    clear x y b s1 s2 P. intros [[x b] s1] [[y b'] s2] r [Eb' P]. cbn [fst snd] in Eb', P. subst b'. revert r. apply (B _ _ _ _ Q).
    { intros r E. left. destruct P as [(m & q & Hq & Ea & Eb)|[Ea Eb]]; injection Ea as -> ->; injection Eb as -> ->.
      - destruct ((m =? 101) || (m =? 69)).
        + assert (T2 := twin_get q Hq). destruct (src_get (sa q)) as [a s1']. destruct (src_get (sb q)) as [b' s2']. cbv zeta in E |- *.
          destruct T2 as [(m2 & q2 & Hq2 & Ea & Eb)|[Ea Eb]]; injection Ea as -> ->; injection Eb as -> ->; [|discriminate E].
          destruct (m2 =? EOFc); [discriminate E|]. destruct ((m2 =? 45) || (m2 =? 43)).
          * assert (T3 := twin_get q2 Hq2). destruct (src_get (sa q2)) as [a s1']. destruct (src_get (sb q2)) as [b' s2'].
            destruct T3 as [(m3 & q3 & Hq3 & Ea & Eb)|[Ea Eb]]; injection Ea as -> ->; injection Eb as -> ->; [|discriminate E].
            destruct (m3 =? EOFc); [discriminate E|]. cbn [bind] in E |- *. apply (twin_readDigits fuel (m3, sa q3) (m3, sb q3)); [left; exists m3, q3; auto|exact E].
          * cbn [bind] in E |- *. apply (twin_readDigits fuel (m2, sa q2) (m2, sb q2)); [left; exists m2, q2; auto|exact E].
        + apply Ok_inj in E. subst r. eexists. split; [reflexivity|]. split; [reflexivity|left; exists m, q; auto].
      - apply Ok_inj in E. subst r. eexists. split; [reflexivity|]. split; [reflexivity|right; split; reflexivity]. }
    clear x y b s1 s2 P. intros [[x b] s1] [[y b'] s2] r [Eb' P] E. cbn [fst snd] in Eb', P. subst b'.
    destruct P as [(m & q & Hq & Ea & Eb)|[Ea Eb]]; injection Ea as -> ->; injection Eb as -> ->.
    - destruct (m =? EOFc).
      + cbn [bind] in E |- *. apply Ok_inj in E. subst r. eexists. split; [reflexivity|]. split; [reflexivity|]. exists q. auto.
      + unfold src_unget in *. cbn [s_kind s_pos s_data] in *. destruct q as [|q]; [discriminate E|]. cbn [bind] in E |- *. apply Ok_inj in E. subst r.
        eexists. split; [reflexivity|]. split; [reflexivity|]. exists q. unfold s_size. cbn [s_data lset_buf lset_src l_src]. rewrite app_length. cbn [length].
        rewrite (proj2 (Nat.leb_le q (length d))), (proj2 (Nat.leb_le q (length d + 1))) by lia. split; [lia|]. split; reflexivity.
    - change (-1 =? EOFc) with true. change (32 =? EOFc) with false in E. unfold src_unget in E. cbn [s_kind s_pos s_data bind] in E |- *. apply Ok_inj in E. subst r.
      eexists. split; [reflexivity|]. split; [reflexivity|]. exists (length d). unfold s_size. cbn [s_data lset_buf lset_src l_src]. rewrite app_length. cbn [length].
      rewrite (proj2 (Nat.leb_le (length d) (length d + 1))) by lia. split; [lia|]. split; reflexivity.
  Qed.
End AtEnd.
Lemma readNumber_end : forall fuel l t, number t -> at_src StrIn (l_src l) t -> (length t < fuel)%nat ->
  exists l', lex_readNumber fuel l = Ok l' /\ at_src StrIn (l_src l') [] /\ l_buf l' = t.
Proof.
  intros fuel l t Hn (pre & e & Es & He) Hf. destruct e; [destruct (He eq_refl); discriminate|].
  pose (l2 := lset_src l (mkSrc StrIn ((pre ++ t) ++ [32]) (length pre) true false)).
  assert (A : at_src StrIn (l_src l2) (t ++ 32 :: [])).
  { exists pre, false. split; [cbn; now rewrite app_assoc|discriminate]. }
  destruct (readNumber_ok StrIn fuel l2 t 32 [] Hn ltac:(right; exists 32, []; split; [reflexivity|left; left; reflexivity]) A Hf) as (l3 & E & A3 & B3 & _).
  destruct (twin_number (pre ++ t) fuel l l2 l3 (length pre)) as (r & E2 & B2 & q & Hq & S1 & S2); try assumption; try reflexivity.
  { rewrite app_length. lia. }
  exists r. split; [exact E2|]. split; [|congruence].
  destruct A3 as (pre3 & e3 & S3 & _). rewrite S2 in S3. injection S3 as D P _. apply app_inj_tail in D as [D _].
  exists (pre ++ t), false. split; [|discriminate]. rewrite S1, app_nil_r. f_equal. rewrite D. exact P.
Qed.

Section Copy.
  Variables (cfg : pconfig) (k : skind) (fuel : nat) (tl : bytes).
  Notation ops := (json_ops fuel (pc_conv cfg)).
  Notation at_tok l c := (mkPst (mkJp l c) TokError TokError).

  Lemma token_ev : forall l c e evs txt, at_src k (l_src l) txt -> (length txt < fuel)%nat -> reads tl c (e :: evs) txt ->
    exists l' c' body rest, getToken ops (at_tok l c) = Ok (ev_token e, at_tok l' c') /\ ev_body e body /\
      at_src k (l_src l') (if ev_open e then body ++ rest else rest) /\ (length (body ++ rest) < fuel)%nat /\
      l_tok l' = ev_tok e /\ (is_num e -> delim rest) /\ reads tl c' evs rest.
  Proof.
    intros l c e evs txt A L R. inversion R as [|c0 e0 c' lead body rest evs0 St Bd Dl Rd]; subst.
    destruct (jp_next_ev k l c e c' lead body rest St Bd A) as (l' & A1 & A2 & A3 & A4 & A5 & E).
    exists l', c', body, rest. unfold getToken. cbn [ps_pb1 ps_pb2 token_eqb negb]. unfold lift. cbn [ps_impl op_next json_ops ps_pb1 ps_pb2]. rewrite E. cbn [bind].
    rewrite !app_length in L. repeat (split; [first [reflexivity|assumption|now destruct (ev_open e)|rewrite app_length; lia]|]). exact Rd.
  Qed.
  Lemma raw_scalar : forall s body l rest, scalar_text s body -> l_tok l = tok_of s -> at_src k (l_src l) (body ++ rest) -> (length (body ++ rest) < fuel)%nat ->
    copied cfg k (Scal s) -> (is_num (EScal s) -> delim rest /\ (k = Strm -> rest <> [])) ->
    exists l', getRawString fuel l = Ok (scalar_bytes s, l') /\ at_src k (l_src l') rest.
  Proof.
    intros s body l rest H T A L C D. unfold getRawString. rewrite T. destruct H as [t Hn|raw Hr| | |]; cbn [tok_of scalar_bytes].
    - destruct (D Logic.I) as [D1 D2]. rewrite app_length in L. destruct rest as [|c r].
      { destruct k; [|now destruct (D2 eq_refl)]. rewrite app_nil_r in A. destruct (readNumber_end fuel l t Hn A ltac:(lia)) as (l' & -> & B1 & B2). cbn [bind]. exists l'. rewrite B2. auto. }
      destruct (readNumber_ok k fuel l t c r Hn D1 A ltac:(lia)) as (l' & -> & B1 & B2 & _). cbn [bind]. exists l'. rewrite B2. auto.
    - cbn [app] in A. rewrite <- app_assoc in A. cbn [app] in A. destruct (get_cons _ _ _ _ A) as (s1 & -> & H1). rewrite gchar_id by lia. apply past_at in H1.
      assert (Hne : exists c1 t1, raw ++ 34 :: rest = c1 :: t1) by (destruct raw; cbn; eauto). destruct Hne as (c1 & t1 & Ec).
      rewrite Ec in H1. destruct (get_cons _ _ _ _ H1) as (s2 & -> & H2).
      destruct (raw_loop_closed k raw rest _ (string_closed raw rest Hr) fuel 34 c1 t1 [34] s2) as (s3 & E & H3); try assumption.
      + rewrite app_length in L. cbn [length] in L. rewrite app_length in L. cbn in L. lia.
      + now apply legal_above.
      + intros _. lia.
      + rewrite E. cbn [bind app]. eexists. split; [reflexivity|]. exact H3.
    - eexists. split; [reflexivity|]. exact (ignore_at_src k (l_src l) (bs "true") rest 4 A ltac:(discriminate) eq_refl).
    - eexists. split; [reflexivity|]. exact (ignore_at_src k (l_src l) (bs "false") rest 5 A ltac:(discriminate) eq_refl).
    - eexists. split; [reflexivity|]. exact (ignore_at_src k (l_src l) (bs "null") rest 4 A ltac:(discriminate) eq_refl).
  Qed.

  (** From a state in front of the events [evs] to one in front of [evs']. *)
  Definition front (l : jlex) (c : jctl) (evs : list (ev jscal)) : Prop :=
    exists txt, at_src k (l_src l) txt /\ (length txt < fuel)%nat /\ reads tl c evs txt.
  Definition copies (j : jv) : Prop :=
    forall f l c evs out, (length (events j) <= f)%nat -> copied cfg k j -> (evs = [] -> number_followed k j tl) -> front l c (events j ++ evs) ->
    exists tk p l' c', getToken ops (at_tok l c) = Ok (tk, p) /\ any_item ops (json_raw fuel) f tk p out = Ok (out ++ compact j, at_tok l' c') /\ front l' c' evs /\
      tk <> TokArrayEnd.
  Lemma copies_scal : forall s, copies (Scal s).
  Proof.
    intros s f l c evs out F C Nf (txt & A & L & R). destruct f as [|f]; [cbn in F; lia|]. cbn [events app] in R.
    destruct (token_ev l c _ evs txt A L R) as (l1 & c1 & body & rest & E & Bd & A1 & L1 & T & D & R1). cbn [ev_open ev_tok] in *.
    inversion Bd as [| | | | |s0 t0 St]; subst.
    destruct (raw_scalar s body l1 rest St T A1 L1 C) as (l2 & E2 & A2).
    { intro Hn. split; [now apply D|]. destruct evs as [|e evs]; [|intros _; destruct (reads_cons_nonempty _ _ _ _ _ R1) as (x & r & ->); discriminate].
      inversion R1; subst. specialize (Nf eq_refl). destruct s; try contradiction. exact Nf. }
    exists TokValue, (at_tok l1 c1), l2, c1. split; [exact E|]. cbn [any_item]. unfold lift. cbn [ps_impl ps_pb1 ps_pb2]. unfold json_raw, jp_lift. cbn [jp_lex jp_ctl].
    rewrite E2. cbn [bind]. split; [reflexivity|]. split; [|discriminate]. exists rest. rewrite app_length in L1. split; [exact A2|]. split; [lia|exact R1].
  Qed.
  Lemma copies_arr : forall js, Forall copies js -> copies (Arr js).
  Proof.
    intros js H f l c evs out F C Nf (txt & A & L & R). destruct f as [|f]; [cbn in F; lia|]. cbn [events app] in R.
    destruct (token_ev l c _ _ txt A L R) as (l1 & c1 & body & rest & E & Bd & A1 & L1 & _ & _ & R1). cbn [ev_open ev_token] in *.
    exists TokArrayStart, (at_tok l1 c1). cbn [any_item].
    assert (Fr : front l1 c1 (flat_map events js ++ EArrE :: evs)).
    { exists rest. rewrite app_length in L1. rewrite <- app_assoc in R1. split; [exact A1|]. split; [lia|exact R1]. }
    assert (Ff : (length (flat_map events js) < f)%nat) by (cbn [events length] in F; rewrite app_length in F; cbn [length] in F; lia).
    cbn [copied] in C.
    assert (G : forall js, Forall copies js -> forall f l c out first, (length (flat_map events js) < f)%nat -> fold_right (fun x P => copied cfg k x /\ P) True js ->
      front l c (flat_map events js ++ EArrE :: evs) ->
      exists tk p l' c', getToken ops (at_tok l c) = Ok (tk, p) /\
        any_arr ops (json_raw fuel) f first tk p out = Ok (out ++ (if first then commas (map compact js) else flat_map (fun b => 44 :: b) (map compact js)) ++ [93], at_tok l' c') /\ front l' c' evs).
    { clear. intros js H. induction H as [|j js Hj H IH]; intros f l c out first F C (txt & A & L & R); (destruct f as [|f]; [lia|]).
      - cbn [flat_map app] in R. destruct (token_ev l c _ _ txt A L R) as (l1 & c1 & body & rest & E & Bd & A1 & L1 & _ & _ & R1). cbn [ev_open ev_token] in *.
        exists TokArrayEnd, (at_tok l1 c1), l1, c1. split; [exact E|]. split; [destruct first; reflexivity|]. exists rest. rewrite app_length in L1. split; [exact A1|]. split; [lia|exact R1].
      - cbn [flat_map] in R, F. rewrite app_length in F. rewrite <- app_assoc in R. cbn [fold_right] in C. destruct C as [Cj C].
        assert (P := size_pos j). unfold size in P.
        destruct (Hj f l c (flat_map events js ++ EArrE :: evs) (if first then out else out ++ bs ",") ltac:(lia) Cj) as (tk & p & l1 & c1 & E & E1 & Fr1 & Ne).
        { intro Q. now apply app_cons_not_nil' in Q. }
        { exists txt. auto. }
        destruct (IH f l1 c1 ((if first then out else out ++ bs ",") ++ compact j) false ltac:(lia) C Fr1) as (tk2 & p2 & l2 & c2 & E2 & E3 & Fr2).
        exists tk, p, l2, c2. split; [exact E|]. split; [|exact Fr2].
        transitivity (do (out, p) <- any_item ops (json_raw fuel) f tk p (if first then out else out ++ bs ","); do (tk, p) <- getToken ops p; any_arr ops (json_raw fuel) f false tk p out).
        { destruct tk; try reflexivity. congruence. }
        rewrite E1. cbn [bind]. rewrite E2. cbn [bind]. etransitivity; [exact E3|]. f_equal. f_equal. destruct first; cbn [map commas flat_map]; rewrite <- !app_assoc; reflexivity. }
    destruct (G js H f l1 c1 (out ++ bs "[") true Ff C Fr) as (tk & p & l2 & c2 & E2 & E3 & Fr2).
    exists l2, c2. split; [exact E|]. rewrite E2. cbn [bind]. split; [etransitivity; [exact E3|]|split; [exact Fr2|discriminate]].
    f_equal. f_equal. rewrite <- app_assoc. reflexivity.
  Qed.
  Lemma copies_obj : forall ms, Forall (fun kv => copies (snd kv)) ms -> copies (Obj ms).
  Proof.
    intros ms H f l c evs out F C Nf (txt & A & L & R). destruct f as [|f]; [cbn in F; lia|]. cbn [events app] in R. fold (member_events ms) in R.
    destruct (token_ev l c _ _ txt A L R) as (l1 & c1 & body & rest & E & Bd & A1 & L1 & _ & _ & R1). cbn [ev_open ev_token] in *.
    exists TokMapStart, (at_tok l1 c1). cbn [any_item].
    assert (Fr : front l1 c1 (member_events ms ++ EMapE :: evs)).
    { exists rest. rewrite app_length in L1. rewrite <- app_assoc in R1. split; [exact A1|]. split; [lia|exact R1]. }
    assert (Ff : (length (member_events ms) < f)%nat) by (cbn [events length] in F; fold (member_events ms) in F; rewrite app_length in F; cbn [length] in F; lia).
    cbn [copied] in C.
    pose (mt := fun kv : bytes * jv => (34 :: fst kv ++ [34]) ++ 58 :: compact (snd kv)).
    assert (G : forall ms, Forall (fun kv => copies (snd kv)) ms -> forall f l c out first, (length (member_events ms) < f)%nat ->
      fold_right (fun kv P => copied_key cfg (fst kv) /\ copied cfg k (snd kv) /\ P) True ms -> front l c (member_events ms ++ EMapE :: evs) ->
      exists tk p l' c', getToken ops (at_tok l c) = Ok (tk, p) /\
        any_map ops (json_raw fuel) f first tk p out = Ok (out ++ (if first then commas (map mt ms) else flat_map (fun b => 44 :: b) (map mt ms)) ++ [125], at_tok l' c') /\ front l' c' evs).
    { clear. intros ms H. induction H as [|[key j] ms Hj H IH]; intros f l c out first F C (txt & A & L & R); (destruct f as [|f]; [lia|]).
      - cbn [member_events flat_map app] in R. destruct (token_ev l c _ _ txt A L R) as (l1 & c1 & body & rest & E & Bd & A1 & L1 & _ & _ & R1). cbn [ev_open ev_token] in *.
        exists TokMapEnd, (at_tok l1 c1), l1, c1. split; [exact E|]. split; [destruct first; reflexivity|]. exists rest. rewrite app_length in L1. split; [exact A1|]. split; [lia|exact R1].
      - unfold member_events in R, F. cbn [flat_map fst snd] in R, F. fold (member_events ms) in R, F. cbn [length app] in R, F. rewrite app_length in F. rewrite <- app_assoc in R.
        cbn [fold_right fst snd] in C, Hj. destruct C as (Ck & Cj & C).
        destruct (token_ev l c _ _ txt A L R) as (l1 & c1 & body & rest & E & Bd & A1 & L1 & _ & _ & R1). cbn [ev_open ev_token] in *.
        inversion Bd as [| | | |k0 Lg|]; subst. cbn [app] in A1. rewrite <- app_assoc in A1. cbn [app] in A1.
        cbn [app length] in L1. rewrite !app_length in L1. cbn [length] in L1.
        destruct (getStringInto_closed k fuel (pc_conv cfg) l1 key rest _ (string_closed key rest Lg) A1 ltac:(lia)) as (s2 & A2 & E2).
        assert (K : getStringInto fuel (pc_conv cfg) l1 = Ok (key, lset_src l1 s2)).
        { etransitivity; [exact E2|]. unfold copied_key in Ck. destruct (pc_conv cfg); [rewrite (dec_same key Lg (Ck eq_refl))|]; reflexivity. }
        pose (l2 := lset_buf (lset_src l1 s2) key).
        assert (E3 : lift (op_key ops) (at_tok l1 c1) = Ok (key, at_tok l2 c1)).
        { unfold lift. cbn [ps_impl op_key json_ops ps_pb1 ps_pb2]. unfold jp_lift, getString. cbn [jp_lex jp_ctl].
          rewrite K. reflexivity. }
        destruct (Hj f l2 c1 (member_events ms ++ EMapE :: evs) ((if first then out else out ++ bs ",") ++ bs """" ++ key ++ bs """:") ltac:(lia) Cj) as (tk & p & l3 & c3 & E4 & E5 & Fr1 & _).
        { intro Q. now apply app_cons_not_nil' in Q. }
        { exists rest. split; [exact A2|]. split; [lia|exact R1]. }
        assert (P := size_pos j). unfold size in P.
        destruct (IH f l3 c3 (((if first then out else out ++ bs ",") ++ bs """" ++ key ++ bs """:") ++ compact j) false ltac:(lia) C Fr1) as (tk2 & p2 & l4 & c4 & E6 & E7 & Fr2).
        exists TokKey, (at_tok l1 c1), l4, c4. split; [exact E|]. split; [|exact Fr2].
        transitivity (do (key, p) <- lift (op_key ops) (at_tok l1 c1); do (tk, p) <- getToken ops p;
          do (out, p) <- any_item ops (json_raw fuel) f tk p ((if first then out else out ++ bs ",") ++ bs """" ++ key ++ bs """:"); do (tk, p) <- getToken ops p;
          any_map ops (json_raw fuel) f false tk p out); [reflexivity|].
        rewrite E3. cbn [bind]. rewrite E4. cbn [bind]. rewrite E5. cbn [bind]. rewrite E6. cbn [bind].
        etransitivity; [exact E7|]. f_equal. f_equal. destruct first; cbn [map commas flat_map]; unfold mt at 2; cbn [fst snd app bs]; repeat (rewrite <- app_assoc; cbn [app]); reflexivity. }
    destruct (G ms H f l1 c1 (out ++ bs "{") true Ff C Fr) as (tk & p & l2 & c2 & E2 & E3 & Fr2).
    exists l2, c2. split; [exact E|]. rewrite E2. cbn [bind]. split; [etransitivity; [exact E3|]|split; [exact Fr2|discriminate]].
    f_equal. f_equal. rewrite <- app_assoc. reflexivity.
  Qed.
  Theorem copies_all : forall j, copies j.
  Proof. apply tree_ind'; [apply copies_scal|apply copies_arr|apply copies_obj]. Qed.
End Copy.

(** The text without white space is a text of the same tree. *)
Lemma commas_cons : forall a b l, commas (a :: b :: l) = a ++ 44 :: commas (b :: l).
Proof. intros a b l. reflexivity. Qed.
Lemma spells_compact : forall j t, spells j t -> spells j (compact j).
Proof.
  apply (spells_mind (fun j _ => spells j (compact j)) (fun l _ => l <> [] /\ spells_elems l (commas (map compact l)))
    (fun l _ => l <> [] /\ spells_members l (commas (map (fun kv => (34 :: fst kv ++ [34]) ++ 58 :: compact (snd kv)) l)))).
  - intros s t H. constructor. destruct H; now constructor.
  - intros w _. exact (sp_arr_empty [] (Forall_nil _)).
  - intros l t _ [_ H]. now apply sp_arr.
  - intros w _. exact (sp_obj_empty [] (Forall_nil _)).
  - intros l t _ [_ H]. now apply sp_obj.
  - intros j t w1 w2 _ _ _ H. split; [discriminate|]. cbn [map commas flat_map]. apply (se_last j (compact j) [] []); [constructor|constructor|exact H].
  - intros j l t w1 w2 r _ _ _ H _ [N IH]. split; [discriminate|]. destruct l as [|j2 l]; [congruence|]. cbn [map] in IH |- *. rewrite commas_cons.
    apply (se_cons j (j2 :: l) (compact j) [] []); [constructor|constructor|exact H|exact IH].
  - intros key j t w1 w2 w3 w4 _ _ _ _ Lg _ H. split; [discriminate|]. cbn [map commas flat_map fst snd].
    assert (X := sm_last key j (compact j) [] [] [] [] (Forall_nil _) (Forall_nil _) (Forall_nil _) (Forall_nil _) Lg H). cbn [app] in X |- *. rewrite app_nil_r in X |- *. exact X.
  - intros key j l t w1 w2 w3 w4 r _ _ _ _ Lg _ H _ [N IH]. split; [discriminate|]. destruct l as [|kv2 l]; [congruence|]. cbn [map] in IH |- *. rewrite commas_cons. set (z := commas _) in *. clearbody z.
    assert (X := sm_cons key j (kv2 :: l) (compact j) [] [] [] [] _ (Forall_nil _) (Forall_nil _) (Forall_nil _) (Forall_nil _) Lg H IH).
    cbn [app fst snd] in X |- *. repeat (rewrite <- app_assoc in X; cbn [app] in X). repeat (rewrite <- app_assoc; cbn [app]). exact X.
Qed.

(** A whole import. *)
Theorem any_try_spec : forall k fuel cfg j w t tl out s,
  spells j t -> ws w -> ends_before j tl -> copied cfg k j -> number_followed k j tl -> at_src k s (w ++ t ++ tl) -> (length (w ++ t ++ tl) < fuel)%nat ->
  if pc_noTrailing cfg then
    (blank tl -> exists s', any_try fuel cfg out s = Ok (out ++ compact j, s') /\ src_ok s' = true /\ s_rest s' = []) /\
    (forall w' c r, tl = w' ++ c :: r -> blank w' -> is_space c = false -> any_try fuel cfg out s = Throw)
  else exists s', any_try fuel cfg out s = Ok (out ++ compact j, s') /\ at_src k s' tl.
Proof.
  intros k fuel cfg j w t tl out s Hs Hw Hd Hc Hn Ha Hf. unfold any_try.
  change (getToken (json_ops fuel (pc_conv cfg)) (pst_init (mkJp (lex_init s) ctl_init)))
    with (Ok (TokDocStart, pst_init (mkJp (lex_init s) (mkCtl [] JDone JInit true)))). cbn [bind].
  assert (Hr : reads tl (mkCtl [] JDone JInit true) (events j ++ []) (w ++ t ++ tl)).
  { apply (proj1 (spells_reads tl)); [exact Hs|now constructor|exact Hd|]. now constructor. }
  assert (Hl := reads_length _ _ _ _ Hr). rewrite app_nil_r in Hl.
  destruct (copies_all cfg k fuel tl j fuel (lex_init s) (mkCtl [] JDone JInit true) [] out ltac:(lia) Hc (fun _ => Hn)) as (tk & p & l & c & E1 & E2 & (txt & At & _ & Rd) & _).
  { exists (w ++ t ++ tl). auto. }
  unfold pst_init. rewrite E1. cbn [bind]. rewrite E2. cbn [bind ps_impl pst_init jp_lex jp_ctl ps_pb1 ps_pb2]. inversion Rd as [c0 C1 C2|]; subst.
  assert (G : forall l', getToken (json_ops fuel (pc_conv cfg)) (mkPst (mkJp l' c) TokError TokError) =
     Ok (TokDocEnd, mkPst (mkJp l' (mkCtl (c_parents c) (c_end c) JError true)) TokError TokError)).
  { intro l'. unfold getToken. cbn [ps_pb1 ps_pb2 token_eqb negb]. unfold lift. cbn [ps_impl op_next json_ops].
    unfold jp_next. cbn [jp_next_loop jp_ctl]. unfold ctl_early. rewrite C1, C2. reflexivity. }
  destruct (pc_noTrailing cfg).
  - split.
    + intro Ht. destruct (trailing_ws k _ txt At Ht) as (s' & -> & O1 & O2). cbn [bind]. rewrite G. cbn [bind]. exists s'. auto.
    + intros w' c0 r -> Hw' Hc0. rewrite (trailing_junk k _ w' c0 r At Hw' Hc0). reflexivity.
  - rewrite trailing_off. cbn [bind]. rewrite G. cbn [bind]. eexists. split; [reflexivity|]. exact At.
Qed.
