(** Whole imports of grammatical texts. *)
From Coq Require Import ZArith String List Bool Lia ZifyBool.
From Verif Require Import Model.Base Model.Source Model.Unicode Model.Number Model.JsonLexer Model.ParserInterface
  Model.JsonParser Model.Types Model.Deserializer Model.Importer
  Spec.JsonString Spec.Json Proofs.UnicodeP Proofs.LexP Proofs.NumberP Proofs.Sim Proofs.TreeM Proofs.JsonSim.
Import ListNotations.
Open Scope Z_scope.

(** The meaning of a tree under a configuration. *)
Definition meaning (cfg : pconfig) (k : skind) (t : ty) (v : val) (j : jv) : outcome val :=
  i_parse (interp (json_sc k (pc_conv cfg)) (pc_strict cfg) (pc_marker cfg) t) v j.

(** Trailing data check. *)
Lemma trailing_off : forall s, check_trailing false s = Ok s.
Proof. reflexivity. Qed.

Lemma blank_space : forall c, c = 32 \/ 9 <= c <= 13 -> is_space c = true.
Proof. intros c H. unfold is_space in *. lia. Qed.
Lemma ws_blank : forall w, ws w -> blank w.
Proof. intros w H. eapply Forall_impl; [|exact H]. intros c Hc. unfold ws_char in Hc. cbn. lia. Qed.
Lemma blank_or_not : forall t, blank t \/ exists w c r, t = w ++ c :: r /\ blank w /\ is_space c = false.
Proof.
  induction t as [|c t IH]; [left; constructor|]. destruct (is_space c) eqn:Q.
  - assert (c = 32 \/ 9 <= c <= 13) by (unfold is_space in Q; lia).
    destruct IH as [F|(w & x & r & -> & F & G)]; [left; now constructor|]. right. exists (c :: w), x, r. repeat split; auto. now constructor.
  - right. exists [], c, t. repeat split; auto. constructor.
Qed.
Lemma skip_space_ws : forall w r, blank w -> skip_space (w ++ r) = let '(n, q) := skip_space r in ((length w + n)%nat, q).
Proof.
  intros w r H. induction H as [|c w Hc Hw IH]; cbn [app skip_space length].
  - destruct (skip_space r). reflexivity.
  - rewrite (blank_space c Hc), IH. destruct (skip_space r). reflexivity.
Qed.

Lemma trailing_ws : forall k s w, at_src k s w -> blank w ->
  exists s', check_trailing true s = Ok s' /\ src_ok s' = true /\ s_rest s' = [].
Proof.
  intros k s w (pre & e & -> & He) Hw. unfold check_trailing, src_ok. cbn [s_good andb].
  unfold src_readChar. cbn [s_kind]. destruct k.
  - unfold s_rest. cbn [s_pos s_data]. rewrite skipn_app, skipn_all, Nat.sub_diag. cbn [skipn app].
    assert (E := skip_space_ws w [] Hw). rewrite app_nil_r in E. cbn in E. rewrite E. cbn [s_good].
    eexists. split; [reflexivity|]. split; [reflexivity|]. unfold s_rest, src_clear, set_flags, s_size. cbn [s_data s_pos]. apply skipn_all2. lia.
  - unfold strm_good. cbn [s_good s_eof andb]. destruct e; cbn [negb].
    + destruct (He eq_refl) as [_ ->]. cbn. eexists. split; [reflexivity|]. split; [reflexivity|].
      unfold s_rest. cbn. rewrite app_nil_r, skipn_all. reflexivity.
    + unfold s_rest. cbn [s_pos s_data]. rewrite skipn_app, skipn_all, Nat.sub_diag. cbn [skipn app].
      assert (E := skip_space_ws w [] Hw). rewrite app_nil_r in E. cbn in E. rewrite E. cbn [s_good].
      eexists. split; [reflexivity|]. split; [reflexivity|]. unfold s_rest, src_clear, set_flags, s_size. cbn [s_data s_pos]. apply skipn_all2. lia.
Qed.

Lemma trailing_junk : forall k s w c r, at_src k s (w ++ c :: r) -> blank w -> is_space c = false ->
  check_trailing true s = Throw.
Proof.
  intros k s w c r (pre & e & -> & He) Hw Hc. unfold check_trailing, src_ok. cbn [s_good andb].
  assert (E : skip_space (w ++ c :: r) = (length w, c :: r)).
  { rewrite (skip_space_ws w _ Hw). cbn [skip_space]. rewrite Hc. f_equal. lia. }
  unfold src_readChar. cbn [s_kind]. destruct k.
  - unfold s_rest. cbn [s_pos s_data]. rewrite skipn_app, skipn_all, Nat.sub_diag. cbn [skipn app].
    rewrite E. cbn [s_good]. unfold s_size. cbn [s_data].
    destruct (Nat.leb_spec (S (length pre + length w)) (length (pre ++ w ++ c :: r))) as [L|L]; [reflexivity|].
    rewrite !app_length in L. cbn [length] in L. lia.
  - unfold strm_good. cbn [s_good s_eof andb]. destruct e; cbn [negb].
    + destruct (He eq_refl) as [_ E2]. destruct w; discriminate E2.
    + unfold s_rest. cbn [s_pos s_data]. rewrite skipn_app, skipn_all, Nat.sub_diag. cbn [skipn app].
      rewrite E. reflexivity.
Qed.

(** What a whole import of a grammatical text followed by [tl] does. *)
Theorem json_try_spec : forall k fuel cfg j w t tl ty v s,
  spells j t -> ws w -> ends_before j tl -> at_src k s (w ++ t ++ tl) ->
  (length (w ++ t ++ tl) < fuel)%nat ->
  match meaning cfg k ty v j with
  | Ok v' =>
      if pc_noTrailing cfg then
        (blank tl -> exists s', json_try fuel cfg ty v s = Ok (v', s') /\ src_ok s' = true /\ s_rest s' = []) /\
        (forall w' c r, tl = w' ++ c :: r -> blank w' -> is_space c = false -> json_try fuel cfg ty v s = Throw)
      else exists s', json_try fuel cfg ty v s = Ok (v', s') /\ at_src k s' tl
  | Throw => json_try fuel cfg ty v s = Throw
  | UB => json_try fuel cfg ty v s = UB
  | Hang => True
  end.
Proof.
  intros k fuel cfg j w t tl ty v s Hs Hw Hd Ha Hf. unfold json_try.
  change (getToken (json_ops fuel (pc_conv cfg)) (pst_init (mkJp (lex_init s) ctl_init)))
    with (Ok (TokDocStart, pst_init (mkJp (lex_init s) (mkCtl [] JDone JInit true)))). cbn [bind].
  assert (P := json_parse k (pc_conv cfg) fuel fuel (pc_strict cfg) (pc_marker cfg) j w t tl ty v s Hs Hw Hd Ha Hf ltac:(lia)).
  cbv zeta in P. unfold meaning.
  destruct (i_parse _ v j) as [v'| | |]; try exact I; try (rewrite P; reflexivity).
  destruct P as (l & c & -> & C1 & C2 & At). cbn [bind ps_impl pst_init jp_lex jp_ctl ps_pb1 ps_pb2].
  assert (G : forall l', getToken (json_ops fuel (pc_conv cfg)) (mkPst (mkJp l' c) TokError TokError) =
     Ok (TokDocEnd, mkPst (mkJp l' (mkCtl (c_parents c) (c_end c) JError true)) TokError TokError)).
  { intro l'. unfold getToken. cbn [ps_pb1 ps_pb2 token_eqb negb]. unfold lift. cbn [ps_impl op_next json_ops].
    unfold jp_next. cbn [jp_next_loop jp_ctl]. unfold ctl_early. rewrite C1, C2. reflexivity. }
  destruct (pc_noTrailing cfg).
  - split.
    + intro Ht. destruct (trailing_ws k _ tl At Ht) as (s' & -> & O1 & O2). cbn [bind]. rewrite G. cbn [bind].
      exists s'. auto.
    + intros w' c0 r -> Hw' Hc0. rewrite (trailing_junk k _ w' c0 r At Hw' Hc0). reflexivity.
  - rewrite trailing_off. cbn [bind]. rewrite G. cbn [bind]. eexists. split; [reflexivity|]. exact At.
Qed.

(** From the fuel bounded runs to the observations. *)
Lemma at_ok_rest : forall k s tl, at_src k s tl -> src_ok s = true /\ s_rest s = tl.
Proof. intros k s tl H. split; [|exact (rest_at _ _ _ H)]. destruct H as (pre & e & -> & _). reflexivity. Qed.

Section Observe.
  Variables (cfg : pconfig) (k : skind) (j : jv) (w t tl : bytes) (ty : ty) (v : val).
  Hypotheses (Hs : spells j t) (Hw : ws w) (Hd : ends_before j tl).

  Lemma observe_imports : forall v', meaning cfg k ty v j = Ok v' -> pc_noTrailing cfg = false ->
    imports cfg k ty v (w ++ t ++ tl) v' tl.
  Proof.
    intros v' Hm Hn. exists (S (length (w ++ t ++ tl))). intros fuel Hf. unfold json_extract.
    assert (P := json_try_spec k fuel cfg j w t tl ty v _ Hs Hw Hd (at_init k _) ltac:(lia)). rewrite Hm, Hn in P.
    destruct P as (s' & -> & At). exists s'. split; [reflexivity|]. exact (at_ok_rest _ _ _ At).
  Qed.
  Lemma observe_throw : meaning cfg k ty v j = Throw -> rejects cfg k ty v (w ++ t ++ tl).
  Proof.
    intros Hm. exists (S (length (w ++ t ++ tl))). intros fuel Hf. unfold json_extract.
    assert (P := json_try_spec k fuel cfg j w t tl ty v _ Hs Hw Hd (at_init k _) ltac:(lia)). rewrite Hm in P.
    rewrite P. exact I.
  Qed.
  Lemma observe_ub : meaning cfg k ty v j = UB -> undefined cfg k ty v (w ++ t ++ tl).
  Proof.
    intros Hm. exists (S (length (w ++ t ++ tl))). intros fuel Hf. unfold json_extract.
    assert (P := json_try_spec k fuel cfg j w t tl ty v _ Hs Hw Hd (at_init k _) ltac:(lia)). rewrite Hm in P.
    rewrite P. reflexivity.
  Qed.
End Observe.

Lemma ws_delim : forall j w, ws w -> ends_before j w.
Proof. intros j w H. apply delim_ends. destruct H as [|c w Hc Hw]; [now left|]. right. exists c, w. tauto. Qed.

Section Document.
  Variables (cfg : pconfig) (k : skind) (j : jv) (text : bytes) (ty : ty) (v : val).
  Hypothesis (Hdoc : document j text).

  Lemma doc_imports : forall v', meaning cfg k ty v j = Ok v' ->
    exists rest, ws rest /\ imports cfg k ty v text v' rest.
  Proof.
    intros v' Hm. destruct Hdoc as [j w1 t w2 Hw1 Hs Hw2]. destruct (pc_noTrailing cfg) eqn:Hn.
    - exists []. split; [constructor|]. exists (S (length (w1 ++ t ++ w2))). intros fuel Hf. unfold json_extract.
      assert (P := json_try_spec k fuel cfg j w1 t w2 ty v _ Hs Hw1 (ws_delim j _ Hw2) (at_init k _) ltac:(lia)). rewrite Hm, Hn in P.
      destruct (proj1 P (ws_blank _ Hw2)) as (s' & -> & Q). exists s'. split; [reflexivity|exact Q].
    - exists w2. split; [exact Hw2|]. apply observe_imports with (j := j); auto. now apply ws_delim.
  Qed.
  Lemma doc_throw : meaning cfg k ty v j = Throw -> rejects cfg k ty v text.
  Proof.
    intros Hm. destruct Hdoc as [j w1 t w2 Hw1 Hs Hw2]. apply observe_throw with (j := j); auto. now apply ws_delim.
  Qed.
  Lemma doc_ub : meaning cfg k ty v j = UB -> undefined cfg k ty v text.
  Proof.
    intros Hm. destruct Hdoc as [j w1 t w2 Hw1 Hs Hw2]. apply observe_ub with (j := j); auto. now apply ws_delim.
  Qed.
End Document.

(** The observations exclude each other. *)
Lemma imports_unique : forall cfg k ty v text v1 r1 v2 r2,
  imports cfg k ty v text v1 r1 -> imports cfg k ty v text v2 r2 -> v1 = v2 /\ r1 = r2.
Proof.
  intros cfg k ty v text v1 r1 v2 r2 [N1 H1] [N2 H2].
  destruct (H1 (N1 + N2)%nat ltac:(lia)) as (s1 & E1 & _ & <-). destruct (H2 (N1 + N2)%nat ltac:(lia)) as (s2 & E2 & _ & <-).
  rewrite E1 in E2. injection E2 as -> ->. auto.
Qed.
Lemma imports_not_rejects : forall cfg k ty v text v1 r1,
  imports cfg k ty v text v1 r1 -> rejects cfg k ty v text -> False.
Proof.
  intros cfg k ty v text v1 r1 [N1 H1] [N2 H2].
  destruct (H1 (N1 + N2)%nat ltac:(lia)) as (s1 & E1 & O & _). assert (F := H2 (N1 + N2)%nat ltac:(lia)).
  rewrite E1 in F. cbn in F. congruence.
Qed.
Lemma undefined_not_imports : forall cfg k ty v text v1 r1,
  imports cfg k ty v text v1 r1 -> undefined cfg k ty v text -> False.
Proof.
  intros cfg k ty v text v1 r1 [N1 H1] [N2 H2].
  destruct (H1 (N1 + N2)%nat ltac:(lia)) as (s1 & E1 & O & _). assert (F := H2 (N1 + N2)%nat ltac:(lia)). congruence.
Qed.
Lemma undefined_not_rejects : forall cfg k ty v text,
  rejects cfg k ty v text -> undefined cfg k ty v text -> False.
Proof.
  intros cfg k ty v text [N1 H1] [N2 H2].
  assert (F1 := H1 (N1 + N2)%nat ltac:(lia)). rewrite (H2 (N1 + N2)%nat ltac:(lia)) in F1. exact F1.
Qed.
