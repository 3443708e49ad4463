(** Documents that consist of a single scalar: what an arbitrary text does. *)
From Coq Require Import ZArith String List Bool Lia ZifyBool.
From Verif Require Import Model.Base Model.Source Model.Unicode Model.Number Model.JsonLexer Model.ParserInterface Model.JsonParser
  Model.Types Model.Deserializer Model.Importer Spec.JsonString Spec.Json Proofs.Tac Proofs.UnicodeP Proofs.LexP Proofs.JsonSim.
Import ListNotations.
Open Scope Z_scope.

(** ** Strings without an end *)
Lemma unclosed_split : forall n r, (List.length r <= n)%nat -> unclosed r -> Forall (fun c => c <> 34) r \/
  exists a r', r = a ++ 34 :: r' /\ Forall (fun c => c <> 34) a /\ in_escape false a = true /\ unclosed r'.
Proof.
  induction n as [|n IH]; intros r L H.
  - destruct r; [left; constructor|cbn in L; lia].
  - assert (L' := L). destruct H as [| |c r H1 H2 H|c r H]; cbn [List.length] in L'.
    + left. constructor.
    + left. repeat constructor. lia.
    + destruct (IH r ltac:(lia) H) as [F|(a & r' & -> & Ha & Hi & Hr)].
      * left. now constructor.
      * right. exists (c :: a), r'. split; [reflexivity|]. split; [now constructor|]. split; [|exact Hr].
        cbn [in_escape]. destruct (Z.eqb_spec c 92); [contradiction|exact Hi].
    + destruct (Z.eq_dec c 34) as [->|Hc].
      * right. exists [92], r. repeat split; [repeat constructor; lia|exact H].
      * destruct (IH r ltac:(lia) H) as [F|(a & r' & -> & Ha & Hi & Hr)].
        -- left. constructor; [lia|now constructor].
        -- right. exists (92 :: c :: a), r'. split; [reflexivity|]. split; [constructor; [lia|now constructor]|]. split; [|exact Hr].
           cbn [in_escape]. exact Hi.
Qed.

Lemma split_none : forall a, Forall (fun c => c <> 34) a -> split_at 34 a = (a, false).
Proof. intros a H. induction H as [|c a Hc H IH]; [reflexivity|]. cbn. rewrite IH. destruct (Z.eqb_spec c 34); [contradiction|reflexivity]. Qed.
Lemma readTo_end : forall s a dst, at_src StrIn s a -> Forall (fun c => c <> 34) a ->
  exists s', src_readTo s dst 34 = Ok (a, s') /\ src_ok s' = false /\ (forall d, src_readTo s' d 34 = Throw).
Proof.
  intros s a dst (pre & e & -> & He) F. unfold src_readTo, s_size, s_rest. cbn [s_kind s_data s_pos].
  rewrite skipn_app_len, (split_none a F). replace (Nat.ltb _ _) with false by (symmetry; apply Nat.ltb_ge; rewrite app_length; lia).
  eexists. split; [reflexivity|]. unfold src_ok. cbn [s_good s_kind s_data s_pos]. split; [apply Nat.leb_gt; rewrite app_length; lia|].
  intro d. replace (Nat.ltb _ _) with true by (symmetry; apply Nat.ltb_lt; rewrite app_length; lia). reflexivity.
Qed.

Lemma string_loop_unclosed : forall n fuel value tmp s r, (List.length r <= n)%nat -> (S n < fuel)%nat -> unclosed r -> at_src StrIn s r ->
  string_loop fuel value tmp s = Throw \/ exists v s', string_loop fuel value tmp s = Ok (v, s') /\ src_ok s' = false.
Proof.
  induction n as [|n IH]; intros fuel value tmp s r L Hf U A; (destruct fuel as [|fuel]; [lia|]); cbn [string_loop].
  all: destruct (unclosed_split _ r (le_n _) U) as [F|(a & r' & -> & Ha & Hi & Hr)].
  - destruct (readTo_end s r tmp A F) as (s' & -> & O & T). cbn [bind]. destruct (checkEscape r).
    + destruct fuel; [lia|]. cbn [string_loop]. rewrite T. now left.
    + right. eauto.
  - rewrite app_length in L. cbn in L. lia.
  - destruct (readTo_end s r tmp A F) as (s' & -> & O & T). cbn [bind]. destruct (checkEscape r).
    + destruct fuel; [lia|]. cbn [string_loop]. rewrite T. now left.
    + right. eauto.
  - destruct (readTo_at_src StrIn s a r' tmp A Ha) as (s' & -> & A'). cbn [bind]. rewrite checkEscape_in_escape, Hi.
    apply (IH fuel _ a s' r'); auto; [|lia]. rewrite app_length in L. cbn [List.length] in L. lia.
Qed.

Lemma getStringInto_unclosed : forall fuel conv l r, unclosed r -> at_src StrIn (l_src l) (34 :: r) -> (S (List.length r) < fuel)%nat ->
  getStringInto fuel conv l = Throw \/ exists v l', getStringInto fuel conv l = Ok (v, l') /\ src_ok (l_src l') = false.
Proof.
  intros fuel conv l r U A Hf. unfold getStringInto. destruct (get_cons StrIn (l_src l) 34 _ A) as (s1 & -> & H1).
  rewrite gchar_id by lia. rewrite Z.eqb_refl. cbn [negb]. apply past_at in H1.
  assert (G : forall (o : outcome (bytes * src)), (o = Throw \/ exists v s', o = Ok (v, s') /\ src_ok s' = false) ->
    (do (value, s2) <- o; do value0 <- (if conv then unescape_inplace value else Ok value); Ok (value0, lset_src l s2)) = Throw \/
    exists v l', (do (value, s2) <- o; do value0 <- (if conv then unescape_inplace value else Ok value); Ok (value0, lset_src l s2)) = Ok (v, l') /\ src_ok (l_src l') = false).
  { intros o [->|(v & s' & -> & O)]; [now left|]. cbn [bind]. destruct conv.
    - rewrite unescape_inplace_dec. destruct (dec_cases _ v (le_n _)) as [[x ->]| ->]; [right|now left]. eexists _, _. split; [reflexivity|exact O].
    - right. eexists _, _. split; [reflexivity|exact O]. }
  destruct (unclosed_split _ r (le_n _) U) as [F|(a & r' & -> & Ha & Hi & Hr)].
  - destruct (readTo_end s1 r [] H1 F) as (s2 & -> & O & T). cbn [bind]. apply G. destruct (checkEscape r); [|right; eauto].
    destruct fuel; [lia|]. cbn [string_loop]. rewrite T. now left.
  - destruct (readTo_at_src StrIn s1 a r' [] H1 Ha) as (s2 & -> & H2). cbn [bind]. apply G. rewrite checkEscape_in_escape, Hi.
    rewrite app_length in Hf. cbn [List.length] in Hf. apply (string_loop_unclosed (List.length r') fuel a [] s2 r'); auto. lia.
Qed.

(** ** The import of a document that starts with a scalar *)
Definition value_fun (fuel : nat) (conv : bool) (t : ty) : option (jlex -> outcome (val * jlex)) :=
  match t with
  | TInt i => Some (fun l => do (z, l') <- lex_scanInt i l; Ok (VInt z, l'))
  | TBool => Some (fun l => do (b, l') <- getLastBool l; Ok (VBool b, l'))
  | TStr => Some (fun l => do (b, l') <- getStringInto fuel conv l; Ok (VStr b, l'))
  | _ => None
  end.
Lemma root_value : forall fuel cfg k t v f w c r, value_fun fuel (pc_conv cfg) t = Some f ->
  ws w -> is_space c = false -> is_punct c = false -> 0 <= c < 128 ->
  exists l, at_src k (l_src l) (c :: r) /\ l_tok l = lextok c /\ l_bool l = lexbool c false /\ l_buf l = [] /\
    json_try fuel cfg t v (src_init k (w ++ c :: r)) =
    (do (a, l') <- f l; do s' <- check_trailing (pc_noTrailing cfg) (l_src l'); Ok (a, s')).
Proof.
  intros fuel cfg k t v f w c r Hf Hw Hs Hp Hc.
  destruct (yylex_at k (lex_init (src_init k (w ++ c :: r))) w c r (at_init k _) Hw Hs Hc) as (s' & Y & A). rewrite Hp in A.
  match type of Y with _ = Ok (_, ?l) => exists l end. split; [exact A|]. split; [reflexivity|]. split; [reflexivity|]. split; [reflexivity|].
  unfold json_try.
  change (getToken (json_ops fuel (pc_conv cfg)) (pst_init (mkJp (lex_init (src_init k (w ++ c :: r))) ctl_init)))
    with (Ok (TokDocStart, pst_init (mkJp (lex_init (src_init k (w ++ c :: r))) (mkCtl [] JDone JInit true)))). cbn [bind].
  set (l := mkLex s' _ _ _ _) in *.
  assert (G : getToken (json_ops fuel (pc_conv cfg)) (pst_init (mkJp (lex_init (src_init k (w ++ c :: r))) (mkCtl [] JDone JInit true))) =
     Ok (TokValue, pst_init (mkJp l (mkCtl [] JDone JDone true)))).
  { unfold getToken, pst_init. cbn [ps_pb1 ps_pb2 token_eqb negb]. unfold lift. cbn [ps_impl op_next json_ops]. unfold jp_next. cbn [jp_next_loop jp_ctl].
    unfold ctl_early. cbn [c_started negb c_state jp_lex]. rewrite Y. cbn [bind]. unfold ctl_step. cbn [c_state].
    assert (S : stateTable JInit (lexix c) = JValueD).
    { unfold is_punct in Hp. unfold lexix. repeat match goal with |- context [if c =? ?x then _ else _] => destruct (Z.eqb_spec c x); [try lia; subst; try discriminate; try reflexivity|] end. reflexivity. }
    rewrite S. reflexivity. }
  assert (H : forall l' a, (do (tk, p) <- getToken (json_ops fuel (pc_conv cfg)) (mkPst (mkJp l' (mkCtl [] JDone JDone true)) TokError TokError);
     match tk with TokDocEnd => Ok (a : val, l_src (jp_lex (ps_impl p))) | _ => Throw end) = Ok (a, l_src l')) by reflexivity.
  assert (K : forall A (g : jlex -> outcome (A * jlex)) (mk : A -> val),
    (do (v', p) <- read_value (json_ops fuel (pc_conv cfg)) (jp_lift g) mk (pst_init (mkJp (lex_init (src_init k (w ++ c :: r))) (mkCtl [] JDone JInit true)));
     do s1 <- check_trailing (pc_noTrailing cfg) (l_src (jp_lex (ps_impl p)));
     let p := mkPst (mkJp (lset_src (jp_lex (ps_impl p)) s1) (jp_ctl (ps_impl p))) (ps_pb1 p) (ps_pb2 p) in
     do (tk, p) <- getToken (json_ops fuel (pc_conv cfg)) p;
     match tk with TokDocEnd => Ok (v', l_src (jp_lex (ps_impl p))) | _ => Throw end) =
    (do (a, l') <- (do (z, l') <- g l; Ok (mk z, l')); do s' <- check_trailing (pc_noTrailing cfg) (l_src l'); Ok (a, s'))).
  { intros A0 g mk. unfold read_value. rewrite G. cbn [bind]. unfold lift, jp_lift, pst_init. cbn [ps_impl jp_lex jp_ctl].
    destruct (g l) as [[a l']| | |]; cbn [bind ps_impl jp_lex jp_ctl ps_pb1 ps_pb2]; try reflexivity. }
  destruct t; try discriminate Hf; injection Hf as <-; cbn [deser d_parse]; apply K.
Qed.

Lemma trailing_bad : forall on s, src_ok s = false -> check_trailing on s = Ok s.
Proof. intros on s H. unfold check_trailing. rewrite H. now destruct on. Qed.

(** ** Literals *)
Lemma read_at_gen : forall k s txt n, at_src k s txt -> exists s', src_read s n = Ok (firstn n txt, s') /\
  ((n <= List.length txt)%nat -> (0 < n)%nat -> at_src k s' (skipn n txt)).
Proof.
  intros k s txt n A. destruct (le_lt_dec n (List.length txt)) as [L|L].
  - destruct n as [|n].
    + destruct A as (pre & e & -> & He). unfold src_read, s_size, s_rest, strm_good. cbn [s_kind s_data s_pos s_good s_eof firstn].
      destruct k; [rewrite (proj2 (Nat.ltb_ge _ _)) by (rewrite app_length; lia)|destruct (_ && _)]; eexists; (split; [reflexivity|lia]).
    + assert (E := firstn_skipn (S n) txt). rewrite <- E in A.
      assert (N : firstn (S n) txt <> []) by (destruct txt; [cbn in L; lia|discriminate]).
      destruct (read_at_src k s _ _ A N) as (s' & R & A'). rewrite firstn_length_le in R by exact L. eauto.
  - destruct A as (pre & e & -> & He). unfold src_read, s_size, s_rest, strm_good. cbn [s_kind s_data s_pos s_good s_eof].
    rewrite skipn_app_len. rewrite (firstn_all2 (n := n)) by lia. destruct k.
    + rewrite (proj2 (Nat.ltb_ge _ _)) by (rewrite app_length; lia). eexists. split; [reflexivity|lia].
    + destruct (true && negb e) eqn:G.
      * rewrite (proj2 (Nat.ltb_lt _ _) L). eexists. split; [reflexivity|lia].
      * assert (e = true) by (destruct e; [reflexivity|discriminate G]). destruct (He H) as [_ ->]. eexists. split; [reflexivity|cbn in *; lia].
Qed.
Lemma checkFixed_exact : forall k l check l' txt, at_src k (l_src l) txt -> l_buf l = [] -> Forall (fun c => c <> 0) check -> check <> [] ->
  checkFixed l check = Ok l' -> exists rest, txt = check ++ rest /\ at_src k (l_src l') rest.
Proof.
  intros k l check l' txt A B F N E. unfold checkFixed in E. destruct (read_at_gen k _ txt (List.length check) A) as (s' & R & A').
  rewrite R in E. cbn [bind] in E. rewrite B in E. unfold resize in E. rewrite firstn_nil in E. cbn [app List.length] in E. rewrite Nat.sub_0_r in E.
  destruct (beq _ check) eqn:Q; [|discriminate E]. injection E as <-. apply beq_eq in Q. cbn [l_src lset_buf lset_src].
  destruct (le_lt_dec (List.length check) (List.length txt)) as [L|L].
  - rewrite firstn_length_le in Q by exact L. rewrite skipn_all2 in Q by (rewrite repeat_length; lia). rewrite app_nil_r in Q.
    exists (skipn (List.length check) txt). split; [rewrite <- (firstn_skipn (List.length check) txt) at 1; now rewrite Q|].
    apply A'; [exact L|]. destruct check; [contradiction|cbn; lia].
  - exfalso. rewrite firstn_all2 in Q by lia. rewrite <- Q in F. apply Forall_app in F as [_ F].
    assert (K : forall m p, (p < m)%nat -> ~ Forall (fun c : Z => c <> 0) (skipn p (repeat 0 m))).
    { induction m as [|m IH]; intros [|p] Hp G; try lia; cbn in G.
      - inversion G; congruence.
      - apply (IH p); [lia|exact G]. }
    exact (K _ _ L F).
Qed.
Lemma getLastBool_exact : forall k l b l' txt, at_src k (l_src l) txt -> l_buf l = [] -> getLastBool l = Ok (b, l') ->
  b = l_bool l /\ exists rest, at_src k (l_src l') rest /\
  ((l_tok l = LTrue /\ txt = bs "true" ++ rest) \/ (l_tok l = LFalse /\ txt = bs "false" ++ rest)).
Proof.
  intros k l b l' txt A B E. unfold getLastBool in E.
  assert (K : forall check, (do l' <- checkFixed l check; Ok (l_bool l', l')) = Ok (b, l') -> checkFixed l check = Ok l' /\ b = l_bool l).
  { intros check Ec. destruct (checkFixed l check) as [l1| | |] eqn:Q; try discriminate Ec. injection Ec as <- <-. split; [reflexivity|].
    unfold checkFixed in Q. destruct (src_read _ _) as [[g s]| | |]; try discriminate Q. cbn [bind] in Q. destruct (beq _ _); [|discriminate Q].
    now injection Q as <-. }
  destruct (l_tok l) eqn:T; try discriminate E; apply K in E as [E ->]; (split; [reflexivity|]);
    (apply (checkFixed_exact k l _ l' txt A B) in E as (rest & -> & A'); [exists rest; auto| |discriminate]);
    tbytes || (repeat constructor; lia).
Qed.
Lemma trailing_at : forall k on s s' txt, at_src k s txt -> check_trailing on s = Ok s' ->
  (on = false /\ s' = s) \/ (on = true /\ Forall (fun c => is_space c = true) txt).
Proof.
  intros k on s s' txt A E. unfold check_trailing in E. destruct on; [|injection E as <-; now left]. right. split; [reflexivity|].
  rewrite (at_ok k s txt A) in E. cbn [andb] in E.
  assert (S : forall t : bytes, Forall (fun c => is_space c = true) t \/ exists w c r, t = w ++ c :: r /\ Forall (fun x => is_space x = true) w /\ is_space c = false).
  { induction t as [|c t IH]; [left; constructor|]. destruct (is_space c) eqn:Q.
    - destruct IH as [F|(w & x & r & -> & F & G)]; [left; now constructor|]. right. exists (c :: w), x, r. repeat split; auto.
    - right. exists [], c, t. repeat split; auto. }
  destruct (S txt) as [F|(w & c & r & -> & F & G)]; [exact F|]. exfalso.
  destruct (readChar_at k s w c r A F G) as (s1 & R & P). rewrite R in E. apply past_at, at_ok in P. rewrite P in E. discriminate E.
Qed.

(** ** Numbers *)
Lemma scan_zero : forall k i l d r, at_src k (l_src l) (48 :: d :: r) -> 49 <= d <= 57 -> lex_scanInt i l = Throw.
Proof.
  intros k i l d r A Hd. unfold lex_scanInt, src_scanInt, checkZero. rewrite (peek_cons k _ 48 _ A), gchar_id by lia.
  change (48 =? 48) with true. cbn iota. destruct (get_cons k _ 48 _ A) as (s1 & -> & P). apply past_at in P.
  rewrite (peek_cons k s1 d _ P), gchar_id by lia. replace ((49 <=? d) && (d <=? 57)) with true by lia. reflexivity.
Qed.
Lemma scan_plus : forall i l r, at_src StrIn (l_src l) (43 :: r) -> lex_scanInt i l = Throw.
Proof.
  intros i l r A. unfold lex_scanInt, src_scanInt, checkZero. rewrite (peek_cons StrIn _ 43 _ A), gchar_id by lia.
  change (43 =? 48) with false. cbn iota. cbn [bind]. rewrite (at_kind _ _ _ A).
  apply at_cons_inv in A as (pre & ->). unfold s_size, s_rest. cbn [s_data s_pos]. rewrite skipn_app_len.
  rewrite (proj2 (Nat.ltb_ge _ _)) by (rewrite app_length; lia).
  assert (F : from_chars i (43 :: r) = FcInvalid) by reflexivity. rewrite F. unfold validateResult. destruct (src_peek _) as [c s1]. reflexivity.
Qed.
