(** What a successful import has read, whatever the text. *)
From Coq Require Import ZArith List Bool Lia.
From Verif Require Import Model.Base Model.Source Model.Number Model.JsonLexer Model.ParserInterface Model.JsonParser
  Model.Types Model.Deserializer Model.Importer Spec.Lexemes Proofs.Sim Proofs.CtlP.
Import ListNotations.
Open Scope Z_scope.

(** One use of the lexer by the reader between two requests for a token. *)
Inductive lex_use (fuel : nat) (conv : bool) : jlex -> jlex -> Prop :=
| lu_key : forall l b l', getString fuel conv l = Ok (b, l') -> lex_use fuel conv l l'
| lu_str : forall l b l', getStringInto fuel conv l = Ok (b, l') -> lex_use fuel conv l l'
| lu_int : forall i l z l', lex_scanInt i l = Ok (z, l') -> lex_use fuel conv l l'
| lu_bool : forall l b l', getLastBool l = Ok (b, l') -> lex_use fuel conv l l'
| lu_skip : forall l l', ignoreRawValue fuel l = Ok l' -> lex_use fuel conv l l'
| lu_trailing : forall l s, check_trailing true (l_src l) = Ok s -> lex_use fuel conv l (lset_src l s).

(** Sessions in which the lexer is used in these ways only. *)
Inductive reader_session (fuel : nat) (conv : bool) : jparser -> list token -> list nat -> jparser -> Prop :=
| rs_start : forall p, reader_session fuel conv p [] [] p
| rs_next : forall p ts ls p1 ls1 t p2, reader_session fuel conv p ts ls p1 -> reads_token p1 ls1 t p2 ->
    reader_session fuel conv p (ts ++ [t]) (ls ++ ls1) p2
| rs_use : forall p ts ls p1 l, reader_session fuel conv p ts ls p1 -> lex_use fuel conv (jp_lex p1) l ->
    reader_session fuel conv p ts ls (mkJp l (jp_ctl p1)).

Lemma reader_session_session : forall fuel conv p ts ls q, reader_session fuel conv p ts ls q -> session p ts ls q.
Proof. intros fuel conv p ts ls q H. induction H; [constructor|econstructor; eassumption|now constructor]. Qed.

Section Inv.
  Variables (fuel : nat) (conv : bool) (p0 : jparser).
  Notation ops := (json_ops fuel conv).

  Definition Inv (p : pst jparser) : Prop :=
    exists ts ls, reader_session fuel conv p0 ts ls (ps_impl p) /\
      (ps_pb1 p = TokDocEnd -> In TokDocEnd ts) /\ (ps_pb2 p = TokDocEnd -> In TokDocEnd ts).
  Definition Rinv (p q : pst jparser) : Prop := p = q /\ Inv p.

  Definition Jnv (p : jparser) (had : bool) : Prop :=
    exists ts ls, reader_session fuel conv p0 ts ls p /\ (had = true -> In TokDocEnd ts).

  Lemma inv_push : forall t p, Inv p -> (t = TokDocEnd -> exists ts ls, reader_session fuel conv p0 ts ls (ps_impl p) /\
      In TokDocEnd ts /\ (ps_pb1 p = TokDocEnd -> In TokDocEnd ts) /\ (ps_pb2 p = TokDocEnd -> In TokDocEnd ts)) ->
    Inv (pushBackToken t p).
  Proof.
    intros t p H Ht. unfold pushBackToken.
    assert (Q : exists ts ls, reader_session fuel conv p0 ts ls (ps_impl p) /\ (t = TokDocEnd -> In TokDocEnd ts) /\
      (ps_pb1 p = TokDocEnd -> In TokDocEnd ts) /\ (ps_pb2 p = TokDocEnd -> In TokDocEnd ts)).
    { destruct (token_eqb t TokDocEnd) eqn:E.
      - assert (t = TokDocEnd) by (destruct t; try discriminate E; reflexivity).
        destruct (Ht H0) as (ts & ls & A & B & C & D). exists ts, ls. auto.
      - destruct H as (ts & ls & A & B & C). exists ts, ls. split; [exact A|]. split; [intros ->; discriminate E|auto]. }
    destruct Q as (ts & ls & A & B & C & D).
    destruct (token_eqb (ps_pb1 p) TokError); [|destruct (token_eqb (ps_pb2 p) TokError)]; exists ts, ls; cbn [ps_impl ps_pb1 ps_pb2]; auto.
  Qed.

  Lemma next_inv : forall p t p', Inv p -> getToken ops p = Ok (t, p') -> Inv p' /\ Inv (pushBackToken t p').
  Proof.
    intros p t p' H E. assert (H' := H). destruct H' as (ts & ls & A & B & C). unfold getToken in E.
    destruct (negb (token_eqb (ps_pb2 p) TokError)) eqn:E2; [|destruct (negb (token_eqb (ps_pb1 p) TokError)) eqn:E1].
    - injection E as <- <-.
      assert (G : Inv (mkPst (ps_impl p) (ps_pb1 p) TokError)) by (exists ts, ls; cbn; repeat split; auto; discriminate).
      split; [exact G|]. apply inv_push; [exact G|]. intros Ht. exists ts, ls. cbn. repeat split; auto.
    - injection E as <- <-.
      assert (G : Inv (mkPst (ps_impl p) TokError (ps_pb2 p))) by (exists ts, ls; cbn; repeat split; auto; discriminate).
      split; [exact G|]. apply inv_push; [exact G|]. intros Ht. exists ts, ls. cbn. repeat split; auto; discriminate.
    - unfold lift in E. cbn [op_next json_ops] in E. destruct (jp_next (ps_impl p)) as [[t1 q]| | |] eqn:N; try discriminate E.
      cbn [bind] in E. injection E as <- <-. apply next_reads in N as (ls1 & N).
      assert (S := rs_next _ _ _ _ _ _ _ _ _ A N).
      assert (G : Inv (mkPst q (ps_pb1 p) (ps_pb2 p))).
      { exists (ts ++ [t1]), (ls ++ ls1). cbn. repeat split; [exact S| |]; intro; apply in_app_iff; left; auto. }
      split; [exact G|]. apply inv_push; [exact G|]. intros ->. exists (ts ++ [TokDocEnd]), (ls ++ ls1).
      cbn [ps_impl ps_pb1 ps_pb2]. assert (L : In TokDocEnd (ts ++ [TokDocEnd])) by (apply in_app_iff; right; now left).
      repeat split; auto.
  Qed.

  Lemma use_inv : forall p l, Inv p -> lex_use fuel conv (jp_lex (ps_impl p)) l ->
    Inv (mkPst (mkJp l (jp_ctl (ps_impl p))) (ps_pb1 p) (ps_pb2 p)).
  Proof.
    intros p l (ts & ls & A & B) U. exists ts, ls. cbn. split; [|exact B]. econstructor; eassumption.
  Qed.

  Lemma lift_inv : forall {A} (f : jlex -> outcome (A * jlex)),
    (forall l a l', f l = Ok (a, l') -> lex_use fuel conv l l') ->
    forall p q, Rinv p q -> follows Rinv (lift (jp_lift f) p) (lift (jp_lift f) q).
  Proof.
    intros A f Hf p q [<- Hp]. unfold lift, jp_lift. destruct (f (jp_lex (ps_impl p))) as [[a l]| | |] eqn:E; cbn; auto.
    eexists. split; [reflexivity|]. split; [reflexivity|]. apply use_inv; [exact Hp|]. eapply Hf. exact E.
  Qed.

  (** Skipping a value. *)
  Definition SK (p : jparser) (o : outcome jparser) : Prop :=
    forall q, o = Ok q -> forall ts ls, reader_session fuel conv p0 ts ls p ->
      exists ts' ls', reader_session fuel conv p0 (ts ++ ts') (ls ++ ls') q.

  Lemma SK_bind : forall p m f, SK p m -> (forall q, m = Ok q -> SK q (f q)) -> SK p (bind m f).
  Proof.
    intros p m f H K q E ts ls S. destruct m as [p1| | |] eqn:Em; try discriminate E. cbn [bind] in E.
    destruct (H p1 eq_refl ts ls S) as (t1 & l1 & S1). destruct (K p1 eq_refl q E _ _ S1) as (t2 & l2 & S2).
    exists (t1 ++ t2), (l1 ++ l2). now rewrite !app_assoc.
  Qed.
  Lemma SK_next : forall p f, (forall t q, SK q (f (t, q))) -> SK p (bind (op_next ops p) f).
  Proof.
    intros p f K q E ts ls S. cbn [op_next json_ops] in E. destruct (jp_next p) as [[t p1]| | |] eqn:N; try discriminate E.
    cbn [bind] in E. apply next_reads in N as (l1 & N). assert (S1 := rs_next _ _ _ _ _ _ _ _ _ S N).
    destruct (K t p1 q E _ _ S1) as (t2 & l2 & S2). exists ([t] ++ t2), (l1 ++ l2). now rewrite !app_assoc.
  Qed.
  Lemma SK_throw : forall p, SK p Throw.
  Proof. intros p q E. discriminate E. Qed.
  Lemma SK_ret : forall p, SK p (Ok p).
  Proof. intros p q E ts ls S. injection E as <-. exists [], []. now rewrite !app_nil_r. Qed.
  Lemma SK_ignore : forall p, SK p (op_ignore ops p).
  Proof.
    intros p q E ts ls S. cbn [op_ignore json_ops] in E. unfold jp_lift_ in E.
    destruct (ignoreRawValue fuel (jp_lex p)) as [l| | |] eqn:N; try discriminate E. cbn [bind] in E. injection E as <-.
    exists [], []. rewrite !app_nil_r. econstructor; [exact S|]. now apply lu_skip.
  Qed.
  Lemma SK_ign : forall f p, SK p (ign_value ops f p) /\ SK p (ign_map ops f p) /\ SK p (ign_arr ops f p).
  Proof.
    induction f as [|f IH]; intro p; [repeat split; intros q E; discriminate E|].
    assert (IV := fun p => proj1 (IH p)). assert (IM := fun p => proj1 (proj2 (IH p))). assert (IA := fun p => proj2 (proj2 (IH p))).
    assert (MM : forall b (p : jparser), op_ignoreMap ops b p = Ok p) by reflexivity.
    assert (AA : forall b (p : jparser), op_ignoreArr ops b p = Ok p) by reflexivity.
    cbn [ign_value ign_map ign_arr]. repeat split; apply SK_next; intros t q; destruct t;
      try apply SK_throw; try apply SK_ignore; rewrite ?MM, ?AA; cbn [bind]; auto using SK_ret;
      try (apply SK_bind; [apply SK_ignore || auto|]; intros; auto using SK_throw; apply SK_bind; auto; intros; auto).
  Qed.

  Lemma inv_psim : forall F, psim ops ops F Rinv.
  Proof.
    intro F. constructor.
    - intros p q [<- H]. destruct (getToken ops p) as [[t p1]| | |] eqn:E; cbn; auto.
      destruct (next_inv _ _ _ H E) as [A B]. exists p1. split; [reflexivity|]. split; split; auto.
    - intros p q [<- H]. split; [reflexivity|]. apply inv_push; [exact H|discriminate].
    - apply lift_inv. intros. eapply lu_key; eassumption.
    - intro i. apply lift_inv. intros. eapply lu_int; eassumption.
    - apply lift_inv. intros. eapply lu_bool; eassumption.
    - apply lift_inv. intros. eapply lu_str; eassumption.
    - intros p q [<- H]. reflexivity.
    - intros p q [<- H]. cbn [op_ignore json_ops]. unfold lift_, jp_lift_.
      destruct (ignoreRawValue fuel (jp_lex (ps_impl p))) as [l| | |] eqn:E; cbn; auto.
      eexists. split; [reflexivity|]. split; [reflexivity|]. apply use_inv; [exact H|]. now apply lu_skip.
    - intros p q [<- H]. unfold lift_. destruct (ign_value ops F (ps_impl p)) as [s| | |] eqn:E; cbn; auto.
      eexists. split; [reflexivity|]. split; [reflexivity|]. destruct H as (ts & ls & A & B & C).
      destruct (proj1 (SK_ign F (ps_impl p)) s E ts ls A) as (ts' & ls' & S). exists (ts ++ ts'), (ls ++ ls'). cbn.
      repeat split; [exact S| |]; intro; apply in_app_iff; left; auto.
  Qed.
End Inv.

Theorem success_session : forall fuel cfg t v s v' s', json_try fuel cfg t v s = Ok (v', s') ->
  exists ts ls p, reader_session fuel (pc_conv cfg) (mkJp (lex_init s) ctl_init) ts ls p /\ In TokDocEnd ts /\
    g_value ls /\ l_src (jp_lex p) = s'.
Proof.
  intros fuel cfg t v s v' s' E. unfold json_try in E.
  set (ops := json_ops fuel (pc_conv cfg)) in *. set (p0 := mkJp (lex_init s) ctl_init) in *.
  assert (I0 : Inv fuel (pc_conv cfg) p0 (pst_init p0)).
  { exists [], []. cbn. repeat split; [constructor| |]; discriminate. }
  destruct (getToken ops (pst_init p0)) as [[tk p]| | |] eqn:E1; try discriminate E. cbn [bind] in E.
  destruct (next_inv _ _ _ _ _ _ I0 E1) as [I1 _]. destruct tk; try discriminate E.
  assert (D := proj1 (psim_deser ops ops fuel _ (inv_psim fuel (pc_conv cfg) p0 fuel) (pc_strict cfg) (pc_marker cfg) t) v p p (conj eq_refl I1)).
  destruct (d_parse _ v p) as [[w p1]| | |] eqn:E2; try discriminate E. cbn [bind follows] in E, D.
  destruct D as (q & _ & I2). destruct I2 as [_ I2].
  destruct (check_trailing (pc_noTrailing cfg) (l_src (jp_lex (ps_impl p1)))) as [s1| | |] eqn:E3; try discriminate E. cbn [bind] in E.
  assert (I3 : Inv fuel (pc_conv cfg) p0 (mkPst (mkJp (lset_src (jp_lex (ps_impl p1)) s1) (jp_ctl (ps_impl p1))) (ps_pb1 p1) (ps_pb2 p1))).
  { destruct (pc_noTrailing cfg).
    - apply use_inv; [exact I2|]. now constructor.
    - cbn in E3. injection E3 as <-. destruct p1 as [[[a b c d e] f] g h]. exact I2. }
  set (p2 := mkPst _ _ _) in *. clearbody p2.
  destruct (getToken ops p2) as [[tk p3]| | |] eqn:E4; try discriminate E. cbn [bind] in E.
  destruct tk; try discriminate E. injection E as <- <-.
  destruct (next_inv _ _ _ _ _ _ I3 E4) as [_ I5].
  (* the pushed back DocEnd sits in a slot, or both slots are in use *)
  assert (D : exists ts ls, reader_session fuel (pc_conv cfg) p0 ts ls (ps_impl p3) /\ In TokDocEnd ts).
  { unfold pushBackToken in I5. destruct I5 as (ts & ls & A & B & C).
    unfold getToken in E4. destruct (token_eqb (ps_pb1 p3) TokError) eqn:F1; [exists ts, ls; cbn in *; auto|].
    destruct (token_eqb (ps_pb2 p3) TokError) eqn:F2; [exists ts, ls; cbn in *; auto|].
    exfalso. destruct (negb (token_eqb (ps_pb2 p2) TokError)) eqn:G2; [|destruct (negb (token_eqb (ps_pb1 p2) TokError)) eqn:G1].
    - injection E4 as _ <-. cbn in F2. discriminate F2.
    - injection E4 as _ <-. cbn in F1. discriminate F1.
    - unfold lift in E4. destruct (op_next ops (ps_impl p2)) as [[? ?]| | |]; try discriminate E4. cbn in E4. injection E4 as _ <-.
      cbn in F2. rewrite F2 in G2. discriminate G2. }
  destruct D as (ts & ls & A & B). exists ts, ls, (ps_impl p3). repeat split; auto.
  assert (S := reader_session_session _ _ _ _ _ _ A).
  assert (P := session_phase p0 ts ls _ eq_refl S).
  inversion P as [Q1 Q2 Q3|ts' ls' c fs N1 N2 N3|ts' ls' c n N1 G|ts' ls' c n N1 N2]; subst.
  - destruct B.
  - contradiction.
  - exact G.
  - exfalso. apply in_app_iff in B as [B|[B|B]]; [auto|discriminate B|]. apply repeat_spec in B. discriminate B.
Qed.
