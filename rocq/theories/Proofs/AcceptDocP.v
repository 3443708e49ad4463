(** The reader of any type stays within the lexemes of a JSON document. *)
From Coq Require Import ZArith String List Bool Lia ZifyBool.
From Verif Require Import Model.Base Model.Source Model.Unicode Model.Number Model.JsonLexer Model.ParserInterface Model.JsonParser Model.Types
  Model.Deserializer Model.Importer
  Spec.JsonString Spec.Json Spec.Lexemes Spec.Import Spec.Accepted Proofs.UnicodeP Proofs.LexP Proofs.CtlP Proofs.JsonSim Proofs.Induct Proofs.RootP Proofs.AcceptP.
Import ListNotations.
Open Scope Z_scope.

Lemma lexix_scalar : forall c, is_punct c = false -> (7 <= lexix c)%nat.
Proof.
  intros c P. unfold is_punct in P. unfold lexix. repeat match goal with |- context [if c =? ?x then _ else _] => destruct (Z.eqb_spec c x); [subst; try discriminate P; lia|] end. lia.
Qed.
Lemma lexix_le : forall c, (1 <= lexix c <= 13)%nat.
Proof. intro c. unfold lexix. repeat match goal with |- context [if c =? ?x then _ else _] => destruct (Z.eqb_spec c x); [lia|] end. lia. Qed.
Lemma lexix_punct : forall c, is_punct c = true -> starts_lexeme c (lexix c) /\ (lexix c <= 6)%nat /\ c <> 110.
Proof.
  intros c P. assert (H : c = 123 \/ c = 125 \/ c = 91 \/ c = 93 \/ c = 44 \/ c = 58) by (unfold is_punct in P; lia).
  destruct H as [->|[->|[->|[->|[->| ->]]]]]; (split; [constructor|split; [cbn; lia|lia]]).
Qed.
Lemma lexix_quote : forall c, lexix c = 10%nat -> c = 34.
Proof. intros c. unfold lexix. repeat match goal with |- context [if c =? ?x then _ else _] => destruct (Z.eqb_spec c x); [try discriminate; auto|] end. discriminate. Qed.

Section Doc.
  Variables (cfg : pconfig) (k : skind) (text0 : bytes) (Btext : bytes_ok text0) (fuel : nat).
  Notation L := (lexeme cfg k).
  Notation ops := (json_ops fuel (pc_conv cfg)).
  Notation psrc p := (l_src (jp_lex p)).

  Definition Settled (p : jparser) : Prop :=
    exists ls a rest, crun started_init ls = Some (jp_ctl p) /\ lexes L ls a /\ text0 = a ++ rest /\ at_src k (psrc p) rest.
  (** A lexeme starts with [c] behind [ls]. *)
  Definition Begun (p : jparser) (c : Z) (r : bytes) : Prop :=
    exists ls a w, crun started_init (ls ++ [lexix c]) = Some (jp_ctl p) /\ lexes L ls a /\ text0 = a ++ w ++ c :: r /\ blank w /\
      is_space c = false /\ is_punct c = false.
  Definition Over (p : jparser) : Prop := exhausted k (psrc p) /\ exists c r, Begun p c r.
  Definition Pending (p : jparser) : Prop :=
    exists c r, Begun p c r /\ at_src k (psrc p) (c :: r) /\ l_tok (jp_lex p) = lextok c /\ l_null (jp_lex p) = (c =? 110).
  Definition PendEof (p : jparser) : Prop := exhausted k (psrc p) /\ l_tok (jp_lex p) = LNumber /\ l_null (jp_lex p) = false.
  Definition SO (p : jparser) : Prop := Settled p \/ Over p.
  Definition Dead (p : jparser) : Prop := c_state (jp_ctl p) = JError /\ c_started (jp_ctl p) = true.

  Lemma rest_ok : forall a rest, text0 = a ++ rest -> bytes_ok rest.
  Proof. intros a rest ->. now apply Forall_app in Btext as [_ H]. Qed.

  (** ** One lexeme *)
  Lemma lex_step : forall p ix l c', Settled p -> yylex (jp_lex p) = Ok (ix, l) -> cstep (jp_ctl p) ix = Some c' ->
    ((ix <= 6)%nat /\ Settled (mkJp l c') /\ l_null l = false) \/ ((7 <= ix)%nat /\ Pending (mkJp l c')) \/ (ix = 13%nat /\ PendEof (mkJp l c')).
  Proof.
    intros p ix l c' (ls & a & rest & R & X & T & A) Y S.
    assert (R' : crun started_init (ls ++ [ix]) = Some c') by (rewrite crun_app, R; cbn [crun]; now rewrite S).
    destruct (yylex_any k _ rest A (rest_ok _ _ T)) as [(w & c & r & l' & -> & W & Sc & E & Tk & Nl & A')|(W & l' & E & Ex & Tk & Nl)];
      rewrite E in Y; injection Y as <- <-.
    - destruct (is_punct c) eqn:P.
      + left. destruct (lexix_punct c P) as (St & Le & N). split; [exact Le|]. split.
        * exists (ls ++ [lexix c]), (a ++ w ++ [c]), r. split; [exact R'|]. split; [apply lx_snoc; [exact X|exact W|left; now constructor]|].
          split; [now rewrite T, <- !app_assoc|exact A'].
        * rewrite Nl. lia.
      + right. left. split; [now apply lexix_scalar|]. exists c, r. split; [|split; [exact A'|split; [now apply Tk|exact Nl]]].
        exists ls, a, w. repeat (split; [assumption|]). exact P.
    - right. right. split; [reflexivity|]. split; [exact Ex|]. split; [exact Tk|exact Nl].
  Qed.
  Lemma lex_over : forall p ix l, Over p -> yylex (jp_lex p) = Ok (ix, l) -> ix = 13%nat.
  Proof. intros p ix l [X _] Y. destruct (over_yylex _ _ X) as (s' & E & _). congruence. Qed.
  Lemma over_state : forall p, Over p -> c_state (jp_ctl p) <> JInit /\ c_state (jp_ctl p) <> JOpenA /\ c_state (jp_ctl p) <> JError.
  Proof.
    intros p [_ (c & r & ls & a & w & R & _ & _ & _ & _ & P)]. assert (H := lexix_scalar c P). assert (H' := lexix_le c).
    rewrite crun_app in R. destruct (crun started_init ls) as [c1|]; [|discriminate R]. cbn [crun] in R. destruct (cstep c1 (lexix c)) as [c2|] eqn:S; [|discriminate R].
    injection R as <-. unfold cstep in S. destruct (lex_cases _ (conj H (proj2 H'))) as [E|[E|[E|[E|[E|[E|E]]]]]]; rewrite E in S;
      destruct c1 as [cp ce cs ct]; unfold ctl_step in S; cbn [c_state c_parents c_end c_started] in S; destruct cs; cbn in S; try discriminate S; injection S as <-; cbn; repeat split; discriminate.
  Qed.

  Inductive After (ps : list jstate) (e : jstate) : token -> jparser -> Prop :=
  | af_value : forall p, jp_ctl p = C ps e e -> Pending p \/ PendEof p -> After ps e TokValue p
  | af_map : forall p s, jp_ctl p = C (e :: ps) JValueM s -> s = JOpenM \/ s = JValueM -> SO p -> l_null (jp_lex p) = false -> After ps e TokMapStart p
  | af_arr : forall p, jp_ctl p = C (e :: ps) JValueA JOpenA -> Settled p -> l_null (jp_lex p) = false -> After ps e TokArrayStart p.

  Lemma start_lex : forall p ps e s ix l t c', jp_ctl p = C ps e s -> vstart s e -> Settled p -> yylex (jp_lex p) = Ok (ix, l) ->
    ctl_step (jp_ctl p) ix = Ok (StepTok t c') ->
    After ps e t (mkJp l c') \/ (t = TokError /\ Dead (mkJp l c')) \/ (ix = 4%nat /\ s = JOpenA).
  Proof.
    intros p ps e s ix l t c' Ec V St Y S.
    assert (K : cstep (jp_ctl p) ix = Some c' -> After ps e t (mkJp l c') \/ (t = TokError /\ Dead (mkJp l c')) \/ (ix = 4%nat /\ s = JOpenA)).
    { intro Q. destruct (lex_step p ix l c' St Y Q) as [(Le & St' & Nl)|[(Ge & Pe)|(E13 & Pe)]]; rewrite Ec in S.
      - do 7 (destruct ix as [|ix]; [destruct V; cbn in S; first [right; right; split; reflexivity|injection S as <- <-; first [right; left; split; [reflexivity|split; reflexivity]
          |left; eapply af_map; [reflexivity|left; reflexivity|left; exact St'|exact Nl]|left; apply af_arr; [reflexivity|exact St'|exact Nl]]]|]). lia.
      - do 14 (destruct ix as [|ix]; [destruct V; cbn in S; try lia; try discriminate S; injection S as <- <-; left; (apply af_value; [reflexivity|left; exact Pe])|]).
        destruct V; discriminate Q || (rewrite Ec in Q; discriminate Q).
      - subst ix. destruct V; cbn in S; injection S as <- <-; left; apply af_value; try reflexivity; right; exact Pe. }
    destruct (cstep (jp_ctl p) ix) as [c1|] eqn:Q.
    - assert (c1 = c'); [|subst; now apply K]. unfold cstep in Q. rewrite S in Q. rewrite Ec in Q. cbn [C c_state] in Q. destruct V; cbn in Q; destruct t; congruence.
    - right. left. unfold cstep in Q. rewrite S in Q. rewrite Ec in Q, S. cbn [C c_state] in Q.
      assert (t = TokError) by (destruct V; destruct t; congruence). subst t. split; [reflexivity|]. unfold ctl_step in S. unfold C in S. cbn [c_state c_parents c_end c_started] in S.
      destruct (stateTable s ix) eqn:Z; try discriminate S; try (injection S as <-; split; reflexivity); destruct ps; discriminate S.
  Qed.

  Definition Tok (ps : list jstate) (e : jstate) (t : token) (p : jparser) : Prop := After ps e t p \/ (Dead p /\ t = TokError).

  Lemma next_value : forall p ps e s t p', jp_ctl p = C ps e s -> (s = JInit /\ e = JDone) \/ (s = JKey /\ e = JValueM) -> SO p ->
    jp_next p = Ok (t, p') -> Tok ps e t p'.
  Proof.
    intros p ps e s t p' Ec Hs H E. apply next_reads in E as [ls0 E]. destruct E as [p t c E|p ix l t c E Y S|p ix l c ls1 t p' E Y S R].
    - rewrite Ec in E. destruct Hs as [[-> ->]|[-> ->]]; discriminate E.
    - destruct Hs as [[-> ->]|[-> ->]].
      + destruct H as [H|H]; [|exfalso; destruct (over_state _ H) as [N _]; rewrite Ec in N; now apply N].
        destruct (start_lex _ _ _ _ _ _ _ _ Ec vs_init H Y S) as [Af|[[-> D]|[_ X]]]; [now left|right; split; [exact D|reflexivity]|discriminate X].
      + right. rewrite Ec in S. do 14 (destruct ix as [|ix]; [cbn in S; try discriminate S; injection S as <- <-; (split; [split; reflexivity|reflexivity])|]).
        cbn in S. injection S as <- <-. split; [split; reflexivity|reflexivity].
    - destruct Hs as [[-> ->]|[-> ->]].
      + exfalso. rewrite Ec in S. do 14 (destruct ix as [|ix]; [discriminate S|]). discriminate S.
      + assert (ix = 6%nat /\ c = C ps JValueM JColon) as [-> ->].
        { rewrite Ec in S. do 14 (destruct ix as [|ix]; [cbn in S; try discriminate S; injection S as <-; split; reflexivity|]). discriminate S. }
        destruct H as [H|H]; [|apply (lex_over _ _ _ H) in Y; discriminate Y].
        destruct (lex_step p 6 l (C ps JValueM JColon) H Y) as [(_ & St & _)|[(Z & _)|(Z & _)]]; [rewrite Ec; reflexivity| |lia|discriminate Z].
        remember (mkJp l (C ps JValueM JColon)) as q eqn:Eq. assert (Eqc : jp_ctl q = C ps JValueM JColon) by now subst q. clear Eq S Y Ec H.
        destruct R as [q t c E1|q ix l1 t c E1 Y S|q ix l1 c ls2 t p' E1 Y S R].
        * rewrite Eqc in E1. discriminate E1.
        * destruct (start_lex _ _ _ _ _ _ _ _ Eqc vs_colon St Y S) as [Af|[[-> D]|[_ X]]]; [now left|right; split; [exact D|reflexivity]|discriminate X].
        * exfalso. refine (no_again _ _ _ _ S). rewrite Eqc. now left.
  Qed.

  Lemma next_map : forall p ps e s t p', jp_ctl p = C (e :: ps) JValueM s -> s = JOpenM \/ s = JValueM -> SO p -> jp_next p = Ok (t, p') ->
    (t = TokMapEnd /\ jp_ctl p' = C ps e e /\ Settled p') \/ (t = TokKey /\ jp_ctl p' = C (e :: ps) JValueM JKey /\ Pending p') \/ (Dead p' /\ t = TokError).
  Proof.
    intros p ps e s t p' Ec Hs H E. apply next_reads in E as [ls0 E].
    assert (K : forall q ix l t c st, jp_ctl q = C (e :: ps) JValueM st -> st = JOpenM \/ st = JValueM \/ st = JCommaM -> SO q -> yylex (jp_lex q) = Ok (ix, l) -> ctl_step (jp_ctl q) ix = Ok (StepTok t c) ->
      (t = TokMapEnd /\ c = C ps e e /\ Settled (mkJp l c)) \/ (t = TokKey /\ c = C (e :: ps) JValueM JKey /\ Pending (mkJp l c)) \/ (Dead (mkJp l c) /\ t = TokError)).
    { intros q ix l t0 c st Eq Hst Hq Y S. rewrite Eq in S.
      assert (Z : (ix = 2%nat /\ t0 = TokMapEnd /\ c = C ps e e) \/ (ix = 10%nat /\ t0 = TokKey /\ c = C (e :: ps) JValueM JKey) \/ (t0 = TokError /\ c = C (e :: ps) JValueM JError)).
      { destruct Hst as [->|[->| ->]]; do 14 (destruct ix as [|ix]; [cbn in S; try discriminate S; injection S as <- <-; tauto|]); cbn in S; injection S as <- <-; tauto. }
      assert (Nx : ix <> 13%nat -> Settled q) by (intro N; destruct Hq as [Hq|Hq]; [exact Hq|apply (lex_over _ _ _ Hq) in Y; contradiction]).
      destruct Z as [(-> & -> & ->)|[(-> & -> & ->)|(-> & ->)]].
      - left. split; [reflexivity|]. split; [reflexivity|]. destruct (lex_step q 2 l (C ps e e) (Nx ltac:(discriminate)) Y) as [(_ & St & _)|[(Z & _)|(Z & _)]]; [|exact St|lia|discriminate Z].
        rewrite Eq. unfold cstep. destruct Hst as [->|[->| ->]]; cbn in S |- *; try discriminate S; reflexivity.
      - right. left. split; [reflexivity|]. split; [reflexivity|]. destruct (lex_step q 10 l (C (e :: ps) JValueM JKey) (Nx ltac:(discriminate)) Y) as [(Z & _)|[(_ & Pe)|(Z & _)]]; [|lia|exact Pe|discriminate Z].
        rewrite Eq. unfold cstep. destruct Hst as [->|[->| ->]]; cbn in S |- *; try discriminate S; reflexivity.
      - right. right. split; [split; reflexivity|reflexivity]. }
    destruct E as [p t c E|p ix l t c E Y S|p ix l c ls1 t p' E Y S R].
    - rewrite Ec in E. destruct Hs as [->| ->]; discriminate E.
    - exact (K p ix l t c s Ec ltac:(tauto) H Y S).
    - assert (ix = 5%nat /\ c = C (e :: ps) JValueM JCommaM /\ s = JValueM) as (-> & -> & ->).
      { rewrite Ec in S. destruct Hs as [->| ->]; do 14 (destruct ix as [|ix]; [cbn in S; try discriminate S; injection S as <-; repeat split; reflexivity|]); discriminate S. }
      destruct H as [H|H]; [|apply (lex_over _ _ _ H) in Y; discriminate Y].
      destruct (lex_step p 5 l (C (e :: ps) JValueM JCommaM) H Y) as [(_ & St & _)|[(Z & _)|(Z & _)]]; [rewrite Ec; reflexivity| |lia|discriminate Z].
      remember (mkJp l (C (e :: ps) JValueM JCommaM)) as q eqn:Eq. assert (Eqc : jp_ctl q = C (e :: ps) JValueM JCommaM) by now subst q. clear Eq S Y Ec H.
      destruct R as [q t c E1|q ix l1 t c E1 Y S|q ix l1 c ls2 t p' E1 Y S R].
      + rewrite Eqc in E1. discriminate E1.
      + exact (K q ix l1 t c JCommaM Eqc ltac:(tauto) (or_introl St) Y S).
      + exfalso. refine (no_again _ _ _ _ S). rewrite Eqc. tauto.
  Qed.

  Lemma next_arr : forall p ps e s t p', jp_ctl p = C (e :: ps) JValueA s -> s = JOpenA \/ s = JValueA -> SO p -> jp_next p = Ok (t, p') ->
    (t = TokArrayEnd /\ jp_ctl p' = C ps e e /\ Settled p') \/ Tok (e :: ps) JValueA t p'.
  Proof.
    intros p ps e s t p' Ec Hs H E. apply next_reads in E as [ls0 E].
    assert (Cl : forall q l st, jp_ctl q = C (e :: ps) JValueA st -> st = JOpenA \/ st = JValueA -> Settled q -> yylex (jp_lex q) = Ok (4%nat, l) -> Settled (mkJp l (C ps e e))).
    { intros q l st Eq Hst Hq Y. destruct (lex_step q 4 l (C ps e e) Hq Y) as [(_ & St & _)|[(Z & _)|(Z & _)]]; [|exact St|lia|discriminate Z].
      rewrite Eq. destruct Hst as [->| ->]; reflexivity. }
    destruct E as [p t c E|p ix l t c E Y S|p ix l c ls1 t p' E Y S R].
    - rewrite Ec in E. destruct Hs as [->| ->]; discriminate E.
    - destruct Hs as [->| ->].
      + destruct H as [H|H]; [|exfalso; destruct (over_state _ H) as (_ & N & _); rewrite Ec in N; now apply N].
        destruct (start_lex _ _ _ _ _ _ _ _ Ec vs_opena H Y S) as [Af|[[-> D]|[-> _]]]; [right; now left|right; right; split; [exact D|reflexivity]|].
        left. rewrite Ec in S. cbn in S. injection S as <- <-. split; [reflexivity|]. split; [reflexivity|]. exact (Cl _ _ _ Ec (or_introl eq_refl) H Y).
      + destruct (Nat.eq_dec ix 4) as [->|N4].
        * left. destruct H as [H|H]; [|apply (lex_over _ _ _ H) in Y; discriminate Y]. assert (St := Cl _ _ _ Ec (or_intror eq_refl) H Y).
          rewrite Ec in S. cbn in S. injection S as <- <-. split; [reflexivity|]. split; [reflexivity|]. exact St.
        * right. right. rewrite Ec in S. do 14 (destruct ix as [|ix]; [cbn in S; try discriminate S; try congruence; injection S as <- <-; (split; [split; reflexivity|reflexivity])|]).
          cbn in S. injection S as <- <-. split; [split; reflexivity|reflexivity].
    - assert (ix = 5%nat /\ c = C (e :: ps) JValueA JCommaA) as (-> & ->).
      { rewrite Ec in S. destruct Hs as [->| ->]; do 14 (destruct ix as [|ix]; [cbn in S; try discriminate S; injection S as <-; split; reflexivity|]); discriminate S. }
      destruct H as [H|H]; [|apply (lex_over _ _ _ H) in Y; discriminate Y].
      destruct (lex_step p 5 l (C (e :: ps) JValueA JCommaA) H Y) as [(_ & St & _)|[(Z & _)|(Z & _)]]; [|  |lia|discriminate Z].
      { rewrite Ec in S |- *. destruct Hs as [->| ->]; [discriminate S|reflexivity]. }
      remember (mkJp l (C (e :: ps) JValueA JCommaA)) as q eqn:Eq. assert (Eqc : jp_ctl q = C (e :: ps) JValueA JCommaA) by now subst q. clear Eq S Y Ec H.
      destruct R as [q t c E1|q ix l1 t c E1 Y S|q ix l1 c ls2 t p' E1 Y S R].
      + rewrite Eqc in E1. discriminate E1.
      + destruct (start_lex _ _ _ _ _ _ _ _ Eqc vs_comma St Y S) as [Af|[[-> D]|[_ X]]]; [right; now left|right; right; split; [exact D|reflexivity]|discriminate X].
      + exfalso. refine (no_again _ _ _ _ S). rewrite Eqc. tauto.
  Qed.
  Lemma next_dead : forall p t p', Dead p -> jp_next p = Ok (t, p') -> t = TokError /\ Dead p'.
  Proof.
    intros p t p' [D1 D2] E. unfold jp_next in E. cbn [jp_next_loop] in E. unfold ctl_early in E. rewrite D1, D2 in E. cbn [negb] in E. injection E as <- <-. split; [reflexivity|]. now split.
  Qed.

  (** ** Values *)
  Lemma took : forall p l' c r x rest, Begun p c r -> c :: r = x ++ rest -> L (lexix c) x -> at_src k (l_src l') rest -> Settled (mkJp l' (jp_ctl p)).
  Proof.
    intros p l' c r x rest (ls & a & w & R & X & T & W & _) E Lx A. exists (ls ++ [lexix c]), (a ++ w ++ x), rest.
    split; [exact R|]. split; [now apply lx_snoc|]. split; [|exact A]. rewrite T, E, <- !app_assoc. reflexivity.
  Qed.
  Lemma ended : forall p l' c r, Begun p c r -> exhausted k (l_src l') -> Over (mkJp l' (jp_ctl p)).
  Proof. intros p l' c r B X. split; [exact X|]. exists c, r. exact B. Qed.
  Lemma begun_ok : forall p c r, Begun p c r -> bytes_ok (c :: r).
  Proof. intros p c r (ls & a & w & _ & _ & T & _). apply (rest_ok (a ++ w)). now rewrite T, <- app_assoc. Qed.

  Definition reads_one {A} (f : jparser -> outcome (A * jparser)) : Prop :=
    forall p a p', Pending p \/ PendEof p -> f p = Ok (a, p') -> SO p' /\ jp_ctl p' = jp_ctl p.
  Lemma int_head : forall x, int_text k x -> exists c r, x = c :: r /\ lexix c = 13%nat.
  Proof.
    intros x H. assert (D : forall ds, Forall digit ds -> ds <> [] -> exists c r, ds = c :: r /\ lexix c = 13%nat).
    { intros [|d ds] F N; [congruence|]. inversion F as [|? ? Hd _]; subst. exists d, ds. split; [reflexivity|]. unfold digit in Hd. unfold lexix.
      repeat match goal with |- context [if d =? ?y then _ else _] => destruct (Z.eqb_spec d y); [lia|] end. reflexivity. }
    destruct H as [sg ds [->| ->] [N F]|sg sg' ds [->| ->] Hs F N]; cbn [app]; [exact (D ds F N)|now exists 45, ds| |now exists 45, (sg' ++ ds)].
    destruct Hs as [->|[->| ->]]; cbn [app] in N |- *; [exact (D ds F N)|now exists 45, ds|now exists 43, ds].
  Qed.
  Lemma ops_int : forall i, reads_one (op_int ops i).
  Proof.
    intros i p a p' H E. cbn [op_int json_ops] in E. unfold jp_lift in E. destruct (lex_scanInt i (jp_lex p)) as [[z l']| | |] eqn:Q; try discriminate E. cbn [bind] in E. injection E as <- <-.
    split; [|reflexivity]. destruct H as [(c & r & B & A & Tk & Nl)|(X & _)]; [|exfalso; exact (int_over _ _ _ _ _ X Q)].
    destruct (int_took k i _ _ _ c r A (begun_ok _ _ _ B) Q) as (x & rest & Ex & It & Nz & A' & _). left. refine (took p l' c r x rest B Ex _ A').
    destruct (int_head x It) as (c' & r' & -> & Lx). cbn [app] in Ex. injection Ex as -> _. rewrite Lx. left. now constructor.
  Qed.
  Lemma ops_bool : reads_one (op_bool ops).
  Proof.
    intros p a p' H E. cbn [op_bool json_ops] in E. unfold jp_lift in E. destruct (getLastBool (jp_lex p)) as [[z l']| | |] eqn:Q; try discriminate E. cbn [bind] in E. injection E as <- <-.
    split; [|reflexivity]. unfold getLastBool in Q. destruct H as [(c & r & B & A & Tk & Nl)|(_ & Tk & _)]; rewrite Tk in Q; [|discriminate Q].
    assert (T : (c = 116 /\ lextok c = LTrue) \/ (c = 102 /\ lextok c = LFalse) \/ (lextok c <> LTrue /\ lextok c <> LFalse)).
    { unfold lextok. destruct (is_punct c); [right; right; split; discriminate|]. destruct (Z.eqb_spec c 116); [left; auto|]. destruct (Z.eqb_spec c 102); [right; left; auto|].
      right. right. destruct (c =? 110); [|destruct (c =? 34)]; split; discriminate. }
    destruct T as [[-> T]|[[-> T]|[T1 T2]]].
    - rewrite T in Q. destruct (checkFixed (jp_lex p) (bs "true")) as [l1| | |] eqn:F; try discriminate Q. cbn [bind] in Q. injection Q as _ <-.
      destruct (fixed_took k _ (bs "true") _ _ A ltac:(vm_compute; discriminate) F) as [_ [(rest & Ex & A')|X]]; [left; refine (took p l1 _ r _ rest B Ex _ A'); left; constructor|right; exact (ended p l1 _ r B X)].
    - rewrite T in Q. destruct (checkFixed (jp_lex p) (bs "false")) as [l1| | |] eqn:F; try discriminate Q. cbn [bind] in Q. injection Q as _ <-.
      destruct (fixed_took k _ (bs "false") _ _ A ltac:(vm_compute; discriminate) F) as [_ [(rest & Ex & A')|X]]; [left; refine (took p l1 _ r _ rest B Ex _ A'); left; constructor|right; exact (ended p l1 _ r B X)].
    - destruct (lextok c); congruence.
  Qed.
  Lemma ops_str : forall p a p', Pending p \/ PendEof p -> op_str ops p = Ok (a, p') -> SO p' /\ jp_ctl p' = jp_ctl p /\ l_null (jp_lex p') = false.
  Proof.
    intros p a p' H E. cbn [op_str json_ops] in E. unfold jp_lift in E. destruct (getStringInto fuel (pc_conv cfg) (jp_lex p)) as [[z l']| | |] eqn:Q; try discriminate E. cbn [bind] in E. injection E as <- <-.
    destruct H as [(c & r & B & A & Tk & Nl)|(X & _)]; [|exfalso; exact (str_over _ _ _ _ _ _ X Q)].
    destruct (str_took k fuel _ _ _ _ c r A (begun_ok _ _ _ B) Q) as (-> & Nu & H). cbn [jp_ctl jp_lex]. rewrite Nu, Nl. split; [|split; reflexivity].
    destruct H as [(raw & t & -> & [Cl Lo] & A')|X]; [left|right; exact (ended p l' _ r B X)].
    refine (took p l' _ _ (34 :: raw ++ [34]) t B _ _ A'); [cbn [app]; now rewrite <- app_assoc|]. left. now constructor.
  Qed.
  Lemma ops_key : forall p a p', Pending p -> op_key ops p = Ok (a, p') -> SO p' /\ jp_ctl p' = jp_ctl p.
  Proof.
    intros p a p' H E. cbn [op_key json_ops] in E. unfold jp_lift, getString in E. destruct (getStringInto fuel (pc_conv cfg) (jp_lex p)) as [[z l']| | |] eqn:Q; try discriminate E. cbn [bind] in E. injection E as <- <-.
    assert (S := ops_str p z (mkJp l' (jp_ctl p)) (or_introl H)). cbn [op_str json_ops] in S. unfold jp_lift in S. rewrite Q in S. destruct (S eq_refl) as (St & _ & _). split; [|reflexivity].
    exact St.
  Qed.
  Lemma ops_null : forall p p', Pending p -> l_null (jp_lex p) = true -> op_ignore ops p = Ok p' -> SO p' /\ jp_ctl p' = jp_ctl p.
  Proof.
    intros p p' (c & r & B & A & Tk & Nl) N E. cbn [op_ignore json_ops] in E. unfold jp_lift_, ignoreRawValue in E. rewrite N in Nl. assert (c = 110) by lia. subst c.
    rewrite Tk in E. change (lextok 110) with LNull in E. cbv iota in E. cbn [bind] in E. injection E as <-. split; [|reflexivity].
    destruct (ignore_any k _ _ 4 A ltac:(lia)) as [[Le A']|X]; [left|right; exact (ended p (lset_src (jp_lex p) _) _ r B X)].
    destruct r as [|x [|y [|z r]]]; try (cbn in Le; lia). refine (took p (lset_src (jp_lex p) _) _ _ [110; x; y; z] r B eq_refl _ A'). left. constructor.
  Qed.
  Lemma ops_skip : forall p p', pc_strict cfg = Weak -> Pending p \/ PendEof p -> op_ignore ops p = Ok p' -> SO p' /\ jp_ctl p' = jp_ctl p.
  Proof.
    intros p p' We H E. cbn [op_ignore json_ops] in E. unfold jp_lift_ in E. destruct (ignoreRawValue fuel (jp_lex p)) as [l'| | |] eqn:Q; try discriminate E. cbn [bind] in E. injection E as <-.
    split; [|reflexivity]. unfold ignoreRawValue in Q. destruct H as [(c & r & B & A & Tk & Nl)|(X & Tk & _)]; rewrite Tk in Q.
    2:{ exfalso. unfold lex_readNumber in Q. destruct (over_get _ _ X) as [G _]. destruct (src_get (psrc p)) as [n s]. cbn [fst] in G. subst n. discriminate Q. }
    assert (P : is_punct c = false) by (destruct B as (? & ? & ? & _ & _ & _ & _ & _ & P); exact P). assert (Bo := begun_ok _ _ _ B).
    unfold lextok in Q. rewrite P in Q.
    destruct (Z.eqb_spec c 116) as [->|N1]; [|destruct (Z.eqb_spec c 102) as [->|N2]; [|destruct (Z.eqb_spec c 110) as [->|N3]; [|destruct (Z.eqb_spec c 34) as [->|N4]]]].
    - injection Q as <-. destruct (ignore_any k _ _ 4 A ltac:(lia)) as [[Le A']|X]; [left|right; exact (ended p (lset_src (jp_lex p) _) _ r B X)].
      destruct r as [|x [|y [|z r]]]; try (cbn in Le; lia). refine (took p (lset_src (jp_lex p) _) _ _ [116; x; y; z] r B eq_refl _ A'). right. split; [exact We|constructor].
    - injection Q as <-. destruct (ignore_any k _ _ 5 A ltac:(lia)) as [[Le A']|X]; [left|right; exact (ended p (lset_src (jp_lex p) _) _ r B X)].
      destruct r as [|x [|y [|z [|u r]]]]; try (cbn in Le; lia). refine (took p (lset_src (jp_lex p) _) _ _ [102; x; y; z; u] r B eq_refl _ A'). right. split; [exact We|constructor].
    - injection Q as <-. destruct (ignore_any k _ _ 4 A ltac:(lia)) as [[Le A']|X]; [left|right; exact (ended p (lset_src (jp_lex p) _) _ r B X)].
      destruct r as [|x [|y [|z r]]]; try (cbn in Le; lia). refine (took p (lset_src (jp_lex p) _) _ _ [110; x; y; z] r B eq_refl _ A'). right. split; [exact We|constructor].
    - destruct (get_cons _ _ _ _ A) as (s1 & G & Pa). rewrite G in Q. apply past_at in Pa. destruct (src_get s1) as [n s2] eqn:G2.
      destruct (skip_string_loop fuel (gchar k 34) n s2) as [s3| | |] eqn:SL; try discriminate Q. cbn [bind] in Q. injection Q as <-.
      destruct (skip_took k fuel s1 34 n s2 s3 r Pa ltac:(now inversion Bo) ltac:(unfold byte_ok; lia) G2 SL) as (raw & t & -> & A' & Sk & N255).
      left. refine (took p (lset_src (jp_lex p) s3) _ _ (34 :: raw ++ [34]) t B _ _ A'); [cbn [app]; now rewrite <- app_assoc|]. right. split; [exact We|]. constructor.
      + intros a b E. destruct (skipraw_quotes _ _ Sk a b E) as [[_ Z]|Z]; [discriminate Z|exact Z].
      + split; [|exact N255]. intros r E. apply (skipraw_end _ _ Sk (34 :: r)). now rewrite E.
    - destruct (number_took k fuel _ _ _ A Bo Q) as [_ [(x & rest & Ex & Sx & A')|X]]; [left|right; exact (ended p l' _ r B X)].
      refine (took p l' _ r x rest B Ex _ A'). right. split; [exact We|].
      assert (Lx : lexix c = 13%nat); [|now rewrite Lx]. unfold lexix. unfold is_punct in P.
      repeat match goal with |- context [if c =? ?y then _ else _] => destruct (Z.eqb_spec c y); [subst; try discriminate P; congruence|] end. reflexivity.
  Qed.

  (** ** Skipping a value *)
  Lemma ign_value_eq : forall n s, ign_value ops (Datatypes.S n) s =
    do (t, s) <- op_next ops s;
    match t with
    | TokValue => op_ignore ops s
    | TokMapStart => do s <- op_ignoreMap ops true s; ign_map ops n s
    | TokArrayStart => do s <- op_ignoreArr ops true s; ign_arr ops n s
    | _ => Throw
    end.
  Proof. reflexivity. Qed.
  Lemma ign_map_eq : forall n s, ign_map ops (Datatypes.S n) s =
    do (t, s) <- op_next ops s;
    match t with
    | TokMapEnd => op_ignoreMap ops false s
    | _ => do s <- op_ignore ops s; match t with TokKey => do s <- ign_value ops n s; ign_map ops n s | _ => Throw end
    end.
  Proof. reflexivity. Qed.
  Lemma ign_arr_eq : forall n s, ign_arr ops (Datatypes.S n) s =
    do (t, s) <- op_next ops s;
    match t with
    | TokArrayEnd => op_ignoreArr ops false s
    | TokValue => do s <- op_ignore ops s; ign_arr ops n s
    | TokMapStart => do s <- op_ignoreMap ops true s; do s <- ign_map ops n s; ign_arr ops n s
    | TokArrayStart => do s <- op_ignoreArr ops true s; do s <- ign_arr ops n s; ign_arr ops n s
    | _ => Throw
    end.
  Proof. reflexivity. Qed.
  Lemma skips : pc_strict cfg = Weak -> forall n,
    (forall p p' ps e s, jp_ctl p = C ps e s -> (s = JInit /\ e = JDone) \/ (s = JKey /\ e = JValueM) -> SO p ->
       ign_value ops n p = Ok p' -> jp_ctl p' = C ps e e /\ SO p') /\
    (forall p p' ps e s, jp_ctl p = C (e :: ps) JValueM s -> s = JOpenM \/ s = JValueM -> SO p -> ign_map ops n p = Ok p' -> jp_ctl p' = C ps e e /\ SO p') /\
    (forall p p' ps e s, jp_ctl p = C (e :: ps) JValueA s -> s = JOpenA \/ s = JValueA -> SO p -> ign_arr ops n p = Ok p' -> jp_ctl p' = C ps e e /\ SO p').
  Proof.
    intros We. induction n as [|n (IV & IM & IA)]; [split; [|split]; intros p p' ps e s _ _ _ E; discriminate E|]. split; [|split]; intros p p' ps e s Ec Hs H E.
    - rewrite ign_value_eq in E. destruct (op_next ops p) as [[t p1]| | |] eqn:Nx; try discriminate E. cbn [bind] in E. cbn [op_next json_ops] in Nx.
      destruct (next_value _ _ _ _ _ _ Ec Hs H Nx) as [Af|[D Nt]].
      + destruct Af as [p1 Ec1 H1|p1 s1 Ec1 Hs1 H1 _|p1 Ec1 H1 _].
        * destruct (ops_skip _ _ We H1 E) as [H' Ec']. split; [congruence|exact H'].
        * cbn [op_ignoreMap json_ops bind] in E. exact (IM _ _ _ _ _ Ec1 Hs1 H1 E).
        * cbn [op_ignoreArr json_ops bind] in E. exact (IA _ _ _ _ _ Ec1 (or_introl eq_refl) (or_introl H1) E).
      + subst t. discriminate E.
    - rewrite ign_map_eq in E. destruct (op_next ops p) as [[t p1]| | |] eqn:Nx; try discriminate E. cbn [bind] in E. cbn [op_next json_ops] in Nx.
      destruct (next_map _ _ _ _ _ _ Ec Hs H Nx) as [(-> & Ec1 & H1)|[(-> & Ec1 & H1)|[D ->]]].
      + cbn [op_ignoreMap json_ops] in E. injection E as <-. split; [exact Ec1|now left].
      + destruct (op_ignore ops p1) as [p2| | |] eqn:Q; try discriminate E. cbn [bind] in E. destruct (ops_skip _ _ We (or_introl H1) Q) as [H2 Ec2].
        destruct (ign_value ops n p2) as [p3| | |] eqn:Q3; try discriminate E. cbn [bind] in E.
        destruct (IV p2 p3 (e :: ps) JValueM JKey ltac:(congruence) ltac:(right; split; reflexivity) H2 Q3) as [Ec3 H3].
        exact (IM _ _ _ _ _ Ec3 (or_intror eq_refl) H3 E).
      + destruct (op_ignore ops p1); discriminate E.
    - rewrite ign_arr_eq in E. destruct (op_next ops p) as [[t p1]| | |] eqn:Nx; try discriminate E. cbn [bind] in E. cbn [op_next json_ops] in Nx.
      destruct (next_arr _ _ _ _ _ _ Ec Hs H Nx) as [(-> & Ec1 & H1)|[Af|[D ->]]]; [|destruct Af as [p1 Ec1 H1|p1 s1 Ec1 Hs1 H1 _|p1 Ec1 H1 _]|discriminate E].
      + cbn [op_ignoreArr json_ops] in E. injection E as <-. split; [exact Ec1|now left].
      + destruct (op_ignore ops p1) as [p2| | |] eqn:Q; try discriminate E. cbn [bind] in E. destruct (ops_skip _ _ We H1 Q) as [H2 Ec2].
        exact (IA p2 p' ps e JValueA ltac:(congruence) (or_intror eq_refl) H2 E).
      + cbn [op_ignoreMap json_ops bind] in E. destruct (ign_map ops n p1) as [p2| | |] eqn:Q; try discriminate E. cbn [bind] in E.
        destruct (IM _ _ _ _ _ Ec1 Hs1 H1 Q) as [Ec2 H2]. exact (IA _ _ _ _ _ Ec2 (or_intror eq_refl) H2 E).
      + cbn [op_ignoreArr json_ops bind] in E. destruct (ign_arr ops n p1) as [p2| | |] eqn:Q; try discriminate E. cbn [bind] in E.
        destruct (IA _ _ _ _ _ Ec1 (or_introl eq_refl) (or_introl H1) Q) as [Ec2 H2]. exact (IA _ _ _ _ _ Ec2 (or_intror eq_refl) H2 E).
  Qed.

  (** ** The tokens of the reader *)
  Notation pst := (pst jparser).
  Definition Clean (p : pst) : Prop := ps_pb1 p = TokError /\ ps_pb2 p = TokError.
  Definition DeadP (p : pst) : Prop := Dead (ps_impl p) /\ ps_pb1 p <> TokDocEnd /\ ps_pb2 p <> TokDocEnd.
  Definition Begin (ps : list jstate) (e : jstate) (p : pst) : Prop :=
    (Clean p /\ SO (ps_impl p) /\ exists s, jp_ctl (ps_impl p) = C ps e s /\ ((s = JInit /\ e = JDone) \/ (s = JKey /\ e = JValueM))) \/
    (ps_pb2 p = TokError /\ After ps e (ps_pb1 p) (ps_impl p)) \/ DeadP p.
  Definition InMap (ps : list jstate) (e : jstate) (p : pst) : Prop :=
    (Clean p /\ SO (ps_impl p) /\ exists s, jp_ctl (ps_impl p) = C (e :: ps) JValueM s /\ (s = JOpenM \/ s = JValueM)) \/ DeadP p.
  Definition InArr (ps : list jstate) (e : jstate) (p : pst) : Prop :=
    (Clean p /\ SO (ps_impl p) /\ exists s, jp_ctl (ps_impl p) = C (e :: ps) JValueA s /\ (s = JOpenA \/ s = JValueA)) \/ DeadP p.
  Definition Fin (ps : list jstate) (e : jstate) (p : pst) : Prop :=
    (Clean p /\ SO (ps_impl p) /\ jp_ctl (ps_impl p) = C ps e e) \/ DeadP p.
  Lemma fin_map : forall ps e p, Fin (e :: ps) JValueM p -> InMap ps e p.
  Proof. intros ps e p [(Cl & H & E)|D]; [left|now right]. split; [exact Cl|]. split; [exact H|]. exists JValueM. auto. Qed.
  Lemma fin_arr : forall ps e p, Fin (e :: ps) JValueA p -> InArr ps e p.
  Proof. intros ps e p [(Cl & H & E)|D]; [left|now right]. split; [exact Cl|]. split; [exact H|]. exists JValueA. auto. Qed.

  Lemma get_clean : forall p t p', Clean p -> getToken ops p = Ok (t, p') -> Clean p' /\ jp_next (ps_impl p) = Ok (t, ps_impl p').
  Proof.
    intros [i b1 b2] t p' [E1 E2] E. cbn [ps_pb1 ps_pb2] in E1, E2. subst b1 b2. unfold getToken in E. cbn [ps_pb2 ps_pb1 token_eqb negb] in E. unfold lift in E. cbn [ps_impl ps_pb1 ps_pb2] in E.
    cbn [op_next json_ops] in E. destruct (jp_next i) as [[t1 s]| | |] eqn:Q; try discriminate E. cbn [bind] in E. injection E as <- <-. split; [now split|exact Q].
  Qed.
  Lemma get_dead : forall p t p', DeadP p -> getToken ops p = Ok (t, p') -> DeadP p' /\ t <> TokDocEnd.
  Proof.
    intros [i b1 b2] t p' (D & N1 & N2) E. cbn [ps_pb1 ps_pb2 ps_impl] in D, N1, N2. unfold getToken in E. cbn [ps_pb2 ps_pb1] in E.
    destruct (token_eqb b2 TokError) eqn:B2; cbn [negb] in E; [|injection E as <- <-; split; [split; [exact D|split; [exact N1|discriminate]]|exact N2]].
    destruct (token_eqb b1 TokError) eqn:B1; cbn [negb] in E; [|injection E as <- <-; split; [split; [exact D|split; [discriminate|exact N2]]|exact N1]].
    unfold lift in E. cbn [ps_impl ps_pb1 ps_pb2 op_next json_ops] in E. destruct (jp_next i) as [[t1 s]| | |] eqn:Q; try discriminate E. cbn [bind] in E. injection E as <- <-.
    destruct (next_dead _ _ _ D Q) as [-> D']. split; [split; [exact D'|now split]|discriminate].
  Qed.
  Lemma get_begin : forall ps e p t p', Begin ps e p -> getToken ops p = Ok (t, p') -> (Clean p' /\ After ps e t (ps_impl p')) \/ (DeadP p' /\ t <> TokDocEnd).
  Proof.
    intros ps e p t p' [(Cl & H & s & Ec & Hs)|[(B2 & Af)|D]] E.
    - destruct (get_clean _ _ _ Cl E) as [Cl' Nx]. destruct (next_value _ _ _ _ _ _ Ec Hs H Nx) as [Af|[D ->]]; [now left|right].
      split; [split; [exact D|destruct Cl' as [-> ->]; split; discriminate]|discriminate].
    - left. destruct p as [i b1 b2]. cbn [ps_pb1 ps_pb2 ps_impl] in *. subst b2. unfold getToken in E. cbn [ps_pb2 ps_pb1 token_eqb negb] in E.
      assert (N : token_eqb b1 TokError = false) by (destruct Af; reflexivity). rewrite N in E. cbn [negb] in E. injection E as <- <-. split; [now split|exact Af].
    - right. exact (get_dead _ _ _ D E).
  Qed.
  Lemma get_map : forall ps e p t p', InMap ps e p -> getToken ops p = Ok (t, p') ->
    (Clean p' /\ t = TokMapEnd /\ jp_ctl (ps_impl p') = C ps e e /\ Settled (ps_impl p')) \/
    (Clean p' /\ t = TokKey /\ jp_ctl (ps_impl p') = C (e :: ps) JValueM JKey /\ Pending (ps_impl p')) \/ (DeadP p' /\ t <> TokDocEnd).
  Proof.
    intros ps e p t p' [(Cl & H & s & Ec & Hs)|D] E; [|right; right; exact (get_dead _ _ _ D E)].
    destruct (get_clean _ _ _ Cl E) as [Cl' Nx]. destruct (next_map _ _ _ _ _ _ Ec Hs H Nx) as [(-> & Ec1 & H1)|[(-> & Ec1 & H1)|[D ->]]]; [left; auto|right; left; auto|right; right].
    split; [split; [exact D|destruct Cl' as [-> ->]; split; discriminate]|discriminate].
  Qed.
  Lemma get_arr : forall ps e p t p', InArr ps e p -> getToken ops p = Ok (t, p') ->
    (Clean p' /\ t = TokArrayEnd /\ jp_ctl (ps_impl p') = C ps e e /\ Settled (ps_impl p')) \/
    (Clean p' /\ After (e :: ps) JValueA t (ps_impl p')) \/ (DeadP p' /\ t <> TokDocEnd).
  Proof.
    intros ps e p t p' [(Cl & H & s & Ec & Hs)|D] E; [|right; right; exact (get_dead _ _ _ D E)].
    destruct (get_clean _ _ _ Cl E) as [Cl' Nx]. destruct (next_arr _ _ _ _ _ _ Ec Hs H Nx) as [(-> & Ec1 & H1)|[Af|[D ->]]]; [left; auto|right; left; auto|right; right].
    split; [split; [exact D|destruct Cl' as [-> ->]; split; discriminate]|discriminate].
  Qed.
  Lemma push_after : forall ps e p t, Clean p -> After ps e t (ps_impl p) -> Begin ps e (pushBackToken t p).
  Proof.
    intros ps e [i b1 b2] t [E1 E2] Af. cbn [ps_pb1 ps_pb2 ps_impl] in *. subst b1 b2. right. left. unfold pushBackToken. cbn [ps_pb1 ps_pb2 token_eqb ps_impl]. now split.
  Qed.
  Lemma push_dead : forall p t, DeadP p -> t <> TokDocEnd -> DeadP (pushBackToken t p).
  Proof.
    intros [i b1 b2] t (D & N1 & N2) N. unfold pushBackToken. cbn [ps_pb1 ps_pb2 ps_impl] in *. destruct (token_eqb b1 TokError); [now split|]. destruct (token_eqb b2 TokError); now split.
  Qed.

  Definition keeps_ctl {A} (f : jparser -> outcome (A * jparser)) : Prop := forall p a p', f p = Ok (a, p') -> jp_ctl p' = jp_ctl p.
  Lemma lift_ctl : forall A (f : jlex -> outcome (A * jlex)), keeps_ctl (jp_lift f).
  Proof. intros A f p a p' E. unfold jp_lift in E. destruct (f (jp_lex p)) as [[b l]| | |]; try discriminate E. cbn [bind] in E. now injection E as _ <-. Qed.
  Lemma dead_lift : forall A (f : jparser -> outcome (A * jparser)) p a p', keeps_ctl f -> DeadP p -> lift f p = Ok (a, p') -> DeadP p'.
  Proof.
    intros A f [i b1 b2] a p' K ((D1 & D2) & N) E. unfold lift in E. cbn [ps_impl ps_pb1 ps_pb2] in *. destruct (f i) as [[x s]| | |] eqn:Q; try discriminate E. cbn [bind] in E. injection E as <- <-.
    split; [|exact N]. cbn [ps_impl]. unfold Dead. now rewrite (K _ _ _ Q).
  Qed.
  Lemma lift_inv : forall A (f : jparser -> outcome (A * jparser)) (p : pst) a p', lift f p = Ok (a, p') -> f (ps_impl p) = Ok (a, ps_impl p') /\ (Clean p -> Clean p').
  Proof.
    intros A f [i b1 b2] a p' E. unfold lift in E. cbn [ps_impl ps_pb1 ps_pb2] in E. destruct (f i) as [[x s]| | |] eqn:Q; try discriminate E. cbn [bind] in E. injection E as <- <-.
    split; [exact Q|]. intro Cl. exact Cl.
  Qed.

  Lemma value_fin : forall A (f : jparser -> outcome (A * jparser)) mk ps e p v p', keeps_ctl f -> reads_one f -> Begin ps e p -> read_value ops f mk p = Ok (v, p') -> Fin ps e p'.
  Proof.
    intros A f mk ps e p v p' K R B E. unfold read_value in E. destruct (getToken ops p) as [[t p1]| | |] eqn:G; try discriminate E. cbn [bind] in E.
    destruct t; try discriminate E. destruct (lift f p1) as [[a p2]| | |] eqn:Q; try discriminate E. cbn [bind] in E. injection E as _ <-.
    destruct (get_begin _ _ _ _ _ B G) as [[Cl Af]|[D _]]; [left|right; exact (dead_lift _ _ _ _ _ K D Q)].
    destruct (lift_inv _ _ _ _ _ Q) as [Q' Cl']. inversion Af as [q Ec Hq| |]; subst. destruct (R _ _ _ Hq Q') as [H Ec']. split; [auto|]. split; [exact H|congruence].
  Qed.
  Lemma ops_str_one : reads_one (op_str ops).
  Proof. intros p a p' H E. destruct (ops_str _ _ _ H E) as (H1 & H2 & _). now split. Qed.

  Notation F := fuel (only parsing).
  Notation m := (pc_strict cfg).
  (** Behind the name of a member. *)
  Definition AfterKey (ps : list jstate) (p : pst) : Prop := (Clean p /\ SO (ps_impl p) /\ jp_ctl (ps_impl p) = C ps JValueM JKey) \/ DeadP p.
  Lemma key_begin : forall ps p, AfterKey ps p -> Begin ps JValueM p.
  Proof. intros ps p [(Cl & H & E)|D]; [left|right; now right]. split; [exact Cl|]. split; [exact H|]. exists JKey. split; [exact E|]. right. now split. Qed.
  Lemma key_ignore : forall ps p p', AfterKey ps p -> ignoreValue ops m fuel p = Ok p' -> Fin ps JValueM p'.
  Proof.
    intros ps p p' A E. unfold ignoreValue in E. destruct m eqn:We; try discriminate E. unfold lift_ in E. destruct (ign_value ops fuel (ps_impl p)) as [s| | |] eqn:Q; try discriminate E. cbn [bind] in E. injection E as <-.
    destruct A as [(Cl & H & Ec)|D].
    - destruct (proj1 (skips We fuel) _ _ _ _ _ Ec (or_intror (conj eq_refl eq_refl)) H Q) as [Ec' H']. left. split; [exact Cl|]. now split.
    - exfalso. destruct D as (D & _). revert Q. generalize fuel at 2. intros [|n] Q; [discriminate Q|]. rewrite ign_value_eq in Q. destruct (op_next ops (ps_impl p)) as [[t q]| | |] eqn:Nx; try discriminate Q. cbn [bind] in Q.
      cbn [op_next json_ops] in Nx. destruct (next_dead _ _ _ D Nx) as [-> _]. discriminate Q.
  Qed.
  Lemma obj_fin : forall ps e scan n v found p v' found' p',
    (forall k0 u q u' q', Begin (e :: ps) JValueM q -> scan k0 u q = Some (Ok (u', q')) -> Fin (e :: ps) JValueM q') ->
    InMap ps e p -> obj_loop ops fuel m n scan v found p = Ok (v', found', p') -> Fin ps e p'.
  Proof.
    intros ps e scan n. induction n as [|n IH]; intros v found p v' found' p' Hs B E; cbn [obj_loop] in E; [discriminate E|].
    destruct (getToken ops p) as [[t p1]| | |] eqn:G; try discriminate E. cbn [bind] in E.
    assert (K : AfterKey (e :: ps) p1 \/ True) by now right. clear K.
    assert (Go : t <> TokMapEnd -> (do (k0, p2) <- lift (op_key ops) p1;
       match scan k0 v p2 with Some r => do (v1, p3) <- r; obj_loop ops fuel m n scan v1 (k0 :: found) p3 | None => do p3 <- ignoreValue ops m fuel p2; obj_loop ops fuel m n scan v found p3 end) = Ok (v', found', p') ->
       (DeadP p1 \/ (Clean p1 /\ jp_ctl (ps_impl p1) = C (e :: ps) JValueM JKey /\ Pending (ps_impl p1))) -> Fin ps e p').
    { intros Nt E1 Hp. destruct (lift (op_key ops) p1) as [[k0 p2]| | |] eqn:Q; try discriminate E1. cbn [bind] in E1.
      assert (A : AfterKey (e :: ps) p2).
      { destruct Hp as [D|(Cl & Ec & Pe)]; [right; exact (dead_lift _ _ _ _ _ (lift_ctl _ _) D Q)|left]. destruct (lift_inv _ _ _ _ _ Q) as [Q' Cl']. destruct (ops_key _ _ _ Pe Q') as [H1 H2].
        split; [auto|]. split; [exact H1|congruence]. }
      destruct (scan k0 v p2) as [r|] eqn:Sc.
      - destruct r as [[v1 p3]| | |]; try discriminate E1. cbn [bind] in E1. refine (IH _ _ _ _ _ _ Hs _ E1). apply fin_map. exact (Hs _ _ _ _ _ (key_begin _ _ A) Sc).
      - destruct (ignoreValue ops m fuel p2) as [p3| | |] eqn:Ig; try discriminate E1. cbn [bind] in E1. refine (IH _ _ _ _ _ _ Hs _ E1). apply fin_map. exact (key_ignore _ _ _ A Ig). }
    destruct (get_map _ _ _ _ _ B G) as [(Cl & -> & Ec & H)|[(Cl & -> & Ec & H)|[D Nt]]].
    - injection E as _ _ <-. left. split; [exact Cl|]. split; [now left|exact Ec].
    - apply (Go ltac:(discriminate) E). right. auto.
    - destruct t; try (apply (Go ltac:(discriminate) E); now left). injection E as _ _ <-. now right.
  Qed.
  Lemma map_fin : forall ps e req scan v p v' p',
    (forall k0 u q u' q', Begin (e :: ps) JValueM q -> scan k0 u q = Some (Ok (u', q')) -> Fin (e :: ps) JValueM q') ->
    Begin ps e p -> read_map ops fuel m req scan v p = Ok (v', p') -> Fin ps e p'.
  Proof.
    intros ps e req scan v p v' p' Hs B E. unfold read_map in E. destruct (getToken ops p) as [[t p1]| | |] eqn:G; try discriminate E. cbn [bind] in E. destruct t; try discriminate E.
    destruct (obj_loop ops fuel m fuel scan v [] p1) as [[[v1 f1] p2]| | |] eqn:Q; try discriminate E. cbn [bind] in E.
    assert (p2 = p') by (destruct m; [congruence|congruence|destruct (forallb _ req); congruence]). subst p2. refine (obj_fin _ _ _ _ _ _ _ _ _ _ Hs _ Q).
    destruct (get_begin _ _ _ _ _ B G) as [[Cl Af]|[D _]]; [left|now right]. inversion Af as [|q s Ec Hs1 H _|]; subst. split; [exact Cl|]. split; [exact H|]. exists s. now split.
  Qed.
  Lemma arr_fin : forall ps e elem n i v p v' p',
    (forall i0 u q u' q', Begin (e :: ps) JValueA q -> elem i0 u q = Ok (u', q') -> Fin (e :: ps) JValueA q') ->
    InArr ps e p -> arr_loop ops n elem i v p = Ok (v', p') -> Fin ps e p'.
  Proof.
    intros ps e elem n. induction n as [|n IH]; intros i v p v' p' He B E; cbn [arr_loop] in E; [discriminate E|].
    destruct (getToken ops p) as [[t p1]| | |] eqn:G; try discriminate E. cbn [bind] in E.
    assert (Go : (do (v1, p2) <- elem i v (pushBackToken t p1); arr_loop ops n elem (Datatypes.S i) v1 p2) = Ok (v', p') -> Begin (e :: ps) JValueA (pushBackToken t p1) -> Fin ps e p').
    { intros E1 B1. destruct (elem i v (pushBackToken t p1)) as [[v1 p2]| | |] eqn:Q; try discriminate E1. cbn [bind] in E1. refine (IH _ _ _ _ _ He _ E1). apply fin_arr. exact (He _ _ _ _ _ B1 Q). }
    destruct (get_arr _ _ _ _ _ B G) as [(Cl & -> & Ec & H)|[(Cl & Af)|[D Nt]]].
    - injection E as _ <-. left. split; [exact Cl|]. split; [now left|exact Ec].
    - assert (t <> TokArrayEnd) by (intros ->; inversion Af). destruct t; try congruence; exact (Go E (push_after _ _ _ _ Cl Af)).
    - assert (B1 : Begin (e :: ps) JValueA (pushBackToken t p1)) by (right; right; now apply push_dead). destruct t; try exact (Go E B1). injection E as _ <-. now right.
  Qed.
  Lemma array_fin : forall ps e elem v p v' p',
    (forall i0 u q u' q', Begin (e :: ps) JValueA q -> elem i0 u q = Ok (u', q') -> Fin (e :: ps) JValueA q') ->
    Begin ps e p -> read_array ops fuel elem v p = Ok (v', p') -> Fin ps e p'.
  Proof.
    intros ps e elem v p v' p' He B E. unfold read_array in E. destruct (getToken ops p) as [[t p1]| | |] eqn:G; try discriminate E. cbn [bind] in E. destruct t; try discriminate E.
    refine (arr_fin _ _ _ _ _ _ _ _ _ He _ E).
    destruct (get_begin _ _ _ _ _ B G) as [[Cl Af]|[D _]]; [left|now right]. inversion Af as [| |q Ec H _]; subst. split; [exact Cl|]. split; [now left|]. exists JOpenA. auto.
  Qed.

  Definition ClassRead (ps : list jstate) (e : jstate) (p : pst) : Prop :=
    (ps_pb1 p = TokMapStart /\ ps_pb2 p = TokError /\ SO (ps_impl p) /\ jp_ctl (ps_impl p) = C (e :: ps) JValueM JValueM /\ l_null (jp_lex (ps_impl p)) = false) \/ DeadP p.
  Lemma class_begin : forall ps e p, ClassRead ps e p -> Begin ps e p.
  Proof. intros ps e p [(E1 & E2 & H & Ec & N)|D]; [right; left|right; now right]. split; [exact E2|]. rewrite E1. apply (af_map _ _ _ JValueM); auto. Qed.
  Lemma class_ignore : forall ps e p p', ClassRead ps e p -> ignoreValue ops m fuel p <> Ok p'.
  Proof.
    intros ps e p p' H E. unfold ignoreValue in E. destruct m; try discriminate E. unfold lift_ in E. destruct (ign_value ops fuel (ps_impl p)) as [s| | |] eqn:Q; try discriminate E. clear E.
    revert Q. generalize fuel at 2. intros [|n] Q; [discriminate Q|]. rewrite ign_value_eq in Q. destruct (op_next ops (ps_impl p)) as [[t q]| | |] eqn:Nx; try discriminate Q. cbn [bind] in Q. cbn [op_next json_ops] in Nx.
    destruct H as [(_ & _ & H & Ec & _)|(D & _)]; [|destruct (next_dead _ _ _ D Nx) as [-> _]; discriminate Q].
    destruct (next_map _ _ _ _ _ _ Ec (or_intror eq_refl) H Nx) as [(-> & _)|[(-> & _)|[_ ->]]]; discriminate Q.
  Qed.
  Lemma class_read : forall ps e marker p c p', Begin ps e p -> read_class_name ops marker p = Ok (c, p') -> ClassRead ps e p'.
  Proof.
    intros ps e marker p c p' B E. unfold read_class_name in E. destruct (getToken ops p) as [[t p1]| | |] eqn:G1; try discriminate E. cbn [bind] in E. destruct t; try discriminate E.
    destruct (getToken ops p1) as [[t p2]| | |] eqn:G2; try discriminate E. cbn [bind] in E. destruct t; try discriminate E.
    destruct (lift (op_key ops) p2) as [[k0 p3]| | |] eqn:Q3; try discriminate E. cbn [bind] in E. destruct (beq k0 marker); [|discriminate E].
    destruct (getToken ops p3) as [[t p4]| | |] eqn:G4; try discriminate E. cbn [bind] in E. destruct t; try discriminate E.
    destruct (lift (op_str ops) p4) as [[c5 p5]| | |] eqn:Q5; try discriminate E. cbn [bind] in E. injection E as _ <-.
    assert (I1 : InMap ps e p1).
    { destruct (get_begin _ _ _ _ _ B G1) as [[Cl Af]|[D _]]; [left|now right]. inversion Af as [|q s Ec Hs1 H _|]; subst. split; [exact Cl|]. split; [exact H|]. exists s. now split. }
    assert (I3 : AfterKey (e :: ps) p3).
    { destruct (get_map _ _ _ _ _ I1 G2) as [(_ & X & _)|[(Cl & _ & Ec & Pe)|[D _]]]; [discriminate X| |right; exact (dead_lift _ _ _ _ _ (lift_ctl _ _) D Q3)]. left.
      destruct (lift_inv _ _ _ _ _ Q3) as [Q' Cl']. destruct (ops_key _ _ _ Pe Q') as [H1 H2]. split; [auto|]. split; [exact H1|congruence]. }
    destruct (get_begin _ _ _ _ _ (key_begin _ _ I3) G4) as [[Cl Af]|[D _]].
    - inversion Af as [q Ec Hq| |]; subst. destruct (lift_inv _ _ _ _ _ Q5) as [Q' Cl']. destruct (ops_str _ _ _ Hq Q') as (H1 & H2 & H3). specialize (Cl' Cl).
      left. destruct p5 as [i b1 b2]. destruct Cl' as [E1 E2]. cbn [ps_pb1 ps_pb2 ps_impl] in *. subst b1 b2. unfold pushBackToken. cbn [ps_pb1 ps_pb2 token_eqb ps_impl].
      repeat (split; [reflexivity|]). split; [exact H1|]. split; [congruence|exact H3].
    - right. apply push_dead; [|discriminate]. exact (dead_lift _ _ _ _ _ (lift_ctl _ _) D Q5).
  Qed.
  Lemma pointer_fin : forall ps e rest p v p', (forall q v q', Begin ps e q -> rest q = Ok (v, q') -> Fin ps e q') ->
    Begin ps e p -> read_pointer ops rest p = Ok (v, p') -> Fin ps e p'.
  Proof.
    intros ps e rest p v p' Hr B E. unfold read_pointer in E. destruct (getToken ops p) as [[t p1]| | |] eqn:G; try discriminate E. cbn [bind] in E.
    change (op_null ops (ps_impl p1)) with (l_null (jp_lex (ps_impl p1))) in E.
    destruct (get_begin _ _ _ _ _ B G) as [[Cl Af]|[D Nt]].
    - destruct (l_null (jp_lex (ps_impl p1))) eqn:N; [|exact (Hr _ _ _ (push_after _ _ _ _ Cl Af) E)].
      unfold lift_ in E. destruct (op_ignore ops (ps_impl p1)) as [s| | |] eqn:Q; try discriminate E. cbn [bind] in E. injection E as _ <-.
      inversion Af as [q Ec Hq|q s0 Ec Hs0 H0 N0|q Ec H0 N0]; subst; try congruence. destruct Hq as [Pe|(_ & _ & N0)]; [|congruence].
      destruct (ops_null _ _ Pe N Q) as [H Ec']. left. split; [exact Cl|]. split; [exact H|]. cbn [ps_impl]. congruence.
    - destruct (l_null (jp_lex (ps_impl p1))); [|apply (Hr _ _ _ (or_intror (or_intror (push_dead _ _ D Nt))) E)].
      right. unfold lift_ in E. destruct (op_ignore ops (ps_impl p1)) as [s| | |] eqn:Q; try discriminate E. cbn [bind] in E. injection E as _ <-.
      destruct D as ((D1 & D2) & N1 & N2). split; [|now split]. cbn [ps_impl]. cbn [op_ignore json_ops] in Q. unfold jp_lift_ in Q. destruct (ignoreRawValue fuel (jp_lex (ps_impl p1))) as [l| | |]; try discriminate Q.
      cbn [bind] in Q. injection Q as <-. now split.
  Qed.

  (** ** Values of any type *)
  Notation deser := (deser ops fuel m (pc_marker cfg)).
  Definition reader_fin (d : dfun jparser) : Prop := forall ps e v p v' p', Begin ps e p -> d_parse d v p = Ok (v', p') -> Fin ps e p'.
  Definition scan_fin (d : dfun jparser) : Prop := forall ps k0 v p v' p', Begin ps JValueM p -> d_scan d k0 v p = Some (Ok (v', p')) -> Fin ps JValueM p'.
  Lemma fixed_fin : forall ds ps e i v p v' p', Forall reader_fin ds -> Begin ps e p -> elem_fixed ds i v p = Ok (v', p') -> Fin ps e p'.
  Proof.
    intros ds ps e i v p v' p' Hd B E. unfold elem_fixed in E. destruct v; try discriminate E. destruct (nth_error ds i) as [d|] eqn:Nd; [|discriminate E]. destruct (nth_error l i) as [x|]; [|discriminate E].
    destruct (d_parse d x p) as [[x' p1]| | |] eqn:Q; try discriminate E. cbn [bind] in E. injection E as _ <-.
    rewrite Forall_forall in Hd. exact (Hd d (nth_error_In _ _ Nd) _ _ _ _ _ _ B Q).
  Qed.
  Lemma scan_map_fin : forall fw d dflt ps k0 v p v' p', reader_fin d -> Begin ps JValueM p -> scan_map fw d dflt k0 v p = Some (Ok (v', p')) -> Fin ps JValueM p'.
  Proof.
    intros fw d dflt ps k0 v p v' p' Hd B E. unfold scan_map in E. destruct v; try discriminate E. destruct fw; injection E as E;
      match type of E with bind ?x _ = _ => destruct x as [[x' p1]| | |] eqn:Q; try discriminate E end; cbn [bind] in E; injection E as _ <-; exact (Hd _ _ _ _ _ _ B Q).
  Qed.
  Lemma members_fin : forall ns ds vs k0 p l p' ps, Forall reader_fin ds -> Begin ps JValueM p -> scan_members ns ds vs k0 p = Some (Ok (l, p')) -> Fin ps JValueM p'.
  Proof.
    induction ns as [|n ns IH]; intros ds vs k0 p l p' ps Hd B E; destruct ds as [|d ds]; destruct vs as [|v vs]; cbn [scan_members] in E; try discriminate E.
    inversion Hd as [|? ? Hd1 Hd2]; subst. destruct (beq k0 n).
    - injection E as E. destruct (d_parse d v p) as [[v1 p1]| | |] eqn:Q; try discriminate E. cbn [bind] in E. injection E as _ <-. exact (Hd1 _ _ _ _ _ _ B Q).
    - destruct (scan_members ns ds vs k0 p) as [r|] eqn:Q; [|discriminate E]. injection E as E. destruct r as [[l1 p1]| | |]; try discriminate E. cbn [bind] in E. injection E as _ <-. exact (IH _ _ _ _ _ _ _ Hd2 B Q).
  Qed.
  Lemma parents_fin : forall ds vs k0 p l p' ps, Forall scan_fin ds -> Begin ps JValueM p -> scan_parents ds vs k0 p = Some (Ok (l, p')) -> Fin ps JValueM p'.
  Proof.
    induction ds as [|d ds IH]; intros vs k0 p l p' ps Hd B E; destruct vs as [|v vs]; cbn [scan_parents] in E; try discriminate E.
    inversion Hd as [|? ? Hd1 Hd2]; subst. destruct (d_scan d k0 v p) as [r|] eqn:Q.
    - injection E as E. destruct r as [[v1 p1]| | |]; try discriminate E. cbn [bind] in E. injection E as _ <-. exact (Hd1 _ _ _ _ _ _ B Q).
    - destruct (scan_parents ds vs k0 p) as [r|] eqn:Q2; [|discriminate E]. injection E as E. destruct r as [[l1 p1]| | |]; try discriminate E. cbn [bind] in E. injection E as _ <-. exact (IH _ _ _ _ _ _ Hd2 B Q2).
  Qed.

  Theorem deser_fin : forall t, reader_fin (deser t) /\ scan_fin (deser t).
  Proof.
    assert (All : forall ts, Forall (fun t => reader_fin (deser t) /\ scan_fin (deser t)) ts -> Forall reader_fin (map deser ts) /\ Forall scan_fin (map deser ts)).
    { intros ts H. induction H as [|x r [H1 H2] _ [I1 I2]]; cbn [map]; split; constructor; assumption. }
    apply ty_ind'.
    - intro i. split; [|intros ps k0 v p v' p' _ E; discriminate E]. intros ps e v p v' p' B E. exact (value_fin _ _ _ _ _ _ _ _ (lift_ctl _ _) (ops_int i) B E).
    - split; [|intros ps k0 v p v' p' _ E; discriminate E]. intros ps e v p v' p' B E. exact (value_fin _ _ _ _ _ _ _ _ (lift_ctl _ _) ops_bool B E).
    - split; [|intros ps k0 v p v' p' _ E; discriminate E]. intros ps e v p v' p' B E. exact (value_fin _ _ _ _ _ _ _ _ (lift_ctl _ _) ops_str_one B E).
    - intro l. split; [|intros ps k0 v p v' p' _ E; discriminate E]. intros ps e v p v' p' B E. cbn [d_parse Deserializer.deser] in E.
      destruct (read_value ops (op_str ops) VStr p) as [[v1 p1]| | |] eqn:Q; try discriminate E. cbn [bind] in E.
      assert (p1 = p') by (destruct v1; try discriminate E; destruct (enum_value l s); congruence). subst p1. exact (value_fin _ _ _ _ _ _ _ _ (lift_ctl _ _) ops_str_one B Q).
    - intros co t [H _]. split; [|intros ps k0 v p v' p' _ E; discriminate E]. intros ps e v p v' p' B E. cbn [d_parse Deserializer.deser] in E. refine (array_fin _ _ _ _ _ _ _ _ B E).
      intros i u q u' q' Bq Eq. unfold elem_vec in Eq. destruct u; try discriminate Eq. destruct (d_parse (deser t) (default t) q) as [[x q1]| | |] eqn:Q; try discriminate Eq. cbn [bind] in Eq. injection Eq as _ <-. exact (H _ _ _ _ _ _ Bq Q).
    - intros n t [H _]. split; [|intros ps k0 v p v' p' _ E; discriminate E]. intros ps e v p v' p' B E. cbn [d_parse Deserializer.deser] in E. refine (array_fin _ _ _ _ _ _ _ _ B E).
      intros i u q u' q' Bq Eq. refine (fixed_fin _ _ _ _ _ _ _ _ _ Bq Eq). apply Forall_forall. intros d Hd. apply repeat_spec in Hd as ->. exact H.
    - intros ts H. destruct (All ts H) as [H1 _]. split; [|intros ps k0 v p v' p' _ E; discriminate E]. intros ps e v p v' p' B E. cbn [d_parse Deserializer.deser] in E. refine (array_fin _ _ _ _ _ _ _ _ B E).
      intros i u q u' q' Bq Eq. exact (fixed_fin _ _ _ _ _ _ _ _ H1 Bq Eq).
    - intros b t [H _]. split.
      + intros ps e v p v' p' B E. cbn [d_parse Deserializer.deser] in E. refine (map_fin _ _ _ _ _ _ _ _ _ B E). intros k0 u q u' q' Bq Eq. exact (scan_map_fin _ _ _ _ _ _ _ _ _ H Bq Eq).
      + intros ps k0 v p v' p' B E. cbn [d_scan Deserializer.deser] in E. exact (scan_map_fin _ _ _ _ _ _ _ _ _ H B E).
    - intros t [H _]. split; [|intros ps k0 v p v' p' _ E; discriminate E]. intros ps e v p v' p' B E. cbn [d_parse Deserializer.deser] in E. refine (pointer_fin _ _ _ _ _ _ _ B E).
      intros q u q' Bq Eq. destruct (d_parse (deser t) (default t) q) as [[x q1]| | |] eqn:Q; try discriminate Eq. cbn [bind] in Eq. injection Eq as _ <-. exact (H _ _ _ _ _ _ Bq Q).
    - intros t [H _]. split; [|intros ps k0 v p v' p' _ E; discriminate E]. intros ps e v p v' p' B E. cbn [d_parse Deserializer.deser] in E. destruct v; try discriminate E.
      match type of E with bind ?x _ = _ => destruct x as [[x' p1]| | |] eqn:Q; try discriminate E end. cbn [bind] in E. injection E as _ <-. exact (H _ _ _ _ _ _ B Q).
    - intros i ms ps0 Hm Hp. destruct (All ms Hm) as [Hm1 _]. destruct (All ps0 Hp) as [_ Hp2].
      assert (Sc : forall ps k0 v p v' p', Begin ps JValueM p -> scan_struct i (map deser ms) (map deser ps0) k0 v p = Some (Ok (v', p')) -> Fin ps JValueM p').
      { intros ps k0 v p v' p' B E. unfold scan_struct in E. destruct v; try discriminate E. destruct (scan_parents (map deser ps0) _ k0 p) as [r|] eqn:Q.
        - injection E as E. destruct r as [[l1 p1]| | |]; try discriminate E. cbn [bind] in E. injection E as _ <-. exact (parents_fin _ _ _ _ _ _ _ Hp2 B Q).
        - destruct (scan_members _ _ _ k0 p) as [r|] eqn:Q2; [|discriminate E]. injection E as E. destruct r as [[l1 p1]| | |]; try discriminate E. cbn [bind] in E. injection E as _ <-. exact (members_fin _ _ _ _ _ _ _ _ Hm1 B Q2). }
      split.
      + intros ps e v p v' p' B E. cbn [d_parse Deserializer.deser] in E. refine (map_fin _ _ _ _ _ _ _ _ _ B E). intros k0 u q u' q' Bq Eq. exact (Sc _ _ _ _ _ _ Bq Eq).
      + intros ps k0 v p v' p' B E. cbn [d_scan Deserializer.deser] in E. exact (Sc _ _ _ _ _ _ B E).
    - intros cs o H. destruct (All cs H) as [H1 _]. split; [|intros ps k0 v p v' p' _ E; discriminate E]. intros ps e v p v' p' B E. cbn [d_parse Deserializer.deser] in E. refine (pointer_fin _ _ _ _ _ _ _ B E).
      intros q u q' Bq Eq. destruct (read_class_name ops (pc_marker cfg) q) as [[c q1]| | |] eqn:Q; try discriminate Eq. cbn [bind] in Eq. apply (class_read _ _ _ _ _ _ Bq) in Q. apply class_begin in Q.
      destruct (find_class cs c) as [n|]; [|destruct (existsb _ o); discriminate Eq]. destruct (nth_error cs n) as [tk|]; [|discriminate Eq]. destruct (nth_error (map deser cs) n) as [d|] eqn:Nd; [|discriminate Eq].
      destruct (d_parse d (default tk) q1) as [[x q2]| | |] eqn:Q2; try discriminate Eq. cbn [bind] in Eq. injection Eq as _ <-. rewrite Forall_forall in H1. exact (H1 d (nth_error_In _ _ Nd) _ _ _ _ _ _ Q Q2).
    - intros cs H. destruct (All cs H) as [H1 _]. split; [|intros ps k0 v p v' p' _ E; discriminate E]. intros ps e v p v' p' B E. cbn [d_parse Deserializer.deser] in E.
      destruct (read_class_name ops (pc_marker cfg) p) as [[c q1]| | |] eqn:Q; try discriminate E. cbn [bind] in E. apply (class_read _ _ _ _ _ _ B) in Q.
      destruct (find_class cs c) as [n|]; [|destruct (ignoreValue ops m fuel q1) as [q2| | |] eqn:Ig; [exfalso; exact (class_ignore _ _ _ _ Q Ig)|discriminate E|discriminate E|discriminate E]].
      apply class_begin in Q. destruct (nth_error cs n) as [tk|]; [|discriminate E]. destruct (nth_error (map deser cs) n) as [d|] eqn:Nd; [|discriminate E].
      destruct (d_parse d (default tk) q1) as [[x q2]| | |] eqn:Q2; try discriminate E. cbn [bind] in E. injection E as _ <-. rewrite Forall_forall in H1. exact (H1 d (nth_error_In _ _ Nd) _ _ _ _ _ _ Q Q2).
  Qed.
End Doc.

Lemma scalar_last : forall ls n, g_value (ls ++ [n]) -> (7 <= n)%nat -> ls = [].
Proof.
  intros ls n H L. destruct ls as [|x ls]; [reflexivity|exfalso]. remember ((x :: ls) ++ [n]) as q eqn:E.
  destruct H as [m Hm| |l H| |l H].
  - destruct ls; discriminate E.
  - assert (Z : last (A := nat) ((x :: ls) ++ [n]) 0%nat = 4%nat) by now rewrite <- E. rewrite last_last in Z. lia.
  - assert (Z : last (A := nat) ((x :: ls) ++ [n]) 0%nat = 4%nat) by (rewrite <- E; exact (last_last (3%nat :: l) 4%nat 0%nat)). rewrite last_last in Z. lia.
  - assert (Z : last (A := nat) ((x :: ls) ++ [n]) 0%nat = 2%nat) by now rewrite <- E. rewrite last_last in Z. lia.
  - assert (Z : last (A := nat) ((x :: ls) ++ [n]) 0%nat = 2%nat) by (rewrite <- E; exact (last_last (1%nat :: l) 2%nat 0%nat)). rewrite last_last in Z. lia.
Qed.
Lemma space_blank : forall w, Forall (fun c => is_space c = true) w -> blank w.
Proof. intros w H. eapply Forall_impl; [|exact H]. intros c Hc. cbn beta in Hc. unfold is_space in Hc. lia. Qed.

Theorem accepted_text : forall fuel cfg k t v text v' s', bytes_ok text -> json_extract fuel cfg t v (src_init k text) = Returned v' s' ->
  (exists ls txt rest, g_value ls /\ lexes (lexeme cfg k) ls txt /\ text = txt ++ rest /\ (if pc_noTrailing cfg then blank rest else s_rest s' = rest)) \/ scalar_root text.
Proof.
  intros fuel cfg k t v text v' s' B E. unfold json_extract in E. destruct (json_try fuel cfg t v (src_init k text)) as [[v1 s1]| | |] eqn:T; try discriminate E. injection E as -> ->.
  unfold json_try in T. set (p0 := pst_init (mkJp (lex_init (src_init k text)) ctl_init)) in T. assert (Cl0 : Clean p0) by now split.
  destruct (getToken (json_ops fuel (pc_conv cfg)) p0) as [[t0 p1]| | |] eqn:G; try discriminate T. cbn [bind] in T.
  destruct (get_clean _ _ _ _ _ Cl0 G) as [Cl1 Nx]. unfold jp_next in Nx. cbn in Nx. injection Nx as <- Ei.
  destruct (d_parse _ v p1) as [[v2 p2]| | |] eqn:D; try discriminate T. cbn [bind] in T.
  assert (B1 : Begin cfg k text [] JDone p1).
  { left. split; [exact Cl1|]. rewrite <- Ei. split; [left; exists [], [], text; split; [reflexivity|split; [constructor|split; [reflexivity|apply at_init]]]|].
    exists JInit. split; [reflexivity|]. left. now split. }
  assert (H := proj1 (deser_fin cfg k text B fuel t) [] JDone v p1 v2 p2 B1 D). clear D G B1.
  destruct (check_trailing (pc_noTrailing cfg) (l_src (jp_lex (ps_impl p2)))) as [s2| | |] eqn:Tr; try discriminate T. cbn [bind] in T.
  match type of T with context [getToken _ ?q] => set (p3 := q) in T end.
  destruct (getToken (json_ops fuel (pc_conv cfg)) p3) as [[t3 p4]| | |] eqn:G; try discriminate T. cbn [bind] in T. destruct t3; try discriminate T. injection T as -> <-.
  destruct H as [(Cl & H & Ec)|D].
  2:{ exfalso. assert (D3 : DeadP p3) by exact D. destruct (get_dead _ _ _ _ _ D3 G) as [_ N]. now apply N. }
  assert (Cl3 : Clean p3) by exact Cl. destruct (get_clean _ _ _ _ _ Cl3 G) as [_ Nx].
  assert (Es : s2 = l_src (jp_lex (ps_impl p4))).
  { unfold jp_next in Nx. cbn [jp_next_loop] in Nx. unfold p3 in Nx. cbn [ps_impl jp_ctl] in Nx. rewrite Ec in Nx. cbn in Nx. injection Nx as <-. reflexivity. }
  rewrite <- Es. destruct H as [(ls & a & rest & R & X & Et & A)|[X (c & r & ls & a & w & R & Lx & Et & W & Sc & P)]].
  - left. exists ls, a, rest. split; [apply machine_is_grammar; exists (jp_ctl (ps_impl p2)); split; [exact R|now rewrite Ec]|]. split; [exact X|]. split; [exact Et|].
    destruct (trailing_at _ _ _ _ _ A Tr) as [[-> ->]|[-> Q]]; [exact (rest_at _ _ _ A)|now apply space_blank].
  - right. assert (Gv : g_value (ls ++ [lexix c])) by (apply machine_is_grammar; exists (jp_ctl (ps_impl p2)); split; [exact R|now rewrite Ec]).
    apply scalar_last in Gv; [|now apply lexix_scalar]. subst ls. assert (a = []) as ->.
    { inversion Lx as [|ls0 a0 n0 w0 x0 _ _ _ E1]; [reflexivity|]. now destruct ls0. }
    exists w, c, r. split; [exact Et|]. split; [exact W|]. split.
    + intro Q. inversion Q as [|? ? Hc _]; subst. cbn beta in Hc. unfold is_space in Sc. lia.
    + cbn [In]. unfold is_punct in P. lia.
Qed.
