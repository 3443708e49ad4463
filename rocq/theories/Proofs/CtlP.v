(** The control part of the JSON parser against the grammar. *)
From Coq Require Import ZArith List Bool Lia.
From Verif Require Import Model.Base Model.Source Model.JsonLexer Model.ParserInterface Model.JsonParser Spec.Lexemes.
Import ListNotations.
Open Scope nat_scope.

(** ** Sessions: getNextToken calls with arbitrary use of the lexer in between (reading or skipping the value). *)
(** One call of getNextToken and the lexemes it reads. *)
Inductive reads_token : jparser -> list nat -> token -> jparser -> Prop :=
| rt_early : forall p t c, ctl_early (jp_ctl p) = Some (t, c) -> reads_token p [] t (mkJp (jp_lex p) c)
| rt_token : forall p ix l t c, ctl_early (jp_ctl p) = None -> yylex (jp_lex p) = Ok (ix, l) ->
    ctl_step (jp_ctl p) ix = Ok (StepTok t c) -> reads_token p [ix] t (mkJp l c)
| rt_again : forall p ix l c ls t p', ctl_early (jp_ctl p) = None -> yylex (jp_lex p) = Ok (ix, l) ->
    ctl_step (jp_ctl p) ix = Ok (StepAgain c) -> reads_token (mkJp l c) ls t p' -> reads_token p (ix :: ls) t p'.

Inductive session : jparser -> list token -> list nat -> jparser -> Prop :=
| ss_start : forall p, session p [] [] p
| ss_next : forall p ts ls p1 ls1 t p2, session p ts ls p1 -> reads_token p1 ls1 t p2 -> session p (ts ++ [t]) (ls ++ ls1) p2
| ss_use : forall p ts ls p1 l, session p ts ls p1 -> session p ts ls (mkJp l (jp_ctl p1)).

(** ** The machine on lexemes alone *)
Definition cstep (c : jctl) (n : nat) : option jctl :=
  match c_state c with
  | JDone | JError => None
  | _ => match ctl_step c n with
         | Ok (StepTok TokError _) => None
         | Ok (StepTok _ c') | Ok (StepAgain c') => Some c'
         | _ => None
         end
  end.
Fixpoint crun (c : jctl) (ls : list nat) : option jctl :=
  match ls with
  | [] => Some c
  | n :: r => match cstep c n with Some c' => crun c' r | None => None end
  end.
Lemma crun_app : forall a b c, crun c (a ++ b) = match crun c a with Some c' => crun c' b | None => None end.
Proof. induction a as [|n a IH]; intros b c; cbn [app crun]; [reflexivity|]. destruct (cstep c n); [apply IH|reflexivity]. Qed.

Definition C (ps : list jstate) (e s : jstate) : jctl := mkCtl ps e s true.
Definition started_init : jctl := C [] JDone JInit.

(** States in which a value may start, with the end state they belong to. *)
Inductive vstart : jstate -> jstate -> Prop :=
| vs_init : vstart JInit JDone
| vs_colon : vstart JColon JValueM
| vs_opena : vstart JOpenA JValueA
| vs_comma : vstart JCommaA JValueA.

Lemma lex_cases : forall n, 7 <= n <= 13 -> n = 7 \/ n = 8 \/ n = 9 \/ n = 10 \/ n = 11 \/ n = 12 \/ n = 13.
Proof. intros; lia. Qed.

Definition runs_value (a : list nat) : Prop :=
  forall s e ps r, vstart s e -> crun (C ps e s) (a ++ r) = crun (C ps e e) r.

Lemma scalar_runs : forall n, 7 <= n <= 13 -> runs_value [n].
Proof.
  intros n H s e ps r V. apply lex_cases in H.
  destruct V; destruct H as [->|[->|[->|[->|[->|[->| ->]]]]]]; reflexivity.
Qed.

Theorem grammar_runs :
  (forall a, g_value a -> runs_value a) /\
  (forall l, g_elems l -> forall s ps r, s = JOpenA \/ s = JCommaA ->
     crun (C ps JValueA s) (l ++ r) = crun (C ps JValueA JValueA) r) /\
  (forall l, g_members l -> forall s ps r, s = JOpenM \/ s = JCommaM ->
     crun (C ps JValueM s) (l ++ r) = crun (C ps JValueM JValueM) r).
Proof.
  apply g_mutind.
  - exact scalar_runs.
  - intros s e ps r V. destruct V; reflexivity.
  - intros l _ IH s e ps r V. cbn [app]. rewrite <- app_assoc. cbn [app].
    assert (E : crun (C ps e s) (3 :: l ++ 4 :: r) = crun (C (e :: ps) JValueA JOpenA) (l ++ 4 :: r)) by (destruct V; reflexivity).
    rewrite E, (IH JOpenA (e :: ps) (4 :: r)) by now left. reflexivity.
  - intros s e ps r V. destruct V; reflexivity.
  - intros l _ IH s e ps r V. cbn [app]. rewrite <- app_assoc. cbn [app].
    assert (E : crun (C ps e s) (1 :: l ++ 2 :: r) = crun (C (e :: ps) JValueM JOpenM) (l ++ 2 :: r)) by (destruct V; reflexivity).
    rewrite E, (IH JOpenM (e :: ps) (2 :: r)) by now left. reflexivity.
  - intros a _ IH s ps r [->| ->]; apply IH; constructor.
  - intros a l _ IHa _ IHl s ps r Hs. rewrite <- app_assoc. cbn [app].
    rewrite (IHa s JValueA ps (5 :: l ++ r)) by (destruct Hs as [->| ->]; constructor).
    cbn [crun]. change (cstep (C ps JValueA JValueA) 5) with (Some (C ps JValueA JCommaA)). apply IHl. now right.
  - intros a _ IH s ps r Hs. cbn [app].
    assert (E : crun (C ps JValueM s) (10 :: 6 :: a ++ r) = crun (C ps JValueM JColon) (a ++ r)) by (destruct Hs as [->| ->]; reflexivity).
    rewrite E. apply IH. constructor.
  - intros a l _ IHa _ IHl s ps r Hs. cbn [app]. rewrite <- app_assoc. cbn [app].
    assert (E : crun (C ps JValueM s) (10 :: 6 :: a ++ 5 :: l ++ r) = crun (C ps JValueM JColon) (a ++ 5 :: l ++ r))
      by (destruct Hs as [->| ->]; reflexivity).
    rewrite E, (IHa JColon JValueM ps (5 :: l ++ r)) by constructor.
    cbn [crun]. change (cstep (C ps JValueM JValueM) 5) with (Some (C ps JValueM JCommaM)). apply IHl. now right.
Qed.

(** ** Conversely *)
Definition done (c : option jctl) : Prop := exists c', c = Some c' /\ c_state c' = JDone.

Lemma crun_cons : forall c n r, crun c (n :: r) = match cstep c n with Some c' => crun c' r | None => None end.
Proof. reflexivity. Qed.

Lemma not_done : forall ps e s, s <> JDone -> ~ done (crun (C ps e s) []).
Proof. intros ps e s N (c & H & Hs). injection H as <-. apply N. exact Hs. Qed.

(** Closing a container. *)
Definition popped (ps : list jstate) (r : list nat) : Prop :=
  match ps with p :: q => done (crun (C q p p) r) | [] => False end.

Definition val_at (ls : list nat) : Prop := forall s e ps, vstart s e -> hd 0 ls <> 4 -> done (crun (C ps e s) ls) ->
  exists a r, ls = a ++ r /\ g_value a /\ length r < length ls /\ done (crun (C ps e e) r).
(** After an element: the rest of the array. *)
Definition elems_at (ls : list nat) : Prop := forall ps, done (crun (C ps JValueA JValueA) ls) ->
  (exists r, ls = 4 :: r /\ popped ps r) \/ (exists l r, ls = 5 :: l ++ 4 :: r /\ g_elems l /\ popped ps r).
Definition members_at (ls : list nat) : Prop := forall ps, done (crun (C ps JValueM JValueM) ls) ->
  (exists r, ls = 2 :: r /\ popped ps r) \/ (exists l r, ls = 5 :: l ++ 2 :: r /\ g_members l /\ popped ps r).

Ltac absurd_done H := exfalso; destruct H as (? & H & _); discriminate H.

Lemma close_a : forall ps r s, s = JOpenA \/ s = JValueA -> done (crun (C ps JValueA s) (4 :: r)) -> popped ps r.
Proof.
  intros ps r s Hs H. destruct ps as [|p q]; destruct Hs as [->| ->]; cbn in H; try (absurd_done H); exact H.
Qed.
Lemma close_m : forall ps r s, s = JOpenM \/ s = JValueM -> done (crun (C ps JValueM s) (2 :: r)) -> popped ps r.
Proof.
  intros ps r s Hs H. destruct ps as [|p q]; destruct Hs as [->| ->]; cbn in H; try (absurd_done H); exact H.
Qed.

Lemma step_val : forall n r s e ps, vstart s e -> n <> 4 -> done (crun (C ps e s) (n :: r)) ->
  (7 <= n <= 13 /\ done (crun (C ps e e) r)) \/
  (n = 1 /\ done (crun (C (e :: ps) JValueM JOpenM) r)) \/
  (n = 3 /\ done (crun (C (e :: ps) JValueA JOpenA) r)).
Proof.
  intros n r s e ps V N H. rewrite crun_cons in H.
  do 14 (destruct n as [|n]; [destruct V; cbn in H; try (absurd_done H); try (now destruct N);
    first [left; split; [lia|exact H] | right; left; split; [reflexivity|exact H] | right; right; split; [reflexivity|exact H]]|]).
  destruct V; cbn in H; absurd_done H.
Qed.
Lemma step_valuea : forall n r ps, done (crun (C ps JValueA JValueA) (n :: r)) -> n = 4 \/ (n = 5 /\ done (crun (C ps JValueA JCommaA) r)).
Proof.
  intros n r ps H. rewrite crun_cons in H. do 14 (destruct n as [|n]; [cbn in H; try (absurd_done H); auto|]).
  cbn in H; absurd_done H.
Qed.
Lemma step_valuem : forall n r ps, done (crun (C ps JValueM JValueM) (n :: r)) -> n = 2 \/ (n = 5 /\ done (crun (C ps JValueM JCommaM) r)).
Proof.
  intros n r ps H. rewrite crun_cons in H. do 14 (destruct n as [|n]; [cbn in H; try (absurd_done H); auto|]).
  cbn in H; absurd_done H.
Qed.
Lemma step_key : forall n r s ps, s = JOpenM \/ s = JCommaM -> done (crun (C ps JValueM s) (n :: r)) ->
  (n = 2 /\ s = JOpenM) \/ (n = 10 /\ exists r', r = 6 :: r' /\ done (crun (C ps JValueM JColon) r')).
Proof.
  intros n r s ps Hs H. rewrite crun_cons in H.
  assert (K : forall r, done (crun (C ps JValueM JKey) r) -> exists r', r = 6 :: r' /\ done (crun (C ps JValueM JColon) r')).
  { intros [|m q] Hq; [exfalso; revert Hq; apply not_done; discriminate|]. rewrite crun_cons in Hq.
    do 14 (destruct m as [|m]; [cbn in Hq; try (absurd_done Hq); eauto|]). cbn in Hq; absurd_done Hq. }
  do 14 (destruct n as [|n]; [destruct Hs as [->| ->]; cbn in H; try (absurd_done H); auto|]).
  destruct Hs as [->| ->]; cbn in H; absurd_done H.
Qed.

Lemma all_at : forall n ls, length ls <= n -> val_at ls /\ elems_at ls /\ members_at ls.
Proof.
  induction n as [|n IH]; intros ls Hl.
  - destruct ls; [|cbn in Hl; lia]. split; [|split].
    + intros s e ps V _ H. exfalso. revert H. apply not_done. destruct V; discriminate.
    + intros ps H. exfalso. revert H. apply not_done. discriminate.
    + intros ps H. exfalso. revert H. apply not_done. discriminate.
  - destruct ls as [|x ls]; [apply IH; cbn; lia|]. cbn [length] in Hl.
    (* members after an opening brace or a comma *)
    assert (Mem : forall s ps, s = JOpenM \/ s = JCommaM -> forall q, length q <= n -> done (crun (C ps JValueM s) q) ->
              (s = JOpenM /\ exists r, q = 2 :: r /\ popped ps r) \/
              exists l r, q = l ++ 2 :: r /\ g_members l /\ popped ps r).
    { intros s ps Hs q Hq H. destruct q as [|m q]; [exfalso; revert H; apply not_done; destruct Hs as [->| ->]; discriminate|].
      assert (H0 := H). apply step_key in H; [|exact Hs].
      destruct H as [[-> ->]|(-> & q' & -> & H)].
      - left. split; [reflexivity|]. exists q. split; [reflexivity|]. eapply close_m; [left; reflexivity|exact H0].
      - right. cbn [length] in Hq. destruct (IH q' ltac:(lia)) as (IV & _ & _).
        destruct (Nat.eq_dec (hd 0 q') 4) as [E4|N4].
        { destruct q' as [|y q']; [discriminate E4|]. cbn in E4. subst y. cbn in H. absurd_done H. }
        destruct (IV JColon JValueM ps vs_colon N4 H) as (a & r & -> & Ga & Lr & Hd).
        destruct (IH r ltac:(lia)) as (_ & _ & IM).
        destruct (IM ps Hd) as [(r2 & -> & P)|(l & r2 & -> & Gl & P)].
        + exists (10 :: 6 :: a), r2. split; [reflexivity|]. split; [now constructor|exact P].
        + exists (10 :: 6 :: a ++ 5 :: l), r2. split; [cbn [app]; rewrite <- app_assoc; reflexivity|].
          split; [now constructor|exact P]. }
    (* elements after an opening bracket or a comma *)
    assert (Elm : forall s ps, s = JOpenA \/ s = JCommaA -> forall q, length q <= n -> hd 0 q <> 4 -> done (crun (C ps JValueA s) q) ->
              exists l r, q = l ++ 4 :: r /\ g_elems l /\ popped ps r).
    { intros s ps Hs q Hq N4 H. destruct (IH q Hq) as (IV & _ & _).
      destruct (IV s JValueA ps ltac:(destruct Hs as [->| ->]; constructor) N4 H) as (a & r & -> & Ga & Lr & Hd).
      destruct (IH r ltac:(lia)) as (_ & IE & _).
      destruct (IE ps Hd) as [(r2 & -> & P)|(l & r2 & -> & Gl & P)].
      - exists a, r2. split; [reflexivity|]. split; [now constructor|exact P].
      - exists (a ++ 5 :: l), r2. split; [rewrite <- app_assoc; reflexivity|]. split; [now constructor|exact P]. }
    split; [|split].
    + intros s e ps V N4 H. cbn [hd] in N4. apply step_val in H; [|exact V|exact N4].
      destruct H as [[Hx H]|[[-> H]|[-> H]]].
      * exists [x], ls. split; [reflexivity|]. split; [now constructor|]. cbn [length]. split; [lia|exact H].
      * destruct (Mem JOpenM (e :: ps) (or_introl eq_refl) ls ltac:(lia) H) as [(_ & r & -> & P)|(l & r & -> & G & P)].
        -- exists [1; 2], r. split; [reflexivity|]. split; [constructor|]. cbn [length]. split; [lia|exact P].
        -- exists (1 :: l ++ [2]), r. cbn [app length]. rewrite <- app_assoc. split; [reflexivity|]. split; [now constructor|].
           rewrite app_length. cbn [length]. split; [lia|exact P].
      * destruct (Nat.eq_dec (hd 0 ls) 4) as [E4|E4].
        -- destruct ls as [|y ls]; [discriminate E4|]. cbn in E4. subst y.
           exists [3; 4], ls. split; [reflexivity|]. split; [constructor|]. cbn [length]. split; [lia|].
           exact (close_a _ _ _ (or_introl eq_refl) H).
        -- destruct (Elm JOpenA (e :: ps) (or_introl eq_refl) ls ltac:(lia) E4 H) as (l & r & -> & G & P).
           exists (3 :: l ++ [4]), r. cbn [app length]. rewrite <- app_assoc. split; [reflexivity|]. split; [now constructor|].
           rewrite app_length. cbn [length]. split; [lia|exact P].
    + intros ps H. assert (H0 := H). apply step_valuea in H. destruct H as [->|[-> H]].
      * left. exists ls. split; [reflexivity|]. eapply close_a; [right; reflexivity|exact H0].
      * right. destruct (Nat.eq_dec (hd 0 ls) 4) as [E4|E4].
        { destruct ls as [|y ls]; [discriminate E4|]. cbn in E4. subst y. cbn in H. absurd_done H. }
        destruct (Elm JCommaA ps (or_intror eq_refl) ls ltac:(lia) E4 H) as (l & r & -> & G & P).
        exists l, r. auto.
    + intros ps H. assert (H0 := H). apply step_valuem in H. destruct H as [->|[-> H]].
      * left. exists ls. split; [reflexivity|]. eapply close_m; [right; reflexivity|exact H0].
      * right. destruct (Mem JCommaM ps (or_intror eq_refl) ls ltac:(lia) H) as [(X & _)|(l & r & -> & G & P)]; [discriminate X|].
        exists l, r. auto.
Qed.

Theorem machine_is_grammar : forall ls, done (crun started_init ls) <-> g_value ls.
Proof.
  intro ls. split.
  - intro H. destruct (Nat.eq_dec (hd 0 ls) 4) as [E4|E4].
    { destruct ls as [|y ls]; [discriminate E4|]. cbn in E4. subst y. cbn in H. absurd_done H. }
    destruct (all_at (length ls) ls (le_n _)) as (V & _ & _).
    destruct (V JInit JDone [] vs_init E4 H) as (a & r & -> & G & _ & (c & E & _)).
    destruct r as [|n r]; [now rewrite app_nil_r|]. discriminate E.
  - intro G. destruct grammar_runs as (V & _ & _). assert (E := V ls G JInit JDone [] [] vs_init). rewrite app_nil_r in E.
    exists (C [] JDone JDone). split; [exact E|reflexivity].
Qed.

(** ** getNextToken and its instrumented form *)
Lemma again_state : forall c n c', ctl_step c n = Ok (StepAgain c') ->
  (c_state c' = JColon \/ c_state c' = JCommaM \/ c_state c' = JCommaA) /\ c_started c' = c_started c.
Proof.
  intros c n c' H. unfold ctl_step in H.
  destruct (stateTable (c_state c) n); try discriminate H; try (injection H as <-; cbn; auto);
    destruct (c_parents c); discriminate H.
Qed.
Lemma no_again : forall c n c', c_state c = JColon \/ c_state c = JCommaM \/ c_state c = JCommaA ->
  ctl_step c n <> Ok (StepAgain c').
Proof.
  intros c n c' Hs H. unfold ctl_step in H.
  destruct Hs as [Q|[Q|Q]]; rewrite Q in H;
    do 14 (destruct n as [|n]; [cbn in H; try discriminate H; destruct (c_parents c); discriminate H|]); discriminate H.
Qed.

Lemma next_loop_reads : forall f p t p', jp_next_loop f p = Ok (t, p') -> exists ls, reads_token p ls t p'.
Proof.
  induction f as [|f IH]; intros p t p' H; [discriminate H|]. cbn [jp_next_loop] in H.
  destruct (ctl_early (jp_ctl p)) as [[t0 c]|] eqn:E.
  - injection H as <- <-. exists []. now constructor.
  - destruct (yylex (jp_lex p)) as [[ix l]| | |] eqn:Y; cbn [bind] in H; try discriminate H.
    destruct (ctl_step (jp_ctl p) ix) as [r| | |] eqn:S; cbn [bind] in H; try discriminate H.
    destruct r as [t0 c|c].
    + injection H as <- <-. exists [ix]. now constructor.
    + destruct (IH _ _ _ H) as [ls R]. exists (ix :: ls). eapply rt_again; eauto.
Qed.

Theorem next_reads : forall p t p', jp_next p = Ok (t, p') <-> exists ls, reads_token p ls t p'.
Proof.
  intros p t p'. split; [apply next_loop_reads|]. intros [ls R]. unfold jp_next.
  destruct R as [p t c E|p ix l t c E Y S|p ix l c ls t p' E Y S R].
  - cbn [jp_next_loop]. now rewrite E.
  - cbn [jp_next_loop]. rewrite E, Y. cbn [bind]. rewrite S. reflexivity.
  - assert (A := again_state _ _ _ S). destruct A as [A1 A2].
    cbn [jp_next_loop]. rewrite E, Y. cbn [bind]. rewrite S. cbn [bind].
    assert (B : forall p1 ls1 t1 p2, reads_token p1 ls1 t1 p2 ->
       (c_state (jp_ctl p1) = JColon \/ c_state (jp_ctl p1) = JCommaM \/ c_state (jp_ctl p1) = JCommaA) ->
       jp_next_loop 2 p1 = Ok (t1, p2)).
    { intros p1 ls1 t1 p2 R1 Hs. destruct R1 as [p1 t1 c1 E1|p1 ix1 l1 t1 c1 E1 Y1 S1|p1 ix1 l1 c1 ls1 t1 p2 E1 Y1 S1 R1].
      - cbn [jp_next_loop]. now rewrite E1.
      - cbn [jp_next_loop]. rewrite E1, Y1. cbn [bind]. rewrite S1. reflexivity.
      - exfalso. exact (no_again _ _ _ Hs S1). }
    exact (B _ _ _ _ R A1).
Qed.

(** ** Nesting *)
Inductive outer : list jstate -> list frame -> Prop :=
| ou_doc : outer [JDone] [FDone]
| ou_map : forall ps fs, outer ps fs -> outer (JValueM :: ps) (FKey :: fs)
| ou_arr : forall ps fs, outer ps fs -> outer (JValueA :: ps) (FArr :: fs).

Inductive rel : jctl -> list frame -> Prop :=
| rl_init : rel (mkCtl [] JDone JInit true) [FDoc]
| rl_done : rel (mkCtl [] JDone JDone true) [FDone]
| rl_openm : forall ps fs, outer ps fs -> rel (mkCtl ps JValueM JOpenM true) (FKey :: fs)
| rl_valuem : forall ps fs, outer ps fs -> rel (mkCtl ps JValueM JValueM true) (FKey :: fs)
| rl_commam : forall ps fs, outer ps fs -> rel (mkCtl ps JValueM JCommaM true) (FKey :: fs)
| rl_key : forall ps fs, outer ps fs -> rel (mkCtl ps JValueM JKey true) (FVal :: fs)
| rl_colon : forall ps fs, outer ps fs -> rel (mkCtl ps JValueM JColon true) (FVal :: fs)
| rl_opena : forall ps fs, outer ps fs -> rel (mkCtl ps JValueA JOpenA true) (FArr :: fs)
| rl_valuea : forall ps fs, outer ps fs -> rel (mkCtl ps JValueA JValueA true) (FArr :: fs)
| rl_commaa : forall ps fs, outer ps fs -> rel (mkCtl ps JValueA JCommaA true) (FArr :: fs).

Lemma rel_closed : forall ps fs, outer ps fs -> exists p q, ps = p :: q /\ rel (mkCtl q p p true) fs.
Proof.
  intros ps fs H. destruct H as [|ps fs H|ps fs H].
  - exists JDone, []. split; [reflexivity|constructor].
  - exists JValueM, ps. split; [reflexivity|now constructor].
  - exists JValueA, ps. split; [reflexivity|now constructor].
Qed.

Definition step_ok (c : jctl) (fs : list frame) (n : nat) : Prop :=
  (exists c', ctl_step c n = Ok (StepTok TokError c') /\ c_state c' = JError /\ c_started c' = true) \/
  (exists t c' fs', ctl_step c n = Ok (StepTok t c') /\ t <> TokError /\ t <> TokDocEnd /\ nest fs t = Some fs' /\ rel c' fs' /\
     cstep c n = Some c') \/
  (exists c', ctl_step c n = Ok (StepAgain c') /\ rel c' fs /\ cstep c n = Some c').

Ltac err := left; eexists; split; [reflexivity|split; reflexivity].
Ltac tok := right; left; eexists _, _, _; split; [reflexivity|]; split; [discriminate|]; split; [discriminate|]; split; [reflexivity|];
  split; [|reflexivity]; repeat constructor; assumption.
Ltac again := right; right; eexists; split; [reflexivity|]; split; [|reflexivity]; constructor; assumption.

Lemma rel_step : forall c fs n, rel c fs -> ctl_early c = None -> step_ok c fs n.
Proof.
  intros c fs n R E.
  destruct R as [| |ps fs H|ps fs H|ps fs H|ps fs H|ps fs H|ps fs H|ps fs H|ps fs H]; try discriminate E;
    unfold step_ok;
    do 14 (destruct n as [|n]; [first [err|tok|again|
      destruct (rel_closed ps fs H) as (q & qs & -> & Rq); right; left; eexists _, _, _;
      (split; [reflexivity|]); (split; [discriminate|]); (split; [discriminate|]); (split; [reflexivity|]); split; [exact Rq|reflexivity]]|]); err.
Qed.

Lemma nests_app : forall a b fs, nests fs (a ++ b) = match nests fs a with Some fs' => nests fs' b | None => None end.
Proof. induction a as [|t a IH]; intros b fs; cbn [app nests]; [reflexivity|]. destruct (nest fs t); [apply IH|reflexivity]. Qed.

(** yylex always delivers a lexeme. *)
Lemma yylex_total : forall l, exists ix l', yylex l = Ok (ix, l').
Proof.
  intro l. unfold yylex.
  assert (P : exists c s', src_peekNextNonSpace (l_src l) = Ok (c, s')).
  { unfold src_peekNextNonSpace, src_readChar. destruct (s_kind (l_src l)).
    - destruct (skip_space (s_rest (l_src l))) as [m [|c r]].
      + cbn. eexists _, _. reflexivity.
      + destruct (is_punct (schar c)); cbn; eexists _, _; reflexivity.
    - destruct (strm_good (l_src l)); [|eexists _, _; reflexivity].
      destruct (skip_space (s_rest (l_src l))) as [m [|c r]]; [eexists _, _; reflexivity|].
      destruct (is_punct (schar c)); cbn; eexists _, _; reflexivity. }
  destruct P as (c & s' & ->). cbn [bind].
  repeat match goal with |- context [if ?b then _ else _] => destruct b end; eexists _, _; reflexivity.
Qed.

(** The states of a session that starts with a fresh parser. *)
Inductive phase : list token -> list nat -> jctl -> Prop :=
| ph_fresh : phase [] [] ctl_init
| ph_active : forall ts ls c fs, ts <> [] -> ~ In TokError ts -> ~ In TokDocEnd ts ->
    crun started_init ls = Some c -> nests [FStart] ts = Some fs -> rel c fs -> phase ts ls c
| ph_ended : forall ts ls c n, ~ In TokError ts -> g_value ls -> nests [FStart] (ts ++ [TokDocEnd]) <> None ->
    c_state c = JError -> c_started c = true -> phase (ts ++ TokDocEnd :: repeat TokError n) ls c
| ph_failed : forall ts ls c n, ~ In TokError ts -> ~ In TokDocEnd ts -> (forall more, ~ done (crun started_init (ls ++ more))) ->
    nests [FStart] ts <> None -> c_state c = JError -> c_started c = true -> phase (ts ++ TokError :: repeat TokError n) ls c.

Lemma repeat_snoc : forall {A} (x : A) n, repeat x n ++ [x] = x :: repeat x n.
Proof. intros A x n. induction n as [|n IH]; cbn; [reflexivity|]. now rewrite IH. Qed.

Lemma error_final : forall p ls t p', c_state (jp_ctl p) = JError -> c_started (jp_ctl p) = true -> reads_token p ls t p' ->
  ls = [] /\ t = TokError /\ p' = p.
Proof.
  intros p ls t p' Hs Ht R. assert (E : ctl_early (jp_ctl p) = Some (TokError, jp_ctl p)).
  { unfold ctl_early. now rewrite Ht, Hs. }
  destruct R as [p t c E1|p ix l t c E1 Y S|p ix l c ls t p' E1 Y S R]; rewrite E in E1; try discriminate E1.
  injection E1 as <- <-. destruct p. auto.
Qed.

Lemma active_reads : forall p ls1 t p', reads_token p ls1 t p' -> forall ls fs, crun started_init ls = Some (jp_ctl p) ->
  rel (jp_ctl p) fs ->
  (t = TokDocEnd /\ ls1 = [] /\ c_state (jp_ctl p) = JDone /\ c_state (jp_ctl p') = JError /\ c_started (jp_ctl p') = true /\
     nest fs t <> None) \/
  (t = TokError /\ (forall more, ~ done (crun started_init ((ls ++ ls1) ++ more))) /\
     c_state (jp_ctl p') = JError /\ c_started (jp_ctl p') = true) \/
  (t <> TokError /\ t <> TokDocEnd /\ exists fs', nest fs t = Some fs' /\ rel (jp_ctl p') fs' /\
     crun started_init (ls ++ ls1) = Some (jp_ctl p')).
Proof.
  intros p ls1 t p' R. induction R as [p t c E|p ix l t c E Y S|p ix l c ls1 t p' E Y S R IH]; intros ls fs Hr Hf.
  - left. unfold ctl_early in E. destruct Hf; cbn in E; try discriminate E. injection E as <- <-. cbn.
    repeat split; discriminate.
  - right. destruct (rel_step _ fs ix Hf E) as [(c' & S' & A1 & A2)|[(t' & c' & fs' & S' & N1 & N2 & A1 & A2 & A3)|(c' & S' & _)]];
      rewrite S in S'; try discriminate S'.
    + injection S' as -> ->. left. split; [reflexivity|]. split; [|cbn; auto].
      intros more (c2 & D & _). rewrite <- app_assoc, crun_app, Hr in D. cbn [app] in D. rewrite crun_cons in D.
      unfold cstep in D. rewrite S in D. destruct (c_state (jp_ctl p)); discriminate D.
    + injection S' as -> ->. right. split; [exact N1|]. split; [exact N2|]. exists fs'. split; [exact A1|]. split; [exact A2|].
      rewrite crun_app, Hr. cbn [crun]. rewrite A3. reflexivity.
  - destruct (rel_step _ fs ix Hf E) as [(c' & S' & _)|[(t' & c' & fs' & S' & _)|(c' & S' & A2 & A3)]];
      rewrite S in S'; try discriminate S'.
    injection S' as <-. specialize (IH (ls ++ [ix]) fs). cbn [jp_ctl] in IH.
    rewrite <- app_assoc in IH. cbn [app] in IH.
    destruct IH as [(_ & _ & X & _)|[IH|IH]].
    + rewrite crun_app, Hr. cbn [crun]. now rewrite A3.
    + exact A2.
    + exfalso. destruct (again_state _ _ _ S) as [[Q|[Q|Q]] _]; rewrite Q in X; discriminate X.
    + right. left. exact IH.
    + right. right. exact IH.
Qed.

Theorem session_phase : forall p0 ts ls p, jp_ctl p0 = ctl_init -> session p0 ts ls p -> phase ts ls (jp_ctl p).
Proof.
  intros p0 ts ls p Hp S. induction S as [p0|p0 ts ls p1 ls1 t p2 S IH R|p0 ts ls p1 l S IH].
  - rewrite Hp. constructor.
  - specialize (IH Hp). inversion IH as [Q1 Q2 Q3|ts' ls' c fs N1 N2 N3 Hr Hn Hf Q1 Q2 Q3|ts' ls' c n N1 G Hn Hs Ht Q1 Q2 Q3|
      ts' ls' c n N1 N2 D Hn Hs Ht Q1 Q2 Q3]; subst.
    + (* fresh *)
      destruct R as [p t c E|p ix l t c E Y St|p ix l c ls1 t p' E Y St R]; rewrite <- Q3 in E; cbn in E; try discriminate E.
      injection E as <- <-. apply ph_active with (fs := [FDoc]); cbn; try reflexivity; try discriminate; try (intros [X|[]]; discriminate X).
      constructor.
    + destruct (active_reads _ _ _ _ R ls fs Hr Hf) as [(-> & -> & A1 & A2 & A3 & A4)|[(-> & A1 & A2 & A3)|(N4 & N5 & fs' & A1 & A2 & A3)]].
      * rewrite app_nil_r. apply (ph_ended ts ls _ 0); auto.
        -- apply machine_is_grammar. exists (jp_ctl p1). auto.
        -- rewrite nests_app, Hn. cbn [nests]. destruct (nest fs TokDocEnd); [discriminate|congruence].
      * apply (ph_failed ts _ _ 0); auto. congruence.
      * apply ph_active with (fs := fs'); auto.
        -- destruct ts; discriminate.
        -- rewrite in_app_iff. intros [X|[X|[]]]; auto.
        -- rewrite in_app_iff. intros [X|[X|[]]]; auto.
        -- rewrite nests_app, Hn. cbn [nests]. now rewrite A1.
    + destruct (error_final _ _ _ _ Hs Ht R) as (-> & -> & ->). rewrite app_nil_r, <- app_assoc. cbn [app].
      rewrite repeat_snoc. change (TokError :: repeat TokError n) with (repeat TokError (Datatypes.S n)). now apply ph_ended.
    + destruct (error_final _ _ _ _ Hs Ht R) as (-> & -> & ->). rewrite app_nil_r, <- app_assoc. cbn [app].
      rewrite repeat_snoc. change (TokError :: TokError :: repeat TokError n) with (TokError :: repeat TokError (Datatypes.S n)).
      now apply ph_failed.
  - exact (IH Hp).
Qed.

(** getNextToken is defined and ends in every phase. *)
Lemma phase_next_total : forall ts ls p, phase ts ls (jp_ctl p) -> exists t p', jp_next p = Ok (t, p').
Proof.
  intros ts ls p P.
  assert (Early : ctl_early (jp_ctl p) <> None -> exists t p', jp_next p = Ok (t, p')).
  { intro E. destruct (ctl_early (jp_ctl p)) as [[t c]|] eqn:Q; [|congruence]. unfold jp_next. cbn [jp_next_loop]. rewrite Q. eauto. }
  inversion P as [Q1 Q2 Q3|ts' ls' c fs N1 N2 N3 Hr Hn Hf Q1 Q2 Q3|ts' ls' c n N1 G Hn Hs Ht Q1 Q2 Q3|
      ts' ls' c n N1 N2 D Hn Hs Ht Q1 Q2 Q3]; subst.
  - apply Early. rewrite <- Q3. discriminate.
  - destruct (ctl_early (jp_ctl p)) as [[t c]|] eqn:E; [apply Early; congruence|].
    destruct (yylex_total (jp_lex p)) as (ix & l & Y).
    destruct (rel_step _ fs ix Hf E) as [(c' & S & _)|[(t' & c' & fs' & S & _)|(c' & S & A2 & A3)]].
    + unfold jp_next. cbn [jp_next_loop]. rewrite E, Y. cbn [bind]. rewrite S. cbn [bind]. eauto.
    + unfold jp_next. cbn [jp_next_loop]. rewrite E, Y. cbn [bind]. rewrite S. cbn [bind]. eauto.
    + destruct (again_state _ _ _ S) as [As _]. unfold jp_next. cbn [jp_next_loop]. rewrite E, Y. cbn [bind]. rewrite S. cbn [bind jp_ctl jp_lex].
      destruct (ctl_early c') as [[t2 c2]|] eqn:E2; [eauto|].
      destruct (yylex_total l) as (ix2 & l2 & Y2). rewrite Y2. cbn [bind].
      destruct (rel_step _ fs ix2 A2 E2) as [(c2 & S2 & _)|[(t2 & c2 & fs2 & S2 & _)|(c2 & S2 & _)]].
      * rewrite S2. cbn [bind]. eauto.
      * rewrite S2. cbn [bind]. eauto.
      * exfalso. exact (no_again _ _ _ As S2).
  - apply Early. unfold ctl_early. rewrite Ht, Hs. discriminate.
  - apply Early. unfold ctl_early. rewrite Ht, Hs. discriminate.
Qed.

(** A client that skips all values, for examples. *)
Fixpoint jp_reads (f : nat) (p : jparser) : outcome (list nat * token * jparser) :=
  match f with
  | O => Hang
  | S f =>
      match ctl_early (jp_ctl p) with
      | Some (t, c) => Ok ([], t, mkJp (jp_lex p) c)
      | None =>
          do (ix, l) <- yylex (jp_lex p);
          do r <- ctl_step (jp_ctl p) ix;
          match r with
          | StepTok t c => Ok ([ix], t, mkJp l c)
          | StepAgain c => do (ls, t, p') <- jp_reads f (mkJp l c); Ok (ix :: ls, t, p')
          end
      end
  end.
Lemma jp_reads_ok : forall f p ls t p', jp_reads f p = Ok (ls, t, p') -> reads_token p ls t p'.
Proof.
  induction f as [|f IH]; intros p ls t p' H; [discriminate H|]. cbn [jp_reads] in H.
  destruct (ctl_early (jp_ctl p)) as [[t0 c]|] eqn:E.
  - injection H as <- <- <-. now constructor.
  - destruct (yylex (jp_lex p)) as [[ix l]| | |] eqn:Y; cbn [bind] in H; try discriminate H.
    destruct (ctl_step (jp_ctl p) ix) as [r| | |] eqn:S; cbn [bind] in H; try discriminate H.
    destruct r as [t0 c|c].
    + injection H as <- <- <-. now constructor.
    + destruct (jp_reads f (mkJp l c)) as [[[ls1 t1] p1]| | |] eqn:R; cbn [bind] in H; try discriminate H.
      injection H as <- <- <-. eapply rt_again; eauto.
Qed.
Fixpoint client (n : nat) (p : jparser) : list token * list nat * jparser :=
  match n with
  | O => ([], [], p)
  | S n =>
      let '(ts, ls, p1) := client n p in
      match jp_reads 3 p1 with
      | Ok (ls1, t, p2) =>
          let p3 := match t with
                    | TokValue | TokKey => match ignoreRawValue 100 (jp_lex p2) with Ok l => mkJp l (jp_ctl p2) | _ => p2 end
                    | _ => p2
                    end in
          (ts ++ [t], ls ++ ls1, p3)
      | _ => (ts, ls, p1)
      end
  end.
Lemma client_session : forall n p, let '(ts, ls, p') := client n p in session p ts ls p'.
Proof.
  induction n as [|n IH]; intro p; cbn [client]; [constructor|]. specialize (IH p).
  destruct (client n p) as [[ts ls] p1]. destruct (jp_reads 3 p1) as [[[ls1 t] p2]| | |] eqn:R; try exact IH.
  apply jp_reads_ok in R. assert (S := ss_next _ _ _ _ _ _ _ IH R).
  destruct t; try exact S; (destruct (ignoreRawValue 100 (jp_lex p2)); [exact (ss_use _ _ _ _ _ S)|exact S|exact S|exact S]).
Qed.
