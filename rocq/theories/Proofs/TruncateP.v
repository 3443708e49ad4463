(** The lexemes of a JSON text are the only ones the reader can take it for. *)
From Coq Require Import ZArith String List Bool Lia ZifyBool.
From Verif Require Import Model.Base Model.Source Model.Unicode Model.Number Model.JsonLexer Model.ParserInterface Model.JsonParser Model.Types
  Model.Deserializer Model.Importer
  Spec.JsonString Spec.Json Spec.Lexemes Spec.Typed Spec.Import Spec.Accepted Proofs.UnicodeP Proofs.LexP Proofs.CtlP Proofs.JsonSim Proofs.Induct Proofs.AcceptP Proofs.AcceptDocP.
Import ListNotations.
Open Scope Z_scope.

(** The head of a text shows that a number has ended. *)
Definition breaks (t : bytes) : Prop := match t with [] => True | c :: _ => is_space c = true \/ is_punct c = true end.

Lemma ws_blank : forall w, ws w -> blank w.
Proof. intros w H. eapply Forall_impl; [|exact H]. intros c Hc. cbn beta in Hc. unfold ws_char in Hc. lia. Qed.

Section Rfc.
  Variable Q : bytes -> Prop.
  Inductive rlex : nat -> bytes -> Prop :=
  | rl_punct : forall c n, starts_lexeme c n -> (n <= 6)%nat -> rlex n [c]
  | rl_true : rlex 7 [116; 114; 117; 101]
  | rl_false : rlex 8 [102; 97; 108; 115; 101]
  | rl_null : rlex 9 [110; 117; 108; 108]
  | rl_str : forall raw, legal_string raw -> Q raw -> rlex 10 (34 :: raw ++ [34])
  | rl_num : forall x, number x -> rlex 13 x.
  Inductive rfc : list nat -> bytes -> Prop :=
  | rf_end : forall w, blank w -> rfc [] w
  | rf_cons : forall n ns w x rest, blank w -> rlex n x -> (n = 13%nat -> breaks rest) -> rfc ns rest -> rfc (n :: ns) (w ++ x ++ rest).

  Lemma rfc_ws : forall w ns t, ws w -> rfc ns t -> rfc ns (w ++ t).
  Proof.
    intros w ns t W H. apply ws_blank in W. destruct H as [u U|n ns u x rest U X D H]; [constructor; now apply Forall_app|].
    rewrite app_assoc. constructor; [now apply Forall_app|assumption..].
  Qed.
  Lemma breaks_ws : forall w t, ws w -> breaks t -> breaks (w ++ t).
  Proof. intros [|c w] t W B; [exact B|]. cbn. left. inversion W as [|? ? H _]; subst. unfold ws_char in H. unfold is_space. lia. Qed.
  Lemma rfc_punct : forall c n ns t, starts_lexeme c n -> (n <= 6)%nat -> rfc ns t -> rfc (n :: ns) (c :: t).
  Proof. intros c n ns t S L H. change (c :: t) with ([] ++ [c] ++ t). constructor; [constructor|now constructor|lia|exact H]. Qed.
  Lemma rfc_str : forall raw ns t, legal_string raw -> Q raw -> rfc ns t -> rfc (10%nat :: ns) ((34 :: raw ++ [34]) ++ t).
  Proof. intros raw ns t S L H. change ((34 :: raw ++ [34]) ++ t) with ([] ++ (34 :: raw ++ [34]) ++ t). constructor; [constructor|now constructor|discriminate|exact H]. Qed.

  Notation strings := (tree_all Q (fun a => match a with SStr raw => Q raw | _ => True end)).
  Definition r_value (j : jv) (t : bytes) : Prop :=
    strings j -> forall ns tl, rfc ns tl -> breaks tl -> exists ls, g_value ls /\ rfc (ls ++ ns) (t ++ tl).
  Definition r_elems (l : list jv) (t : bytes) : Prop :=
    Forall strings l -> forall ns tl, rfc ns tl -> breaks tl -> exists ls, g_elems ls /\ rfc (ls ++ ns) (t ++ tl).
  Definition r_members (l : list (bytes * jv)) (t : bytes) : Prop :=
    Forall (fun kv => Q (fst kv) /\ strings (snd kv)) l -> forall ns tl, rfc ns tl -> breaks tl -> exists ls, g_members ls /\ rfc (ls ++ ns) (t ++ tl).
  Ltac norm := repeat (rewrite <- app_assoc || cbn [app]).
  Lemma spells_rfc : (forall j t, spells j t -> r_value j t) /\ (forall l t, spells_elems l t -> r_elems l t) /\ (forall l t, spells_members l t -> r_members l t).
  Proof.
    apply spells_mutind.
    - intros s t H Hs ns tl R B. inversion Hs as [a Ha| |]; subst. inversion H; subst.
      + exists [13%nat]. split; [constructor; lia|]. change (t ++ tl) with ([] ++ t ++ tl). constructor; [constructor|now constructor|auto|exact R].
      + exists [10%nat]. split; [constructor; lia|]. now apply rfc_str.
      + exists [7%nat]. split; [constructor; lia|]. change ([116; 114; 117; 101] ++ tl) with ([] ++ [116; 114; 117; 101] ++ tl). constructor; [constructor|constructor|discriminate|exact R].
      + exists [8%nat]. split; [constructor; lia|]. change ([102; 97; 108; 115; 101] ++ tl) with ([] ++ [102; 97; 108; 115; 101] ++ tl). constructor; [constructor|constructor|discriminate|exact R].
      + exists [9%nat]. split; [constructor; lia|]. change ([110; 117; 108; 108] ++ tl) with ([] ++ [110; 117; 108; 108] ++ tl). constructor; [constructor|constructor|discriminate|exact R].
    - intros w W Hs ns tl R B. exists [3; 4]%nat. split; [constructor|]. norm. apply rfc_punct; [constructor|lia|]. apply rfc_ws; [exact W|]. apply rfc_punct; [constructor|lia|exact R].
    - intros l t _ IH Hs ns tl R B. inversion Hs as [|l0 Hl|]; subst. destruct (IH ltac:(apply Forall_forall; exact Hl) (4%nat :: ns) (93 :: tl)) as (ls & G & R').
      { apply rfc_punct; [constructor|lia|exact R]. } { right. reflexivity. }
      exists (3%nat :: ls ++ [4%nat]). split; [now constructor|]. norm. apply rfc_punct; [constructor|lia|exact R'].
    - intros w W Hs ns tl R B. exists [1; 2]%nat. split; [constructor|]. norm. apply rfc_punct; [constructor|lia|]. apply rfc_ws; [exact W|]. apply rfc_punct; [constructor|lia|exact R].
    - intros l t _ IH Hs ns tl R B. inversion Hs as [| |l0 Hl]; subst. destruct (IH ltac:(apply Forall_forall; intros [k0 j0] Hk; exact (Hl _ _ Hk)) (2%nat :: ns) (125 :: tl)) as (ls & G & R').
      { apply rfc_punct; [constructor|lia|exact R]. } { right. reflexivity. }
      exists (1%nat :: ls ++ [2%nat]). split; [now constructor|]. norm. apply rfc_punct; [constructor|lia|exact R'].
    - intros j t w1 w2 W1 W2 _ IH Hs ns tl R B. inversion Hs as [|? ? Hj _]; subst. destruct (IH Hj ns (w2 ++ tl)) as (ls & G & R'); [now apply rfc_ws|now apply breaks_ws|].
      exists ls. split; [now constructor|]. norm. now apply rfc_ws.
    - intros j l t w1 w2 r W1 W2 _ IH _ IHl Hs ns tl R B. inversion Hs as [|? ? Hj Hl]; subst. destruct (IHl Hl ns tl R B) as (l2 & G2 & R2).
      destruct (IH Hj (5%nat :: l2 ++ ns) (w2 ++ 44 :: r ++ tl)) as (ls & G & R'); [apply rfc_ws; [exact W2|]; apply rfc_punct; [constructor|lia|exact R2]|apply breaks_ws; [exact W2|now right]|].
      exists (ls ++ 5%nat :: l2). split; [now constructor|]. norm. now apply rfc_ws.
    - intros k0 j t w1 w2 w3 w4 W1 W2 W3 W4 Hk _ IH Hs ns tl R B. inversion Hs as [|? ? [Hq Hj] _]; subst. destruct (IH Hj ns (w4 ++ tl)) as (ls & G & R'); [now apply rfc_ws|now apply breaks_ws|].
      exists (10%nat :: 6%nat :: ls). split; [now constructor|]. replace ((w1 ++ (34 :: k0 ++ [34]) ++ w2 ++ 58 :: w3 ++ t ++ w4) ++ tl) with (w1 ++ (34 :: k0 ++ [34]) ++ w2 ++ 58 :: w3 ++ t ++ w4 ++ tl) by now norm.
      apply rfc_ws; [exact W1|]. cbn [app]. apply rfc_str; [exact Hk|exact Hq|]. apply rfc_ws; [exact W2|]. apply rfc_punct; [constructor|lia|]. now apply rfc_ws.
    - intros k0 j l t w1 w2 w3 w4 r W1 W2 W3 W4 Hk _ IH _ IHl Hs ns tl R B. inversion Hs as [|? ? [Hq Hj] Hl]; subst. destruct (IHl Hl ns tl R B) as (l2 & G2 & R2).
      destruct (IH Hj (5%nat :: l2 ++ ns) (w4 ++ 44 :: r ++ tl)) as (ls & G & R'); [apply rfc_ws; [exact W4|]; apply rfc_punct; [constructor|lia|exact R2]|apply breaks_ws; [exact W4|now right]|].
      exists (10%nat :: 6%nat :: ls ++ 5%nat :: l2). split; [now constructor|].
      replace ((w1 ++ (34 :: k0 ++ [34]) ++ w2 ++ 58 :: w3 ++ t ++ w4 ++ 44 :: r) ++ tl) with (w1 ++ (34 :: k0 ++ [34]) ++ w2 ++ 58 :: w3 ++ t ++ w4 ++ 44 :: r ++ tl) by now norm.
      apply rfc_ws; [exact W1|]. cbn [app]. apply rfc_str; [exact Hk|exact Hq|]. apply rfc_ws; [exact W2|]. apply rfc_punct; [constructor|lia|]. rewrite <- app_assoc. now apply rfc_ws.
  Qed.
End Rfc.

(** ** Characters of lexemes *)
Definition solid (c : Z) : Prop := is_space c = false /\ is_punct c = false.
Lemma digit_solid : forall ds, Forall digit ds -> Forall solid ds.
Proof. intros ds H. eapply Forall_impl; [|exact H]. intros c Hc. unfold digit in Hc. unfold solid, is_space, is_punct. lia. Qed.
Lemma part_solid : forall i f e, int_part i -> frac_part f -> exp_part e -> Forall solid (i ++ f ++ e).
Proof.
  assert (S : forall c, 33 <= c -> is_punct c = false -> solid c) by (intros c L P; split; [unfold is_space; lia|exact P]).
  intros i f e Hi Hf He. apply Forall_app. split; [|apply Forall_app; split].
  - destruct Hi as [|c r Hc Hr]; constructor; try (apply S; [lia|reflexivity]); [constructor| |now apply digit_solid]. apply S; unfold is_punct; lia.
  - destruct Hf as [|l [_ Hl]]; [constructor|]. constructor; [now apply S|now apply digit_solid].
  - destruct He as [|e0 l [->| ->] [_ Hl]|e0 s0 l [->| ->] [->| ->] [_ Hl]]; repeat (constructor; [now apply S|]); try constructor; try now apply digit_solid.
Qed.
Lemma number_solid : forall x, number x -> Forall solid x.
Proof. intros x [s i f e Hs Hi Hf He]. apply Forall_app. split; [|now apply part_solid]. destruct Hs; repeat constructor. Qed.
Lemma int_solid : forall k x, int_text k x -> Forall solid x.
Proof.
  intros k x [sg ds Hs [_ Hd]|sg sg' ds Hs Hs' Hd _]; repeat (apply Forall_app; split); try (now apply digit_solid);
    repeat match goal with H : _ \/ _ |- _ => destruct H as [->|H] end; subst; repeat constructor.
Qed.
Lemma number_head : forall x, number x -> exists c r, x = c :: r /\ lexix c = 13%nat.
Proof.
  intros x [s i f e Hs Hi _ _]. destruct Hs as [|]; [|now exists 45, (i ++ f ++ e)]. destruct Hi as [|c r Hc _]; [now exists 48, (f ++ e)|]. exists c, (r ++ f ++ e). split; [reflexivity|].
  unfold lexix. repeat match goal with |- context [if c =? ?x then _ else _] => destruct (Z.eqb_spec c x); [lia|] end. reflexivity.
Qed.
Lemma starts_lexix : forall c n, starts_lexeme c n -> (n <= 6)%nat -> lexix c = n /\ is_space c = false /\ is_punct c = true.
Proof. intros c n H L. destruct H; try lia; repeat split; reflexivity. Qed.

(** The first character of a lexeme tells which one it is. *)
Lemma rlex_head : forall Q n x, rlex Q n x -> exists c r, x = c :: r /\ lexix c = n /\ is_space c = false.
Proof.
  intros Q n x [c m S L| | | |raw _ _|y N]; try (eexists; eexists; split; [reflexivity|split; reflexivity]).
  - exists c, []. destruct (starts_lexix c m S L) as (E & Sp & _). auto.
  - destruct (number_head y N) as (c & r & -> & E). exists c, r. split; [reflexivity|]. split; [exact E|]. apply number_solid in N. inversion N as [|? ? [H _] _]; subst. exact H.
Qed.
Lemma lexeme_head : forall cfg k n x, lexeme cfg k n x -> exists c r, x = c :: r /\ lexix c = n /\ is_space c = false.
Proof.
  intros cfg k n x [H|[_ H]].
  - destruct H as [c m S L| | |a b c|raw _ _|y I _]; try (eexists; eexists; split; [reflexivity|split; reflexivity]).
    + exists c, []. destruct (starts_lexix c m S L) as (E & Sp & _). auto.
    + destruct (int_head k y I) as (c & r & -> & E). exists c, r. split; [reflexivity|]. split; [exact E|]. apply int_solid in I. inversion I as [|? ? [H _] _]; subst. exact H.
  - destruct H as [a b c|a b c d|a b c|raw _ _|sg i f e y Hs Hi Hf He Hy]; try (eexists; eexists; split; [reflexivity|split; reflexivity]).
    destruct Hs as [->|[->| ->]]; [|now exists 43, (i ++ f ++ e ++ y)|now exists 45, (i ++ f ++ e ++ y)].
    destruct (number_head (i ++ f ++ e)) as (c & r & E & Lx); [exact (number_intro [] i f e sg_none Hi Hf He)|]. exists c, (r ++ y). split; [|split; [exact Lx|]].
    + change ([] ++ i ++ f ++ e ++ y) with (i ++ f ++ e ++ y). rewrite !app_assoc, <- (app_assoc i), E. reflexivity.
    + assert (N := number_solid _ (number_intro [] i f e sg_none Hi Hf He)). change ([] ++ i ++ f ++ e) with (i ++ f ++ e) in N. rewrite E in N. inversion N as [|? ? [H _] _]; subst. exact H.
Qed.
Lemma lexeme_number : forall cfg k x, lexeme cfg k 13 x -> Forall solid x.
Proof.
  intros cfg k x [H|[_ H]].
  - inversion H as [c m S L| | | | |y I]; subst; [exfalso; lia|now apply (int_solid k)].
  - inversion H as [| | | |sg i f e y Hs Hi Hf He Hy]; subst. rewrite !Forall_app. assert (P := part_solid i f e Hi Hf He). rewrite !Forall_app in P. split; [|].
    + destruct Hs as [->|[->| ->]]; repeat constructor.
    + repeat (split; [tauto|]). destruct Hy as [->| ->]; repeat constructor.
Qed.

(** ** Two readings of a text *)
Lemma app_split : forall (a b c d : bytes), a ++ b = c ++ d -> (exists y, a = c ++ y /\ d = y ++ b) \/ (exists y, c = a ++ y /\ b = y ++ d).
Proof.
  induction a as [|x a IH]; intros b c d E; cbn [app] in E.
  - right. exists c. split; [reflexivity|exact E].
  - destruct c as [|z c]; cbn [app] in E; [left; exists (x :: a); split; [reflexivity|now symmetry]|]. injection E as -> E. destruct (IH b c d E) as [(y & -> & ->)|(y & -> & ->)]; [left|right]; exists y; auto.
Qed.
Lemma blank_split : forall w w' c r c' r', blank w -> blank w' -> is_space c = false -> is_space c' = false -> w ++ c :: r = w' ++ c' :: r' -> w = w' /\ c = c' /\ r = r'.
Proof.
  intros w w' c r c' r' W W' S S' E. destruct (app_split _ _ _ _ E) as [([|y ys] & -> & E')|([|y ys] & -> & E')]; cbn [app] in E'.
  - injection E' as -> ->. rewrite app_nil_r. auto.
  - injection E' as -> _. apply blank_space, Forall_app in W as [_ W]. inversion W as [|? ? H _]; subst. congruence.
  - injection E' as -> ->. rewrite app_nil_r. auto.
  - injection E' as -> _. apply blank_space, Forall_app in W' as [_ W']. inversion W' as [|? ? H _]; subst. congruence.
Qed.
Lemma closed_app : forall raw e t, closed_by raw e t -> forall raw' r r' e' t', closed_by raw' e' t' -> raw ++ 34 :: r = raw' ++ 34 :: r' -> raw = raw' /\ r = r'.
Proof.
  intros raw e t H. induction H as [rest|c raw rest text N1 N2 H IH|c raw rest text H IH]; intros raw' r r' e' t' H' E.
  - destruct H' as [|c' raw' rest' text' M1 M2 H'|c' raw' rest' text' H']; cbn [app] in E; [injection E as ->; auto|congruence|congruence].
  - destruct H' as [|c' raw' rest' text' M1 M2 H'|c' raw' rest' text' H']; cbn [app] in E; [congruence| |congruence]. injection E as <- E. destruct (IH _ _ _ _ _ H' E) as [-> ->]. auto.
  - destruct H' as [|c' raw' rest' text' M1 M2 H'|c' raw' rest' text' H']; cbn [app] in E; [congruence|congruence|]. injection E as <- E. destruct (IH _ _ _ _ _ H' E) as [-> ->]. auto.
Qed.
Lemma legal_quotes : forall raw, legal_string raw -> forall a b, raw = a ++ 34 :: b -> exists a', a = a' ++ [92].
Proof.
  intros raw [v H]. assert (C := legal_closed _ _ _ H []). clear v H. remember [] as e eqn:Ee in C. remember (raw ++ 34 :: []) as t eqn:Et in C. clear Ee Et.
  induction C as [rest|c raw rest text N1 N2 H IH|c raw rest text H IH]; intros a b E.
  - destruct a; discriminate E.
  - destruct a as [|x a]; cbn [app] in E; [congruence|]. injection E as <- E. destruct (IH a b E) as (a' & ->). now exists (c :: a').
  - destruct a as [|x [|y a]]; cbn [app] in E; [congruence|injection E as <- _; now exists []|]. injection E as <- <- E. destruct (IH a b E) as (a' & ->). now exists (92 :: c :: a').
Qed.

(** What the reader needs to know of the strings: those it skips must not end in a backslash. *)
Definition unbacked (m : strictness) (raw : bytes) : Prop := m = Weak -> forall r, raw <> r ++ [92].

Lemma same_lexeme : forall cfg k n x rest x' rest', lexeme cfg k n x -> rlex (unbacked (pc_strict cfg)) n x' -> x ++ rest = x' ++ rest' -> n <> 13%nat -> x = x' /\ rest = rest'.
Proof.
  intros cfg k n x rest x' rest' H R E N.
  assert (Len : List.length x = List.length x' -> x = x' /\ rest = rest').
  { intro L. destruct (app_split _ _ _ _ E) as [(y & -> & ->)|(y & -> & ->)]; rewrite app_length in L; (destruct y; [rewrite app_nil_r; auto|cbn in L; lia]). }
  destruct R as [c m S L| | | |raw Lg Un|y Ny]; [..|congruence]; destruct H as [H|[We H]]; inversion H; subst; try (apply Len; reflexivity); try (exfalso; lia); try (inversion S; subst; exfalso; lia).
  - cbn [app] in E. injection E as E. rewrite <- !app_assoc in E. cbn [app] in E. destruct Lg as [v Lg]. destruct (closed_app raw0 _ _ H0 raw rest rest' _ _ (legal_closed _ _ _ Lg []) E) as [-> ->]. auto.
  - cbn [app] in E. injection E as E. rewrite <- !app_assoc in E. cbn [app] in E. destruct (app_split _ _ _ _ E) as [([|y ys] & -> & E')|([|y ys] & -> & E')]; cbn [app] in E'.
    + injection E' as ->. rewrite app_nil_r. auto.
    + injection E' as <- _. destruct (H0 raw ys eq_refl) as (a' & Ea). exfalso. exact (Un We _ Ea).
    + injection E' as ->. rewrite app_nil_r. auto.
    + injection E' as <- _. destruct (legal_quotes _ Lg raw0 ys eq_refl) as (a' & Ea). destruct H1 as [H2 _]. exfalso. exact (H2 _ Ea).
Qed.

(** The lexemes from the front. *)
Inductive fwd (L : nat -> bytes -> Prop) : list nat -> bytes -> Prop :=
| fw_nil : fwd L [] []
| fw_cons : forall n ns w x r, blank w -> L n x -> fwd L ns r -> fwd L (n :: ns) (w ++ x ++ r).
Lemma fwd_snoc : forall L ls a, fwd L ls a -> forall n w x, blank w -> L n x -> fwd L (ls ++ [n]) (a ++ w ++ x).
Proof.
  intros L ls a H. induction H as [|m ms u y r U Y H IH]; intros n w x W X; cbn [app].
  - assert (Q : fwd L [n] (w ++ x ++ [])) by (constructor; [exact W|exact X|constructor]). now rewrite app_nil_r in Q.
  - rewrite <- !app_assoc. constructor; [exact U|exact Y|]. now apply IH.
Qed.
Lemma lexes_fwd : forall L ls a, lexes L ls a -> fwd L ls a.
Proof. intros L ls a H. induction H as [|ls a n w x H IH W X]; [constructor|now apply fwd_snoc]. Qed.

Lemma after_number : forall c c' n c2, cstep c 13 = Some c' -> (7 <= n <= 13)%nat -> cstep c' n = Some c2 -> False.
Proof.
  intros c c' n c2 S N S2. destruct c as [cp ce cs ct]. unfold cstep, ctl_step in S. cbn [c_state c_parents c_end c_started] in S.
  destruct cs; cbn in S; try discriminate S; injection S as <-; unfold cstep, ctl_step in S2; cbn [c_state c_parents c_end c_started] in S2; try discriminate S2;
    destruct (lex_cases n N) as [E|[E|[E|[E|[E|[E|E]]]]]]; rewrite E in S2; cbn in S2; discriminate S2.
Qed.

Theorem unique_lexemes : forall cfg k ls txt, fwd (lexeme cfg k) ls txt -> forall c c' ds text suf, crun c ls = Some c' -> rfc (unbacked (pc_strict cfg)) ds text -> text = txt ++ suf ->
  exists ds', ds = ls ++ ds' /\ (rfc (unbacked (pc_strict cfg)) ds' suf \/ exists a, ls = a ++ [13%nat]).
Proof.
  intros cfg k ls txt H. induction H as [|n ns w x r W X H IH]; intros c c' ds text suf R D E.
  - exists ds. split; [reflexivity|]. left. cbn [app] in E. now subst.
  - destruct (lexeme_head _ _ _ _ X) as (h & hr & Ex & Lh & Sh). cbn [crun] in R. destruct (cstep c n) as [c1|] eqn:St; [|discriminate R].
    destruct D as [u U|n' ns' w' x' rest' W' X' B' D'].
    + exfalso. subst x. rewrite E in U. apply blank_space in U. rewrite !Forall_app in U. destruct U as [[_ [U _]] _]. inversion U as [|? ? Hh _]; subst. congruence.
    + destruct (rlex_head _ _ _ X') as (h' & hr' & Ex' & Lh' & Sh').
      assert (Q : w = w' /\ h = h' /\ hr ++ r ++ suf = hr' ++ rest').
      { rewrite Ex, Ex', <- !app_assoc in E. cbn [app] in E. symmetry in E. apply (blank_split w w' h _ h' _ W W' Sh Sh'). exact E. }
      destruct Q as (<- & <- & Q). assert (n' = n) as -> by congruence.
      assert (Q1 : x ++ (r ++ suf) = x' ++ rest') by (rewrite Ex, Ex'; cbn [app]; now rewrite Q).
      destruct (Nat.eq_dec n 13) as [E13|N13].
      * clear Lh Lh'. subst n. destruct (app_split _ _ _ _ Q1) as [(y & Ey & Er)|(y & Ey & Er)].
        -- destruct y as [|z y].
           ++ rewrite app_nil_r in Ey. subst x'. cbn [app] in Er. destruct (IH _ _ _ _ _ R D' Er) as (ds' & -> & [Hr|(a & ->)]); exists ds'; (split; [reflexivity|]); [left; exact Hr|right; eexists (_ :: a); reflexivity].
           ++ exfalso. specialize (B' eq_refl). rewrite Er in B'. cbn [breaks app] in B'. apply lexeme_number in X. rewrite Ey in X. apply Forall_app in X as [_ X]. inversion X as [|? ? [S1 S2] _]; subst. destruct B'; congruence.
        -- destruct y as [|z y].
           ++ rewrite app_nil_r in Ey. subst x'. cbn [app] in Er. symmetry in Er. destruct (IH _ _ _ _ _ R D' Er) as (ds' & -> & [Hr|(a & ->)]); exists ds'; (split; [reflexivity|]); [left; exact Hr|right; eexists (_ :: a); reflexivity].
           ++ assert (Sz : solid z).
              { inversion X' as [? ? ? Lc| | | | |? Nx]; subst; [lia|]. apply number_solid in Nx. rewrite Ey in Nx. apply Forall_app in Nx as [_ Nx]. now inversion Nx. }
              destruct H as [|n2 ns2 w2 x2 r2 W2 X2 H2]; [exists ns'; split; [reflexivity|]; right; now exists []|]. exfalso.
              destruct (lexeme_head _ _ _ _ X2) as (g & gr & Eg & Lg & Sg). rewrite Eg, <- !app_assoc in Er. cbn [app] in Er.
              destruct (blank_split w2 [] g _ z _ W2 (Forall_nil _) Sg (proj1 Sz) Er) as (_ & -> & _).
              cbn [crun] in R. destruct (cstep c1 n2) as [c2|] eqn:St2; [|discriminate R]. refine (after_number _ _ _ _ St _ St2). subst n2. split; [apply lexix_scalar; exact (proj2 Sz)|apply lexix_le].
      * destruct (same_lexeme _ _ _ _ _ _ _ X X' Q1 N13) as [_ Er]. symmetry in Er. destruct (IH _ _ _ _ _ R D' Er) as (ds' & -> & [Hr|(a & ->)]); exists ds'; (split; [reflexivity|]); [left; exact Hr|right; eexists (_ :: a); reflexivity].
Qed.

Lemma rlex_bytes : forall Q n x, rlex Q n x -> bytes_ok x.
Proof.
  assert (D : forall l, Forall digit l -> bytes_ok l) by (intros l H; eapply Forall_impl; [|exact H]; intros c Hc; unfold digit in Hc; unfold byte_ok; lia).
  intros Q n x [c m S L| | | |raw [v Lg] _|y [s i f e Hs Hi Hf He]]; try (repeat constructor; unfold byte_ok; lia).
  - constructor; [|constructor]. destruct S; unfold byte_ok; lia.
  - constructor; [unfold byte_ok; lia|]. apply Forall_app. split; [|repeat constructor; unfold byte_ok; lia].
    assert (Hx : forall h q, hex4 h q -> bytes_ok h). { intros h q Hh. destruct Hh as [a b c d x1 y1 z1 w1 H1 H2 H3 H4]. destruct H1; destruct H2; destruct H3; destruct H4; repeat constructor; unfold byte_ok; lia. }
    induction Lg as [|c r v Hc _ _ _ IH|e x0 r v Hs _ IH|h q r v Hh _ _ _ IH|h1 n1 h2 n2 r v Hh1 _ Hh2 _ _ _ IH].
    + constructor.
    + constructor; [unfold byte_ok; lia|exact IH].
    + constructor; [unfold byte_ok; lia|]. constructor; [destruct Hs; unfold byte_ok; lia|exact IH].
    + constructor; [unfold byte_ok; lia|]. constructor; [unfold byte_ok; lia|]. apply Forall_app. split; [exact (Hx _ _ Hh)|exact IH].
    + constructor; [unfold byte_ok; lia|]. constructor; [unfold byte_ok; lia|]. apply Forall_app. split; [exact (Hx _ _ Hh1)|].
      constructor; [unfold byte_ok; lia|]. constructor; [unfold byte_ok; lia|]. apply Forall_app. split; [exact (Hx _ _ Hh2)|exact IH].
  - repeat (apply Forall_app; split).
    + destruct Hs; repeat constructor; unfold byte_ok; lia.
    + destruct Hi; constructor; try constructor; try (unfold byte_ok; lia). now apply D.
    + destruct Hf as [|l [_ Hl]]; constructor; [unfold byte_ok; lia|now apply D].
    + destruct He as [|e0 l [->| ->] [_ Hl]|e0 s0 l [->| ->] [->| ->] [_ Hl]]; repeat (constructor; [unfold byte_ok; lia|]); try constructor; now apply D.
Qed.
Lemma rfc_bytes : forall Q ds t, rfc Q ds t -> bytes_ok t.
Proof.
  intros Q ds t H. assert (B : forall w, blank w -> bytes_ok w) by (intros w W; eapply Forall_impl; [|exact W]; intros c Hc; cbn beta in Hc; unfold byte_ok; lia).
  induction H as [w W|n ns w x rest W X _ _ IH]; [now apply B|]. apply Forall_app. split; [now apply B|]. apply Forall_app. split; [exact (rlex_bytes _ _ _ X)|exact IH].
Qed.

Lemma container_head : forall j t, spells j t -> container j -> exists c r, t = c :: r /\ (c = 91 \/ c = 123).
Proof. intros j t H Cj. destruct H; [destruct Cj|eauto..]. Qed.
Lemma container_lone : forall Q j w t tl n, spells j t -> container j -> ws w -> rfc Q [n] (w ++ t ++ tl) -> n <> 13%nat.
Proof.
  intros Q j w t tl n S Cj W R ->. destruct (container_head _ _ S Cj) as (c & r & -> & Hc). remember (w ++ (c :: r) ++ tl) as text eqn:Et. inversion R as [|n0 ns u x rest U X _ _ E1 E2]; subst.
  destruct (rlex_head _ _ _ X) as (h & hr & -> & Lh & Sh). cbn [app] in E2. assert (Cs : is_space c = false) by (destruct Hc as [->| ->]; reflexivity). destruct (blank_split _ _ _ _ _ _ U (ws_blank _ W) Sh Cs E2) as (_ & -> & _).
  destruct Hc as [->| ->]; discriminate Lh.
Qed.
Lemma done_prefix : forall a b, g_value a -> g_value (a ++ b) -> b = [].
Proof.
  intros a b Ga Gb. apply machine_is_grammar in Ga as (c & Ec & Sc). apply machine_is_grammar in Gb as (c' & Ec' & Sc'). rewrite crun_app, Ec in Ec'. destruct b as [|n b]; [reflexivity|].
  exfalso. cbn [crun] in Ec'. unfold cstep in Ec'. rewrite Sc in Ec'. discriminate Ec'.
Qed.

Lemma strings_all : forall (P Q : bytes -> Prop) j, (forall raw, P raw -> Q raw) -> strings P j -> strings Q j.
Proof.
  intros P Q j I H. revert H. revert j. apply (tree_ind' (fun j => strings P j -> strings Q j)); unfold strings.
  - intros a H. inversion H as [x Hx| |]; subst. constructor. destruct a; auto.
  - intros l F H. inversion H as [|x Hx|]; subst. constructor. intros j Hj. rewrite Forall_forall in F. exact (F j Hj (Hx j Hj)).
  - intros l F H. inversion H as [| |x Hx]; subst. constructor. intros k j Hj. rewrite Forall_forall in F. destruct (Hx k j Hj) as [H1 H2]. split; [exact (I k H1)|exact (F (k, j) Hj H2)].
Qed.
Lemma strings_any : forall (Q : bytes -> Prop) j, (forall raw, Q raw) -> strings Q j.
Proof.
  intros Q j I. revert j. apply (tree_ind' (fun j => strings Q j)); unfold strings.
  - intros a. constructor. destruct a; auto.
  - intros l F. constructor. intros j Hj. rewrite Forall_forall in F. exact (F j Hj).
  - intros l F. constructor. intros k j Hj. rewrite Forall_forall in F. split; [apply I|exact (F (k, j) Hj)].
Qed.

Theorem truncated : forall fuel cfg k t v j text pre suf v' s', document j text -> container j ->
  (pc_strict cfg = Weak -> strings (fun raw => forall r, raw <> r ++ [92]) j) ->
  text = pre ++ suf -> ~ blank suf -> json_extract fuel cfg t v (src_init k pre) <> Returned v' s'.
Proof.
  intros fuel cfg k t v j text pre suf v' s' D Cj Hs E N X. destruct D as [j w1 tx w2 W1 S W2].
  assert (Hq : strings (unbacked (pc_strict cfg)) j).
  { unfold unbacked. destruct (pc_strict cfg); [apply (strings_all (fun raw => forall r, raw <> r ++ [92])); [auto|exact (Hs eq_refl)]|apply strings_any; discriminate..]. }
  destruct (proj1 (spells_rfc (unbacked (pc_strict cfg))) j tx S Hq [] w2 (rf_end _ w2 (ws_blank _ W2))) as (ds & Gd & R).
  { destruct W2 as [|c r Hc _]; [exact Logic.I|]. left. unfold ws_char in Hc. unfold is_space. lia. }
  rewrite app_nil_r in R. apply (rfc_ws _ w1) in R; [|exact W1].
  assert (Bp : bytes_ok pre) by (apply rfc_bytes in R; rewrite E in R; now apply Forall_app in R as [R _]).
  destruct (accepted_text _ _ _ _ _ _ _ _ Bp X) as [(ls & txt & rest & Gl & Lx & Ep & _)|(u & c & r & -> & U & Nb & Np)].
  - assert (Et : w1 ++ tx ++ w2 = txt ++ (rest ++ suf)) by (rewrite E, Ep, <- app_assoc; reflexivity).
    assert (Gl' := Gl). apply machine_is_grammar in Gl' as (c' & Rc & _).
    destruct (unique_lexemes cfg k ls txt (lexes_fwd _ _ _ Lx) _ _ _ _ _ Rc R Et) as (ds' & -> & H). apply (done_prefix _ _ Gl) in Gd. subst ds'. rewrite app_nil_r in R.
    destruct H as [H|(a & ->)].
    + inversion H as [w Hw Ew|]; subst. apply Forall_app in Hw as [_ Hw]. exact (N Hw).
    + apply scalar_last in Gl; [|lia]. subst a. exact (container_lone _ _ _ _ _ _ S Cj W1 R eq_refl).
  - destruct (container_head _ _ S Cj) as (h & hr & -> & Hh). rewrite <- app_assoc in E. cbn [app] in E.
    assert (Cs : is_space h = false) by (destruct Hh as [->| ->]; reflexivity).
    assert (Cc : is_space c = false). { destruct (is_space c) eqn:Sc; [exfalso|reflexivity]. apply Nb. constructor; [|constructor]. unfold is_space in Sc. lia. }
    destruct (blank_split _ _ _ _ _ _ (ws_blank _ W1) U Cs Cc E) as (_ & <- & _). apply Np. destruct Hh as [->| ->]; cbn [In]; tauto.
Qed.

(** ** A text that begins with the lexemes of no document *)
Lemma rfc_step : forall Q ds c r, rfc Q ds (c :: r) -> is_space c = false -> exists ns x rest, ds = lexix c :: ns /\ c :: r = x ++ rest /\ rlex Q (lexix c) x /\ rfc Q ns rest.
Proof.
  intros Q ds c r H Sc. remember (c :: r) as t eqn:E. destruct H as [w W|n ns w x rest W X _ H].
  - subst w. apply blank_space in W. inversion W as [|? ? Hc _]; subst. congruence.
  - destruct (rlex_head _ _ _ X) as (h & hr & -> & <- & Sh). destruct (blank_split w [] h (hr ++ rest) c r W (Forall_nil _) Sh Sc E) as (-> & -> & Er).
    exists ns, (c :: hr), rest. cbn [app]. rewrite Er. auto.
Qed.
Lemma rfc_after : forall Q ds c r, rfc Q ds (c :: r) -> is_punct c = true -> exists ns, rfc Q ns r.
Proof.
  intros Q ds c r H P. assert (Sc : is_space c = false) by (unfold is_punct in P; unfold is_space; lia). destruct (rfc_step _ _ _ _ H Sc) as (ns & x & rest & _ & E & X & H').
  destruct (lexix_punct c P) as (_ & L & _). inversion X; subst; try lia. cbn [app] in E. injection E as -> ->. now exists ns.
Qed.
Lemma rfc_string : forall Q ds raw rest, rfc Q ds (34 :: raw ++ 34 :: rest) -> closed_by raw rest (raw ++ 34 :: rest) -> exists ns, rfc Q ns rest.
Proof.
  intros Q ds raw rest H Cb. destruct (rfc_step _ _ _ _ H eq_refl) as (ns & x & rest' & _ & E & X & H'). inversion X as [? ? ? L| | | |raw' [v Lg] _|]; subst; [cbn in L; lia|].
  cbn [app] in E. injection E as E. rewrite <- app_assoc in E. cbn [app] in E. destruct (closed_app _ _ _ Cb raw' rest rest' _ _ (legal_closed _ _ _ Lg []) E) as [_ ->]. now exists ns.
Qed.
Lemma rfc_null : forall Q ds r, rfc Q ds (110 :: r) -> exists rest, r = 117 :: 108 :: 108 :: rest.
Proof.
  intros Q ds r H. destruct (rfc_step _ _ _ _ H eq_refl) as (ns & x & rest' & _ & E & X & H'). inversion X as [? ? ? L| | | | |]; subst; [cbn in L; lia|]. cbn [app] in E. injection E as ->. now exists rest'.
Qed.
Lemma document_rfc : forall j text, document j text -> exists ds, rfc (fun _ => True) ds text.
Proof.
  intros j text D. destruct D as [j w1 tx w2 W1 S W2]. assert (Hq : strings (fun _ => True) j) by now apply strings_any.
  destruct (proj1 (spells_rfc (fun _ => True)) j tx S Hq [] w2 (rf_end _ w2 (ws_blank _ W2))) as (ds & _ & R).
  { destruct W2 as [|c r Hc _]; [exact Logic.I|]. left. unfold ws_char in Hc. unfold is_space. lia. }
  exists (ds ++ []). now apply rfc_ws.
Qed.
