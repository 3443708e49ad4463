(** The JSON parser reading a grammatical text simulates the walk over the tree of the text. *)
From Coq Require Import ZArith String List Bool Lia ZifyBool.
From Verif Require Import Model.Base Model.Source Model.Unicode Model.Number Model.JsonLexer Model.ParserInterface
  Model.JsonParser Model.Types Model.Deserializer
  Spec.JsonString Spec.Json Proofs.UnicodeP Proofs.LexP Proofs.NumberP Proofs.Sim Proofs.TreeM.
Import ListNotations.
Open Scope Z_scope.

(** How a JSON scalar is read from a source of kind [k]. *)
Definition json_sc (k : skind) (conv : bool) : scal_ops jscal :=
  mkScal jscal
    (fun i a => match a with SNum t => int_of k i t | _ => Throw end)
    (fun a => match a with STrue => Ok true | SFalse => Ok false | _ => Throw end)
    (fun a => match a with SStr raw => if conv then dec raw else Ok raw | _ => Throw end)
    (fun a => match a with SNull => true | _ => false end)
    (fun a => match a with SStr raw => skip_ok k raw | _ => true end)
    (fun raw => if conv then dec raw else Ok raw)
    (fun raw => skip_ok k raw) false (fun _ => false) true.

Lemma json_str_not_null : forall k conv a c, sc_str (json_sc k conv) a = Ok c -> sc_null (json_sc k conv) a = false.
Proof. intros k conv [] c H; try reflexivity; discriminate H. Qed.

(** ** One lexeme *)
Definition lexix (c : Z) : nat :=
  if c =? 123 then 1 else if c =? 125 then 2 else if c =? 91 then 3 else if c =? 93 then 4
  else if c =? 44 then 5 else if c =? 58 then 6 else if c =? 116 then 7 else if c =? 102 then 8
  else if c =? 110 then 9 else if c =? 34 then 10 else 13.
Definition lextok (c : Z) : ltok :=
  if is_punct c then LPunct c else if c =? 116 then LTrue else if c =? 102 then LFalse
  else if c =? 110 then LNull else if c =? 34 then LString else LNumber.
Definition lexbool (c : Z) (b : bool) : bool := if c =? 116 then true else if c =? 102 then false else b.

Lemma yylex_at : forall k l w c t, at_src k (l_src l) (w ++ c :: t) -> ws w -> is_space c = false -> 0 <= c < 128 ->
  exists s', yylex l = Ok (lexix c, mkLex s' (l_buf l) (lextok c) (lexbool c (l_bool l)) (c =? 110)) /\
             (if is_punct c then at_src k s' t else at_src k s' (c :: t)).
Proof.
  intros k l w c t H Hw Hc Hr. unfold yylex.
  destruct (peekNext_at k (l_src l) w c t H Hw Hc Hr) as (s' & -> & H'). cbn [bind].
  exists s'. split; [|exact H']. unfold lexix, lextok, lexbool, is_punct.
  repeat match goal with |- context [if c =? ?x then _ else _] =>
    let E := fresh "E" in destruct (c =? x) eqn:E;
      [assert (c = x) by lia; subst c; reflexivity|] end.
  cbn [orb]. reflexivity.
Qed.

(** ** Events and their text *)
Inductive ev_body : ev jscal -> bytes -> Prop :=
| eb_maps : ev_body EMapS [123]
| eb_mape : ev_body EMapE [125]
| eb_arrs : ev_body EArrS [91]
| eb_arre : ev_body EArrE [93]
| eb_key : forall k, legal_string k -> ev_body (EKey k) (34 :: k ++ [34])
| eb_scal : forall s t, scalar_text s t -> ev_body (EScal s) t.

(** Text in front of a value in a given control state. *)
Inductive vlead : jctl -> bytes -> Prop :=
| vl_init : forall ps w, ws w -> vlead (mkCtl ps JDone JInit true) w
| vl_key : forall ps w1 w2, ws w1 -> ws w2 -> vlead (mkCtl ps JValueM JKey true) (w1 ++ 58 :: w2)
| vl_opena : forall ps w, ws w -> vlead (mkCtl ps JValueA JOpenA true) w
| vl_vala : forall ps w1 w2, ws w1 -> ws w2 -> vlead (mkCtl ps JValueA JValueA true) (w1 ++ 44 :: w2).

Definition after_value (c : jctl) : jctl := mkCtl (c_parents c) (c_end c) (c_end c) true.
Definition push_arr (c : jctl) : jctl := mkCtl (c_end c :: c_parents c) JValueA JOpenA true.
Definition push_map (c : jctl) : jctl := mkCtl (c_end c :: c_parents c) JValueM JOpenM true.

Inductive step_ev : jctl -> ev jscal -> jctl -> bytes -> Prop :=
| sv_scal : forall c s lead, vlead c lead -> step_ev c (EScal s) (after_value c) lead
| sv_arrs : forall c lead, vlead c lead -> step_ev c EArrS (push_arr c) lead
| sv_maps : forall c lead, vlead c lead -> step_ev c EMapS (push_map c) lead
| sv_arre : forall p ps st w, st = JOpenA \/ st = JValueA -> ws w ->
    step_ev (mkCtl (p :: ps) JValueA st true) EArrE (mkCtl ps p p true) w
| sv_mape : forall p ps st w, st = JOpenM \/ st = JValueM -> ws w ->
    step_ev (mkCtl (p :: ps) JValueM st true) EMapE (mkCtl ps p p true) w
| sv_key1 : forall ps k w, ws w -> step_ev (mkCtl ps JValueM JOpenM true) (EKey k) (mkCtl ps JValueM JKey true) w
| sv_key2 : forall ps k w1 w2, ws w1 -> ws w2 ->
    step_ev (mkCtl ps JValueM JValueM true) (EKey k) (mkCtl ps JValueM JKey true) (w1 ++ 44 :: w2).

Definition is_num (e : ev jscal) : Prop := match e with EScal (SNum _) => True | _ => False end.

Inductive reads (tl : bytes) : jctl -> list (ev jscal) -> bytes -> Prop :=
| rd_end : forall c, c_started c = true -> c_state c = JDone -> reads tl c [] tl
| rd_ev : forall c e c' lead body rest evs, step_ev c e c' lead -> ev_body e body -> (is_num e -> delim rest) ->
    reads tl c' evs rest -> reads tl c (e :: evs) (lead ++ body ++ rest).

(** First character of the text of an event. *)
Definition tok_of (a : jscal) : ltok :=
  match a with SNum _ => LNumber | SStr _ => LString | STrue => LTrue | SFalse => LFalse | SNull => LNull end.
Definition evix (e : ev jscal) : nat :=
  match e with
  | EMapS => 1 | EMapE => 2 | EArrS => 3 | EArrE => 4 | EKey _ => 10
  | EScal STrue => 7 | EScal SFalse => 8 | EScal SNull => 9 | EScal (SStr _) => 10 | EScal (SNum _) => 13
  end.
Definition ev_tok (e : ev jscal) : ltok :=
  match e with
  | EMapS => LPunct 123 | EMapE => LPunct 125 | EArrS => LPunct 91 | EArrE => LPunct 93 | EKey _ => LString
  | EScal a => tok_of a
  end.
Definition ev_open (e : ev jscal) : bool := match e with EKey _ => true | EScal _ => true | _ => false end.
Definition ev_null (e : ev jscal) : bool := match e with EScal SNull => true | _ => false end.

Lemma number_head : forall t, number t -> exists c r, t = c :: r /\ (c = 45 \/ 48 <= c <= 57).
Proof.
  intros t [s i f e Hs Hi Hf He]. destruct Hs; cbn [app].
  - destruct (int_part_cons i Hi) as (d & r & -> & Hd). cbn [app]. eauto.
  - eauto.
Qed.

Lemma ev_body_head : forall e body, ev_body e body -> exists c r, body = c :: r /\
  is_space c = false /\ 0 <= c < 128 /\ lexix c = evix e /\ lextok c = ev_tok e /\ is_punct c = negb (ev_open e) /\
  (c =? 110) = ev_null e /\ (forall b, e = EScal STrue -> lexbool c b = true) /\
  (forall b, e = EScal SFalse -> lexbool c b = false) /\ (ev_open e = false -> r = []).
Proof.
  intros e body H. destruct H as [| | | |k Hk|s t Hs].
  1-4: do 2 eexists; (split; [reflexivity|]); repeat split; intros; try discriminate; lia.
  - do 2 eexists. split; [reflexivity|]. repeat split; intros; try discriminate; lia.
  - destruct Hs as [t Ht|raw Hr| | |].
    2-5: do 2 eexists; (split; [reflexivity|]); repeat split; intros; try discriminate; try lia.
    destruct (number_head t Ht) as (c & r & -> & Hc). exists c, r. split; [reflexivity|].
    assert (Q : is_space c = false /\ lexix c = 13%nat /\ lextok c = LNumber /\ is_punct c = false /\ (c =? 110) = false).
    { unfold is_space, lexix, lextok, is_punct.
      repeat match goal with |- context [c =? ?x] =>
        let E := fresh "E" in destruct (c =? x) eqn:E; [lia|] end. cbn. auto. }
    destruct Q as (Q1 & Q2 & Q3 & Q4 & Q5).
    repeat split; intros; try discriminate; try assumption; lia.
Qed.

(** Control is defined on every lexeme it meets in a grammatical text. *)
Lemma ctl_step_scal : forall ps en st e, 
  match st with JInit => en = JDone | JColon => en = JValueM | JOpenA | JCommaA => en = JValueA | _ => False end ->
  (exists s, e = EScal s) ->
  ctl_step (mkCtl ps en st true) (evix e) = Ok (StepTok TokValue (mkCtl ps en en true)).
Proof.
  intros ps en st e H [s ->]. destruct st; try contradiction; subst en; destruct s; reflexivity.
Qed.

Section Next.
  Variables (k : skind).

  Lemma one_lexeme : forall f l c e w body rest, ctl_early c = None ->
    at_src k (l_src l) (w ++ body ++ rest) -> ws w -> ev_body e body ->
    exists l', (if ev_open e then at_src k (l_src l') (body ++ rest) else at_src k (l_src l') rest) /\
      l_tok l' = ev_tok e /\ l_null l' = ev_null e /\
      (e = EScal STrue -> l_bool l' = true) /\ (e = EScal SFalse -> l_bool l' = false) /\
      jp_next_loop (S f) (mkJp l c) =
        do r <- ctl_step c (evix e);
        match r with
        | StepTok t c' => Ok (t, mkJp l' c')
        | StepAgain c' => jp_next_loop f (mkJp l' c')
        end.
  Proof.
    intros f l c e w body rest Hc H Hw Hb.
    destruct (ev_body_head e body Hb) as (c0 & r & -> & Q1 & Q2 & Q3 & Q4 & Q5 & Q6 & Q7 & Q8 & Q9).
    cbn [app] in H. destruct (yylex_at k l w c0 (r ++ rest) H Hw Q1 Q2) as (s' & E & H').
    cbn [jp_next_loop jp_ctl jp_lex]. rewrite Hc, E. cbn [bind]. rewrite Q3.
    eexists. split; [|split; [|split; [|split; [|split; [|reflexivity]]]]]; cbn [l_src l_tok l_null l_bool].
    - rewrite Q5 in H'. destruct (ev_open e); cbn [negb] in H'; [exact H'|]. rewrite (Q9 eq_refl) in H'. exact H'.
    - exact Q4.
    - exact Q6.
    - apply Q7.
    - apply Q8.
  Qed.

  Lemma separator : forall f l c w c0 t c', ctl_early c = None -> c0 = 44 \/ c0 = 58 ->
    at_src k (l_src l) (w ++ c0 :: t) -> ws w -> ctl_step c (lexix c0) = Ok (StepAgain c') ->
    exists l', at_src k (l_src l') t /\ jp_next_loop (S f) (mkJp l c) = jp_next_loop f (mkJp l' c').
  Proof.
    intros f l c w c0 t c' Hc H0 H Hw Hs. cbn [jp_next_loop jp_ctl jp_lex]. rewrite Hc.
    destruct (yylex_at k l w c0 t H Hw) as (s' & E & H').
    - destruct H0; subst; reflexivity.
    - lia.
    - rewrite E. cbn [bind]. rewrite Hs. cbn [bind]. eexists. split; [|reflexivity]. cbn [l_src].
      destruct H0; subst; exact H'.
  Qed.

  Theorem jp_next_ev : forall l c e c' lead body rest, step_ev c e c' lead -> ev_body e body ->
    at_src k (l_src l) (lead ++ body ++ rest) ->
    exists l', (if ev_open e then at_src k (l_src l') (body ++ rest) else at_src k (l_src l') rest) /\
      l_tok l' = ev_tok e /\ l_null l' = ev_null e /\
      (e = EScal STrue -> l_bool l' = true) /\ (e = EScal SFalse -> l_bool l' = false) /\
      jp_next (mkJp l c) = Ok (ev_token e, mkJp l' c').
  Proof.
    intros l c e c' lead body rest Hs Hb H. unfold jp_next.
    assert (V : forall lead, vlead c lead -> at_src k (l_src l) (lead ++ body ++ rest) ->
      (exists st f l1 w, ws w /\ at_src k (l_src l1) (w ++ body ++ rest) /\
         match st with JInit => c_end c = JDone | JColon => c_end c = JValueM | JOpenA | JCommaA => c_end c = JValueA | _ => False end /\
         jp_next_loop 3 (mkJp l c) = jp_next_loop (S f) (mkJp l1 (mkCtl (c_parents c) (c_end c) st true)))).
    { intros ld Hv Ha. destruct Hv as [ps w Hw|ps w1 w2 Hw1 Hw2|ps w Hw|ps w1 w2 Hw1 Hw2].
      - exists JInit, 2%nat, l, w. split; [assumption|]. split; [assumption|]. split; reflexivity.
      - rewrite <- app_assoc in Ha. cbn [app] in Ha.
        destruct (separator 2 l (mkCtl ps JValueM JKey true) w1 58 (w2 ++ body ++ rest) (mkCtl ps JValueM JColon true)
          eq_refl (or_intror eq_refl) Ha Hw1 eq_refl) as (l' & Ha' & E).
        exists JColon, 1%nat, l', w2. split; [assumption|]. split; [assumption|]. split; [reflexivity|exact E].
      - exists JOpenA, 2%nat, l, w. split; [assumption|]. split; [assumption|]. split; reflexivity.
      - rewrite <- app_assoc in Ha. cbn [app] in Ha.
        destruct (separator 2 l (mkCtl ps JValueA JValueA true) w1 44 (w2 ++ body ++ rest) (mkCtl ps JValueA JCommaA true)
          eq_refl (or_introl eq_refl) Ha Hw1 eq_refl) as (l' & Ha' & E).
        exists JCommaA, 1%nat, l', w2. split; [assumption|]. split; [assumption|]. split; [reflexivity|exact E]. }
    assert (Early : forall ps en st, match st with JDone | JError => False | _ => True end ->
              ctl_early (mkCtl ps en st true) = None) by (intros ps en [] Hst; try contradiction; reflexivity).
    destruct Hs as [c s lead Hv|c lead Hv|c lead Hv|p ps st w Hst Hw|p ps st w Hst Hw|ps key w Hw|ps key w1 w2 Hw1 Hw2].
    - destruct (V lead Hv H) as (st & f & l1 & w & Hw & Ha & Hst & E). rewrite E.
      destruct (one_lexeme f l1 (mkCtl (c_parents c) (c_end c) st true) (EScal s) w body rest) as (l' & A1 & A2 & A3 & A4 & A5 & A6); try assumption.
      { apply Early. destruct st; try contradiction; exact I. }
      exists l'. repeat (split; [assumption|]). rewrite A6, ctl_step_scal; [reflexivity|exact Hst|eauto].
    - destruct (V lead Hv H) as (st & f & l1 & w & Hw & Ha & Hst & E). rewrite E.
      destruct (one_lexeme f l1 (mkCtl (c_parents c) (c_end c) st true) EArrS w body rest) as (l' & A1 & A2 & A3 & A4 & A5 & A6); try assumption.
      { apply Early. destruct st; try contradiction; exact I. }
      exists l'. repeat (split; [assumption|]). rewrite A6. destruct st; try contradiction; reflexivity.
    - destruct (V lead Hv H) as (st & f & l1 & w & Hw & Ha & Hst & E). rewrite E.
      destruct (one_lexeme f l1 (mkCtl (c_parents c) (c_end c) st true) EMapS w body rest) as (l' & A1 & A2 & A3 & A4 & A5 & A6); try assumption.
      { apply Early. destruct st; try contradiction; exact I. }
      exists l'. repeat (split; [assumption|]). rewrite A6. destruct st; try contradiction; reflexivity.
    - destruct (one_lexeme 2 l (mkCtl (p :: ps) JValueA st true) EArrE w body rest) as (l' & A1 & A2 & A3 & A4 & A5 & A6); try assumption.
      { apply Early. destruct Hst; subst; exact I. }
      exists l'. repeat (split; [assumption|]). rewrite A6. destruct Hst; subst; reflexivity.
    - destruct (one_lexeme 2 l (mkCtl (p :: ps) JValueM st true) EMapE w body rest) as (l' & A1 & A2 & A3 & A4 & A5 & A6); try assumption.
      { apply Early. destruct Hst; subst; exact I. }
      exists l'. repeat (split; [assumption|]). rewrite A6. destruct Hst; subst; reflexivity.
    - destruct (one_lexeme 2 l (mkCtl ps JValueM JOpenM true) (EKey key) w body rest) as (l' & A1 & A2 & A3 & A4 & A5 & A6); try assumption.
      { reflexivity. }
      exists l'. repeat (split; [assumption|]). rewrite A6. reflexivity.
    - rewrite <- app_assoc in H. cbn [app] in H.
      destruct (separator 2 l (mkCtl ps JValueM JValueM true) w1 44 (w2 ++ body ++ rest) (mkCtl ps JValueM JCommaM true)
          eq_refl (or_introl eq_refl) H Hw1 eq_refl) as (l1 & Ha' & E). rewrite E.
      destruct (one_lexeme 1 l1 (mkCtl ps JValueM JCommaM true) (EKey key) w2 body rest) as (l' & A1 & A2 & A3 & A4 & A5 & A6); try assumption.
      { reflexivity. }
      exists l'. repeat (split; [assumption|]). rewrite A6. reflexivity.
  Qed.
End Next.

(** ** The simulation *)
Section SimJson.
  Variables (k : skind) (conv : bool) (fuel : nat) (tl : bytes).
  Notation SC := (json_sc k conv).

  Definition RJ (t : tm jscal) (p : jparser) : Prop :=
    let l := jp_lex p in
    let c := jp_ctl p in
    if negb (tm_on t) then
      c_started c = false /\ tm_pend t = PFree (l_null l) /\
      exists txt, at_src k (l_src l) txt /\ (length txt < fuel)%nat /\
        reads tl (mkCtl (c_parents c) (c_end c) (c_state c) true) (tm_evs t) txt
    else
      match tm_pend t with
      | PFree b => l_null l = b /\
          exists txt, at_src k (l_src l) txt /\ (length txt < fuel)%nat /\ reads tl c (tm_evs t) txt
      | PKey raw => l_null l = false /\ l_tok l = LString /\ legal_string raw /\
          exists rest, at_src k (l_src l) (34 :: raw ++ 34 :: rest) /\ (List.length (raw ++ 34%Z :: rest) < fuel)%nat /\
          reads tl c (tm_evs t) rest
      | PVal a => l_null l = sc_null SC a /\ l_tok l = tok_of a /\
          (a = STrue -> l_bool l = true) /\ (a = SFalse -> l_bool l = false) /\
          exists body rest, scalar_text a body /\ at_src k (l_src l) (body ++ rest) /\ (length (body ++ rest) < fuel)%nat /\
          (is_num (EScal a) -> delim rest) /\ reads tl c (tm_evs t) rest
      | PEnd b => l_null l = b /\ at_src k (l_src l) tl /\ tm_evs t = []
      end.

  Lemma reads_started : forall c evs txt, reads tl c evs txt -> c_started c = true.
  Proof.
    intros c evs txt H. destruct H as [c H _|c e c' lead body rest evs Hs _ _ _]; [exact H|].
    destruct Hs as [c s lead Hv|c lead Hv|c lead Hv|p ps st w Hst Hw|p ps st w Hst Hw|ps key w Hw|ps key w1 w2 Hw1 Hw2];
      try reflexivity; now destruct Hv.
  Qed.
  Lemma body_pos : forall e body, ev_body e body -> (1 <= length body)%nat.
  Proof. intros e body H. destruct (ev_body_head e body H) as (c & r & -> & _). cbn. lia. Qed.
  Lemma reads_length : forall c evs txt, reads tl c evs txt -> (length evs <= length txt)%nat.
  Proof.
    intros c evs txt H. induction H as [c Hs He|c e c' lead body rest evs Hs Hb Hn H IH]; cbn; [lia|].
    apply body_pos in Hb. rewrite !app_length. lia.
  Qed.
  Lemma reads_cons_nonempty : forall c e evs txt, reads tl c (e :: evs) txt -> exists x r, txt = x :: r.
  Proof.
    intros c e evs txt H. apply reads_length in H. destruct txt; [cbn in H; lia|eauto].
  Qed.

  Lemma string_closed : forall raw rest, legal_string raw -> closed_by raw rest (raw ++ 34 :: rest).
  Proof. intros raw rest [v Hv]. eapply legal_closed; exact Hv. Qed.

  Lemma get_not_quote : forall l c r, at_src k (l_src l) (c :: r) -> 0 <= c < 128 -> c <> 34 ->
    getStringInto fuel conv l = Throw.
  Proof.
    intros l c r H Hr Hq. unfold getStringInto. destruct (get_cons _ _ _ _ H) as (s1 & -> & H1). rewrite gchar_id by lia.
    destruct (c =? 34) eqn:E; [lia|reflexivity].
  Qed.
  Lemma scalar_head : forall a body, scalar_text a body -> exists c r, body = c :: r /\ 0 <= c < 128 /\
    (match a with SStr _ => True | _ => c <> 34 end) /\
    (match a with SNum _ => True | _ => ~ digit c /\ c <> 45 /\ c <> 43 end).
  Proof.
    intros a body H. destruct H as [t Ht|raw Hr| | |].
    - destruct (number_head t Ht) as (c & r & -> & Hc). exists c, r. repeat split; lia.
    - do 2 eexists. split; [reflexivity|]. unfold digit. repeat split; lia.
    - do 2 eexists. split; [reflexivity|]. unfold digit. repeat split; lia.
    - do 2 eexists. split; [reflexivity|]. unfold digit. repeat split; lia.
    - do 2 eexists. split; [reflexivity|]. unfold digit. repeat split; lia.
  Qed.

  Theorem json_sim : sim (tree_ops SC) (json_ops fuel conv) RJ.
  Proof.
    constructor.
    - (* next *)
      intros [on pd evs] [l c] H. cbn [op_next tree_ops json_ops]. unfold tm_next, RJ in *.
      cbn [tm_on tm_pend tm_evs jp_lex jp_ctl] in *. destruct on; cbn [negb] in *.
      + destruct pd as [b| | |]; try exact I. destruct H as (Hn & txt & Ha & Hl & Hr).
        destruct Hr as [c Hs He|c e c' lead body rest evs Hs Hb Hd Hr].
        * unfold jp_next. cbn [jp_next_loop jp_ctl jp_lex]. unfold ctl_early. rewrite Hs, He. cbn [negb follows].
          eexists. split; [reflexivity|]. unfold RJ. cbn. auto.
        * destruct (jp_next_ev k l c e c' lead body rest Hs Hb Ha) as (l' & A1 & A2 & A3 & A4 & A5 & ->).
          cbn [follows]. eexists. split; [reflexivity|]. unfold RJ. cbn [tm_on negb tm_pend tm_evs jp_lex jp_ctl].
          rewrite !app_length in Hl.
          destruct Hb as [| | | |key Hk|s t Ht]; cbn [ev_pend ev_open ev_null ev_tok] in *.
          1-4: split; [exact A3|]; exists rest; split; [exact A1|]; split; [cbn in Hl; lia|exact Hr].
          -- repeat (split; [assumption|]). exists rest. cbn [app] in A1. rewrite <- app_assoc in A1. cbn [app] in A1.
             split; [exact A1|]. split; [|exact Hr]. rewrite app_length. cbn [length] in *. rewrite app_length in Hl. cbn in Hl. lia.
          -- split; [rewrite A3; destruct s; reflexivity|]. split; [exact A2|].
             split; [intros ->; now apply A4|]. split; [intros ->; now apply A5|].
             exists t, rest. repeat (split; [assumption|]). split; [rewrite app_length; lia|]. split; assumption.
      + destruct H as (Hs & Hp & txt & Ha & Hl & Hr). cbn [follows].
        unfold jp_next. cbn [jp_next_loop jp_ctl jp_lex]. unfold ctl_early. rewrite Hs. cbn [negb].
        eexists. split; [reflexivity|]. unfold RJ. cbn. rewrite Hp. split; [reflexivity|]. exists txt. auto.
    - (* key *)
      intros [on pd evs] [l c] H. cbn [op_key tree_ops json_ops]. unfold tm_key, RJ in *.
      cbn [tm_on tm_pend tm_evs jp_lex jp_ctl] in *.
      destruct on; cbn [negb] in *; [|destruct H as (Hs & Hp & _); rewrite Hp; exact I].
      destruct pd as [b|raw| |]; try exact I. destruct H as (Hn & Ht & Hleg & rest & Ha & Hl & Hr).
      rewrite app_length in Hl. cbn [length] in Hl.
      destruct (getStringInto_closed k fuel conv l raw rest _ (string_closed raw rest Hleg) Ha ltac:(lia)) as (s' & Hs' & E).
      unfold jp_lift, getString. cbn [jp_lex jp_ctl]. rewrite E.
      cbn [sc_key json_sc]. destruct conv; [destruct (dec raw) as [v| | |]|]; cbn [bind follows]; try exact I; try reflexivity;
      (eexists; split; [reflexivity|]; unfold RJ; cbn; split; [exact Hn|]; exists rest; split; [exact Hs'|]; split; [lia|exact Hr]).
    - (* int *)
      intros i [on pd evs] [l c] H. cbn [op_int tree_ops json_ops]. unfold tm_val, RJ in *.
      cbn [tm_on tm_pend tm_evs jp_lex jp_ctl] in *.
      destruct on; cbn [negb] in *; [|destruct H as (Hs & Hp & _); rewrite Hp; exact I].
      destruct pd as [b| |a|]; try exact I. destruct H as (Hn & Ht & Hb1 & Hb2 & body & rest & Hst & Ha & Hl & Hd & Hr).
      unfold jp_lift, lex_scanInt. cbn [jp_lex jp_ctl]. rewrite app_length in Hl.
      destruct (scalar_head a body Hst) as (c0 & r0 & Eb & Hc0 & _ & Hnd).
      destruct a as [t|raw| | |].
      2-5: cbn [sc_int json_sc bind follows]; rewrite Eb in Ha; cbn [app] in Ha;
           rewrite (scanInt_other k i (l_src l) c0 (r0 ++ rest) Ha Hc0 (proj1 Hnd) (proj1 (proj2 Hnd)) (proj2 (proj2 Hnd))); reflexivity.
      cbn [sc_int json_sc]. assert (E : body = t /\ number t) by (inversion Hst; auto). destruct E as [-> Hnum].
      assert (S := scanInt_number k i (l_src l) t rest Hnum (Hd I) Ha).
      destruct (int_of k i t) as [z| | |]; cbn [bind follows]; try exact I.
      + destruct S as (s' & -> & H'). cbn [bind]. eexists. split; [reflexivity|]. unfold RJ. cbn.
        split; [exact Hn|]. exists rest. split; [exact H'|]. split; [lia|exact Hr].
      + rewrite S. reflexivity.
      + rewrite S. reflexivity.
    - (* bool *)
      intros [on pd evs] [l c] H. cbn [op_bool tree_ops json_ops]. unfold tm_val, RJ in *.
      cbn [tm_on tm_pend tm_evs jp_lex jp_ctl] in *.
      destruct on; cbn [negb] in *; [|destruct H as (Hs & Hp & _); rewrite Hp; exact I].
      destruct pd as [b| |a|]; try exact I. destruct H as (Hn & Ht & Hb1 & Hb2 & body & rest & Hst & Ha & Hl & Hd & Hr).
      unfold jp_lift, getLastBool. cbn [jp_lex jp_ctl]. rewrite app_length in Hl. rewrite Ht.
      destruct a as [t|raw| | |]; cbn [tok_of sc_bool json_sc bind follows]; try reflexivity.
      + assert (E : body = bs "true") by (inversion Hst; reflexivity). subst body.
        destruct (checkFixed_at k l (bs "true") rest ltac:(discriminate) Ha) as (s' & -> & H'). cbn [bind].
        eexists. split; [cbn [l_bool lset_buf lset_src]; rewrite (Hb1 eq_refl); reflexivity|]. unfold RJ. cbn.
        split; [exact Hn|]. exists rest. split; [exact H'|]. split; [lia|exact Hr].
      + assert (E : body = bs "false") by (inversion Hst; reflexivity). subst body.
        destruct (checkFixed_at k l (bs "false") rest ltac:(discriminate) Ha) as (s' & -> & H'). cbn [bind].
        eexists. split; [cbn [l_bool lset_buf lset_src]; rewrite (Hb2 eq_refl); reflexivity|]. unfold RJ. cbn.
        split; [exact Hn|]. exists rest. split; [exact H'|]. split; [lia|exact Hr].
    - (* string *)
      intros [on pd evs] [l c] H. cbn [op_str tree_ops json_ops]. unfold tm_val, RJ in *.
      cbn [tm_on tm_pend tm_evs jp_lex jp_ctl] in *.
      destruct on; cbn [negb] in *; [|destruct H as (Hs & Hp & _); rewrite Hp; exact I].
      destruct pd as [b| |a|]; try exact I. destruct H as (Hn & Ht & Hb1 & Hb2 & body & rest & Hst & Ha & Hl & Hd & Hr).
      unfold jp_lift. cbn [jp_lex jp_ctl]. rewrite app_length in Hl.
      destruct (scalar_head a body Hst) as (c0 & r0 & Eb & Hc0 & Hnq & _).
      destruct a as [t|raw| | |].
      1,3-5: cbn [sc_str json_sc bind follows]; rewrite Eb in Ha; cbn [app] in Ha;
           rewrite (get_not_quote l c0 (r0 ++ rest) Ha Hc0 Hnq); reflexivity.
      assert (E : body = 34 :: raw ++ [34] /\ legal_string raw) by (inversion Hst; auto). destruct E as [-> Hleg].
      cbn [app] in Ha. rewrite <- app_assoc in Ha. cbn [app] in Ha. cbn [length] in Hl. rewrite app_length in Hl. cbn [length] in Hl.
      destruct (getStringInto_closed k fuel conv l raw rest _ (string_closed raw rest Hleg) Ha ltac:(lia)) as (s' & Hs' & E).
      rewrite E. cbn [sc_str json_sc].
      destruct conv; [destruct (dec raw) as [v| | |]|]; cbn [bind follows]; try exact I; try reflexivity;
      (eexists; split; [reflexivity|]; unfold RJ; cbn; split; [exact Hn|]; exists rest; split; [exact Hs'|]; split; [lia|exact Hr]).
    - (* null *)
      intros [on pd evs] [l c] H. cbn [op_null tree_ops json_ops]. unfold tm_null, RJ, isLastNull in *.
      cbn [tm_on tm_pend tm_evs jp_lex jp_ctl] in *. destruct on; cbn [negb] in *.
      + destruct pd; destruct H as [H _]; first [congruence | (cbn; congruence)].
      + destruct H as (Hs & Hp & _). now rewrite Hp.
    - (* ignore *)
      intros [on pd evs] [l c] H. cbn [op_ignore tree_ops json_ops]. unfold tm_ignore, RJ in *.
      cbn [tm_on tm_pend tm_evs jp_lex jp_ctl] in *.
      destruct on; cbn [negb] in *; [|destruct H as (Hs & Hp & _); rewrite Hp; exact I].
      assert (Str : forall raw rest, legal_string raw -> skip_ok k raw = true -> l_tok l = LString ->
        at_src k (l_src l) (34 :: raw ++ 34 :: rest) -> (length raw < fuel)%nat ->
        exists s', ignoreRawValue fuel l = Ok (lset_src l s') /\ at_src k s' rest).
      { intros raw rest Hleg Hsk Ht Ha Hl. unfold ignoreRawValue. rewrite Ht.
        destruct (get_cons _ _ _ _ Ha) as (s1 & -> & H1). rewrite gchar_id by lia. apply past_at in H1.
        assert (Hne : exists c1 t1, raw ++ 34 :: rest = c1 :: t1) by (destruct raw; cbn; eauto).
        destruct Hne as (c1 & t1 & Ec). rewrite Ec in H1. destruct (get_cons _ _ _ _ H1) as (s2 & -> & H2).
        destruct (skip_loop_closed k raw rest _ (string_closed raw rest Hleg) fuel 34 c1 t1 s2) as (s3 & -> & H3);
          try assumption.
        - destruct Hleg as [v Hv]. eapply legal_bytes_ok; exact Hv.
        - intros _. lia.
        - cbn [bind]. eauto. }
      destruct pd as [b|raw|a|]; try exact I.
      + destruct H as (Hn & Ht & Hleg & rest & Ha & Hl & Hr). cbn [sc_kskip json_sc].
        destruct (skip_ok k raw) eqn:Hsk; [|exact I]. rewrite app_length in Hl. cbn [length] in Hl.
        unfold jp_lift_. cbn [jp_lex jp_ctl].
        destruct (Str raw rest Hleg Hsk Ht Ha ltac:(lia)) as (s' & -> & H'). cbn [bind follows_].
        eexists. split; [reflexivity|]. unfold RJ. cbn. split; [exact Hn|]. exists rest. split; [exact H'|]. split; [lia|exact Hr].
      + destruct H as (Hn & Ht & Hb1 & Hb2 & body & rest & Hst & Ha & Hl & Hd & Hr).
        destruct (sc_skip SC a && _) eqn:Hsk; [|exact I]. apply andb_prop in Hsk as [Hsk Hev].
        rewrite app_length in Hl. unfold jp_lift_. cbn [jp_lex jp_ctl].
        destruct a as [t|raw| | |]; cbn [sc_skip sc_null json_sc] in *.
        * assert (E : body = t /\ number t) by (inversion Hst; auto). destruct E as [-> Hnum].
          destruct evs as [|e evs]; [discriminate Hev|].
          destruct (reads_cons_nonempty _ _ _ _ Hr) as (c0 & r0 & Er). 
          unfold ignoreRawValue. rewrite Ht. cbn [tok_of]. rewrite Er in Ha, Hl, Hr. assert (Hd' := Hd I). rewrite Er in Hd'.
          destruct (readNumber_ok k fuel l t c0 r0 Hnum Hd' Ha ltac:(lia)) as (l' & -> & B1 & B2 & B3 & B4 & B5). cbn [bind follows_].
          eexists. split; [reflexivity|]. unfold RJ. cbn. split; [congruence|]. exists (c0 :: r0). split; [exact B1|].
          split; [cbn in *; lia|exact Hr].
        * assert (E : body = 34 :: raw ++ [34] /\ legal_string raw) by (inversion Hst; auto). destruct E as [-> Hleg].
          cbn [app] in Ha. rewrite <- app_assoc in Ha. cbn [app] in Ha. cbn [length] in Hl. rewrite app_length in Hl. cbn [length] in Hl.
          destruct (Str raw rest Hleg Hsk Ht Ha ltac:(lia)) as (s' & -> & H'). cbn [bind follows_].
          eexists. split; [reflexivity|]. unfold RJ. cbn. split; [exact Hn|]. exists rest. split; [exact H'|]. split; [lia|exact Hr].
        * assert (E : body = bs "true") by (inversion Hst; reflexivity). subst body.
          unfold ignoreRawValue. rewrite Ht. cbn [tok_of bind follows_].
          assert (H' := ignore_at_src k (l_src l) (bs "true") rest 4 Ha ltac:(discriminate) eq_refl).
          eexists. split; [reflexivity|]. unfold RJ. cbn. split; [exact Hn|]. exists rest. split; [exact H'|]. split; [lia|exact Hr].
        * assert (E : body = bs "false") by (inversion Hst; reflexivity). subst body.
          unfold ignoreRawValue. rewrite Ht. cbn [tok_of bind follows_].
          assert (H' := ignore_at_src k (l_src l) (bs "false") rest 5 Ha ltac:(discriminate) eq_refl).
          eexists. split; [reflexivity|]. unfold RJ. cbn. split; [exact Hn|]. exists rest. split; [exact H'|]. split; [lia|exact Hr].
        * assert (E : body = bs "null") by (inversion Hst; reflexivity). subst body.
          unfold ignoreRawValue. rewrite Ht. cbn [tok_of bind follows_].
          assert (H' := ignore_at_src k (l_src l) (bs "null") rest 4 Ha ltac:(discriminate) eq_refl).
          eexists. split; [reflexivity|]. unfold RJ. cbn. split; [exact Hn|]. exists rest. split; [exact H'|]. split; [lia|exact Hr].
    - intros f a b H. now apply follows__ret.
    - intros f a b H. now apply follows__ret.
  Qed.

  (** ** Grammatical texts are read as the events of their tree *)
  Lemma delim_ws : forall w x, ws w -> delim x -> delim (w ++ x).
  Proof.
    intros w x Hw Hd. destruct Hw as [|c w Hc Hw]; [exact Hd|]. right. cbn. exists c, (w ++ x). auto.
  Qed.
  Lemma delim_cons : forall c x, c = 44 \/ c = 93 \/ c = 125 -> delim (c :: x).
  Proof. intros c x H. right. exists c, x. split; [reflexivity|tauto]. Qed.

  Lemma delim_ends : forall j x, delim x -> ends_before j x.
  Proof. intros [[]| |] x H; exact I || exact H. Qed.

  Definition reads_value (j : jv) (t : bytes) : Prop :=
    forall c lead evs rest, vlead c lead -> ends_before j rest -> reads tl (after_value c) evs rest ->
    reads tl c (events j ++ evs) (lead ++ t ++ rest).
  (** Elements: the leading white space is part of the text. *)
  Definition reads_elems (l : list jv) (t : bytes) : Prop :=
    forall ps st sep evs rest, (st = JOpenA /\ sep = []) \/ (st = JValueA /\ exists w1, ws w1 /\ sep = w1 ++ [44]) ->
    delim rest -> reads tl (mkCtl ps JValueA JValueA true) evs rest ->
    reads tl (mkCtl ps JValueA st true) (flat_map events l ++ evs) (sep ++ t ++ rest).
  Definition reads_members (l : list (bytes * jv)) (t : bytes) : Prop :=
    forall ps st sep evs rest, (st = JOpenM /\ sep = []) \/ (st = JValueM /\ exists w1, ws w1 /\ sep = w1 ++ [44]) ->
    delim rest -> reads tl (mkCtl ps JValueM JValueM true) evs rest ->
    reads tl (mkCtl ps JValueM st true) (member_events l ++ evs) (sep ++ t ++ rest).

  Lemma vlead_elem : forall ps st sep w, (st = JOpenA /\ sep = []) \/ (st = JValueA /\ exists w1, ws w1 /\ sep = w1 ++ [44]) ->
    ws w -> vlead (mkCtl ps JValueA st true) (sep ++ w).
  Proof.
    intros ps st sep w [[-> ->]|[-> (w1 & Hw1 & ->)]] Hw.
    - now constructor.
    - rewrite <- app_assoc. now constructor.
  Qed.

  Lemma key_step : forall ps st sep w k0, (st = JOpenM /\ sep = []) \/ (st = JValueM /\ exists w1, ws w1 /\ sep = w1 ++ [44]) ->
    ws w -> step_ev (mkCtl ps JValueM st true) (EKey k0) (mkCtl ps JValueM JKey true) (sep ++ w).
  Proof.
    intros ps st sep w k0 [[-> ->]|[-> (w1 & Hw1 & ->)]] Hw.
    - now constructor.
    - rewrite <- app_assoc. now constructor.
  Qed.

  Ltac norm := repeat (rewrite <- app_assoc || cbn [app]).

  Theorem spells_reads :
    (forall j t, spells j t -> reads_value j t) /\
    (forall l t, spells_elems l t -> reads_elems l t) /\
    (forall l t, spells_members l t -> reads_members l t).
  Proof.
    apply spells_mutind.
    - (* scalar *)
      intros s t Ht c lead evs rest Hv Hd Hr. cbn [events app].
      apply rd_ev with (c' := after_value c); [now constructor|now constructor| |exact Hr]. intro Hn. now destruct s.
    - (* empty array *)
      intros w Hw c lead evs rest Hv Hd Hr. cbn [events flat_map app].
      change (lead ++ 91 :: (w ++ [93]) ++ rest) with (lead ++ [91] ++ ((w ++ [93]) ++ rest)).
      apply rd_ev with (c' := push_arr c); [now constructor|constructor|intros []|].
      rewrite <- app_assoc. apply rd_ev with (c' := after_value c); [|constructor|intros []|exact Hr].
      apply sv_arre; auto.
    - (* array *)
      intros l t _ IH c lead evs rest Hv Hd Hr. cbn [events]. norm.
      change (lead ++ 91 :: t ++ 93 :: rest) with (lead ++ [91] ++ (t ++ 93 :: rest)).
      apply rd_ev with (c' := push_arr c); [now constructor|constructor|intros []|].
      apply (IH (c_end c :: c_parents c) JOpenA [] (EArrE :: evs) (93 :: rest)); [now left|apply delim_cons; lia|].
      change (93 :: rest) with ([] ++ [93] ++ rest).
      apply rd_ev with (c' := after_value c); [|constructor|intros []|exact Hr]. apply sv_arre; [auto|constructor].
    - (* empty object *)
      intros w Hw c lead evs rest Hv Hd Hr. cbn [events flat_map app].
      change (lead ++ 123 :: (w ++ [125]) ++ rest) with (lead ++ [123] ++ ((w ++ [125]) ++ rest)).
      apply rd_ev with (c' := push_map c); [now constructor|constructor|intros []|].
      rewrite <- app_assoc. apply rd_ev with (c' := after_value c); [|constructor|intros []|exact Hr].
      apply sv_mape; auto.
    - (* object *)
      intros l t _ IH c lead evs rest Hv Hd Hr. cbn [events]. fold (member_events l). norm.
      change (lead ++ 123 :: t ++ 125 :: rest) with (lead ++ [123] ++ (t ++ 125 :: rest)).
      apply rd_ev with (c' := push_map c); [now constructor|constructor|intros []|].
      apply (IH (c_end c :: c_parents c) JOpenM [] (EMapE :: evs) (125 :: rest)); [now left|apply delim_cons; lia|].
      change (125 :: rest) with ([] ++ [125] ++ rest).
      apply rd_ev with (c' := after_value c); [|constructor|intros []|exact Hr]. apply sv_mape; [auto|constructor].
    - (* last element *)
      intros j t w1 w2 Hw1 Hw2 _ IH ps st sep evs rest Hs Hd Hr. cbn [flat_map]. rewrite app_nil_r.
      replace (sep ++ (w1 ++ t ++ w2) ++ rest) with ((sep ++ w1) ++ t ++ (w2 ++ rest)) by now norm.
      apply IH; [now apply vlead_elem|now apply delim_ends, delim_ws|]. unfold after_value. cbn [c_parents c_end].
      destruct evs as [|e evs].
      + (* reads of nothing: only at the end of the document *)
        inversion Hr as [c Hst Hdone|]; subst. discriminate Hdone.
      + inversion Hr as [|c e0 c' lead body rest0 evs0 Hstep Hb Hn Hr']; subst.
        rewrite app_assoc. apply rd_ev with (c' := c'); try assumption.
        inversion Hstep; subst;
          repeat match goal with H : vlead _ _ |- _ => inversion H; clear H; subst end;
          repeat (rewrite app_assoc); constructor; try assumption;
          try (constructor; [now apply Forall_app|assumption]); try (now apply Forall_app).
    - (* more elements *)
      intros j l t w1 w2 r Hw1 Hw2 _ IH _ IHl ps st sep evs rest Hs Hd Hr. cbn [flat_map].
      replace (sep ++ (w1 ++ t ++ w2 ++ 44 :: r) ++ rest) with ((sep ++ w1) ++ t ++ ((w2 ++ [44]) ++ r ++ rest)) by now norm.
      rewrite <- app_assoc. apply IH; [now apply vlead_elem| |].
      + apply delim_ends. rewrite <- app_assoc. apply delim_ws; [assumption|]. cbn. apply delim_cons. lia.
      + unfold after_value. cbn [c_parents c_end]. apply IHl; [right; eauto|exact Hd|exact Hr].
    - (* last member *)
      intros k0 j t w1 w2 w3 w4 Hw1 Hw2 Hw3 Hw4 Hk _ IH ps st sep evs rest Hs Hd Hr.
      unfold member_events. cbn [flat_map fst snd]. rewrite app_nil_r. cbn [app].
      replace (sep ++ (w1 ++ 34 :: (k0 ++ [34]) ++ w2 ++ 58 :: w3 ++ t ++ w4) ++ rest)
        with ((sep ++ w1) ++ (34 :: k0 ++ [34]) ++ ((w2 ++ 58 :: w3) ++ t ++ (w4 ++ rest))) by now norm.
      apply rd_ev with (c' := mkCtl ps JValueM JKey true); [now apply key_step|now constructor|intros []|].
      apply IH; [now constructor|now apply delim_ends, delim_ws|]. unfold after_value. cbn [c_parents c_end].
      destruct evs as [|e evs].
      + inversion Hr as [c Hst Hdone|]; subst. discriminate Hdone.
      + inversion Hr as [|c e0 c' lead body rest0 evs0 Hstep Hb Hn Hr']; subst.
        rewrite app_assoc. apply rd_ev with (c' := c'); try assumption.
        inversion Hstep; subst;
          repeat match goal with H : vlead _ _ |- _ => inversion H; clear H; subst end;
          repeat (rewrite app_assoc); constructor; try assumption; try (now apply Forall_app).
    - (* more members *)
      intros k0 j l t w1 w2 w3 w4 r Hw1 Hw2 Hw3 Hw4 Hk _ IH _ IHl ps st sep evs rest Hs Hd Hr.
      unfold member_events. cbn [flat_map fst snd]. fold (member_events l). cbn [app].
      replace (sep ++ (w1 ++ 34 :: (k0 ++ [34]) ++ w2 ++ 58 :: w3 ++ t ++ w4 ++ 44 :: r) ++ rest)
        with ((sep ++ w1) ++ (34 :: k0 ++ [34]) ++ ((w2 ++ 58 :: w3) ++ t ++ ((w4 ++ [44]) ++ r ++ rest))) by now norm.
      apply rd_ev with (c' := mkCtl ps JValueM JKey true); [now apply key_step|now constructor|intros []|].
      rewrite <- app_assoc. apply IH; [now constructor| |].
      + apply delim_ends. rewrite <- app_assoc. apply delim_ws; [assumption|]. cbn. apply delim_cons. lia.
      + unfold after_value. cbn [c_parents c_end]. apply IHl; [right; eauto|exact Hd|exact Hr].
  Qed.
End SimJson.

(** Reading a grammatical text gives the meaning of its tree and leaves the source behind it. *)
Theorem json_parse : forall k conv fuel F m marker j w t tl ty v s,
  spells j t -> ws w -> ends_before j tl -> at_src k s (w ++ t ++ tl) ->
  (length (w ++ t ++ tl) < fuel)%nat -> (length (w ++ t ++ tl) <= F)%nat ->
  let p0 := pst_init (mkJp (lex_init s) (mkCtl [] JDone JInit true)) in
  match i_parse (interp (json_sc k conv) m marker ty) v j with
  | Ok v' => exists l c, d_parse (deser (json_ops fuel conv) F m marker ty) v p0 = Ok (v', pst_init (mkJp l c)) /\
               c_started c = true /\ c_state c = JDone /\ at_src k (l_src l) tl
  | Throw => d_parse (deser (json_ops fuel conv) F m marker ty) v p0 = Throw
  | UB => d_parse (deser (json_ops fuel conv) F m marker ty) v p0 = UB
  | Hang => True
  end.
Proof.
  intros k conv fuel F m marker j w t tl ty v s Hs Hw Hd Ha Hfuel HF p0.
  assert (Hr : reads tl (mkCtl [] JDone JInit true) (events j ++ []) (w ++ t ++ tl)).
  { apply (proj1 (spells_reads tl)); [exact Hs|now constructor|exact Hd|]. now constructor. }
  rewrite app_nil_r in Hr. assert (Hlen := reads_length _ _ _ _ Hr).
  assert (HR : Rp (RJ k conv fuel tl) (pst_init (mkTm true (PFree false) (events j))) p0).
  { split; [|split; reflexivity]. unfold RJ. cbn. split; [reflexivity|].
    exists (w ++ t ++ tl). split; [exact Ha|]. split; [exact Hfuel|exact Hr]. }
  assert (S := proj1 (sim_deser _ _ _ (json_sim k conv fuel tl) F m marker ty) v _ _ HR).
  assert (B : before (json_sc k conv) j [] (pst_init (mkTm true (PFree false) (events j)))).
  { assert (B := before_st (json_sc k conv) j [] false). rewrite app_nil_r in B. exact B. }
  rewrite (proj1 (interp_parse (json_sc k conv) m marker F ty (or_introl (json_str_not_null k conv))) v j [] _ B) in S by (unfold size; lia).
  destruct (i_parse (interp (json_sc k conv) m marker ty) v j) as [v'| | |]; cbn [bind follows] in S; try exact I; try exact S.
  destruct S as ([[l c] pb1 pb2] & E & (HRp & E1 & E2)). cbn in E1, E2. subst pb1 pb2.
  exists l, c. split; [exact E|]. unfold RJ, fin, st in HRp. cbn in HRp. destruct HRp as (_ & txt & At & _ & Rd).
  inversion Rd; subst. auto.
Qed.
