(** Documents of values with classes that have stream operators. *)
From Coq Require Import ZArith String List Bool Lia ZifyBool.
From Verif Require Import Model.Base Model.Source Model.Unicode Model.Number Model.JsonLexer Model.ParserInterface Model.JsonParser Model.Printer Model.JsonPrinter
  Model.Types Model.Deserializer Model.Serializer Model.Importer Model.Exporter Model.Shared Model.Float Model.AnyBlock Model.Custom
  Spec.JsonString Spec.Json Spec.Typed Spec.Import Spec.Denotes Spec.AnyBlock Spec.Custom
  Proofs.Induct Proofs.UnicodeP Proofs.LexP Proofs.NumberP Proofs.Sim Proofs.TreeM Proofs.InterpP Proofs.TypedP Proofs.DenotesP Proofs.JsonSim Proofs.ImportP Proofs.JsonPartP Proofs.SourcesP
  Proofs.PrintP Proofs.DocP Proofs.ExportP Proofs.AnyBlockP Proofs.FloatP Proofs.FloatReadP Proofs.FloatValP Proofs.FloatDocP Proofs.FloatExportP.
Import ListNotations.
Open Scope Z_scope.

(** ** Reading *)
Section Read.
  Context (custom : ity -> option operators).
  Definition stands_b (k : skind) (a : jscal) : bool :=
    match a with
    | SStr raw => negb (last raw 0 =? 92) && match k with StrIn => forallb (fun c => c <? 128) raw | Strm => true end
    | _ => true
    end.
  Lemma stands_copied : forall cfg k a, stands_b k a = true -> copied cfg k (Scal a).
  Proof.
    intros cfg k [] H; try exact Logic.I. cbn [stands_b copied] in *. apply andb_prop in H as [H1 H2]. split; [lia|]. intros ->. rewrite forallb_forall in H2. apply Forall_forall. intros x Hx. specialize (H2 x Hx). lia.
  Qed.
  Lemma as_it_stands_b : forall k a, as_it_stands k a -> stands_b k a = true.
  Proof.
    intros k [] H; try reflexivity. destruct H as [H1 H2]. cbn [stands_b]. apply andb_true_intro. split; [lia|]. destruct k; [|reflexivity]. apply forallb_forall. specialize (H2 eq_refl).
    rewrite Forall_forall in H2. intros x Hx. specialize (H2 x Hx). cbv beta in *. lia.
  Qed.
  Definition cust_int (k : skind) (conv : bool) (i : ity) (a : jscal) : outcome Z :=
    match custom i with
    | Some o => if stands_b k a then match o_get o (scalar_bytes a) with Some (z, _) => Ok z | None => Throw end else Hang
    | None => sc_int (json_sc k conv) i a
    end.
  Definition cust_sc (k : skind) (conv : bool) : scal_ops jscal :=
    mkScal jscal (cust_int k conv)
      (sc_bool (json_sc k conv)) (sc_str (json_sc k conv)) (sc_null (json_sc k conv)) (sc_skip (json_sc k conv))
      (sc_key (json_sc k conv)) (sc_kskip (json_sc k conv)) false (fun _ => false) true.

  Lemma raw_null : forall fuel l t l', getRawString fuel l = Ok (t, l') -> l_null l' = l_null l.
  Proof.
    intros fuel l t l' E. unfold getRawString in E.
    assert (K : forall x : bytes * jlex, Ok x = Ok (t, l') -> snd x = l'). { intros x H. apply Ok_inj in H. now rewrite H. }
    destruct (l_tok l); try discriminate E; try (apply K in E; cbn [snd] in E; subst l'; reflexivity).
    - apply bind_ok in E as (l1 & Q & E). apply K in E. cbn [snd] in E. subst l'. unfold lex_readNumber in Q. destruct (src_get (l_src l)) as [a s1].
      repeat (apply bind_ok in Q as ([[? ?] ?] & _ & Q)). apply bind_ok in Q as (sE & _ & Q). apply Ok_inj in Q. subst l1. reflexivity.
    - destruct (src_get (l_src l)) as [a s1]. destruct (src_get s1) as [b s2]. apply bind_ok in E as ([x s3] & _ & E). apply K in E. cbn [snd] in E. subst l'. reflexivity.
  Qed.

  (** What is left does not end with a number. *)
  Definition no_last (a : tm jscal) : Prop :=
    (forall l t, tm_evs a <> l ++ [EScal (SNum t)]) /\ match tm_pend a with PVal (SNum _) => tm_evs a <> [] | _ => True end.
  Lemma no_last_same : forall a p, no_last a -> match p with PVal _ => False | _ => True end -> no_last (mkTm (tm_on a) p (tm_evs a)).
  Proof. intros a p [H1 H2] H. split; [exact H1|]. cbn [tm_pend]. now destruct p. Qed.
  Lemma follows_inv : forall {A} (R : tm jscal -> jparser -> Prop) (I : tm jscal -> Prop) (o1 : outcome (A * tm jscal)) o2, follows R o1 o2 -> (forall a s, o1 = Ok (a, s) -> I s) -> follows (fun x y => R x y /\ I x) o1 o2.
  Proof. intros A R I o1 o2 H G. destruct o1 as [[a s]| | |]; try exact H. destruct H as (s2 & -> & H). eexists. split; [reflexivity|]. split; [exact H|]. exact (G a s eq_refl). Qed.
  Lemma follows__inv : forall (R : tm jscal -> jparser -> Prop) (I : tm jscal -> Prop) (o1 : outcome (tm jscal)) o2, follows_ R o1 o2 -> (forall s, o1 = Ok s -> I s) -> follows_ (fun x y => R x y /\ I x) o1 o2.
  Proof. intros R I o1 o2 H G. destruct o1 as [s| | |]; try exact H. destruct H as (s2 & -> & H). eexists. split; [reflexivity|]. split; [exact H|]. exact (G s eq_refl). Qed.

  Section Sim.
    Context (k : skind) (conv : bool) (fuel : nat) (tl : bytes).
    Definition Inv (a : tm jscal) : Prop := k = Strm -> tl = [] -> no_last a.
    Definition RC (a : tm jscal) (b : jparser) : Prop := RJ k conv fuel tl a b /\ Inv a.
    Lemma val_inv : forall {B} sc (f : jscal -> outcome B) a x s, Inv a -> tm_val sc f a = Ok (x, s) -> Inv s.
    Proof.
      intros B sc f a x s H E K T. specialize (H K T). unfold tm_val in E. destruct (tm_pend a) eqn:P; try discriminate E. apply bind_ok in E as (b & _ & E). apply Ok_inj in E.
      apply (f_equal snd) in E. cbn [snd] in E. subst s. now apply no_last_same.
    Qed.
    Theorem custom_sim : sim (tree_ops (cust_sc k conv)) (custom_ops custom fuel conv) RC.
    Proof.
      assert (J := json_sim k conv fuel tl). constructor; unfold RC.
      - intros a b [H Hi]. apply follows_inv; [exact (sim_next _ _ _ J a b H)|]. intros x s E K T. specialize (Hi K T). cbn [op_next tree_ops] in E. unfold tm_next in E.
        destruct (negb (tm_on a)); [apply Ok_inj in E; apply (f_equal snd) in E; cbn [snd] in E; subst s; exact Hi|].
        destruct Hi as [H1 H2]. destruct (tm_pend a) as [n| | |] eqn:P; try discriminate E. destruct (tm_evs a) as [|e r] eqn:Q; apply Ok_inj in E; apply (f_equal snd) in E; cbn [snd] in E; subst s.
        + split; [intros l t Z; now destruct l|exact Logic.I].
        + split; cbn [tm_evs tm_pend].
          * intros l t Z. apply (H1 (e :: l) t). now rewrite Z.
          * destruct e as [| | | | |[t| | | |]]; try exact Logic.I. cbn [ev_pend]. intro Z. apply (H1 [] t). now rewrite Z.
      - intros a b [H Hi]. apply follows_inv; [exact (sim_key _ _ _ J a b H)|]. intros x s E K T. specialize (Hi K T). cbn [op_key tree_ops] in E. unfold tm_key in E.
        destruct (tm_pend a) eqn:P; try discriminate E. apply bind_ok in E as (c & _ & E). apply Ok_inj in E. apply (f_equal snd) in E. cbn [snd] in E. subst s. now apply no_last_same.
      - intros i a b [H Hi]. apply follows_inv; [|intros x s; now apply val_inv]. destruct (custom i) as [o|] eqn:Ec.
        2:{ assert (G := sim_int _ _ _ J i a b H). cbn [custom_ops op_int]. rewrite Ec. cbn [op_int tree_ops] in *. unfold tm_val in *. destruct (tm_pend a) as [b0| |x|]; try exact G.
            cbn [sc_int cust_sc]. unfold cust_int. rewrite Ec. exact G. }
        cbn [custom_ops op_int tree_ops]. rewrite Ec. destruct a as [on pd evs], b as [l c]. unfold Inv, no_last in Hi. unfold tm_val, RJ in *. cbn [tm_on tm_pend tm_evs jp_lex jp_ctl] in *.
        destruct on; cbn [negb] in *; [|destruct H as (Hs & Hp & _); rewrite Hp; exact Logic.I].
        destruct pd as [b| |a|]; try exact Logic.I. destruct H as (Hn & Ht & Hb1 & Hb2 & body & rest & Hst & Ha & Hl & Hd & Hr).
        cbn [sc_int cust_sc]. unfold cust_int. rewrite Ec. destruct (stands_b k a) eqn:Sb; [|exact Logic.I].
        destruct (raw_scalar pc_default k fuel a body l rest Hst Ht Ha Hl (stands_copied pc_default k a Sb)) as (l' & E & A').
        { intro Hm. split; [now apply Hd|]. intros K ->. destruct evs as [|e evs]; [|now destruct (reads_cons_nonempty _ _ _ _ _ Hr) as (x & r & Z)].
          destruct a; try contradiction. inversion Hr; subst. now apply (proj2 (Hi eq_refl eq_refl)). }
        unfold custom_get, json_raw, jp_lift. cbn [jp_lex jp_ctl]. rewrite E. cbn [bind]. destruct (o_get o (scalar_bytes a)) as [[z g]|]; cbn [bind follows]; [|reflexivity].
        eexists. split; [reflexivity|]. unfold RJ. cbn [tm_on negb tm_pend jp_lex jp_ctl tm_evs].
        assert (N := raw_null _ _ _ _ E).
        split; [now rewrite N|]. exists rest. rewrite app_length in Hl. split; [exact A'|]. split; [lia|exact Hr].
      - intros a b [H Hi]. apply follows_inv; [exact (sim_bool _ _ _ J a b H)|]. intros x s. now apply val_inv.
      - intros a b [H Hi]. apply follows_inv; [exact (sim_str _ _ _ J a b H)|]. intros x s. now apply val_inv.
      - intros a b [H _]. exact (sim_null _ _ _ J a b H).
      - intros a b [H Hi]. apply follows__inv; [exact (sim_ignore _ _ _ J a b H)|]. intros s E K T. specialize (Hi K T). cbn [op_ignore tree_ops] in E. unfold tm_ignore in E.
        destruct (tm_pend a) eqn:P; try discriminate E; match type of E with (if ?b then _ else _) = _ => destruct b; [|discriminate E] end; apply Ok_inj in E; subst s; now apply no_last_same.
      - intros f a b [H Hi]. apply follows__inv; [exact (sim_ignoreMap _ _ _ J f a b H)|]. intros s E. cbn in E. now injection E as <-.
      - intros f a b [H Hi]. apply follows__inv; [exact (sim_ignoreArr _ _ _ J f a b H)|]. intros s E. cbn in E. now injection E as <-.
    Qed.
  End Sim.
  Lemma cust_str_not_null : forall k conv a c, sc_str (cust_sc k conv) a = Ok c -> sc_null (cust_sc k conv) a = false.
  Proof. exact json_str_not_null. Qed.

  Definition custom_meaning (cfg : pconfig) (k : skind) (t : ty) (v : val) (j : jv) : outcome val :=
    i_parse (interp (cust_sc k (pc_conv cfg)) (pc_strict cfg) (pc_marker cfg) t) v j.
  Lemma events_last : forall j l t, events j = l ++ [EScal (SNum t)] -> j = Scal (SNum t).
  Proof.
    intros [a|js|ms] l t E; cbn [events] in E.
    - destruct l as [|e l]; [now injection E as ->|]. injection E as _ E. now destruct l.
    - exfalso. change (EArrS :: flat_map events js ++ [EArrE]) with ((EArrS :: flat_map events js) ++ [EArrE]) in E. apply app_inj_tail in E as [_ E]. discriminate E.
    - exfalso. rewrite app_comm_cons in E. apply app_inj_tail in E as [_ E]. discriminate E.
  Qed.
  Theorem custom_parse : forall k conv fuel F m marker j w t tl ty v s,
    spells j t -> ws w -> ends_before j tl -> number_followed k j tl -> at_src k s (w ++ t ++ tl) ->
    (length (w ++ t ++ tl) < fuel)%nat -> (length (w ++ t ++ tl) <= F)%nat ->
    let p0 := pst_init (mkJp (lex_init s) (mkCtl [] JDone JInit true)) in
    match i_parse (interp (cust_sc k conv) m marker ty) v j with
    | Ok v' => exists l c, d_parse (deser (custom_ops custom fuel conv) F m marker ty) v p0 = Ok (v', pst_init (mkJp l c)) /\
                 c_started c = true /\ c_state c = JDone /\ at_src k (l_src l) tl
    | Throw => d_parse (deser (custom_ops custom fuel conv) F m marker ty) v p0 = Throw
    | UB => d_parse (deser (custom_ops custom fuel conv) F m marker ty) v p0 = UB
    | Hang => True
    end.
  Proof.
    intros k conv fuel F m marker j w t tl ty v s Hs Hw Hd Hf Ha Hfuel HF p0.
    assert (Hr : reads tl (mkCtl [] JDone JInit true) (events j ++ []) (w ++ t ++ tl)).
    { apply (proj1 (spells_reads tl)); [exact Hs|now constructor|exact Hd|]. now constructor. }
    rewrite app_nil_r in Hr. assert (Hlen := reads_length _ _ _ _ Hr).
    assert (HR : Rp (RC k conv fuel tl) (pst_init (mkTm true (PFree false) (events j))) p0).
    { split; [|split; reflexivity]. split.
      - unfold RJ. cbn. split; [reflexivity|]. exists (w ++ t ++ tl). split; [exact Ha|]. split; [exact Hfuel|exact Hr].
      - intros K T. split; [|exact Logic.I]. intros l t0 E. apply events_last in E. subst j. exact (Hf K T). }
    assert (S := proj1 (sim_deser _ _ _ (custom_sim k conv fuel tl) F m marker ty) v _ _ HR).
    assert (B : before (cust_sc k conv) j [] (pst_init (mkTm true (PFree false) (events j)))).
    { assert (B := before_st (cust_sc k conv) j [] false). rewrite app_nil_r in B. exact B. }
    rewrite (proj1 (interp_parse (cust_sc k conv) m marker F ty (or_introl (cust_str_not_null k conv))) v j [] _ B) in S by (unfold size; lia).
    destruct (i_parse (interp (cust_sc k conv) m marker ty) v j) as [v'| | |]; cbn [bind follows] in S; try exact Logic.I; try exact S.
    destruct S as ([[l c] pb1 pb2] & E & ([HRp _] & E1 & E2)). cbn in E1, E2. subst pb1 pb2.
    exists l, c. split; [exact E|]. unfold RJ, fin, st in HRp. cbn in HRp. destruct HRp as (_ & txt & At & _ & Rd).
    inversion Rd; subst. auto.
  Qed.
  Theorem custom_try_spec : forall k fuel cfg ty v j text,
    document j text -> (forall t, j = Scal (SNum t) -> not_at_end k text) -> (length text < fuel)%nat ->
    match custom_meaning cfg k ty v j with
    | Ok v' => exists s', custom_try custom fuel cfg ty v (src_init k text) = Ok (v', s') /\ src_ok s' = true
    | Throw => custom_try custom fuel cfg ty v (src_init k text) = Throw
    | UB => custom_try custom fuel cfg ty v (src_init k text) = UB
    | Hang => True
    end.
  Proof.
    intros k fuel cfg ty v j text [j0 w t w2 Hw Hs Hw2] He Hf. clear j text. rename j0 into j. unfold custom_try, json_run.
    change (getToken (json_ops fuel (pc_conv cfg)) (pst_init (mkJp (lex_init (src_init k (w ++ t ++ w2))) ctl_init)))
      with (Ok (TokDocStart, pst_init (mkJp (lex_init (src_init k (w ++ t ++ w2))) (mkCtl [] JDone JInit true)))). cbn [bind].
    assert (Nf : number_followed k j w2).
    { destruct j as [[x| | | |]| |]; try exact Logic.I. intros K ->. apply (He x eq_refl K). inversion Hs as [s0 t0 Hx| | | |]; subst. inversion Hx; subst. rewrite app_nil_r.
      rewrite last_app; [now apply number_last|]. intros ->. match goal with H : number [] |- _ => destruct (number_head _ H) as (? & ? & Z & _); discriminate Z end. }
    assert (Q := custom_parse k (pc_conv cfg) fuel fuel (pc_strict cfg) (pc_marker cfg) j w t w2 ty v _ Hs Hw (ws_delim j _ Hw2) Nf (at_init k _) Hf ltac:(lia)).
    cbv zeta in Q. unfold custom_meaning. destruct (i_parse _ v j) as [v'| | |]; try exact Logic.I; try (rewrite Q; reflexivity).
    destruct Q as (l & c & -> & C1 & C2 & At). cbn [bind ps_impl pst_init jp_lex jp_ctl ps_pb1 ps_pb2].
    assert (G : forall l', getToken (json_ops fuel (pc_conv cfg)) (mkPst (mkJp l' c) TokError TokError) =
       Ok (TokDocEnd, mkPst (mkJp l' (mkCtl (c_parents c) (c_end c) JError true)) TokError TokError)).
    { intro l'. unfold getToken. cbn [ps_pb1 ps_pb2 token_eqb negb]. unfold lift. cbn [ps_impl op_next json_ops].
      unfold jp_next. cbn [jp_next_loop jp_ctl]. unfold ctl_early. rewrite C1, C2. reflexivity. }
    destruct (pc_noTrailing cfg).
    - destruct (trailing_ws k _ w2 At (ws_blank _ Hw2)) as (s' & -> & O1 & O2). cbn [bind]. rewrite G. cbn [bind]. exists s'. auto.
    - rewrite trailing_off. cbn [bind]. rewrite G. cbn [bind]. eexists. split; [reflexivity|]. exact (proj1 (at_ok_rest _ _ _ At)).
  Qed.

  Lemma custom_reads : forall k m marker t v, fine m marker true t v -> forall j, custom_stands_for custom k marker t v j ->
    i_parse (interp (cust_sc k true) m marker t) (default t) j = Ok v.
  Proof.
    intros k m marker t v F j Hj.
    refine (document_read (cust_sc k true) m marker (custom_scalar custom k) json_bool json_str json_tag json_null json_key _ _ _ _ _ _ t v F j Hj).
    - intros i z a Fz Ha. cbn [cust_sc sc_int sc_null]. unfold custom_scalar, cust_int in *. destruct (custom i) as [o|].
      + destruct Ha as (St & g & E). rewrite (as_it_stands_b k a St), E. split; [reflexivity|]. now destruct a.
      + destruct Ha as (txt & -> & L & U). split; [|reflexivity]. cbn [json_sc sc_int]. destruct k; [now apply string_int_literal|now apply stream_int_literal].
    - intros b a ->. destruct b; split; reflexivity.
    - intros s a (raw & -> & H). split; [|reflexivity]. exact (names_key k true raw s H).
    - intros s a (raw & -> & H & Sk). split; [exact (names_key k true raw s H)|]. cbn [cust_sc json_sc sc_skip]. apply safe_skip_ok. destruct Sk as [S1 S2]. split; [exact S1|]. exact (fun _ => S2 eq_refl).
    - intros a ->. split; reflexivity.
    - intros n raw H. exact (names_key k true raw n H).
  Qed.
  Theorem custom_accepted : forall cfg k t v j text, pc_conv cfg = true -> reads_back (pc_strict cfg) (pc_marker cfg) t v ->
    custom_stands_for custom k (pc_marker cfg) t v j -> document j text -> (forall t, j = Scal (SNum t) -> not_at_end k text) -> custom_imports custom cfg k t (default t) text v.
  Proof.
    intros cfg k t v j text C (W & [Sh Va] & Dn & Nn & Un & Ex) Hj D He. exists (S (List.length text)). intros fuel Hf.
    assert (Q := custom_try_spec k fuel cfg t (default t) j text D He ltac:(lia)). unfold custom_meaning in Q. rewrite C in Q. rewrite (custom_reads k _ _ t v) in Q; [exact Q| |exact Hj].
    unfold fine. auto 10.
  Qed.

  (** ** Writing *)
  Definition text_scalar (t : bytes) : jscal := if beq t (scalar_bytes STrue) then STrue else if beq t (scalar_bytes SFalse) then SFalse else SNum t.
  Definition custom_num (i : ity) (z : Z) : jscal := match custom i with Some o => text_scalar (o_put o z) | None => SNum (int_dec z) end.
  Definition good_custom (i : ity) (z : Z) : Prop := fits i z /\ match custom i with Some o => plain_text (o_put o z) | None => True end.
  Lemma number_plain : forall t, number t -> plain t.
  Proof.
    intros t [s i f e Hs Hi Hf He].
    assert (D : forall l, Forall digit l -> plain l). { intros l H. apply Forall_impl with (2 := H). unfold digit. intros; lia. }
    destruct (int_part_digits i Hi) as [_ Fi]. unfold plain. rewrite !Forall_app. repeat match goal with |- _ /\ _ => split end.
    - destruct Hs; repeat constructor; lia.
    - exact (D _ Fi).
    - destruct Hf as [|l [_ Fl]]; [constructor|]. constructor; [lia|]. exact (D _ Fl).
    - destruct He as [|x l Hx [_ Fl]|x y l Hx Hy [_ Fl]]; [constructor| |].
      + constructor; [lia|]. exact (D _ Fl).
      + constructor; [lia|]. constructor; [lia|]. exact (D _ Fl).
  Qed.
  Lemma text_scalar_text : forall t, plain_text t -> scalar_text (text_scalar t) t /\ scalar_bytes (text_scalar t) = t /\ (forall k, as_it_stands k (text_scalar t)) /\ escapeString t = t.
  Proof.
    intros t H. unfold text_scalar. destruct (beq t (scalar_bytes STrue)) eqn:E1; [|destruct (beq t (scalar_bytes SFalse)) eqn:E2].
    - apply beq_eq in E1. subst t. repeat split. constructor.
    - apply beq_eq in E2. subst t. repeat split. constructor.
    - destruct H as [H|[->| ->]]; [|discriminate E1|discriminate E2]. split; [now constructor|]. split; [reflexivity|]. split; [intro; exact Logic.I|]. now apply plain_escape, number_plain.
  Qed.
  Lemma custom_chunk_good : forall i z, good_custom i z -> small (custom_chunk custom i z) /\ scalar_text (custom_num i z) (chunk_bytes (custom_chunk custom i z)).
  Proof.
    intros i z [F H]. unfold custom_chunk, custom_num. destruct (custom i) as [o|].
    - split; [exact Logic.I|]. cbn [chunk_bytes]. destruct (text_scalar_text _ H) as (T & _ & _ & ->). exact T.
    - exact (number_chunk _ (int_num_good i z F)).
  Qed.
  Lemma good_custom_here : forall t v, each valid_here t v -> plain_texts custom t v -> each (here good_custom) t v.
  Proof.
    intros t v A B. apply each_mono with (2 := each_and _ _ t v A B). clear. intros t v [A B]. destruct t, v; auto. cbn [here valid_here] in *. split; assumption.
  Qed.

  Section Export.
    Context (c : fconfig) (k : okind) (t : ty) (v : val).
    Hypotheses (W : wf t = true) (V : valid t v) (P : plain_texts custom t v) (K : legal_keys t v) (N : legal_names t) (M : legal_string (pf_marker c)) (R : indent_ok c v).
    Lemma custom_export_text :
      (exists j out, dc_val (doc_of custom_num (pf_marker c) t) v = Ok j /\ custom_export custom c k t v = Exported out /\ document j out) \/
      (dc_val (doc_of custom_num (pf_marker c) t) v = Throw /\ custom_export custom c k t v = ExportFailed (negb (pf_catch c))).
    Proof.
      destruct V as [Sh Va].
      assert (Q := proj1 (num_writes custom_num (pf_marker c) (custom_chunk custom) c M good_custom custom_chunk_good t v W Sh (good_custom_here t v Va P) K N)).
      specialize (Q (mkPstate 0 LvValue false) [] ltac:(reflexivity)). cbn [List.length Nat.add] in Q. specialize (Q (room_fits c _ (fun Sp => R (spaced_type c Sp)))).
      unfold custom_export, custom_pass. change js_init with [mkPstate 0 LvValue false].
      destruct (dc_val _ v) as [j| | |] eqn:D; [|right|contradiction|contradiction].
      - left. destruct Q as (out & b & w & txt & -> & Sm & Tx & Hw & Hs & _). exists j, (chunks_text out). split; [reflexivity|]. cbn [bind]. split.
        + destruct k; [reflexivity|]. rewrite copy_all; [reflexivity|]. now apply preflight_room.
        + rewrite Tx. replace (w ++ txt) with (w ++ txt ++ []) by now rewrite app_nil_r.
          change (document j (w ++ txt ++ [])). constructor; [exact Hw|exact Hs|constructor].
      - rewrite Q. destruct k; split; reflexivity.
    Qed.
  End Export.
  Theorem custom_doc_written : forall marker t v, plain_name marker -> valid t v -> plain_texts custom t v -> plain_keys t v -> plain_names t ->
    forall j, dc_val (doc_of custom_num marker t) v = Ok j -> custom_written_for custom marker t v j.
  Proof.
    intros marker t v Hm [Sh Va] P K N j E.
    refine (proj1 (num_stands custom_num (custom_written custom) good_custom _ marker Hm t v (good_custom_here t v Va P) K N) j E).
    intros i z [F G]. unfold custom_num, custom_written. destruct (custom i) as [o|]; [|now apply int_num_stands]. now apply text_scalar_text.
  Qed.
  Theorem custom_doc_stands : forall k marker t v, plain_name marker -> valid t v -> plain_texts custom t v -> reread custom t v -> plain_keys t v -> plain_names t ->
    forall j, dc_val (doc_of custom_num marker t) v = Ok j -> custom_stands_for custom k marker t v j.
  Proof.
    intros k marker t v Hm [Sh Va] P Re K N j E.
    refine (proj1 (num_stands custom_num (custom_scalar custom k)
      (fun i z => good_custom i z /\ match custom i with Some o => exists g, o_get o (o_put o z) = Some (z, g) | None => True end) _ marker Hm t v _ K N) j E).
    - intros i z [[F G] Q]. unfold custom_num, custom_scalar. destruct (custom i) as [o|]; [|now apply int_num_stands].
      destruct (text_scalar_text _ G) as (_ & B & St & _). split; [apply St|]. now rewrite B.
    - apply each_mono with (2 := each_and _ _ t v (each_and _ _ t v Va P) Re). clear. intros t v [[A B] C]. destruct t, v; auto. cbn [here valid_here] in *. split; [split; assumption|exact C].
  Qed.
End Read.
