(** Documents of values with floats and doubles. *)
From Coq Require Import ZArith QArith Qabs String List Bool Lia ZifyBool.
From Verif Require Import Model.Base Model.Source Model.Number Model.JsonLexer Model.ParserInterface Model.JsonParser Model.Printer Model.JsonPrinter
  Model.Types Model.Deserializer Model.Serializer Model.Importer Model.Exporter Model.Shared Model.Float
  Spec.JsonString Spec.Json Spec.Typed Spec.Import Spec.Denotes Spec.Float
  Proofs.Induct Proofs.LexP Proofs.NumberP Proofs.Sim Proofs.TreeM Proofs.InterpP Proofs.TypedP Proofs.DenotesP Proofs.JsonSim Proofs.ImportP Proofs.JsonPartP Proofs.SourcesP
  Proofs.PrintP Proofs.DocP Proofs.ExportP Proofs.FloatP Proofs.FloatReadP Proofs.FloatValP.
Import ListNotations.
Open Scope Z_scope.

(** ** Reading *)
Definition num_of (k : skind) (i : ity) (t : bytes) : outcome Z :=
  match flt_of i with Some f => flt_text k f t | None => int_of k i t end.
Definition flt_sc (k : skind) (conv : bool) : scal_ops jscal :=
  mkScal jscal
    (fun i a => match a with SNum t => num_of k i t | _ => Throw end)
    (sc_bool (json_sc k conv)) (sc_str (json_sc k conv)) (sc_null (json_sc k conv)) (sc_skip (json_sc k conv))
    (sc_key (json_sc k conv)) (sc_kskip (json_sc k conv)) false (fun _ => false) true.

Lemma scalar_not_float : forall a body rest, scalar_text a body -> (match a with SNum _ => False | _ => True end) ->
  exists c r, body ++ rest = c :: r /\ 0 <= c < 128 /\ ~ digit c /\ c <> 45 /\ c <> 43 /\ c <> 46 /\ lower c <> 105 /\ (lower c = 110 -> lower (hd 0 r) <> 97).
Proof.
  intros a body rest H N. destruct H as [t Ht|raw Hr| | |]; [contradiction| | | |]; do 2 eexists; (split; [reflexivity|]); unfold digit, lower; cbn; lia.
Qed.
Theorem flt_sim : forall k conv fuel tl, sim (tree_ops (flt_sc k conv)) (flt_ops fuel conv) (RJ k conv fuel tl).
Proof.
  intros k conv fuel tl. assert (J := json_sim k conv fuel tl). constructor.
  - exact (sim_next _ _ _ J).
  - exact (sim_key _ _ _ J).
  - intros i a b H. destruct (flt_of i) as [f|] eqn:Ef.
    2:{ assert (G := sim_int _ _ _ J i a b H). cbn [flt_ops op_int]. rewrite Ef. cbn [op_int tree_ops] in *. unfold tm_val in *. destruct (tm_pend a) as [b0| |[]|]; try exact G.
        cbn [sc_int flt_sc num_of] in *. unfold num_of. rewrite Ef. exact G. }
    cbn [flt_ops op_int tree_ops]. rewrite Ef. destruct a as [on pd evs], b as [l c]. unfold tm_val, RJ in *. cbn [tm_on tm_pend tm_evs jp_lex jp_ctl] in *.
    destruct on; cbn [negb] in *; [|destruct H as (Hs & Hp & _); rewrite Hp; exact I].
    destruct pd as [b| |a|]; try exact I. destruct H as (Hn & Ht & Hb1 & Hb2 & body & rest & Hst & Ha & Hl & Hd & Hr).
    unfold jp_lift, lex_scanFlt. cbn [jp_lex jp_ctl]. rewrite app_length in Hl.
    destruct a as [t|raw| | |].
    2-5: (destruct (scalar_not_float _ body rest Hst Logic.I) as (c0 & r0 & Eb & H0 & H1 & H2 & H3 & H4 & H5 & H6); rewrite Eb in Ha;
          cbn [sc_int flt_sc bind follows]; rewrite (scanFlt_other k f (l_src l) c0 r0 Ha H0 H1 H2 H3 H4 H5 H6); reflexivity).
    cbn [sc_int flt_sc]. assert (E : body = t /\ number t) by (inversion Hst; auto). destruct E as [-> Hnum].
    assert (S := scanFlt_number k f (l_src l) t rest Hnum (Hd Logic.I) Ha). unfold num_of. rewrite Ef.
    destruct (flt_text k f t) as [z| | |]; cbn [bind follows]; try exact Logic.I.
    + destruct S as (s' & -> & H'). cbn [bind]. eexists. split; [reflexivity|]. unfold RJ. cbn.
      split; [exact Hn|]. exists rest. split; [exact H'|]. split; [lia|exact Hr].
    + rewrite S. reflexivity.
    + rewrite S. reflexivity.
  - exact (sim_bool _ _ _ J).
  - exact (sim_str _ _ _ J).
  - exact (sim_null _ _ _ J).
  - exact (sim_ignore _ _ _ J).
  - exact (sim_ignoreMap _ _ _ J).
  - exact (sim_ignoreArr _ _ _ J).
Qed.
Lemma flt_str_not_null : forall k conv a c, sc_str (flt_sc k conv) a = Ok c -> sc_null (flt_sc k conv) a = false.
Proof. exact json_str_not_null. Qed.

Definition flt_meaning (cfg : pconfig) (k : skind) (t : ty) (v : val) (j : jv) : outcome val :=
  i_parse (interp (flt_sc k (pc_conv cfg)) (pc_strict cfg) (pc_marker cfg) t) v j.
Theorem flt_parse : forall k conv fuel F m marker j w t tl ty v s,
  spells j t -> ws w -> ends_before j tl -> at_src k s (w ++ t ++ tl) ->
  (length (w ++ t ++ tl) < fuel)%nat -> (length (w ++ t ++ tl) <= F)%nat ->
  let p0 := pst_init (mkJp (lex_init s) (mkCtl [] JDone JInit true)) in
  match i_parse (interp (flt_sc k conv) m marker ty) v j with
  | Ok v' => exists l c, d_parse (deser (flt_ops fuel conv) F m marker ty) v p0 = Ok (v', pst_init (mkJp l c)) /\
               c_started c = true /\ c_state c = JDone /\ at_src k (l_src l) tl
  | Throw => d_parse (deser (flt_ops fuel conv) F m marker ty) v p0 = Throw
  | UB => d_parse (deser (flt_ops fuel conv) F m marker ty) v p0 = UB
  | Hang => True
  end.
Proof.
  intros k conv fuel F m marker j w t tl ty v s Hs Hw Hd Ha Hfuel HF p0.
  assert (Hr : reads tl (mkCtl [] JDone JInit true) (events j ++ []) (w ++ t ++ tl)).
  { apply (proj1 (spells_reads tl)); [exact Hs|now constructor|exact Hd|]. now constructor. }
  rewrite app_nil_r in Hr. assert (Hlen := reads_length _ _ _ _ Hr).
  assert (HR : Rp (RJ k conv fuel tl) (pst_init (mkTm true (PFree false) (events j))) p0).
  { split; [|split; reflexivity]. unfold RJ. cbn. split; [reflexivity|].
    exists (w ++ t ++ tl). split; [exact Ha|]. split; [exact Hfuel|exact Hr]. }
  assert (S := proj1 (sim_deser _ _ _ (flt_sim k conv fuel tl) F m marker ty) v _ _ HR).
  assert (B : before (flt_sc k conv) j [] (pst_init (mkTm true (PFree false) (events j)))).
  { assert (B := before_st (flt_sc k conv) j [] false). rewrite app_nil_r in B. exact B. }
  rewrite (proj1 (interp_parse (flt_sc k conv) m marker F ty (or_introl (flt_str_not_null k conv))) v j [] _ B) in S by (unfold size; lia).
  destruct (i_parse (interp (flt_sc k conv) m marker ty) v j) as [v'| | |]; cbn [bind follows] in S; try exact I; try exact S.
  destruct S as ([[l c] pb1 pb2] & E & (HRp & E1 & E2)). cbn in E1, E2. subst pb1 pb2.
  exists l, c. split; [exact E|]. unfold RJ, fin, st in HRp. cbn in HRp. destruct HRp as (_ & txt & At & _ & Rd).
  inversion Rd; subst. auto.
Qed.
Theorem flt_try_spec : forall k fuel cfg ty v j text,
  document j text -> (length text < fuel)%nat ->
  match flt_meaning cfg k ty v j with
  | Ok v' => exists s', flt_try fuel cfg ty v (src_init k text) = Ok (v', s') /\ src_ok s' = true
  | Throw => flt_try fuel cfg ty v (src_init k text) = Throw
  | UB => flt_try fuel cfg ty v (src_init k text) = UB
  | Hang => True
  end.
Proof.
  intros k fuel cfg ty v j text [j0 w t w2 Hw Hs Hw2] Hf. clear j text. rename j0 into j. unfold flt_try, json_run.
  change (getToken (json_ops fuel (pc_conv cfg)) (pst_init (mkJp (lex_init (src_init k (w ++ t ++ w2))) ctl_init)))
    with (Ok (TokDocStart, pst_init (mkJp (lex_init (src_init k (w ++ t ++ w2))) (mkCtl [] JDone JInit true)))). cbn [bind].
  assert (Q := flt_parse k (pc_conv cfg) fuel fuel (pc_strict cfg) (pc_marker cfg) j w t w2 ty v _ Hs Hw (ws_delim j _ Hw2) (at_init k _) Hf ltac:(lia)).
  cbv zeta in Q. unfold flt_meaning. destruct (i_parse _ v j) as [v'| | |]; try exact I; try (rewrite Q; reflexivity).
  destruct Q as (l & c & -> & C1 & C2 & At). cbn [bind ps_impl pst_init jp_lex jp_ctl ps_pb1 ps_pb2].
  assert (G : forall l', getToken (json_ops fuel (pc_conv cfg)) (mkPst (mkJp l' c) TokError TokError) =
     Ok (TokDocEnd, mkPst (mkJp l' (mkCtl (c_parents c) (c_end c) JError true)) TokError TokError)).
  { intro l'. unfold getToken. cbn [ps_pb1 ps_pb2 token_eqb negb]. unfold lift. cbn [ps_impl op_next json_ops].
    unfold jp_next. cbn [jp_next_loop jp_ctl]. unfold ctl_early. rewrite C1, C2. reflexivity. }
  destruct (pc_noTrailing cfg).
  - destruct (trailing_ws k _ w2 At (ws_blank _ Hw2)) as (s' & -> & O1 & O2). cbn [bind]. rewrite G. cbn [bind]. exists s'. auto.
  - rewrite trailing_off. cbn [bind]. rewrite G. cbn [bind]. eexists. split; [reflexivity|]. exact (proj1 (at_ok_rest _ _ _ At)).
Qed.
Lemma flt_doc_imports : forall cfg k ty v j text v', document j text -> flt_meaning cfg k ty v j = Ok v' -> flt_imports cfg k ty v text v'.
Proof.
  intros cfg k ty v j text v' D E. exists (S (List.length text)). intros fuel Hf. assert (Q := flt_try_spec k fuel cfg ty v j text D ltac:(lia)). now rewrite E in Q.
Qed.
Lemma flt_doc_rejects : forall cfg k ty v j text, document j text -> flt_meaning cfg k ty v j = Throw -> flt_rejects cfg k ty v text.
Proof.
  intros cfg k ty v j text D E. exists (S (List.length text)). intros fuel Hf. assert (Q := flt_try_spec k fuel cfg ty v j text D ltac:(lia)). now rewrite E in Q.
Qed.
Lemma flt_doc_undefined : forall cfg k ty v j text, document j text -> flt_meaning cfg k ty v j = UB -> flt_undefined cfg k ty v text.
Proof.
  intros cfg k ty v j text D E. exists (S (List.length text)). intros fuel Hf. assert (Q := flt_try_spec k fuel cfg ty v j text D ltac:(lia)). now rewrite E in Q.
Qed.

(** ** Documents are read as the values they stand for *)
Lemma flt_reads : forall k m marker (Int : ity -> Z -> jscal -> Prop), (forall i z a, fits i z -> Int i z a -> exists t, a = SNum t /\ num_of k i t = Ok z) ->
  forall t v, fine m marker true t v -> forall j, d_val (num_sense Int marker t) v j ->
  i_parse (interp (flt_sc k true) m marker t) (default t) j = Ok v.
Proof.
  intros k m marker Int HI t v F j Hj.
  refine (document_read (flt_sc k true) m marker Int json_bool json_str json_tag json_null json_key _ _ _ _ _ _ t v F j Hj).
  - intros i z a Fz Ha. destruct (HI i z a Fz Ha) as (txt & -> & E). split; [exact E|reflexivity].
  - intros b a ->. destruct b; split; reflexivity.
  - intros s a (raw & -> & H). split; [|reflexivity]. exact (names_key k true raw s H).
  - intros s a (raw & -> & H & Sk). split; [exact (names_key k true raw s H)|]. cbn [flt_sc json_sc sc_skip]. apply safe_skip_ok. destruct Sk as [S1 S2]. split; [exact S1|]. exact (fun _ => S2 eq_refl).
  - intros a ->. split; reflexivity.
  - intros n raw H. exact (names_key k true raw n H).
Qed.
Lemma num_denotes : forall k i z a, fits i z -> json_num i z a -> exists t, a = SNum t /\ num_of k i t = Ok z.
Proof.
  intros k i z a F H. unfold json_num, num_of in *. destruct (flt_of i) as [f|].
  - destruct H as (t & -> & D). exists t. split; [reflexivity|]. now apply denotes_read.
  - destruct H as (txt & -> & L & U). exists txt. split; [reflexivity|]. destruct k; [now apply string_int_literal|now apply stream_int_literal].
Qed.
Theorem num_accepted : forall cfg k t v j text, pc_conv cfg = true -> reads_back (pc_strict cfg) (pc_marker cfg) t v ->
  d_val (num_sense json_num (pc_marker cfg) t) v j -> document j text -> flt_imports cfg k t (default t) text v.
Proof.
  intros cfg k t v j text C (W & [Sh Va] & Dn & Nn & Un & Ex) Hj D. apply (flt_doc_imports cfg k t (default t) j text v D). unfold flt_meaning. rewrite C.
  apply flt_reads with (Int := json_num); [apply num_denotes| |exact Hj]. unfold fine. auto 10.
Qed.
