(** Documents of values with classes that have a serializer. *)
From Coq Require Import ZArith String List Bool Lia ZifyBool.
From Verif Require Import Model.Base Model.Source Model.Unicode Model.Number Model.JsonLexer Model.ParserInterface Model.JsonParser Model.Printer Model.JsonPrinter
  Model.Types Model.Deserializer Model.Serializer Model.Importer Model.Exporter Model.Shared Model.Float Model.JsonSerialize
  Spec.JsonString Spec.Json Spec.Typed Spec.Import Spec.Denotes Spec.JsonSerialize
  Proofs.Induct Proofs.LexP Proofs.NumberP Proofs.Sim Proofs.TreeM Proofs.InterpP Proofs.TypedP Proofs.DenotesP Proofs.JsonSim Proofs.ImportP Proofs.JsonPartP Proofs.SourcesP
  Proofs.PrintP Proofs.DocP Proofs.ExportP Proofs.FloatExportP Proofs.AlikeP.
Import ListNotations.
Open Scope Z_scope.

Section Custom.
  Context (custom : ity -> option text_serializer).
  (** ** Reading *)
  Definition jser_int (k : skind) (conv : bool) (i : ity) (a : jscal) : outcome Z :=
    match custom i with
    | Some o => do s <- sc_str (json_sc k conv) a; w_get o s
    | None => sc_int (json_sc k conv) i a
    end.
  Definition jser_sc (k : skind) (conv : bool) : scal_ops jscal :=
    mkScal jscal (jser_int k conv)
      (sc_bool (json_sc k conv)) (sc_str (json_sc k conv)) (sc_null (json_sc k conv)) (sc_skip (json_sc k conv))
      (sc_key (json_sc k conv)) (sc_kskip (json_sc k conv)) false (fun _ => false) true.
  Theorem jser_sim : forall k conv fuel tl, sim (tree_ops (jser_sc k conv)) (jser_ops custom fuel conv) (RJ k conv fuel tl).
  Proof.
    intros k conv fuel tl. assert (J := json_sim k conv fuel tl). constructor.
    - exact (sim_next _ _ _ J).
    - exact (sim_key _ _ _ J).
    - intros i a b H. cbn [jser_ops op_int tree_ops]. unfold tm_val. cbn [sc_int jser_sc]. destruct (custom i) as [o|] eqn:Ec.
      2:{ assert (G := sim_int _ _ _ J i a b H). cbn [op_int tree_ops] in G. unfold tm_val in G. destruct (tm_pend a) as [b0| |x|]; try exact G. unfold jser_int. rewrite Ec. exact G. }
      assert (G := sim_str _ _ _ J a b H). cbn [op_str tree_ops] in G. unfold tm_val in G. unfold jser_get. destruct (tm_pend a) as [b0| |x|]; cbn [follows] in *.
      1,2,4: exact Logic.I || (rewrite G; reflexivity).
      unfold jser_int. rewrite Ec. destruct (sc_str (json_sc k conv) x) as [s| | |]; cbn [bind follows] in *; try exact Logic.I; try (rewrite G; reflexivity).
      destruct G as (b' & -> & R). cbn [bind]. destruct (w_get o s) as [z| | |]; cbn [bind follows]; try exact Logic.I; try reflexivity. eexists. split; [reflexivity|exact R].
    - exact (sim_bool _ _ _ J).
    - exact (sim_str _ _ _ J).
    - exact (sim_null _ _ _ J).
    - exact (sim_ignore _ _ _ J).
    - exact (sim_ignoreMap _ _ _ J).
    - exact (sim_ignoreArr _ _ _ J).
  Qed.
  Lemma jser_str_not_null : forall k conv a c, sc_str (jser_sc k conv) a = Ok c -> sc_null (jser_sc k conv) a = false.
  Proof. exact json_str_not_null. Qed.

  Definition jser_meaning (cfg : pconfig) (k : skind) (t : ty) (v : val) (j : jv) : outcome val :=
    i_parse (interp (jser_sc k (pc_conv cfg)) (pc_strict cfg) (pc_marker cfg) t) v j.
  Theorem jser_parse : forall k conv fuel F m marker j w t tl ty v s,
    spells j t -> ws w -> ends_before j tl -> at_src k s (w ++ t ++ tl) ->
    (length (w ++ t ++ tl) < fuel)%nat -> (length (w ++ t ++ tl) <= F)%nat ->
    let p0 := pst_init (mkJp (lex_init s) (mkCtl [] JDone JInit true)) in
    match i_parse (interp (jser_sc k conv) m marker ty) v j with
    | Ok v' => exists l c, d_parse (deser (jser_ops custom fuel conv) F m marker ty) v p0 = Ok (v', pst_init (mkJp l c)) /\
                 c_started c = true /\ c_state c = JDone /\ at_src k (l_src l) tl
    | Throw => d_parse (deser (jser_ops custom fuel conv) F m marker ty) v p0 = Throw
    | UB => d_parse (deser (jser_ops custom fuel conv) F m marker ty) v p0 = UB
    | Hang => True
    end.
  Proof.
    intros k conv fuel F m marker j w t tl ty v s Hs Hw Hd Ha Hfuel HF p0.
    assert (Hr : reads tl (mkCtl [] JDone JInit true) (events j ++ []) (w ++ t ++ tl)).
    { apply (proj1 (spells_reads tl)); [exact Hs|now constructor|exact Hd|]. now constructor. }
    rewrite app_nil_r in Hr. assert (Hlen := reads_length _ _ _ _ Hr).
    assert (HR : Rp (RJ k conv fuel tl) (pst_init (mkTm true (PFree false) (events j))) p0).
    { split; [|split; reflexivity]. unfold RJ. cbn. split; [reflexivity|].
      exists (w ++ t ++ tl). split; [exact Ha|]. split; [exact Hfuel|exact Hr]. }
    assert (S := proj1 (sim_deser _ _ _ (jser_sim k conv fuel tl) F m marker ty) v _ _ HR).
    assert (B : before (jser_sc k conv) j [] (pst_init (mkTm true (PFree false) (events j)))).
    { assert (B := before_st (jser_sc k conv) j [] false). rewrite app_nil_r in B. exact B. }
    rewrite (proj1 (interp_parse (jser_sc k conv) m marker F ty (or_introl (jser_str_not_null k conv))) v j [] _ B) in S by (unfold size; lia).
    destruct (i_parse (interp (jser_sc k conv) m marker ty) v j) as [v'| | |]; cbn [bind follows] in S; try exact Logic.I; try exact S.
    destruct S as ([[l c] pb1 pb2] & E & (HRp & E1 & E2)). cbn in E1, E2. subst pb1 pb2.
    exists l, c. split; [exact E|]. unfold RJ, fin, st in HRp. cbn in HRp. destruct HRp as (_ & txt & At & _ & Rd).
    inversion Rd; subst. auto.
  Qed.
  Theorem jser_try_spec : forall k fuel cfg ty v j text,
    document j text -> (length text < fuel)%nat ->
    match jser_meaning cfg k ty v j with
    | Ok v' => exists s', jser_try custom fuel cfg ty v (src_init k text) = Ok (v', s') /\ src_ok s' = true
    | Throw => jser_try custom fuel cfg ty v (src_init k text) = Throw
    | UB => jser_try custom fuel cfg ty v (src_init k text) = UB
    | Hang => True
    end.
  Proof.
    intros k fuel cfg ty v j text [j0 w t w2 Hw Hs Hw2] Hf. clear j text. rename j0 into j. unfold jser_try, json_run.
    change (getToken (json_ops fuel (pc_conv cfg)) (pst_init (mkJp (lex_init (src_init k (w ++ t ++ w2))) ctl_init)))
      with (Ok (TokDocStart, pst_init (mkJp (lex_init (src_init k (w ++ t ++ w2))) (mkCtl [] JDone JInit true)))). cbn [bind].
    assert (Q := jser_parse k (pc_conv cfg) fuel fuel (pc_strict cfg) (pc_marker cfg) j w t w2 ty v _ Hs Hw (ws_delim j _ Hw2) (at_init k _) Hf ltac:(lia)).
    cbv zeta in Q. unfold jser_meaning. destruct (i_parse _ v j) as [v'| | |]; try exact Logic.I; try (rewrite Q; reflexivity).
    destruct Q as (l & c & -> & C1 & C2 & At). cbn [bind ps_impl pst_init jp_lex jp_ctl ps_pb1 ps_pb2].
    assert (G : forall l', getToken (json_ops fuel (pc_conv cfg)) (mkPst (mkJp l' c) TokError TokError) =
       Ok (TokDocEnd, mkPst (mkJp l' (mkCtl (c_parents c) (c_end c) JError true)) TokError TokError)).
    { intro l'. unfold getToken. cbn [ps_pb1 ps_pb2 token_eqb negb]. unfold lift. cbn [ps_impl op_next json_ops].
      unfold jp_next. cbn [jp_next_loop jp_ctl]. unfold ctl_early. rewrite C1, C2. reflexivity. }
    destruct (pc_noTrailing cfg).
    - destruct (trailing_ws k _ w2 At (ws_blank _ Hw2)) as (s' & -> & O1 & O2). cbn [bind]. rewrite G. cbn [bind]. exists s'. auto.
    - rewrite trailing_off. cbn [bind]. rewrite G. cbn [bind]. eexists. split; [reflexivity|]. exact (proj1 (at_ok_rest _ _ _ At)).
  Qed.
  Lemma jser_doc_imports : forall cfg k ty v j text v', document j text -> jser_meaning cfg k ty v j = Ok v' -> jser_imports custom cfg k ty v text v'.
  Proof.
    intros cfg k ty v j text v' D E. exists (S (List.length text)). intros fuel Hf. assert (Q := jser_try_spec k fuel cfg ty v j text D ltac:(lia)). now rewrite E in Q.
  Qed.
  Lemma jser_doc_rejects : forall cfg k ty v j text, document j text -> jser_meaning cfg k ty v j = Throw -> jser_rejects custom cfg k ty v text.
  Proof.
    intros cfg k ty v j text D E. exists (S (List.length text)). intros fuel Hf. assert (Q := jser_try_spec k fuel cfg ty v j text D ltac:(lia)). now rewrite E in Q.
  Qed.
  Theorem jser_accepted : forall cfg k t v j text, pc_conv cfg = true -> reads_back (pc_strict cfg) (pc_marker cfg) t v ->
    serial_stands_for custom (pc_marker cfg) t v j -> document j text -> jser_imports custom cfg k t (default t) text v.
  Proof.
    intros cfg k t v j text C (W & [Sh Va] & Dn & Nn & Un & Ex) Hj D. apply (jser_doc_imports cfg k t (default t) j text v D). unfold jser_meaning. rewrite C.
    assert (F : fine (pc_strict cfg) (pc_marker cfg) true t v) by (unfold fine; auto 10).
    refine (document_read (jser_sc k true) _ _ (serial_scalar custom) json_bool json_str json_tag json_null json_key _ _ _ _ _ _ t v F j Hj).
    - intros i z a Fz Ha. cbn [jser_sc sc_int sc_null]. unfold serial_scalar, jser_int in *. destruct (custom i) as [o|].
      + destruct Ha as (s & (raw & -> & H) & E). split; [|reflexivity]. cbn [json_sc sc_str]. assert (Q := names_key k true raw s H). cbn [json_sc sc_key] in Q. rewrite Q. exact E.
      + destruct Ha as (txt & -> & L & U). split; [|reflexivity]. cbn [json_sc sc_int]. destruct k; [now apply string_int_literal|now apply stream_int_literal].
    - intros b a ->. destruct b; split; reflexivity.
    - intros s a (raw & -> & H). split; [|reflexivity]. exact (names_key k true raw s H).
    - intros s a (raw & -> & H & Sk). split; [exact (names_key k true raw s H)|]. cbn [jser_sc json_sc sc_skip]. apply safe_skip_ok. destruct Sk as [S1 S2]. split; [exact S1|]. exact (fun _ => S2 eq_refl).
    - intros a ->. split; reflexivity.
    - intros n raw H. exact (names_key k true raw n H).
  Qed.

  (** ** Writing *)
  Definition jser_num (i : ity) (z : Z) : jscal := match custom i with Some o => SStr (escapeString (w_put o z)) | None => SNum (int_dec z) end.
  Definition good_serial (i : ity) (z : Z) : Prop := fits i z /\ match custom i with Some o => bytes_in (w_put o z) | None => True end.
  Lemma jser_chunk_good : forall i z, good_serial i z -> small (jser_chunk custom i z) /\ scalar_text (jser_num i z) (chunk_bytes (jser_chunk custom i z)).
  Proof.
    intros i z [F H]. unfold jser_chunk, jser_num. destruct (custom i) as [o|].
    - split; [exact Logic.I|]. constructor. now apply escape_string.
    - exact (number_chunk _ (int_num_good i z F)).
  Qed.
  Lemma good_serial_here : forall t v, each valid_here t v -> texts_bytes custom t v -> each (here good_serial) t v.
  Proof.
    intros t v A B. apply each_mono with (2 := each_and _ _ t v A B). clear. intros t v [A B]. destruct t, v; auto. cbn [here valid_here] in *. split; assumption.
  Qed.
  Section Export.
    Context (c : fconfig) (k : okind) (t : ty) (v : val).
    Hypotheses (W : wf t = true) (V : valid t v) (P : texts_bytes custom t v) (K : legal_keys t v) (N : legal_names t) (M : legal_string (pf_marker c)) (R : indent_ok c v).
    Lemma jser_export_text :
      (exists j out, dc_val (doc_of jser_num (pf_marker c) t) v = Ok j /\ jser_export custom c k t v = Exported out /\ document j out) \/
      (dc_val (doc_of jser_num (pf_marker c) t) v = Throw /\ jser_export custom c k t v = ExportFailed (negb (pf_catch c))).
    Proof.
      destruct V as [Sh Va].
      assert (Q := proj1 (num_writes jser_num (pf_marker c) (jser_chunk custom) c M good_serial jser_chunk_good t v W Sh (good_serial_here t v Va P) K N)).
      specialize (Q (mkPstate 0 LvValue false) [] ltac:(reflexivity)). cbn [List.length Nat.add] in Q. specialize (Q (room_fits c _ (fun Sp => R (spaced_type c Sp)))).
      unfold jser_export, jser_pass. change js_init with [mkPstate 0 LvValue false].
      destruct (dc_val _ v) as [j| | |] eqn:D; [|right|contradiction|contradiction].
      - left. destruct Q as (out & b & w & txt & -> & Sm & Tx & Hw & Hs & _). exists j, (chunks_text out). split; [reflexivity|]. cbn [bind]. split.
        + destruct k; [reflexivity|]. rewrite copy_all; [reflexivity|]. now apply preflight_room.
        + rewrite Tx. replace (w ++ txt) with (w ++ txt ++ []) by now rewrite app_nil_r.
          change (document j (w ++ txt ++ [])). constructor; [exact Hw|exact Hs|constructor].
      - rewrite Q. destruct k; split; reflexivity.
    Qed.
  End Export.
  Theorem jser_doc_written : forall marker t v, plain_name marker -> valid t v -> texts_bytes custom t v -> plain_keys t v -> plain_names t ->
    forall j, dc_val (doc_of jser_num marker t) v = Ok j -> serial_written_for custom marker t v j.
  Proof.
    intros marker t v Hm [Sh Va] P K N j E.
    refine (proj1 (num_stands jser_num (serial_written custom) good_serial _ marker Hm t v (good_serial_here t v Va P) K N) j E).
    intros i z [F G]. unfold jser_num, serial_written. destruct (custom i) as [o|]; [|now apply int_num_stands]. now apply str_stands.
  Qed.
  (** What is written stands for the objects that are made of it. *)
  Theorem written_stands : forall marker t v j, texts_reread custom t v -> serial_written_for custom marker t v j -> serial_stands_for custom marker t v j.
  Proof.
    intros marker t v j U H. refine (proj1 (sense_refine (fun i z => match custom i with Some o => w_get o (w_put o z) = Ok z | None => True end) (serial_written custom) _ _ _ _ _ _ _ _ t) v j U H).
    intros i z a R S. unfold serial_written, serial_scalar in *. destruct (custom i); [eauto|exact S].
  Qed.
End Custom.
