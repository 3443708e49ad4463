(** Whole imports of BSON documents. *)
From Coq Require Import ZArith String List Bool Lia ZifyBool.
From Verif Require Import Model.Base Model.Source Model.Number Model.ParserInterface Model.Types Model.Deserializer
  Model.Importer Model.Binary Model.BsonPrinter Model.BsonParser Model.BsonDoc
  Spec.Json Spec.Bson Proofs.LexP Proofs.Sim Proofs.TreeM Proofs.ImportP Proofs.BinaryP Proofs.BsonSim.
Import ListNotations.
Open Scope Z_scope.

(** The meaning of a tree under a configuration. *)
Definition meaning_with (sc : scal_ops bscal) (cfg : pconfig) (t : ty) (v : val) (j : tree bscal) : outcome val :=
  i_parse (interp sc (pc_strict cfg) (pc_marker cfg) t) v j.
Definition bson_meaning := meaning_with bson_sc.

(** The root container that the document has. *)
Definition shape (j : tree bscal) : bcont := match j with Obj _ => BMap | Arr _ => BArray | Scal _ => BValue end.

Definition is_one (j : tree bscal) : bool := match j with Scal _ => true | _ => false end.

(** Every event takes a byte. *)
Lemma events_length :
  (forall j type b, bson_value any_name j type b -> (length (events j) <= length b + 1)%nat) /\
  (forall i l e, bson_elems any_name i l e -> (length (flat_map events l) <= length e)%nat) /\
  (forall l e, bson_members any_name l e -> (length (member_events l) <= length e)%nat).
Proof.
  apply bson_mutind.
  - intros a type b _. cbn. lia.
  - intros l e b _ IH [_]. cbn [events length]. rewrite !app_length, little_length. cbn [length]. lia.
  - intros l e b _ IH [_]. cbn [events length]. fold (member_events l). rewrite !app_length, little_length. cbn [length]. lia.
  - intros i. cbn. lia.
  - intros i j l type n b r _ _ _ IH1 _ IH2. cbn [flat_map length]. rewrite !app_length. cbn [length]. rewrite app_length. lia.
  - cbn. lia.
  - intros n j l type b r _ _ IH1 _ IH2. cbn [member_events flat_map fst snd app length]. fold (member_events l).
    rewrite !app_length. cbn [length]. rewrite app_length. lia.
Qed.
Lemma document_events : forall j t, bson_document any_name j t -> (length (events j) <= length t + 1)%nat.
Proof.
  intros j t H. destruct H as [l b H|l b H|a b H]; try exact (proj1 events_length _ _ _ H). cbn. lia.
Qed.

Lemma get_next : forall b, getToken bson_ops (pst_init b) = do (tk, b') <- bson_next b; Ok (tk, pst_init b').
Proof. intro b. unfold getToken. cbn [ps_pb1 ps_pb2 pst_init token_eqb negb]. unfold lift. cbn [ps_impl op_next bson_ops pst_init]. destruct (bson_next b) as [[tk b']| | |]; reflexivity. Qed.

(** The state after the start of the document. *)
Lemma doc_start : forall k j t tl s, bson_document any_name j t -> at_src k s (t ++ tl) ->
  exists b, getToken bson_ops (pst_init (b_init (shape j) s)) = Ok (TokDocStart, pst_init b) /\
    RB k tl (is_one j) (mkTm true (PFree false) (events j)) b.
Proof.
  intros k j t tl s D At. destruct D as [l b H|l b H|a b H]; cbn [shape].
  - eexists. split; [reflexivity|]. split; [reflexivity|]. exists (b ++ tl). split; [exact At|]. cbn [tm_pend tm_evs]. split; [reflexivity|].
    right. split; [reflexivity|]. inversion H as [| |l0 e b0 He Hf]; subst. inversion Hf as [Hz E]. 
    cbn [events]. fold (member_events l). rewrite <- !app_assoc. cbn [app].
    assert (P := len_pos e). apply pd_map; [reflexivity|lia|reflexivity|reflexivity|].
    cbn [b_stack b_left b_size bset_next b_init]. replace (len e + 5 - 4) with (room e) by (unfold room; lia).
    apply (rm_map tl false l e (len e + 5) [] [] [] [] tl); [exact He|unfold room; lia|lia|now constructor].
  - eexists. split; [reflexivity|]. split; [reflexivity|]. exists (b ++ tl). split; [exact At|]. cbn [tm_pend tm_evs]. split; [reflexivity|].
    right. split; [reflexivity|]. inversion H as [|l0 e b0 He Hf|]; subst. inversion Hf as [Hz E].
    cbn [events]. rewrite <- !app_assoc. cbn [app].
    assert (P := len_pos e). apply pd_arr; [reflexivity|lia|reflexivity|reflexivity|].
    cbn [b_stack b_left b_size bset_next b_init]. replace (len e + 5 - 4) with (room e) by (unfold room; lia).
    apply (rm_arr tl false 0 l e (len e + 5) [] [] [] [] tl); [exact He|unfold room; lia|lia|now constructor].
  - inversion H as [|l0 e b0 He Hf|]; subst. inversion Hf as [Hz E]. subst b. rewrite <- !app_assoc in At.
    assert (P := len_pos e).
    destruct (start_at k (bset_stack (bset_next (b_init BValue s) TokKey) [BValue; BValue]) (len e + 5) _ At ltac:(lia)) as (s' & Es & At').
    exists (bset_src (bset_sizes (bset_stack (bset_next (b_init BValue s) TokKey) [BValue; BValue]) [len e + 5 - 4] [len e + 5]) s').
    split.
    { rewrite get_next.
      change (bson_next (b_init BValue s)) with
        (do b <- startContainer (bset_stack (bset_next (b_init BValue s) TokKey) [BValue; BValue]); Ok (TokDocStart, b)).
      rewrite Es. reflexivity. }
    split; [reflexivity|]. exists (e ++ [0] ++ tl). split; [exact At'|]. cbn [tm_pend tm_evs]. split; [reflexivity|]. left.
    replace (len e + 5 - 4) with (room e) by (unfold room; lia). cbn [app].
    split; [apply (rm_value tl true 0 [Scal a] e (len e + 5)); [reflexivity|exact He|unfold room; lia|lia]|].
    cbn [b_skip b_init bset_src bset_sizes bset_stack bset_next b_next b_stack b_left due].
    inversion He; subst. unfold room. rewrite len_cons, len_app, len_cons. assert (P1 := len_pos n). assert (P2 := len_pos (b ++ r)).
    destruct (Z.eqb_spec (1 + (len n + (1 + len (b ++ r))) + 1) 1); [lia|reflexivity].
Qed.

(** Everything below is about any parser that differs from [bson_ops] in the way it reads numbers. *)
Section Any.
Context (ops : parser_ops bparser) (sc : scal_ops bscal).
Hypotheses (Hsim : forall k tl one, sim (tree_ops sc) ops (RB k tl one)) (Hnext : op_next ops = bson_next)
  (Hnn : forall a c, sc_str sc a = Ok c -> sc_null sc a = false).

Lemma next_get : forall b, getToken ops (pst_init b) = do (tk, b') <- bson_next b; Ok (tk, pst_init b').
Proof. intro b. unfold getToken. cbn [ps_pb1 ps_pb2 pst_init token_eqb negb]. unfold lift. cbn [ps_impl pst_init]. rewrite Hnext. destruct (bson_next b) as [[tk b']| | |]; reflexivity. Qed.

Theorem parse_with : forall k F m marker j t tl ty v b, bson_document any_name j t ->
  RB k tl (is_one j) (mkTm true (PFree false) (events j)) b -> (length t < F)%nat ->
  match i_parse (interp sc m marker ty) v j with
  | Ok v' => exists b' txt, d_parse (deser ops F m marker ty) v (pst_init b) = Ok (v', pst_init b') /\
               free tl (is_one j) b' [] txt /\ at_src k (b_src b') txt
  | Throw => d_parse (deser ops F m marker ty) v (pst_init b) = Throw
  | UB => d_parse (deser ops F m marker ty) v (pst_init b) = UB
  | Hang => True
  end.
Proof.
  intros k F m marker j t tl ty v b D HB HF.
  assert (HR : Rp (RB k tl (is_one j)) (pst_init (mkTm true (PFree false) (events j))) (pst_init b)).
  { split; [exact HB|split; reflexivity]. }
  assert (S := proj1 (sim_deser _ _ _ (Hsim k tl (is_one j)) F m marker ty) v _ _ HR).
  assert (B : before sc j [] (pst_init (mkTm true (PFree false) (events j)))).
  { assert (B := before_st sc j [] false). rewrite app_nil_r in B. exact B. }
  assert (Hlen := document_events _ _ D).
  rewrite (proj1 (interp_parse sc m marker F ty (or_introl Hnn)) v j [] _ B) in S by (unfold size; lia).
  destruct (i_parse (interp sc m marker ty) v j) as [v'| | |]; cbn [bind follows] in S; try exact I; try exact S.
  destruct S as ([b' pb1 pb2] & E & (HRp & E1 & E2)). cbn in E1, E2. subst pb1 pb2.
  unfold RB, fin, st in HRp. cbn in HRp. destruct HRp as (_ & txt & At & _ & [Fr|[_ P]]); [|inversion P].
  exists b', txt. auto.
Qed.

(** What a whole import of a document followed by [tl] does. *)
Theorem try_spec : forall k fuel cfg j t tl ty v s, bson_document any_name j t -> bson_root ty = shape j ->
  at_src k s (t ++ tl) -> (length t < fuel)%nat ->
  match meaning_with sc cfg ty v j with
  | Ok v' =>
      if pc_noTrailing cfg then
        (blank tl -> shape j <> BValue -> exists s', try_with ops fuel cfg ty v s = Ok (v', s') /\ src_ok s' = true /\ s_rest s' = []) /\
        (forall w' c r, shape j <> BValue -> tl = w' ++ c :: r -> blank w' -> is_space c = false -> try_with ops fuel cfg ty v s = Throw) /\
        (shape j = BValue -> try_with ops fuel cfg ty v s = Throw)
      else exists s', try_with ops fuel cfg ty v s = Ok (v', s') /\ at_src k s' tl
  | Throw => try_with ops fuel cfg ty v s = Throw
  | UB => try_with ops fuel cfg ty v s = UB
  | Hang => True
  end.
Proof.
  intros k fuel cfg j t tl ty v s D Hroot At Hf. unfold try_with. rewrite Hroot.
  destruct (doc_start k j t tl s D At) as (b & Eb & HB). rewrite get_next in Eb. rewrite next_get, Eb. clear Eb. cbn [bind].
  assert (P := parse_with k fuel (pc_strict cfg) (pc_marker cfg) j t tl ty v b D HB Hf). unfold meaning_with.
  destruct (i_parse _ v j) as [v'| | |]; try exact I; try (rewrite P; reflexivity).
  destruct P as (b' & txt & -> & Fr & At'). cbn [bind ps_impl pst_init ps_pb1 ps_pb2].
  destruct (pc_noTrailing cfg).
  - destruct Fr as [Fr1 Fr2]. inversion Fr1 as [Ho E1 E2 E3 E4|l e z st left size evs x He Hroom Hz Hr E1 E2 E3 E E4|i l e z st left size evs x He Hroom Hz Hr E1 E2 E3 E E4|i l e z Ho He Hroom Hz E1 E2 E3 E4 E5].
    + assert (Hsh : shape j <> BValue) by (destruct j; discriminate). subst txt. split; [|split; [|contradiction]].
      * intros Hb _. destruct (trailing_ws k _ tl At' Hb) as (s' & -> & O1 & O2). cbn [bind].
        change (mkPst (bset_src b' s') TokError TokError) with (pst_init (bset_src b' s')). rewrite next_get.
        unfold bson_next. unfold next_with at 1. cbn [b_skip bset_src]. rewrite <- E1 in Fr2.
        destruct (b_skip b'); [contradiction|]. cbn [bind b_next bset_src]. rewrite Fr2. cbn [due bind b_stack bset_src]. rewrite <- ?E1. cbn [bind].
        exists s'. auto.
      * intros w' c r _ -> Hw' Hc. rewrite (trailing_junk k _ w' c r At' Hw' Hc). reflexivity.
    + exfalso. symmetry in E. now apply app_cons_not_nil in E.
    + exfalso. symmetry in E. now apply app_cons_not_nil in E.
    + assert (Hsh : shape j = BValue) by (destruct j; discriminate || reflexivity).
      split; [contradiction|]. split; [contradiction|]. intros _.
      assert (He0 : e = []).
      { inversion He; subst; [reflexivity|]. cbn in E4. destruct j0; discriminate E4. }
      subst e txt. cbn [app] in At'. rewrite (trailing_junk k _ [] 0 tl At'); [reflexivity|constructor|reflexivity].
  - rewrite trailing_off. cbn [bind]. replace (bset_src b' (b_src b')) with b' by now destruct b'.
    change (mkPst b' TokError TokError) with (pst_init b'). rewrite next_get.
    destruct (free_next k tl (is_one j) b' [] txt Fr At') as (b2 & -> & At2 & _). cbn [bind]. eexists. split; [reflexivity|exact At2].
Qed.

(** From the fuel bounded runs to the observations. *)
Section Observe.
  Context (cfg : pconfig) (k : skind) (j : tree bscal) (t tl : bytes) (ty : ty) (v : val).
  Hypotheses (Hs : bson_document any_name j t) (Hsh : bson_root ty = shape j).

  Lemma observe_imports : forall v', meaning_with sc cfg ty v j = Ok v' -> pc_noTrailing cfg = false ->
    imports_with ops cfg k ty v (t ++ tl) v' tl.
  Proof.
    intros v' Hm Hn. exists (S (length t)). intros fuel Hf. unfold extract_with.
    assert (P := try_spec k fuel cfg j t tl ty v _ Hs Hsh (at_init k _) ltac:(lia)). rewrite Hm, Hn in P.
    destruct P as (s' & -> & At). exists s'. split; [reflexivity|]. exact (at_ok_rest _ _ _ At).
  Qed.
  Lemma observe_whole : forall v', meaning_with sc cfg ty v j = Ok v' -> blank tl -> shape j <> BValue ->
    imports_with ops cfg k ty v (t ++ tl) v' (if pc_noTrailing cfg then [] else tl).
  Proof.
    intros v' Hm Hb Hv. exists (S (length t)). intros fuel Hf. unfold extract_with.
    assert (P := try_spec k fuel cfg j t tl ty v _ Hs Hsh (at_init k _) ltac:(lia)). rewrite Hm in P.
    destruct (pc_noTrailing cfg).
    - destruct P as (P & _). destruct (P Hb Hv) as (s' & -> & O1 & O2). eauto.
    - destruct P as (s' & -> & At). exists s'. split; [reflexivity|]. exact (at_ok_rest _ _ _ At).
  Qed.
  Lemma observe_throw : meaning_with sc cfg ty v j = Throw -> rejects_with ops cfg k ty v (t ++ tl).
  Proof.
    intros Hm. exists (S (length t)). intros fuel Hf. unfold extract_with.
    assert (P := try_spec k fuel cfg j t tl ty v _ Hs Hsh (at_init k _) ltac:(lia)). rewrite Hm in P.
    now rewrite P.
  Qed.
  Lemma observe_ub : meaning_with sc cfg ty v j = UB -> undefined_with ops cfg k ty v (t ++ tl).
  Proof.
    intros Hm. exists (S (length t)). intros fuel Hf. unfold extract_with.
    assert (P := try_spec k fuel cfg j t tl ty v _ Hs Hsh (at_init k _) ltac:(lia)). rewrite Hm in P.
    now rewrite P.
  Qed.
  Lemma observe_junk : forall v' w c r, meaning_with sc cfg ty v j = Ok v' -> pc_noTrailing cfg = true ->
    shape j <> BValue -> tl = w ++ c :: r -> blank w -> is_space c = false -> rejects_with ops cfg k ty v (t ++ tl).
  Proof.
    intros v' w c r Hm Hn Hv E Hw Hc. exists (S (length t)). intros fuel Hf. unfold extract_with.
    assert (P := try_spec k fuel cfg j t tl ty v _ Hs Hsh (at_init k _) ltac:(lia)). rewrite Hm, Hn in P.
    destruct P as (_ & P & _). now rewrite (P w c r Hv E Hw Hc).
  Qed.
  Lemma observe_one : forall v', meaning_with sc cfg ty v j = Ok v' -> pc_noTrailing cfg = true ->
    shape j = BValue -> rejects_with ops cfg k ty v (t ++ tl).
  Proof.
    intros v' Hm Hn Hv. exists (S (length t)). intros fuel Hf. unfold extract_with.
    assert (P := try_spec k fuel cfg j t tl ty v _ Hs Hsh (at_init k _) ltac:(lia)). rewrite Hm, Hn in P.
    destruct P as (_ & _ & P). now rewrite (P Hv).
  Qed.
End Observe.

End Any.

(** The parser for integers. *)
Definition bson_try_spec := try_spec bson_ops bson_sc bson_sim eq_refl bson_str_not_null.
Definition bson_observe_imports := observe_imports bson_ops bson_sc bson_sim eq_refl bson_str_not_null.
Definition bson_observe_whole := observe_whole bson_ops bson_sc bson_sim eq_refl bson_str_not_null.
Definition bson_observe_throw := observe_throw bson_ops bson_sc bson_sim eq_refl bson_str_not_null.
Definition bson_observe_ub := observe_ub bson_ops bson_sc bson_sim eq_refl bson_str_not_null.
Definition bson_observe_junk := observe_junk bson_ops bson_sc bson_sim eq_refl bson_str_not_null.
Definition bson_observe_one := observe_one bson_ops bson_sc bson_sim eq_refl bson_str_not_null.
