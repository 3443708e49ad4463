(** C85: several documents in one stream.

    [json_each fuel cfg l s], [bson_each fuel cfg l s]: importing one value after another from the stream [s] into the variables [l]
    (types and old values); [Some (vs, s')]: all imports succeed and give [vs] (Model/Sequence.v).
    [json_docs], [bson_docs]: Spec/Sequence.v. *)
From Coq Require Import ZArith String List Bool Lia ZifyBool.
From Verif Require Import Model.Base Model.Source Model.Number Model.ParserInterface
  Model.Types Model.Importer Model.Printer Model.JsonPrinter Model.Serializer Model.Exporter Model.BsonPrinter Model.BsonDoc Model.Sequence
  Spec.JsonString Spec.Json Spec.Typed Spec.Import Spec.Denotes Spec.Sizes Spec.Bson Spec.BsonDenotes Spec.Sequence
  Proofs.Tac Proofs.UnicodeP Proofs.LexP Proofs.TypedP Proofs.Induct Proofs.TreeM Proofs.DefinedP Proofs.ImportP Proofs.JsonPartP Proofs.MemberDocP Proofs.DenotesP Proofs.ExportP Proofs.BinaryP Proofs.BsonSim
  Proofs.BsonImportP Proofs.BsonExportP Proofs.BsonRoundP Proofs.BsonCheck Proofs.JsonCheck
  Properties.Imports Properties.Exports Properties.Bson.
Import ListNotations.
Open Scope Z_scope.

(** A number ends in a digit. *)
Lemma digits_end : forall l, l <> [] -> Forall digit l -> exists a d, l = a ++ [d] /\ digit d.
Proof.
  intros l N F. destruct (exists_last N) as (a & d & ->). exists a, d. split; [reflexivity|]. apply Forall_app in F as [_ F]. now inversion F.
Qed.
Lemma ends_app : forall x l : list Z, (exists a d, l = a ++ [d] /\ digit d) -> exists a d, x ++ l = a ++ [d] /\ digit d.
Proof. intros x l (a & d & -> & H). exists (x ++ a), d. split; [now rewrite app_assoc|exact H]. Qed.
Lemma number_end : forall t, number t -> exists a d, t = a ++ [d] /\ digit d.
Proof.
  intros t [s i f e Hs Hi Hf He]. apply ends_app.
  assert (I : exists a d, i = a ++ [d] /\ digit d).
  { apply digits_end; destruct Hi as [|c r Hc Hr]; try discriminate; constructor; try assumption; unfold digit in *; try lia. constructor. }
  destruct He as [|e l _ [N F]|e sg l _ _ [N F]].
  - rewrite app_nil_r. destruct Hf as [|l [N F]]; [now rewrite app_nil_r|]. apply ends_app. apply (ends_app [46]). now apply digits_end.
  - apply ends_app, ends_app. apply (ends_app [e]). now apply digits_end.
  - apply ends_app, ends_app. apply (ends_app [e; sg]). now apply digits_end.
Qed.
Lemma apart_ends : forall j w1 t w2 text, spells j t -> ws w2 -> apart (w1 ++ t ++ w2) text -> ends_before j (w2 ++ text).
Proof.
  intros j w1 t w2 text Sp W2 Ap. destruct Sp as [sc t St| | | |]; try exact Logic.I. destruct St as [t Nt| | | |]; try exact Logic.I. cbn [ends_before].
  destruct W2 as [|c w2 Hc Hw2].
  - apply Ap. rewrite app_nil_r. apply ends_app. now apply number_end.
  - right. exists c, (w2 ++ text). split; [reflexivity|now left].
Qed.

Lemma json_step : forall cfg fuel t v j doc v' w text s, pc_noTrailing cfg = false -> document j doc -> meaning cfg Strm t v j = Ok v' -> apart doc text ->
  ws w -> at_src Strm s (w ++ doc ++ text) -> (List.length (w ++ doc ++ text) < fuel)%nat ->
  exists s1 w1, json_extract fuel cfg t v s = Returned v' s1 /\ src_ok s1 = true /\ ws w1 /\ at_src Strm s1 (w1 ++ text) /\ (List.length (w1 ++ text) < fuel)%nat.
Proof.
  intros cfg fuel t v j doc v' w text s Hn D M Ap Hw At Hf. destruct D as [j w1 tx w2 Hw1 Sp Hw2].
  assert (E := apart_ends j w1 tx w2 text Sp Hw2 Ap).
  assert (Eq : w ++ (w1 ++ tx ++ w2) ++ text = (w ++ w1) ++ tx ++ (w2 ++ text)) by (now rewrite <- !app_assoc). rewrite Eq in At, Hf.
  assert (P := json_try_spec Strm fuel cfg j (w ++ w1) tx (w2 ++ text) t v s Sp ltac:(apply Forall_app; auto) E At Hf). rewrite M, Hn in P.
  destruct P as (s1 & P & At1). exists s1, w2. unfold json_extract. rewrite P. split; [reflexivity|]. destruct (at_ok_rest _ _ _ At1) as [O _].
  split; [exact O|]. split; [exact Hw2|]. split; [exact At1|]. rewrite !app_length in *. lia.
Qed.

(** ** C85.  Full claim: documents that are accepted one by one are read one after another from one stream, which is then in
    front of what follows them.  Proved for documents in which everything that is skipped can be skipped exactly (see C12, C13). *)
Theorem C85_json_partial : forall cfg l vs text rest, pc_noTrailing cfg = false -> json_docs cfg l vs text rest ->
  exists N, forall fuel, (N <= fuel)%nat -> exists s w, json_each fuel cfg l (src_init Strm text) = Some (vs, s) /\ src_ok s = true /\ ws w /\ s_rest s = w ++ rest.
Proof.
  intros cfg l vs text rest Hn H. exists (S (List.length text)). intros fuel Hf.
  assert (G : forall w s, ws w -> at_src Strm s (w ++ text) -> (List.length (w ++ text) < fuel)%nat ->
    exists s' w', json_each fuel cfg l s = Some (vs, s') /\ ws w' /\ at_src Strm s' (w' ++ rest)).
  { clear Hf. induction H as [rest|t v j doc v' l vs text rest W Sh D X A Ap H IH]; intros w s Hw At Hf; [exists s, w; auto|].
    assert (M := doc_meaning cfg Strm t v j doc v' W Sh D X A).
    destruct (json_step cfg fuel t v j doc v' w text s Hn D M Ap Hw At Hf) as (s1 & w1 & P & O & Hw1 & At1 & Hf1).
    destruct (IH w1 s1 Hw1 At1 Hf1) as (s2 & w' & I1 & I2 & I3).
    exists s2, w'. split; [|auto]. unfold json_each in *. cbn [in_turn]. now rewrite P, O, I1. }
  destruct (G [] (src_init Strm text) ltac:(constructor) (at_init Strm text) Hf) as (s & w & E & Hw & At).
  exists s, w. split; [exact E|]. destruct (at_ok_rest _ _ _ At) as [O R]. auto.
Qed.
Print Assumptions C85_json_partial.
(** What was written, each value followed by white space, is read back.  [conds]: the conditions of C26. *)
Definition json_written (c : fconfig) (m : strictness) (tv : ty * val) (out : list Z) : Prop :=
  let '(t, v) := tv in reads_back m (pf_marker c) t v /\ plain_keys t v /\ plain_names t /\ indent_ok c v /\ json_export c ToStream t v = Exported out.
Definition spaced (space : list Z) (outs : list (list Z)) : list Z := List.concat (List.map (fun out => out ++ space) outs).
Definition fresh (l : list (ty * val)) : list (ty * val) := List.map (fun '(t, _) => (t, default t)) l.
Theorem C85_round_trip_partial : forall c cfg l outs space, pc_noTrailing cfg = false -> pc_conv cfg = true -> pc_marker cfg = pf_marker c -> plain_name (pf_marker c) ->
  ws space -> space <> [] -> Forall2 (json_written c (pc_strict cfg)) l outs ->
  exists N, forall fuel, (N <= fuel)%nat -> exists s, json_each fuel cfg (fresh l) (src_init Strm (spaced space outs)) = Some (List.map snd l, s) /\ src_ok s = true.
Proof.
  intros c cfg l outs space Hn Hc Hm Mk Hw Hne H. exists (S (List.length (spaced space outs))). intros fuel Hf.
  assert (G : forall w s, ws w -> at_src Strm s (w ++ spaced space outs) -> (List.length (w ++ spaced space outs) < fuel)%nat ->
    exists s', json_each fuel cfg (fresh l) s = Some (List.map snd l, s') /\ src_ok s' = true).
  { clear Hf. induction H as [|[t v] out l outs (B & K & Nm & R & E) H IH]; intros w s Hws At Hf.
    - exists s. split; [reflexivity|]. exact (proj1 (at_ok_rest _ _ _ At)).
    - destruct (C20_document_partial c ToStream t v (proj1 B) (proj1 (proj2 B)) K Nm Mk R out E) as (j & D & Hj).
      assert (M : meaning cfg Strm t (default t) j = Ok v).
      { unfold meaning. rewrite Hc, Hm. rewrite <- Hm in *. destruct B as (W & [Sh Va] & Dn & Nn & Un & Ex). apply json_reads; [|exact Hj]. unfold fine. auto 10. }
      unfold spaced in At, Hf. cbn [List.map List.concat] in At, Hf. fold (spaced space outs) in At, Hf. rewrite <- app_assoc in At, Hf.
      assert (Ap : apart out (space ++ spaced space outs)).
      { intros _. right. destruct space as [|x r]; [congruence|]. exists x. eexists. split; [reflexivity|left]. now inversion Hw. }
      destruct (json_step cfg fuel t (default t) j out v w _ s Hn D M Ap Hws At Hf) as (s1 & w1 & P & O & Hw1 & At1 & Hf1).
      rewrite app_assoc in At1, Hf1. destruct (IH (w1 ++ space) s1 ltac:(apply Forall_app; auto) At1 Hf1) as (s2 & I1 & I2).
      exists s2. split; [|exact I2]. unfold json_each, fresh in *. cbn [List.map in_turn snd]. now rewrite P, O, I1. }
  exact (G [] (src_init Strm (spaced space outs)) ltac:(constructor) (at_init Strm _) Hf).
Qed.
Print Assumptions C85_round_trip_partial.
(** Without white space between them two numbers are read as one, and the second import fails. *)
Theorem C85_numbers_refuted : exists l outs, Forall2 (json_written pf_default Weak) l outs /\
  (exists N, forall fuel, (N <= fuel)%nat -> json_each fuel pc_default (fresh l) (src_init Strm (List.concat outs)) = None) /\
  exists v, v <> List.hd (VBool true) (List.map snd l) /\ imports pc_default Strm (TInt IInt) (VInt 0) (List.concat outs) v [].
Proof.
  exists [(TInt IInt, VInt 1); (TInt IInt, VInt 2)], [bs "1"; bs "2"]. split.
  - constructor; [|constructor; [|constructor]]; (split; [unfold reads_back; split; [reflexivity|]; split; [split; [reflexivity|]; cbn -[fits]; conds|];
      split; [unfold distinct_names; cbn; conds|]; split; [unfold no_null_target; cbn; conds|]; split; [reflexivity|discriminate]|];
      split; [unfold plain_keys; cbn; conds|]; split; [unfold plain_names; cbn; conds|]; split; [intros _; left; reflexivity|vm_compute; reflexivity]).
  - split.
    + fuels 30%nat. vm_compute. reflexivity.
    + exists (VInt 12). split; [discriminate|]. fuels 30%nat. eexists. split; [vm_compute; reflexivity|split; reflexivity].
Qed.
Print Assumptions C85_numbers_refuted.
Example C85_json_example : json_docs pc_default [(ty_point, point 0 []); (TVec (TInt IInt), VList [VInt 9])] [point 3 (bs "b"); VList [VInt 9; VInt 1]]
  (bs "{""x"":3,""y"":""b"",""z"":[true]} [1] rest") (bs " rest").
Proof.
  change (bs "{""x"":3,""y"":""b"",""z"":[true]} [1] rest") with (bs "{""x"":3,""y"":""b"",""z"":[true]}" ++ (bs " [1]" ++ bs " rest")).
  eapply jd_cons; [reflexivity|reflexivity|doc|safe|eapply doc_imports; [doc|vm_compute; reflexivity]| |].
  - intros (a & d & E & H). apply (f_equal (@rev Z)) in E. rewrite rev_app_distr in E. vm_compute in E. injection E as E _. subst d. unfold digit in H. lia.
  - eapply jd_cons; [reflexivity|reflexivity|doc|safe|eapply doc_imports; [doc|vm_compute; reflexivity]| |constructor].
    intros _. right. exists 32, (bs "rest"). split; [reflexivity|]. left. now left.
Qed.
Lemma skippable_bson : forall j, skippable bson_sc j = true.
Proof.
  apply tree_ind'; [reflexivity| |]; intros l H; cbn [skippable]; apply forallb_forall.
  - intros x Hx. rewrite Forall_forall in H. now apply H.
  - intros x Hx. rewrite Forall_forall in H. cbn [sc_kskip bson_sc andb]. now apply H.
Qed.
Lemma bson_known : forall cfg t v j, wf t = true -> shaped t v = true -> bson_meaning cfg t v j <> Hang.
Proof.
  intros cfg t v j W S. unfold bson_meaning, meaning_with. apply meaning_known; auto.
  - intros i []; discriminate.
  - intros []; discriminate.
  - intros []; discriminate.
  - discriminate.
  - intros _ jk _. apply skippable_bson.
Qed.
Theorem C85_bson : forall cfg l vs text rest, pc_noTrailing cfg = false -> bson_docs cfg l vs text rest ->
  exists N, forall fuel, (N <= fuel)%nat -> exists s, bson_each fuel cfg l (src_init Strm text) = Some (vs, s) /\ src_ok s = true /\ s_rest s = rest.
Proof.
  intros cfg l vs text rest Hn H. exists (S (List.length text)). intros fuel Hf.
  assert (G : forall s, at_src Strm s text -> exists s', bson_each fuel cfg l s = Some (vs, s') /\ at_src Strm s' rest).
  { induction H as [rest|t v j doc v' l vs text rest W Sh D Rt A H IH]; intros s At; [exists s; auto|]. rewrite app_length in Hf.
    assert (Hsh : bson_root t = shape j) by (unfold root_of in Rt; destruct (bson_root t), j; try contradiction; reflexivity).
    assert (M : bson_meaning cfg t v j = Ok v').
    { destruct (bson_meaning cfg t v j) as [v1| | |] eqn:E; [| | |now apply bson_known in E].
      - f_equal. assert (Q := bson_observe_imports cfg Strm j doc [] t v D Hsh v1 E Hn). rewrite app_nil_r in Q.
        destruct A as [N1 A], Q as [N2 Q]. destruct (A (N1 + N2)%nat ltac:(lia)) as (s1 & E1 & _), (Q (N1 + N2)%nat ltac:(lia)) as (s2 & E2 & _). congruence.
      - exfalso. assert (P := fun f L => bson_try_spec Strm f cfg j doc [] t v (src_init Strm doc) D Hsh ltac:(rewrite app_nil_r; apply at_init) L).
        fold (bson_meaning cfg t v j) in P. rewrite E in P. destruct A as [N1 A]. destruct (A (N1 + S (List.length doc))%nat ltac:(lia)) as (s1 & E1 & _).
        unfold extract_with in E1. rewrite P in E1 by lia. discriminate E1.
      - exfalso. assert (P := fun f L => bson_try_spec Strm f cfg j doc [] t v (src_init Strm doc) D Hsh ltac:(rewrite app_nil_r; apply at_init) L).
        fold (bson_meaning cfg t v j) in P. rewrite E in P. destruct A as [N1 A]. destruct (A (N1 + S (List.length doc))%nat ltac:(lia)) as (s1 & E1 & _).
        unfold extract_with in E1. rewrite P in E1 by lia. discriminate E1. }
    assert (P := bson_try_spec Strm fuel cfg j doc text t v s D Hsh At ltac:(lia)).
    fold (bson_meaning cfg t v j) in P. rewrite M, Hn in P. destruct P as (s1 & P & At1). destruct (IH ltac:(lia) s1 At1) as (s2 & I1 & I2).
    exists s2. split; [|exact I2]. unfold bson_each in *. cbn [in_turn]. unfold bson_extract at 1, extract_with. rewrite P. destruct (at_ok_rest _ _ _ At1) as [-> _]. now rewrite I1. }
  destruct (G (src_init Strm text) (at_init Strm text)) as (s & E & At).
  exists s. split; [exact E|]. exact (at_ok_rest _ _ _ At).
Qed.
Print Assumptions C85_bson.
Definition bson_written (c : fconfig) (m : strictness) (tv : ty * val) (out : list Z) : Prop :=
  let '(t, v) := tv in reads_back m (pf_marker c) t v /\ bson_type t /\ bson_text t v /\ marker_framed (AsValue false) t = true /\
  bson_rootable t = true /\ null_written t v = false /\ len out < 2 ^ 31 /\ exists n, bson_export c ToStream false None t v = BExported out n.
Theorem C85_bson_round_trip_partial : forall c cfg l outs, pc_noTrailing cfg = false -> pc_marker cfg = pf_marker c -> nul_free (pf_marker c) ->
  Forall2 (bson_written c (pc_strict cfg)) l outs ->
  exists N, forall fuel, (N <= fuel)%nat -> exists s, bson_each fuel cfg (fresh l) (src_init Strm (List.concat outs)) = Some (List.map snd l, s) /\ src_ok s = true.
Proof.
  intros c cfg l outs Hn Hm Mk H. assert (B : bson_docs cfg (fresh l) (List.map snd l) (List.concat outs ++ []) []).
  { induction H as [|[t v] out l outs (B & T & V & M & R & Nw & L & n & E) H IH]; [constructor|]. cbn [List.map fresh List.concat snd]. rewrite <- app_assoc.
    destruct (exported_doc _ _ _ _ _ _ _ _ E) as (j & Hj).
    destruct (bson_export_document None (pf_marker c) ltac:(discriminate) Mk t v j (proj1 B) T V M R Nw Hj c ToStream eq_refl) as (o & m & j' & E' & A & Sh & D & _).
    rewrite E in E'. injection E' as <- <-. cbn [written] in A. subst j'. specialize (D L).
    apply (bd_cons cfg t (default t) j); [exact (proj1 B)|apply default_shaped; exact (proj1 B)|now apply document_any in D| | |exact IH].
    - unfold root_of. rewrite Sh. now destruct j.
    - assert (Q := proj1 (C41_round_trip_partial c ToStream cfg Strm t v out n Hm B T V M R Nw Mk E L) Hn []). now rewrite app_nil_r in Q. }
  rewrite app_nil_r in B. destruct (C85_bson _ _ _ _ _ Hn B) as (N & G). exists N. intros fuel Hf. destruct (G fuel Hf) as (s & E & O & _). eauto.
Qed.
Print Assumptions C85_bson_round_trip_partial.
Example C85_bson_example : exists a b, Forall2 (bson_written pf_default Weak) [(ty_bson, val_bson (Some (VBool true))); (TInt IInt, VInt 5)] [a; b] /\ List.length b = 12%nat /\
  exists N, forall fuel, (N <= fuel)%nat -> exists s,
    bson_each fuel pc_default [(ty_bson, default ty_bson); (TInt IInt, VInt 0)] (src_init Strm (a ++ b ++ [])) = Some ([val_bson (Some (VBool true)); VInt 5], s) /\ src_ok s = true.
Proof.
  assert (E : exists out, bson_export pf_default ToStream false None ty_bson (val_bson (Some (VBool true))) = BExported out 0 /\ len out < 2 ^ 31).
  { eexists; (split; [vm_compute; reflexivity|vm_compute; reflexivity]). }
  destruct E as (a & E & L). destruct (bson_conditions _ (or_intror eq_refl)) as (W & T & V & M & R & N & Mk).
  exists a. eexists. assert (F : Forall2 (bson_written pf_default Weak) [(ty_bson, val_bson (Some (VBool true))); (TInt IInt, VInt 5)] [a; [12; 0; 0; 0; 16; 48; 0; 5; 0; 0; 0; 0]]).
  { constructor; [|constructor; [|constructor]].
    - split; [|split; [exact T|split; [exact V|split; [exact M|split; [exact R|split; [exact N|split; [exact L|exists O; exact E]]]]]]].
      unfold reads_back. split; [exact W|]. split; [split; [reflexivity|]; cbn -[fits bytes_in]; conds|]. split; [unfold distinct_names; cbn -[fits]; conds|].
      split; [unfold no_null_target; cbn; conds|]. split; [intro Q; now destruct Q|discriminate].
    - split; [|split; [unfold bson_type; cbn; conds|split; [unfold bson_text; cbn; conds|split; [reflexivity|split; [reflexivity|split; [reflexivity|split; [vm_compute; reflexivity|exists O; vm_compute; reflexivity]]]]]]].
      unfold reads_back. split; [reflexivity|]. split; [split; [reflexivity|]; cbn -[fits]; conds|]. split; [unfold distinct_names; cbn -[fits]; conds|].
      split; [unfold no_null_target; cbn; conds|]. split; [intro Q; now destruct Q|discriminate]. }
  split; [exact F|]. split; [reflexivity|]. exact (C85_bson_round_trip_partial pf_default pc_default _ _ eq_refl eq_refl Mk F).
Qed.
