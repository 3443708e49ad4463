(** Reading YAML documents: integers, the document of a value, the source after an import. *)
From Coq Require Import ZArith String List Bool Lia ZifyBool.
From Verif Require Import Model.Base Model.Source Model.Number Model.ParserInterface Model.Types Model.Deserializer Model.Importer Model.Serializer
  Model.JsonPrinter Model.Exporter Model.Yaml Model.YamlPrinter Spec.Json Spec.Typed Spec.Import Spec.Denotes Spec.Yaml Spec.YamlOut
  Proofs.TreeM Proofs.NumberP Proofs.JsonPartP Proofs.PrintP Proofs.InterpP Proofs.DenotesP Proofs.BsonRoundP Proofs.YamlP Proofs.YamlSim Proofs.YamlOutP Proofs.YamlDocP.
Import ListNotations.
Open Scope Z_scope.

(** ** Integers *)
Lemma blank_skip : forall b r, blank b -> match r with c :: _ => is_space c = false | [] => True end -> skip_space (b ++ r) = (List.length b, r).
Proof.
  intros b r H Hr. induction H as [|c b Hc H IH]; cbn [app].
  - destruct r as [|c r]; [reflexivity|]. cbn [skip_space]. now rewrite Hr.
  - cbn [skip_space]. replace (is_space c) with true by (unfold is_space; lia). now rewrite IH.
Qed.
Lemma skip_blank : forall s n r, skip_space s = (n, r) -> exists b, blank b /\ s = b ++ r /\ List.length b = n /\ match r with c :: _ => is_space c = false | [] => True end.
Proof.
  induction s as [|c s IH]; intros n r E; cbn [skip_space] in E.
  - injection E as <- <-. exists []. repeat split. constructor.
  - destruct (is_space c) eqn:C.
    + destruct (skip_space s) as [m r'] eqn:E1. injection E as <- <-. destruct (IH m r' eq_refl) as (b & B & -> & <- & R). exists (c :: b). repeat split; auto.
      constructor; [unfold is_space in C; lia|exact B].
    + injection E as <- <-. exists []. repeat split; [constructor|exact C].
Qed.
Lemma span_all : forall ds, Forall digit ds -> span_digits ds = (ds, []).
Proof. intros ds H. rewrite <- (app_nil_r ds) at 1. apply span_digits_app; [exact H|exact I]. Qed.
Lemma span_split : forall s ds r, span_digits s = (ds, r) -> s = ds ++ r /\ Forall digit ds.
Proof.
  induction s as [|c s IH]; intros ds r E; cbn [span_digits] in E; [injection E as <- <-; auto|].
  destruct (is_digit c) eqn:C; [|injection E as <- <-; auto]. destruct (span_digits s) as [d r'] eqn:E1. injection E as <- <-. destruct (IH d r' eq_refl) as [-> F].
  split; [reflexivity|]. constructor; [unfold is_digit in C; unfold digit; lia|exact F].
Qed.

Theorem yaml_int_spec : forall i s w, yaml_integer s w -> yaml_int i s = Ok (i_wrap i (nearest64 (i_signed i) w)).
Proof.
  intros i s w H. unfold yaml_int, strto.
  assert (D : forall ds, digits ds -> exists d0 r, ds = d0 :: r /\ Forall digit ds /\ (d0 =? 45) = false /\ (d0 =? 43) = false /\ is_space d0 = false /\ span_digits ds = (ds, []) /\ 0 <= digits_value 0 ds).
  { intros [|d0 r] [N F]; [congruence|]. exists d0, r. assert (F' := F). inversion F as [|? ? F0 F1]; subst. unfold digit in F0. repeat split; auto; try (unfold is_space; lia); try lia; [now apply span_all|].
    rewrite <- dec_value_digits. now apply dec_value_nonneg. }
  inversion H as [b ds B Hd|b ds B Hd|b ds B Hd]; subst; destruct (D ds Hd) as (d0 & r & -> & F & E1 & E2 & E3 & E4 & E5).
  - rewrite blank_skip by assumption. cbv beta iota. rewrite E1, E2. cbv beta iota. rewrite E4. cbv beta iota zeta. rewrite app_length, Nat.add_0_r, Nat.eqb_refl. rewrite dec_value_digits. f_equal. f_equal.
    unfold nearest64. rewrite Z.abs_eq by exact E5. destruct (i_signed i); [reflexivity|]. match goal with |- context [if ?b then _ else _] => destruct b eqn:L end; [reflexivity|]. rewrite Z.mod_small; [reflexivity|]. lia.
  - rewrite blank_skip by (assumption || reflexivity). cbn [Z.eqb Pos.eqb]. cbv beta iota. rewrite E4. cbv beta iota zeta. rewrite app_length. replace (List.length (43 :: d0 :: r)) with (1 + List.length (d0 :: r))%nat by reflexivity. rewrite <- Nat.add_assoc. rewrite Nat.eqb_refl. rewrite dec_value_digits. f_equal. f_equal.
    unfold nearest64. rewrite Z.abs_eq by exact E5. destruct (i_signed i); [reflexivity|]. match goal with |- context [if ?b then _ else _] => destruct b eqn:L end; [reflexivity|]. rewrite Z.mod_small; [reflexivity|]. lia.
  - rewrite blank_skip by (assumption || reflexivity). cbn [Z.eqb Pos.eqb]. cbv beta iota. rewrite E4. cbv beta iota zeta. rewrite app_length. replace (List.length (45 :: d0 :: r)) with (1 + List.length (d0 :: r))%nat by reflexivity. rewrite <- Nat.add_assoc. rewrite Nat.eqb_refl. rewrite dec_value_digits. f_equal. f_equal.
    unfold nearest64. rewrite Z.abs_opp, Z.abs_eq by exact E5. destruct (i_signed i); reflexivity.
Qed.
Theorem yaml_int_only : forall i s z, yaml_int i s = Ok z -> (s = [] /\ z = 0) \/ exists w, yaml_integer s w.
Proof.
  intros i s z E. unfold yaml_int, strto in E. destruct (skip_space s) as [n0 s1] eqn:Es. destruct (skip_blank s n0 s1 Es) as (b & B & -> & <- & R).
  assert (G : forall (sg : list Z) ds r, s1 = sg ++ ds ++ r -> Nat.eqb (List.length b + List.length sg + List.length ds) (List.length (b ++ s1)) = true -> r = []).
  { intros sg ds r -> L. apply Nat.eqb_eq in L. rewrite !app_length in L. destruct r; [reflexivity|]. cbn in L. lia. }
  destruct s1 as [|c s2].
  - cbn [span_digits] in E. rewrite app_nil_r in *. left. destruct b; [|discriminate E]. cbn in E. split; [reflexivity|]. destruct i; vm_compute in E; congruence.
  - destruct (c =? 45) eqn:C; [|destruct (c =? 43) eqn:C2].
    1,2: assert (c = 45 \/ c = 43) as Hc by lia; destruct (span_digits s2) as [ds r] eqn:Sp; destruct (span_split s2 ds r Sp) as [-> F];
      destruct ds as [|d ds]; [rewrite app_length in E; cbn [List.length] in E; rewrite Nat.add_comm in E; discriminate E|];
      match type of E with context [Nat.eqb ?a ?b] => destruct (Nat.eqb a b) eqn:L; [|discriminate E] end; rewrite (G [c] (d :: ds) r eq_refl L) in *; rewrite app_nil_r; right.
    + exists (- digits_value 0 (d :: ds)). replace c with 45 by lia. constructor; [exact B|split; [discriminate|exact F]].
    + exists (digits_value 0 (d :: ds)). replace c with 43 by lia. constructor; [exact B|split; [discriminate|exact F]].
    + destruct (span_digits (c :: s2)) as [ds r] eqn:Sp. destruct (span_split _ ds r Sp) as [Ec F]. rewrite Ec in *.
      destruct ds as [|d ds]; [cbn [app] in Ec; rewrite <- Ec, app_length in E; cbn [List.length] in E; rewrite Nat.add_comm in E; discriminate E|].
      match type of E with context [Nat.eqb ?a ?b] => destruct (Nat.eqb a b) eqn:L; [|discriminate E] end. rewrite (G [] (d :: ds) r eq_refl L) in *. rewrite app_nil_r. right.
      exists (digits_value 0 (d :: ds)). constructor; [exact B|split; [discriminate|exact F]].
Qed.
Corollary yaml_int_fits : forall i s z, yaml_integer s z -> fits i z -> yaml_int i s = Ok z.
Proof.
  intros i s z H F. rewrite (yaml_int_spec i s z H). f_equal. apply wrap_fits; [exact F|]. unfold nearest64.
  destruct i; unfold fits in F; cbn [i_signed i_bits] in *.
  all: try (rewrite Z.max_r, Z.min_r by lia; rewrite Z.sub_diag; reflexivity).
  all: rewrite Z.abs_eq by lia; match goal with |- context [if ?b then _ else _] => destruct b eqn:L end; [lia|]; rewrite (Z.mod_small z) by lia; rewrite Z.sub_diag; reflexivity.
Qed.
Lemma yaml_dec : forall z, yaml_integer (int_dec z) z.
Proof.
  intros z. destruct (int_dec_literal z) as [ds H|ds H]; destruct (int_part_digits ds H) as [N F].
  - exact (yi_plain [] ds (Forall_nil _) (conj N F)).
  - exact (yi_minus [] ds (Forall_nil _) (conj N F)).
Qed.

(** ** The document of a value *)
(** [ints] reads the texts that [number] allows, and none of them is read as null. *)
Lemma yaml_reads_with : forall ints (number : ity -> Z -> list Z -> Prop), (forall i z a, fits i z -> number i z a -> ints i a = Ok z /\ text_null a = false) ->
  forall m marker t v, yaml_reads_back m marker t v -> forall j, d_val (yaml_sense_with number marker t) v j ->
  i_parse (interp (yaml_sc_with ints) m marker t) (default t) j = Ok v.
Proof.
  intros ints number Hn m marker t v (W & [Sh Va] & Dn & Nn & Un & Ex) j Hj.
  refine (document_read_as (yaml_sc_with ints) m marker number yaml_truth yaml_same yaml_same yaml_nothing yaml_same yaml_null_text _ _ _ _ _ _ t v _ j Hj).
  - exact Hn.
  - intros b a ->. destruct b; split; reflexivity.
  - intros s a ->. split; reflexivity.
  - intros s a ->. split; reflexivity.
  - intros a ->. split; reflexivity.
  - intros n raw ->. reflexivity.
  - unfold fine_as. auto 10.
Qed.
Lemma yaml_number_read : forall i z a, fits i z -> yaml_number i z a -> yaml_int i a = Ok z /\ text_null a = false.
Proof.
  intros i z a Fz ->. split; [apply yaml_int_fits; [apply yaml_dec|exact Fz]|].
  assert (L := int_dec_literal z). unfold text_null. destruct L as [ds H|ds H]; destruct (int_part_digits ds H) as [N F]; destruct ds as [|d ds]; try congruence.
  - inversion F as [|? ? F0 _]; subst. unfold digit in F0. destruct (beq (d :: ds) (bs "null")) eqn:B1; [apply beq_eq in B1; cbv in B1; injection B1; lia|].
    destruct (beq (d :: ds) (bs "~")) eqn:B2; [apply beq_eq in B2; cbv in B2; injection B2; lia|]. reflexivity.
  - destruct (beq (45 :: d :: ds) (bs "null")) eqn:B1; [apply beq_eq in B1; cbv in B1; discriminate B1|].
    destruct (beq (45 :: d :: ds) (bs "~")) eqn:B2; [apply beq_eq in B2; cbv in B2; discriminate B2|]. reflexivity.
Qed.

(** ** The source *)
Fixpoint starved (ns : list nat) (n : nat) : bool :=
  match ns with [] => false | x :: ns => (Nat.ltb 0 x && Nat.eqb n 0) || starved ns (n - x) end.
Lemma starved_spec : forall ns n, starved ns n = true <-> asks_again ns n.
Proof.
  unfold asks_again. induction ns as [|x ns IH]; intros n; cbn [starved]; [split; [discriminate|intros ([|] & ? & ? & E & _); discriminate E]|].
  rewrite orb_true_iff, IH. split.
  - intros [H|(a & y & b & -> & Hy & L)]; [exists [], x, ns; cbn; repeat split; lia|]. exists (x :: a), y, b. cbn [total fold_right] in *. fold (total a). repeat split; [exact Hy|lia].
  - intros ([|z a] & y & b & E & Hy & L); injection E as -> ->; cbn [total fold_right] in *; [left; lia|]. fold (total a) in *. right. exists a, y, b. repeat split; [exact Hy|lia].
Qed.
Lemma reads_failed : forall ns d p e, y_reads ns (mkSrc Strm d p false e) = Ok (mkSrc Strm d p false e).
Proof. induction ns as [|n ns IH]; intros d p e; cbn [y_reads]; [reflexivity|]. unfold y_read, src_read, strm_good. cbn. apply IH. Qed.
Lemma reads_spec : forall ns k d p, (p <= List.length d)%nat -> y_reads ns (mkSrc k d p true false) =
  Ok (mkSrc k d (Nat.min (p + total ns) (List.length d))
        (match k with StrIn => true | Strm => negb (starved ns (List.length d - p)) end)
        (match k with StrIn => false | Strm => starved ns (List.length d - p) end)).
Proof.
  induction ns as [|n ns IH]; intros k d p L; cbn [y_reads total fold_right starved].
  - rewrite Nat.add_0_r, Nat.min_l by lia. destruct k; reflexivity.
  - fold (total ns). unfold y_read, src_read, strm_good, s_size, s_rest. cbn [s_kind s_data s_pos s_good s_eof negb andb].
    assert (Lg : List.length (firstn n (skipn p d)) = Nat.min n (List.length d - p)) by (rewrite firstn_length, skipn_length; reflexivity).
    destruct k.
    + replace (Nat.ltb (List.length d) p) with false by lia. cbn [bind src_ok s_good negb andb]. rewrite Lg. rewrite IH by lia. do 2 f_equal. lia.
    + rewrite Lg. destruct (Nat.ltb (Nat.min n (List.length d - p)) n) eqn:Lt; cbn [bind src_ok s_good negb andb].
      * rewrite Lg. destruct (Nat.ltb 0 (Nat.min n (List.length d - p))) eqn:Gt.
        -- unfold src_clear, set_flags. cbn [s_kind s_data s_pos]. rewrite IH by lia. replace (Nat.ltb 0 n && Nat.eqb (List.length d - p) 0) with false by lia. cbn [orb].
           replace (List.length d - (p + Nat.min n (List.length d - p)))%nat with (List.length d - p - n)%nat by lia.
           replace (Nat.min (p + (n + total ns)) (List.length d)) with (Nat.min (p + Nat.min n (List.length d - p) + total ns) (List.length d)) by lia. reflexivity.
        -- rewrite reads_failed. replace (Nat.ltb 0 n && Nat.eqb (List.length d - p) 0) with true by lia. cbn [orb negb]. do 2 f_equal. lia.
      * rewrite IH by lia. replace (Nat.ltb 0 n && Nat.eqb (List.length d - p) 0) with false by lia. cbn [orb].
        replace (List.length d - (p + Nat.min n (List.length d - p)))%nat with (List.length d - p - n)%nat by lia.
        replace (Nat.min (p + (n + total ns)) (List.length d)) with (Nat.min (p + Nat.min n (List.length d - p) + total ns) (List.length d)) by lia. reflexivity.
Qed.
Lemma total_app : forall a b, total (a ++ b) = (total a + total b)%nat.
Proof. induction a as [|x a IH]; intro b; cbn [app total fold_right]; [reflexivity|]. fold (total (a ++ b)). fold (total a). rewrite IH. lia. Qed.

(** ** A whole import *)
Theorem yaml_imports_with : forall ints fuel cfg ty v j calls n2 rest k d v', wf ty = true -> doc_calls j (calls ++ [(n2, Some YDocEnd)]) -> (size j <= fuel)%nat ->
  pc_noTrailing cfg = false -> yaml_meaning_with ints cfg ty v j = Ok v' ->
  exists s', yaml_extract_with ints fuel cfg ty v (calls ++ (n2, Some YDocEnd) :: rest) (src_init k d) = Returned v' s' /\
    (src_ok s' = false <-> k = Strm /\ asks_again (pieces calls ++ n2) (List.length d)).
Proof.
  intros ints fuel cfg ty v j calls n2 rest k d v' W C HF Nt M.
  assert (R := reads_spec (pieces calls ++ n2) k d O (Nat.le_0_l _)). rewrite Nat.sub_0_r in R. rewrite y_reads_app in R.
  assert (R1 := reads_spec (pieces calls) k d O (Nat.le_0_l _)). fold (src_init k d) in R, R1.
  assert (T := yaml_try_spec ints fuel cfg j calls n2 rest ty v _ _ W C (sane_init k d) R1 HF). rewrite M in T. rewrite Nt in T. unfold check_trailing in T. cbn [andb bind] in T.
  rewrite R1 in R. cbn [bind] in R. rewrite R in T. cbn [bind] in T. unfold yaml_extract_with. rewrite T. eexists. split; [reflexivity|].
  unfold src_ok. cbn [s_good]. rewrite <- starved_spec. destruct k; [split; [discriminate|intros [H _]; discriminate H]|]. destruct (starved (pieces calls ++ n2) _); cbn [negb]; split; [intro X|intros [_ X]|intro X|intros [_ X]]; try discriminate X; auto.
Qed.
Theorem yaml_refuses_with : forall ints fuel cfg ty v j calls n2 rest k d, wf ty = true -> doc_calls j (calls ++ [(n2, Some YDocEnd)]) -> (size j <= fuel)%nat ->
  yaml_meaning_with ints cfg ty v j = Throw ->
  yaml_extract_with ints fuel cfg ty v (calls ++ (n2, Some YDocEnd) :: rest) (src_init k d) = Failed (negb (pc_catch cfg)).
Proof.
  intros ints fuel cfg ty v j calls n2 rest k d W C HF M. destruct (y_reads_sane (pieces calls) _ (sane_init k d)) as (sB & R & _).
  assert (T := yaml_try_spec ints fuel cfg j calls n2 rest ty v _ _ W C (sane_init k d) R HF). rewrite M in T. unfold yaml_extract_with. now rewrite T.
Qed.
(** Everything was delivered before the end of the document: the check for trailing data finds nothing; on a string a
    later request reads behind the text. *)
Theorem yaml_trailing_with : forall ints fuel cfg ty v j calls n2 rest k d v', wf ty = true -> doc_calls j (calls ++ [(n2, Some YDocEnd)]) -> (size j <= fuel)%nat ->
  pc_noTrailing cfg = true -> yaml_meaning_with ints cfg ty v j = Ok v' -> (List.length d <= total (pieces calls))%nat ->
  (n2 = [] -> exists s', yaml_extract_with ints fuel cfg ty v (calls ++ (n2, Some YDocEnd) :: rest) (src_init k d) = Returned v' s') /\
  (n2 <> [] -> k = StrIn -> yaml_extract_with ints fuel cfg ty v (calls ++ (n2, Some YDocEnd) :: rest) (src_init k d) = ImpUB).
Proof.
  intros ints fuel cfg ty v j calls n2 rest k d v' W C HF Nt M L.
  assert (R1 := reads_spec (pieces calls) k d O (Nat.le_0_l _)). rewrite Nat.sub_0_r in R1. rewrite Nat.min_r in R1 by (cbn; lia). fold (src_init k d) in R1.
  assert (T := yaml_try_spec ints fuel cfg j calls n2 rest ty v _ _ W C (sane_init k d) R1 HF). rewrite M in T. rewrite Nt in T.
  assert (Rest : skipn (List.length d) d = []) by apply skipn_all.
  unfold check_trailing, src_ok, src_readChar, strm_good, s_rest in T. cbn [s_kind s_good s_data s_pos s_eof andb] in T. rewrite Rest in T. cbn [skip_space] in T.
  unfold yaml_extract_with. split.
  - intros ->. rewrite T. destruct k; cbn [s_good bind y_reads]; [eauto|]. destruct (starved _ _); cbn [negb andb s_good bind y_reads]; eauto.
  - intros N ->. rewrite T. cbn [andb s_good bind]. destruct n2 as [|n n2]; [congruence|]. cbn [y_reads]. unfold y_read, src_read, src_clear, set_flags, s_size. cbn [s_kind s_data s_pos s_good].
    replace (Nat.ltb (List.length d) (S (List.length d))) with true by lia. reflexivity.
Qed.
Definition yaml_imports := yaml_imports_with yaml_int.
Definition yaml_refuses := yaml_refuses_with yaml_int.
Definition yaml_trailing := yaml_trailing_with yaml_int.

(** ** Writing and reading back *)
Lemma stands_faultless_opt : forall num Int, (forall i z a, Int i z a <-> num i z = Some a) -> forall numf, (forall i z, of_written bad_text (num i z) = numf i z) ->
  forall marker t v j, wf t = true -> shaped t v = true ->
  d_val (yaml_sense_with Int marker t) v j -> all_text utf8_text j -> first_fault_with bad_text numf marker t v = None.
Proof.
  intros num Int HI numf Hn marker t v j W Sh Hj U. destruct (plan_told num Int HI numf Hn marker t W v Sh) as [(_ & D2 & _) _]. unfold first_fault_with. rewrite <- D2. rewrite (proj1 (doc_plan num Int HI marker t v) j Hj). now apply tree_faultless.
Qed.
Lemma stands_faultless_with : forall num numf, (forall i z, of_text bad_text (num i z) = numf i z) -> forall marker t v j, wf t = true -> shaped t v = true ->
  d_val (yaml_sense_with (fun i z a => a = num i z) marker t) v j -> all_text utf8_text j -> first_fault_with bad_text numf marker t v = None.
Proof. intros num numf Hn. exact (stands_faultless_opt (fun i z => Some (num i z)) _ (some_text num) numf Hn). Qed.
Definition stands_faultless := stands_faultless_with (fun _ => int_dec) (fun _ _ => None) numbers_written.
Lemma size_events : forall j, size j = List.length (node_events (node_of j)).
Proof. intro j. unfold size. rewrite <- events_node. now rewrite map_length. Qed.

Theorem yaml_round_opt : forall ints num Int, (forall i z a, Int i z a <-> num i z = Some a) -> forall (Num : ity -> Z -> list Z -> Prop), (forall i z a, fits i z -> Num i z a -> ints i a = Ok z /\ text_null a = false) ->
  forall c o k t v cfg es, o_good o = true -> wf t = true -> shaped t v = true -> pf_marker c = pc_marker cfg -> yaml_reads_back (pc_strict cfg) (pc_marker cfg) t v ->
  (forall j, d_val (yaml_sense_with Int (pc_marker cfg) t) v j -> d_val (yaml_sense_with Num (pc_marker cfg) t) v j) ->
  yaml_events_opt num c o k t v = WDone es -> forall fuel calls rest ki d, map snd calls = map Some es -> (List.length es <= fuel)%nat -> pc_noTrailing cfg = false ->
  exists s', yaml_extract_with ints fuel cfg t (default t) (calls ++ rest) (src_init ki d) = Returned v s' /\ (src_ok s' = false <-> ki = Strm /\ asks_again (pieces calls) (List.length d)).
Proof.
  intros ints num Int HI Num Hn c o k t v cfg es G W Sh Mk B HN E fuel calls rest ki d Cs HF Nt. assert (X := export_runs_opt num Int HI _ (fun _ _ => eq_refl) c o k t v G W Sh).
  destruct (first_fault_with _ _ _ _ _) as [[]|]; try (rewrite E in X; discriminate X). destruct X as (j & Hj & X). rewrite E in X. injection X as ->.
  assert (Sz : (size j <= fuel)%nat) by (rewrite size_events; cbn [List.length] in HF; unfold doc_events in HF; cbn [List.length] in HF; rewrite app_length in HF; lia).
  unfold doc_events in Cs. rewrite app_comm_cons, app_comm_cons in Cs. apply calls_app in Cs as (c1 & c2 & -> & C1 & C2). apply calls_cons in C2 as (n2 & c3 & -> & C3). destruct c3; [|discriminate C3].
  rewrite <- app_assoc. cbn [app]. rewrite Mk in Hj.
  replace (pieces (c1 ++ [(n2, Some YDocEnd)])) with (pieces c1 ++ n2) by (unfold pieces; rewrite flat_map_app; cbn [flat_map fst]; now rewrite app_nil_r).
  apply (yaml_imports_with ints fuel cfg t (default t) j c1 n2 rest ki d v W); auto.
  - unfold doc_calls. rewrite map_app, C1. cbn [map snd doc_events]. now rewrite !map_app.
  - apply (yaml_reads_with ints Num Hn); [assumption|]. now apply HN.
Qed.
Theorem yaml_round_with : forall ints num numf, (forall i z, of_text bad_text (num i z) = numf i z) -> forall (Num : ity -> Z -> list Z -> Prop), (forall i z a, fits i z -> Num i z a -> ints i a = Ok z /\ text_null a = false) ->
  forall c o k t v cfg es, o_good o = true -> wf t = true -> shaped t v = true -> pf_marker c = pc_marker cfg -> yaml_reads_back (pc_strict cfg) (pc_marker cfg) t v ->
  (forall j, d_val (yaml_sense_with (fun i z a => a = num i z) (pc_marker cfg) t) v j -> d_val (yaml_sense_with Num (pc_marker cfg) t) v j) ->
  yaml_events_with num c o k t v = WDone es -> forall fuel calls rest ki d, map snd calls = map Some es -> (List.length es <= fuel)%nat -> pc_noTrailing cfg = false ->
  exists s', yaml_extract_with ints fuel cfg t (default t) (calls ++ rest) (src_init ki d) = Returned v s' /\ (src_ok s' = false <-> ki = Strm /\ asks_again (pieces calls) (List.length d)).
Proof. intros ints num numf _ Num Hn. exact (yaml_round_opt ints (fun i z => Some (num i z)) _ (some_text num) Num Hn). Qed.
Corollary yaml_round : forall c o k t v cfg es, o_good o = true -> wf t = true -> shaped t v = true -> pf_marker c = pc_marker cfg -> yaml_reads_back (pc_strict cfg) (pc_marker cfg) t v ->
  yaml_events c o k t v = WDone es -> forall fuel calls rest ki d, map snd calls = map Some es -> (List.length es <= fuel)%nat -> pc_noTrailing cfg = false ->
  exists s', yaml_extract fuel cfg t (default t) (calls ++ rest) (src_init ki d) = Returned v s' /\ (src_ok s' = false <-> ki = Strm /\ asks_again (pieces calls) (List.length d)).
Proof.
  intros c o k t v cfg es G W Sh Mk B E. exact (yaml_round_with yaml_int (fun _ => int_dec) (fun _ _ => None) numbers_written yaml_number yaml_number_read c o k t v cfg es G W Sh Mk B (fun j H => H) E).
Qed.
