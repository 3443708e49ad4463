(** Parts of JSON documents: from the words of the statements to the meaning of trees. *)
From Coq Require Import ZArith String List Bool Lia ZifyBool.
From Verif Require Import Model.Base Model.Source Model.Unicode Model.Number Model.JsonLexer Model.ParserInterface
  Model.JsonParser Model.Types Model.Deserializer Model.Importer
  Spec.JsonString Spec.Json Spec.Typed Spec.Import Proofs.UnicodeP Proofs.LexP Proofs.NumberP Proofs.Sim Proofs.TreeM
  Proofs.JsonSim Proofs.ImportP Proofs.Induct Proofs.TypedP Proofs.InterpP Proofs.PartP Proofs.DefinedP.
Import ListNotations.
Open Scope Z_scope.

(** ** Scalars *)
Section Scalars.
  Variables (k : skind) (conv : bool).
  Notation sc := (json_sc k conv).

  Lemma names_key : forall raw n, names conv raw n -> sc_key sc raw = Ok n.
  Proof. intros raw n H. unfold names in H. cbn. destruct conv; [now apply dec_complete|now subst]. Qed.
  Lemma str_is_str : forall a c, str_is conv a c -> sc_str sc a = Ok c.
  Proof. intros [] c H; try contradiction. exact (names_key raw c H). Qed.
  Lemma null_same : forall a, sc_null sc a = null_is a.
  Proof. intros []; reflexivity. Qed.
  Lemma names_unique : forall raw n n', names conv raw n -> names conv raw n' -> n = n'.
  Proof. intros raw n n' H1 H2. apply names_key in H1, H2. congruence. Qed.
  Lemma dec_total : forall raw, dec raw <> Hang /\ dec raw <> UB.
  Proof. intro raw. destruct (dec_cases (List.length raw) raw (le_n _)) as [[v ->]| ->]; split; discriminate. Qed.
  Lemma int_of_hang : forall i t, int_of k i t <> Hang.
  Proof.
    intros i t. unfold int_of. destruct (match t with c :: r => _ | [] => _ end) as [neg body]. destruct (span_digits body) as [ds tl].
    destruct tl; [|discriminate]. destruct k; [|discriminate]. destruct (neg && negb (i_signed i)); [discriminate|].
    destruct (i_in i _); discriminate.
  Qed.
  Lemma json_no_hang : (forall i a, sc_int sc i a <> Hang) /\ (forall a, sc_bool sc a <> Hang) /\ (forall a, sc_str sc a <> Hang) /\
    (forall key, sc_key sc key <> Hang) /\ (forall a, sc_null sc a = true -> sc_skip sc a = true).
  Proof.
    repeat split; cbn.
    - intros i [] ; try discriminate. apply int_of_hang.
    - intros []; discriminate.
    - intros []; try discriminate. destruct conv; [apply dec_total|discriminate].
    - intro key. destruct conv; [apply dec_total|discriminate].
    - intros []; discriminate || reflexivity.
  Qed.
  Lemma json_no_ub : (forall a, sc_bool sc a <> UB) /\ (forall a, sc_str sc a <> UB) /\ (forall key, sc_key sc key <> UB).
  Proof.
    repeat split; cbn.
    - intros []; discriminate.
    - intros []; try discriminate. destruct conv; [apply dec_total|discriminate].
    - intro key. destruct conv; [apply dec_total|discriminate].
  Qed.
  Lemma safe_skip_ok : forall raw, skip_safe k raw -> skip_ok k raw = true.
  Proof.
    intros raw [H1 H2]. unfold skip_ok. apply andb_true_intro. split.
    - destruct raw as [|c r] using rev_ind; [reflexivity|]. rewrite last_last. destruct (c =? 92) eqn:E; [|reflexivity].
      exfalso. apply (H1 r). f_equal. f_equal. lia.
    - destruct k; [|reflexivity]. apply forallb_forall. intros c Hc. destruct (c =? 255) eqn:E; [|reflexivity].
      exfalso. apply (H2 eq_refl). assert (c = 255) by lia. now subst.
  Qed.
  Lemma safe_skippable : forall j, strings (skip_safe k) j -> skippable sc j = true.
  Proof.
    apply (tree_ind' (fun j => strings (skip_safe k) j -> skippable sc j = true)).
    - intros a H. inversion H; subst. destruct a; try reflexivity. cbn. now apply safe_skip_ok.
    - intros l IH H. inversion H as [|? G|]; subst. cbn [skippable]. apply forallb_forall. intros j Hj.
      rewrite Forall_forall in IH. apply IH; [exact Hj|]. now apply G.
    - intros l IH H. inversion H as [| |? G]; subst. cbn [skippable]. apply forallb_forall. intros [key j] Hj. cbn [fst snd].
      destruct (G key j Hj) as [G1 G2]. rewrite Forall_forall in IH. apply andb_true_intro. split.
      + cbn. now apply safe_skip_ok.
      + exact (IH (key, j) Hj G2).
  Qed.
End Scalars.

(** ** Integer literals *)
Lemma dec_value_digits : forall ds, dec_value ds = digits_value 0 ds.
Proof. intro ds. unfold dec_value. generalize 0. induction ds as [|d r IH]; intro a; cbn; auto. Qed.
Lemma fits_in : forall i z, fits i z <-> i_in i z = true.
Proof. intros [] z; unfold fits, i_in, i_min, i_max; cbn [i_signed i_bits]; lia. Qed.
Lemma int_literal_of : forall k i t z, int_literal t z -> int_of k i t =
  match k with
  | StrIn => if (match t with c :: _ => c =? 45 | [] => false end) && negb (i_signed i) then Throw
             else if i_in i z then Ok z else UB
  | Strm => Ok (stream_int i (match t with c :: _ => c =? 45 | [] => false end) (Z.abs z))
  end.
Proof.
  intros k i t z H. destruct H as [ds H|ds H].
  - assert (E := int_of_split k i [] ds [] sg_none H (or_introl eq_refl)). rewrite app_nil_r in E. cbn [app] in E. rewrite E.
    destruct (int_part_digits ds H) as [_ Hd]. assert (N := dec_value_nonneg ds Hd).
    destruct ds as [|c r]; [inversion H|]. inversion Hd as [|? ? Hc _]; subst. unfold digit in Hc.
    destruct (c =? 45) eqn:E1; [lia|]. rewrite dec_value_digits in *. destruct k; cbn [andb negb]; [reflexivity|].
    now rewrite Z.abs_eq.
  - assert (E := int_of_split k i [45] ds [] sg_minus H (or_introl eq_refl)). rewrite app_nil_r in E. cbn [app] in E. rewrite E.
    destruct (int_part_digits ds H) as [_ Hd]. assert (N := dec_value_nonneg ds Hd). rewrite dec_value_digits in *.
    change (45 =? 45) with true. destruct k; [reflexivity|]. rewrite Z.abs_opp, Z.abs_eq by exact N. reflexivity.
Qed.
(** A number is an integer literal or has a fraction or an exponent. *)
Lemma number_cases : forall t, number t -> (exists z, int_literal t z) \/ (forall k i, int_of k i t = Throw).
Proof.
  intros t H. destruct (number_split t H) as (sg & ip & tl & -> & Hs & Hi & _ & Ht). destruct Ht as [->|(c & r & -> & Hc)].
  - left. rewrite app_nil_r. destruct Hs; cbn [app]; eexists; constructor; exact Hi.
  - right. intros k i. rewrite (int_of_split k i sg ip (c :: r) Hs Hi) by eauto. reflexivity.
Qed.
Lemma int_literal_unique : forall t z z', int_literal t z -> int_literal t z' -> z = z'.
Proof.
  intros t z z' H1 H2. destruct H1 as [ds H1|ds H1]; inversion H2; subst; try reflexivity.
  - inversion H1; subst; lia.
  - inversion H; subst; lia.
Qed.
(** A literal that fits is read as its value, from both kinds of source. *)
Lemma i_pow : forall i, 0 < 2 ^ i_bits i /\ 2 ^ i_bits i = 2 * 2 ^ (i_bits i - 1) /\ 0 < 2 ^ (i_bits i - 1).
Proof. intros []; cbn [i_bits]; lia. Qed.
Lemma stream_int_fits : forall i z, fits i z -> stream_int i (z <? 0) (Z.abs z) = z.
Proof.
  intros i z H. destruct (i_pow i) as (P1 & P2 & P3). unfold fits in H. unfold stream_int, u_max, i_wrap.
  destruct (i_signed i) eqn:S; cbn [andb].
  - destruct (2 ^ i_bits i - 1 <? Z.abs z) eqn:E; [lia|]. destruct (z <? 0) eqn:Ez.
    + replace (- Z.abs z) with z by lia.
      replace (z mod 2 ^ i_bits i) with (z + 2 ^ i_bits i).
      2:{ symmetry. rewrite <- (Z_mod_plus_full z 1 (2 ^ i_bits i)). replace (z + 1 * 2 ^ i_bits i) with (z + 2 ^ i_bits i) by lia. apply Z.mod_small. lia. }
      destruct (2 ^ (i_bits i - 1) <=? z + 2 ^ i_bits i) eqn:E2; lia.
    + replace (Z.abs z) with z by lia. rewrite Z.mod_small by lia. destruct (2 ^ (i_bits i - 1) <=? z) eqn:E2; lia.
  - destruct (2 ^ i_bits i - 1 <? Z.abs z) eqn:E; [lia|]. destruct (z <? 0) eqn:Ez; lia.
Qed.
Lemma stream_int_zero : forall i b, stream_int i b 0 = 0.
Proof. intros [] []; reflexivity. Qed.

(** ** Parts *)
Section Parts.
  Variables (cfg : pconfig) (k : skind).
  Notation sc := (json_sc k (pc_conv cfg)).
  Notation kd := (fun key n => sc_key sc key = Ok n).
  Notation sd := (fun a c => sc_str sc a = Ok c).

  Lemma null_ext : forall t j t' j', part (names (pc_conv cfg)) (str_is (pc_conv cfg)) null_is (pc_marker cfg) t j t' j' ->
    part (names (pc_conv cfg)) (str_is (pc_conv cfg)) (sc_null sc) (pc_marker cfg) t j t' j'.
  Proof.
    induction 1; econstructor; eauto.
  Qed.
  Lemma null_ext' : forall kd sd mk t j t' j', part kd sd (sc_null sc) mk t j t' j' -> part kd sd null_is mk t j t' j'.
  Proof.
    induction 1; econstructor; eauto.
  Qed.
  Lemma inside_ext : forall (R : ty -> jv -> jv -> Prop) t j j', jinside cfg R t j j' ->
    inside (names (pc_conv cfg)) (str_is (pc_conv cfg)) (sc_null sc) (pc_marker cfg) R t j j'.
  Proof.
    induction 1; [apply is_here|apply is_vec|apply is_arr|eapply is_tup|apply is_map|apply is_ptr|apply is_opt|eapply is_member|eapply is_poly|eapply is_variant]; eauto.
  Qed.
  Lemma readable_keys : forall j, readable (pc_conv cfg) j ->
    tree_all (fun key => forall n, sc_key sc key = Ok n -> names (pc_conv cfg) key n)
      (fun a => forall c, sc_str sc a = Ok c -> str_is (pc_conv cfg) a c) j.
  Proof.
    assert (K : forall raw, (exists n, names (pc_conv cfg) raw n) -> forall n, sc_key sc raw = Ok n -> names (pc_conv cfg) raw n).
    { intros raw [n' Hn] n E. assert (E' := names_key k _ _ _ Hn). rewrite E in E'. injection E' as ->. exact Hn. }
    refine (tree_ind' _ _ _ _).
    - intros a H. inversion H; subst. constructor. intros c E. destruct a; try discriminate E. exact (K raw H1 c E).
    - intros l IH H. inversion H as [|? G|]; subst. constructor. intros j Hj. rewrite Forall_forall in IH. apply IH; [exact Hj|now apply G].
    - intros l IH H. inversion H as [| |? G]; subst. constructor. intros key j Hj. destruct (G key j Hj) as [G1 G2].
      rewrite Forall_forall in IH. split; [now apply K|]. exact (IH (key, j) Hj G2).
  Qed.
  Lemma model_part : forall t j t' j', readable (pc_conv cfg) j -> part kd sd (sc_null sc) (pc_marker cfg) t j t' j' -> jpart cfg t j t' j'.
  Proof.
    intros t j t' j' R H. apply null_ext'. eapply part_mono; [exact H|]. now apply readable_keys.
  Qed.
  Lemma part_readable : forall conv t j t' j', jpart cfg t j t' j' -> readable conv j -> readable conv j'.
  Proof.
    intro conv. unfold readable, strings. induction 1 as [t j|co t l j t' j' Hj H IH|n t l i j t' j' Hj Hi H IH|ts l i t j t' j' Hj Ht H IH|fw t l key j t' j' Hj H IH
      |t j t' j' Hn H IH|t j t' j' H IH|si ms ps l key n j t t' j' Hj Hk Hm H IH
      |cs o key a c l i t t' j' Hk Ha Hc Ht H IH|cs key a c l i t t' j' Hk Ha Hc Ht H IH]; intros R; auto; inversion R as [|? G|? G]; subst; eauto using nth_error_In.
    - apply IH. now apply (G key j).
    - apply IH. now apply (G key j).
    - apply IH. constructor. intros k1 j1 H1'. exact (G k1 j1 (or_intror H1')).
    - apply IH. constructor. intros k1 j1 H1'. exact (G k1 j1 (or_intror H1')).
  Qed.
  Lemma model_unread : forall t j jk, readable (pc_conv cfg) j -> unread kd sd (sc_null sc) (pc_marker cfg) t j jk -> junread cfg t j jk.
  Proof.
    intros t j jk R (t' & l & key & n & H1 & H2 & H3 & H4 & H5). apply model_part in H1; [|exact R]. exists t', l, key, n.
    split; [exact H1|]. split; [exact H2|]. split; [|auto].
    assert (Rl := part_readable _ _ _ _ _ H1 R). apply readable_keys in Rl. inversion Rl as [| |? G]; subst. apply (G key jk H2). exact H3.
  Qed.
End Parts.

(** ** Documents *)
Lemma meaning_not_hang : forall cfg k t v j, wf t = true -> shaped t v = true -> exact_skips cfg k t j -> meaning cfg k t v j <> Hang.
Proof.
  intros cfg k t v j W S X. unfold meaning. destruct (json_no_hang k (pc_conv cfg)) as (h1 & h2 & h3 & h4 & h5).
  apply meaning_known; auto. intros Hm jk Hu. destruct (X Hm) as [R U]. apply safe_skippable. apply U. eapply model_unread; eassumption.
Qed.
Lemma meaning_not_ub : forall cfg k t v j text, wf t = true -> shaped t v = true -> document j text -> sound cfg k t j -> meaning cfg k t v j <> UB.
Proof.
  intros cfg k t v j text W S D [R X]. unfold meaning. destruct (json_no_ub k (pc_conv cfg)) as (u1 & u2 & u3).
  assert (Hnum : strings (fun _ => True) j -> True) by auto.
  assert (Legal : forall j t, spells j t -> tree_all (fun _ => True) (fun a => match a with SNum t => number t | _ => True end) j).
  { apply (spells_mind (fun j t => tree_all (fun _ => True) (fun a => match a with SNum t => number t | _ => True end) j)
      (fun l t => forall j, In j l -> tree_all (fun _ => True) (fun a => match a with SNum t => number t | _ => True end) j)
      (fun l t => forall key j, In (key, j) l -> True /\ tree_all (fun _ => True) (fun a => match a with SNum t => number t | _ => True end) j));
      try (intros; constructor; auto; fail).
    - intros s t0 H. constructor. destruct H; auto.
    - intros. constructor. intros j0 [].
    - intros. constructor. intros key j0 [].
    - intros j0 t0 w1 w2 _ _ _ H j1 [<-|[]]. exact H.
    - intros j0 l t0 w1 w2 r _ _ _ H _ IH j1 [<-|Hj]; auto.
    - intros key j0 t0 w1 w2 w3 w4 _ _ _ _ _ _ H key1 j1 [E|[]]. injection E as <- <-. auto.
    - intros key j0 l t0 w1 w2 w3 w4 r _ _ _ _ _ _ H _ IH key1 j1 [E|Hj]; [injection E as <- <-; auto|eauto]. }
  assert (L : tree_all (fun _ => True) (fun a => match a with SNum t => number t | _ => True end) j) by (destruct D; eauto).
  apply meaning_defined; auto. intros t' j' Hp.
  assert (Hp' := model_part cfg k t j t' j' R Hp). specialize (X t' j' Hp').
  assert (L' : tree_all (fun _ => True) (fun a => match a with SNum t => number t | _ => True end) j').
  { clear - Hp' L. revert L. revert Hp'. induction 1 as [t j|co t l j t' j' Hj H IH|n t l i j t' j' Hj Hi H IH|ts l i t j t' j' Hj Ht H IH|fw t l key j t' j' Hj H IH
      |t j t' j' Hn H IH|t j t' j' H IH|si ms ps l key n j t t' j' Hj Hk Hm H IH
      |cs o key a c l i t t' j' Hk Ha Hc Ht H IH|cs key a c l i t t' j' Hk Ha Hc Ht H IH]; intros R; auto; inversion R as [|? G|? G]; subst; eauto using nth_error_In.
    - apply IH. now apply (G key j).
    - apply IH. now apply (G key j).
    - apply IH. constructor. intros k1 j1 H1'. exact (G k1 j1 (or_intror H1')).
    - apply IH. constructor. intros k1 j1 H1'. exact (G k1 j1 (or_intror H1')). }
  unfold sound_at, sound_here in *. destruct t'; auto; destruct j' as [a|l|l]; auto.
  - inversion L'; subst. cbn. destruct a; try discriminate. destruct (number_cases txt H0) as [[z Hz]|E]; [|rewrite E; discriminate].
    rewrite (int_literal_of k i txt z Hz). destruct k; [|discriminate].
    assert (F := X eq_refl z Hz). rewrite fits_in in F. rewrite F. destruct (_ && _); discriminate.
  - destruct l as [|[key [a|l1|l1]] l]; auto. intros c Hk Ha.
    assert (R' := part_readable cfg (pc_conv cfg) _ _ _ _ Hp' R). apply (readable_keys cfg k) in R'. inversion R' as [| |? G]; subst.
    destruct (G key (Scal a) (or_introl eq_refl)) as [G1 G2]. inversion G2; subst. apply X; auto.
Qed.

Section Doc.
  Variables (cfg : pconfig) (k : skind) (t : ty) (v : val).
  Lemma accepts_unique : forall text v1 v2, accepts cfg k t v text v1 -> accepts cfg k t v text v2 -> v1 = v2.
  Proof. intros text v1 v2 (r1 & _ & H1) (r2 & _ & H2). now destruct (imports_unique _ _ _ _ _ _ _ _ _ H1 H2). Qed.
  Lemma accepts_iff : forall j text, document j text -> meaning cfg k t v j <> Hang ->
    (forall v', accepts cfg k t v text v' <-> meaning cfg k t v j = Ok v') /\
    (rejects cfg k t v text <-> meaning cfg k t v j = Throw) /\ (undefined cfg k t v text <-> meaning cfg k t v j = UB).
  Proof.
    intros j text D H. assert (A := doc_imports cfg k j text t v D). assert (B := doc_throw cfg k j text t v D). assert (C := doc_ub cfg k j text t v D).
    destruct (meaning cfg k t v j) as [v0| | |]; [| | |congruence].
    - destruct (A v0 eq_refl) as (r & Hr & Hi). repeat split; intros; try discriminate.
      + destruct H0 as (r' & _ & H0). f_equal. symmetry. eapply imports_unique; eassumption.
      + apply Ok_inj in H0. subst. exists r. auto.
      + exfalso. eapply imports_not_rejects; eassumption.
      + exfalso. eapply undefined_not_imports; eassumption.
    - specialize (B eq_refl). repeat split; intros; try discriminate; auto.
      + exfalso. destruct H0 as (r & _ & H0). eapply imports_not_rejects; eassumption.
      + exfalso. eapply undefined_not_rejects; eassumption.
    - specialize (C eq_refl). repeat split; intros; try discriminate; auto.
      + exfalso. destruct H0 as (r & _ & H0). eapply undefined_not_imports; eassumption.
      + exfalso. eapply undefined_not_rejects; eassumption.
  Qed.
  Lemma same_meaning : forall j1 j2 text1 text2, document j1 text1 -> document j2 text2 ->
    meaning cfg k t v j1 = meaning cfg k t v j2 -> meaning cfg k t v j1 <> Hang -> same_result cfg k t v text1 text2.
  Proof.
    intros j1 j2 text1 text2 D1 D2 E H. destruct (accepts_iff j1 text1 D1 H) as (A1 & A2 & A3).
    destruct (accepts_iff j2 text2 D2 ltac:(congruence)) as (B1 & B2 & B3). rewrite E in *.
    repeat split; intros; try (now apply B1, A1); try (now apply A1, B1); tauto.
  Qed.
  Lemma doc_ends : forall j text, document j text -> meaning cfg k t v j <> Hang -> ends cfg k t v text.
  Proof.
    intros j text D H. destruct (accepts_iff j text D H) as (A & B & C). unfold ends, refuses.
    destruct (meaning cfg k t v j) as [v'| | |]; [left; exists v'; now apply A|right; left; tauto|right; right; tauto|congruence].
  Qed.
  (** A document whose meaning is never a value is refused. *)
  Lemma doc_refuses : forall j text, document j text -> meaning cfg k t v j <> Hang -> (forall v', meaning cfg k t v j <> Ok v') ->
    refuses cfg k t v text.
  Proof.
    intros j text D H N. destruct (accepts_iff j text D H) as (A & B & C). unfold refuses.
    destruct (meaning cfg k t v j) as [v'| | |]; [now destruct (N v')|left; tauto|right; tauto|congruence].
  Qed.
  Lemma part_refuses : forall j text t' j', wf t = true -> shaped t v = true -> document j text -> exact_skips cfg k t j -> jpart cfg t j t' j' ->
    (wf t' = true -> bad (json_sc k (pc_conv cfg)) (pc_strict cfg) (pc_marker cfg) t' j') ->
    refuses cfg k t v text /\ (sound cfg k t j -> rejects cfg k t v text).
  Proof.
    intros j text t' j' W S D X P B. assert (H := meaning_not_hang cfg k t v j W S X).
    assert (N : forall v', meaning cfg k t v j <> Ok v').
    { apply (part_bad (json_sc k (pc_conv cfg)) (pc_strict cfg) (pc_marker cfg) (names (pc_conv cfg)) (str_is (pc_conv cfg))
        (names_key k _) (str_is_str k _) t j t' j' (null_ext cfg k _ _ _ _ P) W B v S). }
    split; [now apply (doc_refuses j)|]. intro Sd. assert (U := meaning_not_ub cfg k t v j text W S D Sd).
    destruct (accepts_iff j text D H) as (_ & A & _). apply A. destruct (meaning cfg k t v j) as [v'| | |]; congruence.
  Qed.
End Doc.
