(** The two kinds of source, and the order of members. *)
From Coq Require Import ZArith String List Bool Lia ZifyBool Permutation.
From Verif Require Import Model.Base Model.Source Model.Unicode Model.Number Model.JsonLexer Model.ParserInterface
  Model.JsonParser Model.Types Model.Deserializer Model.Importer
  Spec.JsonString Spec.Json Spec.Typed Spec.Import Proofs.UnicodeP Proofs.LexP Proofs.NumberP Proofs.Sim Proofs.TreeM
  Proofs.JsonSim Proofs.ImportP Proofs.Induct Proofs.TypedP Proofs.InterpP Proofs.PartP Proofs.DefinedP Proofs.MembersP
  Proofs.ModesP Proofs.JsonPartP.
Import ListNotations.
Open Scope Z_scope.

Lemma part_all : forall A PK PA kd sd nl mk t (j : tree A) t' j', part kd sd nl mk t j t' j' -> tree_all PK PA j -> tree_all PK PA j'.
Proof.
  induction 1 as [t j|co t l j t' j' Hj H IH|n t l i j t' j' Hj Hi H IH|ts l i t j t' j' Hj Ht H IH|fw t l key j t' j' Hj H IH
      |t j t' j' Hn H IH|t j t' j' H IH|si ms ps l key n j t t' j' Hj Hk Hm H IH
      |cs o key a c l i t t' j' Hk Ha Hc Ht H IH|cs key a c l i t t' j' Hk Ha Hc Ht H IH]; intros R; auto; inversion R as [|? G|? G]; subst; eauto using nth_error_In.
  - apply IH. now apply (G key j).
  - apply IH. now apply (G key j).
  - apply IH. constructor. intros k1 j1 H1'. exact (G k1 j1 (or_intror H1')).
  - apply IH. constructor. intros k1 j1 H1'. exact (G k1 j1 (or_intror H1')).
Qed.
Lemma document_numbers : forall j text, document j text ->
  tree_all (fun _ => True) (fun a => match a with SNum t => number t | _ => True end) j.
Proof.
  assert (Legal : forall j t, spells j t -> tree_all (fun _ => True) (fun a => match a with SNum t => number t | _ => True end) j).
  { apply (spells_mind (fun j t => tree_all (fun _ => True) (fun a => match a with SNum t => number t | _ => True end) j)
      (fun l t => forall j, In j l -> tree_all (fun _ => True) (fun a => match a with SNum t => number t | _ => True end) j)
      (fun l t => forall key j, In (key, j) l -> True /\ tree_all (fun _ => True) (fun a => match a with SNum t => number t | _ => True end) j));
      try (intros; constructor; auto; fail).
    - intros s t0 H. constructor. destruct H; auto.
    - intros. constructor. intros j0 [].
    - intros. constructor. intros key j0 [].
    - intros j0 t0 w1 w2 _ _ _ H j1 [<-|[]]. exact H.
    - intros j0 l t0 w1 w2 r _ _ _ H _ IH j1 [<-|Hj]; auto.
    - intros key j0 t0 w1 w2 w3 w4 _ _ _ _ _ _ H key1 j1 [E|[]]. injection E as <- <-. auto.
    - intros key j0 l t0 w1 w2 w3 w4 r _ _ _ _ _ _ H _ IH key1 j1 [E|Hj]; [injection E as <- <-; auto|eauto]. }
  intros j text D. destruct D; eauto.
Qed.

(** ** Integers from the two kinds of source *)
Lemma minus_sign : forall txt z, int_literal txt z -> (match txt with c :: _ => c =? 45 | [] => false end) = true -> z <= 0.
Proof.
  intros txt z H E. destruct H as [ds H|ds H].
  - inversion H; subst; cbn in E; lia.
  - destruct (int_part_digits ds H) as [_ Hd]. assert (N := dec_value_nonneg ds Hd). rewrite dec_value_digits in N. lia.
Qed.
Lemma no_minus_sign : forall txt z, int_literal txt z -> (match txt with c :: _ => c =? 45 | [] => false end) = false -> 0 <= z.
Proof.
  intros txt z H E. destruct H as [ds H|ds H]; [|discriminate E].
  destruct (int_part_digits ds H) as [_ Hd]. assert (N := dec_value_nonneg ds Hd). rewrite dec_value_digits in N. lia.
Qed.
Lemma stream_int_literal : forall i txt z, int_literal txt z -> fits i z -> int_of Strm i txt = Ok z.
Proof.
  intros i txt z H F. rewrite (int_literal_of Strm i txt z H). f_equal.
  destruct (match txt with c :: _ => c =? 45 | [] => false end) eqn:E.
  - assert (L := minus_sign txt z H E). destruct (Z.eq_dec z 0) as [->|N]; [apply stream_int_zero|].
    rewrite <- (stream_int_fits i z F) at 2. f_equal. lia.
  - assert (L := no_minus_sign txt z H E). rewrite <- (stream_int_fits i z F) at 2. f_equal. lia.
Qed.
Lemma string_int_literal : forall i txt z, int_literal txt z -> fits i z -> (i_signed i = false -> forall r, txt <> 45 :: r) -> int_of StrIn i txt = Ok z.
Proof.
  intros i txt z H F S. rewrite (int_literal_of StrIn i txt z H). apply fits_in in F. rewrite F.
  destruct (match txt with c :: _ => c =? 45 | [] => false end) eqn:E; [|reflexivity]. destruct (i_signed i); [reflexivity|]. exfalso.
  destruct txt as [|c r]; [discriminate E|]. apply (S eq_refl r). f_equal. lia.
Qed.
Lemma string_int_inv : forall i txt z, number txt -> int_of StrIn i txt = Ok z -> int_literal txt z /\ fits i z.
Proof.
  intros i txt z H E. destruct (number_cases txt H) as [[y Hy]|X]; [|rewrite X in E; discriminate E].
  rewrite (int_literal_of StrIn i txt y Hy) in E. destruct (_ && _); [discriminate E|]. destruct (i_in i y) eqn:F; [|discriminate E].
  injection E as <-. split; [exact Hy|now apply fits_in].
Qed.

Lemma skips_weaker : forall conv j, skippable (json_sc StrIn conv) j = true -> skippable (json_sc Strm conv) j = true.
Proof.
  intro conv. assert (K : forall raw, skip_ok StrIn raw = true -> skip_ok Strm raw = true).
  { intros raw H. unfold skip_ok in *. apply andb_prop in H as [-> _]. reflexivity. }
  apply (tree_ind' (fun j => skippable (json_sc StrIn conv) j = true -> skippable (json_sc Strm conv) j = true)).
  - intros a H. destruct a; try reflexivity. cbn in *. now apply K.
  - intros l IH H. cbn [skippable] in *. rewrite forallb_forall in *. rewrite Forall_forall in IH. auto.
  - intros l IH H. cbn [skippable] in *. rewrite forallb_forall in *. rewrite Forall_forall in IH. intros [key j] Hj.
    specialize (H _ Hj). cbn [fst snd] in *. apply andb_prop in H as [H1 H2]. apply andb_true_intro. split; [cbn in *; now apply K|exact (IH _ Hj H2)].
Qed.
Lemma strings_mono : forall (P Q : bytes -> Prop), (forall raw, P raw -> Q raw) -> forall j, strings P j -> strings Q j.
Proof.
  intros P Q H. apply (tree_ind' (fun j => strings P j -> strings Q j)).
  - intros a T. inversion T; subst. constructor. destruct a; auto.
  - intros l IH T. inversion T as [|? G|]; subst. constructor. rewrite Forall_forall in IH. intros j Hj. apply (IH j Hj). now apply G.
  - intros l IH T. inversion T as [| |? G]; subst. constructor. rewrite Forall_forall in IH. intros key j Hj. destruct (G key j Hj) as [G1 G2].
    split; [auto|exact (IH _ Hj G2)].
Qed.
Lemma skips_strm : forall cfg t j, exact_skips cfg StrIn t j -> exact_skips cfg Strm t j.
Proof.
  intros cfg t j X Hm. destruct (X Hm) as [R U]. split; [exact R|]. intros jk Hu. refine (strings_mono _ _ _ jk (U jk Hu)).
  intros raw [H1 H2]. split; [exact H1|discriminate].
Qed.

Section Sources.
  Variables (cfg : pconfig) (t : ty) (v : val) (j : jv) (text : bytes).
  Hypotheses (W : wf t = true) (S : shaped t v = true) (D : document j text).
  Notation sc k := (json_sc k (pc_conv cfg)).

  Lemma string_then_stream : forall v', meaning cfg StrIn t v j = Ok v' -> meaning cfg Strm t v j = Ok v'.
  Proof.
    unfold meaning. refine (meaning_two (sc StrIn) (sc Strm) (pc_strict cfg) (pc_strict cfg) (pc_marker cfg) _ _ _ _ _ _ le_ok le_ok_refl le_ok_bind _ t W v j S _ _).
    1-4: intros; reflexivity.
    - tauto.
    - intros a H. destruct a; try discriminate H. split; reflexivity.
    - intros X o x E. discriminate E.
    - intros t' j' Hp. assert (N := part_all _ _ _ _ _ _ _ _ _ _ _ Hp (document_numbers j text D)). unfold agree_at. destruct t'; auto; destruct j' as [a|l|l]; auto.
      2:{ intros; reflexivity. }
      destruct a; try apply le_ok_refl. inversion N; subst. intros z E. cbn [sc_int json_sc] in *.
      destruct (string_int_inv _ _ _ H0 E) as [L F]. now apply stream_int_literal.
    - intros _ jk _. exact (skips_weaker _ jk).
  Qed.

  Lemma sources_equal : readable (pc_conv cfg) j -> plain_ints cfg t j -> meaning cfg StrIn t v j <> Hang ->
    meaning cfg StrIn t v j = meaning cfg Strm t v j.
  Proof.
    intros R P. unfold meaning. refine (meaning_two (sc StrIn) (sc Strm) (pc_strict cfg) (pc_strict cfg) (pc_marker cfg) _ _ _ _ _ _ known_eq known_eq_refl known_eq_bind _ t W v j S _ _).
    1-4: intros; reflexivity.
    - tauto.
    - intros a H. destruct a; try discriminate H. split; reflexivity.
    - intros X o E. congruence.
    - intros t' j' Hp. assert (N := part_all _ _ _ _ _ _ _ _ _ _ _ Hp (document_numbers j text D)). unfold agree_at. destruct t'; auto; destruct j' as [a|l|l]; auto.
      2:{ intros; reflexivity. }
      destruct a; try apply known_eq_refl. inversion N; subst. intros _. cbn [sc_int json_sc].
      destruct (number_cases txt H0) as [[z Hz]|E]; [|now rewrite !E].
      assert (Hp' := model_part cfg StrIn t j _ _ R Hp). destruct (P _ _ _ Hp' Hz) as [F Sg].
      now rewrite (stream_int_literal _ _ _ Hz F), (string_int_literal _ _ _ Hz F Sg).
    - intros _ jk _. exact (skips_weaker _ jk).
  Qed.
End Sources.

(** ** The order of members *)
Lemma reorders_sym : forall cfg t j j', reorders cfg t j j' -> reorders cfg t j' j.
Proof.
  intros cfg t j j' H. destruct H as [t l l' C P N K]. constructor; auto.
  - now symmetry.
  - intros a key1 j1 b key2 j2 c n1 n2 -> H1 H2 <-.
    assert (X : exists a' x y b' c', l = a' ++ x :: b' ++ y :: c' /\ names (pc_conv cfg) (fst x) n1 /\ names (pc_conv cfg) (fst y) n1).
    { assert (P1 : Permutation l ((key1, j1) :: (a ++ b) ++ (key2, j2) :: c)).
      { rewrite P. rewrite <- app_assoc. symmetry. apply Permutation_middle. }
      assert (P2 : Permutation l ((key1, j1) :: (key2, j2) :: (a ++ b) ++ c)).
      { rewrite P1. constructor. symmetry. apply Permutation_middle. }
      assert (I1 : In (key1, j1) l) by (eapply Permutation_in; [symmetry; exact P2|now left]).
      apply in_split in I1 as (a1 & b1 & ->).
      assert (P3 : Permutation (a1 ++ b1) ((key2, j2) :: (a ++ b) ++ c)).
      { apply (Permutation_cons_inv (a := (key1, j1))). rewrite <- P2. apply Permutation_middle. }
      assert (I2 : In (key2, j2) (a1 ++ b1)) by (eapply Permutation_in; [symmetry; exact P3|now left]).
      apply in_app_iff in I2 as [I2|I2]; apply in_split in I2 as (a2 & b2 & ->).
      - exists a2, (key2, j2), (key1, j1), b2, b1. split; [now rewrite <- app_assoc|auto].
      - exists a1, (key1, j1), (key2, j2), a2, b2. auto. }
    destruct X as (a' & [x1 x2] & [y1 y2] & b' & c' & E & E1 & E2). exact (N a' x1 x2 b' y1 y2 c' n1 n1 E E1 E2 eq_refl).
  - intros key j Hj. apply (K key j). eapply Permutation_in; [symmetry; exact P|exact Hj].
Qed.
Lemma inside_sym : forall A kd sd nl mk (R : ty -> tree A -> tree A -> Prop), (forall t j j', R t j j' -> R t j' j) ->
  forall t j j', inside kd sd nl mk R t j j' -> inside kd sd nl mk R t j' j.
Proof.
  intros A kd sd nl mk R H.
  induction 1; [apply is_here|apply is_vec|apply is_arr|eapply is_tup|apply is_map|apply is_ptr|apply is_opt|eapply is_member|eapply is_poly|eapply is_variant]; eauto.
Qed.
Lemma reorders_nodup : forall cfg k t l l', reorders cfg t (Obj l) (Obj l') ->
  NoDup (map (fun kv => sc_key (json_sc k (pc_conv cfg)) (fst kv)) l).
Proof.
  intros cfg k t l l' H. inversion H as [? ? ? C P N K]; subst. clear H P C.
  assert (G : forall a b, l = a ++ b -> NoDup (map (fun kv => sc_key (json_sc k (pc_conv cfg)) (fst kv)) b)); [|exact (G [] l eq_refl)].
  intros a b. revert a. induction b as [|[key j] b IH]; intros a E; [constructor|]. cbn [map fst]. constructor.
  - intro Hin. apply in_map_iff in Hin as ([key2 j2] & E2 & Hin). cbn [fst] in E2. apply in_split in Hin as (b1 & b2 & ->).
    destruct (K key j) as [n Hn]; [rewrite E; apply in_app_iff; right; now left|].
    destruct (K key2 j2) as [n2 Hn2]; [rewrite E; apply in_app_iff; right; right; apply in_app_iff; right; now left|].
    apply (N a key j b1 key2 j2 b2 n n2 E Hn Hn2). apply (names_key k) in Hn, Hn2. rewrite Hn, Hn2 in E2. now injection E2.
  - apply (IH (a ++ [(key, j)])). now rewrite <- app_assoc.
Qed.
Lemma order_meaning : forall cfg k t v j1 j2, wf t = true -> shaped t v = true -> jinside cfg (reorders cfg) t j1 j2 ->
  forall v', meaning cfg k t v j1 = Ok v' -> meaning cfg k t v j2 = Ok v'.
Proof.
  intros cfg k t v j1 j2 W S H. apply (inside_ext cfg k) in H. unfold meaning.
  refine (inside_alike (json_sc k (pc_conv cfg)) (pc_strict cfg) (pc_marker cfg) (names (pc_conv cfg)) (str_is (pc_conv cfg))
    (names_key k _) (str_is_str k _) le_ok le_ok_refl _ _ _ t j1 j2 H W _ v S).
  - intros X Y o1 o2 f Ho. apply le_ok_bind; [exact Ho|]. intros; apply le_ok_refl.
  - intros X Y o f g Hfg. apply le_ok_bind; [apply le_ok_refl|exact Hfg].
  - intros t' i1 i2 W' R w Sw v' E. destruct R as [t' l l' C P N K] eqn:ER. eapply class_perm; [exact W'|exact C|exact P| |exact Sw|exact E].
    eapply reorders_nodup. constructor; eassumption.
Qed.
