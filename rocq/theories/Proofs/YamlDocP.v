(** What a whole YAML export does, and the way back. *)
From Coq Require Import ZArith String List Bool Lia ZifyBool.
From Verif Require Import Model.Base Model.Source Model.Number Model.ParserInterface Model.Printer Model.JsonPrinter Model.Types Model.Deserializer Model.Serializer Model.Importer
  Model.Exporter Model.Yaml Model.YamlPrinter.
From Verif Require Import Spec.JsonString Spec.Json Spec.Typed Spec.Import Spec.Denotes Spec.Yaml Spec.YamlOut Proofs.Induct Proofs.TypedP Proofs.NumberP Proofs.PrintP Proofs.JsonPartP
  Proofs.TreeM Proofs.InterpP Proofs.DenotesP Proofs.ExportP Proofs.BsonRoundP Proofs.YamlP Proofs.YamlSim Proofs.YamlOutP.
Import ListNotations.
Open Scope Z_scope.

(** ** Text that is always taken *)
Lemma ascii_text : forall s, Forall (fun c => c < 128) s -> bad_text s = false.
Proof. intros s F. unfold bad_text. induction F as [|c s H F IH]; [reflexivity|]. cbn [check_utf8]. assert (c <? 128 = true) as -> by lia. exact IH. Qed.
Lemma number_text : forall z, bad_text (int_dec z) = false.
Proof.
  intros z. apply ascii_text. assert (G : forall n, 0 <= n -> Forall (fun c => c < 128) (nat_dec n)).
  { intros n H. destruct (nat_dec_spec n H) as (I & _). apply int_part_digits in I as [_ I]. eapply Forall_impl; [|exact I]. unfold digit. intros; lia. }
  unfold int_dec. destruct (Z.ltb_spec z 0); [constructor; [lia|]|]; apply G; lia.
Qed.

(** ** The plan of a value *)
Fixpoint tree_plan (j : tree bytes) : plan :=
  match j with
  | Scal s => PScal s
  | Arr l => PSeq (map tree_plan l)
  | Obj l => PMap (map (fun e => (fst e, tree_plan (snd e))) l)
  end.
Lemma tree_events : forall j, plan_events (tree_plan j) = node_events (node_of j).
Proof.
  refine (tree_ind' (fun j => plan_events (tree_plan j) = node_events (node_of j)) _ _ _).
  - reflexivity.
  - intros l F. cbn [tree_plan plan_events node_of node_events]. f_equal. f_equal. induction F as [|j l H F IH]; [reflexivity|]. cbn [map flat_map]. now rewrite H, IH.
  - intros l F. cbn [tree_plan plan_events node_of node_events]. f_equal. f_equal. induction F as [|[k j] l H F IH]; [reflexivity|].
    cbn [map flat_map fst snd] in *. cbn [node_events app]. now rewrite H, IH.
Qed.
Lemma tree_defined : forall j, defined (tree_plan j) = true.
Proof.
  refine (tree_ind' (fun j => defined (tree_plan j) = true) _ _ _).
  - reflexivity.
  - intros l F. cbn [tree_plan defined]. induction F as [|j l H F IH]; [reflexivity|]. cbn [map forallb]. now rewrite H.
  - intros l F. cbn [tree_plan defined]. induction F as [|[k j] l H F IH]; [reflexivity|]. cbn [map forallb fst snd] in *. now rewrite H.
Qed.
Lemma tree_faultless : forall j, all_text utf8_text j -> pfault (tree_plan j) = None.
Proof.
  assert (G : forall s, utf8_text s -> bad_text s = false).
  { intros s (cps & F & ->). unfold bad_text. induction F as [|cp cps H F IH]; [reflexivity|]. cbn [flat_map]. now rewrite utf8_check. }
  refine (tree_ind' (fun j => all_text utf8_text j -> pfault (tree_plan j) = None) _ _ _).
  - intros s H. cbn [tree_plan pfault]. unfold of_text. now rewrite G.
  - intros l F A. cbn [tree_plan pfault all_text] in *. induction F as [|j l H F IH]; [reflexivity|]. cbn [map all_of] in *. destruct A as [A1 A]. rewrite first_cons, H by exact A1. now apply IH.
  - intros l F A. cbn [tree_plan pfault all_text] in *. induction F as [|[k j] l H F IH]; [reflexivity|]. cbn [map all_of fst snd] in *. destruct A as [[A1 A2] A].
    unfold of_entry at 1. rewrite first_cons, G, H by assumption. now apply IH.
Qed.

Section Plans.
  Context (num : ity -> Z -> option bytes) (Int : ity -> Z -> bytes -> Prop) (HInt : forall i z a, Int i z a <-> num i z = Some a) (numf : ity -> Z -> option spot) (Hnum : forall i z, of_written bad_text (num i z) = numf i z) (marker : bytes).
  Notation P := (plan_of num marker).
  Notation D := (yaml_sense_with Int marker).
  Notation F := (faults_of bad_text numf marker).
  Definition entry_plan (e : bytes * tree bytes) : bytes * plan := (fst e, tree_plan (snd e)).
  Notation faults_in l := (map (fun e => of_entry bad_text (fst e) (pfault (snd e))) l).

  (** The document of a value fixes the plan. *)
  Definition follows_doc (t : ty) : Prop := forall v,
    (forall j, d_val (D t) v j -> pf_val (P t) v = tree_plan j) /\
    (forall l, d_members (D t) v l -> pf_mem (P t) v = map entry_plan l) /\
    (forall c l, t = c -> d_members (D t) v l -> pf_poly (P t) v = PMap ((marker, PScal (class_name c)) :: map entry_plan l)).
  Lemma doc_plan : forall t, follows_doc t.
  Proof.
    assert (Simple : forall t (f : val -> plan) g, P t = pl_simple f -> D t = d_simple g -> (forall v j, g v j -> f v = tree_plan j) -> follows_doc t).
    { intros t f g E1 E2 H v. rewrite E1, E2. split; [exact (H v)|]. split; [intros l []|intros c l _ []]. }
    apply (ty_ind' follows_doc).
    - intros i. eapply Simple; [reflexivity|reflexivity|]. intros v j (z & a & -> & -> & Ha). apply HInt in Ha. rewrite Ha. reflexivity.
    - eapply Simple; [reflexivity|reflexivity|]. intros v j (b & a & -> & -> & ->). reflexivity.
    - eapply Simple; [reflexivity|reflexivity|]. intros v j (s & a & -> & -> & ->). reflexivity.
    - intros l. eapply Simple; [reflexivity|reflexivity|]. intros v j (z & n & a & -> & E & -> & ->). rewrite E. reflexivity.
    - intros co t IH. eapply Simple; [reflexivity|reflexivity|]. intros v j (l & js & -> & -> & H). cbn [tree_plan]. f_equal. induction H as [|x j l js Hx H IHl]; [reflexivity|].
      cbn [map]. f_equal; [now apply (proj1 (IH x))|exact IHl].
    - intros n t IH. eapply Simple; [reflexivity|reflexivity|]. intros v j (l & js & -> & L & -> & H). rewrite (proj2 (Nat.eqb_eq _ _) L). cbn [tree_plan]. f_equal. clear L.
      induction H as [|x j l js Hx H IHl]; [reflexivity|]. cbn [map]. f_equal; [now apply (proj1 (IH x))|exact IHl].
    - intros ts IH. eapply Simple; [reflexivity|reflexivity|]. intros v j (l & js & -> & -> & H). cbn [tree_plan]. f_equal. revert l js H.
      induction IH as [|t ts Ht IH IHts]; intros [|x l] [|j js] H; cbn [map rel3 pl_tuple] in *; try contradiction; [reflexivity|]. destruct H as [Hx H]. f_equal; [now apply (proj1 (Ht x))|now apply IHts].
    - intros w t IH. eapply Simple; [reflexivity|reflexivity|]. intros v j (l & es & -> & -> & H). cbn [tree_plan]. f_equal. induction H as [|[k x] [k' j] l es [Hk Hx] H IHl]; [reflexivity|].
      cbn [map fst snd] in *. f_equal; [|exact IHl]. rewrite Hk. f_equal. now apply (proj1 (IH x)).
    - intros t IH. eapply Simple; [reflexivity|reflexivity|]. intros v j [(-> & a & -> & ->)|(x & -> & H)]; [reflexivity|]. now apply (proj1 (IH x)).
    - intros t IH. eapply Simple; [reflexivity|reflexivity|]. intros v j (x & -> & H). now apply (proj1 (IH x)).
    - intros i ms ps IHm IHp v.
      assert (M : forall l, d_members (D (TStruct i ms ps)) v l -> pf_mem (P (TStruct i ms ps)) v = map entry_plan l).
      { intros l (own & par & a & b & -> & -> & Ho & Hp). cbn [plan_of pf_mem]. rewrite map_app. f_equal.
        - clear Hp. revert a own Ho. generalize (map (nameOverride i) (si_names i)). induction IHm as [|t ts Ht IH IHts]; intros [|n ns] a [|x own] Ho; cbn [map own_members pl_members] in *; try contradiction.
          + now subst.
          + destruct Ho as [[L Ho]|(NL & [k j] & r & -> & [Ek Ev] & Ho)].
            * apply left_out_keeps in L. rewrite L. cbn [app]. now apply IHts.
            * destruct (Serializer.keeps (opt_type t) x) eqn:K; [|exfalso; apply NL; now apply left_out_keeps]. cbn [map app entry_plan fst snd] in *. unfold entry_plan at 1. cbn [fst snd].
              rewrite Ek, (proj1 (Ht x) j Ev). f_equal. now apply IHts.
        - clear Ho. revert b par Hp. induction IHp as [|t ts Ht IH IHts]; intros b [|x par] Hp; cbn [map parent_members pl_parents] in *; try contradiction.
          + now subst.
          + destruct Hp as (a1 & b1 & -> & H1 & H2). rewrite map_app. f_equal; [now apply (proj1 (proj2 (Ht x)))|now apply IHts]. }
      split; [|split; [exact M|]].
      + intros j H. cbn [yaml_sense_with sense_of d_val] in H. cbn [plan_of pf_val]. destruct (si_mark i).
        * destruct H as ([k j'] & l & -> & [Ek (a & E2 & E3)] & H). cbn [fst snd] in *. rewrite Ek, E2, E3. cbn [tree_plan map app fst snd tree_plan]. f_equal. f_equal. exact (M l H).
        * destruct H as (l & -> & H). cbn [tree_plan app]. f_equal. exact (M l H).
      + intros c l <- H. cbn [plan_of pf_poly class_name app]. f_equal. f_equal. exact (M l H).
    - intros cs b IH. rewrite Forall_forall in IH. eapply Simple; [reflexivity|reflexivity|]. intros v j [(-> & a & -> & ->)|(k & c & d & x & -> & Ec & Ed & (e & l & -> & [Ek (a & E2 & E3)] & H))]; [reflexivity|].
      rewrite nth_error_map, Ec in Ed. injection Ed as <-. rewrite nth_error_map, Ec. cbn [option_map]. etransitivity; [exact (proj2 (proj2 (IH c (nth_error_In _ _ Ec) x)) c l eq_refl H)|].
      destruct e as [k0 j0]. cbn [fst snd] in *. rewrite Ek, E2, E3. reflexivity.
    - intros cs IH. rewrite Forall_forall in IH. eapply Simple; [reflexivity|reflexivity|]. intros v j (k & c & d & x & -> & Ec & Ed & (e & l & -> & [Ek (a & E2 & E3)] & H)).
      rewrite nth_error_map, Ec in Ed. injection Ed as <-. rewrite nth_error_map, Ec. cbn [option_map]. etransitivity; [exact (proj2 (proj2 (IH c (nth_error_In _ _ Ec) x)) c l eq_refl H)|].
      destruct e as [k0 j0]. cbn [fst snd] in *. rewrite Ek, E2, E3. reflexivity.
  Qed.

  Lemma first_app : forall a b, first_of (a ++ b) = match first_of a with None => first_of b | s => s end.
  Proof. induction a as [|[s|] a IH]; intros b; cbn [app first_of]; auto. Qed.
  Lemma first_none : forall l, first_of l = None <-> Forall (fun s => s = None) l.
  Proof. induction l as [|[s|] l IH]; cbn [first_of]; split; intros H; auto; try discriminate H; try (inversion H; subst; discriminate); [constructor; [reflexivity|now apply IH]|inversion H; subst; now apply IH]. Qed.
  Lemma in_list_none : forall s, in_list s = None -> s = None.
  Proof. now intros [[]|]. Qed.
  Lemma entry_none : forall k s, of_entry bad_text k s = None -> s = None.
  Proof. unfold of_entry. intros k s. destruct (bad_text k); [discriminate|]. now destruct s as [[]|]. Qed.

  (** The plan fails where the value does; a value without a fault has a document. *)
  Definition as_told (t : ty) (v : val) : Prop :=
    defined (pf_val (P t) v) = true /\ pfault (pf_val (P t) v) = in_val (F t) v /\ (in_val (F t) v = None -> exists j, d_val (D t) v j).
  Definition as_told_mem (t : ty) (v : val) : Prop :=
    forallb (fun e => defined (snd e)) (pf_mem (P t) v) = true /\ first_of (faults_in (pf_mem (P t) v)) = in_mem (F t) v /\
    pf_poly (P t) v = PMap ((marker, PScal (class_name t)) :: pf_mem (P t) v) /\ (in_mem (F t) v = None -> exists l, d_members (D t) v l).
  Definition told (t : ty) : Prop := wf t = true -> forall v, shaped t v = true -> as_told t v /\ (is_class t = true -> as_told_mem t v).

  Lemma tag_told : forall c t x, as_told_mem t x -> class_name t = c ->
    defined (PMap ((marker, PScal c) :: pf_mem (P t) x)) = true /\
    pfault (PMap ((marker, PScal c) :: pf_mem (P t) x)) = with_tag bad_text marker c (in_mem (F t) x) /\
    (with_tag bad_text marker c (in_mem (F t) x) = None -> exists j, tagged_object yaml_same yaml_same marker c (D t) x j).
  Proof.
    intros c t x (M1 & M2 & M3 & M4) E. split; [exact M1|]. split.
    - unfold with_tag. cbn [pfault map fst snd]. rewrite !first_cons. cbn [first_of]. rewrite M2. destruct (of_entry _ _ _); [reflexivity|]. now destruct (in_mem _ _).
    - unfold with_tag. rewrite !first_cons. cbn [first_of]. destruct (of_entry _ _ _); [discriminate|]. intros H.
      destruct (M4 ltac:(destruct (in_mem (F t) x); [discriminate H|reflexivity])) as (l & Hl). exists (Obj ((marker, Scal c) :: l)), (marker, Scal c), l.
      split; [reflexivity|]. split; [|exact Hl]. split; [reflexivity|]. exists c. split; reflexivity.
  Qed.

  Lemma list_told : forall t l, (forall v, shaped t v = true -> as_told t v) -> forallb (shaped t) l = true ->
    forallb defined (map (pf_val (P t)) l) = true /\
    first_of (map (fun a => in_list (pfault a)) (map (pf_val (P t)) l)) = first_of (map (fun x => in_list (in_val (F t) x)) l) /\
    (first_of (map (fun x => in_list (in_val (F t) x)) l) = None -> exists js, Forall2 (d_val (D t)) l js).
  Proof.
    intros t l H. induction l as [|x l IH]; intros Sh; [split; [|split]; try reflexivity; intros _; exists []; constructor|].
    cbn [forallb map] in *. apply andb_prop in Sh as [Sx Sh]. destruct (IH Sh) as (I1 & I2 & I3). destruct (H x Sx) as (X1 & X2 & X3).
    rewrite X1, I1, !first_cons, X2, I2. split; [reflexivity|]. split; [reflexivity|]. intros N.
    destruct (in_list (in_val (F t) x)) eqn:E; [discriminate N|]. apply in_list_none in E. destruct (X3 E) as (j & Hj). destruct (I3 N) as (js & Hjs). exists (j :: js). now constructor.
  Qed.

  Theorem plan_told : forall t, told t.
  Proof.
    assert (Simple : forall t f g h, P t = pl_simple f -> D t = d_simple g -> F t = no_mem h -> is_class t = false ->
      (wf t = true -> forall v, shaped t v = true -> defined (f v) = true /\ pfault (f v) = h v /\ (h v = None -> exists j, g v j)) -> told t).
    { intros t f g h E1 E2 E3 C H W v Sh. split; [|intros C'; congruence]. unfold as_told. rewrite E1, E2, E3. exact (H W v Sh). }
    assert (Val : forall t, told t -> wf t = true -> forall v, shaped t v = true -> as_told t v) by (intros t H W v Sh; exact (proj1 (H W v Sh))).
    apply (ty_ind' told).
    - intros i. eapply Simple; [reflexivity|reflexivity|reflexivity|reflexivity|]. intros _ v Sh. destruct v; try discriminate Sh. rewrite <- (Hnum i z). destruct (num i z) as [s|] eqn:En.
      + split; [reflexivity|]. split; [reflexivity|]. intros _. eexists. exists z. eexists. split; [reflexivity|]. split; [reflexivity|]. apply HInt. exact En.
      + split; [reflexivity|]. split; [reflexivity|]. discriminate.
    - eapply Simple; [reflexivity|reflexivity|reflexivity|reflexivity|]. intros _ v Sh. destruct v; try discriminate Sh. split; [reflexivity|].
      split; [destruct b; reflexivity|]. intros _. eexists. exists b. eexists. split; [reflexivity|]. split; reflexivity.
    - eapply Simple; [reflexivity|reflexivity|reflexivity|reflexivity|]. intros _ v Sh. destruct v; try discriminate Sh. split; [reflexivity|].
      split; [reflexivity|]. intros _. eexists. exists s. eexists. split; [reflexivity|]. split; reflexivity.
    - intros l. eapply Simple; [reflexivity|reflexivity|reflexivity|reflexivity|]. intros _ v Sh. destruct v; try discriminate Sh. destruct (enum_name l z) as [n|] eqn:En.
      + split; [reflexivity|]. split; [reflexivity|]. intros _. eexists. exists z, n. eexists. split; [reflexivity|]. split; [exact En|]. split; reflexivity.
      + split; [reflexivity|]. split; [reflexivity|]. discriminate.
    - intros co t IH. eapply Simple; [reflexivity|reflexivity|reflexivity|reflexivity|]. intros W v Sh. apply wf_seq in W. destruct v; try discriminate Sh.
      destruct (list_told t l (Val t IH W) Sh) as (I1 & I2 & I3). split; [exact I1|]. split; [exact I2|]. intros N. destruct (I3 N) as (js & Hj). exists (Arr js), l, js. auto.
    - intros n t IH. eapply Simple; [reflexivity|reflexivity|reflexivity|reflexivity|]. intros W v Sh. destruct v; try discriminate Sh.
      cbn [shaped] in Sh. apply andb_prop in Sh as [L Sh]. destruct (list_told t l (Val t IH W) Sh) as (I1 & I2 & I3). rewrite L.
      split; [exact I1|]. split; [exact I2|]. intros N. destruct (I3 N) as (js & Hj). exists (Arr js), l, js. split; [reflexivity|]. split; [now apply Nat.eqb_eq|]. auto.
    - intros ts IH. eapply Simple; [reflexivity|reflexivity|reflexivity|reflexivity|]. intros W v Sh. destruct v; try discriminate Sh. cbn [shaped wf] in Sh, W.
      assert (G : forallb defined (pl_tuple (map P ts) l) = true /\ first_of (map (fun a => in_list (pfault a)) (pl_tuple (map P ts) l)) = first_of (in_tuple (map F ts) l) /\
        (first_of (in_tuple (map F ts) l) = None -> exists js, rel3 (map d_val (map D ts)) l js)).
      { revert l Sh. induction IH as [|t ts Ht IH IHts]; intros [|x l] Sh; try discriminate Sh; cbn [map pl_tuple in_tuple forallb all2b] in *.
        - split; [reflexivity|]. split; [reflexivity|]. intros _. now exists [].
        - apply andb_prop in W as [Wt W]. apply andb_prop in Sh as [Sx Sh]. destruct (IHts W l Sh) as (I1 & I2 & I3). destruct (Val t Ht Wt x Sx) as (X1 & X2 & X3).
          rewrite X1, I1, !first_cons, X2, I2. split; [reflexivity|]. split; [reflexivity|]. intros N.
          destruct (in_list (in_val (F t) x)) eqn:E; [discriminate N|]. apply in_list_none in E. destruct (X3 E) as (j & Hj). destruct (I3 N) as (js & Hjs). exists (j :: js). now split. }
      destruct G as (I1 & I2 & I3). split; [exact I1|]. split; [exact I2|]. intros N. destruct (I3 N) as (js & Hj). exists (Arr js), l, js. auto.
    - intros w t IH. eapply Simple; [reflexivity|reflexivity|reflexivity|reflexivity|]. intros W v Sh. destruct v; try discriminate Sh. cbn [shaped] in Sh.
      assert (G : forallb (fun e => defined (snd e)) (map (fun kv => (fst kv, pf_val (P t) (snd kv))) l) = true /\
        first_of (faults_in (map (fun kv => (fst kv, pf_val (P t) (snd kv))) l)) = first_of (map (fun kv => of_entry bad_text (fst kv) (in_val (F t) (snd kv))) l) /\
        (first_of (map (fun kv => of_entry bad_text (fst kv) (in_val (F t) (snd kv))) l) = None ->
           exists es, Forall2 (fun kv e => entry yaml_same (fst kv) (d_val (D t) (snd kv)) e) l es)).
      { induction l as [|[k x] l IHl]; [split; [|split]; try reflexivity; intros _; exists []; constructor|].
        cbn [forallb map fst snd] in *. apply andb_prop in Sh as [Sx Sh]. destruct (IHl Sh) as (I1 & I2 & I3). destruct (Val t IH W x Sx) as (X1 & X2 & X3).
        rewrite X1, I1, !first_cons, X2, I2. split; [reflexivity|]. split; [reflexivity|]. intros N.
        destruct (of_entry bad_text k (in_val (F t) x)) eqn:E; [discriminate N|]. apply entry_none in E. destruct (X3 E) as (j & Hj). destruct (I3 N) as (js & Hjs). exists ((k, j) :: js). constructor; [|exact Hjs].
        split; [reflexivity|exact Hj]. }
      destruct G as (I1 & I2 & I3). split; [exact I1|]. split; [exact I2|]. intros N. destruct (I3 N) as (js & Hj). exists (Obj js), l, js. auto.
    - intros t IH. eapply Simple; [reflexivity|reflexivity|reflexivity|reflexivity|]. intros W v Sh. destruct v as [| | | | |[x|]| | |]; try discriminate Sh.
      + destruct (Val t IH W x Sh) as (X1 & X2 & X3). split; [exact X1|]. split; [exact X2|]. intros N. destruct (X3 N) as (j & Hj). exists j. right. eauto.
      + split; [reflexivity|]. split; [reflexivity|]. intros _. exists (Scal (bs "null")). left. split; [reflexivity|]. eexists. split; reflexivity.
    - intros t IH. eapply Simple; [reflexivity|reflexivity|reflexivity|reflexivity|]. intros W v Sh. destruct v as [| | | | | |[x|]| |]; try discriminate Sh.
      + destruct (Val t IH W x Sh) as (X1 & X2 & X3). split; [exact X1|]. split; [exact X2|]. intros N. destruct (X3 N) as (j & Hj). exists j, x. auto.
      + split; [reflexivity|]. split; [reflexivity|]. discriminate.
    - intros i ms ps IHm IHp W v Sh. destruct (wf_struct _ _ _ W) as (L & Wm & Wp).
      destruct (shaped_struct _ _ _ _ Sh) as (own & par & -> & So & Sp).
      assert (Lm : List.length (map (nameOverride i) (si_names i)) = List.length ms) by (rewrite map_length; exact L).
      assert (Own : forall ns, List.length ns = List.length ms ->
        forallb (fun e => defined (snd e)) (pl_members ns (map opt_type ms) (map P ms) own) = true /\
        first_of (faults_in (pl_members ns (map opt_type ms) (map P ms) own)) = first_of (in_own bad_text ns ms (map F ms) own) /\
        (first_of (in_own bad_text ns ms (map F ms) own) = None -> exists a, own_members yaml_same ns ms (map D ms) own a)).
      { clear L Lm Sp Sh W. revert own So. induction IHm as [|t ts Ht IH IHts]; intros [|x own] So [|n ns] Ln; try discriminate So; try discriminate Ln.
        - split; [reflexivity|]. split; [reflexivity|]. intros _. now exists [].
        - cbn [map all2b] in So. apply andb_prop in So as [Sx So]. injection Ln as Ln.
          destruct (IHts (fun t' Ht' => Wm t' (or_intror Ht')) own So ns Ln) as (I1 & I2 & I3). destruct (Val t Ht (Wm t (or_introl eq_refl)) x Sx) as (X1 & X2 & X3).
          cbn [map pl_members in_own own_members].
          destruct (Serializer.keeps (opt_type t) x) eqn:K.
          + assert (E : forall (A : Type) (a b : A), match t, x with TOpt _, VOpt None => a | _, _ => b end = b).
            { intros A a b. destruct t; try reflexivity. destruct x as [| | | | | |[y|]| |]; try reflexivity. discriminate K. }
            rewrite E. cbn [map app forallb fst snd]. rewrite X1, I1, !first_cons, X2, I2. split; [reflexivity|]. split; [reflexivity|]. intros N.
            destruct (of_entry bad_text n (in_val (F t) x)) eqn:Eo; [discriminate N|]. apply entry_none in Eo. destruct (X3 Eo) as (j & Hj). destruct (I3 N) as (a & Ha).
            exists ((n, j) :: a). right. split; [intros Q; apply left_out_keeps in Q; congruence|]. exists (n, j), a. split; [reflexivity|]. split; [|exact Ha]. split; [reflexivity|exact Hj].
          + assert (Q : left_out t x) by now apply left_out_keeps. destruct Q as [(t' & ->) ->]. cbn [app]. split; [exact I1|]. split; [exact I2|]. intros N. destruct (I3 N) as (a & Ha).
            exists a. left. split; [|exact Ha]. split; [eauto|reflexivity]. }
      assert (Par : forallb (fun e => defined (snd e)) (pl_parents (map P ps) par) = true /\
        first_of (faults_in (pl_parents (map P ps) par)) = first_of (in_parents (map F ps) par) /\
        (first_of (in_parents (map F ps) par) = None -> exists b, parent_members (map D ps) par b)).
      { clear L Lm So Sh W Own. revert par Sp. induction IHp as [|t ts Ht IH IHts]; intros [|x par] Sp; try discriminate Sp.
        - split; [reflexivity|]. split; [reflexivity|]. intros _. now exists [].
        - cbn [map all2b] in Sp. apply andb_prop in Sp as [Sx Sp]. destruct (IHts (fun t' Ht' => Wp t' (or_intror Ht')) par Sp) as (I1 & I2 & I3).
          destruct (Wp t (or_introl eq_refl)) as [Ct Wt]. destruct (proj2 (Ht Wt x Sx) Ct) as (M1 & M2 & _ & M4).
          cbn [map pl_parents in_parents parent_members]. rewrite map_app, forallb_app, M1, I1, first_app, first_cons. unfold bytes in *. rewrite M2, I2. split; [reflexivity|]. split; [now destruct (in_mem (F t) x)|]. intros N.
          destruct (in_mem (F t) x) eqn:E; [discriminate N|]. destruct (M4 eq_refl) as (a & Ha). destruct (I3 N) as (b & Hb). exists (a ++ b), a, b. auto. }
      assert (Mem : as_told_mem (TStruct i ms ps) (VStruct own par)).
      { destruct (Own _ Lm) as (O1 & O2 & O3). destruct Par as (Q1 & Q2 & Q3). unfold as_told_mem. cbn [plan_of pf_mem pf_poly faults_of in_mem class_name].
        rewrite map_app, forallb_app, O1, Q1, !first_app. unfold bytes in *. rewrite O2, Q2. split; [reflexivity|]. split; [reflexivity|]. split; [reflexivity|]. intros N.
        destruct (first_of (in_own _ _ _ _ _)) eqn:E; [discriminate N|]. destruct (O3 eq_refl) as (a & Ha). destruct (Q3 N) as (b & Hb). exists (a ++ b), own, par, a, b. auto. }
      split; [|intros _; exact Mem]. unfold as_told. cbn [plan_of pf_val faults_of in_val yaml_sense_with sense_of d_val]. destruct (si_mark i).
      + destruct (tag_told (si_poly i) (TStruct i ms ps) (VStruct own par) Mem eq_refl) as (T1 & T2 & T3). split; [exact T1|]. split; [exact T2|]. intros N. destruct (T3 N) as (j & e & l & -> & Te & Tl). exists (Obj (e :: l)), e, l. auto.
      + destruct Mem as (M1 & M2 & _ & M4). split; [exact M1|]. split; [exact M2|]. intros N. destruct (M4 N) as (l & Hl). exists (Obj l), l. auto.
    - intros cs b IH. rewrite Forall_forall in IH. eapply Simple; [reflexivity|reflexivity|reflexivity|reflexivity|]. intros W v Sh. destruct v as [| | | | |[[]|]| | |]; try discriminate Sh.
      + cbn [shaped] in Sh. rewrite nth_error_map in Sh. destruct (nth_error cs i) as [c|] eqn:Ec; [|discriminate Sh]. cbn [option_map] in Sh.
        cbn [wf] in W. rewrite forallb_forall in W. assert (Ic := nth_error_In _ _ Ec). destruct (andb_prop _ _ (W c Ic)) as [Cc Wc]. assert (M := proj2 (IH c Ic Wc v Sh) Cc).
        destruct (tag_told (class_name c) c v M eq_refl) as (T1 & T2 & T3). rewrite !nth_error_map, Ec. cbn [option_map]. destruct M as (_ & _ & Mp & _).
        change (pf_poly (P c) v = PMap ((marker, PScal (class_name c)) :: pf_mem (P c) v)) in Mp. split; [etransitivity; [apply f_equal; exact Mp|exact T1]|]. split; [etransitivity; [apply f_equal; exact Mp|exact T2]|].
        intros N. destruct (T3 N) as (j & Hj). exists j. right. exists i, c, (D c), v. rewrite nth_error_map, Ec. auto.
      + split; [reflexivity|]. split; [reflexivity|]. intros _. exists (Scal (bs "null")). left. split; [reflexivity|]. eexists. split; reflexivity.
    - intros cs IH. rewrite Forall_forall in IH. eapply Simple; [reflexivity|reflexivity|reflexivity|reflexivity|]. intros W v Sh. destruct v; try discriminate Sh.
      cbn [shaped] in Sh. rewrite nth_error_map in Sh. destruct (nth_error cs i) as [c|] eqn:Ec; [|discriminate Sh]. cbn [option_map] in Sh.
      cbn [wf] in W. apply andb_prop in W as [W _]. rewrite forallb_forall in W. assert (Ic := nth_error_In _ _ Ec). destruct (andb_prop _ _ (W c Ic)) as [Cc Wc]. assert (M := proj2 (IH c Ic Wc v Sh) Cc).
      destruct (tag_told (class_name c) c v M eq_refl) as (T1 & T2 & T3). rewrite !nth_error_map, Ec. cbn [option_map]. destruct M as (_ & _ & Mp & _).
      split; [etransitivity; [apply f_equal; exact Mp|exact T1]|]. split; [etransitivity; [apply f_equal; exact Mp|exact T2]|].
      intros N. destruct (T3 N) as (j & Hj). exists j, i, c, (D c), v. rewrite nth_error_map, Ec. auto.
  Qed.
End Plans.

(** ** A whole export *)
Section Export.
  Context (num : ity -> Z -> option bytes) (Int : ity -> Z -> bytes -> Prop) (HInt : forall i z a, Int i z a <-> num i z = Some a) (numf : ity -> Z -> option spot) (Hnum : forall i z, of_written bad_text (num i z) = numf i z) (c : fconfig) (o : outside).
  Definition closed (es : list yev) (p : yprinter) : Prop := opens p = [] /\ em_events (yp_em p) = es /\ em_text (yp_em p) = false /\ exists l ls, levels_of p = l :: ls.

  Lemma close_doc : o_good o = true -> forall p, opens p = [XDone] -> exists p', y_closeDoc o p = YDone p' /\ opens p' = [] /\ em_text (yp_em p') = false /\
    em_events (yp_em p') = em_events (yp_em p) ++ [YDocEnd] /\ levels_of p' = levels_of p /\ yp_error p' = yp_error p.
  Proof.
    intros G p O. unfold y_closeDoc. destruct (event_taken o G YDocEnd p [] ltac:(now rewrite O)) as (n & ->). cbn [y_then]. unfold em_flush. rewrite G.
    cbn [yp_em em_text andb negb y_check]. eexists. split; [reflexivity|]. unfold opens, levels_of. cbn. auto 10.
  Qed.
  Lemma new_printer : exists n, y_new o = YDone (mkYp false [(0, LvValue)] (mkEm [] [YStreamStart] false n)).
  Proof. unfold y_new, y_start, y_event_out, em_emit, em_stuck. cbn [yp_em em_open em_new takes em_text]. rewrite andb_false_r. cbn [y_check y_then y_push]. eexists. reflexivity. Qed.
  Lemma open_doc : o_good o = true -> forall p, opens p = [] -> exists p', y_openDoc o p = YDone p' /\ opens p' = [XRoot] /\
    em_events (yp_em p') = em_events (yp_em p) ++ [YDocStart] /\ levels_of p' = levels_of p /\ yp_error p' = yp_error p.
  Proof. intros G p O. unfold y_openDoc. destruct (event_taken o G YDocStart p [XRoot] ltac:(now rewrite O)) as (n & ->). eexists. split; [reflexivity|]. auto. Qed.
  Lemma reset_runs : o_good o = true -> forall p, opens p = [] -> em_text (yp_em p) = false -> exists p', y_reset o p = YDone p' /\ opens p' = [] /\
    em_events (yp_em p') = [YStreamStart] /\ levels_of p' = [LvValue] /\ yp_error p' = yp_error p.
  Proof.
    intros G p O T. unfold y_reset, y_complete. destruct (yp_error p) eqn:Er.
    - cbn [y_then]. unfold em_flush. rewrite T. cbn [andb y_check y_then]. unfold y_start, y_event_out, em_emit, em_stuck. cbn [yp_em em_open em_new takes em_text yp_error yp_state]. rewrite G.
      cbn [negb andb y_check y_then y_push]. eexists. split; [reflexivity|]. auto.
    - destruct (event_taken o G YStreamEnd p [] ltac:(now rewrite O)) as (n & ->). cbn [y_then]. unfold em_flush. cbn [yp_em em_text andb y_check y_then].
      unfold y_start, y_event_out, em_emit, em_stuck. cbn [yp_em em_open em_new takes em_text yp_error yp_state]. rewrite G.
      cbn [negb andb y_check y_then y_push]. eexists. split; [reflexivity|]. auto.
  Qed.
  (** The destructor of the printer has nothing to write. *)
  Lemma complete_runs : forall o' p, opens p = [] -> em_text (yp_em p) = false -> exists p', y_complete o' p = YDone p'.
  Proof.
    intros o' p O T. unfold y_complete. destruct (yp_error p).
    - cbn [y_then]. unfold em_flush. rewrite T. cbn. eauto.
    - unfold y_event_out, em_emit, em_stuck. unfold opens in O. rewrite O, T. cbn [takes]. rewrite andb_false_r. cbn [y_check y_then em_flush yp_em em_text andb]. eauto.
  Qed.

  Theorem export_runs_opt : forall k t v, o_good o = true -> wf t = true -> shaped t v = true ->
    match first_fault_with bad_text numf (pf_marker c) t v with
    | None => exists j, d_val (yaml_sense_with Int (pf_marker c) t) v j /\ yaml_events_opt num c o k t v = WDone (YStreamStart :: doc_events (node_of j))
    | Some Element | Some Key => yaml_events_opt num c o k t v = WFailed (negb (pf_catch c))
    | Some Whole | Some Value => yaml_events_opt num c o k t v = WTerminated
    end.
  Proof.
    intros k t v G W Sh. destruct (plan_told num Int HInt numf Hnum (pf_marker c) t W v Sh) as [(D1 & D2 & D3) _]. unfold first_fault_with. unfold yaml_events_opt.
    set (a := pf_val _ v) in *. destruct new_printer as (n & ->). cbn [y_then]. unfold y_insert.
    set (p0 := mkYp _ _ _). destruct (open_doc G p0 eq_refl) as (p1 & -> & O1 & Ev1 & L1 & Er1). cbn [y_then].
    assert (R := run_runs o G a p1 [XDone] LvValue [] D1 ltac:(now rewrite O1) L1). rewrite <- D2 in *.
    assert (Fail : forall p', opens p' = [XDone] -> y_print o k a p1 = YRaised p' ->
      match y_destroy (YRaised p') (y_closeDoc o) with
      | YDone p => match y_destroy (YDone p) (y_complete o) with YDone _ => WDone (em_events (yp_em p)) | YTerm => WTerminated | _ => WUndef end
      | YRaised p => match y_destroy (YRaised p) (y_complete (mkOut false (o_full o))) with YRaised _ => WFailed (negb (pf_catch c)) | YTerm => WTerminated | _ => WUndef end
      | YTerm => WTerminated
      | YUndef => WUndef
      end = WFailed (negb (pf_catch c))).
    { intros p' O' _. cbn [y_destroy]. destruct (close_doc G p' O') as (p2 & -> & O2 & T2 & _). destruct (complete_runs (mkOut false (o_full o)) p2 O2 T2) as (p3 & ->). reflexivity. }
    destruct (pfault a) as [[]|] eqn:Pf; cbn [runs_to] in R.
    - destruct R as (p' & R & O' & L'). assert (E : y_print o k a p1 = YRaised p') by (destruct k; cbn [y_print]; rewrite R; reflexivity). rewrite E. cbn [y_destroy].
      unfold y_closeDoc. destruct (event_refused o YDocEnd p') as (p2 & -> & _); [now rewrite O', O1|]. reflexivity.
    - destruct R as (p' & R & O' & L'). assert (E : y_print o k a p1 = YRaised p') by (destruct k; cbn [y_print]; rewrite R; reflexivity). rewrite E. exact (Fail p' O' E).
    - destruct R as (p' & R & O' & L'). assert (E : y_print o k a p1 = YRaised p') by (destruct k; cbn [y_print]; rewrite R; reflexivity). rewrite E. exact (Fail p' O' E).
    - assert (E : y_print o k a p1 = YTerm) by (destruct k; cbn [y_print]; rewrite R; reflexivity). rewrite E. reflexivity.
    - destruct (D3 ltac:(congruence)) as (j & Hj). exists j. split; [exact Hj|]. destruct R as (p' & R & O' & L' & Er & Ev & Tx).
      assert (Evs : plan_events a = node_events (node_of j)) by (unfold a; rewrite (proj1 (doc_plan num Int HInt (pf_marker c) t v) j Hj); apply tree_events).
      assert (Finish : forall p, opens p = [XDone] -> em_events (yp_em p) = YStreamStart :: YDocStart :: node_events (node_of j) -> y_print o k a p1 = YDone p ->
        match y_destroy (y_print o k a p1) (y_closeDoc o) with
        | YDone p => match y_destroy (YDone p) (y_complete o) with YDone _ => WDone (em_events (yp_em p)) | YTerm => WTerminated | _ => WUndef end
        | YRaised p => match y_destroy (YRaised p) (y_complete (mkOut false (o_full o))) with YRaised _ => WFailed (negb (pf_catch c)) | YTerm => WTerminated | _ => WUndef end
        | YTerm => WTerminated
        | YUndef => WUndef
        end = WDone (YStreamStart :: doc_events (node_of j))).
      { intros p O Ep ->. cbn [y_destroy]. destruct (close_doc G p O) as (p2 & -> & O2 & T2 & Ev2 & _). destruct (complete_runs o p2 O2 T2) as (p3 & ->). rewrite Ev2, Ep. reflexivity. }
      destruct k.
      + apply (Finish p'); [exact O'| |exact R]. rewrite Ev, Ev1, Evs. reflexivity.
      + destruct (close_doc G p' O') as (p2 & C2 & O2 & T2 & Ev2 & L2 & Er2). destruct (reset_runs G p2 O2 T2) as (p3 & C3 & O3 & Ev3 & L3 & Er3).
        destruct (open_doc G p3 O3) as (p4 & C4 & O4 & Ev4 & L4 & Er4). rewrite L3 in L4.
        assert (R4 := run_runs o G a p4 [XDone] LvValue [] D1 ltac:(now rewrite O4) L4). rewrite Pf in R4. cbn [runs_to] in R4. destruct R4 as (p5 & C5 & O5 & L5 & Er5 & Ev5 & Tx5).
        apply (Finish p5); [exact O5| |].
        * rewrite Ev5, Ev4, Ev3, Evs. reflexivity.
        * cbn [y_print]. rewrite R. cbn [y_then]. rewrite C2. cbn [y_then]. rewrite C3. cbn [y_then]. rewrite C4. cbn [y_then]. exact C5.
  Qed.
End Export.
(** Writing that does not throw. *)
Lemma some_text : forall (num : ity -> Z -> bytes) i z a, a = num i z <-> Some (num i z) = Some a.
Proof. intros num i z a. split; congruence. Qed.
Theorem export_runs_with : forall num numf, (forall i z, of_text bad_text (num i z) = numf i z) -> forall c o k t v, o_good o = true -> wf t = true -> shaped t v = true ->
  match first_fault_with bad_text numf (pf_marker c) t v with
  | None => exists j, d_val (yaml_sense_with (fun i z a => a = num i z) (pf_marker c) t) v j /\ yaml_events_with num c o k t v = WDone (YStreamStart :: doc_events (node_of j))
  | Some Element | Some Key => yaml_events_with num c o k t v = WFailed (negb (pf_catch c))
  | Some Whole | Some Value => yaml_events_with num c o k t v = WTerminated
  end.
Proof. intros num numf Hn. exact (export_runs_opt (fun i z => Some (num i z)) (fun i z a => a = num i z) (some_text num) numf Hn). Qed.
Lemma numbers_written : forall (i : ity) z, of_text bad_text (int_dec z) = None.
Proof. intros i z. unfold of_text. now rewrite number_text. Qed.
Corollary export_runs : forall c o k t v, o_good o = true -> wf t = true -> shaped t v = true ->
  match first_fault bad_text (pf_marker c) t v with
  | None => exists j, yaml_stands (pf_marker c) t v j /\ yaml_events c o k t v = WDone (YStreamStart :: doc_events (node_of j))
  | Some Element | Some Key => yaml_events c o k t v = WFailed (negb (pf_catch c))
  | Some Whole | Some Value => yaml_events c o k t v = WTerminated
  end.
Proof. exact (export_runs_with (fun _ => int_dec) (fun _ _ => None) numbers_written). Qed.

(** ** An output that takes nothing *)
Section Bad.
  Variables (num : ity -> Z -> option bytes) (c : fconfig) (o : outside).
  Hypothesis Ho : o_good o = false.
  Definition steady (p : yprinter) (r : yres) : Prop :=
    match r with
    | YDone p' | YRaised p' => em_text (yp_em p') = true /\ levels_of p' = levels_of p
    | YTerm => True
    | YUndef => False
    end.
  Lemma steady_event : forall e p, em_text (yp_em p) = true -> e <> YStreamEnd -> steady p (y_event_out o e p).
  Proof.
    intros e p T N. unfold y_event_out, em_emit. destruct (takes e _) as [st|]; [|split; [exact T|reflexivity]]. destruct (em_stuck o e _); cbn [y_check steady yp_em em_text]; [auto|].
    split; [|reflexivity]. destruct e; congruence || exact T || reflexivity.
  Qed.
  Lemma steady_then : forall p r f, steady p r -> (forall p', em_text (yp_em p') = true -> levels_of p' = levels_of p -> steady p (f p')) -> steady p (y_then r f).
  Proof. intros p [p'|p'| |] f H Hf; cbn [y_then]; auto. destruct H as [T L]. now apply Hf. Qed.
  Lemma steady_emit : forall s p l ls, em_text (yp_em p) = true -> levels_of p = l :: ls -> steady p (y_emit o s p).
  Proof.
    intros s p l ls T L. unfold y_emit. destruct (check_utf8 s); [|now split]. apply steady_then; [now apply steady_event|]. intros p' T' L'. unfold y_count, levels_of in *.
    destruct (yp_state p') as [|[n l'] st]; [rewrite L in L'; discriminate L'|]. split; [exact T'|exact L'].
  Qed.
  Lemma steady_key : forall s p l ls, em_text (yp_em p) = true -> levels_of p = l :: ls -> steady p (y_addKey o s p).
  Proof.
    intros s p l ls T L. assert (S := steady_emit s p l ls T L). unfold y_addKey, levels_of in *. destruct (yp_state p) as [|[n l'] st] eqn:E; [discriminate L|].
    destruct (negb _ && negb _); [|exact S]. split; [exact T|]. unfold levels_of. cbn [yp_state]. now rewrite E.
  Qed.
  Lemma steady_close : forall m p q, em_text (yp_em q) = true -> (exists l, levels_of q = l :: levels_of p) ->
    match y_closeBlock o m q with YDone p' => em_text (yp_em p') = true /\ levels_of p' = levels_of p | YUndef => False | _ => True end.
  Proof.
    intros m p q T (l & L). unfold y_closeBlock. assert (E := steady_event (if m then YMapEnd else YSeqEnd) q T ltac:(destruct m; discriminate)).
    destruct (y_event_out o _ q) as [q1|q1| |]; cbn [y_then steady] in *; auto. destruct E as [T1 L1]. rewrite L in L1. unfold y_pop, levels_of in *.
    destruct (yp_state q1) as [|x st]; [discriminate L1|]. split; [exact T1|]. cbn [yp_state]. now injection L1.
  Qed.
  Lemma steady_block : forall m p (body : yprinter -> yres), em_text (yp_em p) = true ->
    (forall q l ls, em_text (yp_em q) = true -> levels_of q = l :: ls -> steady q (body q)) ->
    steady p (y_then (y_openBlock o m p) (fun p => y_destroy (body p) (y_closeBlock o m))).
  Proof.
    intros m p body T H. unfold y_openBlock. assert (E := steady_event (if m then YMapStart else YSeqStart) p T ltac:(destruct m; discriminate)).
    destruct (y_event_out o _ p) as [p1|p1| |]; cbn [y_then]; auto. destruct E as [T1 L1]. cbn [y_push y_then].
    match goal with |- steady _ (y_destroy (body ?q) _) => set (p2 := q) end.
    assert (B := H p2 (if m then LvMap else LvArray) (levels_of p1) T1 eq_refl).
    destruct (body p2) as [q|q| |]; cbn [y_destroy steady] in *; auto; destruct B as [Tq Lq];
      (assert (C := steady_close m p q Tq ltac:(eexists; rewrite Lq, <- L1; reflexivity)); destruct (y_closeBlock o m q); exact C || exact I || idtac).
  Qed.
  Theorem steady_run : forall a p l ls, defined a = true -> em_text (yp_em p) = true -> levels_of p = l :: ls -> steady p (run o a p).
  Proof.
    refine (plan_ind' (fun a => forall p l ls, defined a = true -> em_text (yp_em p) = true -> levels_of p = l :: ls -> steady p (run o a p)) _ _ _ _ _).
    - intros s p l ls _ T L. exact (steady_emit s p l ls T L).
    - intros p l ls _ T L. now split.
    - intros p l ls D. discriminate D.
    - intros l F p lv ls D T L. cbn [run]. refine (steady_block false p _ T _). clear p lv ls T L. cbn [defined] in D.
      induction F as [|a r Ha F IH]; intros q lv ls T L; [now split|]. cbn [forallb] in D. apply andb_true_iff in D. destruct D as [Da Dr].
      apply steady_then; [exact (Ha q lv ls Da T L)|]. intros p' T' L'. assert (R := IH Dr p' lv ls T' ltac:(congruence)). unfold steady in *. now rewrite <- L'.
    - intros l F p lv ls D T L. cbn [run]. refine (steady_block true p _ T _). clear p lv ls T L. cbn [defined] in D.
      induction F as [|[k a] r Ha F IH]; intros q lv ls T L; [now split|]. cbn [forallb snd] in D, Ha. apply andb_true_iff in D. destruct D as [Da Dr].
      apply steady_then.
      + apply steady_then; [exact (steady_key k q lv ls T L)|]. intros p' T' L'. assert (R := Ha p' lv ls Da T' ltac:(congruence)). unfold steady in *. now rewrite <- L'.
      + intros p' T' L'. assert (R := IH Dr p' lv ls T' ltac:(congruence)). unfold steady in *. now rewrite <- L'.
  Qed.
  Lemma close_doc_fails : forall p, em_text (yp_em p) = true -> exists p', y_closeDoc o p = YRaised p'.
  Proof.
    intros p T. unfold y_closeDoc, y_event_out, em_emit. destruct (takes _ _); [|cbn; eauto]. destruct (em_stuck o _ _); [cbn; eauto|]. cbn [y_check y_then].
    unfold em_flush. cbn [yp_em em_text]. rewrite Ho. cbn. eauto.
  Qed.
  (** The second event is the start of the document: it finds an empty buffer. *)
  Theorem bad_output : forall t v, o_full o 1%nat = false -> wf t = true -> shaped t v = true -> yaml_events_opt num c o ToStream t v = WTerminated.
  Proof.
    intros t v H1 W Sh. destruct (plan_told num _ (fun i z a => iff_refl _) _ (fun _ _ => eq_refl) (pf_marker c) t W v Sh) as [(D1 & _ & _) _]. unfold yaml_events_opt.
    set (a := pf_val _ v) in *. unfold y_new, y_start, y_event_out, em_emit, em_stuck. cbn [yp_em em_open em_new takes em_text]. rewrite andb_false_r. cbn [y_check y_then y_push].
    unfold y_insert, y_openDoc, y_event_out, em_emit, em_stuck. cbn [yp_em em_open em_new takes em_calls]. rewrite H1, andb_false_r. cbn [y_check y_then y_print].
    match goal with |- context [run o a ?q] => set (p1 := q) end. assert (R := steady_run a p1 LvValue [] D1 eq_refl eq_refl).
    destruct (run o a p1) as [p'|p'| |]; cbn [y_destroy steady] in *; [| |reflexivity|contradiction]; destruct R as [T' _]; destruct (close_doc_fails p' T') as (p2 & ->); reflexivity.
  Qed.
End Bad.
