(** The announced size of a value is the length of its document without white space. *)
From Coq Require Import ZArith String List Bool Lia ZifyBool.
From Verif Require Import Model.Base Model.Source Model.Number Model.Unicode Model.Printer Model.JsonPrinter Model.Types Model.Serializer Model.Exporter
  Spec.JsonString Spec.Json Spec.Typed Spec.Import Spec.Denotes Spec.Sizes Proofs.Induct Proofs.UnicodeP Proofs.TypedP Proofs.InterpP Proofs.DenotesP Proofs.PrintP Proofs.DocP Proofs.ExportP.
Import ListNotations.
Open Scope Z_scope.

Definition vals_size (l : list jv) : Z := fold_right (fun j z => zlen (compact j) + z) 0 l.
Definition mems_size (l : list (bytes * jv)) : Z := fold_right (fun kv z => (zlen (fst kv) + 2 + zlen (compact (snd kv))) + z) 0 l.
Lemma zlen_app : forall {X} (a b : list X), zlen (a ++ b) = zlen a + zlen b.
Proof. intros. unfold zlen. rewrite app_length. lia. Qed.
Lemma zlen_cons : forall {X} (a : X) b, zlen (a :: b) = 1 + zlen b.
Proof. intros. unfold zlen. cbn [List.length]. lia. Qed.
Lemma zlen_nonneg : forall {X} (a : list X), 0 <= zlen a.
Proof. intros. unfold zlen. lia. Qed.
Lemma mems_size_app : forall a b, mems_size (a ++ b) = mems_size a + mems_size b.
Proof.
  induction a as [|x a IH]; intros b; [reflexivity|].
  change (mems_size ((x :: a) ++ b)) with (zlen (fst x) + 2 + zlen (compact (snd x)) + mems_size (a ++ b)).
  change (mems_size (x :: a)) with (zlen (fst x) + 2 + zlen (compact (snd x)) + mems_size a). rewrite IH. lia.
Qed.
Lemma commas_len : forall l, zlen (commas l) = fold_right (fun a z => zlen a + z) 0 l + (if zlen l =? 0 then 0 else zlen l - 1).
Proof.
  intros [|a l]; [reflexivity|]. cbn [commas fold_right]. rewrite zlen_app, zlen_cons. assert (Q := zlen_nonneg l). destruct (1 + zlen l =? 0) eqn:E; [lia|].
  assert (G : zlen (flat_map (fun b : list Z => 44 :: b) l) = fold_right (fun a z => zlen a + z) 0 l + zlen l).
  { clear. induction l as [|b l IH]; [reflexivity|]. cbn [flat_map fold_right]. rewrite zlen_app, !zlen_cons, IH. lia. }
  rewrite G. lia.
Qed.
Lemma arr_len : forall l : list jv, zlen (compact (Arr l)) = js_szArray (zlen l) + vals_size l.
Proof.
  intros l. cbn [compact]. rewrite zlen_cons, zlen_app, commas_len. unfold js_szArray. replace (zlen (map compact l)) with (zlen l) by (unfold zlen; now rewrite map_length).
  replace (fold_right _ 0 (map compact l)) with (vals_size l) by (clear; induction l as [|a l IH]; cbn [map fold_right vals_size]; [reflexivity|]; fold (vals_size l); lia).
  change (zlen [93]) with 1. destruct (zlen l =? 0) eqn:E; lia.
Qed.
Lemma obj_len : forall l : list (bytes * jv), zlen (compact (Obj l)) = js_szMap (zlen l) + mems_size l.
Proof.
  intros l. change (compact (Obj l)) with (123 :: commas (map member_text l) ++ [125]). rewrite zlen_cons, zlen_app, commas_len. unfold js_szMap, bytes, jv in *.
  assert (Q : zlen (map member_text l) = zlen l) by (unfold zlen; now rewrite map_length). unfold bytes, jv in *. rewrite Q.
  replace (fold_right _ 0 (map member_text l)) with (mems_size l + zlen l).
  { change (zlen [125]) with 1. unfold bytes, jv in *. destruct (zlen l =? 0) eqn:E; lia. }
  clear. induction l as [|[k v] l IH]; [reflexivity|]. cbn [map fold_right]. rewrite <- IH. unfold member_text at 1.
  change (mems_size ((k, v) :: l)) with (zlen k + 2 + zlen (compact v) + mems_size l). cbn [fst snd]. rewrite zlen_app, !zlen_cons, zlen_app.
  change (zlen [34]) with 1. lia.
Qed.
Lemma size_int_len : forall z, 0 <= z -> size_int z = zlen (nat_dec z).
Proof. intros z H. unfold size_int, zlen. destruct (Z.eqb_spec z 0) as [->|]; [now vm_compute|reflexivity]. Qed.
Lemma int_size : forall i z, fits i z -> (z <> i_min i \/ i_bits i = 16 \/ i_signed i = false) -> js_szInt i z = Ok (zlen (int_dec z)).
Proof.
  intros i z F H. unfold js_szInt, int_dec. destruct (z <? 0) eqn:E.
  - replace ((z =? i_min i) && negb (i_bits i =? 16)) with false.
    + rewrite size_int_len by lia. rewrite zlen_cons. f_equal. lia.
    + destruct H as [H|[H|H]]; [lia|rewrite H; cbn; now rewrite andb_false_r|]. unfold fits in F. rewrite H in F. lia.
  - rewrite size_int_len by lia. reflexivity.
Qed.
Lemma str_size : forall s, plain s -> zlen (compact (jstr s)) = zlen s + 2.
Proof. intros s H. cbn [compact jstr scalar_bytes]. rewrite (plain_escape _ H), zlen_cons, zlen_app. change (zlen [34]) with 1. lia. Qed.

Section Sizes.
  Context (c : fconfig) (marker : bytes).
  Notation S := (ser (json_printer c) marker).
  Notation D := (doc_of int_num marker).

  Definition right_total (t : ty) (v : val) : Prop := forall l acc s, dc_members (D t) v = Ok l ->
    sf_total (S t) v acc s = Ok (snd acc + mems_size l + js_szMap (fst acc + zlen l), (fst acc + zlen l, snd acc + mems_size l)).
  Definition right_size (w : place) (t : ty) (v : val) : Prop :=
    match w with
    | AsValue p => forall j s, dc_val (D t) v = Ok j -> sf_size (S t) p v s = Ok (zlen (compact j))
    | AsTagged p => is_class t = true -> forall j s, dc_tagged (D t) v = Ok j -> sf_size (S t) p v s = Ok (zlen (compact j))
    | AsParent => True
    end /\ (is_class t = true -> right_total t v).

  Lemma elems_size : forall t l, (forall v, In v l -> right_size (AsValue false) t v) -> forall js s, all_ok (map (dc_val (D t)) l) = Ok js ->
    size_elems (json_printer c) (S t) l s = Ok (zlen (compact (Arr js))).
  Proof.
    intros t l H js s E. rewrite arr_len. unfold size_elems. cbn [json_printer pr_szArray pr_push].
    assert (G : zlen js = zlen l /\ sum_sizes (map (fun v => sf_size (S t) false v s) l) = Ok (vals_size js)).
    { revert js E. induction l as [|v l IH]; intros js E; cbn [map all_ok sum_sizes] in *; [injection E as <-; split; reflexivity|].
      apply bind_ok in E as (j & E1 & E). apply bind_ok in E as (js' & E2 & E). injection E as <-.
      destruct (IH (fun v h => H v (or_intror h)) js' E2) as [L Q]. rewrite !zlen_cons, L. split; [reflexivity|].
      rewrite (proj1 (H v (or_introl eq_refl)) j s E1). cbn [bind]. rewrite Q. reflexivity. }
    destruct G as [L Q]. rewrite Q, L. reflexivity.
  Qed.
  Lemma tuple_size : forall ts l, (forall i t v, nth_error ts i = Some t -> nth_error l i = Some v -> right_size (AsValue false) t v) ->
    forall js s, zip_ok (map D ts) l = Ok js -> size_tuple (map S ts) l s = Ok (vals_size js) /\ zlen js = zlen ts.
  Proof.
    induction ts as [|t ts IH]; intros [|v l] H js s E; cbn [map zip_ok size_tuple] in *; try discriminate E.
    - injection E as <-. split; reflexivity.
    - apply bind_ok in E as (j & E1 & E). apply bind_ok in E as (js' & E2 & E). injection E as <-.
      destruct (IH l (fun i => H (Datatypes.S i)) js' s E2) as [Q L]. rewrite !zlen_cons, L. split; [|reflexivity].
      rewrite (proj1 (H O t v eq_refl eq_refl) j s E1). cbn [bind]. rewrite Q. reflexivity.
  Qed.
  Lemma own_size : forall ns ts vs, (forall i t v, nth_error ts i = Some t -> nth_error vs i = Some v -> right_size (AsValue false) t v) ->
    forall l s, own_ok ns (map opt_type ts) (map D ts) vs = Ok l ->
    size_members (json_printer c) ns (map opt_type ts) (map S ts) vs s = Ok (mems_size l, zlen l).
  Proof.
    induction ns as [|n ns IH]; intros [|t ts] [|v vs] H l s E; cbn [map own_ok size_members] in *; try discriminate E.
    - injection E as <-. reflexivity.
    - apply bind_ok in E as (a & E1 & E). apply bind_ok in E as (b & E2 & E). injection E as <-.
      rewrite (IH ts vs (fun i => H (Datatypes.S i)) b s E2). rewrite mems_size_app, zlen_app.
      destruct (Serializer.keeps (opt_type t) v).
      + apply bind_ok in E1 as (j & E1 & E3). injection E3 as <-. rewrite (proj1 (H O t v eq_refl eq_refl) j s E1). cbn [bind json_printer pr_szMember].
        repeat f_equal. cbn [mems_size fold_right fst snd]. unfold zlen. lia.
      + injection E1 as <-. reflexivity.
  Qed.
  Lemma parents_size : forall ps vs, (forall i t v, nth_error ps i = Some t -> nth_error vs i = Some v -> right_total t v) ->
    forall l r acc s, par_ok (map D ps) vs = Ok l -> (ps = [] -> r = snd acc + js_szMap (fst acc)) ->
    total_parents (map S ps) vs r acc s = Ok (snd acc + mems_size l + js_szMap (fst acc + zlen l), (fst acc + zlen l, snd acc + mems_size l)).
  Proof.
    induction ps as [|t ps IH]; intros [|v vs] H l r acc s E R; cbn [map par_ok total_parents] in *; try discriminate E.
    - injection E as <-. rewrite (R eq_refl). change (mems_size []) with 0. change (zlen []) with 0. rewrite !Z.add_0_r. destruct acc; reflexivity.
    - apply bind_ok in E as (a & E1 & E). apply bind_ok in E as (b & E2 & E). injection E as <-.
      rewrite (H O t v eq_refl eq_refl a acc s E1). cbn [bind].
      rewrite (IH vs (fun i => H (Datatypes.S i)) b _ _ s E2); [|intros ->; reflexivity]. cbn [fst snd]. rewrite mems_size_app, zlen_app, !Z.add_assoc. reflexivity.
  Qed.

  Theorem sizes_right : forall t v w, wf t = true -> shaped t v = true -> each valid_here t v -> sized_value t v -> sized_type t -> marker_counted w t = true ->
    right_size w t v.
  Proof.
    unfold sized_value, sized_type.
    assert (Plain : forall t v w (f : outcome jv), is_class t = false -> (forall p s j, w = AsValue p -> dc_val (D t) v = Ok j -> sf_size (S t) p v s = Ok (zlen (compact j))) -> right_size w t v).
    { intros t v w f Nc H. split; [|congruence]. destruct w; [intros j s E; now apply H|congruence|exact I]. }
    apply (ty_ind' (fun t => forall v w, wf t = true -> shaped t v = true -> each valid_here t v -> each _ t v -> types _ t -> marker_counted w t = true -> right_size w t v)).
    - intros i v w W Sh V Sv St M. destruct v; try discriminate Sh. apply (Plain _ _ _ UB); [reflexivity|]. intros p s j _ E. injection E as <-.
      apply each_here in V. apply each_here in Sv. cbn [ser sf_size mkSv json_printer pr_szInt compact scalar_bytes]. now apply int_size.
    - intros v w W Sh V Sv St M. destruct v; try discriminate Sh. apply (Plain _ _ _ UB); [reflexivity|]. intros p s j _ E. injection E as <-. destruct b; reflexivity.
    - intros v w W Sh V Sv St M. destruct v; try discriminate Sh. apply (Plain _ _ _ UB); [reflexivity|]. intros p s' j _ E. injection E as <-.
      apply each_here in Sv. rewrite (str_size _ Sv). reflexivity.
    - intros l v w W Sh V Sv St M. destruct v; try discriminate Sh. apply (Plain _ _ _ UB); [reflexivity|]. intros p s j _ E. apply types_here in St.
      cbn [doc_of plain_doc dc_val] in E. cbn [ser sf_size mkSv json_printer pr_szStr]. destruct (enum_name l z) as [n|] eqn:En; [|discriminate E]. injection E as <-.
      rewrite str_size; [reflexivity|]. rewrite Forall_forall in St. clear -St En. induction l as [|[y m] l IH]; cbn in En; [discriminate|].
      destruct (y =? z); [injection En as ->; apply (St (y, n)); now left|]. apply IH; [|exact En]. intros x Hx. apply St. now right.
    - intros co t IH v w W Sh V Sv St M. apply wf_seq in W. destruct v; try discriminate Sh. apply (Plain _ _ _ UB); [reflexivity|]. intros p s j _ E.
      cbn [doc_of plain_doc dc_val] in E. apply bind_ok in E as (js & E & Ej). injection Ej as <-. cbn [ser sf_size mkSv].
      apply (elems_size t l); [|exact E]. intros v Hv. cbn [shaped] in Sh. rewrite forallb_forall in Sh.
      destruct V as [_ V], Sv as [_ Sv]. rewrite Forall_forall in V, Sv. apply IH; auto. exact (proj2 St).
    - intros n t IH v w W Sh V Sv St M. destruct v; try discriminate Sh. apply (Plain _ _ _ UB); [reflexivity|]. intros p s j _ E.
      cbn [doc_of plain_doc dc_val] in E. destruct (Nat.eqb _ n); [|discriminate E]. apply bind_ok in E as (js & E & Ej). injection Ej as <-. cbn [ser sf_size mkSv].
      apply (elems_size t l); [|exact E]. intros v Hv. cbn [shaped] in Sh. apply andb_prop in Sh as [_ Sh]. rewrite forallb_forall in Sh.
      destruct V as [_ V], Sv as [_ Sv]. rewrite Forall_forall in V, Sv. apply IH; auto. exact (proj2 St).
    - intros ts IH v w W Sh V Sv St M. destruct v; try discriminate Sh. apply (Plain _ _ _ UB); [reflexivity|]. intros p s j _ E.
      cbn [doc_of plain_doc dc_val] in E. apply bind_ok in E as (js & E & Ej). injection Ej as <-. cbn [ser sf_size mkSv].
      destruct (tuple_size ts l) with (js := js) (s := s) as [Q L]; [|exact E|].
      + intros i t v Et Ev. rewrite Forall_forall in IH. cbn [wf shaped marker_counted] in W, Sh, M. rewrite forallb_forall in W, M. assert (It := nth_error_In _ _ Et).
        assert (Hs : nth_error (map shaped ts) i = Some (shaped t)) by now rewrite nth_error_map, Et.
        destruct (all2b_nth _ _ _ _ Sh Hs) as (y & Ey & Sy). rewrite Ey in Ev. injection Ev as ->. apply (IH t It); auto.
        * apply (rel2_nth _ _ i _ _ (proj2 V)); [now rewrite nth_error_map, Et|exact Ey].
        * apply (rel2_nth _ _ i _ _ (proj2 Sv)); [now rewrite nth_error_map, Et|exact Ey].
        * exact (DocP.all_of_nth _ _ _ _ (proj2 St) Et).
      + cbn [json_printer pr_push pr_szArray]. rewrite Q. cbn [bind]. now rewrite arr_len, L.
    - intros fw t IH v w W Sh V Sv St M. destruct v; try discriminate Sh. apply (Plain _ _ _ UB); [reflexivity|]. intros p s j _ E.
      apply each_here in Sv. subst l. injection E as <-. reflexivity.
    - intros t IH v w W Sh V Sv St M. destruct v as [| | | | |[x|]| | |]; try discriminate Sh; (apply (Plain _ _ _ UB); [reflexivity|]); intros p s j _ E.
      + cbn [doc_of plain_doc dc_val] in E. cbn [ser sf_size mkSv].
        apply (proj1 (IH x (AsValue true) W Sh (proj2 V) (proj2 Sv) (proj2 St) M)). exact E.
      + injection E as <-. reflexivity.
    - intros t IH v w W Sh V Sv St M. destruct v as [| | | | | |[x|]| |]; try discriminate Sh; (apply (Plain _ _ _ UB); [reflexivity|]); intros p s j -> E.
      + cbn [doc_of plain_doc dc_val] in E. cbn [ser sf_size mkSv].
        apply (proj1 (IH x (AsValue p) W Sh (proj2 V) (proj2 Sv) (proj2 St) M)). exact E.
      + discriminate E.
    - intros si ms ps IHm IHp v w W Sh V Sv St M. destruct (wf_struct _ _ _ W) as (L & Wm & Wp).
      destruct (shaped_struct _ _ _ _ Sh) as (own & par & -> & So & Sp). destruct V as (_ & Vo & Vp), Sv as (_ & Ko & Kp), St as ((N0 & NP) & No & Nr).
      cbn [marker_counted] in M. apply andb_prop in M as [M Mp]. apply andb_prop in M as [Mw Mm]. rewrite forallb_forall in Mm, Mp.
      rewrite Forall_forall in IHm, IHp.
      assert (T : right_total (TStruct si ms ps) (VStruct own par)).
      { intros l acc s E. cbn [doc_of dc_members struct_ok] in E. apply bind_ok in E as (a & Ea & E). apply bind_ok in E as (b & Eb & E). injection E as <-.
        cbn [ser sf_total total_struct json_printer pr_push]. rewrite (own_size _ ms own) with (l := a); [|clear Ea|exact Ea].
        2:{ intros i t v Et Ev. assert (It := nth_error_In _ _ Et).
            assert (Hs : nth_error (map shaped ms) i = Some (shaped t)) by now rewrite nth_error_map, Et.
            destruct (all2b_nth _ _ _ _ So Hs) as (y & Ey & Sy). rewrite Ey in Ev. injection Ev as ->. apply (IHm t It); auto.
            - apply (rel2_nth _ _ i _ _ Vo); [now rewrite nth_error_map, Et|exact Ey].
            - apply (rel2_nth _ _ i _ _ Ko); [now rewrite nth_error_map, Et|exact Ey].
            - exact (DocP.all_of_nth _ _ _ _ No Et). }
        cbn [bind]. assert (P := parents_size ps par). rewrite mems_size_app, zlen_app, !Z.add_assoc.
        destruct ps as [|q ps].
        - destruct par; [|discriminate Eb]. injection Eb as <-. cbn [map fst snd pr_szMap]. change (mems_size []) with 0. change (zlen []) with 0. rewrite !Z.add_0_r. reflexivity.
        - cbn [map]. change (S q :: map S ps) with (map S (q :: ps)). rewrite P with (l := b); [reflexivity| |exact Eb|discriminate].
          intros i t v Et Ev. assert (It := nth_error_In _ _ Et). destruct (Wp t It) as [Ct Wt].
          assert (Hs : nth_error (map shaped (q :: ps)) i = Some (shaped t)) by now rewrite nth_error_map, Et.
          destruct (all2b_nth _ _ _ _ Sp Hs) as (y & Ey & Sy). rewrite Ey in Ev. injection Ev as ->.
          apply (IHp t It v AsParent Wt Sy); auto.
          + apply (rel2_nth _ _ i _ _ Vp); [now rewrite nth_error_map, Et|exact Ey].
          + apply (rel2_nth _ _ i _ _ Kp); [now rewrite nth_error_map, Et|exact Ey].
          + exact (DocP.all_of_nth _ _ _ _ Nr Et). }
      split; [|intros _; exact T].
      assert (G : forall p cn (tag : list (bytes * jv)) j s, counted p si = cn -> tag = (if cn then tag_of marker si else no_tag) ->
        (do l <- (do a <- Ok tag; do b <- dc_members (D (TStruct si ms ps)) (VStruct own par); Ok (a ++ b)); Ok (Obj l)) = Ok j ->
        sf_size (S (TStruct si ms ps)) p (VStruct own par) s = Ok (zlen (compact j))).
      { intros p cn tag j s Ec Et E. apply bind_ok in E as (l & E & Ej). injection Ej as <-. cbn [bind] in E. apply bind_ok in E as (b & Eb & E). injection E as <-.
        rewrite obj_len, mems_size_app, zlen_app. cbn [ser sf_size]. rewrite NP. unfold size_struct. fold (counted p si). rewrite Ec.
        change (total_struct (json_printer c) si (map opt_type ms) (map S ms) (map S ps)) with (sf_total (S (TStruct si ms ps))). rewrite (T b _ _ Eb). cbn [bind].
        subst tag. destruct cn; cbn [fst snd].
        - f_equal. unfold tag_of. cbn [mems_size fold_right fst snd]. rewrite (str_size _ N0). cbn [json_printer pr_szMember pr_szStr]. change (zlen [_]) with 1. unfold zlen. lia.
        - f_equal. unfold no_tag. change (mems_size []) with 0. change (zlen []) with 0. lia. }
      destruct w as [p|p|]; [|intros _|exact I]; intros j s E.
      + apply (G p (si_mark si) (if si_mark si then tag_of marker si else no_tag)); [now apply Bool.eqb_prop in Mw|reflexivity|exact E].
      + apply (G p true (tag_of marker si)); [exact Mw|reflexivity|exact E].
    - intros cs o IH v w W Sh V Sv St M. destruct v as [| | | | |[x|]| | |]; try discriminate Sh; (apply (Plain _ _ _ UB); [reflexivity|]); intros p s j _ E.
      2:{ injection E as <-. reflexivity. }
      destruct x; try discriminate Sh. cbn [shaped] in Sh. destruct V as [_ V], Sv as [_ K], St as [_ N]. cbn [wf marker_counted] in W, M. rewrite forallb_forall in W, M.
      cbn [doc_of plain_doc dc_val] in E. cbn [ser sf_size mkSv].
      rewrite !nth_error_map in *. destruct (nth_error cs i) as [t|] eqn:Ei; [|discriminate Sh]. cbn [option_map] in *.
      rewrite Forall_forall in IH. assert (It := nth_error_In _ _ Ei). specialize (W t It). apply andb_prop in W as [Ct Wt].
      apply (proj1 (IH t It x (AsTagged true) Wt Sh V K (DocP.all_of_nth _ _ _ _ N Ei) (M t It)) Ct). exact E.
    - intros cs IH v w W Sh V Sv St M. destruct v; try discriminate Sh; (apply (Plain _ _ _ UB); [reflexivity|]); intros p s j -> E.
      cbn [shaped] in Sh. destruct V as [_ V], Sv as [_ K], St as [_ N]. cbn [wf marker_counted] in W, M. apply andb_prop in W as [W _]. rewrite forallb_forall in W, M.
      cbn [doc_of plain_doc dc_val] in E. cbn [ser sf_size mkSv].
      rewrite !nth_error_map in *. destruct (nth_error cs i) as [t|] eqn:Ei; [|discriminate Sh]. cbn [option_map] in *.
      rewrite Forall_forall in IH. assert (It := nth_error_In _ _ Ei). specialize (W t It). apply andb_prop in W as [Ct Wt].
      apply (proj1 (IH t It v (AsTagged p) Wt Sh V K (DocP.all_of_nth _ _ _ _ N Ei) (M t It)) Ct). exact E.
  Qed.
End Sizes.
