(** Exports. *)
From Coq Require Import ZArith String List Bool Lia ZifyBool.
From Verif Require Import Model.Base Model.Source Model.Number Model.Unicode Model.ParserInterface Model.Importer Model.Printer Model.JsonPrinter Model.Types Model.Serializer Model.Exporter Model.Float
  Spec.JsonString Spec.Json Spec.Typed Spec.Import Spec.Denotes Proofs.Induct Proofs.UnicodeP Proofs.TreeM Proofs.JsonSim Proofs.ImportP Proofs.TypedP Proofs.InterpP Proofs.JsonPartP Proofs.SourcesP Proofs.DenotesP Proofs.PrintP
  Proofs.DocP.
Import ListNotations.
Open Scope Z_scope.

(** ** String output *)
Definition tidy (wr : writer jstate) : Prop := forall s out s', wr s = Ok (out, s') -> Forall small out.
Lemma tidy_then : forall a b, tidy a -> tidy b -> tidy (w_then a b).
Proof.
  intros a b Ha Hb s out s' E. unfold w_then in E. apply bind_ok in E as ([c1 s1] & E1 & E). apply bind_ok in E as ([c2 s2] & E2 & E).
  injection E as <- <-. apply Forall_app. eauto.
Qed.
Lemma tidy_nothing : tidy w_nothing.
Proof. intros s out s' E. injection E as <- <-. constructor. Qed.
Lemma tidy_fail : forall o, (forall x, o <> Ok x) -> tidy (w_fail o).
Proof. intros o H s out s' E. destruct (H _ E). Qed.
Lemma tidy_all : forall l, Forall tidy l -> tidy (w_all l).
Proof. induction 1; [apply tidy_nothing|]. now apply tidy_then. Qed.

Section Tidy.
  Context (num : ity -> Z -> chunk) (c : fconfig) (marker : bytes) (good : ity -> Z -> Prop) (Hnum : forall i z, good i z -> small (num i z)).
  Notation P := (with_num num c).
  Notation S := (ser P marker).
  Lemma tidy_value : forall ch, small ch -> tidy (js_value c ch).
  Proof. intros ch H [|[n l b] r] out s' E; [discriminate E|]. injection E as <- <-. repeat constructor. exact H. Qed.
  Ltac ub := apply tidy_fail; discriminate.
  Lemma tidy_open : forall l ch, tidy (js_open c l ch).
  Proof. intros l ch [|top r] out s' E; [discriminate E|]. apply bind_ok in E as (t & _ & E). injection E as <- <-. repeat constructor. Qed.
  Lemma tidy_closeMap : tidy (js_closeMap c).
  Proof.
    intros [|[n [] b] [|[n2 l2 b2] r]] out s' E; try discriminate E. cbn [js_closeMap] in E. apply bind_ok in E as (t & _ & E). injection E as <- <-. repeat constructor.
  Qed.
  Lemma tidy_closeArray : tidy (js_closeArray c).
  Proof.
    intros [|[n [] b] [|[n2 l2 b2] r]] out s' E; try discriminate E. cbn [js_closeArray] in E. apply bind_ok in E as (t & _ & E). injection E as <- <-. repeat constructor.
  Qed.
  Lemma tidy_key : forall k, tidy (js_key c k).
  Proof.
    intros k [|[n [] b] r] out s' E; try discriminate E. cbn [js_key f1] in E. apply bind_ok in E as (t & _ & E). injection E as <- <-. repeat constructor.
  Qed.
  Lemma tidy_array : forall size b, tidy b -> tidy (array_block P size b).
  Proof.
    intros size b H s out s' E. unfold array_block, sized in E. cbn [with_num json_printer pr_usesSize bind pr_openArray pr_closeArray] in E.
    revert E. apply tidy_then; [apply tidy_open|]. apply tidy_then; [exact H|apply tidy_closeArray].
  Qed.
  Lemma tidy_map : forall size b, tidy b -> tidy (map_block P size b).
  Proof.
    intros size b H s out s' E. unfold map_block, sized in E. cbn [with_num json_printer pr_usesSize bind pr_openMap pr_closeMap] in E.
    revert E. apply tidy_then; [apply tidy_open|]. apply tidy_then; [exact H|apply tidy_closeMap].
  Qed.
  Lemma tidy_marker : forall i, tidy (put_marker P marker i).
  Proof. intros i. apply tidy_then; [apply tidy_key|now apply tidy_value]. Qed.

  Theorem num_tidy : forall t v, each (here good) t v -> tidy (sf_print (S t) v) /\ tidy (sf_poly (S t) v) /\ tidy (sf_members (S t) v).
  Proof.
    assert (Plain : forall p sz v, tidy (p v) -> tidy (sf_print (mkSv p sz) v) /\ tidy (sf_poly (@mkSv jstate p sz) v) /\ tidy (sf_members (mkSv p sz) v)).
    { intros p sz v H. split; [exact H|]. split; ub. }
    apply (ty_ind' (fun t => forall v, each (here good) t v -> tidy (sf_print (S t) v) /\ tidy (sf_poly (S t) v) /\ tidy (sf_members (S t) v))); cbn [ser].
    - intros i v V. apply Plain. destruct v; try ub. apply each_here in V. apply tidy_value. now apply Hnum.
    - intros v V. apply Plain. destruct v; try ub. apply tidy_value. destruct b; (split; [cbn; lia|discriminate]).
    - intros v V. apply Plain. destruct v; try ub. now apply tidy_value.
    - intros l v V. apply Plain. destruct v; try ub. destruct (enum_name l z); [now apply tidy_value|ub].
    - intros co t IH v V. apply Plain. destruct v; try ub. apply tidy_array, tidy_all. apply Forall_map. apply Forall_impl with (2 := proj2 V). intros x Hx. now apply IH.
    - intros n t IH v V. apply Plain. destruct v; try ub. destruct (Nat.eqb _ _); [|ub]. apply tidy_array, tidy_all. apply Forall_map. apply Forall_impl with (2 := proj2 V). intros x Hx. now apply IH.
    - intros ts IH v V. apply Plain. destruct v; try ub. apply tidy_array. destruct V as [_ V]. revert l V.
      induction IH as [|t ts Ht IH IH2]; intros [|x l] V; cbn [map rel2 put_tuple] in *; try contradiction; [apply tidy_nothing|].
      destruct V as [Vx V]. apply tidy_then; [now apply Ht|now apply IH2].
    - intros fw t IH v V. apply Plain. destruct v; try ub. apply tidy_map, tidy_all. apply Forall_map. apply Forall_impl with (2 := proj2 V). intros x Hx.
      apply tidy_then; [apply tidy_key|now apply IH].
    - intros t IH v V. apply Plain. destruct v as [| | | | |[x|]| | |]; try ub; [apply IH; exact (proj2 V)|now apply tidy_value].
    - intros t IH v V. apply Plain. destruct v as [| | | | | |[x|]| |]; try ub. apply IH; exact (proj2 V).
    - intros si ms ps IHm IHp v V.
      assert (M : tidy (put_struct P si (map opt_type ms) (map S ms) (map S ps) v)).
      { destruct v; try ub. cbn [put_struct]. destruct V as (_ & Vo & Vp). apply tidy_then.
        - generalize (map (nameOverride si) (si_names si)). revert own Vo. induction IHm as [|t ts Ht IH IH2]; intros [|x l] V [|n ns]; cbn [map rel2 put_members] in *; try contradiction; try ub; [apply tidy_nothing|].
          destruct V as [Vx V]. apply tidy_then; [|now apply IH2]. destruct (Serializer.keeps _ x); [|apply tidy_nothing]. apply tidy_then; [apply tidy_key|now apply Ht].
        - revert parents Vp. induction IHp as [|t ts Ht IH IH2]; intros [|x l] V; cbn [map rel2 put_parents] in *; try contradiction; try ub; [apply tidy_nothing|].
          destruct V as [Vx V]. apply tidy_then; [now apply Ht|now apply IH2]. }
      cbn [sf_print sf_poly sf_members]. split; [|split; [|exact M]]; apply tidy_map, tidy_then; auto; [|apply tidy_marker].
      destruct (si_mark si); [apply tidy_marker|apply tidy_nothing].
    - intros cs o IH v V. apply Plain. destruct v as [| | | | |[x|]| | |]; try ub; [|now apply tidy_value]. destruct x; try ub.
      destruct V as [_ V]. rewrite nth_error_map in *. destruct (nth_error cs i) as [t|] eqn:E; cbn [option_map] in *; [|contradiction].
      rewrite Forall_forall in IH. apply (IH t); eauto using nth_error_In.
    - intros cs IH v V. apply Plain. destruct v; try ub.
      destruct V as [_ V]. rewrite nth_error_map in *. destruct (nth_error cs i) as [t|] eqn:E; cbn [option_map] in *; [|contradiction].
      rewrite Forall_forall in IH. apply (IH t); eauto using nth_error_In.
  Qed.
End Tidy.
Theorem ser_tidy : forall c marker t v, each valid_here t v -> tidy (sf_print (ser (json_printer c) marker t) v).
Proof. intros c marker t v V. exact (proj1 (num_tidy int_chunk c marker fits (fun i z H => number_small _ (proj1 (int_num_good i z H)) (proj2 (int_num_good i z H))) t v V)). Qed.

Lemma copy_all : forall l room, Z.of_nat (List.length (chunks_text l)) <= room -> copy_chunks room l = Ok (chunks_text l).
Proof.
  induction l as [|ch l IH]; intros room H; [reflexivity|]. cbn [copy_chunks chunks_text flat_map] in *. fold (chunks_text l) in *.
  rewrite app_length, Nat2Z.inj_add in H. destruct (_ <=? room) eqn:E; [|lia]. rewrite IH by lia. reflexivity.
Qed.
Lemma preflight_room : forall e l, Forall small l -> Z.of_nat (List.length (chunks_text l)) <= preflight e l.
Proof.
  intros e l H. induction H as [|ch l Hc H IH]; [reflexivity|]. cbn [chunks_text flat_map]. fold (chunks_text l). rewrite app_length, Nat2Z.inj_add.
  destruct ch as [b|b]; cbn [preflight chunk_bytes small] in *; [lia|]. destruct e; lia.
Qed.
Theorem string_is_stream : forall c t v, each valid_here t v -> json_to_string c t v = json_to_stream c t v.
Proof.
  intros c t v V. unfold json_to_string, json_to_stream. destruct (json_pass c t v) as [out| | |] eqn:E; try reflexivity. cbn [bind].
  apply copy_all, preflight_room. unfold json_pass in E. apply bind_ok in E as ([o s] & E & Q). injection Q as <-.
  exact (ser_tidy c (pf_marker c) t v V _ _ _ E).
Qed.

(** ** The document of a value exists when the printer does not fail, and stands for the value *)
Lemma plain_json : forall P s, plain s -> json_string_when P s s.
Proof. intros P s H. induction H as [|x s (H1 & H2 & H3) H IH]; constructor; auto. Qed.
Lemma plain_legal : forall s, plain s -> legal_string s.
Proof. intros s H. exists s. now apply plain_json. Qed.
Lemma plain_escape : forall s, plain s -> escapeString s = s.
Proof.
  intros s H. induction H as [|x s (H1 & H2 & H3) H IH]; [reflexivity|]. unfold escapeString in *. cbn [flat_map]. rewrite IH. unfold escape_char.
  repeat match goal with |- context [if ?b then _ else _] => destruct b eqn:?; try lia end. reflexivity.
Qed.
Lemma plain_bytes : forall s, plain s -> bytes_in s.
Proof. intros s H. apply Forall_impl with (2 := H). cbv beta. intros; lia. Qed.
Lemma tag_safe : forall s, plain_name s -> json_tag s (SStr (escapeString s)).
Proof.
  intros s [H N]. exists (escapeString s). split; [reflexivity|]. rewrite plain_escape by exact H. split; [now apply plain_json|].
  split; [|auto]. intros r ->. apply Forall_app in H as [_ H]. inversion H as [|? ? (_ & _ & Q) _]; subst. now apply Q.
Qed.
Lemma str_stands : forall s, bytes_in s -> json_str s (SStr (escapeString s)).
Proof. intros s H. exists (escapeString s). split; [reflexivity|]. cbn [names]. now apply escape_legal. Qed.

Lemma unsigned_dec : forall i z, i_signed i = false -> fits i z -> forall r, int_dec z <> 45 :: r.
Proof.
  intros i z U F r. unfold fits in F. rewrite U in F. unfold int_dec. destruct (Z.ltb_spec z 0) as [L|L]; [lia|].
  destruct (nat_dec_spec z L) as (D & _). intro E. rewrite E in D. inversion D as [|? ? H _]. unfold digit in H. lia.
Qed.
Definition num_sense (Int : ity -> Z -> jscal -> Prop) (marker : bytes) : ty -> sense jscal :=
  sense_of Int json_bool json_str json_tag json_null json_key marker.
Section Stands.
  Context (num : ity -> Z -> jscal) (Int : ity -> Z -> jscal -> Prop) (good : ity -> Z -> Prop) (Hnum : forall i z, good i z -> Int i z (num i z)).
  Context (marker : bytes) (Hm : plain_name marker).
  Notation D := (num_sense Int marker).
  Notation dc := (doc_of num marker).

  Lemma key_stands : forall n, plain n -> json_key n n.
  Proof. intros n H. now apply plain_json. Qed.
  Lemma left_out_keeps : forall t v, left_out t v <-> Serializer.keeps (opt_type t) v = false.
  Proof.
    intros t v. unfold left_out. split.
    - intros [(t' & ->) ->]. reflexivity.
    - intro H. destruct t; try discriminate H. destruct v as [| | | | | |[x|]| |]; try discriminate H. eauto.
  Qed.
  Definition stands (t : ty) (v : val) : Prop :=
    (forall j, dc_val (dc t) v = Ok j -> d_val (D t) v j) /\
    (is_class t = true -> (forall l, dc_members (dc t) v = Ok l -> d_members (D t) v l) /\
       forall j, dc_tagged (dc t) v = Ok j -> tagged_object json_tag json_key marker (class_name t) (D t) v j).

  Lemma all_stands : forall {X Y} (f : X -> outcome Y) (R : X -> Y -> Prop) l js, (forall x y, In x l -> f x = Ok y -> R x y) ->
    all_ok (map f l) = Ok js -> Forall2 R l js.
  Proof.
    intros X Y f R. induction l as [|x l IH]; intros js H E; cbn [map all_ok] in E; [injection E as <-; constructor|].
    apply bind_ok in E as (y & E1 & E). apply bind_ok in E as (r & E2 & E). injection E as <-. constructor; [apply H; [now left|exact E1]|].
    apply IH; [|exact E2]. intros; apply H; [now right|assumption].
  Qed.
  Lemma own_stands : forall ns ts vs l, own_ok ns (map opt_type ts) (map dc ts) vs = Ok l ->
    (forall i t v j, nth_error ts i = Some t -> nth_error vs i = Some v -> dc_val (dc t) v = Ok j -> d_val (D t) v j) ->
    Forall plain ns -> own_members json_key ns ts (map D ts) vs l.
  Proof.
    induction ns as [|n ns IH]; intros [|t ts] [|v vs] l E H Hn; cbn [map own_ok own_members] in *; try discriminate E; [now injection E as <-|].
    inversion Hn as [|? ? Hn0 Hn1]; subst. apply bind_ok in E as (a & E1 & E). apply bind_ok in E as (b & E2 & E). injection E as <-.
    assert (R : own_members json_key ns ts (map D ts) vs b) by (apply IH; [exact E2|intros i; apply (H (S i))|exact Hn1]).
    destruct (Serializer.keeps (opt_type t) v) eqn:K.
    - right. split; [intro L; apply left_out_keeps in L; congruence|]. apply bind_ok in E1 as (j & E1 & Q). injection Q as <-.
      exists (n, j), b. split; [reflexivity|]. split; [split; [now apply key_stands|apply (H O t v j); auto]|exact R].
    - left. injection E1 as <-. split; [now apply left_out_keeps|exact R].
  Qed.
  Lemma par_stands : forall ps vs l, par_ok (map dc ps) vs = Ok l ->
    (forall i t v l, nth_error ps i = Some t -> nth_error vs i = Some v -> dc_members (dc t) v = Ok l -> d_members (D t) v l) ->
    parent_members (map D ps) vs l.
  Proof.
    induction ps as [|p ps IH]; intros [|v vs] l E H; cbn [map par_ok parent_members] in *; try discriminate E; [now injection E as <-|].
    apply bind_ok in E as (a & E1 & E). apply bind_ok in E as (b & E2 & E). injection E as <-. exists a, b. split; [reflexivity|].
    split; [apply (H O p v a); auto|]. apply IH; [exact E2|]. intros i; apply (H (S i)).
  Qed.
  Lemma zip_stands : forall ts vs js, zip_ok (map dc ts) vs = Ok js ->
    (forall i t v j, nth_error ts i = Some t -> nth_error vs i = Some v -> dc_val (dc t) v = Ok j -> d_val (D t) v j) ->
    rel3 (map d_val (map D ts)) vs js.
  Proof.
    induction ts as [|t ts IH]; intros [|v vs] js E H; cbn [map zip_ok rel3] in *; try discriminate E; [injection E as <-; exact I|].
    apply bind_ok in E as (a & E1 & E). apply bind_ok in E as (b & E2 & E). injection E as <-. split; [apply (H O t v a); auto|].
    apply IH; [exact E2|]. intros i; apply (H (S i)).
  Qed.
  Lemma enum_name_in : forall l z n, enum_name l z = Some n -> exists y, In (y, n) l.
  Proof.
    induction l as [|[y m] l IH]; intros z n E; cbn in E; [discriminate|]. destruct (y =? z); [injection E as ->; exists y; now left|].
    destruct (IH z n E) as (y' & H). exists y'. now right.
  Qed.

  Theorem num_stands : forall t v, each (here good) t v -> plain_keys t v -> plain_names t -> stands t v.
  Proof.
    unfold plain_keys, plain_names.
    apply (ty_ind' (fun t => forall v, each (here good) t v -> each (fun t v => match t, v with TMap _ _, VMap l => Forall (fun kv => plain (fst kv)) l | _, _ => True end) t v ->
      types (fun t => match t with
                  | TStruct i _ _ => Forall plain_name (map (nameOverride i) (si_names i)) /\ plain_name (si_poly i)
                  | TEnum l => Forall (fun e => bytes_in (snd e)) l
                  | _ => True
                  end) t -> stands t v)); unfold num_sense.
    - intros i v V K N. split; [|discriminate]. intros j E. destruct v; try discriminate E. injection E as <-. exists z, (num i z).
      split; [reflexivity|]. split; [reflexivity|]. apply Hnum. exact (proj1 V).
    - intros v V K N. split; [|discriminate]. intros j E. destruct v; try discriminate E. injection E as <-. exists b, (if b then STrue else SFalse). repeat split; reflexivity.
    - intros v V K N. split; [|discriminate]. intros j E. destruct v; try discriminate E. injection E as <-. exists s, (SStr (escapeString s)).
      split; [reflexivity|]. split; [reflexivity|]. apply str_stands. exact (proj1 V).
    - intros l v V K N. split; [|discriminate]. intros j E. destruct v; try discriminate E. cbn [doc_of plain_doc dc_val] in E.
      destruct (enum_name l z) as [n|] eqn:En; [|discriminate E]. injection E as <-. exists z, n, (SStr (escapeString n)).
      split; [reflexivity|]. split; [exact En|]. split; [reflexivity|]. apply str_stands. apply types_here in N. rewrite Forall_forall in N.
      destruct (enum_name_in _ _ _ En) as (y & Hy). apply (N _ Hy).
    - intros co t IH v V K N. split; [|discriminate]. intros j E. destruct v; try discriminate E. cbn [doc_of plain_doc dc_val] in E.
      apply bind_ok in E as (js & E & Q). injection Q as <-. exists l, js. split; [reflexivity|]. split; [reflexivity|].
      destruct V as [_ V], K as [_ K]. rewrite Forall_forall in V, K. eapply all_stands; [|exact E]. intros x y Hx Ey. apply (IH x); auto. exact (proj2 N).
    - intros n t IH v V K N. split; [|discriminate]. intros j E. destruct v; try discriminate E. cbn [doc_of plain_doc dc_val] in E.
      destruct (Nat.eqb_spec (List.length l) n) as [L|_]; [|discriminate E].
      apply bind_ok in E as (js & E & Q). injection Q as <-. exists l, js. split; [reflexivity|]. split; [exact L|]. split; [reflexivity|].
      destruct V as [_ V], K as [_ K]. rewrite Forall_forall in V, K. eapply all_stands; [|exact E]. intros x y Hx Ey. apply (IH x); auto. exact (proj2 N).
    - intros ts IH v V K N. split; [|discriminate]. intros j E. destruct v; try discriminate E. cbn [doc_of plain_doc dc_val] in E.
      apply bind_ok in E as (js & E & Q). injection Q as <-. exists l, js. split; [reflexivity|]. split; [reflexivity|].
      apply zip_stands; [exact E|]. intros i t v j' Et Ev Ej. rewrite Forall_forall in IH. apply (IH t (nth_error_In _ _ Et) v); auto.
      + apply (rel2_nth _ _ i _ _ (proj2 V)); [now rewrite nth_error_map, Et|exact Ev].
      + apply (rel2_nth _ _ i _ _ (proj2 K)); [now rewrite nth_error_map, Et|exact Ev].
      + exact (all_of_nth _ _ _ _ (proj2 N) Et).
    - intros fw t IH v V K N. split; [|discriminate]. intros j E. destruct v; try discriminate E. cbn [doc_of plain_doc dc_val] in E.
      apply bind_ok in E as (js & E & Q). injection Q as <-. exists l, js. split; [reflexivity|]. split; [reflexivity|].
      destruct V as [_ V], K as [K0 K]. rewrite Forall_forall in V, K, K0. eapply all_stands; [|exact E]. intros x y Hx Ey. cbv beta in Ey.
      apply bind_ok in Ey as (j' & Ey & Q). injection Q as <-. split; [apply key_stands; exact (K0 _ Hx)|]. exact (proj1 (IH (snd x) (V _ Hx) (K _ Hx) (proj2 N)) _ Ey).
    - intros t IH v V K N. split; [|discriminate]. intros j E. destruct v as [| | | | |[x|]| | |]; try discriminate E; cbn [doc_of plain_doc dc_val] in E.
      + right. exists x. split; [reflexivity|]. apply (IH x (proj2 V) (proj2 K) (proj2 N)). exact E.
      + left. injection E as <-. split; [reflexivity|]. exists SNull. split; reflexivity.
    - intros t IH v V K N. split; [|discriminate]. intros j E. destruct v as [| | | | | |[x|]| |]; try discriminate E; cbn [doc_of plain_doc dc_val] in E.
      exists x. split; [reflexivity|]. apply (IH x (proj2 V) (proj2 K) (proj2 N)). exact E.
    - intros si ms ps IHm IHp v V K N. rewrite Forall_forall in IHm, IHp.
      assert (M : forall l, dc_members (dc (TStruct si ms ps)) v = Ok l -> d_members (D (TStruct si ms ps)) v l).
      { intros l E. cbn [doc_of dc_members] in E. destruct v; try discriminate E. cbn [struct_ok] in E. apply bind_ok in E as (a & E1 & E). apply bind_ok in E as (b & E2 & E). injection E as <-.
        destruct V as (_ & Vo & Vp), K as (_ & Ko & Kp), N as ((N0 & Np) & No & Nr).
        exists own, parents, a, b. split; [reflexivity|]. split; [reflexivity|]. split.
        - apply own_stands; [exact E1| |apply Forall_impl with (2 := N0); now intros n [Hn _]]. intros i t v j Et Ev Ej. apply (IHm t (nth_error_In _ _ Et) v); auto.
          + apply (rel2_nth _ _ i _ _ Vo); [now rewrite nth_error_map, Et|exact Ev].
          + apply (rel2_nth _ _ i _ _ Ko); [now rewrite nth_error_map, Et|exact Ev].
          + exact (all_of_nth _ _ _ _ No Et).
        - apply par_stands; [exact E2|]. intros i t v l Et Ev El. assert (Ct : is_class t = true). { destruct t; try discriminate El. reflexivity. }
          apply (IHp t (nth_error_In _ _ Et) v); auto.
          + apply (rel2_nth _ _ i _ _ Vp); [now rewrite nth_error_map, Et|exact Ev].
          + apply (rel2_nth _ _ i _ _ Kp); [now rewrite nth_error_map, Et|exact Ev].
          + exact (all_of_nth _ _ _ _ Nr Et). }
      assert (Tg : tagged json_tag json_key marker (si_poly si) (marker, jstr (si_poly si))).
      { destruct N as ((_ & Np) & _). split; [apply key_stands, Hm|]. exists (SStr (escapeString (si_poly si))). split; [reflexivity|now apply tag_safe]. }
      split; [|intros _; split; [exact M|]].
      + intros j E. cbn [doc_of dc_val] in E. apply bind_ok in E as (l & E & Q). injection Q as <-. cbn [bind] in E. apply bind_ok in E as (b & E & Q). injection Q as <-.
        unfold num_sense in *. cbn [sense_of d_val]. destruct (si_mark si).
        * exists (marker, jstr (si_poly si)), b. split; [reflexivity|]. split; [exact Tg|]. exact (M b E).
        * exists b. split; [reflexivity|]. exact (M b E).
      + intros j E. cbn [doc_of dc_tagged] in E. apply bind_ok in E as (l & E & Q). injection Q as <-. cbn [bind] in E. apply bind_ok in E as (b & E & Q). injection Q as <-.
        exists (marker, jstr (si_poly si)), b. split; [reflexivity|]. split; [exact Tg|]. exact (M b E).
    - intros cs o IH v V K N. split; [|discriminate]. intros j E. destruct v as [| | | | |[x|]| | |]; try discriminate E; cbn [doc_of plain_doc dc_val] in E.
      2:{ left. injection E as <-. split; [reflexivity|]. exists SNull. split; reflexivity. }
      destruct x as [| | | | | | | |k x]; try discriminate E. right. destruct V as [_ V], K as [_ K], N as [_ N].
      rewrite nth_error_map in E, V, K. destruct (nth_error cs k) as [t|] eqn:Ek; [|contradiction]. cbn [option_map] in E, V, K.
      exists k, t, (D t), x. split; [reflexivity|]. split; [exact Ek|]. split; [now rewrite nth_error_map, Ek|].
      rewrite Forall_forall in IH. apply (IH t (nth_error_In _ _ Ek) x V K (all_of_nth _ _ _ _ N Ek)); [|exact E]. destruct t; try discriminate E; reflexivity.
    - intros cs IH v V K N. split; [|discriminate]. intros j E. destruct v as [| | | | | | | |k x]; try discriminate E; cbn [doc_of plain_doc dc_val] in E.
      destruct V as [_ V], K as [_ K], N as [_ N].
      rewrite nth_error_map in E, V, K. destruct (nth_error cs k) as [t|] eqn:Ek; [|contradiction]. cbn [option_map] in E, V, K.
      exists k, t, (D t), x. split; [reflexivity|]. split; [exact Ek|]. split; [now rewrite nth_error_map, Ek|].
      rewrite Forall_forall in IH. apply (IH t (nth_error_In _ _ Ek) x V K (all_of_nth _ _ _ _ N Ek)); [|exact E]. destruct t; try discriminate E; reflexivity.
  Qed.
End Stands.
Lemma int_num_stands : forall i z, fits i z -> json_int i z (SNum (int_dec z)).
Proof. intros i z F. exists (int_dec z). split; [reflexivity|]. split; [apply int_dec_literal|]. intros U. now apply (unsigned_dec i). Qed.
Theorem doc_stands : forall marker, plain_name marker -> forall t v, each valid_here t v -> plain_keys t v -> plain_names t ->
  forall j, dc_val (doc_of int_num marker t) v = Ok j -> stands_for marker t v j.
Proof. intros marker Hm t v V K N. exact (proj1 (num_stands int_num json_int fits int_num_stands marker Hm t v V K N)). Qed.

Section Printable.
  Context (num : ity -> Z -> jscal) (Int : ity -> Z -> jscal -> Prop) (marker : bytes).
  Notation D := (num_sense Int marker).
  Notation dc := (doc_of num marker).
  Lemma all_printable : forall {X Y Z} (f : X -> outcome Y) (R : X -> Z -> Prop) l js, (forall x y, In x l -> R x y -> exists y', f x = Ok y') ->
    Forall2 R l js -> exists js', all_ok (map f l) = Ok js'.
  Proof.
    intros X Y Z f R l js H F. induction F as [|x y l js Hx F IH]; [now exists []|]. cbn [map all_ok].
    destruct (H x y (or_introl eq_refl) Hx) as (y' & ->). destruct IH as (r & ->); [intros; eapply H; [now right|eassumption]|]. cbn [bind]. eauto.
  Qed.
  Theorem num_printable : forall t v, (forall j, d_val (D t) v j -> exists j', dc_val (dc t) v = Ok j') /\
    (forall l, d_members (D t) v l -> exists l', dc_members (dc t) v = Ok l').
  Proof.
    assert (No : forall (d : val -> jv -> Prop) v (P : Prop), forall l, d_members (d_simple d) v l -> P) by (intros d v P l []).
    apply (ty_ind' (fun t => forall v, (forall j, d_val (D t) v j -> exists j', dc_val (dc t) v = Ok j') /\
      (forall l, d_members (D t) v l -> exists l', dc_members (dc t) v = Ok l'))); unfold num_sense.
    - intros i v. split; [|intro; apply No]. intros j (z & a & -> & _). cbn. eauto.
    - intros v. split; [|intro; apply No]. intros j (z & a & -> & _). cbn. eauto.
    - intros v. split; [|intro; apply No]. intros j (z & a & -> & _). cbn. eauto.
    - intros l v. split; [|intro; apply No]. intros j (z & n & a & -> & E & _). cbn. rewrite E. eauto.
    - intros co t IH v. split; [|intro; apply No]. intros j (l & js & -> & -> & F). cbn [doc_of plain_doc dc_val].
      destruct (all_printable (dc_val (dc t)) _ l js (fun x y _ => proj1 (IH x) y) F) as (js' & ->). cbn. eauto.
    - intros n t IH v. split; [|intro; apply No]. intros j (l & js & -> & <- & -> & F). cbn [doc_of plain_doc dc_val]. rewrite Nat.eqb_refl.
      destruct (all_printable (dc_val (dc t)) _ l js (fun x y _ => proj1 (IH x) y) F) as (js' & ->). cbn. eauto.
    - intros ts IH v. split; [|intro; apply No]. intros j (l & js & -> & -> & F). cbn [doc_of plain_doc dc_val].
      assert (Q : exists js', zip_ok (map dc ts) l = Ok js'); [|destruct Q as (js' & ->); cbn; eauto].
      revert l js F. induction IH as [|t ts Ht IH IH2]; intros [|x l] [|y js] F; cbn [map rel3 zip_ok] in *; try contradiction; [eauto|].
      destruct F as [Fx F]. destruct (proj1 (Ht x) y Fx) as (y' & ->). destruct (IH2 l js F) as (r & ->). cbn. eauto.
    - intros fw t IH v. split; [|intro; apply No]. intros j (l & es & -> & -> & F). cbn [doc_of plain_doc dc_val].
      assert (Q : exists js', all_ok (map (fun kv : bytes * val => do j <- dc_val (dc t) (snd kv); Ok (fst kv, j)) l) = Ok js'); [|destruct Q as (js' & ->); cbn; eauto].
      eapply all_printable; [|exact F]. intros x y _ [_ Hy]. destruct (proj1 (IH (snd x)) _ Hy) as (j' & ->). cbn. eauto.
    - intros t IH v. split; [|intro; apply No]. intros j [(-> & _)|(x & -> & H)]; cbn [doc_of plain_doc dc_val]; [eauto|]. exact (proj1 (IH x) j H).
    - intros t IH v. split; [|intro; apply No]. intros j (x & -> & H); cbn [doc_of plain_doc dc_val]. exact (proj1 (IH x) j H).
    - intros si ms ps IHm IHp v.
      assert (M : forall l, d_members (D (TStruct si ms ps)) v l -> exists l', dc_members (dc (TStruct si ms ps)) v = Ok l').
      { intros l (own & par & a & b & -> & -> & Ho & Hp). cbn [doc_of dc_members struct_ok].
        assert (Qo : exists a', own_ok (map (nameOverride si) (si_names si)) (map opt_type ms) (map dc ms) own = Ok a').
        { clear Hp IHp. revert own a Ho. generalize (map (nameOverride si) (si_names si)). induction IHm as [|t ts Ht IH IH2]; intros [|n ns] [|x l] a Ho; cbn [map own_members own_ok] in *; try contradiction; [eauto|].
          destruct Ho as [[L Ho]|(L & e & r & -> & [_ He] & Ho)]; destruct (IH2 ns l _ Ho) as (r' & ->).
          - apply left_out_keeps in L. rewrite L. cbn. eauto.
          - destruct (Serializer.keeps (opt_type t) x) eqn:K; [|destruct L; now apply left_out_keeps]. destruct (proj1 (Ht x) _ He) as (j' & ->). cbn. eauto. }
        assert (Qp : exists b', par_ok (map dc ps) par = Ok b').
        { clear Ho IHm Qo. revert par b Hp. induction IHp as [|t ts Ht IH IH2]; intros [|x l] b Hp; cbn [map parent_members par_ok] in *; try contradiction; [eauto|].
          destruct Hp as (a1 & b1 & -> & H1 & Hp). destruct (IH2 l _ Hp) as (r & ->). destruct (proj2 (Ht x) _ H1) as (q & ->). cbn. eauto. }
        destruct Qo as (a' & ->), Qp as (b' & ->). cbn. eauto. }
      split; [|exact M]. intros j Hj. cbn [sense_of d_val] in Hj. cbn [doc_of dc_val].
      assert (Q : exists l, d_members (D (TStruct si ms ps)) v l). { destruct (si_mark si); [destruct Hj as (e & l & _ & _ & H)|destruct Hj as (l & _ & H)]; exists l; exact H. }
      destruct Q as (l & Q). destruct (M l Q) as (l' & E). cbn [doc_of dc_members] in E. rewrite E. destruct (si_mark si); cbn; eauto.
    - intros cs o IH v. split; [|intro; apply No]. intros j [(-> & _)|(k & c & d & x & -> & Ec & Ed & e & l & -> & _ & H)]; cbn [doc_of plain_doc dc_val]; [eauto|].
      rewrite nth_error_map in *. rewrite Ec in *. cbn [option_map] in *. injection Ed as <-. rewrite Forall_forall in IH. destruct (proj2 (IH c (nth_error_In _ _ Ec) x) l H) as (l' & E).
      destruct c; try discriminate E. cbn [doc_of dc_tagged dc_members] in *. rewrite E. cbn. eauto.
    - intros cs IH v. split; [|intro; apply No]. intros j (k & c & d & x & -> & Ec & Ed & e & l & -> & _ & H); cbn [doc_of plain_doc dc_val].
      rewrite nth_error_map in *. rewrite Ec in *. cbn [option_map] in *. injection Ed as <-. rewrite Forall_forall in IH. destruct (proj2 (IH c (nth_error_In _ _ Ec) x) l H) as (l' & E).
      destruct c; try discriminate E. cbn [doc_of dc_tagged dc_members] in *. rewrite E. cbn. eauto.
  Qed.
End Printable.
Theorem sense_printable : forall marker t v j, stands_for marker t v j -> exists j', dc_val (doc_of int_num marker t) v = Ok j'.
Proof. intros marker t v. exact (proj1 (num_printable int_num json_int marker t v)). Qed.

(** ** The text of an export *)
(** The indentation of a value of this nesting stays within the buffer of 4004 characters. *)
Lemma room_fits : forall c n, (spaced c = true -> n = O \/ indent_room c n) -> fits_upto c n.
Proof.
  intros c n H Sp m L. destruct (H Sp) as [->|(T & B & R)]; [lia|]. unfold indent_at. set (w := if pf_tab c =? 0 then 4 else pf_tab c) in *.
  assert (1 <= w) by (subst w; destruct (Z.eqb_spec (pf_tab c) 0); lia).
  assert (w <= 4004) by nia. assert (pf_block c <= 4004) by nia.
  rewrite !(Z.mod_small w), !(Z.mod_small (pf_block c)) by lia.
  assert (Z.of_nat m * w <= Z.of_nat n * w) by nia. assert (0 <= (Z.of_nat m - 1) * w <= Z.of_nat m * w - 1) by nia.
  rewrite !Z.mod_small by lia. lia.
Qed.

Lemma spaced_type : forall c, spaced c = true -> pf_type c <> OStream.
Proof. intros c H E. unfold spaced in H. rewrite E in H. discriminate H. Qed.
Section Export.
  Context (c : fconfig) (t : ty) (v : val).
  Hypotheses (W : wf t = true) (V : valid t v) (K : legal_keys t v) (N : legal_names t) (M : legal_string (pf_marker c)) (R : indent_ok c v).
  Lemma export_text : forall k,
    (exists j out, dc_val (doc_of int_num (pf_marker c) t) v = Ok j /\ json_export c k t v = Exported out /\ document j out /\ (pf_type c = OStream -> out = compact j)) \/
    (dc_val (doc_of int_num (pf_marker c) t) v = Throw /\ json_export c k t v = ExportFailed (negb (pf_catch c))).
  Proof.
    intro k. destruct V as [Sh Va]. assert (E : json_export c k t v = json_export c ToStream t v) by (destruct k; [reflexivity|]; unfold json_export; now rewrite string_is_stream).
    rewrite E. clear E. assert (P := ser_writes (pf_marker c) c M t v W Sh Va K N).
    specialize (P (mkPstate 0 LvValue false) [] ltac:(reflexivity)). cbn [List.length Nat.add] in P. specialize (P (room_fits c _ (fun Sp => R (spaced_type c Sp)))).
    unfold json_export, json_to_stream, json_pass. change js_init with [mkPstate 0 LvValue false].
    destruct (dc_val _ v) as [j| | |] eqn:D; [|right|contradiction|contradiction].
    - left. destruct P as (out & b & w & txt & -> & _ & Tx & Hw & Hs & Cm). exists j, (chunks_text out). split; [reflexivity|]. split; [reflexivity|].
      rewrite Tx. split; [|intros Es; destruct Cm as [-> ->]; [unfold spaced; now rewrite Es|reflexivity]]. replace (w ++ txt) with (w ++ txt ++ []) by now rewrite app_nil_r.
      change (document j (w ++ txt ++ [])). constructor; [exact Hw|exact Hs|constructor].
    - rewrite P. split; reflexivity.
  Qed.
End Export.

(** ** Reading a document back *)
Lemma json_reads : forall k m marker t v, fine m marker true t v -> forall j, stands_for marker t v j ->
  i_parse (interp (json_sc k true) m marker t) (default t) j = Ok v.
Proof.
  intros k m marker t v F j Hj.
  refine (document_read (json_sc k true) m marker json_int json_bool json_str json_tag json_null json_key _ _ _ _ _ _ t v F j Hj).
  - intros i z a Fz (txt & -> & L & U). split; [|reflexivity]. cbn [json_sc sc_int]. destruct k; [now apply string_int_literal|now apply stream_int_literal].
  - intros b a ->. destruct b; split; reflexivity.
  - intros s a (raw & -> & H). split; [|reflexivity]. exact (names_key k true raw s H).
  - intros s a (raw & -> & H & Sk). split; [exact (names_key k true raw s H)|]. cbn [json_sc sc_skip]. apply safe_skip_ok. destruct Sk as [S1 S2]. split; [exact S1|]. exact (fun _ => S2 eq_refl).
  - intros a ->. split; reflexivity.
  - intros n raw H. exact (names_key k true raw n H).
Qed.
Theorem stands_accepted : forall cfg k t v j text, pc_conv cfg = true -> reads_back (pc_strict cfg) (pc_marker cfg) t v ->
  stands_for (pc_marker cfg) t v j -> document j text -> accepts cfg k t (default t) text v.
Proof.
  intros cfg k t v j text C (W & [Sh Va] & Dn & Nn & Un & Ex) Hj D. apply (doc_imports cfg k j text t (default t) D). unfold meaning. rewrite C.
  apply json_reads; [|exact Hj]. unfold fine. auto 10.
Qed.

(** ** Legal names and keys *)
Lemma types_mono : forall (P Q : ty -> Prop), (forall t, P t -> Q t) -> forall t, types P t -> types Q t.
Proof.
  intros P Q H.
  assert (G : forall ts, Forall (fun t => types P t -> types Q t) ts -> all_of (map (types P) ts) -> all_of (map (types Q) ts)).
  { intros ts F. induction F as [|t ts Ht F IH]; intro R; cbn [map all_of] in *; auto. destruct R. auto. }
  apply (ty_ind' (fun t => types P t -> types Q t)); cbn [types]; intros; repeat match goal with H : _ /\ _ |- _ => destruct H end; repeat split; auto.
Qed.
Lemma plain_keys_legal : forall t v, plain_keys t v -> legal_keys t v.
Proof.
  intros t v. apply each_mono. intros [] []; auto. intro H. apply Forall_impl with (2 := H). intros kv. apply plain_legal.
Qed.
Lemma plain_names_legal : forall t, plain_names t -> legal_names t.
Proof.
  intros t. apply types_mono. intros []; auto. intros [H1 [H2 _]]. split; [|now apply plain_bytes]. apply Forall_impl with (2 := H1). intros n [H _]. now apply plain_legal.
Qed.

(** ** Memory safety *)
Section Safe.
  Context (c : fconfig) (marker : bytes).
  Notation S := (ser (json_printer c) marker).
  Definition safe_wr (wr : writer jstate) (d : nat) : Prop :=
    forall top r, fits_upto c (List.length r + d) ->
    match wr (top :: r) with Ok (_, s') => exists n b, s' = mkPstate n (f1 top) b :: r | Throw => True | _ => False end.
  (** In an object. *)
  Definition safe_in (l : level) (wr : writer jstate) (d : nat) : Prop :=
    forall n b r, (1 <= List.length r)%nat -> fits_upto c (List.length r + d) ->
    match wr (mkPstate n l b :: r) with Ok (_, s') => exists n' b', s' = mkPstate n' l b' :: r | Throw => True | _ => False end.
  Lemma safe_mono : forall wr d d', (d <= d')%nat -> safe_wr wr d -> safe_wr wr d'.
  Proof. intros wr d d' L H top r F. apply H. eapply fits_le; [|exact F]. lia. Qed.
  Lemma in_mono : forall l wr d d', (d <= d')%nat -> safe_in l wr d -> safe_in l wr d'.
  Proof. intros l wr d d' L H n b r R F. apply H; [exact R|]. eapply fits_le; [|exact F]. lia. Qed.
  Lemma wr_in : forall l wr d, safe_wr wr d -> safe_in l wr d.
  Proof. intros l wr d H n b r _ F. exact (H (mkPstate n l b) r F). Qed.
  Lemma in_then : forall l a b d, safe_in l a d -> safe_in l b d -> safe_in l (w_then a b) d.
  Proof.
    intros l a b d Ha Hb n f r R F. unfold w_then. specialize (Ha n f r R F). destruct (a _) as [[o1 s1]| | |]; try contradiction; [|exact I].
    destruct Ha as (n1 & b1 & ->). cbn [bind]. specialize (Hb n1 b1 r R F). destruct (b _) as [[o2 s2]| | |]; try contradiction; [|exact I]. cbn [bind]. exact Hb.
  Qed.
  Lemma in_nothing : forall l d, safe_in l w_nothing d.
  Proof. intros l d n b r _ _. cbn. eauto. Qed.
  Lemma in_all : forall l ws d, Forall (fun w => safe_in l w d) ws -> safe_in l (w_all ws) d.
  Proof. intros l ws d H. induction H; [apply in_nothing|now apply in_then]. Qed.
  Lemma value_safe : forall ch d, safe_wr (js_value c ch) d.
  Proof. intros ch d [n l b] r _. cbn. eauto. Qed.
  Lemma suffix_ok : forall n has ch, (spaced c = true -> indent_at c n < 4004) -> exists t, printIndentSuffix c n (spaced c && has) ch = Ok t.
  Proof.
    intros n has ch H. unfold printIndentSuffix. destruct (spaced c) eqn:E; cbn [andb]; [|eauto]. destruct has; [|eauto]. specialize (H eq_refl).
    destruct (Z.ltb_spec (indent_at c n) 4004); [|lia]. unfold indent_text. destruct (_ =? 0); [cbn; eauto|]. destruct (Z.leb_spec (indent_at c n) 4004); [|lia]. cbn. eauto.
  Qed.
  Lemma indent_ok_text : forall n, (spaced c = true -> indent_at c n <= 4004) -> exists t, printIndent c n (spaced c) = Ok t.
  Proof.
    intros n H. unfold printIndent. destruct (spaced c) eqn:E; [|eauto]. specialize (H eq_refl). unfold indent_text. destruct (_ =? 0); [eauto|].
    destruct (Z.leb_spec (indent_at c n) 4004); [|lia]. eauto.
  Qed.
  Lemma key_safe : forall k d, safe_in LvMap (js_key c k) d.
  Proof.
    intros k d n b r R F. unfold js_key. cbn [f1]. destruct (indent_ok_text (List.length (mkPstate n LvMap b :: r))) as (t & ->); [|cbn; eauto].
    intro Sp. destruct (F Sp (List.length r) ltac:(lia)) as [_ H]. exact H.
  Qed.
  Lemma array_safe : forall size b d, safe_in LvArray b d -> safe_wr (array_block (json_printer c) size b) (Datatypes.S d).
  Proof.
    intros size b d H top r F. unfold array_block, sized, w_then. cbn [json_printer pr_usesSize pr_openArray pr_closeArray bind]. unfold js_open.
    assert (Fr : spaced c = true -> indent_at c (Datatypes.S (List.length r)) < 4004) by (intro Sp; apply (F Sp (Datatypes.S (List.length r))); lia).
    destruct (suffix_ok (List.length (top :: r)) true 91 Fr) as (t & E). rewrite andb_true_r in E. rewrite E. cbn [bind put].
    specialize (H 0 false (top :: r) ltac:(cbn; lia) ltac:(cbn [List.length]; eapply fits_le; [|exact F]; lia)).
    destruct (b _) as [[o2 s2]| | |]; try contradiction; [|exact I]. destruct H as (n & f & ->). cbn [bind]. destruct top as [n0 l0 f0]. cbn [js_closeArray].
    destruct (suffix_ok (Datatypes.S (List.length r)) (negb f) 93 Fr) as (t2 & ->). cbn. eauto.
  Qed.
  Lemma map_safe : forall size b d, safe_in LvMap b d -> safe_wr (map_block (json_printer c) size b) (Datatypes.S d).
  Proof.
    intros size b d H top r F. unfold map_block, sized, w_then. cbn [json_printer pr_usesSize pr_openMap pr_closeMap bind]. unfold js_open.
    assert (Fr : spaced c = true -> indent_at c (Datatypes.S (List.length r)) < 4004) by (intro Sp; apply (F Sp (Datatypes.S (List.length r))); lia).
    destruct (suffix_ok (List.length (top :: r)) true 123 Fr) as (t & E). rewrite andb_true_r in E. rewrite E. cbn [bind put].
    specialize (H 0 false (top :: r) ltac:(cbn; lia) ltac:(cbn [List.length]; eapply fits_le; [|exact F]; lia)).
    destruct (b _) as [[o2 s2]| | |]; try contradiction; [|exact I]. destruct H as (n & f & ->). cbn [bind]. destruct top as [n0 l0 f0]. cbn [js_closeMap].
    destruct (suffix_ok (Datatypes.S (List.length r)) true 125 Fr) as (t2 & E2). rewrite andb_true_r in E2. rewrite E2. cbn. eauto.
  Qed.
  Lemma throw_safe : forall d, safe_wr (w_fail Throw) d.
  Proof. intros d top r _. exact I. Qed.
  Definition safe_ty (t : ty) (v : val) : Prop :=
    safe_wr (sf_print (S t) v) (nesting v) /\ (is_class t = true -> safe_wr (sf_poly (S t) v) (nesting v) /\ safe_in LvMap (sf_members (S t) v) (pred (nesting v))).
  Lemma marker_safe : forall i d, safe_in LvMap (put_marker (json_printer c) marker i) d.
  Proof. intros i d. apply in_then; [apply key_safe|apply wr_in, value_safe]. Qed.

  Theorem ser_safe : forall t v, wf t = true -> shaped t v = true -> safe_ty t v.
  Proof.
    apply (ty_ind' (fun t => forall v, wf t = true -> shaped t v = true -> safe_ty t v)).
    - intros i v W H. split; [|discriminate]. destruct v; try discriminate H. apply value_safe.
    - intros v W H. split; [|discriminate]. destruct v; try discriminate H. apply value_safe.
    - intros v W H. split; [|discriminate]. destruct v; try discriminate H. apply value_safe.
    - intros l v W H. split; [|discriminate]. destruct v; try discriminate H. cbn [ser sf_print mkSv]. destruct (enum_name l z); [apply value_safe|apply throw_safe].
    - intros co t IH v W H. apply wf_seq in W. split; [|discriminate]. destruct v; try discriminate H. cbn [ser sf_print mkSv nesting]. apply array_safe, in_all. apply Forall_map, Forall_forall. intros x Hx.
      apply wr_in. cbn [wf shaped] in *. rewrite forallb_forall in H. eapply safe_mono; [apply list_max_in, (List.in_map nesting), Hx|]. exact (proj1 (IH _ W (H _ Hx))).
    - intros n t IH v W H. split; [|discriminate]. destruct v; try discriminate H. cbn [ser sf_print mkSv nesting]. cbn [wf shaped] in *. apply andb_prop in H as [L H]. rewrite L.
      apply array_safe, in_all. apply Forall_map, Forall_forall. intros x Hx.
      apply wr_in. rewrite forallb_forall in H. eapply safe_mono; [apply list_max_in, (List.in_map nesting), Hx|]. exact (proj1 (IH _ W (H _ Hx))).
    - intros ts IH v W H. split; [|discriminate]. destruct v; try discriminate H. cbn [ser sf_print mkSv nesting]. cbn [wf shaped] in *. apply array_safe.
      rewrite forallb_forall in W. rewrite Forall_forall in IH.
      assert (G : forall q ts l, (forall t x, In t ts -> In x l -> shaped t x = true -> safe_wr (sf_print (S t) x) q) -> all2b (map shaped ts) l = true -> safe_in LvArray (put_tuple (map S ts) l) q).
      { clear. intros q. induction ts as [|t ts IH]; intros [|x l] Hq H; cbn [map all2b put_tuple] in *; try discriminate H; [apply in_nothing|].
        apply andb_prop in H as [Hx H]. apply in_then; [apply wr_in, Hq; auto; now left|]. apply IH; [|exact H]. intros; apply Hq; auto; now right. }
      apply G; [|exact H]. intros t x Ht Hx Hs. eapply safe_mono; [apply list_max_in, (List.in_map nesting), Hx|]. apply (IH t Ht x (W t Ht) Hs).
    - intros fw t IH v W H. split; [|discriminate]. destruct v; try discriminate H. cbn [ser sf_print mkSv nesting]. apply map_safe, in_all. apply Forall_map, Forall_forall. intros x Hx.
      apply in_then; [apply key_safe|]. apply wr_in. cbn [wf shaped] in *. rewrite forallb_forall in H. eapply safe_mono; [apply list_max_in, (List.in_map (fun kv => nesting (snd kv))), Hx|]. apply IH; auto.
    - intros t IH v W H. split; [|discriminate]. destruct v as [| | | | |[x|]| | |]; try discriminate H; cbn [ser sf_print mkSv nesting]; [|apply value_safe]. now apply IH.
    - intros t IH v W H. split; [|discriminate]. destruct v as [| | | | | |[x|]| |]; try discriminate H; cbn [ser sf_print mkSv nesting]; [|apply throw_safe]. now apply IH.
    - intros si ms ps IHm IHp v W H. destruct v; try discriminate H. destruct (wf_struct _ _ _ W) as (Ln & Wm & Wp). rewrite Forall_forall in IHm, IHp.
      apply andb_prop in H as [Ho Hp].
      assert (M : safe_in LvMap (put_struct (json_printer c) si (map opt_type ms) (map S ms) (map S ps) (VStruct own parents)) (pred (nesting (VStruct own parents)))).
      { cbn [put_struct nesting pred]. apply in_then.
        - eapply in_mono; [apply Nat.le_max_l|].
          assert (G : forall q ns ts l, List.length ns = List.length ts -> (forall t x, In t ts -> In x l -> shaped t x = true -> safe_wr (sf_print (S t) x) q) -> all2b (map shaped ts) l = true ->
            safe_in LvMap (put_members (json_printer c) ns (map opt_type ts) (map S ts) l) q).
          { clear. intros q. induction ns as [|n ns IH]; intros [|t ts] [|x l] L Hq H; cbn [map all2b put_members List.length] in *; try discriminate; [apply in_nothing|].
            apply andb_prop in H as [Hx H]. apply in_then; [|apply IH; [lia| |exact H]; intros; apply Hq; auto; now right].
            destruct (Serializer.keeps _ x); [|apply in_nothing]. apply in_then; [apply key_safe|]. apply wr_in, Hq; auto; now left. }
          apply G; [now rewrite map_length| |exact Ho]. intros t x Ht Hx Hs. eapply safe_mono; [apply list_max_in, (List.in_map nesting), Hx|]. apply (IHm t Ht x); auto.
        - eapply in_mono; [apply Nat.le_max_r|].
          assert (G : forall q ts l, (forall t x, In t ts -> In x l -> shaped t x = true -> safe_in LvMap (sf_members (S t) x) q) -> all2b (map shaped ts) l = true ->
            safe_in LvMap (put_parents (map S ts) l) q).
          { clear. intros q. induction ts as [|t ts IH]; intros [|x l] Hq H; cbn [map all2b put_parents] in *; try discriminate H; [apply in_nothing|].
            apply andb_prop in H as [Hx H]. apply in_then; [apply Hq; auto; now left|]. apply IH; [|exact H]. intros; apply Hq; auto; now right. }
          apply G; [|exact Hp]. intros t x Ht Hx Hs. eapply in_mono; [apply list_max_in, (List.in_map (fun p => pred (nesting p))), Hx|].
          destruct (Wp t Ht) as [Ct Wt]. apply (IHp t Ht x); auto. }
      split; [|intros _; split; [|exact M]]; cbn [ser sf_print sf_poly]; change (nesting (VStruct own parents)) with (Datatypes.S (pred (nesting (VStruct own parents)))).
      + apply map_safe, in_then; [|exact M]. destruct (si_mark si); [apply marker_safe|apply in_nothing].
      + apply map_safe, in_then; [apply marker_safe|exact M].
    - intros cs o IH v W H. split; [|discriminate]. destruct v as [| | | | |[x|]| | |]; try discriminate H; cbn [ser sf_print mkSv nesting]; [|apply value_safe].
      destruct x; try discriminate H. cbn [shaped nesting] in *. rewrite nth_error_map in *. destruct (nth_error cs i) as [t|] eqn:E; cbn [option_map] in *; [|discriminate H].
      rewrite Forall_forall in IH. cbn [wf] in W. rewrite forallb_forall in W. destruct (andb_prop _ _ (W t (nth_error_In _ _ E))) as [Ct Wt]. now apply (IH t (nth_error_In _ _ E)).
    - intros cs IH v W H. split; [|discriminate]. destruct v; try discriminate H; cbn [ser sf_print mkSv nesting].
      cbn [shaped nesting] in *. rewrite nth_error_map in *. destruct (nth_error cs i) as [t|] eqn:E; cbn [option_map] in *; [|discriminate H].
      rewrite Forall_forall in IH. cbn [wf] in W. apply andb_prop in W as [W _]. rewrite forallb_forall in W. destruct (andb_prop _ _ (W t (nth_error_In _ _ E))) as [Ct Wt]. now apply (IH t (nth_error_In _ _ E)).
  Qed.
End Safe.

(** ** Bytes of documents *)
Definition visible (l : list Z) : Prop := Forall (fun c => 9 <= c) l.
Lemma string_visible : forall P raw v, json_string_when P raw v -> visible raw.
Proof.
  assert (Hx : forall h n, hex4 h n -> visible h).
  { intros h n H. inversion H; subst. unfold visible.
    repeat (apply Forall_cons; [match goal with H : hex_digit ?a _ |- 9 <= ?a => inversion H; lia end|]). apply Forall_nil. }
  intros P raw v H. unfold visible in *.
  induction H as [|c r v Hc H1 H2 H IH|e x r v He H IH|h n r v Hh Hn1 Hn2 H IH|h1 n1 h2 n2 r v Hh1 Hn1 Hh2 Hn2 HP H IH].
  - constructor.
  - constructor; [lia|exact IH].
  - constructor; [lia|]. constructor; [|exact IH]. inversion He; lia.
  - constructor; [lia|]. constructor; [lia|]. apply Forall_app. eauto.
  - constructor; [lia|]. constructor; [lia|]. apply Forall_app. split; [eauto|].
    constructor; [lia|]. constructor; [lia|]. apply Forall_app. eauto.
Qed.
Lemma digits_visible : forall l, Forall digit l -> visible l.
Proof. intros l H. apply Forall_impl with (2 := H). unfold digit. intros; lia. Qed.
Lemma ws_visible : forall l, ws l -> visible l.
Proof. intros l H. apply Forall_impl with (2 := H). unfold ws_char. intros; lia. Qed.
Lemma number_visible : forall t, number t -> visible t.
Proof.
  intros t [s i f e Hs Hi Hf He]. repeat (apply Forall_app; split).
  - destruct Hs; repeat constructor; lia.
  - destruct Hi as [|c r Hc Hr]; [repeat constructor; lia|]. constructor; [lia|now apply digits_visible].
  - destruct Hf as [|l [_ Hl]]; [constructor|]. constructor; [lia|now apply digits_visible].
  - destruct He as [|x l Hx [_ Hl]|x s' l Hx Hs' [_ Hl]]; [constructor| |]; repeat (constructor; [lia|]); now apply digits_visible.
Qed.
Lemma spells_visible : (forall j t, spells j t -> visible t) /\ (forall l t, spells_elems l t -> visible t) /\ (forall l t, spells_members l t -> visible t).
Proof.
  apply (spells_mutind (fun _ t => visible t) (fun _ t => visible t) (fun _ t => visible t)); unfold visible;
    intros; repeat match goal with
    | H : legal_string _ |- _ => destruct H as (? & H%string_visible)
    | H : ws _ |- _ => apply ws_visible in H
    | |- Forall _ (_ ++ _) => apply Forall_app; split
    | |- Forall _ (_ :: _) => constructor; [lia|]
    | |- Forall _ [] => constructor
    end; auto.
  match goal with H : scalar_text _ _ |- _ => destruct H as [t H|raw (v & H)| | |] end; try (repeat constructor; lia).
  - now apply number_visible.
  - constructor; [lia|]. apply Forall_app. split; [now apply string_visible in H|repeat constructor; lia].
Qed.
Lemma document_visible : forall j text, document j text -> visible text.
Proof.
  intros j text [j' w1 t w2 H1 H H2]. apply Forall_app. split; [now apply ws_visible|]. apply Forall_app. split; [now apply (proj1 spells_visible j')|now apply ws_visible].
Qed.
Lemma not_visible : forall text, existsb (fun c => c <? 9) text = true -> forall j, ~ document j text.
Proof.
  intros text E j D. apply document_visible in D. apply existsb_exists in E as (c & Hc & E). unfold visible in D. rewrite Forall_forall in D. specialize (D c Hc). lia.
Qed.
