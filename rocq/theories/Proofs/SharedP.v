(** Shared pointers: what is written, and reading it back. *)
From Coq Require Import ZArith String List Bool Lia ZifyBool.
From Verif Require Import Model.Base Model.Source Model.Number Model.JsonLexer Model.ParserInterface Model.JsonParser Model.Printer Model.JsonPrinter
  Model.Types Model.Deserializer Model.Serializer Model.Importer Model.Exporter Model.Shared
  Spec.JsonString Spec.Json Spec.Typed Spec.Import Spec.Denotes Spec.Shared
  Proofs.LexP Proofs.Sim Proofs.TreeM Proofs.InterpP Proofs.DenotesP Proofs.JsonSim Proofs.ImportP Proofs.ExportP.
Import ListNotations.
Open Scope Z_scope.

(** ** Writing: both passes of a string export write the same. *)
Lemma add_saved : forall saved me a x, exists k, saved_at (fst (add_shared saved me a x)) a = Some k /\
  snd (add_shared saved me a x) = VStruct [VInt a; VOpt (if Nat.eqb k me then Some (VPtr (Some x)) else None)] [] /\
  (saved_at saved a = Some k \/ (saved_at saved a = None /\ k = me)).
Proof.
  intros saved me a x. unfold add_shared. destruct (saved_at saved a) as [k|] eqn:E; cbn [fst snd saved_at].
  - exists k. rewrite E. auto.
  - exists me. rewrite Z.eqb_refl. auto.
Qed.
Lemma add_other : forall saved me a x b, b <> a -> saved_at (fst (add_shared saved me a x)) b = saved_at saved b.
Proof.
  intros saved me a x b N. unfold add_shared. destruct (saved_at saved a) eqn:E; cbn [fst]; [reflexivity|]. cbn [saved_at]. destruct (Z.eqb_spec b a); [contradiction|reflexivity].
Qed.
Lemma add_keeps : forall saved me a x b k, saved_at saved b = Some k -> saved_at (fst (add_shared saved me a x)) b = Some k.
Proof.
  intros saved me a x b k H. unfold add_shared. destruct (saved_at saved a) eqn:E; cbn [fst]; [exact H|]. cbn [saved_at]. destruct (Z.eqb_spec b a); [congruence|exact H].
Qed.
Lemma infos_cons : forall saved i heap a r, infos saved i heap (a :: r) =
  if a =? 0 then (fst (infos saved (S i) heap r), VPtr None :: snd (infos saved (S i) heap r))
  else let s := add_shared saved i a (heap a) in
       (fst (infos (fst s) (S i) heap r), VPtr (Some (snd s)) :: snd (infos (fst s) (S i) heap r)).
Proof.
  intros. cbn [infos]. destruct (a =? 0); [destruct (infos saved (S i) heap r); reflexivity|].
  destruct (add_shared saved i a (heap a)) as [s v]. cbn [fst snd]. destruct (infos s (S i) heap r); reflexivity.
Qed.
Lemma infos_keeps : forall heap ps saved i b k, saved_at saved b = Some k -> saved_at (fst (infos saved i heap ps)) b = Some k.
Proof.
  intros heap. induction ps as [|a ps IH]; intros saved i b k H; [exact H|]. rewrite infos_cons. destruct (a =? 0); cbn [fst]; auto using add_keeps.
Qed.
Lemma infos_again : forall heap ps saved saved2 i,
  (forall b k, saved_at (fst (infos saved i heap ps)) b = Some k -> saved_at saved2 b = Some k) -> infos saved2 i heap ps = (saved2, snd (infos saved i heap ps)).
Proof.
  intros heap. induction ps as [|a ps IH]; intros saved saved2 i H; [reflexivity|]. rewrite !infos_cons in *. destruct (a =? 0); cbn [fst snd] in *.
  - now rewrite (IH saved saved2 _ H).
  - cbv zeta in *. cbn [fst snd] in *. destruct (add_saved saved i a (heap a)) as (k & Ek & Ev & _).
    assert (E2 : saved_at saved2 a = Some k) by (apply H, infos_keeps; exact Ek).
    assert (E : add_shared saved2 i a (heap a) = (saved2, snd (add_shared saved i a (heap a)))).
    { rewrite Ev. unfold add_shared. now rewrite E2, E2. }
    rewrite E. cbn [fst snd]. now rewrite (IH (fst (add_shared saved i a (heap a))) saved2 _ H).
Qed.
Definition elements (heap : Z -> val) (ps : list Z) : list val := snd (infos [] 0 heap ps).
Theorem shared_export_is : forall c k P heap ps,
  shared_export c k P heap ps = json_export c k (TVec (TPtr (shared_info P))) (VList (elements heap ps)).
Proof.
  intros c k P heap ps. unfold shared_export, json_export, shared_pass, elements. f_equal.
  assert (E := infos_again heap ps [] (fst (infos [] 0 heap ps)) 0 ltac:(auto)). destruct (infos [] 0 heap ps) as [saved vs]. cbn [fst snd] in *.
  destruct k; [reflexivity|]. rewrite E. reflexivity.
Qed.

(** ** The pointers that the elements give *)
Fixpoint take (vs : list val) (s : shared) : outcome shared :=
  match vs with
  | [] => Ok s
  | VPtr None :: r => take r (mkShared (sh_ptrs s ++ [None]) (sh_saved s) (sh_objects s))
  | VPtr (Some info) :: r => do s <- get_shared info s; take r s
  | _ :: _ => UB
  end.

Record shares (heap : Z -> val) (seen : list Z) (ws : list (Z * nat)) (s : shared) : Prop := mkShares {
  sw_len : length (sh_ptrs s) = length seen;
  sw_null : forall i, nth_error seen i = Some 0 -> nth_error (sh_ptrs s) i = Some None;
  sw_ptr : forall i p, nth_error seen i = Some p -> p <> 0 -> exists n, nth_error (sh_ptrs s) i = Some (Some n) /\ saved_at (sh_saved s) p = Some (Some n);
  sw_ws : forall p k, saved_at ws p = Some k -> (k < length seen)%nat /\ exists n, saved_at (sh_saved s) p = Some (Some n);
  sw_rs : forall p q, saved_at (sh_saved s) p = Some q -> p <> 0 /\ (exists n, q = Some n /\ nth_error (sh_objects s) n = Some (heap p)) /\ exists k, saved_at ws p = Some k;
  sw_inj : forall p p' q, saved_at (sh_saved s) p = Some q -> saved_at (sh_saved s) p' = Some q -> p = p'
}.
Lemma nth_snoc : forall {X} (l : list X) x i y, nth_error (l ++ [x]) i = Some y -> nth_error l i = Some y \/ (i = length l /\ y = x).
Proof.
  intros X l x i y H. destruct (Nat.lt_ge_cases i (length l)) as [L|L].
  - rewrite nth_error_app1 in H by exact L. now left.
  - rewrite nth_error_app2 in H by exact L. destruct (i - length l)%nat as [|d] eqn:D; [|destruct d; discriminate H]. right. cbn in H. split; [lia|congruence].
Qed.
Lemma nth_old : forall {X} (l : list X) x i y, nth_error l i = Some y -> nth_error (l ++ [x]) i = Some y.
Proof. intros X l x i y H. rewrite nth_error_app1; [exact H|]. apply nth_error_Some. congruence. Qed.
Lemma nth_end : forall {X} (l : list X) x, nth_error (l ++ [x]) (length l) = Some x.
Proof. intros. rewrite nth_error_app2, Nat.sub_diag by lia. reflexivity. Qed.

Lemma take_infos : forall heap ps seen ws s, shares heap seen ws s -> exists s' ws', take (snd (infos ws (length seen) heap ps)) s = Ok s' /\ shares heap (seen ++ ps) ws' s'.
Proof.
  intros heap. induction ps as [|a ps IH]; intros seen ws s H; [exists s, ws; now rewrite app_nil_r|].
  rewrite infos_cons. assert (L : length (seen ++ [a]) = S (length seen)) by (rewrite app_length; cbn; lia).
  change (a :: ps) with ([a] ++ ps). rewrite app_assoc. destruct H as [h1 h2 h3 h4 h5 h6].
  destruct (Z.eqb_spec a 0) as [->|Na]; cbn [snd take].
  - rewrite <- L. apply IH. constructor; cbn [sh_ptrs sh_saved sh_objects].
    + rewrite !app_length, h1. reflexivity.
    + intros i E. destruct (nth_snoc _ _ _ _ E) as [E1|[-> _]]; [apply nth_old; auto|]. rewrite <- h1. apply nth_end.
    + intros i p E N. destruct (nth_snoc _ _ _ _ E) as [E1|[_ ->]]; [|congruence]. destruct (h3 i p E1 N) as (n & E2 & E3). exists n. auto using nth_old.
    + intros p k E. destruct (h4 p k E) as [E1 E2]. split; [lia|exact E2].
    + exact h5.
    + exact h6.
  - cbv zeta. cbn [snd take]. destruct (add_saved ws (length seen) a (heap a)) as (k & Ek & Ev & D). rewrite Ev.
    destruct D as [D|[D ->]].
    + destruct (h4 a k D) as (Lk & n & En). destruct (Nat.eqb_spec k (length seen)) as [|_]; [lia|]. cbn [get_shared]. rewrite En. cbn [bind].
      rewrite <- L. apply IH. constructor; cbn [sh_ptrs sh_saved sh_objects].
      * rewrite !app_length, h1. reflexivity.
      * intros i E. destruct (nth_snoc _ _ _ _ E) as [E1|[_ E1]]; [apply nth_old; auto|congruence].
      * intros i p E N. destruct (nth_snoc _ _ _ _ E) as [E1|[-> ->]].
        -- destruct (h3 i p E1 N) as (n' & E2 & E3). exists n'. auto using nth_old.
        -- exists n. split; [rewrite <- h1; apply nth_end|exact En].
      * intros p k' E. destruct (Z.eq_dec p a) as [->|Np]; [assert (k' = k) as -> by congruence; split; [lia|eauto]|].
        rewrite add_other in E by exact Np. destruct (h4 p k' E) as [E1 E2]. split; [lia|exact E2].
      * intros p q E. destruct (h5 p q E) as (N & O & k' & K). split; [exact N|]. split; [exact O|]. exists k'. now apply add_keeps.
      * exact h6.
    + rewrite Nat.eqb_refl. cbn [get_shared bind].
      assert (Fr : saved_at (sh_saved s) a = None).
      { destruct (saved_at (sh_saved s) a) eqn:E; [|reflexivity]. destruct (h5 _ _ E) as (_ & _ & k & K). congruence. }
      rewrite <- L. apply IH. constructor; cbn [sh_ptrs sh_saved sh_objects saved_at].
      * rewrite !app_length, h1. reflexivity.
      * intros i E. destruct (nth_snoc _ _ _ _ E) as [E1|[_ E1]]; [apply nth_old; auto|congruence].
      * intros i p E N. destruct (nth_snoc _ _ _ _ E) as [E1|[-> ->]].
        -- destruct (h3 i p E1 N) as (n' & E2 & E3). exists n'. split; [now apply nth_old|]. destruct (Z.eqb_spec p a) as [->|_]; [congruence|exact E3].
        -- exists (length (sh_objects s)). split; [rewrite <- h1; apply nth_end|]. now rewrite Z.eqb_refl.
      * intros p k' E. destruct (Z.eqb_spec p a) as [->|Np]; [assert (k' = length seen) as -> by congruence; split; [lia|eauto]|].
        rewrite add_other in E by exact Np. destruct (h4 p k' E) as [E1 E2]. split; [lia|exact E2].
      * intros p q E. destruct (Z.eqb_spec p a) as [->|Np].
        -- assert (q = Some (length (sh_objects s))) as -> by congruence. split; [exact Na|]. split; [|eauto]. exists (length (sh_objects s)). split; [reflexivity|apply nth_end].
        -- destruct (h5 p q E) as (N & (n & -> & O) & k' & K). split; [exact N|]. split; [exists n; split; [reflexivity|now apply nth_old]|]. exists k'. now apply add_keeps.
      * assert (New : forall p q, saved_at (sh_saved s) p = Some q -> q <> Some (length (sh_objects s))).
        { intros p q E ->. destruct (h5 p _ E) as (_ & (n & En & O) & _). injection En as <-. rewrite (proj2 (nth_error_None (sh_objects s) (length (sh_objects s))) (le_n _)) in O. discriminate O. }
        intros p p' q E E'. destruct (Z.eqb_spec p a) as [->|Np], (Z.eqb_spec p' a) as [->|Np']; auto.
        -- exfalso. apply (New _ _ E'). congruence.
        -- exfalso. apply (New _ _ E). congruence.
        -- eauto.
Qed.
Theorem take_elements : forall heap ps, exists s, take (elements heap ps) (mkShared [] [] []) = Ok s /\ same_sharing heap ps (sh_objects s) (sh_ptrs s).
Proof.
  intros heap ps. destruct (take_infos heap ps [] [] (mkShared [] [] [])) as (s & ws & E & [h1 h2 h3 h4 h5 h6]).
  { constructor; cbn [sh_ptrs sh_saved sh_objects saved_at]; try discriminate; try (intros [|]; discriminate). reflexivity. }
  exists s. split; [exact E|]. cbn [app] in *. split; [exact h1|]. split.
  - intros i p Ep. split; [intros ->; auto|]. intro N. destruct (h3 i p Ep N) as (n & E1 & E2). exists n. split; [exact E1|].
    destruct (h5 p _ E2) as (_ & (n' & En & O) & _). injection En as ->. exact O.
  - intros i j p p' q q' Ep Ep' Eq Eq'.
    assert (C : forall i p q, nth_error ps i = Some p -> nth_error (sh_ptrs s) i = Some q -> (p = 0 /\ q = None) \/ (exists n, q = Some n /\ saved_at (sh_saved s) p = Some (Some n))).
    { intros i0 p0 q0 E1 E2. destruct (Z.eq_dec p0 0) as [->|N]; [left; split; [reflexivity|]; rewrite (h2 _ E1) in E2; congruence|].
      right. destruct (h3 _ _ E1 N) as (n & E3 & E4). exists n. split; [congruence|exact E4]. }
    destruct (C _ _ _ Ep Eq) as [[-> ->]|(n & -> & S1)], (C _ _ _ Ep' Eq') as [[-> ->]|(n' & -> & S2)].
    + tauto.
    + split; [intros <-|discriminate]. exfalso. exact (proj1 (h5 _ _ S2) eq_refl).
    + split; [intros ->|discriminate]. exfalso. exact (proj1 (h5 _ _ S1) eq_refl).
    + split; [intros ->; congruence|]. intro Q. injection Q as ->. eauto.
Qed.

(** ** Reading over related parsers *)
Section Related.
  Context {S1 S2 : Type} (o1 : parser_ops S1) (o2 : parser_ops S2) (F : nat) (m : strictness) (Rp : pst S1 -> pst S2 -> Prop)
    (Rc : token -> pst S1 -> pst S2 -> Prop) (Re : pst S1 -> pst S2 -> Prop) (HS : dsim o1 o2 F m Rp Rc Re).
  Variables (marker : bytes) (P : ty).

  Lemma dsim_shared : forall s p q, Rp p q -> follows Rp (read_shared o1 F m marker P s p) (read_shared o2 F m marker P s q).
  Proof.
    intros s p q HR. unfold read_shared.
    eapply followsT_bind; [apply (ds_token _ _ _ _ _ _ _ HS); exact HR|]. intros t s1 s2 HQ.
    assert (N := ds_null _ _ _ _ _ _ _ HS _ _ _ HQ). rewrite N.
    destruct (token_eqb t TokValue && op_null o2 (ps_impl s2)) eqn:B.
    - eapply follows_bind_; [eapply (ds_ignore _ _ _ _ _ _ _ HS); [exact HQ|]; rewrite N; now apply andb_prop in B|]. intros. now apply follows_ret.
    - eapply follows_bind; [apply (dsim_deser _ _ _ _ _ _ _ HS); exact (ds_push _ _ _ _ _ _ _ HS _ _ _ HQ)|]. intros info t1 t2 HT.
      destruct (get_shared info s); cbn [bind]; try exact I; try reflexivity. now apply follows_ret.
  Qed.
  Lemma dsim_shared_loop : forall n s p q, Rp p q -> follows Rp (shared_loop o1 F m marker P n s p) (shared_loop o2 F m marker P n s q).
  Proof.
    induction n as [|n IH]; intros s p q HR; cbn [shared_loop]; [exact I|].
    eapply followsT_bind; [apply (ds_token _ _ _ _ _ _ _ HS); exact HR|]. intros t s1 s2 HQ.
    destruct t; try (eapply follows_bind; [apply dsim_shared; exact (ds_push _ _ _ _ _ _ _ HS _ _ _ HQ)|]; intros; now apply IH).
    apply follows_ret. apply (ds_done _ _ _ _ _ _ _ HS _ _ _ HQ); discriminate.
  Qed.
  Lemma dsim_shareds : forall s p q, Rp p q -> follows Rp (read_shareds o1 F m marker P s p) (read_shareds o2 F m marker P s q).
  Proof.
    intros s p q HR. unfold read_shareds.
    eapply followsT_bind; [apply (ds_token _ _ _ _ _ _ _ HS); exact HR|]. intros t s1 s2 HQ.
    destruct t; try reflexivity. apply dsim_shared_loop. apply (ds_done _ _ _ _ _ _ _ HS _ _ _ HQ); discriminate.
  Qed.
End Related.

(** ** Reading a tree *)
Section Tree.
  Context {A : Type} (sc : scal_ops A) (m : strictness) (marker : bytes) (P : ty) (F : nat).
  Notation T := (tree_ops sc).
  Notation I := (interp sc m marker).

  Definition in_shared (s : shared) (j : tree A) : outcome shared :=
    if null_tree sc j then (if skippable sc j then Ok (mkShared (sh_ptrs s ++ [None]) (sh_saved s) (sh_objects s)) else Hang)
    else do info <- i_parse (I (shared_info P)) fresh_info j; get_shared info s.
  Fixpoint in_shareds (l : list (tree A)) (s : shared) : outcome shared :=
    match l with [] => Ok s | j :: r => do s <- in_shared s j; in_shareds r s end.

  Hypothesis (Tame : tame sc (shared_info P)).
  Lemma in_shared_ok : forall s j rest p, before sc j rest p -> (size j <= F)%nat ->
    read_shared T F m marker P s p = do s' <- in_shared s j; Ok (s', fin sc j rest).
  Proof.
    intros s j rest p Hb Hf. unfold read_shared, in_shared. rewrite Hb. cbn [bind].
    assert (E : token_eqb (first_tok j) TokValue && op_null T (ps_impl (after_first j rest)) = null_tree sc j) by (destruct j; reflexivity).
    rewrite E. destruct (null_tree sc j) eqn:En.
    - destruct j as [a|l|l]; try discriminate En. cbn [after_first skippable].
      unfold lift_, st, fin, null_tree, st. cbn in *. rewrite En. cbn. destruct (sc_skip sc a); cbn; rewrite ?En; reflexivity.
    - rewrite (proj1 (interp_parse sc m marker F (shared_info P) Tame) fresh_info j rest _ (before_push sc j rest) Hf).
      destruct (i_parse (I (shared_info P)) fresh_info j) as [info| | |]; cbn [bind]; try reflexivity.
  Qed.
  Lemma shared_loop_ok : forall l n s b rest, (Datatypes.S (sizes l) <= n)%nat -> (sizes l <= F)%nat ->
    shared_loop T F m marker P n s (st (PFree b) (flat_map events l ++ EArrE :: rest)) = do s' <- in_shareds l s; Ok (s', st (PFree (end_elems sc b l)) rest).
  Proof.
    induction l as [|j l IH]; intros n s b rest Hn HF; (destruct n as [|n]; [lia|]); [reflexivity|].
    cbn [sizes fold_right] in Hn, HF. fold (sizes l) in Hn, HF. assert (Sp := size_pos j).
    cbn [flat_map]. rewrite <- app_assoc. cbn [shared_loop in_shareds]. rewrite (before_st sc j (flat_map events l ++ EArrE :: rest) b). cbn [bind]. rewrite bind_assoc.
    assert (E : read_shared T F m marker P s (pushBackToken (first_tok j) (after_first j (flat_map events l ++ EArrE :: rest)))
                = do s' <- in_shared s j; Ok (s', fin sc j (flat_map events l ++ EArrE :: rest))).
    { apply in_shared_ok; [apply before_push|lia]. }
    destruct j as [a|l'|l']; cbn [first_tok] in *; rewrite E; destruct (in_shared s _); cbn [bind]; try reflexivity; unfold fin; apply IH; lia.
  Qed.
  Definition in_root (s : shared) (j : tree A) : outcome shared := match j with Arr l => in_shareds l s | _ => Throw end.
  Lemma in_root_ok : forall s j rest p, before sc j rest p -> (size j <= F)%nat ->
    read_shareds T F m marker P s p = do s' <- in_root s j; Ok (s', fin sc j rest).
  Proof.
    intros s j rest p Hb Hf. unfold read_shareds. rewrite Hb. cbn [bind]. destruct j as [a|l|l]; cbn [first_tok in_root bind]; try reflexivity.
    rewrite size_arr in Hf. cbn [after_first]. rewrite shared_loop_ok by lia. reflexivity.
  Qed.

  (** The name that is not initialised does not matter once it was read. *)
  Lemma info_members : forall l x d found v' f', in_members sc m (i_scan (I (shared_info P))) (VStruct [x; d] []) found l = Ok (v', f') ->
    exists y d', v' = VStruct [y; d'] [] /\
    (y = x \/ forall x', in_members sc m (i_scan (I (shared_info P))) (VStruct [x'; d] []) found l = Ok (v', f')).
  Proof.
    induction l as [|[k j] l IH]; intros x d found v' f' E; cbn [in_members] in *.
    - assert (v' = VStruct [x; d] []) as -> by congruence. exists x, d. auto.
    - destruct (sc_key sc k) as [k'| | |]; cbn [bind] in *; try discriminate E.
      cbn [interp i_scan shared_info map in_scan_struct in_scan_parents si_names nameOverride si_over lookup_name in_scan_members] in *.
      destruct (beq k' (bs "sharedPtrName")).
      + cbn [bind] in *. destruct (i_parse (I (TInt ILong)) x j) as [y| | |] eqn:Ey; cbn [interp i_parse] in *; rewrite ?Ey in *; cbn [bind] in *; try discriminate E.
        destruct (IH _ _ _ _ _ E) as (y1 & d1 & -> & _). exists y1, d1. split; [reflexivity|]. right. intro x'. exact E.
      + destruct (beq k' (bs "data")).
        * cbn [bind] in *. destruct d as [| | | | | |o| |]; try discriminate E. cbn [i_parse] in *. destruct (i_parse (I P) (match o with Some x0 => x0 | None => default P end) j) as [y| | |]; cbn [bind] in *; try discriminate E.
          destruct (IH _ _ _ _ _ E) as (y1 & d1 & -> & [Q|G]); exists y1, d1; (split; [reflexivity|]); [now left|now right].
        * destruct m; try discriminate E. destruct (skippable sc j); [|discriminate E].
          destruct (IH _ _ _ _ _ E) as (y1 & d1 & -> & [Q|G]); exists y1, d1; (split; [reflexivity|]); [now left|now right].
  Qed.
  Lemma info_fresh : forall j a d, i_parse (I (shared_info P)) (default (shared_info P)) j = Ok (VStruct [VInt a; d] []) -> a <> 0 ->
    i_parse (I (shared_info P)) fresh_info j = Ok (VStruct [VInt a; d] []).
  Proof.
    intros j a d E N. change (default (shared_info P)) with (VStruct [VInt 0; VOpt None] []) in E.
    change (i_parse (I (shared_info P))) with (in_map sc m (required (shared_info P)) (i_scan (I (shared_info P)))) in *.
    destruct j as [s|l|l]; try discriminate E. cbn [in_map] in *.
    destruct (in_members sc m (i_scan (I (shared_info P))) (VStruct [VInt 0; VOpt None] []) [] l) as [[v' f']| | |] eqn:M; cbn [bind] in E; try discriminate E.
    destruct (info_members _ _ _ _ _ _ M) as (y & d' & -> & [->|G]).
    - assert (VStruct [VInt 0; d'] [] = VStruct [VInt a; d] []) as Q by (destruct m; try congruence; destruct (forallb _ _); congruence). congruence.
    - unfold fresh_info. rewrite G. exact E.
  Qed.
End Tree.

Section Elements.
  Context {A : Type} (sc : scal_ops A) (m : strictness) (marker : bytes) (P : ty)
    (Int : ity -> Z -> A -> Prop) (Bool : bool -> A -> Prop) (Str Tag : bytes -> A -> Prop) (Null : A -> Prop) (Key : bytes -> bytes -> Prop).
  Hypothesis (HNull : forall a, Null a -> sc_null sc a = true /\ sc_skip sc a = true).
  Notation D := (sense_of Int Bool Str Tag Null Key marker).

  Theorem elements_read : forall vs js s s',
    (forall info j, In (VPtr (Some info)) vs -> d_val (D (shared_info P)) info j -> i_parse (interp sc m marker (shared_info P)) (default (shared_info P)) j = Ok info) ->
    (forall info, In (VPtr (Some info)) vs -> exists a d, info = VStruct [VInt a; d] [] /\ a <> 0) ->
    Forall2 (d_val (D (TPtr (shared_info P)))) vs js -> take vs s = Ok s' -> in_shareds sc m marker P js s = Ok s'.
  Proof.
    intros vs js s s' R N H. revert s. induction H as [|v j vs js Hj H IH]; intros s E; [exact E|].
    cbn [in_shareds]. unfold in_shared. cbn [sense_of d_simple d_val] in Hj. destruct Hj as [[-> (a & -> & Hn)]|(info & -> & Hj)]; cbn [take] in E.
    - cbn [null_tree skippable]. destruct (HNull a Hn) as [-> ->]. cbn [bind]. apply IH; [intros; apply R; [now right|assumption]|intros; apply N; now right|exact E].
    - destruct (N info (or_introl eq_refl)) as (a & d & -> & Na). assert (Q := R _ _ (or_introl eq_refl) Hj).
      assert (O : null_tree sc j = false). { destruct j; [|reflexivity|reflexivity]. discriminate Q. }
      rewrite O, (info_fresh sc m marker P j a d Q Na). cbn [bind]. destruct (get_shared _ s) as [s1| | |]; cbn [bind] in *; try discriminate E.
      apply IH; [intros; apply R; [now right|assumption]|intros; apply N; now right|exact E].
  Qed.
End Elements.

(** ** JSON *)
Theorem json_shareds : forall k conv fuel F m marker P j w t tl x s,
  spells j t -> ws w -> ends_before j tl -> at_src k s (w ++ t ++ tl) ->
  (length (w ++ t ++ tl) < fuel)%nat -> (length (w ++ t ++ tl) <= F)%nat ->
  let p0 := pst_init (mkJp (lex_init s) (mkCtl [] JDone JInit true)) in
  match in_root (json_sc k conv) m marker P x j with
  | Ok x' => exists l c, read_shareds (json_ops fuel conv) F m marker P x p0 = Ok (x', pst_init (mkJp l c)) /\
               c_started c = true /\ c_state c = JDone /\ at_src k (l_src l) tl
  | Throw => read_shareds (json_ops fuel conv) F m marker P x p0 = Throw
  | UB => read_shareds (json_ops fuel conv) F m marker P x p0 = UB
  | Hang => True
  end.
Proof.
  intros k conv fuel F m marker P j w t tl x s Hs Hw Hd Ha Hfuel HF p0.
  assert (Hr : reads tl (mkCtl [] JDone JInit true) (events j ++ []) (w ++ t ++ tl)).
  { apply (proj1 (spells_reads tl)); [exact Hs|now constructor|exact Hd|]. now constructor. }
  rewrite app_nil_r in Hr. assert (Hlen := reads_length _ _ _ _ Hr).
  assert (HR : Rp (RJ k conv fuel tl) (pst_init (mkTm true (PFree false) (events j))) p0).
  { split; [|split; reflexivity]. unfold RJ. cbn. split; [reflexivity|].
    exists (w ++ t ++ tl). split; [exact Ha|]. split; [exact Hfuel|exact Hr]. }
  assert (S := dsim_shareds _ _ F m _ _ _ (psim_dsim _ _ _ _ _ (sim_psim _ _ _ (json_sim k conv fuel tl) F)) marker P x _ _ HR).
  assert (B : before (json_sc k conv) j [] (pst_init (mkTm true (PFree false) (events j)))).
  { assert (B := before_st (json_sc k conv) j [] false). rewrite app_nil_r in B. exact B. }
  rewrite (in_root_ok (json_sc k conv) m marker P F (or_introl (json_str_not_null k conv)) x j [] _ B) in S by (unfold size; lia).
  destruct (in_root (json_sc k conv) m marker P x j) as [v'| | |]; cbn [bind follows] in S; try exact I; try exact S.
  destruct S as ([[l c] pb1 pb2] & E & (HRp & E1 & E2)). cbn in E1, E2. subst pb1 pb2.
  exists l, c. split; [exact E|]. unfold RJ, fin, st in HRp. cbn in HRp. destruct HRp as (_ & txt & At & _ & Rd).
  inversion Rd; subst. auto.
Qed.

(** [json_run] is [json_try] with another reader. *)
Lemma json_run_try : forall fuel cfg t v s,
  json_run fuel cfg (d_parse (deser (json_ops fuel (pc_conv cfg)) fuel (pc_strict cfg) (pc_marker cfg) t) v) s = json_try fuel cfg t v s.
Proof. reflexivity. Qed.

Theorem shared_try_spec : forall k fuel cfg P j text,
  document j text -> (length text < fuel)%nat ->
  match in_root (json_sc k (pc_conv cfg)) (pc_strict cfg) (pc_marker cfg) P (mkShared [] [] []) j with
  | Ok x => exists s', shared_try fuel cfg P (src_init k text) = Ok (x, s') /\ src_ok s' = true
  | Throw => shared_try fuel cfg P (src_init k text) = Throw
  | UB => shared_try fuel cfg P (src_init k text) = UB
  | Hang => True
  end.
Proof.
  intros k fuel cfg P j text [j0 w t w2 Hw Hs Hw2] Hf. clear j text. rename j0 into j. unfold shared_try, json_run.
  change (getToken (json_ops fuel (pc_conv cfg)) (pst_init (mkJp (lex_init (src_init k (w ++ t ++ w2))) ctl_init)))
    with (Ok (TokDocStart, pst_init (mkJp (lex_init (src_init k (w ++ t ++ w2))) (mkCtl [] JDone JInit true)))). cbn [bind].
  assert (Q := json_shareds k (pc_conv cfg) fuel fuel (pc_strict cfg) (pc_marker cfg) P j w t w2 (mkShared [] [] []) _ Hs Hw (ws_delim j _ Hw2) (at_init k _) Hf ltac:(lia)).
  cbv zeta in Q. destruct (in_root _ _ _ _ _ j) as [v'| | |]; try exact I; try (rewrite Q; reflexivity).
  destruct Q as (l & c & -> & C1 & C2 & At). cbn [bind ps_impl pst_init jp_lex jp_ctl ps_pb1 ps_pb2].
  assert (G : forall l', getToken (json_ops fuel (pc_conv cfg)) (mkPst (mkJp l' c) TokError TokError) =
     Ok (TokDocEnd, mkPst (mkJp l' (mkCtl (c_parents c) (c_end c) JError true)) TokError TokError)).
  { intro l'. unfold getToken. cbn [ps_pb1 ps_pb2 token_eqb negb]. unfold lift. cbn [ps_impl op_next json_ops].
    unfold jp_next. cbn [jp_next_loop jp_ctl]. unfold ctl_early. rewrite C1, C2. reflexivity. }
  destruct (pc_noTrailing cfg).
  - destruct (trailing_ws k _ w2 At (ws_blank _ Hw2)) as (s' & -> & O1 & O2). cbn [bind]. rewrite G. cbn [bind]. exists s'. auto.
  - rewrite trailing_off. cbn [bind]. rewrite G. cbn [bind]. eexists. split; [reflexivity|]. exact (proj1 (at_ok_rest _ _ _ At)).
Qed.

(** ** The elements as values *)
Lemma infos_elements : forall heap ps saved i info, In (VPtr (Some info)) (snd (infos saved i heap ps)) ->
  exists a d, info = VStruct [VInt a; VOpt d] [] /\ In a ps /\ a <> 0 /\ (d = None \/ d = Some (VPtr (Some (heap a)))).
Proof.
  intros heap. induction ps as [|a ps IH]; intros saved i info H; [destruct H|]. rewrite infos_cons in H. destruct (Z.eqb_spec a 0) as [->|N]; cbn [snd In] in H.
  - destruct H as [H|H]; [discriminate H|]. destruct (IH _ _ _ H) as (b & d & -> & I & R). exists b, d. split; [reflexivity|]. split; [now right|exact R].
  - cbv zeta in H. cbn [snd In] in H. destruct H as [H|H].
    + assert (snd (add_shared saved i a (heap a)) = info) as <- by congruence. destruct (add_saved saved i a (heap a)) as (k & _ & -> & _). eexists _, _. split; [reflexivity|]. split; [now left|]. split; [exact N|].
      destruct (Nat.eqb k i); auto.
    + destruct (IH _ _ _ H) as (b & d & -> & I & R). exists b, d. split; [reflexivity|]. split; [now right|exact R].
Qed.
Lemma infos_kinds : forall heap ps saved i v, In v (snd (infos saved i heap ps)) -> v = VPtr None \/ exists info, v = VPtr (Some info).
Proof.
  intros heap. induction ps as [|a ps IH]; intros saved i v H; [destruct H|]. rewrite infos_cons in H. destruct (a =? 0); cbv zeta in H; cbn [snd In] in H; destruct H as [<-|H]; eauto.
Qed.
(** A condition on all values inside the elements. *)
Lemma each_elements : forall (Q : ty -> val -> Prop) P heap ps,
  (forall a, In a ps -> a <> 0 -> each Q P (VPtr (Some (heap a)))) ->
  (forall l, Q (TVec (TPtr (shared_info P))) (VList l)) ->
  Q (TPtr (shared_info P)) (VPtr None) ->
  (forall a d, In a ps -> a <> 0 -> Q (TPtr (shared_info P)) (VPtr (Some (VStruct [VInt a; VOpt d] [])))) ->
  (forall a d, In a ps -> a <> 0 -> Q (shared_info P) (VStruct [VInt a; VOpt d] [])) -> (forall a, In a ps -> a <> 0 -> Q (TInt ILong) (VInt a)) ->
  Q (TOpt P) (VOpt None) -> (forall a, In a ps -> a <> 0 -> Q (TOpt P) (VOpt (Some (VPtr (Some (heap a)))))) ->
  each Q (TVec (TPtr (shared_info P))) (VList (elements heap ps)).
Proof.
  intros Q P heap ps H H1 H2 H3 H4 H5 H6 H7. cbn [each]. split; [apply H1|]. apply Forall_forall. intros v I. unfold elements in I.
  destruct (infos_kinds _ _ _ _ _ I) as [->|(info & ->)]; [split; [exact H2|exact Logic.I]|].
  destruct (infos_elements _ _ _ _ _ I) as (a & d & -> & Ia & Na & D). split; [now apply H3|]. unfold shared_info. cbn [each map rel2]. fold (shared_info P).
  split; [now apply H4|]. split; [|exact Logic.I]. split; [split; [now apply H5|exact Logic.I]|]. split; [|exact Logic.I].
  destruct D as [->| ->]; (split; [auto|]); [exact Logic.I|auto].
Qed.
Lemma elements_nesting : forall heap ps n, (forall a, In a ps -> a <> 0 -> (nesting (heap a) <= n)%nat) -> (nesting (VList (elements heap ps)) <= 2 + n)%nat.
Proof.
  intros heap ps n H. cbn [nesting]. apply le_n_S. apply list_max_le. apply Forall_forall. intros k I. apply in_map_iff in I as (v & <- & I). unfold elements in I.
  destruct (infos_kinds _ _ _ _ _ I) as [->|(info & ->)]; [cbn; lia|]. destruct (infos_elements _ _ _ _ _ I) as (a & d & -> & Ia & Na & D).
  specialize (H a Ia Na). destruct D as [->| ->]; cbn; lia.
Qed.
