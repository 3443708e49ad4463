(** Proofs about classes that refer to themselves: reading. *)
From Coq Require Import ZArith List Bool Lia ZifyBool.
From Verif Require Import Model.Base Model.Source Model.Number Model.JsonLexer Model.ParserInterface Model.JsonParser Model.Types Model.Deserializer Model.Importer Model.Recursive
  Spec.Recursive Proofs.UnicodeP Proofs.Induct Proofs.ForwardP.
Import ListNotations.
Open Scope Z_scope.

Section RtyInd.
  Variable P : rty -> Prop.
  Hypotheses (H_self : P RSelf) (H_here : forall t, P (RHere t))
    (H_seq : forall co t, P t -> P (RSeq co t)) (H_arr : forall n t, P t -> P (RArr n t))
    (H_tup : forall ts, Forall P ts -> P (RTup ts)) (H_map : forall b t, P t -> P (RMap b t))
    (H_ptr : forall t, P t -> P (RPtr t)) (H_opt : forall t, P t -> P (ROpt t))
    (H_class : forall i ms ps, Forall P ms -> Forall P ps -> P (RClass i ms ps))
    (H_poly : forall cs o, Forall P cs -> P (RPoly cs o))
    (H_var : forall cs, Forall P cs -> P (RVariant cs)).
  Fixpoint rty_ind' (t : rty) : P t :=
    let fix all (l : list rty) : Forall P l :=
      match l with
      | [] => Forall_nil P
      | x :: r => Forall_cons x (rty_ind' x) (all r)
      end in
    match t with
    | RSelf => H_self
    | RHere t => H_here t
    | RSeq co t => H_seq co t (rty_ind' t)
    | RArr n t => H_arr n t (rty_ind' t)
    | RTup ts => H_tup ts (all ts)
    | RMap b t => H_map b t (rty_ind' t)
    | RPtr t => H_ptr t (rty_ind' t)
    | ROpt t => H_opt t (rty_ind' t)
    | RClass i ms ps => H_class i ms ps (all ms) (all ps)
    | RPoly cs o => H_poly cs o (all cs)
    | RVariant cs => H_var cs (all cs)
    end.
End RtyInd.

(** ** What does not depend on the filling *)
Lemma map_ext_Forall2 : forall {A B} (f g : A -> B) l, Forall (fun x => f x = g x) l -> map f l = map g l.
Proof. intros A B f g l H. induction H as [|x r E _ IH]; [reflexivity|]. cbn [map]. rewrite E, IH. reflexivity. Qed.
Lemma all_of : forall {A} (P : A -> Prop) (f : A -> bool) l, Forall (fun x => f x = true -> P x) l -> forallb f l = true -> Forall P l.
Proof. intros A P f l H. induction H as [|x r E _ IH]; intro C; [constructor|]. cbn [forallb] in C. apply andb_prop in C. constructor; [apply E|apply IH]; tauto. Qed.
Lemma default_guarded : forall r s s', guarded r = true -> default (fill s r) = default (fill s' r).
Proof.
  intros r s s'. induction r as [|t|co r IH|n r IH|rs IH|b r IH|r IH|r IH|i ms ps IHm IHp|cs o IH|cs IH] using rty_ind'; intro G; cbn [fill default guarded] in *; try reflexivity.
  - discriminate G.
  - rewrite (IH G). reflexivity.
  - f_equal. rewrite !map_map. apply map_ext_Forall2. eapply all_of; eassumption.
  - apply andb_prop in G. destruct G as [G1 G2]. f_equal; rewrite !map_map; apply map_ext_Forall2; eapply all_of; eassumption.
  - destruct IH as [|c cs E _]; [reflexivity|]. cbn [map forallb] in *. apply andb_prop in G. rewrite (E (proj1 G)). reflexivity.
Qed.
Lemma default_fill : forall r s s', default s = default s' -> default (fill s r) = default (fill s' r).
Proof.
  intros r s s' D. induction r as [|t|co r IH|n r IH|rs IH|b r IH|r IH|r IH|i ms ps IHm IHp|cs o IH|cs IH] using rty_ind'; cbn [fill default] in *; try reflexivity.
  - exact D.
  - rewrite IH. reflexivity.
  - f_equal. rewrite !map_map. apply map_ext_Forall2. exact IH.
  - f_equal; rewrite !map_map; apply map_ext_Forall2; assumption.
  - destruct IH as [|c cs E _]; [reflexivity|]. cbn [map]. rewrite E. reflexivity.
Qed.
Lemma flat_map_ext_Forall : forall {A B} (f g : A -> list B) l, Forall (fun x => f x = g x) l -> flat_map f l = flat_map g l.
Proof. intros A B f g l H. induction H as [|x r E _ IH]; [reflexivity|]. cbn [flat_map]. rewrite E, IH. reflexivity. Qed.
Lemma flat_map_map : forall {A B C} (f : B -> list C) (g : A -> B) l, flat_map f (map g l) = flat_map (fun x => f (g x)) l.
Proof. intros A B C f g l. induction l as [|x r IH]; [reflexivity|]. cbn [map flat_map]. rewrite IH. reflexivity. Qed.
Lemma required_guarded : forall r s s', guarded r = true -> required (fill s r) = required (fill s' r).
Proof.
  intros r s s'. induction r as [|t|co r IH|n r IH|rs IH|b r IH|r IH|r IH|i ms ps IHm IHp|cs o IH|cs IH] using rty_ind'; intro G; cbn [fill required guarded] in *; try reflexivity.
  - discriminate G.
  - apply andb_prop in G. f_equal. rewrite !flat_map_map. apply flat_map_ext_Forall. eapply all_of; [exact IHp|tauto].
Qed.
Lemma required_fill : forall r s s', required s = required s' -> required (fill s r) = required (fill s' r).
Proof.
  intros r s s' D. induction r as [|t|co r IH|n r IH|rs IH|b r IH|r IH|r IH|i ms ps IHm IHp|cs o IH|cs IH] using rty_ind'; cbn [fill required] in *; try reflexivity.
  - exact D.
  - f_equal. rewrite !flat_map_map. apply flat_map_ext_Forall. exact IHp.
Qed.
Lemma class_fill : forall r s s', class_name s = class_name s' -> class_name (fill s r) = class_name (fill s' r).
Proof. intros r s s' D. destruct r; cbn [fill class_name]; try reflexivity. exact D. Qed.
Lemma find_fill : forall cs s s' c, class_name s = class_name s' -> find_class (map (fill s) cs) c = find_class (map (fill s') cs) c.
Proof. intros cs s s' c D. induction cs as [|r cs IH]; [reflexivity|]. cbn [map find_class]. rewrite (class_fill r s s' D), IH. reflexivity. Qed.

(** ** Any parser that never goes back *)
Definition ms (t : token) : nat := match t with TokMapStart | TokArrayStart => 1 | _ => 0 end.

Section Generic.
  Context {St : Type} (ops : parser_ops St) (F : nat) (m : strictness) (marker : bytes) (mu : St -> nat) (inv : St -> Prop).
  Definition steps (s s' : St) : Prop := inv s -> inv s' /\ (mu s' <= mu s)%nat.
  Hypotheses
    (H_next : forall s t s', op_next ops s = Ok (t, s') -> inv s -> inv s' /\ (mu s' + ms t <= mu s)%nat)
    (H_key : forall s a s', op_key ops s = Ok (a, s') -> steps s s')
    (H_int : forall i s a s', op_int ops i s = Ok (a, s') -> steps s s')
    (H_bool : forall s a s', op_bool ops s = Ok (a, s') -> steps s s')
    (H_str : forall s a s', op_str ops s = Ok (a, s') -> steps s s')
    (H_ign : forall s s', op_ignore ops s = Ok s' -> steps s s')
    (H_ignm : forall b s s', op_ignoreMap ops b s = Ok s' -> steps s s')
    (H_igna : forall b s s', op_ignoreArr ops b s = Ok s' -> steps s s').

  Definition Mu (p : pst St) : nat := (mu (ps_impl p) + ms (ps_pb1 p) + ms (ps_pb2 p))%nat.
  Definition le (p p' : pst St) : Prop := inv (ps_impl p) -> inv (ps_impl p') /\ (Mu p' <= Mu p)%nat.
  Lemma le_trans : forall a b c, le a b -> le b c -> le a c.
  Proof. intros a b c H1 H2 I1. destruct (H1 I1) as [I2 R2]. destruct (H2 I2) as [I3 R3]. split; [exact I3|lia]. Qed.
  Lemma le_refl : forall a, le a a. Proof. intros a H. auto. Qed.
  Lemma steps_trans : forall a b c, steps a b -> steps b c -> steps a c.
  Proof. intros a b c H1 H2 I1. destruct (H1 I1) as [I2 R2]. destruct (H2 I2) as [I3 R3]. split; [exact I3|lia]. Qed.

  Lemma get_le : forall p t p', getToken ops p = Ok (t, p') -> inv (ps_impl p) -> inv (ps_impl p') /\ (Mu p' + ms t <= Mu p)%nat.
  Proof.
    intros p t p' E I. unfold getToken in E. destruct (token_eqb (ps_pb2 p) TokError) eqn:B2; cbn [negb] in E.
    - destruct (token_eqb (ps_pb1 p) TokError) eqn:B1; cbn [negb] in E.
      + unfold lift in E. destruct (op_next ops (ps_impl p)) as [[t0 s]| | |] eqn:N; try discriminate E. cbn [bind] in E. injection E as <- <-. destruct (H_next _ _ _ N I). unfold Mu. cbn [ps_impl ps_pb1 ps_pb2]. split; [assumption|lia].
      + injection E as <- <-. unfold Mu. cbn [ps_impl ps_pb1 ps_pb2 ms]. split; [exact I|lia].
    - injection E as <- <-. unfold Mu. cbn [ps_impl ps_pb1 ps_pb2 ms]. split; [exact I|lia].
  Qed.
  Lemma get_le' : forall p t p', getToken ops p = Ok (t, p') -> le p p'.
  Proof. intros p t p' E I. destruct (get_le _ _ _ E I). split; [assumption|lia]. Qed.
  Lemma push_le : forall t p, ps_impl (pushBackToken t p) = ps_impl p /\ (Mu (pushBackToken t p) <= Mu p + ms t)%nat.
  Proof.
    intros t p. unfold pushBackToken, Mu. destruct (token_eqb (ps_pb1 p) TokError) eqn:B1; [|destruct (token_eqb (ps_pb2 p) TokError) eqn:B2]; cbn [ps_impl ps_pb1 ps_pb2]; (split; [reflexivity|]).
    - destruct (ps_pb1 p); try discriminate B1. cbn [ms]. lia.
    - destruct (ps_pb2 p); try discriminate B2. cbn [ms]. lia.
    - lia.
  Qed.
  Lemma back_le : forall p t p', getToken ops p = Ok (t, p') -> le p (pushBackToken t p').
  Proof. intros p t p' E I. destruct (get_le _ _ _ E I) as [I1 R1]. destruct (push_le t p') as [E2 R2]. rewrite E2. split; [exact I1|lia]. Qed.
  Lemma lift_le : forall A (f : St -> outcome (A * St)), (forall s a s', f s = Ok (a, s') -> steps s s') -> forall p a p', lift f p = Ok (a, p') -> le p p'.
  Proof.
    intros A f H p a p' E I. unfold lift in E. destruct (f (ps_impl p)) as [[x s]| | |] eqn:Q; try discriminate E. cbn [bind] in E. injection E as <- <-. destruct (H _ _ _ Q I). unfold Mu. cbn [ps_impl ps_pb1 ps_pb2]. split; [assumption|lia].
  Qed.
  Lemma lift__le : forall (f : St -> outcome St), (forall s s', f s = Ok s' -> steps s s') -> forall p p', lift_ f p = Ok p' -> le p p'.
  Proof.
    intros f H p p' E I. unfold lift_ in E. destruct (f (ps_impl p)) as [s| | |] eqn:Q; try discriminate E. cbn [bind] in E. injection E as <-. destruct (H _ _ Q I). unfold Mu. cbn [ps_impl ps_pb1 ps_pb2]. split; [assumption|lia].
  Qed.
  Lemma next_steps : forall s t s', op_next ops s = Ok (t, s') -> steps s s'.
  Proof. intros s t s' E I. destruct (H_next _ _ _ E I). split; [assumption|lia]. Qed.
  Lemma ign_le : forall f, (forall s s', ign_value ops f s = Ok s' -> steps s s') /\ (forall s s', ign_map ops f s = Ok s' -> steps s s') /\ (forall s s', ign_arr ops f s = Ok s' -> steps s s').
  Proof.
    induction f as [|f (IV & IM & IA)]; [repeat split; intros; discriminate|].
    assert (B : forall (A : outcome St) (K : St -> outcome St) s s', (forall x, A = Ok x -> steps s x) -> (forall x, K x = Ok s' -> steps x s') -> bind A K = Ok s' -> steps s s').
    { intros A K s s' HA HK E. destruct A as [x| | |]; try discriminate E. eapply steps_trans; [apply HA; reflexivity|apply HK; exact E]. }
    split; [|split]; intros s s' E.
    - assert (E1 : (do (t, s) <- op_next ops s; match t with TokValue => op_ignore ops s | TokMapStart => do s <- op_ignoreMap ops true s; ign_map ops f s | TokArrayStart => do s <- op_ignoreArr ops true s; ign_arr ops f s | _ => Throw end) = Ok s') by exact E.
      clear E. destruct (op_next ops s) as [[t s1]| | |] eqn:N; try discriminate E1. cbn [bind] in E1. apply next_steps in N. eapply steps_trans; [exact N|]. destruct t; try discriminate E1.
      + revert E1. apply B; [intro; apply H_ignm|intro; apply IM].
      + revert E1. apply B; [intro; apply H_igna|intro; apply IA].
      + eapply H_ign; exact E1.
    - assert (E1 : (do (t, s) <- op_next ops s; match t with TokMapEnd => op_ignoreMap ops false s | _ => do s <- op_ignore ops s; match t with TokKey => do s <- ign_value ops f s; ign_map ops f s | _ => Throw end end) = Ok s') by exact E.
      clear E. destruct (op_next ops s) as [[t s1]| | |] eqn:N; try discriminate E1. cbn [bind] in E1. apply next_steps in N. eapply steps_trans; [exact N|].
      destruct t; try (eapply H_ignm; exact E1); revert E1; (apply B; [intro; apply H_ign|]); intros x E1; try discriminate E1.
      revert E1. apply B; [intro; apply IV|intro; apply IM].
    - assert (E1 : (do (t, s) <- op_next ops s; match t with TokArrayEnd => op_ignoreArr ops false s | TokValue => do s <- op_ignore ops s; ign_arr ops f s | TokMapStart => do s <- op_ignoreMap ops true s; do s <- ign_map ops f s; ign_arr ops f s | TokArrayStart => do s <- op_ignoreArr ops true s; do s <- ign_arr ops f s; ign_arr ops f s | _ => Throw end) = Ok s') by exact E.
      clear E. destruct (op_next ops s) as [[t s1]| | |] eqn:N; try discriminate E1. cbn [bind] in E1. apply next_steps in N. eapply steps_trans; [exact N|]. destruct t; try discriminate E1.
      + revert E1. apply B; [intro; apply H_ignm|]. intro x. apply B; [intro; apply IM|intro; apply IA].
      + revert E1. apply B; [intro; apply H_igna|]. intro x. apply B; [intro; apply IA|intro; apply IA].
      + eapply H_igna; exact E1.
      + revert E1. apply B; [intro; apply H_ign|intro; apply IA].
  Qed.
  Lemma ignoreValue_le : forall p p', ignoreValue ops m F p = Ok p' -> le p p'.
  Proof. intros p p' E. unfold ignoreValue in E. destruct m; try discriminate E. eapply lift__le; [|exact E]. apply (proj1 (ign_le F)). Qed.

  (** *** One value *)
  Definition keeps (f : pst St -> outcome (val * pst St)) : Prop := forall p v' p', f p = Ok (v', p') -> le p p'.
  Definition keeps_all (f : val -> pst St -> outcome (val * pst St)) : Prop := forall v, keeps (f v).
  Definition scan_keeps (f : bytes -> val -> pst St -> option (outcome (val * pst St))) : Prop := forall k v p v' p', f k v p = Some (Ok (v', p')) -> le p p'.
  Lemma bind_le : forall A B (x : outcome (A * pst St)) (k : A * pst St -> outcome (B * pst St)) p b p', (forall a q, x = Ok (a, q) -> le p q) -> (forall a q, x = Ok (a, q) -> k (a, q) = Ok (b, p') -> le q p') -> bind x k = Ok (b, p') -> le p p'.
  Proof. intros A B x k p b p' Hx Hk E. destruct x as [[a q]| | |]; try discriminate E. eapply le_trans; [eapply Hx; reflexivity|eapply Hk; [reflexivity|exact E]]. Qed.

  Lemma read_value_le : forall A (rd : St -> outcome (A * St)) mk, (forall s a s', rd s = Ok (a, s') -> steps s s') -> keeps (read_value ops rd mk).
  Proof.
    intros A rd mk H p v' p'. unfold read_value. apply bind_le; [intros; eapply get_le'; eassumption|]. intros t q _. destruct t; try discriminate.
    apply bind_le; [intros; eapply lift_le; eassumption|]. intros a q1 _ E. injection E as _ <-. apply le_refl.
  Qed.
  Lemma obj_loop_le : forall scan, scan_keeps scan -> forall n v fs p v' fs' p', obj_loop ops F m n scan v fs p = Ok (v', fs', p') -> le p p'.
  Proof.
    intros scan H. induction n as [|n IH]; intros v fs p v' fs' p'; [discriminate|]. cbn [obj_loop]. apply bind_le; [intros; eapply get_le'; eassumption|]. intros t q _ E.
    assert (G : (do (k, p) <- lift (op_key ops) q; match scan k v p with Some r => do (v', p) <- r; obj_loop ops F m n scan v' (k :: fs) p | None => do p <- ignoreValue ops m F p; obj_loop ops F m n scan v fs p end) = Ok (v', fs', p') -> le q p').
    { apply bind_le; [intros; eapply lift_le; [exact H_key|eassumption]|]. intros k q1 _. destruct (scan k v q1) as [r|] eqn:Sc.
      - apply bind_le; [intros a q2 ->; eapply H; exact Sc|]. intros a q2 _ E1. eapply IH; exact E1.
      - intro E1. destruct (ignoreValue ops m F q1) as [q2| | |] eqn:Ig; try discriminate E1. eapply le_trans; [eapply ignoreValue_le; exact Ig|eapply IH; exact E1]. }
    destruct t; try (apply G; exact E). injection E as _ _ <-. apply le_refl.
  Qed.
  Lemma read_map_le : forall req scan, scan_keeps scan -> keeps_all (read_map ops F m req scan).
  Proof.
    intros req scan H v p v' p'. unfold read_map. apply bind_le; [intros; eapply get_le'; eassumption|]. intros t q _ E. destruct t; try discriminate E.
    destruct (obj_loop ops F m F scan v [] q) as [[[a fs] q1]| | |] eqn:L; try discriminate E. cbn [bind] in E. apply obj_loop_le in L; [|exact H].
    assert (q1 = p') as <-; [|exact L]. destruct m; [injection E as _ <-; reflexivity..|]. destruct (forallb (fun r => existsb (beq r) fs) req); [injection E as _ <-; reflexivity|discriminate E].
  Qed.
  Lemma arr_loop_le : forall elem, (forall i, keeps_all (elem i)) -> forall n i v p v' p', arr_loop ops n elem i v p = Ok (v', p') -> le p p'.
  Proof.
    intros elem H. induction n as [|n IH]; intros i v p v' p' E; [discriminate E|]. cbn [arr_loop] in E. destruct (getToken ops p) as [[t q]| | |] eqn:T; try discriminate E. cbn [bind] in E.
    assert (G : (do (v', p) <- elem i v (pushBackToken t q); arr_loop ops n elem (Datatypes.S i) v' p) = Ok (v', p') -> le p p').
    { intro E1. eapply le_trans; [eapply back_le; exact T|]. revert E1. apply bind_le; [intros a q1 E1; eapply H; exact E1|]. intros a q1 _ E1. eapply IH; exact E1. }
    destruct t; try (apply G; exact E). injection E as _ <-. eapply get_le'; exact T.
  Qed.
  Lemma read_array_le : forall elem, (forall i, keeps_all (elem i)) -> keeps_all (read_array ops F elem).
  Proof.
    intros elem H v p v' p'. unfold read_array. apply bind_le; [intros; eapply get_le'; eassumption|]. intros t q _ E. destruct t; try discriminate E. eapply arr_loop_le; eassumption.
  Qed.
  Lemma class_name_le : forall p c p', read_class_name ops marker p = Ok (c, p') -> le p p'.
  Proof.
    intros p c p' E I. unfold read_class_name in E. destruct (getToken ops p) as [[t q]| | |] eqn:T; try discriminate E. cbn [bind] in E. destruct t; try discriminate E.
    destruct (get_le _ _ _ T I) as [I1 R1]. assert (J : forall q', le q q' -> inv (ps_impl (pushBackToken TokMapStart q')) /\ (Mu (pushBackToken TokMapStart q') <= Mu p)%nat).
    { intros q' L. destruct (L I1) as [I2 R2]. destruct (push_le TokMapStart q') as [E2 R3]. rewrite E2. split; [exact I2|lia]. }
    destruct (getToken ops q) as [[t q1]| | |] eqn:T1; try discriminate E. cbn [bind] in E. destruct t; try discriminate E. apply get_le' in T1.
    destruct (lift (op_key ops) q1) as [[k q2]| | |] eqn:K; try discriminate E. cbn [bind] in E. apply lift_le in K; [|exact H_key]. destruct (beq k marker); [|discriminate E].
    destruct (getToken ops q2) as [[t q3]| | |] eqn:T2; try discriminate E. cbn [bind] in E. destruct t; try discriminate E. apply get_le' in T2.
    destruct (lift (op_str ops) q3) as [[x q4]| | |] eqn:K2; try discriminate E. cbn [bind] in E. apply lift_le in K2; [|exact H_str]. injection E as _ <-. apply J.
    eapply le_trans; [exact T1|]. eapply le_trans; [exact K|]. eapply le_trans; eassumption.
  Qed.
  Lemma read_pointer_le : forall rest, keeps rest -> keeps (read_pointer ops rest).
  Proof.
    intros rest H p v' p' E. unfold read_pointer in E. destruct (getToken ops p) as [[t q]| | |] eqn:T; try discriminate E. cbn [bind] in E. destruct (op_null ops (ps_impl q)).
    - destruct (lift_ (op_ignore ops) q) as [q1| | |] eqn:G; try discriminate E. cbn [bind] in E. injection E as _ <-. eapply le_trans; [eapply get_le'; exact T|]. eapply lift__le; [exact H_ign|exact G].
    - eapply le_trans; [eapply back_le; exact T|eapply H; exact E].
  Qed.
  Definition d_keeps (d : dfun St) : Prop := keeps_all (d_parse d) /\ scan_keeps (d_scan d).
  Lemma fixed_le : forall ds, Forall d_keeps ds -> forall i, keeps_all (elem_fixed ds i).
  Proof.
    intros ds H i v p v' p' E. unfold elem_fixed in E. destruct v; try discriminate E. destruct (nth_error ds i) as [d|] eqn:N; [|discriminate E]. destruct (nth_error l i); [|discriminate E].
    revert E. apply bind_le; [|intros a q _ E; injection E as _ <-; apply le_refl]. intros a q E. rewrite Forall_forall in H. eapply (proj1 (H d (nth_error_In _ _ N))); exact E.
  Qed.
  Lemma scan_members_le : forall ds, Forall d_keeps ds -> forall ns vs k p l p', scan_members ns ds vs k p = Some (Ok (l, p')) -> le p p'.
  Proof.
    intros ds H. induction H as [|d ds Hd _ IH]; intros ns vs k p l p' E; destruct ns as [|n ns], vs as [|v vs]; try discriminate E. cbn [scan_members] in E. destruct (beq k n).
    - assert (E1 : (do (v', p) <- d_parse d v p; Ok (v' :: vs, p)) = Ok (l, p')) by congruence. revert E1. apply bind_le; [intros a q E1; eapply (proj1 Hd); exact E1|]. intros a q _ E1. injection E1 as _ <-. apply le_refl.
    - destruct (scan_members ns ds vs k p) as [r|] eqn:Sc; [|discriminate E]. assert (E1 : (do (l, p) <- r; Ok (v :: l, p)) = Ok (l, p')) by congruence. revert E1. apply bind_le; [intros a q ->; eapply IH; exact Sc|]. intros a q _ E1. injection E1 as _ <-. apply le_refl.
  Qed.
  Lemma scan_parents_le : forall ds, Forall d_keeps ds -> forall vs k p l p', scan_parents ds vs k p = Some (Ok (l, p')) -> le p p'.
  Proof.
    intros ds H. induction H as [|d ds Hd _ IH]; intros vs k p l p' E; destruct vs as [|v vs]; try discriminate E. cbn [scan_parents] in E. destruct (d_scan d k v p) as [r|] eqn:D.
    - assert (E1 : (do (v', p) <- r; Ok (v' :: vs, p)) = Ok (l, p')) by congruence. revert E1. apply bind_le; [intros a q ->; eapply (proj2 Hd); exact D|]. intros a q _ E1. injection E1 as _ <-. apply le_refl.
    - destruct (scan_parents ds vs k p) as [r|] eqn:Sc; [|discriminate E]. assert (E1 : (do (l, p) <- r; Ok (v :: l, p)) = Ok (l, p')) by congruence. revert E1. apply bind_le; [intros a q ->; eapply IH; exact Sc|]. intros a q _ E1. injection E1 as _ <-. apply le_refl.
  Qed.
  Lemma scan_struct_le : forall i dm dp, Forall d_keeps dm -> Forall d_keeps dp -> scan_keeps (scan_struct i dm dp).
  Proof.
    intros i dm dp Hm Hp k v p v' p' E. unfold scan_struct in E. destruct v as [z|b|b|b|b|b|b|own par|b b']; try discriminate E. destruct (scan_parents dp par k p) as [r|] eqn:Sc.
    - assert (E1 : (do (par', p) <- r; Ok (VStruct own par', p)) = Ok (v', p')) by congruence. revert E1. apply bind_le; [intros a q ->; eapply scan_parents_le; [exact Hp|exact Sc]|]. intros a q _ E1. injection E1 as _ <-. apply le_refl.
    - destruct (scan_members _ dm own k p) as [r|] eqn:Sm; [|discriminate E]. assert (E1 : (do (own', p) <- r; Ok (VStruct own' par, p)) = Ok (v', p')) by congruence. revert E1. apply bind_le; [intros a q ->; eapply scan_members_le; [exact Hm|exact Sm]|]. intros a q _ E1. injection E1 as _ <-. apply le_refl.
  Qed.
  Lemma ok_le : forall (x : outcome (val * pst St)) (f : val -> val) p v' p', (forall a q, x = Ok (a, q) -> le p q) -> (do (a, q) <- x; Ok (f a, q)) = Ok (v', p') -> le p p'.
  Proof. intros x f p v' p' H. apply bind_le; [exact H|]. intros a q _ E. injection E as _ <-. apply le_refl. Qed.
  Lemma nth_map : forall {A B} (f : A -> B) l k, nth_error (map f l) k = option_map f (nth_error l k).
  Proof. intros A B f l. induction l as [|x l IH]; intros [|k]; cbn; auto. Qed.
  Notation deser := (deser ops F m marker).
  Lemma deser_le : forall t, d_keeps (deser t).
  Proof.
    assert (N : scan_keeps (fun _ _ _ => Some UB)) by (intros k v p v' p' E; discriminate E).
    induction t as [i| | |l|co t IH|n t IH|ts IH|fw t IH|t IH|t IH|i ms0 ps IHm IHp|cs o IH|cs IH] using ty_ind'; (split; cbn [Deserializer.deser d_parse d_scan]; try exact N).
    - intro v. apply read_value_le. apply H_int.
    - intro v. apply read_value_le. exact H_bool.
    - intro v. apply read_value_le. exact H_str.
    - intros v p v' p'. apply bind_le; [intros a q E; eapply read_value_le; [exact H_str|exact E]|]. intros a q _ E. destruct a; try discriminate E. destruct (enum_value l s); [|discriminate E]. injection E as _ <-. apply le_refl.
    - apply read_array_le. intros i v p v' p' E. unfold elem_vec in E. destruct v; try discriminate E. revert E. apply (ok_le _ (fun x => VList (seq_add co l x))). intros a q E. eapply (proj1 IH); exact E.
    - apply read_array_le. apply fixed_le. apply Forall_forall. intros d D. apply repeat_spec in D. subst d. exact IH.
    - apply read_array_le. apply fixed_le. apply Forall_map. exact IH.
    - apply read_map_le. intros k v p v' p' E. unfold scan_map in E. destruct v; try discriminate E. destruct fw; injection E as E; revert E; (apply bind_le; [intros a q E; eapply (proj1 IH); exact E|]); intros a q _ E; injection E as _ <-; apply le_refl.
    - intros k v p v' p' E. unfold scan_map in E. destruct v; try discriminate E. destruct fw; injection E as E; revert E; (apply bind_le; [intros a q E; eapply (proj1 IH); exact E|]); intros a q _ E; injection E as _ <-; apply le_refl.
    - intro v. apply read_pointer_le. intros p v' p'. apply (ok_le _ (fun x => VPtr (Some x))). intros a q E. eapply (proj1 IH); exact E.
    - intros v p v' p' E. destruct v; try discriminate E. revert E. apply (ok_le _ (fun x => VOpt (Some x))). intros a q E. eapply (proj1 IH); exact E.
    - apply read_map_le. apply scan_struct_le; apply Forall_map; assumption.
    - apply scan_struct_le; apply Forall_map; assumption.
    - intro v. apply read_pointer_le. intros p v' p'. apply bind_le; [intros; eapply class_name_le; eassumption|]. intros c q _ E. destruct (find_class cs c) as [k|]; [|destruct (existsb (beq c) o); discriminate E].
      rewrite nth_map in E. destruct (nth_error cs k) as [tk|] eqn:Nk; [|discriminate E]. cbn [option_map] in E. revert E. apply (ok_le _ (fun x => VPtr (Some (VVar k x)))). intros a q1 E. rewrite Forall_forall in IH. eapply (proj1 (IH tk (nth_error_In _ _ Nk))); exact E.
    - intros v p v' p'. apply bind_le; [intros; eapply class_name_le; eassumption|]. intros c q _ E. destruct (find_class cs c) as [k|].
      + rewrite nth_map in E. destruct (nth_error cs k) as [tk|] eqn:Nk; [|discriminate E]. cbn [option_map] in E. revert E. apply (ok_le _ (fun x => VVar k x)). intros a q1 E. rewrite Forall_forall in IH. eapply (proj1 (IH tk (nth_error_In _ _ Nk))); exact E.
      + destruct (ignoreValue ops m F q) as [q1| | |] eqn:G; try discriminate E. cbn [bind] in E. injection E as _ <-. eapply ignoreValue_le; exact G.
  Qed.

  (** *** Two readers that agree while fewer than [n] braces can follow *)
  Definition agree {A} n (f g : pst St -> A) : Prop := forall p, inv (ps_impl p) -> (Mu p < n)%nat -> f p = g p.
  Lemma agree_le : forall A n p q (f g : pst St -> A), agree n f g -> inv (ps_impl p) -> (Mu p < n)%nat -> le p q -> f q = g q.
  Proof. intros A n p q f g H I R L. destruct (L I). apply H; [assumption|lia]. Qed.
  Lemma bind_agree : forall A B n (x y : pst St -> outcome (A * pst St)) (f g : A * pst St -> outcome (B * pst St)),
    agree n x y -> (forall p a q, x p = Ok (a, q) -> le p q) -> (forall a, agree n (fun q => f (a, q)) (fun q => g (a, q))) -> agree n (fun p => bind (x p) f) (fun p => bind (y p) g).
  Proof.
    intros A B n x y f g Hx Hl H p I R. rewrite <- (Hx p I R). destruct (x p) as [[a q]| | |] eqn:E; try reflexivity. cbn [bind]. exact (agree_le _ n p q _ _ (H a) I R (Hl _ _ _ E)).
  Qed.
  Lemma agree_refl : forall A n (f : pst St -> A), agree n f f. Proof. intros A n f p _ _. reflexivity. Qed.
  Definition s_agree n (f g : bytes -> val -> pst St -> option (outcome (val * pst St))) : Prop := forall k v, agree n (f k v) (g k v).
  Definition v_agree n (f g : val -> pst St -> outcome (val * pst St)) : Prop := forall v, agree n (f v) (g v).

  Lemma obj_loop_agree : forall n f g, scan_keeps f -> s_agree n f g -> forall N v fs, agree n (obj_loop ops F m N f v fs) (obj_loop ops F m N g v fs).
  Proof.
    intros n f g K H. induction N as [|N IH]; intros v fs; [apply agree_refl|]. cbn [obj_loop]. apply bind_agree; [apply agree_refl|intros; eapply get_le'; eassumption|]. intro t.
    assert (G : agree n (fun q => do (k, p) <- lift (op_key ops) q; match f k v p with Some r => do (v', p) <- r; obj_loop ops F m N f v' (k :: fs) p | None => do p <- ignoreValue ops m F p; obj_loop ops F m N f v fs p end)
                      (fun q => do (k, p) <- lift (op_key ops) q; match g k v p with Some r => do (v', p) <- r; obj_loop ops F m N g v' (k :: fs) p | None => do p <- ignoreValue ops m F p; obj_loop ops F m N g v fs p end)).
    { apply bind_agree; [apply agree_refl|intros; eapply lift_le; [exact H_key|eassumption]|]. intros k p I R. cbv beta. rewrite <- (H k v p I R). destruct (f k v p) as [r|] eqn:E.
      - destruct r as [[v' q]| | |]; try reflexivity. cbn [bind]. eapply agree_le; [apply IH|exact I|exact R|]. eapply K; exact E.
      - destruct (ignoreValue ops m F p) as [q| | |] eqn:E1; try reflexivity. cbn [bind]. eapply agree_le; [apply IH|exact I|exact R|]. eapply ignoreValue_le; exact E1. }
    destruct t; try exact G. apply agree_refl.
  Qed.
  (** The opening brace of an object is one of them. *)
  Lemma read_map_agree : forall n req req' f g, req = req' -> scan_keeps f -> s_agree n f g -> v_agree (Datatypes.S n) (read_map ops F m req f) (read_map ops F m req' g).
  Proof.
    intros n req req' f g -> K H v p I R. unfold read_map. destruct (getToken ops p) as [[t q]| | |] eqn:T; try reflexivity. cbn [bind]. destruct t; try reflexivity.
    destruct (get_le _ _ _ T I) as [I1 R1]. cbn [ms] in R1. rewrite (obj_loop_agree n f g K H F v [] q I1 ltac:(lia)). reflexivity.
  Qed.
  Lemma arr_loop_agree : forall n f g, (forall i, keeps_all (f i)) -> (forall i, v_agree n (f i) (g i)) -> forall N i v, agree n (arr_loop ops N f i v) (arr_loop ops N g i v).
  Proof.
    intros n f g K H. induction N as [|N IH]; intros i v; [apply agree_refl|]. intros p I R. cbn [arr_loop]. destruct (getToken ops p) as [[t q]| | |] eqn:T; try reflexivity. cbn [bind].
    assert (G : (do (v', p) <- f i v (pushBackToken t q); arr_loop ops N f (Datatypes.S i) v' p) = (do (v', p) <- g i v (pushBackToken t q); arr_loop ops N g (Datatypes.S i) v' p)).
    { destruct (back_le _ _ _ T I) as [I1 R1]. assert (R2 : (Mu (pushBackToken t q) < n)%nat) by lia. rewrite <- (H i v _ I1 R2). destruct (f i v (pushBackToken t q)) as [[v' q']| | |] eqn:E; try reflexivity. cbn [bind]. eapply agree_le; [apply IH|exact I1|exact R2|]. eapply K; exact E. }
    destruct t; try exact G. reflexivity.
  Qed.
  Lemma read_array_agree : forall n f g, (forall i, keeps_all (f i)) -> (forall i, v_agree n (f i) (g i)) -> v_agree n (read_array ops F f) (read_array ops F g).
  Proof.
    intros n f g K H v. unfold read_array. apply bind_agree; [apply agree_refl|intros; eapply get_le'; eassumption|]. intro t. destruct t; try apply agree_refl. apply arr_loop_agree; assumption.
  Qed.
  Lemma read_pointer_agree : forall n f g, agree n f g -> agree n (read_pointer ops f) (read_pointer ops g).
  Proof.
    intros n f g H p I R. unfold read_pointer. destruct (getToken ops p) as [[t q]| | |] eqn:T; try reflexivity. cbn [bind]. destruct (op_null ops (ps_impl q)); [reflexivity|]. eapply agree_le; [exact H|exact I|exact R|]. eapply back_le; exact T.
  Qed.
  Definition d_agree n (d e : dfun St) : Prop := v_agree n (d_parse d) (d_parse e).
  Lemma fixed_agree : forall n ds es, Forall2 (d_agree n) ds es -> forall i, v_agree n (elem_fixed ds i) (elem_fixed es i).
  Proof.
    assert (Q : forall n ds es i, Forall2 (d_agree n) ds es -> match nth_error ds i, nth_error es i with Some d, Some e => d_agree n d e | None, None => True | _, _ => False end).
    { intros n ds es i H. revert i. induction H as [|d e ds es Hd _ IH]; intros [|i]; cbn; auto. apply IH. }
    intros n ds es H i v p I R. unfold elem_fixed. destruct v; try reflexivity. specialize (Q n ds es i H). destruct (nth_error ds i) as [d1|], (nth_error es i) as [e1|]; try tauto.
    destruct (nth_error l i) as [x|]; [|reflexivity]. rewrite (Q x p I R). reflexivity.
  Qed.
  Lemma scan_members_agree : forall n ds es, Forall2 (d_agree n) ds es -> forall ns vs k, agree n (scan_members ns ds vs k) (scan_members ns es vs k).
  Proof.
    intros n ds es H. induction H as [|d e ds es Hd _ IH]; intros ns vs k p I R; destruct ns as [|x ns], vs as [|v vs]; try reflexivity. cbn [scan_members]. destruct (beq k x).
    - rewrite (Hd v p I R). reflexivity.
    - rewrite (IH ns vs k p I R). reflexivity.
  Qed.
  Definition d_agree2 n (d e : dfun St) : Prop := s_agree n (d_scan d) (d_scan e).
  Lemma scan_parents_agree : forall n ds es, Forall2 (d_agree2 n) ds es -> forall vs k, agree n (scan_parents ds vs k) (scan_parents es vs k).
  Proof.
    intros n ds es H. induction H as [|d e ds es Hd _ IH]; intros vs k p I R; destruct vs as [|v vs]; try reflexivity. cbn [scan_parents]. rewrite (Hd k v p I R), (IH vs k p I R). reflexivity.
  Qed.
  Lemma scan_struct_agree : forall n i dm dm' dp dp', Forall2 (d_agree n) dm dm' -> Forall2 (d_agree2 n) dp dp' -> s_agree n (scan_struct i dm dp) (scan_struct i dm' dp').
  Proof.
    intros n i dm dm' dp dp' Hm Hp k v p I R. unfold scan_struct. destruct v; try reflexivity. rewrite (scan_parents_agree n _ _ Hp _ _ p I R), (scan_members_agree n _ _ Hm _ _ _ p I R). reflexivity.
  Qed.
  Lemma v_agree_S : forall n f g, v_agree (Datatypes.S n) f g -> v_agree n f g.
  Proof. intros n f g H v p I R. apply H; [exact I|lia]. Qed.
  Lemma ok_agree : forall n (x y : pst St -> outcome (val * pst St)) (f : val -> val), agree n x y -> agree n (fun p => do (a, q) <- x p; Ok (f a, q)) (fun p => do (a, q) <- y p; Ok (f a, q)).
  Proof. intros n x y f H p I R. rewrite (H p I R). reflexivity. Qed.
  Lemma Forall2_map2 : forall {A B} (R : B -> B -> Prop) (f g : A -> B) l, Forall (fun x => R (f x) (g x)) l -> Forall2 R (map f l) (map g l).
  Proof. intros A B R f g l H. induction H; cbn; constructor; assumption. Qed.
  Lemma repeat_Forall2 : forall {A} (R : A -> A -> Prop) a b k, R a b -> Forall2 R (repeat a k) (repeat b k).
  Proof. intros A R a b k H. induction k; cbn; constructor; assumption. Qed.

  Lemma fill_agree : forall n s s', default s = default s' -> required s = required s' -> class_name s = class_name s' -> d_agree n (deser s) (deser s') ->
    forall r, parents_ok r = true -> d_agree n (deser (fill s r)) (deser (fill s' r)) /\ (r <> RSelf -> d_agree2 n (deser (fill s r)) (deser (fill s' r))).
  Proof.
    intros n s s' Dd Dr Dc Ds. assert (N : s_agree n (fun _ _ _ => Some UB) (fun _ _ _ => Some UB)) by (intros k v; apply agree_refl).
    induction r as [|t|co r IH|k r IH|rs IH|b r IH|r IH|r IH|i ms0 ps IHm IHp|cs o IH|cs IH] using rty_ind'; cbn [parents_ok]; intro G.
    - split; [exact Ds|congruence].
    - split; [intro v; apply agree_refl|intros _ k v; apply agree_refl].
    - split; [|intros _; exact N]. unfold d_agree. cbn [fill Deserializer.deser d_parse]. rewrite (default_fill r s s' Dd). apply read_array_agree.
      + intros i v p v' p' E. unfold elem_vec in E. destruct v; try discriminate E. revert E. apply (ok_le _ (fun x => VList (seq_add co l x))). intros a q E. eapply (proj1 (deser_le (fill s r))); exact E.
      + intros i v. unfold elem_vec. destruct v; try apply agree_refl. apply (ok_agree n _ _ (fun x => VList (seq_add co l x))). apply (proj1 (IH G)).
    - split; [|intros _; exact N]. unfold d_agree. cbn [fill Deserializer.deser d_parse]. apply read_array_agree.
      + apply fixed_le. apply Forall_forall. intros d D. apply repeat_spec in D. subst d. apply deser_le.
      + apply fixed_agree. apply repeat_Forall2. apply (proj1 (IH G)).
    - split; [|intros _; exact N]. unfold d_agree. cbn [fill Deserializer.deser d_parse]. rewrite !map_map. apply read_array_agree.
      + apply fixed_le. apply Forall_map. apply Forall_forall. intros x _. apply deser_le.
      + apply fixed_agree. apply Forall2_map2. eapply Forall_impl; [|eapply all_of; [exact IH|exact G]]. cbv beta. intros x H. apply H.
    - destruct (IH G) as [H _]. assert (Sc : s_agree n (scan_map b (deser (fill s r)) (default (fill s r))) (scan_map b (deser (fill s' r)) (default (fill s' r)))).
      { intros k v p I R. unfold scan_map. rewrite (default_fill r s s' Dd). destruct v; try reflexivity. destruct b; rewrite (H _ p I R); reflexivity. }
      split; [|intros _; exact Sc]. unfold d_agree. cbn [fill Deserializer.deser d_parse]. apply v_agree_S. apply read_map_agree; [reflexivity| |exact Sc]. exact (proj2 (deser_le (TMap b (fill s r)))).
    - split; [|intros _; exact N]. unfold d_agree. cbn [fill Deserializer.deser d_parse]. rewrite (default_fill r s s' Dd). intro v. apply read_pointer_agree. apply (ok_agree n _ _ (fun x => VPtr (Some x))). apply (proj1 (IH G)).
    - split; [|intros _; exact N]. unfold d_agree. cbn [fill Deserializer.deser d_parse]. rewrite (default_fill r s s' Dd). intro v. destruct v; try apply agree_refl. apply (ok_agree n _ _ (fun x => VOpt (Some x))). apply (proj1 (IH G)).
    - apply andb_prop in G. destruct G as [G G3]. apply andb_prop in G. destruct G as [G1 G2].
      assert (Sc : s_agree n (scan_struct i (map deser (map (fill s) ms0)) (map deser (map (fill s) ps))) (scan_struct i (map deser (map (fill s') ms0)) (map deser (map (fill s') ps)))).
      { apply scan_struct_agree; rewrite !map_map; apply Forall2_map2.
        - eapply Forall_impl; [|eapply all_of; [exact IHm|exact G1]]. cbv beta. intros x H. apply H.
        - rewrite Forall_forall in *. intros x Hx. rewrite forallb_forall in G2, G3. apply (IHp x Hx (G2 x Hx)). specialize (G3 x Hx). intros ->. discriminate G3. }
      split; [|intros _; exact Sc]. unfold d_agree. change (v_agree n (read_map ops F m (required (fill s (RClass i ms0 ps))) (scan_struct i (map deser (map (fill s) ms0)) (map deser (map (fill s) ps)))) (read_map ops F m (required (fill s' (RClass i ms0 ps))) (scan_struct i (map deser (map (fill s') ms0)) (map deser (map (fill s') ps))))).
      apply v_agree_S. apply read_map_agree; [apply required_fill; exact Dr| |exact Sc]. exact (proj2 (deser_le (TStruct i (map (fill s) ms0) (map (fill s) ps)))).
    - split; [|intros _; exact N]. unfold d_agree. cbn [fill Deserializer.deser d_parse]. intro v. apply read_pointer_agree. apply bind_agree; [apply agree_refl|intros; eapply class_name_le; eassumption|].
      intros c p I R. cbv beta. rewrite (find_fill cs s s' c Dc). destruct (find_class (map (fill s') cs) c) as [k|]; [|reflexivity]. rewrite !nth_map. destruct (nth_error cs k) as [rk|] eqn:Nk; [|reflexivity]. cbn [option_map].
      rewrite (default_fill rk s s' Dd). rewrite Forall_forall in IH. rewrite forallb_forall in G. assert (Ik := nth_error_In _ _ Nk). rewrite (proj1 (IH rk Ik (G rk Ik)) _ p I R). reflexivity.
    - split; [|intros _; exact N]. unfold d_agree. cbn [fill Deserializer.deser d_parse]. intro v. apply bind_agree; [apply agree_refl|intros; eapply class_name_le; eassumption|].
      intros c p I R. cbv beta. rewrite (find_fill cs s s' c Dc). destruct (find_class (map (fill s') cs) c) as [k|]; [|reflexivity]. rewrite !nth_map. destruct (nth_error cs k) as [rk|] eqn:Nk; [|reflexivity]. cbn [option_map].
      rewrite (default_fill rk s s' Dd). rewrite Forall_forall in IH. rewrite forallb_forall in G. assert (Ik := nth_error_In _ _ Nk). rewrite (proj1 (IH rk Ik (G rk Ik)) _ p I R). reflexivity.
  Qed.

  Lemma unroll_agree : forall i ms0 ps, guarded (RClass i ms0 ps) = true -> parents_ok (RClass i ms0 ps) = true -> forall stop stop' n k, (n <= k)%nat ->
    d_agree n (deser (unroll i ms0 ps stop n)) (deser (unroll i ms0 ps stop' k)).
  Proof.
    intros i ms0 ps G P stop stop'. induction n as [|n IH]; intros k L; [intros v p I R; lia|]. destruct k as [|k]; [lia|]. cbn [unroll]. specialize (IH k ltac:(lia)).
    set (s := unroll i ms0 ps stop n) in *. set (s' := unroll i ms0 ps stop' k) in *.
    assert (Sc : s_agree n (scan_struct i (map deser (map (fill s) ms0)) (map deser (map (fill s) ps))) (scan_struct i (map deser (map (fill s') ms0)) (map deser (map (fill s') ps)))).
    { destruct n as [|n]; [intros x v p I R; lia|]. destruct k as [|k]; [lia|].
      assert (E1 : default s = default s') by (unfold s, s'; cbn [unroll]; apply (default_guarded (RClass i ms0 ps)); exact G).
      assert (E2 : required s = required s') by (unfold s, s'; cbn [unroll]; apply (required_guarded (RClass i ms0 ps)); exact G).
      assert (E3 : class_name s = class_name s') by reflexivity.
      assert (A := fill_agree _ s s' E1 E2 E3 IH). clearbody s s'. cbn [parents_ok] in P. apply andb_prop in P. destruct P as [P P3]. apply andb_prop in P. destruct P as [P1 P2].
      rewrite forallb_forall in P1, P2, P3. apply scan_struct_agree; rewrite !map_map; apply Forall2_map2; apply Forall_forall; intros x Hx.
      - apply A. apply P1. exact Hx.
      - apply A; [apply P2; exact Hx|]. intros ->. specialize (P3 _ Hx). discriminate P3. }
    unfold d_agree. change (v_agree (Datatypes.S n) (read_map ops F m (required (fill s (RClass i ms0 ps))) (scan_struct i (map deser (map (fill s) ms0)) (map deser (map (fill s) ps)))) (read_map ops F m (required (fill s' (RClass i ms0 ps))) (scan_struct i (map deser (map (fill s') ms0)) (map deser (map (fill s') ps))))).
    apply read_map_agree; [apply required_guarded; exact G| |exact Sc]. exact (proj2 (deser_le (TStruct i (map (fill s) ms0) (map (fill s) ps)))).
  Qed.
End Generic.

(** ** The JSON parser *)
Definition j_mu (p : jparser) : nat := rem (l_src (jp_lex p)).
Definition j_inv (p : jparser) : Prop := sound (l_src (jp_lex p)).
Lemma early_ms : forall c t c', ctl_early c = Some (t, c') -> ms t = 0%nat.
Proof. intros c t c' E. unfold ctl_early in E. destruct (c_started c); cbn [negb] in E; [destruct (c_state c); try discriminate E|]; injection E as <- _; reflexivity. Qed.
Lemma table_brace : forall s ix, stateTable s ix = JOpenM \/ stateTable s ix = JOpenA -> ix = 1%nat \/ ix = 3%nat.
Proof. intros s ix E. destruct s, ix as [|[|[|[|[|[|[|[|[|[|[|[|[|[|ix]]]]]]]]]]]]]]; cbn in E; first [now left|now right|destruct E as [E|E]; discriminate E]. Qed.
Lemma step_ms : forall c ix t c', ctl_step c ix = Ok (StepTok t c') -> ms t = 0%nat \/ ms t = 1%nat /\ (ix = 1%nat \/ ix = 3%nat).
Proof.
  intros c ix t c' E. assert (B := table_brace (c_state c) ix). unfold ctl_step in E.
  destruct (stateTable (c_state c) ix); try discriminate E; try (injection E as <- _; first [left; reflexivity|right; split; [reflexivity|auto]]); destruct (c_parents c); try discriminate E; injection E as <- _; left; reflexivity.
Qed.
Lemma jp_next_le : forall n s t s', jp_next_loop n s = Ok (t, s') -> j_inv s -> j_inv s' /\ (j_mu s' + ms t <= j_mu s)%nat.
Proof.
  induction n as [|n IH]; intros s t s' E I; [discriminate E|]. cbn [jp_next_loop] in E. destruct (ctl_early (jp_ctl s)) as [[t0 c]|] eqn:Ea.
  - injection E as <- <-. rewrite (early_ms _ _ _ Ea). unfold j_inv, j_mu in *. cbn [jp_lex]. split; [exact I|lia].
  - destruct (yylex (jp_lex s)) as [[ix l]| | |] eqn:Y; try discriminate E. cbn [bind] in E. destruct (yylex_fwd _ _ _ Y I) as (S1 & R1 & R2).
    destruct (ctl_step (jp_ctl s) ix) as [[t0 c|c]| | |] eqn:St; try discriminate E; cbn [bind] in E.
    + injection E as <- <-. unfold j_inv, j_mu in *. cbn [jp_lex]. split; [exact S1|]. destruct (step_ms _ _ _ _ St) as [Z|[Z Ix]]; [lia|]. specialize (R2 Ix). lia.
    + destruct (IH _ _ _ E S1) as [I2 R3]. unfold j_mu in *. cbn [jp_lex] in *. split; [exact I2|lia].
Qed.
Lemma jp_lift_fwd : forall A (f : jlex -> outcome (A * jlex)), (forall l a l', f l = Ok (a, l') -> fwd (l_src l) (l_src l')) -> forall s a s', jp_lift f s = Ok (a, s') -> steps j_mu j_inv s s'.
Proof. intros A f H s a s' E. unfold jp_lift in E. destruct (f (jp_lex s)) as [[x l]| | |] eqn:Q; try discriminate E. cbn [bind] in E. injection E as _ <-. exact (H _ _ _ Q). Qed.
Lemma jp_lift__fwd : forall (f : jlex -> outcome jlex), (forall l l', f l = Ok l' -> fwd (l_src l) (l_src l')) -> forall s s', jp_lift_ f s = Ok s' -> steps j_mu j_inv s s'.
Proof. intros f H s s' E. unfold jp_lift_ in E. destruct (f (jp_lex s)) as [l| | |] eqn:Q; try discriminate E. cbn [bind] in E. injection E as <-. exact (H _ _ Q). Qed.

Lemma json_agree : forall fuel cfg i ms0 ps, guarded (RClass i ms0 ps) = true -> parents_ok (RClass i ms0 ps) = true -> forall stop stop' n k, (n <= k)%nat ->
  d_agree j_mu j_inv n (deser (json_ops fuel (pc_conv cfg)) fuel (pc_strict cfg) (pc_marker cfg) (unroll i ms0 ps stop n)) (deser (json_ops fuel (pc_conv cfg)) fuel (pc_strict cfg) (pc_marker cfg) (unroll i ms0 ps stop' k)).
Proof.
  intros fuel cfg i ms0 ps G P stop stop' n k L. apply unroll_agree; try assumption; clear; cbn [json_ops op_next op_key op_int op_bool op_str op_ignore op_ignoreMap op_ignoreArr].
  - intros s t s'. apply jp_next_le.
  - intros s a s'. apply jp_lift_fwd. intros l b l' E. unfold getString in E. destruct (getStringInto fuel (pc_conv cfg) l) as [[x l1]| | |] eqn:Q; try discriminate E. cbn [bind] in E. injection E as _ <-. exact (getStringInto_fwd _ _ _ _ _ Q).
  - intros t s a s'. apply jp_lift_fwd. intros l b l' E. unfold lex_scanInt in E. destruct (src_scanInt t (l_src l)) as [[z s1]| | |] eqn:Q; try discriminate E. cbn [bind] in E. injection E as _ <-. cbn [lset_src l_src]. eapply scanInt_fwd; exact Q.
  - intros s a s'. apply jp_lift_fwd. intros l b l'. apply lastBool_fwd.
  - intros s a s'. apply jp_lift_fwd. intros l b l'. apply getStringInto_fwd.
  - intros s s'. apply jp_lift__fwd. intros l l'. apply ignoreRaw_fwd.
  - intros b s s' E. injection E as <-. intro. auto.
  - intros b s s' E. injection E as <-. intro. auto.
Qed.
Lemma json_unroll_le : forall fuel cfg i ms0 ps k text v stop stop' n n', guarded (RClass i ms0 ps) = true -> parents_ok (RClass i ms0 ps) = true -> (length text < n)%nat -> (n <= n')%nat ->
  json_extract fuel cfg (unroll i ms0 ps stop n) v (src_init k text) = json_extract fuel cfg (unroll i ms0 ps stop' n') v (src_init k text).
Proof.
  intros fuel cfg i ms0 ps k text v stop stop' n n' G P L1 L2. unfold json_extract, json_try. cbv zeta. unfold getToken at 1 3, lift. cbn [pst_init ps_impl ps_pb1 ps_pb2 token_eqb negb].
  destruct (op_next (json_ops fuel (pc_conv cfg)) {| jp_lex := lex_init (src_init k text); jp_ctl := ctl_init |}) as [[t s]| | |] eqn:N; try reflexivity. cbn [bind]. destruct t; try reflexivity.
  assert (I : j_inv {| jp_lex := lex_init (src_init k text); jp_ctl := ctl_init |}) by (intros _; now left).
  destruct (jp_next_le _ _ _ _ N I) as [I1 R1]. assert (R2 : (Mu j_mu (mkPst s TokError TokError) < n)%nat). { unfold Mu. cbn [ps_impl ps_pb1 ps_pb2 ms] in *. change (j_mu {| jp_lex := lex_init (src_init k text); jp_ctl := ctl_init |}) with (length text - 0)%nat in R1. lia. }
  rewrite (json_agree fuel cfg i ms0 ps G P stop stop' n n' L2 v (mkPst s TokError TokError) I1 R2). reflexivity.
Qed.
Lemma json_unroll : forall fuel cfg i ms0 ps k text v stop stop' n n', guarded (RClass i ms0 ps) = true -> parents_ok (RClass i ms0 ps) = true -> (length text < n)%nat -> (length text < n')%nat ->
  json_extract fuel cfg (unroll i ms0 ps stop n) v (src_init k text) = json_extract fuel cfg (unroll i ms0 ps stop' n') v (src_init k text).
Proof.
  intros fuel cfg i ms0 ps k text v stop stop' n n' G P L1 L2. destruct (Nat.le_gt_cases n n') as [L|L]; [|symmetry]; apply json_unroll_le; try assumption; lia.
Qed.
