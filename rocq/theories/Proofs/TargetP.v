(** What an import leaves in its variable. *)
From Coq Require Import ZArith String List Bool Lia ZifyBool.
From Verif Require Import Model.Base Model.Source Model.Number Model.JsonLexer Model.ParserInterface Model.JsonParser Model.Types Model.Deserializer Model.Importer Model.Target
  Spec.Target Proofs.Tac Proofs.Induct Proofs.OrderP Proofs.ClassP.
Import ListNotations.
Open Scope Z_scope.

(** ** The outcome is that of the reader of values *)
Definition agrees {L V A} (f : V -> L) (r : left_of L A) (d : outcome (V * A)) : Prop :=
  match r with
  | (x, _, Ok a) => exists v, x = f v /\ d = Ok (v, a)
  | (_, _, Throw) => d = Throw
  | (_, _, UB) => d = UB
  | (_, _, Hang) => d = Hang
  end.
Lemma agrees_on : forall {L V A B} (f : V -> L) x (o : outcome B) (k : B -> left_of L A) kd, (forall b, o = Ok b -> agrees f (k b) (kd b)) -> agrees f (x_on x o k) (bind o kd).
Proof. intros L V A B f x o k kd H. destruct o; cbn [x_on bind]; try reflexivity. now apply H. Qed.
Lemma agrees_then : forall {L V A B} (f : V -> L) (r : left_of L A) d (k : L -> A -> left_of L B) kd, agrees f r d -> (forall v a, agrees f (k (f v) a) (kd (v, a))) ->
  agrees f (x_then r k) (bind d kd).
Proof.
  intros L V A B f r d k kd H K. destruct r as [[x a] o]. destruct o as [b| | |]; cbn [agrees] in H; [|subst d; reflexivity..]. destruct H as (v & -> & ->).
  cbn [x_then bind]. specialize (K v b). destruct (k (f v) b) as [[x' a'] o']. exact K.
Qed.
Lemma agrees_in : forall {L V L' V' A} (f : V -> L) (f' : V' -> L') (g : L -> L') (h : V -> V') (r : left_of L A) d, agrees f r d -> (forall v, g (f v) = f' (h v)) ->
  agrees f' (x_in g r) (do (v, a) <- d; Ok (h v, a)).
Proof.
  intros L V L' V' A f f' g h r d H E. destruct r as [[x a] o]. destruct o as [b| | |]; cbn [agrees x_in] in *; [|subst d; reflexivity..].
  destruct H as (v & -> & ->). exists (h v). split; [apply E|reflexivity].
Qed.
Definition agrees_opt {L V A} (f : V -> L) (r : option (left_of L A)) (d : option (outcome (V * A))) : Prop :=
  match r, d with Some r, Some d => agrees f r d | None, None => True | _, _ => False end.
Definition agrees_fun {St} (k : kfun St) (d : dfun St) : Prop :=
  (forall v p, agrees up (k_parse k (up v) p) (d_parse d v p)) /\ (forall key v p, agrees_opt up (k_scan k key (up v) p) (d_scan d key v p)).

Lemma find_up : forall k l, x_find k (map (fun kv => (fst kv, up (snd kv))) l) = option_map up (map_find k l).
Proof. intros k. induction l as [|[a v] l IH]; [reflexivity|]. cbn [map fst snd x_find map_find]. destruct (beq a k); [reflexivity|exact IH]. Qed.
Lemma more_up : forall k v l, x_more k (up v) (map (fun kv => (fst kv, up (snd kv))) l) = map (fun kv => (fst kv, up (snd kv))) (map_add k v l).
Proof. intros k v. induction l as [|[a w] l IH]; [reflexivity|]. cbn [map fst snd x_more map_add]. destruct (bltb k a); [reflexivity|]. cbn [map fst snd]. now rewrite IH. Qed.
Lemma set_up : forall k v l, x_set k (up v) (map (fun kv => (fst kv, up (snd kv))) l) = map (fun kv => (fst kv, up (snd kv))) (map_set k v l).
Proof. intros k v. induction l as [|[a w] l IH]; [reflexivity|]. cbn [map fst snd x_set map_set]. destruct (beq a k); [reflexivity|]. destruct (bltb k a); [reflexivity|]. cbn [map fst snd]. now rewrite IH. Qed.
Lemma set_nth_map : forall {A B} (f : A -> B) i x l, set_nth i (f x) (map f l) = map f (set_nth i x l).
Proof. intros A B f i x l. revert i. induction l as [|a l IH]; intros [|i]; cbn [map set_nth]; try reflexivity. now rewrite IH. Qed.

Section Agree.
  Context {St : Type} (ops : parser_ops St) (F : nat) (m : strictness) (marker : bytes) (raw : bool).
  Notation K := (kdeser ops F m marker raw).
  Notation D := (deser ops F m marker).

  Lemma agrees_simple : forall (k : kfun St) (d : dfun St), (forall v p, agrees up (k_parse k (up v) p) (d_parse d v p)) -> (forall key x p, k_scan k key x p = Some (x, false, UB)) ->
    (forall key v p, d_scan d key v p = Some UB) -> agrees_fun k d.
  Proof. intros k d P Sk Sd. split; [exact P|]. intros key v p. rewrite Sk, Sd. reflexivity. Qed.
  Lemma value_agrees : forall {A} (rd : St -> outcome (A * St)) mk mk' v p, (forall a, mk a = up (mk' a)) -> agrees up (x_value ops rd mk (up v) p) (read_value ops rd mk' p).
  Proof.
    intros A rd mk mk' v p E. unfold x_value, read_value. apply agrees_on. intros [t p1] _. destruct t; try reflexivity.
    apply agrees_on. intros [a p2] _. exists (mk' a). now rewrite E.
  Qed.
  Lemma obj_agrees : forall n xs ds, (forall k v p, agrees_opt up (xs k (up v) p) (ds k v p)) -> forall v found p,
    agrees up (x_obj ops F m n xs (up v) found p) (do (v', f, p') <- obj_loop ops F m n ds v found p; Ok (v', (f, p'))).
  Proof.
    induction n as [|n IH]; intros xs ds H v found p; [reflexivity|]. cbn [x_obj obj_loop].
    destruct (getToken ops p) as [[t p1]| | |]; cbn [x_on bind]; try reflexivity.
    assert (G : agrees up (x_on (up v) (lift (op_key ops) p1) (fun '(k, p) =>
        match xs k (up v) p with
        | Some (x', again, o) => x_then (x', again || existsb (beq k) found, o) (fun x' p => x_obj ops F m n xs x' (k :: found) p)
        | None => x_on (up v) (ignoreValue ops m F p) (fun p => x_obj ops F m n xs (up v) found p)
        end))
      (do (v', f, p') <- (do (k, p) <- lift (op_key ops) p1;
        match ds k v p with
        | Some r => do (v', p) <- r; obj_loop ops F m n ds v' (k :: found) p
        | None => do p <- ignoreValue ops m F p; obj_loop ops F m n ds v found p
        end); Ok (v', (f, p')))).
    { destruct (lift (op_key ops) p1) as [[k p2]| | |]; cbn [x_on bind]; try reflexivity. specialize (H k v p2) as Hk. unfold agrees_opt in Hk.
      destruct (xs k (up v) p2) as [[[x' a] o]|], (ds k v p2) as [r|]; try contradiction.
      - destruct o as [p3| | |]; cbn [agrees] in Hk; [|subst r; reflexivity..]. destruct Hk as (v' & -> & ->). cbn [x_then bind].
        specialize (IH xs ds H v' (k :: found) p3). destruct (x_obj ops F m n xs (up v') (k :: found) p3) as [[x2 a2] o2]. exact IH.
      - destruct (ignoreValue ops m F p2) as [p3| | |]; cbn [x_on bind]; try reflexivity. apply IH. exact H. }
    destruct t; try exact G. exists v. split; reflexivity.
  Qed.
  Lemma map_agrees : forall req xs ds, (forall k v p, agrees_opt up (xs k (up v) p) (ds k v p)) -> forall v p,
    agrees up (x_map_block ops F m req xs (up v) p) (read_map ops F m req ds v p).
  Proof.
    intros req xs ds H v p. unfold x_map_block, read_map. apply agrees_on. intros [t p1] _. destruct t; try reflexivity.
    assert (O := obj_agrees F xs ds H v [] p1). destruct (x_obj ops F m F xs (up v) [] p1) as [[x a] o].
    destruct (obj_loop ops F m F ds v [] p1) as [[[v' f] p2]| | |]; destruct o as [[f' p2']| | |]; cbn [bind agrees] in O; try discriminate O; try (destruct O as (? & _ & O); discriminate O); try reflexivity.
    destruct O as (v2 & -> & O). injection O as <- <- <-. cbn [x_then bind]. destruct m; try (exists v'; now split).
    destruct (forallb _ _); [|reflexivity]. exists v'. now split.
  Qed.
  Lemma arr_agrees : forall n xs ds, (forall i v p, agrees up (xs i (up v) p) (ds i v p)) -> forall i v p, agrees up (x_arr ops n xs i (up v) p) (arr_loop ops n ds i v p).
  Proof.
    induction n as [|n IH]; intros xs ds H i v p; [reflexivity|]. cbn [x_arr arr_loop]. apply agrees_on. intros [t p1] _.
    assert (G : agrees up (x_then (xs i (up v) (pushBackToken t p1)) (fun x p => x_arr ops n xs (S i) x p)) (do (v', p) <- ds i v (pushBackToken t p1); arr_loop ops n ds (S i) v' p)).
    { apply agrees_then; [apply H|]. intros. apply IH. exact H. }
    destruct t; try exact G. exists v. now split.
  Qed.
  Lemma array_agrees : forall xs ds, (forall i v p, agrees up (xs i (up v) p) (ds i v p)) -> forall v p, agrees up (x_array ops F xs (up v) p) (read_array ops F ds v p).
  Proof.
    intros xs ds H v p. unfold x_array, read_array. apply agrees_on. intros [t p1] _. destruct t; try reflexivity. now apply arr_agrees.
  Qed.
  Lemma seen_up : forall v, seen (up v) = v.
  Proof.
    apply val_ind'; intros; cbn [up seen]; try reflexivity; try congruence.
    - f_equal. rewrite map_map. induction H as [|x l Hx H IH]; [reflexivity|]. cbn. congruence.
    - f_equal. rewrite map_map. induction H as [|[k x] l Hx H IH]; [reflexivity|]. cbn in *. congruence.
    - f_equal; rewrite map_map; [induction H as [|x l Hx H IH]|induction H0 as [|x l Hx H0 IH]]; try reflexivity; cbn; congruence.
  Qed.
  Lemma add_up : forall co l x, map up (seq_add co l x) = x_add co (map up l) (up x).
  Proof.
    intros co l x. destruct co; cbn [seq_add x_add]; try (rewrite map_app; reflexivity); apply insert_map; exact seen_up.
  Qed.
  Lemma vec_agrees : forall co (k : kfun St) d dflt, agrees_fun k d -> forall i v p, agrees up (x_vec co k (up dflt) i (up v) p) (elem_vec co d dflt i v p).
  Proof.
    intros co k d dflt [H _] i v p. destruct v as [| | | | |[x|]|[x|]| |]; try reflexivity. cbn [up x_vec elem_vec].
    assert (G : co <> CBack -> agrees up (let '(y, again, o) := k_parse k (up dflt) p in (match o with Ok _ => XList (x_add co (map up l) y) | _ => XList (map up l) end, again, o))
      (do (x, p') <- d_parse d dflt p; Ok (VList (seq_add co l x), p'))).
    { intros _. specialize (H dflt p). destruct (k_parse k (up dflt) p) as [[y again] o]. destruct o as [q| | |]; cbn [agrees] in *; try (rewrite H; reflexivity).
      destruct H as (w & -> & ->). exists (VList (seq_add co l w)). split; [cbn [up]; now rewrite add_up|reflexivity]. }
    destruct co; try (apply G; discriminate). clear G.
    refine (agrees_in up up _ (fun x => VList (l ++ [x])) _ _ (H dflt p) _). intro w. cbn [up]. now rewrite map_app.
  Qed.
  Lemma fixed_agrees : forall (ks : list (kfun St)) ds, Forall2 agrees_fun ks ds -> forall i v p, agrees up (x_fixed ks i (up v) p) (elem_fixed ds i v p).
  Proof.
    intros ks ds H i v p. destruct v as [| | | | |[x|]|[x|]| |]; try reflexivity. cbn [up x_fixed elem_fixed]. rewrite nth_error_map.
    revert i. assert (G : forall i, match nth_error ks i, nth_error ds i with Some k, Some d => agrees_fun k d | None, None => True | _, _ => False end).
    { clear -H. induction H as [|k d ks ds Hk H IH]; intros [|i]; cbn [nth_error]; [exact I|exact I|exact Hk|apply IH]. }
    intro i. specialize (G i). destruct (nth_error ks i) as [k|], (nth_error ds i) as [d|]; try contradiction; [|reflexivity].
    destruct (nth_error l i) as [x|]; [|reflexivity]. cbn [option_map]. refine (agrees_in up up _ (fun x' => VList (set_nth i x' l)) _ _ (proj1 G x p) _).
    intro w. cbn [up]. now rewrite set_nth_map.
  Qed.
  Lemma entry_agrees : forall fw (k : kfun St) d dflt, agrees_fun k d -> forall key v p, agrees_opt up (x_entry fw k (up dflt) key (up v) p) (scan_map fw d dflt key v p).
  Proof.
    intros fw k d dflt [H _] key v p. destruct v as [| | | | |[x|]|[x|]| |]; try reflexivity. cbn [up x_entry scan_map]. destruct fw; cbn [agrees_opt].
    - specialize (H dflt p). destruct (k_parse k (up dflt) p) as [[y a] o]. destruct o as [p1| | |]; cbn [agrees] in *; [|rewrite H; reflexivity..].
      destruct H as (w & -> & ->). cbn [bind]. eexists. split; [|reflexivity]. rewrite find_up. destruct (map_find key l); cbn [option_map]; [reflexivity|]. cbn [up]. now rewrite set_up.
    - rewrite find_up. replace (match option_map up (map_find key l) with Some y => y | None => up dflt end) with (up (match map_find key l with Some x => x | None => dflt end)) by (destruct (map_find key l); reflexivity).
      refine (agrees_in up up _ (fun x => VMap (map_set key x l)) _ _ (H _ p) _). intro w. cbn [up]. now rewrite set_up.
    - specialize (H dflt p). destruct (k_parse k (up dflt) p) as [[y a] o]. destruct o as [p1| | |]; cbn [agrees] in *; [|rewrite H; reflexivity..].
      destruct H as (w & -> & ->). cbn [bind]. eexists. split; [|reflexivity]. cbn [up]. now rewrite more_up.
  Qed.
  Lemma members_agree : forall (ks : list (kfun St)) ds, Forall2 agrees_fun ks ds -> forall ns vs key p, agrees_opt (map up) (x_members ns ks (map up vs) key p) (scan_members ns ds vs key p).
  Proof.
    intros ks ds H. induction H as [|k d ks ds Hk H IH]; intros [|n ns] [|v vs] key p; try reflexivity. cbn [map x_members scan_members]. destruct (beq key n).
    - cbn [agrees_opt]. refine (agrees_in up (map up) _ (fun v' => v' :: vs) _ _ (proj1 Hk v p) _). reflexivity.
    - specialize (IH ns vs key p). unfold agrees_opt in IH. destruct (x_members ns ks (map up vs) key p) as [r|], (scan_members ns ds vs key p) as [r'|]; try contradiction; [|exact I].
      cbn [agrees_opt]. refine (agrees_in (map up) (map up) _ (fun l => v :: l) _ _ IH _). reflexivity.
  Qed.
  Lemma parents_agree : forall (ks : list (kfun St)) ds, Forall2 agrees_fun ks ds -> forall vs key p, agrees_opt (map up) (x_parents ks (map up vs) key p) (scan_parents ds vs key p).
  Proof.
    intros ks ds H. induction H as [|k d ks ds Hk H IH]; intros [|v vs] key p; try reflexivity. cbn [map x_parents scan_parents].
    assert (Hs := proj2 Hk key v p). unfold agrees_opt in Hs. destruct (k_scan k key (up v) p) as [r|], (d_scan d key v p) as [r'|]; try contradiction.
    - cbn [agrees_opt]. refine (agrees_in up (map up) _ (fun v' => v' :: vs) _ _ Hs _). reflexivity.
    - specialize (IH vs key p). unfold agrees_opt in IH. destruct (x_parents ks (map up vs) key p) as [r|], (scan_parents ds vs key p) as [r'|]; try contradiction; [|exact I].
      cbn [agrees_opt]. refine (agrees_in (map up) (map up) _ (fun l => v :: l) _ _ IH _). reflexivity.
  Qed.
  Lemma struct_agrees : forall i (km : list (kfun St)) dm kp dp, Forall2 agrees_fun km dm -> Forall2 agrees_fun kp dp -> forall key v p,
    agrees_opt up (x_struct i km kp key (up v) p) (scan_struct i dm dp key v p).
  Proof.
    intros i km dm kp dp Hm Hp key v p. destruct v as [| | | | |[x|]|[x|]|own par|]; try reflexivity. cbn [up x_struct scan_struct].
    assert (Q := parents_agree kp dp Hp par key p). unfold agrees_opt in Q. destruct (x_parents kp (map up par) key p) as [r|], (scan_parents dp par key p) as [r'|]; try contradiction.
    - cbn [agrees_opt]. refine (agrees_in (map up) up _ (fun par' => VStruct own par') _ _ Q _). reflexivity.
    - assert (M := members_agree km dm Hm (map (nameOverride i) (si_names i)) own key p). unfold agrees_opt in M.
      destruct (x_members _ km (map up own) key p) as [r|], (scan_members _ dm own key p) as [r'|]; try contradiction; [|exact I].
      cbn [agrees_opt]. refine (agrees_in (map up) up _ (fun own' => VStruct own' par) _ _ M _). reflexivity.
  Qed.
  Lemma pointer_agrees : forall rest rest', (forall x p, agrees up (rest x p) (rest' p)) -> forall v p, agrees up (x_pointer ops raw rest (up v) p) (read_pointer ops rest' p).
  Proof.
    intros rest rest' H v p.
    assert (G : forall x, agrees up (x_on x (getToken ops p) (fun '(t, p) => if op_null ops (ps_impl p) then x_on x (lift_ (op_ignore ops) p) (fun p => (XNull, false, Ok p)) else rest x (pushBackToken t p)))
      (read_pointer ops rest' p)).
    { intro x. unfold read_pointer. apply agrees_on. intros [t p1] _. destruct (op_null ops (ps_impl p1)); [|apply H]. apply agrees_on. intros p2 _. exists (VPtr None). now split. }
    destruct v as [| | | | |[x|]|[x|]| |]; exact (G _).
  Qed.

  Lemma all_agree : forall ts, Forall (fun t => agrees_fun (K t) (D t)) ts -> Forall2 agrees_fun (map K ts) (map D ts).
  Proof. induction 1; constructor; auto. Qed.
  Theorem kdeser_agrees : forall t, agrees_fun (K t) (D t).
  Proof.
    apply (ty_ind' (fun t => agrees_fun (K t) (D t))).
    - intro i. apply agrees_simple; try reflexivity. intros. apply value_agrees. reflexivity.
    - apply agrees_simple; try reflexivity. intros. apply value_agrees. reflexivity.
    - apply agrees_simple; try reflexivity. intros. apply value_agrees. reflexivity.
    - intro l. apply agrees_simple; try reflexivity. intros v p. cbn [kdeser deser k_parse d_parse]. apply agrees_on. intros [w p1] _.
      destruct w as [| | | | |[x|]|[x|]| |]; try reflexivity. destruct (enum_value l s); [|reflexivity]. eexists. split; [|reflexivity]. reflexivity.
    - intros co t IH. apply agrees_simple; try reflexivity. intros v p. apply array_agrees. intros. now apply vec_agrees.
    - intros n t IH. apply agrees_simple; try reflexivity. intros v p. apply array_agrees. intros. apply fixed_agrees. induction n; constructor; auto.
    - intros ts IH. apply agrees_simple; try reflexivity. intros v p. apply array_agrees. intros. apply fixed_agrees. now apply all_agree.
    - intros fw t IH. split; cbn [kdeser deser k_parse d_parse k_scan d_scan].
      + intros. apply map_agrees. intros. now apply entry_agrees.
      + intros. now apply entry_agrees.
    - intros t IH. apply agrees_simple; try reflexivity. intros v p. apply pointer_agrees. intros x p1.
      refine (agrees_in up up _ (fun x => VPtr (Some x)) _ _ (proj1 IH _ p1) _). reflexivity.
    - intros t IH. apply agrees_simple; try reflexivity. intros v p. cbn [kdeser deser k_parse d_parse].
      destruct v as [| | | | |[x|]|[x|]| |]; try reflexivity; cbn [up]; refine (agrees_in up up _ (fun x => VOpt (Some x)) _ _ (proj1 IH _ p) _); reflexivity.
    - intros i ms ps IHm IHp. apply all_agree in IHm, IHp. split; cbn [kdeser deser k_parse d_parse k_scan d_scan].
      + intros. apply map_agrees. intros. now apply struct_agrees.
      + intros. now apply struct_agrees.
    - intros cs others IH. apply agrees_simple; try reflexivity. intros v p. apply pointer_agrees. intros x p1. apply agrees_on. intros [c p2] _.
      destruct (find_class cs c) as [k|]; [|destruct (existsb (beq c) others); reflexivity]. rewrite !nth_error_map. destruct (nth_error cs k) as [tk|] eqn:E; [|reflexivity].
      cbn [option_map]. rewrite Forall_forall in IH. refine (agrees_in up up _ (fun x => VPtr (Some (VVar k x))) _ _ (proj1 (IH tk (nth_error_In _ _ E)) _ p2) _). reflexivity.
    - intros cs IH. apply agrees_simple; try reflexivity. intros v p. apply agrees_on. intros [c p2] _.
      destruct (find_class cs c) as [k|]; [|apply agrees_on; intros p3 _; exists v; now split]. rewrite !nth_error_map. destruct (nth_error cs k) as [tk|] eqn:E; [|reflexivity].
      cbn [option_map]. rewrite Forall_forall in IH. refine (agrees_in up up _ (fun x => VVar k x) _ _ (proj1 (IH tk (nth_error_In _ _ E)) _ p2) _). reflexivity.
  Qed.
End Agree.
(** The import of JSON. *)
Theorem json_leaves_agrees : forall raw fuel cfg t v s, agrees up (json_leaves raw fuel cfg t (up v) s) (json_try fuel cfg t v s).
Proof.
  intros. unfold json_leaves, json_try. apply agrees_on. intros [tk p] _. destruct tk; try reflexivity.
  apply agrees_then; [apply kdeser_agrees|]. intros v' p1. apply agrees_on. intros s1 _. apply agrees_on. intros [tk p2] _. destruct tk; try reflexivity. exists v'. now split.
Qed.

(** ** Pointers *)
Lemma everywhere_mono : forall f g, (forall x, f x = true -> g x = true) -> forall x, everywhere f x = true -> everywhere g x = true.
Proof.
  intros f g H. fix IH 1. intros x E.
  assert (Hl : forall l, forallb (everywhere f) l = true -> forallb (everywhere g) l = true).
  { fix IHl 1. intros [|y l] El; [reflexivity|]. cbn [forallb] in *. apply andb_prop in El as [E1 E2]. now rewrite (IH y E1), (IHl l E2). }
  assert (Hm : forall l : list (bytes * target), forallb (fun kv => everywhere f (snd kv)) l = true -> forallb (fun kv => everywhere g (snd kv)) l = true).
  { fix IHl 1. intros [|[k y] l] El; [reflexivity|]. cbn [forallb snd] in *. apply andb_prop in El as [E1 E2]. now rewrite (IH y E1), (IHl l E2). }
  destruct x as [| | | |l|l| |y| |[y|]|own par|i y]; cbn [everywhere] in *; apply andb_prop in E as [E1 E2]; rewrite (H _ E1); cbn [andb]; auto.
  apply andb_prop in E2 as [E2 E3]. now rewrite (Hl _ E2), (Hl _ E3).
Qed.
Lemma null_no_dangling : forall x, all_null x = true -> no_dangling x = true.
Proof. apply everywhere_mono. intros []; auto. Qed.
Lemma default_null : forall t, all_null (up (default t)) = true.
Proof.
  apply (ty_ind' (fun t => all_null (up (default t)) = true)); try reflexivity; unfold all_null in *.
  - intros n t IH. cbn [default up everywhere]. cbn [andb]. induction n; cbn [repeat map forallb]; [reflexivity|]. now rewrite IH.
  - intros ts IH. cbn [default up everywhere andb]. induction IH as [|t ts H IH IHl]; cbn [map forallb]; [reflexivity|]. now rewrite H.
  - intros i ms ps IHm IHp. cbn [default up everywhere andb].
    assert (G : forall ts, Forall (fun t => everywhere (fun x => match x with XDangling | XLive _ => false | _ => true end) (up (default t)) = true) ts -> forallb (everywhere (fun x => match x with XDangling | XLive _ => false | _ => true end)) (map up (map default ts)) = true).
    { induction 1 as [|t ts H IH IHl]; cbn [map forallb]; [reflexivity|]. now rewrite H. }
    now rewrite !G.
  - intros cs IH. cbn [default]. destruct IH as [|c cs H IH]; [reflexivity|]. exact H.
Qed.

Section Pointers.
  Context {St : Type} (ops : parser_ops St) (F : nat) (m : strictness) (marker : bytes) (raw : bool).
  Notation K := (kdeser ops F m marker raw).
  Definition ready (x : target) : bool := if raw then all_null x else no_dangling x.
  Definition once (again : bool) : Prop := raw = true -> again = false.
  Lemma ready_sound : forall x, ready x = true -> no_dangling x = true.
  Proof. unfold ready. intros x H. destruct raw; [now apply null_no_dangling|exact H]. Qed.
  Lemma ready_default : forall t, ready (up (default t)) = true.
  Proof. intro t. unfold ready. destruct raw; [|apply null_no_dangling]; apply default_null. Qed.
  Lemma once_or : forall a b, once (a || b) -> once a /\ once b.
  Proof. intros a b H. unfold once in *. destruct raw; [|split; discriminate]. specialize (H eq_refl). apply orb_false_elim in H as [-> ->]. auto. Qed.

  Fixpoint scanned (t : ty) (found : list bytes) (x : target) : Prop :=
    match t, x with
    | TMap _ _, XMap l => Forall (fun kv => no_dangling (snd kv) = true /\ (~ In (fst kv) found -> ready (snd kv) = true)) l
    | TStruct i ms ps, XStruct own par =>
        (Forall (fun y => no_dangling y = true) own /\ Forall (fun ny => ~ In (fst ny) found -> ready (snd ny) = true) (combine (map (nameOverride i) (si_names i)) own)) /\
        Forall (fun y => no_dangling y = true) par /\
        (fix go (ts : list ty) (xs : list target) : Prop := match ts, xs with t :: ts, y :: xs => scanned t found y /\ go ts xs | _, _ => True end) ps par
    | _, _ => no_dangling x = true
    end.
  Definition leaves {L A} (P : L -> Prop) (r : left_of L A) : Prop := once (snd (fst r)) -> P (fst (fst r)).
  Lemma leaves_on : forall {L A B} (P : L -> Prop) x (o : outcome B) (k : B -> left_of L A), P x -> (forall b, leaves P (k b)) -> leaves P (x_on x o k).
  Proof. intros L A B P x o k H K. destruct o; cbn [x_on]; [apply K|intro; exact H..]. Qed.
  Lemma leaves_then : forall {L A B} (P Q : L -> Prop) (r : left_of L A) (k : L -> A -> left_of L B), leaves Q r -> (forall x, Q x -> P x) -> (forall x a, Q x -> leaves P (k x a)) -> leaves P (x_then r k).
  Proof.
    intros L A B P Q [[x a] o] k H QP K. unfold leaves in *. cbn [fst snd] in H. destruct o as [b| | |]; cbn [x_then fst snd]; try (intro O; apply QP, H, O).
    specialize (K x b). destruct (k x b) as [[x' a'] o']. cbn [fst snd] in *. intro O. apply once_or in O as [O1 O2]. apply K; auto.
  Qed.
  Lemma leaves_in : forall {L M A} (P : M -> Prop) (Q : L -> Prop) (f : L -> M) (r : left_of L A), leaves Q r -> (forall x, Q x -> P (f x)) -> leaves P (x_in f r).
  Proof. intros L M A P Q f [[x a] o] H K O. apply K, H, O. Qed.
  Lemma leaves_weak : forall {L A} (P Q : L -> Prop) (r : left_of L A), leaves Q r -> (forall x, Q x -> P x) -> leaves P r.
  Proof. intros L A P Q r H K O. apply K, H, O. Qed.
  Lemma leaves_end : forall {L A} (P : L -> Prop) x (o : outcome A), P x -> leaves P (x, false, o).
  Proof. intros L A P x o H _. exact H. Qed.

  Notation sound := (fun x => no_dangling x = true).
  Definition safe_fun (t : ty) : Prop :=
    (forall x p, ready x = true -> leaves sound (k_parse (K t) x p)) /\
    (forall x, ready x = true -> scanned t [] x) /\ (forall found x, scanned t found x -> no_dangling x = true) /\
    (forall k found x, scanned t found x -> scanned t (k :: found) x) /\
    (forall k found x p, scanned t found x -> (raw = true -> ~ In k found) -> match k_scan (K t) k x p with Some r => leaves (scanned t (k :: found)) r | None => True end).

  Lemma safe_simple : forall t, (forall x p, ready x = true -> leaves sound (k_parse (K t) x p)) -> (forall found x, scanned t found x = (no_dangling x = true)) ->
    (forall key x p, k_scan (K t) key x p = Some (x, false, UB)) -> safe_fun t.
  Proof.
    intros t P Sc Sk. repeat split; intros; rewrite ?Sc in *; auto using ready_sound. rewrite Sk. apply leaves_end. now rewrite Sc.
  Qed.
  Lemma value_safe : forall {A} (rd : St -> outcome (A * St)) mk x p, (forall a, no_dangling (mk a) = true) -> ready x = true -> leaves sound (x_value ops rd mk x p).
  Proof.
    intros A rd mk x p M R. unfold x_value. apply leaves_on; [now apply ready_sound|]. intros [t p1]. destruct t; try (apply leaves_end; now apply ready_sound).
    apply leaves_on; [reflexivity|]. intros [a p2]. apply leaves_end. apply M.
  Qed.
  Lemma obj_safe : forall n scan (Inv : list bytes -> target -> Prop),
    (forall k found x, Inv found x -> Inv (k :: found) x) ->
    (forall k found x p, Inv found x -> (raw = true -> ~ In k found) -> match scan k x p with Some r => leaves (Inv (k :: found)) r | None => True end) ->
    forall x found p, Inv found x -> leaves (fun x => exists f, Inv f x) (x_obj ops F m n scan x found p).
  Proof.
    induction n as [|n IH]; intros scan Inv Mono H x found p I0; [apply leaves_end; eauto|]. cbn [x_obj]. apply leaves_on; [eauto|]. intros [t p1].
    assert (G : leaves (fun x => exists f, Inv f x) (x_on x (lift (op_key ops) p1) (fun '(k, p) =>
        match scan k x p with
        | Some (x', again, o) => x_then (x', again || existsb (beq k) found, o) (fun x' p => x_obj ops F m n scan x' (k :: found) p)
        | None => x_on x (ignoreValue ops m F p) (fun p => x_obj ops F m n scan x found p)
        end))).
    { apply leaves_on; [eauto|]. intros [k p2]. destruct (scan k x p2) as [[[x' a] o]|] eqn:E.
      - apply (leaves_then _ (Inv (k :: found))); [|eauto|intros; now apply IH]. intro O. apply once_or in O as [O1 O2]. cbn [fst snd] in *.
        specialize (H k found x p2 I0). rewrite E in H. apply H; [|exact O1]. intros R N. specialize (O2 R). apply existsb_In in N. congruence.
      - apply leaves_on; [eauto|]. intro. now apply IH. }
    destruct t; try exact G. apply leaves_end. eauto.
  Qed.
  Lemma map_safe : forall req scan (Inv : list bytes -> target -> Prop),
    (forall k found x, Inv found x -> Inv (k :: found) x) -> (forall found x, Inv found x -> no_dangling x = true) ->
    (forall k found x p, Inv found x -> (raw = true -> ~ In k found) -> match scan k x p with Some r => leaves (Inv (k :: found)) r | None => True end) ->
    forall x p, Inv [] x -> leaves sound (x_map_block ops F m req scan x p).
  Proof.
    intros req scan Inv Mono So H x p I0. unfold x_map_block. apply leaves_on; [eauto|]. intros [t p1]. destruct t; try (apply leaves_end; eauto).
    apply (leaves_then _ (fun x => exists f, Inv f x)); [now apply obj_safe|intros y (f & Hf); eauto|]. intros y [f p2] (f' & Hf).
    destruct m; try (apply leaves_end; eauto). destruct (forallb _ _); apply leaves_end; eauto.
  Qed.
  Lemma arr_safe : forall n elem (Inv : nat -> target -> Prop), (forall i x p, Inv i x -> leaves (Inv (S i)) (elem i x p)) ->
    forall i x p, Inv i x -> leaves (fun x => exists j, Inv j x) (x_arr ops n elem i x p).
  Proof.
    induction n as [|n IH]; intros elem Inv H i x p I0; [apply leaves_end; eauto|]. cbn [x_arr]. apply leaves_on; [eauto|]. intros [t p1].
    assert (G : leaves (fun x => exists j, Inv j x) (x_then (elem i x (pushBackToken t p1)) (fun x p => x_arr ops n elem (S i) x p))).
    { apply (leaves_then _ (Inv (S i))); [now apply H|eauto|]. intros. now apply IH. }
    destruct t; try exact G. apply leaves_end. eauto.
  Qed.
  Lemma array_safe : forall elem (Inv : nat -> target -> Prop), (forall i x, Inv i x -> no_dangling x = true) -> (forall i x p, Inv i x -> leaves (Inv (S i)) (elem i x p)) ->
    forall x p, Inv O x -> leaves sound (x_array ops F elem x p).
  Proof.
    intros elem Inv So H x p I0. unfold x_array. apply leaves_on; [eauto|]. intros [t p1]. destruct t; try (apply leaves_end; eauto).
    eapply leaves_weak; [exact (arr_safe F elem Inv H O x p1 I0)|]. intros y (j & Hj). eauto.
  Qed.
  Lemma sound_list : forall l, no_dangling (XList l) = forallb no_dangling l. Proof. reflexivity. Qed.
  Lemma ready_list : forall l, ready (XList l) = forallb ready l. Proof. intro l. unfold ready. now destruct raw. Qed.
  Definition from_ready (i : nat) (x : target) : Prop :=
    no_dangling x = true /\ forall l, x = XList l -> forall j y, (i <= j)%nat -> nth_error l j = Some y -> ready y = true.
  Lemma nth_set : forall {A} i j (y : A) l, nth_error (set_nth i y l) j = if Nat.eqb i j then (match nth_error l j with Some _ => Some y | None => None end) else nth_error l j.
  Proof.
    intros A i j y l. revert i j. induction l as [|a l IH]; intros [|i] [|j]; cbn [set_nth nth_error Nat.eqb]; auto. destruct (Nat.eqb i j); reflexivity.
  Qed.
  Lemma In_set : forall {A} i (y z : A) l, In z (set_nth i y l) -> z = y \/ In z l.
  Proof. intros A i y z l. revert i. induction l as [|a l IH]; intros [|i] H; cbn [set_nth In] in *; [tauto|tauto|destruct H as [H|H]; auto|]. destruct H as [H|H]; auto. apply IH in H. tauto. Qed.
  Lemma fixed_safe : forall ks : list (kfun St), Forall (fun k => forall x p, ready x = true -> leaves sound (k_parse k x p)) ks -> forall i x p, from_ready i x -> leaves (from_ready (S i)) (x_fixed ks i x p).
  Proof.
    intros ks H i x p [So Re]. assert (So' : from_ready (S i) x) by (split; [exact So|]; intros l -> j y Hj; apply (Re l eq_refl); lia).
    destruct x as [| | | |l|l| |y| |o|own par|n y]; cbn [x_fixed]; try (apply leaves_end; exact So'). destruct (nth_error ks i) as [k|] eqn:Ek; [|now apply leaves_end].
    destruct (nth_error l i) as [y|] eqn:El; [|now apply leaves_end]. rewrite Forall_forall in H. apply (leaves_in _ sound).
    - apply (H k (nth_error_In _ _ Ek)). now apply (Re l eq_refl i).
    - intros y' Hy. split.
      + rewrite sound_list in *. rewrite forallb_forall in *. intros z Hz. apply In_set in Hz as [-> |Hz]; auto.
      + intros l' E j z Hj. injection E as <-. rewrite nth_set. replace (Nat.eqb i j) with false by (symmetry; apply Nat.eqb_neq; lia). apply (Re l eq_refl). lia.
  Qed.
  Lemma fixed_block : forall ks : list (kfun St), Forall (fun k => forall x p, ready x = true -> leaves sound (k_parse k x p)) ks -> forall x p, ready x = true -> leaves sound (x_array ops F (x_fixed ks) x p).
  Proof.
    intros ks H x p R. apply (array_safe _ from_ready).
    - intros i y [Hy _]. exact Hy.
    - intros. now apply fixed_safe.
    - split; [now apply ready_sound|]. intros l -> j y _ Ej. rewrite ready_list, forallb_forall in R. apply R. now apply nth_error_In in Ej.
  Qed.
  Lemma pointer_safe : forall rest x p, ready x = true -> (forall y p, no_dangling y = true -> leaves sound (rest y p)) -> leaves sound (x_pointer ops raw rest x p).
  Proof.
    intros rest x p R H. assert (Q : no_dangling (released raw x) = true).
    { destruct x; cbn [released]; try now apply ready_sound. unfold ready in R. destruct raw; [discriminate R|reflexivity]. }
    assert (G : leaves sound (x_on (released raw x) (getToken ops p) (fun '(t, p) =>
      if op_null ops (ps_impl p) then x_on (released raw x) (lift_ (op_ignore ops) p) (fun p => (XNull, false, Ok p)) else rest (released raw x) (pushBackToken t p)))).
    { apply leaves_on; [exact Q|]. intros [t p1]. destruct (op_null ops (ps_impl p1)); [|now apply H]. apply leaves_on; [exact Q|]. intro. now apply leaves_end. }
    destruct x; try exact G. apply leaves_end. now apply ready_sound.
  Qed.

  Lemma In_xmore : forall k v a w l, In (a, w) (x_more k v l) -> (a = k /\ w = v) \/ In (a, w) l.
  Proof.
    intros k v a w. induction l as [|[b u] l IH]; cbn [x_more In]; [intros [E|[]]; injection E as <- <-; auto|]. destruct (bltb k b); cbn [In].
    - intros [E|H]; [injection E as <- <-; auto|auto].
    - intros [E|H]; [auto|]. destruct (IH H); auto.
  Qed.
  Lemma In_xset : forall k v a w l, In (a, w) (x_set k v l) -> (a = k /\ w = v) \/ In (a, w) l.
  Proof.
    intros k v a w. induction l as [|[b u] l IH]; cbn [x_set In]; [intros [E|[]]; injection E as <- <-; auto|]. destruct (beq b k) eqn:B.
    - apply beq_eq in B. subst b. intros [E|H]; [injection E as <- <-; auto|auto].
    - destruct (bltb k b); cbn [In]; [intros [E|[E|H]]; [injection E as <- <-; auto|auto|auto]|]. intros [E|H]; [auto|]. apply IH in H. tauto.
  Qed.
  Lemma find_In : forall k y l, x_find k l = Some y -> In (k, y) l.
  Proof.
    intros k y. induction l as [|[a w] l IH]; cbn [x_find]; [discriminate|]. destruct (beq a k) eqn:B; [|intro E; right; auto]. apply beq_eq in B. subst a. intro E. injection E as <-. now left.
  Qed.
  Lemma entries_mono : forall k found (l : list (bytes * target)), Forall (fun kv => no_dangling (snd kv) = true /\ (~ In (fst kv) found -> ready (snd kv) = true)) l ->
    Forall (fun kv => no_dangling (snd kv) = true /\ (~ In (fst kv) (k :: found) -> ready (snd kv) = true)) l.
  Proof. intros k found l. apply Forall_impl. intros [a w] [H1 H2]. split; [exact H1|]. intro N. apply H2. intro H. apply N. now right. Qed.
  Lemma entry_safe : forall fw t, (forall x p, ready x = true -> leaves sound (k_parse (K t) x p)) -> forall k found x p, scanned (TMap fw t) found x -> (raw = true -> ~ In k found) ->
    match x_entry fw (K t) (up (default t)) k x p with Some r => leaves (scanned (TMap fw t) (k :: found)) r | None => True end.
  Proof.
    intros fw t P k found x p Sc N. destruct x as [| | | |l|l| |y| |o|own par|n y]; cbn [x_entry]; try (apply leaves_end; exact Sc). cbn [scanned] in Sc.
    assert (Set_ : forall y, no_dangling y = true -> scanned (TMap fw t) (k :: found) (XMap (x_set k y l))).
    { intros y Hy. cbn [scanned]. rewrite Forall_forall in *. intros [a w] H. apply In_xset in H as [[-> ->]|H]; [split; [exact Hy|]; intro Q; elim Q; now left|].
      destruct (Sc _ H) as [H1 H2]. split; [exact H1|]. intro Q. apply H2. intro H3. apply Q. now right. }
    destruct fw.
    - assert (Hd := P _ p (ready_default t)). unfold leaves in *. destruct (k_parse (K t) (up (default t)) p) as [[y a] o]. cbn [fst snd] in *. intro O. specialize (Hd O).
      assert (Q : scanned (TMap MFirst t) (k :: found) (XMap l)) by (cbn [scanned]; now apply entries_mono).
      destruct o; try exact Q. destruct (x_find k l); [exact Q|]. now apply Set_.
    - apply (leaves_in _ sound); [|intros; now apply Set_]. apply P. destruct (x_find k l) as [y|] eqn:E; [|apply ready_default].
      apply find_In in E. rewrite Forall_forall in Sc. destruct (Sc _ E) as [H1 H2]. cbn [fst snd] in *. unfold ready in *. destruct raw; [apply H2; auto|exact H1].
    - assert (Hd := P _ p (ready_default t)). unfold leaves in *. destruct (k_parse (K t) (up (default t)) p) as [[y a] o]. cbn [fst snd] in *. intro O. specialize (Hd O).
      assert (Q : scanned (TMap MAll t) (k :: found) (XMap l)) by (cbn [scanned]; now apply entries_mono).
      destruct o; try exact Q. cbn [scanned] in *. rewrite Forall_forall in *. intros [b w] H. apply In_xmore in H as [[-> ->]|H]; [split; [exact Hd|]; intro N'; elim N'; now left|exact (Q _ H)].
  Qed.

  Definition scanned_all (found : list bytes) : list ty -> list target -> Prop :=
    fix go (ts : list ty) (xs : list target) : Prop := match ts, xs with t :: ts, y :: xs => scanned t found y /\ go ts xs | _, _ => True end.
  Lemma scanned_struct : forall i ms ps found own par, scanned (TStruct i ms ps) found (XStruct own par) =
    ((Forall (fun y => no_dangling y = true) own /\ Forall (fun ny => ~ In (fst ny) found -> ready (snd ny) = true) (combine (map (nameOverride i) (si_names i)) own)) /\
     Forall (fun y => no_dangling y = true) par /\ scanned_all found ps par).
  Proof. reflexivity. Qed.
  Lemma all_mono : forall k found ps, Forall safe_fun ps -> forall par, scanned_all found ps par -> scanned_all (k :: found) ps par.
  Proof. intros k found ps H. induction H as [|t ps Ht H IH]; intros [|y par] S0; cbn [scanned_all] in *; auto. destruct S0 as [S1 S2]. split; [now apply Ht|now apply IH]. Qed.
  Lemma parents_safe : forall ps, Forall safe_fun ps -> forall k found par p, (raw = true -> ~ In k found) -> Forall sound par -> scanned_all found ps par ->
    match x_parents (map K ps) par k p with Some r => leaves (fun par' => Forall sound par' /\ scanned_all (k :: found) ps par') r | None => True end.
  Proof.
    intros ps H. induction H as [|t ps Ht H IH]; intros k found [|y par] p N So Sc; cbn [map x_parents]; try exact I; try (apply leaves_end; split; [exact So|exact I]).
    inversion So as [|? ? Hy So']. destruct Sc as [S1 S2]. assert (Hs := proj2 (proj2 (proj2 (proj2 Ht))) k found y p S1 N). destruct (k_scan (K t) k y p) as [r|].
    - apply (leaves_in _ (scanned t (k :: found))); [exact Hs|]. intros y' Hy'. split; [constructor; [|exact So']; now apply (proj1 (proj2 (proj2 Ht))) in Hy'|]. split; [exact Hy'|now apply all_mono].
    - specialize (IH k found par p N So' S2). destruct (x_parents (map K ps) par k p) as [r|]; [|exact I].
      eapply leaves_in; [exact IH|]. intros par' [Q1 Q2]. split; [now constructor|]. split; [now apply Ht|exact Q2].
  Qed.
  Lemma members_safe : forall ms, Forall safe_fun ms -> forall ns k found own p, (raw = true -> ~ In k found) -> Forall sound own ->
    Forall (fun ny => ~ In (fst ny) found -> ready (snd ny) = true) (combine ns own) ->
    match x_members ns (map K ms) own k p with
    | Some r => leaves (fun own' => Forall sound own' /\ Forall (fun ny => ~ In (fst ny) (k :: found) -> ready (snd ny) = true) (combine ns own')) r
    | None => True
    end.
  Proof.
    assert (Mono : forall k found (l : list (bytes * target)), Forall (fun ny => ~ In (fst ny) found -> ready (snd ny) = true) l -> Forall (fun ny => ~ In (fst ny) (k :: found) -> ready (snd ny) = true) l).
    { intros k found l. apply Forall_impl. intros [a w] H N. apply H. intro Q. apply N. now right. }
    intros ms H. induction H as [|t ms Ht H IH]; intros [|n ns] k found [|y own] p N So Sc; cbn [map x_members]; try exact I; try (apply leaves_end; split; [exact So|now apply Mono]).
    inversion So as [|? ? Hy So']. cbn [combine] in Sc. inversion Sc as [|? ? Hr Sc']. cbn [fst snd] in Hr. destruct (beq k n) eqn:B.
    - apply beq_eq in B. subst n. apply (leaves_in _ sound).
      + apply Ht. unfold ready in *. destruct raw; [apply Hr; auto|exact Hy].
      + intros y' Hy'. split; [now constructor|]. cbn [combine]. constructor; [|now apply Mono]. intro Q. elim Q. now left.
    - specialize (IH ns k found own p N So' Sc'). destruct (x_members ns (map K ms) own k p) as [r|]; [|exact I]. eapply leaves_in; [exact IH|].
      intros own' [Q1 Q2]. split; [now constructor|]. cbn [combine]. constructor; [|exact Q2]. intros Q. apply Hr. intro Q3. apply Q. now right.
  Qed.
  Lemma ready_struct : forall own par, ready (XStruct own par) = forallb ready own && forallb ready par.
  Proof. intros. unfold ready. now destruct raw. Qed.
  Lemma forallb_sound : forall l, forallb ready l = true -> Forall sound l.
  Proof. intros l H. rewrite forallb_forall in H. rewrite Forall_forall. intros y Hy. apply ready_sound. auto. Qed.
  Lemma struct_safe : forall i ms ps, Forall safe_fun ms -> Forall safe_fun ps -> safe_fun (TStruct i ms ps).
  Proof.
    intros i ms ps Hm Hp.
    assert (Fresh : forall x, ready x = true -> scanned (TStruct i ms ps) [] x).
    { intros x R. destruct x as [| | | |l|l| |y| |o|own par|n y]; try now apply ready_sound. rewrite scanned_struct. rewrite ready_struct in R. apply andb_prop in R as [R1 R2].
      split; [split; [now apply forallb_sound|]|split; [now apply forallb_sound|]].
      - rewrite Forall_forall. intros [n y] H _. apply in_combine_r in H. rewrite forallb_forall in R1. now apply R1.
      - clear -Hp R2. revert par R2. induction Hp as [|t ps Ht H IH]; intros [|y par] R; cbn [scanned_all]; auto. cbn [forallb] in R. apply andb_prop in R as [R1 R2].
        split; [now apply Ht|now apply IH]. }
    assert (So : forall found x, scanned (TStruct i ms ps) found x -> no_dangling x = true).
    { intros found x Sc. destruct x as [| | | |l|l| |y| |o|own par|n y]; try exact Sc. rewrite scanned_struct in Sc. destruct Sc as ((S1 & _) & S2 & _).
      change (no_dangling (XStruct own par)) with (forallb no_dangling own && forallb no_dangling par). rewrite Forall_forall in S1, S2.
      apply andb_true_intro. split; apply forallb_forall; auto. }
    assert (Mono : forall k found x, scanned (TStruct i ms ps) found x -> scanned (TStruct i ms ps) (k :: found) x).
    { intros k found x Sc. destruct x as [| | | |l|l| |y| |o|own par|n y]; try exact Sc. rewrite scanned_struct in *. destruct Sc as ((S1 & S3) & S2 & S4).
      split; [split; [exact S1|]|split; [exact S2|now apply all_mono]]. revert S3. apply Forall_impl. intros [a w] H N. apply H. intro Q. apply N. now right. }
    assert (Scan : forall k found x p, scanned (TStruct i ms ps) found x -> (raw = true -> ~ In k found) ->
      match x_struct i (map K ms) (map K ps) k x p with Some r => leaves (scanned (TStruct i ms ps) (k :: found)) r | None => True end).
    { intros k found x p Sc N. assert (Sc' := Mono k found x Sc). destruct x as [| | | |l|l| |y| |o|own par|n y]; cbn [x_struct]; try (apply leaves_end; exact Sc).
      rewrite scanned_struct in Sc, Sc'. destruct Sc as ((S1 & S3) & S2 & S4). destruct Sc' as ((_ & S3') & _ & S4').
      assert (P := parents_safe ps Hp k found par p N S2 S4). destruct (x_parents (map K ps) par k p) as [r|].
      - eapply leaves_in; [exact P|]. intros par' [H1 H2]. rewrite scanned_struct. auto.
      - assert (M := members_safe ms Hm (map (nameOverride i) (si_names i)) k found own p N S1 S3). destruct (x_members _ (map K ms) own k p) as [r|]; [|exact I].
        eapply leaves_in; [exact M|]. intros own' [H1 H2]. rewrite scanned_struct. auto. }
    split; [|split; [exact Fresh|split; [exact So|split; [exact Mono|exact Scan]]]].
    intros x p R. apply (map_safe _ _ (scanned (TStruct i ms ps))); auto.
  Qed.
  Theorem all_safe : forall t, safe_fun t.
  Proof.
    apply (ty_ind' safe_fun).
    - intro i. apply safe_simple; try reflexivity. intros. now apply value_safe.
    - apply safe_simple; try reflexivity. intros. now apply value_safe.
    - apply safe_simple; try reflexivity. intros. now apply value_safe.
    - intro l. apply safe_simple; try reflexivity. intros x p R. cbn [kdeser k_parse]. apply ready_sound in R. apply leaves_on; [exact R|]. intros [v p1].
      destruct v as [| | | | |[y|]|[y|]| |]; try now apply leaves_end. destruct (enum_value l s); now apply leaves_end.
    - intros co t IH. apply safe_simple; try reflexivity. intros x p R. cbn [kdeser k_parse]. apply (array_safe _ (fun _ => sound)); [auto| |now apply ready_sound].
      intros i y p1 Hy. destruct y as [| | | |l|l| |y| |o|own par|n y]; cbn [x_vec]; try now apply leaves_end.
      assert (G : leaves sound (let '(z, again, o) := k_parse (K t) (up (default t)) p1 in (match o with Ok _ => XList (x_add co l z) | _ => XList l end, again, o))).
      { assert (Q := proj1 IH (up (default t)) p1 (ready_default t)). destruct (k_parse (K t) (up (default t)) p1) as [[z again] o]. unfold leaves in *. cbn [fst snd] in *. intro O. specialize (Q O).
        destruct o; try exact Hy. rewrite sound_list in *. assert (Ga : forallb no_dangling (l ++ [z]) = true) by (rewrite forallb_app, Hy; cbn [forallb]; now rewrite Q).
        assert (Gi : forall f u, forallb no_dangling (insert_at f u z l) = true).
        { intros f u. rewrite forallb_forall in *. intros y Hn. apply insert_in in Hn as [->|Hn]; auto. }
        unfold x_add. destruct co; auto. }
      destruct co; try exact G. clear G.
      apply (leaves_in _ sound); [apply IH, ready_default|].
      intros y Hn. rewrite sound_list, forallb_app in *. cbn [forallb]. now rewrite Hy, Hn.
    - intros n t IH. apply safe_simple; try reflexivity. intros x p R. apply fixed_block; [|exact R]. induction n; constructor; auto. apply IH.
    - intros ts IH. apply safe_simple; try reflexivity. intros x p R. apply fixed_block; [|exact R]. clear -IH. induction IH as [|t ts Ht IH IHl]; constructor; auto. apply Ht.
    - intros fw t IH. assert (P := proj1 IH).
      assert (So : forall found x, scanned (TMap fw t) found x -> no_dangling x = true).
      { intros found x Sc. destruct x as [| | | |l|l| |y| |o|own par|n y]; try exact Sc. cbn [scanned] in Sc. rewrite Forall_forall in Sc.
        change (no_dangling (XMap l)) with (forallb (fun kv => no_dangling (snd kv)) l). apply forallb_forall. intros kv H. now apply Sc. }
      assert (Fresh : forall x, ready x = true -> scanned (TMap fw t) [] x).
      { intros x R. destruct x as [| | | |l|l| |y| |o|own par|n y]; try now apply ready_sound. cbn [scanned]. rewrite Forall_forall. intros kv H.
        assert (Q : ready (snd kv) = true). { unfold ready in *. destruct raw; [change (forallb (fun kv => all_null (snd kv)) l = true) in R|change (forallb (fun kv => no_dangling (snd kv)) l = true) in R]; rewrite forallb_forall in R; now apply R. }
        split; auto. now apply ready_sound. }
      assert (Mono : forall k found x, scanned (TMap fw t) found x -> scanned (TMap fw t) (k :: found) x).
      { intros k found x Sc. destruct x as [| | | |l|l| |y| |o|own par|n y]; try exact Sc. now apply entries_mono. }
      split; [|split; [exact Fresh|split; [exact So|split; [exact Mono|]]]].
      + intros x p R. cbn [kdeser k_parse]. apply (map_safe _ _ (scanned (TMap fw t))); auto. intros. now apply entry_safe.
      + intros. now apply entry_safe.
    - intros t IH. apply safe_simple; try reflexivity. intros x p R. apply pointer_safe; [exact R|]. intros y p1 _. apply (leaves_in _ sound); [apply IH, ready_default|]. auto.
    - intros t IH. apply safe_simple; try reflexivity. intros x p R. cbn [kdeser k_parse]. destruct x as [| | | |l|l| |y| |o|own par|n y]; try (apply leaves_end; now apply ready_sound).
      apply (leaves_in _ sound); [|auto]. apply IH. destruct o as [y|]; [|apply ready_default]. unfold ready in *. destruct raw; exact R.
    - intros i ms ps. apply struct_safe.
    - intros cs others IH. apply safe_simple; try reflexivity. intros x p R. apply pointer_safe; [exact R|]. intros y p1 Hy. apply leaves_on; [exact Hy|]. intros [c p2].
      destruct (find_class cs c) as [k|]; [|destruct (existsb (beq c) others); now apply leaves_end]. rewrite nth_error_map. destruct (nth_error cs k) as [tk|] eqn:E; [|now apply leaves_end].
      cbn [option_map]. rewrite Forall_forall in IH. apply (leaves_in _ sound); [apply (IH tk (nth_error_In _ _ E)), ready_default|auto].
    - intros cs IH. apply safe_simple; try reflexivity. intros x p R. apply leaves_on; [now apply ready_sound|]. intros [c p2].
      destruct (find_class cs c) as [k|]; [|apply leaves_on; [now apply ready_sound|]; intro; apply leaves_end; now apply ready_sound].
      rewrite nth_error_map. destruct (nth_error cs k) as [tk|] eqn:E; [|apply leaves_end; now apply ready_sound].
      cbn [option_map]. rewrite Forall_forall in IH. apply (leaves_in _ sound); [apply (IH tk (nth_error_In _ _ E)), ready_default|auto].
  Qed.
End Pointers.
