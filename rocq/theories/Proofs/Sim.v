(** Simulation between two parsers, lifted through the type directed reader. *)
From Coq Require Import ZArith List Bool.
From Verif Require Import Model.Base Model.Number Model.ParserInterface Model.Types Model.Deserializer Proofs.Induct.
Import ListNotations.
Open Scope Z_scope.

(** The second outcome follows the first one; nothing is said when the first is [Hang]. *)
Definition follows {A S1 S2} (R : S1 -> S2 -> Prop) (o1 : outcome (A * S1)) (o2 : outcome (A * S2)) : Prop :=
  match o1 with
  | Ok (a, s1) => exists s2, o2 = Ok (a, s2) /\ R s1 s2
  | Throw => o2 = Throw
  | UB => o2 = UB
  | Hang => True
  end.
Definition follows_ {S1 S2} (R : S1 -> S2 -> Prop) (o1 : outcome S1) (o2 : outcome S2) : Prop :=
  match o1 with
  | Ok s1 => exists s2, o2 = Ok s2 /\ R s1 s2
  | Throw => o2 = Throw
  | UB => o2 = UB
  | Hang => True
  end.

Record sim {S1 S2} (o1 : parser_ops S1) (o2 : parser_ops S2) (R : S1 -> S2 -> Prop) : Prop := mkSim {
  sim_next : forall a b, R a b -> follows R (op_next o1 a) (op_next o2 b);
  sim_key : forall a b, R a b -> follows R (op_key o1 a) (op_key o2 b);
  sim_int : forall i a b, R a b -> follows R (op_int o1 i a) (op_int o2 i b);
  sim_bool : forall a b, R a b -> follows R (op_bool o1 a) (op_bool o2 b);
  sim_str : forall a b, R a b -> follows R (op_str o1 a) (op_str o2 b);
  sim_null : forall a b, R a b -> op_null o1 a = op_null o2 b;
  sim_ignore : forall a b, R a b -> follows_ R (op_ignore o1 a) (op_ignore o2 b);
  sim_ignoreMap : forall f a b, R a b -> follows_ R (op_ignoreMap o1 f a) (op_ignoreMap o2 f b);
  sim_ignoreArr : forall f a b, R a b -> follows_ R (op_ignoreArr o1 f a) (op_ignoreArr o2 f b)
}.

Lemma follows_bind : forall {A B T1 T2 U1 U2} (Q : T1 -> T2 -> Prop) (Q' : U1 -> U2 -> Prop)
    (m1 : outcome (A * T1)) (m2 : outcome (A * T2))
    (k1 : A * T1 -> outcome (B * U1)) (k2 : A * T2 -> outcome (B * U2)),
  follows Q m1 m2 -> (forall a s1 s2, Q s1 s2 -> follows Q' (k1 (a, s1)) (k2 (a, s2))) ->
  follows Q' (bind m1 k1) (bind m2 k2).
Proof.
  intros A B T1 T2 U1 U2 Q Q' m1 m2 k1 k2 H K. unfold follows in H.
  destruct m1 as [[a s1]| | |]; cbn [bind]; try (exact I || reflexivity).
  - destruct H as (s2 & -> & HQ). cbn [bind]. now apply K.
  - subst m2. reflexivity.
  - subst m2. reflexivity.
Qed.
Lemma follows_bind_ : forall {B T1 T2 U1 U2} (Q : T1 -> T2 -> Prop) (Q' : U1 -> U2 -> Prop)
    (m1 : outcome T1) (m2 : outcome T2) (k1 : T1 -> outcome (B * U1)) (k2 : T2 -> outcome (B * U2)),
  follows_ Q m1 m2 -> (forall s1 s2, Q s1 s2 -> follows Q' (k1 s1) (k2 s2)) ->
  follows Q' (bind m1 k1) (bind m2 k2).
Proof.
  intros B T1 T2 U1 U2 Q Q' m1 m2 k1 k2 H K. unfold follows_ in H.
  destruct m1 as [s1| | |]; cbn [bind]; try (exact I || reflexivity).
  - destruct H as (s2 & -> & HQ). cbn [bind]. now apply K.
  - subst m2. reflexivity.
  - subst m2. reflexivity.
Qed.
Lemma follows__bind : forall {A T1 T2 U1 U2} (Q : T1 -> T2 -> Prop) (Q' : U1 -> U2 -> Prop)
    (m1 : outcome (A * T1)) (m2 : outcome (A * T2)) (k1 : A * T1 -> outcome U1) (k2 : A * T2 -> outcome U2),
  follows Q m1 m2 -> (forall a s1 s2, Q s1 s2 -> follows_ Q' (k1 (a, s1)) (k2 (a, s2))) ->
  follows_ Q' (bind m1 k1) (bind m2 k2).
Proof.
  intros A T1 T2 U1 U2 Q Q' m1 m2 k1 k2 H K. unfold follows in H.
  destruct m1 as [[a s1]| | |]; cbn [bind]; try (exact I || reflexivity).
  - destruct H as (s2 & -> & HQ). cbn [bind]. now apply K.
  - subst m2. reflexivity.
  - subst m2. reflexivity.
Qed.
Lemma follows__bind_ : forall {T1 T2 U1 U2} (Q : T1 -> T2 -> Prop) (Q' : U1 -> U2 -> Prop)
    (m1 : outcome T1) (m2 : outcome T2) (k1 : T1 -> outcome U1) (k2 : T2 -> outcome U2),
  follows_ Q m1 m2 -> (forall s1 s2, Q s1 s2 -> follows_ Q' (k1 s1) (k2 s2)) ->
  follows_ Q' (bind m1 k1) (bind m2 k2).
Proof.
  intros T1 T2 U1 U2 Q Q' m1 m2 k1 k2 H K. unfold follows_ in H.
  destruct m1 as [s1| | |]; cbn [bind]; try (exact I || reflexivity).
  - destruct H as (s2 & -> & HQ). cbn [bind]. now apply K.
  - subst m2. reflexivity.
  - subst m2. reflexivity.
Qed.

Lemma follows_ret : forall {A T1 T2} (Q : T1 -> T2 -> Prop) (a : A) s1 s2, Q s1 s2 ->
  follows Q (Ok (a, s1)) (Ok (a, s2)).
Proof. intros. eexists. split; [reflexivity|assumption]. Qed.
Lemma follows__ret : forall {T1 T2} (Q : T1 -> T2 -> Prop) s1 s2, Q s1 s2 -> follows_ Q (Ok s1) (Ok s2).
Proof. intros. eexists. split; [reflexivity|assumption]. Qed.

(** The same, the relation may also depend on the result. *)
Definition followsT {A S1 S2} (R : A -> S1 -> S2 -> Prop) (o1 : outcome (A * S1)) (o2 : outcome (A * S2)) : Prop :=
  match o1 with
  | Ok (a, s1) => exists s2, o2 = Ok (a, s2) /\ R a s1 s2
  | Throw => o2 = Throw
  | UB => o2 = UB
  | Hang => True
  end.
Lemma followsT_bind : forall {A B T1 T2 U1 U2} (Q : A -> T1 -> T2 -> Prop) (Q' : U1 -> U2 -> Prop)
    (m1 : outcome (A * T1)) (m2 : outcome (A * T2))
    (k1 : A * T1 -> outcome (B * U1)) (k2 : A * T2 -> outcome (B * U2)),
  followsT Q m1 m2 -> (forall a s1 s2, Q a s1 s2 -> follows Q' (k1 (a, s1)) (k2 (a, s2))) ->
  follows Q' (bind m1 k1) (bind m2 k2).
Proof.
  intros A B T1 T2 U1 U2 Q Q' m1 m2 k1 k2 H K. unfold followsT in H.
  destruct m1 as [[a s1]| | |]; cbn [bind]; try (exact I || reflexivity).
  - destruct H as (s2 & -> & HQ). cbn [bind]. now apply K.
  - subst m2. reflexivity.
  - subst m2. reflexivity.
Qed.

(** Simulation at the level of the parser with its push back slots.  The reader only ever pushes back the token it
    just got, or MapStart. *)
Record psim {S1 S2} (o1 : parser_ops S1) (o2 : parser_ops S2) (F : nat) (Rp : pst S1 -> pst S2 -> Prop) : Prop := mkPsim {
  ps_token : forall p q, Rp p q ->
    followsT (fun t p1 q1 => Rp p1 q1 /\ Rp (pushBackToken t p1) (pushBackToken t q1)) (getToken o1 p) (getToken o2 q);
  ps_mapstart : forall p q, Rp p q -> Rp (pushBackToken TokMapStart p) (pushBackToken TokMapStart q);
  ps_key : forall p q, Rp p q -> follows Rp (lift (op_key o1) p) (lift (op_key o2) q);
  ps_int : forall i p q, Rp p q -> follows Rp (lift (op_int o1 i) p) (lift (op_int o2 i) q);
  ps_bool : forall p q, Rp p q -> follows Rp (lift (op_bool o1) p) (lift (op_bool o2) q);
  ps_str : forall p q, Rp p q -> follows Rp (lift (op_str o1) p) (lift (op_str o2) q);
  ps_null : forall p q, Rp p q -> op_null o1 (ps_impl p) = op_null o2 (ps_impl q);
  ps_ignore : forall p q, Rp p q -> follows_ Rp (lift_ (op_ignore o1) p) (lift_ (op_ignore o2) q);
  ps_skip : forall p q, Rp p q -> follows_ Rp (lift_ (ign_value o1 F) p) (lift_ (ign_value o2 F) q)
}.

(** The same, where the order in which the reader works counts: [Rp] holds wherever a value may begin, perhaps with a token
    pushed back, [Rc t] after the token [t], [Re] after a key or a scalar. *)
Record dsim {S1 S2} (o1 : parser_ops S1) (o2 : parser_ops S2) (F : nat) (m : strictness) (Rp : pst S1 -> pst S2 -> Prop)
    (Rc : token -> pst S1 -> pst S2 -> Prop) (Re : pst S1 -> pst S2 -> Prop) : Prop := mkDsim {
  ds_token : forall p q, Rp p q -> followsT Rc (getToken o1 p) (getToken o2 q);
  ds_push : forall t p q, Rc t p q -> Rp (pushBackToken t p) (pushBackToken t q);
  ds_done : forall t p q, Rc t p q -> t <> TokError -> t <> TokDocEnd -> t <> TokKey -> t <> TokValue -> Rp p q;
  ds_begin : forall p q, Re p q -> Rp p q;
  ds_mapstart : forall p q, Re p q -> Rp (pushBackToken TokMapStart p) (pushBackToken TokMapStart q);
  ds_key : forall t p q, Rc t p q -> follows Re (lift (op_key o1) p) (lift (op_key o2) q);
  ds_int : forall i p q, Rc TokValue p q -> follows Re (lift (op_int o1 i) p) (lift (op_int o2 i) q);
  ds_bool : forall p q, Rc TokValue p q -> follows Re (lift (op_bool o1) p) (lift (op_bool o2) q);
  ds_str : forall p q, Rc TokValue p q -> follows Re (lift (op_str o1) p) (lift (op_str o2) q);
  ds_null : forall t p q, Rc t p q -> op_null o1 (ps_impl p) = op_null o2 (ps_impl q);
  ds_ignore : forall t p q, Rc t p q -> op_null o1 (ps_impl p) = true -> follows_ Rp (lift_ (op_ignore o1) p) (lift_ (op_ignore o2) q);
  ds_skip : forall p q, m = Weak -> Re p q -> follows_ Rp (lift_ (ign_value o1 F) p) (lift_ (ign_value o2 F) q);
  ds_skip_class : forall p q, m = Weak -> Re p q ->
    follows_ Rp (lift_ (ign_value o1 F) (pushBackToken TokMapStart p)) (lift_ (ign_value o2 F) (pushBackToken TokMapStart q))
}.
Lemma psim_dsim : forall {S1 S2} (o1 : parser_ops S1) (o2 : parser_ops S2) F m Rp, psim o1 o2 F Rp ->
  dsim o1 o2 F m Rp (fun t p q => Rp p q /\ Rp (pushBackToken t p) (pushBackToken t q)) Rp.
Proof.
  intros S1 S2 o1 o2 F m Rp H. constructor; intros; try match goal with H : _ /\ _ |- _ => destruct H end.
  - now apply (ps_token _ _ _ _ H).
  - assumption.
  - assumption.
  - assumption.
  - now apply (ps_mapstart _ _ _ _ H).
  - now apply (ps_key _ _ _ _ H).
  - now apply (ps_int _ _ _ _ H).
  - now apply (ps_bool _ _ _ _ H).
  - now apply (ps_str _ _ _ _ H).
  - now apply (ps_null _ _ _ _ H).
  - now apply (ps_ignore _ _ _ _ H).
  - now apply (ps_skip _ _ _ _ H).
  - now apply (ps_skip _ _ _ _ H), (ps_mapstart _ _ _ _ H).
Qed.

Section DLift.
  Context {S1 S2 : Type} (o1 : parser_ops S1) (o2 : parser_ops S2) (F : nat) (m : strictness) (Rp : pst S1 -> pst S2 -> Prop)
    (Rc : token -> pst S1 -> pst S2 -> Prop) (Re : pst S1 -> pst S2 -> Prop) (HS : dsim o1 o2 F m Rp Rc Re).
  Variable marker : bytes.

  Lemma dsim_ignoreValue : forall p q, Re p q -> follows_ Rp (ignoreValue o1 m F p) (ignoreValue o2 m F q).
  Proof.
    intros p q H. unfold ignoreValue. destruct m; try reflexivity. now apply (ds_skip _ _ _ _ _ _ _ HS).
  Qed.
  Lemma dsim_ignoreClass : forall p q, Re p q ->
    follows_ Rp (ignoreValue o1 m F (pushBackToken TokMapStart p)) (ignoreValue o2 m F (pushBackToken TokMapStart q)).
  Proof.
    intros p q H. unfold ignoreValue. destruct m; try reflexivity. now apply (ds_skip_class _ _ _ _ _ _ _ HS).
  Qed.

  Definition Rfun (f1 : val -> pst S1 -> outcome (val * pst S1)) (f2 : val -> pst S2 -> outcome (val * pst S2)) :=
    forall v p q, Rp p q -> follows Rp (f1 v p) (f2 v q).
  Definition Roption {A} (x : option (outcome (A * pst S1))) (y : option (outcome (A * pst S2))) :=
    match x, y with
    | Some a, Some b => follows Rp a b
    | None, None => True
    | _, _ => False
    end.
  Definition Rscan (f1 : bytes -> val -> pst S1 -> option (outcome (val * pst S1)))
                   (f2 : bytes -> val -> pst S2 -> option (outcome (val * pst S2))) :=
    forall k v p q, Rp p q -> @Roption val (f1 k v p) (f2 k v q).
  Definition Rd (d1 : dfun S1) (d2 : dfun S2) : Prop :=
    Rfun (d_parse d1) (d_parse d2) /\ Rscan (d_scan d1) (d_scan d2).

  Lemma dsim_read_value : forall {A} (f1 : S1 -> outcome (A * S1)) (f2 : S2 -> outcome (A * S2)) mk,
    (forall p q, Rc TokValue p q -> follows Re (lift f1 p) (lift f2 q)) ->
    forall p q, Rp p q -> follows Rp (read_value o1 f1 mk p) (read_value o2 f2 mk q).
  Proof.
    intros A f1 f2 mk H p q HR. unfold read_value.
    eapply followsT_bind; [apply (ds_token _ _ _ _ _ _ _ HS); exact HR|]. intros t s1 s2 HQ.
    destruct t; try reflexivity.
    eapply follows_bind; [apply H; exact HQ|]. intros. apply follows_ret. now apply (ds_begin _ _ _ _ _ _ _ HS).
  Qed.

  Lemma dsim_obj_loop : forall f1 f2, Rscan f1 f2 -> forall n v found p q, Rp p q ->
    follows Rp (obj_loop o1 F m n f1 v found p) (obj_loop o2 F m n f2 v found q).
  Proof.
    intros f1 f2 Hs. induction n as [|n IH]; intros v found p q HR; cbn [obj_loop]; [exact I|].
    eapply followsT_bind; [apply (ds_token _ _ _ _ _ _ _ HS); exact HR|]. intros t s1 s2 HQ.
    assert (Go : follows Rp
      (do (k, p0) <- lift (op_key o1) s1;
       match f1 k v p0 with
       | Some r => do (v', p1) <- r; obj_loop o1 F m n f1 v' (k :: found) p1
       | None => do p1 <- ignoreValue o1 m F p0; obj_loop o1 F m n f1 v found p1
       end)
      (do (k, p0) <- lift (op_key o2) s2;
       match f2 k v p0 with
       | Some r => do (v', p1) <- r; obj_loop o2 F m n f2 v' (k :: found) p1
       | None => do p1 <- ignoreValue o2 m F p0; obj_loop o2 F m n f2 v found p1
       end)).
    { eapply follows_bind; [eapply (ds_key _ _ _ _ _ _ _ HS); exact HQ|].
      intros k t1 t2 HT. specialize (Hs k v t1 t2 (ds_begin _ _ _ _ _ _ _ HS _ _ HT)). unfold Roption in Hs.
      destruct (f1 k v t1) as [r1|], (f2 k v t2) as [r2|]; try contradiction.
      - eapply follows_bind; [exact Hs|]. intros. now apply IH.
      - eapply follows_bind_; [apply dsim_ignoreValue; exact HT|]. intros. now apply IH. }
    destruct t; try exact Go. apply follows_ret. apply (ds_done _ _ _ _ _ _ _ HS _ _ _ HQ); discriminate.
  Qed.

  Lemma dsim_read_map : forall req f1 f2, Rscan f1 f2 ->
    Rfun (read_map o1 F m req f1) (read_map o2 F m req f2).
  Proof.
    intros req f1 f2 Hs v p q HR. unfold read_map.
    eapply followsT_bind; [apply (ds_token _ _ _ _ _ _ _ HS); exact HR|]. intros t s1 s2 HQ.
    destruct t; try reflexivity.
    eapply follows_bind; [apply dsim_obj_loop; [eassumption|apply (ds_done _ _ _ _ _ _ _ HS _ _ _ HQ); discriminate]|].
    intros [v' found] t1 t2 HT.
    destruct m; try (now apply follows_ret).
    destruct (forallb _ req); [now apply follows_ret|reflexivity].
  Qed.

  Lemma dsim_arr_loop : forall e1 e2, (forall i, Rfun (e1 i) (e2 i)) -> forall n i v p q, Rp p q ->
    follows Rp (arr_loop o1 n e1 i v p) (arr_loop o2 n e2 i v q).
  Proof.
    intros e1 e2 He. induction n as [|n IH]; intros i v p q HR; cbn [arr_loop]; [exact I|].
    eapply followsT_bind; [apply (ds_token _ _ _ _ _ _ _ HS); exact HR|]. intros t s1 s2 HQ.
    destruct t; try (eapply follows_bind; [apply He; exact (ds_push _ _ _ _ _ _ _ HS _ _ _ HQ)|]; intros; now apply IH).
    apply follows_ret. apply (ds_done _ _ _ _ _ _ _ HS _ _ _ HQ); discriminate.
  Qed.

  Lemma dsim_read_array : forall e1 e2, (forall i, Rfun (e1 i) (e2 i)) ->
    Rfun (read_array o1 F e1) (read_array o2 F e2).
  Proof.
    intros e1 e2 He v p q HR. unfold read_array.
    eapply followsT_bind; [apply (ds_token _ _ _ _ _ _ _ HS); exact HR|]. intros t s1 s2 HQ.
    destruct t; try reflexivity. apply dsim_arr_loop; [exact He|apply (ds_done _ _ _ _ _ _ _ HS _ _ _ HQ); discriminate].
  Qed.

  Lemma dsim_elem_vec : forall co d1 d2 dflt, Rd d1 d2 -> forall i, Rfun (elem_vec co d1 dflt i) (elem_vec co d2 dflt i).
  Proof.
    intros co d1 d2 dflt [Hp _] i v p q HR. unfold elem_vec. destruct v; try (exact I || reflexivity).
    eapply follows_bind; [apply Hp; exact HR|]. intros. now apply follows_ret.
  Qed.

  Lemma Forall2_nth : forall {A B} (Q : A -> B -> Prop) l1 l2, Forall2 Q l1 l2 -> forall i,
    match nth_error l1 i, nth_error l2 i with
    | Some a, Some b => Q a b
    | None, None => True
    | _, _ => False
    end.
  Proof.
    intros A B Q l1 l2 H. induction H; intros [|i]; cbn; auto. apply IHForall2.
  Qed.

  Lemma dsim_elem_fixed : forall ds1 ds2, Forall2 Rd ds1 ds2 ->
    forall i, Rfun (elem_fixed ds1 i) (elem_fixed ds2 i).
  Proof.
    intros ds1 ds2 H i v p q HR. unfold elem_fixed. destruct v; try (exact I || reflexivity).
    assert (N := Forall2_nth _ _ _ H i).
    destruct (nth_error ds1 i) as [d1|], (nth_error ds2 i) as [d2|]; try contradiction; try (exact I || reflexivity).
    destruct (nth_error l i); [|exact I || reflexivity].
    eapply follows_bind; [apply (proj1 N); exact HR|]. intros. now apply follows_ret.
  Qed.

  Lemma dsim_scan_map : forall fw d1 d2 dflt, Rd d1 d2 -> Rscan (scan_map fw d1 dflt) (scan_map fw d2 dflt).
  Proof.
    intros fw d1 d2 dflt [Hp _] k v p q HR. unfold scan_map. destruct v; try (exact I || reflexivity).
    destruct fw; cbn [Roption]; (eapply follows_bind; [apply Hp; exact HR|]); intros; now apply follows_ret.
  Qed.

  Lemma dsim_scan_members : forall ns ds1 ds2, Forall2 Rd ds1 ds2 -> forall vs k p q, Rp p q ->
    Roption (scan_members ns ds1 vs k p) (scan_members ns ds2 vs k q).
  Proof.
    induction ns as [|n ns IH]; intros ds1 ds2 H vs k p q HR; destruct H as [|d1 d2 ds1 ds2 Hd H];
      destruct vs as [|v vs]; cbn [scan_members]; try (exact I || reflexivity).
    destruct (beq k n).
    - cbn [Roption]. eapply follows_bind; [apply (proj1 Hd); exact HR|]. intros. now apply follows_ret.
    - specialize (IH ds1 ds2 H vs k p q HR).
      destruct (scan_members ns ds1 vs k p), (scan_members ns ds2 vs k q); try contradiction; [|exact I || reflexivity].
      cbn [Roption] in *. eapply follows_bind; [exact IH|]. intros. now apply follows_ret.
  Qed.

  Lemma dsim_scan_parents : forall ds1 ds2, Forall2 Rd ds1 ds2 -> forall vs k p q, Rp p q ->
    Roption (scan_parents ds1 vs k p) (scan_parents ds2 vs k q).
  Proof.
    intros ds1 ds2 H. induction H as [|d1 d2 ds1 ds2 Hd H IH]; intros vs k p q HR;
      destruct vs as [|v vs]; cbn [scan_parents]; try (exact I || reflexivity).
    assert (Hs := proj2 Hd k v p q HR). unfold Roption in Hs.
    destruct (d_scan d1 k v p), (d_scan d2 k v q); try contradiction.
    - cbn [Roption]. eapply follows_bind; [exact Hs|]. intros. now apply follows_ret.
    - specialize (IH vs k p q HR).
      destruct (scan_parents ds1 vs k p), (scan_parents ds2 vs k q); try contradiction; [|exact I || reflexivity].
      cbn [Roption] in *. eapply follows_bind; [exact IH|]. intros. now apply follows_ret.
  Qed.

  Lemma dsim_scan_struct : forall i dm1 dm2 dp1 dp2, Forall2 Rd dm1 dm2 -> Forall2 Rd dp1 dp2 ->
    Rscan (scan_struct i dm1 dp1) (scan_struct i dm2 dp2).
  Proof.
    intros i dm1 dm2 dp1 dp2 Hm Hp k v p q HR. unfold scan_struct. destruct v; try (exact I || reflexivity).
    assert (P := dsim_scan_parents _ _ Hp parents k p q HR).
    destruct (scan_parents dp1 parents k p), (scan_parents dp2 parents k q); try contradiction.
    - cbn [Roption] in *. eapply follows_bind; [exact P|]. intros. now apply follows_ret.
    - assert (M := dsim_scan_members (map (nameOverride i) (si_names i)) _ _ Hm own k p q HR).
      destruct (scan_members _ dm1 own k p), (scan_members _ dm2 own k q); try contradiction; [|exact I || reflexivity].
      cbn [Roption] in *. eapply follows_bind; [exact M|]. intros. now apply follows_ret.
  Qed.

  Definition Rm (p : pst S1) (q : pst S2) : Prop :=
    exists p0 q0, Re p0 q0 /\ p = pushBackToken TokMapStart p0 /\ q = pushBackToken TokMapStart q0.
  Lemma dsim_class_name : forall p q, Rp p q -> follows Rm (read_class_name o1 marker p) (read_class_name o2 marker q).
  Proof.
    intros p q HR. unfold read_class_name.
    eapply followsT_bind; [apply (ds_token _ _ _ _ _ _ _ HS); exact HR|]. intros t s1 s2 HQ.
    destruct t; try reflexivity. apply (ds_done _ _ _ _ _ _ _ HS) in HQ; try discriminate.
    eapply followsT_bind; [apply (ds_token _ _ _ _ _ _ _ HS); exact HQ|]. intros t t1 t2 HT.
    destruct t; try reflexivity.
    eapply follows_bind; [eapply (ds_key _ _ _ _ _ _ _ HS); exact HT|]. intros k u1 u2 HU. apply (ds_begin _ _ _ _ _ _ _ HS) in HU.
    destruct (beq k marker); [|reflexivity].
    eapply followsT_bind; [apply (ds_token _ _ _ _ _ _ _ HS); exact HU|]. intros t w1 w2 HW.
    destruct t; try reflexivity.
    eapply follows_bind; [apply (ds_str _ _ _ _ _ _ _ HS); exact HW|]. intros c x1 x2 HX.
    apply follows_ret. exists x1, x2. auto.
  Qed.
  Lemma Rm_begin : forall p q, Rm p q -> Rp p q.
  Proof. intros p q (p0 & q0 & H & -> & ->). now apply (ds_mapstart _ _ _ _ _ _ _ HS). Qed.

  Lemma dsim_read_pointer : forall r1 r2, (forall p q, Rp p q -> follows Rp (r1 p) (r2 q)) ->
    forall p q, Rp p q -> follows Rp (read_pointer o1 r1 p) (read_pointer o2 r2 q).
  Proof.
    intros r1 r2 Hr p q HR. unfold read_pointer.
    eapply followsT_bind; [apply (ds_token _ _ _ _ _ _ _ HS); exact HR|]. intros t s1 s2 HQ.
    assert (N := ds_null _ _ _ _ _ _ _ HS _ _ _ HQ). rewrite N.
    destruct (op_null o2 (ps_impl s2)).
    - eapply follows_bind_; [eapply (ds_ignore _ _ _ _ _ _ _ HS); [exact HQ|exact N]|]. intros. now apply follows_ret.
    - apply Hr. exact (ds_push _ _ _ _ _ _ _ HS _ _ _ HQ).
  Qed.

  Lemma Forall2_map : forall {A B C} (Q : B -> C -> Prop) (f : A -> B) (g : A -> C) l,
    Forall (fun x => Q (f x) (g x)) l -> Forall2 Q (map f l) (map g l).
  Proof. intros A B C Q f g l H. induction H; cbn; constructor; auto. Qed.
  Lemma Forall2_repeat : forall {B C} (Q : B -> C -> Prop) b c n, Q b c -> Forall2 Q (repeat b n) (repeat c n).
  Proof. intros B C Q b c n H. induction n; cbn; constructor; auto. Qed.

  Theorem dsim_deser : forall t, Rd (deser o1 F m marker t) (deser o2 F m marker t).
  Proof.
    assert (Noscan : Rscan (fun _ _ _ => Some UB) (fun _ _ _ => Some UB)) by (intros ? ? ? ? ?; reflexivity).
    apply ty_ind'; intros; cbn [deser].
    - split; [|exact Noscan]. intros v p q HR. apply dsim_read_value; [apply (ds_int _ _ _ _ _ _ _ HS)|exact HR].
    - split; [|exact Noscan]. intros v p q HR. apply dsim_read_value; [apply (ds_bool _ _ _ _ _ _ _ HS)|exact HR].
    - split; [|exact Noscan]. intros v p q HR. apply dsim_read_value; [apply (ds_str _ _ _ _ _ _ _ HS)|exact HR].
    - split; [|exact Noscan]. intros v p q HR. cbn [d_parse].
      eapply follows_bind; [apply dsim_read_value; [apply (ds_str _ _ _ _ _ _ _ HS)|exact HR]|].
      intros a s1 s2 HQ. destruct a; try (exact I || reflexivity). destruct (enum_value l s); [now apply follows_ret|reflexivity].
    - split; [|exact Noscan]. apply dsim_read_array. now apply dsim_elem_vec.
    - split; [|exact Noscan]. apply dsim_read_array. apply dsim_elem_fixed. now apply Forall2_repeat.
    - split; [|exact Noscan]. apply dsim_read_array. apply dsim_elem_fixed. now apply Forall2_map.
    - assert (Hsc : Rscan (scan_map b (deser o1 F m marker t) (default t)) (scan_map b (deser o2 F m marker t) (default t)))
        by now apply dsim_scan_map.
      split; [|exact Hsc]. now apply dsim_read_map.
    - split; [|exact Noscan]. intros v p q HR. cbn [d_parse]. apply dsim_read_pointer; [|exact HR].
      intros p' q' HR'. eapply follows_bind; [apply (proj1 H); exact HR'|]. intros. now apply follows_ret.
    - split; [|exact Noscan]. intros v p q HR. cbn [d_parse]. destruct v; try (exact I || reflexivity).
      eapply follows_bind; [apply (proj1 H); exact HR|]. intros. now apply follows_ret.
    - assert (Hsc : Rscan (scan_struct i (map (deser o1 F m marker) ms) (map (deser o1 F m marker) ps))
                          (scan_struct i (map (deser o2 F m marker) ms) (map (deser o2 F m marker) ps))).
      { apply dsim_scan_struct; now apply Forall2_map. }
      split; [|exact Hsc]. now apply dsim_read_map.
    - split; [|exact Noscan]. intros v p q HR. cbn [d_parse]. apply dsim_read_pointer; [|exact HR].
      intros p' q' HR'. eapply follows_bind; [apply dsim_class_name; exact HR'|]. intros c s1 s2 HQ.
      destruct (find_class cs c) as [k|]; [|destruct (existsb (beq c) o); [reflexivity|reflexivity]].
      destruct (nth_error cs k) as [tk|]; [|exact I || reflexivity].
      assert (N := Forall2_nth Rd _ _ (Forall2_map Rd _ _ _ H) k).
      destruct (nth_error (map (deser o1 F m marker) cs) k), (nth_error (map (deser o2 F m marker) cs) k);
        try contradiction; [|exact I || reflexivity].
      eapply follows_bind; [apply (proj1 N), Rm_begin; exact HQ|]. intros. now apply follows_ret.
    - split; [|exact Noscan]. intros v p q HR. cbn [d_parse].
      eapply follows_bind; [apply dsim_class_name; exact HR|]. intros c s1 s2 HQ.
      destruct (find_class cs c) as [k|].
      2:{ destruct HQ as (p0 & q0 & HE & -> & ->). eapply follows_bind_; [apply dsim_ignoreClass; exact HE|]. intros. now apply follows_ret. }
      destruct (nth_error cs k) as [tk|]; [|exact I || reflexivity].
      assert (N := Forall2_nth Rd _ _ (Forall2_map Rd _ _ _ H) k).
      destruct (nth_error (map (deser o1 F m marker) cs) k), (nth_error (map (deser o2 F m marker) cs) k);
        try contradiction; [|exact I || reflexivity].
      eapply follows_bind; [apply (proj1 N), Rm_begin; exact HQ|]. intros. now apply follows_ret.
  Qed.

End DLift.

Section PLift.
  Context {S1 S2 : Type} (o1 : parser_ops S1) (o2 : parser_ops S2) (F : nat) (Rp : pst S1 -> pst S2 -> Prop)
    (HS : psim o1 o2 F Rp).
  Variables (m : strictness) (marker : bytes).
  Theorem psim_deser : forall t, Rd Rp (deser o1 F m marker t) (deser o2 F m marker t).
  Proof. exact (dsim_deser o1 o2 F m Rp _ _ (psim_dsim _ _ _ _ _ HS) marker). Qed.
End PLift.

Section Lift.
  Context {S1 S2 : Type} (o1 : parser_ops S1) (o2 : parser_ops S2) (R : S1 -> S2 -> Prop) (HS : sim o1 o2 R).

  Definition Rp (p : pst S1) (q : pst S2) : Prop :=
    R (ps_impl p) (ps_impl q) /\ ps_pb1 p = ps_pb1 q /\ ps_pb2 p = ps_pb2 q.

  Lemma sim_lift : forall {A} (f1 : S1 -> outcome (A * S1)) (f2 : S2 -> outcome (A * S2)),
    (forall a b, R a b -> follows R (f1 a) (f2 b)) ->
    forall p q, Rp p q -> follows Rp (lift f1 p) (lift f2 q).
  Proof.
    intros A f1 f2 H p q (HR & E1 & E2). unfold lift.
    eapply follows_bind; [apply H; exact HR|]. intros a s1 s2 HQ. apply follows_ret.
    rewrite E1, E2. now split.
  Qed.
  Lemma sim_lift_ : forall (f1 : S1 -> outcome S1) (f2 : S2 -> outcome S2),
    (forall a b, R a b -> follows_ R (f1 a) (f2 b)) ->
    forall p q, Rp p q -> follows_ Rp (lift_ f1 p) (lift_ f2 q).
  Proof.
    intros f1 f2 H p q (HR & E1 & E2). unfold lift_.
    eapply follows__bind_; [apply H; exact HR|]. intros s1 s2 HQ. apply follows__ret.
    rewrite E1, E2. now split.
  Qed.

  Lemma sim_getToken : forall p q, Rp p q -> follows Rp (getToken o1 p) (getToken o2 q).
  Proof.
    intros p q H. assert (H' := H). destruct H' as (HR & E1 & E2). unfold getToken. rewrite E1, E2.
    destruct (negb (token_eqb (ps_pb2 q) TokError)); [apply follows_ret; now split|].
    destruct (negb (token_eqb (ps_pb1 q) TokError)); [apply follows_ret; now split|].
    apply sim_lift; [apply (sim_next _ _ _ HS)|exact H].
  Qed.
  Lemma sim_pushBack : forall t p q, Rp p q -> Rp (pushBackToken t p) (pushBackToken t q).
  Proof.
    intros t p q H. assert (H' := H). destruct H' as (HR & E1 & E2). unfold pushBackToken. rewrite E1, E2.
    destruct (token_eqb (ps_pb1 q) TokError); [now split|].
    destruct (token_eqb (ps_pb2 q) TokError); [now split|exact H].
  Qed.

  Lemma sim_ign : forall f,
    (forall a b, R a b -> follows_ R (ign_value o1 f a) (ign_value o2 f b)) /\
    (forall a b, R a b -> follows_ R (ign_map o1 f a) (ign_map o2 f b)) /\
    (forall a b, R a b -> follows_ R (ign_arr o1 f a) (ign_arr o2 f b)).
  Proof.
    induction f as [|f (IV & IM & IA)]; [repeat split; intros; exact I|].
    repeat split; intros a b H; cbn [ign_value ign_map ign_arr];
      (eapply follows__bind; [apply (sim_next _ _ _ HS); exact H|]); intros t s1 s2 HQ.
    - destruct t; try reflexivity.
      + eapply follows__bind_; [apply (sim_ignoreMap _ _ _ HS); exact HQ|]. intros. now apply IM.
      + eapply follows__bind_; [apply (sim_ignoreArr _ _ _ HS); exact HQ|]. intros. now apply IA.
      + now apply (sim_ignore _ _ _ HS).
    - destruct t; try (eapply follows__bind_; [apply (sim_ignore _ _ _ HS); exact HQ|]; intros; reflexivity).
      + now apply (sim_ignoreMap _ _ _ HS).
      + eapply follows__bind_; [apply (sim_ignore _ _ _ HS); exact HQ|]. intros.
        eapply follows__bind_; [apply IV; eassumption|]. intros. now apply IM.
    - destruct t; try reflexivity.
      + eapply follows__bind_; [apply (sim_ignoreMap _ _ _ HS); exact HQ|]. intros.
        eapply follows__bind_; [apply IM; eassumption|]. intros. now apply IA.
      + eapply follows__bind_; [apply (sim_ignoreArr _ _ _ HS); exact HQ|]. intros.
        eapply follows__bind_; [apply IA; eassumption|]. intros. now apply IA.
      + now apply (sim_ignoreArr _ _ _ HS).
      + eapply follows__bind_; [apply (sim_ignore _ _ _ HS); exact HQ|]. intros. now apply IA.
  Qed.

  Lemma sim_psim : forall F, psim o1 o2 F Rp.
  Proof.
    intro F. constructor.
    - intros p q H. assert (G := sim_getToken p q H). destruct (getToken o1 p) as [[t p1]| | |]; try exact G.
      destruct G as (q1 & -> & HQ). exists q1. split; [reflexivity|]. split; [exact HQ|now apply sim_pushBack].
    - intros. now apply sim_pushBack.
    - apply sim_lift, (sim_key _ _ _ HS).
    - intro i. apply sim_lift, (sim_int _ _ _ HS).
    - apply sim_lift, (sim_bool _ _ _ HS).
    - apply sim_lift, (sim_str _ _ _ HS).
    - intros p q H. apply (sim_null _ _ _ HS), H.
    - apply sim_lift_, (sim_ignore _ _ _ HS).
    - apply sim_lift_, sim_ign.
  Qed.

  Variables (F : nat) (m : strictness) (marker : bytes).
  Theorem sim_deser : forall t, Rd Rp (deser o1 F m marker t) (deser o2 F m marker t).
  Proof. exact (psim_deser o1 o2 F Rp (sim_psim F) m marker). Qed.
End Lift.
