(** Every import ends if tokens and values move forward and no container that grows has elements that can be null. *)
From Coq Require Import ZArith List Bool Lia ZifyBool.
From Verif Require Import Model.Base Model.Types Model.ParserInterface Model.Deserializer Spec.Ends Proofs.Induct.
Import ListNotations.
Open Scope nat_scope.

(** The run does not go on forever, and a result satisfies [Q]. *)
Definition runs {A} (Q : A -> Prop) (r : outcome A) : Prop := match r with Ok a => Q a | Hang => False | _ => True end.
Lemma runs_bind : forall {A B} (Q' : A -> Prop) (Q : B -> Prop) (x : outcome A) (k : A -> outcome B), runs Q' x -> (forall a, Q' a -> runs Q (k a)) -> runs Q (bind x k).
Proof. intros A B Q' Q [a| | |] k H K; cbn in *; auto. Qed.
Lemma runs_weak : forall {A} (Q' Q : A -> Prop) x, runs Q' x -> (forall a, Q' a -> Q a) -> runs Q x.
Proof. intros A Q' Q [a| | |] H K; cbn in *; auto. Qed.

Definition tms (t : token) : nat := match t with TokMapStart | TokArrayStart => 1 | _ => 0 end.

Section Ends.
  Context {St : Type} (ops : parser_ops St) (F : nat) (m : strictness) (marker : bytes).
  Variables (mu : St -> nat) (inv ready : St -> Prop).
  Hypothesis H_next : forall s, inv s -> runs (fun r => inv (snd r) /\ mu (snd r) + tms (fst r) <= mu s /\ (fst r = TokValue \/ fst r = TokKey -> ready (snd r))) (op_next ops s).
  Hypothesis H_key : forall s, inv s -> runs (fun r => inv (snd r) /\ mu (snd r) < mu s) (op_key ops s).
  Hypothesis H_int : forall i s, inv s -> ready s -> runs (fun r => inv (snd r) /\ mu (snd r) < mu s) (op_int ops i s).
  Hypothesis H_bool : forall s, inv s -> ready s -> runs (fun r => inv (snd r) /\ mu (snd r) < mu s) (op_bool ops s).
  Hypothesis H_str : forall s, inv s -> ready s -> runs (fun r => inv (snd r) /\ mu (snd r) < mu s) (op_str ops s).
  Hypothesis H_ign : forall s, inv s -> runs (fun s' => inv s' /\ mu s' <= mu s /\ (ready s -> mu s' < mu s)) (op_ignore ops s).
  Hypothesis H_map : forall b s, inv s -> runs (fun s' => inv s' /\ mu s' <= mu s) (op_ignoreMap ops b s).
  Hypothesis H_arr : forall b s, inv s -> runs (fun s' => inv s' /\ mu s' <= mu s) (op_ignoreArr ops b s).

  (** ** Skipping *)
  Lemma ign_runs : forall f s, inv s -> mu s < f ->
    runs (fun s' => inv s' /\ mu s' <= mu s) (ign_value ops f s) /\ runs (fun s' => inv s' /\ mu s' <= mu s) (ign_map ops f s) /\ runs (fun s' => inv s' /\ mu s' <= mu s) (ign_arr ops f s).
  Proof.
    induction f as [|f IH]; intros s I L; [lia|].
    assert (W : forall (r : outcome St) s1, mu s1 <= mu s -> runs (fun s' => inv s' /\ mu s' <= mu s1) r -> runs (fun s' => inv s' /\ mu s' <= mu s) r).
    { intros r s1 L1 H. eapply runs_weak; [exact H|]. intros a [A B]. split; [exact A|lia]. }
    split; [|split].
    - cbn [ign_value]. eapply runs_bind; [exact (H_next s I)|]. intros [t s1] (I1 & L1 & R1). cbn [fst snd] in *. destruct t; try exact Logic.I; cbn [tms] in L1.
      + eapply runs_bind; [exact (H_map true s1 I1)|]. intros s2 [I2 L2]. apply (W _ s2); [lia|]. apply IH; [exact I2|lia].
      + eapply runs_bind; [exact (H_arr true s1 I1)|]. intros s2 [I2 L2]. apply (W _ s2); [lia|]. apply IH; [exact I2|lia].
      + eapply runs_weak; [exact (H_ign s1 I1)|]. intros s2 (I2 & L2 & _). split; [exact I2|lia].
    - cbn [ign_map]. eapply runs_bind; [exact (H_next s I)|]. intros [t s1] (I1 & L1 & R1). cbn [fst snd] in *.
      assert (G : t <> TokMapEnd -> runs (fun s' => inv s' /\ mu s' <= mu s) (do s0 <- op_ignore ops s1; match t with TokKey => do s2 <- ign_value ops f s0; ign_map ops f s2 | _ => Throw end)).
      { intros _. eapply runs_bind; [exact (H_ign s1 I1)|]. intros s2 (I2 & L2 & P2). destruct t; try exact Logic.I. specialize (P2 (R1 (or_intror eq_refl))).
        eapply runs_bind; [apply (IH s2 I2); lia|]. intros s3 [I3 L3]. apply (W _ s3); [lia|]. apply (IH s3 I3). lia. }
      destruct t; try (apply G; discriminate). eapply runs_weak; [exact (H_map false s1 I1)|]. intros s2 [I2 L2]. split; [exact I2|lia].
    - cbn [ign_arr]. eapply runs_bind; [exact (H_next s I)|]. intros [t s1] (I1 & L1 & R1). cbn [fst snd] in *. destruct t; try exact Logic.I; cbn [tms] in L1.
      + eapply runs_bind; [exact (H_map true s1 I1)|]. intros s2 [I2 L2]. eapply runs_bind; [apply (IH s2 I2); lia|]. intros s3 [I3 L3]. apply (W _ s3); [lia|]. apply (IH s3 I3). lia.
      + eapply runs_bind; [exact (H_arr true s1 I1)|]. intros s2 [I2 L2]. eapply runs_bind; [apply (IH s2 I2); lia|]. intros s3 [I3 L3]. apply (W _ s3); [lia|]. apply (IH s3 I3). lia.
      + eapply runs_weak; [exact (H_arr false s1 I1)|]. intros s2 [I2 L2]. split; [exact I2|lia].
      + eapply runs_bind; [exact (H_ign s1 I1)|]. intros s2 (I2 & L2 & P2). specialize (P2 (R1 (or_introl eq_refl))). apply (W _ s2); [lia|]. apply (IH s2 I2). lia.
  Qed.

  (** ** Tokens *)
  Definition Mu (p : pst St) : nat := mu (ps_impl p) + tms (ps_pb1 p) + tms (ps_pb2 p).
  (** Between two operations no value waits in the push back slots; directly after a token was taken the second slot is empty as well. *)
  Definition quiet (p : pst St) : Prop := inv (ps_impl p) /\ ps_pb1 p <> TokValue /\ ps_pb2 p <> TokValue.
  Definition taken (p : pst St) : Prop := inv (ps_impl p) /\ ps_pb1 p <> TokValue /\ ps_pb2 p = TokError.
  Definition fair (p : pst St) : Prop := inv (ps_impl p) /\ (ps_pb1 p = TokValue -> ready (ps_impl p) /\ ps_pb2 p = TokError) /\ (ps_pb2 p = TokValue -> ready (ps_impl p)).
  Lemma quiet_fair : forall p, quiet p -> fair p.
  Proof. intros p (A & B & C). split; [exact A|]. split; congruence. Qed.
  Lemma taken_quiet : forall p, taken p -> quiet p.
  Proof. intros p (A & B & C). split; [exact A|]. split; congruence. Qed.

  Lemma getToken_runs : forall p, fair p -> runs (fun r => taken (snd r) /\ Mu (snd r) + tms (fst r) <= Mu p /\ (fst r = TokValue -> ready (ps_impl (snd r)))) (getToken ops p).
  Proof.
    intros [s b1 b2] (I & R1 & R2). cbn [ps_impl ps_pb1 ps_pb2] in *. unfold getToken. cbn [ps_pb2 ps_pb1 ps_impl].
    destruct (token_eqb b2 TokError) eqn:E2; cbn [negb].
    - assert (b2 = TokError) by (destruct b2; first [reflexivity|discriminate E2]). subst b2. destruct (token_eqb b1 TokError) eqn:E1; cbn [negb].
      + assert (b1 = TokError) by (destruct b1; first [reflexivity|discriminate E1]). subst b1.
        unfold lift. cbn [ps_impl ps_pb1 ps_pb2]. eapply runs_bind; [exact (H_next s I)|]. intros [t s1] (I1 & L1 & Rd). cbn [fst snd] in *. cbn [runs fst snd].
        split; [repeat split; [exact I1|discriminate]|]. unfold Mu. cbn [ps_impl ps_pb1 ps_pb2 tms]. split; [lia|tauto].
      + cbn [runs fst snd]. split; [repeat split; [exact I|discriminate]|]. unfold Mu. cbn [ps_impl ps_pb1 ps_pb2 tms]. split; [lia|tauto].
    - cbn [runs fst snd]. assert (N : b2 <> TokError) by (intro; subst b2; discriminate E2).
      split; [split; [exact I|split; [cbn [ps_pb1]; intro Q; now destruct (R1 Q)|reflexivity]]|]. unfold Mu. cbn [ps_impl ps_pb1 ps_pb2 tms]. split; [lia|exact R2].
  Qed.
  Lemma push_fair : forall t p, taken p -> (t = TokValue -> ready (ps_impl p)) -> fair (pushBackToken t p) /\ Mu (pushBackToken t p) = Mu p + tms t.
  Proof.
    intros t [s b1 b2] (I & B1 & B2) R. cbn [ps_impl ps_pb1 ps_pb2] in *. subst b2. unfold pushBackToken. cbn [ps_pb1 ps_impl ps_pb2].
    destruct (token_eqb b1 TokError) eqn:E1.
    - assert (b1 = TokError) by (destruct b1; first [reflexivity|discriminate E1]). subst b1. split; [split; [exact I|cbn [ps_pb1 ps_pb2 ps_impl]; split; [auto|discriminate]]|]. unfold Mu. cbn. lia.
    - cbn [token_eqb]. split; [split; [exact I|cbn [ps_pb1 ps_pb2 ps_impl]; split; [congruence|exact R]]|]. unfold Mu. cbn. lia.
  Qed.
  Lemma push_quiet : forall t p, taken p -> t <> TokValue -> quiet (pushBackToken t p).
  Proof.
    intros t [s b1 b2] (I & B1 & B2) R. cbn [ps_impl ps_pb1 ps_pb2] in *. subst b2. unfold pushBackToken. cbn [ps_pb1 ps_impl ps_pb2].
    destruct (token_eqb b1 TokError); cbn [token_eqb]; (split; [exact I|cbn [ps_pb1 ps_pb2]; split; [assumption|first [discriminate|assumption]]]).
  Qed.
  Lemma lift_runs : forall {A} (f : St -> outcome (A * St)) p, taken p -> runs (fun r => inv (snd r) /\ mu (snd r) < mu (ps_impl p)) (f (ps_impl p)) ->
    runs (fun r => taken (snd r) /\ Mu (snd r) < Mu p) (lift f p).
  Proof.
    intros A f [s b1 b2] (I & B1 & B2) H. cbn [ps_impl ps_pb1 ps_pb2] in *. subst. unfold lift. cbn [ps_impl ps_pb1 ps_pb2]. eapply runs_bind; [exact H|]. intros [a s1] [I1 L1]. cbn [fst snd] in *. cbn [runs snd].
    split; [split; [exact I1|now split]|]. unfold Mu. cbn [ps_impl ps_pb1 ps_pb2 tms]. lia.
  Qed.
  Lemma lift__runs : forall (f : St -> outcome St) p, quiet p -> runs (fun s' => inv s' /\ mu s' <= mu (ps_impl p)) (f (ps_impl p)) -> runs (fun p' => quiet p' /\ Mu p' <= Mu p) (lift_ f p).
  Proof.
    intros f [s b1 b2] (I & B1 & B2) H. cbn [ps_impl ps_pb1 ps_pb2] in *. unfold lift_. cbn [ps_impl ps_pb1 ps_pb2]. eapply runs_bind; [exact H|]. intros s1 [I1 L1]. cbn [runs].
    split; [split; [exact I1|now split]|]. unfold Mu. cbn [ps_impl ps_pb1 ps_pb2 tms]. lia.
  Qed.
  Lemma skip_runs : forall p, quiet p -> Mu p < F -> runs (fun p' => quiet p' /\ Mu p' <= Mu p) (ignoreValue ops m F p).
  Proof. intros p Q L. unfold ignoreValue. destruct m; try exact Logic.I. apply lift__runs; [exact Q|]. apply ign_runs; [apply Q|unfold Mu in L; lia]. Qed.

  (** ** Readers *)
  Definition post (strict : bool) (p : pst St) (r : val * pst St) : Prop := quiet (snd r) /\ Mu (snd r) <= Mu p /\ (strict = true -> Mu (snd r) < Mu p).
  Definition scans (r : option (outcome (val * pst St))) (p : pst St) : Prop := match r with Some r => runs (post false p) r | None => True end.
  Lemma post_weak : forall b p p0 r, post b p r -> Mu p <= Mu p0 -> post b p0 r.
  Proof. intros b p p0 r (A & B & C) L. split; [exact A|]. split; [lia|]. intro E. specialize (C E). lia. Qed.

  Definition reads (b : bool) (d : dfun St) : Prop := forall v p, fair p -> Mu p <= F -> runs (post b p) (d_parse d v p).
  Definition scanner (scan : bytes -> val -> pst St -> option (outcome (val * pst St))) : Prop := forall k v p, quiet p -> Mu p < F -> scans (scan k v p) p.

  Lemma value_runs : forall {A} (rd : St -> outcome (A * St)) mk p, (forall s, inv s -> ready s -> runs (fun r => inv (snd r) /\ mu (snd r) < mu s) (rd s)) -> fair p -> runs (post true p) (read_value ops rd mk p).
  Proof.
    intros A rd mk p H Fp. unfold read_value. eapply runs_bind; [exact (getToken_runs p Fp)|]. intros [t p1] (Q1 & L1 & R1). cbn [fst snd] in *. destruct t; try exact Logic.I.
    eapply runs_bind; [apply (lift_runs rd p1 Q1); apply H; [apply Q1|now apply R1]|]. intros [a p2] [Q2 L2]. cbn [snd] in *. cbn [runs]. split; [now apply taken_quiet|]. cbn [snd tms] in *. split; [lia|intros _; lia].
  Qed.

  Lemma obj_runs : forall scan, scanner scan -> forall n v found p, quiet p -> Mu p < n -> n <= F ->
    runs (fun r => quiet (snd r) /\ Mu (snd r) <= Mu p) (obj_loop ops F m n scan v found p).
  Proof.
    intros scan Hs. induction n as [|n IH]; intros v found p Q L LF; [lia|]. cbn [obj_loop]. eapply runs_bind; [exact (getToken_runs p (quiet_fair p Q))|]. intros [t p1] (Q1 & L1 & R1). cbn [fst snd] in *.
    assert (G : runs (fun r => quiet (snd r) /\ Mu (snd r) <= Mu p) (do (k, p2) <- lift (op_key ops) p1;
      match scan k v p2 with Some r => do (v', p3) <- r; obj_loop ops F m n scan v' (k :: found) p3 | None => do p3 <- ignoreValue ops m F p2; obj_loop ops F m n scan v found p3 end)).
    { eapply runs_bind; [apply (lift_runs (op_key ops) p1 Q1); apply H_key; apply Q1|]. intros [k p2] [Q2 L2]. cbn [snd] in *. assert (L3 : Mu p2 < F) by lia. assert (Hk := Hs k v p2 (taken_quiet p2 Q2) L3). destruct (scan k v p2) as [r|]; cbn [scans] in Hk.
      - eapply runs_bind; [exact Hk|]. intros [v' p3] (Q3 & L4 & _). cbn [snd] in *. eapply runs_weak; [apply (IH v' (k :: found) p3 Q3); lia|]. intros [x y] [A B]. cbn [snd] in *. split; [exact A|lia].
      - eapply runs_bind; [exact (skip_runs p2 (taken_quiet p2 Q2) L3)|]. intros p3 (Q3 & L4). eapply runs_weak; [apply (IH v found p3 Q3); lia|]. intros [x y] [A B]. cbn [snd] in *. split; [exact A|lia]. }
    destruct t; try exact G. cbn [runs snd]. cbn [tms] in L1. split; [now apply taken_quiet|lia].
  Qed.
  Lemma map_runs : forall req scan v p, scanner scan -> fair p -> Mu p <= F -> runs (post true p) (read_map ops F m req scan v p).
  Proof.
    intros req scan v p Hs Fp LF. unfold read_map. eapply runs_bind; [exact (getToken_runs p Fp)|]. intros [t p1] (Q1 & L1 & R1). cbn [fst snd] in *. destruct t; try exact Logic.I. cbn [tms] in L1.
    eapply runs_bind; [apply (obj_runs scan Hs F v [] p1 (taken_quiet p1 Q1)); lia|]. intros [[v' found] p2] [Q2 L2]. cbn [snd] in *.
    assert (P : post true p (v', p2)) by (split; [exact Q2|]; cbn [snd]; split; [lia|intros _; lia]).
    destruct m; try exact P. destruct (forallb _ req); [exact P|exact Logic.I].
  Qed.

  Lemma grow_runs : forall co d dflt, reads true d -> forall n i v p, quiet p -> Mu p < n -> n <= F ->
    runs (fun r => quiet (snd r) /\ Mu (snd r) <= Mu p) (arr_loop ops n (elem_vec co d dflt) i v p).
  Proof.
    intros co d dflt Hd. induction n as [|n IH]; intros i v p Q L LF; [lia|]. cbn [arr_loop]. eapply runs_bind; [exact (getToken_runs p (quiet_fair p Q))|]. intros [t p1] (Q1 & L1 & R1). cbn [fst snd] in *.
    assert (G : runs (fun r => quiet (snd r) /\ Mu (snd r) <= Mu p) (do (v', p2) <- elem_vec co d dflt i v (pushBackToken t p1); arr_loop ops n (elem_vec co d dflt) (S i) v' p2)).
    { destruct (push_fair t p1 Q1 R1) as [F2 M2]. unfold elem_vec at 1. destruct v; try exact Logic.I.
      eapply runs_bind with (Q' := fun r => quiet (snd r) /\ Mu (snd r) < Mu p).
      - eapply runs_bind; [apply (Hd dflt _ F2); lia|]. intros [x p3] (Q3 & L3 & S3). cbn [snd] in *. specialize (S3 eq_refl). cbn [runs snd]. split; [exact Q3|lia].
      - intros [v' p3] [Q3 L3]. cbn [snd] in *. eapply runs_weak; [apply (IH (S i) v' p3 Q3); lia|]. intros [x y] [A B]. cbn [snd] in *. split; [exact A|lia]. }
    destruct t; try exact G. cbn [runs snd]. cbn [tms] in L1. split; [now apply taken_quiet|lia].
  Qed.
  Lemma fixed_runs : forall ds, Forall (reads false) ds -> forall n i v p, quiet p -> Mu p <= F -> i <= length ds -> length ds < n + i ->
    runs (fun r => quiet (snd r) /\ Mu (snd r) <= Mu p) (arr_loop ops n (elem_fixed ds) i v p).
  Proof.
    intros ds Hd. induction n as [|n IH]; intros i v p Q LF Li L; [lia|]. cbn [arr_loop]. eapply runs_bind; [exact (getToken_runs p (quiet_fair p Q))|]. intros [t p1] (Q1 & L1 & R1). cbn [fst snd] in *.
    assert (G : runs (fun r => quiet (snd r) /\ Mu (snd r) <= Mu p) (do (v', p2) <- elem_fixed ds i v (pushBackToken t p1); arr_loop ops n (elem_fixed ds) (S i) v' p2)).
    { destruct (push_fair t p1 Q1 R1) as [F2 M2]. unfold elem_fixed at 1. destruct v; try exact Logic.I. destruct (nth_error ds i) as [d|] eqn:N; [|exact Logic.I]. destruct (nth_error l i) as [x|]; [|exact Logic.I].
      assert (Lt : i < length ds) by (apply nth_error_Some; congruence). assert (Hx := proj1 (Forall_forall _ _) Hd d (nth_error_In _ _ N)).
      eapply runs_bind with (Q' := fun r => quiet (snd r) /\ Mu (snd r) <= Mu p).
      - eapply runs_bind; [apply (Hx x _ F2); lia|]. intros [x' p3] (Q3 & L3 & _). cbn [snd] in *. cbn [runs snd]. split; [exact Q3|lia].
      - intros [v' p3] [Q3 L3]. cbn [snd] in *. eapply runs_weak; [apply (IH (S i) v' p3 Q3); lia|]. intros [a y] [A B]. cbn [snd] in *. split; [exact A|lia]. }
    destruct t; try exact G. cbn [runs snd]. cbn [tms] in L1. split; [now apply taken_quiet|lia].
  Qed.
  Lemma array_runs : forall elem v p, (forall v p, quiet p -> Mu p < F -> runs (fun r => quiet (snd r) /\ Mu (snd r) <= Mu p) (arr_loop ops F elem 0 v p)) -> fair p -> Mu p <= F -> runs (post true p) (read_array ops F elem v p).
  Proof.
    intros elem v p H Fp LF. unfold read_array. eapply runs_bind; [exact (getToken_runs p Fp)|]. intros [t p1] (Q1 & L1 & R1). cbn [fst snd] in *. destruct t; try exact Logic.I. cbn [tms] in L1.
    eapply runs_weak; [apply (H v p1 (taken_quiet p1 Q1)); lia|]. intros r [A B]. split; [exact A|]. split; [lia|intros _; lia].
  Qed.

  Lemma members_scan : forall ds, Forall (reads false) ds -> forall ns vs k p, quiet p -> Mu p < F ->
    match scan_members ns ds vs k p with Some r => runs (fun r => quiet (snd r) /\ Mu (snd r) <= Mu p) r | None => True end.
  Proof.
    intros ds Hd. induction Hd as [|d ds Hx _ IH]; intros [|n ns] [|v vs] k p Q L; cbn [scan_members]; try exact Logic.I. destruct (beq k n).
    - eapply runs_bind; [apply (Hx v p (quiet_fair p Q)); lia|]. intros [x p1] (Q1 & L1 & _). cbn [snd] in *. cbn [runs snd]. auto.
    - specialize (IH ns vs k p Q L). destruct (scan_members ns ds vs k p) as [r|]; [|exact Logic.I]. eapply runs_bind; [exact IH|]. intros [l p1] [Q1 L1]. cbn [snd] in *. cbn [runs snd]. auto.
  Qed.
  Lemma parents_scan : forall ds, Forall (fun d => scanner (d_scan d)) ds -> forall vs k p, quiet p -> Mu p < F ->
    match scan_parents ds vs k p with Some r => runs (fun r => quiet (snd r) /\ Mu (snd r) <= Mu p) r | None => True end.
  Proof.
    intros ds Hd. induction Hd as [|d ds Hx _ IH]; intros [|v vs] k p Q L; cbn [scan_parents]; try exact Logic.I. specialize (Hx k v p Q L). destruct (d_scan d k v p) as [r|]; cbn [scans] in Hx.
    - eapply runs_bind; [exact Hx|]. intros [x p1] (Q1 & L1 & _). cbn [snd] in *. cbn [runs snd]. auto.
    - specialize (IH vs k p Q L). destruct (scan_parents ds vs k p) as [r|]; [|exact Logic.I]. eapply runs_bind; [exact IH|]. intros [l p1] [Q1 L1]. cbn [snd] in *. cbn [runs snd]. auto.
  Qed.

  (** read_class_name leaves a brace in a push back slot; it stays there when the value is skipped. *)
  Lemma class_runs : forall p, fair p -> runs (fun r => quiet (snd r) /\ Mu (snd r) < Mu p) (read_class_name ops marker p).
  Proof.
    intros p Fp. unfold read_class_name. eapply runs_bind; [exact (getToken_runs p Fp)|]. intros [t p1] (Q1 & L1 & R1). cbn [fst snd] in *. destruct t; try exact Logic.I. cbn [tms] in L1.
    eapply runs_bind; [exact (getToken_runs p1 (quiet_fair p1 (taken_quiet p1 Q1)))|]. intros [t p2] (Q2 & L2 & R2). cbn [fst snd] in *. destruct t; try exact Logic.I.
    eapply runs_bind; [apply (lift_runs (op_key ops) p2 Q2); apply H_key; apply Q2|]. intros [k p3] [Q3 L3]. cbn [fst snd] in *. destruct (beq k marker); [|exact Logic.I].
    eapply runs_bind; [exact (getToken_runs p3 (quiet_fair p3 (taken_quiet p3 Q3)))|]. intros [t p4] (Q4 & L4 & R4). cbn [fst snd] in *. destruct t; try exact Logic.I.
    eapply runs_bind; [apply (lift_runs (op_str ops) p4 Q4); apply H_str; [apply Q4|now apply R4]|]. intros [c p5] [Q5 L5]. cbn [fst snd] in *. cbn [runs snd].
    destruct (push_fair TokMapStart p5 Q5 ltac:(discriminate)) as [_ M6]. split; [apply push_quiet; [exact Q5|discriminate]|]. rewrite M6. cbn [tms] in *. lia.
  Qed.
  Lemma pointer_runs : forall rest p, (forall p1, fair p1 -> Mu p1 <= Mu p -> runs (post false p1) (rest p1)) -> fair p -> runs (post false p) (read_pointer ops rest p).
  Proof.
    intros rest p Hr Fp. unfold read_pointer. eapply runs_bind; [exact (getToken_runs p Fp)|]. intros [t p1] (Q1 & L1 & R1). cbn [fst snd] in *. destruct (op_null ops (ps_impl p1)).
    - eapply runs_bind; [apply (lift__runs (op_ignore ops) p1 (taken_quiet p1 Q1)); eapply runs_weak; [exact (H_ign _ (proj1 Q1))|]; intros s' (A & B & _); auto|]. intros p2 [Q2 L2]. cbn [runs]. split; [exact Q2|]. cbn [snd]. split; [lia|discriminate].
    - destruct (push_fair t p1 Q1 R1) as [F2 M2]. eapply runs_weak; [apply (Hr _ F2); lia|]. intros r H. eapply post_weak; [exact H|lia].
  Qed.

  Notation D := (deser ops F m marker).
  Lemma strict_weak : forall b d, reads b d -> reads false d.
  Proof. intros b d H v p Fp L. eapply runs_weak; [exact (H v p Fp L)|]. intros r (A & B & _). split; [exact A|]. split; [exact B|discriminate]. Qed.
  Lemma nth_pair : forall (ts : list ty) k a d, nth_error ts k = Some a -> nth_error (map D ts) k = Some d -> d = D a.
  Proof. intros ts k a d A B. rewrite (map_nth_error D k ts A) in B. congruence. Qed.
  Lemma max_list : forall l x, In x l -> x <= list_max l.
  Proof. intros l x H. assert (A : Forall (fun k => k <= list_max l) l) by (apply list_max_le; lia). exact (proj1 (Forall_forall _ _) A x H). Qed.
  Theorem deser_runs : forall t, no_null_elements t = true -> width t < F -> reads (negb (nullable t)) (D t) /\ (forall k v p, quiet p -> Mu p < F -> scans (d_scan (D t) k v p) p).
  Proof.
    assert (U : scanner (fun _ _ _ => Some UB)) by (intros k v p _ _; exact Logic.I).
    assert (All : forall ts, Forall (fun t => no_null_elements t = true -> width t < F -> reads (negb (nullable t)) (D t) /\ scanner (d_scan (D t))) ts -> forallb no_null_elements ts = true -> list_max (map width ts) < F ->
      Forall (fun t => reads false (D t) /\ scanner (d_scan (D t))) ts).
    { intros ts H N W. rewrite forallb_forall in N. apply Forall_forall. intros t Ht. rewrite Forall_forall in H. destruct (H t Ht (N t Ht)) as [A B].
      - assert (width t <= list_max (map width ts)) by (apply max_list; now apply List.in_map). lia.
      - split; [now apply strict_weak in A|exact B]. }
    intro t. induction t using ty_ind'; intros N W; cbn [no_null_elements width nullable negb] in *; cbn [deser d_parse d_scan]; unfold scanner in *.
    - split; [|exact U]. intros v p Fp L. apply value_runs; [exact (H_int i)|exact Fp].
    - split; [|exact U]. intros v p Fp L. apply value_runs; [exact H_bool|exact Fp].
    - split; [|exact U]. intros v p Fp L. apply value_runs; [exact H_str|exact Fp].
    - split; [|exact U]. intros v p Fp L. cbn [d_parse]. eapply runs_bind; [apply (value_runs (op_str ops) VStr p H_str Fp)|]. intros [x p1] (Q1 & L1 & S1). cbn [snd] in *. destruct x; try exact Logic.I.
      destruct (enum_value l s); [|exact Logic.I]. cbn [runs]. split; [exact Q1|]. cbn [snd]. auto.
    - apply andb_prop in N. destruct N as [N1 N2]. destruct (IHt N2 W) as [A B]. rewrite N1 in A. split; [|exact U]. intros v p Fp L. cbn [d_parse]. apply array_runs; [|exact Fp|exact L].
      intros v0 p0 Q0 L0. apply (grow_runs co (D t) (default t) A); [exact Q0|exact L0|lia].
    - destruct (IHt N) as [A B]; [lia|]. split; [|exact U]. intros v p Fp L. cbn [d_parse]. apply array_runs; [|exact Fp|exact L].
      intros v0 p0 Q0 L0. apply fixed_runs; [|exact Q0|lia|lia|rewrite repeat_length; lia]. apply Forall_forall. intros d Hd. apply repeat_spec in Hd. subst d. now apply strict_weak in A.
    - assert (H' := All ts H N ltac:(lia)). split; [|exact U]. intros v p Fp L. cbn [d_parse]. apply array_runs; [|exact Fp|exact L].
      intros v0 p0 Q0 L0. apply fixed_runs; [|exact Q0|lia|lia|rewrite map_length; lia]. apply Forall_map. eapply Forall_impl; [|exact H']. intros a [A _]. exact A.
    - destruct (IHt N W) as [A B]. apply strict_weak in A. assert (Sc : scanner (scan_map b (D t) (default t))).
      { intros k v p Q L. unfold scan_map. destruct v; try exact Logic.I. destruct b; cbn [scans]; (eapply runs_bind; [apply (A _ p (quiet_fair p Q)); lia|]); intros [x p1] (Q1 & L1 & _); cbn [snd] in *; cbn [runs]; (split; [exact Q1|]); cbn [snd]; (split; [exact L1|discriminate]). }
      split; [|exact Sc]. intros v p Fp L. cbn [d_parse]. now apply map_runs.
    - destruct (IHt N W) as [A B]. apply strict_weak in A. split; [|exact U]. intros v p Fp L. cbn [d_parse]. apply pointer_runs; [|exact Fp]. intros p1 F1 L1. eapply runs_bind; [apply (A _ p1 F1); lia|].
      intros [x p2] (Q2 & L2 & _). cbn [snd] in *. cbn [runs]. split; [exact Q2|]. cbn [snd]. split; [exact L2|discriminate].
    - destruct (IHt N W) as [A B]. split; [|exact U]. intros v p Fp L. cbn [d_parse]. destruct v; try exact Logic.I. eapply runs_bind; [apply (A _ p Fp L)|]. intros [x p1] (Q1 & L1 & S1). cbn [snd] in *. cbn [runs]. split; [exact Q1|]. cbn [snd]. auto.
    - apply andb_prop in N. destruct N as [N1 N2]. assert (Hm := All ms H N1 ltac:(lia)). assert (Hp := All ps H0 N2 ltac:(lia)).
      assert (Sc : scanner (scan_struct i (map D ms) (map D ps))).
      { intros k v p Q L. unfold scan_struct. destruct v as [z|b|b|b|b|b|b|own par|b b']; try exact Logic.I.
        assert (P1 := parents_scan (map D ps) ltac:(apply Forall_map; eapply Forall_impl; [|exact Hp]; intros a [_ X]; exact X) par k p Q L). destruct (scan_parents (map D ps) par k p) as [r|].
        - cbn [scans]. eapply runs_bind; [exact P1|]. intros [l p1] [Q1 L1]. cbn [snd] in *. cbn [runs]. split; [exact Q1|]. cbn [snd]. split; [exact L1|discriminate].
        - assert (P2 := members_scan (map D ms) ltac:(apply Forall_map; eapply Forall_impl; [|exact Hm]; intros a [X _]; exact X) (map (nameOverride i) (si_names i)) own k p Q L).
          destruct (scan_members _ (map D ms) own k p) as [r|]; [|exact Logic.I]. cbn [scans]. eapply runs_bind; [exact P2|]. intros [l p1] [Q1 L1]. cbn [snd] in *. cbn [runs]. split; [exact Q1|]. cbn [snd]. split; [exact L1|discriminate]. }
      split; [|exact Sc]. intros v p Fp L. cbn [d_parse]. now apply map_runs.
    - assert (H' := All cs H N W). split; [|exact U]. intros v p Fp L. cbn [d_parse]. apply pointer_runs; [|exact Fp]. intros p1 F1 L1. eapply runs_bind; [exact (class_runs p1 F1)|]. intros [c p2] [Q2 L2]. cbn [snd] in *.
      destruct (find_class cs c) as [k|]; [|destruct (existsb (beq c) o); exact Logic.I]. destruct (nth_error cs k) as [tk|] eqn:E1; [|exact Logic.I]. destruct (nth_error (map D cs) k) as [d|] eqn:E2; [|exact Logic.I].
      rewrite (nth_pair cs k tk d E1 E2). destruct (proj1 (Forall_forall _ _) H' tk (nth_error_In _ _ E1)) as [A _]. eapply runs_bind; [apply (A _ p2 (quiet_fair p2 Q2)); lia|]. intros [x p3] (Q3 & L3 & _). cbn [snd] in *. cbn [runs]. split; [exact Q3|]. cbn [snd]. split; [lia|discriminate].
    - assert (H' := All cs H N W). split; [|exact U]. intros v p Fp L. cbn [d_parse]. eapply runs_bind; [exact (class_runs p Fp)|]. intros [c p2] [Q2 L2]. cbn [snd] in *.
      destruct (find_class cs c) as [k|].
      + destruct (nth_error cs k) as [tk|] eqn:E1; [|exact Logic.I]. destruct (nth_error (map D cs) k) as [d|] eqn:E2; [|exact Logic.I].
        rewrite (nth_pair cs k tk d E1 E2). destruct (proj1 (Forall_forall _ _) H' tk (nth_error_In _ _ E1)) as [A _]. eapply runs_bind; [apply (A _ p2 (quiet_fair p2 Q2)); lia|]. intros [x p3] (Q3 & L3 & _). cbn [snd] in *. cbn [runs]. split; [exact Q3|]. cbn [snd]. split; [lia|intros _; lia].
      + eapply runs_bind; [apply (skip_runs p2 Q2); lia|]. intros p3 (Q3 & L3). cbn [runs]. split; [exact Q3|]. cbn [snd]. split; [lia|intros _; lia].
  Qed.
End Ends.
