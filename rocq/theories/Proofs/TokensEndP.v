(** Every import ends if every token uses up something: BSON and YAML. *)
From Coq Require Import ZArith List Bool Lia ZifyBool.
From Verif Require Import Model.Base Model.Types Model.ParserInterface Model.Deserializer Proofs.Induct Proofs.EndsP.
Import ListNotations.
Open Scope nat_scope.

Section Tokens.
  Context {St : Type} (ops : parser_ops St) (F : nat) (m : strictness) (marker : bytes).
  (** [dead]: the parser gave up and delivers TokError only. *)
  Variables (mu : St -> nat) (inv dead : St -> Prop).
  Definition calm (s s' : St) : Prop := inv s' /\ mu s' <= mu s.
  Hypothesis H_next : forall s, inv s -> runs (fun r => calm s (snd r) /\ ((fst r = TokError /\ dead (snd r)) \/ (fst r <> TokError /\ mu (snd r) < mu s))) (op_next ops s).
  Hypothesis H_dead : forall s, dead s -> op_null ops s = false /\ runs (fun _ => False) (op_key ops s).
  Hypothesis H_key : forall s, inv s -> runs (fun r => calm s (snd r)) (op_key ops s).
  Hypothesis H_int : forall i s, inv s -> runs (fun r => calm s (snd r)) (op_int ops i s).
  Hypothesis H_bool : forall s, inv s -> runs (fun r => calm s (snd r)) (op_bool ops s).
  Hypothesis H_str : forall s, inv s -> runs (fun r => calm s (snd r)) (op_str ops s).
  Hypothesis H_null : forall s, inv s -> op_null ops s = true -> runs (calm s) (op_ignore ops s).
  Hypothesis H_ign : forall s, m = Weak -> inv s -> runs (calm s) (op_ignore ops s).
  Hypothesis H_map : forall b s, inv s -> runs (calm s) (op_ignoreMap ops b s).
  Hypothesis H_arr : forall b s, inv s -> runs (calm s) (op_ignoreArr ops b s).

  (** ** Skipping *)
  Lemma skips : m = Weak -> forall f s, inv s -> mu s < f -> runs (calm s) (ign_value ops f s) /\ runs (calm s) (ign_map ops f s) /\ runs (calm s) (ign_arr ops f s).
  Proof.
    intro Wk. induction f as [|f IH]; intros s I L; [lia|].
    assert (W : forall (r : outcome St) s1, mu s1 <= mu s -> runs (calm s1) r -> runs (calm s) r).
    { intros r s1 L1 H. eapply runs_weak; [exact H|]. intros a [A B]. split; [exact A|lia]. }
    split; [|split].
    - cbn [ign_value]. eapply runs_bind; [exact (H_next s I)|]. intros [t s1] [[I1 L1] C1]. cbn [fst snd] in *. assert (Lt : t <> TokError -> mu s1 < mu s) by (intro; destruct C1 as [[? _]|[_ ?]]; [contradiction|assumption]).
      destruct t; try exact Logic.I; specialize (Lt ltac:(discriminate)).
      + eapply runs_bind; [exact (H_map true s1 I1)|]. intros s2 [I2 L2]. apply (W _ s2); [lia|]. apply IH; [exact I2|lia].
      + eapply runs_bind; [exact (H_arr true s1 I1)|]. intros s2 [I2 L2]. apply (W _ s2); [lia|]. apply IH; [exact I2|lia].
      + apply (W _ s1); [lia|]. exact (H_ign s1 Wk I1).
    - cbn [ign_map]. eapply runs_bind; [exact (H_next s I)|]. intros [t s1] [[I1 L1] C1]. cbn [fst snd] in *. assert (Lt : t <> TokError -> mu s1 < mu s) by (intro; destruct C1 as [[? _]|[_ ?]]; [contradiction|assumption]).
      assert (G : t <> TokMapEnd -> runs (calm s) (do s0 <- op_ignore ops s1; match t with TokKey => do s2 <- ign_value ops f s0; ign_map ops f s2 | _ => Throw end)).
      { intros _. eapply runs_bind; [exact (H_ign s1 Wk I1)|]. intros s2 [I2 L2]. destruct t; try exact Logic.I. specialize (Lt ltac:(discriminate)).
        eapply runs_bind; [apply (IH s2 I2); lia|]. intros s3 [I3 L3]. apply (W _ s3); [lia|]. apply (IH s3 I3). lia. }
      destruct t; try (apply G; discriminate). apply (W _ s1); [lia|]. exact (H_map false s1 I1).
    - cbn [ign_arr]. eapply runs_bind; [exact (H_next s I)|]. intros [t s1] [[I1 L1] C1]. cbn [fst snd] in *. assert (Lt : t <> TokError -> mu s1 < mu s) by (intro; destruct C1 as [[? _]|[_ ?]]; [contradiction|assumption]).
      destruct t; try exact Logic.I; specialize (Lt ltac:(discriminate)).
      + eapply runs_bind; [exact (H_map true s1 I1)|]. intros s2 [I2 L2]. eapply runs_bind; [apply (IH s2 I2); lia|]. intros s3 [I3 L3]. apply (W _ s3); [lia|]. apply (IH s3 I3). lia.
      + eapply runs_bind; [exact (H_arr true s1 I1)|]. intros s2 [I2 L2]. eapply runs_bind; [apply (IH s2 I2); lia|]. intros s3 [I3 L3]. apply (W _ s3); [lia|]. apply (IH s3 I3). lia.
      + apply (W _ s1); [lia|]. exact (H_arr false s1 I1).
      + eapply runs_bind; [exact (H_ign s1 Wk I1)|]. intros s2 [I2 L2]. apply (W _ s2); [lia|]. apply (IH s2 I2). lia.
  Qed.

  (** ** Tokens *)
  Definition waits (t : token) : nat := if token_eqb t TokError then 0 else 1.
  Definition weight (p : pst St) : nat := mu (ps_impl p) + waits (ps_pb1 p) + waits (ps_pb2 p).
  Definition sane (p : pst St) : Prop := inv (ps_impl p).
  Definition after (p p' : pst St) : Prop := sane p' /\ weight p' <= weight p.
  Lemma token_ends : forall p, sane p -> runs (fun r => after p (snd r) /\ ((fst r = TokError /\ dead (ps_impl (snd r)) /\ ps_pb1 (snd r) = TokError) \/ (fst r <> TokError /\ weight (snd r) < weight p))) (getToken ops p).
  Proof.
    intros [s b1 b2] I. unfold sane in I. cbn [ps_impl] in I. unfold getToken. cbn [ps_pb2 ps_pb1 ps_impl].
    destruct (token_eqb b2 TokError) eqn:E2; cbn [negb].
    - destruct (token_eqb b1 TokError) eqn:E1; cbn [negb].
      + unfold lift. cbn [ps_impl ps_pb1 ps_pb2]. eapply runs_bind; [exact (H_next s I)|]. intros [t s1] [[I1 L1] C1]. cbn [fst snd] in *. cbn [runs fst snd]. unfold after, sane, weight. cbn [ps_impl ps_pb1 ps_pb2].
        split; [split; [exact I1|lia]|]. destruct C1 as [[C1 C2]|[C1 C2]]; [left|right]; [|split; [exact C1|lia]]. split; [exact C1|]. split; [exact C2|]. now destruct b1.
      + cbn [runs fst snd]. unfold after, sane, weight, waits. cbn [ps_impl ps_pb1 ps_pb2 token_eqb]. rewrite E1. split; [split; [exact I|lia]|]. right. split; [now destruct b1|lia].
    - cbn [runs fst snd]. unfold after, sane, weight, waits. cbn [ps_impl ps_pb1 ps_pb2 token_eqb]. rewrite E2. split; [split; [exact I|lia]|]. right. split; [now destruct b2|lia].
  Qed.
  Lemma push_after : forall t p, weight (pushBackToken t p) <= weight p + waits t /\ (sane p -> sane (pushBackToken t p)).
  Proof.
    intros t [s b1 b2]. unfold pushBackToken, weight, sane, waits. cbn [ps_impl ps_pb1 ps_pb2]. destruct (token_eqb b1 TokError) eqn:E1; [|destruct (token_eqb b2 TokError) eqn:E2]; cbn [ps_impl ps_pb1 ps_pb2]; rewrite ?E1, ?E2; (split; [|auto]); destruct (token_eqb t TokError), (token_eqb b2 TokError); lia.
  Qed.
  (** Looking at a token and pushing it back. *)
  Lemma peek_ends : forall {A} (Q : A -> Prop) (k : token -> pst St -> outcome A) p, sane p ->
    (forall t p1, sane p1 -> weight p1 <= weight p -> sane (pushBackToken t p1) -> weight (pushBackToken t p1) <= weight p -> (t = TokError -> dead (ps_impl p1)) -> (t <> TokError -> weight p1 < weight p) -> runs Q (k t p1)) ->
    runs Q (do (t, p1) <- getToken ops p; k t p1).
  Proof.
    intros A Q k p I H. eapply runs_bind; [exact (token_ends p I)|]. intros [t p1] [[I1 L1] C]. cbn [fst snd] in *. destruct (push_after t p1) as [Pw Ps]. apply H; [exact I1|exact L1|exact (Ps I1)| | |].
    - destruct C as [[-> _]|[C1 C2]]; [cbn in Pw; lia|]. assert (waits t <= 1) by (unfold waits; destruct (token_eqb t TokError); lia). lia.
    - intro E. destruct C as [[_ [C _]]|[C _]]; [exact C|contradiction].
    - intro E. destruct C as [[C _]|[_ C]]; [contradiction|exact C].
  Qed.
  Lemma lifted : forall {A} (f : St -> outcome (A * St)) p, sane p -> (forall s, inv s -> runs (fun r => calm s (snd r)) (f s)) -> runs (fun r => after p (snd r)) (lift f p).
  Proof.
    intros A f [s b1 b2] I H. unfold lift. cbn [ps_impl ps_pb1 ps_pb2]. eapply runs_bind; [exact (H s I)|]. intros [a s1] [I1 L1]. cbn [snd] in *. cbn [runs snd]. split; [exact I1|]. unfold weight. cbn [ps_impl ps_pb1 ps_pb2]. lia.
  Qed.
  Lemma lifted_ : forall (f : St -> outcome St) p, runs (calm (ps_impl p)) (f (ps_impl p)) -> runs (after p) (lift_ f p).
  Proof.
    intros f [s b1 b2] H. unfold lift_. cbn [ps_impl ps_pb1 ps_pb2] in *. eapply runs_bind; [exact H|]. intros s1 [I1 L1]. cbn [runs]. split; [exact I1|]. unfold weight. cbn [ps_impl ps_pb1 ps_pb2]. lia.
  Qed.
  Lemma skip_ends : forall p, sane p -> weight p < F -> runs (after p) (ignoreValue ops m F p).
  Proof. intros p I L. assert (W : m = Weak -> runs (after p) (lift_ (ign_value ops F) p)) by (intro M; apply lifted_; apply skips; [exact M|exact I|]; unfold weight in L; lia). unfold ignoreValue. destruct m; try exact Logic.I. now apply W. Qed.

  (** ** Readers: a value takes at least one token. *)
  Definition took {A} (p : pst St) (r : A * pst St) : Prop := sane (snd r) /\ weight (snd r) < weight p.
  Definition reader (d : dfun St) : Prop := forall v p, sane p -> weight p <= F -> runs (took p) (d_parse d v p).
  Definition scanned {A} (p : pst St) (r : option (outcome (A * pst St))) : Prop := match r with Some r => runs (fun r => after p (snd r)) r | None => True end.
  Definition scan_ends (scan : bytes -> val -> pst St -> option (outcome (val * pst St))) : Prop := forall k v p, sane p -> weight p < F -> scanned p (scan k v p).
  Lemma took_le : forall {A} p p0 (r : A * pst St), took p r -> weight p <= weight p0 -> took p0 r.
  Proof. intros A p p0 r [H1 H2] L. split; [exact H1|lia]. Qed.

  Lemma value_ends : forall {A} (rd : St -> outcome (A * St)) mk p, (forall s, inv s -> runs (fun r => calm s (snd r)) (rd s)) -> sane p -> runs (took p) (read_value ops rd mk p).
  Proof.
    intros A rd mk p H I. unfold read_value. apply peek_ends; [exact I|]. intros t p1 I1 L1 _ _ _ S1. destruct t; try exact Logic.I. specialize (S1 ltac:(discriminate)).
    eapply runs_bind; [exact (lifted rd p1 I1 H)|]. intros [a p2] [I2 L2]. cbn [snd] in *. cbn [runs]. split; cbn [snd]; [exact I2|lia].
  Qed.
  Lemma obj_ends : forall scan, scan_ends scan -> forall n v found p, sane p -> weight p < n -> n <= F -> runs (fun r => after p (snd r)) (obj_loop ops F m n scan v found p).
  Proof.
    intros scan Hs. induction n as [|n IH]; intros v found p I L LF; [lia|]. cbn [obj_loop]. apply peek_ends; [exact I|]. intros t p1 I1 L1 _ _ D1 S1.
    assert (G : runs (fun r => after p (snd r)) (do (k, p2) <- lift (op_key ops) p1;
      match scan k v p2 with Some r => do (v', p3) <- r; obj_loop ops F m n scan v' (k :: found) p3 | None => do p3 <- ignoreValue ops m F p2; obj_loop ops F m n scan v found p3 end)).
    { destruct (token_eqb t TokError) eqn:E.
      - assert (Et : t = TokError) by now destruct t. assert (K := proj2 (H_dead _ (D1 Et))). unfold lift. destruct (op_key ops (ps_impl p1)) as [[k s]| | |]; cbn [bind]; cbn [runs] in K; try contradiction; exact Logic.I.
      - assert (Et : t <> TokError) by now destruct t. specialize (S1 Et). eapply runs_bind; [exact (lifted (op_key ops) p1 I1 H_key)|]. intros [k p2] [I2 L2]. cbn [snd] in *. assert (L3 : weight p2 < F) by lia. assert (Hk := Hs k v p2 I2 L3). destruct (scan k v p2) as [r|]; cbn [scanned] in Hk.
        + eapply runs_bind; [exact Hk|]. intros [v' p3] [I3 L4]. cbn [snd] in *. eapply runs_weak; [apply (IH v' (k :: found) p3 I3); lia|]. intros [x y] [A B]. cbn [snd] in *. split; [exact A|lia].
        + eapply runs_bind; [exact (skip_ends p2 I2 L3)|]. intros p3 [I3 L4]. eapply runs_weak; [apply (IH v found p3 I3); lia|]. intros [x y] [A B]. cbn [snd] in *. split; [exact A|lia]. }
    destruct t; try exact G. cbn [runs snd]. split; [exact I1|exact L1].
  Qed.
  Lemma map_ends : forall req scan v p, scan_ends scan -> sane p -> weight p <= F -> runs (took p) (read_map ops F m req scan v p).
  Proof.
    intros req scan v p Hs I LF. unfold read_map. apply peek_ends; [exact I|]. intros t p1 I1 L1 _ _ _ S1. destruct t; try exact Logic.I. specialize (S1 ltac:(discriminate)).
    eapply runs_bind; [apply (obj_ends scan Hs F v [] p1 I1); lia|]. intros [[v' found] p2] [I2 L2]. cbn [snd] in *.
    assert (P : took p (v', p2)) by (split; cbn [snd]; [exact I2|lia]). destruct m; try exact P. destruct (forallb _ req); [exact P|exact Logic.I].
  Qed.
  Lemma arr_ends : forall elem, (forall i v p, sane p -> weight p <= F -> runs (took p) (elem i v p)) -> forall n i v p, sane p -> weight p < n -> n <= F -> runs (fun r => after p (snd r)) (arr_loop ops n elem i v p).
  Proof.
    intros elem He. induction n as [|n IH]; intros i v p I L LF; [lia|]. cbn [arr_loop]. apply peek_ends; [exact I|]. intros t p1 I1 L1 I2 L2 _ _.
    assert (G : runs (fun r => after p (snd r)) (do (v', p2) <- elem i v (pushBackToken t p1); arr_loop ops n elem (S i) v' p2)).
    { eapply runs_bind; [apply (He i v _ I2); lia|]. intros [v' p3] [I3 L3]. cbn [snd] in *. eapply runs_weak; [apply (IH (S i) v' p3 I3); lia|]. intros [x y] [A B]. cbn [snd] in *. split; [exact A|lia]. }
    destruct t; try exact G. cbn [runs snd]. split; [exact I1|exact L1].
  Qed.
  Lemma array_ends : forall elem v p, (forall i v p, sane p -> weight p <= F -> runs (took p) (elem i v p)) -> sane p -> weight p <= F -> runs (took p) (read_array ops F elem v p).
  Proof.
    intros elem v p He I LF. unfold read_array. apply peek_ends; [exact I|]. intros t p1 I1 L1 _ _ _ S1. destruct t; try exact Logic.I. specialize (S1 ltac:(discriminate)).
    eapply runs_weak; [apply (arr_ends elem He F 0 v p1 I1); lia|]. intros r [A B]. split; [exact A|lia].
  Qed.
  Lemma members_ends : forall ds, Forall reader ds -> forall ns vs k p, sane p -> weight p < F -> scanned p (scan_members ns ds vs k p).
  Proof.
    intros ds Hd. induction Hd as [|d ds Hx _ IH]; intros [|n ns] [|v vs] k p I L; cbn [scan_members]; try exact Logic.I. destruct (beq k n).
    - cbn [scanned]. eapply runs_bind; [apply (Hx v p I); lia|]. intros [x p1] [I1 L1]. cbn [snd] in *. cbn [runs snd]. split; [exact I1|lia].
    - specialize (IH ns vs k p I L). destruct (scan_members ns ds vs k p) as [r|]; [|exact Logic.I]. cbn [scanned] in *. eapply runs_bind; [exact IH|]. intros [l p1] [I1 L1]. cbn [snd] in *. cbn [runs snd]. split; assumption.
  Qed.
  Lemma parents_ends : forall ds, Forall (fun d => scan_ends (d_scan d)) ds -> forall vs k p, sane p -> weight p < F -> scanned p (scan_parents ds vs k p).
  Proof.
    intros ds Hd. induction Hd as [|d ds Hx _ IH]; intros [|v vs] k p I L; cbn [scan_parents]; try exact Logic.I. specialize (Hx k v p I L). destruct (d_scan d k v p) as [r|]; cbn [scanned] in *.
    - eapply runs_bind; [exact Hx|]. intros [x p1] [I1 L1]. cbn [snd] in *. cbn [runs snd]. split; assumption.
    - specialize (IH vs k p I L). destruct (scan_parents ds vs k p) as [r|]; [|exact Logic.I]. cbn [scanned] in *. eapply runs_bind; [exact IH|]. intros [l p1] [I1 L1]. cbn [snd] in *. cbn [runs snd]. split; assumption.
  Qed.
  Lemma class_ends : forall p, sane p -> runs (took p) (read_class_name ops marker p).
  Proof.
    intros p I. unfold read_class_name. apply peek_ends; [exact I|]. intros t p1 I1 L1 _ _ _ S1. destruct t; try exact Logic.I. specialize (S1 ltac:(discriminate)).
    apply peek_ends; [exact I1|]. intros t p2 I2 L2 _ _ _ S2. destruct t; try exact Logic.I. specialize (S2 ltac:(discriminate)).
    eapply runs_bind; [exact (lifted (op_key ops) p2 I2 H_key)|]. intros [k p3] [I3 L3]. cbn [snd] in *. destruct (beq k marker); [|exact Logic.I].
    apply peek_ends; [exact I3|]. intros t p4 I4 L4 _ _ _ S4. destruct t; try exact Logic.I. specialize (S4 ltac:(discriminate)).
    eapply runs_bind; [exact (lifted (op_str ops) p4 I4 H_str)|]. intros [c p5] [I5 L5]. cbn [snd] in *. cbn [runs]. destruct (push_after TokMapStart p5) as [P5 Q5]. split; cbn [snd]; [exact (Q5 I5)|]. cbn in P5. lia.
  Qed.
  Lemma pointer_ends : forall rest p, (forall p1, sane p1 -> weight p1 <= weight p -> runs (took p1) (rest p1)) -> sane p -> runs (took p) (read_pointer ops rest p).
  Proof.
    intros rest p Hr I. unfold read_pointer. apply peek_ends; [exact I|]. intros t p1 I1 L1 I2 L2 D1 S1. destruct (op_null ops (ps_impl p1)) eqn:N.
    - assert (Et : t <> TokError) by (intro Et; destruct (H_dead _ (D1 Et)); congruence). specialize (S1 Et). eapply runs_bind; [apply lifted_; exact (H_null _ I1 N)|]. intros p2 [I3 L3]. cbn [runs]. split; cbn [snd]; [exact I3|lia].
    - eapply runs_weak; [apply (Hr _ I2 L2)|]. intros r H. eapply took_le; [exact H|lia].
  Qed.

  Notation D := (deser ops F m marker).
  Lemma nth_pair' : forall (ts : list ty) k a d, nth_error ts k = Some a -> nth_error (map D ts) k = Some d -> d = D a.
  Proof. intros ts k a d A B. rewrite (map_nth_error D k ts A) in B. congruence. Qed.
  Theorem deser_ends : forall t, reader (D t) /\ scan_ends (d_scan (D t)).
  Proof.
    assert (U : scan_ends (fun _ _ _ => Some UB)) by (intros k v p _ _; exact Logic.I).
    assert (Fx : forall ds, Forall reader ds -> forall i v p, sane p -> weight p <= F -> runs (took p) (elem_fixed ds i v p)).
    { intros ds Hd i v p I L. unfold elem_fixed. destruct v; try exact Logic.I. destruct (nth_error ds i) as [d|] eqn:N; [|exact Logic.I]. destruct (nth_error l i) as [x|]; [|exact Logic.I].
      assert (Hx := proj1 (Forall_forall _ _) Hd d (nth_error_In _ _ N)). eapply runs_bind; [exact (Hx x p I L)|]. intros [x' p3] [I3 L3]. cbn [snd] in *. cbn [runs]. split; cbn [snd]; assumption. }
    intro t. induction t using ty_ind'; cbn [deser d_parse d_scan].
    - split; [|exact U]. intros v p I L. apply value_ends; [exact (H_int i)|exact I].
    - split; [|exact U]. intros v p I L. apply value_ends; [exact H_bool|exact I].
    - split; [|exact U]. intros v p I L. apply value_ends; [exact H_str|exact I].
    - split; [|exact U]. intros v p I L. cbn [d_parse]. eapply runs_bind; [apply (value_ends (op_str ops) VStr p H_str I)|]. intros [x p1] [I1 L1]. cbn [snd] in *. destruct x; try exact Logic.I.
      destruct (enum_value l s); [|exact Logic.I]. cbn [runs]. split; cbn [snd]; assumption.
    - destruct IHt as [A B]. split; [|exact U]. intros v p I L. cbn [d_parse]. apply array_ends; [|exact I|exact L].
      intros i v0 p0 I0 L0. unfold elem_vec. destruct v0; try exact Logic.I. eapply runs_bind; [exact (A _ p0 I0 L0)|]. intros [x p1] [I1 L1]. cbn [runs]. split; cbn [snd] in *; assumption.
    - destruct IHt as [A B]. split; [|exact U]. intros v p I L. cbn [d_parse]. apply array_ends; [|exact I|exact L]. apply Fx. apply Forall_forall. intros d Hd. apply repeat_spec in Hd. now subst d.
    - split; [|exact U]. intros v p I L. cbn [d_parse]. apply array_ends; [|exact I|exact L]. apply Fx. apply Forall_map. eapply Forall_impl; [|exact H]. intros a [A _]. exact A.
    - destruct IHt as [A B]. assert (Sc : scan_ends (scan_map b (D t) (default t))).
      { intros k v p I L. unfold scan_map. destruct v; try exact Logic.I. destruct b; cbn [scanned]; (eapply runs_bind; [apply (A _ p I); lia|]); intros [x p1] [I1 L1]; cbn [snd] in *; cbn [runs]; split; cbn [snd]; first [exact I1|lia]. }
      split; [|exact Sc]. intros v p I L. cbn [d_parse]. now apply map_ends.
    - destruct IHt as [A B]. split; [|exact U]. intros v p I L. cbn [d_parse]. apply pointer_ends; [|exact I]. intros p1 I1 L1. eapply runs_bind; [apply (A _ p1 I1); lia|].
      intros [x p2] [I2 L2]. cbn [snd] in *. cbn [runs]. split; cbn [snd]; assumption.
    - destruct IHt as [A B]. split; [|exact U]. intros v p I L. cbn [d_parse]. destruct v; try exact Logic.I. eapply runs_bind; [apply (A _ p I L)|]. intros [x p1] [I1 L1]. cbn [snd] in *. cbn [runs]. split; cbn [snd]; assumption.
    - assert (Sc : scan_ends (scan_struct i (map D ms) (map D ps))).
      { intros k v p I L. unfold scan_struct. destruct v as [z|b|b|b|b|b|b|own par|b b']; try exact Logic.I.
        assert (P1 := parents_ends (map D ps) ltac:(apply Forall_map; eapply Forall_impl; [|exact H0]; intros a [_ X]; exact X) par k p I L). destruct (scan_parents (map D ps) par k p) as [r|].
        - cbn [scanned] in *. eapply runs_bind; [exact P1|]. intros [l p1] [I1 L1]. cbn [snd] in *. cbn [runs snd]. split; assumption.
        - assert (P2 := members_ends (map D ms) ltac:(apply Forall_map; eapply Forall_impl; [|exact H]; intros a [X _]; exact X) (map (nameOverride i) (si_names i)) own k p I L).
          destruct (scan_members _ (map D ms) own k p) as [r|]; [|exact Logic.I]. cbn [scanned] in *. eapply runs_bind; [exact P2|]. intros [l p1] [I1 L1]. cbn [snd] in *. cbn [runs snd]. split; assumption. }
      split; [|exact Sc]. intros v p I L. cbn [d_parse]. now apply map_ends.
    - split; [|exact U]. intros v p I L. cbn [d_parse]. apply pointer_ends; [|exact I]. intros p1 I1 L1. eapply runs_bind; [exact (class_ends p1 I1)|]. intros [c p2] [I2 L2]. cbn [snd] in *.
      destruct (find_class cs c) as [k|]; [|destruct (existsb (beq c) o); exact Logic.I]. destruct (nth_error cs k) as [tk|] eqn:E1; [|exact Logic.I]. destruct (nth_error (map D cs) k) as [d|] eqn:E2; [|exact Logic.I].
      rewrite (nth_pair' cs k tk d E1 E2). destruct (proj1 (Forall_forall _ _) H tk (nth_error_In _ _ E1)) as [A _]. eapply runs_bind; [apply (A _ p2 I2); lia|]. intros [x p3] [I3 L3]. cbn [snd] in *. cbn [runs]. split; cbn [snd]; [exact I3|lia].
    - split; [|exact U]. intros v p I L. cbn [d_parse]. eapply runs_bind; [exact (class_ends p I)|]. intros [c p2] [I2 L2]. cbn [snd] in *.
      destruct (find_class cs c) as [k|].
      + destruct (nth_error cs k) as [tk|] eqn:E1; [|exact Logic.I]. destruct (nth_error (map D cs) k) as [d|] eqn:E2; [|exact Logic.I].
        rewrite (nth_pair' cs k tk d E1 E2). destruct (proj1 (Forall_forall _ _) H tk (nth_error_In _ _ E1)) as [A _]. eapply runs_bind; [apply (A _ p2 I2); lia|]. intros [x p3] [I3 L3]. cbn [snd] in *. cbn [runs]. split; cbn [snd]; [exact I3|lia].
      + eapply runs_bind; [apply (skip_ends p2 I2); lia|]. intros p3 [I3 L3]. cbn [runs]. split; cbn [snd]; [exact I3|lia].
  Qed.
End Tokens.
