(** Imports of arbitrary texts without undefined behaviour: the readers, over any parser. *)
From Coq Require Import ZArith List Bool Lia ZifyBool.
From Verif Require Import Model.Base Model.Source Model.Number Model.ParserInterface Model.Types Model.Deserializer Spec.Json Spec.Typed Spec.Safe
  Proofs.Tac Proofs.Induct Proofs.TypedP Proofs.InterpP Proofs.PartP Proofs.OrderP.
Import ListNotations.
Open Scope nat_scope.

(** Never undefined; [Q] of the result. *)
Definition safe {A} (Q : A -> Prop) (r : outcome A) : Prop := match r with Ok a => Q a | UB => False | _ => True end.
Lemma safe_bind : forall {A B} (P : A -> Prop) (Q : B -> Prop) r (f : A -> outcome B), safe P r -> (forall a, P a -> safe Q (f a)) -> safe Q (bind r f).
Proof. intros A B P Q [a| | |] f H K; cbn in *; auto. Qed.
Lemma safe_weak : forall {A} (P Q : A -> Prop) r, safe P r -> (forall a, P a -> Q a) -> safe Q r.
Proof. intros A P Q [a| | |] H K; cbn in *; auto. Qed.

Lemma roomy_all : forall ints ts, fold_right (fun t P => roomy ints t /\ P) True ts -> Forall (roomy ints) ts.
Proof. intros ints ts. induction ts; cbn; intros H; constructor; tauto. Qed.

Section Safe.
  Context {St : Type} (ops : parser_ops St) (F : nat) (m : strictness) (marker : bytes) (ints : ity -> Prop).
  Variables (fit ready : St -> Prop).
  Hypotheses (ready_fit : forall s, ready s -> fit s)
    (h_next : forall s, fit s -> safe (fun r => fit (snd r) /\ (fst r = TokValue -> ready (snd r))) (op_next ops s))
    (h_key : forall s, fit s -> safe (fun r => fit (snd r)) (op_key ops s))
    (h_str : forall s, fit s -> safe (fun r => fit (snd r)) (op_str ops s))
    (h_int : forall i s, ints i -> ready s -> safe (fun r => fit (snd r)) (op_int ops i s))
    (h_bool : forall s, ready s -> safe (fun r => fit (snd r)) (op_bool ops s))
    (h_ignore : forall s, fit s -> safe fit (op_ignore ops s))
    (h_imap : forall b s, fit s -> safe fit (op_ignoreMap ops b s))
    (h_iarr : forall b s, fit s -> safe fit (op_ignoreArr ops b s)).

  Lemma ign_safe : forall f,
    (forall s, fit s -> safe fit (ign_value ops f s)) /\ (forall s, fit s -> safe fit (ign_map ops f s)) /\ (forall s, fit s -> safe fit (ign_arr ops f s)).
  Proof.
    induction f as [|f (IV & IM & IA)]; [repeat split; intros; exact Logic.I|].
    assert (N : forall s (k : token -> St -> outcome St), fit s -> (forall t s, fit s -> safe fit (k t s)) -> safe fit (do (t, s) <- op_next ops s; k t s)).
    { intros s k H K. eapply safe_bind; [exact (h_next s H)|]. intros [t s1] [R _]. apply K. exact R. }
    assert (B : forall r k, safe fit r -> (forall s, fit s -> safe fit (k s)) -> safe fit (bind r k)) by (intros; eapply safe_bind; eauto).
    split; [|split]; intros s H.
    - apply (N s (fun t s => match t with
        | TokValue => op_ignore ops s
        | TokMapStart => do s <- op_ignoreMap ops true s; ign_map ops f s
        | TokArrayStart => do s <- op_ignoreArr ops true s; ign_arr ops f s
        | _ => Throw end) H). intros t s1 H1. destruct t; try exact Logic.I; auto.
    - apply (N s (fun t s => match t with
        | TokMapEnd => op_ignoreMap ops false s
        | _ => do s <- op_ignore ops s; match t with TokKey => do s <- ign_value ops f s; ign_map ops f s | _ => Throw end end) H). intros t s1 H1.
      destruct t; auto; (apply B; [now apply h_ignore|]); intros s2 H2; try exact Logic.I; apply B; auto.
    - apply (N s (fun t s => match t with
        | TokArrayEnd => op_ignoreArr ops false s
        | TokValue => do s <- op_ignore ops s; ign_arr ops f s
        | TokMapStart => do s <- op_ignoreMap ops true s; do s <- ign_map ops f s; ign_arr ops f s
        | TokArrayStart => do s <- op_ignoreArr ops true s; do s <- ign_arr ops f s; ign_arr ops f s
        | _ => Throw end) H). intros t s1 H1. destruct t; try exact Logic.I; auto; (apply B; [auto|]); intros s2 H2; auto.
  Qed.

  (** A parser with at most one token pushed back; if that is a value, it was read last. *)
  Definition at_ease (p : pst St) : Prop := fit (ps_impl p) /\ ps_pb2 p = TokError /\ (ps_pb1 p = TokValue -> ready (ps_impl p)).
  Definition clean (p : pst St) : Prop := fit (ps_impl p) /\ ps_pb2 p = TokError /\ ps_pb1 p = TokError.
  Lemma clean_ease : forall p, clean p -> at_ease p.
  Proof. intros p (A & B & C). repeat split; auto. rewrite C. discriminate. Qed.
  Lemma token_safe : forall p, at_ease p -> safe (fun r => clean (snd r) /\ (fst r = TokValue -> ready (ps_impl (snd r)))) (getToken ops p).
  Proof.
    intros p (A & B & C). unfold getToken. rewrite B. cbn [token_eqb negb]. destruct (token_eqb (ps_pb1 p) TokError) eqn:T; cbn [negb].
    - unfold lift. assert (E : ps_pb1 p = TokError) by (destruct (ps_pb1 p); (reflexivity || discriminate T)).
      eapply safe_bind; [exact (h_next _ A)|]. intros [t s1] [R1 R]. cbn [safe fst snd ps_impl] in *. split; [|exact R]. repeat split; cbn; auto.
    - cbn [safe fst snd]. split; [repeat split; cbn; auto|]. exact C.
  Qed.
  Lemma push_safe : forall t p, clean p -> (t = TokValue -> ready (ps_impl p)) -> at_ease (pushBackToken t p).
  Proof. intros t p (A & B & C) H. unfold pushBackToken. rewrite C. cbn [token_eqb]. repeat split; cbn; auto. Qed.
  Lemma lift_safe : forall {A} (f : St -> outcome (A * St)) p, clean p -> safe (fun r => fit (snd r)) (f (ps_impl p)) -> safe (fun r => clean (snd r)) (lift f p).
  Proof. intros A f p (H1 & H2 & H3) H. unfold lift. eapply safe_bind; [exact H|]. intros [a s] Hs. cbn in *. repeat split; cbn; auto. Qed.
  Lemma lift0_safe : forall (f : St -> outcome St) p, clean p -> safe fit (f (ps_impl p)) -> safe clean (lift_ f p).
  Proof. intros f p (H1 & H2 & H3) H. unfold lift_. eapply safe_bind; [exact H|]. intros s Hs. cbn in *. repeat split; cbn; auto. Qed.
  Lemma ignore_safe : forall p, fit (ps_impl p) -> ps_pb2 p = TokError -> ps_pb1 p <> TokValue -> safe at_ease (ignoreValue ops m F p).
  Proof.
    intros p A B C. unfold ignoreValue. destruct m; try exact Logic.I. unfold lift_. eapply safe_bind; [exact (proj1 (ign_safe F) _ A)|]. intros s Hs. cbn. repeat split; cbn; auto. intro E. now destruct C.
  Qed.

  Definition result (t : ty) (r : val * pst St) : Prop := shaped t (fst r) = true /\ at_ease (snd r).
  Definition reads_as (t : ty) (d : dfun St) : Prop := forall v p, shaped t v = true -> at_ease p -> safe (result t) (d_parse d v p).
  Definition scans_as (t : ty) (scan : bytes -> val -> pst St -> option (outcome (val * pst St))) : Prop := forall k v p, shaped t v = true -> clean p ->
    match scan k v p with Some r => safe (result t) r | None => True end.

  Lemma value_safe : forall {A} (rd : St -> outcome (A * St)) mk t p, (forall s, ready s -> safe (fun r => fit (snd r)) (rd s)) -> (forall a, shaped t (mk a) = true) ->
    at_ease p -> safe (fun r => result t r /\ exists a, fst r = mk a) (read_value ops rd mk p).
  Proof.
    intros A rd mk t p H Hm P. unfold read_value. eapply safe_bind; [exact (token_safe p P)|]. intros [tk p1] (C & R). cbn [fst snd] in *. destruct tk; try exact Logic.I. specialize (R eq_refl).
    eapply safe_bind; [apply (lift_safe rd p1 C); now apply H|]. intros [a p2] C2. cbn [safe fst snd] in *. split; [|now exists a]. split; [apply Hm|now apply clean_ease].
  Qed.
  Lemma obj_safe : forall t scan, scans_as t scan -> forall n v found p, shaped t v = true -> at_ease p ->
    safe (fun r => shaped t (fst (fst r)) = true /\ at_ease (snd r)) (obj_loop ops F m n scan v found p).
  Proof.
    intros t scan H n. induction n as [|n IH]; intros v found p Sv P; [exact Logic.I|]. cbn [obj_loop]. eapply safe_bind; [exact (token_safe p P)|]. intros [tk p1] (C & _). cbn [fst snd] in *.
    assert (G : safe (fun r => shaped t (fst (fst r)) = true /\ at_ease (snd r)) (do (k, p) <- lift (op_key ops) p1;
            match scan k v p with
            | Some r => do (v', p) <- r; obj_loop ops F m n scan v' (k :: found) p
            | None => do p <- ignoreValue ops m F p; obj_loop ops F m n scan v found p
            end)).
    { eapply safe_bind; [apply (lift_safe _ p1 C); apply h_key; apply C|]. intros [k p2] C2. cbn [snd] in C2. assert (X := H k v p2 Sv C2). destruct (scan k v p2) as [r|].
      - eapply safe_bind; [exact X|]. intros [v' p3] [S3 P3]. now apply IH.
      - destruct C2 as (A & B & D). eapply safe_bind; [apply ignore_safe; auto; rewrite D; discriminate|]. intros p3 P3. now apply IH. }
    destruct tk; try exact G. cbn. split; [exact Sv|now apply clean_ease].
  Qed.
  Lemma map_safe : forall t req scan v p, scans_as t scan -> shaped t v = true -> at_ease p -> safe (result t) (read_map ops F m req scan v p).
  Proof.
    intros t req scan v p H Sv P. unfold read_map. eapply safe_bind; [exact (token_safe p P)|]. intros [tk p1] (C & _). cbn [fst snd] in *. destruct tk; try exact Logic.I.
    eapply safe_bind; [exact (obj_safe t scan H F v [] p1 Sv (clean_ease _ C))|]. intros [[v' found] p2] [S2 P2]. cbn [fst snd] in *. destruct m; try (split; assumption). destruct (forallb _ _); [split; assumption|exact Logic.I].
  Qed.
  Lemma arr_safe : forall t elem, (forall i v p, shaped t v = true -> at_ease p -> safe (result t) (elem i v p)) -> forall n i v p, shaped t v = true -> at_ease p -> safe (result t) (arr_loop ops n elem i v p).
  Proof.
    intros t elem H n. induction n as [|n IH]; intros i v p Sv P; [exact Logic.I|]. cbn [arr_loop]. eapply safe_bind; [exact (token_safe p P)|]. intros [tk p1] (C & R). cbn [fst snd] in *.
    assert (G : safe (result t) (do (v', p) <- elem i v (pushBackToken tk p1); arr_loop ops n elem (S i) v' p)).
    { eapply safe_bind; [exact (H i v _ Sv (push_safe tk p1 C R))|]. intros [v' p2] [S2 P2]. now apply IH. }
    destruct tk; try exact G. cbn. split; [exact Sv|now apply clean_ease].
  Qed.
  Lemma array_safe : forall t elem v p, (forall i v p, shaped t v = true -> at_ease p -> safe (result t) (elem i v p)) -> shaped t v = true -> at_ease p -> safe (result t) (read_array ops F elem v p).
  Proof.
    intros t elem v p H Sv P. unfold read_array. eapply safe_bind; [exact (token_safe p P)|]. intros [tk p1] (C & _). cbn [fst snd] in *. destruct tk; try exact Logic.I. apply arr_safe; auto. now apply clean_ease.
  Qed.
  Lemma class_safe : forall p, at_ease p -> safe (fun r => fit (ps_impl (snd r)) /\ ps_pb2 (snd r) = TokError /\ ps_pb1 (snd r) = TokMapStart) (read_class_name ops marker p).
  Proof.
    intros p P. unfold read_class_name. eapply safe_bind; [exact (token_safe p P)|]. intros [t p1] (C & _). cbn [fst snd] in *. destruct t; try exact Logic.I.
    eapply safe_bind; [exact (token_safe p1 (clean_ease _ C))|]. intros [t p2] (C2 & _). cbn [fst snd] in *. destruct t; try exact Logic.I.
    eapply safe_bind; [apply (lift_safe _ p2 C2); apply h_key; apply C2|]. intros [k p3] C3. cbn [snd] in C3. destruct (beq k marker); [|exact Logic.I].
    eapply safe_bind; [exact (token_safe p3 (clean_ease _ C3))|]. intros [t p4] (C4 & _). cbn [fst snd] in *. destruct t; try exact Logic.I.
    eapply safe_bind; [apply (lift_safe _ p4 C4); apply h_str; apply C4|]. intros [c p5] (A & B & D). cbn [snd] in *. unfold pushBackToken. rewrite D. cbn. repeat split; assumption.
  Qed.
  Lemma pointer_safe : forall t rest p, shaped t (VPtr None) = true -> (forall p, at_ease p -> safe (result t) (rest p)) -> at_ease p -> safe (result t) (read_pointer ops rest p).
  Proof.
    intros t rest p N H P. unfold read_pointer. eapply safe_bind; [exact (token_safe p P)|]. intros [tk p1] (C & R). cbn [fst snd] in *. destruct (op_null ops (ps_impl p1)).
    - eapply safe_bind; [apply (lift0_safe _ p1 C); apply h_ignore; apply C|]. intros p2 C2. split; [exact N|now apply clean_ease].
    - apply H. now apply push_safe.
  Qed.

  Notation D := (deser ops F m marker).
  Lemma all2b_in : forall A B (f : A -> B -> bool) xs ys, all2b (map f xs) ys = true -> length xs = length ys.
  Proof. intros A B f xs. induction xs as [|x xs IH]; intros [|y ys] H; try discriminate H; [reflexivity|]. cbn in *. apply andb_prop in H as [_ H]. f_equal. now apply IH. Qed.
  Definition opt_safe {A} (Q : A -> Prop) (r : option (outcome A)) : Prop := match r with Some r => safe Q r | None => True end.
  Lemma members_safe : forall ts, Forall (fun t => reads_as t (D t)) ts -> forall ns vs k p, length ns = length ts -> all2b (map shaped ts) vs = true -> clean p ->
    opt_safe (fun r => all2b (map shaped ts) (fst r) = true /\ at_ease (snd r)) (scan_members ns (map D ts) vs k p).
  Proof.
    intros ts H. induction H as [|t ts Ht Hts IH]; intros ns vs k p L A C.
    - destruct ns; [|discriminate L]. destruct vs; [|discriminate A]. exact Logic.I.
    - destruct ns as [|n ns]; [discriminate L|]. destruct vs as [|v vs]; [discriminate A|]. cbn [map all2b] in A. apply andb_prop in A as [A1 A2]. cbn [map scan_members]. destruct (beq k n).
      + cbn [opt_safe]. eapply safe_bind; [exact (Ht v p A1 (clean_ease _ C))|]. intros [v' p1] [S1 P1]. cbn [safe fst snd map all2b] in *. rewrite S1, A2. auto.
      + assert (X := IH ns vs k p ltac:(now injection L) A2 C). destruct (scan_members ns (map D ts) vs k p) as [r|]; [|exact Logic.I]. cbn [opt_safe] in *. eapply safe_bind; [exact X|]. intros [l p1] [S1 P1].
        cbn [safe fst snd map all2b] in *. rewrite A1, S1. auto.
  Qed.
  Lemma parents_safe : forall ts, Forall (fun t => scans_as t (d_scan (D t))) ts -> forall vs k p, all2b (map shaped ts) vs = true -> clean p ->
    opt_safe (fun r => all2b (map shaped ts) (fst r) = true /\ at_ease (snd r)) (scan_parents (map D ts) vs k p).
  Proof.
    intros ts H. induction H as [|t ts Ht Hts IH]; intros vs k p A C.
    - destruct vs; [|discriminate A]. exact Logic.I.
    - destruct vs as [|v vs]; [discriminate A|]. cbn [map all2b] in A. apply andb_prop in A as [A1 A2]. cbn [map scan_parents].
      assert (Y := Ht k v p A1 C). destruct (d_scan (D t) k v p) as [r|].
      + cbn [opt_safe]. eapply safe_bind; [exact Y|]. intros [v' p1] [S1 P1]. cbn [safe fst snd map all2b] in *. rewrite S1, A2. auto.
      + assert (X := IH vs k p A2 C). destruct (scan_parents (map D ts) vs k p) as [r|]; [|exact Logic.I]. cbn [opt_safe] in *. eapply safe_bind; [exact X|]. intros [l p1] [S1 P1].
        cbn [safe fst snd map all2b] in *. rewrite A1, S1. auto.
  Qed.

  (** The classes of a pointer or variant. *)
  Lemma find_class_nth : forall cs c i, find_class cs c = Some i -> nth_error cs i <> None.
  Proof.
    induction cs as [|c0 cs IH]; intros c i E; cbn in E; [discriminate|]. destruct (beq (class_name c0) c); [injection E as <-; discriminate|].
    destruct (find_class cs c) as [j|] eqn:Ej; [|discriminate]. injection E as <-. cbn. exact (IH c j Ej).
  Qed.
  Lemma variant_safe : forall (T : ty) cs (wrap : nat -> val -> val) (other : bytes -> pst St -> outcome (val * pst St)) p,
    Forall (fun t => reads_as t (D t)) cs -> forallb (fun c => is_class c && wf c) cs = true ->
    (forall i t x, nth_error cs i = Some t -> shaped t x = true -> shaped T (wrap i x) = true) ->
    (forall c p, fit (ps_impl p) -> ps_pb2 p = TokError -> ps_pb1 p = TokMapStart -> safe (result T) (other c p)) -> at_ease p ->
    safe (result T) (do (c, p) <- read_class_name ops marker p;
      match find_class cs c with
      | Some k => match nth_error cs k, nth_error (map D cs) k with
                  | Some tk, Some d => do (x, p) <- d_parse d (default tk) p; Ok (wrap k x, p)
                  | _, _ => UB
                  end
      | None => other c p
      end).
  Proof.
    intros T cs wrap other p Hr W Hw Ho P. eapply safe_bind; [exact (class_safe p P)|]. intros [c p1] (A & B & C). cbn [snd] in *. destruct (find_class cs c) as [i|] eqn:Fc; [|now apply Ho].
    assert (N := find_class_nth _ _ _ Fc). destruct (nth_error cs i) as [tk|] eqn:Et; [|congruence]. rewrite (map_nth_error D i cs Et).
    destruct (wf_classes _ _ _ W Et) as [_ Wt]. eapply safe_bind; [apply (proj1 (Forall_forall _ _) Hr tk (nth_error_In _ _ Et) (default tk) p1 (default_shaped tk Wt)); repeat split; auto; rewrite C; discriminate|].
    intros [x p2] [S2 P2]. split; [exact (Hw i tk x Et S2)|exact P2].
  Qed.

  Theorem deser_safe : forall t, wf t = true -> roomy ints t -> reads_as t (D t) /\ (is_class t = true -> scans_as t (d_scan (D t))).
  Proof.
    assert (V : forall {A} (rd : St -> outcome (A * St)) mk t, (forall s, ready s -> safe (fun r => fit (snd r)) (rd s)) -> (forall a, shaped t (mk a) = true) -> forall p, at_ease p -> safe (result t) (read_value ops rd mk p)).
    { intros A rd mk t H Hm p P. eapply safe_weak; [exact (value_safe rd mk t p H Hm P)|]. intros a [X _]. exact X. }
    assert (All : forall ts, Forall (fun t => wf t = true -> roomy ints t -> reads_as t (D t) /\ (is_class t = true -> scans_as t (d_scan (D t)))) ts ->
      forallb wf ts = true -> Forall (roomy ints) ts -> Forall (fun t => reads_as t (D t)) ts).
    { intros ts H W R. rewrite Forall_forall in *. rewrite forallb_forall in W. intros t Ht. now apply H; auto. }
    assert (Cls : forall cs, forallb (fun c => is_class c && wf c) cs = true -> forallb wf cs = true).
    { intros cs H. rewrite forallb_forall in *. intros t Ht. specialize (H t Ht). now apply andb_prop in H as [_ H]. }
    intro t. induction t using ty_ind'; intros W R.
    - split; [|discriminate]. intros v p Sv P. cbn [deser d_parse]. apply V; auto.
    - split; [|discriminate]. intros v p Sv P. cbn [deser d_parse]. apply V; auto.
    - split; [|discriminate]. intros v p Sv P. cbn [deser d_parse]. apply V; auto.
    - split; [|discriminate]. intros v p Sv P. cbn [deser d_parse]. eapply safe_bind; [exact (value_safe (op_str ops) VStr TStr p (fun s H => h_str s (ready_fit s H)) (fun a => eq_refl) P)|].
      intros [w p1] [[S1 P1] (a & E)]. cbn [fst snd] in *. subst w. destruct (enum_value l a); [|exact Logic.I]. split; [reflexivity|exact P1].
    - apply wf_seq in W. destruct (IHt W R) as [A _]. split; [|discriminate]. intros v p Sv P. cbn [deser d_parse]. apply array_safe; auto. intros n w q Sw Q. unfold elem_vec. destruct w; try discriminate Sw.
      eapply safe_bind; [exact (A _ q (default_shaped t W) Q)|]. intros [x p1] [S1 P1]. split; [|exact P1]. cbn [fst shaped] in *. now apply seq_add_forallb.
    - destruct R.
    - destruct R.
    - cbn [wf] in W. destruct (IHt W R) as [A _]. assert (Sc : scans_as (TMap b t) (scan_map b (D t) (default t))).
      { intros k v p Sv C. unfold scan_map. destruct v; try discriminate Sv. cbn [shaped] in Sv. destruct b.
        - eapply safe_bind; [exact (A _ p (default_shaped t W) (clean_ease _ C))|]. intros [x p1] [S1 P1]. split; [|exact P1]. cbn [fst shaped] in *. destruct (map_find k l); [exact Sv|]. now apply map_set_shaped.
        - eapply safe_bind; [apply (A _ p); [|exact (clean_ease _ C)]; destruct (map_find k l) eqn:Ef; [eapply map_find_shaped; eassumption|now apply default_shaped]|].
          intros [x p1] [S1 P1]. split; [|exact P1]. cbn [fst shaped] in *. now apply map_set_shaped.
        - eapply safe_bind; [exact (A _ p (default_shaped t W) (clean_ease _ C))|]. intros [x p1] [S1 P1]. split; [|exact P1]. cbn [fst shaped] in *. now apply map_add_shaped. }
      split; [|intros _; exact Sc]. intros v p Sv P. cbn [deser d_parse]. now apply map_safe.
    - cbn [wf] in W. destruct (IHt W R) as [A _]. split; [|discriminate]. intros v p Sv P. cbn [deser d_parse]. apply pointer_safe; auto. intros q Q.
      eapply safe_bind; [exact (A _ q (default_shaped t W) Q)|]. intros [x p1] [S1 P1]. split; [exact S1|exact P1].
    - cbn [wf] in W. destruct (IHt W R) as [A _]. split; [|discriminate]. intros v p Sv P. cbn [deser d_parse]. destruct v; try discriminate Sv. cbn [shaped] in Sv.
      eapply safe_bind; [apply (A _ p); [|exact P]; destruct o; [exact Sv|now apply default_shaped]|]. intros [x p1] [S1 P1]. split; [exact S1|exact P1].
    - apply wf_struct in W as W'. destruct R as [Rm Rp]. apply roomy_all in Rm, Rp. cbn [wf] in W. apply andb_prop in W as [W Wpair]. apply andb_prop in W as [W Wp]. apply andb_prop in W as [Wl Wm].
      assert (Hm := All ms H Wm Rm).
      assert (Hp : Forall (fun t => scans_as t (d_scan (D t))) ps).
      { rewrite Forall_forall in *. rewrite forallb_forall in Wp. intros q Hq. specialize (Wp q Hq). apply andb_prop in Wp as [Wc Wq]. apply (H0 q Hq Wq (Rp q Hq)). exact Wc. }
      assert (Sc : scans_as (TStruct i ms ps) (scan_struct i (map D ms) (map D ps))).
      { intros k v p Sv C. unfold scan_struct. destruct v as [z|b|b|b|b|b|b|own par|b b']; try discriminate Sv. cbn [shaped] in Sv. apply andb_prop in Sv as [So Spp].
        assert (X := parents_safe ps Hp par k p Spp C). destruct (scan_parents (map D ps) par k p) as [r|].
        - cbn [opt_safe] in X. eapply safe_bind; [exact X|]. intros [l p1] [S1 P1]. split; [|exact P1]. cbn [fst shaped] in *. now rewrite So, S1.
        - assert (Y := members_safe ms Hm (map (nameOverride i) (si_names i)) own k p ltac:(rewrite map_length; now apply Nat.eqb_eq) So C). destruct (scan_members _ (map D ms) own k p) as [r|]; [|exact Logic.I].
          cbn [opt_safe] in Y. eapply safe_bind; [exact Y|]. intros [l p1] [S1 P1]. split; [|exact P1]. cbn [fst shaped] in *. now rewrite S1, Spp. }
      split; [|intros _; exact Sc]. intros v p Sv P. cbn [deser d_parse]. now apply map_safe.
    - destruct R as [-> Rc]. apply roomy_all in Rc. split; [|discriminate]. intros v p Sv P. cbn [deser d_parse]. apply pointer_safe; auto. intros q Q.
      apply (variant_safe (TPoly cs []) cs (fun k x => VPtr (Some (VVar k x))) (fun c p => if existsb (beq c) [] then UB else Throw) q); auto.
      + intros i t x Et Sx. cbn [shaped]. now rewrite (map_nth_error shaped i cs Et).
      + intros. exact Logic.I.
    - apply roomy_all in R. split; [|discriminate]. cbn [wf] in W. apply andb_prop in W as [W _]. intros v p Sv P. cbn [deser d_parse].
      apply (variant_safe (TVariant cs) cs VVar (fun c p => do p <- ignoreValue ops m F p; Ok (v, p)) p); auto.
      + intros i t x Et Sx. cbn [shaped]. now rewrite (map_nth_error shaped i cs Et).
      + intros c q A B C. eapply safe_bind; [apply ignore_safe; auto; rewrite C; discriminate|]. intros q1 Q1. split; [exact Sv|exact Q1].
  Qed.
End Safe.
