(** Reading a document that stands for a value gives the value. *)
From Coq Require Import ZArith List Bool Lia ZifyBool.
From Verif Require Import Model.Base Model.Number Model.ParserInterface Model.Types Spec.Json Spec.Typed Spec.Import Spec.Denotes
  Proofs.Induct Proofs.OrderP Proofs.Sim Proofs.TreeM Proofs.TypedP Proofs.InterpP Proofs.PartP Proofs.MembersP Proofs.ClassP.
Import ListNotations.
Open Scope nat_scope.

(** ** Names and paths *)
Lemma beq_refl' : forall k, beq k k = true.
Proof. intro k. now apply beq_eq. Qed.
Lemma index_of_nodup : forall ns i n, NoDup ns -> nth_error ns i = Some n -> index_of n ns = Some i.
Proof.
  induction ns as [|a ns IH]; intros [|i] n N E; try discriminate E; cbn [nth_error] in E; cbn [index_of].
  - injection E as ->. now rewrite beq_refl'.
  - inversion N as [|? ? Na N']; subst. destruct (beq n a) eqn:B.
    + apply beq_eq in B as ->. apply nth_error_In in E. contradiction.
    + now rewrite (IH i n N' E).
Qed.
Lemma nodup_app : forall {X} (a b : list X), NoDup (a ++ b) -> NoDup a /\ NoDup b /\ forall x, In x a -> In x b -> False.
Proof.
  induction a as [|x a IH]; intros b N; cbn in N.
  - split; [constructor|]. split; [exact N|]. intros x [].
  - inversion N as [|? ? Nx N']; subst. destruct (IH b N') as (Na & Nb & D). split; [|split; [exact Nb|]].
    + constructor; [|exact Na]. intro I. apply Nx. apply in_or_app. now left.
    + intros y [->|Iy] Ib; [apply Nx; apply in_or_app; now right|eauto].
Qed.
Lemma name_in : forall t q i n, name_at t q i = Some n -> In n (member_names t).
Proof.
  apply (ty_ind' (fun t => forall q i n, name_at t q i = Some n -> In n (member_names t)));
    try (intros; match goal with q : list nat |- _ => destruct q end; discriminate).
  intros si ms ps _ Hp q i n E. cbn [member_names]. apply in_or_app. destruct q as [|a q]; cbn [name_at] in E.
  - left. eauto using nth_error_In.
  - right. destruct (nth_error ps a) as [p|] eqn:Ep; [|discriminate]. apply in_flat_map. exists p.
    apply nth_error_In in Ep. split; [exact Ep|]. rewrite Forall_forall in Hp. eauto.
Qed.
Lemma in_name : forall t n, In n (member_names t) -> exists q i, name_at t q i = Some n.
Proof.
  apply (ty_ind' (fun t => forall n, In n (member_names t) -> exists q i, name_at t q i = Some n)); try (intros; contradiction).
  intros si ms ps _ Hp n I. cbn [member_names] in I. apply in_app_or in I as [I|I].
  - apply In_nth_error in I as (i & E). exists [], i. exact E.
  - apply in_flat_map in I as (p & Ip & I). rewrite Forall_forall in Hp. destruct (Hp p Ip n I) as (q & i & E).
    apply In_nth_error in Ip as (a & Ea). exists (a :: q), i. cbn [name_at]. now rewrite Ea.
Qed.
Lemma search_first : forall ps k n a p q i, nth_error ps a = Some p -> find_path p k = Some (q, i) ->
  (forall a' p', a' < a -> nth_error ps a' = Some p' -> find_path p' k = None) ->
  search (map find_path ps) k n = Some ((n + a) :: q, i).
Proof.
  induction ps as [|p0 ps IH]; intros k n [|a] p q i E F B; try discriminate E; cbn [nth_error] in E; cbn [map search].
  - injection E as ->. rewrite F. now rewrite Nat.add_0_r.
  - rewrite (B 0 p0) by (cbn; auto; lia). rewrite (IH k (S n) a p q i E F).
    + now rewrite Nat.add_succ_comm.
    + intros a' p' L E'. apply (B (S a') p'); [lia|exact E'].
Qed.
Lemma flat_nodup : forall ps a p, NoDup (flat_map member_names ps) -> nth_error ps a = Some p -> NoDup (member_names p).
Proof.
  induction ps as [|p0 ps IH]; intros [|a] p N E; try discriminate E; cbn in N, E; apply nodup_app in N as (N1 & N2 & _).
  - now injection E as <-.
  - eauto.
Qed.
Lemma flat_disjoint : forall ps a p a' p' n, NoDup (flat_map member_names ps) -> nth_error ps a = Some p -> nth_error ps a' = Some p' ->
  a' < a -> In n (member_names p) -> In n (member_names p') -> False.
Proof.
  induction ps as [|p0 ps IH]; intros [|a] p [|a'] p' n N E E' L I I'; try discriminate E; try lia; cbn in N, E, E';
    apply nodup_app in N as (N1 & N2 & D).
  - injection E' as <-. apply (D n I'). apply in_flat_map. exists p. split; [eauto using nth_error_In|exact I].
  - apply (IH a p a' p' n N2 E E'); [lia|exact I|exact I'].
Qed.
Theorem nodup_path : forall t q i n, NoDup (member_names t) -> name_at t q i = Some n -> find_path t n = Some (q, i).
Proof.
  apply (ty_ind' (fun t => forall q i n, NoDup (member_names t) -> name_at t q i = Some n -> find_path t n = Some (q, i)));
    try (intros; match goal with q : list nat |- _ => destruct q end; discriminate).
  intros si ms ps _ Hp q i n N E. cbn [member_names] in N. apply nodup_app in N as (N1 & N2 & D). cbn [find_path].
  destruct q as [|a q]; cbn [name_at] in E.
  - assert (S : search (map find_path ps) n 0 = None).
    { destruct (search (map find_path ps) n 0) as [pp|] eqn:Es; [|reflexivity]. exfalso.
      apply search_spec in Es as (a & q & j & f & -> & Nf & F). rewrite nth_error_map in Nf.
      destruct (nth_error ps a) as [p|] eqn:Ep; [|discriminate]. cbn in Nf. injection Nf as <-.
      apply find_path_name in F. apply name_in in F. apply (D n); [eauto using nth_error_In|].
      apply in_flat_map. exists p. split; [eauto using nth_error_In|exact F]. }
    rewrite S. now rewrite (index_of_nodup _ i n N1 E).
  - destruct (nth_error ps a) as [p|] eqn:Ep; [|discriminate]. rewrite Forall_forall in Hp.
    assert (F := Hp p (nth_error_In _ _ Ep) q i n (flat_nodup _ _ _ N2 Ep) E).
    rewrite (search_first ps n 0 a p q i Ep F); [reflexivity|].
    intros a' p' L Ep'. destruct (find_path p' n) as [[q' i']|] eqn:F'; [|reflexivity]. exfalso.
    apply find_path_name in F'. apply (flat_disjoint ps a p a' p' n N2 Ep Ep' L); eauto using name_in.
Qed.

(** Two values of a class with the same members are the same. *)
Theorem field_ext : forall t, wf t = true -> is_class t = true -> forall v w, shaped t v = true -> shaped t w = true ->
  (forall q i tm, type_at t q i = Some tm -> field v q i = field w q i) -> v = w.
Proof.
  apply (ty_ind' (fun t => wf t = true -> is_class t = true -> forall v w, shaped t v = true -> shaped t w = true ->
    (forall q i tm, type_at t q i = Some tm -> field v q i = field w q i) -> v = w)); try discriminate.
  intros si ms ps _ Hp W _ v w Sv Sw H. destruct (wf_struct _ _ _ W) as (_ & _ & Wp).
  apply shaped_struct in Sv as (own & par & -> & So & Sp). apply shaped_struct in Sw as (own' & par' & -> & So' & Sp').
  apply all2b_len in So as Lo. apply all2b_len in So' as Lo'. apply all2b_len in Sp as Lp. apply all2b_len in Sp' as Lp'.
  rewrite map_length in *. f_equal; apply list_ext; intro n.
  - destruct (nth_error ms n) as [tm|] eqn:E; [apply (H [] n tm E)|]. apply nth_error_None in E.
    rewrite !(proj2 (nth_error_None _ _)) by lia. reflexivity.
  - destruct (nth_error ps n) as [p|] eqn:E.
    2:{ apply nth_error_None in E. rewrite !(proj2 (nth_error_None _ _)) by lia. reflexivity. }
    assert (Hm : nth_error (map shaped ps) n = Some (shaped p)) by now rewrite nth_error_map, E.
    destruct (all2b_nth _ _ _ _ Sp Hm) as (x & Ex & Sx). destruct (all2b_nth _ _ _ _ Sp' Hm) as (y & Ey & Sy).
    rewrite Ex, Ey. f_equal. rewrite Forall_forall in Hp. assert (Ip := nth_error_In _ _ E). destruct (Wp p Ip) as (Cp & Wfp).
    apply (Hp p Ip); auto. intros q i tm T. specialize (H (n :: q) i tm). cbn [type_at field] in H. rewrite E, Ex, Ey in H. auto.
Qed.

(** The members of a default value. *)
Lemma field_default : forall q t i tm, type_at t q i = Some tm -> field (default t) q i = Some (default tm).
Proof.
  induction q as [|a q IH]; intros t i tm T; destruct t; try discriminate T; cbn [type_at default field] in *.
  - now rewrite nth_error_map, T.
  - rewrite nth_error_map. destruct (nth_error ps a) as [p|]; [|discriminate]. cbn [option_map]. auto.
Qed.

(** ** Conditions of the parts of a value *)
Lemma rel2_nth : forall {X} (rs : list (X -> Prop)) l i r x, rel2 rs l -> nth_error rs i = Some r -> nth_error l i = Some x -> r x.
Proof.
  induction rs as [|r0 rs IH]; intros [|x0 l] [|i] r x H Er Ex; try discriminate; cbn [rel2 nth_error] in *; try tauto.
  - injection Er as <-. injection Ex as <-. tauto.
  - destruct H as [_ H]. exact (IH l i r x H Er Ex).
Qed.
Lemma all_of_In : forall (l : list Prop) p, all_of l -> In p l -> p.
Proof. induction l as [|q l IH]; intros p H I; cbn in *; [contradiction|]. destruct H as [H1 H2]. destruct I as [<-|I]; [exact H1|exact (IH p H2 I)]. Qed.
Lemma each_here : forall P t v, each P t v -> P t v.
Proof. intros P t v H. destruct t; exact (proj1 H). Qed.
Lemma types_here : forall P t, types P t -> P t.
Proof. intros P t H. destruct t; exact (proj1 H). Qed.
Lemma each_field : forall P q t v i tm x, each P t v -> type_at t q i = Some tm -> field v q i = Some x -> each P tm x.
Proof.
  induction q as [|a q IH]; intros t v i tm x H T F; destruct t as [| | | | | | | | | |si ms ps| |]; try discriminate T; destruct v; try discriminate F;
    cbn [type_at field] in T, F; cbn [each] in H; destruct H as (_ & Ho & Hp).
  - apply (rel2_nth _ _ i _ _ Ho); [now rewrite nth_error_map, T|exact F].
  - destruct (nth_error ps a) as [p|] eqn:Ep; [|discriminate T]. destruct (nth_error parents a) as [w|] eqn:Ew; [|discriminate F].
    apply (IH p w i tm x); auto. apply (rel2_nth _ _ a _ _ Hp); [now rewrite nth_error_map, Ep|exact Ew].
Qed.
Lemma types_at : forall P q t i tm, types P t -> type_at t q i = Some tm -> types P tm.
Proof.
  induction q as [|a q IH]; intros t i tm H T; destruct t as [| | | | | | | | | |si ms ps| |]; try discriminate T; cbn [type_at] in T; cbn [types] in H;
    destruct H as (_ & Ho & Hp).
  - apply (all_of_In _ _ Ho). apply List.in_map. eauto using nth_error_In.
  - destruct (nth_error ps a) as [p|] eqn:Ep; [|discriminate T]. apply (IH p i tm); auto.
    apply (all_of_In _ _ Hp). apply List.in_map. eauto using nth_error_In.
Qed.
Lemma untagged_weak : forall t, untagged true t = true -> untagged false t = true.
Proof. intros t H. destruct t; try exact H. cbn [untagged] in *. destruct (si_mark i); [discriminate H|exact H]. Qed.
Lemma untagged_at : forall q t i tm, untagged false t = true -> type_at t q i = Some tm -> untagged true tm = true.
Proof.
  induction q as [|a q IH]; intros t i tm H T; destruct t as [| | | | | | | | | |si ms ps| |]; try discriminate T; cbn [type_at] in T; cbn [untagged] in H;
    apply andb_prop in H as [H Hp]; apply andb_prop in H as [_ Hm]; rewrite forallb_forall in Hm, Hp.
  - eauto using nth_error_In.
  - destruct (nth_error ps a) as [p|] eqn:Ep; [|discriminate T]. eauto using nth_error_In.
Qed.
Lemma shaped_at : forall q t v i tm x, wf t = true -> shaped t v = true -> type_at t q i = Some tm -> field v q i = Some x -> shaped tm x = true.
Proof.
  intros q t v i tm x W S T F. destruct (type_at_good q t i tm W T) as (_ & _ & G). destruct (G v S) as (y & Ey & Sy & _). congruence.
Qed.
Lemma names_types : forall q t i n, wf t = true -> name_at t q i = Some n -> exists tm, type_at t q i = Some tm.
Proof.
  induction q as [|a q IH]; intros t i n W N; destruct t as [| | | | | | | | | |si ms ps| |]; try discriminate N; cbn [name_at type_at] in *;
    destruct (wf_struct _ _ _ W) as (L & _ & Wp).
  - assert (H : i < length ms). { rewrite <- L, <- (map_length (nameOverride si)). apply nth_error_Some. congruence. }
    apply nth_error_Some in H. destruct (nth_error ms i); [eauto|congruence].
  - destruct (nth_error ps a) as [p|] eqn:Ep; [|discriminate N]. apply (IH p i n); [|exact N]. apply Wp. eauto using nth_error_In.
Qed.
Lemma types_names : forall q t i tm, wf t = true -> type_at t q i = Some tm -> exists n, name_at t q i = Some n.
Proof.
  induction q as [|a q IH]; intros t i n W N; destruct t as [| | | | | | | | | |si ms ps| |]; try discriminate N; cbn [name_at type_at] in *;
    destruct (wf_struct _ _ _ W) as (L & _ & Wp).
  - assert (H : i < length (map (nameOverride si) (si_names si))). { rewrite map_length, L. apply nth_error_Some. congruence. }
    apply nth_error_Some in H. destruct (nth_error (map (nameOverride si) (si_names si)) i); [eauto|congruence].
  - destruct (nth_error ps a) as [p|] eqn:Ep; [|discriminate N]. apply (IH p i n); [|exact N]. apply Wp. eauto using nth_error_In.
Qed.

Section Read.
  Context {A : Type} (sc : scal_ops A) (m : strictness) (marker : bytes).
  Context (Int : ity -> Z -> A -> Prop) (Bool : bool -> A -> Prop) (Str Tag : bytes -> A -> Prop) (Null : A -> Prop) (Key : bytes -> bytes -> Prop) (blank : bytes -> bool).
  Hypotheses
    (HInt : forall i z a, fits i z -> Int i z a -> sc_int sc i a = Ok z /\ sc_null sc a = false)
    (HBool : forall b a, Bool b a -> sc_bool sc a = Ok b /\ sc_null sc a = false)
    (HStr : forall s a, Str s a -> sc_str sc a = Ok s /\ sc_null sc a = blank s)
    (HTag : forall s a, Tag s a -> sc_str sc a = Ok s /\ sc_skip sc a = true)
    (HNull : forall a, Null a -> sc_null sc a = true /\ sc_skip sc a = true)
    (HKey : forall n raw, Key n raw -> sc_key sc raw = Ok n).
  Notation I := (interp sc m marker).
  Notation D := (sense_of Int Bool Str Tag Null Key marker).

  (** ** The members of a class *)
  Section Walk.
    Context (T : ty) (WT : wf T = true) (CT : is_class T = true).
    Notation rd := (in_members sc m (i_scan (I T))).
    Definition reads (tm : ty) (x : val) : Prop := forall j, d_val (D tm) x j -> i_parse (I tm) (default tm) j = Ok x.
    Definition placed (p : ty) (pre : list nat) : Prop := forall q i n tm, name_at p q i = Some n -> type_at p q i = Some tm ->
      find_path T n = Some (pre ++ q, i) /\ type_at T (pre ++ q) i = Some tm.

    Lemma own_walk : forall pre ns ts vs s l, own_members Key ns ts (map D ts) vs l ->
      (forall i n tm, nth_error ns i = Some n -> nth_error ts i = Some tm -> find_path T n = Some (pre, s + i) /\ type_at T pre (s + i) = Some tm) ->
      (forall i tm x, nth_error ts i = Some tm -> nth_error vs i = Some x -> reads tm x /\ shaped tm x = true) ->
      forall cur found rest, shaped T cur = true ->
      (forall i tm, nth_error ts i = Some tm -> field cur pre (s + i) = Some (default tm)) ->
      exists cur' found', rd cur found (l ++ rest) = rd cur' found' rest /\ shaped T cur' = true /\
        (forall i x, nth_error vs i = Some x -> field cur' pre (s + i) = Some x) /\
        (forall q' i', q' <> pre \/ i' < s -> field cur' q' i' = field cur q' i').
    Proof.
      intros pre. induction ns as [|n ns IH]; intros [|t ts] [|v vs] s l H Hf Hr cur found rest Sc Hd; cbn [map own_members] in H; try contradiction.
      - subst l. exists cur, found. split; [reflexivity|]. split; [exact Sc|]. split; [intros [|i] x E; discriminate E|auto].
      - destruct (Hf 0 n t eq_refl eq_refl) as [F TA]. rewrite Nat.add_0_r in F, TA. assert (D0 := Hd 0 t eq_refl). rewrite Nat.add_0_r in D0.
        destruct (Hr 0 t v eq_refl eq_refl) as [R Sx].
        assert (Hf' : forall i n tm, nth_error ns i = Some n -> nth_error ts i = Some tm -> find_path T n = Some (pre, S s + i) /\ type_at T pre (S s + i) = Some tm).
        { intros i n' tm E1 E2. rewrite Nat.add_succ_comm. now apply Hf. }
        assert (Hr' : forall i tm x, nth_error ts i = Some tm -> nth_error vs i = Some x -> reads tm x /\ shaped tm x = true) by (intros i; apply (Hr (S i))).
        destruct H as [[[Hl1 Hl2] H]|(_ & e & r & -> & [Ek Ev] & H)].
        + destruct (IH ts vs (S s) l H Hf' Hr' cur found rest Sc) as (cur' & found' & E & S' & Fv & Fo).
          { intros i tm E. rewrite Nat.add_succ_comm. now apply Hd. }
          exists cur', found'. split; [exact E|]. split; [exact S'|]. split.
          * intros [|i] x E'; cbn [nth_error] in E'.
            -- injection E' as <-. rewrite Nat.add_0_r. rewrite Fo by (right; lia). destruct Hl1 as (t' & ->). subst v. exact D0.
            -- rewrite <- Nat.add_succ_comm. now apply Fv.
          * intros q' i' Q. apply Fo. destruct Q; [now left|right; lia].
        + destruct e as [k j]. cbn [fst snd] in Ek, Ev. cbn [app in_members]. rewrite (HKey _ _ Ek). cbn [bind].
          destruct (scan_known sc m marker T cur n j pre s t WT CT Sc F TA) as (x0 & Fx & _ & ->). rewrite D0 in Fx. injection Fx as <-.
          rewrite (R j Ev). cbn [bind]. destruct (type_at_good pre T s t WT TA) as (_ & _ & G). destruct (G cur Sc) as (y & Ey & _ & K).
          destruct (IH ts vs (S s) r H Hf' Hr' (set_field cur pre s v) (n :: found) rest (K v Sx)) as (cur' & found' & E & S' & Fv & Fo).
          { intros i tm E. rewrite field_set_other by (intro Q; injection Q; lia). rewrite Nat.add_succ_comm. now apply Hd. }
          exists cur', found'. split; [exact E|]. split; [exact S'|]. split.
          * intros [|i] x E'; cbn [nth_error] in E'.
            -- injection E' as <-. rewrite Nat.add_0_r. rewrite Fo by (right; lia). eapply field_set_same. exact D0.
            -- rewrite <- Nat.add_succ_comm. now apply Fv.
          * intros q' i' Q. rewrite Fo by (destruct Q; [now left|right; lia]). apply field_set_other. intro Q'. injection Q' as <- <-. destruct Q; [congruence|lia].
    Qed.

    Definition walks (p : ty) : Prop := forall pre v l, placed p pre -> shaped p v = true ->
      (forall q i tm x, type_at p q i = Some tm -> field v q i = Some x -> reads tm x) -> d_members (D p) v l ->
      forall cur found rest, shaped T cur = true ->
      (forall q i tm, type_at p q i = Some tm -> field cur (pre ++ q) i = Some (default tm)) ->
      exists cur' found', rd cur found (l ++ rest) = rd cur' found' rest /\ shaped T cur' = true /\
        (forall q i tm, type_at p q i = Some tm -> field cur' (pre ++ q) i = field v q i) /\
        (forall q' i', (forall q, q' <> pre ++ q) -> field cur' q' i' = field cur q' i').

    Lemma parent_walk : forall pre ps vs s l, (forall p, In p ps -> walks p) -> parent_members (map D ps) vs l ->
      (forall a p, nth_error ps a = Some p -> placed p (pre ++ [s + a])) -> all2b (map shaped ps) vs = true ->
      (forall a p w q i tm x, nth_error ps a = Some p -> nth_error vs a = Some w -> type_at p q i = Some tm -> field w q i = Some x -> reads tm x) ->
      forall cur found rest, shaped T cur = true ->
      (forall a p q i tm, nth_error ps a = Some p -> type_at p q i = Some tm -> field cur (pre ++ (s + a) :: q) i = Some (default tm)) ->
      exists cur' found', rd cur found (l ++ rest) = rd cur' found' rest /\ shaped T cur' = true /\
        (forall a p w q i tm, nth_error ps a = Some p -> nth_error vs a = Some w -> type_at p q i = Some tm -> field cur' (pre ++ (s + a) :: q) i = field w q i) /\
        (forall q' i', (forall a q, s <= a -> q' <> pre ++ a :: q) -> field cur' q' i' = field cur q' i').
    Proof.
      intros pre. induction ps as [|p ps IH]; intros [|w vs] s l Wk H Hp Sv Hr cur found rest Sc Hd; cbn [map parent_members] in H; try contradiction.
      - subst l. exists cur, found. split; [reflexivity|]. split; [exact Sc|]. split; [intros [|a] p w q i tm E; discriminate E|auto].
      - destruct H as (la & lb & -> & Ha & Hb). cbn [map all2b] in Sv. apply andb_prop in Sv as [Sw Sv]. rewrite <- app_assoc.
        destruct (Wk p (or_introl eq_refl) (pre ++ [s]) w la) with (cur := cur) (found := found) (rest := lb ++ rest) as (c1 & f1 & E1 & S1 & Fv1 & Fo1); auto.
        { specialize (Hp 0 p eq_refl). now rewrite Nat.add_0_r in Hp. }
        { intros q i tm x. apply (Hr 0 p w q i tm x eq_refl eq_refl). }
        { intros q i tm TA. rewrite <- app_assoc. specialize (Hd 0 p q i tm eq_refl TA). now rewrite Nat.add_0_r in Hd. }
        destruct (IH vs (S s) lb) with (cur := c1) (found := f1) (rest := rest) as (c2 & f2 & E2 & S2 & Fv2 & Fo2); auto.
        { intros; apply Wk; now right. }
        { intros a p' E. rewrite Nat.add_succ_comm. now apply Hp. }
        { intros a p' w' q i tm x Ep Ew. apply (Hr (S a) p' w' q i tm x Ep Ew). }
        { intros a p' q i tm Ep TA. rewrite Fo1; [rewrite Nat.add_succ_comm; now apply (Hd (S a) p')|].
          intros q0 Q. rewrite <- app_assoc in Q. apply app_inv_head in Q. cbn [app] in Q. injection Q. lia. }
        exists c2, f2. split; [now rewrite E1|]. split; [exact S2|]. split.
        + intros [|a] p' w' q i tm Ep Ew TA; cbn [nth_error] in Ep, Ew.
          * injection Ep as <-. injection Ew as <-. rewrite Nat.add_0_r. rewrite Fo2.
            -- rewrite <- (Fv1 q i tm TA), <- app_assoc. reflexivity.
            -- intros a q0 L Q. apply app_inv_head in Q. injection Q. lia.
          * rewrite <- Nat.add_succ_comm. eauto.
        + intros q' i' Q. rewrite Fo2 by (intros a q L; apply Q; lia). apply Fo1. intros q. rewrite <- app_assoc. apply (Q s q). lia.
    Qed.

    Lemma walk : forall p, wf p = true -> is_class p = true -> walks p.
    Proof.
      apply (ty_ind' (fun p => wf p = true -> is_class p = true -> walks p)); try discriminate.
      intros si ms ps _ Hps W _ pre v l P S Hr Hm cur found rest Sc Hd. destruct (wf_struct _ _ _ W) as (L & Wm & Wp).
      cbn [sense_of d_members] in Hm. destruct Hm as (own & par & la & lb & -> & -> & Ho & Hp).
      destruct (shaped_struct _ _ _ _ S) as (own' & par' & Q & So & Sp). injection Q as <- <-. rewrite <- app_assoc.
      destruct (own_walk pre _ ms own 0 la Ho) with (cur := cur) (found := found) (rest := lb ++ rest) as (c1 & f1 & E1 & S1 & Fv1 & Fo1); auto.
      { intros i n tm En Et. specialize (P [] i n tm En Et). rewrite app_nil_r in P. exact P. }
      { intros i tm x Et Ex. split; [apply (Hr [] i tm x Et Ex)|].
        assert (Hn : nth_error (map shaped ms) i = Some (shaped tm)) by now rewrite nth_error_map, Et.
        destruct (all2b_nth _ _ _ _ So Hn) as (y & Ey & Sy). congruence. }
      { intros i tm Et. specialize (Hd [] i tm Et). rewrite app_nil_r in Hd. exact Hd. }
      destruct (parent_walk pre ps par 0 lb) with (cur := c1) (found := f1) (rest := rest) as (c2 & f2 & E2 & S2 & Fv2 & Fo2); auto.
      { intros p Ip. rewrite Forall_forall in Hps. destruct (Wp p Ip). auto. }
      { intros a p Ep q i n tm En Et. rewrite <- app_assoc. apply (P (a :: q) i n tm); cbn [name_at type_at]; now rewrite Ep. }
      { intros a p w q i tm x Ep Ew Et Ex. apply (Hr (a :: q) i tm x); cbn [type_at field]; [now rewrite Ep|now rewrite Ew]. }
      { intros a p q i tm Ep Et. rewrite Fo1; [apply (Hd (a :: q)); cbn [type_at]; now rewrite Ep|].
        left. intro Q. rewrite <- (app_nil_r pre) in Q at 2. apply app_inv_head in Q. discriminate Q. }
      exists c2, f2. split; [now rewrite E1|]. split; [exact S2|]. split.
      - intros [|a q] i tm Et; cbn [type_at] in Et.
        + rewrite app_nil_r. rewrite Fo2 by (intros a q _ Q; rewrite <- (app_nil_r pre) in Q at 1; apply app_inv_head in Q; discriminate Q).
          cbn [field]. destruct (nth_error own i) as [x|] eqn:Ex; [apply (Fv1 i x Ex)|].
          assert (Hn : nth_error (map shaped ms) i = Some (shaped tm)) by now rewrite nth_error_map, Et.
          destruct (all2b_nth _ _ _ _ So Hn) as (y & Ey & Sy). congruence.
        + destruct (nth_error ps a) as [p|] eqn:Ep; [|discriminate Et]. cbn [field].
          assert (Hn : nth_error (map shaped ps) a = Some (shaped p)) by now rewrite nth_error_map, Ep.
          destruct (all2b_nth _ _ _ _ Sp Hn) as (w & Ew & Sw). rewrite Ew. apply (Fv2 a p w q i tm Ep Ew Et).
      - intros q' i' Q. rewrite Fo2 by (intros a q _; apply Q). apply Fo1. left. rewrite <- (app_nil_r pre). apply Q.
    Qed.
  End Walk.

  (** Every name of a complete value is in its document. *)
  Lemma own_named : forall ns ts ds vs l i n, own_members (A := A) Key ns ts ds vs l -> rel2 (map (fun t v => ~ left_out t v) ts) vs ->
    nth_error ns i = Some n -> exists k j, In (k, j) l /\ Key n k.
  Proof.
    induction ns as [|n0 ns IH]; intros [|t ts] [|d ds] [|v vs] l [|i] n H C E; try discriminate E; cbn [own_members map rel2 nth_error] in *; try contradiction;
      destruct C as [C0 C]; destruct H as [[H0 H]|(_ & [k j] & r & -> & [Ek Ev] & H)]; try contradiction.
    - injection E as <-. exists k, j. split; [now left|exact Ek].
    - destruct (IH ts ds vs r i n H C E) as (k' & j' & Q & K). exists k', j'. split; [now right|exact K].
  Qed.
  Lemma parent_named : forall ps vs l a p w n, parent_members (map D ps) vs l -> nth_error ps a = Some p -> nth_error vs a = Some w ->
    (forall l', d_members (D p) w l' -> exists k j, In (k, j) l' /\ Key n k) -> exists k j, In (k, j) l /\ Key n k.
  Proof.
    induction ps as [|p0 ps IH]; intros [|w0 vs] l [|a] p w n H Ep Ew Hn; try discriminate; cbn [map parent_members nth_error] in *;
      destruct H as (la & lb & -> & Ha & Hb).
    - injection Ep as <-. injection Ew as <-. destruct (Hn la Ha) as (k & j & Q & K). exists k, j. split; [apply in_or_app; now left|exact K].
    - destruct (IH vs lb a p w n Hb Ep Ew Hn) as (k & j & Q & K). exists k, j. split; [apply in_or_app; now right|exact K].
  Qed.
  Lemma named : forall p, wf p = true -> forall v l q i n, shaped p v = true -> complete p v -> d_members (D p) v l ->
    name_at p q i = Some n -> exists k j, In (k, j) l /\ Key n k.
  Proof.
    apply (ty_ind' (fun p => wf p = true -> forall v l q i n, shaped p v = true -> complete p v -> d_members (D p) v l ->
      name_at p q i = Some n -> exists k j, In (k, j) l /\ Key n k)); try (intros; contradiction).
    intros si ms ps _ Hps W v l q i n S Cm Hm Hn. destruct (wf_struct _ _ _ W) as (L & Wm & Wp).
    cbn [sense_of d_members] in Hm. destruct Hm as (own & par & la & lb & -> & -> & Ho & Hp).
    destruct (shaped_struct _ _ _ _ S) as (own' & par' & Q & So & Sp). injection Q as <- <-.
    unfold complete in Cm. cbn [each] in Cm. destruct Cm as (C0 & Co & Cp). destruct q as [|a q]; cbn [name_at] in Hn.
    - destruct (own_named _ _ _ _ _ i n Ho C0 Hn) as (k & j & Q & K). exists k, j. split; [apply in_or_app; now left|exact K].
    - destruct (nth_error ps a) as [p|] eqn:Ep; [|discriminate Hn].
      assert (Hs : nth_error (map shaped ps) a = Some (shaped p)) by now rewrite nth_error_map, Ep.
      destruct (all2b_nth _ _ _ _ Sp Hs) as (w & Ew & Sw). rewrite Forall_forall in Hps. assert (Ip := nth_error_In _ _ Ep).
      destruct (parent_named ps par lb a p w n Hp Ep Ew) as (k & j & Q & K).
      { intros l' Hl'. apply (Hps p Ip) with (v := w) (q := q) (i := i); auto; [now apply Wp|].
        apply (rel2_nth _ _ a _ _ Cp); [now rewrite nth_error_map, Ep|exact Ew]. }
      exists k, j. split; [apply in_or_app; now right|exact K].
  Qed.

  (** ** The conditions under which the reader gives the value back *)
  Definition fine_as (by_value : bool) (t : ty) (v : val) : Prop :=
    wf t = true /\ distinct_names marker t /\ shaped t v = true /\ each valid_here t v /\ no_null_like blank t v /\
    (m <> Weak -> untagged by_value t = true) /\ (m = Exact -> complete t v /\ no_overrides t).

  Lemma class_reads : forall t v l, is_class t = true -> fine_as false t v ->
    (forall q i tm x, type_at t q i = Some tm -> field v q i = Some x -> reads tm x) -> d_members (D t) v l ->
    exists found, in_members sc m (i_scan (I t)) (default t) [] l = Ok (v, found) /\ (m = Exact -> forallb (fun r => existsb (beq r) found) (required t) = true).
  Proof.
    intros t v l C (W & Dn & S & Vh & Nn & Ut & Ex) Hr Hm.
    assert (ND : NoDup (member_names t)). { apply types_here in Dn. destruct t; try discriminate C. exact (proj1 Dn). }
    destruct (walk t W C t W C [] v l) with (cur := default t) (found := @nil bytes) (rest := @nil (bytes * tree A)) as (c & f & E & Sc & Fv & _); auto.
    { intros q i n tm Hn Ht. split; [now apply nodup_path|exact Ht]. }
    { apply default_shaped. exact W. }
    { intros q i tm Ht. now apply field_default. }
    rewrite app_nil_r in E. cbn [in_members] in E. assert (Q : c = v) by (apply (field_ext t W C); auto). subst c.
    exists f. split; [exact E|]. intros Hm'. destruct (Ex Hm') as [Cm No].
    apply forallb_forall. intros n Hin. apply existsb_In. apply types_here in No. apply required_name in Hin as (q & i & Hin); [|exact No].
    destruct (named t W v l q i n S Cm Hm Hin) as (k & j & Hk & K).
    assert (Sd := default_shaped t W). apply (members_found sc m marker t W C l _ _ _ _ Sd E). right. exists k, j.
    split; [exact Hk|]. split; [now apply HKey|]. rewrite (nodup_path t q i n ND Hin). discriminate.
  Qed.
  Lemma class_value : forall t v l, is_class t = true -> fine_as false t v ->
    (forall q i tm x, type_at t q i = Some tm -> field v q i = Some x -> reads tm x) -> d_members (D t) v l ->
    i_parse (I t) (default t) (Obj l) = Ok v.
  Proof.
    intros t v l C Fi Hr Hm. rewrite parse_class by exact C. cbn [in_map].
    destruct (class_reads t v l C Fi Hr Hm) as (f & E & X). rewrite E. cbn [bind]. destruct m; auto. now rewrite X.
  Qed.
  Lemma not_member : forall t n, ~ In n (member_names t) -> find_path t n = None.
  Proof. intros t n H. destruct (find_path t n) as [[q i]|] eqn:F; [|reflexivity]. exfalso. apply H. apply find_path_name in F. eauto using name_in. Qed.

  (** ** Maps, arrays and pointers *)
  Lemma map_set_last : forall k x d, (forall k' v', In (k', v') d -> bltb k' k = true) -> map_find k d = None /\ map_set k x d = d ++ [(k, x)].
  Proof.
    induction d as [|[a w] d IH]; intros H; cbn [map_find map_set app]; [auto|].
    assert (La := H a w (or_introl eq_refl)). destruct IH as [IH1 IH2]; [intros; eapply H; right; eassumption|].
    assert (Ba : beq a k = false). { destruct (beq a k) eqn:B; [|reflexivity]. apply beq_eq in B. subst. now rewrite bltb_irr in La. }
    assert (Lb : bltb k a = false). { destruct (bltb k a) eqn:B; [|reflexivity]. assert (X := bltb_trans _ _ _ La B). now rewrite bltb_irr in X. }
    rewrite Ba, Lb, IH2. auto.
  Qed.
  Lemma map_add_last : forall k x d, (forall k' v', In (k', v') d -> bltb k k' = false) -> map_add k x d = d ++ [(k, x)].
  Proof.
    induction d as [|[a w] d IH]; intros H; cbn [map_add app]; [reflexivity|]. rewrite (H a w (or_introl eq_refl)), IH; [reflexivity|]. intros. eapply H. right. eassumption.
  Qed.
  Lemma ordered_mid : forall mk a k x b, ordered mk (a ++ (k, x) :: b) -> forall k' v', In (k', v') a -> precedes mk k' k.
  Proof.
    intro mk. induction a as [|[k0 v0] a IH]; intros k x b O k' v' Hin; [destruct Hin|]. cbn [app] in O. inversion O as [|? ? ? H1 H2]; subst.
    destruct Hin as [Q|Hin]; [injection Q as <- <-; eapply H1; apply in_or_app; right; now left|eauto].
  Qed.
  Lemma map_reads : forall fw t l d es found, ordered fw (d ++ l) -> Forall (fun kv => reads t (snd kv)) l ->
    Forall2 (fun kv e => entry Key (fst kv) (d_val (D t) (snd kv)) e) l es ->
    exists f, in_members sc m (in_scan_map fw (I t) (default t)) (VMap d) found es = Ok (VMap (d ++ l), f).
  Proof.
    intros fw t. induction l as [|[k x] l IH]; intros d es found O R F; inversion F as [|? [kr j] ? es' [Ek Ev] F']; subst; cbn [in_members].
    - rewrite app_nil_r. eauto.
    - cbn [fst snd] in Ek, Ev. rewrite (HKey _ _ Ek). cbn [bind in_scan_map]. inversion R as [|? ? Rx R']; subst. cbn [snd] in Rx.
      destruct (IH (d ++ [(k, x)]) es' (k :: found)) as (f & E); [now rewrite <- app_assoc|exact R'|exact F'|]. rewrite <- app_assoc in E. cbn [app] in E.
      exists f. assert (Om := ordered_mid _ _ _ _ _ O). destruct fw; cbn [precedes] in Om.
      + destruct (map_set_last k x d Om) as [F1 F2]. rewrite (Rx j Ev). cbn [bind]. rewrite F1, F2. exact E.
      + destruct (map_set_last k x d Om) as [F1 F2]. rewrite F1, (Rx j Ev). cbn [bind]. rewrite F2. exact E.
      + rewrite (Rx j Ev). cbn [bind]. rewrite (map_add_last k x d Om). exact E.
  Qed.
  Lemma rel3_len : forall {X Y} (rs : list (X -> Y -> Prop)) l js, rel3 rs l js -> length l = length rs /\ length js = length rs.
  Proof.
    induction rs as [|r rs IH]; intros [|x l] [|y js] H; cbn in *; try contradiction; [auto|]. destruct H as [_ H]. apply IH in H. lia.
  Qed.
  Lemma rel3_nth : forall {X Y} (rs : list (X -> Y -> Prop)) l js n r x y, rel3 rs l js -> nth_error rs n = Some r -> nth_error l n = Some x ->
    nth_error js n = Some y -> r x y.
  Proof.
    induction rs as [|r0 rs IH]; intros [|x0 l] [|y0 js] [|n] r x y H Er Ex Ey; try discriminate; cbn [rel3 nth_error] in *; destruct H as [H0 H].
    - injection Er as <-. injection Ex as <-. injection Ey as <-. exact H0.
    - exact (IH l js n r x y H Er Ex Ey).
  Qed.
  Lemma tuple_reads : forall ts l js, rel3 (map d_val (map D ts)) l js ->
    (forall n t x, nth_error ts n = Some t -> nth_error l n = Some x -> reads t x) ->
    in_elems (in_elem_fixed (map I ts)) 0 (VList (map default ts)) js = Ok (VList l).
  Proof.
    intros ts l js R Hr. destruct (rel3_len _ _ _ R) as [L1 L2]. rewrite !map_length in L1, L2.
    apply elems_fixed; [lia|now rewrite map_length|]. exists l. rewrite map_length. split; [reflexivity|]. split; [exact L1|]. split.
    - intros n [H|H]; [lia|]. rewrite !(proj2 (nth_error_None _ _)); [reflexivity|rewrite map_length; lia|lia].
    - intros n j t x Hj Ht Hx. cbn [Nat.add] in *. rewrite nth_error_map, Ht in Hx. injection Hx as <-.
      destruct (nth_error l n) as [y|] eqn:Ey.
      2:{ apply nth_error_None in Ey. assert (n < length ts) by (apply nth_error_Some; congruence). lia. }
      exists y. split; [|reflexivity]. apply (Hr n t y Ht Ey). apply (rel3_nth _ _ _ n _ _ _ R); auto. now rewrite map_map, nth_error_map, Ht.
  Qed.
  Lemma rel3_repeat : forall {X Y} (r : X -> Y -> Prop) l js, Forall2 r l js -> rel3 (repeat r (length l)) l js.
  Proof. induction 1; cbn; auto. Qed.
  Lemma not_null : forall t v j, fine_as true t v -> d_val (D t) v j -> null_like blank t v = false -> null_tree sc j = false.
  Proof.
    assert (E : forall t v j, each valid_here t v -> d_val (D t) v j -> null_like blank t v = false -> null_tree sc j = false).
    { apply (ty_ind' (fun t => forall v j, each valid_here t v -> d_val (D t) v j -> null_like blank t v = false -> null_tree sc j = false)); cbn [sense_of d_simple d_val].
      - intros i v j V (z & a & -> & -> & H) _. apply each_here in V. exact (proj2 (HInt i z a V H)).
      - intros v j V (z & a & -> & -> & H) _. exact (proj2 (HBool z a H)).
      - intros v j V (z & a & -> & -> & H) N. cbn [null_like null_tree] in *. now rewrite (proj2 (HStr z a H)).
      - intros l v j V (z & n & a & -> & En & -> & H) N. cbn [null_like null_tree] in *. rewrite En in N. now rewrite (proj2 (HStr n a H)).
      - intros co t _ v j V (l & js & -> & -> & _) _. reflexivity.
      - intros n t _ v j V (l & js & -> & _ & -> & _) _. reflexivity.
      - intros ts _ v j V (l & js & -> & -> & _) _. reflexivity.
      - intros fw t _ v j V (l & js & -> & -> & _) _. reflexivity.
      - intros t IH v j V [[-> _]|(x & -> & H)] N; [discriminate N|]. apply (IH x j); auto. exact (proj2 V).
      - intros t IH v j V (x & -> & H) N. apply (IH x j); auto. exact (proj2 V).
      - intros si ms ps _ _ v j V H N. destruct (si_mark si); [destruct H as (e & l & -> & _)|destruct H as (l & -> & _)]; reflexivity.
      - intros cs o _ v j V [[-> _]|(k & c & d & x & -> & _ & _ & (e & l & -> & _))] N; [discriminate N|reflexivity].
      - intros cs _ v j V (k & c & d & x & -> & _ & _ & (e & l & -> & _)) N. reflexivity. }
    intros t v j (_ & _ & _ & V & _). now apply E.
  Qed.
  Lemma enum_back : forall l z n, NoDup (map snd l) -> enum_name l z = Some n -> enum_value l n = Some z.
  Proof.
    induction l as [|[y m0] l IH]; intros z n N E; cbn in *; [discriminate|]. inversion N as [|? ? N0 N']; subst.
    destruct (Z.eqb_spec y z) as [->|_].
    - injection E as ->. now rewrite beq_refl.
    - destruct (beq m0 n) eqn:B; [|auto]. apply beq_eq in B. subst. exfalso. apply N0.
      clear -E. induction l as [|[y m1] l IH]; cbn in *; [discriminate|]. destruct (y =? z)%Z; [injection E as ->; now left|right; auto].
  Qed.
  Lemma class_back : forall cs k c, NoDup (map class_name cs) -> nth_error cs k = Some c -> find_class cs (class_name c) = Some k.
  Proof.
    induction cs as [|c0 cs IH]; intros [|k] c N E; try discriminate E; cbn in *; inversion N as [|? ? N0 N']; subst.
    - injection E as ->. now rewrite beq_refl.
    - destruct (beq (class_name c0) (class_name c)) eqn:B; [|now rewrite (IH k c)]. apply beq_eq in B. exfalso. apply N0. rewrite B.
      apply List.in_map. eauto using nth_error_In.
  Qed.

  (** ** A document of a value is read as that value *)
  Theorem document_read_as : forall t v, fine_as true t v -> reads t v.
  Proof.
    apply (ty_strong (fun t => forall v, fine_as true t v -> reads t v)). intros t IH v Fi j H. assert (Fi' := Fi).
    destruct Fi as (W & Dn & S & Vh & Nn & Ut & Ex).
    assert (V0 := each_here _ _ _ Vh). assert (N0 := each_here _ _ _ Nn). assert (D0 := types_here _ _ Dn).
    (* the members of a class *)
    assert (Cls : forall c x, is_class c = true -> fine_as false c x -> tsize c <= tsize t ->
              forall q i tm y, type_at c q i = Some tm -> field x q i = Some y -> reads tm y).
    { intros c x Cc (W1 & D1 & S1 & V1 & N1 & U1 & E1) Sz q i tm y T F. apply IH; [apply type_at_size in T; lia|].
      split; [now apply (type_at_good q c i tm)|]. split; [eapply types_at; eassumption|]. split; [eapply shaped_at; eassumption|].
      split; [eapply each_field; eassumption|]. split; [eapply each_field; eassumption|]. split.
      - intros Hm. eapply untagged_at; eauto.
      - intros Hm. destruct (E1 Hm). split; [eapply each_field; eassumption|eapply types_at; eassumption]. }
    (* the class of a pointer or of a variant *)
    assert (Pick : forall cs k c x l, (forall c', In c' cs -> tsize c' < tsize t) -> (forall c', In c' cs -> is_class c' && wf c' = true) ->
              all_of (map (types (fun t => match t with
                  | TStruct i _ _ => NoDup (member_names t) /\ (si_mark i = true -> ~ In marker (member_names t))
                  | TEnum l => NoDup (map snd l) | TPoly cs _ | TVariant cs => NoDup (map class_name cs) | _ => True end)) cs) ->
              nth_error cs k = Some c ->
              match nth_error (map shaped cs) k with Some f => f x | None => false end = true ->
              match nth_error (map (each valid_here) cs) k with Some f => f x | None => False end ->
              match nth_error (map (no_null_like blank) cs) k with Some f => f x | None => False end ->
              (m <> Weak -> forallb (untagged false) cs = true) ->
              (m = Exact -> match nth_error (map complete cs) k with Some f => f x | None => False end /\ all_of (map no_overrides cs)) ->
              d_members (D c) x l -> i_parse (I c) (default c) (Obj l) = Ok x).
    { intros cs k c x l Hz Hw Hd Hc Hs Hv Hn Hu He Hm. assert (Ic := nth_error_In _ _ Hc).
      rewrite nth_error_map, Hc in Hs, Hv, Hn. cbn [option_map] in Hs, Hv, Hn. destruct (andb_prop _ _ (Hw c Ic)) as [Cc Wc].
      assert (Fc : fine_as false c x).
      { split; [exact Wc|]. split; [exact (all_of_In _ _ Hd (List.in_map _ _ _ Ic))|]. split; [exact Hs|]. split; [exact Hv|]. split; [exact Hn|].
        split; [intros Q; specialize (Hu Q); rewrite forallb_forall in Hu; auto|].
        intros Q. destruct (He Q) as [H1 H2]. rewrite nth_error_map, Hc in H1. split; [exact H1|exact (all_of_In _ _ H2 (List.in_map _ _ _ Ic))]. }
      apply class_value; auto. apply Cls; auto. specialize (Hz c Ic). lia. }
    destruct t as [i| | |l|co t|n t|ts|fw t|t|t|si ms ps|cs o|cs]; cbn [sense_of d_simple d_val] in H.
    - destruct H as (z & a & -> & -> & H). cbn [interp i_parse in_value]. now rewrite (proj1 (HInt i z a V0 H)).
    - destruct H as (z & a & -> & -> & H). cbn [interp i_parse in_value]. now rewrite (proj1 (HBool z a H)).
    - destruct H as (z & a & -> & -> & H). cbn [interp i_parse in_value]. now rewrite (proj1 (HStr z a H)).
    - destruct H as (z & n & a & -> & En & -> & H). cbn [interp i_parse in_value]. rewrite (proj1 (HStr n a H)). cbn [bind]. now rewrite (enum_back l z n D0 En).
    - destruct H as (l & js & -> & -> & H). cbn [interp i_parse in_array default]. apply elems_seq. exists l. split; [f_equal; symmetry; exact (fold_add co l [] V0)|]. apply wf_seq in W.
      assert (R : Forall (reads t) l).
      { apply Forall_forall. intros x Hx. apply IH; [cbn [tsize]; lia|]. split; [exact W|]. split; [exact (proj2 Dn)|].
        cbn [shaped] in S. rewrite forallb_forall in S. destruct Vh as [_ Vh]. destruct Nn as [_ Nn]. rewrite Forall_forall in Vh, Nn.
        split; [exact (S x Hx)|]. split; [exact (Vh x Hx)|]. split; [exact (Nn x Hx)|]. split; [exact Ut|]. intros Hm. destruct (Ex Hm) as [[_ C] No]. rewrite Forall_forall in C. split; [exact (C x Hx)|exact (proj2 No)]. }
      clear -H R. induction H; inversion R; subst; constructor; auto.
    - destruct H as (l & js & -> & L & -> & H). rewrite parse_arr. cbn [interp i_parse in_array default]. rewrite <- (map_repeat default).
      apply tuple_reads.
      + rewrite !map_repeat. rewrite <- L. now apply rel3_repeat.
      + intros k t' x Ht Hx. assert (Q : t' = t) by (apply nth_error_In, repeat_spec in Ht; exact Ht). subst t'. apply nth_error_In in Hx.
        apply IH; [cbn [tsize]; lia|]. split; [exact W|]. split; [exact (proj2 Dn)|].
        cbn [shaped] in S. apply andb_prop in S as [_ S]. rewrite forallb_forall in S. destruct Vh as [_ Vh]. destruct Nn as [_ Nn]. rewrite Forall_forall in Vh, Nn.
        split; [exact (S x Hx)|]. split; [exact (Vh x Hx)|]. split; [exact (Nn x Hx)|]. split; [exact Ut|]. intros Hm. destruct (Ex Hm) as [[_ C] No]. rewrite Forall_forall in C. split; [exact (C x Hx)|exact (proj2 No)].
    - destruct H as (l & js & -> & -> & H). cbn [interp i_parse in_array default]. apply tuple_reads; [exact H|].
      intros k t x Ht Hx. assert (It := nth_error_In _ _ Ht). apply IH; [cbn [tsize]; assert (X := list_sum_in ts t It); lia|].
      cbn [wf] in W. rewrite forallb_forall in W. split; [auto|]. split; [apply (all_of_In _ _ (proj2 Dn)), List.in_map, It|].
      assert (Hn : nth_error (map shaped ts) k = Some (shaped t)) by now rewrite nth_error_map, Ht.
      cbn [shaped] in S. destruct (all2b_nth _ _ _ _ S Hn) as (y & Ey & Sy). rewrite Ey in Hx. injection Hx as ->.
      split; [exact Sy|]. split; [apply (rel2_nth _ _ k _ _ (proj2 Vh)); [now rewrite nth_error_map, Ht|exact Ey]|].
      split; [apply (rel2_nth _ _ k _ _ (proj2 Nn)); [now rewrite nth_error_map, Ht|exact Ey]|].
      split; [intros Hm; specialize (Ut Hm); cbn [untagged] in Ut; rewrite forallb_forall in Ut; auto|].
      intros Hm. destruct (Ex Hm) as [[_ C] No]. split; [apply (rel2_nth _ _ k _ _ C); [now rewrite nth_error_map, Ht|exact Ey]|].
      apply (all_of_In _ _ (proj2 No)), List.in_map, It.
    - destruct H as (l & es & -> & -> & H). cbn [interp i_parse in_map default].
      destruct (map_reads fw t l [] es []) as (f & E).
      + exact (proj1 V0).
      + apply Forall_forall. intros [k x] Hx. apply IH; [cbn [tsize]; lia|]. split; [exact W|]. split; [exact (proj2 Dn)|].
        cbn [shaped] in S. rewrite forallb_forall in S. destruct Vh as [_ Vh]. destruct Nn as [_ Nn]. rewrite Forall_forall in Vh, Nn.
        split; [exact (S _ Hx)|]. split; [exact (Vh _ Hx)|]. split; [exact (Nn _ Hx)|]. split; [exact Ut|].
        intros Hm. destruct (Ex Hm) as [[_ C] No]. rewrite Forall_forall in C. split; [exact (C _ Hx)|exact (proj2 No)].
      + exact H.
      + rewrite E. cbn [bind app forallb]. now destruct m.
    - assert (Fx : forall x, v = VPtr (Some x) -> fine_as true t x).
      { intros x ->. split; [exact W|]. split; [exact (proj2 Dn)|]. split; [exact S|]. split; [exact (proj2 Vh)|]. split; [exact (proj2 Nn)|].
        split; [exact Ut|]. intros Hm. destruct (Ex Hm) as [C No]. split; [exact (proj2 C)|exact (proj2 No)]. }
      cbn [interp i_parse]. unfold in_pointer. destruct H as [[-> (a & -> & H)]|(x & -> & H)].
      + cbn [null_tree skippable]. destruct (HNull a H) as [-> ->]. reflexivity.
      + rewrite (not_null t x j (Fx x eq_refl) H N0). rewrite (IH t ltac:(cbn [tsize]; lia) x (Fx x eq_refl) j H). reflexivity.
    - destruct H as (x & -> & H). cbn [interp i_parse default]. rewrite (IH t ltac:(cbn [tsize]; lia) x); [reflexivity| |exact H].
      split; [exact W|]. split; [exact (proj2 Dn)|]. split; [exact S|]. split; [exact (proj2 Vh)|]. split; [exact (proj2 Nn)|].
      split; [exact Ut|]. intros Hm. destruct (Ex Hm) as [C No]. split; [exact (proj2 C)|exact (proj2 No)].
    - set (T := TStruct si ms ps) in *.
      assert (Ff : fine_as false T v).
      { split; [exact W|]. split; [exact Dn|]. split; [exact S|]. split; [exact Vh|]. split; [exact Nn|]. split; [|exact Ex]. intros Hm. apply untagged_weak. auto. }
      destruct (si_mark si) eqn:Mk.
      + destruct H as ([k jt] & l & -> & [Hk (a & Ja & Ht)] & H). cbn [fst snd] in Hk, Ja. subst jt.
        assert (Hw : m = Weak).
        { destruct m; [reflexivity| |]; exfalso; assert (Hu := Ut ltac:(discriminate)); subst T; cbn [untagged] in Hu; rewrite Mk in Hu; discriminate Hu. }
        rewrite parse_class by reflexivity. cbn [in_map in_members]. rewrite (HKey _ _ Hk). cbn [bind].
        rewrite (scan_unknown sc m marker T (default T) marker (Scal a) W eq_refl (default_shaped T W)) by (apply not_member, (proj2 D0); auto).
        cbn [skippable]. rewrite (proj2 (HTag _ _ Ht)).
        destruct (class_reads T v l eq_refl Ff (Cls T v eq_refl Ff ltac:(lia)) H) as (f & E & _). rewrite E. rewrite Hw. reflexivity.
      + destruct H as (l & -> & H). exact (class_value T v l eq_refl Ff (Cls T v eq_refl Ff (le_n _)) H).
    - cbn [interp i_parse]. unfold in_pointer. destruct H as [[-> (a & -> & H)]|(k & c & d & x & -> & Hc & Hd & (e & l & -> & He & H))].
      + cbn [null_tree skippable]. destruct (HNull a H) as [-> ->]. reflexivity.
      + cbn [null_tree class_of]. destruct e as [kr je]. destruct He as [Hk (a & Ja & Ht)]. cbn [fst snd] in Hk, Ja. subst je.
        rewrite (HKey _ _ Hk). cbn [bind]. rewrite beq_refl. rewrite (proj1 (HTag _ _ Ht)). cbn [bind]. rewrite (class_back cs k c D0 Hc).
        rewrite nth_error_map in Hd. rewrite nth_error_map, Hc in *. cbn [option_map] in *. injection Hd as <-.
        rewrite (Pick cs k c x l); [reflexivity|..]; auto.
        * intros c' Ic. cbn [tsize]. assert (X := list_sum_in cs c' Ic). lia.
        * cbn [wf] in W. rewrite forallb_forall in W. auto.
        * exact (proj2 Dn).
        * exact (proj2 Vh).
        * exact (proj2 Nn).
        * intros Hm. destruct (Ex Hm) as [C No]. split; [exact (proj2 C)|exact (proj2 No)].
    - destruct H as (k & c & d & x & -> & Hc & Hd & (e & l & -> & He & H)). cbn [interp i_parse class_of].
      destruct e as [kr je]. destruct He as [Hk (a & Ja & Ht)]. cbn [fst snd] in Hk, Ja. subst je.
      rewrite (HKey _ _ Hk). cbn [bind]. rewrite beq_refl. rewrite (proj1 (HTag _ _ Ht)). cbn [bind]. rewrite (class_back cs k c D0 Hc).
      rewrite nth_error_map in Hd. rewrite nth_error_map, Hc in *. cbn [option_map] in *. injection Hd as <-.
      cbn [wf] in W. apply andb_prop in W as [W _]. rewrite forallb_forall in W.
      rewrite (Pick cs k c x l); [reflexivity|..]; auto.
      + intros c' Ic. cbn [tsize]. assert (X := list_sum_in cs c' Ic). lia.
      + exact (proj2 Dn).
      + exact (proj2 Vh).
      + exact (proj2 Nn).
      + intros Hm. destruct (Ex Hm) as [C No]. split; [exact (proj2 C)|exact (proj2 No)].
  Qed.
End Read.

Lemma null_like_none : forall t v, null_like (fun _ => false) t v = null_written t v.
Proof.
  apply (ty_ind' (fun t => forall v, null_like (fun _ => false) t v = null_written t v)); intros; destruct v as [| | | | |[x|]|[x|]| |]; try reflexivity; cbn [null_like null_written]; auto.
  destruct (enum_name l z); reflexivity.
Qed.
Lemma each_mono : forall (P Q : ty -> val -> Prop), (forall t v, P t v -> Q t v) -> forall t v, each P t v -> each Q t v.
Proof.
  intros P Q H.
  assert (G : forall ts, Forall (fun t => forall v, each P t v -> each Q t v) ts -> forall l, rel2 (map (each P) ts) l -> rel2 (map (each Q) ts) l).
  { intros ts F. induction F as [|t ts Ht F IH]; intros [|x l] R; cbn [map rel2] in *; auto. destruct R. auto. }
  apply (ty_ind' (fun t => forall v, each P t v -> each Q t v)); cbn [each].
  - intros i v [V _]. auto.
  - intros v [V _]. auto.
  - intros v [V _]. auto.
  - intros l v [V _]. auto.
  - intros co t IH v [V1 V2]. split; [auto|]. destruct v; auto. apply Forall_impl with (2 := V2). auto.
  - intros n t IH v [V1 V2]. split; [auto|]. destruct v; auto. apply Forall_impl with (2 := V2). auto.
  - intros ts IH v [V1 V2]. split; [auto|]. destruct v; auto.
  - intros fw t IH v [V1 V2]. split; [auto|]. destruct v; auto. apply Forall_impl with (2 := V2). auto.
  - intros t IH v [V1 V2]. split; [auto|]. destruct v as [| | | | |[]| | |]; auto.
  - intros t IH v [V1 V2]. split; [auto|]. destruct v as [| | | | | |[]| |]; auto.
  - intros si ms ps IHm IHp v [V1 V2]. split; [auto|]. destruct v; auto. destruct V2 as [Vo Vp].
    split; auto.
  - intros cs o IH v [V1 V2]. split; [auto|]. destruct v as [| | | | |[[]|]| | |]; auto. rewrite nth_error_map in *. destruct (nth_error cs i) eqn:E; cbn in *; auto.
    rewrite Forall_forall in IH. eauto using nth_error_In.
  - intros cs IH v [V1 V2]. split; [auto|]. destruct v; auto. rewrite nth_error_map in *. destruct (nth_error cs i) eqn:E; cbn in *; auto.
    rewrite Forall_forall in IH. eauto using nth_error_In.
Qed.
Lemma no_null_like_none : forall t v, no_null_target t v -> no_null_like (fun _ => false) t v.
Proof.
  apply each_mono. intros t v H. destruct t; auto. destruct v as [| | | | |[x|]|[x|]| |]; auto. now rewrite null_like_none.
Qed.

(** Formats in which no text reads as null. *)
Definition fine (m : strictness) (marker : bytes) (by_value : bool) (t : ty) (v : val) : Prop :=
  wf t = true /\ distinct_names marker t /\ shaped t v = true /\ each valid_here t v /\ no_null_target t v /\
  (m <> Weak -> untagged by_value t = true) /\ (m = Exact -> complete t v /\ no_overrides t).
Theorem document_read : forall {A : Type} (sc : scal_ops A) (m : strictness) (marker : bytes)
    (Int : ity -> Z -> A -> Prop) (Bool : bool -> A -> Prop) (Str Tag : bytes -> A -> Prop) (Null : A -> Prop) (Key : bytes -> bytes -> Prop),
  (forall i z a, fits i z -> Int i z a -> sc_int sc i a = Ok z /\ sc_null sc a = false) ->
  (forall b a, Bool b a -> sc_bool sc a = Ok b /\ sc_null sc a = false) ->
  (forall s a, Str s a -> sc_str sc a = Ok s /\ sc_null sc a = false) ->
  (forall s a, Tag s a -> sc_str sc a = Ok s /\ sc_skip sc a = true) ->
  (forall a, Null a -> sc_null sc a = true /\ sc_skip sc a = true) ->
  (forall n raw, Key n raw -> sc_key sc raw = Ok n) ->
  forall t v, fine m marker true t v -> forall j, d_val (sense_of Int Bool Str Tag Null Key marker t) v j ->
  i_parse (interp sc m marker t) (default t) j = Ok v.
Proof.
  intros A sc m marker Int Bool Str Tag Null Key HInt HBool HStr HTag HNull HKey t v (W & Dn & Sh & Va & Nn & Un & Ex) j Hj.
  refine (document_read_as sc m marker Int Bool Str Tag Null Key (fun _ => false) HInt HBool HStr HTag HNull HKey t v _ j Hj).
  unfold fine_as. auto 10 using no_null_like_none.
Qed.
