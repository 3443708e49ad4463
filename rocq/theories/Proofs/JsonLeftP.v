(** C98: the plan and the serializer agree; what a failed export leaves. *)
From Coq Require Import ZArith String List Bool Lia ZifyBool.
From Verif Require Import Model.Base Model.Number Model.Unicode Model.Printer Model.JsonPrinter Model.Types Model.Serializer Model.Exporter Model.JsonLeft Spec.JsonLeft Proofs.Induct.
Import ListNotations.
Open Scope Z_scope.

Section JplanInd.
  Variable P : jplan -> Prop.
  Hypotheses (H_scal : forall t, P (JScal t)) (H_throw : P JThrow) (H_undef : P JUndef) (H_seq : forall l, Forall P l -> P (JSeq l))
    (H_map : forall l, Forall (fun ka => P (snd ka)) l -> P (JMap l)).
  Fixpoint jplan_ind' (a : jplan) : P a :=
    match a with
    | JScal t => H_scal t
    | JThrow => H_throw
    | JUndef => H_undef
    | JSeq l => H_seq l ((fix all (l : list jplan) : Forall P l := match l with [] => Forall_nil P | x :: r => Forall_cons x (jplan_ind' x) (all r) end) l)
    | JMap l => H_map l ((fix all (l : list (bytes * jplan)) : Forall (fun ka => P (snd ka)) l :=
                            match l with [] => Forall_nil _ | x :: r => Forall_cons x (jplan_ind' (snd x)) (all r) end) l)
    end.
End JplanInd.

(** ** Agreement with [ser]. *)
Definition agrees (r : outcome (list chunk * jstate)) (j : jleft) : Prop :=
  match j with LDone o s => r = Ok (o, s) | LRaised _ _ | LTerm => r = Throw | LUndef => forall x, r <> Ok x end.
Definition alike (w : writer jstate) (f : jstate -> jleft) : Prop := forall s, agrees (w s) (f s).

Lemma agrees_call : forall r s, agrees r (l_call r s).
Proof. intros [[o s']| | |] s; cbn; try reflexivity; discriminate. Qed.
Lemma alike_call : forall w, alike w (fun s => l_call (w s) s).
Proof. intros w s. apply agrees_call. Qed.
Lemma alike_then : forall w w' f g, alike w f -> alike w' g -> alike (w_then w w') (fun s => l_then (f s) g).
Proof.
  intros w w' f g H H' s. specialize (H s). unfold w_then. destruct (f s) as [o s1|o s1| |]; cbn in H |- *.
  - rewrite H. cbn. specialize (H' s1). destruct (g s1) as [o' s2|o' s2| |]; cbn in H' |- *; [rewrite H'; reflexivity|rewrite H'; reflexivity|rewrite H'; reflexivity|].
    destruct (w' s1) as [[a b]| | |]; cbn; try discriminate. exfalso. exact (H' _ eq_refl).
  - rewrite H. reflexivity.
  - rewrite H. reflexivity.
  - destruct (w s) as [[a b]| | |]; cbn; try discriminate. exfalso. exact (H _ eq_refl).
Qed.
Lemma alike_close : forall w f cl, alike w f -> alike (w_then w cl) (fun s => l_close (f s) cl).
Proof.
  intros w f cl H s. specialize (H s). unfold w_then. destruct (f s) as [o s1|o s1| |]; cbn in H |- *.
  - rewrite H. cbn. destruct (cl s1) as [[o' s2]| | |]; cbn; try reflexivity; discriminate.
  - rewrite H. cbn. destruct (cl s1) as [[o' s2]| | |]; cbn; try reflexivity; discriminate.
  - rewrite H. reflexivity.
  - destruct (w s) as [[a b]| | |]; cbn; try discriminate. exfalso. exact (H _ eq_refl).
Qed.
Lemma alike_nothing : alike w_nothing (fun s => LDone [] s).
Proof. intro s. reflexivity. Qed.
Lemma alike_undef : alike (w_fail UB) (fun _ => LUndef).
Proof. intros s x. discriminate. Qed.
Lemma alike_throw : alike (w_fail Throw) (fun s => LRaised [] s).
Proof. intro s. reflexivity. Qed.
Lemma alike_each : forall A (w : A -> writer jstate) f l, (forall x, alike (w x) (f x)) -> alike (w_all (map w l)) (l_each f l).
Proof. intros A w f l H. induction l as [|x r IH]; cbn [map w_all fold_right l_each]; [apply alike_nothing|]. apply alike_then; [apply H|exact IH]. Qed.

Section Agree.
  Context (c : fconfig) (marker : bytes).
  Notation entry := (fun (ka : bytes * jplan) s => match snd ka with JUndef => LUndef | _ => l_then (l_call (js_key c (fst ka) s) s) (leave c (snd ka)) end).
  Notation entries := (l_each entry).

  Lemma each_app : forall A (f : A -> jstate -> jleft) l r s, l_each f (l ++ r) s = l_then (l_each f l s) (l_each f r).
  Proof.
    intros A f l r. induction l as [|x l IH]; intro s; cbn [app l_each].
    - cbn. destruct (l_each f r s); reflexivity.
    - destruct (f x s) as [o s1|o s1| |]; cbn; try reflexivity. rewrite IH. destruct (l_each f l s1) as [o2 s2|o2 s2| |]; cbn; try reflexivity.
      destruct (l_each f r s2); cbn; rewrite ?app_assoc; reflexivity.
  Qed.
  Lemma each_two : forall w w' a b, alike w (entries a) -> alike w' (entries b) -> alike (w_then w w') (entries (a ++ b)).
  Proof. intros w w' a b H H' s. rewrite each_app. exact (alike_then w w' _ _ H H' s). Qed.
  Lemma each_one : forall A (f : A -> jstate -> jleft) x s, l_each f [x] s = f x s.
  Proof. intros. cbn. destruct (f x s); cbn; rewrite ?app_nil_r; reflexivity. Qed.
  Lemma alike_member : forall n w a, alike w (leave c a) -> alike (w_then (js_key c n) w) (entry (n, a)).
  Proof.
    intros n w a H s. cbn [snd fst]. assert (Q := alike_then _ _ _ _ (alike_call (js_key c n)) H s). destruct a; try exact Q.
    intros x E. unfold w_then in E. destruct (js_key c n s) as [[o s1]| | |]; try discriminate. cbn in E. specialize (H s1). cbn in H. destruct (w s1) as [[o2 s2]| | |]; try discriminate.
    exact (H _ eq_refl).
  Qed.
  Lemma alike_entry : forall n w a, alike w (leave c a) -> alike (w_then (js_key c n) w) (entries [(n, a)]).
  Proof. intros n w a H s. rewrite each_one. exact (alike_member n w a H s). Qed.
  Lemma alike_unkeyed : alike (w_fail UB) (entries j_unkeyed).
  Proof. intros s x. discriminate. Qed.

  Lemma alike_seq : forall sz w l, alike w (l_each (leave c) l) -> alike (array_block (json_printer c) sz w) (leave c (JSeq l)).
  Proof. intros sz w l H s. unfold array_block, sized. cbn [json_printer pr_usesSize pr_openArray pr_closeArray bind leave]. exact (alike_then _ _ _ _ (alike_call (js_open c LvArray 91)) (alike_close _ _ (js_closeArray c) H) s). Qed.
  Lemma alike_map : forall sz w l, alike w (entries l) -> alike (map_block (json_printer c) sz w) (leave c (JMap l)).
  Proof. intros sz w l H s. unfold map_block, sized. cbn [json_printer pr_usesSize pr_openMap pr_closeMap bind leave]. exact (alike_then _ _ _ _ (alike_call (js_open c LvMap 123)) (alike_close _ _ (js_closeMap c) H) s). Qed.

  Definition pair_ok (S0 : sfun jstate) (J : jfun) : Prop :=
    (forall v, alike (sf_print S0 v) (leave c (jf_val J v))) /\ (forall v, alike (sf_poly S0 v) (leave c (jf_poly J v))) /\ (forall v, alike (sf_members S0 v) (entries (jf_mem J v))).
  Lemma simple_ok : forall p sz f, (forall v, alike (p v) (leave c (f v))) -> pair_ok (mkSv p sz) (jl_simple f).
  Proof. intros p sz f H. split; [exact H|]. split; intro v; [apply alike_undef|apply alike_unkeyed]. Qed.

  Theorem plan_agrees : forall t, pair_ok (ser (json_printer c) marker t) (jplan_of marker t).
  Proof.
    assert (U : alike (w_fail UB) (leave c JUndef)) by apply alike_undef.
    assert (Q : forall ts, Forall (fun t => pair_ok (ser (json_printer c) marker t) (jplan_of marker t)) ts -> forall k x,
      alike (match nth_error (map (ser (json_printer c) marker) ts) k with Some f => sf_poly f x | None => w_fail UB end)
            (leave c (match nth_error (map (jplan_of marker) ts) k with Some f => jf_poly f x | None => JUndef end))).
    { intros ts F. induction F as [|t ts Ht F IH]; intros [|k] x; cbn [map nth_error]; try exact U; [apply Ht|apply IH]. }
    induction t as [i| | |l|co t IH|n t IH|ts IH|b t IH|t IH|t IH|i ms ps IHm IHp|cs o IH|cs IH] using ty_ind'; cbn [ser jplan_of].
    - apply simple_ok. intros []; try exact U. exact (alike_call _).
    - apply simple_ok. intros []; try exact U. exact (alike_call _).
    - apply simple_ok. intros []; try exact U. exact (alike_call _).
    - apply simple_ok. intros []; try exact U. destruct (enum_name l z); [exact (alike_call _)|exact alike_throw].
    - apply simple_ok. intros []; try exact U. apply alike_seq. intro s. unfold put_elems. revert s. 
      assert (R : forall l s, agrees (w_all (map (sf_print (ser (json_printer c) marker t)) l) s) (l_each (leave c) (map (jf_val (jplan_of marker t)) l) s)); [|exact (R l)].
      intros l0. induction l0 as [|x r IHr]; cbn [map w_all fold_right l_each]; [exact alike_nothing|]. exact (alike_then _ _ _ _ (proj1 IH x) IHr).
    - apply simple_ok. intros []; try exact U. destruct (Nat.eqb _ _); [|exact U]. apply alike_seq.
      assert (R : forall l s, agrees (w_all (map (sf_print (ser (json_printer c) marker t)) l) s) (l_each (leave c) (map (jf_val (jplan_of marker t)) l) s)); [|exact (R l)].
      intros l0. induction l0 as [|x r IHr]; cbn [map w_all fold_right l_each]; [exact alike_nothing|]. exact (alike_then _ _ _ _ (proj1 IH x) IHr).
    - apply simple_ok. intros []; try exact U. apply alike_seq. revert l. induction IH as [|t ts Ht F IHr]; intros [|x l]; cbn [map put_tuple jl_tuple l_each];
        [exact alike_nothing|intros s z; discriminate|intros s z; discriminate|]. exact (alike_then _ _ _ _ (proj1 Ht x) (IHr l)).
    - apply simple_ok. intros []; try exact U. apply alike_map. unfold put_entries. induction l as [|[k x] r IHr]; cbn [map w_all fold_right l_each]; [exact alike_nothing|].
      exact (alike_then _ _ _ _ (alike_member k _ _ (proj1 IH x)) IHr).
    - apply simple_ok. intros v. destruct v as [| | | | |[x|]| | |]; try exact U; [apply IH|exact (alike_call _)].
    - apply simple_ok. intros v. destruct v as [| | | | | |[x|]| |]; try exact U; [apply IH|exact alike_throw].
    - cbv zeta.
      assert (M : forall v, alike (put_struct (json_printer c) i (map opt_type ms) (map (ser (json_printer c) marker) ms) (map (ser (json_printer c) marker) ps) v)
        (entries (match v with VStruct own par => jl_members (map (nameOverride i) (si_names i)) (map opt_type ms) (map (jplan_of marker) ms) own ++ jl_parents (map (jplan_of marker) ps) par | _ => j_unkeyed end))).
      { intros v. destruct v as [| | | | | | |own par|]; try exact alike_unkeyed. cbn [put_struct]. apply each_two.
        - generalize (map (nameOverride i) (si_names i)) as ns. revert own. induction IHm as [|t ts Ht F IHr]; intros [|x own] [|n ns]; cbn [map put_members jl_members];
            try exact alike_nothing; try exact alike_unkeyed. apply each_two; [|apply IHr]. destruct (keeps (opt_type t) x); [|exact alike_nothing]. apply alike_entry. apply Ht.
        - revert par. induction IHp as [|t ts Ht F IHr]; intros [|x par]; cbn [map put_parents jl_parents]; try exact alike_nothing; try exact alike_unkeyed.
          apply each_two; [apply Ht|apply IHr]. }
      assert (T : alike (put_marker (json_printer c) marker i) (entries [(marker, JScal (quoted (si_poly i)))])) by (refine (alike_entry marker (js_str c (si_poly i)) (JScal (quoted (si_poly i))) _); exact (alike_call (js_str c (si_poly i)))).
      split; [|split; [|exact M]]; intro v; cbn [sf_print sf_poly jf_val jf_poly]; apply alike_map; apply each_two; auto. destruct (si_mark i); [exact T|exact alike_nothing].
    - apply simple_ok. intros v. destruct v as [| | | | |[x|]| | |]; try exact U; [|exact (alike_call _)]. destruct x; try exact U. apply Q. exact IH.
    - apply simple_ok. intros v. destruct v; try exact U. apply Q. exact IH.
  Qed.
End Agree.

(** ** The state of the printer; closing brackets can always be written. *)
Definition kept (s s' : jstate) : Prop := match s, s' with p :: r, p' :: r' => r' = r /\ f1 p' = f1 p | _, _ => False end.
Definition tidy (s : jstate) (j : jleft) : Prop := match j with LDone _ s' | LRaised _ s' => kept s s' | LTerm => False | LUndef => True end.
Lemma kept_trans : forall a b d, kept a b -> kept b d -> kept a d.
Proof. intros [|p r] [|p' r'] [|p'' r''] H H'; try destruct H; try destruct H'. cbn. split; congruence. Qed.
Lemma tidy_then : forall s j f, tidy s j -> (forall s', kept s s' -> tidy s' (f s')) -> tidy s (l_then j f).
Proof.
  intros s [o s1|o s1| |] f H F; cbn in H |- *; auto. specialize (F s1 H). destruct (f s1) as [o2 s2|o2 s2| |]; cbn in F |- *; auto; exact (kept_trans _ _ _ H F).
Qed.
Lemma tidy_each : forall A (f : A -> jstate -> jleft) l s0 s, (forall x s, In x l -> kept s0 s -> tidy s (f x s)) -> kept s0 s -> tidy s (l_each f l s).
Proof.
  intros A f l s0. induction l as [|x r IH]; intros s H K; cbn [l_each].
  - destruct s as [|p s]; [destruct s0; destruct K|cbn; auto].
  - apply tidy_then; [apply H; [now left|exact K]|]. intros s' K'. apply IH; [intros; apply H; [now right|assumption]|exact (kept_trans _ _ _ K K')].
Qed.
Section Tidy.
  Context (c : fconfig).
  Lemma tidy_block : forall l ch (body : jstate -> jleft) close s, s <> [] -> (forall s', kept (mkPstate 0 l false :: s) s' -> tidy s' (body s')) ->
    (forall p, f1 p = l -> tidy s (l_close (LDone [] (p :: s)) close)) -> tidy s (l_then (l_call (js_open c l ch s) s) (fun s => l_close (body s) close)).
  Proof.
    intros l ch body close s N B C. unfold js_open. destruct s as [|top r]; [congruence|]. destruct (printIndentSuffix c (List.length (top :: r)) (spaced c) ch) as [t| | |]; cbn [bind put l_call l_then tidy]; auto.
    2: { cbn. auto. }
    specialize (B (mkPstate 0 l false :: top :: r)). destruct (body (mkPstate 0 l false :: top :: r)) as [o s1|o s1| |]; cbn [l_close]; cbn in B; try tauto.
    - destruct s1 as [|p s1]; [destruct B; auto|]. destruct B as [-> Hp]; [auto|]. specialize (C p Hp). cbn [l_close] in C. destruct (close (p :: top :: r)) as [[o2 s2]| | |]; cbn in C |- *; auto.
    - destruct s1 as [|p s1]; [destruct B; auto|]. destruct B as [-> Hp]; [auto|]. specialize (C p Hp). cbn [l_close] in C. destruct (close (p :: top :: r)) as [[o2 s2]| | |]; cbn in C |- *; auto.
  Qed.
  Lemma leave_tidy : forall a s, s <> [] -> tidy s (leave c a s).
  Proof.
    induction a as [t| | |l IH|l IH] using jplan_ind'; intros s N; cbn [leave].
    - destruct s as [|[n l b] r]; [congruence|]. cbn. auto.
    - destruct s as [|p r]; [congruence|]. cbn. auto.
    - exact I.
    - apply tidy_block; [exact N| |].
      + intros s' K. refine (tidy_each _ _ _ _ _ _ K). intros x s1 Hx K1. rewrite Forall_forall in IH. apply (IH x Hx). intros ->. exact K1.
      + intros [n l0 b] E. cbn in E. subst l0. destruct s as [|[n1 l1 b1] r]; [congruence|]. cbn [l_close js_closeArray].
        unfold printIndentSuffix, indent_text. destruct (_ && _); [destruct (_ <? _); [destruct (_ =? 0); [|destruct (_ <=? _); [|destruct (_ =? _)]]|]|]; cbn; auto.
    - apply tidy_block; [exact N| |].
      + intros s' K. refine (tidy_each _ _ _ _ _ _ K). intros [k x] s1 Hx K1. cbn [fst snd]. rewrite Forall_forall in IH. specialize (IH _ Hx). cbn [snd] in IH.
        assert (G : tidy s1 (l_then (l_call (js_key c k s1) s1) (leave c x))); [|destruct x; try exact G; exact I].
        apply tidy_then.
        * destruct s1 as [|p1 r1]; [destruct K1|]. unfold js_key. destruct (f1 p1) eqn:E1; cbn; auto. unfold printIndent, indent_text.
          destruct (spaced c); [destruct (_ =? 0); [|destruct (_ <=? _); [|destruct (_ =? _)]]|]; cbn; auto.
        * intros s2 K2. apply IH. intros ->. destruct s1; exact K2.
      + intros [n l0 b] E. cbn in E. subst l0. destruct s as [|[n1 l1 b1] r]; [congruence|]. cbn [l_close js_closeMap].
        unfold printIndentSuffix, indent_text. destruct (spaced c); [destruct (_ <? _); [destruct (_ =? 0); [|destruct (_ <=? _); [|destruct (_ =? _)]]|]|]; cbn; auto.
  Qed.
End Tidy.

(** ** Values cut short. *)
Section Cut.
  Context (c : fconfig) (marker : bytes).
  Lemma unwritable_throws : forall t v, unwritable t v -> jf_val (jplan_of marker t) v = JThrow.
  Proof.
    induction 1 as [t|l z H|t x H IH|t x H IH]; cbn [jplan_of jl_simple jf_val]; try exact IH; [reflexivity|].
    replace (enum_name l z) with (@None bytes); [reflexivity|]. symmetry. revert H. induction l as [|[y n] r IH]; intro H; [reflexivity|]. cbn [enum_name].
    destruct (Z.eqb_spec y z) as [->|]; [exfalso; exact (H n (or_introl eq_refl))|]. apply IH. intros m Q. exact (H m (or_intror Q)).
  Qed.
  Lemma then_done : forall j f o s', l_then j f = LDone o s' -> exists o1 s1 o2, j = LDone o1 s1 /\ f s1 = LDone o2 s' /\ o = o1 ++ o2.
  Proof.
    intros [o1 s1|o1 s1| |] f o s' H; cbn in H; try discriminate. destruct (f s1) as [o2 s2|o2 s2| |] eqn:E; cbn in H; try discriminate. injection H as <- <-. do 3 eexists.
    split; [reflexivity|]. split; [exact E|reflexivity].
  Qed.
  Lemma close_done : forall j f o s', l_close j f = LDone o s' -> exists o1 s1 o2, j = LDone o1 s1 /\ f s1 = Ok (o2, s') /\ o = o1 ++ o2.
  Proof.
    intros [o1 s1|o1 s1| |] f o s' H; cbn in H; try discriminate.
    - destruct (f s1) as [[o2 s2]| | |] eqn:E; cbn in H; try discriminate. injection H as <- <-. do 3 eexists. split; [reflexivity|]. split; [exact E|reflexivity].
    - destruct (f s1) as [[o2 s2]| | |]; discriminate.
  Qed.
  (** What is written is the same, or lacks the null. *)
  Definition lacks (g : bool) (o o' : list chunk) : Prop :=
    if g then exists a b, o = a ++ [Wr (58 :: if spaced c then [32] else []); Wr (bs "null")] ++ b /\ o' = a ++ b else o' = o.
  Lemma lacks_app : forall g a o o' b, lacks g o o' -> lacks g (a ++ o ++ b) (a ++ o' ++ b).
  Proof. intros [] a o o' b H; cbn in H |- *; [|now rewrite H]. destruct H as (x & y & -> & ->). exists (a ++ x), (y ++ b). rewrite <- !app_assoc. split; reflexivity. Qed.
  Definition raised (g : bool) (j j' : jleft) : Prop := forall o s', j = LDone o s' -> exists o', lacks g o o' /\ j' = LRaised o' s'.
  (** An array or a map whose body is raised where the other one is done. *)
  Lemma block_raised : forall g open (b b' : jstate -> jleft) close s, (forall s, raised g (b' s) (b s)) ->
    raised g (l_then (l_call open s) (fun s => l_close (b' s) close)) (l_then (l_call open s) (fun s => l_close (b s) close)).
  Proof.
    intros g open b b' close s H o s' E. destruct (then_done _ _ _ _ E) as (o1 & s1 & o2 & -> & E2 & ->). destruct (close_done _ _ _ _ E2) as (o3 & s3 & o4 & E3 & E4 & ->).
    destruct (H _ _ _ E3) as (o' & L & R). cbn [l_then]. rewrite R. cbn [l_close]. rewrite E4. exists (o1 ++ o' ++ o4). split; [apply lacks_app; exact L|reflexivity].
  Qed.
  Lemma each_cut : forall g A (f : A -> jstate -> jleft) l x r y s, (forall s, raised g (f y s) (f x s)) -> raised g (l_each f (l ++ [y]) s) (l_each f (l ++ x :: r) s).
  Proof.
    intros g A f l x r y s H o s' E. rewrite each_app in E |- *. destruct (then_done _ _ _ _ E) as (o1 & s1 & o2 & -> & E2 & ->). rewrite each_one in E2. cbn [l_then l_each].
    destruct (H _ _ _ E2) as (o' & L & R). rewrite R. cbn [l_then]. exists (o1 ++ o'). split; [|reflexivity]. assert (Q := lacks_app g o1 _ _ [] L). rewrite !app_nil_r in Q. exact Q.
  Qed.
  Lemma each_stop : forall A (f : A -> jstate -> jleft) l x r s, (forall s, f x s = LRaised [] s) -> raised false (l_each f l s) (l_each f (l ++ x :: r) s).
  Proof. intros A f l x r s H o s' E. rewrite each_app, E. cbn [l_then l_each]. rewrite H. cbn [l_then]. rewrite app_nil_r. exists o. split; reflexivity. Qed.
  Lemma tuple_app : forall fs gs l r, List.length fs = List.length l -> jl_tuple (fs ++ gs) (l ++ r) = jl_tuple fs l ++ jl_tuple gs r.
  Proof. induction fs as [|f fs IH]; intros gs [|x l] r H; cbn in H; try discriminate; [reflexivity|]. cbn [app jl_tuple]. rewrite IH by congruence. reflexivity. Qed.
  Lemma tuple_repeat : forall f l, jl_tuple (repeat f (List.length l)) l = map (jf_val f) l.
  Proof. intros f l. induction l as [|x l IH]; [reflexivity|]. cbn [List.length repeat jl_tuple map]. rewrite IH. reflexivity. Qed.
  Lemma map_repeat : forall A B (f : A -> B) x n, map f (repeat x n) = repeat (f x) n.
  Proof. intros. induction n as [|n IH]; [reflexivity|]. cbn. rewrite IH. reflexivity. Qed.
  Lemma members_app : forall ns ns2 os os2 fs fs2 l r, List.length ns = List.length l -> List.length os = List.length l -> List.length fs = List.length l ->
    jl_members (ns ++ ns2) (os ++ os2) (fs ++ fs2) (l ++ r) = jl_members ns os fs l ++ jl_members ns2 os2 fs2 r.
  Proof.
    induction ns as [|n ns IH]; intros ns2 [|o os] os2 [|f fs] fs2 [|x l] r H1 H2 H3; cbn in H1, H2, H3; try discriminate; [reflexivity|].
    cbn [app jl_members]. rewrite IH by congruence. rewrite app_assoc. reflexivity.
  Qed.
  Lemma members_repeat : forall i t (l : list (bytes * val)), si_over i = [] -> Forall (fun kv => snd kv <> VOpt None) l ->
    jl_members (map (nameOverride i) (map fst l)) (repeat (opt_type t) (List.length l)) (repeat (jplan_of marker t) (List.length l)) (map snd l) =
    map (fun kv => (fst kv, jf_val (jplan_of marker t) (snd kv))) l.
  Proof.
    intros i t l Hi F. induction F as [|[k x] l Hx F IH]; [reflexivity|]. cbn [map fst snd List.length repeat jl_members]. rewrite IH. cbn [snd] in Hx.
    replace (keeps (opt_type t) x) with true by (unfold keeps; destruct (opt_type t); [destruct x as [| | | | | |[|]| |]; congruence|reflexivity]).
    unfold nameOverride. rewrite Hi. reflexivity.
  Qed.
  Lemma cut_kept : forall g t v t' v', cut g t v t' v' -> keeps (opt_type t) v = true /\ keeps (opt_type t') v' = true.
  Proof. destruct 1; split; reflexivity. Qed.
  Lemma entry_cut : forall g k a b s, (forall s, raised g (leave c b s) (leave c a s)) ->
    raised g (match b with JUndef => LUndef | _ => l_then (l_call (js_key c k s) s) (leave c b) end) (match a with JUndef => LUndef | _ => l_then (l_call (js_key c k s) s) (leave c a) end).
  Proof.
    intros g k a b s H o s' E. assert (E' : l_then (l_call (js_key c k s) s) (leave c b) = LDone o s') by (destruct b; try exact E; discriminate).
    destruct (then_done _ _ _ _ E') as (o3 & s3 & o4 & E3 & E4 & ->). destruct (H _ _ _ E4) as (o' & L & W). rewrite E3. cbn [l_then]. exists (o3 ++ o'). split.
    - assert (Q := lacks_app g o3 _ _ [] L). rewrite !app_nil_r in Q. exact Q.
    - destruct a; try (cbn in W; discriminate); rewrite W; reflexivity.
  Qed.
  (** The map whose last key has no value. *)
  Lemma map_key : forall l k r s, raised true (leave c (JMap (l ++ [(k, JScal (Wr (bs "null")))])) s) (leave c (JMap (l ++ (k, JThrow) :: r)) s).
  Proof.
    intros l k r s o s' E. cbn [leave] in E |- *. destruct (then_done _ _ _ _ E) as (o1 & s1 & o2 & E1 & E2 & ->). destruct (close_done _ _ _ _ E2) as (o3 & s3 & o4 & E3 & E4 & ->).
    rewrite each_app in E3. destruct (then_done _ _ _ _ E3) as (o5 & s5 & o6 & E5 & E6 & ->). rewrite each_one in E6. cbn [fst snd] in E6.
    destruct (then_done _ _ _ _ E6) as (o7 & s7 & o8 & E7 & E8 & ->). rewrite E1. cbn [l_then]. rewrite each_app, E5. cbn [l_then l_each fst snd]. rewrite E7. cbn [l_then leave].
    unfold js_key in E7. destruct s5 as [|[n lv b] r5]; [discriminate|]. cbn [f1] in E7. destruct lv; try discriminate.
    destruct (printIndent c (List.length (mkPstate n LvMap b :: r5)) (spaced c)) as [t| | |]; cbn [bind put l_call] in E7; try discriminate.
    assert (Hs : s7 = mkPstate n LvMap b :: r5) by now injection E7. subst s7. cbn [leave js_value l_call andb] in E8. rewrite andb_true_r in E8. injection E8 as <- <-.
    cbn [l_close]. destruct r5 as [|[n5 l5 b5] r5]; [discriminate E4|]. cbn [js_closeMap] in E4 |- *. rewrite E4. rewrite app_nil_r.
    eexists. split; [|reflexivity]. cbn [lacks]. exists (o1 ++ o5 ++ o7), o4. unfold separator. cbn [f1]. rewrite <- !app_assoc. split; reflexivity.
  Qed.
  Lemma parents_app : forall fs gs l r, List.length fs = List.length l -> jl_parents (fs ++ gs) (l ++ r) = jl_parents fs l ++ jl_parents gs r.
  Proof. induction fs as [|f fs IH]; intros gs [|x l] r H; cbn in H; try discriminate; [reflexivity|]. cbn [app jl_parents]. rewrite IH by congruence. rewrite app_assoc. reflexivity. Qed.
  Lemma nth_mid : forall A B (f : A -> B) l x r, nth_error (map f (l ++ x :: r)) (List.length l) = Some (f x).
  Proof. intros A B f l x r. induction l as [|y l IH]; [reflexivity|exact IH]. Qed.
  Definition cut_ok (g : bool) (J J' : jfun) (v v' : val) (class : bool) : Prop :=
    (forall s, raised g (leave c (jf_val J' v') s) (leave c (jf_val J v) s)) /\
    (class = true -> (forall s, raised g (leave c (jf_poly J' v') s) (leave c (jf_poly J v) s)) /\
                     (forall pre suf s, raised g (leave c (JMap (pre ++ jf_mem J' v')) s) (leave c (JMap (pre ++ jf_mem J v ++ suf)) s))).
  (** A class is what its members are. *)
  Lemma class_ok : forall g (mk : bool) (po : bytes) m m' (v v' : val) (fm fm' : val -> list (bytes * jplan)), m' = fm' v' -> m = fm v ->
    (forall pre suf s, raised g (leave c (JMap (pre ++ m')) s) (leave c (JMap (pre ++ m ++ suf)) s)) ->
    cut_ok g (mkJplan (fun v => JMap ((if mk then [(marker, JScal (quoted po))] else []) ++ fm v)) (fun v => JMap ([(marker, JScal (quoted po))] ++ fm v)) fm)
             (mkJplan (fun v => JMap ((if mk then [(marker, JScal (quoted po))] else []) ++ fm' v)) (fun v => JMap ([(marker, JScal (quoted po))] ++ fm' v)) fm') v v' true.
  Proof.
    intros g mk po m m' v v' fm fm' -> -> H. split; [|intros _; split; [|exact H]]; intro s; cbn [jf_val jf_poly].
    - assert (X := H (if mk then [(marker, JScal (quoted po))] else []) [] s). rewrite app_nil_r in X. exact X.
    - assert (X := H [(marker, JScal (quoted po))] [] s). rewrite app_nil_r in X. exact X.
  Qed.
  Lemma cut_plans : forall g t v t' v', cut g t v t' v' -> cut_ok g (jplan_of marker t) (jplan_of marker t') v v' (is_class t).
  Proof.
    assert (H1 : forall l x r s, x = JThrow -> raised false (leave c (JSeq l) s) (leave c (JSeq (l ++ x :: r)) s)).
    { intros l x r s ->. cbn [leave]. apply block_raised. intro s1. apply each_stop. reflexivity. }
    assert (H2 : forall g l x x' r s, (forall s, raised g (leave c x' s) (leave c x s)) -> raised g (leave c (JSeq (l ++ [x'])) s) (leave c (JSeq (l ++ x :: r)) s)).
    { intros g l x x' r s IH. cbn [leave]. apply block_raised. intro s1. apply each_cut. exact IH. }
    assert (H3 : forall g l k x x' r s, (forall s, raised g (leave c x' s) (leave c x s)) -> raised g (leave c (JMap (l ++ [(k, x')])) s) (leave c (JMap (l ++ (k, x) :: r)) s)).
    { intros g l k x x' r s IH. cbn [leave]. apply block_raised. intro s1. apply each_cut. intro s2. cbn [fst snd]. apply entry_cut. exact IH. }
    induction 1 as [k t l x r H|n t l x r Hn H|ts t us l x r Hl H|k t l n x r F H|i ns n ns2 ts t us ps l x r par Hi Hn Ht Hx H|
                    g k t l x t' x' r H IH|g n t l x t' x' r Hn H IH|g ts t us l x t' x' r Hl H IH|g k t l n x t' x' r F H IH|
                    g i ns n ns2 ts t us ps l x t' x' r par Hi Hn Ht H IH|g i ts ps p qs own par y p' y' rest Hl Hp H IH|g cs t ds x t' x' Hc H IH|g cs t ds o x t' x' Hc H IH|
                    g t x t' x' H IH|g t x t' x' H IH]; cbn [is_class]; try (destruct IH as [IH IHc]);
      try (split; [cbn [jplan_of jl_simple jf_val]; try exact IH; intro s|discriminate]).
    - rewrite map_app. exact (H1 _ _ _ _ (unwritable_throws _ _ H)).
    - rewrite <- Hn, !Nat.eqb_refl, map_app. exact (H1 _ _ _ _ (unwritable_throws _ _ H)).
    - rewrite map_app, tuple_app by now rewrite map_length. exact (H1 _ _ _ _ (unwritable_throws _ _ H)).
    - cbn [as_class si_names si_mark]. rewrite !map_app, !map_repeat. rewrite members_app by now rewrite ?map_length, ?repeat_length. rewrite members_repeat by (try reflexivity; exact F).
      cbn [map jl_members jl_parents app]. rewrite app_nil_r. cbn [snd fst]. rewrite (unwritable_throws _ _ H). exact (map_key _ _ _ _).
    - cbn [jplan_of]. cbv zeta. refine (class_ok _ (si_mark i) (si_poly i) _ _ _ _ _ _ eq_refl eq_refl _). intros pre suf s. cbn [with_names si_names si_mark si_poly]. rewrite Hi.
      change (nameOverride (with_names i (ns ++ [n]))) with (nameOverride i).
      rewrite !map_app. rewrite !members_app by now rewrite map_length. cbn [map jl_members jl_parents app null_type opt_type null_value keeps].
      replace (keeps (opt_type t) x) with true by (unfold keeps; destruct (opt_type t); [destruct x as [| | | | | |[|]| |]; congruence|reflexivity]).
      rewrite (unwritable_throws _ _ H). rewrite app_nil_r. rewrite <- !app_assoc. cbn [app]. rewrite !app_assoc. exact (map_key _ _ _ _).
    - rewrite !map_app, map_repeat, tuple_app, tuple_repeat by apply repeat_length. exact (H2 _ _ _ _ _ _ IH).
    - rewrite !map_app, map_repeat, tuple_app, tuple_repeat by apply repeat_length. rewrite <- Hn, Nat.eqb_refl. exact (H2 _ _ _ _ _ _ IH).
    - rewrite !map_app, !tuple_app by now rewrite map_length. exact (H2 _ _ _ _ _ _ IH).
    - destruct (cut_kept _ _ _ _ _ H) as [_ K']. cbn [as_class si_names si_mark]. rewrite !map_app, !map_repeat. rewrite members_app by now rewrite ?map_length, ?repeat_length.
      rewrite members_repeat by (try reflexivity; exact F). cbn [map jl_members jl_parents app]. rewrite K', app_nil_r. exact (H3 _ _ _ _ _ _ _ IH).
    - cbn [jplan_of]. cbv zeta. refine (class_ok _ (si_mark i) (si_poly i) _ _ _ _ _ _ eq_refl eq_refl _). intros pre suf s.
      destruct (cut_kept _ _ _ _ _ H) as [K K']. cbn [with_names si_names si_mark si_poly]. rewrite Hi. change (nameOverride (with_names i (ns ++ [n]))) with (nameOverride i).
      rewrite !map_app. rewrite !members_app by now rewrite map_length. cbn [map jl_members jl_parents app]. rewrite K, K', app_nil_r. rewrite <- !app_assoc. cbn [app]. rewrite !app_assoc.
      exact (H3 _ _ _ _ _ _ _ IH).
    - cbn [jplan_of]. cbv zeta. refine (class_ok _ (si_mark i) (si_poly i) _ _ _ _ _ _ eq_refl eq_refl _). intros pre suf s. rewrite !map_app. rewrite !parents_app by now rewrite map_length. cbn [map jl_parents].
      rewrite app_nil_r.
      match goal with |- raised _ (leave c (JMap (pre ++ ?m ++ ?q ++ _)) s) (leave c (JMap (pre ++ (_ ++ _ ++ _ ++ ?z) ++ suf)) s) => assert (X := proj2 (IHc Hp) (pre ++ m ++ q) (z ++ suf) s) end.
      repeat rewrite <- app_assoc in X. repeat rewrite <- app_assoc. exact X.
    - rewrite !nth_mid. exact (proj1 (IHc Hc) s).
    - rewrite !nth_mid. exact (proj1 (IHc Hc) s).
  Qed.
  Lemma cut_raised : forall g t v t' v', cut g t v t' v' -> forall s, raised g (leave c (jf_val (jplan_of marker t') v') s) (leave c (jf_val (jplan_of marker t) v) s).
  Proof. intros g t v t' v' H. exact (proj1 (cut_plans g t v t' v' H)). Qed.
  Lemma lacks_text : forall o o', lacks true o o' -> without (bs ":" ++ (if spaced c then bs " " else []) ++ bs "null") (chunks_text o) (chunks_text o').
  Proof.
    intros o o' (a & b & -> & ->). exists (chunks_text a), (chunks_text b). unfold chunks_text. rewrite !flat_map_app. split; [|reflexivity].
    cbn [flat_map chunk_bytes]. destruct (spaced c); reflexivity.
  Qed.
End Cut.

