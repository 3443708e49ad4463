(** Tokens of YamlParser. *)
From Coq Require Import ZArith List Bool Lia ZifyBool.
From Verif Require Import Model.Base Model.Source Model.ParserInterface Model.Yaml Spec.Json Spec.Yaml Proofs.Induct.
Import ListNotations.
Open Scope Z_scope.

(** ** Reading *)
(** A source that can be read from. *)
Definition sane (s : src) : Prop := (s_pos s <= s_size s)%nat.
Lemma sane_init : forall k d, sane (src_init k d).
Proof. intros. unfold sane, src_init. cbn. lia. Qed.
Lemma y_read_sane : forall n s, sane s -> exists s', y_read n s = Ok s' /\ sane s'.
Proof.
  intros n s H. unfold y_read, src_read. unfold sane, s_size in *.
  assert (L : (s_pos s + length (firstn n (s_rest s)) <= length (s_data s))%nat).
  { rewrite firstn_length. unfold s_rest. rewrite skipn_length. lia. }
  destruct (s_kind s).
  - destruct (Nat.ltb_spec (length (s_data s)) (s_pos s)) as [Q|_]; [lia|]. cbn [bind]. eexists. split; [reflexivity|].
    match goal with |- context [if ?c then _ else _] => destruct c end; cbn; lia.
  - destruct (strm_good s); [destruct (Nat.ltb _ n)|]; cbn [bind]; eexists; (split; [reflexivity|]);
      match goal with |- context [if ?c then _ else _] => destruct c end; cbn; lia.
Qed.
Lemma y_reads_sane : forall ns s, sane s -> exists s', y_reads ns s = Ok s' /\ sane s'.
Proof.
  induction ns as [|n ns IH]; intros s H; cbn [y_reads]; [eauto|]. destruct (y_read_sane n s H) as (s1 & -> & H1). cbn [bind]. auto.
Qed.

(** ** What the reader of tokens sees *)
Definition item_of (t : token) (y : yst) : option item :=
  match t with
  | TokDocStart => Some IDocS | TokDocEnd => Some IDocE
  | TokMapStart => Some IMapS | TokMapEnd => Some IMapE
  | TokArrayStart => Some IArrS | TokArrayEnd => Some IArrE
  | TokKey => match y_text y with Ok (s, _) => Some (IKey s) | _ => None end
  | TokValue => match y_text y with Ok (s, _) => Some (IVal s) | _ => None end
  | TokError => None
  end.
Inductive ending := EndError | EndException.
Inductive delivered : yst -> list item -> ending -> Prop :=
| dl_error : forall y y', y_next y = Ok (TokError, y') -> delivered y [] EndError
| dl_throw : forall y, y_next y = Throw -> delivered y [] EndException
| dl_step : forall y t y' i l e, y_next y = Ok (t, y') -> item_of t y' = Some i -> delivered y' l e -> delivered y (i :: l) e.

Inductive steps : yst -> list item -> yst -> Prop :=
| st_nil : forall y, steps y [] y
| st_cons : forall y t y' i l z, y_next y = Ok (t, y') -> item_of t y' = Some i -> steps y' l z -> steps y (i :: l) z.
Lemma steps_app : forall y l z m w, steps y l z -> steps z m w -> steps y (l ++ m) w.
Proof. induction 1; intros; cbn [app]; [assumption|]. econstructor; eauto. Qed.
Lemma steps_delivered : forall y l z m e, steps y l z -> delivered z m e -> delivered y (l ++ m) e.
Proof. induction 1; intros; cbn [app]; [assumption|]. econstructor; eauto. Qed.

(** One event. *)
Definition at_work (st : list (ykind * Z)) (e : yev) (calls : list ycall) (s : src) : yst := mkY false false st e calls s.
Lemma next_event : forall st e ns e' calls s, sane s -> exists s', sane s' /\
  y_next (at_work st e ((ns, Some e') :: calls) s) = y_event_token (at_work st e' calls s').
Proof.
  intros st e ns e' calls s H. destruct (y_reads_sane ns s H) as (s' & E & H'). exists s'. split; [exact H'|].
  unfold y_next, at_work. cbn [y_first bind negb y_error]. unfold y_parse. cbn [y_calls y_src]. rewrite E. reflexivity.
Qed.

Lemma next_event_eq : forall st e ns e' calls s s', y_reads ns s = Ok s' ->
  y_next (at_work st e ((ns, Some e') :: calls) s) = y_event_token (at_work st e' calls s').
Proof.
  intros st e ns e' calls s s' E. unfold y_next, at_work. cbn [y_first bind negb y_error]. unfold y_parse. cbn [y_calls y_src]. rewrite E. reflexivity.
Qed.
(** All pieces of input that libyaml asks for. *)
Definition pieces (calls : list ycall) : list nat := flat_map fst calls.
Lemma y_reads_app : forall a b s, y_reads (a ++ b) s = do s' <- y_reads a s; y_reads b s'.
Proof. induction a as [|n a IH]; intros b s; cbn [app y_reads bind]; [reflexivity|]. destruct (y_read n s); cbn [bind]; auto. Qed.

Lemma node_ind' : forall P : ynode -> Prop, (forall s, P (NScal s)) -> P NAlias -> (forall l, Forall P l -> P (NSeq l)) ->
  (forall l, Forall (fun kv => P (fst kv) /\ P (snd kv)) l -> P (NMap l)) -> forall n, P n.
Proof.
  intros P H1 H2 H3 H4. fix F 1. intros [s| |l|l].
  - apply H1.
  - exact H2.
  - apply H3. induction l as [|x l IH]; constructor; [apply F|exact IH].
  - apply H4. induction l as [|[a b] l IH]; constructor; [split; apply F|exact IH].
Qed.

Lemma node_of_inj : forall a b, node_of a = node_of b -> a = b.
Proof.
  refine (tree_ind' (fun a => forall b, node_of a = node_of b -> a = b) _ _ _).
  - intros s [t|l|l] E; cbn in E; try discriminate E. congruence.
  - intros l IH [t|m|m] E; cbn in E; try discriminate E. f_equal. assert (Q : map node_of l = map node_of m) by congruence. clear E.
    revert m Q. induction IH as [|x l Hx _ IH]; intros [|y m] Q; try discriminate Q; [reflexivity|]. cbn [map] in Q. injection Q as Q1 Q2. f_equal; auto.
  - intros l IH [t|m|m] E; cbn in E; try discriminate E. f_equal.
    assert (Q : map (fun kv => (NScal (fst kv), node_of (snd kv))) l = map (fun kv => (NScal (fst kv), node_of (snd kv))) m) by congruence. clear E.
    revert m Q. induction IH as [|[k x] l Hx _ IH]; intros [|[k' y] m] Q; try discriminate Q; [reflexivity|]. cbn [map fst snd] in Q. injection Q as Q1 Q2 Q3.
    cbn [snd] in Hx. rewrite Q1, (Hx y Q2). f_equal. auto.
Qed.

(** The counter of a map is odd after a key. *)
Lemma even_key : forall c, c mod 2 = 0 -> at_key YMap (c + 1) = true.
Proof. intros c H. unfold at_key. rewrite Z.add_mod, H by lia. reflexivity. Qed.
Lemma odd_value : forall c, c mod 2 = 0 -> at_key YMap (c + 1 + 1) = false.
Proof. intros c H. unfold at_key. replace (c + 1 + 1) with (c + 1 * 2) by lia. rewrite Z.mod_add, H by lia. reflexivity. Qed.
Lemma even_next : forall c, c mod 2 = 0 -> (c + 1 + 1) mod 2 = 0.
Proof. intros c H. replace (c + 1 + 1) with (c + 1 * 2) by lia. now rewrite Z.mod_add. Qed.

(** What happens with a part of the document: all of it comes through ([Good]), or an exception comes in between. *)
Definition cut (all : list item) (y : yst) : Prop :=
  exists l r y', r <> [] /\ all = l ++ r /\ steps y l y' /\ y_next y' = Throw.

Lemma cut_before : forall y l z all, steps y l z -> cut all z -> cut (l ++ all) y.
Proof.
  intros y l z all S (a & b & y' & N & -> & S2 & T). exists (l ++ a), b, y'. split; [exact N|]. split; [now rewrite app_assoc|]. split; [|exact T].
  eapply steps_app; eassumption.
Qed.
Lemma cut_after : forall all y r, cut all y -> cut (all ++ r) y.
Proof.
  intros all y r (a & b & y' & N & -> & S & T). exists a, (b ++ r), y'. split; [destruct b; [congruence|discriminate]|]. split; [now rewrite app_assoc|]. auto.
Qed.
Lemma cut_now : forall y i l, y_next y = Throw -> cut (i :: l) y.
Proof. intros y i l H. exists [], (i :: l), y. split; [discriminate|]. split; [reflexivity|]. split; [constructor|exact H]. Qed.

Definition node_good (n : ynode) : Prop := forall k c st e calls rest s, at_key k (c + 1) = false -> map snd calls = map Some (node_events n) -> sane s ->
  (exists j e' s', n = node_of j /\ sane s' /\ steps (at_work ((k, c) :: st) e (calls ++ rest) s) (items j) (at_work ((k, c + 1) :: st) e' rest s')) \/
  ((forall j, n <> node_of j) /\ exists j, cut (items j) (at_work ((k, c) :: st) e (calls ++ rest) s)).

Lemma calls_cons : forall (calls : list ycall) e es, map snd calls = map Some (e :: es) ->
  exists ns calls', calls = (ns, Some e) :: calls' /\ map snd calls' = map Some es.
Proof. intros [|[ns x] calls] e es H; cbn in H; [discriminate H|]. injection H as -> H. eauto. Qed.
Lemma calls_app : forall (calls : list ycall) a b, map snd calls = map Some (a ++ b) ->
  exists c1 c2, calls = c1 ++ c2 /\ map snd c1 = map Some a /\ map snd c2 = map Some b.
Proof.
  intros calls a. revert calls. induction a as [|e a IH]; intros calls b H; [exists [], calls; auto|].
  apply calls_cons in H as (ns & c' & -> & H). apply IH in H as (c1 & c2 & -> & H1 & H2). exists ((ns, Some e) :: c1), c2. split; [reflexivity|].
  split; [cbn; now rewrite H1|exact H2].
Qed.

Lemma next_step : forall st e ns e' calls s t y' i, sane s -> (forall s', y_event_token (at_work st e' calls s') = Ok (t, y' s')) ->
  (forall s', item_of t (y' s') = Some i) -> exists s', sane s' /\ steps (at_work st e ((ns, Some e') :: calls) s) [i] (y' s').
Proof.
  intros st e ns e' calls s t y' i H E I. destruct (next_event st e ns e' calls s H) as (s' & H' & N). exists s'. split; [exact H'|].
  econstructor; [rewrite N; apply E|apply I|constructor].
Qed.
Lemma next_throw : forall st e ns e' calls s, sane s -> (forall s', y_event_token (at_work st e' calls s') = Throw) ->
  y_next (at_work st e ((ns, Some e') :: calls) s) = Throw.
Proof. intros st e ns e' calls s H E. destruct (next_event st e ns e' calls s H) as (s' & _ & N). now rewrite N. Qed.

Theorem node_runs : forall n, node_good n.
Proof.
  apply node_ind'.
  - intros s k c st e calls rest src A E H. cbn [node_events] in E. apply calls_cons in E as (ns & c' & -> & E). destruct c'; [|discriminate E].
    left. exists (Scal s). cbn [items node_of app].
    destruct (next_step ((k, c) :: st) e ns (YScalar s) rest src TokValue (fun s' => at_work ((k, c + 1) :: st) (YScalar s) rest s') (IVal s) H) as (s' & H' & S).
    { intro s'. cbn [y_event_token at_work y_event y_stack]. rewrite A. reflexivity. }
    { reflexivity. }
    eauto 6.
  - intros k c st e calls rest s A E H. apply calls_cons in E as (ns & c' & -> & E). right. split; [intros []; discriminate|].
    exists (Scal []). apply cut_now. apply next_throw; [exact H|reflexivity].
  - intros l IH k c st e calls rest s A E H. cbn [node_events] in E. apply calls_cons in E as (ns & c0 & -> & E). apply calls_app in E as (c1 & c2 & -> & E1 & E2).
    apply calls_cons in E2 as (ns2 & c3 & -> & E2). destruct c3; [|discriminate E2]. rewrite <- app_comm_cons, <- app_assoc. cbn [app].
    destruct (next_step ((k, c) :: st) e ns YSeqStart (c1 ++ (ns2, Some YSeqEnd) :: rest) s TokArrayStart
      (fun s' => at_work ((YArr, 0) :: (k, c + 1) :: st) YSeqStart (c1 ++ (ns2, Some YSeqEnd) :: rest) s') IArrS H) as (s1 & H1 & S1).
    { intro s'. cbn [y_event_token at_work y_event y_stack]. rewrite A. reflexivity. }
    { reflexivity. }
    assert (G : forall l, Forall node_good l -> forall c1 d e1 s1, map snd c1 = map Some (flat_map node_events l) -> sane s1 ->
      (exists js e' s', l = map node_of js /\ sane s' /\
         steps (at_work ((YArr, d) :: (k, c + 1) :: st) e1 (c1 ++ (ns2, Some YSeqEnd) :: rest) s1) (flat_map items js ++ [IArrE]) (at_work ((k, c + 1) :: st) e' rest s')) \/
      ((forall js, l <> map node_of js) /\ exists js, cut (flat_map items js) (at_work ((YArr, d) :: (k, c + 1) :: st) e1 (c1 ++ (ns2, Some YSeqEnd) :: rest) s1))).
    { clear -rest. induction 1 as [|n l Hn _ IHl]; intros c1 d e1 s1 E H.
      - destruct c1; [|discriminate E]. left. exists []. cbn [app flat_map map].
        destruct (next_step ((YArr, d) :: (k, c + 1) :: st) e1 ns2 YSeqEnd rest s1 TokArrayEnd (fun s' => at_work ((k, c + 1) :: st) YSeqEnd rest s') IArrE H) as (s' & H' & S'); try reflexivity.
        eauto 6.
      - cbn [flat_map] in E. apply calls_app in E as (ca & cb & -> & Ea & Eb). rewrite <- app_assoc.
        destruct (Hn YArr d ((k, c + 1) :: st) e1 ca (cb ++ (ns2, Some YSeqEnd) :: rest) s1 eq_refl Ea H) as [(j & e2 & s2 & -> & H2 & S2)|(N & j & C)].
        + destruct (IHl cb (d + 1) e2 s2 Eb H2) as [(js & e3 & s3 & -> & H3 & S3)|(N & js & C)].
          * left. exists (j :: js), e3, s3. split; [reflexivity|]. split; [exact H3|]. cbn [flat_map]. rewrite <- app_assoc. eapply steps_app; eassumption.
          * right. split; [intros [|x js'] Q; [discriminate Q|]; injection Q as _ Q; now apply (N js')|].
            exists (j :: js). cbn [flat_map]. eapply cut_before; eassumption.
        + right. split; [intros [|x js'] Q; [discriminate Q|]; injection Q as Q _; now apply (N x)|].
          exists [j]. cbn [flat_map]. rewrite app_nil_r. exact C. }
    destruct (G l IH c1 0 YSeqStart s1 E1 H1) as [(js & e' & s' & -> & H' & S')|(N & js & C)].
    + left. exists (Arr js), e', s'. split; [reflexivity|]. split; [exact H'|]. cbn [items]. exact (steps_app _ [IArrS] _ _ _ S1 S').
    + right. split; [intros [x|js'|x] Q; cbn [node_of] in Q; try discriminate Q; apply (N js'); congruence|].
      exists (Arr js). cbn [items]. rewrite app_comm_cons. apply cut_after. exact (cut_before _ [IArrS] _ _ S1 C).
  - intros l IH k c st e calls rest s A E H. cbn [node_events] in E. apply calls_cons in E as (ns & c0 & -> & E). apply calls_app in E as (c1 & c2 & -> & E1 & E2).
    apply calls_cons in E2 as (ns2 & c3 & -> & E2). destruct c3; [|discriminate E2]. rewrite <- app_comm_cons, <- app_assoc. cbn [app].
    destruct (next_step ((k, c) :: st) e ns YMapStart (c1 ++ (ns2, Some YMapEnd) :: rest) s TokMapStart
      (fun s' => at_work ((YMap, 0) :: (k, c + 1) :: st) YMapStart (c1 ++ (ns2, Some YMapEnd) :: rest) s') IMapS H) as (s1 & H1 & S1).
    { intro s'. cbn [y_event_token at_work y_event y_stack]. rewrite A. reflexivity. }
    { reflexivity. }
    assert (G : forall l, Forall (fun kv => node_good (fst kv) /\ node_good (snd kv)) l -> forall c1 d e1 s1, d mod 2 = 0 ->
      map snd c1 = map Some (flat_map (fun kv => node_events (fst kv) ++ node_events (snd kv)) l) -> sane s1 ->
      (exists js e' s', l = map (fun kv => (NScal (fst kv), node_of (snd kv))) js /\ sane s' /\
         steps (at_work ((YMap, d) :: (k, c + 1) :: st) e1 (c1 ++ (ns2, Some YMapEnd) :: rest) s1) (flat_map (fun kv => IKey (fst kv) :: items (snd kv)) js ++ [IMapE]) (at_work ((k, c + 1) :: st) e' rest s')) \/
      ((forall js, l <> map (fun kv => (NScal (fst kv), node_of (snd kv))) js) /\
        exists js, cut (flat_map (fun kv => IKey (fst kv) :: items (snd kv)) js ++ [IMapE]) (at_work ((YMap, d) :: (k, c + 1) :: st) e1 (c1 ++ (ns2, Some YMapEnd) :: rest) s1))).
    { clear -rest. induction 1 as [|[kn n] l [_ Hn] _ IHl]; intros c1 d e1 s1 D E H.
      - destruct c1; [|discriminate E]. left. exists []. cbn [app flat_map map].
        destruct (next_step ((YMap, d) :: (k, c + 1) :: st) e1 ns2 YMapEnd rest s1 TokMapEnd (fun s' => at_work ((k, c + 1) :: st) YMapEnd rest s') IMapE H) as (s' & H' & S').
        { intro s'. cbn [y_event_token at_work y_event y_stack]. rewrite D. reflexivity. }
        { reflexivity. }
        eauto 6.
      - cbn [flat_map fst snd] in E. rewrite <- app_assoc in E. apply calls_app in E as (ck & cr & -> & Ek & E). apply calls_app in E as (ca & cb & -> & Ea & Eb).
        cbn [snd] in Hn. assert (K := even_key d D).
        assert (Bad : (forall x, kn <> NScal x) -> y_next (at_work ((YMap, d) :: (k, c + 1) :: st) e1 ((ck ++ ca ++ cb) ++ (ns2, Some YMapEnd) :: rest) s1) = Throw).
        { intro B. destruct kn as [x| |x|x]; [now destruct (B x)|..]; cbn [node_events] in Ek; apply calls_cons in Ek as (nk & ck' & -> & _); cbn [app]; apply next_throw; auto;
            intro s'; cbn [y_event_token at_work y_event y_stack]; rewrite ?K; reflexivity. }
        destruct kn as [x| |x|x].
        2-4: right; (split; [intros [|[k1 j1] js'] Q; discriminate Q|]); exists []; cbn [flat_map app]; apply cut_now, Bad; discriminate.
        clear Bad. cbn [node_events] in Ek. apply calls_cons in Ek as (nk & ck' & -> & Ek). destruct ck'; [|discriminate Ek]. cbn [app].
        destruct (next_step ((YMap, d) :: (k, c + 1) :: st) e1 nk (YScalar x) ((ca ++ cb) ++ (ns2, Some YMapEnd) :: rest) s1 TokKey
          (fun s' => at_work ((YMap, d + 1) :: (k, c + 1) :: st) (YScalar x) ((ca ++ cb) ++ (ns2, Some YMapEnd) :: rest) s') (IKey x) H) as (s2 & H2 & S2).
        { intro s'. cbn [y_event_token at_work y_event y_stack]. rewrite K. reflexivity. }
        { reflexivity. }
        rewrite <- app_assoc in *.
        destruct (Hn YMap (d + 1) ((k, c + 1) :: st) (YScalar x) ca (cb ++ (ns2, Some YMapEnd) :: rest) s2 (odd_value d D) Ea H2) as [(j & e3 & s3 & -> & H3 & S3)|(N & j & C)].
        + destruct (IHl cb (d + 1 + 1) e3 s3 (even_next d D) Eb H3) as [(js & e4 & s4 & -> & H4 & S4)|(N & js & C)].
          * left. exists ((x, j) :: js), e4, s4. split; [reflexivity|]. split; [exact H4|]. cbn [flat_map fst snd app]. rewrite <- app_assoc.
            exact (steps_app _ [IKey x] _ _ _ S2 (steps_app _ _ _ _ _ S3 S4)).
          * right. split; [intros [|[k1 j1] js'] Q; [discriminate Q|]; injection Q as _ _ Q; now apply (N js')|].
            exists ((x, j) :: js). cbn [flat_map fst snd app]. rewrite <- app_assoc. exact (cut_before _ [IKey x] _ _ S2 (cut_before _ _ _ _ S3 C)).
        + right. split; [intros [|[k1 j1] js'] Q; [discriminate Q|]; injection Q as _ Q _; now apply (N j1)|].
          exists [(x, j)]. cbn [flat_map fst snd app]. rewrite app_nil_r. exact (cut_before _ [IKey x] _ _ S2 (cut_after _ _ _ C)). }
    destruct (G l IH c1 0 YMapStart s1 eq_refl E1 H1) as [(js & e' & s' & -> & H' & S')|(N & js & C)].
    + left. exists (Obj js), e', s'. split; [reflexivity|]. split; [exact H'|]. cbn [items]. exact (steps_app _ [IMapS] _ _ _ S1 S').
    + right. split; [intros [x|x|js'] Q; cbn [node_of] in Q; try discriminate Q; apply (N js'); congruence|].
      exists (Obj js). cbn [items]. exact (cut_before _ [IMapS] _ _ S1 C).
Qed.

(** ** The first token *)
Lemma first_next_eq : forall n0 ns e calls s s', y_reads (n0 ++ ns) s = Ok s' ->
  y_next (y_init ((n0, Some YStreamStart) :: (ns, Some e) :: calls) s) = y_event_token (at_work [(YOpen, 0)] e calls s').
Proof.
  intros n0 ns e calls s s' E. rewrite y_reads_app in E. destruct (y_reads n0 s) as [s1| | |] eqn:E1; try discriminate E. cbn [bind] in E.
  unfold y_next, y_init. cbn [y_first yset_first]. unfold y_parse at 1. cbn [y_calls y_src yset_first]. rewrite E1. cbn [bind y_event andb negb y_first y_error y_stack].
  unfold yset_stack. cbn [y_first y_error y_event y_calls y_src]. unfold y_parse. cbn [y_calls y_src]. rewrite E. reflexivity.
Qed.
Lemma first_next : forall n0 ns e calls s, sane s -> exists s', sane s' /\
  y_next (y_init ((n0, Some YStreamStart) :: (ns, Some e) :: calls) s) = y_event_token (at_work [(YOpen, 0)] e calls s').
Proof.
  intros n0 ns e calls s H. destruct (y_reads_sane n0 s H) as (s1 & E1 & H1). destruct (y_reads_sane ns s1 H1) as (s2 & E2 & H2). exists s2. split; [exact H2|].
  unfold y_next, y_init. cbn [y_first yset_first]. unfold y_parse at 1. cbn [y_calls y_src yset_first]. rewrite E1. cbn [bind y_event andb negb y_first y_error y_stack].
  unfold yset_stack. cbn [y_first y_error y_event y_calls y_src]. unfold y_parse. cbn [y_calls y_src]. rewrite E2. reflexivity.
Qed.

Theorem stream_runs : forall docs calls s, map snd calls = map Some (stream_events docs) -> sane s ->
  match docs with
  | [] => delivered (y_init calls s) [] EndError
  | d :: more =>
      (exists j, d = node_of j /\ delivered (y_init calls s) (doc_items j) (match more with [] => EndError | _ => EndException end)) \/
      ((forall j, d <> node_of j) /\ exists j l r, r <> [] /\ doc_items j = l ++ r /\ delivered (y_init calls s) l EndException)
  end.
Proof.
  intros docs calls s E H. unfold stream_events in E. apply calls_cons in E as (n0 & c0 & -> & E). destruct docs as [|d more].
  - cbn [flat_map app] in E. apply calls_cons in E as (n1 & c1 & -> & E). destruct (first_next n0 n1 YStreamEnd c1 s H) as (s' & _ & N).
    eapply dl_error. rewrite N. reflexivity.
  - cbn [flat_map] in E. unfold doc_events at 1 in E. rewrite <- app_assoc, <- app_comm_cons in E. apply calls_cons in E as (n1 & c1 & -> & E).
    destruct (first_next n0 n1 YDocStart c1 s H) as (s1 & H1 & N). rewrite <- app_assoc in E. apply calls_app in E as (ca & cb & -> & Ea & Eb).
    assert (S1 : steps (y_init ((n0, Some YStreamStart) :: (n1, Some YDocStart) :: ca ++ cb) s) [IDocS] (at_work [(YOpen, 1)] YDocStart (ca ++ cb) s1)).
    { econstructor; [rewrite N; reflexivity|reflexivity|constructor]. }
    destruct (node_runs d YOpen 1 [] YDocStart ca cb s1 eq_refl Ea H1) as [(j & e' & s2 & -> & H2 & S2)|(Nd & j & (l & r & y' & Nr & Eq & S2 & T))].
    + left. exists j. split; [reflexivity|]. cbn [app] in Eb. apply calls_cons in Eb as (n2 & c2 & -> & Eb).
      destruct (next_step [(YOpen, 1 + 1)] e' n2 YDocEnd c2 s2 TokDocEnd (fun s' => at_work [(YOpen, 2)] YDocEnd c2 s') IDocE H2) as (s3 & H3 & S3); try reflexivity.
      unfold doc_items. replace (IDocS :: items j ++ [IDocE]) with (([IDocS] ++ items j ++ [IDocE]) ++ []) by now rewrite app_nil_r.
      eapply steps_delivered; [exact (steps_app _ _ _ _ _ S1 (steps_app _ _ _ _ _ S2 S3))|].
      destruct more as [|d2 more].
      * cbn [flat_map app] in Eb. apply calls_cons in Eb as (n3 & c3 & -> & Eb). destruct (next_event [(YOpen, 2)] YDocEnd n3 YStreamEnd c3 s3 H3) as (s4 & _ & N4).
        eapply dl_error. rewrite N4. reflexivity.
      * cbn [flat_map] in Eb. unfold doc_events at 1 in Eb. rewrite <- app_assoc, <- app_comm_cons in Eb. apply calls_cons in Eb as (n3 & c3 & -> & Eb).
        apply dl_throw. apply next_throw; [exact H3|reflexivity].
    + right. split; [exact Nd|]. exists j, (IDocS :: l), (r ++ [IDocE]). split; [destruct r; [congruence|discriminate]|].
      split; [unfold doc_items; rewrite Eq, <- app_assoc; reflexivity|].
      rewrite <- (app_nil_r (IDocS :: l)). eapply steps_delivered; [exact (steps_app _ [IDocS] _ _ _ S1 S2)|]. now apply dl_throw.
Qed.

(** ** A text that libyaml gives up on *)
(** [broken a b]: the run [b] is as [a], but fails at some call. *)
Inductive broken : list ycall -> list ycall -> Prop :=
| br_fail : forall ns l l', broken l ((ns, None) :: l')
| br_cons : forall c l l', broken l l' -> broken (c :: l) (c :: l').
Definition like (y z : yst) : Prop :=
  y_first y = y_first z /\ y_error y = y_error z /\ y_stack y = y_stack z /\ y_event y = y_event z /\ broken (y_calls y) (y_calls z) /\
  y_src y = y_src z /\ sane (y_src z) /\ (y_error y = false).
Lemma broken_event : forall y z tk y', like y z -> y_event_token y = Ok (tk, y') -> exists z', y_event_token z = Ok (tk, z') /\
  (tk = TokError \/ like y' z').
Proof.
  intros [f1 e1 st1 ev1 c1 s1] [f2 e2 st2 ev2 c2 s2] tk y' (E1 & E2 & E3 & E4 & B & E5 & H & E6) E. cbn in E1, E2, E3, E4, B, E5, H, E6. subst.
  cbn [y_event_token y_event y_stack] in *.
  assert (G : forall t st, Ok (t, yset_stack (mkY f2 false st2 ev2 c1 s2) st) = Ok (tk, y') ->
    exists z', Ok (t, yset_stack (mkY f2 false st2 ev2 c2 s2) st) = Ok (tk, z') /\ (tk = TokError \/ like y' z')).
  { intros t st Q. assert (t = tk) as -> by congruence. assert (y' = yset_stack (mkY f2 false st2 ev2 c1 s2) st) as -> by congruence.
    eexists. split; [reflexivity|]. right. unfold like. cbn. auto 10. }
  unfold y_event_token in *. cbn [y_event y_stack] in *.
  destruct ev2; try discriminate E.
  - unfold y_parsingError in *. eexists. split; [assert (tk = TokError) as -> by congruence; reflexivity|left; congruence].
  - destruct st2 as [|[[] z0] [|]]; try discriminate E; try (destruct z0; discriminate E). destruct z0; try discriminate E. now apply G.
  - destruct st2 as [|[[] z0] [|]]; try discriminate E. eexists. split; [assert (tk = TokDocEnd) as -> by congruence; reflexivity|].
    right. assert (y' = mkY f2 false [(YOpen, z0)] YDocEnd c1 s2) as -> by congruence. unfold like. cbn. auto 10.
  - destruct st2 as [|[k c] st]; [discriminate E|]. destruct (at_key k (c + 1)); [discriminate E|]. now apply G.
  - destruct st2 as [|[k c] st]; [discriminate E|]. destruct (c mod 2 =? 0); [|discriminate E]. now apply G.
  - destruct st2 as [|[k c] st]; [discriminate E|]. destruct (at_key k (c + 1)); [discriminate E|]. now apply G.
  - destruct st2 as [|[k c] st]; [discriminate E|]. now apply G.
  - destruct st2 as [|[k c] st]; [discriminate E|]. now apply G.
Qed.

Lemma broken_throw : forall y z, like y z -> y_event_token y = Throw -> y_event_token z = Throw.
Proof.
  intros [f1 e1 st1 ev1 c1 s1] [f2 e2 st2 ev2 c2 s2] (E1 & E2 & E3 & E4 & B & E5 & H & E6) E. cbn in E1, E2, E3, E4, B, E5, H, E6. subst.
  unfold y_event_token in *. cbn [y_event y_stack] in *.
  destruct ev2; try discriminate E; try reflexivity.
  - destruct st2 as [|[[] z0] [|]]; try reflexivity; try (destruct z0; reflexivity). destruct z0; try reflexivity. discriminate E.
  - destruct st2 as [|[[] z0] [|]]; try reflexivity. discriminate E.
  - destruct st2 as [|[k c] st]; [discriminate E|]. destruct (at_key k (c + 1)); [reflexivity|discriminate E].
  - destruct st2 as [|[k c] st]; [discriminate E|]. destruct (c mod 2 =? 0); [discriminate E|reflexivity].
  - destruct st2 as [|[k c] st]; [discriminate E|]. destruct (at_key k (c + 1)); [reflexivity|discriminate E].
  - destruct st2 as [|[k c] st]; discriminate E.
  - destruct st2 as [|[k c] st]; discriminate E.
Qed.
Lemma broken_parse : forall y z, like y z ->
  (exists z', y_parse z = Ok (false, z') /\ y_event z' = YNone) \/
  (exists ok y' z', y_parse y = Ok (ok, y') /\ y_parse z = Ok (ok, z') /\ like y' z' /\ (ok = false -> y_event z' = YNone)).
Proof.
  intros [f1 e1 st1 ev1 c1 s1] [f2 e2 st2 ev2 c2 s2] (E1 & E2 & E3 & E4 & B & E5 & H & E6). cbn in E1, E2, E3, E4, B, E5, H, E6. subst.
  unfold y_parse. cbn [y_calls y_src y_first y_error y_stack]. destruct B as [ns l l'|[ns e] l l' B].
  - left. destruct (y_reads_sane ns s2 H) as (s' & -> & H'). cbn [bind]. eexists. split; reflexivity.
  - right. destruct (y_reads_sane ns s2 H) as (s' & -> & H'). cbn [bind]. destruct e as [e|]; eexists _, _, _; (split; [reflexivity|]); (split; [reflexivity|]);
      (split; [unfold like; cbn; auto 10|intro Q; try discriminate Q; reflexivity]).
Qed.
Lemma broken_next : forall y z, like y z ->
  (exists z', y_next z = Ok (TokError, z')) \/
  (forall tk y', y_next y = Ok (tk, y') -> exists z', y_next z = Ok (tk, z') /\ (tk = TokError \/ like y' z')) /\ (y_next y = Throw -> y_next z = Throw).
Proof.
  intros y z L. assert (L0 := L). destruct L0 as (E1 & E2 & _ & _ & _ & _ & _ & E6). unfold y_next. rewrite <- E1. destruct (y_first y) eqn:F.
  - assert (L1 : like (yset_first y) (yset_first z)).
    { destruct L as (A1 & A2 & A3 & A4 & A5 & A6 & A7 & A8). unfold like, yset_first. cbn. auto 10. }
    destruct (broken_parse _ _ L1) as [(z' & -> & Ez)|(ok & y' & z' & -> & -> & L2 & Ez)]; cbn [bind].
    + left. rewrite Ez. unfold y_parsingError. cbn [andb negb]. eexists. reflexivity.
    + assert (L3 := L2). destruct L3 as (B1 & B2 & B3 & B4 & B5 & B6 & B7 & B8). rewrite <- B4.
      destruct (ok && match y_event y' with YStreamStart => true | _ => false end) eqn:G; cbn [negb].
      2:{ left. unfold y_parsingError. eauto. }
      apply andb_prop in G as [-> G]. destruct (y_event y') eqn:Ev; try discriminate G.
      cbn [y_error yset_stack]. rewrite <- B2, B8.
      assert (L4 : like (yset_stack y' [(YOpen, 0)]) (yset_stack z' [(YOpen, 0)])) by (unfold like, yset_stack; cbn; rewrite Ev; auto 10).
      destruct (broken_parse _ _ L4) as [(z2 & -> & Ez2)|(ok2 & y2 & z2 & -> & -> & L5 & Ez2)]; cbn [bind].
      * left. unfold y_parsingError. eauto.
      * destruct ok2; [|left; unfold y_parsingError; eauto]. right. split; [intros tk y3 E; now apply (broken_event y2)|now apply broken_throw].
  - cbn [bind negb]. rewrite <- E2, E6.
    destruct (broken_parse _ _ L) as [(z2 & -> & Ez2)|(ok2 & y2 & z2 & -> & -> & L5 & Ez2)]; cbn [bind].
    + left. unfold y_parsingError. eauto.
    + destruct ok2; [|left; unfold y_parsingError; eauto]. right. split; [intros tk y3 E; now apply (broken_event y2)|now apply broken_throw].
Qed.
Theorem broken_delivered : forall y l e, delivered y l e -> forall z, like y z -> exists l1 l2 e', l = l1 ++ l2 /\ delivered z l1 e'.
Proof.
  induction 1 as [y y' E|y E|y t y' i l e E I D IH]; intros z L; destruct (broken_next y z L) as [(z' & Z)|[Zs Zt]].
  1,3,5: eexists [], _, _; split; [reflexivity|]; eapply dl_error; exact Z.
  - destruct (Zs _ _ E) as (z' & Z & _). eexists [], _, _. split; [reflexivity|]. eapply dl_error. exact Z.
  - eexists [], _, _. split; [reflexivity|]. apply dl_throw. auto.
  - destruct (Zs _ _ E) as (z' & Z & [->|L']).
    + eexists [], _, _. split; [reflexivity|]. eapply dl_error. exact Z.
    + destruct (IH z' L') as (l1 & l2 & e' & -> & D'). exists (i :: l1), l2, e'. split; [reflexivity|]. eapply dl_step; [exact Z| |exact D'].
      destruct L' as (_ & _ & _ & Ev & _). unfold item_of, y_text in *. rewrite <- Ev. now destruct (y_event y').
Qed.
Lemma like_init : forall calls calls' s, broken calls calls' -> sane s -> like (y_init calls s) (y_init calls' s).
Proof. intros. unfold like, y_init. cbn. auto 10. Qed.
