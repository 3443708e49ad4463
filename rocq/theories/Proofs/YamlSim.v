(** YamlParser follows the tree reader on the documents that have the form of a JSON document. *)
From Coq Require Import ZArith String List Bool Lia ZifyBool.
From Verif Require Import Model.Base Model.Source Model.Number Model.ParserInterface Model.Types Model.Deserializer Model.Importer Model.Yaml
  Spec.Json Spec.Typed Spec.Yaml Proofs.Induct Proofs.Sim Proofs.TreeM Proofs.YamlP.
Import ListNotations.
Open Scope Z_scope.

(** How a YAML scalar is read. *)
Definition yaml_sc_with (ints : ity -> bytes -> outcome Z) : scal_ops bytes :=
  mkScal bytes ints yaml_bool (fun s => Ok s) text_null (fun _ => true) (fun n => Ok n) (fun _ => true) false text_null false.

Definition ev_of (e : ev bytes) : yev :=
  match e with
  | EMapS => YMapStart | EMapE => YMapEnd | EArrS => YSeqStart | EArrE => YSeqEnd | EKey k => YScalar k | EScal s => YScalar s
  end.
Lemma events_node : forall j, map ev_of (events j) = node_events (node_of j).
Proof.
  refine (tree_ind' (fun j => map ev_of (events j) = node_events (node_of j)) _ _ _).
  - reflexivity.
  - intros l IH. cbn [events node_of node_events map ev_of]. rewrite map_app. cbn [map ev_of]. f_equal. f_equal.
    induction IH as [|x l Hx _ IHl]; [reflexivity|]. cbn [flat_map map]. rewrite map_app. now f_equal.
  - intros l IH. cbn [events node_of node_events map ev_of]. rewrite map_app. cbn [map ev_of]. f_equal. f_equal.
    induction IH as [|[k x] l Hx _ IHl]; [reflexivity|]. cbn [flat_map map fst snd node_events app ev_of]. rewrite map_app. f_equal. now f_equal.
Qed.

(** The stack of the parser fits the events that are still to come; then it is [fin]. *)
Fixpoint fits_stack (fin : list (ykind * Z)) (st : list (ykind * Z)) (evs : list (ev bytes)) : Prop :=
  match evs with
  | [] => st = fin
  | e :: r =>
      match st with
      | [] => False
      | (k, c) :: s =>
          match e with
          | EMapS => at_key k (c + 1) = false /\ fits_stack fin ((YMap, 0) :: (k, c + 1) :: s) r
          | EArrS => at_key k (c + 1) = false /\ fits_stack fin ((YArr, 0) :: (k, c + 1) :: s) r
          | EMapE => c mod 2 = 0 /\ fits_stack fin s r
          | EArrE => fits_stack fin s r
          | EKey _ => at_key k (c + 1) = true /\ fits_stack fin ((k, c + 1) :: s) r
          | EScal _ => at_key k (c + 1) = false /\ fits_stack fin ((k, c + 1) :: s) r
          end
      end
  end.
Lemma fits_tree : forall j fin k c st r, at_key k (c + 1) = false -> fits_stack fin ((k, c + 1) :: st) r -> fits_stack fin ((k, c) :: st) (events j ++ r).
Proof.
  refine (tree_ind' (fun j => forall fin k c st r, at_key k (c + 1) = false -> fits_stack fin ((k, c + 1) :: st) r -> fits_stack fin ((k, c) :: st) (events j ++ r)) _ _ _).
  - intros a fin k c st r A H. cbn. auto.
  - intros l IH fin k c st r A H. cbn [events app fits_stack]. split; [exact A|]. rewrite <- app_assoc. generalize 0.
    induction IH as [|x l Hx _ IHl]; intro d; [exact H|]. cbn [flat_map]. rewrite <- app_assoc. apply Hx; [reflexivity|apply IHl].
  - intros l IH fin k c st r A H. cbn [events app fits_stack]. split; [exact A|]. rewrite <- app_assoc.
    assert (D : forall d, d = 0 -> d mod 2 = 0) by (intros; now subst). specialize (D 0 eq_refl). revert D. generalize 0 at 1 3. intros d D. revert d D.
    induction IH as [|[n x] l Hx _ IHl]; intros d D; [cbn; auto|]. cbn [flat_map fst snd app fits_stack]. split; [now apply even_key|].
    rewrite <- app_assoc. apply Hx; [now apply odd_value|]. apply IHl. now apply even_next.
Qed.

(** Rewriting up to the names of types. *)
Ltac use N := match type of N with _ = ?r => match goal with |- context [y_next ?z] => replace (y_next z) with r by (symmetry; exact N) end end.

Section Sim.
  Context (ints : ity -> bytes -> outcome Z).
  Local Notation yaml_sc := (yaml_sc_with ints).
  Local Notation yaml_ops := (yaml_ops_with ints).
  Variables (fin : list (ykind * Z)) (rest : list ycall) (sB : src)
    (Hfin : exists c, fin = [(YOpen, c)]) (Hrest : exists ns rest', rest = (ns, Some YDocEnd) :: rest').

  (** [rest]: the calls from the end of the document on, [sB]: the source before them. *)
  Definition RY (t : tm bytes) (y : yst) : Prop :=
    tm_on t = true /\ y_first y = false /\ y_error y = false /\ sane (y_src y) /\
    match tm_pend t with
    | PEnd b => y_null y = b
    | p => (exists c1, y_calls y = c1 ++ rest /\ map snd c1 = map (fun e => Some (ev_of e)) (tm_evs t) /\ y_reads (pieces c1) (y_src y) = Ok sB) /\
           fits_stack fin (y_stack y) (tm_evs t) /\
           match p with
           | PFree b => y_null y = b
           | PKey k => y_event y = YScalar k
           | PVal a => y_event y = YScalar a
           | PEnd _ => False
           end
    end.

  Lemma yaml_next_sim : forall a b, RY a b -> follows RY (tm_next yaml_sc a) (y_next b).
  Proof.
    intros [on pd evs] [f er st e calls s] (On & F & Er & H & P). cbn in On, F, Er, H. subst. cbn [tm_next tm_on negb tm_pend tm_evs].
    destruct pd as [b|k|a|b]; try exact I. cbn [tm_pend tm_evs y_calls y_stack y_event y_src] in P. destruct P as ((c1 & -> & C & Rd) & St & Nb).
    destruct evs as [|ev evs].
    - cbn [fits_stack] in St. subst st. destruct Hfin as (c & ->). destruct c1 as [|[ns e'] c1]; [|discriminate C]. destruct Hrest as (ns & rest' & ->). cbn [app].
      destruct (next_event [(YOpen, c)] e ns YDocEnd rest' s H) as (s' & H' & N). unfold at_work in N. use N.
      apply follows_ret. unfold RY. cbn. auto 10.
    - destruct c1 as [|[ns e'] c1]; [discriminate C|]. cbn [map snd] in C. injection C as -> C. cbn [pieces flat_map fst] in Rd. rewrite y_reads_app in Rd.
      destruct (y_reads_sane ns s H) as (s' & E & H'). rewrite E in Rd. cbn [bind] in Rd. fold (pieces c1) in Rd.
      assert (N := next_event_eq st e ns (ev_of ev) (c1 ++ rest) s s' E). unfold at_work in N. cbn [app]. use N. clear N.
      destruct st as [|[k c] st]; [destruct St|]. cbn [fits_stack] in St.
      destruct ev; cbn [ev_of ev_token y_event_token y_event y_stack] in *; unfold y_event_token; cbn [y_event y_stack];
        try (destruct St as [A St]; rewrite A); cbn [Z.eqb];
        (apply follows_ret; unfold RY, yset_stack; cbn [tm_on tm_pend tm_evs ev_pend sc_lag yaml_sc_with andb y_first y_error y_src y_calls y_stack y_event];
         repeat (split; [solve [reflexivity|exact H'|exists c1; auto|exact St]|]); reflexivity || exact St).
  Qed.
  Lemma yaml_val_sim : forall {B} (f : bytes -> outcome B) a b, RY a b -> follows RY (tm_val yaml_sc f a) (y_value f b).
  Proof.
    intros B f [on pd evs] [fi er st e calls s] (On & F & Er & H & P). cbn in On, F, Er, H. subst. unfold tm_val. cbn [tm_pend].
    destruct pd as [b|k|a|b]; try exact I. cbn [tm_pend tm_evs y_calls y_stack y_event y_src] in P. destruct P as (C & St & ->).
    unfold y_value, y_text. cbn [y_event bind]. destruct (f a) as [v| | |]; cbn [bind]; try (reflexivity || exact I).
    apply follows_ret. unfold RY. cbn [tm_on tm_pend tm_evs y_first y_error y_src y_calls y_stack y_event]. auto 10.
  Qed.
  Lemma yaml_sim : sim (tree_ops yaml_sc) yaml_ops RY.
  Proof.
    constructor; cbn [op_next op_key op_int op_bool op_str op_null op_ignore op_ignoreMap op_ignoreArr tree_ops yaml_ops_with].
    - exact yaml_next_sim.
    - intros [on pd evs] [fi er st e calls s] (On & F & Er & H & P). cbn in On, F, Er, H. subst. unfold tm_key. cbn [tm_pend].
      destruct pd as [b|k|a|b]; try exact I. cbn [tm_pend tm_evs y_calls y_stack y_event y_src] in P. destruct P as (C & St & ->).
      unfold y_text. cbn [y_event sc_key yaml_sc_with bind]. apply follows_ret. unfold RY.
      cbn [tm_on tm_pend tm_evs y_first y_error y_src y_calls y_stack y_event]. unfold key_null, y_null. cbn [sc_knull sc_lag yaml_sc_with andb y_event].
      rewrite orb_false_r. auto 10.
    - intros i a b H. now apply yaml_val_sim.
    - intros a b H. now apply yaml_val_sim.
    - intros a b H. assert (Q := yaml_val_sim (fun s => Ok s) a b H). destruct b as [fi er st e calls s]. unfold y_value, y_text in *. cbn [y_event] in *.
      destruct e; exact Q.
    - intros [on pd evs] [fi er st e calls s] (On & F & Er & H & P). cbn in On, F, Er, H. subst. unfold tm_null. cbn [tm_pend].
      destruct pd as [b|k|a|b]; cbn [tm_pend tm_evs y_calls y_stack y_event y_src] in P.
      + now destruct P as (_ & _ & ->).
      + destruct P as (_ & _ & ->). unfold key_null, y_null. cbn [sc_knull sc_lag yaml_sc_with andb y_event]. apply orb_false_r.
      + now destruct P as (_ & _ & ->).
      + now rewrite P.
    - intros [on pd evs] [fi er st e calls s] (On & F & Er & H & P). cbn in On, F, Er, H. subst. unfold tm_ignore. cbn [tm_pend tm_evs].
      destruct pd as [b|k|a|b]; try exact I; cbn [tm_pend tm_evs y_calls y_stack y_event y_src] in P; destruct P as (C & St & ->).
      + cbn [sc_kskip yaml_sc_with]. apply follows__ret. unfold RY. cbn [tm_on tm_pend tm_evs y_first y_error y_src y_calls y_stack y_event].
        unfold key_null, y_null. cbn [sc_knull sc_lag yaml_sc_with andb y_event]. rewrite orb_false_r. auto 10.
      + match goal with |- context [if ?c then _ else _] => destruct c end; [|exact I].
        apply follows__ret. unfold RY. cbn [tm_on tm_pend tm_evs y_first y_error y_src y_calls y_stack y_event]. auto 10.
    - intros f a b H. now apply follows__ret.
    - intros f a b H. now apply follows__ret.
  Qed.
End Sim.

Section Import.
Context (ints : ity -> bytes -> outcome Z).
Local Notation yaml_sc := (yaml_sc_with ints).
Local Notation yaml_ops := (yaml_ops_with ints).
(** The meaning of a tree under a configuration. *)
Definition yaml_meaning_with (cfg : pconfig) (t : ty) (v : val) (j : tree bytes) : outcome val :=
  i_parse (interp yaml_sc (pc_strict cfg) (pc_marker cfg) t) v j.

Lemma yaml_str_tame : forall t, wf t = true -> tame yaml_sc t.
Proof. intros t H. right. split; [reflexivity|exact H]. Qed.

(** The calls up to the end of the first document. *)
Definition doc_calls (j : tree bytes) (calls : list ycall) : Prop :=
  map snd calls = Some YStreamStart :: map Some (doc_events (node_of j)).

Lemma doc_calls_split : forall j calls, doc_calls j calls -> exists n0 n1 c1 n2,
  calls = (n0, Some YStreamStart) :: (n1, Some YDocStart) :: c1 ++ [(n2, Some YDocEnd)] /\ map snd c1 = map (fun e => Some (ev_of e)) (events j).
Proof.
  intros j calls C. unfold doc_calls, doc_events in C. change (map snd calls = map Some (YStreamStart :: YDocStart :: node_events (node_of j) ++ [YDocEnd])) in C.
  apply calls_cons in C as (n0 & c0 & -> & C). apply calls_cons in C as (n1 & c1 & -> & C). apply calls_app in C as (ca & cb & -> & Ca & Cb).
  apply calls_cons in Cb as (n2 & cc & -> & Cc). destruct cc; [|discriminate Cc]. exists n0, n1, ca, n2. split; [reflexivity|].
  rewrite Ca, <- events_node, map_map. reflexivity.
Qed.

Theorem yaml_parse : forall F m marker j rest calls n2 ty v s sB, wf ty = true -> doc_calls j (calls ++ [(n2, Some YDocEnd)]) -> sane s ->
  y_reads (pieces calls) s = Ok sB -> (size j <= F)%nat ->
  exists y, getToken yaml_ops (pst_init (y_init (calls ++ (n2, Some YDocEnd) :: rest) s)) = Ok (TokDocStart, pst_init y) /\
  match i_parse (interp yaml_sc m marker ty) v j with
  | Ok v' => exists y', d_parse (deser yaml_ops F m marker ty) v (pst_init y) = Ok (v', pst_init y') /\
               RY [(YOpen, 2)] ((n2, Some YDocEnd) :: rest) sB (mkTm true (PFree (end_null yaml_sc j)) []) y'
  | Throw => d_parse (deser yaml_ops F m marker ty) v (pst_init y) = Throw
  | UB => d_parse (deser yaml_ops F m marker ty) v (pst_init y) = UB
  | Hang => True
  end.
Proof.
  intros F m marker j rest calls n2 ty v s sB W C H HB HF. apply doc_calls_split in C as (n0 & n1 & c1 & n3 & C & Ce).
  rewrite !app_comm_cons in C. apply app_inj_tail in C as [-> _]. cbn [app]. 
  change (pieces ((n0, Some YStreamStart) :: (n1, Some YDocStart) :: c1)) with (n0 ++ n1 ++ pieces c1) in HB. rewrite app_assoc, y_reads_app in HB.
  destruct (y_reads_sane (n0 ++ n1) s H) as (s' & E & H'). rewrite E in HB. cbn [bind] in HB.
  assert (N := first_next_eq n0 n1 YDocStart (c1 ++ (n2, Some YDocEnd) :: rest) s s' E).
  exists (at_work [(YOpen, 1)] YDocStart (c1 ++ (n2, Some YDocEnd) :: rest) s'). split.
  { unfold getToken, lift. cbn [pst_init ps_pb1 ps_pb2 ps_impl token_eqb negb op_next yaml_ops_with]. use N. reflexivity. }
  assert (HR : Rp (RY [(YOpen, 2)] ((n2, Some YDocEnd) :: rest) sB) (pst_init (mkTm true (PFree false) (events j))) (pst_init (at_work [(YOpen, 1)] YDocStart (c1 ++ (n2, Some YDocEnd) :: rest) s'))).
  { split; [|split; reflexivity]. unfold RY. cbn [tm_on tm_pend tm_evs ps_impl pst_init at_work y_first y_error y_src y_calls y_stack y_event].
    split; [reflexivity|]. split; [reflexivity|]. split; [reflexivity|]. split; [exact H'|]. split; [|split; [|reflexivity]].
    - exists c1. auto.
    - rewrite <- (app_nil_r (events j)). now apply fits_tree. }
  assert (S := proj1 (sim_deser _ _ _ (yaml_sim ints [(YOpen, 2)] ((n2, Some YDocEnd) :: rest) sB (ex_intro _ 2 eq_refl) (ex_intro _ n2 (ex_intro _ rest eq_refl))) F m marker ty) v _ _ HR).
  assert (B : before yaml_sc j [] (pst_init (mkTm true (PFree false) (events j)))).
  { assert (B := before_st yaml_sc j [] false). rewrite app_nil_r in B. exact B. }
  rewrite (proj1 (interp_parse yaml_sc m marker F ty (yaml_str_tame ty W)) v j [] _ B HF) in S.
  destruct (i_parse (interp yaml_sc m marker ty) v j) as [v'| | |]; cbn [bind follows] in S; try exact I; try exact S.
  destruct S as ([y' pb1 pb2] & E2 & (HRp & E3 & E4)). cbn in E3, E4. subst pb1 pb2. exists y'. split; [exact E2|exact HRp].
Qed.

(** What a whole import does.  [sB]: the source after all pieces before the end of the document. *)
Theorem yaml_try_spec : forall fuel cfg j calls n2 rest ty v s sB, wf ty = true -> doc_calls j (calls ++ [(n2, Some YDocEnd)]) -> sane s ->
  y_reads (pieces calls) s = Ok sB -> (size j <= fuel)%nat ->
  match yaml_meaning_with cfg ty v j with
  | Ok v' => yaml_try_with ints fuel cfg ty v (calls ++ (n2, Some YDocEnd) :: rest) s = do s1 <- check_trailing (pc_noTrailing cfg) sB; do s2 <- y_reads n2 s1; Ok (v', s2)
  | Throw => yaml_try_with ints fuel cfg ty v (calls ++ (n2, Some YDocEnd) :: rest) s = Throw
  | UB => yaml_try_with ints fuel cfg ty v (calls ++ (n2, Some YDocEnd) :: rest) s = UB
  | Hang => True
  end.
Proof.
  intros fuel cfg j calls n2 rest ty v s sB W C H HB HF. unfold yaml_try_with, yaml_meaning_with.
  destruct (yaml_parse fuel (pc_strict cfg) (pc_marker cfg) j rest calls n2 ty v s sB W C H HB HF) as (y & -> & P). cbn [bind].
  destruct (i_parse _ v j) as [v'| | |]; try exact I; try (rewrite P; reflexivity).
  destruct P as (y' & -> & (_ & F1 & F2 & Hs & (c1 & Ec & Cm & Rd) & St & _)). cbn [bind ps_impl pst_init ps_pb1 ps_pb2].
  cbn [tm_evs map] in Cm. destruct c1; [|discriminate Cm]. cbn in Rd. injection Rd as Rd. cbn [tm_evs fits_stack] in St. rewrite Rd.
  destruct (check_trailing (pc_noTrailing cfg) sB) as [s1| | |]; cbn [bind]; try reflexivity.
  unfold getToken, lift. cbn [ps_pb1 ps_pb2 ps_impl token_eqb negb op_next yaml_ops_with]. unfold y_next, yset_src. cbn [y_first y_error y_stack y_event y_calls y_src].
  rewrite F1, F2. cbn [bind negb]. unfold y_parse. cbn [y_calls y_src]. rewrite Ec. cbn [app y_first y_error y_stack].
  destruct (y_reads n2 s1) as [s2| | |]; cbn [bind]; try reflexivity.
  unfold y_event_token. cbn [y_event y_stack]. rewrite St. reflexivity.
Qed.
End Import.
Definition yaml_meaning : pconfig -> ty -> val -> tree bytes -> outcome val := yaml_meaning_with yaml_int.
