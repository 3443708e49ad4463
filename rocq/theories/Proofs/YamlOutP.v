(** How YamlPrinter runs. *)
From Coq Require Import ZArith String List Bool Lia ZifyBool.
From Verif Require Import Model.Base Model.Number Model.Printer Model.JsonPrinter Model.Types Model.Serializer Model.Exporter Model.Yaml Model.YamlPrinter.
From Verif Require Import Spec.JsonString Spec.Json Spec.Typed Spec.Import Spec.Denotes Spec.Yaml Spec.YamlOut Proofs.Induct Proofs.ExportP.
Import ListNotations.
Open Scope Z_scope.

(** ** The write handler *)
Lemma write_lines_text : forall indent buf line,
  List.concat (write_lines indent line buf) = line ++ flat_map (fun c => if c =? 10 then 10 :: indent else [c]) buf.
Proof.
  intros indent buf. induction buf as [|c buf IH]; intros line; cbn [write_lines flat_map List.concat]; [reflexivity|].
  destruct (Z.eqb_spec c 10) as [->|N].
  - cbn [List.concat]. rewrite IH, <- !app_assoc. reflexivity.
  - rewrite IH, <- app_assoc. reflexivity.
Qed.
Definition shift (n : Z) (s : bytes) : bytes := flat_map (fun c => if c =? 10 then 10 :: repeat 32 (Z.to_nat n) else [c]) s.
Lemma y_writes_text : forall n bufs first, List.concat (fst (y_writes n first bufs)) =
  (match bufs with [] => [] | _ => if first then [] else repeat 32 (Z.to_nat n) end) ++ shift n (List.concat bufs).
Proof.
  intros n bufs. induction bufs as [|b bufs IH]; intros first; [reflexivity|]. cbn [y_writes y_write]. specialize (IH true).
  destruct (y_writes n true bufs) as [w f]. cbn [fst List.concat] in *. rewrite !concat_app, IH, write_lines_text. cbn [app].
  unfold shift. rewrite flat_map_app. destruct bufs; cbn [List.concat]; destruct first; cbn [List.concat app]; rewrite ?app_nil_r, ?app_assoc; reflexivity.
Qed.
Lemma y_writes_first : forall n bufs first, snd (y_writes n first bufs) = match bufs with [] => first | _ => true end.
Proof.
  intros n bufs. induction bufs as [|b bufs IH]; intros first; [reflexivity|]. cbn [y_writes y_write]. specialize (IH true). destruct (y_writes n true bufs). cbn [snd] in *.
  rewrite IH. now destruct bufs.
Qed.
Lemma lines_some : forall s, exists l ls, lines s = l :: ls.
Proof. intros [|c s]; cbn [lines]; [eauto|]. destruct (c =? 10); [eauto|]. destruct (lines s); eauto. Qed.
Lemma indented_shift : forall n s, indented n s = repeat 32 (Z.to_nat n) ++ shift n s.
Proof.
  intros n s. unfold indented, shift. induction s as [|c s IH]; [cbn; now rewrite app_nil_r|]. cbn [lines flat_map]. destruct (lines_some s) as (l & ls & E).
  destruct (Z.eqb_spec c 10) as [->|N].
  - cbn [map unlines]. rewrite E in *. cbn [map] in *. rewrite IH, app_nil_r. reflexivity.
  - rewrite E in *. cbn [map] in *.
    assert (G : forall a b x, unlines ((repeat 32 (Z.to_nat n) ++ a) :: b) = repeat 32 (Z.to_nat n) ++ x -> unlines ((repeat 32 (Z.to_nat n) ++ c :: a) :: b) = repeat 32 (Z.to_nat n) ++ c :: x).
    { intros a b x H. cbn [unlines] in *. destruct b.
      - apply app_inv_head in H. now subst.
      - rewrite <- app_assoc in *. apply app_inv_head in H. cbn [app]. now rewrite H. }
    now apply G.
Qed.

(** ** UTF-8 *)
Ltac Zify.zify_post_hook ::= Z.div_mod_to_equations.
Lemma utf8_check : forall cp r, 0 <= cp < 2 ^ 21 -> check_utf8 (utf8 cp ++ r) = check_utf8 r.
Proof.
  intros cp r H. unfold utf8. destruct (Z.ltb_spec cp 128).
  { cbn [app check_utf8]. assert (cp <? 128 = true) as -> by lia. reflexivity. }
  destruct (Z.ltb_spec cp 2048).
  { cbn [app check_utf8]. assert (192 + cp / 64 <? 128 = false) as -> by lia. assert ((192 <=? 192 + cp / 64) && (192 + cp / 64 <? 224) = true) as -> by lia.
    unfold is_cont. assert ((128 <=? 128 + cp mod 64) && (128 + cp mod 64 <? 192) = true) as -> by lia. assert (194 <=? 192 + cp / 64 = true) as -> by lia. reflexivity. }
  destruct (Z.ltb_spec cp 65536).
  { cbn [app check_utf8]. assert (224 + cp / 4096 <? 128 = false) as -> by lia. assert ((192 <=? 224 + cp / 4096) && (224 + cp / 4096 <? 224) = false) as -> by lia.
    assert ((224 <=? 224 + cp / 4096) && (224 + cp / 4096 <? 240) = true) as -> by lia.
    unfold is_cont. assert ((128 <=? 128 + cp mod 64) && (128 + cp mod 64 <? 192) = true) as -> by lia.
    assert ((128 <=? 128 + (cp / 64) mod 64) && (128 + (cp / 64) mod 64 <? 192) = true) as -> by lia.
    assert ((225 <=? 224 + cp / 4096) || (160 <=? 128 + (cp / 64) mod 64) = true) as -> by lia. reflexivity. }
  cbn [app check_utf8]. assert (240 + cp / 262144 <? 128 = false) as -> by lia. assert ((192 <=? 240 + cp / 262144) && (240 + cp / 262144 <? 224) = false) as -> by lia.
  assert ((224 <=? 240 + cp / 262144) && (240 + cp / 262144 <? 240) = false) as -> by lia. assert ((240 <=? 240 + cp / 262144) && (240 + cp / 262144 <? 248) = true) as -> by lia.
  unfold is_cont. assert ((128 <=? 128 + cp mod 64) && (128 + cp mod 64 <? 192) = true) as -> by lia.
  assert ((128 <=? 128 + (cp / 64) mod 64) && (128 + (cp / 64) mod 64 <? 192) = true) as -> by lia.
  assert ((128 <=? 128 + (cp / 4096) mod 64) && (128 + (cp / 4096) mod 64 <? 192) = true) as -> by lia.
  assert ((241 <=? 240 + cp / 262144) || (144 <=? 128 + (cp / 4096) mod 64) = true) as -> by lia. reflexivity.
Qed.
Lemma check_utf8_text : forall s, bytes_in s -> (check_utf8 s = true <-> utf8_text s).
Proof.
  intros s B. split.
  - remember (List.length s) as n eqn:L. assert (Hn : (List.length s <= n)%nat) by lia. clear L. revert s B Hn.
    induction n as [n IH] using lt_wf_ind. intros s B Hn C.
    destruct s as [|a s]; [exists []; split; [constructor|reflexivity]|]. apply Forall_cons_iff in B as [Ha B].
    assert (Step : forall r cp, bytes_in r -> (List.length r < n)%nat -> check_utf8 r = true -> a :: s = utf8 cp ++ r -> 0 <= cp < 2 ^ 21 -> utf8_text (a :: s)).
    { intros r cp Br Lr Cr E Hcp. destruct (IH (List.length r) Lr r Br (le_n _) Cr) as (cps & F & Er). exists (cp :: cps). split; [now constructor|].
      cbn [flat_map]. now rewrite E, Er. }
    cbn [check_utf8] in C. cbn [List.length] in Hn. destruct (Z.ltb_spec a 128).
    { apply (Step s a); auto; [|lia]. unfold utf8. assert (a <? 128 = true) as -> by lia. reflexivity. }
    destruct s as [|b s]; [discriminate C|]. apply Forall_cons_iff in B as [Hb B]. cbn [List.length] in Hn.
    destruct (Bool.bool_dec ((192 <=? a) && (a <? 224)) true) as [R|R]; [rewrite R in C|apply not_true_is_false in R; rewrite R in C].
    { apply andb_prop in C as [C C']. unfold is_cont in C. apply (Step s ((a - 192) * 64 + (b - 128))); auto; [lia| |lia].
      unfold utf8. assert ((a - 192) * 64 + (b - 128) <? 128 = false) as -> by lia. assert ((a - 192) * 64 + (b - 128) <? 2048 = true) as -> by lia.
      cbn [app]. f_equal; [lia|]. f_equal. lia. }
    destruct s as [|c s]; [discriminate C|]. apply Forall_cons_iff in B as [Hc B]. cbn [List.length] in Hn.
    destruct (Bool.bool_dec ((224 <=? a) && (a <? 240)) true) as [R2|R2]; [rewrite R2 in C|apply not_true_is_false in R2; rewrite R2 in C].
    { apply andb_prop in C as [C C']. unfold is_cont in C. apply (Step s ((a - 224) * 4096 + (b - 128) * 64 + (c - 128))); auto; [lia| |lia].
      set (cp := (a - 224) * 4096 + (b - 128) * 64 + (c - 128)). assert (Hcp : cp = (a - 224) * 4096 + (b - 128) * 64 + (c - 128)) by reflexivity. clearbody cp.
      unfold utf8. assert (cp <? 128 = false) as -> by lia. assert (cp <? 2048 = false) as -> by lia. assert (cp <? 65536 = true) as -> by lia.
      cbn [app]. f_equal; [lia|]. f_equal; [lia|]. f_equal. lia. }
    destruct s as [|d s]; [discriminate C|]. apply Forall_cons_iff in B as [Hd B]. cbn [List.length] in Hn.
    destruct (Bool.bool_dec ((240 <=? a) && (a <? 248)) true) as [R3|R3]; [rewrite R3 in C|apply not_true_is_false in R3; rewrite R3 in C; discriminate C].
    apply andb_prop in C as [C C']. unfold is_cont in C. set (cp := (a - 240) * 262144 + (b - 128) * 4096 + (c - 128) * 64 + (d - 128)).
    assert (Hcp : cp = (a - 240) * 262144 + (b - 128) * 4096 + (c - 128) * 64 + (d - 128)) by reflexivity. clearbody cp.
    apply (Step s cp); auto; [lia| |lia].
    unfold utf8. assert (cp <? 128 = false) as -> by lia. assert (cp <? 2048 = false) as -> by lia. assert (cp <? 65536 = false) as -> by lia.
    cbn [app]. f_equal; [lia|]. f_equal; [lia|]. f_equal; [lia|]. f_equal. lia.
  - intros (cps & F & ->). clear B. induction F as [|cp cps H F IH]; [reflexivity|]. cbn [flat_map]. now rewrite utf8_check.
Qed.

(** ** Running a plan *)
Definition bad_text (s : bytes) : bool := negb (check_utf8 s).
Fixpoint pfault (a : plan) : option spot :=
  match a with
  | PScal s => of_text bad_text s
  | PThrow => Some Whole
  | PUndef => None
  | PSeq l => first_of (map (fun a => in_list (pfault a)) l)
  | PMap l => first_of (map (fun e => of_entry bad_text (fst e) (pfault (snd e))) l)
  end.
Fixpoint defined (a : plan) : bool :=
  match a with
  | PUndef => false
  | PSeq l => forallb defined l
  | PMap l => forallb (fun e => defined (snd e)) l
  | _ => true
  end.
Fixpoint plan_events (a : plan) : list yev :=
  match a with
  | PScal s => [YScalar s]
  | PThrow | PUndef => []
  | PSeq l => YSeqStart :: flat_map plan_events l ++ [YSeqEnd]
  | PMap l => YMapStart :: flat_map (fun e => YScalar (fst e) :: plan_events (snd e)) l ++ [YMapEnd]
  end.
Lemma plan_ind' : forall P : plan -> Prop, (forall s, P (PScal s)) -> P PThrow -> P PUndef -> (forall l, Forall P l -> P (PSeq l)) ->
  (forall l, Forall (fun e => P (snd e)) l -> P (PMap l)) -> forall a, P a.
Proof.
  intros P H1 H2 H3 H4 H5. fix rec 1. intros [s| | |l|l].
  - apply H1.
  - exact H2.
  - exact H3.
  - apply H4. induction l as [|a l IH]; constructor; [apply rec|exact IH].
  - apply H5. induction l as [|[k a] l IH]; constructor; [apply rec|exact IH].
Qed.

Definition opens (p : yprinter) : list expects := em_open (yp_em p).
Definition levels_of (p : yprinter) : list level := map snd (yp_state p).
(** [st0] is expected before, [st1] after. *)
Definition runs_to (fault : option spot) (st0 st1 : list expects) (evs : list yev) (p : yprinter) (r : yres) : Prop :=
  match fault with
  | None => exists p', r = YDone p' /\ opens p' = st1 /\ levels_of p' = levels_of p /\ yp_error p' = yp_error p /\
                       em_events (yp_em p') = em_events (yp_em p) ++ evs /\ em_text (yp_em p') = true
  | Some Whole => exists p', r = YRaised p' /\ opens p' = st0 /\ levels_of p' = levels_of p
  | Some Element | Some Key => exists p', r = YRaised p' /\ opens p' = st1 /\ levels_of p' = levels_of p
  | Some Value => r = YTerm
  end.

Section Good.
  Variable o : outside.
  Hypothesis Ho : o_good o = true.

  Lemma event_taken : forall e p st, takes e (opens p) = Some st ->
    exists n, y_event_out o e p = YDone (mkYp (yp_error p) (yp_state p) (mkEm st (em_events (yp_em p) ++ [e])
      (match e with YStreamStart => em_text (yp_em p) | YStreamEnd => false | _ => true end) n)).
  Proof. intros e p st T. unfold y_event_out, em_emit, opens in *. rewrite T. unfold em_stuck. rewrite Ho. cbn [negb andb y_check]. eauto. Qed.
  Lemma event_refused : forall e p, takes e (opens p) = None -> exists p', y_event_out o e p = YRaised p' /\ opens p' = opens p /\ levels_of p' = levels_of p.
  Proof. intros e p T. unfold y_event_out, em_emit, opens in *. rewrite T. cbn [y_check]. eauto. Qed.

  Lemma emit_runs : forall s p st1 l ls, after_node (opens p) = Some st1 -> levels_of p = l :: ls -> runs_to (of_text bad_text s) (opens p) st1 [YScalar s] p (y_emit o s p).
  Proof.
    intros s p st1 l ls A L. unfold of_text, bad_text, y_emit. destruct (check_utf8 s); cbn [negb runs_to].
    - destruct (event_taken (YScalar s) p st1 A) as (n & ->). cbn [y_then y_count yp_state]. unfold levels_of in *. destruct (yp_state p) as [|[m l'] st] eqn:E; [discriminate L|].
      unfold y_count. cbn [yp_state yp_error yp_em]. eexists. split; [reflexivity|]. auto 10.
    - eexists. split; [reflexivity|]. auto.
  Qed.
  Lemma key_runs : forall k p st ls, opens p = XKey :: st -> levels_of p = LvMap :: ls ->
    if bad_text k then exists p', y_addKey o k p = YRaised p' /\ opens p' = XKey :: st /\ levels_of p' = levels_of p
    else exists p', y_addKey o k p = YDone p' /\ opens p' = XValue :: st /\ levels_of p' = levels_of p /\ yp_error p' = yp_error p /\
           em_events (yp_em p') = em_events (yp_em p) ++ [YScalar k] /\ em_text (yp_em p') = true.
  Proof.
    intros k p st ls O L. assert (A : after_node (opens p) = Some (XValue :: st)) by now rewrite O. assert (R := emit_runs k p _ _ _ A L).
    assert (E : y_addKey o k p = y_emit o k p).
    { unfold y_addKey, levels_of in *. destruct (yp_state p) as [|[n l] s]; [discriminate L|]. cbn [map snd] in L. injection L as -> L. reflexivity. }
    rewrite E. unfold of_text in R. destruct (bad_text k); cbn [runs_to] in R; [|exact R]. destruct R as (p' & E' & A' & B'). exists p'. rewrite <- O. auto.
  Qed.
  Definition elems (l : list plan) : yprinter -> yres :=
    (fix elems (l : list plan) (p : yprinter) : yres := match l with [] => YDone p | a :: r => y_then (run o a p) (elems r) end) l.
  Definition entries (l : list (bytes * plan)) : yprinter -> yres :=
    (fix entries (l : list (bytes * plan)) (p : yprinter) : yres :=
       match l with [] => YDone p | (k, a) :: r => y_then (y_then (y_addKey o k p) (run o a)) (entries r) end) l.

  Definition plan_runs (a : plan) : Prop := forall p st1 l ls, defined a = true -> after_node (opens p) = Some st1 -> levels_of p = l :: ls ->
    runs_to (pfault a) (opens p) st1 (plan_events a) p (run o a p).

  Lemma first_cons : forall s l, first_of (s :: l) = match s with None => first_of l | _ => s end.
  Proof. now intros [s|] l. Qed.

  Lemma elems_run : forall l, Forall plan_runs l -> forall p st ls, forallb defined l = true -> opens p = XElem :: st -> levels_of p = LvArray :: ls -> em_text (yp_em p) = true ->
    runs_to (first_of (map (fun a => in_list (pfault a)) l)) [] (XElem :: st) (flat_map plan_events l) p (elems l p).
  Proof.
    intros l F. induction F as [|a l H F IH]; intros p st ls D O L T.
    - cbn [map first_of runs_to elems flat_map]. exists p. rewrite app_nil_r. auto 10.
    - cbn [forallb] in D. apply andb_prop in D as [Da D]. cbn [map flat_map]. rewrite first_cons. change (elems (a :: l) p) with (y_then (run o a p) (elems l)).
      assert (A : after_node (opens p) = Some (XElem :: st)) by now rewrite O. assert (R := H p _ _ _ Da A L).
      destruct (pfault a) as [[]|]; cbn [in_list runs_to] in *.
      + destruct R as (p' & -> & O' & L'). exists p'. cbn [y_then]. rewrite O', O. auto.
      + destruct R as (p' & -> & O' & L'). exists p'. auto.
      + destruct R as (p' & -> & O' & L'). exists p'. auto.
      + rewrite R. reflexivity.
      + destruct R as (p' & -> & O' & L' & Er & Ev & Tx). cbn [y_then]. rewrite L in L'. assert (R := IH p' st ls D O' L' Tx). 
        destruct (first_of _) as [[]|]; cbn [runs_to] in *; try exact R.
        * destruct R as (p2 & E2 & O2 & L2). exists p2. rewrite L2, L', L. auto.
        * destruct R as (p2 & E2 & O2 & L2). exists p2. rewrite L2, L', L. auto.
        * destruct R as (p2 & E2 & O2 & L2). exists p2. rewrite L2, L', L. auto.
        * destruct R as (p2 & E2 & O2 & L2 & Er2 & Ev2 & T2). exists p2. rewrite L2, L', L, Er2, Er, Ev2, Ev, app_assoc. auto 10.
  Qed.

  (** The same for the entries of a map; a value that fails leaves the map without the value of a key. *)
  Definition entries_to (fault : option spot) (st : list expects) (evs : list yev) (p : yprinter) (r : yres) : Prop :=
    match fault with
    | None => exists p', r = YDone p' /\ opens p' = XKey :: st /\ levels_of p' = levels_of p /\ yp_error p' = yp_error p /\
                         em_events (yp_em p') = em_events (yp_em p) ++ evs /\ em_text (yp_em p') = true
    | Some Whole => False
    | Some Element | Some Key => exists p', r = YRaised p' /\ opens p' = XKey :: st /\ levels_of p' = levels_of p
    | Some Value => r = YTerm \/ exists p', r = YRaised p' /\ opens p' = XValue :: st
    end.
  Lemma entries_run : forall l, Forall (fun e => plan_runs (snd e)) l -> forall p st ls, forallb (fun e => defined (snd e)) l = true -> opens p = XKey :: st ->
    levels_of p = LvMap :: ls -> em_text (yp_em p) = true ->
    entries_to (first_of (map (fun e => of_entry bad_text (fst e) (pfault (snd e))) l)) st (flat_map (fun e => YScalar (fst e) :: plan_events (snd e)) l) p (entries l p).
  Proof.
    intros l F. induction F as [|[k a] l H F IH]; intros p st ls D O L T.
    - cbn [map first_of entries_to entries flat_map]. exists p. rewrite app_nil_r. auto 10.
    - cbn [forallb snd] in D, H. apply andb_prop in D as [Da D]. cbn [map flat_map fst snd]. rewrite first_cons.
      change (entries ((k, a) :: l) p) with (y_then (y_then (y_addKey o k p) (run o a)) (entries l)).
      assert (K := key_runs k p st ls O L). unfold of_entry. destruct (bad_text k).
      + destruct K as (p' & -> & O' & L'). exists p'. auto.
      + destruct K as (p1 & -> & O1 & L1 & Er1 & Ev1 & T1). cbn [y_then]. rewrite L in L1.
        assert (A : after_node (opens p1) = Some (XKey :: st)) by now rewrite O1. assert (R := H p1 _ _ _ Da A L1).
        destruct (pfault a) as [[]|]; cbn [in_map runs_to] in *.
        * destruct R as (p' & -> & O' & L'). right. exists p'. cbn [y_then]. rewrite O', O1. auto.
        * destruct R as (p' & -> & O' & L'). exists p'. rewrite L', L1, L. auto.
        * destruct R as (p' & -> & O' & L'). exists p'. rewrite L', L1, L. auto.
        * rewrite R. now left.
        * destruct R as (p' & -> & O' & L' & Er & Ev & Tx). cbn [y_then]. rewrite L1 in L'. assert (R := IH p' st ls D O' L' Tx).
          destruct (first_of _) as [[]|]; cbn [entries_to] in *; try exact R.
          -- destruct R as (p2 & E2 & O2 & L2). exists p2. rewrite L2, L', L. auto.
          -- destruct R as (p2 & E2 & O2 & L2). exists p2. rewrite L2, L', L. auto.
          -- destruct R as (p2 & E2 & O2 & L2 & Er2 & Ev2 & T2). exists p2. rewrite L2, L', L, Er2, Er, Er1, Ev2, Ev, Ev1.
             split; [exact E2|]. split; [exact O2|]. split; [reflexivity|]. split; [reflexivity|]. split; [|exact T2]. now rewrite <- !app_assoc.
  Qed.

  Lemma close_runs : forall (m : bool) p st l ls, opens p = (if m then XKey else XElem) :: st -> levels_of p = l :: ls ->
    exists p', y_closeBlock o m p = YDone p' /\ opens p' = st /\ levels_of p' = ls /\ yp_error p' = yp_error p /\
      em_events (yp_em p') = em_events (yp_em p) ++ [if m then YMapEnd else YSeqEnd] /\ em_text (yp_em p') = true.
  Proof.
    intros m p st l ls O L. unfold y_closeBlock. assert (T : takes (if m then YMapEnd else YSeqEnd) (opens p) = Some st) by (rewrite O; now destruct m).
    destruct (event_taken _ p st T) as (n & ->). cbn [y_then]. unfold y_pop, levels_of in *. cbn [yp_state yp_error yp_em]. destruct (yp_state p) as [|x s]; [discriminate L|].
    cbn [map] in L. injection L as _ L. eexists. split; [reflexivity|]. unfold opens. cbn. destruct m; auto 10.
  Qed.
  Lemma close_refused : forall p st, opens p = XValue :: st -> exists p', y_closeBlock o true p = YRaised p'.
  Proof. intros p st O. unfold y_closeBlock. destruct (event_refused YMapEnd p) as (p' & -> & _); [now rewrite O|]. eexists. reflexivity. Qed.

  Theorem run_runs : forall a, plan_runs a.
  Proof.
    apply plan_ind'.
    - intros s p st1 l ls _ A L. exact (emit_runs s p st1 l ls A L).
    - intros p st1 l ls _ A L. exists p. auto.
    - intros p st1 l ls D. discriminate D.
    - intros l F p st1 lv ls D A L. cbn [run plan_events pfault]. fold (elems l). unfold y_openBlock.
      destruct (event_taken YSeqStart p (XElem :: st1)) as (n & ->); [cbn [takes]; now rewrite A|]. cbn [y_then y_push].
      match goal with |- context [elems l ?q] => set (p1 := q) end. assert (R := elems_run l F p1 st1 (lv :: ls) D eq_refl). rewrite <- L in R at 1. specialize (R eq_refl eq_refl). clear F.
      assert (Hp1 : levels_of p1 = LvArray :: lv :: ls) by (rewrite <- L; reflexivity).
      destruct (first_of _) as [[]|] eqn:Ff; cbn [runs_to] in *.
      + exfalso. clear - Ff. induction l as [|a l IH]; [discriminate Ff|]. cbn [map] in Ff. rewrite first_cons in Ff. destruct (pfault a) as [[]|]; cbn [in_list] in Ff; try discriminate Ff. auto.
      + destruct R as (p' & -> & O' & L'). cbn [y_destroy]. rewrite Hp1 in L'. destruct (close_runs false p' st1 _ _ O' L') as (p2 & -> & O2 & L2 & _). exists p2. rewrite L2, L. auto.
      + destruct R as (p' & -> & O' & L'). cbn [y_destroy]. rewrite Hp1 in L'. destruct (close_runs false p' st1 _ _ O' L') as (p2 & -> & O2 & L2 & _). exists p2. rewrite L2, L. auto.
      + rewrite R. reflexivity.
      + destruct R as (p' & -> & O' & L' & Er & Ev & Tx). cbn [y_destroy]. rewrite Hp1 in L'. destruct (close_runs false p' st1 _ _ O' L') as (p2 & -> & O2 & L2 & Er2 & Ev2 & T2).
        exists p2. rewrite L2, L, Er2, Er, Ev2, Ev. cbn [p1 yp_error yp_em em_events]. rewrite <- !app_assoc. auto 10.
    - intros l F p st1 lv ls D A L. cbn [run plan_events pfault]. fold (entries l). unfold y_openBlock.
      destruct (event_taken YMapStart p (XKey :: st1)) as (n & ->); [cbn [takes]; now rewrite A|]. cbn [y_then y_push].
      match goal with |- context [entries l ?q] => set (p1 := q) end. assert (R := entries_run l F p1 st1 (lv :: ls) D eq_refl). rewrite <- L in R at 1. specialize (R eq_refl eq_refl). clear F.
      assert (Hp1 : levels_of p1 = LvMap :: lv :: ls) by (rewrite <- L; reflexivity).
      destruct (first_of _) as [[]|] eqn:Ff; cbn [entries_to runs_to] in *.
      + destruct R.
      + destruct R as (p' & -> & O' & L'). cbn [y_destroy]. rewrite Hp1 in L'. destruct (close_runs true p' st1 _ _ O' L') as (p2 & -> & O2 & L2 & _). exists p2. rewrite L2, L. auto.
      + destruct R as (p' & -> & O' & L'). cbn [y_destroy]. rewrite Hp1 in L'. destruct (close_runs true p' st1 _ _ O' L') as (p2 & -> & O2 & L2 & _). exists p2. rewrite L2, L. auto.
      + destruct R as [->|(p' & -> & O')]; [reflexivity|]. cbn [y_destroy]. destruct (close_refused p' st1 O') as (p2 & ->). reflexivity.
      + destruct R as (p' & -> & O' & L' & Er & Ev & Tx). cbn [y_destroy]. rewrite Hp1 in L'. destruct (close_runs true p' st1 _ _ O' L') as (p2 & -> & O2 & L2 & Er2 & Ev2 & T2).
        exists p2. rewrite L2, L, Er2, Er, Ev2, Ev. cbn [p1 yp_error yp_em em_events]. rewrite <- !app_assoc. auto 10.
  Qed.
End Good.
