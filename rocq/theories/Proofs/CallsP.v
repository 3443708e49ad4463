(** Calls of the JSON printer. *)
From Coq Require Import ZArith String List Bool Lia ZifyBool.
From Verif Require Import Model.Base Model.Source Model.Number Model.Unicode Model.Printer Model.JsonPrinter Model.Types Model.Serializer Model.Calls
  Spec.JsonString Spec.Json Spec.Typed Spec.Import Spec.Denotes Spec.Calls Proofs.UnicodeP Proofs.InterpP Proofs.PrintP Proofs.DocP Proofs.ExportP.
Import ListNotations.
Open Scope Z_scope.

Lemma w_all_app : forall {St} (a b : list (writer St)) s, w_all (a ++ b) s = w_then (w_all a) (w_all b) s.
Proof.
  intros St a. induction a as [|w a IH]; intros b s.
  - change (w_all b s = w_then w_nothing (w_all b) s). unfold w_then, w_nothing. cbn [bind]. destruct (w_all b s) as [[o q]| | |]; reflexivity.
  - change (w_then w (w_all (a ++ b)) s = w_then (w_then w (w_all a)) (w_all b) s). unfold w_then.
    destruct (w s) as [[o1 s1]| | |]; cbn [bind]; try reflexivity.
    rewrite IH. unfold w_then. destruct (w_all a s1) as [[o2 s2]| | |]; cbn [bind]; try reflexivity.
    destruct (w_all b s2) as [[o3 s3]| | |]; cbn [bind]; try reflexivity. now rewrite app_assoc.
Qed.
Definition same {St} (a b : writer St) : Prop := forall s, a s = b s.
Lemma prints_same : forall c a b o d, same a b -> prints c b o d -> prints c a o d.
Proof. intros c a b o d E H top r Ht F. specialize (H top r Ht F). destruct o; auto; rewrite E; exact H. Qed.
Lemma then_same : forall {St} (a a' b b' : writer St), same a a' -> same b b' -> same (w_then a b) (w_then a' b').
Proof. intros St a a' b b' Ha Hb s. unfold w_then. rewrite Ha. destruct (a' s) as [[o q]| | |]; try reflexivity. cbn [bind]. now rewrite Hb. Qed.
Lemma then_nothing : forall {St} (a : writer St), same (w_then a w_nothing) a.
Proof. intros St a s. unfold w_then, w_nothing. destruct (a s) as [[o q]| | |]; try reflexivity. cbn [bind]. now rewrite app_nil_r. Qed.

Section Ind.
  Variable P : piece -> Prop.
  Hypotheses (Hi : forall i z, P (PInt i z)) (Hb : forall b, P (PBool b)) (Hs : forall s, P (PStr s)) (Hn : P PNull)
    (Ha : forall l, Forall P l -> P (PArr l)) (Hm : forall l, Forall (fun e => P (snd e)) l -> P (PMap l)).
  Fixpoint piece_ind' (p : piece) : P p :=
    match p with
    | PInt i z => Hi i z
    | PBool b => Hb b
    | PStr s => Hs s
    | PNull => Hn
    | PArr l => Ha l ((fix go (l : list piece) : Forall P l := match l with [] => Forall_nil P | x :: r => Forall_cons x (piece_ind' x) (go r) end) l)
    | PMap l => Hm l ((fix go (l : list (bytes * piece)) : Forall (fun e => P (snd e)) l :=
                         match l with [] => Forall_nil _ | x :: r => Forall_cons x (piece_ind' (snd x)) (go r) end) l)
    end.
End Ind.

Section Pieces.
  Context (c : fconfig).
  Notation R := (calls (json_printer c)).
  Lemma calls_app : forall a b, same (R (a ++ b)) (w_then (R a) (R b)).
  Proof. intros a b s. unfold calls. rewrite map_app. apply w_all_app. Qed.
  Lemma calls_one : forall p, same (R [p]) (call (json_printer c) p).
  Proof. intros p s. exact (then_nothing (call (json_printer c) p) s). Qed.

  Theorem piece_prints : forall p, piece_ok p -> exists j, piece_doc p j /\ prints c (R (calls_of p)) (Ok j) (piece_depth p).
  Proof.
    assert (One : forall p pc j, calls_of p = [pc] -> prints c (call (json_printer c) pc) (Ok j) (piece_depth p) -> prints c (R (calls_of p)) (Ok j) (piece_depth p)).
    { intros p pc j -> H. apply (prints_same c _ _ _ _ (calls_one pc) H). }
    apply (piece_ind' (fun p => piece_ok p -> exists j, piece_doc p j /\ prints c (R (calls_of p)) (Ok j) (piece_depth p))).
    - intros i z H. exists (Scal (SNum (int_dec z))). split; [constructor; apply int_dec_literal|]. eapply One; [reflexivity|]. apply value_prints.
      + apply number_small; [exact (int_literal_number _ _ (int_dec_literal z))|now apply (int_dec_short i)].
      + constructor. exact (int_literal_number _ _ (int_dec_literal z)).
    - intros b _. exists (Scal (if b then STrue else SFalse)). split; [constructor|]. eapply One; [reflexivity|]. destruct b; (apply value_prints; [split; [cbn; lia|discriminate]|constructor]).
    - intros s H. exists (Scal (SStr (escapeString s))). split; [constructor; now apply escape_legal|]. eapply One; [reflexivity|]. apply value_prints; [exact I|].
      constructor. exists s. now apply escape_legal.
    - intros _. exists (Scal SNull). split; [constructor|]. eapply One; [reflexivity|]. apply value_prints; constructor.
    - intros l IH H.
      assert (G : exists js, Forall2 piece_doc l js /\ exists wr, same (R (flat_map calls_of l)) wr /\ prints_elems c wr (Ok js) (list_max (map piece_depth l))).
      { assert (G : forall d, Forall (fun p => (piece_depth p <= d)%nat) l -> exists js, Forall2 piece_doc l js /\ exists wr, same (R (flat_map calls_of l)) wr /\ prints_elems c wr (Ok js) d).
        { intros d Hd. cbn [piece_ok] in H. induction IH as [|p l Hp IH IH2].
          - exists []. split; [constructor|]. exists w_nothing. split; [intro; reflexivity|apply elems_nil].
          - cbn [map all_of] in H. destruct H as [H1 H2]. inversion Hd as [|? ? Hd1 Hd2]; subst. destruct (Hp H1) as (j & D & Pr). destruct (IH2 H2 Hd2) as (js & Ds & wr & Sw & Ps).
            exists (j :: js). split; [now constructor|]. exists (w_then (R (calls_of p)) wr). split.
            + intro s. cbn [flat_map]. rewrite calls_app. apply then_same; [intro; reflexivity|exact Sw].
            + apply (elems_cons c _ (Ok j) _ (Ok js)); [|exact Ps]. eapply prints_mono; [exact Hd1|exact Pr]. }
        apply G. apply Forall_forall. intros p Hp. apply list_max_in, List.in_map, Hp. }
      destruct G as (js & Ds & wr & Sw & Ps). exists (Arr js). split; [now constructor|]. cbn [calls_of piece_depth].
      eapply prints_same; [|exact (array_prints c (fun _ => Ok 0) wr (Ok js) _ Ps)].
      intro s. unfold calls at 1. cbn [map w_all fold_right]. unfold array_block, sized. cbn [json_printer pr_usesSize bind]. apply then_same; [intro; reflexivity|].
      intro s'. change (R (flat_map calls_of l ++ [CCloseArray]) s' = w_then wr (js_closeArray c) s'). rewrite calls_app. apply then_same; [exact Sw|apply calls_one].
    - intros l IH H.
      assert (G : exists es, Forall2 (fun e f => fst f = fst e /\ piece_doc (snd e) (snd f)) l es /\
        exists wr, same (R (flat_map (fun e => CKey (fst e) :: calls_of (snd e)) l)) wr /\ prints_mems c wr (Ok es) (list_max (map (fun e => piece_depth (snd e)) l))).
      { assert (G : forall d, Forall (fun e => (piece_depth (snd e) <= d)%nat) l -> exists es, Forall2 (fun e f => fst f = fst e /\ piece_doc (snd e) (snd f)) l es /\
          exists wr, same (R (flat_map (fun e => CKey (fst e) :: calls_of (snd e)) l)) wr /\ prints_mems c wr (Ok es) d).
        { intros d Hd. cbn [piece_ok] in H. induction IH as [|p l Hp IH IH2].
          - exists []. split; [constructor|]. exists w_nothing. split; [intro; reflexivity|apply mems_nil].
          - cbn [map all_of] in H. destruct H as [[Hk H1] H2]. inversion Hd as [|? ? Hd1 Hd2]; subst. destruct (Hp H1) as (j & D & Pr). destruct (IH2 H2 Hd2) as (js & Ds & wr & Sw & Ps).
            exists ((fst p, j) :: js). split; [constructor; [split; [reflexivity|exact D]|exact Ds]|].
            exists (w_then (w_then (pr_key (json_printer c) (fst p)) (R (calls_of (snd p)))) wr). split.
            + intro s. cbn [flat_map]. rewrite calls_app. apply then_same; [|exact Sw]. intro s'. unfold calls at 1. reflexivity.
            + apply (mems_app c _ (Ok [(fst p, j)]) _ (Ok js)); [|exact Ps]. apply (mems_one c (fst p) _ (Ok j)); [exact Hk|]. eapply prints_mono; [exact Hd1|exact Pr]. }
        apply G. apply Forall_forall. intros p Hp. apply list_max_in, (List.in_map (fun e => piece_depth (snd e))), Hp. }
      destruct G as (js & Ds & wr & Sw & Ps). exists (Obj js). split; [now constructor|]. cbn [calls_of piece_depth].
      eapply prints_same; [|exact (map_prints c (fun _ => Ok 0) wr (Ok js) _ Ps)].
      intro s. unfold calls at 1. cbn [map w_all fold_right]. unfold map_block, sized. cbn [json_printer pr_usesSize bind]. apply then_same; [intro; reflexivity|].
      intro s'. change (R (flat_map (fun e => CKey (fst e) :: calls_of (snd e)) l ++ [CCloseMap]) s' = w_then wr (js_closeMap c) s'). rewrite calls_app. apply then_same; [exact Sw|apply calls_one].
  Qed.

  (** The levels of the state are the open containers. *)
  Definition level_of (x : container) : level := match x with InMap => LvMap | InArray => LvArray end.
  Definition levels (s : jstate) (st : list container) : Prop := map f1 s = map level_of st ++ [LvValue].
  Lemma call_levels : forall p s out s' st, levels s st -> call (json_printer c) p s = Ok (out, s') -> levels s' (open_step st p).
  Proof.
    intros p s out s' st L E. unfold levels in *. destruct p; cbn [call json_printer pr_openMap pr_closeMap pr_openArray pr_closeArray pr_key pr_int pr_bool pr_str pr_null open_step] in *.
    - destruct s as [|top r]; [discriminate E|]. apply bind_ok in E as (t & _ & E). injection E as <- <-. cbn [map f1 app]. now rewrite <- L.
    - destruct s as [|[n l b] [|[n2 l2 b2] r]]; cbn [js_closeMap] in E; try discriminate E; destruct l; try discriminate E.
      apply bind_ok in E as (t & _ & E). injection E as <- <-. cbn [map f1] in *. destruct st as [|[] st]; try discriminate L. cbn [map app tl] in *. now injection L as ->.
    - destruct s as [|top r]; [discriminate E|]. apply bind_ok in E as (t & _ & E). injection E as <- <-. cbn [map f1 app]. now rewrite <- L.
    - destruct s as [|[n l b] [|[n2 l2 b2] r]]; cbn [js_closeArray] in E; try discriminate E; destruct l; try discriminate E.
      apply bind_ok in E as (t & _ & E). injection E as <- <-. cbn [map f1] in *. destruct st as [|[] st]; try discriminate L. cbn [map app tl] in *. now injection L as ->.
    - destruct s as [|[n l b] r]; [discriminate E|]. unfold js_key in E. cbn [f1] in E. destruct l; try discriminate E. apply bind_ok in E as (t & _ & E). injection E as <- <-. exact L.
    - destruct s as [|[nn ll bb] r]; [discriminate E|]. injection E as <- <-. exact L.
    - destruct s as [|[nn ll bb] r]; [discriminate E|]. injection E as <- <-. exact L.
    - destruct s as [|[nn ll bb] r]; [discriminate E|]. injection E as <- <-. exact L.
    - destruct s as [|[nn ll bb] r]; [discriminate E|]. injection E as <- <-. exact L.
  Qed.
  Lemma calls_levels : forall l s out s' st, levels s st -> R l s = Ok (out, s') -> levels s' (fold_left open_step l st).
  Proof.
    induction l as [|p l IH]; intros s out s' st L E; [injection E as <- <-; exact L|]. unfold calls in E. cbn [map w_all fold_right] in E. unfold w_then in E.
    apply bind_ok in E as ([o1 s1] & E1 & E). apply bind_ok in E as ([o2 s2] & E2 & E). injection E as <- <-. cbn [fold_left].
    eapply IH; [eapply call_levels; eauto|exact E2].
  Qed.
End Pieces.

(** ** Texts that are no documents *)
Lemma number_chars : forall t, number t -> ~ In 44 t.
Proof.
  intros t [s i f e Hs Hi Hf He] H. assert (D : forall l, Forall digit l -> ~ In 44 l) by (intros l Hl Q; rewrite Forall_forall in Hl; specialize (Hl _ Q); unfold digit in Hl; lia).
  repeat (apply in_app_or in H as [H|H]).
  - destruct Hs; cbn in H; intuition discriminate.
  - destruct Hi as [|c r Hc Hr]; cbn in H; [intuition discriminate|]. destruct H as [H|H]; [lia|exact (D _ Hr H)].
  - destruct Hf as [|l [_ Hl]]; cbn in H; [exact H|]. destruct H as [H|H]; [lia|exact (D _ Hl H)].
  - destruct He as [|x l Hx [_ Hl]|x s' l Hx Hs' [_ Hl]]; cbn in H; [exact H| |].
    + destruct H as [H|H]; [lia|exact (D _ Hl H)].
    + destruct H as [H|[H|H]]; [lia|lia|exact (D _ Hl H)].
Qed.
Lemma number_first : forall t, number t -> exists c r, t = c :: r /\ (c = 45 \/ digit c).
Proof.
  intros t [s i f e Hs Hi Hf He]. destruct Hs; [|do 2 eexists; split; [reflexivity|now left]].
  destruct Hi as [|c r Hc Hr]; do 2 eexists; (split; [reflexivity|]); right; unfold digit; lia.
Qed.
Lemma spells_digit : forall j c r, spells j (c :: r) -> digit c -> ~ In 44 (c :: r).
Proof.
  intros j c r H D. inversion H as [s t St| | | |]; subst; unfold digit in D; try lia. inversion St; subst; try lia. now apply number_chars.
Qed.
Lemma spells_open : forall j c r, spells j (123 :: c :: r) -> ws_char c \/ c = 125 \/ c = 34.
Proof.
  intros j c r H. inversion H as [s t St| | |w Hw E|l t Hm E]; subst.
  - inversion St as [t Hn| | | |]; subst. destruct (number_first _ Hn) as (x & y & Q & D). injection Q as <- <-. unfold digit in D. lia.
  - destruct w as [|x w]; cbn [app] in *; [right; left; congruence|]. left. inversion Hw; subst. congruence.
  - assert (G : forall (w1 : list Z) q, ws w1 -> w1 ++ 34 :: q = c :: r -> ws_char c \/ c = 125 \/ c = 34).
    { intros [|x w] q Hx Q; cbn [app] in Q; [right; right; congruence|]. left. inversion Hx; subst. congruence. }
    inversion Hm; subst; (match goal with Q : _ = c :: r |- _ => repeat (rewrite <- ?app_assoc in Q; cbn [app] in Q); eapply G; [|exact Q] end; assumption).
Qed.
Lemma doc_head : forall j c r, document j (c :: r) -> ~ ws_char c -> exists w2 t, spells j (c :: t) /\ r = t ++ w2 /\ ws w2.
Proof.
  intros j c r D N. inversion D as [j' w1 t w2 H1 Hs H2 Ej Et]; subst. destruct w1 as [|x w1]; cbn [app] in Et.
  - destruct t as [|x t]; [inversion Hs as [s t St| | | |]; subst; inversion St as [t Hn| | | |]; subst; destruct (number_first _ Hn) as (? & ? & Q & _); discriminate Q|].
    injection Et as <- <-. eauto.
  - injection Et as -> _. inversion H1; subst. contradiction.
Qed.
Lemma spells_lone : forall j, ~ spells j [123].
Proof.
  intros j H. inversion H as [s t St| | |w Hw E|l t Hm E]; subst.
  - inversion St as [t Hn| | | |]; subst. destruct (number_first _ Hn) as (x & y & Q & D). injection Q as <- <-. unfold digit in D. lia.
  - now destruct w.
  - now destruct t.
Qed.
