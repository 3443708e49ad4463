(** Proofs about classes that refer to themselves: reading BSON from a stream. *)
From Coq Require Import ZArith List Bool Lia ZifyBool.
From Verif Require Import Model.Base Model.Source Model.Number Model.ParserInterface Model.BsonPrinter Model.BsonParser Model.BsonDoc Model.Types Model.Deserializer Model.Importer Model.Recursive
  Spec.Recursive Proofs.UnicodeP Proofs.ForwardP Proofs.RecursiveP.
Import ListNotations.
Open Scope Z_scope.

Definition b_mu (b : bparser) : nat := rem (b_src b).
Definition b_inv (b : bparser) : Prop := s_kind (b_src b) = Strm.
Notation steps := (steps b_mu b_inv).
Lemma steps_refl : forall b b', b_src b' = b_src b -> steps b b'.
Proof. intros b b' E I. unfold b_inv, b_mu in *. rewrite E. auto. Qed.
Lemma tr : forall a b c, steps a b -> steps b c -> steps a c.
Proof. intros a b c H1 H2 I1. destruct (H1 I1) as [I2 R2]. destruct (H2 I2) as [I3 R3]. split; [exact I3|lia]. Qed.
Lemma read_kind : forall s n a s', src_read s n = Ok (a, s') -> s_kind s = Strm -> s_kind s' = Strm /\ (rem s' + length a <= rem s)%nat.
Proof.
  intros s n a s' E K. unfold src_read in E. rewrite K in E. destruct (strm_good s).
  - assert (L : (length (firstn n (s_rest s)) <= rem s)%nat) by (rewrite firstn_length, rest_rem; lia).
    destruct (Nat.ltb _ n); apply Ok_inj in E; assert (E1 := f_equal fst E); apply (f_equal snd) in E; cbn [fst snd] in *; subst a s'; (split; [reflexivity|]); unfold rem in *; cbn [s_data s_pos]; lia.
  - apply Ok_inj in E; assert (E1 := f_equal fst E); apply (f_equal snd) in E; cbn [fst snd] in *; subst a s'. split; [exact K|]. unfold rem, set_good. cbn [s_data s_pos length]. lia.
Qed.
Lemma b_read_steps : forall n b a b', b_read n b = Ok (a, b') -> b_inv b -> b_inv b' /\ (b_mu b' + length a <= b_mu b)%nat.
Proof. intros n b a b' E I. unfold b_read in E. destruct (src_read (b_src b) n) as [[g s]| | |] eqn:R; try discriminate E. cbn [bind] in E. injection E as <- <-. exact (read_kind _ _ _ _ R I). Qed.
Lemma b_read_le : forall n b a b', b_read n b = Ok (a, b') -> steps b b'.
Proof. intros n b a b' E I. destruct (b_read_steps _ _ _ _ E I). split; [assumption|lia]. Qed.
Lemma b_use_le : forall n b b', b_use n b = Ok b' -> steps b b'.
Proof. intros n b b' E. unfold b_use in E. destruct (b_left b); [discriminate E|]. injection E as <-. apply steps_refl. reflexivity. Qed.
Lemma readLE_le : forall n b z b', b_readLE n b = Ok (z, b') -> b_inv b -> b_inv b' /\ (b_mu b' + n <= b_mu b)%nat.
Proof.
  intros n b z b' E I. unfold b_readLE in E. destruct (b_read n b) as [[g b1]| | |] eqn:R; try discriminate E. cbn [bind] in E. destruct (Nat.eqb_spec (length g) n) as [L|]; [|discriminate E].
  apply Ok_inj in E. apply (f_equal snd) in E. cbn [snd] in E. subst b1. destruct (b_read_steps _ _ _ _ R I). split; [assumption|lia].
Qed.
Lemma readLE_steps : forall n b z b', b_readLE n b = Ok (z, b') -> steps b b'.
Proof. intros n b z b' E I. destruct (readLE_le _ _ _ _ E I). split; [assumption|lia]. Qed.
Lemma ignore_steps : forall z b b', b_ignore z b = Ok b' -> steps b b'.
Proof.
  intros z b b' E I. unfold b_ignore in E. unfold b_inv in I. rewrite I in E. destruct (0 <=? z); injection E as <-; unfold b_inv, b_mu; cbn [bset_src b_src].
  - assert (F := ignore_fwd (b_src b) (Z.to_nat z)). destruct F as [_ F]; [unfold sound; congruence|]. split; [|exact F]. unfold src_ignore. rewrite I. destruct (strm_good (b_src b)); [destruct (Nat.leb _ _)|]; first [exact I|reflexivity].
  - destruct (strm_good (b_src b)); (split; [exact I|]); unfold rem, set_good; cbn [s_data s_pos]; lia.
Qed.
Ltac bst E := match type of E with bind ?x _ = Ok _ => let Q := fresh "Q" in destruct x as [?| | |] eqn:Q; try discriminate E; cbn [bind] in E end.
Lemma endOf_le : forall b e b', isEndOfContainer b = Ok (e, b') -> steps b b'.
Proof.
  intros b e b' E. apply steps_refl. unfold isEndOfContainer in E. destruct (b_left b) as [|l r]; [discriminate E|]. destruct (l =? 1); [destruct (b_stack b) as [|[| |] st]; try discriminate E|]; injection E as _ <-; reflexivity.
Qed.
Lemma readEnd_le : forall b b', readEndOfContainer b = Ok b' -> steps b b'.
Proof.
  intros b b' E. unfold readEndOfContainer in E. destruct (b_read 1 b) as [[g b1]| | |] eqn:R; try discriminate E. cbn [bind] in E. apply b_read_le in R. destruct (src_ok (b_src b1)); [|discriminate E].
  destruct (b_use 1 b1) as [b2| | |] eqn:U; try discriminate E. cbn [bind] in E. apply b_use_le in U. destruct g as [|c [|? ?]]; try discriminate E. destruct (c =? 0); [|discriminate E]. injection E as <-. eapply tr; eassumption.
Qed.
Lemma readKey_le : forall b b', readKey b = Ok b' -> steps b b'.
Proof.
  intros b b' E. unfold readKey in E. destruct (b_read 1 b) as [[g b1]| | |] eqn:R; try discriminate E. cbn [bind] in E. apply b_read_le in R. destruct (src_ok (b_src b1)); [|discriminate E]. cbv zeta in E.
  destruct (src_readTo (b_src b1) (b_key b1) 0) as [[k s]| | |] eqn:T; try discriminate E. cbn [bind] in E. destruct (src_ok s); [|discriminate E]. apply b_use_le in E. eapply tr; [exact R|]. eapply tr; [|exact E].
  intro I. unfold b_inv, b_mu in *. cbn [bset_elem bset_src b_src]. split.
  - unfold src_readTo in T. rewrite I in T. destruct (strm_good (b_src b1)); [destruct (split_at 0 (s_rest (b_src b1))) as [? [|]]|]; apply Ok_inj in T; apply (f_equal snd) in T; cbn [snd] in T; subst s; first [exact I|reflexivity].
  - apply readTo_fwd in T. apply T. unfold sound. congruence.
Qed.
Lemma start_le : forall b b', startContainer b = Ok b' -> b_inv b -> b_inv b' /\ (b_mu b' + 1 <= b_mu b)%nat.
Proof.
  intros b b' E I. unfold startContainer in E. destruct (b_readLE 4 b) as [[z b1]| | |] eqn:R; try discriminate E. cbn [bind] in E. destruct (readLE_le _ _ _ _ R I) as [I1 R1]. destruct (b_use_le _ _ _ E I1) as [I2 R2].
  split; [exact I2|]. unfold b_mu in *. cbn [bset_sizes b_src] in R2. lia.
Qed.
Definition nexts (f : bparser -> outcome (token * bparser)) : Prop := forall b t b', f b = Ok (t, b') -> b_inv b -> b_inv b' /\ (b_mu b' + ms t <= b_mu b)%nat.
Lemma next_with_le : forall again, nexts again -> nexts (next_with again).
Proof.
  intros again H b t b' E I. unfold next_with in E.
  destruct (if b_skip b then do (e, b0) <- isEndOfContainer (bset_skip b false); Ok (if e then b0 else bset_next (bset_elem b0 (b_key b0) 0) TokKey) else Ok b) as [b0| | |] eqn:K; try discriminate E. cbn [bind] in E.
  assert (K1 : steps b b0).
  { destruct (b_skip b); [|injection K as <-; apply steps_refl; reflexivity]. destruct (isEndOfContainer (bset_skip b false)) as [[e b1]| | |] eqn:En; try discriminate K. cbn [bind] in K. apply endOf_le in En. injection K as <-. eapply tr; [|destruct e; eapply tr; [exact En|apply steps_refl; reflexivity|exact En|apply steps_refl; reflexivity]]. apply steps_refl. reflexivity. }
  clear K. destruct (K1 I) as [I0 R0]. clear I K1.
  assert (Q : forall b1 t1, steps b0 b1 -> ms t1 = 0%nat -> b_inv b1 /\ (b_mu b1 + ms t1 <= b_mu b)%nat). { intros b1 t1 S1 Z1. destruct (S1 I0). rewrite Z1. split; [assumption|lia]. }
  assert (Qs : forall b1, steps b1 b1) by (intro; apply steps_refl; reflexivity).
  cbv zeta in E. destruct (b_next b0) eqn:Nx.
  - discriminate E.
  - destruct (b_stack b0) as [|[| |] st]; try discriminate E; try (injection E as <- <-; apply Q; [apply steps_refl; reflexivity|reflexivity]).
    match type of E with bind (startContainer ?x) _ = _ => destruct (startContainer x) as [b1| | |] eqn:S1; try discriminate E; cbn [bind] in E; destruct (start_le _ _ S1 I0) as [I1 R1] end. injection E as <- <-. unfold b_mu in *. cbn in R1. cbn [ms]. split; [exact I1|lia].
  - match type of E with bind ?x _ = _ => destruct x as [b1| | |] eqn:S1; try discriminate E; cbn [bind] in E end. injection E as <- <-. apply Q; [|reflexivity]. eapply tr; [|apply (steps_refl b1); reflexivity].
    destruct (b_stack b0) as [|[| |] st]; try (injection S1 as <-; apply Qs). apply readEnd_le. exact S1.
  - destruct (startContainer b0) as [b1| | |] eqn:S1; try discriminate E. cbn [bind] in E. destruct (start_le _ _ S1 I0) as [I1 R1]. destruct (b_left b1) as [|l lf]; [discriminate E|]. destruct (l =? 1); [destruct (b_stack b1) as [|[| |] st]; try discriminate E|]; injection E as <- <-; unfold b_mu, b_inv in *; cbn [bset_next b_src ms]; (split; [exact I1|lia]).
  - match type of E with bind ?x _ = _ => destruct x as [b1| | |] eqn:S1; try discriminate E; cbn [bind] in E end. apply readEnd_le in S1. destruct (b_stack b1) as [|c st]; [discriminate E|]. destruct (b_left b1) as [|l lf]; [discriminate E|]. destruct (b_size b1) as [|z sz]; [discriminate E|].
    destruct st as [|c2 st]; [injection E as <- <-; apply Q; [|reflexivity]; eapply tr; [exact S1|apply steps_refl; reflexivity]|].
    match type of E with bind ?x _ = _ => destruct x as [b2| | |] eqn:S2; try discriminate E; cbn [bind] in E end. apply b_use_le in S2. destruct (isEndOfContainer b2) as [[e b3]| | |] eqn:S3; try discriminate E. cbn [bind] in E. apply endOf_le in S3. injection E as <- <-. apply Q; [|reflexivity].
    eapply tr; [exact S1|]. eapply tr; [eapply tr; [|exact S2]; apply steps_refl; reflexivity|]. eapply tr; [exact S3|]. destruct e; apply steps_refl; reflexivity.
  - destruct (startContainer b0) as [b1| | |] eqn:S1; try discriminate E. cbn [bind] in E. destruct (start_le _ _ S1 I0) as [I1 R1]. destruct (b_left b1) as [|l lf]; [discriminate E|]. destruct (l =? 1); [destruct (b_stack b1) as [|[| |] st]; try discriminate E|]; injection E as <- <-; unfold b_mu, b_inv in *; cbn [bset_next b_src ms]; (split; [exact I1|lia]).
  - match type of E with bind ?x _ = _ => destruct x as [b1| | |] eqn:S1; try discriminate E; cbn [bind] in E end. apply readEnd_le in S1. destruct (b_stack b1) as [|c st]; [discriminate E|]. destruct (b_left b1) as [|l lf]; [discriminate E|]. destruct (b_size b1) as [|z sz]; [discriminate E|].
    destruct st as [|c2 st]; [injection E as <- <-; apply Q; [|reflexivity]; eapply tr; [exact S1|apply steps_refl; reflexivity]|].
    match type of E with bind ?x _ = _ => destruct x as [b2| | |] eqn:S2; try discriminate E; cbn [bind] in E end. apply b_use_le in S2. destruct (isEndOfContainer b2) as [[e b3]| | |] eqn:S3; try discriminate E. cbn [bind] in E. apply endOf_le in S3. injection E as <- <-. apply Q; [|reflexivity].
    eapply tr; [exact S1|]. eapply tr; [eapply tr; [|exact S2]; apply steps_refl; reflexivity|]. eapply tr; [exact S3|]. destruct e; apply steps_refl; reflexivity.
  - destruct (readKey b0) as [b1| | |] eqn:S1; try discriminate E. cbn [bind] in E. apply readKey_le in S1. destruct (b_stack b1) as [|c st]; [discriminate E|].
    set (b2 := if b_type b1 =? 3 then bset_next (bset_stack b1 (BMap :: c :: st)) TokMapStart else if b_type b1 =? 4 then bset_next (bset_stack b1 (BArray :: c :: st)) TokArrayStart else bset_next b1 TokValue) in E.
    assert (S2 : steps b0 b2). { eapply tr; [exact S1|]. apply steps_refl. unfold b2. destruct (b_type b1 =? 3); [|destruct (b_type b1 =? 4)]; reflexivity. }
    destruct c; [injection E as <- <-; apply Q; [exact S2|reflexivity]|..]; (destruct (S2 I0) as [I2 R2]; destruct (H _ _ _ E I2) as [I3 R3]; split; [exact I3|lia]).
  - injection E as <- <-. apply Q; [|reflexivity]. apply steps_refl. reflexivity.
Qed.
Lemma bson_next_le : nexts bson_next.
Proof. apply next_with_le. apply next_with_le. intros b t b' E. discriminate E. Qed.
Lemma bson_ignore_le : forall b b', bson_ignore b = Ok b' -> steps b b'.
Proof.
  assert (Fx : forall n b b', ignore_fixed n b = Ok b' -> steps b b').
  { intros n b b' E. unfold ignore_fixed in E. destruct (b_ignore n b) as [b1| | |] eqn:G; try discriminate E. cbn [bind] in E. eapply tr; [eapply ignore_steps; exact G|eapply b_use_le; exact E]. }
  assert (Sz : forall n b b', ignore_sized n b = Ok b' -> steps b b').
  { intros n b b' E. unfold ignore_sized in E. destruct (b_readLE 4 b) as [[z b1]| | |] eqn:R; try discriminate E. cbn [bind] in E. destruct (z + n + 4 <? 2 ^ 31); [|discriminate E].
    destruct (b_ignore (z + n) b1) as [b2| | |] eqn:G; try discriminate E. cbn [bind] in E. eapply tr; [eapply readLE_steps; exact R|]. eapply tr; [eapply ignore_steps; exact G|eapply b_use_le; exact E]. }
  intros b b' E. unfold bson_ignore in E. destruct (negb (b_skip b)); [injection E as <-; apply steps_refl; reflexivity|].
  repeat match type of E with context [match ?p with _ => _ end] => is_var p; destruct p | context [match b_type b with _ => _ end] => destruct (b_type b) end; try discriminate E; try (eapply Fx; exact E); try (eapply Sz; exact E); injection E as <-; apply steps_refl; reflexivity.
Qed.
Lemma bson_agree : forall fuel cfg i ms0 ps, guarded (RClass i ms0 ps) = true -> parents_ok (RClass i ms0 ps) = true -> forall stop stop' n k, (n <= k)%nat ->
  d_agree b_mu b_inv n (deser bson_ops fuel (pc_strict cfg) (pc_marker cfg) (unroll i ms0 ps stop n)) (deser bson_ops fuel (pc_strict cfg) (pc_marker cfg) (unroll i ms0 ps stop' k)).
Proof.
  intros fuel cfg i ms0 ps G P stop stop' n k L. apply unroll_agree; try assumption; clear; cbn [bson_ops op_next op_key op_int op_bool op_str op_ignore op_ignoreMap op_ignoreArr].
  - exact bson_next_le.
  - intros s a s' E. injection E as _ <-. apply steps_refl. reflexivity.
  - intros t s a s' E. unfold bson_int in E. destruct (b_type s =? 16); [|destruct (b_type s =? 18); [|discriminate E]];
      (match type of E with bind (b_use ?n s) _ = _ => destruct (b_use n s) as [b1| | |] eqn:U; try discriminate E; cbn [bind] in E end); apply b_use_le in U;
      (match type of E with bind (b_readLE ?n ?x) _ = _ => destruct (b_readLE n x) as [[z b2]| | |] eqn:R; try discriminate E; cbn [bind] in E end); apply readLE_steps in R; apply Ok_inj in E; apply (f_equal snd) in E; cbn [snd] in E; subst s'; eapply tr; eassumption.
  - intros s a s' E. unfold bson_bool in E. destruct (b_type s =? 8); [|discriminate E]. destruct (b_read 1 s) as [[g b1]| | |] eqn:R; try discriminate E. cbn [bind] in E. apply b_read_le in R. destruct (src_ok (b_src b1)); [|discriminate E].
    destruct (b_use 1 b1) as [b2| | |] eqn:U; try discriminate E. cbn [bind] in E. apply b_use_le in U. destruct g as [|c [|? ?]]; try discriminate E. destruct (c =? 0); [|destruct (c =? 1); [|discriminate E]]; injection E as _ <-; eapply tr; eassumption.
  - intros s a s' E. unfold bson_str in E. destruct (b_type s =? 2); [|discriminate E]. destruct (b_readLE 4 s) as [[z b1]| | |] eqn:R; try discriminate E. cbn [bind] in E. apply readLE_steps in R. destruct (b_use 4 b1) as [b2| | |] eqn:U; try discriminate E. cbn [bind] in E. apply b_use_le in U.
    destruct (z <=? 0); [discriminate E|]. destruct (b_read (Z.to_nat z) b2) as [[g b3]| | |] eqn:R2; try discriminate E. cbn [bind] in E. apply b_read_le in R2. destruct (src_ok (b_src b3)); [|discriminate E]. destruct (b_use z b3) as [b4| | |] eqn:U2; try discriminate E. cbn [bind] in E. apply b_use_le in U2.
    apply Ok_inj in E. apply (f_equal snd) in E. cbn [snd] in E. subst s'. eapply tr; [exact R|]. eapply tr; [exact U|]. eapply tr; eassumption.
  - exact bson_ignore_le.
  - intros b s s' E. injection E as <-. apply steps_refl. reflexivity.
  - intros b s s' E. injection E as <-. apply steps_refl. reflexivity.
Qed.
Lemma bson_unroll_le : forall fuel cfg i ms0 ps text v stop stop' n n', guarded (RClass i ms0 ps) = true -> parents_ok (RClass i ms0 ps) = true -> (length text < n)%nat -> (n <= n')%nat ->
  bson_extract fuel cfg (unroll i ms0 ps stop n) v (src_init Strm text) = bson_extract fuel cfg (unroll i ms0 ps stop' n') v (src_init Strm text).
Proof.
  intros fuel cfg i ms0 ps text v stop stop' n n' G P L1 L2. unfold bson_extract, extract_with, try_with.
  assert (Rt : bson_root (unroll i ms0 ps stop n) = bson_root (unroll i ms0 ps stop' n')) by (destruct n; [lia|]; destruct n'; [lia|]; reflexivity). rewrite Rt.
  set (b0 := b_init (bson_root (unroll i ms0 ps stop' n')) (src_init Strm text)). unfold getToken at 1 3, lift. cbn [pst_init ps_impl ps_pb1 ps_pb2 token_eqb negb].
  destruct (op_next bson_ops b0) as [[t s]| | |] eqn:N; try reflexivity. cbn [bind]. destruct t; try reflexivity.
  assert (I : b_inv b0) by reflexivity. change (bson_next b0 = Ok (TokDocStart, s)) in N; destruct (bson_next_le _ _ _ N I) as [I1 R1]. assert (R2 : (Mu b_mu (mkPst s TokError TokError) < n)%nat). { unfold Mu. cbn [ps_impl ps_pb1 ps_pb2 ms] in *. change (b_mu b0) with (length text - 0)%nat in R1. lia. }
  rewrite (bson_agree fuel cfg i ms0 ps G P stop stop' n n' L2 v (mkPst s TokError TokError) I1 R2). reflexivity.
Qed.
Lemma bson_unroll : forall fuel cfg i ms0 ps text v stop stop' n n', guarded (RClass i ms0 ps) = true -> parents_ok (RClass i ms0 ps) = true -> (length text < n)%nat -> (length text < n')%nat ->
  bson_extract fuel cfg (unroll i ms0 ps stop n) v (src_init Strm text) = bson_extract fuel cfg (unroll i ms0 ps stop' n') v (src_init Strm text).
Proof.
  intros fuel cfg i ms0 ps text v stop stop' n n' G P L1 L2. destruct (Nat.le_gt_cases n n') as [L|L]; [|symmetry]; apply bson_unroll_le; try assumption; lia.
Qed.
