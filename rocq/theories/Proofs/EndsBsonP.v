(** Imports of BSON and YAML end. *)
From Coq Require Import ZArith List Bool Lia ZifyBool.
From Verif Require Import Model.Base Model.Source Model.Number Model.ParserInterface Model.BsonPrinter Model.BsonParser Model.BsonFloat Model.BsonDoc Model.Types Model.Deserializer Model.Importer Model.Float Model.Yaml
  Proofs.ForwardP Proofs.EndsP Proofs.TokensEndP.
Import ListNotations.
Open Scope Z_scope.

Ltac rb := eapply runs_bind.
(** ** BSON *)
Section Bson.
  Variable k : skind.
  (** A value that was not taken yet, the end of the document and its start are steps that need no bytes. *)
  Definition phase (b : bparser) : nat := if b_skip b then 0 else match b_next b with TokValue | TokDocEnd | TokDocStart => 1 | _ => 0 end.
  Lemma phase_1 : forall b, (phase b <= 1)%nat.
  Proof. intro b. unfold phase. destruct (b_skip b); [lia|]. destruct (b_next b); lia. Qed.
  Definition bmu (b : bparser) : nat := (2 * rem (b_src b) + phase b)%nat.
  Definition binv (b : bparser) : Prop := s_kind (b_src b) = k.
  (** [n] bytes are gone, the rest of the parser is the same up to the sizes. *)
  Definition gone (n : nat) (b b' : bparser) : Prop := binv b' /\ (rem (b_src b') + n <= rem (b_src b))%nat /\ b_next b' = b_next b /\ b_skip b' = b_skip b.
  Lemma gone_calm : forall n b b', gone n b b' -> calm bmu binv b b'.
  Proof. intros n b b' (I & R & N & K). split; [exact I|]. unfold bmu, phase. rewrite N, K. lia. Qed.
  Lemma gone_trans : forall n1 n2 a b c, gone n1 a b -> gone n2 b c -> gone (n1 + n2) a c.
  Proof. intros n1 n2 a b c (I & R & N & K) (I' & R' & N' & K'). split; [exact I'|]. split; [lia|]. split; congruence. Qed.
  Lemma gone_le : forall n1 n2 a b, gone n1 a b -> (n2 <= n1)%nat -> gone n2 a b.
  Proof. intros n1 n2 a b (I & R & N & K) L. split; [exact I|]. split; [lia|]. split; assumption. Qed.

  Lemma src_read_ends : forall s n, runs (fun r => s_kind (snd r) = s_kind s /\ (rem (snd r) + length (fst r) <= rem s)%nat /\ (length (fst r) <= n)%nat /\ (s_kind s = Strm -> s_good (snd r) = true -> length (fst r) = n) /\ (fst r = [] -> s_kind s = StrIn -> n <> O -> rem (snd r) = O)) (src_read s n).
  Proof.
    intros s n. unfold src_read. assert (L : (length (firstn n (s_rest s)) <= rem s)%nat) by (rewrite firstn_length; unfold s_rest, rem; rewrite skipn_length; lia). assert (Ln := firstn_le_length n (s_rest s)).
    destruct (s_kind s) eqn:K.
    - destruct (Nat.ltb_spec (s_size s) (s_pos s)); [exact Logic.I|]. cbn [runs fst snd s_kind]. split; [reflexivity|]. unfold rem in *. cbn [s_data s_pos]. split; [lia|]. split; [|split; [discriminate|]].
      + rewrite firstn_length. lia.
      + intros E _ N0. unfold s_rest in *. rewrite E in *. cbn [length] in *. destruct n as [|n]; [congruence|]. assert (X := skipn_length (s_pos s) (s_data s)). destruct (skipn (s_pos s) (s_data s)); [|discriminate E]. cbn [length] in X. lia.
    - destruct (strm_good s).
      + assert (Lf : (length (firstn n (s_rest s)) <= n)%nat) by (rewrite firstn_length; lia). destruct (Nat.ltb_spec (length (firstn n (s_rest s))) n); cbn [runs fst snd s_kind s_good]; (split; [reflexivity|]); unfold rem in *; cbn [s_data s_pos]; (split; [lia|]); (split; [exact Lf|]); (split; [|discriminate]); intros; [discriminate|lia].
      + cbn [runs fst snd]. split; [exact K|]. unfold rem, set_good. cbn [s_data s_pos s_good length]. split; [lia|]. split; [lia|]. split; discriminate.
  Qed.
  Lemma src_readTo_ends : forall s d z, runs (fun r => s_kind (snd r) = s_kind s /\ (rem (snd r) <= rem s)%nat /\ (rem s = O -> s_kind s = StrIn -> s_good (snd r) = false)) (src_readTo s d z).
  Proof.
    intros s d z. unfold src_readTo. destruct (s_kind s) eqn:K.
    - destruct (Nat.ltb_spec (s_size s) (s_pos s)) as [|L]; [exact Logic.I|]. destruct (split_at z (s_rest s)) as [a f]. cbn [runs fst snd s_kind s_good]. split; [reflexivity|]. unfold rem, s_size in *. cbn [s_data s_pos]. split; [lia|]. intros R _. lia.
    - destruct (strm_good s); [destruct (split_at z (s_rest s)) as [a f]; destruct f|]; cbn [runs fst snd s_kind]; (split; [first [exact K|reflexivity]|]); unfold rem, s_size, set_good; cbn [s_data s_pos]; (split; [lia|discriminate]).
  Qed.

  Lemma b_read_ends : forall n b, binv b -> runs (fun r => gone (length (fst r)) b (snd r) /\ (length (fst r) <= n)%nat /\ (k = Strm -> s_good (b_src (snd r)) = true -> length (fst r) = n) /\ (fst r = [] -> k = StrIn -> n <> O -> rem (b_src (snd r)) = O)) (b_read n b).
  Proof.
    intros n b I. unfold b_read. rb; [exact (src_read_ends (b_src b) n)|]. intros [g s] (K & R & L & G & Z). cbn [fst snd] in *. cbn [runs fst snd bset_src b_src]. unfold binv in *. rewrite I in *.
    split; [|split; [exact L|split; assumption]]. split; [exact K|]. split; [exact R|]. split; reflexivity.
  Qed.
  Lemma b_use_ends : forall n b, binv b -> runs (gone 0 b) (b_use n b).
  Proof. intros n b I. unfold b_use. destruct (b_left b); [exact Logic.I|]. cbn [runs]. split; [exact I|]. split; [cbn; lia|]. split; reflexivity. Qed.
  Lemma b_readLE_ends : forall n b, binv b -> runs (fun r => gone n b (snd r)) (b_readLE n b).
  Proof.
    intros n b I. unfold b_readLE. rb; [exact (b_read_ends n b I)|]. intros [g b1] (G & _). cbn [fst snd] in *. destruct (Nat.eqb_spec (length g) n) as [L|]; [|exact Logic.I]. cbn [runs snd]. now rewrite L in G.
  Qed.
  Lemma endOf_ends : forall b, binv b -> runs (fun r => b_src (snd r) = b_src b /\ b_skip (snd r) = b_skip b /\ (fst r = false -> snd r = b) /\ (fst r = true -> (b_next (snd r) = TokDocEnd /\ (exists st, b_stack (snd r) = BValue :: st)) \/ b_next (snd r) = TokMapEnd \/ b_next (snd r) = TokArrayEnd)) (isEndOfContainer b).
  Proof.
    intros b I. unfold isEndOfContainer. destruct (b_left b) as [|l r]; [exact Logic.I|]. destruct (l =? 1).
    - destruct (b_stack b) as [|[| |] st] eqn:E; try exact Logic.I; cbn [runs fst snd bset_next b_src b_skip b_next b_stack]; (split; [reflexivity|split; [reflexivity|split; [discriminate|]]]); intros _; eauto.
    - cbn [runs fst snd]. split; [reflexivity|split; [reflexivity|split; [reflexivity|discriminate]]].
  Qed.
  Lemma readEnd_ends : forall b, binv b -> runs (gone 1 b) (readEndOfContainer b).
  Proof.
    intros b I. unfold readEndOfContainer. rb; [exact (b_read_ends 1 b I)|]. intros [g b1] (G & L & _). cbn [fst snd] in *. destruct (src_ok (b_src b1)); [|exact Logic.I].
    rb; [exact (b_use_ends 1 b1 (proj1 G))|]. intros b2 G2. destruct g as [|c [|? ?]]; try exact Logic.I. destruct (c =? 0); [|exact Logic.I]. cbn [runs]. exact (gone_trans 1 0 b b1 b2 G G2).
  Qed.
  Lemma readKey_ends : forall b, binv b -> runs (gone 1 b) (readKey b).
  Proof.
    intros b I. unfold readKey. rb; [exact (b_read_ends 1 b I)|]. intros [g b1] (G & L & G1 & Z1). cbn [fst snd] in *. destruct (src_ok (b_src b1)) eqn:Ok1; [|exact Logic.I]. cbv zeta.
    rb; [exact (src_readTo_ends (b_src b1) (b_key b1) 0)|]. intros [kk s] (K & R & Z). cbn [fst snd] in *. destruct (src_ok s) eqn:Ok2; [|exact Logic.I]. destruct G as (I1 & R1 & N1 & S1).
    assert (L1 : length g = 1%nat).
    { destruct k eqn:Ek; [|exact (G1 eq_refl Ok1)]. destruct g as [|c [|? ?]]; [|reflexivity|cbn in L; lia]. exfalso. assert (F1 := Z (Z1 eq_refl eq_refl ltac:(discriminate)) (eq_trans I1 Ek)). unfold src_ok in Ok2. congruence. }
    rewrite L1 in R1. set (b2 := bset_elem (bset_src b1 s) kk (match g with [c] => c | _ => b_type b1 end)). assert (I2 : binv b2) by (unfold binv in *; cbn; congruence).
    eapply runs_weak; [exact (b_use_ends _ b2 I2)|]. intros b3 (I3 & R3 & N3 & S3). split; [exact I3|]. cbn in R3, N3, S3. split; [lia|]. split; congruence.
  Qed.
  Lemma start_ends : forall b, binv b -> runs (gone 4 b) (startContainer b).
  Proof.
    intros b I. unfold startContainer. rb; [exact (b_readLE_ends 4 b I)|]. intros [z b1] G. cbn [snd] in G. eapply runs_weak; [apply b_use_ends; exact (proj1 G)|]. intros b2 G2. exact (gone_trans 4 0 b b1 b2 G G2).
  Qed.

  Definition steps_on (b : bparser) (r : token * bparser) : Prop := calm bmu binv b (snd r) /\ ((fst r = TokError /\ False) \/ (fst r <> TokError /\ (bmu (snd r) < bmu b)%nat)).
  Lemma on : forall b t b', t <> TokError -> binv b' -> (2 * rem (b_src b') + phase b' < 2 * rem (b_src b) + phase b)%nat -> steps_on b (t, b').
  Proof. intros b t b' T I L. split; [split; [exact I|unfold bmu; cbn [snd]; lia]|]. right. split; [exact T|exact L]. Qed.
  (** What the values of [again] are needed for: after a key. *)
  Lemma next_ends : forall again, (forall b, binv b -> b_next b <> TokKey -> b_skip b = false -> runs (steps_on b) (again b)) -> forall b, binv b -> runs (steps_on b) (next_with again b).
  Proof.
    intros again H b I. unfold next_with.
    eapply runs_bind with (Q' := fun b0 => binv b0 /\ rem (b_src b0) = rem (b_src b) /\ b_skip b0 = false /\ ((b_skip b = true /\ (b_next b0 = TokKey \/ (b_next b0 = TokDocEnd /\ exists st, b_stack b0 = BValue :: st) \/ b_next b0 = TokMapEnd \/ b_next b0 = TokArrayEnd)) \/ (b_skip b = false /\ b_next b0 = b_next b))).
    { destruct (b_skip b) eqn:Sk.
      - rb; [exact (endOf_ends (bset_skip b false) I)|]. intros [e b1] (E1 & E2 & E3 & E4). cbn [fst snd] in *. cbn [runs]. cbn [bset_skip b_src b_skip] in E1, E2. destruct e; cbn [bset_next bset_elem b_src b_skip b_next b_stack]; unfold binv in *; rewrite ?E1, ?E2; cbn [b_src]; rewrite ?E1.
        + split; [exact I|]. split; [reflexivity|]. split; [reflexivity|]. left. split; [reflexivity|]. destruct (E4 eq_refl) as [E5|E5]; [right; left; exact E5|right; right; exact E5].
        + split; [cbn [bset_next bset_elem b_src]; congruence|]. split; [f_equal; exact E1|]. split; [first [reflexivity|exact E2]|]. left. split; [reflexivity|]. now left.
      - cbn [runs]. split; [exact I|]. split; [reflexivity|]. split; [exact Sk|]. right. split; reflexivity. }
    intros b0 (I0 & R0 & S0 & C0). cbv zeta.
    (* the phase of the state before is that of the state now, but for the end of the document *)
    assert (P0 : b_next b0 <> TokDocEnd -> b_next b0 <> TokDocStart -> b_next b0 <> TokValue -> (phase b0 <= phase b)%nat).
    { intros A B C. unfold phase at 1. rewrite S0. destruct (b_next b0); try lia; congruence. }
    assert (P1 : b_next b0 = TokDocStart \/ b_next b0 = TokValue -> phase b = 1%nat).
    { intros A. destruct C0 as [[C1 C2]|[C1 C2]]; [destruct C2 as [C2|[[C2 _]|[C2|C2]]]; destruct A; congruence|]. unfold phase. rewrite C1, <- C2. destruct A as [-> | ->]; reflexivity. }
    destruct (b_next b0) eqn:Nx; try exact Logic.I.
    - (* DocStart *) specialize (P1 (or_introl eq_refl)). destruct (b_stack b0) as [|[| |] st]; try exact Logic.I.
      + cbn [runs]. apply on; [discriminate|exact I0|]. unfold phase at 1. cbn [bset_next b_src b_skip b_next]. rewrite S0. lia.
      + cbn [runs]. apply on; [discriminate|exact I0|]. unfold phase at 1. cbn [bset_next b_src b_skip b_next]. rewrite S0. lia.
      + rb; [apply start_ends; exact I0|]. intros b1 (I1 & R1 & N1 & S1). cbn [bset_stack bset_next b_src b_next b_skip] in R1, N1, S1. cbn [runs]. apply on; [discriminate|exact I1|]. unfold phase at 1. rewrite S1, S0, N1. lia.
    - (* DocEnd *) destruct (b_stack b0) as [|[| |] st] eqn:St.
      + assert (phase b = 1%nat). { destruct C0 as [[C1 [C2|[[_ [? C2]]|[C2|C2]]]]|[C1 C2]]; try discriminate C2. unfold phase. now rewrite C1, <- C2. }
        cbn [bind runs]. apply on; [discriminate|exact I0|]. unfold phase at 1. cbn [bset_next b_src b_skip b_next]. rewrite S0. lia.
      + assert (phase b = 1%nat). { destruct C0 as [[C1 [C2|[[_ [? C2]]|[C2|C2]]]]|[C1 C2]]; try discriminate C2. unfold phase. now rewrite C1, <- C2. }
        cbn [bind runs]. apply on; [discriminate|exact I0|]. unfold phase at 1. cbn [bset_next b_src b_skip b_next]. rewrite S0. lia.
      + assert (phase b = 1%nat). { destruct C0 as [[C1 [C2|[[_ [? C2]]|[C2|C2]]]]|[C1 C2]]; try discriminate C2. unfold phase. now rewrite C1, <- C2. }
        cbn [bind runs]. apply on; [discriminate|exact I0|]. unfold phase at 1. cbn [bset_next b_src b_skip b_next]. rewrite S0. lia.
      + rb; [exact (readEnd_ends b0 I0)|]. intros b1 (I1 & R1 & N1 & S1). cbn [runs]. apply on; [discriminate|exact I1|]. unfold phase at 1. cbn [bset_next b_src b_skip b_next]. rewrite S1, S0. lia.
    - (* MapStart *) rb; [exact (start_ends b0 I0)|]. intros b1 (I1 & R1 & N1 & S1). destruct (b_left b1) as [|l lf]; [exact Logic.I|]. destruct (l =? 1); [destruct (b_stack b1) as [|[| |] st]; try exact Logic.I|]; cbn [runs]; (apply on; [discriminate|exact I1|]); unfold phase at 1; cbn [bset_next b_src b_skip b_next]; rewrite S1, S0; lia.
    - (* MapEnd *) rb; [exact (readEnd_ends b0 I0)|]. intros b1 (I1 & R1 & N1 & S1). destruct (b_stack b1) as [|c st]; [exact Logic.I|]. destruct (b_left b1) as [|l lf]; [exact Logic.I|]. destruct (b_size b1) as [|z sz]; [exact Logic.I|].
      destruct st as [|c2 st].
      + cbn [runs]. apply on; [discriminate|exact I1|]. unfold phase at 1. cbn [bset_next bset_sizes bset_stack b_src b_skip b_next]. rewrite S1, S0. lia.
      + rb; [apply b_use_ends; exact I1|]. intros b2 (I2 & R2 & N2 & S2). cbn [bset_sizes bset_stack b_src b_next b_skip] in R2, N2, S2. rb; [exact (endOf_ends b2 I2)|]. intros [e b3] (E1 & E2 & E3 & E4). cbn [fst snd] in *. cbn [runs].
        apply on; [discriminate|destruct e; unfold binv in *; cbn [bset_next b_src]; rewrite E1; exact I2|].
        assert (Ph := phase_1 (if e then b3 else bset_next b3 TokKey)).
        destruct e; cbn [bset_next b_src] in *; rewrite E1; lia.
    - (* ArrayStart *) rb; [exact (start_ends b0 I0)|]. intros b1 (I1 & R1 & N1 & S1). destruct (b_left b1) as [|l lf]; [exact Logic.I|]. destruct (l =? 1); [destruct (b_stack b1) as [|[| |] st]; try exact Logic.I|]; cbn [runs]; (apply on; [discriminate|exact I1|]); unfold phase at 1; cbn [bset_next b_src b_skip b_next]; rewrite S1, S0; lia.
    - (* ArrayEnd *) rb; [exact (readEnd_ends b0 I0)|]. intros b1 (I1 & R1 & N1 & S1). destruct (b_stack b1) as [|c st]; [exact Logic.I|]. destruct (b_left b1) as [|l lf]; [exact Logic.I|]. destruct (b_size b1) as [|z sz]; [exact Logic.I|].
      destruct st as [|c2 st].
      + cbn [runs]. apply on; [discriminate|exact I1|]. unfold phase at 1. cbn [bset_next bset_sizes bset_stack b_src b_skip b_next]. rewrite S1, S0. lia.
      + rb; [apply b_use_ends; exact I1|]. intros b2 (I2 & R2 & N2 & S2). cbn [bset_sizes bset_stack b_src b_next b_skip] in R2, N2, S2. rb; [exact (endOf_ends b2 I2)|]. intros [e b3] (E1 & E2 & E3 & E4). cbn [fst snd] in *. cbn [runs].
        apply on; [discriminate|destruct e; unfold binv in *; cbn [bset_next b_src]; rewrite E1; exact I2|].
        assert (Ph := phase_1 (if e then b3 else bset_next b3 TokKey)).
        destruct e; cbn [bset_next b_src] in *; rewrite E1; lia.
    - (* Key *) rb; [exact (readKey_ends b0 I0)|]. intros b1 (I1 & R1 & N1 & S1). destruct (b_stack b1) as [|c st]; [exact Logic.I|].
      set (b2 := if b_type b1 =? 3 then bset_next (bset_stack b1 (BMap :: c :: st)) TokMapStart else if b_type b1 =? 4 then bset_next (bset_stack b1 (BArray :: c :: st)) TokArrayStart else bset_next b1 TokValue).
      assert (B2 : binv b2 /\ b_src b2 = b_src b1 /\ b_skip b2 = false /\ b_next b2 <> TokKey /\ (phase b2 <= 1)%nat).
      { unfold b2, phase. destruct (b_type b1 =? 3); [|destruct (b_type b1 =? 4)]; cbn [bset_next bset_stack b_src b_skip b_next]; (split; [exact I1|]); (split; [reflexivity|]); (split; [congruence|]); (split; [discriminate|]); rewrite S1, S0; lia. }
      destruct B2 as (B2 & B3 & B4 & B5 & B6).
      assert (G : runs (steps_on b) (again b2)).
      { eapply runs_weak; [exact (H b2 B2 B5 B4)|]. intros [t b3] [[J1 J2] [[_ []]|[J3 J4]]]. cbn [fst snd] in *. unfold bmu in *. rewrite B3 in *. apply on; [exact J3|exact J1|]. lia. }
      destruct c; try exact G. cbn [runs]. apply on; [discriminate|exact B2|]. rewrite B3. lia.
    - (* Value *) specialize (P1 (or_intror eq_refl)). cbn [runs]. apply on; [discriminate|exact I0|]. unfold phase at 1. cbn [bset_skip b_skip b_src]. lia.
  Qed.
  Lemma bson_next_ends : forall b, binv b -> runs (steps_on b) (bson_next b).
  Proof.
    apply next_ends. intros b I N S0. 
    (* the inner call has no key to read *)
    assert (E : next_with (fun _ => Hang) b = next_with (fun _ => Throw) b).
    { unfold next_with. rewrite S0. cbn [bind]. destruct (b_next b); try reflexivity. congruence. }
    rewrite E. apply next_ends; [|exact I]. intros. exact Logic.I.
  Qed.

  Lemma b_ignore_ends : forall z b, k = Strm -> binv b -> runs (gone 0 b) (b_ignore z b).
  Proof.
    intros z b Ks I. unfold binv in I. unfold b_ignore. rewrite I, Ks. assert (I' : s_kind (b_src b) = Strm) by congruence. destruct (0 <=? z); cbn [runs]; unfold gone, binv; cbn [bset_src b_src b_next b_skip].
    - unfold src_ignore. rewrite I'. destruct (strm_good (b_src b)); [destruct (Nat.leb _ _)|]; (split; [first [congruence|cbn; congruence]|]); unfold rem, set_pos, set_good, s_size; cbn [s_data s_pos]; (split; [lia|split; reflexivity]).
    - destruct (strm_good (b_src b)); (split; [first [exact I|cbn; congruence]|]); unfold rem, set_good; cbn [s_data s_pos]; (split; [lia|split; reflexivity]).
  Qed.
  Lemma bson_ignore_ends : forall b, k = Strm -> binv b -> runs (calm bmu binv b) (bson_ignore b).
  Proof.
    intros b Ks I. assert (Q : runs (gone 0 b) (bson_ignore b)).
    { assert (Fx : forall n, runs (gone 0 b) (ignore_fixed n b)).
      { intro n. unfold ignore_fixed. rb; [exact (b_ignore_ends n b Ks I)|]. intros b1 G1. eapply runs_weak; [exact (b_use_ends n b1 (proj1 G1))|]. intros b2 G2. exact (gone_trans 0 0 b b1 b2 G1 G2). }
      assert (Sz : forall n, runs (gone 0 b) (ignore_sized n b)).
      { intro n. unfold ignore_sized. rb; [exact (b_readLE_ends 4 b I)|]. intros [z b1] G1. cbn [snd] in G1. destruct (z + n + 4 <? 2 ^ 31); [|exact Logic.I]. rb; [exact (b_ignore_ends (z + n) b1 Ks (proj1 G1))|]. intros b2 G2. eapply runs_weak; [exact (b_use_ends _ b2 (proj1 G2))|]. intros b3 G3.
        eapply gone_le; [exact (gone_trans 4 0 b b1 b3 G1 (gone_trans 0 0 b1 b2 b3 G2 G3))|lia]. }
      assert (Id : runs (gone 0 b) (Ok b)) by (cbn [runs]; split; [exact I|]; split; [lia|]; split; reflexivity).
      unfold bson_ignore. destruct (negb (b_skip b)); [exact Id|].
      repeat match goal with |- runs _ (match ?p with _ => _ end) => is_var p; destruct p | |- runs _ (match b_type b with _ => _ end) => destruct (b_type b) end; first [exact Logic.I|apply Fx|apply Sz|exact Id]. }
    eapply runs_weak; [exact Q|]. intros b' G. exact (gone_calm 0 b b' G).
  Qed.
  Lemma with_gone : forall {A} n (f : outcome (A * bparser)) b, runs (fun r => gone n b (snd r)) f -> runs (fun r => calm bmu binv b (snd r)) f.
  Proof. intros A n f b H. eapply runs_weak; [exact H|]. intros a G. exact (gone_calm n b _ G). Qed.
  Lemma int_part : forall (g : Z -> Z) n z b, binv b -> runs (fun r => gone 0 b (snd r)) (do b1 <- b_use n b; do (y, b2) <- b_readLE z b1; Ok (g y, b2)).
  Proof.
    intros g n z b I. rb; [exact (b_use_ends n b I)|]. intros b1 G1. rb; [exact (b_readLE_ends z b1 (proj1 G1))|]. intros [y b2] G2. cbn [snd] in G2. cbn [runs snd]. eapply gone_le; [exact (gone_trans 0 z b b1 b2 G1 G2)|lia].
  Qed.
  Lemma bson_int_ends : forall i b, binv b -> runs (fun r => calm bmu binv b (snd r)) (bson_int i b).
  Proof. intros i b I. apply (with_gone 0). unfold bson_int. destruct (b_type b =? 16); [exact (int_part (i_wrap i) 4 4 b I)|]. destruct (b_type b =? 18); [exact (int_part (i_wrap i) 8 8 b I)|exact Logic.I]. Qed.
  Lemma bson_bool_ends : forall b, binv b -> runs (fun r => calm bmu binv b (snd r)) (bson_bool b).
  Proof.
    intros b I. apply (with_gone 0). unfold bson_bool. destruct (b_type b =? 8); [|exact Logic.I]. rb; [exact (b_read_ends 1 b I)|]. intros [g b1] (G & _). cbn [fst snd] in *. destruct (src_ok (b_src b1)); [|exact Logic.I].
    rb; [exact (b_use_ends 1 b1 (proj1 G))|]. intros b2 G2. destruct g as [|c [|? ?]]; try exact Logic.I. destruct (c =? 0); [|destruct (c =? 1); [|exact Logic.I]]; cbn [runs snd]; (eapply gone_le; [exact (gone_trans 1 0 b b1 b2 G G2)|lia]).
  Qed.
  Lemma bson_str_ends : forall b, binv b -> runs (fun r => calm bmu binv b (snd r)) (bson_str b).
  Proof.
    intros b I. apply (with_gone 0). unfold bson_str. destruct (b_type b =? 2); [|exact Logic.I]. rb; [exact (b_readLE_ends 4 b I)|]. intros [z b1] G1. cbn [snd] in G1. rb; [exact (b_use_ends 4 b1 (proj1 G1))|]. intros b2 G2. destruct (z <=? 0); [exact Logic.I|].
    rb; [exact (b_read_ends (Z.to_nat z) b2 (proj1 G2))|]. intros [g b3] (G3 & _). cbn [fst snd] in *. destruct (src_ok (b_src b3)); [|exact Logic.I]. rb; [exact (b_use_ends z b3 (proj1 G3))|]. intros b4 G4. cbn [runs snd].
    eapply gone_le; [exact (gone_trans 4 _ b b1 b4 G1 (gone_trans 0 _ b1 b2 b4 G2 (gone_trans _ 0 b2 b3 b4 G3 G4)))|lia].
  Qed.
  Lemma float_ends : forall f b, binv b -> runs (fun r => calm bmu binv b (snd r)) (getFloatValue f b).
  Proof.
    intros f b I. apply (with_gone 0). unfold getFloatValue. destruct (b_type b =? 16); [exact (int_part (of_int f) 4 4 b I)|]. destruct (b_type b =? 18); [exact (int_part (of_int f) 8 8 b I)|]. destruct (b_type b =? 1); [|exact Logic.I].
    eapply runs_bind with (Q' := fun r => gone 0 b (snd r)); [|intros [z b1] G; exact G]. unfold readFloat. rb; [exact (b_read_ends 8 b I)|]. intros [g b1] (G & _). cbn [fst snd] in *. destruct (src_ok (b_src b1)); [|exact Logic.I]. rb; [exact (b_use_ends 8 b1 (proj1 G))|]. intros b2 G2. destruct (Nat.eqb _ _); [|exact Logic.I].
    cbn [runs snd]. eapply gone_le; [exact (gone_trans _ 0 b b1 b2 G G2)|lia].
  Qed.

  Lemma same_calm : forall b : bparser, binv b -> calm bmu binv b b.
  Proof. intros b I. split; [exact I|lia]. Qed.
  Lemma null_stays : forall b, binv b -> (b_type b =? 10) = true -> runs (calm bmu binv b) (bson_ignore b).
  Proof. intros b I N. unfold bson_ignore. destruct (negb (b_skip b)); [exact (same_calm b I)|]. assert (E : b_type b = 10) by lia. rewrite E. exact (same_calm b I). Qed.
  Variable m : strictness.
  Hypothesis Hk : k = StrIn -> m <> Weak.
  Lemma weak_ignore : forall b, m = Weak -> binv b -> runs (calm bmu binv b) (bson_ignore b).
  Proof. intros b W I. apply bson_ignore_ends; [|exact I]. destruct k; [exfalso; now apply Hk|reflexivity]. Qed.
  Theorem bson_reader : forall F marker t, reader F bmu binv (deser bson_ops F m marker t).
  Proof.
    intros F marker t. apply (deser_ends bson_ops F m marker bmu binv (fun _ => False)).
    - exact bson_next_ends.
    - intros s [].
    - intros s I. exact (same_calm s I).
    - exact bson_int_ends.
    - exact bson_bool_ends.
    - exact bson_str_ends.
    - exact null_stays.
    - exact weak_ignore.
    - intros b s I. exact (same_calm s I).
    - intros b s I. exact (same_calm s I).
  Qed.
  Theorem bflt_reader : forall F marker t, reader F bmu binv (deser bflt_ops F m marker t).
  Proof.
    intros F marker t. apply (deser_ends bflt_ops F m marker bmu binv (fun _ => False)).
    - exact bson_next_ends.
    - intros s [].
    - intros s I. exact (same_calm s I).
    - intros i s I. cbn [bflt_ops op_int]. destruct (flt_of i); [now apply float_ends|now apply bson_int_ends].
    - exact bson_bool_ends.
    - exact bson_str_ends.
    - exact null_stays.
    - exact weak_ignore.
    - intros b s I. exact (same_calm s I).
    - intros b s I. exact (same_calm s I).
  Qed.
End Bson.

Lemma trailing_ends : forall b s, runs (fun s' => s_kind s' = s_kind s) (check_trailing b s).
Proof.
  intros b s. unfold check_trailing. destruct (b && src_ok s); [|reflexivity]. unfold src_readChar.
  destruct (s_kind s) eqn:K; [|destruct (strm_good s)]; try (destruct (skip_space (s_rest s)) as [n [|c r]]); cbv beta iota zeta;
    (match goal with |- runs _ (if ?x then _ else _) => destruct x end); try exact Logic.I; cbn [runs src_clear set_flags s_kind]; first [exact K|reflexivity].
Qed.
Lemma bson_extract_ends : forall ops k cfg t v text fuel, op_next ops = bson_next -> (forall F marker t, reader F bmu (binv k) (deser ops F (pc_strict cfg) marker t)) -> (2 * length text + 1 <= fuel)%nat ->
  extract_with ops fuel cfg t v (src_init k text) <> ImpHang.
Proof.
  intros ops k cfg t v text fuel Nx Rd L. assert (R : runs (fun _ => True) (try_with ops fuel cfg t v (src_init k text))).
  { unfold try_with. assert (I0 : binv k (b_init (bson_root t) (src_init k text))) by reflexivity.
    assert (G : forall p, ps_pb1 p = TokError -> ps_pb2 p = TokError -> binv k (ps_impl p) -> runs (fun r => binv k (ps_impl (snd r)) /\ (weight bmu (snd r) <= weight bmu p)%nat) (getToken ops p)).
    { intros [b b1 b2] A B I. cbn [ps_pb1 ps_pb2 ps_impl] in *. subst b1 b2. unfold getToken, lift. cbn [ps_impl ps_pb1 ps_pb2 token_eqb negb]. rewrite Nx. rb; [exact (bson_next_ends k b I)|]. intros [tk b'] [[I1 L1] _]. cbn [snd] in *. cbn [runs snd]. split; [exact I1|]. unfold weight. cbn [ps_impl ps_pb1 ps_pb2]. lia. }
    rb; [exact (G (pst_init (b_init (bson_root t) (src_init k text))) eq_refl eq_refl I0)|]. intros [tk p] [I1 L1]. cbn [snd] in *. destruct tk; try exact Logic.I.
    rb; [apply (Rd fuel (pc_marker cfg) t v p I1); unfold weight, bmu, phase, rem in L1; cbn in L1; unfold weight, bmu, phase, rem; lia|]. intros [v' p1] [I2 L2]. cbn [snd] in *.
    rb; [exact (trailing_ends (pc_noTrailing cfg) (b_src (ps_impl p1)))|]. intros s1 K1. unfold sane, binv in I2.
    unfold getToken, lift. cbn [ps_impl ps_pb1 ps_pb2]. destruct (token_eqb (ps_pb2 p1) TokError); cbn [negb]; [|destruct (ps_pb2 p1); exact Logic.I]. destruct (token_eqb (ps_pb1 p1) TokError); cbn [negb]; [|destruct (ps_pb1 p1); exact Logic.I].
    rewrite Nx. eapply runs_bind with (Q' := fun _ => True); [rb; [apply (bson_next_ends k (bset_src (ps_impl p1) s1)); unfold binv; cbn [bset_src b_src]; congruence|]|].
    - intros [tk b'] _. exact Logic.I.
    - intros [tk b'] _. destruct tk; exact Logic.I. }
  unfold extract_with. destruct (try_with ops fuel cfg t v (src_init k text)) as [[v' s]| | |]; try discriminate. destruct R.
Qed.

(** ** YAML *)
Definition ymu (y : yst) : nat := length (y_calls y).
Definition no_text (y : yst) : Prop := match y_event y with YScalar _ => False | _ => True end.
Definition yinv (y : yst) : Prop := y_first y = false /\ (y_error y = true -> no_text y).
Definition ydead (y : yst) : Prop := no_text y.
Lemma y_read_ends : forall n s, runs (fun _ => True) (y_read n s).
Proof. intros n s. unfold y_read. rb; [exact (src_read_ends s n)|]. intros [g s1] _. exact Logic.I. Qed.
Lemma y_reads_ends : forall ns s, runs (fun _ => True) (y_reads ns s).
Proof. induction ns as [|n ns IH]; intro s; cbn [y_reads]; [exact Logic.I|]. rb; [exact (y_read_ends n s)|]. intros s1 _. apply IH. Qed.
Lemma y_parse_ends : forall y, runs (fun r => y_first (snd r) = y_first y /\ y_error (snd r) = y_error y /\ (ymu (snd r) <= ymu y)%nat /\ (fst r = false -> no_text (snd r)) /\ (y_event (snd r) <> YNone -> (ymu (snd r) < ymu y)%nat)) (y_parse y).
Proof.
  intro y. unfold y_parse. destruct (y_calls y) as [|[ns e] calls] eqn:E.
  - cbn [runs fst snd y_first y_error y_event]. unfold ymu. rewrite E. cbn [y_calls length]. split; [reflexivity|]. split; [reflexivity|]. split; [lia|]. split; [discriminate|congruence].
  - rb; [exact (y_reads_ends ns (y_src y))|]. intros s _. destruct e as [e|]; cbn [runs fst snd y_first y_error y_event]; unfold ymu, no_text; rewrite E; cbn [y_calls length y_event]; (split; [reflexivity|split; [reflexivity|split; [lia|]]]); split; try discriminate; try congruence; auto.
Qed.
Definition yon (y : yst) (r : token * yst) : Prop := calm ymu yinv y (snd r) /\ ((fst r = TokError /\ ydead (snd r)) \/ (fst r <> TokError /\ (ymu (snd r) < ymu y)%nat)).
(** The part of getNextToken after the start of the stream. *)
Lemma event_ends : forall y y0, y_first y = false -> y_error y = false -> (ymu y <= ymu y0)%nat -> (y_event y <> YNone -> (ymu y < ymu y0)%nat) -> runs (yon y0) (y_event_token y).
Proof.
  intros y y0 Fi Er Le Lt.
  assert (Q : forall t st, t <> TokError -> y_event y <> YNone -> yon y0 (t, yset_stack y st)).
  { intros t st T N. specialize (Lt N). split; cbn [snd fst].
    - split; [|unfold ymu in *; cbn [yset_stack y_calls]; lia]. split; [exact Fi|]. cbn [yset_stack y_error]. congruence.
    - right. split; [exact T|]. unfold ymu in *. cbn [yset_stack y_calls]. lia. }
  assert (Q0 : forall t, t <> TokError -> y_event y <> YNone -> yon y0 (t, y)).
  { intros t T N. specialize (Lt N). split; cbn [snd fst]; [split; [split; [exact Fi|congruence]|lia]|]. right. split; [exact T|lia]. }
  unfold y_event_token. destruct (y_event y) eqn:E; try exact Logic.I; specialize (Lt ltac:(discriminate)).
  - cbn [y_parsingError runs]. unfold y_parsingError. cbn [runs]. split; cbn [snd fst].
    + split; [split; [exact Fi|]|unfold ymu in *; cbn [y_calls]; lia]. intros _. unfold no_text. cbn [y_event]. now rewrite E.
    + left. split; [reflexivity|]. unfold ydead, no_text. cbn [y_event]. now rewrite E.
  - destruct (y_stack y) as [|[[| |] [|p|p]] [|? ?]]; try exact Logic.I. cbn [runs]. apply Q; discriminate.
  - destruct (y_stack y) as [|[[| |] c] [|? ?]]; try exact Logic.I. cbn [runs]. apply Q0; discriminate.
  - destruct (y_stack y) as [|[kd c] st]; [exact Logic.I|]. destruct (at_key kd (c + 1)); [exact Logic.I|]. cbn [runs]. apply Q; discriminate.
  - destruct (y_stack y) as [|[kd c] st]; [exact Logic.I|]. destruct (c mod 2 =? 0); [|exact Logic.I]. cbn [runs]. apply Q; discriminate.
  - destruct (y_stack y) as [|[kd c] st]; [exact Logic.I|]. destruct (at_key kd (c + 1)); [exact Logic.I|]. cbn [runs]. apply Q; discriminate.
  - destruct (y_stack y) as [|[kd c] st]; [exact Logic.I|]. cbn [runs]. apply Q; discriminate.
  - destruct (y_stack y) as [|[kd c] st]; [exact Logic.I|]. cbn [runs]. apply Q; [|discriminate]. destruct (at_key kd (c + 1)); discriminate.
Qed.
Lemma rest_ends : forall y, yinv y -> runs (yon y) (if y_error y then Ok (TokError, y) else do (ok, y1) <- y_parse y; if ok then y_event_token y1 else y_parsingError y1).
Proof.
  intros y [Fi Er]. destruct (y_error y) eqn:E.
  - cbn [runs]. split; cbn [snd fst]; [split; [split; [exact Fi|intros _; now apply Er]|lia]|]. left. split; [reflexivity|]. now apply Er.
  - rb; [exact (y_parse_ends y)|]. intros [ok y1] (F1 & E1 & L1 & N1 & S1). cbn [fst snd] in *. destruct ok; [apply event_ends; [congruence|congruence|exact L1|exact S1]|]. specialize (N1 eq_refl). unfold y_parsingError. cbn [runs]. split; cbn [snd fst].
    + split; [split; [cbn [y_first]; congruence|intros _; exact N1]|unfold ymu in *; cbn [y_calls]; lia].
    + left. split; [reflexivity|exact N1].
Qed.
Lemma y_next_ends : forall y, yinv y -> runs (yon y) (y_next y).
Proof. intros y I. unfold y_next. rewrite (proj1 I). cbn [bind negb]. exact (rest_ends y I). Qed.
(** The first token. *)
Lemma y_first_ends : forall calls s, runs (fun r => fst r <> TokError -> yinv (snd r) /\ (ymu (snd r) <= length calls)%nat) (y_next (y_init calls s)).
Proof.
  intros calls s. unfold y_next. cbn [y_init y_first]. set (y0 := yset_first (y_init calls s)).
  eapply runs_bind with (Q' := fun r => fst r = true -> yinv (snd r) /\ (ymu (snd r) <= length calls)%nat).
  - rb; [exact (y_parse_ends y0)|]. intros [ok y1] (F1 & E1 & L1 & N1 & S1). cbn [fst snd] in *. cbn [runs fst snd]. intro T. apply andb_prop in T. destruct T as [_ T]. destruct (y_event y1) eqn:Ev; try discriminate T. change (ymu y0) with (length calls) in *. split; [|exact L1]. split; [exact F1|]. cbn [yset_stack y_error]. intro X. rewrite E1 in X. discriminate X.
  - intros [go y1] H. cbn [fst snd] in H. destruct go; cbn [negb].
    + destruct (H eq_refl) as [I1 L1]. eapply runs_weak; [exact (rest_ends y1 I1)|]. intros [t y2] [[I2 L2] _] _. cbn [snd] in *. split; [exact I2|lia].
    + unfold y_parsingError. cbn [runs fst]. congruence.
Qed.
Lemma y_same : forall y, yinv y -> calm ymu yinv y y.
Proof. intros y I. split; [exact I|lia]. Qed.
Lemma y_text_ends : forall y, yinv y -> runs (fun r => calm ymu yinv y (snd r)) (y_text y).
Proof. intros y I. unfold y_text. destruct (y_event y); try exact Logic.I. exact (y_same y I). Qed.
Lemma y_value_ends : forall {B} (f : bytes -> outcome B) y, (forall s, f s <> Hang) -> yinv y -> runs (fun r => calm ymu yinv y (snd r)) (y_value f y).
Proof.
  intros B f y H I. unfold y_value. rb; [exact (y_text_ends y I)|]. intros [s y1] C. cbn [snd] in C. specialize (H s). destruct (f s); try exact Logic.I; [exact C|congruence].
Qed.
Theorem yaml_reader : forall F m marker t, reader F ymu yinv (deser yaml_ops F m marker t).
Proof.
  intros F m marker t. apply (deser_ends yaml_ops F m marker ymu yinv ydead); cbn [yaml_ops yaml_ops_with op_next op_key op_int op_bool op_str op_null op_ignore op_ignoreMap op_ignoreArr].
  - exact y_next_ends.
  - intros y D. unfold ydead, no_text in D. unfold y_null, y_text. destruct (y_event y); try (split; [reflexivity|exact Logic.I]). destruct D.
  - exact y_text_ends.
  - intros i y I. apply y_value_ends; [|exact I]. intro s. unfold yaml_int. destruct (strto (i_signed i) s) as [z n]. destruct (Nat.eqb n (length s)); discriminate.
  - intros y I. apply y_value_ends; [|exact I]. intro s. unfold yaml_bool. destruct (beq s _); [discriminate|]. destruct (beq s _); discriminate.
  - exact y_text_ends.
  - intros y I _. exact (y_same y I).
  - intros y _ I. exact (y_same y I).
  - intros b y I. exact (y_same y I).
  - intros b y I. exact (y_same y I).
Qed.
Lemma yaml_extract_ends : forall cfg t v calls s fuel, (length calls <= fuel)%nat -> yaml_extract fuel cfg t v calls s <> ImpHang.
Proof.
  intros cfg t v calls s fuel L. assert (R : runs (fun _ => True) (yaml_try_with yaml_int fuel cfg t v calls s)).
  { unfold yaml_try_with. cbv zeta. fold yaml_ops. change (getToken yaml_ops (pst_init (y_init calls s))) with (do (a, y) <- y_next (y_init calls s); Ok (a, mkPst y TokError TokError)).
    destruct (y_next (y_init calls s)) as [[tk y]| | |] eqn:E; try exact Logic.I; assert (H := y_first_ends calls s); rewrite E in H; cbn [runs fst snd bind] in *; [|destruct H].
    destruct tk; try exact Logic.I. destruct (H ltac:(discriminate)) as [I1 L1].
    rb; [apply (yaml_reader fuel (pc_strict cfg) (pc_marker cfg) t v (mkPst y TokError TokError) I1); unfold weight; cbn [ps_impl ps_pb1 ps_pb2]; cbn; lia|]. intros [v' p1] [I2 L2]. cbn [snd] in *.
    rb; [exact (trailing_ends (pc_noTrailing cfg) (y_src (ps_impl p1)))|]. intros s1 _.
    unfold getToken, lift. cbn [ps_impl ps_pb1 ps_pb2]. destruct (token_eqb (ps_pb2 p1) TokError); cbn [negb]; [|destruct (ps_pb2 p1); exact Logic.I]. destruct (token_eqb (ps_pb1 p1) TokError); cbn [negb]; [|destruct (ps_pb1 p1); exact Logic.I].
    eapply runs_bind with (Q' := fun _ => True); [rb; [exact (y_next_ends (yset_src (ps_impl p1) s1) I2)|]|].
    - intros [tk b'] _. exact Logic.I.
    - intros [tk b'] _. destruct tk; exact Logic.I. }
  unfold yaml_extract, yaml_extract_with. destruct (yaml_try_with yaml_int fuel cfg t v calls s) as [[v' s1]| | |]; try discriminate. destruct R.
Qed.
