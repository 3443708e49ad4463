(** Step by step memory safety of the in-place string decoder. *)
From Coq Require Import ZArith List Bool Lia ZifyBool.
From Verif Require Import Model.Base Model.Unicode Proofs.UnicodeP.
Import ListNotations.
Open Scope Z_scope.

(** The states the copy of the raw text [raw] goes through. *)
Inductive copy_state (raw : bytes) : bytes * nat * wit -> Prop :=
| cs_start : forall w, wit_begin raw = Ok w -> copy_state raw (raw, 0%nat, w)
| cs_step : forall st st', copy_state raw st -> copy_step st = Ok (Some st') -> copy_state raw st'.

Definition copy_inv (raw : bytes) (st : bytes * nat * wit) : Prop :=
  let '(buf, k, w) := st in
  length buf = length raw /\ (w_iter w <= S (length raw))%nat /\
  (k + (length (w_cont w) - w_index w) < w_iter w)%nat /\
  (w_cont w = [] -> w_index w = 0%nat) /\ (w_cont w <> [] -> w_index w < length (w_cont w))%nat.

Lemma read_in : forall buf i, (i <= length buf)%nat -> exists c, read_at buf i = Ok c /\ (i = length buf -> c = 0).
Proof.
  intros buf i H. unfold read_at. destruct (nth_error buf i) as [c|] eqn:E.
  - exists c. split; [reflexivity|]. intros ->. rewrite (proj2 (nth_error_None buf (length buf))) in E by lia. discriminate E.
  - apply nth_error_None in E. assert (i = length buf) by lia. subst i. rewrite Nat.eqb_refl. now exists 0.
Qed.
Lemma write_in : forall buf k c, (k < length buf)%nat -> exists b, write_at buf k c = Ok b /\ length b = length buf.
Proof.
  induction buf as [|x buf IH]; intros k c H; cbn [length] in H; [lia|]. destruct k as [|k]; cbn [write_at].
  - eexists. split; reflexivity.
  - destruct (IH k c ltac:(lia)) as (b & -> & Hb). cbn [bind]. eexists. split; [reflexivity|]. cbn [length]. lia.
Qed.

Lemma dec_u_cases : forall r, (exists cs k, dec_u r = Ok (cs, k)) \/ dec_u r = Throw.
Proof.
  intro r. unfold dec_u. destruct r as [|h1 [|h2 [|h3 [|h4 r]]]]; auto.
  destruct (hex4v_cases h1 h2 h3 h4) as [[n ->]| ->]; cbn [bind]; auto.
  destruct (negb _); [left; eauto|]. destruct r as [|b [|u [|g1 [|g2 [|g3 [|g4 r]]]]]]; auto.
  destruct (negb _); auto. destruct (negb _); auto.
  destruct (hex4v_cases g1 g2 g3 g4) as [[m ->]| ->]; cbn [bind]; auto.
  destruct (negb _); [auto|left; eauto].
Qed.

Lemma incr_in : forall buf w, (w_cont w = [] -> w_iter w <= length buf)%nat ->
  (w_cont w <> [] -> S (w_index w) = length (w_cont w) -> w_iter w <= length buf)%nat ->
  exists w', wit_incr buf w = Ok w' /\
   ((w_cont w = [] \/ S (w_index w) = length (w_cont w)) /\ w_iter w' = S (w_iter w) /\ w_cont w' = [] /\
     (w_cont w = [] -> w_index w' = w_index w) /\ (w_cont w <> [] -> w_index w' = 0%nat)
    \/ w_cont w <> [] /\ S (w_index w) <> length (w_cont w) /\ w' = mkWit (w_iter w) (w_cont w) (S (w_index w)) (w_next w)).
Proof.
  intros buf w H1 H2. unfold wit_incr. destruct (w_cont w) as [|c cs] eqn:E.
  - destruct (read_in buf (w_iter w) (H1 eq_refl)) as (c & -> & _). cbn [bind]. eexists. split; [reflexivity|].
    left. cbn. tauto.
  - destruct (Nat.eqb_spec (S (w_index w)) (length (c :: cs))) as [Q|Q].
    + destruct (read_in buf (w_iter w) (H2 ltac:(discriminate) Q)) as (x & -> & _). cbn [bind]. eexists. split; [reflexivity|].
      left. cbn. repeat split; auto; try discriminate.
    + eexists. split; [reflexivity|]. right. repeat split; auto; try discriminate.
Qed.

Lemma copy_step_inv : forall raw st, copy_inv raw st ->
  copy_step st = Ok None \/ copy_step st = Throw \/ exists st', copy_step st = Ok (Some st') /\ copy_inv raw st'.
Proof.
  intros raw [[buf k] w] (Hl & Hi & Hk & Hz & Hn). unfold copy_step.
  destruct (Nat.eqb_spec (w_iter w) (S (length buf))) as [Q|Q]; [now left|]. right.
  assert (Hi' : (w_iter w <= length buf)%nat) by lia.
  (* dereference *)
  assert (D : wit_deref buf w = Throw \/ exists c w1, wit_deref buf w = Ok (c, w1) /\
     (w_iter w1 <= length buf)%nat /\ (k + (length (w_cont w1) - w_index w1) < w_iter w1)%nat /\
     (w_cont w1 = [] -> w_index w1 = 0%nat) /\ (w_cont w1 <> [] -> w_index w1 < length (w_cont w1))%nat).
  { unfold wit_deref. destruct (w_cont w) as [|c0 cs] eqn:Ec.
    - specialize (Hz eq_refl). unfold checkBuffer.
      destruct (w_next w <? 32); [now left|]. destruct (w_next w =? 92) eqn:Eb; cbn [negb].
      2: { right. exists (w_next w), w. rewrite Ec. cbn [length]. repeat split; auto; try lia; try congruence. }
      destruct (read_in buf (w_iter w) Hi') as (e & -> & He). cbn [bind].
      destruct (simple_escape e) as [x|] eqn:Ee.
      + right. assert (w_iter w <> length buf) by (intro X; rewrite (He X) in Ee; discriminate Ee).
        eexists _, _. split; [reflexivity|]. cbn. rewrite Ec. cbn [length]. repeat split; auto; try lia; try congruence.
      + destruct (e =? 117) eqn:Eu; [|now left].
        assert (w_iter w <> length buf) by (intro X; rewrite (He X) in Eu; discriminate Eu).
        assert (L : length (firstn (S (w_iter w)) buf) = S (w_iter w)) by (apply firstn_length_le; lia).
        rewrite (decodeUnicode_spec (firstn (S (w_iter w)) buf) (skipn (S (w_iter w)) buf) buf _
                   (eq_sym (firstn_skipn _ _)) (eq_sym L)).
        destruct (dec_u_cases (skipn (S (w_iter w)) buf)) as [(cs & n & E)|E]; rewrite E; cbn [bind]; [|now left].
        destruct (dec_u_ok _ _ _ E) as (L1 & L2 & _). rewrite skipn_length in L2.
        destruct cs as [|c0 cs]; [cbn [length] in L1; lia|]. right. eexists _, _. split; [reflexivity|].
        cbn [w_iter w_cont w_index]. rewrite Hz. cbn [length] in *. repeat split; try lia; try discriminate.
    - specialize (Hn ltac:(discriminate)). destruct (nth_error (c0 :: cs) (w_index w)) as [c|] eqn:En.
      + right. exists c, w. rewrite Ec. repeat split; auto; try discriminate.
      + apply nth_error_None in En. lia. }
  destruct D as [->|(c & w1 & -> & D1 & D2 & D3 & D4)]; [now left|]. right. cbn [bind].
  destruct (write_in buf k c ltac:(lia)) as (b1 & -> & Hb). cbn [bind].
  destruct (incr_in b1 w1 ltac:(lia) ltac:(lia)) as (w2 & -> & C). cbn [bind]. eexists. split; [reflexivity|].
  unfold copy_inv.
  destruct C as [(C0 & C1 & C2 & C3 & C4)|(C0 & C1 & ->)].
  - rewrite C1, C2. cbn [length]. split; [lia|]. split; [lia|]. split; [|split; [|congruence]].
    + destruct (w_cont w1) as [|x xs] eqn:E1; cbn [length] in *.
      * lia.
      * destruct C0 as [C0|C0]; [discriminate C0|]. lia.
    + intros _. destruct (w_cont w1) as [|x xs]; [rewrite C3 by reflexivity; apply D3; reflexivity|apply C4; discriminate].
  - cbn [w_iter w_cont w_index]. specialize (D4 C0). split; [lia|]. split; [lia|]. split; [lia|]. split; [contradiction|lia].
Qed.

Theorem copy_state_safe : forall raw st, copy_state raw st -> copy_inv raw st.
Proof.
  intros raw st H. induction H as [w H|st st' H IH E].
  - unfold wit_begin in H. destruct (read_in raw 0 ltac:(lia)) as (c & Ec & _). rewrite Ec in H. cbn [bind] in H.
    apply Ok_inj in H. subst w. unfold copy_inv. cbn. repeat split; auto; try lia; try congruence.
  - destruct (copy_step_inv raw st IH) as [X|[X|(st2 & X & H2)]]; rewrite X in E; try discriminate E.
    injection E as <-. exact H2.
Qed.
