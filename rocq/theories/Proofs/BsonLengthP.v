(** How many bytes a successful BSON import has read, whatever the bytes. *)
From Coq Require Import ZArith List Bool Lia ZifyBool.
From Verif Require Import Model.Base Model.Source Model.Number Model.ParserInterface Model.Binary Model.BsonPrinter Model.BsonParser
  Model.Types Model.Deserializer Model.Importer Model.BsonDoc Spec.Json Spec.Import Proofs.Sim Proofs.BinaryP.
Import ListNotations.
Open Scope Z_scope.

Section Source.
  Variables (k : skind) (text : bytes).

  (** A source that can be read, and one that has nothing more to give. *)
  Definition live (s : src) : Prop :=
    s_kind s = k /\ s_data s = text /\ s_good s = true /\ s_eof s = false /\ (s_pos s <= length text)%nat.
  Definition dead (s : src) : Prop := (s_size s <= s_pos s)%nat.

  Lemma live_rest : forall s, live s -> length (s_rest s) = (length text - s_pos s)%nat.
  Proof. intros s (_ & D & _). unfold s_rest. now rewrite D, skipn_length. Qed.
  Lemma dead_rest : forall s, dead s -> s_rest s = [].
  Proof. intros s H. unfold s_rest. apply skipn_all2. exact H. Qed.

  Lemma read_live : forall s n, live s -> exists got s', src_read s n = Ok (got, s') /\
    ((live s' /\ s_pos s' = (s_pos s + n)%nat /\ got = firstn n (skipn (s_pos s) text) /\ length got = n) \/ ((length got < n)%nat /\ dead s')).
  Proof.
    intros s n H. assert (L := live_rest s H). destruct H as (Hk & D & G & E & P). unfold src_read, strm_good, s_size. rewrite Hk, D, G, E.
    assert (Lg : length (firstn n (s_rest s)) = Nat.min n (length text - s_pos s)) by (rewrite firstn_length, L; reflexivity).
    assert (Rg : firstn n (s_rest s) = firstn n (skipn (s_pos s) text)) by (unfold s_rest; now rewrite D).
    destruct k eqn:Ek; cbn [andb negb].
    - destruct (Nat.ltb_spec (length text) (s_pos s)); [lia|]. eexists _, _. split; [reflexivity|].
      destruct (Nat.le_gt_cases n (length text - s_pos s)).
      + left. unfold live. cbn. rewrite Lg. repeat split; auto; try congruence; lia.
      + right. unfold dead, s_size. cbn. lia.
    - destruct (Nat.ltb_spec (length (firstn n (s_rest s))) n); eexists _, _; (split; [reflexivity|]).
      + right. unfold dead, s_size. cbn. lia.
      + left. unfold live. cbn. rewrite Lg. repeat split; auto; try congruence; lia.
  Qed.
  Lemma read_dead : forall s n, dead s -> src_read s n = UB \/ exists s', src_read s n = Ok ([], s') /\ dead s'.
  Proof.
    intros s n H. unfold src_read. rewrite (dead_rest s H), firstn_nil. cbn [length].
    destruct (s_kind s); [destruct (Nat.ltb _ _); [now left|]|]; right.
    - eexists. split; [reflexivity|]. unfold dead, s_size in *. cbn. lia.
    - destruct (strm_good s); [|eexists; split; [reflexivity|]; exact H].
      destruct (Nat.ltb 0 n); (eexists; split; [reflexivity|]); unfold dead, s_size in *; cbn; lia.
  Qed.
  Lemma split_length : forall d l, (length (fst (split_at d l)) + (if snd (split_at d l) then 1 else 0) <= length l)%nat /\
    (snd (split_at d l) = false -> fst (split_at d l) = l).
  Proof.
    intros d l. induction l as [|c l [IH1 IH2]]; [cbn; auto|]. cbn [split_at]. destruct (c =? d); [cbn; split; [lia|discriminate]|].
    destruct (split_at d l) as [a f]. cbn in *. split; [lia|]. intros ->. now rewrite IH2.
  Qed.
  Lemma readTo_live : forall s dst d, live s -> exists a s', src_readTo s dst d = Ok (a, s') /\
    ((live s' /\ s_pos s' = (s_pos s + length a + 1)%nat) \/ dead s').
  Proof.
    intros s dst d H. assert (L := live_rest s H). destruct H as (Hk & D & G & E & P). unfold src_readTo, strm_good, s_size. rewrite Hk, D, G, E.
    destruct (split_length d (s_rest s)) as [S1 S2]. destruct (split_at d (s_rest s)) as [a f]. cbn [fst snd] in S1, S2.
    destruct k eqn:Ek; cbn [andb negb].
    - destruct (Nat.ltb_spec (length text) (s_pos s)); [lia|]. eexists _, _. split; [reflexivity|]. destruct f.
      + left. unfold live. cbn. split; [|lia]. repeat split; auto; try congruence; try apply Nat.leb_le; lia.
      + right. rewrite (S2 eq_refl) in *. unfold dead, s_size. cbn. lia.
    - destruct f; eexists _, _; (split; [reflexivity|]).
      + left. unfold live. cbn. repeat split; auto; try congruence; lia.
      + right. unfold dead, s_size. cbn. lia.
  Qed.
  Lemma readTo_dead : forall s dst d, dead s -> src_readTo s dst d = Throw \/ exists a s', src_readTo s dst d = Ok (a, s') /\ src_ok s' = false.
  Proof.
    intros s dst d H. unfold src_readTo. rewrite (dead_rest s H). cbn [split_at].
    destruct (s_kind s); [destruct (Nat.ltb _ _); [now left|]|]; right.
    - eexists _, _. split; [reflexivity|]. cbn. unfold dead, s_size in *. apply Nat.leb_gt. lia.
    - destruct (strm_good s); eexists _, _; (split; [reflexivity|]); reflexivity.
  Qed.
  Lemma ignore_live : forall s n, live s -> (live (src_ignore s n) /\ s_pos (src_ignore s n) = (s_pos s + n)%nat) \/ dead (src_ignore s n).
  Proof.
    intros s n H. assert (L := live_rest s H). destruct H as (Hk & D & G & E & P). unfold src_ignore, strm_good, s_size. rewrite Hk, D, G, E.
    destruct k eqn:Ek; cbn [andb negb].
    - destruct (Nat.leb_spec (s_pos s + n) (length text)).
      + left. unfold live. cbn. repeat split; auto; congruence.
      + right. unfold dead, s_size. cbn. lia.
    - destruct (Nat.leb_spec n (length (s_rest s))).
      + left. unfold live. cbn. repeat split; auto; try congruence; lia.
      + right. unfold dead, s_size. cbn. lia.
  Qed.
  Lemma ignore_dead : forall s n, dead s -> dead (src_ignore s n).
  Proof.
    intros s n H. unfold src_ignore. destruct (s_kind s); [unfold dead, s_size in *; cbn; lia|].
    destruct (strm_good s); [|exact H]. destruct (Nat.leb _ _); unfold dead, s_size in *; cbn; lia.
  Qed.
End Source.

Definition zsum (l : list Z) : Z := fold_right Z.add 0 l.

Section Inv.
  Variables (k : skind) (text : bytes) (root : bcont).
  Hypothesis Htext : Forall (fun c => 0 <= c < 256) text.
  Definition announced : Z := signed_value (firstn 4 text).

  (** What the counters have counted is what was read, but for [d] bytes, and [e] bytes too few for a stream that was asked
      to skip a negative number of bytes. *)
  Definition core (d : Z) (m : nat) (b : bparser) : Prop := exists e q,
    live k text (b_src b) /\ Z.of_nat (s_pos (b_src b)) = zsum (b_size b) - zsum (b_left b) + e + d + q * 2 ^ 64 /\
    0 <= e <= 2 ^ 31 * Z.of_nat m /\ (k = StrIn -> e = 0) /\ (k = Strm -> (m <= s_pos (b_src b))%nat) /\
    length (b_size b) = length (b_left b) /\ (b_left b <> [] -> last (b_size b) 0 = u64 announced /\ (4 <= length text)%nat).
  Definition good (d : Z) (b : bparser) : Prop := dead (b_src b) \/ exists m, core d m b.
  (** Only the source, the counters and the last element differ. *)
  Definition same (b b' : bparser) : Prop := b_stack b' = b_stack b /\ b_next b' = b_next b /\ b_skip b' = b_skip b.
  Lemma same_refl : forall b, same b b.
  Proof. intro b. repeat split. Qed.
  Lemma same_trans : forall a b c, same a b -> same b c -> same a c.
  Proof. intros a b c (A & B & C) (D & E & F). repeat split; congruence. Qed.

  Lemma use_same : forall n b b', b_use n b = Ok b' -> same b b' /\ b_src b' = b_src b /\ b_size b' = b_size b /\ b_type b' = b_type b /\
    exists l r, b_left b = l :: r /\ b_left b' = u64 (l - n) :: r.
  Proof.
    intros n b b' E. unfold b_use in E. destruct (b_left b) as [|l r] eqn:L; [discriminate E|]. injection E as <-.
    repeat split. exists l, r. auto.
  Qed.
  Lemma use_core : forall n d m b b', core d m b -> b_use n b = Ok b' -> core (d - n) m b'.
  Proof.
    intros n d m b b' (e & q & A & B & C & D & M & L & La) E. apply use_same in E as (_ & S & Z & _ & l & r & L1 & L2).
    exists e, (q - (l - n) / 2 ^ 64). rewrite S, Z, L2. rewrite L1 in *. split; [exact A|]. split; [|split; [exact C|split; [exact D|split; [exact M|split; [exact L|]]]]].
    - rewrite B. cbn [zsum fold_right]. unfold u64. rewrite (Z.mod_eq (l - n) (2 ^ 64)) by lia. fold (zsum r). lia.
    - intros _. apply La. discriminate.
  Qed.
  Lemma use_good : forall n d b b', good d b -> b_use n b = Ok b' -> good (d - n) b'.
  Proof.
    intros n d b b' [H|(m & H)] E; [left|right; exists m; now apply (use_core n d m b)].
    apply use_same in E as (_ & -> & _). exact H.
  Qed.

  Lemma core_move : forall d m b s' n, core d m b -> live k text s' -> s_pos s' = (s_pos (b_src b) + n)%nat -> core (d + Z.of_nat n) m (bset_src b s').
  Proof.
    intros d m b s' n (e & q & A & B & C & D & M & L & La) V P. exists e, q. cbn [bset_src b_src b_size b_left]. rewrite P.
    split; [exact V|]. split; [lia|]. split; [exact C|]. split; [exact D|]. split; [intro K; specialize (M K); lia|auto].
  Qed.
  Lemma core_live : forall d m b, core d m b -> live k text (b_src b).
  Proof. intros d m b (e & q & V & _). exact V. Qed.
  Lemma read_good : forall n d b got b', good d b -> b_read n b = Ok (got, b') -> good (d + Z.of_nat n) b' /\ same b b' /\
    b_left b' = b_left b /\ b_size b' = b_size b /\ b_type b' = b_type b /\
    (length got = n -> n <> 0%nat -> exists m, core d m b /\ core (d + Z.of_nat n) m b' /\ got = firstn n (skipn (s_pos (b_src b)) text)).
  Proof.
    intros n d b got b' H E. unfold b_read in E. destruct (src_read (b_src b) n) as [[g s']| | |] eqn:R; try discriminate E. cbn [bind] in E. injection E as <- <-.
    assert (Dd : dead (b_src b) -> g = [] /\ dead s').
    { intro Dd. destruct (read_dead (b_src b) n Dd) as [Q|(s1 & Q & D1)]; rewrite Q in R; [discriminate R|]. injection R as <- <-. auto. }
    assert (C : forall m, core d m b -> (length g = n /\ core (d + Z.of_nat n) m (bset_src b s') /\ g = firstn n (skipn (s_pos (b_src b)) text)) \/ ((length g < n)%nat /\ dead s')).
    { intros m Hc. assert (V := core_live _ _ _ Hc).
      destruct (read_live k text (b_src b) n V) as (g1 & s1 & Q & J). rewrite Q in R. injection R as -> ->.
      destruct J as [(V' & P & G & Lg)|J]; [left|right; exact J]. split; [exact Lg|]. split; [now apply core_move|exact G]. }
    split; [|split; [repeat split|split; [reflexivity|split; [reflexivity|split; [reflexivity|]]]]].
    - destruct H as [H|(m & H)]; [left; apply Dd; exact H|]. destruct (C m H) as [(_ & Q & _)|(_ & Q)]; [right; exists m; exact Q|left; exact Q].
    - intros Lg Hn. destruct H as [H|(m & Hc)]; [destruct (Dd H) as [-> _]; cbn in Lg; lia|]. exists m.
      destruct (C m Hc) as [(_ & Q & G)|(Q & _)]; [auto|lia].
  Qed.
  Lemma Forall_firstn : forall {A} (P : A -> Prop) n l, Forall P l -> Forall P (firstn n l).
  Proof. intros A P n l H. revert n. induction H; intros [|n]; cbn; constructor; auto. Qed.
  Lemma Forall_skipn : forall {A} (P : A -> Prop) n l, Forall P l -> Forall P (skipn n l).
  Proof. intros A P n l H. revert n. induction H; intros [|n]; cbn; auto. Qed.
  Lemma readLE_good : forall n d b z b', good d b -> n <> 0%nat -> b_readLE n b = Ok (z, b') -> same b b' /\ b_left b' = b_left b /\
    b_size b' = b_size b /\ b_type b' = b_type b /\
    exists m, core d m b /\ core (d + Z.of_nat n) m b' /\ z = signed_value (firstn n (skipn (s_pos (b_src b)) text)) /\ - 2 ^ (8 * Z.of_nat n - 1) <= z /\ (n <= length text)%nat.
  Proof.
    intros n d b z b' H Hn E. unfold b_readLE in E. destruct (b_read n b) as [[got b1]| | |] eqn:R; try discriminate E. cbn [bind] in E.
    destruct (Nat.eqb_spec (length got) n) as [Lg|]; [|discriminate E]. injection E as <- <-.
    destruct (read_good n d b got b1 H R) as (_ & S & L & Z & T & C). destruct (C Lg Hn) as (m & C1 & C2 & G).
    split; [exact S|]. split; [exact L|]. split; [exact Z|]. split; [exact T|]. exists m. split; [exact C1|]. split; [exact C2|]. split; [now rewrite G|].
    split; [|rewrite <- Lg, G, firstn_length, skipn_length; lia].
    assert (F : Forall (fun c => 0 <= c < 256) got) by (rewrite G; now apply Forall_firstn, Forall_skipn).
    assert (V := le_value_range got F). unfold signed_value. rewrite Lg in *.
    replace (2 ^ (8 * Z.of_nat n)) with (2 * 2 ^ (8 * Z.of_nat n - 1)) in *.
    - assert (0 < 2 ^ (8 * Z.of_nat n - 1)) by (apply Z.pow_pos_nonneg; lia). match goal with |- context [if ?c then _ else _] => destruct c eqn:Ec end; lia.
    - rewrite <- Z.pow_succ_r by lia. f_equal. lia.
  Qed.

  (** The operations. *)
  Lemma readEnd_good : forall b b', good 0 b -> readEndOfContainer b = Ok b' -> same b b' /\ b_size b' = b_size b /\ (exists m, core 0 m b') /\
    exists l r, b_left b = l :: r /\ b_left b' = u64 (l - 1) :: r.
  Proof.
    intros b b' H E. unfold readEndOfContainer in E. destruct (b_read 1 b) as [[got b1]| | |] eqn:R; try discriminate E. cbn [bind] in E.
    destruct (src_ok (b_src b1)); [|discriminate E]. destruct (b_use 1 b1) as [b2| | |] eqn:U; try discriminate E. cbn [bind] in E.
    destruct got as [|c [|? ?]]; try discriminate E. destruct (c =? 0); [|discriminate E]. injection E as <-.
    destruct (read_good 1 0 b [c] b1 H R) as (_ & S & L & Z & T & C). destruct (C eq_refl ltac:(discriminate)) as (m & _ & C2 & _).
    assert (C3 := use_core _ _ _ _ _ C2 U). destruct (use_same _ _ _ U) as (S2 & _ & Z2 & _ & l & r & L1 & L2).
    split; [exact (same_trans _ _ _ S S2)|]. split; [congruence|]. split; [exists m; exact C3|]. exists l, r. split; congruence.
  Qed.
  Lemma readKey_good : forall b b', good 0 b -> readKey b = Ok b' -> same b b' /\ good 0 b' /\ length (b_left b') = length (b_left b).
  Proof.
    intros b b' H E. unfold readKey in E. destruct (b_read 1 b) as [[got b1]| | |] eqn:R; try discriminate E. cbn [bind] in E.
    destruct (src_ok (b_src b1)) eqn:O1; [|discriminate E]. destruct (read_good 1 0 b got b1 H R) as (G & S & L & Z & T & C).
    destruct (src_readTo (b_src b1) (b_key b1) 0) as [[key s1]| | |] eqn:Rt; try discriminate E. cbn [bind] in E.
    destruct (src_ok s1) eqn:O2; [|discriminate E]. set (ty := match got with [c] => c | _ => b_type b1 end) in *.
    destruct (use_same _ _ _ E) as (S2 & Sr & Z2 & _ & l & r & L1 & L2). cbn in L1.
    split; [apply (same_trans _ _ _ S); apply (same_trans _ (bset_elem (bset_src b1 s1) key ty)); [repeat split|exact S2]|]. split; [|rewrite L2, <- L, L1; reflexivity].
    destruct G as [G|(m & G)].
    - destruct (readTo_dead (b_src b1) (b_key b1) 0 G) as [Q|(a & s2 & Q & O)]; rewrite Q in Rt; [discriminate Rt|]. injection Rt as <- <-. congruence.
    - destruct (readTo_live k text (b_src b1) (b_key b1) 0 (core_live _ _ _ G)) as (a & s2 & Q & J). rewrite Q in Rt. injection Rt as <- <-.
      destruct J as [(V & P)|J]; [|left; rewrite Sr; exact J]. right. exists m.
      assert (C1 := core_move _ _ _ _ (length a + 1) G V ltac:(lia)).
      assert (C2 : core (0 + Z.of_nat 1 + Z.of_nat (length a + 1)) m (bset_elem (bset_src b1 s2) a ty)) by exact C1.
      assert (C3 := use_core _ _ _ _ _ C2 E). replace 0 with (0 + Z.of_nat 1 + Z.of_nat (length a + 1) - (1 + Z.of_nat (length a) + 1)) by lia. exact C3.
  Qed.
  Lemma start_good : forall b b', good 0 b -> (forall m, core 0 m b -> b_size b = [] -> s_pos (b_src b) = 0%nat) -> startContainer b = Ok b' ->
    same b b' /\ (exists m, core 0 m b') /\ length (b_left b') = S (length (b_left b)).
  Proof.
    intros b b' H H0 E. unfold startContainer in E. destruct (b_readLE 4 b) as [[z b1]| | |] eqn:R; try discriminate E. cbn [bind] in E.
    destruct (readLE_good 4 0 b z b1 H ltac:(discriminate) R) as (S & L & Z & T & m & C0 & C1 & Ez & _ & L4).
    destruct (use_same _ _ _ E) as (S2 & Sr & Z2 & _ & l & r & L1 & L2). cbn in L1, Z2, Sr. injection L1 as <- <-.
    split; [apply (same_trans _ _ _ S); exact S2|]. split; [|rewrite L2, L; reflexivity]. exists m.
    destruct C1 as (e & q & A & B & C & D & M & Le & La).
    assert (C2 : core (0 + Z.of_nat 4) m (bset_sizes b1 (u64 z :: b_left b1) (u64 z :: b_size b1))).
    { exists e, q. cbn [bset_sizes b_src b_size b_left zsum fold_right]. fold (zsum (b_size b1)) (zsum (b_left b1)).
      split; [exact A|]. split; [lia|]. split; [exact C|]. split; [exact D|]. split; [exact M|]. split; [cbn [length]; congruence|]. intros _.
      destruct (b_size b1) as [|y ys] eqn:Eb; [|change (last (u64 z :: y :: ys) 0) with (last (y :: ys) 0); apply La; destruct (b_left b1); [discriminate Le|discriminate]].
      split; [|exact L4]. cbn [last]. f_equal. rewrite Ez. unfold announced. rewrite (H0 m C0) by congruence. reflexivity. }
    replace 0 with (0 + Z.of_nat 4 - 4) by lia. exact (use_core _ _ _ _ _ C2 E).
  Qed.
  Lemma ignore_good : forall z d b b', 0 <= z -> good d b -> b_ignore z b = Ok b' -> same b b' /\ good (d + z) b' /\ b_left b' = b_left b.
  Proof.
    intros z d b b' Hz H E. unfold b_ignore in E. destruct (Z.leb_spec 0 z); [|lia]. injection E as <-. split; [repeat split|]. split; [|reflexivity].
    destruct H as [H|(m & H)]; [left; now apply ignore_dead|].
    destruct (ignore_live k text (b_src b) (Z.to_nat z) (core_live _ _ _ H)) as [(V & P)|D]; [|left; exact D].
    right. exists m. replace z with (Z.of_nat (Z.to_nat z)) at 1 by lia. now apply core_move.
  Qed.
  Lemma ignore_fixed_good : forall z b b', 0 <= z -> good 0 b -> ignore_fixed z b = Ok b' -> same b b' /\ good 0 b' /\ length (b_left b') = length (b_left b).
  Proof.
    intros z b b' Hz H E. unfold ignore_fixed in E. destruct (b_ignore z b) as [b1| | |] eqn:I; try discriminate E. cbn [bind] in E.
    destruct (ignore_good z 0 b b1 Hz H I) as (S & G & L). destruct (use_same _ _ _ E) as (S2 & _ & _ & _ & l & r & L1 & L2).
    split; [exact (same_trans _ _ _ S S2)|]. split; [|rewrite L2, <- L, L1; reflexivity].
    replace 0 with (0 + z - z) by lia. exact (use_good _ _ _ _ G E).
  Qed.
  Lemma ignore_sized_good : forall more b b', 0 <= more -> good 0 b -> ignore_sized more b = Ok b' ->
    same b b' /\ good 0 b' /\ length (b_left b') = length (b_left b).
  Proof.
    intros more b b' Hm H E. unfold ignore_sized in E. destruct (b_readLE 4 b) as [[z b1]| | |] eqn:R; try discriminate E. cbn [bind] in E.
    destruct (readLE_good 4 0 b z b1 H ltac:(discriminate) R) as (S & L & Z & T & m & C0 & C1 & Ez & Lo & _).
    destruct (z + more + 4 <? 2 ^ 31); [|discriminate E]. destruct (b_ignore (z + more) b1) as [b2| | |] eqn:I; try discriminate E. cbn [bind] in E.
    destruct (use_same _ _ _ E) as (S2 & _ & _ & _ & l & r & L1 & L2).
    assert (G : same b1 b2 /\ good (4 + (z + more)) b2 /\ b_left b2 = b_left b1).
    { destruct (Z.leb_spec 0 (z + more)) as [P|N]; [apply (ignore_good (z + more) 4 b1 b2 P); [right; exists m; exact C1|exact I]|].
      unfold b_ignore in I. destruct (Z.leb_spec 0 (z + more)); [lia|]. destruct C1 as (e & q & A & B & C & D & M & Le & La). assert (A' := A). destruct A' as (Hk & Hd & Hg & He & Hp).
      rewrite Hk in I. destruct k eqn:Ek.
      - destruct (Z.ltb_spec (Z.of_nat (s_pos (b_src b1)) + (z + more)) 0); [discriminate I|]. injection I as <-. split; [repeat split|]. split; [|reflexivity].
        right. exists 0%nat. exists e, q. cbn [bset_src b_src b_size b_left s_pos]. split; [|split; [lia|split; [specialize (D eq_refl); lia|split; [intros _; now apply D|split; [congruence|auto]]]]].
        unfold live. cbn. unfold s_size. rewrite Hd. repeat split; auto; try congruence; [apply Nat.leb_le|]; lia.
      - injection I as <-. unfold strm_good. rewrite Hg, He. cbn [andb negb]. split; [repeat split|]. split; [|reflexivity].
        right. exists (s_pos (b_src b1)), (e - (z + more)), q. cbn [bset_src b_src b_size b_left s_pos]. split; [rewrite Ek; exact A|]. split; [lia|].
        split; [|split; [congruence|split; [lia|auto]]].
        destruct C0 as (e0 & q0 & A0 & B0 & C0 & D0 & M0 & _). specialize (M0 Ek). cbn in Lo.
        assert (P4 : (s_pos (b_src b1) >= m + 4)%nat).
        { unfold b_readLE, b_read in R. destruct (src_read (b_src b) 4) as [[got s']| | |] eqn:Rs; try discriminate R. cbn [bind] in R.
          destruct (Nat.eqb_spec (length got) 4); [|discriminate R]. injection R as _ <-. cbn [bset_src b_src].
          destruct (read_live k text (b_src b) 4 A0) as (g1 & s1 & Q & [(V' & P & G & Lg)|(J & _)]); rewrite Q in Rs; injection Rs as -> ->; lia. }
        lia. }
    destruct G as (S3 & G & L3).
    split; [exact (same_trans _ _ _ S (same_trans _ _ _ S3 S2))|]. split; [|rewrite L2, <- L, <- L3, L1; reflexivity].
    replace 0 with (4 + (z + more) - (z + more + 4)) by lia. exact (use_good _ _ _ _ G E).
  Qed.

  Lemma int_good : forall i b z b', good 0 b -> bson_int i b = Ok (z, b') -> same b b' /\ good 0 b' /\ length (b_left b') = length (b_left b).
  Proof.
    intros i b z b' H E.
    assert (K : forall n, n <> 0%nat -> (do b1 <- b_use (Z.of_nat n) b; do (y, b2) <- b_readLE n b1; Ok (i_wrap i y, b2)) = Ok (z, b') ->
      same b b' /\ good 0 b' /\ length (b_left b') = length (b_left b)).
    { intros n Hn E'. destruct (b_use (Z.of_nat n) b) as [b1| | |] eqn:U; try discriminate E'. cbn [bind] in E'.
      destruct (b_readLE n b1) as [[y b2]| | |] eqn:R; try discriminate E'. cbn [bind] in E'. injection E' as _ <-.
      assert (G := use_good _ _ _ _ H U). destruct (use_same _ _ _ U) as (S & _ & _ & _ & l & r & L1 & L2).
      destruct (readLE_good n _ b1 y b2 G Hn R) as (S2 & L & _ & _ & m & _ & C & _). split; [exact (same_trans _ _ _ S S2)|].
      split; [right; exists m; replace 0 with (0 - Z.of_nat n + Z.of_nat n) by lia; exact C|]. rewrite L, L2, L1. reflexivity. }
    unfold bson_int in E. destruct (b_type b =? 16); [apply (K 4%nat); [discriminate|exact E]|].
    destruct (b_type b =? 18); [apply (K 8%nat); [discriminate|exact E]|discriminate E].
  Qed.
  Lemma bool_good : forall b z b', good 0 b -> bson_bool b = Ok (z, b') -> same b b' /\ good 0 b' /\ length (b_left b') = length (b_left b).
  Proof.
    intros b z b' H E. unfold bson_bool in E. destruct (b_type b =? 8); [|discriminate E].
    destruct (b_read 1 b) as [[got b1]| | |] eqn:R; try discriminate E. cbn [bind] in E. destruct (src_ok (b_src b1)); [|discriminate E].
    destruct (b_use 1 b1) as [b2| | |] eqn:U; try discriminate E. cbn [bind] in E.
    assert (Q : b2 = b') by (destruct got as [|c [|? ?]]; try discriminate E; destruct (c =? 0); [|destruct (c =? 1); [|discriminate E]]; congruence).
    subst b2. clear E. destruct (read_good _ _ _ _ _ H R) as (G & S & L & _). destruct (use_same _ _ _ U) as (S2 & _ & _ & _ & l & r & L1 & L2).
    split; [exact (same_trans _ _ _ S S2)|]. split; [exact (use_good _ _ _ _ G U)|]. rewrite L2, <- L, L1. reflexivity.
  Qed.
  Lemma str_good : forall b z b', good 0 b -> bson_str b = Ok (z, b') -> same b b' /\ good 0 b' /\ length (b_left b') = length (b_left b).
  Proof.
    intros b z b' H E. unfold bson_str in E. destruct (b_type b =? 2); [|discriminate E].
    destruct (b_readLE 4 b) as [[n b1]| | |] eqn:R; try discriminate E. cbn [bind] in E.
    destruct (readLE_good 4 0 b n b1 H ltac:(discriminate) R) as (S & L & _ & _ & m & _ & C & _).
    destruct (b_use 4 b1) as [b2| | |] eqn:U; try discriminate E. cbn [bind] in E.
    assert (C2 := use_core _ _ _ _ _ C U). destruct (use_same _ _ _ U) as (S2 & _ & _ & _ & l & r & L1 & L2).
    destruct (Z.leb_spec n 0); [discriminate E|].
    destruct (b_read (Z.to_nat n) b2) as [[got b3]| | |] eqn:R2; try discriminate E. cbn [bind] in E. destruct (src_ok (b_src b3)); [|discriminate E].
    destruct (b_use n b3) as [b4| | |] eqn:U2; try discriminate E. cbn [bind] in E. injection E as _ <-.
    assert (G2 : good (0 + Z.of_nat 4 - 4) b2) by (right; exists m; exact C2).
    destruct (read_good _ _ _ _ _ G2 R2) as (G & S3 & L3 & _). destruct (use_same _ _ _ U2) as (S4 & _ & _ & _ & l' & r' & L1' & L2').
    split; [exact (same_trans _ _ _ S (same_trans _ _ _ S2 (same_trans _ _ _ S3 S4)))|].
    split; [replace 0 with (0 + Z.of_nat 4 - 4 + Z.of_nat (Z.to_nat n) - n) by lia; exact (use_good _ _ _ _ G U2)|].
    rewrite L2', <- L, L1. rewrite L1' in L3. rewrite L2 in L3. injection L3 as _ ->. reflexivity.
  Qed.
  Lemma skip_good : forall b b', good 0 b -> b_left b <> [] -> bson_ignore b = Ok b' -> same b b' /\ good 0 b' /\ length (b_left b') = length (b_left b).
  Proof.
    intros b b' H Hl E. unfold bson_ignore in E. destruct (b_skip b); cbn [negb] in E; [|injection E as <-; repeat split; exact H].
    assert (F := fun z P => ignore_fixed_good z b b' P H). assert (G := fun z P => ignore_sized_good z b b' P H).
    repeat match type of E with
    | match ?t with _ => _ end = _ => destruct t; try discriminate E
    end; try (eapply F; [|exact E]; lia); try (eapply G; [|exact E]; lia); injection E as <-; repeat split; exact H.
  Qed.

  (** ** The states of the parser. *)
  Definition value_root : bool := match root with BValue => true | _ => false end.
  Definition base : list bcont := match root with BValue => [BValue; BValue] | _ => [] end.
  Definition opening (t : token) : nat := match t with TokMapStart | TokArrayStart => 1 | _ => 0 end.

  (** Before the first container is opened. *)
  Definition fresh (b : bparser) : Prop :=
    good 0 b /\ (forall m, core 0 m b -> s_pos (b_src b) = 0%nat) /\ b_left b = [] /\ b_size b = [] /\ b_skip b = false /\ b_stack b = [root] /\
    (b_next b = TokDocStart \/ (root <> BValue /\ opening (b_next b) = 1%nat)).
  (** Within the document; [st]: the containers that are open within it. *)
  Definition shape (b : bparser) : Prop := exists st,
    b_stack b = st ++ base /\ ~ In BValue st /\ (length st + (if value_root then 1 else 0) = length (b_left b) + opening (b_next b))%nat /\
    (b_skip b = true -> b_next b = TokValue) /\
    match b_next b with
    | TokMapEnd | TokArrayEnd => hd 0 (b_left b) = 1 /\ st <> []
    | TokDocEnd => hd 0 (b_left b) = 1 /\ st = [] /\ value_root = true
    | TokMapStart | TokArrayStart => st <> []
    | TokDocStart | TokError => False
    | _ => True
    end.
  Definition inside (b : bparser) : Prop := good 0 b /\ b_left b <> [] /\ shape b.
  (** The bytes of the whole document have been read. *)
  Definition whole (n : nat) : Prop := (4 <= length text /\ n <= length text)%nat /\
    exists e q, 0 <= e <= 2 ^ 31 * Z.of_nat n /\ (k = StrIn -> e = 0) /\ Z.of_nat n = announced + e + q * 2 ^ 64.
  Definition finished (b : bparser) : Prop :=
    live k text (b_src b) /\ whole (s_pos (b_src b)) /\ b_skip b = false /\
    (b_next b = TokError \/ (b_next b = TokDocEnd /\ b_stack b = [])).
  Definition inv (b : bparser) : Prop := fresh b \/ inside b \/ finished b.

  (** All counters are used up. *)
  Lemma core_whole : forall m b z, core 0 m b -> b_left b = [0] -> b_size b = [z] -> whole (s_pos (b_src b)).
  Proof.
    intros m b z (e & q & A & B & C & D & M & L & La) E1 E2. rewrite E1, E2 in *. destruct (La ltac:(discriminate)) as [La' L4]. cbn in La'. subst z.
    split; [split; [exact L4|apply A]|]. cbn [zsum fold_right] in B. unfold u64 in B. exists e, (q - announced / 2 ^ 64). split; [|split; [exact D|]].
    - destruct k eqn:Ek; [rewrite (D eq_refl); lia|specialize (M eq_refl); lia].
    - rewrite (Z.mod_eq announced (2 ^ 64)) in B by lia. lia.
  Qed.

  (** The end of a container is due, or an element comes. *)
  Lemma is_end : forall b e b', good 0 b -> b_left b <> [] -> b_skip b = false ->
    (exists st, b_stack b = st ++ base /\ ~ In BValue st /\ (length st + (if value_root then 1 else 0) = length (b_left b))%nat) ->
    isEndOfContainer b = Ok (e, b') -> if e then inside b' /\ b_skip b' = false else b' = b.
  Proof.
    intros b e b' G Hl Hs (st & E1 & E2 & E3) E. unfold isEndOfContainer in E. destruct (b_left b) as [|l r] eqn:L; [congruence|].
    destruct (Z.eqb_spec l 1) as [->|]; [|now injection E as <- <-].
    assert (K : forall t, match t with TokMapEnd | TokArrayEnd => st <> [] | TokDocEnd => st = [] /\ value_root = true | _ => False end ->
      inside (bset_next b t) /\ b_skip (bset_next b t) = false).
    { intros t Ht. split; [|exact Hs]. split; [exact G|]. split; [cbn; rewrite L; discriminate|]. exists st. cbn [bset_next b_stack b_left b_next b_skip]. rewrite Hs, L.
      split; [exact E1|]. split; [exact E2|]. split; [destruct t; try contradiction; cbn [opening]; lia|]. split; [discriminate|].
      destruct t; try contradiction; cbn [hd]; auto. }
    assert (B : forall c st', b_stack b = c :: st' -> match c with BValue => st = [] /\ value_root = true | _ => st <> [] end).
    { intros c st' Ec. rewrite Ec in E1. destruct st as [|x st]; cbn [app] in E1.
      - unfold base, value_root in *. destruct root; try discriminate E1. injection E1 as -> _. auto.
      - injection E1 as -> _. destruct x; try discriminate. destruct E2. now left. }
    destruct (b_stack b) as [|c st'] eqn:Est; [discriminate E|]. specialize (B c st' eq_refl).
    destruct c; injection E as <- <-; apply K; exact B.
  Qed.

  (** A container is opened. *)
  Lemma open_steps : forall b t b' n, good 0 b -> (forall m, core 0 m b -> b_size b = [] -> s_pos (b_src b) = 0%nat) -> b_skip b = false ->
    (exists st, b_stack b = st ++ base /\ ~ In BValue st /\ (length st + (if value_root then 1 else 0) = S (length (b_left b)))%nat /\ st <> []) ->
    n <> TokValue -> n <> TokDocEnd ->
    (do b0 <- startContainer b;
     match b_left b0 with
     | [] => UB
     | l :: _ =>
         if l =? 1 then
           match b_stack b0 with
           | [] => UB
           | BMap :: _ => Ok (n, bset_next b0 TokMapEnd)
           | _ => Ok (n, bset_next b0 TokArrayEnd)
           end
         else Ok (n, bset_next b0 TokKey)
     end) = Ok (t, b') -> inside b' /\ t = n.
  Proof.
    intros b t b' n G P Sk (st & E1 & E2 & E3 & E4) _ _ E. destruct (startContainer b) as [b1| | |] eqn:Sc; try discriminate E. cbn [bind] in E.
    destruct (start_good b b1 G P Sc) as ((S1 & S2 & S3) & (m & C) & Ln).
    assert (K : forall t', match t' with TokMapEnd | TokArrayEnd => hd 0 (b_left b1) = 1 | TokKey => True | _ => False end -> inside (bset_next b1 t')).
    { intros t' Ht. split; [right; exists m; exact C|]. split; [cbn; destruct (b_left b1); [discriminate Ln|discriminate]|].
      exists st. cbn [bset_next b_stack b_left b_next b_skip]. rewrite S1, S3, Ln. split; [exact E1|]. split; [exact E2|]. split; [destruct t'; try contradiction; cbn [opening]; lia|].
      split; [congruence|]. destruct t'; try contradiction; auto. }
    destruct (b_left b1) as [|l r]; [discriminate E|]. destruct (Z.eqb_spec l 1) as [->|].
    - destruct (b_stack b1) as [|[] ?]; try discriminate E; injection E as <- <-; (split; [apply K; reflexivity|reflexivity]).
    - injection E as <- <-. split; [now apply K|reflexivity].
  Qed.

  (** A container is closed. *)
  Lemma close_steps : forall b t b' n, good 0 b -> b_skip b = false ->
    (exists st, b_stack b = st ++ base /\ ~ In BValue st /\ (length st + (if value_root then 1 else 0) = length (b_left b))%nat /\ hd 0 (b_left b) = 1 /\ st <> []) ->
    n <> TokValue -> n <> TokDocEnd ->
    (do b0 <- readEndOfContainer b;
     match b_stack b0, b_left b0, b_size b0 with
     | _ :: st, _ :: lf, z :: sz =>
         match st with
         | [] => Ok (n, bset_next (bset_sizes (bset_stack b0 st) lf sz) TokDocEnd)
         | _ =>
             do b1 <- b_use z (bset_sizes (bset_stack b0 st) lf sz);
             do (e, b2) <- isEndOfContainer b1;
             Ok (n, if e then b2 else bset_next b2 TokKey)
         end
     | _, _, _ => UB
     end) = Ok (t, b') -> inv b' /\ (t = TokValue -> b_next b' = TokValue /\ inside b') /\ (t = TokDocEnd -> finished b').
  Proof.
    intros b t b' n G Sk (st & E1 & E2 & E3 & H1 & Hst) N1 N2 E. destruct (readEndOfContainer b) as [b1| | |] eqn:R; try discriminate E. cbn [bind] in E.
    destruct (readEnd_good b b1 G R) as ((S1 & S2 & S3) & Z & (m & C) & l & r & L1 & L2). rewrite L1 in H1, E3. cbn in H1, E3. subst l. change (u64 (1 - 1)) with 0 in L2.
    rewrite S1, E1, L2 in E. destruct st as [|c st]; [congruence|]. cbn [app] in E. cbn [length] in E3.
    assert (Nv : ~ In BValue st) by (intro Q; apply E2; now right).
    destruct (b_size b1) as [|z sz] eqn:Ez; [discriminate E|].
    assert (Goal' : t = n /\ inv b').
    { destruct (st ++ base) as [|c' st'] eqn:Eq.
      - injection E as <- <-. split; [reflexivity|]. apply app_eq_nil in Eq as [-> Eb]. right. right. unfold base, value_root in *.
        assert (R0 : r = []) by (destruct root; try discriminate Eb; cbn in E3; destruct r; [reflexivity|discriminate E3| reflexivity|discriminate E3]). subst r.
        assert (Z0 : sz = []). { destruct C as (e & q & _ & _ & _ & _ & _ & Q & _). rewrite Ez, L2 in Q. destruct sz; [reflexivity|discriminate Q]. } subst sz.
        split; [exact (core_live _ _ _ C)|]. split; [exact (core_whole m b1 z C L2 Ez)|]. cbn. rewrite S3, Sk. auto.
      - destruct (b_use z _) as [b2| | |] eqn:U; try discriminate E. cbn [bind] in E.
        destruct (isEndOfContainer b2) as [[e b3]| | |] eqn:I; try discriminate E. cbn [bind] in E. injection E as <- <-. split; [reflexivity|].
        destruct (use_same _ _ _ U) as ((T1 & T2 & T3) & Sr & Z2 & _ & l & r' & M1 & M2). cbn in T1, T2, T3, Sr, Z2, M1.
        assert (C2 : core z m (bset_sizes (bset_stack b1 (c' :: st')) r sz)).
        { destruct C as (e0 & q & A & B & C & D & M & Le & La). exists e0, q. cbn [bset_sizes bset_stack b_src b_size b_left]. rewrite Ez, L2 in *. cbn [zsum fold_right] in B.
          fold (zsum sz) in B. fold (zsum r) in B. split; [exact A|]. split; [lia|]. split; [exact C|]. split; [exact D|]. split; [exact M|]. cbn [length] in Le. split; [lia|].
          intros Hr. destruct sz; [destruct r; [congruence|discriminate Le]|]. exact (La ltac:(discriminate)). }
        assert (C3 := use_core _ _ _ _ _ C2 U). rewrite Z.sub_diag in C3.
        assert (Hl2 : b_left b2 <> []) by (rewrite M2; discriminate).
        assert (Sh : exists st0, b_stack b2 = st0 ++ base /\ ~ In BValue st0 /\ (length st0 + (if value_root then 1 else 0) = length (b_left b2))%nat).
        { exists st. split; [congruence|]. split; [exact Nv|]. rewrite M2. rewrite M1 in E3. cbn [length] in *. lia. }
        assert (J := is_end b2 e b3 ltac:(right; exists m; exact C3) Hl2 ltac:(congruence) Sh I).
        right. left. destruct e; [apply J|]. subst b3. split; [right; exists m; exact C3|]. split; [exact Hl2|]. destruct Sh as (st0 & A1 & A2 & A3). exists st0.
        cbn [bset_next b_stack b_left b_next b_skip opening]. repeat split; auto; lia. }
    destruct Goal' as [-> F]. split; [exact F|]. split; [intros ->; congruence|intros ->; congruence].
  Qed.

  Definition steps (f : bparser -> outcome (token * bparser)) : Prop := forall b t b', inv b -> f b = Ok (t, b') ->
    inv b' /\ (t = TokValue -> b_next b' = TokValue /\ inside b') /\ (t = TokDocEnd -> finished b').

  Lemma next_steps : forall again, steps again -> steps (next_with again).
  Proof.
    intros again Ha b t b' Hb E. unfold next_with in E.
    assert (K : forall b, inv b -> b_skip b = false ->
      (match b_next b with
       | TokDocStart =>
           match b_stack b with
           | [] => UB
           | BMap :: _ => Ok (b_next b, bset_next b TokMapStart)
           | BArray :: _ => Ok (b_next b, bset_next b TokArrayStart)
           | BValue :: _ => do b0 <- startContainer (bset_stack (bset_next b TokKey) (BValue :: b_stack b)); Ok (b_next b, b0)
           end
       | TokDocEnd => do b0 <- match b_stack b with BValue :: _ => readEndOfContainer b | _ => Ok b end; Ok (b_next b, bset_next b0 TokError)
       | TokMapStart | TokArrayStart =>
           do b0 <- startContainer b;
           match b_left b0 with
           | [] => UB
           | l :: _ =>
               if l =? 1 then
                 match b_stack b0 with
                 | [] => UB
                 | BMap :: _ => Ok (b_next b, bset_next b0 TokMapEnd)
                 | _ => Ok (b_next b, bset_next b0 TokArrayEnd)
                 end
               else Ok (b_next b, bset_next b0 TokKey)
           end
       | TokMapEnd | TokArrayEnd =>
           do b0 <- readEndOfContainer b;
           match b_stack b0, b_left b0, b_size b0 with
           | _ :: st, _ :: lf, z :: sz =>
               match st with
               | [] => Ok (b_next b, bset_next (bset_sizes (bset_stack b0 st) lf sz) TokDocEnd)
               | _ =>
                   do b1 <- b_use z (bset_sizes (bset_stack b0 st) lf sz);
                   do (e, b2) <- isEndOfContainer b1;
                   Ok (b_next b, if e then b2 else bset_next b2 TokKey)
               end
           | _, _, _ => UB
           end
       | TokKey =>
           do b0 <- readKey b;
           match b_stack b0 with
           | [] => UB
           | c :: _ =>
               match c with
               | BMap => Ok (b_next b, if b_type b0 =? 3 then bset_next (bset_stack b0 (BMap :: b_stack b0)) TokMapStart
                  else if b_type b0 =? 4 then bset_next (bset_stack b0 (BArray :: b_stack b0)) TokArrayStart else bset_next b0 TokValue)
               | _ => again (if b_type b0 =? 3 then bset_next (bset_stack b0 (BMap :: b_stack b0)) TokMapStart
                  else if b_type b0 =? 4 then bset_next (bset_stack b0 (BArray :: b_stack b0)) TokArrayStart else bset_next b0 TokValue)
               end
           end
       | TokValue => Ok (b_next b, bset_skip b true)
       | TokError => Throw
       end) = Ok (t, b') -> inv b' /\ (t = TokValue -> b_next b' = TokValue /\ inside b') /\ (t = TokDocEnd -> finished b')).
    2:{ destruct (b_skip b) eqn:Sk; cbn [bind] in E.
      - destruct (isEndOfContainer (bset_skip b false)) as [[e b1]| | |] eqn:I; try discriminate E. cbn [bind] in E.
        assert (Hi : inside b).
        { destruct Hb as [(_ & _ & _ & _ & Q & _)|[Hb|(_ & _ & Q & _)]]; [congruence|exact Hb|congruence]. }
        destruct Hi as (G & Hl & st & E1 & E2 & E3 & E4 & E5). rewrite (E4 Sk) in E3. cbn [opening] in E3.
        assert (J := is_end (bset_skip b false) e b1 G Hl eq_refl ltac:(exists st; repeat split; auto; cbn; lia) I).
        destruct e.
        + destruct J as [J1 J2]. apply (K b1); [right; left; exact J1|exact J2|exact E].
        + subst b1. revert E. apply K; [|reflexivity]. right. left. split; [exact G|]. split; [exact Hl|]. exists st.
          cbn [bset_skip bset_elem bset_next b_stack b_left b_next b_skip opening]. repeat split; auto; try discriminate.
      - apply (K b); [exact Hb|exact Sk|exact E]. }
    clear b Hb E. intros b Hb Sk E.
    destruct Hb as [(G & P0 & L0 & Z0 & _ & St & Hn)|[(G & Hl & st & E1 & E2 & E3 & _ & E5)|(V & W & _ & Hn)]].
    - (* fresh *)
      destruct Hn as [Hn|[Hr Hn]].
      + rewrite Hn, St in E. 
        assert (F : forall t', opening t' = 1%nat -> root <> BValue -> inv (bset_next b t')).
        { intros t' Ht Hr. left. split; [exact G|]. split; [exact P0|]. repeat split; auto. }
        destruct root eqn:Er.
        * injection E as <- <-. split; [apply F; [reflexivity|congruence]|split; discriminate].
        * injection E as <- <-. split; [apply F; [reflexivity|congruence]|split; discriminate].
        * destruct (startContainer _) as [b1| | |] eqn:Sc; try discriminate E. cbn [bind] in E. injection E as <- <-.
          destruct (start_good (bset_stack (bset_next b TokKey) [BValue; BValue]) b1 G ltac:(intros m C _; exact (P0 m C)) Sc) as (S & (m & C) & Ln). destruct S as (S1 & S2 & S3). cbn in S1, S2, S3, Ln.
          split; [|split; discriminate]. right. left. split; [right; exists m; exact C|]. split; [destruct (b_left b1); [discriminate Ln|discriminate]|].
          exists []. unfold base, value_root. rewrite Er, S1, S2, S3, Ln, L0. cbn. repeat split; auto. congruence.
      + assert (St' : exists st, b_stack b = st ++ base /\ ~ In BValue st /\ (length st + (if value_root then 1 else 0) = S (length (b_left b)))%nat /\ st <> []).
        { exists [root]. rewrite St, L0. unfold base, value_root. destruct root; try congruence; cbn; repeat split; try discriminate; intros [Q|[]]; discriminate Q. }
        assert (O := open_steps b t b' (b_next b) G ltac:(intros m C _; exact (P0 m C)) Sk St'). destruct (b_next b); try discriminate Hn; (split; [right; left; apply O; [discriminate| |exact E]; discriminate|]); (destruct (O ltac:(discriminate) ltac:(discriminate) E) as [_ ->]; split; discriminate).
    - (* inside *)
      destruct (b_next b) eqn:Eb; try contradiction.
      + (* DocEnd *)
        destruct E5 as (H1 & -> & Hv). unfold base in E1. unfold value_root in *. destruct root; try discriminate Hv. rewrite E1 in E. cbn [app] in E.
        destruct (readEndOfContainer b) as [b1| | |] eqn:R; try discriminate E. cbn [bind] in E. injection E as <- <-.
        destruct (readEnd_good b b1 G R) as ((S1 & S2 & S3) & Z & (m & C) & l & r & L1 & L2). rewrite L1 in H1, E3. cbn in H1, E3. subst l.
        destruct r; [|discriminate E3]. change (u64 (1 - 1)) with 0 in L2.
        assert (F : finished (bset_next b1 TokError)).
        { split; [exact (core_live _ _ _ C)|]. split; [|cbn; split; [congruence|auto]]. cbn.
          assert (Lz : length (b_size b1) = 1%nat) by (destruct C as (e & q & _ & _ & _ & _ & _ & Q & _); rewrite Q, L2; reflexivity).
          destruct (b_size b1) as [|z [|? ?]] eqn:Ez; try discriminate Lz. exact (core_whole m b1 z C L2 Ez). }
        split; [right; right; exact F|]. split; [discriminate|auto].
      + (* MapStart *)
        destruct (open_steps b t b' TokMapStart G) as [F ->]; [|exact Sk| |discriminate|discriminate|exact E|split; [right; left; exact F|split; discriminate]].
        * intros m (e & q & _ & _ & _ & _ & _ & Q & _) Z. rewrite Z in Q. destruct (b_left b); [congruence|discriminate Q].
        * exists st. cbn [opening] in E3. repeat split; auto. lia.
      + (* MapEnd *)
        apply (close_steps b t b' TokMapEnd G Sk); [exists st; cbn [opening] in E3; destruct E5; repeat split; auto; lia|discriminate|discriminate|exact E].
      + (* ArrayStart *)
        destruct (open_steps b t b' TokArrayStart G) as [F ->]; [|exact Sk| |discriminate|discriminate|exact E|split; [right; left; exact F|split; discriminate]].
        * intros m (e & q & _ & _ & _ & _ & _ & Q & _) Z. rewrite Z in Q. destruct (b_left b); [congruence|discriminate Q].
        * exists st. cbn [opening] in E3. repeat split; auto. lia.
      + (* ArrayEnd *)
        apply (close_steps b t b' TokArrayEnd G Sk); [exists st; cbn [opening] in E3; destruct E5; repeat split; auto; lia|discriminate|discriminate|exact E].
      + (* Key *)
        destruct (readKey b) as [b1| | |] eqn:R; try discriminate E. cbn [bind] in E.
        destruct (readKey_good b b1 G R) as ((S1 & S2 & S3) & G1 & Ln). cbn [opening] in E3.
        set (b2 := if b_type b1 =? 3 then _ else _) in E.
        assert (F : inside b2).
        { assert (Hl1 : b_left b1 <> []) by (destruct (b_left b1); [destruct (b_left b); [congruence|discriminate Ln]|discriminate]).
          assert (N : forall c, c <> BValue -> ~ In BValue (c :: st)) by (intros c Hc [Q|Q]; [congruence|contradiction]).
          unfold b2. destruct (b_type b1 =? 3); [|destruct (b_type b1 =? 4)]; (split; [exact G1|]; split; [exact Hl1|]).
          - exists (BMap :: st). cbn [bset_next bset_stack b_stack b_left b_next b_skip opening length app]. rewrite S1, S3, E1, Sk, Ln. repeat split; try discriminate; [now apply N|lia].
          - exists (BArray :: st). cbn [bset_next bset_stack b_stack b_left b_next b_skip opening length app]. rewrite S1, S3, E1, Sk, Ln. repeat split; try discriminate; [now apply N|lia].
          - exists st. cbn [bset_next bset_stack b_stack b_left b_next b_skip opening length app]. rewrite S1, S3, E1, Sk, Ln. repeat split; try discriminate; auto. }
        destruct (b_stack b1) as [|[] ?]; try discriminate E.
        * injection E as <- <-. split; [right; left; exact F|split; discriminate].
        * apply (Ha b2 t b'); [right; left; exact F|exact E].
        * apply (Ha b2 t b'); [right; left; exact F|exact E].
      + (* Value *)
        injection E as <- <-.
        assert (F : inside (bset_skip b true)).
        { split; [exact G|]. split; [exact Hl|]. exists st. cbn [bset_skip b_stack b_left b_next b_skip]. rewrite Eb. repeat split; auto. }
        split; [right; left; exact F|]. split; [intros _; split; [exact Eb|exact F]|discriminate].
    - (* finished *)
      destruct Hn as [Hn|[Hn Hs]]; rewrite Hn in E; [discriminate E|]. rewrite Hs in E. cbn [bind] in E. injection E as <- <-.
      assert (F : finished (bset_next b TokError)) by (split; [exact V|]; split; [exact W|]; split; [exact Sk|now left]).
      split; [right; right; exact F|]. split; [discriminate|auto].
  Qed.

  Lemma hang_steps : steps (fun _ => Hang).
  Proof. intros b t b' _ E. discriminate E. Qed.
  Lemma bson_steps : steps bson_next.
  Proof. apply next_steps, next_steps, hang_steps. Qed.

  Lemma value_inside : forall b b', inside b -> b_next b = TokValue -> same b b' -> good 0 b' -> length (b_left b') = length (b_left b) -> inside b' /\ b_next b' = TokValue.
  Proof.
    intros b b' (G & Hl & st & E1 & E2 & E3 & E4 & E5) Hn (S1 & S2 & S3) G' L. split; [|congruence]. split; [exact G'|].
    split; [destruct (b_left b'); [destruct (b_left b); [congruence|discriminate L]|discriminate]|]. exists st. rewrite S1, S2, S3, L, Hn in *. repeat split; auto.
  Qed.
  Lemma skip_inv : forall b b', inv b -> bson_ignore b = Ok b' -> inv b'.
  Proof.
    intros b b' H E. destruct (b_skip b) eqn:Sk.
    - destruct H as [(_ & _ & _ & _ & Q & _)|[H|(_ & _ & Q & _)]]; [congruence| |congruence]. right. left.
      assert (Hn : b_next b = TokValue) by (destruct H as (_ & _ & st & _ & _ & _ & Q & _); auto).
      assert (H' := H). destruct H' as (G & Hl & _). destruct (skip_good b b' G Hl E) as (S & G' & L). now apply (value_inside b).
    - unfold bson_ignore in E. rewrite Sk in E. cbn [negb] in E. injection E as <-. exact H.
  Qed.
  Lemma ign_inv : forall f,
    (forall b b', inv b -> ign_value bson_ops f b = Ok b' -> inv b') /\
    (forall b b', inv b -> ign_map bson_ops f b = Ok b' -> inv b') /\
    (forall b b', inv b -> ign_arr bson_ops f b = Ok b' -> inv b').
  Proof.
    induction f as [|f (IV & IM & IA)]; [repeat split; intros b b' _ E; discriminate E|].
    assert (N : forall b t b1, inv b -> op_next bson_ops b = Ok (t, b1) -> inv b1) by (intros b t b1 H E; apply (bson_steps b t b1 H E)).
    assert (MM : forall x b, op_ignoreMap bson_ops x b = Ok b) by reflexivity.
    assert (AA : forall x b, op_ignoreArr bson_ops x b = Ok b) by reflexivity.
    repeat split; intros b b' H E; cbn [ign_value ign_map ign_arr] in E;
      (destruct (op_next bson_ops b) as [[t b1]| | |] eqn:E1; try discriminate E); cbn [bind] in E; assert (H1 := N _ _ _ H E1).
    - destruct t; try discriminate E; rewrite ?MM, ?AA in E; cbn [bind] in E; eauto. exact (skip_inv _ _ H1 E).
    - assert (K : (do s <- op_ignore bson_ops b1; match t with TokKey => do s0 <- ign_value bson_ops f s; ign_map bson_ops f s0 | _ => Throw end) = Ok b' -> inv b').
      { intro E'. destruct (op_ignore bson_ops b1) as [b2| | |] eqn:E2; try discriminate E'. cbn [bind] in E'. assert (H2 := skip_inv _ _ H1 E2).
        destruct t; try discriminate E'. destruct (ign_value bson_ops f b2) as [b3| | |] eqn:E3; try discriminate E'. cbn [bind] in E'. exact (IM _ _ (IV _ _ H2 E3) E'). }
      destruct t; try exact (K E). rewrite MM in E. injection E as <-. exact H1.
    - destruct t; try discriminate E; rewrite ?MM, ?AA in E; cbn [bind] in E.
      + change (bind (ign_map bson_ops f b1) (fun s => ign_arr bson_ops f s) = Ok b') in E. destruct (ign_map bson_ops f b1) as [b2| | |] eqn:E2; try discriminate E. cbn [bind] in E. exact (IA _ _ (IM _ _ H1 E2) E).
      + destruct (ign_arr bson_ops f b1) as [b2| | |] eqn:E2; try discriminate E. cbn [bind] in E. exact (IA _ _ (IA _ _ H1 E2) E).
      + injection E as <-. exact H1.
      + destruct (op_ignore bson_ops b1) as [b2| | |] eqn:E2; try discriminate E. cbn [bind] in E. exact (IA _ _ (skip_inv _ _ H1 E2) E).
  Qed.

  (** With the tokens that are pushed back. *)
  Definition Pinv (p : pst bparser) : Prop :=
    ps_pb2 p = TokError /\ inv (ps_impl p) /\ (ps_pb1 p = TokValue -> b_next (ps_impl p) = TokValue /\ inside (ps_impl p)) /\
    (ps_pb1 p = TokDocEnd -> finished (ps_impl p)).
  Definition Cinv (t : token) (p : pst bparser) : Prop :=
    ps_pb1 p = TokError /\ ps_pb2 p = TokError /\ inv (ps_impl p) /\ (t = TokValue -> b_next (ps_impl p) = TokValue /\ inside (ps_impl p)) /\
    (t = TokDocEnd -> finished (ps_impl p)).
  Definition Einv (p : pst bparser) : Prop := ps_pb1 p = TokError /\ ps_pb2 p = TokError /\ inv (ps_impl p).
  Definition eqR (P : pst bparser -> Prop) (p q : pst bparser) : Prop := p = q /\ P p.

  Ltac sp := unfold Pinv, Cinv, Einv; cbn [ps_impl ps_pb1 ps_pb2]; repeat match goal with |- _ /\ _ => split end; auto; try discriminate.
  Lemma token_inv : forall p t p', Pinv p -> getToken bson_ops p = Ok (t, p') -> Cinv t p'.
  Proof.
    intros [b t1 t2] t p' (A & B & C & D) E. cbn [ps_impl ps_pb1 ps_pb2] in *. subst t2. unfold getToken in E. cbn [ps_impl ps_pb1 ps_pb2 token_eqb negb] in E.
    destruct (token_eqb t1 TokError) eqn:Et; cbn [negb] in E.
    - assert (t1 = TokError) by (destruct t1; try discriminate Et; reflexivity). subst t1. unfold lift in E. cbn [ps_impl ps_pb1 ps_pb2 bson_ops op_next] in E.
      destruct (bson_next b) as [[tk b']| | |] eqn:N; try discriminate E. cbn [bind] in E. injection E as <- <-. destruct (bson_steps b tk b' B N) as (I & V & F).
      sp.
    - injection E as <- <-. sp.
  Qed.
  Lemma lift_value : forall {A} (f : bparser -> outcome (A * bparser)),
    (forall b a b', good 0 b -> f b = Ok (a, b') -> same b b' /\ good 0 b' /\ length (b_left b') = length (b_left b)) ->
    forall p q, eqR (Cinv TokValue) p q -> follows (eqR Einv) (lift f p) (lift f q).
  Proof.
    intros A f Hf p q [<- (P1 & P2 & I & V & _)]. unfold lift. destruct (f (ps_impl p)) as [[a b']| | |] eqn:E; cbn; auto.
    eexists. split; [reflexivity|]. split; [reflexivity|]. destruct (V eq_refl) as [Hn Hi]. assert (G := proj1 Hi). destruct (Hf _ _ _ G E) as (S & G' & L).
    sp; auto. right. left. now apply (value_inside (ps_impl p)).
  Qed.
  Lemma skip_lift : forall F p q, eqR (fun p => ps_pb2 p = TokError /\ (ps_pb1 p = TokError \/ ps_pb1 p = TokMapStart) /\ inv (ps_impl p)) p q ->
    follows_ (eqR Pinv) (lift_ (ign_value bson_ops F) p) (lift_ (ign_value bson_ops F) q).
  Proof.
    intros F p q [<- (P2 & P1 & I)]. unfold lift_. destruct (ign_value bson_ops F (ps_impl p)) as [b'| | |] eqn:E; cbn; auto.
    eexists. split; [reflexivity|]. split; [reflexivity|]. assert (I' := proj1 (ign_inv F) _ _ I E).
    sp; cbn [ps_impl ps_pb1 ps_pb2]; auto; destruct P1; congruence.
  Qed.
  Lemma length_dsim : forall F m, dsim bson_ops bson_ops F m (eqR Pinv) (fun t => eqR (Cinv t)) (eqR Einv).
  Proof.
    intros F m. constructor.
    - intros p q [<- H]. destruct (getToken bson_ops p) as [[t p1]| | |] eqn:E; cbn; auto. exists p1. split; [reflexivity|]. split; [reflexivity|]. exact (token_inv p t p1 H E).
    - intros t p q [<- (P1 & P2 & I & V & D)]. split; [reflexivity|]. unfold pushBackToken. rewrite P1. cbn [token_eqb]. sp.
    - intros t p q [<- (P1 & P2 & I & _)] _ _ _ _. split; [reflexivity|]. sp; auto; congruence.
    - intros p q [<- (P1 & P2 & I)]. split; [reflexivity|]. sp; auto; congruence.
    - intros p q [<- (P1 & P2 & I)]. split; [reflexivity|]. unfold pushBackToken. rewrite P1. cbn [token_eqb]. sp; cbn [ps_impl ps_pb1 ps_pb2]; auto; discriminate.
    - intros t p q [<- (P1 & P2 & I & _)]. cbn. eexists. split; [reflexivity|]. split; [reflexivity|]. sp; auto.
    - intros i. apply lift_value. intros b z b'. apply int_good.
    - apply lift_value. intros b z b'. apply bool_good.
    - apply lift_value. intros b z b'. apply str_good.
    - intros t p q [<- _]. reflexivity.
    - intros t p q [<- (P1 & P2 & I & _)] N. unfold lift_. destruct (op_ignore bson_ops (ps_impl p)) as [b'| | |] eqn:E; cbn; auto.
      eexists. split; [reflexivity|]. split; [reflexivity|]. assert (I' := skip_inv _ _ I E). sp; cbn [ps_impl ps_pb1 ps_pb2]; auto; congruence.
    - intros p q _ [<- (P1 & P2 & I)]. apply skip_lift. split; [reflexivity|]. auto.
    - intros p q _ [<- (P1 & P2 & I)]. apply skip_lift. split; [reflexivity|]. unfold pushBackToken. rewrite P1. cbn. auto.
  Qed.

  (** The trailing data check. *)
  Lemma skip_space_nil : forall l, snd (skip_space l) = [] -> blank l.
  Proof.
    induction l as [|c l IH]; intro H; [constructor|]. cbn [skip_space] in H. destruct (is_space c) eqn:Ec; [|discriminate H].
    destruct (skip_space l) as [n r]. constructor; [unfold is_space in Ec; lia|apply IH; exact H].
  Qed.
  Lemma trailing_live : forall s s', live k text s -> check_trailing true s = Ok s' -> dead s' /\ blank (skipn (s_pos s) text).
  Proof.
    intros s s' V E. assert (L := live_rest k text s V). destruct V as (Hk & D & G & He & P). unfold check_trailing, src_ok, src_readChar, strm_good in E. rewrite G, He, Hk in E. cbn [andb negb] in E.
    assert (Rs : s_rest s = skipn (s_pos s) text) by (unfold s_rest; now rewrite D).
    assert (B := skip_space_nil (s_rest s)). rewrite Rs in B, E. destruct k.
    - destruct (skip_space (skipn (s_pos s) text)) as [n [|c r]] eqn:Es; cbn [s_good] in E.
      + injection E as <-. split; [unfold dead, s_size; cbn; lia|apply B; reflexivity].
      + assert (Q : (S (s_pos s + n) <= s_size s)%nat).
        { assert (J : forall l, length l = (fst (skip_space l) + length (snd (skip_space l)))%nat).
          { clear. induction l as [|x l IH]; [reflexivity|]. cbn [skip_space]. destruct (is_space x); [|reflexivity]. destruct (skip_space l). cbn in *. lia. }
          specialize (J (skipn (s_pos s) text)). rewrite Es in J. cbn in J. rewrite skipn_length in J. unfold s_size. rewrite D. lia. }
        apply Nat.leb_le in Q. rewrite Q in E. discriminate E.
    - destruct (skip_space (skipn (s_pos s) text)) as [n [|c r]] eqn:Es; cbn [s_good] in E; [|discriminate E].
      injection E as <-. split; [unfold dead, s_size; cbn; lia|apply B; reflexivity].
  Qed.
  Lemma trailing_dead : forall s s', dead s -> check_trailing true s = Ok s' -> dead s'.
  Proof.
    intros s s' H E. unfold check_trailing in E. destruct (src_ok s); cbn [andb] in E; [|injection E as <-; exact H].
    unfold src_readChar in E. rewrite (dead_rest s H) in E. cbn [skip_space] in E.
    destruct (s_kind s); [|destruct (strm_good s)]; cbn in E; injection E as <-; unfold dead, s_size in *; cbn; lia.
  Qed.
  Lemma dead_read : forall n b got b', dead (b_src b) -> b_read n b = Ok (got, b') -> got = [] /\ dead (b_src b').
  Proof.
    intros n b got b' H E. unfold b_read in E. destruct (read_dead (b_src b) n H) as [Q|(s' & Q & D)]; rewrite Q in E; [discriminate E|].
    injection E as <- <-. auto.
  Qed.
  Lemma dead_readEnd : forall b b', dead (b_src b) -> readEndOfContainer b <> Ok b'.
  Proof.
    intros b b' H E. unfold readEndOfContainer in E. destruct (b_read 1 b) as [[got b1]| | |] eqn:R; try discriminate E. cbn [bind] in E.
    destruct (dead_read _ _ _ _ H R) as [-> _]. destruct (src_ok (b_src b1)); [|discriminate E]. destruct (b_use 1 b1); discriminate E.
  Qed.
  Lemma dead_readKey : forall b b', dead (b_src b) -> readKey b <> Ok b'.
  Proof.
    intros b b' H E. unfold readKey in E. destruct (b_read 1 b) as [[got b1]| | |] eqn:R; try discriminate E. cbn [bind] in E.
    destruct (dead_read _ _ _ _ H R) as [-> D]. destruct (src_ok (b_src b1)); [|discriminate E].
    destruct (readTo_dead (b_src b1) (b_key b1) 0 D) as [Q|(a & s' & Q & O)]; rewrite Q in E; [discriminate E|]. cbn [bind] in E. rewrite O in E. discriminate E.
  Qed.
  Lemma dead_next : forall b b', dead (b_src b) -> (b_next b = TokDocEnd -> exists st, b_stack b = BValue :: st) -> bson_next b <> Ok (TokDocEnd, b').
  Proof.
    intros b b' H Hs E. unfold bson_next in E. set (again := next_with (fun _ => Hang)) in E. unfold next_with in E.
    match type of E with bind ?m _ = _ => destruct m as [b1| | |] eqn:E1; try discriminate E end. cbn [bind] in E.
    assert (K : dead (b_src b1) /\ (b_next b1 = TokDocEnd -> exists st, b_stack b1 = BValue :: st)).
    { destruct (b_skip b); [|injection E1 as <-; auto]. unfold isEndOfContainer in E1. cbn [bset_skip b_left b_stack] in E1.
      destruct (b_left b) as [|l r]; [discriminate E1|]. destruct (l =? 1); [|injection E1 as <-; split; [exact H|discriminate]].
      destruct (b_stack b) as [|[] st] eqn:Es; try discriminate E1; injection E1 as <-; (split; [exact H|]); cbn; try discriminate. rewrite Es. eauto. }
    destruct K as [D Hs1]. destruct (b_next b1) eqn:En.
    - discriminate E.
    - destruct (b_stack b1) as [|[] ?]; try discriminate E. destruct (startContainer _); discriminate E.
    - destruct (Hs1 eq_refl) as (st & Es). rewrite Es in E. destruct (readEndOfContainer b1) as [b2| | |] eqn:R; try discriminate E. exact (dead_readEnd _ _ D R).
    - destruct (startContainer b1) as [b2| | |]; try discriminate E. cbn [bind] in E. destruct (b_left b2) as [|l ?]; [discriminate E|]. destruct (l =? 1); [|discriminate E]. destruct (b_stack b2) as [|[] ?]; discriminate E.
    - destruct (readEndOfContainer b1) as [b2| | |] eqn:R; try discriminate E. exact (dead_readEnd _ _ D R).
    - destruct (startContainer b1) as [b2| | |]; try discriminate E. cbn [bind] in E. destruct (b_left b2) as [|l ?]; [discriminate E|]. destruct (l =? 1); [|discriminate E]. destruct (b_stack b2) as [|[] ?]; discriminate E.
    - destruct (readEndOfContainer b1) as [b2| | |] eqn:R; try discriminate E. exact (dead_readEnd _ _ D R).
    - destruct (readKey b1) as [b2| | |] eqn:R; try discriminate E. exact (dead_readKey _ _ D R).
    - discriminate E.
  Qed.
  Lemma token_over : forall p s t p', Pinv p -> check_trailing true (b_src (ps_impl p)) = Ok s ->
    getToken bson_ops (mkPst (bset_src (ps_impl p) s) (ps_pb1 p) (ps_pb2 p)) = Ok (t, p') -> t = TokDocEnd -> exists n, whole n /\ blank (skipn n text).
  Proof.
    intros p s t p' (P2 & I & V & D) C E ->.
    assert (F : finished (ps_impl p) -> exists n, whole n /\ blank (skipn n text)).
    { intros (L & W & _). exists (s_pos (b_src (ps_impl p))). split; [exact W|]. apply (trailing_live _ _ L C). }
    assert (Dd : good 0 (ps_impl p) -> dead s).
    { intros [G|(m & G)]; [exact (trailing_dead _ _ G C)|]. exact (proj1 (trailing_live _ _ (core_live _ _ _ G) C)). }
    unfold getToken in E. cbn [ps_impl ps_pb1 ps_pb2] in E. rewrite P2 in E. cbn [token_eqb negb] in E.
    destruct (token_eqb (ps_pb1 p) TokError) eqn:Et; cbn [negb] in E; [|injection E as E _; apply F, D; exact E].
    destruct I as [I|[I|I]]; [| |exact (F I)]; exfalso.
    - destruct I as (G & _ & L0 & Z0 & Sk & St & Hn). specialize (Dd G). unfold lift in E. cbn [ps_impl bson_ops op_next] in E.
      destruct (bson_next _) as [[tk b']| | |] eqn:N; try discriminate E. cbn [bind] in E. injection E as -> _.
      unfold bson_next, next_with in N. cbn [bset_src b_skip b_next b_stack b_left b_src] in N. rewrite Sk in N. cbn [bind bset_src b_next b_stack] in N.
      destruct Hn as [Hn|[Hr Hn]].
      + rewrite Hn, St in N. destruct root; try discriminate N. destruct (startContainer _) as [b2| | |]; discriminate N.
      + destruct (b_next (ps_impl p)); try discriminate Hn; (destruct (startContainer _) as [b2| | |]; try discriminate N); cbn [bind] in N;
          (destruct (b_left b2) as [|l r]; [discriminate N|]); (destruct (l =? 1); [|discriminate N]); destruct (b_stack b2) as [|[] ?]; discriminate N.
    - destruct I as (G & Hl & Sh). specialize (Dd G). unfold lift in E. cbn [ps_impl bson_ops op_next] in E.
      destruct (bson_next _) as [[tk b']| | |] eqn:N; try discriminate E. cbn [bind] in E. injection E as -> _.
      destruct Sh as (st & E1 & _ & _ & _ & E5). eapply dead_next; [| |exact N]; [exact Dd|]. cbn. intro Q. rewrite Q in E5. destruct E5 as (_ & -> & E5).
      unfold base, value_root in *. destruct root; try discriminate E5. eexists. exact E1.
  Qed.
End Inv.

Theorem success_length : forall fuel cfg k t v text v' s', Forall (fun c => 0 <= c < 256) text ->
  bson_try fuel cfg t v (src_init k text) = Ok (v', s') ->
  exists n, whole k text n /\ (if pc_noTrailing cfg then blank (skipn n text) else live k text s' /\ s_pos s' = n).
Proof.
  intros fuel cfg k t v text v' s' Ht E. unfold bson_try, try_with in E. set (root := bson_root t) in *.
  assert (I0 : Pinv k text root (pst_init (b_init root (src_init k text)))).
  { unfold Pinv, pst_init. cbn [ps_impl ps_pb1 ps_pb2]. split; [reflexivity|]. split; [|split; discriminate]. left. 
    assert (C : core k text 0 0 (b_init root (src_init k text))).
    { exists 0, 0. repeat split; cbn; try lia; intros; try congruence; try contradiction. }
    split; [right; exists 0%nat; exact C|]. repeat split; auto. }
  destruct (getToken bson_ops _) as [[tk p]| | |] eqn:E1; try discriminate E. cbn [bind] in E. apply (token_inv k text root Ht) in E1; [|exact I0].
  destruct tk; try discriminate E. 
  assert (I1 : eqR (Pinv k text root) p p) by (apply (ds_done _ _ _ _ _ _ _ (length_dsim k text root Ht fuel Weak) _ _ _ (conj eq_refl E1)); discriminate).
  assert (D := proj1 (dsim_deser bson_ops bson_ops fuel (pc_strict cfg) _ _ _ (length_dsim k text root Ht fuel (pc_strict cfg)) (pc_marker cfg) t) v p p I1).
  destruct (d_parse _ v p) as [[w p1]| | |] eqn:E2; try discriminate E. cbn [bind follows] in E, D. destruct D as (q & _ & _ & I2).
  destruct (check_trailing (pc_noTrailing cfg) (b_src (ps_impl p1))) as [s1| | |] eqn:E3; try discriminate E. cbn [bind] in E.
  destruct (getToken bson_ops _) as [[tk p3]| | |] eqn:E4 in E; try discriminate E. cbn [bind] in E. destruct tk; try discriminate E. injection E as <- <-.
  destruct (pc_noTrailing cfg).
  - exact (token_over k text root p1 s1 _ _ I2 E3 E4 eq_refl).
  - cbn in E3. injection E3 as <-. assert (I3 : Pinv k text root (mkPst (bset_src (ps_impl p1) (b_src (ps_impl p1))) (ps_pb1 p1) (ps_pb2 p1))) by (destruct p1 as [[] ? ?]; exact I2).
    apply (token_inv k text root Ht) in E4; [|exact I3]. destruct E4 as (_ & _ & _ & _ & F). destruct (F eq_refl) as (V & W & _). exists (s_pos (b_src (ps_impl p3))). auto.
Qed.
