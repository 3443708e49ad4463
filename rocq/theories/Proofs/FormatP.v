(** Format specifications. *)
From Coq Require Import ZArith String List Bool Lia ZifyBool.
From Verif Require Import Model.Base Model.Number Model.JsonPrinter Model.Format Spec.Json Spec.Import Spec.Format.
Import ListNotations.
Open Scope Z_scope.

Lemma digits_value_mod : forall ds a b, a mod 2 ^ 64 = b mod 2 ^ 64 -> digits_value a ds mod 2 ^ 64 = digits_value b ds mod 2 ^ 64.
Proof.
  induction ds as [|d ds IH]; intros a b H; cbn [digits_value]; [exact H|]. apply IH. rewrite (Z.add_mod (10 * a)), (Z.add_mod (10 * b)) by lia.
  rewrite (Z.mul_mod 10 a), (Z.mul_mod 10 b), H by lia. reflexivity.
Qed.
Lemma number_reads : forall ds acc c r, Forall digit ds -> is_digit c = false -> 0 <= acc < 2 ^ 64 ->
  fs_number acc (ds ++ c :: r) = Ok (digits_value acc ds mod 2 ^ 64, c :: r).
Proof.
  intros ds acc c r H. revert acc. induction H as [|d ds Hd H IH]; intros acc Hc A; cbn [app fs_number digits_value].
  - rewrite Hc. now rewrite Z.mod_small.
  - replace (is_digit d) with true by (unfold is_digit, digit in *; lia). rewrite IH; [|exact Hc|apply Z.mod_pos_bound; lia]. f_equal. f_equal.
    apply digits_value_mod. rewrite Z.mod_mod by lia. f_equal. lia.
Qed.
Lemma number_only : forall s acc n r, fs_number acc s = Ok (n, r) -> exists ds c r', s = ds ++ c :: r' /\ r = c :: r' /\ Forall digit ds /\ is_digit c = false.
Proof.
  induction s as [|c s IH]; intros acc n r E; cbn [fs_number] in E; [discriminate E|]. destruct (is_digit c) eqn:D.
  - apply IH in E as (ds & c' & r' & -> & -> & F & Hc). exists (c :: ds), c', r'. repeat split; auto. constructor; [unfold is_digit, digit in *; lia|exact F].
  - injection E as <- <-. exists [], c, s. repeat split; auto.
Qed.
Lemma number_defined : forall s acc, In 125 s -> exists n r, fs_number acc s = Ok (n, r) /\ In 125 r.
Proof.
  induction s as [|c s IH]; intros acc H; [destruct H|]. cbn [fs_number]. destruct (is_digit c) eqn:D; [|eauto].
  apply IH. destruct H as [->|H]; [discriminate D|exact H].
Qed.

Definition front (s : list Z) : list Z * fform * otype :=
  let '(l, f, s) := match s with
    | c :: r => if c =? 74 then ([c], FJson, r) else if c =? 66 then ([c], FBson, r) else if c =? 89 then ([c], FYaml, r) else ([], FJson, s)
    | [] => ([], FJson, [])
    end in
  match s with
  | c :: r => if c =? 45 then (l ++ [c], f, OStream) else if c =? 42 then (l ++ [c], f, OConfig) else (l, f, OStream)
  | [] => (l, f, OStream)
  end.
Definition back (f : fform) (o : otype) (s : list Z) : outcome (fspec * list Z) :=
  do (n, s) <- fs_number 0 s;
  do c <- fs_peek s;
  if c =? 46 then do (b, s) <- fs_number 0 (tl s); Ok (mkFs f o n b, s) else Ok (mkFs f o n 0, s).

Lemma parse_back : forall l f m o s, type_letter l f -> stream_letter m o ->
  match s with c :: _ => c <> 74 /\ c <> 66 /\ c <> 89 /\ c <> 45 /\ c <> 42 | [] => False end -> fs_parse fs_default (l ++ m ++ s) = back f o s.
Proof.
  intros l f m o s L M H. destruct s as [|c s]; [destruct H|]. destruct H as (H1 & H2 & H3 & H4 & H5).
  apply Z.eqb_neq in H1, H2, H3, H4, H5.
  destruct L, M; unfold fs_parse, back; cbn [app fs_peek bind tl]; repeat (change (Z.eqb ?a ?b) with (Z.eqb a b)); rewrite ?H1, ?H2, ?H3, ?H4, ?H5;
    cbn [Z.eqb Pos.eqb fs_peek bind tl fs_form fs_type fs_indent fs_block fs_default]; rewrite ?H4, ?H5; cbn [fs_form fs_type fs_indent fs_block fs_default]; reflexivity.
Qed.
Lemma parse_split : forall s f r, fs_parse fs_default s = Ok (f, r) -> exists l m o ff s', type_letter l ff /\ stream_letter m o /\ s = l ++ m ++ s' /\ back ff o s' = Ok (f, r).
Proof.
  intros s f r E. unfold fs_parse in E. destruct s as [|c s]; [discriminate E|]. cbn [fs_peek bind tl] in E.
  assert (G : forall l ff s1, type_letter l ff -> c :: s = l ++ s1 -> (do c <- fs_peek s1;
      let '(f0, s2) := if c =? 45 then (mkFs ff OStream 0 0, tl s1) else if c =? 42 then (mkFs ff OConfig 0 0, tl s1) else (mkFs ff OStream 0 0, s1) in
      do (n, s3) <- fs_number (fs_indent f0) s2;
      do c1 <- fs_peek s3;
      if c1 =? 46 then do (n0, s4) <- fs_number (fs_block (mkFs (fs_form f0) (fs_type f0) n (fs_block f0))) (tl s3);
        Ok (mkFs (fs_form (mkFs (fs_form f0) (fs_type f0) n (fs_block f0))) (fs_type (mkFs (fs_form f0) (fs_type f0) n (fs_block f0))) (fs_indent (mkFs (fs_form f0) (fs_type f0) n (fs_block f0))) n0, s4)
      else Ok (mkFs (fs_form f0) (fs_type f0) n (fs_block f0), s3)) = Ok (f, r) ->
    exists l m o ff s', type_letter l ff /\ stream_letter m o /\ c :: s = l ++ m ++ s' /\ back ff o s' = Ok (f, r)).
  { intros l ff s1 L -> E1. destruct s1 as [|c1 s1]; [discriminate E1|]. cbn [fs_peek bind tl] in E1. exists l.
    destruct (Z.eqb_spec c1 45) as [->|N1]; [exists [45], OStream, ff, s1; split; [exact L|]; split; [constructor|]; split; [reflexivity|exact E1]|].
    destruct (Z.eqb_spec c1 42) as [->|N2]; [exists [42], OConfig, ff, s1; split; [exact L|]; split; [constructor|]; split; [reflexivity|exact E1]|].
    exists [], OStream, ff, (c1 :: s1). split; [exact L|]. split; [constructor|]. split; [reflexivity|exact E1]. }
  destruct (Z.eqb_spec c 74) as [->|N1]; [exact (G [74] FJson s tl_json eq_refl E)|].
  destruct (Z.eqb_spec c 66) as [->|N2]; [exact (G [66] FBson s tl_bson eq_refl E)|].
  destruct (Z.eqb_spec c 89) as [->|N3]; [exact (G [89] FYaml s tl_yaml eq_refl E)|].
  exact (G [] FJson (c :: s) tl_none eq_refl E).
Qed.

Theorem spec_accepts : forall spec f o n b rest, documented spec f o n b -> fs_spec (spec ++ 125 :: rest) = Ok (mkFs f o (n mod 2 ^ 64) (b mod 2 ^ 64), rest).
Proof.
  assert (Fd : forall ds c r, Forall digit ds -> c <> 74 /\ c <> 66 /\ c <> 89 /\ c <> 45 /\ c <> 42 -> match ds ++ c :: r with c :: _ => c <> 74 /\ c <> 66 /\ c <> 89 /\ c <> 45 /\ c <> 42 | [] => False end).
  { intros ds c r F H. destruct F as [|d ds Hd F]; [exact H|]. cbn [app]. unfold digit in Hd. lia. }
  intros spec f o n b rest H. unfold fs_spec. destruct H as [l f m o ds L M F|l f m o ds ds' L M F F'].
  - rewrite <- !app_assoc. rewrite (parse_back l f m o) by (auto; apply Fd; auto; lia). unfold back. rewrite number_reads by (auto; lia). reflexivity.
  - rewrite <- !app_assoc. cbn [app]. rewrite (parse_back l f m o) by (auto; apply Fd; auto; lia). unfold back. rewrite number_reads by (auto; lia). cbn [bind fs_peek tl Z.eqb Pos.eqb].
    rewrite <- app_assoc || idtac. rewrite number_reads by (auto; lia). reflexivity.
Qed.
Theorem spec_only : forall s f rest, fs_spec s = Ok (f, rest) -> exists spec n b, documented spec (fs_form f) (fs_type f) n b /\ s = spec ++ 125 :: rest.
Proof.
  intros s f rest E. unfold fs_spec in E. destruct (fs_parse fs_default s) as [[f1 r]| | |] eqn:P; try discriminate E. cbn [bind] in E.
  destruct r as [|c r]; [discriminate E|]. destruct (Z.eqb_spec c 125) as [->|]; [|discriminate E]. injection E as -> ->.
  apply parse_split in P as (l & m & o & ff & s' & L & M & -> & B). unfold back in B. destruct (fs_number 0 s') as [[n s1]| | |] eqn:N1; try discriminate B. cbn [bind] in B.
  apply number_only in N1 as (ds & c & r' & -> & -> & F & _). cbn [fs_peek bind] in B. destruct (Z.eqb_spec c 46) as [->|].
  - cbn [tl] in B. destruct (fs_number 0 r') as [[n2 s2]| | |] eqn:N2; try discriminate B. cbn [bind] in B. apply number_only in N2 as (ds' & c & r2 & -> & -> & F' & _).
    injection B as <- -> ->. cbn [fs_form fs_type]. exists (l ++ m ++ ds ++ 46 :: ds'). do 2 eexists. split; [now constructor|]. rewrite <- !app_assoc. cbn [app]. reflexivity.
  - injection B as <- -> ->. cbn [fs_form fs_type]. exists (l ++ m ++ ds). do 2 eexists. split; [now constructor|]. now rewrite <- !app_assoc.
Qed.
Theorem spec_defined : forall s, In 125 s -> fs_spec s <> UB /\ fs_spec s <> Hang.
Proof.
  intros s H. assert (G : (exists f r, fs_parse fs_default s = Ok (f, r))).
  { unfold fs_parse. destruct s as [|c s]; [destruct H|]. cbn [fs_peek bind tl].
    match goal with |- context [let '(f, s) := ?x in _] => assert (Hx : exists f1 s1, x = (f1, s1) /\ In 125 s1) end.
    { destruct (Z.eqb_spec c 74) as [->|]; [destruct H as [H|H]; [discriminate H|eauto]|]. destruct (Z.eqb_spec c 66) as [->|]; [destruct H as [H|H]; [discriminate H|eauto]|].
      destruct (Z.eqb_spec c 89) as [->|]; [destruct H as [H|H]; [discriminate H|eauto]|]. eauto. }
    destruct Hx as (f1 & s1 & -> & H1). destruct s1 as [|c1 s1]; [destruct H1|]. cbn [fs_peek bind tl].
    match goal with |- context [let '(f, s) := ?x in _] => assert (Hx : exists f1 s1, x = (f1, s1) /\ In 125 s1) end.
    { destruct (Z.eqb_spec c1 45) as [->|]; [destruct H1 as [H1|H1]; [discriminate H1|eauto]|]. destruct (Z.eqb_spec c1 42) as [->|]; [destruct H1 as [H1|H1]; [discriminate H1|eauto]|]. eauto. }
    destruct Hx as (f2 & s2 & -> & H2). destruct (number_defined s2 (fs_indent f2) H2) as (n & r & -> & H3). cbn [bind]. destruct r as [|c2 r]; [destruct H3|]. cbn [fs_peek bind tl].
    destruct (Z.eqb_spec c2 46) as [->|]; [|eauto]. destruct H3 as [H3|H3]; [discriminate H3|]. destruct (number_defined r (fs_block (mkFs (fs_form f2) (fs_type f2) n (fs_block f2))) H3) as (n2 & r2 & -> & _).
    cbn [bind]. eauto. }
  destruct G as (f & r & E). unfold fs_spec. rewrite E. cbn [bind]. destruct r as [|c r]; [split; discriminate|]. destruct (c =? 125); split; discriminate.
Qed.
