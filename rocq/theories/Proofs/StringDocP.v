(** Documents that consist of one string. *)
From Coq Require Import ZArith String List Bool Lia ZifyBool.
From Verif Require Import Model.Base Model.Source Model.Unicode Model.Number Model.JsonLexer Model.ParserInterface
  Model.JsonParser Model.Types Model.Deserializer Model.Importer
  Spec.JsonString Spec.Json Proofs.UnicodeP Proofs.LexP Proofs.NumberP Proofs.Sim Proofs.TreeM Proofs.JsonSim Proofs.ImportP.
Import ListNotations.
Open Scope Z_scope.

(** Reading a string value in any parser state. *)
Lemma op_str_closed : forall k fuel conv p raw rest text,
  closed_by raw rest text -> at_src k (l_src (jp_lex p)) (34 :: text) -> (List.length raw <= fuel)%nat ->
  exists s', at_src k s' rest /\
  op_str (json_ops fuel conv) p =
  do v <- (if conv then dec raw else Ok raw); Ok (v, mkJp (lset_src (jp_lex p) s') (jp_ctl p)).
Proof.
  intros k fuel conv p raw rest text Hc Ha Hf. cbn [op_str json_ops]. unfold jp_lift.
  destruct (getStringInto_closed k fuel conv (jp_lex p) raw rest text Hc Ha Hf) as (s' & Hs & ->).
  exists s'. split; [exact Hs|]. destruct (if conv then dec raw else Ok raw); reflexivity.
Qed.

Lemma closed_by_length : forall raw rest text, closed_by raw rest text -> (List.length raw < List.length text)%nat.
Proof. intros raw rest text H. induction H; cbn [List.length]; lia. Qed.

Lemma string_try : forall k fuel cfg w raw rest text v s,
  closed_by raw rest text -> ws w -> at_src k s (w ++ 34 :: text) -> (List.length raw <= fuel)%nat ->
  match (if pc_conv cfg then dec raw else Ok raw) with
  | Ok v' =>
      if pc_noTrailing cfg then True
      else exists s', json_try fuel cfg TStr v s = Ok (VStr v', s') /\ at_src k s' rest
  | Throw => json_try fuel cfg TStr v s = Throw
  | _ => True
  end.
Proof.
  intros k fuel cfg w raw rest text v s Hc Hw Ha Hf. unfold json_try.
  change (getToken (json_ops fuel (pc_conv cfg)) (pst_init (mkJp (lex_init s) ctl_init)))
    with (Ok (TokDocStart, pst_init (mkJp (lex_init s) (mkCtl [] JDone JInit true)))). cbn [bind].
  destruct (yylex_at k (lex_init s) w 34 text Ha Hw eq_refl ltac:(lia)) as (s1 & Y & H1).
  change (is_punct 34) with false in H1. cbn iota in H1.
  assert (G : getToken (json_ops fuel (pc_conv cfg)) (pst_init (mkJp (lex_init s) (mkCtl [] JDone JInit true))) =
    Ok (TokValue, pst_init (mkJp (mkLex s1 (l_buf (lex_init s)) (lextok 34) (lexbool 34 (l_bool (lex_init s))) (34 =? 110))
                            (mkCtl [] JDone JDone true)))).
  { unfold getToken. cbn [ps_pb1 ps_pb2 pst_init token_eqb negb]. unfold lift. cbn [op_next json_ops ps_impl pst_init].
    unfold jp_next, jp_next_loop. cbn [ctl_early jp_ctl c_started negb c_state jp_lex]. rewrite Y. cbn [bind].
    change (lexix 34) with 10%nat. reflexivity. }
  cbn [deser d_parse]. unfold read_value. rewrite G. cbn [bind].
  unfold lift at 1. unfold lift at 1. cbn [ps_impl ps_pb1 ps_pb2 pst_init].
  match goal with |- context [op_str (json_ops fuel (pc_conv cfg)) ?q] => set (p := q) end.
  destruct (op_str_closed k fuel (pc_conv cfg) p raw rest text Hc H1 Hf) as (s2 & H2 & ->).
  destruct (if pc_conv cfg then dec raw else Ok raw) as [v'| | |] eqn:E; cbn [bind]; try exact I; try reflexivity.
  destruct (pc_noTrailing cfg) eqn:Hn; [exact I|]. cbn [check_trailing andb bind].
  unfold p. cbn [ps_impl pst_init jp_lex jp_ctl ps_pb1 ps_pb2 lset_src l_src].
  unfold getToken. cbn [ps_pb1 ps_pb2 pst_init token_eqb negb]. unfold lift. cbn.
  exists s2. split; [reflexivity|exact H2].
Qed.

Section StringDoc.
  Variables (cfg : pconfig) (k : skind) (w raw rest text : bytes) (v : val).
  Hypotheses (Hc : closed_by raw rest text) (Hw : ws w).

  Lemma string_imports : forall v', pc_noTrailing cfg = false -> (if pc_conv cfg then dec raw else Ok raw) = Ok v' ->
    imports cfg k TStr v (w ++ 34 :: text) (VStr v') rest.
  Proof.
    intros v' Hn E. exists (List.length raw). intros fuel Hf. unfold json_extract.
    assert (P := string_try k fuel cfg w raw rest text v _ Hc Hw (at_init k _) Hf). destruct (pc_conv cfg); [rewrite E in P|apply Ok_inj in E; subst v']; rewrite Hn in P.
    all: destruct P as (s' & -> & At); exists s'; split; [reflexivity|]; exact (at_ok_rest _ _ _ At).
  Qed.
  Lemma string_rejects : (if pc_conv cfg then dec raw else Ok raw) = Throw -> rejects cfg k TStr v (w ++ 34 :: text).
  Proof.
    intros E. exists (List.length raw). intros fuel Hf. unfold json_extract.
    assert (P := string_try k fuel cfg w raw rest text v _ Hc Hw (at_init k _) Hf). destruct (pc_conv cfg); [rewrite E in P; rewrite P; exact I|discriminate E].
  Qed.
End StringDoc.

Lemma json_string_when_app : forall P a va b vb, json_string_when P a va -> json_string_when P b vb ->
  json_string_when P (a ++ b) (va ++ vb).
Proof.
  intros P a va b vb Ha Hb. induction Ha; rewrite <- ?app_assoc; cbn [app]; rewrite <- ?app_assoc; cbn [app];
    rewrite <- ?app_assoc; try (constructor; assumption); try assumption.


Qed.
