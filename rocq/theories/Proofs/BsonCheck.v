(** For examples: the bytes of a concrete BSON document. *)
From Coq Require Import ZArith String List Bool Lia ZifyBool.
From Verif Require Import Model.Base Model.Number Model.Types Model.BsonPrinter Model.JsonPrinter Model.Printer Spec.JsonString Spec.Json Spec.Bson Proofs.Induct Proofs.BinaryP Proofs.BsonSim Proofs.PrintP Proofs.BsonExportP.
Import ListNotations.
Open Scope Z_scope.

Definition scal_bytes (a : bscal) : Z * bytes :=
  match a with
  | BInt32 z => (16, little 4 z)
  | BInt64 z => (18, little 8 z)
  | BBool b => (8, [if b then 1 else 0])
  | BStr s => (2, little 4 (len s + 1) ++ s ++ [0])
  | BNull => (10, [])
  | BOther t d => (t, d)
  end.
Definition scal_fine (a : bscal) : bool :=
  match a with
  | BInt32 z => (- 2 ^ 31 <=? z) && (z <? 2 ^ 31)
  | BInt64 z => (- 2 ^ 63 <=? z) && (z <? 2 ^ 63)
  | BOther t d => (((t =? 1) || (t =? 9) || (t =? 17)) && Nat.eqb (List.length d) 8) || ((t =? 7) && Nat.eqb (List.length d) 12) || ((t =? 19) && Nat.eqb (List.length d) 16)
  | _ => true
  end.
Lemma scal_right : forall a, scal_fine a = true -> bson_scalar a (fst (scal_bytes a)) (snd (scal_bytes a)).
Proof.
  intros [z|z|b|s| |t d] H; cbn [scal_fine scal_bytes fst snd] in *; try (constructor; lia).
  destruct (Z.eqb_spec t 1) as [->|]; [constructor; lia|]. destruct (Z.eqb_spec t 9) as [->|]; [constructor; lia|]. destruct (Z.eqb_spec t 17) as [->|]; [constructor; lia|].
  destruct (Z.eqb_spec t 7) as [->|]; [constructor; lia|]. destruct (Z.eqb_spec t 19) as [->|]; [constructor; lia|]. discriminate H.
Qed.
Definition frame (e : bytes) : bytes := little 4 (len e + 5) ++ e ++ [0].
Fixpoint bson_bytes (j : tree bscal) : Z * bytes :=
  match j with
  | Scal a => scal_bytes a
  | Arr l =>
      (4, frame ((fix go (i : Z) (l : list (tree bscal)) : bytes :=
                    match l with
                    | [] => []
                    | x :: r => let '(t, b) := bson_bytes x in (t :: int_dec i ++ 0 :: b ++ go (i + 1) r)%list
                    end) 0 l))
  | Obj l =>
      (3, frame ((fix go (l : list (list Z * tree bscal)) : bytes :=
                    match l with
                    | [] => []
                    | (k, x) :: r => let '(t, b) := bson_bytes x in (t :: k ++ 0 :: b ++ go r)%list
                    end) l))
  end.
Fixpoint bson_fine (j : tree bscal) : bool :=
  (len (snd (bson_bytes j)) <? 2 ^ 31) &&
  match j with
  | Scal a => scal_fine a
  | Arr l => forallb bson_fine l
  | Obj l => forallb (fun kv => negb (existsb (Z.eqb 0) (fst kv)) && bson_fine (snd kv)) l
  end.
Lemma frame_framed : forall e, len (frame e) < 2 ^ 31 -> framed e (frame e).
Proof. intros e L. unfold frame in *. constructor. rewrite !len_app, len_little in L. change (len [0]) with 1 in L. lia. Qed.
Lemma bytes_value : forall j, bson_fine j = true -> bson_value decimal_name j (fst (bson_bytes j)) (snd (bson_bytes j)).
Proof.
  apply (tree_ind' (fun j => bson_fine j = true -> bson_value decimal_name j (fst (bson_bytes j)) (snd (bson_bytes j)))).
  - intros a H. cbn [bson_fine bson_bytes] in *. apply andb_prop in H as [_ H]. constructor. now apply scal_right.
  - intros l IH H. cbn [bson_fine] in H. apply andb_prop in H as [L H]. cbn [bson_bytes fst snd] in *.
    match type of L with (len (frame ?e) <? _) = true => apply (bv_arr decimal_name l e); [|apply frame_framed; lia] end. clear L.
    assert (G : forall i, 0 <= i -> bson_elems decimal_name i l ((fix go (i : Z) (l : list (tree bscal)) : bytes :=
                    match l with
                    | [] => []
                    | x :: r => let '(t, b) := bson_bytes x in (t :: int_dec i ++ 0 :: b ++ go (i + 1) r)%list
                    end) i l)); [|apply G; lia].
    induction IH as [|x l Hx IH IHl]; intros i Hi; [constructor|]. cbn [forallb] in H. apply andb_prop in H as [H1 H2]. specialize (Hx H1). destruct (bson_bytes x) as [t b].
    constructor; [now apply int_dec_decimal|now apply int_dec_nul|exact Hx|apply IHl; [exact H2|lia]].
  - intros l IH H. cbn [bson_fine] in H. apply andb_prop in H as [L H]. cbn [bson_bytes fst snd] in *.
    match type of L with (len (frame ?e) <? _) = true => apply (bv_obj decimal_name l e); [|apply frame_framed; lia] end. clear L.
    induction IH as [|[k x] l Hx IH IHl]; [constructor|]. cbn [forallb fst snd] in *. apply andb_prop in H as [H1 H2]. apply andb_prop in H1 as [H0 H1]. specialize (Hx H1). destruct (bson_bytes x) as [t b].
    constructor; [|exact Hx|now apply IHl]. intro I. rewrite negb_true_iff in H0. assert (existsb (Z.eqb 0) k = true); [|congruence]. apply existsb_exists. exists 0. auto.
Qed.
Definition bson_doc (j : tree bscal) : bytes := snd (bson_bytes (match j with Scal a => Arr [Scal a] | _ => j end)).
Lemma doc_document : forall j, bson_fine (match j with Scal a => Arr [Scal a] | _ => j end) = true -> bson_document decimal_name j (bson_doc j).
Proof. intros j H. assert (Q := bytes_value _ H). unfold bson_doc. destruct j; now constructor. Qed.
