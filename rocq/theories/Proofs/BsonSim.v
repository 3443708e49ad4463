(** The BSON parser reading a BSON document simulates the walk over the tree of the document. *)
From Coq Require Import ZArith String List Bool Lia ZifyBool.
From Verif Require Import Model.Base Model.Source Model.Number Model.ParserInterface Model.Types Model.Deserializer
  Model.Binary Model.BsonPrinter Model.BsonParser
  Spec.Json Spec.Bson Proofs.LexP Proofs.Sim Proofs.TreeM Proofs.BinaryP.
Import ListNotations.
Open Scope Z_scope.

(** How a BSON scalar is read. *)
Definition bson_sc : scal_ops bscal :=
  mkScal bscal
    (fun i a => match a with BInt32 z | BInt64 z => Ok (i_wrap i z) | _ => Throw end)
    (fun a => match a with BBool b => Ok b | _ => Throw end)
    (fun a => match a with BStr s => Ok s | _ => Throw end)
    (fun a => match a with BNull => true | _ => false end)
    (fun _ => true) (fun n => Ok n) (fun _ => true) true (fun _ => false) true.

Lemma bson_str_not_null : forall a c, sc_str bson_sc a = Ok c -> sc_null bson_sc a = false.
Proof. intros [] c H; try reflexivity; discriminate H. Qed.

(** ** The source *)
Lemma split_at_zero : forall a t, ~ In 0 a -> split_at 0 (a ++ 0 :: t) = (a, true).
Proof.
  induction a as [|x a IH]; intros t H; [reflexivity|]. cbn [app split_at].
  destruct (Z.eqb_spec x 0) as [->|N]; [exfalso; apply H; now left|]. rewrite IH; [reflexivity|]. intro I. apply H. now right.
Qed.
Lemma readTo_zero : forall k s a t dst, at_src k s (a ++ 0 :: t) -> ~ In 0 a ->
  exists s', src_readTo s dst 0 = Ok (a, s') /\ at_src k s' t.
Proof.
  intros k s a t dst H Ha.
  assert (Hne : exists x r, a ++ 0 :: t = x :: r) by (destruct a; cbn; eauto).
  destruct Hne as (x & r & Ex). rewrite Ex in H. apply at_cons_inv in H as (pre & ->).
  unfold src_readTo, s_rest, strm_good, s_size. cbn [s_kind s_good s_eof s_pos s_data negb andb].
  rewrite skipn_app_len, <- Ex, (split_at_zero a t Ha).
  assert (Hat : at_src k (mkSrc k (pre ++ a ++ 0 :: t) (length pre + S (length a)) true false) t).
  { exists (pre ++ a ++ [0]), false. split; [|discriminate]. f_equal.
    - rewrite <- !app_assoc. reflexivity.
    - rewrite !app_length. cbn. lia. }
  destruct k.
  - assert (E2 : Nat.ltb (length (pre ++ a ++ 0 :: t)) (length pre) = false)
      by (apply Nat.ltb_ge; rewrite app_length; lia).
    assert (E3 : Nat.leb (length pre + S (length a)) (length (pre ++ a ++ 0 :: t)) = true)
      by (apply Nat.leb_le; rewrite !app_length; cbn; lia).
    rewrite E2, E3. eexists. split; [reflexivity|exact Hat].
  - eexists. split; [reflexivity|exact Hat].
Qed.

Lemma u64_small : forall z, 0 <= z < 2 ^ 64 -> u64 z = z.
Proof. intros z H. now apply Z.mod_small. Qed.

Section Ops.
  Context (k : skind).
  Notation at_b b txt := (at_src k (b_src b) txt).

  Lemma b_read_at : forall b a t, at_b b (a ++ t) -> a <> [] ->
    exists s', b_read (length a) b = Ok (a, bset_src b s') /\ at_src k s' t.
  Proof.
    intros b a t H Ha. destruct (read_at_src k (b_src b) a t H Ha) as (s' & E & H'). exists s'. split; [|exact H'].
    unfold b_read. rewrite E. reflexivity.
  Qed.
  Lemma b_read1 : forall b c t, at_b b (c :: t) -> exists s', b_read 1 b = Ok ([c], bset_src b s') /\ at_src k s' t.
  Proof. intros b c t H. apply (b_read_at b [c] t H). discriminate. Qed.
  Lemma readLE_at : forall b n z t, at_b b (little n z ++ t) -> (n <> 0)%nat ->
    - 2 ^ (8 * Z.of_nat n - 1) <= z < 2 ^ (8 * Z.of_nat n - 1) ->
    exists s', b_readLE n b = Ok (z, bset_src b s') /\ at_src k s' t.
  Proof.
    intros b n z t H Hn Hz. assert (L := little_length n z).
    destruct (b_read_at b (little n z) t H) as (s' & E & H').
    { intro E. rewrite E in L. cbn in L. congruence. }
    rewrite L in E. exists s'. split; [|exact H']. unfold b_readLE. rewrite E. cbn [bind]. rewrite L, Nat.eqb_refl.
    now rewrite signed_little.
  Qed.
  Lemma b_use_at : forall b l r n, b_left b = l :: r -> 0 <= l - n < 2 ^ 64 ->
    b_use n b = Ok (bset_sizes b (l - n :: r) (b_size b)).
  Proof. intros b l r n E H. unfold b_use. rewrite E, u64_small by exact H. reflexivity. Qed.
  Lemma readEnd_at : forall b l r t, at_b b (0 :: t) -> b_left b = l :: r -> 0 <= l - 1 < 2 ^ 64 ->
    exists s', readEndOfContainer b = Ok (bset_src (bset_sizes b (l - 1 :: r) (b_size b)) s') /\ at_src k s' t.
  Proof.
    intros b l r t H E Hl. destruct (b_read1 b 0 t H) as (s' & R & H'). exists s'. split; [|exact H'].
    unfold readEndOfContainer. rewrite R. cbn [bind b_src bset_src]. rewrite (at_ok _ _ _ H').
    rewrite (b_use_at (bset_src b s') l r 1 E Hl). reflexivity.
  Qed.
  Lemma readKey_at : forall b type n t l r, at_b b (type :: n ++ 0 :: t) -> ~ In 0 n -> b_left b = l :: r ->
    0 <= l - (1 + len n + 1) < 2 ^ 64 ->
    exists s', readKey b = Ok (bset_src (bset_sizes (bset_elem b n type) (l - (1 + len n + 1) :: r) (b_size b)) s') /\ at_src k s' t.
  Proof.
    intros b type n t l r H Hn E Hl. destruct (b_read1 b type _ H) as (s1 & R & H1).
    destruct (readTo_zero k s1 n t (b_key b) H1 Hn) as (s2 & R2 & H2). exists s2. split; [|exact H2].
    unfold readKey. rewrite R. cbn [bind b_src b_key b_type bset_src]. rewrite (at_ok _ _ _ H1), R2. cbn [bind].
    rewrite (at_ok _ _ _ H2). unfold len in Hl. rewrite (b_use_at (bset_elem (bset_src (bset_src b s1) s2) n type) l r _ E Hl). reflexivity.
  Qed.
  Lemma start_at : forall b z t, at_b b (little 4 z ++ t) -> 4 <= z < 2 ^ 31 ->
    exists s', startContainer b = Ok (bset_src (bset_sizes b (z - 4 :: b_left b) (z :: b_size b)) s') /\ at_src k s' t.
  Proof.
    intros b z t H Hz. destruct (readLE_at b 4 z t H) as (s' & R & H'); [discriminate|cbn; lia|].
    exists s'. split; [|exact H']. unfold startContainer. rewrite R. cbn [bind b_left b_size bset_src].
    rewrite u64_small by lia. erewrite b_use_at; [|reflexivity|lia]. reflexivity.
  Qed.
End Ops.

(** ** What is left of a document *)
Definition bump (z : Z) (left : list Z) : list Z := match left with [] => [] | l :: r => l + z :: r end.
(** The length of a list of elements up to the end of the container. *)
Definition room (e : bytes) : Z := len e + 1.

Section Sim.
  (** [one]: the document is a single value. *)
  Context (k : skind) (tl : bytes) (one : bool).
  Notation Nm := any_name.

  (** [remains stack left size evs txt]: [txt] is left to be read, [evs] are the events in it, and these are the open
      containers with the bytes left in each. *)
  Inductive remains : list bcont -> list Z -> list Z -> list (ev bscal) -> bytes -> Prop :=
  | rm_done : one = false -> remains [] [] [] [] tl
  | rm_map : forall l e z st left size evs txt, bson_members Nm l e -> room e < 2 ^ 31 -> 0 <= z < 2 ^ 31 ->
      remains st left size evs txt ->
      remains (BMap :: st) (room e :: bump z left) (z :: size) (member_events l ++ EMapE :: evs) (e ++ 0 :: txt)
  | rm_arr : forall i l e z st left size evs txt, bson_elems Nm i l e -> room e < 2 ^ 31 -> 0 <= z < 2 ^ 31 ->
      remains st left size evs txt ->
      remains (BArray :: st) (room e :: bump z left) (z :: size) (flat_map events l ++ EArrE :: evs) (e ++ 0 :: txt)
  | rm_value : forall i l e z, one = true -> bson_elems Nm i l e -> room e < 2 ^ 31 -> 0 <= z < 2 ^ 31 ->
      remains [BValue; BValue] [room e] [z] (flat_map events l) (e ++ 0 :: tl).

  Lemma remains_left : forall st left size evs txt, remains st left size evs txt ->
    match left with [] => st = [] | l :: _ => 1 <= l < 2 ^ 31 end.
  Proof. intros st left size evs txt H. destruct H; [reflexivity| | |]; unfold room, len in *; cbn [bump]; lia. Qed.

  (** A value is about to be read. *)
  Inductive pending (b : bparser) : list (ev bscal) -> bytes -> Prop :=
  | pd_scal : forall a data left evs txt, bson_scalar a (b_type b) data -> b_next b = TokValue -> b_left b = bump (len data) left ->
      b_stack b <> [] -> len data < 2 ^ 31 ->
      remains (b_stack b) left (b_size b) evs txt -> pending b (EScal a :: evs) (data ++ txt)
  | pd_map : forall z evs txt, b_next b = TokMapStart -> 5 <= z < 2 ^ 31 -> (b_type b =? 10) = false ->
      hd_error (b_stack b) = Some BMap ->
      remains (b_stack b) (z - 4 :: b_left b) (z :: b_size b) evs txt -> pending b (EMapS :: evs) (little 4 z ++ txt)
  | pd_arr : forall z evs txt, b_next b = TokArrayStart -> 5 <= z < 2 ^ 31 -> (b_type b =? 10) = false ->
      hd_error (b_stack b) = Some BArray ->
      remains (b_stack b) (z - 4 :: b_left b) (z :: b_size b) evs txt -> pending b (EArrS :: evs) (little 4 z ++ txt).

  (** The next token between values. *)
  Definition due (st : list bcont) (left : list Z) : token :=
    match st, left with
    | c :: _, l :: _ =>
        if l =? 1 then match c with BMap => TokMapEnd | BArray => TokArrayEnd | BValue => TokDocEnd end else TokKey
    | _, _ => TokDocEnd
    end.
  Definition free (b : bparser) (evs : list (ev bscal)) (txt : bytes) : Prop :=
    remains (b_stack b) (b_left b) (b_size b) evs txt /\
    (if b_skip b then b_stack b <> [] else b_next b = due (b_stack b) (b_left b)).

  (** After a token that was not a key. *)
  Definition after_ev (b : bparser) (e : ev bscal) (evs : list (ev bscal)) (txt : bytes) : Prop :=
    match e with
    | EKey n => b_key b = n /\ b_skip b = false /\ pending b evs txt
    | EScal a => b_skip b = true /\ exists data left rest, txt = data ++ rest /\ bson_scalar a (b_type b) data /\
        b_left b = bump (len data) left /\ b_stack b <> [] /\ len data < 2 ^ 31 /\
        remains (b_stack b) left (b_size b) evs rest
    | _ => free b evs txt
    end.

  Lemma pending_next : forall again b e evs txt, b_skip b = false -> pending b (e :: evs) txt -> at_src k (b_src b) txt ->
    exists b' txt', next_with again b = Ok (ev_token e, b') /\ at_src k (b_src b') txt' /\ b_type b' = b_type b /\
      after_ev b' e evs txt'.
  Proof.
    intros again b e evs txt Hs H At. unfold next_with. rewrite Hs. cbn [bind].
    inversion H as [a data left evs' t Hsc Hn Hl Hst Hd Hr|z evs' t Hn Hz Ht Hst Hr|z evs' t Hn Hz Ht Hst Hr]; subst e evs'; subst txt; rewrite Hn.
    - exists (bset_skip b true), (data ++ t). split; [reflexivity|]. split; [exact At|]. split; [reflexivity|].
      split; [reflexivity|]. exists data, left, t. auto 10.
    - destruct (start_at k b z t At ltac:(lia)) as (s' & -> & At'). cbn [bind b_left bset_src bset_sizes b_stack].
      destruct (b_stack b) as [|c st] eqn:Est; [discriminate Hst|]. cbn in Hst. injection Hst as ->.
      destruct (Z.eqb_spec (z - 4) 1) as [E1|E1]; eexists _, t; (split; [reflexivity|]); (split; [exact At'|]); (split; [reflexivity|]);
        cbn [after_ev]; unfold free; cbn [b_stack b_left b_size b_skip b_next bset_next bset_src bset_sizes]; rewrite Est, Hs;
        (split; [exact Hr|]); cbn [due]; destruct (Z.eqb_spec (z - 4) 1); congruence || reflexivity.
    - destruct (start_at k b z t At ltac:(lia)) as (s' & -> & At'). cbn [bind b_left bset_src bset_sizes b_stack].
      destruct (b_stack b) as [|c st] eqn:Est; [discriminate Hst|]. cbn in Hst. injection Hst as ->.
      destruct (Z.eqb_spec (z - 4) 1) as [E1|E1]; eexists _, t; (split; [reflexivity|]); (split; [exact At'|]); (split; [reflexivity|]);
        cbn [after_ev]; unfold free; cbn [b_stack b_left b_size b_skip b_next bset_next bset_src bset_sizes]; rewrite Est, Hs;
        (split; [exact Hr|]); cbn [due]; destruct (Z.eqb_spec (z - 4) 1); congruence || reflexivity.
  Qed.

  Lemma len_app : forall a b, len (a ++ b) = len a + len b.
  Proof. intros a b. unfold len. rewrite app_length. lia. Qed.
  Lemma len_cons : forall c b, len (c :: b) = 1 + len b.
  Proof. intros c b. unfold len. cbn [length]. lia. Qed.
  Lemma len_little : forall n z, len (little n z) = Z.of_nat n.
  Proof. intros n z. unfold len. now rewrite little_length. Qed.
  Lemma len_pos : forall b, 0 <= len b.
  Proof. intro b. unfold len. lia. Qed.
  Lemma framed_len : forall e b, framed e b -> len b = len e + 5.
  Proof. intros e b [H]. rewrite !len_app, len_little. change (len [0]) with 1. lia. Qed.
  Lemma scalar_type : forall a type data, bson_scalar a type data -> type <> 3 /\ type <> 4 /\ sc_null bson_sc a = (type =? 10).
  Proof. intros a type data H. destruct H; repeat split; try lia; reflexivity. Qed.

  (** What the parser does with the type byte. *)
  Definition entered (b : bparser) : bparser :=
    if b_type b =? 3 then bset_next (bset_stack b (BMap :: b_stack b)) TokMapStart
    else if b_type b =? 4 then bset_next (bset_stack b (BArray :: b_stack b)) TokArrayStart
    else bset_next b TokValue.
  Lemma value_pending : forall j b data left evs txt, bson_value Nm j (b_type b) data ->
    b_left b = bump (len data) left -> b_stack b <> [] -> len data < 2 ^ 31 ->
    remains (b_stack b) left (b_size b) evs txt ->
    pending (entered b) (events j ++ evs) (data ++ txt).
  Proof.
    intros j b data left evs txt Hv Hl Hst Hd Hr. unfold entered.
    inversion Hv as [a type d Hsc E1 E2 E3|l e d He Hf E1 E2 E3|l e d He Hf E1 E2 E3]; subst d.
    - destruct (scalar_type _ _ _ Hsc) as (N3 & N4 & _).
      destruct (Z.eqb_spec (b_type b) 3); [contradiction|]. destruct (Z.eqb_spec (b_type b) 4); [contradiction|].
      cbn [events app]. eapply pd_scal; try eassumption; reflexivity.
    - cbn [Z.eqb Pos.eqb]. assert (L := framed_len _ _ Hf). destruct Hf as [Hz].
      cbn [events]. rewrite <- !app_assoc. cbn [app]. rewrite <- app_assoc. cbn [app]. assert (P := len_pos e).
      apply pd_arr; [reflexivity|lia|cbn; now rewrite <- E2|reflexivity|].
      cbn [b_stack b_left b_size bset_next bset_stack]. rewrite Hl, L.
      replace (len e + 5 - 4) with (room e) by (unfold room; lia). eapply rm_arr; try eassumption; unfold room; lia.
    - cbn [Z.eqb Pos.eqb]. assert (L := framed_len _ _ Hf). destruct Hf as [Hz].
      cbn [events]. fold (member_events l). rewrite <- !app_assoc. cbn [app]. rewrite <- app_assoc. cbn [app]. assert (P := len_pos e).
      apply pd_map; [reflexivity|lia|cbn; now rewrite <- E2|reflexivity|].
      cbn [b_stack b_left b_size bset_next bset_stack]. rewrite Hl, L.
      replace (len e + 5 - 4) with (room e) by (unfold room; lia). eapply rm_map; try eassumption; unfold room; lia.
  Qed.

  (** The first lines of getNextToken. *)
  Lemma unskip : forall b evs txt, free b evs txt ->
    exists b', (if b_skip b then
                  do (e, b) <- isEndOfContainer (bset_skip b false);
                  Ok (if e then b else bset_next (bset_elem b (b_key b) 0) TokKey)
                else Ok b) = Ok b' /\
      b_src b' = b_src b /\ b_stack b' = b_stack b /\ b_left b' = b_left b /\ b_size b' = b_size b /\ b_skip b' = false /\
      b_next b' = due (b_stack b) (b_left b) /\ (due (b_stack b) (b_left b) <> TokKey -> b_type b' = b_type b).
  Proof.
    intros b evs txt [Hr Hs]. destruct (b_skip b) eqn:Sk.
    - unfold isEndOfContainer. cbn [b_left b_stack bset_skip]. assert (L := remains_left _ _ _ _ _ Hr).
      destruct (b_left b) as [|l r] eqn:El; [contradiction|]. destruct (b_stack b) as [|c st] eqn:Est; [contradiction|].
      cbn [due]. destruct (l =? 1); [destruct c|]; cbn [bind]; eexists; (split; [reflexivity|]);
        cbn; rewrite ?El, ?Est; repeat split; congruence.
    - exists b. rewrite Sk. auto 10.
  Qed.

  Definition keeps_type (e : ev bscal) (b b' : bparser) : Prop :=
    match e with
    | EMapE | EArrE => b_type b' = b_type b
    | EMapS | EArrS => (b_type b' =? 10) = false
    | _ => True
    end.
  (** The end of a container. *)
  Lemma close_next : forall b l sz st left size evs txt, at_src k (b_src b) (0 :: txt) -> b_skip b = false ->
    (l = BMap \/ l = BArray) ->
    b_stack b = l :: st -> b_left b = 1 :: bump sz left -> b_size b = sz :: size -> 0 <= sz < 2 ^ 31 -> remains st left size evs txt ->
    exists b', (do b <- readEndOfContainer b;
      match b_stack b, b_left b, b_size b with
      | _ :: st, _ :: lf, z :: sz =>
          let b := bset_stack b st in
          match st with
          | [] => Ok (match l with BMap => TokMapEnd | _ => TokArrayEnd end, bset_next (bset_sizes b lf sz) TokDocEnd)
          | _ =>
              do b <- b_use z (bset_sizes b lf sz);
              do (e, b) <- isEndOfContainer b;
              Ok (match l with BMap => TokMapEnd | _ => TokArrayEnd end, if e then b else bset_next b TokKey)
          end
      | _, _, _ => UB
      end) = Ok (match l with BMap => TokMapEnd | _ => TokArrayEnd end, b') /\ at_src k (b_src b') txt /\ free b' evs txt /\ b_type b' = b_type b.
  Proof.
    intros b l sz st left size evs txt At Hs Hl E1 E2 E3 Hsz Hr.
    destruct (readEnd_at k b 1 (bump sz left) txt At E2 ltac:(lia)) as (s' & -> & At'). cbn [bind].
    cbn [b_stack b_left b_size bset_src bset_sizes]. rewrite E1, E3.
    destruct st as [|c st].
    - inversion Hr; subst. eexists. split; [reflexivity|]. split; [exact At'|]. split; [|reflexivity].
      unfold free. cbn. rewrite Hs. split; [now constructor|reflexivity].
    - assert (L := remains_left _ _ _ _ _ Hr). destruct left as [|lf left]; [discriminate L|]. cbn [bump].
      erewrite b_use_at; [|reflexivity|lia]. cbn [bind]. unfold isEndOfContainer. cbn [b_left b_stack bset_sizes bset_stack bset_src b_size].
      replace (lf + sz - sz) with lf by lia.
      destruct (Z.eqb_spec lf 1) as [->|N]; [destruct c|]; cbn [bind]; (eexists; split; [reflexivity|]; split; [exact At'|]; split; [|reflexivity]);
        unfold free; cbn; rewrite Hs; (split; [exact Hr|]); try reflexivity. destruct (Z.eqb_spec lf 1); [contradiction|reflexivity].
  Qed.

  (** The key of an element and, unless in a map, its value. *)
  Lemma elem_next : forall b j type n data r left evs txt, b_skip b = false ->
    at_src k (b_src b) (type :: n ++ 0 :: data ++ txt) ->
    ~ In 0 n -> bson_value Nm j type data -> b_stack b <> [] -> b_left b = room (type :: n ++ 0 :: data ++ r) :: left ->
    room (type :: n ++ 0 :: data ++ r) < 2 ^ 31 -> remains (b_stack b) (room r :: left) (b_size b) evs txt ->
    exists b1, readKey b = Ok b1 /\ b_stack b1 = b_stack b /\ b_key (entered b1) = n /\ b_skip (entered b1) = false /\
      at_src k (b_src (entered b1)) (data ++ txt) /\ pending (entered b1) (events j ++ evs) (data ++ txt).
  Proof.
    intros b j type n data r left evs txt Hs At Hn Hv Hst El Hroom Hr.
    unfold room in *. rewrite len_cons, len_app, len_cons, len_app in *.
    assert (P1 := len_pos n). assert (P2 := len_pos data). assert (P3 := len_pos r).
    destruct (readKey_at k b type n (data ++ txt) _ _ At Hn El ltac:(lia)) as (s' & E & At').
    eexists. split; [exact E|]. split; [reflexivity|].
    set (b1 := bset_src _ s').
    assert (V : pending (entered b1) (events j ++ evs) (data ++ txt)).
    { apply (value_pending j b1 data (len r + 1 :: left) evs txt); [exact Hv| |exact Hst|lia|exact Hr].
      cbn [b1 b_left bset_src bset_sizes bset_elem bump]. f_equal. lia. }
    unfold entered in *. cbn [b1 b_type bset_src bset_sizes bset_elem] in *.
    destruct (type =? 3); [|destruct (type =? 4)]; repeat split; try exact At'; try exact Hs; exact V.
  Qed.

  Theorem free_next : forall b evs txt, free b evs txt -> at_src k (b_src b) txt ->
    match evs with
    | [] => exists b', bson_next b = Ok (TokDocEnd, b') /\ at_src k (b_src b') tl /\ b_type b' = b_type b
    | e :: evs' => exists b' txt', bson_next b = Ok (ev_token e, b') /\ at_src k (b_src b') txt' /\
        after_ev b' e evs' txt' /\ keeps_type e b b'
    end.
  Proof.
    intros b evs txt F At. destruct (unskip b evs txt F) as (b1 & U & S1 & S2 & S3 & S4 & S5 & S6 & S7).
    unfold bson_next. set (again := next_with (fun _ => Hang)). remember (next_with again b) as NB eqn:HNB.
    unfold next_with in HNB at 1. rewrite U in HNB. cbn [bind] in HNB. clear U.
    destruct F as [Hr _]. rewrite <- S1 in At. rewrite S6 in HNB.
    remember (b_stack b) as stk. remember (b_left b) as lft. remember (b_size b) as szs. clear Heqstk Heqlft Heqszs.
    destruct Hr as [Ho|l e z st left size evs' t He Hroom Hz Hr'|i l e z st left size evs' t He Hroom Hz Hr'|i l e z Ho He Hroom Hz].
    - (* document end *)
      cbn [due] in *. rewrite HNB, S2. eexists. split; [reflexivity|]. split; [exact At|]. apply S7. discriminate.
    - (* in a map *)
      destruct He as [|n j l type data r Hn Hv He].
      + change (room []) with 1 in *. cbn [member_events flat_map app due Z.eqb Pos.eqb] in *.
        destruct (close_next b1 BMap z st left size evs' t At S5 (or_introl eq_refl) S2 S3 S4 Hz Hr') as (b' & Ec & A1 & A2 & A3).
        exists b', t. split; [rewrite HNB; exact Ec|]. split; [exact A1|]. split; [exact A2|]. cbn [keeps_type]. rewrite A3. apply S7. discriminate.
      + assert (P : room (type :: n ++ 0 :: data ++ r) =? 1 = false).
        { unfold room. rewrite len_cons, len_app, len_cons. assert (P1 := len_pos n). assert (P2 := len_pos (data ++ r)). lia. }
        cbn [due] in *. rewrite P in *.
        assert (R1 : remains (b_stack b1) (room r :: bump z left) (b_size b1) (member_events l ++ EMapE :: evs') (r ++ 0 :: t)).
        { rewrite S2, S4. constructor; try assumption. unfold room in *. rewrite len_cons, len_app, len_cons, len_app in Hroom.
          assert (P1 := len_pos n). assert (P2 := len_pos data). lia. }
        assert (At1 : at_src k (b_src b1) (type :: n ++ 0 :: data ++ r ++ 0 :: t)).
        { replace (type :: n ++ 0 :: data ++ r ++ 0 :: t) with ((type :: n ++ 0 :: data ++ r) ++ 0 :: t); [exact At|].
          cbn [app]. rewrite <- app_assoc. cbn [app]. now rewrite <- app_assoc. }
        destruct (elem_next b1 j type n data r (bump z left) _ _ S5 At1 Hn Hv ltac:(rewrite S2; discriminate) S3 Hroom R1)
          as (b2 & RK & Q1 & Q2 & Q3 & Q4 & Q5).
        rewrite RK in HNB. cbn [bind] in HNB. rewrite Q1, S2 in HNB. rewrite <- S2, <- Q1 in HNB. fold (entered b2) in HNB.
        cbn [member_events flat_map fst snd app]. fold (member_events l). rewrite <- app_assoc.
        eexists _, (data ++ r ++ 0 :: t). split; [rewrite HNB; reflexivity|]. split; [exact Q4|]. cbn [after_ev keeps_type]. auto.
    - (* in an array *)
      destruct He as [i|i j l type n data r Hnm Hn Hv He].
      + change (room []) with 1 in *. cbn [flat_map app due Z.eqb Pos.eqb] in *.
        destruct (close_next b1 BArray z st left size evs' t At S5 (or_intror eq_refl) S2 S3 S4 Hz Hr') as (b' & Ec & A1 & A2 & A3).
        exists b', t. split; [rewrite HNB; exact Ec|]. split; [exact A1|]. split; [exact A2|]. cbn [keeps_type]. rewrite A3. apply S7. discriminate.
      + assert (P : room (type :: n ++ 0 :: data ++ r) =? 1 = false).
        { unfold room. rewrite len_cons, len_app, len_cons. assert (P1 := len_pos n). assert (P2 := len_pos (data ++ r)). lia. }
        cbn [due] in *. rewrite P in *.
        assert (R1 : remains (b_stack b1) (room r :: bump z left) (b_size b1) (flat_map events l ++ EArrE :: evs') (r ++ 0 :: t)).
        { rewrite S2, S4. apply rm_arr with (i := i + 1); try assumption. unfold room in *. rewrite len_cons, len_app, len_cons, len_app in Hroom.
          assert (P1 := len_pos n). assert (P2 := len_pos data). lia. }
        assert (At1 : at_src k (b_src b1) (type :: n ++ 0 :: data ++ r ++ 0 :: t)).
        { replace (type :: n ++ 0 :: data ++ r ++ 0 :: t) with ((type :: n ++ 0 :: data ++ r) ++ 0 :: t); [exact At|].
          cbn [app]. rewrite <- app_assoc. cbn [app]. now rewrite <- app_assoc. }
        destruct (elem_next b1 j type n data r (bump z left) _ _ S5 At1 Hn Hv ltac:(rewrite S2; discriminate) S3 Hroom R1)
          as (b2 & RK & Q1 & Q2 & Q3 & Q4 & Q5).
        rewrite RK in HNB. cbn [bind] in HNB. rewrite Q1, S2 in HNB. rewrite <- S2, <- Q1 in HNB. fold (entered b2) in HNB.
        cbn [flat_map]. rewrite <- app_assoc.
        destruct (events j ++ flat_map events l ++ EArrE :: evs') as [|e0 evs0] eqn:Ee; [destruct j; discriminate Ee|].
        destruct (pending_next (fun _ => Hang) (entered b2) e0 evs0 _ Q3 Q5 Q4) as (b3 & t3 & N & A1 & A2 & A3).
        exists b3, t3. split; [rewrite HNB; exact N|]. split; [exact A1|]. split; [exact A3|].
        inversion Q5; subst e0; cbn [keeps_type]; auto; rewrite A2; assumption.
    - (* the only value of the document *)
      destruct He as [i|i j l type n data r Hnm Hn Hv He].
      + change (room []) with 1 in *. cbn [flat_map app due Z.eqb Pos.eqb] in *. rewrite HNB, S2.
        destruct (readEnd_at k b1 1 [] tl At S3 ltac:(lia)) as (s' & -> & At'). cbn [bind].
        eexists. split; [reflexivity|]. split; [exact At'|]. apply S7. discriminate.
      + assert (P : room (type :: n ++ 0 :: data ++ r) =? 1 = false).
        { unfold room. rewrite len_cons, len_app, len_cons. assert (P1 := len_pos n). assert (P2 := len_pos (data ++ r)). lia. }
        cbn [due] in *. rewrite P in *.
        assert (R1 : remains (b_stack b1) (room r :: []) (b_size b1) (flat_map events l) (r ++ 0 :: tl)).
        { rewrite S2, S4. apply rm_value with (i := i + 1); try assumption. unfold room in *. rewrite len_cons, len_app, len_cons, len_app in Hroom.
          assert (P1 := len_pos n). assert (P2 := len_pos data). lia. }
        assert (At1 : at_src k (b_src b1) (type :: n ++ 0 :: data ++ r ++ 0 :: tl)).
        { replace (type :: n ++ 0 :: data ++ r ++ 0 :: tl) with ((type :: n ++ 0 :: data ++ r) ++ 0 :: tl); [exact At|].
          cbn [app]. rewrite <- app_assoc. cbn [app]. now rewrite <- app_assoc. }
        destruct (elem_next b1 j type n data r [] _ _ S5 At1 Hn Hv ltac:(rewrite S2; discriminate) S3 Hroom R1)
          as (b2 & RK & Q1 & Q2 & Q3 & Q4 & Q5).
        rewrite RK in HNB. cbn [bind] in HNB. rewrite Q1, S2 in HNB. rewrite <- S2, <- Q1 in HNB. fold (entered b2) in HNB.
        cbn [flat_map].
        destruct (events j ++ flat_map events l) as [|e0 evs0] eqn:Ee; [destruct j; discriminate Ee|].
        destruct (pending_next (fun _ => Hang) (entered b2) e0 evs0 _ Q3 Q5 Q4) as (b3 & t3 & N & A1 & A2 & A3).
        exists b3, t3. split; [rewrite HNB; exact N|]. split; [exact A1|]. split; [exact A3|].
        inversion Q5; subst e0; cbn [keeps_type]; auto; rewrite A2; assumption.
  Qed.

  (** ** The simulation *)
  Definition RB (t : tm bscal) (b : bparser) : Prop :=
    tm_on t = true /\ exists txt, at_src k (b_src b) txt /\
    match tm_pend t with
    | PFree nb => nb = (b_type b =? 10) /\ (free b (tm_evs t) txt \/ (b_skip b = false /\ pending b (tm_evs t) txt))
    | PKey n => after_ev b (EKey n) (tm_evs t) txt
    | PVal a => after_ev b (EScal a) (tm_evs t) txt
    | PEnd nb => nb = (b_type b =? 10) /\ tm_evs t = [] /\ txt = tl
    end.

  Lemma pending_null : forall b n evs txt, pending b evs txt -> key_null bson_sc n evs = (b_type b =? 10).
  Proof.
    intros b n evs txt H. destruct H as [a data left evs txt Hsc _ _ _ _ _|z evs txt _ _ Ht _ _|z evs txt _ _ Ht _ _]; unfold key_null; cbn [sc_lag sc_knull bson_sc andb orb]; [|congruence|congruence].
    now destruct (scalar_type _ _ _ Hsc) as (_ & _ & ->).
  Qed.
  Lemma after_rb : forall b e evs txt nb, at_src k (b_src b) txt -> after_ev b e evs txt ->
    match e with EMapE | EArrE => nb = (b_type b =? 10) | EMapS | EArrS => (b_type b =? 10) = false | _ => True end ->
    RB (mkTm true (ev_pend bson_sc nb e) evs) b.
  Proof.
    intros b e evs txt nb At H Hn. split; [reflexivity|]. exists txt. split; [exact At|].
    destruct e; cbn [ev_pend tm_pend tm_evs sc_lag bson_sc andb]; try exact H; (split; [congruence|now left]).
  Qed.

  (** Reading the pending scalar. *)
  Definition taken (b : bparser) (left : list Z) (s : src) : bparser := bset_src (bset_sizes b left (b_size b)) s.
  Lemma taken_rb : forall a b data left evs rest s, bson_scalar a (b_type b) data -> b_skip b = true -> b_stack b <> [] ->
    remains (b_stack b) left (b_size b) evs rest -> at_src k s rest ->
    RB (mkTm true (PFree (sc_null bson_sc a)) evs) (taken b left s).
  Proof.
    intros a b data left evs rest s Hsc Hs Hst Hr At. split; [reflexivity|]. exists rest. split; [exact At|].
    cbn [tm_pend tm_evs]. split; [now destruct (scalar_type _ _ _ Hsc) as (_ & _ & ->)|]. left.
    split; [exact Hr|]. cbn [b_skip taken bset_src bset_sizes]. rewrite Hs. exact Hst.
  Qed.
  Lemma use_left : forall b z left evs rest, b_left b = bump z left -> 0 <= z < 2 ^ 31 -> b_stack b <> [] ->
    remains (b_stack b) left (b_size b) evs rest ->
    b_use z b = Ok (bset_sizes b left (b_size b)).
  Proof.
    intros b z left evs rest E Hz Hst Hr. assert (L := remains_left _ _ _ _ _ Hr).
    destruct left as [|l left]; [contradiction|]. cbn [bump] in E.
    rewrite (b_use_at b _ _ z E) by lia. do 2 f_equal. f_equal. lia.
  Qed.
  (** Counting a part of it first. *)
  Lemma use_some : forall b n z left evs rest, b_left b = bump (n + z) left -> 0 <= n -> 0 <= z -> n + z < 2 ^ 31 -> b_stack b <> [] ->
    remains (b_stack b) left (b_size b) evs rest ->
    b_use n b = Ok (bset_sizes b (bump z left) (b_size b)).
  Proof.
    intros b n z left evs rest E Hn Hz Hnz Hst Hr. assert (L := remains_left _ _ _ _ _ Hr).
    destruct left as [|l left]; [contradiction|]. cbn [bump] in E |- *.
    rewrite (b_use_at b _ _ n E) by lia. do 2 f_equal. f_equal. lia.
  Qed.

  Lemma ignore_at : forall b d t, at_src k (b_src b) (d ++ t) -> d <> [] ->
    exists s', b_ignore (len d) b = Ok (bset_src b s') /\ at_src k s' t.
  Proof.
    intros b d t At Hd. unfold b_ignore. assert (P := len_pos d). destruct (Z.leb_spec 0 (len d)); [|lia].
    unfold len. rewrite Nat2Z.id. exists (src_ignore (b_src b) (length d)). split; [reflexivity|].
    eapply ignore_at_src; [exact At|exact Hd|reflexivity].
  Qed.

  Section Value.
    Context (b : bparser) (a : bscal) (data : bytes) (left : list Z) (evs : list (ev bscal)) (rest : bytes).
    Hypotheses (Hsc : bson_scalar a (b_type b) data) (Hs : b_skip b = true) (Hl : b_left b = bump (len data) left)
      (Hst : b_stack b <> []) (Hd : len data < 2 ^ 31) (Hr : remains (b_stack b) left (b_size b) evs rest)
      (At : at_src k (b_src b) (data ++ rest)).

    Lemma int_value : forall i, match sc_int bson_sc i a with
      | Ok z => exists s, bson_int i b = Ok (z, taken b left s) /\ at_src k s rest
      | o => o = Throw /\ bson_int i b = Throw
      end.
    Proof.
      intro i. unfold bson_int. destruct Hsc; subst; cbn [sc_int bson_sc Z.eqb Pos.eqb]; try (split; reflexivity).
      - rewrite len_little in *. change (Z.of_nat 4) with 4 in *. change (Z.of_nat 8) with 8 in *.
        rewrite (use_left b _ left evs rest Hl ltac:(lia) Hst Hr). cbn [bind].
        destruct (readLE_at k (bset_sizes b left (b_size b)) 4 z rest At) as (s' & -> & At'); [discriminate|cbn; lia|].
        exists s'. split; [reflexivity|exact At'].
      - rewrite len_little in *. change (Z.of_nat 4) with 4 in *. change (Z.of_nat 8) with 8 in *.
        rewrite (use_left b _ left evs rest Hl ltac:(lia) Hst Hr). cbn [bind].
        destruct (readLE_at k (bset_sizes b left (b_size b)) 8 z rest At) as (s' & -> & At'); [discriminate|cbn; lia|].
        exists s'. split; [reflexivity|exact At'].
    Qed.
    Lemma bool_value : match sc_bool bson_sc a with
      | Ok z => exists s, bson_bool b = Ok (z, taken b left s) /\ at_src k s rest
      | o => o = Throw /\ bson_bool b = Throw
      end.
    Proof.
      unfold bson_bool. destruct Hsc; subst; cbn [sc_bool bson_sc Z.eqb Pos.eqb]; try (split; reflexivity).
      cbn [app] in At. destruct (b_read1 k b _ rest At) as (s' & -> & At'). cbn [bind b_src bset_src]. rewrite (at_ok _ _ _ At').
      rewrite (use_left (bset_src b s') 1 left evs rest Hl ltac:(lia) Hst Hr). cbn [bind].
      exists s'. split; [now destruct b0|exact At'].
    Qed.
    Lemma str_value : match sc_str bson_sc a with
      | Ok z => exists s, bson_str b = Ok (z, taken b left s) /\ at_src k s rest
      | o => o = Throw /\ bson_str b = Throw
      end.
    Proof.
      unfold bson_str. destruct Hsc; subst; cbn [sc_str bson_sc Z.eqb Pos.eqb]; try (split; reflexivity).
      rewrite !len_app, len_little in *. change (len [0]) with 1 in *. change (Z.of_nat 4) with 4 in *.
      assert (P := len_pos s). rewrite <- !app_assoc in At.
      destruct (readLE_at k b 4 (len s + 1) (s ++ [0] ++ rest) At) as (s1 & -> & At1); [discriminate|cbn; lia|]. cbn [bind].
      rewrite (use_some (bset_src b s1) 4 (len s + 1) left evs rest Hl ltac:(lia) ltac:(lia) ltac:(lia) Hst Hr). cbn [bind].
      destruct (Z.leb_spec (len s + 1) 0); [lia|].
      assert (Ln : Z.to_nat (len s + 1) = length (s ++ [0])) by (rewrite app_length; unfold len; cbn; lia). rewrite Ln.
      rewrite app_assoc in At1.
      destruct (b_read_at k (bset_sizes (bset_src b s1) (bump (len s + 1) left) (b_size b)) (s ++ [0]) rest At1) as (s2 & E & At2).
      { destruct s; discriminate. }
      change (b_size (bset_src b s1)) with (b_size b). rewrite E. cbn [bind b_src bset_src bset_sizes]. rewrite (at_ok _ _ _ At2).
      erewrite (use_left _ (len s + 1) left evs rest); [|reflexivity|lia|exact Hst|exact Hr]. cbn [bind].
      exists s2. split; [|exact At2]. rewrite Nat.sub_diag. cbn [repeat]. rewrite app_nil_r, app_length. cbn [length].
      replace (length s + 1 - 1)%nat with (length s) by lia. rewrite firstn_app, firstn_all, Nat.sub_diag. cbn [firstn]. rewrite app_nil_r. reflexivity.
    Qed.
    Lemma ignore_value : exists s, bson_ignore b = Ok (taken b left s) /\ at_src k s rest.
    Proof.
      assert (Fix : forall n, len data = n -> 0 < n -> exists s, ignore_fixed n b = Ok (taken b left s) /\ at_src k s rest).
      { intros n <- Hn. unfold ignore_fixed. destruct (ignore_at b data rest At) as (s & -> & At').
        { intros E. rewrite E in Hn. cbn in Hn. lia. }
        cbn [bind]. erewrite (use_left (bset_src b s) _ left evs rest); [|exact Hl|lia|exact Hst|exact Hr]. exists s. split; [reflexivity|exact At']. }
      assert (Sized : forall z more d, data = little 4 z ++ d -> len d = z + more -> 0 <= z -> 0 <= more -> 0 < len d ->
        exists s, ignore_sized more b = Ok (taken b left s) /\ at_src k s rest).
      { intros z more d -> E Hz Hm Hp. unfold ignore_sized. rewrite len_app, len_little in *. change (Z.of_nat 4) with 4 in *.
        rewrite <- app_assoc in At.
        destruct (readLE_at k b 4 z (d ++ rest) At) as (s1 & -> & At1); [discriminate|cbn; lia|]. cbn [bind].
        destruct (Z.ltb_spec (z + more + 4) (2 ^ 31)); [|lia]. rewrite <- E.
        destruct (ignore_at (bset_src b s1) d rest At1) as (s2 & -> & At2).
        { intros E'. rewrite E' in Hp. cbn in Hp. lia. }
        cbn [bind]. erewrite (use_left _ _ left evs rest); [|cbn [b_left bset_src]; rewrite Hl; f_equal; lia|lia|exact Hst|exact Hr].
        exists s2. split; [reflexivity|exact At2]. }
      unfold bson_ignore. rewrite Hs. cbn [negb].
      destruct Hsc; subst; cbn [Z.eqb Pos.eqb];
        try (apply Fix; [first [rewrite len_little; reflexivity | (unfold len; match goal with H : length _ = _ |- _ => rewrite H end; reflexivity) | reflexivity]|lia]).
      - apply (Sized (len s + 1) 0 (s ++ [0])); [reflexivity|rewrite len_app; cbn; lia|assert (P := len_pos s); lia|lia|].
        rewrite len_app. assert (P := len_pos s). change (len [0]) with 1. lia.
      - exists (b_src b). split; [|exact At]. unfold taken. f_equal. cbn in Hl.
        assert (L := remains_left _ _ _ _ _ Hr). destruct left; [contradiction|]. cbn [bump] in Hl.
        destruct b; cbn in *. unfold bset_src, bset_sizes. cbn. rewrite Hl. f_equal. f_equal. lia.
      - apply (Sized (len d) 1 (sub :: d)); [reflexivity|rewrite len_cons; lia|apply len_pos|lia|rewrite len_cons; assert (P := len_pos d); lia].
    Qed.
  End Value.

  Theorem bson_sim : sim (tree_ops bson_sc) bson_ops RB.
  Proof.
    split.
    - (* next *)
      intros [on pd evs] b [Hon (txt & At & H)]. cbn in Hon. subst on. cbn [op_next tree_ops bson_ops]. unfold tm_next.
      cbn [tm_on tm_pend tm_evs negb] in *. destruct pd as [nb|n|a|nb]; try exact I.
      destruct H as [-> [F|[Sk P]]].
      + assert (N := free_next b evs txt F At). destruct evs as [|e evs].
        * destruct N as (b' & -> & At' & Ht). cbn [follows]. eexists. split; [reflexivity|]. split; [reflexivity|].
          exists tl. split; [exact At'|]. cbn. rewrite Ht. auto.
        * destruct N as (b' & txt' & -> & At' & Af & Kt). cbn [follows]. eexists. split; [reflexivity|].
          eapply after_rb; [exact At'|exact Af|]. destruct e; cbn [keeps_type] in Kt; try rewrite Kt; auto.
      + destruct evs as [|e evs]; [inversion P|].
        destruct (pending_next (next_with (fun _ => Hang)) b e evs txt Sk P At) as (b' & txt' & E & At' & Ht & Af).
        unfold bson_next. rewrite E. cbn [follows]. eexists. split; [reflexivity|].
        eapply after_rb; [exact At'|exact Af|]. inversion P; subst e; auto; rewrite Ht; assumption.
    - (* key *)
      intros [on pd evs] b [Hon (txt & At & H)]. cbn in Hon. subst on. cbn [op_key tree_ops bson_ops]. unfold tm_key.
      cbn [tm_on tm_pend tm_evs] in *. destruct pd as [nb|n|a|nb]; try exact I. destruct H as (K & Sk & P).
      cbn [sc_key bson_sc bind follows]. eexists. split; [rewrite K; reflexivity|].
      split; [reflexivity|]. exists txt. split; [exact At|]. cbn [tm_pend tm_evs]. split; [exact (pending_null _ _ _ _ P)|]. auto.
    - intros i [on pd evs] b [Hon (txt & At & H)]. cbn in Hon. subst on. cbn [op_int tree_ops bson_ops]. unfold tm_val.
      cbn [tm_on tm_pend tm_evs] in *. destruct pd as [nb|n|a|nb]; try exact I.
      destruct H as (Sk & data & left & rest & -> & Hsc & Hl & Hst & Hd & Hr).
      assert (V := int_value b a data left evs rest Hsc Hl Hst Hd Hr At i).
      destruct (sc_int bson_sc i a); try (destruct V as [V1 V2]; first [discriminate V1|exact V2]).
      destruct V as (s & -> & At'). cbn [bind follows]. eexists. split; [reflexivity|]. eapply taken_rb; eassumption.
    - intros [on pd evs] b [Hon (txt & At & H)]. cbn in Hon. subst on. cbn [op_bool tree_ops bson_ops]. unfold tm_val.
      cbn [tm_on tm_pend tm_evs] in *. destruct pd as [nb|n|a|nb]; try exact I.
      destruct H as (Sk & data & left & rest & -> & Hsc & Hl & Hst & Hd & Hr).
      assert (V := bool_value b a data left evs rest Hsc Hl Hst Hd Hr At).
      destruct (sc_bool bson_sc a); try (destruct V as [V1 V2]; first [discriminate V1|exact V2]).
      destruct V as (s & -> & At'). cbn [bind follows]. eexists. split; [reflexivity|]. eapply taken_rb; eassumption.
    - intros [on pd evs] b [Hon (txt & At & H)]. cbn in Hon. subst on. cbn [op_str tree_ops bson_ops]. unfold tm_val.
      cbn [tm_on tm_pend tm_evs] in *. destruct pd as [nb|n|a|nb]; try exact I.
      destruct H as (Sk & data & left & rest & -> & Hsc & Hl & Hst & Hd & Hr).
      assert (V := str_value b a data left evs rest Hsc Hl Hst Hd Hr At).
      destruct (sc_str bson_sc a); try (destruct V as [V1 V2]; first [discriminate V1|exact V2]).
      destruct V as (s & -> & At'). cbn [bind follows]. eexists. split; [reflexivity|]. eapply taken_rb; eassumption.
    - intros [on pd evs] b [Hon (txt & At & H)]. cbn in Hon. subst on. cbn [op_null tree_ops bson_ops]. unfold tm_null.
      cbn [tm_on tm_pend tm_evs] in *. destruct pd as [nb|n|a|nb].
      + apply H.
      + destruct H as (K & Sk & P). exact (pending_null _ _ _ _ P).
      + destruct H as (Sk & data & left & rest & -> & Hsc & _). now destruct (scalar_type _ _ _ Hsc) as (_ & _ & ->).
      + apply H.
    - intros [on pd evs] b [Hon (txt & At & H)]. cbn in Hon. subst on. cbn [op_ignore tree_ops bson_ops]. unfold tm_ignore.
      cbn [tm_on tm_pend tm_evs] in *. destruct pd as [nb|n|a|nb]; try exact I.
      + destruct H as (K & Sk & P). cbn [sc_kskip bson_sc follows_]. unfold bson_ignore. rewrite Sk. cbn [negb].
        eexists. split; [reflexivity|]. split; [reflexivity|]. exists txt. split; [exact At|]. cbn [tm_pend tm_evs].
        split; [exact (pending_null _ _ _ _ P)|]. auto.
      + destruct H as (Sk & data & left & rest & -> & Hsc & Hl & Hst & Hd & Hr).
        destruct (sc_skip bson_sc a && _); [|exact I]. cbn [follows_].
        destruct (ignore_value b a data left evs rest Hsc Sk Hl Hst Hd Hr At) as (s & -> & At').
        eexists. split; [reflexivity|]. eapply taken_rb; eassumption.
    - intros f a b H. now apply follows__ret.
    - intros f a b H. now apply follows__ret.
  Qed.
End Sim.
