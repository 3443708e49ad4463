(** What the BSON printer writes for a value. *)
From Coq Require Import ZArith String List Bool Lia ZifyBool.
From Verif Require Import Model.Base Model.Source Model.Number Model.Unicode Model.Printer Model.JsonPrinter Model.Types Model.Serializer Model.Exporter
  Model.Binary Model.BsonPrinter Model.BsonParser Model.BsonDoc
  Spec.JsonString Spec.Json Spec.Typed Spec.Import Spec.Denotes Spec.Sizes Spec.Bson Spec.BsonDenotes
  Proofs.Induct Proofs.UnicodeP Proofs.TypedP Proofs.InterpP Proofs.DenotesP Proofs.PrintP Proofs.DocP Proofs.ExportP Proofs.BinaryP Proofs.BsonSim Proofs.BsonImportP.
Import ListNotations.
Open Scope Z_scope.

(** ** Bytes *)
Lemma little_mod : forall n z w, (w - z) mod 2 ^ (8 * Z.of_nat n) = 0 -> little n w = little n z.
Proof.
  intros n z w H. assert (E : le_value (little n w) = le_value (little n z)).
  { rewrite !le_value_little. assert (P := pow256_pos n). apply Z.mod_divide in H; [|lia]. destruct H as [q H].
    replace w with (z + q * 2 ^ (8 * Z.of_nat n)) by lia. apply Z.mod_add. lia. }
  rewrite <- (little_le_value (little n w)), <- (little_le_value (little n z)) by apply little_bytes.
  now rewrite !little_length, E.
Qed.
Lemma put_size_little : forall z, put_size z = little 4 z.
Proof. intro z. unfold put_size. apply writeLE_little. Qed.

(** ** The names of array elements *)
Fixpoint names_len (i : Z) (n : nat) : Z :=
  match n with O => 0 | S n => len (int_dec i) + names_len (i + 1) n end.
Lemma names_len_app : forall a b i, names_len i (a + b) = names_len i a + names_len (i + Z.of_nat a) b.
Proof.
  induction a as [|a IH]; intros b i; cbn [Nat.add names_len]; [now rewrite Z.add_0_r|]. rewrite IH.
  replace (i + 1 + Z.of_nat a) with (i + Z.of_nat (S a)) by lia. lia.
Qed.
Lemma decimal_digits : forall l a, decimal_value a l = digits_value a l.
Proof. induction l as [|x l IH]; intro a; cbn [decimal_value digits_value]; [reflexivity|]. apply IH. Qed.
Lemma int_dec_pos : forall i, 0 <= i -> int_dec i = nat_dec i.
Proof. intros i H. unfold int_dec. destruct (i <? 0) eqn:E; [lia|reflexivity]. Qed.
Lemma int_dec_decimal : forall i, 0 <= i -> decimal_name i (int_dec i).
Proof.
  intros i H. rewrite int_dec_pos by exact H. destruct (nat_dec_spec i H) as (H1 & H2 & _). split; [exact H1|]. now rewrite decimal_digits.
Qed.
Lemma int_dec_nul : forall i, 0 <= i -> ~ In 0 (int_dec i).
Proof.
  intros i H. destruct (int_dec_decimal i H) as [Hp _]. intro Hin. inversion Hp as [E|c r Hc Hr E]; subst; rewrite <- E in Hin.
  - destruct Hin as [Q|[]]. discriminate Q.
  - destruct Hin as [Q|Hin]; [lia|]. rewrite Forall_forall in Hr. specialize (Hr _ Hin). unfold digit in Hr. lia.
Qed.
Lemma digits_bound : forall l a, Forall digit l -> 0 <= a -> digits_value a l < (a + 1) * 10 ^ Z.of_nat (List.length l).
Proof.
  induction l as [|x l IH]; intros a H Ha; cbn [digits_value List.length].
  - change (10 ^ Z.of_nat 0) with 1. lia.
  - inversion H as [|? ? Hx Hl]; subst. unfold digit in Hx. rewrite Nat2Z.inj_succ, Z.pow_succ_r by lia.
    assert (Q := IH (10 * a + (x - 48)) Hl ltac:(lia)). assert (P : 0 < 10 ^ Z.of_nat (List.length l)) by (apply Z.pow_pos_nonneg; lia). nia.
Qed.
Lemma int_dec_len : forall i d, 0 < d -> 0 <= i < 10 ^ d -> (d = 1 \/ 10 ^ (d - 1) <= i) -> len (int_dec i) = d.
Proof.
  intros i d Hd Hi Hl. rewrite int_dec_pos by lia. destruct (nat_dec_spec i ltac:(lia)) as (H1 & H2 & H3). unfold len.
  assert (U := H3 d Hd ltac:(lia)).
  assert (N : (0 < List.length (nat_dec i))%nat) by (inversion H1; cbn; lia).
  destruct Hl as [->|Hl]; [lia|].
  assert (Fd : Forall digit (nat_dec i)).
  { inversion H1 as [E|c r Hc Hr E]; constructor; auto; try (unfold digit; lia). }
  assert (B := digits_bound (nat_dec i) 0 Fd ltac:(lia)). rewrite H2 in B.
  destruct (Z.lt_ge_cases (Z.of_nat (List.length (nat_dec i))) d) as [L|L]; [|lia]. exfalso.
  assert (M : 10 ^ Z.of_nat (List.length (nat_dec i)) <= 10 ^ (d - 1)) by (apply Z.pow_le_mono_r; lia). lia.
Qed.
Lemma names_len_const : forall n i d, 0 < d -> 0 <= i -> i + Z.of_nat n <= 10 ^ d -> (d = 1 \/ 10 ^ (d - 1) <= i) ->
  names_len i n = Z.of_nat n * d.
Proof.
  induction n as [|n IH]; intros i d Hd Hi Hu Hl; cbn [names_len]; [lia|].
  rewrite (int_dec_len i d) by lia. rewrite (IH (i + 1) d) by lia. lia.
Qed.
Lemma size_loop_names : forall n count d acc tot, 0 < d ->
  (d = 1 /\ acc = 0 \/ 1 < d /\ acc = 10 ^ (d - 1)) -> acc <= count -> tot = names_len 0 (Z.to_nat acc) ->
  count < 10 ^ (d + Z.of_nat n - 1) -> (0 < n)%nat ->
  size_loop n count tot acc (10 ^ d) d = Some (names_len 0 (Z.to_nat count)).
Proof.
  induction n as [|n IH]; intros count d acc tot Hd Ha Hc Ht Hb Hn; [lia|]. cbn [size_loop].
  assert (P0 : 0 < 10 ^ (d - 1)) by (apply Z.pow_pos_nonneg; lia). assert (P1 : 10 ^ d = 10 * 10 ^ (d - 1)).
  { replace d with (1 + (d - 1)) at 1 by lia. rewrite Z.pow_add_r by lia. reflexivity. }
  assert (Seg : forall e, acc <= e -> e <= 10 ^ d -> names_len 0 (Z.to_nat e) = tot + (e - acc) * d).
  { intros e H1 H2. replace (Z.to_nat e) with (Z.to_nat acc + Z.to_nat (e - acc))%nat by lia. rewrite names_len_app, Ht.
    replace (0 + Z.of_nat (Z.to_nat acc)) with acc by lia. rewrite (names_len_const (Z.to_nat (e - acc)) acc d); [rewrite Z2Nat.id by lia; reflexivity|lia|lia|lia|].
    destruct Ha as [[Ha _]|[_ Ha]]; [now left|right; lia]. }
  destruct (Z.leb_spec (10 ^ d) count) as [L|L].
  - replace (10 ^ d * 10) with (10 ^ (d + 1)) by (rewrite Z.pow_add_r by lia; lia). apply IH; try lia.
    + right. split; [lia|]. f_equal. lia.
    + rewrite Seg by lia. lia.
    + replace (d + 1 + Z.of_nat n - 1) with (d + Z.of_nat (S n) - 1) by lia. exact Hb.
    + destruct n; [|lia]. replace (d + Z.of_nat 1 - 1) with d in Hb by lia. lia.
  - f_equal. now rewrite Seg by lia.
Qed.
Lemma index_lengths_names : forall n, index_lengths (Z.of_nat n) = names_len 0 n.
Proof.
  intro n. unfold index_lengths. change 10 with (10 ^ 1) at 1. rewrite (size_loop_names _ _ 1 0 0); [now rewrite Nat2Z.id|lia|auto|lia|reflexivity| |lia].
  rewrite Nat2Z.inj_succ, Z2Nat.id by apply Z.log2_nonneg. replace (1 + Z.succ (Z.log2 (Z.of_nat n)) - 1) with (Z.succ (Z.log2 (Z.of_nat n))) by lia.
  destruct n as [|n]; [reflexivity|]. apply Z.lt_le_trans with (2 ^ Z.succ (Z.log2 (Z.of_nat (S n)))); [apply Z.log2_spec; lia|]. apply Z.pow_le_mono_l. lia.
Qed.

Lemma Forall2_length : forall {X Y} {R : X -> Y -> Prop} {a b}, Forall2 R a b -> List.length a = List.length b.
Proof. intros X Y R a b F. induction F; cbn [List.length]; congruence. Qed.

(** ** Object ids *)
(** Objects get an [_id] where they stand in an array that is a member of the root. *)
Definition id_here (st : list bcont) : bool := match st with [BArray; BMap] => true | _ => false end.
Definition id_member (on : bool) (st : list bcont) (l : list (bytes * tree bscal)) : Prop :=
  if on && id_here st then exists d, List.length d = 12%nat /\ l = [(bs "_id", Scal (BOther 7 d))] else l = [].
Inductive added (on : bool) : list bcont -> tree bscal -> tree bscal -> Prop :=
| ad_scal : forall st a, added on st (Scal a) (Scal a)
| ad_arr : forall st l l', Forall2 (added on (BArray :: st)) l l' -> added on st (Arr l) (Arr l')
| ad_obj : forall st p l l', id_member on st p -> Forall2 (fun m m' => fst m' = fst m /\ added on (BMap :: st) (snd m) (snd m')) l l' ->
    added on st (Obj l) (Obj (p ++ l')).

(** ** Single writers *)
(** A value that is no container; a projection writes the number 1 for it. *)
Definition leaf (proj : bool) (a : bscal) : bscal := if proj then BInt32 1 else a.
Definition leaf_bool (proj : bool) (b : bool) (a : bscal) : Prop := a = leaf proj (BBool b).
Definition leaf_str (proj : bool) (s : bytes) (a : bscal) : Prop := a = leaf proj (BStr s).
Definition leaf_null (proj : bool) (a : bscal) : Prop := a = leaf proj BNull.

Section Export.
  Context (proj : bool) (ids : option (nat -> bytes)) (marker : bytes).
  Hypotheses (Hids : forall f n, ids = Some f -> List.length (f n) = 12%nat) (Hmark : nul_free marker).
  (** Any way to write numbers. *)
  Context (num : ity -> Z -> writer bprinter) (szn : ity -> Z -> bprinter -> outcome Z) (Int : ity -> Z -> bscal -> Prop).
  Notation P := (bson_with num szn (bson_printer proj ids)).
  Notation S := (ser P marker).
  Notation D := (sense_of Int (leaf_bool proj) (leaf_str proj) (leaf_str proj) (leaf_null proj) bson_key marker).
  Notation Nm := decimal_name.
  Notation text := chunks_text.
  Definition with_ids : bool := match ids with Some _ => true | None => false end.
  Notation Ad := (added with_ids).

  (** The ids made between two states of the printer. *)
  Definition given (s s' : bprinter) (l : list bytes) : Prop :=
    (bp_ids s <= bp_ids s')%nat /\ match ids with Some f => l = map f (seq (bp_ids s) (bp_ids s' - bp_ids s)) | None => True end.
  Lemma given_none : forall s s', bp_ids s' = bp_ids s -> given s s' [].
  Proof. clear Hids Hmark. intros s s' E. split; [lia|]. rewrite E, Nat.sub_diag. now destruct ids. Qed.
  Lemma given_other : forall s s' l, bp_ids s' = bp_ids s -> (ids <> None -> l = []) -> given s s' l.
  Proof. clear Hids Hmark. intros s s' l E H. split; [lia|]. rewrite E, Nat.sub_diag. destruct ids; [|exact Logic.I]. apply H. discriminate. Qed.
  Lemma given_trans : forall s s1 s2 a b, given s s1 a -> given s1 s2 b -> given s s2 (a ++ b).
  Proof.
    clear Hids Hmark. intros s s1 s2 a b [A Ha] [B Hb]. split; [lia|]. destruct ids as [f|]; [|exact Logic.I]. subst a b. rewrite <- map_app. f_equal.
    replace (bp_ids s1) with (bp_ids s + (bp_ids s1 - bp_ids s))%nat at 2 by lia. rewrite <- seq_app. f_equal. lia.
  Qed.
  Lemma given_like : forall s s' s1 s1' l, bp_ids s1 = bp_ids s -> bp_ids s1' = bp_ids s' -> given s s' l -> given s1 s1' l.
  Proof. intros s s' s1 s1' l E E'. unfold given. now rewrite E, E'. Qed.

  Definition noval (out : list chunk) : Prop := Forall (fun c => exists b, c = Wr b) out.
  Lemma noval_app : forall a b, noval a -> noval b -> noval (a ++ b).
  Proof. intros a b Ha Hb. now apply Forall_app. Qed.
  Lemma text_app : forall a b, text (a ++ b) = text a ++ text b.
  Proof. intros a b. unfold chunks_text. apply flat_map_app. Qed.
  Lemma noval_one : forall b, noval [Wr b].
  Proof. intro b. constructor; [now exists b|constructor]. Qed.

  Definition good (s : bprinter) : Prop := match bp_stack s with BArray :: _ => bp_index s <> [] | _ => True end.
  Definition moved (s s' : bprinter) : Prop :=
    bp_stack s' = bp_stack s /\
    bp_index s' = match bp_stack s, bp_index s with BArray :: _, i :: r => i + 1 :: r | _, x => x end.
  Definition container (type : Z) : bool := (type =? 3) || (type =? 4).
  (** What stands in front of the data of a value. *)
  Definition head (s : bprinter) (type : Z) (data : bytes) : bytes :=
    match bp_stack s with
    | [] => if container type then [] else little 4 (4 + 1 + 2 + len data + 1) ++ [type; 48; 0]
    | BArray :: _ => type :: int_dec (hd 0 (bp_index s)) ++ [0]
    | _ => type :: bp_key s ++ [0]
    end.
  Lemma key_out : forall s type data, good s ->
    exists out s', writeKey type (if container type then None else Some (len data)) s = Ok (out, s') /\ noval out /\ moved s s' /\
      text out = head s type data /\ bp_key s' = bp_key s /\ bp_ids s' = bp_ids s.
  Proof.
    intros s type data G. unfold writeKey, head, moved, good in *. destruct (bp_stack s) as [|c st] eqn:Es.
    - destruct (container type).
      + exists [], s. rewrite Es. repeat split. constructor.
      + eexists _, s. split; [reflexivity|]. rewrite put_size_little, Es. repeat split. repeat constructor; eexists; reflexivity.
    - destruct c.
      + eexists _, s. split; [reflexivity|]. rewrite Es. repeat split; [repeat constructor; eexists; reflexivity|].
        cbn [chunks_text flat_map chunk_bytes app]. now rewrite app_nil_r.
      + destruct (bp_index s) as [|i r] eqn:Ei; [congruence|]. eexists _, _. split; [reflexivity|]. cbn [bp_stack bp_index bp_ids bp_key hd].
        repeat split. repeat constructor; eexists; reflexivity.
      + eexists _, s. split; [reflexivity|]. rewrite Es. repeat split; [repeat constructor; eexists; reflexivity|].
        cbn [chunks_text flat_map chunk_bytes app]. now rewrite app_nil_r.
  Qed.
  Lemma head_container : forall s type a b, container type = true -> head s type a = head s type b.
  Proof. intros s type a b C. unfold head. now rewrite C. Qed.

  (** ** Values, elements and members *)
  Definition elem_out (j : tree bscal) (W : writer bprinter) (sz : bprinter -> outcome Z) : Prop :=
    forall s, good s -> exists out s' j' type data,
      W s = Ok (out, s') /\ noval out /\ moved s s' /\ (Ad (bp_stack s) j j' /\ given s s' (object_ids j')) /\ text out = head s type data ++ data /\
      (forall s1, bp_stack s1 = bp_stack s -> sz s1 = Ok (len data)) /\
      (container type = match j with Scal _ => false | _ => true end) /\
      (len data < 2 ^ 31 -> bson_value Nm j' type data).
  Definition elems_out (js : list (tree bscal)) (W : writer bprinter) (sz : bprinter -> outcome Z) : Prop :=
    forall s i r st, bp_stack s = BArray :: st -> bp_index s = i :: r -> exists out s' js',
      W s = Ok (out, s') /\ noval out /\ bp_stack s' = bp_stack s /\ bp_index s' = i + Z.of_nat (List.length js) :: r /\
      (Forall2 (Ad (bp_stack s)) js js' /\ given s s' (flat_map object_ids js')) /\
      (exists z, len (text out) = z + 2 * Z.of_nat (List.length js) + names_len i (List.length js) /\
                 forall s1, bp_stack s1 = bp_stack s -> sz s1 = Ok z) /\
      (0 <= i -> len (text out) < 2 ^ 31 -> bson_elems Nm i js' (text out)).
  Definition mems_out (l : list (bytes * tree bscal)) (W : writer bprinter) (Sz : list bcont -> Z -> Prop) : Prop :=
    forall s st, bp_stack s = BMap :: st -> exists out s' l' z,
      W s = Ok (out, s') /\ noval out /\ bp_stack s' = bp_stack s /\ bp_index s' = bp_index s /\
      (Forall2 (fun m m' => fst m' = fst m /\ Ad (bp_stack s) (snd m) (snd m')) l l' /\ given s s' (flat_map (fun m => object_ids (snd m)) l')) /\
      Sz st z /\ len (text out) = z + 2 * Z.of_nat (List.length l) /\
      (len (text out) < 2 ^ 31 -> bson_members Nm l' (text out)).

  Lemma scalar_out_any : forall a type data, bson_scalar a type data -> container type = false -> (ids <> None -> object_ids (Scal a) = []) ->
    elem_out (Scal a) (w_then (writeKey type (Some (len data))) (w_put data)) (fun _ => Ok (len data)).
  Proof.
    intros a type data Hsc T Ho s G. destruct (key_out s type data G) as (out & s' & E & N & M & Tx & I). rewrite T in E.
    eexists _, s', (Scal a), type, data. split; [unfold w_then; rewrite E; reflexivity|]. split; [apply noval_app; [exact N|apply noval_one]|].
    split; [exact M|]. split; [split; [constructor|apply given_other; [apply I|exact Ho]]|]. split; [rewrite text_app, Tx; cbn [chunks_text flat_map chunk_bytes]; now rewrite app_nil_r|].
    split; [reflexivity|]. split; [exact T|]. intro L. now constructor.
  Qed.
  Lemma scalar_out : forall a type data, bson_scalar a type data -> container type = false -> object_ids (Scal a) = [] ->
    elem_out (Scal a) (w_then (writeKey type (Some (len data))) (w_put data)) (fun _ => Ok (len data)).
  Proof. intros a type data Hsc T Ho. apply scalar_out_any; auto. Qed.

  Definition num_out : Prop := forall i z a, Int i z a -> elem_out (Scal a) (num i z) (fun s => pr_szInt P i z s).
  Hypothesis int_out : num_out.
  Lemma one_out : elem_out (Scal (BInt32 1)) (writeInt 4 1) (fun _ => Ok 4).
  Proof.
    unfold writeInt. rewrite writeLE_little. refine (scalar_out (BInt32 1) 16 (little 4 1) (bc_int32 1 _) eq_refl eq_refl). lia.
  Qed.
  Lemma bool_out : forall b, elem_out (Scal (leaf proj (BBool b))) (pr_bool P b) (fun s => Ok (pr_szBool P b s)).
  Proof. intro b. cbn [bson_with bson_printer pr_bool pr_szBool]. unfold bs_bool, unless_projection, bs_size, leaf. destruct proj; [exact one_out|]. exact (scalar_out (BBool b) 8 [if b then 1 else 0] (bc_bool b) eq_refl eq_refl). Qed.
  Lemma str_out : forall t, plain t -> elem_out (Scal (leaf proj (BStr t))) (pr_str P t) (fun s => Ok (pr_szStr P t s)).
  Proof.
    intros t H. cbn [bson_with bson_printer pr_str pr_szStr]. unfold bs_str, unless_projection, bs_size, leaf. destruct proj; [exact one_out|]. rewrite (plain_escape _ H), put_size_little.
    assert (Q := scalar_out (BStr t) 2 (little 4 (len t + 1) ++ t ++ [0]) (bc_str t) eq_refl eq_refl).
    rewrite !len_app, len_little in Q. change (len [0]) with 1 in Q. change (Z.of_nat 4) with 4 in Q. unfold len in *.
    rewrite <- Z.add_assoc. exact Q.
  Qed.
  Lemma null_out : elem_out (Scal (leaf proj BNull)) (pr_null P) (fun s => Ok (pr_szNull P s)).
  Proof.
    cbn [bson_with bson_printer pr_null pr_szNull]. unfold bs_null, unless_projection, bs_size, leaf. destruct proj; [exact one_out|].
    intros s G. destruct (key_out s 10 [] G) as (out & s' & E & N & M & T & I).
    change (Some 0) with (Some (len [])).
    exists out, s', (Scal BNull), 10, []. split; [exact E|]. split; [exact N|]. split; [exact M|]. split; [split; [constructor|apply given_none, I]|]. rewrite app_nil_r. split; [exact T|].
    split; [reflexivity|]. split; [reflexivity|]. intros _. constructor. constructor.
  Qed.
  Lemma elem_sz : forall j W sz sz', (forall s, sz s = sz' s) -> elem_out j W sz -> elem_out j W sz'.
  Proof.
    intros j W sz sz' E H s G. destruct (H s G) as (out & s' & j' & type & data & Q1 & Q2 & Q3 & Q4 & Q5 & Q6 & Q7).
    exists out, s', j', type, data. repeat (split; [assumption|]). split; [|exact Q7]. intros s1 E1. rewrite <- E. now apply Q6.
  Qed.

  (** Elements of arrays. *)
  Lemma elems_nil_out : forall sz, (forall s, sz s = Ok 0) -> elems_out [] w_nothing sz.
  Proof.
    intros sz Hz s i r st Es Ei. exists [], s, []. split; [reflexivity|]. split; [constructor|]. split; [reflexivity|]. split; [cbn; rewrite Z.add_0_r; exact Ei|].
    split; [split; [constructor|now apply given_none]|]. split; [exists 0; auto|]. intros _ _. constructor.
  Qed.
  Lemma elems_cons_out : forall j js W1 W2 sz1 sz2 sz, elem_out j W1 sz1 -> elems_out js W2 sz2 ->
    (forall s, sz s = do a <- sz1 s; do b <- sz2 s; Ok (a + b)) -> elems_out (j :: js) (w_then W1 W2) sz.
  Proof.
    intros j js W1 W2 sz1 sz2 sz H1 H2 Hz s i r st Es Ei.
    destruct (H1 s) as (o1 & s1 & j' & type & data & E1 & N1 & (M1 & M1') & J1 & T1 & Z1 & C1 & V1).
    { unfold good. rewrite Es, Ei. discriminate. }
    rewrite Es, Ei in M1'.
    destruct (H2 s1 (i + 1) r st ltac:(congruence) M1') as (o2 & s2 & js' & E2 & N2 & S2 & I2 & J2 & (z & Lz & Z2) & V2).
    assert (Tx : text (o1 ++ o2) = type :: int_dec i ++ 0 :: data ++ text o2).
    { rewrite text_app, T1. unfold head. rewrite Es, Ei. cbn [hd app]. rewrite <- !app_assoc. reflexivity. }
    exists (o1 ++ o2), s2, (j' :: js'). rewrite Tx.
    split; [unfold w_then; rewrite E1; cbn [bind]; rewrite E2; reflexivity|]. split; [now apply noval_app|]. split; [congruence|].
    split; [rewrite I2; f_equal; cbn [List.length]; lia|]. split; [split; [constructor; [apply J1|rewrite <- M1; apply J2]|cbn [flat_map]; eapply given_trans; [apply J1|apply J2]]|].
    split.
    - exists (len data + z). split; [cbn [List.length names_len]; rewrite len_cons, len_app, len_cons, len_app, Lz; lia|].
      intros s3 E3. rewrite Hz, (Z1 s3 E3). cbn [bind]. rewrite (Z2 s3); [reflexivity|congruence].
    - intros Hi L. rewrite len_cons, len_app, len_cons, len_app in L. assert (Pa := len_pos (int_dec i)). assert (Pb := len_pos data). assert (Pc := len_pos (text o2)).
      constructor; [now apply int_dec_decimal|now apply int_dec_nul|apply V1; lia|apply V2; lia].
  Qed.

  (** Members of objects. *)
  Lemma mems_nil_out : forall Sz : list bcont -> Z -> Prop, (forall s, Sz s 0) -> mems_out [] w_nothing Sz.
  Proof.
    intros Sz Hz s st Es. exists [], s, [], 0. split; [reflexivity|]. split; [constructor|]. split; [reflexivity|]. split; [reflexivity|].
    split; [split; [constructor|now apply given_none]|]. split; [apply Hz|]. split; [reflexivity|]. intros _. constructor.
  Qed.
  Lemma members_app : forall Name a ea b eb, bson_members Name a ea -> bson_members Name b eb -> bson_members Name (a ++ b) (ea ++ eb).
  Proof.
    intros Name a ea b eb Ha Hb. induction Ha as [|n j l type x r Hn Hv Hm IH]; cbn [app]; [exact Hb|].
    rewrite <- app_assoc. cbn [app]. rewrite <- app_assoc. now constructor.
  Qed.
  Lemma mems_app_out : forall l1 l2 W1 W2 (S1 S2 Sz : list bcont -> Z -> Prop), mems_out l1 W1 S1 -> mems_out l2 W2 S2 ->
    (forall st z1 z2, S1 st z1 -> S2 st z2 -> Sz st (z1 + z2)) -> mems_out (l1 ++ l2) (w_then W1 W2) Sz.
  Proof.
    intros l1 l2 W1 W2 S1 S2 Sz H1 H2 Hz s st Es.
    destruct (H1 s st Es) as (o1 & s1 & l1' & z1 & E1 & N1 & M1 & I1 & J1 & Q1 & L1 & V1).
    destruct (H2 s1 st ltac:(congruence)) as (o2 & s2 & l2' & z2 & E2 & N2 & M2 & I2 & J2 & Q2 & L2 & V2).
    exists (o1 ++ o2), s2, (l1' ++ l2'), (z1 + z2). rewrite text_app.
    split; [unfold w_then; rewrite E1; cbn [bind]; rewrite E2; reflexivity|]. split; [now apply noval_app|]. split; [congruence|]. split; [congruence|].
    split; [split; [apply Forall2_app; [apply J1|rewrite <- M1; apply J2]|rewrite flat_map_app; eapply given_trans; [apply J1|apply J2]]|]. split; [now apply Hz|].
    rewrite len_app, app_length. split; [lia|]. intros L. assert (Pa := len_pos (text o1)). assert (Pb := len_pos (text o2)).
    apply members_app; [apply V1|apply V2]; lia.
  Qed.
  Lemma mems_one_out : forall n j W sz (Sz : list bcont -> Z -> Prop), nul_free n -> elem_out j W sz ->
    (forall st z, (forall s1, bp_stack s1 = BMap :: st -> sz s1 = Ok z) -> Sz st (len n + z)) ->
    mems_out [(n, j)] (w_then (pr_key P n) W) Sz.
  Proof.
    intros n j W sz Sz Hn H Hz s st Es. destruct (H (bp_at n s)) as (o1 & s1 & j' & type & data & E1 & N1 & (M1 & M1') & J1 & T1 & Z1 & C1 & V1).
    { unfold good. cbn [bp_at bp_stack]. now rewrite Es. }
    cbn [bp_at bp_stack bp_index] in *. rewrite Es in M1, M1', J1.
    assert (Tx : text o1 = type :: n ++ 0 :: data).
    { rewrite T1. unfold head. cbn [bp_at bp_stack bp_key]. rewrite Es. cbn [app]. now rewrite <- app_assoc. }
    exists o1, s1, [(n, j')], (len n + len data). rewrite Tx.
    split. { unfold w_then. cbn [bson_with bson_printer pr_key]. unfold bs_key. rewrite Es. cbn [bind]. rewrite E1. reflexivity. }
    split; [exact N1|]. split; [congruence|]. split; [exact M1'|]. split; [split; [constructor; [|constructor]; split; [reflexivity|]; rewrite Es; apply J1|cbn [flat_map snd]; rewrite app_nil_r; exact (proj2 J1)]|].
    split; [apply Hz; intros s2 E2; apply Z1; congruence|]. rewrite len_cons, len_app, len_cons. split; [cbn [List.length]; lia|].
    intro L. assert (Pa := len_pos n). assert (Q := bm_cons Nm n j' [] type data [] Hn (V1 ltac:(lia)) (bm_nil Nm)). rewrite app_nil_r in Q. exact Q.
  Qed.
  Lemma mems_sz : forall l W (Sz Sz' : list bcont -> Z -> Prop), (forall s z, Sz s z -> Sz' s z) -> mems_out l W Sz -> mems_out l W Sz'.
  Proof.
    intros l W Sz Sz' E H s st Es. destruct (H s st Es) as (o & s' & l' & z & Q1 & Q2 & Q3 & Q4 & Q5 & Q6 & Q7).
    exists o, s', l', z. repeat (split; [assumption|]). split; [now apply E|exact Q7].
  Qed.

  (** ** Containers *)
  Lemma array_out : forall js W sz szf szf', elems_out js W sz ->
    (forall s, szf s = do z <- sz (pr_push P false s); Ok (bs_szArray (Z.of_nat (List.length js)) + z)) ->
    (forall s, szf' s = szf s) ->
    elem_out (Arr js) (array_block P szf W) szf'.
  Proof.
    intros js W sz szf szf' H Hz Hz' s G.
    destruct (key_out s 4 [] G) as (o1 & s1 & E1 & N1 & (M1 & M1') & T1 & K1 & I1).
    set (s2 := mkBp (bp_key s1) (BArray :: bp_stack s1) (0 :: bp_index s1) (bp_ids s1)).
    destruct (H s2 0 (bp_index s1) (bp_stack s1) eq_refl eq_refl) as (o2 & s3 & js' & E2 & N2 & S2 & I2 & J2 & (z & Lz & Z2) & V2).
    cbn [s2 bp_stack] in S2, J2, Z2.
    assert (Sz : forall s0, bp_stack s0 = bp_stack s -> szf s0 = Ok (len (text o2) + 5)).
    { intros s0 E0. rewrite Hz, (Z2 (pr_push P false s0)); [|cbn [bson_with bson_printer pr_push bs_push bp_stack]; congruence]. cbn [bind]. f_equal.
      unfold bs_szArray. rewrite index_lengths_names. lia. }
    exists (o1 ++ [Wr (put_size (len (text o2) + 5))] ++ o2 ++ [Wr [0]]),
      (mkBp (bp_key s3) (bp_stack s1) (bp_index s1) (bp_ids s3)), (Arr js'), 4, (little 4 (len (text o2) + 5) ++ text o2 ++ [0]).
    split.
    { unfold array_block, sized. cbn [bson_with bson_printer pr_usesSize pr_openArray pr_closeArray]. rewrite (Sz s eq_refl). cbn [bind].
      unfold bs_openArray, w_then, w_put, w_push. change (container 4) with true in E1. cbv iota in E1. rewrite E1. cbn [bind app]. fold s2. rewrite E2. cbn [bind]. unfold bs_closeArray.
      rewrite S2, I2. cbn [bind]. rewrite <- !app_assoc. reflexivity. }
    split. { apply noval_app; [exact N1|]. apply noval_app; [apply noval_one|]. apply noval_app; [exact N2|apply noval_one]. }
    split; [split; [exact M1|exact M1']|]. split; [split; [rewrite <- M1; constructor; apply J2|cbn [object_ids]; eapply given_like; [| |apply J2]; [exact (eq_sym I1)|reflexivity]]|].
    split. { rewrite !text_app, T1. cbn [chunks_text flat_map chunk_bytes app]. rewrite put_size_little, !app_nil_r.
             f_equal; now apply head_container. }
    rewrite !len_app, len_little. change (len [0]) with 1. change (Z.of_nat 4) with 4.
    split; [intros s0 E0; rewrite Hz', (Sz s0 E0); f_equal; lia|]. split; [reflexivity|]. intro L.
    apply (bv_arr Nm js' (text o2)); [apply V2; lia|]. constructor. lia.
  Qed.
  Lemma map_out : forall l W (Tot : list bcont -> Z -> Prop) szf szf', mems_out l W Tot ->
    (forall s z, Tot (bp_stack s) z -> szf s = Ok (z + bs_szMap ids (Z.of_nat (List.length l)) s)) ->
    (forall s, szf' s = szf s) ->
    elem_out (Obj l) (map_block P szf W) szf'.
  Proof.
    intros l W Tot szf szf' H Hz Hz' s G.
    destruct (key_out s 3 [] G) as (o1 & s1 & E1 & N1 & (M1 & M1') & T1 & K1 & I1). change (container 3) with true in E1. cbv iota in E1.
    assert (Id : exists oi si pre, (if needToInsertId ids s1 then w_then (bs_key (bs "_id")) (w_then (writeKey 7 (Some 12)) (w_id ids)) else w_nothing)
                   (mkBp (bp_key s1) (BMap :: bp_stack s1) (bp_index s1) (bp_ids s1)) = Ok (oi, si) /\ noval oi /\
                 bp_stack si = BMap :: bp_stack s1 /\ bp_index si = bp_index s1 /\ (id_member with_ids (bp_stack s) pre /\ given s1 si (flat_map (fun m => object_ids (snd m)) pre)) /\
                 len (text oi) = (if needToInsertId ids s1 then 17 else 0) /\ bson_members Nm pre (text oi)).
    { unfold needToInsertId. unfold id_member, with_ids. rewrite <- M1. destruct ids as [f|] eqn:Ef.
      2:{ eexists _, _, []. split; [reflexivity|]. split; [constructor|]. split; [reflexivity|]. split; [reflexivity|]. split; [split; [reflexivity|now apply given_none]|]. split; [reflexivity|constructor]. }
      cbn [andb]. destruct (id_here (bp_stack s1)) eqn:Eh.
      - assert (bp_stack s1 = [BArray; BMap]) as -> by (clear -Eh; destruct (bp_stack s1) as [|[] [|[] []]]; cbn in Eh; congruence).
        eexists _, _, _. split; [reflexivity|]. cbn [bp_key bp_ids bp_stack bp_index bp_at].
        split; [repeat constructor; eexists; reflexivity|]. split; [reflexivity|]. split; [reflexivity|]. split; [split; [eexists; split; [apply (Hids f (bp_ids s1) eq_refl)|reflexivity]|]|].
        { unfold given. cbn [flat_map snd object_ids bp_ids app]. split; [lia|]. rewrite Ef. replace (Datatypes.S (bp_ids s1) - bp_ids s1)%nat with 1%nat by lia. reflexivity. }
       
        assert (Q := Hids f (bp_ids s1) eq_refl). cbn [chunks_text flat_map chunk_bytes app].
        split; [unfold len; rewrite ?app_nil_r, ?app_length; cbn [List.length app bs]; rewrite ?app_nil_r, Q; reflexivity|].
        assert (B := bm_cons Nm (bs "_id") (Scal (BOther 7 (f (bp_ids s1)))) [] 7 (f (bp_ids s1)) []).
        apply B; [cbn; intuition discriminate|constructor; now constructor|constructor].
      - assert (Q : match bp_stack s1 with [BArray; BMap] => true | _ => false end = false) by exact Eh. rewrite Q.
        eexists _, _, []. split; [reflexivity|]. split; [constructor|]. split; [reflexivity|]. split; [reflexivity|]. split; [split; [reflexivity|now apply given_none]|]. split; [reflexivity|constructor]. }
    destruct Id as (oi & si & pre & Ei & Ni & Si & Xi & Pi & Li & Vi).
    destruct (H si (bp_stack s1) Si) as (o2 & s3 & l' & z & E2 & N2 & S2 & I2 & J2 & Z2 & L2 & V2).
    assert (Sz : forall s0, bp_stack s0 = bp_stack s -> szf s0 = Ok (len (text oi ++ text o2) + 5)).
    { intros s0 E0. rewrite (Hz s0 z); [|rewrite E0, <- M1; exact Z2]. f_equal. rewrite len_app, Li, L2. unfold bs_szMap.
      assert (needToInsertId ids s0 = needToInsertId ids s1) as -> by (unfold needToInsertId; now rewrite E0, M1). lia. }
    exists (o1 ++ [Wr (put_size (len (text oi ++ text o2) + 5))] ++ oi ++ o2 ++ [Wr [0]]),
      (mkBp (bp_key s3) (bp_stack s1) (bp_index s3) (bp_ids s3)), (Obj (pre ++ l')), 3, (little 4 (len (text oi ++ text o2) + 5) ++ (text oi ++ text o2) ++ [0]).
    split.
    { unfold map_block, sized. cbn [bson_with bson_printer pr_usesSize pr_openMap pr_closeMap]. rewrite (Sz s eq_refl). cbn [bind].
      unfold bs_openMap. unfold w_then at 1. unfold w_then at 1. rewrite E1. cbn [bind]. unfold w_then at 1. unfold w_put at 1. cbn [bind].
      unfold w_then at 1. unfold w_push at 1. cbn [bind]. rewrite Ei. cbn [bind app]. unfold w_then at 1. rewrite E2. cbn [bind]. unfold bs_closeMap.
      rewrite S2, Si. cbn [bind]. rewrite <- !app_assoc. reflexivity. }
    split. { apply noval_app; [exact N1|]. apply noval_app; [apply noval_one|]. apply noval_app; [exact Ni|]. apply noval_app; [exact N2|apply noval_one]. }
    split; [split; [exact M1|cbn [bp_index]; congruence]|]. split. { split; [constructor; [apply Pi|]; rewrite <- M1, <- Si; apply J2|]. cbn [object_ids]. rewrite flat_map_app. eapply given_trans; [eapply given_like; [| |apply (proj2 Pi)]; [exact (eq_sym I1)|reflexivity]|]. eapply given_like; [| |apply (proj2 J2)]; reflexivity. }
    split. { rewrite !text_app, T1. cbn [chunks_text flat_map chunk_bytes app]. rewrite put_size_little, !app_nil_r, <- !app_assoc.
             f_equal; now apply head_container. }
    rewrite !len_app, len_little. change (len [0]) with 1. change (Z.of_nat 4) with 4.
    split; [intros s0 E0; rewrite Hz', (Sz s0 E0), len_app; f_equal; lia|]. split; [reflexivity|]. intro L.
    assert (Pa := len_pos (text oi)). assert (Pb := len_pos (text o2)). rewrite <- len_app.
    apply (bv_obj Nm (pre ++ l') (text oi ++ text o2)); [apply members_app; [exact Vi|apply V2; lia]|]. constructor. rewrite len_app. lia.
  Qed.

  (** ** All types *)
  Notation mapsz := (bs_szMap ids).
  Definition Tot (t : ty) (v : val) (n : nat) (st : list bcont) (z : Z) : Prop :=
    forall acc s0, bp_stack s0 = st ->
      sf_total (S t) v acc s0 = Ok (snd acc + z + mapsz (fst acc + Z.of_nat n) s0, (fst acc + Z.of_nat n, snd acc + z)).
  Definition right (w : place) (t : ty) (v : val) : Prop :=
    match w with
    | AsValue p => forall j, d_val (D t) v j -> elem_out j (sf_print (S t) v) (sf_size (S t) p v)
    | AsTagged p => is_class t = true -> forall j, tagged_object (leaf_str proj) bson_key marker (class_name t) (D t) v j ->
        elem_out j (sf_poly (S t) v) (sf_size (S t) p v)
    | AsParent => True
    end /\
    (is_class t = true -> forall l, d_members (D t) v l -> mems_out l (sf_members (S t) v) (Tot t v (List.length l))).

  Lemma elems_all_out : forall t vs js, (forall v, In v vs -> right (AsValue false) t v) -> Forall2 (d_val (D t)) vs js ->
    elems_out js (put_elems (S t) vs) (fun s => sum_sizes (map (fun v => sf_size (S t) false v s) vs)).
  Proof.
    intros t vs js H F. induction F as [|v j vs js Hj F IH].
    - now apply elems_nil_out.
    - unfold put_elems. cbn [map]. change (w_all (sf_print (S t) v :: map (sf_print (S t)) vs)) with (w_then (sf_print (S t) v) (put_elems (S t) vs)).
      eapply elems_cons_out; [apply (proj1 (H v (or_introl eq_refl)) j Hj)|apply IH; intros x Hx; apply H; now right|reflexivity].
  Qed.
  Lemma tuple_out : forall ts vs js, (forall i t v, nth_error ts i = Some t -> nth_error vs i = Some v -> right (AsValue false) t v) ->
    rel3 (map d_val (map D ts)) vs js ->
    elems_out js (put_tuple (map S ts) vs) (size_tuple (map S ts) vs) /\ List.length js = List.length ts.
  Proof.
    induction ts as [|t ts IH]; intros [|v vs] [|j js] H F; cbn [map rel3] in F; try contradiction.
    - split; [now apply elems_nil_out|reflexivity].
    - destruct F as [Hj F]. destruct (IH vs js (fun i => H (Datatypes.S i)) F) as [Q L]. split; [|cbn [List.length]; congruence]. cbn [map put_tuple].
      eapply elems_cons_out; [apply (proj1 (H O t v eq_refl eq_refl) j Hj)|exact Q|reflexivity].
  Qed.
  Lemma entries_out : forall t l es, (forall kv, In kv l -> right (AsValue false) t (snd kv)) -> Forall (fun kv : bytes * val => nul_free (fst kv)) l ->
    Forall2 (fun kv e => entry bson_key (fst kv) (d_val (D t) (snd kv)) e) l es ->
    mems_out es (put_entries P (S t) l)
      (fun st z => forall s1, bp_stack s1 = BMap :: st -> sum_sizes (map (fun kv => do a <- sf_size (S t) false (snd kv) s1; Ok (zlen (fst kv) + a)) l) = Ok z).
  Proof.
    intros t l es H K F. induction F as [|[k v] [k' j] l es [Hk Hj] F IH].
    - now apply mems_nil_out.
    - cbn [fst snd] in *. unfold bson_key in Hk. subst k'. inversion K as [|? ? K1 K2]; subst. cbn [fst] in K1.
      unfold put_entries. cbn [map]. change (w_all (?a :: ?r)) with (w_then a (w_all r)).
      refine (mems_app_out [(k, j)] es _ _ (fun st z => forall s1, bp_stack s1 = BMap :: st -> (do a <- sf_size (S t) false v s1; Ok (zlen k + a)) = Ok z) _ _ _ (IH _ K2) _).
      + cbn [fst snd]. refine (mems_one_out k j _ _ _ K1 (proj1 (H (k, v) (or_introl eq_refl)) j Hj) _). cbn [fst snd].
        intros st z Hz s1 E1. rewrite (Hz s1 E1). reflexivity.
      + intros kv Hkv. apply H. now right.
      + intros st z1 z2 H1 H2 s1 E1. cbn [sum_sizes fst snd]. rewrite (H1 s1 E1). cbn [bind]. rewrite (H2 s1 E1). reflexivity.
  Qed.
  Lemma own_out : forall ns ts vs l, (forall i t v, nth_error ts i = Some t -> nth_error vs i = Some v -> right (AsValue false) t v) ->
    Forall nul_free ns -> own_members bson_key ns ts (map D ts) vs l ->
    mems_out l (put_members P ns (map opt_type ts) (map S ts) vs)
      (fun st z => forall s1, bp_stack s1 = BMap :: st -> size_members P ns (map opt_type ts) (map S ts) vs s1 = Ok (z, Z.of_nat (List.length l))).
  Proof.
    induction ns as [|n ns IH]; intros [|t ts] [|v vs] l H K F; cbn [map own_members] in F; try contradiction.
    - subst l. now apply mems_nil_out.
    - inversion K as [|? ? K1 K2]; subst. cbn [map put_members size_members]. destruct F as [[Lo F]|(Lo & e & r & -> & [Hk Hj] & F)].
      + assert (Kp : Serializer.keeps (opt_type t) v = false) by now apply left_out_keeps. rewrite Kp.
        refine (mems_app_out [] l _ _ (fun _ z => z = 0) _ _ (mems_nil_out _ (fun _ => eq_refl)) (IH ts vs l (fun i => H (Datatypes.S i)) K2 F) _).
        intros st z1 z2 -> H2 s1 E1. cbn [bind]. rewrite (H2 s1 E1). reflexivity.
      + assert (Kp : Serializer.keeps (opt_type t) v = true).
        { destruct (Serializer.keeps (opt_type t) v) eqn:E; [reflexivity|]. destruct Lo. now apply left_out_keeps. }
        rewrite Kp. destruct e as [k j]. cbn [fst snd] in *. unfold bson_key in Hk. subst k.
        refine (mems_app_out [(n, j)] r _ _ (fun st z => forall s1, bp_stack s1 = BMap :: st -> (do a <- sf_size (S t) false v s1; Ok (a + zlen n)) = Ok z) _ _ _
                  (IH ts vs r (fun i => H (Datatypes.S i)) K2 F) _).
        * refine (mems_one_out n j _ _ _ K1 (proj1 (H O t v eq_refl eq_refl) j Hj) _). intros st z Hz s1 E1. rewrite (Hz s1 E1). cbn [bind]. f_equal. unfold zlen, len. lia.
        * intros st z1 z2 H1 H2 s1 E1. specialize (H1 s1 E1). cbn [bson_with bson_printer pr_szMember]. fold (@zlen Z n).
          destruct (sf_size (S t) false v s1) as [a| | |]; try discriminate H1. cbn [bind] in *. injection H1 as <-. rewrite (H2 s1 E1). cbn [bind List.length]. repeat f_equal. lia.
  Qed.
  Lemma pair_size : forall ns ts vs s1 z n, rel2 (map (fun t x => ~ left_out t x) ts) vs ->
    size_members P ns (map opt_type ts) (map S ts) vs s1 = Ok (z, n) -> size_pair_members ns (map S ts) vs s1 = Ok z /\ n = Z.of_nat (List.length ns).
  Proof.
    induction ns as [|a ns IH]; intros [|t ts] [|v vs] s1 z n R E; cbn [map size_members] in E; try discriminate E; cbn [map rel2] in R.
    - injection E as <- <-. split; reflexivity.
    - destruct R as [Lo R]. assert (Kp : Serializer.keeps (opt_type t) v = true).
      { destruct (Serializer.keeps (opt_type t) v) eqn:Q; [reflexivity|]. destruct Lo. now apply left_out_keeps. }
      rewrite Kp in E. cbn [map size_pair_members]. destruct (sf_size (S t) false v s1) as [b| | |]; try discriminate E. cbn [bind] in *.
      destruct (size_members P ns (map opt_type ts) (map S ts) vs s1) as [[z' n']| | |] eqn:Q; try discriminate E. cbn [bind] in E. apply Ok_inj in E. assert (E1 := f_equal fst E). assert (E2 := f_equal snd E). cbn [fst snd] in E1, E2. clear E. subst z n.
      destruct (IH ts vs s1 z' n' R Q) as [-> ->]. cbn [bind List.length]. split; [|lia]. f_equal. cbn [bson_with bson_printer pr_szMember]. unfold zlen. lia.
  Qed.
  Lemma pair_uncounted : forall i ms ps p, si_pair i = true -> wf (TStruct i ms ps) = true -> counted p i = false.
  Proof.
    intros i ms ps p Hp W. cbn [wf] in W. apply andb_prop in W as [_ W]. rewrite Hp in W. cbn [negb orb] in W.
    destruct ms as [|t1 [|t2 []]], ps; try discriminate W. cbn [is_pair] in W. apply andb_prop in W as [W Wv]. apply andb_prop in W as [_ Wm].
    apply negb_true_iff in Wv, Wm. unfold counted. now rewrite Wv.
  Qed.
  Lemma pair_total : forall i ms ps own par s z acc, si_pair i = true -> wf (TStruct i ms ps) = true -> rel2 (map (fun t x => ~ left_out t x) ms) own ->
    sf_total (S (TStruct i ms ps)) (VStruct own par) (0, 0) s = Ok (z, acc) -> size_pair P i (map S ms) (VStruct own par) s = Ok z.
  Proof.
    intros i ms ps own par s z acc Hp W R E. cbn [wf] in W. apply andb_prop in W as [_ W]. rewrite Hp in W. cbn [negb orb] in W.
    destruct ms as [|t1 [|t2 []]], ps; try discriminate W. cbn [is_pair] in W. apply andb_prop in W as [W _]. apply andb_prop in W as [W _]. apply andb_prop in W as [W Wo]. apply andb_prop in W as [_ W].
    assert (No : forall n, nameOverride i n = n) by (intro n; unfold nameOverride; destruct (si_over i); [reflexivity|discriminate Wo]).
    cbn [ser sf_total total_struct] in E. rewrite (map_ext _ (fun n => n) No), map_id in E.
    destruct (size_members P (si_names i) (map opt_type [t1; t2]) (map S [t1; t2]) own (pr_push P true s)) as [[a n]| | |] eqn:Q; try discriminate E.
    destruct (pair_size _ _ _ _ _ _ R Q) as [E1 E2]. cbn [bind map fst snd] in E. destruct par; [|discriminate E]. injection E as <- _. cbn [size_pair]. rewrite E1. cbn [bind].
    destruct (si_names i) as [|x [|y []]]; try discriminate W. cbn [List.length] in E2. subst n. f_equal. change (pr_szMap P 2 s) with (mapsz 2 s). change (Z.of_nat 2) with 2. lia.
  Qed.
  Lemma parents_out : forall ps vs l, (forall i t v, nth_error ps i = Some t -> nth_error vs i = Some v ->
      forall l, d_members (D t) v l -> mems_out l (sf_members (S t) v) (Tot t v (List.length l))) ->
    parent_members (map D ps) vs l ->
    mems_out l (put_parents (map S ps) vs)
      (fun st z => forall r acc s0, bp_stack s0 = st -> (ps = [] -> r = snd acc + mapsz (fst acc) s0) ->
         total_parents (map S ps) vs r acc s0 = Ok (snd acc + z + mapsz (fst acc + Z.of_nat (List.length l)) s0, (fst acc + Z.of_nat (List.length l), snd acc + z))).
  Proof.
    induction ps as [|t ps IH]; intros [|v vs] l H F; cbn [map parent_members] in F; try contradiction.
    - subst l. apply mems_nil_out. intros st r acc s0 E0 R. cbn [map total_parents List.length Z.of_nat]. rewrite (R eq_refl), !Z.add_0_r. destruct acc; reflexivity.
    - destruct F as (a & b & -> & Ha & Hb). cbn [map put_parents total_parents].
      refine (mems_app_out a b _ _ _ _ _ (H O t v eq_refl eq_refl a Ha) (IH vs b (fun i => H (Datatypes.S i)) Hb) _).
      intros st z1 z2 H1 H2 r acc s0 E0 _. rewrite (H1 acc s0 E0). cbn [bind]. rewrite (H2 _ _ s0 E0); [|intros ->; reflexivity]. cbn [fst snd].
      rewrite app_length, Nat2Z.inj_add, !Z.add_assoc. reflexivity.
  Qed.
  Lemma marker_out : forall i, plain (si_poly i) ->
    mems_out [(marker, Scal (leaf proj (BStr (si_poly i))))] (put_marker P marker i) (fun _ z => z = zlen marker + bs_size proj (4 + zlen (si_poly i) + 1)).
  Proof.
    intros i H. unfold put_marker. refine (mems_one_out marker _ _ _ _ Hmark (str_out (si_poly i) H) _).
    intros st z Hz. specialize (Hz (mkBp [] (BMap :: st) [] 0) eq_refl). cbn [bson_with bson_printer pr_szStr] in Hz. apply Ok_inj in Hz. subst z. unfold zlen, len. reflexivity.
  Qed.

  Theorem all_out : forall t v w, wf t = true -> bson_type t -> bson_text t v -> marker_framed w t = true -> right w t v.
  Proof.
    unfold bson_type, bson_text.
    assert (Plain : forall t v w, is_class t = false -> (forall p j, w = AsValue p -> d_val (D t) v j -> elem_out j (sf_print (S t) v) (sf_size (S t) p v)) -> right w t v).
    { intros t v w Nc H. split; [|congruence]. destruct w; [intros j E; now apply H|congruence|exact I]. }
    apply (ty_ind' (fun t => forall v w, wf t = true -> types _ t -> each _ t v -> marker_framed w t = true -> right w t v)).
    - intros i v w W T V M. apply Plain; [reflexivity|]. intros p j _ (z & a & -> & -> & Hz). exact (int_out i z a Hz).
    - intros v w W T V M. apply Plain; [reflexivity|]. intros p j _ (b & a & -> & -> & Hb). unfold leaf_bool in Hb. subst a. exact (bool_out b).
    - intros v w W T V M. apply Plain; [reflexivity|]. intros p j _ (s & a & -> & -> & Hs). unfold leaf_str in Hs. subst a. apply each_here in V. exact (str_out s V).
    - intros l v w W T V M. apply Plain; [reflexivity|]. intros p j _ (z & n & a & -> & En & -> & Hs). unfold leaf_str in Hs. subst a.
      apply types_here in T. cbn [ser sf_print sf_size mkSv]. rewrite En. apply str_out.
      rewrite Forall_forall in T. clear -T En. induction l as [|[y m] l IH]; cbn in En; [discriminate|].
      destruct (y =? z); [injection En as ->; apply (T (y, n)); now left|]. apply IH; [|exact En]. intros x Hx. apply T. now right.
    - intros co t IH v w W T V M. apply wf_seq in W. apply Plain; [reflexivity|]. intros p j _ (l & js & -> & -> & F). cbn [ser sf_print sf_size mkSv].
      refine (array_out js _ _ _ _ (elems_all_out t l js _ F) _ (fun _ => eq_refl)).
      + intros x Hx. destruct V as [_ V]. rewrite Forall_forall in V. apply IH; auto. exact (proj2 T).
      + intros s. unfold size_elems. cbn [bson_with bson_printer pr_szArray]. unfold zlen. rewrite (Forall2_length F). reflexivity.
    - intros n t IH v w W T V M. apply Plain; [reflexivity|]. intros p j _ (l & js & -> & Ln & -> & F). cbn [ser sf_print sf_size mkSv].
      rewrite Ln, Nat.eqb_refl. refine (array_out js _ _ _ _ (elems_all_out t l js _ F) _ (fun _ => eq_refl)).
      + intros x Hx. destruct V as [_ V]. rewrite Forall_forall in V. apply IH; auto. exact (proj2 T).
      + intros s. unfold size_elems. cbn [bson_with bson_printer pr_szArray]. unfold zlen. rewrite (Forall2_length F). reflexivity.
    - intros ts IH v w W T V M. apply Plain; [reflexivity|]. intros p j _ (l & js & -> & -> & F). cbn [ser sf_print sf_size mkSv].
      destruct (tuple_out ts l js) as [Q L]; [|exact F|].
      + intros i t x Et Ex. rewrite Forall_forall in IH. cbn [wf marker_framed] in W, M. rewrite forallb_forall in W, M. assert (It := nth_error_In _ _ Et).
        apply (IH t It); auto.
        * exact (DocP.all_of_nth _ _ _ _ (proj2 T) Et).
        * apply (rel2_nth _ _ i _ _ (proj2 V)); [now rewrite nth_error_map, Et|exact Ex].
      + refine (array_out js _ _ _ _ Q _ (fun _ => eq_refl)). intros s. cbn [bson_with bson_printer pr_szArray]. unfold zlen. rewrite L. reflexivity.
    - intros fw t IH v w W T V M. apply Plain; [reflexivity|]. intros p j _ (l & es & -> & -> & F). cbn [ser sf_print sf_size mkSv].
      refine (map_out es _ _ _ _ (entries_out t l es _ (each_here _ _ _ V) F) _ (fun _ => eq_refl)).
      + intros kv Hkv. destruct V as [_ V]. rewrite Forall_forall in V. apply IH; auto. exact (proj2 T).
      + intros s z Hz. unfold size_entries. rewrite (Hz (pr_push P true s)); [|reflexivity]. cbn [bind bson_with bson_printer pr_szMap]. f_equal. unfold zlen. rewrite (Forall2_length F). lia.
    - intros t IH v w W T V M. apply Plain; [reflexivity|]. intros p j _ [(-> & a & -> & Ha)|(x & -> & Hx)]; cbn [ser sf_print sf_size mkSv].
      + unfold leaf_null in Ha. subst a. exact null_out.
      + apply (proj1 (IH x (AsValue true) W (proj2 T) (proj2 V) M)). exact Hx.
    - intros t IH v w W T V M. apply Plain; [reflexivity|]. intros p j -> (x & -> & Hx). cbn [ser sf_print sf_size mkSv].
      apply (proj1 (IH x (AsValue p) W (proj2 T) (proj2 V) M)). exact Hx.
    - intros si ms ps IHm IHp v w W T V M. destruct (wf_struct _ _ _ W) as (L & Wm & Wp). destruct T as ((N0 & N1) & No & Nr).
      cbn [marker_framed] in M. apply andb_prop in M as [M Mp]. apply andb_prop in M as [Mw Mm]. rewrite forallb_forall in Mm, Mp.
      rewrite Forall_forall in IHm, IHp.
      assert (T : forall l, d_members (D (TStruct si ms ps)) v l -> mems_out l (sf_members (S (TStruct si ms ps)) v) (Tot (TStruct si ms ps) v (List.length l))).
      { intros l (own & par & a & b & -> & -> & Ha & Hb). destruct V as (_ & Vo & Vp). cbn [ser sf_members put_struct].
        assert (Qo : forall i t x, nth_error ms i = Some t -> nth_error own i = Some x -> right (AsValue false) t x).
        { intros i t x Et Ex. assert (It := nth_error_In _ _ Et). apply (IHm t It); auto.
          - exact (DocP.all_of_nth _ _ _ _ No Et).
          - apply (rel2_nth _ _ i _ _ Vo); [now rewrite nth_error_map, Et|exact Ex]. }
        assert (Qp : forall i t x, nth_error ps i = Some t -> nth_error par i = Some x ->
                       forall l, d_members (D t) x l -> mems_out l (sf_members (S t) x) (Tot t x (List.length l))).
        { intros i t x Et Ex. assert (It := nth_error_In _ _ Et). destruct (Wp t It) as [Ct Wt]. apply (IHp t It x AsParent Wt); auto.
          - exact (DocP.all_of_nth _ _ _ _ Nr Et).
          - apply (rel2_nth _ _ i _ _ Vp); [now rewrite nth_error_map, Et|exact Ex]. }
        refine (mems_app_out a b _ _ _ _ _ (own_out _ ms own a Qo N0 Ha) (parents_out ps par b Qp Hb) _).
        intros st z1 z2 H1 H2 acc s0 E0. cbn [ser sf_total total_struct]. rewrite (H1 (pr_push P true s0)); [|cbn [bson_with bson_printer pr_push bs_push bp_stack]; now rewrite E0].
        cbn [bind]. rewrite app_length, Nat2Z.inj_add, !Z.add_assoc. destruct ps as [|q ps].
        - destruct par; [|contradiction Hb]. cbn [map parent_members] in Hb. subst b.
          specialize (H2 (snd acc + z1 + mapsz (fst acc + Z.of_nat (List.length a)) s0) (fst acc + Z.of_nat (List.length a), snd acc + z1) s0 E0 (fun _ => eq_refl)).
          cbn [map total_parents fst snd] in H2 |- *. exact H2.
        - cbn [map]. change (S q :: map S ps) with (map S (q :: ps)). rewrite (H2 0 _ s0 E0); [reflexivity|discriminate]. }
      split; [|intros _; exact T].
      assert (G : forall m p q l, counted p si = m -> counted q si = m -> d_members (D (TStruct si ms ps)) v l ->
        elem_out (Obj ((if m then [(marker, Scal (leaf proj (BStr (si_poly si))))] else []) ++ l))
          (map_block P (sf_size (S (TStruct si ms ps)) p v) (w_then (if m then put_marker P marker si else w_nothing) (sf_members (S (TStruct si ms ps)) v)))
          (sf_size (S (TStruct si ms ps)) q v)).
      { intros m p q l Cp Cq Hl.
        refine (map_out _ _ (fun st z => exists z0, z = (if m then zlen marker + bs_size proj (4 + zlen (si_poly si) + 1) else 0) + z0 /\ Tot (TStruct si ms ps) v (List.length l) st z0) _ _ _ _ _).
        - refine (mems_app_out _ l _ _ (fun _ z => z = if m then zlen marker + bs_size proj (4 + zlen (si_poly si) + 1) else 0) _ _ _ (T l Hl) _).
          + destruct m; [exact (marker_out si N1)|]. apply mems_nil_out. reflexivity.
          + intros st z1 z2 -> H2. eauto.
        - intros s z (z0 & -> & Hz). change (sf_size (S (TStruct si ms ps)) p v s) with
            (if si_pair si then size_pair P si (map S ms) v s else size_struct P marker si (sf_total (S (TStruct si ms ps))) p v s).
          assert (Z1 := Hz (0, 0) s eq_refl). destruct (si_pair si) eqn:Hp.
          { destruct Hl as (own & par & _ & _ & -> & _). assert (Kp : rel2 (map (fun t x => ~ left_out t x) ms) own) by (destruct V as (Kp & _); exact (Kp Hp)).
            rewrite (pair_total _ _ _ _ _ _ _ _ Hp W Kp Z1). rewrite (pair_uncounted _ _ _ p Hp W) in Cp. subst m. cbn [fst snd app]. f_equal. }
          unfold size_struct. fold (counted p si). rewrite Cp. rewrite (Hz _ s eq_refl). cbn [bind]. f_equal. rewrite app_length, Nat2Z.inj_add. cbn [bson_with bson_printer pr_szMember pr_szStr].
          unfold zlen. destruct m; reflexivity.
        - intros s. cbn [ser sf_size]. destruct (si_pair si); [reflexivity|]. unfold size_struct. fold (counted p si). fold (counted q si). now rewrite Cp, Cq. }
      destruct w as [p|p|]; [| |exact I].
      + intros j Hj. apply andb_prop in Mw as [M1 M2]. apply Bool.eqb_prop in M1, M2. cbn [bson_sense sense_of d_val] in Hj.
        specialize (G (si_mark si) false p). cbn [ser sf_print]. destruct (si_mark si).
        * destruct Hj as ([k jt] & l & -> & [Hk (a & Ha & Hs)] & Hl). cbn [fst snd] in *. unfold bson_key in Hk. unfold leaf_str in Hs. subst. exact (G l M2 M1 Hl).
        * destruct Hj as (l & -> & Hl). exact (G l M2 M1 Hl).
      + intros _ j ([k jt] & l & -> & [Hk (a & Ha & Hs)] & Hl). cbn [fst snd class_name] in *. unfold bson_key in Hk. unfold leaf_str in Hs. subst.
        refine (G true true p l _ Mw Hl). unfold counted in *. destruct (si_virt si); congruence.
    - intros cs o IH v w W T V M. apply Plain; [reflexivity|]. intros p j _ [(-> & a & -> & Ha)|(k & c & d & x & -> & Ec & Ed & Hx)]; cbn [ser sf_print sf_size mkSv].
      { unfold leaf_null in Ha. subst a. exact null_out. }
      destruct V as [_ V], T as [_ T]. cbn [wf marker_framed] in W, M. rewrite forallb_forall in W, M.
      rewrite !nth_error_map in *. rewrite Ec in *. cbn [option_map] in *. injection Ed as <-.
      rewrite Forall_forall in IH. assert (It := nth_error_In _ _ Ec). specialize (W c It). apply andb_prop in W as [Ct Wt].
      exact (proj1 (IH c It x (AsTagged true) Wt (DocP.all_of_nth _ _ _ _ T Ec) V (M c It)) Ct j Hx).
    - intros cs IH v w W T V M. apply Plain; [reflexivity|]. intros p j -> (k & c & d & x & -> & Ec & Ed & Hx); cbn [ser sf_print sf_size mkSv].
      destruct V as [_ V], T as [_ T]. cbn [wf marker_framed] in W, M. apply andb_prop in W as [W _]. rewrite forallb_forall in W, M.
      rewrite !nth_error_map in *. rewrite Ec in *. cbn [option_map] in *. injection Ed as <-.
      rewrite Forall_forall in IH. assert (It := nth_error_In _ _ Ec). specialize (W c It). apply andb_prop in W as [Ct Wt].
      exact (proj1 (IH c It x (AsTagged p) Wt (DocP.all_of_nth _ _ _ _ T Ec) V (M c It)) Ct j Hx).
  Qed.
End Export.

(** ** Which objects get ids *)
Lemma Forall2_eq : forall {X} (l l' : list X), Forall2 (fun a b => b = a) l l' -> l' = l.
Proof. intros X l l' F. induction F; congruence. Qed.
Lemma Forall2_impl_In : forall {X Y} (R R' : X -> Y -> Prop) l l', (forall a b, In a l -> R a b -> R' a b) -> Forall2 R l l' -> Forall2 R' l l'.
Proof.
  intros X Y R R' l l' H F. induction F as [|a b l l' Hab F IH]; constructor; [apply H; [now left|exact Hab]|].
  apply IH. intros x y Hx. apply H. now right.
Qed.
Lemma added_none : forall on j st j', (forall pre, on && id_here (pre ++ st) = false) -> added on st j j' -> j' = j.
Proof.
  intros on. refine (tree_ind' (fun j => forall st j', _ -> added on st j j' -> j' = j) _ _ _).
  - intros a st j' _ A. now inversion A.
  - intros l IH st j' H A. inversion A as [|? ? l' F|]; subst. f_equal. apply Forall2_eq. refine (Forall2_impl_In _ _ _ _ _ F). intros a b Ia Hab.
    rewrite Forall_forall in IH. apply (IH a Ia (BArray :: st)); [|exact Hab]. intro pre. specialize (H (pre ++ [BArray])). now rewrite <- app_assoc in H.
  - intros l IH st j' H A. inversion A as [| |? p ? l' Hp F]; subst. unfold id_member in Hp. specialize (H []) as H0. cbn [app] in H0. rewrite H0 in Hp. subst p. cbn [app].
    f_equal. apply Forall2_eq. refine (Forall2_impl_In _ _ _ _ _ F). intros [k a] [k' b] Ia [Hk Hab]. cbn [fst snd] in *. subst k'. f_equal.
    rewrite Forall_forall in IH. apply (IH (k, a) Ia (BMap :: st)); [|exact Hab]. intro pre. specialize (H (pre ++ [BMap])). now rewrite <- app_assoc in H.
Qed.
Lemma id_here_off : forall pre st, (exists a b, st = a ++ b /\ b <> [] /\ List.length b <> 1%nat /\ b <> [BArray; BMap]) \/ (exists a, st = a ++ [BArray]) \/ (3 <= List.length st)%nat -> id_here (pre ++ st) = false.
Proof.
  intros pre st H. destruct (id_here (pre ++ st)) eqn:E; [|reflexivity]. exfalso.
  assert (Q : pre ++ st = [BArray; BMap]) by (clear -E; destruct (pre ++ st) as [|[] [|[] []]]; cbn in E; congruence).
  destruct H as [(a & b & -> & B0 & B1 & B2)|[(a & ->)|L]].
  - rewrite app_assoc in Q. destruct (pre ++ a) as [|x [|y [|z r]]]; cbn [app] in Q; try congruence; injection Q as; subst; try congruence; try (now cbn in B1); now destruct b.
  - rewrite app_assoc in Q. change [BArray; BMap] with ([BArray] ++ [BMap]) in Q. apply app_inj_tail in Q as [_ Q]. discriminate.
  - apply (f_equal (@List.length bcont)) in Q. rewrite app_length in Q. cbn in Q. lia.
Qed.
Lemma added_ids : forall ids j j', added (with_ids ids) [] j j' -> written ids j j'.
Proof.
  intros [f|] j j' A; cbn [with_ids written] in *.
  2:{ apply (added_none false j [] j'); [reflexivity|exact A]. }
  unfold gets_ids. inversion A as [|? l l' F|? p l l' Hp F]; subst.
  - reflexivity.
  - f_equal. apply Forall2_eq. refine (Forall2_impl_In _ _ _ _ _ F). intros a b Ia Hab. apply (added_none true a [BArray] b); [|exact Hab].
    intro pre. apply id_here_off. right. left. now exists [].
  - cbn in Hp. subst p. exists l'. split; [reflexivity|]. refine (Forall2_impl_In _ _ _ _ _ F). intros [k a] [k' b] Ia [Hk Hab]. cbn [fst snd] in *. split; [exact Hk|].
    inversion Hab as [|? es es' Fe|? p m m' Hp Fm]; subst.
    + reflexivity.
    + exists es'. split; [reflexivity|]. refine (Forall2_impl_In _ _ _ _ _ Fe). intros e e' Ie He. inversion He as [|? q q' Fq|? p m m' Hp Fm]; subst; cbn [gets_id].
      * reflexivity.
      * f_equal. apply Forall2_eq. refine (Forall2_impl_In _ _ _ _ _ Fq). intros x y Ix Hx. apply (added_none true x [BArray; BArray; BMap] y); [|exact Hx].
        intro pre. apply id_here_off. right. right. cbn. lia.
      * destruct Hp as (d & Ld & ->). exists d. split; [exact Ld|]. cbn [app]. do 2 f_equal. apply Forall2_eq. refine (Forall2_impl_In _ _ _ _ _ Fm).
        intros [x1 x2] [y1 y2] Ix [Hx1 Hx2]. cbn [fst snd] in *. subst y1. f_equal. apply (added_none true x2 [BMap; BArray; BMap] y2); [|exact Hx2].
        intro pre. apply id_here_off. right. right. cbn. lia.
    + cbn in Hp. subst p. cbn [app]. f_equal. apply Forall2_eq. refine (Forall2_impl_In _ _ _ _ _ Fm). intros [x1 x2] [y1 y2] Ix [Hx1 Hx2]. cbn [fst snd] in *. subst y1. f_equal.
      apply (added_none true x2 [BMap; BMap] y2); [|exact Hx2]. intro pre. apply id_here_off. left. exists [], [BMap; BMap]. repeat split; discriminate.
Qed.

(** ** The root *)
Lemma written_count : forall ids j a b, written ids j a -> written ids j b -> List.length (object_ids a) = List.length (object_ids b).
Proof.
  intros ids j a b. destruct ids; cbn [written]; [|intros -> ->; reflexivity]. destruct j as [x|l|l]; cbn [gets_ids]; try (intros -> ->; reflexivity).
  intros (la & -> & Fa) (lb & -> & Fb). cbn [object_ids]. revert lb Fb. induction Fa as [|m ma l la [_ Hm] _ IH]; intros lb Fb; inversion Fb as [|m' mb l' lb' [_ Hb] Fb']; subst; [reflexivity|].
  cbn [flat_map]. rewrite !app_length. f_equal; [|now apply IH]. clear -Hm Hb. destruct (snd m) as [x|es|ms]; [now rewrite Hm, Hb| |now rewrite Hm, Hb].
  destruct Hm as (ea & -> & Fa), Hb as (eb & -> & Fb). cbn [object_ids]. revert eb Fb. induction Fa as [|e e1 es ea He _ IH]; intros eb Fb; inversion Fb as [|e' e2 es' eb' He2 Fb']; subst; [reflexivity|].
  cbn [flat_map]. rewrite !app_length. f_equal; [|now apply IH]. destruct e as [x|xs|xs]; cbn [gets_id] in *; [now subst|now subst|].
  destruct He as (d1 & _ & ->), He2 as (d2 & _ & ->). reflexivity.
Qed.
Lemma noval_preflight : forall e l, noval l -> preflight e l = len (chunks_text l).
Proof.
  intros e l H. induction H as [|c l (b & ->) F IH]; [reflexivity|]. cbn [preflight chunks_text flat_map chunk_bytes]. fold (chunks_text l). rewrite IH, len_app. reflexivity.
Qed.
Notation Sn Int marker := (sense_of Int BsonDenotes.bson_bool BsonDenotes.bson_str BsonDenotes.bson_str BsonDenotes.bson_null bson_key marker).
Notation Snp proj Int marker := (sense_of Int (leaf_bool proj) (leaf_str proj) (leaf_str proj) (leaf_null proj) bson_key marker).
Lemma root_shape : forall proj Int marker t v j, d_val (Snp proj Int marker t) v j -> bson_rootable t = true -> null_written t v = false -> bson_root t = shape j.
Proof.
  intros proj Int marker. refine (ty_ind' (fun t => forall v j, _ -> bson_rootable t = true -> null_written t v = false -> bson_root t = shape j) _ _ _ _ _ _ _ _ _ _ _ _ _); try (intros; discriminate).
  - intros i v j (z & a & -> & -> & _) _ _. reflexivity.
  - intros v j (b & a & -> & -> & _) _ _. reflexivity.
  - intros v j (b & a & -> & -> & _) _ _. reflexivity.
  - intros l v j (z & n & a & -> & _ & -> & _) _ _. reflexivity.
  - intros co t _ v j (l & js & -> & -> & _) _ _. reflexivity.
  - intros n t _ v j (l & js & -> & _ & -> & _) _ _. reflexivity.
  - intros ts _ v j (l & js & -> & -> & _) _ _. reflexivity.
  - intros fw t _ v j (l & es & -> & -> & _) _ _. reflexivity.
  - intros t IH v j [(-> & _)|(x & -> & Hx)] R N; [discriminate N|]. exact (IH x j Hx R N).
  - intros i ms ps _ _ v j H _ _. cbn [bson_sense sense_of d_val] in H. destruct (si_mark i).
    + destruct H as (e & l & -> & _). reflexivity.
    + destruct H as (l & -> & _). reflexivity.
  - intros cs o _ v j [(-> & _)|(k & c & d & x & -> & _ & _ & e & l & -> & _)] R N; [discriminate N|reflexivity].
Qed.

Section Root.
  Context (proj : bool) (ids : option (nat -> bytes)) (marker : bytes).
  Context (num : ity -> Z -> writer bprinter) (szn : ity -> Z -> bprinter -> outcome Z) (Int : ity -> Z -> bscal -> Prop).
  Notation P := (bson_with num szn (bson_printer proj ids)).
  Hypothesis (Hnum : num_out proj ids num szn Int).
  Hypotheses (Hids : forall f n, ids = Some f -> List.length (f n) = 12%nat) (Hmark : nul_free marker).
  Context (t : ty) (v : val) (j : tree bscal).
  Hypotheses (Hwf : wf t = true) (Hty : bson_type t) (Htx : bson_text t v) (Hfr : marker_framed (AsValue false) t = true)
    (Hroot : bson_rootable t = true) (Hnull : null_written t v = false) (Hj : d_val (Snp proj Int marker t) v j) (Hone : proj = true -> is_one j = false).

  Lemma root_pass : exists n z, z = (if is_one j then n - 8 else n) /\ (forall s, bp_stack s = [] -> sf_size (ser P marker t) false v s = Ok z) /\
    forall s, bp_stack s = [] -> exists out s' j',
      pass_with P proj marker t v s = Ok (out, s') /\ bp_stack s' = [] /\ noval out /\ len (chunks_text out) = n /\ (written ids j j' /\ given ids s s' (object_ids j')) /\
      (n < 2 ^ 31 -> bson_document decimal_name j' (chunks_text out)).
  Proof.
    assert (Q := all_out proj ids marker Hids Hmark num szn Int Hnum t v (AsValue false) Hwf Hty Htx Hfr). destruct Q as [Q _]. specialize (Q j Hj).
    assert (G : forall s, bp_stack s = [] -> good s) by (intros s E; unfold good; now rewrite E).
    destruct (Q bp_init (G bp_init eq_refl)) as (o0 & s0 & j0 & t0 & d0 & _ & _ & _ & _ & _ & Z0 & _).
    assert (Sh := root_shape proj Int marker t v j Hj Hroot Hnull).
    assert (Cl : bson_close (if proj then BArray else bson_root t) = bson_close (shape j)).
    { rewrite Sh. destruct proj; [|reflexivity]. specialize (Hone eq_refl). destruct j; [discriminate Hone|reflexivity|reflexivity]. }
    exists (if is_one j then 8 + len d0 else len d0), (len d0). split; [destruct (is_one j); lia|]. split; [exact Z0|].
    intros s Es. destruct (Q s (G s Es)) as (out & s' & j' & type & data & E & N & (M & _) & A & T & Sz & C & V). rewrite Es in *.
    assert (Ld : len data = len d0). { assert (E0 := Z0 s Es). rewrite (Sz s Es) in E0. now injection E0. }
    unfold pass_with. rewrite E. cbn [bind]. rewrite Cl. unfold head in T. rewrite Es, C in T. destruct A as [A Gv]. apply added_ids in A.
    destruct j as [a|l|l]; cbn [shape bson_close is_one] in *.
    - eexists _, s', j'. split; [reflexivity|]. split; [congruence|]. split; [apply noval_app; [exact N|apply noval_one]|]. rewrite text_app, T.
      cbn [chunks_text flat_map chunk_bytes app]. split; [rewrite !len_app, len_little; cbn [len List.length Z.of_nat]; rewrite <- Ld; unfold len; lia|]. split; [auto|].
      intro L. assert (j' = Scal a) as -> by (destruct ids; exact A). apply bd_scalar.
      replace ((little 4 (4 + 1 + 2 + len data + 1) ++ [type; 48; 0]) ++ data) with (little 4 (len (type :: [48] ++ 0 :: data ++ []) + 5) ++ (type :: [48] ++ 0 :: data ++ [])).
      2:{ rewrite <- !app_assoc. cbn [app]. rewrite app_nil_r. do 2 f_equal. rewrite !len_cons. lia. }
      rewrite <- app_assoc. apply (bv_arr _ _ (type :: [48] ++ 0 :: data ++ [])).
      + constructor; [apply (int_dec_decimal 0); lia|cbn; intuition discriminate|apply V; lia|constructor].
      + constructor. cbn [app]. rewrite app_nil_r, !len_cons. lia.
    - eexists _, s', j'. split; [rewrite app_nil_r; reflexivity|]. split; [congruence|]. split; [exact N|]. rewrite T. cbn [app]. split; [exact Ld|]. split; [auto|].
      intro L. assert (K : exists l', j' = Arr l'). { destruct ids; cbn in A; eauto. } destruct K as (l' & ->).
      rewrite <- Ld in L. specialize (V L). inversion V; subst. now constructor.
    - eexists _, s', j'. split; [rewrite app_nil_r; reflexivity|]. split; [congruence|]. split; [exact N|]. rewrite T. cbn [app]. split; [exact Ld|]. split; [auto|].
      intro L. assert (K : exists l', j' = Obj l'). { destruct ids; cbn in A; [destruct A as (l' & -> & _)|]; eauto. } destruct K as (l' & ->).
      rewrite <- Ld in L. specialize (V L). inversion V; subst. now constructor.
  Qed.

  Theorem export_document_in : forall c k, pf_marker c = marker ->
    exists out n j', export_with P c k proj t v = BExported out n /\ written ids j j' /\ bson_root t = shape j' /\
      (len out < 2 ^ 31 -> bson_document decimal_name j' out) /\
      getPrintSize_with P c t v = Ok (if is_one j then len out - 8 else len out) /\
      (forall f, ids = Some f -> let m := List.length (object_ids j') in
         match k with
         | ToStream => n = m /\ object_ids j' = map f (seq 0 m)
         | ToString => n = (m + m)%nat /\ object_ids j' = map f (seq m m)
         end).
  Proof.
    intros c k Hc. destruct root_pass as (n & z & Zn & Zs & R). assert (Sh := root_shape proj Int marker t v j Hj Hroot Hnull).
    assert (W : forall j', written ids j j' -> shape j' = shape j).
    { intros j' A. destruct ids; cbn in A; [|now subst]. destruct j; cbn in A; [now subst|now subst|]. destruct A as (l' & -> & _). reflexivity. }
    assert (Hn : null_root t v = false). { clear -Hnull. destruct t, v as [| | | | |[x|]| | |]; try reflexivity; discriminate Hnull. }
    unfold export_with, getPrintSize_with. rewrite Hn, andb_false_r, Hc, (Zs bp_init eq_refl).
    destruct (R bp_init eq_refl) as (o1 & s1 & j1 & E1 & S1 & N1 & L1 & (A1 & G1) & D1). destruct k.
    - unfold to_stream_with. rewrite E1. cbn [bind]. exists (chunks_text o1), (bp_ids s1), j1. split; [reflexivity|]. split; [exact A1|].
      split; [rewrite (W _ A1); exact Sh|]. rewrite L1. split; [exact D1|]. split; [now rewrite Zn|]. intros f ->. destruct G1 as [_ G1]. cbn [bp_init bp_ids] in G1. rewrite Nat.sub_0_r in G1.
      rewrite G1, map_length, seq_length. auto.
    - destruct (R s1 S1) as (o2 & s2 & j2 & E2 & S2 & N2 & L2 & (A2 & G2) & D2). unfold to_string_with. rewrite E1. cbn [bind]. rewrite E2. cbn [bind].
      rewrite (noval_preflight _ o1 N1), L1, copy_all; [|unfold len in L2; lia]. cbn [bind]. exists (chunks_text o2), (bp_ids s2), j2. split; [reflexivity|]. split; [exact A2|].
      split; [rewrite (W _ A2); exact Sh|]. rewrite L2. split; [exact D2|]. split; [now rewrite Zn|]. intros f Ef. assert (Q := written_count _ _ _ _ A1 A2). subst ids. destruct G1 as [_ G1], G2 as [Le G2].
      cbn [bp_init bp_ids] in G1. rewrite Nat.sub_0_r in G1. rewrite G1, G2, !map_length, !seq_length in Q. rewrite G2, map_length, seq_length, <- Q. split; [lia|]. reflexivity.
  Qed.
End Root.

(** ** Without a projection *)
Definition export_document ids marker num szn Int (Hnum : num_out false ids num szn Int) Hids Hmark t v j Hwf Hty Htx Hfr Hroot Hnull
  (Hj : d_val (sense_of Int BsonDenotes.bson_bool BsonDenotes.bson_str BsonDenotes.bson_str BsonDenotes.bson_null bson_key marker t) v j) :=
  export_document_in false ids marker num szn Int Hnum Hids Hmark t v j Hwf Hty Htx Hfr Hroot Hnull Hj ltac:(discriminate).

(** ** Integers *)
Lemma bson_int_out : forall ids, num_out false ids (bs_int false) (bs_szInt false) BsonDenotes.bson_int.
Proof.
  intros ids i z a H. cbn [bson_with bson_printer pr_int pr_szInt]. unfold bs_int, bs_szInt, unless_projection, writeInt, bs_size, int_size.
  unfold BsonDenotes.bson_int in H. destruct (i_bits i =? 64); destruct H as (w & -> & Hr & Hm).
  - assert (E : writeLE 8 8 z = little 8 w) by (rewrite writeLE_little; symmetry; apply little_mod; exact Hm).
    rewrite E. assert (Q := scalar_out ids (BInt64 w) 18 (little 8 w) (bc_int64 w Hr) eq_refl eq_refl). rewrite len_little in Q. exact Q.
  - assert (E : writeLE 4 4 z = little 4 w) by (rewrite writeLE_little; symmetry; apply little_mod; exact Hm).
    rewrite E. assert (Q := scalar_out ids (BInt32 w) 16 (little 4 w) (bc_int32 w Hr) eq_refl eq_refl). rewrite len_little in Q. exact Q.
Qed.
Theorem bson_export_document : forall (ids : option (nat -> bytes)) (marker : bytes), (forall f n, ids = Some f -> List.length (f n) = 12%nat) -> nul_free marker ->
  forall t v j, wf t = true -> bson_type t -> bson_text t v -> marker_framed (AsValue false) t = true -> bson_rootable t = true ->
  null_written t v = false -> bson_stands marker t v j -> forall c k, pf_marker c = marker ->
  exists out n j', bson_export c k false ids t v = BExported out n /\ written ids j j' /\ bson_root t = shape j' /\
    (len out < 2 ^ 31 -> bson_document decimal_name j' out) /\
    bsonGetPrintSize c ids t v = Ok (if is_one j then len out - 8 else len out) /\
    (forall f, ids = Some f -> let m := List.length (object_ids j') in
       match k with
       | ToStream => n = m /\ object_ids j' = map f (seq 0 m)
       | ToString => n = (m + m)%nat /\ object_ids j' = map f (seq m m)
       end).
Proof. intros ids marker Hids Hmark. exact (export_document ids marker (bs_int false) (bs_szInt false) BsonDenotes.bson_int (bson_int_out ids) Hids Hmark). Qed.
