(** C46, C47, C48, C55, C56, C57: ObjectID, UTCDateTime and BsonTimeStamp.

    [oid_put o], [oid_get o text]: operator<< and operator>> of an ObjectID with a text stream (what JSON uses);
    [oid_bson o]: the bytes that a BsonPrinter writes; [read_custom (oid_from d) b]: reading them from a BsonParser whose
    source is [b_src b] and which still expects [b_left b] bytes of the open containers. *)
From Coq Require Import ZArith String List Bool Lia ZifyBool.
From Verif Require Import Model.Base Model.Source Model.Number Model.ParserInterface Model.Types Model.Printer Model.Binary Model.BsonPrinter Model.BsonParser Model.Mongo
  Spec.Bson Spec.Mongo Proofs.LexP Proofs.BinaryP Proofs.BsonSim Proofs.BsonExportP Proofs.BsonLengthP Proofs.MongoP Properties.Bson.
Import ListNotations.
Open Scope Z_scope.

Definition id_number (o : oid) : Z := oid_number (o_time o) (o_random o) (o_counter o).
Definition id_fits (o : oid) : Prop := oid_fits (o_time o) (o_random o) (o_counter o).

Lemma number_parts : forall t r c, oid_fits t r c -> oid_number t r c / 2 ^ 64 = t mod 2 ^ 32 /\ oid_number t r c / 2 ^ 24 mod 2 ^ 40 = r /\ oid_number t r c mod 2 ^ 24 = c.
Proof.
  intros t r c (Ht & Hr & Hc). unfold oid_number. set (T := t mod 2 ^ 32). repeat split.
  - symmetry. apply (Z.div_unique _ _ _ (r * 2 ^ 24 + c)); lia.
  - replace ((T * 2 ^ 64 + r * 2 ^ 24 + c) / 2 ^ 24) with (T * 2 ^ 40 + r) by (apply (Z.div_unique _ _ _ c); lia). symmetry. apply (Z.mod_unique _ _ T); lia.
  - symmetry. apply (Z.mod_unique _ _ (T * 2 ^ 40 + r)); lia.
Qed.
Lemma mod_inj : forall a b, - 2 ^ 31 <= a < 2 ^ 31 -> - 2 ^ 31 <= b < 2 ^ 31 -> a mod 2 ^ 32 = b mod 2 ^ 32 -> a = b.
Proof. intros a b Ha Hb E. assert (A := Z.div_mod a (2 ^ 32) ltac:(lia)). assert (B := Z.div_mod b (2 ^ 32) ltac:(lia)). lia. Qed.
(** Different ObjectIDs have different numbers. *)
Lemma number_inj : forall a b, id_fits a -> id_fits b -> id_number a = id_number b -> oid_eqb a b = true.
Proof.
  intros a b Ha Hb E. unfold id_number in E. destruct (number_parts _ _ _ Ha) as (A1 & A2 & A3), (number_parts _ _ _ Hb) as (B1 & B2 & B3). rewrite E in *.
  destruct Ha as (Ha & _), Hb as (Hb & _). assert (o_time a = o_time b) by (apply mod_inj; congruence). unfold oid_eqb. lia.
Qed.
Lemma wrap_int : forall z, 0 <= z < 2 ^ 32 -> - 2 ^ 31 <= i_wrap IInt z < 2 ^ 31 /\ i_wrap IInt z mod 2 ^ 32 = z.
Proof.
  intros z Hz. unfold i_wrap. cbn [i_bits i_signed andb]. change (32 - 1) with 31. rewrite Z.mod_small by lia. destruct (Z.leb_spec (2 ^ 31) z).
  - split; [lia|]. symmetry. apply (Z.mod_unique _ _ (-1)); lia.
  - split; [lia|]. apply Z.mod_small. lia.
Qed.
Lemma wrap_small : forall t z, 0 <= z < 2 ^ (i_bits t - 1) -> i_wrap t z = z.
Proof.
  intros t z Hz. unfold i_wrap. assert (2 ^ i_bits t = 2 * 2 ^ (i_bits t - 1)) by (rewrite <- Z.pow_succ_r by (destruct t; cbn; lia); f_equal; lia).
  rewrite Z.mod_small by lia. destruct (Z.leb_spec (2 ^ (i_bits t - 1)) z); [lia|]. now rewrite andb_false_r.
Qed.

(** ** C46.  An ObjectID is written as 24 lower case hexadecimal digits, which are those of its number, and reading them gives
    it back whatever follows. *)
Theorem C46_any_text : forall ds z d rest, List.length ds = 24%nat -> hex_number 0 ds = Some z ->
  exists o, oid_get d (ds ++ rest) = Ok (o, rest) /\ id_fits o /\ id_number o = z.
Proof.
  intros ds z d rest L E. rewrite <- (firstn_skipn 8 ds) in *. set (a := firstn 8 ds) in *. set (bc := skipn 8 ds) in *.
  assert (La : List.length a = 8%nat) by (unfold a; rewrite firstn_length; rewrite app_length in L; unfold a, bc in L; rewrite firstn_length, skipn_length in L; lia).
  assert (Lbc : List.length bc = 16%nat) by (rewrite app_length in L; lia).
  rewrite <- (firstn_skipn 10 bc) in *. set (b := firstn 10 bc) in *. set (c := skipn 10 bc) in *.
  assert (Lb : List.length b = 10%nat) by (unfold b; rewrite app_length in Lbc; unfold b, c in Lbc; rewrite firstn_length, skipn_length in Lbc; rewrite firstn_length; lia).
  assert (Lc : List.length c = 6%nat) by (rewrite app_length in Lbc; lia).
  clearbody a b c. clear L Lbc bc ds. rewrite hex_number_app in E. destruct (hex_number 0 a) as [x|] eqn:Ea; [|discriminate E].
  rewrite hex_number_app in E. destruct (hex_number x b) as [y'|] eqn:Eb'; [|discriminate E].
  assert (H0 : forall l acc, hex_number acc l <> None -> exists v, hex_number 0 l = Some v).
  { clear. intros l acc. generalize 0. revert acc. induction l as [|h l IH]; intros acc z H; [cbn; eauto|]. cbn [hex_number] in *. destruct (hex_digit h); [eapply IH; exact H|congruence]. }
  destruct (H0 b x ltac:(congruence)) as (y & Eb). destruct (H0 c y' ltac:(congruence)) as (w & Ec).
  rewrite (hex_number_acc b x y Eb) in Eb'. injection Eb' as <-. rewrite (hex_number_acc c _ w Ec) in E. injection E as <-.
  assert (Rx := hex_number_range a x Ea). assert (Ry := hex_number_range b y Eb). assert (Rw := hex_number_range c w Ec). rewrite La, Lb, Lc in *.
  change (16 ^ Z.of_nat 8) with (2 ^ 32) in *. change (16 ^ Z.of_nat 10) with (2 ^ 40) in *. change (16 ^ Z.of_nat 6) with (2 ^ 24) in *.
  unfold oid_get. rewrite <- !app_assoc. rewrite (read_hex0 8 a _ true false None x (eq_sym La) ltac:(lia) Ea). cbn [bind].
  rewrite (read_hex0 10 b _ true true None y (eq_sym Lb) ltac:(lia) Eb). cbn [bind].
  rewrite (read_hex0 6 c rest true true None w (eq_sym Lc) ltac:(lia) Ec). cbn [bind].
  destruct (wrap_int x Rx) as [W1 W2]. rewrite (wrap_small ILong y) by (cbn [i_bits]; change (64 - 1) with 63; lia). rewrite (wrap_small IInt w) by (cbn [i_bits]; change (32 - 1) with 31; lia).
  eexists. split; [reflexivity|]. unfold id_fits, id_number, oid_fits, oid_number. cbn [o_time o_random o_counter]. split; [auto|]. rewrite W2. ring.
Qed.
Theorem C46_text : forall o, id_fits o ->
  List.length (oid_put o) = 24%nat /\ Forall lower_case (oid_put o) /\ hex_number 0 (oid_put o) = Some (id_number o) /\
  forall d rest, exists o', oid_get d (oid_put o ++ rest) = Ok (o', rest) /\ oid_eqb o' o = true.
Proof.
  intros o H. assert (P : List.length (oid_put o) = 24%nat /\ Forall lower_case (oid_put o) /\ hex_number 0 (oid_put o) = Some (id_number o)).
  { destruct H as (Ht & Hr & Hc). unfold oid_put. assert (M := Z.mod_pos_bound (o_time o) (2 ^ 32) ltac:(lia)).
    rewrite (put_hex_spec 8 32) by (try lia; exact M). rewrite (put_hex_spec 10 64); [|lia|rewrite Z.mod_small by lia; exact Hr]. rewrite (put_hex_spec 6 32); [|lia|rewrite Z.mod_small by lia; exact Hc].
    rewrite (Z.mod_small (o_random o)), (Z.mod_small (o_counter o)) by lia.
    destruct (hexw_number 8 _ M) as [A1 A2], (hexw_number 10 _ Hr) as [B1 B2], (hexw_number 6 _ Hc) as [C1 C2].
    split; [rewrite !app_length, !hexw_length; reflexivity|]. split; [apply Forall_app; split; [exact A2|apply Forall_app; auto]|].
    rewrite hex_number_app, A1, hex_number_app, (hex_number_acc _ _ _ B1), (hex_number_acc _ _ _ C1), !hexw_length. f_equal.
    unfold id_number, oid_number. change (16 ^ Z.of_nat 10) with (2 ^ 40). change (16 ^ Z.of_nat 6) with (2 ^ 24). ring. }
  destruct P as (P1 & P2 & P3). repeat (split; [assumption|]). intros d rest. destruct (C46_any_text _ _ d rest P1 P3) as (o' & E & F & N).
  exists o'. split; [exact E|]. now apply number_inj.
Qed.

Lemma little_app : forall a b z, little (a + b) z = little a z ++ little b (z / 2 ^ (8 * Z.of_nat a)).
Proof.
  induction a as [|a IH]; intros b z; [cbn [Nat.add little app]; change (2 ^ (8 * Z.of_nat 0)) with 1; now rewrite Z.div_1_r|].
  cbn [Nat.add little app]. rewrite IH. do 2 f_equal. rewrite Z.div_div by (try lia; apply Z.pow_pos_nonneg; lia). f_equal. f_equal. now rewrite pow256.
Qed.
Lemma skipn_skipn : forall {A} (l : list A) n m, skipn n (skipn m l) = skipn (n + m) l.
Proof. intros A l n m. revert l. induction m as [|m IH]; intro l; [cbn [skipn]; now rewrite Nat.add_0_r|]. rewrite Nat.add_succ_r. destruct l; [now rewrite !skipn_nil|]. cbn [skipn]. apply IH. Qed.
Lemma be_live : forall k text b size n z rest, (size, n) = (4, 4)%nat \/ (size, n) = (3, 4)%nat \/ (size, n) = (5, 8)%nat ->
  (if Nat.eqb size n then - 2 ^ (8 * Z.of_nat n - 1) <= z < 2 ^ (8 * Z.of_nat n - 1) else 0 <= z < 2 ^ (8 * Z.of_nat size)) ->
  live k text (b_src b) -> skipn (s_pos (b_src b)) text = rev (little size z) ++ rest ->
  exists s', b_readBE size n true b = Ok (z, bset_src b s') /\ live k text s' /\ s_pos s' = (s_pos (b_src b) + size)%nat /\ skipn (s_pos s') text = rest.
Proof.
  intros k text b size n z rest Hc Hz Lv Sk. destruct (be_cases size n z Hc) as [E1 _].
  assert (At : at_src k (b_src b) (writeBE size n z ++ rest)).
  { rewrite E1, <- Sk. destruct (b_src b) as [k0 d p g e]. destruct Lv as (Hk & D & G & E & P). cbn in *. subst. exists (firstn p text), false. rewrite firstn_skipn, firstn_length, Nat.min_l by exact P. split; [reflexivity|discriminate]. }
  destruct (C44_big k b size n true z rest Hc Hz At) as (_ & s' & R & At'). exists s'. split; [exact R|].
  assert (L : List.length (rev (little size z)) = size) by (rewrite rev_length; apply little_length).
  destruct (read_live k text (b_src b) size Lv) as (got & s2 & Q & C). unfold b_readBE, b_read in R. rewrite Q in R. cbn [bind] in R.
  assert (Es : s2 = s') by (apply (f_equal (fun r => match r with Ok (_, x) => b_src x | _ => b_src b end)) in R; exact R). subst s2.
  destruct C as [(C1 & C2 & C3 & C4)|(C1 & C2)].
  - split; [exact C1|]. split; [exact C2|]. rewrite C2, Nat.add_comm, <- skipn_skipn, Sk. rewrite <- L at 1. apply skipn_app_len.
  - exfalso. destruct (read_at_src k (b_src b) (rev (little size z)) rest) as (s3 & R3 & _).
    + now rewrite E1 in At.
    + intro X. rewrite X in L. cbn in L. destruct Hc as [Y|[Y|Y]]; injection Y as -> ->; discriminate L.
    + rewrite L, Q in R3. injection R3 as -> _. lia.
Qed.
Lemma le_live : forall k text b n z rest, (n <> 0)%nat -> - 2 ^ (8 * Z.of_nat n - 1) <= z < 2 ^ (8 * Z.of_nat n - 1) ->
  live k text (b_src b) -> skipn (s_pos (b_src b)) text = little n z ++ rest ->
  exists s', b_readLE n b = Ok (z, bset_src b s') /\ live k text s' /\ s_pos s' = (s_pos (b_src b) + n)%nat /\ skipn (s_pos s') text = rest.
Proof.
  intros k text b n z rest Hn Hz Lv Sk. assert (L := little_length n z).
  destruct (read_live k text (b_src b) n Lv) as (got & s2 & Q & C). unfold b_readLE, b_read. rewrite Q. cbn [bind].
  assert (G : got = little n z /\ live k text s2 /\ s_pos s2 = (s_pos (b_src b) + n)%nat).
  { destruct C as [(C1 & C2 & C3 & C4)|(C1 & C2)].
    - split; [|auto]. rewrite C3, Sk, firstn_app, L, Nat.sub_diag. rewrite <- L at 1. now rewrite firstn_all, app_nil_r.
    - exfalso. assert (At : at_src k (b_src b) (little n z ++ rest)).
      { rewrite <- Sk. destruct (b_src b) as [k0 d p g e]. destruct Lv as (Hk & D & G & E & P). cbn in *. subst. exists (firstn p text), false. rewrite firstn_skipn, firstn_length, Nat.min_l by exact P. split; [reflexivity|discriminate]. }
      destruct (read_at_src k (b_src b) (little n z) rest At) as (s3 & R3 & _); [intro X; rewrite X in L; cbn in L; lia|]. rewrite L, Q in R3. injection R3 as -> _. lia. }
  destruct G as (-> & C1 & C2). rewrite L, Nat.eqb_refl, signed_little by assumption. exists s2. split; [reflexivity|]. split; [exact C1|]. split; [exact C2|].
  rewrite C2, Nat.add_comm, <- skipn_skipn, Sk. rewrite <- L at 1. apply skipn_app_len.
Qed.
(** [readable k b bytes rest]: the parser is in a container that expects at least these bytes, and the source has them, followed by [rest]. *)
Definition readable (k : skind) (b : bparser) (bytes rest : list Z) (l : Z) (r : list Z) : Prop :=
  at_src k (b_src b) (bytes ++ rest) /\ b_left b = l :: r /\ len bytes <= l < 2 ^ 64.
Lemma custom_live : forall A (f : bparser -> outcome (A * bparser)) (a : A) k b bytes rest l r, readable k b bytes rest l r -> bytes <> [] ->
  (forall text b, live k text (b_src b) -> skipn (s_pos (b_src b)) text = bytes ++ rest ->
     exists s', f b = Ok (a, bset_src b s') /\ live k text s' /\ s_pos s' = (s_pos (b_src b) + List.length bytes)%nat /\ skipn (s_pos s') text = rest) ->
  exists s', read_custom f b = Ok (a, bset_src (bset_sizes b (l - len bytes :: r) (b_size b)) s') /\ at_src k s' rest.
Proof.
  intros A f a k b bytes rest l r (At & Lb & Hl) Hn Hf. destruct bytes as [|c0 bs0] eqn:Eb; [congruence|]. rewrite <- Eb in *.
  assert (At0 := At). rewrite Eb in At0. destruct (at_cons_inv _ _ _ _ At0) as (pre & Es). rewrite app_comm_cons, <- Eb in Es.
  assert (Lv : live k (pre ++ bytes ++ rest) (b_src b)).
  { rewrite Es. unfold live. cbn. repeat split; auto. rewrite app_length. lia. }
  assert (Sk : skipn (s_pos (b_src b)) (pre ++ bytes ++ rest) = bytes ++ rest) by (rewrite Es; cbn [s_pos]; now rewrite skipn_app, skipn_all, Nat.sub_diag).
  assert (Tg : forall s, live k (pre ++ bytes ++ rest) s -> src_tellg s = (Z.of_nat (s_pos s), s)).
  { intros s (K & _ & G & E & _). unfold src_tellg, strm_good. rewrite K, G, E. now destruct k. }
  unfold read_custom. rewrite (Tg _ Lv). replace (bset_src b (b_src b)) with b by now destruct b.
  destruct (Hf _ b Lv Sk) as (s' & -> & Lv' & Hp & Sk'). cbn [bind bset_src b_src]. rewrite (Tg _ Lv').
  change (bset_src (mkB s' (b_stack b) (b_left b) (b_size b) (b_next b) (b_key b) (b_type b) (b_skip b)) s') with (bset_src b s').
  rewrite (b_use_at (bset_src b s') l r) by (try exact Lb; unfold len in *; lia). cbn [bind].
  exists s'. split.
  - replace (Z.of_nat (s_pos s') - Z.of_nat (s_pos (b_src b))) with (len bytes) by (unfold len; lia). reflexivity.
  - rewrite <- Sk'. destruct s' as [k0 d p g e]. destruct Lv' as (K & D & G & E & P). cbn in *. subst k0 d g e. exists (firstn p (pre ++ bytes ++ rest)), false.
    rewrite firstn_skipn, firstn_length, Nat.min_l by exact P. split; [reflexivity|discriminate].
Qed.

(** In BSON it is 12 bytes, its number with the most significant byte first; they are read back from any source, in any
    container that still expects them, whatever follows. *)
Theorem C46_binary : forall o, id_fits o -> oid_bson o = rev (little 12 (id_number o)) /\
  forall k d b rest l r, readable k b (oid_bson o) rest l r ->
    exists o' s', read_custom (oid_from d) b = Ok (o', bset_src (bset_sizes b (l - 12 :: r) (b_size b)) s') /\ at_src k s' rest /\ oid_eqb o' o = true.
Proof.
  intros o H. assert (E : oid_bson o = rev (little 4 (o_time o)) ++ rev (little 5 (o_random o)) ++ rev (little 3 (o_counter o))).
  { unfold oid_bson. rewrite (proj1 (be_cases 4 4 (o_time o) ltac:(auto))), (proj1 (be_cases 5 8 (o_random o) ltac:(auto))), (proj1 (be_cases 3 4 (o_counter o) ltac:(auto))). reflexivity. }
  split.
  - rewrite E. destruct (number_parts _ _ _ H) as (P1 & P2 & P3). change 12%nat with (3 + (5 + 4))%nat. rewrite !little_app, !rev_app_distr, <- app_assoc.
    rewrite Z.div_div by lia. change (2 ^ (8 * Z.of_nat 3) * 2 ^ (8 * Z.of_nat 5)) with (2 ^ 64). change (2 ^ (8 * Z.of_nat 3)) with (2 ^ 24).
    fold (id_number o) in *. rewrite P1. f_equal; [|f_equal]; f_equal; apply little_mod.
    + change (2 ^ (8 * Z.of_nat 4)) with (2 ^ 32). rewrite Zminus_mod_idemp_r, Z.sub_diag. reflexivity.
    + change (2 ^ (8 * Z.of_nat 5)) with (2 ^ 40). rewrite <- P2 at 1. rewrite Zminus_mod_idemp_l, Z.sub_diag. reflexivity.
    + change (2 ^ (8 * Z.of_nat 3)) with (2 ^ 24). rewrite <- P3 at 1. rewrite Zminus_mod_idemp_l, Z.sub_diag. reflexivity.
  - intros k d b rest l r Rd. assert (L12 : List.length (oid_bson o) = 12%nat) by (rewrite E, !app_length, !rev_length, !little_length; reflexivity).
    destruct (custom_live oid (oid_from d) (mkOid (o_time o) (o_random o) (o_counter o) (o_str d)) k b (oid_bson o) rest l r Rd) as (s' & R & At).
    + intro Q. now rewrite Q in L12.
    + destruct H as (Ht & Hr & Hc). intros text b0 Lv Sk. rewrite E, <- !app_assoc in Sk. unfold oid_from.
      destruct (be_live k text b0 4 4 (o_time o) _ ltac:(auto) Ht Lv Sk) as (s1 & -> & Lv1 & Hp1 & Sk1). cbn [bind].
      destruct (be_live k text (bset_src b0 s1) 5 8 (o_random o) _ ltac:(auto) Hr Lv1 Sk1) as (s2 & -> & Lv2 & Hp2 & Sk2). cbn [bind].
      destruct (be_live k text (bset_src (bset_src b0 s1) s2) 3 4 (o_counter o) rest ltac:(auto) Hc Lv2 Sk2) as (s3 & -> & Lv3 & Hp3 & Sk3). cbn [bind].
      exists s3. split; [reflexivity|]. split; [exact Lv3|]. split; [|exact Sk3]. rewrite L12. cbn [bset_src b_src] in *. lia.
    + replace (len (oid_bson o)) with 12 in R by (unfold len; now rewrite L12). exists (mkOid (o_time o) (o_random o) (o_counter o) (o_str d)), s'. split; [exact R|]. split; [exact At|]. unfold oid_eqb. cbn [o_time o_random o_counter]. lia.
Qed.
(** An ObjectID made of a string with 24 digits has their number; made of the text of another one it is equal to it. *)
Theorem C46_from_string : (forall ds z rest, List.length ds = 24%nat -> hex_number 0 ds = Some z ->
    exists o, oid_parse (ds ++ rest) = Ok o /\ id_fits o /\ id_number o = z) /\
  (forall o, id_fits o -> exists o', oid_parse (oid_put o) = Ok o' /\ oid_eqb o' o = true).
Proof.
  split.
  - intros ds z rest L E. destruct (C46_any_text ds z (oid_make 0 0 0) rest L E) as (o & G & F & N). exists o. unfold oid_parse. rewrite G. auto.
  - intros o F. destruct (proj2 (proj2 (proj2 (C46_text o F))) (oid_make 0 0 0) []) as (o' & G & Q). exists o'. unfold oid_parse. rewrite app_nil_r in G. rewrite G. auto.
Qed.
Print Assumptions C46_from_string.
Print Assumptions C46_text.
Print Assumptions C46_any_text.
Print Assumptions C46_binary.
Definition id1 : oid := oid_make (-2) 0x0102030405 0xabcdef.
Example C46_example : id_fits id1 /\ oid_put id1 = bs "fffffffe0102030405abcdef" /\ oid_bson id1 = [255; 255; 255; 254; 1; 2; 3; 4; 5; 0xab; 0xcd; 0xef] /\
  oid_get (oid_make 0 0 0) (bs "FFFFFFFE0102030405ABCDEF"",") = Ok (id1, bs """,") /\
  readable Strm (mkB (src_init Strm (oid_bson id1 ++ [0])) [] [13] [] TokValue [] 7 false) (oid_bson id1) [0] 13 [].
Proof. split; [unfold id_fits, oid_fits; cbn; lia|]. repeat (split; [reflexivity|]). split; [apply at_init|]. split; [reflexivity|]. vm_compute. split; [discriminate|reflexivity]. Qed.

(** ** C47.  The ids that a process makes.  [oid_run l cc]: the constructions at the times (in seconds) and with the results
    of std::rand() in [l], classCounter being [cc] before.  The property asks for distinct ids as long as fewer than 2^24
    are made in a second; this holds for fewer than 4095. *)
Lemma run_nth : forall l cc os cc', 0 <= cc -> oid_run l cc = Ok (os, cc') ->
  List.length os = List.length l /\
  forall i o, nth_error os i = Some o -> exists now rand, nth_error l i = Some (now, rand) /\ o = oid_make (i_wrap IInt now) rand ((cc + Z.of_nat i) mod 4095).
Proof.
  induction l as [|[now rand] l IH]; intros cc os cc' Hc E; cbn [oid_run] in E.
  - injection E as <- <-. split; [reflexivity|]. intros [|i] o H; discriminate H.
  - unfold oid_new, next_counter in E. destruct (cc + 1 <? 2 ^ 31); [|discriminate E]. cbn [bind] in E.
    destruct (oid_run l (cc + 1)) as [[os1 cc1]| | |] eqn:E1; try discriminate E. cbn [bind] in E. injection E as <- <-.
    destruct (IH (cc + 1) os1 cc1 ltac:(lia) E1) as [L N]. split; [cbn [List.length]; lia|]. intros [|i] o H; cbn [nth_error] in H.
    + injection H as <-. exists now, rand. split; [reflexivity|]. unfold oid_make. rewrite Z.rem_mod_nonneg, Z.add_0_r by lia. reflexivity.
    + destruct (N i o H) as (n & r & A & ->). exists n, r. split; [exact A|]. f_equal. f_equal. lia.
Qed.
Theorem C47_partial : forall rand0 l cc os cc', 0 <= rand0 -> class_counter rand0 = Ok cc -> oid_run l cc = Ok (os, cc') ->
  forall i j a b, (i < j < i + 4095)%nat -> nth_error os i = Some a -> nth_error os j = Some b -> oid_eqb a b = false.
Proof.
  intros rand0 l cc os cc' Hr Hcc Hrun i j a b Hij Ha Hb. unfold class_counter in Hcc. destruct (32769 + rand0 <? 2 ^ 31); [|discriminate Hcc]. assert (cc = 32769 + rand0) as -> by congruence. clear Hcc.
  destruct (run_nth l (32769 + rand0) os cc' ltac:(lia) Hrun) as [_ N]. destruct (N i a Ha) as (n1 & r1 & _ & ->). destruct (N j b Hb) as (n2 & r2 & _ & ->).
  unfold oid_eqb, oid_make. cbn [o_time o_random o_counter]. set (x := 32769 + rand0 + Z.of_nat i) in *. replace (32769 + rand0 + Z.of_nat j) with (x + (Z.of_nat j - Z.of_nat i)) by lia.
  assert (X := Z.div_mod x 4095 ltac:(lia)). assert (Y := Z.div_mod (x + (Z.of_nat j - Z.of_nat i)) 4095 ltac:(lia)).
  assert (X2 := Z.mod_pos_bound x 4095 ltac:(lia)). assert (Y2 := Z.mod_pos_bound (x + (Z.of_nat j - Z.of_nat i)) 4095 ltac:(lia)).
  destruct (Z.eqb_spec (x mod 4095) ((x + (Z.of_nat j - Z.of_nat i)) mod 4095)) as [Q|Q]; [exfalso; rewrite <- Q in Y; lia|]. now rewrite andb_false_r.
Qed.
(** Two ids of the same second with the same std::rand() are equal when 4094 were made in between. *)
Theorem C47_refuted : forall rand0 l cc os cc' i a b now rand, 0 <= rand0 -> class_counter rand0 = Ok cc -> oid_run l cc = Ok (os, cc') ->
  nth_error l i = Some (now, rand) -> nth_error l (i + 4095) = Some (now, rand) ->
  nth_error os i = Some a -> nth_error os (i + 4095) = Some b -> a = b.
Proof.
  intros rand0 l cc os cc' i a b now rand Hr Hcc Hrun Li Lj Ha Hb. unfold class_counter in Hcc. destruct (32769 + rand0 <? 2 ^ 31); [|discriminate Hcc]. assert (cc = 32769 + rand0) as -> by congruence. clear Hcc.
  destruct (run_nth l (32769 + rand0) os cc' ltac:(lia) Hrun) as [_ N]. destruct (N _ a Ha) as (n1 & r1 & A & ->). destruct (N _ b Hb) as (n2 & r2 & B & ->).
  rewrite Li in A. rewrite Lj in B. injection A as <- <-. injection B as <- <-. f_equal. rewrite Nat2Z.inj_add, Z.add_assoc. change (Z.of_nat 4095) with (1 * 4095). now rewrite Z_mod_plus_full.
Qed.
(** A std::rand() near 2^31 overflows classCounter at the start of the process. *)
Theorem C47_start_refuted : forall rand0, 2 ^ 31 - 32769 <= rand0 -> class_counter rand0 = UB.
Proof. intros rand0 H. unfold class_counter. destruct (Z.ltb_spec (32769 + rand0) (2 ^ 31)); [lia|reflexivity]. Qed.
Print Assumptions C47_partial.
Print Assumptions C47_refuted.
Print Assumptions C47_start_refuted.
Definition run1 : list (Z * Z) := repeat (1700000000, 42) 4096.
Example C47_example : class_counter 12345 = Ok 45114 /\
  match oid_run run1 45114 with
  | Ok (os, _) => match nth_error os 0, nth_error os 4095, nth_error run1 4095 with
                  | Some a, Some b, Some (now, rand) => oid_eqb a b && (now =? 1700000000) && (rand =? 42)
                  | _, _, _ => false
                  end
  | _ => false
  end = true.
Proof. split; vm_compute; reflexivity. Qed.
Example C47_run_example : match oid_run [(1700000000, 42); (1700000000, 7); (1700000000, 42)] 45114 with
  | Ok (os, _) => map oid_put os = [bs "6553f100000000002a000045"; bs "6553f1000000000007000046"; bs "6553f100000000002a000047"]
  | _ => False
  end.
Proof. vm_compute. reflexivity. Qed.

(** ** C48.  BsonTimeStamp::asDateTime multiplies in 32 bits: it gives the milliseconds of the stamp up to 1970-02-19 and never
    after that. *)
Theorem C48_date_partial : forall s, 0 <= t_time s < 4294968 -> stamp_date s = t_time s * 1000.
Proof. intros s H. unfold stamp_date, i_wrap. cbn [i_bits i_signed andb]. apply Z.mod_small. lia. Qed.
Theorem C48_date_refuted : forall s, 4294968 <= t_time s < 2 ^ 32 -> stamp_date s <> t_time s * 1000.
Proof. intros s H. unfold stamp_date, i_wrap. cbn [i_bits i_signed andb]. assert (M := Z.mod_pos_bound (t_time s * 1000) (2 ^ 32) ltac:(lia)). lia. Qed.
(** operator< looks at the increment before the time: an earlier stamp is less exactly when its increment is not greater. *)
Theorem C48_order_partial : forall a b, t_time a < t_time b -> t_inc a <= t_inc b -> stamp_ltb a b = true /\ stamp_ltb b a = false.
Proof. intros a b Ht Hi. unfold stamp_ltb. lia. Qed.
Theorem C48_order_refuted : forall a b, t_time a < t_time b -> t_inc b < t_inc a -> stamp_ltb a b = false /\ stamp_ltb b a = true.
Proof. intros a b Ht Hi. unfold stamp_ltb. lia. Qed.
Print Assumptions C48_date_partial.
Print Assumptions C48_date_refuted.
Print Assumptions C48_order_partial.
Print Assumptions C48_order_refuted.
Example C48_example : let s := stamp_make 1700000000 1 in t_time s = 1700000000 /\ stamp_date s = 3487918080 /\ stamp_date (stamp_make 4294967 9) = 4294967000 /\
  stamp_ltb (stamp_make 1600000000 2) (stamp_make 1700000000 1) = false /\ stamp_ltb (stamp_make 1600000000 1) (stamp_make 1700000000 1) = true.
Proof. vm_compute. repeat split. Qed.

(** ** C55.  Dates and timestamps in BSON are 8 bytes, which are read back from any source, in any container that still
    expects them, whatever follows. *)
Theorem C55_date : forall d, - 2 ^ 63 <= d < 2 ^ 63 -> date_bson d = little 8 d /\
  forall k b rest l r, readable k b (date_bson d) rest l r ->
    exists s', read_custom date_from b = Ok (d, bset_src (bset_sizes b (l - 8 :: r) (b_size b)) s') /\ at_src k s' rest.
Proof.
  intros d H. assert (E : date_bson d = little 8 d) by apply writeLE_little. split; [exact E|]. intros k b rest l r Rd. rewrite E in Rd.
  assert (L := little_length 8 d). destruct (custom_live Z date_from d k b (little 8 d) rest l r Rd) as (s' & R & At).
  - intro Q. now rewrite Q in L.
  - intros text b0 Lv Sk. rewrite L. apply le_live; [discriminate|exact H|exact Lv|exact Sk].
  - exists s'. unfold len in R. rewrite L in R. auto.
Qed.
Definition stamp_fits (s : stamp) : Prop := 0 <= t_inc s < 2 ^ 32 /\ 0 <= t_time s < 2 ^ 32.
Theorem C55_stamp : forall s, stamp_fits s -> stamp_bson s = rev (little 4 (t_inc s)) ++ rev (little 4 (t_time s)) /\
  forall k b rest l r, readable k b (stamp_bson s) rest l r ->
    exists s', read_custom stamp_from b = Ok (s, bset_src (bset_sizes b (l - 8 :: r) (b_size b)) s') /\ at_src k s' rest.
Proof.
  intros s (Hi & Ht). destruct (wrap_int _ Hi) as [Wi Mi], (wrap_int _ Ht) as [Wt Mt].
  assert (E : stamp_bson s = rev (little 4 (i_wrap IInt (t_inc s))) ++ rev (little 4 (i_wrap IInt (t_time s)))) by reflexivity.
  split.
  - rewrite E. f_equal; f_equal; apply little_mod; change (2 ^ (8 * Z.of_nat 4)) with (2 ^ 32).
    + rewrite <- Mi at 2. rewrite Zminus_mod_idemp_r, Z.sub_diag. reflexivity.
    + rewrite <- Mt at 2. rewrite Zminus_mod_idemp_r, Z.sub_diag. reflexivity.
  - intros k b rest l r Rd. assert (L : List.length (stamp_bson s) = 8%nat) by (rewrite E, app_length, !rev_length, !little_length; reflexivity).
    destruct (custom_live stamp stamp_from s k b (stamp_bson s) rest l r Rd) as (s' & R & At).
    + intro Q. now rewrite Q in L.
    + intros text b0 Lv Sk. rewrite E, <- app_assoc in Sk. unfold stamp_from.
      destruct (be_live k text b0 4 4 _ _ ltac:(auto) Wi Lv Sk) as (s1 & -> & Lv1 & Hp1 & Sk1). cbn [bind].
      destruct (be_live k text (bset_src b0 s1) 4 4 _ rest ltac:(auto) Wt Lv1 Sk1) as (s2 & -> & Lv2 & Hp2 & Sk2). cbn [bind].
      exists s2. split.
      * unfold i_wrap at 1 3. cbn [i_bits i_signed andb]. rewrite Mi, Mt. now destruct s.
      * split; [exact Lv2|]. split; [|exact Sk2]. rewrite L. cbn [bset_src b_src] in *. lia.
    + exists s'. unfold len in R. rewrite L in R. auto.
Qed.
(** The BSON specification has a timestamp as a little endian number with the increment in its lower half.  The bytes are
    other ones unless both halves read the same in both directions. *)
Theorem C55_endian_refuted : forall s, stamp_fits s -> stamp_bson s = little 4 (t_inc s) ++ little 4 (t_time s) ->
  rev (little 4 (t_inc s)) = little 4 (t_inc s) /\ rev (little 4 (t_time s)) = little 4 (t_time s).
Proof.
  intros s H E. rewrite (proj1 (C55_stamp s H)) in E.
  assert (A : firstn 4 (rev (little 4 (t_inc s)) ++ rev (little 4 (t_time s))) = firstn 4 (little 4 (t_inc s) ++ little 4 (t_time s))) by now rewrite E.
  assert (B : skipn 4 (rev (little 4 (t_inc s)) ++ rev (little 4 (t_time s))) = skipn 4 (little 4 (t_inc s) ++ little 4 (t_time s))) by now rewrite E.
  split; [exact A|exact B].
Qed.
Lemma skip_char_at : forall c r, is_space c = false -> skip_char (Some (c :: r)) = Some r.
Proof. intros c r H. unfold skip_char. now rewrite skip_none. Qed.
(** As text (the form in JSON) a timestamp is two hexadecimal numbers between quotes, read back whatever follows. *)
Theorem C55_text : forall s, stamp_fits s ->
  (exists t i, stamp_put s = [34] ++ t ++ [45] ++ i ++ [34] /\ List.length t = 8%nat /\ hex_number 0 t = Some (t_time s) /\ hex_number 0 i = Some (t_inc s)) /\
  forall d rest, stamp_get d (Some (stamp_put s ++ rest)) = (s, Some rest).
Proof.
  intros s (Hi & Ht). unfold stamp_put. rewrite (put_hex_spec 8 32); [|lia|rewrite Z.mod_small by lia; exact Ht]. rewrite (Z.mod_small (t_time s)) by lia.
  destruct (hexw_number 8 (t_time s) Ht) as [T1 T2]. destruct (put_hex_free (t_inc s) Hi) as (I0 & I1 & I2). assert (Lt := hexw_length 8 (t_time s)).
  set (tx := hexw 8 (t_time s)) in *. set (ix := put_hex 0 32 (t_inc s)) in *. clearbody tx ix. split; [exists tx, ix; auto|]. intros d rest.
  rewrite <- !app_assoc. cbn [app]. unfold stamp_get. cbv zeta. rewrite skip_char_at by reflexivity.
  rewrite (get_hex32_spec (t_time d) tx (t_time s) (45 :: ix ++ 34 :: rest) T1 Ht T2); [|intro Q; now rewrite Q in Lt|split; [reflexivity|split; discriminate]].
  rewrite skip_char_at by reflexivity.
  rewrite (get_hex32_spec (t_inc d) ix (t_inc s) (34 :: rest) I1 Hi I2 I0); [|split; [reflexivity|split; discriminate]].
  rewrite skip_char_at by reflexivity. now destruct s.
Qed.
(** An id, a date and a timestamp as members of a document: the type byte of the BSON specification, the name (in an array the index)
    and a zero before these bytes.  At the root they make a document of their own, of the length that it says. *)
Definition element (type : Z) (name payload : list Z) : list Z := type :: name ++ 0 :: payload.
Theorem C55_elements : forall o d s, id_fits o -> - 2 ^ 63 <= d < 2 ^ 63 -> stamp_fits s ->
  Forall (fun '(w, type, payload) => forall p : bprinter,
    (forall r, bp_stack p = BMap :: r -> exists c, w p = Ok (c, p) /\ chunks_text c = element type (bp_key p) payload) /\
    (forall r i q, bp_stack p = BArray :: r -> bp_index p = i :: q ->
       exists c, w p = Ok (c, mkBp (bp_key p) (bp_stack p) (i + 1 :: q) (bp_ids p)) /\ chunks_text c = element type (int_dec i) payload) /\
    (bp_stack p = [] -> exists c size, w p = Ok (c, p) /\ chunks_text c = little 4 size ++ element type (bs "0") payload /\
       size = Z.of_nat (List.length (chunks_text c ++ [0]))))
  [(write_oid o, 7, oid_bson o); (write_date d, 9, date_bson d); (write_stamp s, 17, stamp_bson s)].
Proof.
  intros o d s Ho Hd Hs.
  assert (Lo : List.length (oid_bson o) = 12%nat) by (rewrite (proj1 (C46_binary o Ho)), rev_length; apply little_length).
  assert (Ld : List.length (date_bson d) = 8%nat) by (rewrite (proj1 (C55_date d Hd)); apply little_length).
  assert (Ls : List.length (stamp_bson s) = 8%nat) by (rewrite (proj1 (C55_stamp s Hs)), app_length, !rev_length, !little_length; reflexivity).
  assert (G : forall type size b, Z.of_nat (List.length b) = size -> forall p : bprinter,
    (forall r, bp_stack p = BMap :: r -> exists c, write_custom type size b p = Ok (c, p) /\ chunks_text c = element type (bp_key p) b) /\
    (forall r i q, bp_stack p = BArray :: r -> bp_index p = i :: q ->
       exists c, write_custom type size b p = Ok (c, mkBp (bp_key p) (bp_stack p) (i + 1 :: q) (bp_ids p)) /\ chunks_text c = element type (int_dec i) b) /\
    (bp_stack p = [] -> exists c n, write_custom type size b p = Ok (c, p) /\ chunks_text c = little 4 n ++ element type (bs "0") b /\
       n = Z.of_nat (List.length (chunks_text c ++ [0])))).
  { intros type size b L p. unfold write_custom, w_then, writeKey, w_put, element. split; [|split].
    - intros r E. rewrite E. cbn [bind app]. eexists. split; [reflexivity|]. cbn [chunks_text chunk_bytes List.flat_map List.map List.concat app]. now rewrite app_nil_r, <- app_assoc.
    - intros r i q E Q. rewrite E, Q. cbn [bind app]. eexists. split; [reflexivity|]. cbn [chunks_text chunk_bytes List.flat_map List.map List.concat app]. now rewrite app_nil_r.
    - intros E. rewrite E. cbn [bind app]. eexists. exists (4 + 1 + 2 + size + 1). split; [reflexivity|].
      replace (put_size (4 + 1 + 2 + size + 1)) with (little 4 (4 + 1 + 2 + size + 1)) by (symmetry; apply writeLE_little).
      cbn [chunks_text chunk_bytes List.flat_map List.map List.concat app]. rewrite app_nil_r. split; [reflexivity|].
      rewrite app_length, app_length, little_length. cbn [List.length app]. lia. }
  constructor; [exact (G 7 12 _ (f_equal Z.of_nat Lo))|]. constructor; [exact (G 9 8 _ (f_equal Z.of_nat Ld))|]. constructor; [exact (G 17 8 _ (f_equal Z.of_nat Ls))|]. constructor.
Qed.
Print Assumptions C55_elements.
Print Assumptions C55_date.
Print Assumptions C55_stamp.
Print Assumptions C55_endian_refuted.
Print Assumptions C55_text.
Example C55_example : let s := stamp_make 1700000000 0xfedcba98 in stamp_fits s /\ stamp_bson s = [0xfe; 0xdc; 0xba; 0x98; 0x65; 0x53; 0xf1; 0] /\
  stamp_bson s <> little 4 (t_inc s) ++ little 4 (t_time s) /\
  stamp_put s = bs """6553f100-fedcba98""" /\ stamp_get (stamp_make 1 2) (Some (stamp_put s ++ bs ",")) = (s, Some (bs ",")) /\
  date_bson (-2) = [254; 255; 255; 255; 255; 255; 255; 255].
Proof. split; [vm_compute; repeat split; discriminate|]. split; [reflexivity|]. split; [discriminate|]. repeat split. Qed.
Example C55_elements_example : let p := mkBp (bs "at") [BMap] [] 0 in
  (do (c, _) <- write_date 258 p; Ok (chunks_text c)) = Ok (9 :: bs "at" ++ [0; 2; 1; 0; 0; 0; 0; 0; 0]) /\
  (do (c, _) <- write_date 258 bp_init; Ok (chunks_text c ++ [0])) = Ok [16; 0; 0; 0; 9; 48; 0; 2; 1; 0; 0; 0; 0; 0; 0; 0].
Proof. split; reflexivity. Qed.

(** ** C56.  ObjectID::to_string gives the text of the id as it is.  It keeps the text of the first call: this holds as long
    as the id has not been read again after that. *)
Definition text_current (o : oid) : Prop := o_str o = [] \/ o_str o = oid_put o.
Theorem C56_partial : forall o, text_current o -> fst (oid_to_string o) = oid_put o /\
  let o' := snd (oid_to_string o) in oid_eqb o' o = true /\ text_current o' /\ fst (oid_to_string o') = oid_put o.
Proof.
  intros o H. unfold oid_to_string, text_current, oid_eqb in *. destruct (o_str o) as [|c s] eqn:E.
  - cbn [fst snd o_time o_random o_counter o_str]. split; [reflexivity|]. split; [lia|]. split; [now right|]. unfold oid_put at 1. cbn [o_time o_random o_counter]. fold (oid_put o).
    change (oid_put (mkOid (o_time o) (o_random o) (o_counter o) (oid_put o))) with (oid_put o). now destruct (oid_put o).
  - destruct H as [H|H]; [discriminate H|]. cbn [fst snd]. rewrite E. split; [exact H|]. split; [lia|]. split; [now right|]. exact H.
Qed.
Theorem C56_refuted : forall o text rest o', id_fits o -> o_str o = [] -> oid_get (snd (oid_to_string o)) text = Ok (o', rest) ->
  fst (oid_to_string o') = oid_put o.
Proof.
  intros o text rest o' H E G. assert (S' : o_str (snd (oid_to_string o)) = oid_put o) by (unfold oid_to_string; rewrite E; reflexivity).
  assert (S2 : o_str o' = oid_put o).
  { unfold oid_get in G. destruct (read_hex 8 true false None 0 text) as [[t s1]| | |]; try discriminate G. cbn [bind] in G.
    destruct (read_hex 10 true true None 0 s1) as [[r s2]| | |]; try discriminate G. cbn [bind] in G.
    destruct (read_hex 6 true true None 0 s2) as [[c s3]| | |]; try discriminate G. cbn [bind] in G. injection G as <- _. exact S'. }
  unfold oid_to_string. assert (L := proj1 (C46_text o H)). rewrite S2. destruct (oid_put o); [discriminate L|reflexivity].
Qed.
Print Assumptions C56_partial.
Print Assumptions C56_refuted.
Example C56_example : let o := snd (oid_to_string id1) in text_current o /\ exists o', oid_get o (bs "000000000000000000000001") = Ok (o', []) /\
  fst (oid_to_string o') = bs "fffffffe0102030405abcdef" /\ oid_put o' = bs "000000000000000000000001".
Proof. split; [right; reflexivity|]. eexists. repeat split; vm_compute; reflexivity. Qed.

(** ** C57.  ObjectIDs compare like their numbers (that is like their texts and their bytes), as MongoDB compares them.  This
    holds until 2038; an id with a later time has a negative time and is less than all others. *)
Theorem C57_partial : forall a b, id_fits a -> id_fits b -> 0 <= o_time a -> 0 <= o_time b ->
  (oid_ltb a b = true <-> id_number a < id_number b) /\ (oid_eqb a b = true <-> id_number a = id_number b).
Proof.
  intros a b (Ha & Hra & Hca) (Hb & Hrb & Hcb) Pa Pb. unfold id_number, oid_number, oid_ltb, oid_eqb. rewrite !Z.mod_small by lia. lia.
Qed.
Theorem C57_refuted : forall a b, id_fits a -> id_fits b -> o_time a < 0 <= o_time b -> oid_ltb a b = true /\ id_number b < id_number a.
Proof.
  intros a b (Ha & Hra & Hca) (Hb & Hrb & Hcb) P. split; [unfold oid_ltb; lia|]. unfold id_number, oid_number. rewrite (Z.mod_small (o_time b)) by lia.
  replace (o_time a mod 2 ^ 32) with (o_time a + 2 ^ 32) by (apply (Z.mod_unique _ _ (-1)); lia). lia.
Qed.
Print Assumptions C57_partial.
Print Assumptions C57_refuted.
Example C57_example : let a := oid_make 1700000000 5 1 in let b := oid_make 1700000000 5 2 in let c := oid_make (i_wrap IInt 2200000000) 5 1 in
  id_fits a /\ id_fits b /\ id_fits c /\ oid_ltb a b = true /\ id_number a < id_number b /\ oid_ltb c a = true /\ id_number a < id_number c /\
  oid_put a = bs "6553f1000000000005000001" /\ oid_put c = bs "83215600000000000" ++ bs "5000001".
Proof. repeat split; try reflexivity; try (vm_compute; discriminate); vm_compute; repeat split; discriminate. Qed.
