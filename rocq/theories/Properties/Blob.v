(** C84: binary data, Javascript code and regular expressions in BSON (MongoUtility.h).

    [binary_bson type d], [script_bson d], [regex_bson r]: the bytes that the serializers write for the data [d], the
    regular expression [r]; [write_binary], ...: as a member of a document; [read_custom (binary_from old) b], ...: reading
    them into a variable that holds [old] (Model/Blob.v).  [readable]: Properties/Mongo.v. *)
From Coq Require Import ZArith String List Bool Lia ZifyBool.
From Verif Require Import Model.Base Model.Source Model.Number Model.ParserInterface Model.Types Model.Importer Model.Printer Model.Binary Model.BsonPrinter Model.BsonParser
  Model.BsonDoc Model.Mongo Model.Blob Spec.Bson Proofs.Tac Proofs.UnicodeP Proofs.LexP Proofs.BinaryP Proofs.BsonSim Proofs.BsonExportP Proofs.BsonLengthP Proofs.BsonCheck Proofs.JsonCheck Properties.Imports Properties.Bson Properties.Mongo.
Import ListNotations.
Open Scope Z_scope.

Lemma live_at : forall k text s, live k text s -> at_src k s (skipn (s_pos s) text).
Proof.
  intros k text [k0 d p g e] (Hk & D & G & E & P). cbn in *. subst. exists (firstn p text), false.
  rewrite firstn_skipn, firstn_length, Nat.min_l by exact P. split; [reflexivity|discriminate].
Qed.
Lemma bytes_live : forall k text b d rest, live k text (b_src b) -> skipn (s_pos (b_src b)) text = d ++ rest ->
  exists s', b_read (List.length d) b = Ok (d, bset_src b s') /\ live k text s' /\ s_pos s' = (s_pos (b_src b) + List.length d)%nat /\ skipn (s_pos s') text = rest.
Proof.
  intros k text b d rest Lv Sk. destruct (read_live k text (b_src b) (List.length d) Lv) as (got & s2 & Q & C). unfold b_read. rewrite Q. cbn [bind].
  assert (G : got = d /\ live k text s2 /\ s_pos s2 = (s_pos (b_src b) + List.length d)%nat).
  { destruct C as [(C1 & C2 & C3 & C4)|(C1 & C2)].
    - split; [|auto]. now rewrite C3, Sk, firstn_app, Nat.sub_diag, firstn_all, app_nil_r.
    - exfalso. destruct d as [|c d]; [cbn in C1; lia|].
      destruct (read_at_src k (b_src b) (c :: d) rest) as (s3 & R3 & _); [rewrite <- Sk; now apply live_at|discriminate|]. rewrite Q in R3. injection R3 as -> _. lia. }
  destruct G as (-> & C1 & C2). exists s2. split; [reflexivity|]. split; [exact C1|]. split; [exact C2|].
  rewrite C2, Nat.add_comm, <- skipn_skipn, Sk. apply skipn_app_len.
Qed.
Lemma zero_live : forall k text s a dst rest, ~ In 0 a -> live k text s -> skipn (s_pos s) text = a ++ 0 :: rest ->
  exists s', src_readTo s dst 0 = Ok (a, s') /\ live k text s' /\ s_pos s' = (s_pos s + List.length a + 1)%nat /\ skipn (s_pos s') text = rest.
Proof.
  intros k text s a dst rest Ha Lv Sk. assert (At := live_at k text s Lv). rewrite Sk in At.
  destruct (readTo_zero k s a rest dst At Ha) as (s' & R & At'). destruct (readTo_live k text s dst 0 Lv) as (a2 & s2 & R2 & C). rewrite R in R2. injection R2 as <- <-.
  assert (Pos : s_pos s' = (s_pos s + List.length a + 1)%nat /\ live k text s').
  { destruct Lv as (Hk & D & G & E & P). assert (L : List.length (skipn (s_pos s) text) = (List.length a + 1 + List.length rest)%nat) by (rewrite Sk, app_length; cbn; lia). rewrite skipn_length in L.
    assert (F : split_at 0 (s_rest s) = (a, true)).
    { unfold s_rest. rewrite D, Sk. clear - Ha. induction a as [|x a IH]; [reflexivity|]. cbn [app split_at]. destruct (Z.eqb_spec x 0) as [->|N]; [elim Ha; now left|]. rewrite IH by (intro; apply Ha; now right). reflexivity. }
    unfold src_readTo, strm_good, s_size in R. rewrite Hk, D, G, E, F in R. cbn [andb negb] in R.
    destruct k; [destruct (Nat.ltb_spec (List.length text) (s_pos s)); [lia|]|]; apply Ok_inj in R; apply (f_equal snd) in R; cbn [snd] in R; subst s'; unfold live; cbn;
      (split; [lia|]); repeat split; auto; try lia; apply Nat.leb_le; lia. }
  destruct Pos as [Pos Lv']. exists s'. split; [exact R|]. split; [exact Lv'|]. split; [exact Pos|].
  rewrite Pos. replace (s_pos s + List.length a + 1)%nat with (List.length (a ++ [0%Z]) + s_pos s)%nat by (rewrite app_length; cbn; lia).
  rewrite <- skipn_skipn, Sk. change (a ++ 0 :: rest) with (a ++ [0] ++ rest). rewrite app_assoc. apply skipn_app_len.
Qed.
Lemma resized : forall old z, 0 <= z -> exists d, blob_resize old z = Ok d /\ List.length d = Z.to_nat z.
Proof.
  intros old z H. unfold blob_resize. destruct (Z.ltb_spec z 0); [lia|]. eexists. split; [reflexivity|]. rewrite app_length, firstn_length, repeat_length. lia.
Qed.
Lemma blob_live : forall k text b d rest buffer, List.length buffer = List.length d -> live k text (b_src b) -> skipn (s_pos (b_src b)) text = d ++ rest ->
  exists s', blob_read buffer (List.length d) b = Ok (d, bset_src b s') /\ live k text s' /\ s_pos s' = (s_pos (b_src b) + List.length d)%nat /\ skipn (s_pos s') text = rest.
Proof.
  intros k text b d rest buffer L Lv Sk. destruct (bytes_live k text b d rest Lv Sk) as (s' & R & H). exists s'. split; [|exact H].
  unfold blob_read. rewrite R. cbn [bind]. rewrite skipn_all2 by lia. now rewrite app_nil_r.
Qed.
Lemma wrap_len : forall d : list Z, len d < 2 ^ 31 -> i_wrap IInt (len d) = len d.
Proof. intros d H. apply (wrap_small IInt). cbn [i_bits]. change (32 - 1) with 31. unfold len in *. lia. Qed.

(** ** C84.  Binary data is written as the length, the subtype and the data, and read back whatever the variable held and
    whatever follows. *)
Theorem C84_binary : forall type d, len d < 2 ^ 31 ->
  binary_bson type d = little 4 (len d) ++ type :: d /\ binary_size d = len (binary_bson type d) /\
  bson_scalar (BOther 5 (binary_bson type d)) 5 (binary_bson type d) /\
  forall old k b rest l r, readable k b (binary_bson type d) rest l r ->
    exists s', read_custom (binary_from old) b = Ok (d, bset_src (bset_sizes b (l - (5 + len d) :: r) (b_size b)) s') /\ at_src k s' rest.
Proof.
  intros type d H. assert (P : 0 <= len d) by (unfold len; lia).
  assert (E : binary_bson type d = little 4 (len d) ++ type :: d).
  { unfold binary_bson. fold (len d). rewrite wrap_len by exact H. reflexivity. }
  assert (L : List.length (binary_bson type d) = (5 + List.length d)%nat) by (rewrite E, app_length, little_length; cbn [List.length]; lia).
  split; [exact E|]. split; [unfold binary_size, len; rewrite L; lia|]. split; [rewrite E; constructor|]. intros old k b rest l r Rd.
  destruct (custom_live _ (binary_from old) d k b (binary_bson type d) rest l r Rd) as (s' & R & At).
  - intro Q. now rewrite Q in L.
  - intros text b0 Lv Sk. rewrite E, <- app_assoc in Sk. unfold binary_from.
    destruct (le_live k text b0 4 (len d) _ ltac:(discriminate) ltac:(change (2 ^ (8 * Z.of_nat 4 - 1)) with (2 ^ 31); lia) Lv Sk) as (s1 & -> & Lv1 & P1 & Sk1). cbn [bind].
    destruct (resized old (len d) P) as (buffer & -> & Lb). cbn [bind].
    destruct (bytes_live k text (bset_src b0 s1) [type] (d ++ rest) Lv1 Sk1) as (s2 & R2 & Lv2 & P2 & Sk2). cbn [List.length] in R2. rewrite R2. cbn [bind].
    replace (Z.to_nat (len d)) with (List.length d) in * by (unfold len; lia).
    destruct (blob_live k text (bset_src (bset_src b0 s1) s2) d rest buffer Lb Lv2 Sk2) as (s3 & -> & Lv3 & P3 & Sk3).
    exists s3. split; [reflexivity|]. split; [exact Lv3|]. split; [|exact Sk3]. cbn [bset_src b_src List.length] in *. lia.
  - exists s'. replace (len (binary_bson type d)) with (5 + len d) in R by (unfold len; lia). auto.
Qed.
Print Assumptions C84_binary.
(** Code is written as a string of BSON is. *)
Theorem C84_script : forall d, len d + 1 < 2 ^ 31 ->
  script_bson d = Ok (little 4 (len d + 1) ++ d ++ [0]) /\ script_size d = len (little 4 (len d + 1) ++ d ++ [0]) /\
  forall old k b rest l r, readable k b (little 4 (len d + 1) ++ d ++ [0]) rest l r ->
    exists s', read_custom (script_from old) b = Ok (d, bset_src (bset_sizes b (l - (5 + len d) :: r) (b_size b)) s') /\ at_src k s' rest.
Proof.
  intros d H. assert (P : 0 <= len d) by (unfold len; lia).
  assert (L : List.length (little 4 (len d + 1) ++ d ++ [0]) = (5 + List.length d)%nat) by (rewrite !app_length, little_length; cbn [List.length]; lia).
  split; [|split].
  - unfold script_bson. fold (len d). rewrite wrap_len by lia. destruct (Z.ltb_spec (len d) 0); [lia|]. destruct (Z.leb_spec (2 ^ 31) (len d + 1)); [lia|]. cbn [orb].
    replace (Z.to_nat (len d)) with (List.length d) by (unfold len; lia). rewrite firstn_all. reflexivity.
  - unfold script_size. assert (L2 := f_equal Z.of_nat L). fold (len (little 4 (len d + 1) ++ d ++ [0])) in L2. rewrite L2. unfold len. lia.
  - intros old k b rest l r Rd.
    destruct (custom_live _ (script_from old) d k b _ rest l r Rd) as (s' & R & At).
    + intro Q. now rewrite Q in L.
    + intros text b0 Lv Sk. rewrite <- !app_assoc in Sk. unfold script_from.
      destruct (le_live k text b0 4 (len d + 1) _ ltac:(discriminate) ltac:(change (2 ^ (8 * Z.of_nat 4 - 1)) with (2 ^ 31); lia) Lv Sk) as (s1 & -> & Lv1 & P1 & Sk1). cbn [bind].
      destruct (resized old (len d + 1) ltac:(lia)) as (buffer & -> & Lb). cbn [bind].
      replace (Z.to_nat (len d + 1)) with (List.length (d ++ [0])) in * by (rewrite app_length; unfold len; cbn; lia). rewrite app_assoc in Sk1.
      destruct (blob_live k text (bset_src b0 s1) (d ++ [0]) rest buffer Lb Lv1 Sk1) as (s3 & -> & Lv3 & P3 & Sk3). cbn [bind].
      assert (Cut : blob_resize (d ++ [0]) (len d + 1 - 1) = Ok d).
      { replace (len d + 1 - 1) with (len d) by lia. unfold blob_resize. destruct (Z.ltb_spec (len d) 0); [lia|]. unfold len. rewrite Nat2Z.id, firstn_app, firstn_all, Nat.sub_diag, app_length.
        cbn [firstn List.length]. replace (List.length d - (List.length d + 1))%nat with 0%nat by lia. cbn [repeat]. now rewrite !app_nil_r. }
      rewrite Cut. cbn [bind].
      exists s3. split; [reflexivity|]. split; [exact Lv3|]. split; [|exact Sk3]. rewrite L. rewrite app_length in P3. cbn [bset_src b_src List.length] in *. lia.
    + exists s'. replace (len (little 4 (len d + 1) ++ d ++ [0])) with (5 + len d) in R by (assert (L2 := f_equal Z.of_nat L); fold (len (little 4 (len d + 1) ++ d ++ [0])) in L2; rewrite L2; unfold len; lia). auto.
Qed.
Print Assumptions C84_script.
(** A regular expression is two strings that end in a zero; full claim for all expressions, proved for those without a zero. *)
Theorem C84_regex_partial : forall e, ~ In 0 (r_pattern e) -> ~ In 0 (r_options e) ->
  regex_size e = len (regex_bson e) /\ regex_bson e = r_pattern e ++ 0 :: r_options e ++ [0] /\
  forall old k b rest l r, readable k b (regex_bson e) rest l r ->
    exists s', read_custom (regex_from old) b = Ok (e, bset_src (bset_sizes b (l - len (regex_bson e) :: r) (b_size b)) s') /\ at_src k s' rest.
Proof.
  intros [p o] Hp Ho. cbn [r_pattern r_options] in *.
  split; [unfold regex_size, regex_bson, len; cbn [r_pattern r_options]; rewrite !app_length; cbn [List.length]; lia|]. split; [reflexivity|].
  intros old k b rest l r Rd. destruct (custom_live _ (regex_from old) (mkRegex p o) k b _ rest l r Rd) as (s' & R & At).
  - unfold regex_bson. cbn [r_pattern]. destruct p; discriminate.
  - intros text b0 Lv Sk. unfold regex_bson in *. cbn [r_pattern r_options] in *. rewrite <- !app_assoc in Sk. cbn [app] in Sk. unfold regex_from.
    destruct (zero_live k text (b_src b0) p (r_pattern old) _ Hp Lv Sk) as (s1 & -> & Lv1 & P1 & Sk1). cbn [bind].
    destruct (zero_live k text s1 o (r_options old) _ Ho Lv1 Sk1) as (s2 & -> & Lv2 & P2 & Sk2). cbn [bind].
    exists s2. split; [reflexivity|]. split; [exact Lv2|]. split; [|exact Sk2]. rewrite !app_length. cbn [List.length]. lia.
  - exists s'. auto.
Qed.
Print Assumptions C84_regex_partial.
Lemma split_free : forall d s, ~ In d (fst (split_at d s)).
Proof. intros d s. induction s as [|c s IH]; [intros []|]. cbn [split_at]. destruct (Z.eqb_spec c d); [intros []|]. destruct (split_at d s) as [a f]. cbn [fst] in *. intros [?|?]; [congruence|contradiction]. Qed.
(** With a zero in the pattern another expression comes back. *)
Theorem C84_regex_refuted : forall e, In 0 (r_pattern e) -> forall old k b rest l r, readable k b (regex_bson e) rest l r ->
  forall e' b', read_custom (regex_from old) b = Ok (e', b') -> e' <> e.
Proof.
  intros e Hp old k b rest l r (At & _ & _) e' b' E ->.
  assert (C : exists c t, regex_bson e ++ rest = c :: t) by (unfold regex_bson; destruct (r_pattern e) as [|c t]; [contradiction|]; cbn [app]; eauto).
  destruct C as (c & t & C). rewrite C in At. destruct (at_cons_inv _ _ _ _ At) as (pre & Es).
  unfold read_custom, src_tellg, strm_good in E. rewrite Es in E. cbn [s_kind s_good s_eof s_pos negb andb] in E.
  assert (R : forall s a s', src_readTo s (r_pattern old) 0 = Ok (a, s') -> (k = Strm -> strm_good s = true) -> s_kind s = k -> ~ In 0 a).
  { intros s a s' F G K. unfold src_readTo in F. rewrite K in F. assert (SF := split_free 0 (s_rest s)). destruct (split_at 0 (s_rest s)) as [x f]. cbn [fst] in SF. destruct k.
    - destruct (Nat.ltb _ _); [discriminate F|]. apply Ok_inj in F. apply (f_equal fst) in F. cbn [fst] in F. now subst x.
    - rewrite (G eq_refl) in F. destruct f; apply Ok_inj in F; apply (f_equal fst) in F; cbn [fst] in F; now subst x. }
  destruct k; unfold regex_from in E; cbn [b_src bset_src] in E;
    (match type of E with context [src_readTo ?s ?d 0] => destruct (src_readTo s d 0) as [[a s1]| | |] eqn:F; try discriminate E; apply R in F; [|first [discriminate|reflexivity]|reflexivity] end);
    cbn [bind] in E; (match type of E with context [src_readTo ?s ?d 0] => destruct (src_readTo s d 0) as [[a2 s2]| | |]; try discriminate E end); cbn [bind b_src bset_src] in E;
    (match type of E with context [let '(_, _) := ?x in _] => destruct x as [z s3] end); unfold b_use in E; cbn [b_left bset_src] in E;
    (destruct (b_left b) as [|l0 r0]; [discriminate E|]); cbn [bind] in E; apply Ok_inj in E; apply (f_equal fst) in E; cbn [fst] in E; subst e; contradiction.
Qed.
Print Assumptions C84_regex_refuted.
(** As members of a document: the type byte of the BSON specification, the name (in an array the index) and a zero before
    these bytes; at the root a document of its own, of the length that it says. *)
Theorem C84_elements : forall type d s e, len d < 2 ^ 31 -> len s + 1 < 2 ^ 31 ->
  Forall (fun '(w, type, payload) => forall p : bprinter,
    (forall r, bp_stack p = BMap :: r -> exists c, w p = Ok (c, p) /\ chunks_text c = element type (bp_key p) payload) /\
    (forall r i q, bp_stack p = BArray :: r -> bp_index p = i :: q ->
       exists c, w p = Ok (c, mkBp (bp_key p) (bp_stack p) (i + 1 :: q) (bp_ids p)) /\ chunks_text c = element type (int_dec i) payload) /\
    (bp_stack p = [] -> exists c size, w p = Ok (c, p) /\ chunks_text c = little 4 size ++ element type (bs "0") payload /\
       size = Z.of_nat (List.length (chunks_text c ++ [0]))))
  [(write_binary type d, 5, little 4 (len d) ++ type :: d); (write_script s, 13, little 4 (len s + 1) ++ s ++ [0]);
   (write_regex e, 11, r_pattern e ++ 0 :: r_options e ++ [0])].
Proof.
  intros type d s e Hd Hs.
  assert (G : forall type size b, Z.of_nat (List.length b) = size -> forall p : bprinter,
    (forall r, bp_stack p = BMap :: r -> exists c, write_custom type size b p = Ok (c, p) /\ chunks_text c = element type (bp_key p) b) /\
    (forall r i q, bp_stack p = BArray :: r -> bp_index p = i :: q ->
       exists c, write_custom type size b p = Ok (c, mkBp (bp_key p) (bp_stack p) (i + 1 :: q) (bp_ids p)) /\ chunks_text c = element type (int_dec i) b) /\
    (bp_stack p = [] -> exists c n, write_custom type size b p = Ok (c, p) /\ chunks_text c = little 4 n ++ element type (bs "0") b /\
       n = Z.of_nat (List.length (chunks_text c ++ [0])))).
  { intros ty size b L p. unfold write_custom, w_then, writeKey, w_put, element. split; [|split].
    - intros r E. rewrite E. cbn [bind app]. eexists. split; [reflexivity|]. cbn [chunks_text chunk_bytes List.flat_map List.map List.concat app]. now rewrite app_nil_r, <- app_assoc.
    - intros r i q E Q. rewrite E, Q. cbn [bind app]. eexists. split; [reflexivity|]. cbn [chunks_text chunk_bytes List.flat_map List.map List.concat app]. now rewrite app_nil_r.
    - intros E. rewrite E. cbn [bind app]. eexists. exists (4 + 1 + 2 + size + 1). split; [reflexivity|].
      replace (put_size (4 + 1 + 2 + size + 1)) with (little 4 (4 + 1 + 2 + size + 1)) by (symmetry; apply writeLE_little).
      cbn [chunks_text chunk_bytes List.flat_map List.map List.concat app]. rewrite app_nil_r. split; [reflexivity|].
      rewrite app_length, app_length, little_length. cbn [List.length app]. lia. }
  destruct (C84_binary type d Hd) as (E1 & E2 & _). destruct (C84_script s Hs) as (F1 & F2 & _).
  constructor; [rewrite <- E1; exact (G 5 _ _ (eq_sym E2))|]. constructor; [|constructor; [|constructor]].
  - unfold write_script. rewrite F1. cbn [bind]. exact (G 13 _ _ (eq_sym F2)).
  - apply (G 11 (regex_size e) (regex_bson e)). unfold regex_size, regex_bson. rewrite !app_length. cbn [List.length]. lia.
Qed.
Print Assumptions C84_elements.
Example C84_example : let e := mkRegex (bs "^a.*") (bs "i") in let code := bs "f()" in
  binary_bson 8 [1; 0; 255] = [3; 0; 0; 0; 8; 1; 0; 255] /\ script_bson code = Ok ([4; 0; 0; 0] ++ code ++ [0]) /\ regex_bson e = bs "^a.*" ++ [0] ++ bs "i" ++ [0] /\
  readable Strm (mkB (src_init Strm (binary_bson 8 [1; 0; 255] ++ [0])) [] [9] [] TokValue [] 5 false) (binary_bson 8 [1; 0; 255]) [0] 9 [] /\
  (do (c, _) <- write_regex e (mkBp (bs "r") [BMap] [] 0); Ok (chunks_text c)) = Ok (11 :: bs "r" ++ [0] ++ bs "^a.*" ++ [0] ++ bs "i" ++ [0]).
Proof.
  cbv zeta. split; [reflexivity|]. split; [reflexivity|]. split; [reflexivity|]. split; [|reflexivity].
  split; [apply at_init|]. split; [reflexivity|]. vm_compute. split; [discriminate|reflexivity].
Qed.
(** A document that the library has written with code or a regular expression in it cannot be read into a class without that member,
    although unknown members are ignored: the parser does not know how to skip these values. *)
Definition ty_id : ty := TStruct (mkSinfo [bs "id"] [] (bs "Id") false false false) [TInt IInt] [].
Definition with_extra (extra : list Z) : list Z := let e := element 16 (bs "id") (little 4 7) ++ extra in little 4 (len e + 5) ++ e ++ [0].
Theorem C84_skip_refuted : forall k, Forall (fun w =>
  exists c, w (mkBp (bs "more") [BMap] [] 0) = Ok (c, mkBp (bs "more") [BMap] [] 0) /\ bson_rejects pc_default k ty_id (default ty_id) (with_extra (chunks_text c)))
  [write_script (bs "f()"); write_regex (mkRegex (bs "^a.*") (bs "i"))].
Proof.
  intros k. constructor; [|constructor; [|constructor]]; (eexists; split; [vm_compute; reflexivity|]); destruct k; fuels 20%nat; vm_compute; exact Logic.I.
Qed.
Print Assumptions C84_skip_refuted.
(** Binary data is skipped. *)
Example C84_skip_example : forall k, bson_imports pc_default k ty_id (default ty_id)
  (with_extra (element 5 (bs "more") (binary_bson 8 [1; 0; 255]))) (VStruct [VInt 7] []) [].
Proof. intros k. destruct k; fuels 20%nat; (eexists; split; [vm_compute; reflexivity|split; reflexivity]). Qed.
(** The type byte of the document is not looked at: a number where a date is expected is taken for one. *)
Theorem C84_type_refuted : exists d b, bson_scalar (BOther 1 d) 1 d /\ b_type b = 1 /\ readable Strm b d [0] 9 [] /\
  exists z b', read_custom date_from b = Ok (z, b').
Proof.
  exists [0; 0; 0; 0; 0; 0; 240; 63], (mkB (src_init Strm ([0; 0; 0; 0; 0; 0; 240; 63] ++ [0])) [BMap] [9] [8] TokValue (bs "at") 1 true).
  split; [now constructor|]. split; [reflexivity|]. split; [split; [apply at_init|]; split; [reflexivity|]; vm_compute; split; [discriminate|reflexivity]|]. eexists _, _. vm_compute. reflexivity.
Qed.
Print Assumptions C84_type_refuted.
