(** The input sources and the JSON lexer on known text. *)
From Coq Require Import ZArith List Bool Lia ZifyBool.
From Verif Require Import Model.Base Model.Source Model.Unicode Model.Number Model.JsonLexer
  Spec.JsonString Spec.Json Proofs.UnicodeP.
Import ListNotations.
Open Scope Z_scope.

(** The source is fine and [txt] is what is left to read. *)
Definition at_src (k : skind) (s : src) (txt : bytes) : Prop :=
  exists pre e, s = mkSrc k (pre ++ txt) (length pre) true e /\ (e = true -> k = Strm /\ txt = []).
(** The same, and the last character read was [c]. *)
Definition past (k : skind) (s : src) (c : Z) (txt : bytes) : Prop :=
  exists pre e, s = mkSrc k (pre ++ c :: txt) (S (length pre)) true e /\ (e = true -> k = Strm /\ txt = []).

(** What get() delivers for a byte. *)
Definition gchar (k : skind) (c : Z) : Z := match k with StrIn => schar c | Strm => c end.

Lemma schar_id : forall c, c < 128 -> schar c = c.
Proof. intros c H. unfold schar. destruct (c <? 128) eqn:E; lia. Qed.
Lemma gchar_id : forall k c, c < 128 -> gchar k c = c.
Proof. intros [] c H; cbn; [now apply schar_id|reflexivity]. Qed.
Lemma gchar_small : forall k c x, byte_ok c -> 0 <= x < 128 -> (gchar k c =? x) = (c =? x).
Proof.
  intros k c x [H1 H2] Hx. destruct k; cbn; [|reflexivity]. unfold schar. destruct (c <? 128) eqn:E; lia.
Qed.

Lemma skipn_app_len : forall {A} (a b : list A), skipn (length a) (a ++ b) = b.
Proof. induction a; cbn; auto. Qed.
Lemma skipn_app_S : forall {A} (a : list A) c b, skipn (S (length a)) (a ++ c :: b) = b.
Proof. intros A a c b. induction a; cbn; auto. Qed.

Lemma past_at : forall k s c txt, past k s c txt -> at_src k s txt.
Proof.
  intros k s c txt (pre & e & -> & He). exists (pre ++ [c]), e.
  rewrite app_length, <- app_assoc, Nat.add_1_r. now split.
Qed.
Lemma rest_at : forall k s txt, at_src k s txt -> s_rest s = txt.
Proof. intros k s txt (pre & e & -> & _). unfold s_rest. cbn. apply skipn_app_len. Qed.
Lemma at_init : forall k d, at_src k (src_init k d) d.
Proof. intros k d. exists [], false. split; [reflexivity|discriminate]. Qed.
Lemma at_kind : forall k s txt, at_src k s txt -> s_kind s = k.
Proof. intros k s txt (pre & e & -> & _). reflexivity. Qed.
Lemma at_ok : forall k s txt, at_src k s txt -> src_ok s = true.
Proof. intros k s txt (pre & e & -> & _). reflexivity. Qed.

Lemma at_cons_inv : forall k s c txt, at_src k s (c :: txt) ->
  exists pre, s = mkSrc k (pre ++ c :: txt) (length pre) true false.
Proof.
  intros k s c txt (pre & e & -> & He). exists pre. destruct e; [|reflexivity].
  destruct (He eq_refl) as [_ H]. discriminate H.
Qed.

Lemma get_cons : forall k s c txt, at_src k s (c :: txt) ->
  exists s', src_get s = (gchar k c, s') /\ past k s' c txt.
Proof.
  intros k s c txt H. apply at_cons_inv in H as (pre & ->). unfold src_get, s_rest, strm_good.
  cbn [s_kind s_good s_eof s_pos s_data negb andb]. rewrite skipn_app_len.
  destruct k; eexists; (split; [reflexivity|]); exists pre, false; (split; [reflexivity|discriminate]).
Qed.
Lemma get_cons_eof : forall k s c txt, at_src k s (c :: txt) -> s_eof (snd (src_get s)) = false.
Proof.
  intros k s c txt H. apply at_cons_inv in H as (pre & ->). unfold src_get, s_rest, strm_good.
  cbn [s_kind s_good s_eof s_pos s_data negb andb]. rewrite skipn_app_len. now destruct k.
Qed.
Lemma get_nil : forall k s, at_src k s [] -> exists s', src_get s = (EOFc, s').
Proof.
  intros k s (pre & e & -> & He). unfold src_get, s_rest, strm_good.
  cbn [s_kind s_good s_eof s_pos s_data negb andb]. rewrite skipn_app_len.
  destruct k; [eexists; reflexivity|]. destruct e; eexists; reflexivity.
Qed.
Lemma peek_cons : forall k s c txt, at_src k s (c :: txt) -> src_peek s = (gchar k c, s).
Proof.
  intros k s c txt H. apply at_cons_inv in H as (pre & ->). unfold src_peek, s_rest, strm_good.
  cbn [s_kind s_good s_eof s_pos s_data negb andb]. rewrite skipn_app_len. now destruct k.
Qed.
(** Peeking at the end of a fresh source keeps it usable. *)
Lemma peek_past_nil : forall k s c, past k s c [] -> s_eof s = false ->
  exists s', src_peek s = (EOFc, s') /\ past k s' c [].
Proof.
  intros k s c (pre & e & -> & He) Hf. cbn in Hf. subst e. unfold src_peek, s_rest, strm_good.
  cbn [s_kind s_good s_eof s_pos s_data negb andb]. rewrite skipn_app_S.
  destruct k; eexists; (split; [reflexivity|]).
  - exists pre, false. split; [reflexivity|discriminate].
  - exists pre, true. split; [reflexivity|auto].
Qed.
Lemma unget_past : forall k s c txt, past k s c txt -> exists s', src_unget s = Ok s' /\ at_src k s' (c :: txt).
Proof.
  intros k s c txt (pre & e & -> & He). unfold src_unget, s_size. cbn [s_kind s_good s_pos s_data].
  destruct k; eexists; (split; [reflexivity|]); exists pre, false; (split; [|discriminate]).
  - f_equal. apply Nat.leb_le. rewrite app_length. lia.
  - reflexivity.
Qed.

Lemma skip_space_app : forall w c t, Forall (fun x => is_space x = true) w -> is_space c = false ->
  skip_space (w ++ c :: t) = (length w, c :: t).
Proof.
  intros w c t H Hc. induction H as [|x w Hx H IH]; cbn.
  - now rewrite Hc.
  - now rewrite Hx, IH.
Qed.

Lemma readChar_at : forall k s w c t, at_src k s (w ++ c :: t) -> Forall (fun x => is_space x = true) w ->
  is_space c = false -> exists s', src_readChar s = ((true, schar c), s') /\ past k s' c t.
Proof.
  intros k s w c t H Hw Hc.
  assert (Hne : exists x r, w ++ c :: t = x :: r) by (destruct w; cbn; eauto).
  destruct Hne as (x & r & Ex). rewrite Ex in H. apply at_cons_inv in H as (pre & ->).
  unfold src_readChar, s_rest, strm_good, s_size. cbn [s_kind s_good s_eof s_pos s_data negb andb].
  rewrite skipn_app_len, <- Ex, (skip_space_app w c t Hw Hc).
  destruct k; eexists; (split; [reflexivity|]); exists (pre ++ w), false; (split; [|discriminate]);
    rewrite <- app_assoc.
  - f_equal; [rewrite app_length; reflexivity|]. apply Nat.leb_le. rewrite !app_length. cbn. lia.
  - rewrite app_length. reflexivity.
Qed.

Lemma ws_space : forall w, ws w -> Forall (fun x => is_space x = true) w.
Proof.
  intros w H. eapply Forall_impl; [|exact H]. intros c Hc. unfold ws_char, is_space in *. lia.
Qed.

Lemma peekNext_at : forall k s w c t, at_src k s (w ++ c :: t) -> ws w -> is_space c = false -> 0 <= c < 128 ->
  exists s', src_peekNextNonSpace s = Ok (c, s') /\ (if is_punct c then at_src k s' t else at_src k s' (c :: t)).
Proof.
  intros k s w c t H Hw Hc Hr. unfold src_peekNextNonSpace.
  destruct (readChar_at k s w c t H (ws_space w Hw) Hc) as (s1 & -> & Hp). rewrite schar_id by lia.
  destruct (is_punct c).
  - exists s1. split; [reflexivity|]. eapply past_at; eassumption.
  - destruct (unget_past k s1 c t Hp) as (s2 & -> & H2). exists s2. split; [reflexivity|exact H2].
Qed.

Lemma read_at_src : forall k s a t, at_src k s (a ++ t) -> a <> [] ->
  exists s', src_read s (length a) = Ok (a, s') /\ at_src k s' t.
Proof.
  intros k s a t H Ha. destruct a as [|x a]; [congruence|]. cbn [app] in H.
  apply at_cons_inv in H as (pre & ->). unfold src_read, s_rest, strm_good, s_size.
  cbn [s_kind s_good s_eof s_pos s_data negb andb]. rewrite skipn_app_len.
  change (x :: a ++ t) with ((x :: a) ++ t).
  assert (E : firstn (length (x :: a)) ((x :: a) ++ t) = x :: a).
  { rewrite firstn_app, Nat.sub_diag, firstn_all. cbn [firstn]. apply app_nil_r. }
  rewrite E. destruct k.
  - assert (E2 : Nat.ltb (length (pre ++ (x :: a) ++ t)) (length pre) = false)
      by (apply Nat.ltb_ge; rewrite app_length; lia).
    rewrite E2. eexists. split; [reflexivity|]. exists (pre ++ x :: a), false. split; [|discriminate].
    rewrite <- app_assoc, app_length. reflexivity.
  - rewrite Nat.ltb_irrefl. eexists. split; [reflexivity|]. exists (pre ++ x :: a), false. split; [|discriminate].
    rewrite <- app_assoc, app_length. reflexivity.
Qed.

Lemma ignore_at_src : forall k s a t n, at_src k s (a ++ t) -> a <> [] -> n = length a ->
  at_src k (src_ignore s n) t.
Proof.
  intros k s a t n H Ha ->. destruct a as [|x a]; [congruence|]. cbn [app] in H.
  apply at_cons_inv in H as (pre & ->). unfold src_ignore, s_rest, strm_good, s_size.
  cbn [s_kind s_good s_eof s_pos s_data negb andb]. rewrite skipn_app_len.
  change (x :: a ++ t) with ((x :: a) ++ t).
  exists (pre ++ x :: a), false. split; [|discriminate]. rewrite <- app_assoc.
  destruct k.
  - assert (E : Nat.leb (length pre + length (x :: a)) (length (pre ++ (x :: a) ++ t)) = true)
      by (apply Nat.leb_le; rewrite !app_length; lia).
    rewrite E, app_length. reflexivity.
  - assert (E : Nat.leb (length (x :: a)) (length ((x :: a) ++ t)) = true)
      by (apply Nat.leb_le; rewrite app_length; lia).
    rewrite E, app_length. reflexivity.
Qed.

Lemma split_at_app : forall a t, Forall (fun c => c <> 34) a -> split_at 34 (a ++ 34 :: t) = (a, true).
Proof.
  intros a t H. induction H as [|x a Hx H IH]; cbn; [reflexivity|].
  rewrite IH. destruct (x =? 34) eqn:E; [lia|reflexivity].
Qed.
Lemma readTo_at_src : forall k s a t dst, at_src k s (a ++ 34 :: t) -> Forall (fun c => c <> 34) a ->
  exists s', src_readTo s dst 34 = Ok (a, s') /\ at_src k s' t.
Proof.
  intros k s a t dst H Ha.
  assert (Hne : exists x r, a ++ 34 :: t = x :: r) by (destruct a; cbn; eauto).
  destruct Hne as (x & r & Ex). rewrite Ex in H. apply at_cons_inv in H as (pre & ->).
  unfold src_readTo, s_rest, strm_good, s_size. cbn [s_kind s_good s_eof s_pos s_data negb andb].
  rewrite skipn_app_len, <- Ex, (split_at_app a t Ha).
  assert (Hat : at_src k (mkSrc k (pre ++ a ++ 34 :: t) (length pre + S (length a)) true false) t).
  { exists (pre ++ a ++ [34]), false. split; [|discriminate]. f_equal.
    - rewrite <- !app_assoc. reflexivity.
    - rewrite !app_length. cbn. lia. }
  destruct k.
  - assert (E2 : Nat.ltb (length (pre ++ a ++ 34 :: t)) (length pre) = false)
      by (apply Nat.ltb_ge; rewrite app_length; lia).
    assert (E3 : Nat.leb (length pre + S (length a)) (length (pre ++ a ++ 34 :: t)) = true)
      by (apply Nat.leb_le; rewrite !app_length; cbn; lia).
    rewrite E2, E3. eexists. split; [reflexivity|exact Hat].
  - eexists. split; [reflexivity|exact Hat].
Qed.

(** ** Strings *)

(** Does the text end inside an escape sequence (backslash, character)? *)
Fixpoint in_escape (st : bool) (s : bytes) : bool :=
  match s with
  | [] => st
  | c :: r => in_escape (if st then false else c =? 92) r
  end.

Lemma in_escape_snoc : forall s st c,
  in_escape st (s ++ [c]) = (if in_escape st s then false else c =? 92).
Proof. induction s as [|x s IH]; intros st c; cbn; [reflexivity|apply IH]. Qed.

Lemma checkEscape_in_escape : forall s, checkEscape s = in_escape false s.
Proof.
  intro s. unfold checkEscape. rewrite <- (rev_involutive s) at 2. induction (rev s) as [|c r IH]; [reflexivity|].
  cbn [check_escape_rev rev]. rewrite in_escape_snoc, IH.
  destruct (in_escape false (rev r)); cbn; destruct (c =? 92); reflexivity.
Qed.

(** The chunks between the quotes of a string. *)
Lemma in_escape_app : forall a b st, in_escape st (a ++ b) = in_escape (in_escape st a) b.
Proof. induction a as [|x a IH]; intros b st; cbn; [reflexivity|apply IH]. Qed.

Inductive chunks : bytes -> list bytes -> Prop :=
| ch_last : forall a, Forall (fun c => c <> 34) a -> in_escape false a = false -> chunks a [a]
| ch_cons : forall a raw l, Forall (fun c => c <> 34) a -> in_escape false a = true -> chunks raw l ->
    chunks (a ++ 34 :: raw) (a :: l).

Lemma chunks_plain : forall a raw l, Forall (fun c => c <> 34) a -> in_escape false a = false ->
  chunks raw l -> exists l', chunks (a ++ raw) l' /\ length l' = length l.
Proof.
  intros a raw l Ha Hi H. destruct H as [b Hb Hbi|b raw l Hb Hbi H].
  - exists [a ++ b]. split; [|reflexivity]. apply ch_last; [now apply Forall_app|]. now rewrite in_escape_app, Hi.
  - exists ((a ++ b) :: l). split; [|reflexivity]. rewrite app_assoc. apply ch_cons; [now apply Forall_app| |exact H].
    now rewrite in_escape_app, Hi.
Qed.
Lemma closed_chunks : forall raw rest text, closed_by raw rest text ->
  text = raw ++ 34 :: rest /\ exists l, chunks raw l /\ (length l <= S (length raw))%nat.
Proof.
  intros raw rest text H. induction H as [rest|c raw rest text H1 H2 H IH|c raw rest text H IH].
  - split; [reflexivity|]. exists [[]]. split; [now apply ch_last|cbn; lia].
  - destruct IH as [-> (l & Hl & Hn)]. split; [reflexivity|].
    destruct (chunks_plain [c] raw l) as (l' & Hl' & Hn'); try assumption.
    + repeat constructor. exact H1.
    + cbn. lia.
    + exists l'. split; [exact Hl'|cbn; lia].
  - destruct IH as [-> (l & Hl & Hn)]. split; [reflexivity|].
    destruct (Z.eq_dec c 34) as [->|Hc].
    + exists ([92] :: l). split.
      * change (92 :: 34 :: raw) with ([92] ++ 34 :: raw). apply ch_cons; [|reflexivity|exact Hl].
        repeat constructor. lia.
      * cbn. lia.
    + destruct (chunks_plain [92; c] raw l) as (l' & Hl' & Hn'); try assumption.
      * repeat constructor; [lia|exact Hc].
      * reflexivity.
      * exists l'. split; [exact Hl'|cbn; lia].
Qed.

Lemma string_loop_ok : forall k l raw, chunks raw l -> forall fuel value tmp s rest,
  (length l <= fuel)%nat -> at_src k s (raw ++ 34 :: rest) ->
  exists s', string_loop fuel value tmp s = Ok (value ++ 34 :: raw, s') /\ at_src k s' rest.
Proof.
  intros k l raw H. induction H as [a Ha Hi|a raw l Ha Hi H IH]; intros fuel value tmp s rest Hf Hs;
    (destruct fuel as [|fuel]; [cbn in Hf; lia|]); cbn [string_loop].
  - destruct (readTo_at_src k s a rest tmp Hs Ha) as (s' & -> & Hs'). cbn [bind].
    rewrite checkEscape_in_escape, Hi. exists s'. split; [reflexivity|exact Hs'].
  - rewrite <- app_assoc in Hs. cbn [app] in Hs.
    destruct (readTo_at_src k s a (raw ++ 34 :: rest) tmp Hs Ha) as (s' & -> & Hs'). cbn [bind].
    rewrite checkEscape_in_escape, Hi. cbn [length] in Hf.
    destruct (IH fuel (value ++ [34] ++ a) a s' rest ltac:(lia) Hs') as (s2 & E & H2). rewrite E.
    exists s2. split; [|exact H2]. f_equal. f_equal. rewrite <- !app_assoc. reflexivity.
Qed.

(** Reading a terminated string: the contents are decoded, the source stands behind the closing quote. *)
Theorem getStringInto_closed : forall k fuel conv l raw rest text,
  closed_by raw rest text -> at_src k (l_src l) (34 :: text) -> (length raw <= fuel)%nat ->
  exists s', at_src k s' rest /\
  getStringInto fuel conv l = do v <- (if conv then dec raw else Ok raw); Ok (v, lset_src l s').
Proof.
  intros k fuel conv l raw rest text Hc Hs Hf.
  destruct (closed_chunks raw rest text Hc) as [-> (ch & Hch & Hn)].
  unfold getStringInto. destruct (get_cons k (l_src l) 34 _ Hs) as (s1 & -> & H1). rewrite gchar_id by lia.
  rewrite Z.eqb_refl. cbn [negb]. apply past_at in H1.
  destruct Hch as [a Ha Hi|a raw ch Ha Hi Hch].
  - destruct (readTo_at_src k s1 a rest [] H1 Ha) as (s2 & -> & H2). cbn [bind].
    rewrite checkEscape_in_escape, Hi. cbn [bind]. exists s2. split; [exact H2|].
    destruct conv; [now rewrite unescape_inplace_dec|reflexivity].
  - rewrite <- app_assoc in H1. cbn [app] in H1.
    destruct (readTo_at_src k s1 a (raw ++ 34 :: rest) [] H1 Ha) as (s2 & -> & H2). cbn [bind].
    rewrite checkEscape_in_escape, Hi.
    destruct (string_loop_ok k ch raw Hch fuel a [] s2 rest) as (s3 & -> & H3).
    + cbn in Hn. rewrite app_length in Hf. cbn in Hf. assert (H := closed_chunks). clear H.
      cbn [length] in Hn. rewrite app_length in Hn. cbn [length] in Hn.
      (* number of chunks of raw is bounded by its own length plus one *)
      assert (B : forall r c, chunks r c -> (length c <= S (length r))%nat).
      { intros r c H. induction H; cbn; [lia|]. rewrite app_length. cbn. lia. }
      specialize (B raw ch Hch). lia.
    + exact H2.
    + cbn [bind]. exists s3. split; [exact H3|].
      destruct conv; [now rewrite unescape_inplace_dec|reflexivity].
Qed.

Lemma hex4_chars : forall h n, hex4 h n -> exists a b c d, h = [a; b; c; d] /\
  a <> 34 /\ a <> 92 /\ b <> 34 /\ b <> 92 /\ c <> 34 /\ c <> 92 /\ d <> 34 /\ d <> 92.
Proof.
  intros h n H. assert (P := hex4_plain h n H). apply hex4_inv in H as (a & b & c & d & -> & _).
  exists a, b, c, d. split; [reflexivity|].
  repeat match goal with H : Forall _ (_ :: _) |- _ => inversion H; clear H; subst end. intuition.
Qed.

(** Legal contents are closed by the first quote behind them. *)
Lemma legal_closed : forall P raw v, json_string_when P raw v -> forall rest, closed_by raw rest (raw ++ 34 :: rest).
Proof.
  intros P raw v H.
  induction H as [|c r v Hc H1 H2 H IH|e x r v He H IH|h n r v Hh Hn1 Hn2 H IH|h1 n1 h2 n2 r v Hh1 Hn1 Hh2 Hn2 HP H IH];
    intro rest; cbn [app].
  - constructor.
  - apply cb_char; auto.
  - apply cb_escape. apply IH.
  - destruct (hex4_chars h n Hh) as (a & b & c & d & -> & Q). cbn [app]. apply cb_escape.
    do 4 (apply cb_char; [tauto|tauto|]). apply IH.
  - destruct (hex4_chars h1 n1 Hh1) as (a & b & c & d & -> & Q).
    destruct (hex4_chars h2 n2 Hh2) as (a' & b' & c' & d' & -> & Q'). cbn [app]. apply cb_escape.
    do 4 (apply cb_char; [tauto|tauto|]). apply cb_escape.
    do 4 (apply cb_char; [tauto|tauto|]). apply IH.
Qed.

Lemma legal_bytes_ok : forall P raw v, json_string_when P raw v -> bytes_ok raw.
Proof.
  assert (Hx : forall h n, hex4 h n -> bytes_ok h).
  { intros h n H. inversion H; subst. unfold bytes_ok.
    repeat (apply Forall_cons; [eapply hex_digit_byte; eassumption|]). apply Forall_nil. }
  intros P raw v H. unfold bytes_ok in *.
  induction H as [|c r v Hc H1 H2 H IH|e x r v He H IH|h n r v Hh Hn1 Hn2 H IH|h1 n1 h2 n2 r v Hh1 Hn1 Hh2 Hn2 HP H IH].
  - constructor.
  - constructor; [unfold byte_ok; lia|exact IH].
  - constructor; [unfold byte_ok; lia|]. constructor; [|exact IH]. unfold byte_ok. inversion He; lia.
  - constructor; [unfold byte_ok; lia|]. constructor; [unfold byte_ok; lia|]. apply Forall_app. eauto.
  - constructor; [unfold byte_ok; lia|]. constructor; [unfold byte_ok; lia|]. apply Forall_app. split; [eauto|].
    constructor; [unfold byte_ok; lia|]. constructor; [unfold byte_ok; lia|]. apply Forall_app. eauto.
Qed.

(** ** Skipping a string *)

(** Skipping looks one character back only, so it is exact when the contents do not end in a backslash; from a string
    source a byte 255 looks like the end of the input. *)
Definition skip_ok (k : skind) (raw : bytes) : bool :=
  negb (last raw 0 =? 92) && match k with StrIn => forallb (fun c => negb (c =? 255)) raw | Strm => true end.

Lemma skip_loop_closed : forall k raw rest text, closed_by raw rest text -> forall fuel last0 c0 txt s,
  (length raw < fuel)%nat -> text = c0 :: txt -> bytes_ok raw ->
  (raw = [] -> last0 <> 92) ->
  skip_ok k raw = true ->
  past k s c0 txt ->
  exists s', skip_string_loop fuel last0 (gchar k c0) s = Ok s' /\ at_src k s' rest.
Proof.
  assert (Hlast : forall k c raw, raw <> [] -> skip_ok k (c :: raw) = true -> skip_ok k raw = true).
  { intros k c raw Hne H. unfold skip_ok in *. apply andb_prop in H as [H1 H2]. destruct raw as [|x raw]; [congruence|].
    change (last (c :: x :: raw) 0) with (last (x :: raw) 0) in H1. rewrite H1. destruct k; [|reflexivity]. cbn [forallb] in H2.
    apply andb_prop in H2 as [_ H2]. cbn. exact H2. }
  assert (Hff : forall k c raw, skip_ok k (c :: raw) = true -> byte_ok c -> (gchar k c =? EOFc) = false).
  { intros k c raw H [B1 B2]. unfold skip_ok in H. apply andb_prop in H as [_ H]. destruct k; cbn.
    - cbn [forallb] in H. apply andb_prop in H as [H _]. unfold schar, EOFc. destruct (c <? 128) eqn:E; lia.
    - unfold EOFc. lia. }
  intros k raw rest text H.
  induction H as [rest|c raw rest text H1 H2 H IH|c raw rest text H IH]; intros fuel last0 c0 txt s Hf Et Hb Hl Hs Hp;
    (destruct fuel as [|fuel]; [cbn in Hf; lia|]); cbn [skip_string_loop].
  - injection Et as <- <-. rewrite gchar_id by lia. change (34 =? EOFc) with false. change (34 =? 34) with true.
    cbn [andb]. destruct (last0 =? 92) eqn:E; [exfalso; apply (Hl eq_refl); lia|]. cbn [negb].
    exists s. split; [reflexivity|]. eapply past_at; eassumption.
  - injection Et as <- <-. inversion Hb as [|? ? Hbc Hbr]; subst.
    rewrite (Hff k c raw Hs Hbc), gchar_small by (assumption || lia).
    destruct (c =? 34) eqn:E; [lia|]. cbn [andb]. apply past_at in Hp.
    assert (Hne : exists c1 t1, text = c1 :: t1) by (inversion H; eauto). destruct Hne as (c1 & t1 & ->).
    destruct (get_cons k s c1 t1 Hp) as (s2 & -> & H3).
    cbn [length] in Hf. destruct raw as [|r0 raw].
    + apply (IH fuel _ c1 t1 s2); try assumption; try reflexivity; try lia.
      * intros _. destruct Hbc. destruct k; cbn; [|lia]. unfold schar. destruct (c <? 128) eqn:E3; lia.
      * unfold skip_ok. now destruct k.
    + apply (IH fuel _ c1 t1 s2); try assumption; try reflexivity; try lia.
      * intro; discriminate.
      * now apply (Hlast k c (r0 :: raw)).
  - injection Et as <- <-. inversion Hb as [|? ? Hb1 Hb2]; subst. inversion Hb2 as [|? ? Hbc Hbr]; subst.
    rewrite gchar_id by lia. change (92 =? EOFc) with false. change (92 =? 34) with false. cbn [andb].
    apply past_at in Hp. destruct (get_cons k s c text Hp) as (s2 & -> & H3).
    cbn [length] in Hf. destruct fuel as [|fuel]; [lia|]. cbn [skip_string_loop].
    assert (Hs1 : skip_ok k (c :: raw) = true) by (apply (Hlast k 92); [discriminate|exact Hs]).
    rewrite (Hff k c raw Hs1 Hbc). cbn [negb andb].
    change (92 =? 92) with true. cbn [negb]. rewrite andb_false_r.
    apply past_at in H3. assert (Hne : exists c1 t1, text = c1 :: t1) by (inversion H; eauto).
    destruct Hne as (c1 & t1 & ->).
    destruct (get_cons k s2 c1 t1 H3) as (s3 & -> & H4).
    destruct raw as [|r0 raw].
    + apply (IH fuel _ c1 t1 s3); try assumption; try reflexivity; try lia.
      * intros _. unfold skip_ok in Hs1. cbn [last] in Hs1. apply andb_prop in Hs1 as [Hs1 _].
        intro E. destruct Hbc. destruct k; cbn in E; [|lia]. unfold schar in E. destruct (c <? 128) eqn:E3; lia.
      * unfold skip_ok. now destruct k.
    + apply (IH fuel _ c1 t1 s3); try assumption; try reflexivity; try lia.
      * intro; discriminate.
      * now apply (Hlast k c (r0 :: raw)).
Qed.

(** ** Literals *)
Lemma checkFixed_at : forall k l chk rest, chk <> [] -> at_src k (l_src l) (chk ++ rest) ->
  exists s', checkFixed l chk = Ok (lset_buf (lset_src l s') chk) /\ at_src k s' rest.
Proof.
  intros k l chk rest Hne Hs. unfold checkFixed.
  destruct (read_at_src k (l_src l) chk rest Hs Hne) as (s' & -> & H'). cbn [bind].
  exists s'. split; [|exact H'].
  assert (E : skipn (length chk) (resize (l_buf l) (length chk)) = []).
  { apply skipn_all2. unfold resize. rewrite app_length, repeat_length, firstn_length. lia. }
  rewrite E, app_nil_r, beq_refl. reflexivity.
Qed.
