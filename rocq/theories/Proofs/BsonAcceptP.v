(** What a BSON import has read is a BSON document, up to what the library does not check. *)
From Coq Require Import ZArith List Bool Lia ZifyBool.
From Verif Require Import Model.Base Model.Source Model.Number Model.ParserInterface Model.Binary Model.BsonPrinter Model.BsonParser
  Model.Types Model.Deserializer Model.Importer Model.BsonDoc Model.Float Model.BsonFloat Spec.Json Spec.Import Spec.Bson Spec.BsonAccept
  Proofs.Induct Proofs.BinaryP Proofs.BsonLengthP.
Import ListNotations.
Open Scope Z_scope.

(** If there is a result, it has the property. *)
Definition gives {A} (Q : A -> Prop) (r : outcome A) : Prop := forall a, r = Ok a -> Q a.
Lemma gives_ok : forall {A} (Q : A -> Prop) a, Q a -> gives Q (Ok a).
Proof. intros A Q a H b E. injection E as <-. exact H. Qed.
Lemma gives_throw : forall {A} (Q : A -> Prop), gives Q Throw.
Proof. intros A Q b E. discriminate E. Qed.
Lemma gives_ub : forall {A} (Q : A -> Prop), gives Q UB.
Proof. intros A Q b E. discriminate E. Qed.
Lemma gives_hang : forall {A} (Q : A -> Prop), gives Q Hang.
Proof. intros A Q b E. discriminate E. Qed.
Lemma gives_bind : forall {A B} (Q : A -> Prop) (R : B -> Prop) r (f : A -> outcome B), gives Q r -> (forall a, Q a -> gives R (f a)) -> gives R (bind r f).
Proof. intros A B Q R r f H K b E. destruct r as [a| | |]; try discriminate E. cbn [bind] in E. exact (K a (H a eq_refl) b E). Qed.
Lemma gives_weak : forall {A} (Q R : A -> Prop) r, gives Q r -> (forall a, Q a -> R a) -> gives R r.
Proof. intros A Q R r H K a E. exact (K a (H a E)). Qed.
#[local] Hint Resolve gives_ok gives_throw gives_ub gives_hang : gives.
Ltac none := solve [apply gives_throw | apply gives_ub | apply gives_hang].

Lemma split_found : forall d l a f, split_at d l = (a, f) -> ~ In d a /\ if f then exists r, l = a ++ d :: r else a = l.
Proof.
  intros d l. induction l as [|c l IH]; intros a f E; cbn [split_at] in E; [injection E as <- <-; auto|].
  destruct (Z.eqb_spec c d); [injection E as <- <-; subst; split; [auto|exists l; reflexivity]|].
  destruct (split_at d l) as [a' f']. injection E as <- <-. destruct (IH a' f' eq_refl) as [N R]. split; [intros [->|K]; contradiction|].
  destruct f'; [destruct R as [r ->]; exists r; reflexivity|now subst].
Qed.

Lemma elements_snoc : forall w es type name b, bson_elements w es -> ~ In 0 name -> bson_accepted w type b ->
  bson_elements w (es ++ type :: name ++ 0 :: b).
Proof.
  intros w es type name b H N A. induction H; cbn [app].
  - replace b with (b ++ []) by apply app_nil_r. constructor; [exact N|exact A|constructor].
  - replace ((name0 ++ 0 :: b0 ++ r) ++ type :: name ++ 0 :: b) with (name0 ++ 0 :: b0 ++ (r ++ type :: name ++ 0 :: b)) by (rewrite <- !app_assoc; cbn; now rewrite <- !app_assoc).
    constructor; assumption.
Qed.

Section Accept.
  Variables (k : skind) (text : bytes) (weak : bool).
  Hypothesis Htext : Forall (fun c => 0 <= c < 256) text.
  Hypothesis Hsize : len text < 2 ^ 63.
  Hypothesis Hneg : weak = true -> ~ negative_length text.

  (** The source can be read, and [x] is what is left of it. *)
  Definition at_ (s : src) (x : bytes) : Prop := live k text s /\ s_rest s = x.
  Lemma at_suffix : forall s x, at_ s x -> exists a, text = a ++ x.
  Proof. intros s x [(_ & D & _) R]. exists (firstn (s_pos s) text). rewrite <- R. unfold s_rest. now rewrite D, firstn_skipn. Qed.
  Lemma at_bytes : forall s x, at_ s x -> Forall (fun c => 0 <= c < 256) x.
  Proof. intros s x H. destruct (at_suffix _ _ H) as [a E]. assert (F := Htext). rewrite E in F. now apply Forall_app in F as [_ F]. Qed.
  Lemma at_size : forall s x, at_ s x -> len x < 2 ^ 63.
  Proof. intros s x H. destruct (at_suffix _ _ H) as [a E]. assert (F := Hsize). rewrite E in F. unfold len in *. rewrite app_length in F. lia. Qed.
  Lemma at_move : forall s s' n x, at_ s x -> live k text s' -> s_pos s' = (s_pos s + n)%nat -> at_ s' (skipn n x).
  Proof.
    intros s s' n x [(_ & D & _) R] V P. split; [exact V|]. destruct V as (_ & D' & _). rewrite <- R. unfold s_rest. rewrite D, D', P. clear.
    revert text. induction (s_pos s) as [|p IH]; intros l; [reflexivity|]. destruct l; [cbn; now rewrite skipn_nil|]. cbn [skipn Nat.add]. apply IH.
  Qed.

  Lemma read_at : forall b x n, at_ (b_src b) x -> gives (fun r => snd r = bset_src b (b_src (snd r)) /\
    ((exists x', x = fst r ++ x' /\ length (fst r) = n /\ at_ (b_src (snd r)) x') \/ ((length (fst r) < n)%nat /\ dead (b_src (snd r))))) (b_read n b).
  Proof.
    intros b x n H. unfold b_read. destruct (read_live k text (b_src b) n (proj1 H)) as (got & s' & -> & [(V & P & G & L)|[L D]]); cbn [bind]; apply gives_ok; cbn [fst snd bset_src b_src]; split; auto.
    left. exists (skipn n x). split; [|split; [exact L|now apply (at_move (b_src b))]]. destruct H as [(_ & D & _) R]. rewrite G, <- R. unfold s_rest. now rewrite D, firstn_skipn.
  Qed.
  Lemma le_at : forall b x n, n <> 0%nat -> at_ (b_src b) x -> gives (fun r => snd r = bset_src b (b_src (snd r)) /\
    exists d x', x = d ++ x' /\ length d = n /\ fst r = signed_value d /\ at_ (b_src (snd r)) x') (b_readLE n b).
  Proof.
    intros b x n Hn H. unfold b_readLE. eapply gives_bind; [exact (read_at b x n H)|]. intros [got b1] [S [(x' & E & L & A)|[L D]]]; cbn [fst snd] in *.
    - rewrite L, Nat.eqb_refl. apply gives_ok. cbn [fst snd]. split; [exact S|]. exists got, x'. auto.
    - destruct (Nat.eqb_spec (length got) n); [lia|none].
  Qed.
  Lemma le_dead : forall b n Q, n <> 0%nat -> dead (b_src b) -> gives Q (b_readLE n b).
  Proof.
    intros b n Q Hn H. unfold b_readLE. destruct (b_read n b) as [[got b1]| | |] eqn:R; cbn [bind]; try none. destruct (dead_read _ _ _ _ H R) as [-> _].
    destruct n; [contradiction|none].
  Qed.
  Lemma use_gives : forall n b, gives (fun b' => exists l r, b_left b = l :: r /\ b' = bset_sizes b (u64 (l - n) :: r) (b_size b)) (b_use n b).
  Proof. intros n b. unfold b_use. destruct (b_left b) as [|l r]; [none|]. apply gives_ok. exists l, r. auto. Qed.

  Lemma signed4 : forall d s x, length d = 4%nat -> at_ s x -> (exists a c, x = a ++ d ++ c) -> d = little 4 (signed_value d) /\ - 2 ^ 31 <= signed_value d < 2 ^ 31.
  Proof.
    intros d s x L H (a & c & E). assert (F : Forall (fun c => 0 <= c < 256) d).
    { assert (F := at_bytes _ _ H). rewrite E in F. apply Forall_app in F as [_ F]. now apply Forall_app in F as [F _]. }
    assert (R := le_value_range d F). assert (Q := little_signed d ltac:(intros ->; discriminate L) F). rewrite L in *. split; [now symmetry|].
    unfold signed_value. rewrite L. change (8 * Z.of_nat 4 - 1) with 31. change (8 * Z.of_nat 4) with 32 in *. change (2 ^ 32) with 4294967296 in *. change (2 ^ 31) with 2147483648.
    match goal with |- context [if ?c then _ else _] => destruct c eqn:Ec end; lia.
  Qed.

  (** Nothing more can be read after a value. *)
  Definition doomed (b : bparser) : Prop := dead (b_src b) /\ b_skip b = true /\ b_next b = TokValue.
  Definition endtok (c : bcont) : token := match c with BMap => TokMapEnd | BArray => TokArrayEnd | BValue => TokDocEnd end.
  Definition shaped (b : bparser) (stk : list bcont) (lf sz : list Z) : Prop := b_stack b = stk /\ b_left b = lf /\ b_size b = sz.
  (** Between two elements of a container. *)
  Definition idle (c : bcont) (b : bparser) : Prop :=
    (b_skip b = true /\ b_next b = TokValue) \/
    (b_skip b = false /\ (b_next b = TokKey \/ (b_next b = endtok c /\ exists r, b_left b = 1 :: r))).
  (** In a container whose text starts at [x1]. *)
  Definition innerE (cc : bcont) (stk : list bcont) (lf sz : list Z) (x1 : bytes) (es : bytes) (b : bparser) : Prop :=
    exists lb x2, x1 = lb ++ es ++ x2 /\ length lb = 4%nat /\ lb = little 4 (signed_value lb) /\ - 2 ^ 31 <= signed_value lb < 2 ^ 31 /\ bson_elements weak es /\
      shaped b (cc :: stk) (u64 (signed_value lb - 4 - len es) :: lf) (u64 (signed_value lb) :: sz) /\ idle cc b /\ at_ (b_src b) x2 /\ len x1 < 2 ^ 63.
  Definition inner (cc : bcont) (stk : list bcont) (lf sz : list Z) (x1 : bytes) (b : bparser) : Prop := exists es, innerE cc stk lf sz x1 es b.
  (** The first token [t] of a value of the type [ty] whose text starts at [x1] was read. *)
  Definition opened (stk : list bcont) (lf sz : list Z) (ty : Z) (x1 : bytes) (t : token) (b : bparser) : Prop :=
    (doomed b /\ (t = TokValue \/ t = TokMapStart)) \/
    match t with
    | TokValue => at_ (b_src b) x1 /\ shaped b stk lf sz /\ stk <> [] /\ (exists l r, lf = u64 l :: r) /\ b_skip b = true /\ b_next b = TokValue /\ b_type b = ty /\
        exists a name, text = a ++ ty :: name ++ 0 :: x1 /\ ~ In 0 name
    | TokMapStart => ty = 3 /\ b_type b <> 10 /\ inner BMap stk lf sz x1 b
    | TokArrayStart => ty = 4 /\ b_type b <> 10 /\ inner BArray stk lf sz x1 b
    | _ => False
    end.
  (** The value has been read: [n] bytes. *)
  Definition done (stk : list bcont) (lf sz : list Z) (x : bytes) (n : Z) (b : bparser) : Prop :=
    at_ (b_src b) x /\
    match stk with
    | [] => b_next b = TokDocEnd /\ b_skip b = false /\ b_stack b = []
    | c :: _ => exists l r, lf = l :: r /\ shaped b stk (u64 (l - n) :: r) sz /\ idle c b
    end.
  Definition finish (stk : list bcont) (lf sz : list Z) (ty : Z) (x1 : bytes) (b : bparser) : Prop :=
    doomed b \/ exists d x, x1 = d ++ x /\ bson_accepted weak ty d /\ done stk lf sz x (len d) b.

  Lemma doomed_next : forall b Q, doomed b -> gives Q (bson_next b).
  Proof.
    intros b Q (D & Sk & N) r E. exfalso. unfold bson_next in E. set (again := next_with (fun _ => Hang)) in E. unfold next_with in E. rewrite Sk in E.
    unfold isEndOfContainer in E. cbn [bset_skip b_left b_stack] in E. destruct (b_left b) as [|l rr]; [discriminate E|].
    destruct (l =? 1).
    - destruct (b_stack b) as [|[] st] eqn:Es; try discriminate E; cbn [bind bset_next bset_skip b_next b_stack] in E; rewrite ?Es in E;
        match type of E with context [readEndOfContainer ?bb] => destruct (readEndOfContainer bb) as [b2| | |] eqn:R; try discriminate E; exact (dead_readEnd _ _ (D : dead (b_src bb)) R) end.
    - cbn [bind bset_next bset_elem b_next] in E.
      match type of E with context [readKey ?bb] => destruct (readKey bb) as [b2| | |] eqn:R; try discriminate E; exact (dead_readKey _ _ (D : dead (b_src bb)) R) end.
  Qed.

  (** A key was read: what follows is a value of the type [ty]; [ty] is 0 when the input ended in the name. *)
  Definition pending (stk : list bcont) (lf sz : list Z) (ty : Z) (x : bytes) (b : bparser) : Prop :=
    b_skip b = false /\
    ((dead (b_src b) /\ (b_next b = TokValue \/ b_next b = TokMapStart \/ b_next b = TokArrayStart)) \/
     (at_ (b_src b) x /\ len x < 2 ^ 63 /\ b_type b = ty /\ b_left b = lf /\ b_size b = sz /\ stk <> [] /\ (exists l r, lf = u64 l :: r) /\ (exists a name, text = a ++ ty :: name ++ 0 :: x /\ ~ In 0 name) /\
      ((ty = 3 /\ b_next b = TokMapStart /\ b_stack b = BMap :: stk) \/ (ty = 4 /\ b_next b = TokArrayStart /\ b_stack b = BArray :: stk) \/
       (b_next b = TokValue /\ b_stack b = stk)))).

  Lemma u64_small : forall z, 0 <= z < 2 ^ 64 -> u64 z = z.
  Proof. intros z H. unfold u64. now apply Z.mod_small. Qed.
  Lemma u64_sub : forall a n, u64 (u64 a - n) = u64 (a - n).
  Proof. intros a n. unfold u64. now rewrite Zminus_mod_idemp_l. Qed.
  Lemma u64_one : forall a, u64 a = 1 -> - 2 ^ 63 - 2 ^ 33 <= a <= 2 ^ 33 -> a = 1.
  Proof. intros a E R. unfold u64 in E. assert (Q := Z.div_mod a (2 ^ 64) ltac:(lia)). rewrite E in Q. lia. Qed.

  (** The start of a container. *)
  Lemma start_gives : forall b x, at_ (b_src b) x -> gives (fun b' => exists d x', x = d ++ x' /\ length d = 4%nat /\ d = little 4 (signed_value d) /\ - 2 ^ 31 <= signed_value d < 2 ^ 31 /\
    at_ (b_src b') x' /\ shaped b' (b_stack b) (u64 (signed_value d - 4) :: b_left b) (u64 (signed_value d) :: b_size b) /\ b_next b' = b_next b /\ b_type b' = b_type b /\ b_skip b' = b_skip b) (startContainer b).
  Proof.
    intros b x H. unfold startContainer. eapply gives_bind; [exact (le_at b x 4 ltac:(discriminate) H)|]. intros [z b1] [S (d & x' & E & L & Ez & A)]. cbn [fst snd] in *. subst z.
    eapply gives_weak; [apply use_gives|]. intros b2 (l & r & El & ->). cbn [bset_sizes b_left] in El. injection El as <- <-. rewrite u64_sub.
    exists d, x'. rewrite S. cbn [bset_sizes bset_src b_src b_stack b_left b_size b_next b_type b_skip]. rewrite S in A. cbn [bset_src b_src] in A.
    destruct (signed4 d (b_src b) x L H ltac:(exists [], x'; exact E)) as [Q1 Q2]. unfold shaped. cbn. repeat split; auto; try apply A; lia.
  Qed.
  Lemma start_dead : forall b Q, dead (b_src b) -> gives Q (startContainer b).
  Proof. intros b Q D. unfold startContainer. intros r E. destruct (b_readLE 4 b) as [[z b1]| | |] eqn:R; try discriminate E. exact (False_ind _ (le_dead b 4 (fun _ => False) ltac:(discriminate) D _ R)). Qed.

  Lemma starts : forall again stk lf sz ty x b, b_skip b = false -> at_ (b_src b) x -> len x < 2 ^ 63 -> b_left b = lf -> b_size b = sz -> b_type b <> 10 ->
    (ty = 3 /\ b_next b = TokMapStart /\ b_stack b = BMap :: stk) \/ (ty = 4 /\ b_next b = TokArrayStart /\ b_stack b = BArray :: stk) ->
    gives (fun r => opened stk lf sz ty x (fst r) (snd r)) (next_with again b).
  Proof.
    intros again stk lf sz ty x b Sk A Lx <- <- Ht K. unfold next_with. rewrite Sk. cbn [bind].
    assert (G := start_gives b x A). destruct K as [(-> & N & St)|(-> & N & St)]; rewrite N; (eapply gives_bind; [exact G|]); intros b1 (d & x' & E & L & Q1 & Q2 & A1 & (S1 & S2 & S3) & N1 & T1 & K1);
      rewrite S1, S2, St; match goal with |- context [if ?c then _ else _] => destruct c eqn:Ec end; apply gives_ok; right; cbn [fst snd bset_next b_type]; (split; [reflexivity|]); (split; [congruence|]);
      exists [], d, x'; cbn [app]; (split; [exact E|]); (split; [exact L|]); (split; [exact Q1|]); (split; [exact Q2|]); (split; [constructor|]); unfold len at 1; cbn [length]; rewrite Z.sub_0_r;
      (split; [unfold shaped; cbn [bset_next b_stack b_left b_size]; rewrite S1, St; auto|]); (split; [|split; [exact A1|exact Lx]]); right; cbn [bset_next b_skip b_next b_left]; (split; [congruence|]); auto;
      right; (split; [reflexivity|]); rewrite S2; apply Z.eqb_eq in Ec; rewrite Ec; eauto.
  Qed.

  Lemma pending_next : forall again stk lf sz ty x b, pending stk lf sz ty x b -> gives (fun r => opened stk lf sz ty x (fst r) (snd r)) (next_with again b).
  Proof.
    intros again stk lf sz ty x b [Sk [[D N]|(A & Lx & T & L & Z & St0 & Hd & Ky & K)]].
    - unfold next_with. rewrite Sk. cbn [bind]. destruct N as [N|[N|N]]; rewrite N.
      + apply gives_ok. left. cbn [fst snd]. split; [|auto]. unfold doomed. cbn. auto.
      + eapply gives_bind; [apply (start_dead b (fun _ => False) D)|]. intros a [].
      + eapply gives_bind; [apply (start_dead b (fun _ => False) D)|]. intros a [].
    - destruct K as [K|[K|[N S]]].
      + apply starts; auto. destruct K as [-> _]. lia.
      + apply starts; auto. destruct K as [-> _]. lia.
      + unfold next_with. rewrite Sk. cbn [bind]. rewrite N. apply gives_ok. right. cbn [fst snd bset_skip b_src b_skip b_next b_type]. repeat split; auto; try apply A.
  Qed.

  (** The end of a container and the name of an element. *)
  Lemma readEnd_gives : forall b x, at_ (b_src b) x -> gives (fun b' => exists x' l r, x = 0 :: x' /\ at_ (b_src b') x' /\ b_left b = l :: r /\ b_left b' = u64 (l - 1) :: r /\
    b_stack b' = b_stack b /\ b_size b' = b_size b /\ b_skip b' = b_skip b) (readEndOfContainer b).
  Proof.
    intros b x H. unfold readEndOfContainer. eapply gives_bind; [exact (read_at b x 1 H)|]. intros [got b1] [S [(x' & E & L & A)|[L D]]]; cbn [fst snd] in *.
    - destruct (src_ok (b_src b1)); [|none]. eapply gives_bind; [apply use_gives|]. intros b2 (l & r & El & ->). destruct got as [|c [|? ?]]; try none. destruct (Z.eqb_spec c 0); [|none]. subst c.
      apply gives_ok. exists x', l, r. rewrite S in *. cbn in *. repeat split; auto; try apply A.
    - destruct (src_ok (b_src b1)); [|none]. eapply gives_bind; [apply use_gives|]. intros b2 _. destruct got; [none|cbn in L; lia].
  Qed.
  Lemma readTo_at : forall s x dst, at_ s x -> gives (fun r => src_ok (snd r) = true -> dead (snd r) \/ exists x', x = fst r ++ 0 :: x' /\ ~ In 0 (fst r) /\ at_ (snd r) x') (src_readTo s dst 0).
  Proof.
    intros s x dst [V R]. assert (L := live_rest k text s V). destruct V as (Hk & D & G & E & P). unfold src_readTo, strm_good, s_size. rewrite Hk, D, G, E, R in *.
    destruct (split_at 0 x) as [a f] eqn:Sp. destruct (split_found _ _ _ _ Sp) as [N K]. cbn [andb negb].
    assert (Mv : forall kd, f = true -> kd = k -> exists x', x = a ++ 0 :: x' /\ ~ In 0 a /\ at_ (mkSrc kd text (s_pos s + Datatypes.S (length a)) true false) x').
    { intros kd -> ->. destruct K as [x' Ex]. exists x'. split; [exact Ex|]. split; [exact N|].
      assert (Le : (s_pos s + Datatypes.S (length a) <= length text)%nat) by (rewrite Ex, app_length in L; cbn in L; lia).
      replace x' with (skipn (Datatypes.S (length a)) x).
      - apply (at_move s); [split; [now repeat split|exact R]| |reflexivity]. repeat split; auto.
      - rewrite Ex. rewrite skipn_app. replace (Datatypes.S (length a) - length a)%nat with 1%nat by lia. rewrite skipn_all2 by lia. reflexivity. }
    destruct k eqn:Ek.
    - destruct (Nat.ltb _ _); [none|]. apply gives_ok. cbn [fst snd src_ok s_good]. intro O. apply Nat.leb_le in O. destruct f.
      + right. destruct (Mv StrIn eq_refl eq_refl) as (x' & A & B & C). exists x'. split; [exact A|]. split; [exact B|]. apply Nat.leb_le in O. rewrite O. exact C.
      + subst a. lia.
    - destruct f; apply gives_ok; cbn [fst snd]; intros _.
      + right. exact (Mv Strm eq_refl eq_refl).
      + left. unfold dead, s_size. cbn. lia.
  Qed.
  Lemma readKey_gives : forall b x, at_ (b_src b) x -> gives (fun b' => b_stack b' = b_stack b /\ b_size b' = b_size b /\ b_next b' = b_next b /\ b_skip b' = b_skip b /\
    (dead (b_src b') \/ exists ty name x' l r, x = ty :: name ++ 0 :: x' /\ ~ In 0 name /\ at_ (b_src b') x' /\ b_type b' = ty /\ b_left b = l :: r /\ b_left b' = u64 (l - (len name + 2)) :: r)) (readKey b).
  Proof.
    intros b x H. unfold readKey. eapply gives_bind; [exact (read_at b x 1 H)|]. intros [got b1] [S [(x' & E & L & A)|[L D]]]; cbn [fst snd] in *.
    - destruct (src_ok (b_src b1)); [|none]. eapply gives_bind; [exact (readTo_at _ _ (b_key b1) A)|]. intros [name s1] K. cbn [fst snd] in K. destruct (src_ok s1); [|none]. specialize (K eq_refl).
      eapply gives_weak; [apply use_gives|]. intros b2 (l & r & El & ->). rewrite S in *. cbn [bset_sizes bset_elem bset_src b_stack b_size b_next b_skip b_src b_type b_left] in *. repeat (split; [reflexivity|]).
      destruct K as [K|(x2 & E2 & N & A2)]; [now left|right]. destruct got as [|ty [|? ?]]; try discriminate L. exists ty, name, x2, l, r. split; [rewrite E, E2; reflexivity|].
      repeat split; auto; try apply A2. do 2 f_equal. unfold len. lia.
    - destruct (src_ok (b_src b1)); [|none]. destruct (readTo_dead (b_src b1) (b_key b1) 0 D) as [Q|(a & s' & Q & O)]; rewrite Q; cbn [bind]; [none|rewrite O; none].
  Qed.

  (** The next token in a container. *)
  Definition grown (cc : bcont) (stk : list bcont) (lf sz : list Z) (x1 es : bytes) (b : bparser) : Prop :=
    exists ty name d, ~ In 0 name /\ bson_accepted weak ty d /\ innerE cc stk lf sz x1 (es ++ ty :: name ++ 0 :: d) b.
  Definition entersE (cc : bcont) (stk : list bcont) (lf sz : list Z) (x1 es : bytes) (t : token) (b : bparser) : Prop :=
    exists stk' lf' sz' ty x', (match cc with BMap => t = TokKey /\ pending stk' lf' sz' ty x' b | _ => opened stk' lf' sz' ty x' t b end) /\
      forall b', finish stk' lf' sz' ty x' b' -> doomed b' \/ grown cc stk lf sz x1 es b'.
  Definition enters (cc : bcont) (stk : list bcont) (lf sz : list Z) (x1 : bytes) (t : token) (b : bparser) : Prop :=
    exists stk' lf' sz' ty x', (match cc with BMap => t = TokKey /\ pending stk' lf' sz' ty x' b | _ => opened stk' lf' sz' ty x' t b end) /\
      forall b', finish stk' lf' sz' ty x' b' -> doomed b' \/ inner cc stk lf sz x1 b'.
  Definition leavesE (cc : bcont) (stk : list bcont) (lf sz : list Z) (x1 e : bytes) (t : token) (b : bparser) : Prop :=
    t = endtok cc /\ exists d x, x1 = d ++ x /\ bson_elements weak e /\ framed e d /\
      match cc with BValue => at_ (b_src b) x | _ => done stk lf sz x (len d) b end.
  Definition leaves (cc : bcont) (stk : list bcont) (lf sz : list Z) (x1 : bytes) (t : token) (b : bparser) : Prop :=
    t = endtok cc /\ exists e d x, x1 = d ++ x /\ bson_elements weak e /\ framed e d /\
      match cc with BValue => at_ (b_src b) x | _ => done stk lf sz x (len d) b end.

  Lemma next_quiet : forall cc stk lf sz x1 es b, innerE cc stk lf sz x1 es b -> exists b0, innerE cc stk lf sz x1 es b0 /\ b_skip b0 = false /\ (bson_next b = UB \/ bson_next b = bson_next b0).
  Proof.
    intros cc stk lf sz x1 es b (lb & x2 & E & L & Q1 & Q2 & Es & Sh & Id & A & Lx). destruct (b_skip b) eqn:Sk.
    - destruct Sh as (S1 & S2 & S3). destruct (u64 (signed_value lb - 4 - len es) =? 1) eqn:E1.
      + assert (P : isEndOfContainer (bset_skip b false) = Ok (true, bset_next (bset_skip b false) (endtok cc))).
        { unfold isEndOfContainer. cbn [bset_skip b_left b_stack]. rewrite S1, S2, E1. destruct cc; reflexivity. }
        apply Z.eqb_eq in E1.
        exists (bset_next (bset_skip b false) (endtok cc)). split; [|split; [reflexivity|right]].
        * exists lb, x2. repeat split; auto; try apply A; try lia. right. cbn. split; [reflexivity|]. right. split; [reflexivity|]. rewrite S2, E1. eauto.
        * unfold bson_next. unfold next_with at 1. rewrite Sk, P. reflexivity.
      + assert (P : isEndOfContainer (bset_skip b false) = Ok (false, bset_skip b false)).
        { unfold isEndOfContainer. cbn [bset_skip b_left b_stack]. rewrite S2, E1. reflexivity. }
        exists (bset_next (bset_elem (bset_skip b false) (b_key b) 0) TokKey). split; [|split; [reflexivity|right]].
        * exists lb, x2. repeat split; auto; try apply A; try lia. right. cbn. auto.
        * unfold bson_next. unfold next_with at 1. rewrite Sk, P. reflexivity.
    - exists b. split; [|auto]. exists lb, x2. auto 12.
  Qed.
  Lemma finish_inner : forall cc stk lf sz x1 lb es x2 ty name x3, x1 = lb ++ es ++ x2 -> length lb = 4%nat -> lb = little 4 (signed_value lb) -> - 2 ^ 31 <= signed_value lb < 2 ^ 31 ->
    bson_elements weak es -> len x1 < 2 ^ 63 -> x2 = ty :: name ++ 0 :: x3 -> ~ In 0 name -> forall b',
    finish (cc :: stk) (u64 (u64 (signed_value lb - 4 - len es) - (len name + 2)) :: lf) (u64 (signed_value lb) :: sz) ty x3 b' -> doomed b' \/ grown cc stk lf sz x1 es b'.
  Proof.
    intros cc stk lf sz x1 lb es x2 ty name x3 E L Q1 Q2 Es Lx E2 N b' [D|(d & x & E3 & Ac & A & l & r & El & Sh & Id)]; [now left|right]. injection El as <- <-. rewrite u64_sub, <- Z.sub_add_distr, u64_sub, Z.sub_add_distr in Sh.
    exists ty, name, d. split; [exact N|]. split; [exact Ac|]. exists lb, x. split; [|split; [exact L|split; [exact Q1|split; [exact Q2|split; [now apply elements_snoc|split; [|auto]]]]]].
    - rewrite E, E2, E3. rewrite <- !app_assoc. cbn [app]. now rewrite <- !app_assoc.
    - replace (signed_value lb - 4 - len (es ++ ty :: name ++ 0 :: d)) with (signed_value lb - 4 - len es - (len name + 2) - len d); [exact Sh|].
      unfold len. rewrite !app_length. cbn [length]. rewrite app_length. cbn [length]. lia.
  Qed.
  Lemma next_element : forall cc stk lf sz x1 es b, innerE cc stk lf sz x1 es b -> b_skip b = false -> b_next b = TokKey ->
    gives (fun r => entersE cc stk lf sz x1 es (fst r) (snd r)) (bson_next b).
  Proof.
    intros cc stk lf sz x1 es b (lb & x2 & E & L & Q1 & Q2 & Es & (S1 & S2 & S3) & Id & A & Lx) Sk N. clear Id.
    unfold bson_next. set (again := next_with (fun _ => Hang)). unfold next_with at 1. rewrite Sk. cbn [bind]. rewrite N. eapply gives_bind; [exact (readKey_gives b x2 A)|].
      intros b1 (K1 & K2 & K3 & K4 & K). rewrite K1, S1. destruct K as [D|(ty & name & x3 & l & r & E2 & Nn & A1 & T1 & El & El')].
      + (* the input has ended in the name *)
        assert (P : forall b2, dead (b_src b2) -> b_skip b2 = false -> b_next b2 = TokValue \/ b_next b2 = TokMapStart \/ b_next b2 = TokArrayStart -> pending [] [] [] 0 [] b2)
          by (intros b2 D2 S2' N2; split; [exact S2'|left; auto]).
        match goal with |- gives _ (match cc with BMap => Ok (_, ?b2) | _ => _ end) => assert (P2 : pending [] [] [] 0 [] b2) end.
        { apply P; destruct (b_type b1 =? 3); [|destruct (b_type b1 =? 4)| |destruct (b_type b1 =? 4)| |destruct (b_type b1 =? 4)]; cbn; auto; congruence. }
        assert (F0 : forall b', finish [] [] [] 0 [] b' -> doomed b' \/ grown cc stk lf sz x1 es b').
        { intros b' [Dm|(d & x & _ & Ac & _)]; [now left|]. exfalso. inversion Ac as [? ? Q|? ? ? Q|? ? ? [Q|Q] _]; [inversion Q|inversion Q|discriminate Q|discriminate Q]. }
        assert (Ag : cc <> BMap -> gives (fun r => entersE cc stk lf sz x1 es (fst r) (snd r)) (again (if b_type b1 =? 3 then bset_next (bset_stack b1 (BMap :: cc :: stk)) TokMapStart else if b_type b1 =? 4 then bset_next (bset_stack b1 (BArray :: cc :: stk)) TokArrayStart else bset_next b1 TokValue))).
        { intro Ne. eapply gives_weak; [exact (pending_next _ _ _ _ _ _ _ P2)|]. intros [t b3] O. cbn [fst snd] in *. exists [], [], [], 0, []. split; [|exact F0]. destruct cc; [contradiction|exact O|exact O]. }
        destruct cc.
        * apply gives_ok. cbn [fst snd]. exists [], [], [], 0, []. split; [split; [reflexivity|exact P2]|exact F0].
        * exact (Ag ltac:(discriminate)).
        * exact (Ag ltac:(discriminate)).
      + rewrite S2 in El. injection El as <- <-.
        assert (Ky : exists a name0, text = a ++ ty :: name0 ++ 0 :: x3 /\ ~ In 0 name0). { destruct (at_suffix _ _ A) as [a Ea]. exists a, name. rewrite Ea, E2. auto. }
        assert (L3 : len x3 < 2 ^ 63) by exact (at_size _ _ A1).
        match goal with |- gives _ (match cc with BMap => Ok (_, ?b2) | _ => _ end) => assert (P2 : pending (cc :: stk) (u64 (u64 (signed_value lb - 4 - len es) - (len name + 2)) :: lf) (u64 (signed_value lb) :: sz) ty x3 b2) end.
        { rewrite T1. destruct (Z.eqb_spec ty 3); [|destruct (Z.eqb_spec ty 4)]; (split; [cbn; congruence|right]); cbn [bset_next bset_stack b_src b_type b_left b_size b_next b_stack];
            (split; [exact A1|]); (split; [exact L3|]); (split; [exact T1|]); (split; [exact El'|]); (split; [congruence|]); (split; [discriminate|]); (split; [eauto|]); (split; [exact Ky|]); auto 8.
          right. right. split; [reflexivity|congruence]. }
        assert (F0 := finish_inner cc stk lf sz x1 lb es x2 ty name x3 E L Q1 Q2 Es Lx E2 Nn).
        assert (Ag : cc <> BMap -> gives (fun r => entersE cc stk lf sz x1 es (fst r) (snd r)) (again (if b_type b1 =? 3 then bset_next (bset_stack b1 (BMap :: cc :: stk)) TokMapStart else if b_type b1 =? 4 then bset_next (bset_stack b1 (BArray :: cc :: stk)) TokArrayStart else bset_next b1 TokValue))).
        { intro Ne. eapply gives_weak; [exact (pending_next _ _ _ _ _ _ _ P2)|]. intros [t b3] O. cbn [fst snd] in *. eexists _, _, _, _, _. split; [|exact F0]. destruct cc; [contradiction|exact O|exact O]. }
        destruct cc.
        * apply gives_ok. cbn [fst snd]. eexists _, _, _, _, _. split; [split; [reflexivity|exact P2]|exact F0].
        * exact (Ag ltac:(discriminate)).
        * exact (Ag ltac:(discriminate)).
  Qed.
  Lemma next_innerE : forall cc stk lf sz x1 es b, innerE cc stk lf sz x1 es b ->
    gives (fun r => leavesE cc stk lf sz x1 es (fst r) (snd r) \/ entersE cc stk lf sz x1 es (fst r) (snd r)) (bson_next b).
  Proof.
    intros cc stk lf sz x1 es b I0. destruct (next_quiet _ _ _ _ _ _ _ I0) as (b0 & I & Sk & [->| ->]); [none|]. clear b I0. rename b0 into b.
    assert (I' := I). destruct I as (lb & x2 & E & L & Q1 & Q2 & Es & (S1 & S2 & S3) & Id & A & Lx).
    destruct Id as [[Sk' _]|[_ [N|[N (r1 & Le)]]]]; [congruence| |].
    - eapply gives_weak; [exact (next_element _ _ _ _ _ _ _ I' Sk N)|]. intros r Hr. now right.
    - (* the end *)
      rewrite S2 in Le. injection Le as El _.
      assert (Z1 : signed_value lb = len es + 5). { assert (len es <= len x1) by (rewrite E; unfold len; rewrite !app_length; lia). assert (0 <= len es) by (unfold len; lia). apply u64_one in El; lia. }
      assert (Fr : forall x', x2 = 0 :: x' -> x1 = (lb ++ es ++ [0]) ++ x' /\ framed es (lb ++ es ++ [0]) /\ len (lb ++ es ++ [0]) = signed_value lb).
      { intros x' ->. split; [rewrite E; now rewrite <- !app_assoc|]. split; [rewrite Q1, Z1; constructor; lia|]. unfold len in *. rewrite !app_length. cbn [length]. lia. }
      unfold bson_next. set (again := next_with (fun _ => Hang)). unfold next_with at 1. rewrite Sk. cbn [bind]. rewrite N.
      assert (C : cc <> BValue -> gives (fun r => fst r = endtok cc /\ exists x', x2 = 0 :: x' /\ done stk lf sz x' (signed_value lb) (snd r)) (do b <- readEndOfContainer b;
        match b_stack b, b_left b, b_size b with
        | _ :: st, _ :: lf, z :: sz =>
          let b := bset_stack b st in
          match st with
          | [] => Ok (endtok cc, bset_next (bset_sizes b lf sz) TokDocEnd)
          | _ =>
              do b <- b_use z (bset_sizes b lf sz);
              do (e, b) <- isEndOfContainer b;
              Ok (endtok cc, if e then b else bset_next b TokKey)
          end
        | _, _, _ => UB
        end)).
      { intro Ne. eapply gives_bind; [exact (readEnd_gives b x2 A)|]. intros b1 (x' & l & r & E2 & A1 & L1 & L2 & T1 & T2 & T3). rewrite S2 in L1. injection L1 as <- <-.
        rewrite T1, S1, L2, T2, S3. cbv zeta. destruct stk as [|c st].
        - apply gives_ok. cbn [fst snd]. split; [reflexivity|]. exists x'. split; [exact E2|]. split; [exact A1|]. cbn. split; [reflexivity|]. split; [congruence|reflexivity].
        - eapply gives_bind; [apply use_gives|]. intros b2 (l & r & E3 & ->). cbn [bset_sizes bset_stack b_left] in E3. subst lf.
          unfold isEndOfContainer. cbn [bset_sizes bset_stack b_left b_stack b_size]. rewrite (u64_small (signed_value lb)) by (assert (0 <= len es) by (unfold len; lia); lia).
          assert (Dn : forall b3, b_src b3 = b_src b1 -> shaped b3 (c :: st) (u64 (l - signed_value lb) :: r) sz -> idle c b3 -> done (c :: st) (l :: r) sz x' (signed_value lb) b3).
          { intros b3 V1 V2 V3. split; [rewrite V1; exact A1|]. exists l, r. auto. }
          destruct (u64 (l - signed_value lb) =? 1) eqn:E1.
          + apply Z.eqb_eq in E1. destruct c; apply gives_ok; cbn [fst snd]; (split; [reflexivity|]); exists x'; (split; [exact E2|]); apply Dn; try reflexivity; try (repeat split; fail);
              right; cbn; (split; [congruence|]); right; (split; [reflexivity|]); rewrite E1; eauto.
          + apply gives_ok. cbn [fst snd]. split; [reflexivity|]. exists x'. split; [exact E2|]. apply Dn; [reflexivity|repeat split|]. right. cbn. split; [congruence|]. auto. }
      assert (W : cc <> BValue -> forall r, (fst r = endtok cc /\ exists x', x2 = 0 :: x' /\ done stk lf sz x' (signed_value lb) (snd r)) -> leavesE cc stk lf sz x1 es (fst r) (snd r)).
      { intros Ne [t b1] (T & x' & E2 & D). cbn [fst snd] in *. split; [exact T|]. destruct (Fr x' E2) as (F1 & F2 & F3). exists (lb ++ es ++ [0]), x'. rewrite F3. destruct cc; try contradiction; auto. }
      destruct cc; cbn [endtok] in *.
      + eapply gives_weak; [exact (C ltac:(discriminate))|]. intros r Hr. left. exact (W ltac:(discriminate) r Hr).
      + eapply gives_weak; [exact (C ltac:(discriminate))|]. intros r Hr. left. exact (W ltac:(discriminate) r Hr).
      + rewrite S1. eapply gives_bind; [exact (readEnd_gives b x2 A)|]. intros b1 (x' & l & r & E2 & A1 & L1 & L2 & T1 & T2 & T3). apply gives_ok. left. cbn [fst snd].
        split; [reflexivity|]. destruct (Fr x' E2) as (F1 & F2 & F3). exists (lb ++ es ++ [0]), x'. cbn [bset_next b_src]. auto.
  Qed.
  Lemma grown_inner : forall cc stk lf sz x1 es b, grown cc stk lf sz x1 es b -> inner cc stk lf sz x1 b.
  Proof. intros cc stk lf sz x1 es b (ty & name & d & _ & _ & I). exists (es ++ ty :: name ++ 0 :: d). exact I. Qed.
  Lemma next_inner : forall cc stk lf sz x1 b, inner cc stk lf sz x1 b ->
    gives (fun r => leaves cc stk lf sz x1 (fst r) (snd r) \/ enters cc stk lf sz x1 (fst r) (snd r)) (bson_next b).
  Proof.
    intros cc stk lf sz x1 b (es & I). eapply gives_weak; [exact (next_innerE _ _ _ _ _ _ _ I)|]. intros [t b1] [(T & d & x & L)|(stk' & lf' & sz' & ty & x' & P & Nx)]; [left|right].
    - split; [exact T|]. exists es, d, x. exact L.
    - exists stk', lf', sz', ty, x'. split; [exact P|]. intros b' Fi. destruct (Nx b' Fi) as [Dm|G]; [now left|right]. exact (grown_inner _ _ _ _ _ _ _ G).
  Qed.

  (** Values. *)
  Definition scalar_op {A} (f : bparser -> outcome (A * bparser)) : Prop := forall stk lf sz ty x b, opened stk lf sz ty x TokValue b ->
    gives (fun r => finish stk lf sz ty x (snd r)) (f b).
  (** A value of which [d] was read. *)
  Lemma finish_value : forall stk lf sz ty x b b' d x' l r, x = d ++ x' -> bson_accepted weak ty d -> at_ (b_src b') x' -> stk <> [] -> lf = l :: r ->
    b_stack b' = stk -> b_size b' = sz -> b_left b' = u64 (l - len d) :: r -> b_skip b = true -> b_next b = TokValue -> b_skip b' = b_skip b -> b_next b' = b_next b -> finish stk lf sz ty x b'.
  Proof.
    intros stk lf sz ty x b b' d x' l r E Ac A Ns El S1 S2 S3 K1 K2 K3 K4. right. exists d, x'. split; [exact E|]. split; [exact Ac|]. split; [exact A|]. destruct stk as [|c st]; [contradiction|].
    exists l, r. split; [exact El|]. split; [repeat split; assumption|]. left. split; congruence.
  Qed.
  Lemma use_doomed : forall n b, doomed b -> gives doomed (b_use n b).
  Proof. intros n b D. eapply gives_weak; [apply use_gives|]. intros b' (l & r & _ & ->). exact D. Qed.

  Lemma read_dead_gives : forall n b, dead (b_src b) -> gives (fun r => fst r = [] /\ dead (b_src (snd r)) /\ snd r = bset_src b (b_src (snd r))) (b_read n b).
  Proof.
    intros n b D r E. destruct r as [got b']. cbn [fst snd]. destruct (dead_read _ _ _ _ D E) as [G D']. split; [exact G|]. split; [exact D'|].
    unfold b_read in E. destruct (src_read (b_src b) n) as [[g s]| | |]; try discriminate E. cbn [bind] in E. injection E as _ <-. reflexivity.
  Qed.
  Lemma le_doomed : forall n (g : Z -> Z) b Q, n <> 0%nat -> doomed b -> gives Q (do b <- b_use (Z.of_nat n) b; do (z, b) <- b_readLE n b; Ok (g z, b)).
  Proof.
    intros n g b Q Hn D. eapply gives_bind; [apply (use_doomed _ _ D)|]. intros b1 [D1 _]. eapply gives_bind; [apply (le_dead b1 n (fun _ => False) Hn D1)|]. intros a [].
  Qed.
  Lemma le_value_op : forall n ty (g : Z -> Z), n <> 0%nat -> (forall d, length d = n -> bson_taken ty d) -> forall stk lf sz x b, opened stk lf sz ty x TokValue b ->
    gives (fun r => finish stk lf sz ty x (snd r)) (do b <- b_use (Z.of_nat n) b; do (z, b) <- b_readLE n b; Ok (g z, b)).
  Proof.
    intros n ty g Hn Hd stk lf sz x b [[D _]|(A & (S1 & S2 & S3) & Ns & _ & K1 & K2 & T & _)]; [now apply le_doomed|].
    eapply gives_bind; [apply use_gives|]. intros b1 (l & r & El & ->). eapply gives_bind; [apply (le_at _ x n Hn); exact A|]. intros [z b2] [S (d & x' & E & L & _ & A2)]. cbn [fst snd] in *.
    apply gives_ok. cbn [snd]. rewrite S in *. apply (finish_value stk lf sz ty x b _ d x' l r); auto; cbn; try congruence; [now constructor; apply Hd|]. unfold len. now rewrite L.
  Qed.
  Lemma int_op : forall i, scalar_op (bson_int i).
  Proof.
    intros i stk lf sz ty x b O. unfold bson_int. destruct (Z.eqb_spec (b_type b) 16) as [T|]; [|destruct (Z.eqb_spec (b_type b) 18) as [T|]; [|none]].
    - destruct O as [[D _]|O]; [apply (le_doomed 4); [discriminate|exact D]|]. assert (ty = 16) by (destruct O as (_ & _ & _ & _ & _ & _ & T' & _); congruence). subst ty.
      apply (le_value_op 4); [discriminate|intros d Ld; now constructor|right; exact O].
    - destruct O as [[D _]|O]; [apply (le_doomed 8); [discriminate|exact D]|]. assert (ty = 18) by (destruct O as (_ & _ & _ & _ & _ & _ & T' & _); congruence). subst ty.
      apply (le_value_op 8); [discriminate|intros d Ld; now constructor|right; exact O].
  Qed.
  Lemma float_op : forall f, scalar_op (getFloatValue f).
  Proof.
    intros f stk lf sz ty x b O. unfold getFloatValue. destruct (Z.eqb_spec (b_type b) 16) as [T|]; [|destruct (Z.eqb_spec (b_type b) 18) as [T|]; [|destruct (Z.eqb_spec (b_type b) 1) as [T|]; [|none]]].
    - destruct O as [[D _]|O]; [apply (le_doomed 4); [discriminate|exact D]|]. assert (ty = 16) by (destruct O as (_ & _ & _ & _ & _ & _ & T' & _); congruence). subst ty.
      apply (le_value_op 4); [discriminate|intros d Ld; now constructor|right; exact O].
    - destruct O as [[D _]|O]; [apply (le_doomed 8); [discriminate|exact D]|]. assert (ty = 18) by (destruct O as (_ & _ & _ & _ & _ & _ & T' & _); congruence). subst ty.
      apply (le_value_op 8); [discriminate|intros d Ld; now constructor|right; exact O].
    - unfold readFloat. destruct O as [[(D & _) _]|(A & (S1 & S2 & S3) & Ns & _ & K1 & K2 & T' & _)].
      + eapply gives_bind; [|intros a Ha; exact Ha]. eapply gives_bind; [exact (read_dead_gives 8 b D)|]. intros [got b1] (G & D1 & _). cbn [fst snd] in *. subst got. destruct (src_ok (b_src b1)); [|none].
        destruct (b_use 8 b1); cbn; none.
      + eapply gives_bind.
        * eapply gives_bind; [exact (read_at b x 8 A)|]. intros [got b1] [S [(x' & E & L & A1)|[L D]]]; cbn [fst snd] in *; (destruct (src_ok (b_src b1)); [|none]).
          -- eapply gives_bind; [apply use_gives|]. intros b2 (l & r & El & ->). rewrite L. cbn [Nat.eqb]. apply gives_ok. rewrite S in *. cbn [bset_sizes bset_src b_src b_left b_size] in *.
             instantiate (1 := fun r => finish stk lf sz ty x (snd r)). cbn [snd].
             apply (finish_value stk lf sz ty x b _ got x' l r); auto; cbn; try congruence; [subst ty; rewrite T; now constructor; constructor|]. unfold len. now rewrite L.
          -- eapply gives_bind; [apply use_gives|]. intros b2 _. destruct (Nat.eqb_spec (length got) 8); [lia|none].
        * intros [z b1] F. cbn [snd] in F. apply gives_ok. exact F.
  Qed.
  Lemma bool_op : scalar_op bson_bool.
  Proof.
    intros stk lf sz ty x b O. unfold bson_bool. destruct (Z.eqb_spec (b_type b) 8) as [T|]; [|none]. destruct O as [[(D & _) _]|(A & (S1 & S2 & S3) & Ns & _ & K1 & K2 & T' & _)].
    - eapply gives_bind; [exact (read_dead_gives 1 b D)|]. intros [got b1] (G & D1 & _). cbn [fst snd] in *. subst got. destruct (src_ok (b_src b1)); [|none]. destruct (b_use 1 b1); cbn; none.
    - eapply gives_bind; [exact (read_at b x 1 A)|]. intros [got b1] [S [(x' & E & L & A1)|[L D]]]; cbn [fst snd] in *; (destruct (src_ok (b_src b1)); [|none]); (eapply gives_bind; [apply use_gives|]); intros b2 (l & r & El & ->).
      + destruct got as [|c [|? ?]]; try none. assert (G : c = 0 \/ c = 1 -> finish stk lf sz ty x (bset_sizes b1 (u64 (l - 1) :: r) (b_size b1))).
        { intro Hc. rewrite S in *. cbn [bset_src b_left b_src] in *. apply (finish_value stk lf sz ty x b _ [c] x' l r); auto; cbn; try congruence. constructor. subst ty. rewrite T. now constructor. }
        destruct (Z.eqb_spec c 0); [apply gives_ok; auto|]. destruct (Z.eqb_spec c 1); [apply gives_ok; auto|none].
      + destruct got; [none|cbn in L; lia].
  Qed.
  Lemma str_op : scalar_op bson_str.
  Proof.
    intros stk lf sz ty x b O. unfold bson_str. destruct (Z.eqb_spec (b_type b) 2) as [T|]; [|none]. destruct O as [[(D & _) _]|(A & (S1 & S2 & S3) & Ns & _ & K1 & K2 & T' & _)].
    - eapply gives_bind; [apply (le_dead b 4 (fun _ => False) ltac:(discriminate) D)|]. intros a [].
    - eapply gives_bind; [exact (le_at b x 4 ltac:(discriminate) A)|]. intros [z b1] [S (lb & x' & E & L & Ez & A1)]. cbn [fst snd] in *. destruct (signed4 lb (b_src b) x L A ltac:(exists [], x'; exact E)) as [Q1 Q2]. rewrite <- Ez in Q1, Q2.
      eapply gives_bind; [apply use_gives|]. intros b2 (l & r & El & ->). destruct (Z.leb_spec z 0); [none|].
      eapply gives_bind; [apply (read_at _ x' (Z.to_nat z)); exact A1|]. intros [got b3] [S' [(x2 & E2 & L2 & A2)|[L2 D]]]; cbn [fst snd] in *; (destruct (src_ok (b_src b3)); [|none]); (eapply gives_bind; [apply use_gives|]); intros b4 (l4 & r4 & El4 & ->); apply gives_ok; cbn [snd].
      + rewrite S' in *. cbn [bset_src bset_sizes b_left b_size b_src] in *. injection El4 as <- <-. rewrite S in *. cbn [bset_src bset_sizes b_left b_size b_src] in *. rewrite u64_sub.
        apply (finish_value stk lf sz ty x b _ (lb ++ got) x2 l r); auto; cbn; try congruence.
        * rewrite E, E2. now rewrite app_assoc.
        * constructor. subst ty. rewrite T, Q1. replace z with (len got) by (unfold len; lia). constructor; [intros ->; cbn in L2; lia|unfold len; lia].
        * do 2 f_equal. unfold len. rewrite app_length, L, L2. lia.
      + left. rewrite S' in *. cbn [bset_src bset_sizes b_src b_skip b_next] in *. rewrite S. cbn. split; [exact D|]. auto.
  Qed.
  Lemma null_op : forall stk lf sz ty x b, opened stk lf sz ty x TokValue b -> b_type b = 10 -> gives (finish stk lf sz ty x) (bson_ignore b).
  Proof.
    intros stk lf sz ty x b O T. unfold bson_ignore. destruct (b_skip b) eqn:Sk; cbn [negb]; rewrite ?T; apply gives_ok.
    - destruct O as [[D _]|(A & (S1 & S2 & S3) & Ns & (l & r & El) & K1 & K2 & T' & _)]; [now left|].
      apply (finish_value stk lf sz ty x b _ [] x (u64 l) r); auto; [constructor; subst ty; rewrite T; constructor|]. unfold len. cbn. rewrite S2, El. now rewrite u64_sub, Z.sub_0_r.
    - destruct O as [[(_ & D & _) _]|(_ & _ & _ & _ & K1 & _)]; congruence.
  Qed.

  Lemma ignore_at : forall b x n, at_ (b_src b) x -> 0 <= n -> gives (fun b' => b' = bset_src b (b_src b') /\ (dead (b_src b') \/ exists d x', x = d ++ x' /\ len d = n /\ at_ (b_src b') x')) (b_ignore n b).
  Proof.
    intros b x n A Hn. unfold b_ignore. destruct (Z.leb_spec 0 n); [|lia]. apply gives_ok. split; [reflexivity|]. cbn [bset_src b_src].
    destruct (ignore_live k text (b_src b) (Z.to_nat n) (proj1 A)) as [[V P]|D]; [right|now left]. exists (firstn (Z.to_nat n) x), (skipn (Z.to_nat n) x). split; [now rewrite firstn_skipn|].
    split; [|now apply (at_move (b_src b))]. unfold len. rewrite firstn_length. assert (Lr := live_rest k text (b_src b) (proj1 A)). rewrite (proj2 A) in Lr. destruct V as (_ & _ & _ & _ & V). lia.
  Qed.
  Lemma ignore_doomed : forall n b, doomed b -> 0 <= n -> gives doomed (b_ignore n b).
  Proof.
    intros n b (D & K) Hn. unfold b_ignore. destruct (Z.leb_spec 0 n); [|lia]. apply gives_ok. split; [|exact K]. cbn. now apply ignore_dead.
  Qed.
  Lemma fixed_op : forall n ty, 0 <= n -> (forall d, len d = n -> bson_accepted weak ty d) -> forall stk lf sz x b, opened stk lf sz ty x TokValue b -> gives (finish stk lf sz ty x) (ignore_fixed n b).
  Proof.
    intros n ty Hn Hd stk lf sz x b [[D _]|(A & (S1 & S2 & S3) & Ns & _ & K1 & K2 & T & _)]; unfold ignore_fixed.
    - eapply gives_bind; [apply (ignore_doomed n b D Hn)|]. intros b1 D1. eapply gives_weak; [exact (use_doomed n b1 D1)|]. intros b2 D2. now left.
    - eapply gives_bind; [exact (ignore_at b x n A Hn)|]. intros b1 [S K]. eapply gives_weak; [apply use_gives|]. intros b2 (l & r & El & ->). destruct K as [D|(d & x' & E & L & A1)].
      + left. rewrite S in *. cbn [bset_src b_src] in D. repeat split; auto.
      + rewrite S in *. cbn [bset_src b_src b_left] in *. apply (finish_value stk lf sz ty x b _ d x' l r); auto; cbn; try congruence.
  Qed.
  Lemma sized_op : forall more ty, weak = true -> (more = 0 /\ ty = 2) \/ (more = 1 /\ ty = 5) -> forall stk lf sz x b, opened stk lf sz ty x TokValue b -> gives (finish stk lf sz ty x) (ignore_sized more b).
  Proof.
    intros more ty W Hm stk lf sz x b [[(D & _) _]|(A & (S1 & S2 & S3) & Ns & _ & K1 & K2 & T & (a & name & Et & Nn))]; unfold ignore_sized.
    - eapply gives_bind; [apply (le_dead b 4 (fun _ => False) ltac:(discriminate) D)|]. intros r [].
    - eapply gives_bind; [exact (le_at b x 4 ltac:(discriminate) A)|]. intros [z b1] [S (lb & x' & E & L & Ez & A1)]. cbn [fst snd] in *. destruct (signed4 lb (b_src b) x L A ltac:(exists [], x'; exact E)) as [Q1 Q2]. rewrite <- Ez in Q1, Q2.
      destruct (Z.ltb_spec (z + more + 4) (2 ^ 31)); [|none].
      assert (Hz : 0 <= z). { destruct (Z.le_gt_cases 0 z); [assumption|]. exfalso. apply (Hneg W). exists a, ty, name, z, x'. split; [rewrite Et, E, Q1; reflexivity|]. split; [|split; [exact Nn|lia]]. destruct Hm as [[_ ->]|[_ ->]]; auto. }
      eapply gives_bind; [apply (ignore_at b1 x' (z + more) A1); lia|]. intros b2 [S' K]. eapply gives_weak; [apply use_gives|]. intros b3 (l & r & El & ->). rewrite S', S in *. cbn [bset_src b_src b_left] in *. destruct K as [D|(d & x2 & E2 & L2 & A2)].
      + left. repeat split; auto.
      + apply (finish_value stk lf sz ty x b _ (lb ++ d) x2 l r); auto; cbn; try congruence.
        * rewrite E, E2. now rewrite app_assoc.
        * apply ba_skipped; [exact W|]. rewrite Q1. destruct Hm as [[-> ->]|[-> ->]].
          -- replace z with (len d) by lia. constructor. lia.
          -- destruct d as [|sub d]; [cbn in L2; lia|]. replace z with (len d) by (unfold len in *; cbn [length] in L2; lia). constructor. unfold len in *. cbn [length] in L2. lia.
        * do 2 f_equal. unfold len in *. rewrite app_length, L. lia.
  Qed.
  Lemma ignore_op : weak = true -> forall stk lf sz ty x b, opened stk lf sz ty x TokValue b -> gives (finish stk lf sz ty x) (bson_ignore b).
  Proof.
    intros W stk lf sz ty x b O. unfold bson_ignore. destruct (b_skip b) eqn:Sk; cbn [negb]; [|destruct O as [[(_ & D & _) _]|(_ & _ & _ & _ & K1 & _)]; congruence].
    assert (Fl : forall (d : list Z) n, len d = Z.of_nat n -> length d = n) by (unfold len; intros; lia).
    assert (Fx : forall n, 0 <= n -> (forall d, len d = n -> bson_accepted weak (b_type b) d) -> gives (finish stk lf sz ty x) (ignore_fixed n b)).
    { intros n Hn Hd. destruct O as [[D Ht]|O].
      - unfold ignore_fixed. eapply gives_bind; [apply (ignore_doomed n b D Hn)|]. intros b1 D1. eapply gives_weak; [exact (use_doomed n b1 D1)|]. intros b2 D2. now left.
      - assert (T : b_type b = ty) by (destruct O as (_ & _ & _ & _ & _ & _ & T' & _); congruence). rewrite T in Hd. apply fixed_op; auto. right. exact O. }
    assert (Sz : forall more, (more = 0 /\ b_type b = 2) \/ (more = 1 /\ b_type b = 5) -> gives (finish stk lf sz ty x) (ignore_sized more b)).
    { intros more Hm. destruct O as [[(D & _) Ht]|O].
      - unfold ignore_sized. eapply gives_bind; [apply (le_dead b 4 (fun _ => False) ltac:(discriminate) D)|]. intros r [].
      - assert (T : b_type b = ty) by (destruct O as (_ & _ & _ & _ & _ & _ & T' & _); congruence). rewrite T in Hm. apply sized_op; auto. right. exact O. }
    assert (Nl : b_type b = 10 -> gives (finish stk lf sz ty x) (Ok b)). { intro T. assert (G := null_op stk lf sz ty x b O T). unfold bson_ignore in G. rewrite Sk, T in G. exact G. }
    destruct (Z.eq_dec (b_type b) 1) as [T|]; [rewrite T in *; apply Fx; [lia|]; intros d Ld; apply ba_taken; constructor; now apply Fl|].
    destruct (Z.eq_dec (b_type b) 19) as [T|]; [rewrite T in *; apply Fx; [lia|]; intros d Ld; apply ba_skipped; [exact W|]; constructor; now apply Fl|].
    destruct (Z.eq_dec (b_type b) 16) as [T|]; [rewrite T in *; apply Fx; [lia|]; intros d Ld; apply ba_taken; constructor; now apply Fl|].
    destruct (Z.eq_dec (b_type b) 18) as [T|]; [rewrite T in *; apply Fx; [lia|]; intros d Ld; apply ba_taken; constructor; now apply Fl|].
    destruct (Z.eq_dec (b_type b) 7) as [T|]; [rewrite T in *; apply Fx; [lia|]; intros d Ld; apply ba_skipped; [exact W|]; constructor; now apply Fl|].
    destruct (Z.eq_dec (b_type b) 8) as [T|]; [rewrite T in *; apply Fx; [lia|]; intros d Ld; apply ba_skipped; [exact W|]; apply Fl with (n := 1%nat) in Ld; destruct d as [|c [|? ?]]; try discriminate Ld; constructor|].
    destruct (Z.eq_dec (b_type b) 9) as [T|]; [rewrite T in *; apply Fx; [lia|]; intros d Ld; apply ba_skipped; [exact W|]; constructor; now apply Fl|].
    destruct (Z.eq_dec (b_type b) 17) as [T|]; [rewrite T in *; apply Fx; [lia|]; intros d Ld; apply ba_skipped; [exact W|]; constructor; now apply Fl|].
    destruct (Z.eq_dec (b_type b) 10) as [T|]; [rewrite T in *; now apply Nl|].
    destruct (Z.eq_dec (b_type b) 2) as [T|]; [rewrite T in *; apply Sz; auto|].
    destruct (Z.eq_dec (b_type b) 5) as [T|]; [rewrite T in *; apply Sz; auto|].
    intros r E. exfalso. clear -E n n0 n1 n2 n3 n4 n5 n6 n7 n8 n9. revert E n n0 n1 n2 n3 n4 n5 n6 n7 n8 n9. generalize (b_type b). intros z E.
    destruct z as [|p|p]; try discriminate E. repeat (destruct p as [p|p|]; try discriminate E); intros; congruence.
  Qed.

  Section Reader.
  Variable ops : parser_ops bparser.
  Hypothesis O_next : op_next ops = bson_next.
  Hypothesis O_key : op_key ops = fun b => Ok (b_key b, b).
  Hypothesis O_int : forall i, scalar_op (op_int ops i).
  Hypothesis O_bool : op_bool ops = bson_bool.
  Hypothesis O_str : op_str ops = bson_str.
  Hypothesis O_null : op_null ops = fun b => b_type b =? 10.
  Hypothesis O_ignore : op_ignore ops = bson_ignore.
  Hypothesis O_map : op_ignoreMap ops = fun _ b => Ok b.
  Hypothesis O_arr : op_ignoreArr ops = fun _ b => Ok b.
  Variables (F : nat) (m : strictness) (marker : bytes).
  Hypothesis Hm : m = Weak -> weak = true.

  Lemma leaves_finish : forall cc ty stk lf sz x t b, cc <> BValue -> ty = 3 \/ ty = 4 -> leaves cc stk lf sz x t b -> finish stk lf sz ty x b.
  Proof. intros cc ty stk lf sz x t b Nv Ht (_ & e & d & x' & E & Es & Fr & D). right. exists d, x'. split; [exact E|]. split; [now apply (ba_frame weak ty e)|]. destruct cc; [exact D|exact D|contradiction]. Qed.

  (** Skipping. *)
  Definition inside' (cc : bcont) (stk : list bcont) (lf sz : list Z) (x : bytes) (b : bparser) : Prop := doomed b \/ inner cc stk lf sz x b.
  Lemma key_kept : forall stk lf sz ty x b, pending stk lf sz ty x b -> bson_ignore b = Ok b.
  Proof. intros stk lf sz ty x b [Sk _]. unfold bson_ignore. now rewrite Sk. Qed.
  Lemma ign_value_eq : forall f s, ign_value ops (Datatypes.S f) s =
    do (t, s) <- bson_next s;
    match t with
    | TokValue => bson_ignore s
    | TokMapStart => ign_map ops f s
    | TokArrayStart => ign_arr ops f s
    | _ => Throw
    end.
  Proof. intros f s. transitivity (do (t, s) <- op_next ops s; match t with TokValue => op_ignore ops s | TokMapStart => do s <- op_ignoreMap ops true s; ign_map ops f s | TokArrayStart => do s <- op_ignoreArr ops true s; ign_arr ops f s | _ => Throw end); [reflexivity|]. now rewrite O_next, O_ignore, O_map, O_arr. Qed.
  Lemma ign_map_eq : forall f s, ign_map ops (Datatypes.S f) s =
    do (t, s) <- bson_next s;
    match t with
    | TokMapEnd => Ok s
    | _ => do s <- bson_ignore s; match t with TokKey => do s <- ign_value ops f s; ign_map ops f s | _ => Throw end
    end.
  Proof. intros f s. transitivity (do (t, s) <- op_next ops s; match t with TokMapEnd => op_ignoreMap ops false s | _ => do s <- op_ignore ops s; match t with TokKey => do s <- ign_value ops f s; ign_map ops f s | _ => Throw end end); [reflexivity|]. now rewrite O_next, O_ignore, O_map. Qed.
  Lemma ign_arr_eq : forall f s, ign_arr ops (Datatypes.S f) s =
    do (t, s) <- bson_next s;
    match t with
    | TokArrayEnd => Ok s
    | TokValue => do s <- bson_ignore s; ign_arr ops f s
    | TokMapStart => do s <- ign_map ops f s; ign_arr ops f s
    | TokArrayStart => do s <- ign_arr ops f s; ign_arr ops f s
    | _ => Throw
    end.
  Proof.
    intros f s. transitivity (do (t, s) <- op_next ops s; match t with TokArrayEnd => op_ignoreArr ops false s | TokValue => do s <- op_ignore ops s; ign_arr ops f s
      | TokMapStart => do s <- op_ignoreMap ops true s; do s <- ign_map ops f s; ign_arr ops f s | TokArrayStart => do s <- op_ignoreArr ops true s; do s <- ign_arr ops f s; ign_arr ops f s | _ => Throw end); [reflexivity|]. now rewrite O_next, O_ignore, O_map, O_arr.
  Qed.
  Lemma skip_gives : weak = true -> forall f,
    (forall stk lf sz ty x b, gives (fun r => opened stk lf sz ty x (fst r) (snd r)) (bson_next b) -> gives (finish stk lf sz ty x) (ign_value ops f b)) /\
    (forall stk lf sz x b, inside' BMap stk lf sz x b -> gives (finish stk lf sz 3 x) (ign_map ops f b)) /\
    (forall stk lf sz x b, inside' BArray stk lf sz x b -> gives (finish stk lf sz 4 x) (ign_arr ops f b)).
  Proof.
    intros W f. induction f as [|f (IV & IM & IA)]; [repeat split; intros; none|].
    assert (OI : forall stk lf sz ty x b, opened stk lf sz ty x TokValue b -> gives (finish stk lf sz ty x) (bson_ignore b)) by (intros; now apply ignore_op).
    assert (OM : forall stk lf sz ty x b, opened stk lf sz ty x TokMapStart b -> gives (finish stk lf sz ty x) (ign_map ops f b)).
    { intros stk lf sz ty x b [[D _]|(-> & _ & I)]; [|apply IM; now right]. destruct f as [|f']; [none|]. rewrite ign_map_eq. eapply gives_bind; [exact (doomed_next b (fun _ => False) D)|]. intros a []. }
    assert (OA : forall stk lf sz ty x b, opened stk lf sz ty x TokArrayStart b -> gives (finish stk lf sz ty x) (ign_arr ops f b)).
    { intros stk lf sz ty x b [[D [H|H]]|(-> & _ & I)]; try discriminate H. apply IA. now right. }
    split; [|split].
    - intros stk lf sz ty x b H. rewrite ign_value_eq. eapply gives_bind; [exact H|]. intros [t b1] O. cbn [fst snd] in O.
      destruct t; try none; [exact (OM _ _ _ _ _ _ O)|exact (OA _ _ _ _ _ _ O)|exact (OI _ _ _ _ _ _ O)].
    - intros stk lf sz x b [D|I]; rewrite ign_map_eq; [eapply gives_bind; [exact (doomed_next b (fun _ => False) D)|]; intros a []|].
      eapply gives_bind; [exact (next_inner _ _ _ _ _ _ I)|]. intros [t b1] [L|E]; cbn [fst snd] in *.
      + assert (Fi := leaves_finish BMap 3 stk lf sz x t b1 ltac:(discriminate) (or_introl eq_refl) L). destruct L as [-> _]. cbn [endtok]. now apply gives_ok.
      + destruct E as (stk' & lf' & sz' & ty & x' & [-> P] & Nx). rewrite (key_kept _ _ _ _ _ _ P). cbn [bind].
        eapply gives_bind; [exact (IV _ _ _ _ _ _ (pending_next _ _ _ _ _ _ _ P))|]. intros b2 Fi. exact (IM _ _ _ _ _ (Nx b2 Fi)).
    - intros stk lf sz x b [D|I]; rewrite ign_arr_eq; [eapply gives_bind; [exact (doomed_next b (fun _ => False) D)|]; intros a []|].
      eapply gives_bind; [exact (next_inner _ _ _ _ _ _ I)|]. intros [t b1] [L|E]; cbn [fst snd] in *.
      + assert (Fi := leaves_finish BArray 4 stk lf sz x t b1 ltac:(discriminate) (or_intror eq_refl) L). destruct L as [-> _]. cbn [endtok]. now apply gives_ok.
      + destruct E as (stk' & lf' & sz' & ty & x' & O & Nx).
        destruct t; try none.
        * eapply gives_bind; [exact (OM _ _ _ _ _ _ O)|]. intros b2 Fi. exact (IA _ _ _ _ _ (Nx b2 Fi)).
        * eapply gives_bind; [exact (OA _ _ _ _ _ _ O)|]. intros b2 Fi. exact (IA _ _ _ _ _ (Nx b2 Fi)).
        * destruct O as [[_ [H|H]]|[]]; discriminate H.
        * eapply gives_bind; [exact (OI _ _ _ _ _ _ O)|]. intros b2 Fi. exact (IA _ _ _ _ _ (Nx b2 Fi)).
  Qed.

  (** The readers. *)
  Notation E0 := TokError.
  Definition ready (stk : list bcont) (lf sz : list Z) (ty : Z) (x : bytes) (p : pst bparser) : Prop :=
    gives (fun r => exists b, snd r = mkPst b E0 E0 /\ opened stk lf sz ty x (fst r) b) (getToken ops p).
  Definition ended (stk : list bcont) (lf sz : list Z) (ty : Z) (x : bytes) (p : pst bparser) : Prop := exists b, p = mkPst b E0 E0 /\ finish stk lf sz ty x b.
  Definition reads {A} (f : pst bparser -> outcome (A * pst bparser)) : Prop := forall stk lf sz ty x p, ready stk lf sz ty x p -> gives (fun r => ended stk lf sz ty x (snd r)) (f p).
  Definition reader (d : dfun bparser) : Prop := forall v, reads (d_parse d v).
  Definition scans (scan : bytes -> val -> pst bparser -> option (outcome (val * pst bparser))) : Prop := forall stk lf sz ty x key v p, ready stk lf sz ty x p ->
    match scan key v p with Some r => gives (fun r => ended stk lf sz ty x (snd r)) r | None => True end.

  Lemma token_clean : forall b, getToken ops (mkPst b E0 E0) = lift bson_next (mkPst b E0 E0).
  Proof. intro b. unfold getToken. cbn [ps_pb1 ps_pb2 token_eqb negb]. now rewrite O_next. Qed.
  Lemma ready_pending : forall stk lf sz ty x b, pending stk lf sz ty x b -> ready stk lf sz ty x (mkPst b E0 E0).
  Proof.
    intros stk lf sz ty x b P. unfold ready. rewrite token_clean. unfold lift. cbn [ps_impl ps_pb1 ps_pb2]. eapply gives_bind; [exact (pending_next _ _ _ _ _ _ _ P)|].
    intros [t b1] O. cbn [fst snd] in O. apply gives_ok. exists b1. auto.
  Qed.
  Lemma ready_pushed : forall stk lf sz ty x t b, opened stk lf sz ty x t b -> ready stk lf sz ty x (pushBackToken t (mkPst b E0 E0)).
  Proof.
    intros stk lf sz ty x t b O. unfold ready, pushBackToken, getToken. cbn [ps_pb1 ps_pb2 token_eqb negb ps_impl].
    assert (Nt : token_eqb t TokError = false) by (destruct O as [[_ [->| ->]]|O]; [reflexivity|reflexivity|destruct t; try reflexivity; destruct O]). rewrite Nt. cbn [negb]. apply gives_ok. exists b. auto.
  Qed.

  Lemma value_reads : forall {A} (rd : bparser -> outcome (A * bparser)) mk, scalar_op rd -> reads (read_value ops rd mk).
  Proof.
    intros A rd mk H stk lf sz ty x p R. unfold read_value. eapply gives_bind; [exact R|]. intros [t p1] (b & Ep & O). cbn [fst snd ps_impl] in *. subst p1. destruct t; try none.
    unfold lift. cbn [ps_impl ps_pb1 ps_pb2]. eapply gives_bind; [eapply gives_bind; [exact (H _ _ _ _ _ _ O)|]|].
    - intros [a b1] Fi. apply gives_ok. instantiate (1 := fun r => ended stk lf sz ty x (snd r)). exists b1. auto.
    - intros [a p2] Fi. apply gives_ok. exact Fi.
  Qed.
  Lemma obj_reads : forall scan, scans scan -> forall n v found stk lf sz x b, inside' BMap stk lf sz x b -> gives (fun r => ended stk lf sz 3 x (snd r)) (obj_loop ops F m n scan v found (mkPst b E0 E0)).
  Proof.
    intros scan Hs n. induction n as [|n IH]; intros v found stk lf sz x b I; [none|]. cbn [obj_loop]. rewrite token_clean. unfold lift at 1. cbn [ps_impl ps_pb1 ps_pb2].
    destruct I as [D|I]; [intros r E; exfalso; destruct (bson_next b) as [[t b1]| | |] eqn:N; try discriminate E; exact (doomed_next b (fun _ => False) D _ N)|].
    eapply gives_bind; [eapply gives_bind; [exact (next_inner _ _ _ _ _ _ I)|]|].
    - intros [t b1] H. apply gives_ok. instantiate (1 := fun r => exists b1, snd r = mkPst b1 E0 E0 /\ (leaves BMap stk lf sz x (fst r) b1 \/ enters BMap stk lf sz x (fst r) b1)). exists b1. auto.
    - intros [t p1] (b1 & Ep & [L|E]); cbn [fst snd] in *; subst p1.
      + assert (Fi := leaves_finish BMap 3 stk lf sz x t b1 ltac:(discriminate) (or_introl eq_refl) L). destruct L as [-> _]. cbn [endtok]. apply gives_ok. exists b1. auto.
      + destruct E as (stk' & lf' & sz' & ty & x' & [-> P] & Nx). rewrite O_key. unfold lift at 1. cbn [bind ps_impl ps_pb1 ps_pb2].
        assert (Rd := ready_pending _ _ _ _ _ _ P). assert (G := Hs stk' lf' sz' ty x' (b_key b1) v _ Rd). destruct (scan (b_key b1) v _) as [r|].
        * eapply gives_bind; [exact G|]. intros [v' p2] (b2 & Ep & Fi). cbn [fst snd ps_impl] in *. subst p2. apply IH. exact (Nx b2 Fi).
        * unfold ignoreValue. destruct m eqn:M; try none. unfold lift_. cbn [ps_impl ps_pb1 ps_pb2].
          eapply gives_bind; [eapply gives_bind; [exact (proj1 (skip_gives (Hm eq_refl) F) _ _ _ _ _ _ (pending_next _ _ _ _ _ _ _ P))|]|].
          -- intros b2 Fi. apply gives_ok. instantiate (1 := fun p => exists b2, p = mkPst b2 E0 E0 /\ inside' BMap stk lf sz x b2). exists b2. split; [reflexivity|]. exact (Nx b2 Fi).
          -- intros p2 (b2 & -> & I2). apply IH. exact I2.
  Qed.
  Lemma obj_doomed : forall scan n v found b Q, doomed b -> gives Q (obj_loop ops F m n scan v found (mkPst b E0 E0)).
  Proof.
    intros scan n v found b Q D. destruct n as [|n]; [none|]. cbn [obj_loop]. rewrite token_clean. unfold lift at 1. cbn [ps_impl ps_pb1 ps_pb2].
    intros r E. exfalso. destruct (bson_next b) as [[t b1]| | |] eqn:N; try discriminate E. exact (doomed_next b (fun _ => False) D _ N).
  Qed.
  Lemma map_reads : forall req scan v, scans scan -> reads (read_map ops F m req scan v).
  Proof.
    intros req scan v Hs stk lf sz ty x p R. unfold read_map. eapply gives_bind; [exact R|]. intros [t p1] (b & Ep & O). cbn [fst snd ps_impl] in *. subst p1. destruct t; try none.
    assert (G : gives (fun r => ended stk lf sz ty x (snd r)) (obj_loop ops F m F scan v [] (mkPst b E0 E0))).
    { destruct O as [[D _]|(-> & _ & I)]; [now apply obj_doomed|]. apply obj_reads; [exact Hs|now right]. }
    eapply gives_bind; [exact G|]. intros [[v' found] p2] En. cbn [snd] in En. destruct m; try (apply gives_ok; exact En). destruct (forallb _ req); [apply gives_ok; exact En|none].
  Qed.
  Lemma arr_reads : forall elem, (forall i v, reads (elem i v)) -> forall n i v stk lf sz x b, inside' BArray stk lf sz x b -> gives (fun r => ended stk lf sz 4 x (snd r)) (arr_loop ops n elem i v (mkPst b E0 E0)).
  Proof.
    intros elem He n. induction n as [|n IH]; intros i v stk lf sz x b I; [none|]. cbn [arr_loop]. rewrite token_clean. unfold lift at 1. cbn [ps_impl ps_pb1 ps_pb2].
    destruct I as [D|I]; [intros r E; exfalso; destruct (bson_next b) as [[t b1]| | |] eqn:N; try discriminate E; exact (doomed_next b (fun _ => False) D _ N)|].
    eapply gives_bind; [eapply gives_bind; [exact (next_inner _ _ _ _ _ _ I)|]|].
    - intros [t b1] H. apply gives_ok. instantiate (1 := fun r => exists b1, snd r = mkPst b1 E0 E0 /\ (leaves BArray stk lf sz x (fst r) b1 \/ enters BArray stk lf sz x (fst r) b1)). exists b1. auto.
    - intros [t p1] (b1 & Ep & [L|E]); cbn [fst snd] in *; subst p1.
      + assert (Fi := leaves_finish BArray 4 stk lf sz x t b1 ltac:(discriminate) (or_intror eq_refl) L). destruct L as [-> _]. cbn [endtok]. apply gives_ok. exists b1. auto.
      + destruct E as (stk' & lf' & sz' & ty & x' & O & Nx).
        assert (G : gives (fun r => ended stk lf sz 4 x (snd r)) (do (v', p) <- elem i v (pushBackToken t (mkPst b1 E0 E0)); arr_loop ops n elem (Datatypes.S i) v' p)).
        { eapply gives_bind; [exact (He i v _ _ _ _ _ _ (ready_pushed _ _ _ _ _ _ _ O))|]. intros [v' p2] (b2 & Ep & Fi). cbn [fst snd ps_impl] in *. subst p2. apply IH. exact (Nx b2 Fi). }
        destruct O as [[_ [->| ->]]|O]; [exact G|exact G|]. destruct t; try exact G. destruct O.
  Qed.
  Lemma array_reads : forall elem v, (forall i v, reads (elem i v)) -> reads (read_array ops F elem v).
  Proof.
    intros elem v He stk lf sz ty x p R. unfold read_array. eapply gives_bind; [exact R|]. intros [t p1] (b & Ep & O). cbn [fst snd ps_impl] in *. subst p1. destruct t; try none.
    destruct O as [[_ [H|H]]|(-> & _ & I)]; try discriminate H. apply arr_reads; [exact He|now right].
  Qed.
  Lemma reads_bind : forall {A B} (f : pst bparser -> outcome (A * pst bparser)) (g : A -> outcome B), reads f -> reads (fun p => do (a, p) <- f p; do b <- g a; Ok (b, p)).
  Proof. intros A B f g H stk lf sz ty x p R. eapply gives_bind; [exact (H _ _ _ _ _ _ R)|]. intros [a p1] En. cbn [snd] in En. destruct (g a); cbn [bind]; try none. now apply gives_ok. Qed.
  Lemma reads_map : forall {A B} (f : pst bparser -> outcome (A * pst bparser)) (g : A -> B), reads f -> reads (fun p => do (a, p) <- f p; Ok (g a, p)).
  Proof. intros A B f g H stk lf sz ty x p R. eapply gives_bind; [exact (H _ _ _ _ _ _ R)|]. intros [a p1] En. now apply gives_ok. Qed.

  Lemma pointer_reads : forall rest, reads rest -> reads (read_pointer ops rest).
  Proof.
    intros rest H stk lf sz ty x p R. unfold read_pointer. eapply gives_bind; [exact R|]. intros [t p1] (b & Ep & O). cbn [fst snd ps_impl] in *. subst p1. rewrite O_null. cbn [ps_impl].
    destruct (Z.eqb_spec (b_type b) 10) as [T|]; [|exact (H _ _ _ _ _ _ (ready_pushed _ _ _ _ _ _ _ O))].
    unfold lift_. cbn [ps_impl ps_pb1 ps_pb2]. rewrite O_ignore.
    assert (G : gives (finish stk lf sz ty x) (bson_ignore b)).
    { destruct O as [[D _]|O]; [apply null_op; [left; auto|exact T]|]. destruct t; try (destruct O; fail); [destruct O as (_ & Nt & _); contradiction|destruct O as (_ & Nt & _); contradiction|]. apply null_op; [right; exact O|exact T]. }
    eapply gives_bind; [eapply gives_bind; [exact G|]|].
    - intros b1 Fi. apply gives_ok. instantiate (1 := ended stk lf sz ty x). exists b1. auto.
    - intros p2 En. now apply gives_ok.
  Qed.
  (** The name of the class; the rest of the object is read again, but for its first member. *)
  Lemma class_reads : forall stk lf sz ty x p, ready stk lf sz ty x p ->
    gives (fun r => exists b, snd r = mkPst b TokMapStart E0 /\ ready stk lf sz ty x (snd r) /\ inside' BMap stk lf sz x b) (read_class_name ops marker p).
  Proof.
    intros stk lf sz ty x p R. unfold read_class_name. eapply gives_bind; [exact R|]. intros [t p1] (b & Ep & O). cbn [fst snd ps_impl] in *. subst p1. destruct t; try none.
    rewrite token_clean. unfold lift at 1. cbn [ps_impl ps_pb1 ps_pb2]. destruct O as [[D _]|(-> & _ & I)].
    { intros r E. exfalso. destruct (bson_next b) as [[t b1]| | |] eqn:N; try discriminate E. exact (doomed_next b (fun _ => False) D _ N). }
    eapply gives_bind; [eapply gives_bind; [exact (next_inner _ _ _ _ _ _ I)|]|].
    { intros [t b1] H. apply gives_ok. instantiate (1 := fun r => exists b1, snd r = mkPst b1 E0 E0 /\ (leaves BMap stk lf sz x (fst r) b1 \/ enters BMap stk lf sz x (fst r) b1)). exists b1. auto. }
    intros [t p1] (b1 & Ep & [L|E]); cbn [fst snd] in *; subst p1; [destruct L as [-> _]; none|]. destruct E as (stk' & lf' & sz' & ty & x' & [-> P] & Nx). rewrite O_key. unfold lift at 1. cbn [bind ps_impl ps_pb1 ps_pb2].
    destruct (beq (b_key b1) marker); [|none]. eapply gives_bind; [exact (ready_pending _ _ _ _ _ _ P)|]. intros [t p2] (b2 & Ep & O). cbn [fst snd ps_impl] in *. subst p2. destruct t; try none.
    rewrite O_str. unfold lift. cbn [ps_impl ps_pb1 ps_pb2].
    assert (T2 : gives (fun r => b_type (snd r) = 2 \/ doomed (snd r)) (bson_str b2)).
    { intros [c b3] Ec. assert (T : b_type b2 = 2) by (unfold bson_str in Ec; destruct (Z.eqb_spec (b_type b2) 2); [assumption|discriminate Ec]). cbn [snd]. left. unfold bson_str in Ec. rewrite T in Ec. cbn [Z.eqb Pos.eqb] in Ec.
      destruct (b_readLE 4 b2) as [[z b4]| | |] eqn:R1; try discriminate Ec. cbn [bind] in Ec. destruct (b_use 4 b4) as [b5| | |] eqn:R2; try discriminate Ec. cbn [bind] in Ec. destruct (z <=? 0); [discriminate Ec|].
      destruct (b_read (Z.to_nat z) b5) as [[got b6]| | |] eqn:R3; try discriminate Ec. cbn [bind] in Ec. destruct (src_ok (b_src b6)); [|discriminate Ec]. destruct (b_use z b6) as [b7| | |] eqn:R4; try discriminate Ec. injection Ec as _ <-.
      assert (U : forall n b b', b_use n b = Ok b' -> b_type b' = b_type b) by (intros n c0 c1 Eu; destruct (use_gives n c0 c1 Eu) as (l & r & _ & ->); reflexivity).
      assert (Rd : forall n b g b', b_read n b = Ok (g, b') -> b_type b' = b_type b) by (intros n c0 g c1 Er; unfold b_read in Er; destruct (src_read (b_src c0) n) as [[? ?]| | |]; try discriminate Er; cbn [bind] in Er; injection Er as _ <-; reflexivity).
      rewrite (U _ _ _ R4), (Rd _ _ _ _ R3), (U _ _ _ R2). unfold b_readLE in R1. destruct (b_read 4 b2) as [[g b8]| | |] eqn:R5; try discriminate R1. cbn [bind] in R1. destruct (Nat.eqb _ _); [|discriminate R1]. injection R1 as _ <-. now rewrite (Rd _ _ _ _ R5). }
    eapply gives_bind; [eapply gives_bind|].
    - intros r Er. exact (conj (str_op _ _ _ _ _ _ O r Er) (T2 r Er)).
    - intros [c b3] [Fi Ht]. cbn [snd] in Fi, Ht. apply gives_ok.
      instantiate (1 := fun r => exists b3, snd r = mkPst b3 E0 E0 /\ inside' BMap stk lf sz x b3 /\ (b_type b3 = 2 \/ doomed b3)). exists b3. split; [reflexivity|]. split; [exact (Nx b3 Fi)|exact Ht].
    - intros [c p3] (b3 & Ep & I3 & Ht). cbn [snd] in Ep. subst p3. apply gives_ok. cbn [snd]. exists b3. split; [reflexivity|]. split; [|exact I3]. apply ready_pushed.
      destruct I3 as [D|I3]; [left; auto|]. destruct Ht as [Ht|D]; [|left; auto]. right. split; [reflexivity|]. split; [rewrite Ht; discriminate|exact I3].
  Qed.
  Lemma class_skip : forall stk lf sz x b Q, inside' BMap stk lf sz x b -> gives Q (ignoreValue ops m F (mkPst b TokMapStart E0)).
  Proof.
    intros stk lf sz x b Q I. unfold ignoreValue. destruct m; try none. unfold lift_. cbn [ps_impl ps_pb1 ps_pb2]. apply (gives_bind (fun _ => False)); [|intros a []]. destruct F as [|f]; [none|]. rewrite ign_value_eq. destruct I as [D|I]; [eapply gives_bind; [exact (doomed_next b (fun _ => False) D)|]; intros a []|].
    eapply gives_bind; [exact (next_inner _ _ _ _ _ _ I)|]. intros [t b1] [[L _]|E]; cbn [fst snd] in *; [subst t; none|]. destruct E as (stk' & lf' & sz' & ty & x' & [-> _] & _). none.
  Qed.

  Definition D (t : ty) : dfun bparser := deser ops F m marker t.
  Definition list_reads {A} (r : option (outcome (A * pst bparser))) (stk : list bcont) (lf sz : list Z) (ty : Z) (x : bytes) : Prop :=
    match r with Some r => gives (fun r => ended stk lf sz ty x (snd r)) r | None => True end.
  Lemma members_read : forall ds, Forall reader ds -> forall ns vs key stk lf sz ty x p, ready stk lf sz ty x p -> list_reads (scan_members ns ds vs key p) stk lf sz ty x.
  Proof.
    intros ds H. induction H as [|d ds Hd Hds IH]; intros ns vs key stk lf sz ty x p R; cbn [scan_members].
    - destruct ns, vs; cbn; try none; exact Logic.I.
    - destruct ns as [|n ns]; [cbn; none|]. destruct vs as [|v vs]; [cbn; none|]. cbn [scan_members]. destruct (beq key n).
      + cbn. exact (reads_map (d_parse d v) (fun v' => v' :: vs) (Hd v) _ _ _ _ _ _ R).
      + assert (G := IH ns vs key _ _ _ _ _ _ R). destruct (scan_members ns ds vs key p) as [r|]; [|exact Logic.I]. cbn in *. eapply gives_bind; [exact G|]. intros [l p1] En. now apply gives_ok.
  Qed.
  Lemma parents_read : forall ds, Forall (fun d => scans (d_scan d)) ds -> forall vs key stk lf sz ty x p, ready stk lf sz ty x p -> list_reads (scan_parents ds vs key p) stk lf sz ty x.
  Proof.
    intros ds H. induction H as [|d ds Hd Hds IH]; intros vs key stk lf sz ty x p R; cbn [scan_parents].
    - destruct vs; cbn; try none; exact Logic.I.
    - destruct vs as [|v vs]; [cbn; none|]. cbn [scan_parents]. assert (G := Hd stk lf sz ty x key v p R). destruct (d_scan d key v p) as [r|].
      + cbn. eapply gives_bind; [exact G|]. intros [l p1] En. now apply gives_ok.
      + assert (G2 := IH vs key _ _ _ _ _ _ R). destruct (scan_parents ds vs key p) as [r|]; [|exact Logic.I]. cbn in *. eapply gives_bind; [exact G2|]. intros [l p1] En. now apply gives_ok.
  Qed.
  Lemma nth_deser : forall cs i t d, nth_error cs i = Some t -> nth_error (map D cs) i = Some d -> d = D t.
  Proof. intros cs i t d E1 E2. rewrite (map_nth_error D i cs E1) in E2. congruence. Qed.

  Theorem deser_reads : forall t, reader (D t) /\ scans (d_scan (D t)).
  Proof.
    assert (U : scans (fun _ _ _ => Some UB)) by (intros stk lf sz ty x key v p _; none).
    assert (Fx : forall ds, Forall reader ds -> forall i v, reads (elem_fixed ds i v)).
    { intros ds Hd i v stk lf sz ty x p R. unfold elem_fixed. destruct v; try none. destruct (nth_error ds i) as [d|] eqn:N; [|none]. destruct (nth_error l i) as [w|]; [|none].
      assert (Hw := proj1 (Forall_forall _ _) Hd d (nth_error_In _ _ N)). exact (reads_map _ (fun x' => VList (set_nth i x' l)) (Hw w) _ _ _ _ _ _ R). }
    assert (Vr : forall cs (wrap : nat -> val -> val) (other : bytes -> pst bparser -> outcome (val * pst bparser)), Forall (fun t => reader (D t) /\ scans (d_scan (D t))) cs ->
      (forall c stk lf sz ty x b, inside' BMap stk lf sz x b -> gives (fun r => ended stk lf sz ty x (snd r)) (other c (mkPst b TokMapStart E0))) ->
      reads (fun p => do (c, p) <- read_class_name ops marker p;
               match find_class cs c with
               | Some k => match nth_error cs k, nth_error (map D cs) k with
                           | Some tk, Some d => do (x, p) <- d_parse d (default tk) p; Ok (wrap k x, p)
                           | _, _ => UB
                           end
               | None => other c p
               end)).
    { intros cs wrap other Hc Ho stk lf sz ty x p R. eapply gives_bind; [exact (class_reads _ _ _ _ _ _ R)|]. intros [c p1] (b & Ep & R1 & I). cbn [snd] in *. subst p1.
      destruct (find_class cs c) as [kk|]; [|now apply Ho]. destruct (nth_error cs kk) as [tk|] eqn:E1; [|none]. destruct (nth_error (map D cs) kk) as [d|] eqn:E2; [|none].
      rewrite (nth_deser cs kk tk d E1 E2). destruct (proj1 (Forall_forall _ _) Hc tk (nth_error_In _ _ E1)) as [A _]. exact (reads_map _ (wrap kk) (A (default tk)) _ _ _ _ _ _ R1). }
    intro t. induction t using ty_ind'; cbn [D deser d_parse d_scan].
    - split; [|exact U]. intro v. apply value_reads. exact (O_int i).
    - split; [|exact U]. intro v. apply value_reads. rewrite O_bool. exact bool_op.
    - split; [|exact U]. intro v. apply value_reads. rewrite O_str. exact str_op.
    - split; [|exact U]. intros v stk lf sz ty x p R. cbn [d_parse]. eapply gives_bind; [apply (value_reads (op_str ops) VStr); [rewrite O_str; exact str_op|exact R]|]. intros [w p1] En. cbn [snd] in En. destruct w; try none.
      destruct (enum_value l s); [now apply gives_ok|none].
    - destruct IHt as [A B]. split; [|exact U]. intro v. apply array_reads. intros i w stk lf sz ty x p R. unfold elem_vec. destruct w; try none. exact (reads_map _ (fun x => VList (seq_add co l x)) (A (default t)) _ _ _ _ _ _ R).
    - destruct IHt as [A B]. split; [|exact U]. intro v. apply array_reads. apply Fx. apply Forall_forall. intros d Hd. apply repeat_spec in Hd. now subst d.
    - split; [|exact U]. intro v. apply array_reads. apply Fx. apply Forall_map. eapply Forall_impl; [|exact H]. intros a [A _]. exact A.
    - destruct IHt as [A B]. assert (Sc : scans (scan_map b (D t) (default t))).
      { intros stk lf sz ty x key v p R. unfold scan_map. destruct v; try none. destruct b.
        - exact (reads_map _ (fun x => VMap (match map_find key l with Some _ => l | None => map_set key x l end)) (A (default t)) _ _ _ _ _ _ R).
        - exact (reads_map _ (fun x => VMap (map_set key x l)) (A _) _ _ _ _ _ _ R).
        - exact (reads_map _ (fun x => VMap (map_add key x l)) (A (default t)) _ _ _ _ _ _ R). }
      split; [|exact Sc]. intro v. now apply map_reads.
    - destruct IHt as [A B]. split; [|exact U]. intro v. apply pointer_reads. exact (reads_map _ (fun x => VPtr (Some x)) (A (default t))).
    - destruct IHt as [A B]. split; [|exact U]. intros v stk lf sz ty x p R. cbn [d_parse]. destruct v; try none. exact (reads_map _ (fun x => VOpt (Some x)) (A _) _ _ _ _ _ _ R).
    - assert (Sc : scans (scan_struct i (map D ms) (map D ps))).
      { intros stk lf sz ty x key v p R. unfold scan_struct. destruct v as [z|b|b|b|b|b|b|own par|b b']; try none.
        assert (P1 := parents_read (map D ps) ltac:(apply Forall_map; eapply Forall_impl; [|exact H0]; intros a [_ X]; exact X) par key _ _ _ _ _ _ R). destruct (scan_parents (map D ps) par key p) as [r|].
        - cbn in *. eapply gives_bind; [exact P1|]. intros [l p1] En. now apply gives_ok.
        - assert (P2 := members_read (map D ms) ltac:(apply Forall_map; eapply Forall_impl; [|exact H]; intros a [X _]; exact X) (map (nameOverride i) (si_names i)) own key _ _ _ _ _ _ R).
          destruct (scan_members _ (map D ms) own key p) as [r|]; [|exact Logic.I]. cbn in *. eapply gives_bind; [exact P2|]. intros [l p1] En. now apply gives_ok. }
      split; [|exact Sc]. intro v. now apply map_reads.
    - split; [|exact U]. intro v. apply pointer_reads. apply (Vr cs (fun k x => VPtr (Some (VVar k x))) (fun c p => if existsb (beq c) o then UB else Throw) H). intros. destruct (existsb (beq c) o); none.
    - split; [|exact U]. intro v. apply (Vr cs VVar (fun c p => do p <- ignoreValue ops m F p; Ok (v, p)) H). intros c stk lf sz ty x b I. eapply gives_bind; [exact (class_skip _ _ _ _ _ (fun _ => False) I)|]. intros a [].
  Qed.

  (** The whole import. *)
  Lemma live_text : at_ (src_init k text) text.
  Proof. split; [|reflexivity]. repeat split; cbn; auto. lia. Qed.
  Theorem try_accepts : forall cfg t v v' s', pc_strict cfg = m -> pc_marker cfg = marker -> try_with ops F cfg t v (src_init k text) = Ok (v', s') ->
    exists doc rest, text = doc ++ rest /\ bson_accepted_document weak (match bson_root t with BValue => true | _ => false end) doc /\
      if pc_noTrailing cfg then blank rest else s_rest s' = rest.
  Proof.
    intros cfg t v v' s' Em Ek E. unfold try_with in E. rewrite Em, Ek in E. unfold pst_init in E. rewrite token_clean in E. unfold lift in E. cbn [ps_impl ps_pb1 ps_pb2] in E.
    set (root := bson_root t) in *. destruct (bson_next (b_init root (src_init k text))) as [[tk b1]| | |] eqn:N; try discriminate E. cbn [bind] in E.
    destruct tk; try discriminate E.
    assert (Rd : d_parse (deser ops F m marker t) = d_parse (D t)) by reflexivity. rewrite Rd in E. clear Rd. destruct (deser_reads t) as [Hr _].
    assert (Tr : forall s s1 x, at_ s x -> check_trailing (pc_noTrailing cfg) s = Ok s1 -> if pc_noTrailing cfg then dead s1 /\ blank x else s1 = s).
    { intros s s1 x [V Rx] C. destruct (pc_noTrailing cfg); [|cbn in C; congruence]. destruct (trailing_live k text s s1 V C) as [Dd B]. split; [exact Dd|]. destruct V as (_ & Dt & _). rewrite <- Rx. unfold s_rest. now rewrite Dt. }
    assert (Ld : forall b b', doomed b -> forall s1, check_trailing (pc_noTrailing cfg) (b_src b) = Ok s1 -> bson_next (bset_src b s1) <> Ok (TokDocEnd, b')).
    { intros b b' (Dd & K) s1 C Q. apply (doomed_next (bset_src b s1) (fun _ => False)) in Q; [exact Q|]. split; [|exact K]. cbn [bset_src b_src]. destruct (pc_noTrailing cfg); [exact (trailing_dead _ _ Dd C)|cbn in C; congruence]. }
    assert (Frame : forall ty, ty = 3 \/ ty = 4 -> bson_root t <> BValue -> ready [] [] [] ty text (mkPst b1 E0 E0) -> exists doc rest, text = doc ++ rest /\ bson_accepted_document weak false doc /\ if pc_noTrailing cfg then blank rest else s_rest s' = rest).
    { intros ty Hty Nv R. destruct (d_parse (D t) v _) as [[w p]| | |] eqn:E2; try discriminate E. cbn [bind] in E. destruct (Hr v _ _ _ _ _ _ R _ E2) as (b2 & Ep & Fi). cbn [snd] in Ep. subst p. cbn [ps_impl ps_pb1 ps_pb2] in E.
      destruct (check_trailing (pc_noTrailing cfg) (b_src b2)) as [s1| | |] eqn:C; try discriminate E. cbn [bind] in E. rewrite token_clean in E. unfold lift in E. cbn [ps_impl ps_pb1 ps_pb2] in E.
      destruct Fi as [Dm|(d & x & Ex & Ac & A & N2 & Sk & St)].
      - exfalso. destruct (bson_next (bset_src b2 s1)) as [[tk b3]| | |] eqn:N3; try discriminate E. cbn [bind] in E. destruct tk; try discriminate E. exact (Ld b2 b3 Dm s1 C N3).
      - assert (N3 : bson_next (bset_src b2 s1) = Ok (TokDocEnd, bset_next (bset_src b2 s1) TokError)) by (unfold bson_next, next_with; cbn [bset_src b_skip b_next b_stack]; rewrite Sk; cbn [bind bset_src b_next b_stack]; rewrite N2, St; reflexivity).
        rewrite N3 in E. cbn [bind bset_next bset_src b_src ps_impl] in E. injection E as _ <-. exists d, x. split; [exact Ex|]. split.
        + inversion Ac as [? ? Q|? ? ? Q|? e ? Q1 Q2 Q3]; subst; [inversion Q; subst; destruct Hty as [Hx|Hx]; discriminate Hx|inversion Q; subst; destruct Hty as [Hx|Hx]; discriminate Hx|]. apply (bad_intro weak false e); [exact Q2|exact Q3|discriminate].
        + assert (T := Tr _ _ _ A C). destruct (pc_noTrailing cfg); [exact (proj2 T)|]. subst s1. exact (proj2 A). }
    assert (Rt : forall c ty, (ty = 3 /\ c = BMap) \/ (ty = 4 /\ c = BArray) -> root = c -> ready [] [] [] ty text (mkPst b1 E0 E0)).
    { intros c ty Hc Er. unfold ready. rewrite token_clean. unfold lift. cbn [ps_impl ps_pb1 ps_pb2]. rewrite Er in N.
      assert (Eb : b1 = bset_next (b_init c (src_init k text)) (match c with BMap => TokMapStart | _ => TokArrayStart end)) by (destruct Hc as [[_ ->]|[_ ->]]; cbn in N; congruence).
      eapply gives_bind; [apply (starts _ [] [] [] ty text b1); rewrite ?Eb; try reflexivity; [exact live_text|exact Hsize|cbn; lia|destruct Hc as [[-> ->]|[-> ->]]; auto]|].
      intros [tk b2] O. cbn [fst snd] in O. apply gives_ok. exists b2. auto. }
    destruct root eqn:Er.
    - apply (Frame 3); [auto|unfold root in Er; congruence|apply (Rt BMap); auto].
    - apply (Frame 4); [auto|unfold root in Er; congruence|apply (Rt BArray); auto].
    - clear Frame Rt. unfold bson_next, next_with in N. cbn [b_init b_skip b_next b_stack bind] in N.
      match type of N with context [startContainer ?bb] => destruct (startContainer bb) as [b2| | |] eqn:N2; try discriminate N; assert (G := start_gives bb text live_text _ N2) end. cbn [bind] in N. injection N as <-.
      destruct G as (lb & x' & Ex & L & Q1 & Q2 & A1 & Sh & Nx & _ & Sk). cbn in Sh, Nx, Sk.
      assert (I : innerE BValue [BValue] [] [] text [] b2).
      { exists lb, x'. unfold len at 1. cbn [length app]. rewrite Z.sub_0_r. split; [exact Ex|]. split; [exact L|]. split; [exact Q1|]. split; [exact Q2|]. split; [constructor|]. split; [exact Sh|]. split; [right; auto|]. split; [exact A1|exact Hsize]. }
      assert (R : exists stk' lf' sz' ty x1, ready stk' lf' sz' ty x1 (mkPst b2 E0 E0) /\ forall b', finish stk' lf' sz' ty x1 b' -> doomed b' \/ grown BValue [BValue] [] [] text [] b').
      { unfold ready. rewrite token_clean. unfold lift. cbn [ps_impl ps_pb1 ps_pb2]. assert (G := next_element _ _ _ _ _ _ _ I Sk Nx). destruct (bson_next b2) as [[t3 b3]| | |].
        - destruct (G _ eq_refl) as (stk' & lf' & sz' & ty & x1 & O & Fn). cbn [fst snd] in O. exists stk', lf', sz', ty, x1. split; [|exact Fn]. cbn [bind]. apply gives_ok. exists b3. auto.
        - exists [], [], [], 0, []. split; [none|]. intros b' [Dm|(d & x & _ & Ac & _)]; [now left|]. exfalso. inversion Ac as [? ? Q|? ? ? Q|? ? ? [Q|Q] _]; [inversion Q|inversion Q|discriminate Q|discriminate Q].
        - exists [], [], [], 0, []. split; [none|]. intros b' [Dm|(d & x & _ & Ac & _)]; [now left|]. exfalso. inversion Ac as [? ? Q|? ? ? Q|? ? ? [Q|Q] _]; [inversion Q|inversion Q|discriminate Q|discriminate Q].
        - exists [], [], [], 0, []. split; [none|]. intros b' [Dm|(d & x & _ & Ac & _)]; [now left|]. exfalso. inversion Ac as [? ? Q|? ? ? Q|? ? ? [Q|Q] _]; [inversion Q|inversion Q|discriminate Q|discriminate Q]. }
      destruct R as (stk' & lf' & sz' & ty & x1 & R & Fn).
      destruct (d_parse (D t) v _) as [[w p]| | |] eqn:E2; try discriminate E. cbn [bind] in E. destruct (Hr v _ _ _ _ _ _ R _ E2) as (b3 & Ep & Fi). cbn [snd] in Ep. subst p. cbn [ps_impl ps_pb1 ps_pb2] in E.
      destruct (check_trailing (pc_noTrailing cfg) (b_src b3)) as [s1| | |] eqn:C; try discriminate E. cbn [bind] in E. rewrite token_clean in E. unfold lift in E. cbn [ps_impl ps_pb1 ps_pb2] in E.
      destruct (bson_next (bset_src b3 s1)) as [[tk b4]| | |] eqn:N3; try discriminate E. cbn [bind] in E. destruct tk; try discriminate E. injection E as _ <-. cbn [ps_impl].
      destruct (Fn b3 Fi) as [Dm|(ty' & name & d & Nn & Ac & I3)]; [exfalso; exact (Ld b3 b4 Dm s1 C N3)|].
      assert (A3 : exists x3, at_ (b_src b3) x3) by (destruct I3 as (? & x3 & ? & ? & ? & ? & ? & ? & ? & A3 & _); eauto). destruct A3 as (x3 & A3). assert (T := Tr _ _ _ A3 C). destruct (pc_noTrailing cfg).
      + (* the trailing data check has read everything *)
        exfalso. destruct T as [Dd _]. destruct I3 as (lb3 & x4 & _ & _ & _ & _ & _ & (S1 & S2 & S3) & Id & _). eapply (dead_next (bset_src b3 s1)); [exact Dd| |exact N3]. intros _. eexists. cbn [bset_src b_stack]. exact S1.
      + subst s1. assert (Eb : bset_src b3 (b_src b3) = b3) by (destruct b3; reflexivity). rewrite Eb in N3. destruct (next_innerE _ _ _ _ _ _ _ I3 _ N3) as [Lv|En]; cbn [fst snd] in *.
        * destruct Lv as (_ & dd & xx & Ed & Es & Fr & A4). exists dd, xx. split; [exact Ed|]. split; [|exact (proj2 A4)]. apply (bad_intro weak true (ty' :: name ++ 0 :: d)); [exact Es|exact Fr|]. intros _. exists ty', name, d. auto.
        * exfalso. destruct En as (? & ? & ? & ? & ? & O & _). destruct O as [[_ [H|H]]|[]]; discriminate H.
  Qed.
  End Reader.
End Accept.

Definition fine_ops (o : parser_ops bparser) : Prop := o = bson_ops \/ o = bflt_ops.
Theorem accepts_document : forall o k fuel cfg t v text v' s', fine_ops o -> Forall (fun c => 0 <= c < 256) text -> len text < 2 ^ 63 ->
  (pc_strict cfg = Weak -> ~ negative_length text) -> try_with o fuel cfg t v (src_init k text) = Ok (v', s') ->
  exists doc rest, text = doc ++ rest /\
    bson_accepted_document (match pc_strict cfg with Weak => true | _ => false end) (match bson_root t with BValue => true | _ => false end) doc /\
    if pc_noTrailing cfg then blank rest else s_rest s' = rest.
Proof.
  intros o k fuel cfg t v text v' s' Ho Ht Hs Hn E.
  set (weak := match pc_strict cfg with Weak => true | _ => false end).
  assert (Hw : weak = true -> ~ negative_length text) by (unfold weak; destruct (pc_strict cfg); try discriminate; intros _; now apply Hn).
  assert (Oi : forall i, scalar_op k text weak (op_int o i)).
  { intros i. destruct Ho as [->| ->]; cbn [bson_ops bflt_ops op_int]; [now apply int_op|]. destruct (flt_of i) as [f|]; [now apply float_op|now apply int_op]. }
  assert (Om : pc_strict cfg = Weak -> weak = true) by (unfold weak; now intros ->).
  assert (G := try_accepts k text weak Ht Hs Hw o). 
  apply G with (F := fuel) (m := pc_strict cfg) (marker := pc_marker cfg) (v := v) (v' := v'); auto; destruct Ho as [->| ->]; reflexivity.
Qed.
