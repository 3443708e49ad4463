(** The document that the JSON printer writes for a value: the same for all configurations but for white space.
    [num]: what is written for a number (the decimal text of integers here; Proofs/FloatDocP.v has floats and doubles,
    Proofs/CustomP.v the types of the user). *)
From Coq Require Import ZArith String List Bool Lia ZifyBool.
From Verif Require Import Model.Base Model.Source Model.Number Model.Unicode Model.Printer Model.JsonPrinter Model.Types Model.Serializer Model.Exporter Model.Float
  Spec.JsonString Spec.Json Spec.Typed Spec.Import Spec.Denotes Proofs.Induct Proofs.UnicodeP Proofs.TypedP Proofs.DenotesP Proofs.PrintP.
Import ListNotations.
Open Scope Z_scope.

Record doc := mkDoc {
  dc_val : val -> outcome jv;
  dc_tagged : val -> outcome jv;
  dc_members : val -> outcome (list (bytes * jv))
}.
Definition plain_doc (f : val -> outcome jv) : doc := mkDoc f (fun _ => UB) (fun _ => UB).
Fixpoint all_ok {X} (l : list (outcome X)) : outcome (list X) :=
  match l with [] => Ok [] | o :: r => do x <- o; do l <- all_ok r; Ok (x :: l) end.
Fixpoint zip_ok (ds : list doc) (vs : list val) : outcome (list jv) :=
  match ds, vs with
  | [], [] => Ok []
  | d :: ds', v :: vs' => do j <- dc_val d v; do l <- zip_ok ds' vs'; Ok (j :: l)
  | _, _ => UB
  end.
Fixpoint own_ok (ns : list bytes) (opts : list bool) (ds : list doc) (vs : list val) : outcome (list (bytes * jv)) :=
  match ns, opts, ds, vs with
  | [], [], [], [] => Ok []
  | n :: ns', o :: os', d :: ds', v :: vs' =>
      do a <- (if keeps o v then do j <- dc_val d v; Ok [(n, j)] else Ok []);
      do b <- own_ok ns' os' ds' vs'; Ok (a ++ b)
  | _, _, _, _ => UB
  end.
Fixpoint par_ok (ds : list doc) (vs : list val) : outcome (list (bytes * jv)) :=
  match ds, vs with
  | [], [] => Ok []
  | d :: ds', v :: vs' => do a <- dc_members d v; do b <- par_ok ds' vs'; Ok (a ++ b)
  | _, _ => UB
  end.
Definition struct_ok (i : sinfo) (opts : list bool) (dm dp : list doc) (v : val) : outcome (list (bytes * jv)) :=
  match v with
  | VStruct own par =>
      do a <- own_ok (map (nameOverride i) (si_names i)) opts dm own; do b <- par_ok dp par; Ok (a ++ b)
  | _ => UB
  end.
Definition jstr (s : bytes) : jv := Scal (SStr (escapeString s)).

Notation int_num := (fun (_ : ity) (z : Z) => SNum (int_dec z)).
Notation int_chunk := (fun (_ : ity) (z : Z) => WrVal (int_dec z)).
(** [valid_here] with another condition on numbers. *)
Definition here (good : ity -> Z -> Prop) (t : ty) (v : val) : Prop :=
  match t, v with
  | TInt i, VInt z => good i z
  | TStr, VStr s => bytes_in s
  | TMap mk _, VMap l => ordered mk l /\ Forall (fun kv => bytes_in (fst kv)) l
  | TSeq co _, VList l => in_order co l
  | _, _ => True
  end.

Lemma escape_string : forall s, bytes_in s -> legal_string (escapeString s).
Proof. intros s H. exists s. apply escape_legal. exact H. Qed.
Lemma list_max_in : forall l n, In n l -> (n <= list_max l)%nat.
Proof.
  induction l as [|a l IH]; intros n H; [destruct H|]. change (list_max (a :: l)) with (Nat.max a (list_max l)).
  destruct H as [->|H]; [lia|]. specialize (IH n H). lia.
Qed.

Lemma all_of_nth : forall (P : ty -> Prop) ts i t, all_of (map P ts) -> nth_error ts i = Some t -> P t.
Proof. intros P ts i t H E. apply (all_of_In _ _ H), List.in_map. eauto using nth_error_In. Qed.

Section Doc.
  Context (num : ity -> Z -> jscal) (marker : bytes).
  Definition tag_of (i : sinfo) : list (bytes * jv) := [(marker, jstr (si_poly i))].
  Definition no_tag : list (bytes * jv) := [].
  Fixpoint doc_of (t : ty) : doc :=
    match t with
    | TInt i => plain_doc (fun v => match v with VInt z => Ok (Scal (num i z)) | _ => UB end)
    | TBool => plain_doc (fun v => match v with VBool b => Ok (Scal (if b then STrue else SFalse)) | _ => UB end)
    | TStr => plain_doc (fun v => match v with VStr s => Ok (jstr s) | _ => UB end)
    | TEnum l => plain_doc (fun v => match v with
                                     | VInt z => match enum_name l z with Some n => Ok (jstr n) | None => Throw end
                                     | _ => UB
                                     end)
    | TSeq _ t' => let d := doc_of t' in
        plain_doc (fun v => match v with VList l => do js <- all_ok (map (dc_val d) l); Ok (Arr js) | _ => UB end)
    | TArr n t' => let d := doc_of t' in
        plain_doc (fun v => match v with
                            | VList l => if Nat.eqb (List.length l) n then do js <- all_ok (map (dc_val d) l); Ok (Arr js) else UB
                            | _ => UB
                            end)
    | TTup ts => let ds := map doc_of ts in
        plain_doc (fun v => match v with VList l => do js <- zip_ok ds l; Ok (Arr js) | _ => UB end)
    | TMap _ t' => let d := doc_of t' in
        plain_doc (fun v => match v with
                            | VMap l => do es <- all_ok (map (fun kv => do j <- dc_val d (snd kv); Ok (fst kv, j)) l); Ok (Obj es)
                            | _ => UB
                            end)
    | TPtr t' => let d := doc_of t' in
        plain_doc (fun v => match v with VPtr None => Ok (Scal SNull) | VPtr (Some x) => dc_val d x | _ => UB end)
    | TOpt t' => let d := doc_of t' in
        plain_doc (fun v => match v with VOpt None => Throw | VOpt (Some x) => dc_val d x | _ => UB end)
    | TStruct i ms ps =>
        let members := struct_ok i (map opt_type ms) (map doc_of ms) (map doc_of ps) in
        mkDoc (fun v => do l <- (do a <- Ok (if si_mark i then tag_of i else no_tag); do b <- members v; Ok (a ++ b)); Ok (Obj l))
              (fun v => do l <- (do a <- Ok (tag_of i); do b <- members v; Ok (a ++ b)); Ok (Obj l))
              members
    | TPoly cs _ => let ds := map doc_of cs in
        plain_doc (fun v => match v with
                            | VPtr None => Ok (Scal SNull)
                            | VPtr (Some (VVar k x)) => match nth_error ds k with Some d => dc_tagged d x | None => UB end
                            | _ => UB
                            end)
    | TVariant cs => let ds := map doc_of cs in
        plain_doc (fun v => match v with
                            | VVar k x => match nth_error ds k with Some d => dc_tagged d x | None => UB end
                            | _ => UB
                            end)
    end.

  (** ** The printer writes this document *)
  Section Print.
    Context (ch : ity -> Z -> chunk) (c : fconfig) (Hm : legal_string marker) (good : ity -> Z -> Prop)
      (Hnum : forall i z, good i z -> small (ch i z) /\ scalar_text (num i z) (chunk_bytes (ch i z))).
    Notation P := (with_num ch c).
    Notation S := (ser P marker).
    Lemma array_num : forall size wr o d, prints_elems c wr o d -> prints c (array_block P size wr) (do js <- o; Ok (Arr js)) (Datatypes.S d).
    Proof. intros size wr o d H. exact (array_prints c size wr o d H). Qed.
    Lemma map_num : forall size wr o d, prints_mems c wr o d -> prints c (map_block P size wr) (do l <- o; Ok (Obj l)) (Datatypes.S d).
    Proof. intros size wr o d H. exact (map_prints c size wr o d H). Qed.

    Lemma str_prints : forall s d, bytes_in s -> prints c (pr_str P s) (Ok (jstr s)) d.
    Proof.
      intros s d H. apply (value_prints c (Wr (34 :: escapeString s ++ [34]))); [exact I|]. constructor. now apply escape_string.
    Qed.
    Lemma null_prints : forall d, prints c (pr_null P) (Ok (Scal SNull)) d.
    Proof. intros d. apply (value_prints c (Wr (bs "null"))); [exact I|]. constructor. Qed.
    Lemma marker_prints : forall i d, bytes_in (si_poly i) ->
      prints_mems c (put_marker P marker i) (Ok (tag_of i)) d.
    Proof.
      intros i d H. unfold put_marker. apply (mems_one c marker _ (Ok (jstr (si_poly i)))); [exact Hm|now apply str_prints].
    Qed.
    Lemma all_prints : forall f d l N, (forall v, In v l -> prints c (sf_print f v) (dc_val d v) N) ->
      prints_elems c (put_elems f l) (all_ok (map (dc_val d) l)) N.
    Proof.
      intros f d l N. induction l as [|v l IH]; intros H; [apply elems_nil|].
      change (put_elems f (v :: l)) with (w_then (sf_print f v) (put_elems f l)). cbn [map all_ok].
      apply elems_cons; [apply H; now left|]. apply IH. intros; apply H; now right.
    Qed.
    Lemma entries_print : forall f d l N, (forall kv, In kv l -> legal_string (fst kv) /\ prints c (sf_print f (snd kv)) (dc_val d (snd kv)) N) ->
      prints_mems c (put_entries P f l) (all_ok (map (fun kv => do j <- dc_val d (snd kv); Ok (fst kv, j)) l)) N.
    Proof.
      intros f d l N. induction l as [|[k v] l IH]; intros H; [apply mems_nil|].
      change (put_entries P f ((k, v) :: l)) with
        (w_then (w_then (pr_key P k) (sf_print f v)) (put_entries P f l)).
      destruct (H (k, v) (or_introl eq_refl)) as [Hk Hv]. cbn [fst snd] in Hk, Hv.
      assert (Q := mems_app c _ _ _ _ N (mems_one c k _ _ N Hk Hv) (IH (fun kv h => H kv (or_intror h)))).
      cbn [map all_ok fst snd]. destruct (dc_val d v); cbn [bind] in *; exact Q.
    Qed.
    Lemma tuple_prints : forall ts vs N, (forall i t v, nth_error ts i = Some t -> nth_error vs i = Some v -> prints c (sf_print (S t) v) (dc_val (doc_of t) v) N) ->
      List.length vs = List.length ts -> prints_elems c (put_tuple (map S ts) vs) (zip_ok (map doc_of ts) vs) N.
    Proof.
      induction ts as [|t ts IH]; intros [|v vs] N H L; try discriminate L; cbn [map put_tuple zip_ok]; [apply elems_nil|].
      apply elems_cons; [apply (H O); reflexivity|]. apply IH; [intros i; apply (H (Datatypes.S i))|now injection L].
    Qed.
    Lemma own_prints : forall ns ts vs N,
      (forall i t v, nth_error ts i = Some t -> nth_error vs i = Some v -> prints c (sf_print (S t) v) (dc_val (doc_of t) v) N) ->
      Forall legal_string ns -> List.length ns = List.length ts -> List.length vs = List.length ts ->
      prints_mems c (put_members P ns (map opt_type ts) (map S ts) vs) (own_ok ns (map opt_type ts) (map doc_of ts) vs) N.
    Proof.
      induction ns as [|n ns IH]; intros [|t ts] [|v vs] N H Hn L1 L2; try discriminate; cbn [map put_members own_ok]; [apply mems_nil|].
      inversion Hn as [|? ? Hn0 Hn1]; subst. apply mems_app.
      - destruct (keeps (opt_type t) v); [apply mems_one; [exact Hn0|apply (H O); reflexivity]|apply mems_nil].
      - apply IH; [intros i; apply (H (Datatypes.S i))|exact Hn1|now injection L1|now injection L2].
    Qed.
    Lemma parents_print : forall ps vs N,
      (forall i p v, nth_error ps i = Some p -> nth_error vs i = Some v -> prints_mems c (sf_members (S p) v) (dc_members (doc_of p) v) N) ->
      List.length vs = List.length ps ->
      prints_mems c (put_parents (map S ps) vs) (par_ok (map doc_of ps) vs) N.
    Proof.
      induction ps as [|p ps IH]; intros [|v vs] N H L; try discriminate L; cbn [map put_parents par_ok]; [apply mems_nil|].
      apply mems_app; [apply (H O); reflexivity|]. apply IH; [intros i; apply (H (Datatypes.S i))|now injection L].
    Qed.

    Definition writes (t : ty) (v : val) : Prop :=
      prints c (sf_print (S t) v) (dc_val (doc_of t) v) (nesting v) /\
      (is_class t = true -> prints c (sf_poly (S t) v) (dc_tagged (doc_of t) v) (nesting v) /\
         prints_mems c (sf_members (S t) v) (dc_members (doc_of t) v) (pred (nesting v))).

    Theorem num_writes : forall t v, wf t = true -> shaped t v = true -> each (here good) t v -> legal_keys t v -> legal_names t -> writes t v.
    Proof.
      unfold legal_keys, legal_names.
      apply (ty_ind' (fun t => forall v, wf t = true -> shaped t v = true -> each (here good) t v -> each (fun t v => match t, v with TMap _ _, VMap l => Forall (fun kv => legal_string (fst kv)) l | _, _ => True end) t v ->
        types (fun t => match t with
                  | TStruct i _ _ => Forall legal_string (map (nameOverride i) (si_names i)) /\ bytes_in (si_poly i)
                  | TEnum l => Forall (fun e => bytes_in (snd e)) l
                  | _ => True
                  end) t -> writes t v)).
      - intros i v W Sh V K N. destruct v; try discriminate Sh. split; [|discriminate]. apply each_here in V.
        destruct (Hnum i z V) as [Nz Lz]. now apply (value_prints c (ch i z)).
      - intros v W Sh V K N. destruct v; try discriminate Sh. split; [|discriminate].
        apply (value_prints c (WrVal (if b then bs "true" else bs "false"))); [destruct b; (split; [cbn; lia|discriminate])|]. destruct b; constructor.
      - intros v W Sh V K N. destruct v; try discriminate Sh. split; [|discriminate]. apply each_here in V. now apply str_prints.
      - intros l v W Sh V K N. destruct v; try discriminate Sh. split; [|discriminate]. cbn [ser sf_print mkSv doc_of plain_doc dc_val].
        apply types_here in N. destruct (enum_name l z) as [n|] eqn:E; [|intros top r _ _; reflexivity]. apply str_prints.
        rewrite Forall_forall in N. clear -N E. induction l as [|[y m] l IH]; cbn in E; [discriminate|].
        destruct (y =? z); [injection E as ->; apply (N (y, n)); now left|]. apply IH; [|exact E]. intros x Hx. apply N. now right.
      - intros co t IH v W Sh V K N. apply wf_seq in W. destruct v; try discriminate Sh. split; [|discriminate]. cbn [ser sf_print mkSv doc_of plain_doc dc_val nesting].
        apply array_num. apply all_prints. intros v Hv. cbn [shaped] in Sh. rewrite forallb_forall in Sh.
        destruct V as [_ V], K as [_ K]. rewrite Forall_forall in V, K.
        apply (prints_mono c _ _ (nesting v)); [apply list_max_in, List.in_map, Hv|]. apply IH; auto. exact (proj2 N).
      - intros n t IH v W Sh V K N. destruct v; try discriminate Sh. split; [|discriminate]. cbn [ser sf_print mkSv doc_of plain_doc dc_val nesting].
        cbn [shaped] in Sh. apply andb_prop in Sh as [L Sh]. rewrite L.
        apply array_num. apply all_prints. intros v Hv. rewrite forallb_forall in Sh.
        destruct V as [_ V], K as [_ K]. rewrite Forall_forall in V, K.
        apply (prints_mono c _ _ (nesting v)); [apply list_max_in, List.in_map, Hv|]. apply IH; auto. exact (proj2 N).
      - intros ts IH v W Sh V K N. destruct v; try discriminate Sh. split; [|discriminate]. cbn [ser sf_print mkSv doc_of plain_doc dc_val nesting].
        cbn [shaped] in Sh. apply array_num. apply tuple_prints.
        + intros i t v Et Ev. apply (prints_mono c _ _ (nesting v)); [apply list_max_in, List.in_map; eauto using nth_error_In|].
          rewrite Forall_forall in IH. cbn [wf] in W. rewrite forallb_forall in W. assert (It := nth_error_In _ _ Et).
          assert (Hs : nth_error (map shaped ts) i = Some (shaped t)) by now rewrite nth_error_map, Et.
          destruct (all2b_nth _ _ _ _ Sh Hs) as (y & Ey & Sy). rewrite Ey in Ev. injection Ev as ->. apply (IH t It); auto.
          * apply (rel2_nth _ _ i _ _ (proj2 V)); [now rewrite nth_error_map, Et|exact Ey].
          * apply (rel2_nth _ _ i _ _ (proj2 K)); [now rewrite nth_error_map, Et|exact Ey].
          * exact (all_of_nth _ _ _ _ (proj2 N) Et).
        + apply all2b_len in Sh. rewrite map_length in Sh. lia.
      - intros fw t IH v W Sh V K N. destruct v; try discriminate Sh. split; [|discriminate]. cbn [ser sf_print mkSv doc_of plain_doc dc_val nesting].
        apply map_num. apply entries_print. intros kv Hv. cbn [shaped] in Sh. rewrite forallb_forall in Sh.
        destruct V as [_ V], K as [K0 K]. rewrite Forall_forall in V, K, K0. split; [now apply K0|].
        apply (prints_mono c _ _ (nesting (snd kv))); [apply list_max_in, (List.in_map (fun kv => nesting (snd kv))), Hv|]. apply IH; auto. exact (proj2 N).
      - intros t IH v W Sh V K N. destruct v as [| | | | |[x|]| | |]; try discriminate Sh; (split; [|discriminate]); cbn [ser sf_print mkSv doc_of plain_doc dc_val nesting].
        + apply IH; auto; [exact (proj2 V)|exact (proj2 K)|exact (proj2 N)].
        + apply null_prints.
      - intros t IH v W Sh V K N. destruct v as [| | | | | |[x|]| |]; try discriminate Sh; (split; [|discriminate]); cbn [ser sf_print mkSv doc_of plain_doc dc_val nesting].
        + apply IH; auto; [exact (proj2 V)|exact (proj2 K)|exact (proj2 N)].
        + apply fail_prints.
      - intros si ms ps IHm IHp v W Sh V K N. destruct (wf_struct _ _ _ W) as (L & Wm & Wp).
        destruct (shaped_struct _ _ _ _ Sh) as (own & par & -> & So & Sp). destruct V as (_ & Vo & Vp), K as (_ & Ko & Kp), N as ((N0 & Np) & No & Nr).
        apply all2b_len in So as Lo. apply all2b_len in Sp as Lp. rewrite map_length in Lo, Lp. rewrite Forall_forall in IHm, IHp.
        assert (M : prints_mems c (sf_members (S (TStruct si ms ps)) (VStruct own par)) (dc_members (doc_of (TStruct si ms ps)) (VStruct own par)) (pred (nesting (VStruct own par)))).
        { cbn [ser sf_members doc_of dc_members nesting pred put_struct struct_ok]. apply mems_app.
          - apply own_prints; [|exact N0|now rewrite map_length|lia]. intros i t v Et Ev.
            assert (In (nesting v) (map nesting own)) by (apply List.in_map; eauto using nth_error_In).
            apply (prints_mono c _ _ (nesting v)); [assert (Q := list_max_in _ _ H); lia|]. assert (It := nth_error_In _ _ Et).
            assert (Hs : nth_error (map shaped ms) i = Some (shaped t)) by now rewrite nth_error_map, Et.
            destruct (all2b_nth _ _ _ _ So Hs) as (y & Ey & Sy). rewrite Ey in Ev. injection Ev as ->. apply (IHm t It); auto.
            + apply (rel2_nth _ _ i _ _ Vo); [now rewrite nth_error_map, Et|exact Ey].
            + apply (rel2_nth _ _ i _ _ Ko); [now rewrite nth_error_map, Et|exact Ey].
            + exact (all_of_nth _ _ _ _ No Et).
          - apply parents_print; [|lia]. intros i t v Et Ev.
            assert (In (pred (nesting v)) (map (fun p => pred (nesting p)) par)) by (apply (List.in_map (fun p => pred (nesting p))); eauto using nth_error_In).
            apply (mems_mono c _ _ (pred (nesting v))); [assert (Q := list_max_in _ _ H); lia|]. assert (It := nth_error_In _ _ Et). destruct (Wp t It) as [Ct Wt].
            assert (Hs : nth_error (map shaped ps) i = Some (shaped t)) by now rewrite nth_error_map, Et.
            destruct (all2b_nth _ _ _ _ Sp Hs) as (y & Ey & Sy). rewrite Ey in Ev. injection Ev as ->. apply (IHp t It v Wt Sy); auto.
            + apply (rel2_nth _ _ i _ _ Vp); [now rewrite nth_error_map, Et|exact Ey].
            + apply (rel2_nth _ _ i _ _ Kp); [now rewrite nth_error_map, Et|exact Ey].
            + exact (all_of_nth _ _ _ _ Nr Et). }
        assert (M2 := marker_prints si (pred (nesting (VStruct own par))) Np).
        split; [|intros _; split; [|exact M]]; cbn [ser sf_print sf_poly doc_of dc_val dc_tagged nesting]; apply map_num; apply mems_app; auto.
        destruct (si_mark si); [exact M2|apply mems_nil].
      - intros cs o IH v W Sh V K N. destruct v as [| | | | |[x|]| | |]; try discriminate Sh; (split; [|discriminate]); cbn [ser sf_print mkSv doc_of plain_doc dc_val nesting].
        2:{ apply null_prints. }
        destruct x; try discriminate Sh. cbn [shaped] in Sh. destruct V as [_ V], K as [_ K], N as [_ N]. cbn [wf] in W. rewrite forallb_forall in W.
        rewrite !nth_error_map in *. destruct (nth_error cs i) as [t|] eqn:E; [|discriminate Sh]. cbn [option_map] in *.
        rewrite Forall_forall in IH. assert (It := nth_error_In _ _ E). specialize (W t It). apply andb_prop in W as [Ct Wt]. cbn [nesting].
        apply (IH t It x Wt Sh V K (all_of_nth _ _ _ _ N E)). exact Ct.
      - intros cs IH v W Sh V K N. destruct v; try discriminate Sh; (split; [|discriminate]); cbn [ser sf_print mkSv doc_of plain_doc dc_val nesting].
        cbn [shaped] in Sh. destruct V as [_ V], K as [_ K], N as [_ N]. cbn [wf] in W. apply andb_prop in W as [W _]. rewrite forallb_forall in W.
        rewrite !nth_error_map in *. destruct (nth_error cs i) as [t|] eqn:E; [|discriminate Sh]. cbn [option_map] in *.
        rewrite Forall_forall in IH. assert (It := nth_error_In _ _ E). specialize (W t It). apply andb_prop in W as [Ct Wt].
        apply (IH t It v Wt Sh V K (all_of_nth _ _ _ _ N E)). exact Ct.
    Qed.
  End Print.
End Doc.

(** The JSON printer. *)
Lemma int_num_good : forall i z, fits i z -> number (int_dec z) /\ (List.length (int_dec z) <= 25)%nat.
Proof. intros i z H. split; [eapply int_literal_number, int_dec_literal|now apply (int_dec_short i)]. Qed.
Lemma number_chunk : forall t, number t /\ (List.length t <= 25)%nat -> small (WrVal t) /\ scalar_text (SNum t) (chunk_bytes (WrVal t)).
Proof. intros t [N L]. split; [now apply number_small|]. constructor. exact N. Qed.
Theorem ser_writes : forall marker c, legal_string marker -> forall t v, wf t = true -> shaped t v = true -> each valid_here t v -> legal_keys t v -> legal_names t ->
  prints c (sf_print (ser (json_printer c) marker t) v) (dc_val (doc_of int_num marker t) v) (nesting v).
Proof. intros marker c M t v W Sh V K N. exact (proj1 (num_writes int_num marker int_chunk c M fits (fun i z H => number_chunk _ (int_num_good i z H)) t v W Sh V K N)). Qed.
