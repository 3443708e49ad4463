(** A small checker for concrete JSON texts, sound for the grammar; used in examples only. *)
From Coq Require Import ZArith String List Bool Lia ZifyBool.
From Verif Require Import Model.Base Model.Source Model.ParserInterface Model.Types Model.Importer Spec.JsonString Spec.Json Spec.Typed Spec.Import Proofs.Induct.
Import ListNotations.
Open Scope Z_scope.

Definition short (e : Z) : option Z :=
  if e =? 34 then Some 34 else if e =? 92 then Some 92 else if e =? 47 then Some 47 else if e =? 98 then Some 8
  else if e =? 102 then Some 12 else if e =? 110 then Some 10 else if e =? 114 then Some 13 else if e =? 116 then Some 9 else None.
Lemma short_ok : forall e x, short e = Some x -> short_escape e x.
Proof.
  intros e x H. unfold short in H.
  repeat match type of H with (if ?a =? ?b then _ else _) = _ => destruct (Z.eqb_spec a b); [subst; injection H as <-; constructor|] end. discriminate.
Qed.
(** The contents of a string (without unicode escapes) up to the quote: spelling, value, rest. *)
Fixpoint pstr (t : bytes) : option (bytes * bytes * bytes) :=
  match t with
  | [] => None
  | c :: r =>
      if c =? 34 then Some ([], [], r)
      else if c =? 92 then
        match r with
        | e :: r' => match short e, pstr r' with Some x, Some (raw, v, q) => Some (92 :: e :: raw, x :: v, q) | _, _ => None end
        | [] => None
        end
      else if (32 <=? c) && (c <? 256) then
        match pstr r with Some (raw, v, q) => Some (c :: raw, c :: v, q) | None => None end
      else None
  end.
Lemma pstr_ok : forall P n t raw v q, (List.length t <= n)%nat -> pstr t = Some (raw, v, q) -> t = raw ++ 34 :: q /\ json_string_when P raw v.
Proof.
  intro P. induction n as [|n IH]; intros t raw v q L H.
  - destruct t; [discriminate H|cbn in L; lia].
  - destruct t as [|c r]; [discriminate H|]. cbn [pstr] in H. cbn [List.length] in L. destruct (Z.eqb_spec c 34).
    + injection H as <- <- <-. subst. split; [reflexivity|constructor].
    + destruct (Z.eqb_spec c 92).
      * destruct r as [|e1 r']; [discriminate H|]. destruct (short e1) as [x|] eqn:Es; [|discriminate H].
        destruct (pstr r') as [[[raw' v'] q']|] eqn:Ep; [|discriminate H]. injection H as <- <- <-. cbn [List.length] in L.
        destruct (IH r' raw' v' q' ltac:(lia) Ep) as [-> J]. subst. split; [reflexivity|]. apply js_short; [now apply short_ok|exact J].
      * destruct ((32 <=? c) && (c <? 256)) eqn:Ec; [|discriminate H]. destruct (pstr r) as [[[raw' v'] q']|] eqn:Ep; [|discriminate H].
        injection H as <- <- <-. destruct (IH r raw' v' q' ltac:(lia) Ep) as [-> J]. split; [reflexivity|]. apply js_char; auto; lia.
Qed.
Definition is_ws (c : Z) : bool := (c =? 32) || (c =? 9) || (c =? 10) || (c =? 13).
Fixpoint pws (t : bytes) : bytes * bytes :=
  match t with c :: r => if is_ws c then let '(w, q) := pws r in (c :: w, q) else ([], t) | [] => ([], []) end.
Lemma pws_ok : forall t w q, pws t = (w, q) -> t = w ++ q /\ ws w.
Proof.
  induction t as [|c r IH]; intros w q H; cbn [pws] in H.
  - injection H as <- <-. split; [reflexivity|constructor].
  - destruct (is_ws c) eqn:E.
    + destruct (pws r) as [w' q'] eqn:E2. injection H as <- <-. destruct (IH w' q' eq_refl) as [-> H]. split; [reflexivity|].
      constructor; [unfold is_ws in E; unfold ws_char; lia|exact H].
    + injection H as <- <-. split; [reflexivity|constructor].
Qed.
Fixpoint pdig (t : bytes) : bytes * bytes :=
  match t with c :: r => if is_digit c then let '(w, q) := pdig r in (c :: w, q) else ([], t) | [] => ([], []) end.
Lemma pdig_ok : forall t w q, pdig t = (w, q) -> t = w ++ q /\ Forall digit w.
Proof.
  induction t as [|c r IH]; intros w q H; cbn [pdig] in H.
  - injection H as <- <-. split; [reflexivity|constructor].
  - destruct (is_digit c) eqn:E.
    + destruct (pdig r) as [w' q'] eqn:E2. injection H as <- <-. destruct (IH w' q' eq_refl) as [-> H]. split; [reflexivity|].
      constructor; [unfold is_digit in E; unfold digit; lia|exact H].
    + injection H as <- <-. split; [reflexivity|constructor].
Qed.
(** Numbers: sign, integer part, fraction, exponent without a sign. *)
Definition pint (t : bytes) : option (bytes * bytes) :=
  match t with
  | c :: r => if c =? 48 then Some ([48], r) else if is_digit c then let '(w, q) := pdig r in Some (c :: w, q) else None
  | [] => None
  end.
Lemma pint_ok : forall t w q, pint t = Some (w, q) -> t = w ++ q /\ int_part w.
Proof.
  intros [|c r] w q H; [discriminate H|]. cbn [pint] in H. destruct (Z.eqb_spec c 48).
  - injection H as <- <-. subst. split; [reflexivity|constructor].
  - destruct (is_digit c) eqn:E; [|discriminate H]. destruct (pdig r) as [w' q'] eqn:E2. injection H as <- <-.
    destruct (pdig_ok _ _ _ E2) as [-> D]. split; [reflexivity|]. constructor; [unfold is_digit in E; lia|exact D].
Qed.
Definition pfrac (t : bytes) : bytes * bytes :=
  match t with 46 :: r => match pdig r with ([], _) => ([], t) | (w, q) => (46 :: w, q) end | _ => ([], t) end.
Definition pexp (t : bytes) : bytes * bytes :=
  match t with 101 :: r => match pdig r with ([], _) => ([], t) | (w, q) => (101 :: w, q) end | _ => ([], t) end.
Lemma pfrac_ok : forall t w q, pfrac t = (w, q) -> t = w ++ q /\ frac_part w.
Proof.
  intros t w q H. unfold pfrac in H. assert (D : ([], t) = (w, q) -> t = w ++ q /\ frac_part w) by (intro X; injection X as <- <-; split; [reflexivity|constructor]).
  destruct t as [|c r]; [auto|]. destruct (Z.eq_dec c 46) as [->|N].
  - destruct (pdig r) as [w' q'] eqn:E. destruct w'; [auto|]. injection H as <- <-. destruct (pdig_ok _ _ _ E) as [-> F].
    split; [reflexivity|]. constructor. split; [discriminate|exact F].
  - apply D. repeat match type of H with match ?c with _ => _ end = _ => destruct c; try exact H; try lia end.
Qed.
Lemma pexp_ok : forall t w q, pexp t = (w, q) -> t = w ++ q /\ exp_part w.
Proof.
  intros t w q H. unfold pexp in H. assert (D : ([], t) = (w, q) -> t = w ++ q /\ exp_part w) by (intro X; injection X as <- <-; split; [reflexivity|constructor]).
  destruct t as [|c r]; [auto|]. destruct (Z.eq_dec c 101) as [->|N].
  - destruct (pdig r) as [w' q'] eqn:E. destruct w'; [auto|]. injection H as <- <-. destruct (pdig_ok _ _ _ E) as [-> F].
    split; [reflexivity|]. apply xp_plain; [now left|]. split; [discriminate|exact F].
  - apply D. repeat match type of H with match ?c with _ => _ end = _ => destruct c; try exact H; try lia end.
Qed.
Definition pnum (t : bytes) : option (bytes * bytes) :=
  let '(s, t) := match t with c :: r => if c =? 45 then ([45], r) else ([], t) | [] => ([], []) end in
  match pint t with
  | Some (i, t) => let '(f, t) := pfrac t in let '(e, t) := pexp t in Some (s ++ i ++ f ++ e, t)
  | None => None
  end.
Lemma pnum_ok : forall t w q, pnum t = Some (w, q) -> t = w ++ q /\ number w.
Proof.
  intros t w q H. unfold pnum in H. destruct (match t with c :: r => _ | [] => _ end) as [s t1] eqn:E1.
  assert (S : t = s ++ t1 /\ sign_part s).
  { destruct t as [|c r]; [injection E1 as <- <-; split; [reflexivity|constructor]|]. destruct (Z.eqb_spec c 45); injection E1 as <- <-; subst; split; try reflexivity; constructor. }
  destruct (pint t1) as [[i t2]|] eqn:E2; [|discriminate H]. destruct (pfrac t2) as [f t3] eqn:E3. destruct (pexp t3) as [e t4] eqn:E4.
  injection H as <- <-. destruct S as [-> S]. destruct (pint_ok _ _ _ E2) as [-> I]. destruct (pfrac_ok _ _ _ E3) as [-> F]. destruct (pexp_ok _ _ _ E4) as [-> X].
  split; [now rewrite <- !app_assoc|]. now constructor.
Qed.

Fixpoint plit (l t : bytes) : option bytes :=
  match l, t with
  | [], _ => Some t
  | a :: l', b :: t' => if a =? b then plit l' t' else None
  | _, _ => None
  end.
Lemma plit_ok : forall l t q, plit l t = Some q -> t = l ++ q.
Proof.
  induction l as [|a l IH]; intros t q H; cbn [plit] in H; [now injection H as <-|].
  destruct t as [|b t]; [discriminate H|]. destruct (Z.eqb_spec a b); [|discriminate H]. subst. cbn [app]. f_equal. now apply IH.
Qed.
Definition pscal (t : bytes) : option (jscal * bytes) :=
  match plit [116; 114; 117; 101] t with Some q => Some (STrue, q) | None =>
  match plit [102; 97; 108; 115; 101] t with Some q => Some (SFalse, q) | None =>
  match plit [110; 117; 108; 108] t with Some q => Some (SNull, q) | None =>
  match t with
  | c :: r => if c =? 34 then match pstr r with Some (raw, _, q) => Some (SStr raw, q) | None => None end
              else match pnum t with Some (w, q) => Some (SNum w, q) | None => None end
  | [] => None
  end end end end.
Lemma pscal_ok : forall t a q, pscal t = Some (a, q) -> exists w, t = w ++ q /\ scalar_text a w.
Proof.
  intros t a q H. unfold pscal in H.
  destruct (plit [116; 114; 117; 101] t) eqn:E1; [injection H as <- <-; apply plit_ok in E1; eexists; split; [exact E1|constructor]|].
  destruct (plit [102; 97; 108; 115; 101] t) eqn:E2; [injection H as <- <-; apply plit_ok in E2; eexists; split; [exact E2|constructor]|].
  destruct (plit [110; 117; 108; 108] t) eqn:E3; [injection H as <- <-; apply plit_ok in E3; eexists; split; [exact E3|constructor]|].
  destruct t as [|c r]; [discriminate H|]. destruct (Z.eqb_spec c 34).
  - destruct (pstr r) as [[[raw v] q']|] eqn:E; [|discriminate H]. injection H as <- <-.
    destruct (pstr_ok (fun _ => True) _ _ _ _ _ (le_n _) E) as [-> J]. subst. exists (34 :: raw ++ [34]). split; [cbn; now rewrite <- app_assoc|].
    constructor. exists v. exact J.
  - destruct (pnum (c :: r)) as [[w q']|] eqn:E; [|discriminate H]. injection H as <- <-. destruct (pnum_ok _ _ _ E) as [-> N].
    exists w. split; [reflexivity|]. now constructor.
Qed.

Fixpoint pval (n : nat) (t : bytes) : option (jv * bytes) :=
  match n with
  | O => None
  | S n =>
    match t with
    | c :: r =>
        if c =? 91 then
          match pws r with
          | (_, 93 :: q) => Some (Arr [], q)
          | _ => match pelems n r with Some (l, q) => Some (Arr l, q) | None => None end
          end
        else if c =? 123 then
          match pws r with
          | (_, 125 :: q) => Some (Obj [], q)
          | _ => match pmembers n r with Some (l, q) => Some (Obj l, q) | None => None end
          end
        else match pscal t with Some (a, q) => Some (Scal a, q) | None => None end
    | [] => None
    end
  end
with pelems (n : nat) (t : bytes) : option (list jv * bytes) :=
  match n with
  | O => None
  | S n =>
    let '(_, t) := pws t in
    match pval n t with
    | Some (j, q) =>
        let '(_, q) := pws q in
        match q with
        | c :: r => if c =? 93 then Some ([j], r)
                    else if c =? 44 then match pelems n r with Some (l, q) => Some (j :: l, q) | None => None end else None
        | [] => None
        end
    | None => None
    end
  end
with pmembers (n : nat) (t : bytes) : option (list (bytes * jv) * bytes) :=
  match n with
  | O => None
  | S n =>
    let '(_, t) := pws t in
    match t with
    | qt :: t =>
      if negb (qt =? 34) then None else
      match pstr t with
      | Some (raw, _, t) =>
        let '(_, t) := pws t in
        match t with
        | cl :: t =>
          if negb (cl =? 58) then None else
          let '(_, t) := pws t in
          match pval n t with
          | Some (j, q) =>
              let '(_, q) := pws q in
              match q with
              | c :: r => if c =? 125 then Some ([(raw, j)], r)
                          else if c =? 44 then match pmembers n r with Some (l, q) => Some ((raw, j) :: l, q) | None => None end else None
              | [] => None
              end
          | None => None
          end
        | [] => None
        end
      | None => None
      end
    | [] => None
    end
  end.
Lemma pval_ok : forall n,
  (forall t j q, pval n t = Some (j, q) -> exists w, t = w ++ q /\ spells j w) /\
  (forall t l q, pelems n t = Some (l, q) -> exists w, t = w ++ 93 :: q /\ spells_elems l w) /\
  (forall t l q, pmembers n t = Some (l, q) -> exists w, t = w ++ 125 :: q /\ spells_members l w).
Proof.
  induction n as [|n (IV & IE & IM)]; [repeat split; intros; discriminate|]. repeat split.
  - intros t j q H. cbn [pval] in H. destruct t as [|c r]; [discriminate H|]. destruct (Z.eqb_spec c 91).
    + subst. destruct (pws r) as [w r1] eqn:E. destruct (pws_ok _ _ _ E) as [-> W].
      assert (D : match pelems n (w ++ r1) with Some (l, q) => Some (Arr l, q) | None => None end = Some (j, q) -> exists w', 91 :: w ++ r1 = w' ++ q /\ spells j w').
      { intro X. destruct (pelems n (w ++ r1)) as [[l q']|] eqn:El; [|discriminate X]. injection X as <- <-. destruct (IE _ _ _ El) as (w' & -> & S).
        exists (91 :: w' ++ [93]). split; [cbn; now rewrite <- app_assoc|]. now constructor. }
      destruct r1 as [|c r1]; [auto|]. destruct (Z.eq_dec c 93) as [->|N].
      * injection H as <- <-. exists (91 :: w ++ [93]). split; [cbn; now rewrite <- app_assoc|]. now constructor.
      * apply D. repeat match type of H with match ?c with _ => _ end = _ => destruct c; try exact H; try lia end.
    + destruct (Z.eqb_spec c 123).
      * subst. destruct (pws r) as [w r1] eqn:E. destruct (pws_ok _ _ _ E) as [-> W].
        assert (D : match pmembers n (w ++ r1) with Some (l, q) => Some (Obj l, q) | None => None end = Some (j, q) -> exists w', 123 :: w ++ r1 = w' ++ q /\ spells j w').
        { intro X. destruct (pmembers n (w ++ r1)) as [[l q']|] eqn:El; [|discriminate X]. injection X as <- <-. destruct (IM _ _ _ El) as (w' & -> & S).
          exists (123 :: w' ++ [125]). split; [cbn; now rewrite <- app_assoc|]. now constructor. }
        destruct r1 as [|c r1]; [auto|]. destruct (Z.eq_dec c 125) as [->|N].
        -- injection H as <- <-. exists (123 :: w ++ [125]). split; [cbn; now rewrite <- app_assoc|]. now constructor.
        -- apply D. repeat match type of H with match ?c with _ => _ end = _ => destruct c; try exact H; try lia end.
      * destruct (pscal (c :: r)) as [[a q']|] eqn:E; [|discriminate H]. injection H as <- <-. destruct (pscal_ok _ _ _ E) as (w & -> & S).
        exists w. split; [reflexivity|]. now constructor.
  - intros t l q H. cbn [pelems] in H. destruct (pws t) as [w1 t1] eqn:E1. destruct (pws_ok _ _ _ E1) as [-> W1].
    destruct (pval n t1) as [[j t2]|] eqn:Ev; [|discriminate H]. destruct (IV _ _ _ Ev) as (tj & -> & S).
    destruct (pws t2) as [w2 t3] eqn:E2. destruct (pws_ok _ _ _ E2) as [-> W2]. destruct t3 as [|c r]; [discriminate H|].
    destruct (Z.eqb_spec c 93).
    + subst. injection H as <- <-. exists (w1 ++ tj ++ w2). split; [now rewrite <- !app_assoc|]. now constructor.
    + destruct (Z.eqb_spec c 44); [|discriminate H]. subst. destruct (pelems n r) as [[l' q']|] eqn:El; [|discriminate H]. injection H as <- <-.
      destruct (IE _ _ _ El) as (w' & -> & S'). exists (w1 ++ tj ++ w2 ++ 44 :: w'). split; [repeat (rewrite <- ?app_assoc; cbn [app]); reflexivity|]. now constructor.
  - intros t l q H. cbn [pmembers] in H. destruct (pws t) as [w1 t1] eqn:E1. destruct (pws_ok _ _ _ E1) as [-> W1].
    destruct t1 as [|c1 t1]; [discriminate H|]. destruct (Z.eqb_spec c1 34); [|discriminate H]. subst. cbn [negb] in H.
    destruct (pstr t1) as [[[raw v] t2]|] eqn:Es; [|discriminate H]. destruct (pstr_ok (fun _ => True) _ _ _ _ _ (le_n _) Es) as [-> J].
    destruct (pws t2) as [w2 t3] eqn:E2. destruct (pws_ok _ _ _ E2) as [-> W2]. destruct t3 as [|c3 t3]; [discriminate H|].
    destruct (Z.eqb_spec c3 58); [|discriminate H]. subst. cbn [negb] in H.
    destruct (pws t3) as [w3 t4] eqn:E3. destruct (pws_ok _ _ _ E3) as [-> W3].
    destruct (pval n t4) as [[j t5]|] eqn:Ev; [|discriminate H]. destruct (IV _ _ _ Ev) as (tj & -> & S).
    destruct (pws t5) as [w4 t6] eqn:E4. destruct (pws_ok _ _ _ E4) as [-> W4]. destruct t6 as [|c r]; [discriminate H|].
    assert (L : legal_string raw) by (exists v; exact J).
    destruct (Z.eqb_spec c 125).
    + subst. injection H as <- <-. exists (w1 ++ (34 :: raw ++ [34]) ++ w2 ++ 58 :: w3 ++ tj ++ w4).
      split; [repeat (rewrite <- ?app_assoc; cbn [app]); reflexivity|]. now constructor.
    + destruct (Z.eqb_spec c 44); [|discriminate H]. subst. destruct (pmembers n r) as [[l' q']|] eqn:El; [|discriminate H]. injection H as <- <-.
      destruct (IM _ _ _ El) as (w' & -> & S'). exists (w1 ++ (34 :: raw ++ [34]) ++ w2 ++ 58 :: w3 ++ tj ++ w4 ++ 44 :: w').
      split; [repeat (rewrite <- ?app_assoc; cbn [app]); reflexivity|]. now constructor.
Qed.
Definition pdoc (t : bytes) : option jv :=
  let '(_, t1) := pws t in
  match pval (S (List.length t1)) t1 with
  | Some (j, q) => match pws q with (_, []) => Some j | _ => None end
  | None => None
  end.
Lemma pdoc_ok : forall t j, pdoc t = Some j -> document j t.
Proof.
  intros t j H. unfold pdoc in H. destruct (pws t) as [w1 t1] eqn:E1. destruct (pws_ok _ _ _ E1) as [-> W1].
  destruct (pval _ t1) as [[j' q]|] eqn:Ev; [|discriminate H]. destruct (pws q) as [w2 [|c r]] eqn:E2; [|discriminate H]. injection H as <-.
  destruct (pws_ok _ _ _ E2) as [-> W2]. rewrite app_nil_r in Ev. destruct (proj1 (pval_ok _) _ _ _ Ev) as (w & -> & S). now constructor.
Qed.
(** Names without unicode escapes. *)
Definition pname (raw : bytes) : option bytes :=
  match pstr (raw ++ [34]) with Some (r, v, []) => Some v | _ => None end.
Lemma pname_ok : forall P raw n, pname raw = Some n -> json_string_when P raw n.
Proof.
  intros P raw n H. unfold pname in H. destruct (pstr (raw ++ [34])) as [[[r v] [|]]|] eqn:E; try discriminate H. injection H as <-.
  destruct (pstr_ok P _ _ _ _ _ (le_n _) E) as [Q J]. apply app_inj_tail in Q as [-> _]. exact J.
Qed.
Lemma pname_names : forall conv raw n, pname raw = Some n -> (conv = false -> raw = n) -> names conv raw n.
Proof. intros [] raw n H K; cbn; [now apply pname_ok|auto]. Qed.

Ltac doc := apply pdoc_ok; vm_compute; reflexivity.
Ltac name := apply pname_ok; vm_compute; reflexivity.

(** Concrete documents whose strings are all skipped exactly. *)
Fixpoint all_strings (f : bytes -> bool) (j : jv) : bool :=
  match j with
  | Scal (SStr raw) => f raw
  | Scal _ => true
  | Arr l => forallb (all_strings f) l
  | Obj l => forallb (fun kv => f (fst kv) && all_strings f (snd kv)) l
  end.
Lemma all_strings_ok : forall f (P : bytes -> Prop), (forall raw, f raw = true -> P raw) -> forall j, all_strings f j = true -> strings P j.
Proof.
  intros f P H. apply (tree_ind' (fun j => all_strings f j = true -> strings P j)).
  - intros a E. constructor. destruct a; try exact I. apply H. exact E.
  - intros l IH E. constructor. cbn [all_strings] in E. rewrite forallb_forall in E. rewrite Forall_forall in IH. intros j Hj. apply (IH j Hj). now apply E.
  - intros l IH E. constructor. cbn [all_strings] in E. rewrite forallb_forall in E. rewrite Forall_forall in IH. intros key j Hj.
    specialize (E _ Hj). cbn [fst snd] in E. apply andb_prop in E as [E1 E2]. split; [auto|]. exact (IH (key, j) Hj E2).
Qed.
Lemma part_strings : forall P cfg t j t' j', jpart cfg t j t' j' -> strings P j -> strings P j'.
Proof.
  intro P. unfold strings. induction 1 as [t j|co t l j t' j' Hj H IH|n t l i j t' j' Hj Hi H IH|ts l i t j t' j' Hj Ht H IH|fw t l key j t' j' Hj H IH
      |t j t' j' Hn H IH|t j t' j' H IH|si ms ps l key n j t t' j' Hj Hk Hm H IH
      |cs o key a c l i t t' j' Hk Ha Hc Ht H IH|cs key a c l i t t' j' Hk Ha Hc Ht H IH]; intros R; auto; inversion R as [|? G|? G]; subst; eauto using nth_error_In.
    - apply IH. now apply (G key j).
    - apply IH. now apply (G key j).
    - apply IH. constructor. intros k1 j1 H1'. exact (G k1 j1 (or_intror H1')).
    - apply IH. constructor. intros k1 j1 H1'. exact (G k1 j1 (or_intror H1')).
Qed.
Definition safe_string (raw : bytes) : bool :=
  match pname raw with Some _ => true | None => false end && negb (last raw 0 =? 92) && forallb (fun c => negb (c =? 255)) raw.
Lemma safe_string_ok : forall k raw, safe_string raw = true -> (exists n, names true raw n) /\ skip_safe k raw.
Proof.
  intros k raw H. unfold safe_string in H. apply andb_prop in H as [H H3]. apply andb_prop in H as [H1 H2]. split.
  - destruct (pname raw) as [n|] eqn:E; [|discriminate H1]. exists n. now apply pname_ok.
  - split.
    + intros r ->. rewrite last_last in H2. discriminate H2.
    + intros _ Hin. rewrite forallb_forall in H3. specialize (H3 _ Hin). discriminate H3.
Qed.
Lemma safe_doc : forall cfg k t j, all_strings safe_string j = true -> exact_skips cfg k t j.
Proof.
  intros cfg k t j H Hm. split.
  - refine (all_strings_ok _ _ _ j H). intros raw E. destruct (safe_string_ok k raw E) as [[n Hn] _]. destruct (pc_conv cfg); [eauto|]. exists raw. reflexivity.
  - intros jk (t' & l & key & n & P & Hin & _).
    assert (S : strings (skip_safe k) j) by (refine (all_strings_ok _ _ _ j H); intros raw E; exact (proj2 (safe_string_ok k raw E))).
    assert (S' := part_strings _ _ _ _ _ _ P S). inversion S' as [| |? G]; subst. exact (proj2 (G _ _ Hin)).
Qed.
Ltac safe := apply safe_doc; vm_compute; reflexivity.
(** Concrete runs with any larger amount of fuel. *)
Ltac peel f n := lazymatch n with O => idtac | S ?m => destruct f as [|f]; [exfalso; lia|]; peel f m end.
Ltac fuels N := exists N; let f := fresh "fuel" in let H := fresh "H" in intros f H; peel f N; clear H.
