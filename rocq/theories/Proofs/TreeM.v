(** A parser that walks a tree, and the meaning of the type directed reader on trees.

    [tree_ops] is a parser whose input is the list of events of a tree; [interp] is the value the reader builds from a
    tree, without tokens, push back or fuel.  [interp_parse] shows they agree. *)
From Coq Require Import ZArith List Bool Lia.
From Verif Require Import Model.Base Model.Number Model.ParserInterface Model.Types Model.Deserializer
  Spec.Json Proofs.Induct Proofs.Sim.
From Verif Require Spec.Typed.
Import ListNotations.
Open Scope Z_scope.

(** How the scalars of a format are read. *)
Record scal_ops (A : Type) := mkScal {
  sc_int  : ity -> A -> outcome Z;
  sc_bool : A -> outcome bool;
  sc_str  : A -> outcome bytes;
  sc_null : A -> bool;
  sc_skip : A -> bool;              (* the scalar is skipped exactly *)
  sc_key  : bytes -> outcome bytes;
  sc_kskip : bytes -> bool;
  sc_lag : bool;                    (* "was it null" speaks of the last element that was begun, also between values *)
  sc_knull : bytes -> bool;         (* "was it null" after a key *)
  sc_keep : bool                    (* "was it null" speaks of the last value also after the end of the document *)
}.
Arguments sc_int {A}. Arguments sc_bool {A}. Arguments sc_str {A}. Arguments sc_null {A}.
Arguments sc_skip {A}. Arguments sc_key {A}. Arguments sc_kskip {A}. Arguments sc_lag {A}. Arguments sc_knull {A}. Arguments sc_keep {A}.

Inductive ev (A : Type) := EMapS | EMapE | EArrS | EArrE | EKey (k : bytes) | EScal (a : A).
Arguments EMapS {A}. Arguments EMapE {A}. Arguments EArrS {A}. Arguments EArrE {A}.
Arguments EKey {A}. Arguments EScal {A}.

Fixpoint events {A} (j : tree A) : list (ev A) :=
  match j with
  | Scal a => [EScal a]
  | Arr l => EArrS :: flat_map events l ++ [EArrE]
  | Obj l => EMapS :: flat_map (fun kv => EKey (fst kv) :: events (snd kv)) l ++ [EMapE]
  end.
Definition member_events {A} (l : list (bytes * tree A)) : list (ev A) :=
  flat_map (fun kv => EKey (fst kv) :: events (snd kv)) l.

(** What the last event left to be read; the flag is the answer to "was it null". *)
Inductive pend (A : Type) := PFree (b : bool) | PKey (k : bytes) | PVal (a : A) | PEnd (b : bool).
Arguments PFree {A}. Arguments PKey {A}. Arguments PVal {A}. Arguments PEnd {A}.

Record tm (A : Type) := mkTm { tm_on : bool; tm_pend : pend A; tm_evs : list (ev A) }.
Arguments mkTm {A}. Arguments tm_on {A}. Arguments tm_pend {A}. Arguments tm_evs {A}.

Definition ev_token {A} (e : ev A) : token :=
  match e with
  | EMapS => TokMapStart | EMapE => TokMapEnd | EArrS => TokArrayStart | EArrE => TokArrayEnd
  | EKey _ => TokKey | EScal _ => TokValue
  end.

Section Ops.
  Context {A : Type} (sc : scal_ops A).

  Definition ev_pend (b : bool) (e : ev A) : pend A :=
    match e with
    | EKey k => PKey k
    | EScal a => PVal a
    | EMapE | EArrE => PFree (sc_lag sc && b)
    | _ => PFree false
    end.
  Definition tm_next (s : tm A) : outcome (token * tm A) :=
    if negb (tm_on s) then Ok (TokDocStart, mkTm true (tm_pend s) (tm_evs s))
    else match tm_pend s, tm_evs s with
         | PFree b, [] => Ok (TokDocEnd, mkTm true (PEnd (sc_keep sc && b)) [])
         | PFree b, e :: r => Ok (ev_token e, mkTm true (ev_pend b e) r)
         | _, _ => Hang
         end.
  Definition tm_val {B} (f : A -> outcome B) (s : tm A) : outcome (B * tm A) :=
    match tm_pend s with
    | PVal a => do b <- f a; Ok (b, mkTm (tm_on s) (PFree (sc_null sc a)) (tm_evs s))
    | _ => Hang
    end.
  (** "Was it null" between a key and its value. *)
  Definition key_null (k : bytes) (evs : list (ev A)) : bool :=
    sc_knull sc k || sc_lag sc && match evs with EScal a :: _ => sc_null sc a | _ => false end.
  Definition tm_key (s : tm A) : outcome (bytes * tm A) :=
    match tm_pend s with
    | PKey k => do b <- sc_key sc k; Ok (b, mkTm (tm_on s) (PFree (key_null k (tm_evs s))) (tm_evs s))
    | _ => Hang
    end.
  Definition tm_null (s : tm A) : bool :=
    match tm_pend s with
    | PFree b => b
    | PEnd b => b
    | PKey k => key_null k (tm_evs s)
    | PVal a => sc_null sc a
    end.
  Definition tm_ignore (s : tm A) : outcome (tm A) :=
    match tm_pend s with
    | PKey k => if sc_kskip sc k then Ok (mkTm (tm_on s) (PFree (key_null k (tm_evs s))) (tm_evs s)) else Hang
    | PVal a => if sc_skip sc a && (sc_null sc a || negb (match tm_evs s with [] => true | _ => false end)) then Ok (mkTm (tm_on s) (PFree (sc_null sc a)) (tm_evs s)) else Hang
    | _ => Hang
    end.
  Definition tree_ops : parser_ops (tm A) :=
    mkOps (tm A) tm_next tm_key (fun i => tm_val (sc_int sc i)) (tm_val (sc_bool sc)) (tm_val (sc_str sc))
      tm_null tm_ignore (fun _ s => Ok s) (fun _ s => Ok s).
End Ops.

Record ifun (A : Type) := mkI {
  i_parse : val -> tree A -> outcome val;
  i_scan  : bytes -> val -> tree A -> option (outcome val)
}.
Arguments mkI {A}. Arguments i_parse {A}. Arguments i_scan {A}.

Section Interp.
  Context {A : Type} (sc : scal_ops A) (m : strictness) (marker : bytes).

  Fixpoint skippable (j : tree A) : bool :=
    match j with
    | Scal a => sc_skip sc a
    | Arr l => forallb skippable l
    | Obj l => forallb (fun kv => sc_kskip sc (fst kv) && skippable (snd kv)) l
    end.
  Definition null_tree (j : tree A) : bool := match j with Scal a => sc_null sc a | _ => false end.
  (** "Was it null" after the tree. *)
  Fixpoint end_null (j : tree A) : bool :=
    match j with
    | Scal a => sc_null sc a
    | Arr l => sc_lag sc && fold_left (fun _ j => end_null j) l false
    | Obj l => sc_lag sc && fold_left (fun _ kv => end_null (snd kv)) l false
    end.

  Definition end_elems (b : bool) (l : list (tree A)) : bool := sc_lag sc && fold_left (fun _ j => end_null j) l b.
  Definition end_mems (b : bool) (l : list (bytes * tree A)) : bool := sc_lag sc && fold_left (fun _ kv => end_null (snd kv)) l b.

  Definition in_value {B} (rd : A -> outcome B) (mk : B -> val) (j : tree A) : outcome val :=
    match j with Scal a => do b <- rd a; Ok (mk b) | _ => Throw end.

  Fixpoint in_members (scan : bytes -> val -> tree A -> option (outcome val)) (v : val) (found : list bytes)
           (l : list (bytes * tree A)) : outcome (val * list bytes) :=
    match l with
    | [] => Ok (v, found)
    | (k, j) :: r =>
        do k' <- sc_key sc k;
        match scan k' v j with
        | Some o => do v' <- o; in_members scan v' (k' :: found) r
        | None => match m with
                  | Weak => if skippable j then in_members scan v found r else Hang
                  | _ => Throw
                  end
        end
    end.
  Definition in_map (req : list bytes) scan (v : val) (j : tree A) : outcome val :=
    match j with
    | Obj l =>
        do (v', found) <- in_members scan v [] l;
        match m with
        | Exact => if forallb (fun r => existsb (beq r) found) req then Ok v' else Throw
        | _ => Ok v'
        end
    | _ => Throw
    end.

  Fixpoint in_elems (elem : nat -> val -> tree A -> outcome val) (i : nat) (v : val) (l : list (tree A)) : outcome val :=
    match l with
    | [] => Ok v
    | j :: r => do v' <- elem i v j; in_elems elem (S i) v' r
    end.
  Definition in_array elem (v : val) (j : tree A) : outcome val :=
    match j with Arr l => in_elems elem O v l | _ => Throw end.

  Definition in_elem_vec (co : cont) (d : ifun A) (dflt : val) (_ : nat) (v : val) (j : tree A) : outcome val :=
    match v with
    | VList l => do x <- i_parse d dflt j; Ok (VList (seq_add co l x))
    | _ => UB
    end.
  Definition in_elem_fixed (ds : list (ifun A)) (i : nat) (v : val) (j : tree A) : outcome val :=
    match v with
    | VList l =>
        match nth_error ds i, nth_error l i with
        | Some d, Some x => do x' <- i_parse d x j; Ok (VList (set_nth i x' l))
        | _, _ => UB
        end
    | _ => UB
    end.
  Definition in_scan_map (mk : map_kind) (d : ifun A) (dflt : val) (k : bytes) (v : val) (j : tree A) : option (outcome val) :=
    match v with
    | VMap l =>
        match mk with
        | MFirst =>
            Some (do x <- i_parse d dflt j;
                  Ok (VMap (match map_find k l with Some _ => l | None => map_set k x l end)))
        | MPlace =>
            Some (do x <- i_parse d (match map_find k l with Some x => x | None => dflt end) j;
                  Ok (VMap (map_set k x l)))
        | MAll => Some (do x <- i_parse d dflt j; Ok (VMap (map_add k x l)))
        end
    | _ => Some UB
    end.
  Fixpoint in_scan_members (ns : list bytes) (ds : list (ifun A)) (vs : list val) (k : bytes) (j : tree A)
    : option (outcome (list val)) :=
    match ns, ds, vs with
    | [], [], [] => None
    | n :: ns', d :: ds', v :: vs' =>
        if beq k n then Some (do v' <- i_parse d v j; Ok (v' :: vs'))
        else match in_scan_members ns' ds' vs' k j with
             | Some r => Some (do l <- r; Ok (v :: l))
             | None => None
             end
    | _, _, _ => Some UB
    end.
  Fixpoint in_scan_parents (ds : list (ifun A)) (vs : list val) (k : bytes) (j : tree A) : option (outcome (list val)) :=
    match ds, vs with
    | [], [] => None
    | d :: ds', v :: vs' =>
        match i_scan d k v j with
        | Some r => Some (do v' <- r; Ok (v' :: vs'))
        | None => match in_scan_parents ds' vs' k j with
                  | Some r => Some (do l <- r; Ok (v :: l))
                  | None => None
                  end
        end
    | _, _ => Some UB
    end.
  Definition in_scan_struct (i : sinfo) (dm dp : list (ifun A)) (k : bytes) (v : val) (j : tree A) : option (outcome val) :=
    match v with
    | VStruct own par =>
        match in_scan_parents dp par k j with
        | Some r => Some (do par' <- r; Ok (VStruct own par'))
        | None =>
            match in_scan_members (map (nameOverride i) (si_names i)) dm own k j with
            | Some r => Some (do own' <- r; Ok (VStruct own' par))
            | None => None
            end
        end
    | _ => Some UB
    end.
  (** The class name in front of an object, and the rest of the object. *)
  Definition class_of (j : tree A) : outcome (bytes * tree A) :=
    match j with
    | Obj ((k, jc) :: ms) =>
        do k' <- sc_key sc k;
        if beq k' marker then
          match jc with Scal a => do c <- sc_str sc a; Ok (c, Obj ms) | _ => Throw end
        else Throw
    | _ => Throw
    end.
  Definition in_pointer (rest : tree A -> outcome val) (j : tree A) : outcome val :=
    if null_tree j then (if skippable j then Ok (VPtr None) else Hang) else rest j.

  Fixpoint interp (t : ty) : ifun A :=
    match t with
    | TInt i => mkI (fun _ => in_value (sc_int sc i) VInt) (fun _ _ _ => Some UB)
    | TBool => mkI (fun _ => in_value (sc_bool sc) VBool) (fun _ _ _ => Some UB)
    | TStr => mkI (fun _ => in_value (sc_str sc) VStr) (fun _ _ _ => Some UB)
    | TEnum l =>
        mkI (fun _ j => do v <- in_value (sc_str sc) VStr j;
               match v with
               | VStr s => match enum_value l s with Some z => Ok (VInt z) | None => Throw end
               | _ => UB
               end) (fun _ _ _ => Some UB)
    | TSeq co t' => let d := interp t' in mkI (in_array (in_elem_vec co d (default t'))) (fun _ _ _ => Some UB)
    | TArr n t' => let d := interp t' in mkI (in_array (in_elem_fixed (repeat d n))) (fun _ _ _ => Some UB)
    | TTup ts => let ds := map interp ts in mkI (in_array (in_elem_fixed ds)) (fun _ _ _ => Some UB)
    | TMap fw t' => let d := interp t' in
        let scan := in_scan_map fw d (default t') in mkI (in_map [] scan) scan
    | TPtr t' => let d := interp t' in
        mkI (fun _ => in_pointer (fun j => do x <- i_parse d (default t') j; Ok (VPtr (Some x)))) (fun _ _ _ => Some UB)
    | TOpt t' => let d := interp t' in
        mkI (fun v j =>
               match v with
               | VOpt o => do x <- i_parse d (match o with Some x => x | None => default t' end) j; Ok (VOpt (Some x))
               | _ => UB
               end) (fun _ _ _ => Some UB)
    | TStruct i ms ps =>
        let scan := in_scan_struct i (map interp ms) (map interp ps) in
        mkI (in_map (required (TStruct i ms ps)) scan) scan
    | TPoly cs others =>
        let ds := map interp cs in
        mkI (fun _ => in_pointer (fun j =>
               do (c, j') <- class_of j;
               match find_class cs c with
               | Some k =>
                   match nth_error cs k, nth_error ds k with
                   | Some tk, Some d => do x <- i_parse d (default tk) j'; Ok (VPtr (Some (VVar k x)))
                   | _, _ => UB
                   end
               | None => if existsb (beq c) others then UB else Throw
               end)) (fun _ _ _ => Some UB)
    | TVariant cs =>
        let ds := map interp cs in
        mkI (fun v j =>
               do (c, j') <- class_of j;
               match find_class cs c with
               | Some k =>
                   match nth_error cs k, nth_error ds k with
                   | Some tk, Some d => do x <- i_parse d (default tk) j'; Ok (VVar k x)
                   | _, _ => UB
                   end
               | None => Throw
               end) (fun _ _ _ => Some UB)
    end.

  (** ** Agreement with the token machine. *)
  (** No class name reads as null, or this does not matter. *)
  Definition str_not_null : Prop := forall a c, sc_str sc a = Ok c -> sc_null sc a = false.
  Definition tame (t : ty) : Prop := str_not_null \/ (sc_lag sc = false /\ Typed.wf t = true).
  Variable F : nat.

  Notation T := (tree_ops sc).
  Definition st (p : pend A) (es : list (ev A)) : pst (tm A) := mkPst (mkTm true p es) TokError TokError.

  Definition first_tok (j : tree A) : token :=
    match j with Scal _ => TokValue | Arr _ => TokArrayStart | Obj _ => TokMapStart end.
  (** State just after the first token of [j]. *)
  Definition after_first (j : tree A) (rest : list (ev A)) : pst (tm A) :=
    match j with
    | Scal a => st (PVal a) rest
    | Arr l => st (PFree false) (flat_map events l ++ EArrE :: rest)
    | Obj l => st (PFree false) (member_events l ++ EMapE :: rest)
    end.
  Definition fin (j : tree A) (rest : list (ev A)) : pst (tm A) := st (PFree (end_null j)) rest.
  (** [p] is about to read [j]. *)
  Definition before (j : tree A) (rest : list (ev A)) (p : pst (tm A)) : Prop :=
    getToken T p = Ok (first_tok j, after_first j rest).

  Definition size (j : tree A) : nat := length (events j).

  Lemma before_st : forall j rest b, before j rest (st (PFree b) (events j ++ rest)).
  Proof.
    intros [a|l|l] rest b; unfold before; cbn; rewrite <- ?app_assoc; reflexivity.
  Qed.
  Lemma before_push : forall j rest, before j rest (pushBackToken (first_tok j) (after_first j rest)).
  Proof. intros [a|l|l] rest; reflexivity. Qed.

  Definition Pf (d : dfun (tm A)) (f : ifun A) : Prop :=
    (forall v j rest p, before j rest p -> (size j <= F)%nat ->
       d_parse d v p = do v' <- i_parse f v j; Ok (v', fin j rest)) /\
    (forall k v j rest b, (size j <= F)%nat ->
       d_scan d k v (st (PFree b) (events j ++ rest)) =
       match i_scan f k v j with
       | Some o => Some (do v' <- o; Ok (v', fin j rest))
       | None => None
       end).

  Lemma bind_assoc : forall {X Y Z} (x : outcome X) (f : X -> outcome Y) (g : Y -> outcome Z),
    bind (bind x f) g = bind x (fun a => bind (f a) g).
  Proof. intros X Y Z [a| | |] f g; reflexivity. Qed.

  Lemma in_value_ok : forall {B} (rd : A -> outcome B) mk j rest p, before j rest p ->
    read_value T (tm_val sc rd) mk p = do v' <- in_value rd mk j; Ok (v', fin j rest).
  Proof.
    intros B rd mk j rest p H. unfold read_value. rewrite H. cbn [bind].
    destruct j as [a|l|l]; cbn [first_tok after_first in_value bind]; try reflexivity.
    unfold lift. cbn. destruct (rd a); reflexivity.
  Qed.

  (** Skipping. *)
  Lemma app_cons_not_nil' : forall {X} (a : list X) x b, a ++ x :: b <> [].
  Proof. intros X [|y a] x b; discriminate. Qed.
  Lemma ign_value_S : forall f s, ign_value T (S f) s =
    (do (t, s) <- tm_next sc s;
     match t with
     | TokValue => tm_ignore sc s | TokMapStart => ign_map T f s | TokArrayStart => ign_arr T f s | _ => Throw
     end).
  Proof. reflexivity. Qed.
  Lemma ign_map_S : forall f s, ign_map T (S f) s =
    (do (t, s) <- tm_next sc s;
     match t with
     | TokMapEnd => Ok s
     | _ => do s <- tm_ignore sc s;
            match t with TokKey => do s <- ign_value T f s; ign_map T f s | _ => Throw end
     end).
  Proof. reflexivity. Qed.
  Lemma ign_arr_S : forall f s, ign_arr T (S f) s =
    (do (t, s) <- tm_next sc s;
     match t with
     | TokArrayEnd => Ok s
     | TokValue => do s <- tm_ignore sc s; ign_arr T f s
     | TokMapStart => do s <- ign_map T f s; ign_arr T f s
     | TokArrayStart => do s <- ign_arr T f s; ign_arr T f s
     | _ => Throw
     end).
  Proof. reflexivity. Qed.

  Lemma size_pos : forall j, (1 <= size j)%nat.
  Proof. intros [a|l|l]; unfold size; cbn; lia. Qed.

  Definition skips (j : tree A) : Prop :=
    forall f b rest, (size j <= f)%nat -> rest <> [] -> skippable j = true ->
    ign_value T f (mkTm true (PFree b) (events j ++ rest)) = Ok (mkTm true (PFree (end_null j)) rest).

  Definition sizes (l : list (tree A)) : nat := fold_right (fun j n => (size j + n)%nat) O l.
  Definition msizes (l : list (bytes * tree A)) : nat := fold_right (fun kv n => (S (size (snd kv)) + n)%nat) O l.
  Lemma size_arr : forall l, size (Arr l) = S (S (sizes l)).
  Proof.
    intros l. unfold sizes, size. cbn [events length]. rewrite app_length. cbn [length].
    replace (length (flat_map events l)) with (fold_right (fun j n => (length (events j) + n)%nat) O l).
    - lia.
    - induction l as [|j l IH]; cbn; [reflexivity|]. rewrite app_length. lia.
  Qed.
  Lemma size_obj : forall l, size (Obj l) = S (S (msizes l)).
  Proof.
    intros l. unfold msizes, size. cbn [events length]. rewrite app_length. cbn [length].
    assert (H : length (flat_map (fun kv : list Z * tree A => EKey (fst kv) :: events (snd kv)) l)
                = fold_right (fun kv n => (S (length (events (snd kv))) + n)%nat) O l).
    { unfold bytes in *. induction l as [|kv l IH]; [reflexivity|]. cbn [flat_map fold_right].
      rewrite app_length, IH. cbn [length]. lia. }
    unfold bytes in *. rewrite H. lia.
  Qed.

  Lemma ign_arr_ok : forall l, Forall skips l -> forall f b rest, (S (sizes l) <= f)%nat -> forallb skippable l = true ->
    ign_arr T f (mkTm true (PFree b) (flat_map events l ++ EArrE :: rest)) = Ok (mkTm true (PFree (end_elems b l)) rest).
  Proof.
    induction l as [|j l IH]; intros Hall f b rest Hf Hs; (destruct f as [|f]; [lia|]).
    - reflexivity.
    - inversion Hall as [|? ? Hj Hl]; subst. cbn [forallb] in Hs. apply andb_prop in Hs as [Hs1 Hs2].
      cbn [sizes fold_right] in Hf. fold (sizes l) in Hf. assert (Sp := size_pos j).
      (* compare with one ign_value step *)
      specialize (Hj (S f) b (flat_map events l ++ EArrE :: rest) ltac:(lia) (app_cons_not_nil' _ _ _) Hs1).
      cbn [flat_map]. rewrite <- app_assoc. rewrite ign_arr_S. rewrite ign_value_S in Hj.
      destruct j as [a|l'|l']; cbn [events app op_next tree_ops tm_next tm_on negb tm_pend tm_evs bind ev_token ev_pend
        op_ignoreArr op_ignoreMap op_ignore] in *.
      + rewrite Hj. cbn [bind]. apply IH; try assumption; lia.
      + rewrite Hj. cbn [bind]. apply IH; try assumption; lia.
      + rewrite Hj. cbn [bind]. apply IH; try assumption; lia.
  Qed.
  Lemma ign_map_ok : forall l, Forall (fun kv => skips (snd kv)) l -> forall f b rest, (S (msizes l) <= f)%nat ->
    forallb (fun kv => sc_kskip sc (fst kv) && skippable (snd kv)) l = true ->
    ign_map T f (mkTm true (PFree b) (member_events l ++ EMapE :: rest)) = Ok (mkTm true (PFree (end_mems b l)) rest).
  Proof.
    induction l as [|[k j] l IH]; intros Hall f b rest Hf Hs; (destruct f as [|f]; [lia|]).
    - reflexivity.
    - inversion Hall as [|? ? Hj Hl]; subst. cbn [forallb fst snd] in Hs, Hj. apply andb_prop in Hs as [Hs1 Hs2].
      apply andb_prop in Hs1 as [Hk Hs1].
      cbn [msizes fold_right snd] in Hf. fold (msizes l) in Hf. assert (Sp := size_pos j).
      unfold member_events. cbn [flat_map fst snd]. fold (member_events l). rewrite <- app_assoc. rewrite ign_map_S.
      cbn [app op_next tree_ops tm_next tm_on negb tm_pend tm_evs bind ev_token ev_pend op_ignore tm_ignore].
      rewrite Hk. cbn [bind]. rewrite (Hj f _ (member_events l ++ EMapE :: rest)); [|lia|apply app_cons_not_nil'|exact Hs1].
      cbn [bind]. apply IH; try assumption; lia.
  Qed.
  Lemma skips_all : forall j, skips j.
  Proof.
    apply tree_ind'.
    - intros a f b rest Hf Hr Hs. destruct f as [|f]; [cbn in Hf; lia|]. destruct rest; [congruence|]. cbn in *.
      rewrite Hs, orb_true_r. reflexivity.
    - intros l Hl f b rest Hf Hr Hs. rewrite size_arr in Hf. destruct f as [|f]; [lia|].
      rewrite ign_value_S. cbn [events app op_next tree_ops tm_next tm_on negb tm_pend tm_evs bind ev_token ev_pend op_ignoreArr].
      rewrite <- app_assoc. apply (ign_arr_ok l Hl); [lia|exact Hs].
    - intros l Hl f b rest Hf Hr Hs. rewrite size_obj in Hf. destruct f as [|f]; [lia|].
      rewrite ign_value_S. cbn [events app op_next tree_ops tm_next tm_on negb tm_pend tm_evs bind ev_token ev_pend op_ignoreMap].
      rewrite <- app_assoc. apply (ign_map_ok l Hl); [lia|exact Hs].
  Qed.

  (** An unskippable tree makes the skipping unspecified. *)
  Definition noskips (j : tree A) : Prop :=
    forall f b rest, (size j <= f)%nat -> skippable j = false ->
    ign_value T f (mkTm true (PFree b) (events j ++ rest)) = Hang.
  Lemma noskips_arr : forall l, Forall noskips l -> forall f b rest, (S (sizes l) <= f)%nat -> forallb skippable l = false ->
    ign_arr T f (mkTm true (PFree b) (flat_map events l ++ EArrE :: rest)) = Hang.
  Proof.
    induction l as [|j l IH]; intros Hall f b rest Hf Hs; (destruct f as [|f]; [lia|]).
    - discriminate Hs.
    - inversion Hall as [|? ? Hj Hl]; subst. cbn [forallb] in Hs.
      cbn [sizes fold_right] in Hf. fold (sizes l) in Hf. assert (Sp := size_pos j).
      cbn [flat_map]. rewrite <- app_assoc. rewrite ign_arr_S.
      destruct (skippable j) eqn:Ej.
      + cbn [andb] in Hs. assert (Hk := skips_all j (S f) b (flat_map events l ++ EArrE :: rest) ltac:(lia) (app_cons_not_nil' _ _ _) Ej).
        rewrite ign_value_S in Hk.
        destruct j as [a|l'|l']; cbn [events app op_next tree_ops tm_next tm_on negb tm_pend tm_evs bind ev_token ev_pend
          op_ignoreArr op_ignoreMap op_ignore] in *; rewrite Hk; cbn [bind]; apply IH; try assumption; lia.
      + assert (Hk := Hj (S f) b (flat_map events l ++ EArrE :: rest) ltac:(lia) Ej). rewrite ign_value_S in Hk.
        destruct j as [a|l'|l']; cbn [events app op_next tree_ops tm_next tm_on negb tm_pend tm_evs bind ev_token ev_pend
          op_ignoreArr op_ignoreMap op_ignore] in *; rewrite Hk; reflexivity.
  Qed.
  Lemma noskips_map : forall l, Forall (fun kv => noskips (snd kv)) l -> forall f b rest, (S (msizes l) <= f)%nat ->
    forallb (fun kv => sc_kskip sc (fst kv) && skippable (snd kv)) l = false ->
    ign_map T f (mkTm true (PFree b) (member_events l ++ EMapE :: rest)) = Hang.
  Proof.
    induction l as [|[k j] l IH]; intros Hall f b rest Hf Hs; (destruct f as [|f]; [lia|]).
    - discriminate Hs.
    - inversion Hall as [|? ? Hj Hl]; subst. cbn [forallb fst snd] in Hs, Hj.
      cbn [msizes fold_right snd] in Hf. fold (msizes l) in Hf. assert (Sp := size_pos j).
      unfold member_events. cbn [flat_map fst snd]. fold (member_events l). rewrite <- app_assoc. rewrite ign_map_S.
      cbn [app op_next tree_ops tm_next tm_on negb tm_pend tm_evs bind ev_token ev_pend op_ignore tm_ignore].
      destruct (sc_kskip sc k); [|reflexivity]. cbn [bind andb] in *.
      destruct (skippable j) eqn:Ej.
      + rewrite (skips_all j f _ (member_events l ++ EMapE :: rest)); [|lia|apply app_cons_not_nil'|exact Ej].
        cbn [bind andb] in *. apply IH; try assumption; lia.
      + rewrite (Hj f _ (member_events l ++ EMapE :: rest)); [|lia|exact Ej]. reflexivity.
  Qed.
  Lemma noskips_all : forall j, noskips j.
  Proof.
    apply tree_ind'.
    - intros a f b rest Hf Hs. destruct f as [|f]; [cbn in Hf; lia|]. cbn in *. rewrite Hs. reflexivity.
    - intros l Hl f b rest Hf Hs. rewrite size_arr in Hf. destruct f as [|f]; [lia|].
      rewrite ign_value_S. cbn [events app op_next tree_ops tm_next tm_on negb tm_pend tm_evs bind ev_token ev_pend op_ignoreArr].
      rewrite <- app_assoc. apply (noskips_arr l Hl); [lia|exact Hs].
    - intros l Hl f b rest Hf Hs. rewrite size_obj in Hf. destruct f as [|f]; [lia|].
      rewrite ign_value_S. cbn [events app op_next tree_ops tm_next tm_on negb tm_pend tm_evs bind ev_token ev_pend op_ignoreMap].
      rewrite <- app_assoc. apply (noskips_map l Hl); [lia|exact Hs].
  Qed.

  Lemma ignoreValue_ok : forall j b rest, (size j <= F)%nat -> rest <> [] ->
    ignoreValue T m F (st (PFree b) (events j ++ rest)) =
    match m with
    | Weak => if skippable j then Ok (st (PFree (end_null j)) rest) else Hang
    | _ => Throw
    end.
  Proof.
    intros j b rest Hf Hr. unfold ignoreValue. destruct m; try reflexivity.
    unfold lift_, st. cbn [ps_impl]. destruct (skippable j) eqn:E.
    - rewrite (skips_all j); [reflexivity|exact Hf|exact Hr|exact E].
    - rewrite (noskips_all j); [reflexivity|exact Hf|exact E].
  Qed.

  (** Objects. *)
  Definition Ps (ds : bytes -> val -> pst (tm A) -> option (outcome (val * pst (tm A))))
                (fs : bytes -> val -> tree A -> option (outcome val)) : Prop :=
    forall k v j rest b, (size j <= F)%nat ->
       ds k v (st (PFree b) (events j ++ rest)) =
       match fs k v j with
       | Some o => Some (do v' <- o; Ok (v', fin j rest))
       | None => None
       end.

  Lemma in_members_ok : forall ds fs, Ps ds fs -> forall l n v found b rest,
    (S (msizes l) <= n)%nat -> (msizes l <= F)%nat ->
    obj_loop T F m n ds v found (st (PFree b) (member_events l ++ EMapE :: rest)) =
    do (v', found') <- in_members fs v found l; Ok (v', found', st (PFree (end_mems b l)) rest).
  Proof.
    intros ds fs H. induction l as [|[k j] l IH]; intros n v found b rest Hn HF; (destruct n as [|n]; [lia|]).
    - reflexivity.
    - cbn [msizes fold_right snd] in Hn, HF. fold (msizes l) in Hn, HF.
      unfold member_events. cbn [flat_map fst snd]. fold (member_events l). rewrite <- app_assoc.
      cbn [obj_loop in_members].
      unfold getToken, lift, st. cbn [ps_pb1 ps_pb2 ps_impl token_eqb negb].
      cbn [app op_next tree_ops tm_next tm_on negb tm_pend tm_evs bind ev_token ev_pend op_key tm_key ps_impl ps_pb1 ps_pb2].
      destruct (sc_key sc k) as [k'| | |]; cbn [bind]; try reflexivity.
      set (kn := key_null sc _ _).
      change (mkPst (mkTm true (PFree kn) (events j ++ member_events l ++ EMapE :: rest)) TokError TokError)
        with (st (PFree kn) (events j ++ (member_events l ++ EMapE :: rest))).
      rewrite (H k' v j (member_events l ++ EMapE :: rest) kn) by lia.
      destruct (fs k' v j) as [o|].
      + destruct o as [v'| | |]; cbn [bind]; try reflexivity. unfold fin. rewrite IH by lia. reflexivity.
      + rewrite ignoreValue_ok by (lia || apply app_cons_not_nil'). destruct m; cbn [bind]; try reflexivity.
        destruct (skippable j); cbn [bind]; [|reflexivity]. rewrite IH by lia. reflexivity.
  Qed.

  Lemma in_map_ok : forall req ds fs, Ps ds fs -> forall v j rest p, before j rest p -> (size j <= F)%nat ->
    read_map T F m req ds v p = do v' <- in_map req fs v j; Ok (v', fin j rest).
  Proof.
    intros req ds fs H v j rest p Hb Hf. unfold read_map. rewrite Hb. cbn [bind].
    destruct j as [a|l|l]; cbn [first_tok in_map bind]; try reflexivity.
    rewrite size_obj in Hf.
    cbn [after_first]. rewrite (in_members_ok _ _ H) by lia.
    destruct (in_members fs v [] l) as [[v' found]| | |]; cbn [bind]; try reflexivity.
    destruct m; cbn [bind]; try reflexivity. destruct (forallb _ req); reflexivity.
  Qed.

  (** Arrays. *)
  Definition Pe (de : nat -> val -> pst (tm A) -> outcome (val * pst (tm A)))
                (fe : nat -> val -> tree A -> outcome val) : Prop :=
    forall i v j rest p, before j rest p -> (size j <= F)%nat ->
    de i v p = do v' <- fe i v j; Ok (v', fin j rest).

  Lemma in_elems_ok : forall de fe, Pe de fe -> forall l n i v b rest,
    (S (sizes l) <= n)%nat -> (sizes l <= F)%nat ->
    arr_loop T n de i v (st (PFree b) (flat_map events l ++ EArrE :: rest)) =
    do v' <- in_elems fe i v l; Ok (v', st (PFree (end_elems b l)) rest).
  Proof.
    intros de fe H. induction l as [|j l IH]; intros n i v b rest Hn HF; (destruct n as [|n]; [lia|]).
    - reflexivity.
    - cbn [sizes fold_right] in Hn, HF. fold (sizes l) in Hn, HF. assert (Sp := size_pos j).
      cbn [flat_map]. rewrite <- app_assoc.
      cbn [arr_loop in_elems]. rewrite (before_st j (flat_map events l ++ EArrE :: rest) b). cbn [bind].
      rewrite bind_assoc.
      assert (E : de i v (pushBackToken (first_tok j) (after_first j (flat_map events l ++ EArrE :: rest)))
                  = do v' <- fe i v j; Ok (v', fin j (flat_map events l ++ EArrE :: rest))).
      { apply H; [apply before_push|lia]. }
      destruct j as [a|l'|l']; cbn [first_tok] in *; rewrite E; destruct (fe i v _); cbn [bind]; try reflexivity;
        unfold fin; apply IH; lia.
  Qed.
  Lemma in_array_ok : forall de fe, Pe de fe -> forall v j rest p, before j rest p -> (size j <= F)%nat ->
    read_array T F de v p = do v' <- in_array fe v j; Ok (v', fin j rest).
  Proof.
    intros de fe H v j rest p Hb Hf. unfold read_array. rewrite Hb. cbn [bind].
    destruct j as [a|l|l]; cbn [first_tok in_array bind]; try reflexivity.
    rewrite size_arr in Hf. cbn [after_first]. rewrite (in_elems_ok _ _ H) by lia. reflexivity.
  Qed.
  Lemma in_elem_vec_ok : forall co d f dflt, Pf d f -> Pe (elem_vec co d dflt) (in_elem_vec co f dflt).
  Proof.
    intros co d f dflt [H _] i v j rest p Hb Hf. unfold elem_vec, in_elem_vec. destruct v; try reflexivity.
    rewrite (H _ j rest p Hb Hf). destruct (i_parse f dflt j); reflexivity.
  Qed.
  Lemma in_elem_fixed_ok : forall ds fs, Forall2 Pf ds fs -> Pe (elem_fixed ds) (in_elem_fixed fs).
  Proof.
    intros ds fs H i v j rest p Hb Hf. unfold elem_fixed, in_elem_fixed. destruct v; try reflexivity.
    assert (N := Forall2_nth _ _ _ H i).
    destruct (nth_error ds i) as [d|], (nth_error fs i) as [f|]; try contradiction; try reflexivity.
    destruct (nth_error l i) as [x|]; try reflexivity.
    rewrite (proj1 N _ j rest p Hb Hf). destruct (i_parse f x j); reflexivity.
  Qed.

  Lemma in_scan_map_ok : forall fw d f dflt, Pf d f -> Ps (scan_map fw d dflt) (in_scan_map fw f dflt).
  Proof.
    intros fw d f dflt [H _] k v j rest b Hf. unfold scan_map, in_scan_map. destruct v; try reflexivity.
    destruct fw; f_equal; rewrite (H _ j rest _ (before_st j rest b) Hf);
      match goal with |- context [i_parse f ?x j] => destruct (i_parse f x j) end; reflexivity.
  Qed.
  Lemma in_scan_members_ok : forall ns ds fs, Forall2 Pf ds fs -> forall vs k j rest b, (size j <= F)%nat ->
    scan_members ns ds vs k (st (PFree b) (events j ++ rest)) =
    match in_scan_members ns fs vs k j with
    | Some o => Some (do v' <- o; Ok (v', fin j rest))
    | None => None
    end.
  Proof.
    induction ns as [|n ns IH]; intros ds fs H vs k j rest b Hf; destruct H as [|d f ds fs Hd H];
      destruct vs as [|v vs]; cbn [scan_members in_scan_members]; try reflexivity.
    destruct (beq k n).
    - f_equal. rewrite (proj1 Hd _ j rest _ (before_st j rest b) Hf). destruct (i_parse f v j); reflexivity.
    - rewrite (IH ds fs H vs k j rest b Hf). destruct (in_scan_members ns fs vs k j) as [o|]; [|reflexivity].
      f_equal. destruct o; reflexivity.
  Qed.
  Lemma in_scan_parents_ok : forall ds fs, Forall2 Pf ds fs -> forall vs k j rest b, (size j <= F)%nat ->
    scan_parents ds vs k (st (PFree b) (events j ++ rest)) =
    match in_scan_parents fs vs k j with
    | Some o => Some (do v' <- o; Ok (v', fin j rest))
    | None => None
    end.
  Proof.
    intros ds fs H. induction H as [|d f ds fs Hd H IH]; intros vs k j rest b Hf;
      destruct vs as [|v vs]; cbn [scan_parents in_scan_parents]; try reflexivity.
    rewrite (proj2 Hd k v j rest b Hf). destruct (i_scan f k v j) as [o|].
    - f_equal. destruct o; reflexivity.
    - rewrite (IH vs k j rest b Hf). destruct (in_scan_parents fs vs k j) as [o|]; [|reflexivity].
      f_equal. destruct o; reflexivity.
  Qed.
  Lemma in_scan_struct_ok : forall i dm dp fm fp, Forall2 Pf dm fm -> Forall2 Pf dp fp ->
    Ps (scan_struct i dm dp) (in_scan_struct i fm fp).
  Proof.
    intros i dm dp fm fp Hm Hp k v j rest b Hf. unfold scan_struct, in_scan_struct. destruct v; try reflexivity.
    rewrite (in_scan_parents_ok _ _ Hp parents k j rest b Hf). destruct (in_scan_parents fp parents k j) as [o|].
    - f_equal. destruct o; reflexivity.
    - rewrite (in_scan_members_ok _ _ _ Hm own k j rest b Hf).
      destruct (in_scan_members _ fm own k j) as [o|]; [|reflexivity]. f_equal. destruct o; reflexivity.
  Qed.

  (** [p] is about to read an object of a class; what "was it null" answers does not matter. *)
  Definition before_class (l : list (bytes * tree A)) (rest : list (ev A)) (p : pst (tm A)) : Prop :=
    exists b, getToken T p = Ok (TokMapStart, st (PFree b) (member_events l ++ EMapE :: rest)).
  Lemma class_name_ok : forall j rest p, before j rest p ->
    match class_of j with
    | Ok (c, j') => exists p' l, read_class_name T marker p = Ok (c, p') /\ j' = Obj l /\ before_class l rest p' /\
                    (size j' <= size j)%nat /\ (str_not_null -> before j' rest p') /\
                    (str_not_null \/ sc_lag sc = false -> end_null j = end_null j') /\
                    (exists b, p' = mkPst (mkTm true (PFree b) (member_events l ++ EMapE :: rest)) TokMapStart TokError)
    | Throw => read_class_name T marker p = Throw
    | UB => read_class_name T marker p = UB
    | Hang => read_class_name T marker p = Hang
    end.
  Proof.
    intros j rest p Hb. unfold class_of, read_class_name. rewrite Hb. cbn [bind].
    destruct j as [a|l|l]; cbn [first_tok after_first]; try reflexivity.
    destruct l as [|[k jc] ms]; [reflexivity|].
    unfold member_events. cbn [flat_map fst snd]. fold (member_events ms).
    unfold getToken, lift, st. cbn [ps_pb1 ps_pb2 ps_impl token_eqb negb app op_next tree_ops tm_next tm_on tm_pend tm_evs
      bind ev_token ev_pend op_key tm_key].
    destruct (sc_key sc k) as [k'| | |]; cbn [bind]; try reflexivity.
    destruct (beq k' marker); [|reflexivity].
    cbn [ps_pb1 ps_pb2 ps_impl token_eqb negb]. destruct jc as [a|l|l].
    2,3: cbn; reflexivity.
    cbn [events app tm_next tm_on negb tm_pend tm_evs bind ev_token ev_pend ps_impl ps_pb1 ps_pb2 op_str tree_ops].
    unfold tm_val. cbn [tm_pend].
    destruct (sc_str sc a) as [c| | |] eqn:Es; cbn [bind]; try reflexivity.
    eexists. exists ms. split; [reflexivity|]. cbn [tm_on tm_evs]. split; [reflexivity|].
    split; [exists (sc_null sc a); reflexivity|]. split.
    { rewrite !size_obj. unfold msizes. cbn [fold_right snd]. lia. }
    split; [intro N; rewrite (N a c Es); reflexivity|]. split; [|exists (sc_null sc a); reflexivity].
    cbn [end_null fold_left snd]. intros [N| ->]; [rewrite (N a c Es); reflexivity|reflexivity].
  Qed.
  (** Reading an object of a class does not ask whether something was null. *)
  Lemma class_parse : forall t, Typed.is_class t = true ->
    (forall k v j rest b, (size j <= F)%nat ->
       d_scan (deser T F m marker t) k v (st (PFree b) (events j ++ rest)) =
       match i_scan (interp t) k v j with Some o => Some (do v' <- o; Ok (v', fin j rest)) | None => None end) ->
    forall v l rest p, before_class l rest p -> (size (Obj l) <= F)%nat ->
    d_parse (deser T F m marker t) v p = (do v' <- i_parse (interp t) v (Obj l); Ok (v', st (PFree (end_mems false l)) rest)) \/
    sc_lag sc = true.
  Proof.
    intros t C H v l rest p (b & E) Hf. destruct (sc_lag sc) eqn:Lag; [now right|]. left.
    destruct t as [| | | | | | | | | |si ms ps| |]; try discriminate C. cbn [deser interp d_parse i_parse]. unfold read_map. rewrite E. cbn [bind in_map].
    rewrite size_obj in Hf. rewrite (in_members_ok _ _ H) by lia. unfold end_mems. rewrite Lag. cbn [andb].
    destruct (in_members _ v [] l) as [[v' found]| | |]; cbn [bind]; try reflexivity.
    destruct m; cbn [bind]; try reflexivity. destruct (forallb _ _); reflexivity.
  Qed.
  (** The object of the class that was found. *)
  Lemma chosen_ok : forall t j c l rest p' v, tame t -> (str_not_null \/ Typed.is_class t = true) ->
    Pf (deser T F m marker t) (interp t) ->
    class_of j = Ok (c, Obj l) -> before_class l rest p' -> (str_not_null -> before (Obj l) rest p') ->
    (str_not_null \/ sc_lag sc = false -> end_null j = end_null (Obj l)) -> (size (Obj l) <= F)%nat ->
    d_parse (deser T F m marker t) v p' = do v' <- i_parse (interp t) v (Obj l); Ok (v', fin j rest).
  Proof.
    intros t j c l rest p' v Ht Hc H _ Hb' Hb Hn Hf. unfold fin. destruct Ht as [N|[Lag W]].
    - rewrite (Hn (or_introl N)). apply (proj1 H); auto.
    - rewrite (Hn (or_intror Lag)). destruct Hc as [N|C]; [apply (proj1 H); auto|].
      destruct (class_parse t C (proj2 H) v l rest p' Hb' Hf) as [->|L]; [|congruence].
      cbn [end_null]. unfold end_mems. now rewrite Lag.
  Qed.

  Lemma in_pointer_ok : forall dr fr,
    (forall j rest p, before j rest p -> (size j <= F)%nat -> dr p = do v' <- fr j; Ok (v', fin j rest)) ->
    forall j rest p, before j rest p -> (size j <= F)%nat ->
    read_pointer T dr p = do v' <- in_pointer fr j; Ok (v', fin j rest).
  Proof.
    intros dr fr H j rest p Hb Hf. unfold read_pointer, in_pointer. rewrite Hb. cbn [bind].
    assert (E : op_null T (ps_impl (after_first j rest)) = null_tree j) by (destruct j; reflexivity).
    rewrite E. destruct (null_tree j) eqn:En.
    - destruct j as [a|l|l]; try discriminate En. cbn [after_first skippable].
      unfold lift_, st, fin, null_tree, st. cbn in *. rewrite En. cbn. destruct (sc_skip sc a); cbn; rewrite ?En; reflexivity.
    - apply H; [apply before_push|exact Hf].
  Qed.

  Lemma tame_seq : forall co t, tame (TSeq co t) -> tame t.
  Proof. intros co t [N|[L W]]; [now left|]. right. split; [exact L|]. cbn [Typed.wf] in W. now apply andb_prop in W. Qed.
  Lemma tame_in : forall t ts, In t ts -> tame (TTup ts) -> tame t.
  Proof. intros t ts I [N|[L W]]; [now left|]. right. split; [exact L|]. cbn [Typed.wf] in W. rewrite forallb_forall in W. auto. Qed.
  Lemma tame_class : forall t cs, In t cs -> str_not_null \/ (sc_lag sc = false /\ forallb (fun c => Typed.is_class c && Typed.wf c) cs = true) ->
    tame t /\ (str_not_null \/ Typed.is_class t = true).
  Proof.
    intros t cs I [N|[L W]]; [split; now left|]. rewrite forallb_forall in W. destruct (andb_prop _ _ (W t I)) as [C W']. split; right; auto.
  Qed.
  Theorem interp_parse : forall t, tame t -> Pf (deser T F m marker t) (interp t).
  Proof.
    assert (Noscan : forall k v j rest b, (size j <= F)%nat ->
       (fun (_ : bytes) (_ : val) (_ : pst (tm A)) => Some (@UB (val * pst (tm A)))) k v (st (PFree b) (events j ++ rest)) =
       match (fun (_ : bytes) (_ : val) (_ : tree A) => Some (@UB val)) k v j with
       | Some o => Some (do v' <- o; Ok (v', fin j rest)) | None => None end) by reflexivity.
    assert (All : forall ts, Forall (fun t => tame t -> Pf (deser T F m marker t) (interp t)) ts -> (forall t, In t ts -> tame t) ->
              Forall (fun t => Pf (deser T F m marker t) (interp t)) ts).
    { intros ts H Ht. rewrite Forall_forall in *. auto. }
    apply (ty_ind' (fun t => tame t -> Pf (deser T F m marker t) (interp t))); intros; cbn [deser interp].
    - split; [|exact Noscan]. intros v j rest p Hb _. cbn [d_parse i_parse]. now apply in_value_ok.
    - split; [|exact Noscan]. intros v j rest p Hb _. cbn [d_parse i_parse]. now apply in_value_ok.
    - split; [|exact Noscan]. intros v j rest p Hb _. cbn [d_parse i_parse]. now apply in_value_ok.
    - split; [|exact Noscan]. intros v j rest p Hb _. cbn [d_parse i_parse].
      cbn [op_str tree_ops]. rewrite (in_value_ok _ _ j rest p Hb), !bind_assoc.
      destruct (in_value (sc_str sc) VStr j) as [w| | |]; cbn [bind]; try reflexivity.
      destruct w; try reflexivity. destruct (enum_value l s); reflexivity.
    - split; [|exact Noscan]. intros v j rest p Hb Hf. cbn [d_parse i_parse].
      apply in_array_ok; try assumption. now apply in_elem_vec_ok, H, (tame_seq co).
    - split; [|exact Noscan]. intros v j rest p Hb Hf. cbn [d_parse i_parse].
      apply in_array_ok; try assumption. apply in_elem_fixed_ok. now apply Forall2_repeat, H.
    - split; [|exact Noscan]. intros v j rest p Hb Hf. cbn [d_parse i_parse].
      apply in_array_ok; try assumption. apply in_elem_fixed_ok. apply Forall2_map, All; [exact H|]. intros t It. now apply (tame_in t ts).
    - assert (Hs : Ps (scan_map b (deser T F m marker t) (default t)) (in_scan_map b (interp t) (default t)))
        by now apply in_scan_map_ok, H.
      split; [|exact Hs]. intros v j rest p Hb Hf. cbn [d_parse i_parse]. now apply in_map_ok.
    - assert (Ht := H H0). split; [|exact Noscan]. intros v j rest p Hb Hf. cbn [d_parse i_parse].
      apply in_pointer_ok; try assumption. intros j' rest' p' Hb' Hf'.
      rewrite (proj1 Ht _ j' rest' p' Hb' Hf'). destruct (i_parse (interp t) (default t) j'); reflexivity.
    - assert (Ht := H H0). split; [|exact Noscan]. intros v j rest p Hb Hf. cbn [d_parse i_parse]. destruct v; try reflexivity.
      rewrite (proj1 Ht _ j rest p Hb Hf).
      match goal with |- context [i_parse (interp t) ?x j] => destruct (i_parse (interp t) x j) end; reflexivity.
    - assert (Hs : Ps (scan_struct i (map (deser T F m marker) ms) (map (deser T F m marker) ps))
                      (in_scan_struct i (map interp ms) (map interp ps))).
      { apply in_scan_struct_ok; apply Forall2_map, All; try assumption; intros t It; destruct H1 as [N|[L W]]; try (now left); right; (split; [exact L|]);
          cbn [Typed.wf] in W; repeat match type of W with _ && _ = true => apply andb_prop in W as [W ?] end;
          repeat match goal with X : forallb _ _ = true |- _ => rewrite forallb_forall in X end; auto.
        match goal with X : forall x, In x ps -> _ |- _ => specialize (X t It); now apply andb_prop in X end. }
      split; [|exact Hs]. intros v j rest p Hb Hf. cbn [d_parse i_parse]. now apply in_map_ok.
    - split; [|exact Noscan]. intros v j rest p Hb Hf. cbn [d_parse i_parse].
      apply in_pointer_ok; try assumption. clear v j rest p Hb Hf. intros j rest p Hb Hf.
      assert (C := class_name_ok j rest p Hb). destruct (class_of j) as [[c j']| | |] eqn:Ec; try (rewrite C; reflexivity).
      destruct C as (p' & l & -> & -> & Hc' & Hsz & Hb' & Hn & _). cbn [bind].
      destruct (find_class cs c) as [k|]; [|destruct (existsb (beq c) o); reflexivity].
      destruct (nth_error cs k) as [tk|] eqn:Ek; [|reflexivity]. rewrite !nth_error_map, Ek. cbn [option_map].
      destruct (tame_class tk cs (nth_error_In _ _ Ek) ltac:(destruct H0 as [N|[L W]]; [now left|right; cbn [Typed.wf] in W; try (apply andb_prop in W as [W _]); now split])) as [Tk Ck]. rewrite Forall_forall in H.
      rewrite (chosen_ok tk j c l rest p' (default tk) Tk Ck (H tk (nth_error_In _ _ Ek) Tk) Ec Hc' Hb' Hn ltac:(lia)).
      destruct (i_parse (interp tk) (default tk) (Obj l)); reflexivity.
    - split; [|exact Noscan]. intros v j rest p Hb Hf. cbn [d_parse i_parse].
      assert (C := class_name_ok j rest p Hb). destruct (class_of j) as [[c j']| | |] eqn:Ec; try (rewrite C; reflexivity).
      destruct C as (p' & l & -> & -> & Hc' & Hsz & Hb' & Hn & (b & Ep)). cbn [bind].
      destruct (find_class cs c) as [k|].
      + destruct (nth_error cs k) as [tk|] eqn:Ek; [|reflexivity]. rewrite !nth_error_map, Ek. cbn [option_map].
        destruct (tame_class tk cs (nth_error_In _ _ Ek) ltac:(destruct H0 as [N|[L W]]; [now left|right; cbn [Typed.wf] in W; try (apply andb_prop in W as [W _]); now split])) as [Tk Ck]. rewrite Forall_forall in H.
        rewrite (chosen_ok tk j c l rest p' (default tk) Tk Ck (H tk (nth_error_In _ _ Ek) Tk) Ec Hc' Hb' Hn ltac:(lia)).
        destruct (i_parse (interp tk) (default tk) (Obj l)); reflexivity.
      + unfold ignoreValue. destruct m; try reflexivity. rewrite Ep. unfold lift_. cbn [ps_impl].
        assert (Sp := size_pos j). destruct F as [|F']; [lia|].
        destruct l as [|[k2 j2] l]; reflexivity.
  Qed.
End Interp.
