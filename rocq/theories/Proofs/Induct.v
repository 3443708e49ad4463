(** Induction principles for the nested types. *)
From Coq Require Import ZArith List.
From Verif Require Import Model.Base Model.Number Model.Types Spec.Json.
Import ListNotations.

Section TyInd.
  Variable P : ty -> Prop.
  Hypotheses
    (H_int : forall i, P (TInt i)) (H_bool : P TBool) (H_str : P TStr) (H_enum : forall l, P (TEnum l))
    (H_vec : forall co t, P t -> P (TSeq co t)) (H_arr : forall n t, P t -> P (TArr n t))
    (H_tup : forall ts, Forall P ts -> P (TTup ts)) (H_map : forall b t, P t -> P (TMap b t))
    (H_ptr : forall t, P t -> P (TPtr t)) (H_opt : forall t, P t -> P (TOpt t))
    (H_struct : forall i ms ps, Forall P ms -> Forall P ps -> P (TStruct i ms ps))
    (H_poly : forall cs o, Forall P cs -> P (TPoly cs o))
    (H_var : forall cs, Forall P cs -> P (TVariant cs)).

  Fixpoint ty_ind' (t : ty) : P t :=
    let fix all (l : list ty) : Forall P l :=
      match l with
      | [] => Forall_nil P
      | x :: r => Forall_cons x (ty_ind' x) (all r)
      end in
    match t with
    | TInt i => H_int i
    | TBool => H_bool
    | TStr => H_str
    | TEnum l => H_enum l
    | TSeq co t => H_vec co t (ty_ind' t)
    | TArr n t => H_arr n t (ty_ind' t)
    | TTup ts => H_tup ts (all ts)
    | TMap b t => H_map b t (ty_ind' t)
    | TPtr t => H_ptr t (ty_ind' t)
    | TOpt t => H_opt t (ty_ind' t)
    | TStruct i ms ps => H_struct i ms ps (all ms) (all ps)
    | TPoly cs o => H_poly cs o (all cs)
    | TVariant cs => H_var cs (all cs)
    end.
End TyInd.

Section ValInd.
  Variable P : val -> Prop.
  Hypotheses
    (H_int : forall z, P (VInt z)) (H_bool : forall b, P (VBool b)) (H_str : forall s, P (VStr s))
    (H_list : forall l, Forall P l -> P (VList l))
    (H_map : forall l, Forall (fun kv => P (snd kv)) l -> P (VMap l))
    (H_ptr0 : P (VPtr None)) (H_ptr : forall v, P v -> P (VPtr (Some v)))
    (H_opt0 : P (VOpt None)) (H_opt : forall v, P v -> P (VOpt (Some v)))
    (H_struct : forall o p, Forall P o -> Forall P p -> P (VStruct o p))
    (H_var : forall i v, P v -> P (VVar i v)).
  Fixpoint val_ind' (v : val) : P v :=
    let fix all (l : list val) : Forall P l :=
      match l with
      | [] => Forall_nil P
      | x :: r => Forall_cons x (val_ind' x) (all r)
      end in
    match v with
    | VInt z => H_int z
    | VBool b => H_bool b
    | VStr s => H_str s
    | VList l => H_list l (all l)
    | VMap l => H_map l ((fix allp (l : list (bytes * val)) : Forall (fun kv => P (snd kv)) l :=
                            match l with
                            | [] => Forall_nil _
                            | x :: r => Forall_cons x (val_ind' (snd x)) (allp r)
                            end) l)
    | VPtr None => H_ptr0
    | VPtr (Some v) => H_ptr v (val_ind' v)
    | VOpt None => H_opt0
    | VOpt (Some v) => H_opt v (val_ind' v)
    | VStruct o p => H_struct o p (all o) (all p)
    | VVar i v => H_var i v (val_ind' v)
    end.
End ValInd.

Section TreeInd.
  Context {A : Type} (P : tree A -> Prop).
  Hypotheses
    (H_scal : forall a, P (Scal a))
    (H_arr : forall l, Forall P l -> P (Arr l))
    (H_obj : forall l, Forall (fun kv => P (snd kv)) l -> P (Obj l)).
  Fixpoint tree_ind' (t : tree A) : P t :=
    match t with
    | Scal a => H_scal a
    | Arr l => H_arr l ((fix all (l : list (tree A)) : Forall P l :=
                           match l with
                           | [] => Forall_nil _
                           | x :: r => Forall_cons x (tree_ind' x) (all r)
                           end) l)
    | Obj l => H_obj l ((fix all (l : list (list Z * tree A)) : Forall (fun kv => P (snd kv)) l :=
                           match l with
                           | [] => Forall_nil _
                           | x :: r => Forall_cons x (tree_ind' (snd x)) (all r)
                           end) l)
    end.
End TreeInd.
