(** The BSON document of a C++ value, and when it is what the exporter writes.  Nothing here runs the printer. *)
From Coq Require Import ZArith List Bool.
From Verif Require Import Model.Base Model.Number Model.Types Spec.Json Spec.Typed Spec.Import Spec.Denotes Spec.Sizes Spec.Bson.
Import ListNotations.
Open Scope Z_scope.

(** [w] is the signed number of [n] bits with the bits of [z]. *)
Definition same_bits (n w z : Z) : Prop := - 2 ^ (n - 1) <= w < 2 ^ (n - 1) /\ (w - z) mod 2 ^ n = 0.
(** Integers of 64 bits are int64, all others are int32; BSON has no unsigned integers. *)
Definition bson_int (i : ity) (z : Z) (a : bscal) : Prop :=
  if i_bits i =? 64 then exists w, a = BInt64 w /\ same_bits 64 w z else exists w, a = BInt32 w /\ same_bits 32 w z.
Definition bson_bool (b : bool) (a : bscal) : Prop := a = BBool b.
Definition bson_str (s : bytes) (a : bscal) : Prop := a = BStr s.
Definition bson_null (a : bscal) : Prop := a = BNull.
Definition bson_key (n k : bytes) : Prop := k = n.
Definition bson_sense (marker : bytes) : ty -> sense bscal :=
  sense_of bson_int bson_bool bson_str bson_str bson_null bson_key marker.
(** [bson_stands marker t v j]: [j] is the BSON document of the value [v] of type [t]. *)
Definition bson_stands (marker : bytes) (t : ty) (v : val) (j : tree bscal) : Prop := d_val (bson_sense marker t) v j.

(** Names and keys can be BSON names, strings are written as they are, no pair has an empty optional. *)
Definition nul_free (s : bytes) : Prop := ~ In 0 s.
Definition bson_type (t : ty) : Prop :=
  types (fun t => match t with
                  | TStruct i _ _ => Forall nul_free (map (nameOverride i) (si_names i)) /\ plain (si_poly i)
                  | TEnum l => Forall (fun e => plain (snd e)) l
                  | _ => True
                  end) t.
Definition bson_text (t : ty) (v : val) : Prop :=
  each (fun t v => match t, v with
                   | TStr, VStr s => plain s
                   | TMap _ _, VMap l => Forall (fun kv => nul_free (fst kv)) l
                   | TStruct i ms _, VStruct own _ => si_pair i = true -> rel2 (map (fun t x => ~ left_out t x) ms) own
                   | _, _ => True
                   end) t v.
(** The type field of a class is counted in a size exactly where it is written.  Different from [marker_counted]: the size
    in front of an object is always asked for as that of a value of its own class. *)
Fixpoint marker_framed (w : place) (t : ty) : bool :=
  match t with
  | TSeq _ t' | TArr _ t' | TMap _ t' => marker_framed (AsValue false) t'
  | TTup ts => forallb (marker_framed (AsValue false)) ts
  | TPtr t' => marker_framed (AsValue true) t'
  | TOpt t' => marker_framed w t'
  | TStruct i ms ps =>
      match w with
      | AsValue p => Bool.eqb (counted p i) (si_mark i) && Bool.eqb (counted false i) (si_mark i)
      | AsTagged p => counted p i
      | AsParent => true
      end && forallb (marker_framed (AsValue false)) ms && forallb (marker_framed AsParent) ps
  | TPoly cs _ => forallb (marker_framed (AsTagged true)) cs
  | TVariant cs => forallb (marker_framed (AsTagged (match w with AsValue p | AsTagged p => p | AsParent => false end))) cs
  | _ => true
  end.
(** What can be the root of a document: the exporter takes optionals and variants for something else than what it then
    writes. *)
Fixpoint bson_rootable (t : ty) : bool :=
  match t with
  | TOpt _ | TVariant _ => false
  | TPtr t' => bson_rootable t'
  | _ => true
  end.

(** Which objects get an [_id] when the exporter is given an IdStore: those in arrays that are members of the root. *)
Definition gets_id (e e' : tree bscal) : Prop :=
  match e with
  | Obj ms => exists d, length d = 12%nat /\ e' = Obj (([95; 105; 100], Scal (BOther 7 d)) :: ms)
  | _ => e' = e
  end.
Definition gets_ids (j j' : tree bscal) : Prop :=
  match j with
  | Obj l => exists l', j' = Obj l' /\
      Forall2 (fun m m' => fst m' = fst m /\
                 match snd m with
                 | Arr es => exists es', snd m' = Arr es' /\ Forall2 gets_id es es'
                 | _ => snd m' = snd m
                 end) l l'
  | _ => j' = j
  end.
(** [written ids j j']: [j'] is written for [j]. *)
Definition written (ids : option (nat -> bytes)) (j j' : tree bscal) : Prop :=
  match ids with Some _ => gets_ids j j' | None => j' = j end.
(** The object ids in a document, in its order. *)
Fixpoint object_ids (j : tree bscal) : list (list Z) :=
  match j with
  | Scal (BOther type d) => if Z.eqb type 7 then [d] else []
  | Scal _ => []
  | Arr l => flat_map object_ids l
  | Obj l => flat_map (fun m => object_ids (snd m)) l
  end.
