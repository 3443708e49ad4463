(** JSON texts, written from RFC 8259.  A text is described by the tree of its values; scalars and keys keep
    their spelling, so only white space is abstracted away. *)
From Coq Require Import ZArith List.
From Verif Require Import Spec.JsonString.
Import ListNotations.
Open Scope Z_scope.

(** Trees of values over a type of scalars. *)
Inductive tree (A : Type) :=
| Scal (a : A)
| Arr (l : list (tree A))
| Obj (l : list (list Z * tree A)).
Arguments Scal {A}. Arguments Arr {A}. Arguments Obj {A}.

(** JSON scalars with their spelling; [SStr raw] has [raw] between its quotes. *)
Inductive jscal := SNum (txt : list Z) | SStr (raw : list Z) | STrue | SFalse | SNull.

Definition jv := tree jscal.

(** Numbers (RFC 8259 section 6). *)
Definition digit (c : Z) : Prop := 48 <= c <= 57.
Definition digits (l : list Z) : Prop := l <> [] /\ Forall digit l.
Inductive int_part : list Z -> Prop :=
| ip_zero : int_part [48]
| ip_nonzero : forall c r, 49 <= c <= 57 -> Forall digit r -> int_part (c :: r).
Inductive frac_part : list Z -> Prop :=
| fp_none : frac_part []
| fp_some : forall l, digits l -> frac_part (46 :: l).
Inductive exp_part : list Z -> Prop :=
| xp_none : exp_part []
| xp_plain : forall e l, e = 101 \/ e = 69 -> digits l -> exp_part (e :: l)
| xp_sign : forall e s l, e = 101 \/ e = 69 -> s = 43 \/ s = 45 -> digits l -> exp_part (e :: s :: l).
Inductive sign_part : list Z -> Prop :=
| sg_none : sign_part []
| sg_minus : sign_part [45].
Inductive number : list Z -> Prop :=
| number_intro : forall s i f e, sign_part s -> int_part i -> frac_part f -> exp_part e ->
    number (s ++ i ++ f ++ e).

(** White space (RFC 8259 section 2). *)
Definition ws_char (c : Z) : Prop := c = 32 \/ c = 9 \/ c = 10 \/ c = 13.
Definition ws (l : list Z) : Prop := Forall ws_char l.

Definition legal_string (raw : list Z) : Prop := exists v, json_string raw v.

Inductive scalar_text : jscal -> list Z -> Prop :=
| st_num : forall t, number t -> scalar_text (SNum t) t
| st_str : forall raw, legal_string raw -> scalar_text (SStr raw) (34 :: raw ++ [34])
| st_true : scalar_text STrue [116; 114; 117; 101]
| st_false : scalar_text SFalse [102; 97; 108; 115; 101]
| st_null : scalar_text SNull [110; 117; 108; 108].

(** [spells j t]: the text [t] (without surrounding white space) is a JSON value with tree [j]. *)
Inductive spells : jv -> list Z -> Prop :=
| sp_scalar : forall s t, scalar_text s t -> spells (Scal s) t
| sp_arr_empty : forall w, ws w -> spells (Arr []) (91 :: w ++ [93])
| sp_arr : forall l t, spells_elems l t -> spells (Arr l) (91 :: t ++ [93])
| sp_obj_empty : forall w, ws w -> spells (Obj []) (123 :: w ++ [125])
| sp_obj : forall l t, spells_members l t -> spells (Obj l) (123 :: t ++ [125])
with spells_elems : list jv -> list Z -> Prop :=
| se_last : forall j t w1 w2, ws w1 -> ws w2 -> spells j t -> spells_elems [j] (w1 ++ t ++ w2)
| se_cons : forall j l t w1 w2 r, ws w1 -> ws w2 -> spells j t -> spells_elems l r ->
    spells_elems (j :: l) (w1 ++ t ++ w2 ++ 44 :: r)
with spells_members : list (list Z * jv) -> list Z -> Prop :=
| sm_last : forall k j t w1 w2 w3 w4, ws w1 -> ws w2 -> ws w3 -> ws w4 -> legal_string k -> spells j t ->
    spells_members [(k, j)] (w1 ++ (34 :: k ++ [34]) ++ w2 ++ 58 :: w3 ++ t ++ w4)
| sm_cons : forall k j l t w1 w2 w3 w4 r, ws w1 -> ws w2 -> ws w3 -> ws w4 -> legal_string k -> spells j t ->
    spells_members l r ->
    spells_members ((k, j) :: l) (w1 ++ (34 :: k ++ [34]) ++ w2 ++ 58 :: w3 ++ t ++ w4 ++ 44 :: r).

(** A whole document: a value with white space around it. *)
Inductive document : jv -> list Z -> Prop :=
| doc_intro : forall j w1 t w2, ws w1 -> spells j t -> ws w2 -> document j (w1 ++ t ++ w2).

Scheme spells_mind := Minimality for spells Sort Prop
  with spells_elems_mind := Minimality for spells_elems Sort Prop
  with spells_members_mind := Minimality for spells_members Sort Prop.
Combined Scheme spells_mutind from spells_mind, spells_elems_mind, spells_members_mind.

(** Text that C++ takes for white space (std::isspace): also vertical tab and form feed. *)
Definition blank (l : list Z) : Prop := Forall (fun c => c = 32 \/ 9 <= c <= 13) l.

(** What may follow a number in a JSON text. *)
Definition delim (rest : list Z) : Prop :=
  rest = [] \/ exists c r, rest = c :: r /\ (ws_char c \/ c = 44 \/ c = 93 \/ c = 125).
(** The end of [j] can be seen when [rest] follows its text: a number needs a delimiter. *)
Definition ends_before (j : jv) (rest : list Z) : Prop :=
  match j with Scal (SNum _) => delim rest | _ => True end.

(** The text of a document without white space. *)
Definition scalar_bytes (s : jscal) : list Z :=
  match s with
  | SNum t => t
  | SStr raw => 34 :: raw ++ [34]
  | STrue => [116; 114; 117; 101]
  | SFalse => [102; 97; 108; 115; 101]
  | SNull => [110; 117; 108; 108]
  end.
Definition commas (l : list (list Z)) : list Z :=
  match l with [] => [] | a :: r => a ++ flat_map (fun b => 44 :: b) r end.
Fixpoint compact (j : jv) : list Z :=
  match j with
  | Scal s => scalar_bytes s
  | Arr l => 91 :: commas (map compact l) ++ [93]
  | Obj l => 123 :: commas (map (fun kv => (34 :: fst kv ++ [34]) ++ 58 :: compact (snd kv)) l) ++ [125]
  end.
