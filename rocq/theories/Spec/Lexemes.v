(** The RFC 8259 grammar over lexeme numbers, and well nested token sequences. *)
From Coq Require Import List Arith.
From Verif Require Import Model.ParserInterface.
Import ListNotations.

(** Lexeme numbers of JsonManualLexer: 1 [{], 2 [}], 3 [[], 4 []], 5 comma, 6 colon, 7 true, 8 false, 9 null, 10 string,
    11-13 numbers. *)
Inductive g_value : list nat -> Prop :=
| g_scalar : forall n, 7 <= n <= 13 -> g_value [n]
| g_arr_empty : g_value [3; 4]
| g_arr : forall l, g_elems l -> g_value (3 :: l ++ [4])
| g_obj_empty : g_value [1; 2]
| g_obj : forall l, g_members l -> g_value (1 :: l ++ [2])
with g_elems : list nat -> Prop :=
| g_elem : forall a, g_value a -> g_elems a
| g_elem_cons : forall a l, g_value a -> g_elems l -> g_elems (a ++ 5 :: l)
with g_members : list nat -> Prop :=
| g_member : forall a, g_value a -> g_members (10 :: 6 :: a)
| g_member_cons : forall a l, g_value a -> g_members l -> g_members (10 :: 6 :: a ++ 5 :: l).

Scheme g_value_mind := Minimality for g_value Sort Prop
  with g_elems_mind := Minimality for g_elems Sort Prop
  with g_members_mind := Minimality for g_members Sort Prop.
Combined Scheme g_mutind from g_value_mind, g_elems_mind, g_members_mind.

(** What may come next at a nesting level. *)
Inductive frame :=
| FStart      (* nothing delivered: DocStart *)
| FDoc        (* the value of the document *)
| FDone       (* DocEnd *)
| FOver       (* nothing *)
| FKey        (* in a map: a key or its end *)
| FVal        (* in a map: the value of a key *)
| FArr.       (* in an array: a value or its end *)

(** The level after a value was completed in it; [None] where a value is not allowed. *)
Definition after_value (f : frame) : option frame :=
  match f with FDoc => Some FDone | FVal => Some FKey | FArr => Some FArr | _ => None end.

(** One token, innermost level first. *)
Definition nest (fs : list frame) (t : token) : option (list frame) :=
  match fs with
  | [] => None
  | f :: r =>
      match t with
      | TokDocStart => match f with FStart => Some (FDoc :: r) | _ => None end
      | TokDocEnd => match f with FDone => Some (FOver :: r) | _ => None end
      | TokMapStart => match after_value f with Some g => Some (FKey :: g :: r) | None => None end
      | TokArrayStart => match after_value f with Some g => Some (FArr :: g :: r) | None => None end
      | TokMapEnd => match f with FKey => Some r | _ => None end
      | TokArrayEnd => match f with FArr => Some r | _ => None end
      | TokKey => match f with FKey => Some (FVal :: r) | _ => None end
      | TokValue => match after_value f with Some g => Some (g :: r) | None => None end
      | TokError => None
      end
  end.
Fixpoint nests (fs : list frame) (ts : list token) : option (list frame) :=
  match ts with
  | [] => Some fs
  | t :: r => match nest fs t with Some fs' => nests fs' r | None => None end
  end.
(** A prefix of a properly nested document. *)
Definition well_nested (ts : list token) : Prop := nests [FStart] ts <> None.

(** The lexeme a value or punctuation character starts (characters by their code). *)
From Coq Require Import ZArith.
Inductive starts_lexeme : Z -> nat -> Prop :=
| sl_lbrace : starts_lexeme 123 1
| sl_rbrace : starts_lexeme 125 2
| sl_lbracket : starts_lexeme 91 3
| sl_rbracket : starts_lexeme 93 4
| sl_comma : starts_lexeme 44 5
| sl_colon : starts_lexeme 58 6
| sl_t : starts_lexeme 116 7
| sl_f : starts_lexeme 102 8
| sl_n : starts_lexeme 110 9
| sl_quote : starts_lexeme 34 10
| sl_minus : starts_lexeme 45 13
| sl_digit : forall c, (48 <= c <= 57)%Z -> starts_lexeme c 13.
