(** PrinterInterface: what a printer does to its output, and the interface that the serializer uses. *)
From Coq Require Import ZArith List Bool.
From Verif Require Import Model.Base Model.Number.
Import ListNotations.
Open Scope Z_scope.

(** One call that reaches the output.  [Wr b]: PrinterInterface::write (PrinterInterface.h:104-121).  [WrVal b]:
    PrinterInterface::writeValue (PrinterInterface.h:141-153), [b] is the text that operator<< and std::to_chars give.
    Simplified: consecutive calls of write may be joined into one chunk; both outputs only see the concatenation. *)
Inductive chunk := Wr (b : bytes) | WrVal (b : bytes).
Definition chunk_bytes (c : chunk) : bytes := match c with Wr b => b | WrVal b => b end.
Definition chunks_text (l : list chunk) : bytes := flat_map chunk_bytes l.

(** An action of a printer with state [St]: what is written, and the new state. *)
Definition writer (St : Type) := St -> outcome (list chunk * St).
Definition w_nothing {St} : writer St := fun s => Ok ([], s).
Definition w_then {St} (a b : writer St) : writer St :=
  fun s => do (c1, s) <- a s; do (c2, s) <- b s; Ok (c1 ++ c2, s).
Definition w_fail {St} (o : outcome (list chunk * St)) : writer St := fun _ => o.
Definition w_all {St} (l : list (writer St)) : writer St := fold_right w_then w_nothing l.

(** The virtual functions of PrinterInterface (PrinterInterface.h:34-102).  Sizes are std::size_t without wrap around.
    Simplified: floating point and raw values are not modelled; the getSize functions and pushLevel/popLevel change
    nothing but the level, which popLevel restores, so sizes are functions of the state and pushLevel is applied to
    the state that is handed down. *)
Record printer_ops (St : Type) := mkPr {
  pr_openMap : Z -> writer St;
  pr_closeMap : writer St;
  pr_openArray : Z -> writer St;
  pr_closeArray : writer St;
  pr_key : bytes -> writer St;
  pr_int : ity -> Z -> writer St;
  pr_bool : bool -> writer St;
  pr_str : bytes -> writer St;
  pr_null : writer St;
  pr_usesSize : bool;
  pr_push : bool -> St -> St;
  pr_szMap : Z -> St -> Z;
  pr_szArray : Z -> St -> Z;
  pr_szMember : bytes -> St -> Z;
  pr_szNull : St -> Z;
  pr_szInt : ity -> Z -> St -> outcome Z;
  pr_szBool : bool -> St -> Z;
  pr_szStr : bytes -> St -> Z
}.
Arguments pr_openMap {St}. Arguments pr_closeMap {St}. Arguments pr_openArray {St}. Arguments pr_closeArray {St}.
Arguments pr_key {St}. Arguments pr_int {St}. Arguments pr_bool {St}. Arguments pr_str {St}. Arguments pr_null {St}.
Arguments pr_usesSize {St}. Arguments pr_push {St}. Arguments pr_szMap {St}. Arguments pr_szArray {St}.
Arguments pr_szMember {St}. Arguments pr_szNull {St}. Arguments pr_szInt {St}. Arguments pr_szBool {St}.
Arguments pr_szStr {St}.

(** ** StringOutput (StringOutput.h:14-97) *)
(** The size counted by the preflight pass (StringOutput.h:35-40, 58-72): every value counts 25 when the size is
    estimated. *)
Fixpoint preflight (estimate : bool) (l : list chunk) : Z :=
  match l with
  | [] => 0
  | Wr b :: r => Z.of_nat (length b) + preflight estimate r
  | WrVal b :: r => (if estimate then 25 else Z.of_nat (length b)) + preflight estimate r
  end.
(** The second pass copies without a check (StringOutput.h:41-45, 73-77) into [room] bytes; more is undefined
    behaviour.  Simplified: std::to_chars of an integer stops at the end of the buffer and leaves unspecified text;
    that is also [UB] here. *)
Fixpoint copy_chunks (room : Z) (l : list chunk) : outcome bytes :=
  match l with
  | [] => Ok []
  | c :: r =>
      let b := chunk_bytes c in
      if Z.of_nat (length b) <=? room then
        do out <- copy_chunks (room - Z.of_nat (length b)) r; Ok (b ++ out)
      else UB
  end.
