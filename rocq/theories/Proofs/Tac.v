(** Tactics for concrete texts. *)
From Coq Require Import ZArith List Bool Lia ZifyBool.
From Verif Require Import Model.Base Spec.JsonString.
Import ListNotations.
Open Scope Z_scope.

(** Replace text literals by their bytes. *)
Ltac lits := repeat match goal with |- context [bs ?s] => let l := eval vm_compute in (bs s) in change (bs s) with l end.
Ltac tbytes := lits; unfold bytes_ok; repeat (apply Forall_cons; [unfold byte_ok; lia|]); apply Forall_nil.
Ltac tclosed := lits; repeat (first [apply cb_end|apply cb_escape|apply cb_char; [lia|lia|]]).
