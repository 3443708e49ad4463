(** Use of the printer through its interface (PrinterInterface.h:71-122), as custom serialization code does it. *)
From Coq Require Import ZArith List Bool.
From Verif Require Import Model.Base Model.Number Model.Printer Model.JsonPrinter.
Import ListNotations.
Open Scope Z_scope.

Inductive pcall :=
| COpenMap | CCloseMap | COpenArray | CCloseArray
| CKey (k : bytes) | CInt (i : ity) (z : Z) | CBool (b : bool) | CStr (s : bytes) | CNull.

Definition call {St} (ops : printer_ops St) (p : pcall) : writer St :=
  match p with
  | COpenMap => pr_openMap ops 0
  | CCloseMap => pr_closeMap ops
  | COpenArray => pr_openArray ops 0
  | CCloseArray => pr_closeArray ops
  | CKey k => pr_key ops k
  | CInt i z => pr_int ops i z
  | CBool b => pr_bool ops b
  | CStr s => pr_str ops s
  | CNull => pr_null ops
  end.
(** A sequence of calls; an exception ends it. *)
Definition calls {St} (ops : printer_ops St) (l : list pcall) : writer St := w_all (map (call ops) l).
(** The sequence on a new JsonPrinter that writes to a stream: the text. *)
Definition json_calls (c : fconfig) (l : list pcall) : outcome bytes :=
  do (out, _) <- calls (json_printer c) l js_init; Ok (chunks_text out).
