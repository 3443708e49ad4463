(** Documents one after another. *)
From Coq Require Import ZArith List.
From Verif Require Import Model.Source Model.Types Model.Importer Model.BsonPrinter Model.BsonDoc Spec.Json Spec.Typed Spec.Import Spec.Bson.
Import ListNotations.
Open Scope Z_scope.

(** The end of [doc] can be seen when [rest] follows: behind a digit comes white space, punctuation or nothing. *)
Definition apart (doc rest : list Z) : Prop := (exists a d, doc = a ++ [d] /\ digit d) -> delim rest.

(** [json_docs cfg l vs text rest]: the text is JSON documents followed by [rest], one for each of the variables [l] (types and old
    values); each, read on its own, is accepted and gives the value in [vs]. *)
Inductive json_docs (cfg : pconfig) : list (ty * val) -> list val -> list Z -> list Z -> Prop :=
| jd_nil : forall rest, json_docs cfg [] [] rest rest
| jd_cons : forall t v j doc v' l vs text rest, wf t = true -> shaped t v = true -> document j doc -> exact_skips cfg Strm t j ->
    accepts cfg Strm t v doc v' -> apart doc text -> json_docs cfg l vs text rest ->
    json_docs cfg ((t, v) :: l) (v' :: vs) (doc ++ text) rest.

(** The document has the root that the type asks for. *)
Definition root_of (t : ty) (j : tree bscal) : Prop :=
  match bson_root t, j with BMap, Obj _ | BArray, Arr _ | BValue, Scal _ => True | _, _ => False end.
Inductive bson_docs (cfg : pconfig) : list (ty * val) -> list val -> list Z -> list Z -> Prop :=
| bd_nil : forall rest, bson_docs cfg [] [] rest rest
| bd_cons : forall t v j doc v' l vs text rest, wf t = true -> shaped t v = true -> bson_document any_name j doc -> root_of t j ->
    bson_imports cfg Strm t v doc v' [] -> bson_docs cfg l vs text rest ->
    bson_docs cfg ((t, v) :: l) (v' :: vs) (doc ++ text) rest.
