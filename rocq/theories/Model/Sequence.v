(** Several imports from one stream, as in  while (stream >> jsonImporter(x)). *)
From Coq Require Import ZArith List Bool.
From Verif Require Import Model.Base Model.Source Model.Types Model.Importer Model.BsonDoc.
Import ListNotations.

(** operator>>(std::istream&, Importer const&) (Importer.h:99-103) for each of the variables [l] in turn; every one makes a
    new parser on the same stream.  [None] when one of them fails: the stream is then in the failed state or an exception was
    thrown.  The results and the stream behind the last one. *)
Fixpoint in_turn (extract : ty -> val -> src -> import_result) (l : list (ty * val)) (s : src) : option (list val * src) :=
  match l with
  | [] => Some ([], s)
  | (t, v) :: l =>
      match extract t v s with
      | Returned v' s =>
          if src_ok s then
            match in_turn extract l s with
            | Some (vs, s) => Some (v' :: vs, s)
            | None => None
            end
          else None
      | _ => None
      end
  end.
Definition json_each (fuel : nat) (cfg : pconfig) : list (ty * val) -> src -> option (list val * src) := in_turn (json_extract fuel cfg).
Definition bson_each (fuel : nat) (cfg : pconfig) : list (ty * val) -> src -> option (list val * src) := in_turn (bson_extract fuel cfg).
