(** Classes with stream operators (Model/Custom.v): what their texts are in JSON. *)
From Coq Require Import ZArith List Bool.
From Verif Require Import Model.Number Model.Source Model.Importer Model.Types Model.Custom Spec.JsonString Spec.Json Spec.Denotes Spec.AnyBlock.
Import ListNotations.
Open Scope Z_scope.

(** A scalar whose text reaches operator>> as it stands in the document (for strings see C86), and is no null. *)
Definition as_it_stands (k : skind) (a : jscal) : Prop :=
  match a with SStr raw => copied_string k raw | SNull => False | _ => True end.
(** The scalars that stand for an object of the class: operator>> makes the object of them. *)
Definition custom_scalar (custom : ity -> option operators) (k : skind) (i : ity) (z : Z) (a : jscal) : Prop :=
  match custom i with
  | Some o => as_it_stands k a /\ exists good, o_get o (scalar_bytes a) = Some (z, good)
  | None => json_int i z a
  end.
(** [stands_for] of Spec/Denotes.v with such classes. *)
Definition custom_stands_for (custom : ity -> option operators) (k : skind) (marker : list Z) (t : ty) (v : val) (j : jv) : Prop :=
  d_val (sense_of (custom_scalar custom k) json_bool json_str json_tag json_null json_key marker t) v j.

(** The texts of operator<< that are exported as they are: numbers, true and false. *)
Definition plain_text (t : list Z) : Prop := number t \/ t = scalar_bytes STrue \/ t = scalar_bytes SFalse.
Definition plain_texts (custom : ity -> option operators) (t : ty) (v : val) : Prop :=
  each (fun t v => match t, v with TInt i, VInt z => match custom i with Some o => plain_text (o_put o z) | None => True end | _, _ => True end) t v.
(** The scalars whose text is what operator<< writes for the object, and the documents with them. *)
Definition custom_written (custom : ity -> option operators) (i : ity) (z : Z) (a : jscal) : Prop :=
  match custom i with Some o => scalar_text a (o_put o z) | None => json_int i z a end.
Definition custom_written_for (custom : ity -> option operators) (marker : list Z) (t : ty) (v : val) (j : jv) : Prop :=
  d_val (sense_of (custom_written custom) json_bool json_str json_tag json_null json_key marker t) v j.
(** operator>> makes the object of what operator<< wrote for it. *)
Definition reread (custom : ity -> option operators) (t : ty) (v : val) : Prop :=
  each (fun t v => match t, v with
                   | TInt i, VInt z => match custom i with Some o => exists good, o_get o (o_put o z) = Some (z, good) | None => True end
                   | _, _ => True end) t v.

(** A number that is a whole document does not end together with a stream. *)
Definition not_at_end (k : skind) (text : list Z) : Prop := k = Strm -> ~ digit (last text 0).
