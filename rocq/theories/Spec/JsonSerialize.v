(** Classes with a serializer that writes and reads a string (Model/JsonSerialize.v): what their objects are in JSON. *)
From Coq Require Import ZArith List Bool.
From Verif Require Import Model.Base Model.Number Model.Types Model.JsonSerialize Spec.JsonString Spec.Json Spec.Import Spec.Denotes.
Import ListNotations.
Open Scope Z_scope.

(** A string stands for the object that the serializer makes of its text. *)
Definition serial_scalar (custom : ity -> option text_serializer) (i : ity) (z : Z) (a : jscal) : Prop :=
  match custom i with Some o => exists s, json_str s a /\ w_get o s = Ok z | None => json_int i z a end.
(** An object is written as a string with the text that the serializer has for it. *)
Definition serial_written (custom : ity -> option text_serializer) (i : ity) (z : Z) (a : jscal) : Prop :=
  match custom i with Some o => json_str (w_put o z) a | None => json_int i z a end.
(** [stands_for] of Spec/Denotes.v with such classes. *)
Definition serial_stands_for (custom : ity -> option text_serializer) (marker : list Z) (t : ty) (v : val) (j : jv) : Prop :=
  d_val (sense_of (serial_scalar custom) json_bool json_str json_tag json_null json_key marker t) v j.
Definition serial_written_for (custom : ity -> option text_serializer) (marker : list Z) (t : ty) (v : val) (j : jv) : Prop :=
  d_val (sense_of (serial_written custom) json_bool json_str json_tag json_null json_key marker t) v j.

(** The texts consist of bytes; the serializer makes the object of the text it wrote. *)
Definition texts_bytes (custom : ity -> option text_serializer) (t : ty) (v : val) : Prop :=
  each (fun t v => match t, v with TInt i, VInt z => match custom i with Some o => bytes_in (w_put o z) | None => True end | _, _ => True end) t v.
Definition texts_reread (custom : ity -> option text_serializer) (t : ty) (v : val) : Prop :=
  each (fun t v => match t, v with TInt i, VInt z => match custom i with Some o => w_get o (w_put o z) = Ok z | None => True end | _, _ => True end) t v.
