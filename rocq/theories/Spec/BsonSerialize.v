(** Classes with a serializer (Model/BsonSerialize.v) in BSON. *)
From Coq Require Import ZArith List Bool.
From Verif Require Import Model.Base Model.Source Model.Number Model.Types Model.BsonParser Model.BsonSerialize Spec.Json Spec.Import Spec.Denotes Spec.Bson Spec.BsonDenotes.
Import ListNotations.
Open Scope Z_scope.

(** [reads_element get a z]: in front of the data of the element [a], and with its type, readBson takes the data and makes the object [z]; [refuses_element get a]: it throws. *)
Definition at_element (b : bparser) (a : bscal) (k : skind) (before data after : list Z) : Prop :=
  bson_scalar a (b_type b) data /\ b_src b = mkSrc k (before ++ data ++ after) (length before) true false /\ after <> [].
Definition reads_element (get : bparser -> outcome (Z * bparser)) (a : bscal) (z : Z) : Prop :=
  forall b k before data after, at_element b a k before data after ->
    get b = Ok (z, bset_src b (mkSrc k (before ++ data ++ after) (length (before ++ data)) true false)).
Definition refuses_element (get : bparser -> outcome (Z * bparser)) (a : bscal) : Prop :=
  forall b k before data after, at_element b a k before data after -> get b = Throw.

(** What is known of the readers: [means i a] is the object that the element [a] is read as ([Some (Some z)]), or that it is refused ([Some None]); [None] where nothing is
    known.  A null is never an object. *)
Definition describes (custom : ity -> option serializer) (means : ity -> bscal -> option (option Z)) : Prop :=
  forall i o a, custom i = Some o ->
    match means i a with
    | Some (Some z) => a <> BNull /\ reads_element (z_get o) a z
    | Some None => refuses_element (z_get o) a
    | None => True
    end.
Definition serial_reads_as (custom : ity -> option serializer) (means : ity -> bscal -> option (option Z)) (marker : list Z) (t : ty) (v : val) (j : tree bscal) : Prop :=
  d_val (sense_of (fun i z a => match custom i with Some _ => means i a = Some (Some z) | None => bson_int i z a end) bson_bool bson_str bson_str bson_null bson_key marker t) v j.

(** [element i z]: the element that the object [z] is to be written as. *)
Definition serial_stands (custom : ity -> option serializer) (element : ity -> Z -> bscal) (marker : list Z) (t : ty) (v : val) (j : tree bscal) : Prop :=
  d_val (sense_of (fun i z a => match custom i with Some _ => a = element i z | None => bson_int i z a end) bson_bool bson_str bson_str bson_null bson_key marker t) v j.
(** The serializers write the data and tell the size and the type of these elements, for all objects in a value. *)
Definition writes_element (o : serializer) (z : Z) (a : bscal) : Prop :=
  exists d, z_put o z = Some d /\ z_size o z = Some (len d) /\ bson_scalar a (z_mark o) d.
Definition written_right (custom : ity -> option serializer) (element : ity -> Z -> bscal) (t : ty) (v : val) : Prop :=
  each (fun t v => match t, v with
                   | TInt i, VInt z => match custom i with Some o => writes_element o z (element i z) | None => True end
                   | _, _ => True end) t v.
(** What is written is read as the same object. *)
Definition understood (custom : ity -> option serializer) (element : ity -> Z -> bscal) (means : ity -> bscal -> option (option Z)) (t : ty) (v : val) : Prop :=
  each (fun t v => match t, v with
                   | TInt i, VInt z => match custom i with Some _ => means i (element i z) = Some (Some z) | None => True end
                   | _, _ => True end) t v.
(** Every object of the classes is read back from the element it is written as. *)
Definition rereads (custom : ity -> option serializer) (element : ity -> Z -> bscal) : Prop :=
  forall i o z, custom i = Some o -> fits i z -> element i z <> BNull /\ reads_element (z_get o) (element i z) z.
