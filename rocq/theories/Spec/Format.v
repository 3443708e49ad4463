(** The documented format specifications of TA::Ser (Format.h:43-58): type, stream format, tab size, block indent, each of them
    optional. *)
From Coq Require Import ZArith List.
From Verif Require Import Model.JsonPrinter Model.Format Spec.Json Spec.Import.
Import ListNotations.
Open Scope Z_scope.

Inductive type_letter : list Z -> fform -> Prop :=
| tl_none : type_letter [] FJson
| tl_json : type_letter [74] FJson        (* J *)
| tl_bson : type_letter [66] FBson        (* B *)
| tl_yaml : type_letter [89] FYaml.       (* Y *)
Inductive stream_letter : list Z -> otype -> Prop :=
| sl_none : stream_letter [] OStream
| sl_stream : stream_letter [45] OStream  (* - *)
| sl_pretty : stream_letter [42] OConfig. (* * *)
(** [documented spec form type tab block] *)
Inductive documented : list Z -> fform -> otype -> Z -> Z -> Prop :=
| dc_plain : forall l f m o ds, type_letter l f -> stream_letter m o -> Forall digit ds -> documented (l ++ m ++ ds) f o (digits_value 0 ds) 0
| dc_block : forall l f m o ds ds', type_letter l f -> stream_letter m o -> Forall digit ds -> Forall digit ds' ->
    documented (l ++ m ++ ds ++ 46 :: ds') f o (digits_value 0 ds) (digits_value 0 ds').
