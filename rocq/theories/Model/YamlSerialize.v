(** Classes declared with ThorsAnvil_MakeTraitCustomSerialize (Traits.h:741-756) in YAML, whose serializer writes an object as one scalar and reads it from one, or
    does not support YAML.

    As in Model/JsonSerialize.v: [custom i] is the serializer of the class that stands behind [TInt i], if there is one; [VInt z] is the object with the number [z]. *)
From Coq Require Import ZArith String List Bool.
From Verif Require Import Model.Base Model.Source Model.Number Model.Printer Model.JsonPrinter Model.Types Model.Importer Model.Exporter Model.Yaml Model.YamlPrinter.
Import ListNotations.
Open Scope Z_scope.

(** [y_put z]: the text that writeYaml gives to YamlPrinter::addValue(std::string_view), or that it throws.  [y_get text]: the object that readYaml makes of the text
    that it has from YamlParser::getValue(std::string&) (YamlParser.cpp:255-258, which is getString), or that it throws.  Simplified: the object afterwards does not
    depend on the object before; a serializer does nothing else with the printer or the parser. *)
Record yaml_serializer := mkYser { y_put : Z -> option bytes; y_get : bytes -> outcome Z }.
(** DefaultCustomSerializer::writeYaml, readYaml (CustomSerialization.tpp:86-104): both throw.  A serializer that overrides neither, as those of ObjectID, UTCDateTime
    and BsonTimeStamp (MongoUtility.h), does not support YAML. *)
Definition no_yaml : yaml_serializer := mkYser (fun _ => None) (fun _ => Throw).

Section Serialize.
  Context (custom : ity -> option yaml_serializer).

  (** DeSerializationForBlock<Custom_Serialize>::scanObject (Serialize.tpp:331-336), readCustom (CustomSerialization.h:39-50), which takes the token as for every value,
      readCustomOld (CustomSerialization.tpp:47). *)
  Definition yser_int (i : ity) (s : bytes) : outcome Z := match custom i with Some c => y_get c s | None => yaml_int i s end.
  Definition yser_extract : nat -> pconfig -> ty -> val -> list ycall -> src -> import_result := yaml_extract_with yser_int.

  (** SerializerForBlock<Custom_Serialize>::printMembers (Serialize.tpp:1010-1015), writeCustomOld (CustomSerialization.tpp:24).  YAML does not ask for sizes. *)
  Definition yser_text (i : ity) (z : Z) : option bytes := match custom i with Some c => y_put c z | None => Some (int_dec z) end.
  Definition yser_events : fconfig -> outside -> okind -> ty -> val -> ywritten := yaml_events_opt yser_text.
End Serialize.
