(** Classes declared with ThorsAnvil_MakeTraitCustom (Model/Custom.v) in YAML. *)
From Coq Require Import ZArith String List Bool.
From Verif Require Import Model.Base Model.Source Model.Number Model.Printer Model.JsonPrinter Model.Types Model.Importer Model.Exporter Model.Custom Model.Yaml Model.YamlPrinter.
Import ListNotations.
Open Scope Z_scope.

Section Custom.
  Context (custom : ity -> option operators).

  (** DeSerializationForBlock<Custom_Depricated>::scanObject (Serialize.tpp:306-319) with YamlParser::getRawValue (YamlParser.cpp:270-274), which is
      getString: the text of the scalar as libyaml delivers it, without quotes.  The state of the stream is not looked at. *)
  Definition ycust_int (i : ity) (s : bytes) : outcome Z :=
    match custom i with
    | Some o => match o_get o s with Some (z, _) => Ok z | None => Throw end
    | None => yaml_int i s
    end.
  Definition ycust_extract : nat -> pconfig -> ty -> val -> list ycall -> src -> import_result := yaml_extract_with ycust_int.

  (** SerializerForBlock<Custom_Depricated>::printMembers (Serialize.tpp:982-992) with YamlPrinter::addRawValue (YamlPrinter.h:75): emit writes the text
      to a std::stringstream, and the scalar is what the stream then holds. *)
  Definition ycust_text (i : ity) (z : Z) : bytes := match custom i with Some o => o_put o z | None => int_dec z end.
  Definition ycust_events : fconfig -> outside -> okind -> ty -> val -> ywritten := yaml_events_with ycust_text.
End Custom.
