-Q theories Verif
theories/Model/Base.v
theories/Model/Source.v
theories/Model/Unicode.v
theories/Model/Number.v
theories/Model/JsonLexer.v
theories/Model/ParserInterface.v
theories/Model/JsonParser.v
theories/Model/Types.v
theories/Model/Deserializer.v
theories/Model/Importer.v
theories/Model/Printer.v
theories/Model/JsonPrinter.v
theories/Model/Serializer.v
theories/Model/Exporter.v
theories/Model/Calls.v
theories/Model/Binary.v
theories/Model/BsonPrinter.v
theories/Model/BsonParser.v
theories/Model/BsonDoc.v
theories/Model/BsonFloat.v
theories/Spec/JsonString.v
theories/Proofs/Tac.v
theories/Proofs/Bits.v
theories/Proofs/UnicodeP.v
theories/Proofs/PushBackP.v
theories/Spec/Json.v
theories/Spec/Lexemes.v
theories/Spec/Typed.v
theories/Proofs/Induct.v
theories/Proofs/Sim.v
theories/Proofs/TreeM.v
theories/Proofs/LexP.v
theories/Proofs/NumberP.v
theories/Proofs/JsonSim.v
theories/Proofs/ImportP.v
theories/Proofs/StringDocP.v
theories/Proofs/CopyP.v
theories/Proofs/CtlP.v
theories/Proofs/ReportP.v
theories/Proofs/OrderP.v
theories/Proofs/TypedP.v
theories/Proofs/InterpP.v
theories/Proofs/PartP.v
theories/Proofs/DefinedP.v
theories/Proofs/MembersP.v
theories/Proofs/ModesP.v
theories/Spec/Import.v
theories/Spec/Denotes.v
theories/Spec/Calls.v
theories/Spec/Sizes.v
theories/Spec/Bson.v
theories/Spec/BsonDenotes.v
theories/Proofs/BinaryP.v
theories/Proofs/BsonSim.v
theories/Proofs/BsonImportP.v
theories/Proofs/BsonExportP.v
theories/Proofs/BsonNamesP.v
theories/Proofs/BsonCheck.v
theories/Proofs/BsonRoundP.v
theories/Proofs/BsonLengthP.v
theories/Proofs/JsonPartP.v
theories/Proofs/ClassP.v
theories/Proofs/SourcesP.v
theories/Proofs/MemberDocP.v
theories/Proofs/RootP.v
theories/Proofs/DenotesP.v
theories/Proofs/PrintP.v
theories/Proofs/DocP.v
theories/Proofs/ExportP.v
theories/Proofs/CallsP.v
theories/Proofs/SizeP.v
theories/Proofs/JsonCheck.v
theories/Properties/Strings.v
theories/Properties/Tokens.v
theories/Properties/Imports.v
theories/Properties/Members.v
theories/Properties/Scalars.v
theories/Properties/Reports.v
theories/Properties/Exports.v
theories/Properties/Printing.v
theories/Properties/Bson.v
theories/Properties/BsonLength.v
theories/Model/Mongo.v
theories/Spec/Mongo.v
theories/Proofs/MongoP.v
theories/Properties/Mongo.v
theories/Properties/Failures.v
theories/Model/Yaml.v
theories/Spec/Yaml.v
theories/Proofs/YamlP.v
theories/Proofs/YamlSim.v
theories/Model/YamlPrinter.v
theories/Spec/YamlOut.v
theories/Proofs/YamlOutP.v
theories/Proofs/YamlDocP.v
theories/Proofs/YamlReadP.v
theories/Properties/Yaml.v
theories/Model/Format.v
theories/Spec/Format.v
theories/Proofs/FormatP.v
theories/Properties/Format.v
theories/Model/Target.v
theories/Spec/Target.v
theories/Proofs/TargetP.v
theories/Properties/Target.v
theories/Model/Shared.v
theories/Model/Float.v
theories/Spec/Float.v
theories/Spec/BsonFloat.v
theories/Proofs/FloatP.v
theories/Proofs/FloatReadP.v
theories/Proofs/FloatValP.v
theories/Proofs/FloatDocP.v
theories/Proofs/FloatTextP.v
theories/Proofs/AlikeP.v
theories/Proofs/FloatExportP.v
theories/Spec/Shared.v
theories/Proofs/SharedP.v
theories/Proofs/SharedDocP.v
theories/Properties/Shared.v
theories/Properties/Floats.v
theories/Proofs/BsonFloatP.v
theories/Proofs/BsonFloatDocP.v
theories/Properties/BsonFloats.v
theories/Spec/Projection.v
theories/Model/Projection.v
theories/Proofs/ProjectP.v
theories/Properties/Projections.v
theories/Spec/Containers.v
theories/Proofs/CollectP.v
theories/Properties/Containers.v
theories/Model/Filter.v
theories/Spec/Filter.v
theories/Proofs/FilterP.v
theories/Model/Range.v
theories/Proofs/RangeP.v
theories/Properties/Exporters.v
theories/Model/Blob.v
theories/Properties/Blob.v
theories/Model/Sequence.v
theories/Spec/Sequence.v
theories/Properties/Sequence.v
theories/Model/AnyBlock.v
theories/Spec/AnyBlock.v
theories/Proofs/AnyBlockP.v
theories/Properties/AnyBlock.v
theories/Model/Custom.v
theories/Spec/Custom.v
theories/Proofs/CustomP.v
theories/Properties/Custom.v
theories/Model/Recursive.v
theories/Spec/Recursive.v
theories/Proofs/ForwardP.v
theories/Proofs/RecursiveP.v
theories/Proofs/RecursiveBsonP.v
theories/Proofs/RecursiveOutP.v
theories/Properties/Recursive.v
theories/Spec/Accepted.v
theories/Proofs/AcceptP.v
theories/Proofs/AcceptDocP.v
theories/Proofs/TruncateP.v
theories/Properties/Accepted.v
theories/Spec/Ends.v
theories/Proofs/EndsP.v
theories/Proofs/EndsJsonP.v
theories/Proofs/TokensEndP.v
theories/Proofs/EndsBsonP.v
theories/Properties/Ends.v
theories/Spec/BsonAccept.v
theories/Proofs/BsonAcceptP.v
theories/Properties/BsonAccept.v
theories/Spec/Safe.v
theories/Proofs/SafeP.v
theories/Proofs/SafeJsonP.v
theories/Properties/Safe.v
theories/Model/BsonCustom.v
theories/Spec/BsonCustom.v
theories/Proofs/BsonCustomP.v
theories/Properties/BsonCustom.v
theories/Model/YamlCustom.v
theories/Spec/YamlCustom.v
theories/Properties/YamlCustom.v
theories/Model/YamlFloat.v
theories/Spec/YamlFloat.v
theories/Proofs/YamlFloatP.v
theories/Properties/YamlFloats.v
theories/Model/BsonSerialize.v
theories/Spec/BsonSerialize.v
theories/Proofs/BsonSerializeP.v
theories/Properties/BsonSerialize.v
theories/Model/JsonSerialize.v
theories/Spec/JsonSerialize.v
theories/Proofs/JsonSerializeP.v
theories/Properties/JsonSerialize.v
theories/Proofs/MultimapP.v
theories/Properties/Multimap.v
theories/Model/YamlSerialize.v
theories/Spec/YamlSerialize.v
theories/Proofs/YamlSerializeP.v
theories/Properties/YamlSerialize.v
theories/Model/JsonLeft.v
theories/Spec/JsonLeft.v
theories/Proofs/JsonLeftP.v
theories/Properties/JsonLeft.v
