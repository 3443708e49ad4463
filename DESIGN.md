# Formal model of ThorsSerializer in Rocq

The C++ code in /repo was read as text; nothing of it was built or run.  The model is in `rocq/theories`, the properties
in `properties.jsonl`, what is proved about each in `MANIFEST.json`, the attempts to break the theorems in
`seeded/LOG.jsonl`.

## Layout

* `Model/`   Gallina functions that follow the C++ function by function.  Each definition cites file and lines and says
  where it is simplified.
* `Spec/`    small independent specifications: the RFC 8259 grammar, UTF-8, two's complement, the BSON layout, the
  document of a value, libyaml's event streams.  Nothing in them runs the model's readers or printers.
* `Proofs/`  lemmas that connect the two.
* `Properties/` the theorems of the properties, a concrete case beside each (`Example`), and `Print Assumptions`.

Theorem names: `Cnn_...` proves the property; `Cnn_..._partial` proves it under conditions that the comment above it
names next to the full claim; `Cnn_..._refuted` proves that the full claim is false of the model, with a witness.

## Modelling conventions

* A byte is a `Z` (0..255), a string a `list Z`, end of file is -1.
* Every operation returns an `outcome`: `Ok a`, `Throw` (a C++ exception derived from std::exception), `UB`
  (undefined behaviour in C++) or `Hang` (fuel exhausted; used for loops whose termination is not structural).
  A theorem about success excludes the last two by its statement; "for every fuel the outcome is `Hang`"
  states non-termination.
* Readers and writers are state passing functions.
* The virtual interfaces `ParserInterface` / `PrinterInterface` become records of operations, so the type directed
  (de)serializer is written once and instantiated with the JSON, BSON and YAML implementations.
* C++ types are a deep embedding (`Model/Types.v`), so "for every type" is a quantifier over `ty`.

## How the proofs are built

* The reader is run on three layers: the text (`JsonParser`, `BsonParser`, `YamlParser`), a machine that walks a tree
  (`Proofs/TreeM.v`), and a structural interpreter of trees (`interp`).  `Proofs/Sim.v` transports runs of the generic
  reader between two parsers related by a simulation; each format proves that its parser simulates the tree machine.
* The document of a value is a relation between values and trees (`Spec/Denotes.v`), independent of the printer.  The
  printers are shown to write a document of the value, the readers to read every document of a value as that value;
  round trips are the composition.
* The token level (state table) is proved against an inductive grammar in both directions.

## Trusted base

* Coq 8.16.1's kernel and its virtual machine (`vm_compute` is used for witnesses and examples).
* Axioms: **none.**  Every `Print Assumptions` in `Properties/*.v` prints `Closed under the global context`.  The checker
  lists seven constants of `Coq.ssr.ssrunder` that belong to the environment; no theorem depends on them.
* That the model agrees with the C++ code, which was checked by reading only.
* Assumptions about the platform: LP64, little endian, `char` is signed, two's complement; std::size_t arithmetic is
  modelled as exact where it cannot wrap and as `UB` where it does.
* Assumptions about the standard library: std::from_chars / std::to_chars, operator>> and operator<< for integers in the
  "C" locale, strtol and its relatives, std::istream's state bits, std::getline, istream::ignore and istream::read as in
  the C++ standard; all as functions in `Model/Source.v`, `Model/Number.v`, `Model/Mongo.v` and `Model/Yaml.v`.
* Assumptions about the standard library's floating point (`Model/Float.v`; the behaviour of libstdc++ on IEEE 754, default
  stream flags, round to nearest even): std::from_chars and num_get take the longest prefix of their grammar and give the
  nearest value; std::to_chars with fixed and precision 6 and operator<< with precision 6 give the correctly rounded digits;
  num_get gives the largest finite value for a text out of range, from_chars leaves the variable unchanged.
* Assumptions about strtof and strtod (`Model/YamlFloat.v`; glibc, "C" locale): white space, sign, then a decimal or hexadecimal number,
  inf, infinity, nan or nan(...) (the characters in parentheses are taken not to influence the pattern); nearest value, infinity if out of range.  operator<< writes a NaN as nan or -nan.
* Assumptions about conversions (`Model/BsonFloat.v`; IEEE 754 as on x86-64 and ARM): float to double, double to float and
  integer to either round to nearest even; a double out of the range of float becomes an infinity; a signalling NaN
  becomes quiet and keeps its payload.
* std::to_string of a double is an arbitrary function (`dbl_text`, `Model/BsonCustom.v`); so are the operators of a user's class and
  the size it tells, and what a user's serializer class overrides (`serializer`, `Model/BsonSerialize.v`, `text_serializer`, `Model/JsonSerialize.v`; its readBson is a function of
  the parser and does not look at the object it fills).
* Assumptions about ThorsLogging: `ThorsLogAndThrowError` throws the named exception; while an exception is travelling it
  does not let a second one escape from `~DeSerializer` (which is noexcept(false)).
* Assumptions about libyaml (the library is not modelled):
  * reading: for every call of yaml_parser_parse it asks the read handler for some pieces and then delivers an event or
    fails; after the end of the stream it delivers YAML_NO_EVENT; yaml_event_t of the non scalar events read as a scalar
    has length 0 (isValueNull is called for those);
  * writing: it takes exactly the events of its state machine and the texts of its UTF-8 test, hands its text to the write
    handler in some pieces, and never flushes an empty buffer;
  * round trip (C61): the parser delivers for a written text the events the emitter was given.

## What is modelled

| C++ | model |
|-----|-------|
| StringInput.h; the istream branches of ParserInterface.h | `Model/Source.v` |
| UnicodeIterator.h, the escaping of Serialize.h / JsonPrinter | `Model/Unicode.v` |
| integer reading and writing (StringInput::readValue, operator>>, JsonManualLexer::getLastNumberAs, to_chars) | `Model/Number.v` |
| JsonManualLexer.h/.cpp | `Model/JsonLexer.v` |
| JsonParser.h/.cpp | `Model/JsonParser.v` |
| ParserInterface.h/.cpp: getToken, pushBackToken, ignoreValue, ignoreTheValue, ignoreTheMap, ignoreTheArray | `Model/ParserInterface.v` |
| the traits of classes, containers, pointers, optionals, enums, variants, polymorphic classes (Traits.h, SerUtil.h) | `Model/Types.v` |
| DeSerializer and DeSerializationForBlock (Serialize.tpp:39-902, SerUtil.h) | `Model/Deserializer.v` |
| Importer.h | `Model/Importer.v` |
| what those leave in the variable that is read, also after an exception; ownership of raw pointers (ThorsSerializerUtil.h) and std::unique_ptr | `Model/Target.v` |
| shared pointers in a std::vector: PrinterInterface::addShared, ParserInterface::getShared, SharedInfo, the shared_ptr blocks of Serialize.tpp | `Model/Shared.v` |
| float and double in JSON: ReadValue and StringInput::readValue for them, JsonPrinter::addValue(float/double), StringOutput::writeValue | `Model/Float.v` |
| float and double in BSON: BsonPrinter::addValue(float/double), writeFloat, BsonParser::getFloatValue, readFloat | `Model/BsonFloat.v` |
| float and double in YAML: YamlPrinter::addValue(float/double), YamlParser::getValue(float/double), scanValue | `Model/YamlFloat.v` |
| PrinterInterface.h, StringOutput.h | `Model/Printer.v`, `Model/Exporter.v` |
| JsonPrinter.h/.cpp | `Model/JsonPrinter.v` |
| Serializer and SerializerForBlock (Serialize.tpp:904-1355), getPrintSize (Traits.h, SerUtil.h) | `Model/Serializer.v` |
| Exporter.h, JsonThor.h | `Model/Exporter.v`, `Model/Calls.v` |
| std::set, multiset, map and multimap with keys that are no strings, vector<bool>, pairs and their getPrintSize (SerUtil.h) | `Model/Types.v` (`cont`, `si_pair`), `Model/Deserializer.v`, `Model/Serializer.v` |
| Projection (BsonThor.h) | `Model/BsonDoc.v`, `Model/Projection.v` |
| Filter<T> of ThorsAnvil_MakeFilter (Traits.h) for the class at the root | `Model/Filter.v` |
| ExporterRange (Exporter.h) for JSON and BSON | `Model/Range.v` |
| BsonPrinter.h/.cpp, BsonParser.h/.cpp, BsonUtil.h, BsonThor.h | `Model/Binary.v`, `Model/BsonPrinter.v`, `Model/BsonParser.v`, `Model/BsonDoc.v` |
| MongoUtility.h, MongoUtilityObjectId.h: ObjectID, UTCDateTime, BsonTimeStamp | `Model/Mongo.v` |
| BinarySerializer, JavascriptSerializer, RegExSerializer (MongoUtility.h) | `Model/Blob.v` |
| several imports from one stream (Importer.h:99-103) | `Model/Sequence.v` |
| AnyBlock (Traits.h:930-943, SerUtil.h:78-84, Serialize.tpp:664-787) as the target of a JSON import | `Model/AnyBlock.v` |
| Classes declared with ThorsAnvil_MakeTraitCustom (Traits.h:726-738, Serialize.tpp:296-319, 969-994, JsonPrinter.cpp:318) in JSON; their operators are arbitrary functions (`operators`) | `Model/Custom.v` |
| The same classes in BSON: raw values (BsonPrinter.h:88, 113, BsonPrinter.cpp:264-270, BsonParser.cpp:366-383, 391-412, 426-455), their size (ThorsSerializerUtil.h:262-283, Serialize.tpp:982-992); the function that tells the size is arbitrary | `Model/BsonCustom.v` |
| The same classes in YAML: raw values (YamlPrinter.h:75, YamlParser.cpp:270-274) | `Model/YamlCustom.v` |
| Classes declared with ThorsAnvil_MakeTraitCustomSerialize (Traits.h:741-756, CustomSerialization.h/.tpp, Serialize.tpp:331-336, 1010-1015) in BSON, and ObjectID, UTCDateTime, BsonTimeStamp as such classes (MongoUtility.h:148-166) | `Model/BsonSerialize.v` |
| The same classes in YAML, if the serializer writes and reads one scalar, throws or does not support YAML (CustomSerialization.tpp:24, 47, 86-104) | `Model/YamlSerialize.v` |
| What a failed export to JSON leaves on a stream or in a string, with the destructors of the open blocks (Serialize.tpp:904-948, 1186-1213, 1306-1317, StringOutput.h:35-96, Exporter.h:37-79) | `Model/JsonLeft.v`; that it agrees with `Model/Serializer.v` is part of `C98_survives` |
| The same classes in JSON, if the serializer writes and reads one string (ObjectID, BsonTimeStamp) or one integer (UTCDateTime); writeJson does not throw | `Model/JsonSerialize.v` |
| Classes that refer to themselves: Serialize.tpp instantiated for such a class | `Model/Recursive.v` |
| YamlParser.h/.cpp, scanValue (Serialize.h), YamlPrinter.h/.cpp, YamlThor.h | `Model/Yaml.v`, `Model/YamlPrinter.v` |
| Format.h (std::format of TA::Ser); std::format itself only as far as it calls parse and looks for the closing brace | `Model/Format.v` |

## What is not modelled

* long double; fast_float.  In `Model/Float.v` double is `TInt IULLong` and float
  `TInt ILLong` with the bit pattern as value (long long is long there), so a class cannot have both.
* Classes that refer to one another in a cycle of several separately declared classes.  (A class that refers to itself: `Model/Recursive.v`, C87.)
  That the templates compile for such a class is taken for granted, and the depth of the C++ call stack is not limited.
* User supplied serializers other than those of C94, C95 and C97 (those that write or read more than one scalar; writeJson that throws); classes with stream operators as keys; deprecated interfaces (DepricatedIssue only as an
  exception of unknown origin in C38).
* Binary, Javascript and regular expression values as members of a class (their elements are); Projection as a member is modelled for a class with that
  one member only.
* AnyBlock from BSON or YAML and as a member of a class.
* ExporterRange for YAML; a filter on a class that is not at the root.
* The order in which the unordered containers are written; containers of elements whose operator< is not the order of the
  values; unordered_multimap with string keys (its equal keys keep no order across an export).
* What a failed export has already written to a BSON output (JSON: C98).
* Concurrency (the static indentation buffer of JsonPrinter, the static counter of ObjectID).
* Overflow of the int counters of YamlParser and YamlPrinter.

## Findings

Every item is a theorem of the model unless it says "note".

### JSON text
* A surrogate pair of an even plane (U+20000.., U+40000.., ...) is decoded to a wrong character (C04); lone escaped low
  surrogates are accepted (C05); unknown escapes are swallowed (C53).
* In Weak mode an unknown member whose string value ends in an escaped backslash is skipped wrongly, so that an import can
  fail, succeed with other data, or never end (C11, C12, C13, C14, C28).
* Any word that starts with n is null for a pointer (C15).
* Malformed texts on which an import never ends (C12): `[null null]` into any container that grows and whose elements can be
  null, and a stream that ends in a backslash inside a string.  All other imports of JSON end
  (`C12_malformed_end_partial`), all imports of BSON from streams and of YAML end (`C12_bson_stream_ends`, `C12_yaml_ends`).
* Undefined behaviour (C89): an import of any text, JSON or not, is defined except for arrays and tuples of a fixed length
  (C31), integers and floating point numbers out of range in strings (C17, C71), and class names at a pointer to a base
  class from which they are not derived (C37): `C89_json_partial`, `C89_stream_partial`, `C89_json_refuted`.
* An unterminated string at the root of a stream is accepted (C14).
* Integers that do not fit: undefined on strings (the value is used uninitialised), another number from streams (C17).
* 00 and -01 are accepted; a leading plus is accepted from streams (C18).
* Names and map keys are written without escaping (C20, C26, C27).
* From 4005 characters of indentation the buffer of indentation is overrun (C20, C23).
* The printer accepts values without keys, second top level values, and keys without values (C24).
* jsonStreanSize is wrong with escapes, entries of maps with other keys, the smallest integers, type fields (C25).
* Members that were renamed make every Exact import fail (C30).
* An array longer than its std::array target writes outside of it (C31).
* Containers keep their old elements (C32).
* An empty optional outside of a class cannot be written (C34).
* A class name that is registered but not derived from the base: undefined cast (C37).
* DepricatedIssue leaves the source good and is raised whatever is configured (C38).
* A raw owning pointer is deleted before its new value is read and not set to null: after a failed import of a polymorphic
  class it dangles (C52).  Note: the macro ThorsAnvil_PointerAllocator names a type T that it does not declare.
* A failed import leaves what it had read up to then in the target (C67).
* A shared pointer without a member sharedPtrName is entered under a variable that was never set (C68); Exact refuses every
  text in which two pointers share an object (C36).  Notes: the object of a cycle is saved after its data, so a reference
  inside it fails; pointers of different static types to one object share a name and std::any_cast fails on the second; two
  objects with one name: the later one wins; the new object leaks when a later member fails.
* float and double: a negative zero is written to a string as `-0.`, infinity as `inf`, a value of 10^19 or more fills the
  room with unspecified characters and what follows is written behind the buffer (C69); six digits are written, so that
  10^-7 becomes 0 on strings (C70); a number out of range is undefined from a string and the largest double from a stream
  (C71); `1.`, `1e` (0 from a stream), `Infinity` (string) and `-` (stream) are read as numbers (C72).
* When a value is skipped, only the first letter of true, false and null is looked at: `{"z":nope}` is accepted (C76).  Note: a
  byte 0xFF behind a skipped number is lost.
* In Weak mode a prefix of a document is accepted as a whole document when a string in front of the cut ends in a backslash
  (C77).
* getPrintSize of a std::pair counts its names without quotes: the announced JSON size is too small (C25).
* A std::map whose keys are no strings keeps its old value for a key in the document (C81), one with string keys does not.
* A class with ThorsAnvil_MakeFilter does not leave out its empty optionals, so that its export fails (C82).
* A range cannot be written to a string: the bracket is written before the string is known (C83).  Note: jsonExporter takes
  the range by value and ExporterRange keeps a reference to that parameter; the model takes it to be alive.
* Numbers written one after another into a stream are read as one number (C85).
* AnyBlock (C86): an import appends to the old text; keys are decoded and not encoded again, so that `{"a\":1,\"b":2}` becomes `{"a":1,"b":2}`;
  a string that ends in a backslash fails; bytes from 128 on fail in a std::string; a number at the end of a stream is
  taken and reported as a failure; `nope` becomes `null`.
* Classes with stream operators (C90): what operator<< writes is escaped as if it were inside a string, so that a class that writes
  `"a"` is exported as `\"a\"`, which is not JSON and cannot be imported; the failed state that operator>> leaves is not
  looked at, so that the import of a text it does not take succeeds; a number that is the whole document and ends with the
  stream is read and reported as a failure; a pointer to an object written as `null` comes back as a null pointer.

### BSON
* float and double: a signalling NaN comes back quiet (C74); integers above 2^53 are rounded when read as double (C75).
* Strings that JSON escapes are written escaped and read back escaped (C40, C41).
* A root std::optional is announced as an array, a root variant as a value (C40, C41).
* validateNoTrailingData refuses every root scalar (C41).
* Integers that do not fit are cut to their low bits (C43).
* Truncation inside an integer or length uses an uninitialised variable (C45).
* A skipped string with a negative length makes a stream import read more than the announced bytes (C54); from a
  string the position goes back, and the import can run forever (`C12_bson_string_refuted`, 11 bytes).  What is accepted then
  need not be a document (`C88_negative_refuted`).
* Not checked by an import: the last byte of a string, the names of the elements of an array, the bytes of skipped values (C88).
* bsonExporter of a null pointer raises whatever is configured (C58).
* bsonGetPrintSize of a root scalar is eight less than what is written (C59).
* An export to a string fills the IdStore twice (C60).
* A bool byte other than 0 and 1 is undefined; so is a skipped string whose negative length leads to before the beginning of
  the std::string that is read (`C89_bson_refuted`).
* Notes: keys with NUL are cut; unsigned integers from 2^31 (2^63) on are
  written as negative ones.
* A projection of a scalar has no end mark (C78); the length of a class with a projection as a member counts the values that
  are not written (C79).
* The length of a std::pair counts an empty optional that is not written (C40).
* Classes with stream operators (C91): without a ThorsSerializerCustomObjectSize that tells the size of the text they cannot be
  exported at all, and with a size that is wrong the output is no document.  Unlike in JSON every text is read back, because it is
  binary data.  Note: binary data that ends early in a string leaves the bytes of the last raw value in the (static) buffer.
* Classes with a serializer (C94): readBson of the Mongo types takes what it is given, so that an int64 or a string of three characters is read
  as a date (`C94_type_refuted`); a projection has the object in full instead of the number 1 (`C94_projection_refuted`).

### Mongo types
* Code and regular expressions cannot be skipped: a class without such a member cannot be read from a document with one; a
  regular expression with a zero in it comes back as another one; the type byte of a custom value is not looked at (C84).
* The counter of ObjectID is taken modulo 0xFFF and the random part is std::rand() of each construction: ids 4095
  constructions apart can be equal (C47).
* UTCDateTime::asDateTime multiplies in 32 bits; BsonTimeStamp's operator< compares the increment first (C48); its layout is
  big endian with the increment first (C55).
* ObjectID, UTCDateTime and BsonTimeStamp have no YAML form.  Exporting one to YAML is reported only if it is an element of an array; alone or as a
  member of a class or map it ends the program: the exception meets a block that cannot be closed after a key (`C97_unsupported`,
  `C97_reported_refuted`; see C62).
* An export to JSON that fails inside a vector leaves a complete document of a shorter vector on the stream (`C98_cut_partial`); only the failed state of the stream
  tells that it is not the value (`C98_incomplete_refuted`).  A string keeps its old contents (`C98_string`).
* The text of a multimap read as a map loses entries: unordered_map keeps the first value of a key and map the last one (`C96_lost_refuted`).
* In JSON (C95): a string of at most 18 characters read into an ObjectID uses a char that was never set
  (`C95_short_id_undefined_refuted`; the same holds of ObjectID(std::string)); longer texts that are no ids and texts that are no time
  stamps are accepted without an error.
* to_string keeps the text of the id it had before operator>> (C56); the order of ids changes in 2038 (C57).
* Notes: readNumberMaxLenFromStream repeats the last character on short text and accepts any character; readBson does not
  check the type byte; a truncated ObjectID in a stream leaves tellg at -1; StreamFormatterNoChange does not restore fill.

### YAML
* An export to a string with an initial indent does not indent the first line (C50).
* A pointer to the text null or ~ is read back as a null pointer (C61).
* A text that is not UTF-8, an enum value without a name or an empty optional as the value of a member or as the root ends
  the program (std::terminate), also with catchExceptions; so does an output stream that takes nothing (C62).
* Integers are cut to 64 bits and then to the type; the empty text is 0 (C63).
* An import from a stream delivers the value but leaves the stream failed whenever libyaml looks behind the end of the text;
  that is the case unless the document is ended by `...` (C64).
* validateNoTrailingData finds nothing that libyaml has already read; on a string, a request after the check reads behind
  the string (C65).
* Classes with stream operators (C92): a text of operator<< that is not UTF-8 ends the program unless the object is an element of a
  list (as in C62); a pointer to an object written as `null` or `~` comes back as a null pointer.
* float and double (C93): digits beyond the sixth are lost (123456789 comes back as 123457000); the empty scalar is read as 0, a number
  out of range as infinity and nothing is reported; the words of YAML for infinity and NaN (`.inf`, `.nan`) are rejected.
* Note: YamlPrinter::formatType returns Json (YamlPrinter.h:47), so that DefaultCustomSerializer::writeCustomOld casts a YamlPrinter to
  JsonPrinter& (std::bad_cast): a class with a serializer is never written to YAML, also if it overrides writeYaml (read, not proved).

### std::format
* Sizes wrap silently at 2^64 and again at 2^32; the block indent of YAML is applied in Stream mode, against the
  documentation; a block indent of 5000 is undefined behaviour (C51).
* A value that cannot be written gives a cut text and no exception (C66).
* Note: the sizes are narrowed to int in braces, which the standard does not allow.

## Tests of the theorems

`seeded/LOG.jsonl`: each line is a realistic bug edited into a copy of the model, the claim it breaks and the theorems that
stopped proving.  Theorems that survived a wrong program were tightened; the line names them.
