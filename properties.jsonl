{"id": "C01", "title": "JSON string values round trip", "statement": "Exporting any std::string with jsonExporter and importing the produced text into a std::string with jsonImporter gives back exactly the same bytes (quotes, backslashes, control characters, NUL and bytes >= 0x80 included).", "quantifier": "every byte string, every position it can occur as a value", "why_tests_cant": "There are infinitely many byte strings; the interesting failures come from interactions between escape sequences and chunk boundaries at embedded quotes.", "anchors": ["src/Serialize/ThorsSerializerUtil.h: escapeString", "src/Serialize/JsonManualLexer.cpp: getString, getStringInto, checkEscape", "src/Serialize/UnicodeIterator.h: UnicodeWrapperIterator"]}
{"id": "C02", "title": "Exported string values are legal JSON string tokens", "statement": "For every byte string the text written for a string value is a quote, a sequence of legal RFC 8259 string characters / escape sequences, and a quote: no raw control character, no unescaped quote or backslash inside.", "quantifier": "every byte string", "why_tests_cant": "All byte strings; a test samples a few.", "anchors": ["src/Serialize/ThorsSerializerUtil.h: escapeString", "src/Serialize/JsonPrinter.cpp: addValue(std::string_view)"]}
{"id": "C03", "title": "\\uXXXX escapes decode to UTF-8 in the basic plane", "statement": "When a JSON string contains \\uXXXX for a code point of the basic multilingual plane that is not a surrogate (any hex digit case), the imported std::string contains exactly the UTF-8 encoding of that code point, wherever the escape stands in the string.", "quantifier": "every code point U+0000..U+FFFF outside the surrogates, every hex spelling, every surrounding text", "why_tests_cant": "Position in the string and neighbouring escapes are unbounded.", "anchors": ["src/Serialize/UnicodeIterator.h: decodeUnicode, getUnicodeHex, convertHexToDec"]}
{"id": "C04", "title": "Surrogate pairs decode to the supplementary code point", "statement": "When a JSON string contains a surrogate pair escape, the imported string contains the UTF-8 encoding of the code point RFC 8259/UTF-16 assigns to the pair.", "quantifier": "every supplementary code point U+10000..U+10FFFF", "why_tests_cant": "1,048,576 pairs in any context; the existing tests only use planes where the shortcut in the code happens to work.", "anchors": ["src/Serialize/UnicodeIterator.h: decodeSurrogatePairs"]}
{"id": "C05", "title": "Malformed string contents are rejected", "statement": "A JSON string whose contents are not legal (raw control character, unknown escape, short or non-hex \\u, lone surrogate) makes the import fail instead of producing a value; conversely, whatever is accepted decodes to the RFC meaning.", "quantifier": "every raw text between two quotes", "why_tests_cant": "Universal over texts: tests check a handful of malformed escapes.", "anchors": ["src/Serialize/UnicodeIterator.h: checkBuffer, decodeUnicode, decodeSurrogatePairs", "src/Serialize/JsonManualLexer.cpp: getStringInto"]}
{"id": "C06", "title": "In-place string decoding is memory safe", "statement": "While a string value is unescaped in place the write position never passes the read position, no byte outside the string's own buffer is read, and the decoded length never exceeds the raw length.", "quantifier": "every raw text delivered by the reader and every intermediate step of the copy", "why_tests_cant": "Needs an invariant of every step of the copy loop, including the end-of-buffer cases.", "anchors": ["src/Serialize/UnicodeIterator.h: UnicodeWrapperIterator", "src/Serialize/JsonManualLexer.cpp: getString"]}
{"id": "C07", "title": "The JSON token stream is accepted only for grammatical documents", "statement": "If reading tokens from a JSON input reaches the end-of-document token, then the sequence of punctuation/scalar lexemes read forms exactly one value of the RFC 8259 grammar (commas, colons, brackets, string keys), and every grammatical sequence reaches it.", "quantifier": "every sequence of lexemes, any nesting depth", "why_tests_cant": "Needs language equivalence of a push-down machine with the grammar; unbounded depth and length.", "anchors": ["src/Serialize/JsonParser.cpp: getNextToken", "src/Serialize/JsonManualLexer.cpp: yylex"]}
{"id": "C08", "title": "Tokens are well bracketed and the nesting stack is never popped empty", "statement": "For every input, the tokens delivered by the JSON parser are properly nested: each MapEnd/ArrayEnd closes the matching start, keys and values alternate inside a map and never occur in an array, and no end token is produced without an open container (no access to an empty stack).", "quantifier": "every byte string given to the parser and every prefix of its token sequence", "why_tests_cant": "Every input including garbage; failure would be undefined behaviour on an empty std::vector.", "anchors": ["src/Serialize/JsonParser.cpp: getNextToken", "src/Serialize/JsonParser.h: State, parrentState"]}
{"id": "C09", "title": "A parse error is final", "statement": "Once the JSON parser has delivered the Error token it delivers Error for every further request, consuming no input.", "quantifier": "every input and any number of further requests", "why_tests_cant": "A statement about all continuations of every failing run.", "anchors": ["src/Serialize/JsonParser.cpp: getNextToken"]}
{"id": "C10", "title": "Pushed back tokens come back in LIFO order", "statement": "A token handed back to the parser is the next one delivered, and up to two outstanding tokens are delivered most-recent-first before new input is read.", "quantifier": "every parser state with at most one outstanding token, every token kind", "why_tests_cant": "All parser states; the polymorphic reader relies on it with both slots in use.", "anchors": ["src/Serialize/ParserInterface.cpp: getToken, pushBackToken"]}
{"id": "C11", "title": "Import does not depend on insignificant white space", "statement": "Importing two JSON texts that differ only in white space between lexemes gives the same result (same value or both fail), for white space space, tab, newline and carriage return.", "quantifier": "every document, every placement and amount of white space", "why_tests_cant": "Infinitely many spellings of each document.", "anchors": ["src/Serialize/ParserInterface.h: PeekNextNonSpaceValue", "src/Serialize/StringInput.h: readValue(char&)", "src/Serialize/JsonManualLexer.cpp: yylex"]}
{"id": "C12", "title": "Import terminates on every finite input", "statement": "Importing any finite input into any supported type terminates (successfully or with an error).", "quantifier": "every finite byte string, stream or string source, every target type", "why_tests_cant": "Non-termination cannot be observed by a finite test; needs a decreasing measure or a non-terminating witness.", "anchors": ["src/Serialize/Serialize.tpp: DeSerializationForBlock<Array>, DeSerializationForBlock<Pointer>", "src/Serialize/JsonManualLexer.cpp: getStringInto", "src/Serialize/JsonParser.cpp: getNextToken"]}
{"id": "C13", "title": "Unknown members are skipped exactly (Weak)", "statement": "With the default Weak strictness a member that the target type does not have is skipped: exactly its value, of any shape and nesting, is consumed and the members after it are read as if it was not there.", "quantifier": "every JSON value as the unknown member's value, any position, any following text", "why_tests_cant": "Arbitrarily nested skipped values.", "anchors": ["src/Serialize/ParserInterface.cpp: ignoreValue, ignoreTheMap, ignoreTheArray, ignoreTheValue", "src/Serialize/JsonManualLexer.cpp: ignoreRawValue"]}
{"id": "C14", "title": "Unterminated strings are rejected", "statement": "A JSON text that ends inside a string value is rejected.", "quantifier": "every text whose last string has no closing quote", "why_tests_cant": "All truncation points of all documents.", "anchors": ["src/Serialize/JsonManualLexer.cpp: getStringInto", "src/Serialize/StringInput.h: readTo"]}
{"id": "C15", "title": "Only the exact literals true/false/null are accepted", "statement": "A value starting with t, f or n is accepted only if it spells true, false or null exactly.", "quantifier": "every input text at a value position", "why_tests_cant": "All misspellings and truncations, any earlier parser history (the lexer reuses its buffer).", "anchors": ["src/Serialize/JsonManualLexer.cpp: getLastBool, checkFixed, ignoreRawValue, getLastNull"]}
{"id": "C16", "title": "Integers round trip for every width", "statement": "Every value of every supported integer type (signed/unsigned, short to long long) exported to JSON and imported into the same type gives the same value, from a stream and from a string.", "quantifier": "every value of each integer type", "why_tests_cant": "2^64 values per type; boundary handling of the minimum of signed types.", "anchors": ["src/Serialize/ParserInterface.h: ReadValue", "src/Serialize/StringInput.h: readValue", "src/Serialize/JsonPrinter.cpp: addValue", "src/Serialize/StringOutput.h: writeValue"]}
{"id": "C17", "title": "Out of range integers are rejected", "statement": "Importing an integer literal that does not fit the target type fails; it never yields a different number.", "quantifier": "every integer literal and every target integer type", "why_tests_cant": "Unbounded literals; needs reasoning about wrap-around at each width.", "anchors": ["src/Serialize/ParserInterface.h: ReadValue::readNumber", "src/Serialize/StringInput.h: readValue"]}
{"id": "C18", "title": "JSON integer syntax is enforced", "statement": "An integer literal with a leading zero or a leading plus is rejected as RFC 8259 demands, and a literal with fraction/exponent is not silently truncated into an integer.", "quantifier": "every literal text", "why_tests_cant": "Unbounded texts.", "anchors": ["src/Serialize/ParserInterface.h: ReadValue::checkZero, validateResult"]}
{"id": "C19", "title": "String and stream sources agree", "statement": "Importing the same valid JSON text from a std::string_view and from a std::istream gives the same value.", "quantifier": "every valid JSON document and target type", "why_tests_cant": "Two independent source implementations; agreement over all documents.", "anchors": ["src/Serialize/StringInput.h", "src/Serialize/ParserInterface.h"]}
{"id": "C20", "title": "The JSON printer writes grammatical JSON", "statement": "For every value of every supported type and every printer configuration the exported text is exactly one JSON value in the sense of the RFC 8259 grammar.", "quantifier": "every value, type, nesting depth and printer configuration", "why_tests_cant": "Comma/colon placement depends on the whole printing history.", "anchors": ["src/Serialize/JsonPrinter.cpp: Prefix, openMap, closeMap, openArray, closeArray, addKey, addValue"]}
{"id": "C21", "title": "Output formats differ only in white space", "statement": "Stream and Config output of the same value, with any tab size or initial indent, are the same lexemes separated by different white space.", "quantifier": "every value, every pair of configurations", "why_tests_cant": "Quantifies over pairs of runs.", "anchors": ["src/Serialize/JsonPrinter.cpp: Prefix::printIndent, printSeporator", "src/Serialize/PrinterConfig.h"]}
{"id": "C22", "title": "Printing to a string equals printing to a stream", "statement": "Exporting a value to a std::string (size estimation pass, then writing into the reserved space) gives exactly the characters that exporting to a std::ostream gives, and never writes outside the reserved space.", "quantifier": "every value without floating point members, both estimate and exact preflight modes", "why_tests_cant": "Safety of unchecked writes depends on the first pass over-approximating the second for every value.", "anchors": ["src/Serialize/StringOutput.h: write, writeValue, reserveSize, finalizePrint", "src/Serialize/PrinterInterface.h", "src/Serialize/Serialize.tpp: Serializer::print"]}
{"id": "C23", "title": "Indentation is memory safe at every depth", "statement": "Printing with indentation never reads outside the indentation buffer.", "quantifier": "every nesting depth, tab size and block size", "why_tests_cant": "Unbounded nesting depth.", "anchors": ["src/Serialize/JsonPrinter.cpp: printIndent, buildIndent"]}
{"id": "C24", "title": "Misuse of the printer is rejected", "statement": "Closing a container that is not the innermost open one, adding a key outside a map, a second key without a value or a value where a key is required raises an exception instead of writing ungrammatical text.", "quantifier": "every sequence of printer calls", "why_tests_cant": "All call histories.", "anchors": ["src/Serialize/JsonPrinter.cpp: closeMap, closeArray, addKey"]}
{"id": "C25", "title": "The advertised JSON size is the number of bytes written", "statement": "jsonStreanSize(value) equals the number of bytes that exporting the value in Stream format writes.", "quantifier": "every value of the supported types", "why_tests_cant": "Two independent traversals must agree on every value.", "anchors": ["src/Serialize/JsonThor.h: jsonStreanSize", "src/Serialize/JsonPrinter.h: getSizeMap, getSizeArray, getSizeMember, getSizeValue", "src/Serialize/Traits.h: TraitsSizeCalculator"]}
{"id": "C26", "title": "JSON round trip for composite values", "statement": "For every type built from integers, booleans, strings, enums, structs (with renamed members and parents), vectors, arrays, tuples, pairs, string-keyed maps, unique pointers and optional members, exporting a value and importing the text into a default value of the type gives back the value.", "quantifier": "every type of that universe, every value, every printer configuration and both source kinds", "why_tests_cant": "Infinitely many types and values.", "anchors": ["src/Serialize/Serialize.tpp", "src/Serialize/SerUtil.h", "src/Serialize/Traits.h", "src/Serialize/JsonPrinter.cpp", "src/Serialize/JsonParser.cpp"]}
{"id": "C27", "title": "String map keys round trip", "statement": "Exporting a std::map<std::string, V> to JSON and importing the text gives back a map with the same keys, whatever bytes the keys contain.", "quantifier": "every set of keys", "why_tests_cant": "All byte strings as keys.", "anchors": ["src/Serialize/JsonPrinter.cpp: addKey", "src/Serialize/SerUtil.h: map<std::string, V>", "src/Serialize/JsonManualLexer.cpp: getString"]}
{"id": "C28", "title": "Member order does not matter", "statement": "Importing an object whose members appear in a different order gives the same struct.", "quantifier": "every struct type, every permutation of the members", "why_tests_cant": "n! orders for each type.", "anchors": ["src/Serialize/Serialize.tpp: DeSerializationForBlock<Map>::scanObject, scanObjectMembers"]}
{"id": "C29", "title": "Strictness modes", "statement": "With Strict or Exact an object that has a member the type does not know is rejected; with Exact an object that lacks a member of the type is rejected and one that has them all is accepted; with Weak members that are absent leave the target untouched.", "quantifier": "every struct type, every document, every prior value of the target", "why_tests_cant": "All subsets of members and all documents.", "anchors": ["src/Serialize/Serialize.tpp: scanObject, HeedAllValues", "src/Serialize/ParserInterface.cpp: ignoreValue"]}
{"id": "C30", "title": "Exact mode honours renamed members", "statement": "With Exact strictness an object written by the exporter for the same type is accepted, also when members are renamed with MakeOverride.", "quantifier": "every struct type and value", "why_tests_cant": "Needs the exporter and the checker to agree on names for all override tables.", "anchors": ["src/Serialize/Serialize.tpp: HeedAllValues::checkAMember", "src/Serialize/Traits.h: Override"]}
{"id": "C31", "title": "Too long arrays are rejected", "statement": "Importing a JSON array with more elements than a std::array or std::tuple target has raises an error (no element is written outside the object); with the exact number every element is stored at its index.", "quantifier": "every array length and element type", "why_tests_cant": "Memory safety for all lengths.", "anchors": ["src/Serialize/SerUtil.h: array, tuple", "src/Serialize/Serialize.tpp: DeSerializationForBlock<Array>"]}
{"id": "C32", "title": "Import replaces the contents of a sequence container", "statement": "After importing into a std::vector/list/deque the container holds exactly the elements of the document, whatever it held before.", "quantifier": "every prior content, every document", "why_tests_cant": "All prior states.", "anchors": ["src/Serialize/SerUtil.h: vector, list, deque"]}
{"id": "C33", "title": "Duplicate keys in maps", "statement": "Importing an object with repeated keys into std::map<std::string, V> keeps one entry per key, holding the last value for types that are overwritten, and for std::unordered_map<std::string, V> the first value.", "quantifier": "every key sequence", "why_tests_cant": "All sequences of keys.", "anchors": ["src/Serialize/SerUtil.h: map<std::string,V>, unordered_map<std::string,V>"]}
{"id": "C34", "title": "Null pointers and optional members round trip", "statement": "A null pointer member is written as null and read back as null, a non-null pointer is read back as a pointer to an equal value; an empty std::optional member is left out of the text and stays empty on import, a non-empty one round trips.", "quantifier": "every struct type, every combination of null/non-null and empty/non-empty members", "why_tests_cant": "2^n combinations for each type.", "anchors": ["src/Serialize/Serialize.tpp: DeSerializationForBlock<Pointer>, SerializerForBlock<Pointer>", "src/Serialize/SerUtil.h: optional", "src/Serialize/Traits.h: Filter"]}
{"id": "C35", "title": "Enums round trip by name and unknown names are rejected", "statement": "Every enum value with a name is written as that name and read back as the same value; a name that does not belong to the enum is rejected.", "quantifier": "every enum declaration, value and string", "why_tests_cant": "All strings, all enums.", "anchors": ["src/Serialize/Traits.h: MakeEnum", "src/Serialize/Serialize.tpp: DeSerializationForBlock<Enum>"]}
{"id": "C36", "title": "Shared pointers keep their sharing", "statement": "After a round trip two shared pointers refer to the same object exactly when they did before, and refer to equal values.", "quantifier": "every list of shared pointers, any aliasing pattern", "why_tests_cant": "All aliasing patterns.", "anchors": ["src/Serialize/PrinterInterface.h: addShared", "src/Serialize/ParserInterface.h: getShared", "src/Serialize/Serialize.tpp: DeSerializationForBlock<shared_ptr>"]}
{"id": "C37", "title": "Polymorphic objects round trip", "statement": "A pointer to a registered derived class is written with its class name as first member and read back as an object of the same class with equal members; an object without that first member or with an unregistered class name is rejected.", "quantifier": "every registry, class and value", "why_tests_cant": "All registries and values.", "anchors": ["src/Serialize/Serialize.tpp: getPolymorphicClassName, tryParsePolyMorphicObject", "src/Serialize/Traits.h: PolyMorphicRegistry"]}
{"id": "C38", "title": "Failures are reported", "statement": "An import that ends with an exception leaves the source in a failed state; the exception reaches the caller exactly when the configuration says so, and an import that reports success parsed a complete document.", "quantifier": "every configuration, exception kind and input", "why_tests_cant": "Cross product of configurations, exceptions and inputs.", "anchors": ["src/Serialize/Importer.h: extract", "src/Serialize/Exporter.h: inserter"]}
{"id": "C39", "title": "Trailing data validation", "statement": "With validateNoTrailingData an import succeeds only if nothing but white space follows the document; without it the source is left just behind the document so a following import reads the next document.", "quantifier": "every document and every following text", "why_tests_cant": "All following texts.", "anchors": ["src/Serialize/Importer.h: extract"]}
{"id": "C40", "title": "BSON length prefixes are the number of bytes written", "statement": "In an exported BSON document every length field (document, embedded document, array, string) equals the number of bytes the element occupies, at every nesting level.", "quantifier": "every value of every supported type", "why_tests_cant": "Sizes are computed by a traversal separate from the writing one.", "anchors": ["src/Serialize/BsonPrinter.cpp: getSizeMap, getSizeArray, openMap, openArray, writeString", "src/Serialize/Traits.h: TraitsSizeCalculator", "src/Serialize/SerUtil.h: getPrintSize"]}
{"id": "C41", "title": "BSON round trip", "statement": "For every supported type built from integers, booleans, strings, structs, vectors, maps, pointers and optionals, exporting to BSON and importing the bytes gives back the value.", "quantifier": "every type and value", "why_tests_cant": "Infinitely many types and values; parser keeps remaining-byte counters that must stay exact.", "anchors": ["src/Serialize/BsonPrinter.cpp", "src/Serialize/BsonParser.cpp"]}
{"id": "C42", "title": "BSON array element names", "statement": "The elements of an exported BSON array are named \"0\", \"1\", \"2\", ... in order, and the array's size accounts for exactly those names.", "quantifier": "every array length", "why_tests_cant": "Lengths crossing every power of ten.", "anchors": ["src/Serialize/BsonPrinter.cpp: writeKey, getSizeArray"]}
{"id": "C43", "title": "BSON integers are not silently truncated", "statement": "Importing a BSON integer that does not fit the target type fails.", "quantifier": "every 64 bit value and target type", "why_tests_cant": "2^64 values.", "anchors": ["src/Serialize/BsonParser.cpp: readInt", "src/Serialize/BsonParser.h: readLE"]}
{"id": "C44", "title": "Byte order codecs are inverse", "statement": "Values written with the little/big endian writers are read back unchanged by the matching readers for every width used (4, 8 little endian; 3, 4, 5 big endian).", "quantifier": "every value that fits the width", "why_tests_cant": "2^40 / 2^64 values.", "anchors": ["src/Serialize/BsonPrinter.h: writeLE, writeBE", "src/Serialize/BsonParser.h: readLE, readBE"]}
{"id": "C45", "title": "Truncated BSON is rejected", "statement": "Importing a proper prefix of a BSON document fails.", "quantifier": "every document and every truncation point", "why_tests_cant": "All crash points of all documents.", "anchors": ["src/Serialize/BsonParser.cpp: readSize, readKey, getNextToken"]}
{"id": "C46", "title": "ObjectID text and binary forms round trip", "statement": "Every ObjectID with fields in range is written as 24 hex digits / 12 bytes and read back equal.", "quantifier": "every timestamp (32 bit), random part (40 bit) and counter (24 bit)", "why_tests_cant": "2^96 values.", "anchors": ["src/Serialize/MongoUtility.h: operator<<(ostream), operator>>(istream), operator<<(BsonPrinter), operator>>(BsonParser)"]}
{"id": "C47", "title": "ObjectIDs generated in a process are distinct", "statement": "Any two ObjectIDs default constructed within the same second in one process differ as long as fewer than 2^24 are made.", "quantifier": "every number of generated ids up to 2^24", "why_tests_cant": "Needs millions of constructions within a second.", "anchors": ["src/Serialize/MongoUtilityObjectId.h: getNextCounter", "src/Serialize/MongoUtility.cpp: classCounter"]}
{"id": "C48", "title": "BSON timestamps convert and compare by time", "statement": "BsonTimeStamp::asDateTime gives the time of the stamp in milliseconds, and an earlier stamp compares less than a later one.", "quantifier": "every 32 bit timestamp and increment", "why_tests_cant": "2^64 values.", "anchors": ["src/Serialize/MongoUtility.cpp: asDateTime", "src/Serialize/MongoUtility.h: BsonTimeStamp::operator<"]}
{"id": "C49", "title": "YAML token stream is well bracketed", "statement": "For every well formed libyaml event stream the YAML parser's tokens are properly nested, keys and values alternate inside maps, and exactly one document is delivered.", "quantifier": "every event stream", "why_tests_cant": "All event streams.", "anchors": ["src/Serialize/YamlParser.cpp: getNextToken"]}
{"id": "C50", "title": "YAML block indentation", "statement": "With an initial block indent every line of the written YAML starts with the indent, and the text without the indents is the text written without block indent, however libyaml splits its output into chunks.", "quantifier": "every text and every split into write calls", "why_tests_cant": "All chunkings.", "anchors": ["src/Serialize/YamlPrinter.cpp: thorsanvilYamlStreamWriter"]}
{"id": "C51", "title": "Format specification parsing", "statement": "A std::format specification for JSON/BSON/YAML views is parsed into output type, mode, indent and block exactly as documented, and anything else is rejected.", "quantifier": "every specification string", "why_tests_cant": "All strings.", "anchors": ["src/Serialize/Format.h: parse"]}
{"id": "C52", "title": "A failed import leaves no dangling owning pointer", "statement": "When an import fails every raw owning pointer member of the target is either null or points to a live object.", "quantifier": "every document and failure point", "why_tests_cant": "All failure points.", "anchors": ["src/Serialize/Serialize.tpp: DeSerializationForBlock<Pointer>"]}
{"id": "C53", "title": "Push-back decoding of JSON strings", "statement": "Assigning the characters of a JSON string one by one to a UnicodePushBackIterator appends exactly the text the string denotes to the container, independent of what was decoded before; contents that are not legal are rejected.", "quantifier": "every JSON string and every earlier content", "why_tests_cant": "All strings; state carried from one escape to the next.", "anchors": ["src/Serialize/UnicodeIterator.h: UnicodePushBackIterator::operator="]}
{"id": "C54", "title": "A BSON import reads what the document announces", "statement": "An import of BSON that gives a value has read exactly as many bytes as the length field at the front of the document announces, so that the next document of a stream starts where the previous one ended.", "quantifier": "every input, valid BSON or not, every target type and every configuration", "why_tests_cant": "All byte sequences; the counters of nested containers and of skipped values must agree with what was consumed.", "anchors": ["src/Serialize/BsonParser.cpp: getNextToken, startContainer, readEndOfContainer, ignoreDataValue"]}
{"id": "C55", "title": "Dates and timestamps round trip in BSON and as text", "statement": "A UTCDateTime or BsonTimeStamp is written as 8 bytes in the layout of the BSON specification and read back equal, using up exactly these bytes of the container; a BsonTimeStamp written as text is read back equal whatever follows it.", "quantifier": "every 64 bit date, every 32 bit time and increment, every source and container state", "why_tests_cant": "2^64 values, any surrounding document.", "anchors": ["src/Serialize/MongoUtility.h: operator<<, operator>> of UTCDateTime and BsonTimeStamp", "src/Serialize/CustomSerialization.tpp: writeCustomOld, readCustomOld"]}
{"id": "C56", "title": "ObjectID::to_string gives the text of the id", "statement": "ObjectID::to_string() returns what operator<< writes for the id as it is at the time of the call, and does not change the id.", "quantifier": "every id and every sequence of reads and to_string calls", "why_tests_cant": "Depends on the order of calls on one object.", "anchors": ["src/Serialize/MongoUtilityObjectId.h: to_string"]}
{"id": "C57", "title": "ObjectIDs are ordered like their bytes", "statement": "operator< and operator== of ObjectID agree with the order of the 12 bytes (and of the 24 digit text) of the ids.", "quantifier": "every pair of ids", "why_tests_cant": "2^192 pairs.", "anchors": ["src/Serialize/MongoUtilityObjectId.h: operator<, operator=="]}
{"id": "C58", "title": "Exports report failures as configured", "statement": "When exporting a value fails, the exception reaches the caller exactly if catchExceptions is off; the option changes nothing else about an export.", "quantifier": "every type, value, configuration and kind of output, for JSON and BSON", "why_tests_cant": "Any failure inside any nesting of types.", "anchors": ["src/Serialize/Exporter.h: ExporterBase::inserter", "src/Serialize/BsonThor.h: bsonExporter, BsonBaseTypeGetter::validate"]}
{"id": "C59", "title": "bsonGetPrintSize is the number of bytes written", "statement": "bsonGetPrintSize(value) equals the number of bytes that bsonExporter(value) writes.", "quantifier": "every type and value, with and without an IdStore", "why_tests_cant": "The size is computed by a second recursion over the value that must agree with the printer for every nesting.", "anchors": ["src/Serialize/BsonThor.h: bsonGetPrintSize", "src/Serialize/BsonPrinter.cpp: getSizeMap, getSizeArray"]}
{"id": "C60", "title": "The IdStore holds the ids of the document", "statement": "After a BSON export with an IdStore the store holds exactly the ids that were written as _id, in the order of the document.", "quantifier": "every type and value, for streams and strings", "why_tests_cant": "Depends on the value and on whether the output is written once or twice.", "anchors": ["src/Serialize/BsonPrinter.cpp: openMap, needToInsertId"]}
{"id": "C61", "title": "YAML round trip", "statement": "A value written with yamlExporter is read back by yamlImporter as an equal value (given that libyaml's parser delivers the events its emitter was given).", "quantifier": "every type, value, configuration and way libyaml asks for its input", "why_tests_cant": "Every nesting of types and every value; which texts stand for null matters only behind pointers.", "anchors": ["src/Serialize/YamlPrinter.cpp", "src/Serialize/YamlParser.cpp: isValueNull, getNextToken", "src/Serialize/Serialize.tpp"]}
{"id": "C62", "title": "Failing YAML exports are reported as configured", "statement": "When a value cannot be written as YAML, or the output takes nothing, the export reports it as an exception or as a failed stream as catchExceptions says; the program goes on.", "quantifier": "every type, value, configuration and output", "why_tests_cant": "The outcome depends on where in the value the failure is: destructors emit events while the exception travels.", "anchors": ["src/Serialize/YamlPrinter.cpp: emit, closeMap, closeArray, closeDoc", "src/Serialize/Serialize.h: ~Serializer", "src/Serialize/Exporter.h: inserter"]}
{"id": "C63", "title": "YAML integers are exact", "statement": "An integer in a YAML text that fits its type is read as that integer; an integer that does not fit, and any other text, is rejected.", "quantifier": "every text and every integer type", "why_tests_cant": "All texts; the values at and beyond every type's limits.", "anchors": ["src/Serialize/Serialize.h: scanValue", "src/Serialize/YamlParser.cpp: scan"]}
{"id": "C64", "title": "YAML imports report what they did", "statement": "yamlImporter reports success exactly when it delivered the value of the document.", "quantifier": "every document, kind of source and way libyaml asks for its input", "why_tests_cant": "Depends on how libyaml asks for its input at the end of the text.", "anchors": ["src/Serialize/YamlParser.cpp: thorsanvilYamlStreamReader", "src/Serialize/Importer.h: extract"]}
{"id": "C65", "title": "validateNoTrailingData works for YAML", "statement": "With validateNoTrailingData a YAML import is rejected exactly when something other than white space follows the document.", "quantifier": "every document and every text behind it", "why_tests_cant": "All texts, and every way libyaml asks for its input.", "anchors": ["src/Serialize/Importer.h: extract", "src/Serialize/YamlParser.cpp: thorsanvilYamlStreamReader", "src/Serialize/StringInput.h: read, readValue"]}
{"id": "C66", "title": "std::format of a value is complete or throws", "statement": "std::format of TA::Ser either returns the text of a document of the value or throws.", "quantifier": "every specification, type and value", "why_tests_cant": "All values, including those that cannot be exported.", "anchors": ["src/Serialize/Format.h: format", "src/Serialize/Exporter.h: inserter"]}
{"id": "C67", "title": "A failed import leaves the target as it was", "statement": "When an import fails the target variable holds what it held before.", "quantifier": "every type, old value, document and failure point", "why_tests_cant": "All failure points of all documents.", "anchors": ["src/Serialize/Importer.h: extract", "src/Serialize/Serialize.tpp: DeSerializationForBlock", "src/Serialize/SerUtil.h: MemberEmplacer"]}
{"id": "C68", "title": "Shared pointers are read from any document without undefined behaviour", "statement": "Reading a list of shared pointers from any JSON document either gives pointers or fails; a reference to an object that was not read before fails.", "quantifier": "every document, pointer type, configuration and kind of source", "why_tests_cant": "All forged or cut off documents.", "anchors": ["src/Serialize/ParserInterface.h: getShared", "src/Serialize/Serialize.tpp: DeSerializationForBlock<shared_ptr>"]}
{"id": "C69", "title": "Floats and doubles are exported as JSON", "statement": "Exporting a value with float and double members gives one JSON value of the RFC 8259 grammar, to a stream and to a string, and writes only inside the output.", "quantifier": "every type and value, configuration and kind of output", "why_tests_cant": "2^64 bit patterns, nested in all types.", "anchors": ["src/Serialize/JsonPrinter.cpp: addValue(float/double)", "src/Serialize/StringOutput.h: writeValue"]}
{"id": "C70", "title": "Floats and doubles survive a round trip", "statement": "Importing what was exported gives the value again; numbers of up to six digits as they were, others within the error of six digits.", "quantifier": "every type, finite number, configuration, kind of output and of source", "why_tests_cant": "All bit patterns and their decimal expansions.", "anchors": ["src/Serialize/JsonPrinter.cpp: addValue(float/double)", "src/Serialize/StringInput.h: readValue", "src/Serialize/ParserInterface.h: ReadValue"]}
{"id": "C71", "title": "JSON numbers are read as the nearest float or double", "statement": "Every JSON number read into a float or double gives the nearest value of the type, ties to even, with the sign of the text; from strings and streams alike.", "quantifier": "every JSON number of any length, both types, both kinds of source", "why_tests_cant": "All decimal texts.", "anchors": ["src/Serialize/StringInput.h: readValue", "src/Serialize/ParserInterface.h: ReadValue", "src/Serialize/JsonManualLexer.h: scan"]}
{"id": "C72", "title": "Only JSON numbers are read as floats", "statement": "A text that is no JSON number is rejected when a float or double is expected.", "quantifier": "every text, both types, both kinds of source", "why_tests_cant": "All texts.", "anchors": ["src/Serialize/StringInput.h: readValue", "src/Serialize/ParserInterface.h: ReadValue, validateResult"]}
{"id": "C73", "title": "Floats and doubles are written to BSON with their value", "statement": "A value that contains floats and doubles is exported to BSON as the document of that value: every float or double, including infinities, NaNs and negative zeros, is an element of type double with exactly its value, and the reported size is the size written.", "quantifier": "every type and value, every bit pattern of float and double, both kinds of output", "why_tests_cant": "All 2^32 floats and 2^64 doubles at any place of any document.", "anchors": ["src/Serialize/BsonPrinter.h: addValue(float), addValue(double), writeFloat, writeSize", "src/Serialize/BsonUtil.h"]}
{"id": "C74", "title": "Floats and doubles survive a BSON round trip bit by bit", "statement": "A value with floats and doubles that is exported to BSON and imported again has the same bits.", "quantifier": "every type and value, every bit pattern, all configurations", "why_tests_cant": "All bit patterns, including infinities and NaN payloads.", "anchors": ["src/Serialize/BsonPrinter.h: writeFloat", "src/Serialize/BsonParser.h: readFloat, getFloatValue"]}
{"id": "C75", "title": "BSON numbers are read as the nearest float or double", "statement": "Every int32, int64 and double element that is read into a float or double gives the nearest value of that type, ties to even; every other element is rejected.", "quantifier": "every element, both types, every place in a document", "why_tests_cant": "All 64 bit integers and doubles.", "anchors": ["src/Serialize/BsonParser.h: getFloatValue, readFloat, readLE"]}
{"id": "C76", "title": "What is accepted is a JSON document, up to the spelling of its lexemes", "statement": "When an import from JSON returns, the text it has read is the lexemes of exactly one complete value in the order the JSON grammar allows, with only white space between them: no comma or colon is missing or doubled, every bracket is closed by its own kind. If trailing data is refused, only white space follows. Each lexeme is one that JSON allows, up to the deviations the specification lists by kind of source and strictness.", "quantifier": "every text (also malformed), type, target, configuration and kind of source; texts with an object or an array at the root", "why_tests_cant": "The set of malformed texts is infinite; tests try single broken documents.", "anchors": ["src/Serialize/JsonManualLexer.cpp: yylex, readNumber, checkFixed", "src/Serialize/JsonParser.cpp: getNextToken, ignoreRawValue", "src/Serialize/ParserInterface.cpp: ignoreValue, ignoreTheMap, ignoreTheArray", "src/Serialize/Serialize.tpp: DeSerializer::parse", "src/Serialize/Importer.h: Importer::extract"]}
{"id": "C77", "title": "A truncated document is never accepted", "statement": "If a JSON document whose root is an object or array is cut before its last bracket, the import of the remaining text does not return normally.", "quantifier": "every document, every place to cut, every type, target, configuration and kind of source", "why_tests_cant": "Every cut of every document, and every type that may skip the place of the cut.", "anchors": ["src/Serialize/JsonParser.cpp: getNextToken, ignoreRawValue", "src/Serialize/JsonManualLexer.cpp: ignoreRawValue", "src/Serialize/Importer.h: Importer::extract"]}
{"id": "C78", "title": "A projection has the shape of its document", "statement": "Exporting Projection<T> to BSON writes the BSON document of the value in which every value that is no object or array is the 32 bit integer 1: the same fields, the same nesting, the same order, correct lengths.", "quantifier": "every type and value, with and without an IdStore, with floats and doubles", "why_tests_cant": "Tests project one small class; lengths depend on every nested value and on every kind of scalar.", "anchors": ["src/Serialize/BsonThor.h: Projection, Traits<Projection<T>>", "src/Serialize/BsonPrinter.cpp: addValue, writeOne, getSize"]}
{"id": "C79", "title": "A projection as a member of a class", "statement": "Exporting a class with a member of type Projection<T> to BSON writes a BSON document: the lengths are those of what is written.", "quantifier": "every class and value", "why_tests_cant": "The announced size and the written text are computed by different code; only a value whose fields are not all 32 bit integers shows the difference.", "anchors": ["src/Serialize/BsonThor.h: Traits<Projection<T>>, getPrintSize", "src/Serialize/BsonPrinter.cpp: setProjection"]}
{"id": "C80", "title": "What a set, multiset, map or multimap holds after an import", "statement": "Importing into std::set, multiset, map and multimap (keys that are no strings) and vector<bool> accepts exactly the inputs that are accepted for a vector of the element type, leaves the source at the same place, and adds the elements of the input to those that the container holds: ordered by key, sets and maps with one element for each key, multisets and multimaps with all.", "quantifier": "every input (also malformed), element type, previous content, configuration and source; JSON, BSON and YAML", "why_tests_cant": "Tests import a few sorted elements into an empty container.", "anchors": ["src/Serialize/SerUtil.h: ContainerArrayEmplacer, Traits<std::set>, Traits<std::map>", "src/Serialize/Serialize.tpp: DeSerializer::parse"]}
{"id": "C81", "title": "The entries of the document are in the map", "statement": "After an import into a std::map whose keys are no strings, every key in the document has the value that the document gives for it.", "quantifier": "every document, previous content, configuration", "why_tests_cant": "Needs previous contents and repeated keys in all combinations.", "anchors": ["src/Serialize/SerUtil.h: ContainerArrayEmplacer (insert)", "src/Serialize/Traits.h"]}
{"id": "C82", "title": "A filter leaves out exactly the members that it forbids", "statement": "Exporting an object of a class with ThorsAnvil_MakeFilter gives the document (JSON, and BSON with right lengths) of the members that the filter does not forbid, in their order and with their values; a filter changes nothing else about which exports fail.", "quantifier": "every class, value, filter, configuration and output", "why_tests_cant": "The members are written by one function and counted by two others, each of which asks the filter; only all combinations of classes and filters show that they agree.", "anchors": ["src/Serialize/Traits.h: Filter<T>, ThorsAnvil_MakeFilter", "src/Serialize/Serialize.tpp: SerializeMemberValue", "src/Serialize/SerUtil.h / Traits.h: getPrintSizeTotal"]}
{"id": "C83", "title": "A range is exported as the array of its elements", "statement": "Exporting a range with jsonExporter or bsonExporter writes the same bytes as exporting a std::vector of the elements: an array that holds them in order, with right lengths in BSON; to streams and to strings.", "quantifier": "every element type, list of elements, configuration and output", "why_tests_cant": "The brackets, separators and sizes of a range come from code of its own; tests use a few integers.", "anchors": ["src/Serialize/Exporter.h: ExporterRange", "src/Serialize/JsonThor.h: jsonExporter", "src/Serialize/BsonThor.h: bsonExporter"]}
{"id": "C84", "title": "Binary data, code and regular expressions in BSON", "statement": "Values of types with BinarySerializer, JavascriptSerializer and RegExSerializer are written as the elements that the BSON specification has for them, with the announced size; reading them back gives the same value whatever the variable held before and whatever follows, takes exactly their bytes off the open container, and a reader without that member can skip them; an element of another type is refused.", "quantifier": "every value, previous content, source, name and container", "why_tests_cant": "All lengths, contents (zeros) and previous contents of the variable.", "anchors": ["src/Serialize/MongoUtility.h: BinarySerializer, JavascriptSerializer, RegExSerializer", "src/Serialize/CustomSerialization.tpp: writeCustomOld, readCustomOld", "src/Serialize/BsonParser.cpp: ignoreDataValue"]}
{"id": "C85", "title": "Several documents in one stream", "statement": "Documents that are accepted one by one can be read one after another from one stream (as in while (stream >> jsonImporter(x))): each variable gets what its document alone gives, and the stream is then in front of what follows the last one; in particular values written one after another into a stream are all read back.", "quantifier": "every number of documents, types, values, old contents of the variables and following text", "why_tests_cant": "All combinations of what ends one document with what starts the next, over any number of documents.", "anchors": ["src/Serialize/Importer.h: operator>>, extract", "src/Serialize/Exporter.h: operator<<", "src/Serialize/ParserInterface.cpp", "src/Serialize/JsonManualLexer.cpp"]}
{"id": "C86", "title": "AnyBlock holds any document as text", "statement": "An AnyBlock accepts every JSON document; the text it then holds is the text of the document without white space between its tokens, which is again a document with the same tree.", "quantifier": "every document, source, configuration, old contents and following text", "why_tests_cant": "All documents of any depth, all spellings of strings, keys and numbers.", "anchors": ["src/Serialize/Serialize.tpp: DeSerializationForBlock<TraitType::AnyBlock, AnyBlock>", "src/Serialize/SerUtil.h: AnyBlock", "src/Serialize/JsonManualLexer.cpp: getRawString"]}
{"id": "C87", "title": "Classes that refer to themselves", "statement": "A class with members that refer to the class itself (a unique_ptr to the next node of a list, a vector of the children of a tree) is imported and exported like a class with its declaration written out; how often does not matter, as long as it is more often than the input has bytes or the value has objects inside one another. Lists of any length come back from their text.", "quantifier": "every class of this kind, text, old value, source and configuration; every value; every list", "why_tests_cant": "All classes, all texts (also malformed ones) and all depths.", "anchors": ["src/Serialize/Serialize.tpp: DeSerializer::parse, DeSerializationForBlock", "src/Serialize/Serialize.tpp: Serializer::print, SerializerForBlock", "src/Serialize/JsonParser.cpp: getNextToken"]}
{"id": "C88", "title": "A BSON import only accepts BSON documents", "statement": "When a BSON import gives a value, the bytes it has read are a BSON document: the announced length of the document and of every object and array in it is the number of its bytes, each is closed by a zero byte, and in between there are only elements with a known type, a name and a value of the size its type demands; when unknown members are refused, only types that can be read into a value. Not checked: the last byte of a string, the names of array elements, the bytes of skipped values.", "quantifier": "every byte sequence, type, old value, source and configuration (when unknown members are skipped: texts without string or binary elements of negative length)", "why_tests_cant": "All byte sequences, also malformed ones, and all nestings.", "anchors": ["src/Serialize/BsonParser.cpp: getNextToken, isEndOfContainer, readEndOfContainer, readKey, ignoreDataValue", "src/Serialize/BsonParser.h: readLE, getIntValue", "src/Serialize/Serialize.tpp: DeSerializationForBlock"]}
{"id": "C89", "title": "Importing any text has defined behaviour", "statement": "Whatever the text is, an import from it gives a value or fails (or does not end, see C12), and never leaves defined behaviour.", "quantifier": "every text (JSON: every byte sequence), type, old value, source, configuration", "why_tests_cant": "All texts, also malformed ones, and all types; undefined behaviour need not show in a test.", "anchors": ["src/Serialize/Serialize.tpp: DeSerializer::parse, DeSerializationForBlock", "src/Serialize/JsonManualLexer.cpp: ignoreRawValue, getString, getStringInto, getLastBool, readNumber", "src/Serialize/StringInput.h; src/Serialize/ParserInterface.h: peekNextNonSpaceValue, read, ignore, unget", "src/Serialize/JsonParser.cpp: getNextToken"]}
{"id": "C90", "title": "Classes with stream operators are exported and imported as JSON", "statement": "A class declared with ThorsAnvil_MakeTraitCustom is written with its operator<< and read with its operator>>: an export of a value that contains such objects is one JSON value in which each object is what operator<< wrote; a document is imported when operator>> takes what stands for each object, and fails when operator>> does not take it; a value is imported as it was exported when operator>> reads what operator<< wrote.", "quantifier": "every class with stream operators (any functions), every type that contains such classes, value, output, source and configuration", "why_tests_cant": "All operators a user may write, and all values around the objects.", "anchors": ["src/Serialize/Traits.h: ThorsAnvil_MakeTraitCustom", "src/Serialize/Serialize.tpp: DeSerializationForBlock<TraitType::Custom_Depricated, T>, SerializerForBlock<TraitType::Custom_Depricated, T>", "src/Serialize/JsonPrinter.cpp: addRawValue", "src/Serialize/JsonManualLexer.cpp: getRawString, readNumber"]}
{"id": "C91", "title": "Classes with stream operators are exported and imported as BSON", "statement": "A class declared with ThorsAnvil_MakeTraitCustom is written to BSON as binary data that holds what its operator<< writes, and is read with its operator>> from the text of a number, a truth value, a string, a null or binary data: an export is a BSON document of the announced size with these elements; a document whose elements operator>> takes is imported, an element it does not take is rejected; a value is imported as it was exported when operator>> reads what operator<< wrote.", "quantifier": "every class with stream operators (any functions) and any function that tells the size of its text, every type that contains such classes, value, output, source and configuration", "why_tests_cant": "All operators a user may write, all sizes they may tell, and all values around the objects.", "anchors": ["src/Serialize/BsonPrinter.h: addRawValue, getSizeRaw", "src/Serialize/BsonPrinter.cpp: writeBinary", "src/Serialize/BsonParser.cpp: getRawString, getRawDouble, readBinary", "src/Serialize/ThorsSerializerUtil.h: ThorsSerializerCustomObjectSize", "src/Serialize/Serialize.tpp: SerializerForBlock<TraitType::Custom_Depricated, T>"]}
{"id": "C92", "title": "Classes with stream operators are exported and imported as YAML", "statement": "A class declared with ThorsAnvil_MakeTraitCustom is written to YAML as a scalar with the text of its operator<<, and is read with its operator>> from the text of a scalar: an export is the document of the value with these scalars, or is reported as failed; a document whose scalars operator>> takes is imported, and anything it does not take is rejected; a value is imported as it was exported when operator>> reads what operator<< wrote.", "quantifier": "every class with stream operators (any functions), every type that contains such classes, value, output, source and configuration; everything libyaml may do within its documented events", "why_tests_cant": "All operators a user may write and all values around the objects.", "anchors": ["src/Serialize/YamlPrinter.h: addRawValue", "src/Serialize/YamlPrinter.cpp: emit", "src/Serialize/YamlParser.cpp: getRawValue, getString", "src/Serialize/Serialize.tpp: DeSerializationForBlock<TraitType::Custom_Depricated, T>, SerializerForBlock<TraitType::Custom_Depricated, T>"]}
{"id": "C93", "title": "float and double in YAML keep their value", "statement": "A float or double is written to YAML as a scalar that is a decimal number, inf or nan, so that an export is the document of the value with these numbers; a scalar that is a number is imported as the nearest value of the type, and one that is no number is rejected; a value comes back within the six significant digits that are written, and exactly if six digits are enough.", "quantifier": "every type that contains float, double or integers, every value (every bit pattern), output, source and configuration; everything libyaml may do within its documented events", "why_tests_cant": "2^64 bit patterns, every spelling of a number, every value around them.", "anchors": ["src/Serialize/YamlPrinter.h: addValue(float), addValue(double)", "src/Serialize/YamlPrinter.cpp: emit", "src/Serialize/YamlParser.cpp: getValue(float&), getValue(double&)", "src/Serialize/Serialize.h: scanValue, scan<float>, scan<double>"]}
{"id": "C94", "title": "Classes with a serializer are elements of the BSON document around them", "statement": "An object of a class declared with ThorsAnvil_MakeTraitCustomSerialize is exported as the one element that its serializer writes, and everything around it (lengths, bsonGetPrintSize, keys) is right if the serializer tells the size of what it writes; a document is imported with the objects that the readers make of its elements, and rejected where a reader refuses; if a serializer reads what it writes, every value around its objects comes back. ObjectID, UTCDateTime and BsonTimeStamp are such classes. A serializer that overrides nothing leads to a reported failure.", "quantifier": "every serializer class, every type that contains such classes, value, output, source and configuration", "why_tests_cant": "All serializers a user may write, all values around the objects.", "anchors": ["src/Serialize/CustomSerialization.h: CustomSerializerBreakerFix, DefaultCustomSerializer", "src/Serialize/CustomSerialization.tpp: writeCustomOld, readCustomOld", "src/Serialize/MongoUtility.h: FixedSizeStreamableObjectSerializer", "src/Serialize/Serialize.tpp: DeSerializationForBlock<TraitType::Custom_Serialize, T>, SerializerForBlock<TraitType::Custom_Serialize, T>"]}
{"id": "C95", "title": "Classes with a serializer are strings of the JSON document around them", "statement": "An object of a class declared with ThorsAnvil_MakeTraitCustomSerialize whose serializer calls addValue and getValue with a string is exported as a JSON string with that text, whatever characters are in it; every document with strings that the serializer reads is imported, one with another scalar in such a place is rejected; if the serializer reads what it writes, every value around its objects comes back. ObjectID and BsonTimeStamp come back wherever they are; 24 hexadecimal digits are read as the id with that number, other texts are rejected.", "quantifier": "every such serializer, every type that contains such classes, value, output, source and configuration", "why_tests_cant": "All serializers a user may write, all values around the objects, all texts.", "anchors": ["src/Serialize/CustomSerialization.tpp: writeCustomOld, readCustomOld", "src/Serialize/MongoUtility.h: FixedSizeStreamableObjectSerializer, operator<<(JsonPrinter), operator>>(JsonParser), readNumberMaxLenFromStream", "src/Serialize/Serialize.tpp: DeSerializationForBlock<TraitType::Custom_Serialize, T>, SerializerForBlock<TraitType::Custom_Serialize, T>"]}
{"id": "C96", "title": "Multimaps keep every entry, repeated keys included", "statement": "A std::multimap<std::string, T> is exported as an object with one member per entry, in the order of the entries, equal names repeated; reading that text (JSON, BSON, YAML) into a multimap gives the same entries in the same order. The same JSON text read into a std::unordered_map keeps, for every key, the first of its values, and read into a std::map the last one, so that entries are lost.", "quantifier": "every element type, every multimap, every source, output and configuration", "why_tests_cant": "All multimaps with any number of equal keys, elements nested to any depth; the loss shows only with repeated keys.", "anchors": ["src/Serialize/SerUtil.h:790-824 Traits<std::multimap<std::string, Value>>::MemberExtractor", "src/Serialize/SerUtil.h: Traits<std::map<std::string, Value>>, Traits<std::unordered_map<std::string, Value>>", "src/Serialize/Serialize.tpp: DeSerializationForBlock<TraitType::Map, T>::scanObject"]}
{"id": "C97", "title": "Classes with a serializer in YAML, and serializers that do not support YAML", "statement": "An object of a class declared with ThorsAnvil_MakeTraitCustomSerialize whose writeYaml gives a text to the printer is exported as that scalar, wherever it is; a document whose scalars readYaml takes is imported; values come back if the serializers read what they write. An export is never successful when a serializer threw for some object in the value. A serializer that does not implement writeYaml and readYaml (as those of ObjectID, UTCDateTime and BsonTimeStamp) makes exports and imports fail with a report.", "quantifier": "every such serializer (including those that throw for some or all objects), every type that contains such classes, value, output, source and configuration", "why_tests_cant": "All serializers a user may write, all places of the object in a value; what happens after the exception depends on the destructors that run then.", "anchors": ["src/Serialize/CustomSerialization.tpp: writeCustomOld, readCustomOld, DefaultCustomSerializer::writeYaml, DefaultCustomSerializer::readYaml", "src/Serialize/CustomSerialization.h: CustomSerializerBreakerFix::readCustom", "src/Serialize/Serialize.tpp: DeSerializationForBlock<TraitType::Custom_Serialize, T>, SerializerForBlock<TraitType::Custom_Serialize, T>", "src/Serialize/YamlPrinter.cpp: emit, closeMap"]}
{"id": "C98", "title": "What a failed export to JSON leaves on the stream or string", "statement": "When a value cannot be written (an empty optional, an enum without a name), exporting to JSON puts the stream into the failed state and reports as configured; the exception never meets a destructor that throws as well, so the program is never terminated. What the stream holds then is known: a sequence is closed before the element that cannot be written and all blocks around it are closed; a map or class holds the key without a value. A string keeps the contents it had before. The text can be told from that of a successful export of another value.", "quantifier": "every type and value (unwritable parts at any depth), every configuration, streams and strings", "why_tests_cant": "Which destructors run, and in which state of the printer, depends on the place of the unwritable part in a nested value; there are unboundedly many.", "anchors": ["src/Serialize/Serialize.tpp: SerializerForBlock constructors and destructors", "src/Serialize/JsonPrinter.cpp: openMap, closeMap, openArray, closeArray, addKey", "src/Serialize/Exporter.h: ExporterBase::inserter", "src/Serialize/Traits.h: ThorsAnvil_MakeEnum", "src/Serialize/StringOutput.h: preflightSize, finalizePrint"]}
