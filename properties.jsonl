{"id": "C01", "title": "MessagePack round trip is exact and self-delimiting", "statement": "For every value built from objects, arrays, strings, int64 integers, float32/float64, booleans, null, binary and non-fixed-size extension data (string/binary/container lengths below 2^32, keys of an object pairwise not matching), Value2MsgPack followed by NewValueFromMsgPack yields the same value: same types, same element order, same key order, bit-identical numbers. If further bytes follow the encoding, exactly those bytes are left unconsumed.", "quantifier": "all value trees of any depth and width, all trailing byte strings, both settings of IgnoreCase", "why_tests_cant": "The set of trees is infinite and the encoder switches format at many size thresholds (16/32/256/65536, int ranges); tests sample a handful.", "anchors": ["msgpackparse.go:Value2MsgPack", "msgpackparse.go:parseMsgPackValue", "msgpack_value.go:writeInt"]}
{"id": "C02", "title": "MessagePack integers use the shortest form and decode exactly", "statement": "SetInt(n) followed by ToMsgPack produces the shortest legal MessagePack integer encoding of n, and every legal MessagePack integer encoding (fixint, uint8..64, int8..64) of a number that fits int64 is decoded to exactly that number; uint64 payloads of 2^63 or more are decoded modulo 2^64 into the negative range.", "quantifier": "all 2^64 int64 values and all ten wire formats", "why_tests_cant": "2^64 values; boundary mistakes (127/128, -32/-33, 65535/65536 ...) only show at specific points.", "anchors": ["msgpack_value.go:writeInt", "msgpackparse.go:parseMsgPackValue"]}
{"id": "C03", "title": "MessagePack output conforms to the MessagePack specification and the decoder accepts every conforming encoding", "statement": "Value2MsgPack produces bytes that are a valid encoding of the value according to the public MessagePack format table, and NewValueFromMsgPack accepts every encoding the table allows (not only the ones this library produces) for the supported data model and returns the encoded value.", "quantifier": "all value trees and all specification-conforming encodings of them, including non-minimal ones", "why_tests_cant": "Interoperability ranges over all foreign encoders' choices of format; tests only use this library's own encoder.", "anchors": ["msgpackparse.go:Value2MsgPack", "msgpackparse.go:parseMsgPackValue", "msgpack_codes.go"]}
{"id": "C04", "title": "Truncated MessagePack is never accepted", "statement": "No proper prefix of an encoding produced by Value2MsgPack is accepted by NewValueFromMsgPack: decoding a truncated message never yields a value.", "quantifier": "all value trees and all truncation points", "why_tests_cant": "Every cut point of every message.", "anchors": ["msgpackparse.go:parseMsgPackValue", "msgpack_value.go:parseLen"]}
{"id": "C05", "title": "MessagePack decoding terminates, consumes a prefix, and ignores what follows", "statement": "NewValueFromMsgPack terminates on every byte string; when it succeeds the result is determined by the consumed prefix only: appending any bytes to the input changes neither the result nor its success (except for the undefined code 0xc1 and malformed timestamps).", "quantifier": "all byte strings, all suffixes", "why_tests_cant": "Termination and prefix-determinacy are statements about every input, including headers announcing 2^32 elements.", "anchors": ["msgpackparse.go:NewValueFromMsgPack", "msgpackparse.go:parseMsgPackArray", "msgpackparse.go:parseMsgPackObject"]}
{"id": "C06", "title": "MessagePack decoding reports malformed input as an error", "statement": "Malformed or truncated MessagePack makes NewValueFromMsgPack return an error rather than panic or return a nil value without error. (The code violates this: a map header at end of input and an extension whose payload is one byte short panic; byte 0xc1 yields nil, nil. It is proved that these families are the only exceptions.)", "quantifier": "all byte strings", "why_tests_cant": "A panic on one of infinitely many inputs; fuzzing samples.", "anchors": ["msgpackparse.go:parseMsgPackObject", "msgpackparse.go:parseMsgPackValue"]}
{"id": "C07", "title": "MessagePack extension data round trip", "statement": "A VT_ExBinary value with a type byte and payload of length L survives Value2MsgPack/NewValueFromMsgPack unchanged. (Violated exactly for L in {1,2,4,8,16}, where two headers are written; holds for all other L below 2^32 unless the bytes form a timestamp.)", "quantifier": "all extension types, all payloads of every length", "why_tests_cant": "Depends on the exact length; only five lengths misbehave.", "anchors": ["msgpack_value.go:writeExtCode", "msgpackparse.go:Value2MsgPack"]}
{"id": "C08", "title": "Duplicate map keys: the last value wins at the first position", "statement": "When a MessagePack map repeats a key, the decoded object contains the key once, at the position of its first occurrence, with the value of its last occurrence; Count() equals the number of distinct keys.", "quantifier": "all key/value sequences, with and without IgnoreCase", "why_tests_cant": "All sequences with all patterns of repetition.", "anchors": ["msgpackparse.go:parseMsgPackObject", "dxvalue.go:SetKeyValue"]}
{"id": "C09", "title": "MessagePack timestamps keep seconds and nanoseconds exactly", "statement": "For every instant (int64 seconds, nanoseconds in 0..999999999) held by a date-time value, the encoder chooses the 32-, 64- or 96-bit timestamp format that can hold it and decoding recovers exactly the same seconds and nanoseconds.", "quantifier": "all (sec, nsec) pairs", "why_tests_cant": "2^64 * 10^9 instants with format switches at 2^32 and 2^34 seconds and for negative times.", "anchors": ["msgpackparse.go:Value2MsgPack", "msgpackparse.go:parseMsgPackValue"]}
{"id": "C10", "title": "LoadFromMsgPack agrees with NewValueFromMsgPack", "statement": "Loading a message into an existing value succeeds, fails or panics exactly as NewValueFromMsgPack does for the same bytes (the empty message excepted), and leaves the receiver reading as the value NewValueFromMsgPack returns, whatever the receiver held before. (Content: holds exactly for numbers, booleans, nil, non-empty arrays, and non-empty maps into a non-array or, when their first key is no number, into an array, and for strings, binaries, timestamps and empty containers only when the receiver already has that type; violated otherwise: witnesses given for strings, empty arrays, timestamps, maps with numeric keys into an array, and the empty message.)", "quantifier": "all prior contents of the receiver and all messages", "why_tests_cant": "Product of all receiver states and all messages.", "anchors": ["dxvalue.go:LoadFromMsgPack", "msgpackparse.go:parseMsgPack2Value"]}
{"id": "C11", "title": "BSON round trip", "statement": "For every document built from non-empty objects and non-empty arrays, strings, integers in 0..2^63-1 or below -2^31, doubles, booleans, null, ObjectID, Decimal128 and timestamps (keys free of NUL and pairwise not matching, total size below 2^31), Value2Bson followed by NewValueFromBson yields the same document.", "quantifier": "all documents of any depth and width", "why_tests_cant": "Infinite family; nested length headers depend on the size of the whole subtree.", "anchors": ["bson_parse.go:Value2Bson", "bson_parse.go:parseBsonDocument", "bson_parse.go:parseBsonArray"]}
{"id": "C12", "title": "BSON integers", "statement": "An integer field written by Value2Bson is read back by NewValueFromBson as the same integer. (Violated exactly for -2^31 <= n <= -1, which come back as n + 2^32.)", "quantifier": "all int64 values", "why_tests_cant": "2^64 values, sign-extension mistake only in one range.", "anchors": ["bson_parse.go:writeSimpleBsonValue", "bson_parse.go:parseValue"]}
{"id": "C13", "title": "BSON float32 fields", "statement": "A float32 field written by Value2Bson is read back as a number equal to it. (Violated: the raw 4-byte pattern is written as the low half of a double; only +0 with a clean slot survives.)", "quantifier": "all float32 bit patterns", "why_tests_cant": "2^32 patterns.", "anchors": ["bson_parse.go:writeSimpleBsonValue"]}
{"id": "C14", "title": "BSON generic binary fields", "statement": "A binary field written by Value2Bson is read back with the same bytes. (Violated for every generic binary: the subtype byte is prepended to the content, so n re-encodings grow the field by n bytes; holds for ObjectID and Decimal128.)", "quantifier": "all byte strings", "why_tests_cant": "Every content and every number of re-encodings.", "anchors": ["bson_parse.go:parseValue", "bin_value.go:SetBinary"]}
{"id": "C15", "title": "BSON empty documents", "statement": "An empty object or array round trips through BSON. (Violated: an empty top-level document is rejected, an empty nested object comes back with a bogus empty key or the enclosing document is rejected.)", "quantifier": "all documents containing an empty container", "why_tests_cant": "Depends on the bytes that follow the empty container.", "anchors": ["bson_parse.go:parseBsonDocument"]}
{"id": "C16", "title": "BSON length headers and append-only encoding", "statement": "Every document and array written by Value2Bson starts with a little-endian length equal to the number of bytes from the header to its terminating NUL inclusive, and the bytes already in the destination buffer are never altered.", "quantifier": "all documents, all destination prefixes", "why_tests_cant": "Nested headers are patched in place at computed offsets; any offset mistake shows only for some shapes.", "anchors": ["bson_parse.go:writeObjBsonValue", "bson_parse.go:writeArrayBsonValue"]}
{"id": "C17", "title": "BSON decoding terminates on every input", "statement": "NewValueFromBson terminates on every byte string, with a value, an error, or a panic for truncated scalars (witness given); no input makes it loop.", "quantifier": "all byte strings", "why_tests_cant": "All inputs, including inconsistent nested lengths.", "anchors": ["bson_parse.go:NewValueFromBson", "bson_parse.go:parseValue"]}
{"id": "C18", "title": "JSON round trip", "statement": "For every value built from objects, arrays, strings, integers, booleans and null whose keys contain no quote after escaping, Value2Json with escaping followed by NewValueFromJson yields the same value: same structure and order, integers equal, strings equal after unescaping.", "quantifier": "all value trees, both escaping styles, all trailing whitespace", "why_tests_cant": "Infinite family of trees and string contents.", "anchors": ["jsonparse.go:Value2Json", "jsonparse.go:parseJsonValue"]}
{"id": "C19", "title": "Formatted JSON is equivalent to compact JSON", "statement": "Value2FormatJson of a value parses to exactly the same value as Value2Json of it; only insignificant whitespace differs.", "quantifier": "all value trees without binary, any nesting level", "why_tests_cant": "All trees and nesting depths.", "anchors": ["jsonparse.go:Value2FormatJson", "jsonparse.go:formatValue"]}
{"id": "C20", "title": "The JSON parser is total", "statement": "NewValueFromJson terminates on every byte string and never panics: it returns a value or an error.", "quantifier": "all byte strings", "why_tests_cant": "All inputs, including unbalanced, truncated and deeply nested ones.", "anchors": ["jsonparse.go:NewValueFromJson", "jsonparse.go:parseJsonValue"]}
{"id": "C21", "title": "JSON string literals end at the first unescaped quote", "statement": "A JSON string value extends to the first double quote that is preceded by an even number of backslashes; the parser returns exactly the bytes before it and continues right after it, and fails exactly when there is none.", "quantifier": "all byte strings", "why_tests_cant": "Arbitrary runs of backslashes and quotes.", "anchors": ["jsonparse.go:parseJsonString"]}
{"id": "C22", "title": "JSON whitespace is insignificant", "statement": "Inserting or removing blanks, tabs, CR and LF before and after a JSON document, and around brackets, commas and colons, does not change the parsed value; no other byte is skipped.", "quantifier": "all documents and all whitespace strings", "why_tests_cant": "All whitespace placements.", "anchors": ["jsonparse.go:skipWB"]}
{"id": "C23", "title": "Trailing garbage after a JSON document is rejected", "statement": "NewValueFromJson accepts a document followed by extra bytes if and only if those bytes are all whitespace (for documents that are not bare numbers).", "quantifier": "all documents and suffixes", "why_tests_cant": "All suffixes.", "anchors": ["jsonparse.go:NewValueFromJson"]}
{"id": "C24", "title": "A successful JSON parse returns a value", "statement": "If NewValueFromJson returns no error, it returns a non-nil value. (Violated exactly when the trimmed input is a non-empty run of number characters: '123' yields nil, nil.)", "quantifier": "all byte strings", "why_tests_cant": "Exact characterisation of an infinite set of inputs.", "anchors": ["jsonparse.go:parseJsonNum"]}
{"id": "C25", "title": "JSON literals null/true/false/nan/inf", "statement": "Exactly the literals null, true and false (and nan/inf extensions) are accepted as keywords. (Violated: any three bytes starting with n other than 'nan' and other than a prefix of null are read as NaN, while 'nan' itself is rejected.)", "quantifier": "all byte strings starting with a letter", "why_tests_cant": "All keyword-like inputs.", "anchors": ["jsonparse.go:parseJsonValue"]}
{"id": "C26", "title": "JSON parse errors can be printed", "statement": "The error returned by NewValueFromJson can be formatted with Error() without panicking. (Violated exactly for unterminated keys.)", "quantifier": "all byte strings that produce an error", "why_tests_cant": "All failing inputs.", "anchors": ["jsonparse.go:ErrorParseJson.Error", "jsonparse.go:parseJsonKey"]}
{"id": "C27", "title": "LoadFromJson agrees with NewValueFromJson", "statement": "Loading a JSON document into an existing value leaves it equal to what NewValueFromJson returns for it. (Holds for objects loaded into objects and arrays into arrays; violated when the receiver has another type, for numbers, and for documents followed by garbage: witnesses given.)", "quantifier": "all receivers and documents", "why_tests_cant": "Product of receiver states and documents.", "anchors": ["dxvalue.go:LoadFromJson", "jsonparse.go:parseJson2Value", "jsonparse.go:parseJsonObj2V"]}
{"id": "C28", "title": "Objects behave as insertion-ordered maps", "statement": "Under any sequence of SetKey*/SetKeyValue/RemoveKey/ExtractValue calls an object behaves as an insertion-ordered map: lookup returns the last value set for the key, other keys are unaffected, Count() is the number of distinct keys, replacing keeps the position, removing deletes exactly that entry and new keys go last.", "quantifier": "all operation sequences, all keys, both IgnoreCase settings", "why_tests_cant": "All histories of operations.", "anchors": ["dxvalue.go:SetKeyCached", "dxvalue.go:SetKeyValue", "dxvalue.go:VObject.Remove", "dxvalue.go:VObject.ExtractValue", "dxvalue.go:VObject.ValueByName"]}
{"id": "C29", "title": "No duplicate keys under the mutating API", "statement": "Starting from an object without duplicate keys, no sequence of SetKey*/SetKeyValue/RemoveKey/ExtractValue calls makes two entries match the same key.", "quantifier": "all operation sequences", "why_tests_cant": "All histories.", "anchors": ["dxvalue.go:VObject.indexByName", "dxvalue.go:SetKeyCached"]}
{"id": "C30", "title": "Arrays behave as lists", "statement": "SetIndex* with an index in range replaces that element and nothing else, out of range appends exactly one element; InsertValue inserts at the clamped position; RemoveIndex deletes exactly that element or does nothing when out of range; order of the others is preserved.", "quantifier": "all operation sequences, all indices (negative, in range, too large)", "why_tests_cant": "All histories and all integer indices.", "anchors": ["dxvalue.go:SetIndexCached", "dxvalue.go:SetIndexValue", "dxvalue.go:InsertValue", "dxvalue.go:RemoveIndex"]}
{"id": "C31", "title": "Lazy key unescaping is invisible", "statement": "Looking up, iterating or missing a key of a parsed JSON object never changes the outcome of later lookups. (Holds when the unescaped keys are pairwise distinct; violated with a witness when two spellings of one key occur.)", "quantifier": "all parsed objects, all sequences of lookups", "why_tests_cant": "Depends on the history of earlier lookups.", "anchors": ["dxvalue.go:VObject.UnEscapestrs", "dxvalue.go:VObject.ValueByName"]}
{"id": "C32", "title": "Path lookup is iterated name lookup", "statement": "ValueByPath(p1..pn) equals looking up p1, then p2 in the result, and so on, and the *ByPath getters return the default exactly when some step is missing; concatenating paths composes.", "quantifier": "all trees, all paths, all split points", "why_tests_cant": "All trees and path lengths.", "anchors": ["dxvalue.go:ValueByPath", "dxvalue.go:ValueByName", "dxvalue.go:IntByPath"]}
{"id": "C33", "title": "ForcePath creates the path it returns", "statement": "After n := v.ForcePath(t, path...) on an object, ValueByPath(path...) returns n and n has type t. (Holds when no array is crossed; violated for an array index beyond the end, where the node is appended elsewhere.)", "quantifier": "all trees, all non-empty paths, all types", "why_tests_cant": "All trees and paths.", "anchors": ["dxvalue.go:ForcePath"]}
{"id": "C34", "title": "The shared constants never change", "statement": "The shared true/false/null/NaN/Inf values keep their type and everything observable through the API whatever operations are applied to them or to values containing them.", "quantifier": "all operation sequences on any values", "why_tests_cant": "All histories; one mutated global would corrupt every document in the process.", "anchors": ["dxvalue.go:ReadOnly", "dxvalue.go:Reset", "dxvalue.go:SetKeyCached", "jsonparse.go:valueTrue"]}
{"id": "C35", "title": "Clone yields an equal, independent value", "statement": "Clone returns a value with equal content sharing no mutable node with the original, so later changes to either are invisible in the other. (Holds for trees without binaries and without mutable booleans; violated for binaries, whose content is dropped, and for booleans set with SetBool, which are shared.)", "quantifier": "all trees, all later mutations", "why_tests_cant": "All trees and all subsequent histories.", "anchors": ["dxvalue.go:Clone", "dxvalue.go:clone"]}
{"id": "C36", "title": "Equal is a sound equivalence", "statement": "Equal is reflexive on every value; on trees without raw strings and float32 whose corresponding arrays have equal length it answers true exactly when the two have the same content, is symmetric, and changes nothing but the escaping of keys. (Violated for arrays of different length, where it answers true one way and panics the other; for float32 values with different slot history; and for a string against a raw string, where the same call can answer true and then false.)", "quantifier": "all pairs of trees", "why_tests_cant": "All pairs.", "anchors": ["dxvalue.go:Equal"]}
{"id": "C37", "title": "MergeWith on objects is a union", "statement": "v.MergeWith(w, nil) on objects makes v the union of the two maps: v's entries keep their place, an entry of v whose key w also has becomes the two-element array of copies of the old and the new value, and copies of w's entries with keys v lacks follow in order; w keeps its content and nothing else in use changes. Holds when colliding entries of v are scalars other than the shared constants, w's keys need no unescaping, and the two graphs share no cells. Violated otherwise: at the first key of w under which v has an object or array, two objects are merged in the same way, any other container of v stays as it is unless it is an array meeting an object, and all entries of w after that key are dropped, at every level of nesting; a colliding constant is not combined, and an escaped key of a freshly parsed w is stored escaped and cannot be looked up.", "quantifier": "all pairs of objects", "why_tests_cant": "All pairs of objects and collision patterns.", "anchors": ["dxvalue.go:MergeWith", "dxvalue.go:mergeObject"]}
{"id": "C38", "title": "MergeWith on arrays is a union", "statement": "Merging arrays keeps the receiver's elements as a prefix and appends, in order, fresh copies of exactly those argument elements that have the same content as none of the receiver's original elements; everything else in use keeps its content up to unescaping of keys. (For contents on which Equal is exact, see C36.)", "quantifier": "all pairs of arrays", "why_tests_cant": "All pairs.", "anchors": ["dxvalue.go:MergeWith"]}
{"id": "C39", "title": "Values taken from the cache carry no content of earlier users", "statement": "A value handed out by the cache, fresh or recycled, has the requested type and no keys, elements, string or binary content of an earlier user. (Violated for the 8-byte numeric slot, which is not cleared: witness.)", "quantifier": "all recycled contents, all types", "why_tests_cant": "All histories of the recycled slot.", "anchors": ["cache.go:getValue", "dxvalue.go:Reset"]}
{"id": "C40", "title": "Pooled caches have a single owner", "statement": "At any time a pooled cache is in the pool once, or belongs to at most one value held by a goroutine, and no cell is handed out to two holders, whatever the interleaving of the memory accesses of NewCacheValue/FreeValue/getValue/Clear calls and handovers by any number of goroutines, provided no goroutine uses a value after freeing it or giving it away. Freeing a value twice in a row puts its cache into the pool once. (Without the provision it fails: a late second free, or two concurrent frees of one value, give one cache two owners; witness schedules.)", "quantifier": "all interleavings of allocate/free operations", "why_tests_cant": "All schedules.", "anchors": ["cache.go:getCache", "cache.go:getValue", "cache.go:FreeValue"]}
{"id": "C41", "title": "Lookups on fully unescaped objects are read-only and safe to run concurrently", "statement": "Concurrent unsynchronised lookups on a shared object whose keys have been unescaped, or contain nothing to unescape, leave its pairs unchanged; each returns what a single lookup returns, and none waits for another. A lookup that no other one overlaps returns the value under the first key that equals the name as stored, for a name without backslash in a fresh object, and else under the first key that equals it unescaped. (Violated for a freshly parsed object with an escaped key: two concurrent lookups can unescape the key twice, both miss, and the damage stays; witness schedule.)", "quantifier": "all schedules of any number of readers", "why_tests_cant": "All interleavings.", "anchors": ["dxvalue.go:VObject.UnEscapestrs", "dxvalue.go:VObject.ValueByName"]}
{"id": "C42", "title": "Typed setters and getters", "statement": "Whatever a non-constant value held before, after SetInt/SetString/SetBool/SetDouble/SetTime/SetFloat every getter (Int, Double, Float, Bool, String) returns what was set or its conversion, numeric Bool() being true exactly for a positive stored 64-bit pattern, and no other value changes; a keyed setter can be read back by name through the path getters, whatever the case of the name. String() on a lazily unescaped string returns the unescaped text at every call. (Violated for Bool() after SetFloat: it reads the stale upper half of the number slot.)", "quantifier": "all stored values", "why_tests_cant": "2^64 patterns.", "anchors": ["dxvalue.go:Int", "dxvalue.go:Bool", "dxvalue.go:SetInt", "dxvalue.go:SetBool", "dxvalue.go:SetFloat", "dxvalue.go:SetDouble", "dxvalue.go:SetString", "dxvalue.go:Float", "dxvalue.go:Double", "dxvalue.go:String", "dxvalue.go:SetKeyInt"]}
{"id": "C43", "title": "Binary values", "statement": "After SetBinary(b, true) on a binary or extension value, Binary() returns the bytes of b (even when b is part of the value's own buffer), BinLen() its length and BinExtType() is kept, and no array other than the value's own is modified. In any history of copying calls (SetBinary(_, true), SetBinaryFromFile, SetExtType, Reset) and writes of the program to its own buffers, every value and every buffer keeps the content it has when they are independent byte strings. (Violated when a buffer was shared with SetBinary(b, false): later copying calls overwrite the program's buffer and other values. Also violated: SetBinary on an extension value without type code loses the extension type.)", "quantifier": "all byte strings, all earlier histories of the value", "why_tests_cant": "Aliasing depends on the history and on spare capacity.", "anchors": ["bin_value.go:SetBinary", "bin_value.go:Binary", "bin_value.go:BinLen"]}
{"id": "C44", "title": "YAML parsing terminates", "statement": "NewValueFromYaml terminates on every input. (Violated in two ways: a last line of exactly one byte without a newline loops for ever whenever the lines before it parse; an anchor merged into itself loops for ever. Without an asterisk in the document and without such a last line it always terminates.)", "quantifier": "all byte strings", "why_tests_cant": "Non-termination cannot be observed by a finite test; the exact set is infinite.", "anchors": ["yamlparse.go:parse", "yamlparse.go:mergeObject", "dxvalue.go:AddFrom"]}
{"id": "C45", "title": "YAML parsing does not panic on blank lines", "statement": "A line consisting only of blanks does not disturb parsing. (Violated: a line of two or more blanks panics whenever the lines before it parse; empty lines and lines of one byte before the last are skipped without any effect.)", "quantifier": "all documents", "why_tests_cant": "All documents.", "anchors": ["yamlparse.go:parseLine"]}
{"id": "C46", "title": "YAML parse results do not depend on earlier parses", "statement": "The parser object is recycled through a pool; the result of parsing a document does not depend on what was parsed before, successfully or not.", "quantifier": "all histories of parses, all documents", "why_tests_cant": "All histories of the pooled parser.", "anchors": ["yamlparse.go:newyamParser", "yamlparse.go:reset", "yamlparse.go:parse"]}
{"id": "C47", "title": "Flat YAML mappings", "statement": "A YAML document made of lines 'key: value' at one indentation, with or without a final newline, parses with NewValueFromYaml (and, if not indented, LoadFromYaml) to the object with exactly these keys in order and the scalar each value denotes (boolean, number or string), from any reachable program state and pooled parser.", "quantifier": "all sequences of plain keys and values", "why_tests_cant": "All documents of that form.", "anchors": ["yamlparse.go:parseObject", "yamlparse.go:splitKv", "yamlparse.go:parseStringValue", "dxvalue.go:LoadFromYaml"]}
{"id": "C48", "title": "Importing Go maps does not depend on iteration order", "statement": "SetValue(map) produces, for every iteration order of the Go map, an object with the same keys and values.", "quantifier": "all maps, all iteration orders", "why_tests_cant": "Go randomises map iteration: all permutations.", "anchors": ["reflect_parse.go:SetValue", "reflect_parse.go:SetKeyvalue"]}
{"id": "C49", "title": "Export to Go containers keeps array contents", "statement": "ToStdValue into map[string]interface{} reproduces nested objects and their scalars, keeps the other keys of the map, and into map[string]string gives the text of every scalar. (Violated for: nested arrays, whose slice has the right length but only nil elements; []interface{} and []string destinations, which stay as they are although the call answers true; NaN and infinity, which are dropped; keys with escapes, which are exported escaped.)", "quantifier": "all objects without nil entries, all previous contents of the map, all states of the memory", "why_tests_cant": "All nestings.", "anchors": ["reflect_parse.go:ToStdValue"]}
{"id": "C50", "title": "File reading returns the whole file", "statement": "ReadFile returns exactly the file's content whatever sizes the individual reads return, whatever size Stat reported and however append grows the buffer; with an error it returns a prefix. The JSON, MsgPack and YAML file constructors return the value of the whole file or an error, never a value made of a part, even if reads fail at any point (YAML: then with nothing changed). A UTF-8 BOM before a JSON or YAML document is ignored (one, and only there). A document written by Value2File, with or without BOM, compact or formatted, reads back as the same document.", "quantifier": "all contents, all read-chunk schedules", "why_tests_cant": "All chunkings chosen by the OS.", "anchors": ["iofiles.go:ReadFile", "jsonparse.go:NewValueFromJsonFile", "jsonparse.go:Value2File", "msgpackparse.go:NewValueFromMsgPackFile", "yamlparse.go:NewValueFromYamlFile"]}
{"id": "C51", "title": "NaN and Inf values in MessagePack", "statement": "Every value written by Value2MsgPack can be read back. (Violated for the NaN and Inf values: they write no bytes at all while being counted in the enclosing header, so an array of NaN/Inf values is encoded as a message no decoder call accepts.)", "quantifier": "every non-empty array of NaN/Inf values with fewer than 2^32 elements", "why_tests_cant": "a test shows one array; the claim is about every length and mix, and about the decoder never accepting the result", "anchors": ["msgpackparse.go: Value2MsgPack", "msgpackparse.go: NewValueFromMsgPack"]}
{"id": "C52", "title": "JSON keys may contain escaped quotes", "statement": "A JSON object whose key contains an escaped quote (as RFC 8259 allows, and as Value2Json itself writes) can be read by NewValueFromJson. (Violated: keys end at the first quote, escaped or not; every such text is rejected unless the key's remainder starts with a colon.)", "quantifier": "for all keys with an escaped quote and all following bytes", "why_tests_cant": "The set of keys and following texts is infinite; tests show single rejections, not that all of a family is rejected and that the writer produces them.", "anchors": ["jsonparse.go:222-244", "jsonparse.go:660-672"]}
{"id": "C53", "title": "JSON floating point numbers", "statement": "Reading back a written floating point number gives the same number and type. (Holds for a float32 whose text has a point; violated for doubles: without a point they become integers, with a point float32.)", "quantifier": "for all float32/double bit patterns whose text is a number and every number formatter/parser", "why_tests_cant": "2^64 bit patterns, and the statement is for any correct formatter and parser.", "anchors": ["jsonparse.go:585-621", "jsonparse.go:701-702"]}
{"id": "C54", "title": "A failed load leaves a usable receiver", "statement": "After LoadFromJson returns an error the receiver can still be written. (Violated: for every document truncated after the colon of its first member, the receiver keeps a pair without a value and Value2Json panics.)", "quantifier": "for all keys, whitespace, object receivers and escape styles", "why_tests_cant": "Infinitely many truncated documents and receivers.", "anchors": ["jsonparse.go:164-219", "dxvalue.go:268-276", "jsonparse.go:646-679"]}
{"id": "C55", "title": "String() of a binary", "statement": "String() of a binary value shows its first 12 bytes (16 for Decimal128) and panics exactly when the capacity of its buffer is smaller. After Reset the text does not depend on the kind of binary the value held before. (Violated for shorter binaries with spare capacity: the text contains bytes of the program's buffer the value was cut from, or of the value's previous content.)", "quantifier": "all binary values and all histories behind them", "why_tests_cant": "What is shown depends on spare capacity and on what lies behind the slice.", "anchors": ["dxvalue.go:String", "jsonparse.go:formatValue"]}
{"id": "C56", "title": "Saving binary content to a file", "statement": "SaveBinaryToFile makes the file hold the binary content of the value. (Violated for every binary value: the file is opened read-only, so the call returns an error and leaves the file empty, destroying what it held; other files are untouched.)", "quantifier": "all contents, all file systems", "why_tests_cant": "All contents and prior files.", "anchors": ["bin_value.go:SaveBinaryToFile"]}
{"id": "C57", "title": "YAML merge does not alias the anchor", "statement": "Overriding a key that a mapping merged from an anchor leaves the anchor's mapping unchanged. (Violated: booleans are shared, so overriding a merged boolean changes the anchor and every other mapping that merged it.)", "quantifier": "all documents", "why_tests_cant": "Absence of aliasing concerns every later write.", "anchors": ["yamlparse.go:mergeObject", "dxvalue.go:clone", "dxvalue.go:SetBool"]}
{"id": "C58", "title": "The two YAML entry points agree", "statement": "LoadFromYaml gives a value the content that NewValueFromYaml returns for the same document. (Violated for indented documents: LoadFromYaml drops the indentation of the first line only.)", "quantifier": "all documents", "why_tests_cant": "All documents.", "anchors": ["dxvalue.go:LoadFromYaml", "yamlparse.go:NewValueFromYaml"]}
{"id": "C59", "title": "AddFrom terminates", "statement": "AddFrom terminates when its argument is the receiver itself. (Violated: for every non-empty object or array whose entries are scalars it never returns.)", "quantifier": "all reachable heaps, all objects and arrays", "why_tests_cant": "Non-termination cannot be observed by a finite test.", "anchors": ["dxvalue.go:AddFrom", "dxvalue.go:clone"]}
{"id": "C60", "title": "YAML parsing is confined", "statement": "Parsing a YAML document into a new value or into a receiver, successful or not, changes no cell and no cache of any structure that is set apart from the receiver, and the new value lies outside it.", "quantifier": "all reachable heaps, all documents, all pooled parsers, all anchors and aliases in the document", "why_tests_cant": "All heaps and documents; the frame covers every other structure.", "anchors": ["yamlparse.go:parse", "yamlparse.go:parseObject", "yamlparse.go:parseArray", "dxvalue.go:LoadFromYaml"]}
{"id": "C61", "title": "Decoding a message does not depend on the memory it lands in", "statement": "In every state of the memory, with no cache, a new cache or any recycled cache, NewValueFromMsgPack succeeds exactly when the message decodes, the cells it returns read as the decoded value, none of them was in use, and no cell in use changes; without a cache or in a new one, no later call on other values changes what was decoded. (Float32 values are compared by their 32 bits: Equal compares 64, of which 32 are left over from the previous use of the memory, so equal messages can decode to values that Equal tells apart: witness given.)", "quantifier": "all reachable memory states, cache choices, messages and later call sequences", "why_tests_cant": "Product of all earlier uses of the cache pool, all messages and all later calls.", "anchors": ["msgpackparse.go:NewValueFromMsgPack", "msgpackparse.go:parseMsgPackValue", "cache.go:getValue"]}
{"id": "C62", "title": "Importing a Go value builds its tree", "statement": "SetValue(x), SetKeyvalue of a new key and SetIndexvalue past the end, in every state of the memory and with any cache, succeed on every nesting of maps, slices, structs, pointers and scalars the library supports, the receiver (or the appended slot) then reads as the tree of the Go value, no other value in use changes, and the cells of the tree are new. An unexported struct field that is not, and does not point to, a value of a basic kind, or is declared with an interface type, leaves no trace. (Violated for: nil elements of slices, which are dropped; values of named types, pointers to strings, empty maps of other types, which are ignored; unsigned struct fields and nil pointers in slices, which panic; unsigned numbers above the int64 range; bytes and times set on the value itself; keys that already hold a container, whose old content stays.)", "quantifier": "all reachable memory states, caches, receivers and Go values of the supported types", "why_tests_cant": "Unbounded nesting of Go types times all earlier uses of the memory.", "anchors": ["reflect_parse.go:SetValue", "reflect_parse.go:SetKeyvalue", "reflect_parse.go:SetIndexvalue"]}
{"id": "C63", "title": "Export to a struct fills the fields the keys name and no others", "statement": "ToStdValue of an object into a pointer to a struct answers true, every field holds the conversion of the entries whose key is its name (first field that fits), fields no key names keep their content, and nothing else in memory changes except that raw strings are unescaped. (Violated for: slice fields that already have room, and slices of times, which make it panic; empty arrays, which leave the old elements; []byte fields; pointers to slices, which never receive anything; with ignoreCase, a name that only folds to the key wins over an exact one.)", "quantifier": "all objects, all struct types of the modelled kinds, all previous contents of the struct, all states of the memory", "why_tests_cant": "All nestings of types and values, and all previous contents.", "anchors": ["reflect_parse.go:ToStdValue", "reflect_parse.go:decode2reflectFromdxValue", "reflect_parse.go:decodeArray2reflect"]}
{"id": "C64", "title": "A struct set on a value and exported again is unchanged", "statement": "For every struct whose fields have distinct names and are strings, integers, floats, bools, times, or slices and structs of these, SetValue(x) followed by ToStdValue into a zero variable of the type gives x back, in every state of the memory. (Violated for []byte fields and pointer fields, which stay zero.)", "quantifier": "all struct types and values described, all states of the memory, all receivers", "why_tests_cant": "All types, values and memory states.", "anchors": ["reflect_parse.go:SetValue", "reflect_parse.go:ToStdValue"]}
{"id": "C65", "title": "Reading a value does not change what later reads return", "statement": "String() leaves the value as it is and later String() calls return the same. (Violated for strings read from JSON: String() unescapes them in place, so Int, Double, Bool and GoTime convert a different text before and after.)", "quantifier": "all values, all getters", "why_tests_cant": "All texts and orders of calls.", "anchors": ["dxvalue.go:String", "dxvalue.go:Int", "dxvalue.go:Bool", "dxvalue.go:Double"]}
{"id": "C66", "title": "Decoding JSON does not depend on the memory it lands in", "statement": "In every state of the memory, with no cache, a new cache or any recycled cache, NewValueFromJson succeeds exactly when the text parses, with the same error otherwise, and never panics; the cells it returns read as the parsed value, none of them was in use, and no cell in use changes, also when it fails; without a cache or in a new one, no later call on other values changes what was decoded.", "quantifier": "all reachable memory states, cache choices, texts and later call sequences", "why_tests_cant": "Product of all earlier uses of the cache pool, all texts and all later calls.", "anchors": ["jsonparse.go:NewValueFromJson", "jsonparse.go:parseJsonValue", "jsonparse.go:parseJsonObj", "jsonparse.go:parseJsonArray", "cache.go:getValue"]}
{"id": "C67", "title": "Loading JSON into a value leaves nothing of what the value held", "statement": "LoadFromJson into a value of any type, in every state of the memory, succeeds or fails independently of what the value held, and a success leaves exactly what the type of the receiver and the text determine; if the text's kind is the receiver's, that is the value NewValueFromJson returns. (Violated for failed loads: the pair under way takes over the key and the value of a pair removed earlier: witness given. It holds when the memory behind the pair list is empty.)", "quantifier": "all reachable memory states, receivers and texts", "why_tests_cant": "All earlier contents and removals of the receiver, times all texts.", "anchors": ["dxvalue.go:LoadFromJson", "jsonparse.go:parseJson2Value", "jsonparse.go:parseJsonObj2V", "jsonparse.go:parseJsonArray2V", "dxvalue.go:getKv"]}
{"id": "C68", "title": "Decoding BSON does not depend on the memory it lands in", "statement": "In every state of the memory, with no cache, a new cache or any recycled cache, NewValueFromBson succeeds, fails or panics exactly as on empty memory, with the same error; the cells it returns read as the decoded document, none of them was in use, and no cell in use changes, also when it fails; without a cache or in a new one, no later call on other values changes what was decoded.", "quantifier": "all reachable memory states, cache choices, byte strings and later call sequences", "why_tests_cant": "Product of all earlier uses of the cache pool, all byte strings and all later calls; elements are attached before they are filled and repeated keys re-use cells.", "anchors": ["bson_parse.go:NewValueFromBson", "bson_parse.go:parseBsonDocument", "bson_parse.go:parseBsonArray", "bson_parse.go:parseValue", "dxvalue.go:SetKeyCached", "dxvalue.go:SetIndexCached", "cache.go:getValue"]}
{"id": "C69", "title": "Loading BSON into a value gives the decoded document", "statement": "LoadFromBson of a non-empty byte string into a value that is not an array, or into an array when the document's first name is no number, in every state of the memory, succeeds, fails with the same error, or panics exactly as NewValueFromBson does, and a success leaves exactly the decoded document, whatever the receiver held; an empty byte string clears the receiver and is no error; a receiver that is no object is only cleared when the document has no members. (Violated for arrays otherwise: members with numeric names become elements, {\"0\":7} loads as [7]: witness given.)", "quantifier": "all reachable memory states, receivers and byte strings", "why_tests_cant": "All earlier contents of the receiver and of its cache, times all byte strings.", "anchors": ["dxvalue.go:LoadFromBson", "bson_parse.go:parseBsonDocument", "dxvalue.go:SetKeyCached", "dxvalue.go:Clear"]}
{"id": "C70", "title": "Nested YAML documents mean what they say", "statement": "For every document of mappings and lists in block style nested to any depth, with any indentation of each block (list items being scalars, or mappings whose first entry is a scalar behind the dash), and in every state of the memory: NewValueFromYaml returns exactly the value the document denotes, in cells that were not in use, and changes no cell in use; LoadFromYaml leaves exactly that value in the receiver, whatever it held.", "quantifier": "all nested documents of the grammar, indentations, reachable memory states, receivers and pooled parsers", "why_tests_cant": "Unbounded nesting, breadth and indentation; the parser's node stack must be right after every dedent.", "anchors": ["yamlparse.go:parseLine", "yamlparse.go:parseObject", "yamlparse.go:parseArray", "yamlparse.go:NewValueFromYaml", "dxvalue.go:LoadFromYaml"]}
{"id": "C71", "title": "Any first entry of a list item", "statement": "The first entry behind a dash may hold a mapping or a list, and items may be lists. (Violated: a key after a first entry with two levels of mappings lands inside that entry; a list under the first key becomes a string and its other elements move to the outer list; `- - a` is a string. Witnesses given, with a control where the scalar entry comes first.)", "quantifier": "all nested documents", "why_tests_cant": "All nestings.", "anchors": ["yamlparse.go:parseLine", "yamlparse.go:parseArray"]}
{"id": "C72", "title": "A list at the indentation of its key", "statement": "A list may stand at the indentation of the key it belongs to. (Violated for every mapping and every list: the whole mapping read so far at that level is discarded without an error and only the list is left.)", "quantifier": "all mappings, lists, indentations and reachable memory states", "why_tests_cant": "All documents of this form.", "anchors": ["yamlparse.go:parseArray"]}
{"id": "C73", "title": "Comments, trailing white space and carriage returns", "statement": "Putting in comment lines, adding comments, blanks and carriage returns behind lines, and using CRLF line ends does not change the outcome of NewValueFromYaml in any way: same result or error, same memory, for documents of any lines, valid or not. (Violated for a lone dash: `-` before a carriage return is an error, and a comment right behind a dash is taken as the item.)", "quantifier": "all documents, all decorations, all memory states", "why_tests_cant": "All ways to decorate all documents.", "anchors": ["yamlparse.go:parseLine", "yamlparse.go:splitKv", "yamlparse.go:parseArray", "yamlparse.go:parse"]}
{"id": "C74", "title": "Encoders read memory as trees", "statement": "Value2MsgPack, Value2Bson, Value2Json and Value2FormatJson append, for a value in memory, exactly the bytes that the encoder of its tree writes (C01-C27), and fail (error or panic) exactly when that does, whatever else memory holds and whichever cells are shared. They make and free no cell. MsgPack and the escaping JSON styles change no cell; BSON and unescaped JSON at most resolve escapes in place, which leaves every value in memory reading as before.", "quantifier": "all memory states, values, buffers, styles and external functions", "why_tests_cant": "All shapes of values and sharing in memory, nested to any depth.", "anchors": ["msgpackparse.go:Value2MsgPack", "bson_parse.go:Value2Bson", "jsonparse.go:Value2Json", "jsonparse.go:Value2FormatJson"]}
{"id": "C75", "title": "Reading does not change what a value reads as", "statement": "Any sequence of lookups, Items, String, Equal and encoder calls on any values leaves every value in memory reading as before (escapes resolved), makes and frees no cell, and leaves the BSON bytes of every value, or its failure, the same; a value without unresolved escapes is left as it is. (Violated for other outputs: the MsgPack bytes of a value change after a BSON encoding; and with two keys that differ only in their escaping, which of them a lookup finds changes after a read.)", "quantifier": "all sequences of reading calls, memory states and values", "why_tests_cant": "All call sequences on all memory states.", "anchors": ["dxvalue.go:String", "dxvalue.go:ValueByName", "bson_parse.go:Value2Bson", "jsonparse.go:Value2Json", "dxvalue.go:Equal"]}
{"id": "C76", "title": "Round trips through memory", "statement": "Encoding a value in memory and decoding the bytes, in the same memory, with any cache: through BSON the new value reads as the old one with escapes resolved; through escaped JSON it denotes the same; through MsgPack it has the stored bytes of the keys and strings. The invariant is kept and no cell in use is changed by decoding. (Violated for MsgPack as a transport of what strings read as: unresolved escapes of a value read from JSON become text.)", "quantifier": "all values in the range of C01, C11, C18; all memory states, caches and external functions", "why_tests_cant": "All values and all memory states, recycled cells included.", "anchors": ["msgpackparse.go:Value2MsgPack", "bson_parse.go:Value2Bson", "jsonparse.go:Value2Json", "msgpackparse.go:NewValueFromMsgPack", "bson_parse.go:NewValueFromBson", "jsonparse.go:NewValueFromJson"]}
{"id": "C77", "title": "AddFrom appends copies", "statement": "l.AddFrom(m, c) on two objects leaves l with its own pairs followed by copies of the pairs of m, in order; on two arrays, its items followed by copies of those of m. No other cell in use changes; all that l gains are cells not in use before and the shared constants, so nothing is shared with m. m may lie inside l. (Violated as a merge of maps: keys are not compared, so a key can occur twice and the added value is not found; the flag that says whether keys still hold escapes is overwritten, so a key of l may no longer be found; v.AddFrom(v) does not return unless v is empty.)", "quantifier": "all memory states, receivers, sources that do not contain the receiver, caches and growth of append", "why_tests_cant": "All shapes of values and all memory states, recycled cells included; the loop on itself never ends.", "anchors": ["dxvalue.go:AddFrom", "dxvalue.go:clone"]}
{"id": "C78", "title": "CopyFrom replaces by a copy", "statement": "l.CopyFrom(m, c) leaves l with the content of m, whatever l held before, for every m that has no binaries or nil entries and does not contain l; no other cell in use changes, and l then consists of cells not in use before and the shared constants. m may be a part of l. (Violated for binaries, whose bytes and extension type are lost, and for v.CopyFrom(v), which empties an object.)", "quantifier": "all memory states, receivers, sources, caches and growth of append", "why_tests_cant": "All shapes of values and all memory states.", "anchors": ["dxvalue.go:CopyFrom", "dxvalue.go:Reset", "dxvalue.go:clone"]}
{"id": "C79", "title": "Unmarshal reverses Marshal", "statement": "Marshal of a value in memory followed by Unmarshal of its bytes into a receiver - the value itself, a part of it or any other, an object or array if the value is one - reports no error, and the receiver then denotes what the value denoted. (Violated for receivers of another kind and for numbers at the top: no error is reported and the receiver keeps what it held.)", "quantifier": "all values in the range of C18 other than numbers and nil, all memory states and receivers", "why_tests_cant": "All values, memory states and aliasings of receiver and value.", "anchors": ["reflect_parse.go:Marshal", "reflect_parse.go:Unmarshal", "dxvalue.go:LoadFromJson", "jsonparse.go:Value2Json"]}
{"id": "C80", "title": "MergeWith carries out the verdicts of its callback", "statement": "MergeWith(value, f) on objects asks f exactly once for every key of the argument that the receiver has too, in the argument's order, with the two values as they stood before the call, and carries out the verdict: MO_Replace puts a copy of the argument's value in place of the old one, MO_Custom leaves the entry alone, MO_Normal combines two scalars into a two-element array. Keys the receiver lacks are added. The argument keeps its content and no cell in use changes but the receiver and the values combined or replaced. The first collision is announced under its key. (Violated for the key path of every later collision, which is announced under the keys of all collisions so far joined by slashes although none is nested in another; colliding arrays are not united; an array colliding with an object is emptied and turned into an object.)", "quantifier": "all pure callbacks, all pairs of separate objects in the range of C37, all memory states, caches and growth of append", "why_tests_cant": "All callbacks, shapes, verdict sequences and memory states; the library's test merges two fixed documents without a callback.", "anchors": ["dxvalue.go:mergeObject", "dxvalue.go:MergeWith", "dxvalue.go:MergeFunc"]}
{"id": "C81", "title": "Visit shows the entries in order", "statement": "Visit calls its callback on the entries in their order, on each at most once, up to and including the first on which it answers false and on all if it never does, provided the callback leaves the entries of the container alone. KeyNameByIndex and Visit show the key Items shows once the keys are unescaped. (Violated for: a callback that removes the entries it is shown, which sees every second entry only and leaves the others; a callback that appends to the array, which never sees the end; keys of parsed objects, which are shown escaped until some key is looked up in vain, so that a callback that looks keys up sees the first keys escaped and the rest unescaped.)", "quantifier": "all callbacks with any state of their own, all containers and memory states", "why_tests_cant": "All callbacks and containers, including callbacks that modify what they visit; divergence is not observable by a test.", "anchors": ["dxvalue.go:Visit", "dxvalue.go:KeyNameByIndex", "dxvalue.go:Items"]}
{"id": "C82", "title": "Getters of times, durations and float32 by path", "statement": "FloatByPath, DateTimeByPath, GoTimeByPath and DurationByPath return the default exactly when some step of the path is missing and otherwise what the getter of the value found says; a time, float32 or text stored by the keyed setters comes back through them, a text as the time or duration it spells. (Violated for: the default, which is not used for a value that is no time, where -1 or the zero time is returned; SetTime on a value that holds a double, which stays a double and prints as a number.)", "quantifier": "all trees, paths, defaults, stored values, and all behaviours of the time library", "why_tests_cant": "All trees, paths, defaults and stored values.", "anchors": ["dxvalue.go:FloatByPath", "dxvalue.go:DateTimeByPath", "dxvalue.go:GoTimeByPath", "dxvalue.go:DurationByPath", "dxvalue.go:SetTime"]}
{"id": "C83", "title": "Unmarshal of a DxValue passed by value stores into the caller's value", "statement": "Marshal given a DxValue writes the bytes it writes for the pointer and leaves the value as it is. Unmarshal given a DxValue reports an error or panics exactly for the documents for which the pointer form does, with the same error, and keeps the type of the caller's value. (Violated as to the effect: an object keeps its number of pairs and an array its number of elements; the first ones become those of the document, the others an empty key and nil, so an empty receiver stays empty whatever the document holds and a later SetKey with the empty key panics.)", "quantifier": "all documents, all values and memory states, with and without a cache, shared backing arrays of any capacity", "why_tests_cant": "All combinations of receiver length, document length and hidden capacity of the shared backing arrays.", "anchors": ["reflect_parse.go:Marshal", "reflect_parse.go:Unmarshal", "dxvalue.go:LoadFromJson", "dxvalue.go:Clear"]}
{"id": "C84", "title": "NewValueFrom builds a new value with the content of the Go value", "statement": "NewValueFrom of a Go value of a supported type returns a value that reads as that Go value, made of cells nothing else uses, and changes nothing in use, cached or not and whatever the recycled cache held. For a *DxValue the result is an independent copy. (Violated for: DxValues inside a map or slice, which are stored by reference, so that later changes show through; []byte, nil, values of named basic types and pointers to strings, which give an empty object uncached and cached an integer left over from a value freed before; a time, which becomes a plain number.)", "quantifier": "all Go values, all memory states, all choices of the cache pool", "why_tests_cant": "All Go values and all histories of the recycled memory; stale content depends on what was freed before.", "anchors": ["dxvalue.go:NewValueFrom", "reflect_parse.go:SetValue", "dxvalue.go:CopyFrom", "cache.go:getValue"]}
{"id": "C85", "title": "YAML aliases read as the scalar at the latest anchor of their name", "statement": "In nested YAML documents whose scalars carry anchors (&a v) or stand as aliases (*a), NewValueFromYaml and LoadFromYaml give every alias the value of the scalar at the latest anchor of that name above it, at whatever depth that anchor is; an alias without anchor is text; every alias has a cell of its own, so changing one entry changes no other. (Violated for: an alias of a boolean as first entry of a nested mapping, which is the very cell of the anchor; an anchor on a mapping that is not the first entry of its block, which is forgotten; text behind an alias, which is dropped silently.)", "quantifier": "all documents of nested mappings and lists with references on scalars, all indentations, all memory states", "why_tests_cant": "All nestings, indentations, redeclarations and positions of anchors, and all states of the recycled memory.", "anchors": ["yamlparse.go:parseStringValue", "yamlparse.go:parseObject", "yamlparse.go:parseArray", "dxvalue.go:CopyFrom", "dxvalue.go:clone"]}
{"id": "C86", "title": "What a loader builds is a tree", "statement": "No cell of a value built by NewValueFromBson, LoadFromBson, NewValueFromYaml or LoadFromYaml is met on two paths from its root, and whatever is done to the cell found on one path, the whole reads as before except there. LoadFromBson changes no cell outside its receiver and takes none that was in use.", "quantifier": "all BSON texts that decode, all nested YAML documents, all paths, all changes, all memory states", "why_tests_cant": "All documents, all paths and all later changes.", "anchors": ["bson_parse.go:NewValueFromBson", "dxvalue.go:LoadFromBson", "yamlparse.go:NewValueFromYaml", "dxvalue.go:LoadFromYaml"]}
{"id": "C87", "title": "Constructors, loaders, Clone and CopyFrom build trees", "statement": "No cell of a value built by NewValueFromJson, NewValueFromMsgPack, NewValueFrom, SetValue, LoadFromJson, LoadFromMsgPack, Clone or CopyFrom is met on two paths from its root, except the shared constants, however the source of a copy or the receiver of a load was shared before; AddFrom keeps a tree a tree. Whatever is done to any other cell of such a value, the whole reads as before except on the path to that cell; so a string set at one place of a JSON document appears there and nowhere else. LoadFromMsgPack changes no cell outside its receiver and takes none that was in use. (Violated for true, false and null, which are one cell each: setting such an element to a string does nothing.)", "quantifier": "all documents and Go values that decode, all paths, all changes, all memory states, all choices of the cache pool", "why_tests_cant": "All documents, all paths, all later changes, and every history of the recycled memory the cells come from.", "anchors": ["jsonparse.go:NewValueFromJson", "msgpackparse.go:NewValueFromMsgPack", "dxvalue.go:NewValueFrom", "dxvalue.go:LoadFromJson", "dxvalue.go:LoadFromMsgPack", "dxvalue.go:clone", "dxvalue.go:CopyFrom", "dxvalue.go:AddFrom", "dxvalue.go:SetString"]}
{"id": "C88", "title": "New and reset values are empty", "statement": "NewValue(t), NewObject(false) and NewArray(false) return the empty value of the type asked for (the shared constant for true, false, null, NaN and Inf), which was not in use before and belongs to no cache; every value in use stays as it was. NewCacheValue(t), hence NewObject(true) and NewArray(true), does the same inside a cache for every type that is not numeric, whatever the cache held before; Reset(t) makes a value in use the empty value of such a type and changes no other. After a LoadFromJson that fails on a new or reset object, the object holds what was read and no key or value of an earlier life. (Violated for the numeric types in a cache and by Reset: simpleV keeps the bits of the earlier value; and in a cache by an object that had lost a key before it was freed: the failing load brings the removed pair back.)", "quantifier": "all types, all memory states, all choices of the cache pool, all texts", "why_tests_cant": "All histories of the recycled memory, all texts that fail to parse.", "anchors": ["dxvalue.go:NewValue", "dxvalue.go:NewObject", "dxvalue.go:NewArray", "dxvalue.go:NewCacheValue", "dxvalue.go:Reset", "cache.go:getValue", "dxvalue.go:LoadFromJson"]}
{"id": "C89", "title": "YAML values in flow style", "statement": "A YAML document of nested block mappings and lists whose values include flow collections, {...} or [...], loads with those collections as the objects and arrays they denote, or is rejected. (Violated for every such document: it loads without an error, every flow value that is not a number becomes the empty string, and everything else is as written.)", "quantifier": "all documents of the grammar, all flow texts, all memory states, both entry points", "why_tests_cant": "All documents of unbounded depth with flow values at any place.", "anchors": ["yamlparse.go:parseStringValue", "yamlparse.go:NewValueFromYaml", "dxvalue.go:LoadFromYaml"]}
{"id": "C90", "title": "YAML document markers and mixed blocks", "statement": "A document start marker --- changes nothing about the document behind it, a second document or an end marker is not silently merged into the first, and mapping entries at the indentation of a list are rejected. (Violated: --- is taken for a list item, so a list behind it gains the element \"--\" and a mapping whose first key is a number is loaded as a list; a mapping with another first key is read correctly because the list is thrown away; and in general mapping entries behind a list discard the whole list without an error when its last item is one line, and are an error otherwise. A later --- or ... is an error behind every document.)", "quantifier": "all documents of the grammar, all texts behind a marker, all memory states, both entry points", "why_tests_cant": "All documents before and behind the marker.", "anchors": ["yamlparse.go:parseArray", "yamlparse.go:parseObject", "yamlparse.go:parseLine", "dxvalue.go:SetKeyCached"]}
{"id": "C91", "title": "YAML continuation lines and block scalars", "statement": "An indented line below a scalar entry continues the scalar, or is rejected; so does the text below | or >. (Violated for every entry of every mapping: a mapping below the scalar takes its place and the scalar is lost without an error; one line of text, also below | or >, makes the value an object whose only key is the text; only two lines of text are an error.)", "quantifier": "all mappings before and behind the entry, all keys, scalars and texts, all indentations, all memory states", "why_tests_cant": "All documents around the entry, all texts.", "anchors": ["yamlparse.go:parseObject", "yamlparse.go:splitKv", "dxvalue.go:Reset"]}
{"id": "C92", "title": "A registered conversion function fills exactly the variables of its type", "statement": "After RegisterTypeMapFunc(T, f), ToStdValue into a struct gives every field of type T what f makes of its content and the entries that name it, in order; the last registration counts, nil takes it back; every variable in whose type T does not occur is filled exactly as before; and a type with its own DecodeFromDxValue is filled by that method. (Violated for: slices of T, which make ToStdValue panic on every non-empty array although they worked before the registration; a pointer to T itself, for which f is never asked; fields whose type has the method, which is called on a copy so that its effect is lost.)", "quantifier": "all tables of functions and methods, all struct types of the modelled kinds with any nesting and any type identities, all objects, all previous contents, all states of the memory", "why_tests_cant": "Quantifies over all user functions and all nestings of types; that other types are not affected is a claim about all of them.", "anchors": ["struct_type.go:RegisterTypeMapFunc", "reflect_parse.go:decode2reflectFromdxValue", "reflect_parse.go:decodeArray2reflect", "reflect_parse.go:ToStdValue"]}
{"id": "C93", "title": "Export to a variable of a basic type says whether the value fitted", "statement": "ToStdValue into a pointer to an integer, float, bool, time, string or byte slice stores the conversion of the value; integers that fit the type and byte slices arrive unchanged, and the answer is true only if the variable represents the value. (Violated: the answer is always true; integers that do not fit are truncated silently; objects, arrays and null give a zero.)", "quantifier": "all values, all widths, all states of the memory", "why_tests_cant": "All integers and all widths; exactness in both directions.", "anchors": ["reflect_parse.go:ToStdValue"]}
{"id": "C94", "title": "Typed setters and getters by index", "statement": "After SetIndexInt/String/Bool/Double/Float/Time(i, x) on any value in use, the value is an array holding at i, or at its end if it had no element i, a value of that type from which every getter reads x, and the getters by index give x back; its other elements and every other value in use are unchanged (a value of another type becomes a one-element array). IntByIndex, BoolByIndex, DoubleByIndex, FloatByIndex and StringByIndex return the conversion of what the array or object holds at the index, and the default exactly when the index is out of range, the entry is nil or the value has no entries. The keyed setters leave a value of their own type whatever was there.", "quantifier": "all memory states, indices and values", "why_tests_cant": "Any prior type of the receiver and of the element, shared constants, cached and uncached values, 2^64 patterns.", "anchors": ["dxvalue.go:SetIndexInt", "dxvalue.go:SetIndexBool", "dxvalue.go:SetIndexTime", "dxvalue.go:SetIndexCached", "dxvalue.go:IntByIndex", "dxvalue.go:StringByIndex", "dxvalue.go:SetKeyTime"]}
{"id": "C95", "title": "Importing Go values whose types have an EncodeToDxValue method", "statement": "SetValue, SetKeyvalue and SetIndexvalue with maps, slices and structs in which values with EncodeToDxValue methods occur at any depth leave the tree of the Go value, with what the method makes in each place where the type has it; nothing else in use changes and everything added is new, provided the methods keep to the value they are given. Methods that themselves call SetValue are such methods, also with values that have methods again. With such a value itself, SetValue is its method: nothing is reset before. Unexported fields that are not of a basic kind leave no trace, whatever methods they have. (Violated: fields and typed elements that are pointers, of types with a pointer receiver, and fields of types declared over a basic type are imported without calling the method; a nil pointer whose method accepts nil is passed to the method below a key, becomes null in a typed slice and panics in a field.)", "quantifier": "all Go values, methods and memory states", "why_tests_cant": "Arbitrary user methods, nesting and memory states; absence of side effects on other values.", "anchors": ["reflect_parse.go:SetValue", "reflect_parse.go:SetKeyvalue", "reflect_parse.go:SetIndexvalue", "reflect_parse.go:ValueMarshaler"]}
{"id": "C96", "title": "Importing Go values that contain DxValues: what is shared and what is copied", "statement": "SetValue, SetKeyvalue and SetIndexvalue with maps, slices and structs that contain DxValues or pointers to DxValues at any depth leave the tree of the Go value with the content of each DxValue in its place, change no other value in use, and refer to nothing but new values and those that were given. SetValue with a DxValue or a pointer to one makes a deep copy that shares nothing with it. A pointer below a key, an index or an element of type interface{} is stored itself, so later changes show through it. (Violated: a pointer in a field, a typed map or a typed slice is not stored; the entry is a copy of the struct that shares the children, so that later changes show in part. A nil pointer is stored below a key, is null in a typed slice, and panics in a field or as the argument of SetValue.)", "quantifier": "all Go values containing DxValues, all memory states", "why_tests_cant": "Sharing between trees, arbitrary nesting and memory states.", "anchors": ["reflect_parse.go:SetValue", "reflect_parse.go:SetKeyvalue", "reflect_parse.go:SetIndexvalue", "dxvalue.go:CopyFrom"]}
{"id": "C97", "title": "Getters by name with a default, and the encoders as methods", "statement": "Every getter by name (AsString, StringByName, AsBool, BoolByName, AsInt, IntByName, AsInt64, AsFloat, FloatByName, AsDouble, DoubleByName, AsDateTime, TimeByName, AsDuration, DurationByName) gives the default when the receiver is nil or has no entry of that name, and otherwise exactly what the getter without a name says of the entry that Find returns, whatever the default; but for the keys of the receiver it changes nothing. ToJson, formatted or not, and ToMsgPack write documents that read back as the value. (Violated: the default is not used for entries that are null or containers; the answer is 0, false, the text null or a meaningless time. Only durations fall back.)", "quantifier": "all memory states without duplicate keys, names, defaults and values", "why_tests_cant": "All kinds of entries, all spellings of keys and all receivers, for fifteen methods.", "anchors": ["dxvalue.go:AsInt", "dxvalue.go:StringByName", "dxvalue.go:TimeByName", "dxvalue.go:Find", "dxvalue.go:ToJson", "dxvalue.go:ToMsgPack"]}
{"id": "C98", "title": "BSON arrays at the top of a text", "statement": "An array written with Value2Bson reads back as that array. (Holds for LoadFromBson into an array, in every state of the memory and whatever the receiver held, for all plain arrays and all conforming texts; violated for NewValueFromBson and LoadFromBson into an object, which give an object whose names are the indices, exactly. Violated further for LoadFromBson into an array of a document whose members are named 0, 1, ... up to one whose name is no number: the members in front of it are lost without an error.)", "quantifier": "all plain arrays of any depth and width, all reachable memory states, all bytes behind the text", "why_tests_cant": "Infinite family of arrays, times all earlier contents of the receiver and its cache.", "anchors": ["dxvalue.go:LoadFromBson", "bson_parse.go:Value2Bson", "bson_parse.go:parseBsonDocument", "dxvalue.go:SetKeyCached", "dxvalue.go:SetIndexCached"]}
{"id": "C99", "title": "The predicates of a MessagePack type byte", "statement": "IsInt, IsStr, IsArray, IsMap, IsBin and IsExt hold of exactly the type bytes the MessagePack format gives to that kind, at most one of them holds, and each holds exactly when the value decoded from a message beginning with that byte has that kind; IsTime with the extension type tells times from other extensions; every value is written with a type byte of its kind; getExtcode names the code writeExtCode writes first.", "quantifier": "all type bytes, all bytes behind them, all values", "why_tests_cant": "All messages of any length behind each type byte and all values to encode; the predicates are the public way to dispatch on a message.", "anchors": ["msgpack_codes.go:IsExt", "msgpack_codes.go:IsTime", "msgpack_codes.go:IsMap", "msgpack_codes.go:IsInt", "msgpack_codes.go:IsStr", "msgpack_codes.go:IsArray", "msgpack_codes.go:IsBin", "msgpack_value.go:getExtcode", "msgpackparse.go:parseMsgPackValue", "msgpackparse.go:Value2MsgPack"]}
