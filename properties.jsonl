{"id": "C01", "title": "JSON parser is memory safe and terminates", "statement": "Constructing json::Parser on any std::string (any bytes, embedded NULs included) finishes, and never reads a byte beyond the string's terminating NUL, never advances its cursor past the end, and never loops forever.", "quantifier": "every byte string shorter than 2^28 bytes, every memory layout", "why_tests_cant": "The scanner has no explicit bounds check in have(char); safety rests on an argument about the terminator that must hold for every string, including truncations in the middle of an escape.", "anchors": ["include/eni/json/Parser.h: Parser::Parser, have, parse_string, parse_codepoint, valid_code"]}
{"id": "C02", "title": "JSON parser accepts exactly the documented grammar", "statement": "operator bool of json::Parser(s) is true exactly when some prefix of s is a value of the documented JSON subset (objects, arrays, strings, integers, true/false; no fraction, no null), and the value stored in getRoot() is the one the grammar assigns to that prefix.", "quantifier": "every byte string, every nesting depth, every memory layout of the string and the pattern literals", "why_tests_cant": "An unbounded set of texts and nesting depths; tests sample a handful.", "anchors": ["include/eni/json/Parser.h: parse_value, parse_object, parse_array, parse_string, parse_number, parse_boolean", "include/eni/json/Callbacks.h: Callbacks"]}
{"id": "C03", "title": "The grammar is unambiguous", "statement": "For every text there is at most one (value, unread suffix) pair the documented grammar assigns to it, so getRoot() is determined by the text.", "quantifier": "every byte string", "why_tests_cant": "Ambiguity is a statement about all derivations of all texts.", "anchors": ["include/eni/json/Parser.h"]}
{"id": "C04", "title": "Whole input is consumed", "statement": "If json::Parser(s) reports success then s is one JSON value surrounded by white space only.", "quantifier": "every byte string", "why_tests_cant": "Only an argument about all texts can exclude trailing text being ignored.", "anchors": ["include/eni/json/Parser.h: Parser::Parser"]}
{"id": "C05", "title": "Parsing does not depend on memory layout", "statement": "Two nodes that parse the same bytes get the same verdict and the same value whatever the addresses of the string buffer and of the pattern literals.", "quantifier": "every text, every pair of address layouts", "why_tests_cant": "A test process has one layout; the comparison at have(const char*) uses the literal's address.", "anchors": ["include/eni/json/Parser.h: have(const char*), parse_boolean"]}
{"id": "C06", "title": "Printed strings parse back to the same bytes", "statement": "Printing a string json::Value and parsing the output yields a string value with exactly the same bytes.", "quantifier": "every byte string (all 256 byte values, any length)", "why_tests_cant": "256^n strings; the escape table and the signedness of char matter for every byte at every position.", "anchors": ["lib/json/Value.cpp: Value::print", "include/eni/json/Parser.h: parse_string, parse_escape, parse_codepoint"]}
{"id": "C07", "title": "Printed integers, booleans and arrays parse back to the same value", "statement": "For every value built from integers, booleans, strings and arrays, parsing the printed text yields an equal value and consumes the whole text.", "quantifier": "every value of unbounded depth and width", "why_tests_cant": "Nested structure of unbounded depth.", "anchors": ["lib/json/Value.cpp: Value::print", "lib/json/Array.cpp: Array::print", "include/eni/json/Parser.h"]}
{"id": "C08", "title": "Printed objects parse back to an equal object", "statement": "For every object value, parsing the printed text yields an object with the same keys and values.", "quantifier": "every object", "why_tests_cant": "All keys and nested values.", "anchors": ["lib/json/Object.cpp: Object::print", "lib/json/Value.cpp: Value::print"]}
{"id": "C09", "title": "Printed results contain no NUL byte", "statement": "The text printed for a value contains no NUL byte, so the C string handed back by an ENI operation (strdup) is the complete text.", "quantifier": "every value without objects (and every object whose keys hold no NUL)", "why_tests_cant": "All byte strings.", "anchors": ["lib/json/Value.cpp: Value::print", "lib/eni.cpp: EniBase::start"]}
{"id": "C10", "title": "Integers are exact within 256 bits", "statement": "A JSON integer literal with magnitude below 2^256 is stored exactly and prints back as its canonical decimal; larger magnitudes are reduced modulo 2^256 with the sign kept.", "quantifier": "every digit string", "why_tests_cant": "Unbounded digit strings.", "anchors": ["include/eni/json/Callbacks.h: on_number", "lib/eni_types.cpp", "include/eni/eni_types.h: s256"]}
{"id": "C11", "title": "Objects keep the last value given for a key", "statement": "After parsing an object, looking a key up gives the last value the text bound to that key; keys that do not occur are absent; size() is the number of distinct keys.", "quantifier": "every object text, any number of members and duplicates (keys shorter than 65536 bytes)", "why_tests_cant": "Any number of members, hence any sequence of table growths and collisions.", "anchors": ["include/eni/json/Callbacks.h: set_parent", "include/eni/adt/StringMap.h: StringMap::operator[]", "lib/json/Object.cpp"]}
{"id": "C12", "title": "\\u escapes denote the code they spell", "statement": "A \\uXXXX escape in a JSON string denotes the character with that code.", "quantifier": "all 65536 codes", "why_tests_cant": "Tests cover one code below 256.", "anchors": ["include/eni/json/Parser.h: parse_codepoint"]}
{"id": "C13", "title": "Value accessors are total on arrays and objects", "statement": "v[i] on an array returns element i when 0 <= i < size and throws OutOfRange otherwise (negative i included); v[key] on an object returns the bound value and throws OutOfRange when absent; on any other type both return the undefined value.", "quantifier": "every value, every int index, every key", "why_tests_cant": "All indices and keys.", "anchors": ["lib/json/Value.cpp: operator[]", "include/eni/adt/bits/Vector.tcc: at", "include/eni/adt/StringMap.h: at"]}
{"id": "C14", "title": "HashTable behaves as a finite map", "statement": "Over any sequence of insert, setValue, erase, find, clear, rehash and size calls a HashTable answers exactly as a finite map from keys to values.", "quantifier": "every operation history (under 2^28 operations), every hash function, every key and value, every initial size up to 2^28", "why_tests_cant": "Collisions, tombstones and rehash points depend on the history; unbounded interleavings.", "anchors": ["include/eni/adt/bits/HashBase.tcc", "include/eni/adt/bits/HashTable.tcc"]}
{"id": "C15", "title": "Hash table probes always terminate", "statement": "No insert, find, erase or count on a HashTable reached through insert/erase/clear/rehash() loops forever, and every bucket index used is inside the bucket array: there is always a never-used bucket left.", "quantifier": "every operation history, every hash function", "why_tests_cant": "The non-termination needs a specific filling of the table.", "anchors": ["include/eni/adt/bits/HashBase.tcc: lookupBucketFor, findKey, mayRehash, doRehash"]}
{"id": "C16", "title": "Load stays bounded", "statement": "After every insert and erase at most 3/4 of the buckets hold entries and at least 1/8 of the buckets have never been used (so probes stay short).", "quantifier": "every operation history", "why_tests_cant": "Depends on the interleaving of insertions and erasures.", "anchors": ["include/eni/adt/bits/HashBase.tcc: mayRehash"]}
{"id": "C17", "title": "Rehashing keeps every entry", "statement": "rehash(), rehash(n) and the growth inside insert/erase change neither the set of (key, value) entries nor the entry objects: a pointer returned by insert stays valid and keeps designating the same key until that key is erased or the table is cleared.", "quantifier": "every table state, every new size larger than the number of entries", "why_tests_cant": "All collision patterns of all hash functions.", "anchors": ["include/eni/adt/bits/HashBase.tcc: doRehash", "include/eni/adt/bits/HashTable.tcc: insert"]}
{"id": "C18", "title": "rehash(n) is safe for every n", "statement": "rehash(n) returns and later lookups return, for every n.", "quantifier": "every table and every n", "why_tests_cant": "Requires reasoning about non-termination.", "anchors": ["include/eni/adt/bits/HashTable.tcc: rehash(size_type)", "include/eni/adt/bits/HashBase.tcc: doRehash"]}
{"id": "C19", "title": "Iteration visits every entry exactly once", "statement": "Iterating a HashTable from begin() to end() yields every entry exactly once, takes exactly size() steps and never dereferences an empty or erased bucket.", "quantifier": "every table state reachable by any history", "why_tests_cant": "All placements of empty and erased buckets.", "anchors": ["include/eni/adt/bits/HashIterator.tcc: EntryIterBase", "include/eni/adt/bits/HashTable.tcc: begin, end"]}
{"id": "C20", "title": "count(key) and chain iteration are exact", "statement": "count(k) is 1 when k is present and 0 otherwise, and begin(k)..end(k) visits exactly the entry of k.", "quantifier": "every table state, every key, every hash function", "why_tests_cant": "Needs two keys with equal full hash.", "anchors": ["include/eni/adt/bits/HashIterator.tcc: ChainIterBase", "include/eni/adt/bits/HashTable.tcc: count"]}
{"id": "C21", "title": "Copies of a table are independent and equal", "statement": "A copy-constructed or copy-assigned HashTable has the same contents as its source; later changes of either do not affect the other.", "quantifier": "every pair of tables reached by any history", "why_tests_cant": "Aliasing shows only under particular later operations.", "anchors": ["include/eni/adt/bits/HashTable.tcc: HashTable(const HashTable&), operator=", "include/eni/adt/bits/HashBase.tcc"]}
{"id": "C22", "title": "StringMap finds what was stored", "statement": "StringMap::operator[](k) = v makes at(k) return v, find(k) succeed and leaves every other key unchanged; at on an absent key throws OutOfRange.", "quantifier": "every key (any length, any bytes), every history", "why_tests_cant": "Keys of any length.", "anchors": ["include/eni/adt/StringMap.h", "include/eni/adt/StringHashTable.h: StringEntry (m_KeyLen)"]}
{"id": "C23", "title": "Vector behaves as a sequence", "statement": "Over any sequence of push_back, pop_back, insert, erase, resize, reserve, assign, swap, copy, clear and indexed reads and writes, eni::Vector answers exactly as a mathematical sequence does, with OutOfRange thrown exactly for out-of-range positions.", "quantifier": "every operation history, every element value", "why_tests_cant": "Unbounded histories; growth points depend on them.", "anchors": ["include/eni/adt/bits/Vector.tcc"]}
{"id": "C24", "title": "Vector never touches memory outside its block", "statement": "Every element read or write of a Vector lies inside the currently allocated block, and size() <= capacity() <= allocated length at all times.", "quantifier": "every operation history", "why_tests_cant": "Out-of-bounds accesses are silent in tests.", "anchors": ["include/eni/adt/bits/Vector.tcc: reserve, insert, erase, emplace_back"]}
{"id": "C25", "title": "Vector::erase can erase the last element", "statement": "erase(i) removes element i for every i < size() and erase(first,last) for every first <= last <= size().", "quantifier": "every vector and position", "why_tests_cant": "Boundary depends on size.", "anchors": ["include/eni/adt/bits/Vector.tcc: erase"]}
{"id": "C26", "title": "Vector::reserve(n) honours any n or throws", "statement": "reserve(n) either makes room for n elements or throws LengthError/bad_alloc, for every size_t n.", "quantifier": "all 2^64 sizes", "why_tests_cant": "Sizes near 2^63 cannot be tested.", "anchors": ["include/eni/adt/bits/Vector.tcc: reserve"]}
{"id": "C27", "title": "ENI operation: arguments are parsed at most once", "statement": "Whatever sequence of getGas() and start() calls is made on an operation object, its parse() is called at most once, before any gas() or run(), and gas()/run() are never called when parse() returned false.", "quantifier": "every sequence of calls, every operation class", "why_tests_cant": "All interleavings of calls.", "anchors": ["lib/eni.cpp: EniBase::check, getGas, start"]}
{"id": "C28", "title": "ENI operation: rejected arguments cost the error gas and give no result", "statement": "If parse() returns false, every getGas() returns 1500 and every start() returns NULL.", "quantifier": "every operation class, every call sequence", "why_tests_cant": "All histories.", "anchors": ["lib/eni.cpp: getGas, start"]}
{"id": "C29", "title": "ENI operation: start() is repeatable", "statement": "Calling start() twice returns the same result text twice.", "quantifier": "every operation class and argument text", "why_tests_cant": "Any operation class.", "anchors": ["lib/eni.cpp: start"]}
{"id": "C30", "title": "Gas query does not influence the result", "statement": "Calling getGas() any number of times before start() does not change what start() returns.", "quantifier": "every operation class whose gas() is const, every number of calls", "why_tests_cant": "Any number of calls.", "anchors": ["lib/eni.cpp: getGas"]}
{"id": "C31", "title": "Malformed argument text ends the process with status 87", "statement": "When the argument text is not JSON, constructing the operation exits with status 87 before any operation code runs; when it is a JSON array it is handed over unchanged.", "quantifier": "every argument text", "why_tests_cant": "All texts.", "anchors": ["lib/eni.cpp: EniBase::EniBase"]}
{"id": "C32", "title": "reverse: returns the reversed string", "statement": "For arguments [s, ...] the reverse operation returns the one-element array holding the bytes of s in reverse order, at gas 10 per byte; applying it to its own output gives s back.", "quantifier": "every string s, any bytes", "why_tests_cant": "All byte strings through escape and unescape.", "anchors": ["examples/eni/reverse/eni_reverse.cpp"]}
{"id": "C33", "title": "Hex encoding of binary data is lossless", "statement": "hex2str(str2hex(x)) = x and str2hex yields 2 lowercase hex digits per byte.", "quantifier": "every byte string", "why_tests_cant": "All byte strings.", "anchors": ["tools/eni_crypto/eni_crypto.cpp: str2hex, hex2str, hex2digit"]}
{"id": "C34", "title": "hex2str accepts exactly hexadecimal text", "statement": "hex2str(h) succeeds exactly when h is an even-length string of hex digits (either case) and then returns the bytes spelled.", "quantifier": "every string", "why_tests_cant": "All strings.", "anchors": ["tools/eni_crypto/eni_crypto.cpp: hex2str, hex2digit"]}
{"id": "C35", "title": "RSA encrypt then decrypt gives the message back", "statement": "Decrypting, with the matching private (public) key, the result of encrypting a message with the public (private) key gives the message back.", "quantifier": "every message, every key size, any OpenSSL key with inverse raw operations", "why_tests_cant": "All messages.", "anchors": ["tools/eni_crypto/eni_crypto.cpp: pub_encrypt, priv_decrypt, priv_encrypt, pub_decrypt"]}
{"id": "C36", "title": "RSA gas depends on the key size only", "statement": "Gas of the RSA operations is ten per byte of the key's modulus and does not depend on the message.", "quantifier": "every argument list with a readable key", "why_tests_cant": "All argument texts.", "anchors": ["tools/eni_crypto/eni_crypto.cpp: RSAEncrypt::gas, RSADecrypt::gas"]}
{"id": "C37", "title": "scrypt: argument validation protects the 80-byte buffer", "statement": "For every argument text, the scrypt operation either rejects it in parse() or writes only inside its 80-byte header buffer and produces exactly 64 lowercase hex digits.", "quantifier": "every argument array", "why_tests_cant": "All strings, all lengths.", "anchors": ["tools/eni_scrypt/eni_scrypt.cpp: parse, run"]}
{"id": "C38", "title": "scrypt: header hex is canonicalised", "statement": "The result does not depend on the letter case of the hex digits, and a shorter header gives the same result as the header extended by zero digits to 160.", "quantifier": "every accepted header", "why_tests_cant": "All headers.", "anchors": ["tools/eni_scrypt/eni_scrypt.cpp: run"]}
{"id": "C39", "title": "scrypt: gas is 10 per header byte", "statement": "Gas is ten times the number of header bytes, rounded up, and is the same before and after run().", "quantifier": "every accepted header", "why_tests_cant": "All headers.", "anchors": ["tools/eni_scrypt/eni_scrypt.cpp: gas, run"]}
{"id": "C40", "title": "scrypt core equals RFC 7914", "statement": "scrypt_1024_1_1_256 of an 80-byte header equals scrypt(P=header, S=header, N=1024, r=1, p=1, dkLen=32) of RFC 7914, for any SHA-256 implementation that is a Merkle-Damgard hash with 64-byte blocks; all scratchpad accesses are in bounds.", "quantifier": "every 80-byte header", "why_tests_cant": "2^640 headers.", "anchors": ["tools/eni_scrypt/scrypt.cpp: scrypt_1024_1_1_256_sp_generic, xor_salsa8"]}
{"id": "C41", "title": "PBKDF2 and HMAC equal their RFCs", "statement": "PBKDF2_SHA256 with iteration count 1 and the HMAC_SHA256 routines equal RFC 2898/8018 PBKDF2 and RFC 2104 HMAC.", "quantifier": "every password, salt and output length", "why_tests_cant": "All inputs; key longer than one block takes another path.", "anchors": ["tools/eni_scrypt/scrypt.cpp: PBKDF2_SHA256, HMAC_SHA256_Init/Update/Final"]}
{"id": "C42", "title": "Byte-order helpers are inverse", "statement": "le32enc/le32dec and be32enc/be32dec are mutually inverse and little/big endian.", "quantifier": "all 2^32 words, all 4-byte strings", "why_tests_cant": "2^32 cases each way.", "anchors": ["tools/eni_scrypt/scrypt.cpp: be32dec, be32enc", "tools/eni_scrypt/scrypt.h: le32dec, le32enc"]}
{"id": "C43", "title": "Substring filter has no false negatives", "statement": "If t occurs in s then StringHash<ES>::may_include(hash(t), hash(s)) is true.", "quantifier": "every pair of strings", "why_tests_cant": "All strings.", "anchors": ["include/eni/adt/StringHasher.h: StringHash<ES>"]}
{"id": "C44", "title": "String hashes are functions of the bytes only and match their recurrences", "statement": "Each StringHash variant computes its documented 32-bit recurrence for every string, without depending on anything but the bytes.", "quantifier": "every byte string", "why_tests_cant": "All strings.", "anchors": ["include/eni/adt/StringHasher.h"]}
{"id": "C45", "title": "CLI arguments and exit codes", "statement": "eni_gas / eni_run take exactly three positional arguments, ignore options before `--`, treat everything after `--` as positional, and return 0 exactly when library, symbol and operation succeeded.", "quantifier": "every argument vector", "why_tests_cant": "All argument vectors.", "anchors": ["tools/eni_cli/optParser.cpp: Opt::parse", "tools/eni_cli/eni_gas.cpp", "tools/eni_cli/eni_run.cpp"]}
{"id": "C46", "title": "JSON example: tokens identify array children", "statement": "parseArray returns one token per top-level element of the array, in order, and arrayGet(tokens, i) designates the i-th element.", "quantifier": "every well-formed token list", "why_tests_cant": "All documents.", "anchors": ["examples/eni/json/eni_json.cpp: arrayTokens, parseArray, arrayGet"]}
{"id": "C47", "title": "JSON example: token encoding is lossless", "statement": "A token's 16 hex characters decode to the range (start, end) of the text it stands for, quotes included, so concatenated tokens can be split again.", "quantifier": "every pair of 32-bit numbers", "why_tests_cant": "2^64 pairs.", "anchors": ["examples/eni/json/eni_json.cpp: encodeToken"]}
{"id": "C48", "title": "JSON example: objectGet returns the token of the key", "statement": "objectGet(objectTokens(doc), key) is the token of the value bound to key and the all-zero token if key is absent.", "quantifier": "every document and key", "why_tests_cant": "All documents.", "anchors": ["examples/eni/json/eni_json.cpp: objectTokens, objectGet"]}
{"id": "C49", "title": "Arguments reach the operation in order and with their types", "statement": "A JSON array text with n elements is seen by parse() as n values in textual order with the types and contents the text spells.", "quantifier": "every argument text", "why_tests_cant": "All texts.", "anchors": ["lib/eni.cpp", "include/eni/json/Parser.h", "include/eni/json/Callbacks.h"]}
{"id": "C50", "title": "Pointer iterators obey random-access laws", "statement": "(it + n) - it = n, ++/-- are inverse, comparison agrees with offset comparison, it[n] = *(it + n).", "quantifier": "all positions and offsets inside one block", "why_tests_cant": "All offsets.", "anchors": ["include/eni/adt/bits/PointerIterator.tcc"]}
{"id": "C51", "title": "JSON values have value semantics", "statement": "Copying, assigning and destroying json::Value objects never shares, double-frees or uses freed storage: a copy keeps its content whatever happens to the original.", "quantifier": "every sequence of copy, assignment, modification and destruction", "why_tests_cant": "Aliasing and double free need particular sequences.", "anchors": ["lib/json/Value.cpp: Value(const Value&), operator=, ~Value"]}
{"id": "C52", "title": "Printing never fails", "statement": "Printing a json::Value built through the API or obtained from the parser terminates with a text: no undefined behaviour, no exception, no endless iteration over an object.", "quantifier": "every buildable value of any depth, every parsed text", "why_tests_cant": "Objects in every state of their hash tables.", "anchors": ["lib/json/Value.cpp: print", "lib/json/Object.cpp: print", "lib/json/Array.cpp: print"]}
{"id": "C53", "title": "Appending to a Vector is amortised constant time", "statement": "Appending n elements to an empty Vector with push_back reallocates the block O(log n) times.", "quantifier": "every number of elements", "why_tests_cant": "Asymptotic claim over all lengths.", "anchors": ["include/eni/adt/bits/Vector.tcc: reserve, push_back"]}
{"id": "C54", "title": "Argument texts that are not arrays are refused", "statement": "When the argument text is JSON but not an array, gas query and run refuse it in a defined way (error gas, NULL or exit).", "quantifier": "every operation class, every JSON text", "why_tests_cant": "All texts and classes.", "anchors": ["lib/eni.cpp", "include/eni/eni.h: check"]}
{"id": "C55", "title": "Missing or wrongly typed arguments are refused", "statement": "The operations shipped with the library answer a missing or wrongly typed argument with the error gas and NULL.", "quantifier": "every JSON array", "why_tests_cant": "All argument arrays.", "anchors": ["examples/eni/reverse/eni_reverse.cpp: parse", "tools/eni_crypto/eni_crypto.cpp: parse", "tools/eni_scrypt/eni_scrypt.cpp: parse", "examples/eni/json/eni_json.cpp: JSON::parse"]}
{"id": "C56", "title": "JSON example: parseString returns the string", "statement": "parseString on the range of a string literal of the document returns the string it denotes, escapes decoded.", "quantifier": "every document and every string literal in it", "why_tests_cant": "All documents.", "anchors": ["examples/eni/json/eni_json.cpp: parseString, JSON::parse"]}
{"id": "C57", "title": "JSON example refuses bad requests", "statement": "A request with an unknown operation, an index outside the array, an offset outside the text or a malformed document is refused: NULL result, error gas.", "quantifier": "every request", "why_tests_cant": "All requests.", "anchors": ["examples/eni/json/eni_json.cpp: JSON::parse, internalParse, arrayGet"]}
{"id": "C58", "title": "Values give their storage back", "statement": "Destroying a json::Value releases all the storage that making it took: after a value is copied and the copy destroyed, the same number of objects is allocated as before.", "quantifier": "every value, in every history of operations on values", "why_tests_cant": "Leaks need every shape of value and are invisible to results.", "anchors": ["lib/json/Value.cpp: Value(const Value&), ~Value", "include/eni/adt/bits/Vector.tcc: ~Vector"]}
{"id": "C59", "title": "Printed text is standard JSON", "statement": "The text printed for a json::Value is a JSON text in the sense of RFC 8259; in particular control characters, quotation marks and backslashes inside strings are escaped.", "quantifier": "every value the API can build", "why_tests_cant": "All values and all bytes in strings.", "anchors": ["lib/json/Value.cpp: print", "lib/json/Object.cpp: print", "lib/json/Array.cpp: print"]}
{"id": "C60", "title": "Answers come from the operation", "statement": "Once an operation has accepted its arguments, every getGas() answers what gas() returns and every start() answers by what run() did: the printed return values when it returned true, NULL when it returned false, its exception when it threw.", "quantifier": "every operation class, every history of calls", "why_tests_cant": "All classes and call sequences.", "anchors": ["include/eni/eni.h: getGas, start"]}
{"id": "C61", "title": "Copies of a StringMap behave like the original", "statement": "A StringMap made from another one by the copy or move constructor answers every later sequence of operations as the original would.", "quantifier": "every history before and after the copy, every key", "why_tests_cant": "Tombstones and sizes differ from history to history.", "anchors": ["include/eni/adt/StringMap.h: StringMap(const StringMap&), StringMap(StringMap&&)", "include/eni/adt/bits/HashTable.tcc: copy constructor"]}
{"id": "C62", "title": "Parsing is memory-safe and builds the value the text spells", "statement": "Constructing a json::Parser on a text, reading its root value and destroying it never has undefined behaviour and lets no exception out; parse() succeeds exactly on the texts of the grammar, the root value then holds what the text spells (the last of equal keys counts) and is undefined otherwise; other json::Values of the program keep their content. Keys shorter than 65536 bytes.", "quantifier": "every text, every reallocation policy of std::vector, every state of the program's values", "why_tests_cant": "Use of freed elements depends on nesting and on when the stack grows.", "anchors": ["include/eni/json/Callbacks.h: on_boolean, on_number, on_string, begin_array, begin_object, end_array, add_to_parent", "include/eni/json/Parser.h: Parser, parse", "lib/json/Value.cpp"]}
{"id": "C63", "title": "Parsing gives its storage back", "statement": "After a json::Parser was constructed on a text and destroyed, as many objects are allocated as before.", "quantifier": "every text of the grammar, every state of the program's values", "why_tests_cant": "Leaks need every shape of text and are invisible to results.", "anchors": ["include/eni/json/Callbacks.h", "lib/json/Value.cpp: ~Value, operator="]}
{"id": "C64", "title": "An operation object owns its arguments and an empty list of return values", "statement": "The constructor of EniBase exits with status 87 exactly when the argument text is not of the grammar; otherwise m_Args holds what the text spells, m_ReturnValues is an empty array, and destruction has no undefined behaviour and gives back all storage exactly when the text has no integer, no array of anything but booleans and no replaced member other than a boolean.", "quantifier": "every argument text with keys shorter than 65536 bytes", "why_tests_cant": "All texts.", "anchors": ["lib/eni.cpp: EniBase::EniBase, ~EniBase", "lib/json/Value.cpp: delegate, operator=, ~Value"]}
{"id": "C65", "title": "A loop over a HashTable may erase and overwrite entries", "statement": "In a loop from begin() to end() the body may erase any keys, look keys up, assign to existing entries and call rehash(): the loop ends, visits every entry that is still present exactly once and no erased one, and leaves the table with exactly the entries the body's calls leave. This holds for tables whose bucket array was never resized by rehash(n); new keys must not be inserted and clear() and rehash(n) not be called in the body.", "quantifier": "every key type, hash function and history of calls, every loop body", "why_tests_cant": "Whether erase moves entries depends on the counters, hence on the whole history.", "anchors": ["include/eni/adt/bits/HashIterator.tcc: EntryIterBase::advance, getEntry", "include/eni/adt/bits/HashTable.tcc: begin, erase", "include/eni/adt/bits/HashBase.tcc: mayRehash"]}
{"id": "C66", "title": "Hash tables give their entries back", "statement": "In a history without assignments between tables, the entries allocated and not freed are exactly those the tables hold, and clearing or destroying the tables gives all of them back. (With assignments the entries a table held when it was assigned to are lost, no others.)", "quantifier": "every history over any number of tables with insert, erase, clear, rehash, copy, move and assignment", "why_tests_cant": "A lost entry is invisible to results; which calls free an entry depends on the history.", "anchors": ["include/eni/adt/bits/HashTable.tcc: insert, erase, clear, HashTable(const HashTable&), operator=, ~HashTable", "include/eni/adt/bits/HashBase.tcc: TableImpl::operator="]}
{"id": "C67", "title": "A hash table survives running out of memory", "statement": "When an allocation fails, a HashTable reports it without undefined behaviour and stays usable: looking up, erasing, overwriting, clearing, size() and rehash() need no memory at all, a failed allocation in the constructor does no harm, and adding a key either succeeds or reports the failure.", "quantifier": "every pattern of failing allocations, every key type, hash function and history of calls (with rehash(n): that no failure leads to a wrong answer)", "why_tests_cant": "Which allocation fails when cannot be enumerated; tests do not make malloc fail.", "anchors": ["include/eni/adt/bits/HashTable.tcc: HashTable(size_type), insert, erase", "include/eni/adt/bits/HashBase.tcc: init, lookupBucketFor, findKey, mayRehash, doRehash"]}
{"id": "C68", "title": "Calls of operations are memory-safe and do not influence each other", "statement": "A program that calls the C functions OP_gas and OP_run of any operations in any order, each with an argument text of the grammar that is an array, gets from every call the answer that the operation's virtual functions give for that call's arguments alone; the interface itself never has undefined behaviour and leaves no json::Value alive. A text outside the grammar ends the process with status 87.", "quantifier": "every sequence of calls, every operation class, every array text with keys shorter than 65536 bytes, every reallocation policy", "why_tests_cant": "Dangling references between calls show up only in certain sequences.", "anchors": ["include/eni/eni.h: ENI_GAS, ENI_RUN, getGas, start, check", "lib/eni.cpp: EniBase::EniBase, ~EniBase", "include/eni/adt/bits/Vector.tcc: emplace_back"]}
{"id": "C69", "title": "Calls of operations give their storage back", "statement": "After a call of OP_gas or OP_run returned, as many objects are allocated as before, apart from the block handed to the caller.", "quantifier": "every sequence of calls, every operation class, every array text", "why_tests_cant": "A leak is invisible to results and depends on the shape of arguments and return values.", "anchors": ["include/eni/eni.h: ENI_GAS, ENI_RUN", "include/eni/adt/bits/Vector.tcc: emplace_back, ~Vector", "lib/json/Value.cpp: ~Value"]}
{"id": "C70", "title": "Parsing needs a fixed amount of call stack", "statement": "There is a number of nested calls of parse_value that is enough for every text. (It is not so: one call more than the text has opening brackets and braces is always enough, a text of the grammar needs exactly as many as it has levels of nesting, and texts of two bytes a level exceed any room.)", "quantifier": "every text, every size of stack", "why_tests_cant": "Tests use shallow texts; no test exhausts the stack.", "anchors": ["include/eni/json/Parser.h: parse_value, parse_object, parse_array"]}
{"id": "C71", "title": "The storage lost by parsing is proportional to the text", "statement": "There is a number k such that constructing a json::Parser on a text of m bytes and destroying it leaves at most k * m more objects allocated than before. (It is not so: nested arrays lose quadratically many; what holds is a bound of 3/2 m^2 + m for every text.)", "quantifier": "every text, of the grammar or not, every reallocation policy of std::vector, every state of the program's values", "why_tests_cant": "A worst case over all texts.", "anchors": ["include/eni/json/Callbacks.h: end_array, add_to_parent", "lib/json/Value.cpp: ~Value, operator=", "include/eni/adt/bits/Vector.tcc: ~Vector"]}
{"id": "C72", "title": "The RSA operations release what they obtain", "statement": "Whatever calls are made of rsa_encrypt and rsa_decrypt, on one object or through the C functions, no RSA key is used after it was freed or freed twice, and after each call no key, BIO or buffer obtained in it is left allocated. (The last part is not so: every call whose first argument is a string loses a BIO, every run a buffer, and a call given a key and no message the key; what is left is determined exactly.)", "quantifier": "every sequence of calls, every behaviour of OpenSSL, every array text", "why_tests_cant": "A leak or a double free is invisible to results; tests destroy each object after one call.", "anchors": ["tools/eni_crypto/eni_crypto.cpp: create_pubkey, create_privkey, destroy, pub_encrypt, priv_decrypt, RSAEncrypt::parse, RSADecrypt::parse", "tools/eni_crypto/eni_crypto.h: ~RSAEncrypt, ~RSADecrypt", "include/eni/eni.h: ENI_GAS, ENI_RUN"]}
{"id": "C73", "title": "to_string writes what the parser reads back", "statement": "eni::to_string of an integer of any ENI type, or of a boolean, is a JSON literal of the documented grammar for that very value (for integers at most 79 bytes), and json::Parser reads the text back as that value (booleans where the parser reads them at all, C05).", "quantifier": "every value of u64, u128, u160, u256, s256 and bool", "why_tests_cant": "2^256 values; the extreme ones lie outside Solidity's range.", "anchors": ["lib/eni_types.cpp: to_string", "include/eni/eni_types.h", "include/eni/json/Parser.h: parse_number, parse_boolean"]}
{"id": "C74", "title": "ENI integers compute as Solidity's", "statement": "A program of +, -, *, / and % on ENI integers of one type gives the result that Solidity's type of the same width gives, as docs/types.rst promises. (So it is for the unsigned types; for Int only while the results stay within the range of int256: beyond it the magnitude is cut, not the two's complement.)", "quantifier": "every expression, every operands within the Solidity type", "why_tests_cant": "Agreement on overflow is a statement about all operands.", "anchors": ["include/eni/eni_types.h", "docs/types.rst"]}
{"id": "C75", "title": "A string entry keeps its key inside its own block", "statement": "Making, copying and reading an entry with a string key touches only the block allocated for it: the key and its NUL end inside the block, the value and the length are not overwritten, key() reads only bytes that were written. Keys shorter than 65536 bytes come back whole, of longer ones the length modulo 65536 bytes.", "quantifier": "every key, every size and layout of the entry whose size plus the key fits 64 bits", "why_tests_cant": "An overrun by one byte need not crash.", "anchors": ["include/eni/adt/StringHashTable.h: Entry<std::string, ValueType>, MallocAllocator::allocate", "include/eni/adt/bits/HashTable.tcc: insert, HashTable(const HashTable&), operator="]}
{"id": "C76", "title": "MallocAllocator::allocate(n) asks for room for n objects", "statement": "allocate(n) asks malloc for n times the size of an object. (Exactly for n up to max_size(); beyond, the product wraps and the request is too small, and no failure is reported.)", "quantifier": "every n and every size of objects", "why_tests_cant": "2^64 counts; a test of the overflow needs huge n.", "anchors": ["include/eni/support/MallocAllocator.h: allocate, max_size"]}
{"id": "C77", "title": "The spelling of an argument text does not matter", "statement": "Two argument texts with the same JSON contents, however spelt (white space, escapes, what follows the value) and wherever they lie in memory, are parsed to one and the same value, and no operation can tell them apart: OP_gas and OP_run give the same answers.", "quantifier": "every two texts of the grammar with equal contents, every operation class, every address", "why_tests_cant": "Infinitely many spellings of each contents.", "anchors": ["include/eni/json/Parser.h: Parser", "include/eni/json/Callbacks.h", "include/eni/eni.h: ENI_GAS, ENI_RUN"]}
{"id": "C78", "title": "Printed objects show each member once, in an order given by the members", "statement": "The text of an object shows each member exactly once, and objects with the same members have the same text. (The first part holds after any history of map operations; the second does not: the order depends on the order of insertion.)", "quantifier": "every history of insertions, assignments and removals", "why_tests_cant": "The order depends on collisions of hash values, which tests with few keys do not meet.", "anchors": ["lib/json/Object.cpp", "include/eni/adt/StringMap.h", "include/eni/adt/bits/HashIterator.tcc"]}
{"id": "C79", "title": "consensus.py passes exactly when repeated runs agree", "statement": "The consensus test ends with status 0 if and only if at least two runs are asked for and, for each test of the description, all runs give the same exit status and output. (So for the tests it loads; a path named twice in the description replaces the earlier one, whose tests are never run.)", "quantifier": "every description, every number of runs, every behaviour of eni_run", "why_tests_cant": "It is a test tool itself: nothing tests it.", "anchors": ["test/consensus/consensus.py: Test, run_tests, main", "docs/tools/consensus.rst", "test/consensus/tests.json.in"]}
{"id": "C80", "title": "consensus.py passes the parameters described", "statement": "The operation under the consensus test receives, as its arguments, exactly the strings that the description asks for: random strings and the contents of files. (Exactly when none of them contains a quotation mark or a backslash.)", "quantifier": "every list of strings", "why_tests_cant": "Files used in tests have no such bytes.", "anchors": ["test/consensus/consensus.py: expand", "docs/tools/consensus.rst", "include/eni/json/Parser.h: parse_string"]}
{"id": "C81", "title": "A command line gives what the operation promises", "statement": "eni_run with a library and the parameters of an operation prints, as a JSON array and a newline, the result of the operation: reverse the reversed string; eni_scrypt the scrypt hash (N=1024, r=1, p=1) of the header, or status 5 for a bad header; what it prints for rsa_encrypt another eni_run decrypts to the message.", "quantifier": "every string, header, message and key pair, every spelling of the parameters, every layout of the processes", "why_tests_cant": "The chain crosses the option parser, the loader, the parser, the operation and the printer; tests take one input each.", "anchors": ["tools/eni_cli/eni_run.cpp", "examples/eni/reverse/eni_reverse.cpp", "tools/eni_scrypt/eni_scrypt.cpp", "tools/eni_crypto/eni_crypto.cpp", "include/eni/eni.h: ENI_RUN"]}
{"id": "C82", "title": "The consensus test passes on random strings", "statement": "For every library, whatever its operations compute from their arguments, the consensus test with random (hexadecimal) strings as parameters passes: the memory layout of the processes, which address space randomisation changes from run to run, does not show.", "quantifier": "every library, every number of runs and tests, every layout of each process", "why_tests_cant": "The runs of a test happen to have some layouts, not all.", "anchors": ["test/consensus/consensus.py", "tools/eni_cli/eni_run.cpp", "include/eni/json/Parser.h: have, parse_boolean", "include/eni/eni.h: ENI_RUN"]}
{"id": "C83", "title": "Adding to a hash table is cheap on average", "statement": "Keeping the table sparse costs a constant number of moved entries per call on average: no history of calls makes rehashing move more than a fixed multiple of its length. (It moves at most 19 + n / 49000 entries per key for n added keys, whatever else is called; but adding n different keys moves at least n * n / 280000 of them, since beyond 196613 buckets the table grows by a constant.)", "quantifier": "every key type, hash function, initial size and history of calls without rehash(n)", "why_tests_cant": "The quadratic part shows only with hundreds of thousands of keys; an average over all histories cannot be sampled.", "anchors": ["include/eni/adt/bits/HashBase.tcc: compute_bucket_size, mayRehash, doRehash", "include/eni/adt/bits/HashTable.tcc: insert, erase"]}
{"id": "C84", "title": "The number of buckets depends only on the size asked for and the most entries held", "statement": "numOfBuckets() of a HashTable is the first size, in the sequence of sizes that starts above the size it was made with, that the largest number of entries held so far fills to at most three quarters; the hash function, the keys, their order and erasures do not matter, and the table never shrinks. A table made without a size has no buckets before its first entry and then starts at 17; clear() of a table with entries makes it such a table.", "quantifier": "every key type, hash function, size below 2^28 and history of at most 2^28 calls without rehash(n)", "why_tests_cant": "The unit tests pin the number after a few histories; collisions and tombstones trigger rehashing in ways that depend on hash function and order.", "anchors": ["include/eni/adt/bits/HashBase.tcc: compute_bucket_size, init, mayRehash, doRehash", "include/eni/adt/bits/HashTable.tcc: insert, erase, clear"]}
{"id": "C85", "title": "The parser names the first thing wrong", "statement": "json::Parser writes nothing to std::cerr about a text it accepts and exactly one message about a text it rejects; which of the eleven messages is given by the first place where the text stops being one of the documented language, so no text has two. (Holds when the literals lie below the text in memory; in other layouts it complains about correct booleans.)", "quantifier": "every text shorter than 2^28 bytes, every layout", "why_tests_cant": "Each message arises in infinitely many texts, at every depth; the tests look at none.", "anchors": ["include/eni/json/Parser.h: parse_error and its callers"]}
{"id": "C86", "title": "A rejected text is unfinished or beyond repair", "statement": "If the parser rejects a text, then either the text can be continued to one that is accepted, by at most as many characters as it has and seven more, or every continuation is rejected with the same message. So a reader that gets its input in pieces can stop at the first final error.", "quantifier": "every text, every continuation, every layout", "why_tests_cant": "Quantifies over all continuations.", "anchors": ["include/eni/json/Parser.h"]}
{"id": "C87", "title": "A failing command says why", "statement": "When eni_run or eni_gas ends with a status other than 0, it has written the reason on standard error. (It has for a wrong number of arguments, the usage text, and for malformed parameters, the message of the parser; a missing library, an unknown operation and refused arguments are silent.)", "quantifier": "every command line, library of operations and layout", "why_tests_cant": "Tests look at the status only.", "anchors": ["tools/eni_cli/eni_run.cpp", "tools/eni_cli/eni_gas.cpp", "tools/eni_cli/optParser.h: help", "lib/eni.cpp", "include/eni/json/Parser.h: parse_error"]}
{"id": "C88", "title": "Different messages have different ciphertexts", "statement": "Two rsa_encrypt calls with the same key and different messages give different results, so that a result determines its message. (Holds for messages without NUL that are no longer than the modulus. In general the results are equal exactly when the messages, continued by NULs, agree on the first RSA_size bytes: a longer message is cut without notice.) The length of the result depends on the key only.", "quantifier": "every key pair, every two messages, every spelling of the arguments and layout", "why_tests_cant": "A collision needs the right pair of messages; tests encrypt one.", "anchors": ["tools/eni_crypto/eni_crypto.cpp: pub_encrypt, priv_encrypt, RSAEncrypt::run"]}
{"id": "C89", "title": "Looking for a key looks at few buckets", "statement": "insert, find and erase of a hash table look at a bounded number of buckets per call on average. (After any history a call looks at no more buckets than the table has. A search for a missing key looks at one bucket for each key of the same hash; so for StringMap there are, for every n, n keys of 6 log n lower case letters whose insertion looks at half of n squared buckets, and a JSON object of these keys makes the parser look at as many.)", "quantifier": "every key type, hash function, initial size and history of calls; for the counterexample every n up to 2^28, in a JSON text up to 2^20", "why_tests_cant": "An average over all histories cannot be sampled, and the bad keys are rare among random ones.", "anchors": ["include/eni/adt/bits/HashBase.tcc: lookupBucketFor, findKey", "include/eni/adt/StringHasher.h: SDBM", "include/eni/adt/StringMap.h", "include/eni/json/Parser.h: parse_object"]}
{"id": "C90", "title": "Printed text is in normal form", "statement": "The text of a value has no white space, sign, zero or escape that it could do without in a fixed way of writing: integers in decimal without leading zeros or a negative zero, in strings exactly the quotation mark and the backslash escaped by a backslash and the characters below 32 written as \\u00XX with capital digits, elements separated by a comma alone. And a text written this way is parsed to a value that prints as that text, byte for byte. (Objects print in a form of their own.)", "quantifier": "every value without objects; every text in normal form below 2^28 bytes, every layout in which the booleans can be read", "why_tests_cant": "Byte-for-byte agreement over all strings and nested arrays; tests compare a few.", "anchors": ["lib/json/Value.cpp: print", "lib/json/Array.cpp: print", "include/eni/json/Parser.h"]}
{"id": "C91", "title": "Gas pays for the work", "statement": "The gas of a call bounds what the call makes the node handle: the answer has at most as many characters as the gas and 68 more, and the text given is bounded by the gas too. (The first part holds for every operation of the repository. The second does not: further arguments are parsed for free, and an empty string costs nothing, though scrypt does all of its work for it.)", "quantifier": "every operation, argument text, layout, key and hash function", "why_tests_cant": "The ratio of answer to gas ranges over all texts; tests look at a few gas values.", "anchors": ["examples/eni/reverse/eni_reverse.cpp: gas", "tools/eni_scrypt/eni_scrypt.cpp: gas", "tools/eni_crypto/eni_crypto.cpp: gas", "examples/eni/json/eni_json.cpp: gas", "include/eni/eni.h: getGas, start"]}
{"id": "C92", "title": "Printed text is not much longer than the text read", "statement": "The value that a text is parsed to prints as a text at most six times as long, and at most three times as long if the text has no control characters. No smaller factors hold.", "quantifier": "every text below 2^28 bytes and layout, objects with repeated keys and keys of any length included", "why_tests_cant": "A bound over all texts; tests look at a few.", "anchors": ["lib/json/Value.cpp: print", "lib/json/Array.cpp: print", "lib/json/Object.cpp: print", "include/eni/json/Parser.h"]}
{"id": "C93", "title": "The parser reads the text without going back", "statement": "Parsing reads the characters of the text at most forty times as often as the text has bytes, and 75 times more, whether the text is accepted or not.", "quantifier": "every text of any length and every layout", "why_tests_cant": "A bound on work over all texts; tests measure a few.", "anchors": ["include/eni/json/Parser.h"]}
{"id": "C94", "title": "Hash table iterators are places in one order of the entries", "statement": "Iterators of hash tables obey the forward-iterator laws: for each table there is one order of its entries, and begin, end, find, copies, ++ before and after, == and !=, reading the entry and writing its value all act as if an iterator were a place in that order. Two iterators are equal exactly when they are at the same entry of the same table or both past an end. Using or advancing an end throws LogicError<InvalidIteratorEmpty> and changes nothing. Writing through an iterator is seen by all iterators at that entry and moves none.", "quantifier": "every key type, hash function, any number of tables with any histories, any program of iterator calls on any number of iterators", "why_tests_cant": "Laws relate iterators made in different ways at different times, over all layouts of the buckets; the tests walk a table once.", "anchors": ["include/eni/adt/HashIterator.h", "include/eni/adt/bits/HashIterator.tcc: EntryIterBase", "include/eni/adt/bits/HashTable.tcc: begin, end, find"]}
{"id": "C95", "title": "A path of keys and indices finds what the text spells there", "statement": "Applying operator[] with keys and indices one after the other to a parsed value finds what the text spells at the end of that path: type, contents of integers, booleans and strings, size of arrays and objects. The first key or index that the text does not have throws OutOfRange. Neither the spelling of the text nor the order of the members of its objects can be told from any path. (A key of something other than an object, or an index of something other than an array, gives the null value, which is the integer 5: C13.)", "quantifier": "every text below 2^28 bytes with keys below 65536 bytes, every layout, every path of keys and C++ ints", "why_tests_cant": "All nestings and all paths; tests look up single keys.", "anchors": ["lib/json/Value.cpp: operator[]", "lib/json/Object.cpp", "lib/json/Array.cpp", "include/eni/adt/StringMap.h: at", "include/eni/json/Parser.h"]}
{"id": "C96", "title": "Printing and copying a value need no more call stack than parsing its text", "statement": "A call stack with room for as many nested calls as a text has levels, which is what parsing the text needs too, is enough to print the parsed value and to copy it. A stack with room for its levels down to the first array is enough to destroy it, because destroying an array destroys none of its elements. With less room the process is killed, unless the text repeats a key (a value that was overwritten takes no room).", "quantifier": "every text below 2^28 bytes with keys below 65536 bytes, every layout, every amount of room", "why_tests_cant": "All nestings and all stack sizes; a test cannot run out of stack and report it.", "anchors": ["lib/json/Value.cpp: copy constructor, operator=, ~Value, print", "lib/json/Array.cpp: print", "lib/json/Object.cpp: print", "include/eni/adt/bits/Vector.tcc: copy constructor, clear", "include/eni/adt/bits/HashTable.tcc: copy constructor, clear"]}
{"id": "C97", "title": "Hash tables give their bucket arrays back", "statement": "No bucket array is freed twice. After any calls, the bucket arrays allocated and not yet freed are those the tables have, and once all tables are destroyed, in whatever order, none is left.", "quantifier": "every key type, hash function and history of calls on any number of tables: construction, insert, erase, find, clear, rehash, copy and move construction and assignment", "why_tests_cant": "Leaks and double frees over all histories; tests do not count allocations.", "anchors": ["include/eni/adt/HashBase.h: ~TableImpl", "include/eni/adt/bits/HashBase.tcc: TableImpl, operator=, init, clear, doRehash", "include/eni/adt/bits/HashTable.tcc: ~HashTable, clear, insert, erase, rehash, operator="]}
{"id": "C98", "title": "Vectors give their storage back", "statement": "No block is freed twice and no two vectors share one. After any calls, the blocks allocated and not given back are those of the vectors alive, and once every vector is destroyed none is left.", "quantifier": "every element type, every history of calls on any number of vectors, every allocator that may refuse requests", "why_tests_cant": "Leaks and double frees over all histories and allocation failures; tests do not count allocations.", "anchors": ["include/eni/adt/bits/Vector.tcc: reserve, emplace_back, swap, clear, ~Vector", "include/eni/adt/Vector.h"]}
{"id": "C99", "title": "JSON example: requests that follow a path reach what the path names", "statement": "A client that asks the JSON example for one element or member after the other, each time with the range answered to the request before, ends with the range of exactly the part of the document its path of keys and indices leads to (of members with the same key the last counts). Every request on the way is answered. parseString with that range gives the string there. A key that is not there is answered by the range 0, 0, which is the range of no part. Different paths end with different ranges: a longer path strictly inside that of its beginning, and two paths that part with ranges that have no byte in common.", "quantifier": "every document, path, spelling of the requests below 2^28 bytes and layout", "why_tests_cant": "All documents and paths, and the interplay of several calls; tests make single requests on top-level containers.", "anchors": ["examples/eni/json/eni_json.cpp: arrayGet, objectGet, parseString, run"]}
{"id": "C100", "title": "A json::Value survives running out of memory", "statement": "When an allocation fails while a program makes, copies, moves, assigns, modifies or destroys json::Values and parts of them, the operation throws std::bad_alloc and changes nothing: every value keeps its content, and the program can go on, or try again later with the same meaning as if the failure had not happened.", "quantifier": "every program, which may react to what it has seen, and every pattern of allocation failures", "why_tests_cant": "Any request of any operation may be the one refused; tests run with enough memory.", "anchors": ["lib/json/Value.cpp: constructors, operator=, ~Value", "include/eni/adt/bits/Vector.tcc: copy constructor, push_back, pop_back, resize, reserve", "include/eni/adt/bits/HashTable.tcc: copy constructor, insert, erase", "include/eni/adt/bits/HashBase.tcc: copy constructor, init, doRehash"]}
{"id": "C101", "title": "The RSA operations survive running out of memory", "statement": "Whatever requests for memory are refused to OpenSSL or to new[], the RSA operations have no undefined behaviour and use or free no key that was freed. Every answer of a C function is the one it gives with enough memory, or 1500 gas, no result, or std::bad_alloc: never a wrong one. Calls made when there is memory again are answered as ever. On one object, a start() for which memory was refused leaves no trace in later answers; an object whose key could not be read refuses every later call. One key is lost for each call of a C function that throws.", "quantifier": "every behaviour of OpenSSL, every pattern of refused requests, every sequence of calls", "why_tests_cant": "Any request of any call may be the one refused; tests run with enough memory.", "anchors": ["tools/eni_crypto/eni_crypto.cpp", "tools/eni_crypto/eni_crypto.h", "include/eni/eni.h: EniBase::getGas, EniBase::start"]}
{"id": "C102", "title": "Making an EniBase survives running out of memory", "statement": "Whatever requests for memory are refused while an EniBase is made, reading the arguments it is given: it is made with the arguments the text denotes and empty results, or std::bad_alloc is thrown and every value made so far is destroyed, or the process exits with status 87 because the text is not of the grammar. It is never made with other arguments, no other exception leaves it, and with no request refused it is made for every text of the grammar.", "quantifier": "every text, every pattern of refused requests, every behaviour of std::vector's growth", "why_tests_cant": "Any request at any depth of any text may be the one refused; tests run with enough memory.", "anchors": ["lib/eni.cpp: EniBase::EniBase", "include/eni/json/Callbacks.h", "include/eni/json/Parser.h: parse", "include/eni/adt/bits/Vector.tcc: copy constructor", "include/eni/adt/bits/HashBase.tcc: init"]}
{"id": "C103", "title": "Calls of an operation survive running out of memory", "statement": "Whatever requests for memory are refused during a call of OP_gas or OP_run: the call answers what it answers with enough memory, or throws for want of memory, or (OP_run) answers the null pointer. It never answers other gas or another text, whole or in part, and never has undefined behaviour of its own. Calls made when there is memory again are answered as ever.", "quantifier": "every operation class, every text for an array, every pattern of refused requests, every sequence of calls", "why_tests_cant": "Any request of the constructor, emplace_back, printing or the result may be the one refused; tests run with enough memory.", "anchors": ["include/eni/eni.h: ENI_GAS, ENI_RUN, EniBase::start, EniBase::getGas", "include/eni/adt/bits/Vector.tcc: emplace_back", "lib/json/Value.cpp: print", "lib/json/Array.cpp: print"]}
{"id": "C104", "title": "Standard JSON is read as standard JSON", "statement": "A text of RFC 8259 without null, fractions and exponents is accepted by json::Parser and read as the value it means there, with strings in UTF-8; a text with them is refused; and nothing else is accepted. Printing a value whose strings are UTF-8 gives a text of RFC 8259 that means it.", "quantifier": "every text and layout, every Unicode string, every nesting", "why_tests_cant": "All texts and Unicode strings, compared with the standard rather than with expected values; the unit tests have a few ASCII strings.", "anchors": ["include/eni/json/Parser.h", "lib/json/Value.cpp: print"]}
{"id": "C105", "title": "The Python client of the JSON tests sends and gets what it means", "statement": "The value a Python program hands to eni_xx of test/jsontests is the value the operation is given, and what the operation answers is the value Python gets back. So eni_xx with the reverse operation returns any string reversed.", "quantifier": "every Python value of None, booleans, integers, Unicode strings, lists and dictionaries; every library", "why_tests_cant": "All values and strings, through json.dumps, the command line, the parser, the printer and json.loads; the tests have a few ASCII strings.", "anchors": ["test/jsontests/__init__.py: eni_xx", "tools/eni_cli/eni_run.cpp", "include/eni/json/Parser.h", "lib/json/Value.cpp: print"]}
{"id": "C106", "title": "eni_gas prints the gas the documentation promises", "statement": "For the prebuilt operations eni_gas prints the gas of the documentation: for reverse the length of the string, for scrypt the number of digits of the header, for RSA the length of the message to encrypt and the bytes of the key to decrypt, and 0 when an error occurs.", "quantifier": "every string, header, key, message, library and layout", "why_tests_cant": "All arguments, and the tool and the operation together; the repository's tests expect other numbers than its documentation.", "anchors": ["docs/guides/implement-eni-operations.rst", "docs/testing-prebuilt-eni-operations.rst", "examples/eni/reverse/eni_reverse.cpp: gas", "tools/eni_scrypt/eni_scrypt.cpp: gas", "tools/eni_crypto/eni_crypto.cpp: gas", "tools/eni_cli/eni_gas.cpp"]}
{"id": "C107", "title": "What one eni_run prints is what the next one takes", "statement": "A script that runs the reverse and scrypt operations one after the other, each time with what eni_run printed the time before as arguments, ends by printing the string the operations make of the first argument together, or exits with status 5 where scrypt is handed a string that is not a header. So reversing an even number of times prints the string again.", "quantifier": "every string, number and order of stages, library and layout of each process", "why_tests_cant": "All compositions of the tool with itself, through printer, shell and parser; the tests run one operation at a time.", "anchors": ["tools/eni_cli/eni_run.cpp: main", "examples/eni/reverse/eni_reverse.cpp", "tools/eni_scrypt/eni_scrypt.cpp", "lib/json/Value.cpp: print", "include/eni/json/Parser.h"]}
{"id": "C108", "title": "The assertions of the JSON tests pass exactly for the documented answers", "statement": "For every ASCII document whose tokens jsmn gives as documented, assertRange on arrayGet passes if and only if the two expected numbers are the bounds of that element. On objectGet it passes if and only if they are the bounds of the last member of that name, or (0, 0) where there is none. assertRanges on parseArray passes if and only if the expected numbers begin the list of the bounds of all elements; so a test that names only some of the first elements passes as well, and one that names too many fails. assertReturns on parseString, expecting what Python reads from the literal, passes if and only if that is an ASCII string.", "quantifier": "every ASCII document, position, key, index and list of expected numbers, every layout of the process", "why_tests_cant": "The tests check nine documents; this says what each of them would establish for any document, through Python's encoder, the command line, the parser, the tokenizer's documented answers, the printer and Python's decoder.", "anchors": ["test/jsontests/__init__.py:20-42", "examples/eni/json/eni_json.cpp", "tools/eni_cli/eni_run.cpp: main"]}
{"id": "C109", "title": "JSON example: a document of another kind is refused", "statement": "parseArray and arrayGet of a range that is not an array, and objectGet of a range that is not an object, are refused like an unknown operation: NULL result, error gas. (They are not: the type of the first token is never looked at. An object asked for as an array is answered with the ranges of its keys and values, a string or number with no ranges, or with undefined behaviour by arrayGet; an array asked for as an object is taken two elements at a time as keys and values, where an element that is not a string counts as the empty key if the parser does not read it together with the characters beside it, and is undefined behaviour if it does; a string or number is an object without members.)", "quantifier": "every document, range, key and index, every layout of the process", "why_tests_cant": "All documents and keys; the tests ask for arrays as arrays and for objects as objects.", "anchors": ["examples/eni/json/eni_json.cpp: arrayTokens", "examples/eni/json/eni_json.cpp: objectTokens", "examples/eni/json/eni_json.cpp: arrayGet"]}
{"id": "C110", "title": "JSON example: whatever the text, the answers are parts of the range asked about", "statement": "For every text, a document or not, for which jsmn reports tokens that are ranges of the text in its order: the answers are about those tokens after the first that stand inside no other of these and begin no later than the first one ends. parseArray answers their ranges, in the order of the text and without overlap, arrayGet the i-th of them (or has undefined behaviour where there is none), and objectGet takes them two by two as keys and values: it answers the last value of that key, or zeros, or has undefined behaviour where a key is read as something that is not a string. So every range answered lies in the range that was asked about. (It need not lie in the first value there: of [1][2] the second array is answered as an element of the first.)", "quantifier": "every text, well formed or not, range, key and index, every tidy list of tokens, every layout of the process", "why_tests_cant": "All texts and token lists; the tests have well-formed documents only.", "anchors": ["examples/eni/json/eni_json.cpp: arrayTokens", "examples/eni/json/eni_json.cpp: objectTokens", "examples/eni/json/eni_json.cpp: encodeToken"]}
{"id": "C111", "title": "Iterators of a Vector tell where to insert and erase", "statement": "insert(it, ..) puts the new elements in front of the one it points to and answers an iterator to the first of them, or throws bad_alloc and leaves the vector and its iterators as they were; erase(first, last) answers an iterator to the element behind the erased ones. Iterators stay good when the capacity is sufficient, and no use of them is defined otherwise. A loop over all elements that assigns to them changes each once; the usual loop if (p(*it)) it = v.erase(it); else ++it; leaves exactly the elements without p; a range of the vector itself can be assigned to it and inserted into it.", "quantifier": "every vector reached by any program, iterator, range, number of elements, predicate and function, every pattern of refused memory", "why_tests_cant": "All positions, sizes, capacities and predicates; the unit test inserts and erases once, at begin().", "anchors": ["include/eni/adt/bits/Vector.tcc: insert", "include/eni/adt/bits/Vector.tcc: erase", "include/eni/adt/bits/Vector.tcc: assign", "include/eni/adt/bits/PointerIterator.tcc: operator="]}
{"id": "C112", "title": "A program that keeps iterators of a Vector is a program about positions in a sequence", "statement": "Take any program that starts with an empty vector, keeps any number of iterators in variables and calls begin, end, ++, --, reading and writing through an iterator, ==, it - begin(), insert, erase, push_back, pop_back, resize, reserve and clear in any order. As long as each call has a meaning for a sequence with positions in it (an iterator is a position, and all positions are lost when more room is made or the vector is cleared), the program runs, every call answers what the sequence answers, and the vector holds the sequence. A call throws bad_alloc only if it needs more room than there is and an allocation failed, and then vector and iterators are as before. Reading or writing through a lost iterator, or moving it, is undefined. So is moving an iterator before the beginning; moving one on and on becomes undefined sooner or later, in a vector of one element as soon as it leaves end().", "quantifier": "every program, element type that can be copied bytewise, element size and pattern of refused memory", "why_tests_cant": "All interleavings of the calls with any number of iterators; a stale iterator usually still reads the old element, so that a test of it passes.", "anchors": ["include/eni/adt/bits/Vector.tcc: insert, erase, reserve, push_back, pop_back, clear", "include/eni/adt/bits/PointerIterator.tcc"]}
{"id": "C113", "title": "A loop over a HashTable may add entries if there is room for them", "statement": "In a loop from begin() to end() over a table from which nothing has been removed the body may insert new keys, overwrite and look up entries and call rehash(), provided the entries never fill more than three quarters of the buckets the table has when the loop begins. Then the loop ends after at most numOfBuckets() rounds, visits every entry there was when it began, visits no key twice and none that is absent, and leaves the table with exactly the entries the calls lead to. New entries may or may not be visited.", "quantifier": "every key and value type, hash function, history and loop body that removes nothing, number of buckets", "why_tests_cant": "All sets of keys, hash functions, orders and loop bodies; where the iterator is when an entry is added decides whether something is visited twice or missed.", "anchors": ["include/eni/adt/bits/HashTable.tcc: insert, begin", "include/eni/adt/bits/HashBase.tcc: mayRehash, lookupBucketFor", "include/eni/adt/bits/HashIterator.tcc: advance"]}
