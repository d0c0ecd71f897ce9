# Formal model of libeni in Rocq (Coq 8.16.1)

## 1. Layout

All files are in `rocq/theories`, built in `rocq` by `coq_makefile -f _CoqProject -o Makefile && make -j4`.

* `Base.v` – outcomes (`Ret` / `Throw` / `UB` / `Diverge` / `Exit`), bytes, 32/64-bit wrap-around.
* `*Spec.v` (also `JsonDenotes.v`, `EniServe.v`) – the vocabulary of the statements: finite maps, sequences,
  the JSON grammar, RFC 8259 text, RFC 7914/2104/8018, value trees.
* `*Model.v` – the code, function by function; each definition cites `/repo` file and lines.
* `*Proof*.v` – invariants and lemmas.
* `*Props.v` – the property theorems, a concrete non-trivial instance (`Example Cnn_example…`) beside each, and
  `Print Assumptions` under each.
* `ToolCases.v`, `TableCases.v` – further instances: a theorem applied to concrete arguments that meet its hypotheses.
* `../properties.jsonl` – the properties in English; `../MANIFEST.json` – property, status, theorems;
  `../seeded/LOG.jsonl` – wrong programs the theorems were tried on (section 5).

## 2. Conventions

* **Bytes** are Coq's `byte` (256 constructors), strings are `list byte`: a theorem "for every string"
  ranges over all byte strings of every length, embedded NULs included.
* **Undefined behaviour is an outcome.** Out-of-bounds access, `% 0`, null dereference, use of a dead
  object, double free, type confusion, signed overflow, a missing `return`: `UB reason`. "Never UB" is then a
  theorem.
* **Infinite loops are an outcome.** A `while(true)` is a fuel-bounded function that returns `Diverge`
  when the fuel runs out. It is proved either that the fuel given is enough, or that when it runs out the loop
  state has repeated and no fuel is enough.
* **Exceptions** are `Throw e`; `exit(87)` is `Exit 87`.
* **Arithmetic** on `unsigned`/`size_t` wraps explicitly (`u16`, `u32`, `u64`); `int` overflow is `UB`.
* **Status.** `proved`: the English statement holds of the model under the side conditions named in the
  manifest note. `partial`: the full statement is false of the code (a `…_refuted` theorem gives a witness, or
  a whole class of witnesses) or not fully proved; `…_partial` theorems state the strongest form proved, and the
  comment above each says what is missing.

## 3. The parts of the code and their models

| Code | Model | Simplifications |
|------|-------|-----------------|
| `adt/HashBase.h`, `bits/HashBase.tcc`, `bits/HashTable.tcc`, `adt/HashIterator.h`, `bits/HashIterator.tcc` | `HashModel.v` (entries by value), `HashIterModel.v` (loops that change the table), `HashFwdModel.v` (programs with several iterators), `HashHeapModel.v` (entries and tables on a heap, pointers, copy, assignment, clear), `HashArrayModel.v` (allocation of the bucket arrays), `HashAllocModel.v` (failing allocations), `HashCostModel.v` (counting moved entries), `HashProbeModel.v` (rounds of the search loops) | `calloc`/`malloc` succeed (except in `HashAllocModel.v`) and `malloc(0)` is not null (glibc); hash functor and key comparison are arbitrary functions, the comparison deciding equality |
| `adt/StringHasher.h` (all hashers) | `HasherModel.v` | strings below 2^32 bytes (the loop index is 32 bits wide) |
| `adt/StringHashTable.h`, `adt/StringMap.h` | `StringMapModel.v`, `EntryModel.v` (the block of one entry) | the entry is a pair of stored key (length cut to 16 bits) and value; `EntryModel.v`: its bytes |
| `adt/Vector.h`, `bits/Vector.tcc` | `VectorModel.v`, `VectorHeapModel.v`, `VecIterModel.v` (calls in `VecIterOps.v`) | element type trivially copyable; which `calloc`/`realloc` calls succeed and whether a block moves is an arbitrary oracle |
| `adt/PointerIterator.h`, `bits/PointerIterator.tcc` | `PtrIterModel.v` | pointers are (block, offset) |
| `json/Parser.h`, `json/Callbacks.h` | `JsonModel.v` (values as trees with real hash tables), `JsonHeapModel.v` (values on a heap), `JsonOomModel.v` (the same when allocation may fail), `JsonDepthModel.v` (finite call stack), `JsonReadModel.v` (counting reads) | addresses compared by `have(const char*)` are the parameter `layout`; texts below 2^28 bytes, so that 32-bit table counters do not wrap; the message of `parse_error` is carried by the exception (`parse_stderr` is what reaches `std::cerr`) |
| `json/Value.h`, `json/Value.cpp`, `json/Notation.*`, `json/Array.*`, `json/Object.*` | `JsonModel.v` (print, access), `JsonPathModel.v` (chains of operator[]), `JsonStackModel.v` (print, copy, destroy on a finite call stack), `ValueModel.v`, `ValueFaultModel.v` (allocation may fail) (storage: construction, copy, move, assignment, destruction) | in `ValueModel.v` object contents are association lists with keys below 65536 bytes (the table itself is `HashModel.v`), iteration order of objects is not observable there |
| `support/MallocAllocator.h` | `EntryModel.v` (size of the request) | the rest is a thin layer over `malloc`/`free` |
| `eni_types.h`, `lib/eni_types.cpp` | `TypesModel.v` | `boost::multiprecision` numbers are sign and magnitude with unchecked arithmetic; `+ - * / %` and decimal printing only |
| `eni.h`, `lib/eni.cpp` | `EniModel.v`, `JsonHeapModel.v` (constructor and destructor storage), `EniHeapModel.v` (whole C calls on a heap; return values are booleans, integers and strings), `EniOomModel.v` (the same when allocation may fail) | the derived class is an arbitrary record of functions with its own state |
| `examples/eni/reverse` | `EniModel.v` | – |
| `tools/eni_crypto` | `CryptoModel.v` | OpenSSL key parsing and raw RSA are parameters with an inverse law stated as hypothesis; `CryptoHeapModel.v`: the BIOs, RSA objects and buffers, with allocation taken to succeed; `CryptoFaultModel.v`: the same with any requests refused; the pub_decrypt and priv_encrypt helpers are not used by the operations and have no ledger |
| `tools/eni_scrypt` | `ScryptModel.v`, `Sha256.v` | SHA-256 is a parameter with 32 bytes of output for C40/C41 (instantiated by `Sha256.v` in the test vector); generic path only, not the SSE2 one |
| `tools/eni_cli` | `CliModel.v` | `dlopen`/`dlsym` and the operations' C functions are parameters; standard error: `CliErrModel.v`, for operations that write nothing there themselves |
| `examples/eni/json` | `JsonExModel.v` | `jsmn` (an absent submodule) is a parameter, assumed where stated to give its documented tokens; the conversion of `s256` to `int` and the addresses met by inner parsers are parameters |
| `test/consensus/consensus.py` | `ConsensusModel.v` | processes, random strings, files and the UTF-8 check are parameters; printing is not modelled |
| `test/jsontests/__init__.py` (`eni_xx`) | `PyClientModel.v` | `json.dumps` and `json.loads` follow Python's documentation and RFC 8259; floating-point numbers are written by a parameter; lone surrogates are not modelled |
| `test/jsontests/__init__.py` (`u32hex2int`, `assertRange`, `assertRanges`) | `PyTestModel.v` | `int(b, 16)` is a parameter; an assertion that fails and an exception are not told apart |

Not modelled: `diagnostic/Exception.h` message texts (`what()`), conversions between the integer types, the shifts, bit operations and
comparisons of `boost::multiprecision` (trusted: `int256_t` is sign-magnitude, 256 bits, unchecked), compilation, threads, out-of-memory outside
`VectorModel.v`, `HashAllocModel.v`, `ValueFaultModel.v`, `JsonOomModel.v`, `EniOomModel.v` and `CryptoFaultModel.v`, the build system and the other test drivers.

Members of the templates that cannot be instantiated, and what stands in for them: `HashTable::count() const`
and `begin(key) const` bind a non-const reference to a bucket of a const table (modelled: the same loop with
the non-const `begin(key)`); `HashIterator::operator*` calls a member that does not exist (modelled:
`operator->`); a `PointerIterator<T>` does not convert to `PointerIterator<const T>`, so ranges are passed as
iterators of const vectors.  `Vector::operator=` from itself runs `std::copy` onto its own range, which the
standard does not allow; the model takes it as the loop of self-assignments the library performs.

## 4. Trusted base

* Coq's kernel (8.16.1), rechecked with `coqchk`.
* `Print Assumptions` answers "Closed under the global context" under every property theorem: no axioms are
  used, neither own ones nor the standard library's. (The axioms `coqchk` lists, `Coq.ssr.ssrunder.Under_rel.*`,
  are in a library file loaded by `lia`'s dependencies; no theorem here uses them.)
* The transcription of the C++ into Gallina as delimited in section 3, including the meaning given to the C++
  constructs (object lifetimes, evaluation order, value categories) in the comments of the models.
* The vocabulary files named in section 1 and the statements in `*Props.v`.
* Hypotheses about the outside world are visible in the theorem statements (OpenSSL inverse law, jsmn tokens,
  loader results, layouts); none is an axiom.

## 5. Wrong programs

`seeded/LOG.jsonl` has one line per attempt: a definition of the model was edited in a scratch copy as a
plausible bug (or as a repair of a known bug), everything downstream was recompiled, each proof that no longer
went through was counted as failed and everything resting on it, as told by `Print Assumptions`, was reported in
`failed`. `tightened` names theorems added or strengthened because the attempt was not noticed.

The other direction is `RepoTests.v`: the unit tests, script tests and JSON tests of `/repo` (`test/unittests`,
`tools/*/test`, `test/t0002` to `t0010`, `test/jsontests`) are transcribed and evaluated on the models, with the
values expected by the project. They test the transcription and support no claim. The tests with 400000 keys are
instances of two general statements there. Left out: `ExceptionTest.cpp` (message texts), the parts of
`RsaTest.cpp` that only use OpenSSL, the test of the shell library, and `test/consensus` (see C79, C80).

## 6. Properties

| Id | Property | Method |
|----|----------|--------|
| C01 | JSON parser is memory safe and terminates | induction on fuel = 2*length+2 over the remaining suffix; reading at the end gives NUL, advancing past it is `UB` |
| C02 | JSON parser accepts exactly the documented grammar | soundness and completeness with respect to an inductive grammar, parametric in the layout |
| C03 | The grammar is unambiguous | induction on derivations |
| C04 | Whole input is consumed | refuted (`[] x` is accepted); the verdict depends only on the consumed prefix |
| C05 | Parsing does not depend on memory layout | refuted for booleans; independence for texts without booleans |
| C06 | Printed strings parse back to the same bytes | induction on the string |
| C07 | Printed integers, booleans and arrays parse back to the same value | induction on the value |
| C08 | Printed objects parse back to an equal object | refuted (keys are not quoted); exact for all objects |
| C09 | Printed results contain no NUL byte | induction on the value |
| C10 | Integers are exact within 256 bits | arithmetic on digit strings |
| C11 | Objects keep the last value given for a key | refinement to the last binding |
| C12 | \u escapes denote the code they spell | refuted above 255 |
| C13 | Value accessors are total on arrays and objects | case analysis; refuted for other types |
| C14 | HashTable behaves as a finite map | invariant (cyclic probe paths, counters) and refinement to a finite map over histories |
| C15 | Hash table probes always terminate | as C14: a never-full table |
| C16 | Load stays bounded | as C14 |
| C17 | Rehashing keeps every entry | as C14, pointers into the entry heap |
| C18 | rehash(n) is safe for every n | refuted: diverges or divides by zero for n <= entries |
| C19 | Iteration visits every entry exactly once | iterator positions enumerate the full buckets |
| C20 | count(key) and chain iteration are exact | refuted: null dereference when the hash is 0, over-count on equal hashes |
| C21 | Copies of a table are independent and equal | separation of entry heaps, frame theorem over histories |
| C22 | StringMap finds what was stored | refinement; refuted for long keys |
| C23 | Vector behaves as a sequence | block model refined to lists over histories |
| C24 | Vector never touches memory outside its block | as C23 |
| C25 | Vector::erase can erase the last element | refuted |
| C26 | Vector::reserve(n) honours any n or throws | refuted for sizes of 2^63 bytes or more |
| C27 | ENI operation: arguments are parsed at most once | induction over call histories with a log of virtual calls |
| C28 | ENI operation: rejected arguments cost the error gas and give no result | as C27 |
| C29 | ENI operation: start() is repeatable | refuted |
| C30 | Gas query does not influence the result | as C27 |
| C31 | Malformed argument text ends the process with status 87 | composition with C02 |
| C32 | reverse: returns the reversed string | grammar and printing theorems |
| C33 | Hex encoding of binary data is lossless | induction |
| C34 | hex2str accepts exactly hexadecimal text | refuted |
| C35 | RSA encrypt then decrypt gives the message back | exact characterisation over OpenSSL as a parameter |
| C36 | RSA gas depends on the key size only | direct |
| C37 | scrypt: argument validation protects the 80-byte buffer | loop invariants |
| C38 | scrypt: header hex is canonicalised | loop invariants |
| C39 | scrypt: gas is 10 per header byte | over histories |
| C40 | scrypt core equals RFC 7914 | refinement to RFC 7914 |
| C41 | PBKDF2 and HMAC equal their RFCs | refinement to RFC 2104 / 8018 |
| C42 | Byte-order helpers are inverse | bit arithmetic |
| C43 | Substring filter has no false negatives | bit fields; refuted from 16 dots on |
| C44 | String hashes are functions of the bytes only and match their recurrences | fold characterisations |
| C45 | CLI arguments and exit codes | induction over argv |
| C46 | JSON example: tokens identify array children | induction over tokens |
| C47 | JSON example: token encoding is lossless | decimal text round trip |
| C48 | JSON example: objectGet returns the token of the key | induction over tokens |
| C49 | Arguments reach the operation in order and with their types | composition of C02 with EniBase |
| C50 | Pointer iterators obey random-access laws | arithmetic; programs over iterators |
| C51 | JSON values have value semantics | simulation of the heap by trees: disjoint ownership footprints |
| C52 | Printing never fails | invariant of buildable and of parsed values |
| C53 | Appending to a Vector is amortised constant time | refuted, exact count; bound per call |
| C54 | Argument texts that are not arrays are refused | refuted |
| C55 | Missing or wrongly typed arguments are refused | refuted |
| C56 | JSON example: parseString returns the string | scanner of the token text |
| C57 | JSON example refuses bad requests | refuted case by case |
| C58 | Values give their storage back | counting allocated blocks along copy and destruction |
| C59 | Printed text is standard JSON | induction against an inductive RFC 8259 grammar |
| C60 | Answers come from the operation | induction over call histories |
| C61 | Copies of a StringMap behave like the original | a copied table is the same table |
| C62 | Parsing is memory-safe and builds the value the text spells | the parser plays the events of the syntax tree; simulation of each callback by trees, storage counted along the way |
| C63 | Parsing gives its storage back | as C62: the exact cost of each event, summed over the text by induction to the function of JsonLossSpec.v; zero exactly for plain texts |
| C64 | An operation object owns its arguments and an empty list of return values | as C62 |
| C65 | A loop over a HashTable may erase and overwrite entries | under the load bounds erase never rehashes, so buckets keep their keys; invariant: keys up to the iterator are seen, keys after it are not |
| C66 | Hash tables give their entries back | each call changes allocated entries and table sizes alike, except assignments; summed along the history |
| C67 | A hash table survives running out of memory | the table with an allocation oracle runs in step with the table without one (equal, or unused where the constructor failed); the first failed allocation is the end of the run |
| C68 | Calls of operations are memory-safe and do not influence each other | the invariant of C64 carried through emplace_back (an assignment from a fresh block), printing and destruction; induction over the calls, each starting from the storage the last one left |
| C69 | Calls of operations give their storage back | same invariant: it counts the objects nothing refers to |
| C70 | Parsing needs a fixed amount of call stack | the fuel of parse_value is the number of calls it may nest; induction on the grammar relation for the exact number, induction on the room for the upper bound |
| C71 | The storage lost by parsing is proportional to the text | the objects held by the values of the parser are at most the callbacks so far, each callback loses at most three times that; the lower bound is the exact cost of C63 evaluated on nested arrays by induction |
| C72 | The RSA operations release what they obtain | the objects are run in step with CryptoModel.v from any ledger of keys, BIOs and buffers; by cases on what the arguments make parse() do, then induction on the calls |
| C73 | to_string writes what the parser reads back | the digits of a magnitude below 2^256 are a number of the grammar by the printing lemmas of C08; the parser theorem of C02 reads them back |
| C74 | ENI integers compute as Solidity's | induction on the expression: the sign-magnitude operations compute the exact result with its magnitude cut, which for unsigned types is the result modulo 2^bits |
| C75 | A string entry keeps its key inside its own block | positions of the two writes against the size asked for; the bytes read are a prefix of the bytes of the first write |
| C76 | MallocAllocator::allocate(n) asks for room for n objects | n * size < 2^64 if and only if n is at most the quotient |
| C77 | The spelling of an argument text does not matter | the parser is determined by the grammar (C02), whose trees determine the value |
| C78 | Printed objects show each member once, in an order given by the members | enumeration of the full buckets (C19) composed with printing; refuted for the order |
| C79 | consensus.py passes exactly when repeated runs agree | loop invariants of the repeat and test loops; association list for the dictionary |
| C80 | consensus.py passes the parameters described | lengths: an escape makes the text longer than its contents |
| C81 | A command line gives what the operation promises | composition of C45 with C32, C37 and C35 |
| C82 | The consensus test passes on random strings | composition of C79, C80 and C77 |
| C83 | Adding to a hash table is cheap on average | potential function (entries and tombstones, and entries beyond the previous growth) for the upper bound; invariant between bucket count and moves for the lower |
| C84 | The number of buckets depends only on the size asked for and the most entries held | invariant: the bucket count is the first sufficient size for the peak so far; per call from the counters of C83 |
| C85 | The parser names the first thing wrong | a grammar of faults beside the grammar of values; the parser refines both; the two exclude each other, by induction on the length |
| C86 | A rejected text is unfinished or beyond repair | induction on the fault: each is either at the end of the text, with an explicit ending, or before a character that no continuation changes |
| C87 | A failing command says why | on top of C85 and the case analysis of C45 |
| C88 | Different messages have different ciphertexts | the padded block, position by position; the raw operation is injective on blocks since it has an inverse; hexadecimal and printing are injective (C33, C06) |
| C89 | Looking for a key looks at few buckets | the probe loops of the model with a round counter, proved equal to the model without it; the path invariant of the table puts every key of the same hash before the first empty bucket; two six-letter words of equal SDBM hash, which is linear, give 2^d keys of one hash |
| C90 | Printed text is in normal form | a grammar of normal texts; induction on the value and on the text; uniqueness of decimal representations by induction from the last digit |
| C91 | Gas pays for the work | the two entry points parse the same arguments, so gas and answer are functions of one operation state; a printed string has at most six characters per byte |
| C92 | Printed text is not much longer than the text read | a bound on the printed length by recursion on the syntax tree; each insertion into the table adds at most the length of its member; induction on the grammar |
| C93 | The parser reads the text without going back | the parser with a count of reads beside each outcome; erasing the count gives the parser; a Hoare-style rule for counts, with the characters consumed paying for the reads |
| C94 | Hash table iterators are places in one order of the entries | an iterator at a full bucket is the number of full buckets before it; simulation over programs of iterator calls |
| C95 | A path of keys and indices finds what the text spells there | induction on the path over the relation between values and contents (JsonDenotes); the order of members by permutations of key-unique lists |
| C96 | Printing and copying a value need no more call stack than parsing its text | fuel as room for nested calls; the exact number on well-formed values by induction, then compared with the levels of the text through the relation between values and contents |
| C97 | Hash tables give their bucket arrays back | every pointer is to an array of its own that is alive, and the arrays without pointer are counted: kept by every call, move assignment adding one |
| C98 | Vectors give their storage back | simulation between the code with addresses and the code without; pointers of different vectors differ and the blocks alive are those pointed to plus one for each emplace_back |
| C99 | JSON example: requests that follow a path reach what the path names | induction on the path; each answer spells one range only, so the next request is about the part reached; children of a part are sorted by position, so paths that part lead to disjoint ranges (induction over both paths) |
| C100 | A json::Value survives running out of memory | every tolerant operation either agrees with C51 or leaves the heap as it was; for the others a refused request is followed to undefined behaviour or to a value whose reading differs |
| C101 | The RSA operations survive running out of memory | on accepted arguments the calls that have all they need are run in step with CryptoModel.v; the other cases by the first request refused |
| C102 | Making an EniBase survives running out of memory | each callback is run in step with JsonHeapModel.v up to the refused request (same storage up to the order of objects and lost ones); an invariant says that what is alive then can be destroyed, which needs that a failed replacement does not change the type |
| C103 | Calls of an operation survive running out of memory | success of each step is the step of EniHeapModel.v, with C102 for the constructor; the stream holds what was written or, with badbit, a beginning of it (invariant over characters); the calls of a sequence by induction, since an exception leaves no variable |
| C104 | Standard JSON is read as standard JSON | one induction over the standard grammar compares the number of bytes read with the number of bytes of the UTF-8: it is never more, and equal only without escapes from 128 on; a second shows that after an unsupported value no text of the grammar continues |
| C105 | The Python client of the JSON tests sends and gets what it means | json.dumps writes a standard text (induction over values, with surrogate pairs), then C104; a printed string is a standard text exactly of the string it is the UTF-8 of; the answer to reverse has fewer bytes than the UTF-8 if a character is not ASCII |
| C106 | eni_gas prints the gas the documentation promises | the tool together with the operation (C81) prints the gas of C39, C36 and the reverse operation; a text is the decimal of one number only |
| C107 | What one eni_run prints is what the next one takes | a printed list of one string is a text without NUL and newlines at the end that every layout reads as the list; induction over the stages with C32 and C40; lower case digits of given bytes are unique |
| C108 | The assertions of the JSON tests pass exactly for the documented answers | one lemma for a call of the client with ASCII arguments, on top of C48 and C56; the printed ranges are words of eight digits, and the slices of the string are these words; a list equals the first elements of another iff it is a prefix |
| C109 | JSON example: a document of another kind is refused | the loop of arrayTokens over the tokens of an object yields those of the keys and of the values (induction over the members); the loop of objectTokens over the tokens of an array pairs its elements (induction over the pairs); the text getkey cuts out for an element that is no string begins with a bracket, comma or blank, so it never denotes a string |
| C110 | JSON example: whatever the text, the answers are parts of the range asked about | the loop of arrayTokens over tokens each of which stands after or inside the earlier ones keeps exactly the outermost ones (induction over the list, for any cursor); a list of disjoint tokens in order is determined by its elements; the loop of objectTokens pairs what the loop of arrayTokens keeps |
| C111 | Iterators of a Vector tell where to insert and erase | a vector with the number of its block: realloc was called exactly if the capacity was too small, and an iterator of another block is dead; the loops by induction over the elements still to be visited, for any elements already passed; a move of cells within a block is a splice of the list they hold |
| C112 | A program that keeps iterators of a Vector is a program about positions in a sequence | invariant between the vector with its iterators and a sequence with positions: iterators of the present block are positions, those of earlier blocks are lost; exact capacity after each call; induction over the program |
| C113 | A loop over a HashTable may add entries if there is room for them | without erasing there are no tombstones, so that mayRehash does nothing up to three quarters and every key stays in its bucket; invariant of the loop: what was visited is in front of the iterator, what is still to be visited behind it |
