# Formal model of EOSIO/abieos in Coq — design

The repository is modelled function by function in `rocq/theories/`; each
property of `properties.jsonl` is a group of theorems `Cnn_*` in a file
`Prop_*.v`. `MANIFEST.json` lists them.

## Conventions

* Coq 8.16.1, standard library only (no mathcomp, std++, Iris, Equations ...).
* C++ integers are `Z` with explicit wrap (`mod 2^n`) wherever the code relies on
  it or suffers from it; bytes are `Z` in `[0,256)`, buffers and strings are
  `list Z`. Floating point numbers are their bit patterns.
* Every operation returns `res A := Ok a | Err e | Undef w`. `Err` is a C++
  exception with its message (the observable error); `Undef` is C++ undefined
  behaviour, a distinct outcome with its cause, never assumed away. Theorems say
  for which inputs `Undef` is possible; the cases found are listed below.
* Signed overflow in the time and asset functions depends on an argument `ov`:
  `Strict` (undefined) or `Wrap` (what the machines do). Theorems which need
  `Wrap` say so.
* Functions templated over a stream are functions over a record of stream
  operations, so that the same code runs on `size_stream`, `fixed_buf_stream`
  and `vector_stream`.
* Recursion and loops are modelled as the code has them: explicit stack machines
  (`bin_to_json`, `json_to_bin`) are step relations (`Machine.v`) with the code's own
  limit of 128; the counters of the code are the measures. Where Coq needs a
  fuel argument which the code does not have, running out is a separate
  `Undef "stack"`/`"fuel"` and a lemma shows that enough fuel exists
  (`TypedBinFuel.v`) or that it does not run out.
* Each definition of the model cites file and lines of /repo, and what is
  simplified. Model files: `X.v`; specification files: `XSpec.v`; proofs:
  `XFacts.v` and others; statements: `Prop_X.v` (theorem, `Print Assumptions`,
  an `Example` showing that the hypotheses are met by a concrete case).
* `_refuted` at the end of a name: the theorem shows by a concrete input that
  a stronger form of the property is false of the code.

## Trusted base

* Coq's kernel (and, in the build, `vm_compute` for closed computations).
* `Print Assumptions` prints `Closed under the global context` for every theorem
  in the manifest: no axioms at all, neither ours nor the standard library's.
  (`vcheck` also lists the `Coq.ssr.ssrunder.Under_rel` parameters: those are
  fields of a module type loaded with `Lia`; no theorem depends on them.)
* That the model says what the C++ says. The citations are there to check this, and
  `TestVectors.v` runs the model on the vectors of the project's own test program
  (`src/test.cpp`): both converters on some 140 of its values in four ABIs, and its 127 expected
  failures; all agree. (Run on all of its keys and signatures too; 7 are kept.) Not
  checked by machine: overload resolution and template instantiation are
  modelled by their result; the C++ standard library (vector, map, string,
  variant, optional) is modelled by its specification.
* The specifications: `TypedSpec`, `TimeSpec`, `RipemdSpec`, `JsonSpec`, `AbiSpec`,
  `TypedJsonSpec`, `AbiDefSpec`, `CapiSpec`, `ShipSpec`, `AddTypeSpec`, `AbiExportSpec`,
  `FpconvSpec`, `ConvertSpec`, `NameToolSpec`, `DecodeIntoSpec`, `CapiPtrSpec`, `TimeArithSpec`, `FuzzerSpec`, `SizeSpec`, `WatchSpec`, `ReloadSpec`, and the definitions in the `Prop_*.v` files.

## What is modelled, by file

| file of /repo | modelled in | left out |
|---|---|---|
| include/eosio/stream.hpp | Stream | the stream types are their observable behaviour (bytes written, room left); pointers are positions |
| to_bin.hpp, from_bin.hpp, varint.hpp, types.hpp, reflection.hpp | Stream, TypedBin, DecodeInto, Varint | iterator categories; overload selection. Decoding is into a fresh object in TypedBin, into any object in DecodeInto (C54) |
| operators.hpp, fixed_bytes.hpp, opaque.hpp, float.hpp, bytes.hpp | FixedBytes, Opaque, AbiScalar | |
| name.hpp, murmur.hpp, chain_conversions.hpp | Name, Asset, Time | |
| symbol.hpp, asset.hpp, time.hpp | Asset, Time, TimeArith | `operator<<`-style printing helpers which call to_string |
| abieos_ripemd160.hpp, crypto.hpp, src/crypto.cpp | Ripemd160, Base58, Keys | SHA-256 of WIF keys is not computed by the code (checksum skipped), nor here |
| to_key.hpp | ToKey | |
| abieos_numeric.hpp | JsonInt | |
| from_json.hpp, to_json.hpp | Json, Utf8, JsonInt, JsonWrite, TypedJson, AbiScalar | commented-out code |
| fpconv.c, powers.h, fpconv.h | Fpconv | |
| rapidjson (not in /repo: external/ is empty) | Json, InPlace, Utf8, JsonWrite | modelled from the published library: the iterative reader (InPlace: in its buffer) with the flags used here, its UTF-8 automaton, the writer's escapes, the pretty writer's layout |
| abi.hpp, src/abi.cpp | Abi, AbiDef, AddType, Reload | |
| src/abieos.hpp | AbiScalar, AbiBin, AbiJson, Watch, Machine, Hex | |
| src/abieos.cpp, abieos.h, check.hpp | Capi, CapiPtr (returned pointers and arguments into the context), CapiWorld (any number of contexts), CapiOom (out of memory) | calls from several threads |
| ship_protocol.hpp | Ship (all 111 types) | |
| convert.hpp, tools/name.cpp, from_string.hpp, for_each_field.hpp | Convert, NameTool (C52, C53); for_each_field by its result | `static_assert`s are the side condition "compiles" |
| src/fuzzer.cpp, src/fuzzer.hpp | `Fuzzer` | header layout of x86-64/arm64 (24 bytes, little endian); abieos_create never null |
| tests, CMake | not modelled | not part of the library |

Outside the model altogether: memory allocation failure (except in the C interface: C66), stack exhaustion of the
machine (recursion depth is counted, not the bytes of a frame), threads (the
library has no shared state besides the context object passed to each call),
`strtod`/`strtof` (argument `fl_parse` of `float_lib`; hypotheses
`float_lib_ok`: results are bit patterns of the right size, and for C51
`strtod_rounds`), the compiler.

## Per property

| id | modelled | how proved |
|----|----------|------------|
| C01,C02 | varuint32/64, varint32 readers and writers byte by byte | induction on the number of 7-bit groups |
| C03,C04 | universe of C++ types (recursive ones through an environment), to_bin/from_bin | nested induction over types, outer induction over depth; enough fuel exists for every value (TypedBinFuel) |
| C05 | the three streams as instances of a stream record | generic code = fold of a write list, for every stream |
| C06-C09, C46 | name parser/printer, murmur hash, length/prefix/suffix | digit-list representation (13 digits base 32/16) |
| C10-C12 | symbol and asset text | digit lists, induction |
| C13 | asset arithmetic with int64/int128 | case analysis, lia/nia |
| C14-C16 | date.h civil algorithms as used, time text | 400-year era sweep lifted by periodicity; digit lemmas |
| C17 | hex/unhex | induction |
| C18,C19 | base58, key text | radix conversion invariants |
| C20-C22 | from_json_int, int_to_json, abieos_numeric | Horner invariants |
| C23,C24 | to_key over the key universe | order embedding by nested induction |
| C25 | to_json(string), UTF-8 validation, reader | induction over UTF-8 sequences |
| C26,C27 | abi.cpp convert/get_type/fill, lookups | invariants on the type table; the code's recursion limit |
| C28, C32, C33 | bin_to_json as a stack machine | machine = structural reader (AbiBinFacts); reader = specification relation `shows`/`form` by nested induction |
| C29-C32 | json_to_bin and the reorderable converter as event machines | machine = structural reader over the document; `reads` relation; grammar of JSON texts |
| C34-C37 | C API as a state machine over call histories | induction over histories |
| C38, C48 | fixed_bytes, EOSIO_COMPARE | word/byte lemmas; order laws |
| C39 | opaque | instances of the typed universe |
| C40 | all ship_protocol types | combinator format `fmt` written independently of the model, compared type by type |
| C41, C42 | typed to_json/from_json, format_json | document relation `tdoc`/`treads`, nested induction; token-level comparison of the two layouts |
| C43 | abi_def in JSON and binary | instance of the typed universe, written out independently |
| C44 | JSON reader | grammar relation -> token list, both directions |
| C45 | varint wrappers | lia |
| C47 | RIPEMD-160 | independent statement of the published algorithm; streaming invariant |
| C49 | abi::add_type | shape of a C++ type vs. table entry; nested induction over types |
| C50 | conversion abi -> abi_def and reloading | canonical names; the reloaded table is a renaming of the old |
| C51 | fpconv (Grisu2) and its tables | rational arithmetic: error bounds of the cached powers (checked for all 87), of the 64x64 product and of the digit loop give an interval inside the rounding interval of the number |
| C52 | convert.hpp | nested induction over type pairs |
| C53 | tools/name.cpp, with std::stoull, std::getline and integer output | grammar of numbers as an inductive spec, equivalence with the parser; then induction over arguments and inputs, with C06/C07 |
| C54 | from_bin.hpp on objects with a value, with the object as left by an exception | one induction over types relating it to the decoder of C03/C04, one for the invariant "object of its type"; histories by induction |
| C55 | the C API with pointers: which object, which generation; arguments are read where the code reads them | simulation of the text-level model (Capi) call by call; effects of each call on the generations; induction over histories |
| C56 | operators of the time types, both overflow modes | int64 result relation; case analysis on overflow; lia |
| C57 | the fuzzing entry point over the C API with pointers (C55) | pieces of the buffer as lists; the calls through the C55 simulation; C34 for the end |
| C58 | from_json.hpp on objects with a value, with the object as left by an exception (`JsonInto`); what strtof/strtod return on a rejected text is an argument (`pf`) | equal to the reader of C41 where that gives a value; relational induction over members and items; longest accepted beginning of a text per built-in type |
| C59 | murmur.hpp (`Name`), the published hash (`MurmurSpec`) | bytes of the value loaded; induction over blocks |
| C60 | bin_to_json (`AbiBin`) against from_bin (`TypedBin`), no new model | induction over the C++ type; both decoders run in step |
| C61 | the three converters (`AbiJson`, `AbiJvalue`, `AbiBin`), no new model | induction over the documents and values of C28 and C31; sizes of the text of every built-in type |
| C62 | `AddType` (`add_run`: the table also after a failure) | induction over the type; types of one name have one depth, so a struct is not its own part |
| C63 | `Watch`: the loops with their callback, on the step functions of `AbiBin`, `AbiJson` | invariants of the watched run: tokens left, bytes written, fields owed |
| C64 | `Reload`: loading into an abi which has types, with the table after each step also when it throws | invariant of histories: every entry is what the union of the definitions says or pending |
| C65 | `CapiWorld`: a numbered family of contexts (unused, live, deleted), each step one call on one of them, arguments may point into any of them; context numbers are not reused (addresses may be), calls are atomic (no threads) | projection of a history to each context: a world run is exactly a family of single-context runs (C53, C55); pointer lifetime lifted from C55 |
| C66 | `CapiOom`: for each call the contexts in which std::bad_alloc can be thrown (inside get_type: the tables between the insertions), then handle_exceptions; not modelled: malloc in rapidjson's parser stack, memory for exception objects | an interrupted lookup leaves what a complete lookup of a shorter text leaves, so the invariant of C35 (the types of a contract are those of its definition after some lookups) holds through histories with failures; what an interrupted lookup added is part of what the complete one adds (`C66_no_more`) |
| C67 | `InPlace`: the pull reader over a mutable buffer: Peek, Take and Put of the in-situ stream with bounds, ParseStringToStream, UTF8::Validate byte by byte (it copies the bytes of a character before it knows whether they fit), IterativeParseNext; the parts that only read are those of `Json` | refinement: the buffer is split in what was written, the gap and what is left to read; one call of the reader agrees with one step of `Json`'s parser and leaves the part before it alone |
| C68 | `JsonPull`: json_token_stream as an object, advanced by IterativeParseNext when a call asks for a token; calls that fail are caught and others follow. Where rapidjson stops inside a syntax error is not followed | a cursor in the list of tokens as specification; the invariant relates the state of the incremental parser with what `Json.parse` says of the rest; the stream functions of `Json`, which all readers of the model use, are shown to be these calls |
| C69 | `StreamMem`: the streams as pointers into a memory (a function from addresses to bytes), 64 bit address arithmetic, operations go on after failures. convert_to_bin and convert_to_key as two passes over a resized vector; `StreamMemJson`: to_json, convert_to_json and format_json likewise, where a text that to_json writes byte by byte is one write. Into a given buffer, a writer template that throws something of its own (a size above 2^32) is not followed | `pieces`: to_bin is, for every stream, the same series of writes; induction over the series with `holds` as invariant |

## Findings (proved of the model)

Behaviour of the code which a user would not expect; each is a theorem.

* C51: `to_json(double)` writes 25 characters into a 24 byte buffer for about half of
  the doubles between -6e23 and -1e23 (`C51_buffer_refuted`).
* C28: an array of 2^31 or more items without contents overflows an int counter
  (`C28_empty_items_refuted`).
* C33: bin_to_json can produce text which is not JSON when an extension field precedes
  other fields (`C33_ext_first_refuted`).
* C31: json_to_bin accepts `{}` for a struct with a missing middle extension; the reorderable
  converter ignores unknown members (`C31_gap...`, `C31_unknown...`).
* C35: a second set_abi for the same contract is ignored; C34: errors leave the
  previous error text of successful calls in place.
* C38: padding bytes of a fixed_bytes from non-zero words; C39: size of an opaque;
  C43: abi_extensions and others are absent in JSON.
* C55: json_to_bin clears its result before it reads the JSON text, so a text at
  `abieos_get_bin_data` is read after its end (`C55_json_in_result_refuted`).
* C56: `block_timestamp::maximum()` is slot 65535, nine hours after the first
  (`C56_block_timestamp_maximum_refuted`); `time_point_sec - time_point` drops the fraction, the other
  order does not (`C56_mixed_difference_refuted`).
* C60: the size of a vector of an arithmetic type may take ten bytes for from_bin, five for bin_to_json, which also drops
  bits beyond the 32nd: each accepts data the other refuses (`C60_block_vectors_refuted`).
* C61: an ABI may define empty structs and repeat field names. Then the output of bin_to_json is not bounded by the input
  (`C61_bin_to_json_size_refuted`, `C61_bin_to_json_items_refuted`), nor that of the reorderable converter
  (`C61_reorderable_size_refuted`): whoever can choose ABI and data can make the program run out of memory.
* C62: a failed add_type of a struct leaves an incomplete struct in the table (as documented); the same call made again
  returns it without an error (`C62_retry_refuted`), and conversions by it drop fields (`C62_retry_reads`).
* C63: json_to_bin_reorderable takes a callback as the other converters do, but json_to_jvalue never calls it: a text of any
  length is parsed before the first call, and converted without any if the type does not mention its parts
  (`C63_reorderable_calls_refuted`).
* C66: handle_exceptions is noexcept and copies what() into a std::string inside its handler: if there is no memory for a text of
  more than 15 bytes the program is terminated (`C66_always_returns_refuted`).
* C67: abieos_set_abi parses a std::string without padding; rapidjson's Validate takes all the bytes a lead byte asks for, so a text
  such as `"` followed by the byte F0 is read two bytes past the NUL, and written there when an escape came before
  (`C67_set_abi_refuted`, `C67_unread_when_it_fails_refuted`). The claims about abieos_set_abi made elsewhere are about reading the
  text as a sequence of characters (`Json`) and so presuppose a text which is UTF-8 or one that is followed by two more bytes.
  abieos_json_to_bin appends three NULs, which is enough (`C67_json_to_bin`).
* C69: fixed_buf_stream::write tests `pos + sz <= end`; with a size that reaches past the end of the address space it writes outside of the buffer
  (`C69_write_inside_refuted`). No caller in the code passes such a size.
* C68: after `true x` was refused, the same json_token_stream returns true and says that the text is at its end (`C68_error_is_final_refuted`).
* C64: convert(def, abi) on an abi which has types gives no guarantee when it throws: the types declared before the fault stay
  in the table unresolved, get_type returns them and converting by them dereferences a null pointer, and the corrected
  definition is refused as redefined (`C64_rollback_refuted`); a text looked up before blocks a declaration of that name
  (`C64_lookups_harmless_refuted`). The C API is not affected: it loads into a fresh abi.
* C59: the hash of strings which are not names ignores the first byte of every block of eight, so "Alice and Bob"
  and "Blice and Bob" are the same name (`C59_collision_refuted`); it is not MurmurHash64A (`C59_published_refuted`).
* C10: symbol codes do not sort alphabetically; `symbol_code::suffix` is the suffix of a name with that
  value (`C10_alphabetical_order_refuted`, `C10_suffix_refuted`).
* C40: unknown transaction status and unbounded trace nesting.
* C11: INT64_MIN cannot be printed; C19: WIF checksums are not checked.
* C41: an engaged optional holding an empty one does not survive JSON; repeated keys append.
* C50: a variant alternative named through an alias changes its tag on export and reload.
* C52: elements a vector held before the conversion keep their unmatched members, so the result
  depends on the old value; variants do not convert to variants; "widening" and "narrowing" are only
  checked where members are missing; `serialize_as` is used by from_bin but not by to_bin
  (`C52_stale_refuted`, `C52_variants_refuted`, `C52_kinds_refuted`, `C52_serialize_as_refuted`).
* C53: an empty argument reads past the end of a string_view; `-1` and leading zeros are accepted
  by num2name with a meaning nobody wants (`C53_empty_argument_refuted`, `C53_unsigned_refuted`).
* C54: decoding into a used list appends, into a used map keeps old entries (`C54_stale_refuted`); five
  bytes allocate a vector of 2^32-1 strings before the error (`C54_allocation_refuted`).
* C58: a failed from_json leaves the part read so far, so that trying again gives a vector its first
  elements twice (`C58_unchanged_refuted`).

## Tests of the theorems

`seeded/LOG.jsonl`: one line per wrong program tried (edit of a model
definition, rebuild, failing theorems). An edit for which no theorem in the
manifest failed led to a tightened theorem (`theorems_tightened`) or is
explained in `note` (equivalent program).
