{"id": "C01", "title": "varuint32/varint32/varuint64 round trip", "statement": "Writing any 32-bit unsigned value as a varuint32 and reading it back from a buffer that starts with those bytes returns the same value and leaves exactly the bytes that followed; the same holds for the signed varint32, and for varuint32 values read with the 64-bit reader. The encoding has 1 to 5 bytes and no shorter byte string decodes to the value.", "quantifier": "every 32-bit value and every byte string following it in the buffer", "why_tests_cant": "2^32 values times unbounded suffixes", "anchors": ["include/eosio/to_bin.hpp: varuint32_to_bin, to_bin(varint32)", "include/eosio/from_bin.hpp: varuint32_from_bin, varuint64_from_bin, varint32_from_bin"]}
{"id": "C02", "title": "varuint readers are total and bounded", "statement": "On every buffer the varuint32 reader either returns a value below 2^32 after consuming 1 to 5 bytes from the front of the buffer, or reports overrun exactly when the buffer ends inside the number, or reports an invalid varuint encoding exactly when five bytes all have the continuation bit set. It never accepts by reading outside the buffer. Different byte strings may decode to the same value (non canonical encodings are accepted).", "quantifier": "every byte buffer", "why_tests_cant": "the property speaks of all malformed buffers", "anchors": ["include/eosio/from_bin.hpp: varuint32_from_bin, varuint64_from_bin", "include/eosio/stream.hpp: input_stream"]}
{"id": "C03", "title": "Native binary round trip", "statement": "For every C++ type built from the supported ones (fixed width integers, bool, varints, strings, byte vectors, vectors, deques, lists, sets, maps, fixed arrays, optionals, variants, tuples, reflected structs with or without bases) and every value of it, from_bin applied to the to_bin output followed by any bytes yields an equal value and leaves exactly those bytes.", "quantifier": "every type of the supported universe, every value, every trailing byte string", "why_tests_cant": "types nest without bound and values are unbounded", "anchors": ["include/eosio/to_bin.hpp: to_bin, to_bin_sequence", "include/eosio/from_bin.hpp: from_bin"]}
{"id": "C04", "title": "Native binary decoding stays inside the buffer", "statement": "For every type and every buffer, decoding either reports one of the documented stream errors or returns a well formed value and the unread rest is a suffix of the buffer; nothing outside the buffer is ever read. Undefined behaviour is possible only in three ways: a bool (or the flag of an optional) whose byte is not 0 or 1, a NaN as a key of a std::set or std::map, and exhaustion of the stack by a recursive type; so types without bools, optionals, floating point keys and recursion have none.", "quantifier": "every type, every buffer (including hostile length prefixes)", "why_tests_cant": "hostile inputs are unbounded", "anchors": ["include/eosio/from_bin.hpp: from_bin, from_bin_sequence", "include/eosio/stream.hpp: input_stream::check_available"]}
{"id": "C05", "title": "Two pass conversion: measured size equals written size", "statement": "convert_to_bin (and the key and JSON conversions built the same way) first measures the output and then writes into a buffer of exactly that size: for every value the second pass neither overruns nor underruns the buffer and the result equals the bytes the streaming writer produces.", "quantifier": "every type and value, every sequence of writes", "why_tests_cant": "a mismatch would only show for particular values", "anchors": ["include/eosio/to_bin.hpp: convert_to_bin", "include/eosio/to_key.hpp: convert_to_key", "include/eosio/to_json.hpp: convert_to_json", "include/eosio/stream.hpp: size_stream, fixed_buf_stream"]}
{"id": "C06", "title": "name value -> text -> value", "statement": "Every 64-bit name value prints to a text of at most 13 characters from [.1-5a-z] not ending in a dot, and both the lenient and the strict text parser map that text back to the same value; so distinct values have distinct texts. A NUL-terminated text in memory gives the same value as the text before its NUL.", "quantifier": "all 2^64 name values; whatever follows the NUL", "why_tests_cant": "2^64 values", "anchors": ["include/eosio/name.hpp: name::to_string", "include/eosio/chain_conversions.hpp: name_to_string, string_to_name, string_to_name_strict, try_string_to_name_strict"]}
{"id": "C07", "title": "Strict name parser accepts exactly the valid names", "statement": "The strict parser accepts a text iff it has at most 13 characters, each from [.1-5a-z], the thirteenth (if present) from [.1-5a-j]; it then returns a value whose printed form is the text without trailing dots. Otherwise it reports, respectively, invalid character, invalid 13th character or too long. The lenient parser is total, agrees with the strict one on accepted texts.", "quantifier": "every byte string", "why_tests_cant": "unbounded strings over 256 symbols", "anchors": ["include/eosio/chain_conversions.hpp: char_to_name_digit_strict, try_string_to_name_strict, string_to_name"]}
{"id": "C08", "title": "Name order is text order", "statement": "For all names a and b, a<b as 64-bit integers iff the text of a is lexicographically before the text of b, with '.' < '1'..'5' < 'a'..'z' (shorter prefix first).", "quantifier": "all pairs of 64-bit values", "why_tests_cant": "2^128 pairs", "anchors": ["include/eosio/name.hpp: operator<", "include/eosio/chain_conversions.hpp: name_to_string"]}
{"id": "C09", "title": "JSON names never fail and valid names are exact", "statement": "Reading a name from a JSON string never fails: a valid name text gives its strict value, any other text gives a deterministic 64-bit hash of the text.", "quantifier": "every byte string", "why_tests_cant": "unbounded strings", "anchors": ["include/eosio/name.hpp: from_json", "include/eosio/chain_conversions.hpp: hash_name", "include/eosio/murmur.hpp: murmur64"]}
{"id": "C10", "title": "Symbol code and symbol text round trip", "statement": "Every symbol code made of 1..7 letters A-Z prints as exactly those letters and parses back to the same value, and every (precision, code) symbol prints as precision,CODE and parses back, for every precision 0..255. The text parser accepts exactly: optional leading spaces, 1..7 letters A-Z, end of text. is_valid() is true exactly for well formed codes among values below 2^56.", "quantifier": "all symbol values, all strings", "why_tests_cant": "8 billion codes times precisions, all strings", "anchors": ["include/eosio/chain_conversions.hpp: symbol_code_to_string, string_to_symbol_code, symbol_to_string, string_to_symbol", "include/eosio/symbol.hpp: symbol_code::is_valid"]}
{"id": "C11", "title": "Asset text round trip", "statement": "For every amount other than INT64_MIN, every precision 0..255 and every valid symbol code, printing an asset and parsing the text gives back the same amount, precision and code.", "quantifier": "all (amount, precision, code)", "why_tests_cant": "2^64*256*8e9 combinations", "anchors": ["include/eosio/chain_conversions.hpp: asset_to_string, string_to_asset"]}
{"id": "C12", "title": "Asset parser computes the written number", "statement": "When the parser accepts a text whose digits denote a number (without the point) below 2^63 and with at most 255 fraction digits, the amount is exactly that number with the sign and the precision is exactly the number of fraction digits; outside this range the value silently wraps (amount modulo 2^64, precision modulo 256).", "quantifier": "every string", "why_tests_cant": "unbounded digit strings", "anchors": ["include/eosio/chain_conversions.hpp: string_to_asset"]}
{"id": "C13", "title": "Asset arithmetic is exact or refuses", "statement": "Addition, subtraction, multiplication by an integer and division by an integer on assets either return the exact mathematical result in the range (-2^62, 2^62) with the same symbol or raise an error; the unary minus of every amount but -2^63 is exact; a failing += or -= leaves the old operand or the amount out of range, never another one; combining or comparing assets of different symbols (extended assets: contracts) always raises.", "quantifier": "all pairs of assets, all integers", "why_tests_cant": "2^128 operand pairs", "anchors": ["include/eosio/asset.hpp: operator+=, operator-=, operator*=, operator/=, operator/, comparison operators"]}
{"id": "C14", "title": "Calendar correctness", "statement": "Printing a time gives the proleptic Gregorian date: day number 0 is 1970-01-01 and each following day prints the next calendar day (month lengths, leap years); parsing a date gives back its day number.", "quantifier": "all days for which the type has values (and all integers for the calendar core)", "why_tests_cant": "the Gregorian rule must hold for every day", "anchors": ["include/eosio/chain_conversions.hpp: microseconds_to_str, string_to_utc_seconds", "include/eosio/time.hpp"]}
{"id": "C15", "title": "Time text round trip", "statement": "time_point: every non negative millisecond multiple up to the year 2106 prints and parses back to itself. time_point_sec: every 32-bit second count. block_timestamp: every 32-bit slot. (Signed overflow policy stated explicitly.)", "quantifier": "all values", "why_tests_cant": "2^32 and more values", "anchors": ["include/eosio/chain_conversions.hpp: microseconds_to_str, string_to_utc_microseconds, string_to_utc_seconds", "include/eosio/time.hpp: time_point, time_point_sec, block_timestamp"]}
{"id": "C16", "title": "block_timestamp conversion", "statement": "Converting a slot to time_point and back gives the same slot for every 32-bit slot; converting a time to a slot rounds down to the half second (times from 2000-01-01); next() is the following slot.", "quantifier": "all slots, all times", "why_tests_cant": "2^32 slots, 2^63 times", "anchors": ["include/eosio/time.hpp: block_timestamp"]}
{"id": "C17", "title": "Hex round trip", "statement": "unhex(hex(b)) = b for every byte string; hex prints 2 upper case digits per byte; unhex accepts exactly strings of hex digits of even length in either case, and reports odd length / invalid digit otherwise.", "quantifier": "every byte string, every text", "why_tests_cant": "unbounded strings", "anchors": ["include/eosio/stream.hpp / to_json.hpp: to_json_hex", "include/eosio/from_json.hpp: unhex, from_json_hex"]}
{"id": "C18", "title": "Base58 and key text round trip", "statement": "For every byte string, encoding to base58 and decoding with the same size returns the bytes; every public key, private key and signature of each supported kind prints to a text which parses back to the same key.", "quantifier": "every fixed size byte string and every key", "why_tests_cant": "2^264 keys", "anchors": ["src/crypto.cpp: binary_to_base58, base58_to_binary, key_to_string, string_to_key, public_key_to_string, public_key_from_string, ..."]}
{"id": "C19", "title": "Key text validation", "statement": "A key text is accepted only if its prefix is one of the documented ones and the last four decoded bytes are the first four bytes of RIPEMD160 of the key bytes followed by the kind suffix. (The legacy WIF private key does not check its checksum, and the NUL byte is accepted as a base58 digit.)", "quantifier": "every byte string", "why_tests_cant": "all malformed texts", "anchors": ["src/crypto.cpp: string_to_key, base58_to_binary, create_base58_map"]}
{"id": "C20", "title": "JSON integer parsing is exact", "statement": "For each integer type (8 to 128 bits, signed or unsigned) a JSON number or string is accepted iff it is an optional minus sign (signed only) followed by at least one decimal digit and its value is in the range of the type; the result is that value.", "quantifier": "every string and integer type", "why_tests_cant": "unbounded strings", "anchors": ["include/eosio/from_json.hpp: from_json_int", "include/eosio/abieos_numeric.hpp: decimal_to_binary"]}
{"id": "C21", "title": "Integer printing is exact and within its buffer", "statement": "Every integer of every supported width prints to its decimal notation, quoted exactly when wider than 32 bits; the fixed buffer used is never overflowed; parsing the text gives the same integer.", "quantifier": "every integer of every width", "why_tests_cant": "2^128 values", "anchors": ["include/eosio/to_json.hpp: int_to_json", "include/eosio/stream.hpp: small_buffer"]}
{"id": "C22", "title": "128-bit decimal conversion", "statement": "The byte-array decimal conversions are inverse: binary_to_decimal prints the exact value of an n byte little endian number (and the signed variants two's complement), decimal_to_binary reads exactly the values which fit.", "quantifier": "every n and every n-byte number", "why_tests_cant": "2^128 values and beyond", "anchors": ["include/eosio/abieos_numeric.hpp"]}
{"id": "C23", "title": "Key encoding preserves order", "statement": "For every type in the key universe and every two values a,b: the bytes of key(a) are lexicographically smaller than those of key(b) iff a<b in the type's order (integers, bool, floats with -0=0, strings, vectors, optionals, variants, tuples, structs).", "quantifier": "every type, every pair of values", "why_tests_cant": "pairs of unbounded values", "anchors": ["include/eosio/to_key.hpp"]}
{"id": "C24", "title": "Key encoding is prefix free and injective", "statement": "No key is a proper prefix of the key of another value of the same type and distinct values have distinct keys, so concatenated keys compare field by field.", "quantifier": "every type, every pair of values", "why_tests_cant": "pairs of unbounded values", "anchors": ["include/eosio/to_key.hpp"]}
{"id": "C25", "title": "JSON string output is always valid JSON", "statement": "Whatever bytes a string holds, the written JSON string is printable, is well formed UTF-8, contains no unescaped quote, backslash or control character, and for well formed UTF-8 contents a JSON reader gets the same contents back.", "quantifier": "every byte string", "why_tests_cant": "unbounded strings", "anchors": ["include/eosio/to_json.hpp: to_json(string_view)"]}
{"id": "C26", "title": "ABI loading resolves everything or reports an error", "statement": "Loading an ABI definition always terminates, and either reports an ABI error or yields a type table in which every struct field, base, optional, array, extension and variant alternative refers to a defined non-alias type of the table; nothing still refers to the input definition. A lookup by text finds exactly the texts which have a meaning, and its error names the fault of the text.", "quantifier": "every ABI definition (cyclic, self referencing, misspelt, deep)", "why_tests_cant": "cyclic definitions are unbounded", "anchors": ["src/abi.cpp: convert, get_type, fill", "include/eosio/abi.hpp"]}
{"id": "C27", "title": "ABI loading rejects ill formed definitions", "statement": "Redefinition of a name, an empty name, an unknown type, an extension behind a typedef, a non struct base, forbidden nesting of optional/array/extension and cyclic aliases or bases are errors; a definition with none of these faults whose alias and inheritance chains stay within the depth limit of 32 is loaded. (Whether a longer chain is refused depends on the names: loading follows the alphabetical order.) The error which is reported names a fault the definition has (an empty or repeated name; a text mentioned by an alias, a struct, its bases or a variant which leads to an unknown type, a forbidden nesting, an alias of an extension; a base which is no struct; a chain as long as the limit), and a definition which has a meaning can only be refused for the length of its chains.", "quantifier": "every ABI definition", "why_tests_cant": "all malformed definitions", "anchors": ["src/abi.cpp: convert, get_type, fill"]}
{"id": "C28", "title": "ABI binary -> JSON", "statement": "For every loaded ABI, every type and every value of that type, decoding the value's binary form produces the documented JSON rendering and consumes exactly the value's bytes; for every buffer the decoder either reports an error or the consumed prefix is a binary form of the value printed.", "quantifier": "every ABI, type, value and buffer", "why_tests_cant": "nested unbounded values", "anchors": ["src/abieos.hpp: bin_to_json", "src/abieos.cpp"]}
{"id": "C29", "title": "ABI JSON -> binary", "statement": "For every loaded ABI, type and value, converting any JSON text of its JSON form to binary gives the value's binary form, with both the ordered and the reorderable converter; hence bin->json->bin is the identity on canonical binary. Excluded are exactly those built-in values whose text does not determine them (times between milliseconds or after 2106, invalid symbols, amount -2^63, non UTF-8 strings, floats the C library does not read back).", "quantifier": "every ABI, type and value", "why_tests_cant": "nested unbounded values", "anchors": ["src/abieos.hpp: json_to_bin (both)"]}
{"id": "C30", "title": "Reorderable converter ignores key order", "statement": "The reorderable converter gives the same bytes for any order of the keys of any object.", "quantifier": "every ABI, type, value and permutation of keys at every level", "why_tests_cant": "permutations", "anchors": ["src/abieos.hpp: json_to_jvalue, json_to_bin(jvalue)"]}
{"id": "C31", "title": "What JSON the converters accept", "statement": "The ordered converter accepts exactly the JSON documents whose objects consist of the first fields of their struct in the order of the definition, where only trailing extension fields may be missing; in particular it rejects a document in which any object lacks a non extension field or has an unknown member. The reorderable converter finds fields by name, rejects a document in which any object lacks a non extension field, and ignores unknown members. (Refuted: with an extension field in front of a required field the ordered converter accepts documents without the required field.)", "quantifier": "every ABI, type and JSON document", "why_tests_cant": "all malformed documents", "anchors": ["src/abieos.hpp: json_to_bin"]}
{"id": "C32", "title": "Bounded nesting", "statement": "Conversions in both directions come to an end for every input and every type, recursive ones included. bin_to_json and the ordered json_to_bin use at most 128 (while going on) stack entries and report the recursion limit beyond; the reorderable converter refuses documents nested more than 128 deep and so uses at most 128 entries.", "quantifier": "every ABI (recursive included), every input", "why_tests_cant": "depth unbounded", "anchors": ["src/abieos.hpp: max_stack_size"]}
{"id": "C33", "title": "bin_to_json output is well formed JSON", "statement": "Every successful bin_to_json result is a single well formed JSON document.", "quantifier": "every ABI, type and buffer", "why_tests_cant": "nested unbounded values", "anchors": ["src/abieos.hpp: bin_to_json"]}
{"id": "C34", "title": "C API: null contexts and failing calls are safe", "statement": "Every C API function called with a null context returns its documented failure value and does nothing; for every history and all arguments a call comes back with one determined result; every call that reports failure leaves all uses of all loaded ABIs unchanged and leaves a non empty text readable with abieos_get_error (but a successful call does not clear the text).", "quantifier": "every sequence of calls on a context, all arguments", "why_tests_cant": "the state is the whole call history; tests try a few sequences", "anchors": ["src/abieos.cpp", "include/eosio/abieos.h"]}
{"id": "C35", "title": "C API: loaded ABIs persist and are independent", "statement": "After any history, the outcome of every call which uses a contract (both JSON to binary conversions, binary and hex to JSON, action and table lookups) depends only on the definition that was first loaded successfully for that contract - in whichever of the three formats - and not on other contracts, failed loads, or types looked up before; a second set_abi for the same contract is ignored although it reports success.", "quantifier": "every call history", "why_tests_cant": "histories are unbounded and the internal tables grow with every lookup", "anchors": ["src/abieos.cpp: abieos_set_abi, abieos_set_abi_bin, abieos_set_abi_hex"]}
{"id": "C36", "title": "C API: binary data is consumed completely", "statement": "abieos_bin_to_json and abieos_hex_to_json succeed only when the whole input is one encoded value; leftover bytes are reported as an error.", "quantifier": "every ABI, type and buffer", "why_tests_cant": "all buffers", "anchors": ["src/abieos.cpp: abieos_bin_to_json, abieos_hex_to_json"]}
{"id": "C37", "title": "C API: results read back", "statement": "After a successful json_to_bin the binary data, size and hex returned by the getters all denote the same converted bytes, until the next conversion.", "quantifier": "every call history", "why_tests_cant": "histories", "anchors": ["src/abieos.cpp: abieos_get_bin_size, abieos_get_bin_data, abieos_get_bin_hex"]}
{"id": "C38", "title": "Fixed size bytes", "statement": "A fixed_bytes object of any size and word type stands for its bytes, highest byte of each word first: construction from bytes or words of any unsigned type and extraction to any unsigned type keep the bytes (missing ones are zero); == and < are equality and lexicographic order of the bytes (if unused bytes of the last word are zero); binary form, sortable key and JSON form are the bytes and 2*size hex digits, and are read back; shorter, longer or non hex texts are refused.", "quantifier": "every size, every word type, every contents", "why_tests_cant": "2^(8n) contents for every size, 25 combinations of word types", "anchors": ["include/eosio/fixed_bytes.hpp: fixed_bytes, convert_array, read_be, write_be, extract_as_word_array, from_bin, to_bin, to_key, from_json, to_json"]}
{"id": "C39", "title": "Opaque values", "statement": "A value stored as opaque and unpacked gives the same value; its binary form round trips; an opaque holding too few bytes is never unpacked; extra bytes stay and are visible with empty(); reading an opaque vector with unpack_size and unpack_next gives the elements unpack gives.", "quantifier": "every value and buffer", "why_tests_cant": "unbounded values, all buffers", "anchors": ["include/eosio/opaque.hpp"]}
{"id": "C40", "title": "State history protocol messages round trip", "statement": "Every request, result, block, transaction trace, action trace, table delta and table row of the state history protocol is encoded in the protocol's wire format (members in order, bases first, little endian, LEB128 lengths and indices), decodes to itself whatever follows, and its encoding determines where it ends; decoding any bytes as a message is total; the JSON form is the document with the protocol's member and type names; transaction status text and value are inverse and other statuses are refused; the sealed traces and deltas unpack to what was packed; nested traces make the decoder recurse without bound.", "quantifier": "every message and row of every type in the header, every nesting depth, every byte string", "why_tests_cant": "deeply nested unbounded messages", "anchors": ["include/eosio/ship_protocol.hpp", "include/eosio/opaque.hpp", "include/eosio/reflection.hpp"]}
{"id": "C41", "title": "Native JSON round trip", "statement": "For every supported C++ type (scalars, vectors, optionals, variants, reflected structs, nested without bound), convert_to_json writes a JSON text of the value's document, from_json accepts exactly the JSON documents of the type (members found by name in any order, unknown members ignored, missing ones keep the object's content) and leaves the reader at the end of the text, never has undefined behaviour on any text, and from_json(to_json(v)) = v for every value whose scalars are read back and which has no empty optional inside an optional.", "quantifier": "every type and value", "why_tests_cant": "nested unbounded values", "anchors": ["include/eosio/to_json.hpp", "include/eosio/from_json.hpp"]}
{"id": "C42", "title": "Pretty printing preserves the document", "statement": "format_json fails exactly when convert_to_json does and with the same error; otherwise both write JSON texts of the same document, with the same token sequence, and stripping the white space outside strings from the formatted text gives the compact text.", "quantifier": "every type and value", "why_tests_cant": "nested unbounded values", "anchors": ["include/eosio/to_json.hpp", "include/eosio/stream.hpp"]}
{"id": "C43", "title": "ABI definitions round trip between JSON and binary", "statement": "The binary form of an ABI definition is the documented layout and decodes back to the same definition, also in the older layout without the list of variants; decoding any bytes gives a definition or an error and never has undefined behaviour. Reading a JSON text as an ABI definition gives exactly the definition the document describes: members by name in any order, missing members empty, unknown members ignored, anything else an error. The JSON and the binary form of the same definition load as the same definition. (ABI extensions cannot be given in JSON: refuted.)", "quantifier": "every ABI definition, every byte string, every JSON text without repeated member names", "why_tests_cant": "unbounded definitions", "anchors": ["include/eosio/abi.hpp: abi_def and its parts", "src/abieos.cpp: abieos_set_abi, abieos_set_abi_bin"]}
{"id": "C44", "title": "JSON reader token stream", "statement": "The JSON reader turns every text produced from a token sequence of a document into exactly that token sequence, with any white space between tokens.", "quantifier": "every document", "why_tests_cant": "unbounded documents", "anchors": ["include/eosio/from_json.hpp: json_token_stream"]}
{"id": "C45", "title": "varint arithmetic wrappers", "statement": "varuint32/varint32 behave as the underlying 32-bit integers: conversions from and to every integer type keep the value modulo the width, comparisons are those of the integers, increment is exact except at the largest value (undefined), binary forms round trip.", "quantifier": "all 32-bit values", "why_tests_cant": "2^64 pairs of values", "anchors": ["include/eosio/varint.hpp"]}
{"id": "C46", "title": "Name length, prefix and suffix", "statement": "name::length() is the number of characters of the name's text; suffix() is the name whose text is everything after the last dot, prefix() the name whose text is everything before the last dot (without trailing dots); a name without dots is its own prefix and suffix.", "quantifier": "every 64-bit name value", "why_tests_cant": "2^64 values and every dot position", "anchors": ["include/eosio/name.hpp: name::length, name::suffix, name::prefix"]}
{"id": "C47", "title": "RIPEMD-160 is the published function", "statement": "The digest used in key texts is the published RIPEMD-160 of the concatenated data, however the data is split into pieces (each below 2^31 bytes); longer pieces are refused, not mis-hashed.", "quantifier": "all sequences of byte strings", "why_tests_cant": "The number of lengths, splits and contents is unbounded; only a few test vectors exist.", "anchors": ["include/eosio/abieos_ripemd160.hpp: ripemd160_init, ripemd160_update, ripemd160_compress, ripemd160_digest", "src/crypto.cpp: digest_suffix_ripemd160"]}
{"id": "C48", "title": "Comparison of reflected structs", "statement": "For a struct whose operators are declared with EOSIO_COMPARE, ==, !=, <, >, <= and >= and eosio_compare are those of the lexicographic order of its members in declaration order, and consistent with each other, whenever the operators of the members are those of a total order.", "quantifier": "every struct, every pair of values", "why_tests_cant": "all types and all pairs of values", "anchors": ["include/eosio/operators.hpp: eosio_compare, operator==, operator<"]}
{"id": "C49", "title": "Deriving ABI types from C++ types", "statement": "Adding a C++ type to an abi (abi::add_type) either adds a description of the type and of every type it is made of under their ABI names, leaves every other entry as it was and returns a pointer to that description, or fails with invalid_nesting, exactly for vectors/optionals of vectors/optionals/extensions and extensions of extensions; adding it again changes nothing. Converting by the derived type agrees with the native conversions: bin_to_json of the native bytes of a value is its native JSON, and json_to_bin (ordered and reorderable) of its native JSON gives its native bytes.", "quantifier": "every type table reachable by loading a definition, looking up and adding types; every C++ type for which add_type compiles and whose names do not clash; every value of it", "why_tests_cant": "types and values nest without bound and the table is any table reachable by loads, lookups and additions; tests add a handful of types", "anchors": ["include/eosio/abi.hpp: abi::add_type, add_type overloads", "include/eosio/types.hpp: get_type_name", "src/abi.cpp: bin_to_json, json_to_bin"]}
{"id": "C50", "title": "Exporting an abi and loading it again keeps its types", "statement": "For every abi object made by loading a definition, looking up type texts and adding C++ types, converting it back to an abi definition succeeds, and loading that definition succeeds. The reloaded abi finds a type for exactly the same type texts, the same one, and describes it and every type it is made of alike - except that the alternatives of a variant are named by their types, so that if no alternative was named by an alias, converting bytes to JSON and JSON to bytes (either way) has the same outcomes before and after. The exported definition carries no actions, tables, clauses, error messages or extensions.", "quantifier": "every abi reachable by any history of loads, lookups and add_type; every type text; every byte string and JSON text", "why_tests_cant": "Tests export a few definitions; the claim is about every reachable table, including ones holding cached optionals, arrays and extensions, recursion and added types.", "anchors": ["src/abi.cpp: convert(const abi&, abi_def&), to_abi_def", "src/abi.cpp: convert(const abi_def&, abi&)", "include/eosio/abi.hpp: abi"]}
{"id": "C51", "title": "The text of a floating point number", "statement": "Converting any finite double or float to JSON yields a JSON number of at most 24 characters (the size of the buffer it is built in) and at most 17 significant digits, with a minus sign exactly when the sign bit is set, whose value is nearer to the number than to any other double (float); hence a correctly rounding strtod/strtof reads every number that is not subnormal back bit by bit. Infinities and NaN become strings. Known exception: for some numbers between -10^24 and -10^23 the text has 25 characters and overruns its 24 character buffer.", "quantifier": "every 64-bit and 32-bit pattern", "why_tests_cant": "There are 2^64 doubles; which digits come out depends on an approximate power of ten, on a 128-bit product rounded to 64 bits and on a digit loop with error bounds; the buffer overrun needs a negative number with exactly 17 digits and 24 digits before the point.", "anchors": ["include/eosio/fpconv.c: fpconv_dtoa, grisu2, generate_digits, emit_digits, filter_special", "include/eosio/powers.h: powers_ten, find_cachedpow10", "include/eosio/to_json.hpp: fp_to_json, to_json(double), to_json(float)", "include/eosio/from_json.hpp: from_json(double&), from_json(float&)"]}
{"id": "C52", "title": "Conversions between types copy members by name and nothing else", "statement": "Converting an object of one reflected struct into an object of another sets exactly the members both have, matched by name whatever their order, each to the converted member of the source, and leaves every other member of the destination as it was; it makes no difference which of the two structs is iterated over. Objects of one type are copied, variants convert as what they hold, vectors get the size of the source, optionals are empty or new. The result is always an object of the destination's type. Converting to a type which has every member of the source and back gives the source again, whatever the destinations held before; and if the source has every member of the destination the result does not depend on the old value. An object read with serialize_as gets the members that were in the data and keeps the others.", "quantifier": "every pair of (finite, non-recursive) types for which the conversion compiles, nested through structs, vectors, optionals and variants; every declaration of conversion kinds; every source object and every old value of the destination", "why_tests_cant": "Templates are instantiated per pair of types; tests try a few pairs with fresh destinations, the claim is about all types and about what the destination held before.", "anchors": ["include/eosio/convert.hpp: convert, convert_impl, conversion_kind_t, choose_first, choose_second", "include/eosio/for_each_field.hpp: for_each_field", "include/eosio/from_bin.hpp: from_bin (serialize_as)", "include/eosio/varint.hpp: convert(varuint32)"]}
{"id": "C53", "title": "The tools num2name and name2num convert each input on its own and are inverse to each other", "statement": "For any arguments and any standard input: options may stand anywhere; each r reverses the direction given by the program's name, the last of x and d decides the form of numbers. The inputs are the other arguments or, if there are none, the lines of the standard input (a last line without newline counts). For each input in order, exactly one line is written: on the standard output the name for a text which is a number below 2^64 (decimal, 0 octal, 0x hexadecimal, white space and a sign in front, minus modulo 2^64) resp. the number for a valid name, else on the standard error. The status is 0 iff there was no error, 2 with nothing read or converted if an option is unknown or asks for help. Piping numbers through num2name, name2num and num2name again loses nothing.", "quantifier": "every list of arguments and every standard input of any length; every program name; every list of 64-bit values for the pipe", "why_tests_cant": "The option grammar, number grammar and stream contents are unbounded; the repository has no test of these tools.", "anchors": ["tools/name.cpp: main, handle_one, usage", "include/eosio/name.hpp: name", "include/eosio/chain_conversions.hpp: string_to_name_strict, name_to_string"]}
{"id": "C54", "title": "Decoding into a used object, and objects after failed decoding", "statement": "Decoding into an object which already has a value reads exactly as much, and reports the same error, as decoding into a fresh one. Scalars, strings, optionals and variants are replaced; vectors get the new size with elements read over; arrays, tuples and structs are read member by member; lists and deques grow; in sets and maps what was there stays and wins; might_not_exist at the end of the stream leaves the old value. So for types without lists, deques, sets, maps and might_not_exist in place the old value never shows, also not after any number of earlier attempts that failed in the middle. After every call, also one that throws, the object is an object of its type. Vectors of numbers and byte views are unchanged when reading them fails. When decoding fails, struct members and array and vector elements before the failing one have their new values and those behind it are as they were; lists have the elements read so far and a half read one; sets and maps are as after decoding the elements before the failing one; optionals and variants have lost their old contents as soon as the flag or index was read; strings and vectors have their new size.", "quantifier": "every type built from the supported ones incl. recursive types, every old value of any size, every byte stream, every history of earlier (failed or successful) decodes into the same object", "why_tests_cant": "The state of the object when an exception is thrown depends on where the input ends; tests decode complete inputs into fresh objects.", "anchors": ["include/eosio/from_bin.hpp: from_bin, from_bin_assoc, from_bin_sequence, varuint32_from_bin", "include/eosio/abi.hpp: from_bin(might_not_exist)", "include/eosio/varint.hpp: from_bin"]}
{"id": "C55", "title": "Pointers returned by and passed to the C API", "statement": "A pointer returned by a C API call stays readable with unchanged contents until the first later call on the same context of a stated kind: text of get_bin_hex/name_to_string/bin_to_json/hex_to_json until the next of those four, get_bin_data until the next json_to_bin, get_error until the next failing call, type names for as long as the context. Arguments may point into the context itself (for example the result of get_bin_hex given to hex_to_json): the call behaves as on copies made before it, and no call reads memory which is gone; the one exception is a JSON text at get_bin_data. After a successful call of the ending kind the old pointer is invalid.", "quantifier": "every context, every history of calls, every call and every combination of argument pointers (null, caller memory, or into any object of the context)", "why_tests_cant": "dangling reads depend on the order of reads and writes inside a call and on arbitrary histories; tests read a stale buffer and usually see plausible bytes", "anchors": ["src/abieos.cpp: abieos_context_s, set_error, handle_exceptions, all extern \"C\" functions", "include/eosio/abieos.h"]}
{"id": "C56", "title": "Time arithmetic and order", "statement": "Sums, differences and unit constructors (seconds, milliseconds, minutes, hours, days) of durations and time points give the exact number of microseconds whenever it fits 64 bits, and overflow otherwise (undefined, or modulo 2^64 with -fwrapv); adding a duration and subtracting it again gives the same time; the difference of two times moves the one to the other. time_point_sec arithmetic is modulo 2^32 with whole seconds of a duration (truncated towards zero), and the difference of two is exact. The six comparison operators of microseconds, time_point, time_point_sec and block_timestamp order values exactly as the instants they denote; conversions to coarser types keep the order within range. maximum()/min() bound all values. (Refuted: block_timestamp::maximum() is slot 65535; time_point_sec - time_point drops the fraction and so is not the negative of time_point - time_point_sec.)", "quantifier": "all 64-bit counts, 32-bit seconds and slots, both overflow modes", "why_tests_cant": "2^128 operand pairs; overflow at the ends of the range", "anchors": ["include/eosio/time.hpp: microseconds, seconds, milliseconds, minutes, hours, days, time_point, time_point_sec, block_timestamp operators", "include/eosio/operators.hpp: eosio_compare, operator=="]}
{"id": "C57", "title": "fuzzing entry point", "statement": "LLVMFuzzerTestOneInput reads only inside the buffer it is given. A buffer that is a 24 byte header (is the ABI binary, which operation, contract, length of the ABI, length of the type) followed by an ABI, a type name and data, each with a final zero, makes exactly these calls on a new context: load the ABI with the piece as argument and, if that returned true, either abieos_json_to_bin and abieos_json_to_bin_reorderable or abieos_bin_to_json, each with exactly its piece. Any other buffer makes no call. It always returns 0, unless a call of the library is one of those C34 names as undefined; the end depends only on the buffer.", "quantifier": "every buffer of bytes", "why_tests_cant": "the buffer is arbitrary: sizes that reach past the end, missing zeros, empty pieces", "anchors": ["src/fuzzer.cpp: LLVMFuzzerTestOneInput", "src/fuzzer.hpp: fuzzer_header"]}
{"id": "C58", "title": "JSON read into a used object, and objects after failed reading", "statement": "from_json ends the same way whatever the object held before. However it ends, the object is still an object of its type. A vector keeps its elements and gets those an empty vector would get, also when the call throws. The elements it gets, and what an optional or variant gets, are new objects (zeros, empty texts, empty containers) into which the text is read. A member of a struct whose key does not come in the text keeps its value, and what a member becomes does not depend on the other members. Everything else (numbers, texts, optionals, variants) is replaced as a whole on success; after an exception caused by a text, a number holds the longest beginning of the text that is a number of its range, a symbol code the letters read so far, an asset the amount read and the old symbol, a time_point_sec the seconds before a bad rest, a bytes the pairs of digits read, and the other built-in types keep their value. Reading the complete text of a value into any object of the type, also after any history of failed readings, gives the value for types without vectors; vectors grow. It is not true that a failed call leaves the object unchanged.", "quantifier": "every type of the typed JSON layer, every object of it, every text, every history of earlier readings", "why_tests_cant": "the state left by an exception depends on where in the text it happens, and on the old value; tests look only at fresh objects and at successful calls", "anchors": ["include/eosio/from_json.hpp: from_json, from_json_object", "include/eosio/symbol.hpp: from_json", "include/eosio/asset.hpp: from_json", "include/eosio/time.hpp: from_json", "include/eosio/bytes.hpp: from_json", "include/eosio/chain_conversions.hpp: string_to_symbol, string_to_asset, string_to_utc_seconds"]}
{"id": "C59", "title": "The hash of JSON strings which are not names", "statement": "A JSON string which is not a valid name is read as the name whose value is a hash of the string. For every string this hash is the published MurmurHash64A with seed 0xbadd00d00 applied to the string as the library sees it: of every full block of eight bytes the first byte is lost, the other seven come in opposite order, and a byte from 128 on turns all bytes before it in its block into 255. Strings of less than eight bytes are hashed exactly as published. Consequently two strings which differ only in the first byte of a full block are read as the same name. It is neither true that the hash is the published function nor that different strings of such kind give different names.", "quantifier": "every byte string", "why_tests_cant": "a test compares the hash of a few strings; which strings collide, and that the hash is the published function for short strings, are statements about all of them", "anchors": ["include/eosio/murmur.hpp: murmur64, unaligned_load, load_bytes", "include/eosio/name.hpp: hash_name, from_json"]}
{"id": "C60", "title": "Decoding by ABI and by C++ type agree on every input", "statement": "Let the type table have the description of a C++ type, as add_type makes it. On every input, well formed or not: if both bin_to_json (by the type's ABI name) and from_bin (by the C++ type) accept it they consume the same bytes, and the text bin_to_json gives is the text to_json gives of the value from_bin gives. For types without vectors of arithmetic types the two accept the same inputs (within bin_to_json's limits on nesting and size), and what from_bin refuses bin_to_json refuses for the same reason unless it gives up earlier. Vectors of arithmetic types are different: the two decoders read their size differently, and each accepts inputs the other refuses.", "quantifier": "every C++ type with a derived ABI description and a native writer, every type table a program can build, every byte string shorter than 2^32", "why_tests_cant": "the two decoders are separate code; inputs nobody's encoder produces (padded sizes, truncated data) are unbounded in number and only some of them show the difference", "anchors": ["src/abieos.hpp:880-1008 bin_to_json", "include/eosio/from_bin.hpp:57-257 from_bin", "include/eosio/stream.hpp:53-63 has_bitwise_serialization", "include/eosio/abi.hpp:209-262 add_type"]}
{"id": "C61", "title": "What the ABI converters produce is bounded by what they are given", "statement": "json_to_bin appends at most 16 bytes for each character of the text, and one more (the bound is met: the text 0 as a uint128? is 17 bytes); json_to_bin_reorderable the same, provided no struct of the ABI has two fields of one name. bin_to_json writes at most (6n+6)*128+110 characters for each byte it consumed, n being the length of the longest field or alternative name, provided every struct of the ABI has a field which cannot be left out. Without these provisos a small input can blow up without limit: an ABI of 128 structs turns the empty input into 13*2^127-11 characters, an array of empty structs turns five bytes into 6 GB, and an ABI which repeats a field name lets the reorderable converter turn 763 characters into 2^126 bytes.", "quantifier": "every ABI which loads, every type of it, every JSON text and every byte string on which the conversion succeeds", "why_tests_cant": "a bound on all outputs of all inputs of all ABIs; tests sample a few ABIs, and the outputs of the counterexamples do not fit into memory", "anchors": ["src/abieos.hpp:json_to_bin", "src/abieos.hpp:json_to_bin (jvalue)", "src/abieos.hpp:bin_to_json", "src/abi.cpp:convert"]}
{"id": "C62", "title": "What a failing abi::add_type leaves behind", "statement": "abi::add_type fails exactly on types with a forbidden nesting (vector or optional of a vector or optional, extension of an extension). Whether it fails or not, no existing entry of the type table changes; every new entry is the complete description of a type which occurs in the added one, except that after a failure a struct containing the forbidden nesting has only its fields before the first badly nested one. After any history of lookups and additions, failed or not, every reference in the table is to an entry of the table of a permitted kind. Finding: the call does not fail twice. Repeating a failed add_type of a new struct returns the struct which lacks fields, without an error, and conversions by it silently drop the rest.", "quantifier": "every type table a program can have (loaded ABI, then any lookups and additions, also failed ones), every C++ type for which add_type compiles", "why_tests_cant": "the state after a failure depends on where in a type of any depth the failure happens and on what the table had before; tests try a few nestings and check only the error", "anchors": ["include/eosio/abi.hpp:199-209 abi::add_type", "include/eosio/abi.hpp:220-289 add_type"]}
{"id": "C63", "title": "The callback of the converters", "statement": "The converters take a callback which they call again and again while they work; a program uses it to enforce a deadline or a memory limit by throwing. The callback only watches: the outcome and the sequence of states in which it is called do not depend on it; if it never throws there the conversion ends as without a callback, otherwise it ends in the first of these states in which it throws. json_to_bin makes at most as many calls as the text has bytes plus two and reads at most two tokens between two calls, whatever the ABI. bin_to_json writes between two calls at most one name and one value (at most (6n+8)(calls+1) + 110 times the input, for names of at most n bytes), so that a callback can stop every conversion in bounded memory, also one of an ABI whose output is exponential (C61); and the number of calls is bounded by the text written. Finding: the reorderable converter parses the whole text, of any length, before its first call and makes no call for values the type does not mention, so a callback can limit neither.", "quantifier": "every table of types, type, input and callback (any function of the calls made so far)", "why_tests_cant": "a test runs one callback on one input; that no input can run on between two calls needs all inputs and all ABIs", "anchors": ["include/eosio/abi.hpp:192-194 abi_type::json_to_bin, json_to_bin_reorderable, bin_to_json", "src/abi.cpp:279-297", "src/abieos.hpp:587-596, 739-768, 884-899", "src/abieos.hpp:508-527 json_to_jvalue"]}
{"id": "C64", "title": "Several definitions in one abi, and what a failing load leaves", "statement": "convert(def, abi) may be called again on an abi which already has types, also after calls which threw. For every history of loads and lookups, failing or not: no load does anything undefined, and it ends with success or one of the documented errors; types which were resolved stay as they are, and conversions by the types of a good abi do not change, whether the further load succeeds or not; after a successful load the abi is what all the definitions together say, including those taken from loads which failed (up to their first name which is empty, repeated or already in use), and lookups find exactly that; the order and grouping of the declarations do not matter: abis whose loads in the end succeeded and whose definitions together declare the same find the same types and convert the same; of actions and tables the last one counts, also one of a failing load; a further load succeeds if its names are new and all definitions together are well formed. Findings: a failing load is not undone: its types are found by lookups although they are unresolved, and converting by them is undefined; loading the corrected definition then fails; a looked up text such as bool[] makes a later definition which declares it fail.", "quantifier": "every sequence of loads of any definitions and of lookups of any texts, succeeding or failing", "why_tests_cant": "a test runs one sequence of loads; the claim is about every sequence and every point of failure in it", "anchors": ["src/abi.cpp:118-226 resolve, fill, convert(const abi_def&, abi&)", "include/eosio/abi.hpp:197-216 abi"]}
{"id": "C65", "title": "Contexts do not influence each other", "statement": "A program can have any number of contexts and use them in any order. What the calls on one context return, its error texts and the bytes its pointers point to depend only on the calls on that context and on the bytes their arguments point to, never on what is done with other contexts: a history of calls on many contexts is possible exactly if for each context the calls on it are possible by themselves, so calls on different contexts can be reordered without changing any result. A pointer returned by a context stays readable, with the same bytes, through all calls on other contexts, also through destroying them; it dies with its own context. A pointer into another living context is as good as an argument as a copy of the bytes there.", "quantifier": "every history of creating, calling and destroying any number of contexts, with any arguments including pointers into other contexts", "why_tests_cant": "a test interleaves a few calls on two contexts; hidden shared state could show up in any other interleaving", "anchors": ["src/abieos.cpp:12-19 abieos_context", "src/abieos.cpp:51-253 abieos_create, abieos_destroy and all calls", "src/abieos.h:12-73"]}
{"id": "C66", "title": "Running out of memory inside a call", "statement": "operator new can fail at any allocation inside any call. A call which runs out of memory returns its failure value and abieos_get_error then says std::bad_alloc; abieos_create returns null. For every history of calls on a context, some of which run out of memory at any point: contracts have exactly the abis of the calls which had enough memory, every later call comes back, every conversion and lookup has the outcome it would have if the failed calls had not been made, making the failed call again has the outcome it would have had, it has added no types which the call would not have added with enough memory, and the binary result is the one before, or empty after a failed conversion to binary. Finding: a call does not always return. The text of an error is copied inside the exception handler, in a function which is noexcept: if it is longer than 15 bytes and there is no memory for it, the program is terminated. Only calls which fail anyway can do this.", "quantifier": "every history of calls with any arguments, with memory running out at any allocation of any of the calls", "why_tests_cant": "allocation failures can happen at hundreds of points of a call and in every state; a test makes one allocation fail in one run", "anchors": ["src/abieos.cpp:26-49 set_error, handle_exceptions", "src/abieos.cpp:51-253 all calls", "src/abi.cpp:78-116 get_type"]}
{"id": "C67", "title": "The JSON reader works in the caller's buffer", "statement": "json_token_stream is given a buffer which holds a text, a NUL and possibly more bytes. It decodes strings over their own source text and hands out views into the buffer. However many tokens have been read: the views read so far hold, in the buffer as it now is, the tokens of the text the caller put there, and the next call gives the next token, the end or the error of that text; a view keeps its contents while reading goes on and when it fails; behind the text of keys and strings (numbers excepted) stands a NUL; what has not been read, the NUL and the bytes after it are as they were. The reader stays inside the buffer if two bytes follow the NUL, as in the buffer of abieos_json_to_bin, or if the text is well formed UTF-8. Finding: the buffer of abieos_set_abi ends with the NUL. A text that ends inside a UTF-8 character makes the reader read, and after an escape write, past its end.", "quantifier": "every text, every buffer it stands in, and every number of calls of the reader", "why_tests_cant": "aliasing: what a later call overwrites depends on the whole text before it, and an access just past a buffer mostly does no visible harm in a test", "anchors": ["include/eosio/from_json.hpp:180-200, 309-328 json_token_stream", "include/eosio/from_json.hpp:372-383 from_json", "src/abieos.cpp:103-109 abieos_set_abi", "src/abieos.hpp:739-747 json_to_bin"]}
{"id": "C68", "title": "Calls of json_token_stream one by one", "statement": "A json_token_stream over a text answers each call by the next token of the text: peek_token gives it and leaves it, a get_ call which wants a token of that kind gives its value and takes it, a get_ call which wants another kind fails with the message for that kind, a _pred or maybe_ call says no; neither takes anything, so that after a caught failure reading goes on where it was. eat_token takes a token only if it has been looked at; get_end succeeds exactly when all has been taken and the text has no error; complete() is true as soon as the last token was looked at. If the text has an error, the first call which needs what is behind the tokens before the error fails with its message, and no earlier one. Finding: the error for text behind the document comes after its last token was stored: the next call returns that token and get_end then succeeds.", "quantifier": "every text and every sequence of calls, with failures caught", "why_tests_cant": "the behaviour depends on the whole history of calls; tests call the reader through from_json, which stops at the first failure", "anchors": ["include/eosio/from_json.hpp:180-297 json_token_stream"]}
{"id": "C69", "title": "Streams in memory, under any series of operations", "statement": "input_stream gives the bytes of its buffer one after the other: an operation succeeds exactly when what it asks for is still there, copies or points to exactly the next bytes, and one that throws leaves the stream as it was, so that smaller requests still succeed; nothing outside the buffer is read. fixed_buf_stream takes a write exactly when it fits behind those taken before; afterwards the buffer begins with the bytes of the writes taken, pos is behind them and no other byte of the memory has changed. vector_stream takes everything, size_stream counts it. A value encoded, as data, as a key or as JSON text (compact or through a pretty_stream), into a buffer which is too small throws Stream overrun and leaves a beginning of its encoding in the buffer. convert_to_bin and convert_to_key append the encoding to their vector, and leave the vector as it was if they throw; convert_to_json and format_json give exactly the text. Finding: the test pos + sz <= end can wrap, for sizes which reach past the end of the address space.", "quantifier": "every memory, buffer and sequence of operations of any sizes, with failures caught; every type and value", "why_tests_cant": "which write fails depends on all before it, and a byte written outside of a buffer is not seen by a test that looks at the result", "anchors": ["include/eosio/stream.hpp:73-138 vector_stream, fixed_buf_stream, size_stream", "include/eosio/stream.hpp:187-229 input_stream", "include/eosio/to_bin.hpp:36-180", "include/eosio/to_key.hpp:280-289 convert_to_key", "include/eosio/to_json.hpp:257-277 convert_to_json, format_json"]}
