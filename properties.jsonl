{"id": "C01", "title": "Modified UTF-8 round trip", "statement": "For every well-formed WTF-8 string s, modified_utf8_to_string(string_to_modified_utf8(s)) returns Ok and yields exactly the bytes of s (including NUL, lone surrogates and supplementary code points).", "quantifier": "all finite sequences of code points that form well-formed WTF-8 (unbounded length)", "why_tests_cant": "The input space is all strings; interactions between adjacent encodings (lead/trail surrogates, C0 80, six-byte pairs) only show up in particular sequences of arbitrary length.", "anchors": ["src/mod_utf8.rs: string_to_modified_utf8, modified_utf8_to_string", "wtf8/src/lib.rs: validate_wtf8"]}
{"id": "C02", "title": "Modified UTF-8 encoder output format", "statement": "string_to_modified_utf8(s) is exactly the JVMS 4.4.7 encoding of the UTF-16 code units of s; in particular the output never contains a zero byte nor a byte >= 0xF0.", "quantifier": "all well-formed WTF-8 strings", "why_tests_cant": "Needs a statement about every output byte for every string, compared with an independent format definition.", "anchors": ["src/mod_utf8.rs: string_to_modified_utf8", "wtf8/src/lib.rs: Wtf8Str::encode_wide"]}
{"id": "C03", "title": "Modified UTF-8 decoder agrees with JVMS", "statement": "For every sequence of UTF-16 code units (16-bit values), decoding its JVMS 4.4.7 encoding with modified_utf8_to_string succeeds and gives the WTF-8 string whose UTF-16 code units are that sequence; hence re-encoding returns the very same bytes.", "quantifier": "all sequences of 16-bit values", "why_tests_cant": "All sequences, including ill-paired surrogates in any arrangement.", "anchors": ["src/mod_utf8.rs: modified_utf8_to_string", "wtf8/src/lib.rs: Wtf8String::from_wide"]}
{"id": "C04", "title": "Modified UTF-8 decoder is strict", "statement": "modified_utf8_to_string accepts only byte sequences that are valid JVMS 4.4.7 modified UTF-8 (so that decode followed by encode is the identity on accepted input).", "quantifier": "all byte sequences", "why_tests_cant": "A universally quantified negative claim about every invalid byte sequence.", "anchors": ["src/mod_utf8.rs: modified_utf8_to_string 34-130"]}
{"id": "C05", "title": "WTF-8 validator accepts every well-formed string", "statement": "Wtf8Str::from_bytes returns Ok for every well-formed WTF-8 byte string, unchanged.", "quantifier": "all sequences of code points without an encoded lead+trail surrogate pair", "why_tests_cant": "Unbounded input; off-by-one in any of the lead-byte classes shows up only on specific code points.", "anchors": ["wtf8/src/lib.rs: validate_wtf8, Wtf8Str::from_bytes"]}
{"id": "C06", "title": "WTF-8 validator accepts only well-formed strings", "statement": "Whenever Wtf8Str::from_bytes returns Ok, the bytes are well-formed WTF-8 (the invariant all unsafe code in the crate relies on).", "quantifier": "all byte sequences", "why_tests_cant": "Soundness of a validator over all byte strings; tests sample a handful.", "anchors": ["wtf8/src/lib.rs: validate_wtf8 1215-1317"]}
{"id": "C07", "title": "Validation errors report a valid prefix", "statement": "When Wtf8Str::from_bytes fails, valid_up_to() <= len, from_bytes(input[..valid_up_to()]) succeeds, and valid_up_to() is the maximum such index (as its documentation says).", "quantifier": "all rejected byte sequences", "why_tests_cant": "Relates the error value to all prefixes of all invalid inputs.", "anchors": ["wtf8/src/lib.rs: Wtf8Error::valid_up_to 1148-1188, validate_wtf8"]}
{"id": "C08", "title": "UTF-16 conversion is lossless", "statement": "Wtf8String::from_wide(v).encode_wide() yields v for every slice v of u16, and from_wide(s.encode_wide()) == s for every well-formed s; from_wide always produces well-formed WTF-8.", "quantifier": "all u16 sequences / all well-formed strings", "why_tests_cant": "Ill-formed UTF-16 of any length, with surrogates in any arrangement.", "anchors": ["wtf8/src/lib.rs: from_wide 506, encode_wide, EncodeWide::next 1110"]}
{"id": "C09", "title": "Concatenation keeps well-formedness and meaning", "statement": "push, push_char and push_wtf8 (with a lead surrogate at the end of the receiver and a trail surrogate at the start of the argument in any combination) keep the buffer well-formed, and the UTF-16 units of the result are the concatenation of the units of both parts.", "quantifier": "all pairs of well-formed strings; all sequences of pushes", "why_tests_cant": "History-dependent: surrogate merging depends on the whole prior content.", "anchors": ["wtf8/src/lib.rs: push 665, push_char 654, push_wtf8 633, final_lead_surrogate 346, initial_trail_surrogate 354"]}
{"id": "C10", "title": "Lossy conversion", "statement": "as_str succeeds iff the string has no surrogate code point; to_string_lossy / into_string_lossy produce the same string with each surrogate code point replaced by U+FFFD and nothing else changed (byte length is preserved).", "quantifier": "all well-formed strings", "why_tests_cant": "All strings; positions of surrogates are arbitrary.", "anchors": ["wtf8/src/lib.rs: as_str, to_string_lossy 778, into_string_lossy 711, next_surrogate 316"]}
{"id": "C11", "title": "Code point iteration", "statement": "codepoints() over a well-formed string yields exactly its code points in order, never reads past the end (the unwrap_unchecked calls are reached only when a byte is available), and re-pushing them rebuilds the string.", "quantifier": "all well-formed strings", "why_tests_cant": "Memory-safety argument for all inputs; a test cannot observe the absence of UB.", "anchors": ["wtf8/src/std_internal.rs: next_code_point 117-151", "wtf8/src/lib.rs: Wtf8CodePoints 1086"]}
{"id": "C12", "title": "Slicing at code point boundaries", "statement": "Indexing a well-formed string by a range succeeds exactly when both ends are code point boundaries and ordered, and the slices are well-formed; truncate likewise.", "quantifier": "all well-formed strings and all index pairs", "why_tests_cant": "All strings and all indices.", "anchors": ["wtf8/src/lib.rs: Index impls 961-1025, is_code_point_boundary 1041, truncate 686"]}
{"id": "C13", "title": "Big-endian numeric codecs", "statement": "For u8,i8,u16,i16,u32,i32,u64,i64,f32,f64: write_to emits the big-endian two's-complement bytes; read_from of these bytes followed by anything returns the same value and leaves the rest; read_from of fewer bytes is an error.", "quantifier": "all values of each type and all following bytes", "why_tests_cant": "2^64 values; remaining-input behaviour for all suffixes.", "anchors": ["src/rw.rs: 429-447"]}
{"id": "C14", "title": "Floating point identity is bit identity", "statement": "TotalF32/TotalF64 equality holds iff the bit patterns are equal, agrees with hashing, and the order is a total order; so NaN payloads and signed zeros survive constant-pool deduplication.", "quantifier": "all pairs/triples of 32/64-bit patterns", "why_tests_cant": "2^64 pairs.", "anchors": ["src/total_floats.rs"]}
{"id": "C15", "title": "Access flags", "statement": "Reading flags then writing them keeps exactly the bits defined for that flag type (JVMS tables) and drops the others; writing then reading any flag value is the identity.", "quantifier": "all u16 values, all eight flag types", "why_tests_cant": "Quantifies over all values; compares against the independent JVMS masks.", "anchors": ["src/flags.rs"]}
{"id": "C16", "title": "Class file version", "statement": "JavaVersion is written as minor then major; reading accepts exactly majors 45..59 (anything else is an error) and is inverse to writing.", "quantifier": "all (minor, major) pairs of u16", "why_tests_cant": "Range claim over all pairs, including the negative part.", "anchors": ["src/version.rs"]}
{"id": "C17", "title": "Length-prefixed vectors never truncate", "statement": "A Vec8/Vec16/Vec32-annotated vector writes its exact length followed by its elements, or fails when the length does not fit; reading inverts writing.", "quantifier": "all element codecs that round trip, all vectors", "why_tests_cant": "Generic over element codec and length.", "anchors": ["src/helper.rs: VecLen, Vec8, Vec16, Vec32"]}
{"id": "C18", "title": "Hand-written lengths never truncate", "statement": "Arrays inside annotation values, element-value maps, bootstrap method arguments and the full frame's lists either write a correct length or fail.", "quantifier": "all vectors, including longer than 65535", "why_tests_cant": "Needs vectors of unbounded length.", "anchors": ["src/annotation/mod.rs 71-250", "src/dynamic.rs 15-47", "src/code.rs RawFrame 631-746"]}
{"id": "C19", "title": "String length prefix", "statement": "Writing a string emits a u16 with the exact byte length of its modified UTF-8 encoding followed by this encoding whenever this fits in 65535 bytes, and reading returns the same string; a longer string is rejected instead of being written with a wrong length.", "quantifier": "all well-formed strings", "why_tests_cant": "Unbounded length; the failure needs > 65535 bytes.", "anchors": ["src/rw.rs: Wtf8String 449-480"]}
{"id": "C20", "title": "Constant pool entry codec", "statement": "Each raw constant pool entry is written as its JVMS tag byte followed by its JVMS fields, and reading inverts writing; unknown tags are rejected.", "quantifier": "all entries of all 17 kinds", "why_tests_cant": "All values of each kind; JVMS conformance needs an independent table.", "anchors": ["src/cp.rs: RawConstantEntry 58-81"]}
{"id": "C21", "title": "Constant pool insertion", "statement": "After any sequence of insertions: every returned index is >= 1 and refers to the inserted entry; equal entries get equal indices (dedup) and different entries get different, non-overlapping indices; Long/Double occupy two slots; previously returned indices keep their meaning.", "quantifier": "all sequences of insertions that stay below the pool limit", "why_tests_cant": "History-dependent invariant over unbounded insert sequences.", "anchors": ["src/cp.rs: VecCp::insert_raw 218-229"]}
{"id": "C22", "title": "Constant pool write/read", "statement": "Reading back the bytes written for a pool gives a pool in which every index handed out by the writer resolves to the inserted entry, and nothing else resolves.", "quantifier": "all reachable pools whose strings fit in 65535 bytes", "why_tests_cant": "Index arithmetic with two-slot entries over unbounded sequences.", "anchors": ["src/cp.rs: VecCp::write_to 208, MapCp::read_from 157-168"]}
{"id": "C23", "title": "Constant pool overflow is an error", "statement": "Inserting beyond 65535 slots (or reading a pool whose last two-slot entry overflows the counter) produces an error rather than a panic or silently wrong indices.", "quantifier": "all insert histories / all pool bytes", "why_tests_cant": "Needs > 65534 distinct entries; behaviour differs between build profiles.", "anchors": ["src/cp.rs: insert_raw 218-229, read_from 157-168"]}
{"id": "C24", "title": "Symbolic constants round trip", "statement": "For every constant (int, long, float, double, string, class, member reference, method type, method handle), insert_constant returns an index at which read_constant yields the same constant, also after any number of further insertions.", "quantifier": "all constants with well-formed descriptors; all later insertions", "why_tests_cant": "Composite entries depend on several dedup lookups and on pool history.", "anchors": ["src/rw.rs: insert_constant 32, read_constant 194, insert_member 139, read_member 319, insert_nameandtype, insert_class"]}
{"id": "C25", "title": "Member reference kind", "statement": "A member reference is stored as Fieldref, Methodref or InterfaceMethodref according to its descriptor and interface flag, and is read back identically (the interface flag of a field being ignored).", "quantifier": "all member references with well-formed descriptors", "why_tests_cant": "All names/descriptors.", "anchors": ["src/rw.rs: insert_member 139, read_member 319"]}
{"id": "C26", "title": "Bootstrap methods resolve", "statement": "After reading a class file with a BootstrapMethods attribute, every dynamic constant / call site holds exactly the bootstrap method at the index in its pool entry; an index without an entry is an error.", "quantifier": "all bootstrap tables and all sets of references", "why_tests_cant": "Cross-reference invariant over all tables and reference multisets.", "anchors": ["src/cp.rs: resolve_later, bootstrap_methods 184-200", "src/dynamic.rs"]}
{"id": "C27", "title": "Method handle check", "statement": "MethodHandle::check accepts exactly the combinations allowed by the documentation/JVMS 4.4.8 (kind vs member type, interface flag, <init> vs other names, no <clinit>).", "quantifier": "all method handles", "why_tests_cant": "All kinds, names and descriptors; includes the negative direction.", "anchors": ["src/loadable.rs: MethodHandle::check 80-139"]}
{"id": "C28", "title": "Descriptor print/parse", "statement": "Parsing the text written for a well-formed type yields that type.", "quantifier": "all types: primitive, class (any name without ';'), arrays of 1..255 dimensions, methods with any parameters and return", "why_tests_cant": "Recursive structure of unbounded size.", "anchors": ["src/ty.rs: write_type 212-249, parse_type 91-151"]}
{"id": "C29", "title": "Descriptor parser accepts only descriptors", "statement": "parse_type succeeds only on complete, valid JVMS 4.3 descriptors (in particular trailing input is rejected).", "quantifier": "all strings", "why_tests_cant": "Negative claim over all strings.", "anchors": ["src/ty.rs: parse_type 91-151"]}
{"id": "C30", "title": "Array descriptor safety", "statement": "If a string starts with '[' then parse_type either fails or returns an array type (which makes the unreachable_unchecked in instruction conversion unreachable), and the element type is never itself an array.", "quantifier": "all strings", "why_tests_cant": "UB-freedom over all inputs.", "anchors": ["src/ty.rs: parse_type", "src/code/convert.rs 382, 403"]}
{"id": "C31", "title": "Descriptor parsing does not panic", "statement": "parse_type returns Ok or Err for every string.", "quantifier": "all strings", "why_tests_cant": "All strings, including > 255 leading '['.", "anchors": ["src/ty.rs: parse_type 91-151 (dim: u8)"]}
{"id": "C32", "title": "Descriptor Display agrees with the written descriptor", "statement": "The Display text of a type equals the descriptor written to the class file.", "quantifier": "all types", "why_tests_cant": "Class names with lone surrogates are not produced by ordinary tests.", "anchors": ["src/ty.rs: Display 251-288, write_type 212-249"]}
{"id": "C33", "title": "Class signature round trip", "statement": "Parsing the Display text of a class signature yields the same signature.", "quantifier": "all class signatures built from identifiers", "why_tests_cant": "Recursive grammar of unbounded size.", "anchors": ["src/signature.rs"]}
{"id": "C34", "title": "Method signature round trip", "statement": "Parsing the Display text of a method signature (type parameters, parameters, return, throws) yields the same signature.", "quantifier": "all method signatures built from identifiers", "why_tests_cant": "Recursive grammar of unbounded size.", "anchors": ["src/signature.rs 589-692"]}
{"id": "C35", "title": "Field signature round trip", "statement": "Parsing the Display text of a field signature (class type with nested type arguments, type variable, array) yields the same signature.", "quantifier": "all field signatures built from identifiers", "why_tests_cant": "Recursive grammar of unbounded size.", "anchors": ["src/signature.rs"]}
{"id": "C36", "title": "Signature text preserved", "statement": "If a signature text in the JVMS 4.7.9.1 grammar is parsed and displayed again, the same text results.", "quantifier": "all texts in the grammar", "why_tests_cant": "All texts.", "anchors": ["src/signature.rs"]}
{"id": "C37", "title": "Attribute framing", "statement": "Reading an attribute consumes exactly 6 + attribute_length bytes; a known attribute whose body does not use up its length is an error and no attribute can read beyond its own length; writing puts the true body length.", "quantifier": "all byte sequences / all attributes", "why_tests_cant": "All malformed inputs.", "anchors": ["coffer_macros/src/derive.rs: attr_enum 156-276", "src/attr.rs"]}
{"id": "C38", "title": "Unknown attributes preserved", "statement": "An attribute with an unknown name is kept byte for byte by read and re-emitted byte for byte by write.", "quantifier": "all names not in the known set, all bodies", "why_tests_cant": "All names and bodies.", "anchors": ["coffer_macros/src/derive.rs 156-276"]}
{"id": "C39", "title": "Annotation round trip", "statement": "Reading a written annotation (nested annotations, arrays, enums, classes, constants) yields the same annotation; tags are the JVMS 4.7.16.1 ones.", "quantifier": "all annotation values of any nesting depth with arrays/maps <= 65535 and distinct element names", "why_tests_cant": "Recursive, unbounded depth.", "anchors": ["src/annotation/mod.rs 71-250"]}
{"id": "C40", "title": "Annotation constant range", "statement": "Reading a B/C/S/Z element value whose integer constant is out of range is an error, in-range constants are read exactly.", "quantifier": "all 32-bit constants", "why_tests_cant": "2^32 values per kind.", "anchors": ["src/annotation/mod.rs 71-211"]}
{"id": "C41", "title": "Type annotation targets", "statement": "Type annotation targets and type paths are written with JVMS 4.7.20 target_type/path kinds and read back identically.", "quantifier": "all targets and paths", "why_tests_cant": "All operand values.", "anchors": ["src/annotation/type_annotation.rs"]}
{"id": "C42", "title": "Module attribute round trip", "statement": "Reading a written Module attribute (requires, exports, opens, uses, provides) yields the same value.", "quantifier": "all module attributes", "why_tests_cant": "Unbounded nested tables.", "anchors": ["src/module.rs"]}
{"id": "C43", "title": "Fields, methods and class-level tables round trip", "statement": "Reading written fields, methods without code, inner-class tables, method parameters and the class, field and method attributes (unknown ones included) yields the same values.", "quantifier": "all such values with well-formed names and descriptors", "why_tests_cant": "Unbounded tables; pool indices depend on history.", "anchors": ["src/member.rs", "src/attr.rs", "src/clazz.rs"]}
{"id": "C44", "title": "Stack map frame round trip", "statement": "Reading a written stack map frame yields the same frame and frames are encoded as in JVMS 4.7.4.", "quantifier": "all frames", "why_tests_cant": "All frame kinds with all offsets/locals.", "anchors": ["src/code.rs: RawFrame 631-746"]}
{"id": "C45", "title": "Verification type tags", "statement": "Verification types are written with the JVMS 4.7.4 tags.", "quantifier": "all verification types", "why_tests_cant": "Conformance with an external table; a symmetric mistake survives every round-trip test.", "anchors": ["src/code.rs: RawVerificationType 610-623"]}
{"id": "C46", "title": "Raw instruction codec", "statement": "Reading a written raw instruction yields it back, every opcode byte is the JVMS one, and bytes that are not a JVMS instruction opcode are rejected.", "quantifier": "all raw instructions with all operands", "why_tests_cant": "202 opcodes times all operands.", "anchors": ["src/insn.rs"]}
{"id": "C47", "title": "Instruction selection", "statement": "For each high-level instruction the bytes emitted are those of the JVMS instruction with this meaning.", "quantifier": "all non-jump instructions", "why_tests_cant": "All variants times all operands; several variants share arms.", "anchors": ["src/code/convert.rs: write_insn 415-813"]}
{"id": "C48", "title": "Straight-line instruction round trip", "statement": "Writing a (non-jump) instruction and reading it back gives an instruction with the same meaning.", "quantifier": "all instructions, all operands, all pool states", "why_tests_cant": "Encoding choices depend on operand ranges and pool index size.", "anchors": ["src/code/convert.rs: write_insn 415-813, convert_direct_instruction 18-413"]}
{"id": "C49", "title": "Constants pushed exactly", "statement": "Pushing any int/long/float/double constant emits an encoding that loads exactly this constant (bit for bit) and reads back as it; an int uses the shortest of the encodings that need no constant pool entry if there is one, and otherwise ldc with a one-byte index whenever the index allows it.", "quantifier": "all 2^32 / 2^64 constants; all pool states", "why_tests_cant": "Exhaustive over constants and pool index boundary (255/256).", "anchors": ["src/code/convert.rs: write_insn Push"]}
{"id": "C50", "title": "Array creation class names", "statement": "Reading anewarray/multianewarray yields an array type over exactly the class named by the constant.", "quantifier": "all class names", "why_tests_cant": "All names; only names starting with a descriptor letter misbehave.", "anchors": ["src/code/convert.rs 355-370"]}
{"id": "C51", "title": "Jump condition negation", "statement": "neg() of a condition is taken exactly when the condition is not, is an involution, and is absent only for the unconditional jump.", "quantifier": "all conditions and all operand values", "why_tests_cant": "All operand values.", "anchors": ["src/code/structure.rs 88-138"]}
{"id": "C52", "title": "Jump offsets and code length", "statement": "When code is written, code_length equals the number of code bytes emitted and every jump/switch offset, added to the position of its instruction, is the position of its label.", "quantifier": "all instruction lists whose size stays in the 16-bit branch range", "why_tests_cant": "Global layout property over all programs.", "anchors": ["src/code.rs: Code::write_to 250-607"]}
{"id": "C53", "title": "Switch alignment and tables", "statement": "Switch operands are 4-byte aligned with zero padding; lookupswitch keys are written in increasing order; reading skips the same padding.", "quantifier": "all positions and all tables", "why_tests_cant": "All alignments times all tables.", "anchors": ["src/code.rs 430-500, 60-130"]}
{"id": "C54", "title": "Far jumps", "statement": "Jumps over more than 32767 bytes are written so that they reach their label.", "quantifier": "all instruction lists, including > 32 KiB apart", "why_tests_cant": "Needs huge methods.", "anchors": ["src/code.rs 330-420"]}
{"id": "C55", "title": "Labels on reading", "statement": "When code is read, every label used occurs exactly once in the instruction list, immediately before the instruction at its byte offset; distinct offsets get distinct labels; a reference to a non-boundary offset is an error.", "quantifier": "all byte sequences accepted as code", "why_tests_cant": "All programs.", "anchors": ["src/code.rs: Code::read_from 36-248"]}
{"id": "C56", "title": "Undefined labels", "statement": "Writing code that uses a label which is not defined is an error.", "quantifier": "all codes, all places where labels occur", "why_tests_cant": "All programs.", "anchors": ["src/code.rs: Labeler::label 500-515, resolve_label"]}
{"id": "C57", "title": "Exception and variable ranges", "statement": "Exception table and local variable ranges written for labels are the positions of these labels.", "quantifier": "all codes", "why_tests_cant": "Global layout property.", "anchors": ["src/code.rs 500-607"]}
{"id": "C58", "title": "Code round trip", "statement": "Reading written code gives the same instructions in the same order, with each jump, switch, handler and variable range referring to the same instruction (labels may be renamed).", "quantifier": "all code attributes using the supported instructions", "why_tests_cant": "Global layout property over all programs.", "anchors": ["src/code.rs"]}
{"id": "C59", "title": "Line numbers survive", "statement": "Line numbers in the instruction list are preserved by writing and reading.", "quantifier": "all codes", "why_tests_cant": "All programs.", "anchors": ["src/code.rs: line_numbers"]}
{"id": "C60", "title": "Dynamic constants can be loaded", "statement": "A Push of a dynamic constant that is written can be read back.", "quantifier": "all dynamic constants", "why_tests_cant": "All constants.", "anchors": ["src/code/convert.rs 76-77", "src/rw.rs read_constant 194"]}
{"id": "C61", "title": "Class round trip", "statement": "Reading a written class yields the same class.", "quantifier": "all classes built from supported parts", "why_tests_cant": "Global property over all class files.", "anchors": ["src/clazz.rs"]}
{"id": "C62", "title": "Class attribute count", "statement": "The attribute count written for a class equals the number of attributes that follow.", "quantifier": "all classes, with and without dynamic constants and BootstrapMethods attribute", "why_tests_cant": "Depends on what all methods inserted.", "anchors": ["src/clazz.rs 71-133"]}
{"id": "C63", "title": "Nested dynamic constants", "statement": "A dynamic constant used as bootstrap argument refers, in the written file, to its own bootstrap method.", "quantifier": "all nestings", "why_tests_cant": "Arbitrary nesting.", "anchors": ["src/clazz.rs 105-129"]}
{"id": "C64", "title": "Rewriting is stable", "statement": "Reading and writing a class repeatedly does not change it.", "quantifier": "all classes, any number of iterations", "why_tests_cant": "Iteration count unbounded.", "anchors": ["src/clazz.rs", "src/cp.rs insert_bsm 231"]}
{"id": "C65", "title": "Reading never panics", "statement": "Reading any byte sequence returns a value or an error.", "quantifier": "all byte sequences", "why_tests_cant": "All malformed inputs.", "anchors": ["src/clazz.rs", "src/code.rs", "src/insn.rs", "src/cp.rs"]}
{"id": "C66", "title": "Truncated input is rejected", "statement": "Every strict prefix of a written class file is rejected with an error, and reading consumes exactly the written bytes.", "quantifier": "all classes, all crash points (prefix lengths)", "why_tests_cant": "All cut points of all files.", "anchors": ["src/clazz.rs", "src/rw.rs"]}
{"id": "C67", "title": "Magic number", "statement": "Reading succeeds only if the first four bytes are CA FE BA BE and written classes start with them.", "quantifier": "all byte sequences", "why_tests_cant": "Negative claim on all inputs.", "anchors": ["src/clazz.rs 44-69"]}
{"id": "C68", "title": "ASCII case conversion", "statement": "to_ascii_lowercase / to_ascii_uppercase map exactly the ASCII letters of a well-formed string and leave every other code point (surrogates included) unchanged; the result is well-formed.", "quantifier": "every well-formed WTF-8 string", "why_tests_cant": "infinitely many strings; a byte-wise conversion could touch continuation bytes of some multi-byte character", "anchors": ["wtf8/src/lib.rs: Wtf8Str::to_ascii_lowercase, to_ascii_uppercase, make_ascii_lowercase"]}
{"id": "C69", "title": "Signature parsing does not panic", "statement": "Parsing any string as a class, method, field or type signature returns Ok or Err, never panics.", "quantifier": "every string", "why_tests_cant": "the depth and shape of signature texts is unbounded; a panic may hide in any of them", "anchors": ["src/signature.rs: ref_type_sig, type_sig, class_sig, method_sig, FromStr"]}
{"id": "C70", "title": "Signature parser accepts only complete signatures", "statement": "FromStr of a signature type accepts a string only if the whole string is a signature.", "quantifier": "every string", "why_tests_cant": "tests try a few trailing characters only", "anchors": ["src/signature.rs: ref_type_sig, type_sig, class_sig, method_sig, FromStr"]}
{"id": "C71", "title": "Building array types", "statement": "Type::array(dim, t) is the array type with dim more dimensions than t: its descriptor is dim times '[' followed by the descriptor of t, its element is no array, and building in two steps is building once with the sum.", "quantifier": "all field types and all dim", "why_tests_cant": "All 255 x 255 pairs of dimensions over every element type, including the ones that overflow the u8.", "anchors": ["src/ty.rs: Type::array 80-88"]}
{"id": "C72", "title": "Writing a class terminates", "statement": "Writing a class finishes: the loop that writes the bootstrap method table ends.", "quantifier": "all classes and heaps of bootstrap methods", "why_tests_cant": "Non-termination cannot be observed by a test; the number of rounds depends on the nesting of dynamic constants.", "anchors": ["src/clazz.rs 105-129", "src/cp.rs insert_bsm 231"]}
{"id": "C73", "title": "Debug and release builds read the same", "statement": "For every input, a debug build returns exactly what a release build returns (value, rest of the input, error or panic), or it panics with an arithmetic overflow.", "quantifier": "all byte sequences", "why_tests_cant": "Needs two builds and all inputs; the differing inputs are rare (256 dimensions, full constant pools, local variable ranges past 65535).", "anchors": ["src/clazz.rs 44-69", "src/ty.rs 114", "src/cp.rs 157", "src/code.rs 177", "src/insn.rs"]}
{"id": "C74", "title": "Strings are ordered by code points", "statement": "Comparing two WTF-8 strings orders them as their sequences of code points (surrogates included), and they are equal exactly when the sequences are.", "quantifier": "all pairs of well-formed strings", "why_tests_cant": "All pairs of lengths and code points; the order across the encoding lengths is where UTF-16 order differs.", "anchors": ["wtf8/src/lib.rs 132, 405 (derived Ord)"]}
{"id": "C75", "title": "Iterators stay valid and keep their size hints", "statement": "After any number of calls of next, the code point iterator's remaining string is well-formed WTF-8 of the code points not yet returned, the UTF-16 iterator returns exactly the remaining code units, and the number of items left is within size_hint.", "quantifier": "all strings, all iterator states", "why_tests_cant": "All states of the iterators, half-emitted surrogate pairs included; a wrong hint or an invalid rest is undefined behaviour downstream, not a wrong result.", "anchors": ["wtf8/src/lib.rs 1075-1146"]}
{"id": "C76", "title": "Formatting of strings", "statement": "Debug output is the quoted sequence of escaped code points with surrogates as \\u{xxxx}; Display output is the string with each surrogate replaced by U+FFFD.", "quantifier": "all well-formed strings, all escaping functions", "why_tests_cant": "All mixtures of surrogates and other code points.", "anchors": ["wtf8/src/lib.rs 141-190"]}
{"id": "C77", "title": "ASCII operations see code points", "statement": "ascii_byte_at gives the ASCII code point at a position and 0xFF inside any other code point, is_ascii and eq_ignore_ascii_case agree with the code points.", "quantifier": "all well-formed strings and positions", "why_tests_cant": "All positions, also those inside multi-byte code points.", "anchors": ["wtf8/src/lib.rs 271, 372-379"]}
{"id": "C78", "title": "Class files of other programs", "statement": "Every class file in the format of the JVMS, whichever encodings, constant pool layout, attribute order and table splitting its writer chose, is read as the class it represents: same members and attributes, same instructions with their line numbers, and dynamic constants (also those that refer to each other in circles) with the same contents.", "quantifier": "all classes and all conforming files for them, both build modes", "why_tests_cant": "The space of encodings of one class is unbounded; test files come from few compilers. Cyclic references only appear in hand-made files.", "anchors": ["src/clazz.rs: 25-69", "src/code.rs: 105-300", "src/dynamic.rs: 15-31", "src/cp.rs: 60-200"]}
{"id": "C79", "title": "Equality and hashing of constants", "statement": "For dynamic constants (Dynamic: shared, possibly still empty bootstrap method cell, name, descriptor) and the constants inside them: `==` answers true exactly if the two describe the same constant (same name, descriptor, and bootstrap methods alike all the way down, wherever the cells are), it is an equivalence, a clone is equal at once, and equal constants give a Hasher the same bytes; different constants give it different bytes, also as prefix of a longer key. Both operations come to an end.", "quantifier": "All heaps of bootstrap methods (cyclic ones included), all constants, all recursion depths", "why_tests_cant": "Cycles of bootstrap arguments only come out of unusual class files; equality has to be compared with structural sameness over unboundedly deep nesting, and a test cannot show that a recursion never ends", "anchors": ["src/dynamic.rs:9", "src/dynamic.rs:82", "src/dynamic.rs:92", "src/dynamic.rs:100", "src/loadable.rs:62", "src/loadable.rs:165", "src/ty.rs:10", "src/member.rs:15", "wtf8/src/lib.rs:745", "wtf8/src/lib.rs:1326"]}
{"id": "C80", "title": "Instruction constructors do what their names say", "statement": "Every constructor of Instruction named after a JVM mnemonic (getstatic, invokevirtual, invokestatic, iadd, isub, irem, imul, ineg, ifeq, if_icmpeq, if_icmpne, if_icmple, if_icmpgt) and load/store builds the instruction that is written with the JVMS opcode of that mnemonic (load/store: of the type's load/store, wide from index 256 on), and that opcode reads back as what the constructor builds.", "quantifier": "All members, labels, offsets, local variable types and indices, pools and reader states", "why_tests_cant": "The names are connected with opcodes only through two conversion tables; a test on iadd says nothing about irem", "anchors": ["src/code/structure.rs:328", "src/code/structure.rs:337", "src/code/structure.rs:343", "src/code/structure.rs:361", "src/code/convert.rs:415", "src/code.rs:412"]}
{"id": "C81", "title": "A string under any sequence of calls", "statement": "Starting from an empty Wtf8String, whatever sequence of push, push_char, push_str, push_wtf8, extend, clear, truncate, range indexing, ASCII case conversion, from_wide, from_bytes and clone_into is made, the string stays well-formed WTF-8, stands for exactly the 16-bit units which the calls describe, is the string from_wide builds from these units, and the only panic is the documented one of truncate and range indexing at a position that is not between two code points. Safe calls never lead to undefined behaviour.", "quantifier": "All finite sequences of calls with arguments of the declared types", "why_tests_cant": "The joining of surrogates, the final-surrogate bookkeeping and the validator meet only in particular interleavings; tests try a few of infinitely many, and undefined behaviour need not show", "anchors": ["wtf8/src/lib.rs:438", "wtf8/src/lib.rs:484", "wtf8/src/lib.rs:623", "wtf8/src/lib.rs:634", "wtf8/src/lib.rs:803", "wtf8/src/lib.rs:820"]}
{"id": "C82", "title": "Debug and release builds write the same", "statement": "For every class, what a debug build writes, or refuses with an error, a release build writes or refuses likewise; the only thing a debug build does differently is to panic because of an arithmetic overflow.", "quantifier": "all classes, heaps of bootstrap methods and numbers of rounds", "why_tests_cant": "Needs two builds and all classes; the differing classes are unusual (switches without cases, variables that end before they begin).", "anchors": ["src/clazz.rs 71-134", "src/code.rs 250-600", "src/insn.rs 38-80", "src/cp.rs 231"]}
{"id": "C83", "title": "What writing a class can come to", "statement": "Writing a class returns bytes, returns an error, or panics: because of an overflow in a debug build, because of a lazy cell that is not set or a label that is not defined, or not at all because the bootstrap method table has no end. A release build does not panic on a class whose cells are set, whose labels are defined and whose bootstrap arguments are nested finitely.", "quantifier": "all classes of the Rust types and all heaps", "why_tests_cant": "All classes that can be built, not only those that come from files.", "anchors": ["src/clazz.rs 71-134", "src/code.rs 250-600", "src/insn.rs", "src/cp.rs"]}
{"id": "C84", "title": "Validation errors say how long the bad sequence is", "statement": "When Wtf8Str::from_bytes fails: error_len() = None means that the input ends 1 to 3 bytes behind valid_up_to() and more bytes could make it valid; error_len() = Some(n) means that the n bytes from valid_up_to() are in the input, are invalid whatever follows, and that decoding can resume behind them.", "quantifier": "all byte sequences and all continuations", "why_tests_cant": "All invalid inputs and all continuations of them.", "anchors": ["wtf8/src/lib.rs 1145-1188", "wtf8/src/lib.rs 1215-1317"]}
{"id": "C85", "title": "Single code points", "statement": "Codepoint::from_u32 accepts exactly 0..=0x10FFFF; to_char gives exactly the scalar values and from_char inverts it; to_char_lossy replaces surrogates by U+FFFD; Debug prints U+ and four to six upper-case hexadecimal digits that denote the code point.", "quantifier": "all code points and characters", "why_tests_cant": "1.1 million code points, all numbers.", "anchors": ["wtf8/src/lib.rs 36-126"]}
{"id": "C86", "title": "Reading and writing are reproducible", "statement": "Reading the same bytes twice yields equal classes and writing the same class twice yields the same bytes, although maps are walked in the arbitrary order of std's HashMap; and whatever orders are taken, a class that is written and read is the same class.", "quantifier": "all classes and files, all orders of every hash map", "why_tests_cant": "The order of a HashMap is random per map: a test sees one order per run and passes or fails by chance.", "anchors": ["src/annotation/mod.rs: ConstantPoolReadWrite for HashMap", "src/code.rs: Code::read_from (local_vars.into_values())"]}
{"id": "C87", "title": "A class that was read can be written", "statement": "Whatever bytes Class::read_from accepts, writing the resulting class does not panic: it gives a file, or an error.", "quantifier": "all byte sequences that are read as a class, both build profiles", "why_tests_cant": "The files that lead to a panic are ones no compiler produces (dynamic constants without bootstrap methods, bootstrap methods that depend on themselves), but an attacker can.", "anchors": ["src/clazz.rs: ReadWrite for Class", "src/cp.rs: MapCp::bootstrap_methods", "src/rw.rs: insert_dynamic, insert_invokedynamic", "src/code.rs: Code::write_to"]}
{"id": "C88", "title": "Borrowed constant pool entries", "statement": "A ConstEntryRef is written as the RawConstantEntry with the same content, and reads back.", "quantifier": "all seventeen kinds of entry and all contents", "why_tests_cant": "ConstEntryRef is public but unused in the crate; no test writes one.", "anchors": ["src/cp.rs: StrRef, ConstEntryRef"]}
{"id": "C89", "title": "Derived codecs read back what they write", "statement": "derive(ReadWrite) and derive(ConstantPoolReadWrite): whatever struct or tagged enum they are applied to, if every field reads back what it writes, so does the whole type.", "quantifier": "all declarations (any number of variants and fields, any tags, any codecs), all values, with or without constant pool", "why_tests_cant": "Tests exercise the derived code of single types, not the macro over all declarations.", "anchors": ["coffer_macros/src/derive.rs: derive_readwrite_impl, derive_constant_pool_readwrite_impl"]}
{"id": "C90", "title": "Derived attribute enums use each field's own helper", "statement": "derive(AttributeEnum): every variant is read with the helpers (coffer(as = ..)) it is written with, wherever the raw variant is declared.", "quantifier": "all declarations", "why_tests_cant": "The macro is only run on four enums, all with the raw variant last.", "anchors": ["coffer_macros/src/derive.rs: attr_enum"]}
{"id": "C91", "title": "A class file from elsewhere survives being read and written", "statement": "Whatever file Class::read_from accepts: writing the class gives a new file (shorter encodings, other pool, other order of tables), and reading that file gives the same class.", "quantifier": "all byte sequences that are read as a class; every later rewriting", "why_tests_cant": "Other compilers and other tools encode the same class in ways the crate's writer never does (wide forms, ldc_w, unsorted switches, unused pool entries, padding that is not zero); a round-trip test starts from files at hand.", "anchors": ["src/clazz.rs: ReadWrite for Class", "src/code.rs: ReadWrite for Code", "src/code/convert.rs: read_insn, write_insn"]}
{"id": "C92", "title": "Different classes are written as different files", "statement": "Two classes that are written to the same bytes are the same class, up to the names of labels and of the cells that hold bootstrap methods.", "quantifier": "all pairs of classes, both build profiles, also mixed", "why_tests_cant": "Equality of outputs over all pairs of inputs cannot be sampled: a round-trip test compares one class with itself, and an instruction the writer forgets or confuses with another goes unnoticed unless a test uses just this instruction.", "anchors": ["src/clazz.rs: ReadWrite for Class (write_to)", "src/code.rs: ConstantPoolReadWrite for Code (write_to)", "src/code/convert.rs: write_insn"]}
{"id": "C93", "title": "Options of the derive macros are applied or refused", "statement": "Whatever #[coffer(..)] options, tag attributes and discriminants a declaration carries, derive(ReadWrite), derive(ConstantPoolReadWrite) and derive(AttributeEnum) either generate code that follows every one of them or report a compile error: none is silently dropped, and the macro does not panic.", "quantifier": "all structs and enums with any attributes on the type, on variants and on fields, any discriminants; any parser for types; the macros built in either profile", "why_tests_cant": "A misspelt or misplaced option that is ignored compiles and reads back what it writes; only files made by others show the wrong tag or width. The declarations of the crate exercise a handful of the forms the option parser accepts.", "anchors": ["coffer_macros/src/derive.rs: CofferConfig::parse, VariantConfig::parse, FieldConfig::parse, parse_common", "coffer_macros/src/derive.rs: derive_readwrite_impl, derive_constant_pool_readwrite_impl, attr_enum", "coffer_macros/src/lib.rs: decl_derive! ReadWrite"]}
{"id": "C94", "title": "What a class that was read says stands in the constant pool of its file", "statement": "Every string of a class that was read is the decoding of a CONSTANT_Utf8 entry of the file, every descriptor and signature is parsed from such a string: nothing is invented, taken from another entry kind or from outside the pool. If these entries are proper modified UTF-8, every string fits an entry again, and so does the text of every descriptor and signature.", "quantifier": "all accepted files, both build profiles (release: less than 65535 entries); all strings, descriptors and signatures of the class, its fields, methods, code, annotations, attributes and bootstrap methods; not the contents of SourceDebugExtension, which is no pool entry", "why_tests_cant": "A test compares the strings it expects; that no path of the reader mixes up index kinds, takes an index of the wrong entry or a stale buffer has to hold for every nesting of attributes, annotations and instructions.", "anchors": ["src/cp.rs: read_wtf8, read_indirect_str, read_nameandtype, read_member, read_constant", "src/rw.rs: ConstantPoolReadWrite for Cow<Wtf8Str>, Type, signatures", "src/clazz.rs: ReadWrite for Class (read_from)"]}
{"id": "C95", "title": "The texts in the pool of a written file are those of the class", "statement": "Every CONSTANT_Utf8 entry of a written file is the encoding of a string of the class, of the text of one of its descriptors or signatures, of the name of an attribute the crate knows, or of V: the writer puts no other text into a file. For a file that was read and is written again these are the texts of the file itself, the texts of the descriptors and signatures parsed from them, and these fixed names.", "quantifier": "all classes and heaps that are written without an error, both build profiles, any number of rounds over the bootstrap methods, also when the counter of the pool wraps around; every set of strings that contains those of the class; texts of less than 65536 bytes", "why_tests_cant": "A test looks for the entries it expects; that nothing else comes into the pool (text of another class from a shared buffer, names of attributes that are not written, a wrong descriptor) has to hold for every path of the writer, including the bootstrap methods that are found only while writing.", "anchors": ["src/cp.rs: insert_raw, insert_wtf8, insert_nameandtype, insert_member, insert_constant, insert_dynamic", "src/rw.rs: ConstantPoolReadWrite (write_to)", "src/clazz.rs: ReadWrite for Class (write_to)"]}
{"id": "C96", "title": "Everything a class says stands in the constant pool of its file", "statement": "Every string of a class that was written is the decoding of a CONSTANT_Utf8 entry of the file, every descriptor and signature of the class is what such an entry is parsed to; so are those of the bootstrap methods behind its dynamic constants. With C95: the texts of the file are those of the class and the fixed names, no more and no less.", "quantifier": "all well-formed classes of C61 (in particular without array creations and putstatic, C47) whose class names in checkcast and instanceof do not start with '[', both build profiles (release: the pool within 65535), files below 4 GiB", "why_tests_cant": "A test looks for the entries it expects; that no string is dropped, shortened or replaced on its way into the pool has to hold for every kind of attribute, annotation and instruction, at any depth.", "anchors": ["src/cp.rs: insert_raw, insert_wtf8, insert_nameandtype, insert_member, insert_constant, insert_dynamic", "src/rw.rs: ConstantPoolReadWrite (write_to)", "src/clazz.rs: ReadWrite for Class (write_to)", "src/code.rs: Code (write_to)"]}
{"id": "C97", "title": "Signatures and descriptors are no longer when they are shown again than when they were parsed", "statement": "If a field, method or class signature is parsed from a text, what its Display implementation prints, together with the text that is left over, is no longer than that text: counted in characters, in bytes of UTF-8, and in bytes of a CONSTANT_Utf8 entry. So a signature that fitted an entry of the constant pool fits again. The same for descriptors, in bytes.", "quantifier": "all texts that the parsers accept, well-formed or not (empty brackets, thrown variables, wrapped depths of arrays, text left over), both build profiles", "why_tests_cant": "The parsers accept more than the grammar: what they make of such texts is shown in a different form. A test tries a few of them, and cannot tell that no accepted text makes the printed form longer.", "anchors": ["src/signature.rs: FromStr and Display for FieldSignature, MethodSignature, ClassSignature", "src/signature.rs: type_args, type_parameters, type_parameter, throws, packages"]}
{"id": "C98", "title": "The bounds by which the code writer chooses between short and long jumps are bounds", "statement": "Before positions are known, Code::write_to estimates where the instructions after each jump and switch begin at the latest. Whatever sizes are then chosen, none of them begins later than estimated; so a jump or jsr that is given two bytes for its offset has its target within the first 65535 bytes of the code.", "quantifier": "all lists of jumps and switches with all numbers of targets, all code between them, all labels, all paddings", "why_tests_cant": "The estimate matters only for methods near 64 KiB, and is wrong only for some alignments of a switch.", "anchors": ["src/code.rs: Code (write_to), index_hints 283-303, actual sizes 317-377"]}
