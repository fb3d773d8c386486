{
 "claims": [
  {
   "property": "C01",
   "status": "proved",
   "theorems": [
    "C01_mutf8_roundtrip"
   ],
   "note": ""
  },
  {
   "property": "C02",
   "status": "proved",
   "theorems": [
    "C02_mutf8_encoder_format"
   ],
   "note": ""
  },
  {
   "property": "C03",
   "status": "proved",
   "theorems": [
    "C03_mutf8_decoder_agrees"
   ],
   "note": ""
  },
  {
   "property": "C04",
   "status": "partial",
   "theorems": [
    "C04_mutf8_decoder_strict_refuted",
    "C04_mutf8_decoder_strict_partial",
    "C04_mutf8_decoder_never_panics"
   ],
   "note": "REFUTED as stated: raw NUL, 4-byte UTF-8 and surrogate halves with a non-continuation third byte are accepted. The _partial theorem proves strictness away from exactly these three; the decoder never panics."
  },
  {
   "property": "C05",
   "status": "proved",
   "theorems": [
    "C05_validator_complete"
   ],
   "note": ""
  },
  {
   "property": "C06",
   "status": "partial",
   "theorems": [
    "C06_validator_sound_refuted",
    "C06_validator_sound_partial",
    "C06_validator_total"
   ],
   "note": "REFUTED as stated: ED A0 41 is accepted. The _partial theorem shows the unchecked third byte of an encoded lead surrogate is the only hole."
  },
  {
   "property": "C07",
   "status": "partial",
   "theorems": [
    "C07_valid_up_to_prefix",
    "C07_valid_up_to_max_partial",
    "C07_valid_up_to_max_refuted"
   ],
   "note": "Prefix validity proved; maximality REFUTED for encoded surrogate pairs (error_len 6), proved for all other errors."
  },
  {
   "property": "C08",
   "status": "proved",
   "theorems": [
    "C08_wide_lossless",
    "C08_wide_back",
    "C08_wide_units"
   ],
   "note": ""
  },
  {
   "property": "C09",
   "status": "proved",
   "theorems": [
    "C09_push",
    "C09_push_char",
    "C09_push_wtf8"
   ],
   "note": ""
  },
  {
   "property": "C10",
   "status": "proved",
   "theorems": [
    "C10_as_str",
    "C10_lossy"
   ],
   "note": ""
  },
  {
   "property": "C11",
   "status": "proved",
   "theorems": [
    "C11_codepoints",
    "C11_collect"
   ],
   "note": ""
  },
  {
   "property": "C12",
   "status": "proved",
   "theorems": [
    "C12_index_range",
    "C12_index_from_to",
    "C12_truncate"
   ],
   "note": ""
  },
  {
   "property": "C13",
   "status": "proved",
   "theorems": [
    "C13_unsigned",
    "C13_signed",
    "C13_short_input",
    "C13_read_determines"
   ],
   "note": "any width; f32/f64 by bit pattern"
  },
  {
   "property": "C14",
   "status": "proved",
   "theorems": [
    "C14_total_eq_bits",
    "C14_total_order",
    "C14_total_trans"
   ],
   "note": ""
  },
  {
   "property": "C15",
   "status": "proved",
   "theorems": [
    "C15_flags_read",
    "C15_flags_roundtrip"
   ],
   "note": ""
  },
  {
   "property": "C16",
   "status": "proved",
   "theorems": [
    "C16_version_write",
    "C16_version_read"
   ],
   "note": ""
  },
  {
   "property": "C17",
   "status": "proved",
   "theorems": [
    "C17_vec_exact_or_error"
   ],
   "note": ""
  },
  {
   "property": "C18",
   "status": "partial",
   "theorems": [
    "C18_bootstrap_args_refuted",
    "C18_annotation_array_refuted",
    "C18_annotation_map_refuted",
    "C18_frame_refuted",
    "C18_counts_partial"
   ],
   "note": "REFUTED: bootstrap argument, annotation array, annotation element and full-frame counts are truncated to 16 bits; for every longer vector the output does not read back as the value. C18_counts_partial: the count written reads as the number of elements modulo 65536, so it is right for up to 65535."
  },
  {
   "property": "C19",
   "status": "partial",
   "theorems": [
    "C19_string_prefix_partial",
    "C19_string_prefix_refuted"
   ],
   "note": "REFUTED for strings longer than 65535 modified UTF-8 bytes (length is truncated); true otherwise"
  },
  {
   "property": "C20",
   "status": "proved",
   "theorems": [
    "C20_entry_layout",
    "C20_unknown_tag"
   ],
   "note": ""
  },
  {
   "property": "C21",
   "status": "proved",
   "theorems": [
    "C21_insertion"
   ],
   "note": "Any sequence of raw insertions that fits; overflow is C23."
  },
  {
   "property": "C22",
   "status": "proved",
   "theorems": [
    "C22_write_read",
    "C22_pool_layout"
   ],
   "note": ""
  },
  {
   "property": "C23",
   "status": "partial",
   "theorems": [
    "C23_insert_overflow_refuted",
    "C23_read_overflow_refuted",
    "C23_within_partial"
   ],
   "note": "REFUTED: the u16 counter wraps in release builds and panics in debug builds, both when inserting and when reading. C23_within_partial: up to 65535 slots, in both profiles, every entry gets its own slot."
  },
  {
   "property": "C24",
   "status": "partial",
   "theorems": [
    "C24_constants_roundtrip_partial",
    "C24_insert_total",
    "C24_surrogate_descriptor_refuted"
   ],
   "note": "REFUTED for descriptors naming classes with lone surrogates (written through Display with U+FFFD); proved for all other constants, after any later insertions, as long as the pool fits."
  },
  {
   "property": "C25",
   "status": "proved",
   "theorems": [
    "C25_member_kind",
    "C25_field_flag"
   ],
   "note": ""
  },
  {
   "property": "C26",
   "status": "proved",
   "theorems": [
    "C26_resolve",
    "C26_register"
   ],
   "note": "Every registered cell receives the bootstrap method at its index and a missing index is an error."
  },
  {
   "property": "C27",
   "status": "partial",
   "theorems": [
    "C27_check_partial",
    "C27_check_refuted",
    "C27_codec_checks"
   ],
   "note": "REFUTED: the interface flag is ignored; everything else of the table is proved exactly."
  },
  {
   "property": "C28",
   "status": "proved",
   "theorems": [
    "C28_write_is_jvms_text",
    "C28_print_parse"
   ],
   "note": ""
  },
  {
   "property": "C29",
   "status": "partial",
   "theorems": [
    "C29_trailing_input_refuted",
    "C29_nested_method_refuted",
    "C29_accepts_prefix_partial"
   ],
   "note": "REFUTED: trailing input is ignored and nested method types are accepted; the accepted prefix is the text of the result"
  },
  {
   "property": "C30",
   "status": "proved",
   "theorems": [
    "C30_array_safety"
   ],
   "note": ""
  },
  {
   "property": "C31",
   "status": "partial",
   "theorems": [
    "C31_no_panic_refuted",
    "C31_release_wraps_refuted",
    "C31_no_panic_partial"
   ],
   "note": "REFUTED for 256 leading '[' with overflow checks; no other panic"
  },
  {
   "property": "C32",
   "status": "partial",
   "theorems": [
    "C32_display_agrees_partial",
    "C32_display_lossy",
    "C32_display_refuted"
   ],
   "note": "REFUTED for names with lone surrogates; true otherwise. C32_display_lossy: for all types Display is the lossy conversion of the descriptor, so lone surrogates are all that differs."
  },
  {
   "property": "C33",
   "status": "partial",
   "theorems": [
    "C33_class_display",
    "C33_class_sig_reparsed",
    "C33_class_sig_roundtrip_partial",
    "C33_class_sig_roundtrip_refuted",
    "C33_class_sig_stable"
   ],
   "note": "REFUTED for type parameters with more than one bound: the further bounds come back as nameless parameters. Proved for all class signatures whose parameters have at most one bound; the exact result is proved for all, and that a signature that was printed and parsed once stays as it is."
  },
  {
   "property": "C34",
   "status": "partial",
   "theorems": [
    "C34_method_sig_reparsed",
    "C34_method_sig_roundtrip_partial",
    "C34_throws_variable_refuted",
    "C34_method_sig_stable"
   ],
   "note": "REFUTED for thrown type variables (printed as a class) and for several bounds; proved otherwise; the exact result is proved for all, and that a signature that was printed and parsed once stays as it is."
  },
  {
   "property": "C35",
   "status": "proved",
   "theorems": [
    "C35_field_sig_roundtrip",
    "C35_type_sig_roundtrip"
   ],
   "note": ""
  },
  {
   "property": "C36",
   "status": "partial",
   "theorems": [
    "C36_class_text_preserved",
    "C36_field_text_preserved",
    "C36_method_text_preserved_partial",
    "C36_grammar_preserved",
    "C36_throws_variable_refuted"
   ],
   "note": "REFUTED for method signatures that throw a type variable; class and field signature texts are preserved, also when several bounds are misparsed."
  },
  {
   "property": "C37",
   "status": "partial",
   "theorems": [
    "C37_read_framing",
    "C37_trailing_field",
    "C37_trailing_method",
    "C37_trailing_class",
    "C37_write_framing",
    "C37_long_body_refuted"
   ],
   "note": "Reading: proved for every attribute. Writing: REFUTED for bodies of 4 GiB and more (the length is cut to 32 bits); the true length is proved below that. Trailing bytes: SourceDebugExtension takes any body by design; Code and BootstrapMethods are covered by C37_read_framing only."
  },
  {
   "property": "C38",
   "status": "proved",
   "theorems": [
    "C38_unknown_field",
    "C38_unknown_method",
    "C38_unknown_class"
   ],
   "note": "Names of at most 65535 encoded bytes, bodies below 4 GiB."
  },
  {
   "property": "C39",
   "status": "proved",
   "theorems": [
    "C39_annotation_roundtrip",
    "C39_value_roundtrip"
   ],
   "note": "In any file whose pool fits; layout of JVMS 4.7.16 and exact read back."
  },
  {
   "property": "C40",
   "status": "proved",
   "theorems": [
    "C40_constant_range"
   ],
   "note": ""
  },
  {
   "property": "C41",
   "status": "partial",
   "theorems": [
    "C41_class_type_annotation",
    "C41_method_type_annotation",
    "C41_field_type_annotation",
    "C41_code_type_annotation",
    "C41_targets_disjoint",
    "C41_missing_catch_refuted"
   ],
   "note": "Proved for all targets whose labels and catches exist in the code. REFUTED for a catch parameter whose catch is not in the exception table: its operand is dropped and the attribute is malformed."
  },
  {
   "property": "C42",
   "status": "proved",
   "theorems": [
    "C42_module_roundtrip"
   ],
   "note": ""
  },
  {
   "property": "C43",
   "status": "proved",
   "theorems": [
    "C43_field_roundtrip",
    "C43_method_roundtrip",
    "C43_class_attribute_roundtrip",
    "C43_inner_class_roundtrip",
    "C43_parameter_roundtrip"
   ],
   "note": "For values below 4 GiB; signatures within the limits established by C33-C35; BootstrapMethods is a matter of the class level."
  },
  {
   "property": "C44",
   "status": "partial",
   "theorems": [
    "C44_frame_roundtrip",
    "C44_frame_jvms_partial",
    "C44_refuses",
    "C44_reserved",
    "C44_empty_append_refuted"
   ],
   "note": "Round trip proved for all frames the format can express, with labels compared by offset. REFUTED for an append frame without locals (reads back as a same frame). The layout is that of JVMS 4.7.4 unless a long or double occurs (C45)."
  },
  {
   "property": "C45",
   "status": "partial",
   "theorems": [
    "C45_long_double_refuted",
    "C45_tags_partial",
    "C45_rejects",
    "C45_reads_partial"
   ],
   "note": "REFUTED: long is written with the tag of double and double with that of long; every other tag is the JVMS one. C45_reads_partial: the reader gives each of the other tags its JVMS meaning."
  },
  {
   "property": "C46",
   "status": "proved",
   "theorems": [
    "C46_codec",
    "C46_only_jvms",
    "C46_rejects"
   ],
   "note": ""
  },
  {
   "property": "C47",
   "status": "partial",
   "theorems": [
    "C47_selection_partial",
    "C47_putstatic_refuted",
    "C47_newarray_refuted"
   ],
   "note": "REFUTED in two cases: Field(Put, Static) is written as getstatic and NewArray writes no bytes at all. Proved for every other non-jump instruction."
  },
  {
   "property": "C48",
   "status": "partial",
   "theorems": [
    "C48_roundtrip_partial",
    "C48_foreign"
   ],
   "note": "Round trip for all non-jump instructions but putstatic and newarray (C47), and dynamic Push (C60). C48_foreign: any JVMS encoding of an instruction (not just the one written; putstatic and array creation included, except of classes with names like descriptors, C50) reads back to it."
  },
  {
   "property": "C49",
   "status": "proved",
   "theorems": [
    "C49_exact",
    "C49_shortest"
   ],
   "note": ""
  },
  {
   "property": "C50",
   "status": "partial",
   "theorems": [
    "C50_letter_refuted",
    "C50_dimensions_refuted",
    "C50_names_partial"
   ],
   "note": "REFUTED: a class whose name begins with a descriptor (such as Foo, which begins with F) is read as the primitive type; anewarray of an array class and one-dimensional multianewarray of it cannot be told apart. Proved for array class names and names not beginning with a descriptor."
  },
  {
   "property": "C51",
   "status": "proved",
   "theorems": [
    "C51_negation"
   ],
   "note": ""
  },
  {
   "property": "C52",
   "status": "proved",
   "theorems": [
    "C52_offsets",
    "C52_format"
   ],
   "note": "Quantifier: well-formed code whose instructions, taken as long as they can be (in_range), are no more than 65535 bytes and whose jumps are within 16 bits of their labels.  C54 says what happens outside."
  },
  {
   "property": "C53",
   "status": "partial",
   "theorems": [
    "C53_written_partial",
    "C53_reads_table",
    "C53_reads_lookup",
    "C53_far_refuted"
   ],
   "note": "REFUTED for writing: behind a goto or jsr over 32765 to 65530 bytes (C54) switch operands are aligned for a position two bytes too low (C53_far_refuted). Reading: all positions and tables, any padding bytes.  Writing: for code in range (in_range)."
  },
  {
   "property": "C54",
   "status": "partial",
   "theorems": [
    "C54_goto_refuted",
    "C54_conditional_refuted",
    "C54_goto_partial"
   ],
   "note": "REFUTED: goto/jsr over 32765 to 65530 one-byte instructions take five bytes where three were counted: the declared code length and the offset are wrong by two.  A conditional jump that is too far is written as ten bytes beginning with the opposite jump to itself.  Only goto/jsr over more than 65530 bytes are right."
  },
  {
   "property": "C55",
   "status": "partial",
   "theorems": [
    "C55_labels",
    "C55_boundary",
    "C55_line_refuted"
   ],
   "note": "REFUTED for line numbers: C55_line_refuted, a LineNumberTable entry at an offset that is no instruction boundary makes the reader panic (index of a map by a missing key, code.rs 169) instead of returning an error. C55_labels: whatever code attribute was read, distinct offsets have distinct labels, every label stands exactly once in the instruction list and at the byte offset it stands for, every label used by an instruction, handler, local variable or type annotation is among them. C55_boundary: a jump, switch or exception table entry to an offset that is no boundary is an error."
  },
  {
   "property": "C56",
   "status": "partial",
   "theorems": [
    "C56_defined",
    "C56_jumps",
    "C56_refuted"
   ],
   "note": "REFUTED as stated: an undefined label in an exception handler, a local-variable entry or a type annotation is an unwrap panic, not an error (C56_refuted). Proved: a code attribute that is written uses only labels its body defines (C56_defined), and an undefined jump or switch target gives an error (C56_jumps)."
  },
  {
   "property": "C57",
   "status": "partial",
   "theorems": [
    "C57_ranges_partial",
    "C57_far_refuted"
   ],
   "note": "REFUTED: behind such a jump (C54) the ranges written are two bytes too low (C57_far_refuted). For code in range (in_range); all handlers and variables."
  },
  {
   "property": "C58",
   "status": "partial",
   "theorems": [
    "C58_roundtrip_partial",
    "C58_foreign",
    "C58_compiled",
    "C58_far_refuted"
   ],
   "note": "REFUTED: what is written for code with such a jump (C54) is not read at all (C58_far_refuted). For code in range (in_range), under 4 GiB, with readable instructions (C48) and distinct variables.  C58_foreign: any attribute in the format of the JVMS, whatever encodings it uses.  C58_compiled: the same with line numbers, stack maps and variable tables split and ordered in any way."
  },
  {
   "property": "C59",
   "status": "partial",
   "theorems": [
    "C59_refuted",
    "C59_read_partial"
   ],
   "note": "REFUTED: what is written does not depend on the line numbers in the list.  C59_read_partial: reading a file gives every instruction the line its tables give."
  },
  {
   "property": "C60",
   "status": "partial",
   "theorems": [
    "C60_dynamic_refuted"
   ],
   "note": "REFUTED: every dynamic constant is written as a valid ldc but reading this instruction is an error."
  },
  {
   "property": "C61",
   "status": "partial",
   "theorems": [
    "C61_roundtrip_partial"
   ],
   "note": "Proved for classes whose bootstrap arguments are not dynamic and whose attribute list accounts for the table (exactly one BootstrapMethods attribute iff there are bootstrap methods); outputs below 4 GiB, constant pool within 65535 in release builds. The full statement is false: C62_refuted, C63_refuted."
  },
  {
   "property": "C62",
   "status": "partial",
   "theorems": [
    "C62_refuted",
    "C62_empty_table_refuted",
    "C62_two_tables_refuted",
    "C62_count_partial"
   ],
   "note": "REFUTED: the count is the length of the attribute list, but BootstrapMethods attributes are replaced by at most one table. C62_refuted is general: every class with dynamic constants and no BootstrapMethods attribute loses its table. C62_count_partial gives what is written and when the count is right."
  },
  {
   "property": "C63",
   "status": "partial",
   "theorems": [
    "C63_refuted",
    "C63_nested_refuted",
    "C63_numbers",
    "C63_front_partial"
   ],
   "note": "REFUTED: entries registered while the table is written are numbered from 0 again, so a nested dynamic constant refers to a wrong bootstrap method. C63_numbers gives, for all classes and any nesting, what is written for each dynamic argument; C63_nested_refuted: it is wrong for every argument whose bootstrap method is not near the front of the table; C63_front_partial: it is right where the table begins with the part the argument was numbered in. C63_refuted is a class written, read and resolved wrongly."
  },
  {
   "property": "C64",
   "status": "partial",
   "theorems": [
    "C64_refuted",
    "C64_stable_partial",
    "C64_code_stable_partial",
    "C64_code_typed_partial",
    "C64_code_refuted",
    "C64_settles_partial"
   ],
   "note": "REFUTED: every class with dynamic constants grows with each read and write (C64_refuted is general). Stable under any number of iterations: classes without code attributes (C64_stable_partial), and classes with code (C64_code_stable_partial) if there are no dynamic constants, no cast to an array class given by name, no two handlers that differ only in labels at the same places, and at most one local variable, in the last attribute. C64_code_typed_partial: the same for any class of the Rust types. C64_code_refuted: with such handlers, or variables that are not last, the second file differs. C64_settles_partial: they change once only: with any handlers, and at most one variable wherever it is, all files from the second one on are the same."
  },
  {
   "property": "C65",
   "status": "partial",
   "theorems": [
    "C65_partial",
    "C65_line_refuted",
    "C65_switch_refuted",
    "C65_dimensions_refuted"
   ],
   "note": "REFUTED: a line number at no instruction (index of a map by a missing key), a tableswitch of negative size (capacity overflow), and, with overflow checks, 256 array dimensions, among others. C65_partial: for all byte sequences these three kinds are the only panics; the reader terminates."
  },
  {
   "property": "C66",
   "status": "partial",
   "theorems": [
    "C66_refuted",
    "C66_truncated_partial",
    "C66_written_partial"
   ],
   "note": "REFUTED for classes whose attribute count is too low (C66_refuted). C66_truncated_partial: whatever is accepted, every cut inside the consumed prefix is rejected, for all byte sequences. C66_written_partial: the full statement for the classes of C61_roundtrip_partial."
  },
  {
   "property": "C67",
   "status": "proved",
   "theorems": [
    "C67_magic",
    "C67_written"
   ],
   "note": ""
  },
  {
   "property": "C68",
   "status": "proved",
   "theorems": [
    "C68_ascii_case"
   ],
   "note": ""
  },
  {
   "property": "C69",
   "status": "partial",
   "theorems": [
    "C69_signatures_total_partial",
    "C69_dimensions_refuted"
   ],
   "note": "REFUTED: 256 '[' in a row panic in debug builds; otherwise total."
  },
  {
   "property": "C70",
   "status": "partial",
   "theorems": [
    "C70_trailing_refuted",
    "C70_accepted_partial"
   ],
   "note": "REFUTED: trailing text is ignored."
  },
  {
   "property": "C71",
   "status": "partial",
   "theorems": [
    "C71_array_partial",
    "C71_twice_partial",
    "C71_too_many_refuted"
   ],
   "note": "REFUTED for more than 255 dimensions in all (C71_too_many_refuted): a panic with overflow checks, an array type with 256 dimensions too few without. The two _partial theorems are the property for up to 255."
  },
  {
   "property": "C72",
   "status": "partial",
   "theorems": [
    "C72_refuted",
    "C72_nesting",
    "C72_terminates_partial"
   ],
   "note": "REFUTED: a class with a nested dynamic constant, written, read and written again, never finishes in a release build and panics in a debug build. C72_nesting says exactly when writing ends: n+1 rounds suffice if dynamic constants in bootstrap arguments are nested at most n deep, and nothing that is nested deeper is ever written with n+1 rounds. C72_terminates_partial: one round suffices if no bootstrap argument is dynamic."
  },
  {
   "property": "C73",
   "status": "proved",
   "theorems": [
    "C73_profiles",
    "C73_accepted"
   ],
   "note": ""
  },
  {
   "property": "C74",
   "status": "proved",
   "theorems": [
    "C74_order"
   ],
   "note": ""
  },
  {
   "property": "C75",
   "status": "proved",
   "theorems": [
    "C75_codepoints",
    "C75_wide"
   ],
   "note": ""
  },
  {
   "property": "C76",
   "status": "proved",
   "theorems": [
    "C76_debug",
    "C76_display"
   ],
   "note": "char::escape_debug of the standard library is a parameter; Display with the plain format."
  },
  {
   "property": "C77",
   "status": "proved",
   "theorems": [
    "C77_byte_at",
    "C77_byte_at_end",
    "C77_is_ascii",
    "C77_ignore_case"
   ],
   "note": ""
  },
  {
   "property": "C78",
   "status": "partial",
   "theorems": [
    "C78_read_partial"
   ],
   "note": "For classes without loads of dynamic constants (C60) and without arrays of classes whose names begin like descriptors (C50), with distinct variables, known access flags, member descriptors without surrogates; files below 4 GiB."
  },
  {
   "property": "C79",
   "status": "partial",
   "theorems": [
    "C79_answer",
    "C79_answers_partial",
    "C79_clone",
    "C79_equivalence",
    "C79_hash_ends",
    "C79_hash_same",
    "C79_hash_separates",
    "C79_hash_refuted",
    "C79_eq_refuted"
   ],
   "note": "REFUTED that both operations end: hashing recurses for ever on constants whose bootstrap arguments do not come to an end (a cell reached again from itself), and reading a class file can produce such constants; comparing two self-referring constants in different cells never answers. Proved for all heaps: every answer of == is right, == answers if one side is finite, hash ends iff finite, equal constants feed equal bytes and different ones different bytes."
  },
  {
   "property": "C80",
   "status": "proved",
   "theorems": [
    "C80_arithmetic",
    "C80_members",
    "C80_locals",
    "C80_jumps"
   ],
   "note": "Jumps: opcode of the mnemonic if the offset fits 16 bits (far conditional jumps: C53)."
  },
  {
   "property": "C81",
   "status": "partial",
   "theorems": [
    "C81_trace_partial",
    "C81_undefined_refuted"
   ],
   "note": "REFUTED as stated: from_bytes accepts a lead surrogate whose third byte is not a continuation byte (C06); truncated at 2 the string makes codepoints and encode_wide undefined behaviour, in safe code. Proved for all sequences whose from_bytes arguments do not have this shape."
  },
  {
   "property": "C82",
   "status": "proved",
   "theorems": [
    "C82_profiles",
    "C82_written",
    "C82_differ"
   ],
   "note": "C82_differ: they do differ in the overflow panic, for a tableswitch without cases and for a variable that ends before it begins."
  },
  {
   "property": "C83",
   "status": "proved",
   "theorems": [
    "C83_kinds",
    "C83_release",
    "C83_each",
    "C83_needed"
   ],
   "note": "C83_each: each of the panics and the error happens. C83_needed, the converse: whatever the class, if a file comes out then every cell and label it uses is in place."
  },
  {
   "property": "C84",
   "status": "partial",
   "theorems": [
    "C84_none",
    "C84_more_partial",
    "C84_more_refuted",
    "C84_final",
    "C84_within_partial",
    "C84_within_refuted"
   ],
   "note": "REFUTED in two points. C84_more_refuted: F0 41 is reported as merely incomplete though nothing makes it valid (bytes of a four-byte sequence are looked at only when all are there). C84_within_refuted: for E0 followed by a byte that is no continuation the length is 3 though there are two bytes, and for C2..DF followed by an ASCII character the length covers that character. True: 1 to 3 bytes from the end (C84_none), completable below F0 (C84_more_partial), final (C84_final), at most one byte too long (C84_within_partial)."
  },
  {
   "property": "C85",
   "status": "proved",
   "theorems": [
    "C85_from_u32",
    "C85_chars",
    "C85_lossy",
    "C85_debug"
   ],
   "note": ""
  },
  {
   "property": "C86",
   "status": "partial",
   "theorems": [
    "C86_write_refuted",
    "C86_read_refuted",
    "C86_any_order_partial",
    "C86_single_partial"
   ],
   "note": "REFUTED: orders of the elements of an annotation that differ (outside code) give different files (C86_write_refuted), and every written class with a method with two variables is read as two different classes (C86_read_refuted). Proved: for the classes of C61, any order on both sides gives the same class up to the order of variables and annotation elements (C86_any_order_partial); with at most one element per annotation and one variable per method everything is a function (C86_single_partial)."
  },
  {
   "property": "C87",
   "status": "partial",
   "theorems": [
    "C87_refuted",
    "C87_debug_refuted",
    "C87_typed",
    "C87_kinds_partial",
    "C87_release_partial",
    "C87_endless",
    "C87_orphans"
   ],
   "note": "REFUTED: a file with an invokedynamic and no BootstrapMethods attribute is read, and writing the class panics in both profiles (C87_refuted); a tableswitch without cases makes a debug build panic (C87_debug_refuted); bootstrap methods that depend on themselves make writing endless (C87_endless). Proved for all byte sequences: these are the only panics (C87_kinds_partial, from C87_typed: everything read is of the types the writers take, with all labels and cells in place); otherwise a release build writes a file or reports Invalid (C87_release_partial). A file with dynamic constants and no table is never written again (C87_orphans)."
  },
  {
   "property": "C88",
   "status": "partial",
   "theorems": [
    "C88_refuted",
    "C88_ambiguous_refuted",
    "C88_others_partial"
   ],
   "note": "REFUTED for strings, for every string: the derived tag is 0 and no length is written, so neither reader takes the bytes, and they may be the bytes of two entries. Proved for the sixteen other kinds."
  },
  {
   "property": "C89",
   "status": "partial",
   "theorems": [
    "C89_struct",
    "C89_enum",
    "C89_distinct",
    "C89_shadowed_refuted",
    "C89_rising",
    "C89_unknown",
    "C89_crate",
    "C89_raw_entry",
    "C89_wide",
    "C89_tags"
   ],
   "note": "REFUTED for tagged enums with equal tags, which the macro does not exclude: a variant with the tag of an earlier one is never read (C89_shadowed_refuted). Proved for structs and for enums with distinct tags (C89_distinct), which they are if explicit tags go up (C89_rising), and in every enum of the crate (C89_crate). C89_raw_entry, C89_wide: the models of RawConstantEntry and Wide are the macro applied to their declarations. C89_tags: the tags are those the options, discriminants and order give."
  },
  {
   "property": "C90",
   "status": "partial",
   "theorems": [
    "C90_refuted",
    "C90_raw_last_partial",
    "C90_crate"
   ],
   "note": "REFUTED: variants declared behind the raw one are read with the helpers of the variant in front of them. True if the raw variant is last, as it is in all four attribute enums of the crate (C90_crate)."
  },
  {
   "property": "C91",
   "status": "partial",
   "theorems": [
    "C91_wf",
    "C91_again_partial",
    "C91_pool_partial",
    "C91_settles_partial",
    "C87_refuted"
   ],
   "note": "Proved for every accepted file whose class is tidy (TidySpec.v: strings that fit the pool and are well formed, no array creations and no putstatic (C47), no ldc of dynamic constants (C60), jumps within 16 bits, one bootstrap table or none without nested dynamic arguments; variables whose range does not wrap around 16 bits; nothing is asked of numbers, flags, lengths, labels, handlers, switch keys, targets and paths of annotations, slots and distinctness of variables, attribute names: these follow from the file having been read). C91_pool_partial: the conditions on strings and on the lengths of descriptors and signatures replaced by the Utf8 entries of the file being proper modified UTF-8 (C94). C91_settles_partial: without call sites and with one variable per body at most two new files arise. Without these conditions the statement is false: C87_refuted, C47, C60, C62, C63."
  },
  {
   "property": "C92",
   "status": "partial",
   "theorems": [
    "C92_refuted",
    "C92_partial"
   ],
   "note": "REFUTED: for every class, whatever its code, the file is that of the class without line numbers and without array creations and with loads in place of stores to static fields (C92_refuted; C92_refuted_ex: and that is what reading gives). C92_partial: any two classes of those of C61 (none of these instructions) with the same file agree in everything but the names of labels and cells."
  },
  {
   "property": "C93",
   "status": "partial",
   "theorems": [
    "C93_partial",
    "C93_refuted",
    "C93_struct",
    "C93_tags",
    "C93_panics",
    "C93_attr",
    "C93_attr_refuted"
   ],
   "note": "REFUTED: lib.rs 56-64 registers and documents the attributes tag, tag_type and vec_len_type for derive(ReadWrite), but derive.rs 31-54 looks only at attributes named coffer, so #[tag(7)] compiles without effect; tag_type(a::b) is neither taken nor refused (derive.rs 67-68); a discriminant that is not a literal is dropped (338-348) although rustc gives the variant that number. C93_partial: for all declarations, exactly which are taken and as what configuration, everything else a compile error, never a panic while parsing. C93_struct: a struct takes no option at all. C93_tags: tags and fields of the generated arms. C93_panics: exactly when the macro panics (no tag_type, discriminant from 2^128, in debug builds tag 2^128-1). C93_attr: attribute enums with the raw variant last; C93_attr_refuted: in front, the next variant is read with the options of the raw one, or the macro panics. Modelled: syn and synstructure by the data they hand over."
  },
  {
   "property": "C94",
   "status": "proved",
   "theorems": [
    "C94_drawn",
    "C94_proper",
    "C94_tidy"
   ],
   "note": "The entries are found by an independent walk over the bytes (pool_texts, JVMS 4.1 and 4.4). C94_proper: with proper modified UTF-8 the strings fit an entry again, and so do the texts of descriptors and signatures. C94_tidy: what C91 asks of strings and of the lengths of descriptors and signatures follows from this."
  },
  {
   "property": "C95",
   "status": "proved",
   "theorems": [
    "C95_texts",
    "C95_rewrite",
    "C95_rewrite_proper"
   ],
   "note": "The entries are found by the same independent walk over the bytes as in C94 (pool_texts). Texts that are longer than 65535 bytes are excluded: their length is cut and the rest of the file is misread (C19). C95_rewrite rests on C94_drawn. C95_rewrite_proper: for a file with proper modified UTF-8 (C94_proper) no text grows beyond the limit, so nothing is asked of lengths."
  },
  {
   "property": "C96",
   "status": "proved",
   "theorems": [
    "C96_present"
   ],
   "note": "From C61_roundtrip_partial, C83_kinds and C94_drawn. [ names are excluded because the crate reads them back as array types."
  },
  {
   "property": "C97",
   "status": "proved",
   "theorems": [
    "C97_no_longer",
    "C97_descriptor"
   ],
   "note": "The size of what is left over counts as well. The proof holds for any weight of characters that is not negative and gives L and T the same. C95_rewrite_proper uses it. C97_descriptor: the same for descriptors (release: without 256 '[' in a row, C31)."
  },
  {
   "property": "C98",
   "status": "proved",
   "theorems": [
    "C98_bound",
    "C98_narrow"
   ],
   "note": "About the intermediate positions of the writer (CodeModel.index_hints, actual, jump_size), not about the finished file; that the limit of 65535 is the wrong one for 16 bits with a sign is C54."
  }
 ]
}