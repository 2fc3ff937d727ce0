{
 "claims": [
  {
   "property": "C01",
   "status": "proved",
   "theorems": [
    "C01_encode_decode"
   ],
   "note": ""
  },
  {
   "property": "C02",
   "status": "partial",
   "theorems": [
    "C02_memory_operand_partial",
    "C02_exact_iff",
    "C02_wrong_values",
    "C02_refuted"
   ],
   "note": "The full statement is false of the code (displacements 128..=256 and >= 2^31): refuted with a witness; the displacement the CPU sees is characterised exactly for every operand."
  },
  {
   "property": "C03",
   "status": "proved",
   "theorems": [
    "C03_stream",
    "C03_prefix_free"
   ],
   "note": ""
  },
  {
   "property": "C04",
   "status": "proved",
   "theorems": [
    "C04_total",
    "C04_bad_scale_panics",
    "C04_constructor_checks"
   ],
   "note": ""
  },
  {
   "property": "C05",
   "status": "proved",
   "theorems": [
    "C05_offset32",
    "C05_offset64",
    "C05_le_bytes_meaning"
   ],
   "note": ""
  },
  {
   "property": "C06",
   "status": "proved",
   "theorems": [
    "C06_from_array",
    "C06_from_int",
    "C06_as_mut",
    "C06_equality",
    "C06_is_empty"
   ],
   "note": ""
  },
  {
   "property": "C07",
   "status": "proved",
   "theorems": [
    "C07_names",
    "C07_parse64",
    "C07_parse32",
    "C07_parse16",
    "C07_no_collision",
    "C07_parsers",
    "C07_display",
    "C07_display_injective"
   ],
   "note": ""
  },
  {
   "property": "C08",
   "status": "proved",
   "theorems": [
    "C08_execution",
    "C08_memory_exact"
   ],
   "note": "Memory operands act at the displacement of C02."
  },
  {
   "property": "C09",
   "status": "partial",
   "theorems": [
    "C09_pushed_partial",
    "C09_refuted"
   ],
   "note": "The full statement is false of the code for 128..=255 and >= 2^31: refuted; the value pushed is given for every N, with the exact condition for it to be N."
  },
  {
   "property": "C10",
   "status": "proved",
   "theorems": [
    "C10_header_any_hosts"
   ],
   "note": ""
  },
  {
   "property": "C100",
   "status": "proved",
   "theorems": [
    "C100_object",
    "C100_source",
    "C100_line",
    "C100_numbers"
   ],
   "note": "C100_object holds for all objects, also those the writer panics on; C100_line is for a run of the writer that ends well."
  },
  {
   "property": "C101",
   "status": "proved",
   "theorems": [
    "C101_object",
    "C101_source"
   ],
   "note": "For objects that fit the 32-bit fields of the format and whose names are NUL-free ASCII."
  },
  {
   "property": "C102",
   "status": "proved",
   "theorems": [
    "C102_inserted_line"
   ],
   "note": "For two accepted sources whose sections stay below 2^31 bytes; a place in .bss is not covered."
  },
  {
   "property": "C11",
   "status": "proved",
   "theorems": [
    "C11_header_fields",
    "C11_header_accepts"
   ],
   "note": ""
  },
  {
   "property": "C12",
   "status": "proved",
   "theorems": [
    "C12_flags_to_u32",
    "C12_attrs_to_u32",
    "C12_flags_from_u32",
    "C12_attrs_from_u32",
    "C12_flags_reject",
    "C12_flags_round_trip",
    "C12_attrs_round_trip",
    "C12_sort_is_set",
    "C12_equality_refuted"
   ],
   "note": "Includes the refutation of structural equality stated in the property."
  },
  {
   "property": "C13",
   "status": "proved",
   "theorems": [
    "C13_segment",
    "C13_section",
    "C13_section_equal"
   ],
   "note": ""
  },
  {
   "property": "C14",
   "status": "proved",
   "theorems": [
    "C14_symtab",
    "C14_symtab_rewrite",
    "C14_symtab_accepts",
    "C14_dysymtab",
    "C14_dysymtab_rewrite",
    "C14_dysymtab_accepts"
   ],
   "note": ""
  },
  {
   "property": "C15",
   "status": "proved",
   "theorems": [
    "C15_version",
    "C15_build_version",
    "C15_build_version_rejects",
    "C15_build_tool"
   ],
   "note": ""
  },
  {
   "property": "C16",
   "status": "proved",
   "theorems": [
    "C16_load_command",
    "C16_load_commands",
    "C16_equal"
   ],
   "note": "Section attribute lists come back in bit order (C16_equal says when that is the same list)."
  },
  {
   "property": "C17",
   "status": "proved",
   "theorems": [
    "C17_nlist"
   ],
   "note": ""
  },
  {
   "property": "C18",
   "status": "partial",
   "theorems": [
    "C18_exact",
    "C18_rewrite_partial",
    "C18_refuted"
   ],
   "note": "The full statement is false of the code for stab entries whose type byte is not 0x20: refuted; the bytes written are characterised exactly."
  },
  {
   "property": "C19",
   "status": "proved",
   "theorems": [
    "C19_read_write",
    "C19_write_read"
   ],
   "note": ""
  },
  {
   "property": "C20",
   "status": "proved",
   "theorems": [
    "C20_lookup",
    "C20_non_ascii",
    "C20_stable"
   ],
   "note": ""
  },
  {
   "property": "C21",
   "status": "proved",
   "theorems": [
    "C21_write",
    "C21_read",
    "C21_inverse"
   ],
   "note": ""
  },
  {
   "property": "C22",
   "status": "proved",
   "theorems": [
    "C22_records",
    "C22_load_command"
   ],
   "note": ""
  },
  {
   "property": "C23",
   "status": "proved",
   "theorems": [
    "C23_aligned",
    "C23_padding",
    "C23_zero_panics"
   ],
   "note": ""
  },
  {
   "property": "C24",
   "status": "proved",
   "theorems": [
    "C24_header_and_commands"
   ],
   "note": ""
  },
  {
   "property": "C25",
   "status": "proved",
   "theorems": [
    "C25_sections"
   ],
   "note": ""
  },
  {
   "property": "C26",
   "status": "proved",
   "theorems": [
    "C26_symbols",
    "C26_symbols_any_names"
   ],
   "note": ""
  },
  {
   "property": "C27",
   "status": "proved",
   "theorems": [
    "C27_relocations"
   ],
   "note": ""
  },
  {
   "property": "C28",
   "status": "proved",
   "theorems": [
    "C28_regions"
   ],
   "note": ""
  },
  {
   "property": "C29",
   "status": "proved",
   "theorems": [
    "C29_read_back"
   ],
   "note": ""
  },
  {
   "property": "C30",
   "status": "proved",
   "theorems": [
    "C30_iff_representable",
    "C30_fails_iff",
    "C30_partial_output"
   ],
   "note": ""
  },
  {
   "property": "C31",
   "status": "partial",
   "theorems": [
    "C31_present_partial",
    "C31_exact",
    "C31_refuted"
   ],
   "note": "The full statement is false of the code (symbols of empty sections are dropped): refuted; the symbols written are characterised exactly."
  },
  {
   "property": "C32",
   "status": "partial",
   "theorems": [
    "C32_never_no_sect",
    "C32_undefined",
    "C32_refuted"
   ],
   "note": "The full statement is false of the code for every Abs symbol: refuted; the section ordinal written is given."
  },
  {
   "property": "C33",
   "status": "proved",
   "theorems": [
    "C33_address_ranges",
    "C33_symbol_values"
   ],
   "note": ""
  },
  {
   "property": "C34",
   "status": "partial",
   "theorems": [
    "C34_exact",
    "C34_refuted"
   ],
   "note": "The full statement is false of the code: refuted; it holds exactly when bss covers the padding."
  },
  {
   "property": "C35",
   "status": "proved",
   "theorems": [
    "C35_accepted",
    "C35_literal",
    "C35_one_value",
    "C35_characters",
    "C35_print"
   ],
   "note": ""
  },
  {
   "property": "C36",
   "status": "proved",
   "theorems": [
    "C36_value_and_panic",
    "C36_add",
    "C36_sub",
    "C36_error"
   ],
   "note": ""
  },
  {
   "property": "C37",
   "status": "partial",
   "theorems": [
    "C37_expression_partial",
    "C37_push_partial",
    "C37_ret_partial",
    "C37_syscall_partial",
    "C37_refuted"
   ],
   "note": "The full statement is false of the code: refuted; the extra words are proved to be ignored, for every line of these forms."
  },
  {
   "property": "C38",
   "status": "proved",
   "theorems": [
    "C38_emitted",
    "C38_rejected"
   ],
   "note": ""
  },
  {
   "property": "C39",
   "status": "proved",
   "theorems": [
    "C39_string",
    "C38_emitted"
   ],
   "note": ""
  },
  {
   "property": "C40",
   "status": "proved",
   "theorems": [
    "C40_blanks",
    "C40_comment",
    "C40_empty"
   ],
   "note": ""
  },
  {
   "property": "C41",
   "status": "partial",
   "theorems": [
    "C41_rejected_partial",
    "C41_refuted"
   ],
   "note": "The full statement is false of the code: refuted; every data line with a semicolon in a string is proved to be rejected."
  },
  {
   "property": "C42",
   "status": "proved",
   "theorems": [
    "C42_mov",
    "C42_rejected",
    "C42_too_large",
    "C42_nothing_else"
   ],
   "note": ""
  },
  {
   "property": "C43",
   "status": "proved",
   "theorems": [
    "C43_push",
    "C43_no_operand",
    "C43_ret",
    "C43_syscall"
   ],
   "note": ""
  },
  {
   "property": "C44",
   "status": "proved",
   "theorems": [
    "C44_section",
    "C44_global",
    "C44_label",
    "C44_data",
    "C44_bad_section",
    "C44_bad_global",
    "C44_bad_label",
    "C44_unknown"
   ],
   "note": ""
  },
  {
   "property": "C45",
   "status": "proved",
   "theorems": [
    "session_state",
    "session_exists",
    "C45_labels",
    "C45_nothing_else"
   ],
   "note": ""
  },
  {
   "property": "C46",
   "status": "proved",
   "theorems": [
    "C46_contents"
   ],
   "note": ""
  },
  {
   "property": "C47",
   "status": "proved",
   "theorems": [
    "C47_external"
   ],
   "note": ""
  },
  {
   "property": "C48",
   "status": "proved",
   "theorems": [
    "C48_reported",
    "ends_exit",
    "ends_done",
    "ends_panic"
   ],
   "note": ""
  },
  {
   "property": "C49",
   "status": "proved",
   "theorems": [
    "C49_pieces"
   ],
   "note": ""
  },
  {
   "property": "C50",
   "status": "proved",
   "theorems": [
    "C50_size",
    "C50_ends"
   ],
   "note": ""
  },
  {
   "property": "C51",
   "status": "proved",
   "theorems": [
    "C51_fields"
   ],
   "note": ""
  },
  {
   "property": "C52",
   "status": "proved",
   "theorems": [
    "C52_written",
    "C52_file",
    "C52_disassembly"
   ],
   "note": ""
  },
  {
   "property": "C53",
   "status": "proved",
   "theorems": [
    "C53_command",
    "C53_object_path"
   ],
   "note": ""
  },
  {
   "property": "C54",
   "status": "partial",
   "theorems": [
    "C54_other_files",
    "C54_input",
    "C54_output_partial",
    "C54_same_file_partial",
    "C54_refused",
    "C54_refuted"
   ],
   "note": "The full statement is false of the code: refuted in three ways; what every run does to every file is given exactly."
  },
  {
   "property": "C55",
   "status": "partial",
   "theorems": [
    "C55_panics_partial",
    "C55_no_undefined_partial",
    "C55_refuted"
   ],
   "note": "The full statement is false of the code: refuted; writing is proved to panic for every such source."
  },
  {
   "property": "C56",
   "status": "proved",
   "theorems": [
    "C56_straight_line"
   ],
   "note": ""
  },
  {
   "property": "C57",
   "status": "proved",
   "theorems": [
    "C57_written_layout",
    "C57_read_layout"
   ],
   "note": ""
  },
  {
   "property": "C58",
   "status": "partial",
   "theorems": [
    "C58_rewrite_header_partial",
    "C58_swapped_exact",
    "C58_refuted"
   ],
   "note": "The full statement is false of the code for headers of the other byte order: refuted; the bytes written are characterised exactly."
  },
  {
   "property": "C59",
   "status": "partial",
   "theorems": [
    "C59_exact",
    "C59_debug_partial",
    "C59_debug_exact",
    "C59_text_of_4GiB",
    "C59_refuted",
    "C59_release_refuted"
   ],
   "note": "The full statement is false of the code: refuted in both build profiles. C59_exact shows that in every build the written file describes the object exactly when it fits the format; C59_debug_partial shows that a debug build rejects objects that do not fit when each part is itself below 4 GiB, and C59_debug_exact that it then succeeds exactly on the objects that fit and can be represented."
  },
  {
   "property": "C60",
   "status": "proved",
   "theorems": [
    "C60_accepted",
    "C60_meaning",
    "C60_unambiguous"
   ],
   "note": ""
  },
  {
   "property": "C61",
   "status": "proved",
   "theorems": [
    "C61_linked"
   ],
   "note": ""
  },
  {
   "property": "C62",
   "status": "proved",
   "theorems": [
    "C62_lookup"
   ],
   "note": ""
  },
  {
   "property": "C63",
   "status": "proved",
   "theorems": [
    "C63_code",
    "C63_linked_file"
   ],
   "note": ""
  },
  {
   "property": "C64",
   "status": "proved",
   "theorems": [
    "C64_success",
    "C64_file"
   ],
   "note": ""
  },
  {
   "property": "C65",
   "status": "partial",
   "theorems": [
    "C65_first_counts_partial",
    "C65_refuted"
   ],
   "note": "The full statement is false of the code: refuted; which definition counts is given for every program."
  },
  {
   "property": "C66",
   "status": "partial",
   "theorems": [
    "C66_not_found_partial",
    "C66_refuted"
   ],
   "note": "The full statement is false of the code: refuted; exactly which names can be found is given for every program."
  },
  {
   "property": "C67",
   "status": "proved",
   "theorems": [
    "C67_message",
    "C67_cases",
    "C67_only_one"
   ],
   "note": ""
  },
  {
   "property": "C68",
   "status": "proved",
   "theorems": [
    "C68_registers",
    "C68_numbers",
    "C68_expression",
    "C68_section",
    "C68_global",
    "C68_data",
    "C68_instruction",
    "C68_line_try"
   ],
   "note": ""
  },
  {
   "property": "C69",
   "status": "proved",
   "theorems": [
    "C69_x86_64",
    "C69_x86"
   ],
   "note": ""
  },
  {
   "property": "C70",
   "status": "proved",
   "theorems": [
    "C70_decode",
    "C70_encode",
    "C70_unique"
   ],
   "note": ""
  },
  {
   "property": "C71",
   "status": "proved",
   "theorems": [
    "C71_status",
    "C71_message",
    "C71_always"
   ],
   "note": ""
  },
  {
   "property": "C72",
   "status": "proved",
   "theorems": [
    "C72_line",
    "C72_read",
    "C72_write",
    "C72_load_command",
    "C72_main"
   ],
   "note": ""
  },
  {
   "property": "C73",
   "status": "proved",
   "theorems": [
    "C73_object",
    "C73_run"
   ],
   "note": ""
  },
  {
   "property": "C74",
   "status": "proved",
   "theorems": [
    "C74_same",
    "C74_accepted"
   ],
   "note": ""
  },
  {
   "property": "C75",
   "status": "proved",
   "theorems": [
    "C75_renamed"
   ],
   "note": ""
  },
  {
   "property": "C76",
   "status": "proved",
   "theorems": [
    "C76_grows"
   ],
   "note": ""
  },
  {
   "property": "C77",
   "status": "proved",
   "theorems": [
    "C77_build",
    "C77_panics"
   ],
   "note": ""
  },
  {
   "property": "C78",
   "status": "proved",
   "theorems": [
    "C78_rex",
    "C78_modrm",
    "C78_sib",
    "C78_regs",
    "C78_new"
   ],
   "note": ""
  },
  {
   "property": "C79",
   "status": "proved",
   "theorems": [
    "C79_code",
    "C79_line",
    "C79_file"
   ],
   "note": ""
  },
  {
   "property": "C80",
   "status": "proved",
   "theorems": [
    "C80_pieces",
    "C80_sink",
    "C80_success",
    "C80_same",
    "C80_prefix"
   ],
   "note": ""
  },
  {
   "property": "C81",
   "status": "proved",
   "theorems": [
    "C81_minimum",
    "C81_many_mov",
    "C81_reloc_hello_world",
    "C81_simple_hello_world"
   ],
   "note": ""
  },
  {
   "property": "C82",
   "status": "proved",
   "theorems": [
    "C82_ascii",
    "C82_table",
    "C82_table_injective",
    "C82_flags",
    "C82_flags_injective",
    "C82_attrs",
    "C82_attrs_injective"
   ],
   "note": ""
  },
  {
   "property": "C83",
   "status": "proved",
   "theorems": [
    "C83_linked",
    "C83_names",
    "C83_linkable",
    "C83_order",
    "C83_assembled"
   ],
   "note": ""
  },
  {
   "property": "C84",
   "status": "partial",
   "theorems": [
    "C84_refuted",
    "C84_never",
    "C84_link_partial"
   ],
   "note": "The full statement is false of the code: refuted; no section with a PC-relative reference links, and otherwise that is the only obstacle."
  },
  {
   "property": "C85",
   "status": "proved",
   "theorems": [
    "C85_read",
    "C85_unknown",
    "C85_commands"
   ],
   "note": ""
  },
  {
   "property": "C86",
   "status": "partial",
   "theorems": [
    "C86_exact",
    "C86_rewrite_partial",
    "C86_refuted",
    "C86_refuted_panic"
   ],
   "note": "The full statement is false of the code: refuted. C86_exact says what is written in every case, C86_rewrite_partial exactly when it is what was read."
  },
  {
   "property": "C87",
   "status": "proved",
   "theorems": [
    "C87_lossless",
    "C87_keeps",
    "C87_sources"
   ],
   "note": ""
  },
  {
   "property": "C88",
   "status": "proved",
   "theorems": [
    "C88_sayable",
    "C88_spelling",
    "C88_unique",
    "C88_source",
    "C88_run"
   ],
   "note": ""
  },
  {
   "property": "C89",
   "status": "proved",
   "theorems": [
    "C89_image",
    "C89_shape"
   ],
   "note": ""
  },
  {
   "property": "C90",
   "status": "proved",
   "theorems": [
    "C90_bytes",
    "C90_sizes",
    "C90_status",
    "C90_command",
    "C90_builds"
   ],
   "note": ""
  },
  {
   "property": "C91",
   "status": "proved",
   "theorems": [
    "C91_addresses",
    "C91_operand",
    "C91_constructors",
    "C91_no_operand",
    "C91_push_instr",
    "C91_push"
   ],
   "note": ""
  },
  {
   "property": "C92",
   "status": "proved",
   "theorems": [
    "C92_injective",
    "C92_oneline",
    "C92_control",
    "C92_layouts",
    "C92_records",
    "C92_tuples",
    "C92_texts",
    "C92_names",
    "C92_reloc_names",
    "C92_other_names",
    "C92_byte_orders",
    "C92_registers",
    "C92_sets"
   ],
   "note": ""
  },
  {
   "property": "C93",
   "status": "partial",
   "theorems": [
    "C93_refuted",
    "C93_exact",
    "C93_once",
    "C93_bound",
    "C93_read_partial"
   ],
   "note": "The full statement is refuted (C93_refuted). C93_exact and C93_bound say exactly when and for how many records room is made; C93_read_partial is the full statement for inputs that are read successfully."
  },
  {
   "property": "C94",
   "status": "proved",
   "theorems": [
    "C94_command",
    "C94_run",
    "C94_not_text"
   ],
   "note": ""
  },
  {
   "property": "C95",
   "status": "proved",
   "theorems": [
    "C95_all",
    "C95_pieces",
    "C95_eof",
    "C95_feed",
    "C95_pause",
    "C95_failed",
    "C95_fuel",
    "C95_readers",
    "C95_delivers"
   ],
   "note": "C95_fuel says that the bound on the number of lines in the model's loop is no restriction."
  },
  {
   "property": "C96",
   "status": "proved",
   "theorems": [
    "C96_order",
    "C96_paths",
    "C96_not_text",
    "C96_usage",
    "C96_result",
    "C96_enough",
    "C96_same",
    "C96_total",
    "C96_fatal",
    "C96_calm",
    "C96_offers",
    "C96_world",
    "C96_possible"
   ],
   "note": ""
  },
  {
   "property": "C97",
   "status": "proved",
   "theorems": [
    "C97_content",
    "C97_shown",
    "C97_equivalence",
    "C97_room",
    "C97_encoded",
    "C97_bytes"
   ],
   "note": ""
  },
  {
   "property": "C98",
   "status": "partial",
   "theorems": [
    "C98_equal",
    "C98_bytes_partial",
    "C98_plain_partial",
    "C98_read",
    "C98_reread_partial",
    "C98_refuted"
   ],
   "note": "The full statement is refuted (C98_refuted). C98_bytes_partial says exactly which records share their bytes; C98_plain_partial is the full statement for records as the readers return them (C98_read, C98_reread_partial)."
  },
  {
   "property": "C99",
   "status": "proved",
   "theorems": [
    "C99_agree",
    "C99_records",
    "C99_header",
    "C99_reloc",
    "C99_push",
    "C99_bss",
    "C99_encoder"
   ],
   "note": "Says.v models the readers and the assembler loop and the encoder with their messages; messages made up by the standard library are one value, Std."
  }
 ]
}