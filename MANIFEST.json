{
 "claims": [
  {
   "property": "C01",
   "status": "proved",
   "theorems": [
    "C01_library_round_trip",
    "C01_library_count"
   ],
   "note": "A library written by xlib and read back gives the same modules in the same order; count field equals number of modules."
  },
  {
   "property": "C02",
   "status": "proved",
   "theorems": [
    "C02_add_updates_one_name",
    "C02_add_positions",
    "C02_history_is_a_map",
    "C02_history_listing"
   ],
   "note": "Adding is a map update; any history of adds behaves as a finite map from base name to data."
  },
  {
   "property": "C03",
   "status": "partial",
   "theorems": [
    "C03_delete_removes_one_partial",
    "C03_delete_absent",
    "C03_delete_last_refuted",
    "C03_delete_ok"
   ],
   "note": "Deleting removes exactly one module, proved when the module is not last in the list; the last-module case dereferences NULL (C03_delete_last_refuted)."
  },
  {
   "property": "C04",
   "status": "proved",
   "theorems": [
    "C04_library_is_its_modules",
    "C04_concatenated_modules_refuted"
   ],
   "note": "Any list of representable object modules, of any versions and names. A module file made of several concatenated chunks is read differently from inside a library (C04_concatenated_modules_refuted)."
  },
  {
   "property": "C05",
   "status": "proved",
   "theorems": [
    "C05_object_file_round_trip",
    "C05_object_file_written"
   ],
   "note": "Writer and reader composed: what obj_Write writes is read as a module that describes the assembler state (groups, attributes, symbol kinds and tables, line mappings, data, patches). Symbols that are groups are excluded from patch expressions."
  },
  {
   "property": "C06",
   "status": "proved",
   "theorems": [
    "C06_older_versions_read",
    "C06_older_versions_mean_defaults"
   ],
   "note": "All versions 0-6; and equal to reading the current version with the defaults written out."
  },
  {
   "property": "C07",
   "status": "proved",
   "theorems": [
    "C07_serialised_expression_keeps_value",
    "C07_entered_expression_keeps_value",
    "C07_bit_refuted",
    "C07_relocatable_difference_refuted"
   ],
   "note": "For every term (any depth up to the linker's 256 entry stack) the bytes written evaluate in the linker to the term's value in the final layout. Excluded and refuted: BIT of a value unknown at assembly (C07_bit_refuted), differences of offset symbols in relocatable links (C07_relocatable_difference_refuted)."
  },
  {
   "property": "C08",
   "status": "proved",
   "theorems": [
    "C08_three_evaluators_agree",
    "C08_operators_agree",
    "C08_zero_divide"
   ],
   "note": "Folding on entry, end-of-file reduction and link-time evaluation agree on every literal expression. Division by zero (outside the property) is an error on entry and undefined behaviour later (C08_zero_divide)."
  },
  {
   "property": "C09",
   "status": "proved",
   "theorems": [
    "C09_optimisation_preserves_value",
    "C09_reduction_preserves_value",
    "C09_pcrel_parens_refuted",
    "C09_garbage_division_refuted",
    "C09_later_constant_refuted"
   ],
   "note": "Value kept, no parentheses left, every node constant when entered is one constant. Refuted outside the hypotheses: pc-relative of a parenthesised constant (C09_pcrel_parens_refuted), false zero-divide report (C09_garbage_division_refuted), constants defined later are only folded by reduction (C09_later_constant_refuted)."
  },
  {
   "property": "C10",
   "status": "proved",
   "theorems": [
    "C10_patch_stores_value",
    "C10_section_patched",
    "C10_section_error"
   ],
   "note": "Value bytes, range errors and unchanged bytes, for one patch and for a section with disjoint patches; same for the assembler's own back-patching."
  },
  {
   "property": "C11",
   "status": "proved",
   "theorems": [
    "C11_placements_disjoint",
    "C11_wrap_refuted"
   ],
   "note": "Any successful history of requests yields in-pool, pairwise disjoint ranges. C11_wrap_refuted: a fixed-address request whose address+size wraps 2^32 is outside the hypotheses and is accepted outside the pool."
  },
  {
   "property": "C12",
   "status": "proved",
   "theorems": [
    "C12_conservation",
    "C12_step"
   ],
   "note": "Free and placed ranges partition the pool after every request."
  },
  {
   "property": "C13",
   "status": "proved",
   "theorems": [
    "C13_fixed_and_aligned"
   ],
   "note": "Fixed addresses are used verbatim and aligned requests are aligned."
  },
  {
   "property": "C14",
   "status": "partial",
   "theorems": [
    "C14_page_partial",
    "C14_page_aligned_partial",
    "C14_align_page_refuted"
   ],
   "note": "In one page when no alignment is given, or when alignment divides the page and size fits; refuted when both are given in general (C14_align_page_refuted)."
  },
  {
   "property": "C15",
   "status": "partial",
   "theorems": [
    "C15_refused_only_if_full_partial",
    "C15_paged_partial",
    "C15_paged_refuted",
    "C15_empty_section_refuted"
   ],
   "note": "Refusal means no fitting gap for unpaged requests; for paged requests only the first chunk is searched (C15_paged_refuted)."
  },
  {
   "property": "C16",
   "status": "proved",
   "theorems": [
    "C16_placement_sound",
    "C16_placement_total",
    "C16_refused_only_if_full",
    "C16_data_bss_org_refuted"
   ],
   "note": "Soundness and absence of UB of whole-program placement; C16_data_bss_org_refuted shows ORG is ignored for BSS groups with the DATA flag, which xasm never writes."
  },
  {
   "property": "C17",
   "status": "proved",
   "theorems": [
    "C17_unused_no_influence",
    "C17_unused_unchanged"
   ],
   "note": ""
  },
  {
   "property": "C18",
   "status": "proved",
   "theorems": [
    "C18_symbol_has_exporters_address",
    "C18_symbol_has_exporters_bank",
    "C18_all_resolved",
    "C18_definition_unique",
    "C18_duplicate_export_refuted"
   ],
   "note": "Duplicate exports are accepted silently and list order decides: C18_duplicate_export_refuted."
  },
  {
   "property": "C19",
   "status": "partial",
   "theorems": [
    "C19_missing_export_is_error",
    "C19_successful_link_resolves_partial",
    "C19_bank_of_constant_refuted",
    "C19_unreferenced_import_refuted"
   ],
   "note": "A missing export that a patch asks for always ends the link. Not true in full: a patch whose evaluation ends early (bank of a constant) is left as is without a message, and imports no patch mentions may stay unresolved (both refuted with witnesses)."
  },
  {
   "property": "C20",
   "status": "proved",
   "theorems": [
    "C20_smart_linking",
    "C20_no_entry_uses_all",
    "C20_kept_imports_are_defined",
    "C20_exported_constant_refuted",
    "C20_spurious_section_refuted"
   ],
   "note": "Reachability follows the symbols in a section's table; constants lead to the section that covers their value, which the two refuted theorems show to be too strict and too generous."
  },
  {
   "property": "C21",
   "status": "proved",
   "theorems": [
    "C21_image_contents",
    "C21_contents_unique",
    "C21_linked_image"
   ],
   "note": "Main file and overlay files, with or without a file header in front; composed with placement (C16) for memory maps whose pools do not share image bytes."
  },
  {
   "property": "C22",
   "status": "partial",
   "theorems": [
    "C22_padding_partial",
    "C22_padding_multiple_partial",
    "C22_exact_multiple_refuted",
    "C22_padding_power_partial"
   ],
   "note": "Contents kept and $FF added for all lengths; smallest multiple for lengths that are not multiples already. C22_exact_multiple_refuted: for exact multiples a whole extra block is added."
  },
  {
   "property": "C23",
   "status": "proved",
   "theorems": [
    "C23_gameboy_rom",
    "C23_gameboy_header"
   ],
   "note": "Header update on any file from $150 bytes, and whole ROM from sections with at least 256 bytes of contents."
  },
  {
   "property": "C24",
   "status": "proved",
   "theorems": [
    "C24_megadrive_rom",
    "C24_megadrive_header"
   ],
   "note": "Header update on any file from $200 bytes, and whole ROM from sections."
  },
  {
   "property": "C25",
   "status": "proved",
   "theorems": [
    "C25_kernel_checksum",
    "C25_kernel_image"
   ],
   "note": "Any file, and whole kernel from sections."
  },
  {
   "property": "C26",
   "status": "proved",
   "theorems": [
    "C26_prg_loads",
    "C26_mega65_loads",
    "C26_linked"
   ],
   "note": ""
  },
  {
   "property": "C27",
   "status": "proved",
   "theorems": [
    "C27_coco_loads",
    "C27_linked"
   ],
   "note": ""
  },
  {
   "property": "C28",
   "status": "partial",
   "theorems": [
    "C28_pgz_loads_partial",
    "C28_pgz_blocks_partial",
    "C28_empty_section_refuted",
    "C28_start_at_end_refuted"
   ],
   "note": "Holds unless the program has an empty section or starts at the end of its last section; both exceptions are proved to break it (C28_empty_section_refuted, C28_start_at_end_refuted)."
  },
  {
   "property": "C29",
   "status": "proved",
   "theorems": [
    "C29_hunks_load",
    "C29_relocated",
    "C29_pointers",
    "C29_entry_refuted",
    "C29_link_object_refuted"
   ],
   "note": "Executables are proved to load and relocate correctly, also together with patching (C29_pointers). Two related expectations fail: an entry symbol at the start of the first hunk is refused (C29_entry_refuted) and link objects do not name what they import (C29_link_object_refuted)."
  },
  {
   "property": "C30",
   "status": "partial",
   "theorems": [
    "C30_image",
    "C30_verilog",
    "C30_unpatched",
    "C30_label",
    "C30_imports",
    "C30_branch_refuted",
    "C30_align_page_refuted",
    "C30_bank_refuted"
   ],
   "note": "Positions, image, Verilog form and label references are proved for programs that fit in 32 bits.  Refuted parts: a branch between two sections without an address is left as zero without an error (C30_branch_refuted); a section both aligned and paged may lose its alignment (C30_align_page_refuted; proved when one divides the other); an explicit address in a bank of a Z80 is moved by 16384 (C30_bank_refuted). Programs that refer to imported symbols are refused (C30_imports)."
  },
  {
   "property": "C31",
   "status": "proved",
   "theorems": [
    "C31_data",
    "C31_reserve",
    "C31_no_data_in_bss",
    "C31_out_of_range",
    "C31_errors_stay",
    "C31_bookkeeping",
    "C31_empty_word_refuted",
    "C31_reserve_refuted",
    "C31_align_refuted"
   ],
   "note": "Floating point data and sect_OutputConst16At are not modelled. Refuted outside the stated conditions: DW/DL without argument report an error (C31_empty_word_refuted), DS of 2^30 longs reserves nothing (C31_reserve_refuted), EVEN without a section and CNOP x,0 are undefined (C31_align_refuted)."
  },
  {
   "property": "C32",
   "status": "proved",
   "theorems": [
    "C32_blocks",
    "C32_other_sections",
    "C32_extended",
    "C32_stack",
    "C32_unmatched",
    "C32_reopen_refuted"
   ],
   "note": "One exception is proved: after ORG a section with attributes cannot be re-opened with the same attributes (C32_reopen_refuted)."
  },
  {
   "property": "C33",
   "status": "partial",
   "theorems": [
    "C33_restore_partial",
    "C33_after",
    "C33_unmatched",
    "C33_warning",
    "C33_settings",
    "C33_include_refuted"
   ],
   "note": "Everything in SOptions is restored; include paths added by OPT i are not (C33_include_refuted)."
  },
  {
   "property": "C34",
   "status": "proved",
   "theorems": [
    "C34_one_symbol",
    "C34_reachable",
    "C34_stable",
    "C34_rules",
    "C34_group",
    "C34_global",
    "C34_export_set_refuted",
    "C34_internal_refuted"
   ],
   "note": "C34_export_set_refuted and C34_internal_refuted record two defects: EXPORT followed by SET exports a symbol that cannot be exported, and redefining a predefined symbol dereferences a null pointer"
  },
  {
   "property": "C35",
   "status": "proved",
   "theorems": [
    "C35_reference",
    "C35_private",
    "C35_reuse",
    "C35_equ_scope_refuted",
    "C35_rs_scope_refuted"
   ],
   "note": "C35_equ_scope_refuted and C35_rs_scope_refuted: EQU, SET and the first RS directive end a scope although the manual only names global labels"
  },
  {
   "property": "C36",
   "status": "partial",
   "theorems": [
    "C36_value_of_text",
    "C36_as_documented",
    "C36_tree_of_text",
    "C36_shift_refuted",
    "C36_not_refuted",
    "C36_strings",
    "C36_minimum_refuted",
    "C36_character_compare_refuted",
    "C36_member_label_refuted",
    "C36_plus_character_refuted"
   ],
   "note": "Value and tree of every expression text grouped by the table the parser follows, and by the documented table away from two departures, which are refuted: shifts share the level of multiplication, and ~! binds tighter than && and ||. Also refuted: -2147483648 overflows, \"A\" == 65 is an error, labels called .upper/.lower and (+\"A\") dereference a null string. String members, character constants and code literals are modelled but outside the grammar of the theorem."
  },
  {
   "property": "C37",
   "status": "partial",
   "theorems": [
    "C37_integer",
    "C37_integer_dot",
    "C37_fixed_point_partial",
    "C37_gameboy_value_partial",
    "C37_gameboy_terminator_refuted",
    "C37_fraction_refuted",
    "C37_no_digits_refuted",
    "C37_long_refuted"
   ],
   "note": "Integers: value modulo 2^32 and exact consumption for every digit string of up to 257 digits (a longer one overflows the token buffer, C37_long_refuted). Fixed point: exact floor while the denominator fits in 31 bits, wrong or a division by zero beyond (C37_fraction_refuted). Game Boy: value proved, but the terminating character is swallowed (C37_gameboy_terminator_refuted). Missing: literals that end at the end of the file."
  },
  {
   "property": "C38",
   "status": "partial",
   "theorems": [
    "C38_substitution_partial",
    "C38_put_back",
    "C38_shift",
    "C38_unique",
    "C38_empty_argument_refuted",
    "C38_argument_backslash_refuted",
    "C38_long_argument_refuted"
   ],
   "note": "Verbatim substitution for bodies whose replacements hold no reference, do not end in a backslash, have at most 256 characters, and are not empty directly before another reference; each exclusion is refuted. SHIFT, put-back and uniqueness of \\@ are proved in full."
  },
  {
   "property": "C39",
   "status": "proved",
   "theorems": [
    "C39_rept",
    "C39_rexit",
    "C39_nested",
    "C39_mexit_in_rept_refuted"
   ],
   "note": "For every properly nested source the machine does exactly what the structured program says (C40_structured, an equivalence), and REPT n makes n passes each with its own \\@ (C39_rept, C39_rexit, C39_nested). MEXIT inside REPT inside a macro hangs (C39_mexit_in_rept_refuted)."
  },
  {
   "property": "C40",
   "status": "partial",
   "theorems": [
    "C40_structured",
    "C40_skips_to_match",
    "C40_missing_endc_refuted",
    "C40_missing_two_endc_refuted",
    "C40_unchecked_refuted",
    "C40_skip_scan_partial",
    "C40_macro_scan_partial",
    "C40_macro_blank_line_refuted"
   ],
   "note": "Equivalence with structured programs for every properly nested source (C40_structured), and the character-level search for the next directive (C40_skip_scan_partial, C40_macro_scan_partial). Sources that miss an ENDC are not always refused (C40_missing_endc_refuted, C40_missing_two_endc_refuted, C40_unchecked_refuted); in a macro definition a comment after an empty line can be taken for a directive (C40_macro_blank_line_refuted)."
  },
  {
   "property": "C41",
   "status": "proved",
   "theorems": [
    "C41_offsets",
    "C41_structure",
    "C41_case_hypotheses",
    "C41_sizeof_refuted",
    "C41_purge_refuted",
    "C41_overflow_refuted"
   ],
   "note": "C41_sizeof_refuted, C41_purge_refuted and C41_overflow_refuted record that .SIZEOF is never defined, that purging or redefining __RS is undefined behaviour, and that an offset beyond 32 bits is undefined behaviour"
  },
  {
   "property": "C42",
   "status": "partial",
   "theorems": [
    "C42_range_partial",
    "C42_every_value_partial",
    "C42_seed_permutation",
    "C42_seed_nonzero",
    "C42_replay",
    "C42_wide_range_refuted",
    "C42_zero_seed_refuted",
    "C42_reversed_refuted"
   ],
   "note": "Range, surjectivity, permutation and replay for all seeds; ranges of 2^31 values or ending at INT_MAX are undefined, reversed bounds are not refused and seed 0 is a fixed point (refutations)."
  },
  {
   "property": "C43",
   "status": "partial",
   "theorems": [
    "C43_expression_partial",
    "C43_binary_refuted",
    "C43_documented_example_refuted",
    "C43_dangling_refuted",
    "C43_property_expression_refuted"
   ],
   "note": "All expressions of decimal and hexadecimal literals, @, signs, parentheses and the four operators have their documented value. Refuted: binary literals never parse; the documented example with a bank of -1 is read as a subtraction; an operand may be missing; properties cannot be part of an expression."
  },
  {
   "property": "C44",
   "status": "partial",
   "theorems": [
    "C44_encoding_partial",
    "C44_distinct",
    "C44_two_bytes",
    "C44_only_the_manual",
    "C44_out_of_range",
    "C44_scd_refuted",
    "C44_rpl_refuted",
    "C44_missing_operand_refuted"
   ],
   "note": "Every instruction of doc/CpuCHIP.md but SCD is accepted and stored as its row of the opcode table, whatever its operand (known, or patched later); valid instructions with the same encoding are the same; a mnemonic with operands of other kinds is refused; constants out of range are reported. Refuted: SCD is never accepted, RPL transfers are accepted on plain CHIP-8, a missing last operand is accepted silently."
  },
  {
   "property": "C45",
   "status": "partial",
   "theorems": [
    "C45_encoding_partial",
    "C45_distinct",
    "C45_four_bytes",
    "C45_only_the_manual",
    "C45_out_of_range",
    "C45_register_names",
    "C45_shift_register_refuted",
    "C45_bltzl_refuted",
    "C45_unsigned_compare_refuted",
    "C45_target_refuted",
    "C45_missing_operand_refuted"
   ],
   "note": "Every MIPS32 instruction the assembler knows except SLLV/SRLV/SRAV/ROTRV and BLTZL is shown to be encoded as in the manual, with known or link-time operands; encodings are shown distinct, only manual forms are accepted, and constants out of range are reported. The remaining forms are refuted: exchanged operands, a wrong opcode, unsigned checks on sign-extended immediates, unaligned and far targets, missing operands."
  },
  {
   "property": "C46",
   "status": "partial",
   "theorems": [
    "C46_encoding_partial",
    "C46_only_the_manual",
    "C46_out_of_range",
    "C46_distinct",
    "C46_rla_refuted",
    "C46_indirect_refuted",
    "C46_bit_branch_refuted",
    "C46_wait_refuted"
   ],
   "note": "Proved: every instruction and operand form of the 6502 (with the three sets of undocumented names), 65C02 and 65C02S data sheets is encoded as the data sheet says for operands known and unknown; nothing else is accepted silently except STP/WAI on a 65C02; out-of-range constants are reported; opcodes are distinct. Refuted: RLA stored as SRE, 65C02 (zp) with a non-constant pointer refused, BBR/BBS with a separate bit number and a non-constant pointer reported, STP/WAI accepted on the 65C02. Not modelled: 65816, 45GS02 and 4510 modes."
  },
  {
   "property": "C47",
   "status": "partial",
   "theorems": [
    "C47_distance",
    "C47_same_section",
    "C47_floating",
    "C47_org_refuted"
   ],
   "note": "Proved for every target without parentheses around all of it (C09_pcrel_parens_refuted) and for addresses that do not overflow 32 bits. Fails for ORG in a section with a fixed load address and a fixed bank: C47_org_refuted."
  },
  {
   "property": "C48",
   "status": "partial",
   "theorems": [
    "C48_mastersystem_header_partial",
    "C48_mastersystem_image_refuted"
   ],
   "note": "The header function is right; the output format as a whole never succeeds (C48_mastersystem_image_refuted)."
  },
  {
   "property": "C49",
   "status": "partial",
   "theorems": [
    "C49_kup_loads",
    "C49_kup_size_partial",
    "C49_pad_refuted"
   ],
   "note": "Loading is proved in full. A padded file is a whole number of slots, but one too many when the program already fills its slots (C49_pad_refuted)."
  },
  {
   "property": "C50",
   "status": "partial",
   "theorems": [
    "C50_hc800_loads",
    "C50_unused_refuted"
   ],
   "note": "Proved for programs all of whose sections with a bank are placed; an unused section with a requested bank breaks it (C50_unused_refuted)."
  },
  {
   "property": "C51",
   "status": "partial",
   "theorems": [
    "C51_no_overlap_partial",
    "C51_image",
    "C51_hc800",
    "C51_hc800_memory_partial",
    "C51_regions",
    "C51_usable",
    "C51_hram_refuted",
    "C51_code_bank_refuted",
    "C51_sms_bank_refuted",
    "C51_amiga_fast_refuted",
    "C51_names_refuted",
    "C51_commodore_refuted",
    "C51_c128_rom_refuted",
    "C51_f256_refuted",
    "C51_amiga_refuted",
    "C51_medium_harvard_refuted",
    "C51_medium_refuted",
    "C51_home_refuted"
   ],
   "note": "Proved for 15 of the 25 maps (addresses), all image maps (C51_image) and the HC800 executables (C51_hc800). Refuted for the Commodore maps (out of bounds array), C128 ROM, F256 Jr, Amiga binaries, HC800 medium and medium Harvard; the HOME group can never be placed on the HC800. Regions per group are proved for 19 maps (C51_regions, C51_usable); the manual's HRAM end, Game Boy CODE area, Master System bank 1, Amiga FAST address and several map names are refuted."
  },
  {
   "property": "C52",
   "status": "partial",
   "theorems": [
    "C52_relocatable",
    "C52_hunk_pointers",
    "C52_between_sections",
    "C52_difference_refuted",
    "C52_imports_refuted"
   ],
   "note": "C52_difference_refuted and C52_imports_refuted: the difference of two symbols drops constants added to either label, and the difference of two imported symbols is always 0; the positive theorems cover the other shapes."
  },
  {
   "property": "C53",
   "status": "partial",
   "theorems": [
    "C53_file_partial",
    "C53_no_format",
    "C53_cbm_format_refuted"
   ],
   "note": "For all well-formed lines except binary literals, text after CBM_PRG[x], operators on properties, and pool expressions after the first that start with a sign; two pools of the same name are left out because the map library is not in the repository. Refuted: the format after CBM_PRG[x] is lost."
  },
  {
   "property": "C54",
   "status": "partial",
   "theorems": [
    "C54_lookup",
    "C54_longest",
    "C54_token",
    "C54_label",
    "C54_comment",
    "C54_string_symbol",
    "C54_word_end_refuted",
    "C54_self_reference_refuted"
   ],
   "note": "Proved for lines without backslash and 0 and for words of up to 255 and names of up to 256 characters. Refuted: a keyword may end inside a word (JALR.HBX is JALR.HB and X); a string symbol that names itself before # is expanded for ever."
  },
  {
   "property": "C55",
   "status": "partial",
   "theorems": [
    "C55_literal",
    "C55_unterminated",
    "C55_end_of_file_refuted",
    "C55_long_refuted",
    "C55_backslash_refuted"
   ],
   "note": "Reading, value and the error proved for literals of up to 256 characters; what a piece of code stands for is a parameter. Refuted: a file that ends inside a string and strings of 257 characters or more are written beyond the token; two backslashes before a digit are not one backslash."
  },
  {
   "property": "C56",
   "status": "partial",
   "theorems": [
    "C56_expression",
    "C56_slice_refuted",
    "C56_decimal",
    "C56_hex_partial",
    "C56_hex_refuted",
    "C56_fixed_partial",
    "C56_fixed_negative_refuted",
    "C56_fixed_digits_refuted",
    "C56_decimal_least_refuted",
    "C56_character"
   ],
   "note": "Expressions proved from tokens on, with integer arguments already evaluated and symbols between bars left out; D proved for all but the least integer; X for up to 3 digits or none given; F for values that are not negative and up to 5 digits. Refuted: X with 4 or more digits and F with 8 or more are undefined, F of a negative number shows another number, D of the least integer and slice counts near the largest integer overflow."
  },
  {
   "property": "C57",
   "status": "proved",
   "theorems": [
    "C57_linked_program"
   ],
   "note": "Composed from the theorems of C07, C10, C16, C18, C20 and C21. Programs are taken as read from object files (C05); values are those of expressions with a defined meaning."
  },
  {
   "property": "C58",
   "status": "partial",
   "theorems": [
    "C58_encoding_partial",
    "C58_only_the_manual",
    "C58_out_of_range",
    "C58_options",
    "C58_undocumented_default_refuted",
    "C58_index_rotate_refuted",
    "C58_dec_half_refuted",
    "C58_game_boy_index_refuted",
    "C58_mixed_halves_refuted",
    "C58_shift_sp_refuted",
    "C58_port_bc_refuted",
    "C58_add_sp_refuted",
    "C58_in_a_refuted"
   ],
   "note": "The encoding theorem leaves out the rows listed by faulty in Z80Spec.v, where the code is wrong: rotates and shifts of (IX)/(IY) without displacement, DEC of IXH/IXL/IYH/IYL, IN (C). The converse allows the instructions listed by mistaken, which the code accepts although no manual has them. Both lists are justified by refutation theorems. Jump distances are checked when the expression is known (C10, C16), not at once. The default of the undocumented option is read from uninitialised memory (C58_undocumented_default_refuted)."
  },
  {
   "property": "C59",
   "status": "proved",
   "theorems": [
    "C59_attributes",
    "C59_reopen",
    "C59_name_only",
    "C59_org"
   ],
   "note": "Reopening with attributes after an ORG fails: C32_reopen_refuted."
  },
  {
   "property": "C60",
   "status": "proved",
   "theorems": [
    "C60_lines"
   ],
   "note": "The position in the source is what the lexer reports when the directive is read; positions count words from the start of the section. Sections without data are left out: their counter may wrap around (C31_reserve_refuted)."
  },
  {
   "property": "C61",
   "status": "partial",
   "theorems": [
    "C61_encoding_partial",
    "C61_only_the_manual",
    "C61_out_of_range",
    "C61_setdp",
    "C61_direct_page",
    "C61_lsra_refuted",
    "C61_offset_register_refuted",
    "C61_forward_offset_refuted",
    "C61_stack_immediate_refuted",
    "C61_rotate_immediate_refuted",
    "C61_short_offset_refuted",
    "C61_dp_name_refuted"
   ],
   "note": "The encoding theorem leaves out what faulty in M6809Spec.v lists, where the code is wrong: LSRA and LSRB, 8 and 16 bit offsets from Y, U and S, and offsets not known yet without < or >. The converse allows the operands that odd lists, which the code accepts although the manual has none such. The range theorem is about what beyond lists; distances are checked when the expression is known (C10, C16). The lists are justified by refutation theorems."
  },
  {
   "property": "C62",
   "status": "partial",
   "theorems": [
    "C62_encoding_partial",
    "C62_jsr_partial",
    "C62_only_the_specification_partial",
    "C62_out_of_range_partial",
    "C62_jsr_out_of_range_partial",
    "C62_option",
    "C62_optimised_length",
    "C62_push_refuted",
    "C62_literal_range_refuted",
    "C62_subtract_refuted",
    "C62_skipped_token_refuted",
    "C62_negative_literal_refuted",
    "C62_zero_offset_refuted"
   ],
   "note": "The encoding theorem leaves out what faulty in DcpuSpec.v lists, where the code is wrong: [--SP] is taken to be PEEK, and with optimisation ADD and SUB of a known literal of -31 to -1 use freed memory (proved for every such instruction). The range theorem leaves out literals, which are cut to 16 bits without a report. The converse leaves out minus signs outside expressions: [r-n] is always refused, and a token after the minus sign is skipped. The gaps are justified by refutation theorems."
  },
  {
   "property": "C63",
   "status": "partial",
   "theorems": [
    "C63_map_file_partial",
    "C63_overflow_refuted"
   ],
   "note": "Proved for sections whose symbols' values lie within a window of 2^31 bytes; otherwise the comparison overflows (C63_overflow_refuted). For output formats without relocation."
  },
  {
   "property": "C64",
   "status": "partial",
   "theorems": [
    "C64_listing_partial",
    "C64_words_refuted",
    "C64_first_line_refuted"
   ],
   "note": "Proved for line tables in bytes that begin at the first byte of the section. On machines with larger words the assembler counts words and the listing shows other bytes and addresses (C64_words_refuted); without a line for the first byte the first line shows other bytes (C64_first_line_refuted). For output formats without relocation."
  },
  {
   "property": "C65",
   "status": "partial",
   "theorems": [
    "C65_elf_object_partial",
    "C65_width_refuted",
    "C65_difference_refuted",
    "C65_label_refuted"
   ],
   "note": "Proved for programs whose patches are of 32 bits, highest byte first, and subtract no symbol. Other widths are written as 32-bit relocations and destroy the bytes beside them (C65_width_refuted); a number minus an import becomes import plus number (C65_difference_refuted); a label of the program plus a number is refused (C65_label_refuted)."
  },
  {
   "property": "C66",
   "status": "partial",
   "theorems": [
    "C66_elf_read_partial",
    "C66_ready_to_link",
    "C66_relocation",
    "C66_assembled_and_read_partial",
    "C66_exported_constant_refuted",
    "C66_same_name_refuted"
   ],
   "note": "Proved for objects without tables of relocations of type REL, whose global symbols are no constants, whose relocations are not to constants, and for C66_relocation whose symbols defined in sections have different names. An exported constant, which the assembler itself writes, makes the linker use a null pointer (C66_exported_constant_refuted); of local labels with the same name other sections get the first (C66_same_name_refuted). C66_assembled_and_read_partial composes C65 and C66."
  },
  {
   "property": "C67",
   "status": "partial",
   "theorems": [
    "C67_executable_partial",
    "C67_executable_written",
    "C67_object_partial",
    "C67_object_written",
    "C67_debug_executable_refuted",
    "C67_object_chip_refuted",
    "C67_negated_import_refuted",
    "C67_exported_constant_refuted",
    "C67_width_refused"
   ],
   "note": "Executables are proved for programs assembled without debug information: with it, section names are written in place of the resident library list and the file cannot be loaded (C67_debug_executable_refuted). Objects are proved except that chip memory is not requested (C67_object_chip_refuted), exported constants are missing (C67_exported_constant_refuted) and a constant minus an import is written as their sum (C67_negated_import_refuted). Values of other widths are refused (C67_width_refused)."
  },
  {
   "property": "C68",
   "status": "partial",
   "theorems": [
    "C68_encoding_partial",
    "C68_odd_place",
    "C68_long_relative_refuted",
    "C68_size_refuted",
    "C68_displacement_refuted",
    "C68_loop_refuted",
    "C68_short_branch_refuted",
    "C68_indirect_zero_refuted",
    "C68_bare_pc_refuted",
    "C68_address_byte_refuted",
    "C68_processor_refuted",
    "C68_refused_refuted",
    "C68_stack_pointer"
   ],
   "note": "Proved for 169 forms: all of the 68000's instructions except MOVEM, MOVEP and the moves to and from CCR, SR and USP, with the 68020's addressing modes and its long forms of Bcc, MUL, DIV, CHK, EXTB and LINK. Not modelled or not covered: those instructions, what only later processors have, and the coprocessors. instr_fits leaves out the operands that are refuted: long PC-relative distances in sections with an address (C68_long_relative_refuted), values that do not fit a displacement (C68_displacement_refuted, C68_loop_refuted), a byte branch to the next byte (C68_short_branch_refuted), ([0],...) (C68_indirect_zero_refuted). Further faults: C68_size_refuted, C68_bare_pc_refuted, C68_address_byte_refuted, C68_processor_refuted, C68_refused_refuted."
  },
  {
   "property": "C69",
   "status": "partial",
   "theorems": [
    "C69_search",
    "C69_include",
    "C69_once",
    "C69_includer",
    "C69_dependency_file_partial",
    "C69_case",
    "C69_includer_case",
    "C69_directories",
    "C69_source_elsewhere_refuted",
    "C69_incbin_once_refuted",
    "C69_incbin_once_reached",
    "C69_once_first_refuted",
    "C69_empty_directory_refuted",
    "C69_spaces_refuted"
   ],
   "note": "Search order, INCLUDE ONCE and the contents of the dependency file are proved for every history. Missing and refuted: a source file found through a directory is listed under the name given (C69_source_elsewhere_refuted); names with spaces are not escaped (C69_spaces_refuted); INCBIN of a file that said INCLUDE ONCE stores nothing without a report (C69_incbin_once_refuted); INCLUDE ONCE before any file was included uses a null pointer (C69_once_first_refuted); an empty directory name reads before the string (C69_empty_directory_refuted)."
  },
  {
   "property": "C70",
   "status": "partial",
   "theorems": [
    "C70_instructions_partial",
    "C70_any_order",
    "C70_port_refuted",
    "C70_sub_refuted",
    "C70_exchange_refuted",
    "C70_add_refuted",
    "C70_sub_number_refuted",
    "C70_word_step_refuted",
    "C70_lco_refuted",
    "C70_list_refuted",
    "C70_cmp_refuted",
    "C70_jumps",
    "C70_conditional",
    "C70_through_pairs",
    "C70_call",
    "C70_encoding",
    "C70_encoding_distinct",
    "C70_conditional_encoding",
    "C70_option",
    "C70_option_single_partial",
    "C70_option_single_refuted",
    "C70_option_condition_refuted"
   ],
   "note": "Loads, stores, port accesses, exchanges, additions, subtractions, logic, negation and stack instructions are proved, synthesized ones included (C70_instructions_partial), alone and behind a condition (C70_conditional), as are the encodings of jumps (C70_jumps, C70_through_pairs) and calls of an address (C70_call). Of shifts, CMP, TST, PICK, SYS, LCO and LCR only the encodings are proved, also behind a condition (C70_encoding, C70_conditional_encoding, C70_encoding_distinct). Switching synthesized instructions on changes no line accepted without them (C70_option); with them off a line without a condition is one instruction (C70_option_single_partial), but PICK rr,n and conditions are still synthesized (C70_option_single_refuted, C70_option_condition_refuted). Missing: what those instructions and jumps do when run, and the flags. Refuted: LIO (DE+),T writes to the port in HL (C70_port_refuted); SUB T,T negates (C70_sub_refuted); EXG B,B exchanges T and B (C70_exchange_refuted); ADD rr,$7F80..$7FFF and SUB r,129..255 are refused (C70_add_refuted, C70_sub_number_refuted); LD (HL+),FT steps by one (C70_word_step_refuted); LCO FT,(rr) loads T (C70_lco_refuted); PUSH FT/FT asserts (C70_list_refuted); CMP truncates its number (C70_cmp_refuted)."
  },
  {
   "property": "C71",
   "status": "partial",
   "theorems": [
    "C71_list",
    "C71_constant",
    "C71_descending",
    "C71_to_memory_partial",
    "C71_from_memory_partial",
    "C71_refused",
    "C71_empty"
   ],
   "note": "Register lists, masks, refusals and the empty mask are proved (C71_list, C71_constant, C71_descending, C71_refused, C71_empty), and MOVEM to (An) and -(An) and from (An) and (An)+ (C71_to_memory_partial, C71_from_memory_partial). Missing: memory operands with displacements, indices and absolute addresses, and reading the size."
  }
 ]
}