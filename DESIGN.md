# Formal model of asmotor in Rocq

The subject is the C source under /repo: the assembler xasm, the linker xlink and the
librarian xlib.  `/repo/util` is an empty directory (a missing submodule).

## Approach

* Every modelled C function becomes a total Gallina function over `Z`, `list Z` and
  records.  32-bit arithmetic wraps explicitly.  Each definition cites the file and
  lines it models, and says where it simplifies.
* The outcome of a fallible function is `Ok x`, `Err` (the tool stops with an error) or
  `UB` (undefined behaviour in C: NULL dereference, division by zero, access out of
  bounds, signed overflow).  Errors that are reported without stopping are part of the
  modelled state.
* Loops without a bound of their own take fuel; the theorems show that enough fuel
  exists, or quantify over every run that ends.
* For each area `X` there are `XModel.v` (definitions only), `XSpec.v` (the
  specification, written from the documentation and independent of the model's
  helpers), proof files, and `XProps.v` with the property theorems, `Print Assumptions`
  after each, and an `Example` showing a non-trivial case that meets the hypotheses.
* Where the code breaks a property, a theorem ending in `_refuted` gives the case, and
  the strongest true version is proved next to it.  A theorem that covers only part of
  its property ends in `_partial`.
* `seeded/LOG.jsonl` records wrong programs tried against the theorems: which edit of
  the model, which claim it breaks, which theorems failed, and what was tightened.

## Properties

For each property: what is modelled and how it is proved, then the theorems (all in
`rocq/theories`) and what they leave out. `_refuted` theorems exhibit a concrete
reachable case in which the code breaks the property as stated in English.

### C01 Library file round trip

Byte-level writer and reader as total functions on byte lists; round trip by induction on the module list.
* `XlibProps.v`: `C01_library_round_trip`, `C01_library_count`
* Status: proved. A library written by xlib and read back gives the same modules in the same order; count field equals number of modules.

### C02 Library add/replace is a map update

Add and replace as list functions; the specification is a finite map update; induction over the list and over histories of commands.
* `XlibProps.v`: `C02_add_updates_one_name`, `C02_add_positions`, `C02_history_is_a_map`, `C02_history_listing`
* Status: proved. Adding is a map update; any history of adds behaves as a finite map from base name to data.

### C03 Library delete removes exactly one module

Delete with the pointer walk made explicit, NULL dereference a distinct outcome; the positive theorem covers all but the last module, for which the code dereferences NULL.
* `XlibProps.v`: `C03_delete_removes_one_partial`, `C03_delete_absent`, `C03_delete_last_refuted`, `C03_delete_ok`
* Status: partial. Deleting removes exactly one module, proved when the module is not last in the list; the last-module case dereferences NULL (C03_delete_last_refuted).

### C04 Linking a library equals linking its modules

The chunk reader applied to a library file built by the library writer from any list of object files.
* `ObjProps.v`: `C04_library_is_its_modules`, `C04_concatenated_modules_refuted`
* Status: proved. Any list of representable object modules, of any versions and names. A module file made of several concatenated chunks is read differently from inside a library (C04_concatenated_modules_refuted).

### C05 Object file round trip

The writer of xasm composed with the reader of xlink on byte lists; inversion by induction on all nested lists; the specification says which linker module describes an assembler state.
* `ObjProps.v`: `C05_object_file_round_trip`, `C05_object_file_written`
* Status: proved. Writer and reader composed: what obj_Write writes is read as a module that describes the assembler state (groups, attributes, symbol kinds and tables, line mappings, data, patches). Symbols that are groups are excluded from patch expressions.

### C06 Older object versions keep their meaning

The reader at version v against a version-indexed reference writer, and against the current version with the defaults made explicit.
* `ObjProps.v`: `C06_older_versions_read`, `C06_older_versions_mean_defaults`
* Status: proved. All versions 0-6; and equal to reading the current version with the defaults written out.

### C07 Serialised patch expressions keep their value

Expression trees, their serialiser and the linker's stack machine; simulation with an arbitrary stack prefix, by induction on the term as written.
* `ExprProps.v`: `C07_serialised_expression_keeps_value`, `C07_entered_expression_keeps_value`, `C07_bit_refuted`, `C07_relocatable_difference_refuted`
* Status: proved. For every term (any depth up to the linker's 256 entry stack) the bytes written evaluate in the linker to the term's value in the final layout. Excluded and refuted: BIT of a value unknown at assembly (C07_bit_refuted), differences of offset symbols in relocatable links (C07_relocatable_difference_refuted).

### C08 Assembly-time and link-time arithmetic agree

Three evaluators (folding on entry, reduction at the end of the file, linker) shown to agree operator by operator and on every literal expression.
* `ExprProps.v`: `C08_three_evaluators_agree`, `C08_operators_agree`, `C08_zero_divide`
* Status: proved. Folding on entry, end-of-file reduction and link-time evaluation agree on every literal expression. Division by zero (outside the property) is an error on entry and undefined behaviour later (C08_zero_divide).

### C09 Expression optimisation preserves meaning

`expr_Optimize` and the reduction as recursive functions; value preservation and normal form by induction.
* `ExprProps.v`: `C09_optimisation_preserves_value`, `C09_reduction_preserves_value`, `C09_pcrel_parens_refuted`, `C09_garbage_division_refuted`, `C09_later_constant_refuted`
* Status: proved. Value kept, no parentheses left, every node constant when entered is one constant. Refuted outside the hypotheses: pc-relative of a parenthesised constant (C09_pcrel_parens_refuted), false zero-divide report (C09_garbage_division_refuted), constants defined later are only folded by reduction (C09_later_constant_refuted).

### C10 Applying a patch stores exactly the value

Patching as byte updates on lists; value, frame condition and range errors; a whole section with disjoint patches.
* `LinkProps.v`: `C10_patch_stores_value`, `C10_section_patched`, `C10_section_error`
* Status: proved. Value bytes, range errors and unchanged bytes, for one patch and for a section with disjoint patches; same for the assembler's own back-patching.

### C11 Placed sections never overlap and stay in their pool

Pools as free lists of chunks; the invariant (in the pool, pairwise disjoint) over every history of requests.
* `PoolProps.v`: `C11_placements_disjoint`, `C11_wrap_refuted`
* Status: proved. Any successful history of requests yields in-pool, pairwise disjoint ranges. C11_wrap_refuted: a fixed-address request whose address+size wraps 2^32 is outside the hypotheses and is accepted outside the pool.

### C12 No memory is lost or invented by placement

A partition invariant over the same histories: each address is free or allocated exactly once.
* `PoolProps.v`: `C12_conservation`, `C12_step`
* Status: proved. Free and placed ranges partition the pool after every request.

### C13 Fixed addresses and alignment are honoured

Post-conditions of the two allocators.
* `PoolProps.v`: `C13_fixed_and_aligned`
* Status: proved. Fixed addresses are used verbatim and aligned requests are aligned.

### C14 Page-confined sections do not cross a page

Post-condition of the paged path; refutation for ALIGN together with PAGE.
* `PoolProps.v`: `C14_page_partial`, `C14_page_aligned_partial`, `C14_align_page_refuted`
* Status: partial. In one page when no alignment is given, or when alignment divides the page and size fits; refuted when both are given in general (C14_align_page_refuted).

### C15 Placement fails only when nothing fits

Completeness for plain, fixed and aligned requests; refutation for paged ones, where only the first chunk is searched.
* `PoolProps.v`: `C15_refused_only_if_full_partial`, `C15_paged_partial`, `C15_paged_refuted`, `C15_empty_section_refuted`
* Status: partial. Refusal means no fitting gap for unpaged requests; for paged requests only the first chunk is searched (C15_paged_refuted).

### C16 Whole-program placement is sound

The passes of the linker as folds over the section list with a memory state; invariant over all passes; totality.
* `AssignProps.v`: `C16_placement_sound`, `C16_placement_total`, `C16_refused_only_if_full`, `C16_data_bss_org_refuted`
* Status: proved. Soundness and absence of UB of whole-program placement; C16_data_bss_org_refuted shows ORG is ignored for BSS groups with the DATA flag, which xasm never writes.

### C17 Unused sections cost nothing

Invariance of placement under removal of unused sections.
* `AssignProps.v`: `C17_unused_no_influence`, `C17_unused_unchanged`
* Status: proved.

### C18 References resolve to the exporter's address

Resolution over a mutable table of symbols with fuel for the recursion; the specification is a relation between programs and values.
* `LinkProps.v`: `C18_symbol_has_exporters_address`, `C18_symbol_has_exporters_bank`, `C18_all_resolved`, `C18_definition_unique`, `C18_duplicate_export_refuted`
* Status: proved. Duplicate exports are accepted silently and list order decides: C18_duplicate_export_refuted.

### C19 Unresolved references are always reported

A successful link implies that every symbol some patch needs is resolved; missing exports are errors.
* `LinkProps.v`: `C19_missing_export_is_error`, `C19_successful_link_resolves_partial`, `C19_bank_of_constant_refuted`, `C19_unreferenced_import_refuted`
* Status: partial. A missing export that a patch asks for always ends the link. Not true in full: a patch whose evaluation ends early (bank of a constant) is left as is without a message, and imports no patch mentions may stay unresolved (both refuted with witnesses).

### C20 Smart linking keeps exactly the reachable sections

Marking as a fuelled graph search, shown equal to inductive reachability.
* `LinkProps.v`: `C20_smart_linking`, `C20_no_entry_uses_all`, `C20_kept_imports_are_defined`, `C20_exported_constant_refuted`, `C20_spurious_section_refuted`
* Status: proved. Reachability follows the symbols in a section's table; constants lead to the section that covers their value, which the two refuted theorems show to be too strict and too generous.

### C21 Binary image contents

A file as a byte list with seek and write; contents at every offset, and that contents determine the file; composed with placement.
* `ImageProps.v`: `C21_image_contents`, `C21_contents_unique`, `C21_linked_image`
* Status: proved. Main file and overlay files, with or without a file header in front; composed with placement (C16) for memory maps whose pools do not share image bytes.

### C22 Image padding

Padding of any file; refutation for exact multiples.
* `ImageProps.v`: `C22_padding_partial`, `C22_padding_multiple_partial`, `C22_exact_multiple_refuted`, `C22_padding_power_partial`
* Status: partial. Contents kept and $FF added for all lengths; smallest multiple for lengths that are not multiples already. C22_exact_multiple_refuted: for exact multiples a whole extra block is added.

### C23 Game Boy header is valid

The header functions on byte lists against the boot ROM's checks.
* `HeaderProps.v`: `C23_gameboy_rom`, `C23_gameboy_header`
* Status: proved. Header update on any file from $150 bytes, and whole ROM from sections with at least 256 bytes of contents.

### C24 Mega Drive header checksum

The header functions on byte lists against the header's definition.
* `HeaderProps.v`: `C24_megadrive_rom`, `C24_megadrive_header`
* Status: proved. Header update on any file from $200 bytes, and whole ROM from sections.

### C25 HC800 kernel checksum

The checksum function on byte lists.
* `HeaderProps.v`: `C25_kernel_checksum`, `C25_kernel_image`
* Status: proved. Any file, and whole kernel from sections.

### C26 Commodore PRG loads correctly

The writer composed with a reference loader; composed with placement.
* `FormatProps.v`: `C26_prg_loads`, `C26_mega65_loads`, `C26_linked`
* Status: proved.

### C27 CoCo BIN loads correctly

The writer composed with a reference loader; composed with placement.
* `FormatProps.v`: `C27_coco_loads`, `C27_linked`
* Status: proved.

### C28 PGZ loads correctly

The writer composed with a reference loader; refutations for empty sections and a start at the end.
* `FormatProps.v`: `C28_pgz_loads_partial`, `C28_pgz_blocks_partial`, `C28_empty_section_refuted`, `C28_start_at_end_refuted`
* Status: partial. Holds unless the program has an empty section or starts at the end of its last section; both exceptions are proved to break it (C28_empty_section_refuted, C28_start_at_end_refuted).

### C29 Amiga hunk executable loads correctly

The writer composed with a reference hunk loader and relocator, also together with patching.
* `HunkProps.v`: `C29_hunks_load`, `C29_relocated`, `C29_pointers`, `C29_entry_refuted`, `C29_link_object_refuted`
* Status: proved. Executables are proved to load and relocate correctly, also together with patching (C29_pointers). Two related expectations fail: an entry symbol at the start of the first hunk is refused (C29_entry_refuted) and link objects do not name what they import (C29_link_object_refuted).

### C30 Assembler raw binary output

Placement, back patching and writing by the assembler, as functions over its final state.
* `BinProps.v`: `C30_image`, `C30_verilog`, `C30_unpatched`, `C30_label`, `C30_imports`, `C30_branch_refuted`, `C30_align_page_refuted`, `C30_bank_refuted`
* Status: partial. Positions, image, Verilog form and label references are proved for programs that fit in 32 bits.  Refuted parts: a branch between two sections without an address is left as zero without an error (C30_branch_refuted); a section both aligned and paged may lose its alignment (C30_align_page_refuted; proved when one divides the other); an explicit address in a bank of a Z80 is moved by 16384 (C30_bank_refuted). Programs that refer to imported symbols are refused (C30_imports).

### C31 Data directives emit exactly their bytes

Directives as operations on the assembler state; the bytes appended, the patches recorded and the counters, for every state.
* `SectProps.v`: `C31_data`, `C31_reserve`, `C31_no_data_in_bss`, `C31_out_of_range`, `C31_errors_stay`, `C31_bookkeeping`, `C31_empty_word_refuted`, `C31_reserve_refuted`, `C31_align_refuted`
* Status: proved. Floating point data and sect_OutputConst16At are not modelled. Refuted outside the stated conditions: DW/DL without argument report an error (C31_empty_word_refuted), DS of 2^30 longs reserves nothing (C31_reserve_refuted), EVEN without a section and CNOP x,0 are undefined (C31_align_refuted).

### C32 Section stack and section switching

Histories of directives and a reference machine with a stack of blocks.
* `SectProps.v`: `C32_blocks`, `C32_other_sections`, `C32_extended`, `C32_stack`, `C32_unmatched`, `C32_reopen_refuted`
* Status: proved. One exception is proved: after ORG a section with attributes cannot be re-opened with the same attributes (C32_reopen_refuted).

### C33 Option stack

Options as a record with a stack; nested blocks of directives.
* `OptProps.v`: `C33_restore_partial`, `C33_after`, `C33_unmatched`, `C33_warning`, `C33_settings`, `C33_include_refuted`
* Status: partial. Everything in SOptions is restored; include paths added by OPT i are not (C33_include_refuted).

### C34 Symbol definition rules

Symbol table operations over histories of directives; invariants and step rules.
* `SymProps.v`: `C34_one_symbol`, `C34_reachable`, `C34_stable`, `C34_rules`, `C34_group`, `C34_global`, `C34_export_set_refuted`, `C34_internal_refuted`
* Status: proved. C34_export_set_refuted and C34_internal_refuted record two defects: EXPORT followed by SET exports a symbol that cannot be exported, and redefining a predefined symbol dereferences a null pointer

### C35 Local symbols are scoped

Scopes of the symbol table; frame conditions between scopes.
* `SymProps.v`: `C35_reference`, `C35_private`, `C35_reuse`, `C35_equ_scope_refuted`, `C35_rs_scope_refuted`
* Status: proved. C35_equ_scope_refuted and C35_rs_scope_refuted: EQU, SET and the first RS directive end a scope although the manual only names global labels

### C36 Operator precedence and associativity

The recursive descent parser on tokens against a grammar given by a table of operators; induction on the expression's text.
* `ParseProps.v`: `C36_value_of_text`, `C36_as_documented`, `C36_tree_of_text`, `C36_shift_refuted`, `C36_not_refuted`, `C36_strings`, `C36_minimum_refuted`, `C36_character_compare_refuted`, `C36_member_label_refuted`, `C36_plus_character_refuted`
* Status: partial. Value and tree of every expression text grouped by the table the parser follows, and by the documented table away from two departures, which are refuted: shifts share the level of multiplication, and ~! binds tighter than && and ||. Also refuted: -2147483648 overflows, "A" == 65 is an error, labels called .upper/.lower and (+"A") dereference a null string. String members, character constants and code literals are modelled but outside the grammar of the theorem.

### C37 Integer literals

Literal readers on characters against the value of a digit string.
* `LexProps.v`: `C37_integer`, `C37_integer_dot`, `C37_fixed_point_partial`, `C37_gameboy_value_partial`, `C37_gameboy_terminator_refuted`, `C37_fraction_refuted`, `C37_no_digits_refuted`, `C37_long_refuted`
* Status: partial. Integers: value modulo 2^32 and exact consumption for every digit string of up to 257 digits (a longer one overflows the token buffer, C37_long_refuted). Fixed point: exact floor while the denominator fits in 31 bits, wrong or a division by zero beyond (C37_fraction_refuted). Game Boy: value proved, but the terminating character is swallowed (C37_gameboy_terminator_refuted). Missing: literals that end at the end of the file.

### C38 Macro argument substitution

The lexer's buffer with macro arguments against textual substitution.
* `LexProps.v`: `C38_substitution_partial`, `C38_put_back`, `C38_shift`, `C38_unique`, `C38_empty_argument_refuted`, `C38_argument_backslash_refuted`, `C38_long_argument_refuted`
* Status: partial. Verbatim substitution for bodies whose replacements hold no reference, do not end in a backslash, have at most 256 characters, and are not empty directly before another reference; each exclusion is refuted. SHIFT, put-back and uniqueness of \@ are proved in full.

### C39 REPT repeats exactly n times

A machine over lines with contexts, against structured programs (see C40).
* `ControlProps.v`: `C39_rept`, `C39_rexit`, `C39_nested`, `C39_mexit_in_rept_refuted`
* Status: proved. For every properly nested source the machine does exactly what the structured program says (C40_structured, an equivalence), and REPT n makes n passes each with its own \@ (C39_rept, C39_rexit, C39_nested). MEXIT inside REPT inside a macro hangs (C39_mexit_in_rept_refuted).

### C40 Conditional skipping honours nesting

Equivalence between the machine and the big-step semantics of structured programs; the scans for the next directive on characters.
* `ControlProps.v`: `C40_structured`, `C40_skips_to_match`, `C40_missing_endc_refuted`, `C40_missing_two_endc_refuted`, `C40_unchecked_refuted`
* `ScanProps.v`: `C40_skip_scan_partial`, `C40_macro_scan_partial`, `C40_macro_blank_line_refuted`
* Status: partial. Equivalence with structured programs for every properly nested source (C40_structured), and the character-level search for the next directive (C40_skip_scan_partial, C40_macro_scan_partial). Sources that miss an ENDC are not always refused (C40_missing_endc_refuted, C40_missing_two_endc_refuted, C40_unchecked_refuted); in a macro definition a comment after an empty line can be taken for a directive (C40_macro_blank_line_refuted).

### C41 RS counters and structures

RS directives over histories; sums of sizes.
* `SymProps.v`: `C41_offsets`, `C41_structure`, `C41_case_hypotheses`, `C41_sizeof_refuted`, `C41_purge_refuted`, `C41_overflow_refuted`
* Status: proved. C41_sizeof_refuted, C41_purge_refuted and C41_overflow_refuted record that .SIZEOF is never defined, that purging or redefining __RS is undefined behaviour, and that an offset beyond 32 bits is undefined behaviour

### C42 Random numbers stay in range

The generator as a function on 32-bit states: range, onto, a permutation of seeds, replay.
* `RandProps.v`: `C42_range_partial`, `C42_every_value_partial`, `C42_seed_permutation`, `C42_seed_nonzero`, `C42_replay`, `C42_wide_range_refuted`, `C42_zero_seed_refuted`, `C42_reversed_refuted`
* Status: partial. Range, surjectivity, permutation and replay for all seeds; ranges of 2^31 values or ending at INT_MAX are undefined, reversed bounds are not refused and seed 0 is a fixed point (refutations).

### C43 Machine definition expressions

Tokens, integers and expressions of machine definition files against a grammar.
* `MdefProps.v`: `C43_expression_partial`, `C43_binary_refuted`, `C43_documented_example_refuted`, `C43_dangling_refuted`, `C43_property_expression_refuted`
* Status: partial. All expressions of decimal and hexadecimal literals, @, signs, parentheses and the four operators have their documented value. Refuted: binary literals never parse; the documented example with a bank of -1 is read as a subtraction; an operand may be missing; properties cannot be part of an expression.

### C44 Chip-8/SCHIP encoding

The instruction parser from tokens on; opcode table; every expression operand through C07's semantics; a converse saying only the manual is accepted.
* `ChipProps.v`: `C44_encoding_partial`, `C44_distinct`, `C44_two_bytes`, `C44_only_the_manual`, `C44_out_of_range`, `C44_scd_refuted`, `C44_rpl_refuted`, `C44_missing_operand_refuted`
* Status: partial. Every instruction of doc/CpuCHIP.md but SCD is accepted and stored as its row of the opcode table, whatever its operand (known, or patched later); valid instructions with the same encoding are the same; a mnemonic with operands of other kinds is refused; constants out of range are reported. Refuted: SCD is never accepted, RPL transfers are accepted on plain CHIP-8, a missing last operand is accepted silently.

### C45 MIPS encoding

As C44, with a reference decoder for distinctness.
* `MipsProps.v`: `C45_encoding_partial`, `C45_distinct`, `C45_four_bytes`, `C45_only_the_manual`, `C45_out_of_range`, `C45_register_names`, `C45_shift_register_refuted`, `C45_bltzl_refuted`, `C45_unsigned_compare_refuted`, `C45_target_refuted`, `C45_missing_operand_refuted`
* Status: partial. Every MIPS32 instruction the assembler knows except SLLV/SRLV/SRAV/ROTRV and BLTZL is shown to be encoded as in the manual, with known or link-time operands; encodings are shown distinct, only manual forms are accepted, and constants out of range are reported. The remaining forms are refuted: exchanged operands, a wrong opcode, unsigned checks on sign-extended immediates, unaligned and far targets, missing operands.

### C46 6502, 65C02 and 65C02S encoding

As C44, with the data sheets' opcode tables; the choice of mode is part of the specification.
* `X65Props.v`: `C46_encoding_partial`, `C46_only_the_manual`, `C46_out_of_range`, `C46_distinct`, `C46_rla_refuted`, `C46_indirect_refuted`, `C46_bit_branch_refuted`, `C46_wait_refuted`
* Status: partial. Proved: every instruction and operand form of the 6502 (with the three sets of undocumented names), 65C02 and 65C02S data sheets is encoded as the data sheet says for operands known and unknown; nothing else is accepted silently except STP/WAI on a 65C02; out-of-range constants are reported; opcodes are distinct. Refuted: RLA stored as SRE, 65C02 (zp) with a non-constant pointer refused, BBR/BBS with a separate bit number and a non-constant pointer reported, STP/WAI accepted on the 65C02. Not modelled: 65816, 45GS02 and 4510 modes.

### C47 Program counter relative operands

The PC-relative operator when entered, when reduced at the end of the file, and in the linker, against target minus place.
* `PcRelProps.v`: `C47_distance`, `C47_same_section`, `C47_floating`, `C47_org_refuted`
* Status: partial. Proved for every target without parentheses around all of it (C09_pcrel_parens_refuted) and for addresses that do not overflow 32 bits. Fails for ORG in a section with a fixed load address and a fixed bank: C47_org_refuted.

### C48 Master System header is valid

The header function on byte lists; refutation of the whole format.
* `HeaderProps.v`: `C48_mastersystem_header_partial`, `C48_mastersystem_image_refuted`
* Status: partial. The header function is right; the output format as a whole never succeeds (C48_mastersystem_image_refuted).

### C49 F256 kernel user programs load at their slots

The writer composed with a reference loader of the F256 kernel.
* `FormatProps.v`: `C49_kup_loads`, `C49_kup_size_partial`, `C49_pad_refuted`
* Status: partial. Loading is proved in full. A padded file is a whole number of slots, but one too many when the program already fills its slots (C49_pad_refuted).

### C50 HC800 executables load every bank

The writer composed with a reference loader of the HC800.
* `FormatProps.v`: `C50_hc800_loads`, `C50_unused_refuted`
* Status: partial. Proved for programs all of whose sections with a bank are placed; an unused section with a requested bank breaks it (C50_unused_refuted).

### C51 Built-in memory maps keep sections apart

The built-in memory maps as data; C16's soundness combined with a finite check of which pools share memory.
* `MachineProps.v`: `C51_no_overlap_partial`, `C51_image`, `C51_hc800`, `C51_hc800_memory_partial`, `C51_regions`, `C51_usable`, `C51_hram_refuted`, `C51_code_bank_refuted`, `C51_sms_bank_refuted`, `C51_amiga_fast_refuted`, `C51_names_refuted`, `C51_commodore_refuted`, `C51_c128_rom_refuted`, `C51_f256_refuted`, `C51_amiga_refuted`, `C51_medium_harvard_refuted`, `C51_medium_refuted`, `C51_home_refuted`
* Status: partial. Proved for 15 of the 25 maps (addresses), all image maps (C51_image) and the HC800 executables (C51_hc800). Refuted for the Commodore maps (out of bounds array), C128 ROM, F256 Jr, Amiga binaries, HC800 medium and medium Harvard; the HOME group can never be placed on the HC800. Regions per group are proved for 19 maps (C51_regions, C51_usable); the manual's HRAM end, Game Boy CODE area, Master System bank 1, Amiga FAST address and several map names are refuted.

### C52 Relocatable expressions become section plus offset

The linker's stack machine in relocatable mode against the value with each section loaded anywhere.
* `RelocProps.v`: `C52_relocatable`, `C52_hunk_pointers`, `C52_between_sections`, `C52_difference_refuted`, `C52_imports_refuted`
* Status: partial. C52_difference_refuted and C52_imports_refuted: the difference of two symbols drops constants added to either label, and the difference of two imported symbols is always 0; the positive theorems cover the other shapes.

### C53 Machine definition files

The reader of machine definition files against a grammar of lines; induction over the lines.
* `MdefProps.v`: `C53_file_partial`, `C53_no_format`, `C53_cbm_format_refuted`
* Status: partial. For all well-formed lines except binary literals, text after CBM_PRG[x], operators on properties, and pool expressions after the first that start with a sign; two pools of the same name are left out because the map library is not in the repository. Refuted: the format after CBM_PRG[x] is lost.

### C54 Words, names, labels and comments

The hash table refines an association list; the loops over characters against longest prefix.
* `TokProps.v`: `C54_lookup`, `C54_longest`, `C54_token`, `C54_label`, `C54_comment`, `C54_string_symbol`, `C54_word_end_refuted`, `C54_self_reference_refuted`
* Status: partial. Proved for lines without backslash and 0 and for words of up to 255 and names of up to 256 characters. Refuted: a keyword may end inside a word (JALR.HBX is JALR.HB and X); a string symbol that names itself before # is expanded for ever.

### C55 String literals

Mutual induction over a grammar of strings and code, for the lexer's and the parser's functions.
* `TokProps.v`: `C55_literal`, `C55_unterminated`, `C55_end_of_file_refuted`, `C55_long_refuted`, `C55_backslash_refuted`
* Status: partial. Reading, value and the error proved for literals of up to 256 characters; what a piece of code stands for is a parameter. Refuted: a file that ends inside a string and strings of 257 characters or more are written beyond the token; two backslashes before a digit are not one backslash.

### C56 String expressions and formatted numbers

Mutual induction over the ways to write an expression tree; digits by induction on division.
* `StrProps.v`: `C56_expression`, `C56_slice_refuted`, `C56_decimal`, `C56_hex_partial`, `C56_hex_refuted`, `C56_fixed_partial`, `C56_fixed_negative_refuted`, `C56_fixed_digits_refuted`, `C56_decimal_least_refuted`, `C56_character`
* Status: partial. Expressions proved from tokens on, with integer arguments already evaluated and symbols between bars left out; D proved for all but the least integer; X for up to 3 digits or none given; F for values that are not negative and up to 5 digits. Refuted: X with 4 or more digits and F with 8 or more are undefined, F of a negative number shows another number, D of the least integer and slice counts near the largest integer overflow.

### C57 From source to linked file

One function for the linker's run; the theorems of C07, C10, C16, C18, C20 and C21 are composed over it, with the layout seen by each patch.
* `WholeProps.v`: `C57_linked_program`
* Status: proved. Composed from the theorems of C07, C10, C16, C18, C20 and C21. Programs are taken as read from object files (C05); values are those of expressions with a defined meaning.

### C58 Z80 and Game Boy instructions

Instruction parser with its handlers over tokens; the manual as a table of rows (name, operand patterns, condition, code). One computed check over the table for symbolic operands, then a proof that the plan it returns holds for all operands; the converse by a computed check over names and patterns.
* `Z80Props.v`: `C58_encoding_partial`, `C58_only_the_manual`, `C58_out_of_range`, `C58_options`, `C58_undocumented_default_refuted`, `C58_index_rotate_refuted`, `C58_dec_half_refuted`, `C58_game_boy_index_refuted`, `C58_mixed_halves_refuted`, `C58_shift_sp_refuted`, `C58_port_bc_refuted`, `C58_add_sp_refuted`, `C58_in_a_refuted`
* Status: partial. The encoding theorem leaves out the rows listed by faulty in Z80Spec.v, where the code is wrong: rotates and shifts of (IX)/(IY) without displacement, DEC of IXH/IXL/IYH/IYL, IN (C). The converse allows the instructions listed by mistaken, which the code accepts although no manual has them. Both lists are justified by refutation theorems. Jump distances are checked when the expression is known (C10, C16), not at once. The default of the undocumented option is read from uninitialised memory (C58_undocumented_default_refuted).

### C59 Section attributes and ORG

Invariant over directive lists: section names stay distinct, attributes once given are kept; then a case analysis of SECTION. ORG by composition with C31.
* `AttrProps.v`: `C59_attributes`, `C59_reopen`, `C59_name_only`, `C59_org`
* Status: proved. Reopening with attributes after an ORG fails: C32_reopen_refuted.

### C60 Line numbers of the code

Each directive either leaves a section's table and counter alone or adds at most one entry at the old counter; entries are sorted, so the last one at or before a position is the right one.
* `AttrProps.v`: `C60_lines`
* Status: proved. The position in the source is what the lexer reports when the directive is read; positions count words from the start of the section. Sections without data are left out: their counter may wrap around (C31_reserve_refuted).

### C61 6809 instructions

Instruction parser with its handlers over tokens; the manual as a table of mnemonics, columns and codes, and a grammar of operands. Reading of each operand form is proved by cases, the table by one computed check over the keywords; the converse inverts each reading step.
* `M6809Props.v`: `C61_encoding_partial`, `C61_only_the_manual`, `C61_out_of_range`, `C61_setdp`, `C61_direct_page`, `C61_lsra_refuted`, `C61_offset_register_refuted`, `C61_forward_offset_refuted`, `C61_stack_immediate_refuted`, `C61_rotate_immediate_refuted`, `C61_short_offset_refuted`, `C61_dp_name_refuted`
* Status: partial. The encoding theorem leaves out what faulty in M6809Spec.v lists, where the code is wrong: LSRA and LSRB, 8 and 16 bit offsets from Y, U and S, and offsets not known yet without < or >. The converse allows the operands that odd lists, which the code accepts although the manual has none such. The range theorem is about what beyond lists; distances are checked when the expression is known (C10, C16). The lists are justified by refutation theorems.

### C62 DCPU-16 instructions

Instruction parser with its handlers over tokens; the specification as a table of codes and a grammar of operands. Reading of each operand form is proved by cases; the converse inverts the loop that collects the terms between brackets.
* `DcpuProps.v`: `C62_encoding_partial`, `C62_jsr_partial`, `C62_only_the_specification_partial`, `C62_out_of_range_partial`, `C62_jsr_out_of_range_partial`, `C62_option`, `C62_optimised_length`, `C62_push_refuted`, `C62_literal_range_refuted`, `C62_subtract_refuted`, `C62_skipped_token_refuted`, `C62_negative_literal_refuted`, `C62_zero_offset_refuted`
* Status: partial. The encoding theorem leaves out what faulty in DcpuSpec.v lists, where the code is wrong: [--SP] is taken to be PEEK, and with optimisation ADD and SUB of a known literal of -31 to -1 use freed memory (proved for every such instruction). The range theorem leaves out literals, which are cut to 16 bits without a report. The converse leaves out minus signs outside expressions: [r-n] is always refused, and a token after the minus sign is skipped. The gaps are justified by refutation theorems.

### C63 Map file

The linker's steps up to patching and the writer of the map file, with the C library's sort as a parameter; the specification says which lines there are and what each shows. Placement and values come from C57's proof.
* `ReportProps.v`: `C63_map_file_partial`, `C63_overflow_refuted`
* Status: partial. Proved for sections whose symbols' values lie within a window of 2^31 bytes; otherwise the comparison overflows (C63_overflow_refuted). For output formats without relocation.

### C64 Listing

The writer of the listing, over the patched program; the bytes are tied to the output files through C57. Line by line induction over the sorted line table.
* `ReportProps.v`: `C64_listing_partial`, `C64_words_refuted`, `C64_first_line_refuted`
* Status: partial. Proved for line tables in bytes that begin at the first byte of the section. On machines with larger words the assembler counts words and the listing shows other bytes and addresses (C64_words_refuted); without a line for the first byte the first line shows other bytes (C64_first_line_refuted). For output formats without relocation.

### C65 ELF objects say what was assembled

The writer function by function, appending to a file, a string table and a list of headers, with three fields of the header overwritten at the end. The specification is the ELF32 format as relations between positions of a file and numbers. Proved by monotonicity: what one step wrote stays where it is.
* `ElfProps.v`: `C65_elf_object_partial`, `C65_width_refuted`, `C65_difference_refuted`, `C65_label_refuted`
* Status: partial. Proved for programs whose patches are of 32 bits, highest byte first, and subtract no symbol. Other widths are written as 32-bit relocations and destroy the bytes beside them (C65_width_refuted); a number minus an import becomes import plus number (C65_difference_refuted); a label of the program plus a number is refused (C65_label_refuted).

### C66 The linker reads ELF objects faithfully

The reader function by function over the bytes of the file. The specification is the one of C65, read the other way: whatever bytes say an object, the sections in the linker hold it. Sections, symbols and relocations are three folds, each with an invariant; the last theorem composes with C18.
* `ElfReadProps.v`: `C66_elf_read_partial`, `C66_ready_to_link`, `C66_relocation`, `C66_assembled_and_read_partial`, `C66_exported_constant_refuted`, `C66_same_name_refuted`
* Status: partial. Proved for objects without tables of relocations of type REL, whose global symbols are no constants, whose relocations are not to constants, and for C66_relocation whose symbols defined in sections have different names. An exported constant, which the assembler itself writes, makes the linker use a null pointer (C66_exported_constant_refuted); of local labels with the same name other sections get the first (C66_same_name_refuted). C66_assembled_and_read_partial composes C65 and C66.

### C67 Amiga files of the assembler hold the program

The writer function by function over a file with seeks back into contents already written. The specification is AmigaDOS's loader and a linker's reader of hunk objects. Proved by an invariant that every write either appends or replaces a longword of the hunk's contents, and by commuting additions at disjoint longwords.
* `AmiProps.v`: `C67_executable_partial`, `C67_executable_written`, `C67_object_partial`, `C67_object_written`, `C67_debug_executable_refuted`, `C67_object_chip_refuted`, `C67_negated_import_refuted`, `C67_exported_constant_refuted`, `C67_width_refused`
* Status: partial. Executables are proved for programs assembled without debug information: with it, section names are written in place of the resident library list and the file cannot be loaded (C67_debug_executable_refuted). Objects are proved except that chip memory is not requested (C67_object_chip_refuted), exported constants are missing (C67_exported_constant_refuted) and a constant minus an import is written as their sum (C67_negated_import_refuted). Values of other widths are refused (C67_width_refused).

### C68 680x0 instructions assemble to words that say what was written

Operand parser, extension words, instruction table and handlers function by function. The specification is a decoder written from the processors' manual, from words and a machine state to an operation and places. Proved bottom up: what the words of each addressing mode say, then each handler's opcode, then the table for every form and processor, with the values of expressions left as variables throughout.
* `M68kProps.v`: `C68_encoding_partial`, `C68_odd_place`, `C68_long_relative_refuted`, `C68_size_refuted`, `C68_displacement_refuted`, `C68_loop_refuted`, `C68_short_branch_refuted`, `C68_indirect_zero_refuted`, `C68_bare_pc_refuted`, `C68_address_byte_refuted`, `C68_processor_refuted`, `C68_refused_refuted`, `C68_stack_pointer`
* Status: partial. Proved for 169 forms: all of the 68000's instructions except MOVEM, MOVEP and the moves to and from CCR, SR and USP, with the 68020's addressing modes and its long forms of Bcc, MUL, DIV, CHK, EXTB and LINK. Not modelled or not covered: those instructions, what only later processors have, and the coprocessors. instr_fits leaves out the operands that are refuted: long PC-relative distances in sections with an address (C68_long_relative_refuted), values that do not fit a displacement (C68_displacement_refuted, C68_loop_refuted), a byte branch to the next byte (C68_short_branch_refuted), ([0],...) (C68_indirect_zero_refuted). Further faults: C68_size_refuted, C68_bare_pc_refuted, C68_address_byte_refuted, C68_processor_refuted, C68_refused_refuted.

### C69 Included files are found in the documented order and the dependency file lists exactly the files read

includes.c, dependency.c and the INCLUDE, INCBIN and INCLUDE ONCE directives as a machine over events, with the file system as a parameter. The specification is the list of places in order, and the text of a makefile rule. Proved by an invariant over histories: the recorded set is the set of files opened, without repetition; a file in the once set stays in it.
* `DepProps.v`: `C69_search`, `C69_include`, `C69_once`, `C69_includer`, `C69_dependency_file_partial`, `C69_case`, `C69_includer_case`, `C69_directories`, `C69_source_elsewhere_refuted`, `C69_incbin_once_refuted`, `C69_incbin_once_reached`, `C69_once_first_refuted`, `C69_empty_directory_refuted`, `C69_spaces_refuted`
* Status: partial. Search order, INCLUDE ONCE and the contents of the dependency file are proved for every history. Missing and refuted: a source file found through a directory is listed under the name given (C69_source_elsewhere_refuted); names with spaces are not escaped (C69_spaces_refuted); INCBIN of a file that said INCLUDE ONCE stores nothing without a report (C69_incbin_once_refuted); INCLUDE ONCE before any file was included uses a null pointer (C69_once_first_refuted); an empty directory name reads before the string (C69_empty_directory_refuted).

### C70 RC811 instructions, including those the processor lacks, do what is written

xasm/rc8's instruction parser and its handlers, function by function. The specification is a small RC811: eight registers, memory, ports and four stacks, its opcodes, and beside it what each instruction of the language does. Proved by computing the bytes of each instruction and running them on an arbitrary state; carries by linear arithmetic; numbers through the lemmas on operands shared with the other back ends.
* `Rc8Props.v`: `C70_instructions_partial`, `C70_any_order`, `C70_port_refuted`, `C70_sub_refuted`, `C70_exchange_refuted`, `C70_add_refuted`, `C70_sub_number_refuted`, `C70_word_step_refuted`, `C70_lco_refuted`, `C70_list_refuted`, `C70_cmp_refuted`
* `Rc8JumpProps.v`: `C70_jumps`, `C70_conditional`, `C70_through_pairs`, `C70_call`
* `Rc8MoreProps.v`: `C70_encoding`, `C70_encoding_distinct`, `C70_conditional_encoding`, `C70_option`, `C70_option_single_partial`, `C70_option_single_refuted`, `C70_option_condition_refuted`
* Status: partial. Loads, stores, port accesses, exchanges, additions, subtractions, logic, negation and stack instructions are proved, synthesized ones included (C70_instructions_partial), alone and behind a condition (C70_conditional), as are the encodings of jumps (C70_jumps, C70_through_pairs) and calls of an address (C70_call). Of shifts, CMP, TST, PICK, SYS, LCO and LCR only the encodings are proved, also behind a condition (C70_encoding, C70_conditional_encoding, C70_encoding_distinct). Switching synthesized instructions on changes no line accepted without them (C70_option); with them off a line without a condition is one instruction (C70_option_single_partial), but PICK rr,n and conditions are still synthesized (C70_option_single_refuted, C70_option_condition_refuted). Missing: what those instructions and jumps do when run, and the flags. Refuted: LIO (DE+),T writes to the port in HL (C70_port_refuted); SUB T,T negates (C70_sub_refuted); EXG B,B exchanges T and B (C70_exchange_refuted); ADD rr,$7F80..$7FFF and SUB r,129..255 are refused (C70_add_refuted, C70_sub_number_refuted); LD (HL+),FT steps by one (C70_word_step_refuted); LCO FT,(rr) loads T (C70_lco_refuted); PUSH FT/FT asserts (C70_list_refuted); CMP truncates its number (C70_cmp_refuted).

### C71 MOVEM moves exactly the registers listed

m68k_ParseRegisterList, reverseBits and handleMOVEM, function by function, on the tokens of the 680x0 model with the minus sign and the slash. The specification says which registers a list names and how the processor reads the two words of MOVEM. Proved by induction on the list, bit by bit.
* `M68kMovemProps.v`: `C71_list`, `C71_constant`, `C71_descending`, `C71_to_memory_partial`, `C71_from_memory_partial`, `C71_refused`, `C71_empty`
* Status: partial. Register lists, masks, refusals and the empty mask are proved (C71_list, C71_constant, C71_descending, C71_refused, C71_empty), and MOVEM to (An) and -(An) and from (An) and (An)+ (C71_to_memory_partial, C71_from_memory_partial). Missing: memory operands with displacements, indices and absolute addresses, and reading the size.

## Trusted base

* Coq 8.16.1's kernel, with its `vm_compute` reduction.
* `Print Assumptions` prints "Closed under the global context" for every property
  theorem: no axiom is used, neither of the standard library nor of our own.
  (`coqchk` lists `Coq.ssr.ssrunder` parameters of the standard library as loaded; no
  theorem depends on them.)
* The correspondence between the C source and the model, which is by reading.
* The specifications: object file format, output formats and loaders, the grammar and
  operator tables, the instruction set tables.  They are written from /repo/doc, the
  cited manuals and published format descriptions.
* The compiler: `char` is unsigned (-funsigned-char), `int` has 32 bits, two's
  complement, `>>` of a negative number is arithmetic.

### What the theorems are parametric in

These are universally quantified, with the stated hypotheses, never assumed as axioms.

* `fmath`: floating point and fixed point helpers (sin, cos, pow, ..., 16.16
  multiplication and division).  Only their totality and 32-bit results are used
  (`fmath_ok`).  The helpers `log2n` and `isPowerOfTwo` of the missing util library are
  modelled as what their names say.
* `linkerValue`, `groupProperty`: values of linker-made symbols.
* `files`: what the file system holds for INCLUDE; `keyword`: which words are directives
  in the scan for the next directive; the `pctx` oracle of the expression parser: symbol
  lookup and string contents.
* `world` (DepModel.v): the file system and util's names of files: what exists and can be
  opened, fcanonicalizePath and freplaceFileComponent; `order`: the order in which
  set_ForEachElement goes through a set, any permutation of it.
* `used`: which symbols have the flag SYMF_USED when an ELF file is written.
* `garbage`, `junk`: the contents of uninitialised memory that the code reads.
* `sorter`: the C library's `qsort`, which sorts by any total order (`sorts`).
* File operations (`FileModel.v`): opening, writing and seeking succeed; reads return
  what was written.  Memory allocation succeeds.
* The string map, list, string and file helpers of the missing /repo/util are modelled
  from their names and their use.

### Modelled

* xlib: library.c and the commands of main.c.
* xlink: object.c, section.c, smart.c, assign.c, patch.c, group.c (pools, groups,
  built-in memory maps), machinedefinition.c, image.c, gameboy.c, sega.c, hc800.c,
  commodore.c, coco.c, foenix.c, amiga.c, elf.c, mapfile.c, listfile.c, and the order of steps in main.c.
* xasm/motor: expression.c, patch.c, object.c, section.c, linemap.c (recording),
  options.c, symbol.c, parse_symbol.c, parse_expression.c, parse_string.c,
  lexer_constants.c, the tokens of lexer.c, binaryobject.c, includes.c, dependency.c, elf.c, amigaobject.c, lexer_buffer.c, the literals and directive scans of
  lexer.c, lexer_context.c and parse_block.c (as a machine over lines), the directives
  of parse_directive.c for data, space, sections, symbols, control, options and random
  numbers.
* xasm back ends: schip, mips, z80 (Z80 and Game Boy), 6809, dcpu-16, 680x0, rc8 and 6502 (6502, 65C02, 65C02S):
  instruction parsers from tokens on, with operand expressions already parsed.

### Not modelled

* xlink: command line parsing beyond what is cited; obj_Read's dispatch to elf_Read (the two
  readers are modelled separately).
* xasm/motor: message
  texts of errors.c, floating point data (parse_float_expression.c), alignment in string
  interpolation.
* MOVEM with operands other than (An), -(An) and (An)+ in the theorems (the model has them), FMOVEM; the 680x0 instructions MOVEP, those with special registers, those only the 68010 and later have, and the
  coprocessors'; the 680x0's tables of reserved words (its tokens are words of the text)
* xasm back ends: the 65816, 4510 and 45GS02 instructions of the 6502 back end. Of rc8, the
  placing of the label behind an instruction with a condition is left to the caller. What RC811 opcodes do is taken from the
  opcode names in rc8_parse_instr.c, as /repo has no manual; the flags are left out.
* Resource exhaustion and I/O errors.
