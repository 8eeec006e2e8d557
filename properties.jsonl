{"id": "C01", "title": "Library file round trip", "statement": "Writing a library with xlib and reading the file back gives the same modules (name, length, bytes) in the same order, and the stored module count equals the number of modules.", "quantifier": "every list of modules whose names fit the name field and contain no NUL and whose lengths fit 32 bits", "why_tests_cant": "Module counts, names and contents of any length and byte value have to survive; a test writes a few libraries.", "anchors": ["xlib/library.c: lib_Write, lib_Read, readLib0"]}
{"id": "C02", "title": "Library add/replace is a map update", "statement": "After `xlib lib a file`, looking the module up by name yields exactly the bytes of the file, every other module is unchanged, a replaced module keeps its position and a new one is put first, and no name occurs twice.", "quantifier": "every library with distinct names, every file name and content, and every sequence of add commands", "why_tests_cant": "Histories of commands are unbounded.", "anchors": ["xlib/library.c: lib_AddReplace, lib_Find, truncateFileName"]}
{"id": "C03", "title": "Library delete removes exactly one module", "statement": "After `xlib lib d name` the named module is gone and all others are unchanged and in the same order; an absent name is reported and nothing is written.", "quantifier": "every library and every module position, including the last", "why_tests_cant": "The list can have any length and the module any position; the one position that fails is easily missed.", "anchors": ["xlib/library.c: lib_DeleteModule", "xlib/main.c: handleDeleteCommand"]}
{"id": "C04", "title": "Linking a library equals linking its modules", "statement": "When xlink reads a library file written by xlib it sees exactly the contained object modules, in library order, as if each had been given on its own.", "quantifier": "every list of modules that are valid object chunks", "why_tests_cant": "Any number of modules of any version and nesting position; a test links one or two small libraries.", "anchors": ["xlink/object.c: readXLB0, readChunk, obj_Read", "xlib/library.c: lib_Write"]}
{"id": "C05", "title": "Object file round trip", "statement": "Everything xasm writes into an object file (groups, sections with their attributes, symbols, data, line mappings, patches) is what xlink reads back, for the current object version.", "quantifier": "every object module whose fields are in range", "why_tests_cant": "Object files nest lists of groups, sections, symbols, lines and patches, each of any length, and the reader must stay in step with the writer across all of them.", "anchors": ["xasm/motor/object.c: obj_Write", "xlink/object.c: obj_Read, readXOBn"]}
{"id": "C06", "title": "Older object versions keep their meaning", "statement": "xlink reads an object file of any supported older version (0-5) as the same module with the documented defaults for the attributes that version lacks.", "quantifier": "every module and every version 0..6", "why_tests_cant": "Seven versions times every combination of attributes; old assemblers are no longer there to produce test files.", "anchors": ["xlink/object.c: readSection, readSymbol, readFileInfo, readXOBn"]}
{"id": "C07", "title": "Serialised patch expressions keep their value", "statement": "The byte string xasm writes for a patch expression makes the linker compute the value of the expression tree: operand order, operators and constants are preserved, and the linker's stack neither underflows nor is left with extra values.", "quantifier": "every expression tree of any depth built from the operators the object format has", "why_tests_cant": "Trees are unbounded.", "anchors": ["xasm/motor/object.c: writeExpression", "xlink/patch.c: calculateExpressionValue"]}
{"id": "C08", "title": "Assembly-time and link-time arithmetic agree", "statement": "An expression of constants has the same value whether the assembler folds it, the assembler's back-patcher reduces it or the linker evaluates it.", "quantifier": "every operator and all pairs of 32-bit operands for which the operation is defined", "why_tests_cant": "2^64 operand pairs per operator, any nesting.", "anchors": ["xasm/motor/expression.c", "xasm/motor/patch.c: reduceExpression", "xlink/patch.c: calculateExpressionValue"]}
{"id": "C09", "title": "Expression optimisation preserves meaning", "statement": "Optimising an expression before writing changes no value, leaves no parenthesis node and folds every subtree that was constant when it was entered to a single constant; reducing it at the end of the file changes no value either.", "quantifier": "every expression tree", "why_tests_cant": "Expressions have any depth and every operator can meet every mix of constant and unknown operands.", "anchors": ["xasm/motor/expression.c: expr_Optimize", "xasm/motor/patch.c: patch_OptimizeAll"]}
{"id": "C10", "title": "Applying a patch stores exactly the value", "statement": "Link-time patching writes the value's bytes in the declared width and byte order at the patch offset, changes no other byte, and reports an error exactly when the value is outside the width's signed/unsigned range.", "quantifier": "every section content, offset, patch type and value", "why_tests_cant": "All 2^32 values, six widths and every offset and neighbouring patch; only boundary samples can be tested.", "anchors": ["xlink/patch.c: patchSection"]}
{"id": "C11", "title": "Placed sections never overlap and stay in their pool", "statement": "Whatever sequence of placement requests is made, the ranges handed out from a memory pool are pairwise disjoint and lie inside the pool.", "quantifier": "every pool and every sequence of plain, absolute and aligned/paged requests", "why_tests_cant": "Histories of requests are unbounded.", "anchors": ["xlink/group.c: pool_AllocateMemory, pool_AllocateAbsolute, pool_AllocateAligned, pool_CarveRange"]}
{"id": "C12", "title": "No memory is lost or invented by placement", "statement": "At any time the free chunks of a pool plus the ranges handed out are exactly the pool: each byte is free or allocated exactly once.", "quantifier": "every pool and request history", "why_tests_cant": "Histories of requests are unbounded.", "anchors": ["xlink/group.c"]}
{"id": "C13", "title": "Fixed addresses and alignment are honoured", "statement": "A section with a fixed address is placed exactly there, an aligned section at a multiple of its alignment, or an error is reported.", "quantifier": "every pool state and request", "why_tests_cant": "Every pool state, size, address and alignment; only a few are sampled by tests.", "anchors": ["xlink/group.c: pool_AllocateAbsolute, pool_AllocateAligned", "xlink/assign.c"]}
{"id": "C14", "title": "Page-confined sections do not cross a page", "statement": "A section declared with PAGE[n] lies within one n-byte page.", "quantifier": "every pool state, size, page and alignment", "why_tests_cant": "Every pool state, size, page and alignment; the failing mixes are rare.", "anchors": ["xlink/group.c: pool_AllocateAligned", "doc/OrganisingCode.md: Fitting a section within a page"]}
{"id": "C15", "title": "Placement fails only when nothing fits", "statement": "A placement request is refused only if no free range of the group's pools satisfies it; the lowest-addressed suitable range of the first suitable pool is used.", "quantifier": "every pool state and request", "why_tests_cant": "Refusal has to be compared with all free ranges of every reachable pool state.", "anchors": ["xlink/group.c: pool_AllocateMemory, pool_AllocateAligned, group_AllocateAlignedFromGroup"]}
{"id": "C16", "title": "Whole-program placement is sound", "statement": "After the linker assigns sections, every used section lies in a pool of its own group with the bank of that pool, fixed address/bank/alignment requests hold, and no two sections share memory of one pool.", "quantifier": "every list of sections and every memory configuration", "why_tests_cant": "Unbounded inputs and all mixes of constraints.", "anchors": ["xlink/assign.c: assign_Process", "xlink/group.c"]}
{"id": "C17", "title": "Unused sections cost nothing", "statement": "Sections not marked used receive no address, take no memory and do not change where the used sections go.", "quantifier": "every section list", "why_tests_cant": "Any set of unused sections in any position, against all placements of the others.", "anchors": ["xlink/assign.c", "xlink/smart.c"]}
{"id": "C18", "title": "References resolve to the exporter's address", "statement": "After symbol resolution every imported symbol has the value of the exported symbol of that name (its offset plus the address of its section); file-local imports only see exports of the same object file.", "quantifier": "every list of sections and symbols", "why_tests_cant": "Any number of files, sections and symbols with chains of references between them, in any order.", "anchors": ["xlink/section.c: resolveSymbol, sect_ResolveUnresolved, sect_GetSymbol"]}
{"id": "C19", "title": "Unresolved references are always reported", "statement": "If an import that is needed has no matching export the link stops with an error; a successful link leaves no symbol unresolved.", "quantifier": "every list of sections and symbols", "why_tests_cant": "Absence of a silently unresolved reference is a claim about all programs.", "anchors": ["xlink/section.c: resolveSymbol"]}
{"id": "C20", "title": "Smart linking keeps exactly the reachable sections", "statement": "With a root symbol the sections kept are exactly those reachable through imported symbols from the root section or from a ROOT section; without one all are kept.", "quantifier": "every reference graph, including cyclic ones", "why_tests_cant": "Graphs are unbounded; cycles need an argument about termination.", "anchors": ["xlink/smart.c"]}
{"id": "C21", "title": "Binary image contents", "statement": "In the written image each byte belonging to a used, imaged section is that section's byte, every other byte inside the image is $FF, and the image ends at the last section's end (before padding).", "quantifier": "every placement of sections and any order of writing", "why_tests_cant": "Every byte of every image, for any number of sections in any order with gaps and overlaps.", "anchors": ["xlink/image.c: internalWriteBinary, writeSection"]}
{"id": "C22", "title": "Image padding", "statement": "Padding a binary image to a multiple adds only $FF bytes, keeps the contents, and gives a length that is the smallest multiple not below the content length.", "quantifier": "every image length and padding value", "why_tests_cant": "Every content length and every multiple; the failing lengths are exact multiples.", "anchors": ["xlink/image.c: padding code"]}
{"id": "C23", "title": "Game Boy header is valid", "statement": "The written ROM header satisfies the boot ROM's checks: logo bytes, complement checksum over $134-$14C, global checksum over all other bytes, and the smallest ROM size code covering the file.", "quantifier": "every ROM image", "why_tests_cant": "The checksums depend on every byte, the size code on every length.", "anchors": ["xlink/gameboy.c"]}
{"id": "C24", "title": "Mega Drive header checksum", "statement": "The word stored at $18E is the sum modulo 65536 of the big-endian words from $200 to the end, and the end address is length-1.", "quantifier": "every ROM image of even length at least $200", "why_tests_cant": "The checksum depends on every byte and on odd or even length.", "anchors": ["xlink/sega.c"]}
{"id": "C25", "title": "HC800 kernel checksum", "statement": "The bytes of a written kernel image sum to $A5 modulo 256.", "quantifier": "every image", "why_tests_cant": "The sum depends on every byte of the image.", "anchors": ["xlink/hc800.c: updateKernalHeader"]}
{"id": "C26", "title": "Commodore PRG loads correctly", "statement": "Loading the written .prg at its load address puts each section's bytes at the section's CPU address, and the BASIC stub's SYS argument is the entry address in decimal.", "quantifier": "every section layout and entry address", "why_tests_cant": "Loading must reproduce any layout of sections and any entry address.", "anchors": ["xlink/commodore.c", "xlink/image.c"]}
{"id": "C27", "title": "CoCo BIN loads correctly", "statement": "A CoCo loader that follows the documented record format reproduces every used section at its address and starts at the entry address.", "quantifier": "every section list with 16-bit addresses and sizes", "why_tests_cant": "Loading must reproduce any number and layout of sections.", "anchors": ["xlink/coco.c"]}
{"id": "C28", "title": "PGZ loads correctly", "statement": "A PGZ loader reproduces every used section's bytes at its address and ends with the start address, with adjacent sections merged into one record.", "quantifier": "every section list", "why_tests_cant": "Loading must reproduce any layout; merging of neighbours depends on all pairs of sections.", "anchors": ["xlink/foenix.c: writePGZSections"]}
{"id": "C29", "title": "Amiga hunk executable loads correctly", "statement": "A hunk loader reading the executable gets, for each section, its size, memory type, data padded to longwords and, for every relocated patch, one relocation entry with the target hunk and offset.", "quantifier": "every section list with relocations", "why_tests_cant": "Relocation must be right for all load addresses and any number of hunks and patches.", "anchors": ["xlink/amiga.c"]}
{"id": "C30", "title": "Assembler raw binary output", "statement": "A raw binary written directly by the assembler holds each section's bytes at its position relative to the first section and zeros in between; sections come in source order without overlap, fixed ones where the source says, the others aligned and within their page; every reference to a label plus a number holds the label's final address plus that number; and the Verilog form lists the same bytes; a program that refers to a symbol of another module is refused.", "quantifier": "every list of sections, symbols and patches, and every file written", "why_tests_cant": "A layout depends on all the sections before it and patches on all symbols; tests sample a few programs.", "anchors": ["xasm/motor/binaryobject.c: commonPatch, internalWrite, writeSectionBinary, writeSectionVerilog", "xasm/motor/patch.c: patch_BackPatch, reduceExpression", "xasm/z80/z80_section.c: z80_AssignSection", "xasm/6809/m6809_section.c: m6809_AssignSection"]}
{"id": "C31", "title": "Data directives emit exactly their bytes", "statement": "DB, DW, DL, DS, EVEN, CNOP and INCBIN append exactly their bytes to the current section, in the selected byte order and with the selected fill byte, record a patch for each value not yet known, and advance the program counter by the emitted size; in a section without data the same directives only reserve that many bytes.", "quantifier": "every sequence of data directives and option changes, in sections of any size up to 4 GiB - 16 KiB, for one and two byte words", "why_tests_cant": "Histories are unbounded.", "anchors": ["xasm/motor/section.c: sect_OutputConst8, sect_OutputConst16, sect_OutputConst32, sect_OutputExpr8, sect_OutputExpr16, sect_OutputExpr32, sect_OutputBinaryFile, sect_Align, sect_SkipBytes, checkAvailableSpace, growCurrentSection", "xasm/motor/parse_directive.c: handleDb, handleDw, handleDl, defineSpace, handleEven, handleCnop", "doc/OrganisingCode.md"]}
{"id": "C32", "title": "Section stack and section switching", "statement": "Re-opening a section continues where it was left: each section ends with the bytes of its own directives in source order; a directive changes no section but the current one; and after PUSHS ... POPS, nested to any depth, the current section and local label scope are what they were.", "quantifier": "every sequence of section and data directives", "why_tests_cant": "Histories are unbounded.", "anchors": ["xasm/motor/section.c: sect_Push, sect_Pop, sect_SwitchTo, sect_SwitchTo_KIND, sect_SwitchTo_NAMEONLY, findSection, createSection", "xasm/motor/parse_directive.c: handleSection, handlePushs, handlePops"]}
{"id": "C33", "title": "Option stack", "statement": "OPT changes between PUSHO and the matching POPO have no effect afterwards.", "quantifier": "every sequence of OPT, PUSHO and POPO", "why_tests_cant": "Histories are unbounded.", "anchors": ["xasm/motor/options.c: opt_Push, opt_Pop, opt_Parse", "xasm/motor/errors.c: warningEnabled"]}
{"id": "C34", "title": "Symbol definition rules", "statement": "A label, EQU, EQUS, macro, import or group name is defined once and then keeps its value until it is purged; SET can be repeated and stores the latest value; a GLOBAL name that is defined in the file is exported, in either order; a directive that is refused reports exactly one error and changes no symbol and no scope.", "quantifier": "every sequence of symbol directives, and every state they can reach", "why_tests_cant": "a table of symbols grows without bound and any order of directives is possible; tests try a few orders", "anchors": ["xasm/motor/symbol.c: createSymbolOfType, sym_CreateEqu, sym_CreateSet, sym_CreateLabel, sym_CreateGroup, sym_Export, sym_Import, sym_Global, sym_Purge"]}
{"id": "C35", "title": "Local symbols are scoped", "statement": "A local name belongs to the scope of the preceding global name: equal local names in different scopes do not interfere, a reference finds the symbol of its own scope, and a new scope can reuse every local name.", "quantifier": "every sequence of directives with local names, from every reachable state", "why_tests_cant": "interference needs an unbounded set of scopes and names to be excluded", "anchors": ["xasm/motor/symbol.c: getSymbol, assumedScopeOf, isLocalName, findOrCreateSymbolInScope, sym_CreateLabel"]}
{"id": "C36", "title": "Operator precedence and associativity", "statement": "An expression is grouped as the operator table documents, left to right within a level, and parentheses override.", "quantifier": "every token sequence of an expression", "why_tests_cant": "Expressions are unbounded.", "anchors": ["xasm/motor/parse_expression.c", "doc/ReferenceOperators.md"]}
{"id": "C37", "title": "Integer literals", "statement": "Decimal, hexadecimal, binary, Game Boy and 16.16 fixed point literals denote their value modulo 2^32 and the lexer consumes exactly the literal.", "quantifier": "every digit string", "why_tests_cant": "Digit strings have any length and value, followed by any character.", "anchors": ["xasm/motor/lexer.c: acceptNumericAndLocalLabel, acceptGameboyLiteral"]}
{"id": "C38", "title": "Macro argument substitution", "statement": "Reading a macro body yields the body with every \\1-\\9 replaced by the argument text and \\@ by the unique suffix, verbatim.", "quantifier": "every body and argument list", "why_tests_cant": "Bodies, arguments and references between them have any length and contents.", "anchors": ["xasm/motor/lexer_buffer.c: lexbuf_GetChar", "xasm/motor/charstack.c"]}
{"id": "C39", "title": "REPT repeats exactly n times", "statement": "A REPT n / ENDR block is processed n times, each from the same start, and processing continues after ENDR.", "quantifier": "every count and nesting depth", "why_tests_cant": "Counts, nesting and bodies are unbounded.", "anchors": ["xasm/motor/lexer_context.c: lexctx_ProcessRepeatBlock, lexctx_EndReptBlock"]}
{"id": "C40", "title": "Conditional skipping honours nesting", "statement": "When a condition is false the assembler skips to the ELSE/ENDC belonging to that IF, whatever nested blocks it contains.", "quantifier": "every directive sequence and nesting", "why_tests_cant": "Nesting depth is unbounded.", "anchors": ["xasm/motor/parse_block.c"]}
{"id": "C41", "title": "RS counters and structures", "statement": "RS directives assign consecutive offsets: each member is the initial value plus the sizes before it, the counter ends as the total, and a structure name ends as the value after its last member with the members local to it.", "quantifier": "every list of members and every initial value whose offsets fit in 32 bits", "why_tests_cant": "the sum ranges over lists of any length", "anchors": ["xasm/motor/parse_symbol.c: getRsCounter, parse_IncrementRs, parse_SetRs, createRsSymbol, createRsSetSymbol", "xasm/motor/symbol.c: sym_CreateStructure, sym_EndStructure"]}
{"id": "C42", "title": "Random numbers stay in range", "statement": "rand(lower,upper) yields a value in the inclusive range and is a deterministic function of the seed.", "quantifier": "every seed and pair of bounds", "why_tests_cant": "All 2^32 seeds and all pairs of bounds.", "anchors": ["xasm/motor/parse_expression.c: handleRandFunction"]}
{"id": "C43", "title": "Machine definition expressions", "statement": "Integer expressions in machine definition files have their documented value: decimal, hexadecimal and binary literals, precedence of * / over + -, left associativity.", "quantifier": "every expression text", "why_tests_cant": "Expressions have any nesting, spacing and number of operators.", "anchors": ["xlink/machinedefinition.c"]}
{"id": "C44", "title": "Chip-8/SCHIP encoding", "statement": "Each accepted instruction encodes to the two bytes the instruction set defines for that mnemonic and operands, and distinct instructions encode differently.", "quantifier": "every instruction and operand value", "why_tests_cant": "Operands are arbitrary expressions, some with values known only when linking; a test has one operand per row of the opcode table.", "anchors": ["xasm/schip/schip_parse_instr.c"]}
{"id": "C45", "title": "MIPS encoding", "statement": "Each accepted MIPS instruction encodes to the word the MIPS32 manual defines for its mnemonic, registers and immediate.", "quantifier": "every instruction and operand value", "why_tests_cant": "Operands are arbitrary expressions, some with values known only when linking, and register and immediate fields overlap unless every value is masked correctly; tests sample one operand per instruction.", "anchors": ["xasm/mips/mips_parse_instr.c"]}
{"id": "C46", "title": "6502, 65C02 and 65C02S encoding", "statement": "Every 6502, 65C02 or 65C02S instruction (and undocumented 6502 instruction, under the selected set of names), in every documented operand form, with operands in range, is accepted and appends exactly the opcode of the data sheet for the shortest mode that the operand allows, followed by its operand bytes; nothing else is accepted without a report; constants out of range are reported; different instructions have different opcodes.", "quantifier": "every processor and name set, instruction, operand form, operand expression (constant or only known when linking), assembler state and rest of line", "why_tests_cant": "Operands are arbitrary expressions, some with values known only when linking, and the choice of mode depends on them; tests sample one operand per row of the opcode table.", "anchors": ["xasm/6502/x65_parse_instr.c: x65_ParseIntegerInstruction, x65_HandleToken, g_instructionHandlers", "xasm/6502/x65_parse_addrmode.c: x65_ParseAddressingMode, x65_ParseAddressingModeCore", "xasm/6502/x65_parse.c: x65_OutputU8Expression, x65_OutputSU8Expression, x65_OutputU16Expression", "xasm/6502/x65_tokens.c: x65_DefineTokens"]}
{"id": "C47", "title": "Program counter relative operands", "statement": "A branch operand holds the distance target + adjustment - (address of the place it is stored at). It is the same number whether it is known when it is read, when the file has been read, or only in the linker; for a label of the same section, before or after the branch, it is the difference of the two offsets wherever the section is loaded.", "quantifier": "every target expression, adjustment, label position, place, section attribute and final memory layout", "why_tests_cant": "All distances, label positions and load addresses, and three evaluators that must agree on them.", "anchors": ["xasm/motor/expression.c: expr_PcRelative, expr_GetSectionOffset", "xasm/motor/patch.c: reducePcRelative", "xasm/motor/symbol.c: sym_CreateLabel", "xlink/patch.c: OBJ_PC_REL"]}
{"id": "C48", "title": "Master System header is valid", "statement": "A written Master System ROM has the text TMR SEGA in its header, the sum of all bytes outside the header as checksum, and the code of its size.", "quantifier": "every ROM image", "why_tests_cant": "The sum depends on every byte of the image.", "anchors": ["xlink/sega.c: sega_WriteMasterSystemImage", "xlink/sega.c: sega_UpdateMasterSystemHeader"]}
{"id": "C49", "title": "F256 kernel user programs load at their slots", "statement": "Writing an F256 kernel user program gives a file from which the kernel loads every section at its address, whose slot count covers the program, whose first slot is the one its code starts in, and which starts at the exported entry symbol; a padded file is a whole number of slots, the ones it counts.", "quantifier": "every set of linked sections, every entry symbol, with and without padding", "why_tests_cant": "the section layouts, gaps and slot boundaries are unbounded in number; tests cover one layout", "anchors": ["xlink/foenix.c: foenix_WriteExecutableKUP, writeKUPSections", "xlink/section.c: sect_StartAddressOfFirstCodeSection, sect_EndAddressOfLastCodeSection, sect_FindExportedSymbol"]}
{"id": "C50", "title": "HC800 executables load every bank", "statement": "Writing an HC800 executable gives a file with the memory manager's registers and one hunk for each bank that has sections, holding each of the bank's sections at its offset, zeros between them and nothing else.", "quantifier": "every set of linked sections and every configuration", "why_tests_cant": "the number of banks and sections and their layouts are unbounded", "anchors": ["xlink/hc800.c: hc800_WriteExecutable, writeBank, writeDataHunks, writeHunkEnd"]}
{"id": "C51", "title": "Built-in memory maps keep sections apart", "statement": "With each memory map built into the linker, whatever the sections, sizes and attributes, sections placed in the same bank do not share an address, sections with contents do not share bytes of an output image, every section lies in the memory the machine has for its group, all of that memory can be used, and every group of the map can be placed.", "quantifier": "all programs linked with any of the built-in machine configurations", "why_tests_cant": "the sections of a program, their sizes, groups, banks and fixed addresses are unbounded, and there are 25 maps; overlaps show only for particular combinations", "anchors": ["xlink/group.c: group_SetupGameboy, group_SetupSmallGameboy, group_SetupAmiga, group_SetupSegaMegaDrive, group_SetupSegaMasterSystem, group_SetupSegaMasterSystemBanked, group_SetupHC8XXROM, group_SetupHC8XXSmall, group_SetupHC8XXMedium, group_SetupHC8XXLarge, group_SetupCoCo", "xlink/commodore.c: setupUnbankedCommodore, setupCommodore128ROM", "xlink/foenix.c: foenix_SetupFoenixA2560XGroups, foenix_SetupFoenixF256JrSmallGroups", "xlink/main.c: handleMemoryConfigurationOption"]}
{"id": "C52", "title": "Relocatable expressions become section plus offset", "statement": "In a relocatable output, every expression a label-plus-constant can be written as evaluates in the linker to the pair (section, offset) whose meaning, once the section is loaded at any address, is the value the source expression has with that section at that address; differences of labels in the same section are plain numbers independent of the load addresses; a difference of labels in different sections is refused, never silently computed.", "quantifier": "every expression tree of the stated shape, every assignment of offsets to symbols, every load address chosen by the loader", "why_tests_cant": "the claim ranges over all load addresses and all expression trees; a test fixes both", "anchors": ["xlink/patch.c: calculateExpressionValue, patchSection", "xlink/amiga.c: writeReloc32", "xasm/motor/object.c: writeExpression"]}
{"id": "C53", "title": "Machine definition files", "statement": "A machine definition file that follows the documented grammar is accepted, and the linker then knows exactly the pools (address, bank, size, image offset, overlay; one per index for an array), the groups with the pools they name, the symbols with their values and the formats that the lines of the file state, in the order of the lines.", "quantifier": "every list of lines of any length, with any spacing and comments, any expressions and any array bounds", "why_tests_cant": "The space of files is unbounded; the tests read a few of the files that come with the project.", "anchors": ["xlink/machinedefinition.c: mdef_Read, parseLine, parsePoolDirective, parsePoolsDirective, parseGroupDirective, parseSymbolDirective, parseFormatsDirective"]}
{"id": "C54", "title": "Words, names, labels and comments", "statement": "Whatever words have been defined and undefined, a text is a keyword exactly if it is one of the words defined and not undefined since, whatever the case of its letters, and has that word's meaning. In a line, after white space, the assembler takes the name or the keyword that stands there, whichever is longer, and the keyword if both are equally long, and nothing beyond it; a name at the start of a line is a label even if it is a keyword; from a semicolon, or an asterisk at the start of the line or after white space, the rest of the line is skipped; a name before # is replaced by the text of that string symbol.", "quantifier": "every history of defined and undefined words, every line of any length, every text that follows it", "why_tests_cant": "Hash collisions, prefixes that are keywords and the put-back of characters depend on the whole set of words and on the text; tests read a few lines with one set of words.", "anchors": ["xasm/motor/lexer_constants.c: lex_ConstantsDefineWord, lex_ConstantsUndefineWord, lex_ConstantsMatchWord, lex_ConstantsMatchTokenString", "xasm/motor/lexer.c: acceptNext, acceptLabel, acceptSymbolTail, consumeComment, skipUnimportantWhitespace"]}
{"id": "C55", "title": "String literals", "statement": "A string literal is read exactly up to its closing quote, and its value is its text with escapes replaced and with each piece of code in braces replaced by what that code stands for; the code may contain strings, with either quote, that contain code in turn. A line that ends before the closing quote is reported. No text makes the assembler write outside its own memory.", "quantifier": "every string literal with any nesting of code and strings, every text after it", "why_tests_cant": "Nesting is unbounded and two different functions, the lexer and the parser, must find the same ends.", "anchors": ["xasm/motor/lexer.c: acceptString, acceptQuotedStringUntil, acceptStringInterpolation", "xasm/motor/parse_string.c: interpolateString, determineCodeEnd, determineStringEnd, unescapeCharacter"]}
{"id": "C56", "title": "String expressions and formatted numbers", "statement": "A string expression built from literals, +, parentheses and the members slice, upper and lower has the value those operations give, with members binding more tightly than +, and slices that count from the end or reach beyond it cut to the string. In an embedded expression, D shows all decimal digits with at least the given number, X the given number of hexadecimal digits, F the fixed point value cut after the given number of digits, C the character.", "quantifier": "every expression tree, every way to write it with parentheses, every integer and precision", "why_tests_cant": "Expression trees are unbounded and the faults sit at particular values and precisions.", "anchors": ["xasm/motor/parse_string.c: parse_StringExpression, stringExpressionPri1, stringExpressionPri2, formatValue"]}
{"id": "C57", "title": "From source to linked file", "statement": "When a link to a plain binary succeeds, the file holds, for every section that is in the image, the bytes that were assembled at the place the section was given, and at every place an expression with unknown symbols was used the value that the source expression has for the final addresses and banks of the definitions of its symbols; every such value fits the place it is stored in. Sections that are not needed are left out, no two sections share memory, and every other byte of the file is $FF.", "quantifier": "every set of object files, every memory map whose pools do not share bytes of the file, every entry symbol, every source expression", "why_tests_cant": "The claim joins the assembler's folding, the object format, placement, resolution, evaluation, patching and image writing; tests look at each of them for a few programs.", "anchors": ["xlink/main.c: main, writeOutput", "xlink/smart.c: smart_Process", "xlink/assign.c: assign_Process", "xlink/section.c: sect_SortSections, sect_ResolveUnresolved", "xlink/patch.c: patch_Process", "xlink/image.c: image_WriteBinary", "xasm/motor/patch.c: reduceExpression", "xasm/motor/object.c: writeExpression"]}
{"id": "C58", "title": "Z80 and Game Boy instructions", "statement": "Every instruction of the Z80 or Game Boy manual that the selected options enable (processor, undocumented instructions, synthesised instructions) is accepted with the spelling the manual gives, and stores exactly the manual's bytes: opcodes, prefixes, the immediate, displacement, bit number, port or jump distance of its operands, known now or resolved by the linker. An instruction that is accepted without a message is one of the manual's for these options. An operand known now that does not fit its place is reported. The last option given of each kind selects the processor and the instruction sets.", "quantifier": "every instruction and operand combination, every operand expression and symbol value, every option list, every token list (without a second pair of brackets) for the converse", "why_tests_cant": "There are over a thousand operand combinations for eight option settings, each with expressions of any value; a test assembles a few lines and the manual is the only oracle.", "anchors": ["xasm/z80/z80_parse.c: z80_ParseInstruction, parseAddressingMode, handleInstruction", "xasm/z80/z80_options.c: z80_SetDefaultOptions, z80_ParseOption", "xasm/z80/z80_tokens.c: z80_DefineTokens", "doc/CpuZ80.md"]}
{"id": "C59", "title": "Section attributes and ORG", "statement": "In a source assembled without errors, each SECTION directive selects the one section of its name and group, and that section ends up with the load address, bank, alignment, page and ROOT flag the directive gives; directives that give different attributes for one name are rejected, and so is an address that is not a multiple of the alignment. Repeating a section's attributes, or giving none, continues it. After ORG z and any data the address at this place is z plus the words written since.", "quantifier": "every source of section, data and ORG directives, every attribute combination, every position in the source", "why_tests_cant": "Attributes are compared against a history of any length, and every combination of the five attributes is a different path.", "anchors": ["xasm/motor/section.c: sect_SwitchTo, sect_SwitchTo_KIND, sect_SwitchTo_NAMEONLY, sect_SetOriginAddress, findSection, createSection", "xasm/motor/parse_directive.c: handleSection, handleOrg", "doc/OrganisingCode.md"]}
{"id": "C60", "title": "Line numbers of the code", "statement": "In a section with data, the line table that debug information is written from leads from every position to the file and line whose directive wrote there, after any further directives and section switches.", "quantifier": "every source of data, space and section directives, every section with data, every position", "why_tests_cant": "The table is compressed by leaving out repeated lines, so an error depends on the whole history.", "anchors": ["xasm/motor/linemap.c: linemap_Add, linemap_AddCurrent", "xasm/motor/section.c: sect_OutputConst8, sect_OutputConst16, sect_OutputConst32, sect_OutputBinaryFile, sect_SkipBytes"]}
{"id": "C61", "title": "6809 instructions", "statement": "Every instruction of the MC6809 programming manual, in every addressing mode it has, is assembled to the bytes of the manual, with every operand, known or resolved later, having its value in the final program. An address without < or > is a direct one exactly if SETDP has told the direct page and the address is known to lie in it. Known operands that do not fit are reported. Nothing but the instructions of the manual is accepted without a report, and only SETDP changes what is known of the direct page.", "quantifier": "every mnemonic, addressing mode, register, operand expression, value and program counter; every token sequence for the converse", "why_tests_cant": "Hundreds of combinations of mnemonics and addressing modes, each with unbounded operand expressions that may only be known at link time.", "anchors": ["xasm/6809/m6809_parse.c: m6809_ParseInstruction", "xasm/6809/m6809_parse_addrmode.c: m6809_ParseAddressingMode", "xasm/6809/m6809_parse_instr.c: m6809_ParseIntegerInstruction, emitIndexed, emitOpcode, g_instructionHandlers", "xasm/6809/m6809_parse_directive.c: handleSETDP", "xasm/6809/m6809_tokens.c", "doc/Cpu6809.md"]}
{"id": "C62", "title": "DCPU-16 instructions", "statement": "Every basic instruction of the DCPU-16 specification and JSR, with every operand the specification has, is assembled to the words of the specification, with every number, known or resolved later, having its value in the final program. With optimisation on, known literals of 0 to 31 take no word of their own and nothing else changes. Known addresses, offsets and literals that do not fit are reported. Nothing but the instructions of the specification is accepted without a report. Only the options o0 and o1 change whether instructions are optimised.", "quantifier": "every mnemonic, operand form, register, expression, value and program counter, with optimisation on and off; every token sequence for the converse", "why_tests_cant": "Fifteen mnemonics with more than thirty operand forms on either side, each with unbounded expressions that may only be known at link time.", "anchors": ["xasm/dcpu-16/dcpu16_parse.c: x10c_ParseInstruction, parseAddressingMode, optimizeMode, genericInstr, addSubInstr, outputExpr, g_instructionHandlers", "xasm/dcpu-16/dcpu16_tokens.c", "xasm/dcpu-16/dcpu16_options.c: x10c_ParseOption", "doc/CpuDCPU.md"]}
{"id": "C63", "title": "Map file", "statement": "After a link that succeeds, the map file has, for every section in use, one line for every symbol defined in it and no other line, in order of address: the symbol's final address in hexadecimal, its name, and its place in the source when that is known.", "quantifier": "every program, memory configuration and entry symbol for which linking succeeds, every sorting routine that sorts", "why_tests_cant": "The addresses are known only after placement of every section, and the order depends on the values of all symbols of a section.", "anchors": ["xlink/mapfile.c: map_Write, compareSymbols, map_GetValueFieldSize", "xlink/main.c", "doc/Linker.md"]}
{"id": "C64", "title": "Listing", "statement": "The listing of a linked program has, for every section in use, one line for every entry of its line table, in order of address: the address, the first bytes at that address, which are those in the output, and the file and line of the source they came from.", "quantifier": "every program, memory configuration and entry symbol for which linking succeeds, every line table that starts at the first byte", "why_tests_cant": "The bytes shown are those after patching, at addresses chosen by the linker, for every section size and line table.", "anchors": ["xlink/listfile.c: list_Write, writeSection, compareLineMappings", "xlink/main.c", "xasm/motor/linemap.c"]}
{"id": "C65", "title": "ELF objects say what was assembled", "statement": "An ELF object the assembler writes without reporting an error is well formed and says what was assembled: each section with its name, kind, load address, alignment, size and data; each exported, imported or used symbol once, local ones first, with its value and section; and for each patch exactly one relocation, in order of offset, such that in every layout of memory symbol plus addend is the patch's value.", "quantifier": "every assembled program, machine number, byte order and section alignment, every sorting routine that sorts, files below 4 GB", "why_tests_cant": "Offsets, string positions, section indices and symbol numbers all depend on everything written before; a file can be wrong only for some combination of sections, names, alignments and symbols.", "anchors": ["xasm/motor/elf.c: elf_Write, writeSection, writeSymbolSection, writeReloc, writeStrings, writeSectionHeaders", "xasm/motor/expression.c: expr_GetSymbolOffset, expr_GetImportOffset"]}
{"id": "C66", "title": "The linker reads ELF objects faithfully", "statement": "Reading an ELF object for the 68000 gives the linker every section with its name, group, address, alignment, size and data, exactly the symbols the section defines, and for each relocation one patch; wherever the sections are then placed, the patch's value is the address of what the relocation's symbol is in the linked program plus the addend, less the patch's own address if it is relative. Files read before are not affected.", "quantifier": "every well-formed ELF object, of either byte order and with its headers, tables and strings anywhere in the file, that the linker can hold; every state of the linker, every layout, every order of resolving symbols", "why_tests_cant": "The reader follows indices between tables that can be anywhere in the file; symbols become exports, file-local exports or imports depending on where else they are used, and the position of an import depends on all relocations before it.", "anchors": ["xlink/elf.c: elf_Read, readSectionHeaders, readSection, resolveNamesAndIndices, sectionToXlink, symbolsToXlink, relocsToXlink, elfToXlink", "xlink/object.c: readChunk, obj_Read"]}
{"id": "C67", "title": "Amiga files of the assembler hold the program", "statement": "An Amiga executable the assembler writes can be loaded and has one hunk per section, of its kind, memory type and size; an Amiga object has one hunk per section, of its name, kind and size, defines exactly the exported labels and references each imported name where it is used. Wherever the hunks are placed, and whatever the imported names' values, every longword given by an expression has the expression's value and every other byte is the section's. The files are written whenever every such value is a longword that is a label or (in objects) an imported name, plus or minus constants.", "quantifier": "every assembled program, every placement of the hunks and every value of the imported names", "why_tests_cant": "Relocations are sorted by section, written after the contents and change longwords already written; what is in memory depends on where the loader puts every hunk.", "anchors": ["xasm/motor/amigaobject.c: ami_WriteExecutable, ami_WriteObject, writeSection, writeReloc32, writeExtHunk, writeSymbolHunk", "xasm/motor/expression.c: expr_GetSectionOffset, expr_IsRelativeToSection, expr_GetImportOffset"]}
{"id": "C68", "title": "680x0 instructions assemble to words that say what was written", "statement": "For each processor from the 68000 to the 68060, every integer instruction with operands that processor has and values in range is accepted, and the words appended to the section, once the labels have their values, are read by that processor as exactly the operation, size and operands written: the same registers, the same effective address in every machine state, the same value, and no word more or less. An instruction at an odd place is reported and stores nothing.", "quantifier": "every processor, instruction, size, addressing mode with any parts left out, operand expression (known or not), place in the program and machine state", "why_tests_cant": "The words of an operand depend on the processor, on which of up to five parts are present, their written sizes and scales, whether each value is known and how large it is, and on the distance to the instruction; the product of instructions, sizes and operand pairs is far out of reach of tests, and values are only known after linking.", "anchors": ["xasm/680x0/m68k_parse_integer.c: m68k_IntegerInstruction, the handlers and the instruction table", "xasm/680x0/m68k_parse.c: m68k_GetAddressingMode, m68k_ParseCommonCpuFpu, m68k_ParseOpCore, m68k_OutputExtWords, m68k_GetEffectiveAddressField"]}
{"id": "C69", "title": "Included files are found in the documented order and the dependency file lists exactly the files read", "statement": "A file named in INCLUDE or INCBIN is the first that exists of: the one beside the file that names it, then those in the directories given on the command line, in their order; if there is none, that is reported. A file that has said INCLUDE ONCE is never opened again. When an assembly succeeds, the dependency file is a makefile rule by which the output depends on exactly the files that were opened, each once, followed by an empty rule for each of them but the source file.", "quantifier": "every file system, list of directories, source file name and history of INCLUDE, INCBIN, INCLUDE ONCE, macro calls and ends of files", "why_tests_cant": "The files opened depend on the whole history of nested includes and on which files exist; a test sees one tree. A missing dependency shows only when a build is wrongly not repeated.", "anchors": ["xasm/motor/includes.c: inc_AddIncludePath, inc_FindFile", "xasm/motor/dependency.c: dep_AddDependency, dep_WriteDependencyFile", "xasm/motor/parse_directive.c: handleFileCore, mayIncludeFile, handleInclude", "xasm/motor/lexer_context.c: lexctx_ContextInit, lexctx_ProcessIncludeFile", "xasm/motor/section.c: sect_OutputBinaryFile"]}
{"id": "C70", "title": "RC811 instructions, including those the processor lacks, do what is written", "statement": "The RC811 back end accepts instructions the processor has and others it puts together from several. For every instruction, register and number in range, the bytes stored make the processor change its registers, memory, ports and stacks exactly as the instruction says, and change nothing else, from every state. A number not known until linking is treated like one that is known.", "quantifier": "every instruction, register combination, operand expression, layout, section state and state of the processor", "why_tests_cant": "The synthesized sequences save, move and restore registers and pointers; whether they leave everything else unchanged depends on the contents of all registers and memory, and on carries between bytes, far beyond what sampled programs exercise.", "anchors": ["xasm/rc8/rc8_parse_instr.c: rc8_ParseIntegerInstruction, handle_LongLoad, handle_ADD, handle_SUB, handle_LD_R16_imm, handle_EXG, handle_RegisterStack, parseAddressingMode", "xasm/rc8/rc8_tokens.c: g_tokens"]}
{"id": "C71", "title": "MOVEM moves exactly the registers listed", "statement": "A register list of single registers and ranges, separated by slashes, or a constant mask, names a set of registers. MOVEM with such a list assembles to words the processor reads as moving exactly these registers, to or from the memory operand written, in the size written, also where the processor numbers the mask's bits the other way round. A range that runs backwards and an address mode the direction does not have are reported, and nothing is stored.", "quantifier": "every list of registers and ranges of any length, every address register, size, direction, processor and section state", "why_tests_cant": "There are 65536 sets of registers, each written in unboundedly many ways, and the bit order depends on the address mode; tests sample a few lists.", "anchors": ["xasm/680x0/m68k_parse_addrmode.c: m68k_ParseRegisterList, getRegisterRange", "xasm/680x0/m68k_parse_integer.c: handleMOVEM, reverseBits"]}
