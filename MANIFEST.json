{
 "claims": [
  {
   "property": "C01",
   "status": "partial",
   "theorems": [
    "C01_refuted",
    "C01_refuted_break",
    "C01_native_line_partial",
    "C01_straight_line_partial",
    "C01_anywhere_partial"
   ],
   "note": "Full claim is false (jump addresses above 64 MiB, 20-bit break codes): refuted with witnesses. Proved for every native format except label/address branches, in every notation, for one line, whole straight-line programs and any line of a successful program."
  },
  {
   "property": "C02",
   "status": "partial",
   "theorems": [
    "C02_words_read_per_isa_partial",
    "C02_every_word",
    "C02_refuted"
   ],
   "note": "False as stated (refuted: immediate 0x7fff prints negative, reserved cop0 words decode as tlb*); proved for all other words. C02_every_word gives the exact line of every word, the exceptions included."
  },
  {
   "property": "C03",
   "status": "partial",
   "theorems": [
    "C03_refuted",
    "C03_failures",
    "C03_reassembly_partial",
    "C03_exact",
    "C03_exact_everywhere",
    "C03_exact_small",
    "C03_one_bad_word",
    "C03_no_branch"
   ],
   "note": "Full claim false; each failing class exhibited. C03_exact_everywhere characterises completely which lists of words come back, at every base address: exactly those each of whose words satisfies `returns` or is a branch whose offset happens to be an address from which the assembler computes the same offset (`branch_back`); in up to 512 KiB that is only a branch with offset 0 among the first three words at base address 0 (C03_exact_small). From base address 0x8000, or without branches, `returns` alone decides (C03_exact)."
  },
  {
   "property": "C04",
   "status": "partial",
   "theorems": [
    "C04_refuted",
    "C04_failures",
    "C04_default_partial",
    "C04_plain_partial",
    "C04_exact",
    "C04_symbols_exact",
    "C04_debug",
    "C04_one_bad_word"
   ],
   "note": "False as stated (C04_refuted): branches, .word, unnamed cop0 registers, wide break codes, jumps above 64 MiB, the immediate 0x7fff and the tab after the name of a float comparison do not come back. Completely characterised (base address from 0x8000, or no branches): with any readable symbol table (C04_symbols_exact; C04_exact without symbols) a default listing comes back exactly if every word satisfies `returns` and `tab_free` and no word is a j to a symbol outside the delay slots of words that leave their function; wherever labels and blank lines fall, in both build profiles. Open: branches at base addresses below 0x8000, and symbol tables that are not readable (doubled names, names that are no identifiers)."
  },
  {
   "property": "C05",
   "status": "proved",
   "theorems": [
    "C05_debug_disassembly_total"
   ],
   "note": ""
  },
  {
   "property": "C06",
   "status": "partial",
   "theorems": [
    "C06_default_total_partial",
    "C06_default_total_release_partial",
    "C06_refuted",
    "C06_refuted_overflow",
    "C06_exact",
    "C06_marks",
    "C06_outcomes"
   ],
   "note": "False as stated (j to a symbol panics). C06_exact: for listings that fit below 2^32, in both build profiles, default-mode disassembly panics exactly if some word is a j to the address of a symbol and is not the delay slot of a word that leaves its function; the only other outcome is a listing. Larger listings: total without overflow checks and without j to a symbol."
  },
  {
   "property": "C07",
   "status": "proved",
   "theorems": [
    "C07_listing_structure"
   ],
   "note": "for listings that fit below 2^32"
  },
  {
   "property": "C08",
   "status": "proved",
   "theorems": [
    "C08_debug_concat",
    "C08_segment_only"
   ],
   "note": ""
  },
  {
   "property": "C09",
   "status": "partial",
   "theorems": [
    "C09_canonical_words_distinct_partial",
    "C09_refuted",
    "C09_refuted_canonical",
    "C09_same_word",
    "C09_same_line",
    "C09_exact"
   ],
   "note": "False as stated. C09_exact says, for all words, exactly which lists of words share a listing: those equal up to `shown_as` (unused fields cleared, 0x7fff taken as 0x8001, reserved coprocessor 0 words taken as TLB operations)."
  },
  {
   "property": "C10",
   "status": "partial",
   "theorems": [
    "C10_branch_word",
    "C10_lands_iff",
    "C10_branch_to_label_partial",
    "C10_refuted"
   ],
   "note": "Exact word of every branch to an earlier global label; it lands on the label iff the span has one word per instruction on average (up to 32767 instructions). The full property is false (multi-word pseudo-instructions between label and branch; distances are counted in instructions): C10_refuted."
  },
  {
   "property": "C11",
   "status": "partial",
   "theorems": [
    "C11_jump_word",
    "C11_jump_to_label_partial",
    "C11_refuted",
    "C11_refuted_high"
   ],
   "note": "Exact word of every j/jal to a label; lands when only one-word instructions precede the label and bits 26-27 of the address are clear. Full property false: two refutations."
  },
  {
   "property": "C12",
   "status": "partial",
   "theorems": [
    "C12_branch_word",
    "C12_lands_iff",
    "C12_branch_to_number_partial",
    "C12_wrong_later",
    "C12_refuted"
   ],
   "note": "Exact offset of branches to numbers and an exact criterion for landing; holds for the first instruction of a program at a multiple of 2^18 and, there, for no later one. Full property false."
  },
  {
   "property": "C13",
   "status": "partial",
   "theorems": [
    "C13_jump_word",
    "C13_lands_iff",
    "C13_jump_to_number_partial",
    "C13_refuted"
   ],
   "note": "Lands iff bits 26 and 27 of the address are clear (the code masks before shifting). Full property false."
  },
  {
   "property": "C14",
   "status": "partial",
   "theorems": [
    "C14_halves_partial",
    "C14_halves_unchecked",
    "C14_refuted"
   ],
   "note": "All addresses below 0xFFFF8000, and all addresses without overflow checks; with overflow checks %hi of the rest panics (C14_refuted). Labels of the surrounding program must be identifiers."
  },
  {
   "property": "C15",
   "status": "partial",
   "theorems": [
    "C15_li_loads_its_constant_partial",
    "C15_wrong_above",
    "C15_refuted"
   ],
   "note": "Every c < 0xFFFF8000, alone and inside every program that assembles, executed on the machine of SpecMachine. C15_full is refuted: for c >= 0xFFFF8000 lui/addiu gives c - 0x10000 (C15_wrong_above, for all such c)."
  },
  {
   "property": "C16",
   "status": "proved",
   "theorems": [
    "C16_liu_loads_its_constant",
    "C16_lli_loads_its_constant",
    "C16_dli_loads_its_constant"
   ],
   "note": "All accepted constants; all register contents."
  },
  {
   "property": "C17",
   "status": "partial",
   "theorems": [
    "C17_unary",
    "C17_clear",
    "C17_negations",
    "C17_move_partial",
    "C17_move_refuted"
   ],
   "note": "dmove, negu, dnegu, not, clear, neg, dneg in full (neg/dneg raise Overflow exactly on the smallest value). move is a 32-bit addu: right for word values only, refuted for 64-bit values."
  },
  {
   "property": "C18",
   "status": "partial",
   "theorems": [
    "C18_abs",
    "C18_dabs_partial",
    "C18_dabs_refuted"
   ],
   "note": "abs in full; dabs only for values in the 32-bit range, refuted for 2^31+1 (dsra by 31 instead of 63)."
  },
  {
   "property": "C19",
   "status": "proved",
   "theorems": [
    "C19_set_on_comparison"
   ],
   "note": "seq sne sge sgeu sgt sgtu sle sleu on all 64-bit contents, including overlapping registers."
  },
  {
   "property": "C20",
   "status": "partial",
   "theorems": [
    "C20_compare_words",
    "C20_compare_and_branch_partial",
    "C20_refuted"
   ],
   "note": "Exact words of every compare-and-branch pseudo-instruction to a label, and its semantics on the machine: branches iff the comparison holds. Lands on the label when the instructions in between are one word each and at most 32766 of them; full property false otherwise (C20_refuted)."
  },
  {
   "property": "C21",
   "status": "proved",
   "theorems": [
    "C21_products"
   ],
   "note": ""
  },
  {
   "property": "C22",
   "status": "proved",
   "theorems": [
    "C22_checked_products"
   ],
   "note": "mulo mulou dmulo dmulou: result or trap 6, exactly on overflow (destination other than $zero and $at)."
  },
  {
   "property": "C23",
   "status": "proved",
   "theorems": [
    "C23_unsigned_division"
   ],
   "note": "divu remu ddivu dremu: result, or trap 7 exactly for a zero divisor. The divisor register is not $zero (div3 with $zero is encoded as the two-operand form, C24 note)."
  },
  {
   "property": "C24",
   "status": "partial",
   "theorems": [
    "C24_signed_division_partial",
    "C24_refuted"
   ],
   "note": "Traps are right; the quotient/remainder reaches rd only for divisor -1, because the internal branch skips the final mflo/mfhi; C24_full refuted (7/2)."
  },
  {
   "property": "C25",
   "status": "proved",
   "theorems": [
    "C25_rotations"
   ],
   "note": "drol, dror."
  },
  {
   "property": "C26",
   "status": "partial",
   "theorems": [
    "C26_subtract_immediate_partial",
    "C26_refuted"
   ],
   "note": "All n except -32768, which is accepted and encodes +(-32768)."
  },
  {
   "property": "C27",
   "status": "partial",
   "theorems": [
    "C27_immediates_partial",
    "C27_capitals",
    "C27_refuted",
    "C27_refuted_minus_zero"
   ],
   "note": "For every instruction of the tables that takes a 16-bit immediate or offset, every decimal or hex literal (any size, any spelling): in range it is written as the word of the table, alone and in every program whose labels are identifiers; out of range it is an error at that line. Restriction: andi/ori/xori in lower case and no '-0' as an unsigned immediate; both exceptions refute the full statement, and C27_capitals says exactly what capitals do (signed range)."
  },
  {
   "property": "C28",
   "status": "partial",
   "theorems": [
    "C28_refuted",
    "C28_shift_amounts_partial",
    "C28_any_amount",
    "C28_in_field_partial",
    "C28_spills"
   ],
   "note": "Exact for every literal amount, every layout and every program: -2^31..2^31-1 are accepted and the low 26 bits are written from bit 6 on, over the register fields (refutes the property for 32 and above and for negative amounts; C28_spills says when that leaves the registers alone); other amounts make every program with the line panic. For 0..31 the word is the ISA's."
  },
  {
   "property": "C29",
   "status": "partial",
   "theorems": [
    "C29_refuted",
    "C29_partial",
    "C29_fatal",
    "C29_no_data"
   ],
   "note": "False as stated: .word, one-letter mnemonics, nameless labels, malformed memory operands, bad load/store registers, cache operations above 31, etc. make assemble panic (refuted, with eleven kinds shown in more_panics). For every source text whose lines avoid those cases (harmless_line: any label or empty line; any instruction line whose mnemonic is known or unknown, with any number of operands, right or wrong, subject to the listed exclusions), every base, symbol table and iteration order, assemble does not panic; with overflow checks the program must fit below 2^32 and have no compare-and-branch pseudo-instructions. Missing: the excluded lines, where the code panics or (compare-and-branch with checks) may panic. Conversely (C29_fatal) a fatal line (SpecFatal.v: a one-letter mnemonic, a load or store of something that is no register or without parentheses, a shift by a register or by more than 32 bits, a cache operation above 31, a jump to nowhere, a tab or other white space directly after an operation without operands and before a comment, or after one with three registers and before its operands, a mnemonic like add.w, cvt.w.w or c.eq.w that begins like a floating-point operation or comparison but is none, with its registers, a nameless label) makes every program that has it panic, whatever the other lines are. C29_no_data: a program with a .word line, in any letter case and with any operand, never assembles, whatever the rest of it is (it panics, or fails for another reason first)."
  },
  {
   "property": "C30",
   "status": "partial",
   "theorems": [
    "C30_comments_partial",
    "C30_words_partial",
    "C30_refuted",
    "C30_label_gap",
    "C30_tab_gap",
    "C30_code_gap"
   ],
   "note": "Any program: blank/comment lines anywhere; a comment directly after the text of any line, or after white space following an instruction with a space after its mnemonic. Refuted in general, and the excluded cases are shown to be real, for every program with such a line: a label followed by a space and a comment is reported as an unknown mnemonic (C30_label_gap), an operation without operands followed by a tab and a comment makes assemble panic (C30_tab_gap), `break`/`syscall` followed by two or more white-space characters and a comment is an invalid immediate (C30_code_gap). Not covered: a tab directly after a mnemonic with operands (which has no comment-free program that assembles to compare with), labels that continue the stem of a floating-point operation (`addi: ; c`)"
  },
  {
   "property": "C31",
   "status": "partial",
   "theorems": [
    "C31_indentation",
    "C31_separator_partial",
    "C31_operands_partial",
    "C31_refuted",
    "white_space",
    "trimmed"
   ],
   "note": "Indentation and trailing white space: proved in full. Separator after the mnemonic: any white space beginning with a space; refuted for a tab. White space around operands, case and comments together: C31_operands_partial, for every mnemonic but .word (andi/ori/xori when the constant is a number below 0x8000 or a %hi/%lo, or when both lines have the mnemonic in lower case)."
  },
  {
   "property": "C32",
   "status": "partial",
   "theorems": [
    "C32_case_partial",
    "C32_words_partial",
    "C31_operands_partial",
    "C32_refuted"
   ],
   "note": "All programs, all mnemonics but andi/ori/xori; those too when the constant is a number below 0x8000 or a %hi/%lo (C31_operands_partial, same_instruction). Refuted in general: `ANDI $a0,$a1,0xffff` is rejected."
  },
  {
   "property": "C33",
   "status": "partial",
   "theorems": [
    "C33_errors_partial",
    "C33_in_order_partial",
    "C33_line_partial",
    "C33_refuted"
   ],
   "note": "All errors carry their line; line errors and reference errors are each in source order, one per line, on disjoint lines; a line has an error of its own exactly when it has one in the program of the labels before it plus that line. Missing: a single source order (reference errors come after line errors: C33_refuted) and the line of out-of-bounds branches (C34)."
  },
  {
   "property": "C34",
   "status": "partial",
   "theorems": [
    "C34_reported",
    "C34_last_line_partial",
    "C34_refuted"
   ],
   "note": "Every numeric branch outside the program is reported and named, but on the last line of the program; the line is right only if the branch is the last line. Full property false (C34_refuted)."
  },
  {
   "property": "C35",
   "status": "partial",
   "theorems": [
    "C35_iff",
    "C35_displayed_partial",
    "C35_always",
    "C35_refuted",
    "C35_refuted_register",
    "C35_refuted_label",
    "C35_refuted_bounds"
   ],
   "note": "False as stated, refuted with four kinds of witnesses. Exact characterisation of displayability; displayed for all errors of assemble whose text is quoted as written (explicit conditions on the source line), five kinds always."
  },
  {
   "property": "C36",
   "status": "partial",
   "theorems": [
    "C36_rejected",
    "C36_first_partial",
    "C36_only_duplicates",
    "C36_refuted"
   ],
   "note": "Every second definition of a global label is reported with the label and its line, and nothing else is; the line given for the first definition has the index of the first definition's instruction, so it is right only when instructions alone come before it. Full property false (C36_refuted)."
  },
  {
   "property": "C37",
   "status": "proved",
   "theorems": [
    "C37_label_syntax",
    "C37_empty",
    "C37_no_words"
   ],
   "note": "The empty label is rejected by a panic (see C29), the others by an error on their line."
  },
  {
   "property": "C38",
   "status": "partial",
   "theorems": [
    "C38_resolves_partial",
    "C38_no_error_partial",
    "C38_refuted",
    "C38_scope_end"
   ],
   "note": "Full property refuted: in a program without a local label before a later global label no local label is found (C38_refuted), and right after a global label the previous scope is still searched (C38_scope_end). Proved: with those cases (and a name also defined before the first global label) excluded, a branch in a program that assembles goes to a definition in its own scope; and a local label defined in the scope of the branch is never reported missing when some local label precedes a later global label and all other lines are readable."
  },
  {
   "property": "C39",
   "status": "partial",
   "theorems": [
    "C39_jump",
    "C39_local",
    "C39_resolution_partial",
    "C39_only_undefined",
    "C39_refuted"
   ],
   "note": "Undefined jumps and local branch references are reported on their lines; only undefined names are. Resolution never panics while addresses stay below 2^32; beyond, it panics with overflow checks (C39_refuted)."
  },
  {
   "property": "C40",
   "status": "proved",
   "theorems": [
    "C40_assemble",
    "C40_disassemble",
    "C40_names_needed"
   ],
   "note": "Exact equality of results (words, errors in order, panics) under any permutation of the local-label maps and of the symbol map."
  },
  {
   "property": "C41",
   "status": "partial",
   "theorems": [
    "C41_jump_word",
    "C41_jump_alone",
    "C41_jump_partial",
    "C41_lo",
    "C41_hi_partial",
    "C41_refuted",
    "C41_refuted_hi"
   ],
   "note": "Jumps to a symbol carry the table's address (bits 2-25) whatever labels or numbers share the name; %lo in every instruction with an immediate; %hi below 0xFFFF8000. Refuted in full: address bits 26-27 are lost, and %hi of addresses from 0xFFFF8000 overflows."
  },
  {
   "property": "C42",
   "status": "proved",
   "theorems": [
    "C42_symbols_in_disassembly"
   ],
   "note": ""
  },
  {
   "property": "C43",
   "status": "partial",
   "theorems": [
    "C43_refuted",
    "C43_spellings_partial",
    "C43_accepted_only_partial",
    "C43_float",
    "C43_cop0",
    "C43_general_partial",
    "C43_spellings_read",
    "C43_hexadecimal_refuted"
   ],
   "note": "Exact for all three kinds of register: which texts are read, as which number, which are rejected with an error and (general registers only) which panic. Full claim refuted: r1x panics, and bare hexadecimal digits such as $a are read as floating-point and coprocessor 0 registers."
  },
  {
   "property": "C44",
   "status": "partial",
   "theorems": [
    "C44_bytes_are_big_endian_words_partial",
    "C44_refuted"
   ],
   "note": "Full claim refuted: an empty output file makes disasm crash. Proved for every non-empty output."
  },
  {
   "property": "C45",
   "status": "partial",
   "theorems": [
    "C45_files_read_partial",
    "C45_refuted",
    "C45_refuted_five_bytes"
   ],
   "note": "Full claim refuted: disasm panics on every file whose length is not a positive multiple of four; proved exactly which files are read and as what words."
  },
  {
   "property": "C46",
   "status": "partial",
   "theorems": [
    "C46_same_text_partial",
    "C46_refuted",
    "C46_refuted_always"
   ],
   "note": "Full claim refuted for every listing: -o writes no line ends. Proved: the file is the terminal text without line ends."
  },
  {
   "property": "C47",
   "status": "proved",
   "theorems": [
    "C47_blocks",
    "C47_native_one_word",
    "C47_sizes",
    "C47_native"
   ],
   "note": "C47_sizes gives the number of words of every instruction line by its mnemonic (table in SpecSize), for all operands including labels, symbols and numbers; C47_native: exactly one word for every instruction of the processor."
  },
  {
   "property": "C48",
   "status": "proved",
   "theorems": [
    "C48_last_setting_wins",
    "C48_same_assembly",
    "C48_same_disassembly"
   ],
   "note": ""
  },
  {
   "property": "C49",
   "status": "partial",
   "theorems": [
    "C49_signed_immediates_partial",
    "C49_refuted"
   ],
   "note": "False only at 0x7fff."
  },
  {
   "property": "C50",
   "status": "partial",
   "theorems": [
    "C50_delay_slot_warning_partial",
    "C50_without_overlooked_partial",
    "C50_refuted"
   ],
   "note": "False as stated: the delay slots of b, bal, beqzl, bnezl and the compare-and-branch pseudo-instructions are overlooked (refuted with 'b 0x80000000 / jr $ra'). Exact list of delay-slot warnings for every assembled program, which is the property for programs without the overlooked branches."
  },
  {
   "property": "C51",
   "status": "proved",
   "theorems": [
    "C51_alignment_warnings"
   ],
   "note": "Branches to numeric addresses, jumps to numeric addresses or symbols, in every program that is read to the end (errors on other lines allowed); no alignment warning on any other line of an assembled program; formatting a warning never panics, for every program."
  },
  {
   "property": "C52",
   "status": "partial",
   "theorems": [
    "C52_memory_partial",
    "C52_offset",
    "C52_bare_iff",
    "C52_lo",
    "C52_lo_float",
    "C52_refuted",
    "C52_refuted_float"
   ],
   "note": "offset(base) holds for all loads and stores and spellings; (base) is accepted exactly when it follows the comma directly, otherwise an error; %lo(sym)(base) holds for general registers and is always an error for floating-point ones."
  },
  {
   "property": "C53",
   "status": "partial",
   "theorems": [
    "C53_refuted",
    "C53_literals_partial",
    "C29_no_data"
   ],
   "note": ".word panics, so its literal denotes nothing (refuted; C29_no_data: no program with a .word line assembles); literals of every other numeric operand kind denote their value."
  },
  {
   "property": "C54",
   "status": "proved",
   "theorems": [
    "C54_underlined",
    "C54_warnings_partial"
   ],
   "note": "The property is about errors: proved for every error value whose Display succeeds. The second theorem extends it to warnings except delay-slot warnings where the line number gains a digit; there it is false (C54_warnings_refuted: lines 9 and 10). What those warnings look like exactly is C83."
  },
  {
   "property": "C55",
   "status": "proved",
   "theorems": [
    "C55_register_fields_partial",
    "C55_in_program",
    "C55_branch"
   ],
   "note": "Every native format: alone (C55_register_fields_partial, not for branches), in any program (C55_in_program), and branches to labels defined before, local labels and numbers in any program (C55_branch). Other operands must be those of the instruction (shift amounts below 32, see C28)."
  },
  {
   "property": "C56",
   "status": "partial",
   "theorems": [
    "C56_refuted",
    "C56_exact_partial",
    "C56_partial"
   ],
   "note": "False as stated: displaying an assembled nop, move, li or any other pseudo-instruction panics (refuted with 'nop'). Proved for every program: an assembled instruction can be formatted with Display and Debug iff the mnemonic of its source line is not one of the 59 listed pseudo-instructions; hence programs without them are displayable."
  },
  {
   "property": "C57",
   "status": "proved",
   "theorems": [
    "C57_base_argument"
   ],
   "note": ""
  },
  {
   "property": "C58",
   "status": "proved",
   "theorems": [
    "C58_last_entry_names_the_address"
   ],
   "note": "YAML values as already parsed by yaml_rust."
  },
  {
   "property": "C59",
   "status": "proved",
   "theorems": [
    "C59_words_printed"
   ],
   "note": ""
  },
  {
   "property": "C60",
   "status": "proved",
   "theorems": [
    "C60_program_assembles",
    "C60_words_unique"
   ],
   "note": "For every program derivable by the grammar of SpecAccept (program_line: blank, label, native instruction, pseudo-instruction, branch to earlier global label, compare-and-branch to an earlier global label or to a local label, branch to a local label, numeric branch inside the program, jump to label/symbol/number, %hi, %lo, %lo memory operand): assemble returns Ok, with the words of each instruction line and their concatenation. Distances are those the assembler uses (counted in instructions; see C10-C13 for where that is wrong). Example with every kind of line."
  },
  {
   "property": "C61",
   "status": "proved",
   "theorems": [
    "C61_expansions",
    "C61_compare_expansions"
   ],
   "note": "Tables of all expansions in SpecAccept, with the words of the processor table of SpecIsa. What the sequences compute is C15-C26."
  },
  {
   "property": "C62",
   "status": "partial",
   "theorems": [
    "C62_isa_unambiguous",
    "C62_readings_exist",
    "C62_listing_partial",
    "C62_program_listing_partial",
    "C62_straight_line_partial",
    "C62_refuted"
   ],
   "note": "False for the signed operand 0x7fff, which is shown as -0x7fff (refuted). Proved for all other instructions and operands: the debug listing of the words of a well-formed program (grammar of C60) shows the instructions that were written, with their operand values (short forms of jalr/syscall/break and idioms as the instruction they stand for, table in SpecReading). Also proved: the processor table of SpecIsa is unambiguous (each encoded instruction has exactly that reading)."
  },
  {
   "property": "C63",
   "status": "proved",
   "theorems": [
    "C63_assemble",
    "C63_warnings",
    "C63_disassemble",
    "C63_release_panics"
   ],
   "note": "Every source text, base, symbol table, iteration order and word list."
  },
  {
   "property": "C64",
   "status": "proved",
   "theorems": [
    "C64_words",
    "C64_position_independent",
    "C64_warnings",
    "C64_assembles",
    "C64_errors"
   ],
   "note": "Every program and pair of bases. Jump words are given exactly; programs without j/jal, and programs moved by a multiple of 2^26, keep all their words."
  },
  {
   "property": "C65",
   "status": "proved",
   "theorems": [
    "C65_assemble",
    "C65_warnings",
    "C65_one_symbol"
   ],
   "note": "The whole outcome (Ok, Err or panic) is the same. Symbols are those handed to the assembler; those not mentioned may be anything."
  },
  {
   "property": "C66",
   "status": "partial",
   "theorems": [
    "C66_refuted",
    "C66_appended_partial",
    "C66_words_partial",
    "C66_new_scope_partial",
    "C66_warnings"
   ],
   "note": "False as stated: defining a local label of the last scope again silently retargets the branches in front of it (refuted). Proved for all continuations that do not do that (precise condition in SpecExtend), in particular when they begin with a global label; the warnings without condition."
  },
  {
   "property": "C67",
   "status": "proved",
   "theorems": [
    "C67_elsewhere",
    "C67_one_line"
   ],
   "note": "All pairs of programs that assemble. It holds even when the replaced instruction has another number of words, because distances are counted in instructions (see C10, C11 for what that costs)."
  },
  {
   "property": "C68",
   "status": "proved",
   "theorems": [
    "C68_renaming"
   ],
   "note": "An iff for Ok results; the 0x and other-word conditions are needed because such names are read as numbers or as immediates by this code."
  },
  {
   "property": "C69",
   "status": "proved",
   "theorems": [
    "C69_line_ends",
    "C69_numbers"
   ],
   "note": "A carriage return inside a line is outside the statement."
  },
  {
   "property": "C70",
   "status": "partial",
   "theorems": [
    "C70_counts_partial",
    "C70_refuted",
    "C70_found_refuted",
    "C70_unknown",
    "C70_register",
    "C70_coprocessor",
    "C70_lookalike",
    "C70_compare_like",
    "C70_kinds"
   ],
   "note": "Proved for every mnemonic with operands (including the floating-point ones), for unknown mnemonics, for those that begin like a floating-point operation or comparison (add.w, c.eqs: taken for one, so a wrong number of operands is reported), and for general, floating-point and coprocessor 0 registers; C70_kinds says that these are all the mnemonics of two or more characters. The full statement is refuted: `nop 1` is accepted (the mnemonics without operands ignore what follows them), and a mnemonic with no operands at all is said to have one operand. Operands with `r` before a digit are left out (they can panic, C29)."
  },
  {
   "property": "C71",
   "status": "proved",
   "theorems": [
    "C71_straight_line_programs",
    "C71_one_ending",
    "C71_native_words"
   ],
   "note": "computing_line gives the meaning of a line from its mnemonic and operands (tables computing, comparisons, unary, products, ...). Not among the lines: signed division with three operands (C24 shows it is wrong), li of a constant from 0xFFFF8000 (C15); move needs a register that holds a word and dabs a 32-bit value, otherwise nothing is said (the code is wrong there: C17, C18)."
  },
  {
   "property": "C72",
   "status": "proved",
   "theorems": [
    "C72_programs_with_branches",
    "C72_total"
   ],
   "note": "Refinement between the source execution of SpecFlow and the machine of SpecMachine on the assembled words, by simulation; C72_case proves for every n < 2^31 that a three-line loop leaves n(n+1)/2 in $a1. The restriction to one-word instructions between branch and label is needed because the assembler counts instructions, not words (see C12, C13)."
  },
  {
   "property": "C73",
   "status": "proved",
   "theorems": [
    "C73_parts",
    "C73_two"
   ],
   "note": "For parts in the class of C60 (SpecAccept.program). Branches to numbers are excluded because their field depends on the position of the branch (C12)."
  },
  {
   "property": "C74",
   "status": "proved",
   "theorems": [
    "C74_functions_and_memory",
    "C74_returns"
   ],
   "note": "Refinement between the source execution of SpecCalls and a machine with memory (big-endian bytes), jumps and calls on absolute addresses. C74_case proves for every base, memory and caller state that a function that saves $ra on the stack, calls another one, restores and returns does so. The restrictions are needed: jump targets count instructions, not words (C11), and keep 26 bits of the address (C11_refuted_high). Linking branches (bal, bgezal, ...), lwl/lwr/ll/sc and self-modifying code are not part of the machine."
  },
  {
   "property": "C75",
   "status": "proved",
   "theorems": [
    "C75_linking",
    "C75_two"
   ],
   "note": "linked / link_table in SpecLink.v; a part is well formed in the sense of C60 (SpecAccept.program) with its own table. C75_case: two functions that jump to each other and to a symbol."
  },
  {
   "property": "C76",
   "status": "proved",
   "theorems": [
    "C76_assembling"
   ],
   "note": "Main.v models main as a whole: arguments already parsed, a file system with limited room per file, yaml_rust as a parameter. C57 and C58 say which base arguments and symbol files mean what."
  },
  {
   "property": "C77",
   "status": "proved",
   "theorems": [
    "C77_disassembling"
   ],
   "note": "That the listing in a file has no line ends is C46 (refuted as a property of its own)."
  },
  {
   "property": "C78",
   "status": "proved",
   "theorems": [
    "C78_files"
   ],
   "note": "C78_case shows a file cut in the middle of a word, with the old contents lost."
  },
  {
   "property": "C79",
   "status": "proved",
   "theorems": [
    "C79_status",
    "C79_errors",
    "C79_unread",
    "C79_base"
   ],
   "note": "Which errors cannot be displayed is C35. C79_base also gives the message for a bad base address."
  },
  {
   "property": "C80",
   "status": "proved",
   "theorems": [
    "C80_there_and_back"
   ],
   "note": ""
  },
  {
   "property": "C81",
   "status": "proved",
   "theorems": [
    "C81_again",
    "C81_any_order"
   ],
   "note": "Runs one after the other; interleaved runs are not modelled. The iteration orders of the hash maps are the same for all runs."
  },
  {
   "property": "C82",
   "status": "proved",
   "theorems": [
    "C82_exact",
    "C82_length",
    "C82_one_bad_word",
    "C82_plain",
    "C82_stable",
    "C82_stable_refuted"
   ],
   "note": "C82_exact is an equivalence for all words: acceptance and the resulting words. C82_stable: without branches and jumps disassembling again shows the same lines; C82_stable_refuted: not so with a jump beyond 64 MiB of its segment (0x09000000 becomes 0x08000000). The bound base + 4*length < 2^32 is met by every program that fits the address space"
  },
  {
   "property": "C83",
   "status": "proved",
   "theorems": [
    "C83_reports",
    "C83_errors",
    "C83_warnings",
    "C83_unique",
    "C83_unique_warning",
    "C83_displayed"
   ],
   "note": "Stated for every value that is displayed (C35 says which errors returned by assemble are: some panic instead). Colours are described only as sequences that can be removed; where each one starts and ends is not stated."
  },
  {
   "property": "C84",
   "status": "proved",
   "theorems": [
    "C84_warnings",
    "C84_always"
   ],
   "note": "A warning whose display panicked would make assemble itself panic (it is printed while parsing); which programs panic is C29."
  }
 ]
}