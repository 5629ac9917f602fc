# Formal model of imaandrew/mipsasm in Rocq (Coq 8.16.1)

## What is modelled

The whole library (`src/lib.rs`, `src/parser.rs`, `src/assembler.rs`, `src/disassembler.rs`,
`src/ast.rs`, `src/error.rs`) and the data path of the CLI (`src/bin/bin.rs`), function by
function, as total computable Gallina functions:

| file | models |
| --- | --- |
| `Str.v` | the `str`/integer primitives of Rust's std that the code calls (ASCII text) |
| `Regex.v` | leftmost-first regex matching and the six regexes of the code |
| `Ast.v`, `AstTables.v` | registers, opcodes, `Immediate`, `Target`, `Instruction`, `FromStr`/`TryFrom` |
| `Display.v` | `Display`/`Debug` of `Instruction`, `Signed` |
| `Error.v` | `ParserError`, `ParserWarning`, `Line`, their `Display`, `fmt_line` |
| `Parser.v` | `Parser` |
| `Assembler.v` | `assembler::assemble` |
| `Disassembler.v` | `disassembler::disassemble` |
| `Lib.v` | `Mipsasm`, `get_bytes` |
| `Cli.v` | word/byte conversion, base-address parsing, symbol entries, output assembly in `main` |
| `Main.v` | `main` as a whole: runs over a file system |

`ModelTests.v` runs the model on the unit tests of the repository and on further inputs.

Specifications, which use none of the model (only the text primitives of `Str.v`):

| file | says |
| --- | --- |
| `SpecIsa.v` | instruction formats, encodings, registers, canonical text, reading of a word |
| `SpecText.v`, `SpecProgram.v` | how numbers, registers, operands, lines and programs are written |
| `SpecLines.v`, `SpecImm.v` | lines that write or reject an operand; immediates and `%hi`/`%lo` |
| `SpecLabels.v`, `SpecScopes.v` | branch and jump lines, where a branch lands; scopes of local labels |
| `SpecAccept.v` | grammar of well-formed programs with their words; tables of expansions |
| `SpecReading.v` | what instruction a reader of an encoded word sees |
| `SpecPseudo.v`, `SpecMachine.v` | lines with pseudo-instructions; a 64-bit MIPS interpreter |
| `SpecListing.v`, `SpecDefault.v` | structure and readability of the default listing |
| `SpecErrors.v`, `SpecShow.v`, `SpecWarn.v` | diagnostics: which, on which line, how shown |
| `SpecSource.v`, `SpecEdit.v`, `SpecExtend.v`, `SpecRename.v` | edits of a source text: comments, white space, case; replaced instructions; appended lines; renamed labels |
| `SpecEnds.v` | the lines of a text |
| `SpecCause.v` | the operand counts of mnemonics, unknown mnemonics, the error a line causes |
| `SpecSize.v` | how many words an instruction becomes |
| `SpecPanic.v`, `SpecFatal.v`, `SpecDisplay.v`, `SpecCli.v` | lines that do not panic, lines that do; displayable mnemonics; files |
| `SpecMain.v` | runs of the program: what they read, write and report |

`*Proofs.v`, `*Lemmas.v`, `RenameScan.v`, `InsProofs.v`, `AcceptLines.v`, `ImmLines.v`, `ProgCong.v`, `DisasmMore.v`,
`PanicMore.v` are proofs only. `Props*.v` hold the property theorems (named `Cnn_...`), concrete
cases that meet their hypotheses, refutations, and `Print Assumptions`.

Conventions

* A panic is an explicit value (`Panic`), `Result` stays data (`Ok`/`Err`).
* Arithmetic whose overflow behaviour depends on the build profile takes the flag `oc`
  (overflow checks on = debug build: panic; off = release build: wrap). Theorems quantify over it.
* `HashMap` iteration order is a parameter (`rt_order`); theorems quantify over all permutations.
* Text is a list of ASCII characters. Non-ASCII source text is outside the model (Unicode
  `trim`, `to_lowercase`, `is_numeric`, `\d`, UTF-8 slicing).
* Unbounded machine resources: `usize` does not overflow (a program has fewer than 2^61 lines).
* Where the code does not have a property, `Cnn_full` states it, `Cnn_refuted` proves that the
  model does not have it (with a concrete witness, in both build profiles), and `Cnn_..._partial`
  proves it outside the stated exceptions. Many properties of the list are false of this code in
  some corner; the status `partial` mostly means that.

`Main.v` models the command-line program as a whole over a file system (which files can be read, how much room
a created file has), with yaml_rust and the order of the symbol table as parameters.

Not modelled: clap argument parsing, YAML parsing (a parameter of `Main.v`), links and read errors halfway in the
file system, failing standard streams, the texts of library messages, terminal colours, memory exhaustion,
`Hash`/`Clone`/`Eq` derives.

## Trusted base

* Coq 8.16.1's kernel (with `vm_compute`; `native_compute` is not used).
* `Print Assumptions` is run on every property theorem at the end of its `Props*.v` file; each one
  reports `Closed under the global context`. No axiom of the standard library is used. (The gate lists
  `Coq.ssr.ssrunder.*` as library axioms: these are fields of a module type of the standard library that
  is loaded, not used by any theorem.)
* No `Admitted`, no axioms, no functors or module types, no plugins, no disabled checks. `Variable`
  occurs inside sections only.
* That the definitions of `Str.v` to `Cli.v` and `Main.v` say what the Rust code does. Each definition cites the lines it
  models and notes simplifications. `ModelTests.v` re-runs the repository's tests on the model, and
  `seeded/LOG.jsonl` records edits of the model in the way of realistic bugs and which theorems noticed.
* That the `Spec*.v` files say what the English properties say. The functions on text that they share with
  the model (white space, digits, small letters, `trim`, `split`, comments, texts of numbers) are pinned down
  independently in `PropsWords.v`. `C62_isa_unambiguous` checks the
  instruction table against itself: every encoded instruction has exactly one reading.

## Findings in the code

Confirmed by theorems (`*_refuted` and exact characterisations); line references are in the model comments.

* Panics of `assemble`: `add.w`, `cvt.w.w`, `c.eq.w` and the like with their registers; `nop<TAB>; comment`; `.word` with anything; one-letter unknown mnemonics; a nameless label `:`; a bad
  register or missing parentheses in a load or store; `j` without operand; cache operation above 31; bad shift
  amount text; `li`/`break` with a label; `%xx(...)` other than `%hi`/`%lo`; `%hi` of a label; register tokens such
  as `r1x`; `add.x`, `c.eq.w`, `movez`; `nop<TAB>; comment` (C29). With overflow checks also `%hi` above
  0xFFFF7FFF, compare-and-branch to offset 0, programs reaching 2^32 (C14, C29, C39).
* Wrong words: `j`/`jal` lose address bits 26 and 27 (C13); branches to numbers divide `address - (i+1)` by 4 (C12);
  labels count instructions, not words, so branches and jumps across multi-word pseudo-instructions are off
  (C10, C11, C20); branch offsets wrap silently at 16 bits (C10); `li` from 0xFFFF8000 (C15); `move` is a 32-bit
  `addu` (C17); `dabs` shifts by 31 (C18); signed three-operand division skips its final `mflo`/`mfhi` (C24);
  `subi` of -32768 (C26); shift amounts above 31 and negative ones are accepted and spill into other fields (C28).
* Rejected although correct: forward branches to global labels; jumps to local labels; local labels of
  programs in one scope (C38); 20-bit `break` codes (C01); negative `li`; `ANDI`/`ORI`/`XORI` in capitals
  with large immediates (C27, C32); `lw $a0, ($a1)`; `lwc1` with `%lo` (C52); `label: ; comment` (C30); a tab
  after the mnemonic (C31).
* Disassembly: 0x7fff is shown as -0x7fff (C49); reserved coprocessor-0 words as `tlb*` (C02); `j` to a symbol
  panics in default mode (C06); branches, `.word`, unnamed coprocessor-0 registers and the tab after
  `c.cond.fmt` do not assemble again (C03, C04).
* Diagnostics: out-of-bounds branches are blamed on the last line (C34); several errors panic when displayed
  (C35); the first definition in a duplicate-label error is given by instruction index (C36); assembled pseudo-instructions
  panic when displayed (C56); delay-slot warnings miss `b`, `bal`, `beqzl`, `bnezl` and compare-and-branch (C50).
* Operand counts: `nop`, `sync`, `eret` and `tlb*` ignore what follows them; a mnemonic with no operands at all is said
  to have one (C70).
* Registers: bare hexadecimal digits are coprocessor registers, so `add.s $a, $b, $c` is `add.s $f10, $f11, $f12` and
  `mfc0 $a0, $a` reads EntryHi; `$$a0`, `rr4`, `+4` and `04` are accepted (C43).
* CLI: `disasm` panics on empty files and lengths that are not multiples of 4 (C45); `-o` listings have no line
  ends (C46).

* Names: a second definition of a local label in the same scope silently replaces the first, also for earlier
  branches; an immediate operand that equals a label name (`addiu $a0,$a1,foo`) is taken as a branch-like offset; a
  forward branch to a global label whose name contains `0x` is read as a hexadecimal number; opening parentheses in
  offsets of floating-point loads and stores are ignored (C12, C38, C68).

## Per property: plan and result

- **C01 Native instructions assemble to their ISA encoding** — Spec table of the ISA (SpecIsa.v: mnemonic, format, opcode numbers, word as a sum of field*2^k, source syntax). Theorem: for each table entry and all in-range operands, the API-level `assemble` on the spec's source text returns the spec's word. Proof: string lemmas for splitting/trimming, finite sweeps over the 32 registers and over the mnemonic table, number-formatting lemmas, lor-of-disjoint-fields lemma.
  *partial*: `C01_refuted`, `C01_refuted_break`, `C01_native_line_partial`, `C01_straight_line_partial`, `C01_anywhere_partial`. Full claim is false (jump addresses above 64 MiB, 20-bit break codes): refuted with witnesses. Proved for every native format except label/address branches, in every notation, for one line, whole straight-line programs and any line of a successful program.
- **C02 Every word disassembles to the ISA reading of its fields** — Same table: decoding the spec word prints the spec's text; exhaustive case split on the decoder for words with no entry.
  *partial*: `C02_words_read_per_isa_partial`, `C02_every_word`, `C02_refuted`. False as stated (refuted: immediate 0x7fff prints negative, reserved cop0 words decode as tlb*); proved for all other words. C02_every_word gives the exact line of every word, the exceptions included.
- **C03 Debug-mode disassembly reassembles to the same words** — Corollary of C01/C02 lifted over lists by induction on the parser loop; refuted witnesses for the exceptions.
  *partial*: `C03_refuted`, `C03_failures`, `C03_reassembly_partial`, `C03_exact`, `C03_exact_everywhere`, `C03_exact_small`, `C03_one_bad_word`, `C03_no_branch`. Full claim false; each failing class exhibited. C03_exact_everywhere characterises completely which lists of words come back, at every base address: exactly those each of whose words satisfies `returns` or is a branch whose offset happens to be an address from which the assembler computes the same offset (`branch_back`); in up to 512 KiB that is only a branch with offset 0 among the first three words at base address 0 (C03_exact_small). From base address 0x8000, or without branches, `returns` alone decides (C03_exact).
- **C04 Default-mode listing reassembles to the same words** — Same induction on the default listing (labels, blanks, padding); refuted for c.cond.fmt (tab in the mnemonic).
  *partial*: `C04_refuted`, `C04_failures`, `C04_default_partial`, `C04_plain_partial`, `C04_exact`, `C04_symbols_exact`, `C04_debug`, `C04_one_bad_word`. False as stated (C04_refuted): branches, .word, unnamed cop0 registers, wide break codes, jumps above 64 MiB, the immediate 0x7fff and the tab after the name of a float comparison do not come back. Completely characterised (base address from 0x8000, or no branches): with any readable symbol table (C04_symbols_exact; C04_exact without symbols) a default listing comes back exactly if every word satisfies `returns` and `tab_free` and no word is a j to a symbol outside the delay slots of words that leave their function; wherever labels and blank lines fall, in both build profiles. Open: branches at base addresses below 0x8000, and symbol tables that are not readable (doubled names, names that are no identifiers).
- **C05 Debug-mode disassembly is total and one line per word** — Totality of decode+print over all words by case split on the decoder.
  *proved*: `C05_debug_disassembly_total`. 
- **C06 Default-mode disassembly never panics** — Refuted: `j` to a symbol. Partial: no panic without symbols at J targets and without address overflow.
  *partial*: `C06_default_total_partial`, `C06_default_total_release_partial`, `C06_refuted`, `C06_refuted_overflow`, `C06_exact`, `C06_marks`, `C06_outcomes`. False as stated (j to a symbol panics). C06_exact: for listings that fit below 2^32, in both build profiles, default-mode disassembly panics exactly if some word is a j to the address of a symbol and is not the delay slot of a word that leaves its function; the only other outcome is a listing. Larger listings: total without overflow checks and without j to a symbol.
  Exactly (`C06_exact`, in `PropsTotal.v`, for listings that fit below 2^32): the disassembly panics iff some word is a `j` to the address of a symbol and is not the delay slot of a word that leaves its function (`good_cuts`, which determines those slots: `C06_marks`).
- **C07 Default-mode listing structure** — Listing loop modelled as written; invariant by induction over the words.
  *proved*: `C07_listing_structure`. for listings that fit below 2^32
- **C08 Disassembly is compositional** — Map homomorphism.
  *proved*: `C08_debug_concat`, `C08_segment_only`. 
- **C09 Disassembly does not lose information** — Refuted (ignored must-be-zero bits); partial for canonical words (from C03).
  *partial*: `C09_canonical_words_distinct_partial`, `C09_refuted`, `C09_refuted_canonical`, `C09_same_word`, `C09_same_line`, `C09_exact`. False as stated. C09_exact says, for all words, exactly which lists of words share a listing: those equal up to `shown_as` (unused fields cleared, 0x7fff taken as 0x8001, reserved coprocessor 0 words taken as TLB operations).
  Exactly (`C09_exact`, in `PropsLoss.v`): two lists of words share a listing iff they agree word for word up to `shown_as` (`SpecExact.v`), the word a line stands for; `C09_same_line` says that replacing a word by it changes nothing.
- **C10 Branches to global labels land on the label** — Program-level theorem on the parser model + assembler model; refuted when a multi-word pseudo-instruction lies in between or the distance exceeds 2^15; partial otherwise.
  *partial*: `C10_branch_word`, `C10_lands_iff`, `C10_branch_to_label_partial`, `C10_refuted`. Exact word of every branch to an earlier global label; it lands on the label iff the span has one word per instruction on average (up to 32767 instructions). The full property is false (multi-word pseudo-instructions between label and branch; distances are counted in instructions): C10_refuted.
- **C11 Jumps to labels land on the label** — As C10.
  *partial*: `C11_jump_word`, `C11_jump_to_label_partial`, `C11_refuted`, `C11_refuted_high`. Exact word of every j/jal to a label; lands when only one-word instructions precede the label and bits 26-27 of the address are clear. Full property false: two refutations.
- **C12 Branches to numeric addresses land on the address** — Exact formula proved; refuted in general, partial for the first instruction.
  *partial*: `C12_branch_word`, `C12_lands_iff`, `C12_branch_to_number_partial`, `C12_wrong_later`, `C12_refuted`. Exact offset of branches to numbers and an exact criterion for landing; holds for the first instruction of a program at a multiple of 2^18 and, there, for no later one. Full property false.
- **C13 Jumps to numeric addresses land on the address** — Refuted for addresses with bits 26-27 set; partial otherwise.
  *partial*: `C13_jump_word`, `C13_lands_iff`, `C13_jump_to_number_partial`, `C13_refuted`. Lands iff bits 26 and 27 of the address are clear (the code masks before shifting). Full property false.
- **C14 %hi/%lo recompose the address** — Arithmetic theorem over all addresses, both profiles.
  *partial*: `C14_halves_partial`, `C14_halves_unchecked`, `C14_refuted`. All addresses below 0xFFFF8000, and all addresses without overflow checks; with overflow checks %hi of the rest panics (C14_refuted). Labels of the surrounding program must be identifiers.
- **C15 li loads its constant** — Machine semantics (SpecMachine.v) for the instructions the pseudo-instructions expand to; refuted for 0xFFFF8001..0xFFFFFFFF; partial otherwise.
  *partial*: `C15_li_loads_its_constant_partial`, `C15_wrong_above`, `C15_refuted`. Every c < 0xFFFF8000, alone and inside every program that assembles, executed on the machine of SpecMachine. C15_full is refuted: for c >= 0xFFFF8000 lui/addiu gives c - 0x10000 (C15_wrong_above, for all such c).
- **C16 liu, lli and dli load their constants** — As C15.
  *proved*: `C16_liu_loads_its_constant`, `C16_lli_loads_its_constant`, `C16_dli_loads_its_constant`. All accepted constants; all register contents.
- **C17 Register-move pseudo-instructions** — As C15.
  *partial*: `C17_unary`, `C17_clear`, `C17_negations`, `C17_move_partial`, `C17_move_refuted`. dmove, negu, dnegu, not, clear, neg, dneg in full (neg/dneg raise Overflow exactly on the smallest value). move is a 32-bit addu: right for word values only, refuted for 64-bit values.
- **C18 abs and dabs compute absolute values** — abs proved; dabs refuted (dsra instead of dsra32), partial for 32-bit range.
  *partial*: `C18_abs`, `C18_dabs_partial`, `C18_dabs_refuted`. abs in full; dabs only for values in the 32-bit range, refuted for 2^31+1 (dsra by 31 instead of 63).
- **C19 Set-on-comparison pseudo-instructions** — As C15.
  *proved*: `C19_set_on_comparison`. seq sne sge sgeu sgt sgtu sle sleu on all 64-bit contents, including overlapping registers.
- **C20 Compare-and-branch pseudo-instructions** — As C15 plus branch semantics.
  *partial*: `C20_compare_words`, `C20_compare_and_branch_partial`, `C20_refuted`. Exact words of every compare-and-branch pseudo-instruction to a label, and its semantics on the machine: branches iff the comparison holds. Lands on the label when the instructions in between are one word each and at most 32766 of them; full property false otherwise (C20_refuted).
- **C21 Multiplication pseudo-instructions** — As C15.
  *proved*: `C21_products`. 
- **C22 Overflow-checked multiplication** — As C15 with traps.
  *proved*: `C22_checked_products`. mulo mulou dmulo dmulou: result or trap 6, exactly on overflow (destination other than $zero and $at).
- **C23 Unsigned division and remainder** — As C15 with traps.
  *proved*: `C23_unsigned_division`. divu remu ddivu dremu: result, or trap 7 exactly for a zero divisor. The divisor register is not $zero (div3 with $zero is encoded as the two-operand form, C24 note).
- **C24 Signed division and remainder** — Refuted: the internal branch skips mflo/mfhi; exact behaviour proved.
  *partial*: `C24_signed_division_partial`, `C24_refuted`. Traps are right; the quotient/remainder reaches rd only for divisor -1, because the internal branch skips the final mflo/mfhi; C24_full refuted (7/2).
- **C25 Rotations** — As C15.
  *proved*: `C25_rotations`. drol, dror.
- **C26 Subtract-immediate pseudo-instructions** — Exact; refuted at -32768.
  *partial*: `C26_subtract_immediate_partial`, `C26_refuted`. All n except -32768, which is accepted and encodes +(-32768).
- **C27 Out-of-range immediates are rejected, never truncated** — Parser theorem on numeric literals.
  *partial*: `C27_immediates_partial`, `C27_capitals`, `C27_refuted`, `C27_refuted_minus_zero`. For every instruction of the tables that takes a 16-bit immediate or offset, every decimal or hex literal (any size, any spelling): in range it is written as the word of the table, alone and in every program whose labels are identifiers; out of range it is an error at that line. Restriction: andi/ori/xori in lower case and no '-0' as an unsigned immediate; both exceptions refute the full statement, and C27_capitals says exactly what capitals do (signed range).
- **C28 Shift amounts stay in their field** — Refuted; exact word or panic for every literal amount (ShiftProofs.v, PropsShift.v).
  *partial*: `C28_refuted`, `C28_shift_amounts_partial`, `C28_any_amount`, `C28_in_field_partial`, `C28_spills`. Exact for every literal amount, every layout and every program: -2^31..2^31-1 are accepted and the low 26 bits are written from bit 6 on, over the register fields (refutes the property for 32 and above and for negative amounts; C28_spills says when that leaves the registers alone); other amounts make every program with the line panic. For 0..31 the word is the ISA's.
- **C29 assemble never panics** — Refuted with several witnesses; partial: no panic on the class of well-formed lines.
  *partial*: `C29_refuted`, `C29_partial`, `C29_fatal`, `C29_no_data`. False as stated: .word, one-letter mnemonics, nameless labels, malformed memory operands, bad load/store registers, cache operations above 31, etc. make assemble panic (refuted, with eleven kinds shown in more_panics). For every source text whose lines avoid those cases (harmless_line: any label or empty line; any instruction line whose mnemonic is known or unknown, with any number of operands, right or wrong, subject to the listed exclusions), every base, symbol table and iteration order, assemble does not panic; with overflow checks the program must fit below 2^32 and have no compare-and-branch pseudo-instructions. Missing: the excluded lines, where the code panics or (compare-and-branch with checks) may panic. Conversely (C29_fatal) a fatal line (SpecFatal.v: a one-letter mnemonic, a load or store of something that is no register or without parentheses, a shift by a register or by more than 32 bits, a cache operation above 31, a jump to nowhere, a tab or other white space directly after an operation without operands and before a comment, or after one with three registers and before its operands, a mnemonic like add.w, cvt.w.w or c.eq.w that begins like a floating-point operation or comparison but is none, with its registers, a nameless label) makes every program that has it panic, whatever the other lines are. C29_no_data: a program with a .word line, in any letter case and with any operand, never assembles, whatever the rest of it is (it panics, or fails for another reason first).
- **C30 Comments and blank lines do not matter** — Parser-loop theorem (blank/comment lines); refuted for `label: ; comment` and `nop<TAB>; comment`.
  *partial*: `C30_comments_partial`, `C30_words_partial`, `C30_refuted`, `C30_label_gap`, `C30_tab_gap`, `C30_code_gap`. Any program: blank/comment lines anywhere; a comment directly after the text of any line, or after white space following an instruction with a space after its mnemonic. Refuted in general, and the excluded cases are shown to be real, for every program with such a line: a label followed by a space and a comment is reported as an unknown mnemonic (C30_label_gap), an operation without operands followed by a tab and a comment makes assemble panic (C30_tab_gap), `break`/`syscall` followed by two or more white-space characters and a comment is an invalid immediate (C30_code_gap). Not covered: a tab directly after a mnemonic with operands (which has no comment-free program that assembles to compare with), labels that continue the stem of a floating-point operation (`addi: ; c`)
- **C31 Surrounding white space does not matter** — Trim lemma; refuted for tab separators.
  *partial*: `C31_indentation`, `C31_separator_partial`, `C31_operands_partial`, `C31_refuted`, `white_space`, `trimmed`. Indentation and trailing white space: proved in full. Separator after the mnemonic: any white space beginning with a space; refuted for a tab. White space around operands, case and comments together: C31_operands_partial, for every mnemonic but .word (andi/ori/xori when the constant is a number below 0x8000 or a %hi/%lo, or when both lines have the mnemonic in lower case).
- **C32 Mnemonics are case-insensitive** — Theorem over all casings; refuted for ANDI/ORI/XORI with large immediates.
  *partial*: `C32_case_partial`, `C32_words_partial`, `C31_operands_partial`, `C32_refuted`. All programs, all mnemonics but andi/ori/xori; those too when the constant is a number below 0x8000 or a %hi/%lo (C31_operands_partial, same_instruction). Refuted in general: `ANDI $a0,$a1,0xffff` is rejected.
- **C33 All errors are reported, in order, with their lines** — Invariant over the parser loop.
  *partial*: `C33_errors_partial`, `C33_in_order_partial`, `C33_line_partial`, `C33_refuted`. All errors carry their line; line errors and reference errors are each in source order, one per line, on disjoint lines; a line has an error of its own exactly when it has one in the program of the labels before it plus that line. Missing: a single source order (reference errors come after line errors: C33_refuted) and the line of out-of-bounds branches (C34).
- **C34 Out-of-bounds branch errors point at the branch** — Refuted (line of the last source line).
  *partial*: `C34_reported`, `C34_last_line_partial`, `C34_refuted`. Every numeric branch outside the program is reported and named, but on the last line of the program; the line is right only if the branch is the last line. Full property false (C34_refuted).
- **C35 Every returned error can be displayed** — Refuted; partial per error kind.
  *partial*: `C35_iff`, `C35_displayed_partial`, `C35_always`, `C35_refuted`, `C35_refuted_register`, `C35_refuted_label`, `C35_refuted_bounds`. False as stated, refuted with four kinds of witnesses. Exact characterisation of displayability; displayed for all errors of assemble whose text is quoted as written (explicit conditions on the source line), five kinds always.
- **C36 Duplicate global labels are rejected** — First definition stays in force (invariant); reported line refuted.
  *partial*: `C36_rejected`, `C36_first_partial`, `C36_only_duplicates`, `C36_refuted`. Every second definition of a global label is reported with the label and its line, and nothing else is; the line given for the first definition has the index of the first definition's instruction, so it is right only when instructions alone come before it. Full property false (C36_refuted).
- **C37 Label syntax** — Exact characterisation of scan_line on label lines.
  *proved*: `C37_label_syntax`, `C37_empty`, `C37_no_words`. The empty label is rejected by a panic (see C29), the others by an error on their line.
- **C38 Local labels resolve inside their scope** — Refuted (off-by-one at the scope end; single-scope programs); exact resolution rule proved.
  *partial*: `C38_resolves_partial`, `C38_no_error_partial`, `C38_refuted`, `C38_scope_end`. Full property refuted: in a program without a local label before a later global label no local label is found (C38_refuted), and right after a global label the previous scope is still searched (C38_scope_end). Proved: with those cases (and a name also defined before the first global label) excluded, a branch in a program that assembles goes to a definition in its own scope; and a local label defined in the scope of the branch is never reported missing when some local label precedes a later global label and all other lines are readable.
- **C39 Undefined labels are reported** — Invariant: no panic in label resolution; UndefinedLabel reported.
  *partial*: `C39_jump`, `C39_local`, `C39_resolution_partial`, `C39_only_undefined`, `C39_refuted`. Undefined jumps and local branch references are reported on their lines; only undefined names are. Resolution never panics while addresses stay below 2^32; beyond, it panics with overflow checks (C39_refuted).
- **C40 Results do not depend on hash-map iteration order** — Iteration order is a parameter of the model, any permutation; results equal.
  *proved*: `C40_assemble`, `C40_disassemble`, `C40_names_needed`. Exact equality of results (words, errors in order, panics) under any permutation of the local-label maps and of the symbol map.
- **C41 Symbols resolve in assembly** — Theorem on parse_target.
  *partial*: `C41_jump_word`, `C41_jump_alone`, `C41_jump_partial`, `C41_lo`, `C41_hi_partial`, `C41_refuted`, `C41_refuted_hi`. Jumps to a symbol carry the table's address (bits 2-25) whatever labels or numbers share the name; %lo in every instruction with an immediate; %hi below 0xFFFF8000. Refuted in full: address bits 26-27 are lost, and %hi of addresses from 0xFFFF8000 overflows.
- **C42 Symbols replace jump targets in disassembly** — Theorem on match_syms.
  *proved*: `C42_symbols_in_disassembly`. 
- **C43 Register spellings** — Exact characterisation (SpecRegs.v, RegProofs.v, PropsRegs.v); refuted for `r1x` (panic) and bare hexadecimal digits.
  *partial*: `C43_refuted`, `C43_spellings_partial`, `C43_accepted_only_partial`, `C43_float`, `C43_cop0`, `C43_general_partial`, `C43_spellings_read`, `C43_hexadecimal_refuted`. Exact for all three kinds of register: which texts are read, as which number, which are rejected with an error and (general registers only) which panic. Full claim refuted: r1x panics, and bare hexadecimal digits such as $a are read as floating-point and coprocessor 0 registers.
- **C44 CLI binary output and input agree on byte order** — Codec theorem.
  *partial*: `C44_bytes_are_big_endian_words_partial`, `C44_refuted`. Full claim refuted: an empty output file makes disasm crash. Proved for every non-empty output.
- **C45 CLI disassembly accepts any input file** — Refuted, exact condition proved.
  *partial*: `C45_files_read_partial`, `C45_refuted`, `C45_refuted_five_bytes`. Full claim refuted: disasm panics on every file whose length is not a positive multiple of four; proved exactly which files are read and as what words.
- **C46 CLI listing file has one line per listing line** — Refuted.
  *partial*: `C46_same_text_partial`, `C46_refuted`, `C46_refuted_always`. Full claim refuted for every listing: -o writes no line ends. Proved: the file is the terminal text without line ends.
- **C47 Words are emitted in source order, 1 to 8 per instruction** — Induction over programs.
  *proved*: `C47_blocks`, `C47_native_one_word`, `C47_sizes`, `C47_native`. C47_sizes gives the number of words of every instruction line by its mnemonic (table in SpecSize), for all operands including labels, symbols and numbers; C47_native: exactly one word for every instruction of the processor.
- **C48 Builder settings** — Op-sequence theorem over builder calls.
  *proved*: `C48_last_setting_wins`, `C48_same_assembly`, `C48_same_disassembly`. 
- **C49 Signed immediates print their value** — Refuted at 0x7fff, exact otherwise.
  *partial*: `C49_signed_immediates_partial`, `C49_refuted`. False only at 0x7fff.
- **C50 Delay-slot warning** — Refuted for b/bal/beqzl/...; exact rule proved.
  *partial*: `C50_delay_slot_warning_partial`, `C50_without_overlooked_partial`, `C50_refuted`. False as stated: the delay slots of b, bal, beqzl, bnezl and the compare-and-branch pseudo-instructions are overlooked (refuted with 'b 0x80000000 / jr $ra'). Exact list of delay-slot warnings for every assembled program, which is the property for programs without the overlooked branches.
- **C51 Alignment warnings** — Exact rule; warnings always displayable.
  *proved*: `C51_alignment_warnings`. Branches to numeric addresses, jumps to numeric addresses or symbols, in every program that is read to the end (errors on other lines allowed); no alignment warning on any other line of an assembled program; formatting a warning never panics, for every program.
- **C52 Memory operands** — Theorem on the memory-operand parser; refuted for ` ($a1)` and %lo with lwc1.
  *partial*: `C52_memory_partial`, `C52_offset`, `C52_bare_iff`, `C52_lo`, `C52_lo_float`, `C52_refuted`, `C52_refuted_float`. offset(base) holds for all loads and stores and spellings; (base) is accepted exactly when it follows the comma directly, otherwise an error; %lo(sym)(base) holds for general registers and is always an error for floating-point ones.
- **C53 Numeric literals denote their value** — Number parsing theorem.
  *partial*: `C53_refuted`, `C53_literals_partial`, `C29_no_data`. .word panics, so its literal denotes nothing (refuted; C29_no_data: no program with a .word line assembles); literals of every other numeric operand kind denote their value.
- **C54 Diagnostics underline the offending text** — Theorem on fmt_line.
  *proved*: `C54_underlined`, `C54_warnings_partial`. The property is about errors: proved for every error value whose Display succeeds. The second theorem extends it to warnings except delay-slot warnings where the line number gains a digit; there it is false (C54_warnings_refuted: lines 9 and 10). What those warnings look like exactly is C83.
- **C55 Register fields are isolated** — Corollary of C01.
  *proved*: `C55_register_fields_partial`, `C55_in_program`, `C55_branch`. Every native format: alone (C55_register_fields_partial, not for branches), in any program (C55_in_program), and branches to labels defined before, local labels and numbers in any program (C55_branch). Other operands must be those of the instruction (shift amounts below 32, see C28).
- **C56 Assembled instructions can be displayed** — Refuted for pseudo-instructions; partial for native ones.
  *partial*: `C56_refuted`, `C56_exact_partial`, `C56_partial`. False as stated: displaying an assembled nop, move, li or any other pseudo-instruction panics (refuted with 'nop'). Proved for every program: an assembled instruction can be formatted with Display and Debug iff the mnemonic of its source line is not one of the 59 listed pseudo-instructions; hence programs without them are displayable.
- **C57 Base address argument** — Theorem on the base-argument parser of the CLI.
  *proved*: `C57_base_argument`. 
- **C58 Symbol file: last entry names the address** — Theorem on the fold over the symbol file's entries.
  *proved*: `C58_last_entry_names_the_address`. YAML values as already parsed by yaml_rust.
- **C59 Words printed on the terminal** — Theorem on the words printed by the CLI.
  *proved*: `C59_words_printed`. 
- **C60 Well-formed programs assemble** — Grammar of well-formed programs with their words (SpecAccept); induction over the lines with the parser state as invariant, then over label resolution.
  *proved*: `C60_program_assembles`, `C60_words_unique`. For every program derivable by the grammar of SpecAccept (program_line: blank, label, native instruction, pseudo-instruction, branch to earlier global label, compare-and-branch to an earlier global label or to a local label, branch to a local label, numeric branch inside the program, jump to label/symbol/number, %hi, %lo, %lo memory operand): assemble returns Ok, with the words of each instruction line and their concatenation. Distances are those the assembler uses (counted in instructions; see C10-C13 for where that is wrong). Example with every kind of line.
- **C61 Expansions of pseudo-instructions** — Tables of expansions; line by line from the assembler model.
  *proved*: `C61_expansions`, `C61_compare_expansions`. Tables of all expansions in SpecAccept, with the words of the processor table of SpecIsa. What the sequences compute is C15-C26.
- **C62 Assembled instructions read back as themselves** — Encoded words as sums of disjoint fields, bit by bit; formats told apart by a clash of fixed bits (checked over all pairs of the table); composed with C60 and C02.
  *partial*: `C62_isa_unambiguous`, `C62_readings_exist`, `C62_listing_partial`, `C62_program_listing_partial`, `C62_straight_line_partial`, `C62_refuted`. False for the signed operand 0x7fff, which is shown as -0x7fff (refuted). Proved for all other instructions and operands: the debug listing of the words of a well-formed program (grammar of C60) shows the instructions that were written, with their operand values (short forms of jalr/syscall/break and idioms as the instruction they stand for, table in SpecReading). Also proved: the processor table of SpecIsa is unambiguous (each encoded instruction has exactly that reading).
- **C63 Debug and release builds agree** — Agreement relation (equal unless the checked build panics), through every function that uses checked arithmetic (ProfileProofs).
  *proved*: `C63_assemble`, `C63_warnings`, `C63_disassemble`, `C63_release_panics`. Every source text, base, symbol table, iteration order and word list.
- **C64 The base address only moves jumps to labels** — Reading the lines does not use the base (definitional); label resolution related instruction by instruction at the two bases (RelocProofs).
  *proved*: `C64_words`, `C64_position_independent`, `C64_warnings`, `C64_assembles`, `C64_errors`. Every program and pair of bases. Jump words are given exactly; programs without j/jal, and programs moved by a multiple of 2^26, keep all their words.
- **C65 Unused symbols do not matter** — Every text looked up in the symbol table is a part of the line (parentheses removed); extensionality of the parser in its environment (EnvProofs).
  *proved*: `C65_assemble`, `C65_warnings`, `C65_one_symbol`. The whole outcome (Ok, Err or panic) is the same. Symbols are those handed to the assembler; those not mentioned may be anything.
- **C66 Lines added at the end do not change earlier words** — Lines are read alike whatever follows them (EnvProofs); the recorded definitions of each local label of the longer program begin with those of the shorter, scopes contain the same earlier instructions (AppendProofs).
  *partial*: `C66_refuted`, `C66_appended_partial`, `C66_words_partial`, `C66_new_scope_partial`, `C66_warnings`. False as stated: defining a local label of the last scope again silently retargets the branches in front of it (refuted). Proved for all continuations that do not do that (precise condition in SpecExtend), in particular when they begin with a global label; the warnings without condition.
- **C67 Editing an instruction does not change the other lines** — Simulation between the two runs: same labels, local labels, line numbers and number of instructions after each line; the instructions of common lines are equal, and so is their resolution.
  *proved*: `C67_elsewhere`, `C67_one_line`. All pairs of programs that assemble. It holds even when the replaced instruction has another number of words, because distances are counted in instructions (see C10, C11 for what that costs).
- **C68 The names of labels do not matter** — Simulation between the parser states of the two programs: label tables related name by name, scopes related, instructions equal up to the label they mention; the adjusted instructions are then equal. SpecRename, RenameProofs, RenameScan, PropsRename.
  *proved*: `C68_renaming`. An iff for Ok results; the 0x and other-word conditions are needed because such names are read as numbers or as immediates by this code.
- **C69 Line ends do not matter** — text_of (SpecEnds) builds a text from lines and line ends; lines of it are computed by induction; assemble depends on the lines only. PropsEnds.
  *proved*: `C69_line_ends`, `C69_numbers`. A carriage return inside a line is outside the statement.
- **C70 Errors name their cause** — `causes` (SpecCause.v): in every program with the line, the error list contains the given error. Proved by case distinction on the arm of the mnemonic, with the tables compared by computation (CauseProofs.v, PropsCause.v).
  *partial*: `C70_counts_partial`, `C70_refuted`, `C70_found_refuted`, `C70_unknown`, `C70_register`, `C70_coprocessor`, `C70_lookalike`, `C70_compare_like`, `C70_kinds`. Proved for every mnemonic with operands (including the floating-point ones), for unknown mnemonics, for those that begin like a floating-point operation or comparison (add.w, c.eqs: taken for one, so a wrong number of operands is reported), and for general, floating-point and coprocessor 0 registers; C70_kinds says that these are all the mnemonics of two or more characters. The full statement is refuted: `nop 1` is accepted (the mnemonics without operands ignore what follows them), and a mnemonic with no operands at all is said to have one operand. Operands with `r` before a digit are left out (they can panic, C29).
- **C71 Straight-line programs compute what their lines say** — `SpecRun`: the meaning of a computing line by mnemonic and operands, programs as lists of meanings run in turn. `RunProofs`: execution of code inside larger code (shifting), preservation of 64-bit registers, each instruction word executes as its table row says. `RunLines`: every line runs as its meaning; induction over the lines.
  *proved*: `C71_straight_line_programs`, `C71_one_ending`, `C71_native_words`. computing_line gives the meaning of a line from its mnemonic and operands (tables computing, comparisons, unary, products, ...). Not among the lines: signed division with three operands (C24 shows it is wrong), li of a constant from 0xFFFF8000 (C15); move needs a register that holds a word and dabs a 32-bit value, otherwise nothing is said (the code is wrong there: C17, C18).
- **C72 Programs with branches and loops execute as written** — SpecFlow: items, steps with delay slots, machine_follows; FlowProofs: simulation of steps by machine cycles (blocks_follow); FlowLines: each line's words (branch_exec for the 17 native branches, compare_run for comparing branches, native_plain: no other instruction branches) and acceptance by AcceptProofs.items_accepted; PropsFlow: theorem and the summing loop.
  *proved*: `C72_programs_with_branches`, `C72_total`. Refinement between the source execution of SpecFlow and the machine of SpecMachine on the assembled words, by simulation; C72_case proves for every n < 2^31 that a three-line loop leaves n(n+1)/2 in $a1. The restriction to one-word instructions between branch and label is needed because the assembler counts instructions, not words (see C12, C13).
- **C73 Parts of a program are assembled independently** — SpecModules: headed, parts; ModuleProofs: well-formedness is kept when lines are added after (line_before) or in front of a part at the shifted base (line_after), including scopes of local labels; then C60's acceptance for the whole and for each part.
  *proved*: `C73_parts`, `C73_two`. For parts in the class of C60 (SpecAccept.program). Branches to numbers are excluded because their field depends on the position of the branch (C12).
- **C74 Programs with functions and memory execute as written** — SpecCalls: machine with memory and jumps extending SpecMachine, items, steps; CallProofs: simulation (cone_step, cblocks_follow), with every run of the machine of SpecMachine lifted (wcycles_image); CallLines: words of loads, stores and jumps, acceptance by AcceptProofs; PropsCalls: theorem, corollary for one-word programs and the call example.
  *proved*: `C74_functions_and_memory`, `C74_returns`. Refinement between the source execution of SpecCalls and a machine with memory (big-endian bytes), jumps and calls on absolute addresses. C74_case proves for every base, memory and caller state that a function that saves $ra on the stack, calls another one, restores and returns does so. The restrictions are needed: jump targets count instructions, not words (C11), and keep 26 bits of the address (C11_refuted_high). Linking branches (bal, bgezal, ...), lwl/lwr/ll/sc and self-modifying code are not part of the machine.
- **C75 Separate assembly with a link table gives the same code as assembling the whole program** — model: assemble with per-part symbol tables; a line that is well formed with a link table is well formed in the whole program with the program's symbols (a jump to an imported symbol becomes a jump to a label), then the parts are joined as for C73 (LinkProofs.v, PropsLink.v).
  *proved*: `C75_linking`, `C75_two`. linked / link_table in SpecLink.v; a part is well formed in the sense of C60 (SpecAccept.program) with its own table. C75_case: two functions that jump to each other and to a symbol.
- **C76 What a run of the assembler does** — Main.v models the whole of main over a file system; equivalence of status 0 with the conditions, and the exact output.
  *proved*: `C76_assembling`. Main.v models main as a whole: arguments already parsed, a file system with limited room per file, yaml_rust as a parameter. C57 and C58 say which base arguments and symbol files mean what.
- **C77 What a run of the disassembler does** — As C76.
  *proved*: `C77_disassembling`. That the listing in a file has no line ends is C46 (refuted as a property of its own).
- **C78 A run changes only its output file** — The plan of a run (what it will write) does not depend on the room; case analysis on writing.
  *proved*: `C78_files`. C78_case shows a file cut in the middle of a word, with the old contents lost.
- **C79 Exit status and messages** — Induction over the list of errors printed.
  *proved*: `C79_status`, `C79_errors`, `C79_unread`, `C79_base`. Which errors cannot be displayed is C35. C79_base also gives the message for a bad base address.
- **C80 Assembling to a file and disassembling the file** — C76 for the first run, C77 for the second, on the files the first one leaves.
  *proved*: `C80_there_and_back`. 
- **C81 Repeating and reordering runs** — A run depends only on the files it reads; induction over the list of runs.
  *proved*: `C81_again`, `C81_any_order`. Runs one after the other; interleaved runs are not modelled. The iteration orders of the hash maps are the same for all runs.
- **C82 Assembling a listing: exactly when it works and what it gives** — each acceptable line assembles to `reassembled` (line lemma per operand kind, then `program_accepted`); conversely every line of a listing that assembles is acceptable (data, negative and outside branches and large codes are refused).
  *proved*: `C82_exact`, `C82_length`, `C82_one_bad_word`, `C82_plain`, `C82_stable`, `C82_stable_refuted`. C82_exact is an equivalence for all words: acceptance and the resulting words. C82_stable: without branches and jumps disassembling again shows the same lines; C82_stable_refuted: not so with a jump beyond 64 MiB of its segment (0x09000000 becomes 0x08000000). The bound base + 4*length < 2^32 is met by every program that fits the address space
- **C83 What the reports say, word for word** — `SpecReport.v` writes the rows of a report as a relation (picture: gutter, number, line, underline at the first occurrence, note) with one table of headlines and one of notes. `fmt_line` is shown to print a picture (`line_picture`), by removing the colour sequences one by one; then by cases over the errors and warnings.
  *proved*: `C83_reports`, `C83_errors`, `C83_warnings`, `C83_unique`, `C83_unique_warning`, `C83_displayed`. Stated for every value that is displayed (C35 says which errors returned by assemble are: some panic instead). Colours are described only as sequences that can be removed; where each one starts and ends is not stated.
- **C84 Every warning can be displayed, in the order of the lines** — The only place where the parser logs a warning displays it first; an invariant over all parse functions (`inst_told`) and over the lines of a program (`scan_told`, `scan_sorted`) in `WarnShown.v`.
  *proved*: `C84_warnings`, `C84_always`. A warning whose display panicked would make assemble itself panic (it is printed while parsing); which programs panic is C29.
