{"id": "C01", "title": "Native instructions assemble to their ISA encoding", "statement": "For every native R4300i mnemonic the assembler knows and every choice of in-range operands, assembling the one-line source `mnemonic operands` succeeds and get_bytes returns exactly one word, the word the MIPS ISA manual assigns to that instruction with those operands.", "quantifier": "every native mnemonic, every register operand, every in-range immediate / shift amount / code / condition, every base address and build profile", "why_tests_cant": "the suite checks one operand combination per mnemonic; a wrong shift, swapped field or field overlap shows only at other operands", "anchors": ["src/assembler.rs: assemble", "src/parser.rs: Parser::parse_inst", "src/lib.rs: Mipsasm::assemble, get_bytes"]}
{"id": "C02", "title": "Every word disassembles to the ISA reading of its fields", "statement": "In debug mode, a word that is the ISA encoding of a native instruction disassembles to that instruction's mnemonic and operands, and a word whose opcode/function bits select no native instruction disassembles to `.word 0x%08x` of itself.", "quantifier": "all 2^32 words, every base address", "why_tests_cant": "2^32 words times base addresses; the suite decodes about 190 words", "anchors": ["src/disassembler.rs: disassemble", "src/ast.rs: Display for Instruction", "src/lib.rs: Mipsasm::disassemble"]}
{"id": "C03", "title": "Debug-mode disassembly reassembles to the same words", "statement": "Joining the debug-mode disassembly of a list of canonical words with newlines and assembling the result at the same base address returns exactly the original words; where this fails (branches, .word, cop0 registers without a name, wide break/syscall codes, jumps outside the 64 MiB window, immediate 0x7fff) the failure is exhibited.", "quantifier": "all lists of words, every base address", "why_tests_cant": "round trip over unbounded lists of words", "anchors": ["src/lib.rs: Mipsasm::assemble, Mipsasm::disassemble"]}
{"id": "C04", "title": "Default-mode listing reassembles to the same words", "statement": "The default (non-debug) listing, with its function labels, blank lines and column padding, is itself valid input: joined with newlines it assembles to the original words.", "quantifier": "all lists of words, every base address", "why_tests_cant": "depends on where labels fall in an arbitrary program", "anchors": ["src/lib.rs: Mipsasm::disassemble", "src/parser.rs: Parser::scan_line"]}
{"id": "C05", "title": "Debug-mode disassembly is total and one line per word", "statement": "In debug mode disassemble never panics, whatever the words, base address and symbols, and returns exactly one string per input word.", "quantifier": "all word lists, all bases, all symbol tables", "why_tests_cant": "totality over 2^32 words; one unhandled decoder/printer pair panics", "anchors": ["src/disassembler.rs: disassemble", "src/ast.rs: Display for Instruction, Debug for Instruction"]}
{"id": "C06", "title": "Default-mode disassembly never panics", "statement": "In default mode disassemble never panics, whatever the words, base address and symbols.", "quantifier": "all word lists, all bases, all symbol tables, both build profiles", "why_tests_cant": "the panicking inputs need a symbol exactly at a jump target, or addresses near 2^32", "anchors": ["src/lib.rs: Mipsasm::disassemble", "src/ast.rs: Instruction::get_jump_target, Target::as_u32"]}
{"id": "C07", "title": "Default-mode listing structure", "statement": "The default listing starts with the label of the base address; removing label headers and blank separators leaves exactly one line per word in order; a header is printed only right after the delay slot of a function-ending jump, and names the address of the following word.", "quantifier": "all word lists, all bases, all symbol tables without panics", "why_tests_cant": "needs all programs with any placement of jumps", "anchors": ["src/lib.rs: Mipsasm::disassemble, Mipsasm::get_sym"]}
{"id": "C08", "title": "Disassembly is compositional", "statement": "In debug mode the line for a word depends only on that word, the symbols and the top four bits of the base address: disassembling a concatenation is the concatenation of the disassemblies, and two bases in the same 256 MiB segment give the same text.", "quantifier": "all pairs of word lists, all bases", "why_tests_cant": "no finite set of splits covers all lists", "anchors": ["src/disassembler.rs: disassemble", "src/lib.rs: Mipsasm::match_syms"]}
{"id": "C09", "title": "Disassembly does not lose information", "statement": "Two different words never have the same debug-mode disassembly.", "quantifier": "all pairs of words", "why_tests_cant": "2^64 pairs", "anchors": ["src/disassembler.rs: disassemble"]}
{"id": "C10", "title": "Branches to global labels land on the label", "statement": "In a successfully assembled program, a branch whose operand is a previously defined global label transfers control (PC+4 plus four times the sign-extended offset field) to the address of the first word emitted after that label.", "quantifier": "all programs, all positions of the label and the branch", "why_tests_cant": "depends on unbounded distances and on how many words the instructions in between expand to", "anchors": ["src/parser.rs: Parser::adjust_labels, Parser::scan_line", "src/assembler.rs: assemble"]}
{"id": "C11", "title": "Jumps to labels land on the label", "statement": "In a successfully assembled program, `j`/`jal` to a label (defined before or after) encodes the address of the first word emitted after that label.", "quantifier": "all programs, all bases, all label positions", "why_tests_cant": "as C10, plus the base address", "anchors": ["src/parser.rs: Parser::adjust_labels, Parser::parse_target", "src/assembler.rs: assemble"]}
{"id": "C12", "title": "Branches to numeric addresses land on the address", "statement": "A branch whose operand is a numeric absolute address inside the program transfers control to that address.", "quantifier": "all programs, all bases, all aligned addresses in bounds, all branch positions", "why_tests_cant": "the only test has the branch first in the program and base 0x80000000", "anchors": ["src/parser.rs: Parser::adjust_labels"]}
{"id": "C13", "title": "Jumps to numeric addresses land on the address", "statement": "`j`/`jal` with a numeric address in the current 256 MiB segment encodes exactly that address in the 26-bit target field.", "quantifier": "all word-aligned 32-bit addresses", "why_tests_cant": "tests use two addresses with zero upper bits", "anchors": ["src/assembler.rs: assemble (J, Jal)"]}
{"id": "C14", "title": "%hi/%lo recompose the address", "statement": "For every symbol or literal address a, assembling `lui r, %hi(a)` and `addiu r, r, %lo(a)` yields halves with (hi * 65536 + sign_extend(lo)) mod 2^32 = a.", "quantifier": "all 2^32 addresses, both build profiles", "why_tests_cant": "carry cases at every 0x8000 boundary and wrap at 2^32", "anchors": ["src/parser.rs: Parser::parse_immediate"]}
{"id": "C15", "title": "li loads its constant", "statement": "Executing the words assembled for `li rt, c` leaves the 32-bit constant c (sign-extended) in rt and changes no other register.", "quantifier": "every constant accepted, every register", "why_tests_cant": "2^32 constants; one constant tested", "anchors": ["src/assembler.rs: assemble (Li)", "src/parser.rs: Parser::parse_inst (li)"]}
{"id": "C16", "title": "liu, lli and dli load their constants", "statement": "Executing the words for `liu rt, c`, `lli rt, c` and `dli rt, c` leaves exactly c (32-bit sign-extended, 16-bit zero-extended, 64-bit) in rt and changes no other register.", "quantifier": "every accepted constant, every register except $zero as destination", "why_tests_cant": "2^64 constants", "anchors": ["src/assembler.rs: assemble (Liu, Lli, Dli)"]}
{"id": "C17", "title": "Register-move pseudo-instructions", "statement": "move, dmove, clear, neg, negu, dneg, dnegu and not assemble to one word whose execution leaves the named function of the source in the destination and changes nothing else.", "quantifier": "all registers and all register contents", "why_tests_cant": "all 2^64 register contents", "anchors": ["src/assembler.rs: assemble (Move, Dmove, Clear, Neg, Negu, Dneg, Dnegu, Not)"]}
{"id": "C18", "title": "abs and dabs compute absolute values", "statement": "Executing the words for `abs rd, rs` / `dabs rd, rs` leaves |rs| in rd, changing besides rd only $at.", "quantifier": "all register contents of the operation's width; source and destination other than $at", "why_tests_cant": "all 2^32 / 2^64 values", "anchors": ["src/assembler.rs: assemble (Abs, Dabs)"]}
{"id": "C19", "title": "Set-on-comparison pseudo-instructions", "statement": "seq, sne, sge, sgeu, sgt, sgtu, sle, sleu leave 1 in rd when the comparison holds and 0 otherwise, changing nothing else.", "quantifier": "all registers (with any aliasing of rd with rs, rt) and all contents", "why_tests_cant": "pairs of 64-bit values and all register aliasings", "anchors": ["src/assembler.rs: assemble (Seq, Sge, Sgeu, Sgt, Sgtu, Sle, Sleu, Sne)"]}
{"id": "C20", "title": "Compare-and-branch pseudo-instructions", "statement": "bge, bgt, ble, blt and their u / l / ul variants branch to the label exactly when the comparison of rs and rt holds, changing only $at.", "quantifier": "all register contents, all label positions behind the branch", "why_tests_cant": "pairs of 64-bit values times all offsets", "anchors": ["src/assembler.rs: assemble (Bge .. Bltul)"]}
{"id": "C21", "title": "Multiplication pseudo-instructions", "statement": "mul, mulu, dmul, dmulu leave the low 32 / 64 bits of the product in rd.", "quantifier": "all register contents and register choices", "why_tests_cant": "2^128 operand pairs", "anchors": ["src/assembler.rs: assemble (Mul, Mulu, Dmul, Dmulu)"]}
{"id": "C22", "title": "Overflow-checked multiplication", "statement": "mulo, mulou, dmulo, dmulou raise the overflow trap exactly when the product does not fit, and otherwise leave it in rd.", "quantifier": "all register contents, rd other than $zero and $at", "why_tests_cant": "2^128 operand pairs", "anchors": ["src/assembler.rs: assemble (Mulo, Mulou, Dmulo, Dmulou)"]}
{"id": "C23", "title": "Unsigned division and remainder", "statement": "Three-operand divu, ddivu, remu, dremu trap (code 7) exactly when the divisor is zero and otherwise leave the unsigned quotient / remainder in rd.", "quantifier": "all register contents, divisor register other than $zero", "why_tests_cant": "2^128 operand pairs", "anchors": ["src/assembler.rs: assemble (Divu, Ddivu, Remu, Dremu)"]}
{"id": "C24", "title": "Signed division and remainder", "statement": "Three-operand div, ddiv, rem, drem trap on division by zero (7) and on overflow (6) and otherwise leave the signed quotient / remainder in rd.", "quantifier": "all register contents", "why_tests_cant": "2^128 operand pairs; the existing tests compare words, not behaviour", "anchors": ["src/assembler.rs: assemble (Div, Ddiv, Rem, Drem)"]}
{"id": "C25", "title": "Rotations", "statement": "drol / dror leave in rd the 64-bit rotation of rs by rt modulo 64.", "quantifier": "all contents, all registers other than $at", "why_tests_cant": "2^64 values times 64 amounts, all aliasings", "anchors": ["src/assembler.rs: assemble (Drol, Dror)"]}
{"id": "C26", "title": "Subtract-immediate pseudo-instructions", "statement": "subi, subiu, dsubi, dsubiu with immediate n emit the add-immediate whose sign-extended field is -n.", "quantifier": "all 65536 accepted immediates, all registers", "why_tests_cant": "boundary immediates", "anchors": ["src/assembler.rs: assemble (Subi, Subiu, Dsubi, Dsubiu)"]}
{"id": "C27", "title": "Out-of-range immediates are rejected, never truncated", "statement": "An arithmetic, logical, load/store or trap immediate is accepted exactly when it fits the instruction's 16-bit field (signed or unsigned as the instruction requires); otherwise assemble returns an error; it never changes another field of the word.", "quantifier": "all integers written in decimal or hex", "why_tests_cant": "unbounded literals", "anchors": ["src/parser.rs: Parser::parse_immediate", "src/ast.rs: Immediate::new"]}
{"id": "C28", "title": "Shift amounts stay in their field", "statement": "A shift instruction with a shift amount outside 0..31 is rejected; with an accepted amount the other fields of the word are unaffected.", "quantifier": "all integer shift amounts", "why_tests_cant": "unbounded literals", "anchors": ["src/parser.rs: Parser::parse_inst (sll group)", "src/assembler.rs: assemble (Sll ...)"]}
{"id": "C29", "title": "assemble never panics", "statement": "For every source text assemble returns Ok or Err; it never panics.", "quantifier": "all source texts, all bases, all symbol tables", "why_tests_cant": "all strings", "anchors": ["src/parser.rs: Parser", "src/assembler.rs: assemble", "src/ast.rs: Instruction::push_bytes"]}
{"id": "C30", "title": "Comments and blank lines do not matter", "statement": "Inserting blank or comment-only lines anywhere, or appending a `;` or `//` comment to a line, does not change the words assembled.", "quantifier": "all programs, all positions, all comment texts", "why_tests_cant": "all programs and insertions", "anchors": ["src/parser.rs: COMMENT_RE, Parser::parse, Parser::scan_line"]}
{"id": "C31", "title": "Surrounding white space does not matter", "statement": "Indenting a line or adding trailing white space changes neither the words nor the set of errors; any white space separates the mnemonic from its operands.", "quantifier": "all programs and paddings", "why_tests_cant": "all programs", "anchors": ["src/parser.rs: Parser::parse, Parser::parse_inst"]}
{"id": "C32", "title": "Mnemonics are case-insensitive", "statement": "Writing a mnemonic in any mixture of upper and lower case gives the same words.", "quantifier": "all mnemonics, all casings, all operands", "why_tests_cant": "2^n casings per mnemonic", "anchors": ["src/parser.rs: Parser::parse_inst", "src/ast.rs: ITypeOp, RTypeOp, JTypeOp"]}
{"id": "C33", "title": "All errors are reported, in order, with their lines", "statement": "assemble returns Ok exactly when no line and no label reference is in error; otherwise the error list contains one error per offending line in source order, each carrying a line number and the text of exactly that source line.", "quantifier": "all source texts on which assemble does not panic", "why_tests_cant": "all programs with any number of errors", "anchors": ["src/parser.rs: Parser::parse, Parser::adjust_labels", "src/error.rs: error!"]}
{"id": "C34", "title": "Out-of-bounds branch errors point at the branch", "statement": "A branch to a numeric address outside the program is reported as BranchOutOfBounds on the line of that branch.", "quantifier": "all programs", "why_tests_cant": "any position of the branch", "anchors": ["src/error.rs: error! (BranchOutOfBounds)", "src/parser.rs: Parser::adjust_labels"]}
{"id": "C35", "title": "Every returned error can be displayed", "statement": "Formatting (Display) any error returned by assemble succeeds without panicking.", "quantifier": "all programs, all errors returned", "why_tests_cant": "all strings", "anchors": ["src/error.rs: fmt_line, Display for ParserError"]}
{"id": "C36", "title": "Duplicate global labels are rejected", "statement": "A second definition of a global label is reported as an error that names the label and the line of its first definition; the first definition stays in force.", "quantifier": "all programs", "why_tests_cant": "any number of lines between the two definitions", "anchors": ["src/parser.rs: Parser::parse_label", "src/error.rs: error! (MultipleLabelDefinition)"]}
{"id": "C37", "title": "Label syntax", "statement": "A label definition line is accepted exactly when the label is non-empty, does not start with a digit and (for global labels) is new; accepted labels emit no words.", "quantifier": "all label texts", "why_tests_cant": "all strings", "anchors": ["src/parser.rs: Parser::scan_line, Parser::parse_label"]}
{"id": "C38", "title": "Local labels resolve inside their scope", "statement": "A reference to a local label `@@x` resolves to the definition of `@@x` in the same global-label scope as the reference, wherever in that scope it is defined, and to no other.", "quantifier": "all programs with any number of scopes", "why_tests_cant": "all arrangements of scopes", "anchors": ["src/parser.rs: Parser::adjust_labels, Parser::get_label_scope"]}
{"id": "C39", "title": "Undefined labels are reported", "statement": "A jump to a label that is never defined, and a reference to a local label never defined, give UndefinedLabel on the line of the reference; label resolution itself never panics.", "quantifier": "all programs", "why_tests_cant": "all programs", "anchors": ["src/parser.rs: Parser::adjust_labels"]}
{"id": "C40", "title": "Results do not depend on hash-map iteration order", "statement": "The result of assemble and disassemble does not depend on the iteration order of the internal hash maps, nor (when symbol names are unique) on that of the symbol table.", "quantifier": "all programs, all iteration orders", "why_tests_cant": "hash seeds are random per process; tests see one order", "anchors": ["src/parser.rs: Parser::parse, Parser::scan_line, Parser::parse_target"]}
{"id": "C41", "title": "Symbols resolve in assembly", "statement": "`j`/`jal` and %hi/%lo of a symbol name use the address the symbol table gives to that name, in preference to labels and numbers.", "quantifier": "all symbol tables with unique names", "why_tests_cant": "all tables", "anchors": ["src/parser.rs: Parser::parse_target"]}
{"id": "C42", "title": "Symbols replace jump targets in disassembly", "statement": "In disassembly a jump whose target address has a symbol prints the symbol name, any other jump prints the hexadecimal address, and no other line changes because of symbols.", "quantifier": "all symbol tables, all words", "why_tests_cant": "all tables times all words", "anchors": ["src/lib.rs: Mipsasm::match_syms"]}
{"id": "C43", "title": "Register spellings", "statement": "Each register can be written by o32 name (any case), by `rN` and by decimal number, with or without `$`; the spelling decides the number by the o32 convention, and every other token is rejected with an error.", "quantifier": "all tokens", "why_tests_cant": "all strings", "anchors": ["src/ast.rs: FromStr for Register, FloatRegister, Cop0Register"]}
{"id": "C44", "title": "CLI binary output and input agree on byte order", "statement": "The bytes written by `asm -o` are the words in big-endian order; `disasm` of that file sees exactly the same words.", "quantifier": "all word lists", "why_tests_cant": "all lists", "anchors": ["src/bin/bin.rs: main"]}
{"id": "C45", "title": "CLI disassembly accepts any input file", "statement": "`disasm` of a file does not crash whatever its length.", "quantifier": "all file lengths", "why_tests_cant": "all lengths", "anchors": ["src/bin/bin.rs: main"]}
{"id": "C46", "title": "CLI listing file has one line per listing line", "statement": "`disasm -o file` writes the same lines that `disasm` prints.", "quantifier": "all listings", "why_tests_cant": "all listings", "anchors": ["src/bin/bin.rs: main"]}
{"id": "C47", "title": "Words are emitted in source order, 1 to 8 per instruction", "statement": "get_bytes of a successful assembly is the concatenation, in source order, of one block per instruction line; each block has between 1 and 8 words and a native instruction has exactly one.", "quantifier": "all programs", "why_tests_cant": "all programs", "anchors": ["src/lib.rs: get_bytes", "src/ast.rs: Instruction::push_bytes, Instruction::get_bytes"]}
{"id": "C48", "title": "Builder settings", "statement": "base, symbols and debug may be called in any order and any number of times; the last base and symbols win, debug stays set, assemble ignores debug, and neither assemble nor disassemble changes the instance.", "quantifier": "all call sequences", "why_tests_cant": "all sequences of calls", "anchors": ["src/lib.rs: Mipsasm::new, base, symbols, debug"]}
{"id": "C49", "title": "Signed immediates print their value", "statement": "The immediate of an add/load/store/trap instruction is printed as the signed value of its 16-bit field.", "quantifier": "all 65536 field values", "why_tests_cant": "boundary values", "anchors": ["src/ast.rs: LowerHex for Signed"]}
{"id": "C50", "title": "Delay-slot warning", "statement": "Assembling a branch or jump right after another branch or jump prints the delay-slot warning; otherwise none is printed.", "quantifier": "all pairs of consecutive instructions", "why_tests_cant": "all mnemonic pairs", "anchors": ["src/ast.rs: Instruction::has_delay_slot", "src/parser.rs: Parser::parse_inst"]}
{"id": "C51", "title": "Alignment warnings", "statement": "A branch or jump to a numeric address prints an alignment warning exactly when the address is not a multiple of four; formatting a warning never panics.", "quantifier": "all addresses, all programs", "why_tests_cant": "all addresses", "anchors": ["src/parser.rs: Parser::parse_inst", "src/error.rs: warning!, Display for ParserWarning"]}
{"id": "C52", "title": "Memory operands", "statement": "`op rt, offset(base)` uses the signed offset and base as written and `op rt, (base)` means offset 0, for integer and floating-point loads and stores alike, including %lo(sym)(base).", "quantifier": "all offsets, registers, spacing", "why_tests_cant": "all operand spellings", "anchors": ["src/parser.rs: OFFSET_RE, BASE_RE, Parser::parse_inst"]}
{"id": "C53", "title": "Numeric literals denote their value", "statement": "A decimal literal, or a hex literal with 0x prefix, optionally signed where the operand is signed, denotes its usual value.", "quantifier": "all literals", "why_tests_cant": "all strings of digits", "anchors": ["src/parser.rs: Parser::parse_immediate, Parser::parse_target"]}
{"id": "C54", "title": "Diagnostics underline the offending text", "statement": "A displayed error shows the source line and underlines, on the next line, exactly the columns of the first occurrence of the offending text.", "quantifier": "all displayable errors", "why_tests_cant": "all lines", "anchors": ["src/error.rs: fmt_line"]}
{"id": "C55", "title": "Register fields are isolated", "statement": "Changing one register operand of a native instruction changes only the five bits of that operand's field in the emitted word.", "quantifier": "all native mnemonics, all register pairs", "why_tests_cant": "all operand pairs", "anchors": ["src/assembler.rs: assemble"]}
{"id": "C56", "title": "Assembled instructions can be displayed", "statement": "Every Instruction returned by assemble can be formatted with Display / Debug.", "quantifier": "all programs", "why_tests_cant": "all programs", "anchors": ["src/ast.rs: Display for Instruction"]}
{"id": "C57", "title": "Base address argument", "statement": "The base address given on the command line is read as hexadecimal, with or without 0x, and rejected when it exceeds 32 bits.", "quantifier": "all hexadecimal digit strings", "why_tests_cant": "unbounded argument strings", "anchors": ["src/bin/bin.rs: main (base_addr)"]}
{"id": "C58", "title": "Symbol file: last entry names the address", "statement": "After loading a symbol file, each address has exactly one name: the one of its last entry in the file; no entry of the file is lost and no other address is named.", "quantifier": "all symbol files (lists of entries)", "why_tests_cant": "unbounded files", "anchors": ["src/bin/bin.rs: main (syms)"]}
{"id": "C59", "title": "Words printed on the terminal", "statement": "asm without -o prints every assembled word, in order, as exactly eight hexadecimal digits whose value is the word.", "quantifier": "all programs that assemble", "why_tests_cant": "all programs", "anchors": ["src/bin/bin.rs: asm"]}
{"id": "C60", "title": "Well-formed programs assemble", "statement": "A program whose lines are blank lines, comments, label definitions (all global names distinct), instructions of the processor with operands in range, pseudo-instructions, branches to earlier global labels, to local labels of the scope or to addresses inside the program, jumps to labels, symbols or numbers, and %hi/%lo of symbols or numbers, is assembled without error, and the words of every line are those of its instruction.", "quantifier": "all programs made of such lines, any number, order and spelling, any base, symbols, overflow mode and hash order", "why_tests_cant": "unbounded programs; a rejected or mistranslated combination of lines can hide anywhere", "anchors": ["src/lib.rs: Mipsasm::assemble", "src/parser.rs: Parser::parse", "src/parser.rs: adjust_labels", "src/assembler.rs: assemble"]}
{"id": "C61", "title": "Expansions of pseudo-instructions", "statement": "Every pseudo-instruction (set, multiply, divide and remainder with three operands, rotate, abs, subtract immediate, load constant, compare and branch) is replaced by a fixed sequence of instructions of the processor with the operands of the line.", "quantifier": "all pseudo-instructions, all operands and spellings, alone and in all programs", "why_tests_cant": "all registers, constants and programs", "anchors": ["src/assembler.rs: assemble"]}
{"id": "C62", "title": "Assembled instructions read back as themselves", "statement": "Disassembling in debug mode what the assembler made of an instruction shows that instruction with the operands that were written: same mnemonic and operand values (the default operand of jalr, syscall and break is left out; idioms such as nop, move and b are shown as the instruction they stand for).", "quantifier": "all instructions, operand values, spellings and well-formed programs", "why_tests_cant": "all operand values and programs", "anchors": ["src/assembler.rs: assemble", "src/disassembler.rs: disassemble", "src/ast.rs: Display"]}
{"id": "C63", "title": "Debug and release builds agree", "statement": "When the library is built with overflow checks, assemble and disassemble either panic or return exactly what the release build returns (same words, errors, warnings, listing); what panics in a release build panics in a debug build.", "quantifier": "all source texts, bases, symbol tables, hash-map orders and word lists", "why_tests_cant": "two builds, all inputs", "anchors": ["src/parser.rs: parse_immediate, adjust_labels", "src/assembler.rs: assemble", "src/lib.rs: assemble, disassemble"]}
{"id": "C64", "title": "The base address only moves jumps to labels", "statement": "Assembling the same source with another base address gives the same words, except that the target fields of j and jal to labels follow the base; warnings and all errors other than out-of-bounds numeric branches are the same, and whether the program assembles can change only through such branches.", "quantifier": "all source texts, pairs of bases, symbol tables, hash-map orders and builds (addresses below 2^32 when overflow checks are on)", "why_tests_cant": "relates two runs on every program and pair of bases", "anchors": ["src/parser.rs: adjust_labels, parse", "src/lib.rs: Mipsasm::base, Mipsasm::assemble"]}
{"id": "C65", "title": "Unused symbols do not matter", "statement": "Adding, removing or changing symbols whose names do not occur in the source text (comments and parentheses aside) changes neither the words, the errors nor the warnings of assembling it.", "quantifier": "all source texts, pairs of symbol tables, bases, builds and hash-map orders", "why_tests_cant": "relates two runs on every program and every pair of symbol tables", "anchors": ["src/parser.rs: parse_target, parse_immediate", "src/lib.rs: Mipsasm::symbols, Mipsasm::assemble"]}
{"id": "C66", "title": "Lines added at the end do not change earlier words", "statement": "If a program assembles and the program with lines added at its end assembles, the instructions and words of the longer one begin with those of the shorter one, and so do the warnings.", "quantifier": "all programs, continuations, bases, symbol tables, builds and hash-map orders", "why_tests_cant": "relates two runs on every program and continuation; resolution of labels looks at the whole program", "anchors": ["src/parser.rs: parse, scan_line, adjust_labels, get_label_scope", "src/lib.rs: Mipsasm::assemble"]}
{"id": "C67", "title": "Editing an instruction does not change the other lines", "statement": "If two programs have the same blank lines and label definitions line by line and differ only in the text of instructions, and both assemble, every instruction line that is the same in both gives the same words; in particular replacing one instruction by another leaves all other words as they are.", "quantifier": "all pairs of programs that assemble and agree on blank lines and labels, all replaced instructions (of any number of words), bases, symbol tables, iteration orders", "why_tests_cant": "Any instruction of any program can be replaced by any other; label resolution runs over the whole program.", "anchors": ["src/parser.rs: Parser::parse", "src/parser.rs: Parser::adjust_labels", "src/lib.rs: Mipsasm::assemble"]}
{"id": "C68", "title": "The names of labels do not matter", "statement": "If the labels of a program are renamed by a one-to-one map, at their definitions and in all branches and jumps, then the program assembles exactly when the original does and gives the same instructions word for word. The names must stay identifiers of the same kind (local or global), without 0x, that are not names of symbols and are not words of other instructions.", "quantifier": "all programs, renamings (also swaps), symbol tables, base addresses, build profiles and hash map orders", "why_tests_cant": "the set of programs and renamings is infinite; name-dependent behaviour (hash map order, accidental numbers, prefixes) shows only for particular names", "anchors": ["src/parser.rs: Parser::scan, parse_label, parse_immediate, parse_target, adjust_labels, get_label_scope"]}
{"id": "C69", "title": "Line ends do not matter", "statement": "Texts with the same lines give the same instructions, errors, warnings and panics, whether lines end in LF or CR LF (also mixed) and whether or not the last line has a line end. Errors name a line by its number in the text, counted from 1, and quote it without the line end.", "quantifier": "all texts, mixtures of line ends, builder settings, build profiles and hash map orders", "why_tests_cant": "all mixtures of line ends in all programs are meant, including those in diagnostics", "anchors": ["src/parser.rs: Parser::new, parse", "src/lib.rs: assemble"]}
{"id": "C70", "title": "Errors name their cause", "statement": "A line whose mnemonic is known and whose number of operands is one the mnemonic does not take is never assembled: in every program that contains it, assemble fails with an operand-count error for that line, with a count the mnemonic takes, the count found and the operand text. A line with an unknown mnemonic is reported with that mnemonic as it is written. The first operand that should be a general register and is none is reported, as written or (for a number out of range) as that number.", "quantifier": "every line, every program that contains it, every symbol table and base address, both build profiles", "why_tests_cant": "there are over 170 mnemonics, unboundedly many wrong operand texts and programs around them", "anchors": ["src/parser.rs: Parser::parse_inst", "src/error.rs: ParserError", "src/ast.rs: FromStr for Register"]}
{"id": "C71", "title": "Straight-line programs compute what their lines say", "statement": "A program made of blank lines, comments, labels and lines with computing instructions (the integer, shift, multiply/divide and trap instructions of the processor by mnemonic, and the pseudo-instructions that are right on their own) always assembles, and the words, executed from the first one in any register state, do exactly what the lines say one after the other: the same registers, or the same exception.", "quantifier": "all such programs of any length, all spellings of their operands, all initial register contents, all runtimes", "why_tests_cant": "programs are unbounded sequences of lines with 64-bit register states; a test runs one program on one state", "anchors": ["src/assembler.rs: assemble", "src/lib.rs: get_bytes", "src/parser.rs: Parser::parse", "src/ast.rs: Instruction::get_bytes"]}
{"id": "C72", "title": "Programs with branches and loops execute as written", "statement": "A program of labels, comments, computing instructions, branches (beq, bne, beqz, bnez, blez, bgtz, bltz, bgez, their likely forms, b) to earlier global labels or to local labels that the assembler resolves, and comparing branches (bge, bltu, ...) to earlier labels, where each branch is followed by a one-word instruction that is not a branch and only one-word instructions stand between a branch and its label, assembles; and its words, executed by the processor from the first one in any register state, go through exactly the lines that an execution of the source goes through (with the instruction after a branch executed before control moves, and skipped after a likely branch that is not taken), for any number of rounds through its loops, to the end of the program or to the exception.", "quantifier": "all such programs, all base addresses and symbol tables, all orders of the hash map, all register states, all numbers of steps", "why_tests_cant": "Loops run for a number of rounds that depends on the registers, and there are unboundedly many programs and states; each test sees one run.", "anchors": ["src/parser.rs: Parser::parse, adjust_labels", "src/assembler.rs: assemble", "src/lib.rs: get_bytes", "src/ast.rs: Instruction::get_bytes"]}
{"id": "C73", "title": "Parts of a program are assembled independently", "statement": "A program made of parts, one after the other (each part begins with a global label, is a well-formed program by itself and names labels, not numbers, in its branches; no global label occurs twice in the whole), assembles to the words of the first part, then the words of the second, and so on, where each part is assembled by itself at the address where the part before it ends (4 bytes per instruction). Local labels with the same name in different parts do not disturb each other.", "quantifier": "all lists of such parts, all base addresses, symbol tables and hash map orders", "why_tests_cant": "The parts can be any programs in any number; labels, local scopes and jump targets all depend on what stands before them.", "anchors": ["src/parser.rs: Parser::parse, adjust_labels", "src/assembler.rs: assemble", "src/lib.rs: get_bytes"]}
{"id": "C74", "title": "Programs with functions and memory execute as written", "statement": "A program of labels, comments, computing instructions, branches, loads and stores (lb, lbu, lh, lhu, lw, lwu, ld, sb, sh, sw, sd), jumps and calls (j, jal to labels, symbols or numbers; jr, jalr), where each branch or jump is followed by a one-word instruction that is neither, branches are as in C72, and only one-word instructions stand before a label that is jumped to, assembles; and when its words are placed at the base address (in the first 64 MB of a 256 MB segment), the processor, from any state of registers and memory, goes through exactly the lines that an execution of the source goes through: calls leave the address after the delay slot in the link register, returns go back to it, loads and stores use the addresses that are written, for any number of steps, to the end of the program, to an exception, or to an address outside of it.", "quantifier": "all such programs, all base addresses and symbol tables, all orders of the hash map, all register and memory states, all numbers of steps", "why_tests_cant": "Unboundedly many programs, call depths, base addresses and memory contents; each test sees one run at one base.", "anchors": ["src/parser.rs: Parser::parse, parse_inst, parse_target", "src/assembler.rs: assemble", "src/lib.rs: get_bytes", "src/ast.rs: Instruction::get_bytes", "src/lib.rs: Mipsasm::base"]}
{"id": "C75", "title": "Separate assembly with a link table gives the same code as assembling the whole program", "statement": "Take a program that is a sequence of parts, each beginning with a global label, whose branches stay inside their part and which names labels of other parts in j and jal only. If each part is assembled by itself, with base set to the address where the part before it ends and with symbols for the labels of the whole program (each at base plus 4 for every instruction in front of it) in addition to the program's own symbols, then each call succeeds, and the bytes of the parts one after the other are the bytes of the whole program assembled in one call with the program's own symbols only.", "quantifier": "all programs of well-formed parts (any number and length of parts), all bases below 2^32 minus the size, all symbol tables, all link tables that contain the symbols and any of the labels, both overflow-check settings and all map orders", "why_tests_cant": "it relates one call to arbitrarily many others with different symbol tables; tests can only try some programs and some ways to cut them", "anchors": ["src/lib.rs: Mipsasm::assemble, Mipsasm::base, Mipsasm::symbols", "src/assembler.rs: assemble", "src/parser.rs: Parser::parse, parse_target, adjust_labels"]}
{"id": "C76", "title": "What a run of the assembler does", "statement": "The program run in asm mode exits with status 0 exactly when the symbol file (if any) and the source can be read, the symbol file is YAML, the base address is valid, the source assembles with that base and those symbols, and the output file (if any) can be created and has room for four bytes a word. Then the output file holds the big-endian bytes of the words and nothing is printed; without an output file the words are printed, each as eight hexadecimal digits.", "quantifier": "all file systems, arguments, symbol files and sources", "why_tests_cant": "all contents of all files and every combination of failures", "anchors": ["src/bin/bin.rs: main"]}
{"id": "C77", "title": "What a run of the disassembler does", "statement": "The program run in disasm mode exits with status 0 exactly when the symbol file (if any) and the input can be read, the base address is valid, the input holds at least one word and nothing but whole words, these are disassembled, and the output file (if any) can be created and has room for the listing. Then the listing is written to the output file, without line ends, or printed line by line.", "quantifier": "all file systems, arguments, symbol files and inputs", "why_tests_cant": "all contents of all files and every combination of failures", "anchors": ["src/bin/bin.rs: main"]}
{"id": "C78", "title": "A run changes only its output file", "statement": "A run changes no file but its output file. If it fails, for whatever reason, the output file is as before, unless there was too little room for it: then it holds the beginning of what it would have held.", "quantifier": "all file systems, arguments and failures (crash points of the output)", "why_tests_cant": "every failure and every point at which writing stops", "anchors": ["src/bin/bin.rs: main"]}
{"id": "C79", "title": "Exit status and messages", "statement": "The exit status is 0, 1 or 101. Nothing is printed on standard output unless the status is 0 and there is no output file. A file that cannot be read gives status 1, and so does a bad base address, which the message names. A source with errors never changes a file: the status is 1 and standard error has the warnings and then the text of every error in order, or the status is 101 because one of the errors cannot be displayed.", "quantifier": "all file systems, arguments and sources", "why_tests_cant": "all sources and combinations of errors", "anchors": ["src/bin/bin.rs: main", "src/error.rs: ParserError"]}
{"id": "C80", "title": "Assembling to a file and disassembling the file", "statement": "After a successful run of the assembler with an output file that got at least one word, a run of the disassembler on that file succeeds exactly when its words can be disassembled with the second run's base address and symbols, and prints exactly the listing of those words.", "quantifier": "all sources, file systems, and pairs of base addresses and symbol files", "why_tests_cant": "all histories of two runs", "anchors": ["src/bin/bin.rs: main", "src/lib.rs: Mipsasm::disassemble"]}
{"id": "C81", "title": "Repeating and reordering runs", "statement": "Repeating a run that does not overwrite its own input gives the same report and the same files. Runs none of which reads or writes what another one writes can be made in any order: each reports what it would report alone, and the files at the end are the same.", "quantifier": "all file systems, lists of runs and orders of them", "why_tests_cant": "all histories and all schedules", "anchors": ["src/bin/bin.rs: main"]}
{"id": "C82", "title": "Assembling a listing: exactly when it works and what it gives", "statement": "The debug listing of a list of words, assembled at the same base address, is accepted exactly if every word is shown as an instruction (not as .word data), the 16-bit offset of every branch, taken as an address, is one of the program (from the base to its end) and below 0x7fff, and the code of every break/syscall is below 2^16; and then it gives exactly as many words, each the word its line stands for, except that the offset of a branch is recomputed from that address and the place of the branch, and bits 26 and 27 of a jump address are lost. Without branches and jumps the second listing is the first one again.", "quantifier": "every list of words, every base address with base + 4*length below 2^32, either setting of overflow checks, any map iteration order", "why_tests_cant": "there are 2^32 words per line, the limits depend on the length of the listing and the place of the branch, and one line decides about the whole listing", "anchors": ["src/disassembler.rs: disassemble", "src/assembler.rs: assemble", "src/parser.rs: parse_inst, parse_b, parse_j"]}
{"id": "C83", "title": "What the reports say, word for word", "statement": "Once its colour sequences are taken out, the text an error is displayed as is: a line `error: ` with a headline that names the kind of error and quotes the offending text; an empty row; the source line with its number; a row with the offending text's first occurrence underlined, followed by a note (the expected and found counts of operands, the two limits of a branch as eight hexadecimal digits, 'used here', ...); and an empty row. A label defined twice shows the first definition, then `...`, then the second. The three warnings likewise. The report is determined by the error, and whenever there is one it is displayed.", "quantifier": "every error and warning value, with any line numbers and any texts", "why_tests_cant": "line numbers, source lines and offending texts are unbounded, and the rows are laid out from their lengths and from where one occurs in the other", "anchors": ["src/error.rs: Display for ParserError, Display for ParserWarning, fmt_line"]}
{"id": "C84", "title": "Every warning can be displayed, in the order of the lines", "statement": "Whenever assembling ends with words or with errors, every warning it gave is about a line of the program and can be displayed (formatting it does not panic), as exactly the report of C83; and the warnings come in the order of their lines.", "quantifier": "all programs, settings, symbol tables, iteration orders, both build profiles", "why_tests_cant": "the underlined text must occur in the quoted line for every spelling of a branch target; the order must hold for programs of any length", "anchors": ["src/parser.rs: parse_inst (every eprintln! of a warning!)", "src/error.rs: warning!", "src/error.rs: Display for ParserWarning"]}
