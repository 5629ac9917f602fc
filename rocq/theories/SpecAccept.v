(** * SpecAccept: programs that have to be accepted, and their words (C60, C61; specification
    only). *)

From Verif Require Import Str SpecIsa SpecText SpecProgram SpecLabels SpecScopes SpecImm.

(** ** Pseudo-instructions *)

(** The word of the instruction [name] of the processor. *)
Definition ins (name : string) (os : list operand) : Z :=
  match find (fun f => str_eqb (f_name f) (lit name)) isa with Some f => word f os | None => 0 end.
Definition regs (rs : list Z) : list operand := map OReg rs.
Definition reg_imm (rs : list Z) (v : Z) : list operand := map OReg rs ++ [OInt v].
(** A trap on two registers with a code in bits 6 to 15. *)
Definition trap (name : string) (a b code : Z) : Z := ins name (regs [a; b]) + code * 64.
Definition AT := 1.

(** [op rd, rs, rt] *)
Definition expansions3 : list (str * (Z -> Z -> Z -> list Z)) :=
  [ (#"seq", fun d s t => [ins "xor" (regs [d; s; t]); ins "sltiu" (reg_imm [d; d] 1)]);
    (#"sne", fun d s t => [ins "xor" (regs [d; s; t]); ins "sltu" (regs [d; 0; d])]);
    (#"sge", fun d s t => [ins "slt" (regs [d; s; t]); ins "xori" (reg_imm [d; d] 1)]);
    (#"sgeu", fun d s t => [ins "sltu" (regs [d; s; t]); ins "xori" (reg_imm [d; d] 1)]);
    (#"sle", fun d s t => [ins "slt" (regs [d; t; s]); ins "xori" (reg_imm [d; d] 1)]);
    (#"sleu", fun d s t => [ins "sltu" (regs [d; t; s]); ins "xori" (reg_imm [d; d] 1)]);
    (#"mul", fun d s t => [ins "mult" (regs [s; t]); ins "mflo" (regs [d])]);
    (#"mulu", fun d s t => [ins "multu" (regs [s; t]); ins "mflo" (regs [d])]);
    (#"dmul", fun d s t => [ins "dmult" (regs [s; t]); ins "mflo" (regs [d])]);
    (#"dmulu", fun d s t => [ins "dmultu" (regs [s; t]); ins "mflo" (regs [d])]);
    (#"mulo", fun d s t => [ins "mult" (regs [s; t]); ins "mflo" (regs [d]); ins "sra" (reg_imm [d; d] 31);
                            ins "mfhi" (regs [AT]); trap "tne" d AT 6; ins "mflo" (regs [d])]);
    (#"mulou", fun d s t => [ins "multu" (regs [s; t]); ins "mfhi" (regs [AT]); ins "mflo" (regs [d]); trap "tne" AT 0 6]);
    (#"dmulo", fun d s t => [ins "dmult" (regs [s; t]); ins "mflo" (regs [d]); ins "dsra32" (reg_imm [d; d] 31);
                             ins "mfhi" (regs [AT]); trap "tne" d AT 6; ins "mflo" (regs [d])]);
    (#"dmulou", fun d s t => [ins "dmultu" (regs [s; t]); ins "mfhi" (regs [AT]); ins "mflo" (regs [d]); trap "tne" AT 0 6]);
    (#"remu", fun d s t => [trap "teq" t 0 7; ins "divu" (regs [s; t]); ins "mfhi" (regs [d])]);
    (#"dremu", fun d s t => [trap "teq" t 0 7; ins "ddivu" (regs [s; t]); ins "mfhi" (regs [d])]);
    (#"rem", fun d s t => [trap "teq" t 0 7; ins "div" (regs [s; t]); ins "lui" (reg_imm [AT] 0xffff); ins "ori" (reg_imm [AT; AT] 0xffff);
                           ins "bne" (reg_imm [t; AT] 3); ins "lui" (reg_imm [AT] 0x8000); trap "teq" s AT 6; ins "mfhi" (regs [d])]);
    (#"drem", fun d s t => [trap "teq" t 0 7; ins "ddiv" (regs [s; t]); ins "daddiu" (reg_imm [AT; 0] (-1)); ins "bne" (reg_imm [t; AT] 4);
                            ins "daddiu" (reg_imm [AT; 0] 1); ins "dsll32" (reg_imm [AT; AT] 31); trap "teq" s AT 6; ins "mfhi" (regs [d])]);
    (#"drol", fun d s t => [ins "dsubu" (regs [AT; 0; t]); ins "dsrlv" (regs [AT; s; AT]); ins "dsllv" (regs [d; s; t]); ins "or" (regs [d; d; AT])]);
    (#"dror", fun d s t => [ins "dsubu" (regs [AT; 0; t]); ins "dsllv" (regs [AT; s; AT]); ins "dsrlv" (regs [d; s; t]); ins "or" (regs [d; d; AT])]) ].
(** [op rd, rs, rt] with a divisor other than $zero. *)
Definition division_expansions : list (str * (Z -> Z -> Z -> list Z)) :=
  [ (#"divu", fun d s t => [trap "teq" t 0 7; ins "divu" (regs [s; t]); ins "mflo" (regs [d])]);
    (#"ddivu", fun d s t => [trap "teq" t 0 7; ins "ddivu" (regs [s; t]); ins "mflo" (regs [d])]);
    (#"div", fun d s t => [trap "teq" t 0 7; ins "div" (regs [s; t]); ins "lui" (reg_imm [AT] 0xffff); ins "ori" (reg_imm [AT; AT] 0xffff);
                           ins "bne" (reg_imm [t; AT] 3); ins "lui" (reg_imm [AT] 0x8000); trap "teq" s AT 6; ins "mflo" (regs [d])]);
    (#"ddiv", fun d s t => [trap "teq" t 0 7; ins "ddiv" (regs [s; t]); ins "daddiu" (reg_imm [AT; 0] (-1)); ins "bne" (reg_imm [t; AT] 4);
                            ins "daddiu" (reg_imm [AT; 0] 1); ins "dsll32" (reg_imm [AT; AT] 31); trap "teq" s AT 6; ins "mflo" (regs [d])]) ].
(** [op rd, rs] *)
Definition expansions2 : list (str * (Z -> Z -> list Z)) :=
  [ (#"abs", fun d s => [ins "sra" (reg_imm [AT; s] 31); ins "xor" (regs [d; s; AT]); ins "subu" (regs [d; d; AT])]);
    (#"dabs", fun d s => [ins "dsra" (reg_imm [AT; s] 31); ins "xor" (regs [d; s; AT]); ins "dsub" (regs [d; d; AT])]) ].
(** [op rt, rs, n] *)
Definition immediate_expansions : list (str * (Z -> Z -> Z -> list Z)) :=
  [ (#"subi", fun t s n => [ins "addi" (reg_imm [t; s] (- n))]); (#"subiu", fun t s n => [ins "addiu" (reg_imm [t; s] (- n))]);
    (#"dsubi", fun t s n => [ins "daddi" (reg_imm [t; s] (- n))]); (#"dsubiu", fun t s n => [ins "daddiu" (reg_imm [t; s] (- n))]) ].
(** [liu rd, c]: one instruction when one half of [c] is zero, otherwise lui and ori. *)
Definition liu_expansion (d c : Z) : list Z :=
  if c <? 2 ^ 16 then [ins "ori" (reg_imm [d; 0] c)]
  else if c mod 2 ^ 16 =? 0 then [ins "lui" (reg_imm [d] (c / 2 ^ 16))]
  else [ins "lui" (reg_imm [d] (c / 2 ^ 16)); ins "ori" (reg_imm [d; d] (c mod 2 ^ 16))].
(** [li rd, c]: the same, but lui and addiu for the constants from 0xFFFF8000. *)
Definition li_expansion (d c : Z) : list Z :=
  if 0xFFFF8000 <=? c then [ins "lui" (reg_imm [d] (c / 2 ^ 16)); ins "addiu" (reg_imm [d; d] (c mod 2 ^ 16))] else liu_expansion d c.
(** [dli rd, c]: the four halves of the 64-bit number [c]. *)
Definition dli_expansion (d c : Z) : list Z :=
  let h k := c / 2 ^ k mod 2 ^ 16 in
  [ins "lui" (reg_imm [d] (h 48)); ins "ori" (reg_imm [d; d] (h 32)); ins "dsll" (reg_imm [d; d] 16);
   ins "ori" (reg_imm [d; d] (h 16)); ins "dsll" (reg_imm [d; d] 16); ins "ori" (reg_imm [d; d] (h 0))].

(** A line with a pseudo-instruction, and its words. *)
Inductive expansion_line : str -> list Z -> Prop :=
| ex_three name g td ts tt d s t l : In (name, g) expansions3 -> gpr_text td d -> gpr_text ts s -> gpr_text tt t ->
    instruction_line name [td; ts; tt] l -> expansion_line l (g d s t)
| ex_divide name g td ts tt d s t l : In (name, g) division_expansions -> gpr_text td d -> gpr_text ts s -> gpr_text tt t -> t <> 0 ->
    instruction_line name [td; ts; tt] l -> expansion_line l (g d s t)
| ex_two name g td ts d s l : In (name, g) expansions2 -> gpr_text td d -> gpr_text ts s ->
    instruction_line name [td; ts] l -> expansion_line l (g d s)
| ex_immediate name g tt ts tn t s n l : In (name, g) immediate_expansions -> gpr_text tt t -> gpr_text ts s -> signed_numeral tn n -> -32768 <= n < 32768 ->
    instruction_line name [tt; ts; tn] l -> expansion_line l (g t s n)
| ex_liu td tc d c l : gpr_text td d -> numeral tc c -> c < 2 ^ 32 -> instruction_line #"liu" [td; tc] l -> expansion_line l (liu_expansion d c)
| ex_li td tc d c l : gpr_text td d -> numeral tc c -> c < 2 ^ 32 -> instruction_line #"li" [td; tc] l -> expansion_line l (li_expansion d c)
| ex_dli td tc d c l : gpr_text td d -> signed_numeral tc c -> - 2 ^ 63 <= c < 2 ^ 63 -> instruction_line #"dli" [td; tc] l ->
    expansion_line l (dli_expansion d c).

(** [op rs, rt, label]: a comparison into $at and a branch on it, with the offset [n]. *)
Definition compare_expansions : list (str * (Z -> Z -> Z -> list Z)) :=
  [ (#"bge", fun s t n => [ins "slt" (regs [AT; s; t]); ins "beq" (reg_imm [AT; 0] n)]);
    (#"bgeu", fun s t n => [ins "sltu" (regs [AT; s; t]); ins "beq" (reg_imm [AT; 0] n)]);
    (#"bgel", fun s t n => [ins "slt" (regs [AT; s; t]); ins "beql" (reg_imm [AT; 0] n)]);
    (#"bgeul", fun s t n => [ins "sltu" (regs [AT; s; t]); ins "beql" (reg_imm [AT; 0] n)]);
    (#"bgt", fun s t n => [ins "slt" (regs [AT; t; s]); ins "bne" (reg_imm [AT; 0] n)]);
    (#"bgtu", fun s t n => [ins "sltu" (regs [AT; t; s]); ins "bne" (reg_imm [AT; 0] n)]);
    (#"bgtl", fun s t n => [ins "slt" (regs [AT; t; s]); ins "bnel" (reg_imm [AT; 0] n)]);
    (#"bgtul", fun s t n => [ins "sltu" (regs [AT; t; s]); ins "bnel" (reg_imm [AT; 0] n)]);
    (#"ble", fun s t n => [ins "slt" (regs [AT; t; s]); ins "beq" (reg_imm [AT; 0] n)]);
    (#"bleu", fun s t n => [ins "sltu" (regs [AT; t; s]); ins "beq" (reg_imm [AT; 0] n)]);
    (#"blel", fun s t n => [ins "slt" (regs [AT; t; s]); ins "beql" (reg_imm [AT; 0] n)]);
    (#"bleul", fun s t n => [ins "sltu" (regs [AT; t; s]); ins "beql" (reg_imm [AT; 0] n)]);
    (#"blt", fun s t n => [ins "slt" (regs [AT; s; t]); ins "bne" (reg_imm [AT; 0] n)]);
    (#"bltu", fun s t n => [ins "sltu" (regs [AT; s; t]); ins "bne" (reg_imm [AT; 0] n)]);
    (#"bltl", fun s t n => [ins "slt" (regs [AT; s; t]); ins "bnel" (reg_imm [AT; 0] n)]);
    (#"bltul", fun s t n => [ins "sltu" (regs [AT; s; t]); ins "bnel" (reg_imm [AT; 0] n)]) ].

(** ** Programs *)

(** The opcode of a jump. *)
Definition jump_opcode (name : str) : Z := if str_eqb name #"j" then 2 else 3.
(** The jump to address [a]; the assembler keeps bits 2 to 25 of the address. *)
Definition jump_word (name : str) (a : Z) : Z := jump_opcode name * 2 ^ 26 + a mod 2 ^ 26 / 4.

(** The branch on line [l] (after [before]) means the local label [n] defined after the lines
    [d1]: the definition is in the scope of the branch, and no other one is. *)
Definition local_target (all before : list str) (l : str) (n : str) (d1 : list str) : Prop :=
  exists after d d2, all = before ++ l :: after /\ all = d1 ++ d :: d2 /\ role_of d = Defines n /\ same_scope before l after d1 d d2
    /\ forall e1 e e2, all = e1 ++ e :: e2 -> role_of e = Defines n -> same_scope before l after e1 e e2 -> e1 = d1.
(** Where the assembler resolves local labels: some local label of the program comes before a
    global label; the branch is not the first instruction after a global label; and the name
    is not also defined before all global labels (unless the branch is there, too). *)
Definition local_resolved (all before : list str) (n : str) : Prop :=
  (exists a l g b k, all = a ++ l :: b /\ role_of l = Defines k /\ is_local k = true /\ In g b /\ global_label g = true)
  /\ (no_global before \/ exists a b, before = a ++ b /\ no_global b /\ (0 < instruction_count b)%nat)
  /\ (forall d1 d d2, all = d1 ++ d :: d2 -> role_of d = Defines n -> no_global d1 -> no_global before).

(** The words of the instruction lines. *)
Definition code_words (ls : list str) (wss : list (list Z)) : list (list Z) := map snd (filter (fun x => is_instruction (fst x)) (combine ls wss)).

Section Programs.
Variables (base : Z) (syms : list (Z * str)).
(** All lines of the program. *)
Variable all : list str.

(** A line and its words, when the lines [before] come before it. *)
Inductive program_line (before : list str) : str -> list Z -> Prop :=
(* nothing, or the definition of a label *)
| pl_blank l : blank_line l -> program_line before l []
| pl_label n l : identifier n -> label_line n l -> program_line before l []
(* an instruction with numbers and registers *)
| pl_native f os l : In f (isa ++ idioms) -> native_line f os l -> Forall2 notation_fits (f_ops f) os -> case_condition f os l ->
    program_line before l [word f os]
| pl_pseudo l ws : expansion_line l ws -> program_line before l ws
(* a branch to an earlier global label: distances are counted in instructions *)
| pl_branch f os n k l : In f (isa ++ idioms) -> branch_line f os n l -> identifier n -> In (n, k) (label_table 0 before) ->
    program_line before l [word f (os ++ [OInt (Z.of_nat k - (Z.of_nat (instruction_count before) + 1))])]
| pl_compare name g ts tt s t n k l : In (name, g) compare_expansions -> gpr_text ts s -> gpr_text tt t -> instruction_line name [ts; tt; n] l ->
    identifier n -> In (n, k) (label_table 0 before) -> Z.of_nat (instruction_count before) - Z.of_nat k < 65535 ->
    program_line before l (g s t (Z.of_nat k - (Z.of_nat (instruction_count before) + 2)))
(* a branch to a local label *)
| pl_local f os n d1 l : In f (isa ++ idioms) -> branch_line f os n l -> identifier n -> is_local n = true ->
    local_target all before l n d1 -> local_resolved all before n ->
    program_line before l [word f (os ++ [OInt (Z.of_nat (instruction_count d1) - (Z.of_nat (instruction_count before) + 1))])]
(* a comparing branch to a local label that is not the next place *)
| pl_compare_local name g ts tt s t n d1 l : In (name, g) compare_expansions -> gpr_text ts s -> gpr_text tt t -> instruction_line name [ts; tt; n] l ->
    identifier n -> is_local n = true -> local_target all before l n d1 -> local_resolved all before n ->
    (Z.of_nat (instruction_count d1) - (Z.of_nat (instruction_count before) + 1)) mod 2 ^ 16 <> 0 ->
    program_line before l (g s t (Z.of_nat (instruction_count d1) - (Z.of_nat (instruction_count before) + 2)))
(* a branch to a number inside the program: the field is the number less the position of the
   branch (counted in instructions, plus one), divided by 4 *)
| pl_branch_number f os t a l : In f (isa ++ idioms) -> branch_line f os t l -> numeral t a -> a < 2 ^ 32 ->
    0 <= base <= a -> a <= base + 4 * Z.of_nat (instruction_count all) -> base + 4 * Z.of_nat (instruction_count all) < 2 ^ 32 ->
    program_line before l [word f (os ++ [OInt (Z.quot (a - (Z.of_nat (instruction_count before) + 1)) 4)])]
(* a jump to a global label of the program, before or after the jump *)
| pl_jump name n k l : jump_line name n l -> identifier n -> (forall a, ~ In (a, n) syms) -> In (n, k) (label_table 0 all) ->
    program_line before l [jump_word name (base + 4 * Z.of_nat k)]
(* a jump to a symbol or a number *)
| pl_jump_address name t a l : jump_line name t l -> plain_name t -> names_address syms t a -> 0 <= a < 2 ^ 32 ->
    program_line before l [jump_word name a]
(* the halves of an address, as an immediate and as the offset of a load or store *)
| pl_hi f os t a l : In f (isa ++ idioms) -> takes_immediate f -> operand_line f os (#"%hi(" ++ t ++ #")") l -> plain_name t -> names_address syms t a ->
    0 <= a < 0xFFFF8000 -> program_line before l [word f (os ++ [OInt ((a + 0x8000) / 2 ^ 16)])]
| pl_lo f os t a l : In f (isa ++ idioms) -> takes_immediate f -> operand_line f os (#"%lo(" ++ t ++ #")") l -> plain_name t -> names_address syms t a ->
    0 <= a < 2 ^ 32 -> program_line before l [word f (os ++ [OInt (a mod 2 ^ 16)])]
| pl_lo_memory f os t b n a l : In f (isa ++ idioms) -> takes_memory f -> ~ float_memory f -> operand_line f os t l -> based (#"%lo(" ++ n ++ #")") b t ->
    plain_name n -> names_address syms n a -> 0 <= a < 2 ^ 32 -> program_line before l [word f (os ++ [OMem (signed16 (a mod 2 ^ 16)) b])].

(** The lines [ls] and their words, after the lines [before]. *)
Inductive program (before : list str) : list str -> list (list Z) -> Prop :=
| pr_end : program before [] []
| pr_line l ws ls wss : program_line before l ws -> program (before ++ [l]) ls wss -> program before (l :: ls) (ws :: wss).
End Programs.
