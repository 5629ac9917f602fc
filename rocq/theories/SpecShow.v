(** * SpecShow: what a displayed diagnostic looks like (C54), and what it needs (C35).

    The text of a diagnostic is coloured with three terminal sequences; [colored] relates a
    row as printed to the row as seen.  A diagnostic about a source line shows the line with
    its number, and under it the columns of the offending text. *)

From Verif Require Import Str Error SpecText.

(** [colored row seen]: [row] is [seen] with colour sequences inserted *)
Inductive colored : str -> str -> Prop :=
| colored_end : colored [] []
| colored_char c r s : colored r s -> colored (c :: r) (c :: s)
| colored_seq q r s : In q [esc :: #"[94m"; esc :: #"[91m"; esc :: #"[0m"] ->
    colored r s -> colored (q ++ r) s.

(** [u] occurs in [s] *)
Definition occurs (u s : str) : Prop := exists a b, s = a ++ u ++ b.

(** [n] is the column of the first occurrence of [u] in [s] *)
Definition first_at (u s : str) (n : nat) : Prop :=
  (exists a b, s = a ++ u ++ b /\ List.length a = n)
  /\ (forall a b, s = a ++ u ++ b -> (n <= List.length a)%nat).

(** What an error points at: a source line, the offending text, and the mark used. *)
Definition quotes (p : perror) : list (line * str * ascii) :=
  match p with
  | EMultipleLabelDefinition ln label first => [(first, label, "-"%char); (ln, label, "^"%char)]
  | EInvalidInstruction ln => [(ln, trim (l_content ln), "^"%char)]
  | EInvalidLabel ln u | EInvalidOperandCount ln _ _ u | EInvalidOpcode ln u
  | EInvalidRegister ln u | EInvalidTargetAddress ln u | EInvalidImmediate ln u
  | EInvalidFloatCond ln u | EBranchOutOfBounds ln u _ | ELocalLabelOutOfScope ln u
  | EUndefinedLabel ln u => [(ln, u, "^"%char)]
  end.

(** ... and a warning *)
Definition warning_quotes (w : pwarning) : list (line * str * ascii) :=
  match w with
  | WDelaySlot ln slot =>
      [(slot, trim (l_content slot), "^"%char); (ln, trim (l_content ln), "-"%char)]
  | WUnalignedBranch ln u | WUnalignedJump ln u => [(ln, u, "-"%char)]
  end.

(** Two consecutive rows of [t], each ended by a newline: the row of the source line, and
    under it [mark]s from the column where the offending text starts, one per character of
    it, and nothing else before them.  The gutters (line number, and blanks) have the same
    width, so the columns agree. *)
Definition underlined (t : str) (ln : line) (u : str) (mark : ascii) : Prop :=
  exists before after row1 row2 pad gutter start msg,
    t = before ++ row1 ++ [nl] ++ row2 ++ [nl] ++ after
    /\ (before = [] \/ exists b, before = b ++ [nl])
    /\ colored row1 (repeat " "%char pad ++ dec (Z.of_nat (l_num ln)) ++ #" | " ++ l_content ln)
    /\ colored row2 (gutter ++ #" | " ++ repeat " "%char start
                     ++ repeat mark (List.length u) ++ #" " ++ msg)
    /\ gutter = repeat " "%char (pad + List.length (dec (Z.of_nat (l_num ln))))
    /\ first_at u (l_content ln) start.

(** ** Which errors can be displayed (C35)

    Lines on which the code quotes an operand as it is written. *)

(** At most one parenthesis of each kind. *)
Definition tidy_parens (l : str) : Prop :=
  (count_occ ascii_dec (clean l) "("%char <= 1)%nat /\ (count_occ ascii_dec (clean l) ")"%char <= 1)%nat.

(** "0x" only at the start of an operand: what comes before it ends, up to blanks, in a
    comma, or is the mnemonic. *)
Definition operand_start (a : str) : Prop :=
  exists b w, blank w /\ (a = b ++ #"," ++ w \/ (a = b ++ w /\ w <> [] /\ forallb is_ws b = false
    /\ forallb (fun c => negb (is_ws c)) b = true)).
Definition tidy_hex (l : str) : Prop :=
  (forall a b, clean l = a ++ #"0x" ++ b -> operand_start a)
  /\ (forall r, clean l = #"." ++ r -> ~ In ","%char r).

(** The mnemonics whose register operands are all general registers. *)
Definition general_mnemonics : list str :=
  [#"addi"; #"addiu"; #"andi"; #"daddi"; #"daddiu"; #"ori"; #"slti"; #"sltiu"; #"xori"; #"dsubi"; #"dsubiu"; #"subi";
   #"subiu"; #"lui"; #"lli"; #"teqi"; #"tgei"; #"tgeiu"; #"tlti"; #"tltiu"; #"tnei"; #"bgez"; #"bgezal"; #"bgezall";
   #"bgezl"; #"bltz"; #"bltzal"; #"bltzall"; #"bltzl"; #"beqz"; #"bnez"; #"beqzl"; #"bnezl"; #"bgtz"; #"bgtzl"; #"blez";
   #"blezl"; #"beq"; #"beql"; #"bne"; #"bnel"; #"bge"; #"bgt"; #"ble"; #"blt"; #"bgeu"; #"bgtu"; #"bleu"; #"bltu"; #"bgel";
   #"bgtl"; #"blel"; #"bltl"; #"bgeul"; #"bgtul"; #"bleul"; #"bltul"; #"add"; #"addu"; #"and"; #"dadd"; #"daddu"; #"dsub";
   #"dsubu"; #"nor"; #"or"; #"slt"; #"sltu"; #"sub"; #"subu"; #"xor"; #"dmul"; #"dmulu"; #"dmulo"; #"dmulou"; #"drem";
   #"dremu"; #"drol"; #"dror"; #"mul"; #"mulu"; #"mulo"; #"mulou"; #"rem"; #"remu"; #"seq"; #"sge"; #"sgeu"; #"sgt";
   #"sgtu"; #"sle"; #"sleu"; #"sne"; #"dsll"; #"dsll32"; #"dsra"; #"dsra32"; #"dsrl"; #"dsrl32"; #"sll"; #"sra"; #"srl";
   #"dsllv"; #"dsrav"; #"dsrlv"; #"sllv"; #"srav"; #"srlv"; #"dmult"; #"dmultu"; #"mult"; #"multu"; #"teq"; #"tge";
   #"tgeu"; #"tlt"; #"tltu"; #"tne"; #"jalr"; #"abs"; #"dabs"; #"dmove"; #"dneg"; #"dnegu"; #"move"; #"neg"; #"negu";
   #"not"; #"li"; #"liu"; #"ddiv"; #"ddivu"; #"div"; #"divu"; #"jr"; #"mthi"; #"mtlo"; #"clear"; #"mfhi"; #"mflo"; #"dli"].
Definition general_line (l : str) : Prop :=
  exists op r, In (to_lower op) general_mnemonics /\ clean l = op ++ r
    /\ (r = [] \/ exists r', r = #" " ++ r').

(** A line without capitals, and a name that is not a numeral. *)
Definition no_capitals (l : str) : Prop := to_lower l = l.
Definition not_numeral (u : str) : Prop := exists c, In c u /\ is_digit c = false.

Definition quoted_as_written (p : perror) : Prop :=
  match p with
  | EMultipleLabelDefinition _ label first => occurs label (l_content first)
  | EBranchOutOfBounds l u _ => occurs u (l_content l)
  | EInvalidRegister l u =>
      general_line (l_content l) \/ (no_capitals (l_content l) /\ not_numeral u /\ tidy_parens (l_content l))
  | EInvalidImmediate l _ | EInvalidTargetAddress l _ => tidy_parens (l_content l) /\ tidy_hex (l_content l)
  | ELocalLabelOutOfScope l _ | EUndefinedLabel l _ => tidy_parens (l_content l)
  | EInvalidLabel _ _ | EInvalidInstruction _ | EInvalidOperandCount _ _ _ _ | EInvalidOpcode _ _
  | EInvalidFloatCond _ _ => True
  end.
