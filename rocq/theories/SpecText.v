(** * SpecText: how MIPS assembly source is written.

    A specification: the usual notation for numbers, registers, operands and lines.  It uses
    the text primitives of [Str] and the tables of [SpecIsa], and nothing of the model. *)

From Verif Require Import Str SpecIsa.

(** ** Numbers *)

(** A digit and its value. *)
Definition digit (radix : Z) (c : ascii) (d : Z) : Prop :=
  0 <= d < radix /\ (nth_error #"0123456789abcdef" (Z.to_nat d) = Some c
                     \/ nth_error #"0123456789ABCDEF" (Z.to_nat d) = Some c).

(** A non-empty digit string and its value. *)
Inductive digits (radix : Z) : str -> Z -> Prop :=
| digits_one c d : digit radix c d -> digits radix [c] d
| digits_snoc s v c d : digits radix s v -> digit radix c d -> digits radix (s ++ [c]) (v * radix + d).

(** A decimal number, or a hexadecimal one after [0x]. *)
Inductive numeral : str -> Z -> Prop :=
| num_dec s v : digits 10 s v -> numeral s v
| num_hex s v : digits 16 s v -> numeral (#"0x" ++ s) v.

(** A number with an optional minus sign. *)
Inductive signed_numeral : str -> Z -> Prop :=
| num_pos s v : numeral s v -> signed_numeral s v
| num_neg s v : numeral s v -> signed_numeral (#"-" ++ s) (- v).

(** ** Registers *)

(** The same text up to upper and lower case. *)
Definition same_letters (a b : str) : Prop := to_lower a = to_lower b.

(** The text of a register without its [$]. *)
Inductive gpr_token : str -> Z -> Prop :=
| gpr_named n s : 0 <= n < 32 -> same_letters s (nth_name gpr_names n) -> gpr_token s n
| gpr_r n : 0 <= n < 32 -> gpr_token (#"r" ++ dec n) n
| gpr_number n : 0 <= n < 32 -> gpr_token (dec n) n.

Inductive fpr_token : str -> Z -> Prop :=
| fpr_named n s : 0 <= n < 32 -> same_letters s (nth_name fpr_names n) -> fpr_token s n
| fpr_f n s : 0 <= n < 32 -> same_letters s (#"f" ++ dec n) -> fpr_token s n
| fpr_number n : 0 <= n < 32 -> fpr_token (dec n) n.

Inductive cop0_token : str -> Z -> Prop :=
| cop0_named n s t : num_assoc n cop0_names = Some t -> same_letters s t -> cop0_token s n
| cop0_number n t : num_assoc n cop0_names = Some t -> cop0_token (dec n) n.

(** With an optional [$]. *)
Definition dollar (token : str -> Z -> Prop) (s : str) (n : Z) : Prop :=
  token s n \/ exists s', s = #"$" ++ s' /\ token s' n.
Definition gpr_text := dollar gpr_token.
Definition fpr_text := dollar fpr_token.
Definition cop0_text := dollar cop0_token.

(** ** Operands *)

Definition blank (s : str) : Prop := forallb is_ws s = true.
(** [t] with optional white space around it. *)
Definition padded (t s : str) : Prop := exists a b, blank a /\ blank b /\ s = a ++ t ++ b.

(** The texts of an operand of each kind. *)
Inductive operand_spelling : okind -> operand -> str -> Prop :=
| sp_gpr p n s : gpr_text s n -> operand_spelling (Gpr p) (OReg n) s
| sp_fpr p n s : fpr_text s n -> operand_spelling (Fpr p) (OReg n) s
| sp_cop0 p n s : cop0_text s n -> operand_spelling (Cop0 p) (OReg n) s
| sp_uimm v s : numeral s v -> operand_spelling Uimm (OInt v) s
| sp_shamt v s : numeral s v -> operand_spelling Shamt (OInt v) s
| sp_code v s : numeral s v -> operand_spelling Code20 (OInt v) s
| sp_cacheop v s : numeral s v -> operand_spelling CacheOp (OInt v) s
| sp_target v s : numeral s v -> operand_spelling Target26 (OInt v) s
| sp_simm v s : signed_numeral s v -> operand_spelling Simm (OInt v) s
| sp_mem off b o r r' s : signed_numeral o off -> gpr_text r b -> padded r r' ->
    (exists w, blank w /\ s = o ++ w ++ #"(" ++ r' ++ #")") -> operand_spelling Mem (OMem off b) s.

(** ** Lines *)

(** The end of a line: white space, or a comment. *)
Inductive line_end : str -> Prop :=
| end_blank s : blank s -> line_end s
| end_semi s : line_end (#";" ++ s)
| end_slashes s : line_end (#"//" ++ s).

(** A line without content. *)
Definition blank_line (l : str) : Prop := exists a e, blank a /\ line_end e /\ l = a ++ e.

(** [mnemonic op1, op2, ...]: the mnemonic in any case, then (if there are operands) a
    space, and operands with optional white space around them, separated by commas. *)
Inductive statement (name : str) : list str -> str -> Prop :=
| st_plain m : same_letters m name -> statement name [] m
| st_ops m t ts x xs : same_letters m name -> Forall2 padded (t :: ts) (x :: xs) ->
    statement name (t :: ts) (m ++ #" " ++ join #"," (x :: xs)).

(** A source line that holds that statement: indentation before it, and after it white space
    or a comment (after a statement without operands, at most one space before a comment). *)
Definition instruction_line (name : str) (ops : list str) (l : str) : Prop :=
  exists a st gap e, blank a /\ statement name ops st /\ blank gap /\ line_end e
    /\ (ops = [] -> blank e \/ gap = [] \/ gap = #" ")
    /\ l = a ++ st ++ gap ++ e.

(** A source line that holds an instruction with given operand values. *)
Definition native_line (f : format) (os : list operand) (l : str) : Prop :=
  exists ts, instruction_line (f_name f) ts l
             /\ Forall2 (fun ko t => operand_spelling (fst ko) (snd ko) t) (combine (f_ops f) os) ts
             /\ List.length os = List.length (f_ops f).

(** A line that defines the label [name]. *)
Definition label_line (name : str) (l : str) : Prop :=
  exists a b, blank a /\ blank b /\ l = a ++ name ++ #":" ++ b.

(** ** The role of a line *)

(** Comments run from [;] or [//] to the end of the line. *)
Definition starts_comment (s : str) : bool :=
  match s with
  | ";"%char :: _ => true
  | "/"%char :: "/"%char :: _ => true
  | _ => false
  end.
Fixpoint before_comment (s : str) : str :=
  if starts_comment s then [] else match s with [] => [] | c :: r => c :: before_comment r end.

(** The code of a line: what is left without the white space around the line and without the
    comment (white space between the code and a comment stays). *)
Definition clean (l : str) : str := before_comment (trim l).

(** A line is empty, defines a label, or holds an instruction. *)
Inductive role := Empty | Defines (label : str) | Instruction.
Definition role_of (l : str) : role :=
  match clean l with
  | [] => Empty
  | c => if ends_with #":" c then Defines (firstn (List.length c - 1) c) else Instruction
  end.
Definition is_instruction (l : str) : bool :=
  match role_of l with Instruction => true | _ => false end.
Definition instruction_count (ls : list str) : nat := List.length (filter is_instruction ls).

(** Local labels start with [@@]. *)
Definition is_local (label : str) : bool := starts_with #"@@" label.

(** The global labels the lines [ls] define, with the number of instructions before each
    (counting from [k]). *)
Fixpoint label_table (k : nat) (ls : list str) : list (str * nat) :=
  match ls with
  | [] => []
  | l :: r =>
      match role_of l with
      | Empty => label_table k r
      | Instruction => label_table (S k) r
      | Defines n => if is_local n then label_table k r else (n, k) :: label_table k r
      end
  end.

(** The line numbers (the first line is 1) of the instructions of [ls], after [n] lines. *)
Fixpoint instruction_lines (n : nat) (ls : list str) : list nat :=
  match ls with
  | [] => []
  | l :: r => if is_instruction l then S n :: instruction_lines (S n) r else instruction_lines (S n) r
  end.

(** The operand values this assembler can express: those that fit the field, except break and
    syscall codes above 16 bits, jump addresses outside the first 64 MiB of a segment, and
    branch offsets (branches are written with labels or addresses). *)
Definition notation_fits (k : okind) (o : operand) : Prop :=
  fits k o /\ match k, o with
              | Code20, OInt v => v < 65536
              | Target26, OInt a => a mod 2 ^ 28 < 2 ^ 26
              | Branch16, _ => False
              | _, _ => True
              end.
(** [andi], [ori] and [xori] read an immediate above 0x7fff only when the mnemonic is written
    in lower case. *)
Definition case_condition (f : format) (os : list operand) (l : str) : Prop :=
  In (f_name f) [ #"andi"; #"ori"; #"xori" ] ->
  starts_with (f_name f) (trim l) = true \/ forall v, In (OInt v) os -> v < 32768.
