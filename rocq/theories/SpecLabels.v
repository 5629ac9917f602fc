(** * SpecLabels: branches, jumps and labels in source programs (specification only). *)

From Verif Require Import Str SpecIsa SpecText SpecProgram.

(** A line with the branch [f]: registers [os], and then [target], the text of the last
    operand. *)
Definition branch_line (f : format) (os : list operand) (target l : str) : Prop :=
  exists ks ts, f_ops f = ks ++ [Branch16] /\ List.length os = List.length ks
    /\ Forall2 (fun ko t => operand_spelling (fst ko) (snd ko) t) (combine ks os) ts
    /\ instruction_line (f_name f) (ts ++ [target]) l.

(** A line with a jump to [target]. *)
Definition jump_line (name target l : str) : Prop :=
  In name [ #"j"; #"jal" ] /\ instruction_line name [target] l.

(** The address of instruction [i] when the instructions have the words [wss] and the first
    word is at [base]. *)
Definition address (base : Z) (wss : list (list Z)) (i : nat) : Z :=
  base + 4 * Z.of_nat (List.length (List.concat (firstn i wss))).

(** Where the branch [w] at address [pc] goes when it is taken: the sign-extended 16-bit
    field counts words from the delay slot. *)
Definition branch_target (pc w : Z) : Z := pc + 4 + 4 * signed16 (field w 0 16).
(** Where the jump [w] at address [pc] goes: the 26-bit field replaces bits 2 to 27 of the
    address of the delay slot. *)
Definition jump_target (pc w : Z) : Z := (pc + 4) / 2 ^ 28 * 2 ^ 28 + field w 0 26 * 4.

(** Only one-word instructions in [wss] from the [i]th up to (not including) the [j]th. *)
Definition one_word_each (wss : list (list Z)) (i j : nat) : Prop :=
  forall k ws, (i <= k < j)%nat -> nth_error wss k = Some ws -> List.length ws = 1%nat.

(** The text [t] names the address [a]: a symbol (with only one address), or a number that is
    not the name of a symbol. *)
Inductive names_address (syms : list (Z * str)) (t : str) (a : Z) : Prop :=
| na_symbol : In (a, t) syms -> (forall b, In (b, t) syms -> b = a) -> names_address syms t a
| na_number : numeral t a -> (forall b, ~ In (b, t) syms) -> names_address syms t a.

(** A text without white space, commas, comment signs, colons and parentheses. *)
Definition plain_name (t : str) : Prop :=
  t <> [] /\ forallb (fun c => negb (is_ws c) && negb (existsb (Ascii.eqb c) #",;:/()")) t = true.

(** All global labels of the lines are identifiers. *)
Definition identifier_labels (ls : list str) : Prop := forall n k, In (n, k) (label_table 0 ls) -> identifier n.
