(** * SpecProgram: programs, as a sequence of source lines.

    A specification, on top of [SpecIsa] and [SpecText]. *)

From Verif Require Import Str SpecIsa SpecText.

(** ** Straight-line programs *)

(** Label names: letters, digits, [_], [.], [$] and [@], not starting with a digit. *)
Definition label_char (c : ascii) : bool :=
  is_digit c || ((65 <=? code c) && (code c <=? 90)) || ((97 <=? code c) && (code c <=? 122))
  || Ascii.eqb c "_" || Ascii.eqb c "." || Ascii.eqb c "$" || Ascii.eqb c "@".
Definition identifier (n : str) : Prop :=
  match n with c :: _ => is_digit c = false | [] => False end /\ forallb label_char n = true.

(** A source line and the words it stands for: none for an empty line or a label, one for an
    instruction. *)
Inductive source_line : str -> list Z -> Prop :=
| sl_blank l : blank_line l -> source_line l []
| sl_label n l : identifier n -> label_line n l -> source_line l []
| sl_native f os l : In f (isa ++ idioms) -> native_line f os l -> Forall2 notation_fits (f_ops f) os ->
    case_condition f os l -> source_line l [word f os].

(** Symbol names do not start with a digit. *)
Definition named_symbols (syms : list (Z * str)) : Prop :=
  forall a n, In (a, n) syms -> match n with c :: _ => is_digit c = false | [] => True end.

(** Symbol addresses are 32-bit addresses. *)
Definition word_symbols (syms : list (Z * str)) : Prop := Forall (fun an => is_word (fst an)) syms.

(** No label of the program starts with a minus sign (a minus sign makes the label look like
    a number). *)
Definition no_minus_labels (ls : list str) : Prop :=
  forall n k, In (n, k) (label_table 0 ls) -> starts_with #"-" n = false.

(** No global label is defined twice. *)
Definition distinct_labels (ls : list str) : Prop := NoDup (map fst (label_table 0 ls)).

(** ** Words that can be written back *)

(** The instruction at address [base] is canonical and printed in a notation that the
    assembler reads. *)
Definition returns (base w : Z) : Prop :=
  canonical base w /\ ~ largest_immediate w
  /\ exists f, read_word w = Some f /\ Forall2 notation_fits (f_ops f) (map (extract base w) (f_ops f))
               /\ text f (map (extract base w) (f_ops f)) <> None.

(** ** Register operands *)

(** Two values of an operand that differ in one register, which is kept in the five bits at
    [p]. *)
Inductive register_change : okind -> operand -> operand -> Z -> Z -> Z -> Prop :=
| rc_gpr p n n' : register_change (Gpr p) (OReg n) (OReg n') p n n'
| rc_fpr p n n' : register_change (Fpr p) (OReg n) (OReg n') p n n'
| rc_cop0 p n n' : register_change (Cop0 p) (OReg n) (OReg n') p n n'
| rc_base off n n' : register_change Mem (OMem off n) (OMem off n') 21 n n'.

(** A non-empty text without white space, commas, colons and comment signs. *)
Definition token (x : str) : Prop :=
  x <> [] /\ forallb (fun c => negb (is_ws c) && negb (existsb (Ascii.eqb c) #",;:/")) x = true.

(** The general-register texts that are accepted: any number of [$], then a name in any case
    (or [R0]), or a decimal number, which may have [r]s and a [+] in front. *)
Inductive accepted_gpr : str -> Z -> Prop :=
| ag_dollar s n : accepted_gpr s n -> accepted_gpr (#"$" ++ s) n
| ag_named n s : 0 <= n < 32 -> same_letters s (nth_name gpr_names n) -> accepted_gpr s n
| ag_upper : accepted_gpr #"R0" 0
| ag_number rs plus ds n : 0 <= n < 32 -> forallb (Ascii.eqb "r") rs = true -> plus = [] \/ plus = #"+" ->
    digits 10 ds n -> accepted_gpr (rs ++ plus ++ ds) n.
