(** * SpecCause: what an error says is wrong with a line (C70; specification only). *)

From Verif Require Import Str Lib SpecErrors SpecIsa SpecText SpecProgram SpecPanic.

(** The mnemonic of the line in lower case, and the text after it. *)
Definition lower_operation (l : str) : str := to_lower (operation l).
Definition operand_text_of (l : str) : str := match split_once " " (clean l) with Some (_, r) => r | None => [] end.
Definition clean_mnemonic (l : str) : Prop := forall c, In c (lower_operation l) -> is_ws c = false.

(** The numbers of operands a mnemonic takes: those of [shapes], and those of the
    floating-point operations. *)
Definition three_floats : list str := [#"add.s"; #"add.d"; #"sub.s"; #"sub.d"; #"mul.s"; #"mul.d"; #"div.s"; #"div.d"].
Inductive takes (m : str) : nat -> Prop :=
| takes_shape ks : In (m, ks) shapes -> takes m (List.length ks)
| takes_three : In m three_floats -> takes m 3
| takes_two : In m float_names -> ~ In m three_floats -> takes m 2
| takes_compare cond f : m = #"c." ++ cond ++ #"." ++ [f] -> takes m 2.

(** A mnemonic that is none, and does not look like one of a floating-point operation: those
    without the last two characters, or comparisons. *)
Definition unknown (m : str) : Prop :=
  (2 <= List.length m)%nat /\ ~ In m (map fst shapes) /\ m <> #".word"
  /\ (forall stem a b, m = stem ++ [a; b] -> ~ In stem float_stems /\ forall r, stem <> #"c." ++ r).

(** The mnemonics without operands. *)
Definition no_operands : list str := [#"nop"; #"sync"; #"eret"; #"tlbp"; #"tlbr"; #"tlbwi"; #"tlbwr"].

(** A text that is no general register (and does not look like [r] with a number). *)
Definition no_register (t : str) : Prop :=
  (forall n, ~ accepted_gpr t n) /\ (forall a c b, t = a ++ #"r" ++ [c] ++ b -> is_digit c = false).

(** In every program with the line [l], it has the error [p] (given the line with its number),
    unless another line makes the assembler panic. *)
Definition causes (rt : runtime) (m : mipsasm) (l : str) (p : line -> perror) : Prop :=
  forall input l1 l2, lines input = l1 ++ l :: l2 ->
    match assemble rt m input with
    | Ok _ => False
    | Err es => In (p (mk_line (S (List.length l1)) l)) es
    | Panic _ => True
    end.
