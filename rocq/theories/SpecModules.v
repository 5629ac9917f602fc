(** * SpecModules: programs made of parts (C73; specification only). *)

From Verif Require Import Str SpecIsa SpecText SpecProgram SpecLabels SpecScopes SpecAccept.

(** The part begins with a global label. *)
Definition headed (ls : list str) : Prop := exists g r, ls = g :: r /\ global_label g = true.
(** Its branches name labels, not numbers. *)
Definition branches_to_labels (ls : list str) : Prop := forall l f os t a, In l ls -> In f (isa ++ idioms) -> branch_line f os t l -> ~ numeral t a.

(** Parts one after the other: each is a well-formed program by itself, placed where the one
    before it ends (an address counts 4 for each instruction in front of it). *)
Inductive parts (syms : list (Z * str)) : Z -> list (list str) -> list (list (list Z)) -> Prop :=
| parts_end base : parts syms base [] []
| parts_more base ls rest wss more : headed ls -> branches_to_labels ls -> program base syms ls [] ls wss ->
    parts syms (base + 4 * Z.of_nat (instruction_count ls)) rest more -> parts syms base (ls :: rest) (wss :: more).
