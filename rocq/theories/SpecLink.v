(** * SpecLink: parts of a program assembled apart, with symbols for each other's labels (C75;
    specification only). *)

From Verif Require Import Str SpecIsa SpecText SpecProgram SpecLabels SpecScopes SpecImm SpecAccept SpecModules.

(** The global labels of a program at [base] with their addresses: 4 for each instruction. *)
Definition label_addresses (base : Z) (all : list str) : list (Z * str) :=
  map (fun nk => (base + 4 * Z.of_nat (snd nk), fst nk)) (label_table 0 all).
(** A symbol table for a part: the symbols [syms], and labels of the whole program at their
    addresses. *)
Definition link_table (syms : list (Z * str)) (base : Z) (all : list str) (given : list (Z * str)) : Prop :=
  (forall x, In x syms -> In x given) /\ (forall x, In x given -> In x syms \/ In x (label_addresses base all)).

(** The line asks for one half of the address of [n]. *)
Definition asks_half (n l : str) : Prop :=
  exists f os t, operand_line f os t l /\ (t = #"%hi(" ++ n ++ #")" \/ t = #"%lo(" ++ n ++ #")" \/ exists b, based (#"%lo(" ++ n ++ #")") b t).

(** The parts of the program [all] at [base0], from the address [base] on: each is a well-formed
    program by itself, with the symbols of a link table, placed where the one before it ends.
    Labels of the program are named in jumps only, not in [%hi] and [%lo]. *)
Inductive linked (syms : list (Z * str)) (base0 : Z) (all : list str) : Z -> list (list str) -> list (list (Z * str)) -> list (list (list Z)) -> Prop :=
| linked_end base : linked syms base0 all base [] [] []
| linked_more base ls given wss rest tables more : headed ls -> branches_to_labels ls -> link_table syms base0 all given ->
    (forall n k l, In (n, k) (label_table 0 all) -> In l ls -> ~ asks_half n l) ->
    program base given ls [] ls wss -> linked syms base0 all (base + 4 * Z.of_nat (instruction_count ls)) rest tables more ->
    linked syms base0 all base (ls :: rest) (given :: tables) (wss :: more).
