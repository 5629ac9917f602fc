(** * SpecFatal: lines that make the assembler panic (C29; specification only). *)

From Verif Require Import Str SpecIsa SpecText SpecLabels SpecRegs SpecPanic.

(** Loads and stores of general registers, and shifts. *)
Definition transfers : list str := map fst (filter (fun x => match snd x with [TheReg; Memory] => true | _ => false end) shapes).
Definition shift_names : list str := map fst (filter (fun x => match snd x with [AReg; AReg; Amount] => true | _ => false end) shapes).

(** Mnemonics without operands, and with three registers (but for the divisions). *)
Definition bare_names : list str := map fst (filter (fun x => match snd x with [] => true | _ => false end) shapes).
Definition three_names : list str := map fst (filter (fun x => match snd x with [AReg; AReg; AReg] => negb (existsb (str_eqb (fst x)) [ #"div"; #"divu"; #"ddiv"; #"ddivu" ]) | _ => false end) shapes).

(** The floating-point operations with three registers, without their formats. *)
Definition three_stems : list str := [ #"add"; #"sub"; #"mul"; #"div" ].
Definition no_operation (m : str) : Prop := ~ In m (map fst shapes) /\ ~ In m float_names.
Definition no_blank (t : str) : Prop := forall c, In c t -> is_ws c = false.

(** The mnemonic in small letters and the operands of instructions that are fatal, with the symbols
    [syms]. *)
Inductive fatal_instruction (syms : list (Z * str)) : str -> list str -> Prop :=
(* a mnemonic of one letter, other than [b] and [j] *)
| fi_letter c ops : c <> "b"%char -> c <> "j"%char -> fatal_instruction syms [c] ops
(* a load or store of something that is no register *)
| fi_register m t x : In m transfers -> (forall n, ~ dollars gpr_reading t n) -> ~ (exists c, In c t /\ is_ws c = true) -> fatal_instruction syms m [t; x]
(* a load or store without parentheses *)
| fi_base m t x : In m transfers -> ~ In "("%char x -> fatal_instruction syms m [t; x]
(* a shift by a number beyond 32 bits, or by a register (with a [$]) *)
| fi_amount m a b t v : In m shift_names -> (exists d, gpr_text a d) -> (exists s, gpr_text b s) -> signed_numeral t v -> ~ - 2 ^ 31 <= v < 2 ^ 31 ->
    fatal_instruction syms m [a; b; t]
| fi_variable m a b t : In m shift_names -> (exists d, gpr_text a d) -> (exists s, gpr_text b s) -> fatal_instruction syms m [a; b; #"$" ++ t]
(* a cache operation above 31 *)
| fi_cache t v x : numeral t v -> 32 <= v < 2 ^ 16 -> fatal_instruction syms #"cache" [t; x]
(* white space other than a space after the mnemonic, up to a space, a comment or the end of the line *)
| fi_gap m w ops : In m bare_names -> blank w -> w <> [] -> fatal_instruction syms (m ++ w) ops
| fi_gap_three m w a b c : In m three_names -> blank w -> w <> [] -> (exists d, gpr_text a d) -> (exists s, gpr_text b s) -> (exists t, gpr_text c t) ->
    fatal_instruction syms (m ++ w) [a; b; c]
(* a mnemonic that begins like a floating-point operation and goes on with two characters that make it none,
   with its floating-point registers *)
| fi_float3 stem x y a b c : In stem three_stems -> is_ws x = false -> is_ws y = false -> no_operation (stem ++ [x; y]) ->
    (exists d, fpr_text a d) -> (exists s, fpr_text b s) -> (exists t, fpr_text c t) -> fatal_instruction syms (stem ++ [x; y]) [a; b; c]
| fi_float2 stem x y a b : In stem float_stems -> ~ In stem three_stems -> is_ws x = false -> is_ws y = false -> no_operation (stem ++ [x; y]) ->
    (exists d, fpr_text a d) -> (exists s, fpr_text b s) -> fatal_instruction syms (stem ++ [x; y]) [a; b]
(* a floating-point comparison of a format other than [s] and [d] *)
| fi_compare r x y a b : no_blank (r ++ [x; y]) -> y <> "s"%char -> y <> "d"%char ->
    (exists d, fpr_text a d) -> (exists s, fpr_text b s) -> fatal_instruction syms (#"c." ++ r ++ [x; y]) [a; b]
(* a jump to nowhere *)
| fi_nowhere m : In m [ #"j"; #"jal" ] -> (forall a, ~ In (a, []) syms) -> fatal_instruction syms m [[]].

(** A label without a name, or such an instruction. *)
Definition fatal_line (syms : list (Z * str)) (l : str) : Prop :=
  match role_of l with
  | Empty => False
  | Defines k => k = []
  | Instruction => fatal_instruction syms (to_lower (operation l)) (operands l)
  end.
