(** * SpecReading: how an instruction with given operands reads after encoding (C62;
    specification only). *)

From Verif Require Import Str SpecIsa.

(** The long forms of jalr, syscall and break with the default operand. *)
Definition long_jalr := special 9 "jalr" [Rd; Rs].
Definition short_jalr := mk_format #"jalr" [op6 0; funct6 9; rd5 31] [Rs].
Definition long_syscall := special 12 "syscall" [Code20].
Definition short_syscall := mk_format #"syscall" [op6 0; funct6 12; (6, 20, 0)] [].
Definition long_break := special 13 "break" [Code20].
Definition short_break := mk_format #"break" [op6 0; funct6 13; (6, 20, 0)] [].
Definition has_short_form (f : format) (os : list operand) : Prop :=
  (f = long_jalr /\ exists s, os = [OReg 31; OReg s]) \/ (f = long_syscall /\ os = [OInt 0]) \/ (f = long_break /\ os = [OInt 0]).

(** What the idioms abbreviate: the instruction and its operands. *)
Definition idiom_meanings : list (str * format * (list operand -> list operand)) :=
  let z := OReg 0 in
  let two (g : operand -> operand -> list operand) os := match os with [a; b] => g a b | _ => os end in
  let three (g : operand -> operand -> operand -> list operand) os := match os with [a; b; c] => g a b c | _ => os end in
  let one (g : operand -> list operand) os := match os with [a] => g a | _ => os end in
  [ (#"nop", special 0 "sll" [Rd; Rt; Shamt], fun _ => [z; z; OInt 0]);
    (#"move", special 33 "addu" [Rd; Rs; Rt], two (fun d s => [d; z; s]));
    (#"dmove", special 45 "daddu" [Rd; Rs; Rt], two (fun d s => [d; s; z]));
    (#"clear", special 33 "addu" [Rd; Rs; Rt], one (fun d => [d; z; z]));
    (#"neg", special 34 "sub" [Rd; Rs; Rt], two (fun d s => [d; z; s]));
    (#"negu", special 35 "subu" [Rd; Rs; Rt], two (fun d s => [d; z; s]));
    (#"dneg", special 46 "dsub" [Rd; Rs; Rt], two (fun d s => [d; z; s]));
    (#"dnegu", special 47 "dsubu" [Rd; Rs; Rt], two (fun d s => [d; z; s]));
    (#"not", special 39 "nor" [Rd; Rs; Rt], two (fun d s => [d; s; z]));
    (#"sgt", special 42 "slt" [Rd; Rs; Rt], three (fun d s t => [d; t; s]));
    (#"sgtu", special 43 "sltu" [Rd; Rs; Rt], three (fun d s t => [d; t; s]));
    (#"lli", normal 13 "ori" [Rt; Rs; Uimm], two (fun d n => [d; z; n]));
    (#"b", normal 4 "beq" [Rs; Rt; Branch16], one (fun n => [z; z; n]));
    (#"bal", regimm 17 "bgezal" [Rs; Branch16], one (fun n => [z; n]));
    (#"beqz", normal 4 "beq" [Rs; Rt; Branch16], two (fun s n => [s; z; n]));
    (#"bnez", normal 5 "bne" [Rs; Rt; Branch16], two (fun s n => [s; z; n]));
    (#"beqzl", normal 20 "beql" [Rs; Rt; Branch16], two (fun s n => [s; z; n]));
    (#"bnezl", normal 21 "bnel" [Rs; Rt; Branch16], two (fun s n => [s; z; n])) ].

(** The instruction that a reader of the word sees: itself, its short form, or what it
    abbreviates. *)
Inductive reads_as : format -> list operand -> format -> list operand -> Prop :=
| ra_self f os : In f isa -> ~ has_short_form f os -> reads_as f os f os
| ra_jalr s : reads_as long_jalr [OReg 31; OReg s] short_jalr [OReg s]
| ra_syscall : reads_as long_syscall [OInt 0] short_syscall []
| ra_break : reads_as long_break [OInt 0] short_break []
| ra_idiom f os f' g : In f idioms -> In (f_name f, f', g) idiom_meanings -> reads_as f os f' (g os).

(** Jump targets in the segment of [pc]. *)
Definition in_segment (pc : Z) (k : okind) (o : operand) : Prop :=
  match k, o with Target26, OInt a => a / 2 ^ 28 = pc / 2 ^ 28 | _, _ => True end.

(** A signed operand other than 0x7fff. *)
Definition not_largest (k : okind) (o : operand) : Prop :=
  match k, o with Simm, OInt v | Branch16, OInt v | Mem, OMem v _ => v <> 32767 | _, _ => True end.
