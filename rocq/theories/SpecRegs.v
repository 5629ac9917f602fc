(** * SpecRegs: exactly the texts that are read as registers (C43; specification only). *)

From Verif Require Import Str SpecIsa SpecText.

(** A number without a minus sign, in decimal or hexadecimal digits. *)
Definition unsigned (radix : Z) (s : str) (n : Z) : Prop :=
  exists plus ds, s = plus ++ ds /\ (plus = [] \/ plus = #"+") /\ digits radix ds n.
(** In hexadecimal digits, and not in decimal ones. *)
Definition hexadecimal (s : str) (n : Z) : Prop := unsigned 16 s n /\ forall v, ~ unsigned 10 s v.

(** General registers: a name in any case (or [R0]), a number, or any number of small [r]s with
    digits after them. *)
Inductive gpr_reading : str -> Z -> Prop :=
| gr_named n s : 0 <= n < 32 -> same_letters s (nth_name gpr_names n) -> gpr_reading s n
| gr_upper : gpr_reading #"R0" 0
| gr_number s n : 0 <= n < 32 -> unsigned 10 s n -> gpr_reading s n
| gr_r rs ds n : 0 <= n < 32 -> forallb (Ascii.eqb "r") rs = true -> digits 10 ds n -> gpr_reading (rs ++ ds) n.

(** Floating-point registers: a name in any case, [f] and a number in any case, a number, or a
    hexadecimal number. *)
Inductive fpr_reading : str -> Z -> Prop :=
| fr_named n s : 0 <= n < 32 -> same_letters s (nth_name fpr_names n) -> fpr_reading s n
| fr_f n s : 0 <= n < 32 -> same_letters s (#"f" ++ dec n) -> fpr_reading s n
| fr_number s n : 0 <= n < 32 -> unsigned 10 s n -> fpr_reading s n
| fr_hex s n : 0 <= n < 32 -> hexadecimal s n -> fpr_reading s n.

(** Coprocessor 0 registers, which must have a name: the name in any case, the number, or the
    number in hexadecimal. *)
Inductive cop0_reading : str -> Z -> Prop :=
| cr_named n s t : num_assoc n cop0_names = Some t -> same_letters s t -> cop0_reading s n
| cr_number s n t : num_assoc n cop0_names = Some t -> unsigned 10 s n -> cop0_reading s n
| cr_hex s n t : num_assoc n cop0_names = Some t -> hexadecimal s n -> cop0_reading s n.

(** With any number of [$] in front. *)
Definition dollars (reading : str -> Z -> Prop) (x : str) (n : Z) : Prop :=
  exists d s, x = d ++ s /\ forallb (Ascii.eqb "$") d = true /\ reading s n.

(** A small [r] with a digit after it, somewhere in the text. *)
Definition has_r_digit (x : str) : Prop := exists a c b, x = a ++ #"r" ++ [c] ++ b /\ is_digit c = true.
(** [$]s, then [r]s, then a number of 32 bits. *)
Definition r_number (x : str) : Prop :=
  exists d rs ds v, x = d ++ rs ++ ds /\ forallb (Ascii.eqb "$") d = true /\ forallb (Ascii.eqb "r") rs = true
    /\ digits 10 ds v /\ v < 2 ^ 32.
