(** * SpecEdit: editing instructions of a program (C55, C67; specification only). *)

From Verif Require Import Str SpecIsa SpecText SpecProgram SpecLabels.

(** The lines [ls'] come from [ls] by editing instructions and comments: blank lines stay
    blank lines, instructions stay instructions (any others), and label definitions stay and
    define the same name. *)
Definition edited (ls ls' : list str) : Prop := Forall2 (fun l l' => role_of l = role_of l') ls ls'.

(** What a branch may go to: a global label defined before it, a number, or a local label. *)
Inductive branch_operand (before : list str) (t : str) : Prop :=
| bo_global k : identifier t -> is_local t = false -> In (t, k) (label_table 0 before) -> branch_operand before t
| bo_number a : numeral t a -> a < 2 ^ 32 -> branch_operand before t
| bo_local : identifier t -> is_local t = true -> branch_operand before t.
