(** * SpecPseudo: what the pseudo-instructions compute (specification only).

    Each table gives the mnemonic and the function of the 64-bit register contents. *)

From Verif Require Import Str SpecIsa SpecMachine.

(** [op rd, rs, rt]: rd is 1 when the relation holds between rs and rt, and 0 otherwise. *)
Definition comparisons : list (str * (Z -> Z -> bool)) :=
  [ (#"seq", fun a b => a =? b); (#"sne", fun a b => negb (a =? b));
    (#"sge", fun a b => signed64 a >=? signed64 b); (#"sgeu", fun a b => a >=? b);
    (#"sgt", fun a b => signed64 a >? signed64 b); (#"sgtu", fun a b => a >? b);
    (#"sle", fun a b => signed64 a <=? signed64 b); (#"sleu", fun a b => a <=? b) ].

(** [op rd, rs] *)
Definition unary : list (str * (Z -> Z)) :=
  [ (#"dmove", fun a => a); (#"negu", fun a => word32 (- a)); (#"dnegu", fun a => low64 (- a)); (#"not", fun a => 2 ^ 64 - 1 - a) ].
(** with an overflow exception when the condition holds *)
Definition negations : list (str * (Z -> Z) * (Z -> bool)) :=
  [ (#"neg", fun a => word32 (- a), fun a => signed32 a =? - 2 ^ 31);
    (#"dneg", fun a => low64 (- a), fun a => signed64 a =? - 2 ^ 63) ].

(** [op rd, rs, rt]: the low bits of the product. *)
Definition products : list (str * (Z -> Z -> Z)) :=
  [ (#"mul", fun a b => word32 (signed32 a * signed32 b)); (#"mulu", fun a b => word32 (low32 a * low32 b));
    (#"dmul", fun a b => low64 (signed64 a * signed64 b)); (#"dmulu", fun a b => low64 (a * b)) ].

(** [op rd, rs, rt]: the product, its range, and how it is kept in a register. *)
Definition checked_products : list (str * (Z -> Z -> Z) * (Z * Z) * (Z -> Z)) :=
  [ (#"mulo", fun a b => signed32 a * signed32 b, (- 2 ^ 31, 2 ^ 31), word32);
    (#"mulou", fun a b => low32 a * low32 b, (0, 2 ^ 32), word32);
    (#"dmulo", fun a b => signed64 a * signed64 b, (- 2 ^ 63, 2 ^ 63), low64);
    (#"dmulou", fun a b => a * b, (0, 2 ^ 64), low64) ].

(** [op rd, rs, rt]: whether the operands are words, and the result. *)
Definition unsigned_divisions : list (str * bool * (Z -> Z -> Z)) :=
  [ (#"divu", true, fun a b => word32 (low32 a / low32 b)); (#"remu", true, fun a b => word32 (low32 a mod low32 b));
    (#"ddivu", false, fun a b => a / b); (#"dremu", false, fun a b => a mod b) ].
(** [op rd, rs, rt]: the signed value of an operand, the smallest one, how a result is kept,
    and the result (quotients are truncated, remainders have the sign of the dividend). *)
Definition signed_divisions : list (str * bool * (Z -> Z -> Z)) :=
  [ (#"div", true, Z.quot); (#"rem", true, Z.rem); (#"ddiv", false, Z.quot); (#"drem", false, Z.rem) ].
Definition as_signed (word : bool) (v : Z) : Z := if word then signed32 v else signed64 v.
Definition smallest (word : bool) : Z := if word then - 2 ^ 31 else - 2 ^ 63.
Definition kept (word : bool) (v : Z) : Z := if word then word32 v else low64 v.
Definition operand_width (word : bool) (v : Z) : Prop := if word then word_value v else True.

(** 64-bit rotations. *)
Definition rotate_left (v k : Z) : Z := (v * 2 ^ k) mod 2 ^ 64 + v / 2 ^ (64 - k).
Definition rotate_right (v k : Z) : Z := v / 2 ^ k + (v * 2 ^ (64 - k)) mod 2 ^ 64.
Definition rotations : list (str * (Z -> Z -> Z)) := [ (#"drol", rotate_left); (#"dror", rotate_right) ].

(** Subtract-immediate and the add-immediate instruction (of [isa]) it stands for. *)
Definition subtractions : list (str * format) :=
  [ (#"subi", normal 8 "addi" [Rt; Rs; Simm]); (#"subiu", normal 9 "addiu" [Rt; Rs; Simm]);
    (#"dsubi", normal 24 "daddi" [Rt; Rs; Simm]); (#"dsubiu", normal 25 "daddiu" [Rt; Rs; Simm]) ].

(** [op rs, rt, label]: the mnemonic, whether it is a branch likely, and the relation between
    rs and rt under which it branches. *)
Definition compare_branches : list (str * bool * (Z -> Z -> bool)) :=
  [ (#"bge", false, fun a b => signed64 a >=? signed64 b); (#"bgeu", false, fun a b => a >=? b);
    (#"bgel", true, fun a b => signed64 a >=? signed64 b); (#"bgeul", true, fun a b => a >=? b);
    (#"bgt", false, fun a b => signed64 a >? signed64 b); (#"bgtu", false, fun a b => a >? b);
    (#"bgtl", true, fun a b => signed64 a >? signed64 b); (#"bgtul", true, fun a b => a >? b);
    (#"ble", false, fun a b => signed64 a <=? signed64 b); (#"bleu", false, fun a b => a <=? b);
    (#"blel", true, fun a b => signed64 a <=? signed64 b); (#"bleul", true, fun a b => a <=? b);
    (#"blt", false, fun a b => signed64 a <? signed64 b); (#"bltu", false, fun a b => a <? b);
    (#"bltl", true, fun a b => signed64 a <? signed64 b); (#"bltul", true, fun a b => a <? b) ].
