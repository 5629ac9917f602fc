(** * SpecRegErrors: the register operands of coprocessor instructions (C70; specification only). *)

From Verif Require Import Str SpecIsa SpecText SpecPanic SpecCause SpecRegs.

Inductive register_kind := General | Float | System | NoRegister.
Definition read_as (k : register_kind) (x : str) (n : Z) : Prop :=
  match k with
  | General => dollars gpr_reading x n
  | Float => dollars fpr_reading x n
  | System => dollars cop0_reading x n
  | NoRegister => False
  end.

(** The operands of the coprocessor instructions, in the order in which they are written. *)
Definition with_kinds (ks : list register_kind) (names : list str) : list (str * list register_kind) := map (fun n => (n, ks)) names.
Definition two_floats : list str := filter (fun m => negb (existsb (str_eqb m) three_floats)) float_names.
Definition coprocessor_operands : list (str * list register_kind) :=
  with_kinds [General; System] [#"cfc0"; #"ctc0"; #"dmfc0"; #"dmtc0"; #"mfc0"; #"mtc0"]
  ++ with_kinds [General; Float] [#"cfc1"; #"ctc1"; #"dmfc1"; #"dmtc1"; #"mfc1"; #"mtc1"]
  ++ with_kinds [Float; NoRegister] [#"ldc1"; #"lwc1"; #"sdc1"; #"swc1"]
  ++ with_kinds [Float; Float; Float] three_floats
  ++ with_kinds [Float; Float] two_floats.
