(** * SpecImm: immediate and memory operands in source lines (specification only). *)

From Verif Require Import Str SpecIsa SpecText.

(** A line with the instruction [f]: operands [os], spelled in full, and then [t], the text
    of the last operand. *)
Definition operand_line (f : format) (os : list operand) (t l : str) : Prop :=
  exists ks k ts, f_ops f = ks ++ [k] /\ List.length os = List.length ks
    /\ Forall2 (fun ko t => operand_spelling (fst ko) (snd ko) t /\ notation_fits (fst ko) (snd ko)) (combine ks os) ts
    /\ instruction_line (f_name f) (ts ++ [t]) l.

(** The kind of the last operand of [f]. *)
Definition last_kind (f : format) : option okind :=
  match rev (f_ops f) with k :: _ => Some k | [] => None end.

(** The instructions whose last operand is a 16-bit immediate, and the loads and stores. *)
Definition takes_immediate (f : format) : Prop := last_kind f = Some Simm \/ last_kind f = Some Uimm.
Definition takes_memory (f : format) : Prop := last_kind f = Some Mem.
(** Loads and stores of floating-point registers. *)
Definition float_memory (f : format) : Prop := exists p, f_ops f = [Fpr p; Mem].

(** [o(base)], with optional white space before the parenthesis and around the base. *)
Definition based (o : str) (b : Z) (t : str) : Prop :=
  exists w r r', blank w /\ gpr_text r b /\ padded r r' /\ t = o ++ w ++ #"(" ++ r' ++ #")".

(** The 16-bit values an immediate of the kind [k] can have. *)
Definition in_field (k : okind) (v : Z) : Prop :=
  match k with Uimm => 0 <= v < 65536 | _ => -32768 <= v < 32768 end.

(** The mnemonics that zero-extend are written in lower case. *)
Definition lower_logical (f : format) (l : str) : Prop :=
  In (f_name f) [ #"andi"; #"ori"; #"xori" ] -> starts_with (f_name f) (trim l) = true.
