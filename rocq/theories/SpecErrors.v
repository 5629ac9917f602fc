(** * SpecErrors: vocabulary for the errors [assemble] reports.

    A specification: it only sorts the constructors of the public error type. *)

From Verif Require Import Str Error.

(** The source line an error is about: its number (the first line is 1) and its text. *)
Definition error_line (p : perror) : line :=
  match p with
  | EMultipleLabelDefinition l _ _ | EInvalidLabel l _ | EInvalidInstruction l | EInvalidOperandCount l _ _ _
  | EInvalidOpcode l _ | EInvalidRegister l _ | EInvalidTargetAddress l _ | EInvalidImmediate l _
  | EInvalidFloatCond l _ | EBranchOutOfBounds l _ _ | ELocalLabelOutOfScope l _ | EUndefinedLabel l _ => l
  end.
Definition error_number (p : perror) : nat := l_num (error_line p).

(** Errors in references (the other errors are found while a line is read). *)
Definition reference_error (p : perror) : bool :=
  match p with EBranchOutOfBounds _ _ _ | ELocalLabelOutOfScope _ _ | EUndefinedLabel _ _ => true | _ => false end.
Definition bounds_error (p : perror) : bool := match p with EBranchOutOfBounds _ _ _ => true | _ => false end.
(** Errors in label definitions. *)
Definition label_error (p : perror) : bool :=
  match p with EMultipleLabelDefinition _ _ _ | EInvalidLabel _ _ => true | _ => false end.

(** The error carries the number and the text of a line of the program [ls]. *)
Definition well_placed (ls : list str) (p : perror) : Prop :=
  (0 < error_number p)%nat /\ nth_error ls (error_number p - 1) = Some (l_content (error_line p)).

(** In source order, at most one error per line. *)
Fixpoint in_order (es : list perror) : Prop :=
  match es with
  | [] => True
  | p :: r => (forall q, In q r -> (error_number p < error_number q)%nat) /\ in_order r
  end.
