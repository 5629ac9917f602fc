(** * SpecReport: the text of a diagnostic as it is seen, without its colours (C83; specification only). *)

From Verif Require Import Str Error SpecShow.

Definition number (n : nat) : str := dec (Z.of_nat n).
Definition blanks (n : nat) : str := repeat " "%char n.
Definition rows (ls : list str) : str := List.concat (map (fun l => l ++ [nl]) ls).

(** The rows that show the line [ln] with [u] underlined by [mark]s and the note behind them, in a
    gutter of [w] columns: an empty row (if [lead]), the number and the line, the underline, and a last
    empty row. *)
Definition picture (w : nat) (lead : bool) (ln : line) (u : str) (mark : ascii) (note : str) (p : list str) : Prop :=
  exists start, first_at u (l_content ln) start
  /\ p = (if lead then [blanks w ++ #" |"] else [])
         ++ [ blanks (w - List.length (number (l_num ln))) ++ number (l_num ln) ++ #" | " ++ l_content ln;
              blanks w ++ #" | " ++ blanks start ++ repeat mark (List.length u) ++ #" " ++ note;
              blanks w ++ #" |" ].

Definition in_ticks (t : str) : str := #"`" ++ t ++ #"`".
Definition eight_digits (v : Z) : str := #"0x" ++ zero_pad 8 (hex v).

(** The first row says what is wrong. *)
Definition headline (p : perror) : str :=
  match p with
  | EMultipleLabelDefinition _ n _ => #"label " ++ in_ticks n ++ #" defined multiple times"
  | EInvalidLabel _ n => #"label " ++ in_ticks n ++ #" must start with a letter"
  | EInvalidInstruction l => #"invalid instruction " ++ in_ticks (trim (l_content l))
  | EInvalidOperandCount l _ _ _ => #"invalid number of operands " ++ in_ticks (l_content l)
  | EInvalidOpcode _ t => #"invalid opcode " ++ in_ticks t
  | EInvalidRegister _ t => #"invalid register " ++ in_ticks t
  | EInvalidTargetAddress _ t => #"invalid target address " ++ in_ticks t
  | EInvalidImmediate _ t => #"invalid immediate " ++ in_ticks t
  | EInvalidFloatCond _ t => #"invalid float compare condition " ++ in_ticks t
  | EBranchOutOfBounds _ t _ => #"branch " ++ in_ticks t ++ #" out of bounds"
  | ELocalLabelOutOfScope _ n => #"local label " ++ in_ticks n ++ #" used outside of its scope"
  | EUndefinedLabel _ n => #"label " ++ in_ticks n ++ #" is not defined"
  end.
(** The note behind the underline. *)
Definition note (p : perror) : str :=
  match p with
  | EMultipleLabelDefinition _ _ _ => #"redefined here"
  | EInvalidLabel _ _ => #"defined here"
  | EInvalidOperandCount _ n k _ => #"expected " ++ number n ++ #" operands, found " ++ number k
  | EBranchOutOfBounds _ _ (lo, hi) => #"should be between " ++ eight_digits lo ++ #" and " ++ eight_digits hi
  | EUndefinedLabel _ _ => #"used here"
  | _ => []
  end.
(** The line an error is about, and the text it quotes. *)
Definition about (p : perror) : line * str :=
  match p with
  | EInvalidInstruction l => (l, trim (l_content l))
  | EMultipleLabelDefinition l t _ | EInvalidLabel l t | EInvalidOperandCount l _ _ t | EInvalidOpcode l t | EInvalidRegister l t
  | EInvalidTargetAddress l t | EInvalidImmediate l t | EInvalidFloatCond l t | EBranchOutOfBounds l t _ | ELocalLabelOutOfScope l t | EUndefinedLabel l t => (l, t)
  end.
Definition width (l : line) : nat := List.length (number (l_num l)).

(** The whole report of an error. *)
Definition report (p : perror) (s : str) : Prop :=
  let (l, u) := about p in
  match p with
  | EMultipleLabelDefinition _ _ first =>
      let w := Nat.max (width l) (width first) in
      exists a b, picture w true first u "-" #"first defined here" a /\ picture w false l u "^" (note p) b
                  /\ s = rows ((#"error: " ++ headline p) :: a ++ #"..." :: b)
  | _ => exists a, picture (width l) true l u "^" (note p) a /\ s = rows ((#"error: " ++ headline p) :: a)
  end.

(** And of a warning. *)
Definition warning_report (w : pwarning) (s : str) : Prop :=
  match w with
  | WDelaySlot l slot =>
      exists a b, picture (width l) true slot (trim (l_content slot)) "^" #"this instruction cannot be in a delay slot" a
                  /\ picture (width l) false l (trim (l_content l)) "-" #"delay slot occurs after this instruction" b
                  /\ s = rows ((#"warning: instruction " ++ in_ticks (trim (l_content slot)) ++ #" cannot be in a delay slot") :: a ++ #"..." :: b)
  | WUnalignedBranch l t =>
      exists a, picture (width l) false l t "-" #"offset is not divisible by 4" a
                /\ s = rows ((#"warning: branch offset " ++ in_ticks t ++ #" is not aligned to a 4-byte boundary") :: a)
  | WUnalignedJump l t =>
      exists a, picture (width l) false l t "-" #"target is not divisible by 4" a
                /\ s = rows ((#"warning: jump target " ++ in_ticks t ++ #" is not aligned to a 4-byte boundary") :: a)
  end.
