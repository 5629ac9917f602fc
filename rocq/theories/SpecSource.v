(** * SpecSource: when two source programs are the same but for layout (specification only). *)

From Verif Require Import Str Error SpecErrors SpecText Lib.

(** The error without the place it is about: the line is left out, and so is the other line
    that two kinds of error repeat (the first definition of a label, the text of the branch).
    [f] is applied to the mnemonics, conditions, registers, immediates and operand lists that are quoted. *)
Definition error_content (f : str -> str) (p : perror) : perror :=
  let none := mk_line 0 [] in
  match p with
  | EMultipleLabelDefinition _ n _ => EMultipleLabelDefinition none n none
  | EInvalidLabel _ n => EInvalidLabel none n
  | EInvalidInstruction _ => EInvalidInstruction none
  | EInvalidOperandCount _ a b t => EInvalidOperandCount none a b (f t)
  | EInvalidOpcode _ t => EInvalidOpcode none (f t)
  | EInvalidRegister _ t => EInvalidRegister none (f t)
  | EInvalidTargetAddress _ t => EInvalidTargetAddress none t
  | EInvalidImmediate _ t => EInvalidImmediate none (f t)
  | EInvalidFloatCond _ t => EInvalidFloatCond none (f t)
  | EBranchOutOfBounds _ _ b => EBranchOutOfBounds none [] b
  | ELocalLabelOutOfScope _ n => ELocalLabelOutOfScope none n
  | EUndefinedLabel _ n => EUndefinedLabel none n
  end.

(** The same words, or the same errors (but for the places), or a panic both times. *)
Definition same_but_place (f : str -> str) (x y : outcome (list perror) (list inst)) : Prop :=
  match x, y with
  | Ok a, Ok b => a = b
  | Err es, Err es' => map (error_content f) es = map (error_content f) es'
  | Panic _, Panic _ => True
  | _, _ => False
  end.

(** ** Comments *)

(** Something that can be a mnemonic: no white space, comment sign or colon. *)
Definition mnemonic (m : str) : Prop := m <> [] /\ forallb (fun c => negb (is_ws c) && negb (existsb (Ascii.eqb c) #";/:"))%bool m = true.

(** The lines [ls'] are the lines [ls] with blank and comment lines inserted, and comments
    appended to lines, with or without white space before them; [P] holds for what is before
    such a comment. *)
Inductive decorated (P : str -> Prop) : list str -> list str -> Prop :=
| dc_nil : decorated P [] []
| dc_insert l ls ls' : blank_line l -> decorated P ls ls' -> decorated P ls (l :: ls')
| dc_same l ls ls' : decorated P ls ls' -> decorated P (l :: ls) (l :: ls')
| dc_comment l w c ls ls' : blank w -> P (l ++ w) -> starts_comment c = true -> decorated P ls ls' -> decorated P (l :: ls) ((l ++ w ++ c) :: ls').
(** The text ends in neither white space nor a slash. *)
Definition ends_in_text (t : str) : Prop := match rev t with [] => True | c :: _ => is_ws c = false /\ c <> "/"%char end.
(** It is an instruction that ends in white space, with a space after the mnemonic (and, for
    the two instructions with an optional operand, the operand or nothing after that space). *)
Definition ends_in_space (t : str) : Prop :=
  exists a m v t' x, t = t' ++ [x] /\ is_ws x = true /\ blank a /\ mnemonic m /\ t = a ++ m ++ " "%char :: v /\ role_of t = Instruction
    /\ (In (to_lower m) [ #"break"; #"syscall" ] -> v = [] \/ ~ blank v).
(** A comment may follow. *)
Definition takes_comment (t : str) : Prop := ends_in_text t \/ ends_in_space t.

(** ** White space *)

(** [l'] is [l] with more white space at its ends. *)
Definition indented (l l' : str) : Prop := exists a b, blank a /\ blank b /\ l' = a ++ l ++ b.
(** [l] and [l'] are instructions with operands and differ in the white space between the
    mnemonic and the operands; [P] holds for that white space. *)
Definition respaced (P : str -> Prop) (l l' : str) : Prop :=
  exists a m w w' c r, blank a /\ mnemonic m /\ blank w /\ w <> [] /\ blank w' /\ w' <> [] /\ P w /\ P w' /\ is_ws c = false /\ starts_comment (c :: r) = false
    /\ role_of l = Instruction /\ l = a ++ m ++ w ++ c :: r /\ l' = a ++ m ++ w' ++ c :: r.
(** White space that begins with a space (not a tab). *)
Definition space_first (w : str) : Prop := exists w', w = " "%char :: w'.

(** ** Case *)

(** [l'] is [l] with the mnemonic written in other cases; [P] holds for the mnemonic. *)
Definition recased (P : str -> Prop) (l l' : str) : Prop :=
  exists a m m' r, blank a /\ mnemonic m /\ P m /\ same_letters m m' /\ (r = [] \/ starts_comment r = true \/ exists c r', r = c :: r' /\ is_ws c = true)
    /\ role_of l = Instruction /\ l = a ++ m ++ r /\ l' = a ++ m' ++ r.
(** The three logical immediates, whose constants are unsigned 16-bit numbers. *)
Definition zero_extends (m : str) : Prop := In (to_lower m) [ #"andi"; #"ori"; #"xori" ].

(** ** All three *)

(** The text without white space, in lower case. *)
Definition squeezed (t : str) : str := filter (fun c => negb (is_ws c)) (to_lower t).
(** Something that can be an operand: no comma, comment sign or colon, no white space at its ends. *)
Definition operand_text (t : str) : Prop :=
  t <> [] /\ trim t = t /\ forallb (fun c => negb (existsb (Ascii.eqb c) #",;/:")) t = true.
(** A constant that reads the same as a signed and as an unsigned 16-bit number: a number below 0x8000 or
    a [%hi] or [%lo]. *)
Definition unambiguous (t : str) : Prop := (exists v, numeral t v /\ v < 32768) \/ exists r, t = "%"%char :: r.
(** The two lines are the same mnemonic and operands, with any case, white space and comment. The logical
    immediates have an unambiguous constant, or are written in lower case. *)
Definition same_instruction (l l' : str) : Prop :=
  exists name ops, mnemonic name /\ Forall operand_text ops /\ instruction_line name ops l /\ instruction_line name ops l'
    /\ (zero_extends name -> (forall t, nth_error ops 2 = Some t -> unambiguous t) \/ starts_with (to_lower name) (trim l) = true /\ starts_with (to_lower name) (trim l') = true)
    /\ to_lower name <> #".word" /\ (forall t, In t ops -> starts_with #"(" t = false).
