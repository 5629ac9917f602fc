(** * SpecWarn: branches and jumps as they are written, for the warnings (specification only).

    A branch or jump is recognised by its mnemonic; the instruction before it is the last line
    above it that holds an instruction. *)

From Verif Require Import Lib SpecText SpecErrors.

(** The mnemonic of a line, in lower case. *)
Fixpoint first_word (s : str) : str :=
  match s with [] => [] | c :: r => if is_ws c then [] else c :: first_word r end.
Definition mnemonic (l : str) : str := to_lower (first_word (clean l)).

(** The branches: the ISA's, the assembler idioms, and the compare-and-branch pseudo-instructions. *)
Definition branches : list str :=
  [#"beq"; #"bne"; #"blez"; #"bgtz"; #"beql"; #"bnel"; #"blezl"; #"bgtzl";
   #"bltz"; #"bgez"; #"bltzl"; #"bgezl"; #"bltzal"; #"bgezal"; #"bltzall"; #"bgezall";
   #"bc0f"; #"bc0t"; #"bc0fl"; #"bc0tl"; #"bc1f"; #"bc1t"; #"bc1fl"; #"bc1tl";
   #"b"; #"bal"; #"beqz"; #"bnez"; #"beqzl"; #"bnezl";
   #"bge"; #"bgt"; #"ble"; #"blt"; #"bgeu"; #"bgtu"; #"bleu"; #"bltu";
   #"bgel"; #"bgtl"; #"blel"; #"bltl"; #"bgeul"; #"bgtul"; #"bleul"; #"bltul"].
Definition jumps : list str := [#"j"; #"jal"].
Definition register_jumps : list str := [#"jr"; #"jalr"].
(** All of them have a delay slot, and may not be in one. *)
Definition transfers : list str := branches ++ jumps ++ register_jumps.

(** The branches whose delay slot this assembler does not know about. *)
Definition overlooked : list str :=
  [#"b"; #"bal"; #"beqzl"; #"bnezl"; #"bge"; #"bgt"; #"ble"; #"blt"; #"bgeu"; #"bgtu"; #"bleu"; #"bltu";
   #"bgel"; #"bgtl"; #"blel"; #"bltl"; #"bgeul"; #"bgtul"; #"bleul"; #"bltul"].

(** The last line with an instruction. *)
Definition last_instruction (ls : list str) : option str :=
  match rev (filter is_instruction ls) with l :: _ => Some l | [] => None end.

(** Line [k] (the first line is 1) is a branch or jump in the delay slot of another one. *)
Definition in_delay_slot (ls : list str) (k : nat) : Prop :=
  exists l1 raw l2 prev, ls = l1 ++ raw :: l2 /\ k = S (List.length l1)
    /\ is_instruction raw = true /\ In (mnemonic raw) transfers
    /\ last_instruction l1 = Some prev /\ In (mnemonic prev) transfers.

(** The warnings about the line [k]. *)
Definition delay_warned (ws : list pwarning) (k : nat) : Prop :=
  exists ln slot, In (WDelaySlot ln slot) ws /\ l_num slot = k.

(** No error is reported about line [n]. *)
Definition faultless (rt : runtime) (m : mipsasm) (input : str) (n : nat) : Prop :=
  forall es p, assemble rt m input = Err es -> In p es -> error_number p <> n.

(** The line a warning is about, and its kind. *)
Definition warned_line (x : pwarning) : nat :=
  match x with WDelaySlot _ slot => l_num slot | WUnalignedBranch ln _ => l_num ln | WUnalignedJump ln _ => l_num ln end.
Definition is_delay (x : pwarning) : bool := match x with WDelaySlot _ _ => true | _ => false end.
