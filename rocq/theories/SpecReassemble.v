(** * SpecReassemble: assembling the listing of a disassembly (C82; specification only). *)

From Verif Require Import Str SpecIsa SpecExact.

(** Does the word read as a [break] or [syscall] with a code, or as a jump? *)
Definition code_word (w : Z) : Prop := exists f, read_word w = Some f /\ In Code20 (f_ops f).
Definition jump_word_26 (w : Z) : Prop := exists f, read_word w = Some f /\ In Target26 (f_ops f).
(** Is the word shown as an instruction (not as data)? *)
Definition shown_as_instruction (base w : Z) : Prop :=
  match read_word w with
  | Some f => text f (shown_operands base w (f_ops f)) <> None
  | None => num_assoc (field w 0 6) tlb_names <> None /\ field w 26 6 = 16 /\ field w 25 1 = 0
  end.

(** The line of the word [w], in a listing of [n] words from [base], is accepted by the assembler. The
    offset of a branch is taken as an address, and has to be one of the program; a code is limited to 16 bits. *)
Definition acceptable (base : Z) (n : nat) (w : Z) : Prop :=
  shown_as_instruction base w
  /\ (branch_word w -> field w 0 16 < 32767 /\ base <= field w 0 16 <= base + 4 * Z.of_nat n)
  /\ (code_word w -> field w 6 20 < 2 ^ 16).

Definition has_kind (k : okind -> bool) (w : Z) : bool := match read_word w with Some f => existsb k (f_ops f) | None => false end.
Definition is_branch16 (k : okind) : bool := match k with Branch16 => true | _ => false end.
Definition is_target26 (k : okind) : bool := match k with Target26 => true | _ => false end.
(** The word it then becomes, [w] being the word at place [i]: the one it is shown as, but for the offset
    of a branch, which is computed from that address, and the bits 26 and 27 of the address of a jump. *)
Definition reassembled (base : Z) (i : nat) (w : Z) : Z :=
  let s := shown_as base w in
  if has_kind is_branch16 w then s - field s 0 16 + Z.quot (field w 0 16 - (Z.of_nat i + 1)) 4 mod 2 ^ 16
  else if has_kind is_target26 w then s - field s 0 26 + field s 0 26 mod 2 ^ 24
  else s.
(** All words of a listing, from place [i] on. *)
Fixpoint reassembled_from (base : Z) (i : nat) (ws : list Z) : list Z :=
  match ws with [] => [] | w :: r => reassembled base i w :: reassembled_from base (S i) r end.
