(** * SpecExact: the text the disassembler shows for every word (C02; specification only). *)

From Verif Require Import Str SpecIsa.

(** The operand as it is shown: the signed number 0x7fff with a minus sign. *)
Definition shown_operand (k : okind) (o : operand) : operand :=
  match o with
  | OInt v => if signed_operand k && (v =? 32767) then OInt (-32767) else o
  | OMem off b => if off =? 32767 then OMem (-32767) b else o
  | OReg _ => o
  end.
Definition shown_operands (pc w : Z) (ks : list okind) : list operand := map (fun k => shown_operand k (extract pc w k)) ks.

(** A word without a reading: a reserved word of coprocessor 0 with the low bits of a TLB operation is
    shown as that operation, any other one as data. *)
Definition data_text (w : Z) : str := #".word 0x" ++ zero_pad 8 (hex w).
Definition tlb_names : list (Z * str) := [(1, #"tlbr"); (2, #"tlbwi"); (6, #"tlbwr"); (8, #"tlbp"); (24, #"eret")].
Definition unread_text (w : Z) : str :=
  match num_assoc (field w 0 6) tlb_names with
  | Some t => if (field w 26 6 =? 16) && (field w 25 1 =? 0) then t else data_text w
  | None => data_text w
  end.
(** A move from or to a coprocessor 0 register without a name: data, with the instruction behind it. *)
Definition unnamed_text (w : Z) (f : format) : str :=
  data_text w ++ #" # " ++ f_name f ++ #" $" ++ nth_name gpr_names (field w 16 5) ++ #", 0x" ++ zero_pad 2 (hex (field w 11 5)).

(** The line of the word [w] in a disassembly at [pc]. *)
Definition shown_text (pc w : Z) : str :=
  match read_word w with
  | Some f => match text f (shown_operands pc w (f_ops f)) with Some t => t | None => unnamed_text w f end
  | None => unread_text w
  end.

(** Does the word read as a branch? *)
Definition branch_word (w : Z) : Prop := exists f, read_word w = Some f /\ In Branch16 (f_ops f).

(** The word a line stands for: the instruction as it is shown (so with unused fields zero, and 0x8001
    in place of 0x7fff), the TLB operation in place of a reserved word, and the word itself if it is shown
    as data. *)
Definition shown_as (base w : Z) : Z :=
  match read_word w with
  | Some f => let os := shown_operands base w (f_ops f) in match text f os with Some _ => word f os | None => w end
  | None => match num_assoc (field w 0 6) tlb_names with
            | Some _ => if (field w 26 6 =? 16) && (field w 25 1 =? 0) then 0x42000000 + field w 0 6 else w
            | None => w
            end
  end.

(** A branch that comes back, though its line has the offset where the assembler expects an address: the
    word at place [i] of [n]. The offset is an address of the program, and the field the assembler computes
    from it, and from the place of the branch, happens to be the offset again. *)
Definition branch_back (base : Z) (n i : nat) (w : Z) : Prop :=
  branch_word w /\ canonical base w
  /\ let d := field w 0 16 in
     d < 32767 /\ base <= d <= base + 4 * Z.of_nat n /\ Z.quot (d - (Z.of_nat i + 1)) 4 mod 2 ^ 16 = d.
