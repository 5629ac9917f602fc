(** * PropsShift: shifts by any amount (C28).

    Statements, concrete instances and [Print Assumptions]. *)

From Coq Require Import Lia.
From Verif Require Import Lib SpecIsa StrLemmas NumLemmas DecodeProofs OperandProofs AsmProofs PropsAsm PropsImm SpecText SpecProgram SpecLabels SpecLines SpecImm ShiftProofs.

(** A shift by a signed 32-bit amount [v], negative ones included, is accepted: the low 26 bits of
    [v] are written over the word from bit 6 on (over the fields of both registers). With any
    other amount, every program that has the line panics. *)
Theorem C28_any_amount : forall rt m name o d t x l rd r v, In (name, o) shifts -> gpr_text d rd -> gpr_text t r -> signed_numeral x v ->
  instruction_line (lit name) [d; t; x] l -> ~ In nl l ->
  (- 2 ^ 31 <= v < 2 ^ 31 -> writes rt m l [Z.lor (r * 2 ^ 16 + rd * 2 ^ 11) (v mod 2 ^ 26 * 2 ^ 6) + o])
  /\ (~ - 2 ^ 31 <= v < 2 ^ 31 -> forall input l1 l2, lines input = l1 ++ l :: l2 -> exists q, assemble rt m input = Panic q).
Proof.
  intros rt m name o d t x l rd r v I D T X L N. split; intros R.
  - now apply (shift_writes name o d t x l rd r v).
  - intros input l1 l2. now apply (shift_panics name o d t x l rd r v).
Qed.

(** The amounts that fit, in every layout of the line and in every program. *)
Theorem C28_in_field_partial : forall rt m name o d t x l rd r v, In (name, o) shifts -> gpr_text d rd -> gpr_text t r -> signed_numeral x v ->
  instruction_line (lit name) [d; t; x] l -> ~ In nl l -> 0 <= v < 32 -> writes rt m l [r * 2 ^ 16 + rd * 2 ^ 11 + v * 2 ^ 6 + o].
Proof.
  intros rt m name o d t x l rd r v I D T X L N R.
  destruct (C28_any_amount rt m name o d t x l rd r v I D T X L N) as [W _]. assert (Rr := gpr_range _ _ T). assert (Rd := gpr_range _ _ D).
  rewrite (Z.mod_small v (2 ^ 26)) in W by lia. rewrite (lor_add _ (v * 2 ^ 6) 11) in W; [apply W; lia|lia|lia|].
  replace (r * 2 ^ 16 + rd * 2 ^ 11) with ((r * 2 ^ 5 + rd) * 2 ^ 11) by lia. apply Z.mod_mul. lia.
Qed.

(** The written word is right exactly when no bit of the amount above the field disturbs it. *)
Theorem C28_spills : forall rd r v o, 0 <= rd < 32 -> 0 <= r < 32 -> 0 <= v < 2 ^ 31 ->
  Z.lor (r * 2 ^ 16 + rd * 2 ^ 11) (v mod 2 ^ 26 * 2 ^ 6) + o = r * 2 ^ 16 + rd * 2 ^ 11 + v mod 32 * 2 ^ 6 + o
  <-> Z.lor (r * 2 ^ 5 + rd) (v mod 2 ^ 26 / 32) = r * 2 ^ 5 + rd.
Proof.
  intros rd r v o D R V. set (w := v mod 2 ^ 26).
  assert (Ev : v mod 32 = w mod 32).
  { unfold w. change (2 ^ 26) with (32 * 2 ^ 21). rewrite Z.rem_mul_r by lia. rewrite Z.mul_comm, Z.mod_add by lia. symmetry. apply Z.mod_mod. lia. }
  assert (W0 : 0 <= w) by (apply Z.mod_pos_bound; lia).
  assert (E : Z.lor (r * 2 ^ 16 + rd * 2 ^ 11) (w * 2 ^ 6) = Z.lor (r * 2 ^ 5 + rd) (w / 32) * 2 ^ 11 + w mod 32 * 2 ^ 6).
  { replace (r * 2 ^ 16 + rd * 2 ^ 11) with ((r * 2 ^ 5 + rd) * 2 ^ 11) by lia.
    assert (Ew : w * 2 ^ 6 = Z.lor (w / 32 * 2 ^ 11) (w mod 32 * 2 ^ 6)).
    { rewrite (lor_add _ _ 11); [|lia|pose proof (Z.mod_pos_bound w 32); lia|apply Z.mod_mul; lia]. pose proof (Z.div_mod w 32). lia. }
    rewrite Ew, Z.lor_assoc, <- !Z.shiftl_mul_pow2, <- Z.shiftl_lor by lia. rewrite !Z.shiftl_mul_pow2 by lia.
    apply (lor_add _ _ 11); [lia|pose proof (Z.mod_pos_bound w 32); lia|apply Z.mod_mul; lia]. }
  rewrite E, Ev. split; lia.
Qed.

(** ** Cases *)

(** A negative amount is accepted: [sll $zero,$zero,-1] is the word 0xffffffc0. *)
Example C28_negative : forall rt, exists out, assemble rt m_new #"sll $zero,$zero,-1" = Ok out /\ get_bytes out = [0xffffffc0].
Proof. intros rt. eexists. split; vm_compute; reflexivity. Qed.
(** [srl $zero,$zero,0x80000000] panics. *)
Example C28_panics : forall rt, exists q, assemble rt m_new #"srl $zero,$zero,0x80000000" = Panic q.
Proof. intros rt. eexists. vm_compute. reflexivity. Qed.
Example C28_negative_case : forall rt m, writes rt m #"  dsra $a0 , $a0,  -1 ; comment" [0xfffffffb].
Proof.
  intros rt m. apply (proj1 (C28_any_amount rt m "dsra" 59 #"$a0" #"$a0" #"-1" #"  dsra $a0 , $a0,  -1 ; comment" 4 4 (-1) ltac:(cbn; tauto) gpr_a0 gpr_a0
    ltac:(apply (num_neg #"1" 1), num_dec, digits_one; split; [lia|now left]) ltac:(exists #"  ", #"dsra $a0 , $a0,  -1", #" ", #"; comment"; split; [reflexivity|]; split;
      [apply (st_ops #"dsra" #"dsra" #"$a0" [ #"$a0"; #"-1" ] #"$a0 " [ #" $a0"; #"  -1" ]); [reflexivity|repeat constructor]|split; [reflexivity|split; [apply end_semi|split; [discriminate|reflexivity]]]];
      [exists [], #" "|exists #" ", []|exists #"  ", []]; repeat split)
    ltac:(cbn [In]; intros H; repeat destruct H as [H|H]; try discriminate H; exact H))). lia.
Qed.

Print Assumptions C28_any_amount.
Print Assumptions C28_in_field_partial.
Print Assumptions C28_spills.
