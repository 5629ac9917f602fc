(** * PropsRegErrors: wrong coprocessor registers are reported (C70). *)

From Coq Require Import Lia.
From Verif Require Import PropsRegs CauseProofs RegErrors Lib SpecIsa StrLemmas OperandProofs RegProofs SpecErrors SpecText SpecProgram SpecPanic SpecCause SpecRegs SpecRegErrors.

(** The first operand that should be a floating-point or coprocessor 0 register, and is not read as
    one, is reported as a wrong register, with its line, in every program with the line. *)
Theorem C70_coprocessor rt m l ks k i x : role_of l = Instruction -> In (lower_operation l, ks) coprocessor_operands ->
  List.length ks = List.length (operands l) -> nth_error ks i = Some k -> k = Float \/ k = System ->
  nth_error (operands l) i = Some x -> (forall n, ~ read_as k x n) ->
  (forall j kj y, (j < i)%nat -> nth_error ks j = Some kj -> nth_error (operands l) j = Some y -> exists n, read_as kj y n) ->
  exists u, causes rt m l (fun ln => EInvalidRegister ln u).
Proof.
  intros R I L K Kd X N G. assert (Op : operands l = map trim (split_char "," (operand_text_of l))) by reflexivity. rewrite Op in X.
  destruct (nth_error (split_char "," (operand_text_of l)) i) as [z|] eqn:Z; [|exfalso].
  2: { apply nth_error_None in Z. assert (Y : nth_error (map trim (split_char "," (operand_text_of l))) i = None) by (apply nth_error_None; now rewrite map_length). congruence. }
  assert (E : trim z = x) by (assert (Y := map_nth_error trim _ _ Z); rewrite X in Y; now injection Y).
  subst x. destruct (unread_bad k z Kd N) as [u B]. exists u. apply causes_of; [exact R|]. intros e s _ _ Rd.
  apply (op_coprocessor e s l Rd _ _ _ ks k i z u I); auto.
  - rewrite L. unfold operands. now rewrite map_length.
  - intros j kj y Lt Kj Y. assert (Y' : nth_error (operands l) j = Some (trim y)) by (unfold operands; apply map_nth_error; exact Y).
    destruct (G j kj (trim y) Lt Kj Y') as [n Gn]. exact (read_good kj y n Gn).
Qed.

(** [add.s $f0, $f32, $f2], in every program. *)
Example C70_coprocessor_case rt m : exists u, causes rt m #"  add.s $f0, $f32, $f2 ; no such register" (fun ln => EInvalidRegister ln u).
Proof.
  apply (C70_coprocessor rt m _ [Float; Float; Float] Float 1 #"$f32"); try reflexivity; auto.
  - change (lower_operation _) with #"add.s". unfold coprocessor_operands. do 3 (apply in_or_app; right). apply in_or_app. left. now left.
  - intros n D. exact (C43_float_not n D).
  - intros j kj y Lt Kj Y. assert (j = 0)%nat as -> by lia. injection Kj as <-. exists 0. change (nth_error _ 0) with (Some #"$f0") in Y. injection Y as <-.
    exists #"$", #"f0". repeat split. apply fr_f; [lia|reflexivity].
Qed.

Print Assumptions C70_coprocessor.
