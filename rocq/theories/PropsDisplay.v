(** * PropsDisplay: displaying assembled instructions (C56). *)

From Coq Require Import Lia.
From Verif Require Import Lib Display SpecIsa StrLemmas WarnProofs ShownProofs SpecText SpecProgram.
From Verif Require Import SpecDisplay.

(** Every instruction [assemble] returns can be formatted, with [Display] and with [Debug]. *)
Definition displayable (i : inst) : Prop := (exists t, show_inst i = Ok t) /\ (exists t, debug_inst i = Ok t).
Definition C56_full : Prop := forall rt m input out, assemble rt m input = Ok out -> Forall displayable out.

Definition rt0 : runtime := mk_runtime true (fun l => l).
Definition m0 : mipsasm := mk_mipsasm 2147483648 [] false.
Theorem C56_refuted : ~ C56_full.
Proof.
  intros H. destruct (assemble rt0 m0 #"nop") as [out| |] eqn:A; [|vm_compute in A; discriminate A|vm_compute in A; discriminate A].
  specialize (H rt0 m0 _ _ A). vm_compute in A. injection A as <-. inversion H as [|? ? [[t E] _] _]; subst. vm_compute in E. discriminate E.
Qed.

(** Exactly the pseudo-instructions cannot be displayed: the instruction assembled from an
    instruction line is displayable iff the mnemonic of the line is not one of theirs. *)
Theorem C56_exact_partial rt m input out : assemble rt m input = Ok out ->
  Forall2 (fun l i => displayable i <-> ~ In (mnemonic l) pseudo) (filter is_instruction (lines input)) out.
Proof.
  intros H. apply assembled_shown in H. induction H as [|l i ls out H _ IH]; [constructor|]. constructor; [|exact IH]. rewrite <- H. unfold displayable, debug_inst.
  split; [tauto|]. intros [t E]. rewrite E. cbn [obind]. split; eexists; reflexivity.
Qed.
(** In particular a program without them can be displayed. *)
Theorem C56_partial rt m input out : assemble rt m input = Ok out ->
  (forall l, In l (lines input) -> is_instruction l = true -> ~ In (mnemonic l) pseudo) -> Forall displayable out.
Proof.
  intros H N. assert (X := C56_exact_partial rt m input out H).
  assert (K : Forall (fun l => ~ In (mnemonic l) pseudo) (filter is_instruction (lines input))) by (apply Forall_forall; intros l I; apply filter_In in I as [I J]; auto).
  clear -X K. induction X as [|l i ls out E _ IH]; [constructor|]. inversion K; subst. constructor; [now apply E|auto].
Qed.

(** A program that meets the hypotheses, and what is displayed. *)
Definition program : str := #"top:" ++ [nl] ++ #"  lui $a0, 0x8001" ++ [nl] ++ #"  Bne $a0, $zero, top ; again" ++ [nl] ++ #"  mtc0 $a0, Index" ++ [nl] ++ #"  c.lt.s $f2, $f4".
Example program_displayed : exists out, assemble rt0 m0 program = Ok out
  /\ (forall l, In l (lines program) -> is_instruction l = true -> ~ In (mnemonic l) pseudo)
  /\ map debug_inst out = [Ok #"lui $a0, 0x8001"; Ok #"bne $a0, $zero, -0x2"; Ok #"mtc0 $a0, Index"; Ok #"c.lt.s $fv1, $ft0"].
Proof.
  eexists. split; [vm_compute; reflexivity|]. split; [|vm_compute; reflexivity].
  assert (El : forallb (fun l => negb (is_instruction l) || negb (mem_str (mnemonic l) pseudo)) (lines program) = true) by (vm_compute; reflexivity).
  intros l I J K. apply (proj1 (forallb_forall _ _) El) in I. rewrite J in I. apply mem_str_in in K. rewrite K in I. discriminate.
Qed.

Print Assumptions C56_refuted.
Print Assumptions C56_exact_partial.
Print Assumptions C56_partial.
