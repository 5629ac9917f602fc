(** * PropsData: there is no data directive (C29, C53)

    [.word] is the one operation of the table that is not an instruction: the
    disassembler writes it for words it does not know (/repo/src/disassembler.rs
    and /repo/src/ast.rs, [Display]), the parser reads it, and the assembler has
    no case for it.  So no program that contains one assembles, whatever its
    operand, its letter case, its place, or the rest of the program.  *)

From Coq Require Import Lia.
From Verif Require Import Lib SpecText SpecProgram SpecLabels SpecPanic SpecCause SpecReading TextProofs LineProofs ScanProofs ProgProofs BranchProofs LabelProofs AsmProofs RoundProofs CauseProofs FatalProofs CodingProofs ExactProofs RoundExact.

Lemma data_parse e s raw w i : role_of raw = Instruction -> to_lower (operation raw) = #".word" -> parse_inst e s (clean raw) = (w, Ok i) -> exists v, i = IBytes v.
Proof.
  intros R O P. rewrite (parse_is e s raw R) in P. unfold parse_op in P. rewrite O in P. change (classify (trim #".word")) with (Some GWord) in P. cbv iota in P.
  unfold parse_word, aimm, lift, mbind in P. destruct (parse_immediate e s u32 (operand_text_of raw)) as [im| |]; try discriminate P.
  destruct (imm_as_u32 im) as [v| |]; try discriminate P. exists v. apply pair_equal_spec in P as [_ P]. congruence.
Qed.

Theorem C29_no_data rt m input out l : In l (lines input) -> role_of l = Instruction -> to_lower (operation l) = #".word" -> assemble rt m input <> Ok out.
Proof.
  intros I Ro O A. apply in_split in I as (pre & post & El).
  apply assemble_ok in A as (s & is1 & As). set (e := mk_parser rt m input) in *.
  assert (N := nl_of_lines input).
  destruct (assembled_at e _ s is1 out _ l _ N As El) as (s1 & S1 & E1 & L1 & P1 & T1 & X). rewrite Ro in X.
  destruct X as (wn & i & i1 & i' & o1 & o2 & P' & _ & Ad & Ai & _).
  destruct (data_parse _ _ _ _ _ Ro O P') as [v ->]. cbn [adjust_one] in Ad. injection Ad as <-. vm_compute in Ai. discriminate Ai.
Qed.
Print Assumptions C29_no_data.

(** The line is an instruction line, and it alone is to blame: the program without
    it assembles; with it there is a panic, or, if the operand is wrong too, an
    ordinary error. *)
Definition around_data (d : str) : str := #"start:
  addi $t0, $zero, 5
" ++ d ++ #"
  jr $ra
  nop".
Example no_data_met : In #"  .WORD 0x1234" (lines (around_data #"  .WORD 0x1234")) /\ role_of #"  .WORD 0x1234" = Instruction /\ to_lower (operation #"  .WORD 0x1234") = #".word".
Proof. split; [vm_compute; auto|split; vm_compute; reflexivity]. Qed.
Definition data_rt : runtime := mk_runtime true (fun l => l).
Definition ending {E A} (r : outcome E A) : nat := match r with Ok _ => 0 | Err _ => 1 | Panic _ => 2 end.
Example no_data_blame : ending (assemble data_rt m_new (around_data [])) = 0%nat /\ ending (assemble data_rt m_new (around_data #"  .WORD 0x1234")) = 2%nat
  /\ ending (assemble data_rt m_new (around_data #"  .word five")) = 1%nat.
Proof. repeat split; vm_compute; reflexivity. Qed.
