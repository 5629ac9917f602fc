(** * PropsSize: how many words an instruction takes (C47, continued). *)

From Coq Require Import Lia.
From Verif Require Import Lib SpecIsa StrLemmas WarnProofs SizeProofs SpecText SpecProgram.
From Verif Require Import SpecDisplay SpecSize.

(** The number of words of every instruction line of every program that assembles, by its
    mnemonic, whatever its operands (registers, numbers, labels, symbols). *)
Theorem C47_sizes rt m input out l1 raw l2 : assemble rt m input = Ok out -> lines input = l1 ++ raw :: l2 -> is_instruction raw = true ->
  exists i, nth_error out (instruction_count l1) = Some i /\ In (List.length (inst_bytes i)) (sizes (mnemonic raw))
    /\ (In (mnemonic raw) divisions -> List.length (operands raw) = 2%nat -> List.length (inst_bytes i) = 1%nat).
Proof. apply sizes_proof. Qed.

(** So an instruction of the processor takes exactly one word: any operands, also branches and
    jumps to labels and numbers. ([div $a0,$a1,$a2] has the name of an instruction of the
    processor, but three operands.) *)
Theorem C47_native rt m input out l1 raw l2 f : assemble rt m input = Ok out -> lines input = l1 ++ raw :: l2 -> is_instruction raw = true ->
  In f isa -> mnemonic raw = f_name f -> (In (f_name f) divisions -> List.length (operands raw) = List.length (f_ops f)) ->
  exists i, nth_error out (instruction_count l1) = Some i /\ List.length (inst_bytes i) = 1%nat.
Proof.
  intros A L R I M D. destruct (C47_sizes rt m input out l1 raw l2 A L R) as (i & N & Z & T). exists i. split; [exact N|].
  assert (K : forallb (fun f => if mem_str (f_name f) divisions then Nat.eqb (List.length (f_ops f)) 2 else existsb (Nat.eqb 1) (sizes (f_name f)) && Nat.eqb (List.length (sizes (f_name f))) 1) isa = true) by (vm_compute; reflexivity).
  apply (proj1 (forallb_forall _ _) K) in I. cbv beta in I. destruct (mem_str (f_name f) divisions) eqn:Q.
  - apply mem_str_in in Q. apply Nat.eqb_eq in I. apply T; [now rewrite M|]. rewrite D by exact Q. exact I.
  - rewrite M in Z. apply andb_prop in I as [I J]. apply Nat.eqb_eq in J. destruct (sizes (f_name f)) as [|a [|b l]]; try discriminate J.
    cbn [existsb] in I. rewrite Bool.orb_false_r in I. apply Nat.eqb_eq in I. destruct Z as [Z|[]]. now rewrite <- Z.
Qed.

(** Every size of the table occurs. *)
Definition all_sizes : str :=
  join [nl] [#"top:"; #"Bge $a0,$a1,top"; #"nop"; #"li $a0,1"; #"li $a0,0x12345"; #"dli $a0,1"; #"seq $a0,$a1,$a2"; #"abs $a0,$a1"; #"mulou $a0,$a1,$a2"; #"mulo $a0,$a1,$a2"; #"rem $a0,$a1,$a2";
    #"div $a0,$a1"; #"div $a0,$a1,$a2"; #"divu $a0,$a1"; #"divu $a0,$a1,$a2"; #"beq $a0,$a1,top"; #"j top"; #"c.lt.s $f2,$f4"].
Example sizes_occur oc : exists out, assemble (mk_runtime oc (fun l => l)) (mk_mipsasm 2147483648 [] false) all_sizes = Ok out
  /\ map (fun i => List.length (inst_bytes i)) out = [2; 1; 1; 2; 6; 2; 3; 4; 6; 8; 1; 8; 1; 3; 1; 1; 1]%nat.
Proof. destruct oc; (eexists; split; [vm_compute; reflexivity|vm_compute; reflexivity]). Qed.
Example native_case : existsb (fun f => str_eqb (f_name f) (mnemonic #"  BEQ $a0,$a1,top ; again") && negb (mem_str (f_name f) divisions)) isa = true.
Proof. vm_compute. reflexivity. Qed.

Print Assumptions C47_sizes.
Print Assumptions C47_native.
