(** * PropsFatal: a fatal line makes assembling every program that has it panic (C29). *)

From Coq Require Import Lia.
From Verif Require Import PropsCompare Lib SpecIsa StrLemmas ProgProofs AsmProofs MachineProofs ErrorProofs RegProofs FatalProofs SpecErrors SpecText SpecLabels SpecRegs SpecPanic SpecFatal.

(** Whatever stands before and after it, whether the rest is right or wrong, and whatever the base
    address, the profile and the order in which the tables are gone through: a fatal line anywhere makes
    [assemble] panic. *)
Theorem C29_fatal rt m input l : In l (lines input) -> fatal_line (m_syms m) l -> exists q, assemble rt m input = Panic q.
Proof.
  intros I F. apply in_split in I as (l1 & l2 & E). unfold fatal_line in F. apply (fatal_stops rt m input l1 l l2 E).
  - intros e s Es Rd Lb R. rewrite R in F. destruct (inst_view e s l R) as (arg & xs & P & X). rewrite P. apply (fatal_parse e s l Rd Lb). now rewrite Es, X.
  - intros k R. now rewrite R in F.
  - intros R. now rewrite R in F.
Qed.

(** ** Cases *)

Definition some_syms : list (Z * str) := [(2147516416, #"data")].
Example fatal_case_base : fatal_line some_syms #"  LW $a0, data ; load it".
Proof.
  unfold fatal_line. change (role_of #"  LW $a0, data ; load it") with Instruction. cbv iota.
  change (fatal_instruction some_syms #"lw" [ #"$a0"; #"data" ]). apply fi_base; [vm_compute; tauto|]. cbn. intros H. repeat destruct H as [H|H]; try discriminate H. exact H.
Qed.
Example fatal_case_letter : fatal_line some_syms #"x $a0". Proof. change (fatal_instruction some_syms #"x" [ #"$a0" ]). now apply fi_letter. Qed.
Example fatal_case_label : fatal_line some_syms #" :// here".
Proof. unfold fatal_line. change (role_of #" :// here") with (Defines []). cbv iota. exact eq_refl. Qed.
Example fatal_case_shift : fatal_line some_syms #"sll $a0, $a0, $a2".
Proof.
  change (fatal_instruction some_syms #"sll" [ #"$a0"; #"$a0"; #"$" ++ #"a2" ]). apply fi_variable; [vm_compute; tauto|exists 4..]; exact gpr_a0.
Qed.
Example fatal_case_cache : fatal_line some_syms #"cache 0x20, 0($a0)".
Proof.
  change (fatal_instruction some_syms #"cache" [ #"0x" ++ #"20"; #"0($a0)" ]). apply (fi_cache _ _ 32); [|lia]. apply num_hex.
  apply (digits_snoc 16 #"2" 2 "0"%char 0); [apply digits_one|]; (split; [lia|vm_compute; tauto]).
Qed.
Example fatal_case_jump : fatal_line some_syms #"jal".
Proof.
  change (fatal_instruction some_syms #"jal" [ [] ]). apply fi_nowhere; [cbn; tauto|]. intros a [H|[]]. discriminate H.
Qed.
Example fatal_case_register : fatal_line some_syms #"sw $x9, 0($sp)".
Proof.
  change (fatal_instruction some_syms #"sw" [ #"$x9"; #"0($sp)" ]). apply fi_register; [vm_compute; tauto| |].
  - intros n D. apply (proj1 (gpr_operand #"$x9" eq_refl)) in D. assert (K : reg_from_str #"$x9" = Err #"$x9") by (vm_compute; reflexivity). rewrite K in D. discriminate D.
  - intros (c & C & W). cbn in C. repeat destruct C as [<-|C]; try discriminate W. exact C.
Qed.

Definition tabbed (a b : str) : str := a ++ ascii_of_nat 9 :: b.
Example fatal_case_gap : fatal_line some_syms (tabbed #"NOP" #"; wait").
Proof.
  unfold fatal_line. assert (E : role_of (tabbed #"NOP" #"; wait") = Instruction) by (vm_compute; reflexivity). rewrite E.
  assert (M : to_lower (operation (tabbed #"NOP" #"; wait")) = #"nop" ++ [ascii_of_nat 9]) by (vm_compute; reflexivity). rewrite M.
  apply fi_gap; [vm_compute; tauto|reflexivity|discriminate].
Qed.
Example fatal_case_gap_three : fatal_line some_syms (tabbed #"addu" #" $a0, $a0, $a0").
Proof.
  unfold fatal_line. set (l := tabbed _ _). assert (E : role_of l = Instruction) by (vm_compute; reflexivity). rewrite E.
  assert (M : to_lower (operation l) = #"addu" ++ [ascii_of_nat 9]) by (vm_compute; reflexivity). rewrite M. assert (O : operands l = [ #"$a0"; #"$a0"; #"$a0" ]) by (vm_compute; reflexivity). rewrite O.
  apply fi_gap_three; [vm_compute; tauto|reflexivity|discriminate|exists 4..]; exact gpr_a0.
Qed.

Lemma f4_text : fpr_text #"$f4" 4. Proof. right. exists #"f4". split; [reflexivity|]. apply fpr_f; [lia|reflexivity]. Qed.
Lemma not_listed x l : existsb (str_eqb x) l = false -> ~ In x l.
Proof. intros E I. assert (T : existsb (str_eqb x) l = true) by (apply existsb_exists; exists x; split; [exact I|apply str_eqb_refl]). congruence. Qed.
Example fatal_case_float3 : fatal_line some_syms #"add.w $f4, $f4, $f4".
Proof.
  change (fatal_instruction some_syms (#"add" ++ [ "."%char; "w"%char ]) [ #"$f4"; #"$f4"; #"$f4" ]).
  apply fi_float3; [cbn; tauto|reflexivity|reflexivity|split; apply not_listed; vm_compute; reflexivity|exists 4..]; exact f4_text.
Qed.
Example fatal_case_float2 : fatal_line some_syms #"cvt.w.w $f4, $f4".
Proof.
  change (fatal_instruction some_syms (#"cvt.w" ++ [ "."%char; "w"%char ]) [ #"$f4"; #"$f4" ]).
  apply fi_float2; [cbn; tauto|apply not_listed; vm_compute; reflexivity|reflexivity|reflexivity|split; apply not_listed; vm_compute; reflexivity|exists 4..]; exact f4_text.
Qed.
Example fatal_case_compare : fatal_line some_syms #"C.eq.w $f4, $f4".
Proof.
  change (fatal_instruction some_syms (#"c." ++ #"eq" ++ [ "."%char; "w"%char ]) [ #"$f4"; #"$f4" ]).
  apply fi_compare; [|discriminate|discriminate|exists 4..]; [|exact f4_text..].
  intros c I. cbn in I. repeat destruct I as [<-|I]; try reflexivity. contradiction I.
Qed.

(** A program of three lines of which one is a mistake and one is fatal: there is no list of errors. *)
Example C29_fatal_case rt m : m_syms m = some_syms -> exists q, assemble rt m (join [nl] [ #"addiu $a0, $zz, 1"; #"  LW $a0, data ; load it"; #"nop" ]) = Panic q.
Proof. intros E. apply (C29_fatal rt m _ #"  LW $a0, data ; load it"); [vm_compute; tauto|]. rewrite E. exact fatal_case_base. Qed.

Print Assumptions C29_fatal.
