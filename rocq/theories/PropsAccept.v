(** * PropsAccept: well-formed programs assemble (C60); the words of pseudo-instructions (C61). *)

From Coq Require Import Lia Permutation.
From Verif Require Import Lib SpecIsa StrLemmas NumLemmas OperandProofs NativeProofs LineProofs ProgProofs AsmProofs MachineProofs PseudoProofs BranchProofs
  LabelProofs CompareProofs RefProofs PropsPseudo PropsLabels PropsImm InsProofs AcceptProofs AcceptLines SpecErrors SpecText SpecProgram SpecLabels SpecScopes SpecLines SpecImm SpecAccept.

(** ** C60  Well-formed programs assemble *)

(** Addresses stay below 2^32 (needed only when the assembler is built with overflow checks). *)
Definition addresses_fit (rt : runtime) (m : mipsasm) (input : str) : Prop :=
  rt_oc rt = true -> 0 <= m_base m /\ m_base m + 4 * Z.of_nat (instruction_count (lines input)) < 2 ^ 32.

Theorem C60_program_assembles : forall rt m input wss, orders rt -> named_symbols (m_syms m) -> addresses_fit rt m input ->
  distinct_labels (lines input) -> program (m_base m) (m_syms m) (lines input) [] (lines input) wss ->
  exists out, assemble rt m input = Ok out /\ words_of out = code_words (lines input) wss /\ get_bytes out = List.concat wss.
Proof. intros rt m input wss Or Sy Ov D P. now apply program_accepted. Qed.

(** So the words of a well-formed program are determined by its text, the base and the symbols. *)
Theorem C60_words_unique : forall m input wss wss', named_symbols (m_syms m) -> distinct_labels (lines input) ->
  program (m_base m) (m_syms m) (lines input) [] (lines input) wss -> program (m_base m) (m_syms m) (lines input) [] (lines input) wss' ->
  List.concat wss = List.concat wss'.
Proof.
  intros m input wss wss' Sy D P P'. set (rt := mk_runtime false (fun l => l)).
  assert (Or : orders rt) by (intros l; apply Permutation_refl). assert (Ov : addresses_fit rt m input) by discriminate.
  destruct (C60_program_assembles rt m input wss Or Sy Ov D P) as (out & A & _ & B).
  destruct (C60_program_assembles rt m input wss' Or Sy Ov D P') as (out' & A' & _ & B'). congruence.
Qed.

(** ** C61  Pseudo-instructions *)

Theorem C61_expansions : forall rt m l ws, named_symbols (m_syms m) -> ~ In nl l -> expansion_line l ws -> stands_for rt m l ws.
Proof. intros rt m l ws Sy N E. apply stands; auto. now apply expansion_ok. Qed.

(** The ones that compare and branch, to an earlier label, in any program that assembles. *)
Theorem C61_compare_expansions : forall rt m input out l1 raw l2 name g ts tt s t n k, assemble rt m input = Ok out -> lines input = l1 ++ raw :: l2 ->
  In (name, g) compare_expansions -> gpr_text ts s -> gpr_text tt t -> instruction_line name [ts; tt; n] raw -> identifier n ->
  In (n, k) (label_table 0 l1) -> Z.of_nat (instruction_count l1) - Z.of_nat k < 65535 ->
  nth_error (words_of out) (instruction_count l1) = Some (g s t (Z.of_nat k - (Z.of_nat (instruction_count l1) + 2))).
Proof.
  intros rt m input out l1 raw l2 name g ts tt s t n k A E Ig Gs Gt L Id I D.
  destruct (compare_expansion name g Ig) as (likely & rel & p & swap & sgn & on_set & Row & Gw).
  assert (Kl := label_le _ _ _ _ I). set (c := instruction_count l1) in *.
  assert (M1 : (Z.of_nat k - (Z.of_nat c + 1)) mod 65536 = Z.of_nat k - (Z.of_nat c + 1) + 65536) by (symmetry; apply Z.mod_unique with (q := -1); lia).
  assert (M2 : (Z.of_nat k - (Z.of_nat c + 2)) mod 65536 = (Z.of_nat k - (Z.of_nat c + 1)) mod 65536 - 1) by (rewrite M1; symmetry; apply Z.mod_unique with (q := -1); lia).
  destruct (compare_to_label rt m input out l1 raw l2 name likely rel p swap sgn on_set ts tt s t n k A E Row Gs Gt L Id (table_global _ _ _ _ I) I) as (i & Ni & Bi).
  - fold c. rewrite M1. lia.
  - rewrite Gw, M2. eapply words_nth; [exact Ni|exact Bi].
Qed.

(** ** Cases *)

(** A program with every kind of line. *)
Definition demo_m : mipsasm := mk_mipsasm 0x80000000 [(0x80018340, #"buf"); (0x80004000, #"print")] false.
Definition demo_lines : list str :=
  [ #"start:"; #"@@skip:"; #"lui $a0,%hi(buf)"; #"lw $a0,%lo(buf)($a1)"; #"b @@skip"; #"mul $a0,$a1,$a0"; #"j done"; #"bge $a0,$a1,start"; []; #"done:";
    #"beq $a0,$a1,start"; #"jal print"; #"addiu $a0,$a1,-5"; #"liu $a0,0x12345678"; #"b 0x80000010" ].
Definition demo : str := join [nl] demo_lines.
Definition demo_words : list (list Z) :=
  [ []; []; [0x3c048002]; [0x8ca48340]; [0x1000fffd]; [0x00a40018; 0x00002012]; [0x08000006]; [0x0085082a; 0x1020fff9]; []; [];
    [0x1085fff9]; [0x0c001000]; [0x24a4fffb]; [0x3c041234; 0x34845678]; [0x10000001] ].
Lemma demo_split : lines demo = demo_lines. Proof. vm_compute. reflexivity. Qed.

Lemma step_line base syms all before l ws ls wss ws' : program_line base syms all before l ws' -> ws = ws' ->
  program base syms all (before ++ [l]) ls wss -> program base syms all before (l :: ls) (ws :: wss).
Proof. intros H -> P. now constructor. Qed.
Lemma lui_line t : operand_line (format_named #"lui") [OReg 4] t (#"lui" ++ #" " ++ join #"," [ #"$a0"; t ]).
Proof.
  apply (plain_operand (format_named #"lui") [OReg 4] [Rt] Uimm [ #"$a0" ] t); [vm_compute; reflexivity|reflexivity|apply one_gpr|].
  apply (word_statement #"lui" #"lui" #"$a0" [t]). reflexivity.
Qed.
Lemma buf_address : names_address (m_syms demo_m) #"buf" 0x80018340.
Proof. apply na_symbol; [now left|]. intros b [E|[E|[]]]; [now injection E|discriminate E]. Qed.
Lemma print_address : names_address (m_syms demo_m) #"print" 0x80004000.
Proof. apply na_symbol; [right; now left|]. intros b [E|[E|[]]]; [discriminate E|now injection E]. Qed.
Ltac cutter E := repeat match type of E with
  | _ = ?p ++ _ :: _ => is_var p; destruct p as [|? p]; cbn [app] in E; [injection E; clear E; intros; subst|injection E; clear E; intros E ?; subst]
  | [] = _ => discriminate E end.
Lemma digits_more radix l : forall s v, digits radix s v -> Forall (fun p => digit radix (fst p) (snd p)) l ->
  digits radix (s ++ map fst l) (fold_left (fun a p => a * radix + snd p) l v).
Proof.
  induction l as [|[c d] l IH]; intros s v D F; [now rewrite app_nil_r|]. inversion F; subst. cbn [map fold_left fst snd].
  replace (s ++ c :: map fst l) with ((s ++ [c]) ++ map fst l) by (now rewrite <- app_assoc). apply IH; [|assumption]. now constructor.
Qed.
Ltac dig := cbn [fst snd]; split; [lia|left; reflexivity].
Lemma demo_constant : numeral #"0x12345678" 0x12345678.
Proof.
  apply (num_hex #"12345678"). apply (digits_more 16 [("2", 2); ("3", 3); ("4", 4); ("5", 5); ("6", 6); ("7", 7); ("8", 8)]%char #"1" 1).
  - apply digits_one. dig.
  - repeat (constructor; [dig|]). constructor.
Qed.
Lemma demo_number : numeral #"0x80000010" 0x80000010.
Proof.
  apply (num_hex #"80000010"). apply (digits_more 16 [("0", 0); ("0", 0); ("0", 0); ("0", 0); ("0", 0); ("1", 1); ("0", 0)]%char #"8" 8).
  - apply digits_one. dig.
  - repeat (constructor; [dig|]). constructor.
Qed.
Lemma demo_minus : signed_numeral #"-5" (-5).
Proof. apply (num_neg #"5" 5), num_dec, digits_one. dig. Qed.

Example C60_case : forall rt, orders rt -> exists out, assemble rt demo_m demo = Ok out /\ get_bytes out = List.concat demo_words.
Proof.
  intros rt Or. destruct (C60_program_assembles rt demo_m demo demo_words) as (out & A & _ & B); [exact Or| | | | |eauto].
  - intros a n [E|[E|[]]]; injection E as _ <-; reflexivity.
  - intros _. rewrite demo_split. vm_compute. split; [discriminate|reflexivity].
  - unfold distinct_labels. rewrite demo_split. vm_compute. repeat constructor; intros I; cbn in I; intuition discriminate.
  - rewrite demo_split. unfold demo_lines at 2, demo_words.
    eapply step_line; [apply (pl_label _ _ _ _ #"start"); [split; reflexivity|exists [], []; repeat split]|reflexivity|].
    eapply step_line; [apply (pl_label _ _ _ _ #"@@skip"); [split; reflexivity|exists [], []; repeat split]|reflexivity|].
    eapply step_line; [apply (pl_hi _ _ _ _ (format_named #"lui") [OReg 4] #"buf" 0x80018340); [apply format_named_in; vm_compute; reflexivity|right; vm_compute; reflexivity
      |apply (lui_line #"%hi(buf)")|split; [discriminate|reflexivity]|exact buf_address|lia]|vm_compute; reflexivity|].
    eapply step_line; [apply (pl_lo_memory _ _ _ _ lw_format [OReg 4] #"%lo(buf)($a1)" 5 #"buf" 0x80018340); [exact lw_in|vm_compute; reflexivity
      |intros (p & F); vm_compute in F; discriminate F|apply (lw_line #"%lo(buf)($a1)")|apply (based_a1 #"%lo(buf)")|split; [discriminate|reflexivity]|exact buf_address|lia]|vm_compute; reflexivity|].
    eapply step_line; [apply (pl_local _ _ _ _ (format_named #"b") [] #"@@skip" [ #"start:" ]); [apply format_named_in; vm_compute; reflexivity| |split; reflexivity|reflexivity| | ]|vm_compute; reflexivity|].
    { apply (plain_branch (format_named #"b") [] [] []); [vm_compute; reflexivity|reflexivity|constructor|]. apply (plain_statement #"b" #"@@skip" []). }
    { exists (skipn 5 demo_lines), #"@@skip:", (skipn 2 demo_lines). split; [reflexivity|]. split; [reflexivity|]. split; [reflexivity|]. split.
      - apply (ss_before _ _ _ _ _ _ [ #"lui $a0,%hi(buf)"; #"lw $a0,%lo(buf)($a1)" ]); try reflexivity. intros x [<-|[<-|[]]]; reflexivity.
      - intros e1 d e2 E R _. unfold demo_lines in E. cutter E; try discriminate R; [reflexivity|]. destruct e1; discriminate E. }
    { split; [|split].
      - exists [ #"start:" ], #"@@skip:", #"done:", (skipn 2 demo_lines), #"@@skip". split; [reflexivity|]. split; [reflexivity|]. split; [reflexivity|]. split; [|reflexivity].
        unfold demo_lines. cbn [skipn In]. tauto.
      - right. exists [ #"start:" ], [ #"@@skip:"; #"lui $a0,%hi(buf)"; #"lw $a0,%lo(buf)($a1)" ]. split; [reflexivity|]. split; [intros x [<-|[<-|[<-|[]]]]; reflexivity|vm_compute; lia].
      - intros e1 d e2 E R G. unfold demo_lines in E. cutter E; try discriminate R; [|destruct e1; discriminate E]. exfalso. specialize (G #"start:" (or_introl eq_refl)). discriminate G. }
    eapply step_line; [apply pl_pseudo, (ex_three #"mul" (fun d s t => [ins "mult" (regs [s; t]); ins "mflo" (regs [d])]) #"$a0" #"$a1" #"$a0" 4 5 4);
      [unfold expansions3; cbn [In]; tauto|exact gpr_a0|exact gpr_a1|exact gpr_a0|apply (plain_statement #"mul" #"$a0" [ #"$a1"; #"$a0" ])]|vm_compute; reflexivity|].
    eapply step_line; [apply (pl_jump _ _ _ _ #"j" #"done" 6); [split; [now left|apply (plain_statement #"j" #"done" [])]|split; reflexivity
      |intros a [E|[E|[]]]; discriminate E|vm_compute; tauto]|vm_compute; reflexivity|].
    eapply step_line; [apply (pl_compare _ _ _ _ #"bge" (fun s t n => [ins "slt" (regs [AT; s; t]); ins "beq" (reg_imm [AT; 0] n)]) #"$a0" #"$a1" 4 5 #"start" 0);
      [unfold compare_expansions; cbn [In]; tauto|exact gpr_a0|exact gpr_a1|apply (plain_statement #"bge" #"$a0" [ #"$a1"; #"start" ])|split; reflexivity|vm_compute; tauto|vm_compute; reflexivity]|vm_compute; reflexivity|].
    eapply step_line; [apply pl_blank; exists [], []; repeat split; now constructor|reflexivity|].
    eapply step_line; [apply (pl_label _ _ _ _ #"done"); [split; reflexivity|exists [], []; repeat split]|reflexivity|].
    eapply step_line; [apply (pl_branch _ _ _ _ (format_named #"beq") [OReg 4; OReg 5] #"start" 0); [apply format_named_in; vm_compute; reflexivity| |split; reflexivity|vm_compute; tauto]|vm_compute; reflexivity|].
    { apply (plain_branch (format_named #"beq") [OReg 4; OReg 5] [Rs; Rt] [ #"$a0"; #"$a1" ]); [vm_compute; reflexivity|reflexivity| |apply (plain_statement #"beq" #"$a0" [ #"$a1"; #"start" ])].
      constructor; [apply sp_gpr, gpr_a0|constructor; [apply sp_gpr, gpr_a1|constructor]]. }
    eapply step_line; [apply (pl_jump_address _ _ _ _ #"jal" #"print" 0x80004000); [split; [right; now left|apply (plain_statement #"jal" #"print" [])]|split; [discriminate|reflexivity]|exact print_address|lia]|vm_compute; reflexivity|].
    eapply step_line; [apply (pl_native _ _ _ _ (format_named #"addiu") [OReg 4; OReg 5; OInt (-5)]); [apply format_named_in; vm_compute; reflexivity| | | ]|vm_compute; reflexivity|].
    { exists [ #"$a0"; #"$a1"; #"-5" ]. split; [apply (plain_statement #"addiu" #"$a0" [ #"$a1"; #"-5" ])|]. split; [|reflexivity].
      change (f_ops (format_named #"addiu")) with [Rt; Rs; Simm]. constructor; [apply sp_gpr, gpr_a0|constructor; [apply sp_gpr, gpr_a1|constructor; [|constructor]]].
      apply sp_simm, demo_minus. }
    { change (f_ops (format_named #"addiu")) with [Rt; Rs; Simm]. repeat (constructor; [split; [cbn; lia|exact Logic.I]|]). constructor. }
    { intros [E|[E|[E|[]]]]; vm_compute in E; discriminate E. }
    eapply step_line; [apply pl_pseudo, (ex_liu #"$a0" #"0x12345678" 4 0x12345678); [exact gpr_a0|exact demo_constant|lia|apply (plain_statement #"liu" #"$a0" [ #"0x12345678" ])]|vm_compute; reflexivity|].
    eapply step_line; [apply (pl_branch_number _ _ _ _ (format_named #"b") [] #"0x80000010" 0x80000010); [apply format_named_in; vm_compute; reflexivity| |exact demo_number|lia
      |cbn; lia|vm_compute; discriminate|vm_compute; reflexivity]|vm_compute; reflexivity|].
    { apply (plain_branch (format_named #"b") [] [] []); [vm_compute; reflexivity|reflexivity|constructor|]. apply (plain_statement #"b" #"0x80000010" []). }
    constructor.
Qed.
Example C61_case : expansion_line #"mul $a0,$a1,$a0" [0x00a40018; 0x00002012].
Proof.
  change [0x00a40018; 0x00002012] with ((fun d s t => [ins "mult" (regs [s; t]); ins "mflo" (regs [d])]) 4 5 4).
  apply (ex_three #"mul" _ #"$a0" #"$a1" #"$a0" 4 5 4); [unfold expansions3; cbn [In]; tauto|exact gpr_a0|exact gpr_a1|exact gpr_a0|apply (plain_statement #"mul" #"$a0" [ #"$a1"; #"$a0" ])].
Qed.

Print Assumptions C60_program_assembles.
Print Assumptions C60_words_unique.
Print Assumptions C61_expansions.
Print Assumptions C61_compare_expansions.
