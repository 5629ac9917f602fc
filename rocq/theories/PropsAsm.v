(** * PropsAsm: native instructions in the assembler (C01, C03, C28, C43, C47, C53, C55).

    Statements, concrete instances and witnesses only; the proofs are in the [*Proofs]
    files.  The specification side is [SpecIsa], [SpecText] and [SpecProgram]. *)

From Coq Require Import Lia.
From Verif Require Import PropsDisasm Lib SpecIsa ProgProofs RoundProofs AsmProofs SpecText SpecProgram.

(** ** C01  Native instructions assemble to their ISA encoding *)

(** One line with a native instruction (or one-word idiom) in any notation of [SpecText],
    with operands that fit. *)
Definition C01_full (rt : runtime) : Prop :=
  forall f os l, In f (isa ++ idioms) -> native_line f os l -> ~ In nl l ->
  Forall2 fits (f_ops f) os ->
  exists out, assemble rt m_new l = Ok out /\ get_bytes out = [word f os].

(** [j 0x4000000] assembles to the word of [j 0]: address bits 26 and 27 are dropped. *)
Theorem C01_refuted : forall rt, ~ C01_full rt.
Proof.
  intros rt H. destruct (C01_refuted_proof_j rt) as (f & os & l & out & I & L & N & F & A & B).
  destruct (H f os l I L N F) as (out' & A' & B'). rewrite A in A'. injection A' as <-. contradiction.
Qed.

(** [break 0x10000] (a 20-bit code) is rejected. *)
Theorem C01_refuted_break : forall rt, exists f os l es, In f (isa ++ idioms) /\ native_line f os l
  /\ ~ In nl l /\ Forall2 fits (f_ops f) os /\ assemble rt m_new l = Err es.
Proof. exact C01_refuted_proof_break. Qed.

(** Every format except branches, every operand except codes above 16 bits and addresses above
    64 MiB in their segment; [andi]/[ori]/[xori] in lower case (or small immediates). *)
Theorem C01_native_line_partial : forall rt m f os l, named_symbols (m_syms m) ->
  In f (isa ++ idioms) -> native_line f os l -> ~ In nl l ->
  Forall2 notation_fits (f_ops f) os -> case_condition f os l ->
  exists out, assemble rt m l = Ok out /\ get_bytes out = [word f os].
Proof. exact C01_line. Qed.

(** The same for whole programs of such lines, label lines and blank or comment lines. *)
Theorem C01_straight_line_partial : forall rt m input wss, named_symbols (m_syms m) ->
  Forall2 source_line (lines input) wss -> distinct_labels (lines input) ->
  exists out, assemble rt m input = Ok out /\ get_bytes out = List.concat wss.
Proof. exact straight_line. Qed.

(** And for such a line inside any program that assembles. *)
Theorem C01_anywhere_partial : forall rt m input out l1 raw l2 f os, named_symbols (m_syms m) ->
  assemble rt m input = Ok out -> lines input = l1 ++ raw :: l2 -> no_minus_labels (lines input) ->
  In f (isa ++ idioms) -> native_line f os raw -> Forall2 notation_fits (f_ops f) os -> case_condition f os raw ->
  exists i, nth_error out (instruction_count l1) = Some i /\ inst_bytes i = [word f os].
Proof. exact native_anywhere. Qed.

Example C01_case : forall oc, exists out,
  assemble (mk_runtime oc (fun l => l)) m_new (#"start: " ++ [nl] ++ #"  ADDIU $SP , r29,-0x20 ; frame" ++ [nl] ++ [nl]
                     ++ #"sw $ra, 0x1C ( $sp ) // save" ++ [nl] ++ #"c.le.d $f2, fs0") = Ok out
  /\ get_bytes out = [0x27bdffe0; 0xafbf001c; 0x4634103e].
Proof. intros []; eexists; split; vm_compute; reflexivity. Qed.
(** The second line is a line of the theorem. *)
Example C01_case_meets_hypotheses :
  native_line (normal 9 "addiu" [Rt; Rs; Simm]) [OReg 29; OReg 29; OInt (-32)] #"  ADDIU $SP , r29,-0x20 ; frame"
  /\ In (normal 9 "addiu" [Rt; Rs; Simm]) (isa ++ idioms)
  /\ Forall2 notation_fits [Rt; Rs; Simm] [OReg 29; OReg 29; OInt (-32)].
Proof.
  split; [|split; [apply (the_format_in #"addiu" 3); vm_compute; reflexivity|fit]].
  exists [ #"$SP"; #"r29"; #"-0x20" ]. split; [|split; [|reflexivity]].
  - exists #"  ", #"ADDIU $SP , r29,-0x20", #" ", #"; frame".
    repeat split; try (now constructor); try discriminate.
    apply (st_ops #"addiu" #"ADDIU" _ _ #"$SP " [ #" r29"; #"-0x20" ]); [reflexivity|].
    repeat constructor.
    + exists [], #" ". repeat split.
    + exists #" ", []. repeat split.
    + exists [], []. repeat split.
  - constructor; [|constructor; [|constructor; [|constructor]]]; constructor.
    + right. exists #"SP". split; [reflexivity|]. apply gpr_named; [lia|reflexivity].
    + left. apply (gpr_r 29). lia.
    + apply (num_neg #"0x20" 32). apply hex_text; [vm_compute; reflexivity|lia].
Qed.

(** ** C03  Debug-mode disassembly reassembles to the same words *)

Definition C03_full (oc : bool) (rt : runtime) : Prop :=
  forall base ws, is_word base -> Forall is_word ws -> Forall (canonical base) ws ->
  exists ls out, disassemble oc (debug_at base) ws = Ok ls
    /\ assemble rt (set_base base m_new) (join [nl] ls) = Ok out /\ get_bytes out = ws.

(** What happens to one word that is disassembled and assembled again. *)
Definition round_trip (oc : bool) (rt : runtime) (base w : Z) : option (outcome (list perror) (list Z)) :=
  match disassemble oc (debug_at base) [w] with
  | Ok ls => Some (match assemble rt (set_base base m_new) (join [nl] ls) with
                   | Ok out => Ok (get_bytes out) | Err e => Err e | Panic p => Panic p end)
  | _ => None
  end.

(** The failures, one per reason: a branch, [.word], a coprocessor register without a name,
    a 20-bit break code, a jump above 64 MiB in the segment, the immediate 0x7fff. *)
Theorem C03_failures : forall oc rt,
  (exists es, round_trip oc rt 0x80000000 0x1000ffff = Some (Err es))
  /\ (exists p, round_trip oc rt 0x80000000 0x7fffffff = Some (Panic p))
  /\ (exists es, round_trip oc rt 0x80000000 0x40883800 = Some (Err es))
  /\ (exists es, round_trip oc rt 0x80000000 0x0040000d = Some (Err es))
  /\ round_trip oc rt 0x80000000 0x09000000 = Some (Ok [0x08000000])
  /\ round_trip oc rt 0x80000000 0x20007fff = Some (Ok [0x20008001]).
Proof.
  intros oc [o2 ord]. repeat split; try eexists; destruct oc; vm_compute; reflexivity.
Qed.

Theorem C03_refuted : forall oc rt, ~ C03_full oc rt.
Proof. exact C03_refuted_proof. Qed.

Theorem C03_reassembly_partial : forall oc rt base ws ls, is_word base -> Forall is_word ws ->
  Forall (returns base) ws ->
  disassemble oc (debug_at base) ws = Ok ls ->
  exists out, assemble rt (set_base base m_new) (join [nl] ls) = Ok out /\ get_bytes out = ws.
Proof. exact C03_partial_proof. Qed.

Example C03_case : Forall (returns 0x80000000) [0x27bdffe0; 0xafbf001c; 0x0c00a3f4; 0x46062082; 0x3c01ffff; 0x00000000].
Proof. exact C03_case_proof. Qed.

(** ** C28  Shift amounts stay in their field *)

Definition shifts : list (string * Z) :=
  [("sll", 0); ("srl", 2); ("sra", 3); ("dsll", 56); ("dsrl", 58); ("dsra", 59); ("dsll32", 60);
   ("dsrl32", 62); ("dsra32", 63)]%string.

Definition C28_full (rt : runtime) : Prop :=
  forall name o x v, In (name, o) shifts -> signed_numeral x v ->
  (0 <= v < 32 -> exists out, assemble rt m_new (lit name ++ #" $zero,$zero," ++ x) = Ok out
                              /\ get_bytes out = [v * 2 ^ 6 + o])
  /\ (~ 0 <= v < 32 -> exists es, assemble rt m_new (lit name ++ #" $zero,$zero," ++ x) = Err es).

(** [sll $zero,$zero,32] is accepted, and its amount spills into the destination register. *)
Theorem C28_refuted : forall rt, ~ C28_full rt.
Proof.
  intros rt H. destruct (H "sll"%string 0 #"32" 32) as [_ H2]; [now left|apply num_pos, num_dec|].
  - apply (digits_snoc 10 #"3" 3 "2" 2); [constructor|]; (split; [lia|now left]).
  - destruct H2 as [es H2]; [lia|]. destruct rt as [oc ord]. vm_compute in H2. discriminate.
Qed.
Example C28_spill : forall rt, exists out, assemble rt m_new #"sll $zero,$zero,32" = Ok out
  /\ get_bytes out = [0x00000800].
Proof. intros rt. eexists. split; vm_compute; reflexivity. Qed.

Theorem C28_shift_amounts_partial : forall rt m name o d t x rd r v, named_symbols (m_syms m) ->
  In (name, o) shifts -> gpr_text d rd -> gpr_text t r -> numeral x v -> 0 <= v < 32 ->
  exists out, assemble rt m (lit name ++ #" " ++ d ++ #"," ++ t ++ #"," ++ x) = Ok out
    /\ get_bytes out = [r * 2 ^ 16 + rd * 2 ^ 11 + v * 2 ^ 6 + o].
Proof. exact C28_partial_proof. Qed.

Example C28_case : forall rt, exists out, assemble rt m_new #"dsra32 $a0, t1, 0x1f" = Ok out
  /\ get_bytes out = [9 * 2 ^ 16 + 4 * 2 ^ 11 + 31 * 2 ^ 6 + 63].
Proof. intros rt. eexists. split; vm_compute; reflexivity. Qed.

(** ** C43  Register spellings *)

(** Every text without separators is a register spelling with its number, or is rejected. *)
Definition C43_full (rt : runtime) : Prop :=
  forall x, token x ->
  (exists n out, gpr_text x n /\ assemble rt m_new (#"jr " ++ x) = Ok out /\ get_bytes out = [n * 2 ^ 21 + 8])
  \/ ((forall n, ~ gpr_text x n) /\ exists es, assemble rt m_new (#"jr " ++ x) = Err es).

(** [jr r1x] panics. *)
Theorem C43_refuted : forall rt, ~ C43_full rt.
Proof.
  intros rt H. assert (P : exists p, assemble rt m_new #"jr r1x" = Panic p) by (destruct rt as [oc ord]; eexists; vm_compute; reflexivity).
  destruct P as [p P]. destruct (H #"r1x") as [(n & out & _ & A & _)|(_ & es & A)]; [split; [discriminate|reflexivity]| |].
  - change (#"jr " ++ #"r1x") with #"jr r1x" in A. congruence.
  - change (#"jr " ++ #"r1x") with #"jr r1x" in A. congruence.
Qed.

(** Every spelling of the convention is read as its register. *)
Theorem C43_spellings_partial : forall rt m x n, named_symbols (m_syms m) ->
  (gpr_text x n -> exists out, assemble rt m (#"jr " ++ x) = Ok out /\ get_bytes out = [n * 2 ^ 21 + 8])
  /\ (fpr_text x n -> exists out, assemble rt m (#"mfc1 $zero," ++ x) = Ok out
                                  /\ get_bytes out = [17 * 2 ^ 26 + n * 2 ^ 11])
  /\ (cop0_text x n -> exists out, assemble rt m (#"mfc0 $zero," ++ x) = Ok out
                                  /\ get_bytes out = [16 * 2 ^ 26 + n * 2 ^ 11]).
Proof.
  intros rt m x n H. split; [|split]; intros G.
  - now apply C43_gpr_proof.
  - now apply C43_fpr_proof.
  - now apply C43_cop0_proof.
Qed.

(** Every text that is accepted is a spelling or one of a few variants of it ([$$a0], [rr4],
    [+4], [04], [R0]), read as its number. *)
Theorem C43_accepted_only_partial : forall rt m x out, token x ->
  assemble rt m (#"jr " ++ x) = Ok out ->
  exists n, accepted_gpr x n /\ 0 <= n < 32 /\ get_bytes out = [word (special 8 "jr" [Rs]) [OReg n]].
Proof. exact C43_sound_proof. Qed.

Example C43_case : forall rt, exists out, assemble rt m_new (#"jr $Ra") = Ok out /\ get_bytes out = [31 * 2 ^ 21 + 8].
Proof. intros rt. eexists. split; vm_compute; reflexivity. Qed.
Example C43_case_rejected : forall rt, exists es, assemble rt m_new (#"jr $a4") = Err es.
Proof. intros [oc ord]. eexists. vm_compute. reflexivity. Qed.

(** ** C47  Words are emitted in source order, 1 to 8 per instruction *)

(** [get_bytes] concatenates the blocks of the instructions in source order (its definition);
    there is one instruction per instruction line, with 1 to 8 words. *)
Theorem C47_blocks : forall rt m input out, assemble rt m input = Ok out ->
  get_bytes out = List.concat (map inst_bytes out)
  /\ List.length out = instruction_count (lines input)
  /\ Forall (fun i => 1 <= List.length (inst_bytes i) <= 8)%nat out.
Proof.
  intros rt m input out A. split; [apply flat_map_concat_map|]. exact (C47_proof rt m input out A).
Qed.

(** A line (of any program that assembles) with a native instruction gives exactly one word:
    [C01_anywhere_partial]; the block of the line is the one at its position. *)
Theorem C47_native_one_word : forall rt m input out l1 raw l2 f os, named_symbols (m_syms m) ->
  assemble rt m input = Ok out -> lines input = l1 ++ raw :: l2 -> no_minus_labels (lines input) ->
  In f (isa ++ idioms) -> native_line f os raw -> Forall2 notation_fits (f_ops f) os -> case_condition f os raw ->
  exists i, nth_error out (instruction_count l1) = Some i /\ List.length (inst_bytes i) = 1%nat.
Proof.
  intros rt m input out l1 raw l2 f os S A L M I N F C.
  destruct (native_anywhere rt m input out l1 raw l2 f os S A L M I N F C) as (i & E & B). exists i. now rewrite B.
Qed.

Example C47_case : forall oc, exists out,
  assemble (mk_runtime oc (fun l => l)) m_new (#"x:" ++ [nl] ++ #"dror $a0,$a1,$a2" ++ [nl] ++ #"nop") = Ok out
  /\ map inst_bytes out = [[0x0006082f; 0x00250814; 0x00c52016; 0x00812025]; [0]].
Proof. intros []; eexists; split; vm_compute; reflexivity. Qed.

(** ** C53  Numeric literals denote their value *)

Theorem C53_literals_partial : forall rt m x v, named_symbols (m_syms m) ->
  (signed_numeral x v -> -32768 <= v < 32768 ->
     exists out, assemble rt m (#"addiu $zero,$zero," ++ x) = Ok out /\ get_bytes out = [9 * 2 ^ 26 + v mod 2 ^ 16])
  /\ (numeral x v -> 0 <= v < 65536 ->
     exists out, assemble rt m (#"ori $zero,$zero," ++ x) = Ok out /\ get_bytes out = [13 * 2 ^ 26 + v])
  /\ (numeral x v -> 0 <= v < 32 ->
     exists out, assemble rt m (#"sll $zero,$zero," ++ x) = Ok out /\ get_bytes out = [v * 2 ^ 6])
  /\ (numeral x v -> 0 <= v < 65536 ->
     exists out, assemble rt m (#"break " ++ x) = Ok out /\ get_bytes out = [v * 2 ^ 6 + 13])
  /\ (numeral x v -> 0 <= v < 2 ^ 32 -> v mod 4 = 0 -> v mod 2 ^ 28 < 2 ^ 26 ->
     exists out, assemble rt m (#"j " ++ x) = Ok out /\ get_bytes out = [2 * 2 ^ 26 + v mod 2 ^ 28 / 4]).
Proof.
  intros rt m x v S. repeat split; intros.
  - now apply C53_signed_proof.
  - now apply C53_unsigned_proof.
  - now apply C53_shift_proof.
  - now apply C53_code_proof.
  - now apply C53_target_proof.
Qed.

(** Data words: [.word] takes a literal in the grammar but always panics. *)
Definition C53_full_word (rt : runtime) : Prop :=
  forall x v, numeral x v -> 0 <= v < 2 ^ 32 ->
  exists out, assemble rt m_new (#".word " ++ x) = Ok out /\ get_bytes out = [v].
Theorem C53_refuted : forall rt, ~ C53_full_word rt.
Proof.
  intros rt H. destruct (H #"0x1" 1) as (out & A & _); [apply hex_text; [vm_compute; reflexivity|lia]|lia|].
  destruct rt as [oc ord]. vm_compute in A. discriminate.
Qed.

Example C53_case : forall rt, exists out, assemble rt m_new (#"addiu $zero,$zero,-0x8000") = Ok out
  /\ get_bytes out = [9 * 2 ^ 26 + 32768].
Proof. intros rt. eexists. split; vm_compute; reflexivity. Qed.

(** ** C55  Register fields are isolated *)

Theorem C55_register_fields_partial : forall rt m f ks1 k ks2 os1 o o' os2 p n n' l l',
  named_symbols (m_syms m) -> In f (isa ++ idioms) ->
  f_ops f = ks1 ++ k :: ks2 -> List.length ks1 = List.length os1 -> register_change k o o' p n n' ->
  native_line f (os1 ++ o :: os2) l -> ~ In nl l -> case_condition f (os1 ++ o :: os2) l ->
  native_line f (os1 ++ o' :: os2) l' -> ~ In nl l' -> case_condition f (os1 ++ o' :: os2) l' ->
  Forall2 notation_fits (f_ops f) (os1 ++ o :: os2) -> Forall2 notation_fits (f_ops f) (os1 ++ o' :: os2) ->
  exists out out' w w', assemble rt m l = Ok out /\ get_bytes out = [w]
    /\ assemble rt m l' = Ok out' /\ get_bytes out' = [w']
    /\ field w p 5 = n /\ field w' p 5 = n'
    /\ forall i, 0 <= i -> ~ (p <= i < p + 5) -> Z.testbit w i = Z.testbit w' i.
Proof. exact C55_proof. Qed.

Example C55_case : forall rt, exists out out',
  assemble rt m_new #"lw $a0, 4($sp)" = Ok out /\ get_bytes out = [0x8fa40004]
  /\ assemble rt m_new #"lw $a0, 4($t9)" = Ok out' /\ get_bytes out' = [0x8f240004].
Proof. intros rt. do 2 eexists. repeat split; vm_compute; reflexivity. Qed.
