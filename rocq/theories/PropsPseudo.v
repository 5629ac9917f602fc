(** * PropsPseudo: what the pseudo-instructions compute (C15-C19, C21-C26).

    Statements, concrete instances and [Print Assumptions]; the machine is [SpecMachine], the
    functions are those of [SpecPseudo]. *)

From Coq Require Import Lia.
From Verif Require Import Lib SpecIsa StrLemmas OperandProofs NativeProofs LineProofs TextProofs ScanProofs ProgProofs AsmProofs SpecMachine MachineProofs ExecProofs
  PseudoProofs SpecText SpecProgram SpecPseudo.

(** The line [l] stands for the words [ws]: alone it assembles to [ws], and in every program
    that assembles the instruction of that line has the words [ws]. *)
Definition stands_for (rt : runtime) (m : mipsasm) (l : str) (ws : list Z) : Prop :=
  (exists out, assemble rt m l = Ok out /\ get_bytes out = ws)
  /\ forall input out l1 l2, assemble rt m input = Ok out -> lines input = l1 ++ l :: l2 -> no_minus_labels (lines input) ->
     exists i, nth_error out (instruction_count l1) = Some i /\ inst_bytes i = ws.

Lemma stands rt m l ws : named_symbols (m_syms m) -> no_nl l -> line_ok l ws -> stands_for rt m l ws.
Proof.
  intros S N L. split; [now apply one_line|]. intros input out l1 l2 A E M. eapply code_anywhere; eauto.
Qed.

(** A line and the value its execution leaves in register [rd], for all register contents;
    registers other than [rd] and [scratch] keep their contents. *)
Definition computes (rt : runtime) (m : mipsasm) (l : str) (scratch : list Z) (rd : Z) (cond : state -> Prop) (f : state -> Z) : Prop :=
  exists ws, stands_for rt m l ws /\ forall odd st, well st -> cond st ->
    exists st', finishes odd ws st st' /\ result scratch st rd (f st) st' /\ same_hilo st st'.
Definition always (st : state) : Prop := True.

Lemma stands_unique rt m l a b : stands_for rt m l a -> stands_for rt m l b -> a = b.
Proof. intros [(x & A & <-) _] [(y & B & <-) _]. rewrite A in B. now injection B as ->. Qed.
Lemma computes_unique rt m l sc sc' rd c c' f g st : computes rt m l sc rd c f -> computes rt m l sc' rd c' g -> rd <> 0 ->
  well st -> c st -> c' st -> f st = g st.
Proof.
  intros (ws & S & F) (ws' & S' & G) N W C C'. rewrite <- (stands_unique _ _ _ _ _ S S') in G.
  destruct (F (fun _ => 0) st W C) as (a & A & [V _] & _). destruct (G (fun _ => 0) st W C') as (b & B & [V' _] & _).
  rewrite (finishes_unique _ _ _ _ _ A B) in V. rewrite <- V, <- V'; auto.
Qed.
(** A state with the value [v] in register [r] and [u] in register [q]. *)
Definition holding (r v q u : Z) : state := mk_state (fun x => if x =? r then v else if x =? q then u else 0) 0 0.
Lemma holding_well r v q u : 0 <= v < 2 ^ 64 -> 0 <= u < 2 ^ 64 -> well (holding r v q u).
Proof.
  intros V U. split; [|split; cbn [hi lo holding]; lia]. intros x. unfold value, holding. cbn [regs].
  destruct (x =? 0); [lia|]. destruct (x =? r); [lia|]. destruct (x =? q); lia.
Qed.
Lemma gpr_a0 : gpr_text #"$a0" 4. Proof. right. exists #"a0". split; [reflexivity|]. apply gpr_named; [lia|reflexivity]. Qed.
Lemma gpr_a1 : gpr_text #"$a1" 5. Proof. right. exists #"a1". split; [reflexivity|]. apply gpr_named; [lia|reflexivity]. Qed.
Lemma gpr_a2 : gpr_text #"$a2" 6. Proof. right. exists #"a2". split; [reflexivity|]. apply gpr_named; [lia|reflexivity]. Qed.

Ltac nums := rewrite ?OperandProofs.reg_of_num_num by assumption.
Lemma pair_inv {A B} (a c : A) (b d : B) : (a, b) = (c, d) -> a = c /\ b = d.
Proof. intros E. split; [exact (f_equal fst E)|exact (f_equal snd E)]. Qed.
Ltac look I := unfold unary, comparisons, negations, products, checked_products, unsigned_divisions, signed_divisions, rotations in I;
  cbn [In] in I; repeat (lazymatch type of I with _ \/ _ => destruct I as [I|I] end);
  lazymatch type of I with False => destruct I | _ => repeat (lazymatch type of I with (_, _) = (_, _) => apply pair_inv in I; let J := fresh in destruct I as [I J]; try subst end); try subst;
    repeat (match goal with H : (_, _) = (_, _) |- _ => apply pair_inv in H; destruct H; subst end) end.

Section Lines.
Variables (rt : runtime) (m : mipsasm).
Hypothesis Sy : named_symbols (m_syms m).

(** ** C15  li *)

(** Every constant [c] that is accepted. *)
Definition C15_full : Prop := forall td rd tc c l, gpr_text td rd -> numeral tc c -> c < 2 ^ 32 -> instruction_line #"li" [td; tc] l -> ~ In nl l ->
  computes rt m l [] rd always (fun _ => word32 c).

Lemma li_computes r c ws : 0 <= r < 32 -> 0 <= c < 2 ^ 32 -> ws = li_words (reg_of_num r) c -> forall odd st, puts odd r ws [] st (word32 c).
Proof.
  intros R V -> odd st. unfold li_words. nums. destruct (halves reg_null c V) as (A & B & D). destruct (c <? 65536) eqn:E.
  - replace (word32 c) with c; [apply ex_ori0; lia|]. unfold word32. rewrite signed32_small, low64_small by lia. reflexivity.
  - destruct (c mod 65536 =? 0) eqn:F.
    + replace (word32 c) with (word32 (c / 65536 * 2 ^ 16)); [now apply ex_lui|]. f_equal. lia.
    + replace (word32 c) with (word32 (c / 65536 * 2 ^ 16 + c mod 65536)); [now apply ex_lui_ori|]. f_equal. lia.
Qed.

Theorem C15_li_loads_its_constant_partial : forall td rd tc c l, gpr_text td rd -> numeral tc c -> c < 0xFFFF8000 ->
  instruction_line #"li" [td; tc] l -> ~ In nl l -> computes rt m l [] rd always (fun _ => word32 c).
Proof.
  intros td rd tc c l G Nu V L N. assert (R := gpr_range _ _ G). assert (V0 := numeral_nonneg _ _ Nu).
  exists (li_words (reg_of_num rd) c). split.
  - apply stands; [exact Sy|exact N|]. eapply (line_li #"li" I_Li); eauto; try reflexivity; [lia|]. intros oc. cbn [enc_i imm_as_u32 obind].
    unfold wrap. rewrite Z.mod_small by lia. rewrite enc_li_words by lia. destruct (4294934528 <=? c) eqn:E; [lia|reflexivity].
  - intros odd st _ _. apply li_computes; auto. lia.
Qed.
(** For the largest 32768 constants the value is too small by 2^16. *)
Theorem C15_wrong_above : forall td rd tc c l, gpr_text td rd -> numeral tc c -> 0xFFFF8000 <= c < 2 ^ 32 ->
  instruction_line #"li" [td; tc] l -> ~ In nl l -> computes rt m l [] rd always (fun _ => word32 (c - 2 ^ 16)).
Proof.
  intros td rd tc c l G Nu V L N. assert (R := gpr_range _ _ G).
  exists [iword 15 0 rd (c / 65536); iword 9 rd rd (c mod 65536)]. split.
  - apply stands; [exact Sy|exact N|]. eapply (line_li #"li" I_Li); eauto; try reflexivity; [lia|]. intros oc. cbn [enc_i imm_as_u32 obind].
    unfold wrap. rewrite Z.mod_small by lia. rewrite enc_li_words by lia. nums. destruct (4294934528 <=? c) eqn:E; [reflexivity|lia].
  - intros odd st _ _. destruct (halves reg_null c ltac:(lia)) as (A & B & D).
    replace (c - 2 ^ 16) with (c / 65536 * 2 ^ 16 + signed16 (c mod 65536)); [now apply ex_lui_addiu|].
    unfold signed16. destruct (c mod 65536 <? 32768) eqn:E; lia.
Qed.

Theorem C15_refuted : ~ C15_full.
Proof.
  intros H. assert (Nu : numeral #"0xffff8000" 0xFFFF8000) by (apply hex_text; [vm_compute; reflexivity|lia]).
  assert (L := plain_statement #"li" #"$a0" [ #"0xffff8000" ]). assert (N : ~ In nl (#"li" ++ #" " ++ join #"," [ #"$a0"; #"0xffff8000" ])) by (vm_compute; intuition discriminate).
  assert (A := H _ _ _ _ _ gpr_a0 Nu ltac:(lia) L N). assert (B := C15_wrong_above _ _ _ _ _ gpr_a0 Nu ltac:(lia) L N).
  assert (E := computes_unique _ _ _ _ _ _ _ _ _ _ (holding 0 0 0 0) A B ltac:(lia) (holding_well 0 0 0 0 ltac:(lia) ltac:(lia)) I I).
  vm_compute in E. discriminate E.
Qed.

(** ** C16  liu, lli and dli *)

Theorem C16_liu_loads_its_constant : forall td rd tc c l, gpr_text td rd -> numeral tc c -> c < 2 ^ 32 ->
  instruction_line #"liu" [td; tc] l -> ~ In nl l -> computes rt m l [] rd always (fun _ => word32 c).
Proof.
  intros td rd tc c l G Nu V L N. assert (R := gpr_range _ _ G). assert (V0 := numeral_nonneg _ _ Nu).
  exists (li_words (reg_of_num rd) c). split.
  - apply stands; [exact Sy|exact N|]. eapply (line_li #"liu" I_Liu); eauto; try reflexivity. intros oc. cbn [enc_i imm_as_u32 obind].
    unfold wrap. rewrite Z.mod_small by lia. rewrite enc_liu_words by lia. reflexivity.
  - intros odd st _ _. apply li_computes; auto.
Qed.
Theorem C16_lli_loads_its_constant : forall td rd tc c l, gpr_text td rd -> numeral tc c -> c < 2 ^ 16 ->
  instruction_line #"lli" [td; tc] l -> ~ In nl l -> computes rt m l [] rd always (fun _ => c).
Proof.
  intros td rd tc c l G Nu V L N. assert (R := gpr_range _ _ G). assert (V0 := numeral_nonneg _ _ Nu).
  exists [iword 13 0 rd c]. split.
  - apply stands; [exact Sy|exact N|]. eapply (line_imm2 #"lli" I_Lli); eauto; try reflexivity. intros oc. cbn [enc_i imm_as_u32 obind].
    rewrite word_ori0 by lia. now nums.
  - intros odd st _ _. apply ex_ori0; lia.
Qed.
Theorem C16_dli_loads_its_constant : forall td rd tc c l, gpr_text td rd -> signed_numeral tc c -> - 2 ^ 63 <= c < 2 ^ 63 ->
  instruction_line #"dli" [td; tc] l -> ~ In nl l -> computes rt m l [] rd always (fun _ => low64 c).
Proof.
  intros td rd tc c l G Nu V L N. assert (R := gpr_range _ _ G). set (v := c mod 2 ^ 64).
  assert (Rv : 0 <= v < 2 ^ 64) by (apply Z.mod_pos_bound; lia).
  exists (dli_words rd (v / 2 ^ 48) (v / 2 ^ 32 mod 65536) (v / 2 ^ 16 mod 65536) (v mod 65536)). split.
  - apply stands; [exact Sy|exact N|]. eapply line_dli; eauto. intros oc. fold v. rewrite enc_dli_words by exact Rv. now nums.
  - intros odd st _ _. assert (M : forall x, 0 <= x mod 65536 < 65536) by (intros x; apply Z.mod_pos_bound; lia).
    assert (A : 0 <= v / 2 ^ 48 < 65536) by (split; [apply Z.div_pos; lia|apply Z.div_lt_upper_bound; lia]).
    replace (low64 c) with (low64 (((v / 2 ^ 48 * 2 ^ 16 + v / 2 ^ 32 mod 65536) * 2 ^ 16 + v / 2 ^ 16 mod 65536) * 2 ^ 16 + v mod 65536)); [now apply ex_dli|].
    rewrite low64_small.
    + unfold v, low64. fold v.
      assert (D0 := Z.div_mod v 65536 ltac:(lia)). assert (D1 := Z.div_mod (v / 2 ^ 16) 65536 ltac:(lia)). assert (D2 := Z.div_mod (v / 2 ^ 32) 65536 ltac:(lia)).
      change 65536 with (2 ^ 16) in D0, D1, D2 |- *. rewrite Z.div_div in D1, D2 by lia. change (2 ^ 16 * 2 ^ 16) with (2 ^ 32) in D1. change (2 ^ 32 * 2 ^ 16) with (2 ^ 48) in D2. lia.
    + assert (X := M (v / 2 ^ 32)). assert (Y := M (v / 2 ^ 16)). assert (Z' := M v). lia.
Qed.

(** ** C17  Register moves *)

Theorem C17_unary : forall name f td ts rd rs l, In (name, f) unary -> gpr_text td rd -> gpr_text ts rs ->
  instruction_line name [td; ts] l -> ~ In nl l -> computes rt m l [] rd always (fun st => f (value st rs)).
Proof.
  intros name f td ts rd rs l I G1 G2 L N. assert (R1 := gpr_range _ _ G1). assert (R2 := gpr_range _ _ G2). look I.
  - eexists. split; [apply stands; [exact Sy|exact N|exact (line_move #"dmove" R_Dmove _ _ _ _ _ eq_refl eq_refl eq_refl G1 G2 L N)]|].
    intros odd st W _. rewrite enc_dmove. nums. now apply ex_dmove.
  - eexists. split; [apply stands; [exact Sy|exact N|exact (line_move #"negu" R_Negu _ _ _ _ _ eq_refl eq_refl eq_refl G1 G2 L N)]|].
    intros odd st W _. rewrite enc_negu. nums. now apply ex_negu.
  - eexists. split; [apply stands; [exact Sy|exact N|exact (line_move #"dnegu" R_Dnegu _ _ _ _ _ eq_refl eq_refl eq_refl G1 G2 L N)]|].
    intros odd st W _. rewrite enc_dnegu. nums. now apply ex_dnegu.
  - eexists. split; [apply stands; [exact Sy|exact N|exact (line_move #"not" R_Not _ _ _ _ _ eq_refl eq_refl eq_refl G1 G2 L N)]|].
    intros odd st W _. rewrite enc_not. nums. now apply ex_not.
Qed.
Theorem C17_clear : forall td rd l, gpr_text td rd -> instruction_line #"clear" [td] l -> ~ In nl l -> computes rt m l [] rd always (fun _ => 0).
Proof.
  intros td rd l G1 L N. assert (R1 := gpr_range _ _ G1).
  eexists. split; [apply stands; [exact Sy|exact N|exact (line_rd #"clear" R_Clear _ _ _ eq_refl eq_refl eq_refl G1 L N)]|].
  intros odd st W _. rewrite enc_clear. nums. now apply ex_clear.
Qed.
(** [neg] and [dneg] raise the overflow exception exactly for the smallest value. *)
Theorem C17_negations : forall name f ov td ts rd rs l, In (name, f, ov) negations -> gpr_text td rd -> gpr_text ts rs ->
  instruction_line name [td; ts] l -> ~ In nl l ->
  exists ws, stands_for rt m l ws /\ forall odd st, well st ->
    if ov (value st rs) then raises odd ws st Overflow
    else exists st', finishes odd ws st st' /\ result [] st rd (f (value st rs)) st' /\ same_hilo st st'.
Proof.
  intros name f ov td ts rd rs l I G1 G2 L N. assert (R1 := gpr_range _ _ G1). assert (R2 := gpr_range _ _ G2). look I.
  - eexists. split; [apply stands; [exact Sy|exact N|exact (line_move #"neg" R_Neg _ _ _ _ _ eq_refl eq_refl eq_refl G1 G2 L N)]|].
    intros odd st W. rewrite enc_neg. nums. destruct (Z.eqb_spec (signed32 (value st rs)) (- 2 ^ 31)); [now apply ex_neg_ov|now apply ex_neg].
  - eexists. split; [apply stands; [exact Sy|exact N|exact (line_move #"dneg" R_Dneg _ _ _ _ _ eq_refl eq_refl eq_refl G1 G2 L N)]|].
    intros odd st W. rewrite enc_dneg. nums. destruct (Z.eqb_spec (signed64 (value st rs)) (- 2 ^ 63)); [now apply ex_dneg_ov|now apply ex_dneg].
Qed.
(** [move] copies. *)
Definition C17_move_full : Prop := forall td ts rd rs l, gpr_text td rd -> gpr_text ts rs ->
  instruction_line #"move" [td; ts] l -> ~ In nl l -> computes rt m l [] rd always (fun st => value st rs).
(** It is a 32-bit addition, so it copies only the low word. *)
Theorem C17_move_partial : forall td ts rd rs l, gpr_text td rd -> gpr_text ts rs ->
  instruction_line #"move" [td; ts] l -> ~ In nl l ->
  computes rt m l [] rd always (fun st => word32 (value st rs))
  /\ computes rt m l [] rd (fun st => word_value (value st rs)) (fun st => value st rs).
Proof.
  intros td ts rd rs l G1 G2 L N. assert (R1 := gpr_range _ _ G1). assert (R2 := gpr_range _ _ G2). split.
  - eexists. split; [apply stands; [exact Sy|exact N|exact (line_move #"move" R_Move _ _ _ _ _ eq_refl eq_refl eq_refl G1 G2 L N)]|].
    intros odd st W _. rewrite enc_move. nums. now apply ex_move.
  - eexists. split; [apply stands; [exact Sy|exact N|exact (line_move #"move" R_Move _ _ _ _ _ eq_refl eq_refl eq_refl G1 G2 L N)]|].
    intros odd st W V. rewrite enc_move. nums. cbv beta in V |- *. unfold word_value in V. rewrite V. now apply ex_move.
Qed.

Theorem C17_move_refuted : ~ C17_move_full.
Proof.
  intros H. assert (L := plain_statement #"move" #"$a0" [ #"$a1" ]). assert (N : ~ In nl (#"move" ++ #" " ++ join #"," [ #"$a0"; #"$a1" ])) by (vm_compute; intuition discriminate).
  assert (A := H _ _ _ _ _ gpr_a0 gpr_a1 L N). destruct (C17_move_partial _ _ _ _ _ gpr_a0 gpr_a1 L N) as [B _].
  assert (E := computes_unique _ _ _ _ _ _ _ _ _ _ (holding 5 (2 ^ 32) 0 0) A B ltac:(lia) (holding_well 5 (2 ^ 32) 0 0 ltac:(lia) ltac:(lia)) I I).
  vm_compute in E. discriminate E.
Qed.

(** ** C18  Absolute values *)

Theorem C18_abs : forall td ts rd rs l, gpr_text td rd -> gpr_text ts rs -> rs <> at_reg -> rd <> at_reg ->
  instruction_line #"abs" [td; ts] l -> ~ In nl l ->
  computes rt m l [at_reg] rd always (fun st => word32 (Z.abs (signed32 (value st rs)))).
Proof.
  intros td ts rd rs l G1 G2 N1 N2 L N. assert (R1 := gpr_range _ _ G1). assert (R2 := gpr_range _ _ G2).
  eexists. split; [apply stands; [exact Sy|exact N|exact (line_move #"abs" R_Abs _ _ _ _ _ eq_refl eq_refl eq_refl G1 G2 L N)]|].
  intros odd st W _. rewrite enc_abs. nums. now apply ex_abs.
Qed.
Definition C18_dabs_full : Prop := forall td ts rd rs l, gpr_text td rd -> gpr_text ts rs -> rs <> at_reg -> rd <> at_reg ->
  instruction_line #"dabs" [td; ts] l -> ~ In nl l ->
  computes rt m l [at_reg] rd always (fun st => low64 (Z.abs (signed64 (value st rs)))).
Theorem C18_dabs_partial : forall td ts rd rs l, gpr_text td rd -> gpr_text ts rs -> rs <> at_reg -> rd <> at_reg ->
  instruction_line #"dabs" [td; ts] l -> ~ In nl l ->
  computes rt m l [at_reg] rd (fun st => - 2 ^ 31 <= signed64 (value st rs) < 2 ^ 31) (fun st => low64 (Z.abs (signed64 (value st rs)))).
Proof.
  intros td ts rd rs l G1 G2 N1 N2 L N. assert (R1 := gpr_range _ _ G1). assert (R2 := gpr_range _ _ G2).
  eexists. split; [apply stands; [exact Sy|exact N|exact (line_move #"dabs" R_Dabs _ _ _ _ _ eq_refl eq_refl eq_refl G1 G2 L N)]|].
  intros odd st W V. rewrite enc_dabs. nums. now apply ex_dabs.
Qed.

(** The sign is taken from bit 31 up: for 2^31 + 1 the result is 2^31 - 1. *)
Theorem C18_dabs_refuted : ~ C18_dabs_full.
Proof.
  intros H. assert (L := plain_statement #"dabs" #"$a0" [ #"$a1" ]). assert (N : ~ In nl (#"dabs" ++ #" " ++ join #"," [ #"$a0"; #"$a1" ])) by (vm_compute; intuition discriminate).
  destruct (H _ _ _ _ _ gpr_a0 gpr_a1 ltac:(discriminate) ltac:(discriminate) L N) as (ws & S & F).
  assert (S' := stands rt m _ _ Sy N (line_move #"dabs" R_Dabs _ _ _ _ _ eq_refl eq_refl eq_refl gpr_a0 gpr_a1 L N)).
  rewrite (stands_unique _ _ _ _ _ S S') in F. rewrite enc_dabs, !OperandProofs.reg_of_num_num in F by lia.
  set (st := holding 5 (2 ^ 31 + 1) 0 0) in *.
  destruct (F (fun _ => 0) st (holding_well 5 (2 ^ 31 + 1) 0 0 ltac:(lia) ltac:(lia)) I) as (st' & Fi & [V _] & _).
  set (en := match cycles (fun _ => 0) 3 [rword 0 5 1 31 59; rword 5 1 4 0 38; rword 4 1 4 0 46] (At 0 1 st) with At _ _ s => s | _ => st end).
  assert (Fi' : finishes (fun _ => 0) [rword 0 5 1 31 59; rword 5 1 4 0 38; rword 4 1 4 0 46] st en) by (exists 3%nat; vm_compute; reflexivity).
  rewrite (finishes_unique _ _ _ _ _ Fi Fi') in V. specialize (V ltac:(discriminate)). vm_compute in V. discriminate V.
Qed.

(** ** C19  Set on comparison *)

Theorem C19_set_on_comparison : forall name f td ts tt rd rs rt' l, In (name, f) comparisons -> gpr_text td rd -> gpr_text ts rs -> gpr_text tt rt' ->
  instruction_line name [td; ts; tt] l -> ~ In nl l -> computes rt m l [] rd always (fun st => bit (f (value st rs) (value st rt'))).
Proof.
  intros name f td ts tt rd rs rt' l I G1 G2 G3 L N. assert (R1 := gpr_range _ _ G1). assert (R2 := gpr_range _ _ G2). assert (R3 := gpr_range _ _ G3).
  look I.
  - eexists. split; [apply stands; [exact Sy|exact N|exact (line_reg3 #"seq" R_Seq _ _ _ _ _ _ _ eq_refl eq_refl eq_refl G1 G2 G3 L N)]|].
    intros odd st W _. rewrite enc_seq. nums. now apply ex_seq.
  - eexists. split; [apply stands; [exact Sy|exact N|exact (line_reg3 #"sne" R_Sne _ _ _ _ _ _ _ eq_refl eq_refl eq_refl G1 G2 G3 L N)]|].
    intros odd st W _. rewrite enc_sne. nums. now apply ex_sne.
  - eexists. split; [apply stands; [exact Sy|exact N|exact (line_reg3 #"sge" R_Sge _ _ _ _ _ _ _ eq_refl eq_refl eq_refl G1 G2 G3 L N)]|].
    intros odd st W _. rewrite enc_sge. nums. rewrite Z.geb_leb. now apply ex_notlt.
  - eexists. split; [apply stands; [exact Sy|exact N|exact (line_reg3 #"sgeu" R_Sgeu _ _ _ _ _ _ _ eq_refl eq_refl eq_refl G1 G2 G3 L N)]|].
    intros odd st W _. rewrite enc_sgeu. nums. rewrite Z.geb_leb. now apply ex_notltu.
  - eexists. split; [apply stands; [exact Sy|exact N|exact (line_reg3 #"sgt" R_Sgt _ _ _ _ _ _ _ eq_refl eq_refl eq_refl G1 G2 G3 L N)]|].
    intros odd st W _. rewrite enc_sgt. nums. rewrite Z.gtb_ltb. eexists. split; [now apply ex_sgt|now apply result_write].
  - eexists. split; [apply stands; [exact Sy|exact N|exact (line_reg3 #"sgtu" R_Sgtu _ _ _ _ _ _ _ eq_refl eq_refl eq_refl G1 G2 G3 L N)]|].
    intros odd st W _. rewrite enc_sgtu. nums. rewrite Z.gtb_ltb. eexists. split; [now apply ex_sgtu|now apply result_write].
  - eexists. split; [apply stands; [exact Sy|exact N|exact (line_reg3 #"sle" R_Sle _ _ _ _ _ _ _ eq_refl eq_refl eq_refl G1 G2 G3 L N)]|].
    intros odd st W _. rewrite enc_sle. nums. now apply ex_notlt.
  - eexists. split; [apply stands; [exact Sy|exact N|exact (line_reg3 #"sleu" R_Sleu _ _ _ _ _ _ _ eq_refl eq_refl eq_refl G1 G2 G3 L N)]|].
    intros odd st W _. rewrite enc_sleu. nums. now apply ex_notltu.
Qed.

(** ** C21  Multiplication *)

Theorem C21_products : forall name f td ts tt rd rs rt' l, In (name, f) products -> gpr_text td rd -> gpr_text ts rs -> gpr_text tt rt' ->
  instruction_line name [td; ts; tt] l -> ~ In nl l ->
  exists ws, stands_for rt m l ws /\ forall odd st, well st ->
    exists st', finishes odd ws st st' /\ result [] st rd (f (value st rs) (value st rt')) st'.
Proof.
  intros name f td ts tt rd rs rt' l I G1 G2 G3 L N. assert (R1 := gpr_range _ _ G1). assert (R2 := gpr_range _ _ G2). assert (R3 := gpr_range _ _ G3).
  look I.
  - eexists. split; [apply stands; [exact Sy|exact N|exact (line_reg3 #"mul" R_Mul _ _ _ _ _ _ _ eq_refl eq_refl eq_refl G1 G2 G3 L N)]|].
    intros odd st W. rewrite enc_mul. nums. now apply ex_mult.
  - eexists. split; [apply stands; [exact Sy|exact N|exact (line_reg3 #"mulu" R_Mulu _ _ _ _ _ _ _ eq_refl eq_refl eq_refl G1 G2 G3 L N)]|].
    intros odd st W. rewrite enc_mulu. nums. now apply ex_multu.
  - eexists. split; [apply stands; [exact Sy|exact N|exact (line_reg3 #"dmul" R_Dmul _ _ _ _ _ _ _ eq_refl eq_refl eq_refl G1 G2 G3 L N)]|].
    intros odd st W. rewrite enc_dmul. nums. now apply ex_dmult.
  - eexists. split; [apply stands; [exact Sy|exact N|exact (line_reg3 #"dmulu" R_Dmulu _ _ _ _ _ _ _ eq_refl eq_refl eq_refl G1 G2 G3 L N)]|].
    intros odd st W. rewrite enc_dmulu. nums. now apply ex_dmultu.
Qed.

(** ** C22  Overflow-checked multiplication *)

Theorem C22_checked_products : forall name f lo hi keep td ts tt rd rs rt' l, In (name, f, (lo, hi), keep) checked_products ->
  gpr_text td rd -> gpr_text ts rs -> gpr_text tt rt' -> rd <> 0 -> rd <> at_reg ->
  instruction_line name [td; ts; tt] l -> ~ In nl l ->
  exists ws, stands_for rt m l ws /\ forall odd st, well st -> forall p, p = f (value st rs) (value st rt') ->
    (lo <= p < hi -> exists st', finishes odd ws st st' /\ result [at_reg] st rd (keep p) st')
    /\ (~ lo <= p < hi -> raises odd ws st (TrapCode 6)).
Proof.
  intros name f lo hi keep td ts tt rd rs rt' l I G1 G2 G3 N0 N1 L N. assert (R1 := gpr_range _ _ G1). assert (R2 := gpr_range _ _ G2). assert (R3 := gpr_range _ _ G3).
  look I.
  - eexists. split; [apply stands; [exact Sy|exact N|exact (line_reg3 #"mulo" R_Mulo _ _ _ _ _ _ _ eq_refl eq_refl eq_refl G1 G2 G3 L N)]|].
    intros odd st W p ->. rewrite enc_mulo. nums. assert (X := ex_mulo odd rs rt' rd R2 R3 R1 st N0 N1). cbv zeta in X.
    destruct ((- 2 ^ 31 <=? signed32 (value st rs) * signed32 (value st rt')) && (signed32 (value st rs) * signed32 (value st rt') <? 2 ^ 31)) eqn:E;
      split; intros Hp; try exact X; exfalso; lia.
  - eexists. split; [apply stands; [exact Sy|exact N|exact (line_reg3 #"mulou" R_Mulou _ _ _ _ _ _ _ eq_refl eq_refl eq_refl G1 G2 G3 L N)]|].
    intros odd st W p ->. rewrite enc_mulou. nums. assert (X := ex_mulou odd rs rt' rd R2 R3 R1 st N1). cbv zeta in X.
    assert (0 <= low32 (value st rs) * low32 (value st rt')) by (apply Z.mul_nonneg_nonneg; apply low32_range).
    destruct (low32 (value st rs) * low32 (value st rt') <? 2 ^ 32) eqn:E; split; intros Hp; try exact X; exfalso; lia.
  - eexists. split; [apply stands; [exact Sy|exact N|exact (line_reg3 #"dmulo" R_Dmulo _ _ _ _ _ _ _ eq_refl eq_refl eq_refl G1 G2 G3 L N)]|].
    intros odd st W p ->. rewrite enc_dmulo. nums. assert (X := ex_dmulo odd rs rt' rd R2 R3 R1 st W N0 N1). cbv zeta in X.
    destruct ((- 2 ^ 63 <=? signed64 (value st rs) * signed64 (value st rt')) && (signed64 (value st rs) * signed64 (value st rt') <? 2 ^ 63)) eqn:E;
      split; intros Hp; try exact X; exfalso; lia.
  - eexists. split; [apply stands; [exact Sy|exact N|exact (line_reg3 #"dmulou" R_Dmulou _ _ _ _ _ _ _ eq_refl eq_refl eq_refl G1 G2 G3 L N)]|].
    intros odd st W p ->. rewrite enc_dmulou. nums. assert (X := ex_dmulou odd rs rt' rd R2 R3 R1 st W N1). cbv zeta in X.
    assert (0 <= value st rs * value st rt') by (apply Z.mul_nonneg_nonneg; apply W).
    destruct (value st rs * value st rt' <? 2 ^ 64) eqn:E; split; intros Hp; try (exfalso; lia); try exact X.
    rewrite low64_small by lia. exact X.
Qed.

(** ** C23  Unsigned division *)

Theorem C23_unsigned_division : forall name word f td ts tt rd rs rt' l, In (name, word, f) unsigned_divisions ->
  gpr_text td rd -> gpr_text ts rs -> gpr_text tt rt' -> rt' <> 0 ->
  instruction_line name [td; ts; tt] l -> ~ In nl l ->
  exists ws, stands_for rt m l ws /\ forall odd st, well st -> operand_width word (value st rt') ->
    if value st rt' =? 0 then raises odd ws st (TrapCode 7)
    else exists st', finishes odd ws st st' /\ result [] st rd (f (value st rs) (value st rt')) st'.
Proof.
  intros name word f td ts tt rd rs rt' l I G1 G2 G3 N0 L N. assert (R1 := gpr_range _ _ G1). assert (R2 := gpr_range _ _ G2). assert (R3 := gpr_range _ _ G3).
  look I.
  - eexists. split; [apply stands; [exact Sy|exact N|exact (line_div3 #"divu" R_Divu _ _ _ _ _ _ _ eq_refl eq_refl eq_refl G1 G2 G3 L N)]|].
    intros odd st W V. rewrite enc_divu by (nums; exact N0). nums. exact (ex_divu odd rs rt' rd R2 R3 R1 st 18 ltac:(lia) V).
  - eexists. split; [apply stands; [exact Sy|exact N|exact (line_reg3 #"remu" R_Remu _ _ _ _ _ _ _ eq_refl eq_refl eq_refl G1 G2 G3 L N)]|].
    intros odd st W V. rewrite enc_remu. nums. exact (ex_divu odd rs rt' rd R2 R3 R1 st 16 ltac:(lia) V).
  - eexists. split; [apply stands; [exact Sy|exact N|exact (line_div3 #"ddivu" R_Ddivu _ _ _ _ _ _ _ eq_refl eq_refl eq_refl G1 G2 G3 L N)]|].
    intros odd st W V. rewrite enc_ddivu by (nums; exact N0). nums. exact (ex_ddivu odd rs rt' rd R2 R3 R1 st 18 ltac:(lia)).
  - eexists. split; [apply stands; [exact Sy|exact N|exact (line_reg3 #"dremu" R_Dremu _ _ _ _ _ _ _ eq_refl eq_refl eq_refl G1 G2 G3 L N)]|].
    intros odd st W V. rewrite enc_dremu. nums. exact (ex_ddivu odd rs rt' rd R2 R3 R1 st 16 ltac:(lia)).
Qed.

(** ** C24  Signed division *)

Definition C24_full : Prop := forall name word f td ts tt rd rs rt' l, In (name, word, f) signed_divisions ->
  gpr_text td rd -> gpr_text ts rs -> gpr_text tt rt' -> rs <> at_reg -> rt' <> at_reg -> rd <> at_reg -> rt' <> 0 ->
  instruction_line name [td; ts; tt] l -> ~ In nl l ->
  exists ws, stands_for rt m l ws /\ forall odd st, well st -> operand_width word (value st rs) -> operand_width word (value st rt') ->
    forall x y, x = as_signed word (value st rs) -> y = as_signed word (value st rt') ->
    if y =? 0 then raises odd ws st (TrapCode 7)
    else if (x =? smallest word) && (y =? -1) then raises odd ws st (TrapCode 6)
    else exists st', finishes odd ws st st' /\ result [at_reg] st rd (kept word (f x y)) st'.
(** The traps are right, but the result reaches [rd] only when the divisor is -1: otherwise
    no register but $at changes (hi and lo hold the remainder and the quotient). *)
Theorem C24_signed_division_partial : forall name word f td ts tt rd rs rt' l, In (name, word, f) signed_divisions ->
  gpr_text td rd -> gpr_text ts rs -> gpr_text tt rt' -> rs <> at_reg -> rt' <> at_reg -> rt' <> 0 ->
  instruction_line name [td; ts; tt] l -> ~ In nl l ->
  exists ws, stands_for rt m l ws /\ forall odd st, well st -> operand_width word (value st rs) -> operand_width word (value st rt') ->
    forall x y, x = as_signed word (value st rs) -> y = as_signed word (value st rt') ->
    if y =? 0 then raises odd ws st (TrapCode 7)
    else if y =? -1 then
      if x =? smallest word then raises odd ws st (TrapCode 6)
      else exists st', finishes odd ws st st' /\ result [at_reg] st rd (kept word (f x y)) st'
    else exists st', finishes odd ws st st' /\ hi st' = kept word (Z.rem x y) /\ lo st' = kept word (Z.quot x y)
           /\ forall r, r <> at_reg -> value st' r = value st r.
Proof.
  intros name word f td ts tt rd rs rt' l I G1 G2 G3 Ns Nt N0 L N. assert (R1 := gpr_range _ _ G1). assert (R2 := gpr_range _ _ G2). assert (R3 := gpr_range _ _ G3).
  look I.
  - eexists. split; [apply stands; [exact Sy|exact N|exact (line_div3 #"div" R_Div _ _ _ _ _ _ _ eq_refl eq_refl eq_refl G1 G2 G3 L N)]|].
    intros odd st W Va Vb x y -> ->. rewrite enc_div by (nums; exact N0). nums. exact (ex_div odd rs rt' rd R2 R3 R1 st 18 ltac:(lia) Ns Nt Va Vb).
  - eexists. split; [apply stands; [exact Sy|exact N|exact (line_reg3 #"rem" R_Rem _ _ _ _ _ _ _ eq_refl eq_refl eq_refl G1 G2 G3 L N)]|].
    intros odd st W Va Vb x y -> ->. rewrite enc_rem. nums. exact (ex_div odd rs rt' rd R2 R3 R1 st 16 ltac:(lia) Ns Nt Va Vb).
  - eexists. split; [apply stands; [exact Sy|exact N|exact (line_div3 #"ddiv" R_Ddiv _ _ _ _ _ _ _ eq_refl eq_refl eq_refl G1 G2 G3 L N)]|].
    intros odd st W Va Vb x y -> ->. rewrite enc_ddiv by (nums; exact N0). nums. exact (ex_ddiv odd rs rt' rd R2 R3 R1 st 18 ltac:(lia) Ns Nt W).
  - eexists. split; [apply stands; [exact Sy|exact N|exact (line_reg3 #"drem" R_Drem _ _ _ _ _ _ _ eq_refl eq_refl eq_refl G1 G2 G3 L N)]|].
    intros odd st W Va Vb x y -> ->. rewrite enc_drem. nums. exact (ex_ddiv odd rs rt' rd R2 R3 R1 st 16 ltac:(lia) Ns Nt W).
Qed.

Theorem C24_refuted : ~ C24_full.
Proof.
  intros H. assert (L := plain_statement #"div" #"$a0" [ #"$a1"; #"$a2" ]). assert (N : ~ In nl (#"div" ++ #" " ++ join #"," [ #"$a0"; #"$a1"; #"$a2" ])) by (vm_compute; intuition discriminate).
  assert (I : In (#"div", true, Z.quot) signed_divisions) by now left.
  destruct (H _ _ _ _ _ _ _ _ _ _ I gpr_a0 gpr_a1 gpr_a2 ltac:(discriminate) ltac:(discriminate) ltac:(discriminate) ltac:(discriminate) L N) as (ws & S & F).
  destruct (C24_signed_division_partial _ _ _ _ _ _ _ _ _ _ I gpr_a0 gpr_a1 gpr_a2 ltac:(discriminate) ltac:(discriminate) ltac:(discriminate) L N) as (ws' & S' & G).
  rewrite <- (stands_unique _ _ _ _ _ S S') in G. set (st := holding 5 7 6 2) in *.
  assert (W : well st) by (apply holding_well; lia).
  specialize (F (fun _ => 0) st W eq_refl eq_refl 7 2 eq_refl eq_refl). specialize (G (fun _ => 0) st W eq_refl eq_refl 7 2 eq_refl eq_refl).
  cbn [Z.eqb Pos.eqb smallest andb] in F, G. destruct F as (a & A & [V _]). destruct G as (b & B & _ & _ & V').
  rewrite (finishes_unique _ _ _ _ _ A B) in V. specialize (V ltac:(discriminate)). rewrite (V' 4 ltac:(discriminate)) in V.
  vm_compute in V. discriminate V.
Qed.

(** ** C25  Rotations *)

Theorem C25_rotations : forall name f td ts tt rd rs rt' l, In (name, f) rotations -> gpr_text td rd -> gpr_text ts rs -> gpr_text tt rt' ->
  rd <> at_reg -> rs <> at_reg -> rt' <> at_reg -> instruction_line name [td; ts; tt] l -> ~ In nl l ->
  computes rt m l [at_reg] rd always (fun st => f (value st rs) (value st rt' mod 64)).
Proof.
  intros name f td ts tt rd rs rt' l I G1 G2 G3 Nd Ns Nt L N. assert (R1 := gpr_range _ _ G1). assert (R2 := gpr_range _ _ G2). assert (R3 := gpr_range _ _ G3).
  look I.
  - eexists. split; [apply stands; [exact Sy|exact N|exact (line_reg3 #"drol" R_Drol _ _ _ _ _ _ _ eq_refl eq_refl eq_refl G1 G2 G3 L N)]|].
    intros odd st W _. rewrite enc_drol. nums. assert (X := ex_drol odd rs rt' rd R2 R3 R1 st W Ns Nt Nd). cbv zeta in X.
    replace (rotate_left _ _) with ((value st rs * 2 ^ (value st rt' mod 64)) mod 2 ^ 64 + (if value st rt' mod 64 =? 0 then 0 else value st rs / 2 ^ (64 - value st rt' mod 64))); [exact X|].
    unfold rotate_left. f_equal. destruct (Z.eqb_spec (value st rt' mod 64) 0) as [->|]; [|reflexivity].
    symmetry. apply Z.div_small. apply W.
  - eexists. split; [apply stands; [exact Sy|exact N|exact (line_reg3 #"dror" R_Dror _ _ _ _ _ _ _ eq_refl eq_refl eq_refl G1 G2 G3 L N)]|].
    intros odd st W _. rewrite enc_dror. nums. assert (X := ex_dror odd rs rt' rd R2 R3 R1 st W Ns Nt Nd). cbv zeta in X.
    replace (rotate_right _ _) with (value st rs / 2 ^ (value st rt' mod 64) + (if value st rt' mod 64 =? 0 then 0 else (value st rs * 2 ^ (64 - value st rt' mod 64)) mod 2 ^ 64)); [exact X|].
    unfold rotate_right. f_equal. destruct (Z.eqb_spec (value st rt' mod 64) 0) as [->|]; [|reflexivity].
    symmetry. apply Z.mod_mul. lia.
Qed.

(** ** C26  Subtract-immediate *)

(** The word is the add-immediate with the same registers whose field, read as a signed
    number, is -n. *)
Definition C26_full : Prop := forall name f t1 t2 t3 r s n l, In (name, f) subtractions ->
  gpr_text t1 r -> gpr_text t2 s -> signed_numeral t3 n -> -32768 <= n < 32768 -> instruction_line name [t1; t2; t3] l -> ~ In nl l ->
  exists w, stands_for rt m l [w] /\ w = word f [OReg r; OReg s; OInt (- n)] /\ signed16 (field w 0 16) = - n.

Lemma sub_line name p k t1 t2 t3 r s n l : In (name, p, k) [(#"subi", I_Subi, 8); (#"subiu", I_Subiu, 9); (#"dsubi", I_Dsubi, 24); (#"dsubiu", I_Dsubiu, 25)] ->
  gpr_text t1 r -> gpr_text t2 s -> signed_numeral t3 n -> -32768 <= n < 32768 -> instruction_line name [t1; t2; t3] l -> ~ In nl l ->
  stands_for rt m l [iword k s r ((- n) mod 65536)].
Proof.
  intros I G1 G2 G3 V L N. apply stands; [exact Sy|exact N|].
  assert (M := Z.mod_pos_bound n 65536 ltac:(lia)).
  replace [iword k s r ((- n) mod 65536)] with [iword k (reg_num (reg_of_num s)) (reg_num (reg_of_num r)) ((- (n mod 65536)) mod 65536)].
  2: { rewrite !OperandProofs.reg_of_num_num by (eapply gpr_range; eassumption). do 2 f_equal. rewrite <- !Z.sub_0_l. apply Zminus_mod_idemp_r. }
  cbn [In] in I; repeat (lazymatch type of I with _ \/ _ => destruct I as [I|I] end);
  lazymatch type of I with False => destruct I | _ => apply pair_inv in I as [I K]; apply pair_inv in I as [I P]; subst name p k end.
  - eapply (line_imm3 #"subi" I_Subi _ _ _ _ _ _ _ _ eq_refl eq_refl eq_refl eq_refl G1 G2 G3 V L N). intros oc. apply enc_sub; [|exact M]. now left.
  - eapply (line_imm3 #"subiu" I_Subiu _ _ _ _ _ _ _ _ eq_refl eq_refl eq_refl eq_refl G1 G2 G3 V L N). intros oc. apply enc_sub; [|exact M]. now right; left.
  - eapply (line_imm3 #"dsubi" I_Dsubi _ _ _ _ _ _ _ _ eq_refl eq_refl eq_refl eq_refl G1 G2 G3 V L N). intros oc. apply enc_sub; [|exact M]. now right; right; left.
  - eapply (line_imm3 #"dsubiu" I_Dsubiu _ _ _ _ _ _ _ _ eq_refl eq_refl eq_refl eq_refl G1 G2 G3 V L N). intros oc. apply enc_sub; [|exact M]. now right; right; right; left.
Qed.
Lemma field16 k s r v : 0 <= v < 65536 -> field (iword k s r v) 0 16 = v.
Proof.
  intros V. unfold field, iword. rewrite Z.div_1_r.
  replace (k * 2 ^ 26 + s * 2 ^ 21 + r * 2 ^ 16 + v) with (v + (k * 2 ^ 10 + s * 2 ^ 5 + r) * 2 ^ 16) by ring.
  rewrite Z.mod_add by lia. apply Z.mod_small. lia.
Qed.
Lemma signed16_mod n : -32768 <= n < 32768 -> signed16 (n mod 65536) = n.
Proof. intros N. unfold signed16. destruct (Z.ltb_spec (n mod 65536) 32768) as [L|L]; assert (D := Z.div_mod n 65536 ltac:(lia)); assert (M := Z.mod_pos_bound n 65536 ltac:(lia)); lia. Qed.
Lemma sub_tables name f : In (name, f) subtractions -> exists p k,
  In (name, p, k) [(#"subi", I_Subi, 8); (#"subiu", I_Subiu, 9); (#"dsubi", I_Dsubi, 24); (#"dsubiu", I_Dsubiu, 25)]
  /\ forall r s n, word f [OReg r; OReg s; OInt n] = iword k s r (n mod 65536).
Proof.
  unfold subtractions. intros I. cbn [In] in I; repeat (lazymatch type of I with _ \/ _ => destruct I as [I|I] end);
  lazymatch type of I with False => destruct I | _ => apply pair_inv in I as [I K]; subst name f end.
  - exists I_Subi, 8. split; [now left|]. intros r s n. unfold iword, word, key_word, ops_word, normal, sumZ, op6, Rt, Rs. cbn [f_key f_ops combine map fold_right place fst snd]. ring.
  - exists I_Subiu, 9. split; [now right; left|]. intros r s n. unfold iword, word, key_word, ops_word, normal, sumZ, op6, Rt, Rs. cbn [f_key f_ops combine map fold_right place fst snd]. ring.
  - exists I_Dsubi, 24. split; [now right; right; left|]. intros r s n. unfold iword, word, key_word, ops_word, normal, sumZ, op6, Rt, Rs. cbn [f_key f_ops combine map fold_right place fst snd]. ring.
  - exists I_Dsubiu, 25. split; [now right; right; right; left|]. intros r s n. unfold iword, word, key_word, ops_word, normal, sumZ, op6, Rt, Rs. cbn [f_key f_ops combine map fold_right place fst snd]. ring.
Qed.

Theorem C26_subtract_immediate_partial : forall name f t1 t2 t3 r s n l, In (name, f) subtractions ->
  gpr_text t1 r -> gpr_text t2 s -> signed_numeral t3 n -> -32767 <= n < 32768 -> instruction_line name [t1; t2; t3] l -> ~ In nl l ->
  exists w, stands_for rt m l [w] /\ w = word f [OReg r; OReg s; OInt (- n)] /\ signed16 (field w 0 16) = - n.
Proof.
  intros name f t1 t2 t3 r s n l I G1 G2 G3 V L N. destruct (sub_tables _ _ I) as (p & k & J & E).
  exists (iword k s r ((- n) mod 65536)). split; [eapply (sub_line _ p k); eauto; lia|]. split; [now rewrite E|].
  rewrite field16 by (apply Z.mod_pos_bound; lia). apply signed16_mod. lia.
Qed.
(** -32768 is accepted, and 0x8000, which is -32768, is added. *)
Theorem C26_refuted : ~ C26_full.
Proof.
  intros H. assert (Nu : signed_numeral #"-0x8000" (-32768)) by (apply (num_neg #"0x8000" 32768); apply hex_text; [vm_compute; reflexivity|lia]).
  assert (L := plain_statement #"subi" #"$a0" [ #"$a1"; #"-0x8000" ]).
  assert (N : ~ In nl (#"subi" ++ #" " ++ join #"," [ #"$a0"; #"$a1"; #"-0x8000" ])) by (vm_compute; intuition discriminate).
  destruct (H _ _ _ _ _ _ _ _ _ (or_introl eq_refl) gpr_a0 gpr_a1 Nu ltac:(lia) L N) as (w & S & _ & E).
  assert (S' := sub_line #"subi" I_Subi 8 _ _ _ _ _ _ _ (or_introl eq_refl) gpr_a0 gpr_a1 Nu ltac:(lia) L N).
  assert (W := stands_unique _ _ _ _ _ S S'). injection W as ->. vm_compute in E. discriminate E.
Qed.
End Lines.

(** ** Concrete cases *)

(** Hypotheses that are met: a case-insensitive mnemonic, register aliases, a comment. *)
Example C15_case_line : instruction_line #"li" [ #"$a0"; #"0x12345678" ] #"  LI $a0 ,0x12345678 ; constant"
  /\ numeral #"0x12345678" 0x12345678 /\ gpr_text #"$a0" 4.
Proof.
  split; [|split; [apply hex_text; [vm_compute; reflexivity|lia]|exact gpr_a0]].
  exists #"  ", #"LI $a0 ,0x12345678", #" ", #"; constant". repeat split; try (now constructor); try discriminate.
  apply (st_ops #"li" #"LI" _ _ #"$a0 " [ #"0x12345678" ]); [reflexivity|]. constructor; [exists [], #" "; repeat split|].
  constructor; [exists [], []; repeat split|constructor].
Qed.
Example C15_case : forall rt, exists out, assemble rt m_new #"  LI $a0 ,0x12345678 ; constant" = Ok out /\ get_bytes out = [0x3c041234; 0x34845678].
Proof. intros rt. eexists. split; vm_compute; reflexivity. Qed.
(** The two words of [C15_case], executed. *)
Example C15_case_run : forall odd, exists st', finishes odd [0x3c041234; 0x34845678] (holding 5 7 6 9) st' /\ value st' 4 = 0x12345678 /\ value st' 5 = 7.
Proof.
  intros odd. set (en := match cycles odd 2 [0x3c041234; 0x34845678] (At 0 1 (holding 5 7 6 9)) with At _ _ s => s | _ => holding 0 0 0 0 end).
  exists en. split; [exists 2%nat; vm_compute; reflexivity|]. split; vm_compute; reflexivity.
Qed.
(** Trapping and overflowing runs: mulo of 2^20 by 2^20, neg of the smallest word, divu by 0. *)
Example C22_case_trap : forall odd, raises odd [rword 5 6 0 0 24; rword 0 0 4 0 18; rword 0 4 4 31 3; rword 0 0 1 0 16; rword 4 1 0 6 54; rword 0 0 4 0 18]
  (holding 5 (2 ^ 20) 6 (2 ^ 20)) (TrapCode 6).
Proof. intros odd. eexists 5%nat, _. vm_compute. reflexivity. Qed.
Example C17_case_overflow : forall odd, raises odd [rword 0 5 4 0 34] (holding 5 (word32 (2 ^ 31)) 0 0) Overflow.
Proof. intros odd. eexists 1%nat, _. vm_compute. reflexivity. Qed.
Example C23_case_zero : forall odd, raises odd [rword 6 0 0 7 52; rword 5 6 0 0 27; rword 0 0 4 0 18] (holding 5 3 6 0) (TrapCode 7).
Proof. intros odd. eexists 1%nat, _. vm_compute. reflexivity. Qed.
(** The formats of C26 are formats of the instruction set. *)
Example C26_formats : Forall (fun nf => existsb (fun f => str_eqb (f_name f) (f_name (snd nf))) isa = true) subtractions.
Proof. unfold subtractions. repeat (apply Forall_cons; [vm_compute; reflexivity|]). apply Forall_nil. Qed.
Example C26_case : forall rt, exists out, assemble rt m_new #"DSUBIU $a0, $a1, 5" = Ok out
  /\ get_bytes out = [word (normal 25 "daddiu" [Rt; Rs; Simm]) [OReg 4; OReg 5; OInt (-5)]].
Proof. intros rt. eexists. split; vm_compute; reflexivity. Qed.

Print Assumptions C15_li_loads_its_constant_partial.
Print Assumptions C15_wrong_above.
Print Assumptions C15_refuted.
Print Assumptions C16_liu_loads_its_constant.
Print Assumptions C16_lli_loads_its_constant.
Print Assumptions C16_dli_loads_its_constant.
Print Assumptions C17_unary.
Print Assumptions C17_clear.
Print Assumptions C17_negations.
Print Assumptions C17_move_partial.
Print Assumptions C17_move_refuted.
Print Assumptions C18_abs.
Print Assumptions C18_dabs_partial.
Print Assumptions C18_dabs_refuted.
Print Assumptions C19_set_on_comparison.
Print Assumptions C21_products.
Print Assumptions C22_checked_products.
Print Assumptions C23_unsigned_division.
Print Assumptions C24_signed_division_partial.
Print Assumptions C24_refuted.
Print Assumptions C25_rotations.
Print Assumptions C26_subtract_immediate_partial.
Print Assumptions C26_refuted.
