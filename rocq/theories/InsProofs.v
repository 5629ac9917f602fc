(** * InsProofs: pseudo-instruction expansions (proofs only). *)

From Coq Require Import Lia.
From Verif Require Import Lib SpecIsa StrLemmas NumLemmas DecodeProofs TextProofs OperandProofs NativeProofs LineProofs ScanProofs ProgProofs AsmProofs MachineProofs ExecProofs
  SpecMachine PseudoProofs BranchProofs LabelProofs CompareProofs SpecText SpecProgram SpecLabels SpecAccept.

(** ** The words of the instructions used *)

Ltac ins_eq := unfold trap, ins, regs, reg_imm;
  match goal with |- context [find ?p isa] => let r := eval vm_compute in (find p isa) in replace (find p isa) with r by (vm_compute; reflexivity) end;
  unfold word, key_word, ops_word, rword, iword; cbn [f_key f_ops f_name map combine sumZ fold_right fst snd app place]; unfold AT; try lia.

Lemma ins_xor d s t : ins "xor" (regs [d; s; t]) = rword s t d 0 38. Proof. ins_eq. Qed.
Lemma ins_or d s t : ins "or" (regs [d; s; t]) = rword s t d 0 37. Proof. ins_eq. Qed.
Lemma ins_slt d s t : ins "slt" (regs [d; s; t]) = rword s t d 0 42. Proof. ins_eq. Qed.
Lemma ins_sltu d s t : ins "sltu" (regs [d; s; t]) = rword s t d 0 43. Proof. ins_eq. Qed.
Lemma ins_subu d s t : ins "subu" (regs [d; s; t]) = rword s t d 0 35. Proof. ins_eq. Qed.
Lemma ins_dsub d s t : ins "dsub" (regs [d; s; t]) = rword s t d 0 46. Proof. ins_eq. Qed.
Lemma ins_dsubu d s t : ins "dsubu" (regs [d; s; t]) = rword s t d 0 47. Proof. ins_eq. Qed.
Lemma ins_dsrlv d s t : ins "dsrlv" (regs [d; s; t]) = rword t s d 0 22. Proof. ins_eq. Qed.
Lemma ins_dsllv d s t : ins "dsllv" (regs [d; s; t]) = rword t s d 0 20. Proof. ins_eq. Qed.
Lemma ins_mult s t : ins "mult" (regs [s; t]) = rword s t 0 0 24. Proof. ins_eq. Qed.
Lemma ins_multu s t : ins "multu" (regs [s; t]) = rword s t 0 0 25. Proof. ins_eq. Qed.
Lemma ins_dmult s t : ins "dmult" (regs [s; t]) = rword s t 0 0 28. Proof. ins_eq. Qed.
Lemma ins_dmultu s t : ins "dmultu" (regs [s; t]) = rword s t 0 0 29. Proof. ins_eq. Qed.
Lemma ins_div s t : ins "div" (regs [s; t]) = rword s t 0 0 26. Proof. ins_eq. Qed.
Lemma ins_divu s t : ins "divu" (regs [s; t]) = rword s t 0 0 27. Proof. ins_eq. Qed.
Lemma ins_ddiv s t : ins "ddiv" (regs [s; t]) = rword s t 0 0 30. Proof. ins_eq. Qed.
Lemma ins_ddivu s t : ins "ddivu" (regs [s; t]) = rword s t 0 0 31. Proof. ins_eq. Qed.
Lemma ins_mflo d : ins "mflo" (regs [d]) = rword 0 0 d 0 18. Proof. ins_eq. Qed.
Lemma ins_mfhi d : ins "mfhi" (regs [d]) = rword 0 0 d 0 16. Proof. ins_eq. Qed.
Lemma ins_sra d t v : ins "sra" (reg_imm [d; t] v) = rword 0 t d v 3. Proof. ins_eq. Qed.
Lemma ins_dsra d t v : ins "dsra" (reg_imm [d; t] v) = rword 0 t d v 59. Proof. ins_eq. Qed.
Lemma ins_dsra32 d t v : ins "dsra32" (reg_imm [d; t] v) = rword 0 t d v 63. Proof. ins_eq. Qed.
Lemma ins_dsll d t v : ins "dsll" (reg_imm [d; t] v) = rword 0 t d v 56. Proof. ins_eq. Qed.
Lemma ins_dsll32 d t v : ins "dsll32" (reg_imm [d; t] v) = rword 0 t d v 60. Proof. ins_eq. Qed.
Lemma ins_xori t s v : ins "xori" (reg_imm [t; s] v) = iword 14 s t v. Proof. ins_eq. Qed.
Lemma ins_ori t s v : ins "ori" (reg_imm [t; s] v) = iword 13 s t v. Proof. ins_eq. Qed.
Lemma ins_lui t v : ins "lui" (reg_imm [t] v) = iword 15 0 t v. Proof. ins_eq. Qed.
Lemma ins_sltiu t s v : ins "sltiu" (reg_imm [t; s] v) = iword 11 s t (v mod 65536). Proof. ins_eq. Qed.
Lemma ins_addi t s v : ins "addi" (reg_imm [t; s] v) = iword 8 s t (v mod 65536). Proof. ins_eq. Qed.
Lemma ins_addiu t s v : ins "addiu" (reg_imm [t; s] v) = iword 9 s t (v mod 65536). Proof. ins_eq. Qed.
Lemma ins_daddi t s v : ins "daddi" (reg_imm [t; s] v) = iword 24 s t (v mod 65536). Proof. ins_eq. Qed.
Lemma ins_daddiu t s v : ins "daddiu" (reg_imm [t; s] v) = iword 25 s t (v mod 65536). Proof. ins_eq. Qed.
Lemma ins_beq s t v : ins "beq" (reg_imm [s; t] v) = iword 4 s t (v mod 65536). Proof. ins_eq. Qed.
Lemma ins_bne s t v : ins "bne" (reg_imm [s; t] v) = iword 5 s t (v mod 65536). Proof. ins_eq. Qed.
Lemma ins_beql s t v : ins "beql" (reg_imm [s; t] v) = iword 20 s t (v mod 65536). Proof. ins_eq. Qed.
Lemma ins_bnel s t v : ins "bnel" (reg_imm [s; t] v) = iword 21 s t (v mod 65536). Proof. ins_eq. Qed.
Lemma ins_teq a b c : trap "teq" a b c = rword a b 0 c 52. Proof. ins_eq. Qed.
Lemma ins_tne a b c : trap "tne" a b c = rword a b 0 c 54. Proof. ins_eq. Qed.
Ltac inss := rewrite ?ins_xor, ?ins_or, ?ins_slt, ?ins_sltu, ?ins_subu, ?ins_dsub, ?ins_dsubu, ?ins_dsrlv, ?ins_dsllv, ?ins_mult, ?ins_multu, ?ins_dmult, ?ins_dmultu,
  ?ins_div, ?ins_divu, ?ins_ddiv, ?ins_ddivu, ?ins_mflo, ?ins_mfhi, ?ins_sra, ?ins_dsra, ?ins_dsra32, ?ins_dsll, ?ins_dsll32, ?ins_xori, ?ins_ori, ?ins_lui, ?ins_sltiu,
  ?ins_addi, ?ins_addiu, ?ins_daddi, ?ins_daddiu, ?ins_beq, ?ins_bne, ?ins_beql, ?ins_bnel, ?ins_teq, ?ins_tne; unfold AT.

(** ** Lines *)

Lemma pair_inv3 {A B} (a c : A) (b d : B) : (a, b) = (c, d) -> a = c /\ b = d.
Proof. intros H. split; [exact (f_equal fst H)|exact (f_equal snd H)]. Qed.
Ltac choose I := cbn [In] in I; repeat (lazymatch type of I with _ \/ _ => destruct I as [I|I] end);
  lazymatch type of I with False => destruct I | _ => apply pair_inv3 in I; destruct I as [<- <-] end.

Ltac three_regs lem p G1 G2 G3 L N := 
  lazymatch type of L with instruction_line ?n _ _ =>
    let H := fresh in assert (H := lem n p _ _ _ _ _ _ _ eq_refl eq_refl eq_refl G1 G2 G3 L N) end.

Lemma line_ok_eq l ws ws' : line_ok l ws -> ws' = ws -> line_ok l ws'.
Proof. now intros H ->. Qed.
Ltac nums3 := rewrite ?OperandProofs.reg_of_num_num by assumption.

Lemma three_ok name g td ts tt d s t l : In (name, g) expansions3 -> gpr_text td d -> gpr_text ts s -> gpr_text tt t ->
  instruction_line name [td; ts; tt] l -> no_nl l -> line_ok l (g d s t).
Proof.
  intros I G1 G2 G3 L N. assert (R1 := gpr_range _ _ G1). assert (R2 := gpr_range _ _ G2). assert (R3 := gpr_range _ _ G3).
  unfold expansions3 in I. choose I; inss;
  lazymatch type of L with instruction_line ?n _ _ => let p := eval vm_compute in (rop_of n) in
    lazymatch p with Ok ?q => refine (line_ok_eq _ _ _ (line_reg3 n q _ _ _ _ _ _ _ eq_refl eq_refl eq_refl G1 G2 G3 L N) _) end end.
  - rewrite enc_seq. now nums3.
  - rewrite enc_sne. now nums3.
  - rewrite enc_sge. now nums3.
  - rewrite enc_sgeu. now nums3.
  - rewrite enc_sle. now nums3.
  - rewrite enc_sleu. now nums3.
  - rewrite enc_mul. now nums3.
  - rewrite enc_mulu. now nums3.
  - rewrite enc_dmul. now nums3.
  - rewrite enc_dmulu. now nums3.
  - rewrite enc_mulo. now nums3.
  - rewrite enc_mulou. now nums3.
  - rewrite enc_dmulo. now nums3.
  - rewrite enc_dmulou. now nums3.
  - rewrite enc_remu. now nums3.
  - rewrite enc_dremu. now nums3.
  - rewrite enc_rem. now nums3.
  - rewrite enc_drem. now nums3.
  - rewrite enc_drol. now nums3.
  - rewrite enc_dror. now nums3.
Qed.
Lemma divide_ok name g td ts tt d s t l : In (name, g) division_expansions -> gpr_text td d -> gpr_text ts s -> gpr_text tt t -> t <> 0 ->
  instruction_line name [td; ts; tt] l -> no_nl l -> line_ok l (g d s t).
Proof.
  intros I G1 G2 G3 Z0 L N. assert (R1 := gpr_range _ _ G1). assert (R2 := gpr_range _ _ G2). assert (R3 := gpr_range _ _ G3).
  unfold division_expansions in I. choose I; inss;
  lazymatch type of L with instruction_line ?n _ _ => let p := eval vm_compute in (rop_of n) in
    lazymatch p with Ok ?q => refine (line_ok_eq _ _ _ (line_div3 n q _ _ _ _ _ _ _ eq_refl eq_refl eq_refl G1 G2 G3 L N) _) end end.
  - rewrite enc_divu; nums3; [reflexivity|exact Z0].
  - rewrite enc_ddivu; nums3; [reflexivity|exact Z0].
  - rewrite enc_div; nums3; [reflexivity|exact Z0].
  - rewrite enc_ddiv; nums3; [reflexivity|exact Z0].
Qed.
Lemma two_ok name g td ts d s l : In (name, g) expansions2 -> gpr_text td d -> gpr_text ts s ->
  instruction_line name [td; ts] l -> no_nl l -> line_ok l (g d s).
Proof.
  intros I G1 G2 L N. assert (R1 := gpr_range _ _ G1). assert (R2 := gpr_range _ _ G2).
  unfold expansions2 in I. choose I; inss;
  lazymatch type of L with instruction_line ?n _ _ => let p := eval vm_compute in (rop_of n) in
    lazymatch p with Ok ?q => refine (line_ok_eq _ _ _ (line_move n q _ _ _ _ _ eq_refl eq_refl eq_refl G1 G2 L N) _) end end.
  - rewrite enc_abs. now nums3.
  - rewrite enc_dabs. now nums3.
Qed.
Lemma immediate_ok name g tt ts tn t s n l : In (name, g) immediate_expansions -> gpr_text tt t -> gpr_text ts s -> signed_numeral tn n -> -32768 <= n < 32768 ->
  instruction_line name [tt; ts; tn] l -> no_nl l -> line_ok l (g t s n).
Proof.
  intros I G1 G2 Nu Rn L N. assert (R1 := gpr_range _ _ G1). assert (R2 := gpr_range _ _ G2).
  assert (M := Z.mod_pos_bound n 65536 ltac:(lia)).
  assert (E : (- (n mod 65536)) mod 65536 = (- n) mod 65536).
  { rewrite (Z.mod_eq n 65536) by lia. replace (- (n - 65536 * (n / 65536))) with (- n + (n / 65536) * 65536) by lia. apply Z.mod_add. lia. }
  unfold immediate_expansions in I. choose I; inss; rewrite <- E;
  lazymatch type of L with instruction_line ?nm _ _ => let p := eval vm_compute in (iop_of nm) in
    lazymatch p with Ok ?q => refine (line_imm3 nm q _ _ _ _ _ _ _ _ eq_refl eq_refl eq_refl eq_refl G1 G2 Nu Rn L N _); intros oc end end.
  - rewrite (enc_sub _ _ I_Subi 8) by (auto; cbn; auto). now nums3.
  - rewrite (enc_sub _ _ I_Subiu 9) by (auto; cbn; auto). now nums3.
  - rewrite (enc_sub _ _ I_Dsubi 24) by (auto; cbn; auto). now nums3.
  - rewrite (enc_sub _ _ I_Dsubiu 25) by (auto; cbn; auto). now nums3.
Qed.
Lemma liu_words d c : 0 <= d < 32 -> liu_expansion d c = li_words (reg_of_num d) c.
Proof. intros R. unfold liu_expansion, li_words. inss. nums3. change (2 ^ 16) with 65536. destruct (c <? 65536), (c mod 65536 =? 0); now inss. Qed.
Lemma liu_ok td tc d c l : gpr_text td d -> numeral tc c -> c < 2 ^ 32 -> instruction_line #"liu" [td; tc] l -> no_nl l -> line_ok l (liu_expansion d c).
Proof.
  intros G Nu V L N. assert (R := gpr_range _ _ G). assert (V0 := numeral_nonneg _ _ Nu). rewrite liu_words by exact R.
  eapply (line_li #"liu" I_Liu); eauto; try reflexivity. intros oc. cbn [enc_i imm_as_u32 obind].
  unfold wrap. rewrite Z.mod_small by lia. rewrite enc_liu_words by lia. reflexivity.
Qed.
Lemma li_ok td tc d c l : gpr_text td d -> numeral tc c -> c < 2 ^ 32 -> instruction_line #"li" [td; tc] l -> no_nl l -> line_ok l (li_expansion d c).
Proof.
  intros G Nu V L N. assert (R := gpr_range _ _ G). assert (V0 := numeral_nonneg _ _ Nu). unfold li_expansion. rewrite liu_words by exact R.
  eapply (line_li #"li" I_Li); eauto; try reflexivity. intros oc. cbn [enc_i imm_as_u32 obind].
  unfold wrap. rewrite Z.mod_small by lia. rewrite enc_li_words by lia. nums3. change (2 ^ 16) with 65536. change 0xFFFF8000 with 4294934528.
  destruct (4294934528 <=? c); [|reflexivity]. inss. now rewrite Z.mod_mod by lia.
Qed.
Lemma dli_ok td tc d c l : gpr_text td d -> signed_numeral tc c -> - 2 ^ 63 <= c < 2 ^ 63 -> instruction_line #"dli" [td; tc] l -> no_nl l -> line_ok l (dli_expansion d c).
Proof.
  intros G Nu V L N. assert (R := gpr_range _ _ G). eapply line_dli; eauto. intros oc.
  assert (Rv : 0 <= c mod 2 ^ 64 < 2 ^ 64) by (apply Z.mod_pos_bound; lia). rewrite enc_dli_words by exact Rv. nums3.
  assert (H : forall k, 0 <= k <= 48 -> c mod 2 ^ 64 / 2 ^ k mod 65536 = c / 2 ^ k mod 65536).
  { intros k Rk. apply Z.bits_inj'. intros i Ri. change 65536 with (2 ^ 16). destruct (Z_lt_le_dec i 16).
    - rewrite !Z.mod_pow2_bits_low, !Z.div_pow2_bits, Z.mod_pow2_bits_low by lia. reflexivity.
    - rewrite !Z.mod_pow2_bits_high by lia. reflexivity. }
  unfold dli_expansion, dli_words. inss. cbv zeta. assert (E16 : 2 ^ 16 = 65536) by reflexivity. rewrite E16.
  assert (H16 := H 16 ltac:(lia)). rewrite E16 in H16.
  assert (H48 : c mod 2 ^ 64 / 2 ^ 48 = c / 2 ^ 48 mod 65536).
  { rewrite <- (H 48) by lia. symmetry. apply Z.mod_small. split; [apply Z.div_pos; lia|apply Z.div_lt_upper_bound; lia]. }
  assert (H0 : c mod 2 ^ 64 mod 65536 = c / 2 ^ 0 mod 65536).
  { rewrite <- (H 0) by lia. rewrite Z.pow_0_r, Z.div_1_r. reflexivity. }
  rewrite H48, H0, (H 32), H16 by lia. reflexivity.
Qed.

Theorem expansion_ok l ws : expansion_line l ws -> no_nl l -> line_ok l ws.
Proof.
  intros [ ] N; [eapply three_ok|eapply divide_ok|eapply two_ok|eapply immediate_ok|eapply liu_ok|eapply li_ok|eapply dli_ok]; eauto.
Qed.

(** Compare-and-branch *)
Definition compare_row_of (name : str) (g : Z -> Z -> Z -> list Z) : Prop :=
  exists likely rel p swap sgn on_set, compare_row name likely rel p swap sgn on_set /\ forall a b n, g a b n = compare_words swap sgn likely on_set a b (n mod 65536).
Ltac crow lk rl p sw sg os := unfold compare_row_of; exists lk, rl, p, sw, sg, os; split; [constructor;
  [vm_compute; reflexivity|vm_compute; reflexivity|vm_compute; reflexivity
  |intros oc a b v Ra Rb Rv; unfold enc_i, imm_as_u32, ck32; cbn [obind];
   replace ((0 <=? v - 1) && (v - 1 <? 2 ^ 32))%bool with true by lia; cbn [obind]; rewrite !reg_of_num_num by assumption;
   assert (0 <= v - 1 < 65536) by lia; generalize dependent (v - 1); intros u Ru;
   unfold compare_words; apply f_equal; repeat match goal with |- _ :: _ = _ :: _ => apply f_equal2 | |- [] = [] => reflexivity end;
   unfold rword, iword; lor_sum; lia
  |intros a b Ra Rb; cbv zeta; match goal with |- context [Bool.eqb _ ?c] => destruct c eqn:Ec end; cbn [Bool.eqb]; lia]
  |intros a b n; unfold compare_words; inss; reflexivity].
Lemma compare_expansion name g : In (name, g) compare_expansions -> compare_row_of name g.
Proof.
  intros I. unfold compare_expansions in I. choose I.
  - crow false (fun a b => signed64 a >=? signed64 b) I_Bge false true false.
  - crow false (fun a b : Z => a >=? b) I_Bgeu false false false.
  - crow true (fun a b => signed64 a >=? signed64 b) I_Bgel false true false.
  - crow true (fun a b : Z => a >=? b) I_Bgeul false false false.
  - crow false (fun a b => signed64 a >? signed64 b) I_Bgt true true true.
  - crow false (fun a b : Z => a >? b) I_Bgtu true false true.
  - crow true (fun a b => signed64 a >? signed64 b) I_Bgtl true true true.
  - crow true (fun a b : Z => a >? b) I_Bgtul true false true.
  - crow false (fun a b => signed64 a <=? signed64 b) I_Ble true true false.
  - crow false (fun a b : Z => a <=? b) I_Bleu true false false.
  - crow true (fun a b => signed64 a <=? signed64 b) I_Blel true true false.
  - crow true (fun a b : Z => a <=? b) I_Bleul true false false.
  - crow false (fun a b => signed64 a <? signed64 b) I_Blt false true true.
  - crow false (fun a b : Z => a <? b) I_Bltu false false true.
  - crow true (fun a b => signed64 a <? signed64 b) I_Bltl false true true.
  - crow true (fun a b : Z => a <? b) I_Bltul false false true.
Qed.
