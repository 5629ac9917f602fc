(** * CallLines: the lines of programs with functions and memory (proofs for C74). *)

From Coq Require Import Lia.
From Verif Require Import Lib SpecIsa StrLemmas OperandProofs NativeProofs LineProofs TextProofs ScanProofs ProgProofs AsmProofs SpecMachine MachineProofs ExecProofs
  PseudoProofs CodingProofs CauseProofs BranchProofs LabelProofs CompareProofs SpecText SpecProgram SpecLabels SpecPseudo SpecAccept InsProofs PropsPseudo PropsLabels PropsCompare SpecSize SizeProofs PropsSize
  RefProofs SpecRun RunProofs RunLines PropsRun AcceptProofs AcceptLines SpecFlow FlowProofs FlowLines SpecCalls CallProofs.

(** ** Fields of the words *)

Lemma iword_parts op rs rt imm : 0 <= op < 64 -> 0 <= rs < 32 -> 0 <= rt < 32 -> 0 <= imm < 65536 ->
  field (iword op rs rt imm) 26 6 = op /\ field (iword op rs rt imm) 21 5 = rs /\ field (iword op rs rt imm) 16 5 = rt /\ field (iword op rs rt imm) 0 16 = imm.
Proof.
  intros A B C D. split; [|split; [|split]].
  - apply (field_is _ 0 op (rs * 2 ^ 21 + rt * 2 ^ 16 + imm)); unfold iword; lia.
  - apply (field_is _ op rs (rt * 2 ^ 16 + imm)); unfold iword; lia.
  - apply (field_is _ (op * 2 ^ 5 + rs) rt imm); unfold iword; lia.
  - apply (field_is _ (op * 2 ^ 10 + rs * 2 ^ 5 + rt) imm 0); unfold iword; lia.
Qed.
Lemma rword_fields rs rt rd sa fn : 0 <= rs < 32 -> 0 <= rt < 32 -> 0 <= rd < 32 -> 0 <= sa < 32 -> 0 <= fn < 64 ->
  field (rword rs rt rd sa fn) 26 6 = 0 /\ field (rword rs rt rd sa fn) 21 5 = rs /\ field (rword rs rt rd sa fn) 11 5 = rd /\ field (rword rs rt rd sa fn) 0 6 = fn.
Proof.
  intros A B C D E. split; [|split; [|split]].
  - apply (field_is _ 0 0 (rs * 2 ^ 21 + rt * 2 ^ 16 + rd * 2 ^ 11 + sa * 2 ^ 6 + fn)); unfold rword; lia.
  - apply (field_is _ 0 rs (rt * 2 ^ 16 + rd * 2 ^ 11 + sa * 2 ^ 6 + fn)); unfold rword; lia.
  - apply (field_is _ (rs * 2 ^ 5 + rt) rd (sa * 2 ^ 6 + fn)); unfold rword; lia.
  - apply (field_is _ (rs * 2 ^ 15 + rt * 2 ^ 10 + rd * 2 ^ 5 + sa) fn 0); unfold rword; lia.
Qed.
Lemma jump_fields name a : field (jump_word name a) 26 6 = SpecAccept.jump_opcode name /\ field (jump_word name a) 0 26 = a mod 2 ^ 26 / 4.
Proof.
  assert (R : 0 <= a mod 2 ^ 26 / 4 < 2 ^ 26).
  { pose proof (Z.mod_pos_bound a (2 ^ 26) ltac:(lia)). split; [apply Z.div_pos; lia|apply Z.div_lt_upper_bound; lia]. }
  assert (O : 0 <= SpecAccept.jump_opcode name < 64) by (unfold SpecAccept.jump_opcode; destruct (str_eqb name #"j"); lia). unfold jump_word. split.
  - apply (field_is _ 0 (SpecAccept.jump_opcode name) (a mod 2 ^ 26 / 4)); lia.
  - apply (field_is _ (SpecAccept.jump_opcode name) (a mod 2 ^ 26 / 4) 0); lia.
Qed.

(** ** Loads and stores *)

Lemma w_mem op name r b off : word (normal op name [Rt; Mem]) [OReg r; OMem off b] = iword op b r (off mod 65536).
Proof. unfold word, iword. cbn -[Z.pow Z.mul Z.add Z.modulo]. lia. Qed.

Section Words.
Variable odd : Z -> Z.

Lemma access_leaves op k r b off : opcode_access op = Some k -> 3 < op < 64 -> 0 <= r < 32 -> 0 <= b < 32 -> -32768 <= off < 32768 ->
  (forall st, exec_normal op b r (off mod 65536) st = Undefined) ->
  leaves odd (iword op b r (off mod 65536)) (fun pc npc w => match accessed k r b off w with inl a => WRaised (AddressError a) w | inr w' => WAt npc (npc + 4) w' end).
Proof.
  intros Ok Ro Rr Rb Rf U. assert (Rm := Z.mod_pos_bound off 65536 ltac:(lia)). split; [intros st; rewrite exec_iword by lia; apply U|].
  intros pc npc w _. destruct (iword_parts op b r (off mod 65536) ltac:(lia) Rb Rr Rm) as (F1 & F2 & F3 & F4). unfold beyond. cbv zeta. rewrite F1, F2, F3, F4, Ok, signed16_back by lia.
  replace (op =? 2) with false by (symmetry; apply Z.eqb_neq; lia). replace (op =? 3) with false by (symmetry; apply Z.eqb_neq; lia). replace (op =? 0) with false by (symmetry; apply Z.eqb_neq; lia). reflexivity.
Qed.

Lemma pair_inv {A B} (a a' : A) (b b' : B) : (a, b) = (a', b') -> a = a' /\ b = b'. Proof. intros E. injection E. auto. Qed.

(** The format of a load or store, and its opcode. *)
Lemma memory_format name k : In (name, k) memory_instructions -> exists op n, In (normal op n [Rt; Mem]) (isa ++ idioms) /\ #n = name /\ opcode_access op = Some k /\ 3 < op < 64
  /\ (bytes_of k <= 8)%nat /\ (forall b r i st, exec_normal op b r i st = Undefined) /\ ~ In name [ #"andi"; #"ori"; #"xori" ].
Proof.
  intros I. unfold memory_instructions in I. cbn [In] in I.
  repeat (lazymatch type of I with _ \/ _ => destruct I as [I|I] end); lazymatch type of I with False => destruct I | _ => apply pair_inv in I; destruct I as (<- & <-) end.
  1: exists 32, "lb"%string. 2: exists 33, "lh"%string. 3: exists 35, "lw"%string. 4: exists 36, "lbu"%string. 5: exists 37, "lhu"%string. 6: exists 39, "lwu"%string. 7: exists 55, "ld"%string.
  8: exists 40, "sb"%string. 9: exists 41, "sh"%string. 10: exists 43, "sw"%string. 11: exists 63, "sd"%string.
  all: split; [apply in_formats; vm_compute; reflexivity|]; split; [reflexivity|]; split; [reflexivity|]; split; [lia|]; split; [cbn; lia|]; split; [reflexivity|intros X; apply mem_str_in in X; vm_compute in X; discriminate X].
Qed.

(** ** Jumps *)

Lemma jump_leaves name a : In name [ #"j"; #"jal" ] ->
  leaves odd (jump_word name a) (fun pc npc w => WAt npc ((pc + 4) / 2 ^ 28 * 2 ^ 28 + a mod 2 ^ 26 / 4 * 4) (linked (link_of name) (pc + 8) w)).
Proof.
  intros I. destruct (jump_fields name a) as [F1 F2]. split.
  - intros st. unfold exec. rewrite F1. destruct I as [<-|[<-|[]]]; reflexivity.
  - intros pc npc w _. unfold beyond. cbv zeta. rewrite F1, F2. destruct I as [<-|[<-|[]]]; reflexivity.
Qed.
Lemma jr_leaves r : 0 <= r < 32 -> leaves odd (rword r 0 0 0 8) (fun pc npc w => WAt npc (low32 (value (cpu w) r)) (linked None (pc + 8) w)).
Proof.
  intros R. destruct (rword_fields r 0 0 0 8) as (F1 & F2 & _ & F4); try lia. split; [intros st; rewrite exec_rword by lia; reflexivity|].
  intros pc npc w _. unfold beyond. cbv zeta. rewrite F1, F2, F4. reflexivity.
Qed.
Lemma jalr_leaves d r : 0 <= d < 32 -> 0 <= r < 32 -> leaves odd (rword r 0 d 0 9) (fun pc npc w => WAt npc (low32 (value (cpu w) r)) (linked (Some d) (pc + 8) w)).
Proof.
  intros Rd R. destruct (rword_fields r 0 d 0 9) as (F1 & F2 & F3 & F4); try lia. split; [intros st; rewrite exec_rword by lia; reflexivity|].
  intros pc npc w _. unfold beyond. cbv zeta. rewrite F1, F2, F3, F4. reflexivity.
Qed.
Lemma w_jr r : word (special 8 "jr" [Rs]) [OReg r] = rword r 0 0 0 8.
Proof. unfold word, rword. cbn -[Z.pow Z.mul Z.add Z.modulo]. lia. Qed.
Lemma w_jalr r : word (mk_format (lit "jalr") [op6 0; funct6 9; rd5 31] [Rs]) [OReg r] = rword r 0 31 0 9.
Proof. unfold word, rword. cbn -[Z.pow Z.mul Z.add Z.modulo]. lia. Qed.
Lemma w_jalr2 d r : word (special 9 "jalr" [Rd; Rs]) [OReg d; OReg r] = rword r 0 d 0 9.
Proof. unfold word, rword. cbn -[Z.pow Z.mul Z.add Z.modulo]. lia. Qed.
End Words.

(** ** Lines and their blocks *)

Section Lines.
Variables (rt : runtime) (m : mipsasm) (input : str) (odd : Z -> Z).
Hypothesis Sy : named_symbols (m_syms m).
Hypothesis Or : orders rt.
Hypothesis Od : forall z, 0 <= odd z < 2 ^ 64.
Hypothesis Ov : rt_oc rt = true -> 0 <= m_base m /\ m_base m + 4 * Z.of_nat (instruction_count (lines input)) < 2 ^ 32.

Definition cnear (i : nat) (x : citem) : Prop := match x with Flow y => near i y | _ => True end.

Lemma native_in f os before l : In f (isa ++ idioms) -> ~ In (f_name f) [ #"andi"; #"ori"; #"xori" ] -> native_line f os l -> no_nl l -> Forall2 notation_fits (f_ops f) os ->
  line_in (mk_parser rt m input) before l [word f os].
Proof.
  intros If Na L N Fi. eapply ok_in; eauto. apply native_line_ok; auto. intros I. exfalso. exact (Na I).
Qed.

Lemma call_line_in before l rest x : lines input = before ++ l :: rest -> no_nl l -> call_line odd (m_syms m) (lines input) before l x -> cnear (instruction_count before) x ->
  exists ws, line_in (mk_parser rt m input) before l ws /\ cblock odd (m_base m) (instruction_count before) x ws.
Proof.
  intros Ei N F Nr. destruct F as [x F|name k tr r tm b off I Gr Sp Ro L|name n k J Id Ns I|name t a J Pn Na Ra|t r G L|t r G L|td d t r Gd G L].
  - destruct (flow_line_in rt m input odd Sy Or before l rest x Ei N F Nr) as (ws & A & B). exists ws. split; [exact A|now constructor].
  - destruct (memory_format name k I) as (op & n & If & En & Ok & Rop & Bk & U & Na). exists [iword op b r (off mod 65536)].
    assert (Rr := gpr_range _ _ Gr). assert (Rb : 0 <= b < 32) by (inversion Sp; subst; eapply gpr_range; eassumption). rewrite <- (w_mem op n r b off). split.
    + apply native_in; auto; [cbn [f_name normal]; rewrite En; exact Na| |].
      * exists [tr; tm]. split; [cbn [f_name normal]; rewrite En; exact L|]. split; [|reflexivity]. constructor; [now apply sp_gpr|]. constructor; [exact Sp|constructor].
      * constructor; [split; [cbn; lia|exact Logic.I]|]. constructor; [split; [cbn; lia|exact Logic.I]|constructor].
    + rewrite w_mem. apply cb_access; [exact Bk|]. now apply access_leaves.
  - exists [jump_word name (m_base m + 4 * Z.of_nat k)]. split; [eapply jump_in; eauto|]. apply cb_jump. apply jump_leaves. exact (proj1 J).
  - exists [jump_word name a]. split; [eapply address_in; eauto|]. apply cb_jump_to. apply jump_leaves. exact (proj1 J).
  - exists [rword r 0 0 0 8]. assert (Rr := gpr_range _ _ G). rewrite <- w_jr. split.
    + apply native_in; auto; [apply in_formats; vm_compute; reflexivity|intros X; apply mem_str_in in X; vm_compute in X; discriminate X| |constructor; [split; [cbn; lia|exact Logic.I]|constructor]].
      exists [t]. split; [exact L|]. split; [|reflexivity]. constructor; [now apply sp_gpr|constructor].
    + rewrite w_jr. apply cb_jump_reg. now apply jr_leaves.
  - exists [rword r 0 31 0 9]. assert (Rr := gpr_range _ _ G). rewrite <- w_jalr. split.
    + apply native_in; auto; [apply in_formats; vm_compute; reflexivity|intros X; apply mem_str_in in X; vm_compute in X; discriminate X| |constructor; [split; [cbn; lia|exact Logic.I]|constructor]].
      exists [t]. split; [exact L|]. split; [|reflexivity]. constructor; [now apply sp_gpr|constructor].
    + rewrite w_jalr. apply cb_jump_reg. apply jalr_leaves; lia.
  - exists [rword r 0 d 0 9]. assert (Rr := gpr_range _ _ G). assert (Rd' := gpr_range _ _ Gd). rewrite <- w_jalr2. split.
    + apply native_in; auto; [apply in_formats; vm_compute; reflexivity|intros X; apply mem_str_in in X; vm_compute in X; discriminate X| |constructor; [split; [cbn; lia|exact Logic.I]|constructor; [split; [cbn; lia|exact Logic.I]|constructor]]].
      exists [td; t]. split; [exact L|]. split; [|reflexivity]. constructor; [now apply sp_gpr|]. constructor; [now apply sp_gpr|constructor].
    + rewrite w_jalr2. apply cb_jump_reg. apply jalr_leaves; lia.
Qed.

Lemma call_items before ls p : calls odd (m_syms m) (lines input) before ls p -> lines input = before ++ ls ->
  (forall j x, nth_error p j = Some x -> cnear (instruction_count before + j) x) ->
  exists wss, items (mk_parser rt m input) before ls wss /\ cblocks odd (m_base m) (instruction_count before) p (code_words ls wss).
Proof.
  assert (Nn := nl_of_lines input).
  induction 1 as [before|before l ls p B F IH|before n l ls p Id L F IH|before l x ls p F1 F IH]; intros Ei Nr.
  - exists []. split; constructor.
  - assert (R := role_blank l B). assert (C : instruction_count [l] = 0%nat) by (unfold instruction_count; cbn [filter]; unfold is_instruction; now rewrite R).
    destruct IH as (wss & I1 & I2); [rewrite Ei, <- app_assoc; reflexivity|intros j x; rewrite instruction_count_app, C, Nat.add_0_r; apply Nr|].
    exists ([] :: wss). split; [constructor; [now apply it_blank|exact I1]|]. rewrite instruction_count_app, C, Nat.add_0_r in I2.
    unfold code_words. cbn [combine filter fst]. unfold is_instruction at 1. rewrite R. exact I2.
  - assert (R := role_label_line n l Id L). assert (C : instruction_count [l] = 0%nat) by (unfold instruction_count; cbn [filter]; unfold is_instruction; now rewrite R).
    destruct IH as (wss & I1 & I2); [rewrite Ei, <- app_assoc; reflexivity|intros j x; rewrite instruction_count_app, C, Nat.add_0_r; apply Nr|].
    exists ([] :: wss). split; [constructor; [now apply it_label with n|exact I1]|]. rewrite instruction_count_app, C, Nat.add_0_r in I2.
    unfold code_words. cbn [combine filter fst]. unfold is_instruction at 1. rewrite R. exact I2.
  - assert (N : no_nl l) by (apply (proj1 (Forall_forall _ _) Nn); rewrite Ei; apply in_or_app; right; now left).
    destruct (call_line_in before l ls x Ei N F1) as (ws & L1 & B1); [specialize (Nr O x eq_refl); now rewrite Nat.add_0_r in Nr|].
    assert (R : role_of l = Instruction) by (destruct L1 as (Ne & Ec & _); now apply role_native).
    assert (C : instruction_count [l] = 1%nat) by (unfold instruction_count; cbn [filter]; unfold is_instruction; now rewrite R).
    destruct IH as (wss & I1 & I2); [rewrite Ei, <- app_assoc; reflexivity|intros j y Hj; rewrite instruction_count_app, C, <- Nat.add_assoc; apply (Nr (S j) y Hj)|].
    exists (ws :: wss). split; [constructor; [now apply it_code|exact I1]|]. rewrite instruction_count_app, C, Nat.add_1_r in I2.
    unfold code_words. cbn [combine filter fst]. unfold is_instruction at 1. rewrite R. cbn [map snd]. constructor; [exact B1|exact I2].
Qed.

Theorem calls_follow p : distinct_labels (lines input) -> calls odd (m_syms m) (lines input) [] (lines input) p -> well_called (m_base m) p ->
  exists out, assemble rt m input = Ok out /\ List.concat (words_of out) = get_bytes out
    /\ ((forall j x, nth_error p j = Some x -> one_word_item x) -> forall i, (i <= List.length p)%nat -> address (m_base m) (words_of out) i = m_base m + 4 * Z.of_nat i)
    /\ List.length (words_of out) = List.length p
    /\ (in_segment (m_base m) (get_bytes out) -> forall n w, well_world w ->
        exists c, csteps p (address (m_base m) (words_of out)) n (CHere 0 (Item 1) w) c /\ machine_comes_to odd (m_base m) (words_of out) p w n c).
Proof.
  intros D F Wb. destruct (call_items [] (lines input) p F eq_refl) as (wss & I1 & I2).
  { intros j [[one M|n likely sc c k]| | | |] Hj; try exact Logic.I. destruct (Wb j _ Hj) as (_ & _ & Nr & _). exact Nr. }
  destruct (items_accepted rt m input wss I1 D) as (out & A & Wo & _). exists out. split; [exact A|]. split; [symmetry; apply get_bytes_words|].
  rewrite get_bytes_words, Wo. change (instruction_count []) with O in I2. split; [intros H i L; now apply (one_word_addresses odd (m_base m) p (code_words (lines input) wss) I2)|].
  split; [exact (cblocks_length _ _ _ _ _ I2)|]. intros Sg n w W. now apply cblocks_follow.
Qed.
End Lines.
