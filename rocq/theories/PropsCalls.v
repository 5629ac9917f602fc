(** * PropsCalls: programs with functions and memory (C74).

    Statements, a concrete instance and [Print Assumptions]; the machine and the execution of
    source programs are in [SpecCalls]. *)

From Coq Require Import Lia.
From Verif Require Import Lib SpecIsa StrLemmas OperandProofs LineProofs TextProofs ProgProofs AsmProofs SpecMachine MachineProofs CodingProofs CauseProofs SpecText SpecProgram SpecLabels SpecPseudo
  PropsPseudo PropsLabels RefProofs SpecAccept SpecRun RunProofs RunLines PropsRun SpecFlow FlowProofs FlowLines SpecCalls CallProofs CallLines.

(** ** C74 *)

(** A program of labels, comments, computing lines, branches, loads and stores, jumps, calls
    and returns assembles; and when its words are at the base address, the machine goes
    through an execution of its lines, from any state of the registers and memory, for any
    number of steps: to the end, to an exception, or to an address outside of the program. *)
Theorem C74_functions_and_memory : forall rt m input odd p, named_symbols (m_syms m) -> orders rt -> distinct_labels (lines input) -> (forall z, 0 <= odd z < 2 ^ 64) ->
  (rt_oc rt = true -> 0 <= m_base m /\ m_base m + 4 * Z.of_nat (instruction_count (lines input)) < 2 ^ 32) ->
  calls odd (m_syms m) (lines input) [] (lines input) p -> well_called (m_base m) p ->
  exists out, assemble rt m input = Ok out /\ List.concat (words_of out) = get_bytes out
    /\ (in_segment (m_base m) (get_bytes out) -> forall n w, well_world w ->
        exists c, csteps p (address (m_base m) (words_of out)) n (CHere 0 (Item 1) w) c /\ machine_comes_to odd (m_base m) (words_of out) p w n c).
Proof.
  intros rt m input odd p Sy Or D Od Ov C W. destruct (calls_follow rt m input odd Sy Or Od Ov p D C W) as (out & A & B & _ & _ & F). exists out. auto.
Qed.

(** When all instructions are one word long, item [i] is at base + 4 i.  So: when every
    execution of the lines (of [n] steps) goes to address [a] outside of the program with a
    result that satisfies [Q], the machine does, too. *)
Theorem C74_returns : forall rt m input odd p (Q : world -> Prop) a n w, named_symbols (m_syms m) -> orders rt -> distinct_labels (lines input) -> (forall z, 0 <= odd z < 2 ^ 64) ->
  calls odd (m_syms m) (lines input) [] (lines input) p -> well_called (m_base m) p -> well_world w ->
  (forall j x, nth_error p j = Some x -> one_word_item x) ->
  0 <= m_base m < 2 ^ 32 -> m_base m mod 4 = 0 -> m_base m mod 2 ^ 28 + 4 * Z.of_nat (List.length p) < 2 ^ 26 -> instruction_count (lines input) = List.length p ->
  (forall addr c, (forall i, (i <= List.length p)%nat -> addr i = m_base m + 4 * Z.of_nat i) -> csteps p addr n (CHere 0 (Item 1) w) c -> exists w', c = CAway a w' /\ Q w') ->
  exists out, assemble rt m input = Ok out /\ exists cs w', wcycles odd (get_bytes out) (m_base m) cs (WAt (m_base m) (m_base m + 4) w) = WAt a (a + 4) w' /\ Q w'.
Proof.
  intros rt m input odd p Q a n w Sy Or D Od C Wc W O Rb B4 Bs Ic H.
  assert (Be := Z.div_mod (m_base m) (2 ^ 28) ltac:(lia)). assert (Bq : m_base m / 2 ^ 28 <= 15) by (apply Z.lt_succ_r, Z.div_lt_upper_bound; lia).
  assert (Ov : rt_oc rt = true -> 0 <= m_base m /\ m_base m + 4 * Z.of_nat (instruction_count (lines input)) < 2 ^ 32) by (intros _; rewrite Ic; lia).
  destruct (calls_follow rt m input odd Sy Or Od Ov p D C Wc) as (out & A & B & Ad & Ln & F). exists out. split; [exact A|].
  assert (Lc : Z.of_nat (List.length (get_bytes out)) = Z.of_nat (List.length p)).
  { assert (E := Ad O (List.length p) ltac:(lia)). unfold address in E. rewrite <- Ln, firstn_all, B in E. lia. }
  assert (Sg : in_segment (m_base m) (get_bytes out)) by (split; [exact Rb|split; [exact B4|rewrite Lc; exact Bs]]).
  destruct (F Sg n w W) as (c & S & M). destruct (H _ c (Ad O) S) as (w' & -> & K).
  unfold machine_comes_to in M. cbv zeta in M. destruct M as (cs & M). rewrite B in M. exists cs, w'. auto.
Qed.

(** ** A function that calls another one *)

Definition frame : str := join [nl]
  [ #"main:"; #"addiu $sp,$sp,-8"; #"sw $ra,4($sp)"; #"jal double"; #"nop"; #"lw $ra,4($sp)"; #"jr $ra"; #"addiu $sp,$sp,8";
    #"double:"; #"jr $ra"; #"addu $v0,$a0,$a0" ].
Definition adds (r n : Z) : citem := Flow (Does true (fun st e => of_number (fun a n => word32 (a + n)) [OReg r; OReg r; OInt n] st = Some e)).
Definition frame_items : list citem :=
  [ adds 29 (-8); Access (Store 4) 31 29 4; Jump (Some 31) 7; Flow (Does true (sets [] 0 (fun _ => 0))); Access (Load 4 true) 31 29 4; JumpReg None 31; adds 29 8;
    JumpReg None 31; Flow (Does true (fun st e => of_two (fun a b => word32 (a + b)) [OReg 2; OReg 4; OReg 4] st = Some e)) ].

Lemma gpr_sp : gpr_text #"$sp" 29. Proof. right. exists #"sp". split; [reflexivity|]. apply gpr_named; [lia|reflexivity]. Qed.
Lemma gpr_ra : gpr_text #"$ra" 31. Proof. right. exists #"ra". split; [reflexivity|]. apply gpr_named; [lia|reflexivity]. Qed.
Lemma gpr_v0 : gpr_text #"$v0" 2. Proof. right. exists #"v0". split; [reflexivity|]. apply gpr_named; [lia|reflexivity]. Qed.
Lemma one_digit s v : In (s, v) [ (#"4", 4); (#"8", 8) ] -> numeral s v.
Proof. intros [E|[E|[]]]; injection E as <- <-; apply num_dec, digits_one; split; (lia || now left). Qed.

Lemma adds_line odd all before l n t : instruction_line #"addiu" [ #"$sp"; #"$sp"; t ] l -> signed_numeral t n -> -32768 <= n < 32768 ->
  call_line odd [] all before l (adds 29 n).
Proof.
  intros L Nu R. assert (L1 : native_line (normal 9 "addiu" [Rt; Rs; Simm]) [OReg 29; OReg 29; OInt n] l).
  { exists [ #"$sp"; #"$sp"; t ]. split; [exact L|]. split; [|reflexivity]. constructor; [apply sp_gpr, gpr_sp|]. constructor; [apply sp_gpr, gpr_sp|]. constructor; [now apply sp_simm|constructor]. }
  assert (Fi : Forall2 notation_fits [Rt; Rs; Simm] [OReg 29; OReg 29; OInt n]) by (repeat (constructor; [split; [cbn; lia|exact Logic.I]|]); constructor).
  assert (Cc : case_condition (normal 9 "addiu" [Rt; Rs; Simm]) [OReg 29; OReg 29; OInt n] l) by (intros I; apply mem_str_in in I; vm_compute in I; discriminate I).
  apply cl_flow. apply (fl_one odd _ _ _ (normal 9 "addiu" [Rt; Rs; Simm]) [OReg 29; OReg 29; OInt n]); auto.
  - apply (s_native odd (normal 9 "addiu" [Rt; Rs; Simm])); auto; [apply in_formats; vm_compute; reflexivity|unfold computing; cbn [In f_name normal]; tauto].
  - apply in_formats; vm_compute; reflexivity.
  - cbn. intros [E|[E|[E|[]]]]; discriminate E.
Qed.
Lemma frame_calls odd : calls odd [] (lines frame) [] (lines frame) frame_items.
Proof.
  change (lines frame) with [ #"main:"; #"addiu $sp,$sp,-8"; #"sw $ra,4($sp)"; #"jal double"; #"nop"; #"lw $ra,4($sp)"; #"jr $ra"; #"addiu $sp,$sp,8"; #"double:"; #"jr $ra"; #"addu $v0,$a0,$a0" ].
  assert (Sp : operand_spelling Mem (OMem 4 29) #"4($sp)").
  { apply (sp_mem 4 29 #"4" #"$sp" #"$sp"); [apply num_pos, one_digit; now left|exact gpr_sp|exists [], []; repeat split|exists []; split; reflexivity]. }
  unfold frame_items. apply (ca_names odd _ _ _ #"main"); [split; reflexivity|exists [], []; repeat split|].
  apply ca_code; [apply (adds_line odd _ _ _ (-8) #"-8"); [exact (plain_statement #"addiu" #"$sp" [ #"$sp"; #"-8" ])|apply (num_neg #"8" 8), one_digit; right; now left|lia]|].
  apply ca_code; [apply (cl_access odd [] _ _ _ #"sw" (Store 4) #"$ra" 31 #"4($sp)"); [unfold memory_instructions; cbn [In]; tauto|exact gpr_ra|exact Sp|lia|exact (plain_statement #"sw" #"$ra" [ #"4($sp)" ])]|].
  apply ca_code; [apply (cl_jump odd [] _ _ _ #"jal" #"double" 7); [split; [right; now left|exact (plain_statement #"jal" #"double" [])]|split; reflexivity|intros a []|vm_compute; right; left; reflexivity]|].
  apply ca_code.
  { apply cl_flow. assert (Ln : instruction_line #"nop" [] #"nop") by (exists [], #"nop", [], []; repeat split; [constructor; reflexivity|constructor; reflexivity|left; reflexivity]).
    apply (fl_one odd _ _ _ (mk_format #"nop" [op6 0] []) []); [now apply s_nop|apply in_formats; vm_compute; reflexivity|intros []| |constructor|intros I; apply mem_str_in in I; vm_compute in I; discriminate I].
    exists []. split; [exact Ln|]. split; [constructor|reflexivity]. }
  apply ca_code; [apply (cl_access odd [] _ _ _ #"lw" (Load 4 true) #"$ra" 31 #"4($sp)"); [unfold memory_instructions; cbn [In]; tauto|exact gpr_ra|exact Sp|lia|exact (plain_statement #"lw" #"$ra" [ #"4($sp)" ])]|].
  apply ca_code; [apply (cl_jr odd [] _ _ _ #"$ra" 31); [exact gpr_ra|exact (plain_statement #"jr" #"$ra" [])]|].
  apply ca_code; [apply (adds_line odd _ _ _ 8 #"8"); [exact (plain_statement #"addiu" #"$sp" [ #"$sp"; #"8" ])|apply num_pos, one_digit; right; now left|lia]|].
  apply (ca_names odd _ _ _ #"double"); [split; reflexivity|exists [], []; repeat split|].
  apply ca_code; [apply (cl_jr odd [] _ _ _ #"$ra" 31); [exact gpr_ra|exact (plain_statement #"jr" #"$ra" [])]|].
  apply ca_code; [|constructor].
  assert (L1 : native_line (special 33 "addu" [Rd; Rs; Rt]) [OReg 2; OReg 4; OReg 4] #"addu $v0,$a0,$a0").
  { exists [ #"$v0"; #"$a0"; #"$a0" ]. split; [exact (plain_statement #"addu" #"$v0" [ #"$a0"; #"$a0" ])|]. split; [|reflexivity].
    constructor; [apply sp_gpr, gpr_v0|]. constructor; [apply sp_gpr, gpr_a0|]. constructor; [apply sp_gpr, gpr_a0|constructor]. }
  assert (Fi : Forall2 notation_fits [Rd; Rs; Rt] [OReg 2; OReg 4; OReg 4]) by (repeat (constructor; [split; [cbn; lia|exact Logic.I]|]); constructor).
  assert (Cc : case_condition (special 33 "addu" [Rd; Rs; Rt]) [OReg 2; OReg 4; OReg 4] #"addu $v0,$a0,$a0") by (intros I; apply mem_str_in in I; vm_compute in I; discriminate I).
  apply cl_flow. apply (fl_one odd _ _ _ (special 33 "addu" [Rd; Rs; Rt]) [OReg 2; OReg 4; OReg 4]); auto.
  - apply (s_native odd (special 33 "addu" [Rd; Rs; Rt])); auto; [apply in_formats; vm_compute; reflexivity|now left].
  - apply in_formats; vm_compute; reflexivity.
  - cbn. intros [E|[E|[E|[]]]]; discriminate E.
Qed.
Lemma frame_one j x : nth_error frame_items j = Some x -> one_word_item x.
Proof. do 9 (destruct j as [|j]; [intros E; injection E as <-; reflexivity || exact Logic.I|]). destruct j; discriminate. Qed.
Lemma frame_called base : well_called base frame_items.
Proof.
  intros i x E. do 9 (destruct i as [|i]; [injection E as <-; cbn [transfers adds]; (split; [intros T; (exfalso; exact T) || (eexists; split; [reflexivity|cbn; reflexivity || exact Logic.I])|]);
    first [exact Logic.I|split; [cbn; lia|intros j y _; apply frame_one]]|]). destruct i; discriminate.
Qed.

(** Inversion of steps. *)
Lemma csteps_on p addr k c c' : ~ cfinal p c -> csteps p addr (S k) c c' -> exists c1, cstep p addr c c1 /\ csteps p addr k c1 c'.
Proof. intros Nf S. inversion S as [|? ? Fi|? ? c1 ? St S1]; subst; [contradiction|]. eauto. Qed.
Lemma cstep_does p addr i t w c one M : nth_error p i = Some (Flow (Does one M)) -> cstep p addr (CHere i t w) c ->
  exists e, M (cpu w) e /\ c = match e with Goes st => goes_on t (after t) (with_cpu w st) | Stops x => COver (Some (Exception x)) | Unspecified => COver None end.
Proof.
  intros N S. inversion S; subst; match goal with H : nth_error p i = Some _ |- _ => rewrite N in H; try discriminate H; injection H; intros; subst end.
  - exists (Goes st). auto.
  - exists (Stops x). auto.
  - exists Unspecified. auto.
Qed.
Lemma cstep_access p addr i t w c k r b off : nth_error p i = Some (Access k r b off) -> cstep p addr (CHere i t w) c ->
  c = match accessed k r b off w with inr w' => goes_on t (after t) w' | inl a => COver (Some (AddressError a)) end.
Proof.
  intros N S. inversion S; subst; match goal with H : nth_error p i = Some _ |- _ => rewrite N in H; try discriminate H; injection H; intros; subst end;
    match goal with H : accessed _ _ _ _ _ = _ |- _ => rewrite H end; reflexivity.
Qed.
Lemma cstep_jump p addr i t w c link k : nth_error p i = Some (Jump link k) -> cstep p addr (CHere i t w) c -> c = goes_on t (Item k) (linked link (return_address addr i) w).
Proof. intros N S. inversion S; subst; match goal with H : nth_error p i = Some _ |- _ => rewrite N in H; try discriminate H; injection H; intros; subst end; reflexivity. Qed.
Lemma cstep_jump_reg p addr i t w c link r : nth_error p i = Some (JumpReg link r) -> cstep p addr (CHere i t w) c ->
  exists t', leads p addr (low32 (value (cpu w) r)) t' /\ c = goes_on t t' (linked link (return_address addr i) w).
Proof. intros N S. inversion S; subst; match goal with H : nth_error p i = Some _ |- _ => rewrite N in H; try discriminate H; injection H; intros; subst end; eauto. Qed.

(** What was stored is loaded. *)
Lemma load_store_4 m a v : load 4 (store 4 m a v) a = v mod 2 ^ 32.
Proof.
  cbn [load]. unfold store. change (Z.of_nat 4) with 4.
  repeat match goal with |- context [(?x <=? ?y) && (?z <? ?t)] => replace ((x <=? y) && (z <? t)) with true by (symmetry; apply andb_true_intro; split; [apply Z.leb_le|apply Z.ltb_lt]; lia) end.
  replace (a + 4 - 1 - a) with 3 by lia. replace (a + 4 - 1 - (a + 1)) with 2 by lia. replace (a + 4 - 1 - (a + 1 + 1)) with 1 by lia. replace (a + 4 - 1 - (a + 1 + 1 + 1)) with 0 by lia.
  change (Z.of_nat 3) with 3. change (Z.of_nat 2) with 2. change (Z.of_nat 1) with 1. change (Z.of_nat 0) with 0.
  change (256 ^ 3) with 16777216. change (256 ^ 2) with 65536. change (256 ^ 1) with 256. change (256 ^ 0) with 1. change (2 ^ 32) with 4294967296. Z.div_mod_to_equations. lia.
Qed.

(** The stack pointer and the return address of a caller: $sp is a multiple of 4 in the upper
    segments, $ra holds an address outside of the program. *)
Definition caller (base : Z) (w : world) (a : Z) : Prop :=
  let s := value (cpu w) 29 in 2 ^ 64 - 2 ^ 31 + 8 <= s < 2 ^ 64 /\ s mod 4 = 0 /\ value (cpu w) 31 = word32 a /\ 0 <= a < 2 ^ 32
  /\ forall k, (k <= 9)%nat -> base + 4 * Z.of_nat k <> a.

(** The result: $v0 is twice $a0, the stack pointer and the return address are as before, and
    memory has changed below the stack pointer only. *)
Definition doubled (w w' : world) : Prop :=
  value (cpu w') 2 = word32 (2 * value (cpu w) 4) /\ value (cpu w') 29 = value (cpu w) 29 /\ value (cpu w') 31 = value (cpu w) 31
  /\ forall x, ~ (value (cpu w) 29 - 4 <= x < value (cpu w) 29) -> mem w' x = mem w x.

Lemma word32_high v : 2 ^ 64 - 2 ^ 31 <= v < 2 ^ 64 -> word32 v = v.
Proof.
  intros R. unfold word32, signed32, low64, low32. replace (v mod 2 ^ 32) with (v - (2 ^ 64 - 2 ^ 32)) by (apply Z.mod_unique with (q := 2 ^ 32 - 1); lia).
  replace (v - (2 ^ 64 - 2 ^ 32) <? 2 ^ 31) with false by (symmetry; apply Z.ltb_ge; lia). symmetry. apply Z.mod_unique with (q := -1); lia.
Qed.
Lemma low32_word a : 0 <= a < 2 ^ 32 -> low32 (word32 a) = a.
Proof. intros R. unfold low32. rewrite word32_mod. now apply Z.mod_small. Qed.
Lemma word_loaded a : low64 (signed_bytes 4 (word32 a mod 2 ^ 32)) = word32 a.
Proof. rewrite word32_mod. reflexivity. Qed.

Lemma frame_runs base addr w a c : 0 <= base < 2 ^ 32 - 36 -> (forall i, (i <= 9)%nat -> addr i = base + 4 * Z.of_nat i) -> caller base w a ->
  csteps frame_items addr 9 (CHere 0 (Item 1) w) c -> exists w', c = CAway a w' /\ doubled w w'.
Proof.
  intros Rb Ad (Rs1 & S4 & Vr & Ra & Out) S. cbv zeta in *. set (s := value (cpu w) 29) in *.
  (* addiu $sp,$sp,-8 *)
  apply csteps_on in S as (c1 & S1 & S); [|discriminate]. apply (cstep_does frame_items _ 0 _ _ _ _ _ eq_refl) in S1 as (e1 & E1 & ->). cbn [of_number] in E1. injection E1 as <-.
  fold s in S. rewrite word32_high in S by lia. set (w1 := with_cpu w (write (cpu w) 29 (s + -8))) in *. cbn [goes_on after] in S.
  (* sw $ra,4($sp) *)
  apply csteps_on in S as (c2 & S2 & S); [|discriminate]. apply (cstep_access frame_items _ 1 _ _ _ _ _ _ _ eq_refl) in S2.
  assert (Al : forall st, value st 29 = s + -8 -> low64 (value st 29 + 4) = s - 4 /\ ((s - 4) mod Z.of_nat 4 =? 0) = true).
  { intros st E. rewrite E. split; [unfold low64; rewrite Z.mod_small; lia|]. apply Z.eqb_eq. change (Z.of_nat 4) with 4. rewrite Zminus_mod, S4. reflexivity. }
  assert (V1 : value (cpu w1) 29 = s + -8) by reflexivity. destruct (Al (cpu w1) V1) as [A1 A2].
  unfold accessed in S2. cbv zeta in S2. cbn [bytes_of] in S2. rewrite A1, A2 in S2. cbn [negb] in S2. subst c2.
  assert (R1 : value (cpu w1) 31 = word32 a) by exact Vr. rewrite R1 in S. set (m2 := store 4 (mem w1) (s - 4) (word32 a)) in *. set (w2 := mk_world (cpu w1) m2) in *. cbn [goes_on after] in S.
  (* jal double *)
  apply csteps_on in S as (c3 & S3 & S); [|discriminate]. apply (cstep_jump frame_items _ 2 _ _ _ _ _ eq_refl) in S3. subst c3. unfold return_address in S. rewrite (Ad 4%nat) in S by lia.
  cbn [linked goes_on after] in S. set (w3 := with_cpu w2 (write (cpu w2) 31 (word32 (base + 4 * Z.of_nat 4)))) in *.
  (* nop *)
  apply csteps_on in S as (c4 & S4' & S); [|discriminate]. apply (cstep_does frame_items _ 3 _ _ _ _ _ eq_refl) in S4' as (e4 & (st4 & -> & [_ K4] & _) & ->). cbn [goes_on after] in S.
  assert (U4 : forall x, x <> 0 -> value st4 x = value (cpu w3) x) by (intros x Nx; apply K4; [exact Nx|intros []]).
  (* jr $ra *)
  apply csteps_on in S as (c5 & S5 & S); [|discriminate]. apply (cstep_jump_reg frame_items _ 7 _ _ _ _ _ eq_refl) in S5 as (t5 & L5 & ->). cbn [cpu with_cpu linked goes_on] in *.
  assert (V5 : value st4 31 = word32 (base + 4 * Z.of_nat 4)) by (rewrite U4 by discriminate; reflexivity). rewrite V5, low32_word in L5 by lia.
  assert (t5 = Item 4) as ->.
  { destruct t5 as [k|b]; cbn [leads] in L5; [destruct L5 as [Lk Ek]; rewrite Ad in Ek by exact Lk; f_equal; lia|]. destruct L5 as [_ No]. exfalso. apply (No 4%nat); [cbn; lia|apply Ad; lia]. }
  (* addu $v0,$a0,$a0 *)
  apply csteps_on in S as (c6 & S6 & S); [|discriminate]. apply (cstep_does frame_items _ 8 _ _ _ _ _ eq_refl) in S6 as (e6 & E6 & ->). cbn [of_two cpu with_cpu] in E6. injection E6 as <-. cbn [goes_on after] in S.
  assert (V4 : value st4 4 = value (cpu w) 4) by (rewrite U4 by discriminate; reflexivity). rewrite V4 in S.
  set (w6 := with_cpu (with_cpu w3 st4) (write st4 2 (word32 (value (cpu w) 4 + value (cpu w) 4)))) in *.
  (* lw $ra,4($sp) *)
  apply csteps_on in S as (c7 & S7 & S); [|discriminate]. apply (cstep_access frame_items _ 4 _ _ _ _ _ _ _ eq_refl) in S7.
  assert (V6 : value (cpu w6) 29 = s + -8) by (change (value (cpu w6) 29) with (value st4 29); rewrite U4 by discriminate; reflexivity). destruct (Al (cpu w6) V6) as [A6 A7].
  unfold accessed in S7. cbv zeta in S7. cbn [bytes_of] in S7. rewrite A6, A7 in S7. cbn [negb] in S7. change (mem w6) with m2 in S7. unfold m2 in S7 at 1. rewrite load_store_4, word_loaded in S7. subst c7. cbn [goes_on after] in S.
  set (w7 := with_cpu w6 (write (cpu w6) 31 (word32 a))) in *.
  (* jr $ra *)
  apply csteps_on in S as (c8 & S8 & S); [|discriminate]. apply (cstep_jump_reg frame_items _ 5 _ _ _ _ _ eq_refl) in S8 as (t8 & L8 & ->). cbn [linked goes_on] in S.
  change (value (cpu w7) 31) with (word32 a) in L8. rewrite low32_word in L8 by lia.
  assert (t8 = Outside a) as ->.
  { destruct t8 as [k|b]; cbn [leads] in L8; [|now destruct L8 as [-> _]]. destruct L8 as [Lk Ek]. exfalso. rewrite Ad in Ek by exact Lk. exact (Out k Lk (eq_sym Ek)). }
  (* addiu $sp,$sp,8 *)
  apply csteps_on in S as (c9 & S9 & S); [|discriminate]. apply (cstep_does frame_items _ 6 _ _ _ _ _ eq_refl) in S9 as (e9 & E9 & ->). cbn [of_number] in E9. injection E9 as <-. cbn [goes_on after] in S.
  assert (V7 : value (cpu w7) 29 = s + -8) by exact V6. change (csteps frame_items addr 0 (CAway a (with_cpu w7 (write (cpu w7) 29 (word32 (value (cpu w7) 29 + 8))))) c) in S. rewrite V7 in S. replace (s + -8 + 8) with s in S by lia. rewrite word32_high in S by lia.
  exists (with_cpu w7 (write (cpu w7) 29 s)). split; [inversion S; subst; reflexivity|].
  split; [change (word32 (value (cpu w) 4 + value (cpu w) 4) = word32 (2 * value (cpu w) 4)); f_equal; lia|]. split; [reflexivity|]. split; [symmetry; exact Vr|]. intros x Nx. cbn [mem with_cpu w7 w6 w3 w2]. unfold m2, store. fold s in Nx.
  destruct ((s - 4 <=? x) && (x <? s - 4 + Z.of_nat 4)) eqn:E; [|reflexivity]. apply andb_prop in E as [E1 E2]. apply Z.leb_le in E1. apply Z.ltb_lt in E2. exfalso. apply Nx. lia.
Qed.

(** At every base address in the first 64 MB of a segment, and from every state of a caller:
    the words of the program save the return address, call [double], restore, and return. *)
Example C74_case : forall rt odd base w a, orders rt -> (forall z, 0 <= odd z < 2 ^ 64) -> well_world w ->
  0 <= base < 2 ^ 32 -> base mod 4 = 0 -> base mod 2 ^ 28 + 36 < 2 ^ 26 -> caller base w a ->
  exists out, assemble rt (set_base base m_new) frame = Ok out
    /\ exists cs w', wcycles odd (get_bytes out) base cs (WAt base (base + 4) w) = WAt a (a + 4) w' /\ doubled w w'.
Proof.
  intros rt odd base w a Or Od W Rb B4 Bs Ca. apply (C74_returns rt (set_base base m_new) frame odd frame_items (doubled w) a 9 w); auto.
  - exact named_new.
  - unfold distinct_labels. vm_compute. repeat constructor; intros I; repeat destruct I as [I|I]; discriminate I || destruct I.
  - apply frame_calls.
  - apply frame_called.
  - apply frame_one.
  - intros addr c Ad S. assert (Be := Z.div_mod base (2 ^ 28) ltac:(lia)). assert (Bq : base / 2 ^ 28 <= 15) by (apply Z.lt_succ_r, Z.div_lt_upper_bound; lia).
    apply (frame_runs base addr w a c); auto. lia.
Qed.

Print Assumptions C74_functions_and_memory.
Print Assumptions C74_returns.
Print Assumptions C74_case.
