(** * PropsRun: straight-line programs compute what their lines say (C71).

    Statements, concrete instances and [Print Assumptions]; the meaning of lines is in
    [SpecRun], the machine in [SpecMachine]. *)

From Coq Require Import Lia.
From Verif Require Import Lib SpecIsa StrLemmas OperandProofs LineProofs TextProofs ProgProofs AsmProofs SpecMachine MachineProofs CodingProofs CauseProofs SpecText SpecProgram SpecPseudo
  PropsPseudo PropsLabels SpecRun RunProofs RunLines.

(** ** C71 *)

(** A program of labels, comments and computing lines assembles, and its words, executed from
    the first one in any state, end as the lines do in turn. *)
Theorem C71_straight_line_programs : forall rt m input odd ms, named_symbols (m_syms m) -> distinct_labels (lines input) ->
  (forall z, 0 <= odd z < 2 ^ 64) -> straight_lines odd (lines input) ms ->
  exists out, assemble rt m input = Ok out /\ forall st, well st -> exists e, in_turn ms st e /\ ends_with_run odd (get_bytes out) st e.
Proof.
  intros rt m input odd ms Sy D Od S. destruct (lines_run odd Od _ _ S (nl_of_lines input)) as (wss & F & H).
  destruct (simple_program rt m input wss Sy F D) as (out & A & B). exists out. split; [exact A|]. rewrite B. exact H.
Qed.

(** The words have only one ending, so it is the one of the lines. *)
Theorem C71_one_ending : forall odd ws st e e', ends_with_run odd ws st e -> ends_with_run odd ws st e' -> e <> Unspecified -> e' <> Unspecified -> e = e'.
Proof.
  intros odd ws st [a|x|] [b|y|] A B N N'; try congruence; cbn [ends_with_run] in *.
  - f_equal. eapply finishes_unique; eauto.
  - exfalso. eapply finishes_not_raises; eauto.
  - exfalso. eapply finishes_not_raises; eauto.
  - f_equal. destruct A as (n & s & A), B as (k & s' & B). destruct (Nat.le_ge_cases n k) as [L|L].
    + replace k with (n + (k - n))%nat in B by lia. rewrite cycles_add, A, cycles_raised in B. congruence.
    + replace n with (k + (n - k))%nat in A by lia. rewrite cycles_add, B, cycles_raised in A. congruence.
Qed.

(** One instruction of the processor, by its mnemonic and operands: its word does what the
    table [computing] says. *)
Theorem C71_native_words : forall odd f act os st, In f (isa ++ idioms) -> In (f_name f, act) (computing odd) -> Forall2 fits (f_ops f) os -> well st ->
  exists e, act os st = Some e /\ match e with Goes st' => exec odd (word f os) st = Next st' | Stops x => exec odd (word f os) st = Raise x | Unspecified => False end.
Proof. intros odd f act os st If I F W. exact (native_performs odd f act os st If I F W). Qed.

(** A program that squares 7, adds 7, and traps unless the sum is 56. *)
Definition square : str := join [nl] [ #"start:"; #"li $a0,7"; #"mul $a1,$a0,$a0"; #"; the sum"; #"addu $a2,$a1,$a0"; #"subiu $a2,$a2,56"; #"tne $a2,$zero" ].
Definition square_meanings : list meaning :=
  [ sets [] 4 (fun _ => word32 7); sets_hilo [] 5 (fun st => word32 (signed32 (value st 4) * signed32 (value st 4)));
    (fun st e => of_two (fun a b => word32 (a + b)) [OReg 6; OReg 5; OReg 4] st = Some e);
    (fun st e => e = Goes (write st 6 (word32 (value st 6 - 56))));
    (fun st e => traps_when (fun a b => negb (a =? b)) [OReg 6; OReg 0] st = Some e) ].
Lemma in_formats f : existsb (format_eqb f) (isa ++ idioms) = true -> In f (isa ++ idioms).
Proof. intros E. apply existsb_exists in E as (g & I & G). apply format_eqb_true in G. now subst. Qed.
Lemma gpr_zero : gpr_text #"$zero" 0. Proof. right. exists #"zero". split; [reflexivity|]. apply gpr_named; [lia|reflexivity]. Qed.

Lemma square_lines odd : straight_lines odd (lines square) square_meanings.
Proof.
  change (lines square) with [ #"start:"; #"li $a0,7"; #"mul $a1,$a0,$a0"; #"; the sum"; #"addu $a2,$a1,$a0"; #"subiu $a2,$a2,56"; #"tne $a2,$zero" ].
  unfold square_meanings. apply (sl_names odd #"start"); [split; reflexivity|exists [], []; repeat split|].
  apply sl_does.
  { apply (s_li odd #"$a0" #"7" 4 7); [exact gpr_a0|apply num_dec, digits_one; split; [lia|now left]|lia|exact (plain_statement #"li" #"$a0" [ #"7" ])]. }
  apply sl_does.
  { apply (s_product odd #"mul" (fun a b => word32 (signed32 a * signed32 b)) #"$a1" #"$a0" #"$a0" 5 4 4); [now left|exact gpr_a1|exact gpr_a0|exact gpr_a0|exact (plain_statement #"mul" #"$a1" [ #"$a0"; #"$a0" ])]. }
  apply sl_nothing; [exists [], #"; the sum"; split; [reflexivity|split; [exact (end_semi #" the sum")|reflexivity]]|].
  apply sl_does.
  { apply (s_native odd (special 33 "addu" [Rd; Rs; Rt])); [apply in_formats; vm_compute; reflexivity|now left| | |].
    - exists [ #"$a2"; #"$a1"; #"$a0" ]. split; [exact (plain_statement #"addu" #"$a2" [ #"$a1"; #"$a0" ])|]. split; [|reflexivity].
      constructor; [apply sp_gpr, gpr_a2|]. constructor; [apply sp_gpr, gpr_a1|]. constructor; [apply sp_gpr, gpr_a0|constructor].
    - repeat (constructor; [split; [cbn; lia|exact Logic.I]|]). constructor.
    - intros I. apply mem_str_in in I. vm_compute in I. discriminate I. }
  apply sl_does.
  { apply (s_subtraction odd #"subiu" (fun a n st d => Goes (write st d (word32 (a - n)))) #"$a2" #"$a2" #"56" 6 6 56);
      [right; right; now left|exact gpr_a2|exact gpr_a2| |lia|exact (plain_statement #"subiu" #"$a2" [ #"$a2"; #"56" ])].
    apply num_pos, num_dec. apply (digits_snoc 10 #"5" 5 "6" 6); [apply digits_one|]; (split; [lia|now left]). }
  apply sl_does; [|constructor].
  apply (s_native odd (special 54 "tne" [Rs; Rt])); [apply in_formats; vm_compute; reflexivity| | | |].
  - unfold computing. cbn [In]. tauto.
  - exists [ #"$a2"; #"$zero" ]. split; [exact (plain_statement #"tne" #"$a2" [ #"$zero" ])|]. split; [|reflexivity].
    constructor; [apply sp_gpr, gpr_a2|]. constructor; [apply sp_gpr, gpr_zero|constructor].
  - repeat (constructor; [split; [cbn; lia|exact Logic.I]|]). constructor.
  - intros I. apply mem_str_in in I. vm_compute in I. discriminate I.
Qed.

(** It ends without a trap, whatever the registers hold. *)
Example C71_case : forall rt odd, (forall z, 0 <= odd z < 2 ^ 64) -> exists out, assemble rt m_new square = Ok out
  /\ forall st, well st -> exists st', finishes odd (get_bytes out) st st' /\ value st' 6 = 0 /\ value st' 5 = 49.
Proof.
  intros rt odd Od. destruct (C71_straight_line_programs rt m_new square odd square_meanings named_new) as (out & A & H); [|exact Od|apply square_lines|].
  - unfold distinct_labels. vm_compute. repeat constructor. intros [].
  - exists out. split; [exact A|]. intros st W. destruct (H st W) as (e & T & E). unfold square_meanings in T. cbn [in_turn] in T.
    destruct T as (e1 & (s1 & -> & [V1 _] & _) & e2 & (s2 & -> & [V2 K2]) & e3 & E3 & T).
    assert (X1 : value s1 4 = 7) by (rewrite V1 by lia; reflexivity).
    assert (X2 : value s2 5 = 49) by (rewrite V2 by lia; rewrite X1; reflexivity).
    assert (X3 : value s2 4 = 7) by (rewrite K2; [exact X1|lia|intros []]).
    cbn [of_two] in E3. injection E3 as <-. rewrite X2, X3 in T. change (word32 (49 + 7)) with 56 in T. set (s3 := write s2 6 56) in *.
    assert (X4 : value s3 6 = 56) by reflexivity. assert (X5 : value s3 5 = 49) by exact X2.
    destruct T as (e4 & -> & T). rewrite X4 in T. change (word32 (56 - 56)) with 0 in T. set (s4 := write s3 6 0) in *.
    assert (X6 : value s4 6 = 0) by reflexivity. assert (X7 : value s4 5 = 49) by exact X5.
    destruct T as (e5 & E5 & T). cbn [traps_when] in E5. rewrite X6 in E5. change (value s4 0) with 0 in E5. change (negb (0 =? 0)) with false in E5. cbv iota in E5. injection E5 as <-.
    subst e. exists s4. auto.
Qed.

Print Assumptions C71_straight_line_programs.
Print Assumptions C71_one_ending.
Print Assumptions C71_native_words.
