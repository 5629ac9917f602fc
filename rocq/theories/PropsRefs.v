(** * PropsRefs: references to labels and addresses (C34, C39). *)

From Coq Require Import Lia Permutation.
From Verif Require Import Lib SpecIsa StrLemmas TextProofs ScanProofs ProgProofs BranchProofs AsmProofs LabelProofs CongProofs ErrorProofs RefProofs PropsLabels SpecErrors SpecText SpecProgram SpecLabels.

(** ** C34  Out-of-bounds branch errors point at the branch *)

(** The line [raw] (after the lines [l1]) is a branch to the number [a], outside the program. *)
Record outside_branch (rt : runtime) (m : mipsasm) (input : str) (l1 : list str) (raw : str) (l2 : list str) (f : format) (os : list operand) (a : Z) : Prop := mk_outside_branch {
  ob_lines : lines input = l1 ++ raw :: l2;
  ob_format : In f (isa ++ idioms);
  ob_line : exists t, branch_line f os t raw /\ numeral t a;
  ob_range : a < 2 ^ 32;
  ob_outside : a < m_base m \/ m_base m + 4 * Z.of_nat (instruction_count (lines input)) < a;
  ob_base : 0 <= m_base m;
  ob_runs : forall p, assemble rt m input <> Panic p
}.
Definition C34_full : Prop := forall rt m input l1 raw l2 f os a, outside_branch rt m input l1 raw l2 f os a ->
  exists es text bounds, assemble rt m input = Err es /\ In (EBranchOutOfBounds (mk_line (S (List.length l1)) raw) text bounds) es.

(** The error names the branch, but its line is the last line of the program. *)
Theorem C34_reported rt m input l1 raw l2 f os a : outside_branch rt m input l1 raw l2 f os a ->
  exists es last bounds, assemble rt m input = Err es /\ nth_error (lines input) (List.length (lines input) - 1) = Some last
    /\ In (EBranchOutOfBounds (mk_line (List.length (lines input)) last) raw bounds) es.
Proof.
  intros [E If (t & B & Nu) Ra Out B0 P].
  destruct (reference_at rt m input l1 raw l2 E P) as (s1 & f1 & x & f2 & s & So1 & Fx & Sc1 & Sc & So & Rd & H). set (e := mk_parser rt m input) in *.
  assert (N := proj2 (Forall_forall _ _) (lines_no_nl input)). assert (Nr : no_nl raw) by (apply (lines_no_nl input); rewrite E; apply in_or_app; right; now left).
  destruct (number_branch_parse e (bump s1) f os t a raw If B Nu Ra Nr Rd) as (Ne & Ec & w & p & rs & r2 & Pi & Bo).
  { intros n k I. apply (so_labels _ _ _ _ So1) in I. apply I. }
  destruct (H _ (fated_made _ _ _ _ _ _ Ne Ec Pi Fx)) as (i1 & e2 & Ad & Es). destruct (final_same e s) as (F1 & F2 & F3 & F4 & F5).
  cbn [adjust_one] in Ad. rewrite Bo in Ad. cbn [negb] in Ad. rewrite F1 in Ad.
  assert (Ln : (List.length (p_insts s) <= instruction_count (lines input))%nat).
  { apply (insts_bound e _ N _ _ Sc). }
  apply obind_ok in Ad as (bad & Bad & Ad). apply obind_ok in Ad as (errs & Er & Ad). injection Ad as _ <-.
  assert (bad = true) as ->.
  { destruct Out as [O|O].
    - replace (a <? e_base e) with true in Bad by (change (e_base e) with (m_base m); lia). now injection Bad as <-.
    - destruct (a <? e_base e); [now injection Bad as <-|]. unfold wrap in Bad. rewrite Z.mod_small in Bad by lia. change (e_base e) with (m_base m) in Bad.
      unfold ck32 in Bad. replace ((0 <=? Z.of_nat (List.length (p_insts s)) * 4) && (Z.of_nat (List.length (p_insts s)) * 4 <? 2 ^ 32))%bool with true in Bad by lia. cbn [obind] in Bad.
      replace ((0 <=? m_base m + Z.of_nat (List.length (p_insts s)) * 4) && (m_base m + Z.of_nat (List.length (p_insts s)) * 4 <? 2 ^ 32))%bool with true in Bad by lia. cbn [obind] in Bad.
      injection Bad as <-. lia. }
  apply obind_ok in Er as (ll & Gl & Er). apply obind_ok in Er as (src & Gs & Er). apply obind_ok in Er as (hi & _ & Er). injection Er as <-.
  assert (src = mk_line (S (List.length l1)) raw) as ->.
  { rewrite (get_line_nth e (List.length l1) raw) in Gs; [now injection Gs|]. change (e_input e) with (lines input). rewrite E, nth_error_app2, Nat.sub_diag by lia. reflexivity. }
  rewrite F4, (so_line _ _ _ _ So) in Gl. unfold get_line in Gl. change (e_input e) with (lines input) in Gl.
  destruct (nth_error (lines input) (List.length (lines input) - 1)) as [last|] eqn:El; [|discriminate]. injection Gl as <-.
  destruct (Es _ (or_introl eq_refl)) as (es & A & I). exists es, last, (e_base e, hi). repeat split; auto.
Qed.

(** Right when the branch is the last line. *)
Theorem C34_last_line_partial rt m input l1 raw f os a : outside_branch rt m input l1 raw [] f os a ->
  exists es text bounds, assemble rt m input = Err es /\ In (EBranchOutOfBounds (mk_line (S (List.length l1)) raw) text bounds) es.
Proof.
  intros O. destruct (C34_reported _ _ _ _ _ _ _ _ _ O) as (es & last & bounds & A & Nl & I). exists es, raw, bounds. split; [exact A|].
  rewrite (ob_lines _ _ _ _ _ _ _ _ _ O), app_length in Nl, I. cbn [List.length] in Nl, I. rewrite Nat.add_1_r in Nl, I.
  rewrite Nat.sub_succ, Nat.sub_0_r, nth_error_app2, Nat.sub_diag in Nl by lia. cbn in Nl. injection Nl as <-. exact I.
Qed.

Definition plain_rt : runtime := mk_runtime true (fun l => l).
Lemma outside_case : outside_branch plain_rt m_new (join [nl] [ #"nop"; #"b 0x1000"; #"nop" ]) [ #"nop" ] #"b 0x1000" [ #"nop" ] (format_named #"b") [] 0x1000
  /\ outside_branch plain_rt m_new (join [nl] [ #"nop"; #"b 0x1000" ]) [ #"nop" ] #"b 0x1000" [] (format_named #"b") [] 0x1000.
Proof.
  assert (B : exists t, branch_line (format_named #"b") [] t #"b 0x1000" /\ numeral t 0x1000).
  { exists #"0x1000". split; [|apply hex_text; [vm_compute; reflexivity|lia]].
    apply (plain_branch (format_named #"b") [] [] []); [vm_compute; reflexivity|reflexivity|constructor|]. apply (plain_statement #"b" #"0x1000" []). }
  split; (constructor; [vm_compute; reflexivity|apply format_named_in; vm_compute; reflexivity|exact B|lia|right; vm_compute; reflexivity|vm_compute; discriminate|intros p A; vm_compute in A; discriminate A]).
Qed.
Theorem C34_refuted : ~ C34_full.
Proof.
  intros H. destruct (H _ _ _ _ _ _ _ _ _ (proj1 outside_case)) as (es & text & bounds & A & I). vm_compute in A. injection A as <-.
  destruct I as [I|[]]. vm_compute in I. discriminate I.
Qed.

(** ** C39  Undefined labels are reported *)

(** A jump to a name that is neither a symbol nor a global label of the program. *)
Record undefined_jump (rt : runtime) (m : mipsasm) (input : str) (l1 : list str) (raw : str) (l2 : list str) (name n : str) : Prop := mk_undefined_jump {
  uj_lines : lines input = l1 ++ raw :: l2;
  uj_line : jump_line name n raw;
  uj_name : identifier n;
  uj_symbol : forall a, ~ In (a, n) (m_syms m);
  uj_label : is_local n = false -> ~ In n (map fst (label_table 0 (lines input)));
  uj_runs : forall p, assemble rt m input <> Panic p
}.
(** A branch to a local label that no line defines. *)
Record undefined_local (rt : runtime) (m : mipsasm) (input : str) (l1 : list str) (raw : str) (l2 : list str) (f : format) (os : list operand) (n : str) : Prop := mk_undefined_local {
  ul_lines : lines input = l1 ++ raw :: l2;
  ul_format : In f (isa ++ idioms);
  ul_line : branch_line f os n raw;
  ul_name : identifier n;
  ul_local : is_local n = true;
  ul_label : forall l, In l (lines input) -> role_of l <> Defines n;
  ul_runs : forall p, assemble rt m input <> Panic p
}.
Definition reports_undefined (rt : runtime) (m : mipsasm) (input : str) (num : nat) (raw n : str) : Prop :=
  exists es, assemble rt m input = Err es /\ In (EUndefinedLabel (mk_line num raw) n) es.

Definition C39_full : Prop :=
  (forall rt m input l1 raw l2 name n, undefined_jump rt m input l1 raw l2 name n -> reports_undefined rt m input (S (List.length l1)) raw n)
  /\ (forall rt m input l1 raw l2 f os n, orders rt -> undefined_local rt m input l1 raw l2 f os n -> reports_undefined rt m input (S (List.length l1)) raw n)
  /\ (forall rt m input s, orders rt -> is_word (m_base m) -> scan_lines (mk_parser rt m input) init_state (lines input) = Ok s ->
        exists r, parse (mk_parser rt m input) = Ok r).

Theorem C39_jump rt m input l1 raw l2 name n : undefined_jump rt m input l1 raw l2 name n -> reports_undefined rt m input (S (List.length l1)) raw n.
Proof.
  intros [E J Id Sy Lb P].
  destruct (reference_at rt m input l1 raw l2 E P) as (s1 & f1 & x & f2 & s & So1 & Fx & Sc1 & Sc & So & Rd & H). set (e := mk_parser rt m input) in *.
  assert (Nr : no_nl raw) by (apply (lines_no_nl input); rewrite E; apply in_or_app; right; now left).
  destruct (jump_line_parse e (bump s1) name n raw (TLabel n) [] J (identifier_operand n Id) Nr Rd) as (Ne & Ec & p & Pi & _); [now apply parse_target_identifier|reflexivity|].
  destruct (H _ (fated_made _ _ _ _ _ _ Ne Ec Pi Fx)) as (i1 & e2 & Ad & Es). destruct (final_same e s) as (F1 & F2 & F3 & F4 & F5).
  cbn [adjust_one] in Ad. rewrite F2 in Ad.
  assert (As : assoc n (p_labels s) = None).
  { apply assoc_names. intros I. assert (I' := I). apply in_map_iff in I' as ((n', k) & <- & I'). apply (so_labels _ _ _ _ So) in I' as (_ & G & L).
    cbn [fst] in *. apply (Lb L). now apply (so_names _ _ _ _ So). }
  rewrite As in Ad. rewrite (get_line_nth e (List.length l1) raw) in Ad by (change (e_input e) with (lines input); rewrite E, nth_error_app2, Nat.sub_diag by lia; reflexivity).
  cbn [obind] in Ad. injection Ad as _ <-. destruct (Es _ (or_introl eq_refl)) as (es & A & I). exists es. auto.
Qed.

Theorem C39_local rt m input l1 raw l2 f os n : orders rt -> undefined_local rt m input l1 raw l2 f os n -> reports_undefined rt m input (S (List.length l1)) raw n.
Proof.
  intros Or [E If B Id Lc Lb P].
  destruct (reference_at rt m input l1 raw l2 E P) as (s1 & f1 & x & f2 & s & So1 & Fx & Sc1 & Sc & So & Rd & H). set (e := mk_parser rt m input) in *.
  assert (N := proj2 (Forall_forall _ _) (lines_no_nl input)).
  assert (Nr : no_nl raw) by (apply (lines_no_nl input); rewrite E; apply in_or_app; right; now left).
  destruct (local_branch_parse e (bump s1) f os n raw If B Id Lc Nr Rd) as (Ne & Ec & w & p & rs & r2 & Pi & _).
  destruct (H _ (fated_made _ _ _ _ _ _ Ne Ec Pi Fx)) as (i1 & e2 & Ad & Es).
  cbn [adjust_one] in Ad.
  assert (Td : tidy (final e s) (lines input)) by (apply tidy_final; [exact Or|]; apply (tidy_scan e Or (lines input) N init_state [] s tidy_init Sc)).
  destruct (assoc n (p_dropped (final e s))) as [defs|] eqn:Ed.
  { exfalso. destruct (td_dropped _ _ Td n defs Ed) as [(l & Il & Rl) _]. exact (Lb l Il Rl). }
  rewrite (get_line_nth e (List.length l1) raw) in Ad by (change (e_input e) with (lines input); rewrite E, nth_error_app2, Nat.sub_diag by lia; reflexivity).
  cbn [obind] in Ad. injection Ad as _ <-. destruct (Es _ (or_introl eq_refl)) as (es & A & I). exists es. auto.
Qed.

(** Once all lines are read, labels are resolved without panicking (when the addresses of the
    program stay below 2^32). *)
Theorem C39_resolution_partial rt m input s : orders rt -> 0 <= m_base m -> m_base m + 4 * Z.of_nat (List.length (lines input)) < 2 ^ 32 ->
  scan_lines (mk_parser rt m input) init_state (lines input) = Ok s -> exists r, parse (mk_parser rt m input) = Ok r.
Proof.
  intros Or B0 Bd Sc. destruct (resolution_never_panics rt m input s Or B0 Bd Sc) as [q Q]. unfold parse. change (e_input (mk_parser rt m input)) with (lines input).
  rewrite Sc. cbn [obind]. fold (final (mk_parser rt m input) s). destruct (final_same (mk_parser rt m input) s) as (F1 & _). rewrite F1, Q. cbn [obind]. eauto.
Qed.

(** Only names without a definition are reported as undefined: a jump to a global label of the
    program never is. *)
Theorem C39_only_undefined rt m input es ln n : assemble rt m input = Err es -> In (EUndefinedLabel ln n) es ->
  is_local n = true \/ (good_label n -> ~ In n (map fst (label_table 0 (lines input)))).
Proof.
  intros A I. destruct (is_local n) eqn:L; [now left|right]. intros G D.
  assert (P : forall p, assemble rt m input <> Panic p) by (intros p; congruence).
  destruct (read_to_end rt m input P) as (s & is1 & errs & Sc & Ad & Er). set (e := mk_parser rt m input) in *.
  destruct (sound_scan e (lines input) (proj2 (Forall_forall _ _) (lines_no_nl input)) init_state [] [] s (sound_init e) eq_refl Sc) as [fs So]. cbn [app] in So.
  assert (As : assoc n (p_labels s) <> None) by (intros As; apply assoc_names in As; apply As; now apply (so_names _ _ _ _ So)).
  assert (J : In (EUndefinedLabel ln n) (p_errors s ++ errs)) by (apply Er; eauto).
  apply in_app_or in J as [J|J].
  { rewrite (so_errors _ _ _ _ So) in J. apply wrongs_in in J as [k J]. destruct (so_wrong _ _ _ _ So k _ J) as (R & _). discriminate. }
  destruct (final_same e s) as (F1 & F2 & F3 & F4 & F5).
  assert (Loc : forall k i, In (k, i) (p_insts s) -> match i with IImm _ _ _ (LocalLabel l) _ => is_local l = true | _ => True end).
  { apply (locals_scan e (lines input) (proj2 (Forall_forall _ _) (lines_no_nl input)) init_state s); [intros k i []|exact Sc]. }
  revert Loc Ad J. generalize 0%nat as j. generalize (p_insts s) as l. intros l. revert is1 errs Er. clear -F2 As L. intros is1 errs _. revert is1 errs.
  induction l as [|[k ins] l IH]; intros is1 errs j Loc Ad J; [injection Ad as _ <-; destruct J|].
  cbn [adjust_from] in Ad. apply obind_ok in Ad as ([x1 e1] & H1 & Ad). apply obind_ok in Ad as ([r er] & H2 & Ad). injection Ad as _ <-. cbn [snd] in J.
  apply in_app_or in J as [J|J]; [|apply (IH r er (S j)); auto; intros k' i' I'; apply (Loc k'); now right].
  specialize (Loc k ins (or_introl eq_refl)). unfold adjust_one in H1.
  destruct ins as [op rs rt0 imm b|op t b|op rs rt0 rd sa b|w]; try (injection H1 as _ <-; destruct J).
  - destruct imm as [v|v|v|loc|lbl]; try (injection H1 as _ <-; destruct J).
    + destruct (negb (is_b_op op)); [injection H1 as _ <-; destruct J|]. cbv zeta in H1. apply obind_ok in H1 as (bad & _ & H1). apply obind_ok in H1 as (es' & E' & H1).
      injection H1 as _ <-. destruct bad; [|injection E' as <-; destruct J]. apply obind_ok in E' as (? & _ & E'). apply obind_ok in E' as (? & _ & E'). apply obind_ok in E' as (? & _ & E').
      injection E' as <-. destruct J as [J|[]]. discriminate.
    + destruct (assoc loc (p_dropped (final e s))).
      * apply obind_ok in H1 as (pk & _ & H1). destruct pk; [injection H1 as _ <-; destruct J|]. apply obind_ok in H1 as (? & _ & H1). injection H1 as _ <-. destruct J as [J|[]]. discriminate.
      * apply obind_ok in H1 as (? & _ & H1). injection H1 as _ <-. destruct J as [J|[]]. injection J as _ <-. congruence.
    + destruct (assoc lbl (p_labels (final e s))); [injection H1 as _ <-; destruct J|discriminate].
  - destruct t as [lbl|a]; [|injection H1 as _ <-; destruct J]. destruct (assoc lbl (p_labels (final e s))) eqn:Al.
    + apply obind_ok in H1 as (? & _ & H1). apply obind_ok in H1 as (? & _ & H1). injection H1 as _ <-. destruct J.
    + apply obind_ok in H1 as (? & _ & H1). injection H1 as _ <-. destruct J as [J|[]]. injection J as _ <-. rewrite F2 in Al. congruence.
Qed.

Lemma undefined_case :
  undefined_jump plain_rt m_new (join [nl] [ #"here:"; #"nop"; #"jal there" ]) [ #"here:"; #"nop" ] #"jal there" [] #"jal" #"there"
  /\ undefined_local plain_rt m_new (join [nl] [ #"here:"; #"@@a:"; #"nop"; #"b @@b" ]) [ #"here:"; #"@@a:"; #"nop" ] #"b @@b" [] (format_named #"b") [] #"@@b".
Proof.
  split; constructor.
  - reflexivity.
  - split; [right; now left|]. apply (plain_statement #"jal" #"there" []).
  - split; reflexivity.
  - intros a [].
  - intros _. vm_compute. intros [D|[]]. discriminate D.
  - intros p A. vm_compute in A. discriminate A.
  - reflexivity.
  - apply format_named_in. vm_compute. reflexivity.
  - apply (plain_branch (format_named #"b") [] [] []); [vm_compute; reflexivity|reflexivity|constructor|]. apply (plain_statement #"b" #"@@b" []).
  - split; reflexivity.
  - reflexivity.
  - intros l I R. vm_compute in I. repeat (destruct I as [<-|I]; [vm_compute in R; discriminate R|]). destruct I.
  - intros p A. vm_compute in A. discriminate A.
Qed.
Lemma orders_plain : orders plain_rt. Proof. intros l. apply Permutation_refl. Qed.

(** The last word of memory: the label after it has no 32-bit address. *)
Theorem C39_refuted : ~ C39_full.
Proof.
  intros (_ & _ & H). set (input := join [nl] [ #"nop"; #"x:"; #"j x" ]). set (m := set_base 0xFFFFFFFC m_new).
  destruct (scan_lines (mk_parser plain_rt m input) init_state (lines input)) as [s|p|p] eqn:Sc; [|vm_compute in Sc; discriminate Sc|vm_compute in Sc; discriminate Sc].
  destruct (H plain_rt m input s orders_plain ltac:(vm_compute; split; [discriminate|reflexivity]) Sc) as [r R]. vm_compute in R. discriminate R.
Qed.
