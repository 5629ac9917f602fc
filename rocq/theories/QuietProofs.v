(** * QuietProofs: showing a warning never panics (proofs only). *)

From Coq Require Import Lia.
From Verif Require Import Lib SpecIsa StrLemmas NumLemmas DecodeProofs TextProofs OperandProofs NativeProofs LineProofs ScanProofs ProgProofs BranchProofs LabelProofs CongProofs ErrorProofs HalfProofs SpecErrors SpecText SpecProgram SpecLabels.

Definition fmt_panic : string := "fmt_line: underline not found".
Definition quiet {E A} (o : outcome E A) : Prop := match o with Panic p => p <> fmt_panic | _ => True end.
Definition still {A} (m : M A) : Prop := quiet (snd m).
Lemma quiet_bind {E A B} (o : outcome E A) (f : A -> outcome E B) : quiet o -> (forall a, quiet (f a)) -> quiet (obind o f).
Proof. destruct o; cbn; auto. Qed.
Lemma still_bind {A B} (m : M A) (f : A -> M B) : still m -> (forall a, still (f a)) -> still (mbind m f).
Proof. unfold still. destruct m as [w [a|p|p]]; cbn [snd mbind]; auto. intros _ H. specialize (H a). destruct (f a). exact H. Qed.
Lemma still_lift {A} (o : outcome perror A) : quiet o -> still (lift o).
Proof. exact (fun H => H). Qed.
Lemma unwrap_quiet {E A} t (o : option A) : t <> fmt_panic -> quiet (unwrap (E:=E) t o).
Proof. destruct o; cbn; auto. Qed.
Lemma line_quiet e n : quiet (get_line e n).
Proof. unfold get_line. destruct (nth_error _ _); cbn; [exact Logic.I|discriminate]. Qed.
Lemma fail_quiet {A} e n k : quiet (fail_at (A:=A) e n k).
Proof. apply quiet_bind; [apply line_quiet|intros; exact Logic.I]. Qed.
Lemma as_u32_quiet {E} im : quiet (imm_as_u32 (E:=E) im).
Proof. destruct im; cbn; try exact Logic.I; discriminate. Qed.
Lemma as_u64_quiet {E} im : quiet (imm_as_u64 (E:=E) im).
Proof. destruct im; cbn; try exact Logic.I; discriminate. Qed.
Lemma tgt_quiet {E} t : quiet (target_as_u32 (E:=E) t).
Proof. destruct t; cbn; try exact Logic.I; discriminate. Qed.
Lemma ck_quiet {E} oc v : quiet (ck32 (E:=E) oc v).
Proof. unfold ck32. destruct (_ && _); [exact Logic.I|]. destruct oc; [discriminate|exact Logic.I]. Qed.
Lemma try_quiet n p : reg_try_from n <> Panic p /\ freg_try_from n <> Panic p /\ c0reg_try_from n <> Panic p.
Proof.
  repeat split; [unfold reg_try_from|unfold freg_try_from|unfold c0reg_try_from];
  repeat match goal with |- context [match ?x with _ => _ end] => destruct x end; discriminate.
Qed.
Lemma reg_quiet x : quiet (reg_from_str x).
Proof.
  unfold reg_from_str, quiet. destruct (re_find _ _).
  - destruct (parse_int _ _ _); [|discriminate]. destruct (reg_try_from z) eqn:E; auto. now apply try_quiet in E.
  - destruct (parse_int _ _ _); [destruct (reg_try_from z) eqn:E; auto; now apply try_quiet in E|]. destruct (assoc _ _); exact Logic.I.
Qed.
Lemma freg_quiet x : quiet (freg_from_str x).
Proof.
  unfold freg_from_str, quiet. destruct (parse_int _ 10 _); [destruct (freg_try_from z) eqn:E; auto; now apply try_quiet in E|].
  destruct (assoc _ _); [exact Logic.I|]. destruct (parse_int _ _ _); [destruct (freg_try_from z) eqn:E; auto; now apply try_quiet in E|exact Logic.I].
Qed.
Lemma c0reg_quiet x : quiet (c0reg_from_str x).
Proof.
  unfold c0reg_from_str, quiet. destruct (parse_int _ 10 _); [destruct (c0reg_try_from z) eqn:E; auto; now apply try_quiet in E|].
  destruct (parse_int _ 16 _); [destruct (c0reg_try_from z) eqn:E; auto; now apply try_quiet in E|]. destruct (assoc _ _); exact Logic.I.
Qed.
Lemma new_quiet {E} t v : quiet (imm_new (E:=E) t v).
Proof. unfold imm_new. repeat (destruct (_ =? _); [exact Logic.I|]). discriminate. Qed.
Section Quiet.
Variable e : env.
Variable s : pstate.
Variable raw : str.
Hypothesis Rd : ready e s raw.

Lemma areg_still x : still (areg e s x).
Proof. apply still_lift. unfold arg_reg. assert (H := reg_quiet x). destruct (reg_from_str x); [exact Logic.I|apply fail_quiet|exact H]. Qed.
Lemma afreg_still x : still (afreg e s x).
Proof. apply still_lift. unfold arg_freg. assert (H := freg_quiet x). destruct (freg_from_str x); [exact Logic.I|apply fail_quiet|exact H]. Qed.
Lemma ac0reg_still x : still (lift (arg_c0reg e s x)).
Proof. apply still_lift. unfold arg_c0reg. assert (H := c0reg_quiet x). destruct (c0reg_from_str x); [exact Logic.I|apply fail_quiet|exact H]. Qed.
Lemma target_quiet t : quiet (parse_target e s t).
Proof.
  unfold parse_target. destruct (find _ _) as [[a n]|]; [exact Logic.I|]. destruct (starts_with _ _).
  - cbv zeta. destruct (parse_int _ _ _); [exact Logic.I|apply fail_quiet].
  - destruct t; [discriminate|]. destruct (parse_int u32 10 [a]); [|exact Logic.I]. destruct (parse_int _ _ _); [exact Logic.I|apply fail_quiet].
Qed.
Lemma aimm_still ty x : still (aimm e s ty x).
Proof.
  apply still_lift. unfold parse_immediate. cbv zeta. destruct (starts_with _ _); [exact Logic.I|]. destruct (assoc _ _); [exact Logic.I|].
  destruct (re_find_str _ _).
  - apply quiet_bind; [apply target_quiet|]. intros t. destruct (Nat.ltb _ _); [discriminate|]. destruct (str_eqb _ _).
    + apply quiet_bind; [apply tgt_quiet|]. intros a. apply quiet_bind; [apply ck_quiet|]. intros v. apply new_quiet.
    + destruct (str_eqb _ _); [|discriminate]. apply quiet_bind; [apply tgt_quiet|]. intros a. apply new_quiet.
  - destruct (contains _ _); destruct (parse_int _ _ _); first [apply new_quiet|apply fail_quiet].
Qed.
Lemma delay_still : still (check_delay e s).
Proof. unfold still. rewrite (check_delay_ok e s raw Rd). exact Logic.I. Qed.
Lemma got_line : get_line e (p_line s) = Ok (mk_line (p_line s) raw).
Proof. unfold get_line. destruct Rd as [N _]. now rewrite N. Qed.
Lemma branch_still im o : part o raw -> still (check_branch e s im o).
Proof.
  intros P. unfold check_branch. destruct (imm_is_label im); [exact Logic.I|]. apply still_bind; [apply still_lift, as_u32_quiet|]. intros v.
  destruct (negb _); [|exact Logic.I]. rewrite got_line. cbn [obind]. destruct (show_branch (mk_line (p_line s) raw) o P) as [t T].
  rewrite (warn_ok _ _ T). exact Logic.I.
Qed.
Lemma jump_still t o : part o raw -> still (check_jump e s t o).
Proof.
  intros P. unfold check_jump. destruct (target_is_label t); [exact Logic.I|]. apply still_bind; [apply still_lift, tgt_quiet|]. intros v.
  destruct (negb _); [|exact Logic.I]. rewrite got_line. cbn [obind]. destruct (show_jump (mk_line (p_line s) raw) o P) as [x T].
  rewrite (warn_ok _ _ T). exact Logic.I.
Qed.
Lemma bad_still {A} arg n k : still (bad_count (A:=A) e s arg n k).
Proof. apply still_lift, fail_quiet. Qed.
Lemma unwrap_reg_still x : still (lift (arg_reg_unwrap x)).
Proof. apply still_lift. unfold arg_reg_unwrap. destruct (reg_from_str x); [exact Logic.I|discriminate|discriminate]. Qed.
Lemma base_still x : still (lift (base_text x)).
Proof. apply still_lift. unfold base_text. destruct (rev _); [discriminate|exact Logic.I]. Qed.
Lemma sa_still x : still (lift (parse_sa x)).
Proof. apply still_lift. unfold parse_sa. destruct (_ || _); (apply quiet_bind; [apply unwrap_quiet; discriminate|intros; exact Logic.I]). Qed.

Ltac prim := first [exact Logic.I|apply bad_still|apply areg_still|apply afreg_still|apply ac0reg_still|apply aimm_still|apply delay_still
  |apply unwrap_reg_still|apply base_still|apply sa_still|apply still_lift, as_u32_quiet|apply still_lift, as_u64_quiet|apply still_lift, target_quiet
  |apply still_lift; unfold iop_of, jop_of, rop_of; apply unwrap_quiet; discriminate|apply branch_still; assumption|apply still_lift, fail_quiet].
Ltac arm := repeat first [prim|apply still_bind; [prim|intros ?]].
Variables op arg : str.
Variable args : list str.
Hypothesis Hargs : Forall (fun x => part x raw) args.
Ltac cases := destruct args as [|x1 [|x2 [|x3 [|x4 xr]]]]; try apply bad_still;
  repeat match goal with H : Forall _ (_ :: _) |- _ =>
    let H1 := fresh "O" in let H2 := fresh "Os" in assert (H1 := Forall_inv H); assert (H2 := Forall_inv_tail H); clear H; cbv beta in H1 end.
Lemma op_still : still (parse_op e s op arg args).
Proof.
  unfold parse_op. destruct (classify _) as [[]|].
  - unfold parse_mem. cases. apply still_bind.
    + destruct (str_eqb _ _); arm. match goal with |- still (lift (match reg_try_from ?v with _ => _ end)) => destruct (reg_try_from v); try exact Logic.I; discriminate end.
    + intros rt. arm. destruct (re_find_str _ _); arm.
  - unfold parse_imm3. cases. arm. destruct (_ || _); arm.
  - unfold parse_imm2. cases. arm.
  - unfold parse_trap_imm. cases. arm.
  - unfold parse_branch1. cases. arm.
  - unfold parse_branch2. cases. arm.
  - unfold parse_jump. cases. cbv zeta. arm. apply still_bind; [|intros; arm].
    apply jump_still. apply (part_trans _ x1); [apply trim_part|assumption].
  - unfold parse_plain. arm.
  - unfold parse_reg3. cases. arm.
  - unfold parse_shift. cases. arm.
  - unfold parse_shiftv. cases. arm.
  - unfold parse_code. cases. apply still_bind; [|intros; arm]. destruct x1; arm.
  - unfold parse_reg2. cases. arm.
  - unfold parse_jalr. cases; arm.
  - unfold parse_move. cases; arm.
  - unfold parse_b. cases; arm.
  - unfold parse_li. cases. arm. destruct (_ >? _); arm.
  - unfold parse_div. cases; arm.
  - unfold parse_rs. cases. apply still_bind; [|intros; arm]. destruct (str_eqb _ _); arm.
  - unfold parse_rd. cases; arm.
  - unfold parse_dli. cases; arm.
  - unfold parse_b. cases; arm.
  - unfold parse_cop0. cases; arm.
  - unfold parse_cop1. cases; arm.
  - unfold parse_plain. arm.
  - unfold parse_fmem. cases. arm.
  - unfold parse_word. arm.
  - unfold parse_float. destruct (Nat.ltb _ 2); [discriminate|]. cbv zeta.
    destruct (mem_str _ _); [cases; arm|]. destruct (mem_str _ _); [cases; arm|]. destruct (starts_with _ _); [cases; arm|arm].
    destruct (nth_error _ _) as [cond|]; [|cbn; discriminate].
    apply still_bind; [|intros; arm]. apply still_lift. unfold parse_float_cond. destruct (assoc _ _); [exact Logic.I|apply fail_quiet].
Qed.
End Quiet.

Lemma inst_still e s raw : ready e s raw -> still (parse_inst e s (clean raw)).
Proof.
  intros Rd. unfold parse_inst.
  assert (K : forall arg, part arg (clean raw) -> Forall (fun x => part x raw) (split_char "," arg)).
  { intros arg P. apply Forall_forall. intros x I. apply split_char_part in I. apply (part_trans _ arg); [exact I|]. apply (part_trans _ (clean raw)); [exact P|apply clean_part]. }
  destruct (split_once " " (clean raw)) as [[op arg]|] eqn:Sp.
  - destruct (clean raw) eqn:C; [apply still_lift, fail_quiet|]. rewrite <- C in *. apply (op_still e s raw Rd), K. apply split_once_decomp in Sp. rewrite Sp.
    exists (op ++ #" "), []. rewrite app_nil_r, <- app_assoc. reflexivity.
  - destruct (clean raw) eqn:C; [apply still_lift, fail_quiet|]. rewrite <- C in *. apply (op_still e s raw Rd), K. exists [], (clean raw). reflexivity.
Qed.

Lemma label_quiet e s k : quiet (parse_label e s k).
Proof.
  unfold parse_label. destruct k; [discriminate|]. destruct (is_digit _); [apply fail_quiet|]. destruct (assoc _ _); [|exact Logic.I].
  apply quiet_bind; [apply line_quiet|]. intros l. destruct (nth_error _ _); [exact Logic.I|discriminate].
Qed.
Lemma step_quiet e s raw : no_nl raw -> ready e (bump s) raw -> quiet (step_line e s raw).
Proof.
  intros N Rd. unfold step_line. rewrite clean_spec by exact N. cbv zeta. change (mk_pstate _ _ _ _ (S (p_line s)) _ _) with (bump s) at 1.
  assert (H : quiet (scan_line e (bump s) (clean raw))).
  { unfold scan_line. destruct (ends_with _ _).
    - destruct (starts_with _ _); cbv zeta; (apply quiet_bind; [apply label_quiet|intros; exact Logic.I]).
    - destruct (clean raw) eqn:C; [exact Logic.I|]. rewrite <- C. assert (X := inst_still e (bump s) raw Rd). unfold still in X.
      destruct (parse_inst e (bump s) (clean raw)) as [w [i|p|p]]; cbn [snd] in X; [exact Logic.I|exact Logic.I|exact X]. }
  destruct (scan_line e (bump s) (clean raw)); [exact Logic.I|exact Logic.I|exact H].
Qed.
Lemma step_after e done raw s s' : after e done s -> no_nl raw -> step_line e s raw = Ok s' -> after e (done ++ [raw]) s'.
Proof.
  intros [L I] N H. apply step_view in H; [|exact N]. unfold after. rewrite app_length. cbn [List.length].
  destruct H; cbn [bump add_error add_warnings add_inst add_label add_local flush_locals p_line p_insts]; rewrite ?app_length; cbn [List.length]; lia.
Qed.
Lemma scan_quiet e ls : forall done s, e_input e = done ++ ls -> Forall no_nl ls -> after e done s -> quiet (scan_lines e s ls).
Proof.
  induction ls as [|raw ls IH]; intros done s In0 N A; cbn [scan_lines]; [exact Logic.I|].
  inversion N as [|? ? N1 N2]; subst. assert (Q := step_quiet e s raw N1 (after_ready e done raw ls s In0 A)).
  destruct (step_line e s raw) as [s1|p|p] eqn:St; cbn [obind]; [|exact Logic.I|exact Q].
  apply (IH (done ++ [raw])); [now rewrite <- app_assoc|exact N2|]. now apply (step_after e done raw s).
Qed.
Lemma pick_quiet s i defs : quiet (pick_local s i defs).
Proof.
  induction defs as [|[a l] r IH]; [exact Logic.I|]. cbn [pick_local]. apply quiet_bind.
  - unfold get_label_scope. destruct l; [exact Logic.I|]. destruct (assoc _ _); [|discriminate]. destruct (index_of _ _); [|discriminate].
    destruct (nth_error _ _) as [[? ?]|]; exact Logic.I.
  - intros lu. destruct (_ || _); [exact IH|exact Logic.I].
Qed.
Lemma adjust_one_quiet e s i n ins : quiet (adjust_one e s i n ins).
Proof.
  assert (B : forall v, quiet (do! m <- ck32 (E:=perror) (e_oc e) v; ck32 (e_oc e) (e_base e + m))).
  { intros v. apply quiet_bind; [apply ck_quiet|intros; apply ck_quiet]. }
  destruct ins as [op rs rt im b|op t b|op rs rt rd sa b|w]; cbn [adjust_one]; try exact Logic.I.
  - destruct im as [v|v|v|l|l]; try exact Logic.I.
    + destruct (negb _); [exact Logic.I|]. cbv zeta. apply quiet_bind.
      * destruct (_ <? _); [exact Logic.I|]. apply quiet_bind; [apply B|intros; exact Logic.I].
      * intros bad. apply quiet_bind; [|intros; exact Logic.I]. destruct bad; [|exact Logic.I].
        apply quiet_bind; [apply line_quiet|]. intros ?. apply quiet_bind; [apply line_quiet|]. intros ?. apply quiet_bind; [apply B|]. intros; exact Logic.I.
    + destruct (assoc _ _); [|apply quiet_bind; [apply line_quiet|intros; exact Logic.I]].
      apply quiet_bind; [apply pick_quiet|]. intros p. destruct p; [exact Logic.I|]. apply quiet_bind; [apply line_quiet|intros; exact Logic.I].
    + destruct (assoc _ _); [exact Logic.I|discriminate].
  - destruct t as [l|a]; [|exact Logic.I]. destruct (assoc _ _); [|apply quiet_bind; [apply line_quiet|intros; exact Logic.I]].
    apply quiet_bind; [apply ck_quiet|]. intros ?. apply quiet_bind; [apply ck_quiet|]. intros; exact Logic.I.
Qed.
Lemma adjust_quiet e s l : forall i, quiet (adjust_from e s i l).
Proof.
  induction l as [|[n x] l IH]; intros i; [exact Logic.I|]. cbn [adjust_from]. apply quiet_bind; [apply adjust_one_quiet|]. intros p.
  apply quiet_bind; [apply IH|intros; exact Logic.I].
Qed.
Lemma neg_quiet {E} oc v : quiet (neg_i32 (E:=E) oc v).
Proof. unfold neg_i32. cbv zeta. destruct (_ && _); [discriminate|exact Logic.I]. Qed.
Lemma enc_quiet {E} oc op rs rt im : quiet (enc_i (E:=E) oc op rs rt im).
Proof.
  destruct op; cbn [enc_i]; repeat first [exact Logic.I
    | apply quiet_bind; [first [apply as_u32_quiet|apply as_u64_quiet|apply ck_quiet|apply neg_quiet]|intros ?]].
Qed.
Lemma assemble_quiet {E} oc l : quiet (assemble_insts (E:=E) oc l).
Proof.
  induction l as [|i l IH]; [exact Logic.I|]. cbn [assemble_insts]. apply quiet_bind.
  - destruct i; cbn [assemble_inst].
    + apply quiet_bind; [apply enc_quiet|intros; exact Logic.I].
    + apply quiet_bind; [|intros; exact Logic.I]. destruct op; cbn [enc_j]; (apply quiet_bind; [apply tgt_quiet|intros; exact Logic.I]).
    + exact Logic.I.
    + discriminate.
  - intros. apply quiet_bind; [exact IH|intros; exact Logic.I].
Qed.
Theorem warnings_shown rt m input : assemble rt m input <> Panic fmt_panic.
Proof.
  change (quiet (A := list inst) (assemble rt m input)) || (intros H; revert H).
  unfold assemble, parse. set (e := mk_parser rt m input).
  assert (Q : quiet (scan_lines e init_state (e_input e))).
  { apply (scan_quiet e (e_input e) []); [reflexivity|apply (nl_of_lines input)|split; cbn; lia]. }
  destruct (scan_lines e init_state (e_input e)) as [s|p|p]; cbn [obind]; [|discriminate|intros H; injection H as ->; now apply Q].
  match goal with |- context [adjust_from e ?s1 0 ?l] => assert (Q2 := adjust_quiet e s1 l 0); destruct (adjust_from e s1 0 l) as [q|p|p] end;
    cbn [obind]; [|discriminate|intros H; injection H as ->; now apply Q2].
  match goal with |- context [match ?x with [] => _ | _ => _ end] => destruct x end; [|discriminate].
  match goal with |- context [assemble_insts ?oc ?l] => assert (Q3 := assemble_quiet (E:=perror) oc l); destruct (assemble_insts (E:=perror) oc l) end;
    [discriminate|discriminate|intros H; injection H as ->; now apply Q3].
Qed.
