(** * WarnShown: every warning can be displayed, and they come in the order of their lines (C84; proofs only). *)

From Coq Require Import Lia Sorted.
From Verif Require Import Lib SpecIsa StrLemmas NumLemmas DecodeProofs TextProofs OperandProofs NativeProofs LineProofs ScanProofs ProgProofs BranchProofs LabelProofs CongProofs ErrorProofs HalfProofs QuietProofs SpecErrors SpecText SpecProgram SpecLabels.
From Verif Require Import SpecWarn WarnProofs.

Definition shown (w : pwarning) : Prop := exists t, show_warning w = Ok t.
Definition told {A} (m : M A) : Prop := forall x, In x (fst m) -> shown x.
Lemma told_lift {A} (o : outcome perror A) : told (lift o).
Proof. intros x []. Qed.
Lemma told_warn o : told (warn o).
Proof.
  intros x. unfold warn. destruct o as [v|p|p]; [|intros []|intros []].
  destruct (show_warning v) as [t|p|p] eqn:E; [|intros []|intros []]. intros [<-|[]]. now exists t.
Qed.
Lemma told_bind {A B} (m : M A) (f : A -> M B) : told m -> (forall a, told (f a)) -> told (mbind m f).
Proof.
  unfold told. destruct m as [w [a|p|p]]; cbn [mbind fst]; auto. intros H K x. specialize (K a x). destruct (f a) as [w' r]. cbn [fst] in *.
  intros I. apply in_app_or in I as [I|I]; auto.
Qed.
Section Told.
Variable e : env.
Variable s : pstate.
Lemma branch_told im o : told (check_branch e s im o).
Proof.
  unfold check_branch. destruct (imm_is_label im); [apply told_lift|]. apply told_bind; [apply told_lift|]. intros v.
  destruct (negb _); [apply told_warn|apply told_lift].
Qed.
Lemma jump_told t o : told (check_jump e s t o).
Proof.
  unfold check_jump. destruct (target_is_label t); [apply told_lift|]. apply told_bind; [apply told_lift|]. intros v.
  destruct (negb _); [apply told_warn|apply told_lift].
Qed.
Lemma delay_told : told (check_delay e s).
Proof.
  unfold check_delay. destruct (rev (p_insts s)) as [|[k i] r]; [apply told_lift|]. destruct (has_delay_slot i); [apply told_warn|apply told_lift].
Qed.
Ltac prim := first [apply told_lift|apply branch_told|apply jump_told|apply delay_told].
Ltac arm := repeat first [prim|apply told_bind; [prim|intros ?]].
Ltac cases := match goal with args : list str |- _ => destruct args as [|x1 [|x2 [|x3 [|x4 xr]]]] end; try apply told_lift.
Lemma op_told op arg args : told (parse_op e s op arg args).
Proof.
  unfold parse_op. destruct (classify _) as [[]|].
  - unfold parse_mem. cases. apply told_bind.
    + destruct (str_eqb _ _); arm.
    + intros rt. arm. destruct (re_find_str _ _); arm.
  - unfold parse_imm3. cases. arm. destruct (_ || _); arm.
  - unfold parse_imm2. cases. arm.
  - unfold parse_trap_imm. cases. arm.
  - unfold parse_branch1. cases. arm.
  - unfold parse_branch2. cases. arm.
  - unfold parse_jump. cases. cbv zeta. arm.
  - unfold parse_plain. arm.
  - unfold parse_reg3. cases. arm.
  - unfold parse_shift. cases. arm.
  - unfold parse_shiftv. cases. arm.
  - unfold parse_code. cases. apply told_bind; [|intros; arm]. destruct x1; arm.
  - unfold parse_reg2. cases. arm.
  - unfold parse_jalr. cases; arm.
  - unfold parse_move. cases; arm.
  - unfold parse_b. cases; arm.
  - unfold parse_li. cases. arm. destruct (_ >? _); arm.
  - unfold parse_div. cases; arm.
  - unfold parse_rs. cases. apply told_bind; [|intros; arm]. destruct (str_eqb _ _); arm.
  - unfold parse_rd. cases; arm.
  - unfold parse_dli. cases; arm.
  - unfold parse_b. cases; arm.
  - unfold parse_cop0. cases; arm.
  - unfold parse_cop1. cases; arm.
  - unfold parse_plain. arm.
  - unfold parse_fmem. cases. arm.
  - unfold parse_word. arm.
  - unfold parse_float. destruct (Nat.ltb _ 2); [apply told_lift|]. cbv zeta.
    destruct (mem_str _ _); [cases; arm|]. destruct (mem_str _ _); [cases; arm|]. destruct (starts_with _ _); [cases; arm|arm].
Qed.
Lemma inst_told ln : told (parse_inst e s ln).
Proof. unfold parse_inst. destruct (match split_once " " ln with Some oa => oa | None => _ end) as [op arg]. destruct ln; [apply told_lift|apply op_told]. Qed.
End Told.

Lemma scan_told e ls : Forall no_nl ls -> forall s s', scan_lines e s ls = Ok s' -> Forall shown (p_warnings s) -> Forall shown (p_warnings s').
Proof.
  induction 1 as [|l ls N Nl IH]; intros s s' H F; cbn [scan_lines] in H.
  - injection H as <-. exact F.
  - apply obind_ok in H as (s1 & H1 & H2). refine (IH s1 s' H2 _). apply step_view in H1; [|exact N].
    destruct H1 as [R|k R Lc P|k R Lc P|k p R P|w i R P|w p R P]; try exact F;
      cbn [p_warnings add_inst add_error add_warnings bump]; apply Forall_app; (split; [exact F|]); apply Forall_forall; intros x I;
      apply (inst_told e (bump s) (clean l)); rewrite P; exact I.
Qed.
Lemma scan_sorted e ls : Forall no_nl ls -> forall s s', scan_lines e s ls = Ok s' ->
  exists W, p_warnings s' = p_warnings s ++ W /\ StronglySorted le (map warned_line W) /\ Forall (fun x => (p_line s < warned_line x <= p_line s + List.length ls)%nat) W.
Proof.
  induction 1 as [|l ls N Nl IH]; intros s s' H; cbn [scan_lines] in H.
  - injection H as <-. exists []. rewrite app_nil_r. split; [reflexivity|]. split; constructor.
  - apply obind_ok in H as (s1 & H1 & H2). destruct (IH s1 s' H2) as (W & EW & SW & BW).
    apply step_view in H1; [|exact N]. cbn [List.length].
    assert (K : p_line s1 = S (p_line s) /\ exists V, p_warnings s1 = p_warnings s ++ V /\ forall x, In x V -> warned_line x = S (p_line s)).
    { destruct H1 as [R|k R Lc P|k R Lc P|k p R P|w i R P|w p R P];
      (split; [reflexivity|]);
      try (exists []; rewrite app_nil_r; split; [reflexivity|intros x []]);
      (exists w; split; [reflexivity|]; intros x I; apply (inst_lined e (bump s) (clean l)); rewrite P; exact I). }
    destruct K as (L1 & V & EV & BV). exists (V ++ W). rewrite EW, EV, app_assoc. split; [reflexivity|]. rewrite L1 in BW.
    clear - SW BW BV. split.
    + induction V as [|v V IH]; [exact SW|]. cbn [app map]. constructor; [apply IH; intros x I; apply BV; now right|].
      rewrite (BV v (or_introl eq_refl)). apply Forall_map, Forall_app. split; apply Forall_forall; intros x I.
      * rewrite (BV x (or_intror I)). lia.
      * rewrite Forall_forall in BW. specialize (BW x I). lia.
    + apply Forall_app. split; apply Forall_forall; intros x I; [rewrite (BV x I); lia|]. rewrite Forall_forall in BW. specialize (BW x I). lia.
Qed.

Theorem warnings_told rt m input ws : assemble_warnings rt m input = Some ws ->
  Forall shown ws /\ StronglySorted le (map warned_line ws) /\ Forall (fun x => (1 <= warned_line x <= List.length (lines input))%nat) ws.
Proof.
  intros A. assert (N := nl_of_lines input). unfold assemble_warnings in A.
  destruct (parse (mk_parser rt m input)) as [[ws' r]|p|p] eqn:Pa; try discriminate. injection A as ->.
  unfold parse in Pa. set (e := mk_parser rt m input) in *. apply obind_ok in Pa as (s' & Sc & Pa). change (e_input e) with (lines input) in Sc.
  fold (final e s') in Pa. destruct (final_same e s') as (_ & _ & F3 & _ & F5). rewrite F3, F5 in Pa. apply obind_ok in Pa as (q & _ & Pa).
  injection Pa as Ew Er. subst ws. split; [exact (scan_told e _ N init_state s' Sc (Forall_nil _))|].
  destruct (scan_sorted e _ N init_state s' Sc) as (W & EW & SW & BW). rewrite EW. cbn [init_state p_warnings app]. split; [exact SW|].
  apply Forall_forall. intros x I. rewrite Forall_forall in BW. specialize (BW x I). cbn in BW. lia.
Qed.
