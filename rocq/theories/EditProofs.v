(** * EditProofs: editing instructions of a program (proofs only). *)

From Coq Require Import Lia.
From Verif Require Import Lib SpecIsa StrLemmas TextProofs DisplayProofs OperandProofs NativeProofs LineProofs ScanProofs ProgProofs BranchProofs LabelProofs AsmProofs ErrorProofs RefProofs CongProofs
  SpecText SpecProgram SpecLabels SpecEdit.

(** Two readers that agree on everything but the instructions read. *)
Record twin (s s' : pstate) : Prop := mk_twin {
  tw_count : List.length (p_insts s) = List.length (p_insts s');
  tw_labels : p_labels s = p_labels s';
  tw_local : p_local s = p_local s';
  tw_dropped : p_dropped s = p_dropped s';
  tw_line : p_line s = p_line s'
}.
Lemma twin_init : twin init_state init_state. Proof. constructor; reflexivity. Qed.

Section Twin.
Variables (e e' : env).
Hypothesis Eo : e_order e = e_order e'.
Hypothesis Eb : e_base e = e_base e'.
Hypothesis Ec : e_oc e = e_oc e'.
Hypothesis Es : e_syms e = e_syms e'.

Lemma flush_twin s s' : twin s s' -> twin (flush_locals e s) (flush_locals e' s').
Proof. intros [A B C D F]. constructor; cbn [flush_locals p_insts p_labels p_local p_dropped p_line]; auto. now rewrite C, D, Eo. Qed.
Lemma step_twin s s' raw raw' t t' : stepped e s raw t -> stepped e' s' raw' t' -> p_errors t = [] -> p_errors t' = [] -> role_of raw = role_of raw' -> twin s s' -> twin t t'.
Proof.
  intros St St' Er Er' Rr Tw. assert (No : forall (a : list perror) b, a ++ [b] = [] -> False) by (intros [] ? ?; discriminate).
  destruct St as [R|k R Lc P|k R Lc P|k p R P|w i R P|w p R P]; try (exfalso; exact (No _ _ Er));
  destruct St' as [R'|k' R' Lc' P'|k' R' Lc' P'|k' p' R' P'|w' i' R' P'|w' p' R' P']; try (exfalso; exact (No _ _ Er')); rewrite R, R' in Rr; try discriminate Rr; try (injection Rr as <-); try congruence.
  - destruct Tw as [A B C D F]. constructor; cbn [bump p_insts p_labels p_local p_dropped p_line]; congruence.
  - apply flush_twin. destruct Tw as [A B C D F]. constructor; cbn [add_label bump p_insts p_labels p_local p_dropped p_line]; congruence.
  - destruct Tw as [A B C D F]. constructor; cbn [add_local bump p_insts p_labels p_local p_dropped p_line]; try congruence. unfold scope_of. cbn [bump p_labels]. now rewrite A, B, C.
  - destruct Tw as [A B C D F]. constructor; cbn [add_inst add_warnings bump p_insts p_labels p_local p_dropped p_line]; try congruence. rewrite !app_length. cbn [List.length]. congruence.
Qed.
Lemma scan_twin ls ls' : edited ls ls' -> Forall no_nl ls -> Forall no_nl ls' -> forall s s' t t', scan_lines e s ls = Ok t -> scan_lines e' s' ls' = Ok t' -> p_errors t = [] -> p_errors t' = [] -> twin s s' -> twin t t'.
Proof.
  induction 1 as [|l l' ls ls' R _ IH]; intros N N' s s' t t' H H' Er Er' Tw; cbn [scan_lines] in H, H'.
  - injection H as <-. injection H' as <-. exact Tw.
  - apply obind_ok in H as (s1 & H1 & H2). apply obind_ok in H' as (s1' & H1' & H2').
    assert (Nl := Forall_inv_tail N). assert (Nl' := Forall_inv_tail N').
    assert (E1 : p_errors s1 = []) by (apply (no_errors_before s1 t); [apply (scan_grows e ls Nl _ _ H2)|exact Er]).
    assert (E1' : p_errors s1' = []) by (apply (no_errors_before s1' t'); [apply (scan_grows e' ls' Nl' _ _ H2')|exact Er']).
    apply step_view in H1; [|exact (Forall_inv N)]. apply step_view in H1'; [|exact (Forall_inv N')].
    apply (IH Nl Nl' s1 s1' t t'); auto. eapply step_twin; eauto.
Qed.
Lemma final_twin s s' : twin s s' -> twin (final e s) (final e' s').
Proof. intros Tw. unfold final. rewrite <- (tw_dropped _ _ Tw). destruct (p_dropped s) eqn:D; [exact Tw|now apply flush_twin]. Qed.
Lemma scope_twin s s' n : twin s s' -> get_label_scope s n = get_label_scope s' n.
Proof. intros [A B C D F]. unfold get_label_scope. now rewrite A, B. Qed.
Lemma pick_twin s s' i defs : twin s s' -> pick_local s i defs = pick_local s' i defs.
Proof. intros Tw. induction defs as [|[a sc] r IH]; [reflexivity|]. cbn [pick_local]. rewrite (scope_twin s s' sc Tw). destruct (get_label_scope s' sc); cbn [obind]; try reflexivity. now rewrite IH. Qed.
Lemma adjust_twin s s' i n x y y' : twin s s' -> adjust_one e s i n x = Ok (y, []) -> adjust_one e' s' i n x = Ok (y', []) -> y = y'.
Proof.
  intros Tw H1 H2. assert (X : forall (a c : inst * list perror), @Ok perror _ a = Ok c -> a = c) by (intros a c E; congruence).
  assert (Same : forall a es1 es2, @Ok perror (inst * list perror) (a, es1) = Ok (y, []) -> @Ok perror (inst * list perror) (a, es2) = Ok (y', []) -> y = y').
  { intros a es1 es2 A B. apply X in A. apply X in B. apply pair_equal_spec in A as [<- _]. apply pair_equal_spec in B as [<- _]. reflexivity. }
  destruct Tw as [A B C D F] eqn:Tw'. clear Tw'. unfold adjust_one in H1, H2.
  destruct x as [op rs rt im b|op t b|op rs rt rd sa b|w]; [| |eapply Same; eassumption|eapply Same; eassumption].
  - destruct im as [v|v|v|l|l]; [eapply Same; eassumption| |eapply Same; eassumption| |].
    + destruct (negb (is_b_op op)); [eapply Same; eassumption|]. cbv zeta in H1, H2.
      apply obind_ok in H1 as (d1 & _ & H1). apply obind_ok in H2 as (d2 & _ & H2). apply obind_ok in H1 as (er & _ & H1). apply obind_ok in H2 as (er' & _ & H2). eapply Same; eassumption.
    + rewrite <- D in H2. destruct (assoc l (p_dropped s)) as [defs|]; [|apply obind_ok in H1 as (? & _ & H1); discriminate].
      rewrite <- (pick_twin s s' i defs Tw) in H2. apply obind_ok in H1 as (p & P & H1). rewrite P in H2. cbn [obind] in H2.
      destruct p as [a|]; [|apply obind_ok in H1 as (? & _ & H1); discriminate]. eapply Same; eassumption.
    + rewrite <- B in H2. destruct (assoc l (p_labels s)); [|discriminate]. eapply Same; eassumption.
  - destruct t as [l|a]; [|eapply Same; eassumption]. rewrite <- B in H2. destruct (assoc l (p_labels s)); [|apply obind_ok in H1 as (? & _ & H1); discriminate].
    rewrite <- Ec, <- Eb in H2. apply obind_ok in H1 as (m1 & M1 & H1). apply obind_ok in H1 as (a1 & A1 & H1). rewrite M1 in H2. cbn [obind] in H2. rewrite A1 in H2. cbn [obind] in H2. eapply Same; eassumption.
Qed.
End Twin.

(** What becomes of one instruction line in two programs that agree on everything but the
    instructions. *)
Lemma edited_at rt m input input' out out' l1 l1' raw raw' l2 l2' : assemble rt m input = Ok out -> assemble rt m input' = Ok out' ->
  lines input = l1 ++ raw :: l2 -> lines input' = l1' ++ raw' :: l2' -> edited l1 l1' -> edited l2 l2' -> is_instruction raw = true -> is_instruction raw' = true ->
  let e := mk_parser rt m input in let e' := mk_parser rt m input' in
  exists s s' t t' w i w' i' y y' z z', twin s s' /\ twin t t' /\ ready e (bump s) raw /\ ready e' (bump s') raw' /\ p_labels s = label_table 0 l1
    /\ parse_inst e (bump s) (clean raw) = (w, Ok i) /\ parse_inst e' (bump s') (clean raw') = (w', Ok i')
    /\ adjust_one e t (instruction_count l1) (S (List.length l1)) i = Ok (y, []) /\ adjust_one e' t' (instruction_count l1) (S (List.length l1)) i' = Ok (y', [])
    /\ @assemble_inst perror (rt_oc rt) y = Ok z /\ @assemble_inst perror (rt_oc rt) y' = Ok z'
    /\ nth_error out (instruction_count l1) = Some z /\ nth_error out' (instruction_count l1) = Some z' /\ instruction_count l1' = instruction_count l1.
Proof.
  intros A A' E E' D1 D2 R R' e e'. apply assemble_ok in A as (s0 & is1 & As). apply assemble_ok in A' as (s0' & is1' & As').
  assert (N := nl_of_lines input). assert (N' := nl_of_lines input').
  assert (Rr : role_of raw = Instruction) by (unfold is_instruction in R; destruct (role_of raw); try discriminate; reflexivity).
  assert (Rr' : role_of raw' = Instruction) by (unfold is_instruction in R'; destruct (role_of raw'); try discriminate; reflexivity).
  assert (Tw : twin s0 s0').
  { apply (scan_twin e e' eq_refl (lines input) (lines input')) with (s := init_state) (s' := init_state); auto; try apply As; try apply As'; [|apply twin_init].
    rewrite E, E'. apply Forall2_app; [exact D1|]. constructor; [congruence|exact D2]. }
  destruct (assembled_at e _ s0 is1 out l1 raw l2 N As E) as (s1 & S1 & E1 & L1 & P1 & T1 & X).
  destruct (assembled_at e' _ s0' is1' out' l1' raw' l2' N' As' E') as (s1' & S1' & E1' & L1' & P1' & T1' & X').
  rewrite Rr in X. rewrite Rr' in X'.
  destruct X as (w & i0 & i1 & z & o1 & o2 & P & _ & Ad & Ai & -> & Lo & _).
  destruct X' as (w' & i0' & i1' & z' & o1' & o2' & P' & _ & Ad' & Ai' & -> & Lo' & _).
  assert (Ne : Forall no_nl l1) by (rewrite E in N; now apply Forall_app in N). assert (Ne' : Forall no_nl l1') by (rewrite E' in N'; now apply Forall_app in N').
  assert (Tw1 : twin s1 s1') by (apply (scan_twin e e' eq_refl l1 l1' D1 Ne Ne' init_state init_state); auto; apply twin_init).
  assert (C : instruction_count l1' = instruction_count l1) by (rewrite <- L1, <- L1'; symmetry; apply Tw1).
  assert (Ll : List.length l1' = List.length l1) by (clear -D1; induction D1; cbn; congruence).
  exists s1, s1', (final e s0), (final e' s0'), w, i0, w', i0', i1, i1', z, z'. rewrite C, Ll in Ad'.
  split; [exact Tw1|]. split; [now apply final_twin|].
  split; [apply (after_ready e l1 raw l2); [exact E|]; split; [exact P1|]; rewrite L1; apply instruction_count_le|].
  split; [apply (after_ready e' l1' raw' l2'); [exact E'|]; split; [exact P1'|]; rewrite L1'; apply instruction_count_le|].
  split; [exact T1|]. split; [exact P|]. split; [exact P'|]. split; [exact Ad|]. split; [exact Ad'|]. split; [exact Ai|]. split; [exact Ai'|].
  split; [rewrite nth_error_app2 by lia; now rewrite Lo, Nat.sub_diag|]. split; [rewrite nth_error_app2 by lia; now rewrite Lo', C, Nat.sub_diag|exact C].
Qed.

Theorem edit_elsewhere rt m input input' out out' l1 l1' raw l2 l2' : assemble rt m input = Ok out -> assemble rt m input' = Ok out' ->
  lines input = l1 ++ raw :: l2 -> lines input' = l1' ++ raw :: l2' -> edited l1 l1' -> edited l2 l2' -> is_instruction raw = true ->
  exists z, nth_error out (instruction_count l1) = Some z /\ nth_error out' (instruction_count l1) = Some z.
Proof.
  intros A A' E E' D1 D2 R. destruct (edited_at rt m input input' out out' l1 l1' raw raw l2 l2' A A' E E' D1 D2 R R)
    as (s & s' & t & t' & w & i & w' & i' & y & y' & z & z' & Tw & Tf & Rd & Rd' & _ & P & P' & Ad & Ad' & Ai & Ai' & N & N' & _).
  assert (Nr : no_nl raw) by (apply (lines_no_nl input); rewrite E; apply in_or_app; right; now left).
  assert (Ak : alike (mk_parser rt m input) (mk_parser rt m input') (bump s) (bump s') raw raw).
  { constructor; auto. intros n. cbn [bump p_labels]. now rewrite (tw_labels _ _ Tw). }
  assert (Sm := same_inst _ _ _ _ raw raw (clean raw) Ak (clean_part raw) (clean_part raw)). rewrite P, P' in Sm. cbn in Sm. subst i'.
  assert (y = y') by (exact (adjust_twin (mk_parser rt m input) (mk_parser rt m input') eq_refl eq_refl _ _ _ _ _ _ _ Tf Ad Ad')). subst y'. rewrite Ai in Ai'. injection Ai' as <-. exists z. auto.
Qed.

(** The offset of a branch does not depend on its registers. *)
Lemma branch_edit rt m input input' out out' l1 l1' raw raw' l2 l2' f os os' t : assemble rt m input = Ok out -> assemble rt m input' = Ok out' ->
  lines input = l1 ++ raw :: l2 -> lines input' = l1' ++ raw' :: l2' -> edited l1 l1' -> edited l2 l2' ->
  In f (isa ++ idioms) -> branch_line f os t raw -> branch_line f os' t raw' -> branch_operand l1 t ->
  exists d z z', nth_error out (instruction_count l1) = Some z /\ nth_error out' (instruction_count l1) = Some z'
    /\ inst_bytes z = [word f (os ++ [OInt d])] /\ inst_bytes z' = [word f (os' ++ [OInt d])].
Proof.
  intros A A' E E' D1 D2 If B B' T. set (e := mk_parser rt m input). set (e' := mk_parser rt m input').
  assert (Nr : no_nl raw) by (apply (lines_no_nl input); rewrite E; apply in_or_app; right; now left).
  assert (Nr' : no_nl raw') by (apply (lines_no_nl input'); rewrite E'; apply in_or_app; right; now left).
  assert (Tl : forall n, label_table n l1 = label_table n l1').
  { clear -D1. induction D1 as [|l l' ls ls' R _ IH]; intros n; [reflexivity|]. cbn [label_table]. rewrite R. destruct (role_of l') as [|k|]; [apply IH| |apply IH].
    destruct (is_local k); [apply IH|]. now rewrite IH. }
  assert (Cl : instruction_count l1 = instruction_count l1').
  { clear -D1. induction D1 as [|l l' ls ls' R _ IH]; [reflexivity|]. unfold instruction_count in *. cbn [filter]. assert (X : is_instruction l = is_instruction l') by (unfold is_instruction; now rewrite R). rewrite X. destruct (is_instruction l'); cbn [List.length]; auto. }
  destruct T as [k Id Lc I|a Nu Ra|Id Lc].
  - destruct (branch_to_label rt m input out l1 raw l2 f os t k A E If B Id Lc I) as (x & Nx & Bx). rewrite Tl in I.
    destruct (branch_to_label rt m input' out' l1' raw' l2' f os' t k A' E' If B' Id Lc I) as (x' & Nx' & Bx'). rewrite <- Cl in Nx', Bx'. eexists _, x, x'. eauto.
  - destruct (branch_to_number rt m input out l1 raw l2 f os t a A E If B Nu Ra) as (x & Nx & Bx).
    destruct (branch_to_number rt m input' out' l1' raw' l2' f os' t a A' E' If B' Nu Ra) as (x' & Nx' & Bx'). rewrite <- Cl in Nx', Bx'. eexists _, x, x'. eauto.
  - assert (R : is_instruction raw = true /\ is_instruction raw' = true).
    { assert (Q : forall en l os0, branch_line f os0 t l -> no_nl l -> (exists s0, ready en s0 l) -> is_instruction l = true).
      { intros en l os0 B0 N0 [s0 R0]. destruct (local_branch_parse en s0 f os0 t l If B0 Id Lc N0 R0) as (Ne & Ec & _). unfold is_instruction. now rewrite (role_native l Ne Ec). }
      assert (Rx : forall l, exists s0, ready (mk_env [l] 0 [] true (fun x => x)) s0 l) by (intros l; exists (bump init_state); split; [reflexivity|intros X; now contradiction X]).
      split; eapply Q; eauto. }
    destruct R as [R R']. destruct (edited_at rt m input input' out out' l1 l1' raw raw' l2 l2' A A' E E' D1 D2 R R')
      as (s & s' & u & u' & w & i & w' & i' & y & y' & z & z' & Tw & Tf & Rd & Rd' & _ & P & P' & Ad & Ad' & Ai & Ai' & N & N' & _).
    destruct (local_branch_parse e (bump s) f os t raw If B Id Lc Nr Rd) as (_ & _ & w1 & p & rs & r2 & P1 & En).
    destruct (local_branch_parse e' (bump s') f os' t raw' If B' Id Lc Nr' Rd') as (_ & _ & w1' & p' & rs' & r2' & P1' & En').
    fold e in P, Ad. fold e' in P', Ad'. rewrite P in P1. rewrite P' in P1'. apply pair_equal_spec in P1 as [_ P1]. apply pair_equal_spec in P1' as [_ P1']. injection P1 as ->. injection P1' as ->.
    cbn [adjust_one] in Ad, Ad'. rewrite <- (tw_dropped _ _ Tf) in Ad'. destruct (assoc t (p_dropped u)) as [defs|]; [|apply obind_ok in Ad as (? & _ & Ad); discriminate].
    rewrite <- (pick_twin u u' _ defs Tf) in Ad'. apply obind_ok in Ad as (q & Q & Ad). rewrite Q in Ad'. cbn [obind] in Ad'.
    destruct q as [a|]; [|apply obind_ok in Ad as (? & _ & Ad); discriminate].
    assert (X : forall (b c : inst * list perror), @Ok perror _ b = Ok c -> b = c) by (intros b c H; congruence).
    apply X in Ad. apply X in Ad'. apply pair_equal_spec in Ad as [<- _]. apply pair_equal_spec in Ad' as [<- _].
    set (d := Z.of_nat a - (Z.of_nat (instruction_count l1) + 1)).
    destruct (En d (rt_oc rt)) as (x & Ax & Bx). destruct (En' d (rt_oc rt)) as (x' & Ax' & Bx').
    unfold label_offset, wrap in Ai, Ai'. fold d in Ai, Ai'. change (2 ^ 16) with 65536 in Ai, Ai'. rewrite Ai in Ax. injection Ax as <-. rewrite Ai' in Ax'. injection Ax' as <-.
    exists d, z, z'. auto.
Qed.

(** A distance is kept modulo 2^16. *)
Lemma word_normal f os t raw d : branch_line f os t raw -> word f (os ++ [OInt d]) = word f (os ++ [OInt (signed16 (d mod 65536))]).
Proof.
  intros (ks & ts & FO & Len & _). unfold word, ops_word. rewrite FO, !combine_app, !map_app by exact Len. cbn [combine map fst snd place].
  replace (signed16 (d mod 65536) mod 65536) with (d mod 65536); [reflexivity|]. unfold signed16. assert (B := Z.mod_pos_bound d 65536 ltac:(lia)).
  destruct (d mod 65536 <? 32768); [now rewrite Z.mod_mod by lia|]. replace (d mod 65536 - 65536) with (d mod 65536 + (-1) * 65536) by lia. rewrite Z.mod_add by lia. now rewrite Z.mod_mod by lia.
Qed.
Lemma branch_fits f os t raw d : In f (isa ++ idioms) -> branch_line f os t raw -> Forall2 fits (f_ops f) (os ++ [OInt (signed16 (d mod 65536))]).
Proof.
  intros If (ks & ts & FO & Len & Sp & _). rewrite FO. apply Forall2_app.
  - assert (B : is_branch f = true) by (unfold is_branch, no_branch; rewrite FO, forallb_app; cbn; now rewrite andb_false_r).
    destruct (proj1 (Forall_forall _ _) isa_branches f If B) as (ks' & p & FO' & _ & K & _). rewrite FO in FO'. apply app_inj_tail in FO' as [<- _].
    apply notation_is_fits. exact (gpr_kind_fits ks os ts K Len Sp).
  - constructor; [|constructor]. cbn [fits]. unfold signed16. assert (B := Z.mod_pos_bound d 65536 ltac:(lia)). destruct (d mod 65536 <? 32768) eqn:E; lia.
Qed.
