(** * RelocProofs: what the base address changes (proofs only). *)

From Coq Require Import Lia.
From Verif Require Import Lib SpecIsa StrLemmas NumLemmas NativeProofs ScanProofs ProgProofs ErrorProofs PanicMore ShownProofs LabelProofs RefProofs PropsLabels SpecErrors SpecText SpecProgram SpecLabels SpecDisplay.

Section Reloc.
Variables (ls : list str) (b1 b2 : Z) (syms : list (Z * str)) (oc : bool) (order : list (str * (nat * str)) -> list (str * (nat * str))).
Let e1 := mk_env ls b1 syms oc order.
Let e2 := mk_env ls b2 syms oc order.

Lemma op_base s op arg args : parse_op e1 s op arg args = parse_op e2 s op arg args.
Proof.
  unfold parse_op. destruct (classify _) as [[]|].
  all: reflexivity.
Qed.
Lemma inst_base s ln : parse_inst e1 s ln = parse_inst e2 s ln.
Proof. unfold parse_inst. destruct (match split_once " " ln with Some oa => oa | None => (ln, []) end) as [op arg]. destruct ln; [reflexivity|apply op_base]. Qed.
Lemma scan_base s ln : scan_line e1 s ln = scan_line e2 s ln.
Proof.
  unfold scan_line. destruct (ends_with _ _); [reflexivity|]. destruct ln as [|c ln]; [reflexivity|].
  rewrite (inst_base s (c :: ln)). reflexivity.
Qed.
Lemma step_base s raw : step_line e1 s raw = step_line e2 s raw.
Proof. unfold step_line. rewrite scan_base. reflexivity. Qed.
Lemma lines_base l s : scan_lines e1 s l = scan_lines e2 s l.
Proof. revert s. induction l as [|x l IH]; intros s; [reflexivity|]. cbn [scan_lines]. rewrite step_base. destruct (step_line e2 s x); cbn [obind]; [apply IH|reflexivity|reflexivity]. Qed.

(** What resolution makes of an instruction at the two bases. *)
Definition moved (s : pstate) (x y : inst) : Prop :=
  x = y \/ exists p n k a1 a2, assoc n (p_labels s) = Some k /\ x = IJump p (TAddress a1) [] /\ y = IJump p (TAddress a2) []
    /\ a1 mod 2 ^ 32 = (b1 + 4 * Z.of_nat k) mod 2 ^ 32 /\ a2 mod 2 ^ 32 = (b2 + 4 * Z.of_nat k) mod 2 ^ 32.
Definition elsewhere (p : perror) : bool := negb (bounds_error p).

Lemma ck_mod {E} o v w : @ck32 E o v = Ok w -> w mod 2 ^ 32 = v mod 2 ^ 32.
Proof.
  unfold ck32. destruct (_ && _)%bool; [intros H; injection H as <-; reflexivity|]. destruct o; [discriminate|]. intros H. injection H as <-.
  unfold wrap. now rewrite Z.mod_mod.
Qed.
Lemma address_mod {E} o b k m a : @ck32 E o (wrap 32 (Z.of_nat k) * 4) = Ok m -> @ck32 E o (b + m) = Ok a -> a mod 2 ^ 32 = (b + 4 * Z.of_nat k) mod 2 ^ 32.
Proof.
  intros H1 H2. apply ck_mod in H1. apply ck_mod in H2. rewrite H2. rewrite <- Z.add_mod_idemp_r, H1, Z.add_mod_idemp_r by lia.
  unfold wrap. rewrite Z.mul_comm. rewrite <- Z.add_mod_idemp_r, Z.mul_mod_idemp_r, Z.add_mod_idemp_r by lia. reflexivity.
Qed.

Lemma adjust_one_base s i n ins x es y es' : adjust_one e1 s i n ins = Ok (x, es) -> adjust_one e2 s i n ins = Ok (y, es') ->
  moved s x y /\ filter elsewhere es = filter elsewhere es'.
Proof.
  intros H1 H2. unfold adjust_one in H1, H2. change (get_line e2) with (get_line e1) in H2.
  destruct ins as [op rs rt im b|op t b|op rs rt rd sa b|w].
  - destruct im as [v|v|v|l|l].
    + rewrite H1 in H2. injection H2 as <- <-. split; [now left|reflexivity].
    + destruct (negb (is_b_op op)); [rewrite H1 in H2; injection H2 as <- <-; split; [now left|reflexivity]|]. cbv zeta in H1, H2.
      apply obind_ok in H1 as (d1 & _ & H1). apply obind_ok in H2 as (d2 & _ & H2). apply obind_ok in H1 as (er & E1 & H1). apply obind_ok in H2 as (er' & E2 & H2).
      assert (X : forall (a c : inst * list perror), @Ok perror _ a = Ok c -> a = c) by (intros a c E; congruence).
      apply X in H1. apply X in H2. apply pair_equal_spec in H1 as [<- <-]. apply pair_equal_spec in H2 as [<- <-]. split; [now left|].
      transitivity (@nil perror).
      * destruct d1; [|injection E1 as <-; reflexivity]. apply obind_ok in E1 as (? & _ & E1). apply obind_ok in E1 as (? & _ & E1). apply obind_ok in E1 as (? & _ & E1). injection E1 as <-. reflexivity.
      * destruct d2; [|injection E2 as <-; reflexivity]. apply obind_ok in E2 as (? & _ & E2). apply obind_ok in E2 as (? & _ & E2). apply obind_ok in E2 as (? & _ & E2). injection E2 as <-. reflexivity.
    + rewrite H1 in H2. injection H2 as <- <-. split; [now left|reflexivity].
    + rewrite H1 in H2. assert (X : forall (a c : inst * list perror), @Ok perror _ a = Ok c -> a = c) by (intros a c E; congruence). apply X in H2. apply pair_equal_spec in H2 as [<- <-]. split; [now left|reflexivity].
    + rewrite H1 in H2. assert (X : forall (a c : inst * list perror), @Ok perror _ a = Ok c -> a = c) by (intros a c E; congruence). apply X in H2. apply pair_equal_spec in H2 as [<- <-]. split; [now left|reflexivity].
  - destruct t as [l|a]; [|rewrite H1 in H2; injection H2 as <- <-; split; [now left|reflexivity]].
    destruct (assoc l (p_labels s)) as [k|] eqn:A.
    + apply obind_ok in H1 as (m1 & M1 & H1). apply obind_ok in H1 as (a1 & A1 & H1). injection H1 as <- <-.
      apply obind_ok in H2 as (m2 & M2 & H2). apply obind_ok in H2 as (a2 & A2 & H2). injection H2 as <- <-. split; [|reflexivity].
      right. exists op, l, k, a1, a2. split; [exact A|]. split; [reflexivity|]. split; [reflexivity|].
      split; [eapply address_mod; [exact M1|exact A1]|eapply address_mod; [exact M2|exact A2]].
    + rewrite H1 in H2. injection H2 as <- <-. split; [now left|reflexivity].
  - rewrite H1 in H2. injection H2 as <- <-. split; [now left|reflexivity].
  - rewrite H1 in H2. injection H2 as <- <-. split; [now left|reflexivity].
Qed.
Lemma adjust_base s l : forall i q q', adjust_from e1 s i l = Ok q -> adjust_from e2 s i l = Ok q' ->
  Forall2 (moved s) (fst q) (fst q') /\ filter elsewhere (snd q) = filter elsewhere (snd q').
Proof.
  induction l as [|[n x] l IH]; intros i q q' H1 H2; cbn [adjust_from] in H1, H2.
  - injection H1 as <-. injection H2 as <-. split; [constructor|reflexivity].
  - apply obind_ok in H1 as ([y es] & A1 & H1). apply obind_ok in H1 as (r & R1 & H1). apply obind_ok in H2 as ([y' es'] & A2 & H2). apply obind_ok in H2 as (r' & R2 & H2).
    injection H1 as <-. injection H2 as <-. cbn [fst snd]. destruct (adjust_one_base _ _ _ _ _ _ _ _ A1 A2) as [M F]. destruct (IH _ _ _ R1 R2) as [M' F'].
    split; [now constructor|]. rewrite !filter_app. congruence.
Qed.

End Reloc.

(** And the code made of it. *)
Definition jump_to (p : jop) (a : Z) : Z := (match p with J_J => 2 | J_Jal => 3 end) * 2 ^ 26 + a mod 2 ^ 26 / 4.
Lemma jump_enc {E} p a : @enc_j E p (TAddress a) = Ok [jump_to p a].
Proof.
  assert (Q : 0 <= a mod 2 ^ 26 / 4 < 2 ^ 24).
  { assert (X := Z.mod_pos_bound a (2 ^ 26) ltac:(lia)). split; [apply Z.div_pos; lia|apply Z.div_lt_upper_bound; lia]. }
  assert (S : shr (Z.land a 67108863) 2 = a mod 2 ^ 26 / 4).
  { unfold shr. rewrite Z.shiftr_div_pow2 by lia. change 67108863 with (Z.ones 26). rewrite Z.land_ones by lia. reflexivity. }
  unfold jump_to. destruct p; cbn [enc_j target_as_u32 obind]; rewrite S; revert Q; generalize (a mod 2 ^ 26 / 4); intros q Q;
    apply (f_equal (fun z => Ok [z])); lor_sum; lia.
Qed.
Lemma mod26 a b : a mod 2 ^ 32 = b mod 2 ^ 32 -> a mod 2 ^ 26 = b mod 2 ^ 26.
Proof.
  intros H. rewrite (Z.div_mod a (2 ^ 32)), (Z.div_mod b (2 ^ 32)), H by lia. rewrite <- (Z.add_mod_idemp_l (2 ^ 32 * (a / 2 ^ 32))), <- (Z.add_mod_idemp_l (2 ^ 32 * (b / 2 ^ 32))) by lia.
  change (2 ^ 32) with (2 ^ 26 * 2 ^ 6). rewrite <- !Z.mul_assoc, !(Z.mul_comm (2 ^ 26)), !Z.mod_mul by lia. reflexivity.
Qed.
Lemma jump_to_cong p a b : a mod 2 ^ 32 = b mod 2 ^ 32 -> jump_to p a = jump_to p b.
Proof. intros H. unfold jump_to. now rewrite (mod26 a b H). Qed.

(** A line whose words change. *)
Definition relocates (labels : list (str * nat)) (b b' : Z) (l : str) (ws ws' : list Z) : Prop :=
  ws = ws' \/ exists p n k, mnemonic l = to_lower (jop_name p) /\ In (n, k) labels
    /\ ws = [jump_to p (b + 4 * Z.of_nat k)] /\ ws' = [jump_to p (b' + 4 * Z.of_nat k)].

Lemma code_base oc b b' s ls : forall l l' out out', Forall2 (rel adjusted_from) ls l -> Forall2 (moved b b' s) l l' ->
  assemble_insts (E:=perror) oc l = Ok out -> assemble_insts (E:=perror) oc l' = Ok out' ->
  Forall2 (fun l p => relocates (p_labels s) b b' l (inst_bytes (fst p)) (inst_bytes (snd p))) ls (combine out out').
Proof.
  induction ls as [|r ls IH]; intros l l' out out' F M H H'; inversion F as [|? x ? l0 F1 F2]; subst; inversion M as [|? y ? l1 M1 M2]; subst; cbn [assemble_insts] in H, H'.
  - injection H as <-. constructor.
  - apply obind_ok in H as (x' & Hx & H). apply obind_ok in H as (xs & Hxs & H). injection H as <-.
    apply obind_ok in H' as (y' & Hy & H'). apply obind_ok in H' as (ys & Hys & H'). injection H' as <-. cbn [combine]. constructor; [|eapply IH; eauto]. cbn [fst snd].
    destruct M1 as [<-|(p & n & k & a1 & a2 & A & -> & -> & E1 & E2)].
    + left. rewrite Hx in Hy. injection Hy as <-. reflexivity.
    + right. exists p, n, k. destruct F1 as (op & [F1 _] & Mn). cbn in F1. split; [rewrite Mn, F1; destruct p; reflexivity|]. split; [now apply assoc_in|].
      cbn [assemble_inst] in Hx, Hy. rewrite jump_enc in Hx, Hy. cbn [obind push_bytes] in Hx, Hy. injection Hx as <-. injection Hy as <-. cbn [inst_bytes app].
      rewrite (jump_to_cong p _ _ E1), (jump_to_cong p _ _ E2). split; reflexivity.
Qed.
Lemma code_base_ok oc b b' s : forall l l' out, Forall2 (moved b b' s) l l' -> assemble_insts (E:=perror) oc l = Ok out ->
  exists out', assemble_insts (E:=perror) oc l' = Ok out'.
Proof.
  induction l as [|x l IH]; intros l' out M H; inversion M as [|? y ? l1 M1 M2]; subst; cbn [assemble_insts] in *; [eexists; reflexivity|].
  apply obind_ok in H as (x' & Hx & H). apply obind_ok in H as (xs & Hxs & H). destruct (IH _ _ M2 Hxs) as [ys ->].
  destruct M1 as [<-|(p & n & k & a1 & a2 & A & -> & -> & E1 & E2)].
  - rewrite Hx. eexists; reflexivity.
  - cbn [assemble_inst]. rewrite jump_enc. eexists; reflexivity.
Qed.

(** ** Programs *)

Section Program.
Variables (rt : runtime) (m : mipsasm) (b : Z) (input : str).
Let e1 := mk_parser rt m input.
Let e2 := mk_parser rt (set_base b m) input.
Lemma scan_moved s : scan_lines e1 s (lines input) = scan_lines e2 s (lines input).
Proof. apply lines_base. Qed.
Lemma final_moved s : final e1 s = final e2 s.
Proof. reflexivity. Qed.

Lemma relocated out out' : assemble rt m input = Ok out -> assemble rt (set_base b m) input = Ok out' ->
  Forall2 (fun l p => relocates (label_table 0 (lines input)) (m_base m) b l (inst_bytes (fst p)) (inst_bytes (snd p))) (filter is_instruction (lines input)) (combine out out')
  /\ List.length out = List.length out'.
Proof.
  intros A A'. split; [|now rewrite (length_assembled _ _ _ _ A), (length_assembled _ _ _ _ A')].
  apply assemble_ok in A as (s & is1 & As). assert (N := nl_of_lines input). destruct (assembled_labels _ _ _ _ _ N As) as (Lb & _). destruct As as [Sc Er Ad Co].
  apply assemble_ok in A' as (s' & is2 & [Sc' Er' Ad' Co']). fold e1 in Sc, Ad, Co, Lb. fold e2 in Sc', Ad', Co'. rewrite scan_moved in Sc. rewrite Sc in Sc'. injection Sc' as <-.
  rewrite <- Lb. rewrite <- scan_moved in Sc. destruct (scan_from _ _ N _ _ Sc Er) as (new & I & F). cbn [init_state p_insts app] in I.
  assert (D := adjust_from_from e1 (final e1 s) (filter is_instruction (lines input)) (p_insts s) 0 (is1, [])). rewrite I in D. specialize (D F). rewrite <- I in D. specialize (D Ad eq_refl). cbn [fst] in D.
  rewrite <- final_moved in Ad'. destruct (adjust_base _ (m_base m) b _ _ _ (final e1 s) _ 0 _ _ Ad Ad') as [Mv _]. cbn [fst] in Mv.
  eapply code_base; eauto.
Qed.

Lemma warned_alike ws ws' : assemble_warnings rt m input = Some ws -> assemble_warnings rt (set_base b m) input = Some ws' -> ws = ws'.
Proof.
  unfold assemble_warnings, parse. fold e1 e2. change (e_input e1) with (lines input). change (e_input e2) with (lines input). rewrite scan_moved.
  destruct (scan_lines e2 init_state (lines input)) as [s|p|p]; cbn [obind]; try discriminate. fold (final e1 s). fold (final e2 s).
  destruct (adjust_from e1 _ _ _); cbn [obind]; try discriminate. destruct (adjust_from e2 _ _ _); cbn [obind]; try discriminate. intros H H'. injection H as <-. injection H' as <-. reflexivity.
Qed.

Lemma no_elsewhere es : filter elsewhere es = [] -> forallb bounds_error es = true.
Proof. induction es as [|p es IH]; [reflexivity|]. cbn [filter forallb]. unfold elsewhere at 1. destruct (bounds_error p); cbn [negb andb]; [exact IH|discriminate]. Qed.

Lemma moved_ok out : orders rt -> (rt_oc rt = true -> 0 <= b /\ b + 4 * Z.of_nat (instruction_count (lines input)) < 2 ^ 32) ->
  assemble rt m input = Ok out ->
  (exists out', assemble rt (set_base b m) input = Ok out') \/ (exists es, assemble rt (set_base b m) input = Err es /\ es <> [] /\ forallb bounds_error es = true).
Proof.
  intros Or Fi A. apply assemble_ok in A as (s & is1 & [Sc Er Ad Co]). fold e1 in Sc, Ad, Co. assert (Sc' := Sc). rewrite scan_moved in Sc'.
  destruct (resolution_total rt (set_base b m) input s Or Fi Sc') as [[is2 es] Ad']. fold e2 in Ad'.
  assert (Ad2 := Ad'). rewrite <- final_moved in Ad2. destruct (adjust_base _ (m_base m) b _ _ _ (final e1 s) _ 0 _ _ Ad Ad2) as [Mv Fl]. cbn [fst snd] in Mv, Fl.
  destruct (code_base_ok _ _ _ _ _ _ _ Mv Co) as [out' Co'].
  unfold assemble, parse. fold e2. change (e_input e2) with (lines input). rewrite Sc'. cbn [obind]. fold (final e2 s).
  destruct (final_same e2 s) as (F1 & F2 & F3 & F4 & F5). rewrite F1, F3, Er, Ad'. cbn [obind fst snd app]. destruct es as [|p es].
  - left. change (e_oc e1) with (rt_oc rt) in Co'. rewrite Co'. eexists; reflexivity.
  - right. exists (p :: es). split; [reflexivity|]. split; [discriminate|]. now apply no_elsewhere.
Qed.
Lemma moved_err es : orders rt -> (rt_oc rt = true -> 0 <= b /\ b + 4 * Z.of_nat (instruction_count (lines input)) < 2 ^ 32) ->
  assemble rt m input = Err es -> forallb bounds_error es = false ->
  exists es', assemble rt (set_base b m) input = Err es' /\ filter elsewhere es = filter elsewhere es'.
Proof.
  intros Or Fi. unfold assemble, parse. fold e1 e2. change (e_input e1) with (lines input). change (e_input e2) with (lines input). rewrite scan_moved.
  destruct (scan_lines e2 init_state (lines input)) as [s|p|p] eqn:Sc'; cbn [obind]; try discriminate. fold (final e1 s). fold (final e2 s).
  destruct (resolution_total rt (set_base b m) input s Or Fi Sc') as [[is2 es2] Ad']. fold e2 in Ad'.
  destruct (final_same e2 s) as (F1 & F2 & F3 & F4 & F5). rewrite final_moved, F1, F3, Ad'.
  destruct (adjust_from e1 (final e2 s) 0 (p_insts s)) as [[is1 es1]|p|p] eqn:Ad; cbn [obind fst snd]; try discriminate.
  destruct (adjust_base _ (m_base m) b _ _ _ (final e2 s) _ 0 _ _ Ad Ad') as [_ Fl]. cbn [snd] in Fl.
  destruct (p_errors s ++ es1) as [|p r] eqn:Er; [destruct (assemble_insts _ _); discriminate|]. intros H Nb. injection H as <-.
  assert (G : filter elsewhere (p :: r) = filter elsewhere (p_errors s ++ es2)) by (rewrite <- Er, !filter_app; congruence).
  destruct (p_errors s ++ es2) as [|p2 r2]; [|exists (p2 :: r2); split; [reflexivity|exact G]].
  change (filter elsewhere []) with (@nil perror) in G. apply no_elsewhere in G. congruence.
Qed.
End Program.
