(** * AcceptLines: the lines of well-formed programs (proofs only). *)

From Coq Require Import Lia.
From Verif Require Import Lib SpecIsa StrLemmas NumLemmas DecodeProofs TextProofs OperandProofs NativeProofs LineProofs ScanProofs ProgProofs AsmProofs MachineProofs
  PseudoProofs BranchProofs LabelProofs CompareProofs HalfProofs SpacingProofs CongProofs ErrorProofs ImmProofs ImmLines RefProofs ScopeProofs PropsLabels PropsImm AcceptProofs InsProofs
  SpecErrors SpecText SpecProgram SpecLabels SpecScopes SpecLines SpecImm SpecAccept.

Section Lines.
Variables (rt : runtime) (m : mipsasm) (input : str).
Let e := mk_parser rt m input.
Hypothesis Sy : named_symbols (m_syms m).
Variables (before : list str) (l : str) (rest : list str).
Hypothesis Ei : lines input = before ++ l :: rest.
Hypothesis N : no_nl l.

Lemma calm_in ws : clean l <> [] -> ends_with #":" (clean l) = false ->
  (forall s, ready e s l -> named_labels s -> exists w i, parse_inst e s (clean l) = (w, Ok i) /\ calm i /\ encodes i ws) -> line_in e before l ws.
Proof.
  intros A B H. split; [exact A|]. split; [exact B|]. intros s Rd Lb Nl Nd. destruct (H s Rd Nl) as (w & i & P & C & En).
  exists w, i. split; [exact P|]. intros sf _ _ _ _. exists i. split; [now apply adjust_calm|exact En].
Qed.
Lemma ok_in ws : line_ok l ws -> line_in e before l ws.
Proof.
  intros (A & B & H). apply calm_in; auto. intros s Rd Nl. apply H. split; [exact Rd|]. split; [now apply named_labels_ok|exact Sy].
Qed.

Lemma found_before s n k : p_labels s = label_table 0 before -> NoDup (map fst (label_table 0 before)) -> In (n, k) (label_table 0 before) -> assoc n (p_labels s) = Some k.
Proof. intros -> Nd I. now apply assoc_nodup. Qed.
Lemma found_all sf n k : p_labels sf = label_table 0 (e_input e) -> NoDup (map fst (label_table 0 (e_input e))) -> In (n, k) (label_table 0 before) -> assoc n (p_labels sf) = Some k.
Proof. intros -> Nd I. apply assoc_nodup; [exact Nd|]. change (e_input e) with (lines input). rewrite Ei. now apply before_in. Qed.

Lemma branch_in f os n k : In f (isa ++ idioms) -> branch_line f os n l -> identifier n -> In (n, k) (label_table 0 before) ->
  line_in e before l [word f (os ++ [OInt (Z.of_nat k - (Z.of_nat (instruction_count before) + 1))])].
Proof.
  intros If B Id I. assert (Lc := table_global _ _ _ _ I).
  assert (V : clean l <> [] /\ ends_with #":" (clean l) = false).
  { destruct B as (ks & ts & FO & Len & Sp & L).
    assert (F : Forall operand_ok (ts ++ [n])) by (apply Forall_app; split; [now apply spellings_ok in Sp|constructor; [now apply identifier_operand|constructor]]).
    destruct (line_parse_parts e init_state (f_name f) (ts ++ [n]) l (table_name f If) F N L) as (op & arg & xs & _ & _ & Ne & Ec & _). auto. }
  split; [exact (proj1 V)|]. split; [exact (proj2 V)|]. intros s Rd Lb Nl Nd.
  destruct (branch_line_parse e s f os n l (Label n) (fun _ => []) If B (identifier_operand n Id) N Rd) as (Ne & Ec & p & rs & r2 & x & P & Bo & _ & _ & En).
  { intros x Px _. split; [|reflexivity]. unfold aimm, parse_immediate. rewrite (identifier_trim n x Id Px). fold (is_local n). now rewrite Lc, (found_before s n k Lb Nd I). }
  eexists _, _. split; [exact P|]. intros sf Lf _ _ Ndf. eexists. split; [cbn [adjust_one]; now rewrite (found_all sf n k Lf Ndf I)|].
  exact (En (Z.of_nat k - (Z.of_nat (instruction_count before) + 1))).
Qed.

Lemma compare_in name g ts tt a b n k : In (name, g) compare_expansions -> gpr_text ts a -> gpr_text tt b -> instruction_line name [ts; tt; n] l ->
  identifier n -> In (n, k) (label_table 0 before) -> Z.of_nat (instruction_count before) - Z.of_nat k < 65535 ->
  line_in e before l (g a b (Z.of_nat k - (Z.of_nat (instruction_count before) + 2))).
Proof.
  intros Ig Ga Gb L Id I D. assert (Lc := table_global _ _ _ _ I). assert (Kl := label_le _ _ _ _ I).
  destruct (compare_expansion name g Ig) as (likely & rel & p & swap & sgn & on_set & [Nm Cl Op En _] & Gw). rewrite Gw.
  assert (F : Forall operand_ok [ts; tt; n]) by (repeat constructor; try (now eapply gpr_operand; eassumption); now apply identifier_operand).
  assert (V : clean l <> [] /\ ends_with #":" (clean l) = false).
  { destruct (line_parse_parts e init_state name [ts; tt; n] l (name_okb_ok _ Nm) F N L) as (op & arg & xs & _ & _ & Ne & Ec & _). auto. }
  split; [exact (proj1 V)|]. split; [exact (proj2 V)|]. intros s Rd Lb Nl Nd.
  destruct (line_parse_parts e s name [ts; tt; n] l (name_okb_ok _ Nm) F N L) as (op & arg & xs & SL & Ar & _ & _ & P).
  destruct Ar as [[E _]|[_ Ar]]; [discriminate|]. apply three in Ar as (x & y & z & -> & [P1 _] & [P2 _] & [P3 _]).
  assert (Ai : aimm e s u32 z = lift (Ok (Label n))).
  { unfold aimm, parse_immediate. rewrite (identifier_trim n z Id P3). fold (is_local n). now rewrite Lc, (found_before s n k Lb Nd I). }
  rewrite <- (lower_trim _ _ SL) in Cl. rewrite <- (iop_of_letters _ _ SL) in Op.
  assert (Q : parse_op e s op arg [x; y; z] = (delay_warning e s l ++ [], Ok (IImm p (reg_of_num a) (reg_of_num b) (Label n) []))).
  { apply g_branch2; auto; [now apply check_delay_ok|eapply areg_ok; eauto|eapply areg_ok; eauto]. }
  rewrite Q in P. eexists _, _. split; [exact P|]. intros sf Lf _ _ Ndf. eexists. split; [cbn [adjust_one]; now rewrite (found_all sf n k Lf Ndf I)|].
  assert (Ra : 0 <= a < 32) by (now apply gpr_range in Ga). assert (Rb : 0 <= b < 32) by (now apply gpr_range in Gb).
  unfold label_offset, wrap. change (2 ^ 16) with 65536.
  set (c := instruction_count before) in *.
  assert (M1 : (Z.of_nat k - (Z.of_nat c + 1)) mod 65536 = Z.of_nat k - (Z.of_nat c + 1) + 65536).
  { symmetry. apply Z.mod_unique with (q := -1); lia. }
  assert (M2 : (Z.of_nat k - (Z.of_nat c + 2)) mod 65536 = (Z.of_nat k - (Z.of_nat c + 1)) mod 65536 - 1).
  { rewrite M1. symmetry. apply Z.mod_unique with (q := -1); lia. }
  rewrite M2. apply encodes_i. intros oc. apply En; auto. rewrite M1. lia.
Qed.

Lemma number_in f os t a : In f (isa ++ idioms) -> branch_line f os t l -> numeral t a -> a < 2 ^ 32 ->
  0 <= m_base m <= a -> a <= m_base m + 4 * Z.of_nat (instruction_count (lines input)) -> m_base m + 4 * Z.of_nat (instruction_count (lines input)) < 2 ^ 32 ->
  line_in e before l [word f (os ++ [OInt (Z.quot (a - (Z.of_nat (instruction_count before) + 1)) 4)])].
Proof.
  intros If B Nu Ra Lo Hi Ov. assert (Ra0 : 0 <= a) by (now apply (numeral_nonneg t)).
  assert (Ot : operand_ok t) by (apply numeral_shape in Nu as (radix & ds & Sh & _); now apply (number_operand_ok _ _ _ _ Sh)).
  assert (V : clean l <> [] /\ ends_with #":" (clean l) = false).
  { destruct B as (ks & ts & FO & Len & Sp & L).
    assert (F : Forall operand_ok (ts ++ [t])) by (apply Forall_app; split; [now apply spellings_ok in Sp|constructor; [exact Ot|constructor]]).
    destruct (line_parse_parts e init_state (f_name f) (ts ++ [t]) l (table_name f If) F N L) as (op & arg & xs & _ & _ & Ne & Ec & _). auto. }
  split; [exact (proj1 V)|]. split; [exact (proj2 V)|]. intros s Rd Lb Nl Nd.
  assert (As : assoc t (p_labels s) = None).
  { destruct (assoc t (p_labels s)) as [k|] eqn:E; [|reflexivity]. apply assoc_in, Nl, identifier_start in E.
    destruct (numeral_head t a Nu) as (c & r & -> & D). cbn in E. destruct E as [E _]. congruence. }
  destruct (branch_line_parse e s f os t l (Int a)
              (fun x => if negb (a mod 4 =? 0) then [WUnalignedBranch (mk_line (p_line s) l) x] else []) If B Ot N Rd) as (_ & _ & p & rs & r2 & x & P & Bo & _ & _ & En).
  { intros x Px Pr. split.
    - unfold aimm. rewrite (parse_immediate_unsigned e s u32 x t a Px Nu As); [|change (it_min u32) with 0; change (it_max u32) with (2 ^ 32 - 1); lia].
      unfold imm_new. change (it_bits u32 =? 16) with false. change (it_bits u32 =? 32) with true. cbn iota. unfold wrap. rewrite Z.mod_small by lia. reflexivity.
    - unfold check_branch. cbn [imm_is_label imm_as_u32]. rewrite mbind_ok. destruct (negb (a mod 4 =? 0)); [|reflexivity].
      rewrite (get_line_ready e _ l Rd). cbn [obind warn show_warning].
      destruct (fmt_line_ok (p_line s) l (margin_of (p_line s)) true #"offset is not divisible by 4" false x (part_find x l Pr)) as [tx Ex].
      rewrite Ex. reflexivity. }
  eexists _, _. split; [exact P|]. intros sf Lf Cf _ Ndf. eexists. split.
  - cbn [adjust_one]. rewrite Bo, Cf. cbn [negb]. change (e_input e) with (lines input). change (e_base e) with (m_base m). set (c := instruction_count (lines input)) in *.
    unfold wrap at 1. change (2 ^ 32) with 4294967296 in *. rewrite (Z.mod_small (Z.of_nat c)) by lia. unfold ck32. change (2 ^ 32) with 4294967296.
    replace ((0 <=? Z.of_nat c * 4) && (Z.of_nat c * 4 <? 4294967296))%bool with true by lia. cbn [obind].
    replace ((0 <=? m_base m + Z.of_nat c * 4) && (m_base m + Z.of_nat c * 4 <? 4294967296))%bool with true by lia. cbn [obind].
    replace (a <? m_base m) with false by lia. replace (a >? m_base m + Z.of_nat c * 4) with false by lia. cbn [obind]. reflexivity.
  - exact (En (Z.quot (a - (Z.of_nat (instruction_count before) + 1)) 4)).
Qed.

Lemma local_adjusts n d1 p rs r2 sf : orders rt -> is_local n = true -> role_of l = Instruction -> local_target (lines input) before l n d1 -> local_resolved (lines input) before n ->
  p_labels sf = label_table 0 (e_input e) -> List.length (p_insts sf) = instruction_count (e_input e) -> at_end e sf -> NoDup (map fst (label_table 0 (e_input e))) ->
  adjust_one e sf (instruction_count before) (S (List.length before)) (IImm p rs r2 (LocalLabel n) [])
  = Ok (IImm p rs r2 (Short (label_offset (instruction_count d1) (instruction_count before))) [], []).
Proof.
  intros Or Ln Rr (after & d & d2 & Ea & Ed & Rdl & Sc & Un) ((da & dl & dg & db & dk & Dl & Rk & Lk & Ig & Gg) & Fst & Gu).
  assert (after = rest) as -> by (rewrite Ei in Ea; apply app_inv_head in Ea; now injection Ea).
  intros Lf Cf (s0 & -> & Sc0 & Es) Ndf. assert (Nn := nl_of_lines input). change (e_input e) with (lines input) in *.
  assert (Gd : forall k v, In (k, v) (label_table 0 (lines input)) -> good_label k).
  { destruct (scan_labels e (lines input) Nn _ _ Sc0 init_good (NoDup_nil _)) as [G _]. destruct (final_same e s0) as (_ & F2 & _). rewrite <- Lf, F2. exact G. }
  assert (Hd : held n s0 (lines input)) by (apply (held_scan e Or n Ln (lines input) Nn init_state [] s0 (held_init n) Sc0 Es)).
  assert (Hk : held dk s0 (lines input)) by (apply (held_scan e Or dk Lk (lines input) Nn init_state [] s0 (held_init dk) Sc0 Es)).
  assert (Dn : p_dropped s0 <> []).
  { destruct (hd_old _ _ _ Hk da dl db Dl Rk) as [a Ha]; [intros X; specialize (X dg Ig); congruence|]. intros Z. rewrite Z in Ha. destruct Ha. }
  destruct (held_found e Or n s0 (lines input) d1 d d2 Hd Dn Ed Rdl) as [a Ha].
  assert (Rng : forall p1 p2 q, lines input = p1 ++ q :: p2 -> exists lo hi, get_label_scope (final e s0) (scope_name p1) = Ok (lo, hi)).
  { intros p1 p2 q Eq. assert (Lf' := Lf). assert (Nd' := Ndf). assert (G' := Gd). assert (Cf' := Cf). rewrite Eq in Lf', Nd', G', Cf'.
    destruct (scope_range (final e s0) p1 (q :: p2) Lf' Nd' G' Cf') as (lo & hi & Gs & _). eauto. }
  destruct (Rng d1 d2 d Ed) as (lo & hi & Gs).
  assert (R := seen_in_scope (lines input) before l rest d1 d d2 n (final e s0) lo hi Ei Rr Ed Rdl Ln Lf Ndf Gd Cf Sc Gs).
  cbn [adjust_one]. destruct (assoc n (p_dropped (final e s0))) as [defs|] eqn:Ed0; [|destruct Ha]. cbn [listed] in Ha.
  assert (Fin : forall x, In x defs -> entry n (lines input) x).
  { intros x Ix. apply (held_final e Or n s0 (lines input) x Hd). now rewrite Ed0. }
  assert (Np : exists pk, pick_local (final e s0) (instruction_count before) defs = Ok pk).
  { clear Ha Ed0. induction defs as [|[b sc] defs IH]; [exists None; reflexivity|]. cbn [pick_local].
    destruct (Fin (b, sc) (or_introl eq_refl)) as (p1 & q & p2 & Eq & _ & _ & Es'). cbn [snd] in Es'. subst sc. destruct (Rng p1 p2 q Eq) as (lo' & hi' & ->).
    cbn [obind]. destruct (_ || _)%bool; [apply IH; intros x Ix; apply Fin; now right|eauto]. }
  destruct Np as [[b|] Pk]; [|exfalso; exact (pick_some _ _ _ _ _ _ Ha Gs R Pk)].
  rewrite Pk. cbn [obind].
  destruct (pick_in _ _ _ _ Pk) as (sc & [lo' hi'] & I & Gs' & R').
  destruct (Fin (b, sc) I) as (e1 & ed & e2 & El & Rde & Eb & Es'). cbn [fst snd] in *. subst sc b.
  assert (e1 = d1) as ->.
  { apply (Un e1 ed e2 El Rde). apply (seen_from (lines input) before l rest e1 ed e2 n (final e s0) lo' hi'); auto. intros Ng. exact (Gu e1 ed e2 El Rde Ng). }
  reflexivity.
Qed.

Lemma local_in f os n d1 : orders rt -> In f (isa ++ idioms) -> branch_line f os n l -> identifier n -> is_local n = true ->
  local_target (lines input) before l n d1 -> local_resolved (lines input) before n ->
  line_in e before l [word f (os ++ [OInt (Z.of_nat (instruction_count d1) - (Z.of_nat (instruction_count before) + 1))])].
Proof.
  intros Or If B Id Ln T R.
  assert (V : clean l <> [] /\ ends_with #":" (clean l) = false).
  { destruct B as (ks & ts & FO & Len & Sp & L).
    assert (F : Forall operand_ok (ts ++ [n])) by (apply Forall_app; split; [now apply spellings_ok in Sp|constructor; [now apply identifier_operand|constructor]]).
    destruct (line_parse_parts e init_state (f_name f) (ts ++ [n]) l (table_name f If) F N L) as (op & arg & xs & _ & _ & Ne & Ec & _). auto. }
  split; [exact (proj1 V)|]. split; [exact (proj2 V)|]. intros s Rd Lb Nl Nd.
  destruct (local_branch_parse e s f os n l If B Id Ln N Rd) as (Ne & Ec & w & p & rs & r2 & P & En).
  assert (Rr := role_native l Ne Ec).
  eexists _, _. split; [exact P|]. intros sf Lf Cf Ae Ndf. eexists. split; [apply (local_adjusts n d1); auto|].
  exact (En (Z.of_nat (instruction_count d1) - (Z.of_nat (instruction_count before) + 1))).
Qed.

Lemma compare_local_in name g ts tt a b n d1 : orders rt -> In (name, g) compare_expansions -> gpr_text ts a -> gpr_text tt b -> instruction_line name [ts; tt; n] l ->
  identifier n -> is_local n = true -> local_target (lines input) before l n d1 -> local_resolved (lines input) before n ->
  (Z.of_nat (instruction_count d1) - (Z.of_nat (instruction_count before) + 1)) mod 2 ^ 16 <> 0 ->
  line_in e before l (g a b (Z.of_nat (instruction_count d1) - (Z.of_nat (instruction_count before) + 2))).
Proof.
  intros Or Ig Ga Gb L Id Ln T R D.
  destruct (compare_expansion name g Ig) as (likely & rel & p & swap & sgn & on_set & [Nm Cl Op En _] & Gw). rewrite Gw.
  assert (F : Forall operand_ok [ts; tt; n]) by (repeat constructor; try (now eapply gpr_operand; eassumption); now apply identifier_operand).
  assert (V : clean l <> [] /\ ends_with #":" (clean l) = false).
  { destruct (line_parse_parts e init_state name [ts; tt; n] l (name_okb_ok _ Nm) F N L) as (op & arg & xs & _ & _ & Ne & Ec & _). auto. }
  split; [exact (proj1 V)|]. split; [exact (proj2 V)|]. intros s Rd Lb Nl Nd.
  destruct (line_parse_parts e s name [ts; tt; n] l (name_okb_ok _ Nm) F N L) as (op & arg & xs & SL & Ar & _ & _ & P).
  destruct Ar as [[E _]|[_ Ar]]; [discriminate|]. apply three in Ar as (x & y & z & -> & [P1 _] & [P2 _] & [P3 _]).
  assert (Ai : aimm e s u32 z = lift (Ok (LocalLabel n))).
  { unfold aimm, parse_immediate. rewrite (identifier_trim n z Id P3). fold (is_local n). now rewrite Ln. }
  rewrite <- (lower_trim _ _ SL) in Cl. rewrite <- (iop_of_letters _ _ SL) in Op.
  assert (Q : parse_op e s op arg [x; y; z] = (delay_warning e s l ++ [], Ok (IImm p (reg_of_num a) (reg_of_num b) (LocalLabel n) []))).
  { apply g_branch2; auto; [now apply check_delay_ok|eapply areg_ok; eauto|eapply areg_ok; eauto]. }
  rewrite Q in P. eexists _, _. split; [exact P|]. intros sf Lf Cf Ae Ndf. eexists. split; [apply (local_adjusts n d1); auto; apply role_native; tauto|].
  assert (Ra : 0 <= a < 32) by (now apply gpr_range in Ga). assert (Rb : 0 <= b < 32) by (now apply gpr_range in Gb).
  unfold label_offset, wrap. change (2 ^ 16) with 65536 in *. set (v := Z.of_nat (instruction_count d1) - (Z.of_nat (instruction_count before) + 1)) in *.
  replace (Z.of_nat (instruction_count d1) - (Z.of_nat (instruction_count before) + 2)) with (v - 1) by (unfold v; lia).
  assert (Mv : 0 <= v mod 65536 < 65536) by (apply Z.mod_pos_bound; lia).
  assert (M2 : (v - 1) mod 65536 = v mod 65536 - 1) by (symmetry; apply Z.mod_unique with (q := v / 65536); [lia|]; assert (X := Z.div_mod v 65536); lia).
  rewrite M2. apply encodes_i. intros oc. apply En; auto. lia.
Qed.

Lemma jump_code_same name : jump_opcode name = if str_eqb name #"j" then 2 else 3. Proof. reflexivity. Qed.
Lemma jump_view name t : jump_line name t l -> operand_ok t -> clean l <> [] /\ ends_with #":" (clean l) = false.
Proof.
  intros [Nm L] Ot. assert (Nk : name_ok name) by (destruct Nm as [<-|[<-|[]]]; apply name_okb_ok; reflexivity).
  destruct (line_parse_parts e init_state name [t] l Nk ltac:(constructor; [exact Ot|constructor]) N L) as (op & arg & xs & SL & Ar & Ne & Ec & P). auto.
Qed.
Lemma address_in name t a : jump_line name t l -> plain_name t -> names_address (m_syms m) t a -> 0 <= a < 2 ^ 32 -> line_in e before l [jump_word name a].
Proof.
  intros J Pn Na R. assert (Ot := plain_operand_ok t Pn). destruct (jump_view name t J Ot) as [Ne Ec]. apply calm_in; auto. intros s Rd _.
  destruct (jump_checked e s l t a Rd (jump_part name t l J)) as [w2 Cj].
  destruct (jump_line_parse e s name t l (TAddress a) w2 J Ot N Rd (target_names e s t a Na R) Cj) as (_ & _ & p & P & En).
  eexists _, _. split; [exact P|]. split; [exact Logic.I|]. exact (En a R).
Qed.

Lemma ck32_ok oc v : (oc = true -> 0 <= v < 2 ^ 32) -> exists a, @ck32 perror oc v = Ok a.
Proof.
  intros H. unfold ck32. destruct ((0 <=? v) && (v <? 2 ^ 32)) eqn:R; [eauto|]. destruct oc; [|eauto]. specialize (H eq_refl).
  assert (0 <=? v = true) by lia. assert (v <? 2 ^ 32 = true) by lia. rewrite H0, H1 in R. discriminate.
Qed.
Lemma jump_in name n k : jump_line name n l -> identifier n -> (forall a, ~ In (a, n) (m_syms m)) -> In (n, k) (label_table 0 (lines input)) ->
  (rt_oc rt = true -> 0 <= m_base m /\ m_base m + 4 * Z.of_nat (instruction_count (lines input)) < 2 ^ 32) ->
  line_in e before l [jump_word name (m_base m + 4 * Z.of_nat k)].
Proof.
  intros J Id Ns I Ov. assert (Ot := identifier_operand n Id). destruct (jump_view name n J Ot) as [Ne Ec].
  assert (Kl := label_le _ _ _ _ I). cbn in Kl.
  split; [exact Ne|]. split; [exact Ec|]. intros s Rd _ _ _.
  destruct (jump_line_parse e s name n l (TLabel n) [] J Ot N Rd (parse_target_identifier e s n Id Ns) eq_refl) as (_ & _ & p & P & En).
  eexists _, _. split; [exact P|]. intros sf Lf _ _ Ndf. cbn [adjust_one].
  assert (Af : assoc n (p_labels sf) = Some k) by (rewrite Lf; now apply assoc_nodup). rewrite Af. change (e_oc e) with (rt_oc rt). change (e_base e) with (m_base m).
  assert (Wk : rt_oc rt = true -> wrap 32 (Z.of_nat k) = Z.of_nat k) by (intros H; specialize (Ov H); unfold wrap; apply Z.mod_small; lia).
  destruct (ck32_ok (rt_oc rt) (wrap 32 (Z.of_nat k) * 4)) as [q Q]; [intros H; rewrite (Wk H); specialize (Ov H); lia|].
  assert (Qv : rt_oc rt = true -> q = 4 * Z.of_nat k).
  { intros H. rewrite (Wk H) in Q. specialize (Ov H). unfold ck32 in Q. replace ((0 <=? Z.of_nat k * 4) && (Z.of_nat k * 4 <? 2 ^ 32))%bool with true in Q by lia. injection Q as <-. lia. }
  destruct (ck32_ok (rt_oc rt) (m_base m + q)) as [a A]; [intros H; rewrite (Qv H); specialize (Ov H); lia|].
  rewrite Q. cbn [obind]. rewrite A. cbn [obind]. eexists. split; [reflexivity|].
  apply ck32_mod in Q as [_ Q], A as [Ra A].
  assert (E : a mod 2 ^ 28 = (m_base m + 4 * Z.of_nat k) mod 2 ^ 28).
  { rewrite A, Zplus_mod, Q. rewrite (Zmult_mod (wrap 32 (Z.of_nat k))), wrap_mod, <- Zmult_mod, <- Zplus_mod. f_equal. lia. }
  unfold jump_word. rewrite <- (mod26_cong _ _ E). exact (En a Ra).
Qed.

Lemma half_in f os p t v : In f (isa ++ idioms) -> takes_immediate f -> In p [ #"%hi("; #"%lo(" ] -> plain_name t ->
  operand_line f os (p ++ t ++ #")") l -> 0 <= v < 65536 ->
  (forall s ty x, named_labels s -> padded (p ++ t ++ #")") x -> parse_immediate e s ty x = Ok (Short v)) ->
  line_in e before l [word f (os ++ [OInt v])].
Proof.
  intros If Ti Ip Pn L Rv H. assert (Ot := half_operand p t Ip Pn).
  destruct (imm_line_parse e init_state f os _ l If Ti L Ot N) as (Ne & Ec & _).
  apply calm_in; auto. intros s Rd Nl. destruct (imm_line_parse e s f os _ l If Ti L Ot N) as (_ & _ & op & x & _ & Pd & _ & _ & _ & B).
  rewrite (H s (read_as f op) x Nl Pd) in B. destruct B as (q & rs & rt0 & B1 & B2). specialize (B2 v ltac:(intros _; exact Rv)). rewrite Z.mod_small in B2 by exact Rv.
  eexists _, _. split; [exact B1|]. split; [exact Logic.I|exact B2].
Qed.
Lemma lo_in f os t a : In f (isa ++ idioms) -> takes_immediate f -> operand_line f os (#"%lo(" ++ t ++ #")") l -> plain_name t -> names_address (m_syms m) t a -> 0 <= a < 2 ^ 32 ->
  line_in e before l [word f (os ++ [OInt (a mod 2 ^ 16)])].
Proof.
  intros If Ti L Pn Na R. change (2 ^ 16) with 65536.
  apply (half_in f os #"%lo(" t (a mod 65536) If Ti ltac:(right; now left) Pn L); [apply Z.mod_pos_bound; lia|].
  intros s ty x Nl Pd. apply (parse_lo e s ty x t a Pd Pn); [exact Na|exact R|]. apply (half_no_label #"%lo("); [right; now left|exact Nl].
Qed.
Lemma hi_in f os t a : In f (isa ++ idioms) -> takes_immediate f -> operand_line f os (#"%hi(" ++ t ++ #")") l -> plain_name t -> names_address (m_syms m) t a ->
  0 <= a < 0xFFFF8000 -> line_in e before l [word f (os ++ [OInt ((a + 0x8000) / 2 ^ 16)])].
Proof.
  intros If Ti L Pn Na R. change (2 ^ 16) with 65536.
  assert (Rv : 0 <= (a + 0x8000) / 65536 < 65536) by (split; [apply Z.div_pos; lia|apply Z.div_lt_upper_bound; lia]).
  apply (half_in f os #"%hi(" t _ If Ti ltac:(now left) Pn L Rv).
  intros s ty x Nl Pd. rewrite (parse_hi e s ty x t a Pd Pn); [|exact Na|lia|apply (half_no_label #"%hi("); [now left|exact Nl]].
  now rewrite hi_small by lia.
Qed.
Lemma lo_memory_in f os t b n a : In f (isa ++ idioms) -> takes_memory f -> ~ float_memory f -> operand_line f os t l -> based (#"%lo(" ++ n ++ #")") b t ->
  plain_name n -> names_address (m_syms m) n a -> 0 <= a < 2 ^ 32 -> line_in e before l [word f (os ++ [OMem (signed16 (a mod 2 ^ 16)) b])].
Proof.
  intros If Ti Nf L Bd Pn Na R. change (2 ^ 16) with 65536. assert (Oo := half_operand #"%lo(" n (or_intror (or_introl eq_refl)) Pn). assert (Ot := operand_ok_based _ b t Bd Oo).
  assert (Rb : 0 <= b < 32) by (destruct Bd as (w & r & r' & _ & G & _); now apply gpr_range in G).
  destruct (mem_line_parse e init_state f os t l If Ti L Ot N) as (Ne & Ec & _); [intros n0 k0 A; discriminate A|].
  apply calm_in; auto. intros s Rd Nl. assert (Lb := named_labels_ok s Nl).
  destruct (mem_line_parse e s f os t l If Ti L Ot N Lb) as (_ & _ & x & float & Pd & Nx & Fl & _ & B).
  assert (float = false) as -> by (destruct float; [exfalso; now apply Nf, Fl|reflexivity]).
  destruct (based_base _ b t x Bd Pd Nx) as (bt & B1 & B2); [right; exists n; auto|]. specialize (B bt b B1 B2 Rb).
  rewrite (parse_lo e s i16 _ n a) in B; [|apply (based_part false _ b t x Bd Pd Nx); [discriminate|discriminate]|exact Pn|exact Na|exact R|apply (half_no_label #"%lo("); [right; now left|exact Nl]].
  destruct B as (p & rs & rt0 & B3 & B4). specialize (B4 (signed16 (a mod 65536)) Logic.I).
  assert (Es16 : signed16 (a mod 65536) mod 65536 = a mod 65536).
  { unfold signed16. destruct (a mod 65536 <? 32768); [apply Z.mod_mod; lia|]. replace (a mod 65536 - 65536) with (a mod 65536 + (-1) * 65536) by lia. rewrite Z.mod_add by lia. apply Z.mod_mod. lia. }
  rewrite Es16 in B4. eexists _, _. split; [exact B3|]. split; [exact Logic.I|exact B4].
Qed.

Lemma program_line_in ws : orders rt -> (rt_oc rt = true -> 0 <= m_base m /\ m_base m + 4 * Z.of_nat (instruction_count (lines input)) < 2 ^ 32) ->
  program_line (m_base m) (m_syms m) (lines input) before l ws -> item e before l ws.
Proof.
  intros Or Ov P. inversion P; subst.
  - now apply it_blank.
  - eapply it_label; eauto.
  - apply it_code, ok_in. now apply native_line_ok.
  - apply it_code, ok_in. now apply expansion_ok.
  - apply it_code. eapply branch_in; eauto.
  - apply it_code. eapply compare_in; eauto.
  - apply it_code. eapply local_in; eauto.
  - apply it_code. eapply compare_local_in; eauto.
  - apply it_code. eapply number_in; eauto.
  - apply it_code. eapply jump_in; eauto.
  - apply it_code. eapply address_in; eauto.
  - apply it_code. eapply hi_in; eauto.
  - apply it_code. eapply lo_in; eauto.
  - apply it_code. eapply lo_memory_in; eauto.
Qed.
End Lines.

Lemma program_items rt m input before ls wss : named_symbols (m_syms m) -> orders rt ->
  (rt_oc rt = true -> 0 <= m_base m /\ m_base m + 4 * Z.of_nat (instruction_count (lines input)) < 2 ^ 32) ->
  lines input = before ++ ls -> program (m_base m) (m_syms m) (lines input) before ls wss -> items (mk_parser rt m input) before ls wss.
Proof.
  intros Sy Or Ov E P. induction P as [before|before l ws ls wss H P IH]; [constructor|].
  assert (N : no_nl l) by (apply (lines_no_nl input); rewrite E; apply in_or_app; right; now left).
  constructor; [exact (program_line_in rt m input Sy before l ls E N ws Or Ov H)|]. apply IH. rewrite <- app_assoc. exact E.
Qed.
Theorem program_accepted rt m input wss : named_symbols (m_syms m) -> orders rt ->
  (rt_oc rt = true -> 0 <= m_base m /\ m_base m + 4 * Z.of_nat (instruction_count (lines input)) < 2 ^ 32) ->
  distinct_labels (lines input) -> program (m_base m) (m_syms m) (lines input) [] (lines input) wss ->
  exists out, assemble rt m input = Ok out /\ words_of out = code_words (lines input) wss /\ get_bytes out = List.concat wss.
Proof. intros Sy Or Ov D P. apply items_accepted; [|exact D]. now apply program_items. Qed.
