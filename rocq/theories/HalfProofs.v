(** * HalfProofs: %hi, %lo and memory operands (proofs only). *)

From Coq Require Import Lia.
From Verif Require Import Lib SpecIsa StrLemmas NumLemmas DecodeProofs TextProofs OperandProofs NativeProofs LineProofs ScanProofs ProgProofs AsmProofs MachineProofs
  PseudoProofs BranchProofs LabelProofs SpecErrors SpecText SpecProgram SpecLabels SpecLines.

(** ** One line, in a program or alone *)

Lemma placed rt m input out l1 raw l2 ws : assemble rt m input = Ok out -> lines input = l1 ++ raw :: l2 ->
  clean raw <> [] -> ends_with #":" (clean raw) = false ->
  (forall s, p_labels s = label_table 0 l1 -> ready (mk_parser rt m input) s raw ->
     exists w i, parse_inst (mk_parser rt m input) s (clean raw) = (w, Ok i) /\ calm i /\ encodes i ws) ->
  exists i, nth_error out (instruction_count l1) = Some i /\ inst_bytes i = ws.
Proof.
  intros A Ei Ne Ec H. destruct (at_line_intro _ _ _ _ _ _ _ A Ei) as (s1 & sf & [Rd Lb Lf Nd Gd _ X]).
  destruct (H (bump s1) Lb Rd) as (w & i & P & C & En). destruct (X Ne Ec _ _ P) as (i1 & i' & Ad & Ai & Ni).
  rewrite adjust_calm in Ad by exact C. injection Ad as <-. destruct (En (rt_oc rt)) as (i2 & Ai2 & Bi). rewrite Ai in Ai2. injection Ai2 as <-. eauto.
Qed.

Lemma alone rt m l ws : no_nl l -> clean l <> [] -> ends_with #":" (clean l) = false ->
  (forall s, p_labels s = [] -> ready (mk_parser rt m l) s l ->
     exists w i, parse_inst (mk_parser rt m l) s (clean l) = (w, Ok i) /\ calm i /\ encodes i ws) ->
  exists out, assemble rt m l = Ok out /\ get_bytes out = ws.
Proof.
  intros N Ne Ec H. assert (E : lines l = [l]).
  { apply lines_single; [exact N|]. intros ->. now apply Ne. }
  set (e := mk_parser rt m l) in *.
  destruct (H (bump init_state) eq_refl) as (w & i & P & C & En).
  { apply (after_ready e [] l []); [exact E|]. split; cbn; lia. }
  assert (R := role_native l Ne Ec).
  assert (St := step_of_view e init_state l _ N (st_inst e init_state l w i R P)).
  destruct (En (rt_oc rt)) as (i' & Ai & Bi).
  exists [i']. split; [|cbn; rewrite Bi; apply app_nil_r].
  apply assemble_ok. eexists. exists [i]. fold e. rewrite E. constructor.
  - cbn [scan_lines]. rewrite St. reflexivity.
  - reflexivity.
  - cbn [p_insts add_inst add_warnings bump init_state app]. cbn [adjust_from]. rewrite adjust_calm by exact C. reflexivity.
  - cbn [assemble_insts]. change (e_oc e) with (rt_oc rt). rewrite Ai. reflexivity.
Qed.

(** ** Texts in parentheses *)

Lemma paren_first t : no_nl t -> exists l, prefix_matches IMM_RE ("("%char :: t ++ #")") = S (S (List.length t)) :: l.
Proof.
  intros N. unfold IMM_RE. cbn [prefix_matches]. change (cls "(" "("%char) with true. cbn [flat_map skipn]. rewrite app_nil_r.
  assert (RL : run_len any_char (t ++ #")") = List.length (t ++ #")")).
  { apply run_len_any. intros I. apply in_app_or in I as [I|[I|[]]]; [now apply N|discriminate I]. }
  rewrite RL, app_length. cbn [List.length lit]. rewrite Nat.add_1_r.
  rewrite !seq_S, !rev_app_distr. cbn [rev app Nat.add flat_map].
  rewrite skipn_all2 by (rewrite app_length; cbn; lia). cbn [map app].
  rewrite skipn_app, skipn_all, Nat.sub_diag. change (skipn 0 #")") with [")"%char]. cbn [app]. change (#")") with [")"%char]. change (cls ")" ")"%char) with true. cbn [map app]. eexists. apply f_equal2; [lia|reflexivity].
Qed.
Lemma imm_find p t : no_open p -> no_nl t -> re_find_str IMM_RE (p ++ #"(" ++ t ++ #")") = Some (#"(" ++ t ++ #")").
Proof.
  intros O N. unfold re_find_str.
  assert (F : re_find IMM_RE (p ++ #"(" ++ t ++ #")") = Some (List.length p, S (S (List.length t)))).
  { induction p as [|c p IH].
    - destruct (paren_first t N) as [l P]. cbn [app]. change (#"(" ++ t ++ #")") with ("("%char :: (t ++ #")")). unfold re_find. fold re_find. rewrite P. reflexivity.
    - cbn [app re_find]. unfold IMM_RE at 1. rewrite open_prefix by (intros ->; apply O; now left).
      rewrite IH by (intros I; apply O; now right). reflexivity. }
  rewrite F. rewrite skipn_app, skipn_all, Nat.sub_diag. cbn [skipn app].
  apply (f_equal (@Some str)). replace (S (S (List.length t))) with (List.length (#"(" ++ t ++ #")")) by (cbn; rewrite app_length; cbn; lia).
  apply firstn_all.
Qed.
Lemma strip_parens_around t : no_open t -> no_close t -> strip_parens (#"(" ++ t ++ #")") = t.
Proof.
  intros O C. unfold strip_parens. rewrite !filter_app. change (filter _ #"(") with (@nil ascii). change (filter _ #")") with (@nil ascii).
  cbn [app]. rewrite app_nil_r. now apply strip_parens_none.
Qed.

Lemma plain_name_in t c : plain_name t -> In c t -> is_ws c = false /\ existsb (Ascii.eqb c) #",;:/()" = false.
Proof.
  intros [_ F] I. rewrite forallb_forall in F. apply F in I. apply andb_true_iff in I as [A B].
  apply negb_true_iff in A, B. auto.
Qed.
Lemma plain_name_no t c : plain_name t -> existsb (Ascii.eqb c) #",;:/()" = true -> ~ In c t.
Proof. intros P E I. destruct (plain_name_in t c P I) as [_ F]. congruence. Qed.
Lemma plain_name_nl t : plain_name t -> no_nl t.
Proof. intros P I. destruct (plain_name_in t nl P I) as [F _]. discriminate F. Qed.
Lemma plain_name_open t : plain_name t -> no_open t. Proof. intros P. now apply (plain_name_no t "("). Qed.
Lemma plain_name_close t : plain_name t -> no_close t. Proof. intros P. now apply (plain_name_no t ")"). Qed.

(** ** %hi and %lo *)

Definition hi_text (t : str) : str := #"%hi(" ++ t ++ #")".
Definition lo_text (t : str) : str := #"%lo(" ++ t ++ #")".

Lemma operand_in t : t <> [] -> forallb (fun c => negb (is_ws c) && negb (existsb (Ascii.eqb c) #",;:/")) t = true -> operand_ok t.
Proof.
  intros Ne F. apply operand_ok_no_ws; [exact Ne| |].
  - unfold no_ws. rewrite forallb_forall in *. intros c I. apply F in I. now apply andb_true_iff in I.
  - rewrite forallb_forall in *. intros c I. apply F in I. apply andb_true_iff in I as [_ I].
    destruct c as [[] [] [] [] [] [] [] []]; try reflexivity; discriminate I.
Qed.
Lemma half_operand p t : In p [ #"%hi("; #"%lo(" ] -> plain_name t -> operand_ok (p ++ t ++ #")").
Proof.
  intros Ip P. apply operand_in; [destruct Ip as [<-|[<-|[]]]; discriminate|]. rewrite !forallb_app. apply andb_true_iff. split.
  - destruct Ip as [<-|[<-|[]]]; reflexivity.
  - apply andb_true_iff. split; [|reflexivity]. apply forallb_forall. intros c I. destruct (plain_name_in t c P I) as [A B]. rewrite A. cbn [negb andb].
    destruct c as [[] [] [] [] [] [] [] []]; try reflexivity; discriminate B.
Qed.
Lemma target_names e s t a : names_address (e_syms e) t a -> 0 <= a < 2 ^ 32 -> parse_target e s t = Ok (TAddress a).
Proof.
  intros [I U|Nu N] R; [|now apply parse_target_number].
  unfold parse_target. assert (F : find (fun av : Z * str => str_eqb (snd av) t) (e_syms e) = Some (a, t)).
  { destruct (find _ (e_syms e)) as [[b n]|] eqn:F.
    - apply find_some in F as [F E]. cbn in E. apply str_eqb_spec in E. subst n. now rewrite (U b F).
    - apply (find_none _ _ F) in I. cbn in I. rewrite str_eqb_refl in I. discriminate. }
  now rewrite F.
Qed.

(** The value of %hi(a) in the two build profiles ([None]: the assembler panics). *)
Definition hi_value (oc : bool) (a : Z) : option Z :=
  let v := a + (if (a mod 65536 <? 32768)%Z then 0 else 65536) in
  if v <? 2 ^ 32 then Some (v / 65536) else if oc then None else Some 0.

Lemma bit15 a : 0 <= a -> Z.land a 32768 * 2 = if a mod 65536 <? 32768 then 0 else 65536.
Proof.
  intros A. assert (E : Z.land a 32768 = (a / 2 ^ 15) mod 2 * 2 ^ 15).
  { apply Z.bits_inj'. intros n Hn. rewrite Z.land_spec. change 32768 with (2 ^ 15).
    rewrite Z.pow2_bits_eqb by lia. rewrite Z.mul_pow2_bits by lia. rewrite <- Z.bit0_mod, Z.div_pow2_bits by lia.
    destruct (Z.eqb_spec 15 n) as [<-|Nq].
    - rewrite andb_true_r. change (15 - 15) with 0. change (0 + 15) with 15. rewrite Z.b2z_bit0. reflexivity.
    - rewrite andb_false_r. symmetry. destruct (Z_lt_le_dec n 15); [apply Z.testbit_neg_r; lia|].
      destruct (Z.testbit a (0 + 15)); cbn [Z.b2z]; [|apply Z.bits_0]. rewrite Z.bits_above_log2; [reflexivity|lia|cbn; lia]. }
  rewrite E. assert (M := Z.div_mod a 32768 ltac:(lia)). assert (B := Z.mod_pos_bound a 32768 ltac:(lia)).
  assert (M2 := Z.div_mod (a / 32768) 2 ltac:(lia)). assert (B2 := Z.mod_pos_bound (a / 32768) 2 ltac:(lia)).
  change (2 ^ 15) with 32768. assert (Q : a mod 65536 = (a / 32768) mod 2 * 32768 + a mod 32768).
  { change 65536 with (32768 * 2). rewrite Z.rem_mul_r by lia. lia. }
  rewrite Q. destruct (Z.ltb_spec ((a / 32768) mod 2 * 32768 + a mod 32768) 32768); lia.
Qed.

Lemma half_start p x : In p [ #"%hi("; #"%lo(" ] -> starts_with #"@@" (p ++ x) = false.
Proof. intros [<-|[<-|[]]]; reflexivity. Qed.

Lemma parse_hi e s ty x t a : padded (hi_text t) x -> plain_name t -> names_address (e_syms e) t a -> 0 <= a < 2 ^ 32 ->
  assoc (hi_text t) (p_labels s) = None ->
  parse_immediate e s ty x = match hi_value (e_oc e) a with Some v => Ok (Short v) | None => Panic "attempt to add/subtract/multiply with overflow" end.
Proof.
  intros Pd Pn Na R L. destruct (half_operand #"%hi(" t (or_introl eq_refl) Pn) as (_ & _ & T1 & T2).
  unfold parse_immediate. rewrite (padded_trim _ _ Pd T1 T2). change (starts_with #"@@" (hi_text t)) with false. rewrite L.
  assert (F : re_find_str IMM_RE (hi_text t) = Some (#"(" ++ t ++ #")")).
  { change (hi_text t) with (#"%hi" ++ #"(" ++ t ++ #")"). apply imm_find; [intros I; cbn in I; intuition discriminate|now apply plain_name_nl]. }
  rewrite F, strip_parens_around by (now apply plain_name_open || now apply plain_name_close). rewrite (target_names e s t a Na R). cbn [obind].
  assert (Ln : Nat.ltb (List.length (hi_text t)) 3 = false) by (apply Nat.ltb_ge; cbn; lia). rewrite Ln.
  change (firstn 3 (hi_text t)) with #"%hi". rewrite str_eqb_refl. cbn [target_as_u32 obind]. rewrite bit15 by lia.
  unfold hi_value, ck32. set (v := a + (if a mod 65536 <? 32768 then 0 else 65536)).
  assert (V : 0 <= v < 2 ^ 32 + 65536) by (unfold v; destruct (a mod 65536 <? 32768); lia).
  assert (H0 : (0 <=? v) = true) by (apply Z.leb_le; lia). rewrite H0. cbn [andb].
  destruct (Z.ltb_spec v (2 ^ 32)) as [Lt|Ge]; [|destruct (e_oc e)]; cbn [obind]; [|reflexivity|]; unfold imm_new; change (it_bits u16 =? 16) with true; cbn iota; f_equal; f_equal.
  - unfold wrap, shr. rewrite Z.shiftr_div_pow2 by lia. rewrite Z.mod_mod by lia. apply Z.mod_small.
    split; [apply Z.div_pos; lia|apply Z.div_lt_upper_bound; lia].
  - unfold wrap, shr. rewrite Z.shiftr_div_pow2 by lia. rewrite Z.mod_mod by lia. replace (v mod 2 ^ 32) with (v - 2 ^ 32).
    + rewrite (Z.div_small (v - 2 ^ 32)) by lia. reflexivity.
    + symmetry. rewrite <- (Z_mod_plus_full v (-1)). apply Z.mod_small. lia.
Qed.

Lemma parse_lo e s ty x t a : padded (lo_text t) x -> plain_name t -> names_address (e_syms e) t a -> 0 <= a < 2 ^ 32 ->
  assoc (lo_text t) (p_labels s) = None -> parse_immediate e s ty x = Ok (Short (a mod 65536)).
Proof.
  intros Pd Pn Na R L. destruct (half_operand #"%lo(" t (or_intror (or_introl eq_refl)) Pn) as (_ & _ & T1 & T2).
  unfold parse_immediate. rewrite (padded_trim _ _ Pd T1 T2). change (starts_with #"@@" (lo_text t)) with false. rewrite L.
  assert (F : re_find_str IMM_RE (lo_text t) = Some (#"(" ++ t ++ #")")).
  { change (lo_text t) with (#"%lo" ++ #"(" ++ t ++ #")"). apply imm_find; [intros I; cbn in I; intuition discriminate|now apply plain_name_nl]. }
  rewrite F, strip_parens_around by (now apply plain_name_open || now apply plain_name_close). rewrite (target_names e s t a Na R). cbn [obind].
  assert (Ln : Nat.ltb (List.length (lo_text t)) 3 = false) by (apply Nat.ltb_ge; cbn; lia). rewrite Ln.
  change (firstn 3 (lo_text t)) with #"%lo". change (str_eqb #"%lo" #"%hi") with false. rewrite str_eqb_refl. cbn [target_as_u32 obind].
  unfold imm_new. change (it_bits u16 =? 16) with true. cbn iota. f_equal. f_equal. unfold wrap. change 65535 with (Z.ones 16). rewrite Z.land_ones by lia.
  change (2 ^ 16) with 65536. apply Z.mod_mod. lia.
Qed.

(** ** Lines with %hi and %lo *)

Definition named_labels (s : pstate) : Prop := forall n k, In (n, k) (p_labels s) -> identifier n.

Lemma writes_by rt m name ts l ws : name_okb name = true -> Forall operand_ok ts -> ts <> [] -> no_nl l -> instruction_line name ts l ->
  (forall e s op arg xs, e_syms e = m_syms m -> e_oc e = rt_oc rt -> ready e s l -> named_labels s -> same_letters op name ->
     Forall2 (fun t x => padded t x /\ no_nl x) ts xs ->
     exists w i, parse_op e s op arg xs = (w, Ok i) /\ calm i /\ encodes i ws) ->
  writes rt m l ws.
Proof.
  intros Nm F Nt N L H. apply name_okb_ok in Nm.
  assert (K : forall e s, exists op arg xs, same_letters op name /\ Forall2 (fun t x => padded t x /\ no_nl x) ts xs
     /\ clean l <> [] /\ ends_with #":" (clean l) = false /\ parse_inst e s (clean l) = parse_op e s op arg xs).
  { intros e s. destruct (line_parse e s name ts l Nm F N L) as (op & arg & xs & SL & [[-> _]|[_ P]] & A & B & E & _); [congruence|].
    exists op, arg, xs. auto. }
  destruct (K (mk_parser rt m l) init_state) as (_ & _ & _ & _ & _ & Ne & Ec & _). split.
  - apply alone; auto. intros s Ls Rd. destruct (K (mk_parser rt m l) s) as (op & arg & xs & SL & P & _ & _ & ->).
    apply H; auto. intros n k I. rewrite Ls in I. destruct I.
  - intros input out l1 l2 A E Il. apply (placed rt m input out l1 l l2 ws A E Ne Ec).
    intros s Ls Rd. destruct (K (mk_parser rt m input) s) as (op & arg & xs & SL & P & _ & _ & ->).
    apply H; auto. intros n k I. rewrite Ls in I. apply (Il n k). rewrite E, label_table_app. apply in_or_app. now left.
Qed.
Lemma half_no_label p t s : In p [ #"%hi("; #"%lo(" ] -> named_labels s -> assoc (p ++ t ++ #")") (p_labels s) = None.
Proof.
  intros Ip Nl. destruct (assoc _ (p_labels s)) as [k|] eqn:A; [|reflexivity]. exfalso. apply assoc_in, Nl in A as [_ F].
  destruct Ip as [<-|[<-|[]]]; discriminate F.
Qed.

Lemma hi_range oc a v : 0 <= a < 2 ^ 32 -> hi_value oc a = Some v -> 0 <= v < 65536.
Proof.
  intros R. unfold hi_value. destruct (Z.ltb_spec (a + (if a mod 65536 <? 32768 then 0 else 65536)) (2 ^ 32)) as [Q|Q].
  - intros E. injection E as <-. split; [apply Z.div_pos; destruct (a mod 65536 <? 32768); lia|apply Z.div_lt_upper_bound; lia].
  - destruct oc; [discriminate|]. intros E. injection E as <-. lia.
Qed.

Lemma lui_hi rt m tr r t a v l : gpr_text tr r -> plain_name t -> names_address (m_syms m) t a -> 0 <= a < 2 ^ 32 -> hi_value (rt_oc rt) a = Some v ->
  instruction_line #"lui" [tr; hi_text t] l -> no_nl l -> writes rt m l [word (normal 15 "lui" [Rt; Uimm]) [OReg r; OInt v]].
Proof.
  intros G Pn Na R Hv L N. assert (Rr := gpr_range _ _ G). assert (Rv := hi_range _ _ _ R Hv).
  apply (writes_by rt m #"lui" [tr; hi_text t] l _ eq_refl); [|discriminate|exact N|exact L|].
  - constructor; [eapply gpr_operand; eassumption|]. constructor; [|constructor]. apply (half_operand #"%hi("); [now left|exact Pn].
  - intros e s op arg xs Es Eo Rd Nl SL F. apply two in F as (x & y & -> & [P1 _] & [P2 _]).
    assert (C : classify (trim (to_lower #"lui")) = Some GImm2) by reflexivity. assert (P : iop_of #"lui" = Ok I_Lui) by reflexivity. mnemonic SL C P.
    eexists _, _. split; [eapply g_imm2; eauto; [eapply areg_ok; eauto|]|].
    + unfold aimm. rewrite (parse_hi e s u16 y t a P2 Pn); [|now rewrite Es|exact R|apply (half_no_label #"%hi("); [now left|exact Nl]].
      rewrite Eo, Hv. reflexivity.
    + split; [exact I|]. apply encodes_i. enc.
Qed.
Lemma addiu_lo rt m tr ts r s0 t a l : gpr_text tr r -> gpr_text ts s0 -> plain_name t -> names_address (m_syms m) t a -> 0 <= a < 2 ^ 32 ->
  instruction_line #"addiu" [tr; ts; lo_text t] l -> no_nl l ->
  writes rt m l [word (normal 9 "addiu" [Rt; Rs; Simm]) [OReg r; OReg s0; OInt (a mod 65536)]].
Proof.
  intros G G2 Pn Na R L N. assert (Rr := gpr_range _ _ G). assert (Rs := gpr_range _ _ G2). assert (Rv := Z.mod_pos_bound a 65536 ltac:(lia)).
  apply (writes_by rt m #"addiu" [tr; ts; lo_text t] l _ eq_refl); [|discriminate|exact N|exact L|].
  - constructor; [eapply gpr_operand; eassumption|]. constructor; [eapply gpr_operand; eassumption|]. constructor; [|constructor].
    apply (half_operand #"%lo("); [right; now left|exact Pn].
  - intros e s op arg xs Es Eo Rd Nl SL F. apply three in F as (x & y & z & -> & [P1 _] & [P2 _] & [P3 _]).
    assert (C : classify (trim (to_lower #"addiu")) = Some GImm3) by reflexivity. assert (P : iop_of #"addiu" = Ok I_Addiu) by reflexivity.
    assert (U : str_eqb op #"andi" || str_eqb op #"ori" || str_eqb op #"xori" = false).
    { destruct (str_eqb op #"andi") eqn:E1; [apply str_eqb_spec in E1; subst; discriminate SL|].
      destruct (str_eqb op #"ori") eqn:E2; [apply str_eqb_spec in E2; subst; discriminate SL|].
      destruct (str_eqb op #"xori") eqn:E3; [apply str_eqb_spec in E3; subst; discriminate SL|]. reflexivity. }
    mnemonic SL C P.
    eexists _, _. split; [eapply g_imm3s; eauto; [eapply areg_ok; eauto|eapply areg_ok; eauto|]|].
    + unfold aimm. rewrite (parse_lo e s i16 z t a P3 Pn); [reflexivity|now rewrite Es|exact R|apply (half_no_label #"%lo("); [right; now left|exact Nl]].
    + split; [exact I|]. apply encodes_i. generalize dependent (a mod 65536). intros v Rv oc.
      rewrite <- (Z.mod_small v 65536) at 1 by lia. assert (0 <= v mod 65536 < 65536) by (apply Z.mod_pos_bound; lia). enc.
Qed.
