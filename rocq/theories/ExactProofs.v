(** * ExactProofs: the text of every word (proofs only). *)

From Coq Require Import Lia.
From Verif Require Import Lib SpecIsa SpecListing StrLemmas DecodeProofs DisasmProofs ListingProofs InjProofs DisasmMore SpecExact.

(** ** The largest immediate is shown like the one two above it *)

Lemma field_high w p n : 16 <= p -> 0 <= n -> field w 0 16 = 32767 -> field (w + 2) p n = field w p n.
Proof.
  intros P N E. unfold field in *. change (2 ^ 0) with 1 in E. rewrite Z.div_1_r in E. change (2 ^ 16) with 65536 in E.
  replace (2 ^ p) with (65536 * 2 ^ (p - 16)) by (change 65536 with (2 ^ 16); rewrite <- Z.pow_add_r by lia; f_equal; lia).
  rewrite <- !Z.div_div by (try apply Z.pow_pos_nonneg; lia).
  replace ((w + 2) / 65536) with (w / 65536); [reflexivity|].
  assert (X := Z.div_mod w 65536 ltac:(lia)). rewrite E in X. rewrite X at 2.
  replace (65536 * (w / 65536) + 32767 + 2) with (32769 + (w / 65536) * 65536) by lia. rewrite Z.div_add by lia. reflexivity.
Qed.
Lemma field_low w : field w 0 16 = 32767 -> field (w + 2) 0 16 = 32769.
Proof.
  unfold field. change (2 ^ 0) with 1. rewrite !Z.div_1_r. change (2 ^ 16) with 65536. intros E.
  assert (X := Z.div_mod w 65536 ltac:(lia)). rewrite E in X. rewrite X.
  replace (65536 * (w / 65536) + 32767 + 2) with (32769 + (w / 65536) * 65536) by lia. rewrite Z.mod_add by lia. reflexivity.
Qed.
Lemma twin_word w : is_word w -> field w 0 16 = 32767 -> is_word (w + 2).
Proof.
  unfold is_word, field. change (2 ^ 0) with 1. rewrite Z.div_1_r. change (2 ^ 16) with 65536. change (2 ^ 32) with (65536 * 65536). intros W E.
  assert (X := Z.div_mod w 65536 ltac:(lia)). assert (w / 65536 < 65536) by (apply Z.div_lt_upper_bound; lia). lia.
Qed.

Definition signed_formats : list format := filter has_signed isa.
Definition high_keys (f : format) : bool := forallb (fun k => match k with (p, _, _) => 16 <=? p end) (f_key f).
Lemma signed_high : forallb high_keys signed_formats = true. Proof. vm_compute. reflexivity. Qed.

Lemma imm_twin op rs rt b b' : existsb (fun o => match op, o with I_Andi, I_Andi | I_Ori, I_Ori | I_Xori, I_Xori | I_Lui, I_Lui => true | _, _ => false end) [I_Andi; I_Ori; I_Xori; I_Lui] = false ->
  debug_inst (mk_imm op rs rt 32767 b) = debug_inst (mk_imm op rs rt 32769 b').
Proof.
  unfold mk_imm. change (wrap 16 32767) with 32767. change (wrap 16 32769) with 32769. intros H.
  destruct op; try (vm_compute in H; discriminate H); reflexivity.
Qed.

Lemma twin base w f : is_word w -> is_word base -> read_word w = Some f -> has_signed f = true -> field w 0 16 = 32767 ->
  read_word (w + 2) = Some f /\ debug_inst (disasm_word base w) = debug_inst (disasm_word base (w + 2)).
Proof.
  intros W B R S E. assert (W2 := twin_word w W E).
  destruct (disasm_word_fields base w W B) as (op & rs & rt & rd & sa & code & fn & imm & tg & F & ->).
  destruct (disasm_word_fields base (w + 2) W2 B) as (op2 & rs2 & rt2 & rd2 & sa2 & code2 & fn2 & imm2 & tg2 & F2 & ->).
  assert (op2 = op) as -> by (rewrite <- (F_op _ _ _ _ _ _ _ _ _ _ _ F), <- (F_op _ _ _ _ _ _ _ _ _ _ _ F2); apply field_high; auto; lia).
  assert (rs2 = rs) as -> by (rewrite <- (F_rs _ _ _ _ _ _ _ _ _ _ _ F), <- (F_rs _ _ _ _ _ _ _ _ _ _ _ F2); apply field_high; auto; lia).
  assert (rt2 = rt) as -> by (rewrite <- (F_rt _ _ _ _ _ _ _ _ _ _ _ F), <- (F_rt _ _ _ _ _ _ _ _ _ _ _ F2); apply field_high; auto; lia).
  assert (imm = 32767) as -> by (rewrite <- (F_imm _ _ _ _ _ _ _ _ _ _ _ F); exact E).
  assert (imm2 = 32769) as -> by (rewrite <- (F_imm _ _ _ _ _ _ _ _ _ _ _ F2); now apply field_low).
  assert (I := read_word_in _ _ R). assert (Sl : selects w f = true) by (unfold read_word in R; now apply find_some in R).
  rewrite (selects_sel _ _ _ _ _ _ _ _ _ _ _ f F (forallb_in (fun f => forallb okkey (f_key f)) isa f isa_keys I)) in Sl.
  rewrite (read_look _ _ _ _ _ _ _ _ _ _ _ F2). clear R.
  assert (I' : In f signed_formats) by (apply filter_In; auto). clear I S F F2 E W W2.
  vm_compute in I'. unfold sel in Sl.
  repeat (destruct I' as [<-|I']; [cbn [f_key forallb keyval Z.eqb Pos.eqb] in Sl; unfold keyval in Sl; cbn [Z.eqb Pos.eqb] in Sl;
    rewrite ?andb_true_iff, ?Z.eqb_eq in Sl; repeat match goal with H : _ /\ _ |- _ => destruct H end; subst;
    split; [vm_compute; reflexivity|]; cbn [disasm_fields]; apply imm_twin; reflexivity|]).
  destruct I'.
Qed.

(** ** Reserved words and registers without a name *)

Lemma tlb_shown base w n : is_word w -> is_word base -> read_word w = None -> field w 26 6 = 16 -> field w 25 1 = 0 -> num_assoc (field w 0 6) tlb_names = Some n ->
  debug_inst (disasm_word base w) = Ok n.
Proof.
  intros W B R O C N. destruct (disasm_word_fields base w W B) as (op & rs & rt & rd & sa & code & fn & imm & tg & F & ->).
  rewrite (F_op _ _ _ _ _ _ _ _ _ _ _ F) in O. subst op. rewrite (F_co _ _ _ _ _ _ _ _ _ _ _ F) in C. rewrite (F_fn _ _ _ _ _ _ _ _ _ _ _ F) in N.
  rewrite (read_look _ _ _ _ _ _ _ _ _ _ _ F) in R.
  assert (T : debug_inst (tlb_match fn w) = Ok n).
  { assert (Q := R_fn _ _ _ _ _ _ _ _ _ _ _ F). clear - Q N. change 64 with (Z.of_nat 64) in Q. enum Q; vm_compute in N; (discriminate N || (injection N as <-; vm_compute; reflexivity)). }
  assert (Rs := R_rs _ _ _ _ _ _ _ _ _ _ _ F). assert (Rt := R_rt _ _ _ _ _ _ _ _ _ _ _ F). clear F N.
  change 32 with (Z.of_nat 32) in Rs, Rt. enum Rs; try (vm_compute in C; discriminate C); try exact T; try (vm_compute in R; discriminate R).
  enum Rt; try exact T; vm_compute in R; discriminate R.
Qed.

Definition is_cop0 (k : okind) : bool := match k with Cop0 _ => true | _ => false end.
Lemma shown_some pc w k : is_cop0 k = false -> exists t, operand_text k (shown_operand k (extract pc w k)) = Some t.
Proof.
  intros K. destruct k; cbn [extract shown_operand]; try discriminate K; repeat match goal with |- context [if ?b then _ else _] => destruct b end; cbn [operand_text]; eauto.
Qed.
Lemma text_shown pc w f : existsb is_cop0 (f_ops f) = false -> exists t, text f (shown_operands pc w (f_ops f)) = Some t.
Proof.
  intros K. assert (H : exists ts, operands_text (f_ops f) (shown_operands pc w (f_ops f)) = Some ts).
  { induction (f_ops f) as [|k ks IH]; [eexists; reflexivity|]. cbn [existsb] in K. apply orb_false_iff in K as [K1 K2].
    destruct (IH K2) as [ts T]. destruct (shown_some pc w k K1) as [t X]. unfold shown_operands in *. cbn [map operands_text]. rewrite X, T. eauto. }
  destruct H as [ts H]. unfold text. rewrite H. destruct ts; eauto.
Qed.
Definition cop0_formats : list format := filter (fun f => existsb is_cop0 (f_ops f)) isa.

Lemma no_ws_pad2 n : 0 <= n < 32 -> no_ws (#"0x" ++ zero_pad 2 (hex n)).
Proof. intros H. apply no_ws_app. split; [reflexivity|]. apply zero_pad_no_ws, hex_no_ws. Qed.

Lemma unnamed_shown base w f : is_word w -> is_word base -> read_word w = Some f -> text f (shown_operands base w (f_ops f)) = None ->
  debug_inst (disasm_word base w) = Ok (unnamed_text w f).
Proof.
  intros W B R T. assert (I := read_word_in _ _ R).
  assert (I' : In f cop0_formats).
  { apply filter_In. split; [exact I|]. destruct (existsb is_cop0 (f_ops f)) eqn:E; [reflexivity|]. destruct (text_shown base w f E) as [t X]. congruence. }
  destruct (disasm_word_fields base w W B) as (op & rs & rt & rd & sa & code & fn & imm & tg & F & ->).
  assert (Sl : selects w f = true) by (unfold read_word in R; now apply find_some in R).
  rewrite (selects_sel _ _ _ _ _ _ _ _ _ _ _ f F (forallb_in (fun f => forallb okkey (f_key f)) isa f isa_keys I)) in Sl.
  assert (Frt := F_rt _ _ _ _ _ _ _ _ _ _ _ F). assert (Frd := F_rd _ _ _ _ _ _ _ _ _ _ _ F).
  assert (Rrt := R_rt _ _ _ _ _ _ _ _ _ _ _ F). assert (Rrd := R_rd _ _ _ _ _ _ _ _ _ _ _ F).
  unfold unnamed_text. rewrite Frt, Frd.
  assert (Nn : num_assoc rd cop0_names = None).
  { destruct (num_assoc rd cop0_names) as [t|] eqn:E; [exfalso|reflexivity]. clear - T I' E Frd.
    vm_compute in I'. repeat (destruct I' as [<-|I']; [unfold text in T; cbn [f_ops f_name shown_operands map extract shown_operand operands_text operand_text] in T; rewrite Frd, E in T; discriminate T|]). destruct I'. }
  destruct (c0_none rd Rrd Nn) as [q C]. rewrite <- (dreg_of_num rt Rrt) || idtac.
  assert (G : forall o n, In o [R_Cfc0; R_Ctc0; R_Dmfc0; R_Dmtc0; R_Mfc0; R_Mtc0] -> rop_name o = n ->
    debug_inst (IReg o Zero (reg_of_num rt) (reg_of_num rd) 0 [w]) = Ok (data_text w ++ #" # " ++ n ++ #" $" ++ nth_name gpr_names rt ++ #", 0x" ++ zero_pad 2 (hex rd))).
  { intros o n Io <-. assert (Sh : show_inst (IReg o Zero (reg_of_num rt) (reg_of_num rd) 0 [w]) =
      Ok (op11 #".word" ++ #"0x" ++ zero_pad 8 (hex w) ++ #" " ++ pad_left 10 #"#" ++ #" " ++ op11 (rop_name o) ++ dreg (reg_of_num rt) ++ sep ++ #"0x" ++ zero_pad 2 (hex (reg_num (reg_of_num rd))))).
    { cbn [show_inst]. repeat (destruct Io as [<-|Io]; [cbn [show_reg]; rewrite C; reflexivity|]). destruct Io. }
    unfold debug_inst. rewrite Sh. cbn [obind]. rewrite replace_all_space. f_equal. clear Sh C.
    rewrite (reg_num_of_num rd Rrd). rewrite (dreg_of_num rt Rrt).
    assert (Z8 : no_ws (#"0x" ++ zero_pad 8 (hex w))) by (apply no_ws_app; split; [reflexivity|apply zero_pad_no_ws, hex_no_ws]).
    assert (Z2 := no_ws_pad2 rd Rrd). 
    assert (Zr : no_ws (#"$" ++ nth_name gpr_names rt)).
    { apply no_ws_app; split; [reflexivity|]. clear - Rrt. change 32 with (Z.of_nat 32) in Rrt. enum Rrt; reflexivity. }
    assert (Hn : exists k, op11 (rop_name o) = rop_name o ++ (" "%char :: k) /\ forallb is_ws k = true /\ no_ws (rop_name o) /\ exists c r, rop_name o = c :: r /\ is_ws c = false).
    { repeat (destruct Io as [<-|Io]; [eexists; split; [vm_compute; reflexivity|split; [reflexivity|split; [reflexivity|eexists; eexists; split; [vm_compute; reflexivity|reflexivity]]]]|]). destruct Io. }
    destruct Hn as (k & -> & Hk & Hn & c1 & r1 & Hc & Wc).
    match goal with |- squeeze ?x = _ => replace x with
      (#".word" ++ #"      " ++ (#"0x" ++ zero_pad 8 (hex w)) ++ #"          " ++ #"#" ++ #" " ++ rop_name o ++ (" "%char :: k) ++ ((#"$" ++ nth_name gpr_names rt) ++ #",") ++ #" " ++ (#"0x" ++ zero_pad 2 (hex rd))) end;
      [|rewrite <- !app_assoc; reflexivity].
    rewrite squeeze_no_ws_app by reflexivity. rewrite squeeze_ws_app; [|discriminate|reflexivity|reflexivity].
    rewrite (squeeze_no_ws_app _ _ Z8). rewrite squeeze_ws_app; [|discriminate|reflexivity|reflexivity].
    rewrite (squeeze_no_ws_app #"#") by reflexivity.
    rewrite squeeze_ws_app; [|discriminate|reflexivity|now rewrite Hc].
    rewrite (squeeze_no_ws_app _ _ Hn). rewrite squeeze_ws_app; [|discriminate|exact Hk|reflexivity].
    rewrite squeeze_no_ws_app by (apply no_ws_app; split; [exact Zr|reflexivity]).
    rewrite squeeze_ws_app; [|discriminate|reflexivity|reflexivity].
    rewrite (squeeze_no_ws _ Z2). unfold data_text. rewrite <- !app_assoc. reflexivity. }
  vm_compute in I'. unfold sel in Sl.
  repeat (destruct I' as [<-|I']; [cbn [f_key forallb keyval Z.eqb Pos.eqb] in Sl; unfold keyval in Sl; cbn [Z.eqb Pos.eqb] in Sl;
    rewrite ?andb_true_iff, ?Z.eqb_eq in Sl; repeat match goal with H : _ /\ _ |- _ => destruct H end; subst;
    cbn [disasm_fields f_name]; unfold mk_reg; apply G; [cbn; tauto|reflexivity]|]).
  destruct I'.
Qed.

(** ** Every word *)

Definition high_op (k : okind) : bool := match k with Gpr p | Fpr p | Cop0 p => 16 <=? p | CacheOp | Simm | Mem | Branch16 => true | _ => false end.
Lemma signed_high_ops : forallb (fun f => forallb high_op (f_ops f)) signed_formats = true. Proof. vm_compute. reflexivity. Qed.

Lemma field16 w : 0 <= field w 0 16 < 65536. Proof. apply (field_range w 0 16); lia. Qed.
Lemma signed16_max v : 0 <= v < 65536 -> signed16 v = 32767 -> v = 32767.
Proof. unfold signed16. destruct (Z.ltb_spec v 32768); lia. Qed.

Lemma twin_extract base w k : high_op k = true -> field w 0 16 = 32767 -> extract base (w + 2) k = shown_operand k (extract base w k).
Proof.
  intros H E. destruct k; cbn [high_op] in H; try discriminate H; cbn [extract shown_operand signed_operand andb]; rewrite ?(field_low w E), ?E; try (f_equal; apply field_high; auto; lia); try reflexivity.
  change (signed16 32767 =? 32767) with true. cbv iota. change (signed16 32769) with (-32767). f_equal. apply field_high; auto; lia.
Qed.
Lemma plain_extract base w k : (signed_operand k = true -> field w 0 16 <> 32767) -> shown_operand k (extract base w k) = extract base w k.
Proof.
  intros H. destruct k; cbn [extract shown_operand signed_operand andb] in *; try reflexivity;
  (destruct (Z.eqb_spec (signed16 (field w 0 16)) 32767) as [X|X]; [|reflexivity]); apply signed16_max in X; try apply field16; destruct (H eq_refl X).
Qed.

Lemma shown_twin base w f : read_word w = Some f -> has_signed f = true -> field w 0 16 = 32767 -> map (extract base (w + 2)) (f_ops f) = shown_operands base w (f_ops f).
Proof.
  intros R S E. unfold shown_operands. apply map_ext_in. intros k Ik. apply twin_extract; [|exact E].
  assert (If : In f signed_formats) by (apply filter_In; split; [now apply read_word_in in R|exact S]).
  assert (X := forallb_in _ _ f signed_high_ops If). cbv beta in X. rewrite forallb_forall in X. now apply X.
Qed.
Lemma shown_plain base w f : (has_signed f = true -> field w 0 16 <> 32767) -> shown_operands base w (f_ops f) = map (extract base w) (f_ops f).
Proof.
  intros H. unfold shown_operands. apply map_ext_in. intros k Ik. apply plain_extract. intros S. apply H. unfold has_signed. apply existsb_exists. eauto.
Qed.

Lemma tlb_num n : In n [1; 2; 6; 8; 24] <-> num_assoc n tlb_names <> None.
Proof.
  unfold tlb_names. cbn [num_assoc]. repeat match goal with |- context [?a =? ?b] => destruct (Z.eqb_spec a b) end; cbn [In]; split; intros H; try congruence; try tauto; intuition lia.
Qed.

Theorem shown_all base w : is_word w -> is_word base -> debug_inst (disasm_word base w) = Ok (shown_text base w).
Proof.
  intros W B. unfold shown_text. destruct (read_word w) as [f|] eqn:R.
  - destruct (text f (shown_operands base w (f_ops f))) as [t|] eqn:T; [|now apply unnamed_shown].
    destruct (has_signed f) eqn:S; [destruct (Z.eq_dec (field w 0 16) 32767) as [E|E]|].
    + destruct (twin base w f W B R S E) as [R2 ->]. apply line_is_text; auto; [now apply twin_word|intros (X & _); congruence| |].
      * intros (g & _ & _ & X). rewrite (field_low w E) in X. discriminate X.
      * unfold read_text. rewrite R2, (shown_twin base w f R S E). exact T.
    + apply line_is_text; auto; [intros (X & _); congruence|intros (g & _ & _ & X); contradiction|].
      unfold read_text. rewrite R. rewrite <- (shown_plain base w f); auto.
    + apply line_is_text; auto; [intros (X & _); congruence|intros (g & X & Y & _); congruence|].
      unfold read_text. rewrite R. rewrite <- (shown_plain base w f); auto. congruence.
  - unfold unread_text. destruct (num_assoc (field w 0 6) tlb_names) as [t|] eqn:N.
    + destruct (Z.eqb_spec (field w 26 6) 16) as [O|O]; [destruct (Z.eqb_spec (field w 25 1) 0) as [C|C]|]; cbn [andb].
      * now apply tlb_shown.
      * apply line_is_text; auto; [intros (_ & _ & X & _); contradiction|intros (g & X & _); congruence|unfold read_text; now rewrite R].
      * apply line_is_text; auto; [intros (_ & X & _); contradiction|intros (g & X & _); congruence|unfold read_text; now rewrite R].
    + apply line_is_text; auto; [|intros (g & X & _); congruence|unfold read_text; now rewrite R].
      intros (_ & _ & _ & X). apply tlb_num in X. contradiction.
Qed.
Theorem shown_listing oc base m ws : is_word base -> Forall is_word ws -> m = set_debug (set_base base m_new) ->
  disassemble oc m ws = Ok (map (shown_text base) ws).
Proof.
  intros B W ->. rewrite disassemble_debug by reflexivity. induction W as [|w ws H _ IH]; [reflexivity|]. cbn [map_outcome map].
  rewrite debug_line_plain, shown_all by assumption. cbn [obind]. rewrite IH. reflexivity.
Qed.
