(** * PseudoProofs: lines with pseudo-instructions and their words (proofs only). *)

From Coq Require Import Lia.
From Verif Require Import Lib SpecIsa StrLemmas NumLemmas DecodeProofs TextProofs OperandProofs NativeProofs LineProofs ScanProofs ProgProofs
  AsmProofs SpecMachine MachineProofs ExecProofs SpecText SpecProgram.

(** ** Lines *)

Definition env0 : env := mk_env [] 0 [] false (fun x => x).

Lemma gpr_operand t n : gpr_text t n -> operand_ok t.
Proof. intros G. apply (spelling_ok (Gpr 0) (OReg n)). now constructor. Qed.
Lemma num_operand t v : signed_numeral t v -> operand_ok t.
Proof. intros G. apply (spelling_ok Simm (OInt v)). now constructor. Qed.

Lemma digits_nonneg radix t v : digits radix t v -> 0 <= v.
Proof. induction 1 as [c d [H _]|t v c d _ IH [H _]]; nia. Qed.
Lemma numeral_nonneg t v : numeral t v -> 0 <= v.
Proof. intros [u z D|u z D]; now apply digits_nonneg in D. Qed.

Lemma line_by name ts raw ws : name_okb name = true -> Forall operand_ok ts -> ts <> [] -> no_nl raw -> instruction_line name ts raw ->
  (forall e s op arg xs, context e s raw -> same_letters op name -> Forall2 (fun t x => padded t x /\ no_nl x) ts xs ->
    exists w i, parse_op e s op arg xs = (w, Ok i) /\ calm i /\ encodes i ws) ->
  line_ok raw ws.
Proof.
  intros Nm F Ne N L H. apply name_okb_ok in Nm.
  destruct (line_parse env0 init_state name ts raw Nm F N L) as (_ & _ & _ & _ & _ & C & D & _).
  split; [exact C|]. split; [exact D|]. intros e s Cx.
  destruct (line_parse e s name ts raw Nm F N L) as (op & arg & xs & SL & [[-> _]|[_ P]] & _ & _ & E & _); [congruence|].
  rewrite E. now apply H.
Qed.

Lemma two {A B} (R : A -> B -> Prop) a b l : Forall2 R [a; b] l -> exists x y, l = [x; y] /\ R a x /\ R b y.
Proof. inversion 1 as [|? x ? l1 H1 H2]; subst. inversion H2 as [|? y ? l2 H3 H4]; subst. inversion H4; subst. eauto. Qed.
Lemma three {A B} (R : A -> B -> Prop) a b c l : Forall2 R [a; b; c] l -> exists x y z, l = [x; y; z] /\ R a x /\ R b y /\ R c z.
Proof. inversion 1 as [|? x ? l1 H1 H2]; subst. apply two in H2 as (y & z & -> & ? & ?). eauto 8. Qed.
Lemma one {A B} (R : A -> B -> Prop) a l : Forall2 R [a] l -> exists x, l = [x] /\ R a x.
Proof. inversion 1 as [|? x ? l1 H1 H2]; subst. inversion H2; subst. eauto. Qed.

Lemma lower_trim a b : same_letters a b -> trim (to_lower a) = trim (to_lower b).
Proof. unfold same_letters. now intros ->. Qed.

Ltac mnemonic SL C P :=
  first [rewrite <- (lower_trim _ _ SL) in C]; 
  first [rewrite <- (rop_of_letters _ _ SL) in P | rewrite <- (iop_of_letters _ _ SL) in P].

Ltac operands := repeat first [apply Forall_nil | apply Forall_cons; [first [eapply gpr_operand; eassumption | eapply num_operand; eassumption | eapply num_operand; constructor; eassumption]|]].

Lemma line_reg3 name p t1 t2 t3 a b c raw : name_okb name = true -> classify (trim (to_lower name)) = Some GReg3 -> rop_of name = Ok p ->
  gpr_text t1 a -> gpr_text t2 b -> gpr_text t3 c -> instruction_line name [t1; t2; t3] raw -> no_nl raw ->
  line_ok raw (enc_r p (reg_of_num b) (reg_of_num c) (reg_of_num a) 0).
Proof.
  intros Nm C P G1 G2 G3 L N. eapply (line_by _ _ _ _ Nm); [| |exact N|exact L|]; [operands|discriminate|].
  intros e s op arg xs Cx SL F. apply three in F as (x & y & z & -> & [P1 _] & [P2 _] & [P3 _]). mnemonic SL C P.
  eexists _, _. split; [eapply g_reg3; eauto; eapply areg_ok; eauto|]. split; [exact I|]. now apply encodes_r.
Qed.
Lemma line_div3 name p t1 t2 t3 a b c raw : name_okb name = true -> classify (trim (to_lower name)) = Some GDiv -> rop_of name = Ok p ->
  gpr_text t1 a -> gpr_text t2 b -> gpr_text t3 c -> instruction_line name [t1; t2; t3] raw -> no_nl raw ->
  line_ok raw (enc_r p (reg_of_num b) (reg_of_num c) (reg_of_num a) 0).
Proof.
  intros Nm C P G1 G2 G3 L N. eapply (line_by _ _ _ _ Nm); [| |exact N|exact L|]; [operands|discriminate|].
  intros e s op arg xs Cx SL F. apply three in F as (x & y & z & -> & [P1 _] & [P2 _] & [P3 _]). mnemonic SL C P.
  eexists _, _. split; [eapply g_div3; eauto; eapply areg_ok; eauto|]. split; [exact I|]. now apply encodes_r.
Qed.
Lemma line_move name p t1 t2 a b raw : name_okb name = true -> classify (trim (to_lower name)) = Some GMove -> rop_of name = Ok p ->
  gpr_text t1 a -> gpr_text t2 b -> instruction_line name [t1; t2] raw -> no_nl raw ->
  line_ok raw (enc_r p (reg_of_num b) reg_null (reg_of_num a) 0).
Proof.
  intros Nm C P G1 G2 L N. eapply (line_by _ _ _ _ Nm); [| |exact N|exact L|]; [operands|discriminate|].
  intros e s op arg xs Cx SL F. apply two in F as (x & y & -> & [P1 _] & [P2 _]). mnemonic SL C P.
  eexists _, _. split; [eapply g_move; eauto; eapply areg_ok; eauto|]. split; [exact I|]. now apply encodes_r.
Qed.
Lemma line_rd name p t1 a raw : name_okb name = true -> classify (trim (to_lower name)) = Some GRd -> rop_of name = Ok p ->
  gpr_text t1 a -> instruction_line name [t1] raw -> no_nl raw ->
  line_ok raw (enc_r p reg_null reg_null (reg_of_num a) 0).
Proof.
  intros Nm C P G1 L N. eapply (line_by _ _ _ _ Nm); [| |exact N|exact L|]; [operands|discriminate|].
  intros e s op arg xs Cx SL F. apply one in F as (x & -> & [P1 _]). mnemonic SL C P.
  eexists _, _. split; [eapply g_rd; eauto; eapply areg_ok; eauto|]. split; [exact I|]. now apply encodes_r.
Qed.
(** [li] and [liu] *)
Lemma line_li name p t1 t2 a v raw ws : name_okb name = true -> classify (trim (to_lower name)) = Some GLi -> iop_of name = Ok p ->
  gpr_text t1 a -> numeral t2 v -> v < 2 ^ 32 -> instruction_line name [t1; t2] raw -> no_nl raw ->
  (forall oc, @enc_i perror oc p reg_null (reg_of_num a) (Long v) = Ok ws) ->
  line_ok raw ws.
Proof.
  intros Nm C P G1 G2 V L N En.
  assert (V0 : 0 <= v) by (eapply numeral_nonneg; eauto).
  eapply (line_by _ _ _ _ Nm); [| |exact N|exact L|]; [operands|discriminate|].
  intros e s op arg xs Cx SL F. apply two in F as (x & y & -> & [P1 _] & [P2 _]). mnemonic SL C P.
  assert (A : aimm e s i64 y = lift (Ok (Long v))).
  { rewrite (aimm_u e s i64 y t2 v); [|apply Cx|exact P2|exact G2|change (it_min i64) with (- 2 ^ 63); change (it_max i64) with (2 ^ 63 - 1); lia].
    unfold imm_new. change (it_bits i64 =? 16) with false. change (it_bits i64 =? 32) with false. change (it_bits i64 =? 64) with true. cbn iota.
    unfold wrap. rewrite Z.mod_small by lia. reflexivity. }
  eexists _, _. split; [|split; [|apply encodes_i; exact En]]; [|exact I].
  unfold parse_op. rewrite C. unfold parse_li. rewrite (areg_ok e s x t1 a P1 G1), mbind_ok, A, mbind_ok.
  cbn [imm_as_u64]. rewrite mbind_ok. destruct (v >? 4294967295) eqn:Q; [lia|]. rewrite P, mbind_ok. reflexivity.
Qed.
Lemma line_dli t1 t2 a v raw ws : gpr_text t1 a -> signed_numeral t2 v -> - 2 ^ 63 <= v < 2 ^ 63 -> instruction_line #"dli" [t1; t2] raw -> no_nl raw ->
  (forall oc, @enc_i perror oc I_Dli reg_null (reg_of_num a) (Long (v mod 2 ^ 64)) = Ok ws) ->
  line_ok raw ws.
Proof.
  intros G1 G2 V L N En.
  eapply (line_by #"dli" _ _ _ eq_refl); [| |exact N|exact L|]; [operands|discriminate|].
  intros e s op arg xs Cx SL F. apply two in F as (x & y & -> & [P1 _] & [P2 _]).
  assert (C : classify (trim (to_lower op)) = Some GDli) by (rewrite (lower_trim _ _ SL); reflexivity).
  assert (P : iop_of op = Ok I_Dli) by (rewrite (iop_of_letters _ _ SL); reflexivity).
  assert (A : aimm e s i64 y = lift (Ok (Long (v mod 2 ^ 64)))).
  { rewrite (aimm_s e s i64 y t2 v); [|apply Cx|exact P2|exact G2|reflexivity|change (it_min i64) with (- 2 ^ 63); change (it_max i64) with (2 ^ 63 - 1); lia].
    reflexivity. }
  eexists _, _. split; [|split; [|apply encodes_i; exact En]]; [|exact I].
  unfold parse_op. rewrite C. unfold parse_dli. rewrite (areg_ok e s x t1 a P1 G1), mbind_ok, P, mbind_ok, A, mbind_ok. reflexivity.
Qed.
Lemma line_imm2 name p t1 t2 a v raw ws : name_okb name = true -> classify (trim (to_lower name)) = Some GImm2 -> iop_of name = Ok p ->
  gpr_text t1 a -> numeral t2 v -> 0 <= v < 65536 -> instruction_line name [t1; t2] raw -> no_nl raw ->
  (forall oc, @enc_i perror oc p reg_null (reg_of_num a) (Short v) = Ok ws) ->
  line_ok raw ws.
Proof.
  intros Nm C P G1 G2 V L N En.
  eapply (line_by _ _ _ _ Nm); [| |exact N|exact L|]; [operands|discriminate|].
  intros e s op arg xs Cx SL F. apply two in F as (x & y & -> & [P1 _] & [P2 _]). mnemonic SL C P.
  eexists _, _. split; [eapply g_imm2; eauto; [eapply areg_ok; eauto|eapply aimm_u16; eauto; apply Cx]|].
  split; [exact I|apply encodes_i; exact En].
Qed.
Lemma line_imm3 name p t1 t2 t3 a b v raw ws : name_okb name = true -> classify (trim (to_lower name)) = Some GImm3 -> iop_of name = Ok p ->
  forallb (fun n => negb (str_eqb (to_lower n) (to_lower name))) [#"andi"; #"ori"; #"xori"] = true ->
  gpr_text t1 a -> gpr_text t2 b -> signed_numeral t3 v -> -32768 <= v < 32768 -> instruction_line name [t1; t2; t3] raw -> no_nl raw ->
  (forall oc, @enc_i perror oc p (reg_of_num b) (reg_of_num a) (Short (v mod 65536)) = Ok ws) ->
  line_ok raw ws.
Proof.
  intros Nm C P Q G1 G2 G3 V L N En.
  eapply (line_by _ _ _ _ Nm); [| |exact N|exact L|]; [operands|discriminate|].
  intros e s op arg xs Cx SL F. apply three in F as (x & y & z & -> & [P1 _] & [P2 _] & [P3 _]). mnemonic SL C P.
  assert (Q' : str_eqb op #"andi" || str_eqb op #"ori" || str_eqb op #"xori" = false).
  { cbn [forallb] in Q. unfold same_letters in SL. rewrite <- SL in Q.
    assert (K : forall n, negb (str_eqb (to_lower n) (to_lower op)) = true -> str_eqb op n = false).
    { intros n H. destruct (str_eqb op n) eqn:E; [|reflexivity]. apply str_eqb_spec in E. subst n. rewrite str_eqb_refl in H. discriminate. }
    apply andb_prop in Q as [Q1 Q]. apply andb_prop in Q as [Q2 Q]. apply andb_prop in Q as [Q3 _]. rewrite !K by assumption. reflexivity. }
  eexists _, _. split; [eapply g_imm3s; eauto; [eapply areg_ok; eauto|eapply areg_ok; eauto|eapply aimm_i16; eauto; apply Cx]|].
  split; [exact I|apply encodes_i; exact En].
Qed.

(** ** Words *)

Section Encodings.
Variables rs rt rd : reg.
Let a := reg_num rs.
Let b := reg_num rt.
Let c := reg_num rd.
Ltac words :=
  assert (0 <= reg_num rs < 32) by apply reg_num_range; assert (0 <= reg_num rt < 32) by apply reg_num_range;
  assert (0 <= reg_num rd < 32) by apply reg_num_range; unfold a, b, c, enc_r;
  repeat match goal with |- _ :: _ = _ :: _ => apply f_equal2 | |- [] = [] => reflexivity end;
  unfold rword, iword; lor_sum; lia.

Lemma enc_abs : enc_r R_Abs rs rt rd 0 = [rword 0 a 1 31 3; rword a 1 c 0 38; rword c 1 c 0 35]. Proof. words. Qed.
Lemma enc_dabs : enc_r R_Dabs rs rt rd 0 = [rword 0 a 1 31 59; rword a 1 c 0 38; rword c 1 c 0 46]. Proof. words. Qed.
Lemma enc_seq : enc_r R_Seq rs rt rd 0 = [rword a b c 0 38; iword 11 c c 1]. Proof. words. Qed.
Lemma enc_sne : enc_r R_Sne rs rt rd 0 = [rword a b c 0 38; rword 0 c c 0 43]. Proof. words. Qed.
Lemma enc_sge : enc_r R_Sge rs rt rd 0 = [rword a b c 0 42; iword 14 c c 1]. Proof. words. Qed.
Lemma enc_sgeu : enc_r R_Sgeu rs rt rd 0 = [rword a b c 0 43; iword 14 c c 1]. Proof. words. Qed.
Lemma enc_sgt : enc_r R_Sgt rs rt rd 0 = [rword b a c 0 42]. Proof. words. Qed.
Lemma enc_sgtu : enc_r R_Sgtu rs rt rd 0 = [rword b a c 0 43]. Proof. words. Qed.
Lemma enc_sle : enc_r R_Sle rs rt rd 0 = [rword b a c 0 42; iword 14 c c 1]. Proof. words. Qed.
Lemma enc_sleu : enc_r R_Sleu rs rt rd 0 = [rword b a c 0 43; iword 14 c c 1]. Proof. words. Qed.
Lemma enc_mul : enc_r R_Mul rs rt rd 0 = [rword a b 0 0 24; rword 0 0 c 0 18]. Proof. words. Qed.
Lemma enc_mulu : enc_r R_Mulu rs rt rd 0 = [rword a b 0 0 25; rword 0 0 c 0 18]. Proof. words. Qed.
Lemma enc_dmul : enc_r R_Dmul rs rt rd 0 = [rword a b 0 0 28; rword 0 0 c 0 18]. Proof. words. Qed.
Lemma enc_dmulu : enc_r R_Dmulu rs rt rd 0 = [rword a b 0 0 29; rword 0 0 c 0 18]. Proof. words. Qed.
Lemma enc_mulo : enc_r R_Mulo rs rt rd 0 = [rword a b 0 0 24; rword 0 0 c 0 18; rword 0 c c 31 3; rword 0 0 1 0 16; rword c 1 0 6 54; rword 0 0 c 0 18]. Proof. words. Qed.
Lemma enc_mulou : enc_r R_Mulou rs rt rd 0 = [rword a b 0 0 25; rword 0 0 1 0 16; rword 0 0 c 0 18; rword 1 0 0 6 54]. Proof. words. Qed.
Lemma enc_dmulo : enc_r R_Dmulo rs rt rd 0 = [rword a b 0 0 28; rword 0 0 c 0 18; rword 0 c c 31 63; rword 0 0 1 0 16; rword c 1 0 6 54; rword 0 0 c 0 18]. Proof. words. Qed.
Lemma enc_dmulou : enc_r R_Dmulou rs rt rd 0 = [rword a b 0 0 29; rword 0 0 1 0 16; rword 0 0 c 0 18; rword 1 0 0 6 54]. Proof. words. Qed.
Lemma enc_remu : enc_r R_Remu rs rt rd 0 = [rword b 0 0 7 52; rword a b 0 0 27; rword 0 0 c 0 16]. Proof. words. Qed.
Lemma enc_dremu : enc_r R_Dremu rs rt rd 0 = [rword b 0 0 7 52; rword a b 0 0 31; rword 0 0 c 0 16]. Proof. words. Qed.
Lemma enc_rem : enc_r R_Rem rs rt rd 0 = [rword b 0 0 7 52; rword a b 0 0 26; iword 15 0 1 65535; iword 13 1 1 65535; iword 5 b 1 3; iword 15 0 1 32768; rword a 1 0 6 52; rword 0 0 c 0 16]. Proof. words. Qed.
Lemma enc_drem : enc_r R_Drem rs rt rd 0 = [rword b 0 0 7 52; rword a b 0 0 30; iword 25 0 1 65535; iword 5 b 1 4; iword 25 0 1 1; rword 0 1 1 31 60; rword a 1 0 6 52; rword 0 0 c 0 16]. Proof. words. Qed.
Lemma enc_drol : enc_r R_Drol rs rt rd 0 = [rword 0 b 1 0 47; rword 1 a 1 0 22; rword b a c 0 20; rword c 1 c 0 37]. Proof. words. Qed.
Lemma enc_dror : enc_r R_Dror rs rt rd 0 = [rword 0 b 1 0 47; rword 1 a 1 0 20; rword b a c 0 22; rword c 1 c 0 37]. Proof. words. Qed.
Lemma enc_move : enc_r R_Move rs rt rd 0 = [rword 0 a c 0 33]. Proof. words. Qed.
Lemma enc_dmove : enc_r R_Dmove rs rt rd 0 = [rword a 0 c 0 45]. Proof. words. Qed.
Lemma enc_clear : enc_r R_Clear rs rt rd 0 = [rword 0 0 c 0 33]. Proof. words. Qed.
Lemma enc_neg : enc_r R_Neg rs rt rd 0 = [rword 0 a c 0 34]. Proof. words. Qed.
Lemma enc_negu : enc_r R_Negu rs rt rd 0 = [rword 0 a c 0 35]. Proof. words. Qed.
Lemma enc_dneg : enc_r R_Dneg rs rt rd 0 = [rword 0 a c 0 46]. Proof. words. Qed.
Lemma enc_dnegu : enc_r R_Dnegu rs rt rd 0 = [rword 0 a c 0 47]. Proof. words. Qed.
Lemma enc_not : enc_r R_Not rs rt rd 0 = [rword a 0 c 0 39]. Proof. words. Qed.

Lemma enc_divu : b <> 0 -> enc_r R_Divu rs rt rd 0 = [rword b 0 0 7 52; rword a b 0 0 27; rword 0 0 c 0 18].
Proof. intros N. unfold enc_r. fold b. apply Z.eqb_neq in N. rewrite N. words. Qed.
Lemma enc_ddivu : b <> 0 -> enc_r R_Ddivu rs rt rd 0 = [rword b 0 0 7 52; rword a b 0 0 31; rword 0 0 c 0 18].
Proof. intros N. unfold enc_r. fold b. apply Z.eqb_neq in N. rewrite N. words. Qed.
Lemma enc_div : b <> 0 -> enc_r R_Div rs rt rd 0 = [rword b 0 0 7 52; rword a b 0 0 26; iword 15 0 1 65535; iword 13 1 1 65535; iword 5 b 1 3; iword 15 0 1 32768; rword a 1 0 6 52; rword 0 0 c 0 18].
Proof. intros N. unfold enc_r. fold b. apply Z.eqb_neq in N. rewrite N. words. Qed.
Lemma enc_ddiv : b <> 0 -> enc_r R_Ddiv rs rt rd 0 = [rword b 0 0 7 52; rword a b 0 0 30; iword 25 0 1 65535; iword 5 b 1 4; iword 25 0 1 1; rword 0 1 1 31 60; rword a 1 0 6 52; rword 0 0 c 0 18].
Proof. intros N. unfold enc_r. fold b. apply Z.eqb_neq in N. rewrite N. words. Qed.
End Encodings.

(** ** Constants *)
Lemma land_low v : 0 <= v -> Z.land v 65535 = v mod 65536.
Proof. intros H. change 65535 with (Z.ones 16). rewrite Z.land_ones by lia. reflexivity. Qed.
Lemma shr_div v k : 0 <= k -> shr v k = v / 2 ^ k.
Proof. intros H. unfold shr. now apply Z.shiftr_div_pow2. Qed.
Lemma land_high v : 0 <= v < 2 ^ 32 -> (Z.land v 4294934528 =? 4294934528) = (4294934528 <=? v).
Proof.
  intros V. destruct (4294934528 <=? v) eqn:L.
  - apply Z.eqb_eq. apply Z.bits_inj'. intros n N. rewrite Z.land_spec. destruct (Z_lt_le_dec n 15).
    + change 4294934528 with ((2 ^ 17 - 1) * 2 ^ 15). rewrite Z.mul_pow2_bits_low by lia. apply andb_false_r.
    + replace n with (n - 15 + 15) at 1 by lia. rewrite <- Z.shiftr_spec by lia. rewrite Z.shiftr_div_pow2 by lia.
      replace (v / 2 ^ 15) with (2 ^ 17 - 1) by (apply Z.div_unique with (v - 4294934528); lia).
      change 4294934528 with ((2 ^ 17 - 1) * 2 ^ 15). rewrite Z.mul_pow2_bits by lia. apply andb_diag.
  - apply Z.eqb_neq. intros E. apply (f_equal (fun x => Z.shiftr x 15)) in E. rewrite Z.shiftr_land in E.
    change (Z.shiftr 4294934528 15) with (Z.ones 17) in E. rewrite Z.land_ones in E by lia. rewrite Z.shiftr_div_pow2 in E by lia.
    assert (D := Z.div_mod v (2 ^ 15) ltac:(lia)). assert (M := Z.mod_pos_bound v (2 ^ 15) ltac:(lia)).
    assert (Q : 0 <= v / 2 ^ 15 < 2 ^ 17) by (split; [apply Z.div_pos; lia|apply Z.div_lt_upper_bound; lia]).
    rewrite Z.mod_small in E by lia. change (Z.ones 17) with (2 ^ 17 - 1) in E. lia.
Qed.
Section Constants.
Variable r : reg.
Let c := reg_num r.
Ltac words :=
  assert (0 <= reg_num r < 32) by apply reg_num_range; unfold c;
  repeat match goal with |- _ :: _ = _ :: _ => apply f_equal2 | |- [] = [] => reflexivity end;
  unfold rword, iword; lor_sum; lia.
Lemma word_lui v : 0 <= v < 65536 -> Z.lor (Z.lor (shl 15 26) (shl (reg_num r) 16)) v = iword 15 0 c v.
Proof. intros V. words. Qed.
Lemma word_ori0 v : 0 <= v < 65536 -> Z.lor (Z.lor (shl 13 26) (shl (reg_num r) 16)) v = iword 13 0 c v.
Proof. intros V. words. Qed.
Lemma word_ori v : 0 <= v < 65536 -> Z.lor (Z.lor (Z.lor (shl 13 26) (shl (reg_num r) 21)) (shl (reg_num r) 16)) v = iword 13 c c v.
Proof. intros V. words. Qed.
Lemma word_addiu v : 0 <= v < 65536 -> Z.lor (Z.lor (Z.lor (shl 9 26) (shl (reg_num r) 21)) (shl (reg_num r) 16)) v = iword 9 c c v.
Proof. intros V. words. Qed.
Lemma word_dsll : Z.lor (Z.lor (Z.lor (shl (reg_num r) 16) (shl (reg_num r) 11)) (shl 16 6)) 56 = rword 0 c c 16 56.
Proof. words. Qed.

Lemma halves v : 0 <= v < 2 ^ 32 -> 0 <= v / 65536 < 65536 /\ 0 <= v mod 65536 < 65536 /\ v = v / 65536 * 65536 + v mod 65536.
Proof.
  intros V. assert (D := Z.div_mod v 65536 ltac:(lia)). assert (M := Z.mod_pos_bound v 65536 ltac:(lia)).
  split; [split; [apply Z.div_pos; lia|apply Z.div_lt_upper_bound; lia]|]. lia.
Qed.
Definition li_words (v : Z) : list Z :=
  if v <? 65536 then [iword 13 0 c v] else if v mod 65536 =? 0 then [iword 15 0 c (v / 65536)]
  else [iword 15 0 c (v / 65536); iword 13 c c (v mod 65536)].
Lemma enc_liu_words v : 0 <= v < 2 ^ 32 -> enc_liu r v = li_words v.
Proof.
  intros V. unfold enc_liu, li_words. rewrite land_low, shr_div by lia. change (2 ^ 16) with 65536.
  destruct (halves v V) as (A & B & D). destruct (v <? 65536) eqn:E.
  - rewrite Z.mod_small, Z.eqb_refl by lia. f_equal. apply word_ori0. lia.
  - destruct (v mod 65536 =? v) eqn:F; [lia|]. destruct (v mod 65536 =? 0) eqn:G.
    + f_equal. now apply word_lui.
    + f_equal; [now apply word_lui|]. f_equal. now apply word_ori.
Qed.
Lemma enc_li_words v : 0 <= v < 2 ^ 32 ->
  enc_li r v = if 4294934528 <=? v then [iword 15 0 c (v / 65536); iword 9 c c (v mod 65536)] else li_words v.
Proof.
  intros V. unfold enc_li, li_words. rewrite land_low, land_high, shr_div by lia. change (2 ^ 16) with 65536.
  destruct (halves v V) as (A & B & D). destruct (4294934528 <=? v) eqn:H.
  - destruct (v mod 65536 =? v) eqn:F; [lia|]. destruct (v mod 65536 =? 0) eqn:G; [lia|].
    f_equal; [now apply word_lui|]. f_equal. now apply word_addiu.
  - destruct (v <? 65536) eqn:E.
    + rewrite Z.mod_small, Z.eqb_refl by lia. f_equal. apply word_ori0. lia.
    + destruct (v mod 65536 =? v) eqn:F; [lia|]. destruct (v mod 65536 =? 0) eqn:G.
      * f_equal. now apply word_lui.
      * f_equal; [now apply word_lui|]. f_equal. now apply word_ori.
Qed.
Lemma enc_dli_words oc v : 0 <= v < 2 ^ 64 ->
  @enc_i perror oc I_Dli reg_null r (Long v) = Ok (dli_words c (v / 2 ^ 48) (v / 2 ^ 32 mod 65536) (v / 2 ^ 16 mod 65536) (v mod 65536)).
Proof.
  intros V. cbn [enc_i imm_as_u64 obind]. f_equal. unfold dli_words.
  assert (A : 0 <= v / 2 ^ 48 < 65536) by (split; [apply Z.div_pos; lia|apply Z.div_lt_upper_bound; lia]).
  assert (M : forall x, 0 <= x mod 65536 < 65536) by (intros x; apply Z.mod_pos_bound; lia).
  assert (S : forall x, 0 <= x < 65536 -> wrap 32 x = x) by (intros x H; unfold wrap; apply Z.mod_small; lia).
  assert (P : forall k, 0 <= k -> 0 <= v / 2 ^ k) by (intros k H; apply Z.div_pos; lia).
  rewrite !shr_div by lia. rewrite !land_low by (try apply P; lia). rewrite !S by (auto; lia).
  rewrite word_lui, !word_ori, word_dsll by auto. reflexivity.
Qed.
End Constants.

(** Subtract-immediate *)
Lemma sub_field v : 0 <= v < 65536 -> Z.land (wrap 32 (- v)) 65535 = (- v) mod 65536.
Proof.
  intros V. unfold wrap. rewrite land_low by (apply Z.mod_pos_bound; lia). change (2 ^ 32) with (65536 * 65536).
  rewrite Z.rem_mul_r by lia. rewrite (Z.mul_comm 65536), Z.mod_add by lia. now rewrite Z.mod_mod by lia.
Qed.
Lemma neg_small oc v : 0 <= v < 65536 -> @neg_i32 perror oc v = Ok (wrap 32 (- v)).
Proof.
  intros V. unfold neg_i32. assert (E : sext 32 v = v).
  { unfold sext. rewrite Z.mod_small by lia. change (32 - 1) with 31. destruct (v <? 2 ^ 31) eqn:L; [reflexivity|lia]. }
  rewrite E. destruct (v =? - 2 ^ 31) eqn:F; [lia|]. reflexivity.
Qed.
Lemma enc_sub (rs rt : reg) p k v : In (p, k) [(I_Subi, 8); (I_Subiu, 9); (I_Dsubi, 24); (I_Dsubiu, 25)] -> 0 <= v < 65536 ->
  forall oc, @enc_i perror oc p rs rt (Short v) = Ok [iword k (reg_num rs) (reg_num rt) ((- v) mod 65536)].
Proof.
  intros I V oc. assert (A : 0 <= reg_num rs < 32) by apply reg_num_range. assert (B : 0 <= reg_num rt < 32) by apply reg_num_range.
  assert (M := Z.mod_pos_bound (- v) 65536 ltac:(lia)). assert (F := sub_field v V). assert (N := neg_small oc v V).
  cbn [In] in I. decompose [or] I; try contradiction;
  match goal with H : _ = (p, k) |- _ => injection H as <- <- end;
  cbn [enc_i imm_as_u32 obind]; rewrite ?N; cbn [obind]; rewrite F; do 2 f_equal; unfold iword; lor_sum; lia.
Qed.
