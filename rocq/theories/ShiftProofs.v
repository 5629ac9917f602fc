(** * ShiftProofs: shifts by any amount (proofs for C28). *)

From Coq Require Import Lia.
From Verif Require Import Lib SpecIsa StrLemmas NumLemmas DecodeProofs TextProofs OperandProofs NativeProofs LineProofs ScanProofs ProgProofs AsmProofs MachineProofs
  PseudoProofs BranchProofs LabelProofs HalfProofs SpacingProofs CongProofs ErrorProofs ImmProofs ImmLines PropsAsm SpecErrors SpecText SpecProgram SpecLabels SpecLines SpecImm.

(** A line whose reading panics makes every program with it panic. *)
Lemma panics_of rt m input l1 raw l2 : lines input = l1 ++ raw :: l2 -> clean raw <> [] -> ends_with #":" (clean raw) = false ->
  (forall e s, exists w q, parse_inst e s (clean raw) = (w, Panic q)) -> exists q, assemble rt m input = Panic q.
Proof.
  intros Ei Ne Ec H. destruct (assemble rt m input) as [out|es|q] eqn:A; [| |now exists q]; exfalso;
  (destruct (read_to_end rt m input ltac:(intros q; rewrite A; discriminate)) as (s & is1 & errs & Sc & _ & Er);
   assert (N := nl_of_lines input); set (e := mk_parser rt m input) in *;
   destruct (sound_at e s l1 raw l2 N Ei Sc) as (s1 & f1 & x & f2 & _ & So1 & Fx & So);
   destruct (H e (bump s1)) as (w & q & P); assert (R := role_native raw Ne Ec);
   destruct Fx as [R'|k R' O|k c r R' Ek D|k j fl R' G As Nj|w' i' R' Pi|w' p' R' Pi El Ek]; rewrite R in R'; try discriminate;
     rewrite P in Pi; apply pair_equal_spec in Pi as [_ Pi]; discriminate).
Qed.

(** Reading the amount. *)
Lemma parse_sa_signed x text v : padded text x -> signed_numeral text v ->
  if (- 2 ^ 31 <=? v) && (v <? 2 ^ 31) then parse_sa (trim x) = Ok (v mod 2 ^ 32) else exists q, parse_sa (trim x) = Panic q.
Proof.
  intros P N. destruct (signed_numeral_shape _ _ N) as (neg & radix & ds & S & u & V & U & Ev).
  destruct (number_operand_ok _ _ _ _ S) as (_ & _ & T1 & T2). rewrite (padded_trim _ _ P T1 T2).
  assert (NT : forall c, In c text -> c <> "`"%char).
  { intros c I. now apply number_char_facts, (number_chars _ _ _ _ _ S). }
  assert (IR : in_range i32 v = if (- 2 ^ 31 <=? v) && (v <? 2 ^ 31) then Some v else None).
  { unfold in_range. change (it_min i32) with (- 2 ^ 31). change (it_max i32) with (2 ^ 31 - 1).
    destruct (Z.leb_spec (- 2 ^ 31) v), (Z.leb_spec v (2 ^ 31 - 1)), (Z.ltb_spec v (2 ^ 31)); try reflexivity; lia. }
  assert (R : parse_sa text = do! w <- unwrap "shift amount" (parse_int i32 radix ((if neg then #"-" else []) ++ ds)); Ok (wrap 32 w)).
  { unfold parse_sa. rewrite ends_with_tick by exact NT. rewrite (number_contains _ _ _ _ S). cbn [orb].
    assert (Q : radix = 10 \/ radix = 16) by (now inversion S). destruct Q as [-> | ->].
    - change (negb (10 =? 16)) with true. cbn iota. rewrite drop_end_tick by exact NT.
      assert (E : text = (if neg then #"-" else []) ++ ds) by (inversion S; reflexivity). now rewrite E.
    - change (negb (16 =? 16)) with false. cbn iota. now rewrite (number_remove _ _ _ _ S). }
  assert (Q : all_hex ds /\ ds <> []) by (now inversion S). destruct Q as (A & Nn).
  rewrite R, (parse_int_signed i32 radix ds u neg A Nn V) by reflexivity. rewrite <- Ev, IR.
  destruct (_ && _); [reflexivity|]. eexists. reflexivity.
Qed.

(** The word of a shift by any amount. *)
Definition shift_ops : list rop := [R_Sll; R_Srl; R_Sra; R_Dsll; R_Dsrl; R_Dsra; R_Dsll32; R_Dsrl32; R_Dsra32].
Lemma shl6_any v : shl (v mod 2 ^ 32) 6 = v mod 2 ^ 26 * 2 ^ 6.
Proof.
  unfold shl, wrap. rewrite Z.shiftl_mul_pow2 by lia. change (2 ^ 32) with (2 ^ 26 * 2 ^ 6) at 2. rewrite Z.mul_mod_distr_r by lia. f_equal.
  change (2 ^ 32) with (2 ^ 26 * 2 ^ 6). rewrite Z.rem_mul_r by lia. rewrite Z.mul_comm, Z.mod_add by lia. apply Z.mod_mod. lia.
Qed.
Lemma shift_word rd r v o : 0 <= rd < 32 -> 0 <= r < 32 -> 0 <= o < 64 ->
  Z.lor (Z.lor (Z.lor (shl (reg_num (reg_of_num r)) 16) (shl (reg_num (reg_of_num rd)) 11)) (shl (v mod 2 ^ 32) 6)) o = Z.lor (r * 2 ^ 16 + rd * 2 ^ 11) (v mod 2 ^ 26 * 2 ^ 6) + o.
Proof.
  intros D R O. rewrite !reg_num_of_num by assumption. rewrite (shl6 r 16), (shl6 rd 11), shl6_any by lia.
  rewrite (lor_add (r * 2 ^ 16) (rd * 2 ^ 11) 16); [|lia|lia|apply Z.mod_mul; lia].
  apply (lor_add _ o 6); [lia|lia|]. apply lor_mod0; [lia| |apply Z.mod_mul; lia].
  replace (r * 2 ^ 16 + rd * 2 ^ 11) with ((r * 2 ^ 10 + rd * 2 ^ 5) * 2 ^ 6) by lia. apply Z.mod_mul. lia.
Qed.

Lemma shift_reading name o : In (name, o) shifts -> exists p, classify (trim (to_lower (lit name))) = Some GShift /\ rop_of (lit name) = Ok p /\ name_ok (lit name) /\ 0 <= o < 64
  /\ forall rd r v, 0 <= rd < 32 -> 0 <= r < 32 -> enc_r p reg_null (reg_of_num r) (reg_of_num rd) (v mod 2 ^ 32) = [Z.lor (r * 2 ^ 16 + rd * 2 ^ 11) (v mod 2 ^ 26 * 2 ^ 6) + o].
Proof.
  intros I.
  assert (S0 : forall rd r v, 0 <= rd < 32 -> 0 <= r < 32 -> enc_r R_Sll reg_null (reg_of_num r) (reg_of_num rd) (v mod 2 ^ 32) = [Z.lor (r * 2 ^ 16 + rd * 2 ^ 11) (v mod 2 ^ 26 * 2 ^ 6) + 0]).
  { intros rd r v D R. rewrite <- (shift_word rd r v 0 D R) by lia. rewrite Z.lor_0_r. reflexivity. }
  cbn [shifts In] in I.
  repeat destruct I as [I|I]; try contradiction; injection I as <- <-;
  [exists R_Sll|exists R_Srl|exists R_Sra|exists R_Dsll|exists R_Dsrl|exists R_Dsra|exists R_Dsll32|exists R_Dsrl32|exists R_Dsra32];
  (split; [reflexivity|]; split; [reflexivity|]; split; [apply name_okb_ok; reflexivity|]; split; [lia|]);
  [exact S0|intros rd r v D R; rewrite <- (shift_word rd r v _ D R) by lia; reflexivity..].
Qed.

Section Shift.
Variables (name : string) (o : Z) (d t x l : str) (rd r v : Z).
Hypothesis (I : In (name, o) shifts) (D : gpr_text d rd) (T : gpr_text t r) (X : signed_numeral x v) (N : no_nl l) (L : instruction_line (lit name) [d; t; x] l).

Lemma shift_parse e s : exists w y, clean l <> [] /\ ends_with #":" (clean l) = false /\ padded x y /\
  parse_inst e s (clean l) = (w, match parse_sa (trim y) with Ok a => match rop_of (lit name) with Ok p => Ok (IReg p reg_null (reg_of_num r) (reg_of_num rd) a []) | Err q => Err q | Panic q => Panic q end | Err q => Err q | Panic q => Panic q end).
Proof.
  destruct (shift_reading name o I) as (p & C & P & Nm & _ & _).
  assert (F : Forall operand_ok [d; t; x]).
  { apply Forall_cons; [exact (gpr_operand _ _ D)|]. apply Forall_cons; [exact (gpr_operand _ _ T)|]. apply Forall_cons; [|apply Forall_nil].
    apply signed_numeral_shape in X as (neg & radix & ds & Sh & _). exact (number_operand_ok _ _ _ _ Sh). }
  destruct (line_parse_parts e s (lit name) [d; t; x] l Nm F N L) as (op & arg & xs & SL & Ar & Ne & Ec & Pi).
  destruct Ar as [(E & _)|(_ & Ar)]; [discriminate E|].
  inversion Ar as [|? x1 ? ? [P1 _] A1]; subst. inversion A1 as [|? x2 ? ? [P2 _] A2]; subst. inversion A2 as [|? x3 ? ? [P3 _] A3]; subst. inversion A3; subst.
  exists [], x3. split; [exact Ne|]. split; [exact Ec|]. split; [exact P3|].
  rewrite Pi. unfold parse_op. rewrite (lower_trim _ _ SL), C. unfold parse_shift.
  rewrite (areg_ok e s x1 d rd P1 D), mbind_ok, (areg_ok e s x2 t r P2 T), mbind_ok, (rop_of_letters _ _ SL), P, mbind_ok.
  destruct (parse_sa (trim x3)); reflexivity.
Qed.

Theorem shift_writes rt m : - 2 ^ 31 <= v < 2 ^ 31 -> writes rt m l [Z.lor (r * 2 ^ 16 + rd * 2 ^ 11) (v mod 2 ^ 26 * 2 ^ 6) + o].
Proof.
  intros R. destruct (shift_reading name o I) as (p & C & P & Nm & _ & En).
  destruct (shift_parse (mk_env [] 0 [] false (fun x => x)) init_state) as (_ & _ & Ne & Ec & _).
  apply writes_of; auto. intros e s _ _ Rd Nl. destruct (shift_parse e s) as (w & y & _ & _ & Py & Pi).
  assert (Q := parse_sa_signed y x v Py X). replace ((- 2 ^ 31 <=? v) && (v <? 2 ^ 31)) with true in Q by (symmetry; apply andb_true_iff; split; [apply Z.leb_le|apply Z.ltb_lt]; lia).
  rewrite Q, P in Pi. eexists. eexists. split; [exact Pi|]. split; [exact Logic.I|]. apply encodes_r. apply En; eapply gpr_range; eassumption.
Qed.
Theorem shift_panics rt m input l1 l2 : ~ - 2 ^ 31 <= v < 2 ^ 31 -> lines input = l1 ++ l :: l2 -> exists q, assemble rt m input = Panic q.
Proof.
  intros R E. destruct (shift_parse (mk_env [] 0 [] false (fun x => x)) init_state) as (_ & _ & Ne & Ec & _).
  apply (panics_of rt m input l1 l l2 E Ne Ec). intros e s. destruct (shift_parse e s) as (w & y & _ & _ & Py & Pi).
  assert (Q := parse_sa_signed y x v Py X). replace ((- 2 ^ 31 <=? v) && (v <? 2 ^ 31)) with false in Q by (destruct (Z.leb_spec (- 2 ^ 31) v), (Z.ltb_spec v (2 ^ 31)); try reflexivity; lia).
  destruct Q as [q Q]. rewrite Q in Pi. now exists w, q.
Qed.
End Shift.
