(** * PropsRegs: exactly the texts that are read as registers (C43). *)

From Coq Require Import Lia.
From Verif Require Import PanicProofs QuietProofs Lib SpecIsa StrLemmas NumLemmas DecodeProofs TextProofs OperandProofs NativeProofs LineProofs ScanProofs ProgProofs AsmProofs
  RegProofs SpecText SpecProgram SpecRegs.

(** ** C43  Register spellings *)

(** A floating-point register is read as the number of one of its readings, and any other text is
    rejected with one error. *)
Theorem C43_float : forall rt m x, named_symbols (m_syms m) -> token x ->
  (forall n, dollars fpr_reading x n -> exists out, assemble rt m (#"mfc1 $zero," ++ x) = Ok out /\ get_bytes out = [17 * 2 ^ 26 + n * 2 ^ 11])
  /\ ((forall n, ~ dollars fpr_reading x n) -> exists p, assemble rt m (#"mfc1 $zero," ++ x) = Err [p]).
Proof.
  intros rt m x Sy T. assert (W := proj2 (token_operand x T)). destruct (fpr_operand x W) as [A B]. assert (P := mfc1_parses x T). assert (N := mfc1_nl x T). split.
  - intros n D. assert (R := fpr_reading_range x n D). apply (parses_ok rt m _ _ _ (freg_of_num n) _ Sy N P (A n D)); [exact Logic.I|].
    clear - R. intros oc. enum5 R; eexists; (split; [vm_compute; reflexivity|reflexivity]).
  - intros H. destruct (freg_from_str x) as [r|t|q] eqn:E.
    + exfalso. exact (H _ (B r eq_refl)).
    + exact (parses_err rt m _ _ _ t N P eq_refl).
    + exfalso. exact (fpr_calm x q E).
Qed.

(** The same for coprocessor 0 registers. *)
Theorem C43_cop0 : forall rt m x, named_symbols (m_syms m) -> token x ->
  (forall n, dollars cop0_reading x n -> exists out, assemble rt m (#"mfc0 $zero," ++ x) = Ok out /\ get_bytes out = [16 * 2 ^ 26 + n * 2 ^ 11])
  /\ ((forall n, ~ dollars cop0_reading x n) -> exists p, assemble rt m (#"mfc0 $zero," ++ x) = Err [p]).
Proof.
  intros rt m x Sy T. assert (W := proj2 (token_operand x T)). destruct (cop0_operand x W) as [A B]. assert (P := mfc0_parses x T). assert (N := mfc0_nl x T). split.
  - intros n D. destruct (cop0_reading_name x n D) as [t R]. apply (parses_ok rt m _ _ _ (c0reg_of_num n) _ Sy N P (A n D)); [exact Logic.I|].
    intros oc. assert (K := cop0_range _ _ R). clear - R K. enum5 K; vm_compute in R; try discriminate R; eexists; (split; [vm_compute; reflexivity|reflexivity]).
  - intros H. destruct (c0reg_from_str x) as [r|t|q] eqn:E.
    + exfalso. exact (H _ (B r eq_refl)).
    + exact (parses_err rt m _ _ _ t N P eq_refl).
    + exfalso. exact (cop0_calm x q E).
Qed.

(** For general registers as well, except that a text with a small [r] and a digit in it panics,
    unless a number of 32 bits is all there is after [r]s at the front. *)
Theorem C43_general_partial : forall rt m x, named_symbols (m_syms m) -> token x ->
  (forall n, dollars gpr_reading x n -> exists out, assemble rt m (#"jr " ++ x) = Ok out /\ get_bytes out = [n * 2 ^ 21 + 8])
  /\ ((forall n, ~ dollars gpr_reading x n) -> (has_r_digit x -> r_number x) -> exists p, assemble rt m (#"jr " ++ x) = Err [p])
  /\ (has_r_digit x -> ~ r_number x -> exists q, assemble rt m (#"jr " ++ x) = Panic q).
Proof.
  intros rt m x Sy T. assert (W := proj2 (token_operand x T)). destruct (gpr_operand x W) as [A B]. assert (P := jr_parses x T). assert (N := jr_nl x T). split; [|split].
  - intros n D. assert (R := gpr_reading_range x n D). apply (parses_ok rt m _ _ _ (reg_of_num n) _ Sy N P (A n D)); [exact Logic.I|].
    clear - R. intros oc. enum5 R; eexists; (split; [vm_compute; reflexivity|reflexivity]).
  - intros H Hr. destruct (reg_from_str x) as [r|t|q] eqn:E.
    + exfalso. exact (H _ (B r eq_refl)).
    + exact (parses_err rt m _ _ _ t N P eq_refl).
    + exfalso. destruct (gpr_panics x q W E) as [X Y]. exact (Y (Hr X)).
  - intros X Y. destruct (gpr_not_panic x W X Y) as [q E]. exists q. exact (parses_panic rt m _ _ _ q N P E).
Qed.

(** ** The readings that are no spelling *)

(** The spellings of the convention are readings. *)
Theorem C43_spellings_read : forall x n, (gpr_text x n -> dollars gpr_reading x n) /\ (fpr_text x n -> dollars fpr_reading x n)
  /\ (cop0_text x n -> dollars cop0_reading x n).
Proof.
  assert (Un : forall n, 0 <= n < 32 -> digits 10 (dec n) n).
  { intros n R. apply digits_val_back; [|]; enum5 R; (discriminate || (vm_compute; reflexivity)). }
  assert (Ud : forall n, 0 <= n < 32 -> unsigned 10 (dec n) n) by (intros n R; exists [], (dec n); auto).
  assert (G : forall (tok : str -> Z -> Prop) (rd : str -> Z -> Prop) x n, (forall s, tok s n -> rd s n) -> dollar tok x n -> dollars rd x n).
  { intros tok rd x n H [T|(s & -> & T)]; [exists [], x|exists #"$", s]; auto. }
  intros x n. split; [|split]; intros T.
  - apply (G gpr_token); [|exact T]. intros s [n' s' R E|n' R|n' R]; [now apply gr_named|apply (gr_r #"r"); auto|apply gr_number; auto].
  - apply (G fpr_token); [|exact T]. intros s [n' s' R E|n' s' R E|n' R]; [now apply fr_named|now apply fr_f|apply fr_number; auto].
  - apply (G cop0_token); [|exact T]. intros s [n' s' t R E|n' t R]; [now apply (cr_named _ _ t)|apply (cr_number _ _ t); auto; apply Ud; eapply cop0_range; eauto].
Qed.

(** Hexadecimal digits without [0x]: [add.s $a, $b, $c] is [add.s $f10, $f11, $f12]; [mfc0 $zero, $a]
    reads register 10, and [mfc0 $zero, $1b] register 27. *)
Definition rt0 : runtime := mk_runtime false (fun l => l).
Theorem C43_hexadecimal_refuted :
  (forall n, ~ fpr_text #"$a" n)
  /\ exists a b, assemble rt0 m_new #"add.s $a, $b, $c" = Ok a /\ assemble rt0 m_new #"add.s $f10, $f11, $f12" = Ok b /\ get_bytes a = get_bytes b.
Proof.
  split.
  - intros n [T|(s & E & T)].
    + inversion T as [k s' R E|k s' R E|k R E]; subst; unfold same_letters in *; enum5 R; vm_compute in E; discriminate E.
    + injection E as <-. inversion T as [k s' R E|k s' R E|k R E]; subst; unfold same_letters in *; enum5 R; vm_compute in E; discriminate E.
  - eexists. eexists. split; [vm_compute; reflexivity|]. split; vm_compute; reflexivity.
Qed.

(** ** The hypotheses are met *)

Example C43_float_read : dollars fpr_reading #"$$FA0" 12 /\ dollars fpr_reading #"+012" 12 /\ dollars fpr_reading #"$c" 12 /\ dollars fpr_reading #"1F" 31.
Proof.
  repeat split.
  - exists #"$$", #"FA0". repeat split. apply fr_named; [lia|reflexivity].
  - exists [], #"+012". repeat split. apply fr_number; [lia|]. apply parse_unsigned; [now left|reflexivity].
  - exists #"$", #"c". repeat split. apply fr_hex; [lia|]. apply hex_not_dec; reflexivity.
  - exists [], #"1F". repeat split. apply fr_hex; [lia|]. apply hex_not_dec; reflexivity.
Qed.
Example C43_float_not : forall n, ~ dollars fpr_reading #"$f32" n.
Proof. intros n D. destruct (fpr_operand #"$f32" eq_refl) as [A _]. specialize (A n D). revert A. match goal with |- _ = Ok ?r -> _ => generalize r end. intros f A. vm_compute in A. discriminate A. Qed.
Example C43_cop0_not : forall n, ~ dollars cop0_reading #"$7" n.
Proof. intros n D. destruct (cop0_operand #"$7" eq_refl) as [A _]. specialize (A n D). revert A. match goal with |- _ = Ok ?r -> _ => generalize r end. intros f A. vm_compute in A. discriminate A. Qed.
Example C43_cop0_read : dollars cop0_reading #"STATUS" 12 /\ dollars cop0_reading #"$1b" 27.
Proof.
  split.
  - exists [], #"STATUS". repeat split. apply (cr_named _ _ #"Status"); reflexivity.
  - exists #"$", #"1b". repeat split. apply (cr_hex _ _ #"CacheError"); [reflexivity|]. apply hex_not_dec; reflexivity.
Qed.
Example C43_general_read : dollars gpr_reading #"$RA" 31 /\ dollars gpr_reading #"rr007" 7 /\ dollars gpr_reading #"R0" 0.
Proof.
  repeat split.
  - exists #"$", #"RA". repeat split. apply gr_named; [lia|reflexivity].
  - exists [], #"rr007". repeat split. apply (gr_r #"rr" #"007"); [lia|reflexivity|]. apply digits_val_back; [discriminate|reflexivity].
  - exists [], #"R0". repeat split. apply gr_upper.
Qed.
Example C43_general_not : forall n, ~ dollars gpr_reading #"r+5" n.
Proof. intros n D. destruct (gpr_operand #"r+5" eq_refl) as [A _]. specialize (A n D). revert A. match goal with |- _ = Ok ?r -> _ => generalize r end. intros f A. vm_compute in A. discriminate A. Qed.
Example C43_general_panics : has_r_digit #"ar1" /\ ~ r_number #"ar1".
Proof.
  split; [exists #"a", "1"%char, []; split; reflexivity|]. intros H.
  assert (E : reg_from_str #"ar1" = Panic "register number") by reflexivity. destruct (gpr_panics #"ar1" _ eq_refl E) as [_ N]. exact (N H).
Qed.

Print Assumptions C43_float.
Print Assumptions C43_cop0.
Print Assumptions C43_general_partial.
Print Assumptions C43_spellings_read.
Print Assumptions C43_hexadecimal_refuted.
