(** * NativeProofs: one source line with a native instruction (proofs only). *)

From Coq Require Import Lia.
From Verif Require Import Lib SpecIsa StrLemmas NumLemmas DecodeProofs TextProofs OperandProofs SpecText.

(** ** Sums of fields *)

Lemma lor_mod0 a b k : 0 <= k -> a mod 2 ^ k = 0 -> b mod 2 ^ k = 0 -> Z.lor a b mod 2 ^ k = 0.
Proof.
  intros K A B. rewrite <- Z.land_ones in * by exact K. rewrite Z.land_comm, Z.land_lor_distr_r.
  rewrite !(Z.land_comm (Z.ones k)). rewrite A, B. reflexivity.
Qed.
Lemma mul_mod0 a j k : 0 <= k <= j -> (a * 2 ^ j) mod 2 ^ k = 0.
Proof.
  intros K. replace j with ((j - k) + k) by lia. rewrite Z.pow_add_r by lia. rewrite Z.mul_assoc. apply Z_mod_mult.
Qed.
Lemma shl5 n k : 0 <= n < 32 -> 0 <= k <= 27 -> shl n k = n * 2 ^ k.
Proof.
  intros N K. apply shl_mul; try lia. assert (2 ^ k <= 2 ^ 27) by (apply Z.pow_le_mono_r; lia).
  assert (0 < 2 ^ k) by (apply Z.pow_pos_nonneg; lia). change (2 ^ 32) with (32 * 2 ^ 27). nia.
Qed.
Lemma shl6 n k : 0 <= n < 64 -> 0 <= k <= 26 -> shl n k = n * 2 ^ k.
Proof.
  intros N K. apply shl_mul; try lia. assert (2 ^ k <= 2 ^ 26) by (apply Z.pow_le_mono_r; lia).
  assert (0 < 2 ^ k) by (apply Z.pow_pos_nonneg; lia). change (2 ^ 32) with (64 * 2 ^ 26). nia.
Qed.
Lemma shl_code n : 0 <= n < 65536 -> shl n 6 = n * 2 ^ 6.
Proof. intros N. apply shl_mul; lia. Qed.
Lemma reg_num_range r : 0 <= reg_num r < 32.
Proof. destruct r; cbn; lia. Qed.

Ltac lor_shl :=
  repeat match goal with |- context [shl ?n ?k] =>
    first [rewrite (shl6 n k) by lia | rewrite (shl_code n) by lia] end.
Ltac lor_div := repeat (apply lor_mod0; [lia| |]); apply mul_mod0; lia.
Ltac lor_sum :=
  lor_shl;
  repeat match goal with
  | |- context [Z.lor ?a ?b] =>
      lazymatch b with context [Z.lor _ _] => fail | _ => idtac end;
      lazymatch a with
      | Z.lor _ (_ * 2 ^ ?j) => rewrite (lor_add a b j); [|lia|lia|lor_div]
      | _ * 2 ^ ?j => rewrite (lor_add a b j); [|lia|lia|lor_div]
      end
  end.

(** ** Parsing monad *)

Lemma mbind_ok {A B} (a : A) (f : A -> M B) : mbind (lift (Ok a)) f = f a.
Proof. unfold mbind, lift. now destruct (f a). Qed.
Lemma mbind_w {A B} w (a : A) (f : A -> M B) w' r : f a = (w', r) -> mbind (w, Ok a) f = (w ++ w', r).
Proof. intros E. unfold mbind. now rewrite E. Qed.

Lemma find_ext' {A} (p q : A -> bool) l : (forall x, p x = q x) -> find p l = find q l.
Proof. intros H. induction l as [|x l IH]; [reflexivity|]. cbn. now rewrite H, IH. Qed.
Lemma iop_of_letters a b : same_letters a b -> iop_of a = iop_of b.
Proof. intros E. unfold iop_of, iop_from_str, eq_ignore_case. now rewrite E. Qed.
Lemma jop_of_letters a b : same_letters a b -> jop_of a = jop_of b.
Proof. intros E. unfold jop_of, jop_from_str, eq_ignore_case. now rewrite E. Qed.
Lemma rop_of_letters a b : same_letters a b -> rop_of a = rop_of b.
Proof. intros E. unfold rop_of, rop_from_str, eq_ignore_case. now rewrite E. Qed.

(** ** Warnings *)

Lemma find_sub_infix a p b : find_sub p (a ++ p ++ b) <> None.
Proof.
  assert (S : forall q r, starts_with q (q ++ r) = true).
  { induction q as [|c q IH]; intros r; [reflexivity|]. cbn. now rewrite Ascii.eqb_refl, IH. }
  induction a as [|c a IH].
  - cbn [app]. destruct (p ++ b) as [|c r] eqn:E; cbn [find_sub].
    + destruct p; [discriminate|discriminate E].
    + rewrite <- E, S. discriminate.
  - cbn [app find_sub]. destruct (starts_with p (c :: a ++ p ++ b)); [discriminate|].
    destruct (find_sub p (a ++ p ++ b)); [discriminate|congruence].
Qed.
Lemma fmt_line_ok num content margin eu msg fs underline : find_sub underline content <> None ->
  exists t, fmt_line num content margin eu msg fs underline = Ok t.
Proof. intros H. unfold fmt_line. destruct (find_sub underline content); [eauto|congruence]. Qed.
Lemma trim_in s : find_sub (trim s) s <> None.
Proof. destruct (trim_decomp s) as (a & b & E & _). rewrite E at 2. apply find_sub_infix. Qed.

(** The current line is in the input, and if there is an instruction there is a line before. *)
Definition ready (e : env) (s : pstate) (raw : str) : Prop :=
  nth_error (e_input e) (p_line s - 1) = Some raw /\ (p_insts s <> [] -> (2 <= p_line s)%nat).

(** The delay-slot warning of a line with a branch or jump. *)
Definition delay_warning (e : env) (s : pstate) (raw : str) : list pwarning :=
  match rev (p_insts s) with
  | (_, last) :: _ =>
      if has_delay_slot last
      then match nth_error (e_input e) (p_line s - 2) with
           | Some prev => [WDelaySlot (mk_line (p_line s - 1) prev) (mk_line (p_line s) raw)]
           | None => []
           end
      else []
  | [] => []
  end.

Lemma check_delay_ok e s raw : ready e s raw -> check_delay e s = (delay_warning e s raw, Ok tt).
Proof.
  intros [N L]. unfold check_delay, delay_warning. destruct (rev (p_insts s)) as [|[k last] r] eqn:R; [reflexivity|].
  assert (Ne : p_insts s <> []) by (intros E; rewrite E in R; discriminate). specialize (L Ne).
  destruct (has_delay_slot last); [|reflexivity]. unfold get_line at 1. rewrite N. cbn [obind].
  destruct (p_line s - 1)%nat as [|m] eqn:M1; [lia|]. unfold get_line.
  replace (S m - 1)%nat with m by lia. replace (p_line s - 2)%nat with m by lia.
  destruct (nth_error (e_input e) m) as [prev|] eqn:P.
  2:{ exfalso. apply nth_error_None in P. assert (nth_error (e_input e) (S m) <> None) by congruence.
      apply nth_error_Some in H. lia. }
  cbn [obind warn]. unfold show_warning.
  destruct (fmt_line_ok (p_line s) raw (margin_of (S m)) false #"this instruction cannot be in a delay slot" true (trim raw)) as [t1 E1];
    [apply trim_in|].
  destruct (fmt_line_ok (S m) prev (margin_of (S m)) true #"delay slot occurs after this instruction" false (trim prev)) as [t2 E2];
    [apply trim_in|].
  rewrite E1. cbn [obind]. rewrite E2. cbn [obind]. reflexivity.
Qed.

(** ** One lemma per operand list *)

Section Groups.
Variables (e : env) (s : pstate).

Lemma areg_ok x t n : padded t x -> gpr_text t n -> areg e s x = lift (Ok (reg_of_num n)).
Proof. intros P G. unfold areg, arg_reg. now rewrite (reg_parse x t n). Qed.
Lemma unwrap_ok x t n : padded t x -> gpr_text t n -> arg_reg_unwrap x = Ok (reg_of_num n).
Proof. intros P G. unfold arg_reg_unwrap. now rewrite (reg_parse x t n). Qed.
Lemma afreg_ok x t n : padded t x -> fpr_text t n -> afreg e s x = lift (Ok (freg_of_num n)).
Proof. intros P G. unfold afreg, arg_freg. now rewrite (freg_parse x t n). Qed.
Lemma ac0reg_ok x t n : padded t x -> cop0_text t n -> arg_c0reg e s x = Ok (c0reg_of_num n).
Proof. intros P G. unfold arg_c0reg. now rewrite (c0reg_parse x t n). Qed.

(** No label looks like a number. *)
Definition labels_ok : Prop :=
  forall l k, assoc l (p_labels s) = Some k ->
    match l with c :: _ => is_digit c = false /\ c <> "-"%char | [] => False end.

Lemma digit_is_digit c d : digit 10 c d -> is_digit c = true.
Proof.
  intros [R [H|H]]; assert (L : (Z.to_nat d < 10)%nat) by lia; revert L H; generalize (Z.to_nat d) as k; intros k L H;
    do 10 (destruct k as [|k]; [injection H as <-; reflexivity|]); lia.
Qed.
Lemma digits_head radix t v : digits radix t v -> forall c, hd_error t = Some c -> exists d, digit radix c d.
Proof.
  induction 1 as [c d D|t v c d D IH Dc]; intros x Hx.
  - injection Hx as <-. eauto.
  - destruct t as [|y t]; [injection Hx as <-; eauto|]. apply IH. exact Hx.
Qed.
Lemma digits_nonempty radix t v : digits radix t v -> t <> [].
Proof. induction 1; [discriminate|]. destruct s0; discriminate. Qed.
Lemma numeral_head t v : numeral t v -> exists c r, t = c :: r /\ is_digit c = true.
Proof.
  intros [t' v' D|t' v' D].
  - assert (N := digits_nonempty _ _ _ D). destruct t' as [|c r]; [congruence|]. exists c, r. split; [reflexivity|].
    destruct (digits_head _ _ _ D c eq_refl) as [d Dd]. now apply (digit_is_digit c d).
  - exists "0"%char, (#"x" ++ t'). split; reflexivity.
Qed.
Lemma labels_numeral t v : labels_ok -> signed_numeral t v -> assoc t (p_labels s) = None.
Proof.
  intros L N. destruct (assoc t (p_labels s)) as [k|] eqn:E; [|reflexivity]. exfalso. apply L in E.
  destruct N as [t v N|t v N].
  - destruct (numeral_head t v N) as (c & r & -> & D). destruct E as [E _]. congruence.
  - destruct E as [_ E]. now apply E.
Qed.

Lemma aimm_u t x text v : labels_ok -> padded text x -> numeral text v -> it_min t <= v <= it_max t ->
  aimm e s t x = lift (imm_new t v).
Proof.
  intros L P N R. unfold aimm. rewrite (parse_immediate_unsigned e s t x text v); auto.
  apply (labels_numeral text v L). now constructor.
Qed.
Lemma aimm_s t x text v : labels_ok -> padded text x -> signed_numeral text v -> it_signed t = true ->
  it_min t <= v <= it_max t -> aimm e s t x = lift (imm_new t v).
Proof.
  intros L P N G R. unfold aimm. rewrite (parse_immediate_signed e s t x text v); auto.
  now apply (labels_numeral text v L).
Qed.
Lemma aimm_u16 x text v : labels_ok -> padded text x -> numeral text v -> 0 <= v < 65536 ->
  aimm e s u16 x = lift (Ok (Short v)).
Proof.
  intros L P N R. rewrite (aimm_u u16 x text v) by (auto; change (it_min u16) with 0; change (it_max u16) with 65535; lia).
  unfold imm_new. change (it_bits u16 =? 16) with true. cbn iota. unfold wrap. rewrite Z.mod_small by lia. reflexivity.
Qed.
Lemma aimm_i16 x text v : labels_ok -> padded text x -> signed_numeral text v -> -32768 <= v < 32768 ->
  aimm e s i16 x = lift (Ok (Short (v mod 65536))).
Proof.
  intros L P N R. rewrite (aimm_s i16 x text v) by (auto; change (it_min i16) with (-32768); change (it_max i16) with 32767; lia).
  reflexivity.
Qed.

Variables (op arg : str).

Ltac go := unfold parse_op; match goal with H : classify _ = _ |- _ => rewrite H; clear H end.
Ltac step := repeat (match goal with E : ?x = lift (Ok _) |- context [?x] => rewrite E end || rewrite mbind_ok).

Lemma g_reg3 p x1 x2 x3 a b c : classify (trim (to_lower op)) = Some GReg3 -> rop_of op = Ok p ->
  areg e s x1 = lift (Ok a) -> areg e s x2 = lift (Ok b) -> areg e s x3 = lift (Ok c) ->
  parse_op e s op arg [x1; x2; x3] = lift (Ok (IReg p b c a 0 [])).
Proof. intros C P A1 A2 A3. go. unfold parse_reg3. rewrite P. now step. Qed.
Lemma g_shiftv p x1 x2 x3 a b c : classify (trim (to_lower op)) = Some GShiftV -> rop_of op = Ok p ->
  areg e s x1 = lift (Ok a) -> areg e s x2 = lift (Ok b) -> areg e s x3 = lift (Ok c) ->
  parse_op e s op arg [x1; x2; x3] = lift (Ok (IReg p c b a 0 [])).
Proof. intros C P A1 A2 A3. go. unfold parse_shiftv. rewrite P. now step. Qed.
Lemma g_shift p x1 x2 x3 a b v : classify (trim (to_lower op)) = Some GShift -> rop_of op = Ok p ->
  areg e s x1 = lift (Ok a) -> areg e s x2 = lift (Ok b) -> parse_sa (trim x3) = Ok v ->
  parse_op e s op arg [x1; x2; x3] = lift (Ok (IReg p reg_null b a v [])).
Proof. intros C P A1 A2 A3. go. unfold parse_shift. rewrite P, A3. now step. Qed.
Lemma g_reg2 p x1 x2 a b : classify (trim (to_lower op)) = Some GReg2 -> rop_of op = Ok p ->
  areg e s x1 = lift (Ok a) -> areg e s x2 = lift (Ok b) ->
  parse_op e s op arg [x1; x2] = lift (Ok (IReg p a b reg_null 0 [])).
Proof. intros C P A1 A2. go. unfold parse_reg2. rewrite P. now step. Qed.
Lemma g_move p x1 x2 a b : classify (trim (to_lower op)) = Some GMove -> rop_of op = Ok p ->
  areg e s x1 = lift (Ok a) -> areg e s x2 = lift (Ok b) ->
  parse_op e s op arg [x1; x2] = lift (Ok (IReg p b reg_null a 0 [])).
Proof. intros C P A1 A2. go. unfold parse_move. rewrite P. now step. Qed.
Lemma g_div2 p x1 x2 a b : classify (trim (to_lower op)) = Some GDiv -> rop_of op = Ok p ->
  areg e s x1 = lift (Ok a) -> areg e s x2 = lift (Ok b) ->
  parse_op e s op arg [x1; x2] = lift (Ok (IReg p b reg_null a 0 [])).
Proof. intros C P A1 A2. go. unfold parse_div. rewrite P. now step. Qed.
Lemma g_div3 p x1 x2 x3 a b c : classify (trim (to_lower op)) = Some GDiv -> rop_of op = Ok p ->
  areg e s x1 = lift (Ok a) -> areg e s x2 = lift (Ok b) -> areg e s x3 = lift (Ok c) ->
  parse_op e s op arg [x1; x2; x3] = lift (Ok (IReg p b c a 0 [])).
Proof. intros C P A1 A2 A3. go. unfold parse_div. rewrite P. now step. Qed.
Lemma g_plain p xs : classify (trim (to_lower op)) = Some GPlain \/ classify (trim (to_lower op)) = Some GTlb ->
  rop_of op = Ok p ->
  parse_op e s op arg xs = lift (Ok (IReg p reg_null reg_null reg_null 0 [])).
Proof. intros [C|C] P; go; unfold parse_plain; rewrite P; now step. Qed.
Lemma g_rd p x a : classify (trim (to_lower op)) = Some GRd -> rop_of op = Ok p -> areg e s x = lift (Ok a) ->
  parse_op e s op arg [x] = lift (Ok (IReg p reg_null reg_null a 0 [])).
Proof. intros C P A. go. unfold parse_rd. rewrite P. now step. Qed.
Lemma g_rs p x a : classify (trim (to_lower op)) = Some GRs -> str_eqb (trim (to_lower op)) #"jr" = false ->
  rop_of op = Ok p -> areg e s x = lift (Ok a) ->
  parse_op e s op arg [x] = lift (Ok (IReg p a reg_null reg_null 0 [])).
Proof. intros C N P A. go. unfold parse_rs. rewrite N, P. now step. Qed.
Lemma g_jr w p x a : classify (trim (to_lower op)) = Some GRs -> str_eqb (trim (to_lower op)) #"jr" = true ->
  rop_of op = Ok p -> areg e s x = lift (Ok a) -> check_delay e s = (w, Ok tt) ->
  parse_op e s op arg [x] = (w, Ok (IReg p a reg_null reg_null 0 [])).
Proof. intros C N P A D. go. unfold parse_rs. rewrite N, P, D. rewrite <- (app_nil_r w) at 2. apply mbind_w. now step. Qed.
Lemma g_jalr1 w p x a : classify (trim (to_lower op)) = Some GJalr -> rop_of op = Ok p -> areg e s x = lift (Ok a) ->
  check_delay e s = (w, Ok tt) -> parse_op e s op arg [x] = (w, Ok (IReg p a reg_null Ra 0 [])).
Proof. intros C P A D. go. unfold parse_jalr. rewrite P, D. rewrite <- (app_nil_r w) at 2. apply mbind_w. now step. Qed.
Lemma g_jalr2 w p x y a b : classify (trim (to_lower op)) = Some GJalr -> rop_of op = Ok p ->
  areg e s x = lift (Ok a) -> areg e s y = lift (Ok b) ->
  check_delay e s = (w, Ok tt) -> parse_op e s op arg [x; y] = (w, Ok (IReg p b reg_null a 0 [])).
Proof. intros C P A B D. go. unfold parse_jalr. rewrite P, D. rewrite <- (app_nil_r w) at 2. apply mbind_w. now step. Qed.
Lemma g_code p x v : classify (trim (to_lower op)) = Some GCode -> rop_of op = Ok p -> x <> [] ->
  aimm e s u16 (trim x) = lift (Ok (Short v)) ->
  parse_op e s op arg [x] = lift (Ok (IReg p reg_null reg_null reg_null v [])).
Proof.
  intros C P N A. go. unfold parse_code. rewrite P. destruct x as [|c x]; [congruence|]. step. now step.
Qed.
Lemma g_code0 p : classify (trim (to_lower op)) = Some GCode -> rop_of op = Ok p ->
  parse_op e s op arg [[]] = lift (Ok (IReg p reg_null reg_null reg_null 0 [])).
Proof. intros C P. go. unfold parse_code. rewrite P. now step. Qed.
Lemma g_imm3s p x1 x2 x3 a b v : classify (trim (to_lower op)) = Some GImm3 -> iop_of op = Ok p ->
  str_eqb op #"andi" || str_eqb op #"ori" || str_eqb op #"xori" = false ->
  areg e s x1 = lift (Ok a) -> areg e s x2 = lift (Ok b) -> aimm e s i16 x3 = lift (Ok v) ->
  parse_op e s op arg [x1; x2; x3] = lift (Ok (IImm p b a v [])).
Proof. intros C P N A1 A2 A3. go. unfold parse_imm3. rewrite P, N. now step. Qed.
Lemma g_imm3u p x1 x2 x3 a b v : classify (trim (to_lower op)) = Some GImm3 -> iop_of op = Ok p ->
  str_eqb op #"andi" || str_eqb op #"ori" || str_eqb op #"xori" = true ->
  areg e s x1 = lift (Ok a) -> areg e s x2 = lift (Ok b) -> aimm e s u16 x3 = lift (Ok v) ->
  parse_op e s op arg [x1; x2; x3] = lift (Ok (IImm p b a v [])).
Proof. intros C P N A1 A2 A3. go. unfold parse_imm3. rewrite P, N. now step. Qed.
Lemma g_imm2 p x1 x2 a v : classify (trim (to_lower op)) = Some GImm2 -> iop_of op = Ok p ->
  areg e s x1 = lift (Ok a) -> aimm e s u16 x2 = lift (Ok v) ->
  parse_op e s op arg [x1; x2] = lift (Ok (IImm p reg_null a v [])).
Proof. intros C P A1 A3. go. unfold parse_imm2. rewrite P. now step. Qed.
Lemma g_trapi p x1 x2 a v : classify (trim (to_lower op)) = Some GTrapImm -> iop_of op = Ok p ->
  areg e s x1 = lift (Ok a) -> aimm e s i16 x2 = lift (Ok v) ->
  parse_op e s op arg [x1; x2] = lift (Ok (IImm p a reg_null v [])).
Proof. intros C P A1 A3. go. unfold parse_trap_imm. rewrite P. now step. Qed.
Lemma g_cop0 p x1 x2 a b : classify (trim (to_lower op)) = Some GCop0 -> rop_of op = Ok p ->
  areg e s x1 = lift (Ok a) -> arg_c0reg e s x2 = Ok b ->
  parse_op e s op arg [x1; x2] = lift (Ok (IReg p reg_null a (c0reg_to_reg b) 0 [])).
Proof. intros C P A1 A2. go. unfold parse_cop0. rewrite P, A2. now step. Qed.
Lemma g_cop1 p x1 x2 a b : classify (trim (to_lower op)) = Some GCop1 -> rop_of op = Ok p ->
  areg e s x1 = lift (Ok a) -> afreg e s x2 = lift (Ok b) ->
  parse_op e s op arg [x1; x2] = lift (Ok (IReg p reg_null a (freg_to_reg b) 0 [])).
Proof. intros C P A1 A2. go. unfold parse_cop1. rewrite P. now step. Qed.

(** Memory operands. *)
Lemma g_mem p x1 x a off b t : classify (trim (to_lower op)) = Some GMem -> iop_of op = Ok p ->
  str_eqb (trim (to_lower op)) #"cache" = false -> arg_reg_unwrap x1 = Ok a ->
  labels_ok -> padded t x -> operand_spelling Mem (OMem off b) t -> no_nl x -> -32768 <= off < 32768 ->
  parse_op e s op arg [x1; x] = lift (Ok (IImm p (reg_of_num b) a (Short (off mod 65536)) [])).
Proof.
  intros C P N A L Pd Sp Nl R. go. unfold parse_mem. rewrite N, A, mbind_ok.
  destruct (mem_operand x off b t Pd Sp Nl) as (o & o' & r & So & Po & F & Oo & Bt & Rg).
  rewrite Bt, mbind_ok. unfold arg_reg_unwrap. rewrite Rg, mbind_ok. rewrite F, P, mbind_ok, firstn_open.
  rewrite (aimm_i16 o' o off) by auto. now rewrite mbind_ok.
Qed.
Lemma g_cache p x1 t1 v x off b t : classify (trim (to_lower op)) = Some GMem -> iop_of op = Ok p ->
  str_eqb (trim (to_lower op)) #"cache" = true ->
  labels_ok -> padded t1 x1 -> numeral t1 v -> 0 <= v < 32 ->
  padded t x -> operand_spelling Mem (OMem off b) t -> no_nl x -> -32768 <= off < 32768 ->
  parse_op e s op arg [x1; x] = lift (Ok (IImm p (reg_of_num b) (reg_of_num v) (Short (off mod 65536)) [])).
Proof.
  intros C P N L P1 N1 R1 Pd Sp Nl R. go. unfold parse_mem. rewrite N.
  rewrite (aimm_u16 x1 t1 v) by (auto; lia). rewrite mbind_ok. cbn [imm_as_u32]. rewrite mbind_ok.
  assert (T : reg_try_from v = Ok (reg_of_num v)) by (enum5 R1; reflexivity). rewrite T, mbind_ok.
  destruct (mem_operand x off b t Pd Sp Nl) as (o & o' & r & So & Po & F & Oo & Bt & Rg).
  rewrite Bt, mbind_ok. unfold arg_reg_unwrap. rewrite Rg, mbind_ok. rewrite F, P, mbind_ok, firstn_open.
  rewrite (aimm_i16 o' o off) by auto. now rewrite mbind_ok.
Qed.
Lemma g_fmem p x1 x a off b t : classify (trim (to_lower op)) = Some GFMem -> iop_of op = Ok p ->
  afreg e s x1 = lift (Ok a) ->
  labels_ok -> padded t x -> operand_spelling Mem (OMem off b) t -> no_nl x -> -32768 <= off < 32768 ->
  parse_op e s op arg [x1; x] = lift (Ok (IImm p (reg_of_num b) (freg_to_reg a) (Short (off mod 65536)) [])).
Proof.
  intros C P A L Pd Sp Nl R. go. unfold parse_fmem. rewrite A, mbind_ok.
  destruct (mem_operand x off b t Pd Sp Nl) as (o & o' & r & So & Po & F & Oo & Bt & Rg).
  rewrite Bt, mbind_ok. unfold areg at 1, arg_reg. rewrite Rg, mbind_ok. rewrite F, P, mbind_ok.
  rewrite remove_open by exact Oo.
  rewrite (aimm_i16 o' o off) by auto. now rewrite mbind_ok.
Qed.

(** Jumps. *)
Lemma g_jump w w2 p x t tgt : classify (trim (to_lower op)) = Some GJump -> jop_of op = Ok p ->
  check_delay e s = (w, Ok tt) -> trim x = t -> parse_target e s t = Ok tgt -> check_jump e s tgt t = (w2, Ok tt) ->
  parse_op e s op arg [x] = (w ++ w2, Ok (IJump p tgt [])).
Proof.
  intros C P D T Pt Cj. go. unfold parse_jump. rewrite D. apply mbind_w. cbv zeta. rewrite T, Pt, mbind_ok, Cj, P.
  rewrite <- (app_nil_r w2) at 2. apply mbind_w. now step.
Qed.

(** Floating point. *)
Lemma g_float3 p x1 x2 x3 a b c : classify (trim (to_lower op)) = None -> (2 <= List.length op)%nat ->
  mem_str (firstn (List.length op - 2) (to_lower op)) float3_names = true -> rop_of op = Ok p ->
  afreg e s x1 = lift (Ok a) -> afreg e s x2 = lift (Ok b) -> afreg e s x3 = lift (Ok c) ->
  parse_op e s op arg [x1; x2; x3] = lift (Ok (IReg p (freg_to_reg b) (freg_to_reg c) (freg_to_reg a) 0 [])).
Proof.
  intros C L F P A1 A2 A3. go. unfold parse_float. destruct (Nat.ltb_spec (List.length op) 2); [lia|].
  cbv zeta. rewrite F, P. now step.
Qed.
Lemma g_float2 p x1 x2 a b : classify (trim (to_lower op)) = None -> (2 <= List.length op)%nat ->
  mem_str (firstn (List.length op - 2) (to_lower op)) float3_names = false ->
  mem_str (firstn (List.length op - 2) (to_lower op)) float2_names = true -> rop_of op = Ok p ->
  afreg e s x1 = lift (Ok a) -> afreg e s x2 = lift (Ok b) ->
  parse_op e s op arg [x1; x2] = lift (Ok (IReg p (freg_to_reg b) reg_null (freg_to_reg a) 0 [])).
Proof.
  intros C L F F2 P A1 A2. go. unfold parse_float. destruct (Nat.ltb_spec (List.length op) 2); [lia|].
  cbv zeta. rewrite F, F2, P. now step.
Qed.
Lemma g_floatc p x1 x2 a b cond v : classify (trim (to_lower op)) = None -> (2 <= List.length op)%nat ->
  mem_str (firstn (List.length op - 2) (to_lower op)) float3_names = false ->
  mem_str (firstn (List.length op - 2) (to_lower op)) float2_names = false ->
  starts_with #"c." (firstn (List.length op - 2) (to_lower op)) = true ->
  rop_of (#"C." ++ match rev op with c :: _ => [c] | [] => [] end) = Ok p ->
  nth_error (split_char "." op) 1 = Some cond -> assoc (to_lower cond) fcond_table = Some v ->
  afreg e s x1 = lift (Ok a) -> afreg e s x2 = lift (Ok b) ->
  parse_op e s op arg [x1; x2] = lift (Ok (IReg p (freg_to_reg a) (freg_to_reg b) reg_null v [])).
Proof.
  intros C L F F2 F3 P N Cv A1 A2. go. unfold parse_float. destruct (Nat.ltb_spec (List.length op) 2); [lia|].
  cbv zeta. rewrite F, F2, F3, P. step. rewrite N. unfold parse_float_cond. rewrite Cv. now step.
Qed.
End Groups.
