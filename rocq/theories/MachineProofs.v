(** * MachineProofs: lemmas about the machine of [SpecMachine] (proofs only). *)

From Coq Require Import Lia.
From Verif Require Import Str SpecIsa SpecMachine.

(** ** Instruction words *)

Definition rword (rs rt rd sa fn : Z) : Z := rs * 2 ^ 21 + rt * 2 ^ 16 + rd * 2 ^ 11 + sa * 2 ^ 6 + fn.
Definition iword (op rs rt imm : Z) : Z := op * 2 ^ 26 + rs * 2 ^ 21 + rt * 2 ^ 16 + imm.

Lemma field_split hi v lo pos width : 0 <= pos -> 0 <= width -> 0 <= lo < 2 ^ pos -> 0 <= v < 2 ^ width ->
  field (hi * 2 ^ (pos + width) + v * 2 ^ pos + lo) pos width = v.
Proof.
  intros P W L V. unfold field. replace (hi * 2 ^ (pos + width) + v * 2 ^ pos + lo) with (lo + (hi * 2 ^ width + v) * 2 ^ pos)
    by (rewrite Z.pow_add_r by lia; ring).
  assert (0 < 2 ^ pos) by lia. rewrite Z.div_add by lia. rewrite (Z.div_small lo) by lia. rewrite Z.add_0_l.
  rewrite Z.add_comm, Z.mod_add by lia. apply Z.mod_small. lia.
Qed.

Lemma field_is w h v l pos width : w = h * 2 ^ (pos + width) + v * 2 ^ pos + l -> 0 <= pos -> 0 <= width -> 0 <= l < 2 ^ pos -> 0 <= v < 2 ^ width ->
  field w pos width = v.
Proof. intros -> P W L V. now apply field_split. Qed.

Lemma exec_rword odd rs rt rd sa fn st : 0 <= rs < 32 -> 0 <= rt < 32 -> 0 <= rd < 32 -> 0 <= sa < 32 -> 0 <= fn < 64 ->
  exec odd (rword rs rt rd sa fn) st = exec_special odd rs rt rd sa fn (rd * 32 + sa) st.
Proof.
  intros A B C D F. unfold exec.
  assert (E0 : field (rword rs rt rd sa fn) 26 6 = 0).
  { apply (field_is _ 0 0 (rs * 2 ^ 21 + rt * 2 ^ 16 + rd * 2 ^ 11 + sa * 2 ^ 6 + fn)); unfold rword; lia. }
  assert (E1 : field (rword rs rt rd sa fn) 21 5 = rs).
  { apply (field_is _ 0 rs (rt * 2 ^ 16 + rd * 2 ^ 11 + sa * 2 ^ 6 + fn)); unfold rword; lia. }
  assert (E2 : field (rword rs rt rd sa fn) 16 5 = rt).
  { apply (field_is _ rs rt (rd * 2 ^ 11 + sa * 2 ^ 6 + fn)); unfold rword; lia. }
  assert (E3 : field (rword rs rt rd sa fn) 11 5 = rd).
  { apply (field_is _ (rs * 2 ^ 5 + rt) rd (sa * 2 ^ 6 + fn)); unfold rword; lia. }
  assert (E4 : field (rword rs rt rd sa fn) 6 5 = sa).
  { apply (field_is _ (rs * 2 ^ 10 + rt * 2 ^ 5 + rd) sa fn); unfold rword; lia. }
  assert (E5 : field (rword rs rt rd sa fn) 0 6 = fn).
  { apply (field_is _ (rs * 2 ^ 15 + rt * 2 ^ 10 + rd * 2 ^ 5 + sa) fn 0); unfold rword; lia. }
  assert (E6 : field (rword rs rt rd sa fn) 6 10 = rd * 32 + sa).
  { apply (field_is _ (rs * 2 ^ 5 + rt) (rd * 32 + sa) fn); unfold rword; lia. }
  rewrite E0, E1, E2, E3, E4, E5, E6. reflexivity.
Qed.

Lemma exec_iword odd op rs rt imm st : 0 < op < 64 -> 0 <= rs < 32 -> 0 <= rt < 32 -> 0 <= imm < 65536 ->
  exec odd (iword op rs rt imm) st = exec_normal op rs rt imm st.
Proof.
  intros A B C D. unfold exec.
  assert (E0 : field (iword op rs rt imm) 26 6 = op).
  { apply (field_is _ 0 op (rs * 2 ^ 21 + rt * 2 ^ 16 + imm)); unfold iword; lia. }
  assert (E1 : field (iword op rs rt imm) 21 5 = rs).
  { apply (field_is _ op rs (rt * 2 ^ 16 + imm)); unfold iword; lia. }
  assert (E2 : field (iword op rs rt imm) 16 5 = rt).
  { apply (field_is _ (op * 2 ^ 5 + rs) rt imm); unfold iword; lia. }
  assert (E3 : field (iword op rs rt imm) 0 16 = imm).
  { apply (field_is _ (op * 2 ^ 10 + rs * 2 ^ 5 + rt) imm 0); unfold iword; lia. }
  rewrite E0, E1, E2, E3. destruct (op =? 0) eqn:Z0; [apply Z.eqb_eq in Z0; lia|]. reflexivity.
Qed.

(** ** Registers *)

Lemma value_write st r v x : value (write st r v) x = if x =? 0 then 0 else if x =? r then v else value st x.
Proof. unfold value, write. cbn. destruct (x =? 0); [reflexivity|]. now destruct (x =? r). Qed.
Lemma value_hilo st h l x : value (write_hilo st h l) x = value st x.
Proof. reflexivity. Qed.
Lemma value_0 st : value st 0 = 0.
Proof. reflexivity. Qed.
Lemma hi_write st r v : hi (write st r v) = hi st. Proof. reflexivity. Qed.
Lemma lo_write st r v : lo (write st r v) = lo st. Proof. reflexivity. Qed.

(** ** Straight-line execution *)

Section Runs.
Variable odd : Z -> Z.

Fixpoint straight (ws : list Z) (st : state) : option state :=
  match ws with
  | [] => Some st
  | w :: ws => match exec odd w st with Next st' => straight ws st' | _ => None end
  end.

Lemma cycles_add n m code c : cycles odd (n + m) code c = cycles odd m code (cycles odd n code c).
Proof. revert c. induction n as [|n IH]; intros c; [reflexivity|]. cbn [cycles Nat.add]. apply IH. Qed.

Lemma cycle_at code pc npc st w : 0 <= pc -> nth_error code (Z.to_nat pc) = Some w ->
  cycle odd code (At pc npc st) =
    match exec odd w st with
    | Next st' => At npc (npc + 1) st'
    | Branch true _ off => At npc (pc + 1 + off) st
    | Branch false false _ => At npc (npc + 1) st
    | Branch false true _ => At (npc + 1) (npc + 2) st
    | Raise x => Raised x st
    | Undefined => Lost
    end.
Proof. intros P N. unfold cycle. destruct (pc <? 0) eqn:L; [apply Z.ltb_lt in L; lia|]. now rewrite N. Qed.

Lemma straight_from ws : forall before after st st', straight ws st = Some st' ->
  let k := Z.of_nat (List.length before) in
  cycles odd (List.length ws) (before ++ ws ++ after) (At k (k + 1) st)
  = At (k + Z.of_nat (List.length ws)) (k + Z.of_nat (List.length ws) + 1) st'.
Proof.
  induction ws as [|w ws IH]; intros before after st st' H k.
  - cbn in H. injection H as ->. cbn. f_equal; lia.
  - cbn [straight] in H. destruct (exec odd w st) as [st1| | |] eqn:E; try discriminate.
    cbn [List.length cycles]. rewrite (cycle_at _ k (k + 1) st w); [|unfold k; lia|].
    + rewrite E. assert (G := IH (before ++ [w]) after st1 st' H). cbn zeta in G. rewrite app_length in G. cbn [List.length] in G.
      rewrite <- !app_assoc in G. cbn [app] in G. unfold k.
      replace (Z.of_nat (List.length before) + 1) with (Z.of_nat (List.length before + 1)) by lia. rewrite app_comm_cons in G.
      cbn [app] in G |- *. rewrite G. f_equal; lia.
    + unfold k. rewrite Nat2Z.id. rewrite nth_error_app2 by lia. now rewrite Nat.sub_diag.
Qed.
Lemma straight_finishes ws st st' : straight ws st = Some st' -> finishes odd ws st st'.
Proof.
  intros H. exists (List.length ws). assert (G := straight_from ws [] [] st st' H). cbn in G. rewrite app_nil_r in G. exact G.
Qed.
Lemma straight_raises ws1 w ws2 st st1 x : straight ws1 st = Some st1 -> exec odd w st1 = Raise x -> raises odd (ws1 ++ w :: ws2) st x.
Proof.
  intros H E. exists (List.length ws1 + 1)%nat, st1. rewrite cycles_add.
  assert (G := straight_from ws1 [] (w :: ws2) st st1 H). cbn [app List.length] in G. cbn zeta in G.
  change (Z.of_nat 0) with 0 in G. change (0 + 1) with 1 in G. rewrite G. cbn [cycles].
  rewrite (cycle_at _ _ _ _ w); [now rewrite E|lia|]. rewrite Z.add_0_l, Nat2Z.id, nth_error_app2 by lia. now rewrite Nat.sub_diag.
Qed.
End Runs.

(** ** Values *)

Lemma low32_range v : 0 <= low32 v < 2 ^ 32.
Proof. unfold low32. apply Z.mod_pos_bound. lia. Qed.
Lemma low64_range v : 0 <= low64 v < 2 ^ 64.
Proof. unfold low64. apply Z.mod_pos_bound. lia. Qed.
Lemma signed32_range v : - 2 ^ 31 <= signed32 v < 2 ^ 31.
Proof. unfold signed32. assert (H := low32_range v). destruct (low32 v <? 2 ^ 31) eqn:E; lia. Qed.
Lemma signed64_range v : 0 <= v < 2 ^ 64 -> - 2 ^ 63 <= signed64 v < 2 ^ 63.
Proof. intros H. unfold signed64. destruct (v <? 2 ^ 63) eqn:E; lia. Qed.
Lemma signed32_mod v : signed32 v mod 2 ^ 32 = v mod 2 ^ 32.
Proof.
  unfold signed32. assert (H := low32_range v). destruct (low32 v <? 2 ^ 31) eqn:E.
  - rewrite Z.mod_small by lia. reflexivity.
  - replace (low32 v - 2 ^ 32) with (low32 v + (-1) * 2 ^ 32) by lia. rewrite Z.mod_add by lia. unfold low32. now rewrite Z.mod_mod by lia.
Qed.
Lemma signed64_mod v : signed64 v mod 2 ^ 64 = v mod 2 ^ 64.
Proof.
  unfold signed64. destruct (v <? 2 ^ 63); [reflexivity|].
  replace (v - 2 ^ 64) with (v + (-1) * 2 ^ 64) by lia. now rewrite Z.mod_add by lia.
Qed.
Lemma signed32_cong a b : a mod 2 ^ 32 = b mod 2 ^ 32 -> signed32 a = signed32 b.
Proof. intros E. unfold signed32, low32. now rewrite E. Qed.
Lemma word32_cong a b : a mod 2 ^ 32 = b mod 2 ^ 32 -> word32 a = word32 b.
Proof. intros E. unfold word32. now rewrite (signed32_cong a b E). Qed.
Lemma signed32_small v : - 2 ^ 31 <= v < 2 ^ 31 -> signed32 v = v.
Proof.
  intros H. unfold signed32, low32. destruct (Z_lt_le_dec v 0).
  - replace (v mod 2 ^ 32) with (v + 2 ^ 32).
    + destruct (v + 2 ^ 32 <? 2 ^ 31) eqn:E; lia.
    + rewrite <- (Z.mod_add v 1) by lia. rewrite Z.mod_small; lia.
  - rewrite Z.mod_small by lia. destruct (v <? 2 ^ 31) eqn:E; lia.
Qed.
Lemma low64_mod32 v : low64 v mod 2 ^ 32 = v mod 2 ^ 32.
Proof. unfold low64. change (2 ^ 64) with (2 ^ 32 * 2 ^ 32). rewrite Z.rem_mul_r by lia. rewrite Z.mul_comm, Z.mod_add by lia. now rewrite Z.mod_mod by lia. Qed.
Lemma word32_mod v : word32 v mod 2 ^ 32 = v mod 2 ^ 32.
Proof. unfold word32. rewrite low64_mod32. apply signed32_mod. Qed.
Lemma signed32_word v : signed32 (word32 v) = signed32 v.
Proof. apply signed32_cong, word32_mod. Qed.
Lemma word32_word v : word32 (word32 v) = word32 v.
Proof. apply word32_cong, word32_mod. Qed.
Lemma word32_range v : 0 <= word32 v < 2 ^ 64.
Proof. apply low64_range. Qed.
Lemma signed64_low v : - 2 ^ 63 <= v < 2 ^ 63 -> signed64 (low64 v) = v.
Proof.
  intros H. unfold signed64, low64. destruct (Z_lt_le_dec v 0).
  - replace (v mod 2 ^ 64) with (v + 2 ^ 64).
    + destruct (v + 2 ^ 64 <? 2 ^ 63) eqn:E; lia.
    + rewrite <- (Z.mod_add v 1) by lia. rewrite Z.mod_small; lia.
  - rewrite Z.mod_small by lia. destruct (v <? 2 ^ 63) eqn:E; lia.
Qed.
Lemma signed64_word v : signed64 (word32 v) = signed32 v.
Proof. unfold word32. apply signed64_low. assert (H := signed32_range v). lia. Qed.
Lemma low64_small v : 0 <= v < 2 ^ 64 -> low64 v = v.
Proof. intros H. unfold low64. apply Z.mod_small. lia. Qed.
Lemma low64_signed v : 0 <= v < 2 ^ 64 -> low64 (signed64 v) = v.
Proof. intros H. unfold low64. rewrite signed64_mod. apply Z.mod_small. lia. Qed.
Lemma low64_cong a b : a mod 2 ^ 64 = b mod 2 ^ 64 -> low64 a = low64 b.
Proof. intros E. exact E. Qed.

Lemma lxor_ones v : 0 <= v < 2 ^ 64 -> Z.lxor v (2 ^ 64 - 1) = 2 ^ 64 - 1 - v.
Proof.
  intros H. change (2 ^ 64 - 1) with (Z.ones 64).
  assert (L : Z.ldiff v (Z.ones 64) = 0).
  { apply Z.bits_inj'. intros n N. rewrite Z.ldiff_spec, Z.bits_0. destruct (Z_lt_le_dec n 64).
    - rewrite Z.ones_spec_low by lia. apply andb_false_r.
    - replace v with (v mod 2 ^ 64) by (apply Z.mod_small; lia). rewrite Z.mod_pow2_bits_high by lia. reflexivity. }
  rewrite Z.sub_nocarry_ldiff by exact L.
  apply Z.bits_inj'. intros n N. rewrite Z.lxor_spec, Z.ldiff_spec. destruct (Z_lt_le_dec n 64).
  - rewrite Z.ones_spec_low by lia. now destruct (Z.testbit v n).
  - rewrite Z.ones_spec_high by lia. replace v with (v mod 2 ^ 64) by (apply Z.mod_small; lia). rewrite Z.mod_pow2_bits_high by lia. reflexivity.
Qed.
Lemma lxor_range a b k : 0 <= k -> 0 <= a < 2 ^ k -> 0 <= b < 2 ^ k -> 0 <= Z.lxor a b < 2 ^ k.
Proof.
  intros K A B. assert (E : Z.lxor a b = Z.lxor a b mod 2 ^ k).
  { apply Z.bits_inj'. intros n N. destruct (Z_lt_le_dec n k).
    - now rewrite Z.mod_pow2_bits_low by lia.
    - rewrite Z.mod_pow2_bits_high by lia. rewrite Z.lxor_spec.
      rewrite <- (Z.mod_small a (2 ^ k)), <- (Z.mod_small b (2 ^ k)) by lia. rewrite !Z.mod_pow2_bits_high by lia. reflexivity. }
  rewrite E. apply Z.mod_pos_bound. lia.
Qed.
Lemma lor_disjoint a b k : 0 <= k -> 0 <= b < 2 ^ k -> a mod 2 ^ k = 0 -> Z.lor a b = a + b.
Proof.
  intros K B A. rewrite Z.add_nocarry_lxor.
  - symmetry. apply Z.lxor_lor. apply Z.bits_inj'. intros n N. rewrite Z.land_spec, Z.bits_0. destruct (Z_lt_le_dec n k).
    + rewrite <- (Z.mod_pow2_bits_low a k n) by lia. now rewrite A, Z.bits_0.
    + rewrite <- (Z.mod_small b (2 ^ k)) by lia. rewrite Z.mod_pow2_bits_high by lia. apply andb_false_r.
  - apply Z.bits_inj'. intros n N. rewrite Z.land_spec, Z.bits_0. destruct (Z_lt_le_dec n k).
    + rewrite <- (Z.mod_pow2_bits_low a k n) by lia. now rewrite A, Z.bits_0.
    + rewrite <- (Z.mod_small b (2 ^ k)) by lia. rewrite Z.mod_pow2_bits_high by lia. apply andb_false_r.
Qed.

(** ** The end of an execution is determined *)
Section Ends.
Variable odd : Z -> Z.
Lemma cycles_raised n ws x st : cycles odd n ws (Raised x st) = Raised x st.
Proof. induction n as [|n IH]; [reflexivity|exact IH]. Qed.
Lemma cycles_lost n ws : cycles odd n ws Lost = Lost.
Proof. induction n as [|n IH]; [reflexivity|exact IH]. Qed.
Lemma cycle_end ws npc st : cycle odd ws (At (Z.of_nat (List.length ws)) npc st) = Lost.
Proof.
  cbn [cycle]. destruct (Z.ltb_spec (Z.of_nat (List.length ws)) 0) as [|_]; [reflexivity|].
  rewrite Nat2Z.id. replace (nth_error ws (List.length ws)) with (@None Z); [reflexivity|]. symmetry. now apply nth_error_None.
Qed.
Lemma cycles_end n ws npc st c : cycles odd n ws (At (Z.of_nat (List.length ws)) npc st) = c -> c = Lost \/ n = O.
Proof. intros <-. destruct n as [|n]; [now right|left]. cbn [cycles]. rewrite cycle_end. apply cycles_lost. Qed.
Lemma finishes_unique ws st a b : finishes odd ws st a -> finishes odd ws st b -> a = b.
Proof.
  intros [n A] [k B]. destruct (Nat.le_ge_cases n k) as [L|L].
  - replace k with (n + (k - n))%nat in B by lia. rewrite cycles_add, A in B. destruct (cycles_end _ _ _ _ _ B) as [E|E]; [discriminate|].
    rewrite E in B. cbn [cycles] in B. now injection B.
  - replace n with (k + (n - k))%nat in A by lia. rewrite cycles_add, B in A. destruct (cycles_end _ _ _ _ _ A) as [E|E]; [discriminate|].
    rewrite E in A. cbn [cycles] in A. now injection A.
Qed.
Lemma finishes_not_raises ws st a x : finishes odd ws st a -> raises odd ws st x -> False.
Proof.
  intros [n A] (k & st' & B). destruct (Nat.le_ge_cases n k) as [L|L].
  - replace k with (n + (k - n))%nat in B by lia. rewrite cycles_add, A in B. destruct (cycles_end _ _ _ _ _ B) as [E|E]; [discriminate|].
    rewrite E in B. discriminate B.
  - replace n with (k + (n - k))%nat in A by lia. rewrite cycles_add, B, cycles_raised in A. discriminate A.
Qed.
End Ends.
