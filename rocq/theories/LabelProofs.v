(** * LabelProofs: branches and jumps inside programs (proofs only). *)

From Coq Require Import Lia.
From Verif Require Import Lib SpecIsa StrLemmas NumLemmas DecodeProofs TextProofs OperandProofs NativeProofs LineProofs ScanProofs ProgProofs AsmProofs MachineProofs
  PseudoProofs BranchProofs SpecText SpecProgram SpecLabels.

(** ** One line of a program that assembles *)

Record at_line (rt : runtime) (m : mipsasm) (input : str) (out : list inst) (l1 : list str) (raw : str) (s1 sf : pstate) : Prop := mk_at_line {
  al_ready : ready (mk_parser rt m input) (bump s1) raw;
  al_before : p_labels s1 = label_table 0 l1;
  al_labels : p_labels sf = label_table 0 (lines input);
  al_nodup : NoDup (map fst (label_table 0 (lines input)));
  al_good : forall n k, In (n, k) (label_table 0 (lines input)) -> good_label n;
  al_count : List.length (p_insts sf) = instruction_count (lines input);
  al_inst : clean raw <> [] -> ends_with #":" (clean raw) = false ->
    forall w i, parse_inst (mk_parser rt m input) (bump s1) (clean raw) = (w, Ok i) ->
    exists i1 i', adjust_one (mk_parser rt m input) sf (instruction_count l1) (S (List.length l1)) i = Ok (i1, [])
      /\ @assemble_inst perror (rt_oc rt) i1 = Ok i' /\ nth_error out (instruction_count l1) = Some i'
}.

Lemma at_line_intro rt m input out l1 raw l2 : assemble rt m input = Ok out -> lines input = l1 ++ raw :: l2 ->
  exists s1 sf, at_line rt m input out l1 raw s1 sf.
Proof.
  intros A Ei. apply assemble_ok in A as (s & is1 & As). set (e := mk_parser rt m input) in *.
  assert (N := nl_of_lines input).
  destruct (assembled_at e _ s is1 out l1 raw l2 N As Ei) as (s1 & S1 & E1 & L1 & P1 & T1 & X).
  destruct (assembled_labels e _ s is1 out N As) as (Lb & Nd & G & C & _).
  exists s1, (final e s). constructor; auto.
  - apply (after_ready e l1 raw l2); [exact Ei|]. split; [exact P1|]. rewrite L1. apply instruction_count_le.
  - destruct (final_same e s) as (F & _). now rewrite F.
  - intros Ne Ec w i P. rewrite (role_native raw Ne Ec) in X. destruct X as (w' & i0 & i1 & i' & o1 & o2 & P' & _ & Ad & Ai & -> & Lo & _).
    fold e in P. rewrite P in P'. apply pair_equal_spec in P' as [_ P']. injection P' as <-. exists i1, i'. split; [exact Ad|]. split; [exact Ai|].
    rewrite nth_error_app2 by lia. rewrite Lo, Nat.sub_diag. reflexivity.
Qed.

Lemma before_in l1 raw l2 n k : In (n, k) (label_table 0 l1) -> In (n, k) (label_table 0 (l1 ++ raw :: l2)).
Proof. intros I. rewrite label_table_app. apply in_or_app. now left. Qed.
Lemma nodup_before l1 l : NoDup (map fst (label_table 0 (l1 ++ l))) -> NoDup (map fst (label_table 0 l1)).
Proof.
  rewrite label_table_app, map_app. generalize (map fst (label_table 0 l1)) as a, (map fst (label_table (0 + instruction_count l1) l)) as b.
  induction a as [|x a IH]; intros b H; [constructor|]. cbn in H. inversion H; subst. constructor; [|eauto]. intros I. apply H2. apply in_or_app. now left.
Qed.

Lemma get_line_ready e s raw : ready e s raw -> get_line e (p_line s) = Ok (mk_line (p_line s) raw).
Proof. intros [N _]. unfold get_line. now rewrite N. Qed.

(** ** Branches to labels *)

Theorem branch_to_label rt m input out l1 raw l2 f os n k : assemble rt m input = Ok out -> lines input = l1 ++ raw :: l2 ->
  In f (isa ++ idioms) -> branch_line f os n raw -> identifier n -> is_local n = false -> In (n, k) (label_table 0 l1) ->
  exists i, nth_error out (instruction_count l1) = Some i
    /\ inst_bytes i = [word f (os ++ [OInt (Z.of_nat k - (Z.of_nat (instruction_count l1) + 1))])].
Proof.
  intros A Ei If B Id Lc I. destruct (at_line_intro _ _ _ _ _ _ _ A Ei) as (s1 & sf & [Rd Lb Lf Nd Gd _ H]).
  assert (N : no_nl raw) by (apply (lines_no_nl input); rewrite Ei; apply in_or_app; right; now left).
  set (e := mk_parser rt m input) in *.
  assert (As : assoc n (p_labels (bump s1)) = Some k).
  { cbn [bump p_labels]. rewrite Lb. apply assoc_nodup; [|exact I]. rewrite Ei in Nd. now apply nodup_before in Nd. }
  assert (Af : assoc n (p_labels sf) = Some k).
  { rewrite Lf. apply assoc_nodup; [exact Nd|]. rewrite Ei. now apply before_in. }
  destruct (branch_line_parse e (bump s1) f os n raw (Label n) (fun _ => []) If B (identifier_operand n Id) N Rd) as (Ne & Ec & p & rs & r2 & x & P & Bo & _ & _ & En).
  { intros x Px _. split; [|reflexivity]. unfold aimm, parse_immediate. rewrite (identifier_trim n x Id Px). fold (is_local n). now rewrite Lc, As. }
  destruct (H Ne Ec _ _ P) as (i1 & i' & Ad & Ai & Ni). cbn [adjust_one] in Ad. rewrite Af in Ad. injection Ad as <-.
  exists i'. split; [exact Ni|]. set (d := Z.of_nat k - (Z.of_nat (instruction_count l1) + 1)) in *.
  destruct (En d (rt_oc rt)) as (i2 & Ai2 & Bi). unfold label_offset, wrap in Ai. fold d in Ai. change (2 ^ 16) with 65536 in Ai. rewrite Ai in Ai2. now injection Ai2 as <-.
Qed.

(** The offset field of a branch word. *)
Lemma low_field x d : field (x * 2 ^ 16 + d mod 65536) 0 16 = d mod 65536.
Proof.
  unfold field. rewrite Z.pow_0_r, Z.div_1_r. change 65536 with (2 ^ 16).
  rewrite Z.add_comm, Z.mod_add by lia. apply Z.mod_mod. lia.
Qed.
Lemma signed_mod d : -32768 <= d < 32768 -> signed16 (d mod 65536) = d.
Proof.
  intros R. unfold signed16. destruct (Z_lt_le_dec d 0).
  - rewrite <- (Z_mod_plus_full d 1). rewrite Z.mod_small by lia. destruct (Z.ltb_spec (d + 1 * 65536) 32768); lia.
  - rewrite Z.mod_small by lia. destruct (Z.ltb_spec d 32768); lia.
Qed.

(** Everything but the offset is a multiple of 2^16. *)
Lemma branch_keys : forallb (fun f => no_branch f || forallb (fun k => 16 <=? fst (fst k)) (f_key f)) (isa ++ idioms) = true.
Proof. vm_compute. reflexivity. Qed.
Lemma high_sum l : (forall x, In x l -> exists q, x = q * 2 ^ 16) -> exists q, sumZ l = q * 2 ^ 16.
Proof.
  induction l as [|x l IH]; intros H; [now exists 0|]. destruct (H x (or_introl eq_refl)) as [a ->].
  destruct IH as [b Eb]; [intros y I; apply H; now right|]. exists (a + b). cbn [sumZ fold_right]. unfold sumZ in Eb. rewrite Eb. lia.
Qed.
Lemma high_pow v p : 16 <= p -> exists q, v * 2 ^ p = q * 2 ^ 16.
Proof. intros P. exists (v * 2 ^ (p - 16)). rewrite <- Z.mul_assoc, <- Z.pow_add_r by lia. replace (p - 16 + 16) with p by lia. reflexivity. Qed.
Lemma sumZ_app a b : sumZ (a ++ b) = sumZ a + sumZ b.
Proof. induction a as [|x a IH]; [reflexivity|]. unfold sumZ in *. cbn [app fold_right]. rewrite IH. lia. Qed.
Lemma combine_app {A B} (a a' : list A) (b b' : list B) : List.length b = List.length a -> combine (a ++ a') (b ++ b') = combine a b ++ combine a' b'.
Proof. revert b. induction a as [|x a IH]; intros [|y b] L; try discriminate; [reflexivity|]. cbn. f_equal. apply IH. now injection L. Qed.
Lemma branch_field f os t raw d : In f (isa ++ idioms) -> branch_line f os t raw -> field (word f (os ++ [OInt d])) 0 16 = d mod 65536.
Proof.
  intros If (ks & ts & FO & Len & Sp & _).
  assert (B : no_branch f = false).
  { unfold no_branch. rewrite FO, forallb_app. cbn. now rewrite andb_false_r. }
  destruct (proj1 (Forall_forall _ _) isa_branches f If) as (ks' & p & FO' & _ & K & _); [unfold is_branch; now rewrite B|].
  rewrite FO in FO'. apply app_inj_tail in FO' as [<- _].
  assert (KW : exists q, key_word (f_key f) = q * 2 ^ 16).
  { assert (H := proj1 (forallb_forall _ _) branch_keys f If). cbv beta in H. rewrite B in H. cbn [orb] in H. rewrite forallb_forall in H.
    apply high_sum. intros x I. apply in_map_iff in I as ([[p0 n0] v0] & <- & I). apply H in I. cbn in I. apply high_pow. lia. }
  assert (OW : exists q, ops_word (f_ops f) (os ++ [OInt d]) = q * 2 ^ 16 + d mod 65536).
  { unfold ops_word. rewrite FO, combine_app, map_app, sumZ_app by exact Len. cbn [combine map fst snd place sumZ fold_right].
    destruct (high_sum (map (fun ko : okind * operand => place (fst ko) (snd ko)) (combine ks os))) as [q E].
    - intros x I. apply in_map_iff in I as ([k o] & <- & I). cbn [fst snd]. apply in_combine_l in I. destruct (K k I) as [-> | ->]; unfold Rs, Rt; cbn [place];
        (destruct o; [apply high_pow; lia|exists 0; reflexivity|exists 0; reflexivity]).
    - exists q. rewrite E. lia. }
  destruct KW as [q1 E1], OW as [q2 E2]. unfold word. rewrite E1, E2. replace (q1 * 2 ^ 16 + (q2 * 2 ^ 16 + d mod 65536)) with ((q1 + q2) * 2 ^ 16 + d mod 65536) by lia.
  apply low_field.
Qed.

(** ** Addresses *)

Lemma address_0 base wss : address base wss 0 = base.
Proof. unfold address. cbn. lia. Qed.
Lemma address_step base wss k j : (k <= j <= List.length wss)%nat -> one_word_each wss k j -> address base wss j = address base wss k + 4 * (Z.of_nat j - Z.of_nat k).
Proof.
  intros [L J] H. unfold address. remember (j - k)%nat as n eqn:En. revert k L H En. induction n as [|n IH]; intros k L H En.
  - replace j with k by lia. lia.
  - assert (Hk : exists ws, nth_error wss k = Some ws).
    { destruct (nth_error wss k) eqn:E; [eauto|]. apply nth_error_None in E. lia. }
    destruct Hk as [ws Hk]. assert (L1 := H k ws ltac:(lia) Hk).
    assert (Sk : List.length (List.concat (firstn (S k) wss)) = (List.length (List.concat (firstn k wss)) + 1)%nat).
    { assert (F : firstn (S k) wss = firstn k wss ++ [ws]).
      { clear -Hk. revert k Hk. induction wss as [|x wss IH]; intros [|k] Hk; try discriminate; cbn in *; [now injection Hk as ->|]. f_equal. now apply IH. }
      rewrite F, List.concat_app, app_length. cbn. rewrite app_nil_r, L1. reflexivity. }
    rewrite (IH (S k)); [|lia|intros k' ws' R; apply H; lia|lia]. rewrite Sk. lia.
Qed.

(** ** Jumps *)

Lemma ck32_mod {E} oc v a : @ck32 E oc v = Ok a -> 0 <= a < 2 ^ 32 /\ a mod 2 ^ 28 = v mod 2 ^ 28.
Proof.
  unfold ck32. destruct ((0 <=? v) && (v <? 2 ^ 32)) eqn:R.
  - intros H. injection H as <-. split; [lia|reflexivity].
  - destruct oc; [discriminate|]. intros H. injection H as <-. unfold wrap. split; [apply Z.mod_pos_bound; lia|].
    change (2 ^ 32) with (2 ^ 28 * 16). rewrite Z.rem_mul_r by lia. rewrite Z.mul_comm, Z.mod_add by lia. apply Z.mod_mod. lia.
Qed.
Lemma wrap_mod v : wrap 32 v mod 2 ^ 28 = v mod 2 ^ 28.
Proof.
  unfold wrap. change (2 ^ 32) with (2 ^ 28 * 16). rewrite Z.rem_mul_r by lia. rewrite Z.mul_comm, Z.mod_add by lia. apply Z.mod_mod. lia.
Qed.

Theorem jump_in_program rt m input out l1 raw l2 name t tgt : assemble rt m input = Ok out -> lines input = l1 ++ raw :: l2 ->
  jump_line name t raw -> operand_ok t ->
  (forall s, p_labels s = label_table 0 l1 -> ready (mk_parser rt m input) s raw -> parse_target (mk_parser rt m input) s t = Ok tgt
     /\ exists w2, check_jump (mk_parser rt m input) s tgt t = (w2, Ok tt)) ->
  (forall a, tgt = TAddress a -> 0 <= a < 2 ^ 32) ->
  exists a i, (match tgt with
             | TAddress v => v = a
             | TLabel n => exists k, In (n, k) (label_table 0 (lines input)) /\ a mod 2 ^ 28 = (m_base m + 4 * Z.of_nat k) mod 2 ^ 28
             end)
    /\ nth_error out (instruction_count l1) = Some i
    /\ inst_bytes i = [(if str_eqb name #"j" then 2 else 3) * 2 ^ 26 + a mod 2 ^ 26 / 4].
Proof.
  intros A Ei J Ot H0 Rg. destruct (at_line_intro _ _ _ _ _ _ _ A Ei) as (s1 & sf & [Rd Lb Lf Nd Gd _ H]).
  assert (N : no_nl raw) by (apply (lines_no_nl input); rewrite Ei; apply in_or_app; right; now left).
  set (e := mk_parser rt m input) in *.
  destruct (H0 (bump s1) Lb Rd) as (Pt & w2 & Cj).
  destruct (jump_line_parse e (bump s1) name t raw tgt w2 J Ot N Rd Pt Cj) as (Ne & Ec & p & P & En).
  destruct (H Ne Ec _ _ P) as (i1 & i' & Ad & Ai & Ni). cbn [adjust_one] in Ad. destruct tgt as [n|v].
  - destruct (assoc n (p_labels sf)) as [k|] eqn:Ak; [|apply obind_ok in Ad as (? & _ & Ad); discriminate].
    apply obind_ok in Ad as (mm & M & Ad). apply obind_ok in Ad as (a & Ea & Ad). injection Ad as <-.
    apply ck32_mod in M as [_ M], Ea as [Ra Ea].
    exists a, i'. split.
    + exists k. split; [apply assoc_in in Ak; now rewrite Lf in Ak|]. rewrite Ea.
      rewrite Zplus_mod, M. rewrite (Zmult_mod (wrap 32 (Z.of_nat k))), wrap_mod, <- Zmult_mod, <- Zplus_mod.
      f_equal. change (e_base e) with (m_base m). lia.
    + split; [exact Ni|]. destruct (En a Ra (rt_oc rt)) as (i2 & Ai2 & Bi). rewrite Ai in Ai2. injection Ai2 as <-. exact Bi.
  - injection Ad as <-. exists v, i'. split; [reflexivity|]. split; [exact Ni|].
    destruct (En v (Rg v eq_refl) (rt_oc rt)) as (i2 & Ai2 & Bi). rewrite Ai in Ai2. injection Ai2 as <-. exact Bi.
Qed.

(** The field of a jump. *)
Lemma jump_word_field c v : 0 <= v < 2 ^ 26 -> field (c * 2 ^ 26 + v) 0 26 = v.
Proof.
  intros R. unfold field. rewrite Z.pow_0_r, Z.div_1_r, Z.add_comm, Z.mod_add by lia. apply Z.mod_small. lia.
Qed.
Lemma mod26 a : a mod 2 ^ 28 < 2 ^ 26 -> a mod 2 ^ 26 = a mod 2 ^ 28.
Proof.
  intros M. assert (X := Z.mod_pos_bound a (2 ^ 28) ltac:(lia)).
  rewrite (Z.div_mod a (2 ^ 28)) at 1 by lia. replace (2 ^ 28 * (a / 2 ^ 28) + a mod 2 ^ 28) with (a mod 2 ^ 28 + (4 * (a / 2 ^ 28)) * 2 ^ 26) by lia.
  rewrite Z.mod_add by lia. apply Z.mod_small. lia.
Qed.
Lemma mod26_cong a b : a mod 2 ^ 28 = b mod 2 ^ 28 -> a mod 2 ^ 26 = b mod 2 ^ 26.
Proof.
  intros E. rewrite (Z.div_mod a (2 ^ 28)), (Z.div_mod b (2 ^ 28)) by lia. rewrite E.
  replace (2 ^ 28 * (a / 2 ^ 28) + b mod 2 ^ 28) with (b mod 2 ^ 28 + (4 * (a / 2 ^ 28)) * 2 ^ 26) by lia.
  replace (2 ^ 28 * (b / 2 ^ 28) + b mod 2 ^ 28) with (b mod 2 ^ 28 + (4 * (b / 2 ^ 28)) * 2 ^ 26) by lia. now rewrite !Z.mod_add by lia.
Qed.
(** A jump word with the field of [a] lands on [a] when [a] is in the first 64 MiB of the segment. *)
Lemma jump_lands pc a c : a mod 4 = 0 -> (pc + 4) / 2 ^ 28 = a / 2 ^ 28 -> a mod 2 ^ 28 < 2 ^ 26 ->
  jump_target pc (c * 2 ^ 26 + a mod 2 ^ 26 / 4) = a.
Proof.
  intros A4 S M. unfold jump_target. assert (X := Z.mod_pos_bound a (2 ^ 28) ltac:(lia)).
  assert (R : 0 <= a mod 2 ^ 26 / 4 < 2 ^ 26).
  { assert (Y := Z.mod_pos_bound a (2 ^ 26) ltac:(lia)). split; [apply Z.div_pos; lia|apply Z.div_lt_upper_bound; lia]. }
  rewrite jump_word_field by exact R. rewrite S, (mod26 a M).
  assert (D : a mod 2 ^ 28 mod 4 = 0).
  { change (2 ^ 28) with (4 * 2 ^ 26). rewrite Z.rem_mul_r by lia. rewrite Z.mul_comm, Z.mod_add by lia. now rewrite Z.mod_mod by lia. }
  assert (E := Z.div_mod (a mod 2 ^ 28) 4 ltac:(lia)). assert (E2 := Z.div_mod a (2 ^ 28) ltac:(lia)). lia.
Qed.

(** ** Branches to numbers *)

Theorem branch_to_number rt m input out l1 raw l2 f os t a : assemble rt m input = Ok out -> lines input = l1 ++ raw :: l2 ->
  In f (isa ++ idioms) -> branch_line f os t raw -> numeral t a -> a < 2 ^ 32 ->
  exists i, nth_error out (instruction_count l1) = Some i
    /\ inst_bytes i = [word f (os ++ [OInt (Z.quot (a - (Z.of_nat (instruction_count l1) + 1)) 4)])].
Proof.
  intros A Ei If B Nu Ra. destruct (at_line_intro _ _ _ _ _ _ _ A Ei) as (s1 & sf & [Rd Lb Lf Nd Gd _ H]).
  assert (N : no_nl raw) by (apply (lines_no_nl input); rewrite Ei; apply in_or_app; right; now left).
  set (e := mk_parser rt m input) in *.
  assert (Ra0 : 0 <= a) by (now apply (numeral_nonneg t)).
  assert (Ot : operand_ok t) by (apply numeral_shape in Nu as (radix & ds & S & _); now apply (number_operand_ok _ _ _ _ S)).
  assert (As : assoc t (p_labels (bump s1)) = None).
  { destruct (assoc t (p_labels (bump s1))) as [k|] eqn:E; [|reflexivity]. apply assoc_in in E. cbn [bump p_labels] in E. rewrite Lb in E.
    assert (Gt := Gd t k). rewrite Ei in Gt. specialize (Gt (before_in _ _ _ _ _ E)).
    destruct (numeral_head t a Nu) as (c & r & -> & D). cbn in Gt. congruence. }
  destruct (branch_line_parse e (bump s1) f os t raw (Int a)
              (fun x => if negb (a mod 4 =? 0) then [WUnalignedBranch (mk_line (p_line (bump s1)) raw) x] else []) If B Ot N Rd) as (Ne & Ec & p & rs & r2 & x & P & Bo & _ & _ & En).
  { intros x Px Pr. split.
    - unfold aimm. rewrite (parse_immediate_unsigned e (bump s1) u32 x t a Px Nu As); [|change (it_min u32) with 0; change (it_max u32) with (2 ^ 32 - 1); lia].
      unfold imm_new. change (it_bits u32 =? 16) with false. change (it_bits u32 =? 32) with true. cbn iota. unfold wrap. rewrite Z.mod_small by lia. reflexivity.
    - unfold check_branch. cbn [imm_is_label imm_as_u32]. rewrite mbind_ok. destruct (negb (a mod 4 =? 0)); [|reflexivity].
      rewrite (get_line_ready e _ raw Rd). cbn [obind warn show_warning].
      destruct (fmt_line_ok (p_line (bump s1)) raw (margin_of (p_line (bump s1))) true #"offset is not divisible by 4" false x (part_find x raw Pr)) as [tx Ex].
      rewrite Ex. reflexivity. }
  destruct (H Ne Ec _ _ P) as (i1 & i' & Ad & Ai & Ni). cbn [adjust_one] in Ad. rewrite Bo in Ad. cbn [negb] in Ad.
  apply obind_ok in Ad as (bad & _ & Ad). apply obind_ok in Ad as (errs & _ & Ad). apply (f_equal (fun o => match o with Ok (i, _) => i | _ => i1 end)) in Ad.
  cbv beta iota in Ad. subst i1.
  exists i'. split; [exact Ni|]. set (d := Z.quot (a - (Z.of_nat (instruction_count l1) + 1)) 4) in *.
  destruct (En d (rt_oc rt)) as (i2 & Ai2 & Bi). unfold wrap in Ai. change (2 ^ 16) with 65536 in Ai. rewrite Ai in Ai2. now injection Ai2 as <-.
Qed.
