(** * WordProofs: every assembled word is a 32-bit word (proofs only). *)

From Coq Require Import Lia.
From Verif Require Import Lib SpecIsa StrLemmas NumLemmas TextProofs OperandProofs NativeProofs LineProofs ScanProofs ProgProofs AsmProofs
  SpecText SpecProgram.

(** ** Words under the bit operators *)

Lemma word_lor a b : is_word a -> is_word b -> is_word (Z.lor a b).
Proof.
  unfold is_word. intros [A A'] [B B']. split; [now apply Z.lor_nonneg|].
  destruct (Z.eq_dec (Z.lor a b) 0) as [->|N]; [reflexivity|].
  assert (0 < Z.lor a b) by (assert (0 <= Z.lor a b) by (now apply Z.lor_nonneg); lia).
  apply Z.log2_lt_pow2; [assumption|]. rewrite Z.log2_lor by assumption.
  apply Z.max_lub_lt.
  - destruct (Z.eq_dec a 0) as [->|]; [reflexivity|]. apply Z.log2_lt_pow2; lia.
  - destruct (Z.eq_dec b 0) as [->|]; [reflexivity|]. apply Z.log2_lt_pow2; lia.
Qed.
Lemma word_wrap v : is_word (wrap 32 v).
Proof. apply Z.mod_pos_bound. reflexivity. Qed.
Lemma word_shl a k : is_word (shl a k).
Proof. apply word_wrap. Qed.
Lemma word_shr a k : is_word a -> 0 <= k -> is_word (shr a k).
Proof.
  unfold is_word, shr. intros [A B] K. rewrite Z.shiftr_div_pow2 by exact K. assert (0 < 2 ^ k) by (apply Z.pow_pos_nonneg; lia).
  split; [apply Z.div_pos; lia|]. apply Z.div_lt_upper_bound; [lia|]. nia.
Qed.
Lemma word_land a b : is_word a -> is_word (Z.land a b).
Proof.
  intros A. unfold is_word in *. assert (E : Z.land a b = Z.land (Z.land a b) (Z.ones 32)).
  { rewrite <- Z.land_assoc, (Z.land_comm b), Z.land_assoc, Z.land_ones, Z.mod_small by lia. reflexivity. }
  rewrite E, Z.land_ones by lia. apply Z.mod_pos_bound. reflexivity.
Qed.
Lemma word_small n : (0 <=? n) && (n <? 2 ^ 32) = true -> is_word n.
Proof. unfold is_word. rewrite andb_true_iff, Z.leb_le, Z.ltb_lt. auto. Qed.
Lemma ck32_word E oc v : ok_all is_word (@ck32 E oc v).
Proof.
  unfold ck32. destruct ((0 <=? v) && (v <? 2 ^ 32)) eqn:C; [now apply word_small|]. destruct oc; [exact I|]. apply word_wrap.
Qed.
Lemma neg_word E oc v : ok_all is_word (@neg_i32 E oc v).
Proof. unfold neg_i32. cbv zeta. destruct (_ && _); [exact I|]. apply word_wrap. Qed.

(** ** Instructions with operands in range *)

Definition imm_wf (i : immediate) : Prop :=
  match i with Short v => 0 <= v < 2 ^ 16 | Int v => is_word v | Long v => 0 <= v < 2 ^ 64 | _ => True end.
Definition inst_wf (i : inst) : Prop :=
  match i with
  | IImm _ _ _ im _ => imm_wf im
  | IJump _ (TAddress a) _ => is_word a
  | IReg _ _ _ _ sa _ => is_word sa
  | _ => True
  end.

Lemma imm_as_word E i : imm_wf i -> ok_all is_word (@imm_as_u32 E i).
Proof.
  destruct i as [v|v|v|l|l]; cbn [imm_wf imm_as_u32 ok_all]; auto using word_wrap. intros [A B]. split; [lia|].
  eapply Z.lt_trans; [exact B|reflexivity].
Qed.
Lemma ok_all_bind2 {E A B} (Q : A -> Prop) (P : B -> Prop) (o : outcome E A) (f : A -> outcome E B) :
  ok_all Q o -> (forall a, Q a -> ok_all P (f a)) -> ok_all P (obind o f).
Proof. intros H K. destruct o; cbn in *; auto. Qed.
Lemma word_land2 a b : is_word b -> is_word (Z.land a b).
Proof. rewrite Z.land_comm. apply word_land. Qed.

Ltac words := repeat lazymatch goal with
  | |- Forall is_word (_ :: _) => constructor
  | |- Forall is_word [] => constructor
  | |- is_word (Z.lor _ _) => apply word_lor
  | |- is_word (shl _ _) => apply word_shl
  | |- is_word (wrap 32 _) => apply word_wrap
  | |- is_word (shr _ _) => apply word_shr; [|lia]
  | |- is_word (Z.land _ 65535) => apply word_land2
  | H : is_word ?v |- is_word ?v => exact H
  | |- is_word _ => apply word_small; reflexivity
  end.
Lemma enc_i_words E oc op rs rt im : imm_wf im -> ok_all (Forall is_word) (@enc_i E oc op rs rt im).
Proof.
  intros W. destruct op; cbn [enc_i];
  lazymatch goal with
  | |- ok_all _ (obind (imm_as_u32 _) _) => apply (ok_all_bind2 is_word); [now apply imm_as_word|intros v Hv]
  | |- ok_all _ (obind (imm_as_u64 _) _) => apply ok_all_bind; intros v
  end;
  try lazymatch goal with
  | |- ok_all _ (obind (ck32 _ _) _) => apply (ok_all_bind2 is_word); [apply ck32_word|intros v1 Hv1]
  | |- ok_all _ (obind (neg_i32 _ _) _) => apply (ok_all_bind2 is_word); [apply neg_word|intros v1 Hv1]
  end; cbn [ok_all]; unfold enc_li, enc_liu;
  repeat lazymatch goal with |- context[if ?b then _ else _] => destruct b end; words.
Qed.
Lemma enc_j_words E op t : (forall a, t = TAddress a -> is_word a) -> ok_all (Forall is_word) (@enc_j E op t).
Proof.
  intros W. destruct op; cbn [enc_j]; (apply (ok_all_bind2 is_word); [destruct t as [l|a]; cbn; auto|intros v Hv]; cbn [ok_all]; words;
  try apply word_land2; words).
Qed.
Lemma enc_r_words op rs rt rd sa : is_word sa -> Forall is_word (enc_r op rs rt rd sa).
Proof.
  intros S. destruct op; cbn [enc_r]; try destruct (reg_num rt =? 0); words.
Qed.

(** ** Parsed instructions *)

Lemma m_all_bind2 {A B} (Q : A -> Prop) (P : B -> Prop) (x : M A) f :
  m_all Q x -> (forall a, Q a -> m_all P (f a)) -> m_all P (mbind x f).
Proof.
  intros H K. destruct x as [w [a|p|p]]; cbn [mbind]; try exact I. specialize (K a H). unfold m_all in *.
  destruct (f a) as [w' r]. exact K.
Qed.
Lemma imm_new_wf E t v : ok_all imm_wf (@imm_new E t v).
Proof.
  unfold imm_new. destruct (it_bits t =? 16); [cbn; apply Z.mod_pos_bound; reflexivity|].
  destruct (it_bits t =? 32); [cbn; apply word_wrap|]. destruct (it_bits t =? 64); [cbn; apply Z.mod_pos_bound; reflexivity|exact I].
Qed.
Lemma fail_ok_all {A} (P : A -> Prop) e n k : ok_all P (fail_at e n k).
Proof. unfold fail_at. destruct (get_line e n); exact I. Qed.
Lemma parse_immediate_wf e s t x : ok_all imm_wf (parse_immediate e s t x).
Proof.
  unfold parse_immediate. cbv zeta. destruct (starts_with _ _); [exact I|]. destruct (assoc _ _); [exact I|].
  destruct (re_find_str _ _).
  - apply ok_all_bind. intros a. destruct (Nat.ltb _ _); [exact I|]. destruct (str_eqb _ _).
    + apply ok_all_bind. intros ?. apply ok_all_bind. intros ?. apply imm_new_wf.
    + destruct (str_eqb _ _); [|exact I]. apply ok_all_bind. intros ?. apply imm_new_wf.
  - destruct (contains _ _); destruct (parse_int _ _ _); try apply imm_new_wf; apply fail_ok_all.
Qed.
Lemma parse_u32_word radix x v : parse_int u32 radix x = Some v -> is_word v.
Proof.
  assert (K : forall v v', in_range u32 v = Some v' -> is_word v').
  { unfold in_range. intros a b. destruct (_ && _) eqn:C; [|discriminate]. intros H. injection H as <-.
    apply andb_true_iff in C as [A B]. apply Z.leb_le in A, B. change (it_min u32) with 0 in A. change (it_max u32) with (2 ^ 32 - 1) in B.
    unfold is_word. lia. }
  unfold parse_int. destruct x as [|c r]; [discriminate|]. destruct (_ || _).
  - destruct r; [discriminate|]. destruct (Ascii.eqb _ _); [|cbn [it_signed u32]; discriminate].
    destruct (digits_val _ _ _); [apply K|discriminate].
  - destruct (digits_val _ _ _); [apply K|discriminate].
Qed.
Lemma parse_target_wf e s t : word_symbols (e_syms e) ->
  ok_all (fun x => forall a, x = TAddress a -> is_word a) (parse_target e s t).
Proof.
  intros W. unfold parse_target. destruct (find _ _) as [[a n]|] eqn:F.
  - apply find_some in F as [F _]. unfold word_symbols in W. rewrite Forall_forall in W. apply W in F. intros b H. injection H as <-. exact F.
  - destruct (starts_with _ _).
    + cbv zeta. destruct (parse_int u32 16 _) eqn:P; [|apply fail_ok_all]. intros b H. injection H as <-. eapply parse_u32_word; eauto.
    + destruct t as [|c r]; [exact I|]. destruct (parse_int u32 10 [c]); [|intros b H; discriminate].
      destruct (parse_int u32 10 (c :: r)) eqn:P; [|apply fail_ok_all]. intros b H. injection H as <-. eapply parse_u32_word; eauto.
Qed.
Lemma parse_sa_wf x : ok_all is_word (parse_sa x).
Proof. unfold parse_sa. destruct (_ || _); apply ok_all_bind; intros ?; apply word_wrap. Qed.
Lemma lift_all {A} (P : A -> Prop) (x : outcome perror A) : ok_all P x -> m_all P (lift x).
Proof. exact (fun H => H). Qed.
Lemma parse_cond_wf e s x : ok_all is_word (parse_float_cond e s x).
Proof.
  unfold parse_float_cond. destruct (assoc _ _) eqn:A; [|apply fail_ok_all]. apply assoc_in in A.
  assert (F : Forall (fun p => is_word (snd p)) fcond_table) by (unfold fcond_table; repeat (apply Forall_cons; [apply word_small; reflexivity|]); apply Forall_nil). rewrite Forall_forall in F. now apply F in A.
Qed.
Ltac wf_tac W := repeat lazymatch goal with
  | |- m_all _ (mbind (aimm _ _ _ _) _) => apply (m_all_bind2 imm_wf); [apply lift_all, parse_immediate_wf|intros ? ?]
  | |- m_all _ (mbind (if _ then aimm _ _ _ _ else aimm _ _ _ _) _) =>
      apply (m_all_bind2 imm_wf); [destruct (_ || _); apply lift_all, parse_immediate_wf|intros ? ?]
  | |- m_all _ (mbind (lift (parse_target _ _ _)) _) =>
      apply (m_all_bind2 (fun x => forall a, x = TAddress a -> is_word a)); [apply lift_all, parse_target_wf; exact W|intros ? ?]
  | |- m_all _ (mbind (lift (parse_sa _)) _) => apply (m_all_bind2 is_word); [apply lift_all, parse_sa_wf|intros ? ?]
  | H : imm_wf ?i |- m_all _ (mbind (lift (imm_as_u32 ?i)) _) => apply (m_all_bind2 is_word); [apply lift_all, imm_as_word; exact H|intros ? ?]
  | |- m_all _ (mbind (lift (match nth_error _ _ with _ => _ end)) _) =>
      apply (m_all_bind2 is_word); [apply lift_all; destruct (nth_error _ _); [apply parse_cond_wf|exact I]|intros ? ?]
  | |- m_all _ (mbind (match _ with [] => lift (Ok (Short 0)) | _ => _ end) _) =>
      apply (m_all_bind2 imm_wf); [lazymatch goal with |- m_all _ (match ?x with _ => _ end) => destruct x end;
        [split; [apply Z.le_refl|reflexivity]|apply lift_all, parse_immediate_wf]|intros ? ?]
  | |- m_all _ (mbind _ _) => apply m_all_bind; intros ?
  | |- m_all _ (lift (fail_at _ _ _)) => apply fail_all
  | |- m_all _ (lift (Panic _)) => exact I
  | |- m_all _ (lift (Ok _)) => idtac
  | |- m_all _ (match ?x with _ => _ end) => destruct x
  | |- m_all _ (if ?x then _ else _) => destruct x
  end.
Lemma parse_inst_wf e s l : word_symbols (e_syms e) -> m_all inst_wf (parse_inst e s l).
Proof.
  intros W. unfold parse_inst. destruct (match split_once " " l with Some oa => oa | None => (l, []) end) as [op arg].
  destruct l; [apply fail_all|]. generalize (split_char "," arg) as args. intros args.
  unfold parse_op. destruct (classify (trim (to_lower op))) as [[]|];
  unfold parse_mem, parse_imm3, parse_imm2, parse_trap_imm, parse_branch1, parse_branch2, parse_jump, parse_plain, parse_reg3,
      parse_shift, parse_shiftv, parse_code, parse_reg2, parse_jalr, parse_move, parse_b, parse_li, parse_div, parse_rs, parse_rd,
      parse_dli, parse_cop0, parse_cop1, parse_fmem, parse_word, parse_float, bad_count; cbv zeta; wf_tac W;
  cbn [m_all lift snd inst_wf]; try assumption; try (apply word_small; reflexivity).
  - destruct a1; [exact I|auto].
  - exact I.
Qed.
Lemma adjust_wf e s i n x : inst_wf x -> ok_all (fun p => inst_wf (fst p)) (adjust_one e s i n x).
Proof.
  assert (L : forall a b, 0 <= label_offset a b < 2 ^ 16) by (intros; apply Z.mod_pos_bound; reflexivity).
  assert (Q : forall v, 0 <= wrap 16 v < 2 ^ 16) by (intros; apply Z.mod_pos_bound; reflexivity).
  intros F. destruct x as [op rs rt im b|op t b|op rs rt rd sa b|w]; cbn [adjust_one]; [| |exact F|exact F].
  - destruct im as [v|v|v|l|l]; try exact F.
    + destruct (negb (is_b_op op)); [exact F|]. apply ok_all_bind. intros ?. apply ok_all_bind. intros ?. apply Q.
    + destruct (assoc l (p_dropped s)); apply ok_all_bind; intros p; [|exact F]. destruct p; [apply L|]. apply ok_all_bind. intros ?. exact F.
    + destruct (assoc l (p_labels s)); [apply L|exact I].
  - destruct t as [l|a]; [|exact F]. destruct (assoc l (p_labels s)).
    + apply ok_all_bind. intros ?. apply (ok_all_bind2 is_word); [apply ck32_word|]. intros a' Ha. exact Ha.
    + apply ok_all_bind. intros ?. exact F.
Qed.
Lemma assemble_inst_words oc i i' : fresh i -> inst_wf i -> @assemble_inst perror oc i = Ok i' -> Forall is_word (inst_bytes i').
Proof.
  intros F W H. destruct i as [op rs rt im b|op t b|op rs rt rd sa b|w]; cbn [assemble_inst] in H; cbn [fresh inst_bytes] in F; subst; try discriminate.
  - apply obind_ok in H as (ws & E & H). injection H as <-. assert (K := enc_i_words perror oc op rs rt im W). rewrite E in K. exact K.
  - apply obind_ok in H as (ws & E & H). injection H as <-. cbn [inst_bytes app].
    assert (K : ok_all (Forall is_word) (@enc_j perror op t)) by (apply enc_j_words; intros a ->; exact W). rewrite E in K. exact K.
  - injection H as <-. now apply enc_r_words.
Qed.
Theorem assembled_words rt m input out : word_symbols (m_syms m) -> assemble rt m input = Ok out -> Forall is_word (get_bytes out).
Proof.
  intros Ws A. apply assemble_ok in A as (s & is1 & As). set (e := mk_parser rt m input) in *.
  assert (N := nl_of_lines input).
  destruct (assembled_labels e _ s is1 out N As) as (_ & _ & _ & _ & _ & Ln).
  unfold get_bytes. apply Forall_flat_map, Forall_forall. intros i I. apply In_nth_error in I as [k I].
  assert (K : (k < List.length out)%nat) by (apply nth_error_Some; congruence). rewrite Ln in K.
  destruct (nth_instruction _ _ K) as (l1 & raw & l2 & E & R & C).
  destruct (assembled_at e _ s is1 out l1 raw l2 N As E) as (s1 & S1 & E1 & L1 & P1 & T1 & X).
  rewrite R in X. destruct X as (w & i0 & i1 & i' & o1 & o2 & P' & _ & Ad & Ai & -> & Lo & _).
  rewrite nth_error_app2 in I by lia. rewrite Lo, C, Nat.sub_diag in I. injection I as <-.
  apply (assemble_inst_words (e_oc e) i1); [| |exact Ai].
  - eapply adjust_fresh; [|exact Ad]. eapply parse_inst_fresh. exact P'.
  - assert (W0 : inst_wf i0). { assert (G := parse_inst_wf e (bump s1) (clean raw) Ws). rewrite P' in G. exact G. }
    assert (G := adjust_wf e (final e s) (instruction_count l1) (S (List.length l1)) i0 W0). rewrite Ad in G. exact G.
Qed.
