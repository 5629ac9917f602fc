(** * ListingProofs: the default-mode listing (proofs only). *)

From Coq Require Import Lia.
From Verif Require Import Lib SpecIsa SpecListing StrLemmas DecodeProofs DisasmProofs.

Lemma squeeze_collapse s : squeeze s = collapse s.
Proof. reflexivity. Qed.

(** ** Symbols *)

Lemma sym_get_some a syms n : sym_get a syms = Some n -> In (a, n) syms.
Proof.
  induction syms as [|[a' n'] r IH]; cbn; [discriminate|].
  destruct (Z.eqb_spec a a') as [->|]; [injection 1 as <-; auto|auto].
Qed.
Lemma sym_get_none a syms : sym_get a syms = None <-> forall n, ~ In (a, n) syms.
Proof.
  induction syms as [|[a' n'] r IH]; cbn.
  - split; [intros _ n []|reflexivity].
  - destruct (Z.eqb_spec a a') as [->|N].
    + split; [discriminate|]. intros H. exfalso. apply (H n'). auto.
    + rewrite IH. split; intros H n; [intros [E|I]; [congruence|exact (H n I)]|]. intros I. apply (H n). auto.
Qed.
Lemma sym_get_in a syms n : NoDup (map fst syms) -> In (a, n) syms -> sym_get a syms = Some n.
Proof.
  induction syms as [|[a' n'] r IH]; cbn; [intros _ []|]. intros D [E|I].
  - injection E as -> ->. now rewrite Z.eqb_refl.
  - inversion D; subst. destruct (Z.eqb_spec a a') as [->|]; [|auto].
    exfalso. apply H1. apply in_map_iff. now exists (a', n).
Qed.
Lemma get_sym_name m a : address_name (m_syms m) a (get_sym m a).
Proof.
  unfold get_sym. destruct (sym_get a (m_syms m)) eqn:E.
  - left. now apply sym_get_some.
  - right. split; [now apply sym_get_none|reflexivity].
Qed.

(** ** Which instructions end a function *)

Definition is_jr (w : Z) : Prop := field w 26 6 = 0 /\ field w 0 6 = 8.

Definition not_jr (i : inst) : Prop := match i with IReg R_Jr _ _ _ _ _ => False | _ => True end.
Lemma tlb_not_jr fn w : 0 <= fn < 64 -> not_jr (tlb_match fn w).
Proof. intros R. enum_range R 64; exact I. Qed.
Lemma fields_jr0 rs rt rd sa code imm target w :
  exists x b, disasm_fields 0 rs rt rd sa code 8 imm target w = IReg R_Jr x Zero Zero 0 b.
Proof. do 2 eexists. reflexivity. Qed.
Lemma fields_jr op rs rt rd sa code fn imm target w :
  0 <= op < 64 -> 0 <= rs < 32 -> 0 <= rt < 32 -> 0 <= fn < 64 -> ~ (op = 0 /\ fn = 8) ->
  not_jr (disasm_fields op rs rt rd sa code fn imm target w).
Proof.
  intros Ro Rs Rt Rf N.
  enum_range Ro 64;
  lazymatch goal with
  | |- context [disasm_fields 0] => enum_range Rf 64; first [exact I | exfalso; apply N; split; reflexivity]
  | |- context [disasm_fields 1] => enum_range Rt 32; exact I
  | |- context [disasm_fields 16] =>
      enum_range Rs 32; lazymatch goal with
      | |- context [disasm_fields 16 8] => enum_range Rt 32
      | |- _ => idtac end;
      first [exact I | change (not_jr (tlb_match fn w)); apply tlb_not_jr; exact Rf]
  | |- context [disasm_fields 17] =>
      enum_range Rs 32; lazymatch goal with
      | |- context [disasm_fields 17 8] => enum_range Rt 32; exact I
      | |- context [disasm_fields 17 16] => enum_range Rf 64; exact I
      | |- context [disasm_fields 17 17] => enum_range Rf 64; exact I
      | |- context [disasm_fields 17 20] => enum_range Rf 64; exact I
      | |- context [disasm_fields 17 21] => enum_range Rf 64; exact I
      | |- _ => exact I end
  | |- _ => exact I
  end.
Qed.

Lemma jr_decode base w : is_word w -> is_word base ->
  (is_jr w /\ exists x b, disasm_word base w = IReg R_Jr x Zero Zero 0 b)
  \/ (~ is_jr w /\ not_jr (disasm_word base w)).
Proof.
  intros Hw Hb. destruct (disasm_word_fields base w Hw Hb)
    as (op & rs & rt & rd & sa & code & fn & imm & target & F & ->).
  unfold is_jr. rewrite (F_op _ _ _ _ _ _ _ _ _ _ _ F), (F_fn _ _ _ _ _ _ _ _ _ _ _ F).
  destruct (Z.eq_dec op 0) as [->|N0]; [destruct (Z.eq_dec fn 8) as [->|N8]|].
  - left. split; [auto|]. apply fields_jr0.
  - right. assert (N : ~ (0 = 0 /\ fn = 8)) by tauto. split; [exact N|].
    apply fields_jr; try apply F. exact N.
  - right. assert (N : ~ (op = 0 /\ fn = 8)) by tauto. split; [exact N|].
    apply fields_jr; try apply F. exact N.
Qed.

(** [leaves] decided. *)
Definition leavesb (base start own w : Z) : bool :=
  ((field w 26 6 =? 0) && (field w 0 6 =? 8))
  || ((field w 26 6 =? 2) && ((jump_address base w <? start) || (own <? jump_address base w))).
Lemma leavesb_spec base start own w : leavesb base start own w = true <-> leaves base start own w.
Proof.
  unfold leavesb, leaves. rewrite orb_true_iff, !andb_true_iff, orb_true_iff, !Z.eqb_eq, !Z.ltb_lt.
  tauto.
Qed.

(** A [j] to a symbol: the listing panics. *)
Definition jumps_to_symbol (m : mipsasm) (w : Z) : Prop :=
  field w 26 6 = 2 /\ exists n, In (jump_address (m_base m) w, n) (m_syms m).

Lemma ck32_ok {E} oc v : 0 <= v < 2 ^ 32 -> @ck32 E oc v = Ok v.
Proof.
  intros [H1 H2]. unfold ck32. apply Z.leb_le in H1. apply Z.ltb_lt in H2. now rewrite H1, H2.
Qed.
Lemma wrap32_small v : 0 <= v < 2 ^ 32 -> wrap 32 v = v.
Proof. intros. unfold wrap. now apply Z.mod_small. Qed.

Lemma ends_function_spec oc m i start w :
  is_word w -> is_word (m_base m) -> 0 <= start <= 4 * i -> m_base m + 4 * (i + 1) <= 2 ^ 32 ->
  ~ jumps_to_symbol m w ->
  ends_function oc m i start (match_sym m (disasm_word (m_base m) w))
  = Ok (leavesb (m_base m) (m_base m + start) (m_base m + 4 * i) w).
Proof.
  intros Hw Hb Hs Hi Hj. destruct (jump_decode (m_base m) w Hw Hb) as (J2 & J3 & JN).
  unfold leavesb. fold (jump_address (m_base m) w) in *.
  destruct Hb as [Hb0 Hb1].
  destruct (Z.eqb_spec (field w 26 6) 2) as [E2|N2].
  - rewrite (J2 E2). rewrite E2. cbn [Z.eqb andb orb match_sym].
    destruct (sym_get (jump_address (m_base m) w) (m_syms m)) eqn:S.
    + exfalso. apply Hj. split; [exact E2|]. exists s. now apply sym_get_some.
    + unfold ends_function. cbn [is_unconditional_jump get_jump_target target_as_u32 obind].
      rewrite (wrap32_small start) by lia. rewrite ck32_ok by lia. cbn [obind opt_lt].
      replace (m_base m + start) with (start + m_base m) by lia.
      destruct (jump_address (m_base m) w <? start + m_base m); [reflexivity|].
      rewrite (wrap32_small i) by lia. rewrite ck32_ok by lia. cbn [obind].
      rewrite ck32_ok by lia. cbn [obind opt_gt]. rewrite Z.gtb_ltb. do 2 f_equal. lia.
  - rewrite andb_false_l, orb_false_r.
    destruct (Z.eqb_spec (field w 26 6) 3) as [E3|N3].
    + rewrite (J3 E3), E3. cbn [match_sym]. destruct (sym_get _ _); reflexivity.
    + specialize (JN N2 N3).
      destruct (jr_decode (m_base m) w Hw (conj Hb0 Hb1)) as [[[A B] (x & b & ->)]|[A B]].
      * rewrite A, B. cbn [Z.eqb Pos.eqb andb match_sym]. unfold ends_function.
        cbn [is_unconditional_jump get_jump_target obind].
        rewrite (wrap32_small start) by lia. rewrite ck32_ok by lia. cbn [obind opt_lt]. reflexivity.
      * replace ((field w 26 6 =? 0) && (field w 0 6 =? 8)) with false.
        -- destruct (disasm_word (m_base m) w) as [| |op| ]; try reflexivity; [destruct JN|].
           destruct op; try reflexivity. destruct B.
        -- symmetry. apply not_true_iff_false. rewrite andb_true_iff, !Z.eqb_eq. exact A.
Qed.

Lemma ends_function_panics oc m i start w : is_word w -> is_word (m_base m) -> jumps_to_symbol m w ->
  exists p, ends_function oc m i start (match_sym m (disasm_word (m_base m) w)) = Panic p.
Proof.
  intros Hw Hb [E [n I]]. destruct (jump_decode (m_base m) w Hw Hb) as (J2 & _ & _).
  rewrite (J2 E). cbn [match_sym]. fold (jump_address (m_base m) w).
  destruct (sym_get (jump_address (m_base m) w) (m_syms m)) eqn:S.
  - unfold ends_function. cbn [is_unconditional_jump get_jump_target target_as_u32 obind]. eexists. reflexivity.
  - exfalso. rewrite sym_get_none in S. exact (S n I).
Qed.
Lemma jumps_to_symbol_dec m w : jumps_to_symbol m w \/ ~ jumps_to_symbol m w.
Proof.
  unfold jumps_to_symbol. destruct (Z.eq_dec (field w 26 6) 2); [|right; tauto].
  destruct (sym_get (jump_address (m_base m) w) (m_syms m)) eqn:S.
  - left. split; [assumption|]. exists s. now apply sym_get_some.
  - right. intros [_ [n I]]. rewrite sym_get_none in S. exact (S n I).
Qed.

(** ** The loop *)

Lemma firstn_step (ws : list Z) i w r : (i < List.length ws)%nat -> ws = firstn i ws ++ w :: r ->
  ws = firstn (S i) ws ++ r.
Proof.
  revert ws. induction i as [|i IH]; intros [|x ws] L H; cbn [List.length] in L; try lia.
  - cbn in *. injection H as -> ->. reflexivity.
  - cbn [firstn app] in H. injection H as H. change (x :: ws = x :: (firstn (S i) ws ++ r)).
    f_equal. apply IH; [lia|exact H].
Qed.

Section Loop.
Variable oc : bool.
Variable m : mipsasm.
Notation base := (m_base m).

Definition line_of (w : Z) : outcome str str := show_inst (match_sym m (disasm_word base w)).

(** function start (word index) and "the previous word ended the function" at word [i] *)
Fixpoint state_at (ws : list Z) (i : nat) : nat * bool :=
  match i with
  | O => (O, false)
  | S j =>
      let (k, ended) := state_at ws j in
      if ended then (j, false)
      else (k, leavesb base (base + 4 * Z.of_nat k) (base + 4 * Z.of_nat j) (nth j ws 0))
  end.
Definition cuts (ws : list Z) (i : nat) : bool := snd (state_at ws i).

Lemma state_start ws i :
  snd (state_at ws i) = false -> function_start (cuts ws) i (fst (state_at ws i)).
Proof.
  induction i as [|j IH]; intros E.
  - cbn. split; [lia|]. split; [auto|]. intros; lia.
  - assert (Cj : cuts ws j = snd (state_at ws j)) by reflexivity.
    assert (Cs : cuts ws (S j) = false) by exact E.
    cbn [state_at] in *. destruct (state_at ws j) as [k ended]. cbn [fst snd] in *.
    destruct ended; cbn [fst snd] in *.
    + split; [lia|]. split; [auto|]. intros x Hx. assert (x = S j) by lia. now subst x.
    + destruct (IH eq_refl) as (A & B & C). split; [lia|]. split; [exact B|].
      intros x Hx. destruct (Nat.eq_dec x (S j)) as [->|]; [exact Cs|]. apply C. lia.
Qed.
Lemma function_start_unique c i k1 k2 : function_start c i k1 -> function_start c i k2 -> k1 = k2.
Proof.
  intros (A1 & B1 & C1) (A2 & B2 & C2).
  destruct (Nat.lt_trichotomy k1 k2) as [L|[E|L]]; [|exact E|].
  - assert (c k2 = false) by (apply C1; lia). destruct B2; [lia|congruence].
  - assert (c k1 = false) by (apply C2; lia). destruct B1; [lia|congruence].
Qed.
Lemma cuts_S ws j : cuts ws (S j) = if cuts ws j then false else
  leavesb base (base + 4 * Z.of_nat (fst (state_at ws j))) (base + 4 * Z.of_nat j) (nth j ws 0).
Proof. unfold cuts. cbn [state_at]. destruct (state_at ws j) as [k []]; reflexivity. Qed.

Lemma cuts_good ws : good_cuts base ws (cuts ws).
Proof.
  intros i Hi. destruct i as [|j].
  - split; [discriminate|]. intros (j & k & w & E & _). discriminate.
  - assert (W : nth_error ws j = Some (nth j ws 0)) by (apply nth_error_nth'; lia).
    rewrite cuts_S. destruct (cuts ws j) eqn:C.
    + split; [discriminate|]. intros (j' & k & w & E & C' & _). injection E as <-. congruence.
    + assert (S := state_start ws j C). rewrite leavesb_spec. split.
      * intros L. exists j, (fst (state_at ws j)), (nth j ws 0). auto.
      * intros (j' & k & w & E & _ & S' & W' & L). injection E as <-.
        rewrite (function_start_unique _ _ _ _ S S'). congruence.
Qed.

(** The model's loop is the specification's. *)
Lemma listing_blocks ws : is_word base -> Forall is_word ws ->
  base + 4 * Z.of_nat (List.length ws) <= 2 ^ 32 ->
  forall r i, ws = firstn i ws ++ r -> (i <= List.length ws)%nat ->
  forall k out, fst (state_at ws i) = k ->
  listing oc m (Z.of_nat (List.length ws)) (Z.of_nat i) (4 * Z.of_nat k) (cuts ws i)
         (map (match_sym m) (disassemble_insts r base)) = Ok out ->
  exists ls, map_outcome line_of r = Ok ls
    /\ blocks (m_syms m) base (cuts ws) (List.length ws) i ls out.
Proof.
  intros Hb Hws Hlen r. induction r as [|w r IH]; intros i Hr Hi k out Hk HL.
  - exists []. cbn in HL. injection HL as <-. repeat split.
  - assert (Li : (i < List.length ws)%nat).
    { destruct (Nat.eq_dec i (List.length ws)) as [->|]; [|lia].
      rewrite firstn_all in Hr. apply (f_equal (@List.length Z)) in Hr. rewrite app_length in Hr.
      cbn in Hr. lia. }
    assert (Hn : nth i ws 0 = w).
    { rewrite Hr, app_nth2; rewrite firstn_length_le by lia; [|lia]. now rewrite Nat.sub_diag. }
    assert (Hin : In w ws) by (rewrite Hr; apply in_or_app; right; now left).
    assert (Hw : is_word w) by (rewrite Forall_forall in Hws; auto).
    assert (Hr' : ws = firstn (S i) ws ++ r).
    { exact (firstn_step ws i w r Li Hr). }
    assert (Hki : (k <= i)%nat).
    { subst k. clear. induction i as [|j IHj]; [cbn; lia|]. cbn [state_at].
      destruct (state_at ws j) as [k' []]; cbn [fst] in *; lia. }
    destruct (word_prints base w Hw Hb) as [t0 P].
    destruct (match_sym_prints m _ (ex_intro _ t0 P)) as [t Ht]. clear P t0.
    assert (Hb' := Hb). destruct Hb as [Hb0 Hb1].
    cbn [disassemble_insts map listing] in HL.
    destruct (cuts ws i) eqn:Ci.
    + specialize (IH (S i) Hr' ltac:(lia) i).
      assert (Sk : fst (state_at ws (S i)) = i).
      { cbn [state_at]. unfold cuts in Ci. destruct (state_at ws i). cbn in Ci. now subst b. }
      assert (Cs : cuts ws (S i) = false) by (rewrite cuts_S, Ci; reflexivity).
      rewrite Cs in IH. rewrite Nat2Z.inj_succ in IH. unfold Z.succ in IH.
      replace (4 * Z.of_nat i) with (Z.of_nat i * 4) in IH by lia.
      rewrite Ht in HL. cbn [obind] in HL.
      cbn [map_outcome]. unfold line_of at 1. rewrite Ht. cbn [obind].
      cbn [blocks]. 
      destruct (Nat.ltb_spec (S i) (List.length ws)) as [L|L].
      * replace (Z.of_nat i <? Z.of_nat (List.length ws) - 1) with true in HL
          by (symmetry; apply Z.ltb_lt; lia).
        rewrite wrap32_small in HL by lia. rewrite ck32_ok in HL by lia. cbn [obind] in HL.
        rewrite ck32_ok in HL by lia. cbn [obind] in HL.
        destruct (listing oc m _ _ _ false _) as [o| |] eqn:B in HL; cbn [obind] in HL; try discriminate.
        destruct (IH o Sk B) as (ls & A & C). rewrite A. cbn [obind].
        eexists. split; [reflexivity|]. cbn [blocks]. rewrite Ci. apply Nat.ltb_lt in L || apply Nat.ltb_ge in L. rewrite L. cbn [andb].
        exists (get_sym m (base + (Z.of_nat i + 1) * 4)), o.
        injection HL as <-.
        split; [|split; [reflexivity|exact C]].
        replace (base + 4 * Z.of_nat (S i)) with (base + (Z.of_nat i + 1) * 4) by lia.
        apply get_sym_name.
      * replace (Z.of_nat i <? Z.of_nat (List.length ws) - 1) with false in HL
          by (symmetry; apply Z.ltb_ge; lia).
        cbn [obind] in HL.
        destruct (listing oc m _ _ _ false _) as [o| |] eqn:B in HL; cbn [obind] in HL; try discriminate.
        destruct (IH o Sk B) as (ls & A & C). rewrite A. cbn [obind].
        eexists. split; [reflexivity|]. cbn [blocks]. rewrite Ci. apply Nat.ltb_lt in L || apply Nat.ltb_ge in L. rewrite L. cbn [andb].
        exists o. injection HL as <-. split; [reflexivity|exact C].
    + specialize (IH (S i) Hr' ltac:(lia) k).
      assert (Sk : fst (state_at ws (S i)) = k).
      { cbn [state_at]. unfold cuts in Ci. destruct (state_at ws i). cbn in Ci, Hk. now subst b. }
      destruct (jumps_to_symbol_dec m w) as [J|J].
      { exfalso. destruct (ends_function_panics oc m (Z.of_nat i) (4 * Z.of_nat k) w Hw Hb' J) as [p E].
        rewrite E in HL. discriminate. }
      rewrite ends_function_spec in HL; [|exact Hw|split; assumption|lia|lia|exact J].
      cbn [obind] in HL. rewrite Ht in HL. cbn [obind] in HL.
      assert (E : leavesb base (base + 4 * Z.of_nat k) (base + 4 * Z.of_nat i) w = cuts ws (S i)).
      { rewrite cuts_S, Ci, Hk, Hn. reflexivity. }
      rewrite E in HL. rewrite Nat2Z.inj_succ in IH. unfold Z.succ in IH.
      destruct (listing oc m _ _ _ _ _) as [o| |] eqn:B in HL; cbn [obind] in HL; try discriminate.
      destruct (IH o Sk B) as (ls & A & C).
      exists (t :: ls). cbn [map_outcome]. unfold line_of at 1. rewrite Ht. cbn [obind]. rewrite A. cbn [obind].
      split; [reflexivity|]. cbn [blocks]. rewrite Ci. cbn [andb].
      injection HL as <-. exists o. split; [reflexivity|exact C].
Qed.

Lemma listing_total_checked ws : is_word base -> Forall is_word ws ->
  base + 4 * Z.of_nat (List.length ws) <= 2 ^ 32 -> Forall (fun w => ~ jumps_to_symbol m w) ws ->
  forall r i s b, incl r ws -> Z.of_nat i + Z.of_nat (List.length r) = Z.of_nat (List.length ws) ->
  0 <= s <= 4 * Z.of_nat i ->
  exists out, listing oc m (Z.of_nat (List.length ws)) (Z.of_nat i) s b
         (map (match_sym m) (disassemble_insts r base)) = Ok out.
Proof.
  intros Hb Hws Hlen Hj r. induction r as [|w r IH]; intros i s b Hr Hi Hs; [now exists []|].
  assert (Hin : In w ws) by (apply Hr; now left).
  assert (Hw : is_word w) by (rewrite Forall_forall in Hws; auto).
  assert (Hnj : ~ jumps_to_symbol m w) by (rewrite Forall_forall in Hj; auto).
  destruct (word_prints base w Hw Hb) as [t0 P].
  destruct (match_sym_prints m _ (ex_intro _ t0 P)) as [t Ht]. clear P t0.
  assert (Hr' : incl r ws) by (intros x X; apply Hr; now right).
  cbn [List.length] in Hi.
  assert (Hb' := Hb). destruct Hb as [Hb0 Hb1]. cbn [disassemble_insts map listing].
  replace (Z.of_nat i + 1) with (Z.of_nat (S i)) by lia.
  destruct b.
  - rewrite Ht. cbn [obind].
    destruct (IH (S i) (Z.of_nat i * 4) false Hr' ltac:(lia) ltac:(lia)) as [o B].
    destruct (Z.of_nat i <? Z.of_nat (List.length ws) - 1) eqn:L.
    + rewrite wrap32_small by lia. rewrite ck32_ok by lia. cbn [obind]. rewrite ck32_ok by lia. cbn [obind].
      unfold disassemble_insts in B. rewrite B. cbn [obind]. eauto.
    + cbn [obind]. unfold disassemble_insts in B. rewrite B. cbn [obind]. eauto.
  - rewrite ends_function_spec; [|exact Hw|split; assumption|lia|lia|exact Hnj]. cbn [obind].
    rewrite Ht. cbn [obind].
    destruct (IH (S i) s (leavesb base (base + s) (base + 4 * Z.of_nat i) w) Hr' ltac:(lia) ltac:(lia)) as [o B].
    unfold disassemble_insts in B. rewrite B. cbn [obind]. eauto.
Qed.
End Loop.

Lemma debug_of_line m w t : line_of m w = Ok t -> debug_line m w = Ok (collapse t).
Proof.
  unfold line_of, debug_line, debug_inst. intros ->. cbn [obind]. rewrite replace_all_space. reflexivity.
Qed.

Lemma default_listing oc m ws ls : m_debug m = false -> is_word (m_base m) -> Forall is_word ws ->
  m_base m + 4 * Z.of_nat (List.length ws) <= 2 ^ 32 -> disassemble oc m ws = Ok ls ->
  exists c lines name body,
    ls = (name ++ #":") :: body
    /\ address_name (m_syms m) (m_base m) name
    /\ good_cuts (m_base m) ws c
    /\ blocks (m_syms m) (m_base m) c (List.length ws) 0 lines body
    /\ disassemble oc (set_debug m) ws = Ok (map collapse lines).
Proof.
  intros Hd Hb Hw Hl HD. unfold disassemble in HD. rewrite Hd in HD. rewrite map_length in HD.
  unfold disassemble_insts at 1 in HD. rewrite map_length in HD. cbv zeta in HD.
  destruct (listing oc m _ _ _ _ _) as [out| |] eqn:B in HD; cbn [obind] in HD; try discriminate.
  injection HD as <-.
  destruct (listing_blocks oc m ws Hb Hw Hl ws 0 eq_refl ltac:(lia) 0%nat out eq_refl B)
    as (lines & A & C).
  exists (cuts m ws), lines, (get_sym m (m_base m)), out.
  - split; [reflexivity|]. split; [apply get_sym_name|]. split; [apply cuts_good|].
    split; [exact C|]. rewrite disassemble_debug by reflexivity.
    apply map_outcome_forall2. apply map_outcome_forall2 in A. clear - A.
    induction A as [|w t ws ls Hwt _ IH]; [constructor|]. cbn [map]. constructor; [|exact IH].
    change (debug_line (set_debug m) w) with (debug_line m w). now apply debug_of_line.
Qed.

Lemma default_total_checked oc m ws : is_word (m_base m) -> Forall is_word ws ->
  m_base m + 4 * Z.of_nat (List.length ws) <= 2 ^ 32 ->
  Forall (fun w => ~ jumps_to_symbol m w) ws -> exists ls, disassemble oc m ws = Ok ls.
Proof.
  intros Hb Hw Hl Hj. destruct (m_debug m) eqn:D.
  - destruct (debug_total oc m ws D Hb Hw) as (ls & H & _). eauto.
  - unfold disassemble. rewrite D. cbv zeta. rewrite map_length. unfold disassemble_insts at 1. rewrite map_length.
    destruct (listing_total_checked oc m ws Hb Hw Hl Hj ws 0 0 false (incl_refl _) ltac:(lia) ltac:(lia)) as [o E].
    cbn [Z.of_nat] in E. rewrite E. cbn [obind]. eauto.
Qed.

(** Without overflow checks and symbols at [j] targets nothing panics, whatever the size. *)
Lemma listing_total m n i start ended l :
  Forall prints l -> Forall (fun x => match x with IJump J_J (TLabel _) _ => False | _ => True end) l ->
  exists out, listing false m n i start ended l = Ok out.
Proof.
  assert (K : forall v, exists x, @ck32 str false v = Ok x).
  { intros v. unfold ck32. destruct ((0 <=? v) && (v <? 2 ^ 32)); eauto. }
  intros H. revert i start ended. induction H as [|x l [t Ht] _ IH]; intros i start ended HJ; [now exists []|].
  apply Forall_cons_iff in HJ as [HJ HJs]. cbn [listing]. rewrite Ht. cbn [obind].
  destruct ended.
  - assert (L : exists lab, (if i <? n - 1 then
        do! k <- ck32 false (wrap 32 (i + 1) * 4);
        do! a <- ck32 false (m_base m + k); Ok [[]; get_sym m a ++ #":"] else Ok []) = (Ok lab : outcome str (list str))).
    { destruct (i <? n - 1); [|eauto]. destruct (K (wrap 32 (i + 1) * 4)) as [a ->]. cbn [obind].
      destruct (K (m_base m + a)) as [b ->]. cbn [obind]. eauto. }
    destruct L as [lab ->]. cbn [obind]. destruct (IH (i + 1) (i * 4) false HJs) as [o ->]. cbn [obind]. eauto.
  - assert (E : exists b, ends_function false m i start x = Ok b).
    { unfold ends_function. destruct (is_unconditional_jump x) eqn:U; [|eauto].
      assert (T : exists t, @get_jump_target str x = Ok t).
      { destruct x as [| [] [] | |]; cbn; eauto; try discriminate; destruct HJ. }
      destruct T as [tt ->]. cbn [obind]. destruct (K (wrap 32 start + m_base m)) as [a ->]. cbn [obind].
      destruct (opt_lt tt a); [eauto|]. destruct (K (wrap 32 i * 4)) as [b ->]. cbn [obind].
      destruct (K (b + m_base m)) as [d ->]. cbn [obind]. eauto. }
    destruct E as [b ->]. cbn [obind]. destruct (IH (i + 1) start b HJs) as [o ->]. cbn [obind]. eauto.
Qed.

Lemma no_label_jump m w : is_word w -> is_word (m_base m) -> ~ jumps_to_symbol m w ->
  match match_sym m (disasm_word (m_base m) w) with IJump J_J (TLabel _) _ => False | _ => True end.
Proof.
  intros Hw Hb N. destruct (jump_decode (m_base m) w Hw Hb) as (J2 & J3 & JN).
  destruct (Z.eq_dec (field w 26 6) 2) as [E|N2].
  - rewrite (J2 E). cbn [match_sym]. destruct (sym_get _ _) eqn:S; [|exact I].
    apply N. split; [exact E|]. exists s. now apply sym_get_some.
  - destruct (Z.eq_dec (field w 26 6) 3) as [E|N3].
    + rewrite (J3 E). cbn [match_sym]. destruct (sym_get _ _); exact I.
    + specialize (JN N2 N3). destruct (disasm_word (m_base m) w); try exact I. destruct JN.
Qed.

Lemma default_total_release m ws : is_word (m_base m) -> Forall is_word ws ->
  Forall (fun w => ~ jumps_to_symbol m w) ws -> exists ls, disassemble false m ws = Ok ls.
Proof.
  intros Hb Hw Hj. destruct (m_debug m) eqn:D.
  - destruct (debug_total false m ws D Hb Hw) as (ls & H & _). eauto.
  - unfold disassemble. rewrite D. cbn zeta.
    destruct (listing_total m (Z.of_nat (List.length (map (match_sym m) (disassemble_insts ws (m_base m)))))
       0 0 false (map (match_sym m) (disassemble_insts ws (m_base m)))) as [o ->].
    + unfold disassemble_insts. rewrite !Forall_map. eapply Forall_impl; [|exact Hw].
      intros w W. apply match_sym_prints. now apply word_prints.
    + unfold disassemble_insts. rewrite !Forall_map. rewrite Forall_forall in *.
      intros w W. apply no_label_jump; auto.
    + cbn [obind]. eauto.
Qed.
