(** * Reassemble: what the listing of a disassembly assembles to (C82; proofs only). *)

From Coq Require Import Lia.
From Verif Require Import PropsDisasm PropsLabels PropsRefs WarnProofs QuietProofs ImmLines Lib SpecIsa SpecListing StrLemmas NumLemmas DecodeProofs DisasmProofs ListingProofs InjProofs DisasmMore
  TextProofs OperandProofs NativeProofs LineProofs ScanProofs ProgProofs BranchProofs LabelProofs RefProofs AsmProofs RoundProofs CauseProofs FatalProofs CodingProofs ExactProofs RoundExact LossProofs BranchBack AcceptLines
  SpecText SpecProgram SpecLabels SpecCause SpecReading SpecExact SpecAccept SpecReassemble.

Lemma has_kind_in k w : has_kind k w = true <-> exists f o, read_word w = Some f /\ In o (f_ops f) /\ k o = true.
Proof.
  unfold has_kind. destruct (read_word w) as [f|]; [|split; [discriminate|intros (f & o & X & _); discriminate X]]. rewrite existsb_exists. split.
  - intros (o & I & K). eauto.
  - intros (g & o & X & I & K). injection X as <-. eauto.
Qed.
Lemma no_kind k w f : read_word w = Some f -> (forall o, In o (f_ops f) -> k o = false) -> has_kind k w = false.
Proof. intros R H. apply Bool.not_true_iff_false. intros X. apply has_kind_in in X as (g & o & Rg & I & K). assert (g = f) by congruence. subst g. rewrite (H o I) in K. discriminate K. Qed.
Lemma a_kind k w f o : read_word w = Some f -> In o (f_ops f) -> k o = true -> has_kind k w = true.
Proof. intros R I K. apply has_kind_in. eauto. Qed.

Lemma hexU_plain a : 0 <= a < 2 ^ 64 -> plain_name (#"0x" ++ hexU a).
Proof.
  intros R. split; [discriminate|]. apply forallb_forall. intros c I. apply in_app_or in I as [I|I].
  - cbn in I. destruct I as [<-|[<-|[]]]; reflexivity.
  - assert (F := hexU_digits a R). rewrite Forall_forall in F. assert (X := digit_in_or 16 c (F c I) ltac:(lia)). clear - X. cbn in X. repeat (destruct X as [<-|X]; [reflexivity|]). destruct X.
Qed.
Definition tlb_word_ok (nt : Z * str) : bool :=
  existsb (fun f => str_eqb (f_name f) (snd nt) && match f_ops f with [] => true | _ => false end && (word f [] =? 0x42000000 + fst nt)) isa.
Lemma tlb_words : forallb tlb_word_ok tlb_names = true. Proof. vm_compute. reflexivity. Qed.
Lemma tlb_word n t : num_assoc n tlb_names = Some t -> exists f, In f isa /\ f_name f = t /\ f_ops f = [] /\ word f [] = 0x42000000 + n.
Proof.
  intros N. assert (X := tlb_words). rewrite forallb_forall in X. specialize (X (n, t) (num_assoc_in _ _ _ N)). unfold tlb_word_ok in X. apply existsb_exists in X as (f & If & X).
  rewrite !andb_true_iff in X. destruct X as [[X1 X2] X3]. apply str_eqb_spec in X1. apply Z.eqb_eq in X3. exists f. split; [exact If|]. split; [exact X1|].
  split; [destruct (f_ops f); [reflexivity|discriminate X2]|exact X3].
Qed.
Lemma branch_place f ks os d q : f_ops f = ks ++ [Branch16] -> List.length os = List.length ks -> word f (os ++ [OInt q]) = word f (os ++ [OInt d]) - d mod 65536 + q mod 65536.
Proof.
  intros F L. unfold word, ops_word. rewrite F, !combine_app by (now symmetry). rewrite !map_app. cbn [combine map fst snd place].
  assert (S : forall l x, sumZ (l ++ [x]) = sumZ l + x) by (unfold sumZ; induction l as [|y l IH]; intros x; cbn [app fold_right]; [lia|rewrite IH; lia]).
  rewrite !S. lia.
Qed.

Section Line.
Variables (base : Z) (n : nat).
Hypothesis B : is_word base.
Hypothesis L : base + 4 * Z.of_nat n < 2 ^ 32.

Lemma acceptable_line all before w i : instruction_count all = n -> is_word w -> instruction_count before = i -> acceptable base n w ->
  program_line base [] all before (shown_text base w) [reassembled base i w].
Proof.
  intros Na Ww Ci (Sh & Br & Cd). unfold shown_as_instruction in Sh. unfold reassembled. destruct (read_word w) as [f|] eqn:R.
  - assert (If := read_word_in _ _ R). assert (If' : In f (isa ++ idioms)) by (apply in_or_app; now left).
    destruct (text f (shown_operands base w (f_ops f))) as [t|] eqn:T; [clear Sh|congruence].
    assert (St : shown_text base w = t) by (unfold shown_text; now rewrite R, T).
    assert (Sa : shown_as base w = word f (shown_operands base w (f_ops f))) by (unfold shown_as; now rewrite R, T).
    destruct (shown_cases base w f Ww B R) as (w2 & W2 & R2 & Eo & _). set (os := shown_operands base w (f_ops f)) in *.
    assert (Rg : Forall2 ranged (f_ops f) os) by (rewrite <- Eo; now apply extract_ops_ranged).
    assert (Native : Forall2 notation_fits (f_ops f) os -> program_line base [] all before (shown_text base w) [word f os]).
    { intros Nf. rewrite St. apply pl_native; auto; [now apply text_line|]. intros _. left. exact (text_starts f os t T (table_name f If')). }
    destruct (text_statement f os t T) as (ts & Ot & Li).
    destruct (kinds_of f If) as [P|ks g FO P C G|FO C|FO Nj Wj].
    + rewrite forallb_forall in P.
      rewrite (no_kind is_branch16 w f R), (no_kind is_target26 w f R) by (intros o I; specialize (P o I); destruct o; (reflexivity || discriminate P)).
      rewrite Sa. apply Native. apply plain_all; [apply forallb_forall; exact P|exact Rg].
    + assert (Ib : In Branch16 (f_ops f)) by (rewrite FO; apply in_or_app; right; now left).
      rewrite (a_kind is_branch16 w f _ R Ib eq_refl). destruct Br as [Sm Is]; [now exists f|].
      assert (Fb := field_bound w 0 16 ltac:(lia)). set (d := field w 0 16) in *.
      assert (Sp : os = map (extract base w) (f_ops f)) by (apply shown_plain; intros _; fold d; lia).
      assert (Sd : signed16 d = d) by (apply signed16_small; unfold is_word in B; lia).
      assert (Eos : os = map (extract base w) ks ++ [OInt d]) by (rewrite Sp, FO, map_app; cbn [map extract]; fold d; now rewrite Sd).
      rewrite Eos in Ot, Rg, Sa. rewrite FO in Ot, Rg.
      apply forall2_split in Rg as [Rg _]; [|now rewrite map_length].
      apply operands_text_app in Ot as (ts' & tb & Ot & Eb & ->); [|now rewrite map_length]. cbn [operands_text operand_text] in Eb. apply some_inj2 in Eb. subst tb.
      assert (Bl : branch_line f (map (extract base w) ks) (signed_text d) t).
      { exists ks, ts'. split; [exact FO|]. split; [now rewrite map_length|]. split; [|exact Li]. apply operands_text_spelling; [now apply plain_all|exact Ot]. }
      assert (Nu : numeral (signed_text d) d).
      { unfold signed_text. destruct (Z.ltb_spec d 0); [lia|]. apply num_hex, hex_numeral. lia. }
      rewrite Sa, (branch_field f _ _ t d If' Bl). change (2 ^ 16) with 65536. rewrite <- (branch_place f ks (map (extract base w) ks) d _ FO) by (now rewrite map_length).
      rewrite St, <- Ci. apply (pl_branch_number base [] all before f (map (extract base w) ks) (signed_text d) d t If' Bl Nu); rewrite ?Na; unfold is_word in B; lia.
    + rewrite (no_kind is_branch16 w f R), (no_kind is_target26 w f R) by (rewrite FO; intros o [<-|[]]; reflexivity).
      rewrite Sa. apply Native. assert (Cw : code_word w) by (exists f; rewrite FO; split; [exact R|now left]). specialize (Cd Cw).
      unfold os. rewrite FO. constructor; [|constructor]. assert (F := field_bound w 6 20 ltac:(lia)). split; [exact F|exact Cd].
    + assert (It : In Target26 (f_ops f)) by (rewrite FO; now left).
      rewrite (no_kind is_branch16 w f R) by (rewrite FO; intros o [<-|[]]; reflexivity). rewrite (a_kind is_target26 w f _ R It eq_refl).
      set (g := field w 0 26). set (a := base / 2 ^ 28 * 2 ^ 28 + g * 4). assert (Eos : os = [OInt a]) by (unfold os; rewrite FO; reflexivity).
      assert (Rv := field_bound w 0 26 ltac:(lia)). fold g in Rv.
      rewrite Eos, FO in Rg. assert (Ra : 0 <= a < 2 ^ 32) by (inversion Rg; assumption). rewrite Eos, FO in Ot. cbn [operands_text operand_text] in Ot. apply some_inj2 in Ot. subst ts.
      assert (A4 : a / 4 mod 2 ^ 26 = g).
      { unfold a. rewrite Z.div_add by lia. change (2 ^ 28) with (2 ^ 26 * 4) at 2. rewrite Z.mul_assoc, Z.div_mul by lia. rewrite Z.add_comm, Z.mod_add by lia. now apply Z.mod_small. }
      assert (A26 : a mod 2 ^ 26 / 4 = g mod 2 ^ 24).
      { change (2 ^ 26) with (4 * 2 ^ 24). unfold a. rewrite (Z.mul_comm g 4). change (2 ^ 28) with (4 * 2 ^ 24 * 4) at 2. rewrite Z.mul_assoc.
        replace (base / 2 ^ 28 * (4 * 2 ^ 24) * 4 + 4 * g) with (4 * g + (base / 2 ^ 28 * 4) * (4 * 2 ^ 24)) by lia. rewrite Z.mod_add by lia. rewrite Zmult_mod_distr_l, Z.mul_comm. apply Z.div_mul. lia. }
      assert (Sw : shown_as base w = jump_code (f_name f) * 2 ^ 26 + g).
      { rewrite Sa, Eos, <- Wj. unfold word, ops_word, sumZ. rewrite FO. cbn [combine map fst snd place fold_right]. rewrite A4. change (0 / 4 mod 2 ^ 26) with 0. lia. }
      rewrite Sw, jump_word_field by lia. replace (jump_code (f_name f) * 2 ^ 26 + g - g + g mod 2 ^ 24) with (jump_word (f_name f) a) by (unfold jump_word; rewrite A26; unfold jump_opcode, jump_code; lia).
      rewrite St. apply (pl_jump_address base [] all before (f_name f) (#"0x" ++ hexU a) a t); [split; [exact Nj|exact Li]|apply hexU_plain; lia| |exact Ra].
      apply na_number; [|intros b []]. apply num_hex, hexU_numeral. lia.
  - unfold has_kind. rewrite R. destruct Sh as (N & F1 & F2). destruct (num_assoc (field w 0 6) tlb_names) as [t|] eqn:Nt; [clear N|congruence].
    assert (St : shown_text base w = t) by (unfold shown_text; rewrite R; unfold unread_text; now rewrite Nt, F1, F2).
    assert (Sa : shown_as base w = 0x42000000 + field w 0 6) by (unfold shown_as; now rewrite R, Nt, F1, F2).
    destruct (tlb_word _ _ Nt) as (f & If & Fn & Fo & Wf). assert (If' : In f (isa ++ idioms)) by (apply in_or_app; now left).
    assert (T : text f [] = Some t) by (unfold text; rewrite Fo, <- Fn; reflexivity).
    rewrite Sa, <- Wf, St. apply pl_native; [exact If'| |rewrite Fo; constructor|].
    + apply text_line; [rewrite Fo; constructor|exact T].
    + intros _. left. exact (text_starts f [] t T (table_name f If')).
Qed.
End Line.

(** ** If every word is acceptable *)
Section All.
Variables (rt : runtime) (base : Z) (ws : list Z).
Hypothesis Or : orders rt.
Hypothesis B : is_word base.
Hypothesis W : Forall is_word ws.
Hypothesis L : base + 4 * Z.of_nat (List.length ws) < 2 ^ 32.
Hypothesis Acc : Forall (acceptable base (List.length ws)) ws.
Let all := map (shown_text base) ws.

Lemma acc_program : forall post pre, ws = pre ++ post ->
  program base [] all (map (shown_text base) pre) (map (shown_text base) post) (map (fun w => [w]) (reassembled_from base (List.length pre) post)).
Proof.
  induction post as [|w post IH]; intros pre E; cbn [map reassembled_from]; constructor.
  - assert (Ww : is_word w) by (rewrite E in W; apply Forall_app in W as [_ W2]; now inversion W2).
    assert (Aw : acceptable base (List.length ws) w) by (rewrite Forall_forall in Acc; apply Acc; rewrite E; apply in_or_app; right; now left).
    apply (acceptable_line base (List.length ws) B L all); [|exact Ww| |exact Aw].
    + exact (all_count base ws B W ws (incl_refl ws)).
    + apply (all_count base ws B W). intros x I. rewrite E. apply in_or_app. now left.
  - specialize (IH (pre ++ [w])). rewrite map_app, app_length, Nat.add_1_r in IH. cbn [map] in IH. apply IH. now rewrite <- app_assoc.
Qed.

Theorem listing_accepted : exists out, assemble rt (set_base base m_new) (join [nl] all) = Ok out /\ get_bytes out = reassembled_from base 0 ws.
Proof.
  assert (El : lines (join [nl] all) = all).
  { apply lines_join_proper; apply Forall_forall; intros l I; apply in_map_iff in I as (w & <- & I); rewrite Forall_forall in W;
    destruct (shown_line base w (W w I) B) as (_ & Cl & Ne); [now apply clear_proper|exact Ne]. }
  destruct (program_accepted rt (set_base base m_new) (join [nl] all) (map (fun w => [w]) (reassembled_from base 0 ws))) as (out & A & _ & G).
  - intros a n [].
  - exact Or.
  - intros _. rewrite El. unfold all at 1. rewrite (all_count base ws B W) by apply incl_refl. unfold is_word in B. change (m_base (set_base base m_new)) with base. lia.
  - unfold distinct_labels. rewrite El. rewrite (no_labels 0%nat all); [constructor|]. intros l I. unfold all in I. apply in_map_iff in I as (w & <- & I). rewrite Forall_forall in W. apply (shown_line base w); auto.
  - rewrite El. exact (acc_program ws [] eq_refl).
  - exists out. split; [exact A|]. rewrite G. apply concat_singles.
Qed.
End All.

(** ** If the listing assembles *)
Section Back2.
Variables (rt : runtime) (base : Z) (ws : list Z) (input : str) (out : list inst).
Let m := set_base base m_new.
Hypothesis B : is_word base.
Hypothesis W : Forall is_word ws.
Hypothesis E : lines input = map (shown_text base) ws.
Hypothesis A : assemble rt m input = Ok out.

Lemma some_acceptable ws1 w ws2 : ws = ws1 ++ w :: ws2 -> acceptable base (List.length ws) w.
Proof.
  intros Ew. assert (Hn : instruction_count (lines input) = List.length ws) by (rewrite E, <- (map_length (shown_text base) ws); apply count_all; intros l I; apply (all_instructions base ws input B W E); rewrite E; exact I).
  destruct (here base ws input B W E ws1 w ws2 Ew) as (El & Cn & Ww).
  assert (Nd := no_data rt base ws input out B W E A ws1 w ws2 Ew). assert (Mi := no_minus base ws input B W E).
  unfold acceptable, shown_as_instruction.
  destruct (read_word w) as [f|] eqn:R.
  - assert (If := read_word_in _ _ R). assert (If' : In f (isa ++ idioms)) by (apply in_or_app; now left).
    destruct (shown_cases base w f Ww B R) as (w2 & Sw). assert (Sw' := Sw). destruct Sw' as (W2 & R2 & Eo & _).
    destruct (text f (shown_operands base w (f_ops f))) as [t|] eqn:T.
    2: { exfalso. apply Nd. unfold shown_text. rewrite R, T. now apply unnamed_operation. }
    split; [discriminate|].
    assert (St : shown_text base w = t) by (unfold shown_text; now rewrite R, T).
    rewrite <- Eo in T. set (os := map (extract base w2) (f_ops f)) in *.
    assert (Rg : Forall2 ranged (f_ops f) os) by (now apply extract_ops_ranged).
    assert (Sts := text_starts f os t T (table_name f If')).
    destruct (made rt base ws input out B W E A ws1 w ws2 Ew) as (s & s1 & wn & i & i1 & i' & Tl & Pl & Rd & Lo & Pi & _). change (set_base base m_new) with m in Rd, Lo, Pi. rewrite St in Rd, Pi.
    assert (Nn : no_nl t). { apply (lines_no_nl input). rewrite El. apply in_or_app. right. left. exact St. }
    destruct (text_statement f os t T) as (ts & Ot & Li). assert (Oks := operands_text_ok _ _ _ Rg Ot).
    destruct (line_parse_parts (mk_parser rt m input) s1 (f_name f) ts t (table_name f If') Oks Nn Li) as (op & arg & xs & SL & Ar & _ & _ & Ps).
    rewrite Ps in Pi. unfold branch_word, code_word.
    assert (NoB : ~ In Branch16 (f_ops f) -> ~ exists g, read_word w = Some g /\ In Branch16 (f_ops g)) by (intros N (g & Rg' & I); assert (g = f) by congruence; now subst g).
    assert (NoC : ~ In Code20 (f_ops f) -> ~ exists g, read_word w = Some g /\ In Code20 (f_ops g)) by (intros N (g & Rg' & I); assert (g = f) by congruence; now subst g).
    destruct (kinds_of f If) as [P|ks g FO P C G|FO C|FO Nj Wj].
    + rewrite forallb_forall in P. split; intros X; exfalso.
      * apply NoB in X; [exact X|]. intros I. discriminate (P _ I).
      * apply NoC in X; [exact X|]. intros I. discriminate (P _ I).
    + split.
      2: { intros X. exfalso. apply NoC in X; [exact X|]. rewrite FO. intros I. apply in_app_or in I as [I|[I|[]]]; [|discriminate I]. rewrite forallb_forall in P. discriminate (P _ I). }
      intros _.
      rewrite <- SL in C. unfold os in Ot, Rg. rewrite FO, map_app in Ot, Rg. cbn [map extract] in Ot, Rg. set (d := signed16 (field w2 0 16)) in *.
      apply forall2_split in Rg as [Rg Rd2]; [|now rewrite map_length]. assert (Rd3 : -32768 <= d < 32768) by (inversion Rd2; assumption). clear Rd2.
      apply operands_text_app in Ot as (ts' & tb & Ot & Eb & ->); [|now rewrite map_length]. cbn [operands_text operand_text] in Eb. apply some_inj2 in Eb. subst tb.
      assert (Sn : signed_numeral (signed_text d) d) by (now apply signed_text_numeral). destruct (Z.ltb_spec d 0) as [Neg|Pos].
      * exfalso. destruct Ar as [[Ex _]|[_ F]]; [destruct ts'; discriminate Ex|]. apply Forall2_app_inv_l in F as (xs' & xl & _ & F & ->).
        apply forall2_one in F as (x & -> & Pd & _). destruct (branch_operand _ _ _ _ _ _ _ _ _ C G Pi) as [im Im].
        destruct (negative_refused (mk_parser rt m input) s1 t (signed_text d) x d Rd Lo Pd Sn Neg) as [y Y]. congruence.
      * assert (Bl : branch_line f (map (extract base w2) ks) (signed_text d) t).
        { exists ks, ts'. split; [exact FO|]. split; [now rewrite map_length|]. split; [|exact Li]. apply operands_text_spelling; [now apply plain_all|exact Ot]. }
        assert (Nu : numeral (signed_text d) d).
        { unfold signed_text. destruct (Z.ltb_spec d 0); [lia|]. apply num_hex, hex_numeral. lia. }
        rewrite St in El.
        assert (Is : base <= d <= base + 4 * Z.of_nat (List.length ws)).
        { destruct (Z.ltb_spec d base) as [Lo1|Lo1]; [exfalso|destruct (Z.ltb_spec (base + 4 * Z.of_nat (List.length ws)) d) as [Hi1|Hi1]; [exfalso|lia]].
          all: assert (Ob : outside_branch rt m input (map (shown_text base) ws1) t (map (shown_text base) ws2) f (map (extract base w2) ks) d)
            by (constructor; [exact El|exact If'|now exists (signed_text d)|lia|rewrite Hn; change (m_base m) with base; lia|apply B|intros p X; rewrite A in X; discriminate X]).
          all: destruct (C34_reported _ _ _ _ _ _ _ _ _ Ob) as (es & last & bounds & X & _); rewrite A in X; discriminate X. }
        unfold os in Eo. rewrite FO in Eo. unfold shown_operands in Eo. rewrite !map_app in Eo. cbn [map extract] in Eo. apply app_inj_tail in Eo as [Eo Ed]. fold d in Ed.
        assert (Fw := field_bound w 0 16 ltac:(lia)).
        assert (w2 = w) as ->.
        { destruct Sw as (_ & _ & _ & [X|(_ & _ & X)]); [exact X|]. exfalso. rewrite X in Ed. change (signed16 32767) with 32767 in Ed. cbn [shown_operand] in Ed. change (signed_operand Branch16 && (32767 =? 32767))%bool with true in Ed. cbv iota in Ed.
          assert (d = -32767) by congruence. lia. }
        assert (Dd : d = signed16 (field w 0 16)) by reflexivity. unfold signed16 in Dd. destruct (Z.ltb_spec (field w 0 16) 32768) as [Sm|Sm]; [|lia].
        assert (Dn : field w 0 16 <> 32767).
        { intros H. rewrite H in Ed. change (signed16 32767) with 32767 in Ed. cbn [shown_operand] in Ed. change (signed_operand Branch16 && (32767 =? 32767))%bool with true in Ed. cbv iota in Ed.
          assert (d = -32767) by congruence. lia. }
        rewrite <- Dd. split; [lia|exact Is].
    + split; [intros X; exfalso; apply NoB in X; [exact X|rewrite FO; intros [I|[]]; discriminate I]|]. intros _.
      rewrite <- SL in C. set (v := field w2 6 20). assert (Eos : os = [OInt v]) by (unfold os; rewrite FO; reflexivity).
      assert (Ev : v = field w 6 20). { assert (Eo2 := Eo). rewrite Eos, FO in Eo2. unfold shown_operands in Eo2. cbn [map extract shown_operand signed_operand andb] in Eo2. congruence. }
      assert (Rv := field_bound w2 6 20 ltac:(lia)). fold v in Rv. change (2 ^ 16) with 65536. rewrite <- Ev. destruct (Z.ltb_spec v 65536) as [Lt|Ge]; [exact Lt|].
      exfalso. rewrite FO, Eos in Ot. cbn [operands_text operand_text] in Ot. apply some_inj2 in Ot. subst ts.
      destruct Ar as [[Ex _]|[_ F]]; [discriminate Ex|]. apply forall2_one in F as (x & -> & Pd & _).
      assert (Nu : numeral (#"0x" ++ hex v) v) by (apply num_hex, hex_numeral; lia). assert (Sn : signed_numeral (#"0x" ++ hex v) v) by (now apply num_pos).
      assert (Nx : x <> []). { destruct Pd as (p & q & _ & _ & Ex). intros X. rewrite Ex in X. apply app_eq_nil in X as [_ X]. discriminate X. }
      destruct (code_operand _ _ _ _ _ _ _ C Pi Nx) as [im Im].
      assert (Tx : trim x = #"0x" ++ hex v).
      { destruct (numeral_shape _ _ Nu) as (radix & ds & Sh & _). destruct (number_operand_ok _ _ _ _ Sh) as (_ & _ & T1 & T2). exact (padded_trim _ _ Pd T1 T2). }
      assert (X := number_immediate (mk_parser rt m input) s1 u16 (trim x) (#"0x" ++ hex v) v t Rd Lo (or_intror eq_refl)). rewrite Tx in X, Im. specialize (X (padded_self _) Sn (fun _ _ => Nu)).
      assert (Ac : accepted u16 v = false) by (unfold accepted; change (it_min u16) with 0; change (it_max u16) with 65535; lia).
      rewrite Ac in X. destruct X as [d X]. congruence.
    + split; intros X; exfalso; [apply NoB in X|apply NoC in X]; try exact X; rewrite FO; intros [I|[]]; discriminate I.
  - assert (Su : shown_text base w = unread_text w) by (unfold shown_text; now rewrite R). unfold unread_text in Su.
    destruct (num_assoc (field w 0 6) tlb_names) as [t|] eqn:N; [|exfalso; apply Nd; rewrite Su; now apply data_text_operation].
    destruct ((field w 26 6 =? 16) && (field w 25 1 =? 0))%bool eqn:K; [|exfalso; apply Nd; rewrite Su; now apply data_text_operation].
    apply andb_true_iff in K as [K1 K2]. apply Z.eqb_eq in K1, K2.
    split; [split; [discriminate|auto]|]. unfold branch_word, code_word. split; intros (g & X & _); congruence.
Qed.
Theorem listing_acceptable : Forall (acceptable base (List.length ws)) ws.
Proof. apply Forall_forall. intros w I. apply in_split in I as (ws1 & ws2 & Ew). exact (some_acceptable ws1 w ws2 Ew). Qed.
End Back2.
