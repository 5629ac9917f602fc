(** * DefaultExact: exactly which words come back from a default-mode listing (proofs only). *)

From Coq Require Import Lia.
From Verif Require Import PropsDisasm PropsLabels PropsCompare PropsRefs PropsImm WarnProofs QuietProofs ImmLines Lib SpecIsa SpecListing StrLemmas NumLemmas DecodeProofs DisasmProofs ListingProofs InjProofs DisasmMore
  TextProofs OperandProofs NativeProofs LineProofs ScanProofs ProgProofs BranchProofs LabelProofs AsmProofs RoundProofs CauseProofs FatalProofs CodingProofs ExactProofs RoundExact DefaultProofs DefaultLines
  SpecText SpecProgram SpecLabels SpecPanic SpecCause SpecReading SpecExact SpecDefault.

Section Program.
Variables (rt : runtime) (m : mipsasm) (input : str) (out : list inst).
Let base := m_base m.
Hypothesis B : is_word (m_base m).
Hypothesis Rs : readable (m_syms m).
Hypothesis A : assemble rt m input = Ok out.
Hypothesis Id : forall n k, In (n, k) (label_table 0 (lines input)) -> identifier n.

Lemma ids_no_minus : no_minus_labels (lines input).
Proof.
  intros n k I. apply Id in I as [D F]. destruct n as [|c n]; [reflexivity|]. cbn [forallb] in F. apply andb_prop in F as [F _]. clear - F. destruct c as [[] [] [] [] [] [] [] []]; try reflexivity; discriminate F.
Qed.

(** What becomes of a line of the program. *)
Lemma made_line pre t post : lines input = pre ++ t :: post -> role_of t = Instruction -> exists s s1 wn i i1 i',
  ready (mk_parser rt m input) s1 t /\ labels_ok s1
  /\ parse_inst (mk_parser rt m input) s1 (clean t) = (wn, Ok i)
  /\ adjust_one (mk_parser rt m input) s (instruction_count pre) (S (List.length pre)) i = Ok (i1, [])
  /\ @assemble_inst perror (rt_oc rt) i1 = Ok i' /\ nth_error out (instruction_count pre) = Some i'.
Proof.
  intros El Ro. assert (A' := A). apply assemble_ok in A' as (s & is1 & As). set (e := mk_parser rt m input) in *.
  assert (N := nl_of_lines input).
  destruct (assembled_at e _ s is1 out _ t _ N As El) as (s1 & S1 & E1 & L1 & P1 & T1 & X). rewrite Ro in X.
  destruct X as (wn & i & i1 & i' & o1 & o2 & P' & _ & Ad & Ai & -> & Lo & _).
  exists (final e s), (bump s1), wn, i, i1, i'. split; [|split; [|repeat split; auto]].
  - apply (after_ready e pre t post); [exact El|]. split; [exact P1|]. rewrite L1. apply instruction_count_le.
  - intros n k I. cbn [bump p_labels] in I. rewrite T1 in I. apply assoc_in in I.
    assert (J : In (n, k) (label_table 0 (lines input))) by (rewrite El, label_table_app; apply in_or_app; now left).
    apply Id in J as [D F]. destruct n as [|c n]; [destruct D|]. cbn [forallb] in F. apply andb_prop in F as [F _]. split; [exact D|]. intros ->. discriminate F.
  - rewrite nth_error_app2 by lia. now rewrite Lo, Nat.sub_diag.
Qed.

Lemma seen_not_data pre t post : lines input = pre ++ t :: post -> role_of t = Instruction -> operation t <> #".word".
Proof.
  intros El Ro O. destruct (made_line pre t post El Ro) as (s & s1 & wn & i & i1 & i' & _ & _ & P & Ad & Ai & _).
  destruct (word_parse _ _ _ _ _ Ro O P) as [v ->]. cbn [adjust_one] in Ad. injection Ad as <-. vm_compute in Ai. discriminate Ai.
Qed.

(** A call of a symbol. *)
Definition calls w t : Prop := exists name n, field w 26 6 = jump_code name /\ jump_line name n t /\ In (jump_address (m_base m) w, n) (m_syms m).
Lemma jump_formats : bucket 2 = [mk_format #"j" [op6 2] [Target26]] /\ bucket 3 = [mk_format #"jal" [op6 3] [Target26]].
Proof. split; vm_compute; reflexivity. Qed.
Lemma jump_read w : field w 26 6 = 2 \/ field w 26 6 = 3 -> exists name, read_word w = Some (mk_format name [op6 (field w 26 6)] [Target26]) /\ In name [ #"j"; #"jal" ].
Proof.
  intros K. rewrite read_word_bucket. destruct jump_formats as [J2 J3]. destruct K as [K|K]; rewrite K; [rewrite J2|rewrite J3]; cbn [find]; unfold selects; cbn [forallb f_key op6]; rewrite K.
  - exists #"j". split; [reflexivity|]. cbn. auto.
  - exists #"jal". split; [reflexivity|]. cbn. auto.
Qed.
Lemma jump_returns b w : is_word b -> is_word w -> field w 26 6 = 2 \/ field w 26 6 = 3 -> jump_address b w mod 2 ^ 28 < 2 ^ 26 -> returns b w.
Proof.
  intros Wb W K Lo. destruct (jump_read w K) as (name & R & _). set (f := mk_format name [op6 (field w 26 6)] [Target26]) in *.
  set (a := jump_address b w) in *. assert (Rf := field_bound w 0 26 ltac:(lia)).
  assert (Ra : fits Target26 (OInt a)) by exact (extracted_fits b w Target26 Wb).
  assert (D : a / 4 mod 2 ^ 26 = field w 0 26).
  { unfold a, jump_address. rewrite Z.div_add by lia. change (2 ^ 28) with (2 ^ 26 * 4) at 2. rewrite Z.mul_assoc, Z.div_mul by lia. rewrite Z.add_comm, Z.mod_add by lia. now apply Z.mod_small. }
  apply (comes_back b w w f W Wb R).
  - split; [exact W|]. split; [exact R|]. split; [reflexivity|now left].
  - cbn [f map f_ops extract]. constructor; [|constructor]. split; [exact Ra|exact Lo].
  - cbn [f map f_ops extract]. discriminate.
  - unfold word. cbn [f map f_ops f_key extract]. change (b / 2 ^ 28 * 2 ^ 28 + field w 0 26 * 4) with a. unfold key_word, ops_word, op6. cbn [map combine fst snd place sumZ]. rewrite D.
    assert (Sp := Z.div_mod w (2 ^ 26) ltac:(lia)). unfold field in *. rewrite Z.pow_0_r, Z.div_1_r in *. unfold is_word in W.
    rewrite (Z.mod_small (w / 2 ^ 26)); [clear - Sp; unfold sumZ; cbn [fold_right]; remember (w / 2 ^ 26) as q; remember (w mod 2 ^ 26) as r; lia|]. split; [apply Z.div_pos; lia|apply Z.div_lt_upper_bound; lia].
Qed.
Lemma call_back pre w t post : lines input = pre ++ t :: post -> is_word w -> calls w t ->
  exists i w', nth_error out (instruction_count pre) = Some i /\ inst_bytes i = [w'] /\ (w' = w -> returns (m_base m) w).
Proof.
  intros El Ww (name & n & K & J & I).
  assert (Kc : field w 26 6 = 2 \/ field w 26 6 = 3) by (rewrite K; unfold jump_code; destruct (str_eqb name #"j"); auto).
  assert (Ra : fits Target26 (OInt (jump_address (m_base m) w))) by exact (extracted_fits (m_base m) w Target26 B).
  assert (Sj : symbol_jump rt m input out pre t post name (jump_address (m_base m) w)).
  { constructor; [exact A|exact El|]. exists n. split; [exact J|]. split; [exact I|]. split; [exact (rd_names _ Rs)|]. split; [exact (identifier_plain n (rd_identifiers _ Rs _ _ I))|]. apply Ra. }
  apply C41_jump_word in Sj. set (a := jump_address (m_base m) w) in *. unfold words_of in Sj. rewrite nth_error_map in Sj. destruct (nth_error out (instruction_count pre)) as [j|] eqn:Nj; [|discriminate Sj].
  cbn [option_map] in Sj. apply some_inj2 in Sj. exists j, (jump_code name * 2 ^ 26 + a mod 2 ^ 26 / 4). split; [reflexivity|]. split; [exact Sj|].
  intros Ex. apply jump_returns; auto. fold a.
  assert (Rm := Z.mod_pos_bound a (2 ^ 26) ltac:(lia)). assert (Q : 0 <= a mod 2 ^ 26 / 4 < 2 ^ 24) by (split; [apply Z.div_pos; lia|apply Z.div_lt_upper_bound; lia]).
  assert (X : field w 0 26 = a mod 2 ^ 26 / 4) by (rewrite <- Ex; apply jump_word_field; lia).
  unfold a, jump_address. rewrite Z.add_comm, Z.mod_add by lia. fold a. rewrite Z.mod_small; lia.
Qed.
Theorem line_back pre w t post : lines input = pre ++ t :: post -> is_word w -> line_seen (m_base m) w t -> 32768 <= m_base m \/ ~ branch_word w ->
  exists i w', nth_error out (instruction_count pre) = Some i /\ inst_bytes i = [w'] /\ (w' = w -> returns (m_base m) w).
Proof.
  intros El Ww Ls Hb. fold base in Ls, Hb |- *. change (is_word base) in B. destruct Ls as [Ro Pr Ne Sh _].
  assert (Nd := seen_not_data pre t post El Ro). assert (Mi := ids_no_minus).
  assert (Sy : named_symbols (m_syms m)) by (intros a n I; apply (rd_identifiers _ Rs) in I as [D _]; destruct n; [exact Logic.I|exact D]).
  assert (Nn : no_nl t) by (apply (lines_no_nl input); rewrite El; apply in_or_app; right; now left).
  destruct Sh as [O|f w2 ts R Sw Ot Tx Li Sts|f R If Fo Rw Li Sts]; [contradiction| |].
  - assert (If := read_word_in _ _ R). assert (If' : In f (isa ++ idioms)) by (apply in_or_app; now left).
    assert (Sw' := Sw). destruct Sw' as (W2 & R2 & Eo & _).
    set (os := map (extract base w2) (f_ops f)) in *.
    assert (Rg : Forall2 ranged (f_ops f) os) by (now apply extract_ops_ranged).
    assert (Fit : Forall2 notation_fits (f_ops f) os -> exists i w', nth_error out (instruction_count pre) = Some i /\ inst_bytes i = [w'] /\ (w' = w -> returns base w)).
    { intros Nf. destruct (native_anywhere rt m input out pre t post f os Sy A) as (i & Ni & Bi); auto.
      - exists ts. split; [exact Li|]. split; [now apply operands_text_spelling|]. apply operands_text_spec in Ot. lia.
      - intros _. now left.
      - exists i, (word f os). split; [exact Ni|]. split; [exact Bi|]. intros Wb. now apply (comes_back base w w2 f). }
    destruct (made_line pre t post El Ro) as (s & s1 & wn & i & i1 & i' & Rd & Lo & Pi & _).
    assert (Oks := operands_text_ok _ _ _ Rg Ot).
    destruct (line_parse_parts (mk_parser rt m input) s1 (f_name f) ts t (table_name f If') Oks Nn Li) as (op & arg & xs & SL & Ar & _ & _ & Ps).
    rewrite Ps in Pi.
    destruct (kinds_of f If) as [P|ks g FO P C G|FO C|FO Nj Wj].
    + apply Fit. now apply plain_all.
    + (* a branch *)
      rewrite <- SL in C. unfold os in Ot, Rg. rewrite FO, map_app in Ot, Rg. cbn [map extract] in Ot, Rg. set (d := signed16 (field w2 0 16)) in *.
      apply forall2_split in Rg as [Rg Rd2]; [|now rewrite map_length]. assert (Rd3 : -32768 <= d < 32768) by (inversion Rd2; assumption). clear Rd2.
      apply operands_text_app in Ot as (ts' & tb & Ot & Eb & ->); [|now rewrite map_length]. cbn [operands_text operand_text] in Eb. apply some_inj2 in Eb. subst tb.
      assert (Sn : signed_numeral (signed_text d) d) by (now apply signed_text_numeral). exfalso. destruct (Z.ltb_spec d 0) as [Neg|Pos].
      * destruct Ar as [[Ex _]|[_ F]]; [destruct ts'; discriminate Ex|]. apply Forall2_app_inv_l in F as (xs' & xl & _ & F & ->).
        apply forall2_one in F as (x & -> & Pd & _). destruct (branch_operand _ _ _ _ _ _ _ _ _ C G Pi) as [im Im].
        destruct (negative_refused (mk_parser rt m input) s1 t (signed_text d) x d Rd Lo Pd Sn Neg) as [y Y]. congruence.
      * assert (Ob : outside_branch rt m input pre t post f (map (extract base w2) ks) d).
        { constructor.
          - exact El.
          - exact If'.
          - exists (signed_text d). split.
            + exists ks, ts'. split; [exact FO|]. split; [now rewrite map_length|]. split; [|exact Li]. apply operands_text_spelling; [now apply plain_all|exact Ot].
            + unfold signed_text. destruct (Z.ltb_spec d 0); [lia|]. apply num_hex, hex_numeral. lia.
          - lia.
          - left. change (m_base m) with base. destruct Hb as [Hb|Hb]; [lia|]. exfalso. apply Hb. exists f. split; [exact R|]. rewrite FO. apply in_or_app. right. now left.
          - apply B.
          - intros p X. rewrite A in X. discriminate X. }
        destruct (C34_reported _ _ _ _ _ _ _ _ _ Ob) as (es & last & bounds & X & _). rewrite A in X. discriminate X.
    + (* a code *)
      rewrite <- SL in C. set (v := field w2 6 20). assert (Eos : os = [OInt v]) by (unfold os; rewrite FO; reflexivity).
      assert (Rv := field_bound w2 6 20 ltac:(lia)). fold v in Rv. destruct (Z.ltb_spec v 65536) as [Lt|Ge].
      * apply Fit. rewrite FO, Eos. constructor; [|constructor]. split; [exact Rv|exact Lt].
      * exfalso. rewrite FO, Eos in Ot. cbn [operands_text operand_text] in Ot. apply some_inj2 in Ot. subst ts.
        destruct Ar as [[Ex _]|[_ F]]; [discriminate Ex|]. apply forall2_one in F as (x & -> & Pd & _).
        assert (Nu : numeral (#"0x" ++ hex v) v) by (apply num_hex, hex_numeral; lia). assert (Sn : signed_numeral (#"0x" ++ hex v) v) by (now apply num_pos).
        assert (Nx : x <> []). { destruct Pd as (p & q & _ & _ & Ex). intros X. rewrite Ex in X. apply app_eq_nil in X as [_ X]. discriminate X. }
        destruct (code_operand _ _ _ _ _ _ _ C Pi Nx) as [im Im].
        assert (Tx2 : trim x = #"0x" ++ hex v).
        { destruct (numeral_shape _ _ Nu) as (radix & ds & Shp & _). destruct (number_operand_ok _ _ _ _ Shp) as (_ & _ & T1 & T2). exact (padded_trim _ _ Pd T1 T2). }
        assert (X := number_immediate (mk_parser rt m input) s1 u16 (trim x) (#"0x" ++ hex v) v t Rd Lo (or_intror eq_refl)). rewrite Tx2 in X, Im. specialize (X (padded_self _) Sn (fun _ _ => Nu)).
        assert (Ac : accepted u16 v = false) by (unfold accepted; change (it_min u16) with 0; change (it_max u16) with 65535; lia).
        rewrite Ac in X. destruct X as [d X]. congruence.
    + (* a jump *)
      set (g := field w2 0 26). set (a := base / 2 ^ 28 * 2 ^ 28 + g * 4). assert (Eos : os = [OInt a]) by (unfold os; rewrite FO; reflexivity).
      assert (Rv := field_bound w2 0 26 ltac:(lia)). fold g in Rv. assert (Am : a mod 2 ^ 28 = g * 4).
      { unfold a. rewrite Z.add_comm, Z.mod_add by lia. apply Z.mod_small. lia. }
      assert (A4 : a mod 4 = 0).
      { unfold a. change (2 ^ 28) with (2 ^ 26 * 4) at 2. rewrite Z.mul_assoc, <- Z.mul_add_distr_r. apply Z.mod_mul. lia. }
      rewrite FO, Eos in Rg. assert (Ra : 0 <= a < 2 ^ 32) by (inversion Rg; assumption).
      destruct (Z.ltb_spec (a mod 2 ^ 28) (2 ^ 26)) as [Lt|Ge].
      * apply Fit. rewrite FO, Eos. constructor; [|constructor]. split; [split; assumption|exact Lt].
      * rewrite FO, Eos in Ot. cbn [operands_text operand_text] in Ot. apply some_inj2 in Ot. subst ts.
        assert (Nu : numeral (#"0x" ++ hexU a) a) by (apply num_hex, hexU_numeral; lia).
        assert (Nj' : number_jump rt m input out pre t post (f_name f) a).
        { constructor; [exact A|exact El| |lia|exact A4]. exists (#"0x" ++ hexU a). split; [split; [exact Nj|exact Li]|]. split; [exact Nu|]. intros b I. apply (rd_identifiers _ Rs) in I as [D _]. discriminate D. }
        apply C13_jump_word in Nj'. unfold words_of in Nj'. rewrite nth_error_map in Nj'. destruct (nth_error out (instruction_count pre)) as [j|] eqn:Nj2; [|discriminate Nj'].
        cbn [option_map] in Nj'. apply some_inj2 in Nj'. exists j, (jump_code (f_name f) * 2 ^ 26 + a mod 2 ^ 26 / 4). split; [reflexivity|]. split; [exact Nj'|].
        intros Ex. exfalso. assert (w2 = w) as ->.
        { destruct Sw as (_ & _ & _ & [X|(_ & X & _)]); [exact X|]. unfold has_signed in X. rewrite FO in X. discriminate X. }
        assert (Rm := Z.mod_pos_bound a (2 ^ 26) ltac:(lia)). assert (Q : 0 <= a mod 2 ^ 26 / 4 < 2 ^ 24) by (split; [apply Z.div_pos; lia|apply Z.div_lt_upper_bound; lia]).
        assert (X : g = a mod 2 ^ 26 / 4).
        { unfold g. rewrite <- Ex. apply jump_word_field. lia. }
        lia.
  - assert (If' : In f (isa ++ idioms)) by (apply in_or_app; now left).
    destruct (native_anywhere rt m input out pre t post f [] Sy A) as (i & Ni & Bi); auto.
    + exists []. split; [exact Li|]. split; [rewrite Fo; constructor|now rewrite Fo].
    + rewrite Fo. constructor.
    + intros _. now left.
    + exists i, (word f []). split; [exact Ni|]. split; [exact Bi|]. intros Wb. rewrite Wb in Rw. congruence.
Qed.
End Program.

(** ** The listing around the lines *)

Lemma with_tab_bare t : with_tab t -> bare t.
Proof.
  intros (c & fmt & rs & rt & F & ->). change ("009"%char :: #"    " ++ dfreg rs ++ sep ++ dfreg rt) with ((["009"%char] ++ #"    ") ++ dfreg rs ++ sep ++ dfreg rt).
  repeat lazymatch goal with
  | |- bare (_ ++ _) => apply bare_app; split
  | |- bare (dfreg _) => apply dfreg_bare
  | |- bare (fcond_name c) => destruct c; apply bare_lit; reflexivity
  | |- bare fmt => destruct F as [<-|[<-|[]]]; apply bare_lit; reflexivity
  | |- bare _ => apply bare_lit; reflexivity
  end.
Qed.
Definition line_fine (t : str) : Prop := role_of t = Instruction /\ proper_line t /\ t <> [].
Lemma tab_fine t : with_tab t -> line_fine t.
Proof.
  intros T. assert (Ba := with_tab_bare t T). assert (E : exists r, t = "c"%char :: r) by (destruct T as (c & fmt & rs & rt & _ & ->); eexists; reflexivity). destruct E as [r ->].
  split; [apply plain_role; [now apply bare_plain|now apply trim_start]|]. split; [apply clear_proper; now apply bare_clear|discriminate].
Qed.

Lemma blocks_around syms base c n ls : readable syms -> 0 <= base -> base + 4 * Z.of_nat n <= 2 ^ 32 -> Forall line_fine ls -> forall i body, blocks syms base c n i ls body ->
  (i + List.length ls <= n)%nat ->
  Forall proper_line body
  /\ (body = [] \/ exists pre l, body = pre ++ [l] /\ l <> [])
  /\ (forall k nm j, In (nm, j) (label_table k body) -> identifier nm)
  /\ forall ls1 t ls2, ls = ls1 ++ t :: ls2 -> exists pre post, body = pre ++ t :: post /\ instruction_count pre = List.length ls1.
Proof.
  intros R B0 Bn F. induction F as [|t ls (L & P & Ne) F IH]; intros i body Bl Len; cbn [blocks] in Bl.
  - subst body. split; [constructor|]. split; [now left|]. split; [intros k nm j []|]. intros [|? ?] ? ? E; discriminate E.
  - cbn [List.length] in Len.
    assert (Ro : forall k r, label_table k (t :: r) = label_table (S k) r) by (intros k r; cbn [label_table]; now rewrite L).
    assert (Ct : forall r, instruction_count (t :: r) = S (instruction_count r)) by (intros r; unfold instruction_count; cbn [filter]; unfold is_instruction at 1; rewrite L; reflexivity).
    destruct (c i && Nat.ltb (S i) n) eqn:C.
    + destruct Bl as (name & rest & An & -> & Bl). apply IH in Bl as (G3 & G4 & G5 & G6); [|lia].
      apply andb_true_iff in C as [_ C]. apply Nat.ltb_lt in C.
      assert (Idn := address_name_identifier _ (base + 4 * Z.of_nat (S i)) name R ltac:(lia) An). destruct (label_proper name Idn) as [Lp Ln].
      assert (Rb : role_of ([] : str) = Empty) by (apply role_blank; exists [], []; repeat split; constructor; apply blank_nil).
      assert (Rl := role_label_line name _ Idn (label_line_own name)).
      assert (Cl : forall r, instruction_count (([] : str) :: (name ++ #":") :: r) = instruction_count r).
      { intros r. unfold instruction_count. cbn [filter]. assert (Ib : is_instruction ([] : str) = false) by (unfold is_instruction; now rewrite Rb).
        assert (Il : is_instruction (name ++ #":") = false) by (unfold is_instruction; rewrite Rl; now destruct (is_local name)). rewrite Ib, Il. reflexivity. }
      split; [|split; [|split]].
      * constructor; [exact P|]. constructor; [apply no_nl_spaced; intros x []|]. constructor; [exact Lp|exact G3].
      * right. destruct G4 as [->|(pre & l & -> & Nl)]; [exists [t; []], (name ++ #":"); now split|].
        exists (t :: [] :: (name ++ #":") :: pre), l. now split.
      * intros k nm j I. rewrite Ro in I. cbn [label_table] in I. rewrite Rb, Rl in I. destruct (is_local name); [eapply G5; exact I|].
        destruct I as [I|I]; [|eapply G5; exact I]. assert (nm = name) as -> by congruence. exact Idn.
      * intros [|x ls1] u ls2 E; cbn [app] in E.
        -- assert (t = u) as -> by congruence. eexists [], _. split; reflexivity.
        -- assert (t = x) as -> by congruence. assert (E2 : ls = ls1 ++ u :: ls2) by congruence. destruct (G6 _ _ _ E2) as (pre & post & -> & Cn).
           exists (x :: [] :: (name ++ #":") :: pre), post. split; [reflexivity|]. rewrite Ct, Cl, Cn. reflexivity.
    + destruct Bl as (rest & -> & Bl). apply IH in Bl as (G3 & G4 & G5 & G6); [|lia].
      split; [|split; [|split]].
      * now constructor.
      * right. destruct G4 as [->|(pre & l & -> & Nl)]; [exists [], t; now split|]. exists (t :: pre), l. now split.
      * intros k nm j I. rewrite Ro in I. eapply G5; exact I.
      * intros [|x ls1] u ls2 E; cbn [app] in E.
        -- assert (t = u) as -> by congruence. eexists [], _. split; reflexivity.
        -- assert (t = x) as -> by congruence. assert (E2 : ls = ls1 ++ u :: ls2) by congruence. destruct (G6 _ _ _ E2) as (pre & post & -> & Cn).
           exists (x :: pre), post. split; [reflexivity|]. rewrite Ct, Cn. reflexivity.
Qed.

Lemma symbol_text name op n : (op = J_J /\ name = #"j" \/ op = J_Jal /\ name = #"jal") -> identifier n ->
  jump_line name n (op11 (jop_name op) ++ n) /\ line_fine (op11 (jop_name op) ++ n).
Proof.
  intros K Id. assert (Nw : no_ws n) by now apply identifier_facts in Id. assert (Pn := identifier_plain n Id).
  assert (Sp : spaced (op11 (jop_name op) ++ n)).
  { apply spaced_app; [|now apply spaced_no_ws]. apply spaced_pad. destruct op; apply spaced_lit; vm_compute; reflexivity. }
  destruct (no_nl_spaced _ Sp) as [N P].
  assert (J : jump_line name n (op11 (jop_name op) ++ n)).
  { assert (exists g, blank g /\ op11 (jop_name op) = name ++ #" " ++ g) as (g & G & ->).
    { destruct K as [(-> & ->)|(-> & ->)]; [exists #"         "|exists #"       "]; split; vm_compute; reflexivity. }
    split; [destruct K as [(_ & ->)|(_ & ->)]; [now left|right; now left]|].
    exists [], (name ++ #" " ++ join #"," [g ++ n]), [], []. split; [apply blank_nil|]. split.
    - apply st_ops; [reflexivity|]. constructor; [|constructor]. exists g, []. split; [exact G|]. split; [apply blank_nil|now rewrite app_nil_r].
    - split; [apply blank_nil|]. split; [constructor; apply blank_nil|]. split; [intros; discriminate|]. cbn [join app]. rewrite !app_nil_r, <- !app_assoc. reflexivity. }
  split; [exact J|]. split; [|split; [exact P|destruct op; discriminate]].
  destruct J as [Nm L]. assert (Nk : name_ok name) by (destruct Nm as [<-|[<-|[]]]; apply name_okb_ok; reflexivity).
  destruct (line_parse_parts (mk_env [] 0 [] false (fun x => x)) init_state name [n] _ Nk ltac:(constructor; [exact (plain_operand_ok n Pn)|constructor]) N L) as (o & arg & xs & SL & Ar & Ne & Ec & Pp).
  now apply role_native.
Qed.
Lemma symbols_line m w t : is_word w -> is_word (m_base m) -> readable (m_syms m) -> line_of m w = Ok t ->
  with_tab t \/ line_seen (m_base m) w t \/ calls m w t /\ line_fine t /\ tab_free w.
Proof.
  intros W B Rs L. assert (Nat : show_inst (disasm_word (m_base m) w) = Ok t -> with_tab t \/ line_seen (m_base m) w t \/ calls m w t /\ line_fine t /\ tab_free w).
  { intros D. destruct (default_line _ w t W B D); auto. }
  assert (Tf : field w 26 6 = 2 \/ field w 26 6 = 3 -> tab_free w).
  { intros K f R S. destruct (jump_read w K) as (name & R' & I). assert (f_name f = name) by (rewrite R' in R; apply some_inj2 in R; now subst f). rewrite H in S. destruct I as [<-|[<-|[]]]; discriminate S. }
  unfold line_of in L. destruct (jump_decode (m_base m) w W B) as (J2 & J3 & JN).
  destruct (Z.eq_dec (field w 26 6) 2) as [E|N2]; [|destruct (Z.eq_dec (field w 26 6) 3) as [E|N3]].
  - rewrite (J2 E) in L. fold (jump_address (m_base m) w) in L. cbn [match_sym] in L. destruct (sym_get _ _) as [n|] eqn:Sg in L; [|apply Nat; now rewrite (J2 E)].
    apply sym_get_some in Sg. cbn [show_inst] in L. apply ok_eq in L. subst t. destruct (symbol_text #"j" J_J n (or_introl (conj eq_refl eq_refl)) (rd_identifiers _ Rs _ _ Sg)) as [J F].
    right; right. split; [exists #"j", n; auto|]. split; [exact F|auto].
  - rewrite (J3 E) in L. fold (jump_address (m_base m) w) in L. cbn [match_sym] in L. destruct (sym_get _ _) as [n|] eqn:Sg in L; [|apply Nat; now rewrite (J3 E)].
    apply sym_get_some in Sg. cbn [show_inst] in L. apply ok_eq in L. subst t. destruct (symbol_text #"jal" J_Jal n (or_intror (conj eq_refl eq_refl)) (rd_identifiers _ Rs _ _ Sg)) as [J F].
    right; right. split; [exists #"jal", n; auto|]. split; [exact F|auto].
  - specialize (JN N2 N3). apply Nat. rewrite <- L. f_equal. destruct (disasm_word (m_base m) w); try reflexivity. destruct JN.
Qed.
Lemma forall2_at {X Y} (R : X -> Y -> Prop) a w b l : Forall2 R (a ++ w :: b) l -> exists l1 t l2, l = l1 ++ t :: l2 /\ List.length l1 = List.length a /\ R w t.
Proof.
  intros F. apply Forall2_app_inv_l in F as (l1 & l' & F1 & F2 & ->). inversion F2 as [|? t ? l2 H F3]; subst. exists l1, t, l2. split; [reflexivity|]. split; [|exact H].
  symmetry. clear - F1. induction F1; cbn; congruence.
Qed.

Theorem default_back oc rt m ws ls out : m_debug m = false -> readable (m_syms m) -> is_word (m_base m) -> Forall is_word ws -> m_base m + 4 * Z.of_nat (List.length ws) <= 2 ^ 32 ->
  (32768 <= m_base m \/ Forall (fun w => ~ branch_word w) ws) ->
  disassemble oc m ws = Ok ls -> assemble rt m (join [nl] ls) = Ok out -> get_bytes out = ws ->
  Forall (returns (m_base m)) ws /\ Forall tab_free ws.
Proof.
  intros Hd Rd Hb Hw Hl Br HD A G. set (base := m_base m) in *. unfold disassemble in HD. rewrite Hd in HD. rewrite map_length in HD.
  unfold disassemble_insts at 1 in HD. rewrite map_length in HD. cbv zeta in HD.
  destruct (listing oc m _ _ _ _ _) as [body| |] eqn:B in HD; cbn [obind] in HD; try discriminate.
  apply ok_eq in HD.
  destruct (listing_blocks oc m ws Hb Hw Hl ws 0 eq_refl ltac:(lia) 0%nat body eq_refl B) as (lns & Al & C).
  apply map_outcome_forall2 in Al.
  assert (K : Forall2 (fun w t => is_word w /\ (with_tab t \/ line_seen base w t \/ calls m w t /\ line_fine t /\ tab_free w)) ws lns).
  { clear - Al Hb Hw Rd. induction Al as [|w t ws lns H _ IH]; [constructor|]. inversion Hw; subst.
    constructor; [|now apply IH]. split; [assumption|]. now apply symbols_line. }
  assert (Fi : Forall line_fine lns).
  { clear - K. induction K as [|w t ws lns (_ & [T|[L|(_ & L & _)]]) _ IH]; constructor; auto; [now apply tab_fine|]. destruct L. split; [assumption|]. split; assumption. }
  assert (Ll : List.length ws = List.length lns) by (clear - K; induction K; cbn; congruence). unfold is_word in Hb.
  destruct (blocks_around (m_syms m) base (cuts m ws) (List.length ws) lns Rd ltac:(lia) ltac:(lia) Fi 0 body C ltac:(lia)) as (G3 & G4 & G5 & G6).
  assert (An := get_sym_name m base). set (name := get_sym m base) in *.
  assert (HD' : ls = (name ++ #":") :: body) by (exact HD || exact (eq_sym HD)). clear HD. rename HD' into HD.
  assert (Idn := address_name_identifier _ base name Rd ltac:(lia) An). destruct (label_proper name Idn) as [Lp Ln].
  assert (Lj : lines (join [nl] ls) = ls).
  { subst ls. destruct G4 as [E|(pre & l & E & Nl)]; rewrite E in *.
    - apply (lines_join [] (name ++ #":")); [constructor|apply Lp|exact Ln].
    - apply Forall_app in G3 as [P1 P2]. inversion P2; subst. apply (lines_join ((name ++ #":") :: pre) l); [now constructor|apply H1|exact Nl]. }
  assert (Rl := role_label_line name _ Idn (label_line_own name)).
  assert (Ids : forall n k, In (n, k) (label_table 0 (lines (join [nl] ls))) -> identifier n).
  { intros n k I. rewrite Lj, HD in I. cbn [label_table] in I. rewrite Rl in I. destruct (is_local name); [eapply G5; exact I|]. destruct I as [I|I]; [|eapply G5; exact I].
    assert (n = name) as -> by congruence. exact Idn. }
  assert (Each : forall ws1 w ws2, ws = ws1 ++ w :: ws2 -> exists pre t post, lines (join [nl] ls) = pre ++ t :: post /\ instruction_count pre = List.length ws1 /\ is_word w /\ (line_seen base w t \/ calls m w t /\ line_fine t /\ tab_free w)).
  { intros ws1 w ws2 Ew. rewrite Ew in K. destruct (forall2_at _ _ _ _ _ K) as (l1 & t & l2 & El & L1 & Ww & X). destruct (G6 _ _ _ El) as (pre & post & Eb & Cn).
    exists ((name ++ #":") :: pre), t, post. split; [rewrite Lj, HD, Eb; reflexivity|].
    split; [|split; [exact Ww|]].
    - unfold instruction_count in *. cbn [filter]. assert (Il : is_instruction (name ++ #":") = false) by (unfold is_instruction; rewrite Rl; now destruct (is_local name)). rewrite Il. exact (eq_trans Cn L1).
    - destruct X as [T|L]; [exfalso|exact L]. assert (Lt : lines (join [nl] ls) = ((name ++ #":") :: pre) ++ t :: post) by (rewrite Lj, HD, Eb; reflexivity).
      destruct (made_line rt m (join [nl] ls) out A Ids _ t post Lt (proj1 (tab_fine t T))) as (s & s1 & wn & i & i1 & i' & _ & _ & Pi & _).
      exact (tab_refused _ _ _ _ _ T Pi). }
  split.
  - destruct (singles (fun w w' => w' = w -> returns (m_base m) w) ws (words_of out)) as (ws' & rest & Ew & F).
    { intros ws1 w ws2 Es. destruct (Each ws1 w ws2 Es) as (pre & t & post & Lt & Cn & Ww & Ls).
      assert (X : exists i w', nth_error out (instruction_count pre) = Some i /\ inst_bytes i = [w'] /\ (w' = w -> returns base w)).
      { destruct Ls as [Ls|[Ls _]]; [|exact (call_back rt m (join [nl] ls) out Hb Rd A pre w t post Lt Ww Ls)].
        apply (line_back rt m (join [nl] ls) out Hb Rd A Ids pre w t post Lt Ww Ls). destruct Br as [Br|Br]; [now left|right]. rewrite Es in Br. apply Forall_app in Br as [_ Br]. now inversion Br. }
      destruct X as (i & w' & Ni & Bi & Re). exists w'. split; [|exact Re]. rewrite Cn in Ni. eapply words_nth; eauto. }
    assert (X : get_bytes out = List.concat (words_of out)) by apply get_bytes_words. rewrite G, Ew, concat_app, concat_singles in X.
    assert (L : List.length ws = List.length ws') by (clear - F; induction F; cbn; lia). assert (rest0 : List.concat rest = []).
    { apply (f_equal (@List.length Z)) in X. rewrite app_length in X. destruct (List.concat rest); [reflexivity|cbn in X; lia]. }
    rewrite rest0, app_nil_r in X. subst ws'. clear - F. induction ws as [|w ws IH]; constructor; inversion F; subst; auto.
  - apply Forall_forall. intros w I. apply in_split in I as (ws1 & ws2 & Ew). destruct (Each ws1 w ws2 Ew) as (_ & t & _ & _ & _ & _ & [Ls|(_ & _ & Ls)]); [exact (ls_tab _ _ _ Ls)|exact Ls].
Qed.
