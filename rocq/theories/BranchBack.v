(** * BranchBack: the listings that come back, branches included (proofs only). *)

From Coq Require Import Lia.
From Verif Require Import PropsDisasm PropsLabels PropsRefs WarnProofs Lib SpecIsa SpecListing StrLemmas NumLemmas DecodeProofs DisasmProofs ListingProofs InjProofs DisasmMore
  TextProofs OperandProofs NativeProofs LineProofs ScanProofs ProgProofs BranchProofs LabelProofs RefProofs AsmProofs RoundProofs ExactProofs RoundExact AcceptLines
  SpecText SpecProgram SpecLabels SpecExact SpecAccept.

Definition is_rel (k : okind) : bool := match k with Branch16 => true | _ => false end.
Lemma branch_named : forallb (fun f => negb (existsb is_rel (f_ops f)) || negb (existsb is_cop0 (f_ops f))) isa = true.
Proof. vm_compute. reflexivity. Qed.

Section Back.
Variables (oc : bool) (rt : runtime) (base : Z) (ws : list Z).
Hypothesis Or : orders rt.
Hypothesis B : is_word base.
Hypothesis W : Forall is_word ws.
Hypothesis L : base + 4 * Z.of_nat (List.length ws) < 2 ^ 32.
Let all := map (shown_text base) ws.

Lemma all_count ls : incl ls ws -> instruction_count (map (shown_text base) ls) = List.length ls.
Proof.
  intros I. rewrite count_all; [apply map_length|]. intros l J. apply in_map_iff in J as (w & <- & J). rewrite Forall_forall in W. apply (shown_line base w); auto.
Qed.

Lemma branch_line_back before w i : is_word w -> instruction_count before = i -> branch_back base (List.length ws) i w -> program_line base [] all before (shown_text base w) [w].
Proof.
  intros Ww Ci ((f & R & Ib) & Cn & Sm & Is & Eq). assert (If := read_word_in _ _ R). assert (If' : In f (isa ++ idioms)) by (apply in_or_app; now left).
  assert (Nr : existsb is_rel (f_ops f) = true) by (apply existsb_exists; now exists Branch16).
  assert (Nc := forallb_in _ _ f branch_named If). cbv beta in Nc. rewrite Nr in Nc. cbn [negb orb] in Nc. apply negb_true_iff in Nc.
  assert (Fb := field_bound w 0 16 ltac:(lia)). set (d := field w 0 16) in *.
  assert (Sp : shown_operands base w (f_ops f) = map (extract base w) (f_ops f)) by (apply shown_plain; intros _; fold d; lia).
  destruct (text_shown base w f Nc) as [t T]. assert (St : shown_text base w = t) by (unfold shown_text; now rewrite R, T). rewrite Sp in T.
  assert (Rg : Forall2 ranged (f_ops f) (map (extract base w) (f_ops f))) by (now apply extract_ops_ranged).
  destruct (text_statement f _ t T) as (ts & Ot & Li).
  destruct (kinds_of f If) as [P|ks g FO P C G|FO C|FO Nj Wj].
  - exfalso. rewrite forallb_forall in P. discriminate (P _ Ib).
  - rewrite FO, map_app in Ot, Rg. cbn [map extract] in Ot, Rg. fold d in Ot, Rg.
    assert (Sd : signed16 d = d) by (apply signed16_small; lia). rewrite Sd in Ot, Rg.
    apply forall2_split in Rg as [Rg _]; [|now rewrite map_length].
    apply operands_text_app in Ot as (ts' & tb & Ot & Eb & ->); [|now rewrite map_length]. cbn [operands_text operand_text] in Eb. apply some_inj2 in Eb. subst tb.
    assert (Bl : branch_line f (map (extract base w) ks) (signed_text d) t).
    { exists ks, ts'. split; [exact FO|]. split; [now rewrite map_length|]. split; [|exact Li]. apply operands_text_spelling; [now apply plain_all|exact Ot]. }
    assert (Nu : numeral (signed_text d) d).
    { unfold signed_text. destruct (Z.ltb_spec d 0); [lia|]. apply num_hex, hex_numeral. lia. }
    assert (Ew : w = word f (map (extract base w) ks ++ [OInt (Z.quot (d - (Z.of_nat i + 1)) 4)])).
    { assert (X := Cn f R). rewrite FO, map_app in X. cbn [map extract] in X. fold d in X. rewrite Sd in X. rewrite X at 1.
      apply (word_branch f ks); [exact FO|now rewrite map_length|]. change (2 ^ 16) with 65536 in Eq. rewrite Eq. apply Z.mod_small. lia. }
    rewrite St, Ew at 1. rewrite <- Ci. assert (Na : instruction_count all = List.length ws) by (apply all_count, incl_refl).
    apply (pl_branch_number base [] all before f (map (extract base w) ks) (signed_text d) d t If' Bl Nu); rewrite ?Na; unfold is_word in B; lia.
  - exfalso. rewrite FO in Ib. destruct Ib as [X|[]]; discriminate X.
  - exfalso. rewrite FO in Ib. destruct Ib as [X|[]]; discriminate X.
Qed.

Hypothesis Each : forall ws1 w ws2, ws = ws1 ++ w :: ws2 -> returns base w \/ branch_back base (List.length ws) (List.length ws1) w.

Lemma back_program : forall post pre, ws = pre ++ post -> program base [] all (map (shown_text base) pre) (map (shown_text base) post) (map (fun w => [w]) post).
Proof.
  induction post as [|w post IH]; intros pre E; cbn [map]; constructor.
  - assert (Ww : is_word w) by (rewrite E in W; apply Forall_app in W as [_ W2]; now inversion W2).
    destruct (Each pre w post E) as [R|R].
    + assert (D := shown_all base w Ww B). destruct (returns_line base w _ B Ww R D) as (Sl & _). inversion Sl as [|n l I Ll|f os l If Nl Nf Cc E1 E2]; subst.
      now apply pl_native.
    + apply (branch_line_back _ w (List.length pre)); [exact Ww| |exact R]. apply all_count. intros x I. rewrite E. apply in_or_app. now left.
  - specialize (IH (pre ++ [w])). rewrite map_app in IH. cbn [map] in IH. apply IH. now rewrite <- app_assoc.
Qed.

Theorem back_at : exists out, assemble rt (set_base base m_new) (join [nl] all) = Ok out /\ get_bytes out = ws.
Proof.
  assert (El : lines (join [nl] all) = all).
  { apply lines_join_proper; apply Forall_forall; intros l I; apply in_map_iff in I as (w & <- & I); rewrite Forall_forall in W;
    destruct (shown_line base w (W w I) B) as (_ & Cl & Ne); [now apply clear_proper|exact Ne]. }
  destruct (program_accepted rt (set_base base m_new) (join [nl] all) (map (fun w => [w]) ws)) as (out & A & _ & G).
  - intros a n [].
  - exact Or.
  - intros _. rewrite El. unfold all at 1. rewrite all_count by apply incl_refl. unfold is_word in B. change (m_base (set_base base m_new)) with base. lia.
  - unfold distinct_labels. rewrite El. rewrite (no_labels 0%nat all); [constructor|]. intros l I. unfold all in I. apply in_map_iff in I as (w & <- & I). rewrite Forall_forall in W. apply (shown_line base w); auto.
  - rewrite El. exact (back_program ws [] eq_refl).
  - exists out. split; [exact A|]. rewrite G. apply concat_singles.
Qed.
End Back.
