(** * DefaultProofs: reassembling a default-mode listing (proofs only). *)

From Coq Require Import Lia.
From Verif Require Import PropsDisasm Lib SpecIsa SpecListing StrLemmas NumLemmas DecodeProofs DisasmProofs ListingProofs InjProofs DisasmMore
  TextProofs OperandProofs NativeProofs LineProofs ScanProofs ProgProofs RoundProofs BranchProofs LabelProofs HalfProofs PropsLabels PropsImm SpecText SpecProgram SpecLabels SpecDefault.

(** ** Undoing [collapse] *)

Lemma uc_end b s : collapse_from b s = [] -> blank s /\ (b = false -> s = []).
Proof.
  revert b. induction s as [|c s IH]; intros b; [intros _; now split|]. cbn [collapse_from].
  destruct (is_ws c) eqn:W; [|discriminate]. destruct b; [|discriminate]. intros E. apply IH in E as [A _].
  split; [|discriminate]. unfold blank in *. cbn [forallb]. now rewrite W, A.
Qed.
Lemma uc_char b s c rest : is_ws c = false -> collapse_from b s = c :: rest ->
  exists w s', s = w ++ c :: s' /\ blank w /\ (b = false -> w = []) /\ collapse_from false s' = rest.
Proof.
  intros N. revert b. induction s as [|x s IH]; intros b; [discriminate|]. cbn [collapse_from].
  destruct (is_ws x) eqn:W.
  - destruct b.
    + intros E. apply IH in E as (w & s' & -> & B & _ & C). exists (x :: w), s'. repeat split; try discriminate; auto.
      unfold blank in *. cbn [forallb]. now rewrite W, B.
    + intros E. injection E as <- _. discriminate.
  - intros E. injection E as -> E. exists [], s. repeat split; auto.
Qed.
Lemma uc_word b s u rest : neat u -> collapse_from b s = u ++ rest ->
  exists w s', s = w ++ u ++ s' /\ blank w /\ (b = false -> w = []) /\ collapse_from false s' = rest.
Proof.
  intros [Ne N]. revert b s Ne. induction u as [|c u IH]; intros b s Ne E; [congruence|].
  apply no_ws_cons in N as [Nc N]. cbn [app] in E. apply uc_char in E as (w & s' & -> & B & C & E); [|exact Nc].
  destruct u as [|d u].
  - exists w, s'. repeat split; auto.
  - apply IH in E as (w' & s'' & -> & _ & C' & E); [|exact N|discriminate]. rewrite (C' eq_refl).
    exists w, s''. repeat split; auto.
Qed.
Lemma uc_space s rest : collapse_from false s = " "%char :: rest ->
  exists c s', s = c :: s' /\ is_ws c = true /\ collapse_from true s' = rest.
Proof.
  destruct s as [|c s]; [discriminate|]. cbn [collapse_from]. destruct (is_ws c) eqn:W; intros E; injection E as E.
  - eauto.
  - subst c. discriminate.
Qed.
Lemma padded_front w t x : blank w -> padded t x -> padded t (w ++ x).
Proof.
  intros B (a & b & A & C & ->). exists (w ++ a), b. unfold blank in *. rewrite forallb_app, B, A. split; [reflexivity|]. split; [exact C|].
  now rewrite <- app_assoc.
Qed.
Lemma uc_join u ts : Forall neat (u :: ts) -> forall b s, collapse_from b s = join #", " (u :: ts) ->
  exists x xs, s = join #"," (x :: xs) /\ Forall2 padded (u :: ts) (x :: xs).
Proof.
  revert u. induction ts as [|v ts IH]; intros u F b s E; inversion F as [|? ? H F']; subst.
  - cbn [join] in E. rewrite <- (app_nil_r u) in E. apply uc_word in E as (w & s' & -> & B & _ & E); [|exact H].
    apply uc_end in E as [_ E]. rewrite (E eq_refl). exists (w ++ u ++ []), []. split; [reflexivity|].
    constructor; [|constructor]. exists w, []. split; [exact B|]. split; [apply blank_nil|reflexivity].
  - change (join #", " (u :: v :: ts)) with (u ++ ","%char :: " "%char :: join #", " (v :: ts)) in E.
    apply uc_word in E as (w & s' & -> & B & _ & E); [|exact H].
    apply uc_char in E as (w' & s2 & -> & _ & C & E); [|reflexivity]. rewrite (C eq_refl). cbn [app].
    apply uc_space in E as (c & s3 & -> & W & E). apply (IH v F') in E as (x & xs & -> & P).
    exists (w ++ u), ((c :: x) :: xs). split.
    + change (join #"," ((w ++ u) :: (c :: x) :: xs)) with ((w ++ u) ++ #"," ++ join #"," ((c :: x) :: xs)).
      destruct xs as [|y xs]; cbn; now rewrite <- !app_assoc.
    + constructor; [exists w, []; split; [exact B|]; split; [apply blank_nil|]; now rewrite app_nil_r|].
      inversion P; subst. constructor; [|assumption]. apply (padded_front [c]); [|assumption]. unfold blank. cbn. now rewrite W.
Qed.

(** ** Blanks of a printed line *)

Definition spaced (s : str) : Prop := forall c, In c s -> is_ws c = true -> c = " "%char.
Lemma spaced_app a b : spaced a -> spaced b -> spaced (a ++ b).
Proof. intros A B c I W. apply in_app_or in I as [I|I]; auto. Qed.
Lemma spaced_no_ws s : no_ws s -> spaced s.
Proof. intros N c I W. unfold no_ws in N. rewrite forallb_forall in N. specialize (N c I). now rewrite W in N. Qed.
Lemma spaced_lit s : forallb (fun c => negb (is_ws c) || Ascii.eqb c " ") s = true -> spaced s.
Proof.
  intros H c I W. rewrite forallb_forall in H. specialize (H c I). rewrite W in H. now apply Ascii.eqb_eq in H.
Qed.
Lemma spaced_pad n s : spaced s -> spaced (pad_right n s).
Proof.
  intros H. unfold pad_right. apply spaced_app; [exact H|]. intros c I _. apply repeat_spec in I. exact I.
Qed.
Lemma spaced_padl n s : spaced s -> spaced (pad_left n s).
Proof.
  intros H. unfold pad_left. apply spaced_app; [|exact H]. intros c I _. apply repeat_spec in I. exact I.
Qed.

Ltac spaced_tac :=
  repeat lazymatch goal with
  | |- spaced (_ ++ _) => apply spaced_app
  | |- spaced (signed_hex _) => apply spaced_no_ws, signed_hex_no_ws
  | |- spaced (hex0x _) => apply spaced_no_ws, hex0x_no_ws
  | |- spaced (hex _) => apply spaced_no_ws, hex_no_ws
  | |- spaced (hexU _) => apply spaced_no_ws, hexU_no_ws
  | |- spaced (zero_pad _ _) => apply spaced_no_ws, zero_pad_no_ws, hex_no_ws
  | |- spaced (dreg _) => apply spaced_no_ws, dreg_no_ws
  | |- spaced (dfreg _) => apply spaced_no_ws, dfreg_no_ws
  | |- spaced (c0reg_name _) => apply spaced_no_ws, c0reg_name_no_ws
  | |- spaced (op11 _) => apply spaced_pad
  | |- spaced (pad_left _ _) => apply spaced_padl
  | |- spaced _ => apply spaced_lit; vm_compute; reflexivity
  end.

Lemma ok_eq {E A} (a b : A) : @Ok E A a = Ok b -> b = a.
Proof. congruence. Qed.
Ltac ok_tac E :=
  lazymatch type of E with
  | Ok _ = _ => apply ok_eq in E; rewrite E; spaced_tac
  | Panic _ = _ => discriminate E
  | Err _ = _ => discriminate E
  end.
Lemma imm_spaced op rs rt v t : show_imm_short op rs rt v = Ok t -> spaced t.
Proof. destruct op; cbn [show_imm_short]; intros E; ok_tac E. Qed.
(** Only a comparison has a tab after its name. *)
Definition tabbed (t : str) : Prop := exists name r, t = #"c." ++ name ++ "009"%char :: r /\ no_ws name /\ starts_with #"ngle." name = false.
Lemma fcond_spaced fmt rs rt sa t : forallb (fun c => negb (is_ws c)) fmt = true -> show_fcond fmt rs rt sa = Ok t -> spaced t \/ tabbed t.
Proof.
  intros N. unfold show_fcond. destruct (fcond_try_from sa) as [c| |] eqn:C; intros E; try discriminate E. apply ok_eq in E. rewrite E. clear E t.
  assert (W : spaced (#"c." ++ fcond_name c ++ #"." ++ fmt)).
  { apply spaced_app; [spaced_tac|]. apply spaced_app; [destruct c; apply spaced_lit; vm_compute; reflexivity|]. apply spaced_app; [spaced_tac|]. now apply spaced_no_ws. }
  destruct (sa =? 9) eqn:S9.
  - left. replace (#"c." ++ fcond_name c ++ #"." ++ fmt ++ [] ++ #"    " ++ dfreg rs ++ sep ++ dfreg rt)
      with ((#"c." ++ fcond_name c ++ #"." ++ fmt) ++ #"    " ++ dfreg rs ++ sep ++ dfreg rt) by (now rewrite <- !app_assoc).
    apply spaced_app; [exact W|]. spaced_tac.
  - right. exists (fcond_name c ++ #"." ++ fmt), (#"    " ++ dfreg rs ++ sep ++ dfreg rt).
    split; [now rewrite <- !app_assoc|]. split.
    + apply no_ws_app. split; [now destruct c|]. apply no_ws_app. now split.
    + destruct c; try (vm_compute; reflexivity). exfalso. apply Z.eqb_neq in S9. apply S9. clear - C.
      unfold fcond_try_from in C.
      repeat (lazymatch type of C with context [match ?x with _ => _ end] => destruct x end; try discriminate C; try reflexivity).
Qed.
Lemma reg_spaced op rs rt rd sa b t : show_reg op rs rt rd sa b = Ok t -> spaced t \/ tabbed t.
Proof.
  destruct op; cbn [show_reg]; intros E;
  repeat lazymatch type of E with
  | Ok _ = _ => left; apply ok_eq in E; rewrite E; spaced_tac
  | Panic _ = _ => discriminate E
  | show_fcond _ _ _ _ = _ => apply fcond_spaced in E; [exact E|reflexivity]
  | (if ?b then _ else _) = _ => destruct b
  | match rd with _ => _ end = _ => destruct rd
  | match reg_to_c0reg rd with _ => _ end = _ => destruct (reg_to_c0reg rd)
  | match b with _ => _ end = _ => destruct b
  end.
Qed.


Definition plain_inst (i : inst) : Prop :=
  match i with
  | IImm _ _ _ (Short _) _ | IReg _ _ _ _ _ _ | IJump _ (TAddress _) _ | IBytes _ => True
  | _ => False
  end.
Lemma inst_spaced i t : show_inst i = Ok t -> plain_inst i -> spaced t \/ tabbed t.
Proof.
  destruct i as [op rs rt im b|op tg b|op rs rt rd sa b|w]; intros E J; [destruct im|destruct tg| |]; try (now destruct J); cbn [show_inst] in E.
  - left; eapply imm_spaced, E.
  - left; apply ok_eq in E; rewrite E. destruct op; spaced_tac.
  - eapply reg_spaced, E.
  - left; apply ok_eq in E; rewrite E. spaced_tac.
Qed.
Lemma tlb_plain fn w : 0 <= fn < 64 -> plain_inst (tlb_match fn w).
Proof. intros R. enum_range R 64; exact I. Qed.
Lemma fields_plain op rs rt rd sa code fn imm target w :
  0 <= op < 64 -> 0 <= rs < 32 -> 0 <= rt < 32 -> 0 <= fn < 64 ->
  plain_inst (disasm_fields op rs rt rd sa code fn imm target w).
Proof.
  intros Ro Rs Rt Rf.
  enum_range Ro 64;
  lazymatch goal with
  | |- context [disasm_fields 0] => enum_range Rf 64; exact I
  | |- context [disasm_fields 1] => enum_range Rt 32; exact I
  | |- context [disasm_fields 16] =>
      enum_range Rs 32; lazymatch goal with
      | |- context [disasm_fields 16 8] => enum_range Rt 32
      | |- _ => idtac end;
      first [exact I | change (plain_inst (tlb_match fn w)); apply tlb_plain; exact Rf]
  | |- context [disasm_fields 17] =>
      enum_range Rs 32; lazymatch goal with
      | |- context [disasm_fields 17 8] => enum_range Rt 32; exact I
      | |- context [disasm_fields 17 16] => enum_range Rf 64; exact I
      | |- context [disasm_fields 17 17] => enum_range Rf 64; exact I
      | |- context [disasm_fields 17 20] => enum_range Rf 64; exact I
      | |- context [disasm_fields 17 21] => enum_range Rf 64; exact I
      | |- _ => exact I end
  | |- _ => exact I
  end.
Qed.

Lemma word_plain base w : is_word w -> is_word base -> plain_inst (disasm_word base w).
Proof.
  intros Hw Hb. destruct (disasm_word_fields base w Hw Hb) as (op & rs & rt & rd & sa & code & fn & imm & target & F & ->).
  apply fields_plain; apply F.
Qed.

(** ** Instruction lines *)

Lemma operand_neat k o t : ranged k o -> operand_text k o = Some t -> neat t.
Proof.
  intros R E.
  assert (G : forallb (fun s => forallb (fun x => negb (is_ws x)) s) gpr_names = true
      /\ forallb (fun s => forallb (fun x => negb (is_ws x)) s) fpr_names = true
      /\ forallb (fun p => negb (str_eqb (snd p) []) && forallb (fun x => negb (is_ws x)) (snd p)) cop0_names = true) by (repeat split; vm_compute; reflexivity).
  destruct G as (G1 & G2 & G3).
  assert (Nn : forall l n, forallb (fun s => forallb (fun x => negb (is_ws x)) s) l = true -> no_ws (nth_name l n)).
  { intros l n H. unfold nth_name. destruct (nth_in_or_default (Z.to_nat n) l ([] : str)) as [I|E0]; [|unfold str in *; rewrite E0; reflexivity].
    rewrite forallb_forall in H. now apply H. }
  assert (Sg : forall v, neat (signed_text v)).
  { intros v. unfold signed_text. destruct (v <? 0); (split; [discriminate|]); rewrite ?no_ws_app; repeat split; try reflexivity; apply hex_no_ws. }
  destruct k; destruct o as [n|v|f b]; cbn [ranged fits] in R; try (now destruct R);
    cbn [operand_text] in E; try (apply some_inj2 in E; subst t);
    try lazymatch goal with
    | |- neat (signed_text _) => apply Sg
    | |- neat (_ ++ hex _) => apply neat_0x, hex_no_ws
    | |- neat (_ ++ hexU _) => apply neat_0x, hexU_no_ws
    end.
  - split; [discriminate|]. apply no_ws_app. split; [reflexivity|]. now apply Nn.
  - split; [discriminate|]. apply no_ws_app. split; [reflexivity|]. now apply Nn.
  - clear - G3 E. revert E. induction cop0_names as [|[a x] l IH]; cbn [num_assoc]; [discriminate|].
    cbn [forallb snd] in G3. apply andb_true_iff in G3 as [A B]. apply andb_true_iff in A as [A1 A2].
    destruct (n =? a); [|auto]. intros E. apply some_inj2 in E. subst x. split; [|exact A2]. intros ->. discriminate A1.
  - change (signed_text f ++ #"(" ++ #"$" ++ nth_name gpr_names b ++ #")") with (signed_text f ++ #"(" ++ (#"$" ++ nth_name gpr_names b) ++ #")").
    apply neat_mem; [apply Sg|]. apply no_ws_app. split; [reflexivity|]. now apply Nn.
Qed.
Lemma operands_neat ks os ts : Forall2 ranged ks os -> operands_text ks os = Some ts -> Forall neat ts.
Proof.
  intros H. revert ts. induction H as [|k o ks os R _ IH]; intros ts; cbn; [injection 1 as <-; constructor|].
  destruct (operand_text k o) eqn:E; [|discriminate]. destruct (operands_text ks os); [|discriminate].
  injection 1 as <-. constructor; [eapply operand_neat; eassumption|]. now apply IH.
Qed.

(** A line that collapses to the text of an instruction. *)
Lemma loose_line f os t : name_ok (f_name f) -> Forall2 notation_fits (f_ops f) os -> Forall2 ranged (f_ops f) os -> spaced t ->
  text f os = Some (collapse t) -> native_line f os t /\ exists r, t = f_name f ++ r.
Proof.
  intros (Nn & _ & Nw) F R Sp T. apply text_cases in T as [(E & -> & C)|(ts & E & Ne & C)].
  - unfold collapse in C. rewrite <- (app_nil_r (f_name f)) in C. apply uc_word in C as (w & s' & -> & _ & W & C); [|now split].
    apply uc_end in C as [_ C]. rewrite (W eq_refl), (C eq_refl). cbn [app]. rewrite app_nil_r. split; [|exists []; now rewrite app_nil_r].
    exists []. split; [|rewrite E; split; [constructor|reflexivity]].
    exists [], (f_name f), [], []. repeat split; auto; try constructor; try reflexivity. now rewrite !app_nil_r.
  - unfold collapse in C. apply uc_word in C as (w & s' & -> & _ & W & C); [|now split]. rewrite (W eq_refl) in *. cbn [app] in *.
    apply uc_space in C as (c & s2 & -> & Wc & C). assert (c = " "%char) as -> by (apply Sp; [apply in_or_app; right; now left|exact Wc]).
    split; [|eexists; reflexivity]. assert (N := operands_neat _ _ _ R E).
    destruct ts as [|u ts]; [congruence|]. apply uc_join in C as (x & xs & -> & P); [|exact N].
    exists (u :: ts). split; [|split; [now apply operands_text_spelling|]].
    + exists [], (f_name f ++ #" " ++ join #"," (x :: xs)), [], []. repeat split; auto; try constructor; try reflexivity; [|now rewrite !app_nil_r].
      inversion P; subst. now constructor.
    + apply operands_text_spec in E. lia.
Qed.

Lemma starts_front n r : starts_with n (n ++ r) = true.
Proof. induction n as [|c n IH]; [reflexivity|]. cbn. now rewrite Ascii.eqb_refl. Qed.
Lemma name_start n r : name_ok n -> starts_with n (trim (n ++ r)) = true.
Proof.
  intros (N & P & W). destruct n as [|c n0] eqn:E; [congruence|]. rewrite <- E in *.
  destruct (trim_decomp (n ++ r)) as (a & b & D & A & B).
  assert (a = []).
  { rewrite E in D. destruct a as [|x a]; [reflexivity|]. cbn in D. injection D as D _. subst x. cbn in A.
    apply andb_true_iff in A as [A _]. rewrite E in W. apply no_ws_cons in W as [W _]. congruence. }
  subst a. cbn [app] in D.
  assert (Ln : (List.length n <= List.length (trim (n ++ r)))%nat).
  { destruct (Nat.le_gt_cases (List.length n) (List.length (trim (n ++ r)))) as [H|H]; [exact H|exfalso].
    assert (L : nth_error (n ++ r) (List.length n - 1) = nth_error (trim (n ++ r) ++ b) (List.length n - 1)) by congruence.
    rewrite nth_error_app1 in L by lia. rewrite nth_error_app2 in L by lia.
    destruct (nth_error n (List.length n - 1)) as [x|] eqn:Nx.
    - symmetry in L. apply nth_error_In in L. apply nth_error_In in Nx. rewrite forallb_forall in B. assert (Bx := B x L).
      unfold no_ws in W. rewrite forallb_forall in W. assert (Wx := W x Nx). now rewrite Bx in Wx.
    - apply nth_error_None in Nx. rewrite E in Nx. cbn in Nx. lia. }
  assert (F : firstn (List.length n) (trim (n ++ r)) = n).
  { assert (F : firstn (List.length n) (n ++ r) = firstn (List.length n) (trim (n ++ r) ++ b)) by congruence.
    rewrite firstn_app, Nat.sub_diag, firstn_all in F. cbn [firstn] in F. rewrite app_nil_r in F.
    rewrite firstn_app in F. replace (_ - _)%nat with O in F by lia. cbn [firstn] in F. rewrite app_nil_r in F. congruence. }
  rewrite <- (firstn_skipn (List.length n) (trim (n ++ r))). rewrite F. apply starts_front.
Qed.
Lemma no_nl_spaced t : spaced t -> no_nl t /\ proper_line t.
Proof.
  intros S. assert (N : no_nl t) by (intros I; specialize (S nl I eq_refl); discriminate S).
  split; [exact N|]. split; [exact N|]. intros p ->. assert (I : In cr (p ++ [cr])) by (apply in_or_app; right; now left).
  specialize (S cr I eq_refl). discriminate S.
Qed.

Lemma tabbed_name f os t : name_ok (f_name f) -> text f os = Some (collapse t) -> tabbed t ->
  starts_with #"c." (f_name f) = true /\ starts_with #"c.ngle." (f_name f) = false.
Proof.
  intros (Nn & _ & Nw) T (name & r & -> & Nm & Ng).
  assert (C : collapse (#"c." ++ name ++ "009"%char :: r) = (#"c." ++ name) ++ " "%char :: collapse_from true r).
  { unfold collapse. clear - Nm. change (collapse_from false (#"c." ++ name ++ "009"%char :: r)) with (#"c." ++ collapse_from false (name ++ "009"%char :: r)).
    rewrite <- app_assoc. f_equal. induction name as [|c n IH]; [reflexivity|]. apply no_ws_cons in Nm as [A B]. cbn [app collapse_from]. rewrite A. f_equal. now apply IH. }
  rewrite C in T.
  assert (Fb : forall s, no_ws s -> free_of " " s).
  { intros s H c I ->. unfold no_ws in H. rewrite forallb_forall in H. now specialize (H _ I). }
  assert (E : f_name f = #"c." ++ name).
  { apply text_cases in T as [(_ & _ & X)|(ts & _ & _ & X)].
    - exfalso. apply (Fb _ Nw " "%char); [|reflexivity]. rewrite <- X. apply in_or_app. right. now left.
    - apply split_unique in X as [X _]; [now symmetry| |now apply Fb].
      apply Fb. apply no_ws_app. now split. }
  rewrite E. split; [apply starts_front|].
  destruct (starts_with #"c.ngle." (#"c." ++ name)) eqn:B; [|reflexivity]. apply starts_with_spec in B as [x B].
  change (#"c.ngle." ++ x) with (#"c." ++ (#"ngle." ++ x)) in B. apply app_inv_head in B. subst name.
  rewrite <- Ng. symmetry. apply starts_front.
Qed.

Lemma native_default base w t : is_word base -> is_word w -> returns base w -> tab_free w -> show_inst (disasm_word base w) = Ok t ->
  line_ok t [w] /\ proper_line t /\ t <> [].
Proof.
  intros B W (C & Nl & f & R & F & T) Tf D.
  destruct (text f (map (extract base w) (f_ops f))) as [t'|] eqn:Tx; [|congruence]. clear T.
  assert (Rt : read_text base w = Some t') by (unfold read_text; rewrite R; exact Tx).
  assert (Nr : ~ reserved_tlb w) by (intros (X & _); congruence).
  assert (Dl : debug_inst (disasm_word base w) = Ok (collapse t)) by (unfold debug_inst; rewrite D; cbn [obind]; now rewrite replace_all_space, squeeze_collapse).
  rewrite (line_is_text base w t' W B Nr Nl Rt) in Dl. apply ok_eq in Dl. subst t'.
  assert (If := read_word_in _ _ R). assert (If' : In f (isa ++ idioms)) by (apply in_or_app; now left). assert (Nk := table_name f If').
  destruct (inst_spaced _ _ D (word_plain base w W B)) as [Sp|Tb].
  - destruct (loose_line f _ t Nk F (extract_ops_ranged base w _ B) Sp Tx) as (L & r & E). split; [|split].
    + pose proof (C f R) as Cw. rewrite Cw at 1. apply native_line_ok; auto; [now apply no_nl_spaced|]. intros _. left. subst t.
      now apply name_start.
    + now apply no_nl_spaced.
    + intros ->. destruct Nk as [N _]. destruct (f_name f); [congruence|discriminate].
  - exfalso. destruct (tabbed_name f _ t Nk Tx Tb) as [X Y]. specialize (Tf f R X). congruence.
Qed.

(** ** Jumps to symbols *)

Lemma identifier_plain n : identifier n -> plain_name n.
Proof.
  intros [D F]. split; [destruct n; [destruct D|discriminate]|]. rewrite forallb_forall in *. intros c I. specialize (F c I). revert F. clear.
  destruct c as [[] [] [] [] [] [] [] []]; vm_compute; auto.
Qed.

Lemma jump_word base w : is_word w -> jump_address base w mod 2 ^ 28 < 2 ^ 26 -> 
  field w 26 6 * 2 ^ 26 + jump_address base w mod 2 ^ 26 / 4 = w.
Proof.
  unfold is_word, jump_address, field. intros W H.
  rewrite Z.add_comm, Z.mod_add in H by lia. rewrite Z.div_1_r in *.
  assert (X := Z.mod_pos_bound w (2 ^ 26) ltac:(lia)).
  assert (E1 : (base / 2 ^ 28 * 2 ^ 28 + w mod 2 ^ 26 * 4) mod 2 ^ 26 = w mod 2 ^ 26 * 4).
  { rewrite Z.mod_small in H by lia. replace (base / 2 ^ 28 * 2 ^ 28) with (base / 2 ^ 28 * 4 * 2 ^ 26) by lia.
    rewrite Z.add_comm, Z.mod_add by lia. apply Z.mod_small. lia. }
  rewrite E1, Z.div_mul by lia. rewrite (Z.mod_small (w / 2 ^ 26)).
  - rewrite Z.mul_comm. symmetry. apply Z.div_mod. lia.
  - split; [apply Z.div_pos; lia|apply Z.div_lt_upper_bound; lia].
Qed.

Lemma symbol_line e base w n name op : is_word base -> is_word w -> readable (e_syms e) -> In (jump_address base w, n) (e_syms e) ->
  jump_address base w mod 2 ^ 28 < 2 ^ 26 ->
  (field w 26 6 = 2 /\ op = J_J /\ name = #"j" \/ field w 26 6 = 3 /\ op = J_Jal /\ name = #"jal") ->
  line_at e (op11 (jop_name op) ++ n) [w] /\ proper_line (op11 (jop_name op) ++ n) /\ op11 (jop_name op) ++ n <> [].
Proof.
  intros Bw W Rd I Lo K. assert (Id := rd_identifiers _ Rd _ _ I). assert (Pn := identifier_plain n Id).
  assert (Ra : 0 <= jump_address base w < 2 ^ 32).
  { unfold jump_address, field. rewrite Z.div_1_r. unfold is_word in Bw. assert (X := Z.mod_pos_bound w (2 ^ 26) ltac:(lia)).
    assert (Y := Z.div_lt_upper_bound base (2 ^ 28) 16 ltac:(lia) ltac:(lia)). assert (Z0 := Z.div_pos base (2 ^ 28) ltac:(lia) ltac:(lia)). lia. }
  assert (Nw : no_ws n) by now apply identifier_facts in Id.
  assert (Sp : spaced (op11 (jop_name op) ++ n)).
  { apply spaced_app; [|now apply spaced_no_ws]. apply spaced_pad. destruct op; apply spaced_lit; vm_compute; reflexivity. }
  destruct (no_nl_spaced _ Sp) as [N P].
  assert (J : jump_line name n (op11 (jop_name op) ++ n)).
  { assert (exists g, blank g /\ op11 (jop_name op) = name ++ #" " ++ g) as (g & G & ->).
    { destruct K as [(_ & -> & ->)|(_ & -> & ->)]; [exists #"         "|exists #"       "]; split; vm_compute; reflexivity. }
    split; [destruct K as [(_ & _ & ->)|(_ & _ & ->)]; [now left|right; now left]|].
    exists [], (name ++ #" " ++ join #"," [g ++ n]), [], []. split; [apply blank_nil|]. split.
    - apply st_ops; [reflexivity|]. constructor; [|constructor]. exists g, []. split; [exact G|]. split; [apply blank_nil|now rewrite app_nil_r].
    - split; [apply blank_nil|]. split; [constructor; apply blank_nil|]. split; [intros; discriminate|]. cbn [join app]. rewrite !app_nil_r, <- !app_assoc. reflexivity. }
  assert (Na : names_address (e_syms e) n (jump_address base w)).
  { apply na_symbol; [exact I|]. intros b Ib. eapply nodup_snd; [exact (rd_names _ Rd)|exact Ib|exact I]. }
  assert (Ot := plain_operand_ok n Pn).
  split; [|split; [exact P|]].
  - assert (V : clean (op11 (jop_name op) ++ n) <> [] /\ ends_with #":" (clean (op11 (jop_name op) ++ n)) = false).
    { destruct J as [Nm L]. assert (Nk : name_ok name) by (destruct Nm as [<-|[<-|[]]]; apply name_okb_ok; reflexivity).
      destruct (line_parse_parts e init_state name [n] _ Nk ltac:(constructor; [exact Ot|constructor]) N L) as (o & arg & xs & SL & Ar & Ne & Ec & Pp). auto. }
    split; [exact (proj1 V)|]. split; [exact (proj2 V)|]. intros s [Rs _].
    destruct (jump_checked e s _ n (jump_address base w) Rs (jump_part name n _ J)) as [w2 W2].
    destruct (jump_line_parse e s name n _ (TAddress (jump_address base w)) w2 J Ot N Rs (target_names e s n _ Na Ra) W2) as (_ & _ & p & Pp & En).
    eexists _, _. split; [exact Pp|]. split; [exact Logic.I|]. specialize (En _ Ra).
    rewrite <- (jump_word base w W Lo) at 2. destruct K as [(-> & _ & ->)|(-> & _ & ->)]; exact En.
  - destruct op; discriminate.
Qed.

Lemma jump_format w f : field w 26 6 = 2 \/ field w 26 6 = 3 -> read_word w = Some f -> f_ops f = [Target26].
Proof.
  intros K R. rewrite read_word_bucket in R. apply find_some in R as [I _].
  assert (H : forallb (fun f => match f_ops f with [Target26] => true | _ => false end) (bucket 2 ++ bucket 3) = true) by (vm_compute; reflexivity).
  rewrite forallb_forall in H. specialize (H f). cbv beta in H.
  assert (I' : In f (bucket 2 ++ bucket 3)) by (apply in_or_app; destruct K as [E|E]; rewrite E in I; [left|right]; exact I).
  specialize (H I'). destruct (f_ops f) as [|[] [|]]; try discriminate. reflexivity.
Qed.
Lemma jump_low base w : field w 26 6 = 2 \/ field w 26 6 = 3 -> returns base w -> jump_address base w mod 2 ^ 28 < 2 ^ 26.
Proof.
  intros K (_ & _ & f & R & F & _). rewrite (jump_format w f K R) in F. cbn [map extract] in F. inversion F as [|? ? ? ? [_ H] _]; subst. exact H.
Qed.

Lemma code_line e m w t : e_syms e = m_syms m -> is_word (m_base m) -> is_word w -> returns (m_base m) w -> tab_free w -> readable (m_syms m) ->
  line_of m w = Ok t -> line_at e t [w] /\ proper_line t /\ t <> [].
Proof.
  intros Es B W R Tf Rd L.
  assert (Nat : show_inst (disasm_word (m_base m) w) = Ok t -> line_at e t [w] /\ proper_line t /\ t <> []).
  { intros D. destruct (native_default _ w t B W R Tf D) as (S & P & Ne). split; [|auto]. now apply line_ok_at. }
  unfold line_of in L. destruct (jump_decode (m_base m) w W B) as (J2 & J3 & JN).
  destruct (Z.eq_dec (field w 26 6) 2) as [E|N2]; [|destruct (Z.eq_dec (field w 26 6) 3) as [E|N3]].
  - rewrite (J2 E) in L. fold (jump_address (m_base m) w) in L. cbn [match_sym] in L. destruct (sym_get _ _) as [n|] eqn:Sg in L.
    + apply sym_get_some in Sg. cbn [show_inst] in L. apply ok_eq in L. subst t.
      apply (symbol_line e (m_base m) w n #"j" J_J); auto; rewrite ?Es; auto. apply jump_low; auto.
    + apply Nat. now rewrite (J2 E).
  - rewrite (J3 E) in L. fold (jump_address (m_base m) w) in L. cbn [match_sym] in L. destruct (sym_get _ _) as [n|] eqn:Sg in L.
    + apply sym_get_some in Sg. cbn [show_inst] in L. apply ok_eq in L. subst t.
      apply (symbol_line e (m_base m) w n #"jal" J_Jal); auto; rewrite ?Es; auto. apply jump_low; auto.
    + apply Nat. now rewrite (J3 E).
  - specialize (JN N2 N3). apply Nat. rewrite <- L. f_equal. destruct (disasm_word (m_base m) w); try reflexivity. destruct JN.
Qed.

(** ** Labels *)

Lemma made_identifier a : 0 <= a < 2 ^ 64 -> identifier (#"func_" ++ zero_pad 8 (hex a)).
Proof.
  intros Ra. split; [reflexivity|]. rewrite forallb_app. apply andb_true_iff. split; [vm_compute; reflexivity|].
  unfold zero_pad. rewrite forallb_app. apply andb_true_iff. split; apply forallb_forall; intros c I.
  - apply repeat_spec in I. now subst c.
  - destruct (in_dec Ascii.ascii_dec c (lit "0123456789abcdefABCDEF")) as [J|J].
    + revert J. clear. intros I. cbn in I. repeat (destruct I as [<-|I]; [reflexivity|]). destruct I.
    + exfalso. exact (hex_free c a Ra J c I eq_refl).
Qed.
Lemma address_name_identifier syms a n : readable syms -> 0 <= a < 2 ^ 64 -> address_name syms a n -> identifier n.
Proof. intros R Ra [I|[_ ->]]; [exact (rd_identifiers _ R _ _ I)|now apply made_identifier]. Qed.
Lemma address_name_inj syms a b n : readable syms -> 0 <= a < 2 ^ 64 -> 0 <= b < 2 ^ 64 -> address_name syms a n -> address_name syms b n -> a = b.
Proof.
  intros R Ra Rb [I|[Na ->]] [J|[Nb E]].
  - eapply nodup_snd; [exact (rd_names _ R)|exact I|exact J].
  - exfalso. subst n. assert (X := rd_own _ R _ _ I). now rewrite starts_front in X.
  - exfalso. assert (X := rd_own _ R _ _ J). now rewrite starts_front in X.
  - apply app_inv_head in E. now apply padded_hex_inj in E.
Qed.
Lemma label_line_own n : label_line n (n ++ #":").
Proof. exists [], []. split; [apply blank_nil|]. split; [apply blank_nil|]. reflexivity. Qed.
Lemma label_proper n : identifier n -> proper_line (n ++ #":") /\ n ++ #":" <> [].
Proof.
  intros Id. apply identifier_facts in Id as (_ & _ & Nw & _). split; [|destruct n; discriminate].
  apply no_nl_spaced, spaced_app; [now apply spaced_no_ws|apply spaced_lit; reflexivity].
Qed.

Lemma blocks_read e syms base c n ws lines : readable syms -> 0 <= base -> base + 4 * Z.of_nat n <= 2 ^ 32 ->
  Forall2 (fun w t => line_at e t [w] /\ proper_line t /\ t <> []) ws lines -> forall i body, blocks syms base c n i lines body ->
  (i + List.length lines <= n)%nat ->
  (exists wss, Forall2 (simple_at e) body wss /\ List.concat wss = ws)
  /\ Forall proper_line body
  /\ (body = [] \/ exists pre l, body = pre ++ [l] /\ l <> [])
  /\ forall k, NoDup (map fst (label_table k body))
     /\ forall nm, In nm (map fst (label_table k body)) -> exists j, (i < j < n)%nat /\ address_name syms (base + 4 * Z.of_nat j) nm.
Proof.
  intros R B0 Bn F. induction F as [|w t ws ls (L & P & Ne) F IH]; intros i body Bl Len; cbn [blocks] in Bl.
  - subst body. split; [exists []; split; [constructor|reflexivity]|]. split; [constructor|]. split; [now left|]. intros k. split; [constructor|]. intros nm [].
  - cbn [List.length] in Len.
    assert (Ro : forall k r, label_table k (t :: r) = label_table (S k) r).
    { intros k r. cbn [label_table]. destruct L as (L1 & L2 & _). now rewrite (role_native t L1 L2). }
    destruct (c i && Nat.ltb (S i) n) eqn:C.
    + destruct Bl as (name & rest & An & -> & Bl). apply IH in Bl as ((wss & G1 & G2) & G3 & G4 & G5); [|lia].
      apply andb_true_iff in C as [_ C]. apply Nat.ltb_lt in C.
      assert (Id := address_name_identifier _ (base + 4 * Z.of_nat (S i)) name R ltac:(lia) An). destruct (label_proper name Id) as [Lp Ln].
      split; [|split; [|split]].
      * exists ([w] :: [] :: [] :: wss). split; [|cbn; now rewrite G2]. constructor; [now apply sa_code|].
        constructor; [apply sa_blank; exists [], []; repeat split; constructor; apply blank_nil|].
        constructor; [|exact G1]. apply (sa_label e name); [exact Id|apply label_line_own].
      * constructor; [exact P|]. constructor; [apply no_nl_spaced; intros x []|]. constructor; [exact Lp|exact G3].
      * right. destruct G4 as [->|(pre & l & -> & Nl)]; [exists [t; []], (name ++ #":"); now split|].
        exists (t :: [] :: (name ++ #":") :: pre), l. now split.
      * intros k. rewrite Ro. cbn [label_table]. rewrite role_blank by (exists [], []; repeat split; constructor; apply blank_nil).
        rewrite (role_label_line name _ Id (label_line_own name)). destruct (G5 (S k)) as [N1 N2]. destruct (is_local name).
        -- split; [exact N1|]. intros nm I. apply N2 in I as (j & J & A). exists j. split; [lia|exact A].
        -- cbn [map fst]. split.
           ++ constructor; [|exact N1]. intros I. apply N2 in I as (j & J & A).
              assert (base + 4 * Z.of_nat (S i) = base + 4 * Z.of_nat j) by (apply (address_name_inj syms _ _ name R); auto; lia). lia.
           ++ intros nm [<-|I]; [exists (S i); split; [lia|exact An]|]. apply N2 in I as (j & J & A). exists j. split; [lia|exact A].
    + destruct Bl as (rest & -> & Bl). apply IH in Bl as ((wss & G1 & G2) & G3 & G4 & G5); [|lia].
      split; [|split; [|split]].
      * exists ([w] :: wss). split; [|cbn; now rewrite G2]. constructor; [now apply sa_code|exact G1].
      * now constructor.
      * right. destruct G4 as [->|(pre & l & -> & Nl)]; [exists [], t; now split|]. exists (t :: pre), l. now split.
      * intros k. rewrite Ro. destruct (G5 (S k)) as [N1 N2]. split; [exact N1|]. intros nm I. apply N2 in I as (j & J & A). exists j. split; [lia|exact A].
Qed.

Theorem default_returns oc rt m ws ls : m_debug m = false -> is_word (m_base m) -> Forall is_word ws ->
  m_base m + 4 * Z.of_nat (List.length ws) <= 2 ^ 32 -> Forall (returns (m_base m)) ws -> Forall tab_free ws -> readable (m_syms m) ->
  disassemble oc m ws = Ok ls ->
  exists out, assemble rt m (join [nl] ls) = Ok out /\ get_bytes out = ws.
Proof.
  intros Hd Hb Hw Hl Hr Ht R HD. unfold disassemble in HD. rewrite Hd in HD. rewrite map_length in HD.
  unfold disassemble_insts at 1 in HD. rewrite map_length in HD. cbv zeta in HD.
  destruct (listing oc m _ _ _ _ _) as [body| |] eqn:B in HD; cbn [obind] in HD; try discriminate.
  apply ok_eq in HD.
  destruct (listing_blocks oc m ws Hb Hw Hl ws 0 eq_refl ltac:(lia) 0%nat body eq_refl B) as (lns & A & C).
  apply map_outcome_forall2 in A. set (e := mk_parser rt m (join [nl] ls)).
  assert (K : Forall2 (fun w t => line_at e t [w] /\ proper_line t /\ t <> []) ws lns).
  { clear - A Hb Hw Hr Ht R. induction A as [|w t ws lns H _ IH]; [constructor|]. inversion Hw; inversion Hr; inversion Ht; subst.
    constructor; [|now apply IH]. now apply (code_line e m). }
  assert (Ll : List.length ws = List.length lns) by (clear - K; induction K; cbn; congruence). unfold is_word in Hb.
  destruct (blocks_read e (m_syms m) (m_base m) (cuts m ws) (List.length ws) ws lns R ltac:(lia) ltac:(lia) K 0 body C ltac:(lia)) as ((wss & G1 & G2) & G3 & G4 & G5).
  assert (An := get_sym_name m (m_base m)). set (name := get_sym m (m_base m)) in *.
  assert (Id := address_name_identifier _ (m_base m) name R ltac:(lia) An). destruct (label_proper name Id) as [Lp Ln].
  assert (Lj : lines (join [nl] ls) = ls).
  { subst ls. destruct G4 as [E|(pre & l & E & Nl)]; rewrite E in *.
    - apply (lines_join [] (name ++ #":")); [constructor|apply Lp|exact Ln].
    - apply Forall_app in G3 as [P1 P2]. inversion P2; subst. apply (lines_join ((name ++ #":") :: pre) l); [now constructor|apply H1|exact Nl]. }
  destruct (simple_program_at rt m (join [nl] ls) ([] :: wss)) as (out & O & G).
  - intros a x I. apply (rd_identifiers _ R) in I as [D _]. destruct x; [exact Logic.I|exact D].
  - replace (lines (join [nl] ls)) with ((name ++ #":") :: body) by congruence. constructor; [|exact G1]. apply (sa_label _ name); [exact Id|apply label_line_own].
  - unfold distinct_labels. rewrite Lj, HD. cbn [label_table]. rewrite (role_label_line name _ Id (label_line_own name)).
    destruct (G5 0%nat) as [N1 N2]. destruct (is_local name); [exact N1|]. cbn [map fst]. constructor; [|exact N1].
    intros I. apply N2 in I as (j & J & Aj). assert (m_base m = m_base m + 4 * Z.of_nat j) by (apply (address_name_inj (m_syms m) _ _ name R); auto; lia). lia.
  - exists out. split; [exact O|]. rewrite G. cbn. exact G2.
Qed.
