(** * RoundExact: exactly which words come back when a disassembly is assembled again (proofs only). *)

From Coq Require Import Lia.
From Verif Require Import PropsDisasm PropsLabels PropsCompare PropsRefs WarnProofs QuietProofs ImmLines Lib SpecIsa SpecListing StrLemmas NumLemmas DecodeProofs DisasmProofs ListingProofs InjProofs DisasmMore
  TextProofs OperandProofs NativeProofs LineProofs ScanProofs ProgProofs BranchProofs LabelProofs AsmProofs RoundProofs CauseProofs FatalProofs CodingProofs ExactProofs
  SpecText SpecProgram SpecLabels SpecPanic SpecCause SpecReading SpecExact.

(** ** The lines of a disassembly are instructions *)

Lemma plain_clean t : plain t -> clean t = trim t /\ plain (trim t).
Proof.
  intros P. assert (Pt : plain (trim t)).
  { destruct (trim_decomp t) as (a & b & E & _). rewrite E in P. apply plain_app in P as [_ P]. now apply plain_app in P as [P _]. }
  split; [|exact Pt]. unfold clean. assert (X := before_comment_plain (trim t) [] Pt (or_intror eq_refl)). now rewrite app_nil_r in X.
Qed.
Lemma plain_role t : plain t -> trim t <> [] -> role_of t = Instruction.
Proof. intros P N. destruct (plain_clean t P) as [C Pt]. apply role_native; rewrite C; [exact N|now apply ends_with_colon]. Qed.

Definition bare (s : str) : Prop := forall c, In c [nl; cr; ";"; "/"; ":"]%char -> free_of c s.
Lemma bare_app a b : bare (a ++ b) <-> bare a /\ bare b.
Proof.
  unfold bare. split.
  - intros H. split; intros c I; specialize (H c I); apply free_of_app in H; tauto.
  - intros [A B] c I. apply free_of_app. auto.
Qed.
Lemma bare_lit s : forallb (fun c => forallb (fun x => negb (Ascii.eqb x c)) s) [nl; cr; ";"; "/"; ":"]%char = true -> bare s.
Proof. intros H c I. rewrite forallb_forall in H. apply free_ofb. now apply (H c). Qed.
Lemma bare_hex n : 0 <= n < 2 ^ 64 -> bare (hex n).
Proof. intros R c I. apply hex_free; [exact R|]. cbn in I. repeat destruct I as [<-|I]; try destruct I; cbn; intuition discriminate. Qed.
Lemma bare_pad k n : 0 <= n < 2 ^ 64 -> bare (zero_pad k (hex n)).
Proof.
  intros R. unfold zero_pad. apply bare_app. split; [|now apply bare_hex]. intros c I. apply free_ofb. apply forallb_forall. intros x X. apply repeat_spec in X. subst x.
  cbn in I. repeat destruct I as [<-|I]; try destruct I; reflexivity.
Qed.
Lemma bare_plain s : bare s -> plain s.
Proof.
  intros H. unfold plain. apply forallb_forall. intros c I. apply negb_true_iff. destruct (special_char c) eqn:E; [exfalso|reflexivity].
  assert (X : In c [nl; cr; ";"; "/"; ":"]%char).
  { clear - E. unfold special_char in E. destruct c as [[] [] [] [] [] [] [] []]; vm_compute in E; try discriminate E; vm_compute; tauto. }
  exact (H c X c I eq_refl).
Qed.
Lemma bare_clear s : bare s -> RoundProofs.clear s.
Proof. intros H. split; apply H; cbn; tauto. Qed.

Lemma word_64 w : is_word w -> 0 <= w < 2 ^ 64. Proof. unfold is_word. lia. Qed.
Lemma data_bare w : is_word w -> bare (data_text w).
Proof. intros W. unfold data_text. apply bare_app. split; [now apply bare_lit|]. apply bare_pad. now apply word_64. Qed.
Lemma gpr_bare n : 0 <= n < 32 -> bare (nth_name gpr_names n).
Proof. intros R. change 32 with (Z.of_nat 32) in R. enum R; now apply bare_lit. Qed.
Lemma field_bound w p n : 0 <= n -> 0 <= field w p n < 2 ^ n.
Proof. intros N. unfold field. apply Z.mod_pos_bound. now apply Z.pow_pos_nonneg. Qed.
Lemma unnamed_bare w f : is_word w -> In f isa -> bare (unnamed_text w f).
Proof.
  intros W I. assert (Rt := field_bound w 16 5 ltac:(lia)). assert (Rd := field_bound w 11 5 ltac:(lia)). unfold unnamed_text. rewrite !bare_app.
  split; [now apply data_bare|]. split; [now apply bare_lit|]. split.
  - assert (H : forallb (fun f => forallb (fun c => forallb (fun x => negb (Ascii.eqb x c)) (f_name f)) [nl; cr; ";"; "/"; ":"]%char) isa = true) by (vm_compute; reflexivity).
    apply bare_lit. exact (forallb_in _ _ f H I).
  - split; [now apply bare_lit|]. split; [now apply gpr_bare|]. split; [now apply bare_lit|]. apply bare_pad. lia.
Qed.

Lemma operand_text_ok k o t : ranged k o -> operand_text k o = Some t -> operand_ok t.
Proof.
  intros R E. destruct k, o; cbn [ranged fits] in R; try (now destruct R); cbn [operand_text] in E; try (apply some_inj2 in E; subst t).
  - apply (spelling_ok (Gpr 0) (OReg n)). constructor. right. eexists. split; [reflexivity|]. constructor; [exact R|reflexivity].
  - apply (spelling_ok (Fpr 0) (OReg n)). constructor. right. eexists. split; [reflexivity|]. constructor; [exact R|reflexivity].
  - apply (spelling_ok (Cop0 0) (OReg n)). constructor. left. apply cop0_named with (t := t); [exact E|reflexivity].
  - apply (spelling_ok Uimm (OInt v)). constructor. apply num_hex, hex_numeral. lia.
  - apply (spelling_ok Simm (OInt v)). constructor. now apply signed_text_numeral.
  - apply (spelling_ok Uimm (OInt v)). constructor. apply num_hex, hex_numeral. lia.
  - apply (spelling_ok Uimm (OInt v)). constructor. apply num_hex, hex_numeral. lia.
  - apply (spelling_ok Uimm (OInt v)). constructor. apply num_hex, hex_numeral. lia.
  - apply (spelling_ok Mem (OMem off base)). assert (F : notation_fits Mem (OMem off base)) by (split; [exact R|exact Logic.I]).
    exact (operand_text_spelling Mem (OMem off base) _ F eq_refl).
  - apply (spelling_ok Uimm (OInt v)). constructor. apply num_hex, hexU_numeral. lia.
  - apply (spelling_ok Simm (OInt v)). constructor. now apply signed_text_numeral.
Qed.
Lemma operands_text_ok ks os ts : Forall2 ranged ks os -> operands_text ks os = Some ts -> Forall operand_ok ts.
Proof.
  intros F. revert ts. induction F as [|k o ks os R _ IH]; intros ts; cbn [operands_text]; [intros H; apply some_inj2 in H; subst; constructor|].
  destruct (operand_text k o) eqn:E; [|discriminate]. destruct (operands_text ks os); [|discriminate]. intros H. apply some_inj2 in H. subst ts.
  constructor; [eapply operand_text_ok; eauto|now apply IH].
Qed.
Lemma text_statement f os t : text f os = Some t -> exists ts, operands_text (f_ops f) os = Some ts /\ instruction_line (f_name f) ts t.
Proof.
  intros T. apply text_cases in T as [(E & -> & ->)|(ts & E & Ne & ->)].
  - exists []. rewrite E. split; [reflexivity|]. exists [], (f_name f), [], []. repeat split; auto; try constructor; try reflexivity. now rewrite !app_nil_r.
  - exists ts. split; [exact E|]. destruct ts as [|u ts]; [congruence|]. exists [], (f_name f ++ #" " ++ join #"," (u :: map (fun u => " "%char :: u) ts)), [], [].
    repeat split; auto; try constructor; try reflexivity.
    + constructor; [apply padded_self|apply padded_spaces].
    + rewrite join_comma_space. now rewrite !app_nil_r.
Qed.
Lemma text_role f os t : In f isa -> Forall2 ranged (f_ops f) os -> text f os = Some t -> role_of t = Instruction /\ RoundProofs.clear t /\ t <> [].
Proof.
  intros I R T. assert (Cl := text_clear f os t I R T). destruct (text_statement f os t T) as (ts & E & L). assert (Ok := operands_text_ok _ _ _ R E).
  assert (If : In f (isa ++ idioms)) by (apply in_or_app; now left). assert (Nn : no_nl t) by (intros J; destruct Cl as [A _]; exact (A nl J eq_refl)).
  destruct (line_parse_parts (mk_env [] 0 [] false (fun x => x)) init_state (f_name f) ts t (table_name f If) Ok Nn L) as (_ & _ & _ & _ & _ & A & B & _).
  assert (Ro := role_native t A B). split; [exact Ro|]. split; [exact Cl|]. intros ->. discriminate Ro.
Qed.

(** The operands shown are those of the word, or of the one two above. *)
Definition shown_word (base w w2 : Z) (f : format) : Prop :=
  is_word w2 /\ read_word w2 = Some f /\ map (extract base w2) (f_ops f) = shown_operands base w (f_ops f)
  /\ (w2 = w \/ w2 = w + 2 /\ has_signed f = true /\ field w 0 16 = 32767).
Lemma shown_cases base w f : is_word w -> is_word base -> read_word w = Some f -> exists w2, shown_word base w w2 f.
Proof.
  intros W B R. destruct (has_signed f) eqn:S; [destruct (Z.eq_dec (field w 0 16) 32767) as [E|E]|].
  - exists (w + 2). destruct (twin base w f W B R S E) as [R2 _]. split; [now apply twin_word|]. split; [exact R2|]. split; [now apply shown_twin|]. right. auto.
  - exists w. split; [exact W|]. split; [exact R|]. split; [symmetry; apply shown_plain; auto|now left].
  - exists w. split; [exact W|]. split; [exact R|]. split; [symmetry; apply shown_plain; congruence|now left].
Qed.

Lemma trim_start c r : is_ws c = false -> trim (c :: r) <> [].
Proof.
  intros W E. destruct (trim_decomp (c :: r)) as (a & b & D & A & B). rewrite E in D. cbn [app] in D.
  assert (X : forallb is_ws (c :: r) = true) by (rewrite D, forallb_app, A, B; reflexivity). cbn [forallb] in X. rewrite W in X. discriminate X.
Qed.
Lemma data_role s : bare (#".word" ++ s) -> role_of (#".word" ++ s) = Instruction.
Proof. intros H. apply plain_role; [now apply bare_plain|]. apply (trim_start "."%char). reflexivity. Qed.

Theorem shown_line base w : is_word w -> is_word base -> role_of (shown_text base w) = Instruction /\ RoundProofs.clear (shown_text base w) /\ shown_text base w <> [].
Proof.
  intros W B.
  assert (D : forall s, bare (data_text w ++ s) -> role_of (data_text w ++ s) = Instruction /\ RoundProofs.clear (data_text w ++ s) /\ data_text w ++ s <> []).
  { intros s H. split; [|split; [now apply bare_clear|discriminate]]. unfold data_text in *.
    change ((#".word 0x" ++ zero_pad 8 (hex w)) ++ s) with (#".word" ++ ((#" 0x" ++ zero_pad 8 (hex w)) ++ s)) in *. now apply data_role. }
  unfold shown_text. destruct (read_word w) as [f|] eqn:R.
  - destruct (shown_cases base w f W B R) as (w2 & _ & _ & E & _). destruct (text f (shown_operands base w (f_ops f))) as [t|] eqn:T.
    + rewrite <- E in T. apply (text_role f _ t (read_word_in _ _ R) (extract_ops_ranged base w2 _ B) T).
    + apply D. now apply (unnamed_bare w f W (read_word_in _ _ R)).
  - assert (D0 := D []). rewrite app_nil_r in D0. specialize (D0 (data_bare w W)). unfold unread_text. destruct (num_assoc (field w 0 6) tlb_names) as [t|] eqn:N; [|exact D0].
    destruct ((field w 26 6 =? 16) && (field w 25 1 =? 0))%bool; [|exact D0]. clear D D0.
    unfold tlb_names in N. cbn [num_assoc] in N. repeat (destruct (_ =? _) in N; [apply some_inj2 in N; subst t; split; [vm_compute; reflexivity|]; split; [apply bare_clear; now apply bare_lit|discriminate]|]). discriminate N.
Qed.

(** ** Data never comes back *)

Lemma tight_end_app p q : q <> [] -> no_ws q -> tight_end (p ++ q).
Proof.
  intros N W. assert (T := no_ws_tight_end q W). unfold tight_end in *. rewrite rev_app_distr. destruct (rev q) as [|c r] eqn:E; [|exact T].
  apply (f_equal (@rev ascii)) in E. rewrite rev_involutive in E. contradiction.
Qed.
Lemma pad_no_nil k n : #"0x" ++ zero_pad k (hex n) <> []. Proof. discriminate. Qed.
Lemma data_operation p q : bare (#".word " ++ p ++ q) -> q <> [] -> no_ws q -> operation (#".word " ++ p ++ q) = #".word".
Proof.
  intros Ba N W. unfold operation. rewrite (proj1 (plain_clean _ (bare_plain _ Ba))). rewrite trim_tight; [|reflexivity|rewrite app_assoc; now apply tight_end_app].
  change (#".word " ++ p ++ q) with (#".word" ++ " "%char :: (p ++ q)). rewrite split_once_app; [reflexivity|]. intros I. cbn in I. intuition discriminate.
Qed.
Lemma data_text_operation w : is_word w -> operation (data_text w) = #".word".
Proof.
  intros W. assert (Ba := data_bare w W). unfold data_text in *. change (#".word 0x" ++ zero_pad 8 (hex w)) with (#".word " ++ [] ++ (#"0x" ++ zero_pad 8 (hex w))) in *.
  apply data_operation; [exact Ba|discriminate|]. apply no_ws_app. split; [reflexivity|apply zero_pad_no_ws, hex_no_ws].
Qed.
Lemma unnamed_operation w f : is_word w -> In f isa -> operation (unnamed_text w f) = #".word".
Proof.
  intros W I. assert (Ba := unnamed_bare w f W I). unfold unnamed_text, data_text in *.
  assert (E : (#".word 0x" ++ zero_pad 8 (hex w)) ++ #" # " ++ f_name f ++ #" $" ++ nth_name gpr_names (field w 16 5) ++ #", 0x" ++ zero_pad 2 (hex (field w 11 5))
    = #".word " ++ (#"0x" ++ zero_pad 8 (hex w) ++ #" # " ++ f_name f ++ #" $" ++ nth_name gpr_names (field w 16 5) ++ #", ") ++ (#"0x" ++ zero_pad 2 (hex (field w 11 5)))).
  { change (#".word 0x") with (#".word " ++ #"0x"). change (#", 0x") with (#", " ++ #"0x"). rewrite <- !app_assoc. reflexivity. }
  rewrite E in *. apply data_operation; [exact Ba|discriminate|]. apply no_ws_app. split; [reflexivity|apply zero_pad_no_ws, hex_no_ws].
Qed.

Lemma word_parse e s raw w i : role_of raw = Instruction -> operation raw = #".word" -> parse_inst e s (clean raw) = (w, Ok i) -> exists v, i = IBytes v.
Proof.
  intros R O P. rewrite (parse_is e s raw R), O in P. unfold parse_op in P. change (classify (trim (to_lower #".word"))) with (Some GWord) in P. cbv iota in P.
  unfold parse_word, aimm, lift, mbind in P. destruct (parse_immediate e s u32 (operand_text_of raw)) as [im| |]; try discriminate P.
  destruct (imm_as_u32 im) as [v| |]; try discriminate P. exists v. apply pair_equal_spec in P as [_ P]. congruence.
Qed.

(** ** A program that is a disassembly *)

Section Disassembly.
Variables (rt : runtime) (base : Z) (ws : list Z) (input : str) (out : list inst).
Let m := set_base base m_new.
Hypothesis B : is_word base.
Hypothesis W : Forall is_word ws.
Hypothesis E : lines input = map (shown_text base) ws.
Hypothesis A : assemble rt m input = Ok out.

Lemma all_instructions l : In l (lines input) -> role_of l = Instruction.
Proof. rewrite E. intros I. apply in_map_iff in I as (w & <- & I). rewrite Forall_forall in W. apply (shown_line base w); auto. Qed.
Lemma no_labels k ls : (forall l, In l ls -> role_of l = Instruction) -> label_table k ls = [].
Proof. revert k. induction ls as [|l ls IH]; intros k H; [reflexivity|]. cbn [label_table]. rewrite (H l (or_introl eq_refl)). apply IH. intros x I. apply H. now right. Qed.
Lemma count_all ls : (forall l, In l ls -> role_of l = Instruction) -> instruction_count ls = List.length ls.
Proof.
  unfold instruction_count. induction ls as [|l ls IH]; intros H; [reflexivity|]. cbn [filter]. unfold is_instruction at 1. rewrite (H l (or_introl eq_refl)). cbn [List.length].
  f_equal. apply IH. intros x I. apply H. now right.
Qed.
Lemma no_labels_all : label_table 0 (lines input) = []. Proof. apply no_labels, all_instructions. Qed.
Lemma no_minus : no_minus_labels (lines input). Proof. intros n k. rewrite no_labels_all. intros []. Qed.
Lemma no_syms : named_symbols (m_syms m). Proof. intros a n []. Qed.

Lemma here ws1 w ws2 : ws = ws1 ++ w :: ws2 -> lines input = map (shown_text base) ws1 ++ shown_text base w :: map (shown_text base) ws2
  /\ instruction_count (map (shown_text base) ws1) = List.length ws1 /\ is_word w.
Proof.
  intros Ew. assert (El : lines input = map (shown_text base) ws1 ++ shown_text base w :: map (shown_text base) ws2) by (rewrite E, Ew, map_app; reflexivity).
  split; [exact El|]. split.
  - rewrite count_all; [apply map_length|]. intros l I. apply all_instructions. rewrite El. apply in_or_app. now left.
  - rewrite Ew in W. apply Forall_app in W as [_ W2]. now inversion W2.
Qed.

(** What becomes of a line of the program. *)
Lemma made ws1 w ws2 : ws = ws1 ++ w :: ws2 -> exists s s1 wn i i1 i',
  p_labels s1 = [] /\ p_line s1 = S (List.length ws1) /\ ready (mk_parser rt m input) s1 (shown_text base w) /\ labels_ok s1
  /\ parse_inst (mk_parser rt m input) s1 (clean (shown_text base w)) = (wn, Ok i)
  /\ adjust_one (mk_parser rt m input) s (List.length ws1) (S (List.length ws1)) i = Ok (i1, [])
  /\ @assemble_inst perror (rt_oc rt) i1 = Ok i' /\ nth_error out (List.length ws1) = Some i'.
Proof.
  intros Ew. destruct (here ws1 w ws2 Ew) as (El & Cn & Ww). assert (A' := A). apply assemble_ok in A' as (s & is1 & As). set (e := mk_parser rt m input) in *.
  assert (N := nl_of_lines input).
  destruct (assembled_at e _ s is1 out _ (shown_text base w) _ N As El) as (s1 & S1 & E1 & L1 & P1 & T1 & X).
  assert (Ro : role_of (shown_text base w) = Instruction) by (apply all_instructions; rewrite El; apply in_or_app; right; now left). rewrite Ro in X.
  destruct X as (wn & i & i1 & i' & o1 & o2 & P' & _ & Ad & Ai & -> & Lo & _). rewrite Cn in *. rewrite map_length in *.
  assert (T0 : p_labels (bump s1) = []).
  { cbn. rewrite T1. apply no_labels. intros l I. apply all_instructions. rewrite El. apply in_or_app. now left. }
  exists (final e s), (bump s1), wn, i, i1, i'. split; [exact T0|]. split; [cbn; now rewrite P1|]. split; [|split; [|repeat split; auto]].
  - apply (after_ready e (map (shown_text base) ws1) (shown_text base w) (map (shown_text base) ws2)); [exact El|]. split; [now rewrite map_length|]. rewrite L1. rewrite map_length. lia.
  - intros n k I. rewrite T0 in I. discriminate I.
  - rewrite nth_error_app2 by lia. now rewrite Lo, Nat.sub_diag.
Qed.

Lemma no_data ws1 w ws2 : ws = ws1 ++ w :: ws2 -> operation (shown_text base w) <> #".word".
Proof.
  intros Ew O. destruct (made ws1 w ws2 Ew) as (s & s1 & wn & i & i1 & i' & _ & _ & _ & _ & P & Ad & Ai & _).
  assert (Ro : role_of (shown_text base w) = Instruction) by (apply (shown_line base w); [|exact B]; now destruct (here ws1 w ws2 Ew)).
  destruct (word_parse _ _ _ _ _ Ro O P) as [v ->]. cbn [adjust_one] in Ad. injection Ad as <-. vm_compute in Ai. discriminate Ai.
Qed.
End Disassembly.
(** ** Numbers that are refused *)

Lemma negative_refused e s raw t x v : ready e s raw -> labels_ok s -> padded t x -> signed_numeral t v -> v < 0 ->
  exists d, parse_immediate e s u32 x = Err (EInvalidImmediate (mk_line (p_line s) raw) d).
Proof.
  intros Rd Lb Pd Sn V. assert (As := labels_numeral s t v Lb Sn).
  destruct (signed_numeral_shape _ _ Sn) as (neg & radix & ds & Sh & u & Vu & U & Ev). destruct neg; [|lia].
  destruct (number_operand_ok _ _ _ _ Sh) as (_ & _ & T1 & T2).
  unfold parse_immediate. rewrite (padded_trim _ _ Pd T1 T2), (number_no_at _ _ _ _ Sh), As.
  assert (NO : no_open t).
  { intros I. destruct (number_char_facts _ (number_chars _ _ _ _ _ Sh I)) as (_ & _ & N & _). now apply N. }
  rewrite no_open_imm by exact NO. rewrite (number_contains _ _ _ _ Sh).
  assert (Q : radix = 10 \/ radix = 16) by (now inversion Sh). assert (Q2 : all_hex ds /\ ds <> []) by (now inversion Sh). destruct Q2 as (_ & Ne).
  assert (Pi : parse_int u32 radix (#"-" ++ ds) = None).
  { change (#"-" ++ ds) with ("-"%char :: ds). unfold parse_int. cbn [Ascii.eqb orb]. destruct ds; [reflexivity|]. reflexivity. }
  unfold fail_at. rewrite (get_line_ready e s raw Rd). destruct Q as [-> | ->].
  - change (10 =? 16) with false. cbn iota. assert (E : t = #"-" ++ ds) by (inversion Sh; reflexivity). rewrite E, Pi. eexists. reflexivity.
  - change (16 =? 16) with true. cbn iota. rewrite (number_remove _ _ _ _ Sh), Pi. eexists. reflexivity.
Qed.

Definition branch_group (g : group) : bool := match g with GB | GBc | GBranch1 | GBranch2 => true | _ => false end.
Lemma branch_operand e s op arg g xs x w i : classify (trim (to_lower op)) = Some g -> branch_group g = true -> parse_op e s op arg (xs ++ [x]) = (w, Ok i) ->
  exists im, parse_immediate e s u32 x = Ok im.
Proof.
  intros C G P. unfold parse_op in P. rewrite C in P.
  destruct (parse_immediate e s u32 x) as [im|er|p] eqn:Ex; [eauto| |]; exfalso.
  all: destruct g; try discriminate G; clear G.
  all: unfold parse_branch1, parse_branch2, parse_b in P; destruct xs as [|y1 [|y2 [|y3 xs]]]; cbn [app] in P.
  all: try (destruct (xs ++ [x]) eqn:En; [exact (app_cons_not_nil _ _ _ (eq_sym En))|]).
  all: try (unfold bad_count, lift, fail_at in P; destruct (get_line e (p_line s)); discriminate P).
  all: repeat match type of P with mbind _ _ = _ => apply mbind_inv in P as (?w & ?a & ?w2 & ?Hm & P & _) end.
  all: lazymatch goal with H : aimm _ _ _ _ = (_, Ok _), E : parse_immediate _ _ _ _ = _ |- _ => unfold aimm in H; rewrite E in H; discriminate H end.
Qed.
Lemma code_operand e s op arg x w i : classify (trim (to_lower op)) = Some GCode -> parse_op e s op arg [x] = (w, Ok i) -> x <> [] ->
  exists im, parse_immediate e s u16 (trim x) = Ok im.
Proof.
  intros C P N. unfold parse_op in P. rewrite C in P. unfold parse_code in P. destruct x as [|c x]; [congruence|].
  unfold mbind at 1, aimm, lift at 1 in P. destruct (parse_immediate e s u16 (trim (c :: x))) eqn:Ex; [eauto| |]; discriminate P.
Qed.
(** ** The operands this assembler cannot express *)

Definition plain_kind (k : okind) : bool := match k with Branch16 | Code20 | Target26 => false | _ => true end.
Definition kind_form (f : format) : bool :=
  forallb plain_kind (f_ops f)
  || match rev (f_ops f) with Branch16 :: ks => forallb plain_kind ks && match classify (trim (to_lower (f_name f))) with Some g => branch_group g | None => false end | _ => false end
  || match f_ops f with [Code20] => match classify (trim (to_lower (f_name f))) with Some GCode => true | _ => false end | _ => false end
  || match f_ops f with [Target26] => (str_eqb (f_name f) #"j" || str_eqb (f_name f) #"jal") && (word f [OInt 0] =? jump_code (f_name f) * 2 ^ 26) | _ => false end.
Lemma kind_forms : forallb kind_form isa = true. Proof. vm_compute. reflexivity. Qed.

Inductive kinds (f : format) : Prop :=
| ks_plain : forallb plain_kind (f_ops f) = true -> kinds f
| ks_branch ks g : f_ops f = ks ++ [Branch16] -> forallb plain_kind ks = true -> classify (trim (to_lower (f_name f))) = Some g -> branch_group g = true -> kinds f
| ks_code : f_ops f = [Code20] -> classify (trim (to_lower (f_name f))) = Some GCode -> kinds f
| ks_jump : f_ops f = [Target26] -> In (f_name f) [ #"j"; #"jal" ] -> word f [OInt 0] = jump_code (f_name f) * 2 ^ 26 -> kinds f.
Lemma kinds_of f : In f isa -> kinds f.
Proof.
  intros I. assert (X := forallb_in _ _ f kind_forms I). unfold kind_form in X. rewrite !orb_true_iff in X. destruct X as [[[X|X]|X]|X].
  - now apply ks_plain.
  - destruct (rev (f_ops f)) as [|k ks] eqn:R; [discriminate X|]. destruct k; try discriminate X. apply andb_true_iff in X as [A B].
    destruct (classify (trim (to_lower (f_name f)))) as [g|] eqn:C; [|discriminate B]. apply (ks_branch f (rev ks) g); auto.
    + rewrite <- (rev_involutive (f_ops f)), R. reflexivity.
    + apply forallb_forall. intros k K. apply in_rev in K. rewrite forallb_forall in A. auto.
  - destruct (f_ops f) as [|[] [|? ?]] eqn:O; try discriminate X. destruct (classify (trim (to_lower (f_name f)))) as [[]|] eqn:C; try discriminate X. now apply ks_code.
  - destruct (f_ops f) as [|[] [|? ?]] eqn:O; try discriminate X. apply andb_true_iff in X as [A B]. apply Z.eqb_eq in B. apply ks_jump; auto.
    apply orb_true_iff in A as [A|A]; apply str_eqb_spec in A; rewrite A; cbn; auto.
Qed.

Lemma plain_fits k o : plain_kind k = true -> ranged k o -> notation_fits k o.
Proof. destruct k; try discriminate; intros _ R; (split; [exact R|]); destruct o; exact Logic.I. Qed.
Lemma plain_all ks os : forallb plain_kind ks = true -> Forall2 ranged ks os -> Forall2 notation_fits ks os.
Proof.
  intros P F. induction F as [|k o ks os R _ IH]; constructor; cbn [forallb] in P; apply andb_true_iff in P as [P1 P2]; [now apply plain_fits|now apply IH].
Qed.

(** What is shown in place of a word fits. *)
Lemma extracted_fits base w k : is_word base -> fits k (extract base w k).
Proof.
  intros B. assert (R := extract_ranged base w k B). destruct k; try exact R. cbn [extract] in *. cbn [ranged fits] in *. split; [exact R|].
  change (2 ^ 28) with (2 ^ 26 * 4). rewrite Z.mul_assoc, <- Z.mul_add_distr_r. apply Z.mod_mul. lia.
Qed.
Lemma extracted_segment base w k : in_segment base k (extract base w k).
Proof.
  destruct k; cbn [extract in_segment]; auto. assert (F := field_bound w 0 26 ltac:(lia)). rewrite Z.div_add_l by lia. rewrite (Z.div_small (_ * 4)) by lia. lia.
Qed.
Lemma extracted_all base w ks : is_word base -> Forall2 fits ks (map (extract base w) ks) /\ Forall2 (in_segment base) ks (map (extract base w) ks).
Proof. intros B. induction ks as [|k ks [IH1 IH2]]; (split; constructor; auto); [now apply extracted_fits|apply extracted_segment]. Qed.

Lemma operands_text_app ks k2 os o2 ts : List.length ks = List.length os -> operands_text (ks ++ k2) (os ++ o2) = Some ts ->
  exists t1 t2, operands_text ks os = Some t1 /\ operands_text k2 o2 = Some t2 /\ ts = t1 ++ t2.
Proof.
  revert os ts. induction ks as [|k ks IH]; intros [|o os] ts L; try discriminate L; cbn [app operands_text].
  - intros X. exists [], ts. auto.
  - injection L as L. destruct (operand_text k o) as [u|]; [|discriminate]. destruct (operands_text (ks ++ k2) (os ++ o2)) as [us|] eqn:Eu; [|discriminate].
    intros X. apply some_inj2 in X. subst ts. destruct (IH os us L Eu) as (t1 & t2 & -> & -> & ->). exists (u :: t1), t2. auto.
Qed.

Lemma forall2_split {X Y} (R : X -> Y -> Prop) a1 b1 a2 b2 : List.length a1 = List.length b1 -> Forall2 R (a1 ++ a2) (b1 ++ b2) -> Forall2 R a1 b1 /\ Forall2 R a2 b2.
Proof.
  revert b1. induction a1 as [|x a1 IH]; intros [|y b1] L F; try discriminate L; cbn [app] in F; [split; [constructor|exact F]|].
  inversion F; subst. injection L as L. destruct (IH b1 L) as [F1 F2]; [assumption|]. split; [constructor; assumption|exact F2].
Qed.
Lemma forall2_one {X Y} (R : X -> Y -> Prop) t l : Forall2 R [t] l -> exists x, l = [x] /\ R t x.
Proof. intros F. inversion F as [|? x ? ? Hx F2]; subst. inversion F2; subst. eauto. Qed.
Lemma num_assoc_in n (t : str) l : num_assoc n l = Some t -> In (n, t) l.
Proof.
  induction l as [|[a b] l IH]; cbn [num_assoc]; [discriminate|]. destruct (Z.eqb_spec n a) as [->|_]; [intros X; injection X as ->; now left|]. intros X. right. auto.
Qed.
Definition tlb_ok (nt : Z * str) : bool :=
  existsb (fun f => str_eqb (f_name f) (snd nt) && match f_ops f with [] => true | _ => false end && match read_word (word f []) with Some _ => true | None => false end) isa.
Lemma tlb_formats : forallb tlb_ok tlb_names = true. Proof. vm_compute. reflexivity. Qed.
Lemma tlb_format n t : num_assoc n tlb_names = Some t -> exists f, In f isa /\ f_name f = t /\ f_ops f = [] /\ read_word (word f []) <> None.
Proof.
  intros N. assert (X := tlb_formats). rewrite forallb_forall in X. specialize (X (n, t) (num_assoc_in _ _ _ N)). unfold tlb_ok in X. apply existsb_exists in X as (f & If & X).
  rewrite !andb_true_iff in X. destruct X as [[X1 X2] X3]. apply str_eqb_spec in X1. exists f. split; [exact If|]. split; [exact X1|].
  split; [destruct (f_ops f); [reflexivity|discriminate X2]|]. destruct (read_word (word f [])); [discriminate|discriminate X3].
Qed.

(** If it is the text of the word itself, the word comes back. *)
Lemma comes_back base w w2 f : is_word w -> is_word base -> read_word w = Some f -> shown_word base w w2 f ->
  Forall2 notation_fits (f_ops f) (map (extract base w2) (f_ops f)) -> text f (map (extract base w2) (f_ops f)) <> None ->
  word f (map (extract base w2) (f_ops f)) = w -> returns base w.
Proof.
  intros W B R (W2 & R2 & Eo & _) Nf T Ew. assert (If := read_word_in _ _ R). assert (If' : In f (isa ++ idioms)) by (apply in_or_app; now left).
  destruct (extracted_all base w2 (f_ops f) B) as [Ft Sg]. assert (X := word_extract base f _ If' Ft Sg). rewrite Ew in X.
  split; [|split].
  - intros g Rg. assert (g = f) by congruence. subst g. rewrite X. now symmetry.
  - intros (g & Rg & S & E). assert (g = f) by congruence. subst g. unfold has_signed in S. apply existsb_exists in S as (k & Ik & Sk).
    rewrite Eo in X. unfold shown_operands in X. assert (Y : extract base w k = shown_operand k (extract base w k)).
    { clear - X Ik. induction (f_ops f) as [|j ks IH]; [destruct Ik|]. cbn [map] in X. injection X as X1 X2. destruct Ik as [<-|Ik]; auto. }
    destruct k; try discriminate Sk; cbn [extract shown_operand signed_operand andb] in Y; rewrite E in Y; change (signed16 32767) with 32767 in Y; change (32767 =? 32767) with true in Y; cbn [andb] in Y; discriminate Y.
  - exists f. split; [exact R|]. rewrite X. auto.
Qed.

Lemma word_branch f ks os d d' : f_ops f = ks ++ [Branch16] -> List.length os = List.length ks -> d mod 65536 = d' mod 65536 -> word f (os ++ [OInt d]) = word f (os ++ [OInt d']).
Proof.
  intros F L M. unfold word. f_equal. unfold ops_word. rewrite F, !combine_app by (now symmetry). rewrite !map_app. cbn [combine map fst snd place]. now rewrite M.
Qed.
Lemma branch_word_dec w : branch_word w \/ ~ branch_word w.
Proof.
  destruct (read_word w) as [f|] eqn:R; [|right; intros (f & X & _); congruence].
  destruct (existsb (fun k => match k with Branch16 => true | _ => false end) (f_ops f)) eqn:X.
  - left. exists f. split; [exact R|]. apply existsb_exists in X as (k & I & K). destruct k; try discriminate K. exact I.
  - right. intros (g & Rg & I). assert (g = f) by congruence. subst g. apply Bool.not_true_iff_false in X. apply X. apply existsb_exists. now exists Branch16.
Qed.
Lemma signed16_small x : 0 <= x < 32768 -> signed16 x = x.
Proof. intros R. unfold signed16. destruct (Z.ltb_spec x 32768); lia. Qed.

(** ** Every word of a disassembly that assembles *)

Section Disassembly2.
Variables (rt : runtime) (base : Z) (ws : list Z) (input : str) (out : list inst).
Let m := set_base base m_new.
Hypothesis B : is_word base.
Hypothesis W : Forall is_word ws.
Hypothesis E : lines input = map (shown_text base) ws.
Hypothesis A : assemble rt m input = Ok out.

Theorem word_back ws1 w ws2 : ws = ws1 ++ w :: ws2 ->
  exists i w', nth_error out (List.length ws1) = Some i /\ inst_bytes i = [w'] /\ (w' = w -> returns base w \/ branch_back base (List.length ws) (List.length ws1) w).
Proof.
  intros Ew. assert (Hn : instruction_count (lines input) = List.length ws) by (rewrite E, <- (map_length (shown_text base) ws); apply count_all; intros l I; apply (all_instructions base ws input B W E); rewrite E; exact I).
  destruct (here base ws input B W E ws1 w ws2 Ew) as (El & Cn & Ww).
  assert (Nd := no_data rt base ws input out B W E A ws1 w ws2 Ew). assert (Mi := no_minus base ws input B W E).
  assert (Sy : named_symbols (m_syms m)) by (intros a n []).
  destruct (read_word w) as [f|] eqn:R.
  - assert (If := read_word_in _ _ R). assert (If' : In f (isa ++ idioms)) by (apply in_or_app; now left).
    destruct (shown_cases base w f Ww B R) as (w2 & Sw). assert (Sw' := Sw). destruct Sw' as (W2 & R2 & Eo & _).
    destruct (text f (shown_operands base w (f_ops f))) as [t|] eqn:T.
    2: { exfalso. apply Nd. unfold shown_text. rewrite R, T. now apply unnamed_operation. }
    assert (St : shown_text base w = t) by (unfold shown_text; now rewrite R, T).
    rewrite <- Eo in T. set (os := map (extract base w2) (f_ops f)) in *.
    assert (Rg : Forall2 ranged (f_ops f) os) by (now apply extract_ops_ranged).
    assert (Sts := text_starts f os t T (table_name f If')).
    assert (Fit : Forall2 notation_fits (f_ops f) os -> exists i w', nth_error out (List.length ws1) = Some i /\ inst_bytes i = [w'] /\ (w' = w -> returns base w \/ branch_back base (List.length ws) (List.length ws1) w)).
    { intros Nf. destruct (native_anywhere rt m input out (map (shown_text base) ws1) t (map (shown_text base) ws2) f os Sy A) as (i & Ni & Bi); auto.
      - rewrite <- St. exact El.
      - now apply text_line.
      - intros _. now left.
      - rewrite Cn in Ni. exists i, (word f os). split; [exact Ni|]. split; [exact Bi|]. intros Wb. left. apply (comes_back base w w2 f); auto. fold os. rewrite T. discriminate. }
    destruct (made rt base ws input out B W E A ws1 w ws2 Ew) as (s & s1 & wn & i & i1 & i' & Tl & Pl & Rd & Lo & Pi & _). change (set_base base m_new) with m in Rd, Lo, Pi. rewrite St in Rd, Pi.
    assert (Nn : no_nl t). { apply (lines_no_nl input). rewrite El. apply in_or_app. right. left. exact St. }
    destruct (text_statement f os t T) as (ts & Ot & Li). assert (Oks := operands_text_ok _ _ _ Rg Ot).
    destruct (line_parse_parts (mk_parser rt m input) s1 (f_name f) ts t (table_name f If') Oks Nn Li) as (op & arg & xs & SL & Ar & _ & _ & Ps).
    rewrite Ps in Pi.
    destruct (kinds_of f If) as [P|ks g FO P C G|FO C|FO Nj Wj].
    + apply Fit. now apply plain_all.
    + (* a branch *)
      rewrite <- SL in C. unfold os in Ot, Rg. rewrite FO, map_app in Ot, Rg. cbn [map extract] in Ot, Rg. set (d := signed16 (field w2 0 16)) in *.
      apply forall2_split in Rg as [Rg Rd2]; [|now rewrite map_length]. assert (Rd3 : -32768 <= d < 32768) by (inversion Rd2; assumption). clear Rd2.
      apply operands_text_app in Ot as (ts' & tb & Ot & Eb & ->); [|now rewrite map_length]. cbn [operands_text operand_text] in Eb. apply some_inj2 in Eb. subst tb.
      assert (Sn : signed_numeral (signed_text d) d) by (now apply signed_text_numeral). destruct (Z.ltb_spec d 0) as [Neg|Pos].
      * exfalso. destruct Ar as [[Ex _]|[_ F]]; [destruct ts'; discriminate Ex|]. apply Forall2_app_inv_l in F as (xs' & xl & _ & F & ->).
        apply forall2_one in F as (x & -> & Pd & _). destruct (branch_operand _ _ _ _ _ _ _ _ _ C G Pi) as [im Im].
        destruct (negative_refused (mk_parser rt m input) s1 t (signed_text d) x d Rd Lo Pd Sn Neg) as [y Y]. congruence.
      * assert (Bl : branch_line f (map (extract base w2) ks) (signed_text d) t).
        { exists ks, ts'. split; [exact FO|]. split; [now rewrite map_length|]. split; [|exact Li]. apply operands_text_spelling; [now apply plain_all|exact Ot]. }
        assert (Nu : numeral (signed_text d) d).
        { unfold signed_text. destruct (Z.ltb_spec d 0); [lia|]. apply num_hex, hex_numeral. lia. }
        rewrite St in El.
        assert (Is : base <= d <= base + 4 * Z.of_nat (List.length ws)).
        { destruct (Z.ltb_spec d base) as [Lo1|Lo1]; [exfalso|destruct (Z.ltb_spec (base + 4 * Z.of_nat (List.length ws)) d) as [Hi1|Hi1]; [exfalso|lia]].
          all: assert (Ob : outside_branch rt m input (map (shown_text base) ws1) t (map (shown_text base) ws2) f (map (extract base w2) ks) d)
            by (constructor; [exact El|exact If'|now exists (signed_text d)|lia|rewrite Hn; change (m_base m) with base; lia|apply B|intros p X; rewrite A in X; discriminate X]).
          all: destruct (C34_reported _ _ _ _ _ _ _ _ _ Ob) as (es & last & bounds & X & _); rewrite A in X; discriminate X. }
        destruct (branch_to_number rt m input out _ t _ f _ _ d A El If' Bl Nu ltac:(lia)) as (i2 & Ni & Bi). rewrite Cn in Ni, Bi.
        set (q := Z.quot (d - (Z.of_nat (List.length ws1) + 1)) 4) in *.
        exists i2, (word f (map (extract base w2) ks ++ [OInt q])). split; [exact Ni|]. split; [exact Bi|]. intros Ex. right.
        assert (Fq := branch_field f (map (extract base w2) ks) (signed_text d) t q If' Bl). rewrite Ex in Fq.
        unfold os in Eo. rewrite FO in Eo. unfold shown_operands in Eo. rewrite !map_app in Eo. cbn [map extract] in Eo. apply app_inj_tail in Eo as [Eo Ed]. fold d in Ed.
        assert (Fw := field_bound w 0 16 ltac:(lia)).
        assert (w2 = w) as ->.
        { destruct Sw as (_ & _ & _ & [X|(_ & _ & X)]); [exact X|]. exfalso. rewrite X in Ed. change (signed16 32767) with 32767 in Ed. cbn [shown_operand] in Ed. change (signed_operand Branch16 && (32767 =? 32767))%bool with true in Ed. cbv iota in Ed.
          assert (d = -32767) by congruence. lia. }
        assert (Dw : field w 0 16 = d /\ d <> 32767).
        { assert (Dd : d = signed16 (field w 0 16)) by reflexivity. unfold signed16 in Dd. destruct (Z.ltb_spec (field w 0 16) 32768) as [Sm|Sm]; [|lia]. split; [now symmetry|].
          intros Hd. assert (field w 0 16 = 32767) by lia. rewrite H in Ed. change (signed16 32767) with 32767 in Ed. cbn [shown_operand] in Ed. change (signed_operand Branch16 && (32767 =? 32767))%bool with true in Ed. cbv iota in Ed.
          assert (d = -32767) by congruence. lia. }
        destruct Dw as [Dw Dn]. split; [|split].
        -- exists f. split; [exact R|]. rewrite FO. apply in_or_app. right. now left.
        -- intros g' Rg'. assert (g' = f) by congruence. subst g'. rewrite <- Ex at 1. rewrite FO, map_app. cbn [map extract]. apply (word_branch f ks); [exact FO|now rewrite map_length|]. fold d. rewrite <- Fq, Dw. symmetry. apply Z.mod_small. lia.
        -- rewrite Dw. split; [lia|]. split; [exact Is|]. fold q. change (2 ^ 16) with 65536. rewrite <- Fq. exact Dw.
    + (* a code *)
      rewrite <- SL in C. set (v := field w2 6 20). assert (Eos : os = [OInt v]) by (unfold os; rewrite FO; reflexivity).
      assert (Rv := field_bound w2 6 20 ltac:(lia)). fold v in Rv. destruct (Z.ltb_spec v 65536) as [Lt|Ge].
      * apply Fit. rewrite FO, Eos. constructor; [|constructor]. split; [exact Rv|exact Lt].
      * exfalso. rewrite FO, Eos in Ot. cbn [operands_text operand_text] in Ot. apply some_inj2 in Ot. subst ts.
        destruct Ar as [[Ex _]|[_ F]]; [discriminate Ex|]. apply forall2_one in F as (x & -> & Pd & _).
        assert (Nu : numeral (#"0x" ++ hex v) v) by (apply num_hex, hex_numeral; lia). assert (Sn : signed_numeral (#"0x" ++ hex v) v) by (now apply num_pos).
        assert (Nx : x <> []). { destruct Pd as (p & q & _ & _ & Ex). intros X. rewrite Ex in X. apply app_eq_nil in X as [_ X]. discriminate X. }
        destruct (code_operand _ _ _ _ _ _ _ C Pi Nx) as [im Im].
        assert (Tx : trim x = #"0x" ++ hex v).
        { destruct (numeral_shape _ _ Nu) as (radix & ds & Sh & _). destruct (number_operand_ok _ _ _ _ Sh) as (_ & _ & T1 & T2). exact (padded_trim _ _ Pd T1 T2). }
        assert (X := number_immediate (mk_parser rt m input) s1 u16 (trim x) (#"0x" ++ hex v) v t Rd Lo (or_intror eq_refl)). rewrite Tx in X, Im. specialize (X (padded_self _) Sn (fun _ _ => Nu)).
        assert (Ac : accepted u16 v = false) by (unfold accepted; change (it_min u16) with 0; change (it_max u16) with 65535; lia).
        rewrite Ac in X. destruct X as [d X]. congruence.
    + (* a jump *)
      set (g := field w2 0 26). set (a := base / 2 ^ 28 * 2 ^ 28 + g * 4). assert (Eos : os = [OInt a]) by (unfold os; rewrite FO; reflexivity).
      assert (Rv := field_bound w2 0 26 ltac:(lia)). fold g in Rv. assert (Am : a mod 2 ^ 28 = g * 4).
      { unfold a. rewrite Z.add_comm, Z.mod_add by lia. apply Z.mod_small. lia. }
      assert (A4 : a mod 4 = 0).
      { unfold a. change (2 ^ 28) with (2 ^ 26 * 4) at 2. rewrite Z.mul_assoc, <- Z.mul_add_distr_r. apply Z.mod_mul. lia. }
      rewrite FO, Eos in Rg. assert (Ra : 0 <= a < 2 ^ 32) by (inversion Rg; assumption).
      destruct (Z.ltb_spec (a mod 2 ^ 28) (2 ^ 26)) as [Lt|Ge].
      * apply Fit. rewrite FO, Eos. constructor; [|constructor]. split; [split; assumption|exact Lt].
      * rewrite FO, Eos in Ot. cbn [operands_text operand_text] in Ot. apply some_inj2 in Ot. subst ts.
        assert (Nu : numeral (#"0x" ++ hexU a) a) by (apply num_hex, hexU_numeral; lia).
        assert (Nj' : number_jump rt m input out (map (shown_text base) ws1) t (map (shown_text base) ws2) (f_name f) a).
        { constructor; [exact A|rewrite <- St; exact El| |lia|exact A4]. exists (#"0x" ++ hexU a). split; [split; [exact Nj|exact Li]|]. split; [exact Nu|]. intros b []. }
        apply C13_jump_word in Nj'. rewrite Cn in Nj'. unfold words_of in Nj'. rewrite nth_error_map in Nj'. destruct (nth_error out (List.length ws1)) as [j|] eqn:Nj2; [|discriminate Nj'].
        cbn [option_map] in Nj'. apply some_inj2 in Nj'. exists j, (jump_code (f_name f) * 2 ^ 26 + a mod 2 ^ 26 / 4). split; [reflexivity|]. split; [exact Nj'|].
        intros Ex. left. exfalso. assert (w2 = w) as ->.
        { destruct Sw as (_ & _ & _ & [X|(_ & X & _)]); [exact X|]. unfold has_signed in X. rewrite FO in X. discriminate X. }
        assert (Rm := Z.mod_pos_bound a (2 ^ 26) ltac:(lia)). assert (Q : 0 <= a mod 2 ^ 26 / 4 < 2 ^ 24) by (split; [apply Z.div_pos; lia|apply Z.div_lt_upper_bound; lia]).
        assert (X : g = a mod 2 ^ 26 / 4).
        { unfold g. rewrite <- Ex. apply jump_word_field. lia. }
        lia.
  - assert (Su : shown_text base w = unread_text w) by (unfold shown_text; now rewrite R). unfold unread_text in Su.
    destruct (num_assoc (field w 0 6) tlb_names) as [t|] eqn:N; [|exfalso; apply Nd; rewrite Su; now apply data_text_operation].
    destruct ((field w 26 6 =? 16) && (field w 25 1 =? 0))%bool; [|exfalso; apply Nd; rewrite Su; now apply data_text_operation].
    rewrite Su in El.
    destruct (tlb_format _ _ N) as (f & If & Fn & Fo & Rw). assert (If' : In f (isa ++ idioms)) by (apply in_or_app; now left).
    assert (T : text f [] = Some t) by (unfold text; rewrite Fo, <- Fn; reflexivity).
    destruct (native_anywhere rt m input out (map (shown_text base) ws1) t (map (shown_text base) ws2) f [] Sy A) as (i & Ni & Bi); auto.
    + apply text_line; [rewrite Fo; constructor|exact T].
    + rewrite Fo. constructor.
    + intros _. left. exact (text_starts f [] t T (table_name f If')).
    + rewrite Cn in Ni. exists i, (word f []). split; [exact Ni|]. split; [exact Bi|]. intros Wb. rewrite Wb in Rw. congruence.
Qed.
End Disassembly2.

Lemma singles (P : Z -> Z -> Prop) ws : forall L, (forall ws1 w ws2, ws = ws1 ++ w :: ws2 -> exists w', nth_error L (List.length ws1) = Some [w'] /\ P w w') ->
  exists ws' rest, L = map (fun x => [x]) ws' ++ rest /\ Forall2 P ws ws'.
Proof.
  induction ws as [|w ws IH]; intros L H.
  - exists [], L. split; [reflexivity|constructor].
  - destruct (H [] w ws eq_refl) as (w' & N & Pw). destruct L as [|x L]; [discriminate N|]. cbn [List.length nth_error] in N. injection N as ->.
    destruct (IH L) as (ws' & rest & -> & F).
    { intros ws1 v ws2 Ev. destruct (H (w :: ws1) v ws2) as (v' & N & Pv); [now rewrite Ev|]. exists v'. split; [exact N|exact Pv]. }
    exists (w' :: ws'), rest. split; [reflexivity|]. constructor; assumption.
Qed.
Lemma concat_singles (ws : list Z) : List.concat (map (fun x => [x]) ws) = ws.
Proof. induction ws as [|w ws IH]; [reflexivity|]. cbn [map List.concat app]. now rewrite IH. Qed.

Theorem all_back_at oc rt base ws ls out : is_word base -> Forall is_word ws ->
  disassemble oc (debug_at base) ws = Ok ls -> assemble rt (set_base base m_new) (join [nl] ls) = Ok out -> get_bytes out = ws ->
  forall ws1 w ws2, ws = ws1 ++ w :: ws2 -> returns base w \/ branch_back base (List.length ws) (List.length ws1) w.
Proof.
  intros B W D A G. unfold debug_at in D. rewrite (shown_listing oc base _ ws B W eq_refl) in D. injection D as <-.
  assert (E : lines (join [nl] (map (shown_text base) ws)) = map (shown_text base) ws).
  { apply lines_join_proper; apply Forall_forall; intros l I; apply in_map_iff in I as (w & <- & I); rewrite Forall_forall in W;
    destruct (shown_line base w (W w I) B) as (_ & Cl & Ne); [now apply clear_proper|exact Ne]. }
  destruct (singles (fun w w' => True) ws (words_of out)) as (ws' & rest & Ew & F).
  { intros ws1 w ws2 Es. destruct (word_back rt base ws _ out B W E A ws1 w ws2 Es) as (i & w' & Ni & Bi & Re). exists w'. split; [|exact Logic.I]. eapply words_nth; eauto. }
  assert (X : get_bytes out = List.concat (words_of out)) by apply get_bytes_words. rewrite G, Ew, concat_app, concat_singles in X.
  assert (L : List.length ws = List.length ws') by (clear - F; induction F; cbn; lia). assert (rest0 : List.concat rest = []).
  { apply (f_equal (@List.length Z)) in X. rewrite app_length in X. destruct (List.concat rest); [reflexivity|cbn in X; lia]. }
  rewrite rest0, app_nil_r in X. intros ws1 w ws2 Es. destruct (word_back rt base ws _ out B W E A ws1 w ws2 Es) as (i & w' & Ni & Bi & Re). apply Re.
  assert (Y : nth_error (words_of out) (List.length ws1) = Some [w']) by (eapply words_nth; eauto). rewrite Ew, <- X, Es in Y. rewrite map_app, <- app_assoc in Y. cbn [map app] in Y.
  rewrite nth_error_app2 in Y by (rewrite map_length; lia). rewrite map_length, Nat.sub_diag in Y. cbn [nth_error] in Y. congruence.
Qed.
Theorem all_back oc rt base ws ls out : is_word base -> Forall is_word ws -> (32768 <= base \/ Forall (fun w => ~ branch_word w) ws) ->
  disassemble oc (debug_at base) ws = Ok ls -> assemble rt (set_base base m_new) (join [nl] ls) = Ok out -> get_bytes out = ws -> Forall (returns base) ws.
Proof.
  intros B W Hb D A G. apply Forall_forall. intros w I. apply in_split in I as (ws1 & ws2 & Es).
  destruct (all_back_at oc rt base ws ls out B W D A G ws1 w ws2 Es) as [R|(Bw & _ & Lo & Is & _)]; [exact R|exfalso]. destruct Hb as [Hb|Hb]; [lia|].
  rewrite Es in Hb. apply Forall_app in Hb as [_ Hb]. inversion Hb. contradiction.
Qed.
