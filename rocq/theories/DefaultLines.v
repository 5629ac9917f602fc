(** * DefaultLines: the lines of any default-mode listing, as the assembler sees them (proofs only). *)

From Coq Require Import Lia.
From Verif Require Import PropsDisasm PropsLabels PropsCompare PropsRefs WarnProofs QuietProofs ImmLines Lib SpecIsa SpecListing StrLemmas NumLemmas DecodeProofs DisasmProofs ListingProofs InjProofs DisasmMore
  TextProofs OperandProofs NativeProofs LineProofs ScanProofs ProgProofs BranchProofs LabelProofs AsmProofs RoundProofs CauseProofs FatalProofs CodingProofs ExactProofs RoundExact DefaultProofs
  SpecText SpecProgram SpecLabels SpecPanic SpecCause SpecReading SpecExact SpecDefault.

(** ** Comparisons with a tab *)

Definition with_tab (t : str) : Prop := exists c fmt rs rt, In fmt [ #"s"; #"d" ] /\ t = #"c." ++ fcond_name c ++ #"." ++ fmt ++ "009"%char :: #"    " ++ dfreg rs ++ sep ++ dfreg rt.
Definition no_tab (t : str) : Prop := spaced t /\ (starts_with #"c." t = true -> starts_with #"c.ngle." t = true).

Lemma starts_front_part p n c r : starts_with p (n ++ c :: r) = true -> ~ In c p -> starts_with p n = true.
Proof.
  intros H N. apply starts_with_spec in H as [x H]. assert (Y : exists y, n = p ++ y); [|destruct Y as [y ->]; apply starts_front]. revert n H N. induction p as [|a p IH]; intros n H N; [exists n; reflexivity|].
  destruct n as [|b n]; cbn [app] in H.
  - exfalso. apply N. left. congruence.
  - assert (b = a) by congruence. subst b. assert (H' : n ++ c :: r = p ++ x) by congruence. destruct (IH n H') as [y ->]; [intros I; apply N; now right|]. exists y. reflexivity.
Qed.
Lemma other_start s : spaced s -> starts_with #"c." s = false -> no_tab s.
Proof. intros S N. split; [exact S|congruence]. Qed.
Lemma imm_no_tab op rs rt v t : show_imm_short op rs rt v = Ok t -> no_tab t.
Proof. intros E. assert (Sp := imm_spaced _ _ _ _ _ E). apply other_start; [exact Sp|]. destruct op; cbn [show_imm_short] in E; try discriminate E; apply ok_eq in E; rewrite E; reflexivity. Qed.
Lemma fcond_no_tab fmt rs rt sa t : In fmt [ #"s"; #"d" ] -> show_fcond fmt rs rt sa = Ok t -> no_tab t \/ with_tab t.
Proof.
  intros N E. destruct (fcond_spaced fmt rs rt sa t) as [Sp|Tb]; [destruct N as [<-|[<-|[]]]; reflexivity|exact E| |].
  - left. split; [exact Sp|]. unfold show_fcond in E. destruct (fcond_try_from sa) as [c| |] eqn:C; try discriminate E. apply ok_eq in E. destruct (sa =? 9) eqn:S9.
    + apply Z.eqb_eq in S9. subst sa. vm_compute in C. injection C as <-. intros _. rewrite E. reflexivity.
    + exfalso. assert (I : In "009"%char t) by (rewrite E; apply in_or_app; right; apply in_or_app; right; apply in_or_app; right; apply in_or_app; right; now left). specialize (Sp _ I eq_refl). discriminate Sp.
  - right. unfold show_fcond in E. destruct (fcond_try_from sa) as [c| |] eqn:C; try discriminate E. apply ok_eq in E. exists c, fmt, rs, rt. split; [exact N|]. destruct (sa =? 9) eqn:S9; [|exact E].
    exfalso. apply Z.eqb_eq in S9. subst sa. vm_compute in C. injection C as <-. destruct Tb as (name & r & E2 & _ & Ng). rewrite E2 in E.
    apply app_inv_head in E. change (fcond_name FC_Ngle ++ #"." ++ fmt ++ [] ++ #"    " ++ dfreg rs ++ sep ++ dfreg rt) with (#"ngle." ++ (fmt ++ #"    " ++ dfreg rs ++ sep ++ dfreg rt)) in E.
    assert (X : starts_with #"ngle." (name ++ "009"%char :: r) = true) by (rewrite E; apply starts_front).
    apply starts_front_part in X; [congruence|]. intros I. cbn in I. repeat destruct I as [I|I]; try discriminate I; exact I.
Qed.
Lemma reg_no_tab op rs rt rd sa b t : show_reg op rs rt rd sa b = Ok t -> no_tab t \/ with_tab t.
Proof.
  intros E. destruct (reg_spaced _ _ _ _ _ _ _ E) as [Sp|Tb].
  - destruct op; cbn [show_reg] in E;
    repeat lazymatch type of E with
    | Ok _ = _ => left; apply other_start; [exact Sp|]; apply ok_eq in E; rewrite E; reflexivity
    | Panic _ = _ => discriminate E
    | show_fcond _ _ _ _ = _ => apply fcond_no_tab in E; [exact E|cbn; tauto]
    | (if ?b then _ else _) = _ => destruct b
    | match rd with _ => _ end = _ => destruct rd
    | match reg_to_c0reg rd with _ => _ end = _ => destruct (reg_to_c0reg rd)
    | match b with _ => _ end = _ => destruct b
    end.
  - destruct op; cbn [show_reg] in E;
    repeat lazymatch type of E with
    | Ok _ = _ => exfalso; apply ok_eq in E; rewrite E in Tb; destruct Tb as (? & ? & Tb & _); discriminate Tb
    | Panic _ = _ => discriminate E
    | show_fcond _ _ _ _ = _ => apply fcond_no_tab in E; [exact E|cbn; tauto]
    | (if ?b then _ else _) = _ => destruct b
    | match rd with _ => _ end = _ => destruct rd
    | match reg_to_c0reg rd with _ => _ end = _ => destruct (reg_to_c0reg rd)
    | match b with _ => _ end = _ => destruct b
    end.
Qed.
Lemma inst_no_tab i t : show_inst i = Ok t -> plain_inst i -> no_tab t \/ with_tab t.
Proof.
  destruct i as [op rs rt im b|op tg b|op rs rt rd sa b|w]; intros E J; [destruct im|destruct tg| |]; try (now destruct J); cbn [show_inst] in E.
  - left; eapply imm_no_tab, E.
  - left; apply other_start; apply ok_eq in E; rewrite E; destruct op; spaced_tac || reflexivity.
  - eapply reg_no_tab, E.
  - left; apply other_start; apply ok_eq in E; rewrite E; [spaced_tac|reflexivity].
Qed.

(** Such a line is not accepted. *)
Lemma dfreg_bare r : bare (dfreg r). Proof. destruct r; apply bare_lit; reflexivity. Qed.
Lemma tab_refused e s t w i : with_tab t -> parse_inst e s (clean t) = (w, Ok i) -> False.
Proof.
  intros (c & fmt & rs & rt & F & E) P.
  set (q := #"   " ++ dfreg rs ++ sep ++ dfreg rt). set (o := #"c." ++ fcond_name c ++ #"." ++ fmt ++ ["009"%char]).
  assert (Et : t = o ++ " "%char :: q) by (rewrite E; unfold o, q; rewrite <- !app_assoc; reflexivity).
  assert (Ba : bare t).
  { rewrite Et. unfold o, q. change (" "%char :: #"   " ++ dfreg rs ++ sep ++ dfreg rt) with (#"    " ++ dfreg rs ++ sep ++ dfreg rt).
    repeat lazymatch goal with
    | |- bare (_ ++ _) => apply bare_app; split
    | |- bare (dfreg _) => apply dfreg_bare
    | |- bare (fcond_name c) => destruct c; apply bare_lit; reflexivity
    | |- bare fmt => destruct F as [<-|[<-|[]]]; apply bare_lit; reflexivity
    | |- bare _ => apply bare_lit; reflexivity
    end. }
  assert (C : clean t = t).
  { rewrite (proj1 (plain_clean t (bare_plain t Ba))). apply trim_tight.
    - rewrite E. reflexivity.
    - rewrite Et. unfold q. replace (o ++ " "%char :: #"   " ++ dfreg rs ++ sep ++ dfreg rt) with ((o ++ " "%char :: #"   " ++ dfreg rs ++ sep) ++ dfreg rt) by (cbn [app]; rewrite <- !app_assoc; cbn [app]; rewrite <- !app_assoc; reflexivity).
      apply tight_end_app; [destruct rt; discriminate|apply dfreg_no_ws]. }
  rewrite C, Et in P. unfold parse_inst in P. rewrite split_once_app in P.
  2: { unfold o. intros I. destruct c, F as [<-|[<-|[]]]; cbn in I; repeat destruct I as [I|I]; try discriminate I; exact I. }
  destruct (o ++ " "%char :: q) eqn:Q; [destruct o; discriminate Q|]. clear Q. unfold parse_op in P.
  assert (K : classify (trim (to_lower o)) = None) by (unfold o; destruct c, F as [<-|[<-|[]]]; vm_compute; reflexivity). rewrite K in P. unfold parse_float in P.
  assert (K1 : Nat.ltb (List.length o) 2 = false) by (unfold o; destruct c, F as [<-|[<-|[]]]; vm_compute; reflexivity).
  assert (K2 : mem_str (firstn (List.length o - 2) (to_lower o)) float3_names = false) by (unfold o; destruct c, F as [<-|[<-|[]]]; vm_compute; reflexivity).
  assert (K3 : mem_str (firstn (List.length o - 2) (to_lower o)) float2_names = false) by (unfold o; destruct c, F as [<-|[<-|[]]]; vm_compute; reflexivity).
  assert (K4 : starts_with #"c." (firstn (List.length o - 2) (to_lower o)) = true) by (unfold o; destruct c, F as [<-|[<-|[]]]; vm_compute; reflexivity).
  assert (K5 : match rop_of (#"C." ++ match rev o with c :: _ => [c] | [] => [] end) with Ok _ => false | _ => true end = true) by (unfold o; destruct c, F as [<-|[<-|[]]]; vm_compute; reflexivity).
  rewrite K1 in P. cbv zeta in P. rewrite K2, K3, K4 in P. clearbody o q. clear K K1 K2 K3 K4 C Ba Et E.
  destruct (split_char "," q) as [|a0 [|b0 [|d0 r0]]]; try (unfold bad_count, lift, fail_at in P; destruct (get_line e (p_line s)); discriminate P).
  apply mbind_inv in P as (?w & ?r1 & ?w2 & _ & P & _). apply mbind_inv in P as (?w & ?r2 & ?w2 & _ & P & _). apply mbind_inv in P as (?w & ?r3 & ?w2 & P & _). unfold lift in P. destruct (rop_of _); [discriminate K5|discriminate P|discriminate P].
Qed.

(** ** What a line shows *)

Inductive shows (base w : Z) (t : str) : Prop :=
| sh_data : operation t = #".word" -> shows base w t
| sh_text f w2 ts : read_word w = Some f -> shown_word base w w2 f -> operands_text (f_ops f) (map (extract base w2) (f_ops f)) = Some ts ->
    text f (map (extract base w2) (f_ops f)) <> None -> instruction_line (f_name f) ts t -> starts_with (f_name f) (trim t) = true -> shows base w t
| sh_tlb f : read_word w = None -> In f isa -> f_ops f = [] -> read_word (word f []) <> None -> instruction_line (f_name f) [] t -> starts_with (f_name f) (trim t) = true -> shows base w t.

(** A line that collapses to a text without white space at its start. *)
Lemma loose_text f os t : name_ok (f_name f) -> Forall2 ranged (f_ops f) os -> spaced t -> text f os = Some (collapse t) ->
  exists ts, operands_text (f_ops f) os = Some ts /\ instruction_line (f_name f) ts t /\ starts_with (f_name f) (trim t) = true.
Proof.
  intros Nk R Sp T. assert (Nk' := Nk). destruct Nk' as (Nn & _ & Nw). apply text_cases in T as [(E & -> & C)|(ts & E & Ne & C)].
  - unfold collapse in C. rewrite <- (app_nil_r (f_name f)) in C. apply uc_word in C as (w & s' & -> & _ & W & C); [|now split].
    apply uc_end in C as [_ C]. rewrite (W eq_refl), (C eq_refl). cbn [app]. exists []. split; [now rewrite E|]. split; [|now apply name_start].
    exists [], (f_name f), [], []. repeat split; auto; try constructor; try reflexivity.
  - unfold collapse in C. apply uc_word in C as (w & s' & -> & _ & W & C); [|now split]. rewrite (W eq_refl) in *. cbn [app] in *.
    apply uc_space in C as (c & s2 & -> & Wc & C). assert (c = " "%char) as -> by (apply Sp; [apply in_or_app; right; now left|exact Wc]).
    assert (N := operands_neat _ _ _ R E).
    destruct ts as [|u ts]; [congruence|]. apply uc_join in C as (x & xs & -> & P); [|exact N].
    exists (u :: ts). split; [exact E|]. split; [|now apply name_start].
    exists [], (f_name f ++ #" " ++ join #"," (x :: xs)), [], []. repeat split; auto; try constructor; try reflexivity; [|now rewrite !app_nil_r].
    inversion P; subst. now constructor.
Qed.

Lemma collapse_chars t c : is_ws c = false -> forall b, In c t -> In c (collapse_from b t).
Proof.
  intros N. induction t as [|x t IH]; intros b I; [destruct I|]. cbn [collapse_from]. destruct (is_ws x) eqn:W.
  - destruct I as [->|I]; [congruence|]. destruct b; [now apply IH|right; now apply IH].
  - destruct I as [->|I]; [now left|right; now apply IH].
Qed.
Lemma loose_bare t : spaced t -> bare (collapse t) -> bare t.
Proof.
  intros Sp B c I x X E. subst x. destruct (is_ws c) eqn:W.
  - rewrite (Sp c X W) in I. cbn in I. repeat destruct I as [I|I]; try discriminate I; exact I.
  - apply (B c I c); [|reflexivity]. unfold collapse. now apply collapse_chars.
Qed.
Lemma loose_data t s : spaced t -> collapse t = #".word" ++ " "%char :: s -> bare (collapse t) ->
  role_of t = Instruction /\ operation t = #".word" /\ proper_line t /\ t <> [].
Proof.
  intros Sp C Ba. apply (loose_bare t Sp) in Ba. unfold collapse in C. apply uc_word in C as (w & s' & -> & _ & W & C); [|split; [discriminate|reflexivity]].
  rewrite (W eq_refl) in *. cbn [app] in *. apply uc_space in C as (c & s2 & -> & Wc & C).
  assert (c = " "%char) as -> by (apply Sp; [apply (in_or_app #".word"); right; now left|exact Wc]). clear W w C.
  change ("."%char :: "w"%char :: "o"%char :: "r"%char :: "d"%char :: " "%char :: s2) with (#".word" ++ " "%char :: s2) in *.
  split; [now apply data_role|]. split; [|split; [now apply no_nl_spaced|discriminate]].
  unfold operation. rewrite (proj1 (plain_clean _ (bare_plain _ Ba))).
  assert (St := name_start #".word" (" "%char :: s2) ltac:(apply name_okb_ok; reflexivity)). apply starts_with_spec in St as [r St]. rewrite St.
  destruct r as [|c r]; [rewrite app_nil_r; reflexivity|].
  assert (c = " "%char).
  { destruct (trim_decomp (#".word" ++ " "%char :: s2)) as (a & b & D & A & _). rewrite St in D.
    destruct a as [|x a]; [cbn in D; congruence|]. cbn in D. assert (x = "."%char) by congruence. subst x. cbn in A. discriminate A. }
  subst c. rewrite split_once_app; [reflexivity|]. intros I. cbn in I. repeat destruct I as [I|I]; try discriminate I; exact I.
Qed.

Lemma text_operands f os t : text f os = Some t -> operands_text (f_ops f) os <> None.
Proof. unfold text. destruct (operands_text (f_ops f) os); [discriminate|discriminate]. Qed.

(** The mnemonic of a float comparison without a tab. *)
Lemma loose_tab_free f os t : name_ok (f_name f) -> no_tab t -> text f os = Some (collapse t) -> starts_with #"c." (f_name f) = true -> starts_with #"c.ngle." (f_name f) = true.
Proof.
  intros (Nn & _ & Nw) [Sp Nt] T S. assert (S' := S). apply starts_with_spec in S' as [r Er].
  assert (H : exists rest, collapse t = f_name f ++ rest /\ (rest = [] \/ exists z, rest = " "%char :: z)).
  { apply text_cases in T as [(_ & _ & X)|(ts & _ & _ & X)]; [exists []; rewrite app_nil_r; auto|eexists; split; [exact X|right; eauto]]. }
  destruct H as (rest & Cl & Hr). assert (Cl2 := Cl). unfold collapse in Cl. apply uc_word in Cl as (w & s' & -> & _ & W & C); [|now split]. rewrite (W eq_refl) in *. cbn [app] in *.
  assert (X : starts_with #"c." (f_name f ++ s') = true) by (rewrite Er, <- app_assoc; apply starts_front). apply Nt in X.
  destruct s' as [|c s'].
  - now rewrite app_nil_r in X.
  - destruct (is_ws c) eqn:Wc; [apply (starts_front_part _ _ c s'); [exact X|]; intros I; cbn in I; repeat destruct I as [<-|I]; try discriminate Wc; exact I|].
    exfalso. cbn [collapse_from] in C. rewrite Wc in C. destruct Hr as [->|[z ->]]; [discriminate C|]. injection C as -> _. discriminate Wc.
Qed.

Record line_seen (base w : Z) (t : str) : Prop := mk_line_seen {
  ls_role : role_of t = Instruction;
  ls_proper : proper_line t;
  ls_some : t <> [];
  ls_shows : shows base w t;
  ls_tab : tab_free w
}.
Theorem default_line base w t : is_word w -> is_word base -> show_inst (disasm_word base w) = Ok t ->
  with_tab t \/ line_seen base w t.
Proof.
  intros W B D. destruct (inst_no_tab _ _ D (word_plain base w W B)) as [Nt|Wt]; [right|now left]. assert (Sp := proj1 Nt).
  assert (C : collapse t = shown_text base w).
  { assert (X := shown_all base w W B). unfold debug_inst in X. rewrite D in X. cbn [obind] in X. rewrite replace_all_space, squeeze_collapse in X. now apply ok_eq in X. }
  assert (Dt : forall s, collapse t = #".word" ++ " "%char :: s -> bare (collapse t) -> tab_free w -> line_seen base w t).
  { intros s Ec Ba Tf. destruct (loose_data t s Sp Ec Ba) as (R & O & P & N). constructor; auto. now apply sh_data. }
  assert (Pt : forall f os ts, In f isa -> Forall2 ranged (f_ops f) os -> operands_text (f_ops f) os = Some ts -> instruction_line (f_name f) ts t -> role_of t = Instruction /\ t <> []).
  { intros f os ts If R Ot L. assert (If' : In f (isa ++ idioms)) by (apply in_or_app; now left). assert (Oks := operands_text_ok _ _ _ R Ot).
    destruct (line_parse_parts (mk_env [] 0 [] false (fun x => x)) init_state (f_name f) ts t (table_name f If') Oks (proj1 (no_nl_spaced t Sp)) L) as (_ & _ & _ & _ & _ & X & Y & _).
    assert (Ro := role_native t X Y). split; [exact Ro|]. intros ->. discriminate Ro. }
  unfold shown_text in C. destruct (read_word w) as [f|] eqn:R.
  - assert (If := read_word_in _ _ R). assert (If' : In f (isa ++ idioms)) by (apply in_or_app; now left). destruct (shown_cases base w f W B R) as (w2 & Sw).
    assert (Sw' := Sw). destruct Sw' as (W2 & R2 & Eo & _). destruct (text f (shown_operands base w (f_ops f))) as [t'|] eqn:T.
    + subst t'. rewrite <- Eo in T. assert (Rg := extract_ops_ranged base w2 (f_ops f) B). destruct (loose_text f _ t (table_name f If') Rg Sp T) as (ts & Ot & Li & St).
      destruct (Pt f _ ts If Rg Ot Li) as [Ro Ne]. constructor; auto.
      * now apply no_nl_spaced.
      * apply (sh_text base w t f w2 ts); auto. rewrite T. discriminate.
      * intros g Rg2 S. assert (g = f) by congruence. subst g. apply (loose_tab_free f _ t (table_name f If') Nt T S).
    + apply (Dt (#"0x" ++ zero_pad 8 (hex w) ++ #" # " ++ f_name f ++ #" $" ++ nth_name gpr_names (field w 16 5) ++ #", 0x" ++ zero_pad 2 (hex (field w 11 5)))).
      * rewrite C. unfold unnamed_text, data_text. rewrite <- !app_assoc. reflexivity.
      * rewrite C. now apply unnamed_bare.
      * intros g Rg S. exfalso. assert (g = f) by congruence. subst g.
        assert (X : forallb (fun f => negb (starts_with #"c." (f_name f)) || forallb (fun k => match k with Cop0 _ => false | _ => true end) (f_ops f)) isa = true) by (vm_compute; reflexivity).
        assert (Y := forallb_in _ _ f X If). cbv beta in Y. rewrite S in Y. cbn [negb orb] in Y. rewrite <- Eo in T.
        assert (Rg2 := extract_ops_ranged base w2 (f_ops f) B). unfold text in T.
        assert (Z0 : operands_text (f_ops f) (map (extract base w2) (f_ops f)) <> None).
        { clear - Y. induction (f_ops f) as [|k ks IH]; [discriminate|]. cbn [forallb] in Y. apply andb_prop in Y as [Y1 Y2]. cbn [map operands_text].
          specialize (IH Y2). destruct (operands_text ks (map (extract base w2) ks)); [|congruence]. destruct k; try discriminate Y1; cbn [extract operand_text]; discriminate. }
        destruct (operands_text (f_ops f) (map (extract base w2) (f_ops f))) as [[|u us]|]; [discriminate T|discriminate T|congruence].
  - assert (Tf : tab_free w) by (intros g Rg; congruence).
    assert (Dd : collapse t = data_text w -> line_seen base w t).
    { intros E. apply (Dt (#"0x" ++ zero_pad 8 (hex w))); [rewrite E; reflexivity|rewrite E; now apply data_bare|exact Tf]. }
    unfold unread_text in C. destruct (num_assoc (field w 0 6) tlb_names) as [nm|] eqn:N; [|auto].
    destruct ((field w 26 6 =? 16) && (field w 25 1 =? 0))%bool; [|auto]. destruct (tlb_format _ _ N) as (f & If & Fn & Fo & Rw). assert (If' : In f (isa ++ idioms)) by (apply in_or_app; now left).
    assert (T : text f [] = Some (collapse t)) by (unfold text; rewrite Fo, C, <- Fn; reflexivity).
    assert (R0 : Forall2 ranged (f_ops f) []) by (rewrite Fo; constructor).
    destruct (loose_text f [] t (table_name f If') R0 Sp T) as (ts & Ot & Li & St). destruct (Pt f [] ts If R0 Ot Li) as [Ro Ne].
    assert (ts = []) as -> by (rewrite Fo in Ot; now apply some_inj2 in Ot).
    constructor; auto; [now apply no_nl_spaced|]. now apply (sh_tlb base w t f).
Qed.
