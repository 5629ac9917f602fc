(** * ModuleProofs: parts of programs (proofs for C73). *)

From Coq Require Import Lia.
From Verif Require Import Lib SpecIsa StrLemmas NumLemmas OperandProofs NativeProofs LineProofs TextProofs ScanProofs ProgProofs AsmProofs LabelProofs BranchProofs PseudoProofs
  PropsLabels CompareProofs RefProofs InsProofs AcceptProofs AcceptLines SpecErrors SpecText SpecProgram SpecLabels SpecScopes SpecLines SpecImm SpecAccept SpecModules.

Lemma table_shift d ls : forall k n j, In (n, j) (label_table k ls) -> In (n, (j + d)%nat) (label_table (k + d) ls).
Proof.
  induction ls as [|l ls IH]; intros k n j I; [destruct I|]. cbn [label_table] in *. destruct (role_of l) as [|nm|].
  - now apply IH.
  - destruct (is_local nm); [now apply IH|]. destruct I as [E|I]; [injection E as <- <-; now left|right; now apply IH].
  - change (S (k + d)) with (S k + d)%nat. now apply IH.
Qed.
Lemma table_after A ls n k : In (n, k) (label_table 0 ls) -> In (n, (k + instruction_count A)%nat) (label_table 0 (A ++ ls)).
Proof. intros I. rewrite label_table_app. apply in_or_app. right. now apply table_shift. Qed.
Lemma table_before A ls n k : In (n, k) (label_table 0 ls) -> In (n, k) (label_table 0 (ls ++ A)).
Proof. intros I. rewrite label_table_app. apply in_or_app. now left. Qed.

(** Two ways to cut a list. *)
Lemma cut_two {A} (a b p q : list A) x : a ++ b = p ++ x :: q -> (exists q', a = p ++ x :: q' /\ q = q' ++ b) \/ (exists p', p = a ++ p' /\ b = p' ++ x :: q).
Proof.
  revert p. induction a as [|y a IH]; intros p E; [right; exists p; auto|]. destruct p as [|z p]; cbn [app] in E; injection E as <- E.
  - left. exists a. auto.
  - destruct (IH p E) as [(q' & -> & ->)|(p' & -> & ->)]; [left; exists q'; auto|right; exists p'; auto].
Qed.

Lemma branch_role f os n l : no_nl l -> In f (isa ++ idioms) -> branch_line f os n l -> identifier n -> role_of l = Instruction.
Proof.
  intros N If B Id. destruct B as (ks & ts & FO & Len & Sp & L).
  assert (F : Forall operand_ok (ts ++ [n])) by (apply Forall_app; split; [now apply spellings_ok in Sp|constructor; [now apply identifier_operand|constructor]]).
  destruct (line_parse_parts (mk_parser (mk_runtime false (fun l => l)) m_new []) init_state (f_name f) (ts ++ [n]) l (table_name f If) F N L) as (op & arg & xs & _ & _ & Ne & Ec & _).
  now apply role_native.
Qed.
Lemma local_not_global n d : role_of d = Defines n -> is_local n = true -> global_label d = false.
Proof. intros R L. unfold global_label. now rewrite R, L. Qed.
Lemma headed_global ls a d b n : headed ls -> ls = a ++ d :: b -> role_of d = Defines n -> is_local n = true -> ~ no_global a.
Proof.
  intros (g & r & E & G) E' R L Ng. rewrite E in E'. destruct a as [|x a]; cbn [app] in E'; injection E' as -> _; [|].
  - rewrite (local_not_global _ _ R L) in G. discriminate G.
  - specialize (Ng x (or_introl eq_refl)). congruence.
Qed.

Lemma target_before A B before l rest n d1 : A = before ++ l :: rest -> headed B -> is_local n = true ->
  local_target A before l n d1 -> local_target (A ++ B) before l n d1.
Proof.
  intros EA Hb Ln T0. subst A. destruct T0 as (after & d & d2 & Ea & Ed & Rd & Sc & Un). exists (after ++ B), d, (d2 ++ B).
  apply app_inv_head in Ea. injection Ea as <-. rewrite Ed. split; [rewrite <- Ed, <- app_assoc; reflexivity|]. split; [rewrite <- app_assoc; reflexivity|]. split; [exact Rd|]. split.
  * destruct Sc as [mid E1 E2 Ng|mid E1 E2 Ng].
    -- apply (ss_before _ _ _ _ _ _ mid); auto. rewrite E2, <- app_assoc. reflexivity.
    -- apply (ss_after _ _ _ _ _ _ mid); auto. rewrite E1, <- app_assoc. reflexivity.
  * intros e1 e e2 Ee Re Se. rewrite <- Ed in Ee. destruct (cut_two _ _ _ _ _ Ee) as [(q & Eq & ->)|(q & -> & EB)].
    -- apply (Un e1 e q); [congruence|exact Re|]. destruct Se as [mid E1 E2 Ng|mid E1 E2 Ng].
       ++ apply (ss_before _ _ _ _ _ _ mid); auto. change (mid ++ l :: rest ++ B) with (mid ++ (l :: rest) ++ B) in E2. rewrite app_assoc in E2. now apply app_inv_tail in E2.
       ++ apply (ss_after _ _ _ _ _ _ mid); auto. change (mid ++ e :: q ++ B) with (mid ++ (e :: q) ++ B) in E1. rewrite app_assoc in E1. now apply app_inv_tail in E1.
    -- exfalso. destruct Se as [mid E1 E2 Ng|mid E1 E2 Ng].
       ++ apply (f_equal (@List.length _)) in E1. rewrite !app_length in E1. cbn [List.length] in E1. lia.
       ++ rewrite <- app_assoc in E2. apply app_inv_head in E2. cbn [app] in E2. injection E2 as E2. subst mid.
          apply (headed_global B q e e2 _ Hb EB Re Ln). intros x Ix. apply Ng. apply in_or_app. now right.
Qed.
Lemma resolved_before A B before l rest n : A = before ++ l :: rest -> local_resolved A before n -> local_resolved (A ++ B) before n.
Proof.
  intros EA R0. subst A. destruct R0 as ((a & l0 & g & b & k & E0 & Rk & Lk & Ig & Gg) & R2 & R3). split; [|split; [exact R2|]].
  * exists a, l0, g, (b ++ B), k. rewrite E0, <- app_assoc. repeat split; auto. apply in_or_app. now left.
  * intros d1' d d2 Ed Rd Ng. destruct (cut_two _ _ _ _ _ Ed) as [(q & Eq & ->)|(q & -> & EB)]; [exact (R3 d1' d q Eq Rd Ng)|].
    intros x Ix. apply Ng. apply in_or_app. left. apply in_or_app. now left.
Qed.

Lemma target_after A B before l rest n d1 : B = before ++ l :: rest -> ~ no_global before ->
  local_target B before l n d1 -> local_target (A ++ B) (A ++ before) l n (A ++ d1).
Proof.
  intros EB0 Hg T0. subst B. destruct T0 as (after & d & d2 & Ea & Ed & Rd & Sc & Un). exists after, d, d2. rewrite <- !app_assoc.
  split; [congruence|]. split; [cbn [app]; congruence|]. split; [exact Rd|]. split.
  * destruct Sc as [mid E1 E2 Ng|mid E1 E2 Ng].
    -- apply (ss_before _ _ _ _ _ _ mid); auto. rewrite E1, <- app_assoc. reflexivity.
    -- apply (ss_after _ _ _ _ _ _ mid); auto. rewrite E2, <- app_assoc. reflexivity.
  * intros e1 e e2 Ee Re Se. destruct (cut_two _ _ _ _ _ Ee) as [(q & Eq & ->)|(q & -> & EB)].
    -- exfalso. destruct Se as [mid E1 E2 Ng|mid E1 E2 Ng].
       ++ rewrite Eq in E1. rewrite <- app_assoc in E1. cbn [app] in E1. apply app_inv_head in E1. injection E1 as E1. apply Hg. intros x Ix. apply Ng. rewrite <- E1. apply in_or_app. now right.
       ++ apply (f_equal (@List.length _)) in E2. apply (f_equal (@List.length _)) in Eq. rewrite !app_length in E2, Eq. cbn [List.length] in E2, Eq. rewrite app_length in E2. lia.
    -- f_equal. apply (Un q e e2); [congruence|exact Re|]. destruct Se as [mid E1 E2 Ng|mid E1 E2 Ng].
       ++ apply (ss_before _ _ _ _ _ _ mid); auto. rewrite <- app_assoc in E1. now apply app_inv_head in E1.
       ++ apply (ss_after _ _ _ _ _ _ mid); auto. rewrite <- app_assoc in E2. now apply app_inv_head in E2.
Qed.
Lemma resolved_after A B before n : headed B -> A = [] \/ headed A -> is_local n = true -> ~ no_global before ->
  local_resolved B before n -> local_resolved (A ++ B) (A ++ before) n.
Proof.
  intros Hb Ha Ln Hg R0. destruct R0 as ((a & l0 & g & b & k & E0 & Rk & Lk & Ig & Gg) & R2 & R3). split; [|split].
  * exists (A ++ a), l0, g, b, k. rewrite E0, <- app_assoc. repeat split; auto.
  * destruct R2 as [R2|(a' & b' & -> & Ng & Ct)]; [contradiction|]. right. exists (A ++ a'), b'. rewrite app_assoc. auto.
  * intros d1' d d2 Ed Rd Ng. exfalso. destruct (cut_two _ _ _ _ _ Ed) as [(q & Eq & ->)|(q & -> & EB)].
    -- destruct Ha as [->|Ha]; [destruct d1'; discriminate Eq|]. exact (headed_global A d1' d q _ Ha Eq Rd Ln Ng).
    -- apply (headed_global _ q d d2 _ Hb EB Rd Ln). intros x Ix. apply Ng. apply in_or_app. now right.
Qed.
Lemma headed_before B before l rest : B = before ++ l :: rest -> headed B -> role_of l = Instruction -> ~ no_global before.
Proof.
  intros EB (g & r & E & G) Rl. rewrite EB in E. destruct before as [|x b]; cbn [app] in E; injection E as -> _; [unfold global_label in G; now rewrite Rl in G|].
  intros Ng. specialize (Ng g (or_introl eq_refl)). congruence.
Qed.
Lemma compare_role name g ts tt a b n l : no_nl l -> In (name, g) compare_expansions -> gpr_text ts a -> gpr_text tt b -> instruction_line name [ts; tt; n] l -> identifier n -> role_of l = Instruction.
Proof.
  intros N Ig Ga Gb L Id. destruct (compare_expansion name g Ig) as (likely & rel & p & swap & sgn & on_set & [Nm _ _ _ _] & _).
  assert (F : Forall operand_ok [ts; tt; n]).
  { apply Forall_cons; [exact (gpr_operand _ _ Ga)|]. apply Forall_cons; [exact (gpr_operand _ _ Gb)|]. apply Forall_cons; [now apply identifier_operand|apply Forall_nil]. }
  destruct (line_parse_parts (mk_parser (mk_runtime false (fun l => l)) m_new []) init_state name [ts; tt; n] l (name_okb_ok _ Nm) F N L) as (op & arg & xs & _ & _ & Ne & Ec & _). now apply role_native.
Qed.
Section Two.
Variables (base : Z) (syms : list (Z * str)).

(** ** Lines after the part *)

Lemma line_before A B before l rest ws : A = before ++ l :: rest -> no_nl l -> headed B ->
  0 <= base -> base + 4 * Z.of_nat (instruction_count (A ++ B)) < 2 ^ 32 ->
  program_line base syms A before l ws -> program_line base syms (A ++ B) before l ws.
Proof.
  intros EA N Hb Rb Ov P. inversion P; subst; try (econstructor; eassumption).
  - (* local *) apply (pl_local base syms _ before f os n d1 l); auto; [eapply target_before; eauto|eapply resolved_before; eauto].
  - (* compare, local *) eapply pl_compare_local; try eassumption; [eapply target_before; eauto|eapply resolved_before; eauto].
  - (* number *)
    apply (pl_branch_number base syms _ before f os t a l); auto; rewrite ?instruction_count_app in *; lia.
  - (* jump *)
    apply (pl_jump base syms _ before name n k l); auto. now apply table_before.
Qed.

(** ** Lines in front of the part *)

Lemma line_after A B before l rest ws : B = before ++ l :: rest -> no_nl l -> headed B -> A = [] \/ headed A -> branches_to_labels B ->
  program_line (base + 4 * Z.of_nat (instruction_count A)) syms B before l ws -> program_line base syms (A ++ B) (A ++ before) l ws.
Proof.
  intros EB N Hb Ha Bl P. inversion P; subst; try (econstructor; eassumption).
  - (* branch *)
    match goal with I : In (n, k) _ |- _ => apply (table_after A) in I end.
    replace (Z.of_nat k - (Z.of_nat (instruction_count before) + 1)) with (Z.of_nat (k + instruction_count A) - (Z.of_nat (instruction_count (A ++ before)) + 1)) by (rewrite instruction_count_app; lia).
    eapply pl_branch; eassumption.
  - (* compare *)
    match goal with I : In (n, k) _ |- _ => apply (table_after A) in I end.
    replace (Z.of_nat k - (Z.of_nat (instruction_count before) + 2)) with (Z.of_nat (k + instruction_count A) - (Z.of_nat (instruction_count (A ++ before)) + 2)) by (rewrite instruction_count_app; lia).
    eapply pl_compare; try eassumption. rewrite instruction_count_app. lia.
  - (* local *)
    replace (Z.of_nat (instruction_count d1) - (Z.of_nat (instruction_count before) + 1)) with (Z.of_nat (instruction_count (A ++ d1)) - (Z.of_nat (instruction_count (A ++ before)) + 1)) by (rewrite !instruction_count_app; lia).
    assert (Rl : role_of l = Instruction) by (eapply branch_role; eassumption). assert (Hg := headed_before _ _ _ _ eq_refl Hb Rl).
    apply (pl_local base syms _ (A ++ before) f os n (A ++ d1) l); auto; [eapply target_after; eauto|apply resolved_after; auto].
  - (* compare, local *)
    replace (Z.of_nat (instruction_count d1) - (Z.of_nat (instruction_count before) + 2)) with (Z.of_nat (instruction_count (A ++ d1)) - (Z.of_nat (instruction_count (A ++ before)) + 2)) by (rewrite !instruction_count_app; lia).
    assert (Rl : role_of l = Instruction) by (match goal with L : instruction_line _ [_; _; _] l |- _ => eapply compare_role with (4 := L) || eapply compare_role with (5 := L) end; eassumption). assert (Hg := headed_before _ _ _ _ eq_refl Hb Rl).
    eapply pl_compare_local; try eassumption; [eapply target_after; eauto|apply resolved_after; auto|].
    replace (Z.of_nat (instruction_count (A ++ d1)) - (Z.of_nat (instruction_count (A ++ before)) + 1)) with (Z.of_nat (instruction_count d1) - (Z.of_nat (instruction_count before) + 1)) by (rewrite !instruction_count_app; lia). assumption.
  - (* number *)
    exfalso. match goal with B : branch_line f os t l, Nu : numeral t a |- _ => refine (Bl l f os t a _ _ B Nu) end; [apply in_or_app; right; now left|assumption].
  - (* jump *)
    replace (base + 4 * Z.of_nat (instruction_count A) + 4 * Z.of_nat k) with (base + 4 * Z.of_nat (k + instruction_count A)) by lia.
    apply (pl_jump base syms _ (A ++ before) name n (k + instruction_count A)%nat l); auto. now apply table_after.
Qed.

Lemma program_before A B before ls wss : A = before ++ ls -> Forall no_nl A -> headed B -> 0 <= base -> base + 4 * Z.of_nat (instruction_count (A ++ B)) < 2 ^ 32 ->
  program base syms A before ls wss -> program base syms (A ++ B) before ls wss.
Proof.
  intros E N Hb Rb Ov P. induction P as [before|before l ws ls wss H P IH]; [constructor|]. constructor.
  - eapply line_before; eauto. apply (proj1 (Forall_forall _ _) N). rewrite E. apply in_or_app. right. now left.
  - apply IH. rewrite E, <- app_assoc. reflexivity.
Qed.
Lemma program_after A B before ls wss : B = before ++ ls -> Forall no_nl B -> headed B -> A = [] \/ headed A -> branches_to_labels B ->
  program (base + 4 * Z.of_nat (instruction_count A)) syms B before ls wss -> program base syms (A ++ B) (A ++ before) ls wss.
Proof.
  intros E N Hb Ha Bl P. induction P as [before|before l ws ls wss H P IH]; [constructor|]. constructor.
  - eapply line_after; eauto. apply (proj1 (Forall_forall _ _) N). rewrite E. apply in_or_app. right. now left.
  - rewrite <- app_assoc. apply IH. rewrite E, <- app_assoc. reflexivity.
Qed.
Lemma program_join all before ls wss ls' wss' : program base syms all before ls wss -> program base syms all (before ++ ls) ls' wss' ->
  program base syms all before (ls ++ ls') (wss ++ wss').
Proof.
  intros P. induction P as [before|before l ws ls wss H P IH]; intros Q; [now rewrite app_nil_r in Q|]. cbn [app]. constructor; [exact H|]. apply IH. now rewrite <- app_assoc.
Qed.
Lemma program_length all before ls wss : program base syms all before ls wss -> List.length ls = List.length wss.
Proof. induction 1; cbn [List.length]; congruence. Qed.
End Two.

Lemma code_words_app a b c d : List.length a = List.length c -> code_words (a ++ b) (c ++ d) = code_words a c ++ code_words b d.
Proof.
  intros L. unfold code_words. assert (E : combine (a ++ b) (c ++ d) = combine a c ++ combine b d).
  { revert c L. induction a as [|x a IH]; intros [|y c] L; try discriminate L; [reflexivity|]. cbn [app combine]. f_equal. apply IH. now injection L. }
  now rewrite E, filter_app, map_app.
Qed.

(** Parts after the program [A]. *)
Lemma parts_joined syms rest : forall base base0 A wss more, parts syms base rest more -> base = base0 + 4 * Z.of_nat (instruction_count A) ->
  Forall no_nl A -> Forall (Forall no_nl) rest -> A = [] \/ headed A -> 0 <= base0 -> base0 + 4 * Z.of_nat (instruction_count (A ++ List.concat rest)) < 2 ^ 32 ->
  program base0 syms A [] A wss -> program base0 syms (A ++ List.concat rest) [] (A ++ List.concat rest) (wss ++ List.concat more).
Proof.
  induction rest as [|B rest IH]; intros base base0 A wss more P Eb NA Nr Ha Rb Ov PA; inversion P as [|base' ls rest' wB more' Hb Bl PB Pr]; subst.
  - cbn [List.concat]. now rewrite !app_nil_r.
  - inversion Nr as [|? ? NB Nr']; subst. cbn [List.concat] in *. rewrite !app_assoc in *.
    assert (Hab : headed (A ++ B)) by (destruct Ha as [->|(g & r & -> & G)]; [exact Hb|exists g, (r ++ B); auto]).
    assert (Le : base0 + 4 * Z.of_nat (instruction_count (A ++ B)) < 2 ^ 32) by (rewrite instruction_count_app in Ov; lia).
    apply (IH _ base0 (A ++ B) (wss ++ wB) more' Pr).
    + rewrite instruction_count_app. lia.
    + apply Forall_app. auto.
    + exact Nr'.
    + now right.
    + exact Rb.
    + exact Ov.
    + apply program_join; [now apply program_before|]. cbn [app]. assert (Q := program_after base0 syms A B [] B wB eq_refl NB Hb Ha Bl PB). now rewrite app_nil_r in Q.
Qed.
