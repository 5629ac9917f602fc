(** * EnvProofs: what reading a line depends on (proofs only): the text of this and the previous
    line, and the symbols named in it. *)

From Coq Require Import Lia.
From Verif Require Import Lib SpecIsa StrLemmas NumLemmas DecodeProofs TextProofs OperandProofs NativeProofs LineProofs ScanProofs ProgProofs BranchProofs DisplayProofs SpecText SpecProgram.

Lemma obind_ext {E A B} (x y : outcome E A) (f g : A -> outcome E B) : x = y -> (forall a, f a = g a) -> obind x f = obind y g.
Proof. intros <- H. destruct x; cbn; auto. Qed.
Lemma mbind_ext {A B} (x y : M A) (f g : A -> M B) : x = y -> (forall a, f a = g a) -> mbind x f = mbind y g.
Proof. intros <- H. destruct x as [w [a|p|p]]; cbn; [now rewrite H|reflexivity|reflexivity]. Qed.

Lemma strip_part x y : part x y -> part (strip_parens x) (strip_parens y).
Proof. intros (a & b & ->). exists (strip_parens a), (strip_parens b). unfold strip_parens. now rewrite !filter_app. Qed.
Lemma filter_comm {A} (f g : A -> bool) l : filter f (filter g l) = filter g (filter f l).
Proof. induction l as [|a l IH]; [reflexivity|]. cbn [filter]. destruct (g a) eqn:G, (f a) eqn:F; cbn [filter]; rewrite ?G, ?F; congruence. Qed.
Lemma strip_twice x : strip_parens (strip_parens x) = strip_parens x.
Proof. unfold strip_parens. induction x as [|c x IH]; [reflexivity|]. cbn [filter]. destruct (negb _) eqn:E; cbn [filter]; rewrite ?E; congruence. Qed.
Lemma remove_open x : strip_parens (remove_all #"(" x) = strip_parens x.
Proof.
  unfold remove_all. induction x as [|c x IH]; [reflexivity|]. cbn [remove_go].
  assert (E : starts_with #"(" (c :: x) = Ascii.eqb "(" c) by (change (starts_with #"(" (c :: x)) with (Ascii.eqb "(" c && true)%bool; apply andb_true_r). rewrite E. clear E.
  destruct (Ascii.eqb "(" c) eqn:E.
  - apply Ascii.eqb_eq in E. subst c. exact IH.
  - unfold strip_parens in *. cbn [filter]. destruct (negb _); [f_equal|]; exact IH.
Qed.

Section Env.
Variables (e1 e2 : env) (s : pstate) (text : str).
Hypothesis Here : get_line e1 (p_line s) = get_line e2 (p_line s).
Hypothesis Before : forall n, (p_line s - 1)%nat = S n -> get_line e1 (S n) = get_line e2 (S n).
Hypothesis Checks : e_oc e1 = e_oc e2.
Hypothesis Names : forall t, part t text \/ part t (strip_parens text) -> find (fun av => str_eqb (snd av) t) (e_syms e1) = find (fun av => str_eqb (snd av) t) (e_syms e2).

Definition seen (x : str) : Prop := part (strip_parens x) (strip_parens text).
Lemma seen_part x y : part x y -> seen y -> seen x.
Proof. intros P S. eapply part_trans; [apply strip_part; exact P|exact S]. Qed.

Lemma fail_ext {A} k : @fail_at A e1 (p_line s) k = fail_at e2 (p_line s) k.
Proof. unfold fail_at. now rewrite Here. Qed.
Lemma target_ext t : part t text \/ part t (strip_parens text) -> parse_target e1 s t = parse_target e2 s t.
Proof.
  intros P. unfold parse_target. rewrite (Names t P). destruct (find _ _) as [[a n]|]; [reflexivity|]. destruct (starts_with _ _).
  - destruct (parse_int _ _ _); [reflexivity|apply fail_ext].
  - destruct t as [|c t]; [reflexivity|]. destruct (parse_int u32 10 [c]); [|reflexivity]. destruct (parse_int u32 10 (c :: t)); [reflexivity|apply fail_ext].
Qed.
Lemma imm_ext t x : seen x -> parse_immediate e1 s t x = parse_immediate e2 s t x.
Proof.
  intros S. unfold parse_immediate. destruct (starts_with #"@@" (trim x)); [reflexivity|]. destruct (assoc (trim x) (p_labels s)); [reflexivity|].
  destruct (re_find_str IMM_RE (trim x)) as [y|] eqn:Y.
  - apply obind_ext.
    + apply target_ext. right. apply (seen_part y x); [|exact S]. eapply part_trans; [apply (re_find_str_part _ _ _ Y)|apply trim_part].
    + intros a. destruct (Nat.ltb _ _); [reflexivity|]. rewrite Checks. reflexivity.
  - destruct (contains _ _); (destruct (parse_int _ _ _); [reflexivity|apply fail_ext]).
Qed.
Lemma aimm_ext t x : seen x -> aimm e1 s t x = aimm e2 s t x.
Proof. intros S. unfold aimm. now rewrite imm_ext. Qed.
Lemma areg_ext x : areg e1 s x = areg e2 s x.
Proof. unfold areg, arg_reg. destruct (reg_from_str x); try reflexivity. now rewrite fail_ext. Qed.
Lemma afreg_ext x : afreg e1 s x = afreg e2 s x.
Proof. unfold afreg, arg_freg. destruct (freg_from_str x); try reflexivity. now rewrite fail_ext. Qed.
Lemma ac0_ext x : lift (arg_c0reg e1 s x) = lift (arg_c0reg e2 s x).
Proof. unfold arg_c0reg. destruct (c0reg_from_str x); try reflexivity. now rewrite fail_ext. Qed.
Lemma fcond_ext x : lift (match x with Some c => parse_float_cond e1 s c | None => Panic "split('.').get(1)" end) = lift (match x with Some c => parse_float_cond e2 s c | None => Panic "split('.').get(1)" end).
Proof. destruct x; [|reflexivity]. unfold parse_float_cond. destruct (assoc _ _); [reflexivity|]. now rewrite fail_ext. Qed.
Lemma count_ext {A} arg n k : @bad_count e1 s A arg n k = bad_count e2 s arg n k.
Proof. unfold bad_count. now rewrite fail_ext. Qed.
Lemma delay_ext : check_delay e1 s = check_delay e2 s.
Proof.
  unfold check_delay. destruct (rev (p_insts s)) as [|[n i] r]; [reflexivity|]. destruct (has_delay_slot i); [|reflexivity]. f_equal. apply obind_ext; [exact Here|]. intros d.
  destruct (p_line s - 1)%nat as [|k] eqn:E; [reflexivity|]. now rewrite (Before k eq_refl).
Qed.
Lemma branch_ext i x : check_branch e1 s i x = check_branch e2 s i x.
Proof. unfold check_branch. now rewrite Here. Qed.
Lemma jump_ext i x : check_jump e1 s i x = check_jump e2 s i x.
Proof. unfold check_jump. now rewrite Here. Qed.

Ltac ext S := repeat lazymatch goal with
  | |- mbind _ _ = mbind _ _ => apply mbind_ext; [|intros ?]
  | |- aimm _ _ _ _ = _ => apply aimm_ext; S
  | |- areg _ _ _ = _ => apply areg_ext
  | |- afreg _ _ _ = _ => apply afreg_ext
  | |- bad_count _ _ _ _ _ = _ => apply count_ext
  | |- check_delay _ _ = _ => apply delay_ext
  | |- check_branch _ _ _ _ = _ => apply branch_ext
  | |- check_jump _ _ _ _ = _ => apply jump_ext
  | |- lift (arg_c0reg _ _ _) = _ => apply ac0_ext
  | |- lift (match nth_error _ _ with _ => _ end) = _ => apply fcond_ext
  | |- lift (fail_at _ _ _) = _ => rewrite fail_ext; reflexivity
  | |- lift _ = lift _ => reflexivity
  | |- match ?x with _ => _ end = _ => destruct x eqn:?
  end.
Ltac in_args := match goal with H : Forall seen _ |- _ => repeat (apply Forall_cons_iff in H as [? H]) end.
Ltac have := in_args; first [assumption | eapply seen_part; [apply trim_part|assumption]].
Lemma seen_zero : seen #"0" -> True. Proof. trivial. Qed.
Lemma imm_zero t : aimm e1 s t #"0" = aimm e2 s t #"0".
Proof.
  unfold aimm, parse_immediate. change (trim #"0") with #"0". destruct (starts_with _ _); [reflexivity|]. destruct (assoc _ _); [reflexivity|].
  change (re_find_str IMM_RE #"0") with (@None str). destruct (contains _ _); destruct (parse_int t _ _); try reflexivity; now rewrite fail_ext.
Qed.

Lemma op_ext op arg args : part arg text -> Forall (fun x => part x text) args -> parse_op e1 s op arg args = parse_op e2 s op arg args.
Proof.
  intros Pa Ps. assert (Sa : seen arg) by now apply strip_part. assert (Ss : Forall seen args) by (eapply Forall_impl; [|exact Ps]; intros x; apply strip_part). unfold parse_op. destruct (classify _) as [[]|].
  - unfold parse_mem. destruct args as [|a [|x [|]]]; try apply count_ext. apply Forall_cons_iff in Ss as [Sx Ss]. apply Forall_cons_iff in Ss as [Sy _].
    apply mbind_ext; [ext ltac:(assumption)|]. intros r. apply mbind_ext; [reflexivity|]. intros b. apply mbind_ext; [reflexivity|]. intros base.
    destruct (re_find_str OFFSET_RE x) as [o|] eqn:O.
    + apply mbind_ext; [reflexivity|]. intros p. apply mbind_ext; [|reflexivity]. apply aimm_ext. eapply seen_part; [|exact Sy]. eapply part_trans; [apply firstn_part|]. apply (re_find_str_part _ _ _ O).
    + apply mbind_ext; [reflexivity|]. intros p. apply mbind_ext; [|reflexivity]. apply imm_zero.
  - unfold parse_imm3. ext have.
  - unfold parse_imm2. ext have.
  - unfold parse_trap_imm. ext have.
  - unfold parse_branch1. ext have.
  - unfold parse_branch2. ext have.
  - unfold parse_jump. destruct args as [|a [|]]; try apply count_ext. apply mbind_ext; [apply delay_ext|]. intros _. cbv zeta. apply mbind_ext.
    + f_equal. apply target_ext. left. apply Forall_cons_iff in Ps as [Ps _]. eapply part_trans; [apply trim_part|exact Ps].
    + intros t. ext have.
  - unfold parse_plain. ext have.
  - unfold parse_reg3. ext have.
  - unfold parse_shift. ext have.
  - unfold parse_shiftv. ext have.
  - unfold parse_code. ext have.
  - unfold parse_reg2. ext have.
  - unfold parse_jalr. ext have.
  - unfold parse_move. ext have.
  - unfold parse_b. ext have.
  - unfold parse_li. ext have.
  - unfold parse_div. ext have.
  - unfold parse_rs. ext have.
  - unfold parse_rd. ext have.
  - unfold parse_dli. ext have.
  - unfold parse_b. ext have.
  - unfold parse_cop0. ext have.
  - unfold parse_cop1. ext have.
  - unfold parse_plain. ext have.
  - unfold parse_fmem. destruct args as [|a [|x [|]]]; try apply count_ext. apply Forall_cons_iff in Ss as [Sx Ss]. apply Forall_cons_iff in Ss as [Sy _].
    apply mbind_ext; [apply afreg_ext|]. intros r. apply mbind_ext; [reflexivity|]. intros b. apply mbind_ext; [apply areg_ext|]. intros base. apply mbind_ext; [reflexivity|]. intros p.
    apply mbind_ext; [|reflexivity]. destruct (re_find_str OFFSET_RE x) as [o|] eqn:O; [|apply imm_zero].
    apply aimm_ext. unfold seen. rewrite remove_open. apply (seen_part o x); [|exact Sy]. apply (re_find_str_part _ _ _ O).
  - unfold parse_word. ext have.
  - unfold parse_float. ext have.
Qed.

Lemma inst_ext ln : part ln text -> parse_inst e1 s ln = parse_inst e2 s ln.
Proof.
  intros P. unfold parse_inst. assert (X : forall op arg, (match split_once " " ln with Some oa => oa | None => (ln, []) end) = (op, arg) -> part arg ln).
  { intros op arg. destruct (split_once " " ln) as [[a b]|] eqn:E; intros H; injection H as <- <-; [|exists ln, []; now rewrite !app_nil_r].
    apply split_once_decomp in E. exists (a ++ [" "%char]), []. rewrite app_nil_r, <- app_assoc. exact E. }
  destruct (match split_once " " ln with Some oa => oa | None => (ln, []) end) as [op arg] eqn:E. specialize (X _ _ eq_refl).
  assert (Pa : part arg text) by (eapply part_trans; eauto).
  destruct ln as [|c ln]; [rewrite fail_ext; reflexivity|]. apply op_ext; [exact Pa|]. apply Forall_forall. intros x I. eapply part_trans; [eapply split_char_part; exact I|exact Pa].
Qed.
Hypothesis Firsts : forall n k, In (n, k) (p_labels s) -> nth_error (e_input e1) k = nth_error (e_input e2) k.
Lemma label_ext k : parse_label e1 s k = parse_label e2 s k.
Proof.
  unfold parse_label. destruct k as [|c k]; [reflexivity|]. destruct (is_digit c); [apply fail_ext|]. destruct (assoc (c :: k) (p_labels s)) as [f|] eqn:A; [|reflexivity].
  rewrite Here. apply assoc_in in A. rewrite (Firsts _ _ A). reflexivity.
Qed.
Hypothesis Orders : e_order e1 = e_order e2.
Lemma scan_ext ln : part ln text -> scan_line e1 s ln = scan_line e2 s ln.
Proof.
  intros P. unfold scan_line. rewrite label_ext, (inst_ext ln P). unfold flush_locals. rewrite Orders. reflexivity.
Qed.
End Env.

(** ** Whole programs *)

(** Labels and instructions belong to the lines read so far. *)
Record within (s : pstate) (n : nat) : Prop := mk_within {
  wi_line : p_line s = n;
  wi_insts : (List.length (p_insts s) <= n)%nat;
  wi_labels : forall l k, In (l, k) (p_labels s) -> (k < n)%nat
}.
Lemma within_init : within init_state 0.
Proof. constructor; [reflexivity|apply le_n|intros l k []]. Qed.
Lemma within_step e s raw s' n : stepped e s raw s' -> within s n -> within s' (S n).
Proof.
  intros St [A B C]. assert (X : forall l k, In (l, k) (p_labels s) -> (k < S n)%nat) by (intros l k I; specialize (C l k I); lia).
  destruct St as [R|k R Lc P|k R Lc P|k p R P|w i R P|w p R P]; constructor; cbn [bump flush_locals add_label add_local add_error add_inst add_warnings p_line p_insts p_labels]; auto; try lia.
  - intros l j I. apply in_app_or in I as [I|[I|[]]]; [eauto|]. injection I as <- <-. cbn [bump p_insts]. lia.
  - rewrite app_length. cbn. lia.
Qed.

Definition same_names (y1 y2 : list (Z * str)) (text : str) : Prop :=
  forall t, part t text \/ part t (strip_parens text) -> find (fun av => str_eqb (snd av) t) y1 = find (fun av => str_eqb (snd av) t) y2.

Lemma step_ext e1 e2 s raw n : no_nl raw -> within s n -> (forall k, (k <= n)%nat -> nth_error (e_input e1) k = nth_error (e_input e2) k) -> e_oc e1 = e_oc e2 -> e_order e1 = e_order e2 ->
  same_names (e_syms e1) (e_syms e2) (clean raw) -> step_line e1 s raw = step_line e2 s raw.
Proof.
  intros N [A B C] In Oc Or Sy. unfold step_line. rewrite clean_spec by exact N. cbv zeta. change (mk_pstate _ _ _ _ (S (p_line s)) _ _) with (bump s).
  rewrite (scan_ext e1 e2 (bump s) (clean raw)); [reflexivity| | |exact Oc|exact Sy| |exact Or|apply part_refl].
  - unfold get_line. cbn [bump p_line]. rewrite In by lia. reflexivity.
  - intros k E. cbn [bump p_line] in E. unfold get_line. rewrite In by lia. reflexivity.
  - intros l k I. apply In. specialize (C l k I). lia.
Qed.
Lemma lines_ext e1 e2 ls : Forall no_nl ls -> forall s n, within s n -> (forall k, (k < n + List.length ls)%nat -> nth_error (e_input e1) k = nth_error (e_input e2) k) ->
  e_oc e1 = e_oc e2 -> e_order e1 = e_order e2 -> (forall l, In l ls -> same_names (e_syms e1) (e_syms e2) (clean l)) -> scan_lines e1 s ls = scan_lines e2 s ls.
Proof.
  induction 1 as [|l ls N _ IH]; intros s n W I Oc Or Sy; [reflexivity|]. cbn [scan_lines List.length] in *.
  assert (E : step_line e1 s l = step_line e2 s l) by (apply (step_ext e1 e2 s l n N W); [intros k L; apply I; lia|exact Oc|exact Or|apply Sy; now left]). rewrite E.
  destruct (step_line e2 s l) as [s1|p|p] eqn:St; cbn [obind]; try reflexivity. apply (IH s1 (S n)); auto.
  - apply step_view in St; [|exact N]. eapply within_step; eauto.
  - intros k L. apply I. lia.
  - intros x J. apply Sy. now right.
Qed.
