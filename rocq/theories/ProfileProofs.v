(** * ProfileProofs: what the overflow checks change (proofs only). *)

From Coq Require Import Lia.
From Verif Require Import Lib.

(** Equal, unless the first one panics. *)
Definition agree {E A} (x y : outcome E A) : Prop := match x with Panic _ => True | _ => x = y end.
Definition agreeM {A} (x y : M A) : Prop := match snd x with Panic _ => True | _ => x = y end.

Lemma agree_refl {E A} (x : outcome E A) : agree x x. Proof. destruct x; exact Logic.I || reflexivity. Qed.
Lemma agree_bind {E A B} (x y : outcome E A) (f g : A -> outcome E B) : agree x y -> (forall a, agree (f a) (g a)) -> agree (obind x f) (obind y g).
Proof. destruct x; cbn; [intros <- H; apply H|intros <- _; reflexivity|trivial]. Qed.
Lemma agreeM_refl {A} (x : M A) : agreeM x x. Proof. destruct x as [w []]; exact Logic.I || reflexivity. Qed.
Lemma agreeM_bind {A B} (x y : M A) (f g : A -> M B) : agreeM x y -> (forall a, agreeM (f a) (g a)) -> agreeM (mbind x f) (mbind y g).
Proof.
  unfold agreeM. destruct x as [w [a|p|p]]; cbn [snd].
  - intros <- H. cbn [mbind]. specialize (H a). destruct (f a) as [w1 r1] eqn:E1. cbn [snd] in *. destruct r1; [rewrite <- H; reflexivity|rewrite <- H; reflexivity|trivial].
  - intros <- _. reflexivity.
  - trivial.
Qed.
Lemma agreeM_lift {A} (x y : outcome perror A) : agree x y -> agreeM (lift x) (lift y).
Proof. unfold agreeM, lift. destruct x; cbn; [intros <-; reflexivity|intros <-; reflexivity|trivial]. Qed.
Lemma ck32_agree {E} v : @agree E Z (ck32 true v) (ck32 false v).
Proof. unfold ck32. destruct ((0 <=? v) && (v <? 2 ^ 32)); [reflexivity|exact Logic.I]. Qed.

Section Profile.
Variables (ls : list str) (base : Z) (syms : list (Z * str)) (order : list (str * (nat * str)) -> list (str * (nat * str))).
Let e1 := mk_env ls base syms true order.
Let e2 := mk_env ls base syms false order.

Lemma imm_agree s t x : agree (parse_immediate e1 s t x) (parse_immediate e2 s t x).
Proof.
  unfold parse_immediate. destruct (starts_with _ _); [apply agree_refl|]. destruct (assoc _ _); [apply agree_refl|].
  destruct (re_find_str IMM_RE (trim x)) as [y|]; [|apply agree_refl].
  apply agree_bind; [apply agree_refl|]. intros tg. destruct (Nat.ltb _ _); [apply agree_refl|]. destruct (str_eqb _ _); [|apply agree_refl].
  apply agree_bind; [apply agree_refl|]. intros a. apply agree_bind; [apply ck32_agree|]. intros v. apply agree_refl.
Qed.
Lemma aimm_agree s t x : agreeM (aimm e1 s t x) (aimm e2 s t x).
Proof. apply agreeM_lift, imm_agree. Qed.

Ltac go := repeat lazymatch goal with
  | |- agreeM (mbind _ _) (mbind _ _) => apply agreeM_bind; [|intros ?]
  | |- agreeM (aimm _ _ _ _) _ => apply aimm_agree
  | |- agreeM (match ?x with _ => _ end) _ => destruct x
  | |- agreeM (lift _) _ => exact (agreeM_refl _)
  | |- agreeM (areg _ _ _) _ => exact (agreeM_refl _)
  | |- agreeM (afreg _ _ _) _ => exact (agreeM_refl _)
  | |- agreeM (bad_count _ _ _ _ _) _ => exact (agreeM_refl _)
  | |- agreeM (check_delay _ _) _ => exact (agreeM_refl _)
  | |- agreeM (check_branch _ _ _ _) _ => exact (agreeM_refl _)
  | |- agreeM (check_jump _ _ _ _) _ => exact (agreeM_refl _)
  end.
Lemma op_agree s op arg args : agreeM (parse_op e1 s op arg args) (parse_op e2 s op arg args).
Proof.
  unfold parse_op. destruct (classify _) as [[]|].
  - unfold parse_mem. go.
  - unfold parse_imm3. go.
  - unfold parse_imm2. go.
  - unfold parse_trap_imm. go.
  - unfold parse_branch1. go.
  - unfold parse_branch2. go.
  - unfold parse_jump. go.
  - unfold parse_plain. go.
  - unfold parse_reg3. go.
  - unfold parse_shift. go.
  - unfold parse_shiftv. go.
  - unfold parse_code. go.
  - unfold parse_reg2. go.
  - unfold parse_jalr. go.
  - unfold parse_move. go.
  - unfold parse_b. go.
  - unfold parse_li. go.
  - unfold parse_div. go.
  - unfold parse_rs. go.
  - unfold parse_rd. go.
  - unfold parse_dli. go.
  - unfold parse_b. go.
  - unfold parse_cop0. go.
  - unfold parse_cop1. go.
  - unfold parse_plain. go.
  - unfold parse_fmem. go.
  - unfold parse_word. go.
  - unfold parse_float. go.
Qed.
Lemma inst_agree s ln : agreeM (parse_inst e1 s ln) (parse_inst e2 s ln).
Proof. unfold parse_inst. destruct (match split_once " " ln with Some oa => oa | None => (ln, []) end) as [op arg]. destruct ln; [exact (agreeM_refl _)|apply op_agree]. Qed.
Lemma scan_agree s ln : agree (scan_line e1 s ln) (scan_line e2 s ln).
Proof.
  unfold scan_line. destruct (ends_with _ _); [exact (agree_refl _)|]. destruct ln as [|c ln]; [exact (agree_refl _)|].
  assert (A := inst_agree s (c :: ln)). unfold agreeM in A. destruct (parse_inst e1 s (c :: ln)) as [w [i|p|p]] eqn:E1; cbn [snd] in A; [| |exact Logic.I]; rewrite <- A; reflexivity.
Qed.
Lemma step_agree s raw : agree (step_line e1 s raw) (step_line e2 s raw).
Proof.
  unfold step_line. set (s1 := mk_pstate _ _ _ _ _ _ _). assert (A := scan_agree s1 (replace_all COMMENT_RE [] (trim raw))). unfold agree in A.
  destruct (scan_line e1 s1 _) eqn:E1; [rewrite <- A; reflexivity|rewrite <- A; reflexivity|exact Logic.I].
Qed.
Lemma lines_agree l s : agree (scan_lines e1 s l) (scan_lines e2 s l).
Proof. revert s. induction l as [|x l IH]; intros s; [reflexivity|]. cbn [scan_lines]. apply agree_bind; [apply step_agree|exact IH]. Qed.
Lemma adjust_agree s i n ins : agree (adjust_one e1 s i n ins) (adjust_one e2 s i n ins).
Proof.
  unfold adjust_one. destruct ins as [op rs rt imm b|op tg b|op rs rt rd sa b|w]; [|destruct tg|apply agree_refl|apply agree_refl].
  - destruct imm; try exact (agree_refl _). destruct (negb _); [apply agree_refl|].
    assert (B : @agree perror Z (do! m <- ck32 (e_oc e1) (wrap 32 (Z.of_nat (List.length (p_insts s))) * 4); ck32 (e_oc e1) (e_base e1 + m))
                      (do! m <- ck32 (e_oc e2) (wrap 32 (Z.of_nat (List.length (p_insts s))) * 4); ck32 (e_oc e2) (e_base e2 + m)))
      by (apply agree_bind; [apply ck32_agree|intros m; apply ck32_agree]).
    cbv zeta. apply agree_bind.
    + destruct (_ <? _); [apply agree_refl|]. apply agree_bind; [exact B|]. intros; apply agree_refl.
    + intros bad. apply agree_bind; [|intros; apply agree_refl]. destruct bad; [|apply agree_refl].
      apply agree_bind; [exact (agree_refl _)|]. intros l. apply agree_bind; [exact (agree_refl _)|]. intros src. apply agree_bind; [exact B|]. intros hi. exact (agree_refl _).
  - destruct (assoc _ _); [|exact (agree_refl _)]. apply agree_bind; [apply ck32_agree|]. intros m. apply agree_bind; [apply ck32_agree|]. intros; apply agree_refl.
  - exact (agree_refl _).
Qed.
Lemma adjusts_agree s l i : agree (adjust_from e1 s i l) (adjust_from e2 s i l).
Proof.
  revert i. induction l as [|[n x] l IH]; intros i; [reflexivity|]. cbn [adjust_from]. apply agree_bind; [apply adjust_agree|]. intros p.
  apply agree_bind; [apply IH|]. intros q. reflexivity.
Qed.
Lemma parse_agree : agree (parse e1) (parse e2).
Proof.
  unfold parse. apply agree_bind; [apply lines_agree|]. intros s. cbv zeta. apply agree_bind; [|intros; reflexivity].
  destruct (p_dropped s); apply adjusts_agree.
Qed.
End Profile.

Lemma enc_i_agree op rs rt imm : @agree perror _ (enc_i true op rs rt imm) (enc_i false op rs rt imm).
Proof.
  destruct op; cbn [enc_i]; try exact (agree_refl _); apply agree_bind; try exact (agree_refl _); intros v; apply agree_bind; try apply ck32_agree; try (intros; exact (agree_refl _)).
  all: unfold neg_i32; destruct (_ =? _); cbn [andb]; (exact Logic.I || reflexivity).
Qed.
Lemma assemble_agree l : @agree perror _ (assemble_insts true l) (assemble_insts false l).
Proof.
  induction l as [|i l IH]; [reflexivity|]. cbn [assemble_insts]. apply agree_bind.
  - destruct i; cbn [assemble_inst]; try exact (agree_refl _). apply agree_bind; [apply enc_i_agree|]. intros; apply agree_refl.
  - intros i'. apply agree_bind; [exact IH|]. intros; reflexivity.
Qed.
Lemma listing_agree m n l i fs b : agree (listing true m n i fs b l) (listing false m n i fs b l).
Proof.
  revert i fs b. induction l as [|x l IH]; intros i fs b; [reflexivity|]. cbn [listing]. destruct b.
  - apply agree_bind; [apply agree_refl|]. intros t. apply agree_bind.
    + destruct (_ <? _); [|reflexivity]. apply agree_bind; [apply ck32_agree|]. intros k. apply agree_bind; [apply ck32_agree|]. intros; reflexivity.
    + intros lb. apply agree_bind; [apply IH|]. intros; reflexivity.
  - apply agree_bind.
    + unfold ends_function. destruct (is_unconditional_jump x); [|reflexivity]. apply agree_bind; [apply agree_refl|]. intros t. apply agree_bind; [apply ck32_agree|]. intros lo.
      destruct (opt_lt t lo); [reflexivity|]. apply agree_bind; [apply ck32_agree|]. intros k. apply agree_bind; [apply ck32_agree|]. intros; reflexivity.
    + intros en. apply agree_bind; [apply agree_refl|]. intros t. apply agree_bind; [apply IH|]. intros; reflexivity.
Qed.
