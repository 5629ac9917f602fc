(** * ShownProofs: displaying assembled instructions (proofs only). *)

From Coq Require Import Lia.
From Verif Require Import Lib Display SpecIsa StrLemmas TextProofs ScanProofs ProgProofs ErrorProofs RefProofs WarnProofs PanicProofs SpecText SpecProgram.
From Verif Require Import SpecDisplay.

(** ** Which operations are displayed *)

Definition imm_shown (p : iop) : bool := match show_imm_short p Zero Zero 0 with Ok _ => true | _ => false end.
Definition reg_shown (p : rop) : bool := match show_reg p Zero Zero Zero 0 [0] with Ok _ => true | _ => false end.
Lemma imm_shown_name p : imm_shown p = negb (mem_str (trim (to_lower (iop_name p))) pseudo). Proof. destruct p; vm_compute; reflexivity. Qed.
Lemma reg_shown_name p : reg_shown p = negb (mem_str (trim (to_lower (rop_name p))) pseudo). Proof. destruct p; vm_compute; reflexivity. Qed.
Lemma pseudo_known : forallb (fun n => match classify n with Some g => true | None => false end) pseudo = true. Proof. vm_compute. reflexivity. Qed.
Lemma pseudo_jump : mem_str #"j" pseudo = false /\ mem_str #"jal" pseudo = false. Proof. split; vm_compute; reflexivity. Qed.
Lemma rop_name_is op p : rop_of op = Ok p -> to_lower op = to_lower (rop_name p).
Proof.
  unfold rop_of, unwrap, rop_from_str. destruct (find _ all_rop) as [q|] eqn:F; [|discriminate]. intros H. injection H as ->.
  apply find_some in F as [_ F]. unfold eq_ignore_case in F. now apply str_eqb_spec in F.
Qed.
Lemma jop_name_is op p : jop_of op = Ok p -> to_lower op = to_lower (jop_name p).
Proof.
  unfold jop_of, unwrap, jop_from_str. destruct (find _ all_jop) as [q|] eqn:F; [|discriminate]. intros H. injection H as ->.
  apply find_some in F as [_ F]. unfold eq_ignore_case in F. now apply str_eqb_spec in F.
Qed.

(** The kinds of immediates: 16 bits, or 32 bits for a branch. *)
Definition imm_kind (bits : Z) (i : immediate) : Prop :=
  match i with Int _ => bits = 32 | Long _ => bits = 64 | _ => True end.
Definition group_bits (g : group) : Z :=
  match g with GBranch1 | GBranch2 | GB | GBc => 32 | GLi | GDli => 64 | _ => 16 end.
Definition name_bits (p : iop) : Z := match classify (trim (to_lower (iop_name p))) with Some g => group_bits g | None => 0 end.
Lemma shown_bits p : imm_shown p = true -> name_bits p = 16 \/ (name_bits p = 32 /\ is_b_op p = true).
Proof. destruct p; vm_compute; intros H; try discriminate H; auto. Qed.

Definition from (op : str) (i : inst) : Prop :=
  match i with
  | IImm p _ _ im _ => to_lower op = to_lower (iop_name p) /\ imm_kind (name_bits p) im
  | IJump p _ _ => to_lower op = to_lower (jop_name p)
  | IReg p rs rt rd sa _ => to_lower op = to_lower (rop_name p) /\ ((p <> R_Cs /\ p <> R_Cd) \/ exists c, fcond_try_from sa = Ok c)
                            \/ (classify (trim (to_lower op)) = None /\ (p = R_Cs \/ p = R_Cd) /\ exists c, fcond_try_from sa = Ok c)
  | IBytes _ => True
  end.

Section Parse.
Variables (e : env) (s : pstate).
Lemma new_kind t v : usual t -> match @imm_new perror t v with Ok i => imm_kind (it_bits t) i | _ => True end.
Proof. intros [U|[U|U]]; unfold imm_new; rewrite U; reflexivity. Qed.
Lemma aimm_kind t x : usual t -> yields (imm_kind (it_bits t)) (aimm e s t x).
Proof.
  intros U. unfold yields, aimm, lift, parse_immediate, fail_at. cbn [snd]. destruct (starts_with #"@@" (trim x)) eqn:Ea; [exact Logic.I|].
  destruct (assoc (trim x) (p_labels s)) eqn:E; [exact Logic.I|].
  destruct (re_find_str IMM_RE (trim x)) as [y|].
  - destruct (parse_target e s (strip_parens y)) as [a|p|p]; cbn [obind]; try exact Logic.I. destruct (Nat.ltb _ _); [exact Logic.I|].
    destruct (str_eqb _ _).
    + destruct a; cbn [target_as_u32 obind]; try exact Logic.I. destruct (ck32 _ _); cbn [obind]; exact Logic.I.
    + destruct (str_eqb _ _); [|exact Logic.I]. destruct a; exact Logic.I.
  - destruct (contains _ _).
    + destruct (parse_int t 16 _); [now apply new_kind|]. unfold get_line. destruct (nth_error _ _); exact Logic.I.
    + destruct (parse_int t 10 _); [now apply new_kind|]. unfold get_line. destruct (nth_error _ _); exact Logic.I.
Qed.
Variable op : str.
Lemma iop_yields : yields (fun p => to_lower op = to_lower (iop_name p)) (lift (iop_of op)).
Proof. unfold yields, lift. cbn [snd]. destruct (iop_of op) eqn:E; try exact Logic.I. now apply iop_name_is. Qed.
Lemma rop_yields o : yields (fun p => to_lower o = to_lower (rop_name p)) (lift (rop_of o)).
Proof. unfold yields, lift. cbn [snd]. destruct (rop_of o) eqn:E; try exact Logic.I. now apply rop_name_is. Qed.
Lemma jop_yields : yields (fun p => to_lower op = to_lower (jop_name p)) (lift (jop_of op)).
Proof. unfold yields, lift. cbn [snd]. destruct (jop_of op) eqn:E; try exact Logic.I. now apply jop_name_is. Qed.
Lemma usuals : usual u16 /\ usual i16 /\ usual u32 /\ usual i64. Proof. unfold usual. cbn. tauto. Qed.
Lemma name_bits_is p g : to_lower op = to_lower (iop_name p) -> classify (trim (to_lower op)) = Some g -> name_bits p = group_bits g.
Proof. intros E C. unfold name_bits. rewrite <- E, C. reflexivity. Qed.
Lemma not_cond p g : to_lower op = to_lower (rop_name p) -> classify (trim (to_lower op)) = Some g -> p <> R_Cs /\ p <> R_Cd.
Proof. intros E C. rewrite E in C. split; intros ->; vm_compute in C; discriminate C. Qed.

Ltac fin C := lazymatch goal with
  | |- from _ (IImm _ _ _ _ _) => split; [assumption|]; match goal with H : to_lower op = _ |- _ => rewrite (name_bits_is _ _ H C) end; assumption
  | |- from _ (IReg _ _ _ _ _ _) => left; split; [assumption|]; first [right; eexists; reflexivity|left; match goal with H : to_lower op = _ |- _ => exact (not_cond _ _ H C) end]
  | |- from _ (IJump _ _ _) => assumption
  | |- from _ (IBytes _) => exact Logic.I
  end.
Ltac step C := lazymatch goal with
  | |- yields _ (mbind (aimm _ _ ?t _) _) => apply (yields_bind (imm_kind (it_bits t))); [apply aimm_kind; apply usuals|intros ? ?]
  | |- yields _ (mbind (lift (iop_of op)) _) => apply (yields_bind _ _ _ _ iop_yields); intros ? ?
  | |- yields _ (mbind (lift (jop_of op)) _) => apply (yields_bind _ _ _ _ jop_yields); intros ? ?
  | |- yields _ (mbind (lift (rop_of op)) _) => apply (yields_bind _ _ _ _ (rop_yields op)); intros ? ?
  | |- yields _ (mbind _ _) => apply (yields_bind (fun _ => True)); [apply yields_any|intros ? ?]
  | |- yields _ (lift (Ok _)) => cbn [yields lift snd]; fin C
  | |- yields _ (bad_count _ _ _ _ _) => apply yields_count
  | |- yields _ (match ?a with _ => _ end) => destruct a
  end.
Lemma op_from arg args : yields (from op) (parse_op e s op arg args).
Proof.
  unfold parse_op. destruct (classify (trim (to_lower op))) as [g|] eqn:C; [destruct g|].
  all: unfold parse_mem, parse_imm2, parse_trap_imm, parse_branch1, parse_branch2, parse_jump, parse_plain, parse_reg3, parse_shift, parse_shiftv, parse_code,
    parse_reg2, parse_jalr, parse_move, parse_b, parse_div, parse_rs, parse_rd, parse_dli, parse_cop0, parse_cop1, parse_fmem, parse_word; try (repeat step C; fail).
  - unfold parse_imm3. destruct args as [|a [|b [|c [|]]]]; try apply yields_count. do 3 step C.
    apply (yields_bind (imm_kind 16)); [destruct (_ || _)%bool; [exact (aimm_kind u16 c ltac:(apply usuals))|exact (aimm_kind i16 c ltac:(apply usuals))]|]. intros i Hi. cbn [yields lift snd]. fin C.
  - unfold parse_li. destruct args as [|a [|b [|]]]; try apply yields_count. do 3 step C. destruct (_ >? _); [|repeat step C].
    unfold yields, lift, fail_at, get_line. cbn. destruct (nth_error _ _); exact Logic.I.
  - unfold parse_float. destruct (Nat.ltb _ _); [exact Logic.I|]. cbv zeta. destruct (mem_str _ float3_names); [repeat step C|]. destruct (mem_str _ float2_names); [repeat step C|].
    destruct (starts_with _ _); [|unfold yields, lift, fail_at, get_line; cbn; destruct (nth_error _ _); exact Logic.I].
    destruct args as [|a [|b [|]]]; try apply yields_count. step C. step C.
    apply (yields_bind _ _ _ _ (rop_yields _)). intros p Hp. apply (yields_bind (fun sa => exists c, fcond_try_from sa = Ok c)).
    + unfold yields, lift. cbn [snd]. destruct (nth_error _ _); [|exact Logic.I]. unfold parse_float_cond. destruct (assoc _ _) eqn:A.
      * apply assoc_in in A. assert (T : forallb (fun x => match fcond_try_from (snd x) with Ok _ => true | _ => false end) fcond_table = true) by (vm_compute; reflexivity).
        apply (proj1 (forallb_forall _ _) T) in A. cbn [snd] in A. destruct (fcond_try_from _); [eauto|discriminate|discriminate].
      * unfold fail_at, get_line. destruct (nth_error _ _); exact Logic.I.
    + intros sa Hs. cbn [yields lift snd]. right. split; [exact C|]. split; [|exact Hs].
      assert (X : starts_with #"c." (to_lower (rop_name p)) = true) by (rewrite <- Hp; reflexivity). clear -X.
      destruct p; vm_compute in X; try discriminate X; auto.
Qed.
End Parse.

Lemma inst_from e s l w i : parse_inst e s (clean l) = (w, Ok i) ->
  exists op, from op i /\ mnemonic l = trim (to_lower op).
Proof.
  unfold parse_inst, mnemonic. intros H. destruct (split_once " " (clean l)) as [[op arg]|] eqn:Sp.
  - exists op. split; [|reflexivity]. destruct (clean l); [unfold lift, fail_at, get_line in H; cbn in H; destruct (nth_error _ _); discriminate|].
    assert (Y := op_from e s op arg (split_char "," arg)). rewrite H in Y. exact Y.
  - exists (clean l). split; [|reflexivity]. destruct (clean l) eqn:C; [unfold lift, fail_at, get_line in H; cbn in H; destruct (nth_error _ _); discriminate|].
    assert (Y := op_from e s (a :: s0) [] (split_char "," [])). rewrite H in Y. exact Y.
Qed.

(** ** The instructions of a program *)

Definition line_from (l : str) (i : inst) : Prop := exists op, from op i /\ mnemonic l = trim (to_lower op).
Lemma scan_from e ls : Forall no_nl ls -> forall s s', scan_lines e s ls = Ok s' -> p_errors s' = [] ->
  exists new, p_insts s' = p_insts s ++ new /\ Forall2 line_from (filter is_instruction ls) (map snd new).
Proof.
  induction 1 as [|l ls N Nl IH]; intros s s' H E; cbn [scan_lines] in H.
  - injection H as <-. exists []. rewrite app_nil_r. split; [reflexivity|constructor].
  - apply obind_ok in H as (s1 & H1 & H2). apply step_view in H1; [|exact N].
    assert (E1 : p_errors s1 = []) by (apply (no_errors_before s1 s'); [apply (scan_grows e ls Nl _ _ H2)|exact E]).
    destruct (IH s1 s' H2 E) as (new & I & L). rewrite I. clear I IH H2 E. cbn [filter]. unfold is_instruction at 1.
    destruct H1 as [R|k R Lc P|k R Lc P|k p R P|w i R P|w p R P]; rewrite R; cbn [bump add_error add_warnings add_inst add_label add_local flush_locals p_insts p_errors] in *.
    + exists new. auto.
    + exists new. auto.
    + exists new. auto.
    + exfalso. destruct (p_errors s); discriminate.
    + exists ((S (p_line s), i) :: new). rewrite <- app_assoc. split; [reflexivity|]. cbn [map snd]. constructor; [|exact L]. eapply inst_from; eauto.
    + exfalso. destruct (p_errors s); discriminate.
Qed.

(** What label resolution and encoding leave. *)
Definition is_cop0 (p : rop) : bool := match p with R_Cfc0 | R_Ctc0 | R_Dmfc0 | R_Dmtc0 | R_Mfc0 | R_Mtc0 => true | _ => false end.
Definition adjusted_from (op : str) (i : inst) : Prop :=
  from op i /\ match i with IImm p _ _ im b => imm_shown p = true -> exists v, im = Short v | _ => True end.
Lemma adjust_one_from e s i n x y op : from op x -> adjust_one e s i n x = Ok (y, []) -> adjusted_from op y.
Proof.
  intros F H. destruct x as [p rs rt im b|p t b|p rs rt rd sa b|w]; cbn [adjust_one] in H.
  - destruct F as [Fn Fk]. assert (Sh : forall v k, adjusted_from op (IImm p rs rt (Short v) k)) by (intros v k; split; [split; [exact Fn|exact Logic.I]|]; eauto).
    destruct im as [v|v|v|l|l].
    + injection H as <-. apply Sh.
    + destruct (negb (is_b_op p)) eqn:B.
      { injection H as <-. split; [split; assumption|]. intros X. apply shown_bits in X as [X|[_ X]]; [cbn in Fk; congruence|rewrite X in B; discriminate]. }
      cbv zeta in H. apply obind_ok in H as (bad & _ & H). apply obind_ok in H as (er & _ & H). assert (H' := f_equal (fun o => match o with Ok p => fst p | _ => IBytes 0 end) H). cbn [fst] in H'.
      rewrite <- H'. apply Sh.
    + injection H as <-. split; [split; assumption|]. intros X. apply shown_bits in X as [X|[X _]]; cbn in Fk; congruence.
    + destruct (assoc l (p_dropped s)).
      * apply obind_ok in H as (q & _ & H). destruct q as [a|]; [|apply obind_ok in H as (? & _ & H); discriminate].
        assert (H' := f_equal (fun o => match o with Ok p => fst p | _ => IBytes 0 end) H). cbn [fst] in H'. rewrite <- H'. apply Sh.
      * apply obind_ok in H as (? & _ & H). discriminate.
    + destruct (assoc l (p_labels s)); [|discriminate].
      assert (H' := f_equal (fun o => match o with Ok p => fst p | _ => IBytes 0 end) H). cbn [fst] in H'. rewrite <- H'. apply Sh.
  - destruct t as [l|a]; [|injection H as <-; split; [exact F|exact Logic.I]]. destruct (assoc l (p_labels s)).
    + apply obind_ok in H as (a1 & _ & H). apply obind_ok in H as (a2 & _ & H). injection H as <-. split; [exact F|exact Logic.I].
    + apply obind_ok in H as (? & _ & H). discriminate.
  - injection H as <-. split; [exact F|exact Logic.I].
  - injection H as <-. split; exact Logic.I.
Qed.
Definition rel (Q : str -> inst -> Prop) (l : str) (i : inst) : Prop := exists op, Q op i /\ mnemonic l = trim (to_lower op).
Lemma adjust_from_from e s ls : forall l i q, Forall2 (rel from) ls (map snd l) -> adjust_from e s i l = Ok q -> snd q = [] -> Forall2 (rel adjusted_from) ls (fst q).
Proof.
  induction ls as [|r ls IH]; intros [|[n x] l] i q F H E; cbn [map snd] in F; inversion F as [|? ? ? ? F1 F2]; subst; cbn [adjust_from] in H.
  - injection H as <-. constructor.
  - apply obind_ok in H as ([y e1] & H1 & H). apply obind_ok in H as (q1 & H2 & H). injection H as <-. cbn [fst snd] in *. apply app_eq_nil in E as [-> E2].
    constructor; [|eauto]. destruct F1 as (op & F1 & M). exists op. split; [|exact M]. eapply adjust_one_from; eauto.
Qed.
Lemma app_not_nil {A} (a b : list A) : b <> [] -> a ++ b <> []. Proof. destruct a; [auto|discriminate]. Qed.
Lemma enc_r_some p rs rt rd sa : is_cop0 p = true -> enc_r p rs rt rd sa <> [].
Proof. intros H. destruct p; try discriminate H; cbn [enc_r]; discriminate. Qed.
Definition settled_from (op : str) (i : inst) : Prop :=
  adjusted_from op i /\ match i with IReg p _ _ _ _ b => is_cop0 p = true -> b <> [] | IBytes _ => False | _ => True end.
Lemma assemble_one_from oc op x y : adjusted_from op x -> assemble_inst (E:=perror) oc x = Ok y -> settled_from op y.
Proof.
  intros F H. destruct x as [p rs rt im b|p t b|p rs rt rd sa b|w]; cbn [assemble_inst] in H.
  - apply obind_ok in H as (ws & _ & H). cbn [push_bytes] in H. injection H as <-. split; [exact F|exact Logic.I].
  - apply obind_ok in H as (ws & _ & H). cbn [push_bytes] in H. injection H as <-. split; [exact F|exact Logic.I].
  - cbn [push_bytes] in H. assert (H' := f_equal (fun o => match o with Ok p => p | _ => IBytes 0 end) H). cbv beta iota in H'. rewrite <- H'.
    split; [exact F|]. intros C. now apply app_not_nil, enc_r_some.
  - discriminate.
Qed.
Lemma assemble_from oc ls : forall l out, Forall2 (rel adjusted_from) ls l -> assemble_insts (E:=perror) oc l = Ok out -> Forall2 (rel settled_from) ls out.
Proof.
  induction ls as [|r ls IH]; intros [|x l] out F H; inversion F as [|? ? ? ? F1 F2]; subst; cbn [assemble_insts] in H.
  - injection H as <-. constructor.
  - apply obind_ok in H as (y & H1 & H). apply obind_ok in H as (ys & H2 & H). injection H as <-. constructor; [|eauto].
    destruct F1 as (op & F1 & M). exists op. split; [|exact M]. eapply assemble_one_from; eauto.
Qed.

(** ** Displaying *)

Lemma imm_short_shown p rs rt v : (exists t, show_imm_short p rs rt v = Ok t) <-> imm_shown p = true.
Proof. split; [intros [t H]|intros H]; destruct p; try discriminate H; cbn in *; try reflexivity; try discriminate H; eexists; reflexivity. Qed.
Lemma shown_iff op i : settled_from op i -> ((exists t, show_inst i = Ok t) <-> mem_str (trim (to_lower op)) pseudo = false).
Proof.
  intros [[F A] B]. destruct i as [p rs rt im b|p t b|p rs rt rd sa b|w]; cbn [show_inst] in *.
  - destruct F as [Fn _]. rewrite Fn. assert (N := imm_shown_name p). rewrite <- negb_true_iff, <- N. destruct (imm_shown p) eqn:Sh.
    + destruct (A eq_refl) as [v ->]. rewrite imm_short_shown. tauto.
    + split; [|discriminate]. intros [t H]. exfalso. destruct im as [v|v|v|l|l]; try discriminate H.
      * assert (X : exists t, show_imm_short p rs rt v = Ok t) by eauto. apply imm_short_shown in X. congruence.
      * destruct p; discriminate || (vm_compute in Sh; discriminate Sh).
      * destruct p; discriminate || (vm_compute in Sh; discriminate Sh).
  - rewrite F. split; [intros _; destruct p; vm_compute; reflexivity|]. intros _. destruct t; eexists; reflexivity.
  - assert (Q : (exists t, show_reg p rs rt rd sa b = Ok t) <-> reg_shown p = true).
    { split.
      - intros [t H]. destruct p; try reflexivity; try discriminate H.
      - intros H. destruct (is_cop0 p) eqn:C.
        + assert (Nb := B eq_refl). destruct b as [|b0 b]; [congruence|]. destruct p; try discriminate C; cbn [show_reg]; destruct (reg_to_c0reg rd); eexists; reflexivity.
        + assert (Fc : (p <> R_Cs /\ p <> R_Cd) \/ exists c, fcond_try_from sa = Ok c) by (destruct F as [[_ F]|[_ [_ F]]]; auto). clear A B F.
          destruct Fc as [[F1 F2]|[c Fc]].
          * destruct p; try discriminate C; try congruence; try (vm_compute in H; discriminate H); cbn [show_reg]; try (eexists; reflexivity); try (destruct (sa =? 0); eexists; reflexivity); destruct rd; eexists; reflexivity.
          * destruct p; try discriminate C; try (vm_compute in H; discriminate H); cbn [show_reg]; unfold show_fcond; rewrite ?Fc; try (eexists; reflexivity); try (destruct (sa =? 0); eexists; reflexivity); destruct rd; eexists; reflexivity. }
    rewrite Q. clear Q. destruct F as [[Fn _]|[Cn [Fp _]]].
    + rewrite Fn, reg_shown_name, negb_true_iff. reflexivity.
    + split; [|intros _; destruct Fp as [-> | ->]; vm_compute; reflexivity]. intros _. destruct (mem_str (trim (to_lower op)) pseudo) eqn:M; [|reflexivity].
      apply mem_str_in in M. apply (proj1 (forallb_forall _ _) pseudo_known) in M. rewrite Cn in M. discriminate.
  - destruct B.
Qed.

Theorem assembled_shown rt m input out : assemble rt m input = Ok out ->
  Forall2 (fun l i => (exists t, show_inst i = Ok t) <-> ~ In (mnemonic l) pseudo) (filter is_instruction (lines input)) out.
Proof.
  intros H. apply assemble_ok in H as (s & is1 & [Sc Er Ad Co]). assert (N := proj2 (Forall_forall _ _) (lines_no_nl input)).
  destruct (scan_from _ _ N _ _ Sc Er) as (new & I & F). cbn [init_state p_insts app] in I.
  assert (A := adjust_from_from (mk_parser rt m input) (final (mk_parser rt m input) s) (filter is_instruction (lines input)) (p_insts s) 0 (is1, [])). rewrite I in A.
  specialize (A F). rewrite <- I in A. specialize (A Ad eq_refl). cbn [fst] in A.
  apply (assemble_from _ _ _ _ A) in Co. clear -Co. induction Co as [|l i ls out (op & S1 & M) _ IH]; [constructor|]. constructor; [|exact IH].
  rewrite (shown_iff op i S1), M. split; [intros E J; apply mem_str_in in J; congruence|]. intros Hn. destruct (mem_str _ _) eqn:E; [|reflexivity]. destruct Hn. now apply mem_str_in.
Qed.
