(** * DisasmProofs: whole-program facts about [disassemble] (proofs only). *)

From Coq Require Import Lia.
From Verif Require Import Lib SpecIsa StrLemmas DecodeProofs.

(** ** Every decoded instruction can be printed *)

Definition prints (i : inst) : Prop := exists t, show_inst i = Ok t.

Lemma prints_jump op t b : prints (IJump op t b).
Proof. destruct t; eexists; reflexivity. Qed.
Lemma prints_bytes w : prints (IBytes w).
Proof. eexists; reflexivity. Qed.
Lemma prints_jalr rs rt rd sa b : prints (IReg R_Jalr rs rt rd sa b).
Proof. destruct rd; eexists; reflexivity. Qed.
Lemma prints_break rs rt rd sa b : prints (IReg R_Break rs rt rd sa b).
Proof. unfold prints; cbn [show_inst show_reg]. destruct (sa =? 0); eexists; reflexivity. Qed.
Lemma prints_syscall rs rt rd sa b : prints (IReg R_Syscall rs rt rd sa b).
Proof. unfold prints; cbn [show_inst show_reg]. destruct (sa =? 0); eexists; reflexivity. Qed.
Lemma prints_cop0 op rs rt rd sa w :
  In op [R_Cfc0; R_Ctc0; R_Dmfc0; R_Dmtc0; R_Mfc0; R_Mtc0] -> prints (IReg op rs rt rd sa [w]).
Proof.
  intros I. unfold prints. cbn [show_inst].
  repeat (destruct I as [<-|I]; [cbn [show_reg]; destruct (reg_to_c0reg rd); eexists; reflexivity|]).
  destruct I.
Qed.

Ltac pr :=
  cbn [disasm_fields tlb_match]; unfold mk_imm, mk_jump, mk_reg;
  lazymatch goal with
  | |- prints (IBytes _) => apply prints_bytes
  | |- prints (IJump _ _ _) => apply prints_jump
  | |- prints (IReg R_Jalr _ _ _ _ _) => apply prints_jalr
  | |- prints (IReg R_Break _ _ _ _ _) => apply prints_break
  | |- prints (IReg R_Syscall _ _ _ _ _) => apply prints_syscall
  | |- prints (IReg R_Cfc0 _ _ _ _ _) => apply prints_cop0; cbn; tauto
  | |- prints (IReg R_Ctc0 _ _ _ _ _) => apply prints_cop0; cbn; tauto
  | |- prints (IReg R_Dmfc0 _ _ _ _ _) => apply prints_cop0; cbn; tauto
  | |- prints (IReg R_Dmtc0 _ _ _ _ _) => apply prints_cop0; cbn; tauto
  | |- prints (IReg R_Mfc0 _ _ _ _ _) => apply prints_cop0; cbn; tauto
  | |- prints (IReg R_Mtc0 _ _ _ _ _) => apply prints_cop0; cbn; tauto
  | |- _ => eexists; reflexivity
  end.

Ltac enum_range H n := change n with (Z.of_nat (Z.to_nat n)) in H;
  let v := eval vm_compute in (Z.to_nat n) in change (Z.to_nat n) with v in H; enum H.

Lemma tlb_prints fn w : 0 <= fn < 64 -> prints (tlb_match fn w).
Proof. intros R. enum_range R 64; pr. Qed.

Lemma fields_print op rs rt rd sa code fn imm target w :
  0 <= op < 64 -> 0 <= rs < 32 -> 0 <= rt < 32 -> 0 <= fn < 64 ->
  prints (disasm_fields op rs rt rd sa code fn imm target w).
Proof.
  intros Ro Rs Rt Rf.
  enum_range Ro 64;
  lazymatch goal with
  | |- prints (disasm_fields 0 _ _ _ _ _ _ _ _ _) => enum_range Rf 64; pr
  | |- prints (disasm_fields 1 _ _ _ _ _ _ _ _ _) => enum_range Rt 32; pr
  | |- prints (disasm_fields 16 _ _ _ _ _ _ _ _ _) =>
      enum_range Rs 32;
      lazymatch goal with
      | |- prints (disasm_fields _ 8 _ _ _ _ _ _ _ _) => enum_range Rt 32; cbn [disasm_fields]
      | |- _ => cbn [disasm_fields]
      end;
      first [ pr | change (prints (tlb_match fn w)); now apply tlb_prints ]
  | |- prints (disasm_fields 17 _ _ _ _ _ _ _ _ _) =>
      enum_range Rs 32;
      lazymatch goal with
      | |- prints (disasm_fields _ 8 _ _ _ _ _ _ _ _) => enum_range Rt 32; pr
      | |- prints (disasm_fields _ 16 _ _ _ _ _ _ _ _) => enum_range Rf 64; pr
      | |- prints (disasm_fields _ 17 _ _ _ _ _ _ _ _) => enum_range Rf 64; pr
      | |- prints (disasm_fields _ 20 _ _ _ _ _ _ _ _) => enum_range Rf 64; pr
      | |- prints (disasm_fields _ 21 _ _ _ _ _ _ _ _) => enum_range Rf 64; pr
      | |- _ => pr
      end
  | |- _ => pr
  end.
Qed.

Lemma word_prints base w : is_word w -> 0 <= base < 2 ^ 32 -> prints (disasm_word base w).
Proof.
  intros Hw Hb. destruct (disasm_word_fields base w Hw Hb)
    as (op & rs & rt & rd & sa & code & fn & imm & target & F & ->).
  apply fields_print; apply F.
Qed.
Lemma match_sym_prints m i : prints i -> prints (match_sym m i).
Proof.
  intros H. destruct i; try exact H. cbn [match_sym]. destruct tgt; [exact H|].
  destruct (sym_get addr (m_syms m)); [apply prints_jump|exact H].
Qed.
Lemma debug_prints i : prints i -> exists t, debug_inst i = Ok t.
Proof. intros [t H]. unfold debug_inst. rewrite H. eexists; reflexivity. Qed.

(** ** [map_outcome] *)

Lemma forall2_length {A B} (P : A -> B -> Prop) l k : Forall2 P l k -> List.length l = List.length k.
Proof. induction 1; cbn; congruence. Qed.

Lemma map_outcome_app {E A B} (f : A -> outcome E B) l1 l2 ys1 ys2 :
  map_outcome f l1 = Ok ys1 -> map_outcome f l2 = Ok ys2 -> map_outcome f (l1 ++ l2) = Ok (ys1 ++ ys2).
Proof.
  revert ys1. induction l1 as [|x l1 IH]; intros ys1 H1 H2.
  - cbn in H1. injection H1 as <-. exact H2.
  - cbn [map_outcome app] in *. destruct (f x); cbn [obind] in *; try discriminate.
    destruct (map_outcome f l1); cbn [obind] in *; try discriminate. injection H1 as <-.
    now rewrite (IH _ eq_refl H2).
Qed.
Lemma map_outcome_forall2 {E A B} (f : A -> outcome E B) l ys :
  map_outcome f l = Ok ys <-> Forall2 (fun x y => f x = Ok y) l ys.
Proof.
  revert ys. induction l as [|x l IH]; intros ys; cbn [map_outcome].
  - split; [injection 1 as <-; constructor|]. now inversion 1.
  - split.
    + destruct (f x) eqn:E1; cbn [obind]; try discriminate.
      destruct (map_outcome f l) eqn:E2; cbn [obind]; try discriminate. injection 1 as <-.
      constructor; [easy|]. now apply IH.
    + inversion 1; subst. rewrite H2. cbn [obind]. apply IH in H4. now rewrite H4.
Qed.
Lemma map_outcome_total {E A B} (f : A -> outcome E B) l :
  Forall (fun x => exists y, f x = Ok y) l -> exists ys, map_outcome f l = Ok ys.
Proof.
  induction 1 as [|x l [y Hy] _ [ys IH]]; [now exists []|]. exists (y :: ys). cbn [map_outcome].
  rewrite Hy. cbn [obind]. now rewrite IH.
Qed.

(** ** Debug mode *)

(** The line of one word. *)
Definition debug_line (m : mipsasm) (w : Z) : outcome str str :=
  debug_inst (match_sym m (disasm_word (m_base m) w)).

Lemma map_outcome_map {E A B C} (f : B -> outcome E C) (g : A -> B) l :
  map_outcome f (map g l) = map_outcome (fun x => f (g x)) l.
Proof. induction l as [|x l IH]; [reflexivity|]. cbn [map map_outcome]. now rewrite IH. Qed.

Lemma disassemble_debug oc m ws :
  m_debug m = true -> disassemble oc m ws = map_outcome (debug_line m) ws.
Proof.
  intros H. unfold disassemble. rewrite H. unfold disassemble_insts.
  rewrite map_map, map_outcome_map. reflexivity.
Qed.

Lemma debug_line_total m w : is_word w -> is_word (m_base m) -> exists t, debug_line m w = Ok t.
Proof. intros Hw Hb. apply debug_prints, match_sym_prints. now apply word_prints. Qed.

Lemma debug_total oc m ws :
  m_debug m = true -> is_word (m_base m) -> Forall is_word ws ->
  exists ls, disassemble oc m ws = Ok ls /\ List.length ls = List.length ws.
Proof.
  intros Hd Hb Hw. rewrite disassemble_debug by easy.
  destruct (map_outcome_total (debug_line m) ws) as [ls H].
  - eapply Forall_impl; [|exact Hw]. intros w Hw1. now apply debug_line_total.
  - exists ls. split; [exact H|]. apply map_outcome_forall2 in H.
    symmetry. eapply forall2_length. exact H.
Qed.

(** Decoding looks at the base only for its segment. *)
Lemma disasm_word_segment b1 b2 w : is_word w -> is_word b1 -> is_word b2 -> b1 / 2 ^ 28 = b2 / 2 ^ 28 ->
  disasm_word b1 w = disasm_word b2 w.
Proof.
  intros Hw H1 H2 E. unfold disasm_word. rewrite !target_field by easy. now rewrite E.
Qed.

(** ** Jumps and symbols *)

(** [decode] gives a jump exactly for major opcodes 2 and 3. *)
Lemma fields_jump base w op rs rt rd sa code fn imm target :
  fields_of base w op rs rt rd sa code fn imm target ->
  op <> 2 -> op <> 3 ->
  match disasm_fields op rs rt rd sa code fn imm target w with IJump _ _ _ => False | _ => True end.
Proof.
  intros F N2 N3. assert (Ro := R_op _ _ _ _ _ _ _ _ _ _ _ F). assert (Rs := R_rs _ _ _ _ _ _ _ _ _ _ _ F).
  assert (Rt := R_rt _ _ _ _ _ _ _ _ _ _ _ F). assert (Rf := R_fn _ _ _ _ _ _ _ _ _ _ _ F). clear F.
  enum_range Ro 64; try congruence; clear N2 N3;
  lazymatch goal with
  | |- match disasm_fields 0 _ _ _ _ _ _ _ _ _ with _ => _ end => enum_range Rf 64; exact I
  | |- match disasm_fields 1 _ _ _ _ _ _ _ _ _ with _ => _ end => enum_range Rt 32; exact I
  | |- match disasm_fields 16 _ _ _ _ _ _ _ _ _ with _ => _ end =>
      enum_range Rs 32;
      lazymatch goal with
      | |- match disasm_fields _ 8 _ _ _ _ _ _ _ _ with _ => _ end => enum_range Rt 32
      | |- _ => idtac
      end; first [exact I | enum_range Rf 64; exact I]
  | |- match disasm_fields 17 _ _ _ _ _ _ _ _ _ with _ => _ end =>
      enum_range Rs 32;
      lazymatch goal with
      | |- match disasm_fields _ 8 _ _ _ _ _ _ _ _ with _ => _ end => enum_range Rt 32; exact I
      | |- match disasm_fields _ 16 _ _ _ _ _ _ _ _ with _ => _ end => enum_range Rf 64; exact I
      | |- match disasm_fields _ 17 _ _ _ _ _ _ _ _ with _ => _ end => enum_range Rf 64; exact I
      | |- match disasm_fields _ 20 _ _ _ _ _ _ _ _ with _ => _ end => enum_range Rf 64; exact I
      | |- match disasm_fields _ 21 _ _ _ _ _ _ _ _ with _ => _ end => enum_range Rf 64; exact I
      | |- _ => exact I
      end
  | |- _ => exact I
  end.
Qed.

Lemma jump_decode base w : is_word w -> is_word base ->
  (field w 26 6 = 2 -> disasm_word base w = IJump J_J (TAddress (base / 2 ^ 28 * 2 ^ 28 + field w 0 26 * 4)) [w])
  /\ (field w 26 6 = 3 -> disasm_word base w = IJump J_Jal (TAddress (base / 2 ^ 28 * 2 ^ 28 + field w 0 26 * 4)) [w])
  /\ (field w 26 6 <> 2 -> field w 26 6 <> 3 ->
      match disasm_word base w with IJump _ _ _ => False | _ => True end).
Proof.
  intros Hw Hb. destruct (disasm_word_fields base w Hw Hb)
    as (op & rs & rt & rd & sa & code & fn & imm & target & F & ->).
  assert (Ft : base / 2 ^ 28 * 2 ^ 28 + field w 0 26 * 4 = target).
  { assert (G := F_tgt _ _ _ _ _ _ _ _ _ _ _ F). cbn [extract] in G. congruence. }
  rewrite Ft, (F_op _ _ _ _ _ _ _ _ _ _ _ F). repeat split.
  - intros ->. reflexivity.
  - intros ->. reflexivity.
  - intros. eapply fields_jump; eassumption.
Qed.
