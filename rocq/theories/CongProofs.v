(** * CongProofs: what the reading of a line depends on (proofs only). *)

From Coq Require Import Lia.
From Verif Require Import Lib SpecIsa StrLemmas NumLemmas DecodeProofs TextProofs OperandProofs NativeProofs LineProofs ScanProofs ProgProofs BranchProofs SpecErrors SpecText SpecProgram.

(** ** Errors without their lines *)

Definition no_line : line := mk_line 0 [].
(** The error without its line; [f] is applied to mnemonics, conditions, registers, immediates and operand lists. *)
Definition unplaced (f : str -> str) (p : perror) : perror :=
  match p with
  | EMultipleLabelDefinition _ n l => EMultipleLabelDefinition no_line n l
  | EInvalidLabel _ n => EInvalidLabel no_line n
  | EInvalidInstruction _ => EInvalidInstruction no_line
  | EInvalidOperandCount _ a b t => EInvalidOperandCount no_line a b (f t)
  | EInvalidOpcode _ t => EInvalidOpcode no_line (f t)
  | EInvalidRegister _ t => EInvalidRegister no_line (f t)
  | EInvalidTargetAddress _ t => EInvalidTargetAddress no_line t
  | EInvalidImmediate _ t => EInvalidImmediate no_line (f t)
  | EInvalidFloatCond _ t => EInvalidFloatCond no_line (f t)
  | EBranchOutOfBounds _ t b => EBranchOutOfBounds no_line t b
  | ELocalLabelOutOfScope _ n => ELocalLabelOutOfScope no_line n
  | EUndefinedLabel _ n => EUndefinedLabel no_line n
  end.
Lemma unplaced_eq p q : unplaced (fun t => t) p = unplaced (fun t => t) q -> error_line p = error_line q -> p = q.
Proof. destruct p, q; cbn; intros E L; try discriminate; subst; congruence. Qed.

Definition line_error (p : perror) : bool := (negb (reference_error p) && negb (label_error p))%bool.

(** Two readers that agree on everything but the place. *)
Record alike (e e' : env) (s s' : pstate) (raw raw' : str) : Prop := mk_alike {
  ak_oc : e_oc e = e_oc e';
  ak_syms : forall t, option_map fst (find (fun av => str_eqb (snd av) t) (e_syms e)) = option_map fst (find (fun av => str_eqb (snd av) t) (e_syms e'));
  ak_labels : forall n, assoc n (p_labels s) = None <-> assoc n (p_labels s') = None;
  ak_ready : ready e s raw;
  ak_ready' : ready e' s' raw'
}.

Section Cong.
Variables (e e' : env) (s s' : pstate) (raw raw' : str) (f : str -> str).
Hypothesis Ak : alike e e' s s' raw raw'.
Let l := mk_line (p_line s) raw.
Let l' := mk_line (p_line s') raw'.

Definition same_result {A} (x y : outcome perror A) : Prop :=
  match x, y with
  | Ok a, Ok b => a = b
  | Err p, Err q => unplaced f p = unplaced f q /\ error_line p = l /\ error_line q = l' /\ line_error p = true
  | Panic a, Panic b => a = b
  | _, _ => False
  end.
Definition same {A} (x y : M A) : Prop := same_result (snd x) (snd y).

Lemma same_refl_ok {A} (a : A) : same_result (Ok a) (Ok a). Proof. reflexivity. Qed.
Lemma get_line_l : get_line e (p_line s) = Ok l.
Proof. unfold get_line. destruct (ak_ready _ _ _ _ _ _ Ak) as [-> _]. reflexivity. Qed.
Lemma get_line_l' : get_line e' (p_line s') = Ok l'.
Proof. unfold get_line. destruct (ak_ready' _ _ _ _ _ _ Ak) as [-> _]. reflexivity. Qed.
Lemma same_fail {A} k k' : line_error (k l) = true -> error_line (k l) = l -> error_line (k' l') = l' -> unplaced f (k l) = unplaced f (k' l') ->
  @same_result A (fail_at e (p_line s) k) (fail_at e' (p_line s') k').
Proof. intros Le H H' E. unfold fail_at. rewrite get_line_l, get_line_l'. cbn. auto. Qed.
Lemma same_obind {A B} (x y : outcome perror A) (g h : A -> outcome perror B) : same_result x y -> (forall a, same_result (g a) (h a)) -> same_result (obind x g) (obind y h).
Proof. intros H K. destruct x, y; try destruct H; subst; cbn; auto. Qed.
Lemma same_mbind {A B} (x y : M A) (g h : A -> M B) : same x y -> (forall a, same (g a) (h a)) -> same (mbind x g) (mbind y h).
Proof.
  intros H K. destruct x as [w x], y as [v y]. unfold same in *. cbn [snd] in H. destruct x as [a|p|p], y as [b|q|q]; try (now destruct H); cbn [mbind snd]; auto.
  cbn in H. subst b. specialize (K a). destruct (g a), (h a). exact K.
Qed.
Lemma same_lift {A} (x y : outcome perror A) : same_result x y -> same (lift x) (lift y).
Proof. auto. Qed.
(** A computation that gives no errors. *)
Lemma same_panics {A} (x : outcome perror A) : (forall p, x <> Err p) -> same_result x x.
Proof. intros H. destruct x; cbn; auto. now destruct (H e0). Qed.

Lemma same_target t : same_result (parse_target e s t) (parse_target e' s' t).
Proof.
  unfold parse_target. assert (Y := ak_syms _ _ _ _ _ _ Ak t).
  destruct (find _ (e_syms e)) as [[a n]|], (find _ (e_syms e')) as [[a' n']|]; try discriminate.
  - cbn in Y. injection Y as <-. reflexivity.
  - destruct (starts_with #"0x" t).
    + destruct (parse_int u32 16 (remove_all #"0x" t)); [reflexivity|]. now apply same_fail.
    + destruct t as [|c t]; [reflexivity|]. destruct (parse_int u32 10 [c]); [|reflexivity].
      destruct (parse_int u32 10 (c :: t)); [reflexivity|]. now apply same_fail.
Qed.
Lemma same_immediate_as t x x' : trim x = trim x' -> same_result (parse_immediate e s t x) (parse_immediate e' s' t x').
Proof.
  intros Tx. unfold parse_immediate. rewrite <- Tx. destruct (starts_with #"@@" (trim x)); [reflexivity|].
  assert (L := ak_labels _ _ _ _ _ _ Ak (trim x)).
  destruct (assoc (trim x) (p_labels s)), (assoc (trim x) (p_labels s')); try reflexivity.
  - exfalso. destruct L as [_ L]. discriminate (L eq_refl).
  - exfalso. destruct L as [L _]. discriminate (L eq_refl).
  - clear L. destruct (re_find_str IMM_RE (trim x)) as [y|].
    + apply same_obind; [apply same_target|]. intros a. destruct (Nat.ltb _ _); [reflexivity|].
      rewrite <- (ak_oc _ _ _ _ _ _ Ak). 
      assert (T : forall (B : Type) (k : Z -> outcome perror B), (forall v, same_result (k v) (k v)) -> same_result (obind (target_as_u32 a) k) (obind (target_as_u32 a) k)).
      { intros B k K. destruct a; [reflexivity|]. cbn. apply K. }
      assert (I : forall t v, same_result (@imm_new perror t v) (imm_new t v)).
      { intros t0 v. apply same_panics. intros p. unfold imm_new. destruct (it_bits t0 =? 16); [discriminate|]. destruct (it_bits t0 =? 32); [discriminate|]. destruct (it_bits t0 =? 64); discriminate. }
      destruct (str_eqb _ _); [|destruct (str_eqb _ _); [|reflexivity]].
      * apply T. intros v. unfold ck32. destruct (_ && _)%bool; [cbn [obind]; apply I|]. destruct (e_oc e); [reflexivity|]. cbn [obind]. apply I.
      * apply T. intros v. apply I.
    + assert (I : forall t v, same_result (@imm_new perror t v) (imm_new t v)).
      { intros t0 v. apply same_panics. intros p. unfold imm_new. destruct (it_bits t0 =? 16); [discriminate|]. destruct (it_bits t0 =? 32); [discriminate|]. destruct (it_bits t0 =? 64); discriminate. }
      destruct (contains #"0x" (trim x)).
      * destruct (parse_int t 16 _); [apply I|]. now apply same_fail.
      * destruct (parse_int t 10 _); [apply I|]. now apply same_fail.
Qed.
Lemma same_immediate t x : same_result (parse_immediate e s t x) (parse_immediate e' s' t x).
Proof. now apply same_immediate_as. Qed.
(** Operands that differ in the white space around them. *)
Definition operand_like (x x' : str) : Prop := trim x = trim x' /\ f x = f x' /\ part x raw /\ part x' raw'.
Lemma same_aimm t x : same (aimm e s t x) (aimm e' s' t x).
Proof. apply same_immediate. Qed.
Lemma same_aimm_as t x x' : operand_like x x' -> same (aimm e s t x) (aimm e' s' t x').
Proof. intros [H _]. now apply same_immediate_as. Qed.
Lemma reg_like x x' : trim x = trim x' -> match reg_from_str x, reg_from_str x' with Ok a, Ok b => a = b | Err t, Err t' => t = t' \/ (t = x /\ t' = x') | Panic a, Panic b => a = b | _, _ => False end.
Proof.
  intros T. unfold reg_from_str. rewrite <- T. destruct (re_find REG_RE _); destruct (parse_int u32 10 _); auto.
  - destruct (reg_try_from z); auto.
  - destruct (reg_try_from z); auto.
  - destruct (assoc _ reg_table); auto.
Qed.
Lemma same_areg_as x x' : operand_like x x' -> same (areg e s x) (areg e' s' x').
Proof.
  intros (T & F & _). unfold same, areg, arg_reg. cbn [lift snd]. assert (H := reg_like x x' T).
  destruct (reg_from_str x), (reg_from_str x'); try (now destruct H).
  apply same_fail; try reflexivity. cbn. destruct H as [->|[-> ->]]; congruence.
Qed.
Lemma same_areg x : same (areg e s x) (areg e' s' x).
Proof. unfold same, areg, arg_reg. cbn [lift snd]. destruct (reg_from_str x); [reflexivity| |reflexivity]. now apply same_fail. Qed.
Lemma same_unwrap_as x x' : operand_like x x' -> same_result (arg_reg_unwrap x) (arg_reg_unwrap x').
Proof.
  intros (T & _). unfold arg_reg_unwrap. assert (H := reg_like x x' T). destruct (reg_from_str x), (reg_from_str x'); try (now destruct H); exact H || reflexivity.
Qed.
Lemma same_afreg x : same (afreg e s x) (afreg e' s' x).
Proof. unfold same, afreg, arg_freg. cbn [lift snd]. destruct (freg_from_str x); [reflexivity| |reflexivity]. now apply same_fail. Qed.
Lemma same_afreg_as x x' : operand_like x x' -> same (afreg e s x) (afreg e' s' x').
Proof. intros (T & _). replace (afreg e' s' x') with (afreg e' s' x); [apply same_afreg|]. unfold afreg, arg_freg, freg_from_str. now rewrite T. Qed.
Lemma same_c0reg x : same (lift (arg_c0reg e s x)) (lift (arg_c0reg e' s' x)).
Proof. unfold same, arg_c0reg. cbn [lift snd]. destruct (c0reg_from_str x); [reflexivity| |reflexivity]. now apply same_fail. Qed.
Lemma same_c0reg_as x x' : operand_like x x' -> same (lift (arg_c0reg e s x)) (lift (arg_c0reg e' s' x')).
Proof. intros (T & _). replace (arg_c0reg e' s' x') with (arg_c0reg e' s' x); [apply same_c0reg|]. unfold arg_c0reg, c0reg_from_str. now rewrite T. Qed.
Lemma same_count {A} arg arg' n k k' : f arg = f arg' -> k = k' -> same (@bad_count e s A arg n k) (bad_count e' s' arg' n k').
Proof. intros F <-. unfold bad_count. apply same_lift. apply same_fail; try reflexivity. cbn. now rewrite F. Qed.
Lemma same_unwrap x : same_result (arg_reg_unwrap x) (arg_reg_unwrap x).
Proof. apply same_panics. intros p. unfold arg_reg_unwrap. destruct (reg_from_str x); discriminate. Qed.
Lemma same_base x : same_result (base_text x) (base_text x).
Proof. apply same_panics. intros p. unfold base_text. destruct (rev (find_iter BASE_RE x)); discriminate. Qed.
Lemma same_sa x : same_result (parse_sa x) (parse_sa x).
Proof.
  apply same_panics. intros p. unfold parse_sa. destruct (_ || _)%bool.
  - destruct (parse_int i32 10 _); discriminate.
  - destruct (parse_int i32 16 _); discriminate.
Qed.
Lemma same_u32 i : same_result (@imm_as_u32 perror i) (imm_as_u32 i).
Proof. apply same_panics. intros p. destruct i; discriminate. Qed.
Lemma same_u64 i : same_result (@imm_as_u64 perror i) (imm_as_u64 i).
Proof. apply same_panics. intros p. destruct i; discriminate. Qed.
Lemma same_delay : same (check_delay e s) (check_delay e' s').
Proof. rewrite (check_delay_ok e s raw), (check_delay_ok e' s' raw'); [reflexivity|apply Ak|apply Ak]. Qed.
Lemma warn_ok w t : show_warning w = Ok t -> warn (Ok w) = ([w], Ok tt).
Proof. intros H. unfold warn. now rewrite H. Qed.
Lemma show_branch ln x : part x (l_content ln) -> exists t, show_warning (WUnalignedBranch ln x) = Ok t.
Proof.
  intros P. destruct ln as [n c]. cbn [l_content] in P. unfold show_warning, header_body.
  destruct (fmt_line_ok n c (margin_of n) true #"offset is not divisible by 4" false x (part_find _ _ P)) as [t ->]. cbn. eauto.
Qed.
Lemma show_jump ln x : part x (l_content ln) -> exists t, show_warning (WUnalignedJump ln x) = Ok t.
Proof.
  intros P. destruct ln as [n c]. cbn [l_content] in P. unfold show_warning, header_body.
  destruct (fmt_line_ok n c (margin_of n) true #"target is not divisible by 4" false x (part_find _ _ P)) as [t ->]. cbn. eauto.
Qed.
Lemma same_branch i x x' : part x raw -> part x' raw' -> same (check_branch e s i x) (check_branch e' s' i x').
Proof.
  intros P P'. unfold check_branch. destruct (imm_is_label i); [reflexivity|]. apply same_mbind; [apply same_u32|]. intros v.
  destruct (negb _); [|reflexivity]. rewrite get_line_l, get_line_l'. cbn [obind].
  destruct (show_branch l x P) as [t T]. destruct (show_branch l' x' P') as [t' T']. rewrite (warn_ok _ _ T), (warn_ok _ _ T'). reflexivity.
Qed.
Lemma same_jump t x : part x raw -> part x raw' -> same (check_jump e s t x) (check_jump e' s' t x).
Proof.
  intros P P'. unfold check_jump. destruct t as [n|a]; [reflexivity|]. cbn [target_is_label target_as_u32].
  unfold lift at 1 3. cbn [mbind].
  assert (Q : same (if negb (a mod 4 =? 0) then warn (do! l0 <- get_line e (p_line s); Ok (WUnalignedJump l0 x)) else lift (Ok tt))
                   (if negb (a mod 4 =? 0) then warn (do! l0 <- get_line e' (p_line s'); Ok (WUnalignedJump l0 x)) else lift (Ok tt))).
  { destruct (negb _); [|reflexivity]. rewrite get_line_l, get_line_l'. cbn [obind].
    destruct (show_jump l x P) as [t T]. destruct (show_jump l' x P') as [t' T']. rewrite (warn_ok _ _ T), (warn_ok _ _ T'). reflexivity. }
  destruct (if negb (a mod 4 =? 0) then _ else _), (if negb (a mod 4 =? 0) then _ else _). exact Q.
Qed.

(** Memory operands that differ in the white space. *)
Definition mem_like (x x' : str) : Prop := base_text x = base_text x' /\
  match re_find_str OFFSET_RE x, re_find_str OFFSET_RE x' with
  | None, None => True
  | Some o, Some o' => trim (firstn (List.length o - 1) o) = trim (firstn (List.length o' - 1) o') /\ trim (remove_all #"(" o) = trim (remove_all #"(" o')
  | _, _ => False
  end.
Lemma mem_like_refl x : mem_like x x.
Proof. split; [reflexivity|]. destruct (re_find_str OFFSET_RE x); [split; reflexivity|exact I]. Qed.

(** ** The instructions *)

Variables (op op' arg arg' : str) (args args' : list str).
Hypothesis SL : same_letters op op'.
Hypothesis Fop : f op = f op'.
Hypothesis Fcond : option_map f (nth_error (split_char "." op) 1) = option_map f (nth_error (split_char "." op') 1).
Hypothesis Lcond : option_map to_lower (nth_error (split_char "." op) 1) = option_map to_lower (nth_error (split_char "." op') 1).
Hypothesis Llast : same_letters (match rev op with c :: _ => [c] | [] => [] end) (match rev op' with c :: _ => [c] | [] => [] end).
Hypothesis Unsigned : (str_eqb op #"andi" || str_eqb op #"ori" || str_eqb op #"xori")%bool = (str_eqb op' #"andi" || str_eqb op' #"ori" || str_eqb op' #"xori")%bool
  \/ parse_immediate e s u16 (nth 2 args []) = parse_immediate e s i16 (nth 2 args []).
Hypothesis Farg : f arg = f arg'.
Hypothesis Targ : classify (trim (to_lower op)) = Some GWord -> trim arg = trim arg'.
Hypothesis Args : Forall2 operand_like args args'.
Hypothesis Mem : mem_like (nth 1 args []) (nth 1 args' []).
Hypothesis Only : classify (trim (to_lower op)) = Some GCode -> List.length args = 1%nat -> hd [] args = [] <-> hd [] args' = [].

Lemma same_iop : same_result (iop_of op) (iop_of op').
Proof. rewrite (iop_of_letters _ _ SL). apply same_panics. intros p. unfold iop_of. destruct (iop_from_str op'); discriminate. Qed.
Lemma same_jop : same_result (jop_of op) (jop_of op').
Proof. rewrite (jop_of_letters _ _ SL). apply same_panics. intros p. unfold jop_of. destruct (jop_from_str op'); discriminate. Qed.
Lemma same_rop : same_result (rop_of op) (rop_of op').
Proof. rewrite (rop_of_letters _ _ SL). apply same_panics. intros p. unfold rop_of. destruct (rop_from_str op'); discriminate. Qed.
Lemma same_cop : same_result (rop_of (#"C." ++ match rev op with c :: _ => [c] | [] => [] end)) (rop_of (#"C." ++ match rev op' with c :: _ => [c] | [] => [] end)).
Proof.
  assert (X : same_letters (#"C." ++ match rev op with c :: _ => [c] | [] => [] end) (#"C." ++ match rev op' with c :: _ => [c] | [] => [] end)).
  { unfold same_letters, to_lower in *. rewrite !map_app. now f_equal. }
  rewrite (rop_of_letters _ _ X). apply same_panics. intros p. unfold rop_of. destruct (rop_from_str _); discriminate.
Qed.
Lemma same_length : List.length op = List.length op'.
Proof. unfold same_letters, to_lower in SL. rewrite <- (map_length lower_char op), <- (map_length lower_char op'). now rewrite SL. Qed.
Lemma same_cond c c' : f c = f c' -> to_lower c = to_lower c' -> same_result (parse_float_cond e s c) (parse_float_cond e' s' c').
Proof.
  intros F L. unfold parse_float_cond. rewrite L. destruct (assoc (to_lower c') fcond_table); [reflexivity|]. apply same_fail; [reflexivity|reflexivity|reflexivity|]. cbn. now rewrite F.
Qed.


Lemma likes_length r r' : Forall2 operand_like r r' -> List.length r = List.length r'.
Proof. induction 1; cbn; congruence. Qed.
Ltac next := match goal with L : Forall2 operand_like ?r ?r' |- _ => is_var r; is_var r'; let y := fresh "x" in let y' := fresh "y" in destruct r as [|y r], r' as [|y' r'];
  [clear L|exfalso; inversion L; fail|exfalso; inversion L; fail|
   assert (operand_like y y') by (inversion L; assumption); assert (Forall2 operand_like r r') by (inversion L; assumption); clear L] end.
Ltac parts := match goal with L : operand_like ?x _ |- part ?x _ => apply L | L : operand_like _ ?x |- part ?x _ => apply L end.

Ltac piece := lazymatch goal with
  | |- same (check_delay _ _) _ => apply same_delay
  | |- same (areg _ _ _) _ => first [apply same_areg|apply same_areg_as; assumption]
  | |- same (afreg _ _ _) _ => first [apply same_afreg|apply same_afreg_as; assumption]
  | |- same (lift (arg_c0reg _ _ _)) _ => first [apply same_c0reg|apply same_c0reg_as; assumption]
  | |- same (aimm _ _ _ _) _ => first [apply same_aimm|apply same_aimm_as; assumption]
  | |- same (bad_count _ _ _ _ _) _ => apply same_count; [exact Farg|cbn [List.length]; first [reflexivity|match goal with L : Forall2 operand_like _ _ |- _ => rewrite (likes_length _ _ L); reflexivity end]]
  | |- same (lift ?x) _ => apply same_lift; lazymatch x with
      | iop_of _ => apply same_iop | jop_of _ => apply same_jop | rop_of op => apply same_rop | rop_of _ => apply same_cop
      | arg_reg_unwrap _ => first [apply same_unwrap|apply same_unwrap_as; assumption] | base_text _ => apply same_base | parse_sa _ => apply same_sa
      | imm_as_u32 _ => apply same_u32 | imm_as_u64 _ => apply same_u64 | parse_target _ _ _ => apply same_target
      | Ok _ => apply same_refl_ok end
  end.
Ltac pieces := repeat lazymatch goal with |- same (mbind _ _) _ => apply same_mbind; [|intros ?] | |- _ => piece end.
Ltac shape := cbn [List.length]; try piece.

Lemma same_op : same (parse_op e s op arg args) (parse_op e' s' op' arg' args').
Proof.
  unfold parse_op. rewrite <- SL. destruct args as [|a r]; destruct args' as [|a' r']; try (inversion Args; fail).
  { destruct (classify (trim (to_lower op))) as [g|] eqn:G; [destruct g|];
      try (unfold parse_mem, parse_imm3, parse_imm2, parse_trap_imm, parse_branch1, parse_branch2, parse_jump, parse_reg3, parse_shift, parse_shiftv, parse_code, parse_reg2, parse_jalr, parse_move, parse_b, parse_li, parse_div, parse_rs, parse_rd, parse_dli, parse_cop0, parse_cop1, parse_fmem; shape; fail).
    - unfold parse_plain. pieces.
    - unfold parse_plain. pieces.
    - unfold parse_word. apply same_mbind; [apply same_immediate_as; auto|intros ?]. pieces.
    - unfold parse_float. rewrite <- same_length, <- SL. destruct (Nat.ltb _ _); [reflexivity|]. cbv zeta. destruct (mem_str _ float3_names); [shape|].
      destruct (mem_str _ float2_names); [shape|]. destruct (starts_with _ _); [shape|].
      apply same_lift, same_fail; [reflexivity|reflexivity|reflexivity|]. cbn. now rewrite Fop. }
  assert (La : operand_like a a') by (inversion Args; assumption). assert (Lr : Forall2 operand_like r r') by (inversion Args; assumption). clear Args.
  assert (Ta : trim a = trim a') by apply La.
  destruct (classify (trim (to_lower op))) as [g|] eqn:G; [destruct g|].
  - unfold parse_mem. rewrite <- SL. next; [pieces|]. next; [|pieces].
    destruct Mem as [Mb Mo]. cbn [nth] in Mb, Mo. apply same_mbind.
    { destruct (str_eqb (trim (to_lower op)) #"cache"); pieces. apply same_lift. apply same_panics. intros p. match goal with |- context [reg_try_from ?x] => destruct (reg_try_from x); discriminate end. }
    intros rt. rewrite <- Mb. pieces.
    destruct (re_find_str OFFSET_RE x), (re_find_str OFFSET_RE y); try (now destruct Mo); pieces. now apply same_immediate_as.
  - unfold parse_imm3. next; [pieces|]. next; [pieces|]. next; [|pieces]. pieces. cbn [nth] in Unsigned. destruct Unsigned as [Us|Us].
    + rewrite <- Us. destruct (str_eqb op #"andi" || str_eqb op #"ori" || str_eqb op #"xori")%bool; pieces.
    + unfold aimm at 1. rewrite Us. fold (aimm e s i16 x0).
      assert (X : same (aimm e s i16 x0) (aimm e' s' (if (str_eqb op' #"andi" || str_eqb op' #"ori" || str_eqb op' #"xori")%bool then u16 else i16) y0)); [|].
      { destruct (str_eqb op' #"andi" || str_eqb op' #"ori" || str_eqb op' #"xori")%bool; [|pieces]. unfold aimm at 1. rewrite <- Us. fold (aimm e s u16 x0). pieces. }
      destruct (str_eqb op #"andi" || str_eqb op #"ori" || str_eqb op #"xori")%bool, (str_eqb op' #"andi" || str_eqb op' #"ori" || str_eqb op' #"xori")%bool; exact X.
  - unfold parse_imm2. next; [pieces|]. next; [|pieces]. pieces.
  - unfold parse_trap_imm. next; [pieces|]. next; [|pieces]. pieces.
  - unfold parse_branch1. next; [pieces|]. next; [|pieces]. pieces. apply same_branch; parts.
  - unfold parse_branch2. next; [pieces|]. next; [pieces|]. next; [|pieces]. pieces. apply same_branch; parts.
  - unfold parse_jump. rewrite <- Ta. next; [|pieces]. pieces.
    apply same_jump; [|rewrite Ta]; (eapply part_trans; [apply trim_part|]); parts.
  - unfold parse_plain. pieces.
  - unfold parse_reg3. next; [pieces|]. next; [pieces|]. next; [|pieces]. pieces.
  - unfold parse_shift. next; [pieces|]. next; [pieces|]. next; [|pieces]. match goal with L : operand_like x0 _ |- _ => rewrite <- (proj1 L) end. pieces.
  - unfold parse_shiftv. next; [pieces|]. next; [pieces|]. next; [|pieces]. pieces.
  - unfold parse_code. next; [|pieces]. apply same_mbind.
    + rewrite <- Ta. destruct (Only eq_refl eq_refl) as [E1 E2]. cbn [hd] in E1, E2. destruct a as [|c a]; destruct a' as [|c' a']; [apply same_refl_ok|discriminate (E1 eq_refl)|discriminate (E2 eq_refl)|]. apply same_aimm.
    + intros c. pieces.
  - unfold parse_reg2. next; [pieces|]. next; [|pieces]. pieces.
  - unfold parse_jalr. next; [pieces|]. next; [|pieces]. pieces.
  - unfold parse_move. next; [pieces|]. next; [|pieces]. pieces.
  - unfold parse_b. next; [|pieces]. pieces. apply same_branch; parts.
  - unfold parse_li. next; [pieces|]. next; [|pieces]. pieces. destruct (_ >? _); pieces. apply same_lift. apply same_fail; try reflexivity. cbn. f_equal. match goal with L : operand_like x _ |- _ => apply L end.
  - unfold parse_div. next; [pieces|]. next; [pieces|]. next; [|pieces]. pieces.
  - unfold parse_rs. rewrite <- SL. next; [|pieces]. apply same_mbind; [destruct (str_eqb (trim (to_lower op)) #"jr"); pieces|]. intros ?. pieces.
  - unfold parse_rd. next; [|pieces]. pieces.
  - unfold parse_dli. next; [pieces|]. next; [|pieces]. pieces.
  - unfold parse_b. next; [|pieces]. pieces. apply same_branch; parts.
  - unfold parse_cop0. next; [pieces|]. next; [|pieces]. pieces.
  - unfold parse_cop1. next; [pieces|]. next; [|pieces]. pieces.
  - unfold parse_plain. pieces.
  - unfold parse_fmem. next; [pieces|]. next; [|pieces]. destruct Mem as [Mb Mo]. cbn [nth] in Mb, Mo. rewrite <- Mb. pieces. apply same_immediate_as.
    destruct (re_find_str OFFSET_RE x), (re_find_str OFFSET_RE y); try (now destruct Mo).
  - unfold parse_word. apply same_mbind; [apply same_immediate_as; auto|intros ?]. pieces.
  - unfold parse_float. rewrite <- same_length, <- SL. destruct (Nat.ltb _ _); [reflexivity|]. cbv zeta. destruct (mem_str _ float3_names); [next; [pieces|]; next; [pieces|]; next; [|pieces]; pieces|].
    destruct (mem_str _ float2_names); [next; [pieces|]; next; [|pieces]; pieces|]. destruct (starts_with _ _).
    + next; [pieces|]. next; [|pieces]. pieces. apply same_lift.
      destruct (nth_error (split_char "." op) 1), (nth_error (split_char "." op') 1); try discriminate; [|reflexivity].
      apply same_cond; [now injection Fcond|now injection Lcond].
    + apply same_lift, same_fail; [reflexivity|reflexivity|reflexivity|]. cbn. now rewrite Fop.
Qed.
End Cong.

Lemma args_alike raw raw' f args : (forall x, In x args -> part x raw /\ part x raw') -> Forall2 (operand_like raw raw' f) args args.
Proof.
  induction args as [|a r IH]; intros P; [apply Forall2_nil|]. apply Forall2_cons; [|apply IH; intros x I; apply P; now right].
  destruct (P a (or_introl eq_refl)). repeat split; auto.
Qed.

(** A whole line. *)
Lemma same_inst e e' s s' raw raw' ln : alike e e' s s' raw raw' -> part ln raw -> part ln raw' ->
  same s s' raw raw' (fun t => t) (parse_inst e s ln) (parse_inst e' s' ln).
Proof.
  intros Ak P P'. unfold parse_inst. destruct (split_once " " ln) as [[op arg]|] eqn:E.
  - destruct ln as [|c ln]; [discriminate|]. rewrite <- app_nil_r in P. apply same_op; try reflexivity; try (left; reflexivity); [exact Ak| |apply mem_like_refl]. apply args_alike.
    intros x I. apply split_char_part in I. apply split_once_decomp in E.
    assert (Q : part x (c :: ln)) by (apply (part_trans x arg); [exact I|]; rewrite E; exists (op ++ #" "), []; rewrite app_nil_r, <- app_assoc; reflexivity).
    rewrite app_nil_r in P. split; eapply part_trans; eauto.
  - destruct ln as [|c ln].
    + apply (same_lift s s' raw raw'). apply (same_fail e e'); auto.
    + apply same_op; try reflexivity; try (left; reflexivity); [exact Ak| |apply mem_like_refl]. apply args_alike. intros x [<-|[]]. split; [exists [], raw|exists [], raw']; reflexivity.
Qed.
Lemma same_refl e s raw : ready e s raw -> alike e e s s raw raw.
Proof. intros R. constructor; auto; reflexivity. Qed.

(** Errors of a line are about that line. *)
Lemma inst_error_line e s raw ln w p : ready e s raw -> part ln raw -> parse_inst e s ln = (w, Err p) -> error_line p = mk_line (p_line s) raw /\ line_error p = true.
Proof.
  intros R P E. assert (X := same_inst e e s s raw raw ln (same_refl e s raw R) P P). unfold same in X. rewrite E in X. destruct X as (_ & X & _ & Y). auto.
Qed.
