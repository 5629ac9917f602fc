(** * LineProofs: every native line parses to an instruction with the ISA encoding (proofs only). *)

From Coq Require Import Lia.
From Verif Require Import Lib SpecIsa StrLemmas NumLemmas DecodeProofs TextProofs OperandProofs NativeProofs SpecText.

(** ** The operands of a line *)

Definition arg_rel (k : okind) (o : operand) (x : str) : Prop :=
  exists t, padded t x /\ operand_spelling k o t /\ no_nl x /\ notation_fits k o.
Fixpoint args_rel (ks : list okind) (os : list operand) (xs : list str) : Prop :=
  match ks, os, xs with
  | [], [], [] => True
  | k :: ks', o :: os', x :: xs' => arg_rel k o x /\ args_rel ks' os' xs'
  | _, _, _ => False
  end.
(** What the parser is given: without operands, one empty argument. *)
Definition line_args (f : format) (os : list operand) (xs : list str) : Prop :=
  match f_ops f with
  | [] => os = [] /\ xs = [[]]
  | ks => args_rel ks os xs
  end.

Lemma split_char_in c s p x : In p (split_char c s) -> In x p -> In x s.
Proof.
  revert p. induction s as [|y s IH]; intros p H I; cbn [split_char] in H.
  - destruct H as [<-|[]]. destruct I.
  - destruct (Ascii.eqb y c).
    + destruct H as [<-|H]; [destruct I|]. right. eauto.
    + destruct (split_char c s) as [|q qs].
      * destruct H as [<-|[]]. destruct I as [<-|[]]. now left.
      * destruct H as [<-|H].
        -- destruct I as [<-|I]; [now left|]. right. eapply IH; [now left|exact I].
        -- right. eapply IH; [right; exact H|exact I].
Qed.
Lemma split_once_decomp c s a b : split_once c s = Some (a, b) -> s = a ++ c :: b.
Proof.
  revert a b. induction s as [|x s IH]; intros a b H; [discriminate|]. cbn [split_once] in H.
  destruct (Ascii.eqb_spec x c) as [->|_]; [injection H as <- <-; reflexivity|].
  destruct (split_once c s) as [[a' b']|]; [|discriminate]. injection H as <- <-. cbn. now rewrite (IH a' b').
Qed.
Lemma starts_with_spec p s : starts_with p s = true -> exists r, s = p ++ r.
Proof.
  revert s. induction p as [|c p IH]; intros s H; [now exists s|]. destruct s as [|d s]; [discriminate|].
  cbn [starts_with] in H. apply andb_true_iff in H as [H1 H2]. destruct (Ascii.eqb_spec c d); [subst|discriminate].
  destruct (IH s H2) as [r ->]. now exists r.
Qed.

Lemma forall2_with {A B} (R : A -> B -> Prop) (Q : B -> Prop) l l' : Forall2 R l l' -> (forall x, In x l' -> Q x) ->
  Forall2 (fun a b => R a b /\ Q b) l l'.
Proof.
  induction 1 as [|a b l l' Hab H IH]; intros N; constructor.
  - split; [exact Hab|]. apply N. now left.
  - apply IH. intros x I. apply N. now right.
Qed.

(** The parser's view of an instruction line with operand texts [ts]. *)
Lemma line_parse e s name ts raw : name_ok name -> Forall operand_ok ts -> no_nl raw -> instruction_line name ts raw ->
  exists op arg xs, same_letters op name
    /\ (ts = [] /\ xs = [[]] \/ ts <> [] /\ Forall2 (fun t x => padded t x /\ no_nl x) ts xs)
    /\ clean raw <> [] /\ ends_with #":" (clean raw) = false
    /\ parse_inst e s (clean raw) = parse_op e s op arg xs
    /\ (starts_with name (trim raw) = true -> op = name).
Proof.
  intros Nm F Nl L. destruct (line_view name ts raw Nm F L) as (op & xs & arg & SL & Ar & Sp & Ne & Ec & V).
  exists op, arg, xs. split; [exact SL|].
  assert (X : exists rest, clean raw = op ++ rest).
  { destruct V as [V|(V & E & _)].
    - apply split_once_decomp in V. rewrite V. eauto.
    - exists []. now rewrite app_nil_r. }
  split; [|split; [exact Ne|split; [exact Ec|split; [now apply view_parse|]]]].
  - destruct Ar as [(E & Ex & _)|[E P]]; [left; auto|right; split; [exact E|]].
    assert (N : forall x, In x xs -> no_nl x).
    { intros x I J. subst xs. apply (split_char_in _ _ _ _ I) in J. apply Nl.
      destruct (clean_infix raw) as (a & b & D). rewrite D. apply in_or_app. right. apply in_or_app. left.
      destruct V as [V|(_ & _ & E')]; [|subst arg; destruct J]. apply split_once_decomp in V. rewrite V.
      apply in_or_app. right. now right. }
    now apply forall2_with.
  - intros SW. destruct X as [rest X]. apply starts_with_spec in SW as [r SW].
    destruct (before_comment_prefix (trim raw)) as [r2 Tr]. fold (clean raw) in Tr. rewrite X in Tr. rewrite SW in Tr.
    assert (Ln := same_letters_length _ _ SL). rewrite <- app_assoc in Tr.
    assert (E : firstn (List.length op) (name ++ r) = firstn (List.length op) (op ++ rest ++ r2)) by (now rewrite Tr).
    rewrite Ln in E at 1. rewrite !firstn_app, !Nat.sub_diag, !firstn_all in E. cbn [firstn] in E. rewrite !app_nil_r in E.
    congruence.
Qed.

Lemma args_of ks os ts xs :
  Forall2 (fun ko t => operand_spelling (fst ko) (snd ko) t) (combine ks os) ts ->
  List.length os = List.length ks -> Forall2 (fun t x => padded t x /\ no_nl x) ts xs ->
  Forall2 notation_fits ks os -> args_rel ks os xs.
Proof.
  revert os ts xs. induction ks as [|k ks IH]; intros os ts xs S L P W; destruct os as [|o os]; try discriminate.
  - inversion S; subst. inversion P. exact I.
  - cbn [combine] in S. inversion S as [|? t ? ts' Hs S']; subst. inversion P as [|? x ? xs' [Hp Hn] P']; subst.
    inversion W; subst. split; [exists t; auto|]. apply (IH os ts' xs'); auto.
Qed.

Lemma native_parse e s f os raw : name_ok (f_name f) -> no_nl raw -> native_line f os raw ->
  Forall2 notation_fits (f_ops f) os ->
  exists op arg xs, same_letters op (f_name f) /\ line_args f os xs
    /\ clean raw <> [] /\ ends_with #":" (clean raw) = false
    /\ parse_inst e s (clean raw) = parse_op e s op arg xs
    /\ (starts_with (f_name f) (trim raw) = true -> op = f_name f).
Proof.
  intros Nm Nl (ts & L & S & Len) W.
  assert (F : Forall operand_ok ts).
  { clear L. induction S; constructor; auto. eapply spelling_ok; eauto. }
  destruct (line_parse e s (f_name f) ts raw Nm F Nl L) as (op & arg & xs & SL & Ar & R).
  exists op, arg, xs. split; [exact SL|]. split; [|exact R]. unfold line_args.
  destruct (f_ops f) as [|k ks] eqn:E.
  - destruct os; [|discriminate]. cbn in S. inversion S; subst. destruct Ar as [[_ ->]|[A _]]; [auto|congruence].
  - destruct Ar as [[-> ->]|[_ A]].
    + destruct os; [discriminate|]. inversion S.
    + eapply args_of; eauto.
Qed.

(** ** Reading off each operand *)

Lemma arg_gpr p o x : arg_rel (Gpr p) o x -> exists n t, o = OReg n /\ padded t x /\ gpr_text t n /\ 0 <= n < 32.
Proof. intros (t & P & S & _ & F & _). inversion S; subst. cbn in F. eauto 8. Qed.
Lemma arg_fpr p o x : arg_rel (Fpr p) o x -> exists n t, o = OReg n /\ padded t x /\ fpr_text t n /\ 0 <= n < 32.
Proof. intros (t & P & S & _ & F & _). inversion S; subst. cbn in F. eauto 8. Qed.
Lemma arg_cop0 p o x : arg_rel (Cop0 p) o x -> exists n t, o = OReg n /\ padded t x /\ cop0_text t n /\ 0 <= n < 32
  /\ reg_num (c0reg_to_reg (c0reg_of_num n)) = n.
Proof.
  intros (t & P & S & _ & F & _). inversion S as [| |p' n s' T| | | | | | |]; subst. cbn in F. exists n, t. repeat split; auto; try lia.
  destruct T as [T|(t' & _ & T)]; destruct T as [n t0 t1 A E|n t1 A]; now apply (c0reg_of_num_num n t1).
Qed.
Lemma arg_uimm o x : arg_rel Uimm o x -> exists v t, o = OInt v /\ padded t x /\ numeral t v /\ 0 <= v < 65536.
Proof. intros (t & P & S & _ & F & _). inversion S; subst. cbn in F. eauto 8. Qed.
Lemma arg_simm o x : arg_rel Simm o x -> exists v t, o = OInt v /\ padded t x /\ signed_numeral t v /\ -32768 <= v < 32768.
Proof. intros (t & P & S & _ & F & _). inversion S; subst. cbn in F. eauto 8. Qed.
Lemma arg_shamt o x : arg_rel Shamt o x -> exists v t, o = OInt v /\ padded t x /\ numeral t v /\ 0 <= v < 32.
Proof. intros (t & P & S & _ & F & _). inversion S; subst. cbn in F. eauto 8. Qed.
Lemma arg_code o x : arg_rel Code20 o x -> exists v t, o = OInt v /\ padded t x /\ numeral t v /\ 0 <= v < 65536.
Proof. intros (t & P & S & _ & F & G). inversion S; subst. cbn in F, G. exists v, t. repeat split; auto; lia. Qed.
Lemma arg_cacheop o x : arg_rel CacheOp o x -> exists v t, o = OInt v /\ padded t x /\ numeral t v /\ 0 <= v < 32.
Proof. intros (t & P & S & _ & F & _). inversion S; subst. cbn in F. eauto 8. Qed.
Lemma arg_target o x : arg_rel Target26 o x -> exists v t, o = OInt v /\ padded t x /\ numeral t v /\ 0 <= v < 2 ^ 32
  /\ v mod 4 = 0 /\ v mod 2 ^ 28 < 2 ^ 26.
Proof.
  intros (t & P & S & _ & F & G). inversion S as [| | | | | | |v s' N| |]; subst. cbn [fits] in F. destruct F as [F1 F2].
  exists v, t. auto 8.
Qed.
Lemma arg_mem o x : arg_rel Mem o x -> exists off b t, o = OMem off b /\ padded t x /\ no_nl x /\ operand_spelling Mem (OMem off b) t
  /\ -32768 <= off < 32768 /\ 0 <= b < 32.
Proof.
  intros (t & P & S & N & F & _). destruct o as [n|v|off b]; try (now inversion S). cbn in F. destruct F. exists off, b, t. auto 10.
Qed.
Lemma arg_branch o x : arg_rel Branch16 o x -> False.
Proof. intros (t & P & S & N & _ & F). exact F. Qed.

(** ** Each format *)

(** The words of a parsed instruction. *)
Definition encodes (i : inst) (ws : list Z) : Prop :=
  forall oc, exists i', @assemble_inst perror oc i = Ok i' /\ inst_bytes i' = ws.
(** Label resolution leaves the instruction alone. *)
Definition settled (i : inst) : Prop :=
  match i with
  | IImm _ _ _ (Short _) _ | IReg _ _ _ _ _ _ | IJump _ (TAddress _) _ => True
  | _ => False
  end.
Lemma encodes_r p rs rt rd sa ws : enc_r p rs rt rd sa = ws -> encodes (IReg p rs rt rd sa []) ws.
Proof. intros E oc. eexists. split; [reflexivity|]. exact E. Qed.
Lemma encodes_i p rs rt imm ws : (forall oc, @enc_i perror oc p rs rt imm = Ok ws) -> encodes (IImm p rs rt imm []) ws.
Proof. intros E oc. cbn [assemble_inst]. rewrite E. eexists. split; reflexivity. Qed.
Lemma encodes_j p t ws : @enc_j perror p t = Ok ws -> encodes (IJump p t []) ws.
Proof. intros E oc. cbn [assemble_inst]. rewrite E. eexists. split; reflexivity. Qed.

(** The side conditions of a line. *)
Definition no_digit_symbols (e : env) : Prop :=
  forall a n, In (a, n) (e_syms e) -> match n with c :: _ => is_digit c = false | [] => True end.
Definition context (e : env) (s : pstate) (raw : str) : Prop :=
  ready e s raw /\ labels_ok s /\ no_digit_symbols e.

(** The warnings of a line with instruction [f]: jumps warn about delay slots. *)
Definition jumps (f : format) : bool :=
  existsb (str_eqb (f_name f)) [ #"j"; #"jal"; #"jr"; #"jalr" ].

Definition op_ok (f : format) : Prop := forall e s raw op arg os xs,
  context e s raw -> same_letters op (f_name f) -> line_args f os xs ->
  (In (f_name f) [ #"andi"; #"ori"; #"xori" ] -> op = f_name f \/ forall v, In (OInt v) os -> v < 32768) ->
  exists i, parse_op e s op arg xs = (if jumps f then delay_warning e s raw else [], Ok i)
            /\ settled i /\ encodes i [word f os].

Lemma args1 k os xs : args_rel [k] os xs -> exists o x, os = [o] /\ xs = [x] /\ arg_rel k o x.
Proof.
  destruct os as [|o [|]], xs as [|x [|]]; cbn; intros H; try tauto; destruct H as [H1 H2]; try tauto. eauto.
Qed.
Lemma args2 k1 k2 os xs : args_rel [k1; k2] os xs ->
  exists o1 o2 x1 x2, os = [o1; o2] /\ xs = [x1; x2] /\ arg_rel k1 o1 x1 /\ arg_rel k2 o2 x2.
Proof.
  destruct os as [|o os], xs as [|x xs]; intros H; try (now destruct H).
  destruct H as [H1 H]. apply args1 in H as (o2 & x2 & -> & -> & H). exists o, o2, x, x2. auto.
Qed.
Lemma args3 k1 k2 k3 os xs : args_rel [k1; k2; k3] os xs ->
  exists o1 o2 o3 x1 x2 x3, os = [o1; o2; o3] /\ xs = [x1; x2; x3] /\ arg_rel k1 o1 x1 /\ arg_rel k2 o2 x2 /\ arg_rel k3 o3 x3.
Proof.
  destruct os as [|o os], xs as [|x xs]; intros H; try (now destruct H).
  destruct H as [H1 H]. apply args2 in H as (o2 & o3 & x2 & x3 & -> & -> & H2 & H3). exists o, o2, o3, x, x2, x3. auto 8.
Qed.

Ltac start := intros FO CL PO J EN e s raw op arg os xs (RD & LB & SY) SL A CC; unfold line_args in A; rewrite FO in A; rewrite J;
  try rewrite <- SL in CL.
Ltac pr SL := first [rewrite (rop_of_letters _ _ SL)|rewrite (iop_of_letters _ _ SL)|rewrite (jop_of_letters _ _ SL)]; assumption.
Ltac regs := unfold Rd, Rs, Rt, Fd, Fs, Ft in *; repeat match goal with
  | H : arg_rel (Gpr _) _ _ |- _ => apply arg_gpr in H; destruct H as (? & ? & -> & ? & ? & ?)
  | H : arg_rel (Fpr _) _ _ |- _ => apply arg_fpr in H; destruct H as (? & ? & -> & ? & ? & ?)
  | H : arg_rel (Cop0 _) _ _ |- _ => apply arg_cop0 in H; destruct H as (? & ? & -> & ? & ? & ? & ?)
  | H : arg_rel Uimm _ _ |- _ => apply arg_uimm in H; destruct H as (? & ? & -> & ? & ? & ?)
  | H : arg_rel Simm _ _ |- _ => apply arg_simm in H; destruct H as (? & ? & -> & ? & ? & ?)
  | H : arg_rel Shamt _ _ |- _ => apply arg_shamt in H; destruct H as (? & ? & -> & ? & ? & ?)
  | H : arg_rel Code20 _ _ |- _ => apply arg_code in H; destruct H as (? & ? & -> & ? & ? & ?)
  | H : arg_rel CacheOp _ _ |- _ => apply arg_cacheop in H; destruct H as (? & ? & -> & ? & ? & ?)
  | H : arg_rel Mem _ _ |- _ => apply arg_mem in H; destruct H as (? & ? & ? & -> & ? & ? & ? & ? & ?)
  end.
Ltac a3 A := apply args3 in A as (? & ? & ? & ? & ? & ? & -> & -> & ? & ? & ?); regs.
Ltac a2 A := apply args2 in A as (? & ? & ? & ? & -> & -> & ? & ?); regs.
Ltac a1 A := apply args1 in A as (? & ? & -> & -> & ?); regs.
Ltac reg := eapply areg_ok; eassumption.
Ltac freg := eapply afreg_ok; eassumption.
Ltac side SL := first [eassumption|reg|freg|eapply unwrap_ok; eassumption|eapply ac0reg_ok; eassumption|eapply parse_sa_number; first [eassumption|lia]
  |eapply aimm_u16; eassumption|eapply aimm_i16; eassumption|eapply check_delay_ok; eassumption|pr SL].

Section Formats.
Variable f : format.
Local Notation name := (f_name f).

Lemma ok_reg3 p : f_ops f = [Rd; Rs; Rt] -> classify (trim (to_lower name)) = Some GReg3 -> rop_of name = Ok p -> jumps f = false ->
  (forall a b c, 0 <= a < 32 -> 0 <= b < 32 -> 0 <= c < 32 -> enc_r p (reg_of_num b) (reg_of_num c) (reg_of_num a) 0 = [word f [OReg a; OReg b; OReg c]]) -> op_ok f.
Proof.
  start. a3 A. eexists. erewrite (g_reg3 e s op arg p) by side SL. split; [reflexivity|]. split; [exact I|]. apply encodes_r. auto.
Qed.
Lemma ok_reg3r p : f_ops f = [Rd; Rt; Rs] -> classify (trim (to_lower name)) = Some GReg3 -> rop_of name = Ok p -> jumps f = false ->
  (forall a b c, 0 <= a < 32 -> 0 <= b < 32 -> 0 <= c < 32 -> enc_r p (reg_of_num b) (reg_of_num c) (reg_of_num a) 0 = [word f [OReg a; OReg b; OReg c]]) -> op_ok f.
Proof.
  start. a3 A. eexists. erewrite (g_reg3 e s op arg p) by side SL. split; [reflexivity|]. split; [exact I|]. apply encodes_r. auto.
Qed.
Lemma ok_shiftv p : f_ops f = [Rd; Rt; Rs] -> classify (trim (to_lower name)) = Some GShiftV -> rop_of name = Ok p -> jumps f = false ->
  (forall a b c, 0 <= a < 32 -> 0 <= b < 32 -> 0 <= c < 32 -> enc_r p (reg_of_num c) (reg_of_num b) (reg_of_num a) 0 = [word f [OReg a; OReg b; OReg c]]) -> op_ok f.
Proof.
  start. a3 A. eexists. erewrite (g_shiftv e s op arg p) by side SL. split; [reflexivity|]. split; [exact I|]. apply encodes_r. auto.
Qed.
Lemma ok_shift p : f_ops f = [Rd; Rt; Shamt] -> classify (trim (to_lower name)) = Some GShift -> rop_of name = Ok p -> jumps f = false ->
  (forall a b c, 0 <= a < 32 -> 0 <= b < 32 -> 0 <= c < 32 -> enc_r p reg_null (reg_of_num b) (reg_of_num a) c = [word f [OReg a; OReg b; OInt c]]) -> op_ok f.
Proof.
  start. a3 A. eexists. erewrite (g_shift e s op arg p) by side SL. split; [reflexivity|]. split; [exact I|]. apply encodes_r. auto.
Qed.
Lemma ok_reg2 p : f_ops f = [Rs; Rt] -> classify (trim (to_lower name)) = Some GReg2 -> rop_of name = Ok p -> jumps f = false ->
  (forall a b, 0 <= a < 32 -> 0 <= b < 32 -> enc_r p (reg_of_num a) (reg_of_num b) reg_null 0 = [word f [OReg a; OReg b]]) -> op_ok f.
Proof.
  start. a2 A. eexists. erewrite (g_reg2 e s op arg p) by side SL. split; [reflexivity|]. split; [exact I|]. apply encodes_r. auto.
Qed.
Lemma ok_div p : f_ops f = [Rs; Rt] -> classify (trim (to_lower name)) = Some GDiv -> rop_of name = Ok p -> jumps f = false ->
  (forall a b, 0 <= a < 32 -> 0 <= b < 32 -> enc_r p (reg_of_num b) reg_null (reg_of_num a) 0 = [word f [OReg a; OReg b]]) -> op_ok f.
Proof.
  start. a2 A. eexists. erewrite (g_div2 e s op arg p) by side SL. split; [reflexivity|]. split; [exact I|]. apply encodes_r. auto.
Qed.
Lemma ok_move_t p : f_ops f = [Rd; Rt] -> classify (trim (to_lower name)) = Some GMove -> rop_of name = Ok p -> jumps f = false ->
  (forall a b, 0 <= a < 32 -> 0 <= b < 32 -> enc_r p (reg_of_num b) reg_null (reg_of_num a) 0 = [word f [OReg a; OReg b]]) -> op_ok f.
Proof.
  start. a2 A. eexists. erewrite (g_move e s op arg p) by side SL. split; [reflexivity|]. split; [exact I|]. apply encodes_r. auto.
Qed.
Lemma ok_move_s p : f_ops f = [Rd; Rs] -> classify (trim (to_lower name)) = Some GMove -> rop_of name = Ok p -> jumps f = false ->
  (forall a b, 0 <= a < 32 -> 0 <= b < 32 -> enc_r p (reg_of_num b) reg_null (reg_of_num a) 0 = [word f [OReg a; OReg b]]) -> op_ok f.
Proof.
  start. a2 A. eexists. erewrite (g_move e s op arg p) by side SL. split; [reflexivity|]. split; [exact I|]. apply encodes_r. auto.
Qed.
Lemma ok_plain p : f_ops f = [] -> (classify (trim (to_lower name)) = Some GPlain \/ classify (trim (to_lower name)) = Some GTlb) -> rop_of name = Ok p -> jumps f = false ->
  enc_r p reg_null reg_null reg_null 0 = [word f []] -> op_ok f.
Proof.
  start. destruct A as [-> ->]. eexists. erewrite (g_plain e s op arg p) by side SL. split; [reflexivity|]. split; [exact I|]. apply encodes_r. auto.
Qed.
Lemma ok_code0 p : f_ops f = [] -> classify (trim (to_lower name)) = Some GCode -> rop_of name = Ok p -> jumps f = false ->
  enc_r p reg_null reg_null reg_null 0 = [word f []] -> op_ok f.
Proof.
  start. destruct A as [-> ->]. eexists. erewrite (g_code0 e s op arg p) by side SL. split; [reflexivity|]. split; [exact I|]. apply encodes_r. auto.
Qed.
Lemma ok_code p : f_ops f = [Code20] -> classify (trim (to_lower name)) = Some GCode -> rop_of name = Ok p -> jumps f = false ->
  (forall v, 0 <= v < 65536 -> enc_r p reg_null reg_null reg_null v = [word f [OInt v]]) -> op_ok f.
Proof.
  start. apply args1 in A as (o & x & -> & -> & A). apply arg_code in A as (v & t & -> & P & N & R). eexists.
  split; [|split; [|apply encodes_r; apply EN; exact R]]; [apply (g_code e s op arg p x v); [eassumption|pr SL| |]|exact I].
  - intros ->. destruct N as [t' v' D|t' v' D].
    + apply digits_nonempty in D. destruct P as (a' & b' & _ & _ & E). destruct a'; [|discriminate]. destruct t'; [congruence|discriminate].
    + destruct P as (a' & b' & _ & _ & E). destruct a'; discriminate.
  - apply (aimm_u16 e s (trim x) t v); auto. destruct (numeral_shape _ _ N) as (radix & ds & S & _).
    destruct (number_operand_ok _ _ _ _ S) as (_ & _ & T1 & T2). rewrite (padded_trim _ _ P T1 T2). apply padded_refl.
Qed.
Lemma ok_rd p : f_ops f = [Rd] -> classify (trim (to_lower name)) = Some GRd -> rop_of name = Ok p -> jumps f = false ->
  (forall a, 0 <= a < 32 -> enc_r p reg_null reg_null (reg_of_num a) 0 = [word f [OReg a]]) -> op_ok f.
Proof.
  start. a1 A. eexists. erewrite (g_rd e s op arg p) by side SL. split; [reflexivity|]. split; [exact I|]. apply encodes_r. auto.
Qed.
Lemma ok_rs p : f_ops f = [Rs] -> (classify (trim (to_lower name)) = Some GRs /\ str_eqb (trim (to_lower name)) #"jr" = false) -> rop_of name = Ok p -> jumps f = false ->
  (forall a, 0 <= a < 32 -> enc_r p (reg_of_num a) reg_null reg_null 0 = [word f [OReg a]]) -> op_ok f.
Proof.
  start. destruct CL as [CL CJ]. a1 A. eexists. erewrite (g_rs e s op arg p) by side SL. split; [reflexivity|]. split; [exact I|]. apply encodes_r. auto.
Qed.
Lemma ok_jr p : f_ops f = [Rs] -> (classify (trim (to_lower name)) = Some GRs /\ str_eqb (trim (to_lower name)) #"jr" = true) -> rop_of name = Ok p -> jumps f = true ->
  (forall a, 0 <= a < 32 -> enc_r p (reg_of_num a) reg_null reg_null 0 = [word f [OReg a]]) -> op_ok f.
Proof.
  start. destruct CL as [CL CJ]. a1 A. eexists. erewrite (g_jr e s op arg (delay_warning e s raw) p) by side SL. split; [reflexivity|]. split; [exact I|]. apply encodes_r. auto.
Qed.
Lemma ok_jalr1 p : f_ops f = [Rs] -> classify (trim (to_lower name)) = Some GJalr -> rop_of name = Ok p -> jumps f = true ->
  (forall a, 0 <= a < 32 -> enc_r p (reg_of_num a) reg_null Ra 0 = [word f [OReg a]]) -> op_ok f.
Proof.
  start. a1 A. eexists. erewrite (g_jalr1 e s op arg (delay_warning e s raw) p) by side SL. split; [reflexivity|]. split; [exact I|]. apply encodes_r. auto.
Qed.
Lemma ok_jalr2 p : f_ops f = [Rd; Rs] -> classify (trim (to_lower name)) = Some GJalr -> rop_of name = Ok p -> jumps f = true ->
  (forall a b, 0 <= a < 32 -> 0 <= b < 32 -> enc_r p (reg_of_num b) reg_null (reg_of_num a) 0 = [word f [OReg a; OReg b]]) -> op_ok f.
Proof.
  start. a2 A. eexists. erewrite (g_jalr2 e s op arg (delay_warning e s raw) p) by side SL. split; [reflexivity|]. split; [exact I|]. apply encodes_r. auto.
Qed.
Lemma ok_cop0 p : f_ops f = [Rt; Cop0 11] -> classify (trim (to_lower name)) = Some GCop0 -> rop_of name = Ok p -> jumps f = false ->
  (forall a b rd, 0 <= a < 32 -> 0 <= b < 32 -> reg_num rd = b -> enc_r p reg_null (reg_of_num a) rd 0 = [word f [OReg a; OReg b]]) -> op_ok f.
Proof.
  start. a2 A. eexists. erewrite (g_cop0 e s op arg p) by side SL. split; [reflexivity|]. split; [exact I|]. apply encodes_r. auto.
Qed.
Lemma ok_cop1 p : f_ops f = [Rt; Fs] -> classify (trim (to_lower name)) = Some GCop1 -> rop_of name = Ok p -> jumps f = false ->
  (forall a b rd, 0 <= a < 32 -> 0 <= b < 32 -> reg_num rd = b -> enc_r p reg_null (reg_of_num a) rd 0 = [word f [OReg a; OReg b]]) -> op_ok f.
Proof.
  start. a2 A. eexists. erewrite (g_cop1 e s op arg p) by side SL. split; [reflexivity|]. split; [exact I|]. apply encodes_r. apply EN; auto using freg_of_num_num.
Qed.
Lemma ok_imm3 p : f_ops f = [Rt; Rs; Simm] -> (classify (trim (to_lower name)) = Some GImm3 /\ forall n, In n [#"andi"; #"ori"; #"xori"] -> str_eqb (to_lower n) (to_lower name) = false) -> iop_of name = Ok p -> jumps f = false ->
  (forall a b v, 0 <= a < 32 -> 0 <= b < 32 -> -32768 <= v < 32768 -> forall oc, @enc_i perror oc p (reg_of_num b) (reg_of_num a) (Short (v mod 65536)) = Ok [word f [OReg a; OReg b; OInt v]]) -> op_ok f.
Proof.
  start. destruct CL as [CL CN].
  assert (Nn : str_eqb op #"andi" || str_eqb op #"ori" || str_eqb op #"xori" = false).
  { repeat (apply orb_false_iff; split); apply str_eqb_neq; intros ->;
    match type of SL with same_letters ?n _ => assert (X := CN n ltac:(cbn; tauto)); apply str_eqb_neq in X; apply X; reflexivity end. }
  a3 A. eexists. erewrite (g_imm3s e s op arg p) by side SL. split; [reflexivity|]. split; [exact I|]. apply encodes_i. intros oc. auto.
Qed.
Lemma ok_imm3u p : f_ops f = [Rt; Rs; Uimm] -> (classify (trim (to_lower name)) = Some GImm3 /\ In name [#"andi"; #"ori"; #"xori"]) -> iop_of name = Ok p -> jumps f = false ->
  (forall a b v, 0 <= a < 32 -> 0 <= b < 32 -> 0 <= v < 65536 -> forall oc, @enc_i perror oc p (reg_of_num b) (reg_of_num a) (Short v) = Ok [word f [OReg a; OReg b; OInt v]]) -> op_ok f.
Proof.
  start. destruct CL as [CL CN]. a3 A. eexists.
  match goal with _ : numeral _ ?v |- _ => rename v into vv end.
  destruct (str_eqb op #"andi" || str_eqb op #"ori" || str_eqb op #"xori") eqn:B.
  - erewrite (g_imm3u e s op arg p) by side SL. split; [reflexivity|]. split; [exact I|]. apply encodes_i. intros oc. auto.
  - assert (V : vv < 32768).
    { destruct (CC CN) as [->|V]; [|apply V; cbn; tauto]. exfalso.
      apply orb_false_iff in B as [B B3]. apply orb_false_iff in B as [B1 B2]. cbn [In] in CN.
      destruct CN as [E|[E|[E|[]]]]; rewrite <- E in *; rewrite str_eqb_refl in *; discriminate. }
    erewrite (g_imm3s e s op arg p) by (first [side SL|eapply aimm_i16; [eassumption|eassumption|constructor; eassumption|lia]]).
    rewrite Z.mod_small by lia. split; [reflexivity|]. split; [exact I|]. apply encodes_i. intros oc. auto.
Qed.
Lemma ok_imm2 p : f_ops f = [Rt; Uimm] -> classify (trim (to_lower name)) = Some GImm2 -> iop_of name = Ok p -> jumps f = false ->
  (forall a v, 0 <= a < 32 -> 0 <= v < 65536 -> forall oc, @enc_i perror oc p reg_null (reg_of_num a) (Short v) = Ok [word f [OReg a; OInt v]]) -> op_ok f.
Proof.
  start. a2 A. eexists. erewrite (g_imm2 e s op arg p) by side SL. split; [reflexivity|]. split; [exact I|]. apply encodes_i. intros oc. auto.
Qed.
Lemma ok_trapi p : f_ops f = [Rs; Simm] -> classify (trim (to_lower name)) = Some GTrapImm -> iop_of name = Ok p -> jumps f = false ->
  (forall a v, 0 <= a < 32 -> -32768 <= v < 32768 -> forall oc, @enc_i perror oc p (reg_of_num a) reg_null (Short (v mod 65536)) = Ok [word f [OReg a; OInt v]]) -> op_ok f.
Proof.
  start. a2 A. eexists. erewrite (g_trapi e s op arg p) by side SL. split; [reflexivity|]. split; [exact I|]. apply encodes_i. intros oc. auto.
Qed.
Lemma ok_mem p : f_ops f = [Rt; Mem] -> (classify (trim (to_lower name)) = Some GMem /\ str_eqb (trim (to_lower name)) #"cache" = false) -> iop_of name = Ok p -> jumps f = false ->
  (forall a b off, 0 <= a < 32 -> 0 <= b < 32 -> -32768 <= off < 32768 -> forall oc, @enc_i perror oc p (reg_of_num b) (reg_of_num a) (Short (off mod 65536)) = Ok [word f [OReg a; OMem off b]]) -> op_ok f.
Proof.
  start. destruct CL as [CL CJ]. a2 A. eexists. erewrite (g_mem e s op arg p) by side SL. split; [reflexivity|]. split; [exact I|]. apply encodes_i. intros oc. auto.
Qed.
Lemma ok_cache p : f_ops f = [CacheOp; Mem] -> (classify (trim (to_lower name)) = Some GMem /\ str_eqb (trim (to_lower name)) #"cache" = true) -> iop_of name = Ok p -> jumps f = false ->
  (forall a b off, 0 <= a < 32 -> 0 <= b < 32 -> -32768 <= off < 32768 -> forall oc, @enc_i perror oc p (reg_of_num b) (reg_of_num a) (Short (off mod 65536)) = Ok [word f [OInt a; OMem off b]]) -> op_ok f.
Proof.
  start. destruct CL as [CL CJ]. a2 A. eexists. erewrite (g_cache e s op arg p) by side SL. split; [reflexivity|]. split; [exact I|]. apply encodes_i. intros oc. auto.
Qed.
Lemma ok_fmem p : f_ops f = [Ft; Mem] -> classify (trim (to_lower name)) = Some GFMem -> iop_of name = Ok p -> jumps f = false ->
  (forall a b off rt, 0 <= a < 32 -> 0 <= b < 32 -> -32768 <= off < 32768 -> reg_num rt = a -> forall oc, @enc_i perror oc p (reg_of_num b) rt (Short (off mod 65536)) = Ok [word f [OReg a; OMem off b]]) -> op_ok f.
Proof.
  start. a2 A. eexists. erewrite (g_fmem e s op arg p) by side SL. split; [reflexivity|]. split; [exact I|]. apply encodes_i. intros oc. auto using freg_of_num_num.
Qed.
Lemma ok_float3 p : f_ops f = [Fd; Fs; Ft] -> (classify (trim (to_lower name)) = None /\ (2 <= List.length name)%nat /\ mem_str (firstn (List.length name - 2) (to_lower name)) float3_names = true) -> rop_of name = Ok p -> jumps f = false ->
  (forall a b c rd rs rt, 0 <= a < 32 -> 0 <= b < 32 -> 0 <= c < 32 -> reg_num rd = a -> reg_num rs = b -> reg_num rt = c -> enc_r p rs rt rd 0 = [word f [OReg a; OReg b; OReg c]]) -> op_ok f.
Proof.
  start. destruct CL as (CL & CN & CF). rewrite <- (same_letters_length _ _ SL) in CN, CF. a3 A. eexists. erewrite (g_float3 e s op arg p) by side SL. split; [reflexivity|]. split; [exact I|]. apply encodes_r. auto using freg_of_num_num.
Qed.
Lemma ok_float2 p : f_ops f = [Fd; Fs] -> (classify (trim (to_lower name)) = None /\ (2 <= List.length name)%nat /\ mem_str (firstn (List.length name - 2) (to_lower name)) float3_names = false /\ mem_str (firstn (List.length name - 2) (to_lower name)) float2_names = true) -> rop_of name = Ok p -> jumps f = false ->
  (forall a b rd rs, 0 <= a < 32 -> 0 <= b < 32 -> reg_num rd = a -> reg_num rs = b -> enc_r p rs reg_null rd 0 = [word f [OReg a; OReg b]]) -> op_ok f.
Proof.
  start. destruct CL as (CL & CN & CF & CF2). rewrite <- (same_letters_length _ _ SL) in CN, CF, CF2. a2 A. eexists. erewrite (g_float2 e s op arg p) by side SL. split; [reflexivity|]. split; [exact I|]. apply encodes_r. auto using freg_of_num_num.
Qed.

Lemma jump_field a : 0 <= a < 2 ^ 32 -> a mod 2 ^ 28 < 2 ^ 26 -> shr (Z.land a 67108863) 2 = (a / 4) mod 2 ^ 26.
Proof.
  intros R M. unfold shr. rewrite Z.shiftr_div_pow2 by lia. change 67108863 with (Z.ones 26). rewrite Z.land_ones by lia.
  change (2 ^ 2) with 4.
  assert (E : a mod 2 ^ 26 = a mod 2 ^ 28).
  { rewrite (Z.div_mod a (2 ^ 28)) at 1 by lia. change (2 ^ 28) with (4 * 2 ^ 26) at 1.
    replace (4 * 2 ^ 26 * (a / 2 ^ 28) + a mod 2 ^ 28) with (a mod 2 ^ 28 + (4 * (a / 2 ^ 28)) * 2 ^ 26) by lia.
    rewrite Z.mod_add by lia. apply Z.mod_small. assert (X := Z.mod_pos_bound a (2 ^ 28)). lia. }
  rewrite E. clear M E. change (2 ^ 28) with (4 * 2 ^ 26). rewrite Z.rem_mul_r by lia.
  rewrite (Z.mul_comm 4 ((a / 4) mod 2 ^ 26)), Z.div_add by lia. rewrite Z.div_small; [reflexivity|].
  apply Z.mod_pos_bound. lia.
Qed.
Lemma ok_jump p : f_ops f = [Target26] -> classify (trim (to_lower name)) = Some GJump -> jop_of name = Ok p -> jumps f = true ->
  (forall a, 0 <= a < 2 ^ 32 -> a mod 2 ^ 28 < 2 ^ 26 -> @enc_j perror p (TAddress a) = Ok [word f [OInt a]]) -> op_ok f.
Proof.
  start. apply args1 in A as (o & x & -> & -> & A). apply arg_target in A as (v & t & -> & P & N & R & R4 & R28).
  exists (IJump p (TAddress v) []). split; [|split; [exact I|apply encodes_j; auto]].
  rewrite <- (app_nil_r (delay_warning e s raw)).
  destruct (numeral_shape _ _ N) as (radix & ds & S & _).
  destruct (number_operand_ok _ _ _ _ S) as (_ & _ & T1 & T2).
  apply (g_jump e s op arg (delay_warning e s raw) [] p x t (TAddress v)); [assumption|pr SL|now apply check_delay_ok| | |].
  - now apply padded_trim.
  - apply parse_target_number; auto. intros a Ia. assert (Y := SY a t Ia). destruct (numeral_head t v N) as (c & r & -> & D).
    congruence.
  - unfold check_jump. cbn [target_is_label target_as_u32]. rewrite mbind_ok. rewrite R4. reflexivity.
Qed.

Lemma split_char_lower s : map to_lower (split_char "." s) = split_char "." (to_lower s).
Proof.
  induction s as [|c s IH]; [reflexivity|]. cbn [split_char to_lower map].
  assert (E : Ascii.eqb (lower_char c) "." = Ascii.eqb c ".") by (destruct c as [[] [] [] [] [] [] [] []]; reflexivity).
  change (map lower_char s) with (to_lower s). rewrite E.
  destruct (Ascii.eqb c "."); cbn [map].
  - now rewrite IH.
  - rewrite <- IH. destruct (split_char "." s); reflexivity.
Qed.

Lemma ok_floatc p c r cond v : f_ops f = [Fs; Ft] ->
  (classify (trim (to_lower name)) = None /\ (2 <= List.length name)%nat
   /\ mem_str (firstn (List.length name - 2) (to_lower name)) float3_names = false
   /\ mem_str (firstn (List.length name - 2) (to_lower name)) float2_names = false
   /\ starts_with #"c." (firstn (List.length name - 2) (to_lower name)) = true
   /\ rev (to_lower name) = c :: r
   /\ nth_error (split_char "." (to_lower name)) 1 = Some cond
   /\ assoc cond fcond_table = Some v) ->
  rop_of (#"c." ++ [c]) = Ok p -> jumps f = false ->
  (forall a b rs rt, 0 <= a < 32 -> 0 <= b < 32 -> reg_num rs = a -> reg_num rt = b -> enc_r p rs rt reg_null v = [word f [OReg a; OReg b]]) -> op_ok f.
Proof.
  start. destruct CL as (CL & CN & CF & CF2 & CS & CR & CP & CV).
  rewrite <- (same_letters_length _ _ SL) in CN, CF, CF2, CS. a2 A.
  rewrite <- split_char_lower in CP.
  destruct (nth_error (split_char "." op) 1) as [q|] eqn:Q; [|rewrite nth_error_map, Q in CP; discriminate].
  rewrite nth_error_map, Q in CP. cbn [option_map] in CP. injection CP as CP.
  assert (RP : rop_of (#"C." ++ match rev op with c :: _ => [c] | [] => [] end) = Ok p).
  { rewrite <- PO. apply rop_of_letters. unfold to_lower in CR. rewrite <- map_rev in CR. destruct (rev op) as [|d r']; [discriminate|].
    cbn [map] in CR. injection CR as CR _. unfold same_letters. subst c.
    assert (X : lower_char (lower_char d) = lower_char d) by (destruct d as [[] [] [] [] [] [] [] []]; reflexivity).
    cbn [app lit]. change (to_lower #"C.") with #"c.". unfold to_lower. rewrite !map_app. cbn [map]. rewrite X. reflexivity. }
  eexists. erewrite (g_floatc e s op arg p _ _ _ _ q v) by (first [eassumption|freg|rewrite CP; eassumption]).
  split; [reflexivity|]. split; [exact I|]. apply encodes_r. auto using freg_of_num_num.
Qed.
End Formats.

(** ** Every format of the tables *)

Definition no_branch (f : format) : bool :=
  forallb (fun k => match k with Branch16 => false | _ => true end) (f_ops f).

Ltac enc := intros;
  cbn [enc_r enc_i enc_j imm_as_u32 target_as_u32 obind];
  cbv [word key_word ops_word sumZ map combine fold_right fst snd place f_key f_ops op6 rs5 rt5 rd5 funct6 co1 Rd Rs Rt Fd Fs Ft
       special regimm normal tlb cop bcop float];
  rewrite ?reg_of_num_num by lia; change (reg_num reg_null) with 0; change (reg_num Ra) with 31; rewrite ?jump_field by assumption; subst;
  repeat match goal with H : 0 <= reg_num _ < 32 |- _ => revert H end;
  repeat match goal with
  | |- context [reg_num ?r] => let v := fresh "v" in generalize (reg_num r); intros v
  | |- context [?x mod 65536] => let v := fresh "v" in let B := fresh "B" in
      assert (B := Z.mod_pos_bound x 65536 ltac:(lia)); revert B; generalize (x mod 65536); intros v B
  | |- context [?x mod 2 ^ 26] => let v := fresh "v" in let B := fresh "B" in
      assert (B := Z.mod_pos_bound x (2 ^ 26) ltac:(lia)); revert B; generalize (x mod 2 ^ 26); intros v B
  end; intros;
  first [apply (f_equal (fun z => Ok [z])) | apply (f_equal (fun z => [z]))];
  lor_sum; lia.

Ltac table1 f :=
  let g := eval vm_compute in (classify (trim (to_lower (f_name f)))) in
  let k := eval vm_compute in (f_ops f) in
  let side := first [reflexivity | vm_compute; reflexivity | repeat split; vm_compute; first [reflexivity | tauto | lia | intros; intuition (subst; reflexivity)]] in
  let use L := (eapply L; [reflexivity|side|vm_compute; reflexivity|vm_compute; reflexivity|enc]) in
  lazymatch g with
  | Some GReg3 => lazymatch k with [Gpr 11; Gpr 21; _] => use ok_reg3 | _ => use ok_reg3r end
  | Some GShiftV => use ok_shiftv
  | Some GShift => use ok_shift
  | Some GReg2 => use ok_reg2
  | Some GDiv => use ok_div
  | Some GMove => lazymatch k with [_; Gpr 16] => use ok_move_t | _ => use ok_move_s end
  | Some GPlain => eapply ok_plain; [reflexivity|left; vm_compute; reflexivity|vm_compute; reflexivity|vm_compute; reflexivity|enc]
  | Some GTlb => eapply ok_plain; [reflexivity|right; vm_compute; reflexivity|vm_compute; reflexivity|vm_compute; reflexivity|enc]
  | Some GCode => lazymatch k with [] => use ok_code0 | _ => use ok_code end
  | Some GRd => use ok_rd
  | Some GRs => first [use ok_rs | use ok_jr]
  | Some GJalr => lazymatch k with [_] => use ok_jalr1 | _ => use ok_jalr2 end
  | Some GCop0 => use ok_cop0
  | Some GCop1 => use ok_cop1
  | Some GImm3 => lazymatch k with [_; _; Simm] => use ok_imm3 | _ => use ok_imm3u end
  | Some GImm2 => use ok_imm2
  | Some GTrapImm => use ok_trapi
  | Some GMem => lazymatch k with [CacheOp; _] => use ok_cache | _ => use ok_mem end
  | Some GFMem => use ok_fmem
  | Some GJump => use ok_jump
  | None => lazymatch k with [_; _; _] => use ok_float3 | [Fpr 6; _] => use ok_float2 | _ => use ok_floatc end
  end.
Ltac table := repeat (apply Forall_cons; [intros NB;
    match goal with |- op_ok ?f =>
      let b := eval vm_compute in (no_branch f) in
      lazymatch b with
      | false => exfalso; vm_compute in NB; discriminate NB
      | true => clear NB; tryif table1 f then idtac else (idtac f; fail)
      end
    end|]); apply Forall_nil.

Local Notation covered l := (Forall (fun f => no_branch f = true -> op_ok f) l).
Lemma special_ok : covered special_table.
Proof. unfold special_table. table. Qed.
Lemma regimm_ok : covered regimm_table.
Proof. unfold regimm_table. table. Qed.
Lemma opcode_ok : covered opcode_table.
Proof. unfold opcode_table. table. Qed.
Lemma cop0_ok : covered cop0_table.
Proof. unfold cop0_table. table. Qed.
Lemma cop1_ok : covered cop1_table.
Proof. unfold cop1_table. table. Qed.
Lemma fpu_s_ok : covered (fpu_table 16 "s").
Proof. unfold fpu_table. cbv zeta. table. Qed.
Lemma fpu_d_ok : covered (fpu_table 17 "d").
Proof. unfold fpu_table. cbv zeta. table. Qed.
Lemma compare_s_ok : covered (compare_table 16 "s").
Proof. unfold compare_table, conditions. cbn [map fst snd]. table. Qed.
Lemma compare_d_ok : covered (compare_table 17 "d").
Proof. unfold compare_table, conditions. cbn [map fst snd]. table. Qed.
Lemma convert_ok : covered convert_table.
Proof. unfold convert_table. table. Qed.
Lemma idioms_ok : covered idioms.
Proof. unfold idioms. table. Qed.
Lemma forall_app2 {A} (P : A -> Prop) l l' : Forall P l -> Forall P l' -> Forall P (l ++ l').
Proof. intros. apply Forall_app. auto. Qed.
Lemma isa_ok : covered (isa ++ idioms).
Proof.
  unfold isa. repeat apply forall_app2;
  first [exact special_ok|exact regimm_ok|exact opcode_ok|exact cop0_ok|exact cop1_ok|exact fpu_s_ok|exact fpu_d_ok|exact compare_s_ok|exact compare_d_ok|exact convert_ok|exact idioms_ok].
Qed.

(** The names of the tables are mnemonics. *)
Definition name_okb (n : str) : bool :=
  match n with [] => false | _ => forallb (fun c => negb (special_char c)) n && forallb (fun c => negb (is_ws c)) n end.
Lemma name_okb_ok n : name_okb n = true -> name_ok n.
Proof.
  unfold name_okb. destruct n; [discriminate|]. intros H. apply andb_true_iff in H as [H1 H2].
  repeat split; [discriminate|exact H1|exact H2].
Qed.
Lemma names_ok : forallb (fun f => name_okb (f_name f)) (isa ++ idioms) = true.
Proof. vm_compute. reflexivity. Qed.
Lemma table_name f : In f (isa ++ idioms) -> name_ok (f_name f).
Proof. intros I. apply name_okb_ok. exact (proj1 (forallb_forall _ _) names_ok f I). Qed.

Lemma fits_no_branch ks os : Forall2 notation_fits ks os ->
  forallb (fun k => match k with Branch16 => false | _ => true end) ks = true.
Proof.
  induction 1 as [|k o ks os H _ IH]; [reflexivity|]. cbn [forallb]. apply andb_true_iff. split; [|exact IH].
  destruct k; try reflexivity. exfalso. now destruct H.
Qed.

(** A line with a native instruction is parsed to an instruction that encodes to its word. *)
Theorem native_line_parse e s f os raw : In f (isa ++ idioms) -> native_line f os raw -> no_nl raw ->
  Forall2 notation_fits (f_ops f) os -> case_condition f os raw -> context e s raw ->
  clean raw <> [] /\ ends_with #":" (clean raw) = false /\
  exists i, parse_inst e s (clean raw) = (if jumps f then delay_warning e s raw else [], Ok i)
            /\ settled i /\ encodes i [word f os].
Proof.
  intros If L N W C X.
  destruct (native_parse e s f os raw (table_name f If) N L W) as (op & arg & xs & SL & A & Ne & Ec & P & Lc).
  split; [exact Ne|]. split; [exact Ec|]. rewrite P.
  assert (K := proj1 (Forall_forall _ _) isa_ok f If (fits_no_branch _ _ W)).
  apply (K e s raw op arg os xs X SL A). intros Im. destruct (C Im) as [H|H]; [left; auto|right; exact H].
Qed.
