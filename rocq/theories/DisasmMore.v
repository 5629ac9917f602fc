(** * DisasmMore: the disassembly properties, proofs (statements are in PropsDisasm). *)

From Coq Require Import Lia.
From Verif Require Import Lib SpecIsa SpecListing StrLemmas NumLemmas DecodeProofs DisasmProofs ListingProofs InjProofs.

Local Notation debug_at base := (set_debug (set_base base m_new)).

Lemma debug_line_plain base w : debug_line (debug_at base) w = debug_inst (disasm_word base w).
Proof.
  unfold debug_line. f_equal. cbn [m_base set_debug set_base].
  destruct (disasm_word base w); try reflexivity. cbn [match_sym]. destruct tgt; reflexivity.
Qed.

Lemma forall2_in {A B} (P Q : A -> B -> Prop) l k : (forall x y, In x l -> P x y -> Q x y) ->
  Forall2 P l k -> Forall2 Q l k.
Proof.
  intros H F. induction F as [|x y l k Pxy F IH]; [constructor|]. constructor.
  - apply H; [now left|exact Pxy].
  - apply IH. intros a b I. apply H. now right.
Qed.

Lemma C02_partial_proof : forall oc base ws, is_word base -> Forall is_word ws ->
  Forall (fun w => ~ reserved_tlb w /\ ~ largest_immediate w) ws ->
  exists ls, disassemble oc (debug_at base) ws = Ok ls
             /\ Forall2 (fun w l => forall t, read_text base w = Some t -> l = t) ws ls.
Proof.
  intros oc base ws Hb Hw Hn.
  destruct (debug_total oc (debug_at base) ws eq_refl Hb Hw) as (ls & H & _).
  exists ls. split; [exact H|]. rewrite disassemble_debug in H by reflexivity.
  apply map_outcome_forall2 in H. eapply forall2_in; [|exact H].
  intros w l I E t T. rewrite Forall_forall in Hw, Hn. destruct (Hn _ I) as [N1 N2].
  cbv beta in E. rewrite debug_line_plain in E. rewrite (line_is_text base w t) in E; auto. congruence.
Qed.

Lemma C02_refuted_proof : forall oc, ~ (forall base ws, is_word base -> Forall is_word ws ->
  exists ls, disassemble oc (debug_at base) ws = Ok ls
             /\ Forall2 (fun w l => read_text base w = Some l) ws ls).
Proof.
  intros oc H. destruct (H 0 [0x20007fff]) as (ls & E & F).
  - split; lia.
  - repeat constructor; lia.
  - assert (D : disassemble oc (debug_at 0) [0x20007fff] = Ok [#"addi $zero, $zero, -0x7fff"])
      by (destruct oc; vm_compute; reflexivity).
    rewrite D in E. injection E as <-. inversion F; subst. vm_compute in H3. discriminate.
Qed.

Lemma C02_case_proof : forall w,
  In w [0x27bdffe0; 0xafbf001c; 0x0c00a3f4; 0x46062082; 0x00000000; 0x7fffffff] ->
  is_word w /\ ~ reserved_tlb w /\ ~ largest_immediate w.
Proof.
  intros w I. cbn in I.
  repeat (destruct I as [<-|I]; [split; [split; lia|]; split;
    [intros (_ & A & _); vm_compute in A; discriminate
    |intros (f & _ & _ & A); vm_compute in A; discriminate]|]). destruct I.
Qed.

Lemma C06_refuted_proof : forall oc, ~ (forall m ws, is_word (m_base m) -> Forall is_word ws ->
  exists ls, disassemble oc m ws = Ok ls).
Proof.
  intros oc H. destruct (H (set_symbols [(16, #"f")] m_new) [0x08000004]) as (ls & E).
  - split; cbn; lia.
  - repeat constructor; lia.
  - destruct oc; vm_compute in E; discriminate.
Qed.
Lemma C06_refuted_overflow_proof : exists m ws, is_word (m_base m) /\ Forall is_word ws /\ m_syms m = []
  /\ exists p, disassemble true m ws = Panic p.
Proof.
  exists (set_base 0xfffffffc m_new), [0x03e00008; 0; 0x03e00008]. split; [split; cbn; lia|].
  split; [repeat constructor; lia|]. split; [reflexivity|]. eexists. vm_compute. reflexivity.
Qed.
Lemma no_jump_forall m ws :
  (forall w, In w ws -> field w 26 6 = 2 -> forall n, ~ In (jump_address (m_base m) w, n) (m_syms m)) ->
  Forall (fun w => ~ jumps_to_symbol m w) ws.
Proof. intros H. apply Forall_forall. intros w I [E [n J]]. exact (H w I E n J). Qed.
Lemma C06_partial_proof : forall oc m ws, is_word (m_base m) -> Forall is_word ws ->
  m_base m + 4 * Z.of_nat (List.length ws) <= 2 ^ 32 ->
  (forall w, In w ws -> field w 26 6 = 2 -> forall n, ~ In (jump_address (m_base m) w, n) (m_syms m)) ->
  exists ls, disassemble oc m ws = Ok ls.
Proof. intros oc m ws B W L J. apply default_total_checked; auto. now apply no_jump_forall. Qed.
Lemma C06_partial_release_proof : forall m ws, is_word (m_base m) -> Forall is_word ws ->
  (forall w, In w ws -> field w 26 6 = 2 -> forall n, ~ In (jump_address (m_base m) w, n) (m_syms m)) ->
  exists ls, disassemble false m ws = Ok ls.
Proof. intros m ws B W J. apply default_total_release; auto. now apply no_jump_forall. Qed.

Lemma C08_concat_proof : forall oc m ws1 ws2 ls1 ls2, m_debug m = true ->
  disassemble oc m ws1 = Ok ls1 -> disassemble oc m ws2 = Ok ls2 ->
  disassemble oc m (ws1 ++ ws2) = Ok (ls1 ++ ls2).
Proof.
  intros oc m ws1 ws2 ls1 ls2 D. rewrite !disassemble_debug by exact D. apply map_outcome_app.
Qed.
Lemma map_outcome_ext {E A B} (f g : A -> outcome E B) l :
  (forall x, In x l -> f x = g x) -> map_outcome f l = map_outcome g l.
Proof.
  induction l as [|x l IH]; intros H; [reflexivity|]. cbn [map_outcome].
  rewrite (H x) by (now left). rewrite IH; [reflexivity|]. intros y I. apply H. now right.
Qed.
Lemma C08_segment_proof : forall oc m b1 b2 ws, m_debug m = true ->
  is_word b1 -> is_word b2 -> Forall is_word ws -> b1 / 2 ^ 28 = b2 / 2 ^ 28 ->
  disassemble oc (set_base b1 m) ws = disassemble oc (set_base b2 m) ws.
Proof.
  intros oc m b1 b2 ws D B1 B2 W E. rewrite !disassemble_debug by exact D.
  apply map_outcome_ext. intros w I. rewrite Forall_forall in W. unfold debug_line.
  cbn [m_base set_base]. rewrite (disasm_word_segment b1 b2 w) by auto. reflexivity.
Qed.

Lemma C09_refuted_proof : forall oc, ~ (forall base ws1 ws2 ls, is_word base -> Forall is_word ws1 -> Forall is_word ws2 ->
  disassemble oc (debug_at base) ws1 = Ok ls -> disassemble oc (debug_at base) ws2 = Ok ls -> ws1 = ws2).
Proof.
  intros oc H. assert (E : [0x0000000f] = [0x0000004f]).
  { apply (H 0 _ _ [#"sync"]); try (split; lia); try (repeat constructor; lia);
      destruct oc; vm_compute; reflexivity. }
  discriminate.
Qed.
Definition canonicalb (pc w : Z) : bool :=
  match read_word w with Some f => w =? word f (map (extract pc w) (f_ops f)) | None => true end.
Lemma canonical_decide pc w : canonicalb pc w = true -> canonical pc w.
Proof. unfold canonicalb. intros A f E. rewrite E in A. now apply Z.eqb_eq. Qed.
Lemma C09_refuted_canonical_proof : forall oc, exists w1 w2 l, w1 <> w2 /\ is_word w1 /\ is_word w2
  /\ canonical 0 w1 /\ canonical 0 w2
  /\ disassemble oc (debug_at 0) [w1] = Ok [l] /\ disassemble oc (debug_at 0) [w2] = Ok [l].
Proof.
  intros oc. exists 0x20007fff, 0x20008001, #"addi $zero, $zero, -0x7fff".
  split; [discriminate|]. split; [split; lia|]. split; [split; lia|].
  split; [apply canonical_decide; vm_compute; reflexivity|].
  split; [apply canonical_decide; vm_compute; reflexivity|].
  split; destruct oc; vm_compute; reflexivity.
Qed.
Lemma C09_partial_proof : forall oc base ws1 ws2 ls, is_word base ->
  Forall is_word ws1 -> Forall is_word ws2 ->
  (forall w, In w (ws1 ++ ws2) -> canonical base w /\ ~ reserved_tlb w /\ ~ largest_immediate w
                                  /\ read_text base w <> None) ->
  disassemble oc (debug_at base) ws1 = Ok ls -> disassemble oc (debug_at base) ws2 = Ok ls -> ws1 = ws2.
Proof.
  intros oc base ws1 ws2 ls B W1 W2 H. rewrite !disassemble_debug by reflexivity.
  rewrite !map_outcome_forall2. intros F1 F2. revert ws2 W2 H F2.
  induction F1 as [|w l ws1 ls E F IH]; intros ws2 W2 H F2; inversion F2 as [|x y xs ys Hxy Hr]; subst; [reflexivity|].
  apply Forall_cons_iff in W1 as [Wx W1]. apply Forall_cons_iff in W2 as [Wy W2].
  f_equal.
  - destruct (H w) as (C & N1 & N2 & T); [now left|].
    destruct (H x) as (C' & N1' & N2' & T'); [apply in_or_app; right; now left|].
    destruct (read_text base w) as [t|] eqn:R; [|congruence].
    destruct (read_text base x) as [t'|] eqn:R'; [|congruence].
    cbv beta in E, Hxy. rewrite debug_line_plain in E, Hxy. rewrite (line_is_text base w t) in E by auto.
    rewrite (line_is_text base x t') in Hxy by auto.
    assert (t = t') by congruence. subst t'. exact (read_text_inj base w x t B Wx Wy C C' R R').
  - apply IH; auto. intros z I. apply H. apply in_app_or in I as [I|I].
    + right. apply in_or_app. now left.
    + right. apply in_or_app. right. now right.
Qed.
Lemma C09_case_proof : forall w, In w [0x27bdffe0; 0xafbf001c; 0x0c00a3f4; 0x46062082; 0x7fffffff] ->
  canonical 0x80000000 w /\ read_text 0x80000000 w <> None.
Proof.
  intros w I. cbn in I.
  repeat (destruct I as [<-|I]; [split; [apply canonical_decide; vm_compute; reflexivity|vm_compute; discriminate]|]). destruct I.
Qed.

(** ** Symbols *)

Lemma debug_jump op l b : no_ws l -> debug_inst (IJump op (TLabel l) b) = Ok (jop_name op ++ #" " ++ l).
Proof.
  intros N. unfold debug_inst. cbn [show_inst obind]. rewrite replace_all_space. f_equal.
  assert (T : tight_start l) by (destruct l; [exact I|now apply no_ws_cons in N]).
  destruct op; unfold op11, pad_right; cbn [jop_name List.length lit list_ascii_of_string Nat.sub repeat];
    rewrite <- app_assoc; rewrite squeeze_no_ws_app by reflexivity; f_equal;
    (rewrite squeeze_ws_app by first [discriminate|reflexivity|exact T]); now rewrite squeeze_no_ws.
Qed.
Lemma debug_jump_addr op a b : debug_inst (IJump op (TAddress a) b) = Ok (jop_name op ++ #" 0x" ++ hexU a).
Proof.
  change (debug_inst (IJump op (TAddress a) b)) with (debug_inst (IJump op (TLabel (#"0x" ++ hexU a)) b)).
  apply debug_jump. apply no_ws_app. split; [reflexivity|apply hexU_no_ws].
Qed.

Lemma C42_proof : forall oc base syms ws, is_word base -> Forall is_word ws ->
  NoDup (map fst syms) ->
  (forall a n c, In (a, n) syms -> In c n -> is_ws c = false) ->
  exists ls plain,
    disassemble oc (set_symbols syms (debug_at base)) ws = Ok ls
    /\ disassemble oc (debug_at base) ws = Ok plain
    /\ List.length ls = List.length ws /\ List.length plain = List.length ws
    /\ forall i w l p, nth_error ws i = Some w -> nth_error ls i = Some l -> nth_error plain i = Some p ->
       let target := jump_address base w in
       (field w 26 6 = 2 -> (forall n, In (target, n) syms -> l = #"j " ++ n)
                            /\ ((forall n, ~ In (target, n) syms) -> l = #"j 0x" ++ hexU target))
       /\ (field w 26 6 = 3 -> (forall n, In (target, n) syms -> l = #"jal " ++ n)
                            /\ ((forall n, ~ In (target, n) syms) -> l = #"jal 0x" ++ hexU target))
       /\ (field w 26 6 <> 2 -> field w 26 6 <> 3 -> l = p).
Proof.
  intros oc base syms ws B W ND NW.
  destruct (debug_total oc (set_symbols syms (debug_at base)) ws eq_refl B W) as (ls & H1 & L1).
  destruct (debug_total oc (debug_at base) ws eq_refl B W) as (plain & H2 & L2).
  exists ls, plain. split; [exact H1|]. split; [exact H2|]. split; [exact L1|]. split; [exact L2|].
  rewrite disassemble_debug in H1, H2 by reflexivity.
  apply map_outcome_forall2 in H1. apply map_outcome_forall2 in H2.
  assert (K : forall (P : Z -> str -> Prop) a b, Forall2 P a b -> forall i w l, nth_error a i = Some w -> nth_error b i = Some l -> P w l).
  { intros P a b F. induction F; intros [|i] w0 l0; cbn; try discriminate; intros X Y; [congruence|eauto]. }
  intros i w l p Ew El Ep. assert (P1 := K _ _ _ H1 i w l Ew El). assert (P2 := K _ _ _ H2 i w p Ew Ep).
  cbv beta in P1, P2.
  assert (Ww : is_word w) by (rewrite Forall_forall in W; apply W; eapply nth_error_In; eassumption).
  destruct (jump_decode base w Ww B) as (J2 & J3 & JN). fold (jump_address base w) in J2, J3.
  rewrite debug_line_plain in P2. unfold debug_line in P1. cbn [m_base set_symbols set_debug set_base] in P1.
  assert (NW' : forall a n, In (a, n) syms -> no_ws n).
  { intros a n I. unfold no_ws. rewrite forallb_forall. intros c Ic. now rewrite (NW a n c I Ic). }
  cbv zeta. split; [|split].
  - intros E. rewrite (J2 E) in P1. cbn [match_sym m_syms set_symbols set_debug set_base] in P1. split.
    + intros n I. rewrite (sym_get_in _ _ _ ND I) in P1. rewrite debug_jump in P1 by eauto.
      injection P1 as <-. reflexivity.
    + intros N. apply sym_get_none in N. rewrite N in P1. rewrite debug_jump_addr in P1.
      injection P1 as <-. reflexivity.
  - intros E. rewrite (J3 E) in P1. cbn [match_sym m_syms set_symbols set_debug set_base] in P1. split.
    + intros n I. rewrite (sym_get_in _ _ _ ND I) in P1. rewrite debug_jump in P1 by eauto.
      injection P1 as <-. reflexivity.
    + intros N. apply sym_get_none in N. rewrite N in P1. rewrite debug_jump_addr in P1.
      injection P1 as <-. reflexivity.
  - intros N2 N3. specialize (JN N2 N3). destruct (disasm_word base w); try (cbn [match_sym] in P1; congruence).
    destruct JN.
Qed.

(** ** Signed immediates *)

Lemma C49_refuted_proof : forall oc, ~ (forall base w f, is_word base -> is_word w -> read_word w = Some f -> has_signed f = true ->
  exists pre post, disassemble oc (debug_at base) [w]
    = Ok [pre ++ #" " ++ signed_text (signed16 (field w 0 16)) ++ post]).
Proof.
  intros oc H. destruct (H 0 0x20007fff (normal 8 "addi" [Rt; Rs; Simm])) as (pre & post & E).
  - split; lia.
  - split; lia.
  - vm_compute. reflexivity.
  - reflexivity.
  - assert (D : disassemble oc (debug_at 0) [0x20007fff] = Ok [#"addi $zero, $zero, -0x7fff"])
      by (destruct oc; vm_compute; reflexivity).
    rewrite D in E. injection E as E.
    change (signed_text (signed16 (field 0x20007fff 0 16))) with (#"0x7fff") in E.
    assert (C : contains #" 0x" (pre ++ #" " ++ #"0x7fff" ++ post) = true).
    { clear E. unfold contains. induction pre as [|c pre IH]; [reflexivity|]. cbn [app find_sub].
      destruct (starts_with _ _); [reflexivity|]. destruct (find_sub _ _); [reflexivity|discriminate]. }
    change (contains #" 0x" (pre ++ " "%char :: "0"%char :: "x"%char :: "7"%char :: "f"%char :: "f"%char :: "f"%char :: post) = true) in C.
    cbn in E. rewrite <- E in C. discriminate.
Qed.

(** The signed operand is the last one, and the others always have a text. *)
Definition last_signed (f : format) : bool :=
  negb (has_signed f) ||
  match rev (f_ops f) with
  | k :: r => signed_operand k && forallb (fun k => match k with Gpr _ | Fpr _ | CacheOp => true | _ => false end) r
  | [] => false
  end.
Lemma isa_last_signed : forallb last_signed isa = true.
Proof. vm_compute. reflexivity. Qed.

Lemma operands_text_app ks os ts k o t : operands_text ks os = Some ts -> operand_text k o = Some t ->
  operands_text (ks ++ [k]) (os ++ [o]) = Some (ts ++ [t]).
Proof.
  revert os ts. induction ks as [|x ks IH]; intros [|y os] ts; cbn; try discriminate.
  - injection 1 as <-. intros ->. reflexivity.
  - destruct (operand_text x y); [|discriminate]. destruct (operands_text ks os) eqn:E; [|discriminate].
    injection 1 as <-. intros T. now rewrite (IH _ _ E T).
Qed.
Lemma operands_text_total pc w ks : forallb (fun k => match k with Gpr _ | Fpr _ | CacheOp => true | _ => false end) ks = true ->
  exists ts, operands_text ks (map (extract pc w) ks) = Some ts.
Proof.
  induction ks as [|k ks IH]; [now exists []|]. cbn [forallb]. rewrite andb_true_iff. intros [A C].
  destruct (IH C) as [ts E]. cbn [map operands_text]. rewrite E.
  destruct k; try discriminate; cbn [extract operand_text]; eauto.
Qed.
Lemma join_snoc ts t : ts <> [] -> join #", " (ts ++ [t]) = (join #", " ts ++ #",") ++ #" " ++ t.
Proof.
  induction ts as [|x [|y ts] IH]; [congruence| |]; intros _; [cbn [join app]; rewrite <- app_assoc; reflexivity|].
  change (x ++ #", " ++ join #", " ((y :: ts) ++ [t]) = ((x ++ #", " ++ join #", " (y :: ts)) ++ #",") ++ #" " ++ t).
  rewrite IH by discriminate. rewrite <- !app_assoc. reflexivity.
Qed.

Lemma C49_partial_proof : forall oc base w f, is_word base -> is_word w ->
  read_word w = Some f -> has_signed f = true -> field w 0 16 <> 32767 ->
  exists pre post, disassemble oc (debug_at base) [w]
    = Ok [pre ++ #" " ++ signed_text (signed16 (field w 0 16)) ++ post]
    /\ (post = [] \/ exists r, 0 <= r < 32 /\ post = #"($" ++ nth_name gpr_names r ++ #")").
Proof.
  intros oc base w f B W R S N.
  assert (L := isa_last_signed). rewrite forallb_forall in L. specialize (L f (read_word_in _ _ R)).
  unfold last_signed in L. rewrite S in L. cbn [negb orb] in L.
  destruct (rev (f_ops f)) as [|k r] eqn:E; [discriminate|]. apply andb_true_iff in L as [L1 L2].
  assert (O : f_ops f = rev r ++ [k]).
  { rewrite <- (rev_involutive (f_ops f)), E. reflexivity. }
  destruct (operands_text_total base w (rev r)) as [ts T].
  { rewrite forallb_forall in *. intros x I. apply L2. now apply in_rev. }
  assert (K : exists post, operand_text k (extract base w k) = Some (signed_text (signed16 (field w 0 16)) ++ post)
              /\ (post = [] \/ exists r, 0 <= r < 32 /\ post = #"($" ++ nth_name gpr_names r ++ #")")).
  { destruct k; try discriminate; cbn [extract operand_text].
    - exists []. rewrite app_nil_r. auto.
    - exists (#"($" ++ nth_name gpr_names (field w 21 5) ++ #")"). split; [reflexivity|]. right.
      exists (field w 21 5). split; [apply (field_range w 21 5); lia|reflexivity].
    - exists []. rewrite app_nil_r. auto. }
  destruct K as (post & K & P).
  assert (D : forall t, text f (map (extract base w) (f_ops f)) = Some t -> disassemble oc (debug_at base) [w] = Ok [t]).
  { intros t Ht. rewrite disassemble_debug by reflexivity. cbn [map_outcome]. rewrite debug_line_plain.
    rewrite (line_is_text base w t); auto.
    - intros (A & _). congruence.
    - intros (g & _ & _ & A). congruence.
    - unfold read_text. now rewrite R. }
  assert (T' := operands_text_app _ _ _ _ _ _ T K).
  assert (M : map (extract base w) (f_ops f) = map (extract base w) (rev r) ++ [extract base w k])
    by (rewrite O, map_app; reflexivity).
  destruct ts as [|t0 ts].
  - exists (f_name f), post. split; [|exact P]. apply D. unfold text. rewrite M, O, T'. reflexivity.
  - exists (f_name f ++ #" " ++ join #", " (t0 :: ts) ++ #","), post. split; [|exact P]. apply D.
    unfold text. rewrite M, O, T'.
    change (Some (f_name f ++ #" " ++ join #", " ((t0 :: ts) ++ [signed_text (signed16 (field w 0 16)) ++ post]))
     = Some ((f_name f ++ #" " ++ join #", " (t0 :: ts) ++ #",") ++ #" " ++ signed_text (signed16 (field w 0 16)) ++ post)).
    rewrite join_snoc by discriminate. rewrite <- !app_assoc. reflexivity.
Qed.
