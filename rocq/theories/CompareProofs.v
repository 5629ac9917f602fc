(** * CompareProofs: compare-and-branch pseudo-instructions (proofs only). *)

From Coq Require Import Lia.
From Verif Require Import Lib SpecIsa StrLemmas NumLemmas DecodeProofs TextProofs OperandProofs NativeProofs LineProofs ScanProofs ProgProofs AsmProofs SpecMachine MachineProofs
  PseudoProofs BranchProofs LabelProofs SpecPseudo SpecText SpecProgram SpecLabels.

(** How each one is built: operands swapped or not, signed or not, and the branch. *)
Definition compare_words (swap sgn likely : bool) (on_set : bool) (a b v : Z) : list Z :=
  [ rword (if swap then b else a) (if swap then a else b) 1 0 (if sgn then 42 else 43);
    iword ((if likely then 20 else 4) + (if on_set then 1 else 0)) 1 0 v ].

Record compare_row (name : str) (likely : bool) (rel : Z -> Z -> bool) (p : iop) (swap sgn on_set : bool) : Prop := mk_compare_row {
  cr_name : name_okb name = true;
  cr_class : classify (trim (to_lower name)) = Some GBranch2;
  cr_op : iop_of name = Ok p;
  cr_enc : forall oc a b v, 0 <= a < 32 -> 0 <= b < 32 -> 1 <= v < 65536 ->
    @enc_i perror oc p (reg_of_num a) (reg_of_num b) (Short v) = Ok (compare_words swap sgn likely on_set a b (v - 1));
  cr_rel : forall a b, 0 <= a < 2 ^ 64 -> 0 <= b < 2 ^ 64 ->
    let x := if swap then b else a in let y := if swap then a else b in
    rel a b = Bool.eqb on_set (if sgn then signed64 x <? signed64 y else x <? y)
}.

Lemma pair_inv2 {A B} (a c : A) (b d : B) : (a, b) = (c, d) -> a = c /\ b = d.
Proof. intros H. split; [exact (f_equal fst H)|exact (f_equal snd H)]. Qed.

Ltac row p sw sg os := exists p, sw, sg, os; constructor;
  [vm_compute; reflexivity|vm_compute; reflexivity|vm_compute; reflexivity
  |intros oc a b v Ra Rb Rv; unfold enc_i, imm_as_u32, ck32; cbn [obind];
   replace ((0 <=? v - 1) && (v - 1 <? 2 ^ 32))%bool with true by lia; cbn [obind]; rewrite !reg_of_num_num by assumption;
   assert (0 <= v - 1 < 65536) by lia; generalize dependent (v - 1); intros u Ru;
   unfold compare_words; apply f_equal; repeat match goal with |- _ :: _ = _ :: _ => apply f_equal2 | |- [] = [] => reflexivity end;
   unfold rword, iword; lor_sum; lia
  |intros a b Ra Rb; cbv zeta; match goal with |- context [Bool.eqb _ ?c] => destruct c eqn:Ec end; cbn [Bool.eqb]; lia].

Lemma compare_rows name likely rel : In (name, likely, rel) compare_branches ->
  exists p swap sgn on_set, compare_row name likely rel p swap sgn on_set.
Proof.
  intros I. unfold compare_branches in I. cbn [In] in I.
  repeat (lazymatch type of I with _ \/ _ => destruct I as [I|I] end);
    lazymatch type of I with False => destruct I | _ => apply pair_inv2 in I; destruct I as [I <-]; apply pair_inv2 in I; destruct I as [<- <-] end.
  - row I_Bge false true false.
  - row I_Bgeu false false false.
  - row I_Bgel false true false.
  - row I_Bgeul false false false.
  - row I_Bgt true true true.
  - row I_Bgtu true false true.
  - row I_Bgtl true true true.
  - row I_Bgtul true false true.
  - row I_Ble true true false.
  - row I_Bleu true false false.
  - row I_Blel true true false.
  - row I_Bleul true false false.
  - row I_Blt false true true.
  - row I_Bltu false false true.
  - row I_Bltl false true true.
  - row I_Bltul false false true.
Qed.

(** The words of such a line in a program. *)
Theorem compare_to_label rt m input out l1 raw l2 name likely rel p swap sgn on_set ts tt a b n k : assemble rt m input = Ok out -> lines input = l1 ++ raw :: l2 ->
  compare_row name likely rel p swap sgn on_set -> gpr_text ts a -> gpr_text tt b ->
  instruction_line name [ts; tt; n] raw -> identifier n -> is_local n = false -> In (n, k) (label_table 0 l1) ->
  let v := (Z.of_nat k - (Z.of_nat (instruction_count l1) + 1)) mod 65536 in
  v <> 0 -> exists i, nth_error out (instruction_count l1) = Some i
    /\ inst_bytes i = compare_words swap sgn likely on_set a b (v - 1).
Proof.
  intros A Ei [Nm Cl Op En _] Ga Gb L Id Lc I v Vn. destruct (at_line_intro _ _ _ _ _ _ _ A Ei) as (s1 & sf & [Rd Lb Lf Nd Gd _ H]).
  assert (N : no_nl raw) by (apply (lines_no_nl input); rewrite Ei; apply in_or_app; right; now left).
  set (e := mk_parser rt m input) in *.
  assert (As : assoc n (p_labels (bump s1)) = Some k).
  { cbn [bump p_labels]. rewrite Lb. apply assoc_nodup; [|exact I]. rewrite Ei in Nd. now apply nodup_before in Nd. }
  assert (Af : assoc n (p_labels sf) = Some k).
  { rewrite Lf. apply assoc_nodup; [exact Nd|]. rewrite Ei. now apply before_in. }
  assert (F : Forall operand_ok [ts; tt; n]) by (repeat constructor; try (now eapply gpr_operand; eassumption); now apply identifier_operand).
  destruct (line_parse_parts e (bump s1) name [ts; tt; n] raw (name_okb_ok _ Nm) F N L) as (op & arg & xs & SL & Ar & Ne & Ec & P).
  destruct Ar as [[E _]|[_ Ar]]; [discriminate|]. apply three in Ar as (x & y & z & -> & [P1 _] & [P2 _] & [P3 _]).
  assert (Ai : aimm e (bump s1) u32 z = lift (Ok (Label n))).
  { unfold aimm, parse_immediate. rewrite (identifier_trim n z Id P3). fold (is_local n). now rewrite Lc, As. }
  rewrite <- (lower_trim _ _ SL) in Cl. rewrite <- (iop_of_letters _ _ SL) in Op.
  assert (Q : parse_op e (bump s1) op arg [x; y; z] = (delay_warning e (bump s1) raw ++ [], Ok (IImm p (reg_of_num a) (reg_of_num b) (Label n) []))).
  { apply g_branch2; auto; [now apply check_delay_ok|eapply areg_ok; eauto|eapply areg_ok; eauto]. }
  rewrite Q in P. destruct (H Ne Ec _ _ P) as (i1 & i' & Ad & Ai' & Ni). cbn [adjust_one] in Ad. rewrite Af in Ad. injection Ad as <-.
  exists i'. split; [exact Ni|].
  assert (Ra : 0 <= a < 32) by (now apply gpr_range in Ga). assert (Rb : 0 <= b < 32) by (now apply gpr_range in Gb).
  unfold label_offset, wrap in Ai'. change (2 ^ 16) with 65536 in Ai'. fold v in Ai'.
  assert (Rv : 1 <= v < 65536) by (assert (X := Z.mod_pos_bound (Z.of_nat k - (Z.of_nat (instruction_count l1) + 1)) 65536 ltac:(lia)); fold v in X; lia).
  assert (X := encodes_i p (reg_of_num a) (reg_of_num b) (Short v) _ (fun oc => En oc a b v Ra Rb Rv)).
  destruct (X (rt_oc rt)) as (i2 & Ai2 & Bi). rewrite Ai' in Ai2. injection Ai2 as <-. exact Bi.
Qed.

(** Two words of an instruction in the code. *)
Lemma concat_at (wss : list (list Z)) i ws : nth_error wss i = Some ws ->
  exists after, List.concat wss = List.concat (firstn i wss) ++ ws ++ after.
Proof.
  revert i. induction wss as [|x wss IH]; intros [|i] H; try discriminate.
  - injection H as ->. exists (List.concat wss). reflexivity.
  - cbn [nth_error firstn List.concat] in *. destruct (IH i H) as (after & ->). exists after. now rewrite <- app_assoc.
Qed.

(** What the two words do. *)
Lemma compare_run odd code before after swap sgn likely on_set a b v st : 0 <= a < 32 -> 0 <= b < 32 -> 0 <= v < 65536 ->
  code = before ++ compare_words swap sgn likely on_set a b v ++ after -> well st ->
  let pc := Z.of_nat (List.length before) in
  let x := value st (if swap then b else a) in let y := value st (if swap then a else b) in
  let c := if sgn then signed64 x <? signed64 y else x <? y in
  let st' := write st 1 (bit c) in
  cycles odd 2 code (At pc (pc + 1) st) =
    if Bool.eqb on_set c then At (pc + 2) (pc + 2 + signed16 v) st'
    else if likely then At (pc + 3) (pc + 4) st' else At (pc + 2) (pc + 3) st'.
Proof.
  intros Ra Rb Rv -> W pc x y c st'. cbn [cycles].
  rewrite (cycle_at odd _ pc (pc + 1) st (rword (if swap then b else a) (if swap then a else b) 1 0 (if sgn then 42 else 43))).
  2: lia.
  2: { unfold pc. rewrite Nat2Z.id, nth_error_app2 by lia. now rewrite Nat.sub_diag. }
  rewrite exec_rword by (try (destruct swap; lia); destruct sgn; lia).
  assert (E1 : exec_special odd (if swap then b else a) (if swap then a else b) 1 0 (if sgn then 42 else 43) (1 * 32 + 0) st = Next st').
  { unfold st', c, x, y. destruct sgn; reflexivity. }
  rewrite E1. rewrite (cycle_at odd _ (pc + 1) (pc + 1 + 1) st' (iword ((if likely then 20 else 4) + (if on_set then 1 else 0)) 1 0 v)).
  2: lia.
  2: { replace (Z.to_nat (pc + 1)) with (S (List.length before)) by lia. rewrite nth_error_app2 by lia.
       replace (S (List.length before) - List.length before)%nat with 1%nat by lia. reflexivity. }
  rewrite exec_iword by (try lia; destruct likely, on_set; lia).
  assert (V1 : value st' 1 = bit c) by reflexivity. assert (V0 : value st' 0 = 0) by reflexivity.
  assert (E2 : exec_normal ((if likely then 20 else 4) + (if on_set then 1 else 0)) 1 0 v st' = SpecMachine.Branch (Bool.eqb on_set c) likely (signed16 v)).
  { destruct likely, on_set; cbn [Z.add exec_normal]; unfold exec_normal; rewrite V1, V0; destruct c; reflexivity. }
  rewrite E2. destruct (Bool.eqb on_set c); [f_equal; lia|]. destruct likely; f_equal; lia.
Qed.
