(** * FatalProofs: lines that make the assembler panic (proofs for C29). *)

From Coq Require Import Lia.
From Verif Require ShownProofs.
From Verif Require Import PanicProofs SpacingProofs QuietProofs Lib SpecIsa StrLemmas NumLemmas DecodeProofs TextProofs OperandProofs NativeProofs LineProofs ScanProofs ProgProofs AsmProofs MachineProofs
  BranchProofs LabelProofs HalfProofs CongProofs ErrorProofs ImmProofs ImmLines RegProofs CauseProofs ShiftProofs SpecErrors SpecText SpecProgram SpecLabels SpecLines SpecImm SpecRegs SpecPanic SpecFatal.

Lemma fatal_stops rt m input l1 raw l2 : lines input = l1 ++ raw :: l2 ->
  (forall e s, e_syms e = m_syms m -> ready e s raw -> (forall n k, In (n, k) (p_labels s) -> good_label n) -> role_of raw = Instruction -> exists w q, parse_inst e s (clean raw) = (w, Panic q)) ->
  (forall k, role_of raw = Defines k -> k = []) -> role_of raw <> Empty -> exists q, assemble rt m input = Panic q.
Proof.
  intros Ei H Hk He. destruct (assemble rt m input) as [out|es|q] eqn:A; [| |now exists q]; exfalso;
  (destruct (read_to_end rt m input ltac:(intros q; rewrite A; discriminate)) as (s & is1 & errs & Sc & _ & Er);
   assert (N := nl_of_lines input); set (e := mk_parser rt m input) in *;
   destruct (sound_at e s l1 raw l2 N Ei Sc) as (s1 & f1 & x & f2 & _ & So1 & Fx & So);
   assert (Lb : forall n k, In (n, k) (p_labels (bump s1)) -> good_label n) by (intros n k I; apply (so_labels _ _ _ _ So1 n k I));
   specialize (H e (bump s1) eq_refl (sound_ready e s1 l1 f1 raw l2 So1 Ei) Lb);
   destruct Fx as [R'|k R' O|k c r R' Ek D|k j fl R' G As Nj|w' i' R' Pi|w' p' R' Pi El Ek];
   [contradiction|apply Hk in R'; subst k; now destruct O|apply Hk in R'; congruence|apply Hk in R'; subst k; now destruct G|destruct (H R') as (w & q & P); rewrite P in Pi; apply pair_equal_spec in Pi as [_ Pi]; discriminate..]).
Qed.

Lemma inst_view e s l : role_of l = Instruction -> exists arg xs, parse_inst e s (clean l) = parse_op e s (operation l) arg xs /\ map trim xs = operands l.
Proof.
  intros R. assert (Ne : clean l <> []) by (intros E; unfold role_of in R; rewrite E in R; discriminate R). unfold parse_inst, operation, operands.
  set (c := clean l) in *. clearbody c. destruct (split_once " " c) as [[op arg]|]; (destruct c as [|a c]; [now destruct Ne|]); eexists _, _; split; reflexivity.
Qed.

Lemma base_panics x : ~ In "("%char (trim x) -> exists q, base_text x = Panic q.
Proof.
  intros N. assert (No : no_open x).
  { destruct (padded_of_trim x) as (a & b & A & B & ->). apply no_open_app. split; [now apply blank_no_open|]. apply no_open_app. split; [exact N|now apply blank_no_open]. }
  unfold base_text, find_iter. cbn [re_find_iter]. unfold BASE_RE. rewrite open_find_none by exact No. eexists. reflexivity.
Qed.
Lemma register_panics x : no_ws (trim x) -> (forall n, ~ dollars gpr_reading (trim x) n) -> exists q, arg_reg_unwrap x = Panic q.
Proof.
  intros W H. unfold arg_reg_unwrap. assert (E : reg_from_str x = Ok Zero \/ True) by auto. clear E.
  destruct (reg_from_str x) as [r|t|q] eqn:E; [|now eexists..]. exfalso.
  assert (E' : reg_from_str (trim x) = Ok r). { revert E. unfold reg_from_str. rewrite (trim_idem x). destruct (re_find _ _); [auto|]. destruct (parse_int _ _ _); [auto|]. destruct (assoc _ _); [auto|discriminate]. }
  exact (H _ (proj2 (gpr_operand (trim x) W) r E')).
Qed.
Lemma numeral_unlabelled s t v : (forall n k, In (n, k) (p_labels s) -> good_label n) -> numeral t v -> assoc t (p_labels s) = None.
Proof.
  intros L N. destruct (assoc t (p_labels s)) as [k|] eqn:E; [|reflexivity]. exfalso. apply assoc_in, L in E. destruct (numeral_head t v N) as (c & r & -> & D). unfold good_label in E. congruence.
Qed.
Lemma cache_number e s x v : (forall n k, In (n, k) (p_labels s) -> good_label n) -> numeral (trim x) v -> v < 2 ^ 16 -> aimm e s u16 x = lift (Ok (Short v)).
Proof.
  intros L N R. assert (As := numeral_unlabelled s _ v L N). unfold aimm. f_equal. unfold parse_immediate. cbv zeta. rewrite As.
  destruct (numeral_shape _ _ N) as (radix & ds & Sh & V & V0). rewrite (number_no_at _ _ _ _ Sh).
  assert (NO : no_open (trim x)).
  { intros I. destruct (number_char_facts _ (number_chars _ _ _ _ _ Sh I)) as (_ & _ & Nn & _). now apply Nn. }
  rewrite no_open_imm by exact NO. rewrite (number_contains _ _ _ _ Sh).
  assert (Q : all_hex ds /\ ds <> [] /\ (radix = 10 \/ radix = 16)) by (now inversion Sh). destruct Q as (A & Nn & Rx).
  assert (P : parse_int u16 radix ds = Some v).
  { rewrite (parse_int_digits u16 radix ds v A Nn V). unfold in_range. change (it_min u16) with 0. change (it_max u16) with 65535.
    destruct (Z.leb_spec 0 v), (Z.leb_spec v 65535); try reflexivity; lia. }
  assert (W : @imm_new perror u16 v = Ok (Short v)) by (unfold imm_new; change (it_bits u16 =? 16) with true; cbn iota; unfold wrap; rewrite Z.mod_small by lia; reflexivity).
  destruct Rx as [-> | ->].
  - change (10 =? 16) with false. cbn iota. assert (E : trim x = ds) by (inversion Sh; reflexivity). now rewrite E, P.
  - change (16 =? 16) with true. cbn iota. rewrite (number_remove _ _ _ _ Sh). cbn [app]. now rewrite P.
Qed.
Lemma dollar_amount t : exists q, parse_sa (#"$" ++ t) = Panic q.
Proof.
  assert (Pi : forall rx u, rx = 10 \/ rx = 16 -> parse_int i32 rx ("$"%char :: u) = None).
  { intros rx u [-> | ->]; unfold parse_int; change (Ascii.eqb "$" "+") with false; change (Ascii.eqb "$" "-") with false; cbn [orb digits_val]; reflexivity. }
  assert (D : exists u, drop_while_end (cls "`") (#"$" ++ t) = "$"%char :: u).
  { unfold drop_while_end. change (#"$" ++ t) with ("$"%char :: t). cbn [rev]. induction (rev t) as [|c r IH]; [exists []; reflexivity|]. cbn [app drop_while]. destruct (cls "`" c).
    - exact IH.
    - eexists. change (c :: r ++ ["$"%char]) with ((c :: r) ++ ["$"%char]). rewrite rev_app_distr. reflexivity. }
  assert (Rm : exists u, remove_all #"0x" (#"$" ++ t) = "$"%char :: u) by (eexists; reflexivity).
  destruct D as [u D], Rm as [u' Rm]. unfold parse_sa. rewrite D, Rm, !Pi by auto. destruct (_ || _); (eexists; reflexivity).
Qed.

Section Fatal.
Variables (e : env) (s : pstate) (raw : str).
Hypothesis (Rd : ready e s raw) (Lb : forall n k, In (n, k) (p_labels s) -> good_label n).

Lemma letter_none c : c <> "b"%char -> c <> "j"%char -> classify (trim [c]) = None.
Proof. intros B J. destruct c as [[] [] [] [] [] [] [] []]; try (vm_compute; reflexivity); [now destruct B|now destruct J]. Qed.
Lemma to_lower_length op : List.length (to_lower op) = List.length op. Proof. apply map_length. Qed.
Lemma transfer_class m : In m transfers -> classify (trim m) = Some GMem /\ str_eqb (trim m) #"cache" = false.
Proof.
  intros I. assert (K : forallb (fun m => match classify (trim m) with Some GMem => negb (str_eqb (trim m) #"cache") | _ => false end) transfers = true) by (vm_compute; reflexivity).
  apply (proj1 (forallb_forall _ _) K) in I. destruct (classify (trim m)) as [[]|]; try discriminate I. split; [reflexivity|]. now apply negb_true_iff.
Qed.
Lemma shift_class m : In m shift_names -> classify (trim m) = Some GShift /\ exists p, rop_from_str m = Some p.
Proof.
  intros I. assert (K : forallb (fun m => match classify (trim m), rop_from_str m with Some GShift, Some _ => true | _, _ => false end) shift_names = true) by (vm_compute; reflexivity).
  apply (proj1 (forallb_forall _ _) K) in I. destruct (classify (trim m)) as [[]|]; try discriminate I. destruct (rop_from_str m) as [p|]; [|discriminate I]. split; [reflexivity|now exists p].
Qed.
Lemma rop_lower op p : rop_from_str (to_lower op) = Some p -> rop_of op = Ok p.
Proof. intros E. rewrite <- (rop_of_letters _ _ (same_lower op)). unfold rop_of. now rewrite E. Qed.
Lemma mbind_panic {A B} (w : list pwarning) q (f : A -> M B) : mbind (w, Panic q) f = (w, Panic q). Proof. reflexivity. Qed.

Lemma bare_class m : In m bare_names -> (classify m = Some GPlain \/ classify m = Some GTlb) /\ trim m = m.
Proof.
  intros I. assert (K : forallb (fun m => match classify m with Some GPlain | Some GTlb => str_eqb (trim m) m | _ => false end) bare_names = true) by (vm_compute; reflexivity).
  apply (proj1 (forallb_forall _ _) K) in I. destruct (classify m) as [[]|]; try discriminate I; apply str_eqb_spec in I; auto.
Qed.
Lemma three_class m : In m three_names -> (classify m = Some GReg3 \/ classify m = Some GShiftV) /\ trim m = m.
Proof.
  intros I. assert (K : forallb (fun m => match classify m with Some GReg3 | Some GShiftV => str_eqb (trim m) m | _ => false end) three_names = true) by (vm_compute; reflexivity).
  apply (proj1 (forallb_forall _ _) K) in I. destruct (classify m) as [[]|]; try discriminate I; apply str_eqb_spec in I; auto.
Qed.
(** White space at the end of a mnemonic is not read. *)
Lemma trim_gap m w : trim m = m -> blank w -> trim (m ++ w) = m.
Proof. intros T Bw. rewrite <- T at 2. now apply trim_blank_tail. Qed.
Lemma gap_panics op m w : to_lower op = m ++ w -> blank w -> w <> [] -> exists q, rop_of op = Panic q.
Proof.
  intros E Bw Ne. unfold rop_of. destruct (rop_from_str op) as [p|] eqn:R; [exfalso|now eexists].
  unfold rop_from_str in R. apply find_some in R as [I Q]. unfold eq_ignore_case in Q. apply str_eqb_spec in Q. rewrite E in Q.
  assert (K : forallb (fun o => forallb (fun c => negb (is_ws c)) (to_lower (rop_name o))) all_rop = true) by (vm_compute; reflexivity).
  apply (proj1 (forallb_forall _ _) K) in I. rewrite <- Q, forallb_app in I. apply andb_true_iff in I as [_ I]. destruct w as [|c w]; [congruence|].
  unfold blank in Bw. cbn [forallb] in I, Bw. apply andb_true_iff in Bw as [Bw _]. rewrite Bw in I. discriminate I.
Qed.

Lemma stem_split (stem : str) x y : firstn (List.length (stem ++ [x; y]) - 2) (stem ++ [x; y]) = stem.
Proof. rewrite app_length. cbn [List.length]. replace (List.length stem + 2 - 2)%nat with (List.length stem + 0)%nat by lia. rewrite firstn_app_2. cbn [firstn]. apply app_nil_r. Qed.
Lemma mem_is x l : mem_str x l = true <-> In x l.
Proof.
  unfold mem_str. rewrite existsb_exists. split; [intros (y & I & E); apply str_eqb_spec in E; now subst y|intros I; exists x; split; [exact I|apply str_eqb_refl]].
Qed.
Definition stem_of (m : str) : str := firstn (List.length m - 2) m.
Lemma table_stems : forallb (fun x => implb (mem_str (stem_of (fst x)) float_stems) (mem_str (fst x) (map fst shapes))) group_table = true.
Proof. vm_compute. reflexivity. Qed.
Lemma table_compares : forallb (fun x => negb (starts_with #"c." (fst x))) group_table = true.
Proof. vm_compute. reflexivity. Qed.
Lemma rop_stems p : implb (mem_str (stem_of (to_lower (rop_name p))) float_stems) (mem_str (to_lower (rop_name p)) (map fst shapes ++ float_names)) = true.
Proof. destruct p; vm_compute; reflexivity. Qed.
Lemma rop_compares p : implb (Nat.eqb (List.length (rop_name p)) 3 && starts_with #"c." (to_lower (rop_name p))) (mem_str (to_lower (rop_name p)) [ #"c.s"; #"c.d" ]) = true.
Proof. destruct p; vm_compute; reflexivity. Qed.
Lemma rop_panics op : (forall p, to_lower op <> to_lower (rop_name p)) -> exists q, rop_of op = Panic q.
Proof.
  intros H. destruct (rop_of op) as [p|p|q] eqn:R; [exfalso; exact (H p (ShownProofs.rop_name_is op p R))| |now exists q].
  unfold rop_of, unwrap in R. destruct (rop_from_str op); discriminate R.
Qed.
Lemma stem_none stem x y : In stem float_stems -> no_operation (stem ++ [x; y]) -> classify (stem ++ [x; y]) = None.
Proof.
  intros I [N _]. destruct (classify (stem ++ [x; y])) as [g|] eqn:C; [|reflexivity]. exfalso. apply classify_in in C.
  assert (X := proj1 (forallb_forall _ _) table_stems _ C). cbn [fst] in X. unfold stem_of in X. rewrite stem_split in X.
  rewrite (proj2 (mem_is stem float_stems) I) in X. cbn [implb] in X. now apply N, mem_is.
Qed.
Lemma stem_panics op stem x y : to_lower op = stem ++ [x; y] -> In stem float_stems -> no_operation (stem ++ [x; y]) -> exists q, rop_of op = Panic q.
Proof.
  intros E I [N F]. apply rop_panics. intros p P. assert (X := rop_stems p). rewrite <- P, E in X. unfold stem_of in X. rewrite stem_split in X.
  rewrite (proj2 (mem_is stem float_stems) I) in X. cbn [implb] in X. apply mem_is, in_app_or in X. tauto.
Qed.
Lemma compare_panics c : to_lower [c] <> #"s" -> to_lower [c] <> #"d" -> exists q, rop_of (#"C." ++ [c]) = Panic q.
Proof.
  intros Ns Nd. apply rop_panics. intros p P. assert (X := rop_compares p). 
  assert (L : List.length (rop_name p) = 3%nat) by (rewrite <- (to_lower_length (rop_name p)), <- P; reflexivity). rewrite L, <- P in X.
  change (to_lower (#"C." ++ [c])) with (#"c." ++ to_lower [c]) in X. change (starts_with #"c." (#"c." ++ to_lower [c])) with true in X. cbn [Nat.eqb andb implb] in X. apply mem_is in X.
  destruct X as [X|[X|[]]]; [apply Ns|apply Nd]; now injection X as ->.
Qed.

Lemma fatal_parse op arg xs : fatal_instruction (e_syms e) (to_lower op) (map trim xs) -> exists w q, parse_op e s op arg xs = (w, Panic q).
Proof.
  intros F. remember (to_lower op) as m eqn:Em. remember (map trim xs) as ops eqn:Eo. unfold parse_op. rewrite <- Em.
  destruct F as [c ops B J|m t x I H W|m t x I H|m a b t v I (d & Ga) (r & Gb) Nu Ov|m a b t I (d & Ga) (r & Gb)|t v x Nu Rg|m w ops I Bw Ne|m w a b c I Bw Ne (d & Ga) (r & Gb) (u & Gc)|stem x y a b c I Wx Wy No (d & Ga) (r & Gb) (u & Gc)|stem x y a b I I3 Wx Wy No (d & Ga) (r & Gb)|r x y a b W Ns Nd (d & Ga) (u & Gb)|m I Ns].
  - rewrite (letter_none c B J). unfold parse_float. assert (L : List.length op = 1%nat) by (rewrite <- to_lower_length, <- Em; reflexivity). rewrite L. now eexists _, _.
  - destruct (transfer_class m I) as [C E]. rewrite C. unfold parse_mem. destruct xs as [|y1 [|y2 [|]]]; try discriminate Eo. injection Eo as -> ->. rewrite <- Em, E.
    destruct (register_panics y1) as [q Q]; [|exact H|].
    { apply forallb_forall. intros c Ic. destruct (is_ws c) eqn:Ew; [|reflexivity]. exfalso. exact (W (ex_intro _ c (conj Ic Ew))). }
    rewrite Q. now eexists _, _.
  - destruct (transfer_class m I) as [C E]. rewrite C. unfold parse_mem. destruct xs as [|y1 [|y2 [|]]]; try discriminate Eo. injection Eo as -> ->. rewrite <- Em, E.
    destruct (arg_reg_unwrap y1) as [r1|p|p] eqn:Ar; [|unfold arg_reg_unwrap in Ar; destruct (reg_from_str y1); discriminate Ar|now eexists _, _].
    rewrite mbind_ok. destruct (base_panics y2 H) as [q Q]. rewrite Q. now eexists _, _.
  - destruct (shift_class m I) as [C [p P]]. rewrite C. unfold parse_shift. destruct xs as [|y1 [|y2 [|y3 [|]]]]; try discriminate Eo. injection Eo as -> -> ->.
    rewrite (areg_ok e s y1 _ d (padded_of_trim y1) Ga), mbind_ok, (areg_ok e s y2 _ r (padded_of_trim y2) Gb), mbind_ok. rewrite Em in P. rewrite (rop_lower op p P), mbind_ok.
    assert (Q := parse_sa_signed y3 (trim y3) v (padded_of_trim y3) Nu). replace ((- 2 ^ 31 <=? v) && (v <? 2 ^ 31)) with false in Q by (destruct (Z.leb_spec (- 2 ^ 31) v), (Z.ltb_spec v (2 ^ 31)); try reflexivity; lia).
    destruct Q as [q Q]. rewrite Q. now eexists _, _.
  - destruct (shift_class m I) as [C [p P]]. rewrite C. unfold parse_shift. destruct xs as [|y1 [|y2 [|y3 [|]]]]; try discriminate Eo. injection Eo as -> -> E3.
    rewrite (areg_ok e s y1 _ d (padded_of_trim y1) Ga), mbind_ok, (areg_ok e s y2 _ r (padded_of_trim y2) Gb), mbind_ok. rewrite Em in P. rewrite (rop_lower op p P), mbind_ok.
    destruct (dollar_amount t) as [q Q]. rewrite <- E3. change ("$"%char :: t) with (#"$" ++ t). rewrite Q. now eexists _, _.
  - change (classify (trim #"cache")) with (Some GMem). unfold parse_mem. destruct xs as [|y1 [|y2 [|]]]; try discriminate Eo. injection Eo as -> ->. rewrite <- Em.
    change (str_eqb (trim #"cache") #"cache") with true. cbv iota. rewrite (cache_number e s y1 v Lb Nu) by lia. rewrite mbind_ok. cbn [imm_as_u32].
    assert (T : forall r, reg_try_from v <> Ok r).
    { intros r Tr. apply reg_try_range in Tr as [Tr _]. lia. }
    rewrite mbind_ok. destruct (reg_try_from v) as [r|?|?] eqn:Et; [now destruct (T r)|now eexists _, _|now eexists _, _].
  - destruct (bare_class m I) as [C T]. rewrite (trim_gap m w T Bw). destruct (gap_panics op m w (eq_sym Em) Bw Ne) as [q Q].
    destruct C as [C|C]; rewrite C; unfold parse_plain; rewrite Q; now eexists _, _.
  - destruct (three_class m I) as [C T]. rewrite (trim_gap m w T Bw). destruct (gap_panics op m w (eq_sym Em) Bw Ne) as [q Q].
    destruct xs as [|y1 [|y2 [|y3 [|]]]]; try discriminate Eo. injection Eo as -> -> ->.
    destruct C as [C|C]; rewrite C; unfold parse_reg3, parse_shiftv;
      rewrite (areg_ok e s y1 _ d (padded_of_trim y1) Ga), mbind_ok, (areg_ok e s y2 _ r (padded_of_trim y2) Gb), mbind_ok, (areg_ok e s y3 _ u (padded_of_trim y3) Gc), mbind_ok, Q; now eexists _, _.
  - assert (If : In stem float_stems) by (cbn in I; repeat destruct I as [<-|I]; try contradiction I; cbn; tauto).
    assert (Nt : no_ws (stem ++ [x; y])).
    { apply no_ws_app. split; [cbn in I; repeat destruct I as [<-|I]; try contradiction I; reflexivity|]. unfold no_ws. cbn [forallb]. now rewrite Wx, Wy. }
    rewrite (trim_no_ws _ Nt), (stem_none stem x y If No). unfold parse_float. rewrite <- to_lower_length, <- Em, stem_split.
    replace (Nat.ltb (List.length (stem ++ [x; y])) 2) with false by (symmetry; apply Nat.ltb_ge; rewrite app_length; cbn [List.length]; lia). cbv zeta.
    replace (mem_str stem float3_names) with true by (symmetry; apply mem_is; exact I).
    destruct xs as [|y1 [|y2 [|y3 [|]]]]; try discriminate Eo. injection Eo as -> -> ->.
    rewrite (afreg_ok e s y1 _ d (padded_of_trim y1) Ga), mbind_ok, (afreg_ok e s y2 _ r (padded_of_trim y2) Gb), mbind_ok, (afreg_ok e s y3 _ u (padded_of_trim y3) Gc), mbind_ok.
    destruct (stem_panics op stem x y (eq_sym Em) If No) as [q Q]. rewrite Q. now eexists _, _.
  - assert (Nt : no_ws (stem ++ [x; y])).
    { apply no_ws_app. split; [cbn in I; repeat destruct I as [<-|I]; try contradiction I; reflexivity|]. unfold no_ws. cbn [forallb]. now rewrite Wx, Wy. }
    rewrite (trim_no_ws _ Nt), (stem_none stem x y I No). unfold parse_float. rewrite <- to_lower_length, <- Em, stem_split.
    replace (Nat.ltb (List.length (stem ++ [x; y])) 2) with false by (symmetry; apply Nat.ltb_ge; rewrite app_length; cbn [List.length]; lia). cbv zeta.
    destruct (mem_str stem float3_names) eqn:M3; [exfalso; apply mem_is in M3; exact (I3 M3)|].
    replace (mem_str stem float2_names) with true.
    2: { symmetry. apply mem_is. assert (X : forallb (fun z => mem_str z float3_names || mem_str z float2_names) float_stems = true) by (vm_compute; reflexivity).
         rewrite forallb_forall in X. specialize (X stem I). rewrite M3 in X. now apply mem_is in X. }
    destruct xs as [|y1 [|y2 [|]]]; try discriminate Eo. injection Eo as -> ->.
    rewrite (afreg_ok e s y1 _ d (padded_of_trim y1) Ga), mbind_ok, (afreg_ok e s y2 _ r (padded_of_trim y2) Gb), mbind_ok.
    destruct (stem_panics op stem x y (eq_sym Em) I No) as [q Q]. rewrite Q. now eexists _, _.
  - set (stem := #"c." ++ r) in *. assert (Es : #"c." ++ r ++ [x; y] = stem ++ [x; y]) by (unfold stem; now rewrite <- app_assoc).
    rewrite Es in *. assert (Nt : no_ws (stem ++ [x; y])).
    { apply forallb_forall. intros z Iz. rewrite <- Es in Iz. apply in_app_or in Iz as [Iz|Iz]; [cbn in Iz; destruct Iz as [<-|[<-|[]]]; reflexivity|now rewrite (W z Iz)]. }
    rewrite (trim_no_ws _ Nt). assert (Sc : starts_with #"c." (stem ++ [x; y]) = true) by (rewrite <- Es; apply starts_with_app).
    replace (classify (stem ++ [x; y])) with (@None group).
    2: { destruct (classify (stem ++ [x; y])) as [g|] eqn:C; [|reflexivity]. exfalso. apply classify_in in C.
         assert (X := proj1 (forallb_forall _ _) table_compares _ C). cbn [fst] in X. rewrite Sc in X. discriminate X. }
    unfold parse_float. rewrite <- to_lower_length, <- Em, stem_split.
    replace (Nat.ltb (List.length (stem ++ [x; y])) 2) with false by (symmetry; apply Nat.ltb_ge; rewrite app_length; cbn [List.length]; lia). cbv zeta.
    assert (Sd : starts_with #"c." stem = true) by (unfold stem; apply starts_with_app).
    assert (M : forall names, forallb (fun z => negb (starts_with #"c." z)) names = true -> mem_str stem names = false).
    { intros names Hn. destruct (mem_str stem names) eqn:Mm; [|reflexivity]. exfalso. apply mem_is in Mm. rewrite forallb_forall in Hn. specialize (Hn _ Mm). rewrite Sd in Hn. discriminate Hn. }
    rewrite (M float3_names eq_refl), (M float2_names eq_refl), Sd.
    destruct xs as [|y1 [|y2 [|]]]; try discriminate Eo. injection Eo as -> ->.
    rewrite (afreg_ok e s y1 _ d (padded_of_trim y1) Ga), mbind_ok, (afreg_ok e s y2 _ u (padded_of_trim y2) Gb), mbind_ok.
    assert (Lc : exists c, match rev op with c :: _ => [c] | [] => [] end = [c] /\ to_lower [c] = [y]).
    { assert (Er : to_lower (rev op) = y :: x :: rev stem) by (unfold to_lower; rewrite map_rev; fold (to_lower op); rewrite <- Em, rev_app_distr; reflexivity).
      destruct (rev op) as [|c ro]; [discriminate Er|]. exists c. split; [reflexivity|]. injection Er as E1 _. unfold to_lower. cbn [map]. now rewrite E1. }
    destruct Lc as (c & -> & Ec). destruct (compare_panics c) as [q Q]; [rewrite Ec; intros E; apply Ns; now injection E|rewrite Ec; intros E; apply Nd; now injection E|].
    rewrite Q. now eexists _, _.
  - assert (C : classify (trim m) = Some GJump) by (destruct I as [<-|[<-|[]]]; reflexivity). rewrite C. unfold parse_jump. destruct xs as [|y1 [|]]; try discriminate Eo. injection Eo as E1.
    rewrite (check_delay_ok e s raw Rd). rewrite <- E1.
    assert (Pt : exists q, parse_target e s [] = Panic q).
    { unfold parse_target. destruct (find _ _) as [[a n]|] eqn:Fi; [|now eexists]. exfalso. apply find_some in Fi as [Fi Fe]. cbn [snd] in Fe. apply str_eqb_spec in Fe. subst n. exact (Ns a Fi). }
    destruct Pt as [q Q]. cbv zeta. rewrite Q. now eexists _, _.
Qed.
End Fatal.
