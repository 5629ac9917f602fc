(** * PanicMore: harmless programs do not panic (proofs only). *)

From Coq Require Import Lia Permutation.
From Verif Require Import Lib SpecIsa StrLemmas NumLemmas DecodeProofs TextProofs OperandProofs NativeProofs LineProofs ScanProofs ProgProofs BranchProofs LabelProofs CongProofs ErrorProofs
  RefProofs HalfProofs QuietProofs WarnProofs ImmLines SpecErrors SpecText SpecProgram SpecLabels SpecImm.
From Verif Require Import SpecPanic PanicProofs.

Section Scan.
Variable e : env.
Variable labels : list str.

Lemma inst_calm s raw : ready e s raw -> no_nl raw -> (forall n, assoc n (p_labels s) <> None -> In n labels /\ good_label n) ->
  role_of raw = Instruction -> harmless_instruction (e_oc e) (e_syms e) labels raw ->
  calm (safe_inst (e_oc e)) (parse_inst e s (clean raw)).
Proof.
  intros Rd N Known Ro H. unfold harmless_instruction, operation, operands in H. unfold parse_inst.
  assert (Nc : no_nl (clean raw)). { destruct (clean_part raw) as (a & b & E). apply (infix_no_nl a _ b). now rewrite <- E. }
  assert (K : forall arg, part arg (clean raw) -> Forall (fun x => part x raw /\ no_nl x) (split_char "," arg)).
  { intros arg P. apply Forall_forall. intros x I. apply split_char_part in I. assert (Px : part x (clean raw)) by (apply (part_trans _ arg); assumption).
    split; [apply (part_trans _ (clean raw)); [exact Px|apply clean_part]|]. destruct Px as (a & b & E). apply (infix_no_nl a _ b). now rewrite <- E. }
  unfold role_of in Ro. destruct (split_once " " (clean raw)) as [[op arg]|] eqn:Sp.
  - destruct (clean raw) eqn:C; [discriminate|]. rewrite <- C in *. destruct H as (H1 & H2 & H3 & H4 & H5).
    apply (op_calm e s raw labels Rd Known); try assumption. apply K. apply split_once_decomp in Sp. rewrite Sp.
    exists (op ++ #" "), []. rewrite app_nil_r, <- app_assoc. reflexivity.
  - destruct (clean raw) eqn:C; [discriminate|]. rewrite <- C in *. destruct H as (H1 & H2 & H3 & H4 & H5).
    apply (op_calm e s raw labels Rd Known); try assumption. apply K. exists [], (clean raw). reflexivity.
Qed.

Definition table_known s := forall n k, In (n, k) (p_labels s) -> In n labels /\ good_label n.
Lemma known_assoc s : table_known s -> forall n, assoc n (p_labels s) <> None -> In n labels /\ good_label n.
Proof. intros T n H. destruct (assoc n (p_labels s)) eqn:A; [|congruence]. apply assoc_in in A. exact (T _ _ A). Qed.

Lemma step_calm s raw done rest fs : no_nl raw -> e_input e = done ++ raw :: rest -> sound e s done fs -> table_known s ->
  harmless_line (e_oc e) (e_syms e) labels raw -> Forall (fun x => safe_inst (e_oc e) (snd x)) (p_insts s) ->
  exists s', step_line e s raw = Ok s' /\ Forall (fun x => safe_inst (e_oc e) (snd x)) (p_insts s').
Proof.
  intros N Ei So T H Sf. assert (Rd := sound_ready _ _ _ _ _ _ So Ei). assert (Kn := known_assoc s T).
  unfold step_line. rewrite clean_spec by exact N. cbv zeta. change (mk_pstate _ _ _ _ (S (p_line s)) _ _) with (bump s) at 1.
  unfold harmless_line in H. unfold scan_line. destruct (ends_with #":" (clean raw)) eqn:Ec.
  - rewrite (role_label raw Ec) in H. set (k := drop_last (clean raw)) in *.
    assert (P : fine any (parse_label e (bump s) k)).
    { unfold parse_label. destruct k as [|c r] eqn:Ek; [congruence|]. destruct (is_digit c); [apply (fail_fine e (bump s) raw Rd)|].
      change (p_labels (bump s)) with (p_labels s). destruct (assoc (c :: r) (p_labels s)) as [first|] eqn:A; [|exact Logic.I].
      rewrite (got_line e (bump s) raw Rd). cbn [obind]. apply assoc_in in A. apply (so_labels _ _ _ _ So) in A as [A _].
      assert (Mc := made_count_le fs). rewrite (so_fates _ _ _ _ So) in Mc.
      assert (X : (first < List.length (e_input e))%nat) by (rewrite Ei, app_length; cbn; lia). apply nth_error_Some in X.
      destruct (nth_error (e_input e) first); [exact Logic.I|congruence]. }
    destruct (starts_with _ _); cbv zeta; (destruct (parse_label e (bump s) k); [|eexists; split; [reflexivity|exact Sf]|destruct P]);
      cbn [obind]; eexists; (split; [reflexivity|]); exact Sf.
  - destruct (clean raw) as [|a0 r0] eqn:C; [eexists; split; [reflexivity|exact Sf]|].
    assert (Ro : role_of raw = Instruction) by (unfold role_of; rewrite C, Ec; reflexivity). rewrite Ro in H. rewrite <- C in *.
    assert (P := inst_calm (bump s) raw Rd N Kn Ro H). unfold calm in P. destruct (parse_inst e (bump s) (clean raw)) as [w [i|p|p]]; cbn [snd fine] in P; [| |destruct P].
    + eexists. split; [reflexivity|]. cbn. apply Forall_app. split; [exact Sf|]. constructor; [exact P|constructor].
    + eexists. split; [reflexivity|exact Sf].
Qed.

Lemma table_names s done fs : sound e s done fs -> (forall n, In n (map fst (label_table 0 done)) -> In n labels) -> table_known s.
Proof.
  intros So Lb n k I. assert (X := so_labels _ _ _ _ So n k I). destruct X as (_ & G & L). split; [|exact G]. apply Lb.
  apply (so_names _ _ _ _ So n G L). apply (in_map fst) in I. exact I.
Qed.

Lemma scan_calm ls : Forall no_nl ls -> Forall (harmless_line (e_oc e) (e_syms e) labels) ls -> forall s done fs, e_input e = done ++ ls -> sound e s done fs ->
  (forall n, In n (map fst (label_table 0 (done ++ ls))) -> In n labels) -> Forall (fun x => safe_inst (e_oc e) (snd x)) (p_insts s) ->
  exists s', scan_lines e s ls = Ok s' /\ Forall (fun x => safe_inst (e_oc e) (snd x)) (p_insts s').
Proof.
  induction 1 as [|raw ls N _ IH]; intros Hl s done fs Ei So Lb Sf; cbn [scan_lines]; [eauto|].
  inversion Hl as [|? ? H1 H2]; subst.
  destruct (step_calm s raw done ls fs N Ei So) as (s1 & E1 & Sf1); [|exact H1|exact Sf|].
  { apply (table_names s done fs So). intros n I. apply Lb. rewrite label_table_app, map_app. apply in_or_app. now left. }
  rewrite E1. cbn [obind]. destruct (sound_step _ _ _ _ _ _ _ N So Ei E1) as (x & _ & So1).
  apply (IH H2 s1 (done ++ [raw]) (fs ++ [x])); [now rewrite <- app_assoc|exact So1| |exact Sf1]. now rewrite <- app_assoc.
Qed.
End Scan.

(** ** Label resolution *)

Lemma ck_total {E} oc v : (oc = true -> 0 <= v < 2 ^ 32) -> exists w, ck32 (E:=E) oc v = Ok w /\ (oc = true -> w = v).
Proof.
  intros H. unfold ck32. destruct ((0 <=? v) && (v <? 2 ^ 32))%bool eqn:B; [eauto|]. destruct oc; [|eexists; split; [reflexivity|discriminate]].
  specialize (H eq_refl). lia.
Qed.
Definition fits (oc : bool) (base : Z) (n : nat) : Prop := oc = true -> 0 <= base /\ base + 4 * Z.of_nat n < 2 ^ 32.
Lemma ck_bound {E} oc base n k : fits oc base n -> (k <= n)%nat ->
  exists a b, ck32 (E:=E) oc (wrap 32 (Z.of_nat k) * 4) = Ok a /\ ck32 (E:=E) oc (base + a) = Ok b.
Proof.
  intros F L. assert (W : oc = true -> wrap 32 (Z.of_nat k) = Z.of_nat k) by (intros O; specialize (F O); unfold wrap; apply Z.mod_small; lia).
  destruct (@ck_total E oc (wrap 32 (Z.of_nat k) * 4)) as (a & Ea & Ha); [intros O; rewrite (W O); specialize (F O); lia|].
  destruct (@ck_total E oc (base + a)) as (b & Eb & _); [intros O; rewrite (Ha O), (W O); specialize (F O); lia|]. eauto.
Qed.

Theorem resolution_total rt m input s : let e := mk_parser rt m input in orders rt -> fits (rt_oc rt) (m_base m) (instruction_count (lines input)) ->
  scan_lines e init_state (lines input) = Ok s -> exists r, adjust_from e (final e s) 0 (p_insts s) = Ok r.
Proof.
  intros e Or Bd Sc. assert (N := proj2 (Forall_forall _ _) (lines_no_nl input)).
  destruct (sound_scan e (lines input) N init_state [] [] s (sound_init e) eq_refl Sc) as [fs So]. cbn [app] in So.
  assert (Td : tidy (final e s) (lines input)) by (apply tidy_final; [exact Or|]; apply (tidy_scan e Or (lines input) N init_state [] s tidy_init Sc)).
  assert (K : all_known s) by (apply (all_known_scan e _ N init_state s); [intros n i []|exact Sc]).
  destruct (final_same e s) as (F1 & F2 & F3 & F4 & F5).
  assert (Ln0 := insts_bound e (lines input) N init_state s Sc). cbn [init_state p_insts List.length Nat.add] in Ln0.
  assert (Li : forall n i, In (n, i) (p_insts s) -> exists c, get_line e n = Ok (mk_line n c)).
  { intros n i I. rewrite (so_insts _ _ _ _ So) in I. apply mades_in in I as (k & Nk & ->). cbn.
    assert (X : (k < List.length fs)%nat) by (apply nth_error_Some; congruence). rewrite (so_fates _ _ _ _ So) in X.
    destruct (nth_error (lines input) k) as [c|] eqn:Ec; [|apply nth_error_None in Ec; lia]. exists c. apply get_line_nth. exact Ec. }
  assert (Ll : p_insts s <> [] -> exists c, get_line e (p_line (final e s)) = Ok (mk_line (p_line (final e s)) c)).
  { intros Ne. rewrite F4, (so_line _ _ _ _ So). destruct (List.length (lines input)) as [|k] eqn:El.
    - destruct (p_insts s) as [|[n i] r] eqn:Ep; [congruence|]. destruct (lines input); [|discriminate]. cbn in Ln0. lia.
    - destruct (nth_error (lines input) k) as [c|] eqn:Ec; [|apply nth_error_None in Ec; lia]. exists c. apply get_line_nth. exact Ec. }
  assert (Lb : forall n a, assoc n (p_labels (final e s)) = Some a -> (a <= instruction_count (lines input))%nat).
  { intros n a As. rewrite F2 in As. apply assoc_in in As. apply (so_labels _ _ _ _ So) in As as [As _]. rewrite <- (mades_count 0), <- (so_insts _ _ _ _ So) in As. lia. }
  assert (One : forall i n ins, In (n, ins) (p_insts s) -> exists r, adjust_one e (final e s) i n ins = Ok r).
  { intros i n ins I. destruct (Li n ins I) as [c Gc]. assert (Kn := K n ins I). unfold adjust_one.
    destruct ins as [op rs rt0 imm b|op t b|op rs rt0 rd sa b|w]; try (eexists; reflexivity).
    - destruct imm as [v|v|v|loc|lbl]; try (eexists; reflexivity).
      + destruct (negb (is_b_op op)); [eexists; reflexivity|]. rewrite F1. destruct (@ck_bound perror _ _ _ _ Bd Ln0) as (a1 & b1 & C1 & C2).
        change (e_oc e) with (rt_oc rt). change (e_base e) with (m_base m). rewrite C1. cbn [obind]. rewrite C2.
        destruct (Ll ltac:(intros E; rewrite E in I; destruct I)) as [cl ->]. rewrite Gc. cbn [obind].
        destruct (_ <? _); cbn [obind]; [eexists; reflexivity|]. destruct (_ >? _); cbn [obind]; eexists; reflexivity.
      + rewrite Gc. destruct (assoc loc (p_dropped (final e s))) as [defs|] eqn:Ed; [|eexists; reflexivity].
        destruct (pick_found (final e s) i defs) as [[a|] ->]; [apply (td_dropped _ _ Td loc defs Ed)| |]; cbn [obind]; eexists; reflexivity.
      + cbn in Kn. rewrite F2. destruct (assoc lbl (p_labels s)); [|congruence]. eexists; reflexivity.
    - destruct t as [lbl|a]; [|eexists; reflexivity]. rewrite Gc. destruct (assoc lbl (p_labels (final e s))) as [a|] eqn:As; [|eexists; reflexivity].
      destruct (@ck_bound perror _ _ _ _ Bd (Lb _ _ As)) as (a1 & b1 & C1 & C2). change (e_oc e) with (rt_oc rt). change (e_base e) with (m_base m).
      rewrite C1. cbn [obind]. rewrite C2. eexists; reflexivity. }
  clear -One. revert One. generalize (p_insts s) as l. generalize 0%nat as i.
  intros i l. revert i. induction l as [|[n x] l IH]; intros i One; [eexists; reflexivity|]. cbn [adjust_from].
  destruct (One i n x (or_introl eq_refl)) as [r ->]. cbn [obind]. destruct (IH (S i)) as [q ->]; [intros j k y I; apply One; now right|]. eexists; reflexivity.
Qed.

(** No labels are left. *)
Definition settled (i : inst) : Prop := match i with IImm _ _ _ im _ => imm_is_label im = false | IJump _ (TLabel _) _ => False | _ => True end.
Lemma adjust_one_settles e s i n x y : safe_inst (e_oc e) x -> adjust_one e s i n x = Ok (y, []) -> safe_inst (e_oc e) y /\ settled y.
Proof.
  intros Sf H. destruct x as [op rs rt im b|op t b|op rs rt rd sa b|w]; cbn [adjust_one] in H.
  - assert (Sh : forall a k, safe_inst (e_oc e) (IImm op rs rt (Short (wrap 16 a)) k)).
    { intros a k. split; [apply Sf|]. intros _. cbn. unfold wrap. change 65536 with (2 ^ 16). apply Z.mod_pos_bound. lia. }
    destruct im as [v|v|v|l|l].
    + injection H as <-. split; [exact Sf|reflexivity].
    + destruct (negb _); [injection H as <-; split; [exact Sf|reflexivity]|]. cbv zeta in H.
      apply obind_ok in H as (bad & _ & H). apply obind_ok in H as (er & _ & H). assert (H' := f_equal (fun o => match o with Ok p => fst p | _ => IBytes 0 end) H). cbn [fst] in H'.
      rewrite <- H'. split; [apply Sh|reflexivity].
    + injection H as <-. split; [exact Sf|reflexivity].
    + destruct (assoc l (p_dropped s)).
      * apply obind_ok in H as (p & _ & H). destruct p as [a|]; [|apply obind_ok in H as (? & _ & H); discriminate].
        assert (H' := f_equal (fun o => match o with Ok p => fst p | _ => IBytes 0 end) H). cbn [fst] in H'. rewrite <- H'. split; [apply Sh|reflexivity].
      * apply obind_ok in H as (? & _ & H). discriminate.
    + destruct (assoc l (p_labels s)); [|discriminate].
      assert (H' := f_equal (fun o => match o with Ok p => fst p | _ => IBytes 0 end) H). cbn [fst] in H'. rewrite <- H'. split; [apply Sh|reflexivity].
  - destruct t as [l|a]; [|injection H as <-; split; exact Logic.I]. destruct (assoc l (p_labels s)).
    + apply obind_ok in H as (a1 & _ & H). apply obind_ok in H as (a2 & _ & H). injection H as <-. split; exact Logic.I.
    + apply obind_ok in H as (? & _ & H). discriminate.
  - injection H as <-. split; [exact Sf|exact Logic.I].
  - destruct Sf.
Qed.
Lemma adjust_settles e s l : Forall (fun x => safe_inst (e_oc e) (snd x)) l -> forall i q, adjust_from e s i l = Ok q -> snd q = [] ->
  Forall (fun y => safe_inst (e_oc e) y /\ settled y) (fst q).
Proof.
  induction 1 as [|[n x] l Sf _ IH]; intros i q H E; cbn [adjust_from] in H; [injection H as <-; constructor|].
  apply obind_ok in H as ([y e1] & H1 & H). apply obind_ok in H as (q1 & H2 & H). injection H as <-. cbn [fst snd] in *. apply app_eq_nil in E as [-> E2].
  constructor; [|eauto]. eapply adjust_one_settles; eauto.
Qed.

(** ** Encoding *)

Definition done {E A} (Q : A -> Prop) (o : outcome E A) : Prop := match o with Ok a => Q a | _ => False end.
Lemma done_bind {E A B} P Q (o : outcome E A) (f : A -> outcome E B) : done P o -> (forall a, P a -> done Q (f a)) -> done Q (obind o f).
Proof. destruct o; cbn; auto; contradiction. Qed.
Lemma done_weaken {E A} (P Q : A -> Prop) (o : outcome E A) : (forall a, P a -> Q a) -> done P o -> done Q o.
Proof. destruct o; cbn; auto. Qed.

Lemma enc_total {E} oc op rs rt im : imm_is_label im = false -> (oc = true -> is_cmp op = false) -> (is_sub op = true -> short_imm im) -> done any (enc_i (E:=E) oc op rs rt im).
Proof.
  intros L C Sb. assert (U4 : done (fun v => imm_as_u32 (E:=E) im = Ok v) (imm_as_u32 (E:=E) im)) by (destruct im; try discriminate L; reflexivity).
  assert (U8 : done any (imm_as_u64 (E:=E) im)) by (destruct im; try discriminate L; exact Logic.I).
  assert (Ng : is_sub op = true -> forall v, imm_as_u32 (E:=E) im = Ok v -> done any (neg_i32 (E:=E) oc v)).
  { intros Su v Ev. specialize (Sb Su). destruct im as [w|w|w|w|w]; try discriminate L; try contradiction Sb. injection Ev as <-. cbn in Sb. unfold neg_i32. cbv zeta.
    assert (X : (sext 32 w =? - 2 ^ 31) = false) by (apply Z.eqb_neq; unfold sext; cbv zeta; rewrite Z.mod_small by lia; destruct (w <? 2 ^ (32 - 1)) eqn:Lt; lia). rewrite X. exact Logic.I. }
  assert (Ck : is_cmp op = true -> forall v, done any (ck32 (E:=E) oc v)).
  { intros Cm v. destruct oc; [rewrite (C eq_refl) in Cm; discriminate|]. unfold ck32. destruct (_ && _)%bool; exact Logic.I. }
  clear C Sb L. destruct op; cbn [enc_i];
    first [exact Logic.I
      | apply (done_bind any); [first [exact U8|eapply done_weaken; [|exact U4]; intros; exact Logic.I]|intros; exact Logic.I]
      | apply (done_bind _ _ _ _ U4); intros v Ev; apply (done_bind any); [first [apply Ck; vm_compute; reflexivity|apply (Ng eq_refl v Ev)]|intros; exact Logic.I]].
Qed.
Lemma assemble_total {E} oc l : Forall (fun y => safe_inst oc y /\ settled y) l -> done any (assemble_insts (E:=E) oc l).
Proof.
  induction 1 as [|i l [Sf St] _ IH]; [exact Logic.I|]. cbn [assemble_insts]. apply (done_bind any).
  - destruct i as [op rs rt im b|op t b|op rs rt rd sa b|w]; cbn [assemble_inst].
    + apply (done_bind any); [apply enc_total; [exact St|apply Sf|apply Sf]|intros; exact Logic.I].
    + destruct t as [t|t]; [destruct St|]. destruct op; exact Logic.I.
    + exact Logic.I.
    + destruct Sf.
  - intros. apply (done_bind any); [exact IH|intros; exact Logic.I].
Qed.

Theorem harmless_assemble rt m input : orders rt -> fits (rt_oc rt) (m_base m) (instruction_count (lines input)) ->
  Forall (harmless_line (rt_oc rt) (m_syms m) (map fst (label_table 0 (lines input)))) (lines input) -> forall p, assemble rt m input <> Panic p.
Proof.
  intros Or Ft H p. set (e := mk_parser rt m input). assert (N := proj2 (Forall_forall _ _) (lines_no_nl input)).
  destruct (scan_calm e (map fst (label_table 0 (lines input))) (lines input) N H init_state [] [] eq_refl (sound_init e)) as (s & Sc & Sf); [auto|constructor|].
  destruct (resolution_total rt m input s Or Ft Sc) as [q Q]. unfold assemble, parse. fold e. change (e_input e) with (lines input). rewrite Sc. cbn [obind].
  fold (final e s). destruct (final_same e s) as (F1 & F2 & F3 & F4 & F5). rewrite F1. fold e in Q. rewrite Q. cbn [obind].
  destruct (p_errors (final e s) ++ snd q) eqn:Er; [|discriminate]. apply app_eq_nil in Er as [_ Er].
  assert (A := adjust_settles e (final e s) (p_insts s) Sf 0 q Q Er). apply (assemble_total (E:=perror)) in A. change (e_oc e) with (rt_oc rt) in A.
  cbv beta iota zeta; destruct (assemble_insts (E:=perror) (rt_oc rt) (fst q)); [discriminate|destruct A|destruct A].
Qed.
