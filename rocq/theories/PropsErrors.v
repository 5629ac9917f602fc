(** * PropsErrors: the errors a program is reported to have (C33, C34, C36, C37, C39). *)

From Coq Require Import Lia.
From Verif Require Import Lib SpecIsa StrLemmas TextProofs ScanProofs ProgProofs BranchProofs CongProofs ErrorProofs SpecErrors SpecText SpecProgram.

(** ** C33  All errors are reported, in order, with their lines *)

Definition C33_full : Prop := forall rt m input es, assemble rt m input = Err es ->
  es <> [] /\ Forall (well_placed (lines input)) es /\ in_order es.

(** Every error carries a line of the program.  The errors found while reading lines come
    first, then the errors in references; each of the two groups is in source order with at
    most one error per line, and no line has an error in both (when no branch is out of
    bounds; those errors are reported on the last line, see C34). *)
Theorem C33_errors_partial rt m input es : assemble rt m input = Err es ->
  let line_errors := filter (fun p => negb (reference_error p)) es in
  let reference_errors := filter reference_error es in
  es <> [] /\ Forall (well_placed (lines input)) es /\ es = line_errors ++ reference_errors
  /\ in_order line_errors
  /\ (Forall (fun p => bounds_error p = false) es ->
      in_order reference_errors
      /\ forall p q, In p line_errors -> In q reference_errors -> error_number p <> error_number q).
Proof.
  intros A. destruct (assemble_cases rt m input) as [[p E]|(s & is1 & errs & Sc & Ad & C)]; [congruence|].
  destruct C as [[Ne E]|(_ & _ & out & E)]; [|congruence]. assert (es = p_errors s ++ errs) as -> by congruence. clear A E.
  set (e := mk_parser rt m input) in *.
  destruct (sound_scan e (lines input) (proj2 (Forall_forall _ _) (lines_no_nl input)) init_state [] [] s (sound_init e) eq_refl Sc) as [fs So].
  cbn [app] in So. destruct (final_same e s) as (F1 & F2 & F3 & F4 & F5).
  rewrite (so_insts _ _ _ _ So) in Ad. destruct (adjust_errors _ _ _ _ _ _ _ Ad) as [Re Ro]. rewrite (so_errors _ _ _ _ So) in *.
  assert (Wf : forall p, In p (wrongs fs) -> reference_error p = false).
  { intros p P. apply wrongs_in in P as [k P]. apply (so_wrong _ _ _ _ So k p P). }
  assert (Fw : filter (fun p => negb (reference_error p)) (wrongs fs) = wrongs fs).
  { revert Wf. generalize (wrongs fs). induction l as [|p l IH]; intros H; [reflexivity|]. cbn. rewrite H by now left. cbn. f_equal. apply IH. intros q Q. apply H. now right. }
  assert (Fw' : filter reference_error (wrongs fs) = []).
  { revert Wf. generalize (wrongs fs). induction l as [|p l IH]; intros H; [reflexivity|]. cbn. rewrite H by now left. apply IH. intros q Q. apply H. now right. }
  assert (Re' : forall p, In p errs -> reference_error p = true) by (intros p P; apply (Re p P)).
  assert (Fe : filter (fun p => negb (reference_error p)) errs = []).
  { revert Re'. clear. generalize errs. induction errs0 as [|p l IH]; intros H; [reflexivity|]. cbn. rewrite H by now left. cbn. apply IH. intros q Q. apply H. now right. }
  assert (Fe' : filter reference_error errs = errs).
  { revert Re'. clear. generalize errs. induction errs0 as [|p l IH]; intros H; [reflexivity|]. cbn. rewrite H by now left. cbn. f_equal. apply IH. intros q Q. apply H. now right. }
  cbv zeta. rewrite !filter_app, Fw, Fw', Fe, Fe', app_nil_r. cbn [app].
  split; [exact Ne|]. split.
  { apply Forall_forall. intros p P. apply in_app_or in P as [P|P].
    - apply wrongs_in in P as [k P]. destruct (so_wrong _ _ _ _ So k p P) as (_ & N & Q). unfold well_placed. rewrite N, Nat.sub_succ, Nat.sub_0_r. split; [lia|exact Q].
    - destruct (Re p P) as [_ Q]. unfold well_placed, error_number. destruct (bounds_error p).
      + destruct Q as (c & Q & ->). cbn. rewrite F4, (so_line _ _ _ _ So) in *. split; [|exact Q].
        assert (List.length (lines input) <> O); [|lia]. intros Z. rewrite Z in Q. apply length_zero_iff_nil in Z. change (e_input e) with (lines input) in Q. rewrite Z in Q. discriminate.
      + destruct Q as (k & ins & c & _ & Q & ->). cbn. rewrite Nat.sub_0_r. split; [lia|exact Q]. }
  split; [reflexivity|]. split.
  { apply (wrongs_order fs 0). intros k p P. apply (so_wrong _ _ _ _ So k p P). }
  intros Nb. apply Forall_app in Nb as [_ Nb]. rewrite Forall_forall in Nb.
  assert (Fb : filter (fun p => negb (bounds_error p)) errs = errs).
  { revert Nb. clear. generalize errs. induction errs0 as [|p l IH]; intros H; [reflexivity|]. cbn. rewrite H by now left. cbn. f_equal. apply IH. intros q Q. apply H. now right. }
  rewrite Fb in Ro. split; [exact Ro|]. intros p q P Q. apply wrongs_in in P as [k P]. destruct (so_wrong _ _ _ _ So k p P) as (_ & N & _).
  destruct (Re q Q) as [_ Q']. rewrite (Nb q Q) in Q'. destruct Q' as (k' & ins & c & Q1 & _ & Q2). unfold error_number at 2. rewrite N, Q2. cbn. intros E. injection E as ->. congruence.
Qed.

(** Hence the property holds when all errors are found while reading lines, or all are
    references to missing labels. *)
Theorem C33_in_order_partial rt m input es : assemble rt m input = Err es ->
  Forall (fun p => reference_error p = false) es \/ Forall (fun p => reference_error p = true /\ bounds_error p = false) es ->
  es <> [] /\ Forall (well_placed (lines input)) es /\ in_order es.
Proof.
  intros A H. destruct (C33_errors_partial rt m input es A) as (Ne & W & E & O1 & O2). split; [exact Ne|]. split; [exact W|].
  destruct H as [H|H].
  - assert (F : filter (fun p => negb (reference_error p)) es = es); [|now rewrite F in O1].
    clear -H. induction H as [|p l P _ IH]; [reflexivity|]. cbn. rewrite P. cbn. now f_equal.
  - assert (F : filter reference_error es = es).
    { clear -H. induction H as [|p l [P _] _ IH]; [reflexivity|]. cbn. rewrite P. cbn. now f_equal. }
    rewrite F in O2. apply O2. eapply Forall_impl; [|exact H]. now intros p [_ P].
Qed.

(** Whether a line has an error of its own depends on the line and on the labels defined
    before it: it has one exactly when it has one in the program made of the label
    definitions before it and the line itself. *)
Definition defines_label (l : str) : bool := match role_of l with Defines _ => true | _ => false end.
Definition own_error (rt : runtime) (m : mipsasm) (input : str) (ln : line) : Prop :=
  exists es p, assemble rt m input = Err es /\ In p es /\ reference_error p = false /\ error_line p = ln.

Lemma names_filter ls : forall j k, map fst (label_table j (filter defines_label ls)) = map fst (label_table k ls).
Proof.
  induction ls as [|l ls IH]; intros j k; [reflexivity|]. cbn [filter label_table]. unfold defines_label at 1.
  destruct (role_of l) as [|n|] eqn:R; [apply IH| |apply IH]. cbn [label_table]. rewrite R. destruct (is_local n); [apply IH|]. cbn. f_equal. apply IH.
Qed.
Lemma own_error_at rt m input l1 raw l2 : lines input = l1 ++ raw :: l2 -> (forall p, assemble rt m input <> Panic p) ->
  let e := mk_parser rt m input in
  exists s1 f1 x, sound e s1 l1 f1 /\ fated e s1 raw x
    /\ (own_error rt m input (mk_line (S (List.length l1)) raw) <-> exists p, x = Wrong p).
Proof.
  intros Ei Np e. destruct (read_to_end rt m input Np) as (s & is1 & errs & Sc & Ad & Er). fold e in Sc, Ad.
  destruct (sound_at e s l1 raw l2 (proj2 (Forall_forall _ _) (lines_no_nl input)) Ei Sc) as (s1 & f1 & x & f2 & _ & So1 & Fx & So).
  exists s1, f1, x. split; [exact So1|]. split; [exact Fx|].
  assert (Nx : nth_error (f1 ++ x :: f2) (List.length l1) = Some x) by (rewrite <- (so_fates _ _ _ _ So1), nth_error_app2, Nat.sub_diag by lia; reflexivity).
  unfold own_error. split.
  - intros (es & p & A & I & R & L). assert (J : In p (p_errors s ++ errs)) by (apply Er; eauto).
    apply in_app_or in J as [J|J].
    + rewrite (so_errors _ _ _ _ So) in J. apply wrongs_in in J as [k J]. destruct (so_wrong _ _ _ _ So k p J) as (_ & N & _).
      unfold error_number in N. rewrite L in N. cbn in N. injection N as N. subst k. rewrite Nx in J. injection J as ->. eauto.
    + rewrite (so_insts _ _ _ _ So) in Ad. destruct (adjust_errors _ _ _ _ _ _ _ Ad) as [Re _]. destruct (Re p J). congruence.
  - intros [p ->]. assert (J : In p (p_errors s ++ errs)).
    { apply in_or_app. left. rewrite (so_errors _ _ _ _ So). apply wrongs_in. eauto. }
    apply Er in J as (es & A & I). exists es, p. destruct (so_wrong _ _ _ _ So _ p Nx) as (R & N & C). repeat split; auto.
    unfold error_number in N. destruct (error_line p) as [n c]. cbn in *. subst n. rewrite Ei, nth_error_app2, Nat.sub_diag in C by lia. cbn in C. congruence.
Qed.

Theorem C33_line_partial rt m input input' l1 raw l2 :
  lines input = l1 ++ raw :: l2 -> lines input' = filter defines_label l1 ++ [raw] ->
  (forall p, assemble rt m input <> Panic p) -> (forall p, assemble rt m input' <> Panic p) ->
  own_error rt m input (mk_line (S (List.length l1)) raw)
  <-> own_error rt m input' (mk_line (S (List.length (filter defines_label l1))) raw).
Proof.
  intros E E' P P'. destruct (own_error_at rt m input l1 raw l2 E P) as (s & f & x & So & Fx & ->).
  destruct (own_error_at rt m input' _ raw [] E' P') as (s' & f' & x' & So' & Fx' & ->).
  set (e := mk_parser rt m input) in *. set (e' := mk_parser rt m input') in *.
  assert (Nm : forall n, assoc n (p_labels s) = None <-> assoc n (p_labels s') = None).
  { intros n. rewrite !assoc_names.
    assert (K : forall n, In n (map fst (p_labels s)) <-> In n (map fst (p_labels s'))); [|now rewrite K].
    intros k. assert (G : forall (t : list (str * nat)) (e0 : env) s0 d0 f0, sound e0 s0 d0 f0 -> In k (map fst (p_labels s0)) -> good_label k /\ is_local k = false).
    { intros _ e0 s0 d0 f0 S0 I. apply in_map_iff in I as ((n0, j) & <- & I). apply (so_labels _ _ _ _ S0) in I. apply I. }
    split; intros I.
    - destruct (G [] _ _ _ _ So I) as [G1 G2]. apply (so_names _ _ _ _ So') ; auto. rewrite (names_filter l1 0 0). now apply (so_names _ _ _ _ So).
    - destruct (G [] _ _ _ _ So' I) as [G1 G2]. apply (so_names _ _ _ _ So) ; auto. rewrite <- (names_filter l1 0 0). now apply (so_names _ _ _ _ So'). }
  assert (Rd := sound_ready _ _ _ _ _ _ So E). assert (Rd' := sound_ready _ _ _ _ _ _ So' E').
  assert (Ak : alike e e' (bump s) (bump s') raw raw) by (constructor; [reflexivity|reflexivity|exact Nm|exact Rd|exact Rd']).
  assert (X := same_inst e e' (bump s) (bump s') raw raw (clean raw) Ak (clean_part raw) (clean_part raw)).
  unfold same in X.
  destruct Fx as [R|k R O|k c r R Ek D|k j fl R G As Nj|w i R Pi|w p R Pi El Ek]; inversion Fx' as [R'|k' R' O'|k' c' r' R' Ek' D'|k' j' fl' R' G' As' Nj'|w' i' R' Pi'|w' p' R' Pi' El' Ek']; subst x'; rewrite R in R'; try discriminate;
    try (split; (intros [q Q]; discriminate Q)); try (split; intros _; eexists; reflexivity);
    try (injection R' as <-); try (rewrite Pi, Pi' in X; cbn in X; try destruct X; fail).
  - exfalso. subst k. destruct O as [O _]. cbn in O. congruence.
  - exfalso. destruct O as [_ O]. apply Nm in O. congruence.
  - exfalso. subst k. destruct O' as [O' _]. cbn in O'. congruence.
  - exfalso. destruct O' as [_ O']. apply Nm in O'. congruence.
Qed.

(** The lines in error and in good order. *)
Example C33_case : exists es, assemble (mk_runtime true (fun l => l)) m_new #"nop
foo $a0
x:
addiu $a0, $a1
x:
nop" = Err es /\ map error_number es = [2; 4; 5]%nat /\ Forall (fun p => reference_error p = false) es.
Proof. eexists. split; [vm_compute; reflexivity|]. split; [reflexivity|]. repeat constructor. Qed.

(** A jump to a missing label before a line in error is reported after it. *)
Theorem C33_refuted : ~ C33_full.
Proof.
  intros H. specialize (H (mk_runtime true (fun l => l)) m_new #"j x
foo $a0"). destruct (assemble _ _ _) as [out|es|] eqn:A; [vm_compute in A; discriminate A| |vm_compute in A; discriminate A].
  specialize (H es eq_refl). vm_compute in A. injection A as <-. destruct H as (_ & _ & O & _). specialize (O _ (or_introl eq_refl)). cbn in O. lia.
Qed.

(** ** C37  Label syntax *)

Lemma never_labelled e s raw : role_of raw = Defines [] -> forall x, ~ fated e s raw x.
Proof.
  intros R x F. destruct F as [R'|k R' O|k c r R' Ek D|k j fl R' G As Nj|w i R' Pi|w p R' Pi El Ek]; rewrite R in R'; try discriminate; injection R' as <-.
  - destruct O as [[] _].
  - discriminate.
  - destruct G.
Qed.

(** A line that defines the empty label is never accepted ([assemble] panics). *)
Theorem C37_empty rt m input raw : In raw (lines input) -> role_of raw = Defines [] -> exists p, assemble rt m input = Panic p.
Proof.
  intros I R. destruct (assemble_cases rt m input) as [H|(s & is1 & errs & Sc & _)]; [exact H|exfalso].
  apply in_split in I as (l1 & l2 & E).
  destruct (sound_at (mk_parser rt m input) s l1 raw l2 (proj2 (Forall_forall _ _) (lines_no_nl input)) E Sc) as (s1 & f1 & x & f2 & _ & _ & Fx & _).
  exact (never_labelled _ _ _ R x Fx).
Qed.

(** Any other label definition is in error exactly when the label starts with a digit or is a
    global label defined before. *)
Theorem C37_label_syntax rt m input l1 raw l2 n : lines input = l1 ++ raw :: l2 -> role_of raw = Defines n ->
  (forall p, assemble rt m input <> Panic p) ->
  n <> [] /\ (own_error rt m input (mk_line (S (List.length l1)) raw) <->
    (exists c r, n = c :: r /\ is_digit c = true) \/ (is_local n = false /\ In n (map fst (label_table 0 l1)))).
Proof.
  intros E R P. split.
  { intros ->. destruct (C37_empty rt m input raw) as [p A]; [rewrite E; apply in_or_app; right; now left|exact R|]. now destruct (P p). }
  destruct (own_error_at rt m input l1 raw l2 E P) as (s & f & x & So & Fx & ->).
  assert (Loc : forall j, assoc n (p_labels s) = Some j -> is_local n = false).
  { intros j As. apply assoc_in in As. apply (so_labels _ _ _ _ So) in As. apply As. }
  destruct Fx as [R'|k R' O|k c r R' Ek D|k j fl R' G As Nj|w i R' Pi|w p R' Pi El Ek]; rewrite R in R'; try discriminate; injection R' as <-.
  - split; [intros [p D]; discriminate|]. intros [(c & r & -> & D)|[L I]]; exfalso.
    + destruct O as [O _]. congruence.
    + destruct O as [G As]. apply (so_names _ _ _ _ So n G L) in I. apply assoc_names in As. auto.
  - split; [|eauto]. intros _. left. eauto.
  - split; [|eauto]. intros _. right. assert (L := Loc j As). split; [exact L|]. apply (so_names _ _ _ _ So n G L). apply assoc_in in As. now apply (in_map fst) in As.
Qed.

(** Labels emit no words: there is one output instruction for each instruction line. *)
Theorem C37_no_words rt m input out : assemble rt m input = Ok out -> List.length out = instruction_count (lines input).
Proof.
  intros A. apply assemble_ok in A as (s & is1 & A).
  apply (assembled_labels _ _ _ _ _ (proj2 (Forall_forall _ _) (lines_no_nl input)) A).
Qed.

Example C37_case : let input := #"a:
1b:
@@x:
a:
@@x:
nop" in (forall p, assemble (mk_runtime true (fun l => l)) m_new input <> Panic p)
  /\ map role_of (lines input) = [Defines #"a"; Defines #"1b"; Defines #"@@x"; Defines #"a"; Defines #"@@x"; Instruction].
Proof. split; [|vm_compute; reflexivity]. intros p A. vm_compute in A. discriminate A. Qed.

(** ** C36  Duplicate global labels are rejected *)

(** [first_definition ls n l1 raw]: the lines [ls] define [n] first in the line [raw], after
    the lines [l1]. *)
Definition first_definition (ls : list str) (n : str) (l1 : list str) (raw : str) : Prop :=
  exists l2, ls = l1 ++ raw :: l2 /\ role_of raw = Defines n /\ ~ In n (map fst (label_table 0 l1)).

Definition C36_full : Prop := forall rt m input l1 raw l2 n a first,
  lines input = l1 ++ raw :: l2 -> role_of raw = Defines n -> good_label n -> is_local n = false ->
  first_definition l1 n a first -> (forall p, assemble rt m input <> Panic p) ->
  exists es, assemble rt m input = Err es
    /\ In (EMultipleLabelDefinition (mk_line (S (List.length l1)) raw) n (mk_line (S (List.length a)) first)) es.

(** The error names the label, the line of the second definition and some other line. *)
Theorem C36_rejected rt m input l1 raw l2 n a first :
  lines input = l1 ++ raw :: l2 -> role_of raw = Defines n -> good_label n -> is_local n = false ->
  first_definition l1 n a first -> (forall p, assemble rt m input <> Panic p) ->
  exists es k other, assemble rt m input = Err es
    /\ In (EMultipleLabelDefinition (mk_line (S (List.length l1)) raw) n (mk_line (S k) other)) es
    /\ nth_error (lines input) k = Some other /\ (k <= instruction_count a)%nat
    /\ ((forall p, In p es -> (error_number p <= List.length a)%nat -> reference_error p = true) -> k = instruction_count a).
Proof.
  intros E R G L (b & E1 & R1 & Ni) P. destruct (read_to_end rt m input P) as (s & is1 & errs & Sc & Ad & Er). set (e := mk_parser rt m input) in *.
  assert (Nn := proj2 (Forall_forall _ _) (lines_no_nl input)). assert (E' : e_input e = a ++ first :: (b ++ raw :: l2)) by (change (e_input e) with (lines input); rewrite E, E1, <- app_assoc; reflexivity).
  destruct (sound_at e s a first (b ++ raw :: l2) Nn E' Sc) as (sa & fa & xa & fb & Sca & Soa & Fa & _).
  destruct (sound_at e s l1 raw l2 Nn E Sc) as (s1 & f1 & x & f2 & Sc1 & So1 & Fx & So).
  change (e_input e) with (lines input) in *.
  assert (Nall := Nn). rewrite E' in Nall. apply Forall_app in Nall as [Na Nall]. assert (Nf := Forall_inv Nall). assert (Nb' := Forall_inv_tail Nall). apply Forall_app in Nb' as [Nb _].
  assert (Sc1' := Sc1). rewrite E1, scan_app, Sca in Sc1'. cbn [obind scan_lines] in Sc1'. apply obind_ok in Sc1' as (sb & St & Scb).
  apply step_view in St; [|exact Nf].
  assert (Na' : assoc n (p_labels sa) = None).
  { apply assoc_names. intros J. apply (so_names _ _ _ _ Soa n G L) in J. exact (Ni J). }
  assert (Lb : p_labels sb = p_labels sa ++ [(n, List.length (p_insts sa))]).
  { destruct St as [R'|k R' Lc O|k R' Lc O|k p R' O|w i R' O|w p R' O]; rewrite R1 in R'; try discriminate; injection R' as <-.
    - reflexivity.
    - congruence.
    - exfalso. assert (K := proj2 (parse_label_ok e (bump sa) n n) (conj eq_refl (conj G Na'))). congruence. }
  destruct (scan_grows e b Nb _ _ Scb) as [(_ & [xl El] & _) _].
  assert (As : assoc n (p_labels s1) = Some (List.length (p_insts sa))).
  { rewrite El, Lb, <- app_assoc. clear -Na'. induction (p_labels sa) as [|[k v] l IH]; cbn in *; [now rewrite str_eqb_refl|]. destruct (str_eqb n k); [discriminate|auto]. }
  destruct Fx as [R'|k R' O|k c r R' Ek D|k j fl R' G' As' Nj|w i R' Pi|w p R' Pi El' Ek]; rewrite R in R'; try discriminate; injection R' as <-.
  - destruct O as [_ O]. congruence.
  - subst n. cbn in G. congruence.
  - rewrite As in As'. injection As' as <-. rewrite (so_line _ _ _ _ So1) in So.
    assert (J : In (EMultipleLabelDefinition (mk_line (S (List.length l1)) raw) n (mk_line (S (List.length (p_insts sa))) fl)) (p_errors s ++ errs)).
    { apply in_or_app. left. rewrite (so_errors _ _ _ _ So). apply wrongs_in. exists (List.length f1). now rewrite nth_error_app2, Nat.sub_diag by lia. }
    apply Er in J as (es & A & I). exists es, (List.length (p_insts sa)), fl. split; [exact A|]. split; [exact I|]. split; [exact Nj|].
    split; [exact (insts_bound e a Na _ _ Sca)|]. intros Q.
    assert (Ea : p_errors sa = []).
    { destruct (p_errors sa) as [|p ps] eqn:Ep; [reflexivity|exfalso].
      assert (Ip : In p (wrongs fa)) by (rewrite <- (so_errors _ _ _ _ Soa), Ep; now left).
      apply wrongs_in in Ip as [k Ip]. destruct (so_wrong _ _ _ _ Soa k p Ip) as (Rp & Np & _).
      assert (Bk : (k < List.length fa)%nat) by (apply nth_error_Some; congruence). rewrite (so_fates _ _ _ _ Soa) in Bk.
      assert (Ge : grows sa s).
      { assert (X := Sc). rewrite E', scan_app, Sca in X. apply (scan_grows e _ Nall) in X. apply X. }
      destruct Ge as (_ & _ & [xe Ge] & _).
      assert (Ia : exists es', assemble rt m input = Err es' /\ In p es') by (apply Er; rewrite Ge, Ep; now left).
      destruct Ia as (es' & A' & I'). rewrite A in A'. injection A' as <-. assert (reference_error p = true) by (apply Q; [exact I'|lia]). congruence. }
    destruct (scan_ok e a Na _ _ Sca Ea) as (new & In' & Ln & _). cbn in In', Ln. rewrite In', <- (map_length fst new), Ln. apply instruction_lines_length.
Qed.

(** The line of the first definition is right when only instructions (without errors) come
    before it. *)
Theorem C36_first_partial rt m input l1 raw l2 n a first es :
  lines input = l1 ++ raw :: l2 -> role_of raw = Defines n -> good_label n -> is_local n = false ->
  first_definition l1 n a first -> assemble rt m input = Err es ->
  (forall l, In l a -> role_of l = Instruction) ->
  (forall p, In p es -> (error_number p <= List.length a)%nat -> reference_error p = true) ->
  In (EMultipleLabelDefinition (mk_line (S (List.length l1)) raw) n (mk_line (S (List.length a)) first)) es.
Proof.
  intros E R G L F A Ia Q. assert (P : forall p, assemble rt m input <> Panic p) by (intros p; congruence).
  destruct (C36_rejected rt m input l1 raw l2 n a first E R G L F P) as (es' & k & other & A' & I & Nk & _ & K).
  rewrite A in A'. injection A' as <-. specialize (K Q).
  assert (C : instruction_count a = List.length a).
  { unfold instruction_count. clear -Ia. induction a as [|l a IH]; [reflexivity|]. cbn. unfold is_instruction at 1. rewrite (Ia l) by now left. cbn. f_equal. apply IH. intros x X. apply Ia. now right. }
  rewrite C in K. subst k. destruct F as (b & E1 & _). rewrite E, E1, <- app_assoc, nth_error_app2, Nat.sub_diag in Nk by lia. cbn in Nk. injection Nk as <-. exact I.
Qed.

(** Only labels that were defined before are reported as defined twice. *)
Theorem C36_only_duplicates rt m input es ln n fl : assemble rt m input = Err es -> In (EMultipleLabelDefinition ln n fl) es ->
  exists l1 l2, lines input = l1 ++ l_content ln :: l2 /\ l_num ln = S (List.length l1) /\ role_of (l_content ln) = Defines n
    /\ is_local n = false /\ In n (map fst (label_table 0 l1)).
Proof.
  intros A I. destruct (C33_errors_partial rt m input es A) as (_ & W & _). rewrite Forall_forall in W. destruct (W _ I) as [N0 N].
  cbn in N0, N. unfold error_number in N, N0. cbn in N, N0. apply nth_error_split in N as (l1 & l2 & E & Ln). exists l1, l2. split; [exact E|]. split; [lia|].
  assert (P : forall p, assemble rt m input <> Panic p) by (intros p; congruence).
  destruct (read_to_end rt m input P) as (s & is1 & errs & Sc & Ad & Er). set (e := mk_parser rt m input) in *.
  destruct (sound_at e s l1 (l_content ln) l2 (proj2 (Forall_forall _ _) (lines_no_nl input)) E Sc) as (s1 & f1 & x & f2 & _ & So1 & Fx & So).
  assert (J : In (EMultipleLabelDefinition ln n fl) (p_errors s ++ errs)) by (apply Er; eauto).
  apply in_app_or in J as [J|J].
  2:{ rewrite (so_insts _ _ _ _ So) in Ad. destruct (adjust_errors _ _ _ _ _ _ _ Ad) as [Re _]. destruct (Re _ J). discriminate. }
  rewrite (so_errors _ _ _ _ So) in J. apply wrongs_in in J as [k J]. destruct (so_wrong _ _ _ _ So k _ J) as (_ & Nk & _). cbn in Nk. unfold error_number in Nk. cbn in Nk.
  assert (k = List.length f1) by (rewrite (so_fates _ _ _ _ So1); lia). subst k. rewrite nth_error_app2, Nat.sub_diag in J by lia. cbn in J. injection J as ->.
  inversion Fx as [|?|?|k j fl' R G As Nj|?|w p R Pi El Ek]; subst.
  - assert (Il := As). apply assoc_in in Il. destruct (so_labels _ _ _ _ So1 _ _ Il) as (_ & _ & Lc). repeat split; auto.
    apply (so_names _ _ _ _ So1 n G Lc). now apply (in_map fst) in Il.
  - discriminate.
Qed.

Example C36_case : let input := #"nop
add $a0, $a1, $a2
x:
nop
x:
jr $ra" in let l1 := firstn 4 (lines input) in
  lines input = l1 ++ #"x:" :: [ #"jr $ra" ] /\ role_of #"x:" = Defines #"x" /\ good_label #"x" /\ is_local #"x" = false
  /\ first_definition l1 #"x" (firstn 2 (lines input)) #"x:"
  /\ assemble (mk_runtime true (fun l => l)) m_new input = Err [EMultipleLabelDefinition (mk_line 5 #"x:") #"x" (mk_line 3 #"x:")].
Proof.
  cbv zeta. split; [vm_compute; reflexivity|]. split; [vm_compute; reflexivity|]. split; [vm_compute; reflexivity|]. split; [vm_compute; reflexivity|].
  split; [|vm_compute; reflexivity]. exists [ #"nop" ]. split; [vm_compute; reflexivity|]. split; [vm_compute; reflexivity|]. vm_compute. intros [].
Qed.

(** The line that is named as the first definition of [y] is [nop]. *)
Theorem C36_refuted : ~ C36_full.
Proof.
  intros H. set (input := #"x:
nop
y:
z:
y:").
  specialize (H (mk_runtime true (fun l => l)) m_new input [ #"x:"; #"nop"; #"y:"; #"z:" ] #"y:" [] #"y" [ #"x:"; #"nop" ] #"y:" ltac:(vm_compute; reflexivity) ltac:(vm_compute; reflexivity) ltac:(vm_compute; reflexivity) ltac:(vm_compute; reflexivity)).
  destruct H as (es & A & I).
  - exists [ #"z:" ]. split; [reflexivity|]. split; [vm_compute; reflexivity|]. vm_compute. intros [D|[]]. discriminate D.
  - intros p A. vm_compute in A. discriminate A.
  - vm_compute in A. injection A as <-. destruct I as [I|[]]. vm_compute in I. discriminate I.
Qed.
