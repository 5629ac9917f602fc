(** * CauseProofs: errors for wrong operand counts, unknown mnemonics and registers (proofs only). *)

From Coq Require Import Lia.
From Verif Require Import Lib SpecIsa StrLemmas NumLemmas DecodeProofs TextProofs OperandProofs NativeProofs LineProofs ScanProofs ProgProofs BranchProofs LabelProofs AsmProofs CongProofs ErrorProofs
  ImmLines PanicProofs SpecErrors SpecText SpecProgram SpecLabels SpecPanic SpecCause.

Lemma parse_is e s l : role_of l = Instruction -> parse_inst e s (clean l) = parse_op e s (operation l) (operand_text_of l) (split_char "," (operand_text_of l)).
Proof.
  unfold role_of, parse_inst, operation, operand_text_of. intros R. destruct (split_once " " (clean l)) as [[op arg]|]; (destruct (clean l) as [|c z]; [discriminate|]); reflexivity.
Qed.
Lemma causes_of rt m l p : role_of l = Instruction ->
  (forall e s, e_syms e = m_syms m -> e_oc e = rt_oc rt -> ready e s l -> exists w, parse_op e s (operation l) (operand_text_of l) (split_char "," (operand_text_of l)) = (w, Err (p (mk_line (p_line s) l)))) ->
  causes rt m l p.
Proof.
  intros R H input l1 l2 E. assert (Ne : clean l <> []) by (unfold role_of in R; destruct (clean l); discriminate).
  assert (Ec : ends_with #":" (clean l) = false) by (unfold role_of in R; destruct (clean l); [discriminate|]; destruct (ends_with #":" (a :: s)); [discriminate|reflexivity]).
  assert (X := wrong_line rt m input l1 l l2 (fun q => q = p (mk_line (S (List.length l1)) l)) E Ne Ec).
  assert (Y : forall s, at_place (mk_parser rt m input) l1 l s -> exists w q, parse_inst (mk_parser rt m input) s (clean l) = (w, Err q) /\ q = p (mk_line (S (List.length l1)) l)).
  { intros s (Rd & Pl & _). destruct (H (mk_parser rt m input) s eq_refl eq_refl Rd) as (w & P). exists w, (p (mk_line (p_line s) l)). rewrite (parse_is _ _ l R), P, Pl. auto. }
  specialize (X Y). destruct (assemble rt m input) as [out|es|q]; [exact X| |exact Logic.I]. destruct X as (q & I & ->). exact I.
Qed.

(** ** Operand counts *)

(** The counts an arm takes, and the one it asks for. *)
Definition counts (g : group) : option (list nat * nat) :=
  match g with
  | GMem | GImm2 | GTrapImm | GBranch1 | GReg2 | GMove | GLi | GDli | GCop0 | GCop1 | GFMem => Some ([2], 2)
  | GImm3 | GBranch2 | GReg3 | GShift | GShiftV => Some ([3], 3)
  | GJump | GCode | GB | GBc | GRs | GRd => Some ([1], 1)
  | GJalr => Some ([1; 2], 2)
  | GDiv => Some ([2; 3], 3)
  | GPlain | GTlb | GWord => None
  end%nat.
Definition counts_match (x : str * group) : bool :=
  match counts (snd x) with
  | None => true
  | Some (ns, n) => existsb (Nat.eqb n) ns && forallb (fun k => existsb (fun y => (str_eqb (fst y) (fst x) && Nat.eqb (List.length (snd y)) k)%bool) shapes) ns
  end%bool.
Lemma counts_all : forallb counts_match group_table = true. Proof. vm_compute. reflexivity. Qed.
Lemma counts_none : forallb (fun x => match counts (snd x) with None => existsb (str_eqb (fst x)) (#".word" :: no_operands) | Some _ => true end) group_table = true.
Proof. vm_compute. reflexivity. Qed.
Lemma classify_in m g : classify m = Some g -> In (m, g) group_table.
Proof.
  unfold classify. generalize group_table. intros l. induction l as [|[k v] l IH]; [discriminate|]. cbn [assoc]. destruct (str_eqb m k) eqn:E; [|right; auto].
  intros H. injection H as ->. apply str_eqb_spec in E. subst k. now left.
Qed.
Lemma counts_take m g ns n : classify m = Some g -> counts g = Some (ns, n) -> takes m n /\ forall k, In k ns -> takes m k.
Proof.
  intros C N. assert (X := proj1 (forallb_forall _ _) counts_all _ (classify_in m g C)). unfold counts_match in X. cbn [fst snd] in X. rewrite N in X.
  apply andb_true_iff in X as [X Y]. assert (Z : forall k, In k ns -> takes m k).
  { intros k I. rewrite forallb_forall in Y. specialize (Y k I). apply existsb_exists in Y as ([a ks] & Ia & E). cbn [fst snd] in E. apply andb_true_iff in E as [E1 E2].
    apply str_eqb_spec in E1. apply Nat.eqb_eq in E2. subst a k. now apply takes_shape. }
  split; [|exact Z]. apply existsb_exists in X as (k & I & E). apply Nat.eqb_eq in E. subst k. auto.
Qed.
Section Line.
Variables (e : env) (s : pstate) (raw : str).
Hypothesis Rd : ready e s raw.
Lemma bad_is {A} arg n k : bad_count e s (A := A) arg n k = ([], Err (EInvalidOperandCount (mk_line (p_line s) raw) n k arg)).
Proof. unfold bad_count, fail_at. rewrite (get_line_ready e s raw Rd). reflexivity. Qed.
Lemma op_count op arg args g ns n : classify (trim (to_lower op)) = Some g -> counts g = Some (ns, n) -> ~ In (List.length args) ns ->
  parse_op e s op arg args = ([], Err (EInvalidOperandCount (mk_line (p_line s) raw) n (List.length args) arg)).
Proof.
  intros C N No. unfold parse_op. rewrite C. destruct g; cbn [counts] in N; try discriminate N; injection N as <- <-;
  destruct args as [|a [|b [|c [|d args]]]]; cbn [List.length] in *; (exfalso; apply No; cbn; tauto) || (cbn [parse_mem parse_imm3 parse_imm2 parse_trap_imm parse_branch1 parse_branch2 parse_jump parse_reg3 parse_shift parse_shiftv parse_code
    parse_reg2 parse_jalr parse_move parse_b parse_li parse_div parse_rs parse_rd parse_dli parse_cop0 parse_cop1 parse_fmem]; cbn [List.length]; apply bad_is).
Qed.
Lemma op_unknown op arg args : (forall c, In c (to_lower op) -> is_ws c = false) -> unknown (to_lower op) ->
  parse_op e s op arg args = ([], Err (EInvalidOpcode (mk_line (p_line s) raw) op)).
Proof.
  intros W (L & Ns & Nw & Fl). unfold parse_op. rewrite trim_no_ws by (unfold no_ws; apply forallb_forall; intros c I; rewrite (W c I); reflexivity).
  destruct (classify (to_lower op)) as [g|] eqn:C.
  { exfalso. destruct (counts g) as [[ns n]|] eqn:N.
    - destruct (counts_take _ g ns n C N) as [T _]. inversion T as [ks I|I|I _|cond f E].
      + apply Ns. now apply (in_map fst) in I.
      + apply classify_in in C. clear -C I. revert C. revert I. generalize (to_lower op). intros m I C.
        assert (X : forallb (fun x => negb (existsb (str_eqb (fst x)) three_floats)) group_table = true) by (vm_compute; reflexivity).
        rewrite forallb_forall in X. specialize (X _ C). cbn [fst] in X. apply negb_true_iff in X. assert (Y : existsb (str_eqb m) three_floats = true) by (apply existsb_exists; exists m; split; [exact I|apply str_eqb_refl]). congruence.
      + apply classify_in in C. clear -C I. revert C. revert I. generalize (to_lower op). intros m I C.
        assert (X : forallb (fun x => negb (existsb (str_eqb (fst x)) float_names)) group_table = true) by (vm_compute; reflexivity).
        rewrite forallb_forall in X. specialize (X _ C). cbn [fst] in X. apply negb_true_iff in X. assert (Y : existsb (str_eqb m) float_names = true) by (apply existsb_exists; exists m; split; [exact I|apply str_eqb_refl]). congruence.
      + destruct (Fl (#"c." ++ cond) "."%char f) as [_ F]; [rewrite E, <- !app_assoc; reflexivity|]. now apply (F cond).
    - assert (X := proj1 (forallb_forall _ _) counts_none _ (classify_in _ g C)). cbn [fst snd] in X. rewrite N in X. apply existsb_exists in X as (n & I & E). apply str_eqb_spec in E. subst n.
      destruct I as [I|I]; [congruence|]. apply Ns. clear -I. assert (X : forallb (fun n => existsb (fun y => str_eqb n (fst y)) shapes) no_operands = true) by (vm_compute; reflexivity).
      rewrite forallb_forall in X. specialize (X _ I). apply existsb_exists in X as (y & Iy & E). apply str_eqb_spec in E. rewrite E. now apply in_map. }
  unfold parse_float. assert (Le : List.length op = List.length (to_lower op)) by (unfold to_lower; now rewrite map_length). rewrite Le.
  replace (Nat.ltb (List.length (to_lower op)) 2) with false by (symmetry; apply Nat.ltb_ge; exact L). cbv zeta.
  set (m := to_lower op) in *. assert (Sp : exists stem a b, m = stem ++ [a; b] /\ firstn (List.length m - 2) m = stem).
  { exists (firstn (List.length m - 2) m). assert (T := firstn_skipn (List.length m - 2) m). assert (K : List.length (skipn (List.length m - 2) m) = 2%nat) by (rewrite skipn_length; lia).
    destruct (skipn (List.length m - 2) m) as [|a [|b [|? ?]]]; try discriminate K. exists a, b. auto. }
  destruct Sp as (stem & a & b & Em & ->). destruct (Fl stem a b Em) as [F1 F2].
  assert (M : forall names, (forall x, In x names -> In x float_stems) -> mem_str stem names = false).
  { intros names Sub. unfold mem_str. destruct (existsb (str_eqb stem) names) eqn:X; [|reflexivity]. exfalso. apply existsb_exists in X as (x & I & E). apply str_eqb_spec in E. subst x. auto. }
  assert (Sub : forall names, forallb (fun x => mem_str x float_stems) names = true -> forall x, In x names -> In x float_stems).
  { intros names H x I. rewrite forallb_forall in H. specialize (H x I). apply existsb_exists in H as (y & Iy & E). apply str_eqb_spec in E. now subst y. }
  rewrite (M float3_names) by (apply Sub; vm_compute; reflexivity). rewrite (M float2_names) by (apply Sub; vm_compute; reflexivity).
  destruct (starts_with #"c." stem) eqn:Sc; [exfalso; apply starts_with_spec in Sc as (r & E); now apply (F2 r)|].
  unfold fail_at. rewrite (get_line_ready e s raw Rd). reflexivity.
Qed.
Lemma float_split (m : str) : (2 <= List.length m)%nat -> exists stem a b, m = stem ++ [a; b] /\ firstn (List.length m - 2) m = stem.
Proof.
  intros L. exists (firstn (List.length m - 2) m). assert (T := firstn_skipn (List.length m - 2) m). assert (K : List.length (skipn (List.length m - 2) m) = 2%nat) by (rewrite skipn_length; lia).
  destruct (skipn (List.length m - 2) m) as [|a [|b [|? ?]]]; try discriminate K. exists a, b. auto.
Qed.
Definition float_row (m : str) : bool :=
  match classify (trim m) with
  | Some _ => false
  | None => negb (Nat.ltb (List.length m) 2) && (if mem_str m three_floats then mem_str (firstn (List.length m - 2) m) float3_names
            else negb (mem_str (firstn (List.length m - 2) m) float3_names) && mem_str (firstn (List.length m - 2) m) float2_names)
  end%bool.
Lemma float_rows : forallb float_row (three_floats ++ float_names) = true. Proof. vm_compute. reflexivity. Qed.
Lemma mem_str_in x l : mem_str x l = true <-> In x l.
Proof. unfold mem_str. rewrite existsb_exists. split; [intros (y & I & E); apply str_eqb_spec in E; now subst y|intros I; exists x; split; [exact I|apply str_eqb_refl]]. Qed.
Lemma op_float_count op arg args n : In (to_lower op) (three_floats ++ float_names) -> n = (if mem_str (to_lower op) three_floats then 3 else 2)%nat -> List.length args <> n ->
  parse_op e s op arg args = ([], Err (EInvalidOperandCount (mk_line (p_line s) raw) n (List.length args) arg)).
Proof.
  intros I -> L. assert (X := proj1 (forallb_forall _ _) float_rows _ I). unfold float_row in X. unfold parse_op. destruct (classify (trim (to_lower op))); [discriminate|].
  apply andb_true_iff in X as [X Y]. apply negb_true_iff in X. unfold parse_float. assert (Le : List.length op = List.length (to_lower op)) by (unfold to_lower; now rewrite map_length). rewrite Le, X.
  destruct (mem_str (to_lower op) three_floats).
  - rewrite Y. destruct args as [|a [|b [|c [|d args]]]]; try apply bad_is. exfalso. apply L. reflexivity.
  - apply andb_true_iff in Y as [Y Z]. apply negb_true_iff in Y. rewrite Y, Z. destruct args as [|a [|b [|c args]]]; try apply bad_is. exfalso. apply L. reflexivity.
Qed.
Lemma no_compare : forallb (fun x => negb (starts_with #"c." (fst x))) group_table = true. Proof. vm_compute. reflexivity. Qed.
Lemma no_compare_stem : forallb (fun x => negb (starts_with #"c." x)) (float3_names ++ float2_names) = true. Proof. vm_compute. reflexivity. Qed.
Lemma op_compare_count op arg args cond f : (forall c, In c (to_lower op) -> is_ws c = false) -> to_lower op = #"c." ++ cond ++ #"." ++ [f] -> List.length args <> 2%nat ->
  parse_op e s op arg args = ([], Err (EInvalidOperandCount (mk_line (p_line s) raw) 2 (List.length args) arg)).
Proof.
  intros W E L. unfold parse_op. rewrite trim_no_ws by (unfold no_ws; apply forallb_forall; intros c I; rewrite (W c I); reflexivity).
  assert (Le : List.length op = List.length (to_lower op)) by (unfold to_lower; now rewrite map_length). unfold parse_float. rewrite Le.
  assert (Fi : firstn (List.length (to_lower op) - 2) (to_lower op) = #"c." ++ cond).
  { rewrite E, app_assoc. rewrite app_length. change (List.length (#"." ++ [f])) with 2%nat. replace (List.length (#"c." ++ cond) + 2 - 2)%nat with (List.length (#"c." ++ cond)) by lia. rewrite firstn_app, Nat.sub_diag, firstn_all, app_nil_r. reflexivity. }
  assert (Lt : Nat.ltb (List.length (to_lower op)) 2 = false) by (apply Nat.ltb_ge; rewrite E, !app_length; change (List.length #"c.") with 2%nat; lia).
  rewrite Fi, Lt. destruct (classify (to_lower op)) as [g|] eqn:C.
  { exfalso. assert (X := proj1 (forallb_forall _ _) no_compare _ (classify_in _ g C)). cbn [fst] in X. rewrite E, starts_with_app in X. discriminate. }
  assert (M : forall names, (forall x, In x names -> In x (float3_names ++ float2_names)) -> mem_str (#"c." ++ cond) names = false).
  { intros names Sub. destruct (mem_str (#"c." ++ cond) names) eqn:X; [|reflexivity]. apply mem_str_in in X. apply Sub in X. assert (Y := proj1 (forallb_forall _ _) no_compare_stem _ X). cbv beta in Y. rewrite starts_with_app in Y. discriminate. }
  rewrite (M float3_names), (M float2_names), starts_with_app by (intros x I; apply in_or_app; tauto).
  destruct args as [|a [|b [|c args]]]; try apply bad_is. exfalso. apply L. reflexivity.
Qed.

(** ** Registers *)

Definition slot_row (x : str * list slot) : bool := match classify (trim (fst x)) with Some GPlain | Some GTlb => match snd x with [] => true | _ => false end | Some g => existsb (same_shape (snd x)) (slots_of (fst x) g) | None => false end.
Lemma slot_rows : forallb slot_row shapes = true. Proof. vm_compute. reflexivity. Qed.
Lemma areg_good x r : reg_from_str x = Ok r -> areg e s x = ([], Ok r).
Proof. intros H. unfold areg, arg_reg. rewrite H. reflexivity. Qed.
Lemma areg_bad x t : reg_from_str x = Err t -> areg e s x = ([], Err (EInvalidRegister (mk_line (p_line s) raw) t)).
Proof. intros H. unfold areg, arg_reg. rewrite H. unfold fail_at. rewrite (get_line_ready e s raw Rd). reflexivity. Qed.
Lemma jr_delay op : exists w, (if str_eqb (trim (to_lower op)) #"jr" then check_delay e s else lift (Ok tt)) = (w, Ok tt).
Proof. destruct (str_eqb _ _); [rewrite (check_delay_ok e s raw Rd); eauto|exists []; reflexivity]. Qed.
Lemma op_register op arg args ks i x t : In (to_lower op, ks) shapes -> (forall c, In c (to_lower op) -> is_ws c = false) -> List.length ks = List.length args ->
  nth_error ks i = Some AReg -> nth_error args i = Some x -> reg_from_str x = Err t -> (forall j y, (j < i)%nat -> nth_error args j = Some y -> exists r, reg_from_str y = Ok r) ->
  exists w, parse_op e s op arg args = (w, Err (EInvalidRegister (mk_line (p_line s) raw) t)).
Proof.
  intros I W L Ks Ai B G. assert (X := proj1 (forallb_forall _ _) slot_rows _ I). unfold slot_row in X. cbn [fst snd] in X.
  assert (T : trim (to_lower op) = to_lower op) by (apply trim_no_ws; unfold no_ws; apply forallb_forall; intros c Ic; rewrite (W c Ic); reflexivity). unfold parse_op.
  assert (Shape : forall l, existsb (same_shape ks) l = true -> In ks l).
  { intros l H. apply existsb_exists in H as (k & Ik & E). unfold same_shape in E. destruct (list_eq_dec _ ks k) as [->|]; [exact Ik|discriminate]. }
  assert (G0 : forall y, (0 < i)%nat -> nth_error args 0 = Some y -> exists r, areg e s y = ([], Ok r)) by (intros y H H'; destruct (G 0%nat y H H') as [r E]; exists r; now apply areg_good).
  assert (G1 : forall y, (1 < i)%nat -> nth_error args 1 = Some y -> exists r, areg e s y = ([], Ok r)) by (intros y H H'; destruct (G 1%nat y H H') as [r E]; exists r; now apply areg_good).
  assert (Bx := areg_bad x t B). assert (D := check_delay_ok e s raw Rd). destruct (jr_delay op) as [wj J]. rewrite T in *.
  assert (Done : forall {A} (w : list pwarning) (f : A -> M inst), exists w', mbind (w, Err (EInvalidRegister (mk_line (p_line s) raw) t)) f = (w', Err (EInvalidRegister (mk_line (p_line s) raw) t))) by (intros A w f; exists w; reflexivity).
  destruct (classify (to_lower op)) as [g|]; [|discriminate]. destruct g; try (exfalso; discriminate X); try (destruct ks; [destruct i; discriminate Ks|discriminate X]); try (apply Shape in X; cbn [slots_of In] in X).
  all: repeat match type of X with _ \/ _ => destruct X as [X|X] | False => destruct X end.
  all: try (subst ks; cbn [List.length] in L; destruct args as [|a1 [|a2 [|a3 [|a4 args]]]]; try discriminate L).
  all: try (destruct i as [|[|[|[|i]]]]; cbn [nth_error] in Ks, Ai; try discriminate Ks; try (destruct (str_eqb _ _); discriminate Ks); injection Ai as ->).
  all: try (destruct (G0 _ ltac:(lia) eq_refl) as [r0 R0]).
  all: try (destruct (G1 _ ltac:(lia) eq_refl) as [r1 R1]).
  all: cbn [parse_mem parse_imm3 parse_imm2 parse_trap_imm parse_branch1 parse_branch2 parse_jump parse_reg3 parse_shift parse_shiftv parse_code
    parse_reg2 parse_jalr parse_move parse_b parse_li parse_div parse_rs parse_rd parse_dli parse_cop0 parse_cop1 parse_fmem]; rewrite ?T, ?J, ?D.
  all: try (eexists; cbn [mbind]; rewrite ?R0; cbn [mbind]; rewrite ?R1; cbn [mbind]; rewrite ?Bx; cbn [mbind]; reflexivity).
Qed.
End Line.
