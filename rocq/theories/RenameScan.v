(** * RenameScan: programs with renamed labels (proofs only). *)

From Coq Require Import Lia Permutation.
From Verif Require Import Lib SpecIsa StrLemmas TextProofs OperandProofs NativeProofs LineProofs ScanProofs ProgProofs BranchProofs DisplayProofs LabelProofs
  ErrorProofs RefProofs CongProofs ProgCong RenameProofs SpecShow SpecText SpecProgram SpecLabels SpecRename.

Lemma after_step e s raw s' done : stepped e s raw s' -> after e done s -> after e (done ++ [raw]) s'.
Proof.
  intros St [A B]. unfold after. rewrite app_length. cbn [List.length].
  destruct St as [R|k R Lc P|k R Lc P|k p R P|w i R P|w p R P]; cbn [bump flush_locals add_label add_local add_error add_inst add_warnings p_line p_insts p_labels]; rewrite ?app_length; cbn [List.length]; lia.
Qed.

Section Rename.
Variables (names : list (str * str)) (syms : list (Z * str)) (e e' : env).
Hypothesis Rn : renaming names syms.
Hypothesis Hoc : e_oc e = e_oc e'.
Hypothesis Hbase : e_base e = e_base e'.
Hypothesis Hsyms : e_syms e = syms.
Hypothesis Hsyms' : e_syms e' = syms.
Hypothesis Ord : forall l, Permutation (e_order e l) l.
Hypothesis Ord' : forall l, Permutation (e_order e' l) l.

Definition R (n n' : str) : Prop := In (n, n') names.
Lemma nodup_fst {A B} (l : list (A * B)) a b c : NoDup (map fst l) -> In (a, b) l -> In (a, c) l -> b = c.
Proof.
  induction l as [|[x y] l IH]; intros N; [intros []|]. cbn in N. inversion N as [|? ? X Y]; subst. intros [E1|I1] [E2|I2].
  - congruence.
  - injection E1 as -> ->. exfalso. apply X. apply (in_map fst) in I2. exact I2.
  - injection E2 as -> ->. exfalso. apply X. apply (in_map fst) in I1. exact I1.
  - eauto.
Qed.
Lemma nodup_snd {A B} (l : list (A * B)) a b c : NoDup (map snd l) -> In (b, a) l -> In (c, a) l -> b = c.
Proof.
  induction l as [|[x y] l IH]; intros N; [intros []|]. cbn in N. inversion N as [|? ? X Y]; subst. intros [E1|I1] [E2|I2].
  - congruence.
  - injection E1 as -> ->. exfalso. apply X. apply (in_map snd) in I2. exact I2.
  - injection E2 as -> ->. exfalso. apply X. apply (in_map snd) in I1. exact I1.
  - eauto.
Qed.
Lemma R_eqb n n' m m' : R n n' -> R m m' -> str_eqb n m = str_eqb n' m'.
Proof.
  intros A B. destruct (str_eqb n m) eqn:E.
  - apply str_eqb_spec in E. subst m. rewrite (nodup_fst names n n' m' (rn_old _ _ Rn) A B). symmetry. apply str_eqb_refl.
  - destruct (str_eqb n' m') eqn:E'; [|reflexivity]. apply str_eqb_spec in E'. subst m'. rewrite (nodup_snd names n' n m (rn_new _ _ Rn) A B), str_eqb_refl in E. discriminate.
Qed.
Lemma R_name n n' : R n n' -> identifier n /\ identifier n'.
Proof. intros H. destruct (rn_names _ _ Rn n n' H) as (A & B & _). auto. Qed.
Lemma R_nonempty n n' : R n n' -> n <> [] /\ n' <> [].
Proof. intros H. destruct (R_name n n' H) as [[A _] [B _]]. split; intros ->; assumption. Qed.

(** Tables whose names are renamed. *)
Definition table {V W} (Q : V -> W -> Prop) (l : list (str * V)) (l' : list (str * W)) : Prop := Forall2 (fun x y => R (fst x) (fst y) /\ Q (snd x) (snd y)) l l'.
Definition option_rel {V W} (Q : V -> W -> Prop) (x : option V) (y : option W) : Prop := match x, y with Some a, Some b => Q a b | None, None => True | _, _ => False end.
Lemma table_assoc {V W} (Q : V -> W -> Prop) l l' n n' : table Q l l' -> R n n' -> option_rel Q (assoc n l) (assoc n' l').
Proof.
  intros T H. induction T as [|[a b] [a' b'] l l' [A B] _ IH]; [exact Logic.I|]. cbn [assoc fst snd] in *. rewrite (R_eqb n n' a a' H A). destruct (str_eqb n' a'); [exact B|exact IH].
Qed.
Lemma table_known {V W} (Q : V -> W -> Prop) l l' n : table Q l l' -> assoc n l <> None -> exists n', R n n'.
Proof.
  intros T. induction T as [|[a b] [a' b'] l l' [A B] _ IH]; [intros X; now destruct X|]. cbn [assoc fst snd] in *. destruct (str_eqb n a) eqn:E; [|exact IH]. apply str_eqb_spec in E. subst a. eauto.
Qed.
Lemma table_known' {V W} (Q : V -> W -> Prop) l l' n' : table Q l l' -> assoc n' l' <> None -> exists n, R n n'.
Proof.
  intros T. induction T as [|[a b] [a' b'] l l' [A B] _ IH]; [intros X; now destruct X|]. cbn [assoc fst snd] in *. destruct (str_eqb n' a') eqn:E; [|exact IH]. apply str_eqb_spec in E. subst a'. eauto.
Qed.
Lemma labels_assoc l l' n n' : @table nat nat eq l l' -> R n n' -> assoc n l = assoc n' l'.
Proof. intros T H. assert (X := table_assoc eq l l' n n' T H). destruct (assoc n l), (assoc n' l'); cbn in X; try (now destruct X); congruence. Qed.
Lemma labels_index l l' n n' : @table nat nat eq l l' -> R n n' -> index_of n l = index_of n' l'.
Proof.
  intros T H. induction T as [|[a b] [a' b'] l l' [A B] _ IH]; [reflexivity|]. cbn [index_of fst snd] in *. rewrite (R_eqb n n' a a' H A), IH. reflexivity.
Qed.
Lemma labels_nth l l' i : @table nat nat eq l l' -> option_map snd (nth_error l i) = option_map snd (nth_error l' i).
Proof. intros T. revert i. induction T as [|[a b] [a' b'] l l' [A B] _ IH]; intros [|i]; try reflexivity; cbn in *; [congruence|apply IH]. Qed.

(** Scopes are named after their global label, or nothing. *)
Definition same_scope (c c' : str) : Prop := (c = [] /\ c' = []) \/ R c c'.
Definition same_def (d d' : nat * str) : Prop := fst d = fst d' /\ same_scope (snd d) (snd d').

(** Instructions that differ in the names of labels. *)
Inductive ren : inst -> inst -> Prop :=
| ren_ref n n' i i' : R n n' -> same_ref n n' i i' -> ren i i'
| ren_same i : (forall n n', R n n' -> label_of i <> Some n /\ label_of i <> Some n') -> ren i i.

Record rel (s s' : pstate) : Prop := mk_rel {
  r_line : p_line s = p_line s';
  r_insts : Forall2 (fun x y => fst x = fst y /\ ren (snd x) (snd y)) (p_insts s) (p_insts s');
  r_labels : table eq (p_labels s) (p_labels s');
  r_nodup : NoDup (map fst (p_local s));
  r_nodup' : NoDup (map fst (p_local s'));
  r_local : forall n n', R n n' -> option_rel same_def (assoc n (p_local s)) (assoc n' (p_local s'));
  r_dropped : forall n n', R n n' -> option_rel (Forall2 same_def) (assoc n (p_dropped s)) (assoc n' (p_dropped s'));
  r_keys : forall n, assoc n (p_local s) <> None \/ assoc n (p_dropped s) <> None -> exists n', R n n';
  r_keys' : forall n', assoc n' (p_local s') <> None \/ assoc n' (p_dropped s') <> None -> exists n, R n n';
  r_errors : p_errors s' = []
}.
Lemma rel_init : rel init_state init_state.
Proof. constructor; try reflexivity; try (now constructor); intros n [H|H]; now destruct H. Qed.
Lemma rel_length s s' : rel s s' -> List.length (p_insts s) = List.length (p_insts s').
Proof. intros H. assert (X := r_insts _ _ H). clear H. induction X; cbn; congruence. Qed.

Lemma rel_flush s s' : rel s s' -> rel (flush_locals e s) (flush_locals e' s').
Proof.
  intros [A B C D D' L Dr K K' Er]. constructor; try assumption; try (now constructor).
  - intros n n' H. rewrite (flush_assoc e Ord), (flush_assoc e' Ord') by assumption. specialize (L n n' H). specialize (Dr n n' H).
    destruct (assoc n (p_local s)) as [d|], (assoc n' (p_local s')) as [d'|]; try (exfalso; exact L); [|exact Dr]. cbn [option_rel] in *. apply Forall2_app; [|constructor; [exact L|constructor]].
    destruct (assoc n (p_dropped s)), (assoc n' (p_dropped s')); try (exfalso; exact Dr); [exact Dr|constructor].
  - intros n [H|H]; [cbn in H; congruence|]. rewrite (flush_assoc e Ord) in H by assumption. apply K. destruct (assoc n (p_local s)); [left; discriminate|now right].
  - intros n [H|H]; [cbn in H; congruence|]. rewrite (flush_assoc e' Ord') in H by assumption. apply K'. destruct (assoc n (p_local s')); [left; discriminate|now right].
Qed.
Lemma scope_last s s' : rel s s' -> same_scope (scope_of s) (scope_of s').
Proof.
  intros H. assert (X := r_labels _ _ H). unfold scope_of. assert (Y : Forall2 (fun x y => R (fst x) (fst y) /\ snd x = snd y) (rev (p_labels s)) (rev (p_labels s'))).
  { clear H. induction X as [|x y l l' H _ IH]; [constructor|]. cbn [rev]. apply Forall2_app; [exact IH|]. constructor; [exact H|constructor]. }
  destruct Y as [|[a b] [a' b'] l l' [A _] _]; [left; auto|right; exact A].
Qed.

(** One line. *)
Lemma step_ren s s' raw raw' s1 : rel s s' -> renamed_line names raw raw' -> no_nl raw -> no_nl raw' -> ready e (bump s) raw -> ready e' (bump s') raw' ->
  stepped e s raw s1 -> p_errors s1 = [] -> exists s1', stepped e' s' raw' s1' /\ rel s1 s1'.
Proof.
  intros Rl Ln N N' Rd Rd' St Er. assert (No : forall (a : list perror) b, a ++ [b] = [] -> False) by (intros [] ? ?; discriminate).
  assert (Len := rel_length _ _ Rl). assert (Sc := scope_last _ _ Rl).
  destruct Ln as [raw raw' Ro Ro'|n n' raw raw' Ro Ro' Nm|raw Ro Un|name ts n n' raw raw' Rf Gp Nm L L'].
  - destruct St as [Q|k Q Lc P|k Q Lc P|k p Q P|w i Q P|w p Q P]; try congruence. exists (bump s'). split; [now apply st_empty|]. destruct Rl. constructor; cbn [bump p_line p_insts p_labels p_local p_dropped p_errors]; auto.
  - destruct (rn_names _ _ Rn n n' Nm) as ([G _] & [G' _] & Lo).
    assert (Ok' : label_ok s n -> label_ok s' n') by (intros [_ X]; split; [exact G'|]; rewrite <- (labels_assoc _ _ n n' (r_labels _ _ Rl) Nm); exact X).
    destruct St as [Q|k Q Lc P|k Q Lc P|k p Q P|w i Q P|w p Q P]; try congruence; rewrite Ro in Q; try discriminate; try (injection Q as <-).
    + exists (flush_locals e' (add_label (bump s') n')). split; [apply st_global; [exact Ro'|congruence|now apply Ok']|]. apply rel_flush. destruct Rl. constructor; cbn [add_label bump p_line p_insts p_labels p_local p_dropped p_errors]; auto.
      apply Forall2_app; [assumption|]. constructor; [|constructor]. split; [exact Nm|exact Len].
    + exists (add_local (bump s') n'). split; [apply st_local; [exact Ro'|congruence|now apply Ok']|]. destruct Rl. constructor; cbn [add_local bump p_line p_insts p_labels p_local p_dropped p_errors]; auto.
      * now apply insert_nodup.
      * now apply insert_nodup.
      * intros a a' H. rewrite !assoc_insert, (R_eqb a a' n n' H Nm). destruct (str_eqb a' n'); [|auto]. split; [exact Len|exact Sc].
      * intros a H. rewrite assoc_insert in H. destruct (str_eqb a n) eqn:E; [apply str_eqb_spec in E; subst a; eauto|auto].
      * intros a H. rewrite assoc_insert in H. destruct (str_eqb a n') eqn:E; [apply str_eqb_spec in E; subst a; eauto|auto].
    + exfalso. exact (No _ _ Er).
  - destruct St as [Q|k Q Lc P|k Q Lc P|k p Q P|w i Q P|w p Q P]; try congruence; [|exfalso; exact (No _ _ Er)].
    assert (Nc : no_nl (clean raw)) by (intros I; apply N; destruct (clean_part raw) as (u & v & E); rewrite E; apply in_or_app; right; apply in_or_app; now left).
    assert (Nn : forall n n', R n n' -> forall x, (x = [] \/ x = #"0" \/ word_in x (clean raw) \/ word_in x (last_paren (clean raw))) -> x <> n /\ x <> n').
    { intros n n' H x D. destruct (R_name n n' H) as [[A _] [B _]]. destruct (Un n n' H) as [U U'].
      destruct D as [->|[->|D]]; [split; intros <-; assumption|split; intros <-; discriminate|]. split; intros ->; [apply U|apply U']; exact D. }
    assert (P2 : parse_inst e (with_labels (bump s) (p_labels s')) (clean raw) = (w, Ok i)).
    { rewrite <- P. symmetry. apply line_labels; [exact Nc|]. intros x D. cbn [bump p_labels]. split.
      - destruct (assoc x (p_labels s)) eqn:As; [|reflexivity]. exfalso. destruct (table_known eq _ _ x (r_labels _ _ Rl) ltac:(congruence)) as [x' H]. destruct (Nn x x' H x D) as [X _]. now apply X.
      - destruct (assoc x (p_labels s')) eqn:As; [|reflexivity]. exfalso. destruct (table_known' eq _ _ x (r_labels _ _ Rl) ltac:(congruence)) as [x' H]. destruct (Nn x' x H x D) as [_ X]. now apply X. }
    assert (Ak : alike e e' (with_labels (bump s) (p_labels s')) (bump s') raw raw) by (constructor; [exact Hoc|now rewrite Hsyms, Hsyms'|reflexivity|exact Rd|exact Rd']).
    assert (Sm := same_inst _ _ _ _ raw raw (clean raw) Ak (clean_part raw) (clean_part raw)). unfold same in Sm. rewrite P2 in Sm. cbn [snd same_result] in Sm.
    destruct (parse_inst e' (bump s') (clean raw)) as [w' [i'|p|p]] eqn:P'; cbn [snd] in Sm; try (now destruct Sm). subst i'.
    exists (add_inst (add_warnings (bump s') w') i). split; [now apply st_inst|]. destruct Rl. constructor; cbn [add_inst add_warnings bump p_line p_insts p_labels p_local p_dropped p_errors]; auto.
    apply Forall2_app; [assumption|]. constructor; [|constructor]. split; [cbn; congruence|]. apply ren_same. intros n n' H. split; intros E; destruct (Nn n n' H _ (line_label _ _ _ _ _ _ Nc P E)); congruence.
  - destruct (rn_names _ _ Rn n n' Nm) as (Id & Id' & Lo). destruct (rn_hex _ _ Rn n n' Nm) as [Hx Hx']. destruct (reference_parse e e' (bump s) (bump s') raw raw' name ts n n' [] (IBytes 0) Rf Gp (conj Id Hx) (conj Id' Hx') Lo) as (Ro & Ro' & _); auto.
    { intros a. rewrite Hsyms. apply (rn_syms _ _ Rn n n' a Nm). } { intros a. rewrite Hsyms'. apply (rn_syms _ _ Rn n n' a Nm). } { cbn [bump p_labels]. now rewrite (labels_assoc _ _ n n' (r_labels _ _ Rl) Nm). }
    destruct St as [Q|k Q Lc P|k Q Lc P|k p Q P|w i Q P|w p Q P]; try congruence; [|exfalso; exact (No _ _ Er)].
    destruct (reference_parse e e' (bump s) (bump s') raw raw' name ts n n' w i Rf Gp (conj Id Hx) (conj Id' Hx') Lo) as (_ & _ & X); auto.
    { intros a. rewrite Hsyms. apply (rn_syms _ _ Rn n n' a Nm). } { intros a. rewrite Hsyms'. apply (rn_syms _ _ Rn n n' a Nm). } { cbn [bump p_labels]. now rewrite (labels_assoc _ _ n n' (r_labels _ _ Rl) Nm). }
    destruct (X P) as (w' & i' & P' & Sr). exists (add_inst (add_warnings (bump s') w') i'). split; [now apply st_inst|]. destruct Rl. constructor; cbn [add_inst add_warnings bump p_line p_insts p_labels p_local p_dropped p_errors]; auto.
    apply Forall2_app; [assumption|]. constructor; [|constructor]. split; [cbn; congruence|]. eapply ren_ref; eauto.
Qed.

Lemma scan_ren ls ls' : renamed names ls ls' -> Forall no_nl ls -> Forall no_nl ls' -> forall s s' done done' s1, rel s s' -> after e done s -> after e' done' s' ->
  e_input e = done ++ ls -> e_input e' = done' ++ ls' -> scan_lines e s ls = Ok s1 -> p_errors s1 = [] -> exists s1', scan_lines e' s' ls' = Ok s1' /\ rel s1 s1'.
Proof.
  induction 1 as [|l l' ls ls' Ln _ IH]; intros N N' s s' done done' s1 Rl Af Af' Ei Ei' H Er; cbn [scan_lines] in *.
  - injection H as <-. exists s'. auto.
  - apply obind_ok in H as (s2 & H1 & H2). assert (Nl := Forall_inv_tail N). assert (Nl' := Forall_inv_tail N').
    assert (E1 : p_errors s2 = []) by (apply (no_errors_before s2 s1); [apply (scan_grows e ls Nl _ _ H2)|exact Er]).
    assert (V := step_view e s l s2 (Forall_inv N) H1).
    destruct (step_ren s s' l l' s2 Rl Ln (Forall_inv N) (Forall_inv N') (after_ready e done l ls s Ei Af) (after_ready e' done' l' ls' s' Ei' Af') V E1) as (s2' & V' & Rl').
    assert (H1' := step_of_view e' s' l' s2' (Forall_inv N') V'). rewrite H1'. cbn [obind].
    apply (IH Nl Nl' s2 s2' (done ++ [l]) (done' ++ [l']) s1); auto; try (now rewrite <- app_assoc).
    + eapply after_step; eauto.
    + eapply after_step; eauto.
Qed.

(** Resolution. *)
Lemma scope_ren s s' c c' : rel s s' -> same_scope c c' -> get_label_scope s c = get_label_scope s' c'.
Proof.
  intros Rl [[-> ->]|H]; unfold get_label_scope; [now rewrite (rel_length _ _ Rl)|]. destruct (R_nonempty c c' H) as [A B].
  assert (T := r_labels _ _ Rl). assert (X := labels_assoc _ _ c c' T H). assert (Y := labels_index _ _ c c' T H). rewrite X, Y, (rel_length _ _ Rl).
  destruct c; [congruence|]. destruct c'; [congruence|]. destruct (assoc (a0 :: c') (p_labels s')); [|reflexivity]. destruct (index_of (a0 :: c') (p_labels s')) as [k|]; [|reflexivity].
  assert (Z := labels_nth _ _ (S k) T). destruct (nth_error (p_labels s) (S k)) as [[? ?]|], (nth_error (p_labels s') (S k)) as [[? ?]|]; cbn in Z; congruence.
Qed.
Lemma pick_ren s s' i defs defs' : rel s s' -> Forall2 same_def defs defs' -> pick_local s i defs = pick_local s' i defs'.
Proof.
  intros Rl F. induction F as [|[a c] [a' c'] defs defs' [A B] _ IH]; [reflexivity|]. cbn [pick_local fst snd] in *. subst a'. rewrite (scope_ren s s' c c' Rl B). destruct (get_label_scope s' c'); cbn [obind]; try reflexivity. now rewrite IH.
Qed.
Lemma adjust_ren s s' k n x x' y : rel s s' -> ren x x' -> adjust_one e s k n x = Ok (y, []) -> adjust_one e' s' k n x' = Ok (y, []).
Proof.
  intros Rl [m m' i i' H Sr|i Un] A.
  - destruct Sr as [p rs rt b|p rs rt b|p b]; cbn [adjust_one] in *.
    + rewrite <- (labels_assoc _ _ m m' (r_labels _ _ Rl) H). destruct (assoc m (p_labels s)); [exact A|discriminate].
    + assert (D := r_dropped _ _ Rl m m' H). destruct (assoc m (p_dropped s)) as [defs|]; [|apply obind_ok in A as (? & _ & A); discriminate].
      destruct (assoc m' (p_dropped s')) as [defs'|]; [|destruct D]. cbn [option_rel] in D. rewrite <- (pick_ren s s' k defs defs' Rl D).
      destruct (pick_local s k defs) as [[a|]|q|q]; cbn [obind] in *; [exact A| |discriminate|discriminate]. apply obind_ok in A as (? & _ & A); discriminate.
    + rewrite <- (labels_assoc _ _ m m' (r_labels _ _ Rl) H), <- Hoc, <- Hbase. destruct (assoc m (p_labels s)); [exact A|]. apply obind_ok in A as (? & _ & A); discriminate.
  - destruct i as [op rs rt im b|op t b|op rs rt rd sa b|w]; cbn [adjust_one] in *; try exact A.
    + destruct im as [v|v|v|loc|lbl]; try exact A.
      * rewrite <- Hoc, <- Hbase, <- (rel_length _ _ Rl). destruct (negb (is_b_op op)); [exact A|]. cbv zeta in *. apply obind_ok in A as (bad & B & A). rewrite B. cbn [obind]. apply obind_ok in A as (er & C & A).
        destruct bad; [|cbn [obind] in *; injection C as <-; exact A].
        exfalso. apply obind_ok in C as (? & _ & C). apply obind_ok in C as (? & _ & C). apply obind_ok in C as (? & _ & C). injection C as <-. discriminate A.
      * destruct (assoc loc (p_dropped s)) as [defs|] eqn:D; [|apply obind_ok in A as (? & _ & A); discriminate].
        exfalso. destruct (r_keys _ _ Rl loc) as [loc' H]; [right; congruence|]. destruct (Un loc loc' H) as [X _]. now apply X.
      * destruct (assoc lbl (p_labels s)) as [k0|] eqn:D; [|discriminate]. exfalso. destruct (table_known eq _ _ lbl (r_labels _ _ Rl) ltac:(congruence)) as [l' H]. destruct (Un lbl l' H) as [X _]. now apply X.
    + destruct t as [lbl|a]; [|exact A]. destruct (assoc lbl (p_labels s)) as [k0|] eqn:D; [|apply obind_ok in A as (? & _ & A); discriminate].
      exfalso. destruct (table_known eq _ _ lbl (r_labels _ _ Rl) ltac:(congruence)) as [l' H]. destruct (Un lbl l' H) as [X _]. now apply X.
Qed.
Lemma adjusts_ren s s' l : rel s s' -> forall l' k is1, Forall2 (fun x y => fst x = fst y /\ ren (snd x) (snd y)) l l' -> adjust_from e s k l = Ok (is1, []) -> adjust_from e' s' k l' = Ok (is1, []).
Proof.
  intros Rl l' k is1 F. revert k is1. induction F as [|[n x] [n' x'] l r [A B] C IH]; intros k is1; [exact (fun H => H)|]. cbn [fst snd] in A, B. subst n'. cbn [adjust_from]. intros H.
  apply obind_ok in H as ([y er] & H1 & H). apply obind_ok in H as ([ys er2] & H2 & H). cbn [fst snd] in H. injection H as <- E. apply app_eq_nil in E as [-> ->].
  rewrite (adjust_ren s s' k n x x' y Rl B H1). cbn [obind]. rewrite (IH (S k) ys H2). reflexivity.
Qed.
Lemma final_ren s s' : rel s s' -> rel (final e s) (final e' s').
Proof.
  intros Rl. assert (Em : p_dropped s = [] <-> p_dropped s' = []).
  { rewrite !assoc_empty. split; intros Z n; [destruct (assoc n (p_dropped s')) eqn:D|destruct (assoc n (p_dropped s)) eqn:D]; try reflexivity; exfalso.
    - destruct (r_keys' _ _ Rl n) as [m H]; [right; congruence|]. assert (X := r_dropped _ _ Rl m n H). rewrite Z, D in X. destruct X.
    - destruct (r_keys _ _ Rl n) as [m H]; [right; congruence|]. assert (X := r_dropped _ _ Rl n m H). rewrite Z, D in X. destruct X. }
  unfold final. destruct (p_dropped s), (p_dropped s'); [exact Rl|destruct Em as [Em _]; discriminate (Em eq_refl)|destruct Em as [_ Em]; discriminate (Em eq_refl)|now apply rel_flush].
Qed.
End Rename.

Theorem renamed_ok rt m names input input' out : orders rt -> renaming names (m_syms m) -> renamed names (lines input) (lines input') ->
  assemble rt m input = Ok out -> assemble rt m input' = Ok out.
Proof.
  intros Or Rn Rl A. apply assemble_ok in A as (s & is1 & [Sc Er Ad Co]). apply assemble_ok. set (e := mk_parser rt m input) in *. set (e' := mk_parser rt m input').
  assert (Af : forall en, after en [] init_state) by (intros en; split; [reflexivity|cbn; lia]).
  destruct (scan_ren names (m_syms m) e e' Rn eq_refl eq_refl eq_refl Or Or (lines input) (lines input') Rl (nl_of_lines _) (nl_of_lines _) init_state init_state [] [] s) as (s' & Sc' & Re); auto; [apply rel_init|].
  exists s', is1. constructor; [exact Sc'|apply Re| |exact Co].
  assert (Rf := final_ren names e e' Or Or s s' Re). apply (adjusts_ren names (m_syms m) e e' Rn eq_refl eq_refl eq_refl eq_refl (final e s) (final e' s') (p_insts s) Rf); [apply Re|exact Ad].
Qed.
