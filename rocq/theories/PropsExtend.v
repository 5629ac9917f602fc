(** * PropsExtend: symbols that are not used (C65) and lines added at the end (C66). *)

From Coq Require Import Lia Permutation.
From Verif Require Import Lib SpecIsa StrLemmas TextProofs ScanProofs ProgProofs BranchProofs DisplayProofs RefProofs ScopeProofs EnvProofs AppendProofs PropsLabels SpecText SpecProgram SpecScopes SpecShow SpecExtend.

(** ** C65  Symbols that do not occur in the source do not matter *)

Lemma find_filter {A} (f g : A -> bool) l : (forall x, g x = true -> f x = true) -> find g (filter f l) = find g l.
Proof. intros H. induction l as [|x l IH]; [reflexivity|]. cbn [filter find]. destruct (f x) eqn:F; cbn [find]; [now rewrite IH|]. destruct (g x) eqn:G; [rewrite (H x G) in F; discriminate|exact IH]. Qed.
Lemma adjust_syms e1 e2 s l i : e_input e1 = e_input e2 -> e_base e1 = e_base e2 -> e_oc e1 = e_oc e2 -> adjust_from e1 s i l = adjust_from e2 s i l.
Proof.
  intros A B C. revert i. induction l as [|[n x] l IH]; intros i; [reflexivity|]. cbn [adjust_from]. rewrite (IH (S i)).
  assert (E : adjust_one e1 s i n x = adjust_one e2 s i n x); [|now rewrite E]. unfold adjust_one, get_line. now rewrite A, B, C.
Qed.

(** The result of [assemble] (words, errors or panic) and the warnings depend only on the symbols
    whose names are mentioned: two symbol tables that agree when restricted to a set [f] of names
    that contains those mentioned. *)
Lemma parse_syms rt m syms input (f : str -> bool) : (forall n, mentioned input n -> f n = true) ->
  filter (fun av => f (snd av)) (m_syms m) = filter (fun av => f (snd av)) syms ->
  parse (mk_parser rt m input) = parse (mk_parser rt (set_symbols syms m) input).
Proof.
  intros H F. set (e1 := mk_parser rt m input). set (e2 := mk_parser rt (set_symbols syms m) input). unfold parse. change (e_input e1) with (lines input). change (e_input e2) with (lines input).
  assert (N := proj2 (Forall_forall _ _) (lines_no_nl input)).
  rewrite (lines_ext e1 e2 (lines input) N init_state 0 within_init); [|reflexivity|reflexivity|reflexivity|].
  - destruct (scan_lines e2 init_state (lines input)) as [s|p|p]; cbn [obind]; try reflexivity. fold (final e1 s). fold (final e2 s). change (final e1 s) with (final e2 s).
    rewrite (adjust_syms e1 e2); reflexivity.
  - intros l I t T. assert (Fu : forall y : Z * str, str_eqb (snd y) t = true -> f (snd y) = true).
    { intros y E. apply str_eqb_spec in E. rewrite E. apply H. exists l. split; [exact I|]. destruct T as [T|T]; [left|right]; now apply part_occurs. }
    change (e_syms e1) with (m_syms m). change (e_syms e2) with syms.
    rewrite <- (find_filter (fun av => f (snd av)) _ (m_syms m) Fu), <- (find_filter (fun av => f (snd av)) _ syms Fu). now rewrite F.
Qed.
Theorem C65_assemble : forall rt m syms input (f : str -> bool), (forall n, mentioned input n -> f n = true) ->
  filter (fun av => f (snd av)) (m_syms m) = filter (fun av => f (snd av)) syms ->
  assemble rt (set_symbols syms m) input = assemble rt m input.
Proof. intros rt m syms input f H F. unfold assemble. now rewrite (parse_syms rt m syms input f H F). Qed.
Theorem C65_warnings : forall rt m syms input (f : str -> bool), (forall n, mentioned input n -> f n = true) ->
  filter (fun av => f (snd av)) (m_syms m) = filter (fun av => f (snd av)) syms ->
  assemble_warnings rt (set_symbols syms m) input = assemble_warnings rt m input.
Proof. intros rt m syms input f H F. unfold assemble_warnings. now rewrite (parse_syms rt m syms input f H F). Qed.
(** In particular, a symbol that is not mentioned can be added or removed. *)
Theorem C65_one_symbol : forall rt m input a b v n, m_syms m = a ++ b -> ~ mentioned input n ->
  assemble rt (set_symbols (a ++ (v, n) :: b) m) input = assemble rt m input.
Proof.
  intros rt m input a b v n E Nm. apply (C65_assemble rt m _ input (fun x => negb (str_eqb x n))).
  - intros x M. destruct (str_eqb x n) eqn:X; [|reflexivity]. apply str_eqb_spec in X. subst x. now destruct Nm.
  - rewrite E, !filter_app. f_equal. cbn [filter snd]. rewrite str_eqb_refl. reflexivity.
Qed.

Definition with_data : mipsasm := set_symbols [(0x80018340, #"data")] m_new.
Example C65_case : forall rt, assemble rt (set_symbols ([] ++ (0x80000000, #"main") :: [(0x80018340, #"data")]) with_data) #"lui $a0, %hi(data) ; main" = assemble rt with_data #"lui $a0, %hi(data) ; main".
Proof.
  intros rt. apply (C65_one_symbol rt with_data _ [] [(0x80018340, #"data")]); [reflexivity|]. intros (l & I & O). assert (X : forall s, occurs #"main" s -> contains #"main" s = true).
  { intros s H. apply part_occurs, part_find in H. unfold contains. destruct (find_sub _ _); [reflexivity|congruence]. }
  cbv in I. destruct I as [<-|[]]. destruct O as [O|O]; apply X in O; vm_compute in O; discriminate O.
Qed.

(** ** C66  Lines added at the end do not change the words in front of them *)

Definition C66_full : Prop := forall rt m input input' more out out', orders rt -> lines input' = lines input ++ more ->
  assemble rt m input = Ok out -> assemble rt m input' = Ok out' -> exists z, words_of out' = words_of out ++ z.

(** A local label that is defined again later in the same scope replaces the earlier one, also
    for the branches in front of it. *)
Definition scope_text : str := join [nl] [#"first:"; #"@@a:"; #"nop"; #"second:"; #"@@x:"; #"nop"; #"b @@x"; #"nop"].
Theorem C66_refuted : ~ C66_full.
Proof.
  intros H. set (rt := mk_runtime true (fun l => l)).
  destruct (assemble rt m_new scope_text) as [out| |] eqn:A; [|vm_compute in A; discriminate A|vm_compute in A; discriminate A].
  destruct (assemble rt m_new (scope_text ++ nl :: #"@@x:")) as [out'| |] eqn:A'; [|vm_compute in A'; discriminate A'|vm_compute in A'; discriminate A'].
  destruct (H rt m_new scope_text (scope_text ++ nl :: #"@@x:") [#"@@x:"] out out') as [z W]; [intros l; apply Permutation_refl|vm_compute; reflexivity|exact A|exact A'|].
  vm_compute in A. injection A as <-. vm_compute in A'. injection A' as <-. vm_compute in W. discriminate W.
Qed.

(** If the new lines define no local label of the last scope again ([no_redefinition]), the
    assembled instructions of the longer program begin with those of the shorter. *)
Theorem C66_appended_partial : forall rt m input input' more out out', orders rt -> lines input' = lines input ++ more -> no_redefinition (lines input) more ->
  assemble rt m input = Ok out -> assemble rt m input' = Ok out' -> exists z, out' = out ++ z.
Proof. exact appended. Qed.
Theorem C66_words_partial : forall rt m input input' more out out', orders rt -> lines input' = lines input ++ more -> no_redefinition (lines input) more ->
  assemble rt m input = Ok out -> assemble rt m input' = Ok out' -> exists z, words_of out' = words_of out ++ z.
Proof.
  intros rt m input input' more out out' Or E N A A'. destruct (C66_appended_partial rt m input input' more out out' Or E N A A') as [z ->].
  exists (words_of z). unfold words_of. apply map_app.
Qed.
(** So it is when the new lines begin with a global label, or the program has no local labels. *)
Theorem C66_new_scope_partial : forall rt m input input' more out out', orders rt -> lines input' = lines input ++ more ->
  (exists g r, more = g :: r /\ global_label g = true) \/ (forall l n, In l (lines input) -> role_of l = Defines n -> is_local n = false) ->
  assemble rt m input = Ok out -> assemble rt m input' = Ok out' -> exists z, out' = out ++ z.
Proof.
  intros rt m input input' more out out' Or E Sp. apply (C66_appended_partial rt m input input' more out out' Or E). intros n a c b p d q Ei R L Ng Em Np.
  destruct Sp as [(g & r & Eg & G)|Nl].
  - rewrite Eg in Em. destruct p as [|x p]; injection Em as <- _.
    + intros D. unfold global_label in G. rewrite D, L in G. discriminate.
    + specialize (Np g (or_introl eq_refl)). congruence.
  - specialize (Nl c n). rewrite Ei in Nl. rewrite Nl in L; [discriminate|apply in_or_app; right; now left|exact R].
Qed.
(** The warnings are only added to, too. *)
Theorem C66_warnings : forall rt m input input' more ws ws', lines input' = lines input ++ more ->
  assemble_warnings rt m input = Some ws -> assemble_warnings rt m input' = Some ws' -> exists z, ws' = ws ++ z.
Proof. exact appended_warnings. Qed.

Definition more_text : str := scope_text ++ nl :: join [nl] [#"@@y:"; #"b @@y"; #"third:"; #"nop"; #"@@x:"; #"b @@x"].
Example C66_case : exists out out', assemble (mk_runtime true (fun l => l)) m_new scope_text = Ok out /\ assemble (mk_runtime true (fun l => l)) m_new more_text = Ok out'
  /\ lines more_text = lines scope_text ++ [#"@@y:"; #"b @@y"; #"third:"; #"nop"; #"@@x:"; #"b @@x"]
  /\ words_of out = [[0]; [0]; [0x1000fffe]; [0]] /\ words_of out' = [[0]; [0]; [0x1000fffe]; [0]; [0x1000ffff]; [0]; [0x1000ffff]].
Proof.
  destruct (assemble (mk_runtime true (fun l => l)) m_new scope_text) as [out| |] eqn:A; [|vm_compute in A; discriminate A|vm_compute in A; discriminate A].
  destruct (assemble (mk_runtime true (fun l => l)) m_new more_text) as [out'| |] eqn:A'; [|vm_compute in A'; discriminate A'|vm_compute in A'; discriminate A'].
  exists out, out'. split; [reflexivity|]. split; [reflexivity|]. split; [vm_compute; reflexivity|]. vm_compute in A. injection A as <-. vm_compute in A'. injection A' as <-. split; reflexivity.
Qed.
Lemma app_cut_cons {A} (x : A) l a c b : x :: l = a ++ c :: b -> (a = [] /\ c = x /\ b = l) \/ exists a', a = x :: a' /\ l = a' ++ c :: b.
Proof. destruct a as [|y a]; intros E; injection E as E1 E2; subst; [left; auto|right; eauto]. Qed.
Example C66_case_clear : no_redefinition (lines scope_text) [#"@@y:"; #"b @@y"; #"third:"; #"nop"; #"@@x:"; #"b @@x"].
Proof.
  intros n a c b p d q Ei R L Ng Em Np Rd. assert (Yn : n = #"@@y").
  { apply app_cut_cons in Em as [(-> & -> & _)|(p1 & -> & Em)]; [vm_compute in Rd; now injection Rd as <-|]. apply no_global_cons in Np as [_ Np].
    apply app_cut_cons in Em as [(-> & -> & _)|(p2 & -> & Em)]; [vm_compute in Rd; discriminate Rd|]. apply no_global_cons in Np as [_ Np].
    apply app_cut_cons in Em as [(-> & -> & _)|(p3 & -> & Em)]; [vm_compute in Rd; injection Rd as <-; vm_compute in L; discriminate L|]. apply no_global_cons in Np as [Np _]. vm_compute in Np. discriminate Np. }
  subst n. assert (I : In c (lines scope_text)) by (rewrite Ei; apply in_or_app; right; now left). vm_compute in I.
  repeat (destruct I as [<-|I]; [vm_compute in R; discriminate R|]). destruct I.
Qed.

Print Assumptions C65_assemble.
Print Assumptions C65_warnings.
Print Assumptions C65_one_symbol.
Print Assumptions C66_refuted.
Print Assumptions C66_appended_partial.
Print Assumptions C66_words_partial.
Print Assumptions C66_new_scope_partial.
Print Assumptions C66_warnings.
