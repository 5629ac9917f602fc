(** * PropsScopes: local labels (C38). *)

From Coq Require Import Lia Permutation.
From Verif Require Import Lib SpecIsa StrLemmas TextProofs NativeProofs ScanProofs ProgProofs BranchProofs AsmProofs LabelProofs CongProofs ErrorProofs RefProofs ScopeProofs PropsLabels PropsRefs SpecErrors SpecText SpecProgram SpecLabels SpecScopes.

(** ** C38  Local labels resolve inside their scope *)

(** The line [raw] (after the lines [l1]) is a branch to the local label [n]. *)
Record local_reference (rt : runtime) (m : mipsasm) (input : str) (l1 : list str) (raw : str) (l2 : list str) (f : format) (os : list operand) (n : str) : Prop := mk_local_reference {
  lr_order : orders rt;
  lr_lines : lines input = l1 ++ raw :: l2;
  lr_format : In f (isa ++ idioms);
  lr_line : branch_line f os n raw;
  lr_name : identifier n;
  lr_local : is_local n = true
}.
(** [d], after the lines [d1], defines [n] in the scope of [raw]. *)
Record scope_definition (input : str) (l1 : list str) (raw : str) (l2 : list str) (n : str) (d1 : list str) (d : str) (d2 : list str) : Prop := mk_scope_definition {
  sd_lines : lines input = d1 ++ d :: d2;
  sd_defines : role_of d = Defines n;
  sd_scope : same_scope l1 raw l2 d1 d d2
}.
(** The error says that a label of line [num] cannot be found. *)
Definition label_missing (num : nat) (p : perror) : Prop :=
  error_number p = num /\ reference_error p = true /\ bounds_error p = false.

Definition C38_full : Prop := forall rt m input l1 raw l2 f os n, local_reference rt m input l1 raw l2 f os n ->
  (* it is the distance to the definition *)
  (forall out, assemble rt m input = Ok out -> exists d1 d d2, scope_definition input l1 raw l2 n d1 d d2
     /\ nth_error (words_of out) (instruction_count l1)
        = Some [word f (os ++ [OInt (Z.of_nat (instruction_count d1) - (Z.of_nat (instruction_count l1) + 1))])])
  (* and there is no error when there is a definition *)
  /\ (forall es d1 d d2, assemble rt m input = Err es -> scope_definition input l1 raw l2 n d1 d d2 ->
      forall p, In p es -> ~ label_missing (S (List.length l1)) p).

(** In a program that assembles, a branch to a local label that does not come right after a
    global label goes to a definition in the same scope, unless the name is also defined
    before the first global label of the program. *)
Theorem C38_resolves_partial rt m input l1 raw l2 f os n out : local_reference rt m input l1 raw l2 f os n -> assemble rt m input = Ok out ->
  (no_global l1 \/ exists a b, l1 = a ++ b /\ no_global b /\ (0 < instruction_count b)%nat) ->
  (forall d1 d d2, lines input = d1 ++ d :: d2 -> role_of d = Defines n -> no_global d1 -> no_global l1) ->
  exists d1 d d2, scope_definition input l1 raw l2 n d1 d d2
    /\ nth_error (words_of out) (instruction_count l1)
       = Some [word f (os ++ [OInt (Z.of_nat (instruction_count d1) - (Z.of_nat (instruction_count l1) + 1))])].
Proof.
  intros [Or E If B Id Ln] A Fst Gu. assert (N := nl_of_lines input).
  assert (A' := A). apply assemble_ok in A' as (s & is1 & As). set (e := mk_parser rt m input) in *.
  destruct (assembled_at e _ s is1 out l1 raw l2 N As E) as (s1 & S1 & E1 & L1 & P1 & T1 & X).
  destruct (assembled_labels e _ s is1 out N As) as (Lb & Nd & G & C & _).
  assert (Nr : no_nl raw) by (apply (lines_no_nl input); rewrite E; apply in_or_app; right; now left).
  assert (Rd : ready e (bump s1) raw) by (apply (after_ready e l1 raw l2); [exact E|]; split; [exact P1|]; rewrite L1; apply instruction_count_le).
  destruct (local_branch_parse e (bump s1) f os n raw If B Id Ln Nr Rd) as (Ne & Ec & w & p & rs & r2 & P & En).
  assert (Rr := role_native raw Ne Ec). rewrite Rr in X. destruct X as (w' & i0 & i1 & i' & o1 & o2 & P' & _ & Ad & Ai & Eo & Lo & _).
  rewrite P in P'. apply pair_equal_spec in P' as [_ P']. injection P' as <-. cbn [adjust_one] in Ad.
  destruct (final_same e s) as (F1 & _).
  assert (Hd : held n s (lines input)) by (apply (held_scan e Or n Ln (lines input) N init_state [] s (held_init n) (as_scan _ _ _ _ _ As) (as_errors _ _ _ _ _ As))).
  assert (Fin := fun x => held_final e Or n s (lines input) x Hd).
  destruct (assoc n (p_dropped (final e s))) as [defs|] eqn:Ed.
  2:{ exfalso. rewrite (get_line_nth e (List.length l1) raw) in Ad by (change (e_input e) with (lines input); rewrite E, nth_error_app2, Nat.sub_diag by lia; reflexivity). cbn [obind] in Ad. discriminate Ad. }
  apply obind_ok in Ad as (pk & Pk & Ad). destruct pk as [a|].
  2:{ exfalso. rewrite (get_line_nth e (List.length l1) raw) in Ad by (change (e_input e) with (lines input); rewrite E, nth_error_app2, Nat.sub_diag by lia; reflexivity). cbn [obind] in Ad. discriminate Ad. }
  injection Ad as <-. destruct (pick_in _ _ _ _ Pk) as (sc & [lo hi] & I & Gs & R).
  destruct (Fin (a, sc) I) as (d1 & d & d2 & El & Rdl & Ea & Es). cbn [fst snd] in *.
  exists d1, d, d2. split.
  - constructor; [exact El|exact Rdl|].
    apply (seen_from (lines input) l1 raw l2 d1 d d2 n (final e s) lo hi); auto; [now rewrite F1|now rewrite <- Es|]. intros Nd1. apply (Gu d1 d d2 El Rdl Nd1).
  - subst a. set (dd := Z.of_nat (instruction_count d1) - (Z.of_nat (instruction_count l1) + 1)) in *.
    destruct (En dd (rt_oc rt)) as (i2 & Ai2 & Bi). unfold label_offset, wrap in Ai. fold dd in Ai. change (2 ^ 16) with 65536 in Ai. change (e_oc e) with (rt_oc rt) in Ai. rewrite Ai in Ai2. injection Ai2 as <-.
    eapply words_nth; [|exact Bi]. subst out. rewrite nth_error_app2 by lia. rewrite Lo, Nat.sub_diag. reflexivity.
Qed.

(** When some local label of the program comes before a later global label, a local label with
    a definition in the scope of the branch is found. *)
Theorem C38_no_error_partial rt m input l1 raw l2 f os n es d1 d d2 : local_reference rt m input l1 raw l2 f os n -> assemble rt m input = Err es ->
  (forall p, In p es -> reference_error p = true) ->
  (exists a l g b, lines input = a ++ l :: b /\ (exists k, role_of l = Defines k /\ is_local k = true) /\ In g b /\ global_label g = true) ->
  scope_definition input l1 raw l2 n d1 d d2 ->
  forall p, In p es -> ~ label_missing (S (List.length l1)) p.
Proof.
  intros [Or E If B Id Ln] A Rf (da & dl & dg & db & Dl & (dk & Rk & Lk) & Ig & Gg) [Ed Rdl Sc] p Ip (Np & _ & Bp).
  assert (P : forall x, assemble rt m input <> Panic x) by (intros x; congruence).
  assert (N := nl_of_lines input). destruct (read_to_end rt m input P) as (s & is1 & errs & Sc0 & Ad & Er). set (e := mk_parser rt m input) in *.
  destruct (sound_at e s l1 raw l2 N E Sc0) as (s1 & f1 & x & f2 & Sc1 & So1 & Fx & So).
  assert (Rd := sound_ready e s1 l1 f1 raw l2 So1 E).
  assert (Nr : no_nl raw) by (apply (lines_no_nl input); rewrite E; apply in_or_app; right; now left).
  destruct (local_branch_parse e (bump s1) f os n raw If B Id Ln Nr Rd) as (Ne & Ec & w & op & rs & r2 & Pi & _).
  assert (Rr := role_native raw Ne Ec). assert (Ex := fated_made _ _ _ _ _ _ Ne Ec Pi Fx). subst x.
  assert (Es : p_errors s = []).
  { destruct (p_errors s) as [|q qs] eqn:Q; [reflexivity|exfalso].
    assert (Iq : In q (wrongs (f1 ++ Made (IImm op rs r2 (LocalLabel n) []) :: f2))) by (rewrite <- (so_errors _ _ _ _ So), Q; now left).
    apply wrongs_in in Iq as [k Iq]. destruct (so_wrong _ _ _ _ So k _ Iq) as (Rq & _). destruct (proj1 (Er q)) as (es' & A' & Iq'); [now left|].
    rewrite A in A'. injection A' as <-. rewrite (Rf q Iq') in Rq. discriminate. }
  assert (E1 : p_errors s1 = []).
  { apply (no_errors_before s1 s); [|exact Es]. rewrite E, scan_app in Sc0. apply obind_ok in Sc0 as (s1' & Sc1' & Sc2). rewrite Sc1 in Sc1'. injection Sc1' as <-.
    refine (proj1 (scan_grows e (raw :: l2) _ s1 s Sc2)). rewrite E in N. apply Forall_app in N. apply N. }
  destruct (scan_ok e (lines input) N _ _ Sc0 Es) as (new & Hn & Hl & T). cbn in Hn, T, Hl.
  destruct (scan_labels e (lines input) N _ _ Sc0 init_good (NoDup_nil _)) as [G Nd]. rewrite T in G, Nd.
  assert (Ct : List.length (p_insts s) = instruction_count (lines input)) by (rewrite Hn, <- (map_length fst new), Hl; apply instruction_lines_length).
  assert (Nl1 : Forall no_nl l1) by (rewrite E in N; apply Forall_app in N; apply N).
  destruct (scan_ok e l1 Nl1 _ _ Sc1 E1) as (new1 & Hn1 & Hl1 & _). cbn in Hn1, Hl1.
  assert (Ct1 : made_count f1 = instruction_count l1) by (rewrite <- (mades_count 0 f1), <- (so_insts _ _ _ _ So1), Hn1, <- (map_length fst new1), Hl1; apply instruction_lines_length).
  (* the error comes from this line *)
  destruct (Er p) as [_ Ep]. assert (Ie : In p (p_errors s ++ errs)) by (apply Ep; eauto). rewrite Es in Ie. cbn [app] in Ie.
  rewrite (so_insts _ _ _ _ So) in Ad. assert (Lf := so_fates _ _ _ _ So1).
  destruct (error_from e (final e s) f1 _ f2 is1 errs p Ad Ie Bp) as (x1 & e2 & A2 & I2); [rewrite Lf; exact Np|]. rewrite Ct1, Lf in A2.
  (* but there is a definition in range *)
  destruct (final_same e s) as (F1 & F2 & _).
  assert (Hd : held n s (lines input)) by (apply (held_scan e Or n Ln (lines input) N init_state [] s (held_init n) Sc0 Es)).
  assert (Hk : held dk s (lines input)) by (apply (held_scan e Or dk Lk (lines input) N init_state [] s (held_init dk) Sc0 Es)).
  assert (Dn : p_dropped s <> []).
  { destruct (hd_old _ _ _ Hk da dl db Dl Rk) as [a Ha]; [intros X; specialize (X dg Ig); congruence|]. intros Z. rewrite Z in Ha. destruct Ha. }
  destruct (held_found e Or n s (lines input) d1 d d2 Hd Dn Ed Rdl) as [a Ha].
  assert (Ran : exists lu, get_label_scope (final e s) (scope_name d1) = Ok lu /\ (fst lu <= instruction_count l1 <= snd lu)%nat).
  { assert (T' : p_labels (final e s) = label_table 0 (d1 ++ d :: d2)) by (rewrite F2, T, Ed; reflexivity).
    assert (Nd' := Nd). assert (G' := G). assert (Ct' := Ct). rewrite Ed in Nd', G', Ct'.
    destruct (scope_range (final e s) d1 (d :: d2) T' Nd' G') as (lo & hi & Gs & _); [now rewrite F1|]. exists (lo, hi). split; [exact Gs|].
    apply (seen_in_scope (lines input) l1 raw l2 d1 d d2 n (final e s) lo hi); auto; [now rewrite F2|now rewrite F1]. }
  destruct Ran as (lu & Gs & R). cbn [adjust_one] in A2. destruct (assoc n (p_dropped (final e s))) as [defs|] eqn:Ea; [|destruct Ha].
  apply obind_ok in A2 as (pk & Pk & A2). destruct pk; [injection A2 as _ <-; destruct I2|]. exact (pick_some _ _ _ _ _ _ Ha Gs R Pk).
Qed.

Lemma branch_b (n : str) raw : raw = (#"b " ++ n)%list -> branch_line (format_named #"b") [] n raw.
Proof.
  intros ->. apply (plain_branch (format_named #"b") [] [] []); [vm_compute; reflexivity|reflexivity|constructor|]. apply (plain_statement #"b" n []).
Qed.
Definition two_scopes : str := join [nl] [ #"first:"; #"@@x:"; #"nop"; #"b @@x"; #"second:"; #"nop"; #"b @@x"; #"nop"; #"@@x:"; #"nop" ].
Lemma two_scopes_case : local_reference plain_rt m_new two_scopes [ #"first:"; #"@@x:"; #"nop"; #"b @@x"; #"second:"; #"nop" ] #"b @@x" [ #"nop"; #"@@x:"; #"nop" ] (format_named #"b") [] #"@@x".
Proof.
  constructor; [exact orders_plain|reflexivity|apply format_named_in; vm_compute; reflexivity| |split; reflexivity|reflexivity].
  apply branch_b; reflexivity.
Qed.
(** It assembles, the conditions hold, and the branch in the second scope goes to the second
    definition, one instruction further. *)
Example C38_case : exists out, assemble plain_rt m_new two_scopes = Ok out
  /\ (exists a b, [ #"first:"; #"@@x:"; #"nop"; #"b @@x"; #"second:"; #"nop" ] = a ++ b /\ no_global b /\ (0 < instruction_count b)%nat)
  /\ (forall d1 d d2, lines two_scopes = d1 ++ d :: d2 -> no_global d1 -> role_of d <> Defines #"@@x")
  /\ nth_error (words_of out) 3 = Some [word (format_named #"b") [OInt 1]].
Proof.
  destruct (assemble plain_rt m_new two_scopes) as [out| |] eqn:A; [|vm_compute in A; discriminate A|vm_compute in A; discriminate A].
  exists out. split; [reflexivity|]. split; [|split].
  - exists [ #"first:"; #"@@x:"; #"nop"; #"b @@x"; #"second:" ], [ #"nop" ]. split; [reflexivity|]. split; [|vm_compute; lia]. intros l [<-|[]]. reflexivity.
  - intros [|a d1] d d2 E N R; vm_compute in E.
    + injection E as <- _. vm_compute in R. discriminate R.
    + injection E as <- _. specialize (N _ (or_introl eq_refl)). vm_compute in N. discriminate N.
  - vm_compute in A. injection A as <-. vm_compute. reflexivity.
Qed.

(** Without a global label after it, no local label is ever found. *)
Definition one_scope : str := join [nl] [ #"@@x:"; #"nop"; #"b @@x" ].
Theorem C38_refuted : ~ C38_full.
Proof.
  intros H. destruct (H plain_rt m_new one_scope [ #"@@x:"; #"nop" ] #"b @@x" [] (format_named #"b") [] #"@@x") as [_ K].
  { constructor; [exact orders_plain|reflexivity|apply format_named_in; vm_compute; reflexivity| |split; reflexivity|reflexivity].
    apply branch_b; reflexivity. }
  destruct (assemble plain_rt m_new one_scope) as [|es|] eqn:A; [vm_compute in A; discriminate A| |vm_compute in A; discriminate A].
  assert (Sd : scope_definition one_scope [ #"@@x:"; #"nop" ] #"b @@x" [] #"@@x" [] #"@@x:" [ #"nop"; #"b @@x" ]).
  2:{ specialize (K es [] #"@@x:" [ #"nop"; #"b @@x" ] eq_refl Sd). vm_compute in A. injection A as <-. eapply (K _ (or_introl eq_refl)). repeat split; reflexivity. }
  constructor; [reflexivity|reflexivity|]. apply (ss_before _ _ _ _ _ _ [ #"nop" ]); [reflexivity|reflexivity|]. intros l [<-|[]]. reflexivity.
Qed.

(** Right after a global label, a branch finds the definition of the scope before it. *)
Definition scope_end : str := join [nl] [ #"first:"; #"@@x:"; #"nop"; #"second:"; #"b @@x"; #"@@x:"; #"nop" ].
Theorem C38_scope_end : ~ (forall rt m input l1 raw l2 f os n, local_reference rt m input l1 raw l2 f os n ->
  forall out, assemble rt m input = Ok out -> exists d1 d d2, scope_definition input l1 raw l2 n d1 d d2
     /\ nth_error (words_of out) (instruction_count l1)
        = Some [word f (os ++ [OInt (Z.of_nat (instruction_count d1) - (Z.of_nat (instruction_count l1) + 1))])]).
Proof.
  intros H. destruct (assemble plain_rt m_new scope_end) as [out| |] eqn:A; [|vm_compute in A; discriminate A|vm_compute in A; discriminate A].
  destruct (H plain_rt m_new scope_end [ #"first:"; #"@@x:"; #"nop"; #"second:" ] #"b @@x" [ #"@@x:"; #"nop" ] (format_named #"b") [] #"@@x") with (out := out) as (d1 & d & d2 & [El Rl Sc] & W); [|exact A|].
  { constructor; [exact orders_plain|reflexivity|apply format_named_in; vm_compute; reflexivity| |split; reflexivity|reflexivity].
    apply branch_b; reflexivity. }
  vm_compute in A. injection A as <-. vm_compute in El.
  destruct Sc as [mid E1 E2 N|mid E1 E2 N].
  - (* not before: the global label is in between *)
    assert (In #"second:" mid \/ d = #"second:").
    { clear -E1. destruct d1 as [|? [|? [|? [|? z]]]]; cbn in E1; try (injection E1; intros; subst; cbn; auto; fail). destruct z; discriminate. }
    destruct H0 as [I| ->]; [specialize (N _ I); vm_compute in N; discriminate N|vm_compute in Rl; discriminate Rl].
  - rewrite E2, instruction_count_app in W. clear -W E1 Rl.
    assert (M : mid = []).
    { destruct mid as [|a [|b mid]]; [reflexivity| |]; cbn in E1; injection E1; intros; subst.
      - vm_compute in Rl. discriminate Rl.
      - destruct mid; discriminate. }
    subst mid. vm_compute in W. discriminate W.
Qed.
