(** * PropsPanic: assembling does not panic (C29). *)

From Coq Require Import Lia Permutation.
From Verif Require Import Lib SpecIsa StrLemmas OperandProofs TextProofs RefProofs WarnProofs PanicProofs PanicMore SpecText SpecProgram SpecLabels SpecImm.
From Verif Require Import SpecPanic.

Definition C29_full : Prop := forall rt m input p, assemble rt m input <> Panic p.

(** The [.word] directive the disassembler itself writes makes the assembler panic; so do a one-letter
    mnemonic, a nameless label, a load from nowhere, and many others. *)
Definition rt0 : runtime := mk_runtime true (fun l => l).
Definition m0 : mipsasm := mk_mipsasm 2147483648 [(2147516416, #"data")] false.
Theorem C29_refuted : ~ C29_full.
Proof.
  intros H. destruct (assemble rt0 m0 #".word 0x1") as [out|p|p] eqn:A; [vm_compute in A; discriminate A|vm_compute in A; discriminate A|exact (H _ _ _ _ A)].
Qed.
Definition panics (l : str) : Prop := exists p, assemble rt0 m0 l = Panic p.
Example more_panics : Forall panics [#"x"; #":"; #"lw $a0, data"; #"j"; #"cache 32, 0($a0)"; #"li $a0, @@x"; #"lui $a0, %top(data)"; #"add.x $f0, $f1, $f2";
  #"lw $a9, 0($a0)"; #"sll $a0, $a1, $a2"; #"bge $a0, $a1, 0x80000001"].
Proof. repeat (constructor; [eexists; vm_compute; reflexivity|]). constructor. Qed.

(** Programs of lines that avoid these cases, whether the lines are right or wrong. *)
Theorem C29_partial rt m input : (forall l, Permutation (rt_order rt l) l) ->
  (rt_oc rt = true -> 0 <= m_base m /\ m_base m + 4 * Z.of_nat (instruction_count (lines input)) < 2 ^ 32) ->
  Forall (harmless_line (rt_oc rt) (m_syms m) (map fst (label_table 0 (lines input)))) (lines input) ->
  forall p, assemble rt m input <> Panic p.
Proof. intros Or Ft H. now apply harmless_assemble. Qed.

(** A program with and without mistakes. *)
Definition program : list str :=
  [#"start:"; #"  addiu $sp, $sp, -8 ; room"; #"  foo $a0, 1"; #"  add $a0, $qq, 3"; #"  ori $a0, $a1"; #"  lui $a0, %hi(data)"; #"  lw $a0, %lo(data)($a0)";
   #""; #"1x:"; #"start:"; #"  c.eq.s $f2, $f4"; #"  beq $a0, r3, start"; #"  j nowhere"; #"  li $a0, 70000"; #"  sll $a0, $a0, 31"; #"  break 7"].
Definition program_text : str := join [nl] program.

Lemma shapes_of m ks : In (m, ks) shapes -> In ks (map snd (filter (fun x => str_eqb m (fst x)) shapes)).
Proof.
  intros I. apply in_map_iff. exists (m, ks). split; [reflexivity|]. apply filter_In. split; [exact I|]. cbn [fst]. now apply str_eqb_spec.
Qed.
Lemma not_shape m : mem_str m (map fst shapes) = true -> ~ In m (map fst shapes) -> False.
Proof. intros H N. apply N. now apply mem_str_in. Qed.
Lemma rdigit_none t : r_digit t = false -> forall a c b, t = a ++ #"r" ++ [c] ++ b -> is_digit c = false.
Proof.
  intros H a. revert t H. induction a as [|x a IH]; intros t H c b ->.
  - cbn in H. now apply orb_false_iff in H as [H _].
  - cbn [app r_digit] in H. apply orb_false_iff in H as [_ H]. exact (IH _ H c b eq_refl).
Qed.
Lemma no_ws_in m : forallb (fun c => negb (is_ws c)) m = true -> forall c, In c m -> is_ws c = false.
Proof. intros H c I. apply (proj1 (forallb_forall _ _) H) in I. now apply negb_true_iff. Qed.
Lemma not_compare m : mem_str m compares = false -> ~ In m compares.
Proof. intros H I. apply mem_str_in in I. congruence. Qed.
Lemma no_open t : existsb (Ascii.eqb "(") t = false -> ~ In "("%char t.
Proof. intros H I. assert (X : existsb (Ascii.eqb "(") t = true) by (apply existsb_exists; eexists; split; [exact I|reflexivity]). congruence. Qed.
Lemma stem_ok m : (if mem_str (firstn (List.length m - 2) m) float_stems then mem_str m float_names else true) = true ->
  forall stem a b, m = stem ++ [a; b] -> In stem float_stems -> In m float_names.
Proof.
  intros H stem a b E I. assert (X : firstn (List.length m - 2) m = stem).
  { rewrite E, app_length. cbn [List.length]. rewrite Nat.add_sub, firstn_app, firstn_all, Nat.sub_diag. apply app_nil_r. }
  rewrite X in H. apply mem_str_in in I. rewrite I in H. now apply mem_str_in.
Qed.
Lemma cond_ok m : (match rev m with c :: _ => Ascii.eqb c "s" || Ascii.eqb c "d" || negb (starts_with #"c." m) | [] => true end) = true ->
  forall r a b, m = #"c." ++ r ++ [a; b] -> b = "s"%char \/ b = "d"%char.
Proof.
  intros H r a b ->. replace (#"c." ++ r ++ [a; b]) with ((#"c." ++ r ++ [a]) ++ [b]) in H by (rewrite <- !app_assoc; reflexivity).
  rewrite rev_app_distr in H. cbn [rev app] in H. assert (X : starts_with #"c." ((#"c." ++ r ++ [a]) ++ [b]) = true) by reflexivity.
  cbn [app] in X, H. rewrite X, orb_false_r in H. apply orb_true_iff in H as [H|H]; apply Ascii.eqb_eq in H; auto.
Qed.
Lemma gpr_a0 : gpr_text #"$a0" 4. Proof. right. exists #"a0". split; [reflexivity|]. apply gpr_named; [lia|reflexivity]. Qed.
Lemma data_at : names_address (m_syms m0) #"data" 2147516416.
Proof. apply na_symbol; [now left|]. intros b [E|[]]. now injection E as <-. Qed.
Lemma data_plain : plain_name #"data". Proof. split; [discriminate|reflexivity]. Qed.
Lemma num_31 : numeral #"31" 31.
Proof. apply num_dec. apply (digits_snoc 10 #"3" 3 "1" 1); [apply digits_one|]; (split; [lia|now left]). Qed.
Ltac operand_harmless :=
  lazymatch goal with
  | |- harmless _ _ AReg _ => first [left; apply rdigit_none; vm_compute; reflexivity
      | right; exists [], #"3", 3; split; [now left|]; split; [reflexivity|]; split; [apply digits_one; split; [lia|now left]|lia]]
  | |- harmless _ _ TheReg _ => exists 4; exact gpr_a0
  | |- harmless _ _ Other _ => exact Logic.I
  | |- harmless _ _ Number _ => first [left; apply no_open; vm_compute; reflexivity
      | right; exists #"data", 2147516416; split; [exact data_plain|]; split; [exact data_at|]; split; [unfold is_word; lia|]; right; split; [reflexivity|lia]]
  | |- harmless _ _ Constant _ => split; [apply no_open; vm_compute; reflexivity|]; split; [intros H; vm_compute in H; repeat (destruct H as [H|H]; [discriminate H|]); destruct H|reflexivity]
  | |- harmless _ _ Amount _ => exists 31; split; [exact num_31|lia]
  | |- harmless _ _ Memory _ => exists #"%lo(data)", 4; split;
      [exists [], #"$a0", #"$a0"; split; [reflexivity|]; split; [exact gpr_a0|]; split; [apply padded_refl|reflexivity]
      |right; exists #"data", 2147516416; split; [exact data_plain|]; split; [exact data_at|]; split; [unfold is_word; lia|reflexivity]]
  | |- harmless _ _ Goal _ => discriminate
  end.
Ltac instruction_harmless :=
  split; [apply no_ws_in; vm_compute; reflexivity|]; split; [intros H; vm_compute in H; discriminate H|]; split; [intros _; apply not_compare; vm_compute; reflexivity|]; split;
  [ intros ks I Ln; apply shapes_of in I; vm_compute in I;
    repeat (destruct I as [<-|I]; [first [vm_compute in Ln; discriminate Ln|clear Ln]|]); try destruct I;
    match goal with |- Forall2 _ _ ?ops => let o := eval vm_compute in ops in change ops with o end;
    repeat (constructor; [operand_harmless|]); constructor
  | first [intros N; exfalso; revert N; apply not_shape; vm_compute; reflexivity|intros _; split; [vm_compute; lia|split; [apply stem_ok; vm_compute; reflexivity|apply cond_ok; vm_compute; reflexivity]]]].
Example program_harmless : Forall (harmless_line (rt_oc rt0) (m_syms m0) (map fst (label_table 0 (lines program_text)))) (lines program_text).
Proof.
  assert (El : lines program_text = program) by (vm_compute; reflexivity). rewrite El.
  assert (Et : map fst (label_table 0 program) = [#"start"; #"1x"; #"start"]) by (vm_compute; reflexivity). rewrite Et.
  repeat (constructor; [unfold harmless_line; match goal with |- match role_of ?l with _ => _ end => let r := eval vm_compute in (role_of l) in change (role_of l) with r end; cbv iota|]);
  try discriminate; try exact Logic.I; try (lazymatch goal with |- Forall _ [] => constructor end).
  all: unfold harmless_instruction; cbv zeta; instruction_harmless.
Qed.
Example program_meets : (forall l, Permutation (rt_order rt0 l) l)
  /\ (rt_oc rt0 = true -> 0 <= m_base m0 /\ m_base m0 + 4 * Z.of_nat (instruction_count (lines program_text)) < 2 ^ 32)
  /\ exists es, assemble rt0 m0 program_text = Err es /\ List.length es = 6%nat.
Proof.
  split; [intros l; apply Permutation_refl|]. split; [intros _; assert (X : instruction_count (lines program_text) = 12%nat) by (vm_compute; reflexivity); rewrite X; cbn; lia|].
  eexists. split; [vm_compute; reflexivity|reflexivity].
Qed.

Print Assumptions C29_refuted.
Print Assumptions C29_partial.
