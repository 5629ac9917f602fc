(** * PropsWarn: warnings (C50, C51). *)

From Coq Require Import Lia.
From Verif Require Import Lib SpecIsa StrLemmas TextProofs OperandProofs NativeProofs LineProofs ScanProofs ProgProofs AsmProofs ErrorProofs QuietProofs WarnProofs SpecErrors SpecText SpecProgram SpecLabels.
From Verif Require Import SpecWarn.

(** ** C50: delay slots *)

(** Line [k] gets the warning exactly when it holds a branch or jump and the instruction before it
    is one too. *)
Definition C50_full : Prop := forall rt m input out ws,
  assemble rt m input = Ok out -> assemble_warnings rt m input = Some ws ->
  forall k, delay_warned ws k <-> in_delay_slot (lines input) k.

(** [b] has a delay slot, but this assembler does not know. *)
Definition two_branches : str := #"b 0x80000000" ++ [nl] ++ #"jr $ra".
Definition rt0 : runtime := mk_runtime true (fun l => l).
Definition m0 : mipsasm := mk_mipsasm 2147483648 [] false.
Lemma two_branches_slot : in_delay_slot (lines two_branches) 2.
Proof.
  exists [#"b 0x80000000"], #"jr $ra", [], #"b 0x80000000". split; [vm_compute; reflexivity|]. split; [reflexivity|]. split; [vm_compute; reflexivity|].
  split; [apply mem_str_in; vm_compute; reflexivity|]. split; [vm_compute; reflexivity|apply mem_str_in; vm_compute; reflexivity].
Qed.
Theorem C50_refuted : ~ C50_full.
Proof.
  intros H. destruct (assemble rt0 m0 two_branches) as [out| |] eqn:A; [|vm_compute in A; discriminate A|vm_compute in A; discriminate A].
  destruct (assemble_warnings rt0 m0 two_branches) as [ws|] eqn:W; [|vm_compute in W; discriminate W].
  destruct (H rt0 m0 two_branches out ws A W 2%nat) as [_ K]. specialize (K two_branches_slot). vm_compute in W. injection W as <-.
  destruct K as (ln & slot & [] & _).
Qed.

(** What holds: the warnings are exactly those of a branch or jump whose preceding instruction is
    a branch or jump other than [b], [bal], [beqzl], [bnezl] and the compare-and-branch
    pseudo-instructions.  The warning quotes the source line just above (which need not hold the
    preceding instruction).  Missing: warnings after the overlooked branches. *)
Theorem C50_delay_slot_warning_partial rt m input out :
  assemble rt m input = Ok out ->
  exists ws, assemble_warnings rt m input = Some ws
  /\ forall x, is_delay x = true ->
     (In x ws <->
      exists l1 above raw l2 prev, lines input = l1 ++ above :: raw :: l2
        /\ is_instruction raw = true /\ In (mnemonic raw) transfers
        /\ last_instruction (l1 ++ [above]) = Some prev /\ In (mnemonic prev) transfers /\ ~ In (mnemonic prev) overlooked
        /\ x = WDelaySlot (mk_line (S (List.length l1)) above) (mk_line (S (S (List.length l1))) raw)).
Proof.
  intros A. apply assemble_ok in A as (s & is1 & [Sc Er Ad Co]). set (e := mk_parser rt m input) in *. exists (p_warnings s). split.
  { unfold assemble_warnings, parse. fold e. change (e_input e) with (lines input). rewrite Sc. cbn [obind]. fold (final e s).
    destruct (final_same e s) as (F1 & F2 & F3 & F4 & F5). rewrite F1, F3, F5. rewrite Ad. reflexivity. }
  assert (D : delays e ([] ++ lines input) s).
  { apply (delays_scan e (lines input) [] init_state s); [reflexivity|apply nl_of_lines| |exact Sc|exact Er].
    split; [reflexivity|intros H; now destruct H|reflexivity|]. intros x _. split; [intros []|].
    intros (l1 & ab & raw & l2 & pv & E & _). destruct l1; discriminate. }
  cbn [app] in D. intros x Dx. rewrite (dl_warn _ _ _ D x Dx). unfold warned_in.
  split; intros (l1 & ab & raw & l2 & pv & E & I & M & La & P); exists l1, ab, raw, l2, pv.
  - destruct P as [P Ex]. apply seen_iff in P. tauto.
  - destruct P as (P1 & P2 & Ex). assert (In (mnemonic pv) seen) by (apply seen_iff; auto). auto 8.
Qed.
(** So the property holds of programs without the overlooked branches. *)
Corollary C50_without_overlooked_partial rt m input out ws :
  assemble rt m input = Ok out -> assemble_warnings rt m input = Some ws ->
  (forall l, In l (lines input) -> is_instruction l = true -> ~ In (mnemonic l) overlooked) ->
  forall k, delay_warned ws k <-> in_delay_slot (lines input) k.
Proof.
  intros A W No k. destruct (C50_delay_slot_warning_partial rt m input out A) as (ws' & W' & H). rewrite W in W'. injection W' as <-.
  assert (Li : forall ls pv, last_instruction ls = Some pv -> In pv ls /\ is_instruction pv = true).
  { intros ls pv L. unfold last_instruction in L. destruct (rev (filter is_instruction ls)) as [|y r] eqn:R; [discriminate|]. injection L as ->.
    assert (I : In pv (rev (filter is_instruction ls))) by (rewrite R; now left). apply in_rev in I. now apply filter_In in I. }
  split.
  - intros (ln & slot & I & L). apply (H (WDelaySlot ln slot) eq_refl) in I as (l1 & ab & raw & l2 & pv & E & Ir & M & La & P & _ & Ex).
    injection Ex as -> ->. cbn in L. subst k. exists (l1 ++ [ab]), raw, l2, pv. rewrite app_length, Nat.add_1_r, <- app_assoc. cbn. auto 8.
  - intros (l1 & raw & l2 & pv & E & -> & I & M & La & P).
    destruct (rev l1) as [|ab r] eqn:R; [destruct l1; [discriminate La|apply (f_equal (@List.length str)) in R; cbn in R; rewrite app_length in R; cbn in R; lia]|].
    assert (E1 : l1 = rev r ++ [ab]) by (rewrite <- (rev_involutive l1), R; reflexivity). clear R. subst l1.
    exists (mk_line (S (List.length (rev r))) ab), (mk_line (S (S (List.length (rev r)))) raw). split.
    + apply H; [reflexivity|]. exists (rev r), ab, raw, l2, pv. rewrite E, <- app_assoc. cbn. destruct (Li _ _ La) as [Lp Ip].
      assert (~ In (mnemonic pv) overlooked) by (apply No; [rewrite E; apply in_or_app; now left|exact Ip]). auto 9.
    + cbn. rewrite app_length, Nat.add_1_r. reflexivity.
Qed.
(** A program with such a warning, quoting a comment. *)
Example C50_case : exists out x, assemble rt0 m0 (#"jr $ra" ++ [nl] ++ #"; slot" ++ [nl] ++ #"jal 0x80000000") = Ok out
  /\ is_delay x = true
  /\ exists ws, assemble_warnings rt0 m0 (#"jr $ra" ++ [nl] ++ #"; slot" ++ [nl] ++ #"jal 0x80000000") = Some ws /\ ws = [x].
Proof. do 2 eexists. split; [vm_compute; reflexivity|]. split; [|eexists; split; [vm_compute; reflexivity|reflexivity]]. reflexivity. Qed.

(** ** C51: alignment *)
Theorem C51_alignment_warnings rt m input :
  (* a branch to the address [a] *)
  (forall ws l1 raw l2 name ts t a,
     assemble_warnings rt m input = Some ws -> faultless rt m input (S (List.length l1)) -> lines input = l1 ++ raw :: l2 ->
     In name branches -> Forall plain_name ts -> numeral t a -> 0 <= a < 2 ^ 32 -> instruction_line name (ts ++ [t]) raw ->
     exists x, padded t x /\ forall w, warned_line w = S (List.length l1) -> is_delay w = false ->
       (In w ws <-> a mod 4 <> 0 /\ w = WUnalignedBranch (mk_line (S (List.length l1)) raw) x))
  (* a jump to the address [a] *)
  /\ (forall ws l1 raw l2 name t a,
     assemble_warnings rt m input = Some ws -> faultless rt m input (S (List.length l1)) -> lines input = l1 ++ raw :: l2 ->
     In name jumps -> names_address (m_syms m) t a -> plain_name t \/ numeral t a -> 0 <= a < 2 ^ 32 -> instruction_line name [t] raw ->
     forall w, warned_line w = S (List.length l1) -> is_delay w = false ->
       (In w ws <-> a mod 4 <> 0 /\ w = WUnalignedJump (mk_line (S (List.length l1)) raw) t))
  (* no such warning about anything else *)
  /\ (forall out ws w, assemble rt m input = Ok out -> assemble_warnings rt m input = Some ws -> In w ws -> is_delay w = false ->
     exists l1 raw l2, lines input = l1 ++ raw :: l2 /\ is_instruction raw = true /\ warned_line w = S (List.length l1)
       /\ (In (mnemonic raw) branches \/ In (mnemonic raw) jumps))
  (* and the text of a warning can always be made *)
  /\ assemble rt m input <> Panic "fmt_line: underline not found".
Proof.
  split; [|split; [|split]].
  - intros ws l1 raw l2 name ts t a. apply branch_alignment.
  - intros ws l1 raw l2 name t a. apply jump_alignment.
  - intros out ws w A W I D. apply assemble_ok in A as (s & is1 & [Sc Er Ad Co]). set (e := mk_parser rt m input) in *.
    assert (ws = p_warnings s) as ->.
    { unfold assemble_warnings, parse in W. fold e in W. change (e_input e) with (lines input) in W. rewrite Sc in W. cbn [obind] in W. fold (final e s) in W.
      destruct (final_same e s) as (F1 & F2 & F3 & F4 & F5). rewrite F1, F3, F5, Ad in W. now injection W as <-. }
    destruct (scan_about e (lines input) [] init_state s eq_refl (nl_of_lines input) ltac:(split; cbn; lia) Sc Er ltac:(intros ? []) w I) as (l1 & raw & l2 & E & Ir & X).
    exists l1, raw, l2. split; [exact E|]. split; [exact Ir|]. destruct w; [discriminate D|destruct X as [-> X]; auto..].
  - apply warnings_shown.
Qed.
(** A branch and a jump that get warnings, in a program with an error elsewhere. *)
Definition crooked : str := #"beq $a0, $a1,  0x80000002" ++ [nl] ++ #"addq $a0" ++ [nl] ++ #"jal 0x80000401".
Example C51_case : exists ws es, assemble_warnings rt0 m0 crooked = Some ws /\ assemble rt0 m0 crooked = Err es
  /\ faultless rt0 m0 crooked 1 /\ faultless rt0 m0 crooked 3
  /\ instruction_line #"beq" [#"$a0"; #"$a1"; #"0x80000002"] (nth 0 (lines crooked) []) /\ numeral #"0x80000002" 2147483650
  /\ instruction_line #"jal" [#"0x80000401"] (nth 2 (lines crooked) []) /\ numeral #"0x80000401" 2147484673
  /\ filter (fun x => negb (is_delay x)) ws = [WUnalignedBranch (mk_line 1 (#"beq $a0, $a1,  0x80000002")) #"  0x80000002"; WUnalignedJump (mk_line 3 #"jal 0x80000401") #"0x80000401"].
Proof.
  eexists _, _. split; [vm_compute; reflexivity|]. split; [vm_compute; reflexivity|].
  split; [intros es p A I; vm_compute in A; injection A as <-; destruct I as [<-|[]]; discriminate|].
  split; [intros es p A I; vm_compute in A; injection A as <-; destruct I as [<-|[]]; discriminate|].
  split; [|split; [apply hex_text; [vm_compute; reflexivity|lia]|]]; [|split; [|split; [apply hex_text; [vm_compute; reflexivity|lia]|reflexivity]]].
  - exists [], #"beq $a0, $a1,  0x80000002", [], []. repeat split; try (now constructor); try discriminate.
    apply (st_ops #"beq" #"beq" _ _ #"$a0" [#" $a1"; #"  0x80000002"]); [reflexivity|]. constructor; [exists [], []; repeat split|].
    constructor; [exists #" ", []; repeat split|]. constructor; [exists #"  ", []; repeat split|constructor].
  - exists [], #"jal 0x80000401", [], []. repeat split; try (now constructor); try discriminate.
    apply (st_ops #"jal" #"jal" _ _ #"0x80000401" []); [reflexivity|]. constructor; [exists [], []; repeat split|constructor].
Qed.

Print Assumptions C50_refuted.
Print Assumptions C50_delay_slot_warning_partial.
Print Assumptions C50_without_overlooked_partial.
Print Assumptions C51_alignment_warnings.
