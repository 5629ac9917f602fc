(** * PropsReloc: assembling at another base address (C64). *)

From Coq Require Import Lia Permutation.
From Verif Require Import Lib SpecIsa StrLemmas ScanProofs ProgProofs ErrorProofs LabelProofs ShownProofs RefProofs PropsLabels RelocProofs SpecErrors SpecText SpecProgram SpecLabels SpecDisplay.

(** ** C64  The base address only moves jumps to labels *)

(** The words of line [l] at the bases [b] and [b']: the same, unless the line is a jump to one
    of the labels, whose target then moves with the base. *)
Definition moves_with (labels : list (str * nat)) (b b' : Z) (l : str) (ws ws' : list Z) : Prop :=
  ws = ws' \/ (mnemonic l = #"j" \/ mnemonic l = #"jal") /\ exists n k, In (n, k) labels
    /\ ws = [jump_code (mnemonic l) * 2 ^ 26 + (b + 4 * Z.of_nat k) mod 2 ^ 26 / 4]
    /\ ws' = [jump_code (mnemonic l) * 2 ^ 26 + (b' + 4 * Z.of_nat k) mod 2 ^ 26 / 4].

Lemma relocates_moves t b b' l ws ws' : relocates t b b' l ws ws' -> moves_with t b b' l ws ws'.
Proof.
  intros [H|(p & n & k & M & I & -> & ->)]; [now left|right]. unfold jump_to. destruct p; cbn in M; rewrite M; (split; [auto|]); exists n, k; repeat split; exact I.
Qed.
Lemma forall2_len {A B} (P : A -> B -> Prop) a l : Forall2 P a l -> List.length a = List.length l.
Proof. induction 1; cbn; congruence. Qed.
Lemma forall2_at {A B} (P : A -> B -> Prop) a x c l : Forall2 P (a ++ x :: c) l -> exists y, nth_error l (List.length a) = Some y /\ P x y.
Proof.
  intros F. apply Forall2_app_inv_l in F as (la & lb & Fa & Fb & ->). inversion Fb as [|? y ? lc Px]; subst. exists y.
  rewrite nth_error_app2, (forall2_len _ _ _ Fa), Nat.sub_diag by (rewrite (forall2_len _ _ _ Fa); lia). auto.
Qed.
Lemma nth_combine {A B} (l : list A) (l' : list B) i x y : nth_error (combine l l') i = Some (x, y) -> nth_error l i = Some x /\ nth_error l' i = Some y.
Proof.
  revert l' i. induction l as [|u l IH]; intros [|v l'] [|i] H; cbn in H; try discriminate.
  - injection H as <- <-. auto.
  - apply IH in H. exact H.
Qed.

(** Both programs have the same number of instructions, and the words of a line are the same
    or those of a jump to a label. *)
Theorem C64_words : forall rt m b input out out', assemble rt m input = Ok out -> assemble rt (set_base b m) input = Ok out' ->
  List.length (words_of out) = List.length (words_of out')
  /\ forall l1 raw l2, lines input = l1 ++ raw :: l2 -> is_instruction raw = true ->
     exists ws ws', nth_error (words_of out) (instruction_count l1) = Some ws /\ nth_error (words_of out') (instruction_count l1) = Some ws'
       /\ moves_with (label_table 0 (lines input)) (m_base m) b raw ws ws'.
Proof.
  intros rt m b input out out' A A'. destruct (relocated rt m b input out out' A A') as [F L]. split; [unfold words_of; now rewrite !map_length|].
  intros l1 raw l2 Ei Is. revert F. generalize (label_table 0 (lines input)) as t. intros t F. rewrite Ei, filter_app in F. cbn [filter] in F. rewrite Is in F. apply forall2_at in F as ([x y] & N & R). cbn [fst snd] in R.
  apply nth_combine in N as [N1 N2]. exists (inst_bytes x), (inst_bytes y). unfold instruction_count. split; [|split; [|now apply relocates_moves]]; (eapply words_nth; [eassumption|reflexivity]).
Qed.

(** A program without [j] and [jal], and any program moved by a multiple of 2^26, has the same
    words. *)
Lemma same_words (out out' : list inst) : forall (ls : list str) P, Forall2 P ls (combine out out') -> (forall l x y, In l ls -> P l (x, y) -> inst_bytes x = inst_bytes y) -> List.length out = List.length out' ->
  words_of out = words_of out'.
Proof.
  revert out'. induction out as [|x out IH]; intros [|y out'] ls P F H L; try discriminate; [reflexivity|]. cbn [combine] in F. inversion F as [|l ? ls' ? Pl F']; subst.
  cbn [words_of map]. f_equal; [apply (H l x y); [now left|exact Pl]|]. apply (IH out' ls' P F'); [|cbn in L; congruence]. intros l0 x0 y0 I0 P0. apply (H l0); [now right|exact P0].
Qed.
Theorem C64_position_independent : forall rt m b input out out', assemble rt m input = Ok out -> assemble rt (set_base b m) input = Ok out' ->
  (forall l, In l (lines input) -> is_instruction l = true -> mnemonic l <> #"j" /\ mnemonic l <> #"jal") \/ (b - m_base m) mod 2 ^ 26 = 0 ->
  words_of out = words_of out'.
Proof.
  intros rt m b input out out' A A' H. destruct (relocated rt m b input out out' A A') as [F L]. apply (same_words out out' _ _ F); [|exact L].
  intros l x y I R. cbn [fst snd] in R. apply relocates_moves in R as [R|(M & n & k & _ & -> & ->)]; [exact R|]. destruct H as [H|H].
  - apply filter_In in I as [I J]. destruct (H l I J). tauto.
  - assert (E : (m_base m + 4 * Z.of_nat k) mod 2 ^ 26 = (b + 4 * Z.of_nat k) mod 2 ^ 26); [|now rewrite E].
    replace (b + 4 * Z.of_nat k) with ((m_base m + 4 * Z.of_nat k) + (b - m_base m)) by lia. rewrite <- (Z.add_mod_idemp_r _ (b - m_base m)), H, Z.add_0_r by lia. reflexivity.
Qed.

Theorem C64_warnings : forall rt m b input ws ws', assemble_warnings rt m input = Some ws -> assemble_warnings rt (set_base b m) input = Some ws' -> ws = ws'.
Proof. intros rt m b input. apply warned_alike. Qed.

(** The addresses at the base [b] stay below 2^32 (needed only with overflow checks). *)
Definition fits_at (rt : runtime) (b : Z) (input : str) : Prop :=
  rt_oc rt = true -> 0 <= b /\ b + 4 * Z.of_nat (instruction_count (lines input)) < 2 ^ 32.

(** A program that assembles assembles at every base, unless branches to numeric addresses fall
    outside the program there. *)
Theorem C64_assembles : forall rt m b input out, orders rt -> fits_at rt b input -> assemble rt m input = Ok out ->
  (exists out', assemble rt (set_base b m) input = Ok out')
  \/ (exists es, assemble rt (set_base b m) input = Err es /\ es <> [] /\ forallb bounds_error es = true).
Proof. intros rt m b input out. apply moved_ok. Qed.
(** And one with any other error has the same other errors at every base. *)
Theorem C64_errors : forall rt m b input es, orders rt -> fits_at rt b input -> assemble rt m input = Err es -> forallb bounds_error es = false ->
  exists es', assemble rt (set_base b m) input = Err es' /\ filter (fun p => negb (bounds_error p)) es = filter (fun p => negb (bounds_error p)) es'.
Proof. intros rt m b input es. apply moved_err. Qed.

(** A program with a loop and a call, at two bases; a branch to a number that works only at one
    of them; and an error found at both. *)
Definition moving : str := join [nl] [#"loop:"; #"addiu $a0, $a0, -1"; #"bnez $a0, loop"; #"nop"; #"jal loop"; #"nop"].
Definition rt1 : runtime := mk_runtime true (fun l => l).
Example C64_case : exists out out', assemble rt1 (set_base 0x80000400 m_new) moving = Ok out /\ assemble rt1 (set_base 0x80001000 (set_base 0x80000400 m_new)) moving = Ok out'
  /\ words_of out = [[0x2484ffff]; [0x1480fffe]; [0]; [0x0c000100]; [0]] /\ words_of out' = [[0x2484ffff]; [0x1480fffe]; [0]; [0x0c000400]; [0]].
Proof. eexists. eexists. split; [vm_compute; reflexivity|]. split; [vm_compute; reflexivity|]. split; reflexivity. Qed.
Example C64_case_bounds : exists out es, assemble rt1 (set_base 0x80000400 m_new) #"b 0x80000400" = Ok out /\ assemble rt1 (set_base 0x80001000 (set_base 0x80000400 m_new)) #"b 0x80000400" = Err es
  /\ forallb bounds_error es = true.
Proof. eexists. eexists. split; [vm_compute; reflexivity|]. split; [vm_compute; reflexivity|]. reflexivity. Qed.
Example C64_case_error : exists es es', assemble rt1 (set_base 0x80000400 m_new) #"add $a0, $qq, $a1" = Err es /\ assemble rt1 (set_base 0x80001000 (set_base 0x80000400 m_new)) #"add $a0, $qq, $a1" = Err es'
  /\ forallb bounds_error es = false.
Proof. eexists. eexists. split; [vm_compute; reflexivity|]. split; [vm_compute; reflexivity|]. reflexivity. Qed.

Print Assumptions C64_words.
Print Assumptions C64_position_independent.
Print Assumptions C64_warnings.
Print Assumptions C64_assembles.
Print Assumptions C64_errors.
