(** * PropsEdit: editing instructions (C67; C55 for branches and inside programs). *)

From Coq Require Import Lia.
From Verif Require Import Lib SpecIsa StrLemmas DisplayProofs NativeProofs LineProofs ScanProofs ProgProofs BranchProofs LabelProofs AsmProofs PropsLabels EditProofs SpecText SpecProgram SpecLabels SpecEdit.

(** ** C67  Editing an instruction does not change the other lines *)

(** Two programs with the same blank lines and label definitions, whose instructions may
    differ: an instruction line that both have in the same place has the same words in both. *)
Theorem C67_elsewhere rt m input input' out out' l1 l1' raw l2 l2' : assemble rt m input = Ok out -> assemble rt m input' = Ok out' ->
  lines input = l1 ++ raw :: l2 -> lines input' = l1' ++ raw :: l2' -> edited l1 l1' -> edited l2 l2' -> is_instruction raw = true ->
  exists ws, nth_error (words_of out) (instruction_count l1) = Some ws /\ nth_error (words_of out') (instruction_count l1) = Some ws.
Proof.
  intros A A' E E' D1 D2 R. destruct (edit_elsewhere rt m input input' out out' l1 l1' raw l2 l2' A A' E E' D1 D2 R) as (z & N & N').
  exists (inst_bytes z). split; unfold words_of; now apply map_nth_error.
Qed.

Lemma nth_error_ext_eq {A} (a b : list A) : (forall j, nth_error a j = nth_error b j) -> a = b.
Proof.
  revert b. induction a as [|x a IH]; intros [|y b] H; [reflexivity|specialize (H 0%nat); discriminate|specialize (H 0%nat); discriminate|].
  assert (X := H 0%nat). injection X as ->. f_equal. apply IH. intros j. exact (H (S j)).
Qed.

(** When one instruction is replaced, all other words stay. *)
Theorem C67_one_line rt m input input' out out' l1 raw raw' l2 : assemble rt m input = Ok out -> assemble rt m input' = Ok out' ->
  lines input = l1 ++ raw :: l2 -> lines input' = l1 ++ raw' :: l2 -> is_instruction raw = true -> is_instruction raw' = true ->
  exists before ws ws' after, words_of out = before ++ ws :: after /\ words_of out' = before ++ ws' :: after /\ List.length before = instruction_count l1.
Proof.
  intros A A' E E' R R'. assert (Refl : forall ls, edited ls ls) by (intros ls; induction ls; constructor; auto).
  assert (Rr : role_of raw = role_of raw') by (unfold is_instruction in R, R'; destruct (role_of raw), (role_of raw'); try discriminate; reflexivity).
  assert (L : List.length (words_of out) = instruction_count (lines input)) by (unfold words_of; rewrite map_length; apply (C47_proof rt m input out A)).
  assert (L' : List.length (words_of out') = instruction_count (lines input')) by (unfold words_of; rewrite map_length; apply (C47_proof rt m input' out' A')).
  assert (C1 : forall a b, instruction_count (a ++ b) = (instruction_count a + instruction_count b)%nat) by (intros a b; unfold instruction_count; now rewrite filter_app, app_length).
  assert (C2 : forall a b, instruction_count (a :: b) = (instruction_count [a] + instruction_count b)%nat) by (intros a b; apply (C1 [a] b)).
  assert (Ir : instruction_count [raw] = 1%nat) by (unfold instruction_count; cbn [filter]; now rewrite R).
  assert (Ir' : instruction_count [raw'] = 1%nat) by (unfold instruction_count; cbn [filter]; now rewrite R').
  assert (Same : forall j, j <> instruction_count l1 -> nth_error (words_of out) j = nth_error (words_of out') j).
  { intros j J. destruct (Nat.lt_ge_cases j (instruction_count (lines input))) as [Lt|Ge].
    2:{ transitivity (@None (list Z)); [|symmetry]; apply nth_error_None; [rewrite L; exact Ge|]. rewrite L', E'. rewrite E in Ge. rewrite C1, C2, Ir in Ge. rewrite C1, C2, Ir'. exact Ge. }
    destruct (nth_instruction _ _ Lt) as (p1 & r & p2 & Ep & Rp & Cp). assert (Rp' : is_instruction r = true) by (unfold is_instruction; now rewrite Rp).
    assert (H := Ep). rewrite E in H. assert (Split : (exists q, l1 = p1 ++ r :: q /\ p2 = q ++ raw :: l2) \/ (p1 = l1 /\ r = raw /\ p2 = l2) \/ (exists q, p1 = l1 ++ raw :: q /\ l2 = q ++ r :: p2)).
    { clear -H. revert p1 H. induction l1 as [|x l1 IH]; intros [|y p1] H; cbn [app] in H; injection H as H1 H2.
      - subst. right. left. auto.
      - subst. right. right. exists p1. auto.
      - subst. left. exists l1. auto.
      - subst y. destruct (IH p1 H2) as [(q & -> & ->)|[(-> & -> & ->)|(q & -> & ->)]]; [left; exists q; auto|right; left; auto|right; right; exists q; auto]. }
    destruct Split as [(q & -> & ->)|[(-> & -> & ->)|(q & -> & ->)]].
    - rewrite <- app_assoc in E'. cbn [app] in E'. destruct (C67_elsewhere rt m input input' out out' p1 p1 r (q ++ raw :: l2) (q ++ raw' :: l2) A A' Ep E' (Refl _)) as (ws & W & W'); auto.
      { apply Forall2_app; [apply Refl|]. constructor; [exact Rr|apply Refl]. }
      rewrite Cp in W, W'. congruence.
    - contradiction J. now symmetry.
    - assert (E'' : lines input' = (l1 ++ raw' :: q) ++ r :: p2) by (rewrite <- app_assoc; exact E').
      destruct (C67_elsewhere rt m input input' out out' (l1 ++ raw :: q) (l1 ++ raw' :: q) r p2 p2 A A' Ep E'') as (ws & W & W'); auto.
      { apply Forall2_app; [apply Refl|]. constructor; [exact Rr|apply Refl]. }
      rewrite Cp in W, W'. congruence. }
  assert (Sp : forall (x : list (list Z)) j, (j < List.length x)%nat -> exists a y b, x = a ++ y :: b /\ List.length a = j).
  { clear. intros x. induction x as [|y x IH]; intros [|j] Lt; cbn [List.length] in Lt; try lia; [exists [], y, x; auto|]. destruct (IH j ltac:(lia)) as (a & z & b & -> & La). exists (y :: a), z, b. cbn. auto. }
  destruct (Sp (words_of out) (instruction_count l1)) as (a & y & b & Ea & La); [rewrite L, E, C1, C2, Ir; lia|].
  destruct (Sp (words_of out') (instruction_count l1)) as (a' & y' & b' & Ea' & La'); [rewrite L', E', C1, C2, Ir'; lia|].
  rewrite Ea, Ea' in Same. assert (Aa : a = a').
  { apply nth_error_ext_eq. intros j. destruct (Nat.lt_ge_cases j (List.length a)) as [Lt|Ge].
    - specialize (Same j ltac:(lia)). rewrite !nth_error_app1 in Same by lia. exact Same.
    - transitivity (@None (list Z)); [|symmetry]; apply nth_error_None; lia. }
  subst a'. assert (Bb : b = b').
  { apply nth_error_ext_eq. intros j. specialize (Same (S (List.length a + j)) ltac:(lia)). rewrite !nth_error_app2 in Same by lia.
    replace (S (List.length a + j) - List.length a)%nat with (S j) in Same by lia. exact Same. }
  subst b'. exists a, y, y', b. auto.
Qed.

(** ** C55  Register fields are isolated, in programs *)

(** [w] and [w'] differ in the five bits at [p] only, where they have [n] and [n']. *)
Definition differ_in (p n n' w w' : Z) : Prop :=
  field w p 5 = n /\ field w' p 5 = n' /\ forall i, 0 <= i -> ~ (p <= i < p + 5) -> Z.testbit w i = Z.testbit w' i.

(** In any program, replacing one register of a native instruction (no branch) changes only
    its five bits in all the words of the program. *)
Theorem C55_in_program rt m input input' out out' l1 raw raw' l2 f ks1 k ks2 os1 o o' os2 p n n' : named_symbols (m_syms m) ->
  assemble rt m input = Ok out -> assemble rt m input' = Ok out' -> lines input = l1 ++ raw :: l2 -> lines input' = l1 ++ raw' :: l2 ->
  no_minus_labels (lines input) -> no_minus_labels (lines input') ->
  In f (isa ++ idioms) -> f_ops f = ks1 ++ k :: ks2 -> List.length ks1 = List.length os1 -> register_change k o o' p n n' ->
  native_line f (os1 ++ o :: os2) raw -> case_condition f (os1 ++ o :: os2) raw -> Forall2 notation_fits (f_ops f) (os1 ++ o :: os2) ->
  native_line f (os1 ++ o' :: os2) raw' -> case_condition f (os1 ++ o' :: os2) raw' -> Forall2 notation_fits (f_ops f) (os1 ++ o' :: os2) ->
  is_instruction raw = true -> is_instruction raw' = true ->
  exists before w w' after, words_of out = before ++ [w] :: after /\ words_of out' = before ++ [w'] :: after /\ List.length before = instruction_count l1 /\ differ_in p n n' w w'.
Proof.
  intros Sy A A' E E' M M' If FO Len Rc N C F N' C' F' R R'.
  destruct (native_anywhere rt m input out l1 raw l2 f _ Sy A E M If N F C) as (i & Ni & Bi). destruct (native_anywhere rt m input' out' l1 raw' l2 f _ Sy A' E' M' If N' F' C') as (i' & Ni' & Bi').
  destruct (C67_one_line rt m input input' out out' l1 raw raw' l2 A A' E E' R R') as (a & ws & ws' & b & Ea & Ea' & La).
  assert (W := words_nth _ _ _ _ Ni Bi). assert (W' := words_nth _ _ _ _ Ni' Bi'). rewrite Ea, nth_error_app2, <- La, Nat.sub_diag in W by lia. rewrite Ea', nth_error_app2, <- La, Nat.sub_diag in W' by lia.
  injection W as ->. injection W' as ->. exists a, (word f (os1 ++ o :: os2)), (word f (os1 ++ o' :: os2)), b. split; [exact Ea|]. split; [exact Ea'|]. split; [exact La|].
  unfold differ_in. apply (change_fields f ks1 k ks2 os1 o o' os2 p n n' If FO Len Rc); now apply notation_is_fits.
Qed.

(** The same for branches to labels, local labels and numbers. *)
Theorem C55_branch rt m input input' out out' l1 raw raw' l2 f t ks1 k ks2 os1 o o' os2 p n n' :
  assemble rt m input = Ok out -> assemble rt m input' = Ok out' -> lines input = l1 ++ raw :: l2 -> lines input' = l1 ++ raw' :: l2 ->
  In f (isa ++ idioms) -> f_ops f = ks1 ++ k :: ks2 -> List.length ks1 = List.length os1 -> register_change k o o' p n n' ->
  branch_line f (os1 ++ o :: os2) t raw -> branch_line f (os1 ++ o' :: os2) t raw' -> branch_operand l1 t ->
  is_instruction raw = true -> is_instruction raw' = true ->
  exists before w w' after, words_of out = before ++ [w] :: after /\ words_of out' = before ++ [w'] :: after /\ List.length before = instruction_count l1 /\ differ_in p n n' w w'.
Proof.
  intros A A' E E' If FO Len Rc B B' T R R'. assert (Refl : forall ls, edited ls ls) by (intros ls; induction ls; constructor; auto).
  destruct (branch_edit rt m input input' out out' l1 l1 raw raw' l2 l2 f _ _ t A A' E E' (Refl _) (Refl _) If B B' T) as (d & i & i' & Ni & Ni' & Bi & Bi').
  destruct (C67_one_line rt m input input' out out' l1 raw raw' l2 A A' E E' R R') as (a & ws & ws' & b & Ea & Ea' & La).
  assert (W := words_nth _ _ _ _ Ni Bi). assert (W' := words_nth _ _ _ _ Ni' Bi'). rewrite Ea, nth_error_app2, <- La, Nat.sub_diag in W by lia. rewrite Ea', nth_error_app2, <- La, Nat.sub_diag in W' by lia.
  injection W as ->. injection W' as ->. eexists a, _, _, b. split; [exact Ea|]. split; [exact Ea'|]. split; [exact La|].
  rewrite (word_normal f _ t raw d B), (word_normal f _ t raw' d B'). assert (F := branch_fits f _ t raw d If B). assert (F' := branch_fits f _ t raw' d If B'). rewrite <- !app_assoc in *. cbn [app] in *.
  exact (change_fields f ks1 k ks2 os1 o o' (os2 ++ [OInt (signed16 (d mod 65536))]) p n n' If FO Len Rc F F').
Qed.

(** A program and the same with a register of the branch replaced. *)
Definition before_edit : str := join [nl] [#"top:"; #"li $a0, 0x12345"; #"beq $a0,$zero,top"; #"nop"; #"j top"].
Definition after_edit : str := join [nl] [#"top:"; #"li $a0, 0x12345"; #"beq $t9,$zero,top"; #"nop"; #"j top"].
Definition edit_rt : runtime := mk_runtime true (fun l => l).
Definition edit_m : mipsasm := mk_mipsasm 2147483648 [] false.
Example edit_words : exists out out', assemble edit_rt edit_m before_edit = Ok out /\ assemble edit_rt edit_m after_edit = Ok out'
  /\ words_of out = [[0x3c040001; 0x34842345]; [0x1080fffe]; [0]; [0x08000000]] /\ words_of out' = [[0x3c040001; 0x34842345]; [0x1320fffe]; [0]; [0x08000000]].
Proof. eexists _, _. split; [vm_compute; reflexivity|]. split; [vm_compute; reflexivity|]. split; vm_compute; reflexivity. Qed.
Lemma dollar_name x n : 0 <= n < 32 -> same_letters x (nth_name gpr_names n) -> gpr_text (#"$" ++ x) n.
Proof. intros B E. right. exists x. split; [reflexivity|]. now apply gpr_named. Qed.
Lemma beq_line r n : gpr_text r n -> branch_line (format_named #"beq") [OReg n; OReg 0] #"top" (#"beq " ++ r ++ #",$zero,top").
Proof.
  intros G. apply (plain_branch (format_named #"beq") [OReg n; OReg 0] [Rs; Rt] [r; #"$zero"]); [vm_compute; reflexivity|reflexivity| |].
  - constructor; [constructor; exact G|]. constructor; [constructor|constructor]. exact (dollar_name #"zero" 0 ltac:(lia) eq_refl).
  - exact (plain_statement #"beq" r [#"$zero"; #"top"]).
Qed.
Example edit_case : lines before_edit = [#"top:"; #"li $a0, 0x12345"] ++ #"beq $a0,$zero,top" :: [#"nop"; #"j top"] /\ lines after_edit = [#"top:"; #"li $a0, 0x12345"] ++ #"beq $t9,$zero,top" :: [#"nop"; #"j top"]
  /\ In (format_named #"beq") (isa ++ idioms) /\ f_ops (format_named #"beq") = [] ++ Rs :: [Rt; Branch16] /\ register_change Rs (OReg 4) (OReg 25) 21 4 25
  /\ branch_line (format_named #"beq") [OReg 4; OReg 0] #"top" #"beq $a0,$zero,top" /\ branch_line (format_named #"beq") [OReg 25; OReg 0] #"top" #"beq $t9,$zero,top"
  /\ branch_operand [#"top:"; #"li $a0, 0x12345"] #"top" /\ is_instruction #"beq $a0,$zero,top" = true /\ is_instruction #"beq $t9,$zero,top" = true.
Proof.
  split; [vm_compute; reflexivity|]. split; [vm_compute; reflexivity|]. split; [apply format_named_in; vm_compute; reflexivity|]. split; [vm_compute; reflexivity|]. split; [constructor|].
  split; [apply (beq_line #"$a0" 4); exact (dollar_name #"a0" 4 ltac:(lia) eq_refl)|]. split; [apply (beq_line #"$t9" 25); exact (dollar_name #"t9" 25 ltac:(lia) eq_refl)|].
  split; [apply (bo_global _ _ 0); [split; reflexivity|reflexivity|vm_compute; now left]|]. split; vm_compute; reflexivity.
Qed.

Print Assumptions C67_elsewhere.
Print Assumptions C67_one_line.
Print Assumptions C55_in_program.
Print Assumptions C55_branch.
