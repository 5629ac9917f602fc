(** * PropsRename: consistently renaming labels does not change the result (C68). *)

From Coq Require Import Lia Permutation.
From Verif Require Import Lib SpecIsa StrLemmas DisplayProofs SpecMachine SpecPseudo NativeProofs LineProofs ScanProofs ProgProofs BranchProofs LabelProofs AsmProofs RefProofs PropsLabels PropsEdit RenameProofs RenameScan
  SpecShow SpecText SpecProgram SpecLabels SpecRename.

(** ** C68  The names of labels do not matter *)

Definition swapped (names : list (str * str)) : list (str * str) := map (fun p => (snd p, fst p)) names.
Lemma in_swapped names a b : In (a, b) (swapped names) <-> In (b, a) names.
Proof. unfold swapped. rewrite in_map_iff. split; [intros ([x y] & E & I); cbn in E; now injection E as <- <-|intros I; now exists (b, a)]. Qed.
Lemma renaming_back names syms : renaming names syms -> renaming (swapped names) syms.
Proof.
  intros [A B C D E]. constructor.
  - unfold swapped. rewrite map_map. exact B.
  - unfold swapped. rewrite map_map. exact A.
  - intros n n' I. apply (proj1 (in_swapped names _ _)) in I. destruct (C n' n I) as (X & Y & Z). auto.
  - intros n n' I. apply (proj1 (in_swapped names _ _)) in I. destruct (D n' n I). auto.
  - intros n n' a I. apply (proj1 (in_swapped names _ _)) in I. destruct (E n' n a I). auto.
Qed.
Lemma renamed_back names ls ls' : renamed names ls ls' -> renamed (swapped names) ls' ls.
Proof.
  intros F. induction F as [|l l' ls ls' L _ IH]; constructor; [|exact IH]. destruct L as [l l' A B|n n' l l' A B C|l A B|name ts n n' l l' A B C D E].
  - now constructor.
  - apply (rl_label _ n' n); auto. now apply in_swapped.
  - apply rl_other; [exact A|]. intros n n' I. apply (proj1 (in_swapped names _ _)) in I. destruct (B n' n I). auto.
  - apply (rl_reference _ name ts n' n); auto. now apply in_swapped.
Qed.

(** Renaming labels by a one-to-one map, at their definitions and in all branches and jumps,
    changes neither whether the program assembles nor any word, provided that the old and new
    names are identifiers without [0x], are not names of symbols, keep their kind (local or
    global), and are no words of the other instruction lines. *)
Theorem C68_renaming rt m names input input' out : orders rt -> renaming names (m_syms m) -> renamed names (lines input) (lines input') ->
  (assemble rt m input = Ok out <-> assemble rt m input' = Ok out).
Proof.
  intros Or Rn Rl. split; intros A; [exact (renamed_ok rt m names input input' out Or Rn Rl A)|].
  exact (renamed_ok rt m (swapped names) input' input out Or (renaming_back _ _ Rn) (renamed_back _ _ _ Rl) A).
Qed.

(** A case: two global labels swap their names, and a local label gets another one. *)
Definition some_names : list (str * str) := [(#"main", #"data"); (#"data", #"main"); (#"@@loop", #"@@again")].
Definition before_renaming : str := join [nl] [#"main:"; #"@@loop:; here"; #"addiu $a0, $a0, -1"; #"bne $a0,$zero,@@loop"; #"nop"; #"jal data"; #"nop"; #"data:"; #"blt $a0,$a1,main"; #"nop"].
Definition after_renaming : str := join [nl] [#"data:"; #"@@again:"; #"addiu $a0, $a0, -1"; #"bne $a0,$zero,@@again"; #"nop"; #"jal main"; #"nop"; #"main:"; #"blt $a0,$a1,data"; #"nop"].
Definition rename_rt := mk_runtime false (fun l => l).
Definition rename_m := mk_mipsasm 0x80000000 [(0x80001000, #"printf")] false.

Lemma word_occurs n l : word_in n l -> contains n l = true.
Proof.
  intros (a & b & -> & _). unfold contains. destruct (find_sub n (a ++ n ++ b)) eqn:F; [reflexivity|]. exfalso. now apply (find_sub_infix a n b).
Qed.
Lemma no_use n l : contains n (clean l) = false -> contains n (last_paren (clean l)) = false -> ~ uses n l.
Proof. intros A B [W|W]; apply word_occurs in W; congruence. Qed.
Lemma no_uses l : forallb (fun p => negb (contains (fst p) (clean l) || contains (fst p) (last_paren (clean l)) || contains (snd p) (clean l) || contains (snd p) (last_paren (clean l)))) some_names = true ->
  forall n n', In (n, n') some_names -> ~ uses n l /\ ~ uses n' l.
Proof.
  intros H n n' I. rewrite forallb_forall in H. specialize (H _ I). cbn [fst snd] in H. apply negb_true_iff in H. apply orb_false_iff in H as [H A]. apply orb_false_iff in H as [H B]. apply orb_false_iff in H as [H C].
  split; now apply no_use.
Qed.
Lemma dollar_text x n : 0 <= n < 32 -> same_letters x (nth_name gpr_names n) -> exists a, gpr_text (#"$" ++ x) a.
Proof. intros. exists n. now apply dollar_name. Qed.

Example renaming_case : orders rename_rt /\ renaming some_names (m_syms rename_m) /\ renamed some_names (lines before_renaming) (lines after_renaming).
Proof.
  split; [intros l; apply Permutation_refl|]. split.
  - constructor.
    + repeat constructor; cbn [map In some_names fst snd]; intros D; repeat (destruct D as [D|D]; [discriminate D|]); exact D.
    + repeat constructor; cbn [map In some_names fst snd]; intros D; repeat (destruct D as [D|D]; [discriminate D|]); exact D.
    + intros n n' I. repeat (destruct I as [I|I]; [injection I as <- <-; repeat split; vm_compute; reflexivity|]). destruct I.
    + intros n n' I. repeat (destruct I as [I|I]; [injection I as <- <-; split; intros (a & b & E);
        assert (X : contains #"0x" (a ++ #"0x" ++ b) = true) by (unfold contains; destruct (find_sub #"0x" (a ++ #"0x" ++ b)) eqn:F; [reflexivity|exfalso; now apply (find_sub_infix a #"0x" b)]); rewrite <- E in X; vm_compute in X; discriminate X|]). destruct I.
    + intros n n' a I. repeat (destruct I as [I|I]; [injection I as <- <-; split; intros [E|[]]; discriminate E|]). destruct I.
  - assert (L : lines before_renaming = [#"main:"; #"@@loop:; here"; #"addiu $a0, $a0, -1"; #"bne $a0,$zero,@@loop"; #"nop"; #"jal data"; #"nop"; #"data:"; #"blt $a0,$a1,main"; #"nop"]) by (vm_compute; reflexivity).
    assert (L' : lines after_renaming = [#"data:"; #"@@again:"; #"addiu $a0, $a0, -1"; #"bne $a0,$zero,@@again"; #"nop"; #"jal main"; #"nop"; #"main:"; #"blt $a0,$a1,data"; #"nop"]) by (vm_compute; reflexivity).
    rewrite L, L'.
    assert (Nop : renamed_line some_names #"nop" #"nop") by (apply rl_other; [vm_compute; reflexivity|apply no_uses; vm_compute; reflexivity]).
    constructor; [apply (rl_label _ #"main" #"data"); [vm_compute; reflexivity|vm_compute; reflexivity|now left]|].
    constructor; [apply (rl_label _ #"@@loop" #"@@again"); [vm_compute; reflexivity|vm_compute; reflexivity|right; right; now left]|].
    constructor; [apply rl_other; [vm_compute; reflexivity|apply no_uses; vm_compute; reflexivity]|].
    constructor.
    { apply (rl_reference _ #"bne" [#"$a0"; #"$zero"] #"@@loop" #"@@again"); [| |right; right; now left|exact (plain_statement #"bne" #"$a0" [#"$zero"; #"@@loop"])|exact (plain_statement #"bne" #"$a0" [#"$zero"; #"@@again"])].
      - right. left. exists (format_named #"bne"). split; [apply format_named_in; vm_compute; reflexivity|]. split; [vm_compute; reflexivity|vm_compute; tauto].
      - intros t [<-|[<-|[]]]; [exact (dollar_text #"a0" 4 ltac:(lia) eq_refl)|exact (dollar_text #"zero" 0 ltac:(lia) eq_refl)]. }
    constructor; [exact Nop|]. constructor.
    { apply (rl_reference _ #"jal" [] #"data" #"main"); [left; right; now left|intros t []|right; now left|exact (plain_statement #"jal" #"data" [])|exact (plain_statement #"jal" #"main" [])]. }
    constructor; [exact Nop|]. constructor; [apply (rl_label _ #"data" #"main"); [vm_compute; reflexivity|vm_compute; reflexivity|right; now left]|].
    constructor.
    { apply (rl_reference _ #"blt" [#"$a0"; #"$a1"] #"main" #"data"); [| |now left|exact (plain_statement #"blt" #"$a0" [#"$a1"; #"main"])|exact (plain_statement #"blt" #"$a0" [#"$a1"; #"data"])].
      - right. right. exists false, (fun a b => signed64 a <? signed64 b). do 12 right. left. reflexivity.
      - intros t [<-|[<-|[]]]; [exact (dollar_text #"a0" 4 ltac:(lia) eq_refl)|exact (dollar_text #"a1" 5 ltac:(lia) eq_refl)]. }
    constructor; [exact Nop|constructor].
Qed.
Example renaming_words : exists out, assemble rename_rt rename_m before_renaming = Ok out /\ assemble rename_rt rename_m after_renaming = Ok out
  /\ words_of out = [[0x2484ffff]; [0x1480fffe]; [0]; [0x0c000005]; [0]; [0x0085082a; 0x1420fff9]; [0]].
Proof. eexists. split; [vm_compute; reflexivity|]. split; [vm_compute; reflexivity|vm_compute; reflexivity]. Qed.

Print Assumptions C68_renaming.
