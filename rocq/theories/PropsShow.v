(** * PropsShow: displaying diagnostics (C35, C54). *)

From Coq Require Import Lia.
From Verif Require Import Lib StrLemmas ShowProofs DisplayProofs SpecErrors SpecText SpecShow.

(** ** C54  The offending text is underlined *)

Definition C54_full : Prop := forall p t, show_error p = Ok t ->
  forall ln u mark, In (ln, u, mark) (quotes p) -> underlined t ln u mark.
Theorem C54_underlined : C54_full.
Proof. exact show_error_rows. Qed.

(** Warnings too, when the two line numbers of a delay-slot warning have as many digits (the
    second number is the smaller one, and gives the width of the gutter). *)
Theorem C54_warnings_partial w t : show_warning w = Ok t ->
  (forall ln slot, w = WDelaySlot ln slot ->
     (List.length (dec (Z.of_nat (l_num slot))) <= List.length (dec (Z.of_nat (l_num ln))))%nat) ->
  forall ln u mark, In (ln, u, mark) (warning_quotes w) -> underlined t ln u mark.
Proof. exact (show_warning_rows w t). Qed.

(** The same for all warnings fails: with the branch on line 9 and the jump in its delay slot on line
    10, the rows under line 10 start one column too far to the left. *)
Definition C54_warnings_full : Prop := forall w t, show_warning w = Ok t ->
  forall ln u mark, In (ln, u, mark) (warning_quotes w) -> underlined t ln u mark.
(** The spaces in front of the first bar. *)
Fixpoint indent (r : str) : nat :=
  match r with [] => 0 | c :: r' => if Ascii.eqb c "|"%char then 0 else if Ascii.eqb c " "%char then S (indent r') else indent r' end.
Fixpoint rows_indented (n : nat) (t : str) : bool :=
  match t with [] => true | c :: r => ((if Ascii.eqb c nl then Nat.leb (indent r) n else true) && rows_indented n r)%bool end.
Lemma colored_indent r s : colored r s -> indent r = indent s.
Proof.
  induction 1 as [|c r s C IH|q r s Q C IH]; [reflexivity|cbn [indent]; now rewrite IH|].
  destruct Q as [<-|[<-|[<-|[]]]]; exact IH.
Qed.
Lemma rows_indented_at n a b : rows_indented n (a ++ nl :: b) = true -> (indent b <= n)%nat.
Proof.
  induction a as [|c a IH]; cbn [app rows_indented]; intros H; apply andb_prop in H as [H1 H2]; [|auto].
  rewrite Ascii.eqb_refl in H1. now apply Nat.leb_le.
Qed.
Lemma indent_app a x : In "|"%char a -> indent (a ++ x) = indent a.
Proof.
  induction a as [|c a IH]; [intros []|]. cbn [app indent]. destruct (Ascii.eqb_spec c "|"%char); [reflexivity|].
  intros [E|E]; [congruence|]. now rewrite IH.
Qed.
Lemma indent_blanks n x : indent (repeat " "%char n ++ #" | " ++ x) = S n.
Proof. induction n as [|n IH]; [reflexivity|]. cbn [repeat app indent]. now rewrite IH. Qed.
Lemma bar_kept r s : colored r s -> In "|"%char s -> In "|"%char r.
Proof.
  induction 1 as [|c r s C IH|q r s Q C IH]; [auto|intros [E|E]; [now left|right; auto]|intros E; apply in_or_app; auto].
Qed.
Theorem C54_warnings_refuted : ~ C54_warnings_full.
Proof.
  intros H. set (w := WDelaySlot (mk_line 9 #" b lbl") (mk_line 10 #" j 0x80000000")).
  destruct (show_warning w) as [t| |] eqn:E; [|vm_compute in E; discriminate E|vm_compute in E; discriminate E].
  destruct (H w t E _ _ _ (or_introl eq_refl)) as (before & after & row1 & row2 & pad & gutter & start & msg & Et & _ & _ & C2 & Eg & _).
  assert (B : rows_indented 2 t = true) by (vm_compute in E; injection E as <-; vm_compute; reflexivity).
  rewrite Et, !app_assoc in B. rewrite <- app_assoc in B.
  replace ((((before ++ row1) ++ [nl]) ++ row2) ++ [nl] ++ after) with ((before ++ row1) ++ nl :: row2 ++ [nl] ++ after) in B by now rewrite <- !app_assoc.
  apply rows_indented_at in B. rewrite indent_app in B.
  - rewrite (colored_indent _ _ C2), Eg, indent_blanks in B. cbn [l_num] in B. change (List.length (dec (Z.of_nat 10))) with 2%nat in B. lia.
  - apply (bar_kept _ _ C2). rewrite Eg. apply in_or_app. right. right. now left.
Qed.

(** An error with two quotes, on lines whose numbers have different widths. *)
Definition twice : perror :=
  EMultipleLabelDefinition (mk_line 12 #"  x: ; again") #"x" (mk_line 3 #"  x:").
Example C54_case : exists t, show_error twice = Ok t
  /\ underlined t (mk_line 3 #"  x:") #"x" "-"%char /\ underlined t (mk_line 12 #"  x: ; again") #"x" "^"%char.
Proof.
  destruct (show_error twice) as [t| |] eqn:E; [|vm_compute in E; discriminate E|vm_compute in E; discriminate E].
  exists t. split; [reflexivity|]. split; apply (C54_underlined twice t E); cbn; auto.
Qed.

(** ** C35  Every error can be displayed *)

Definition C35_full : Prop := forall rt m input es p, assemble rt m input = Err es -> In p es ->
  exists t, show_error p = Ok t.

(** Exactly the errors whose texts occur in the lines they quote can be displayed. *)
Theorem C35_iff p : (exists t, show_error p = Ok t)
  <-> (forall ln u mark, In (ln, u, mark) (quotes p) -> occurs u (l_content ln)).
Proof. exact (show_error_iff p). Qed.

Theorem C35_displayed_partial rt m input es p : assemble rt m input = Err es -> In p es ->
  quoted_as_written p -> exists t, show_error p = Ok t.
Proof. intros A I Q. apply show_error_iff. exact (errors_shown rt m input es p A I Q). Qed.

(** Some kinds of errors are always displayed. *)
Theorem C35_always rt m input es p : assemble rt m input = Err es -> In p es ->
  match p with
  | EInvalidLabel _ _ | EInvalidInstruction _ | EInvalidOperandCount _ _ _ _ | EInvalidOpcode _ _ | EInvalidFloatCond _ _ => True
  | _ => False
  end -> exists t, show_error p = Ok t.
Proof. intros A I K. apply (C35_displayed_partial rt m input es p A I). now destruct p. Qed.

Definition rt0 : runtime := mk_runtime true (fun l => l).
Definition m0 : mipsasm := mk_mipsasm 0x80000000 [] false.
Definition wrong_program : str := join [nl]
  [ #"9x:"; #"add $a0, $a1"; #"foo $a0"; #"add $a0, $zz, $a1"; #"add $a0, 33, $a1"; #"addiu $a0, $a1, 0x1ffff"; #"lw $a0, 99999($a1)";
    #"j nowhere"; #"b @@x"; #"c.xx.s $f1, $f2"; #"j 0xfffffffff"; #"add.s $f1, $zz, $f2"; #"lwc1 $f1, 0($zz)" ].
(** Thirteen errors of nine kinds, all within the theorem. *)
Lemma count_le l c n : Nat.leb (count_occ ascii_dec l c) n = true -> (count_occ ascii_dec l c <= n)%nat.
Proof. apply Nat.leb_le. Qed.
Example C35_case : exists es, assemble rt0 m0 wrong_program = Err es /\ List.length es = 13%nat
  /\ forall p, In p es -> (forall l u, p <> EInvalidTargetAddress l u) -> (forall l u, p <> EInvalidImmediate l u) -> quoted_as_written p.
Proof.
  destruct (assemble rt0 m0 wrong_program) as [|es|] eqn:A; [vm_compute in A; discriminate A| |vm_compute in A; discriminate A].
  exists es. split; [reflexivity|]. vm_compute in A. injection A as <-. split; [reflexivity|]. intros p I N1 N2.
  cbn [In] in I. repeat match type of I with _ \/ _ => destruct I as [I|I] end; try contradiction I; subst p;
    try (exfalso; eapply N1; reflexivity); try (exfalso; eapply N2; reflexivity); cbn [quoted_as_written l_content];
    try exact Logic.I; try (split; apply count_le; vm_compute; reflexivity);
    try (left; eexists #"add", _; split; [cbn; tauto|]; split; [vm_compute; reflexivity|]; right; eexists; reflexivity);
    try (right; split; [reflexivity|]; split; [exists "z"%char; split; [cbn; tauto|reflexivity]|]; split; apply count_le; vm_compute; reflexivity).
Qed.

Lemma hex_places l : (forall n, (n <= List.length l)%nat -> starts_with #"0x" (skipn n l) = true -> operand_start (firstn n l)) ->
  forall a b, l = a ++ #"0x" ++ b -> operand_start a.
Proof.
  intros H a b E. specialize (H (List.length a)). rewrite E in H. rewrite firstn_app, Nat.sub_diag, firstn_all, app_nil_r in H.
  apply H; [rewrite app_length; lia|]. rewrite skipn_app, skipn_all, Nat.sub_diag. cbn [skipn app]. apply starts_with_self.
Qed.
Example C35_case_hex : quoted_as_written (EInvalidImmediate (mk_line 6 #"addiu $a0, $a1, 0x1ffff") #"1ffff").
Proof.
  cbn [quoted_as_written l_content]. split; [split; apply count_le; vm_compute; reflexivity|].
  change (clean #"addiu $a0, $a1, 0x1ffff") with #"addiu $a0, $a1, 0x1ffff". split.
  - change (clean #"addiu $a0, $a1, 0x1ffff") with #"addiu $a0, $a1, 0x1ffff". apply hex_places. intros n L X. cbn [List.length lit] in L.
    do 24 (destruct n as [|n]; [first [discriminate X|exists #"addiu $a0, $a1", #" "; split; [reflexivity|left; reflexivity]]|]). cbn in L. lia.
  - intros r E. discriminate E.
Qed.
Example C35_case_decimal : quoted_as_written (EInvalidImmediate (mk_line 6 #"lw $a0, 99999($a1)") #"99999").
Proof.
  cbn [quoted_as_written l_content]. split; [split; apply count_le; vm_compute; reflexivity|]. split.
  - change (clean #"lw $a0, 99999($a1)") with #"lw $a0, 99999($a1)". apply hex_places. intros n L X.
    do 19 (destruct n as [|n]; [discriminate X|]). cbn in L. lia.
  - intros r E. discriminate E.
Qed.

(** A negative hexadecimal immediate out of range is quoted without its "0x". *)
Ltac refute_with prog := intros H; destruct (assemble rt0 m0 prog) as [|es|] eqn:A; [vm_compute in A; discriminate A| |vm_compute in A; discriminate A];
  specialize (H rt0 m0 prog es); vm_compute in A; injection A as <-;
  match type of H with forall p, _ -> In p (?q :: _) -> _ =>
    destruct (H q) as [t T]; [vm_compute; reflexivity|now left|vm_compute in T; discriminate T] end.
Theorem C35_refuted : ~ C35_full.
Proof. refute_with #"addiu $a0, $a1, -0x10000". Qed.
(** A float register out of range is read as hexadecimal and quoted in decimal. *)
Theorem C35_refuted_register : ~ C35_full.
Proof. refute_with #"add.s $f32, $f1, $f2". Qed.
(** The first definition of a label is looked up by the number of instructions before it. *)
Theorem C35_refuted_label : ~ C35_full.
Proof. refute_with (join [nl] [ []; []; #"x:"; #"x:" ]). Qed.
(** A branch out of bounds is looked for in the last line of the program. *)
Theorem C35_refuted_bounds : ~ C35_full.
Proof. refute_with (join [nl] [ #"b 0"; #"nop" ]). Qed.

Print Assumptions C54_underlined.
Print Assumptions C54_warnings_partial.
Print Assumptions C54_warnings_refuted.
Print Assumptions C35_iff.
Print Assumptions C35_displayed_partial.
Print Assumptions C35_always.
Print Assumptions C35_refuted.
Print Assumptions C35_refuted_register.
Print Assumptions C35_refuted_label.
Print Assumptions C35_refuted_bounds.
