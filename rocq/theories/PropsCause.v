(** * PropsCause: errors name their cause (C70). *)

From Coq Require Import Lia.
From Verif Require Import Lib SpecIsa StrLemmas NumLemmas DecodeProofs TextProofs OperandProofs NativeProofs LineProofs ScanProofs AsmProofs ErrorProofs DisplayProofs BranchProofs
  ImmLines PanicProofs CongProofs SpecShow SpecErrors SpecText SpecProgram SpecLabels SpecPanic SpecCause CauseProofs.

(** The number of operands of a line: none when there is nothing after the mnemonic. *)
Definition written (l : str) : nat := match clean (operand_text_of l) with [] => 0%nat | _ => List.length (operands l) end.

(** The full property for the number of operands: a line with a known mnemonic and a wrong
    number of operands is reported with a number wanted, and the number written. *)
Definition C70_full : Prop := forall rt m l, role_of l = Instruction -> clean_mnemonic l ->
  (exists n, takes (lower_operation l) n) -> ~ takes (lower_operation l) (written l) ->
     exists n, takes (lower_operation l) n /\ causes rt m l (fun ln => EInvalidOperandCount ln n (written l) (operand_text_of l)).

(** What holds: the count is that of the pieces between commas, so at least one, and the
    mnemonics without operands are not checked. *)
Theorem C70_counts_partial rt m l : role_of l = Instruction -> clean_mnemonic l -> ~ In (lower_operation l) no_operands ->
  (exists n, takes (lower_operation l) n) -> ~ takes (lower_operation l) (List.length (operands l)) ->
  exists n, takes (lower_operation l) n /\ causes rt m l (fun ln => EInvalidOperandCount ln n (List.length (operands l)) (operand_text_of l)).
Proof.
  intros R W No [n T] Nt.
  assert (Lo : List.length (operands l) = List.length (split_char "," (operand_text_of l))) by (unfold operands; now rewrite map_length). rewrite Lo in *.
  assert (Tr : trim (to_lower (operation l)) = lower_operation l) by (apply trim_no_ws; unfold no_ws; apply forallb_forall; intros c Ic; rewrite (W c Ic); reflexivity).
  destruct T as [ks I|I|I I3|cond f E].
  - assert (X := proj1 (forallb_forall _ _) slot_rows _ I). unfold slot_row in X. cbn [fst snd] in X.
    assert (Tl : trim (lower_operation l) = lower_operation l) by exact Tr. rewrite Tl in X.
    destruct (classify (lower_operation l)) as [g|] eqn:C; [|discriminate]. destruct (counts g) as [[ns n]|] eqn:N.
    + destruct (counts_take _ g ns n C N) as [Tn Tk]. exists n. split; [exact Tn|]. apply causes_of; [exact R|]. intros e s _ _ Rd. exists [].
      apply (op_count e s l Rd _ _ _ g ns n); [rewrite Tr; exact C|exact N|]. intros In. apply Nt. auto.
    + exfalso. assert (Y := proj1 (forallb_forall _ _) counts_none _ (classify_in _ g C)). cbn [fst snd] in Y. rewrite N in Y. apply existsb_exists in Y as (k & Ik & E). apply str_eqb_spec in E. subst k.
      destruct Ik as [Ik|Ik]; [|exact (No Ik)]. revert I. rewrite <- Ik. clear. intros I.
      assert (Y : forallb (fun x => negb (str_eqb (fst x) #".word")) shapes = true) by (vm_compute; reflexivity). rewrite forallb_forall in Y. specialize (Y _ I). cbn [fst] in Y. rewrite str_eqb_refl in Y. discriminate.
  - exists 3%nat. split; [now apply takes_three|]. apply causes_of; [exact R|]. intros e s _ _ Rd. exists []. apply op_float_count; [exact Rd|apply in_or_app; now left| |].
    + unfold lower_operation in I. apply mem_str_in in I. now rewrite I.
    + intros Z. apply Nt. rewrite Z. now apply takes_three.
  - exists 2%nat. split; [now apply takes_two|]. apply causes_of; [exact R|]. intros e s _ _ Rd. exists []. apply op_float_count; [exact Rd|apply in_or_app; now right| |].
    + destruct (mem_str (to_lower (operation l)) three_floats) eqn:Z; [|reflexivity]. apply mem_str_in in Z. contradiction.
    + intros Z. apply Nt. rewrite Z. now apply takes_two.
  - exists 2%nat. split; [now apply (takes_compare _ cond f)|]. apply causes_of; [exact R|]. intros e s _ _ Rd. exists []. apply (op_compare_count e s l Rd _ _ _ cond f); [exact W|exact E|].
    intros Z. apply Nt. rewrite Z. now apply (takes_compare _ cond f).
Qed.

(** [nop 1] is no error, and [addi] alone is said to have one operand. *)
Theorem C70_refuted : ~ C70_full.
Proof.
  intros H. destruct (H (mk_runtime true (fun l => l)) (mk_mipsasm 0 [] false) #"nop 1") as (n & T & C).
  - vm_compute. reflexivity.
  - intros c I. change (In c #"nop") in I. repeat (destruct I as [<-|I]; [reflexivity|]). destruct I.
  - exists 0%nat. apply (takes_shape _ []). assert (X : existsb (fun y => (str_eqb (fst y) #"nop" && match snd y with [] => true | _ => false end)%bool) shapes = true) by (vm_compute; reflexivity).
    apply existsb_exists in X as ([a ks] & I & E). cbn [fst snd] in E. apply andb_true_iff in E as [E1 E2]. apply str_eqb_spec in E1. destruct ks; [|discriminate]. subst a. exact I.
  - change (lower_operation #"nop 1") with (#"nop"). change (written #"nop 1") with 1%nat. intros T. inversion T as [ks I L|I|I _ L|cond f E L].
    + assert (X : forallb (fun y => (negb (str_eqb (fst y) #"nop") || Nat.eqb (List.length (snd y)) 0)%bool) shapes = true) by (vm_compute; reflexivity).
      rewrite forallb_forall in X. specialize (X _ I). cbn [fst snd] in X. rewrite L in X. vm_compute in X. discriminate.
  - specialize (C #"nop 1" [] [] eq_refl). destruct (assemble _ _ _) as [out|es|p] eqn:A; [exact C| |]; vm_compute in A; discriminate.
Qed.
Theorem C70_found_refuted rt m : forall n t, ~ causes rt m #"addi" (fun ln => EInvalidOperandCount ln n 0 t).
Proof.
  intros n t C. specialize (C #"addi" [] [] eq_refl). destruct (assemble rt m #"addi") as [out|es|p] eqn:A; [exact C| |]; vm_compute in A; [|discriminate]. injection A as <-. destruct C as [C|C]; [discriminate|exact C].
Qed.

(** An unknown mnemonic is reported, as it is written. *)
Theorem C70_unknown rt m l : role_of l = Instruction -> clean_mnemonic l -> unknown (lower_operation l) ->
  causes rt m l (fun ln => EInvalidOpcode ln (operation l)).
Proof. intros R W U. apply causes_of; [exact R|]. intros e s _ _ Rd. exists []. now apply op_unknown. Qed.

(** The first operand that should be a register and is none is reported, as it is written; or,
    when it is a number, by that number. *)
Lemma no_register_err x : no_register (trim x) -> exists u, reg_from_str x = Err u /\ (u = x \/ occurs u x /\ forallb is_digit u = true).
Proof.
  intros [A N]. destruct (reg_from_str x) as [r|u|p] eqn:E.
  - exfalso. apply (A (reg_num r)). now apply reg_from_back.
  - exists u. split; [reflexivity|]. assert (P := reg_err_part x u E). revert E. unfold reg_from_str. rewrite (r_digit_find _ (r_digit_drop _ _ (no_rdigit _ N))).
    destruct (parse_int _ _ _) as [v|]; [|destruct (assoc _ _); [discriminate|intros H; injection H as <-; now left]].
    intros H. apply reg_try_err in H as [_ ->]. right. split; [exact P|]. apply forallb_forall. assert (D := dec_digits v). rewrite Forall_forall in D. exact D.
  - exfalso. revert E. unfold reg_from_str. rewrite (r_digit_find _ (r_digit_drop _ _ (no_rdigit _ N))).
    destruct (parse_int _ _ _) as [v|]; [|destruct (assoc _ _); discriminate]. intros H. unfold reg_try_from in H. destruct v as [|q|q]; try discriminate; repeat (destruct q as [q|q|]; try discriminate).
Qed.
Theorem C70_register rt m l ks i x : role_of l = Instruction -> clean_mnemonic l -> In (lower_operation l, ks) shapes -> List.length ks = List.length (operands l) ->
  nth_error ks i = Some AReg -> nth_error (split_char "," (operand_text_of l)) i = Some x -> no_register (trim x) ->
  (forall j y, (j < i)%nat -> nth_error (operands l) j = Some y -> exists n, gpr_text y n) ->
  exists u, (u = x \/ occurs u x /\ forallb is_digit u = true) /\ causes rt m l (fun ln => EInvalidRegister ln u).
Proof.
  intros R W I L K X N G. destruct (no_register_err x N) as (u & E & O). exists u. split; [exact O|]. apply causes_of; [exact R|]. intros e s _ _ Rd.
  apply (op_register e s l Rd _ _ _ ks i x); auto.
  - rewrite L. unfold operands. now rewrite map_length.
  - intros j y Lt Y. assert (Y' : nth_error (operands l) j = Some (trim y)) by (unfold operands; apply map_nth_error; exact Y).
    destruct (G j (trim y) Lt Y') as [n Gy]. exists (reg_of_num n).
    assert (Z := reg_like y (trim y)). rewrite trim_idem in Z. specialize (Z eq_refl). rewrite (reg_parse (trim y) (trim y) n (padded_refl _) Gy) in Z. destruct (reg_from_str y); try (exfalso; exact Z). now subst.
Qed.

(** ** The hypotheses are met *)

Lemma clean_mnemonic_by l : forallb (fun c => negb (is_ws c)) (lower_operation l) = true -> clean_mnemonic l.
Proof. intros H c I. rewrite forallb_forall in H. specialize (H c I). now apply negb_true_iff in H. Qed.
Lemma takes_by m k : existsb (fun y => (str_eqb (fst y) m && Nat.eqb (List.length (snd y)) k)%bool) shapes = true -> takes m k.
Proof.
  intros X. apply existsb_exists in X as ([a ks] & I & E). cbn [fst snd] in E. apply andb_true_iff in E as [E1 E2]. apply str_eqb_spec in E1. apply Nat.eqb_eq in E2. subst. now apply takes_shape.
Qed.
Lemma takes_not m k : forallb (fun y => negb (str_eqb (fst y) m && Nat.eqb (List.length (snd y)) k)%bool) shapes = true -> mem_str m (three_floats ++ float_names) = false -> starts_with #"c." m = false -> ~ takes m k.
Proof.
  intros X F C T. revert X. destruct T as [ks I|I|I _|cond f ->]; intros X.
  - rewrite forallb_forall in X. specialize (X _ I). cbn [fst snd] in X. rewrite str_eqb_refl, Nat.eqb_refl in X. discriminate.
  - assert (Z : mem_str m (three_floats ++ float_names) = true) by (apply mem_str_in, in_or_app; now left). congruence.
  - assert (Z : mem_str m (three_floats ++ float_names) = true) by (apply mem_str_in, in_or_app; now right). congruence.
  - rewrite starts_with_app in C. discriminate.
Qed.
Example counts_case : exists n, takes #"div" n /\ causes (mk_runtime true (fun l => l)) (mk_mipsasm 0 [] false) #"  DIV $a0 ; two are missing" (fun ln => EInvalidOperandCount ln n 1 #"$a0 ").
Proof.
  destruct (C70_counts_partial (mk_runtime true (fun l => l)) (mk_mipsasm 0 [] false) #"  DIV $a0 ; two are missing") as (n & T & C).
  - vm_compute. reflexivity.
  - apply clean_mnemonic_by. vm_compute. reflexivity.
  - change (lower_operation #"  DIV $a0 ; two are missing") with (#"div"). intros I. repeat (destruct I as [I|I]; [discriminate|]). destruct I.
  - exists 2%nat. apply takes_by. vm_compute. reflexivity.
  - apply takes_not; vm_compute; reflexivity.
  - exists n. split; [exact T|]. intros input l1 l2 E. exact (C input l1 l2 E).
Qed.
Example counts_float_case : exists n, takes #"c.eq.s" n /\ causes (mk_runtime true (fun l => l)) (mk_mipsasm 0 [] false) #"c.eq.s $f0, $f1, $f2" (fun ln => EInvalidOperandCount ln n 3 #"$f0, $f1, $f2").
Proof.
  destruct (C70_counts_partial (mk_runtime true (fun l => l)) (mk_mipsasm 0 [] false) #"c.eq.s $f0, $f1, $f2") as (n & T & C).
  - vm_compute. reflexivity.
  - apply clean_mnemonic_by. vm_compute. reflexivity.
  - change (lower_operation #"c.eq.s $f0, $f1, $f2") with (#"c.eq.s"). intros I. repeat (destruct I as [I|I]; [discriminate|]). destruct I.
  - exists 2%nat. now apply (takes_compare _ #"eq" "s").
  - intros T. change (takes #"c.eq.s" 3) in T. remember 3%nat as k. destruct T as [ks I|I|I I3|cond f E]; try discriminate Heqk.
    + assert (X : forallb (fun y => negb (str_eqb (fst y) #"c.eq.s")) shapes = true) by (vm_compute; reflexivity). rewrite forallb_forall in X. specialize (X _ I). cbn [fst] in X. rewrite str_eqb_refl in X. discriminate.
    + repeat (destruct I as [I|I]; [discriminate|]). destruct I.
  - exists n. split; [exact T|]. intros input l1 l2 E. exact (C input l1 l2 E).
Qed.
Example unknown_case : causes (mk_runtime false (fun l => l)) (mk_mipsasm 0 [] false) #"Frob $a0, $a1" (fun ln => EInvalidOpcode ln #"Frob").
Proof.
  apply C70_unknown; [vm_compute; reflexivity|apply clean_mnemonic_by; vm_compute; reflexivity|].
  change (unknown #"frob"). split; [cbn; lia|]. split; [|split; [discriminate|]].
  - intros I. apply in_map_iff in I as ([a ks] & E & I). cbn [fst] in E. subst a. assert (X : forallb (fun y => negb (str_eqb (fst y) #"frob")) shapes = true) by (vm_compute; reflexivity).
    rewrite forallb_forall in X. specialize (X _ I). cbn [fst] in X. rewrite str_eqb_refl in X. discriminate.
  - intros stem a b E. assert (E' : stem = #"fr").
    { destruct stem as [|c1 [|c2 [|c3 stem]]]; try discriminate E; [injection E as <- <- _ _; reflexivity|]. apply (f_equal (@List.length ascii)) in E. cbn [List.length app] in E. rewrite app_length in E. cbn in E. lia. }
    subst stem. split; [|discriminate]. intros I. repeat (destruct I as [I|I]; [discriminate|]). destruct I.
Qed.
Lemma no_register_by t : (forall n, ~ accepted_gpr t n) -> existsb (Ascii.eqb "r") t = false -> no_register t.
Proof.
  intros A H. split; [exact A|]. intros a c b ->. exfalso. rewrite !existsb_app in H. cbn in H. rewrite orb_true_r in H. discriminate.
Qed.
Lemma a9_none n : ~ accepted_gpr #"$a9" n.
Proof.
  assert (N9 : forall t, t = #"$a9" \/ t = #"a9" -> forall n, accepted_gpr t n -> False).
  { intros t T k A. induction A as [t k A IH|k t R L| |rs plus ds k R F P D].
    - destruct T as [T|T]; [|discriminate]. injection T as T. apply IH. now right.
    - assert (X : forallb (fun n => negb (str_eqb (to_lower (nth_name gpr_names (Z.of_nat n))) #"$a9") && negb (str_eqb (to_lower (nth_name gpr_names (Z.of_nat n))) #"a9"))%bool (seq 0 32) = true) by (vm_compute; reflexivity).
      rewrite forallb_forall in X. specialize (X (Z.to_nat k)). rewrite in_seq, Z2Nat.id in X by lia. specialize (X ltac:(lia)). apply andb_true_iff in X as [X1 X2]. apply negb_true_iff in X1, X2.
      unfold same_letters in L. rewrite <- L in X1, X2. destruct T as [-> | ->]; [vm_compute in X1; discriminate|vm_compute in X2; discriminate].
    - destruct T; discriminate.
    - destruct (digits_spec 10 ds k ltac:(lia) D) as (V & _). destruct rs as [|c rs]; [|cbn [forallb] in F; apply andb_true_iff in F as [F _]; apply Ascii.eqb_eq in F; subst c; destruct T; discriminate].
      destruct P as [-> | ->]; [|destruct T; discriminate]. cbn [app] in T. destruct T as [-> | ->]; vm_compute in V; discriminate. }
  intros A. apply (N9 #"$a9" (or_introl eq_refl) n A).
Qed.
Example register_case : exists u, (u = #" $a9" \/ occurs u #" $a9" /\ forallb is_digit u = true) /\ causes (mk_runtime false (fun l => l)) (mk_mipsasm 0 [] false) #"addu $a0, $a9, $a1" (fun ln => EInvalidRegister ln u).
Proof.
  apply (C70_register _ _ _ [AReg; AReg; AReg] 1).
  - vm_compute. reflexivity.
  - apply clean_mnemonic_by. vm_compute. reflexivity.
  - change (In (#"addu", [AReg; AReg; AReg]) shapes). assert (X : existsb (fun y => (str_eqb (fst y) #"addu" && same_shape [AReg; AReg; AReg] (snd y))%bool) shapes = true) by (vm_compute; reflexivity).
    apply existsb_exists in X as ([a ks] & I & E). cbn [fst snd] in E. apply andb_true_iff in E as [E1 E2]. apply str_eqb_spec in E1. unfold same_shape in E2. destruct (list_eq_dec _ _ ks) as [<-|]; [|discriminate]. subst a. exact I.
  - reflexivity.
  - reflexivity.
  - reflexivity.
  - apply no_register_by; [exact a9_none|reflexivity].
  - intros [|[|j]] y Lt Y; [|lia|lia]. change (Some #"$a0" = Some y) in Y. injection Y as <-. exists 4. right. exists (#"a0"). split; [reflexivity|]. apply gpr_named; [lia|reflexivity].
Qed.
Print Assumptions C70_counts_partial.
Print Assumptions C70_refuted.
Print Assumptions C70_found_refuted.
Print Assumptions C70_unknown.
Print Assumptions C70_register.
