(** * PropsCompare: compare-and-branch pseudo-instructions (C20).

    The machine is that of [SpecMachine]; the mnemonics and their relations are the table
    [compare_branches] of [SpecPseudo]. *)

From Coq Require Import Lia.
From Verif Require Import Lib SpecIsa StrLemmas NumLemmas OperandProofs NativeProofs LineProofs TextProofs ScanProofs ProgProofs AsmProofs SpecMachine MachineProofs PseudoProofs BranchProofs
  LabelProofs CompareProofs PropsLabels SpecPseudo SpecText SpecProgram SpecLabels.

(** ** C20  Compare-and-branch pseudo-instructions *)

(** The word at which instruction [i] starts, in the code made of the words [wss]. *)
Definition position (wss : list (list Z)) (i : nat) : Z := Z.of_nat (List.length (List.concat (firstn i wss))).

(** In a program that assembles, line [raw] is the pseudo-instruction [name] with registers
    number [a] and [b] and the global label [n], which is defined before it, with [k]
    instructions in front of the definition. *)
Record compare_branch (rt : runtime) (m : mipsasm) (input : str) (out : list inst) (l1 : list str) (raw : str) (l2 : list str)
  (name : str) (likely : bool) (rel : Z -> Z -> bool) (a b : Z) (n : str) (k : nat) : Prop := mk_compare_branch {
  cb_assembles : assemble rt m input = Ok out;
  cb_line : lines input = l1 ++ raw :: l2;
  cb_name : In (name, likely, rel) compare_branches;
  cb_branch : exists ts tt, gpr_text ts a /\ gpr_text tt b /\ instruction_line name [ts; tt; n] raw;
  cb_identifier : identifier n;
  cb_global : is_local n = false;
  cb_defined : In (n, k) (label_table 0 l1)
}.

(** Two cycles after its first word, control is in the delay slot with the label following
    when the relation holds; otherwise the delay slot and what follows it is next (or, for a
    branch likely, what follows the delay slot).  Only $at has changed. *)
Definition compares_and_branches (out : list inst) (i k : nat) (likely : bool) (rel : Z -> Z -> bool) (a b : Z) : Prop :=
  forall odd st, well st -> let pc := position (words_of out) i in
  exists st', cycles odd 2 (get_bytes out) (At pc (pc + 1) st)
    = (if rel (value st a) (value st b) then At (pc + 2) (position (words_of out) k) st'
       else if likely then At (pc + 3) (pc + 4) st' else At (pc + 2) (pc + 3) st')
    /\ (forall r, r <> at_reg -> value st' r = value st r) /\ same_hilo st st'.

Definition C20_full : Prop := forall rt m input out l1 raw l2 name likely rel a b n k,
  compare_branch rt m input out l1 raw l2 name likely rel a b n k ->
  compares_and_branches out (instruction_count l1) k likely rel a b.

Lemma get_bytes_words out : get_bytes out = List.concat (words_of out).
Proof. unfold get_bytes, words_of. now rewrite flat_map_concat_map. Qed.

(** In every such program (at most 65535 instructions apart) the two words are the
    comparison into $at and the branch on $at. *)
Theorem C20_compare_words : forall rt m input out l1 raw l2 name likely rel a b n k,
  compare_branch rt m input out l1 raw l2 name likely rel a b n k ->
  Z.of_nat (instruction_count l1) - Z.of_nat k < 65535 ->
  exists swap sgn on_set, nth_error (words_of out) (instruction_count l1)
    = Some (compare_words swap sgn likely on_set a b ((Z.of_nat k - (Z.of_nat (instruction_count l1) + 2)) mod 65536))
    /\ forall x y, 0 <= x < 2 ^ 64 -> 0 <= y < 2 ^ 64 ->
       rel x y = Bool.eqb on_set (let u := if swap then y else x in let v := if swap then x else y in if sgn then signed64 u <? signed64 v else u <? v).
Proof.
  intros rt m input out l1 raw l2 name likely rel a b n k [A Ei In0 (ts & tt & Ga & Gb & L) Id Lc I] D.
  destruct (compare_rows _ _ _ In0) as (p & swap & sgn & on_set & R). assert (K := label_le _ _ _ _ I).
  destruct (compare_to_label rt m input out l1 raw l2 name likely rel p swap sgn on_set ts tt a b n k A Ei R Ga Gb L Id Lc I) as (i & Ni & Bi).
  - rewrite Z.mod_eq by lia. intros E. assert (X := Z.mod_pos_bound (Z.of_nat k - (Z.of_nat (instruction_count l1) + 1)) 65536 ltac:(lia)).
    set (d := Z.of_nat k - (Z.of_nat (instruction_count l1) + 1)) in *. assert (d / 65536 = -1) by (symmetry; apply Z.div_unique with (r := d + 65536); lia). lia.
  - exists swap, sgn, on_set. split; [|intros x y Rx Ry; rewrite (cr_rel _ _ _ _ _ _ _ R x y Rx Ry); reflexivity].
    eapply words_nth; [exact Ni|]. rewrite Bi. f_equal.
    set (d := Z.of_nat k - (Z.of_nat (instruction_count l1) + 1)) in *.
    replace (Z.of_nat k - (Z.of_nat (instruction_count l1) + 2)) with (d - 1) by lia.
    rewrite <- (Z_mod_plus_full d 1), <- (Z_mod_plus_full (d - 1) 1), !Z.mod_small by lia. lia.
Qed.

(** As C10: the label is reached when the instructions from the label to the branch have one
    word each and are at most 32766. *)
Theorem C20_compare_and_branch_partial : forall rt m input out l1 raw l2 name likely rel a b n k,
  compare_branch rt m input out l1 raw l2 name likely rel a b n k ->
  Z.of_nat (instruction_count l1) - Z.of_nat k < 32767 -> one_word_each (words_of out) k (instruction_count l1) ->
  compares_and_branches out (instruction_count l1) k likely rel a b.
Proof.
  intros rt m input out l1 raw l2 name likely rel a b n k H D O.
  destruct (C20_compare_words _ _ _ _ _ _ _ _ _ _ _ _ _ _ H ltac:(lia)) as (swap & sgn & on_set & Nw & Rel).
  destruct H as [A Ei In0 (ts & tt & Ga & Gb & L) Id Lc I]. assert (K := label_le _ _ _ _ I).
  intros odd st W pc.
  destruct (concat_at _ _ _ Nw) as (after & C). rewrite get_bytes_words.
  assert (Ra : 0 <= a < 32) by (now apply gpr_range in Ga). assert (Rb : 0 <= b < 32) by (now apply gpr_range in Gb).
  set (d := Z.of_nat k - (Z.of_nat (instruction_count l1) + 2)) in *.
  assert (Rv : 0 <= d mod 65536 < 65536) by (apply Z.mod_pos_bound; lia).
  assert (X := compare_run odd _ _ _ swap sgn likely on_set a b _ st Ra Rb Rv C W). cbv zeta in X. fold (position (words_of out) (instruction_count l1)) in X. fold pc in X.
  assert (Ps : position (words_of out) (instruction_count l1) = position (words_of out) k + (Z.of_nat (instruction_count l1) - Z.of_nat k)).
  { assert (Y := address_step 0 (words_of out) k (instruction_count l1)). unfold address in Y. unfold position. apply nth_lt in Nw. specialize (Y ltac:(lia) O). lia. }
  rewrite (signed_mod d) in X by lia. replace (pc + 2 + d) with (position (words_of out) k) in X by (unfold pc; lia).
  eexists. rewrite X. destruct W as (Wr & _ & _).
  rewrite (Rel (value st a) (value st b) (Wr a) (Wr b)). cbv zeta. split.
  - replace (if swap then value st b else value st a) with (value st (if swap then b else a)) by (now destruct swap).
    replace (if swap then value st a else value st b) with (value st (if swap then a else b)) by (now destruct swap). reflexivity.
  - split; [|split; reflexivity]. intros r Nr. rewrite value_write. destruct (r =? 0) eqn:R0; [apply Z.eqb_eq in R0; now subst|].
    unfold at_reg in Nr. destruct (r =? 1) eqn:R1; [apply Z.eqb_eq in R1; contradiction|reflexivity].
Qed.

(** A loop: the branch goes back over one instruction. *)
Definition loop_program : str := join [nl] [ #"nop"; #"loop:"; #"addiu $a0, $a0, -1"; #"bgtl $a0,$zero,loop"; #"nop" ].
Lemma gpr_zero : gpr_text #"$zero" 0. Proof. right. exists #"zero". split; [reflexivity|]. apply gpr_named; [lia|reflexivity]. Qed.
Lemma gpr_a0 : gpr_text #"$a0" 4. Proof. right. exists #"a0". split; [reflexivity|]. apply gpr_named; [lia|reflexivity]. Qed.
Example C20_case : exists out, compare_branch (mk_runtime true (fun l => l)) m_new loop_program out [ #"nop"; #"loop:"; #"addiu $a0, $a0, -1" ] #"bgtl $a0,$zero,loop" [ #"nop" ]
    #"bgtl" true (fun a b => signed64 a >? signed64 b) 4 0 #"loop" 1
  /\ compares_and_branches out 2 1 true (fun a b => signed64 a >? signed64 b) 4 0.
Proof.
  destruct (assemble (mk_runtime true (fun l => l)) m_new loop_program) as [out| |] eqn:A; [|vm_compute in A; discriminate A|vm_compute in A; discriminate A].
  exists out.
  assert (C : compare_branch (mk_runtime true (fun l => l)) m_new loop_program out [ #"nop"; #"loop:"; #"addiu $a0, $a0, -1" ] #"bgtl $a0,$zero,loop" [ #"nop" ]
    #"bgtl" true (fun a b => signed64 a >? signed64 b) 4 0 #"loop" 1).
  { constructor; [exact A|reflexivity|unfold compare_branches; cbn [In]; tauto| |split; reflexivity|reflexivity|vm_compute; now left].
    exists #"$a0", #"$zero". split; [exact gpr_a0|]. split; [exact gpr_zero|]. apply (plain_statement #"bgtl" #"$a0" [ #"$zero"; #"loop" ]). }
  split; [exact C|]. apply (C20_compare_and_branch_partial _ _ _ _ _ _ _ _ _ _ _ _ _ _ C); [vm_compute; reflexivity|].
  intros j ws J Nj. change (instruction_count _) with 2%nat in J. assert (j = 1%nat) as -> by lia.
  vm_compute in A. injection A as <-. vm_compute in Nj. now injection Nj as <-.
Qed.

(** dror is two instructions' worth of words too long for the label's index. *)
Definition far_compare : str := join [nl] [ #"x:"; #"dror $a0, $a1, $a2"; #"bge $a0,$zero,x" ].
Theorem C20_refuted : ~ C20_full.
Proof.
  intros H. set (rt := mk_runtime true (fun l => l)).
  destruct (assemble rt m_new far_compare) as [out| |] eqn:A; [|vm_compute in A; discriminate A|vm_compute in A; discriminate A].
  assert (L : compare_branch rt m_new far_compare out [ #"x:"; #"dror $a0, $a1, $a2" ] #"bge $a0,$zero,x" [] #"bge" false (fun a b => signed64 a >=? signed64 b) 4 0 #"x" 0).
  { constructor; [exact A|reflexivity|unfold compare_branches; cbn [In]; tauto| |split; reflexivity|reflexivity|vm_compute; now left].
    exists #"$a0", #"$zero". split; [exact gpr_a0|]. split; [exact gpr_zero|]. apply (plain_statement #"bge" #"$a0" [ #"$zero"; #"x" ]). }
  assert (X := H _ _ _ _ _ _ _ _ _ _ _ _ _ _ L). clear L H. vm_compute in A. injection A as <-.
  set (st := mk_state (fun _ => 0) 0 0). assert (W : well st).
  { split; [|cbn; lia]. intros r. unfold value, st. cbn. destruct (r =? 0); lia. }
  destruct (X (fun _ => 0) st W) as (st' & C & _). cbv zeta in C. clear X. revert C.
  match goal with |- ?l = _ -> _ => let v := eval vm_compute in (match l with At a b _ => Some (a, b) | _ => None end) in
    assert (E : match l with At a b _ => Some (a, b) | _ => None end = v) by (vm_compute; reflexivity) end.
  intros C. rewrite C in E. vm_compute in E. discriminate E.
Qed.

Print Assumptions C20_compare_words.
Print Assumptions C20_compare_and_branch_partial.
Print Assumptions C20_refuted.
