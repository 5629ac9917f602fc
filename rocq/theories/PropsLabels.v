(** * PropsLabels: branches, jumps, %hi and %lo (C10-C14).

    Statements, concrete instances and [Print Assumptions]; addresses and targets are those
    of [SpecLabels]. *)

From Coq Require Import Lia.
From Verif Require Import Lib SpecIsa StrLemmas NumLemmas OperandProofs NativeProofs LineProofs TextProofs ScanProofs ProgProofs AsmProofs MachineProofs PseudoProofs BranchProofs
  LabelProofs HalfProofs SpecText SpecProgram SpecLabels SpecLines.

(** The words of the instructions of an assembled program. *)
Definition words_of (out : list inst) : list (list Z) := map inst_bytes out.

Lemma words_nth out i x ws : nth_error out i = Some x -> inst_bytes x = ws -> nth_error (words_of out) i = Some ws.
Proof. intros H <-. unfold words_of. now apply map_nth_error. Qed.
Lemma nth_lt {A} (l : list A) i x : nth_error l i = Some x -> (i < List.length l)%nat.
Proof. intros H. apply nth_error_Some. now rewrite H. Qed.
Lemma label_le j l n k : In (n, k) (label_table j l) -> (j <= k <= j + instruction_count l)%nat.
Proof.
  unfold instruction_count. revert j. induction l as [|x l IH]; intros j I; [destruct I|].
  cbn [label_table filter] in *. destruct (role_of x) as [|lb|] eqn:R.
  - assert (is_instruction x = false) as -> by (unfold is_instruction; now rewrite R). now apply IH.
  - assert (is_instruction x = false) as -> by (unfold is_instruction; now rewrite R).
    destruct (is_local lb); [now apply IH|]. destruct I as [I|I]; [injection I as _ ->; lia|now apply IH].
  - assert (is_instruction x = true) as -> by (unfold is_instruction; now rewrite R). apply IH in I. cbn [List.length]. lia.
Qed.

(** ** C10  Branches to global labels *)

(** In a program that assembles, line [raw] is the branch [f] to the global label [n], which
    is defined before it, with [k] instructions in front of the definition. *)
Record label_branch (rt : runtime) (m : mipsasm) (input : str) (out : list inst) (l1 : list str) (raw : str) (l2 : list str) (f : format)
  (os : list operand) (n : str) (k : nat) : Prop := mk_label_branch {
  lb_assembles : assemble rt m input = Ok out;
  lb_line : lines input = l1 ++ raw :: l2;
  lb_format : In f (isa ++ idioms);
  lb_branch : branch_line f os n raw;
  lb_identifier : identifier n;
  lb_global : is_local n = false;
  lb_defined : In (n, k) (label_table 0 l1)
}.

Definition C10_full : Prop := forall rt m input out l1 raw l2 f os n k, label_branch rt m input out l1 raw l2 f os n k ->
  exists w, nth_error (words_of out) (instruction_count l1) = Some [w]
    /\ branch_target (address (m_base m) (words_of out) (instruction_count l1)) w = address (m_base m) (words_of out) k.

(** The branch is one word: the branch with the registers as written and the distance to the
    label counted in instructions, modulo 2^16. *)
Theorem C10_branch_word : forall rt m input out l1 raw l2 f os n k, label_branch rt m input out l1 raw l2 f os n k ->
  nth_error (words_of out) (instruction_count l1) = Some [word f (os ++ [OInt (Z.of_nat k - (Z.of_nat (instruction_count l1) + 1))])]
  /\ field (word f (os ++ [OInt (Z.of_nat k - (Z.of_nat (instruction_count l1) + 1))])) 0 16
     = (Z.of_nat k - (Z.of_nat (instruction_count l1) + 1)) mod 65536.
Proof.
  intros rt m input out l1 raw l2 f os n k [A Ei If B Id Lc I].
  destruct (branch_to_label _ _ _ _ _ _ _ _ _ _ _ A Ei If B Id Lc I) as (x & Nx & Bx).
  split; [eapply words_nth; eauto|]. eapply branch_field; eauto.
Qed.

(** It lands on the label exactly when the instructions from the label to the branch have one
    word each on average, as long as they are at most 32767. *)
Theorem C10_lands_iff : forall rt m input out l1 raw l2 f os n k, label_branch rt m input out l1 raw l2 f os n k ->
  Z.of_nat (instruction_count l1) - Z.of_nat k < 32768 ->
  exists w, nth_error (words_of out) (instruction_count l1) = Some [w]
    /\ (branch_target (address (m_base m) (words_of out) (instruction_count l1)) w = address (m_base m) (words_of out) k
        <-> address (m_base m) (words_of out) (instruction_count l1) - address (m_base m) (words_of out) k = 4 * (Z.of_nat (instruction_count l1) - Z.of_nat k)).
Proof.
  intros rt m input out l1 raw l2 f os n k H D. destruct (C10_branch_word _ _ _ _ _ _ _ _ _ _ _ H) as [W F].
  assert (K := label_le _ _ _ _ (lb_defined _ _ _ _ _ _ _ _ _ _ _ H)).
  eexists. split; [exact W|]. unfold branch_target. rewrite F, signed_mod by lia. lia.
Qed.

Theorem C10_branch_to_label_partial : forall rt m input out l1 raw l2 f os n k, label_branch rt m input out l1 raw l2 f os n k ->
  Z.of_nat (instruction_count l1) - Z.of_nat k < 32768 -> one_word_each (words_of out) k (instruction_count l1) ->
  exists w, nth_error (words_of out) (instruction_count l1) = Some [w]
    /\ branch_target (address (m_base m) (words_of out) (instruction_count l1)) w = address (m_base m) (words_of out) k.
Proof.
  intros rt m input out l1 raw l2 f os n k H D O. destruct (C10_lands_iff _ _ _ _ _ _ _ _ _ _ _ H D) as (w & W & X).
  assert (K := label_le _ _ _ _ (lb_defined _ _ _ _ _ _ _ _ _ _ _ H)).
  exists w. split; [exact W|]. apply X. apply nth_lt in W. rewrite (address_step (m_base m) (words_of out) k (instruction_count l1)) by (auto; lia). lia.
Qed.

(** A line with only the branch text. *)
Lemma plain_branch f os ks ts t : f_ops f = ks ++ [Branch16] -> List.length os = List.length ks ->
  Forall2 (fun ko t => operand_spelling (fst ko) (snd ko) t) (combine ks os) ts ->
  forall x, instruction_line (f_name f) (ts ++ [t]) x -> branch_line f os t x.
Proof. intros A B C x D. exists ks, ts. auto. Qed.
(** The format with a given name. *)
Definition format_named (n : str) : format := match find (fun f => str_eqb (f_name f) n) (isa ++ idioms) with Some f => f | None => mk_format n [] [] end.
Lemma format_named_in n : existsb (fun f => str_eqb (f_name f) n) (isa ++ idioms) = true -> In (format_named n) (isa ++ idioms).
Proof.
  intros E. unfold format_named. destruct (find _ _) as [f|] eqn:F; [now apply find_some in F|].
  apply existsb_exists in E as (f & I & E). exfalso. apply (find_none _ _ F) in I. cbv beta in I. congruence.
Qed.

Definition far_program : str := join [nl] [ #"x:"; #"dror $a0, $a1, $a2"; #"b x" ].
Theorem C10_refuted : ~ C10_full.
Proof.
  intros H. set (rt := mk_runtime true (fun l => l)).
  destruct (assemble rt m_new far_program) as [out| |] eqn:A; [|vm_compute in A; discriminate A|vm_compute in A; discriminate A].
  assert (L : label_branch rt m_new far_program out [ #"x:"; #"dror $a0, $a1, $a2" ] #"b x" [] (format_named #"b") [] #"x" 0).
  { constructor; [exact A|reflexivity|apply format_named_in; vm_compute; reflexivity| |split; [reflexivity|reflexivity]|reflexivity|vm_compute; now left].
    apply (plain_branch (format_named #"b") [] [] []); [vm_compute; reflexivity|reflexivity|constructor|]. apply (plain_statement #"b" #"x" []). }
  destruct (H _ _ _ _ _ _ _ _ _ _ _ L) as (w & W & T). vm_compute in A. injection A as <-. vm_compute in W. injection W as <-. vm_compute in T. discriminate T.
Qed.

(** ** C11  Jumps to labels *)

(** In a program that assembles, line [raw] is a jump to the global label [n] (defined
    anywhere), which has [k] instructions in front of it and is not also a symbol. *)
Record label_jump (rt : runtime) (m : mipsasm) (input : str) (out : list inst) (l1 : list str) (raw : str) (l2 : list str) (name n : str) (k : nat) : Prop := mk_label_jump {
  lj_assembles : assemble rt m input = Ok out;
  lj_line : lines input = l1 ++ raw :: l2;
  lj_jump : jump_line name n raw;
  lj_identifier : identifier n;
  lj_no_symbol : forall a, ~ In (a, n) (m_syms m);
  lj_defined : In (n, k) (label_table 0 (lines input))
}.
Definition jump_code (name : str) : Z := if str_eqb name #"j" then 2 else 3.

Definition C11_full : Prop := forall rt m input out l1 raw l2 name n k, label_jump rt m input out l1 raw l2 name n k ->
  let pc := address (m_base m) (words_of out) (instruction_count l1) in let a := address (m_base m) (words_of out) k in
  a mod 4 = 0 -> (pc + 4) / 2 ^ 28 = a / 2 ^ 28 ->
  exists w, nth_error (words_of out) (instruction_count l1) = Some [w] /\ field w 26 6 = jump_code name /\ jump_target pc w = a.

Lemma parse_target_identifier e s n : identifier n -> (forall a, ~ In (a, n) (e_syms e)) -> parse_target e s n = Ok (TLabel n).
Proof.
  intros [D F] Y. unfold parse_target. rewrite find_none_symbol by exact Y. destruct n as [|c n]; [destruct D|].
  cbn [forallb] in F. apply andb_true_iff in F as [F _].
  assert (X : starts_with #"0x" (c :: n) = false).
  { destruct (starts_with #"0x" (c :: n)) eqn:E; [|reflexivity]. apply starts_with_spec in E as [r E]. injection E as -> _. discriminate D. }
  rewrite X. assert (P : parse_int u32 10 [c] = None) by (destruct c as [[] [] [] [] [] [] [] []]; try reflexivity; discriminate).
  now rewrite P.
Qed.

Lemma length_assembled rt m input out : assemble rt m input = Ok out -> List.length out = instruction_count (lines input).
Proof.
  intros A. apply assemble_ok in A as (s & is1 & As). now destruct (assembled_labels _ _ s is1 out (nl_of_lines input) As) as (_ & _ & _ & _ & _ & C).
Qed.
Lemma label_unique l n k k' : NoDup (map fst (label_table 0 l)) -> In (n, k) (label_table 0 l) -> In (n, k') (label_table 0 l) -> k = k'.
Proof. intros N A B. apply (assoc_nodup _ _ _ N) in A, B. congruence. Qed.
Lemma jump_opcode name v : 0 <= v < 2 ^ 26 -> field (jump_code name * 2 ^ 26 + v) 26 6 = jump_code name.
Proof.
  intros V. unfold field. rewrite Z.div_add_l by lia. rewrite Z.div_small by lia. rewrite Z.add_0_r. apply Z.mod_small.
  unfold jump_code. destruct (str_eqb name #"j"); lia.
Qed.
Lemma jump_range a : 0 <= a mod 2 ^ 26 / 4 < 2 ^ 26.
Proof. assert (Y := Z.mod_pos_bound a (2 ^ 26) ltac:(lia)). split; [apply Z.div_pos; lia|apply Z.div_lt_upper_bound; lia]. Qed.

(** The jump is one word; its field holds bits 2 to 25 of base + 4 * (number of instructions
    before the label). *)
Theorem C11_jump_word : forall rt m input out l1 raw l2 name n k, label_jump rt m input out l1 raw l2 name n k ->
  nth_error (words_of out) (instruction_count l1) = Some [jump_code name * 2 ^ 26 + (m_base m + 4 * Z.of_nat k) mod 2 ^ 26 / 4].
Proof.
  intros rt m input out l1 raw l2 name n k [A Ei J Id Ns I].
  destruct (jump_in_program rt m input out l1 raw l2 name n (TLabel n) A Ei J (identifier_operand n Id)) as (a & x & (k' & I' & E) & Nx & Bx).
  - intros s Lb Rd. split; [now apply parse_target_identifier|]. exists []. reflexivity.
  - discriminate.
  - destruct (at_line_intro _ _ _ _ _ _ _ A Ei) as (s1 & sf & [_ _ _ Nd _ _ _]).
    assert (k' = k) by (eapply label_unique; eauto). subst k'. apply mod26_cong in E. rewrite <- E. eapply words_nth; eauto.
Qed.

Theorem C11_jump_to_label_partial : forall rt m input out l1 raw l2 name n k, label_jump rt m input out l1 raw l2 name n k ->
  let pc := address (m_base m) (words_of out) (instruction_count l1) in let a := address (m_base m) (words_of out) k in
  a mod 4 = 0 -> (pc + 4) / 2 ^ 28 = a / 2 ^ 28 -> a mod 2 ^ 28 < 2 ^ 26 -> one_word_each (words_of out) 0 k ->
  exists w, nth_error (words_of out) (instruction_count l1) = Some [w] /\ field w 26 6 = jump_code name /\ jump_target pc w = a.
Proof.
  intros rt m input out l1 raw l2 name n k H pc a A4 Sg Lo O. assert (W := C11_jump_word _ _ _ _ _ _ _ _ _ _ H).
  eexists. split; [exact W|]. split; [apply jump_opcode, jump_range|].
  destruct H as [A Ei J Id Ns I].
  assert (Ea : a = m_base m + 4 * Z.of_nat k).
  { unfold a. rewrite (address_step (m_base m) (words_of out) 0 k); [rewrite address_0; lia| |exact O].
    assert (K := label_le _ _ _ _ I). assert (C := length_assembled _ _ _ _ A). unfold words_of. rewrite map_length. lia. }
  rewrite <- Ea. now apply jump_lands.
Qed.

(** A program with a two-word instruction in front of the label, and one with a label above
    64 MiB. *)
Definition jump_program : str := join [nl] [ #"j x"; #"dror $a0, $a1, $a2"; #"x:"; #"nop" ].
Theorem C11_refuted : ~ C11_full.
Proof.
  intros H. set (rt := mk_runtime true (fun l => l)).
  destruct (assemble rt m_new jump_program) as [out| |] eqn:A; [|vm_compute in A; discriminate A|vm_compute in A; discriminate A].
  assert (L : label_jump rt m_new jump_program out [] #"j x" [ #"dror $a0, $a1, $a2"; #"x:"; #"nop" ] #"j" #"x" 2).
  { constructor; [exact A|reflexivity| |split; reflexivity|intros a []|vm_compute; now left].
    split; [now left|apply (plain_statement #"j" #"x" [])]. }
  specialize (H _ _ _ _ _ _ _ _ _ _ L). cbv zeta in H. vm_compute in A. injection A as <-. destruct H as (w & W & _ & T).
  - vm_compute. reflexivity.
  - vm_compute. reflexivity.
  - vm_compute in W. injection W as <-. vm_compute in T. discriminate T.
Qed.
Definition high_program : str := join [nl] [ #"x:"; #"nop"; #"j x" ].
Theorem C11_refuted_high : ~ C11_full.
Proof.
  intros H. set (rt := mk_runtime true (fun l => l)). set (m := set_base 0x84000000 m_new).
  destruct (assemble rt m high_program) as [out| |] eqn:A; [|vm_compute in A; discriminate A|vm_compute in A; discriminate A].
  assert (L : label_jump rt m high_program out [ #"x:"; #"nop" ] #"j x" [] #"j" #"x" 0).
  { constructor; [exact A|reflexivity| |split; reflexivity|intros a []|vm_compute; now left].
    split; [now left|apply (plain_statement #"j" #"x" [])]. }
  specialize (H _ _ _ _ _ _ _ _ _ _ L). cbv zeta in H. vm_compute in A. injection A as <-. destruct H as (w & W & _ & T).
  - vm_compute. reflexivity.
  - vm_compute. reflexivity.
  - vm_compute in W. injection W as <-. vm_compute in T. discriminate T.
Qed.

(** ** C12  Branches to numeric addresses *)

(** In a program that assembles, line [raw] is the branch [f] to the number [a]. *)
Record number_branch (rt : runtime) (m : mipsasm) (input : str) (out : list inst) (l1 : list str) (raw : str) (l2 : list str) (f : format)
  (os : list operand) (a : Z) : Prop := mk_number_branch {
  nb_assembles : assemble rt m input = Ok out;
  nb_line : lines input = l1 ++ raw :: l2;
  nb_format : In f (isa ++ idioms);
  nb_branch : exists t, branch_line f os t raw /\ numeral t a;
  nb_range : a < 2 ^ 32
}.

Definition C12_full : Prop := forall rt m input out l1 raw l2 f os a, number_branch rt m input out l1 raw l2 f os a ->
  m_base m mod 4 = 0 -> (exists k, (k <= List.length out)%nat /\ a = address (m_base m) (words_of out) k) ->
  exists w, nth_error (words_of out) (instruction_count l1) = Some [w]
    /\ branch_target (address (m_base m) (words_of out) (instruction_count l1)) w = a.

(** The branch is one word; the offset is (a - (i + 1)) / 4 modulo 2^16, [i] being the number
    of instructions in front of the branch. *)
Theorem C12_branch_word : forall rt m input out l1 raw l2 f os a, number_branch rt m input out l1 raw l2 f os a ->
  nth_error (words_of out) (instruction_count l1) = Some [word f (os ++ [OInt (Z.quot (a - (Z.of_nat (instruction_count l1) + 1)) 4)])]
  /\ field (word f (os ++ [OInt (Z.quot (a - (Z.of_nat (instruction_count l1) + 1)) 4)])) 0 16
     = Z.quot (a - (Z.of_nat (instruction_count l1) + 1)) 4 mod 65536.
Proof.
  intros rt m input out l1 raw l2 f os a [A Ei If (t & B & Nu) R].
  destruct (branch_to_number _ _ _ _ _ _ _ _ _ _ _ A Ei If B Nu R) as (x & Nx & Bx).
  split; [eapply words_nth; eauto|]. eapply branch_field; eauto.
Qed.

Lemma quot_step b i : 0 <= i < 4 * b -> Z.quot (4 * b - (i + 1)) 4 = b - (i + 4) / 4.
Proof.
  intros R. rewrite Z.quot_div_nonneg by lia.
  assert (X := Z.div_mod (i + 4) 4 ltac:(lia)). assert (Y := Z.mod_pos_bound (i + 4) 4 ltac:(lia)).
  symmetry. apply Z.div_unique with (r := 3 - (i + 4) mod 4); lia.
Qed.
Lemma mod_shift x y : x mod 65536 = y mod 65536 <-> (x - y) mod 65536 = 0.
Proof.
  split; intros H.
  - rewrite Zminus_mod, H, Z.sub_diag. reflexivity.
  - assert (X := Z.div_mod (x - y) 65536 ltac:(lia)). rewrite H in X.
    replace x with (y + (x - y) / 65536 * 65536) by lia. now rewrite Z.mod_add by lia.
Qed.
Lemma signed16_cong x d : -32768 <= d < 32768 -> signed16 (x mod 65536) = d <-> (x - d) mod 65536 = 0.
Proof.
  intros D. rewrite <- mod_shift. split; intros H.
  - rewrite <- H. unfold signed16. assert (B := Z.mod_pos_bound x 65536 ltac:(lia)). destruct (x mod 65536 <? 32768) eqn:E.
    + now rewrite Z.mod_mod by lia.
    + replace (x mod 65536 - 65536) with (x mod 65536 + (-1) * 65536) by lia. rewrite Z.mod_add by lia. now rewrite Z.mod_mod by lia.
  - rewrite H. now apply signed_mod.
Qed.

(** Inside the reach of a branch, it lands on [a] exactly when its own address [pc] and its
    index [i] satisfy a relation that does not involve [a]. *)
Theorem C12_lands_iff : forall rt m input out l1 raw l2 f os a, number_branch rt m input out l1 raw l2 f os a ->
  let i := Z.of_nat (instruction_count l1) in let pc := address (m_base m) (words_of out) (instruction_count l1) in
  pc mod 4 = 0 -> a mod 4 = 0 -> i < a -> -131072 <= a - (pc + 4) < 131072 ->
  exists w, nth_error (words_of out) (instruction_count l1) = Some [w]
    /\ (branch_target pc w = a <-> (pc / 4 + 1 - (i + 4) / 4) mod 65536 = 0).
Proof.
  intros rt m input out l1 raw l2 f os a H i pc P4 A4 Ia D. destruct (C12_branch_word _ _ _ _ _ _ _ _ _ _ H) as [W F]. fold i in W, F.
  eexists. split; [exact W|]. unfold branch_target. rewrite F.
  assert (Ea := Z.div_mod a 4 ltac:(lia)). assert (Ep := Z.div_mod pc 4 ltac:(lia)). rewrite A4 in Ea. rewrite P4 in Ep.
  replace (a - (i + 1)) with (4 * (a / 4) - (i + 1)) by lia. rewrite quot_step by lia.
  set (d := a / 4 - (pc / 4 + 1)). assert (C := signed16_cong (a / 4 - (i + 4) / 4) d ltac:(lia)).
  replace (a / 4 - (i + 4) / 4 - d) with (pc / 4 + 1 - (i + 4) / 4) in C by lia. rewrite <- C. lia.
Qed.

(** The first instruction of a program at a multiple of 2^18. *)
Theorem C12_branch_to_number_partial : forall rt m input out l1 raw l2 f os a, number_branch rt m input out l1 raw l2 f os a ->
  instruction_count l1 = 0%nat -> m_base m mod 2 ^ 18 = 0 -> a mod 4 = 0 -> 0 < a -> -131072 <= a - (m_base m + 4) < 131072 ->
  exists w, nth_error (words_of out) (instruction_count l1) = Some [w]
    /\ branch_target (address (m_base m) (words_of out) (instruction_count l1)) w = a.
Proof.
  intros rt m input out l1 raw l2 f os a H I0 B A4 A0 D. assert (X := C12_lands_iff _ _ _ _ _ _ _ _ _ _ H). cbv zeta in X. rewrite I0 in *.
  rewrite address_0 in *. assert (Eb := Z.div_mod (m_base m) (2 ^ 18) ltac:(lia)). rewrite B in Eb.
  assert (B4 : m_base m mod 4 = 0).
  { rewrite Eb. replace (2 ^ 18 * (m_base m / 2 ^ 18) + 0) with (65536 * (m_base m / 2 ^ 18) * 4) by lia. apply Z.mod_mul. lia. }
  destruct (X B4 A4 ltac:(lia) D) as (w & W & T). exists w. split; [exact W|]. apply T.
  replace (m_base m / 4) with (m_base m / 2 ^ 18 * 65536).
  - change ((Z.of_nat 0 + 4) / 4) with 1. replace (m_base m / 2 ^ 18 * 65536 + 1 - 1) with (m_base m / 2 ^ 18 * 65536) by lia. apply Z.mod_mul. lia.
  - apply Z.div_unique with (r := 0); lia.
Qed.
(** At such an address no later instruction (with one word per instruction before it, and
    fewer than 60000 of them) reaches the address it names. *)
Theorem C12_wrong_later : forall rt m input out l1 raw l2 f os a, number_branch rt m input out l1 raw l2 f os a ->
  (0 < instruction_count l1)%nat -> Z.of_nat (instruction_count l1) < 60000 -> one_word_each (words_of out) 0 (instruction_count l1) ->
  m_base m mod 2 ^ 18 = 0 -> a mod 4 = 0 -> Z.of_nat (instruction_count l1) < a ->
  -131072 <= a - (address (m_base m) (words_of out) (instruction_count l1) + 4) < 131072 ->
  exists w, nth_error (words_of out) (instruction_count l1) = Some [w]
    /\ branch_target (address (m_base m) (words_of out) (instruction_count l1)) w <> a.
Proof.
  intros rt m input out l1 raw l2 f os a H I0 I1 O B A4 A0 D. assert (X := C12_lands_iff _ _ _ _ _ _ _ _ _ _ H). cbv zeta in X.
  destruct (C12_branch_word _ _ _ _ _ _ _ _ _ _ H) as [W0 _]. apply nth_lt in W0.
  assert (Ead := address_step (m_base m) (words_of out) 0 (instruction_count l1) ltac:(lia) O). rewrite address_0 in Ead. rewrite Ead in *.
  remember (Z.of_nat (instruction_count l1)) as i eqn:Ei.
  assert (Eb := Z.div_mod (m_base m) (2 ^ 18) ltac:(lia)). rewrite B in Eb.
  replace (m_base m + 4 * (i - Z.of_nat 0)) with (4 * (m_base m / 2 ^ 18 * 65536 + i)) in * by lia.
  destruct X as (w & W & T); [rewrite Z.mul_comm; apply Z.mod_mul; lia|exact A4|lia|exact D|].
  exists w. split; [exact W|]. rewrite T. rewrite (Z.mul_comm 4), Z.div_mul by lia.
  assert (Y := Z.div_mod (i + 4) 4 ltac:(lia)). assert (Z0 := Z.mod_pos_bound (i + 4) 4 ltac:(lia)).
  replace (m_base m / 2 ^ 18 * 65536 + i + 1 - (i + 4) / 4) with (i + 1 - (i + 4) / 4 + m_base m / 2 ^ 18 * 65536) by lia. rewrite Z.mod_add by lia.
  rewrite Z.mod_small; lia.
Qed.

Definition number_program : str := join [nl] [ #"nop"; #"b 0x80000008"; #"nop" ].
Theorem C12_refuted : ~ C12_full.
Proof.
  intros H. set (rt := mk_runtime true (fun l => l)). set (m := set_base 0x80000000 m_new).
  destruct (assemble rt m number_program) as [out| |] eqn:A; [|vm_compute in A; discriminate A|vm_compute in A; discriminate A].
  assert (L : number_branch rt m number_program out [ #"nop" ] #"b 0x80000008" [ #"nop" ] (format_named #"b") [] 0x80000008).
  { constructor; [exact A|reflexivity|apply format_named_in; vm_compute; reflexivity| |lia].
    exists #"0x80000008". split; [|apply hex_text; [vm_compute; reflexivity|lia]].
    apply (plain_branch (format_named #"b") [] [] []); [vm_compute; reflexivity|reflexivity|constructor|]. apply (plain_statement #"b" #"0x80000008" []). }
  specialize (H _ _ _ _ _ _ _ _ _ _ L). vm_compute in A. injection A as <-. destruct H as (w & W & T).
  - vm_compute. reflexivity.
  - exists 2%nat. split; [vm_compute; lia|vm_compute; reflexivity].
  - vm_compute in W. injection W as <-. vm_compute in T. discriminate T.
Qed.

(** ** C13  Jumps to numeric addresses *)

(** In a program that assembles, line [raw] is a jump to the number [a], whose text is not
    the name of a symbol. *)
Record number_jump (rt : runtime) (m : mipsasm) (input : str) (out : list inst) (l1 : list str) (raw : str) (l2 : list str) (name : str) (a : Z) : Prop := mk_number_jump {
  nj_assembles : assemble rt m input = Ok out;
  nj_line : lines input = l1 ++ raw :: l2;
  nj_jump : exists t, jump_line name t raw /\ numeral t a /\ forall b, ~ In (b, t) (m_syms m);
  nj_range : a < 2 ^ 32;
  nj_aligned : a mod 4 = 0
}.

Definition C13_full : Prop := forall rt m input out l1 raw l2 name a, number_jump rt m input out l1 raw l2 name a ->
  let pc := address (m_base m) (words_of out) (instruction_count l1) in (pc + 4) / 2 ^ 28 = a / 2 ^ 28 ->
  exists w, nth_error (words_of out) (instruction_count l1) = Some [w] /\ field w 26 6 = jump_code name /\ jump_target pc w = a.

Theorem C13_jump_word : forall rt m input out l1 raw l2 name a, number_jump rt m input out l1 raw l2 name a ->
  nth_error (words_of out) (instruction_count l1) = Some [jump_code name * 2 ^ 26 + a mod 2 ^ 26 / 4].
Proof.
  intros rt m input out l1 raw l2 name a [A Ei (t & J & Nu & Ns) R A4]. assert (R0 := numeral_nonneg _ _ Nu).
  assert (Ot : operand_ok t) by (apply numeral_shape in Nu as (radix & ds & S & _); now apply (number_operand_ok _ _ _ _ S)).
  destruct (jump_in_program rt m input out l1 raw l2 name t (TAddress a) A Ei J Ot) as (v & x & <- & Nx & Bx).
  - intros s Lb Rd. split; [apply parse_target_number; auto|]. exists []. unfold check_jump. cbn [target_is_label target_as_u32].
    unfold lift. cbn [mbind]. rewrite A4. reflexivity.
  - intros v E. injection E as <-. lia.
  - eapply words_nth; eauto.
Qed.
(** It lands on the address exactly when bits 26 and 27 of the address are clear. *)
Theorem C13_lands_iff : forall rt m input out l1 raw l2 name a, number_jump rt m input out l1 raw l2 name a ->
  let pc := address (m_base m) (words_of out) (instruction_count l1) in (pc + 4) / 2 ^ 28 = a / 2 ^ 28 ->
  exists w, nth_error (words_of out) (instruction_count l1) = Some [w] /\ field w 26 6 = jump_code name
    /\ (jump_target pc w = a <-> a mod 2 ^ 28 < 2 ^ 26).
Proof.
  intros rt m input out l1 raw l2 name a H pc Sg. assert (W := C13_jump_word _ _ _ _ _ _ _ _ _ H).
  eexists. split; [exact W|]. split; [apply jump_opcode, jump_range|]. assert (A4 := nj_aligned _ _ _ _ _ _ _ _ _ H). split.
  - unfold jump_target. rewrite jump_word_field by apply jump_range. intros E. rewrite Sg in E.
    assert (Y := Z.mod_pos_bound a (2 ^ 26) ltac:(lia)). assert (X := Z.div_mod a (2 ^ 28) ltac:(lia)).
    assert (Z4 := Z.mul_div_le (a mod 2 ^ 26) 4 ltac:(lia)). lia.
  - intros Lo. now apply jump_lands.
Qed.
Theorem C13_jump_to_number_partial : forall rt m input out l1 raw l2 name a, number_jump rt m input out l1 raw l2 name a ->
  let pc := address (m_base m) (words_of out) (instruction_count l1) in (pc + 4) / 2 ^ 28 = a / 2 ^ 28 -> a mod 2 ^ 28 < 2 ^ 26 ->
  exists w, nth_error (words_of out) (instruction_count l1) = Some [w] /\ field w 26 6 = jump_code name /\ jump_target pc w = a.
Proof.
  intros rt m input out l1 raw l2 name a H pc Sg Lo. destruct (C13_lands_iff _ _ _ _ _ _ _ _ _ H Sg) as (w & W & C & T). exists w. repeat split; auto. now apply T.
Qed.
Lemma number_jump_case : exists out, number_jump (mk_runtime true (fun l => l)) m_new #"jal 0x4000008" out [] #"jal 0x4000008" [] #"jal" 0x4000008.
Proof.
  destruct (assemble (mk_runtime true (fun l => l)) m_new #"jal 0x4000008") as [out| |] eqn:A; [|vm_compute in A; discriminate A|vm_compute in A; discriminate A].
  exists out. constructor; [exact A|reflexivity| |lia|reflexivity].
  exists #"0x4000008". split; [|split; [apply hex_text; [vm_compute; reflexivity|lia]|intros b []]].
  split; [right; now left|apply (plain_statement #"jal" #"0x4000008" [])].
Qed.
Theorem C13_refuted : ~ C13_full.
Proof.
  intros H. destruct number_jump_case as [out J]. destruct (H _ _ _ _ _ _ _ _ _ J) as (w & W & _ & T); [vm_compute; reflexivity|].
  destruct (C13_lands_iff _ _ _ _ _ _ _ _ _ J) as (w' & W' & _ & T'); [vm_compute; reflexivity|]. rewrite W in W'. injection W' as <-.
  apply T' in T. vm_compute in T. discriminate T.
Qed.

(** ** C14  %hi and %lo *)

(** The two lines stand for lui and addiu with halves that make up the address. *)
Definition halves_of (rt : runtime) (m : mipsasm) (r a : Z) (l1 l2 : str) : Prop := exists hi lo, 0 <= hi < 65536 /\ 0 <= lo < 65536
  /\ writes rt m l1 [word (normal 15 "lui" [Rt; Uimm]) [OReg r; OInt hi]]
  /\ writes rt m l2 [word (normal 9 "addiu" [Rt; Rs; Simm]) [OReg r; OReg r; OInt lo]]
  /\ (hi * 65536 + signed16 lo) mod 2 ^ 32 = a.
Record half_lines (m : mipsasm) (r a : Z) (l1 l2 : str) : Prop := mk_half_lines {
  hl_lines : exists tr tr2 ts t, gpr_text tr r /\ gpr_text tr2 r /\ gpr_text ts r /\ plain_name t /\ names_address (m_syms m) t a
    /\ instruction_line #"lui" [tr; #"%hi(" ++ t ++ #")"] l1 /\ instruction_line #"addiu" [tr2; ts; #"%lo(" ++ t ++ #")"] l2;
  hl_range : 0 <= a < 2 ^ 32;
  hl_one1 : ~ In nl l1;
  hl_one2 : ~ In nl l2
}.

Definition C14_full : Prop := forall rt m r a l1 l2, half_lines m r a l1 l2 -> halves_of rt m r a l1 l2.

Lemma halves_make oc a v : 0 <= a < 2 ^ 32 -> hi_value oc a = Some v -> (v * 65536 + signed16 (a mod 65536)) mod 2 ^ 32 = a.
Proof.
  intros R. unfold hi_value, signed16. assert (M := Z.div_mod a 65536 ltac:(lia)). assert (B := Z.mod_pos_bound a 65536 ltac:(lia)).
  destruct (Z.ltb_spec (a mod 65536) 32768) as [Lt|Ge].
  - rewrite Z.add_0_r. destruct (Z.ltb_spec a (2 ^ 32)); [|lia]. intros E. injection E as <-. rewrite Z.mod_small; lia.
  - destruct (Z.ltb_spec (a + 65536) (2 ^ 32)) as [Q|Q].
    + intros E. injection E as <-. replace ((a + 65536) / 65536) with (a / 65536 + 1).
      * rewrite Z.mod_small; lia.
      * replace (a + 65536) with (a + 1 * 65536) by lia. now rewrite Z.div_add by lia.
    + destruct oc; [discriminate|]. intros E. injection E as <-.
      rewrite <- (Z_mod_plus_full _ 1). rewrite Z.mod_small; lia.
Qed.
Lemma halves_by rt m r a l1 l2 : half_lines m r a l1 l2 -> hi_value (rt_oc rt) a <> None -> halves_of rt m r a l1 l2.
Proof.
  intros [(tr & tr2 & ts & t & G1 & G2 & G3 & Pn & Na & L1 & L2) R N1 N2] H. destruct (hi_value (rt_oc rt) a) as [v|] eqn:E; [|congruence].
  exists v, (a mod 65536). split; [now apply hi_range in E|]. split; [apply Z.mod_pos_bound; lia|].
  split; [now apply (lui_hi rt m tr r t a v l1)|]. split; [now apply (addiu_lo rt m tr2 ts r r t a l2)|]. now apply halves_make in E.
Qed.

(** All addresses below 0xFFFF8000, in both build profiles. *)
Theorem C14_halves_partial : forall rt m r a l1 l2, half_lines m r a l1 l2 -> a < 0xFFFF8000 -> halves_of rt m r a l1 l2.
Proof.
  intros rt m r a l1 l2 H A. apply halves_by; [exact H|]. destruct H as [_ R _ _]. unfold hi_value.
  assert (M := Z.div_mod a 65536 ltac:(lia)). assert (B := Z.mod_pos_bound a 65536 ltac:(lia)).
  assert (Q : a / 65536 <= 65535) by (apply Z.lt_succ_r, Z.div_lt_upper_bound; lia).
  destruct (Z.ltb_spec (a mod 65536) 32768).
  - destruct (Z.ltb_spec (a + 0) (2 ^ 32)); [discriminate|lia].
  - destruct (Z.ltb_spec (a + 65536) (2 ^ 32)); [discriminate|lia].
Qed.
(** All addresses, when overflow checks are off. *)
Theorem C14_halves_unchecked : forall rt m r a l1 l2, half_lines m r a l1 l2 -> rt_oc rt = false -> halves_of rt m r a l1 l2.
Proof.
  intros rt m r a l1 l2 H A. apply halves_by; [exact H|]. unfold hi_value. rewrite A. destruct (_ <? 2 ^ 32); discriminate.
Qed.
Lemma half_lines_case m r a tr t : gpr_text tr r -> plain_name t -> names_address (m_syms m) t a -> 0 <= a < 2 ^ 32 ->
  ~ In nl (#"lui" ++ #" " ++ join #"," [tr; #"%hi(" ++ t ++ #")"]) -> ~ In nl (#"addiu" ++ #" " ++ join #"," [tr; tr; #"%lo(" ++ t ++ #")"]) ->
  half_lines m r a (#"lui" ++ #" " ++ join #"," [tr; #"%hi(" ++ t ++ #")"]) (#"addiu" ++ #" " ++ join #"," [tr; tr; #"%lo(" ++ t ++ #")"]).
Proof.
  intros G Pn Na R N1 N2. constructor; auto. exists tr, tr, tr, t. repeat (split; [assumption|]). split.
  - exact (plain_statement #"lui" tr [ #"%hi(" ++ t ++ #")" ]).
  - exact (plain_statement #"addiu" tr [tr; #"%lo(" ++ t ++ #")" ]).
Qed.
Lemma gpr_a0 : gpr_text #"$a0" 4. Proof. right. exists #"a0". split; [reflexivity|]. apply gpr_named; [lia|reflexivity]. Qed.
(** With overflow checks, %hi of an address from 0xFFFF8000 on makes the assembler panic. *)
Theorem C14_refuted : ~ C14_full.
Proof.
  intros H. assert (L := half_lines_case m_new 4 0xFFFF8000 #"$a0" #"0xffff8000" gpr_a0).
  destruct (H (mk_runtime true (fun l => l)) _ _ _ _ _ (L ltac:(split; [discriminate|reflexivity])
    ltac:(apply na_number; [apply hex_text; [vm_compute; reflexivity|lia]|intros b []]) ltac:(lia) ltac:(vm_compute; intuition discriminate) ltac:(vm_compute; intuition discriminate)))
    as (hi & lo & _ & _ & ((out & A & _) & _) & _). vm_compute in A. discriminate A.
Qed.
(** A symbol with its sign bit of the low half set. *)
Definition tables : mipsasm := mk_mipsasm 0 [(0x8001FFF0, #"table")] false.
Example C14_case : half_lines tables 4 0x8001FFF0 #"lui $a0,%hi(table)" #"addiu $a0,$a0,%lo(table)"
  /\ forall rt, assemble rt tables #"lui $a0,%hi(table)" = Ok [IImm I_Lui reg_null A0 (Short 0x8002) [0x3c048002]]
  /\ assemble rt tables #"addiu $a0,$a0,%lo(table)" = Ok [IImm I_Addiu A0 A0 (Short 0xFFF0) [0x2484FFF0]].
Proof.
  split.
  - apply (half_lines_case tables 4 0x8001FFF0 #"$a0" #"table" gpr_a0); [split; [discriminate|reflexivity]| |lia|vm_compute; intuition discriminate|vm_compute; intuition discriminate].
    apply na_symbol; [now left|]. intros b [E|[]]. now injection E as <-.
  - intros [[] o]; split; vm_compute; reflexivity.
Qed.

(** ** Concrete cases for C10 to C13 *)

Definition loop_program : str := join [nl] [ #"start: "; #"  addiu $a0, $a0, -1 ; count down"; #"  BNEZ $a0, start"; #"  jal done"; #"  nop"; #"done:"; #"  nop" ].
Lemma each_one wss i j : forallb (fun ws => Nat.eqb (List.length ws) 1) wss = true -> one_word_each wss i j.
Proof. intros F k ws _ H. rewrite forallb_forall in F. apply nth_error_In, F in H. now apply Nat.eqb_eq in H. Qed.
Example C10_C11_case : forall oc, let m := set_base 0x80000400 m_new in exists out,
  label_branch (mk_runtime oc (fun l => l)) m loop_program out [ #"start: "; #"  addiu $a0, $a0, -1 ; count down" ] #"  BNEZ $a0, start"
    [ #"  jal done"; #"  nop"; #"done:"; #"  nop" ] (format_named #"bnez") [OReg 4] #"start" 0
  /\ label_jump (mk_runtime oc (fun l => l)) m loop_program out [ #"start: "; #"  addiu $a0, $a0, -1 ; count down"; #"  BNEZ $a0, start" ] #"  jal done"
    [ #"  nop"; #"done:"; #"  nop" ] #"jal" #"done" 4
  /\ one_word_each (words_of out) 0 4 /\ get_bytes out = [0x2484FFFF; 0x1480FFFE; 0x0C000104; 0; 0].
Proof.
  intros oc m.
  destruct (assemble (mk_runtime oc (fun l => l)) m loop_program) as [out| |] eqn:A; [|exfalso; destruct oc; vm_compute in A; discriminate A|exfalso; destruct oc; vm_compute in A; discriminate A].
  exists out. split; [|split; [|split]].
  - constructor; [exact A|vm_compute; reflexivity|apply format_named_in; vm_compute; reflexivity| |split; reflexivity|reflexivity|vm_compute; now left].
    apply (plain_branch (format_named #"bnez") [OReg 4] [Gpr 21] [ #"$a0" ]); [vm_compute; reflexivity|reflexivity| |].
    + constructor; [|constructor]. constructor. exact gpr_a0.
    + exists #"  ", #"BNEZ $a0, start", [], []. split; [reflexivity|]. split; [|split; [reflexivity|split; [apply end_blank; reflexivity|split; [discriminate|reflexivity]]]].
      apply (st_ops #"bnez" #"BNEZ" #"$a0" [ #"start" ] #"$a0" [ #" start" ]); [reflexivity|].
      constructor; [exists [], []; repeat split|]. constructor; [exists #" ", []; repeat split|constructor].
  - constructor; [exact A|vm_compute; reflexivity| |split; reflexivity|intros a []|vm_compute; right; now left].
    split; [right; now left|]. exists #"  ", #"jal done", [], []. split; [reflexivity|]. split; [|split; [reflexivity|split; [apply end_blank; reflexivity|split; [discriminate|reflexivity]]]].
    apply (st_ops #"jal" #"jal" #"done" [] #"done" []); [reflexivity|]. constructor; [exists [], []; repeat split|constructor].
  - apply each_one. destruct oc; vm_compute in A; injection A as <-; reflexivity.
  - destruct oc; vm_compute in A; injection A as <-; reflexivity.
Qed.

Definition first_program : str := join [nl] [ #"b 0x80000008"; #"nop"; #"jal 0x80001000" ].
Example C12_C13_case : forall oc, let m := set_base 0x80000000 m_new in exists out,
  number_branch (mk_runtime oc (fun l => l)) m first_program out [] #"b 0x80000008" [ #"nop"; #"jal 0x80001000" ] (format_named #"b") [] 0x80000008
  /\ number_jump (mk_runtime oc (fun l => l)) m first_program out [ #"b 0x80000008"; #"nop" ] #"jal 0x80001000" [] #"jal" 0x80001000
  /\ get_bytes out = [0x10000001; 0; 0x0C000400].
Proof.
  intros oc m.
  destruct (assemble (mk_runtime oc (fun l => l)) m first_program) as [out| |] eqn:A; [|exfalso; destruct oc; vm_compute in A; discriminate A|exfalso; destruct oc; vm_compute in A; discriminate A].
  exists out. split; [|split].
  - constructor; [exact A|reflexivity|apply format_named_in; vm_compute; reflexivity| |lia].
    exists #"0x80000008". split; [|apply hex_text; [vm_compute; reflexivity|lia]].
    apply (plain_branch (format_named #"b") [] [] []); [vm_compute; reflexivity|reflexivity|constructor|]. apply (plain_statement #"b" #"0x80000008" []).
  - constructor; [exact A|reflexivity| |lia|reflexivity].
    exists #"0x80001000". split; [|split; [apply hex_text; [vm_compute; reflexivity|lia]|intros b []]].
    split; [right; now left|apply (plain_statement #"jal" #"0x80001000" [])].
  - destruct oc; vm_compute in A; injection A as <-; reflexivity.
Qed.

Print Assumptions C10_branch_word.
Print Assumptions C10_lands_iff.
Print Assumptions C10_branch_to_label_partial.
Print Assumptions C10_refuted.
Print Assumptions C11_jump_word.
Print Assumptions C11_jump_to_label_partial.
Print Assumptions C11_refuted.
Print Assumptions C11_refuted_high.
Print Assumptions C12_branch_word.
Print Assumptions C12_lands_iff.
Print Assumptions C12_branch_to_number_partial.
Print Assumptions C12_wrong_later.
Print Assumptions C12_refuted.
Print Assumptions C13_jump_word.
Print Assumptions C13_lands_iff.
Print Assumptions C13_jump_to_number_partial.
Print Assumptions C13_refuted.
Print Assumptions C14_halves_partial.
Print Assumptions C14_halves_unchecked.
Print Assumptions C14_refuted.
