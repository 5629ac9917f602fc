(** * FlowLines: the lines of programs with branches (proofs for C72). *)

From Coq Require Import Lia.
From Verif Require Import Lib SpecIsa StrLemmas OperandProofs NativeProofs LineProofs TextProofs ScanProofs ProgProofs AsmProofs SpecMachine MachineProofs ExecProofs
  PseudoProofs CodingProofs CauseProofs BranchProofs LabelProofs CompareProofs SpecText SpecProgram SpecLabels SpecPseudo SpecAccept InsProofs PropsPseudo PropsLabels PropsCompare SpecSize SizeProofs PropsSize
  RefProofs SpecRun RunProofs RunLines AcceptProofs AcceptLines SpecFlow FlowProofs.

(** ** Branches of the processor *)

Lemma w_stb op name s t d : word (normal op name [Rs; Rt; Branch16]) [OReg s; OReg t; OInt d] = iword op s t (d mod 65536).
Proof. unfold word, iword. cbn -[Z.pow Z.mul Z.add Z.modulo]. lia. Qed.
Lemma w_sb op name s d : word (normal op name [Rs; Branch16]) [OReg s; OInt d] = iword op s 0 (d mod 65536).
Proof. unfold word, iword. cbn -[Z.pow Z.mul Z.add Z.modulo]. lia. Qed.
Lemma w_rsb k name s d : word (regimm k name [Rs; Branch16]) [OReg s; OInt d] = iword 1 s k (d mod 65536).
Proof. unfold word, iword. cbn -[Z.pow Z.mul Z.add Z.modulo]. lia. Qed.
Lemma w_ksb op name s d : word (mk_format name [op6 op] [Rs; Branch16]) [OReg s; OInt d] = iword op s 0 (d mod 65536).
Proof. unfold word, iword. cbn -[Z.pow Z.mul Z.add Z.modulo]. lia. Qed.
Lemma w_kb op name d : word (mk_format name [op6 op] [Branch16]) [OInt d] = iword op 0 0 (d mod 65536).
Proof. unfold word, iword. cbn -[Z.pow Z.mul Z.add Z.modulo]. lia. Qed.

Lemma triple_inv {A B C} (a a' : A) (b b' : B) (c c' : C) : (a, b, c) = (a', b', c') -> a = a' /\ b = b' /\ c = c'.
Proof. intros E. injection E. auto. Qed.

Definition zero : state := mk_state (fun _ => 0) 0 0.

Lemma reg_spelled s t k : k = Rs \/ k = Rt -> operand_spelling k (OReg s) t -> 0 <= s < 32.
Proof. intros [-> | ->] H; inversion H; subst; now eapply gpr_range; eassumption. Qed.

Section Native.
Variable odd : Z -> Z.
Lemma two_operands f os n l (g : Z -> Z -> bool) c : branch_line f os n l -> (forall st, on_two g os st = Some (c st)) -> f_ops f = [Rs; Rt; Branch16] ->
  exists s t, os = [OReg s; OReg t] /\ 0 <= s < 32 /\ 0 <= t < 32 /\ forall st, c st = g (value st s) (value st t).
Proof.
  intros (ks & ts & Fo' & Ln & Sp & _) T Fo. rewrite Fo in Fo'. change [Rs; Rt; Branch16] with ([Rs; Rt] ++ [Branch16]) in Fo'. apply app_inj_tail in Fo' as [<- _].
  assert (Tz := T zero). unfold on_two in Tz, T. destruct os as [|[s|?|? ?] [|[t|?|? ?] [|? ?]]]; try discriminate Tz. cbn [combine] in Sp.
  inversion Sp as [|? x ? xs S1 Sp']; subst. inversion Sp' as [|? y ? ys S2 Sp'']; subst. cbn [fst snd] in S1, S2.
  exists s, t. split; [reflexivity|]. split; [eapply reg_spelled; [now left|exact S1]|]. split; [eapply reg_spelled; [now right|exact S2]|].
  intros st. specialize (T st). cbv beta iota in T. now injection T.
Qed.
Lemma one_operand f os n l (g : Z -> bool) c : branch_line f os n l -> (forall st, on_one g os st = Some (c st)) -> f_ops f = [Rs; Branch16] ->
  exists s, os = [OReg s] /\ 0 <= s < 32 /\ forall st, c st = g (value st s).
Proof.
  intros (ks & ts & Fo' & Ln & Sp & _) T Fo. rewrite Fo in Fo'. change [Rs; Branch16] with ([Rs] ++ [Branch16]) in Fo'. apply app_inj_tail in Fo' as [<- _].
  assert (Tz := T zero). unfold on_one in Tz, T. destruct os as [|[s|?|? ?] [|? ?]]; try discriminate Tz. cbn [combine] in Sp.
  inversion Sp as [|? x ? xs S1 Sp']; subst. cbn [fst snd] in S1.
  exists s. split; [reflexivity|]. split; [eapply reg_spelled; [now left|exact S1]|].
  intros st. specialize (T st). cbv beta iota in T. now injection T.
Qed.

Ltac br W := intros st; cbn [app]; rewrite W, exec_iword by (try lia; apply Z.mod_pos_bound; lia); cbv beta iota zeta delta [exec_normal]; rewrite signed16_back by lia.

Lemma branch_exec f os likely t n l c d : In f (isa ++ idioms) -> In (f_name f, likely, t) branches -> branch_line f os n l -> (forall st, t os st = Some (c st)) ->
  -32768 <= d < 32768 -> forall st, exec odd (word f (os ++ [OInt d])) st = Branch (c st) likely d.
Proof.
  intros If I B T R. unfold branches in I. cbn [In] in I.
  repeat (lazymatch type of I with _ \/ _ => destruct I as [I|I] end); lazymatch type of I with False => destruct I | _ => apply triple_inv in I; destruct I as (En & <- & <-); symmetry in En end.
  - apply (only_format #"beq" _ (normal 4 "beq" [Rs; Rt; Branch16]) ltac:(vm_compute; reflexivity) If) in En. subst f. destruct (two_operands _ _ _ _ _ _ B T eq_refl) as (s & u & -> & Rs1 & Rt1 & Ec). br w_stb. now rewrite Ec.
  - apply (only_format #"beql" _ (normal 20 "beql" [Rs; Rt; Branch16]) ltac:(vm_compute; reflexivity) If) in En. subst f. destruct (two_operands _ _ _ _ _ _ B T eq_refl) as (s & u & -> & Rs1 & Rt1 & Ec). br w_stb. now rewrite Ec.
  - apply (only_format #"bne" _ (normal 5 "bne" [Rs; Rt; Branch16]) ltac:(vm_compute; reflexivity) If) in En. subst f. destruct (two_operands _ _ _ _ _ _ B T eq_refl) as (s & u & -> & Rs1 & Rt1 & Ec). br w_stb. now rewrite Ec.
  - apply (only_format #"bnel" _ (normal 21 "bnel" [Rs; Rt; Branch16]) ltac:(vm_compute; reflexivity) If) in En. subst f. destruct (two_operands _ _ _ _ _ _ B T eq_refl) as (s & u & -> & Rs1 & Rt1 & Ec). br w_stb. now rewrite Ec.
  - apply (only_format #"beqz" _ (mk_format #"beqz" [op6 4] [Rs; Branch16]) ltac:(vm_compute; reflexivity) If) in En. subst f. destruct (one_operand _ _ _ _ _ _ B T eq_refl) as (s & -> & Rs1 & Ec). br w_ksb. now rewrite Ec.
  - apply (only_format #"beqzl" _ (mk_format #"beqzl" [op6 20] [Rs; Branch16]) ltac:(vm_compute; reflexivity) If) in En. subst f. destruct (one_operand _ _ _ _ _ _ B T eq_refl) as (s & -> & Rs1 & Ec). br w_ksb. now rewrite Ec.
  - apply (only_format #"bnez" _ (mk_format #"bnez" [op6 5] [Rs; Branch16]) ltac:(vm_compute; reflexivity) If) in En. subst f. destruct (one_operand _ _ _ _ _ _ B T eq_refl) as (s & -> & Rs1 & Ec). br w_ksb. now rewrite Ec.
  - apply (only_format #"bnezl" _ (mk_format #"bnezl" [op6 21] [Rs; Branch16]) ltac:(vm_compute; reflexivity) If) in En. subst f. destruct (one_operand _ _ _ _ _ _ B T eq_refl) as (s & -> & Rs1 & Ec). br w_ksb. now rewrite Ec.
  - apply (only_format #"blez" _ (normal 6 "blez" [Rs; Branch16]) ltac:(vm_compute; reflexivity) If) in En. subst f. destruct (one_operand _ _ _ _ _ _ B T eq_refl) as (s & -> & Rs1 & Ec). br w_sb. now rewrite Ec.
  - apply (only_format #"blezl" _ (normal 22 "blezl" [Rs; Branch16]) ltac:(vm_compute; reflexivity) If) in En. subst f. destruct (one_operand _ _ _ _ _ _ B T eq_refl) as (s & -> & Rs1 & Ec). br w_sb. now rewrite Ec.
  - apply (only_format #"bgtz" _ (normal 7 "bgtz" [Rs; Branch16]) ltac:(vm_compute; reflexivity) If) in En. subst f. destruct (one_operand _ _ _ _ _ _ B T eq_refl) as (s & -> & Rs1 & Ec). br w_sb. rewrite Ec. f_equal. lia.
  - apply (only_format #"bgtzl" _ (normal 23 "bgtzl" [Rs; Branch16]) ltac:(vm_compute; reflexivity) If) in En. subst f. destruct (one_operand _ _ _ _ _ _ B T eq_refl) as (s & -> & Rs1 & Ec). br w_sb. rewrite Ec. f_equal. lia.
  - apply (only_format #"bltz" _ (regimm 0 "bltz" [Rs; Branch16]) ltac:(vm_compute; reflexivity) If) in En. subst f. destruct (one_operand _ _ _ _ _ _ B T eq_refl) as (s & -> & Rs1 & Ec). br w_rsb. now rewrite Ec.
  - apply (only_format #"bltzl" _ (regimm 2 "bltzl" [Rs; Branch16]) ltac:(vm_compute; reflexivity) If) in En. subst f. destruct (one_operand _ _ _ _ _ _ B T eq_refl) as (s & -> & Rs1 & Ec). br w_rsb. now rewrite Ec.
  - apply (only_format #"bgez" _ (regimm 1 "bgez" [Rs; Branch16]) ltac:(vm_compute; reflexivity) If) in En. subst f. destruct (one_operand _ _ _ _ _ _ B T eq_refl) as (s & -> & Rs1 & Ec). br w_rsb. rewrite Ec. f_equal. lia.
  - apply (only_format #"bgezl" _ (regimm 3 "bgezl" [Rs; Branch16]) ltac:(vm_compute; reflexivity) If) in En. subst f. destruct (one_operand _ _ _ _ _ _ B T eq_refl) as (s & -> & Rs1 & Ec). br w_rsb. rewrite Ec. f_equal. lia.
  - apply (only_format #"b" _ (mk_format #"b" [op6 4] [Branch16]) ltac:(vm_compute; reflexivity) If) in En. subst f.
    assert (E : os = [] /\ forall st, c st = true). { assert (Tz := T zero). destruct os; [|discriminate Tz]. split; [reflexivity|]. intros st. specialize (T st). now injection T. }
    destruct E as [-> Ec]. br w_kb. now rewrite Ec.
Qed.

(** ** Words that do not branch *)

Definition plain_key (f : format) : bool :=
  existsb (fun k : Z * Z * Z => match k with (p, n, v) => (p =? 26) && (n =? 6) && negb (existsb (Z.eqb v) [1; 4; 5; 6; 7; 20; 21; 22; 23]) end) (f_key f)
  || existsb (fun k : Z * Z * Z => match k with (p, n, v) => (p =? 16) && (n =? 5) && (8 <=? v) end) (f_key f)
     && existsb (fun k : Z * Z * Z => match k with (p, n, v) => (p =? 26) && (n =? 6) && (v =? 1) end) (f_key f).
Definition no_branch16 (f : format) : bool := forallb (fun k => match k with Branch16 => false | _ => true end) (f_ops f).
Lemma plain_keys : forallb (fun f => implb (no_branch16 f) (plain_key f)) (isa ++ idioms) = true. Proof. vm_compute. reflexivity. Qed.

Lemma exec_special_plain rs rt rd sa fn code st : match exec_special odd rs rt rd sa fn code st with Branch _ _ _ => False | _ => True end.
Proof.
  unfold exec_special, checked, trap_if.
  repeat match goal with
  | |- match (match ?x with _ => _ end) with _ => _ end => destruct x
  | |- True => exact Logic.I
  end.
Qed.
Lemma exec_plain w st : ~ In (field w 26 6) [1; 4; 5; 6; 7; 20; 21; 22; 23] -> match exec odd w st with Branch _ _ _ => False | _ => True end.
Proof.
  intros H. unfold exec. destruct (field w 26 6 =? 0); [apply exec_special_plain|]. generalize dependent (field w 26 6). intros op H. unfold exec_normal, checked, trap_if. cbn [In] in H.
  repeat match goal with
  | |- match (match ?x with _ => _ end) with _ => _ end => destruct x
  | |- True => exact Logic.I
  end; exfalso; apply H; tauto.
Qed.
Lemma exec_plain1 w st : field w 26 6 = 1 -> 8 <= field w 16 5 -> match exec odd w st with Branch _ _ _ => False | _ => True end.
Proof.
  intros H K. unfold exec. rewrite H. cbn [Z.eqb]. unfold exec_normal, trap_if. generalize dependent (field w 16 5). intros rt K.
  repeat match goal with
  | |- match (match ?x with _ => _ end) with _ => _ end => destruct x
  | |- True => exact Logic.I
  end; exfalso; lia.
Qed.

Lemma native_plain f os : In f (isa ++ idioms) -> ~ In Branch16 (f_ops f) -> Forall2 fits (f_ops f) os -> no_branching odd (word f os).
Proof.
  intros If Nb F st. assert (K := proj1 (forallb_forall _ _) plain_keys f If). cbv beta in K.
  assert (E : no_branch16 f = true).
  { apply forallb_forall. intros k Ik. destruct k; try reflexivity. exfalso. exact (Nb Ik). }
  rewrite E in K. cbn [implb] in K.
  assert (Fi : forall p n v, In (p, n, v) (f_key f) -> field (word f os) p n = v).
  { intros p n v Ik. apply word_field; auto. unfold format_comps. apply in_or_app. now left. }
  apply orb_prop in K as [K|K].
  - apply existsb_exists in K as ([[p n] v] & Ik & K). apply andb_prop in K as [K K3]. apply andb_prop in K as [K1 K2]. apply Z.eqb_eq in K1, K2. subst p n.
    apply exec_plain. rewrite (Fi _ _ _ Ik). intros Iv. apply Bool.negb_true_iff in K3. assert (X : existsb (Z.eqb v) [1; 4; 5; 6; 7; 20; 21; 22; 23] = true) by (apply existsb_exists; exists v; split; [exact Iv|apply Z.eqb_refl]). congruence.
  - apply andb_prop in K as [K K']. apply existsb_exists in K as ([[p n] v] & Ik & K). apply existsb_exists in K' as ([[p' n'] v'] & Ik' & K').
    apply andb_prop in K as [K K3]. apply andb_prop in K as [K1 K2]. apply andb_prop in K' as [K' K3']. apply andb_prop in K' as [K1' K2'].
    apply Z.eqb_eq in K1, K2, K1', K2', K3'. subst p n p' n' v'. apply exec_plain1; [now apply Fi|]. rewrite (Fi _ _ _ Ik). lia.
Qed.
End Native.

(** ** Lines and their blocks *)

Lemma nonempty_line l ws : no_nl l -> line_ok l ws -> ws <> [].
Proof.
  intros N K. destruct (one_line rt0 m_new l ws named_new N K) as (out & A & G).
  assert (El : lines l = [] ++ l :: []) by (apply lines_single; [exact N|]; intros ->; destruct K as (H & _); now apply H).
  destruct K as (Ne & Ec & _). assert (R := role_native l Ne Ec).
  destruct (C47_sizes rt0 m_new l out [] l [] A El) as (i & Nt & Sz & _); [unfold is_instruction; now rewrite R|].
  assert (L : (1 <= List.length (inst_bytes i))%nat).
  { unfold sizes in Sz. destruct (find _ long_instructions) as [[nm ns]|] eqn:Fd; [|destruct Sz as [<-|[]]; lia].
    apply find_some in Fd as [Fi _]. assert (P : forallb (fun x : str * list nat => forallb (fun k => Nat.leb 1 k) (snd x)) long_instructions = true) by (vm_compute; reflexivity).
    apply (proj1 (forallb_forall _ _) P) in Fi. cbn [snd] in Fi. apply (proj1 (forallb_forall _ _) Fi) in Sz. now apply Nat.leb_le in Sz. }
  intros ->. rewrite get_bytes_words in G. destruct out as [|x out]; [discriminate Nt|]. injection Nt as ->. cbn [words_of map List.concat] in G.
  apply app_eq_nil in G as [G _]. rewrite G in L. cbn in L. lia.
Qed.

Lemma compare_named name likely rel : In (name, likely, rel) compare_branches -> exists g, In (name, g) compare_expansions.
Proof.
  intros I. apply named_row. unfold compare_branches in I. cbn [In] in I.
  repeat (lazymatch type of I with _ \/ _ => destruct I as [I|I] end); lazymatch type of I with False => destruct I | _ => apply triple_inv in I; destruct I as (<- & _ & _); vm_compute; reflexivity end.
Qed.
(** The words of a comparing branch. *)
Lemma compare_block_words name likely rel g : In (name, likely, rel) compare_branches -> In (name, g) compare_expansions ->
  exists swap sgn on_set, (forall a b n, 0 <= a < 32 -> 0 <= b < 32 -> 0 <= n mod 65536 < 65535 -> g a b n = compare_words swap sgn likely on_set a b (n mod 65536))
    /\ forall a b, 0 <= a < 2 ^ 64 -> 0 <= b < 2 ^ 64 ->
       let x := if swap then b else a in let y := if swap then a else b in rel a b = Bool.eqb on_set (if sgn then signed64 x <? signed64 y else x <? y).
Proof.
  intros I Ig. destruct (compare_rows name likely rel I) as (p & swap & sgn & on_set & [_ _ Op En Re]).
  destruct (compare_expansion name g Ig) as (likely' & rel' & p' & swap' & sgn' & on_set' & [_ _ Op' En' _] & Gw).
  exists swap, sgn, on_set. split; [|exact Re]. intros a b n Ra Rb Rn. rewrite Gw. rewrite Op in Op'. injection Op' as <-.
  specialize (En true a b (n mod 65536 + 1) Ra Rb ltac:(lia)). specialize (En' true a b (n mod 65536 + 1) Ra Rb ltac:(lia)).
  rewrite En in En'. replace (n mod 65536 + 1 - 1) with (n mod 65536) in En' by lia. exact (eq_sym (f_equal (fun o : outcome perror (list Z) => match o with Ok ws => ws | _ => [] end) En')).
Qed.

Section Lines.
Variables (rt : runtime) (m : mipsasm) (input : str) (odd : Z -> Z).
Hypothesis Sy : named_symbols (m_syms m).
Hypothesis Or : orders rt.
Hypothesis Od : forall z, 0 <= odd z < 2 ^ 64.

Definition near (i : nat) (x : SpecFlow.item) : Prop := match x with Does _ _ => True | Jumps _ _ _ _ k => Z.abs (Z.of_nat k - Z.of_nat i) < 32766 end.

Lemma same_state st : same_but [] st st. Proof. split; [reflexivity|split; reflexivity]. Qed.

Lemma branch_block i w likely c k : (forall st, exec odd w st = Branch (c st) likely (Z.of_nat k - (Z.of_nat i + 1))) -> block odd i (Jumps 1 likely [] c k) [w].
Proof.
  intros H. apply b_jumps; [lia|reflexivity|]. intros pre post st W. cbv zeta. exists st. split; [apply same_state|]. split; [exact W|].
  cbn [cycles]. rewrite (cycle_at odd (pre ++ [w] ++ post) _ _ st w); [|lia|rewrite Nat2Z.id, nth_error_app2, Nat.sub_diag by lia; reflexivity].
  rewrite H. destruct (c st); [f_equal; lia|]. destruct likely; f_equal; lia.
Qed.

Lemma flow_line_in before l rest x : lines input = before ++ l :: rest -> no_nl l -> flow_line odd (lines input) before l x -> near (instruction_count before) x ->
  exists ws, line_in (mk_parser rt m input) before l ws /\ block odd (instruction_count before) x ws.
Proof.
  intros Ei N F Nr. destruct F as [M C|f os M C If Nb L Fi Cc|f os likely t n c k If I B T Id Np|name likely rel ts tt s t n k I G1 G2 L Id Np Kl].
  - destruct (computing_runs odd l M C N) as (ws & K & R). exists ws. split; [eapply ok_in; eauto|]. apply b_does; [now apply (nonempty_line l)|discriminate|exact R].
  - destruct (computing_runs odd l M C N) as (ws & K & R). assert (K' := native_line_ok f os l If L N Fi Cc).
    assert (E := stands_unique _ _ _ _ _ (stands rt0 m_new l _ named_new N K) (stands rt0 m_new l _ named_new N K')). subst ws.
    exists [word f os]. split; [eapply ok_in; eauto|]. apply b_does; [discriminate| |exact R]. intros _. exists (word f os). split; [reflexivity|].
    apply native_plain; auto. now apply notation_all.
  - exists [word f (os ++ [OInt (Z.of_nat k - (Z.of_nat (instruction_count before) + 1))])]. cbn [near] in Nr. split.
    + destruct Np as [In1|d1 Lo Lt Lr ->]; [eapply branch_in; eauto|eapply local_in; eauto].
    + apply branch_block. apply (branch_exec odd f os likely t n l c); auto. lia.
  - destruct (compare_named _ _ _ I) as (g & Ig). cbn [near] in Nr.
    assert (Ra : 0 <= s < 32) by (now apply gpr_range in G1). assert (Rb : 0 <= t < 32) by (now apply gpr_range in G2).
    exists (g s t (Z.of_nat k - (Z.of_nat (instruction_count before) + 2))). split.
    { destruct Np as [In1|d1 Lo Lt Lr ->]; [eapply compare_in; eauto; lia|]. eapply compare_local_in; eauto.
      replace ((Z.of_nat (instruction_count d1) - (Z.of_nat (instruction_count before) + 1)) mod 2 ^ 16) with (Z.of_nat (instruction_count d1) - (Z.of_nat (instruction_count before) + 1) + 65536) by (apply Z.mod_unique with (q := -1); lia). lia. }
    destruct (compare_block_words _ _ _ _ I Ig) as (swap & sgn & on_set & Gw & Re).
    set (d := Z.of_nat k - (Z.of_nat (instruction_count before) + 2)) in *.
    assert (Dm : d mod 65536 = d + 65536) by (symmetry; apply Z.mod_unique with (q := -1); unfold d; lia).
    rewrite Gw; [|exact Ra|exact Rb|unfold d in *; lia]. apply b_jumps; [lia|reflexivity|]. intros pre post st W. cbv zeta.
    assert (Run := compare_run odd (pre ++ compare_words swap sgn likely on_set s t (d mod 65536) ++ post) pre post swap sgn likely on_set s t (d mod 65536) st Ra Rb ltac:(unfold d in *; lia) eq_refl W).
    cbv zeta in Run. specialize (Re (value st s) (value st t) (proj1 W s) (proj1 W t)). cbv zeta in Re.
    replace (if swap then value st t else value st s) with (value st (if swap then t else s)) in Re by (now destruct swap).
    replace (if swap then value st s else value st t) with (value st (if swap then s else t)) in Re by (now destruct swap).
    exists (write st 1 (bit (if sgn then signed64 (value st (if swap then t else s)) <? signed64 (value st (if swap then s else t)) else value st (if swap then t else s) <? value st (if swap then s else t)))).
    split; [|split].
    + split; [|split; reflexivity]. intros x Nx. rewrite value_write. destruct (x =? 0) eqn:E0; [apply Z.eqb_eq in E0; subst x; symmetry; apply value_0|].
      destruct (x =? 1) eqn:E1; [|reflexivity]. exfalso. apply Z.eqb_eq in E1. apply Nx. now left.
    + apply well_write; [exact W|apply bit_range].
    + rewrite Run, Re, Dm. assert (Sg : signed16 (d + 65536) = d) by (rewrite <- Dm; apply signed16_back; unfold d; lia). rewrite Sg.
      destruct (Bool.eqb on_set _); [unfold d; f_equal; lia|]. destruct likely; f_equal; lia.
Qed.

Lemma flow_items before ls p : flow odd (lines input) before ls p -> lines input = before ++ ls ->
  (forall j x, nth_error p j = Some x -> near (instruction_count before + j) x) ->
  exists wss, items (mk_parser rt m input) before ls wss /\ blocks odd (instruction_count before) p (code_words ls wss).
Proof.
  assert (Nn := nl_of_lines input).
  induction 1 as [before|before l ls p B F IH|before n l ls p Id L F IH|before l x ls p F1 F IH]; intros Ei Nr.
  - exists []. split; constructor.
  - assert (R := role_blank l B). assert (C : instruction_count [l] = 0%nat) by (unfold instruction_count; cbn [filter]; unfold is_instruction; now rewrite R).
    destruct IH as (wss & I1 & I2); [rewrite Ei, <- app_assoc; reflexivity|intros j x; rewrite instruction_count_app, C, Nat.add_0_r; apply Nr|].
    exists ([] :: wss). split; [constructor; [now apply it_blank|exact I1]|]. rewrite instruction_count_app, C, Nat.add_0_r in I2.
    unfold code_words. cbn [combine filter fst]. unfold is_instruction at 1. rewrite R. exact I2.
  - assert (R := role_label_line n l Id L). assert (C : instruction_count [l] = 0%nat) by (unfold instruction_count; cbn [filter]; unfold is_instruction; now rewrite R).
    destruct IH as (wss & I1 & I2); [rewrite Ei, <- app_assoc; reflexivity|intros j x; rewrite instruction_count_app, C, Nat.add_0_r; apply Nr|].
    exists ([] :: wss). split; [constructor; [now apply it_label with n|exact I1]|]. rewrite instruction_count_app, C, Nat.add_0_r in I2.
    unfold code_words. cbn [combine filter fst]. unfold is_instruction at 1. rewrite R. exact I2.
  - assert (N : no_nl l) by (apply (proj1 (Forall_forall _ _) Nn); rewrite Ei; apply in_or_app; right; now left).
    destruct (flow_line_in before l ls x Ei N F1) as (ws & L1 & B1); [specialize (Nr O x eq_refl); now rewrite Nat.add_0_r in Nr|].
    assert (R : role_of l = Instruction) by (destruct L1 as (Ne & Ec & _); now apply role_native).
    assert (C : instruction_count [l] = 1%nat) by (unfold instruction_count; cbn [filter]; unfold is_instruction; now rewrite R).
    destruct IH as (wss & I1 & I2); [rewrite Ei, <- app_assoc; reflexivity|intros j y Hj; rewrite instruction_count_app, C, <- Nat.add_assoc; apply (Nr (S j) y Hj)|].
    exists (ws :: wss). split; [constructor; [now apply it_code|exact I1]|]. rewrite instruction_count_app, C, Nat.add_1_r in I2.
    unfold code_words. cbn [combine filter fst]. unfold is_instruction at 1. rewrite R. cbn [map snd]. constructor; [exact B1|exact I2].
Qed.

Theorem flow_follows p : distinct_labels (lines input) -> flow odd (lines input) [] (lines input) p -> well_branched p ->
  exists out, assemble rt m input = Ok out /\ List.concat (words_of out) = get_bytes out
    /\ forall n st, well st -> exists c, steps p n (Here 0 1 st) c /\ machine_follows odd p (words_of out) st n c.
Proof.
  intros D F Wb. destruct (flow_items [] (lines input) p F eq_refl) as (wss & I1 & I2).
  { intros j [one M|n likely sc c k] Hj; [exact Logic.I|]. destruct (Wb j n likely sc c k Hj) as (_ & _ & Nr & _). exact Nr. }
  destruct (items_accepted rt m input wss I1 D) as (out & A & Wo & _). exists out. split; [exact A|]. split; [symmetry; apply get_bytes_words|].
  rewrite Wo. intros n st W. now apply blocks_follow.
Qed.
End Lines.
