(** * RunProofs: straight-line programs on the machine (proofs for C71). *)

From Coq Require Import Lia.
From Verif Require Import Lib SpecIsa StrLemmas OperandProofs NativeProofs LineProofs TextProofs ScanProofs ProgProofs AsmProofs SpecMachine MachineProofs ExecProofs
  PseudoProofs CodingProofs SpecText SpecProgram SpecPseudo SpecAccept InsProofs PropsPseudo PropsLabels SpecRun.

(** ** Running code inside code *)

Definition shifted (p : Z) (c : status) : status := match c with At pc npc st => At (pc + p) (npc + p) st | _ => c end.
Lemma cycle_inside odd pre ws post c : cycle odd ws c <> Lost ->
  cycle odd (pre ++ ws ++ post) (shifted (Z.of_nat (List.length pre)) c) = shifted (Z.of_nat (List.length pre)) (cycle odd ws c).
Proof.
  intros H. destruct c as [pc npc st|x st|]; [|reflexivity|exfalso; apply H; reflexivity]. cbn [shifted].
  assert (P : (pc <? 0) = false) by (destruct (pc <? 0) eqn:P; [exfalso; apply H; unfold cycle; now rewrite P|reflexivity]).
  destruct (nth_error ws (Z.to_nat pc)) as [w|] eqn:N; [|exfalso; apply H; unfold cycle; now rewrite P, N]. apply Z.ltb_ge in P.
  rewrite (cycle_at odd ws pc npc st w P N). rewrite (cycle_at odd _ _ _ _ w); [|lia|].
  - destruct (exec odd w st) as [st'|[] [] off|x|]; cbn [shifted]; try reflexivity; f_equal; lia.
  - replace (Z.to_nat (pc + Z.of_nat (List.length pre))) with (List.length pre + Z.to_nat pc)%nat by lia.
    rewrite nth_error_app2 by lia. replace (List.length pre + Z.to_nat pc - List.length pre)%nat with (Z.to_nat pc) by lia.
    rewrite nth_error_app1; [exact N|]. apply nth_error_Some. congruence.
Qed.
Lemma cycles_inside odd pre ws post n : forall c, cycles odd n ws c <> Lost ->
  cycles odd n (pre ++ ws ++ post) (shifted (Z.of_nat (List.length pre)) c) = shifted (Z.of_nat (List.length pre)) (cycles odd n ws c).
Proof.
  induction n as [|n IH]; intros c H; [reflexivity|]. cbn [cycles] in *.
  rewrite cycle_inside; [now apply IH|]. intros E. rewrite E, cycles_lost in H. congruence.
Qed.

Lemma finishes_app odd a b st st1 st2 : finishes odd a st st1 -> finishes odd b st1 st2 -> finishes odd (a ++ b) st st2.
Proof.
  intros (n & A) (k & B). exists (n + k)%nat. rewrite cycles_add.
  assert (A' := cycles_inside odd [] a b n (At 0 1 st)). rewrite A in A'. cbn [List.length app shifted] in A'. change (Z.of_nat 0) with 0 in A'. rewrite !Z.add_0_r in A'.
  rewrite A' by discriminate.
  assert (B' := cycles_inside odd a b [] k (At 0 1 st1)). rewrite B in B'. cbn [shifted] in B'. rewrite app_nil_r in B'.
  replace (Z.of_nat (List.length a)) with (0 + Z.of_nat (List.length a)) at 1 by lia. rewrite (Z.add_comm (Z.of_nat (List.length a)) 1).
  rewrite B' by discriminate. rewrite app_length, Nat2Z.inj_add. f_equal; lia.
Qed.
Lemma raises_here odd a b st x : raises odd a st x -> raises odd (a ++ b) st x.
Proof.
  intros (n & st' & A). exists n, st'. assert (A' := cycles_inside odd [] a b n (At 0 1 st)). rewrite A in A'. cbn [List.length app shifted] in A'.
  change (Z.of_nat 0) with 0 in A'. rewrite !Z.add_0_r in A'. apply A'. discriminate.
Qed.
Lemma raises_later odd a b st st1 x : finishes odd a st st1 -> raises odd b st1 x -> raises odd (a ++ b) st x.
Proof.
  intros (n & A) (k & st' & B). exists (n + k)%nat, st'. rewrite cycles_add.
  assert (A' := cycles_inside odd [] a b n (At 0 1 st)). rewrite A in A'. cbn [List.length app shifted] in A'. change (Z.of_nat 0) with 0 in A'. rewrite !Z.add_0_r in A'.
  rewrite A' by discriminate.
  assert (B' := cycles_inside odd a b [] k (At 0 1 st1)). rewrite B in B'. cbn [shifted] in B'. rewrite app_nil_r in B'.
  replace (Z.of_nat (List.length a)) with (0 + Z.of_nat (List.length a)) at 1 by lia. rewrite (Z.add_comm (Z.of_nat (List.length a)) 1).
  apply B'. discriminate.
Qed.

(** ** Registers stay 64 bits wide *)

Section Well.
Variable odd : Z -> Z.
Hypothesis Od : forall z, 0 <= odd z < 2 ^ 64.

Lemma well_write st r v : well st -> 0 <= v < 2 ^ 64 -> well (write st r v).
Proof.
  intros (A & B & C) V. split; [|split; [exact B|exact C]]. intros x. rewrite value_write. destruct (x =? 0); [lia|]. destruct (x =? r); [exact V|apply A].
Qed.
Lemma well_hilo st h l : well st -> 0 <= h < 2 ^ 64 -> 0 <= l < 2 ^ 64 -> well (write_hilo st h l).
Proof. intros (A & B & C) H L. split; [|split; [exact H|exact L]]. intros x. rewrite value_hilo. apply A. Qed.
Lemma bit_range b : 0 <= bit b < 2 ^ 64. Proof. destruct b; cbn; lia. Qed.
Lemma land_range a b : 0 <= a < 2 ^ 64 -> 0 <= b < 2 ^ 64 -> 0 <= Z.land a b < 2 ^ 64.
Proof.
  intros A B. assert (P : 0 <= Z.land a b) by (apply Z.land_nonneg; lia). split; [exact P|].
  destruct (Z.eq_dec (Z.land a b) 0) as [->|N]; [lia|]. apply Z.log2_lt_pow2; [lia|]. eapply Z.le_lt_trans; [apply Z.log2_land; lia|].
  apply Z.min_lt_iff. left. destruct (Z.eq_dec a 0) as [->|Na]; [rewrite Z.land_0_l in N; lia|]. apply Z.log2_lt_pow2; lia.
Qed.
Lemma lor_range a b : 0 <= a < 2 ^ 64 -> 0 <= b < 2 ^ 64 -> 0 <= Z.lor a b < 2 ^ 64.
Proof.
  intros A B. assert (P : 0 <= Z.lor a b) by (apply Z.lor_nonneg; lia). split; [exact P|].
  destruct (Z.eq_dec (Z.lor a b) 0) as [->|N]; [lia|]. apply Z.log2_lt_pow2; [lia|]. rewrite Z.log2_lor by lia.
  apply Z.max_lub_lt.
  - destruct (Z.eq_dec a 0) as [->|Na]; [cbn; lia|]. apply Z.log2_lt_pow2; lia.
  - destruct (Z.eq_dec b 0) as [->|Nb]; [cbn; lia|]. apply Z.log2_lt_pow2; lia.
Qed.
Lemma div_range a b : 0 <= a < 2 ^ 64 -> 0 < b -> 0 <= a / b < 2 ^ 64.
Proof. intros A B. split; [apply Z.div_pos; lia|]. apply Z.div_lt_upper_bound; nia. Qed.

Lemma exec_well w st st' : well st -> exec odd w st = Next st' -> well st'.
Proof.
  intros W E. assert (W' := W). destruct W as (V & H & L). unfold exec in E. destruct (field w 26 6 =? 0).
  - unfold exec_special in E. set (a := value st (field w 21 5)) in *. set (b := value st (field w 16 5)) in *.
    assert (A : 0 <= a < 2 ^ 64) by apply V. assert (B : 0 <= b < 2 ^ 64) by apply V. clearbody a b.
    assert (S : 0 <= field w 6 5 < 32) by (apply Z.mod_pos_bound; lia). generalize dependent (field w 6 5). intros sa E S.
    assert (M : 0 <= a mod 64) by (apply Z.mod_pos_bound; lia).
    unfold trap_if, checked in E.
    destruct (field w 0 6) as [|p|p]; [|repeat (destruct p as [p|p|]; try discriminate E)|discriminate E];
    repeat lazymatch type of E with (if ?c then _ else _) = _ => destruct c eqn:? end;
    try discriminate E; injection E as <-; try exact W';
    try (apply well_write; [exact W'|]); try (apply well_hilo; [exact W'| |]);
    try apply word32_range; try apply low64_range; try apply bit_range; try apply Od; try exact A; try exact B; try exact H; try exact L;
    try (apply land_range; assumption); try (apply lor_range; assumption); try (apply lxor_range; [lia|assumption|assumption]);
    try (apply div_range; [assumption|]); try (apply Z.pow_pos_nonneg; lia).
    + assert (0 <= a mod b < b) by (apply Z.mod_pos_bound; lia). lia.
    + lia.
  - unfold exec_normal in E. set (a := value st (field w 21 5)) in *. set (b := value st (field w 16 5)) in *.
    assert (A : 0 <= a < 2 ^ 64) by apply V. assert (B : 0 <= b < 2 ^ 64) by apply V. clearbody a b.
    assert (S : 0 <= field w 0 16 < 65536) by (apply Z.mod_pos_bound; lia). generalize dependent (field w 0 16). intros i E S.
    unfold checked, trap_if in E. generalize dependent (field w 16 5). intros r E.
    destruct (field w 26 6) as [|p|p]; [discriminate E|repeat (destruct p as [p|p|]; try discriminate E)|discriminate E];
    repeat (match type of E with match r with _ => _ end = _ => destruct r as [|q|q]; [|repeat (destruct q as [q|q|]; try discriminate E)|discriminate E] end);
    repeat lazymatch type of E with (if ?c then _ else _) = _ => destruct c eqn:? end;
    try discriminate E; injection E as <-; try exact W'; try (apply well_write; [exact W'|]);
    try apply word32_range; try apply low64_range; try apply bit_range;
    try (apply land_range; [assumption|lia]); try (apply lor_range; [assumption|lia]); try (apply lxor_range; [lia|assumption|lia]).
Qed.

Definition status_well (c : status) : Prop := match c with At _ _ st => well st | _ => True end.
Lemma cycle_well code c : status_well c -> status_well (cycle odd code c).
Proof.
  destruct c as [pc npc st|x st|]; cbn [status_well]; intros W; try exact Logic.I. unfold cycle.
  destruct (pc <? 0); [exact Logic.I|]. destruct (nth_error code (Z.to_nat pc)) as [w|]; [|exact Logic.I].
  destruct (exec odd w st) as [st'|[] [] off|x|] eqn:E; cbn [status_well]; try exact Logic.I; try exact W. eapply exec_well; eauto.
Qed.
Lemma finishes_well ws st st' : well st -> finishes odd ws st st' -> well st'.
Proof.
  intros W (n & E). assert (C : forall n c, status_well c -> status_well (cycles odd n ws c)).
  { intros k. induction k as [|k IH]; intros c Wc; [exact Wc|]. cbn [cycles]. apply IH, cycle_well, Wc. }
  specialize (C n (At 0 1 st) W). rewrite E in C. exact C.
Qed.
End Well.

(** ** Instructions of the processor *)

Definition performs (odd : Z -> Z) (w : Z) (st : state) (e : ending) : Prop :=
  match e with Goes st' => exec odd w st = Next st' | Stops x => exec odd w st = Raise x | Unspecified => False end.

Lemma only_format n f g : forallb (fun h => implb (str_eqb (f_name h) n) (format_eqb h g)) (isa ++ idioms) = true ->
  In f (isa ++ idioms) -> f_name f = n -> f = g.
Proof.
  intros K I E. apply (proj1 (forallb_forall _ _) K) in I. cbv beta in I. rewrite E, (proj2 (str_eqb_spec n n) eq_refl) in I. now apply format_eqb_true.
Qed.

Lemma sum_word a b : word32 (signed32 a + signed32 b) = word32 (a + b).
Proof. apply word32_cong. rewrite Z.add_mod, !signed32_mod, <- Z.add_mod; [reflexivity|lia|lia]. Qed.
Lemma dif_word a b : word32 (signed32 a - signed32 b) = word32 (a - b).
Proof. apply word32_cong. rewrite Zminus_mod, !signed32_mod, <- Zminus_mod. reflexivity. Qed.
Lemma sum_word_i a n : word32 (signed32 a + n) = word32 (a + n).
Proof. apply word32_cong. rewrite Z.add_mod, signed32_mod, <- Z.add_mod; [reflexivity|lia|lia]. Qed.
Lemma sum_long a b : low64 (signed64 a + signed64 b) = low64 (a + b).
Proof. apply low64_cong. rewrite Z.add_mod, !signed64_mod, <- Z.add_mod; [reflexivity|lia|lia]. Qed.
Lemma dif_long a b : low64 (signed64 a - signed64 b) = low64 (a - b).
Proof. apply low64_cong. rewrite Zminus_mod, !signed64_mod, <- Zminus_mod. reflexivity. Qed.
Lemma sum_long_i a n : low64 (signed64 a + n) = low64 (a + n).
Proof. apply low64_cong. rewrite Z.add_mod, signed64_mod, <- Z.add_mod; [reflexivity|lia|lia]. Qed.
Lemma word_exact v : - 2 ^ 31 <= v < 2 ^ 31 -> word32 v = low64 v.
Proof. intros H. unfold word32. now rewrite signed32_small. Qed.

(** What [checked] and [unless_overflow] say. *)
Lemma checked_word odd w st r v u : exec odd w st = checked 32 v (Next (write st r u)) -> word32 v = u -> performs odd w st (unless_overflow 32 v st r).
Proof.
  intros E U. unfold unless_overflow, checked in *. change (32 - 1) with 31 in *. destruct (- 2 ^ 31 <=? v) eqn:A; [|exact E]. destruct (v <? 2 ^ 31) eqn:B; [|exact E].
  cbn [andb] in *. cbn [performs]. rewrite E, <- U, word_exact by lia. reflexivity.
Qed.
Lemma checked_long odd w st r v u : exec odd w st = checked 64 v (Next (write st r u)) -> low64 v = u -> performs odd w st (unless_overflow 64 v st r).
Proof.
  intros E U. unfold unless_overflow, checked in *. change (64 - 1) with 63 in *. destruct (- 2 ^ 63 <=? v) eqn:A; [|exact E]. destruct (v <? 2 ^ 63) eqn:B; [|exact E].
  cbn [andb] in *. cbn [performs]. rewrite E, <- U. reflexivity.
Qed.
Lemma low64_lnot v : 0 <= v < 2 ^ 64 -> low64 (Z.lnot v) = 2 ^ 64 - 1 - v.
Proof. intros V. unfold low64, Z.lnot. symmetry. apply Z.mod_unique with (q := -1); lia. Qed.
Lemma signed16_back n : -32768 <= n < 32768 -> signed16 (n mod 65536) = n.
Proof. apply signed16_mod. Qed.
Lemma low32_zero b : (signed32 b =? 0) = (low32 b =? 0).
Proof.
  assert (L := low32_range b). unfold signed32. destruct (low32 b <? 2 ^ 31) eqn:E; [reflexivity|]. apply Z.ltb_ge in E.
  transitivity false; [apply Z.eqb_neq; lia|symmetry; apply Z.eqb_neq; lia].
Qed.

Lemma trap_performs odd w st c : exec odd w st = trap_if c 0 st -> performs odd w st (if c then Stops (TrapCode 0) else Goes st).
Proof. intros E. destruct c; exact E. Qed.

Lemma w_dst fn name d s t : word (special fn name [Rd; Rs; Rt]) [OReg d; OReg s; OReg t] = rword s t d 0 fn.
Proof. unfold word, rword. cbn -[Z.pow Z.mul Z.add]. lia. Qed.
Lemma w_dts fn name d s t : word (special fn name [Rd; Rt; Rs]) [OReg d; OReg t; OReg s] = rword s t d 0 fn.
Proof. unfold word, rword. cbn -[Z.pow Z.mul Z.add]. lia. Qed.
Lemma w_dta fn name d t a : word (special fn name [Rd; Rt; Shamt]) [OReg d; OReg t; OInt a] = rword 0 t d a fn.
Proof. unfold word, rword. cbn -[Z.pow Z.mul Z.add]. lia. Qed.
Lemma w_d fn name d : word (special fn name [Rd]) [OReg d] = rword 0 0 d 0 fn.
Proof. unfold word, rword. cbn -[Z.pow Z.mul Z.add]. lia. Qed.
Lemma w_s fn name s : word (special fn name [Rs]) [OReg s] = rword s 0 0 0 fn.
Proof. unfold word, rword. cbn -[Z.pow Z.mul Z.add]. lia. Qed.
Lemma w_st fn name s t : word (special fn name [Rs; Rt]) [OReg s; OReg t] = rword s t 0 0 fn.
Proof. unfold word, rword. cbn -[Z.pow Z.mul Z.add]. lia. Qed.
Lemma w_tsi op name t s n : word (normal op name [Rt; Rs; Simm]) [OReg t; OReg s; OInt n] = iword op s t (n mod 65536).
Proof. unfold word, iword. cbn -[Z.pow Z.mul Z.add Z.modulo]. lia. Qed.
Lemma w_tsu op name t s n : word (normal op name [Rt; Rs; Uimm]) [OReg t; OReg s; OInt n] = iword op s t n.
Proof. unfold word, iword. cbn -[Z.pow Z.mul Z.add]. lia. Qed.
Lemma w_tu op name t n : word (normal op name [Rt; Uimm]) [OReg t; OInt n] = iword op 0 t n.
Proof. unfold word, iword. cbn -[Z.pow Z.mul Z.add]. lia. Qed.
Lemma w_rsi k name s n : word (regimm k name [Rs; Simm]) [OReg s; OInt n] = iword 1 s k (n mod 65536).
Proof. unfold word, iword. cbn -[Z.pow Z.mul Z.add Z.modulo]. lia. Qed.

Ltac opsof F := repeat (match goal with
  | H : Forall2 fits (_ :: _) _ |- _ => let o := fresh "o" in let os := fresh "os" in let K := fresh "K" in inversion H as [|? o ? os K]; subst; clear H
  | H : Forall2 fits [] _ |- _ => inversion H; subst; clear H
  end); repeat (match goal with K : fits _ ?o |- _ => is_var o; destruct o; cbn [fits Rd Rs Rt] in K; try (exfalso; exact K) end).

Ltac spec_word W := rewrite W, exec_rword by lia; cbv beta iota zeta delta [exec_special].
Ltac norm_word W := rewrite W, exec_iword by (try lia; apply Z.mod_pos_bound; lia); cbv beta iota zeta delta [exec_normal].

Lemma native_performs odd f act os st : In f (isa ++ idioms) -> In (f_name f, act) (computing odd) -> Forall2 fits (f_ops f) os -> well st ->
  exists e, act os st = Some e /\ performs odd (word f os) st e.
Proof.
  intros If I F W. unfold computing in I. cbn [In] in I.
  repeat (lazymatch type of I with _ \/ _ => destruct I as [I|I] end); [..|exfalso; exact I];
  apply pair_inv in I; destruct I as [En <-]; symmetry in En.
  - (* addu *) apply (only_format #"addu" _ (special 33 "addu" [Rd; Rs; Rt]) ltac:(vm_compute; reflexivity) If) in En. subst f. cbn [f_ops special normal] in F. opsof F. eexists. split; [reflexivity|].
    cbn [performs]. spec_word w_dst. reflexivity.
  - (* subu *) apply (only_format #"subu" _ (special 35 "subu" [Rd; Rs; Rt]) ltac:(vm_compute; reflexivity) If) in En. subst f. cbn [f_ops special normal] in F. opsof F. eexists. split; [reflexivity|].
    cbn [performs]. spec_word w_dst. reflexivity.
  - (* daddu *) apply (only_format #"daddu" _ (special 45 "daddu" [Rd; Rs; Rt]) ltac:(vm_compute; reflexivity) If) in En. subst f. cbn [f_ops special normal] in F. opsof F. eexists. split; [reflexivity|].
    cbn [performs]. spec_word w_dst. reflexivity.
  - (* dsubu *) apply (only_format #"dsubu" _ (special 47 "dsubu" [Rd; Rs; Rt]) ltac:(vm_compute; reflexivity) If) in En. subst f. cbn [f_ops special normal] in F. opsof F. eexists. split; [reflexivity|].
    cbn [performs]. spec_word w_dst. reflexivity.
  - (* add *) apply (only_format #"add" _ (special 32 "add" [Rd; Rs; Rt]) ltac:(vm_compute; reflexivity) If) in En. subst f. cbn [f_ops special normal] in F. opsof F. eexists. split; [reflexivity|].
    eapply checked_word; [spec_word w_dst; reflexivity|apply sum_word].
  - (* sub *) apply (only_format #"sub" _ (special 34 "sub" [Rd; Rs; Rt]) ltac:(vm_compute; reflexivity) If) in En. subst f. cbn [f_ops special normal] in F. opsof F. eexists. split; [reflexivity|].
    eapply checked_word; [spec_word w_dst; reflexivity|apply dif_word].
  - (* dadd *) apply (only_format #"dadd" _ (special 44 "dadd" [Rd; Rs; Rt]) ltac:(vm_compute; reflexivity) If) in En. subst f. cbn [f_ops special normal] in F. opsof F. eexists. split; [reflexivity|].
    eapply checked_long; [spec_word w_dst; reflexivity|apply sum_long].
  - (* dsub *) apply (only_format #"dsub" _ (special 46 "dsub" [Rd; Rs; Rt]) ltac:(vm_compute; reflexivity) If) in En. subst f. cbn [f_ops special normal] in F. opsof F. eexists. split; [reflexivity|].
    eapply checked_long; [spec_word w_dst; reflexivity|apply dif_long].
  - (* and *) apply (only_format #"and" _ (special 36 "and" [Rd; Rs; Rt]) ltac:(vm_compute; reflexivity) If) in En. subst f. cbn [f_ops special normal] in F. opsof F. eexists. split; [reflexivity|].
    cbn [performs]. spec_word w_dst. reflexivity.
  - (* or *) apply (only_format #"or" _ (special 37 "or" [Rd; Rs; Rt]) ltac:(vm_compute; reflexivity) If) in En. subst f. cbn [f_ops special normal] in F. opsof F. eexists. split; [reflexivity|].
    cbn [performs]. spec_word w_dst. reflexivity.
  - (* xor *) apply (only_format #"xor" _ (special 38 "xor" [Rd; Rs; Rt]) ltac:(vm_compute; reflexivity) If) in En. subst f. cbn [f_ops special normal] in F. opsof F. eexists. split; [reflexivity|].
    cbn [performs]. spec_word w_dst. reflexivity.
  - (* nor *) apply (only_format #"nor" _ (special 39 "nor" [Rd; Rs; Rt]) ltac:(vm_compute; reflexivity) If) in En. subst f. cbn [f_ops special normal] in F. opsof F. eexists. split; [reflexivity|].
    cbn [performs]. spec_word w_dst. rewrite low64_lnot by (apply lor_range; apply W). reflexivity.
  - (* slt *) apply (only_format #"slt" _ (special 42 "slt" [Rd; Rs; Rt]) ltac:(vm_compute; reflexivity) If) in En. subst f. cbn [f_ops special normal] in F. opsof F. eexists. split; [reflexivity|].
    cbn [performs]. spec_word w_dst. reflexivity.
  - (* sltu *) apply (only_format #"sltu" _ (special 43 "sltu" [Rd; Rs; Rt]) ltac:(vm_compute; reflexivity) If) in En. subst f. cbn [f_ops special normal] in F. opsof F. eexists. split; [reflexivity|].
    cbn [performs]. spec_word w_dst. reflexivity.
  - (* addiu *) apply (only_format #"addiu" _ (normal 9 "addiu" [Rt; Rs; Simm]) ltac:(vm_compute; reflexivity) If) in En. subst f. cbn [f_ops special normal] in F. opsof F. eexists. split; [reflexivity|].
    cbn [performs]. norm_word w_tsi. rewrite signed16_back by lia. reflexivity.
  - (* daddiu *) apply (only_format #"daddiu" _ (normal 25 "daddiu" [Rt; Rs; Simm]) ltac:(vm_compute; reflexivity) If) in En. subst f. cbn [f_ops special normal] in F. opsof F. eexists. split; [reflexivity|].
    cbn [performs]. norm_word w_tsi. rewrite signed16_back by lia. reflexivity.
  - (* addi *) apply (only_format #"addi" _ (normal 8 "addi" [Rt; Rs; Simm]) ltac:(vm_compute; reflexivity) If) in En. subst f. cbn [f_ops special normal] in F. opsof F. eexists. split; [reflexivity|].
    eapply checked_word; [norm_word w_tsi; rewrite signed16_back by lia; reflexivity|apply sum_word_i].
  - (* daddi *) apply (only_format #"daddi" _ (normal 24 "daddi" [Rt; Rs; Simm]) ltac:(vm_compute; reflexivity) If) in En. subst f. cbn [f_ops special normal] in F. opsof F. eexists. split; [reflexivity|].
    eapply checked_long; [norm_word w_tsi; rewrite signed16_back by lia; reflexivity|apply sum_long_i].
  - (* slti *) apply (only_format #"slti" _ (normal 10 "slti" [Rt; Rs; Simm]) ltac:(vm_compute; reflexivity) If) in En. subst f. cbn [f_ops special normal] in F. opsof F. eexists. split; [reflexivity|].
    cbn [performs]. norm_word w_tsi. rewrite signed16_back by lia. reflexivity.
  - (* sltiu *) apply (only_format #"sltiu" _ (normal 11 "sltiu" [Rt; Rs; Simm]) ltac:(vm_compute; reflexivity) If) in En. subst f. cbn [f_ops special normal] in F. opsof F. eexists. split; [reflexivity|].
    cbn [performs]. norm_word w_tsi. rewrite signed16_back by lia. reflexivity.
  - (* andi *) apply (only_format #"andi" _ (normal 12 "andi" [Rt; Rs; Uimm]) ltac:(vm_compute; reflexivity) If) in En. subst f. cbn [f_ops special normal] in F. opsof F. eexists. split; [reflexivity|].
    cbn [performs]. norm_word w_tsu. reflexivity.
  - (* ori *) apply (only_format #"ori" _ (normal 13 "ori" [Rt; Rs; Uimm]) ltac:(vm_compute; reflexivity) If) in En. subst f. cbn [f_ops special normal] in F. opsof F. eexists. split; [reflexivity|].
    cbn [performs]. norm_word w_tsu. reflexivity.
  - (* xori *) apply (only_format #"xori" _ (normal 14 "xori" [Rt; Rs; Uimm]) ltac:(vm_compute; reflexivity) If) in En. subst f. cbn [f_ops special normal] in F. opsof F. eexists. split; [reflexivity|].
    cbn [performs]. norm_word w_tsu. reflexivity.
  - (* lui *) apply (only_format #"lui" _ (normal 15 "lui" [Rt; Uimm]) ltac:(vm_compute; reflexivity) If) in En. subst f. cbn [f_ops special normal] in F. opsof F. eexists. split; [reflexivity|].
    cbn [performs]. norm_word w_tu. reflexivity.
  - (* sll *) apply (only_format #"sll" _ (special 0 "sll" [Rd; Rt; Shamt]) ltac:(vm_compute; reflexivity) If) in En. subst f. cbn [f_ops special normal] in F. opsof F. eexists. split; [reflexivity|].
    cbn [performs]. spec_word w_dta. reflexivity.
  - (* srl *) apply (only_format #"srl" _ (special 2 "srl" [Rd; Rt; Shamt]) ltac:(vm_compute; reflexivity) If) in En. subst f. cbn [f_ops special normal] in F. opsof F. eexists. split; [reflexivity|].
    cbn [performs]. spec_word w_dta. reflexivity.
  - (* sra *) apply (only_format #"sra" _ (special 3 "sra" [Rd; Rt; Shamt]) ltac:(vm_compute; reflexivity) If) in En. subst f. cbn [f_ops special normal] in F. opsof F. eexists. split; [reflexivity|].
    cbn [performs]. spec_word w_dta. reflexivity.
  - (* dsll *) apply (only_format #"dsll" _ (special 56 "dsll" [Rd; Rt; Shamt]) ltac:(vm_compute; reflexivity) If) in En. subst f. cbn [f_ops special normal] in F. opsof F. eexists. split; [reflexivity|].
    cbn [performs]. spec_word w_dta. reflexivity.
  - (* dsrl *) apply (only_format #"dsrl" _ (special 58 "dsrl" [Rd; Rt; Shamt]) ltac:(vm_compute; reflexivity) If) in En. subst f. cbn [f_ops special normal] in F. opsof F. eexists. split; [reflexivity|].
    cbn [performs]. spec_word w_dta. reflexivity.
  - (* dsra *) apply (only_format #"dsra" _ (special 59 "dsra" [Rd; Rt; Shamt]) ltac:(vm_compute; reflexivity) If) in En. subst f. cbn [f_ops special normal] in F. opsof F. eexists. split; [reflexivity|].
    cbn [performs]. spec_word w_dta. reflexivity.
  - (* dsll32 *) apply (only_format #"dsll32" _ (special 60 "dsll32" [Rd; Rt; Shamt]) ltac:(vm_compute; reflexivity) If) in En. subst f. cbn [f_ops special normal] in F. opsof F. eexists. split; [reflexivity|].
    cbn [performs]. spec_word w_dta. reflexivity.
  - (* dsrl32 *) apply (only_format #"dsrl32" _ (special 62 "dsrl32" [Rd; Rt; Shamt]) ltac:(vm_compute; reflexivity) If) in En. subst f. cbn [f_ops special normal] in F. opsof F. eexists. split; [reflexivity|].
    cbn [performs]. spec_word w_dta. reflexivity.
  - (* dsra32 *) apply (only_format #"dsra32" _ (special 63 "dsra32" [Rd; Rt; Shamt]) ltac:(vm_compute; reflexivity) If) in En. subst f. cbn [f_ops special normal] in F. opsof F. eexists. split; [reflexivity|].
    cbn [performs]. spec_word w_dta. reflexivity.
  - (* sllv *) apply (only_format #"sllv" _ (special 4 "sllv" [Rd; Rt; Rs]) ltac:(vm_compute; reflexivity) If) in En. subst f. cbn [f_ops special normal] in F. opsof F. eexists. split; [reflexivity|].
    cbn [performs]. spec_word w_dts. reflexivity.
  - (* srlv *) apply (only_format #"srlv" _ (special 6 "srlv" [Rd; Rt; Rs]) ltac:(vm_compute; reflexivity) If) in En. subst f. cbn [f_ops special normal] in F. opsof F. eexists. split; [reflexivity|].
    cbn [performs]. spec_word w_dts. reflexivity.
  - (* srav *) apply (only_format #"srav" _ (special 7 "srav" [Rd; Rt; Rs]) ltac:(vm_compute; reflexivity) If) in En. subst f. cbn [f_ops special normal] in F. opsof F. eexists. split; [reflexivity|].
    cbn [performs]. spec_word w_dts. reflexivity.
  - (* dsllv *) apply (only_format #"dsllv" _ (special 20 "dsllv" [Rd; Rt; Rs]) ltac:(vm_compute; reflexivity) If) in En. subst f. cbn [f_ops special normal] in F. opsof F. eexists. split; [reflexivity|].
    cbn [performs]. spec_word w_dts. reflexivity.
  - (* dsrlv *) apply (only_format #"dsrlv" _ (special 22 "dsrlv" [Rd; Rt; Rs]) ltac:(vm_compute; reflexivity) If) in En. subst f. cbn [f_ops special normal] in F. opsof F. eexists. split; [reflexivity|].
    cbn [performs]. spec_word w_dts. reflexivity.
  - (* dsrav *) apply (only_format #"dsrav" _ (special 23 "dsrav" [Rd; Rt; Rs]) ltac:(vm_compute; reflexivity) If) in En. subst f. cbn [f_ops special normal] in F. opsof F. eexists. split; [reflexivity|].
    cbn [performs]. spec_word w_dts. reflexivity.
  - (* mult *) apply (only_format #"mult" _ (special 24 "mult" [Rs; Rt]) ltac:(vm_compute; reflexivity) If) in En. subst f. cbn [f_ops special normal] in F. opsof F. eexists. split; [reflexivity|].
    cbn [performs]. spec_word w_st. reflexivity.
  - (* multu *) apply (only_format #"multu" _ (special 25 "multu" [Rs; Rt]) ltac:(vm_compute; reflexivity) If) in En. subst f. cbn [f_ops special normal] in F. opsof F. eexists. split; [reflexivity|].
    cbn [performs]. spec_word w_st. reflexivity.
  - (* dmult *) apply (only_format #"dmult" _ (special 28 "dmult" [Rs; Rt]) ltac:(vm_compute; reflexivity) If) in En. subst f. cbn [f_ops special normal] in F. opsof F. eexists. split; [reflexivity|].
    cbn [performs]. spec_word w_st. reflexivity.
  - (* dmultu *) apply (only_format #"dmultu" _ (special 29 "dmultu" [Rs; Rt]) ltac:(vm_compute; reflexivity) If) in En. subst f. cbn [f_ops special normal] in F. opsof F. eexists. split; [reflexivity|].
    cbn [performs]. spec_word w_st. reflexivity.
  - (* div *) apply (only_format #"div" _ (special 26 "div" [Rs; Rt]) ltac:(vm_compute; reflexivity) If) in En. subst f. cbn [f_ops special normal] in F. opsof F. eexists. split; [reflexivity|].
    cbn [performs]. spec_word w_st. rewrite low32_zero. unfold divided. destruct (_ =? 0); reflexivity.
  - (* divu *) apply (only_format #"divu" _ (special 27 "divu" [Rs; Rt]) ltac:(vm_compute; reflexivity) If) in En. subst f. cbn [f_ops special normal] in F. opsof F. eexists. split; [reflexivity|].
    cbn [performs]. spec_word w_st.  unfold divided. destruct (_ =? 0); reflexivity.
  - (* ddiv *) apply (only_format #"ddiv" _ (special 30 "ddiv" [Rs; Rt]) ltac:(vm_compute; reflexivity) If) in En. subst f. cbn [f_ops special normal] in F. opsof F. eexists. split; [reflexivity|].
    cbn [performs]. spec_word w_st.  unfold divided. destruct (_ =? 0); reflexivity.
  - (* ddivu *) apply (only_format #"ddivu" _ (special 31 "ddivu" [Rs; Rt]) ltac:(vm_compute; reflexivity) If) in En. subst f. cbn [f_ops special normal] in F. opsof F. eexists. split; [reflexivity|].
    cbn [performs]. spec_word w_st.  unfold divided. destruct (_ =? 0); reflexivity.
  - (* mfhi *) apply (only_format #"mfhi" _ (special 16 "mfhi" [Rd]) ltac:(vm_compute; reflexivity) If) in En. subst f. cbn [f_ops special normal] in F. opsof F. eexists. split; [reflexivity|].
    cbn [performs]. spec_word w_d. reflexivity.
  - (* mflo *) apply (only_format #"mflo" _ (special 18 "mflo" [Rd]) ltac:(vm_compute; reflexivity) If) in En. subst f. cbn [f_ops special normal] in F. opsof F. eexists. split; [reflexivity|].
    cbn [performs]. spec_word w_d. reflexivity.
  - (* mthi *) apply (only_format #"mthi" _ (special 17 "mthi" [Rs]) ltac:(vm_compute; reflexivity) If) in En. subst f. cbn [f_ops special normal] in F. opsof F. eexists. split; [reflexivity|].
    cbn [performs]. spec_word w_s. reflexivity.
  - (* mtlo *) apply (only_format #"mtlo" _ (special 19 "mtlo" [Rs]) ltac:(vm_compute; reflexivity) If) in En. subst f. cbn [f_ops special normal] in F. opsof F. eexists. split; [reflexivity|].
    cbn [performs]. spec_word w_s. reflexivity.
  - (* tge *) apply (only_format #"tge" _ (special 48 "tge" [Rs; Rt]) ltac:(vm_compute; reflexivity) If) in En. subst f. cbn [f_ops special normal] in F. opsof F. eexists. split; [reflexivity|].
    apply trap_performs. rewrite Z.geb_leb. spec_word w_st. reflexivity.
  - (* tgeu *) apply (only_format #"tgeu" _ (special 49 "tgeu" [Rs; Rt]) ltac:(vm_compute; reflexivity) If) in En. subst f. cbn [f_ops special normal] in F. opsof F. eexists. split; [reflexivity|].
    apply trap_performs. rewrite Z.geb_leb. spec_word w_st. reflexivity.
  - (* tlt *) apply (only_format #"tlt" _ (special 50 "tlt" [Rs; Rt]) ltac:(vm_compute; reflexivity) If) in En. subst f. cbn [f_ops special normal] in F. opsof F. eexists. split; [reflexivity|].
    apply trap_performs.  spec_word w_st. reflexivity.
  - (* tltu *) apply (only_format #"tltu" _ (special 51 "tltu" [Rs; Rt]) ltac:(vm_compute; reflexivity) If) in En. subst f. cbn [f_ops special normal] in F. opsof F. eexists. split; [reflexivity|].
    apply trap_performs.  spec_word w_st. reflexivity.
  - (* teq *) apply (only_format #"teq" _ (special 52 "teq" [Rs; Rt]) ltac:(vm_compute; reflexivity) If) in En. subst f. cbn [f_ops special normal] in F. opsof F. eexists. split; [reflexivity|].
    apply trap_performs.  spec_word w_st. reflexivity.
  - (* tne *) apply (only_format #"tne" _ (special 54 "tne" [Rs; Rt]) ltac:(vm_compute; reflexivity) If) in En. subst f. cbn [f_ops special normal] in F. opsof F. eexists. split; [reflexivity|].
    apply trap_performs.  spec_word w_st. reflexivity.
  - (* tgei *) apply (only_format #"tgei" _ (regimm 8 "tgei" [Rs; Simm]) ltac:(vm_compute; reflexivity) If) in En. subst f. cbn [f_ops regimm] in F. opsof F. eexists. split; [reflexivity|].
    apply trap_performs. rewrite Z.geb_leb. norm_word w_rsi. rewrite signed16_back by lia. reflexivity.
  - (* tgeiu *) apply (only_format #"tgeiu" _ (regimm 9 "tgeiu" [Rs; Simm]) ltac:(vm_compute; reflexivity) If) in En. subst f. cbn [f_ops regimm] in F. opsof F. eexists. split; [reflexivity|].
    apply trap_performs. rewrite Z.geb_leb. norm_word w_rsi. rewrite signed16_back by lia. reflexivity.
  - (* tlti *) apply (only_format #"tlti" _ (regimm 10 "tlti" [Rs; Simm]) ltac:(vm_compute; reflexivity) If) in En. subst f. cbn [f_ops regimm] in F. opsof F. eexists. split; [reflexivity|].
    apply trap_performs.  norm_word w_rsi. rewrite signed16_back by lia. reflexivity.
  - (* tltiu *) apply (only_format #"tltiu" _ (regimm 11 "tltiu" [Rs; Simm]) ltac:(vm_compute; reflexivity) If) in En. subst f. cbn [f_ops regimm] in F. opsof F. eexists. split; [reflexivity|].
    apply trap_performs.  norm_word w_rsi. rewrite signed16_back by lia. reflexivity.
  - (* teqi *) apply (only_format #"teqi" _ (regimm 12 "teqi" [Rs; Simm]) ltac:(vm_compute; reflexivity) If) in En. subst f. cbn [f_ops regimm] in F. opsof F. eexists. split; [reflexivity|].
    apply trap_performs.  norm_word w_rsi. rewrite signed16_back by lia. reflexivity.
  - (* tnei *) apply (only_format #"tnei" _ (regimm 14 "tnei" [Rs; Simm]) ltac:(vm_compute; reflexivity) If) in En. subst f. cbn [f_ops regimm] in F. opsof F. eexists. split; [reflexivity|].
    apply trap_performs.  norm_word w_rsi. rewrite signed16_back by lia. reflexivity.
Qed.
