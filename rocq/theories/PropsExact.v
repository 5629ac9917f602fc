(** * PropsExact: the exact line of every word (C02) and exactly which words come back (C03). *)

From Coq Require Import Lia.
From Verif Require Import PropsDisasm PropsAsm RoundProofs RefProofs Lib SpecIsa ExactProofs RoundExact BranchBack SpecProgram SpecExact.

(** C02: what a disassembly shows for every list of words, with no exception: every word's line is
    [shown_text], a function of the word and the base address alone. *)
Theorem C02_every_word oc base m ws : is_word base -> Forall is_word ws -> m = set_debug (set_base base m_new) ->
  disassemble oc m ws = Ok (map (shown_text base) ws).
Proof. apply shown_listing. Qed.

(** Cases: an ordinary word, the immediate 0x7fff, a reserved word shown as an operation, an unassigned
    word, a register without a name. *)
Example C02_every_word_ordinary : shown_text 2147483648 0x24081234 = #"addiu $t0, $zero, 0x1234". Proof. vm_compute. reflexivity. Qed.
Example C02_every_word_largest : shown_text 2147483648 0x24087fff = #"addiu $t0, $zero, -0x7fff". Proof. vm_compute. reflexivity. Qed.
Example C02_every_word_reserved : read_word 0x40600001 = None /\ shown_text 2147483648 0x40600001 = #"tlbr". Proof. vm_compute. auto. Qed.
Example C02_every_word_unassigned : read_word 0x00000001 = None /\ shown_text 2147483648 0x00000001 = #".word 0x00000001". Proof. vm_compute. auto. Qed.
Example C02_every_word_unnamed : shown_text 2147483648 0x40083800 = #".word 0x40083800 # mfc0 $t0, 0x07". Proof. vm_compute. reflexivity. Qed.

(** C03, exactly: a disassembly with a base address from 0x8000 (or without branches) assembles to the
    words it was made from if and only if every word is one that [returns]. *)
Definition comes_back (oc : bool) (rt : runtime) (base : Z) (ws : list Z) : Prop :=
  exists ls out, disassemble oc (debug_at base) ws = Ok ls /\ assemble rt (set_base base m_new) (join [nl] ls) = Ok out /\ get_bytes out = ws.
Theorem C03_exact oc rt base ws : is_word base -> Forall is_word ws -> (32768 <= base \/ Forall (fun w => ~ branch_word w) ws) ->
  (comes_back oc rt base ws <-> Forall (returns base) ws).
Proof.
  intros B W Hb. split.
  - intros (ls & out & D & A & G). now apply (all_back oc rt base ws ls out).
  - intros R. assert (D := shown_listing oc base _ ws B W eq_refl). destruct (C03_reassembly_partial oc rt base ws _ B W R D) as (out & A & G).
    exists (map (shown_text base) ws), out. auto.
Qed.

(** So one word that does not return is enough; and the words before and after it do not matter. *)
Corollary C03_one_bad_word oc rt base ws1 w ws2 : is_word base -> Forall is_word (ws1 ++ w :: ws2) -> 32768 <= base -> ~ returns base w ->
  ~ comes_back oc rt base (ws1 ++ w :: ws2).
Proof. intros B W Hb N C. apply C03_exact in C; auto. apply Forall_app in C as [_ C]. inversion C. contradiction. Qed.

(** No branch comes back from a base address from 0x8000. *)
Lemma no_branch_returns base w : branch_word w -> ~ returns base w.
Proof.
  intros (f & R & I) (_ & _ & g & Rg & F & _). assert (g = f) by congruence. subst g. clear R Rg.
  induction (f_ops f) as [|k ks IH]; [destruct I|]. cbn [map] in F. inversion F as [|? ? ? ? [_ X] F']; subst. destruct I as [->|I]; [destruct X|auto].
Qed.
Corollary C03_no_branch oc rt base ws1 w ws2 : is_word base -> Forall is_word (ws1 ++ w :: ws2) -> 32768 <= base -> branch_word w ->
  ~ comes_back oc rt base (ws1 ++ w :: ws2).
Proof. intros B W Hb N. apply C03_one_bad_word; auto. now apply no_branch_returns. Qed.

(** Exactly, at every base address and with branches: each word returns, or is a branch whose offset
    happens to be the address of a place from which the assembler computes the same offset. *)
Theorem C03_exact_everywhere oc rt base ws : orders rt -> is_word base -> Forall is_word ws -> base + 4 * Z.of_nat (List.length ws) < 2 ^ 32 ->
  (comes_back oc rt base ws <-> forall i w, nth_error ws i = Some w -> returns base w \/ branch_back base (List.length ws) i w).
Proof.
  intros Or B W L. split.
  - intros (ls & out & D & A & G) i w N. apply nth_error_split in N as (ws1 & ws2 & E & <-). exact (all_back_at oc rt base ws ls out B W D A G ws1 w ws2 E).
  - intros H. destruct (back_at rt base ws Or B W L) as (out & A & G).
    + intros ws1 w ws2 E. apply H. rewrite E, nth_error_app2, Nat.sub_diag by lia. reflexivity.
    + exists (map (shown_text base) ws), out. split; [exact (shown_listing oc base _ ws B W eq_refl)|]. split; assumption.
Qed.
(** In up to 512 KiB of code only a branch with offset 0 among the first three words, at base address 0,
    comes back. *)
Lemma back_first base n i w : is_word base -> Z.of_nat i < 131072 -> branch_back base n i w -> base = 0 /\ (i < 3)%nat /\ field w 0 16 = 0.
Proof.
  intros B I (_ & _ & Sm & Is & Eq). unfold is_word in B. set (d := field w 0 16) in *. change (2 ^ 16) with 65536 in Eq.
  destruct (Z.leb_spec (Z.of_nat i + 1) d) as [Ge|Lt].
  - exfalso. rewrite Z.quot_div_nonneg in Eq by lia. assert (Q := Z.div_mod (d - (Z.of_nat i + 1)) 4 ltac:(lia)). assert (R := Z.mod_pos_bound (d - (Z.of_nat i + 1)) 4 ltac:(lia)).
    rewrite Z.mod_small in Eq by lia. lia.
  - replace (d - (Z.of_nat i + 1)) with (- (Z.of_nat i + 1 - d)) in Eq by lia. rewrite Z.quot_opp_l, Z.quot_div_nonneg in Eq by lia.
    set (k := (Z.of_nat i + 1 - d) / 4) in *. assert (Q := Z.div_mod (Z.of_nat i + 1 - d) 4 ltac:(lia)). assert (R := Z.mod_pos_bound (Z.of_nat i + 1 - d) 4 ltac:(lia)). fold k in Q.
    destruct (Z.eq_dec k 0) as [K|K]; [rewrite K in Eq; change (- 0 mod 65536) with 0 in Eq; lia|exfalso].
    rewrite <- (Z.mod_unique (- k) 65536 (-1) (65536 - k)) in Eq by lia. lia.
Qed.
Corollary C03_exact_small oc rt base ws : orders rt -> is_word base -> Forall is_word ws -> base + 4 * Z.of_nat (List.length ws) < 2 ^ 32 -> Z.of_nat (List.length ws) <= 131072 ->
  (comes_back oc rt base ws <-> forall i w, nth_error ws i = Some w ->
    returns base w \/ base = 0 /\ (i < 3)%nat /\ branch_word w /\ canonical base w /\ field w 0 16 = 0).
Proof.
  intros Or B W L Sm. rewrite (C03_exact_everywhere oc rt base ws Or B W L). split; intros H i w N; (destruct (H i w N) as [R|R]; [now left|right]).
  - assert (Li : (i < List.length ws)%nat) by (apply nth_error_Some; congruence). destruct (back_first base _ i w B ltac:(lia) R) as (B0 & I3 & F). destruct R as (Bw & Cn & _). auto.
  - destruct R as (-> & I3 & Bw & Cn & F). split; [exact Bw|]. split; [exact Cn|]. rewrite F. split; [lia|]. split; [lia|].
    destruct i as [|[|[|i]]]; [reflexivity|reflexivity|reflexivity|lia].
Qed.

(** Cases: a word of each kind that stays away ([C03_case] has words that come back); the bound on the
    base address is needed: a branch with offset 0 at address 0 does come back. *)
Example C03_exact_branch : branch_word 0x10000004 /\ is_word 0x10000004.
Proof. split; [|unfold is_word; lia]. eexists. split; [vm_compute; reflexivity|]. right. right. now left. Qed.
Example C03_exact_jump : ~ returns 0x80000000 0x09000000.
Proof. intros (_ & _ & f & R & F & _). vm_compute in R. injection R as <-. inversion F as [|? ? ? ? [_ X] _]; subst. vm_compute in X. discriminate X. Qed.
Example C03_exact_largest : ~ returns 0x80000000 0x20007fff.
Proof. intros (_ & N & _). apply N. eexists. split; [vm_compute; reflexivity|]. split; vm_compute; reflexivity. Qed.
Example C03_exact_base oc rt : comes_back oc rt 0 [0x10000000].
Proof. exists [ #"beq $zero, $zero, 0x0" ]. destruct rt as [o ord]. eexists. repeat split; try (destruct oc; vm_compute; reflexivity); vm_compute; reflexivity. Qed.
Print Assumptions C02_every_word.
Print Assumptions C03_exact.
(** Two branches with offset 0 as the first words at address 0, and the same branch as the fourth word. *)
Example C03_everywhere_case oc rt : orders rt -> comes_back oc rt 0 [0x10000000; 0x00000000; 0x15090000].
Proof.
  intros Or. apply C03_exact_small; auto; [unfold is_word; lia|repeat (constructor; [unfold is_word; lia|]); constructor|cbn; lia|cbn; lia|].
  assert (R0 : returns 0 0).
  { eapply returns_by; [vm_compute; reflexivity|vm_compute; discriminate|vm_compute; reflexivity|vm_compute; reflexivity| |vm_compute; discriminate];
      repeat (constructor; [split; [cbn; lia|cbn; try exact I; try lia]|]); constructor. }
  assert (H : forall w, w = 0x10000000 \/ w = 0x15090000 -> branch_word w /\ canonical 0 w /\ field w 0 16 = 0).
  { intros w [E|E]; subst w; (split; [|split; [intros f R; vm_compute in R; injection R as <-; vm_compute; reflexivity|reflexivity]]); (eexists; split; [vm_compute; reflexivity|]); right; right; now left. }
  intros [|[|[|[|i]]]] w N; cbn in N; try discriminate N; injection N as <-; [right|now left|right].
  - split; [reflexivity|]. split; [lia|]. apply H. now left.
  - split; [reflexivity|]. split; [lia|]. apply H. now right.
Qed.
Example C03_everywhere_late oc rt : orders rt -> ~ comes_back oc rt 0 [0x00000000; 0x00000000; 0x00000000; 0x10000000].
Proof.
  intros Or C0. assert (C := proj1 (C03_exact_small oc rt 0 [0x00000000; 0x00000000; 0x00000000; 0x10000000] Or ltac:(unfold is_word; lia) ltac:(repeat (constructor; [unfold is_word; lia|]); constructor) ltac:(cbn; lia) ltac:(cbn; lia)) C0).
  destruct (C 3%nat 0x10000000 eq_refl) as [R|(_ & X & _)]; [|lia]. apply no_branch_returns in R; [exact R|]. eexists. split; [vm_compute; reflexivity|]. right. right. now left.
Qed.
Print Assumptions C03_exact_everywhere.
Print Assumptions C03_exact_small.
Print Assumptions C03_one_bad_word.
Print Assumptions C03_no_branch.
