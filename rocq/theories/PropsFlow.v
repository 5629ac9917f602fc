(** * PropsFlow: programs with branches and loops (C72).

    Statements, concrete instances and [Print Assumptions]; the execution of source programs
    is in [SpecFlow], the machine in [SpecMachine]. *)

From Coq Require Import Lia.
From Verif Require Import Lib SpecIsa StrLemmas OperandProofs LineProofs TextProofs ProgProofs AsmProofs SpecMachine MachineProofs CodingProofs CauseProofs SpecText SpecProgram SpecLabels SpecPseudo
  PropsPseudo PropsLabels RefProofs SpecAccept SpecRun RunProofs RunLines PropsRun SpecFlow FlowProofs FlowLines.

(** ** C72 *)

(** A program of labels, comments, computing lines and branches assembles; and its words,
    executed from the first one in any state, go through an execution of its lines: for any
    number of steps, through loops, with delay slots, to the end of the program or to the
    exception. *)
Theorem C72_programs_with_branches : forall rt m input odd p, named_symbols (m_syms m) -> orders rt -> distinct_labels (lines input) ->
  (forall z, 0 <= odd z < 2 ^ 64) -> flow odd (lines input) [] (lines input) p -> well_branched p ->
  exists out, assemble rt m input = Ok out /\ List.concat (words_of out) = get_bytes out
    /\ forall n st, well st -> exists c, steps p n (Here 0 1 st) c /\ machine_follows odd p (words_of out) st n c.
Proof. intros rt m input odd p Sy Or D Od F Wb. now apply (flow_follows rt m input odd). Qed.

(** So: when every execution of the lines (of [n] steps) ends with the program in a state with
    the property [Q], the words end in such a state, too. *)
Theorem C72_total : forall rt m input odd p (Q : state -> Prop) n st, named_symbols (m_syms m) -> orders rt -> distinct_labels (lines input) ->
  (forall z, 0 <= odd z < 2 ^ 64) -> flow odd (lines input) [] (lines input) p -> well_branched p -> well st ->
  (forall c, steps p n (Here 0 1 st) c -> exists j st', c = Here (List.length p) j st' /\ Q st') ->
  exists out, assemble rt m input = Ok out /\ exists st', finishes odd (get_bytes out) st st' /\ Q st'.
Proof.
  intros rt m input odd p Q n st Sy Or D Od F Wb W H. destruct (flow_follows rt m input odd Sy Or Od p D F Wb) as (out & A & G & Fo). exists out. split; [exact A|].
  destruct (Fo n st W) as (c & S & Ma). destruct (H c S) as (j & st' & -> & K). exists st'. split; [|exact K]. rewrite <- G. apply Ma. reflexivity.
Qed.

(** The sum of the numbers up to n: the counter is decremented in the delay slot. *)
Definition sum : str := join [nl] [ #"loop:"; #"addu $a1,$a1,$a0"; #"bnez $a0,loop"; #"addiu $a0,$a0,-1" ].
Definition sum_items : list item :=
  [ Does true (fun st e => of_two (fun a b => word32 (a + b)) [OReg 5; OReg 5; OReg 4] st = Some e);
    Jumps 1 false [] (fun st => negb (value st 4 =? 0)) 0;
    Does true (fun st e => of_number (fun a n => word32 (a + n)) [OReg 4; OReg 4; OInt (-1)] st = Some e) ].

Lemma sum_flow odd : flow odd (lines sum) [] (lines sum) sum_items.
Proof.
  change (lines sum) with [ #"loop:"; #"addu $a1,$a1,$a0"; #"bnez $a0,loop"; #"addiu $a0,$a0,-1" ].
  unfold sum_items. apply (fw_names odd _ _ #"loop"); [split; reflexivity|exists [], []; repeat split|].
  assert (L1 : native_line (special 33 "addu" [Rd; Rs; Rt]) [OReg 5; OReg 5; OReg 4] #"addu $a1,$a1,$a0").
  { exists [ #"$a1"; #"$a1"; #"$a0" ]. split; [exact (plain_statement #"addu" #"$a1" [ #"$a1"; #"$a0" ])|]. split; [|reflexivity].
    constructor; [apply sp_gpr, gpr_a1|]. constructor; [apply sp_gpr, gpr_a1|]. constructor; [apply sp_gpr, gpr_a0|constructor]. }
  assert (L2 : native_line (normal 9 "addiu" [Rt; Rs; Simm]) [OReg 4; OReg 4; OInt (-1)] #"addiu $a0,$a0,-1").
  { exists [ #"$a0"; #"$a0"; #"-1" ]. split; [exact (plain_statement #"addiu" #"$a0" [ #"$a0"; #"-1" ])|]. split; [|reflexivity].
    constructor; [apply sp_gpr, gpr_a0|]. constructor; [apply sp_gpr, gpr_a0|]. constructor; [|constructor].
    apply sp_simm. apply (num_neg #"1" 1). apply num_dec, digits_one; split; [lia|now left]. }
  apply fw_code.
  { apply (fl_one odd _ _ _ (special 33 "addu" [Rd; Rs; Rt]) [OReg 5; OReg 5; OReg 4]).
    - apply (s_native odd (special 33 "addu" [Rd; Rs; Rt])); [apply in_formats; vm_compute; reflexivity|now left|exact L1| |].
      + repeat (constructor; [split; [cbn; lia|exact Logic.I]|]). constructor.
      + intros I. apply mem_str_in in I. vm_compute in I. discriminate I.
    - apply in_formats; vm_compute; reflexivity.
    - cbn. intros [E|[E|[E|[]]]]; discriminate E.
    - exact L1.
    - repeat (constructor; [split; [cbn; lia|exact Logic.I]|]). constructor.
    - intros I. apply mem_str_in in I. vm_compute in I. discriminate I. }
  apply fw_code.
  { apply (fl_branch odd _ _ _ (mk_format #"bnez" [op6 5] [Rs; Branch16]) [OReg 4] false (on_one (fun a => negb (a =? 0))) #"loop").
    - apply in_formats; vm_compute; reflexivity.
    - unfold branches. cbn [In f_name]. tauto.
    - exists [Rs], [ #"$a0" ]. split; [reflexivity|]. split; [reflexivity|]. split; [|exact (plain_statement #"bnez" #"$a0" [ #"loop" ])].
      constructor; [apply sp_gpr, gpr_a0|constructor].
    - reflexivity.
    - split; reflexivity.
    - apply np_global. vm_compute. left. reflexivity. }
  apply fw_code; [|constructor].
  apply (fl_one odd _ _ _ (normal 9 "addiu" [Rt; Rs; Simm]) [OReg 4; OReg 4; OInt (-1)]).
  - apply (s_native odd (normal 9 "addiu" [Rt; Rs; Simm])); [apply in_formats; vm_compute; reflexivity|unfold computing; cbn [In f_name normal]; tauto|exact L2| |].
    + repeat (constructor; [split; [cbn; lia|exact Logic.I]|]). constructor.
    + intros I. apply mem_str_in in I. vm_compute in I. discriminate I.
  - apply in_formats; vm_compute; reflexivity.
  - cbn. intros [E|[E|[E|[]]]]; discriminate E.
  - exact L2.
  - repeat (constructor; [split; [cbn; lia|exact Logic.I]|]). constructor.
  - intros I. apply mem_str_in in I. vm_compute in I. discriminate I.
Qed.
Lemma sum_branched : well_branched sum_items.
Proof.
  intros i n likely sc c k H. destruct i as [|[|[|i]]]; try discriminate H; [|destruct i; discriminate H]. injection H as <- <- <- <- <-. split; [eexists; reflexivity|].
  split; [cbn; lia|]. split; [lia|]. intros j x J E. assert (j = 0%nat) as -> by lia. injection E as <-. reflexivity.
Qed.


(** Inversion of steps. *)
Lemma steps_on p k c c' : ~ final p c -> steps p (S k) c c' -> exists c1, step p c c1 /\ steps p k c1 c'.
Proof. intros Nf S. inversion S as [|? ? Fi|? ? c1 ? St S1]; subst; [contradiction|]. eauto. Qed.
Lemma steps_over p k c c' : final p c -> steps p k c c' -> (forall c1, ~ step p c c1) -> c' = c.
Proof. intros Fi S No. inversion S as [|? ? Fi'|? ? c1 ? St S1]; subst; auto. exfalso. exact (No _ St). Qed.
Lemma step_does_is p i j st c one M : nth_error p i = Some (Does one M) -> step p (Here i j st) c ->
  exists e, M st e /\ c = match e with Goes st' => Here j (S j) st' | _ => Over e end.
Proof.
  intros N S. inversion S as [i0 j0 st0 one' M' st' Nt Mt|i0 j0 st0 one' M' e Nt Mt Nx|i0 j0 st0 n' lk sc c' k' st' Nt|i0 j0 st0 n' sc c' k' st' Nt|i0 j0 st0 n' sc c' k' st' Nt]; subst; rewrite N in Nt; try discriminate Nt.
  - injection Nt as <- <-. exists (Goes st'). auto.
  - injection Nt as <- <-. exists e. split; [exact Mt|]. destruct e as [st'| |]; auto. exfalso. now apply (Nx st').
Qed.
Lemma step_jumps_is p i j st c n likely sc (t : state -> bool) k : nth_error p i = Some (Jumps n likely sc t k) -> step p (Here i j st) c ->
  exists st', same_but sc st st' /\ c = if t st then Here j k st' else if likely then Here (S j) (S (S j)) st' else Here j (S j) st'.
Proof.
  intros N S. inversion S as [i0 j0 st0 one' M' st' Nt Mt|i0 j0 st0 one' M' e Nt Mt Nx|i0 j0 st0 n' lk sc' t' k' st' Nt T Sa|i0 j0 st0 n' sc' t' k' st' Nt T Sa|i0 j0 st0 n' sc' t' k' st' Nt T Sa]; subst; rewrite N in Nt; try discriminate Nt;
    injection Nt; intros; subst; exists st'; rewrite T; auto.
Qed.

(** One round of the loop. *)
Lemma sum_round st c k : steps sum_items (3 + k) (Here 0 1 st) c -> exists st', value st' 5 = word32 (value st 5 + value st 4) /\ value st' 4 = word32 (value st 4 - 1)
  /\ steps sum_items k (if value st 4 =? 0 then Here 3 4 st' else Here 0 1 st') c.
Proof.
  intros S. apply steps_on in S as (c1 & S1 & S); [|discriminate]. apply (step_does_is sum_items 0 _ _ _ _ _ eq_refl) in S1 as (e1 & E1 & ->). cbn [of_two] in E1. injection E1 as <-.
  apply steps_on in S as (c2 & S2 & S); [|discriminate]. apply (step_jumps_is sum_items 1 _ _ _ _ _ _ _ _ eq_refl) in S2 as (s2 & (B2 & _) & ->).
  set (s1 := write st 5 (word32 (value st 5 + value st 4))) in *. change (value s1 4) with (value st 4) in S.
  assert (V5 : value s2 5 = word32 (value st 5 + value st 4)) by (rewrite B2 by (intros []); reflexivity). assert (V4 : value s2 4 = value st 4) by (rewrite B2 by (intros []); reflexivity).
  exists (write s2 4 (word32 (value st 4 - 1))). split; [exact V5|]. split; [reflexivity|].
  destruct (value st 4 =? 0); cbn [negb] in S; (apply steps_on in S as (c3 & S3 & S); [|discriminate]); apply (step_does_is sum_items 2 _ _ _ _ _ eq_refl) in S3 as (e3 & E3 & ->);
    cbn [of_number] in E3; injection E3 as <-; rewrite V4 in S; exact S.
Qed.
Lemma sum_runs n : forall st c, value st 4 = Z.of_nat n -> Z.of_nat n < 2 ^ 31 -> steps sum_items (3 + 3 * n) (Here 0 1 st) c ->
  exists j st', c = Here 3 j st' /\ value st' 5 = word32 (value st 5 + Z.of_nat n * (Z.of_nat n + 1) / 2).
Proof.
  induction n as [|n IH]; intros st c V R St; apply sum_round in St as (s1 & V5 & V4 & St); rewrite V in *.
  - change (Z.of_nat 0 =? 0) with true in St. cbv iota in St. inversion St; subst; [|]; exists 4%nat, s1; auto.
  - replace (Z.of_nat (S n) =? 0) with false in St by (symmetry; apply Z.eqb_neq; lia). replace (3 * S n)%nat with (3 + 3 * n)%nat in St by lia.
    assert (V4' : value s1 4 = Z.of_nat n). { rewrite V4. unfold word32. rewrite signed32_small by lia. rewrite low64_small by lia. lia. }
    destruct (IH s1 c V4' ltac:(lia) St) as (j & st' & -> & E). exists j, st'. split; [reflexivity|]. rewrite E, V5. apply word32_cong.
    rewrite <- Zplus_mod_idemp_l, word32_mod, Zplus_mod_idemp_l. f_equal.
    replace (Z.of_nat (S n) * (Z.of_nat (S n) + 1)) with (Z.of_nat n * (Z.of_nat n + 1) + (Z.of_nat n + 1) * 2) by lia. rewrite Z.div_add by lia. lia.
Qed.

(** However large the number in $a0 is: the words run through the loop that many times and
    leave the sum in $a1. *)
Example C72_case : forall rt odd n st, orders rt -> (forall z, 0 <= odd z < 2 ^ 64) -> well st -> value st 4 = Z.of_nat n -> Z.of_nat n < 2 ^ 31 -> value st 5 = 0 ->
  exists out, assemble rt m_new sum = Ok out /\ exists st', finishes odd (get_bytes out) st st' /\ value st' 5 = word32 (Z.of_nat n * (Z.of_nat n + 1) / 2).
Proof.
  intros rt odd n st Or Od W V R V5. apply (C72_total rt m_new sum odd sum_items (fun s => value s 5 = word32 (Z.of_nat n * (Z.of_nat n + 1) / 2)) (3 + 3 * n)); auto.
  - exact named_new.
  - unfold distinct_labels. vm_compute. repeat constructor. intros [].
  - apply sum_flow.
  - apply sum_branched.
  - intros c S. destruct (sum_runs n st c V R S) as (j & st' & -> & E). exists j, st'. split; [reflexivity|]. rewrite E, V5. reflexivity.
Qed.

Print Assumptions C72_programs_with_branches.
Print Assumptions C72_total.
Print Assumptions C72_case.
