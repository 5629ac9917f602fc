(** * LinkProofs: symbols in the place of labels (proofs for C75). *)

From Coq Require Import Lia.
From Verif Require Import Lib SpecIsa StrLemmas NumLemmas OperandProofs NativeProofs LineProofs TextProofs ScanProofs ProgProofs AsmProofs LabelProofs BranchProofs PseudoProofs
  PropsLabels CompareProofs RefProofs InsProofs AcceptProofs AcceptLines SpecErrors SpecText SpecProgram SpecLabels SpecScopes SpecLines SpecImm SpecAccept SpecModules ModuleProofs SpecLink.

Lemma label_address base all a n : In (a, n) (label_addresses base all) -> exists k, In (n, k) (label_table 0 all) /\ a = base + 4 * Z.of_nat k.
Proof. intros I. apply in_map_iff in I as ([n' k] & E & I). cbn [fst snd] in E. injection E as <- <-. now exists k. Qed.

Section Link.
Variables (syms given : list (Z * str)) (base : Z) (all : list str).
Hypothesis Lt : link_table syms base all given.
Hypothesis Ids : identifier_labels all.
Hypothesis Apart : forall n k a, In (n, k) (label_table 0 all) -> ~ In (a, n) syms.

(** A name that is no label stands for the same address. *)
Lemma names_same t a : (forall k, ~ In (t, k) (label_table 0 all)) -> names_address given t a -> names_address syms t a.
Proof.
  intros Nl [I Un|Nu No].
  - destruct (proj2 Lt _ I) as [Is|Il]; [|apply label_address in Il as (k & Ik & _); now destruct (Nl k)].
    apply na_symbol; [exact Is|]. intros b Ib. apply Un. now apply (proj1 Lt).
  - apply na_number; [exact Nu|]. intros b Ib. exact (No b (proj1 Lt _ Ib)).
Qed.

Lemma line_link before l ws : (forall n k, In (n, k) (label_table 0 all) -> ~ asks_half n l) -> program_line base given all before l ws -> program_line base syms all before l ws.
Proof.
  intros Nh P. inversion P; subst; try (econstructor; eassumption).
  - (* jump *) apply (pl_jump base syms all before name n k l); auto. intros a Ia. match goal with H : forall a, ~ In (a, n) given |- _ => exact (H a (proj1 Lt _ Ia)) end.
  - (* address *)
    match goal with H : names_address given t a |- _ => rename H into Na end. assert (Na' := Na). destruct Na as [I Un|Nu No].
    + destruct (proj2 Lt _ I) as [Is|Il].
      * apply (pl_jump_address base syms all before name t a l); auto. apply na_symbol; [exact Is|]. intros b Ib. apply Un. now apply (proj1 Lt).
      * apply label_address in Il as (k & Ik & ->). apply (pl_jump base syms all before name t k l); auto; [exact (Ids t k Ik)|intros b; exact (Apart t k b Ik)].
    + apply (pl_jump_address base syms all before name t a l); auto. apply na_number; [exact Nu|]. intros b Ib. exact (No b (proj1 Lt _ Ib)).
  - (* hi *)
    apply (pl_hi base syms all before f os t a l); auto. apply names_same; auto. intros k Ik. apply (Nh t k Ik). eexists f, os, _. split; [eassumption|now left].
  - apply (pl_lo base syms all before f os t a l); auto. apply names_same; auto. intros k Ik. apply (Nh t k Ik). eexists f, os, _. split; [eassumption|right; now left].
  - apply (pl_lo_memory base syms all before f os t b n a l); auto. apply names_same; auto. intros k Ik. apply (Nh n k Ik). eexists f, os, _. split; [eassumption|right; right; now exists b].
Qed.
Lemma program_link before ls wss : (forall n k l, In (n, k) (label_table 0 all) -> In l ls -> ~ asks_half n l) -> program base given all before ls wss -> program base syms all before ls wss.
Proof.
  intros Nh P. induction P as [before|before l ws ls wss H P IH]; [constructor|]. constructor.
  - apply line_link; [|exact H]. intros n k Ik. apply (Nh n k l Ik). now left.
  - apply IH. intros n k l' Ik Il. apply (Nh n k l' Ik). now right.
Qed.
End Link.

(** The lines of a program, one part after the other. *)
Lemma linked_joined syms base0 all rest : forall base A tables more, linked syms base0 all base rest tables more -> all = A ++ List.concat rest ->
  base = base0 + 4 * Z.of_nat (instruction_count A) -> Forall no_nl all -> A = [] \/ headed A -> identifier_labels all -> (forall n k a, In (n, k) (label_table 0 all) -> ~ In (a, n) syms) ->
  0 <= base0 -> base0 + 4 * Z.of_nat (instruction_count all) < 2 ^ 32 ->
  program base0 syms all A (List.concat rest) (List.concat more).
Proof.
  induction rest as [|B rest IH]; intros base A tables more P Ea Eb N Ha Ids Ap Rb Ov; inversion P as [|base' ls given wB rest' tables' more' Hb Bl Lt Nh PB Pr]; subst.
  - constructor.
  - cbn [List.concat] in *. rewrite app_assoc in *. assert (NB : Forall no_nl A /\ Forall no_nl B /\ Forall no_nl (List.concat rest)).
    { apply Forall_app in N as [N1 N2]. apply Forall_app in N1 as [N0 N1]. auto. }
    destruct NB as (NA & NB & NC).
    assert (Hab : headed (A ++ B)) by (destruct Ha as [->|(g & r & -> & G)]; [exact Hb|exists g, (r ++ B); auto]).
    apply program_join.
    + apply (program_link syms given base0 _ Lt Ids Ap); [exact Nh|].
      assert (Q := program_after base0 given A B [] B wB eq_refl NB Hb Ha Bl PB). rewrite app_nil_r in Q.
      destruct rest as [|C rest].
      * cbn [List.concat]. now rewrite app_nil_r.
      * assert (Hc : headed (List.concat (C :: rest))).
        { inversion Pr as [|? ? ? ? ? ? ? Hc]; subst. destruct Hc as (g & r & -> & G). exists g, (r ++ List.concat rest). auto. }
        apply (program_before base0 given (A ++ B) _ A B wB eq_refl); auto. apply Forall_app; auto.
    + apply (IH _ (A ++ B) tables' more' Pr); auto. rewrite instruction_count_app. lia.
Qed.
