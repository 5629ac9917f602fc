(** * RegErrors: errors for wrong coprocessor registers (proofs only). *)

From Coq Require Import Lia.
From Verif Require Import QuietProofs Lib SpecIsa StrLemmas NumLemmas DecodeProofs TextProofs OperandProofs NativeProofs LineProofs ScanProofs ProgProofs BranchProofs LabelProofs AsmProofs CongProofs ErrorProofs
  ImmLines PanicProofs CauseProofs RegProofs SpecErrors SpecText SpecProgram SpecLabels SpecPanic SpecCause SpecRegs SpecRegErrors.

Definition kinds_eqb (a b : list register_kind) : bool := if list_eq_dec (fun x y : register_kind => ltac:(decide equality)) a b then true else false.
(** What the arm of a mnemonic reads. *)
Definition arm_kinds (m : str) : option (list register_kind) :=
  match classify (trim m) with
  | Some GCop0 => Some [General; System]
  | Some GCop1 => Some [General; Float]
  | Some GFMem => Some [Float; NoRegister]
  | Some _ => None
  | None => if Nat.ltb (List.length m) 2 then None
            else if mem_str (firstn (List.length m - 2) m) float3_names then Some [Float; Float; Float]
            else if mem_str (firstn (List.length m - 2) m) float2_names then Some [Float; Float] else None
  end.
Lemma arms : forallb (fun x => match arm_kinds (fst x) with Some ks => kinds_eqb ks (snd x) | None => false end) coprocessor_operands = true.
Proof. vm_compute. reflexivity. Qed.
Lemma arm_of m ks : In (m, ks) coprocessor_operands -> arm_kinds m = Some ks.
Proof.
  intros I. assert (X := proj1 (forallb_forall _ _) arms _ I). cbn [fst snd] in X. destruct (arm_kinds m) as [k|]; [|discriminate].
  unfold kinds_eqb in X. destruct (list_eq_dec _ k ks) as [->|]; [reflexivity|discriminate].
Qed.

(** An operand that is read, or not. *)
Definition good (k : register_kind) (x : str) : Prop :=
  match k with
  | General => exists r, reg_from_str x = Ok r
  | Float => exists r, freg_from_str x = Ok r
  | System => exists r, c0reg_from_str x = Ok r
  | NoRegister => False
  end.
Definition bad (k : register_kind) (x t : str) : Prop :=
  match k with
  | Float => freg_from_str x = Err t
  | System => c0reg_from_str x = Err t
  | _ => False
  end.
Section Line.
Variables (e : env) (s : pstate) (raw : str).
Hypothesis Rd : ready e s raw.
Lemma op_coprocessor op arg args ks k i x t : In (to_lower op, ks) coprocessor_operands -> List.length ks = List.length args ->
  nth_error ks i = Some k -> nth_error args i = Some x -> bad k x t -> (forall j kj y, (j < i)%nat -> nth_error ks j = Some kj -> nth_error args j = Some y -> good kj y) ->
  exists w, parse_op e s op arg args = (w, Err (EInvalidRegister (mk_line (p_line s) raw) t)).
Proof.
  intros I L Ks Ai B G. apply arm_of in I. unfold arm_kinds in I. unfold parse_op.
  assert (Gl := get_line_ready e s raw Rd).
  assert (G0 : forall k0 y, (0 < i)%nat -> nth_error ks 0 = Some k0 -> nth_error args 0 = Some y -> good k0 y) by (intros k0 y H1 H2 H3; exact (G _ _ _ H1 H2 H3)).
  assert (G1 : forall k0 y, (1 < i)%nat -> nth_error ks 1 = Some k0 -> nth_error args 1 = Some y -> good k0 y) by (intros k0 y H1 H2 H3; exact (G _ _ _ H1 H2 H3)).
  assert (Le : List.length op = List.length (to_lower op)) by (unfold to_lower; now rewrite map_length).
  destruct (classify (trim (to_lower op))) as [g|].
  - destruct g; try discriminate I; injection I as <-; destruct args as [|a1 [|a2 [|a3 args]]]; try discriminate L;
    destruct i as [|[|i]]; cbn [nth_error] in Ks, Ai; try (destruct i; discriminate Ks); injection Ks as <-; injection Ai as ->; cbn [bad] in B; try (exfalso; exact B);
    try (destruct (G0 _ _ ltac:(lia) eq_refl eq_refl) as [r0 R0]);
    cbn [parse_cop0 parse_cop1 parse_fmem]; unfold areg, arg_reg, afreg, arg_freg, arg_c0reg, fail_at; rewrite ?R0; cbn [lift mbind]; rewrite ?B, ?Gl; eexists; reflexivity.
  - unfold parse_float. rewrite Le. destruct (Nat.ltb _ _); [discriminate|]. destruct (mem_str _ float3_names).
    + injection I as <-. destruct args as [|a1 [|a2 [|a3 [|a4 args]]]]; try discriminate L.
      destruct i as [|[|[|i]]]; cbn [nth_error] in Ks, Ai; try (destruct i; discriminate Ks); injection Ks as <-; injection Ai as ->; cbn [bad] in B;
      try (destruct (G0 _ _ ltac:(lia) eq_refl eq_refl) as [r0 R0]); try (destruct (G1 _ _ ltac:(lia) eq_refl eq_refl) as [r1 R1]);
      unfold afreg, arg_freg, fail_at; rewrite ?R0; cbn [lift mbind]; rewrite ?R1; cbn [lift mbind]; rewrite ?B, ?Gl; eexists; reflexivity.
    + destruct (mem_str _ float2_names); [|discriminate]. injection I as <-. destruct args as [|a1 [|a2 [|a3 args]]]; try discriminate L.
      destruct i as [|[|i]]; cbn [nth_error] in Ks, Ai; try (destruct i; discriminate Ks); injection Ks as <-; injection Ai as ->; cbn [bad] in B;
      try (destruct (G0 _ _ ltac:(lia) eq_refl eq_refl) as [r0 R0]);
      unfold afreg, arg_freg, fail_at; rewrite ?R0; cbn [lift mbind]; rewrite ?B, ?Gl; eexists; reflexivity.
Qed.
End Line.

(** The readings decide. *)
Lemma trim_core x : after_dollar (trim x) = after_dollar x.
Proof. unfold after_dollar. now rewrite trim_idem. Qed.
Lemma read_good k x n : read_as k (trim x) n -> good k x.
Proof.
  destruct k; cbn [read_as good]; intros H; [| | |exact H].
  - apply (after_dollars gpr_reading _ _ gpr_bare) in H. exists (reg_of_num n). rewrite reg_from_core. now apply reg_core_reads.
  - apply (after_dollars fpr_reading _ _ fpr_bare) in H. exists (freg_of_num n). change (freg_from_str x) with (freg_core (after_dollar x)). now apply freg_core_reads.
  - apply (after_dollars cop0_reading _ _ cop0_bare) in H. exists (c0reg_of_num n). change (c0reg_from_str x) with (c0reg_core (after_dollar x)). now apply c0reg_core_reads.
Qed.
Lemma unread_bad k x : k = Float \/ k = System -> (forall n, ~ read_as k (trim x) n) -> exists t, bad k x t.
Proof.
  intros [-> | ->] N; cbn [bad read_as] in *.
  - destruct (freg_from_str x) as [r|t|q] eqn:E; [|eauto|exfalso; exact (fpr_calm x q E)]. exfalso. apply (N (freg_num r)). apply (after_dollars fpr_reading _ _ fpr_bare).
    now apply freg_core_back.
  - destruct (c0reg_from_str x) as [r|t|q] eqn:E; [|eauto|exfalso; exact (cop0_calm x q E)]. exfalso. apply (N (c0reg_num r)). apply (after_dollars cop0_reading _ _ cop0_bare).
    now apply c0reg_core_back.
Qed.
