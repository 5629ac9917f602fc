(** * PropsLike: mnemonics that begin like a floating-point operation or comparison (C70). *)

From Coq Require Import Lia.
From Verif Require Import Lib SpecIsa StrLemmas NumLemmas DecodeProofs TextProofs OperandProofs NativeProofs LineProofs ScanProofs AsmProofs ErrorProofs
  ImmLines PanicProofs CongProofs SpecErrors SpecText SpecProgram SpecLabels SpecPanic SpecCause CauseProofs SpecFatal FatalProofs.
From Verif Require PropsCause.

(** A mnemonic like [add.w] or [moves], which is none but for its last two characters begins like a
    floating-point operation, is taken for one: with a wrong number of operands that is what is reported
    (and with its registers the assembler panics, C29_fatal). *)
Theorem C70_lookalike rt m l stem x y : role_of l = Instruction -> clean_mnemonic l ->
  lower_operation l = stem ++ [x; y] -> In stem float_stems -> no_operation (stem ++ [x; y]) ->
  (In stem three_stems -> List.length (operands l) <> 3%nat -> causes rt m l (fun ln => EInvalidOperandCount ln 3 (List.length (operands l)) (operand_text_of l)))
  /\ (~ In stem three_stems -> List.length (operands l) <> 2%nat -> causes rt m l (fun ln => EInvalidOperandCount ln 2 (List.length (operands l)) (operand_text_of l))).
Proof.
  intros R W E I No. unfold lower_operation in *.
  assert (Lo : List.length (operands l) = List.length (split_char "," (operand_text_of l))) by (unfold operands; now rewrite map_length). rewrite Lo.
  set (op := operation l) in *. set (args := split_char "," (operand_text_of l)).
  assert (Nt : trim (to_lower op) = to_lower op) by (apply trim_no_ws; unfold no_ws; apply forallb_forall; intros c Ic; rewrite (W c Ic); reflexivity).
  assert (Sh : forall e s, parse_op e s op (operand_text_of l) args = parse_float e s op (operand_text_of l) args).
  { intros e s. unfold parse_op. rewrite Nt, E, (stem_none stem x y I No). reflexivity. }
  assert (Lt : Nat.ltb (List.length op) 2 = false) by (apply Nat.ltb_ge; rewrite <- to_lower_length, E, app_length; cbn [List.length]; lia).
  assert (Fi : firstn (List.length op - 2) (to_lower op) = stem) by (rewrite <- to_lower_length, E; apply stem_split).
  split; intros T Ne; apply causes_of; try exact R; intros e s _ _ Rd; exists []; fold op args; rewrite Sh; unfold parse_float; rewrite Lt, Fi; cbv zeta.
  - replace (mem_str stem float3_names) with true by (symmetry; apply mem_is; exact T).
    destruct args as [|a [|b [|c [|d r]]]]; try (apply bad_is; exact Rd). exfalso. apply Ne. reflexivity.
  - destruct (mem_str stem float3_names) eqn:M3; [exfalso; apply mem_is in M3; exact (T M3)|].
    replace (mem_str stem float2_names) with true.
    2: { symmetry. apply mem_is. assert (X : forallb (fun z => mem_str z float3_names || mem_str z float2_names) float_stems = true) by (vm_compute; reflexivity).
         rewrite forallb_forall in X. specialize (X stem I). rewrite M3 in X. now apply mem_is in X. }
    destruct args as [|a [|b [|c r]]]; try (apply bad_is; exact Rd). exfalso. apply Ne. reflexivity.
Qed.

(** Everything that begins with [c.] and has two more characters is taken for a comparison. *)
Theorem C70_compare_like rt m l r x y : role_of l = Instruction -> clean_mnemonic l -> lower_operation l = #"c." ++ r ++ [x; y] ->
  List.length (operands l) <> 2%nat -> causes rt m l (fun ln => EInvalidOperandCount ln 2 (List.length (operands l)) (operand_text_of l)).
Proof.
  intros R W E Ne. unfold lower_operation in *.
  assert (Lo : List.length (operands l) = List.length (split_char "," (operand_text_of l))) by (unfold operands; now rewrite map_length). rewrite Lo in *.
  set (op := operation l) in *. set (args := split_char "," (operand_text_of l)) in *.
  assert (Nt : trim (to_lower op) = to_lower op) by (apply trim_no_ws; unfold no_ws; apply forallb_forall; intros c Ic; rewrite (W c Ic); reflexivity).
  rewrite app_assoc in E. set (stem := #"c." ++ r) in *.
  assert (Sc : starts_with #"c." (to_lower op) = true) by (rewrite E; unfold stem; rewrite <- app_assoc; apply starts_with_app).
  assert (C : classify (to_lower op) = None).
  { destruct (classify (to_lower op)) as [g|] eqn:C; [|reflexivity]. exfalso. apply classify_in in C.
    assert (X := proj1 (forallb_forall _ _) table_compares _ C). cbn [fst] in X. rewrite Sc in X. discriminate X. }
  assert (Lt : Nat.ltb (List.length op) 2 = false) by (apply Nat.ltb_ge; rewrite <- to_lower_length, E, app_length; cbn [List.length]; lia).
  assert (Fi : firstn (List.length op - 2) (to_lower op) = stem) by (rewrite <- to_lower_length, E; apply stem_split).
  assert (Sd : starts_with #"c." stem = true) by (unfold stem; apply starts_with_app).
  assert (M : forall names, forallb (fun z => negb (starts_with #"c." z)) names = true -> mem_str stem names = false).
  { intros names Hn. destruct (mem_str stem names) eqn:Mm; [|reflexivity]. exfalso. apply mem_is in Mm. rewrite forallb_forall in Hn. specialize (Hn _ Mm). rewrite Sd in Hn. discriminate Hn. }
  apply causes_of; [exact R|]. intros e s _ _ Rd. exists []. fold op args. unfold parse_op. rewrite Nt, C. unfold parse_float. rewrite Lt, Fi. cbv zeta.
  rewrite (M float3_names eq_refl), (M float2_names eq_refl), Sd.
  destruct args as [|a [|b [|c q]]]; try (apply bad_is; exact Rd). exfalso. apply Ne. reflexivity.
Qed.

(** These are all the kinds of mnemonics: known ones, unknown ones ([C70_unknown]), and the ones above. *)
Theorem C70_kinds m : (2 <= List.length m)%nat ->
  In m (map fst shapes) \/ In m float_names \/ m = #".word" \/ unknown m
  \/ (exists stem x y, m = stem ++ [x; y] /\ In stem float_stems /\ no_operation (stem ++ [x; y]))
  \/ (exists r x y, m = #"c." ++ r ++ [x; y]).
Proof.
  intros L. destruct (mem_str m (map fst shapes)) eqn:A; [left; now apply mem_is|]. right.
  destruct (mem_str m float_names) eqn:B; [left; now apply mem_is|]. right.
  destruct (list_eq_dec ascii_dec m #".word") as [->|Nw]; [now left|]. right.
  assert (Na : ~ In m (map fst shapes)) by (intros I; apply mem_is in I; congruence).
  assert (Nb : ~ In m float_names) by (intros I; apply mem_is in I; congruence).
  destruct (float_split m L) as (stem & x & y & E & _).
  destruct (mem_str stem float_stems) eqn:D; [right; left; exists stem, x, y; rewrite <- E; split; [reflexivity|]; split; [now apply mem_is|split; assumption]|].
  destruct (starts_with #"c." stem) eqn:S0; [right; right; apply starts_with_spec in S0 as (r & ->); exists r, x, y; rewrite E, <- app_assoc; reflexivity|].
  left. split; [exact L|]. split; [exact Na|]. split; [exact Nw|]. intros stem' a b E'. rewrite E in E'.
  assert (stem' = stem) as -> by (apply (f_equal (fun z => firstn (List.length z - 2) z)) in E'; rewrite !stem_split in E'; congruence).
  split; [intros I; apply mem_is in I; congruence|]. intros r ->. rewrite starts_with_app in S0. discriminate.
Qed.

Example like_case : causes (mk_runtime true (fun l => l)) (mk_mipsasm 0 [] false) #"Add.w $f0, $f1" (fun ln => EInvalidOperandCount ln 3 2 #"$f0, $f1").
Proof.
  destruct (C70_lookalike (mk_runtime true (fun l => l)) (mk_mipsasm 0 [] false) #"Add.w $f0, $f1" #"add" "." "w") as [H _].
  - vm_compute. reflexivity.
  - apply PropsCause.clean_mnemonic_by. vm_compute. reflexivity.
  - reflexivity.
  - cbn. tauto.
  - split; intros I; apply mem_is in I; vm_compute in I; discriminate I.
  - intros input l1 l2 E. refine (H _ _ input l1 l2 E); [cbn; tauto|]. vm_compute. discriminate.
Qed.
Example compare_like_case : causes (mk_runtime true (fun l => l)) (mk_mipsasm 0 [] false) #"c.eqs $f0" (fun ln => EInvalidOperandCount ln 2 1 #"$f0").
Proof.
  intros input l1 l2 E.
  refine (C70_compare_like (mk_runtime true (fun l => l)) (mk_mipsasm 0 [] false) #"c.eqs $f0" #"e" "q" "s" _ _ _ _ input l1 l2 E).
  - vm_compute. reflexivity.
  - apply PropsCause.clean_mnemonic_by. vm_compute. reflexivity.
  - reflexivity.
  - vm_compute. discriminate.
Qed.

Print Assumptions C70_lookalike.
Print Assumptions C70_compare_like.
Print Assumptions C70_kinds.
