(** * PropsModules: parts of a program are assembled independently (C73).

    Statements, concrete instances and [Print Assumptions]; parts are defined in [SpecModules]. *)

From Coq Require Import Lia Permutation.
From Verif Require Import Lib SpecIsa StrLemmas NumLemmas OperandProofs NativeProofs LineProofs TextProofs ScanProofs ProgProofs AsmProofs LabelProofs BranchProofs
  PropsPseudo PropsLabels RefProofs AcceptProofs AcceptLines PropsImm PropsAccept CauseProofs PropsRun SpecErrors SpecText SpecProgram SpecLabels SpecScopes SpecLines SpecImm SpecAccept SpecModules ModuleProofs.

(** ** C73 *)

Lemma table_names ls : forall k j, map fst (label_table k ls) = map fst (label_table j ls).
Proof.
  induction ls as [|l ls IH]; intros k j; [reflexivity|]. cbn [label_table]. destruct (role_of l) as [|n|]; [apply IH| |apply IH].
  destruct (is_local n); [apply IH|]. cbn [map fst]. f_equal. apply IH.
Qed.
Lemma distinct_left a b : distinct_labels (a ++ b) -> distinct_labels a.
Proof. unfold distinct_labels. apply nodup_before. Qed.
Lemma distinct_right a b : distinct_labels (a ++ b) -> distinct_labels b.
Proof.
  unfold distinct_labels. rewrite label_table_app, map_app. intros H. rewrite (table_names b 0 (0 + instruction_count a)).
  clear - H. induction (map fst (label_table 0 a)) as [|x l IH]; [exact H|]. inversion H; subst. now apply IH.
Qed.

(** Each text assembled by itself, at the address where the one before it ends. *)
Inductive assembled_apart (rt : runtime) : mipsasm -> list str -> list (list inst) -> Prop :=
| apart_end m : assembled_apart rt m [] []
| apart_more m a rest oa os : assemble rt m a = Ok oa ->
    assembled_apart rt (set_base (m_base m + 4 * Z.of_nat (instruction_count (lines a))) m) rest os -> assembled_apart rt m (a :: rest) (oa :: os).

Theorem C73_parts : forall rt m input texts wss, orders rt -> named_symbols (m_syms m) -> distinct_labels (lines input) ->
  0 <= m_base m -> m_base m + 4 * Z.of_nat (instruction_count (lines input)) < 2 ^ 32 ->
  lines input = List.concat (map lines texts) -> parts (m_syms m) (m_base m) (map lines texts) wss ->
  exists out outs, assemble rt m input = Ok out /\ assembled_apart rt m texts outs
    /\ words_of out = List.concat (map words_of outs) /\ get_bytes out = List.concat (map get_bytes outs).
Proof.
  intros rt m input texts wss Or Sy D Rb Ov E P.
  assert (X : exists out, assemble rt m input = Ok out /\ words_of out = code_words (lines input) (List.concat wss) /\ get_bytes out = List.concat (List.concat wss)).
  { apply program_accepted; auto. rewrite E in *. apply (parts_joined (m_syms m) (map lines texts) (m_base m) (m_base m) [] [] wss); auto.
    - cbn. lia.
    - apply Forall_forall. intros ls I. apply in_map_iff in I as (t & <- & _). apply nl_of_lines.
    - constructor. }
  destruct X as (out & A & Wo & Go).
  assert (Y : exists outs, assembled_apart rt m texts outs /\ List.concat (map words_of outs) = code_words (List.concat (map lines texts)) (List.concat wss)
              /\ List.concat (map get_bytes outs) = List.concat (List.concat wss)).
  { rewrite E in D, Ov. clear - Or Sy D Rb Ov P. revert m wss Sy D Rb Ov P. induction texts as [|t texts IH]; intros m wss Sy D Rb Ov P; inversion P as [|base ls rest ws more Hd Bl Pr Ps]; subst.
    - exists []. repeat split; constructor.
    - cbn [map List.concat] in *. assert (Ov' := Ov). rewrite instruction_count_app in Ov'.
      destruct (program_accepted rt m t ws Sy Or ltac:(intros _; lia) (distinct_left _ _ D) Pr) as (oa & Aa & Wa & Ga).
      destruct (IH (set_base (m_base m + 4 * Z.of_nat (instruction_count (lines t))) m) more) as (os & Ao & Wo & Go); cbn [set_base m_base m_syms]; auto; [now apply distinct_right in D|lia|lia|].
      exists (oa :: os). split; [now constructor|]. cbn [map List.concat]. split.
      + rewrite code_words_app by (eapply program_length; exact Pr). now rewrite Wa, Wo.
      + rewrite concat_app. now rewrite Ga, Go. }
  destruct Y as (outs & Ao & W1 & G1). exists out, outs. split; [exact A|]. split; [exact Ao|]. rewrite E in Wo. split; congruence.
Qed.

(** Two parts. *)
Theorem C73_two : forall rt m input a b wss, orders rt -> named_symbols (m_syms m) -> distinct_labels (lines input) ->
  0 <= m_base m -> m_base m + 4 * Z.of_nat (instruction_count (lines input)) < 2 ^ 32 ->
  lines input = lines a ++ lines b -> parts (m_syms m) (m_base m) [lines a; lines b] wss ->
  exists out oa ob, assemble rt m input = Ok out /\ assemble rt m a = Ok oa
    /\ assemble rt (set_base (m_base m + 4 * Z.of_nat (instruction_count (lines a))) m) b = Ok ob /\ get_bytes out = get_bytes oa ++ get_bytes ob.
Proof.
  intros rt m input a b wss Or Sy D Rb Ov E P. destruct (C73_parts rt m input [a; b] wss Or Sy D Rb Ov) as (out & outs & A & Ap & _ & G); [cbn [map List.concat]; now rewrite app_nil_r|exact P|].
  inversion Ap as [|m' a' r oa os Aa Ar]; subst. inversion Ar as [|m'' b' r' ob os' Ab Ar']; subst. inversion Ar'; subst.
  exists out, oa, ob. repeat split; auto. rewrite G. cbn [map List.concat]. now rewrite app_nil_r.
Qed.

(** ** A case *)

(** A check that the line is not a branch to a number. *)
Definition branch_names : list str := map f_name (filter (fun f => existsb (fun k => match k with Branch16 => true | _ => false end) (f_ops f)) (isa ++ idioms)).
Definition numbered (l : str) : bool :=
  match split_once " " (clean l) with
  | Some (op, arg) => mem_str (to_lower op) branch_names && match trim (last (split_char "," arg) []) with c :: _ => is_digit c | [] => false end
  | None => false
  end.
Lemma numbered_ok ls : forallb (fun l => negb (numbered l)) ls = true -> branches_to_labels ls.
Proof.
  intros H l f os t a I If B Nu. apply (proj1 (forallb_forall _ _) H) in I. cbv beta in I. apply Bool.negb_true_iff in I.
  assert (Ot : operand_ok t) by (apply numeral_shape in Nu as (radix & ds & Sh & _); now apply (number_operand_ok _ _ _ _ Sh)).
  destruct B as (ks & ts & FO & Len & Sp & L).
  assert (F : Forall operand_ok (ts ++ [t])) by (apply Forall_app; split; [now apply spellings_ok in Sp|constructor; [exact Ot|constructor]]).
  destruct (line_view (f_name f) (ts ++ [t]) l (table_name f If) F L) as (op & xs & arg & SL & Ar & Sc & _ & _ & V).
  destruct Ar as [[E _]|[_ Ar]]; [destruct ts; discriminate E|]. apply Forall2_app_inv_l in Ar as (xs1 & xs2 & _ & P2 & Ex). inversion P2 as [|? x ? ys Px Pn E1 E2]. subst xs2. inversion Pn. subst ys. rewrite Ex in Sc.
  destruct (numeral_head t a Nu) as (c & r & -> & D).
  assert (Tx : trim x = c :: r) by (destruct Ot as (_ & _ & O1 & O2); now apply padded_trim).
  destruct V as [V|(_ & _ & ->)].
  - unfold numbered in I. rewrite V, Sc, last_last, Tx, D, Bool.andb_true_r in I.
    assert (M : mem_str (to_lower op) branch_names = true).
    { apply mem_str_in. unfold branch_names. apply in_map_iff. exists f. split.
      - rewrite SL. assert (K : forallb (fun f => str_eqb (to_lower (f_name f)) (f_name f)) (isa ++ idioms) = true) by (vm_compute; reflexivity).
        apply (proj1 (forallb_forall _ _) K) in If. apply str_eqb_spec in If. now symmetry.
      - apply filter_In. split; [exact If|]. apply existsb_exists. exists Branch16. split; [rewrite FO; apply in_or_app; right; now left|reflexivity]. }
    congruence.
  - cbn in Sc. destruct xs1 as [|? [|? ?]]; try discriminate Sc. injection Sc as <-. discriminate Tx.
Qed.

(** Two functions, each with a local loop of the same name, and jumps to their own labels. *)
Definition part1 : list str := [ #"first:"; #"nop"; #"@@loop:"; #"beqz $a0,@@loop"; #"j first"; #"nop"; #"done:" ].
Definition part2 : list str := [ #"second:"; #"nop"; #"@@loop:"; #"nop"; #"b @@loop"; #"jal second"; #"bge $a0,$a1,second"; #"end:" ].
Definition part_words : list (list (list Z)) :=
  [ [ []; [0]; []; [0x1080ffff]; [0x08000000]; [0]; [] ]; [ []; [0]; []; [0]; [0x1000fffe]; [0x0c000004]; [0x0085082a; 0x1020fffa]; [] ] ].
Definition at_base : mipsasm := mk_mipsasm 0x80000000 [] false.

Ltac label_step n := eapply step_line; [apply (pl_label _ _ _ _ n); [split; reflexivity|exists [], []; repeat split]|reflexivity|].
Lemma nop_word base syms all before : program_line base syms all before #"nop" [0].
Proof.
  apply (pl_native _ _ _ _ (mk_format #"nop" [op6 0] []) []).
  - apply in_formats. vm_compute. reflexivity.
  - exists []. split; [|split; [constructor|reflexivity]]. exists [], #"nop", [], []. repeat split; try (now constructor).
  - constructor.
  - intros I. apply mem_str_in in I. vm_compute in I. discriminate I.
Qed.
Ltac nop_step := eapply step_line; [apply nop_word|reflexivity|].

Lemma parts_case : parts [] 0x80000000 [part1; part2] part_words.
Proof.
  unfold part_words. apply parts_more; [exists #"first:"; eexists; split; reflexivity|apply numbered_ok; vm_compute; reflexivity| |apply parts_more; [exists #"second:"; eexists; split; reflexivity|apply numbered_ok; vm_compute; reflexivity| |constructor]].
  - unfold part1 at 2. label_step #"first". nop_step. label_step #"@@loop".
    eapply step_line; [apply (pl_local _ _ _ _ (mk_format #"beqz" [op6 4] [Rs; Branch16]) [OReg 4] #"@@loop" [ #"first:"; #"nop" ]); [apply in_formats; vm_compute; reflexivity| |split; reflexivity|reflexivity| | ]|vm_compute; reflexivity|].
    { apply (plain_branch (mk_format #"beqz" [op6 4] [Rs; Branch16]) [OReg 4] [Rs] [ #"$a0" ]); [reflexivity|reflexivity|constructor; [apply sp_gpr, gpr_a0|constructor]|]. apply (plain_statement #"beqz" #"$a0" [ #"@@loop" ]). }
    { exists (skipn 4 part1), #"@@loop:", (skipn 3 part1). split; [reflexivity|]. split; [reflexivity|]. split; [reflexivity|]. split.
      - apply (ss_before _ _ _ _ _ _ []); try reflexivity. intros x [].
      - intros e1 d e2 E R _. unfold part1 in E. cutter E; try discriminate R; [reflexivity|]. destruct e1; discriminate E. }
    { split; [|split].
      - exists [ #"first:"; #"nop" ], #"@@loop:", #"done:", (skipn 3 part1), #"@@loop". split; [reflexivity|]. split; [reflexivity|]. split; [reflexivity|]. split; [|reflexivity].
        unfold part1. cbn [skipn In]. tauto.
      - right. exists [ #"first:" ], [ #"nop"; #"@@loop:" ]. split; [reflexivity|]. split; [intros x [<-|[<-|[]]]; reflexivity|vm_compute; lia].
      - intros e1 d e2 E R G. unfold part1 in E. cutter E; try discriminate R; [|destruct e1; discriminate E]. exfalso. specialize (G #"first:" (or_introl eq_refl)). discriminate G. }
    eapply step_line; [apply (pl_jump _ _ _ _ #"j" #"first" 0); [split; [now left|apply (plain_statement #"j" #"first" [])]|split; reflexivity|intros a []|vm_compute; tauto]|vm_compute; reflexivity|].
    nop_step. label_step #"done". constructor.
  - unfold part2 at 2. label_step #"second". nop_step. label_step #"@@loop". nop_step.
    eapply step_line; [apply (pl_local _ _ _ _ (mk_format #"b" [op6 4] [Branch16]) [] #"@@loop" [ #"second:"; #"nop" ]); [apply in_formats; vm_compute; reflexivity| |split; reflexivity|reflexivity| | ]|vm_compute; reflexivity|].
    { apply (plain_branch (mk_format #"b" [op6 4] [Branch16]) [] [] []); [reflexivity|reflexivity|constructor|]. apply (plain_statement #"b" #"@@loop" []). }
    { exists (skipn 5 part2), #"@@loop:", (skipn 3 part2). split; [reflexivity|]. split; [reflexivity|]. split; [reflexivity|]. split.
      - apply (ss_before _ _ _ _ _ _ [ #"nop" ]); try reflexivity. intros x [<-|[]]. reflexivity.
      - intros e1 d e2 E R _. unfold part2 in E. cutter E; try discriminate R; [reflexivity|]. destruct e1; discriminate E. }
    { split; [|split].
      - exists [ #"second:"; #"nop" ], #"@@loop:", #"end:", (skipn 3 part2), #"@@loop". split; [reflexivity|]. split; [reflexivity|]. split; [reflexivity|]. split; [|reflexivity].
        unfold part2. cbn [skipn In]. tauto.
      - right. exists [ #"second:" ], [ #"nop"; #"@@loop:"; #"nop" ]. split; [reflexivity|]. split; [intros x [<-|[<-|[<-|[]]]]; reflexivity|vm_compute; lia].
      - intros e1 d e2 E R G. unfold part2 in E. cutter E; try discriminate R; [|destruct e1; discriminate E]. exfalso. specialize (G #"second:" (or_introl eq_refl)). discriminate G. }
    eapply step_line; [apply (pl_jump _ _ _ _ #"jal" #"second" 0); [split; [right; now left|apply (plain_statement #"jal" #"second" [])]|split; reflexivity|intros a []|vm_compute; tauto]|vm_compute; reflexivity|].
    eapply step_line; [apply (pl_compare _ _ _ _ #"bge" (fun s t n => [ins "slt" (regs [AT; s; t]); ins "beq" (reg_imm [AT; 0] n)]) #"$a0" #"$a1" 4 5 #"second" 0);
      [unfold compare_expansions; cbn [In]; tauto|exact gpr_a0|exact gpr_a1|apply (plain_statement #"bge" #"$a0" [ #"$a1"; #"second" ])|split; reflexivity|vm_compute; tauto|vm_compute; reflexivity]|vm_compute; reflexivity|].
    label_step #"end". constructor.
Qed.
Example C73_case : forall rt, orders rt -> exists out oa ob, assemble rt at_base (join [nl] (part1 ++ part2)) = Ok out
  /\ assemble rt at_base (join [nl] part1) = Ok oa /\ assemble rt (set_base 0x80000010 at_base) (join [nl] part2) = Ok ob
  /\ get_bytes out = get_bytes oa ++ get_bytes ob.
Proof.
  intros rt Or. destruct (C73_two rt at_base (join [nl] (part1 ++ part2)) (join [nl] part1) (join [nl] part2) part_words Or) as (out & oa & ob & A & Aa & Ab & G).
  - intros a n [].
  - unfold distinct_labels. vm_compute. repeat constructor; intros I; cbn in I; intuition discriminate.
  - vm_compute. discriminate.
  - vm_compute. reflexivity.
  - vm_compute. reflexivity.
  - change (lines (join [nl] part1)) with part1. change (lines (join [nl] part2)) with part2. exact parts_case.
  - exists out, oa, ob. auto.
Qed.

Print Assumptions C73_parts.
Print Assumptions C73_two.
