(** * AcceptProofs: well-formed programs are accepted (proofs only). *)

From Coq Require Import Lia.
From Verif Require Import Lib SpecIsa StrLemmas NumLemmas DecodeProofs TextProofs OperandProofs NativeProofs LineProofs ScanProofs ProgProofs AsmProofs MachineProofs
  PseudoProofs BranchProofs LabelProofs CompareProofs HalfProofs PropsLabels SpecText SpecProgram SpecLabels SpecAccept.

Lemma table_global k ls n j : In (n, j) (label_table k ls) -> is_local n = false.
Proof.
  revert k. induction ls as [|l ls IH]; intros k I; [destruct I|]. cbn [label_table] in I.
  destruct (role_of l) as [|b|] eqn:R; [eauto| |eauto]. destruct (is_local b) eqn:Lc; [eauto|].
  destruct I as [I|I]; [now injection I as <- _|eauto].
Qed.

Section Accept.
Variable e : env.

(** The state that label resolution starts from. *)
Definition at_end (sf : pstate) : Prop := exists s, sf = final e s /\ scan_lines e init_state (e_input e) = Ok s /\ p_errors s = [].

(** A code line after the lines [before]. *)
Definition line_in (before : list str) (raw : str) (ws : list Z) : Prop :=
  clean raw <> [] /\ ends_with #":" (clean raw) = false
  /\ forall s, ready e s raw -> p_labels s = label_table 0 before -> named_labels s -> NoDup (map fst (label_table 0 before)) ->
     exists w i, parse_inst e s (clean raw) = (w, Ok i)
       /\ forall sf, p_labels sf = label_table 0 (e_input e) -> List.length (p_insts sf) = instruction_count (e_input e) -> at_end sf -> NoDup (map fst (label_table 0 (e_input e))) ->
          exists i1, adjust_one e sf (instruction_count before) (S (List.length before)) i = Ok (i1, []) /\ encodes i1 ws.
Inductive item (before : list str) : str -> list Z -> Prop :=
| it_blank l : blank_line l -> item before l []
| it_label n l : identifier n -> label_line n l -> item before l []
| it_code l ws : line_in before l ws -> item before l ws.
Inductive items (before : list str) : list str -> list (list Z) -> Prop :=
| its_end : items before [] []
| its_line l ws ls wss : item before l ws -> items (before ++ [l]) ls wss -> items before (l :: ls) (ws :: wss).

Lemma item_role before l ws : item before l ws ->
  label_table (instruction_count before) [l] = [] /\ instruction_count [l] = 0%nat /\ ws = [] /\ role_of l = Empty
  \/ (exists n, identifier n /\ role_of l = Defines n /\ instruction_count [l] = 0%nat /\ ws = [])
  \/ role_of l = Instruction /\ line_in before l ws.
Proof.
  intros [l' B|n l' Id L|l' ws' L].
  - left. assert (R := role_blank l' B). unfold instruction_count. cbn [label_table filter]. unfold is_instruction. rewrite R. auto.
  - right. left. assert (R := role_label_line n l' Id L). exists n. unfold instruction_count. cbn [filter]. unfold is_instruction. rewrite R. auto.
  - right. right. destruct L as (A & B & C). split; [now apply role_native|repeat split; auto].
Qed.

Lemma accept_scan before rest wss : items before rest wss -> Forall no_nl rest ->
  forall s, e_input e = before ++ rest -> p_line s = List.length before -> List.length (p_insts s) = instruction_count before ->
  p_labels s = label_table 0 before -> named_labels s -> p_errors s = [] -> NoDup (map fst (label_table 0 (before ++ rest))) ->
  exists s' new, scan_lines e s rest = Ok s' /\ p_errors s' = [] /\ p_insts s' = p_insts s ++ new
    /\ forall sf, p_labels sf = label_table 0 (e_input e) -> List.length (p_insts sf) = instruction_count (e_input e) -> at_end sf ->
       exists is1 bl, adjust_from e sf (instruction_count before) new = Ok (is1, []) /\ Forall2 encodes is1 bl
         /\ map snd (filter (fun x => is_instruction (fst x)) (combine rest wss)) = bl /\ List.concat bl = List.concat wss.
Proof.
  intros It. induction It as [before|before l ws ls wss H It IH]; intros N s Ei Ln Li Lb Nm Er Nd.
  - exists s, []. rewrite app_nil_r. repeat split; auto. intros sf _ _ _. exists [], []. repeat split; constructor.
  - inversion N as [|? ? Nl Nls]; subst. assert (Nd' := Nd). assert (Ei' := Ei).
    change (l :: ls) with ([l] ++ ls) in Nd, Ei. rewrite app_assoc in Nd, Ei.
    assert (Ndb : NoDup (map fst (label_table 0 before))) by (now apply nodup_before in Nd').
    assert (Nda : NoDup (map fst (label_table 0 (before ++ [l])))) by (now apply nodup_before in Nd).
    destruct (item_role before l ws H) as [(T & C & -> & R)|[(n & Id & R & C & ->)|(R & Ne & Ec & P)]].
    + destruct (IH Nls (bump s)) as (s' & new & Sc & E' & I' & A'); auto.
      * cbn. rewrite app_length, Ln. cbn. lia.
      * cbn. rewrite instruction_count_app, C, Li. lia.
      * rewrite label_table_app, Nat.add_0_l, T, app_nil_r. exact Lb.
      * exists s', new. cbn [scan_lines]. rewrite (step_of_view e s l _ Nl (st_empty e s l R)). cbn [obind].
        repeat split; auto. intros sf F Fl Fe. destruct (A' sf F Fl Fe) as (is1 & bl & B1 & B2 & B3 & B4). exists is1, bl.
        rewrite instruction_count_app, C, Nat.add_0_r in B1. repeat split; auto.
        cbn [combine filter fst]. unfold is_instruction at 1. rewrite R. exact B3.
    + destruct (identifier_facts n Id) as (G & _ & _ & M).
      assert (Lo : label_ok s n).
      { split; [exact G|]. destruct (assoc n (p_labels s)) as [k|] eqn:As; [|reflexivity]. exfalso.
        apply assoc_in in As. rewrite Lb in As. destruct (is_local n) eqn:Lc.
        - apply table_global in As. congruence.
        - rewrite label_table_app, map_app in Nda. cbn [label_table] in Nda. rewrite R, Lc in Nda. cbn [map fst] in Nda.
          apply NoDup_remove_2 in Nda. rewrite app_nil_r in Nda. apply Nda. now apply (in_map fst) in As. }
      destruct (is_local n) eqn:Lc.
      * destruct (IH Nls (add_local (bump s) n)) as (s' & new & Sc & E' & I' & A'); auto.
        -- cbn. rewrite app_length, Ln. cbn. lia.
        -- cbn. rewrite instruction_count_app, C, Li. lia.
        -- rewrite label_table_app. cbn [label_table]. rewrite R, Lc, app_nil_r. exact Lb.
        -- exists s', new. cbn [scan_lines]. rewrite (step_of_view e s l _ Nl (st_local e s l n R Lc Lo)). cbn [obind].
           repeat split; auto. intros sf F Fl Fe. destruct (A' sf F Fl Fe) as (is1 & bl & B1 & B2 & B3 & B4). exists is1, bl.
           rewrite instruction_count_app, C, Nat.add_0_r in B1. repeat split; auto.
           cbn [combine filter fst]. unfold is_instruction at 1. rewrite R. exact B3.
      * destruct (IH Nls (flush_locals e (add_label (bump s) n))) as (s' & new & Sc & E' & I' & A'); auto.
        -- cbn. rewrite app_length, Ln. cbn. lia.
        -- cbn. rewrite instruction_count_app, C, Li. lia.
        -- rewrite label_table_app, Nat.add_0_l. cbn [label_table]. rewrite R, Lc, <- Li, <- Lb. reflexivity.
        -- intros n' k' I. cbn in I. apply in_app_or in I as [I|[I|[]]]; [eauto|]. now injection I as <- _.
        -- exists s', new. cbn [scan_lines]. rewrite (step_of_view e s l _ Nl (st_global e s l n R Lc Lo)). cbn [obind].
           repeat split; auto. intros sf F Fl Fe. destruct (A' sf F Fl Fe) as (is1 & bl & B1 & B2 & B3 & B4). exists is1, bl.
           rewrite instruction_count_app, C, Nat.add_0_r in B1. repeat split; auto.
           cbn [combine filter fst]. unfold is_instruction at 1. rewrite R. exact B3.
    + assert (C : instruction_count [l] = 1%nat) by (unfold instruction_count; cbn [filter]; unfold is_instruction; rewrite R; reflexivity).
      destruct (P (bump s)) as (w & i & Pi & Ad); auto.
      { apply (after_ready e before l ls); [exact Ei'|]. split; [exact Ln|]. rewrite Li. apply instruction_count_le. }
      destruct (IH Nls (add_inst (add_warnings (bump s) w) i)) as (s' & new & Sc & E' & I' & A'); auto.
      * cbn. rewrite app_length, Ln. cbn. lia.
      * cbn. rewrite app_length, instruction_count_app, C, Li. reflexivity.
      * rewrite label_table_app. cbn [label_table]. rewrite R, app_nil_r. exact Lb.
      * exists s', ((S (p_line s), i) :: new). cbn [scan_lines]. rewrite (step_of_view e s l _ Nl (st_inst e s l w i R Pi)). cbn [obind].
        split; [exact Sc|]. split; [exact E'|]. split; [rewrite I'; cbn; now rewrite <- app_assoc|].
        intros sf F Fl Fe. destruct (A' sf F Fl Fe) as (is1 & bl & B1 & B2 & B3 & B4). 
        destruct (Ad sf F Fl Fe) as (i1 & D1 & D2); [rewrite Ei; exact Nd|]. exists (i1 :: is1), (ws :: bl).
        cbn [adjust_from]. rewrite Ln, D1. cbn [obind]. rewrite instruction_count_app, C, Nat.add_1_r in B1. rewrite B1. cbn [obind fst snd app].
        split; [reflexivity|]. split; [now constructor|]. split; [|cbn [List.concat]; congruence].
        cbn [combine filter fst]. unfold is_instruction at 1. rewrite R. cbn [map snd]. now f_equal.
Qed.
End Accept.

Theorem items_accepted rt m input wss : items (mk_parser rt m input) [] (lines input) wss -> distinct_labels (lines input) ->
  exists out, assemble rt m input = Ok out /\ words_of out = code_words (lines input) wss /\ get_bytes out = List.concat wss.
Proof.
  intros It D. set (e := mk_parser rt m input) in *.
  destruct (accept_scan e [] (lines input) wss It (nl_of_lines input) init_state) as (s & new & S & E & I & A); auto.
  - intros n k [].
  - destruct (scan_ok e _ (nl_of_lines input) _ _ S E) as (new' & I2 & C2 & T). cbn in T, I, I2.
    destruct (A (final e s)) as (is1 & bl & B1 & B2 & B3 & B4).
    { destruct (final_same e s) as (_ & F & _). now rewrite F. }
    { destruct (final_same e s) as (F & _). rewrite F. rewrite I2. rewrite <- (map_length fst), C2. apply instruction_lines_length. }
    { exists s. auto. }
    destruct (assemble_encodes (rt_oc rt) _ _ B2) as (out & O & W).
    exists out. split; [apply assemble_ok; exists s, is1; constructor; auto; rewrite I; exact B1|].
    split; [unfold words_of, code_words; now rewrite W, B3|].
    rewrite <- B4, <- W. unfold get_bytes. rewrite flat_map_concat_map. reflexivity.
Qed.
